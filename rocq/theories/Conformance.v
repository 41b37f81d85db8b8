(** The repository's own test expectations replayed on the model by [vm_compute].  These are tests that support the
    faithfulness of the model; they are not proofs of any claim.  The long runs (tens of thousands of loop iterations) are
    evaluated once at build time ([Eval vm_compute]) and the stored outcome is compared with the expected figures. *)
From Coq Require Import ZArith List Bool String.
From Verif Require Import Base DecimalModel DecimalStr MathModel PoolModel BitmapModel ChainModel Concrete.
Import ListNotations.
Open Scope Z_scope.

(** ** decimal.rs unit tests *)

(** decimal.rs:1433-1443 *)
Example t_mul : d_mul (mkD 1234 3 false) (mkD 4321 5 false) = Ok (mkD 53 3 false).
Proof. vm_compute. reflexivity. Qed.
(** decimal.rs:1661-1681 *)
Example t_div : d_div (mkD 20 8 false) (mkD 2 3 false) = Ok (mkD 10000 8 false)
  /\ d_div (mkD 20 8 false) (mkD 3 3 false) = Ok (mkD 6666 8 false).
Proof. vm_compute. split; reflexivity. Qed.
(** decimal.rs:1130-1166 *)
Example t_div_up : d_div_up (mkD 2000000 6 false) (mkD 3000000 6 false) = Ok (mkD 666667 6 false).
Proof. vm_compute. reflexivity. Qed.
(** decimal.rs:1356-1375 *)
Example t_abs : d_abs (mkD 4269420 5 false) = Ok 42 /\ d_abs_up (mkD 4269420 5 false) = Ok 43.
Proof. vm_compute. split; reflexivity. Qed.
(** decimal.rs:1405-1431 *)
Example t_to_scale_up : to_scale_up (mkD 42 2 false) 1 = Ok (mkD 5 1 false)
  /\ to_scale_up (mkD 123 4 false) 0 = Ok (mkD 1 0 false).
Proof. vm_compute. split; reflexivity. Qed.
(** decimal.rs:1170-1232 *)
Example t_adv : d_mul (from_u128 17134659154348278833) (from_u128 11676758639919526015)
    = Ok (from_u128 200077279322612464128594731044417340495)
  /\ (let* r := d_pow_dec (D12 42000000000000) (D12 1500000000000) in to_scale r 6) = Ok (mkD 272191109 6 false)
  /\ (let* r := d_pow_dec (D12 42000000000000) (D12 1500000000000) in to_scale_up r 6) = Ok (mkD 272191110 6 false)
  /\ d_sqrt (D12 (2 * 10 ^ 12)) = Ok (D12 1414213562373)
  /\ d_sqrt (mkD (2 * 10 ^ 8) 8 false) = Ok (mkD 141421356 8 false).
Proof. vm_compute. repeat split. Qed.
(** decimal.rs:1701-1795 *)
Example t_str : d_to_string (mkD 0 6 false) = "0.000000"%string
  /\ d_to_string (mkD 500000 6 true) = "-0.500000"%string
  /\ from_str "1e6" = Ok (mkD 1000000000000 6 false)
  /\ from_str "-1.5e6" = Ok (mkD 1500000000000 6 true)
  /\ from_str "1.5e9" = Ok (mkD 1500000000000000000 9 false)
  /\ from_str "-42" = Ok (mkD 42 0 true)
  /\ from_str "42.500420" = Ok (mkD 42500420 6 false).
Proof. vm_compute. repeat split. Qed.
(** decimal.rs:2500-2580; the oracle values are floor(|log2 x| * 10^scale) *)
Example t_ln : d_ln (fun _ _ => (9143199, true)) (mkD 93859063 8 false) = Ok (mkD 6337585 8 true)
  /\ d_ln (fun _ _ => (152003, true)) (mkD 900000 6 false) = Ok (mkD 105360 6 true)
  /\ d_ln (fun _ _ => (152003093445, true)) (D12 900000000000) = Ok (mkD 105360515657 12 true)
  /\ d_ln (fun _ _ => (3321928094887, true)) (D12 100000000000) = Ok (mkD 2302585092991 12 true)
  /\ d_ln (fun _ _ => (3321928094887, false)) (units 10) = Ok (D12 2302585092924).
Proof. vm_compute. repeat split. Qed.

(** ** tests/decimal_cl_math_test.rs *)
Example t_problem1 :
  (let* rpa := root 1500 in let* rp := root 2000 in let* rpb := root 2500 in
   let* lx := liq_x_only (units 2) rp rpb in
   let* y := y_from_l_rp_rng lx rp rpa rpb in Ok (lx, y)) = Ok (D12 847213595499815, D12 5076102359478491).
Proof. vm_compute. reflexivity. Qed.
Example t_problem2 :
  (let* q := d_div (units 4000) (units 2) in let* rp := unwrap (d_sqrt q) in let* rpb := root 3000 in
   let* a := rpa_from_x_y_rp_rpb (units 2) (units 4000) rp rpb in
   let* lx := liq_x_only (units 2) rp rpb in
   let* b := rpa_from_l_rp_y lx rp (units 4000) in Ok (a, b)) = Ok (D12 36514837167010, D12 36514837167010).
Proof. vm_compute. reflexivity. Qed.
Example t_problem3 :
  (let* q := d_div (units 4000) (units 2) in let* rp := unwrap (d_sqrt q) in
   let* rpn := root 2500 in
   let* q := d_div (units 4000) (units 3) in let* rpa := unwrap (d_sqrt q) in
   let* rpb := root 3000 in
   let* l := liq_from_x_y_rp_rng (units 2) (units 4000) rp rpa rpb in
   let* x := x_from_l_rp_rng l rpn rpa rpb in
   let* y := y_from_l_rp_rng l rpn rpa rpb in
   let* dx := dx_from_l_drp l rp rpn in
   let* dy := dy_from_l_drp l rp rpn in
   let* x' := d_add (units 2) dx in
   let* y' := d_add (units 4000) dy in
   Ok (x, y, x', y'))
  = Ok (D12 849364120474, D12 6572900043969071, D12 849364120475, D12 6572900043969612).
Proof. vm_compute. reflexivity. Qed.
(** lines 8-25 *)
Definition t_tick_run := Eval vm_compute in (let* rp := root 4000 in rp_to_tick_loop rp false 0).
Example t_tick : t_tick_run = Ok 82944
  /\ tk_to_possible_tk 82944 30 false = Ok 82920 /\ tk_to_possible_tk 82945 30 true = Ok 82950.
Proof. vm_compute. repeat split. Qed.

(** ** tests/decimal_cpmm_cl_test.rs and tests/decimal_hmm_fees_test.rs *)
Definition mk_pool (p a b x y : Z) (who : string) : res pool :=
  let* rp := root p in let* rpa := root a in let* rpb := root b in
  let* pl := pool_new rp 1 (units 0) (units 0) in
  let* (pl, _) := deposit pl who (units x) (units y) rpa rpb in
  Ok pl.

(** the pool of test_deposit, computed once *)
Definition pool_dep : res pool := Eval vm_compute in mk_pool 2000 1333 3000 2 4000 "abc".
(** cpmm test_deposit *)
Definition t_deposit_run := Eval vm_compute in (let* p := pool_dep in Ok (rx p, ry p)).
Example t_deposit : t_deposit_run = Ok (D12 1999275813881, D12 3999999999999996).
Proof. reflexivity. Qed.
(** test_single_x_swap_no_fees *)
Definition t_swap_x_run := Eval vm_compute in
  (let* p := pool_dep in
   let* (q, o) := execute_swap_from_x no_orc p (units 3) (units 0) in
   Ok (so_recv o, so_send o, ry q)).
Example t_swap_x : t_swap_x_run = Ok (D12 2449955017843, mkD 3999999999999996 12 true, D12 0).
Proof. reflexivity. Qed.
(** test_single_y_swap_no_fees *)
Definition t_swap_y_run := Eval vm_compute in
  (let* p := pool_dep in
   let* (q, o) := execute_swap_from_y no_orc p (units 6000) (units 0) in
   Ok (so_recv o, so_send o, rx q)).
Example t_swap_y : t_swap_y_run = Ok (D12 4896836737493549, mkD 1999275813881 12 true, D12 0).
Proof. reflexivity. Qed.
(** test_breaking_trades_x: liquidity ends at zero, an extra swap does nothing *)
Definition t_breaking_x_run := Eval vm_compute in
  (let* p := pool_dep in
   let* (p, _) := execute_swap_from_x no_orc p (units 1) (units 0) in
   let* (p, _) := execute_swap_from_x no_orc p (units 1) (units 0) in
   let* (p, _) := execute_swap_from_x no_orc p (units 1) (units 0) in
   let* (q, o) := execute_swap_from_x no_orc p (units 1) (units 0) in
   Ok (is_zero (glbl_liq p), so_recv o, so_send o)).
Example t_breaking_x : t_breaking_x_run = Ok (true, D12 0, D12 0).
Proof. reflexivity. Qed.
(** test_pool_starts_w_no_liq_in_range_x *)
Definition t_gap_x_run := Eval vm_compute in
  (let* p := mk_pool 150 100 140 4 600 "dude" in
   let* (q, o) := execute_swap_from_x no_orc p (units 2) (units 0) in
   Ok (glbl_liq p, so_recv o, glbl_liq q)).
Example t_gap_x : t_gap_x_run = Ok (D12 0, units 2, D12 327576681858244).
Proof. reflexivity. Qed.
(** test_withdraw *)
Definition t_withdraw_run := Eval vm_compute in
  (let* p := mk_pool 200 174 250 4 600 "dude" in
   let* (q, _) := execute_swap_from_x no_orc p (units 20) (units 0) in
   let* rpa := root 174 in let* rpb := root 250 in
   let* (q, _) := withdraw q "dude" (glbl_liq p) rpa rpb in
   Ok (glbl_liq p, List.length (positions q), List.length (ticks q), glbl_liq q, is_positive (rx q), is_zero (ry q))).
Example t_withdraw : t_withdraw_run = Ok (D12 535700094901963, 0%nat, 0%nat, D12 0, true, true).
Proof. reflexivity. Qed.
(** test_hmm_no_fees *)
Definition t_hmm_run := Eval vm_compute in
  (let* p := pool_dep in
   let p := with_params p (D12 1500000000000) (D12 0) in
   let* o1 := root 1500 in let* o2 := root 1700 in
   let* (p1, r1) := execute_swap_from_x no_orc p (units 3) o1 in
   let* e1 := d_pow (glbl_rp p1) 2 in
   let* (p2, r2) := execute_swap_from_y no_orc p1 (units 3955) o2 in
   let* e2 := d_pow (glbl_rp p2) 2 in
   Ok (y_adj p1, e1, so_avg r1, x_adj p2, y_adj p2, e2, so_avg r2)).
Example t_hmm : t_hmm_run = Ok (D12 300041649746282, D12 1332937085253129, D12 1510214809376886,
        D12 133871212606, D12 300041649746282, D12 1991582365986590, D12 1724412033919077).
Proof. reflexivity. Qed.
(** test_fees (amount 1): the reported fee is recv_amount * fee_rate *)
Definition t_fees_run := Eval vm_compute in
  (let* p := pool_dep in
   let rate := D12 3000000000 in
   let p := with_params p (D12 1500000000000) rate in
   let* o1 := root 1500 in
   let* (q, o) := execute_swap_from_x no_orc p (units 1) o1 in
   let* m := d_mul (so_recv o) rate in
   let* rpa := root 1333 in let* rpb := root 3000 in
   let* (r, _) := withdraw q "abc" (glbl_liq p) rpa rpb in
   let* pots := d_add (x_fee r) (y_adj r) in
   let* small := d_lt pots (D12 1000) in
   Ok (d_struct_eqb m (so_fee o), d_struct_eqb (x_fee q) (so_fee o), small, List.length (positions r))).
Example t_fees : t_fees_run = Ok (true, true, true, 0%nat).
Proof. reflexivity. Qed.

(** ** tests/hmmcl-sandbox.ts *)
Definition chain_setup : list instr :=
  [ IInitPool 76012; IInitBitmap; IInitTick 71955; IInitTick 80067; IInitTick 76012;
    ICreatePosition 1 71955 80067; IDeposit 1 71955 80067 76012 2 4000 (HUser 1) ].
Definition chain0 : cstate := genesis [(HUser 1, 1000000)] [(HUser 1, 1000000)].
Definition t_chain_deposit_run := Eval vm_compute in
  (let s := run_txs chain0 chain_setup in
   (option_map cg_rp (c_pool s), option_map cg_liq (c_pool s),
    option_map cp_liq (cp_get (1, 71955, 80067) (c_pos s)),
    option_map (fun t => (ct_net t, ct_net_neg t)) (ct_get 71955 (c_ticks s)),
    option_map (fun t => (ct_net t, ct_net_neg t)) (ct_get 80067 (c_ticks s)),
    option_map (fun m => (bm_get m 0, bm_get m 5000)) (c_bitmap s))).
Example t_chain_deposit : t_chain_deposit_run = (Some 44719511943267, Some 487204723244326, Some 487204723244326,
     Some (487204723244326, 0), Some (487204723244326, 1), Some (Ok 1, Ok 1)).
Proof. reflexivity. Qed.
Definition t_chain_withdraw_run := Eval vm_compute in
  (let s := run_txs chain0 (chain_setup ++ [IWithdraw 1 71955 80067 76012 400]) in
   (option_map cg_liq (c_pool s),
    option_map cp_liq (cp_get (1, 71955, 80067) (c_pos s)),
    option_map (fun m => (bm_get m 0, bm_get m 5000)) (c_bitmap s))).
Example t_chain_withdraw : t_chain_withdraw_run = (Some 87204723244326, Some 87204723244326, Some (Ok 0, Ok 0)).
Proof. reflexivity. Qed.
