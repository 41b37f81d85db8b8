(** The expectations of the repository's own tests of the f64 pool (/repo/programs/hmmcl-sandbox/tests/float_cpmm_cl_test.rs and
    float_hmm_fees_test.rs), replayed on the model.  These are tests, not proofs: evidence that FloatModel.v is faithful.  The mathematical library is a
    table of the values the GNU C library returns for the arguments that occur.  Decimal literals of the tests are written as the f64 they denote. *)
From Coq Require Import ZArith List Bool String Floats.SpecFloat.
From Verif Require Import Base FloatBase FloatModel.
Import ListNotations.
Open Scope Z_scope.

Definition c_same (a b : f64) : bool :=
  match a, b with
  | S754_finite s m e, S754_finite s' m' e' => Bool.eqb s s' && Pos.eqb m m' && (e =? e')
  | S754_zero _, S754_zero _ => true
  | _, _ => false
  end.
Fixpoint c_look (x : f64) (t : list (f64 * f64)) : f64 :=
  match t with [] => S754_nan | (a, b) :: r => if c_same x a then b else c_look x r end.
Fixpoint c_look2 (x y : f64) (t : list (f64 * f64 * f64)) : f64 :=
  match t with [] => S754_nan | (a, b, c) :: r => if c_same x a && c_same y b then c else c_look2 x y r end.
Definition c_ln : list (f64 * f64) := [
  ((S754_finite false 8901020307485223 (-47)), (S754_finite false 4669134858569486 (-50)));
  ((S754_finite false 4503824801722646 (-52)), (S754_finite false 7378328719181482 (-67)));
  ((S754_finite false 6293971818901970 (-47)), (S754_finite false 8557855371118302 (-51)));
  ((S754_finite false 5138364054626588 (-47)), (S754_finite false 8101060733504437 (-51)));
  ((S754_finite false 7708509705883379 (-47)), (S754_finite false 4507184249282610 (-50)));
  ((S754_finite false 5764388484905912 (-47)), (S754_finite false 8359937374304770 (-51)));
  ((S754_finite false 5317193476047066 (-47)), (S754_finite false 8178096765461393 (-51)));
  ((S754_finite false 6894700683028858 (-49)), (S754_finite false 5641473810845338 (-51)));
  ((S754_finite false 5629499534213120 (-49)), (S754_finite false 5184960683398422 (-51)));
  ((S754_finite false 6660913676665389 (-49)), (S754_finite false 5563794743265375 (-51)));
  ((S754_finite false 6211147716025569 (-49)), (S754_finite false 5406369239523204 (-51)));
  ((S754_finite false 7961314590657216 (-49)), (S754_finite false 5965375029419091 (-51)));
  ((S754_finite false 7447127886640932 (-49)), (S754_finite false 5815032046902575 (-51)));
  ((S754_finite false 8901020307485223 (-49)), (S754_finite false 6216612333056292 (-51)));
  ((S754_finite false 6166807764706703 (-49)), (S754_finite false 5390236507208137 (-51)));
  ((S754_finite false 6871689581011362 (-47)), (S754_finite false 8755603231169736 (-51)));
  ((S754_finite false 7449666945920306 (-47)), (S754_finite false 8937457039498611 (-51)));
  ((S754_finite false 7552766182682364 (-49)), (S754_finite false 5846749634655054 (-51)));
  ((S754_finite false 8537558756056862 (-49)), (S754_finite false 6122732987319427 (-51)));
  ((S754_finite false 7794832909044593 (-49)), (S754_finite false 5917787588179612 (-51)));
  ((S754_finite false 7759729602946284 (-49)), (S754_finite false 5907623914046497 (-51)));
  ((S754_finite false 8157919864278028 (-49)), (S754_finite false 6020307870712291 (-51)));
  ((S754_finite false 7425819894794647 (-49)), (S754_finite false 5808579880781584 (-51)));
  ((S754_finite false 6281193360650871 (-47)), (S754_finite false 8553278963667220 (-51)));
  ((S754_finite false 7036874417766400 (-46)), (S754_finite false 5184960683398422 (-50)));
  ((S754_finite false 6293971818901970 (-46)), (S754_finite false 5059342031579821 (-50)));
  ((S754_finite false 7867464773627462 (-46)), (S754_finite false 5310579335217022 (-50)));
  ((S754_finite false 7036871316988976 (-46)), (S754_finite false 5184960187273924 (-50)))].
Definition c_pow : list (f64 * f64 * f64) := [
  ((S754_finite false 4503824801722646 (-52)), (S754_finite false 5698219010949120 (-36)), (S754_finite false 8890060058301609 (-47)));
  ((S754_finite false 4503824801722646 (-52)), (S754_finite false 5223504865656832 (-36)), (S754_finite false 6293712216102417 (-47)));
  ((S754_finite false 4503824801722646 (-52)), (S754_finite false 4944709948538880 (-36)), (S754_finite false 5138243121543433 (-47)));
  ((S754_finite false 4503824801722646 (-52)), (S754_finite false 5502162343821312 (-36)), (S754_finite false 7708248099000472 (-47)));
  ((S754_finite false 4503824801722646 (-52)), (S754_finite false 6886791080574976 (-37)), (S754_finite false 6894404846716101 (-49)));
  ((S754_finite false 4503824801722646 (-52)), (S754_finite false 6329613563199488 (-37)), (S754_finite false 5629498293902017 (-49)));
  ((S754_finite false 4503824801722646 (-52)), (S754_finite false 6791958202679296 (-37)), (S754_finite false 6660615620277039 (-49)));
  ((S754_finite false 4503824801722646 (-52)), (S754_finite false 7282202949713920 (-37)), (S754_finite false 7960987093200161 (-49)));
  ((S754_finite false 4503824801722646 (-52)), (S754_finite false 7098721946828800 (-37)), (S754_finite false 7446963281917361 (-49)));
  ((S754_finite false 4503824801722646 (-52)), (S754_finite false 7588966693863424 (-37)), (S754_finite false 8900855709252555 (-49)));
  ((S754_finite false 4503824801722646 (-52)), (S754_finite false 6580164775378944 (-37)), (S754_finite false 6166711835103817 (-49)));
  ((S754_finite false 4503824801722646 (-52)), (S754_finite false 7137479731707904 (-37)), (S754_finite false 7552703896820373 (-49)));
  ((S754_finite false 4503824801722646 (-52)), (S754_finite false 7474342606667776 (-37)), (S754_finite false 8537340172559087 (-49)));
  ((S754_finite false 4503824801722646 (-52)), (S754_finite false 7211696766582784 (-37)), (S754_finite false 7759394332908048 (-49)));
  ((S754_finite false 4503824801722646 (-52)), (S754_finite false 7349273159008256 (-37)), (S754_finite false 8157614446020590 (-49)));
  ((S754_finite false 4503824801722646 (-52)), (S754_finite false 7090887926480896 (-37)), (S754_finite false 7425770709933958 (-49)));
  ((S754_finite false 5450739485872456 (-47)), (S754_finite false 6755399441055744 (-52)), (S754_finite false 8480437331667188 (-45)));
  ((S754_finite false 5450739485872456 (-47)), (S754_finite true 4503599627370496 (-53)), (S754_finite false 5789311885084800 (-55)));
  ((S754_finite false 6293712216102417 (-47)), (S754_finite true 4503599627370496 (-53)), (S754_finite false 5387672882942095 (-55)));
  ((S754_finite false 5802755299731529 (-47)), (S754_finite false 6755399441055744 (-52)), (S754_finite false 4657539000980918 (-44)));
  ((S754_finite false 5802755299731529 (-47)), (S754_finite false 4503599627370496 (-53)), (S754_finite false 7229562449497630 (-50)));
  ((S754_finite false 5138243121543433 (-47)), (S754_finite false 4503599627370496 (-53)), (S754_finite false 6803027239034402 (-50)));
  ((S754_finite false 4503824801722646 (-52)), (S754_finite false 6329613563199488 (-36)), (S754_finite false 7036871316988983 (-46)));
  ((S754_finite false 4503824801722646 (-52)), (S754_finite false 6176231691124736 (-36)), (S754_finite false 6293826521963023 (-46)));
  ((S754_finite false 4503824801722646 (-52)), (S754_finite false 6482926715797504 (-36)), (S754_finite false 7867246112814287 (-46)))].
Definition clm : libm := mkLibm (fun x => c_look x c_ln) (fun a b => c_look2 a b c_pow).
Definition rt (z : Z) : f64 := fsqrt (f_int z).
Definition fgt (a b : f64) : bool := flt b a.
Definition fge (a b : f64) : bool := fle b a.
Definition fee3 : f64 := (S754_finite false 6917529027641082 (-61)). (* 0.003 *)
Definition c15 : f64 := (S754_finite false 6755399441055744 (-52)). (* 1.5 *)
Definition sx (p : fpool) (d o : f64) := fexecute_swap_x clm 20 p d o.
Definition sy (p : fpool) (d o : f64) := fexecute_swap_y clm 20 p d o.
Definition dep (p : fpool) (u : string) (x y a b : Z) : res fpool :=
  let* (q, _, _) := fdeposit clm p u (f_int x) (f_int y) (rt a) (rt b) in Ok q.
Definition eth (u : string) (c fee : f64) : res fpool :=
  let* p := fpool_new clm (rt 2000) 1 c fee in dep p u 2 4000 1333 3000.
Definition yes (r : res bool) : bool := match r with Ok b => b | _ => false end.
Definition all (l : list bool) : bool := forallb (fun b => b) l.
Open Scope string_scope. Open Scope Z_scope.

(** float_cpmm_cl_test.rs:9-20 *)
Example t_problem1 : yes (
  let lx := f_liq_x_only (f_int 2) (rt 2000) (rt 2500) in
  Ok (all [feq lx (S754_finite false 7452169595696934 (-43)) (* 847.2135954999583 *); feq (f_y_from_l_rp_rng lx (rt 2000) (rt 1500) (rt 2500)) (S754_finite false 5581233568029319 (-40)) (* 5076.102359479882 *)])) = true.
Proof. vm_compute. reflexivity. Qed.
(** float_cpmm_cl_test.rs:22-39 *)
Example t_problem2 : yes (
  let lx := f_liq_x_only (f_int 2) (rt 2000) (rt 3000) in
  Ok (all [feq (fsquare (f_rpa_from_x_y_rp_rpb (f_int 2) (f_int 4000) (rt 2000) (rt 3000))) (S754_finite false 5864062014805333 (-42)) (* 1333.3333333333333 *);
           feq (fsquare (f_rpa_from_l_rp_y lx (rt 2000) (f_int 4000))) (S754_finite false 5864062014805335 (-42)) (* 1333.3333333333337 *)])) = true.
Proof. vm_compute. reflexivity. Qed.
(** float_cpmm_cl_test.rs:41-63 *)
Example t_problem3 : yes (
  let pa := fsqrt (fdiv (f_int 4000) (f_int 3)) in
  let l := f_liq_from_x_y_rp_rng (f_int 2) (f_int 4000) (rt 2000) pa (rt 3000) in
  Ok (all [feq (f_x_from_l_rp_rng l (rt 2500) pa (rt 3000)) (S754_finite false 7650391872941365 (-53)) (* 0.8493641204744679 *); feq (f_y_from_l_rp_rng l (rt 2500) pa (rt 3000)) (S754_finite false 7226980026553677 (-40)) (* 6572.9000439693455 *);
           feq (fadd (f_int 2) (f_dx_from_l_drp l (rt 2000) (rt 2500))) (S754_finite false 7650391872941372 (-53)) (* 0.8493641204744686 *); feq (fadd (f_int 4000) (f_dy_from_l_drp l (rt 2000) (rt 2500))) (S754_finite false 7226980026553678 (-40)) (* 6572.900043969346 *)])) = true.
Proof. vm_compute. reflexivity. Qed.
(** float_cpmm_cl_test.rs:65-77 *)
Example t_tick_is_under_rp : yes (
  let* p := fpool_new clm (rt 4000) 30 f_zero f_zero in
  Ok (all [fle (f_tick_to_rp clm (fglbl_tick p)) (fglbl_rp p); fle (fglbl_rp p) (rt 4000); f_rp_to_tick clm (rt 4000) false =? 82944; fglbl_tick p =? 82920;
           f_rp_to_possible_tk clm (rt 4000) 30 false =? 82920; f_rp_to_possible_tk clm (rt 4000) 30 true =? 82950])) = true.
Proof. vm_compute. reflexivity. Qed.
(** float_cpmm_cl_test.rs:103-123 *)
Example t_deposit : yes (
  let* p := eth "abc" f_zero f_zero in
  Ok (all [feq (fx p) (S754_finite false 9000153895831237 (-52)) (* 1.9984356160643284 *); feq (fy p) (S754_finite false 8792397641409769 (-41)) (* 3998.3195353714877 *); feq (fx_adj p) f_zero; feq (fx_fee p) f_zero; feq (fy_adj p) f_zero; feq (fy_fee p) f_zero])) = true.
Proof. vm_compute. reflexivity. Qed.
(** float_cpmm_cl_test.rs:154-188 *)
Example t_breaking_trades_x : yes (
  let* p := eth "abc" f_zero f_zero in
  let* (a, _) := sx p (f_int 3) f_zero in
  let* (b, _) := sx p (f_int 1) f_zero in let* (b, _) := sx b (f_int 1) f_zero in let* (b, _) := sx b (f_int 1) f_zero in
  let* (_, e) := sx a (S754_finite false 6755399441055744 (-53)) (* 0.75 *) f_zero in let* (_, e') := sx b (S754_finite false 6755399441055744 (-53)) f_zero in
  Ok (all [fge (fx b) (fx a); fge (fy b) (fy a); feq (fglbl_liq a) f_zero; feq (fglbl_liq b) f_zero; feq (fso_recv e) f_zero; feq (fso_send e) f_zero; feq (fso_recv e') f_zero; feq (fso_send e') f_zero])) = true.
Proof. vm_compute. reflexivity. Qed.
(** float_cpmm_cl_test.rs:190-217 *)
Example t_no_liq_in_range_x : yes (
  let* p := fpool_new clm (rt 150) 1 f_zero f_zero in let* p := dep p "dude" 4 600 100 140 in
  let* (q, r) := sx p (f_int 2) f_zero in
  Ok (all [feq (fx p) f_zero; fgt (fy p) f_zero; feq (fglbl_liq p) f_zero; fgt (fso_recv r) f_zero; flt (fso_send r) f_zero; fgt (fglbl_liq q) f_zero; fgt (fx q) f_zero;
           fgt (fsquare (fglbl_rp q)) (f_int 100); flt (fsquare (fglbl_rp q)) (f_int 150); feq (fglbl_liq q) (f_int 327)])) = true.
Proof. vm_compute. reflexivity. Qed.
(** float_cpmm_cl_test.rs:219-233 *)
Example t_gap_down : yes (
  let* p := fpool_new clm (rt 200) 1 f_zero f_zero in let* p := dep p "dude" 4 600 175 250 in let* p := dep p "mate" 0 400 120 150 in
  let* (q, r) := sx p (f_int 7) f_zero in Ok (all [fgt (fso_recv r) (f_int 4); flt (fso_recv r) (f_int 7)])) = true.
Proof. vm_compute. reflexivity. Qed.
(** float_cpmm_cl_test.rs:235-261 *)
Example t_single_y_swap : yes (
  let* p := eth "abc" f_zero f_zero in let* (q, r) := sy p (f_int 6000) f_zero in
  Ok (all [feq (fso_send r) (S754_finite true 9000153895822231 (-52)) (* -1.9984356160623287 *); feq (fso_recv r) (S754_finite false 5381866991963694 (-40)) (* 4894.779514837586 *);
           feq (fx q) (fadd (S754_finite false 9000153895831237 (-52)) (fso_send r)); feq (fy q) (fadd (S754_finite false 8792397641409769 (-41)) (fso_recv r)); feq (fx_adj q) f_zero; feq (fx_fee q) f_zero; feq (fy_adj q) f_zero; feq (fy_fee q) f_zero])) = true.
Proof. vm_compute. reflexivity. Qed.
(** float_cpmm_cl_test.rs:263-297 *)
Example t_breaking_trades_y : yes (
  let* p := eth "abc" f_zero f_zero in
  let* (a, _) := sy p (f_int 6000) f_zero in
  let* (b, _) := sy p (f_int 2000) f_zero in let* (b, _) := sy b (f_int 2000) f_zero in let* (b, _) := sy b (f_int 2000) f_zero in
  let* (_, e) := sy a (f_int 500) f_zero in let* (_, e') := sy b (f_int 500) f_zero in
  Ok (all [fge (fx b) (fx a); fge (fy b) (fy a); feq (fglbl_liq a) f_zero; feq (fglbl_liq b) f_zero; feq (fso_recv e) f_zero; feq (fso_send e) f_zero; feq (fso_recv e') f_zero; feq (fso_send e') f_zero])) = true.
Proof. vm_compute. reflexivity. Qed.
(** float_cpmm_cl_test.rs:299-326 *)
Example t_no_liq_in_range_y : yes (
  let* p := fpool_new clm (rt 150) 1 f_zero f_zero in let* p := dep p "dude" 4 600 180 230 in
  let* (q, r) := sy p (f_int 200) f_zero in
  Ok (all [fgt (fx p) f_zero; feq (fy p) f_zero; feq (fglbl_liq p) f_zero; fgt (fso_recv r) f_zero; flt (fso_send r) f_zero; fgt (fglbl_liq q) f_zero; fgt (fy q) f_zero;
           fgt (fsquare (fglbl_rp q)) (f_int 180); flt (fsquare (fglbl_rp q)) (f_int 230); feq (fglbl_liq q) (f_int 465)])) = true.
Proof. vm_compute. reflexivity. Qed.
(** float_cpmm_cl_test.rs:328-345 *)
Example t_gap_up : yes (
  let* p := fpool_new clm (rt 175) 1 f_zero f_zero in let* p := dep p "dude" 2 600 150 190 in let* p := dep p "mate" 3 0 210 250 in
  let* (q, r) := sy p (f_int 1500) f_zero in
  Ok (all [fgt (fso_recv r) (f_int 600); flt (fso_recv r) (f_int 1500); flt (fso_end r) (f_int 250); fgt (fsquare (fglbl_rp q)) (f_int 210)])) = true.
Proof. vm_compute. reflexivity. Qed.
(** float_cpmm_cl_test.rs:346-372 *)
Example t_withdraw : yes (
  let* p := fpool_new clm (rt 200) 1 f_zero f_zero in let* p := dep p "dude" 4 600 174 250 in
  let* (q, _) := sx p (f_int 20) f_zero in let* (w, _, _) := fwithdraw clm q "dude" (f_int 535) (rt 174) (rt 250) in
  Ok (all [Nat.eqb (List.length (fpositions p)) 1; Nat.eqb (List.length (fticks p)) 2; fge (fx p) f_zero; fge (fy p) f_zero; feq (fglbl_liq p) (f_int 535);
           Nat.eqb (List.length (fpositions w)) 0; Nat.eqb (List.length (fticks w)) 0; feq (fglbl_liq w) f_zero; fgt (fx w) f_zero; fgt (fy w) f_zero])) = true.
Proof. vm_compute. reflexivity. Qed.
(** float_hmm_fees_test.rs:9-97 *)
Example t_hmm_no_fees : yes (
  let* a := eth "abc" f_zero f_zero in let* h := eth "abc" c15 f_zero in
  let* (a1, ra) := sx a (f_int 3) (rt 1500) in let* (h1, rh) := sx h (f_int 3) (rt 1500) in
  let* (a2, sa) := sy a1 (f_int 3955) (rt 1700) in let* (h2, sh) := sy h1 (f_int 3955) (rt 1700) in
  Ok (all [feq (fx a) (fx h); feq (fy a) (fy h); feq (fso_recv rh) (fso_recv ra); flt (fneg (fso_send rh)) (fneg (fso_send ra)); feq (fso_end rh) (fso_end ra);
           flt (fso_avg rh) (fso_avg ra); feq (fso_adj rh) (fsub (fneg (fso_send ra)) (fneg (fso_send rh)));
           feq (fx h1) (fx a1); feq (fy h1) (fy a1); fglbl_tick h1 =? fglbl_tick a1; feq (fglbl_rp h1) (fglbl_rp a1);
           feq (fy_adj h1) (S754_finite false 5276175561494704 (-44)) (* 299.9158574252024 *); feq (fglbl_rp h1) (fsqrt (S754_finite false 5862320046310022 (-42)) (* 1332.937255554048 *)); feq (fso_avg rh) (S754_finite false 6641995378947655 (-42)) (* 1510.2149015882912 *);
           feq (fso_recv sh) (fso_recv sa); flt (fneg (fso_send sh)) (fneg (fso_send sa)); feq (fso_end sh) (fso_end sa); fgt (fso_end sh) (fso_avg sa);
           feq (fso_adj sh) (fsub (fneg (fso_send sa)) (fneg (fso_send sh)));
           feq (fx h2) (fx a2); feq (fy h2) (fy a2); fglbl_tick h2 =? fglbl_tick a2; feq (fglbl_rp h2) (fglbl_rp a2);
           feq (fx_adj h2) (S754_finite false 4821186911311424 (-55)) (* 0.13381481787398464 *); feq (fy_adj h2) (S754_finite false 5276175561494704 (-44)); feq (fglbl_rp h2) (fsqrt (S754_finite false 8760412403027070 (-42)) (* 1991.8871664747417 *)); feq (fso_avg sh) (S754_finite false 7584472537120053 (-42)) (* 1724.5093970632417 *)])) = true.
Proof. vm_compute. reflexivity. Qed.
(** float_hmm_fees_test.rs:99-174 *)
Example t_fees : yes (
  let* n := eth "abc" c15 f_zero in let* f := eth "abc" c15 fee3 in
  let* (n1, rn) := sx n (f_int 3) (rt 1500) in let* (f1, rf) := sx f (f_int 3) (rt 1500) in
  let* (w, _, _) := fwithdraw clm f1 "abc" (fglbl_liq f) (rt 1333) (rt 3000) in
  let d := fsub (fdiv (fso_fee rf) (fso_recv rf)) fee3 in
  Ok (all [feq (fx n) (fx f); fgt (f_int 3) (fx n); fgt (fso_recv rf) (fso_recv rn); feq (fso_send rf) (fso_send rn); feq (fso_end rf) (fso_end rn);
           flt (fsub (fadd (fx f) (fso_recv rf)) (fadd (fx f1) (fso_fee rf))) (fmul (fso_fee rf) (S754_finite false 4951760157141521 (-92)) (* 1e-12 *));
           feq (fadd (fx n) (fso_recv rn)) (fadd (fx n1) (fso_fee rn)); flt (fso_avg rf) (fso_avg rn); feq (fx_fee f1) (fso_fee rf); feq (fx_fee n1) (fso_fee rn);
           fgt (fx_fee f1) f_zero; feq (fx_fee n1) f_zero; flt d (S754_finite false 6044629098073146 (-79)) (* 1e-8 *); flt (fneg d) (S754_finite false 6044629098073146 (-79)); fgt (fadd (fx_fee f1) (fy_adj f1)) f_zero;
           feq (fadd (fx_fee w) (fy_adj w)) f_zero; Nat.eqb (List.length (fpositions w)) 0])) = true.
Proof. vm_compute. reflexivity. Qed.
(** float_hmm_fees_test.rs:176-199 *)
Example t_no_infinite_loop : yes (
  let* s := eth "alice" f_zero fee3 in let* (_, r) := sx s (f_int 3) (rt 1500) in
  let* p := fpool_new clm (rt 2000) 1 f_zero fee3 in let* p := dep p "bob" 0 4000 1333 2000 in let* p := dep p "carl" 2 0 2000 3000 in let* (_, r') := sx p (f_int 3) (rt 1500) in
  Ok (all [feq (fso_recv r) (fso_recv r'); feq (fso_send r) (fso_send r'); feq (fso_adj r) (fso_adj r'); feq (fso_fee r) (fso_fee r'); feq (fso_avg r) (fso_avg r'); feq (fso_end r) (fso_end r')])) = true.
Proof. vm_compute. reflexivity. Qed.
(** float_hmm_fees_test.rs:201-215 *)
Example t_small_trades : yes (
  let* p := fpool_new clm (rt 10000) 1 f_zero fee3 in let* p := dep p "aly" 1000 10000000 8000 12500 in
  let* (q, r) := sx p (S754_finite false 6189700196426901 (-89)) (* 1e-11 *) f_zero in
  Ok (all [fgt (fso_recv r) f_zero; flt (fso_send r) f_zero; fglbl_tick q <=? fglbl_tick p; flt (fsquare (fglbl_rp q)) (fsquare (fglbl_rp p))])) = true.
Proof. vm_compute. reflexivity. Qed.
