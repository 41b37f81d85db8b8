(** Model of the on-chain program: /repo/programs/hmmcl-sandbox/src/{lib.rs, state/*.rs, instructions/*.rs}.
    One pool (one LP mint).  Accounts are maps keyed by their PDA seeds; a failed instruction changes nothing. *)
From Coq Require Import ZArith List Bool.
From Verif Require Import Base DecimalModel MathModel BitmapModel.
Import ListNotations.
Open Scope Z_scope.

(** lib.rs:24-26 *)
Definition FEE_SCALE : Z := 12.
Definition LIQUIDITY_SCALE : Z := 12.
Definition ROOT_PRICE_SCALE : Z := 12.

(** state/fees.rs:5-13 *)
Record fee : Type := mkFee { fe_scale : Z; fe_fx : Z; fe_fy : Z; fe_hx : Z; fe_hy : Z }.

(** state/pool_state.rs:29-38 (the key/bump fields of PoolState are not modelled; [rp_scale] is the constant written
    at initialize_pool.rs:100 and never read afterwards) *)
Record cpool : Type := mkCPool { cg_liq : Z; cg_liq_scale : Z; cg_rp : Z; cg_tick : Z; cg_fee : fee }.

(** state/position_state.rs:8-17 *)
Record cpos : Type := mkCPos { cp_liq : Z; cp_scale : Z; cp_lower : Z; cp_upper : Z; cp_fee : fee }.

(** state/tick_state.rs:8-19 *)
Record ctick : Type := mkCTick
  { ct_net : Z; ct_net_scale : Z; ct_net_neg : Z; ct_gross : Z; ct_gross_scale : Z; ct_tick : Z; ct_fee : fee }.

(** Token accounts: one X, one Y and one LP account per user, plus the pool's vaults. *)
Inductive holder : Type := HUser (u : Z) | HVault.
Definition holder_eqb (a b : holder) : bool :=
  match a, b with
  | HUser u, HUser v => u =? v
  | HVault, HVault => true
  | _, _ => false
  end.
Definition ledger : Type := list (holder * Z).

(** position PDA seeds: (user, lower_tick, upper_tick), manage_position.rs:28-34 *)
Definition cpkey : Type := (Z * Z * Z)%type.
Definition cpkey_eqb (a b : cpkey) : bool :=
  let '(u, l, h) := a in let '(u', l', h') := b in (u =? u') && (l =? l') && (h =? h').

Record cstate : Type := mkCS
  { c_pool : option cpool;
    c_bitmap : option bitmap;
    c_ticks : list (Z * ctick);
    c_pos : list (cpkey * cpos);
    c_x : ledger; c_y : ledger; c_lp : ledger;
    c_lp_supply : Z }.

(** ** Account maps *)
Fixpoint ct_get (k : Z) (m : list (Z * ctick)) : option ctick :=
  match m with [] => None | (k', v) :: r => if k =? k' then Some v else ct_get k r end.
Fixpoint ct_set (k : Z) (v : ctick) (m : list (Z * ctick)) : list (Z * ctick) :=
  match m with
  | [] => [(k, v)]
  | (k', v') :: r => if k =? k' then (k, v) :: r else (k', v') :: ct_set k v r
  end.
Fixpoint cp_get (k : cpkey) (m : list (cpkey * cpos)) : option cpos :=
  match m with [] => None | (k', v) :: r => if cpkey_eqb k k' then Some v else cp_get k r end.
Fixpoint cp_set (k : cpkey) (v : cpos) (m : list (cpkey * cpos)) : list (cpkey * cpos) :=
  match m with
  | [] => [(k, v)]
  | (k', v') :: r => if cpkey_eqb k k' then (k, v) :: r else (k', v') :: cp_set k v r
  end.

(** ** SPL token program: checked u64 balances *)
Fixpoint bal (h : holder) (l : ledger) : Z :=
  match l with [] => 0 | (h', v) :: r => if holder_eqb h h' then v else bal h r end.
Fixpoint set_bal (h : holder) (v : Z) (l : ledger) : ledger :=
  match l with
  | [] => [(h, v)]
  | (h', v') :: r => if holder_eqb h h' then (h, v) :: r else (h', v') :: set_bal h v r
  end.

Definition spl_transfer (l : ledger) (from to : holder) (amt : Z) : res ledger :=
  if bal from l <? amt then Err RuntimeError
  else if holder_eqb from to then Ok l
  else if U64 <=? bal to l + amt then Err RuntimeError
  else let l1 := set_bal from (bal from l - amt) l in
       Ok (set_bal to (bal to l1 + amt) l1).

Definition spl_mint (l : ledger) (supply : Z) (to : holder) (amt : Z) : res (ledger * Z) :=
  if U64 <=? supply + amt then Err RuntimeError
  else if U64 <=? bal to l + amt then Err RuntimeError
  else Ok (set_bal to (bal to l + amt) l, supply + amt).

Definition spl_burn (l : ledger) (supply : Z) (from : holder) (amt : Z) : res (ledger * Z) :=
  if bal from l <? amt then Err RuntimeError
  else if supply <? amt then Err RuntimeError
  else Ok (set_bal from (bal from l - amt) l, supply - amt).

(** ** manage_fee.rs *)

(** manage_fee.rs:4-21 *)
Definition c_fee_below_above (tick glbl_tick : Z) (fg f0 : decimal) : res (decimal * decimal) :=
  let* r := unwrap (d_sub fg f0) in
  if tick <=? glbl_tick then Ok (f0, r) else Ok (r, f0).

(** manage_fee.rs:23-43 *)
Definition c_fee_within (lower upper glbl_tick : Z) (fg f0_lwr f0_upr : decimal) : res decimal :=
  let* (bl, al) := c_fee_below_above lower glbl_tick fg f0_lwr in
  let* (bu, au) := c_fee_below_above upper glbl_tick fg f0_upr in
  let* sl := unwrap (d_add bl al) in
  let* su := unwrap (d_add bu au) in
  let* _ := assert (d_struct_eqb sl su) in
  let* a := unwrap (d_sub fg bl) in
  unwrap (d_sub a au).

(** manage_fee.rs:45-93 *)
Definition compute_latest_fee (lower upper current : Z) (g l u : fee) (scale : Z) : res fee :=
  let* fx := c_fee_within lower upper current (mkD (fe_fx g) (fe_scale g) false)
               (mkD (fe_fx l) (fe_scale l) false) (mkD (fe_fx u) (fe_scale u) false) in
  let* fy := c_fee_within lower upper current (mkD (fe_fy g) (fe_scale g) false)
               (mkD (fe_fy l) (fe_scale l) false) (mkD (fe_fy u) (fe_scale u) false) in
  let* hx := c_fee_within lower upper current (mkD (fe_hx g) (fe_scale g) false)
               (mkD (fe_hx l) (fe_scale l) false) (mkD (fe_hx u) (fe_scale u) false) in
  let* hy := c_fee_within lower upper current (mkD (fe_hy g) (fe_scale g) false)
               (mkD (fe_hy l) (fe_scale l) false) (mkD (fe_hy u) (fe_scale u) false) in
  let* fx := to_scale fx scale in
  let* fy := to_scale fy scale in
  let* hx := to_scale hx scale in
  let* hy := to_scale hy scale in
  Ok (mkFee scale (dval fx) (dval fy) (dval hx) (dval hy)).

(** ** manage_tick.rs:50-100 *)
Definition c_update_tick (ts : ctick) (tick : Z) (d : decimal) (upper : bool) : res ctick :=
  if negb (tick =? ct_tick ts) then Err TickMismatch
  else
    let* net := to_compute_scale (mkD (ct_net ts) (ct_net_scale ts) (negb (ct_net_neg ts =? 0))) in
    let* net := unwrap (d_add net (if upper then d_neg d else d)) in
    let* gross := to_compute_scale (mkD (ct_gross ts) (ct_gross_scale ts) false) in
    let* ng := unwrap (d_add gross d) in
    if dneg ng then Err NegativeTickGrossLiquidity
    else Ok (mkCTick (dval net) (dscale net) (if dneg net then 1 else 0) (dval ng) (dscale ng) (ct_tick ts) (ct_fee ts)).

(** ** manage_position.rs:77-111 *)
Definition c_update_position (ps : cpos) (lt ut : ctick) (d : decimal) (lower upper : Z) (nf : fee)
  : res (cpos * ctick * ctick) :=
  let* l := to_compute_scale (mkD (cp_liq ps) (cp_scale ps) false) in
  let* nl := unwrap (d_add l d) in
  if dneg nl then Err InsufficientPositionLiquidity
  else
    let ps' := mkCPos (dval nl) (dscale nl) (cp_lower ps) (cp_upper ps) nf in
    let* lt' := unwrap (c_update_tick lt lower d false) in
    let* ut' := unwrap (c_update_tick ut upper d true) in
    Ok (ps', lt', ut').

(** deposit.rs:246-263 = withdraw.rs:224-241 *)
Definition c_update_global (g : cpool) (lower upper current : Z) (d : decimal) : res cpool :=
  let gl := mkD (cg_liq g) (cg_liq_scale g) false in
  if (lower <=? current) && (current <? upper) then
    let* n := unwrap (d_add gl d) in
    if dneg n then Err NegativeGlobalLiquidity
    else Ok (mkCPool (dval n) (dscale n) (cg_rp g) (cg_tick g) (cg_fee g))
  else Ok g.

(** Anchor's exit: [mut] accounts are serialised back in declaration order (deposit.rs:52-75): position, lower tick,
    upper tick, current tick.  [current_tick_state] is never modified by the handlers, so its copy is the one read at
    the start of the instruction; when it is the same account as a bound, the stale copy is what remains. *)
Definition write_back (s : cstate) (g : cpool) (bm : bitmap) (k : cpkey) (ps : cpos)
    (lower upper current : Z) (lt ut cur : ctick) (x y lp : ledger) (supply : Z) : cstate :=
  mkCS (Some g) (Some bm)
       (ct_set current cur (ct_set upper ut (ct_set lower lt (c_ticks s))))
       (cp_set k ps (c_pos s)) x y lp supply.

(** Account lookup and constraints shared by Deposit (deposit.rs:21-132) and Withdraw (withdraw.rs:23-134) *)
Definition load_accounts (s : cstate) (user lower upper current : Z)
  : res (cpool * bitmap * cpos * ctick * ctick * ctick) :=
  match c_pool s, c_bitmap s, cp_get (user, lower, upper) (c_pos s),
        ct_get lower (c_ticks s), ct_get upper (c_ticks s), ct_get current (c_ticks s) with
  | Some g, Some bm, Some ps, Some lt, Some ut, Some cur =>
      if (lower <? upper)
         && (ct_tick lt =? cp_lower ps) && (ct_tick ut =? cp_upper ps)
         && (ct_tick cur =? current) && (ct_tick cur =? cg_tick g)
      then Ok (g, bm, ps, lt, ut, cur)
      else Err RuntimeError
  | _, _, _, _, _, _ => Err RuntimeError
  end.

(** [new_fee.f_x + new_fee.h_x] on u128, release build (wraps). *)
Definition wadd (a b : Z) : Z := (a + b) mod U128.

(** deposit.rs:178-324.  [lp_to] is the owner of the [lp_token_to] account (any LP token account is accepted). *)
Definition i_deposit (s : cstate) (user lower upper current xa ya : Z) (lp_to : holder) : res cstate :=
  let* (g, bm, ps, lt, ut, cur) := load_accounts s user lower upper current in
  let* x := to_compute_scale (from_u64 xa) in
  let* y := to_compute_scale (from_u64 ya) in
  let* a := tick_to_rp lower in
  let* b := tick_to_rp upper in
  let* rp := tick_to_rp current in
  let* d := liq_from_x_y_rp_rng x y rp a b in
  if dneg d then Err NegativeDepositLiquidity
  else
    let* bm := (if ct_gross lt =? 0 then activate_tick bm 0 else Ok bm) in
    let* bm := (if ct_gross ut =? 0 then activate_tick bm 40000 else Ok bm) in
    let* x_in := x_from_l_rp_rng d rp a b in
    let* y_in := y_from_l_rp_rng d rp a b in
    let* nf := compute_latest_fee lower upper current (cg_fee g) (ct_fee lt) (ct_fee ut) (fe_scale (cp_fee ps)) in
    let* (ps', lt', ut') := unwrap (c_update_position ps lt ut d lower upper nf) in
    let* g' := c_update_global g lower upper current d in
    let* fx := to_scale (mkD (wadd (fe_fx nf) (fe_hx nf)) (fe_scale nf) false) (dscale x_in) in
    let* xd := unwrap (d_sub x_in fx) in
    let* fy := to_scale (mkD (wadd (fe_fy nf) (fe_hy nf)) (fe_scale nf) false) (dscale y_in) in
    let* yd := unwrap (d_sub y_in fy) in
    let* ex := unwrap (d_gt xd x) in
    if ex then Err DepositAmountExceeded
    else
      let* ey := unwrap (d_gt yd y) in
      if ey then Err DepositAmountExceeded
      else
        let* n := d_abs d in
        let* (lp, sup) := spl_mint (c_lp s) (c_lp_supply s) lp_to n in
        let* ax := d_abs xd in
        let* lx := spl_transfer (c_x s) (HUser user) HVault ax in
        let* ay := d_abs yd in
        let* ly := spl_transfer (c_y s) (HUser user) HVault ay in
        Ok (write_back s g' bm (user, lower, upper) ps' lower upper current lt' ut' cur lx ly lp sup).

(** withdraw.rs:168-296.  The burned LP account belongs to [user] (the burn authority; token delegation is not modelled). *)
Definition i_withdraw (s : cstate) (user lower upper current amt : Z) : res cstate :=
  let* (g, bm, ps, lt, ut, cur) := load_accounts s user lower upper current in
  let* dp := to_compute_scale (from_u64 amt) in
  let d := d_neg dp in
  let* a := tick_to_rp lower in
  let* b := tick_to_rp upper in
  let* rp := tick_to_rp current in
  let* nf := compute_latest_fee lower upper current (cg_fee g) (ct_fee lt) (ct_fee ut) (fe_scale (cp_fee ps)) in
  let* (ps', lt', ut') := unwrap (c_update_position ps lt ut d lower upper nf) in
  let* bm := BitmapModel.unset_tick bm 0 in
  let* bm := BitmapModel.unset_tick bm 40000 in
  let* g' := c_update_global g lower upper current d in
  let* x_out := x_from_l_rp_rng (d_neg d) rp a b in
  let* y_out := y_from_l_rp_rng (d_neg d) rp a b in
  let* fx := to_scale (mkD (wadd (fe_fx nf) (fe_hx nf)) (fe_scale nf) false) (dscale x_out) in
  let* xc := unwrap (d_add x_out fx) in
  let* fy := to_scale (mkD (wadd (fe_fy nf) (fe_hy nf)) (fe_scale nf) false) (dscale y_out) in
  let* yc := unwrap (d_add y_out fy) in
  let* (lp, sup) := spl_burn (c_lp s) (c_lp_supply s) (HUser user) amt in
  let* ax := d_abs xc in
  let* lx := spl_transfer (c_x s) HVault (HUser user) ax in
  let* ay := d_abs yc in
  let* ly := spl_transfer (c_y s) HVault (HUser user) ay in
  Ok (write_back s g' bm (user, lower, upper) ps' lower upper current lt' ut' cur lx ly lp sup).

(** initialize_pool.rs:76-108 ([init] fails if the account exists; account data start zeroed) *)
Definition i_init_pool (s : cstate) (tick : Z) : res cstate :=
  match c_pool s with
  | Some _ => Err RuntimeError
  | None =>
      let* rp := tick_to_rp tick in
      let* rp := to_scale rp ROOT_PRICE_SCALE in
      Ok (mkCS (Some (mkCPool 0 LIQUIDITY_SCALE (dval rp) tick (mkFee FEE_SCALE 0 0 0 0)))
               (c_bitmap s) (c_ticks s) (c_pos s) (c_x s) (c_y s) (c_lp s) (c_lp_supply s))
  end.

(** manage_bitmap.rs:29-35 *)
Definition i_init_bitmap (s : cstate) : res cstate :=
  match c_pool s, c_bitmap s with
  | Some _, None =>
      Ok (mkCS (c_pool s) (Some bm_default) (c_ticks s) (c_pos s) (c_x s) (c_y s) (c_lp s) (c_lp_supply s))
  | _, _ => Err RuntimeError
  end.

(** manage_tick.rs:37-48 *)
Definition i_init_tick (s : cstate) (tick : Z) : res cstate :=
  match c_pool s, ct_get tick (c_ticks s) with
  | Some _, None =>
      Ok (mkCS (c_pool s) (c_bitmap s)
               (ct_set tick (mkCTick 0 LIQUIDITY_SCALE 0 0 LIQUIDITY_SCALE tick (mkFee FEE_SCALE 0 0 0 0)) (c_ticks s))
               (c_pos s) (c_x s) (c_y s) (c_lp s) (c_lp_supply s))
  | _, _ => Err RuntimeError
  end.

(** manage_position.rs:14-75 *)
Definition i_create_position (s : cstate) (user lower upper : Z) : res cstate :=
  match c_pool s, cp_get (user, lower, upper) (c_pos s), ct_get lower (c_ticks s), ct_get upper (c_ticks s) with
  | Some _, None, Some _, Some _ =>
      if lower <? upper then
        Ok (mkCS (c_pool s) (c_bitmap s) (c_ticks s)
                 (cp_set (user, lower, upper)
                    (mkCPos 0 LIQUIDITY_SCALE lower upper (mkFee FEE_SCALE 0 0 0 0)) (c_pos s))
                 (c_x s) (c_y s) (c_lp s) (c_lp_supply s))
      else Err RuntimeError
  | _, _, _, _ => Err RuntimeError
  end.

(** Instructions: the six of lib.rs:29-90, plus what anyone may do directly with the SPL token program (transfer own
    X, Y or LP tokens to anybody including the vaults; burn own LP tokens).  Integer arguments are u64. *)
Inductive instr : Type :=
| IInitPool (tick : Z)
| IInitBitmap
| IInitTick (tick : Z)
| ICreatePosition (user lower upper : Z)
| IDeposit (user lower upper current xa ya : Z) (lp_to : holder)
| IWithdraw (user lower upper current amt : Z)
| ETransferX (from : Z) (to : holder) (amt : Z)
| ETransferY (from : Z) (to : holder) (amt : Z)
| ETransferLP (from : Z) (to : holder) (amt : Z)
| EBurnLP (from amt : Z).

Definition is_u64 (a : Z) : bool := (0 <=? a) && (a <? U64).

(** Argument decoding: amounts and ticks are u64. *)
Definition args_ok (i : instr) : bool :=
  match i with
  | IInitPool t => is_u64 t
  | IInitBitmap => true
  | IInitTick t => is_u64 t
  | ICreatePosition _ l u => is_u64 l && is_u64 u
  | IDeposit _ l u c xa ya _ => is_u64 l && is_u64 u && is_u64 c && is_u64 xa && is_u64 ya
  | IWithdraw _ l u c a => is_u64 l && is_u64 u && is_u64 c && is_u64 a
  | ETransferX _ _ a | ETransferY _ _ a | ETransferLP _ _ a | EBurnLP _ a => is_u64 a
  end.

Definition exec (s : cstate) (i : instr) : res cstate :=
  if negb (args_ok i) then Err RuntimeError
  else
  match i with
  | IInitPool t => i_init_pool s t
  | IInitBitmap => i_init_bitmap s
  | IInitTick t => i_init_tick s t
  | ICreatePosition u l h => i_create_position s u l h
  | IDeposit u l h c xa ya to => i_deposit s u l h c xa ya to
  | IWithdraw u l h c a => i_withdraw s u l h c a
  | ETransferX f t a =>
      let* x := spl_transfer (c_x s) (HUser f) t a in
      Ok (mkCS (c_pool s) (c_bitmap s) (c_ticks s) (c_pos s) x (c_y s) (c_lp s) (c_lp_supply s))
  | ETransferY f t a =>
      let* y := spl_transfer (c_y s) (HUser f) t a in
      Ok (mkCS (c_pool s) (c_bitmap s) (c_ticks s) (c_pos s) (c_x s) y (c_lp s) (c_lp_supply s))
  | ETransferLP f t a =>
      let* lp := spl_transfer (c_lp s) (HUser f) t a in
      Ok (mkCS (c_pool s) (c_bitmap s) (c_ticks s) (c_pos s) (c_x s) (c_y s) lp (c_lp_supply s))
  | EBurnLP f a =>
      let* (lp, sup) := spl_burn (c_lp s) (c_lp_supply s) (HUser f) a in
      Ok (mkCS (c_pool s) (c_bitmap s) (c_ticks s) (c_pos s) (c_x s) (c_y s) lp sup)
  end.

(** Transaction semantics: a failing instruction (error or panic) has no effect. *)
Definition tx (s : cstate) (i : instr) : cstate :=
  match exec s i with Ok s' => s' | _ => s end.
Definition run_txs (s : cstate) (is : list instr) : cstate := fold_left tx is s.

(** Genesis: nothing created yet; arbitrary X/Y holdings, no LP tokens. *)
Definition genesis (x y : ledger) : cstate := mkCS None None [] [] x y [] 0.
