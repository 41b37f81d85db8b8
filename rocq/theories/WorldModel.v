(** The ledger as the program on chain sees it: any number of pools, mints and token accounts, and callers who choose which accounts to
    pass.  Models the account checks of the [#[derive(Accounts)]] structs; the arithmetic is that of ChainModel. *)
From Coq Require Import ZArith List Bool Lia.
From Verif Require Import Base DecimalModel MathModel BitmapModel ChainModel.
Import ListNotations.
Open Scope Z_scope.

(** Addresses.  A key is anybody's: users, mints, ordinary token accounts, accounts of other programs.  The others are derived from the seeds in
    initialize_pool.rs:23, 45, 55, 65; manage_bitmap.rs:19; manage_position.rs:28-34; manage_tick.rs:26.  Distinct terms stand for distinct
    addresses: C99 shows that they hash distinct byte strings; that the hash has no collisions is trusted, and that an address is
    used with one bump only ([find_program_address] at creation, the stored bump afterwards). *)
Inductive addr : Type :=
| Key (k : positive)
| PoolAt (lp_mint : addr)
| BitmapAt (pool : addr)
| PositionAt (pool user : addr) (lower upper : Z)
| TickAt (pool : addr) (tick : Z)
| VaultAt (mint lp_mint : addr)
| LpVaultAt (pool lp_mint : addr).
Definition addr_dec : forall a b : addr, {a = b} + {a <> b}.
Proof. decide equality; try apply Z.eq_dec; apply Pos.eq_dec. Defined.
Definition addr_eqb (a b : addr) : bool := if addr_dec a b then true else false.

(** state/pool_state.rs:11-19, the keys; bumps and [authority] are left out (no instruction reads [authority]) *)
Record pkeys : Type := mkPK { pk_x : addr; pk_y : addr; pk_lp : addr; pk_xv : addr; pk_yv : addr }.
(** What an account holds.  The first four belong to the program and are told apart by their discriminator, the last two to the SPL token
    program (delegates, freezing and closing are not modelled). *)
Inductive content : Type :=
| CPool (k : pkeys) (g : cpool)
| CBitmap (b : bitmap)
| CPos (p : cpos)
| CTick (t : ctick)
| CToken (mint owner : addr) (amount : Z)
| CMint (supply : Z) (authority : option addr).
Definition world : Type := list (addr * content).
Fixpoint wget (a : addr) (w : world) : option content :=
  match w with [] => None | (b, c) :: r => if addr_eqb a b then Some c else wget a r end.
Fixpoint wset (a : addr) (c : content) (w : world) : world :=
  match w with [] => [(a, c)] | (b, d) :: r => if addr_eqb a b then (a, c) :: r else (b, d) :: wset a c r end.

(** [Account<T>], [AccountLoader<T>]: the account exists and holds a [T] *)
Definition get_pool (w : world) (a : addr) : res (pkeys * cpool) := match wget a w with Some (CPool k g) => Ok (k, g) | _ => Err RuntimeError end.
Definition get_bitmap (w : world) (a : addr) : res bitmap := match wget a w with Some (CBitmap b) => Ok b | _ => Err RuntimeError end.
Definition get_pos (w : world) (a : addr) : res cpos := match wget a w with Some (CPos p) => Ok p | _ => Err RuntimeError end.
Definition get_tick (w : world) (a : addr) : res ctick := match wget a w with Some (CTick t) => Ok t | _ => Err RuntimeError end.
Definition get_token (w : world) (a : addr) : res (addr * addr * Z) := match wget a w with Some (CToken m o n) => Ok (m, o, n) | _ => Err RuntimeError end.
Definition get_mint (w : world) (a : addr) : res (Z * option addr) := match wget a w with Some (CMint s u) => Ok (s, u) | _ => Err RuntimeError end.
(** A constraint, or the comparison of an address with its seeds *)
Definition need (b : bool) : res unit := if b then Ok tt else Err RuntimeError.
(** [init]: the account must not exist *)
Definition create (w : world) (a : addr) (c : content) : res world := match wget a w with None => Ok (wset a c w) | Some _ => Err RuntimeError end.

(** ** SPL token program.  An amount is a u64; no frozen accounts, no delegates. *)
Definition t_transfer (w : world) (from to auth : addr) (amt : Z) : res world :=
  let* (m, o, n) := get_token w from in
  let* (m', o', n') := get_token w to in
  let* _ := need (is_u64 amt && addr_eqb m m' && addr_eqb o auth && (amt <=? n)) in
  if addr_eqb from to then Ok w
  else
    let* _ := need (n' + amt <? U64) in
    Ok (wset to (CToken m' o' (n' + amt)) (wset from (CToken m o (n - amt)) w)).
Definition t_mint (w : world) (mint to auth : addr) (amt : Z) : res world :=
  let* (s, a) := get_mint w mint in
  let* (m, o, n) := get_token w to in
  let* _ := need (is_u64 amt && addr_eqb m mint && match a with Some a => addr_eqb a auth | None => false end && (s + amt <? U64) && (n + amt <? U64)) in
  Ok (wset to (CToken m o (n + amt)) (wset mint (CMint (s + amt) a) w)).
Definition t_burn (w : world) (mint from auth : addr) (amt : Z) : res world :=
  let* (s, a) := get_mint w mint in
  let* (m, o, n) := get_token w from in
  let* _ := need (is_u64 amt && addr_eqb m mint && addr_eqb o auth && (amt <=? n) && (amt <=? s)) in
  Ok (wset from (CToken m o (n - amt)) (wset mint (CMint (s - amt) a) w)).

(** ** Instructions of the program *)
(** initialize_pool.rs:12-108.  [None] as mint authority panics at line 39. *)
Definition w_init_pool (w : world) (pool xm ym lpm xv yv lpv : addr) (tick : Z) : res world :=
  let* (_, _) := get_mint w xm in
  let* (_, _) := get_mint w ym in
  let* (_, a) := get_mint w lpm in
  let* _ := match a with Some a => need (addr_eqb a pool) | None => Panic end in
  let* _ := need (addr_eqb pool (PoolAt lpm) && addr_eqb xv (VaultAt xm lpm) && addr_eqb yv (VaultAt ym lpm) && addr_eqb lpv (LpVaultAt pool lpm)) in
  let* rp := tick_to_rp tick in
  let* rp := to_scale rp ROOT_PRICE_SCALE in
  let* w := create w pool (CPool (mkPK xm ym lpm xv yv) (mkCPool 0 LIQUIDITY_SCALE (dval rp) tick (mkFee FEE_SCALE 0 0 0 0))) in
  let* w := create w xv (CToken xm pool 0) in
  let* w := create w yv (CToken ym pool 0) in
  create w lpv (CToken lpm pool 0).

(** manage_bitmap.rs:6-35 *)
Definition w_init_bitmap (w : world) (pool bm : addr) : res world :=
  let* (k, _) := get_pool w pool in
  let* _ := need (addr_eqb pool (PoolAt (pk_lp k)) && addr_eqb bm (BitmapAt pool)) in
  create w bm (CBitmap bm_default).

(** manage_tick.rs:12-48 *)
Definition w_init_tick (w : world) (pool tk : addr) (tick : Z) : res world :=
  let* (k, _) := get_pool w pool in
  let* _ := need (addr_eqb pool (PoolAt (pk_lp k)) && addr_eqb tk (TickAt pool tick)) in
  create w tk (CTick (mkCTick 0 LIQUIDITY_SCALE 0 0 LIQUIDITY_SCALE tick (mkFee FEE_SCALE 0 0 0 0))).

(** manage_position.rs:14-75 *)
Definition w_create_position (w : world) (pool ps lt ut user : addr) (lower upper : Z) : res world :=
  let* (k, _) := get_pool w pool in
  let* _ := get_tick w lt in
  let* _ := get_tick w ut in
  let* _ := need (addr_eqb pool (PoolAt (pk_lp k)) && addr_eqb ps (PositionAt pool user lower upper) && (lower <? upper)
                  && addr_eqb lt (TickAt pool lower) && addr_eqb ut (TickAt pool upper)) in
  create w ps (CPos (mkCPos 0 LIQUIDITY_SCALE lower upper (mkFee FEE_SCALE 0 0 0 0))).

(** The accounts passed to Deposit (deposit.rs:23-132) and Withdraw (withdraw.rs:25-134); [a_lp] is [lp_token_to], resp. [lp_token_user_account]. *)
Record passed : Type := mkPassed { a_pool : addr; a_bm : addr; a_ps : addr; a_lt : addr; a_ut : addr; a_cur : addr; a_lpm : addr;
  a_ux : addr; a_uy : addr; a_xv : addr; a_yv : addr; a_lpv : addr; a_lp : addr }.
(** All constraints of Deposit, which are also those of Withdraw *)
Definition checked (w : world) (d : passed) (user : addr) (lower upper current : Z) : res (pkeys * cpool * bitmap * cpos * ctick * ctick * ctick) :=
  let* (k, g) := get_pool w (a_pool d) in
  let* bm := get_bitmap w (a_bm d) in
  let* ps := get_pos w (a_ps d) in
  let* lt := get_tick w (a_lt d) in
  let* ut := get_tick w (a_ut d) in
  let* cur := get_tick w (a_cur d) in
  let* (_, _) := get_mint w (a_lpm d) in
  let* (mx, ox, _) := get_token w (a_ux d) in
  let* (my, oy, _) := get_token w (a_uy d) in
  let* (_, _, _) := get_token w (a_xv d) in
  let* (_, _, _) := get_token w (a_yv d) in
  let* (_, _, _) := get_token w (a_lpv d) in
  let* (ml, _, _) := get_token w (a_lp d) in
  let* _ := need (addr_eqb (a_pool d) (PoolAt (pk_lp k)) && addr_eqb (a_bm d) (BitmapAt (a_pool d))) in
  let* _ := need (addr_eqb (a_ps d) (PositionAt (a_pool d) user lower upper) && (lower <? upper)) in
  let* _ := need (addr_eqb (a_lt d) (TickAt (a_pool d) lower) && (ct_tick lt =? cp_lower ps)) in
  let* _ := need (addr_eqb (a_ut d) (TickAt (a_pool d) upper) && (ct_tick ut =? cp_upper ps)) in
  let* _ := need (addr_eqb (a_cur d) (TickAt (a_pool d) current) && (ct_tick cur =? current) && (ct_tick cur =? cg_tick g)) in
  let* _ := need (addr_eqb (a_lpm d) (pk_lp k)) in
  let* _ := need (addr_eqb mx (pk_x k) && addr_eqb ox user && addr_eqb my (pk_y k) && addr_eqb oy user) in
  let* _ := need (addr_eqb (a_xv d) (VaultAt (pk_x k) (a_lpm d)) && addr_eqb (a_xv d) (pk_xv k)) in
  let* _ := need (addr_eqb (a_yv d) (VaultAt (pk_y k) (a_lpm d)) && addr_eqb (a_yv d) (pk_yv k)) in
  let* _ := need (addr_eqb (a_lpv d) (LpVaultAt (a_pool d) (a_lpm d)) && addr_eqb ml (pk_lp k)) in
  Ok (k, g, bm, ps, lt, ut, cur).

(** deposit.rs:186-288, the computation on the loaded accounts: new pool, bitmap, position and ticks, LP tokens to mint, X and Y to collect *)
Definition deposit_body (g : cpool) (bm : bitmap) (ps : cpos) (lt ut : ctick) (lower upper current xa ya : Z)
  : res (cpool * bitmap * cpos * ctick * ctick * Z * decimal * decimal) :=
  let* x := to_compute_scale (from_u64 xa) in
  let* y := to_compute_scale (from_u64 ya) in
  let* a := tick_to_rp lower in
  let* b := tick_to_rp upper in
  let* rp := tick_to_rp current in
  let* d := liq_from_x_y_rp_rng x y rp a b in
  if dneg d then Err NegativeDepositLiquidity
  else
    let* bm := (if ct_gross lt =? 0 then activate_tick bm 0 else Ok bm) in
    let* bm := (if ct_gross ut =? 0 then activate_tick bm 40000 else Ok bm) in
    let* x_in := x_from_l_rp_rng d rp a b in
    let* y_in := y_from_l_rp_rng d rp a b in
    let* nf := compute_latest_fee lower upper current (cg_fee g) (ct_fee lt) (ct_fee ut) (fe_scale (cp_fee ps)) in
    let* (ps', lt', ut') := unwrap (c_update_position ps lt ut d lower upper nf) in
    let* g' := c_update_global g lower upper current d in
    let* fx := to_scale (mkD (wadd (fe_fx nf) (fe_hx nf)) (fe_scale nf) false) (dscale x_in) in
    let* xd := unwrap (d_sub x_in fx) in
    let* fy := to_scale (mkD (wadd (fe_fy nf) (fe_hy nf)) (fe_scale nf) false) (dscale y_in) in
    let* yd := unwrap (d_sub y_in fy) in
    let* ex := unwrap (d_gt xd x) in
    if ex then Err DepositAmountExceeded
    else
      let* ey := unwrap (d_gt yd y) in
      if ey then Err DepositAmountExceeded
      else
        let* n := d_abs d in
        Ok (g', bm, ps', lt', ut', n, xd, yd).

(** withdraw.rs:177-262, likewise: X and Y to pay *)
Definition withdraw_body (g : cpool) (bm : bitmap) (ps : cpos) (lt ut : ctick) (lower upper current amt : Z)
  : res (cpool * bitmap * cpos * ctick * ctick * decimal * decimal) :=
  let* dp := to_compute_scale (from_u64 amt) in
  let d := d_neg dp in
  let* a := tick_to_rp lower in
  let* b := tick_to_rp upper in
  let* rp := tick_to_rp current in
  let* nf := compute_latest_fee lower upper current (cg_fee g) (ct_fee lt) (ct_fee ut) (fe_scale (cp_fee ps)) in
  let* (ps', lt', ut') := unwrap (c_update_position ps lt ut d lower upper nf) in
  let* bm := BitmapModel.unset_tick bm 0 in
  let* bm := BitmapModel.unset_tick bm 40000 in
  let* g' := c_update_global g lower upper current d in
  let* x_out := x_from_l_rp_rng (d_neg d) rp a b in
  let* y_out := y_from_l_rp_rng (d_neg d) rp a b in
  let* fx := to_scale (mkD (wadd (fe_fx nf) (fe_hx nf)) (fe_scale nf) false) (dscale x_out) in
  let* xc := unwrap (d_add x_out fx) in
  let* fy := to_scale (mkD (wadd (fe_fy nf) (fe_hy nf)) (fe_scale nf) false) (dscale y_out) in
  let* yc := unwrap (d_add y_out fy) in
  Ok (g', bm, ps', lt', ut', xc, yc).

(** Anchor's exit: the program's [mut] accounts in declaration order (cf. [ChainModel.write_back]) *)
Definition w_exit (w : world) (d : passed) (k : pkeys) (g : cpool) (bm : bitmap) (ps : cpos) (lt ut cur : ctick) : world :=
  wset (a_cur d) (CTick cur) (wset (a_ut d) (CTick ut) (wset (a_lt d) (CTick lt) (wset (a_ps d) (CPos ps) (wset (a_bm d) (CBitmap bm) (wset (a_pool d) (CPool k g) w))))).

(** deposit.rs:178-324; the CPI signed by the pool is [with_signer] of its seeds (290-304) *)
Definition w_deposit (w : world) (d : passed) (user : addr) (lower upper current xa ya : Z) : res world :=
  let* (k, g, bm, ps, lt, ut, cur) := checked w d user lower upper current in
  let* (g', bm', ps', lt', ut', n, xd, yd) := deposit_body g bm ps lt ut lower upper current xa ya in
  let* w := t_mint w (a_lpm d) (a_lp d) (a_pool d) n in
  let* ax := d_abs xd in
  let* w := t_transfer w (a_ux d) (a_xv d) user ax in
  let* ay := d_abs yd in
  let* w := t_transfer w (a_uy d) (a_yv d) user ay in
  Ok (w_exit w d k g' bm' ps' lt' ut' cur).

(** withdraw.rs:168-296 *)
Definition w_withdraw (w : world) (d : passed) (user : addr) (lower upper current amt : Z) : res world :=
  let* (k, g, bm, ps, lt, ut, cur) := checked w d user lower upper current in
  let* (g', bm', ps', lt', ut', xc, yc) := withdraw_body g bm ps lt ut lower upper current amt in
  let* w := t_burn w (a_lpm d) (a_lp d) user amt in
  let* ax := d_abs xc in
  let* w := t_transfer w (a_xv d) (a_ux d) (a_pool d) ax in
  let* ay := d_abs yc in
  let* w := t_transfer w (a_yv d) (a_uy d) (a_pool d) ay in
  Ok (w_exit w d k g' bm' ps' lt' ut' cur).

(** ** What can happen: the program's six instructions with any accounts, and direct use of the token program by key holders.
    [user] and [by_] are the signers; payers are left out.  [TMint] and [TSetAuthority] are for mints controlled by a key. *)
Inductive winstr : Type :=
| WInitPool (pool xm ym lpm xv yv lpv : addr) (tick : Z)
| WInitBitmap (pool bm : addr)
| WInitTick (pool tk : addr) (tick : Z)
| WCreatePosition (pool ps lt ut : addr) (user : positive) (lower upper : Z)
| WDeposit (d : passed) (user : positive) (lower upper current xa ya : Z)
| WWithdraw (d : passed) (user : positive) (lower upper current amt : Z)
| TNewMint (a : positive) (auth : option addr)
| TNewAccount (a : positive) (mint owner : addr)
| TTransfer (from to : addr) (by_ : positive) (amt : Z)
| TMint (mint to : addr) (by_ : positive) (amt : Z)
| TBurn (mint from : addr) (by_ : positive) (amt : Z)
| TSetOwner (acct : addr) (by_ : positive) (owner : addr)
| TSetAuthority (mint : addr) (by_ : positive) (auth : option addr).

Definition wargs_ok (i : winstr) : bool :=
  match i with
  | WInitPool _ _ _ _ _ _ _ t | WInitTick _ _ t => is_u64 t
  | WCreatePosition _ _ _ _ _ l u => is_u64 l && is_u64 u
  | WDeposit _ _ l u c xa ya => is_u64 l && is_u64 u && is_u64 c && is_u64 xa && is_u64 ya
  | WWithdraw _ _ l u c a => is_u64 l && is_u64 u && is_u64 c && is_u64 a
  | TTransfer _ _ _ a | TMint _ _ _ a | TBurn _ _ _ a => is_u64 a
  | _ => true
  end.
Definition wexec (w : world) (i : winstr) : res world :=
  if negb (wargs_ok i) then Err RuntimeError
  else
  match i with
  | WInitPool pool xm ym lpm xv yv lpv t => w_init_pool w pool xm ym lpm xv yv lpv t
  | WInitBitmap pool bm => w_init_bitmap w pool bm
  | WInitTick pool tk t => w_init_tick w pool tk t
  | WCreatePosition pool ps lt ut u l h => w_create_position w pool ps lt ut (Key u) l h
  | WDeposit d u l h c xa ya => w_deposit w d (Key u) l h c xa ya
  | WWithdraw d u l h c a => w_withdraw w d (Key u) l h c a
  | TNewMint a auth => create w (Key a) (CMint 0 auth)
  | TNewAccount a m o => let* (_, _) := get_mint w m in create w (Key a) (CToken m o 0)
  | TTransfer f t u a => t_transfer w f t (Key u) a
  | TMint m t u a => t_mint w m t (Key u) a
  | TBurn m f u a => t_burn w m f (Key u) a
  | TSetOwner a u o => let* (m, o', n) := get_token w a in let* _ := need (addr_eqb o' (Key u)) in Ok (wset a (CToken m o n) w)
  | TSetAuthority m u o => let* (s, a) := get_mint w m in let* _ := need (match a with Some a => addr_eqb a (Key u) | None => false end) in Ok (wset m (CMint s o) w)
  end.
(** A failing instruction has no effect. *)
Definition wtx (w : world) (i : winstr) : world := match wexec w i with Ok w' => w' | _ => w end.
Definition wrun (w : world) (is : list winstr) : world := fold_left wtx is w.

(** A transaction is a list of instructions, executed in order and undone as a whole if one of them fails (Solana runtime). *)
Fixpoint wexec_all (w : world) (is : list winstr) : res world := match is with [] => Ok w | i :: r => let* w := wexec w i in wexec_all w r end.
Definition wtxn (w : world) (is : list winstr) : world := match wexec_all w is with Ok w' => w' | _ => w end.
Definition wrun_txns (w : world) (ts : list (list winstr)) : world := fold_left wtxn ts w.
