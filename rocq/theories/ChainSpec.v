(** Vocabulary of the on-chain claims: histories, who owns what, sums over positions, flows through the vaults. *)
From Coq Require Import ZArith QArith List Bool.
From Verif Require Import Base BitmapModel MathModel DecimalModel ChainModel.
Import ListNotations.
Open Scope Z_scope.

(** Every balance of a token ledger is a possible SPL amount. *)
Definition balances_ok (l : ledger) : Prop := Forall (fun e => 0 <= snd e < 2 ^ 64) l.
Fixpoint circulating (l : ledger) : Z := match l with [] => 0 | (_, v) :: r => v + circulating r end.

(** States reached by some history of instructions from an empty program. *)
Definition reached (s : cstate) : Prop :=
  exists x y is, balances_ok x /\ balances_ok y /\ s = run_txs (genesis x y) is.

(** Liquidity (in 10^-12) held in a position; who may use it. *)
Definition pos_liq (s : cstate) (k : cpkey) : Z := match cp_get k (c_pos s) with Some q => cp_liq q | None => 0 end.
Definition owner (k : cpkey) : Z := let '(u, _, _) := k in u.
Definition lower (k : cpkey) : Z := let '(_, l, _) := k in l.
Definition upper (k : cpkey) : Z := let '(_, _, h) := k in h.

(** Sum of [f] over all positions. *)
Definition over_positions (s : cstate) (f : cpkey -> Z -> Z) : Z :=
  fold_right (fun kq acc => f (fst kq) (cp_liq (snd kq)) + acc) 0 (c_pos s).
Definition when (b : bool) (v : Z) : Z := if b then v else 0.

(** Signed value of a tick account's net liquidity. *)
Definition net (t : ctick) : Z := if ct_net_neg t =? 0 then ct_net t else - ct_net t.

(** The user who signs an instruction ([None]: anybody may send it). *)
Definition signer (i : instr) : option Z :=
  match i with
  | ICreatePosition u _ _ | IDeposit u _ _ _ _ _ _ | IWithdraw u _ _ _ _ => Some u
  | ETransferX u _ _ | ETransferY u _ _ | ETransferLP u _ _ | EBurnLP u _ => Some u
  | _ => None
  end.

(** Accumulate a per-instruction quantity over a history. *)
Fixpoint along (f : cstate -> instr -> Z) (s : cstate) (is : list instr) : Z :=
  match is with [] => 0 | i :: r => f s i + along f (tx s i) r end.

Definition vault_x (s : cstate) : Z := bal HVault (c_x s).
Definition vault_y (s : cstate) : Z := bal HVault (c_y s).
(** Tokens that entered a vault through deposits into position [k], and left through withdrawals from it. *)
Definition deposited (v : cstate -> Z) (k : cpkey) (s : cstate) (i : instr) : Z :=
  match i with IDeposit u l h _ _ _ _ => when (cpkey_eqb (u, l, h) k) (v (tx s i) - v s) | _ => 0 end.
Definition withdrawn (v : cstate -> Z) (k : cpkey) (s : cstate) (i : instr) : Z :=
  match i with IWithdraw u l h _ _ => when (cpkey_eqb (u, l, h) k) (v s - v (tx s i)) | _ => 0 end.
Definition succeeds (s : cstate) (i : instr) : bool := match exec s i with Ok _ => true | _ => false end.
(** Successful deposits into positions that already hold liquidity. *)
Definition topups_of (k : cpkey) (s : cstate) (i : instr) : Z :=
  match i with IDeposit u l h _ _ _ _ => when (cpkey_eqb (u, l, h) k && succeeds s i && (0 <? pos_liq s (u, l, h))) 1 | _ => 0 end.
Definition topups (s : cstate) (i : instr) : Z :=
  match i with IDeposit u l h _ _ _ _ => when (succeeds s i && (0 <? pos_liq s (u, l, h))) 1 | _ => 0 end.

(** Root price of a tick, in 10^-12. *)
Definition price (t : Z) : Z := match tick_to_rp t with Ok d => dval d | _ => 0 end.
(** Whole tokens that [liq] units of liquidity over the ticks [l, h) are worth when the pool is at tick [c]:
    with root prices a, b of the bounds and m the current one clamped between them,
    floor(liq * (b - m) / (m * b)) tokens X (m * b rounded down to 12 digits) and floor(liq * (m - a)) tokens Y. *)
Definition clamp (p a b : Z) : Z := Z.max (Z.min p b) a.
Definition worth_x (c : Z) (k : cpkey) (liq : Z) : Z :=
  let m := clamp (price c) (price (lower k)) (price (upper k)) in
  liq * (price (upper k) - m) / (10 ^ 12 * (m * price (upper k) / 10 ^ 12)).
Definition worth_y (c : Z) (k : cpkey) (liq : Z) : Z :=
  let m := clamp (price c) (price (lower k)) (price (upper k)) in
  liq * (m - price (lower k)) / (10 ^ 12 * 10 ^ 12).

(** The pool exists and is at tick [c]. *)
Definition at_tick (s : cstate) (c : Z) : Prop := exists g, c_pool s = Some g /\ cg_tick g = c.

(** What one transfer between two accounts of a token does. *)
Definition moves (l l' : ledger) (from to : holder) (n : Z) : Prop :=
  0 <= n <= bal from l /\ bal from l' = bal from l - n /\ bal to l' = bal to l + n /\ forall k, k <> from -> k <> to -> bal k l' = bal k l.

(** A deposit of at most [xa], [ya] into position (u, l, h), granting liquidity [d] (in 10^-12), LP tokens going to [to]. *)
Definition deposit_effect (s : cstate) (u l h c xa ya : Z) (to : holder) (s' : cstate) (d : Z) : Prop :=
  at_tick s c /\ 0 <= d /\ pos_liq s' (u, l, h) = pos_liq s (u, l, h) + d /\ (forall k, k <> (u, l, h) -> cp_get k (c_pos s') = cp_get k (c_pos s)) /\
  worth_x c (u, l, h) d <= xa /\ worth_y c (u, l, h) d <= ya /\
  moves (c_x s) (c_x s') (HUser u) HVault (worth_x c (u, l, h) d) /\ moves (c_y s) (c_y s') (HUser u) HVault (worth_y c (u, l, h) d) /\
  bal to (c_lp s') = bal to (c_lp s) + d / 10 ^ 12 /\ (forall k, k <> to -> bal k (c_lp s') = bal k (c_lp s)) /\ c_lp_supply s' = c_lp_supply s + d / 10 ^ 12.
(** A withdrawal of [n] (whole) units of liquidity from position (u, l, h). *)
Definition withdraw_effect (s : cstate) (u l h c n : Z) (s' : cstate) : Prop :=
  at_tick s c /\ 0 <= n /\ n * 10 ^ 12 <= pos_liq s (u, l, h) /\
  pos_liq s' (u, l, h) = pos_liq s (u, l, h) - n * 10 ^ 12 /\ (forall k, k <> (u, l, h) -> cp_get k (c_pos s') = cp_get k (c_pos s)) /\
  moves (c_x s) (c_x s') HVault (HUser u) (worth_x c (u, l, h) (n * 10 ^ 12)) /\ moves (c_y s) (c_y s') HVault (HUser u) (worth_y c (u, l, h) (n * 10 ^ 12)) /\
  n <= bal (HUser u) (c_lp s) /\ bal (HUser u) (c_lp s') = bal (HUser u) (c_lp s) - n /\ (forall k, k <> HUser u -> bal k (c_lp s') = bal k (c_lp s)) /\ c_lp_supply s' = c_lp_supply s - n.

Definition no_fees (f : fee) : Prop := fe_fx f = 0 /\ fe_fy f = 0 /\ fe_hx f = 0 /\ fe_hy f = 0.
