(** Vocabulary for statements about the whole ledger. *)
From Coq Require Import ZArith List Bool Lia.
From Verif Require Import Base DecimalModel MathModel BitmapModel ChainModel WorldModel.
Import ListNotations.
Open Scope Z_scope.

(** A sum over all accounts. *)
Definition wsum (f : addr -> content -> Z) (w : world) : Z := fold_right (fun ac s => f (fst ac) (snd ac) + s) 0 w.
(** Tokens of mint [m] in the accounts selected by [sel] (address, owner). *)
Definition tokens (w : world) (m : addr) (sel : addr -> addr -> bool) : Z :=
  wsum (fun a c => match c with CToken mt o n => if addr_eqb mt m && sel a o then n else 0 | _ => 0 end) w.

(** The world before the program is used: mints and token accounts only; what is in the accounts of a mint adds up to its supply, which fits u64. *)
Definition initial (w : world) : Prop :=
  NoDup (map fst w) /\
  (forall a c, wget a w = Some c -> (exists k, a = Key k) /\
     match c with
     | CToken m o n => 0 <= n /\ exists s u, wget m w = Some (CMint s u)
     | CMint s u => s = tokens w a (fun _ _ => true) /\ s < 2 ^ 64
     | _ => False
     end).

(** How the single-pool model names the holders of tokens: a user by its key, the vault as such, any other owner (a derived address) as user 0. *)
Definition uid (o : addr) : Z := match o with Key k => Zpos k | _ => 0 end.
Definition holder_of (vault : option addr) (a o : addr) : holder :=
  match vault with Some v => if addr_eqb a v then HVault else HUser (uid o) | None => HUser (uid o) end.
Definition held (w : world) (m : addr) (vault : option addr) (h : holder) : Z := tokens w m (fun a o => holder_eqb (holder_of vault a o) h).
(** In the single-pool model there are always 2^64 - 1 tokens X and Y; those that do not exist (yet, or any more) are with a user that no key belongs to. *)
Definition reserve : holder := HUser (-1).
Definition full (w : world) (m : addr) (vault : option addr) (h : holder) : Z := if holder_eqb h reserve then 2 ^ 64 - 1 - tokens w m (fun _ _ => true) else held w m vault h.

(** The accounts of pool [PoolAt m], with keys [k], as a state of the single-pool model. *)
Record agrees (w : world) (m : addr) (k : pkeys) (s : cstate) : Prop := mkAgrees
  { ag_pool : exists g, wget (PoolAt m) w = Some (CPool k g) /\ c_pool s = Some g;
    ag_bitmap : c_bitmap s = match wget (BitmapAt (PoolAt m)) w with Some (CBitmap b) => Some b | _ => None end;
    ag_tick : forall n, ct_get n (c_ticks s) = match wget (TickAt (PoolAt m) n) w with Some (CTick t) => Some t | _ => None end;
    ag_pos : forall u l h, cp_get (u, l, h) (c_pos s) = match u with
      | Zpos q => match wget (PositionAt (PoolAt m) (Key q) l h) w with Some (CPos p) => Some p | _ => None end
      | _ => None end;
    ag_x : forall h, bal h (c_x s) = full w (pk_x k) (Some (pk_xv k)) h;
    ag_y : forall h, bal h (c_y s) = full w (pk_y k) (Some (pk_yv k)) h;
    ag_lp : forall h, bal h (c_lp s) = held w m None h;
    ag_supply : exists a, wget m w = Some (CMint (c_lp_supply s) a) }.
(** The key whose signature an instruction needs. *)
Definition wsigner (i : winstr) : option positive :=
  match i with
  | WCreatePosition _ _ _ _ u _ _ | WDeposit _ u _ _ _ _ _ | WWithdraw _ u _ _ _ _ | TTransfer _ _ u _ | TMint _ _ u _ | TBurn _ _ u _ | TSetOwner _ u _ | TSetAuthority _ u _ => Some u
  | _ => None
  end.
(** The pool an instruction of the program is called for. *)
Definition pool_of (i : winstr) : option addr :=
  match i with
  | WInitPool p _ _ _ _ _ _ _ | WInitBitmap p _ | WInitTick p _ _ | WCreatePosition p _ _ _ _ _ _ => Some p
  | WDeposit d _ _ _ _ _ _ | WWithdraw d _ _ _ _ _ => Some (a_pool d)
  | _ => None
  end.
(** Direct use of the token program, by somebody allowed by [P]. *)
Definition external (P : Z -> Prop) (i : instr) : Prop := match i with ETransferX f _ _ | ETransferY f _ _ | ETransferLP f _ _ | EBurnLP f _ => P f | _ => False end.
(** How the pool of LP mint [m] sees an instruction executed in [w]: its own instructions as they are, everything else as transfers and burning of tokens
    of the signer, of accounts with a derived owner (the vaults of other pools), which are user 0, or of the reserve (minting), which is user -1. *)
Definition seen_as (w : world) (m : addr) (i : winstr) (is : list instr) : Prop :=
  match i with
  | WInitBitmap p _ => is = if addr_eqb p (PoolAt m) then [IInitBitmap] else []
  | WInitTick p _ t => is = if addr_eqb p (PoolAt m) then [IInitTick t] else []
  | WCreatePosition p _ _ _ u l h => is = if addr_eqb p (PoolAt m) then [ICreatePosition (Zpos u) l h] else []
  | WDeposit d u l h c xa ya =>
      if addr_eqb (a_pool d) (PoolAt m) then exists o n, wget (a_lp d) w = Some (CToken m o n) /\ is = [IDeposit (Zpos u) l h c xa ya (HUser (uid o))]
      else Forall (external (fun f => f = Zpos u \/ f = 0 \/ f = -1)) is
  | WWithdraw d u l h c n =>
      if addr_eqb (a_pool d) (PoolAt m) then is = [IWithdraw (Zpos u) l h c n]
      else Forall (external (fun f => f = Zpos u \/ f = 0 \/ f = -1)) is
  | TTransfer _ _ u _ | TBurn _ _ u _ | TSetOwner _ u _ => Forall (external (fun f => f = Zpos u)) is
  | TMint _ _ _ _ => Forall (external (fun f => f = -1)) is
  | WInitPool _ _ _ _ _ _ _ _ | TNewMint _ _ | TNewAccount _ _ _ | TSetAuthority _ _ _ => is = []
  end.

(** Ledgers reached by some history. *)
Definition ledger_reached (w : world) : Prop := exists w0 is, initial w0 /\ w = wrun w0 is.
(** What a pool sees of a history: the views of the instructions that succeed, one after the other. *)
Inductive view_of (m : addr) : world -> list winstr -> list instr -> Prop :=
| view_nil : forall w, view_of m w [] []
| view_ok : forall w i w' js is r, wexec w i = Ok w' -> seen_as w m i js -> view_of m w' is r -> view_of m w (i :: is) (js ++ r)
| view_err : forall w i is r, (forall w', wexec w i <> Ok w') -> view_of m w is r -> view_of m w (i :: is) r.
(** No LP tokens existed when the pool of LP mint [m] was created. *)
Definition born_empty (w : world) (is : list winstr) (m : addr) : Prop :=
  forall js i r, is = js ++ i :: r -> wget (PoolAt m) (wrun w js) = None -> wget (PoolAt m) (wrun w (js ++ [i])) <> None -> exists a, wget m (wrun w js) = Some (CMint 0 a).
(** The accounts of the program that belong to the pool of LP mint [m]. *)
Definition belongs (m a : addr) : Prop := a = PoolAt m \/ a = BitmapAt (PoolAt m) \/ (exists n, a = TickAt (PoolAt m) n) \/ exists u l h, a = PositionAt (PoolAt m) u l h.
(** Liquidity (in 10^-12) in the positions of key holders in the pool of LP mint [m]. *)
Definition liquidity (w : world) (m : addr) : Z :=
  wsum (fun a c => match a, c with PositionAt p (Key _) _ _, CPos q => if addr_eqb p (PoolAt m) then cp_liq q else 0 | _, _ => 0 end) w.
(** The accounts to pass for position (u, l, h) of the pool of LP mint [m]; the last three are the user's choice. *)
Definition right_accounts (m : addr) (k : pkeys) (u : positive) (l h c : Z) (ux uy lp : addr) : passed :=
  mkPassed (PoolAt m) (BitmapAt (PoolAt m)) (PositionAt (PoolAt m) (Key u) l h) (TickAt (PoolAt m) l) (TickAt (PoolAt m) h) (TickAt (PoolAt m) c) m
    ux uy (VaultAt (pk_x k) m) (VaultAt (pk_y k) m) (LpVaultAt (PoolAt m) m) lp.
(** What the single-pool program allows in state [s] can be done on the ledger [w] by passing the right accounts, with the same outcome.
    (One token account of the user has to hold what is taken: the single-pool program does not tell a user's accounts apart.) *)
Definition can_do (w : world) (m : addr) (k : pkeys) (s : cstate) : Prop :=
  (forall s', exec s IInitBitmap = Ok s' -> exists w', wexec w (WInitBitmap (PoolAt m) (BitmapAt (PoolAt m))) = Ok w' /\ agrees w' m k s') /\
  (forall t s', exec s (IInitTick t) = Ok s' -> exists w', wexec w (WInitTick (PoolAt m) (TickAt (PoolAt m) t) t) = Ok w' /\ agrees w' m k s') /\
  (forall u l h s', exec s (ICreatePosition (Zpos u) l h) = Ok s' ->
     exists w', wexec w (WCreatePosition (PoolAt m) (PositionAt (PoolAt m) (Key u) l h) (TickAt (PoolAt m) l) (TickAt (PoolAt m) h) u l h) = Ok w' /\ agrees w' m k s') /\
  (forall u l h c xa ya ux uy lp nx ny o nl s', wget ux w = Some (CToken (pk_x k) (Key u) nx) -> wget uy w = Some (CToken (pk_y k) (Key u) ny) -> wget lp w = Some (CToken m o nl) ->
     exec s (IDeposit (Zpos u) l h c xa ya (HUser (uid o))) = Ok s' ->
     bal (HUser (Zpos u)) (c_x s) - bal (HUser (Zpos u)) (c_x s') <= nx -> bal (HUser (Zpos u)) (c_y s) - bal (HUser (Zpos u)) (c_y s') <= ny ->
     exists w', wexec w (WDeposit (right_accounts m k u l h c ux uy lp) u l h c xa ya) = Ok w' /\ agrees w' m k s') /\
  (forall u l h c n ux uy lp nx ny nl s', wget ux w = Some (CToken (pk_x k) (Key u) nx) -> wget uy w = Some (CToken (pk_y k) (Key u) ny) -> wget lp w = Some (CToken m (Key u) nl) ->
     exec s (IWithdraw (Zpos u) l h c n) = Ok s' -> n <= nl ->
     exists w', wexec w (WWithdraw (right_accounts m k u l h c ux uy lp) u l h c n) = Ok w' /\ agrees w' m k s').
(** Liquidity (in 10^-12) of position (u, l, h) in the pool of LP mint [m]. *)
Definition position_liq (w : world) (m : addr) (u : positive) (l h : Z) : Z := match wget (PositionAt (PoolAt m) (Key u) l h) w with Some (CPos p) => cp_liq p | _ => 0 end.
(** The balance of a token account. *)
Definition balance (w : world) (a : addr) : Z := match wget a w with Some (CToken _ _ n) => n | _ => 0 end.

(** All accounts that a deposit into, or a withdrawal from, position (u, l, h) may change. *)
Definition involved (m : addr) (k : pkeys) (u : positive) (l h c : Z) (ux uy lp : addr) : list addr :=
  [PoolAt m; BitmapAt (PoolAt m); PositionAt (PoolAt m) (Key u) l h; TickAt (PoolAt m) l; TickAt (PoolAt m) h; m; ux; uy; VaultAt (pk_x k) m; VaultAt (pk_y k) m; lp].
(** From [w] to [w'], [dx] tokens X and [dy] tokens Y go from the accounts [ux], [uy] of user [u] to the vaults of the pool, [dl] (in 10^-12) liquidity
    to the user's position and [n] new LP tokens to the account [lp] of [o]; apart from that and from the pool's liquidity, tick and bitmap records nothing changes. *)
Definition exchanged (w w' : world) (m : addr) (k : pkeys) (g : cpool) (u : positive) (l h c : Z) (ux uy lp o : addr) (dx dy dl n : Z) : Prop :=
  exists nx ny vx vy nl s g',
    wget ux w = Some (CToken (pk_x k) (Key u) nx) /\ wget ux w' = Some (CToken (pk_x k) (Key u) (nx - dx)) /\
    wget uy w = Some (CToken (pk_y k) (Key u) ny) /\ wget uy w' = Some (CToken (pk_y k) (Key u) (ny - dy)) /\
    wget (VaultAt (pk_x k) m) w = Some (CToken (pk_x k) (PoolAt m) vx) /\ wget (VaultAt (pk_x k) m) w' = Some (CToken (pk_x k) (PoolAt m) (vx + dx)) /\
    wget (VaultAt (pk_y k) m) w = Some (CToken (pk_y k) (PoolAt m) vy) /\ wget (VaultAt (pk_y k) m) w' = Some (CToken (pk_y k) (PoolAt m) (vy + dy)) /\
    wget lp w = Some (CToken m o nl) /\ wget lp w' = Some (CToken m o (nl + n)) /\
    wget m w = Some (CMint s (Some (PoolAt m))) /\ wget m w' = Some (CMint (s + n) (Some (PoolAt m))) /\
    position_liq w' m u l h = position_liq w m u l h + dl /\
    wget (PoolAt m) w' = Some (CPool k g') /\ cg_tick g' = cg_tick g /\ cg_rp g' = cg_rp g /\ cg_fee g' = cg_fee g /\
    forall a, ~ In a (involved m k u l h c ux uy lp) -> wget a w' = wget a w.
(** [is] consists of whole transactions of [ts], in their order, some left out. *)
Inductive whole_parts : list (list winstr) -> list winstr -> Prop :=
| wp_nil : whole_parts [] []
| wp_in : forall t ts is, whole_parts ts is -> whole_parts (t :: ts) (t ++ is)
| wp_out : forall t ts is, whole_parts ts is -> whole_parts (t :: ts) is.
(** Every instruction of the history succeeds. *)
Fixpoint all_done (w : world) (is : list winstr) : Prop := match is with [] => True | i :: r => exists w', wexec w i = Ok w' /\ all_done w' r end.
