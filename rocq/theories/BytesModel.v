(** The bytes behind the on-chain accounts: the seeds of their addresses and the stored form of their contents. *)
From Coq Require Import ZArith List Bool Lia String Ascii.
From Verif Require Import Base ChainModel.
Import ListNotations.
Open Scope Z_scope.

(** [to_le_bytes] of an [n]-byte unsigned integer (Rust core).  initialize_tick uses [to_ne_bytes] (manage_tick.rs:26), which is
    the same on the little-endian Solana target. *)
Fixpoint le_bytes (n : nat) (v : Z) : list Z :=
  match n with O => [] | S n => v mod 256 :: le_bytes n (v / 256) end.
Definition str (s : string) : list Z := map (fun c => Z.of_N (N_of_ascii c)) (list_ascii_of_string s).

(** A public key: 32 bytes. *)
Definition key : Type := list Z.

(** The program's accounts that live at derived addresses, with what the address is derived from. *)
Inductive account : Type :=
| APool (lp_mint : key)
| ABitmap (pool : key)
| APosition (pool user : key) (lower upper : Z)
| ATick (pool : key) (tick : Z)
| AVault (mint lp_mint : key)
| ALpVault (pool lp_mint : key).

(** lib.rs:22-24; initialize_pool.rs:23, 45, 55, 65; manage_bitmap.rs:19; manage_position.rs:28-34; manage_tick.rs:26; the same seeds at
    deposit.rs:26, 33, 40-46, 54, 62, 70, 98, 106, 114 and at the corresponding lines of withdraw.rs *)
Definition seeds (a : account) : list (list Z) :=
  match a with
  | APool m => [str "pool_state_seed"; m]
  | ABitmap p => [str "bitmap"; p]
  | APosition p u lo up => [str "position"; p; u; le_bytes 8 lo; le_bytes 8 up]
  | ATick p t => [str "tick"; p; le_bytes 8 t]
  | AVault x m => [str "token_vault_seed"; x; m]
  | ALpVault p m => [str "lp_token_vault_seed"; p; m]
  end.
(** What Solana hashes to obtain the address: the seeds one after the other without separators, the bump, the program and a
    marker (create_program_address; external code, recorded in the trusted base). *)
Definition hashed (a : account) (bump : Z) (program : key) : list Z :=
  List.concat (seeds a) ++ [bump] ++ program ++ str "ProgramDerivedAddress".

(** ** Stored contents (Borsh: the fields in order, integers little-endian; external code, recorded in the trusted base) *)
(** state/fees.rs:5-13 *)
Definition enc_fee (f : fee) : list Z := le_bytes 1 (fe_scale f) ++ le_bytes 16 (fe_fx f) ++ le_bytes 16 (fe_fy f) ++ le_bytes 16 (fe_hx f) ++ le_bytes 16 (fe_hy f).
(** state/position_state.rs:8-17 *)
Definition enc_pos (p : cpos) (bump : Z) : list Z :=
  le_bytes 16 (cp_liq p) ++ le_bytes 1 (cp_scale p) ++ le_bytes 8 (cp_lower p) ++ le_bytes 8 (cp_upper p) ++ enc_fee (cp_fee p) ++ le_bytes 1 bump.
(** state/tick_state.rs:8-19 *)
Definition enc_tick (t : ctick) (bump : Z) : list Z :=
  le_bytes 16 (ct_net t) ++ le_bytes 1 (ct_net_scale t) ++ le_bytes 1 (ct_net_neg t) ++ le_bytes 16 (ct_gross t) ++ le_bytes 1 (ct_gross_scale t) ++ le_bytes 8 (ct_tick t) ++
  enc_fee (ct_fee t) ++ le_bytes 1 bump.
(** state/pool_state.rs:11-38; the parts [cpool] leaves out are added here *)
Record pool_keys : Type := mkKeys { k_auth : key; k_xvault : key; k_yvault : key; k_xmint : key; k_ymint : key; k_lpmint : key;
  k_bump : Z; k_xbump : Z; k_ybump : Z; k_lpbump : Z }.
Definition enc_pool (k : pool_keys) (g : cpool) : list Z :=
  k_auth k ++ k_xvault k ++ k_yvault k ++ k_xmint k ++ k_ymint k ++ k_lpmint k ++ le_bytes 1 (k_bump k) ++ le_bytes 1 (k_xbump k) ++ le_bytes 1 (k_ybump k) ++ le_bytes 1 (k_lpbump k) ++
  le_bytes 16 (cg_liq g) ++ le_bytes 1 (cg_liq_scale g) ++ le_bytes 16 (cg_rp g) ++ le_bytes 1 ROOT_PRICE_SCALE ++ le_bytes 8 (cg_tick g) ++ enc_fee (cg_fee g).

(** Reading back: the inverse reader of each type, field by field. *)
Fixpoint get_le (n : nat) (bs : list Z) : option (Z * list Z) :=
  match n with
  | O => Some (0, bs)
  | S n => match bs with [] => None | b :: r => match get_le n r with Some (v, r') => Some (b + 256 * v, r') | None => None end end
  end.
Definition get_key (bs : list Z) : option (key * list Z) :=
  if (List.length bs <? 32)%nat then None else Some (firstn 32 bs, skipn 32 bs).
Notation "'do' ( x , r ) <- e ; k" := (match e with Some (x, r) => k | None => None end) (at level 200, x name, r name, e at level 100, k at level 200).
Definition dec_fee (bs : list Z) : option (fee * list Z) :=
  do (s, r) <- get_le 1 bs; do (a, r) <- get_le 16 r; do (b, r) <- get_le 16 r; do (c, r) <- get_le 16 r; do (d, r) <- get_le 16 r; Some (mkFee s a b c d, r).
Definition dec_pos (bs : list Z) : option (cpos * Z * list Z) :=
  do (l, r) <- get_le 16 bs; do (s, r) <- get_le 1 r; do (lo, r) <- get_le 8 r; do (up, r) <- get_le 8 r; do (f, r) <- dec_fee r; do (b, r) <- get_le 1 r; Some (mkCPos l s lo up f, b, r).
Definition dec_tick (bs : list Z) : option (ctick * Z * list Z) :=
  do (n, r) <- get_le 16 bs; do (ns, r) <- get_le 1 r; do (ng, r) <- get_le 1 r; do (g, r) <- get_le 16 r; do (gs, r) <- get_le 1 r; do (t, r) <- get_le 8 r; do (f, r) <- dec_fee r; do (b, r) <- get_le 1 r;
  Some (mkCTick n ns ng g gs t f, b, r).
Definition dec_pool (bs : list Z) : option (pool_keys * Z * cpool * list Z) :=
  do (a, r) <- get_key bs; do (xv, r) <- get_key r; do (yv, r) <- get_key r; do (xm, r) <- get_key r; do (ym, r) <- get_key r; do (lm, r) <- get_key r;
  do (b1, r) <- get_le 1 r; do (b2, r) <- get_le 1 r; do (b3, r) <- get_le 1 r; do (b4, r) <- get_le 1 r;
  do (l, r) <- get_le 16 r; do (ls, r) <- get_le 1 r; do (rp, r) <- get_le 16 r; do (rs, r) <- get_le 1 r; do (t, r) <- get_le 8 r; do (f, r) <- dec_fee r;
  Some (mkKeys a xv yv xm ym lm b1 b2 b3 b4, rs, mkCPool l ls rp t f, r).

(** The sizes of the Rust types (no padding counted: [size_of] is at least this), in bytes; the account of a type is created with
    8 more, for the discriminator. *)
Definition size_fee : Z := 1 + 4 * 16.
Definition size_pos : Z := 16 + 1 + 8 + 8 + size_fee + 1.
Definition size_tick : Z := 16 + 1 + 1 + 16 + 1 + 8 + size_fee + 1.
Definition size_pool : Z := 6 * 32 + 4 + (16 + 1 + 16 + 1 + 8 + size_fee).
