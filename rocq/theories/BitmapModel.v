(** Model of /repo/programs/hmmcl-sandbox/src/state/tick_bitmap.rs.  Line numbers refer to that file. *)
From Coq Require Import ZArith List Bool.
From Verif Require Import Base.
Import ListNotations.
Open Scope Z_scope.

(** tick_bitmap.rs:3-4 *)
Definition TICK_BITMAP_SIZE : Z := 10000.
Definition TICKS_OFFSET : Z := 0.

(** tick_bitmap.rs:18-22: the byte array; the PDA bump is not modelled. *)
Definition bitmap : Type := list Z.

(** tick_bitmap.rs:24-31 (also the all-zero account data after [load_init], manage_bitmap.rs:29-35) *)
Definition bm_default : bitmap := repeat 0 (Z.to_nat TICK_BITMAP_SIZE).

(** [self.tick_map[key as usize]]: a negative i32 becomes a huge usize, so it is out of bounds. *)
Definition bm_get (m : bitmap) (k : Z) : res Z :=
  if (0 <=? k) && (k <? Z.of_nat (length m)) then Ok (nth (Z.to_nat k) m 0) else Panic.

Fixpoint list_upd (n : nat) (v : Z) (l : list Z) : list Z :=
  match l with
  | [] => []
  | a :: l' => match n with O => v :: l' | S n' => a :: list_upd n' v l' end
  end.

Definition bm_set (m : bitmap) (k v : Z) : res bitmap :=
  if (0 <=? k) && (k <? Z.of_nat (length m)) then Ok (list_upd (Z.to_nat k) v m) else Panic.

(** [(tick >> 3) + TICKS_OFFSET] (arithmetic shift) and [(tick + TICK_BITMAP_SIZE) % 8] (truncated remainder).
    The i32 addition overflows for ticks above 2^31-1-10000; the following array access is out of bounds there
    in any case. *)
Definition bm_key (tick : Z) : Z := Z.shiftr tick 3 + TICKS_OFFSET.
Definition bm_ix (tick : Z) : Z := Z.rem (tick + TICK_BITMAP_SIZE) 8.

(** tick_bitmap.rs:34-42 *)
Definition activate_tick (m : bitmap) (tick : Z) : res bitmap :=
  let* b := bm_get m (bm_key tick) in
  bm_set m (bm_key tick) (Z.lor b (Z.shiftl 1 (bm_ix tick))).

(** tick_bitmap.rs:44-49: [!mask] on u8 is [255 - mask] *)
Definition unset_tick (m : bitmap) (tick : Z) : res bitmap :=
  let* b := bm_get m (bm_key tick) in
  bm_set m (bm_key tick) (Z.land b (255 - Z.shiftl 1 (bm_ix tick))).

(** tick_bitmap.rs:51-56 *)
Definition tick_is_active (m : bitmap) (tick : Z) : res bool :=
  let* b := bm_get m (bm_key tick) in
  Ok (negb (Z.land (Z.shiftr b (bm_ix tick)) 1 =? 0)).

(** tick_bitmap.rs:136-143: [for i in 0..end], testing bit [end - i - 1] *)
Fixpoint byte_down (byte : Z) (n : nat) : option Z :=
  match n with
  | O => None
  | S n' => if Z.land (Z.shiftr byte (Z.of_nat n')) 1 =? 1 then Some (Z.of_nat n') else byte_down byte n'
  end.

(** tick_bitmap.rs:145-150: [for i in start..8]; [n] = number of remaining values *)
Fixpoint byte_up (byte i : Z) (n : nat) : option Z :=
  match n with
  | O => None
  | S n' => if Z.land (Z.shiftr byte i) 1 =? 1 then Some i else byte_up byte (i + 1) n'
  end.

(** tick_bitmap.rs:116-153 *)
Definition byte_get_next_tick (byte direction ix : Z) (is_contain : bool) : option Z :=
  if byte =? 0 then None
  else
    let start := if is_contain then (if direction =? 1 then ix + 1 else 8)
                 else (if direction =? 0 then 8 else 0) in
    let end_ := if is_contain then (if direction =? 1 then 0 else ix)
                else (if direction =? 0 then 8 else 0) in
    if direction =? 0 then byte_down byte (Z.to_nat end_)
    else byte_up byte start (Z.to_nat (8 - start)).

(** tick_bitmap.rs:86-96 and 99-110: scan of the remaining words *)
Fixpoint scan_words (ws : list Z) (direction ix next_ix word_space : Z) : option Z :=
  match ws with
  | [] => None
  | cur :: ws' =>
      if 0 <? cur then
        match byte_get_next_tick cur direction ix false with
        | Some r => Some (Z.shiftl (next_ix - TICKS_OFFSET) 3 + r)
        | None => scan_words ws' direction ix (next_ix + word_space) word_space
        end
      else scan_words ws' direction ix (next_ix + word_space) word_space
  end.

(** tick_bitmap.rs:58-113 *)
Definition get_next_tick (m : bitmap) (current_tick direction : Z) : res (option Z) :=
  let current_key := bm_key current_tick in
  let ix := bm_ix current_tick in
  let word_space := if direction =? 0 then -1 else 1 in
  let* cur := bm_get m current_key in
  match byte_get_next_tick cur direction ix true with
  | Some r => Ok (Some (Z.shiftl (current_key - TICKS_OFFSET) 3 + r))
  | None =>
      let next_ix := current_key + word_space in
      if direction =? 0 then
        Ok (scan_words (rev (firstn (Z.to_nat current_key) m)) direction ix next_ix word_space)
      else
        Ok (scan_words (skipn (Z.to_nat next_ix) m) direction ix next_ix word_space)
  end.
