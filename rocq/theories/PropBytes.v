(** Claims C99 and C100: the addresses and the stored contents of the on-chain accounts. *)
From Coq Require Import ZArith List Bool Lia String.
From Verif Require Import Base ChainModel ChainSpec BytesModel BytesProofs PropChain.
Import ListNotations.
Open Scope Z_scope.

(** ** C99.  Whatever function [H] turns the hashed bytes into an address: if two of the program's accounts have the same address,
    they are the same account (same kind, same keys, same ticks), or two different byte strings with the same hash are known. *)
Definition collision (H : list Z -> key) : Prop := exists u v, u <> v /\ H u = H v.
Theorem C99_addresses : forall H a b i j program, acc_ok a -> acc_ok b -> H (hashed a i program) = H (hashed b j program) -> a = b \/ collision H.
Proof. exact same_address. Qed.
(** ... and Solana accepts the seeds: at most 16 with the bump, each of at most 32 bytes. *)
Theorem C99_seeds_accepted : forall a, acc_ok a -> (List.length (seeds a) + 1 <= 16)%nat /\ Forall (fun s => (List.length s <= 32)%nat) (seeds a).
Proof. exact seeds_limits. Qed.
Definition k1 : key := repeat 1 32.
Definition k2 : key := repeat 2 32.
(** Positions whose bounds are swapped or split differently, the vaults of the two tokens, the vault of the LP token, all in one pool. *)
Example C99_case : Forall acc_ok [APosition k1 k2 5 256; APosition k1 k2 256 5; APosition k1 k2 5 1; AVault k1 k2; AVault k2 k1; ALpVault k1 k2; ATick k1 5; ABitmap k1; APool k1] /\
  hashed (APosition k1 k2 5 256) 255 k2 <> hashed (APosition k1 k2 256 5) 255 k2 /\ hashed (AVault k1 k2) 255 k2 <> hashed (ALpVault k1 k2) 255 k2.
Proof.
  split. { repeat (apply Forall_cons; [cbn [acc_ok]; unfold is_key, u64_ok; repeat split; (reflexivity || lia) |]). apply Forall_nil. }
  split; vm_compute; discriminate.
Qed.

(** ** C100.  In every reached state every pool, tick and position account, with whatever keys and bumps, is read back as it was
    written, and its bytes fill no more than the space the account was created with ([size_pool], [size_tick], [size_pos]). *)
Theorem C100_stored : forall s, reached s ->
  (forall g k rest, c_pool s = Some g -> keys_ok k -> dec_pool (enc_pool k g ++ rest) = Some (k, ROOT_PRICE_SCALE, g, rest) /\ Z.of_nat (List.length (enc_pool k g)) = size_pool) /\
  (forall t x b rest, ct_get t (c_ticks s) = Some x -> u8_ok b -> dec_tick (enc_tick x b ++ rest) = Some (x, b, rest) /\ Z.of_nat (List.length (enc_tick x b)) = size_tick) /\
  (forall n q b rest, cp_get n (c_pos s) = Some q -> u8_ok b -> dec_pos (enc_pos q b ++ rest) = Some (q, b, rest) /\ Z.of_nat (List.length (enc_pos q b)) = size_pos).
Proof. exact reached_read_back. Qed.
Example C100_case : reached s2 /\ (exists g, c_pool s2 = Some g /\ 0 < cg_liq g) /\ (exists x, ct_get 5 (c_ticks s2) = Some x /\ 0 < ct_gross x) /\ c_pos s2 <> [].
Proof.
  destruct C38_ex as [R (g & x & G & L & X & _ & K)]. split; [exact R |]. split; [exists g; auto |]. split; [exists x; auto |]. vm_compute. discriminate.
Qed.
(** Not every value of the model's types can be stored: the reached states matter. *)
Example C100_not_all : dec_tick (enc_tick (mkCTick (2 ^ 128) 12 0 0 12 5 (mkFee 12 0 0 0 0)) 255) <> Some (mkCTick (2 ^ 128) 12 0 0 12 5 (mkFee 12 0 0 0 0), 255, []).
Proof. vm_compute. discriminate. Qed.

Print Assumptions C99_addresses.
Print Assumptions C99_seeds_accepted.
Print Assumptions C100_stored.
