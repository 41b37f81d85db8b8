(** Addresses and stored contents: lemmas. *)
From Coq Require Import ZArith List Bool Lia String Ascii.
From Verif Require Import Base ChainModel BytesModel.
Import ListNotations.
Open Scope Z_scope.

(** ** Specification *)
Definition is_key (k : key) : Prop := List.length k = 32%nat.
Definition u64_ok (v : Z) : Prop := 0 <= v < 2 ^ 64.
Definition u128_ok (v : Z) : Prop := 0 <= v < 2 ^ 128.
Definition u8_ok (v : Z) : Prop := 0 <= v < 2 ^ 8.
Definition acc_ok (a : account) : Prop :=
  match a with
  | APool m => is_key m
  | ABitmap p => is_key p
  | APosition p u lo up => is_key p /\ is_key u /\ u64_ok lo /\ u64_ok up
  | ATick p t => is_key p /\ u64_ok t
  | AVault x m => is_key x /\ is_key m
  | ALpVault p m => is_key p /\ is_key m
  end.
Definition fee_bytes_ok (f : fee) : Prop := u8_ok (fe_scale f) /\ u128_ok (fe_fx f) /\ u128_ok (fe_fy f) /\ u128_ok (fe_hx f) /\ u128_ok (fe_hy f).
Definition pos_bytes_ok (p : cpos) : Prop := u128_ok (cp_liq p) /\ u8_ok (cp_scale p) /\ u64_ok (cp_lower p) /\ u64_ok (cp_upper p) /\ fee_bytes_ok (cp_fee p).
Definition tick_bytes_ok (t : ctick) : Prop :=
  u128_ok (ct_net t) /\ u8_ok (ct_net_scale t) /\ u8_ok (ct_net_neg t) /\ u128_ok (ct_gross t) /\ u8_ok (ct_gross_scale t) /\ u64_ok (ct_tick t) /\ fee_bytes_ok (ct_fee t).
Definition pool_bytes_ok (g : cpool) : Prop := u128_ok (cg_liq g) /\ u8_ok (cg_liq_scale g) /\ u128_ok (cg_rp g) /\ u64_ok (cg_tick g) /\ fee_bytes_ok (cg_fee g).
Definition keys_ok (k : pool_keys) : Prop :=
  is_key (k_auth k) /\ is_key (k_xvault k) /\ is_key (k_yvault k) /\ is_key (k_xmint k) /\ is_key (k_ymint k) /\ is_key (k_lpmint k) /\
  u8_ok (k_bump k) /\ u8_ok (k_xbump k) /\ u8_ok (k_ybump k) /\ u8_ok (k_lpbump k).

(** ** Integers *)
Lemma le_len : forall n v, List.length (le_bytes n v) = n.
Proof. induction n as [| n IH]; intros v; cbn; auto. Qed.
Lemma get_le_bytes : forall n v r, 0 <= v < 256 ^ Z.of_nat n -> get_le n (le_bytes n v ++ r) = Some (v, r).
Proof.
  induction n as [| n IH]; intros v r H. { cbn. replace v with 0 by (cbn in H; lia). auto. }
  rewrite Nat2Z.inj_succ, Z.pow_succ_r in H by lia. cbn [le_bytes app get_le]. rewrite IH.
  - f_equal. f_equal. pose proof (Z.div_mod v 256). lia.
  - split; [apply Z.div_pos; lia |]. apply Z.div_lt_upper_bound; lia.
Qed.
Lemma get8 : forall v r, u8_ok v -> get_le 1 (le_bytes 1 v ++ r) = Some (v, r). Proof. intros v r H. apply get_le_bytes. exact H. Qed.
Lemma get64 : forall v r, u64_ok v -> get_le 8 (le_bytes 8 v ++ r) = Some (v, r). Proof. intros v r H. apply get_le_bytes. exact H. Qed.
Lemma get128 : forall v r, u128_ok v -> get_le 16 (le_bytes 16 v ++ r) = Some (v, r). Proof. intros v r H. apply get_le_bytes. exact H. Qed.
Lemma getk : forall k r, is_key k -> get_key (k ++ r) = Some (k, r).
Proof.
  intros k r H. unfold is_key in H. unfold get_key. rewrite app_length, H. cbn [Nat.ltb Nat.leb Nat.add].
  assert (A : firstn 32 (k ++ r) = k) by (rewrite <- H, firstn_app, Nat.sub_diag, firstn_all; cbn; apply app_nil_r).
  assert (B : skipn 32 (k ++ r) = r) by (rewrite <- H, skipn_app, Nat.sub_diag, skipn_all; auto).
  rewrite A, B. reflexivity.
Qed.
Lemma le_inj : forall n v w, 0 <= v < 256 ^ Z.of_nat n -> 0 <= w < 256 ^ Z.of_nat n -> le_bytes n v = le_bytes n w -> v = w.
Proof. intros n v w A B E. pose proof (get_le_bytes n v [] A) as P. rewrite E, (get_le_bytes n w [] B) in P. congruence. Qed.

(** ** Addresses *)
Lemma app_split : forall (A : Type) (a b c d : list A), List.length a = List.length c -> a ++ b = c ++ d -> a = c /\ b = d.
Proof.
  induction a as [| x a IH]; intros b [| y c] d L E; cbn in *; try discriminate; auto. injection L as L. injection E as -> E.
  destruct (IH _ _ _ L E). subst. auto.
Qed.
Lemma tail_split : forall (a c : list Z) x y t, a ++ [x] ++ t = c ++ [y] ++ t -> a = c /\ x = y.
Proof.
  intros a c x y t E. rewrite !app_assoc in E. assert (E' : a ++ [x] = c ++ [y]).
  { assert (L : List.length (a ++ [x]) = List.length (c ++ [y])) by (apply (f_equal (@List.length Z)) in E; rewrite (app_length (a ++ [x])), (app_length (c ++ [y])) in E; lia).
    exact (proj1 (app_split _ _ _ _ _ L E)). }
  apply app_inj_tail in E'. exact E'.
Qed.
Definition seed_len (a : account) : nat :=
  match a with APool _ => 47 | ABitmap _ => 38 | APosition _ _ _ _ => 88 | ATick _ _ => 44 | AVault _ _ => 80 | ALpVault _ _ => 83 end.
Lemma seeds_len : forall a, acc_ok a -> List.length (List.concat (seeds a)) = seed_len a.
Proof.
  intros a H. destruct a; cbn [seeds List.concat acc_ok seed_len] in *; rewrite ?app_length, ?le_len; unfold is_key in H; repeat match goal with H : _ /\ _ |- _ => destruct H end;
    repeat match goal with H : List.length _ = 32%nat |- _ => rewrite H; clear H end; reflexivity.
Qed.
Ltac seeds_split E := apply app_split in E; [| unfold is_key in *; rewrite ?le_len; congruence]; destruct E as [? E].
Theorem seeds_inj : forall a b, acc_ok a -> acc_ok b -> List.concat (seeds a) = List.concat (seeds b) -> a = b.
Proof.
  intros a b A B E. assert (L : seed_len a = seed_len b) by (rewrite <- (seeds_len a A), <- (seeds_len b B), E; auto).
  destruct a, b; cbn [seed_len] in L; try discriminate L; clear L; cbn [seeds List.concat acc_ok] in *;
    (apply app_split in E; [| reflexivity]); destruct E as [_ E]; repeat match goal with H : _ /\ _ |- _ => destruct H end.
  - seeds_split E. congruence.
  - seeds_split E. congruence.
  - do 4 seeds_split E. f_equal; auto; match goal with H : le_bytes 8 ?x = le_bytes 8 ?y |- ?x = ?y => apply (le_inj 8 x y); auto end.
  - do 2 seeds_split E. f_equal; auto. match goal with H : le_bytes 8 ?x = le_bytes 8 ?y |- ?x = ?y => apply (le_inj 8 x y); auto end.
  - do 2 seeds_split E. congruence.
  - do 2 seeds_split E. congruence.
Qed.
Theorem hashed_inj : forall a b i j pid, acc_ok a -> acc_ok b -> hashed a i pid = hashed b j pid -> a = b /\ i = j.
Proof. intros a b i j pid A B E. apply tail_split in E. destruct E as [E ->]. split; auto. apply seeds_inj; auto. Qed.
Theorem seeds_limits : forall a, acc_ok a -> (List.length (seeds a) + 1 <= 16)%nat /\ Forall (fun s => (List.length s <= 32)%nat) (seeds a).
Proof.
  intros a H. split. { destruct a; cbn; lia. }
  assert (K : forall k, is_key k -> (List.length k <= 32)%nat) by (intros k E; unfold is_key in E; lia).
  assert (V : forall v, (List.length (le_bytes 8 v) <= 32)%nat) by (intros v; rewrite le_len; lia).
  assert (S : forall s, (List.length (str s) <=? 32)%nat = true -> (List.length (str s) <= 32)%nat) by (intros s E; apply Nat.leb_le; exact E).
  destruct a; cbn [seeds acc_ok] in *; repeat match goal with H : _ /\ _ |- _ => destruct H end;
    repeat (apply Forall_cons; [first [apply S; reflexivity | apply V | apply K; assumption] |]); apply Forall_nil.
Qed.

(** ** Contents *)
Lemma fee_back : forall f r, fee_bytes_ok f -> dec_fee (enc_fee f ++ r) = Some (f, r).
Proof.
  intros f r (A & B & C & D & E). unfold dec_fee, enc_fee. rewrite <- !app_assoc. rewrite get8 by exact A. rewrite get128 by exact B. rewrite get128 by exact C. rewrite get128 by exact D. rewrite get128 by exact E.
  destruct f. reflexivity.
Qed.
Lemma pos_back : forall p b r, pos_bytes_ok p -> u8_ok b -> dec_pos (enc_pos p b ++ r) = Some (p, b, r).
Proof.
  intros p b r (A & B & C & D & E) F. unfold dec_pos, enc_pos. rewrite <- !app_assoc. rewrite get128 by exact A. rewrite get8 by exact B. rewrite get64 by exact C. rewrite get64 by exact D. rewrite fee_back by exact E. rewrite get8 by exact F.
  destruct p. reflexivity.
Qed.
Lemma tick_back : forall t b r, tick_bytes_ok t -> u8_ok b -> dec_tick (enc_tick t b ++ r) = Some (t, b, r).
Proof.
  intros t b r (A & B & C & D & E & F & G) H. unfold dec_tick, enc_tick. rewrite <- !app_assoc.
  rewrite get128 by exact A. rewrite get8 by exact B. rewrite get8 by exact C. rewrite get128 by exact D. rewrite get8 by exact E. rewrite get64 by exact F. rewrite fee_back by exact G. rewrite get8 by exact H.
  destruct t. reflexivity.
Qed.
Lemma pool_back : forall k g r, keys_ok k -> pool_bytes_ok g -> dec_pool (enc_pool k g ++ r) = Some (k, ROOT_PRICE_SCALE, g, r).
Proof.
  intros k g r (K1 & K2 & K3 & K4 & K5 & K6 & B1 & B2 & B3 & B4) (A & B & C & D & E). unfold dec_pool, enc_pool. rewrite <- !app_assoc.
  rewrite getk by exact K1. rewrite getk by exact K2. rewrite getk by exact K3. rewrite getk by exact K4. rewrite getk by exact K5. rewrite getk by exact K6.
  rewrite get8 by exact B1. rewrite get8 by exact B2. rewrite get8 by exact B3. rewrite get8 by exact B4.
  rewrite get128 by exact A. rewrite get8 by exact B. rewrite get128 by exact C. rewrite get8 by (unfold u8_ok, ROOT_PRICE_SCALE; lia). rewrite get64 by exact D. rewrite fee_back by exact E.
  destruct k, g. reflexivity.
Qed.
Lemma sizes : (forall p b, Z.of_nat (List.length (enc_pos p b)) = size_pos) /\ (forall t b, Z.of_nat (List.length (enc_tick t b)) = size_tick) /\
  (forall k g, keys_ok k -> Z.of_nat (List.length (enc_pool k g)) = size_pool).
Proof.
  split; [| split].
  - intros. unfold enc_pos, enc_fee. rewrite !app_length, !le_len. reflexivity.
  - intros. unfold enc_tick, enc_fee. rewrite !app_length, !le_len. reflexivity.
  - intros k g (K1 & K2 & K3 & K4 & K5 & K6 & _). unfold enc_pool, enc_fee. rewrite !app_length, !le_len, K1, K2, K3, K4, K5, K6. reflexivity.
Qed.

(** ** Every reached state can be stored *)
From Verif Require Import BaseLemmas DecimalModel DecimalProofs WfProofs MathModel MathProofs TickProofs PoolWf ChainLemmas ChainSpec ChainProofs ChainInv.
Definition stored (s : cstate) : Prop :=
  (forall g, c_pool s = Some g -> u64_ok (cg_tick g) /\ u128_ok (cg_rp g)) /\ (forall k t, ct_get k (c_ticks s) = Some t -> u64_ok k /\ u8_ok (ct_net_neg t)).
Lemma update_tick_neg : forall t k d up t', c_update_tick t k d up = Ok t' -> u8_ok (ct_net_neg t').
Proof.
  intros t k d up t' H. unfold c_update_tick in H. destruct (negb _); [discriminate H |]. bd H a E1. bd H b E2. bd H c E3. bd H e E4. destruct (dneg e); [discriminate H |]. injection H as <-. cbn [ct_net_neg].
  unfold u8_ok. destruct (dneg b); lia.
Qed.
Lemma update_position_neg : forall ps lt ut d l h nf ps' lt' ut', c_update_position ps lt ut d l h nf = Ok (ps', lt', ut') -> u8_ok (ct_net_neg lt') /\ u8_ok (ct_net_neg ut').
Proof.
  intros ps lt ut d l h nf ps' lt' ut' H. unfold c_update_position in H. bd H a E1. bd H b E2. destruct (dneg b); [discriminate H |]. bd H x E3. bd H y E4. injection H as <- <- <-.
  split; eapply update_tick_neg; eauto.
Qed.
Lemma write_stored : forall s u l h c bm ps bm0 ps0 lt0 ut0 cur0 g lt ut cur x y lp sup g', stored s -> load_accounts s u l h c = Ok (g, bm0, ps0, lt0, ut0, cur0) ->
  cg_tick g' = cg_tick g -> cg_rp g' = cg_rp g -> u8_ok (ct_net_neg lt) -> u8_ok (ct_net_neg ut) -> cur = cur0 ->
  stored (write_back s g' bm (u, l, h) ps l h c lt ut cur x y lp sup).
Proof.
  intros s u l h c bm ps bm0 ps0 lt0 ut0 cur0 g lt ut cur x y lp sup g' [P T] L E1 E2 N1 N2 ->. destruct (load_ok _ _ _ _ _ _ _ _ _ _ _ L) as (L1 & L2 & L3 & L4 & L5 & L6 & L7 & L8).
  unfold stored, write_back. cbn [c_pool c_ticks]. split.
  - intros g0 [= <-]. rewrite E1, E2. exact (P g L1).
  - intros k t. rewrite !ct_get_set. destruct (k =? c) eqn:K1; [apply Z.eqb_eq in K1; subst k; intros [= <-]; exact (T _ _ L6) |].
    destruct (k =? h) eqn:K2; [apply Z.eqb_eq in K2; subst k; intros [= <-]; split; [exact (proj1 (T _ _ L5)) | exact N2] |].
    destruct (k =? l) eqn:K3; [apply Z.eqb_eq in K3; subst k; intros [= <-]; split; [exact (proj1 (T _ _ L4)) | exact N1] |]. intros G. exact (T _ _ G).
Qed.
Lemma global_keeps : forall g l h c d g', c_update_global g l h c d = Ok g' -> cg_tick g' = cg_tick g /\ cg_rp g' = cg_rp g.
Proof. intros g l h c d g' H. unfold c_update_global in H. destruct (_ && _); [| injection H as <-; auto]. bd H n E. destruct (dneg n); [discriminate H |]. injection H as <-. auto. Qed.
Lemma exec_stored : forall s i s', stored s -> exec s i = Ok s' -> stored s'.
Proof.
  intros s i s' I H. unfold exec in H. destruct (args_ok i) eqn:AO; [| discriminate H]. cbn [negb] in H. pose proof I as [P T].
  destruct i as [t | | t | u l h | u l h c xa ya to | u l h c n | f to a | f to a | f to a | f a]; cbn [args_ok] in AO.
  - unfold i_init_pool in H. destruct (c_pool s) eqn:E; [discriminate H |]. bd H r E1. bd H r' E2. injection H as <-. split; cbn [c_pool c_ticks]; [| exact T]. intros g [= <-]. cbn [cg_tick cg_rp].
    assert (TT : u64_ok t) by (unfold ChainModel.is_u64, U64 in AO; b2p; split; lia). split; [exact TT |].
    pose proof (tick_rp_wf _ _ E1) as (W & _). destruct (to_scale_wf _ _ _ E2 W ltac:(cbv; split; discriminate)) as [[W1 _] _]. exact W1.
  - unfold i_init_bitmap in H. destruct (c_pool s) eqn:E; [| discriminate H]. destruct (c_bitmap s); [discriminate H |]. injection H as <-. split; cbn [c_pool c_ticks]; [rewrite <- E in *; exact P | exact T].
  - unfold i_init_tick in H. destruct (c_pool s) as [g |] eqn:E; [| discriminate H]. destruct (ct_get t (c_ticks s)) eqn:E1; [discriminate H |]. injection H as <-. split; cbn [c_pool c_ticks]; [rewrite <- E in *; exact P |].
    intros k ct. rewrite ct_get_set. destruct (k =? t) eqn:K; [| exact (T k ct)]. apply Z.eqb_eq in K. subst k. intros [= <-]. cbn [ct_net_neg]. unfold ChainModel.is_u64, U64 in AO. b2p. unfold u64_ok, u8_ok. lia.
  - unfold i_create_position in H. destruct (c_pool s) as [g |] eqn:E; [| discriminate H]. destruct (cp_get (u, l, h) (c_pos s)) eqn:E1; [discriminate H |]. destruct (ct_get l (c_ticks s)) eqn:E2; [| discriminate H]. destruct (ct_get h (c_ticks s)) eqn:E3; [| discriminate H]. destruct (l <? h) eqn:E4; [| discriminate H].
    injection H as <-. split; cbn [c_pool c_ticks]; [rewrite <- E in *; exact P | exact T].
  - unfold i_deposit in H. bd H r L. destruct r as [[[[[g bm] ps] lt] ut] cur]. bd H x E1. bd H y E2. bd H pa E3. bd H pb E4. bd H rp E5. bd H d E6. destruct (dneg d); [discriminate H |]. bd H b1 E7. bd H b2 E8. bd H xi E9. bd H yi E10. bd H nf E11.
    bd H r E12. destruct r as [[ps' lt'] ut']. bd H g' E13. bd H fx E14. bd H xd E15. bd H fy E16. bd H yd E17. bd H b3 E18. destruct b3; [discriminate H |]. bd H b4 E19. destruct b4; [discriminate H |]. bd H n E20. bd H r E21. destruct r as [lp sup]. bd H ax E22. bd H lx E23. bd H ay E24. bd H ly E25. injection H as <-.
    destruct (update_position_neg _ _ _ _ _ _ _ _ _ _ E12) as [N1 N2]. destruct (global_keeps _ _ _ _ _ _ E13) as [G1 G2]. exact (write_stored _ _ _ _ _ _ _ _ _ _ _ _ _ _ _ _ _ _ _ _ _ I L G1 G2 N1 N2 eq_refl).
  - unfold i_withdraw in H. bd H r L. destruct r as [[[[[g bm] ps] lt] ut] cur]. bd H dp E1. bd H pa E3. bd H pb E4. bd H rp E5. bd H nf E11.
    bd H r E12. destruct r as [[ps' lt'] ut']. bd H b1 E7. bd H b2 E8. bd H g' E13. bd H xi E9. bd H yi E10. bd H fx E14. bd H xd E15. bd H fy E16. bd H yd E17. bd H r E21. destruct r as [lp sup]. bd H ax E22. bd H lx E23. bd H ay E24. bd H ly E25. injection H as <-.
    destruct (update_position_neg _ _ _ _ _ _ _ _ _ _ E12) as [N1 N2]. destruct (global_keeps _ _ _ _ _ _ E13) as [G1 G2]. exact (write_stored _ _ _ _ _ _ _ _ _ _ _ _ _ _ _ _ _ _ _ _ _ I L G1 G2 N1 N2 eq_refl).
  - bd H x E. injection H as <-. exact I.
  - bd H x E. injection H as <-. exact I.
  - bd H x E. injection H as <-. exact I.
  - bd H x E. destruct x as [lp sup]. injection H as <-. exact I.
Qed.
Lemma reached_stored : forall s, reached s -> stored s.
Proof.
  intros s (x & y & is & _ & _ & ->). assert (G : stored (genesis x y)) by (split; intros; discriminate). revert G. generalize (genesis x y). unfold run_txs. induction is as [| i r IH]; intros s G; cbn; [exact G |].
  apply IH. unfold tx. destruct (exec s i) eqn:E; try exact G. exact (exec_stored _ _ _ G E).
Qed.
Lemma fee0_ok : fee_bytes_ok fee0. Proof. unfold fee_bytes_ok, fee0, u8_ok, u128_ok. cbn. lia. Qed.
Theorem reached_bytes : forall s, reached s ->
  (forall g, c_pool s = Some g -> pool_bytes_ok g) /\ (forall k t, ct_get k (c_ticks s) = Some t -> tick_bytes_ok t) /\ (forall k q, cp_get k (c_pos s) = Some q -> pos_bytes_ok q).
Proof.
  intros s R. pose proof (reached_stored s R) as [P T]. destruct (reached_inv s R) as [(S1 & S2 & S3 & _) _ _ IB _ _ _ _ _]. unfold U128 in *.
  split; [| split].
  - intros g G. destruct (P g G) as [P1 P2]. destruct (S1 g G) as (A & B & C). unfold pool_bytes_ok. rewrite A, C. pose proof fee0_ok. unfold u8_ok, u128_ok, u64_ok in *. unfold U128 in B. repeat split; try assumption; try lia; apply fee0_ok.
  - intros k t G. destruct (T k t G) as [P1 P2]. destruct (S2 k t G) as [(A1 & A2 & A3 & A4 & A5 & A6) _]. unfold tick_bytes_ok. rewrite A1, A2, A3, A6. unfold U128 in *. pose proof fee0_ok. unfold u8_ok, u128_ok, u64_ok in *. repeat split; try assumption; try lia; apply fee0_ok.
  - intros [[u l] h] q G. destruct (S3 _ _ G) as (A1 & A2 & A3 & A4 & A5 & A6). destruct (IB _ _ G) as [[t1 G1] [t2 G2]]. cbn [lower upper] in G1, G2. destruct (T _ _ G1) as [L1 _]. destruct (T _ _ G2) as [L2 _].
    unfold pos_bytes_ok. rewrite A1, A2, A3, A5. unfold U128 in *. unfold u8_ok, u128_ok, u64_ok in *. repeat split; try assumption; try lia; apply fee0_ok.
Qed.
Theorem reached_read_back : forall s, reached s ->
  (forall g k rest, c_pool s = Some g -> keys_ok k -> dec_pool (enc_pool k g ++ rest) = Some (k, ROOT_PRICE_SCALE, g, rest) /\ Z.of_nat (List.length (enc_pool k g)) = size_pool) /\
  (forall t x b rest, ct_get t (c_ticks s) = Some x -> u8_ok b -> dec_tick (enc_tick x b ++ rest) = Some (x, b, rest) /\ Z.of_nat (List.length (enc_tick x b)) = size_tick) /\
  (forall n q b rest, cp_get n (c_pos s) = Some q -> u8_ok b -> dec_pos (enc_pos q b ++ rest) = Some (q, b, rest) /\ Z.of_nat (List.length (enc_pos q b)) = size_pos).
Proof.
  intros s R. destruct (reached_bytes s R) as (A & B & C). destruct sizes as (S1 & S2 & S3). split; [| split].
  - intros g k rest G K. split; [exact (pool_back k g rest K (A g G)) | exact (S3 k g K)].
  - intros t x b rest G K. split; [exact (tick_back x b rest (B t x G) K) | exact (S2 x b)].
  - intros n q b rest G K. split; [exact (pos_back q b rest (C n q G) K) | exact (S1 q b)].
Qed.
Theorem same_address : forall H a b i j program, acc_ok a -> acc_ok b -> H (hashed a i program) = H (hashed b j program) -> a = b \/ (exists u v : list Z, u <> v /\ (H u : key) = H v).
Proof.
  intros H a b i j p A B E. destruct (list_eq_dec Z.eq_dec (hashed a i p) (hashed b j p)) as [X | X].
  - left. exact (proj1 (hashed_inj _ _ _ _ _ A B X)).
  - right. exists (hashed a i p), (hashed b j p). auto.
Qed.
