(** Printing and parsing. *)
From Coq Require Import ZArith QArith List Bool Ascii String Lia Lqa.
From Verif Require Import Base BaseLemmas DecimalModel DecimalSpec DecimalProofs DecimalStr StrSpec.
Import ListNotations.
Open Scope Z_scope.

Lemma digit_cases : forall d, is_digit d ->
  d = 0 \/ d = 1 \/ d = 2 \/ d = 3 \/ d = 4 \/ d = 5 \/ d = 6 \/ d = 7 \/ d = 8 \/ d = 9.
Proof. unfold is_digit; intros; lia. Qed.
Ltac dcase H := destruct (digit_cases _ H) as [-> | [-> | [-> | [-> | [-> | [-> | [-> | [-> | [-> | ->]]]]]]]]].

Lemma char_digit_text : forall d, is_digit d -> char_digit (digit_text d) = Some d.
Proof. intros d H. dcase H; reflexivity. Qed.
Lemma digit_char_text : forall d, is_digit d -> digit_char d = digit_text d.
Proof. intros d H. dcase H; reflexivity. Qed.
Lemma digit_not : forall d, is_digit d ->
  is_exp_char (digit_text d) = false /\ is_minus (digit_text d) = false /\ is_dot (digit_text d) = false.
Proof. intros d H. dcase H; repeat split. Qed.

Lemma dtext_app : forall a b, dtext (a ++ b) = (dtext a ++ dtext b)%string.
Proof. induction a; intros; cbn; auto. rewrite IHa. reflexivity. Qed.
Lemma dtext_length : forall a, String.length (dtext a) = List.length a.
Proof. induction a; cbn; auto. Qed.

Lemma parse_dtext : forall ds acc, Forall is_digit ds ->
  parse_digits (dtext ds) acc = Some (acc * 10 ^ Z.of_nat (List.length ds) + dvalue ds).
Proof.
  induction ds; intros acc H; cbn [dtext parse_digits dvalue List.length].
  - f_equal. change (10 ^ Z.of_nat 0) with 1. lia.
  - inversion H; subst. rewrite char_digit_text by auto. rewrite IHds by auto. f_equal.
    rewrite Nat2Z.inj_succ, Z.pow_succ_r by lia. ring.
Qed.

Lemma parse_nat_dtext : forall ds, Forall is_digit ds -> ds <> [] -> parse_nat (dtext ds) = Some (dvalue ds).
Proof.
  intros ds H Hn. destruct ds; [congruence |]. unfold parse_nat. cbn [dtext].
  change (String (digit_text z) (dtext ds)) with (dtext (z :: ds)). rewrite parse_dtext by auto. f_equal. 
Qed.

Lemma parse_u128_dtext : forall ds, Forall is_digit ds -> ds <> [] ->
  parse_u128 (dtext ds) = if dvalue ds <? U128 then Ok (dvalue ds) else Panic.
Proof.
  intros ds H Hn.
  assert (G : parse_u128 (dtext ds) = match parse_nat (dtext ds) with Some v => if v <? U128 then Ok v else Panic | None => Panic end).
  { destruct ds as [| d r]; [congruence |]. inversion H; subst. cbn [dtext]. dcase H2; reflexivity. }
  rewrite G, parse_nat_dtext by auto. reflexivity.
Qed.

(** Splitting *)
Fixpoint none (f : ascii -> bool) (s : string) : Prop :=
  match s with EmptyString => True | String c r => f c = false /\ none f r end.
Lemma none_app : forall f a b, none f a -> none f b -> none f (a ++ b)%string.
Proof. induction a; intros b Ha Hb; cbn in *; auto. destruct Ha; auto. Qed.
Lemma split_none : forall f s, none f s -> split_at f s = None.
Proof. induction s; intros H; cbn in *; auto. destruct H as [-> H]. rewrite IHs by auto. reflexivity. Qed.
Lemma split_some : forall f a c b, none f a -> f c = true -> split_at f (a ++ String c b)%string = Some (a, b).
Proof.
  induction a; intros c b Ha Hc; cbn in *. { rewrite Hc. reflexivity. }
  destruct Ha as [-> Ha]. rewrite IHa by auto. reflexivity.
Qed.
Lemma none_dtext : forall ds, Forall is_digit ds ->
  none is_exp_char (dtext ds) /\ none is_minus (dtext ds) /\ none is_dot (dtext ds).
Proof.
  induction 1; cbn; auto. destruct (digit_not _ H) as [A [B C]]. destruct IHForall as [D [E F]]. auto.
Qed.

Lemma app_empty_r : forall s, (s ++ "")%string = s.
Proof. induction s; cbn; auto. rewrite IHs. reflexivity. Qed.
Lemma app_assoc_s : forall a b c, ((a ++ b) ++ c)%string = (a ++ b ++ c)%string.
Proof. induction a; intros; cbn; auto. rewrite IHa. reflexivity. Qed.

(** What [from_base_exp] does on a plain numeral *)
Lemma from_base_exp_plain : forall fb neg lead point trail e,
  Forall is_digit lead -> Forall is_digit trail -> (lead ++ trail)%list <> [] -> (point = false -> trail = []) ->
  - 2 ^ 62 <= e -> Z.of_nat (List.length trail) < 2 ^ 62 ->
  from_base_exp fb (plain_text neg lead point trail) e =
  if 0 <? e then
    let* b := unwrap (fb (plain_text false lead point trail)) in
    let* b' := to_scale b (e mod 256) in
    to_scale (mkD (dval b') 0 neg) (e mod 256)
  else
    if dvalue (lead ++ trail) <? U128
    then Ok (mkD (dvalue (lead ++ trail)) (Z.abs (Z.of_nat (List.length trail) - e) mod 256) neg) else Panic.
Proof.
  intros fb neg lead point trail e Hl Ht Hne Hp He Hlen.
  destruct (none_dtext lead Hl) as [Le [Lm Ld]]. destruct (none_dtext trail Ht) as [Te [Tm Td]].
  set (rest := (dtext lead ++ (if point then "." ++ dtext trail else ""))%string).
  assert (Rm : none is_minus rest).
  { unfold rest. apply none_app; auto. destruct point; cbn; auto. }
  assert (Rne : rest <> EmptyString).
  { unfold rest. destruct lead; [| cbn; discriminate]. destruct point; [cbn; discriminate |].
    rewrite Hp in Hne by auto. cbn in Hne. congruence. }
  assert (Dot : split_at is_dot rest = if point then Some (dtext lead, dtext trail) else None).
  { unfold rest. destruct point.
    - change ("." ++ dtext trail)%string with (String "."%char (dtext trail)). apply split_some; auto.
    - rewrite app_empty_r. apply split_none; auto. }
  assert (Core : forall b : bool,
    (let '(digits, off) :=
        match split_at is_dot rest with
        | None => (rest, 0)
        | Some (lead0, trail0) => ((lead0 ++ trail0)%string, Z.of_nat (String.length trail0))
        end in
      let* _ := (if off - e <=? I64_MAX then Ok tt else Panic) in
      let scale := Z.abs (off - e) mod 256 in
      if 0 <? e then
        let* b := unwrap (fb rest) in
        let* b' := to_scale b (e mod 256) in
        to_scale (mkD (dval b') 0 neg) (e mod 256)
      else
        let* v := parse_u128 digits in
        Ok (mkD v scale neg)) =
    if 0 <? e then
    let* b := unwrap (fb rest) in
    let* b' := to_scale b (e mod 256) in
    to_scale (mkD (dval b') 0 neg) (e mod 256)
  else
    if dvalue (lead ++ trail) <? U128
    then Ok (mkD (dvalue (lead ++ trail)) (Z.abs (Z.of_nat (List.length trail) - e) mod 256) neg) else Panic).
  { intros _. rewrite Dot. destruct point.
    - rewrite dtext_length. rewrite (proj2 (Z.leb_le _ _)) by (unfold I64_MAX; lia). cbn [bind].
      destruct (0 <? e); auto. rewrite <- dtext_app, parse_u128_dtext; auto.
      + destruct (_ <? _); reflexivity.
      + apply Forall_app; auto.
    - rewrite (proj2 (Z.leb_le _ _)) by (unfold I64_MAX; lia). cbn [bind].
      destruct (0 <? e); auto. unfold rest. rewrite app_empty_r. rewrite Hp in * by auto.
      rewrite List.app_nil_r in *. rewrite parse_u128_dtext; auto. cbn [List.length]. destruct (_ <? _); reflexivity. }
  change (plain_text false lead point trail) with rest.
  unfold from_base_exp, plain_text, sign_text. fold rest. destruct neg.
  - change ("-" ++ rest)%string with (String "-"%char rest).
    change (split_at is_minus (String "-"%char rest)) with (Some (EmptyString, rest)). cbn [bind].
    exact (Core true).
  - change ("" ++ rest)%string with rest. rewrite (split_none _ _ Rm). cbn [bind].
    destruct rest eqn:ER; [congruence |]. rewrite <- ER in *. exact (Core true).
Qed.

Lemma none_exp_plain : forall neg lead point trail, Forall is_digit lead -> Forall is_digit trail ->
  none is_exp_char (plain_text neg lead point trail).
Proof.
  intros neg lead point trail Hl Ht. destruct (none_dtext lead Hl) as [Le _]. destruct (none_dtext trail Ht) as [Te _].
  unfold plain_text. apply none_app. { destruct neg; cbn; auto. } apply none_app; auto. destruct point; cbn; auto.
Qed.

Lemma from_str_plain : forall neg lead point trail,
  Forall is_digit lead -> Forall is_digit trail -> (lead ++ trail)%list <> [] -> (point = false -> trail = []) ->
  Z.of_nat (List.length trail) < 2 ^ 62 ->
  from_str (plain_text neg lead point trail) =
    if dvalue (lead ++ trail) <? U128
    then Ok (mkD (dvalue (lead ++ trail)) (Z.of_nat (List.length trail) mod 256) neg) else Panic.
Proof.
  intros neg lead point trail Hl Ht Hne Hp Hlen. unfold from_str.
  rewrite (split_none _ _ (none_exp_plain neg lead point trail Hl Ht)).
  rewrite from_base_exp_plain by (auto; lia). cbn [Z.ltb Z.compare].
  replace (Z.abs (Z.of_nat (List.length trail) - 0)) with (Z.of_nat (List.length trail)) by lia. reflexivity.
Qed.

Lemma noexp_plain : forall neg lead point trail,
  Forall is_digit lead -> Forall is_digit trail -> (lead ++ trail)%list <> [] -> (point = false -> trail = []) ->
  Z.of_nat (List.length trail) < 2 ^ 62 ->
  from_str_noexp (plain_text neg lead point trail) =
    if dvalue (lead ++ trail) <? U128
    then Ok (mkD (dvalue (lead ++ trail)) (Z.of_nat (List.length trail) mod 256) neg) else Panic.
Proof.
  intros neg lead point trail Hl Ht Hne Hp Hlen. unfold from_str_noexp.
  rewrite from_base_exp_plain by (auto; lia). cbn [Z.ltb Z.compare].
  replace (Z.abs (Z.of_nat (List.length trail) - 0)) with (Z.of_nat (List.length trail)) by lia. reflexivity.
Qed.

(** ** Printing *)
Lemma dvalue_app : forall a b, dvalue (a ++ b) = dvalue a * 10 ^ Z.of_nat (List.length b) + dvalue b.
Proof.
  induction a; intros; cbn [List.app dvalue]. { lia. }
  rewrite IHa, List.app_length, Nat2Z.inj_add, Z.pow_add_r by lia. ring.
Qed.

Lemma digits_aux_spec : forall f n acc, 0 <= n < 10 ^ Z.of_nat f -> (0 < f)%nat ->
  exists ds, digits_aux f n acc = (dtext ds ++ acc)%string /\ Forall is_digit ds /\ ds <> [] /\ dvalue ds = n.
Proof.
  induction f; intros n acc Hn Hf; [lia |]. cbn [digits_aux].
  assert (Hm : is_digit (n mod 10)) by (unfold is_digit; pose proof (Z.mod_pos_bound n 10 ltac:(lia)); lia).
  rewrite digit_char_text by auto. pose proof (Z.div_mod n 10 ltac:(lia)) as D.
  destruct (n / 10 =? 0) eqn:E; b2p.
  - exists [n mod 10]. cbn. repeat split; auto; try discriminate. change (10 ^ 0) with 1. lia.
  - assert (Hq : 0 <= n / 10 < 10 ^ Z.of_nat f).
    { rewrite Nat2Z.inj_succ, Z.pow_succ_r in Hn by lia. split; [apply Z.div_pos; lia |].
      apply Z.div_lt_upper_bound; lia. }
    assert (0 < f)%nat. { destruct f; [| lia]. change (10 ^ Z.of_nat 0) with 1 in Hq. lia. }
    destruct (IHf (n / 10) (String (digit_text (n mod 10)) acc) Hq H) as [ds [E1 [E2 [E3 E4]]]].
    exists (ds ++ [n mod 10])%list. rewrite E1, dtext_app, app_assoc_s. repeat split; auto.
    + apply Forall_app; auto.
    + destruct ds; discriminate.
    + rewrite dvalue_app, E4. cbn [dvalue List.length]. change (Z.of_nat 1) with 1. change (10 ^ 1) with 10.
      change (Z.of_nat 0) with 0. change (10 ^ 0) with 1. lia.
Qed.

Lemma to_string_digits : forall n, 0 <= n < 2 ^ 128 ->
  exists ds, u128_to_string n = dtext ds /\ Forall is_digit ds /\ ds <> [] /\ dvalue ds = n.
Proof.
  intros n Hn. destruct (digits_aux_spec 40 n EmptyString) as [ds [E H]]; [| lia |].
  - split; [lia |]. apply Z.lt_trans with (2 ^ 128); [lia |]. reflexivity.
  - exists ds. rewrite app_empty_r in E. auto.
Qed.

Lemma insert_split : forall a b, insert_at (List.length a) "."%char (dtext (a ++ b)) = (dtext a ++ "." ++ dtext b)%string.
Proof.
  induction a; intros b; cbn. { destruct b; reflexivity. } rewrite IHa. reflexivity.
Qed.

Lemma repeat_zero : forall n, repeat_char "0"%char n = dtext (repeat 0 n).
Proof. induction n; cbn; auto. rewrite IHn. reflexivity. Qed.
Lemma dvalue_zeros : forall n, dvalue (repeat 0 n) = 0.
Proof. induction n; cbn [repeat dvalue]; auto. Qed.
Lemma digits_zeros : forall n, Forall is_digit (repeat 0 n).
Proof. induction n; cbn; constructor; auto. unfold is_digit; lia. Qed.

(** The printed text is a plain numeral with exactly [scale] digits after the point. *)
Lemma to_string_shape : forall d, wf d -> exists lead trail,
  d_to_string d = plain_text (dneg d) lead (0 <? dscale d) trail /\
  Forall is_digit lead /\ Forall is_digit trail /\ lead <> [] /\
  Z.of_nat (List.length trail) = dscale d /\ dvalue (lead ++ trail) = dval d.
Proof.
  intros d [Hv Hs]. destruct (to_string_digits (dval d) Hv) as [ds [E [Hd [Hne Hval]]]].
  unfold d_to_string. rewrite E, dtext_length. set (sc := Z.to_nat (dscale d)).
  assert (Hsc : Z.of_nat sc = dscale d) by (unfold sc; lia).
  assert (Sg : forall rep, (if dneg d then String "-"%char rep else rep) = (sign_text (dneg d) ++ rep)%string)
    by (intros; destruct (dneg d); reflexivity).
  rewrite Sg. unfold plain_text. destruct (0 <? dscale d) eqn:E0; b2p.
  - destruct (Nat.ltb (List.length ds) sc) eqn:E1.
    + apply Nat.ltb_lt in E1. exists [0], (repeat 0 (sc - List.length ds) ++ ds)%list.
      rewrite repeat_zero, <- dtext_app. split; [reflexivity |]. repeat split; auto; try discriminate.
      * repeat constructor; lia.
      * apply Forall_app. split; auto. apply digits_zeros.
      * rewrite List.app_length, repeat_length. lia.
      * cbn [List.app dvalue]. rewrite dvalue_app, dvalue_zeros, Hval. lia.
    + apply Nat.ltb_ge in E1. destruct (Nat.eqb sc (List.length ds)) eqn:E2.
      * apply Nat.eqb_eq in E2. exists [0], ds. split; [reflexivity |]. repeat split; auto; try discriminate.
        { repeat constructor; lia. } { lia. }
      * apply Nat.eqb_neq in E2. set (k := (List.length ds - sc)%nat).
        exists (firstn k ds), (skipn k ds).
        assert (Lk : List.length (firstn k ds) = k) by (rewrite firstn_length; lia).
        rewrite firstn_skipn. split.
        { f_equal. rewrite <- (insert_split (firstn k ds)). rewrite Lk, firstn_skipn. reflexivity. }
        rewrite <- (firstn_skipn k ds), Forall_app in Hd. destruct Hd. repeat split; auto.
        { intro HH. rewrite HH in Lk. cbn in Lk. lia. }
        rewrite skipn_length. lia.
  - exists ds, []. cbn [dtext]. rewrite app_empty_r, List.app_nil_r. repeat split; auto. cbn. lia.
Qed.

Lemma round_trip : forall d, wf d -> from_str (d_to_string d) = Ok d.
Proof.
  intros d W. destruct (to_string_shape d W) as [lead [trail [E [Hl [Ht [Hne [Hlen Hval]]]]]]]. destruct W as [Hv Hs].
  rewrite E, from_str_plain; auto.
  - rewrite Hval, Hlen. unfold U128. rewrite (proj2 (Z.ltb_lt _ _)) by lia. rewrite Z.mod_small by lia. destruct d; reflexivity.
  - destruct lead; [congruence | discriminate].
  - intros H; b2p. destruct trail; auto. cbn in Hlen. lia.
  - lia.
Qed.

(** The printed text denotes the number. *)
Lemma to_string_written : forall d, wf d -> exists lead trail,
  d_to_string d = plain_text (dneg d) lead (0 <? dscale d) trail /\
  Forall is_digit lead /\ Forall is_digit trail /\ lead <> [] /\ Z.of_nat (List.length trail) = dscale d /\
  (written (dneg d) lead trail 0 == num d)%Q.
Proof.
  intros d W. destruct (to_string_shape d W) as [lead [trail [E [Hl [Ht [Hne [Hlen Hval]]]]]]].
  exists lead, trail. repeat split; auto. unfold written, num, mant. rewrite Hval, Hlen. destruct W as [Hv Hs].
  assert (10 ^ 0 = 1) by reflexivity.
  destruct (0 <=? 0 - dscale d) eqn:E0; b2p.
  - replace (dscale d) with 0 by lia. change (10 ^ (0 - 0)) with 1. rewrite H. field.
  - replace (dscale d - 0) with (dscale d) by lia. field. apply inject_nz. apply pow10_pos. lia.
Qed.

(** ** Scientific notation *)
Lemma parse_i64_exp : forall s ds, Forall is_digit ds -> ds <> [] -> dvalue ds <= 2 ^ 62 ->
  parse_i64 (esign_text s ++ dtext ds)%string = Ok (evalue s ds).
Proof.
  intros s ds H Hn Hb. destruct s; cbn [esign_text evalue].
  - assert (G : parse_i64 (dtext ds) = match parse_nat (dtext ds) with Some v => if v <=? I64_MAX then Ok v else Panic | None => Panic end).
    { destruct ds as [| d r]; [congruence |]. inversion H; subst. cbn [dtext]. dcase H2; reflexivity. }
    change (parse_i64 (dtext ds) = Ok (dvalue ds)). rewrite G, parse_nat_dtext by auto.
    rewrite (proj2 (Z.leb_le _ _)) by (unfold I64_MAX; lia). reflexivity.
  - change ("+" ++ dtext ds)%string with (String "+"%char (dtext ds)). unfold parse_i64.
    rewrite parse_nat_dtext by auto. rewrite (proj2 (Z.leb_le _ _)) by (unfold I64_MAX; lia). reflexivity.
  - change ("-" ++ dtext ds)%string with (String "-"%char (dtext ds)). unfold parse_i64.
    rewrite parse_nat_dtext by auto. rewrite (proj2 (Z.leb_le _ _)) by lia. reflexivity.
Qed.

Lemma dvalue_nonneg : forall ds, Forall is_digit ds -> 0 <= dvalue ds.
Proof.
  induction 1; cbn [dvalue]; [lia |]. unfold is_digit in H.
  pose proof (pow10_pos (Z.of_nat (List.length l)) ltac:(lia)). nia.
Qed.

Lemma from_str_sci : forall neg lead point trail cap s ds,
  Forall is_digit lead -> Forall is_digit trail -> (lead ++ trail)%list <> [] -> (point = false -> trail = []) ->
  Forall is_digit ds -> ds <> [] -> dvalue ds <= 2 ^ 62 ->
  from_str (sci_text neg lead point trail cap s ds) =
  from_base_exp from_str_noexp (plain_text neg lead point trail) (evalue s ds).
Proof.
  intros neg lead point trail cap s ds Hl Ht Hne Hp Hd Hdn Hb. unfold from_str, sci_text.
  pose proof (none_exp_plain neg lead point trail Hl Ht) as NE.
  assert (E : split_at is_exp_char (plain_text neg lead point trail ++ (if cap then "E" else "e") ++ esign_text s ++ dtext ds)%string
              = Some (plain_text neg lead point trail, (esign_text s ++ dtext ds)%string)).
  { destruct cap.
    - change ("E" ++ esign_text s ++ dtext ds)%string with (String "E"%char (esign_text s ++ dtext ds)). apply split_some; auto.
    - change ("e" ++ esign_text s ++ dtext ds)%string with (String "e"%char (esign_text s ++ dtext ds)). apply split_some; auto. }
  rewrite E, parse_i64_exp by auto. reflexivity.
Qed.

(** Exact whenever the exponent is not positive and the scale fits in a byte. *)
Lemma sci_nonpos : forall neg lead point trail cap s ds,
  Forall is_digit lead -> Forall is_digit trail -> (lead ++ trail)%list <> [] -> (point = false -> trail = []) ->
  Forall is_digit ds -> ds <> [] ->
  evalue s ds <= 0 -> Z.of_nat (List.length trail) - evalue s ds <= 255 ->
  returns_or_panics (from_str (sci_text neg lead point trail cap s ds))
    (fun d => wf d /\ (num d == written neg lead trail (evalue s ds))%Q)
    (2 ^ 128 <= dvalue (lead ++ trail)).
Proof.
  intros neg lead point trail cap s ds Hl Ht Hne Hp Hd Hdn He Hs.
  assert (V : 0 <= dvalue ds <= 2 ^ 62). { split; [apply dvalue_nonneg; auto |]. destruct s; cbn in *; lia. }
  rewrite from_str_sci by (auto; lia). rewrite from_base_exp_plain by (auto; lia).
  rewrite (proj2 (Z.ltb_ge _ _)) by lia. assert (0 <= dvalue (lead ++ trail)) by (apply dvalue_nonneg, Forall_app; auto).
  destruct (dvalue (lead ++ trail) <? U128) eqn:E; b2p; unfold U128 in *; cbn [returns_or_panics]; auto.
  set (len := Z.of_nat (List.length trail)) in *. set (e := evalue s ds) in *.
  rewrite Z.mod_small by lia. replace (Z.abs (len - e)) with (len - e) by lia. split.
  - split; cbn; lia.
  - unfold num, mant, written. cbn [dval dscale dneg]. fold len.
    destruct (0 <=? e - len) eqn:E1; b2p.
    + assert (len - e = 0) by lia. rewrite H0. replace (e - len) with 0 by lia. change (10 ^ 0) with 1. field.
    + field. apply inject_nz, pow10_pos. lia.
Qed.

Lemma to_scale_ok_up : forall d s c, wf d -> 0 <= s -> dscale d <= s -> to_scale d s = Ok c ->
  c = mkD (dval d * 10 ^ (s - dscale d)) s (dneg d).
Proof.
  intros d s c _ Hs H E. unfold to_scale in E. rewrite (proj2 (Z.ltb_ge _ _)) in E by lia. msteps. reflexivity.
Qed.

(** A positive exponent: exact if no more fractional digits were written than the exponent, else the fraction that
    remains after shifting is dropped. *)
Lemma sci_pos : forall neg lead point trail cap s ds,
  Forall is_digit lead -> Forall is_digit trail -> (lead ++ trail)%list <> [] -> (point = false -> trail = []) ->
  Forall is_digit ds -> ds <> [] ->
  0 < evalue s ds <= 255 -> Z.of_nat (List.length trail) <= 255 ->
  returns_or_panics (from_str (sci_text neg lead point trail cap s ds))
    (fun d => wf d /\ truncated 0 (num d) (written neg lead trail (evalue s ds)) /\
              (Z.of_nat (List.length trail) <= evalue s ds -> (num d == written neg lead trail (evalue s ds))%Q))
    True.
Proof.
  intros neg lead point trail cap s ds Hl Ht Hne Hp Hd Hdn He Hs.
  assert (V : 0 <= dvalue ds <= 2 ^ 62). { split; [apply dvalue_nonneg; auto |]. destruct s; cbn in *; lia. }
  rewrite from_str_sci by (auto; lia). rewrite from_base_exp_plain by (auto; lia).
  rewrite (proj2 (Z.ltb_lt _ _)) by lia. assert (V0 : 0 <= dvalue (lead ++ trail)) by (apply dvalue_nonneg, Forall_app; auto).
  rewrite noexp_plain by (auto; lia). set (v := dvalue (lead ++ trail)) in *.
  set (len := Z.of_nat (List.length trail)) in *. set (e := evalue s ds) in *.
  assert (0 <= len) by (unfold len; lia). rewrite !Z.mod_small by lia.
  destruct (v <? U128) eqn:E; b2p; unfold U128 in *; cbn [unwrap bind returns_or_panics]; auto.
  assert (W1 : wf (mkD v len false)) by (split; cbn; lia).
  pose proof (to_scale_spec _ e W1 ltac:(lia)) as T1.
  destruct (to_scale (mkD v len false) e) as [b' | | |] eqn:E1; cbn [bind returns_or_panics] in *; auto.
  destruct T1 as [Wb [Sb [Nb [Tb _]]]].
  assert (W2 : wf (mkD (dval b') 0 neg)) by (destruct Wb; split; cbn; lia).
  pose proof (to_scale_spec _ e W2 ltac:(lia)) as T2.
  destruct (to_scale (mkD (dval b') 0 neg) e) as [c | | |] eqn:E2; cbn [returns_or_panics] in *; auto.
  destruct T2 as [Wc [Sc [Nc [_ Xc]]]]. split; auto. destruct (Xc ltac:(cbn; lia)) as [Nm _].
  assert (Nm' : (num c == inject_Z (if neg then - dval b' else dval b'))%Q).
  { rewrite Nm. unfold num, mant. cbn [dval dscale dneg]. change (10 ^ 0) with 1. field. }
  unfold to_scale in E1. cbn [dval dscale dneg] in E1. destruct (e <? len) eqn:EL; b2p; msteps; cbn [dval] in *.
  - assert (WR : (written neg lead trail e == inject_Z (if neg then - v else v) / inject_Z (10 ^ 0 * 10 ^ (len - e)))%Q).
    { unfold written. fold len v. rewrite (proj2 (Z.leb_gt _ _)) by lia. change (10 ^ 0) with 1. rewrite Z.mul_1_l.
      field. apply inject_nz, pow10_pos. lia. }
    pose proof (pow10_pos (len - e) ltac:(lia)) as P.
    destruct (div_bounds v (10 ^ (len - e)) ltac:(lia) P) as [[B1 B2] B3].
    split; [| intros; lia].
    assert (TF := truncated_frac 0 (if neg then - (v / 10 ^ (len - e)) else v / 10 ^ (len - e)) (if neg then - v else v) (10 ^ (len - e)) ltac:(lia) P).
    unfold truncated, same_sign in *. rewrite WR, Nm'.
    assert (D1 : forall z, (inject_Z z / inject_Z (10 ^ 0) == inject_Z z)%Q) by (intros; change (10 ^ 0) with 1; field).
    rewrite !D1 in TF. apply TF.
    + destruct neg; lia.
    + destruct neg; nia.
  - assert (EX : (num c == written neg lead trail e)%Q).
    { rewrite Nm'. unfold written. fold len v. rewrite (proj2 (Z.leb_le _ _)) by lia.
      destruct neg; rewrite ?inject_Z_opp, inject_Z_mult; ring. }
    split; auto. unfold truncated, same_sign. rewrite EX. repeat split.
    + lra.
    + assert (0 < ulp 0)%Q by reflexivity. lra.
    + set (q := written neg lead trail e). nra.
Qed.
