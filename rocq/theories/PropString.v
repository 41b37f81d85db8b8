(** Claims C08 and C09: printing and parsing decimals.  Texts and the numbers they denote are defined in StrSpec. *)
From Coq Require Import ZArith QArith List Bool Ascii String Lia.
From Verif Require Import Base BaseLemmas DecimalModel DecimalSpec DecimalStr StrSpec DecimalStrProofs.
Import ListNotations.
Open Scope Z_scope.

(** ** C08 *)
Theorem C08_round_trip : forall d, wf d -> from_str (d_to_string d) = Ok d.
Proof. exact round_trip. Qed.
(** What is printed is a numeral with [scale] fractional digits that denotes the number. *)
Theorem C08_text_denotes_number : forall d, wf d -> exists lead trail,
  d_to_string d = plain_text (dneg d) lead (0 <? dscale d) trail /\
  Forall is_digit lead /\ Forall is_digit trail /\ lead <> [] /\ Z.of_nat (List.length trail) = dscale d /\
  (written (dneg d) lead trail 0 == num d)%Q.
Proof. exact to_string_written. Qed.
(** Parsing a plain numeral (no exponent), for every numeral with at most 255 fractional digits. *)
Theorem C08_parse_plain : forall neg lead point trail,
  Forall is_digit lead -> Forall is_digit trail -> (lead ++ trail)%list <> [] -> (point = false -> trail = []) ->
  Z.of_nat (List.length trail) < 2 ^ 62 ->
  from_str (plain_text neg lead point trail) =
    if dvalue (lead ++ trail) <? 2 ^ 128
    then Ok (mkD (dvalue (lead ++ trail)) (Z.of_nat (List.length trail) mod 256) neg) else Panic.
Proof. exact from_str_plain. Qed.
Example C08_case : d_to_string (mkD 12345 7 true) = "-0.0012345"%string /\ from_str "-0.0012345" = Ok (mkD 12345 7 true) /\
  d_to_string (mkD (2 ^ 128 - 1) 12 false) = "340282366920938463463374607.431768211455"%string /\
  from_str "340282366920938463463374607.431768211455" = Ok (mkD (2 ^ 128 - 1) 12 false) /\
  d_to_string (mkD 0 0 true) = "-0"%string.
Proof. repeat split; vm_compute; reflexivity. Qed.

(** ** C09.  The full claim is that the parsed decimal denotes the written number.  Proved: for every non-positive
    exponent as long as the number of decimal places is at most 255; for positive exponents up to 255 the result is
    the written number truncated to an integer, hence exact when no fraction remains after shifting. *)
Theorem C09_nonpositive_exponent_partial : forall neg lead point trail cap s ds,
  Forall is_digit lead -> Forall is_digit trail -> (lead ++ trail)%list <> [] -> (point = false -> trail = []) ->
  Forall is_digit ds -> ds <> [] ->
  evalue s ds <= 0 -> Z.of_nat (List.length trail) - evalue s ds <= 255 ->
  returns_or_panics (from_str (sci_text neg lead point trail cap s ds))
    (fun d => wf d /\ (num d == written neg lead trail (evalue s ds))%Q)
    (2 ^ 128 <= dvalue (lead ++ trail)).
Proof. exact sci_nonpos. Qed.
Theorem C09_positive_exponent_partial : forall neg lead point trail cap s ds,
  Forall is_digit lead -> Forall is_digit trail -> (lead ++ trail)%list <> [] -> (point = false -> trail = []) ->
  Forall is_digit ds -> ds <> [] ->
  0 < evalue s ds <= 255 -> Z.of_nat (List.length trail) <= 255 ->
  returns_or_panics (from_str (sci_text neg lead point trail cap s ds))
    (fun d => wf d /\ truncated 0 (num d) (written neg lead trail (evalue s ds)) /\
              (Z.of_nat (List.length trail) <= evalue s ds -> (num d == written neg lead trail (evalue s ds))%Q))
    True.
Proof. exact sci_pos. Qed.
(** Findings: "1.2345e2" gives 123.00 (a decimal of scale 2, which could hold 123.45); "1e256" gives 1; "1e-256" gives 1. *)
Theorem C09_fraction_lost_refuted : exists d,
  sci_text false [1] true [2; 3; 4; 5] false ENone [2] = "1.2345e2"%string /\
  from_str "1.2345e2" = Ok d /\ dscale d = 2 /\ (num d == 123)%Q /\ (written false [1%Z] [2%Z; 3%Z; 4%Z; 5%Z] 2 == 12345 # 100)%Q.
Proof. exists (mkD 12300 2 false). repeat split; vm_compute; reflexivity. Qed.
Theorem C09_exponent_wraps_refuted :
  from_str "1e256" = Ok (mkD 1 0 false) /\ from_str "1e-256" = Ok (mkD 1 0 false) /\ (num (mkD 1 0 false) == 1)%Q.
Proof. repeat split; vm_compute; reflexivity. Qed.
Example C09_case : sci_text true [1; 2] true [3; 4] true EMinus [0; 5] = "-12.34E-05"%string /\
  from_str "-12.34E-05" = Ok (mkD 1234 7 true) /\
  from_str "12.34e+3" = Ok (mkD 12340000 3 false).
Proof. repeat split; vm_compute; reflexivity. Qed.

Print Assumptions C08_round_trip.
Print Assumptions C08_text_denotes_number.
Print Assumptions C08_parse_plain.
Print Assumptions C09_nonpositive_exponent_partial.
Print Assumptions C09_positive_exponent_partial.
Print Assumptions C09_fraction_lost_refuted.
Print Assumptions C09_exponent_wraps_refuted.
