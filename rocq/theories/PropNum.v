(** Properties C21, C22, C23, C52: numbers. *)
From Verif Require Import Base ScanModel JsonSpec NumSpec IntModel IntProofs BigModel BigProofs NumParse.
From Coq Require Import Lia ZArith QArith Qround.
Local Open Scope Z_scope.

(** ** C21: every value of every integer type is written as a JSON number that reads back. *)
Theorem C21_int_round_trip : forall bits signed v,
  int_type bits -> least bits signed <= v <= greatest bits signed ->
  exists text, int_from (mkIty bits signed) v = Some text /\ rfc_number text /\
               int_to (mkIty bits signed) text = Ok (NoError, v).
Proof.
  intros bits signed v Ht Hv. apply int_round_trip; [exact Ht|].
  rewrite i_min_least, i_max_greatest. exact Hv.
Qed.
Print Assumptions C21_int_round_trip.

(** The text is the usual one: an optional minus sign and the digits of the absolute value. *)
Theorem C21_int_text : forall bits signed v,
  int_type bits -> least bits signed <= v <= greatest bits signed ->
  exists text, int_from (mkIty bits signed) v = Some text /\ int_literal text v.
Proof.
  intros bits signed v Ht Hv.
  destruct (int_from_spec (mkIty bits signed) v Ht) as (d & Hr & Ev & E).
  { rewrite i_min_least, i_max_greatest. exact Hv. }
  exists (if v <? 0 then x2d :: d else d). split; [exact E|].
  exists d. split; [apply rfc_int_digits, Hr|]. rewrite Ev.
  destruct (Z.ltb_spec v 0); [right|left]; split; try reflexivity; lia.
Qed.
Print Assumptions C21_int_text.

Example C21_nonvacuous :
  int_from (mkIty 64 true) (-9223372036854775808) = Some (s2b "-9223372036854775808") /\
  int_to (mkIty 64 true) (s2b "-9223372036854775808") = Ok (NoError, -9223372036854775808) /\
  int_from (mkIty 8 false) 0 = Some (s2b "0") /\
  least 64 true <= -9223372036854775808 <= greatest 64 true.
Proof. vm_compute. repeat split; discriminate. Qed.

(** ** C22: integer literals are read exactly or clamped. *)

(** The full claim. *)
Definition C22_claim : Prop := forall bits signed text v,
  int_type bits -> int_literal text v ->
  exists e r, int_to (mkIty bits signed) text = Ok (e, r) /\
              (e = NoError -> r = clamp bits signed v).

(** Proved for all literals whose digits, as a number, are below 2^64 (2^128 for the 128 bit types), except negative ones read
    into an unsigned type.  Missing: the rest, where the claim is false, see below. *)
Theorem C22_int_literals_partial : forall bits signed text v,
  int_type bits -> int_literal text v -> Z.abs v < digit_limit bits -> (signed = true \/ 0 <= v) ->
  int_to (mkIty bits signed) text = Ok (NoError, clamp bits signed v).
Proof.
  intros bits signed text v Ht (d & Hd & H) Hb Hs.
  assert (Hlt : Z.of_N (dec_value d) < digit_limit bits) by (destruct H as [[_ ->]|[_ ->]]; lia).
  destruct H as [[-> Ev]|[-> Ev]].
  - rewrite (int_to_literal (mkIty bits signed) false d Ht Hd Hlt). cbn [i_signed i_bits].
    rewrite <- Ev. destruct signed; reflexivity.
  - rewrite (int_to_literal (mkIty bits signed) true d Ht Hd Hlt). cbn [i_signed i_bits].
    rewrite <- Ev. destruct signed; [reflexivity|].
    destruct Hs as [Hs|Hs]; [discriminate Hs|]. replace (Z.of_N (dec_value d)) with v by lia. reflexivity.
Qed.
Print Assumptions C22_int_literals_partial.

Example C22_nonvacuous :
  int_to (mkIty 8 true) (s2b "-300") = Ok (NoError, -128) /\
  int_to (mkIty 16 false) (s2b "0000012345") = Ok (NoError, 12345) /\
  int_to (mkIty 64 false) (s2b "18446744073709551615") = Ok (NoError, 18446744073709551615).
Proof. vm_compute. auto. Qed.

(** The claim is false: 2^64+1 reads as 1 in every type of at most 64 bits, and -5 reads as 5 in unsigned types. *)
Theorem C22_int_literals_refuted :
  ~ C22_claim /\
  int_to (mkIty 32 true) (s2b "18446744073709551617") = Ok (NoError, 1) /\
  int_to (mkIty 32 false) (s2b "-5") = Ok (NoError, 5).
Proof.
  split; [|vm_compute; auto]. intros H.
  destruct (H 32%N false (s2b "-5") (-5)) as (e & r & E & Hc).
  - unfold int_type. auto.
  - exists (s2b "5"). split; [|right; split; reflexivity].
    split; [discriminate|]. constructor; [|constructor]. unfold is_digit. vm_compute. split; discriminate.
  - vm_compute in E. injection E as <- <-. specialize (Hc eq_refl). vm_compute in Hc. discriminate Hc.
Qed.
Print Assumptions C22_int_literals_refuted.

(** ** C23: the comparison used for rounding is exact. *)

(** Any number of digits against any multi-word integer, with any two exponents. *)
Theorem C23_comparison_exact : forall digits decimal_exp mid pow2,
  words digits -> words mid -> digits <> [] -> mid <> [] ->
  compare_value_scaled digits decimal_exp mid pow2 =
  (scaled (Z.of_N (val digits)) 10 decimal_exp ?= scaled (Z.of_N (val mid)) 2 pow2)%Q.
Proof. exact compare_value_spec. Qed.
Print Assumptions C23_comparison_exact.

(** The rounding verdict is the comparison of the number the literal denotes with the mean of the
    two floats. *)
Theorem C23_rounding_verdict_exact : forall sign l number power g1 g2 digits de mid e2,
  (sign = [] \/ sign = [x2d] \/ sign = [x2b]) -> dec_literal l number power ->
  read_literal (sign ++ l) = (digits, de) -> float_pair_midpoint g1 g2 = (mid, e2) ->
  compare_value_scaled digits de mid e2 =
  (scaled number 10 power ?= (float_value g1 + float_value g2) / inject_Z 2)%Q.
Proof. exact rounding_verdict. Qed.
Print Assumptions C23_rounding_verdict_exact.

(** 16777217 is exactly the mean of two neighbouring floats, 1.6777217000000001e7 is above it. *)
Example C23_nonvacuous :
  (let '(d, k) := read_literal (s2b "16777217") in
   let '(m, e) := float_pair_midpoint 0x4b800000 0x4b800001 in compare_value_scaled d k m e) = Eq /\
  (let '(d, k) := read_literal (s2b "1.6777217000000000000000000001e7") in
   let '(m, e) := float_pair_midpoint 0x4b800000 0x4b800001 in compare_value_scaled d k m e) = Gt /\
  float_value 0x4b800001 == inject_Z 16777218.
Proof. vm_compute. auto. Qed.

(** ** C52: literals with fraction or exponent read into integers give the integer part. *)

(** The full claim, for literals that start with a digit, with or without a minus sign. *)
Definition C52_claim : Prop := forall bits signed (neg : bool) l number power,
  int_type bits -> dec_literal l number power -> (exists c r, l = c :: r /\ is_digit c) ->
  exists e r, int_to (mkIty bits signed) ((if neg then [x2d] else []) ++ l) = Ok (e, r) /\
    (e = NoError -> r = clamp bits signed (let q := Qfloor (scaled number 10 power) in if neg then - q else q)).

(** Proved for literals of less than 256 characters whose digits are below 2^64 (2^128 for the 128 bit types),
    except: negative literals into unsigned types, zero digits with a positive exponent, values from 2^64 up to
    10^20 into uint64_t and values from 2^128 up to 10^39 into the 128 bit types (scale_fits).  In the first three and in the last case the claim is false, see below. *)
Theorem C52_exponent_literals_partial : forall bits signed (neg : bool) l number power,
  int_type bits -> dec_literal l number power -> (exists c r, l = c :: r /\ is_digit c) ->
  (length l < 256)%nat -> number < digit_limit bits -> (signed = true \/ neg = false) ->
  (power <= 0 \/ 0 < number) ->
  scale_fits bits signed (number * 10 ^ power) ->
  int_to (mkIty bits signed) ((if neg then [x2d] else []) ++ l) =
  Ok (NoError, clamp bits signed (let q := Qfloor (scaled number 10 power) in if neg then - q else q)).
Proof.
  intros bits signed neg l m p Ht Hl Hd Hlen Hm Hs Hz Hw.
  apply (int_to_decimal (mkIty bits signed) neg l m p); assumption.
Qed.
Print Assumptions C52_exponent_literals_partial.

Example C52_nonvacuous :
  int_to (mkIty 32 true) (s2b "-12.75e2") = Ok (NoError, -1275) /\
  int_to (mkIty 32 true) (s2b "1500e-2") = Ok (NoError, 15) /\
  int_to (mkIty 32 true) (s2b "-1.9") = Ok (NoError, -1) /\
  int_to (mkIty 8 false) (s2b "3E+2") = Ok (NoError, 255) /\
  dec_literal (s2b "12.75e2") 1275 0 /\
  clamp 32 true (- Qfloor (scaled 1275 10 0)) = -1275.
Proof.
  do 4 (split; [vm_compute; reflexivity|]). split; [|vm_compute; reflexivity].
  apply (DL_exp (s2b "12") (s2b "75") (s2b ".75") x65 [] (s2b "2")); auto.
  - repeat constructor; discriminate.
  - repeat constructor; discriminate.
  - split; [discriminate|]. repeat constructor; discriminate.
Qed.

(** The claim is false: 0e10 is read as the largest int32_t, and 9e19 wraps around in uint64_t. *)
Theorem C52_exponent_literals_refuted :
  ~ C52_claim /\
  int_to (mkIty 32 true) (s2b "0e10") = Ok (NoError, 2147483647) /\
  int_to (mkIty 64 false) (s2b "9e19") = Ok (NoError, 16213023705161793536) /\
  clamp 64 false (9 * 10 ^ 19) = 18446744073709551615.
Proof.
  split; [|vm_compute; auto]. intros H.
  destruct (H 32%N true false (s2b "0e10") 0 10) as (e & r & E & Hc).
  - unfold int_type. auto.
  - apply (DL_exp (s2b "0") [] [] x65 [] (s2b "10")); auto.
    + repeat constructor; discriminate.
    + split; [discriminate|]. repeat constructor; discriminate.
  - exists x30, (s2b "e10"). split; [reflexivity|]. split; discriminate.
  - vm_compute in E. injection E as <- <-. specialize (Hc eq_refl). vm_compute in Hc. discriminate Hc.
Qed.
Print Assumptions C52_exponent_literals_refuted.
