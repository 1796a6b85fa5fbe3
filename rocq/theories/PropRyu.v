(** C25, C54, C55: doubles and floats as text. *)
From Coq Require Import String QArith Qabs Qpower ZArith Lia.
From Verif Require Import Base ScanModel JsonSpec NumSpec DoubleSpec IntModel IntProofs DoubleModel PropDouble RyuModel RyuMul RyuRow RyuDecode
  RyuNearest RyuText RyuPrint RyuWhole.
Local Open Scope Z_scope.

(** 2^-140, the one magnitude for which it goes wrong. *)
Definition two_to_minus_140 : N := 3976678470968147968.

Lemma only_bad b : (b < infinity 52 11)%N -> b <> two_to_minus_140 -> single_gap double_info b = true -> exponent double_info b <> -194.
Proof.
  intros Hb Hne Hs He. apply Hne. assert (Hb0 : (0 < b)%N) by (destruct b; [discriminate Hs|lia]).
  pose proof (split_b double_info b Hb Hb0) as S. cbv zeta in S. destruct S as (E & _ & _ & _).
  unfold single_gap in Hs. apply andb_prop in Hs. destruct Hs as [Hf _]. apply N.eqb_eq in Hf. rewrite Hf in E.
  unfold exponent in He. change (bias double_info) with 1023 in He. cbn [mentissa_width double_info] in He.
  assert (Eb : biased double_info b = 883%N) by (revert He; generalize (biased double_info b); clear; intros; lia).
  rewrite Eb in E. rewrite E. reflexivity.
Qed.

(** Every finite double except 2^-140 and -2^-140: what is printed is read back as the same bits, for
    every prior content of the buffer.  Missing for C25: the two exceptions, for which it is wrong (next
    theorem); floats are read back in PropFloat.v. *)
Theorem C25_round_trip_partial : forall (neg : bool) b buffer, (b < infinity 52 11)%N -> b <> two_to_minus_140 ->
  length buffer = 32%nat ->
  exists l, double_from (with_sign 52 11 neg b) buffer = Ok (Some (TNumber, l)) /\
    double_to l = Ok (NoError, with_sign 52 11 neg b).
Proof.
  intros neg b buffer Hb Hne Hl.
  destruct (printed double_info 40 (10 ^ 17) (-194) (-324) 309 3 17 neg b buffer double_checked double_bounds ltac:(lia) Hb
    (only_bad b Hb Hne) ltac:(rewrite Hl; cbn; lia)) as (l & x & H & G & N & C & R).
  exists (minus neg ++ l). split; [exact H|]. exact (good_text_read neg l x b G R N C).
Qed.

Theorem C25_round_trip_refuted : forall neg : bool, exists l b',
  double_from (with_sign 52 11 neg two_to_minus_140) (repeat x00 32) = Ok (Some (TNumber, l)) /\
  double_to l = Ok (NoError, b') /\ b' <> with_sign 52 11 neg two_to_minus_140.
Proof.
  intros [|].
  - exists (s2b "-7.174648137343063e-43"), (with_sign 52 11 true 3976678470968147967).
    split; [vm_compute; reflexivity|]. split; [vm_compute; reflexivity|discriminate].
  - exists (s2b "7.174648137343063e-43"), (with_sign 52 11 false 3976678470968147967).
    split; [vm_compute; reflexivity|]. split; [vm_compute; reflexivity|discriminate].
Qed.

(** The printed decimal number determines the double: no other double is as near to it. *)
Theorem C25_double_nearest : forall (neg : bool) b buffer, (b < infinity 52 11)%N -> b <> two_to_minus_140 -> length buffer = 32%nat ->
  exists l m p, double_from (with_sign 52 11 neg b) buffer = Ok (Some (TNumber, (if neg then [x2d] else []) ++ l)) /\
    dec_literal l m p /\ nearest 52 11 (scaled m 10 p) b.
Proof.
  intros neg b buffer Hb Hne Hl.
  destruct (printed double_info 40 (10 ^ 17) (-194) (-324) 309 3 17 neg b buffer double_checked double_bounds ltac:(lia) Hb
    (only_bad b Hb Hne) ltac:(rewrite Hl; cbn; lia)) as (l & x & H & (m & p & D & E & _) & N & _).
  exists l, m, p. split; [exact H|]. split; [exact D|]. apply (nearest_eq _ _ x); [symmetry; exact E|exact N].
Qed.

Theorem C25_double_nearest_refuted : exists l m p,
  double_from two_to_minus_140 (repeat x00 32) = Ok (Some (TNumber, l)) /\
  dec_literal l m p /\ ~ nearest 52 11 (scaled m 10 p) two_to_minus_140.
Proof.
  exists (s2b "7.174648137343063e-43"), 7174648137343063, (-58). split; [vm_compute; reflexivity|].
  split; [literal_exp "7"%string "174648137343063"%string x65 "-"%string "43"%string|].
  apply (not_nearest 3976678470968147967%N); [discriminate|discriminate|vm_compute; reflexivity].
Qed.

(** All floats. *)
Theorem C25_float_nearest : forall (neg : bool) b buffer, (b < infinity 23 8)%N -> length buffer = 16%nat ->
  exists l m p, float_from (with_sign 23 8 neg b) buffer = Ok (Some (TNumber, (if neg then [x2d] else []) ++ l)) /\
    dec_literal l m p /\ nearest 23 8 (scaled m 10 p) b.
Proof.
  intros neg b buffer Hb Hl.
  destruct (printed float_info 20 (10 ^ 9) (-1000) (-46) 39 2 9 neg b buffer float_checked float_bounds ltac:(lia) Hb) as (l & x & H & (m & p & D & E & _) & N & _).
  { intros _. unfold exponent. change (bias float_info) with 127. cbn [mentissa_width float_info]. lia. }
  { rewrite Hl. cbn. lia. }
  exists l, m, p. split; [exact H|]. split; [exact D|]. apply (nearest_eq _ _ x); [symmetry; exact E|exact N].
Qed.

(** ** C54: what is printed belongs to JSON *)
Lemma bad_text neg buffer : length buffer = 32%nat ->
  double_from (with_sign 52 11 neg two_to_minus_140) buffer = Ok (Some (TNumber, minus neg ++ s2b "7.174648137343063e-43")).
Proof.
  intros Hl. unfold double_from.
  rewrite (number_from_text double_info _ buffer (mkBase10 neg false false 16 (-58) 7174648137343063) neg 16 (-58) 7174648137343063);
    [vm_compute; reflexivity|destruct neg; vm_compute; reflexivity|destruct neg; vm_compute; reflexivity|destruct neg; vm_compute; reflexivity|reflexivity|lia|cbn; lia|].
  rewrite Hl. vm_compute. lia.
Qed.

Theorem C54_double_is_json : forall (neg : bool) b buffer, (b < infinity 52 11)%N -> length buffer = 32%nat ->
  exists l, double_from (with_sign 52 11 neg b) buffer = Ok (Some (TNumber, l)) /\ rfc_number l.
Proof.
  intros neg b buffer Hb Hl. destruct (N.eq_dec b two_to_minus_140) as [->|Hne].
  - exists (minus neg ++ s2b "7.174648137343063e-43"). split; [apply bad_text; exact Hl|].
    destruct (number_text_spec neg 19 16 (-58) 7174648137343063 ltac:(reflexivity) eq_refl ltac:(discriminate) ltac:(cbn; lia) ltac:(lia)) as (m & p & _ & _ & _ & _ & R & _).
    exact R.
  - destruct (printed double_info 40 (10 ^ 17) (-194) (-324) 309 3 17 neg b buffer double_checked double_bounds ltac:(lia) Hb
      (only_bad b Hb Hne) ltac:(rewrite Hl; cbn; lia)) as (l & x & H & (m & p & _ & _ & _ & _ & R & _) & _).
    exists (minus neg ++ l). auto.
Qed.

Theorem C54_float_is_json : forall (neg : bool) b buffer, (b < infinity 23 8)%N -> length buffer = 16%nat ->
  exists l, float_from (with_sign 23 8 neg b) buffer = Ok (Some (TNumber, l)) /\ rfc_number l.
Proof.
  intros neg b buffer Hb Hl.
  destruct (printed float_info 20 (10 ^ 9) (-1000) (-46) 39 2 9 neg b buffer float_checked float_bounds ltac:(lia) Hb) as (l & x & H & (m & p & _ & _ & _ & _ & R & _) & _).
  { intros _. unfold exponent. change (bias float_info) with 127. cbn [mentissa_width float_info]. lia. }
  { rewrite Hl. cbn. lia. }
  exists (minus neg ++ l). auto.
Qed.

(** Infinities and NaNs are printed as null. *)
Lemma special_null T bits buffer : (biased T bits = 2 ^ ew T - 1)%N -> (0 <= exponent_width T)%Z -> number_from T bits buffer = Ok (Some (TNull, s2b "null")).
Proof.
  intros H W. unfold number_from. replace (is_nan T bits || is_inf T bits) with true; [reflexivity|]. symmetry.
  unfold is_nan, is_inf, get_parts. fold (biased T bits) (fraction T bits). rewrite H.
  replace (Z.of_N (2 ^ ew T - 1)) with (2 ^ exponent_width T - 1).
  - rewrite Z.eqb_refl. cbn [andb]. destruct (fraction T bits); reflexivity.
  - assert (E : 2 ^ exponent_width T = Z.of_N (2 ^ ew T)) by (unfold ew; rewrite N2Z.inj_pow, Z2N.id by exact W; reflexivity).
    rewrite E. assert (X := pow2_pos (ew T)). revert X. generalize (2 ^ ew T)%N. clear. intros; lia.
Qed.

Lemma special_biased T neg b : (infinity (pw T) (ew T) <= b < 2 ^ (pw T + ew T))%N -> (biased T (with_sign (pw T) (ew T) neg b) = 2 ^ ew T - 1)%N.
Proof.
  intros [H1 H2]. rewrite biased_sign. unfold biased. fold (pw T) (ew T). unfold infinity in H1. rewrite N.pow_add_r in H2.
  assert (P := pow2_pos (pw T)). assert (Q2 := pow2_pos (ew T)).
  replace (b / 2 ^ pw T)%N with (2 ^ ew T - 1)%N; [apply N.mod_small; lia|].
  assert (L1 : (2 ^ ew T - 1 <= b / 2 ^ pw T)%N) by (apply N.div_le_lower_bound; [lia|]; rewrite N.mul_comm; exact H1).
  assert (L2 : (b / 2 ^ pw T < 2 ^ ew T)%N) by (apply N.div_lt_upper_bound; [lia|exact H2]). lia.
Qed.

Theorem C54_double_not_finite : forall (neg : bool) b buffer, (infinity 52 11 <= b < 2 ^ 63)%N ->
  double_from (with_sign 52 11 neg b) buffer = Ok (Some (TNull, s2b "null")).
Proof. intros neg b buffer H. apply special_null; [exact (special_biased double_info neg b H)|discriminate]. Qed.

Theorem C54_float_not_finite : forall (neg : bool) b buffer, (infinity 23 8 <= b < 2 ^ 31)%N ->
  float_from (with_sign 23 8 neg b) buffer = Ok (Some (TNull, s2b "null")).
Proof. intros neg b buffer H. apply special_null; [exact (special_biased float_info neg b H)|discriminate]. Qed.

(** ** C55: the product of two 64-bit words with and without a 128-bit type *)
Theorem C55_umul128 : forall a b, (a < 2 ^ 64)%N -> (b < 2 ^ 64)%N ->
  umul128_portable a b = (((a * b) mod 2 ^ 64)%N, ((a * b) / 2 ^ 64)%N).
Proof. intros a b Ha Hb. rewrite umul128_portable_same by assumption. reflexivity. Qed.

(** ** The hypotheses can be met *)
Example C25_nonvacuous_double : (4614256656552045848 < infinity 52 11)%N /\ 4614256656552045848%N <> two_to_minus_140 /\
  double_from 4614256656552045848 (repeat x00 32) = Ok (Some (TNumber, s2b "3.141592653589793")) /\
  double_to (s2b "3.141592653589793") = Ok (NoError, 4614256656552045848%N).
Proof. split; [reflexivity|]. split; [discriminate|]. split; vm_compute; reflexivity. Qed.

Example C25_nonvacuous_negative : double_from (with_sign 52 11 true 1) (repeat xff 32) = Ok (Some (TNumber, s2b "-5e-324")) /\
  double_to (s2b "-5e-324") = Ok (NoError, with_sign 52 11 true 1) /\
  double_from (with_sign 52 11 true 0) (repeat xff 32) = Ok (Some (TNumber, s2b "-0.0")) /\
  double_to (s2b "-0.0") = Ok (NoError, with_sign 52 11 true 0).
Proof. split; [vm_compute; reflexivity|]. split; [vm_compute; reflexivity|]. split; vm_compute; reflexivity. Qed.

Example C25_nonvacuous_float : (1078530011 < infinity 23 8)%N /\
  float_from 1078530011 (repeat x00 16) = Ok (Some (TNumber, s2b "3.1415927")) /\
  float_from 16777217 (repeat x00 16) = Ok (Some (TNumber, s2b "2.350989e-38")).
Proof. split; [reflexivity|]. split; vm_compute; reflexivity. Qed.

Example C54_nonvacuous : (infinity 52 11 <= infinity 52 11 + 1 < 2 ^ 63)%N /\ (infinity 23 8 <= infinity 23 8 < 2 ^ 31)%N /\
  rfc_number (s2b "-5e-324").
Proof.
  split; [split; [discriminate|reflexivity]|]. split; [split; [discriminate|reflexivity]|].
  exists [x2d], [x35], [], (s2b "e-324"). split; [reflexivity|]. split; [auto|]. split; [|split; [left; reflexivity|]].
  - right. exists x35, []. split; [reflexivity|]. split; [unfold is_digit; cbn; lia|]. split; [discriminate|constructor].
  - right. exists x65, [x2d], (s2b "324"). split; [reflexivity|]. split; [auto|]. split; [auto|]. split; [discriminate|].
    repeat constructor; unfold is_digit; cbn; lia.
Qed.

Example C55_nonvacuous : umul128_portable 18446744073709551615 18446744073709551557 = (59%N, 18446744073709551556%N).
Proof. vm_compute. reflexivity. Qed.

Print Assumptions C25_round_trip_partial.
Print Assumptions C25_round_trip_refuted.
Print Assumptions C25_double_nearest.
Print Assumptions C25_double_nearest_refuted.
Print Assumptions C25_float_nearest.
Print Assumptions C54_double_is_json.
Print Assumptions C54_float_is_json.
Print Assumptions C54_double_not_finite.
Print Assumptions C54_float_not_finite.
Print Assumptions C55_umul128.
