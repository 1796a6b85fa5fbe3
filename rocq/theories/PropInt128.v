(** Property C61: 128 bit integers. *)
From Verif Require Import Base ScanModel JsonSpec NumSpec IntModel IntProofs BigModel NumParse PropNum.
From Coq Require Import Lia ZArith QArith Qround.
Local Open Scope Z_scope.

(** Every value is written as a JSON number with its digits, in at most the 40 characters that the handler has,
    and read back. *)
Theorem C61_round_trip : forall signed v, least 128 signed <= v <= greatest 128 signed ->
  exists text, int_from (mkIty 128 signed) v = Some text /\ rfc_number text /\ int_literal text v /\ (length text <= 40)%nat /\
    int_to (mkIty 128 signed) text = Ok (NoError, v).
Proof.
  intros signed v Hv. assert (Ht : int_type 128) by (unfold int_type; auto 6).
  destruct (C21_int_round_trip 128 signed v Ht Hv) as (text & E & Hr & Hb). exists text. split; [exact E|]. split; [exact Hr|].
  destruct (C21_int_text 128 signed v Ht Hv) as (t2 & E2 & Hl). rewrite E in E2. injection E2 as <-. split; [exact Hl|]. split; [|exact Hb].
  exact (int_from_length (mkIty 128 signed) v text Ht Hv E).
Qed.
Print Assumptions C61_round_trip.

(** Text written from a value of any integer type is read by every type that contains the value. *)
Theorem C61_widening : forall bits signed bits' signed' v text,
  int_type bits -> int_type bits' -> least bits signed <= v <= greatest bits signed -> least bits' signed' <= v <= greatest bits' signed' ->
  int_from (mkIty bits signed) v = Some text -> int_to (mkIty bits' signed') text = Ok (NoError, v).
Proof.
  intros bits signed bits' signed' v text H H' Hv Hv' E.
  destruct (C21_int_text bits signed v H Hv) as (t2 & E2 & Hl). rewrite E in E2. injection E2 as <-.
  rewrite (C22_int_literals_partial bits' signed' text v H' Hl).
  - f_equal. f_equal. unfold clamp. lia.
  - unfold least, greatest in Hv'. destruct H' as [->|[->|[->|[->| ->]]]]; destruct signed'; cbn in Hv' |- *; lia.
  - destruct signed'; [auto|]. right. exact (proj1 Hv').
Qed.
Print Assumptions C61_widening.

(** The full claim: an integer literal is read exactly or clamped, also with fraction or exponent. *)
Definition C61_claim : Prop := forall signed (neg : bool) l number power,
  dec_literal l number power -> (exists c r, l = c :: r /\ is_digit c) -> signed = true \/ neg = false ->
  exists e r, int_to (mkIty 128 signed) ((if neg then [x2d] else []) ++ l) = Ok (e, r) /\
    (e = NoError -> r = clamp 128 signed (let q := Qfloor (scaled number 10 power) in if neg then - q else q)).

(** Proved for digits below 2^128 and values not between 2^128 and 10^39; false for others. *)
Theorem C61_literals_partial : forall signed (neg : bool) l number power,
  dec_literal l number power -> (exists c r, l = c :: r /\ is_digit c) -> (length l < 256)%nat ->
  number < 2 ^ 128 -> signed = true \/ neg = false -> power <= 0 \/ 0 < number ->
  number * 10 ^ power < 2 ^ 128 \/ 10 ^ 39 <= number * 10 ^ power ->
  int_to (mkIty 128 signed) ((if neg then [x2d] else []) ++ l) =
  Ok (NoError, clamp 128 signed (let q := Qfloor (scaled number 10 power) in if neg then - q else q)).
Proof.
  intros signed neg l m p Hl Hd Hlen Hm Hs Hz Hw. apply C52_exponent_literals_partial; try assumption.
  - unfold int_type; auto 6.
  - split; [intros E; discriminate E|intros _; exact Hw].
Qed.
Print Assumptions C61_literals_partial.

Example C61_nonvacuous :
  int_from (mkIty 128 true) (- 2 ^ 127) = Some (s2b "-170141183460469231731687303715884105728") /\
  int_to (mkIty 128 true) (s2b "-170141183460469231731687303715884105728") = Ok (NoError, - 2 ^ 127) /\
  int_to (mkIty 128 false) (s2b "340282366920938463463374607431768211455") = Ok (NoError, 2 ^ 128 - 1) /\
  int_to (mkIty 128 true) (s2b "-1.5e38") = Ok (NoError, -150000000000000000000000000000000000000) /\
  int_to (mkIty 128 true) (s2b "1e39") = Ok (NoError, 2 ^ 127 - 1) /\
  length (s2b "-170141183460469231731687303715884105728") = 40%nat.
Proof. do 5 (split; [vm_compute; reflexivity|]). reflexivity. Qed.

(** The claim is false: 4e38 is read as about 6e37 instead of the largest value, and 2^128 + 1 as 1. *)
Theorem C61_literals_refuted :
  ~ C61_claim /\
  int_to (mkIty 128 true) (s2b "4e38") = Ok (NoError, 59717633079061536536625392568231788544) /\
  int_to (mkIty 128 false) (s2b "340282366920938463463374607431768211457") = Ok (NoError, 1).
Proof.
  split; [|split; vm_compute; reflexivity]. intros H.
  destruct (H true false (s2b "4e38") 4 38) as (e & r & E & Hc).
  - apply (DL_exp (s2b "4") [] [] x65 [] (s2b "38")); auto.
    + repeat constructor; discriminate.
    + split; [discriminate|]. repeat constructor; discriminate.
  - exists x34, (s2b "e38"). split; [reflexivity|]. split; discriminate.
  - auto.
  - vm_compute in E. injection E as <- <-. specialize (Hc eq_refl). vm_compute in Hc. discriminate Hc.
Qed.
Print Assumptions C61_literals_refuted.
