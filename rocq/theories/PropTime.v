(** Property C34: time points. *)
From Verif Require Import Base ScanModel IntModel TimeModel TimeSpec TimeProofs.
From Coq Require Import Lia ZArith.
Local Open Scope Z_scope.

(** The full claim: every instant of every time_point type survives writing and reading. *)
Definition C34_claim : Prop := forall hr p n,
  0 < p -> (hr = true -> p = 1000) -> - 2 ^ 63 <= n < 2 ^ 63 ->
  exists text, time_from hr p n = Ok (Some text) /\
    forall old, time_to hr p text old = Ok (NoError, n).

(** Exactly which instants survive: those of [survives].  Missing: the others, where the claim is
    false. *)
Theorem C34_round_trip_partial : forall hr p n,
  0 < p -> (hr = true -> p = 1000) -> - 2 ^ 63 <= n < 2 ^ 63 ->
  ((exists text, time_from hr p n = Ok (Some text) /\
      forall old, time_to hr p text old = Ok (NoError, n)) <->
   survives hr p n = true).
Proof. exact time_round_trips. Qed.
Print Assumptions C34_round_trip_partial.

(** In particular every instant of high_resolution_clock after 3 March 1973, and every instant of
    a microsecond clock from then to the year 2286. *)
Theorem C34_recent_round_trip : forall n,
  (10 ^ 17 + 8 < n < 2 ^ 63 ->
   exists text, time_from true 1000 n = Ok (Some text) /\
     forall old, time_to true 1000 text old = Ok (NoError, n)) /\
  (10 ^ 14 < n <= 10 ^ 16 ->
   exists text, time_from false 1 n = Ok (Some text) /\
     forall old, time_to false 1 text old = Ok (NoError, n)).
Proof.
  intros n. split; intros H; apply time_round_trips; try lia; try discriminate; unfold survives.
  - unfold survives_ns. replace (n <? 0) with false by lia. replace (10 ^ 17 + 8 <? n) with true by lia.
    rewrite Bool.orb_true_r. reflexivity.
  - unfold multiple at 1. rewrite Z.mod_1_r, Z.div_1_r. unfold survives_us.
    replace (10 ^ 14 <? n) with true by lia. replace (n <=? 10 ^ 17 + 8) with true by lia.
    replace (10 ^ 16 <? n) with false by lia. rewrite Bool.andb_false_r. apply Bool.orb_true_r.
Qed.
Print Assumptions C34_recent_round_trip.

(** 7 ns after the epoch is read as 7 seconds; a whole thousand of seconds in 2286 on a microsecond
    clock is read as a thousandth of it; before the epoch a microsecond clock gives an error. *)
Theorem C34_round_trip_refuted :
  ~ C34_claim /\
  (time_from true 1000 7 = Ok (Some (s2b "7")) /\ time_to true 1000 (s2b "7") 0 = Ok (NoError, 7000000000)) /\
  (time_from false 1 11000000000000000 = Ok (Some (s2b "11000000")) /\
   time_to false 1 (s2b "11000000") 0 = Ok (NoError, 11000000000000)) /\
  (time_from false 1 (-1) = Ok (Some (s2b "18446744073709551615")) /\
   time_to false 1 (s2b "18446744073709551615") 0 = Ok (IllegalDataValue, 0)).
Proof.
  split; [|vm_compute; repeat split].
  intros H. destruct (H true 1000 7) as (text & A & B); [lia|reflexivity|lia|].
  assert (E : time_from true 1000 7 = Ok (Some (s2b "7"))) by (vm_compute; reflexivity).
  rewrite E in A. injection A as <-. specialize (B 0).
  assert (F : time_to true 1000 (s2b "7") 0 = Ok (NoError, 7000000000)) by (vm_compute; reflexivity).
  rewrite F in B. discriminate B.
Qed.
Print Assumptions C34_round_trip_refuted.

(** Reading a number of seconds that does not fit the clock overflows a signed integer. *)
Theorem C34_overflow_refuted : time_to true 1000 (s2b "9223372037") 0 = UB.
Proof. vm_compute. reflexivity. Qed.
Print Assumptions C34_overflow_refuted.

(** Reading never overflows exactly for the numbers whose instant, in the unit guessed, is
    representable. *)
Theorem C34_reading_defined : forall t old,
  0 <= t < 2 ^ 64 ->
  let unit := if t <=? 10 ^ 11 then 10 ^ 9 else if t <=? 10 ^ 14 then 10 ^ 6
              else if t <=? 10 ^ 17 + 8 then 10 ^ 3 else 0 in
  exists text, int_from T_uint64 t = Some text /\
    (time_to true 1000 text old = UB <-> 2 ^ 63 <= t * unit).
Proof.
  intros t old H. cbv zeta. destruct (uint64_text t H) as (text & A & B). exists text. split; [exact A|].
  rewrite (time_to_read true 1000 text t old B H). unfold read_time.
  assert (U : forall k, 0 <= k -> ((let* v := from_unit k t in Ok (NoError, v)) = UB <->
             (if t <? 2 ^ 63 then 2 ^ 63 <= t * k else (t - 2 ^ 64) * k < - 2 ^ 63))).
  { intros k Hk. unfold from_unit, fits_int64. cbv zeta.
    destruct (Z.ltb_spec t (2 ^ 63)); [rewrite int64_small by lia|rewrite int64_big by lia];
    match goal with |- context [if ?b then Ok ?v else UB] => destruct b eqn:E; cbn [obind] end;
    (split; [try discriminate; intros _; nia|intros G; try reflexivity; exfalso; nia]). }
  repeat match goal with |- context [if ?x <=? ?y then _ else _] => destruct (Z.leb_spec x y) end; rewrite U by lia;
    match goal with |- context [if ?x <? ?y then _ else _] => destruct (Z.ltb_spec x y) end; change (1000 / 1000) with 1; lia.
Qed.
Print Assumptions C34_reading_defined.

(** 16 November 2026, 12:34:56.789012345. *)
Example C34_nonvacuous :
  survives true 1000 1794832496789012345 = true /\ survives false 1 1794832496789012 = true /\
  survives false 1000 1794832496789012000 = true /\
  time_from true 1000 1794832496789000000 = Ok (Some (s2b "1794832496789")) /\
  time_to true 1000 (s2b "1794832496789") 0 = Ok (NoError, 1794832496789000000) /\
  survives true 1000 (-1) = true.
Proof. vm_compute. repeat split. Qed.
