(** C60: printing numbers into buffers of any size. *)
From Coq Require Import String QArith ZArith Lia.
From Verif Require Import Base ScanModel JsonSpec NumSpec DoubleSpec IntModel IntProofs DoubleModel RyuModel RyuRow RyuDecode RyuText RyuWhole
  PropRyu BufModel BufSpec BufProofs BufWhole.
Local Open Scope Z_scope.

Lemma double_any neg b : (b < 2 ^ 63)%N -> exists l, whole_text double_info 24 neg (with_sign 52 11 neg b) l /\ stays_inside double_info neg (with_sign 52 11 neg b).
Proof.
  intros Hb. destruct (N.lt_ge_cases b (infinity 52 11)) as [F|F].
  - assert (HD : decodes double_info neg (with_sign 52 11 neg b) (Z.of_nat 23)).
    { destruct (N.eq_dec b two_to_minus_140) as [->|Hne].
      - exists 16%nat, (-58), 7174648137343063%N. split; [destruct neg; vm_compute; reflexivity|]. split; [lia|]. split; [cbn; lia|]. vm_compute. discriminate.
      - exact (decoded double_info 40 (10 ^ 17) (-194) (-324) 309 3 17 neg b double_checked double_bounds ltac:(lia) F (only_bad b F Hne)). }
    exact (finite_text double_info neg _ 23 HD).
  - destruct (special_decode double_info _ _ _ neg b double_checked (conj F Hb)) as (inf & Hd).
    destruct (special_text double_info neg _ inf Hd) as [[L W] S]. eexists. split; [|exact S]. split; [|exact W]. eapply Nat.le_trans; [exact L|lia].
Qed.

Lemma float_any neg b : (b < 2 ^ 31)%N -> exists l, whole_text float_info 15 neg (with_sign 23 8 neg b) l /\ stays_inside float_info neg (with_sign 23 8 neg b).
Proof.
  intros Hb. destruct (N.lt_ge_cases b (infinity 23 8)) as [F|F].
  - assert (HD : decodes float_info neg (with_sign 23 8 neg b) (Z.of_nat 14)).
    { apply (decoded float_info 20 (10 ^ 9) (-1000) (-46) 39 2 9 neg b float_checked float_bounds ltac:(lia) F).
      intros _. unfold exponent. change (bias float_info) with 127. cbn [mentissa_width float_info]. lia. }
    exact (finite_text float_info neg _ 14 HD).
  - destruct (special_decode float_info _ _ _ neg b float_checked (conj F Hb)) as (inf & Hd).
    destruct (special_text float_info neg _ inf Hd) as [[L W] S]. eexists. split; [|exact S]. split; [|exact W]. eapply Nat.le_trans; [exact L|lia].
Qed.

(** Nothing is written outside of the buffer, whatever the bits and the size of the buffer, and the
    length returned is at most its size.  Missing: negative numbers and a buffer of one character, for
    which it is wrong (C60_outside_refuted). *)
Theorem C60_double_inside_partial : forall (neg : bool) b buffer, (b < 2 ^ 63)%N -> (neg = true -> length buffer <> 1%nat) ->
  exists buffer' k, to_buffer double_info (with_sign 52 11 neg b) buffer (Z.of_nat (length buffer)) = Ok (buffer', k) /\
    length buffer' = length buffer /\ 0 <= k <= Z.of_nat (length buffer).
Proof. intros neg b buffer Hb Hn. destruct (double_any neg b Hb) as (l & _ & S). exact (S buffer Hn). Qed.

Theorem C60_float_inside_partial : forall (neg : bool) b buffer, (b < 2 ^ 31)%N -> (neg = true -> length buffer <> 1%nat) ->
  exists buffer' k, to_buffer float_info (with_sign 23 8 neg b) buffer (Z.of_nat (length buffer)) = Ok (buffer', k) /\
    length buffer' = length buffer /\ 0 <= k <= Z.of_nat (length buffer).
Proof. intros neg b buffer Hb Hn. destruct (float_any neg b Hb) as (l & _ & S). exact (S buffer Hn). Qed.

(** Every number has one text, of at most 24 (15) characters.  A buffer that is at least as long, with one
    more character for negative numbers, gets the whole text; a shorter one the first characters of it.
    Missing: buffers that do not hold the digits in front of the decimal point and one more character,
    for which it is wrong (C60_prefix_refuted). *)
Theorem C60_double_prefix_partial : forall (neg : bool) b, (b < 2 ^ 63)%N -> exists l, (length l <= 24)%nat /\
  forall buffer, (1 <= length buffer)%nat -> room (length buffer) l ->
    exists k rest, to_buffer double_info (with_sign 52 11 neg b) buffer (Z.of_nat (length buffer)) = Ok (firstn k l ++ rest, Z.of_nat k) /\
      (k <= length l)%nat /\ (k + length rest)%nat = length buffer /\
      ((if neg then 1 else 0) + length l <= length buffer -> k = length l)%nat.
Proof. intros neg b Hb. destruct (double_any neg b Hb) as (l & W & _). exists l. exact W. Qed.

Theorem C60_float_prefix_partial : forall (neg : bool) b, (b < 2 ^ 31)%N -> exists l, (length l <= 15)%nat /\
  forall buffer, (1 <= length buffer)%nat -> room (length buffer) l ->
    exists k rest, to_buffer float_info (with_sign 23 8 neg b) buffer (Z.of_nat (length buffer)) = Ok (firstn k l ++ rest, Z.of_nat k) /\
      (k <= length l)%nat /\ (k + length rest)%nat = length buffer /\
      ((if neg then 1 else 0) + length l <= length buffer -> k = length l)%nat.
Proof. intros neg b Hb. destruct (float_any neg b Hb) as (l & W & _). exists l. exact W. Qed.

Lemma room_large n l : (length l <= n)%nat -> room n l.
Proof. intros H _ a r ->. rewrite app_length in H. cbn [length] in H. lia. Qed.

Lemma string_text T len neg bits l : whole_text T len neg bits l ->
  (forall buffer, (1 <= length buffer)%nat -> (S len <= length buffer)%nat ->
     exists rest, to_buffer T bits buffer (Z.of_nat (length buffer)) = Ok (l ++ rest, Z.of_nat (length l))) /\
  (forall buffer, (1 <= length buffer)%nat -> (S len <= length buffer)%nat -> ryu_to_string T bits buffer = Ok l).
Proof.
  intros [L W].
  assert (H : forall buffer, (1 <= length buffer)%nat -> (S len <= length buffer)%nat ->
     exists rest, to_buffer T bits buffer (Z.of_nat (length buffer)) = Ok (l ++ rest, Z.of_nat (length l))).
  { intros buffer H1 H2. destruct (W buffer H1 (room_large (length buffer) l ltac:(lia))) as (k & rest & A & _ & _ & F).
    rewrite F, firstn_all in A by (destruct neg; lia). exists rest. exact A. }
  split; [exact H|]. intros buffer H1 H2. destruct (H buffer H1 H2) as (rest & A). unfold ryu_to_string. unfold to_buffer in A.
  destruct (decode T bits) as [r| |]; try discriminate A. cbn [obind] in *. rewrite A. cbn [obind]. rewrite Nat2Z.id, firstn_app_exact by reflexivity. reflexivity.
Qed.

Lemma from_text T bits buffer l rest : is_nan T bits = false -> is_inf T bits = false -> (1 <= length l)%nat ->
  to_buffer T bits buffer (Z.of_nat (length buffer)) = Ok (l ++ rest, Z.of_nat (length l)) -> number_from T bits buffer = Ok (Some (TNumber, l)).
Proof.
  intros N1 N2 Hl E. unfold number_from. rewrite N1, N2, E. cbn [orb obind].
  replace (Z.of_nat (length l) <=? 0) with false by (symmetry; apply Z.leb_gt; lia). rewrite Nat2Z.id, firstn_app_exact by reflexivity. reflexivity.
Qed.

(** to_string, with its buffer of 25 characters, gives the text that serializing writes, which is read
    back as the same number unless it is one of the two exceptions of C25. *)
Theorem C60_double_to_string : forall (neg : bool) b stack buffer, (b < infinity 52 11)%N -> length stack = 25%nat -> length buffer = 32%nat ->
  exists l, ryu_to_string double_info (with_sign 52 11 neg b) stack = Ok l /\
    double_from (with_sign 52 11 neg b) buffer = Ok (Some (TNumber, l)) /\
    (b <> two_to_minus_140 -> double_to l = Ok (NoError, with_sign 52 11 neg b)).
Proof.
  intros neg b stack buffer Hb Hs Hl. destruct (C54_double_is_json neg b buffer Hb Hl) as (l & E & _).
  assert (Hb63 : (b < 2 ^ 63)%N) by (eapply N.lt_trans; [exact Hb|reflexivity]).
  destruct (double_any neg b Hb63) as (l' & W & _). destruct (string_text _ _ _ _ _ W) as [S1 S2].
  destruct (S1 buffer ltac:(lia) ltac:(lia)) as (rest & A).
  assert (l = l').
  { unfold double_from, number_from in E. rewrite A in E. destruct (_ || _) in E; [discriminate E|]. cbn [obind] in E.
    destruct (_ <=? _) in E; [discriminate E|]. injection E as E. rewrite Nat2Z.id, firstn_app_exact in E by reflexivity. symmetry. exact E. }
  subst l'. exists l. split; [apply S2; lia|]. split; [exact E|]. intros Hne.
  destruct (C25_round_trip_partial neg b buffer Hb Hne Hl) as (l' & E' & R). rewrite E in E'. injection E' as <-. exact R.
Qed.

Theorem C60_float_to_string : forall (neg : bool) b stack buffer, (b < infinity 23 8)%N -> length stack = 25%nat -> length buffer = 16%nat ->
  exists l, ryu_to_string float_info (with_sign 23 8 neg b) stack = Ok l /\
    float_from (with_sign 23 8 neg b) buffer = Ok (Some (TNumber, l)).
Proof.
  intros neg b stack buffer Hb Hs Hl. destruct (C54_float_is_json neg b buffer Hb Hl) as (l & E & _).
  assert (Hb31 : (b < 2 ^ 31)%N) by (eapply N.lt_trans; [exact Hb|reflexivity]).
  destruct (float_any neg b Hb31) as (l' & W & _). destruct (string_text _ _ _ _ _ W) as [S1 S2].
  destruct (S1 buffer ltac:(lia) ltac:(lia)) as (rest & A).
  assert (l = l').
  { unfold float_from, number_from in E. rewrite A in E. destruct (_ || _) in E; [discriminate E|]. cbn [obind] in E.
    destruct (_ <=? _) in E; [discriminate E|]. injection E as E. rewrite Nat2Z.id, firstn_app_exact in E by reflexivity. symmetry. exact E. }
  subst l'. exists l. split; [apply S2; lia|exact E].
Qed.

(** Integers: a buffer of n characters gets the first n characters of the text, and digits_truncated is
    the number of characters that are missing. *)
Theorem C60_integer_prefix : forall bits signed v n, int_type bits -> least bits signed <= v <= greatest bits signed -> (1 <= n)%nat ->
  exists l, int_from (mkIty bits signed) v = Some l /\ int_literal l v /\ (length l <= if (bits =? 128)%N then 40 else 20)%nat /\
    int_to_buffer (mkIty bits signed) v (Z.of_nat n) = (firstn n l, Z.max 0 (Z.of_nat (length l) - Z.of_nat n)).
Proof.
  intros bits signed v n Ht Hv Hn.
  destruct (int_cut (mkIty bits signed) v n Ht Hv Hn) as (l & E & L20 & C). exists l. split; [exact E|].
  destruct (int_from_spec (mkIty bits signed) v Ht Hv) as (d & R & V & E2). rewrite E in E2. injection E2 as E2.
  assert (D1 := rfc_int_digits d R).
  split.
  { exists d. split; [exact D1|]. rewrite V. destruct (Z.ltb_spec v 0); [right|left]; (split; [exact E2|lia]). }
  split; [exact L20|exact C].
Qed.

(** A negative number and a buffer of one character: the sign fits, the digit is written behind it. *)
Theorem C60_outside_refuted : exists b buffer, (b < infinity 52 11)%N /\ length buffer = 1%nat /\
  to_buffer double_info (with_sign 52 11 true b) buffer 1 = UB.
Proof. exists 4602678819172646912%N, [x00]. split; [reflexivity|]. split; [reflexivity|]. vm_compute. reflexivity. Qed.

(** 12.5 in two characters becomes 2, 1200 in three becomes 100, and 1.5 in one is not printed at all. *)
Theorem C60_prefix_refuted :
  to_buffer double_info 4623226492472524800 (s2b "??") 2 = Ok (s2b "2?", 1) /\
  to_buffer double_info 4652992471259676672 (s2b "???") 3 = Ok (s2b "100", 3) /\
  to_buffer double_info 4609434218613702656 (s2b "?") 1 = Ok (s2b "1", 0).
Proof. split; [vm_compute; reflexivity|]. split; [vm_compute; reflexivity|]. vm_compute. reflexivity. Qed.

(** The hypotheses are met: -12.625 in five characters, 1.5e300 in four. *)
Example C60_nonvacuous :
  to_buffer double_info (with_sign 52 11 true 4623296861216702464) (s2b "?????") 5 = Ok (s2b "-12.6", 5) /\
  to_buffer double_info 9097811302482466869 (s2b "????") 4 = Ok (s2b "1.5e", 4).
Proof. split; [vm_compute; reflexivity|]. vm_compute. reflexivity. Qed.

Example C60_integer_nonvacuous : int_to_buffer (mkIty 64 true) (-9223372036854775808) 6 = (s2b "-92233", 14).
Proof. vm_compute. reflexivity. Qed.

Print Assumptions C60_double_inside_partial.
Print Assumptions C60_float_inside_partial.
Print Assumptions C60_double_prefix_partial.
Print Assumptions C60_float_prefix_partial.
Print Assumptions C60_double_to_string.
Print Assumptions C60_float_to_string.
Print Assumptions C60_integer_prefix.
Print Assumptions C60_outside_refuted.
Print Assumptions C60_prefix_refuted.
