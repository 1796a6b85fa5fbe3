(** C24, C25 for floats: decimal literals read as floats, and floats read back from their text. *)
From Coq Require Import String QArith Qabs Qpower Lqa ZArith Lia.
From Verif Require Import Base ScanModel JsonSpec NumSpec DoubleSpec DoubleRound IntModel NumParse DoubleModel DoubleRead PropDouble RyuModel RyuRow RyuDecode RyuNearest
  RyuText RyuPrint RyuWhole FloatModel FloatRound FloatProofs.
Local Open Scope Z_scope.

(** x lies neither within 2^-202 above 2^-150 nor within 2^75 below 2^128 - 2^103. *)
Definition clear_of_ends (x : Q) : Prop :=
  ~ (inject_Z 2 ^ (-150) < x /\ x <= inject_Z 2 ^ (-150) + inject_Z 2 ^ (-202))%Q /\
  ~ (inject_Z (2 ^ 128 - 2 ^ 103 - 2 ^ 75) <= x /\ x <= inject_Z (2 ^ 128 - 2 ^ 103))%Q.

Lemma units_of x : exists X, (x == X * inject_Z 2 ^ (-1074))%Q /\ (X == x * inject_Z (2 ^ 1074))%Q.
Proof.
  exists (x * inject_Z (2 ^ 1074))%Q. split; [|reflexivity]. rewrite <- q2nonneg by lia. rewrite <- Qmult_assoc, <- q2add. change (1074 + -1074) with 0. cbn [Qpower]. ring.
Qed.

Lemma scale_le a b : (a <= b)%Q <-> (a * inject_Z (2 ^ 1074) <= b * inject_Z (2 ^ 1074))%Q.
Proof. symmetry. apply Qmult_le_r. rewrite <- q2nonneg by lia. apply q2pos. Qed.
Lemma scale_lt a b : (a < b)%Q <-> (a * inject_Z (2 ^ 1074) < b * inject_Z (2 ^ 1074))%Q.
Proof. symmetry. apply Qmult_lt_r. rewrite <- q2nonneg by lia. apply q2pos. Qed.

Lemma scale_points : (inject_Z 2 ^ (-150) * inject_Z (2 ^ 1074) == inject_Z (2 ^ 924))%Q /\
  ((inject_Z 2 ^ (-150) + inject_Z 2 ^ (-202)) * inject_Z (2 ^ 1074) == inject_Z (2 ^ 924 + 2 ^ 872))%Q.
Proof.
  rewrite <- (q2nonneg 1074) by lia. split.
  - rewrite <- q2add, <- q2nonneg by lia. reflexivity.
  - rewrite Qmult_plus_distr_l, <- !q2add, inject_Z_plus, <- !q2nonneg by lia. reflexivity.
Qed.

Lemma clear_ends_units x X : (X == x * inject_Z (2 ^ 1074))%Q -> clear_of_ends x <-> clear_units X.
Proof.
  intros E. unfold clear_of_ends, clear_units. destruct scale_points as [P1 P2]. rewrite !inject_Z_mult, <- P1, <- P2, E.
  rewrite <- !scale_le, <- scale_lt. reflexivity.
Qed.

(** ** Reading *)
(** Literals with at most 19 digits: the nearest float, ties to even.  Missing for C24: longer literals,
    literals with leading zeros outside of [readable], and the values next to the two ends of the range of
    floats; they are wrong in the code, see the refutations below and in PropDouble.v. *)
Theorem C24_float_nearest_partial : forall (neg : bool) l m p,
  dec_literal l m p -> (exists c r, l = c :: r /\ is_digit c) -> (mantissa_digits l <= 19)%nat -> readable l m p ->
  clear_of_ends (scaled m 10 p) ->
  exists b, float_to ((if neg then [x2d] else []) ++ l) = Ok (NoError, with_sign 23 8 neg b) /\
    nearest 23 8 (scaled m 10 p) b.
Proof.
  intros neg l m p Hl Hd Hn Hr Hc. destruct (double_to_decimal neg l m p Hl Hd Hn Hr) as (bd & H & A & _).
  destruct (units_of (scaled m 10 p)) as (X & E1 & E2).
  destruct (correctly_round (if neg then [x2d] else []) neg l m p bd X) as (b & B & N); auto.
  - destruct neg; auto.
  - apply A.
  - apply (clear_ends_units (scaled m 10 p)); assumption.
  - exists b. split; [|exact N]. rewrite (float_to_double _ neg bd H), B. reflexivity.
Qed.

(** Fewer than 16 digits never come near the ends. *)
Lemma pow10_split p k : k <= p -> (inject_Z 10 ^ p == inject_Z (10 ^ (p - k)) * inject_Z 10 ^ k)%Q.
Proof. intros H. rewrite <- DoubleProofs.q10nonneg by lia. rewrite <- DoubleProofs.q10add. replace (p - k + k) with p by lia. reflexivity. Qed.

Lemma short_clear m p : 0 <= m < 10 ^ 15 -> clear_of_ends (scaled m 10 p).
Proof.
  intros Hm. unfold scaled. split; intros [H1 H2].
  - assert (Hp : -60 <= p).
    { destruct (Z.le_gt_cases (-60) p) as [L|L]; [exact L|]. exfalso.
      assert (K1 : (inject_Z 10 ^ p <= inject_Z 10 ^ (-61))%Q) by (apply q10_le; lia).
      assert (K2 : (inject_Z m <= inject_Z (10 ^ 15))%Q) by (rewrite <- Zle_Qle; lia).
      assert (K3 : (inject_Z m * inject_Z 10 ^ p <= inject_Z (10 ^ 15) * inject_Z 10 ^ (-61))%Q).
      { apply Qmult_le_compat_nonneg; split; try assumption; [change 0%Q with (inject_Z 0); rewrite <- Zle_Qle; lia|apply Qlt_le_weak, DoubleProofs.q10pos]. }
      apply (Qlt_not_le _ _ H1). eapply Qle_trans; [exact K3|]. vm_compute. discriminate. }
    rewrite (pow10_split p (-60) Hp), Qmult_assoc, <- inject_Z_mult in H1, H2.
    set (n := m * 10 ^ (p - -60)) in *. clearbody n.
    assert (N1 : 700649232162408 < n).
    { apply Z.nle_gt. intros C. rewrite Zle_Qle in C. apply (Qlt_not_le _ _ H1).
      apply (Qle_trans _ (inject_Z 700649232162408 * inject_Z 10 ^ (-60))); [apply Qmult_le_compat_r; [exact C|apply Qlt_le_weak, DoubleProofs.q10pos]|vm_compute; discriminate]. }
    assert (N2 : n < 700649232162409).
    { apply Z.nle_gt. intros C. rewrite Zle_Qle in C. apply (Qle_not_lt _ _ H2).
      apply (Qlt_le_trans _ (inject_Z 700649232162409 * inject_Z 10 ^ (-60))); [vm_compute; reflexivity|apply Qmult_le_compat_r; [exact C|apply Qlt_le_weak, DoubleProofs.q10pos]]. }
    lia.
  - assert (Hp : 24 <= p).
    { destruct (Z.le_gt_cases 24 p) as [L|L]; [exact L|]. exfalso.
      assert (K1 : (inject_Z 10 ^ p <= inject_Z 10 ^ 23)%Q) by (apply q10_le; lia).
      assert (K2 : (inject_Z m <= inject_Z (10 ^ 15))%Q) by (rewrite <- Zle_Qle; lia).
      assert (K3 : (inject_Z m * inject_Z 10 ^ p <= inject_Z (10 ^ 15) * inject_Z 10 ^ 23)%Q).
      { apply Qmult_le_compat_nonneg; split; try assumption; [change 0%Q with (inject_Z 0); rewrite <- Zle_Qle; lia|apply Qlt_le_weak, DoubleProofs.q10pos]. }
      apply (Qle_not_lt _ _ H1). eapply Qle_lt_trans; [exact K3|]. vm_compute. reflexivity. }
    rewrite (pow10_split p 24 Hp), Qmult_assoc, <- inject_Z_mult in H1, H2.
    set (n := m * 10 ^ (p - 24)) in *. clearbody n.
    assert (N1 : 340282356779733 < n).
    { apply Z.nle_gt. intros C. rewrite Zle_Qle in C. apply (Qle_not_lt _ _ H1).
      apply (Qle_lt_trans _ (inject_Z 340282356779733 * inject_Z 10 ^ 24)); [apply Qmult_le_compat_r; [exact C|apply Qlt_le_weak, DoubleProofs.q10pos]|vm_compute; reflexivity]. }
    assert (N2 : n < 340282356779734).
    { apply Z.nle_gt. intros C. rewrite Zle_Qle in C. apply (Qle_not_lt _ _ H2).
      apply (Qlt_le_trans _ (inject_Z 340282356779734 * inject_Z 10 ^ 24)); [vm_compute; reflexivity|apply Qmult_le_compat_r; [exact C|apply Qlt_le_weak, DoubleProofs.q10pos]]. }
    lia.
Qed.

Theorem C24_float_nearest_up_to_15_digits_partial : forall (neg : bool) l m p,
  dec_literal l m p -> (exists c r, l = c :: r /\ is_digit c) -> (mantissa_digits l <= 15)%nat -> readable l m p ->
  exists b, float_to ((if neg then [x2d] else []) ++ l) = Ok (NoError, with_sign 23 8 neg b) /\
    nearest 23 8 (scaled m 10 p) b.
Proof.
  intros neg l m p Hl Hd Hn Hr. apply C24_float_nearest_partial; try assumption; [lia|]. apply short_clear.
  destruct (dec_literal_parts l m p Hl Hd) as (i & f & fl & ex & n & v & El & Hi & Hf & Hfl & Hex & Hv & Em & Ep).
  assert (Hlen := mantissa_parts i f fl ex n v (proj2 Hi) Hf Hfl Hex). rewrite <- El in Hlen.
  assert (Hall : Forall is_digit (i ++ f)) by (apply Forall_app; split; [apply Hi|exact Hf]).
  assert (Hup := dec_value_upper _ Hall). rewrite Em. split; [apply N2Z.is_nonneg|].
  apply N2Z.inj_lt in Hup. rewrite N2Z.inj_pow, nat_N_Z in Hup. eapply Z.lt_le_trans; [exact Hup|].
  apply Z.pow_le_mono_r; [lia|]. lia.
Qed.

(** Just above 2^-150: 0 instead of the least positive float.  Just below 2^128 - 2^103: infinity instead
    of the largest float. *)
Theorem C24_float_low_end_refuted : exists l m p, dec_literal l m p /\ mantissa_digits l = 16%nat /\ readable l m p /\
  float_to l = Ok (NoError, 0%N) /\ nearest 23 8 (scaled m 10 p) 1.
Proof.
  exists (s2b "7.006492321624086e-46"), 7006492321624086, (-61).
  split; [literal_exp "7"%string "006492321624086"%string x65 "-"%string "46"%string|].
  split; [reflexivity|]. split; [left; eexists _, _; split; [reflexivity|discriminate]|]. split; [vm_compute; reflexivity|].
  destruct (units_of (scaled 7006492321624086 10 (-61))) as (X & E1 & E2). apply (nearest_F X); [discriminate| | |exact E1]; intros _; rewrite E2; (split; [vm_compute; discriminate|]); intros E; exfalso; vm_compute in E; discriminate E.
Qed.

Theorem C24_float_high_end_refuted : exists l m p, dec_literal l m p /\ mantissa_digits l = 17%nat /\ readable l m p /\
  float_to l = Ok (NoError, infinity 23 8) /\ nearest 23 8 (scaled m 10 p) (infinity 23 8 - 1).
Proof.
  exists (s2b "3.4028235677973366e38"), 34028235677973366, 22.
  split; [literal_exp "3"%string "4028235677973366"%string x65 ""%string "38"%string|].
  split; [reflexivity|]. split; [left; eexists _, _; split; [reflexivity|discriminate]|]. split; [vm_compute; reflexivity|].
  destruct (units_of (scaled 34028235677973366 10 22)) as (X & E1 & E2). apply (nearest_F X); [discriminate| | |exact E1]; intros _; rewrite E2; (split; [vm_compute; discriminate|]); intros E; exfalso; vm_compute in E; discriminate E.
Qed.

(** ** Reading back *)
Lemma ends_float x b : (b < infinity 23 8)%N -> nearest 23 8 x b -> b <> 1%N -> b <> (infinity 23 8 - 1)%N -> clear_of_ends x.
Proof.
  intros Hb Hn H1 H2. destruct (units_of x) as (X & E1 & E2). apply (clear_ends_units x X E2). split; intros [C1 C2].
  - apply H1. apply (nearest_unique 23 8 x); [exact Hn|]. destruct low_facts as (_ & _ & L3).
    apply (nearest_F X); [discriminate| | |exact E1].
    + intros _. change (1 - 1)%N with 0%N. rewrite L3, inject_Z_mult. change (inject_Z 2) with 2%Q. split; [lra|]. intros E. exfalso. lra.
    + intros _. assert (K : (2 * inject_Z (2 ^ 924 + 2 ^ 872) < inject_Z (F 1 + F (1 + 1)))%Q) by (vm_compute; reflexivity). split; [lra|]. intros E. exfalso. lra.
  - destruct high_facts as (_ & _ & L3).
    destruct (Qlt_le_dec X (inject_Z ((2 ^ 128 - 2 ^ 103) * 2 ^ 1074))) as [L|L].
    + apply H2. apply (nearest_unique 23 8 x); [exact Hn|]. apply (nearest_F X); [discriminate| | |exact E1].
      * intros _. assert (K : (inject_Z (F (infinity 23 8 - 1 - 1) + F (infinity 23 8 - 1)) < 2 * inject_Z ((2 ^ 128 - 2 ^ 103 - 2 ^ 75) * 2 ^ 1074))%Q) by (vm_compute; reflexivity).
        split; [lra|]. intros E. exfalso. lra.
      * intros _. change (infinity 23 8 - 1 + 1)%N with (infinity 23 8). rewrite L3, (inject_Z_mult 2). change (inject_Z 2) with 2%Q. split; [lra|]. intros E. exfalso. lra.
    + assert (Eb : b = infinity 23 8); [|rewrite Eb in Hb; lia]. apply (nearest_unique 23 8 x); [exact Hn|]. apply (nearest_F X); [lia| |lia|exact E1].
      intros _. rewrite L3, (inject_Z_mult 2). change (inject_Z 2) with 2%Q. split; [lra|reflexivity].
Qed.

Lemma first_text neg buffer : length buffer = 16%nat ->
  float_from (with_sign 23 8 neg 1) buffer = Ok (Some (TNumber, minus neg ++ s2b "1e-45")).
Proof.
  intros Hl. unfold float_from.
  rewrite (number_from_text float_info _ buffer (mkBase10 neg false false 1 (-45) 1) neg 1 (-45) 1);
    [vm_compute; reflexivity|destruct neg; vm_compute; reflexivity|destruct neg; vm_compute; reflexivity|destruct neg; vm_compute; reflexivity|reflexivity|lia|cbn; lia|].
  rewrite Hl. vm_compute. lia.
Qed.

Lemma last_text neg buffer : length buffer = 16%nat ->
  float_from (with_sign 23 8 neg (infinity 23 8 - 1)) buffer = Ok (Some (TNumber, minus neg ++ s2b "3.4028235e38")).
Proof.
  intros Hl. unfold float_from.
  rewrite (number_from_text float_info _ buffer (mkBase10 neg false false 8 31 34028235) neg 8 31 34028235);
    [vm_compute; reflexivity|destruct neg; vm_compute; reflexivity|destruct neg; vm_compute; reflexivity|destruct neg; vm_compute; reflexivity|reflexivity|lia|cbn; lia|].
  rewrite Hl. vm_compute. lia.
Qed.

(** Every finite float: what is printed is read back as the same bits, for every prior content of the buffer. *)
Theorem C25_float_round_trip : forall (neg : bool) b buffer, (b < infinity 23 8)%N -> length buffer = 16%nat ->
  exists l, float_from (with_sign 23 8 neg b) buffer = Ok (Some (TNumber, l)) /\
    float_to l = Ok (NoError, with_sign 23 8 neg b).
Proof.
  intros neg b buffer Hb Hl.
  destruct (N.eq_dec b 1) as [->|H1]; [exists (minus neg ++ s2b "1e-45"); split; [apply first_text; exact Hl|destruct neg; vm_compute; reflexivity]|].
  destruct (N.eq_dec b (infinity 23 8 - 1)) as [->|H2]; [exists (minus neg ++ s2b "3.4028235e38"); split; [apply last_text; exact Hl|destruct neg; vm_compute; reflexivity]|].
  destruct (printed float_info 20 (10 ^ 9) (-1000) (-46) 39 2 9 neg b buffer float_checked float_bounds ltac:(lia) Hb) as (l & x & H & (m & p & D & E & Hh & Hm & _ & Hr) & N & _ & R).
  { intros _. unfold exponent. change (bias float_info) with 127. cbn [mentissa_width float_info]. lia. }
  { rewrite Hl. cbn. lia. }
  assert (Hread : readable l m p).
  { destruct Hr as [Hr|Hr]; [left; exact Hr|right]. split; [exact Hr|]. destruct R as [R|R].
    - left. rewrite R in E. unfold scaled in E. assert (P := DoubleProofs.q10pos p).
      destruct (Qmult_integral _ _ E) as [Z0|Z0]; [|rewrite Z0 in P; discriminate P]. apply (proj1 (inject_Z_injective m 0)). exact Z0.
    - right. rewrite E. eapply Qle_trans; [|exact R]. apply q10_le; lia. }
  change (nearest 23 8 x b) in N.
  assert (N' : nearest 23 8 (scaled m 10 p) b) by (apply (nearest_eq _ _ x); [symmetry; exact E|exact N]).
  destruct (C24_float_nearest_partial neg l m p D Hh Hm Hread (ends_float _ b Hb N' H1 H2)) as (b' & F1 & F2).
  exists (minus neg ++ l). split; [exact H|]. unfold minus. rewrite F1. do 3 f_equal. apply (nearest_unique 23 8 (scaled m 10 p)); assumption.
Qed.

(** ** The hypotheses can be met *)
(** 2^24 + 1 and 2^24 + 3 lie halfway between two floats; then values just above
    and just below a halfway point, which are the same when read as a double. *)
Example C24_nonvacuous_float : dec_literal (s2b "16777217") 16777217 0 /\ readable (s2b "16777217") 16777217 0 /\ clear_of_ends (scaled 16777217 10 0) /\
  float_to (s2b "16777217") = Ok (NoError, 1266679808%N) /\ float_to (s2b "16777219") = Ok (NoError, 1266679810%N) /\
  float_to (s2b "1.000000059604644776") = Ok (NoError, 1065353217%N) /\ float_to (s2b "1.000000059604644775") = Ok (NoError, 1065353216%N) /\
  double_to (s2b "1.000000059604644776") = double_to (s2b "1.000000059604644775").
Proof.
  split; [exact (DL_plain (s2b "16777217") [] [] ltac:(repeat constructor; unfold is_digit; cbn; lia) (Forall_nil _) (or_introl (conj eq_refl eq_refl)))|].
  split; [left; eexists _, _; split; [reflexivity|discriminate]|]. split; [apply short_clear; lia|].
  split; [vm_compute; reflexivity|]. split; [vm_compute; reflexivity|]. split; [vm_compute; reflexivity|].
  split; vm_compute; reflexivity.
Qed.

Example C25_nonvacuous_float_back : (1078530011 < infinity 23 8)%N /\
  float_from (with_sign 23 8 true 1078530011) (repeat xff 16) = Ok (Some (TNumber, s2b "-3.1415927")) /\
  float_to (s2b "-3.1415927") = Ok (NoError, with_sign 23 8 true 1078530011).
Proof. split; [reflexivity|]. split; vm_compute; reflexivity. Qed.

Print Assumptions C24_float_nearest_partial.
Print Assumptions C24_float_nearest_up_to_15_digits_partial.
Print Assumptions C24_float_low_end_refuted.
Print Assumptions C24_float_high_end_refuted.
Print Assumptions C25_float_round_trip.
