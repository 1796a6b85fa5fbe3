(** The loops of the 128-bit conversion: how far the two words can be from the exact value, and when
    they hold it exactly. *)
From Coq Require Import QArith Qabs Qpower Lqa Lia ZArith Znumtheory.
From Verif Require Import Base JsonSpec NumSpec DoubleSpec DoubleRound IntModel DoubleModel DoubleWords.
Local Open Scope Z_scope.

(** The value held by two words and a binary exponent. *)
Definition held (a : Z) (be : Z) : Q := (inject_Z a * inject_Z 2 ^ (be - 124))%Q.

Definition eta : Q := (5 # 10633823966279326983230456482242756608)%Q.

Lemma eta_2_123 : (eta * inject_Z (2 ^ 123) == 5)%Q.
Proof. reflexivity. Qed.

(** After [n] roundings. *)
Definition approx (x : Q) (n : Z) (v : Q) : Prop := (v <= x /\ x * (1 - inject_Z n * eta) <= v)%Q.

Lemma approx_step x n v c v' : (0 <= x)%Q -> 0 <= n < 2 ^ 119 -> (0 < c)%Q -> approx x n v ->
  (v' <= c * v)%Q -> (c * v * (1 - eta) <= v')%Q -> approx (c * x) (n + 1) v'.
Proof.
  intros Hx Hn Hc [H1 H2] H3 H4. unfold approx. rewrite inject_Z_plus.
  assert (He : (0 < eta)%Q) by reflexivity.
  assert (Hn0 : (0 <= inject_Z n)%Q) by (change 0%Q with (inject_Z 0); rewrite <- Zle_Qle; lia).
  assert (He1 : (eta < 1)%Q) by reflexivity.
  set (m := inject_Z n) in *. clearbody m. generalize dependent eta. intros h H2 H4 Hh Hh1.
  split; [nra|].
  assert (E1 : (c * (x * (1 - m * h)) * (1 - h) <= c * v * (1 - h))%Q).
  { apply Qmult_le_compat_r; [|lra]. apply Qmult_le_l; assumption. }
  assert (E2 : (c * x * (1 - (m + inject_Z 1) * h) <= c * (x * (1 - m * h)) * (1 - h))%Q).
  { change (inject_Z 1) with 1%Q.
    assert ((c * (x * (1 - m * h)) * (1 - h) == c * x * (1 - (m + 1) * h) + c * x * (m * (h * h)))%Q) as -> by ring.
    assert (0 <= c * x * (m * (h * h)))%Q; [|lra].
    apply Qmult_le_0_compat; [apply Qmult_le_0_compat; [lra|exact Hx]|].
    apply Qmult_le_0_compat; [exact Hn0|]. apply Qmult_le_0_compat; lra. }
  lra.
Qed.

Lemma approx_more x n n' v : (0 <= x)%Q -> n <= n' -> approx x n v -> approx x n' v.
Proof.
  intros Hx Hn [H1 H2]. split; [exact H1|]. rewrite Zle_Qle in Hn. assert (He : (0 < eta)%Q) by reflexivity.
  set (m := inject_Z n) in *. set (m' := inject_Z n') in *. clearbody m m'. generalize dependent eta. intros h H2 He. 
  assert (0 <= x * ((m' - m) * h))%Q; [|lra].
  apply Qmult_le_0_compat; [exact Hx|]. apply Qmult_le_0_compat; lra.
Qed.

(** A truncating division of a large enough number loses at most [eta]. *)
Lemma trunc_loss A d : 0 <= A -> 0 < d -> 2 ^ 123 * d <= 5 * A ->
  (inject_Z (A / d) <= inject_Z A / inject_Z d /\ inject_Z A / inject_Z d * (1 - eta) <= inject_Z (A / d))%Q.
Proof.
  intros HA Hd Hb. assert (E := Z.div_mod A d ltac:(lia)). assert (Hr := Z.mod_pos_bound A d Hd).
  set (q := A / d) in *. set (r := A mod d) in *.
  assert (Hdq : (0 < inject_Z d)%Q) by (change 0%Q with (inject_Z 0); rewrite <- Zlt_Qlt; exact Hd).
  assert (Hq1 : (inject_Z A / inject_Z d <= inject_Z (q + 1))%Q).
  { apply Qle_shift_div_r; [exact Hdq|]. rewrite <- inject_Z_mult, <- Zle_Qle. nia. }
  assert (Hq0 : (inject_Z q <= inject_Z A / inject_Z d)%Q).
  { apply Qle_shift_div_l; [exact Hdq|]. rewrite <- inject_Z_mult, <- Zle_Qle. nia. }
  split; [exact Hq0|].
  assert (Hb' : (inject_Z (2 ^ 123) <= 5 * (inject_Z A / inject_Z d))%Q).
  { assert (5 * (inject_Z A / inject_Z d) == 5 * inject_Z A / inject_Z d)%Q as -> by (field; lra).
    apply Qle_shift_div_l; [exact Hdq|]. change 5%Q with (inject_Z 5). rewrite <- !inject_Z_mult, <- Zle_Qle. exact Hb. }
  assert (H1 : (1 <= inject_Z A / inject_Z d * eta)%Q).
  { assert (He : (0 <= eta)%Q) by discriminate.
    assert (inject_Z (2 ^ 123) * eta <= 5 * (inject_Z A / inject_Z d) * eta)%Q by (apply Qmult_le_compat_r; assumption).
    assert (E2 := eta_2_123). set (y := (inject_Z A / inject_Z d)%Q) in *. generalize dependent eta. intros h He H E2. clear - H E2. lra. }
  rewrite inject_Z_plus in *. change (inject_Z 1) with 1%Q in *.
  set (y := (inject_Z A / inject_Z d)%Q) in *. set (k := inject_Z q) in *.
  generalize dependent eta. intros h H1. clear - H1 Hq1. lra.
Qed.

(** ** Multiplying *)
Lemma drop_mask_spec : forall k fuel a be, (k < fuel)%nat -> ok128 a -> (V2 a < 2 ^ (124 + N.of_nat k))%N ->
  exists s a', drop_mask fuel a be = Ok (a', be + Z.of_nat s) /\ ok128 a' /\ (s <= k)%nat /\
    V2 a' = (V2 a / 2 ^ N.of_nat s)%N /\ (V2 a' < 2 ^ 124)%N /\ (s = 0%nat \/ (2 ^ 123 <= V2 a')%N).
Proof.
  induction k as [|k IH]; intros fuel a be Hf Hok Hlt.
  - destruct fuel as [|f]; [lia|]. cbn [drop_mask]. rewrite (has_mask_spec a Hok).
    change (124 + N.of_nat 0)%N with 124%N in Hlt. destruct (N.leb_spec (2 ^ 124) (V2 a)) as [L|L].
    + exfalso. apply N.le_ngt in L. exact (L Hlt).
    + exists 0%nat, a. rewrite Z.add_0_r. change (2 ^ N.of_nat 0)%N with 1%N. rewrite N.div_1_r. auto 10.
  - destruct fuel as [|f]; [lia|]. cbn [drop_mask]. rewrite (has_mask_spec a Hok).
    destruct (N.leb_spec (2 ^ 124) (V2 a)) as [L|L].
    + destruct (right_shift_spec a Hok) as (Hok' & E).
      assert (Hlt' : (V2 (right_shift a) < 2 ^ (124 + N.of_nat k))%N).
      { rewrite E. apply N.div_lt_upper_bound; [discriminate|]. rewrite <- N.pow_succ_r'.
        replace (N.succ (124 + N.of_nat k)) with (124 + N.of_nat (S k))%N by lia. exact Hlt. }
      destruct (IH f (right_shift a) (be + 1) ltac:(lia) Hok' Hlt') as (s & a' & E1 & H1 & H2 & H3 & H4 & H5).
      exists (S s), a'. rewrite E1. split; [f_equal; f_equal; lia|]. split; [exact H1|]. split; [lia|].
      split. { rewrite H3, E, N.div_div; [|discriminate|apply N.pow_nonzero; discriminate].
               rewrite <- N.pow_succ_r'. f_equal. f_equal. lia. }
      split; [exact H4|]. right. destruct H5 as [-> |H5]; [|exact H5].
      rewrite H3. change (2 ^ N.of_nat 0)%N with 1%N. rewrite N.div_1_r, E.
      apply N.div_le_lower_bound; [discriminate|]. exact L.
    + exists 0%nat, a. rewrite Z.add_0_r. change (2 ^ N.of_nat 0)%N with 1%N. rewrite N.div_1_r. repeat split; try assumption; try lia; try apply Hok.
Qed.

Lemma times10 a : ok128 a -> (V2 a < 2 ^ 124)%N ->
  ok128 (add128 (left_shift_by 2 (left_shift_by 1 a)) (left_shift_by 1 a)) /\
  V2 (add128 (left_shift_by 2 (left_shift_by 1 a)) (left_shift_by 1 a)) = (10 * V2 a)%N.
Proof.
  intros Hok Hlt. destruct (left_shift_by_spec 1 a ltac:(lia) Hok) as (H1 & E1).
  destruct (left_shift_by_spec 2 (left_shift_by 1 a) ltac:(lia) H1) as (H2 & E2).
  assert (H124 : (2 ^ 128 = 16 * 2 ^ 124)%N) by reflexivity.
  rewrite E1 in E2. change (2 ^ 1)%N with 2%N in *. change (2 ^ 2)%N with 4%N in *.
  rewrite H124 in E1, E2. set (T := (2 ^ 124)%N) in *. clearbody T.
  rewrite (N.mod_small (V2 a * 2)) in E1, E2 by lia. rewrite N.mod_small in E2 by lia.
  destruct (add128_spec _ _ H2 H1) as (H3 & E3); [rewrite E1, E2, H124; lia|].
  split; [exact H3|]. rewrite E3, E1, E2. lia.
Qed.

Definition few (k : Z) (y : Z) : Prop := exists c j, 0 <= j /\ 0 <= c < 2 ^ k /\ y = c * 2 ^ j.

Lemma rel_prime_5_2 j : 0 <= j -> rel_prime 5 (2 ^ j).
Proof.
  intros Hj. apply rel_prime_sym. apply (Zpow_facts.rel_prime_Zpower_r j 5 2) in Hj; [apply rel_prime_sym; exact Hj|].
  apply bezout_rel_prime. apply (Bezout_intro 5 2 1 1 (-2)). reflexivity.
Qed.

Lemma few_half k y : 0 <= k -> few k (2 * y) -> few k y.
Proof.
  intros Hk (c & j & Hj & Hc & E). destruct (Z.eq_dec j 0) as [->|Hj0].
  - exists y, 0. change (2 ^ 0) with 1 in *. lia.
  - exists c, (j - 1). replace j with (Z.succ (j - 1)) in E by lia. rewrite Z.pow_succ_r in E by lia. lia.
Qed.

Lemma few_fifth k y : few k (5 * y) -> few k y.
Proof.
  intros (c & j & Hj & Hc & E).
  assert (Hd : (5 | c)).
  { apply (Gauss 5 (2 ^ j) c); [exists y; lia|]. apply rel_prime_5_2, Hj. }
  destruct Hd as (c' & ->). exists c', j. split; [exact Hj|]. split; [lia|].
  apply (Z.mul_reg_l _ _ 5); [discriminate|]. rewrite E. ring.
Qed.

Lemma few_tenths k n : 0 <= k -> forall y, few k (y * 10 ^ Z.of_nat n) -> few k y.
Proof.
  intros Hk. induction n as [|n IH]; intros y H.
  - change (10 ^ Z.of_nat 0) with 1 in H. rewrite Z.mul_1_r in H. exact H.
  - apply few_half; [exact Hk|]. apply few_fifth. apply IH.
    rewrite Nat2Z.inj_succ, Z.pow_succ_r in H by lia.
    replace (5 * (2 * y) * 10 ^ Z.of_nat n) with (y * (10 * 10 ^ Z.of_nat n)) by ring. exact H.
Qed.

Lemma few_halves k n : 0 <= k -> forall y, few k (y * 2 ^ Z.of_nat n) -> few k y.
Proof.
  intros Hk. induction n as [|n IH]; intros y H.
  - change (2 ^ Z.of_nat 0) with 1 in H. rewrite Z.mul_1_r in H. exact H.
  - apply few_half; [exact Hk|]. apply IH.
    rewrite Nat2Z.inj_succ, Z.pow_succ_r in H by lia.
    replace (2 * y * 2 ^ Z.of_nat n) with (y * (2 * 2 ^ Z.of_nat n)) by ring. exact H.
Qed.

(** A large number with few significant bits ends in many zeros. *)
Lemma few_divides k s y : 0 <= s -> few k y -> 2 ^ (k + s) <= y -> (2 ^ s | y).
Proof.
  intros Hs (c & j & Hj & Hc & ->) Hb.
  assert (s <= j).
  { destruct (Z.le_gt_cases s j) as [L|L]; [exact L|exfalso].
    assert (0 <= k) by (destruct (Z.neg_nonneg_cases k) as [K|K]; [rewrite Z.pow_neg_r in Hc by exact K; lia|exact K]).
    assert (2 ^ j <= 2 ^ s) by (apply Z.pow_le_mono_r; lia). rewrite Z.pow_add_r in Hb by lia.
    assert (0 < 2 ^ j) by (apply Z.pow_pos_nonneg; lia). nia. }
  exists (c * 2 ^ (j - s)). rewrite <- Z.mul_assoc, <- Z.pow_add_r by lia. f_equal. f_equal. lia.
Qed.

Lemma held_shift a s be : 0 <= s -> (held (a * 2 ^ s) be == held a (be + s))%Q.
Proof.
  intros Hs. unfold held. rewrite inject_Z_mult, <- (q2nonneg s Hs).
  replace (be + s - 124) with (s + (be - 124)) by lia. rewrite q2add. ring.
Qed.

Lemma held_div A s be : 0 <= s ->
  (inject_Z A / inject_Z (2 ^ s) * inject_Z 2 ^ (be + s - 124) == held A be)%Q.
Proof.
  intros Hs. unfold held. replace (be + s - 124) with (s + (be - 124)) by lia. rewrite q2add, <- (q2nonneg s Hs).
  assert (H := q2pos s). field. lra.
Qed.

Lemma mul_loop_spec n : forall a be x k, ok128 a -> (V2 a < 2 ^ 124)%N -> (0 < V2 a)%N -> (0 <= x)%Q ->
  0 <= k -> k + Z.of_nat n < 2 ^ 119 -> approx x k (held (Z.of_N (V2 a)) be) ->
  exists a' be', mul_loop n a be = Ok (a', be') /\ ok128 a' /\ (0 < V2 a' < 2 ^ 124)%N /\
    approx (x * inject_Z (10 ^ Z.of_nat n)) (k + Z.of_nat n) (held (Z.of_N (V2 a')) be') /\
    (few 54 (Z.of_N (V2 a) * 10 ^ Z.of_nat n) ->
     (held (Z.of_N (V2 a')) be' == held (Z.of_N (V2 a)) be * inject_Z (10 ^ Z.of_nat n))%Q).
Proof.
  induction n as [|n IH]; intros a be x k Hok Hlt Hpos Hx Hk Hkn Hap.
  - exists a, be. split; [reflexivity|]. split; [exact Hok|]. split; [split; assumption|].
    change (10 ^ Z.of_nat 0) with 1. rewrite Z.add_0_r. split.
    + destruct Hap as [H1 H2]. change (inject_Z 1) with 1%Q. split; rewrite Qmult_1_r; assumption.
    + intros _. rewrite Qmult_1_r. reflexivity.
  - cbn [mul_loop]. destruct (times10 a Hok Hlt) as (H1 & E1).
    set (a1 := add128 _ _) in *. clearbody a1.
    destruct (drop_mask_spec 4 128 a1 be ltac:(lia) H1) as (s & a2 & E2 & H2 & Hs & E3 & H4 & H5).
    { rewrite E1. change (124 + N.of_nat 4)%N with 128%N. change (2 ^ 128)%N with (16 * 2 ^ 124)%N.
      set (T := (2 ^ 124)%N) in *. clearbody T. lia. }
    rewrite E2. cbn [obind].
    assert (EZ : Z.of_N (V2 a2) = 10 * Z.of_N (V2 a) / 2 ^ Z.of_nat s).
    { rewrite E3, N2Z.inj_div, E1, N2Z.inj_mul, N2Z.inj_pow, nat_N_Z. reflexivity. }
    assert (Hp2 : (0 < V2 a2)%N).
    { destruct H5 as [-> |H5].
      - rewrite E3, E1. change (2 ^ N.of_nat 0)%N with 1%N. rewrite N.div_1_r. lia.
      - eapply N.lt_le_trans; [|exact H5]. reflexivity. }
    assert (Hap2 : approx (inject_Z 10 * x) (k + 1) (held (Z.of_N (V2 a2)) (be + Z.of_nat s))).
    { assert (Hu := q2pos (be + Z.of_nat s - 124)).
      assert (Hc : (inject_Z 10 * held (Z.of_N (V2 a)) be ==
        inject_Z (10 * Z.of_N (V2 a)) / inject_Z (2 ^ Z.of_nat s) * inject_Z 2 ^ (be + Z.of_nat s - 124))%Q).
      { rewrite held_div by lia. unfold held. rewrite inject_Z_mult. ring. }
      assert (Hloss : (inject_Z (Z.of_N (V2 a2)) <= inject_Z (10 * Z.of_N (V2 a)) / inject_Z (2 ^ Z.of_nat s) /\
        inject_Z (10 * Z.of_N (V2 a)) / inject_Z (2 ^ Z.of_nat s) * (1 - eta) <= inject_Z (Z.of_N (V2 a2)))%Q).
      { destruct H5 as [-> |H5].
        - change (2 ^ Z.of_nat 0) with 1 in *. rewrite Z.div_1_r in EZ. rewrite EZ.
          assert (Hy : (0 <= inject_Z (10 * Z.of_N (V2 a)))%Q) by (change 0%Q with (inject_Z 0); rewrite <- Zle_Qle; lia).
          set (y := inject_Z (10 * Z.of_N (V2 a))) in *. change (inject_Z 1) with 1%Q.
          assert (Ey : (y / 1 == y)%Q) by field. rewrite Ey. split; [lra|].
          assert (0 <= y * eta)%Q by (apply Qmult_le_0_compat; [exact Hy|discriminate]). lra.
        - rewrite EZ. apply trunc_loss; [lia|apply Z.pow_pos_nonneg; lia|].
          assert (Hge : 2 ^ 123 <= Z.of_N (V2 a2)) by (change (2 ^ 123) with (Z.of_N (2 ^ 123)); apply N2Z.inj_le; exact H5).
          assert (Hps : 0 < 2 ^ Z.of_nat s) by (apply Z.pow_pos_nonneg; lia).
          assert (Hml := Z.mul_div_le (10 * Z.of_N (V2 a)) (2 ^ Z.of_nat s) Hps). rewrite <- EZ in Hml.
          set (P := 2 ^ Z.of_nat s) in *. set (K := 2 ^ 123) in *. clearbody P K. clear - Hml Hge Hps. nia. }
      destruct Hloss as (L1 & L2).
      apply (approx_step x k (held (Z.of_N (V2 a)) be)); [exact Hx|lia|reflexivity|exact Hap| |].
      - rewrite Hc. unfold held at 1. apply Qmult_le_compat_r; [exact L1|lra].
      - rewrite Hc. unfold held at 1.
        apply Qle_trans with (inject_Z (10 * Z.of_N (V2 a)) / inject_Z (2 ^ Z.of_nat s) * (1 - eta) * inject_Z 2 ^ (be + Z.of_nat s - 124))%Q.
        + apply Qle_lteq. right. ring.
        + apply Qmult_le_compat_r; [exact L2|lra]. }
    assert (Hx2 : (0 <= inject_Z 10 * x)%Q) by (apply Qmult_le_0_compat; [discriminate|exact Hx]).
    destruct (IH a2 (be + Z.of_nat s) (inject_Z 10 * x)%Q (k + 1) H2 H4 Hp2 Hx2 ltac:(lia) ltac:(lia) Hap2)
      as (a' & be' & F1 & F2 & F3 & F4 & F5).
    exists a', be'. split; [exact F1|]. split; [exact F2|]. split; [exact F3|].
    assert (E10 : (inject_Z (10 ^ Z.of_nat (S n)) == inject_Z 10 * inject_Z (10 ^ Z.of_nat n))%Q).
    { rewrite Nat2Z.inj_succ, Z.pow_succ_r by lia. rewrite inject_Z_mult. reflexivity. }
    split.
    + replace (k + Z.of_nat (S n)) with (k + 1 + Z.of_nat n) by lia.
      destruct F4 as [G1 G2].
      assert (Exx : (x * inject_Z (10 ^ Z.of_nat (S n)) == inject_Z 10 * x * inject_Z (10 ^ Z.of_nat n))%Q) by (rewrite E10; ring).
      split; rewrite Exx; assumption.
    + intros Hfew. rewrite Nat2Z.inj_succ, Z.pow_succ_r in Hfew by lia.
      assert (Hf1 : few 54 (10 * Z.of_N (V2 a) * 10 ^ Z.of_nat n)).
      { replace (10 * Z.of_N (V2 a) * 10 ^ Z.of_nat n) with (Z.of_N (V2 a) * (10 * 10 ^ Z.of_nat n)) by ring. exact Hfew. }
      assert (Hex : 10 * Z.of_N (V2 a) = Z.of_N (V2 a2) * 2 ^ Z.of_nat s).
      { destruct H5 as [-> |H5].
        - change (2 ^ Z.of_nat 0) with 1 in *. rewrite Z.div_1_r in EZ. lia.
        - assert (Hd : (2 ^ Z.of_nat s | 10 * Z.of_N (V2 a))).
          { apply (few_divides 54); [lia|apply (few_tenths 54 n); [discriminate|exact Hf1]|].
            assert (2 ^ 123 <= 10 * Z.of_N (V2 a)).
            { assert (2 ^ 123 <= Z.of_N (V2 a2)) by (change (2 ^ 123) with (Z.of_N (2 ^ 123)); apply N2Z.inj_le; exact H5).
              assert (Z.of_N (V2 a2) <= 10 * Z.of_N (V2 a)) by (rewrite EZ; apply Z.div_le_upper_bound; [apply Z.pow_pos_nonneg; lia|]; assert (0 < 2 ^ Z.of_nat s) by (apply Z.pow_pos_nonneg; lia); nia). lia. }
            assert (2 ^ (54 + Z.of_nat s) <= 2 ^ 123) by (apply Z.pow_le_mono_r; lia). lia. }
          destruct Hd as (q & Eq). rewrite EZ, Eq, Z.div_mul; [reflexivity|]. apply Z.pow_nonzero; lia. }
      rewrite F5.
      * rewrite E10. rewrite <- held_shift by lia. rewrite <- Hex. unfold held. rewrite inject_Z_mult. ring.
      * apply (few_halves 54 s); [discriminate|].
        replace (Z.of_N (V2 a2) * 10 ^ Z.of_nat n * 2 ^ Z.of_nat s) with (Z.of_N (V2 a2) * 2 ^ Z.of_nat s * 10 ^ Z.of_nat n) by ring.
        rewrite <- Hex. exact Hf1.
Qed.

(** ** Dividing *)
Lemma div_loop_spec n : forall a be x k, ok128 a -> (0 < V2 a < 2 ^ 125)%N -> (0 <= x)%Q ->
  0 <= k -> k + Z.of_nat n < 2 ^ 119 -> approx x k (held (Z.of_N (V2 a)) be) ->
  let r := div_loop n a be in
  ok128 (fst r) /\ (0 < V2 (fst r) < 2 ^ 125)%N /\
  approx (x / inject_Z (10 ^ Z.of_nat n)) (k + Z.of_nat n) (held (Z.of_N (V2 (fst r))) (snd r)) /\
  (few 64 (Z.of_N (V2 a)) -> (5 ^ Z.of_nat n | Z.of_N (V2 a)) ->
   (held (Z.of_N (V2 (fst r))) (snd r) == held (Z.of_N (V2 a)) be / inject_Z (10 ^ Z.of_nat n))%Q).
Proof.
  induction n as [|n IH]; intros a be x k Hok Hlt Hx Hk Hkn Hap.
  - cbn [div_loop fst snd]. split; [exact Hok|]. split; [exact Hlt|]. change (10 ^ Z.of_nat 0) with 1. rewrite Z.add_0_r.
    change (inject_Z 1) with 1%Q. assert (E : forall y, (y / 1 == y)%Q) by (intros y; field). split.
    + destruct Hap as [H1 H2]. split; rewrite E; assumption.
    + intros _ _. rewrite E. reflexivity.
  - cbn [div_loop]. destruct (shift_left_msb_spec a Hok Hlt) as (H1 & s & E1 & E2 & H3).
    destruct (shift_left_msb a) as [a1 s1]. cbn [fst snd] in *. subst s1.
    destruct (divide_by_10_spec a1 H1) as (H4 & E4). rewrite E2 in E4.
    set (a2 := divide_by_10 a1) in *. clearbody a2.
    assert (EZ : Z.of_N (V2 a2) = Z.of_N (V2 a) * 2 ^ Z.of_N s / 10).
    { rewrite E4, N2Z.inj_div, N2Z.inj_mul, N2Z.inj_pow. reflexivity. }
    assert (Hb : 2 ^ 124 <= Z.of_N (V2 a) * 2 ^ Z.of_N s < 2 ^ 125).
    { change (2 ^ 124) with (Z.of_N (2 ^ 124)). change (2 ^ 125) with (Z.of_N (2 ^ 125)).
      replace (Z.of_N (V2 a) * 2 ^ Z.of_N s) with (Z.of_N (V2 a * 2 ^ s)) by (rewrite N2Z.inj_mul, N2Z.inj_pow; reflexivity).
      split; [apply N2Z.inj_le, H3|apply N2Z.inj_lt, H3]. }
    set (A := Z.of_N (V2 a) * 2 ^ Z.of_N s) in *.
    assert (H120 : 2 ^ 120 <= A / 10).
    { apply Z.div_le_lower_bound; [reflexivity|]. assert (10 * 2 ^ 120 <= 2 ^ 124) by discriminate. lia. }
    assert (H2 : (0 < V2 a2 < 2 ^ 125)%N).
    { split.
      - apply N2Z.inj_lt. rewrite EZ. eapply Z.lt_le_trans; [|exact H120]. reflexivity.
      - rewrite E4. apply N.div_lt_upper_bound; [discriminate|]. eapply N.lt_le_trans; [apply H3|]. discriminate. }
    assert (EA : (held A (be - Z.of_N s) == held (Z.of_N (V2 a)) be)%Q).
    { unfold A. rewrite held_shift by lia. replace (be - Z.of_N s + Z.of_N s) with be by lia. reflexivity. }
    assert (Hap2 : approx (inject_Z 1 / inject_Z 10 * x) (k + 1) (held (Z.of_N (V2 a2)) (be - Z.of_N s))).
    { assert (Hu := q2pos (be - Z.of_N s - 124)).
      destruct (trunc_loss A 10 ltac:(lia) eq_refl ltac:(change (2 ^ 123 * 10) with (5 * 2 ^ 124); lia)) as (L1 & L2). rewrite <- EZ in L1, L2.
      apply (approx_step x k (held (Z.of_N (V2 a)) be)); [exact Hx|lia|reflexivity|exact Hap| |].
      - rewrite <- EA. unfold held.
        assert (Er : (inject_Z 1 / inject_Z 10 * (inject_Z A * inject_Z 2 ^ (be - Z.of_N s - 124)) == inject_Z A / inject_Z 10 * inject_Z 2 ^ (be - Z.of_N s - 124))%Q) by (field).
        rewrite Er. apply Qmult_le_compat_r; [exact L1|lra].
      - rewrite <- EA. unfold held.
        assert (Er : (inject_Z 1 / inject_Z 10 * (inject_Z A * inject_Z 2 ^ (be - Z.of_N s - 124)) * (1 - eta) == inject_Z A / inject_Z 10 * (1 - eta) * inject_Z 2 ^ (be - Z.of_N s - 124))%Q) by (field).
        rewrite Er. apply Qmult_le_compat_r; [exact L2|lra]. }
    assert (Hx2 : (0 <= inject_Z 1 / inject_Z 10 * x)%Q) by (apply Qmult_le_0_compat; [discriminate|exact Hx]).
    destruct (IH a2 (be - Z.of_N s) (inject_Z 1 / inject_Z 10 * x)%Q (k + 1) H4 H2 Hx2 ltac:(lia) ltac:(lia) Hap2)
      as (F2 & F3 & F4 & F5).
    split; [exact F2|]. split; [exact F3|].
    assert (P10 : (0 < inject_Z (10 ^ Z.of_nat n))%Q) by (change 0%Q with (inject_Z 0); rewrite <- Zlt_Qlt; apply Z.pow_pos_nonneg; lia).
    assert (E10 : (inject_Z (10 ^ Z.of_nat (S n)) == inject_Z 10 * inject_Z (10 ^ Z.of_nat n))%Q).
    { rewrite Nat2Z.inj_succ, Z.pow_succ_r by lia. rewrite inject_Z_mult. reflexivity. }
    split.
    + replace (k + Z.of_nat (S n)) with (k + 1 + Z.of_nat n) by lia.
      destruct F4 as [G1 G2].
      assert (Exx : (x / inject_Z (10 ^ Z.of_nat (S n)) == inject_Z 1 / inject_Z 10 * x / inject_Z (10 ^ Z.of_nat n))%Q).
      { rewrite E10. change (inject_Z 1) with 1%Q. change (inject_Z 10) with 10%Q. field. lra. }
      split; rewrite Exx; assumption.
    + intros Hfew Hdiv.
      assert (Hf1 : few 64 A).
      { destruct Hfew as (c & j & Hj & Hc & E). exists c, (j + Z.of_N s). split; [lia|]. split; [exact Hc|].
        unfold A. rewrite E, Z.pow_add_r by lia. ring. }
      assert (D2 : (2 | A)).
      { change 2 with (2 ^ 1). apply (few_divides 64); [discriminate|exact Hf1|]. assert (2 ^ (64 + 1) <= 2 ^ 124) by discriminate. lia. }
      rewrite Nat2Z.inj_succ, Z.pow_succ_r in Hdiv by lia.
      assert (D5n : (5 * 5 ^ Z.of_nat n | A)) by (apply Z.divide_mul_l; exact Hdiv).
      destruct D2 as (q & Eq). destruct D5n as (t & Et).
      assert (D5 : (5 | q)).
      { apply (Gauss 5 2 q); [exists (t * 5 ^ Z.of_nat n); lia|]. apply (rel_prime_5_2 1). discriminate. }
      destruct D5 as (q' & ->).
      assert (Hex : Z.of_N (V2 a2) = q').
      { rewrite EZ, Eq. replace (q' * 5 * 2) with (q' * 10) by ring. apply Z.div_mul. discriminate. }
      assert (EA10 : A = 10 * Z.of_N (V2 a2)) by lia.
      rewrite F5.
      * rewrite <- EA, EA10. unfold held. rewrite E10, inject_Z_mult. change (inject_Z 10) with 10%Q. field. lra.
      * apply (few_tenths 64 1); [discriminate|]. change (10 ^ Z.of_nat 1) with 10. replace (Z.of_N (V2 a2) * 10) with A by lia. exact Hf1.
      * apply (Gauss _ 2); [|].
        -- exists t. lia.
        -- apply rel_prime_sym. apply Zpow_facts.rel_prime_Zpower_r; [lia|]. apply bezout_rel_prime. apply (Bezout_intro 2 5 1 (-2) 1). reflexivity.
Qed.
