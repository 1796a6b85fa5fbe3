(** Proofs about the big integers: comparison is exact. *)
From Verif Require Import Base Tactics ScanModel ScanProofs JsonSpec NumSpec IntModel IntProofs EscapeProofs BigModel.
From Coq Require Import Lia ZArith QArith Qpower.
Local Open Scope N_scope.

Lemma B_pos : 0 < B. Proof. reflexivity. Qed.

Lemma u32_lt n : u32 n < B.
Proof. apply N.mod_lt. discriminate. Qed.

Lemma split32 p : p = u32 p + B * N.shiftr p 32.
Proof. rewrite N.shiftr_div_pow2. unfold u32, B. rewrite N.add_comm. apply N.div_mod. discriminate. Qed.

Lemma shiftr_lt p k : p < B * k -> N.shiftr p 32 < k.
Proof. intros H. rewrite N.shiftr_div_pow2. apply N.div_lt_upper_bound; [discriminate|exact H]. Qed.

Lemma u64_small n : n < 2 ^ 64 -> u64 n = n.
Proof. intros H. unfold u64. apply N.mod_small, H. Qed.

Lemma u32_small n : n < B -> u32 n = n.
Proof. intros H. unfold u32. apply N.mod_small, H. Qed.

Lemma val_app a b : val (a ++ b) = val a + B ^ N.of_nat (length a) * val b.
Proof.
  induction a as [|x a IH]; cbn [app val fold_right length].
  - change (B ^ N.of_nat 0) with 1. fold (val b). lia.
  - fold (val a) (val (a ++ b)) (val b). rewrite IH, Nat2N.inj_succ, N.pow_succ_r'. lia.
Qed.

Lemma mul_words_spec m : m < B -> forall w c, words w -> c < B ->
  words (mul_words m c w) /\ val (mul_words m c w) = val w * m + c.
Proof.
  intros Hm. induction w as [|x w IH]; intros c Hw Hc; cbn [mul_words].
  - destruct (N.eqb_spec c 0) as [->|]; [split; [constructor|reflexivity]|].
    rewrite u32_small by exact Hc. split; [constructor; [exact Hc|constructor]|]. cbn. lia.
  - inversion Hw as [|? ? Hx Hw']; subst.
    assert (Hp : x * m + c < B * B).
    { assert (x * m <= (B - 1) * (B - 1)) by (apply N.mul_le_mono; lia). unfold B in *. lia. }
    rewrite (u64_small _ Hp). cbv zeta.
    destruct (IH (N.shiftr (x * m + c) 32) Hw' (shiftr_lt _ _ Hp)) as [I1 I2].
    split; [constructor; [apply u32_lt|exact I1]|].
    cbn [val fold_right]. fold (val w) (val (mul_words m (N.shiftr (x * m + c) 32) w)). rewrite I2.
    assert (S := split32 (x * m + c)). lia.
Qed.

Lemma mul_small_spec m w : m < B -> words w ->
  words (mul_small m w) /\ val (mul_small m w) = val w * m.
Proof.
  intros Hm Hw. destruct (mul_words_spec m Hm w 0 Hw B_pos) as [H1 H2].
  split; [exact H1|]. unfold mul_small. lia.
Qed.

Lemma add_words_spec : forall w c, words w -> c < B ->
  words (add_words c w) /\ val (add_words c w) = val w + c.
Proof.
  induction w as [|x w IH]; intros c Hw Hc; cbn [add_words]; destruct (N.eqb_spec c 0) as [->|Hne].
  - split; [exact Hw|lia].
  - rewrite u32_small by exact Hc. split; [constructor; [exact Hc|constructor]|]. cbn. lia.
  - split; [exact Hw|lia].
  - inversion Hw as [|? ? Hx Hw']; subst.
    assert (Hp : x + c < B * 2) by (unfold B in *; lia).
    assert (Hp2 : x + c < 2 ^ 64) by (unfold B in *; lia).
    rewrite (u64_small _ Hp2). cbv zeta.
    assert (Hs := shiftr_lt _ _ Hp).
    destruct (IH (N.shiftr (x + c) 32) Hw' ltac:(unfold B; lia)) as [I1 I2].
    split; [constructor; [apply u32_lt|exact I1]|].
    cbn [val fold_right]. fold (val w) (val (add_words (N.shiftr (x + c) 32) w)). rewrite I2.
    assert (S := split32 (x + c)). lia.
Qed.

Lemma mul_pow5_spec n : forall w, words w -> words (mul_pow5 n w) /\ val (mul_pow5 n w) = val w * 5 ^ N.of_nat n.
Proof.
  induction n as [|n IH]; intros w Hw; cbn [mul_pow5].
  - split; [exact Hw|]. change (5 ^ N.of_nat 0) with 1. lia.
  - destruct (mul_small_spec 5 w ltac:(reflexivity) Hw) as [H1 H2].
    destruct (IH _ H1) as [I1 I2]. split; [exact I1|]. rewrite I2, H2, Nat2N.inj_succ, N.pow_succ_r'. lia.
Qed.

Lemma shift_words_spec b : 0 < b < 32 -> forall w c, words w -> c < 2 ^ b ->
  words (shift_words b c w) /\ val (shift_words b c w) = val w * 2 ^ b + c.
Proof.
  intros Hb. assert (H2b : 2 ^ b <= 2 ^ 31) by (apply N.pow_le_mono_r; lia).
  assert (H2B : 2 ^ b < B) by (unfold B; lia).
  induction w as [|x w IH]; intros c Hw Hc; cbn [shift_words].
  - destruct (N.eqb_spec c 0) as [->|]; [split; [constructor|reflexivity]|].
    split; [constructor; [lia|constructor]|]. cbn. lia.
  - inversion Hw as [|? ? Hx Hw']; subst.
    assert (Hxb : x * 2 ^ b < 2 ^ 64).
    { apply N.le_lt_trans with ((B - 1) * 2 ^ 31); [apply N.mul_le_mono; lia|reflexivity]. }
    assert (E : N.lor (u64 (N.shiftl x b)) c = x * 2 ^ b + c).
    { rewrite u64_small by (rewrite N.shiftl_mul_pow2; exact Hxb). apply lor_shift, Hc. }
    rewrite E. cbv zeta.
    assert (Hp : x * 2 ^ b + c < B * 2 ^ b).
    { assert (x * 2 ^ b <= (B - 1) * 2 ^ b) by (apply N.mul_le_mono_r; lia). lia. }
    assert (Hs := shiftr_lt _ _ Hp).
    rewrite (u32_small (N.shiftr _ 32)) by lia.
    destruct (IH (N.shiftr (x * 2 ^ b + c) 32) Hw' Hs) as [I1 I2].
    split; [constructor; [apply u32_lt|exact I1]|].
    cbn [val fold_right]. fold (val w) (val (shift_words b (N.shiftr (x * 2 ^ b + c) 32) w)). rewrite I2.
    assert (S := split32 (x * 2 ^ b + c)). lia.
Qed.

Lemma val_zeros n w : val (repeat 0 n ++ w) = B ^ N.of_nat n * val w.
Proof.
  induction n as [|n IH]; cbn [repeat app val fold_right].
  - change (B ^ N.of_nat 0) with 1. fold (val w). lia.
  - fold (val (repeat 0 n ++ w)). rewrite IH, Nat2N.inj_succ, N.pow_succ_r'. lia.
Qed.

Lemma shift_left_spec bits w : words w ->
  words (shift_left bits w) /\ val (shift_left bits w) = val w * 2 ^ bits.
Proof.
  intros Hw. unfold shift_left.
  assert (Hm : bits mod 32 < 32) by (apply N.mod_lt; discriminate).
  assert (G : words (if bits mod 32 =? 0 then w else shift_words (bits mod 32) 0 w) /\
              val (if bits mod 32 =? 0 then w else shift_words (bits mod 32) 0 w) = val w * 2 ^ (bits mod 32)).
  { destruct (N.eqb_spec (bits mod 32) 0) as [->|Hne].
    - split; [exact Hw|]. change (2 ^ 0) with 1. lia.
    - destruct (shift_words_spec (bits mod 32) ltac:(lia) w 0 Hw) as [H1 H2].
      { assert (0 < 2 ^ (bits mod 32)); [|lia]. apply N.neq_0_lt_0, N.pow_nonzero. discriminate. }
      split; [exact H1|]. lia. }
  destruct G as [G1 G2]. split.
  - unfold words. apply Forall_app. split; [|exact G1].
    apply Forall_forall. intros x Hx. apply repeat_spec in Hx. subst. reflexivity.
  - rewrite val_zeros, N2Nat.id, G2. unfold B. rewrite <- N.pow_mul_r.
    rewrite (N.div_mod bits 32) at 3 by discriminate. rewrite N.pow_add_r. lia.
Qed.

(** ** Comparison *)

Lemma strip_spec : forall r, exists k, r = repeat 0 k ++ strip_zeros r /\
  (strip_zeros r = [] \/ (exists x, strip_zeros r = [x]) \/ exists x l, strip_zeros r = x :: l /\ x <> 0).
Proof.
  induction r as [|x r IH]; cbn [strip_zeros].
  - exists 0%nat. split; [reflexivity|auto].
  - destruct r as [|y r]; [exists 0%nat; split; [reflexivity|right; left; eauto]|].
    destruct (N.eqb_spec x 0) as [->|Hne].
    + destruct IH as (k & E & H). exists (S k). split; [cbn [repeat app]; f_equal; exact E|exact H].
    + exists 0%nat. split; [reflexivity|]. right. right. eauto.
Qed.

Lemma strip_zeros_words r : words r -> words (strip_zeros r).
Proof.
  intros H. destruct (strip_spec r) as (k & E & _). rewrite E in H. apply Forall_app in H. tauto.
Qed.

Lemma normalize_spec w : words w ->
  words (normalize w) /\ val (normalize w) = val w /\
  (w <> [] -> normalize w <> []) /\
  ((length (normalize w) <= 1)%nat \/ exists l x, normalize w = l ++ [x] /\ x <> 0).
Proof.
  intros Hw. unfold normalize. destruct (strip_spec (rev w)) as (k & E & H).
  assert (Hrw : words (rev w)) by (apply Forall_rev, Hw).
  split; [apply Forall_rev, strip_zeros_words, Hrw|].
  split.
  - transitivity (val (rev (repeat 0 k ++ strip_zeros (rev w)))); [|rewrite <- E, rev_involutive; reflexivity].
    rewrite rev_app_distr, val_app.
    assert (Hz : rev (repeat 0 k) = repeat 0 k).
    { clear. induction k as [|k IH]; [reflexivity|]. cbn [repeat rev]. rewrite IH.
      clear. induction k as [|k IH]; [reflexivity|]. cbn [repeat app]. f_equal. exact IH. }
    rewrite Hz. replace (val (repeat 0 k)) with 0; [rewrite N.mul_0_r, N.add_0_r; reflexivity|].
    rewrite <- (app_nil_r (repeat 0 k)), val_zeros. symmetry. apply N.mul_0_r.
  - split.
    + intros Hne Hn. apply (f_equal (@rev N)) in Hn. rewrite rev_involutive in Hn. cbn in Hn.
      destruct (rev w) as [|x r] eqn:Er.
      * apply Hne. rewrite <- (rev_involutive w), Er. reflexivity.
      * clear -Hn. revert x Hn. induction r as [|y r IH]; intros x Hn; [discriminate Hn|].
        cbn [strip_zeros] in Hn. destruct (x =? 0); [|discriminate Hn]. apply (IH y). exact Hn.
    + destruct H as [H|[(x & H)|(x & l & H & Hx)]]; rewrite H.
      * left. cbn. lia.
      * left. cbn. lia.
      * right. exists (rev l), x. split; [reflexivity|exact Hx].
Qed.

Lemma val_bound w : words w -> val w < B ^ N.of_nat (length w).
Proof.
  induction 1 as [|x w Hx Hw IH]; [reflexivity|].
  cbn [val fold_right length]. fold (val w). rewrite Nat2N.inj_succ, N.pow_succ_r'.
  assert (B * val w + B <= B * B ^ N.of_nat (length w)); [|lia].
  replace (B * val w + B) with (B * (val w + 1)) by lia. apply N.mul_le_mono_l. lia.
Qed.

Lemma compare_words_spec : forall a b, length a = length b -> words a -> words b ->
  compare_words a b = (val (rev a) ?= val (rev b)).
Proof.
  induction a as [|x a IH]; intros [|y b] Hl Ha Hb; try discriminate Hl; [reflexivity|].
  injection Hl as Hl. inversion Ha as [|? ? Hx Ha']; subst. inversion Hb as [|? ? Hy Hb']; subst.
  cbn [compare_words rev]. rewrite !val_app, !rev_length, <- Hl. cbn [val fold_right].
  assert (Va := val_bound _ (Forall_rev Ha')). assert (Vb := val_bound _ (Forall_rev Hb')).
  rewrite rev_length in Va, Vb. rewrite <- Hl in Vb. set (P := B ^ N.of_nat (length a)) in *.
  destruct (N.eqb_spec x y) as [->|Hne].
  - rewrite IH by assumption. symmetry.
    destruct (N.compare_spec (val (rev a)) (val (rev b))) as [E|E|E];
      [apply N.compare_eq_iff|apply N.compare_lt_iff|apply N.compare_gt_iff]; lia.
  - symmetry. destruct (N.ltb_spec x y).
    + apply N.compare_lt_iff.
      assert (P * (x + B * 0) + P <= P * (y + B * 0)); [|lia].
      replace (P * (x + B * 0) + P) with (P * (x + 1)) by lia. apply N.mul_le_mono_l. lia.
    + apply N.compare_gt_iff.
      assert (P * (y + B * 0) + P <= P * (x + B * 0)); [|lia].
      replace (P * (y + B * 0) + P) with (P * (y + 1)) by lia. apply N.mul_le_mono_l. lia.
Qed.

Lemma val_shorter a b : words a -> words b -> (length a < length b)%nat ->
  (exists l x, b = l ++ [x] /\ x <> 0) -> val a < val b.
Proof.
  intros Ha Hb Hl (l & x & -> & Hx). rewrite val_app. cbn [val fold_right].
  rewrite app_length in Hl. cbn [length] in Hl.
  apply N.lt_le_trans with (B ^ N.of_nat (length a)); [apply val_bound, Ha|].
  apply N.le_trans with (B ^ N.of_nat (length l)); [apply N.pow_le_mono_r; [discriminate|lia]|].
  assert (B ^ N.of_nat (length l) * 1 <= B ^ N.of_nat (length l) * (x + B * 0)) by (apply N.mul_le_mono_l; lia).
  lia.
Qed.

Lemma compare_big_spec a b : words a -> words b -> a <> [] -> b <> [] ->
  compare_big a b = (val a ?= val b).
Proof.
  intros Ha Hb Na Nb. unfold compare_big.
  destruct (normalize_spec a Ha) as (A1 & A2 & A3 & A4). destruct (normalize_spec b Hb) as (B1 & B2 & B3 & B4).
  specialize (A3 Na). specialize (B3 Nb). rewrite <- A2, <- B2.
  set (a' := normalize a) in *. set (b' := normalize b) in *.
  destruct (Nat.eqb_spec (length a') (length b')) as [E|Hne].
  - rewrite compare_words_spec by (try (apply Forall_rev; assumption); rewrite ?rev_length; assumption).
    rewrite !rev_involutive. reflexivity.
  - assert (La : (1 <= length a')%nat) by (destruct a'; [congruence|cbn; lia]).
    assert (Lb : (1 <= length b')%nat) by (destruct b'; [congruence|cbn; lia]).
    destruct (Nat.ltb_spec (length a') (length b')); symmetry.
    + apply N.compare_lt_iff, val_shorter; auto. destruct B4 as [B4|B4]; [lia|exact B4].
    + apply N.compare_gt_iff, val_shorter; auto; [lia|]. destruct A4 as [A4|A4]; [lia|exact A4].
Qed.

(** ** Rational numbers *)

Lemma nonnil_mul m c w : w <> [] -> mul_words m c w <> [].
Proof. destruct w; [congruence|discriminate]. Qed.
Lemma nonnil_pow5 n : forall w, w <> [] -> mul_pow5 n w <> [].
Proof. induction n as [|n IH]; intros w H; [exact H|]. cbn [mul_pow5]. apply IH, nonnil_mul, H. Qed.
Lemma nonnil_shift bits w : w <> [] -> shift_left bits w <> [].
Proof.
  intros H E. unfold shift_left in E. apply app_eq_nil in E. destruct E as [_ E].
  destruct (bits mod 32 =? 0); [congruence|]. destruct w; [congruence|discriminate E].
Qed.

Lemma Qcompare_mult x y z : (0 < z)%Q -> (x ?= y)%Q = (x * z ?= y * z)%Q.
Proof.
  intros Hz. symmetry. destruct (x ?= y)%Q eqn:E.
  - apply Qeq_alt in E. apply Qeq_alt. rewrite E. reflexivity.
  - apply Qlt_alt in E. apply Qlt_alt. apply Qmult_lt_r; assumption.
  - apply Qgt_alt in E. apply Qgt_alt. apply Qmult_lt_r; assumption.
Qed.

Lemma Qcompare_inject a b : (inject_Z a ?= inject_Z b)%Q = (a ?= b)%Z.
Proof. unfold Qcompare, inject_Z. cbn. rewrite !Z.mul_1_r. reflexivity. Qed.

Lemma compare_value_spec a de b mp : words a -> words b -> a <> [] -> b <> [] ->
  compare_value_scaled a de b mp = (scaled (Z.of_N (val a)) 10 de ?= scaled (Z.of_N (val b)) 2 mp)%Q.
Proof.
  intros Ha Hb Na Nb. unfold compare_value_scaled. cbv zeta.
  set (min5 := (if de <? 0 then de else 0)%Z). set (min2 := (if de <? mp then de else mp)%Z).
  assert (H5 : (0 <= - min5 /\ 0 <= de - min5)%Z) by (unfold min5; destruct (Z.ltb_spec de 0); lia).
  assert (H2 : (0 <= de - min2 /\ 0 <= mp - min2)%Z) by (unfold min2; destruct (Z.ltb_spec de mp); lia).
  set (nl := Z.to_nat (de - min5)). set (nr := Z.to_nat (0 - min5)).
  destruct (mul_pow5_spec nl a Ha) as [L1 L2]. destruct (mul_pow5_spec nr b Hb) as [R1 R2].
  destruct (shift_left_spec (Z.to_N (de - min2)) _ L1) as [L3 L4].
  destruct (shift_left_spec (Z.to_N (mp - min2)) _ R1) as [R3 R4].
  rewrite compare_big_spec; auto using nonnil_shift, nonnil_pow5.
  rewrite L4, R4, L2, R2. rewrite <- N2Z.inj_compare.
  rewrite !N2Z.inj_mul, !N2Z.inj_pow, !Z2N.id by lia. cbn [Z.of_N].
  rewrite !nat_N_Z. unfold nl, nr. rewrite !Z2Nat.id by lia. rewrite Z.sub_0_l.
  rewrite <- Qcompare_inject.
  rewrite (Qcompare_mult (scaled _ 10 de) _ (inject_Z 5 ^ (- min5) * inject_Z 2 ^ (- min2))).
  2:{ apply Qmult_lt_0_compat; apply Qpower_0_lt; reflexivity. }
  assert (N2 : ~ inject_Z 2 == 0) by (intros E; discriminate E).
  assert (N5 : ~ inject_Z 5 == 0) by (intros E; discriminate E).
  rewrite !inject_Z_mult, !Zpower_Qpower by lia. unfold scaled.
  assert (E10 : (inject_Z 10 ^ de == inject_Z 2 ^ de * inject_Z 5 ^ de)%Q).
  { rewrite <- Qmult_power. reflexivity. }
  replace (de - min5)%Z with (de + - min5)%Z by lia. replace (de - min2)%Z with (de + - min2)%Z by lia.
  replace (mp - min2)%Z with (mp + - min2)%Z by lia.
  apply Qcompare_comp.
  - rewrite E10, !Qpower_plus by assumption. ring.
  - rewrite !Qpower_plus by assumption. ring.
Qed.

(** ** Reading the literal *)

Lemma literal_digits_spec : forall l seen digits frac rest,
  Forall is_digit l -> words digits -> digits <> [] ->
  exists w, words w /\ w <> [] /\ val w = val digits * 10 ^ N.of_nat (length l) + dec_value l /\
    literal_digits (l ++ rest) seen digits frac =
    literal_digits rest seen w (if seen then frac + Z.of_nat (length l) else frac)%Z.
Proof.
  induction l as [|c l IH]; intros seen digits frac rest Hl Hd Hne.
  - exists digits. split; [exact Hd|]. split; [exact Hne|]. cbn [app length].
    change (10 ^ N.of_nat 0) with 1. change (dec_value []) with 0. split; [lia|].
    destruct seen; [rewrite Z.add_0_r|]; reflexivity.
  - inversion Hl as [|? ? Hc Hl']; subst. cbn [app literal_digits].
    destruct (digit_no_dot c Hc) as (E1 & _ & _). rewrite E1, (is_digit_char_true c Hc). unfold add_small.
    destruct (mul_small_spec 10 digits ltac:(reflexivity) Hd) as [M1 M2].
    assert (Hc2 : byte_val c - 48 < B) by (unfold is_digit in Hc; unfold B; lia).
    destruct (add_words_spec (mul_small 10 digits) (byte_val c - 48) M1 Hc2) as [A1 A2].
    assert (Hne2 : add_words (byte_val c - 48) (mul_small 10 digits) <> []).
    { destruct digits as [|x d]; [congruence|]. unfold mul_small. cbn [mul_words add_words].
      destruct (_ =? 0); discriminate. }
    destruct (IH seen _ (if seen then frac + 1 else frac)%Z rest Hl' A1 Hne2) as (w & W1 & W2 & W3 & W4).
    exists w. split; [exact W1|]. split; [exact W2|]. split.
    + rewrite W3, A2, M2.
      unfold dec_value. cbn [fold_left length]. rewrite <- (N.add_0_r (0 * 10 + _)), fold_add.
      rewrite Nat2N.inj_succ, N.pow_succ_r'. lia.
    + rewrite W4. cbn [length]. destruct seen; [|reflexivity]. f_equal. lia.
Qed.

Lemma literal_exponent_spec l : Forall is_digit l -> forall ex,
  literal_exponent l ex = (ex * 10 ^ Z.of_nat (length l) + Z.of_N (dec_value l))%Z.
Proof.
  induction 1 as [|c l Hc Hl IH]; intros ex; cbn [literal_exponent length].
  - change (10 ^ Z.of_nat 0)%Z with 1%Z. change (dec_value []) with 0. lia.
  - rewrite (is_digit_char_true c Hc), IH.
    unfold dec_value. cbn [fold_left]. rewrite <- (N.add_0_r (0 * 10 + _)), fold_add. fold (dec_value l).
    rewrite N2Z.inj_add, N2Z.inj_mul, N2Z.inj_pow, nat_N_Z. cbn [Z.of_N].
    rewrite Nat2Z.inj_succ, Z.pow_succ_r by lia. change (0 * 10 + (byte_val c - 48)) with (byte_val c - 48). lia.
Qed.

(** The part of the literal before the exponent. *)
Lemma literal_mantissa i f fl rest :
  Forall is_digit i -> Forall is_digit f -> (f = [] /\ fl = [] \/ fl = x2e :: f) ->
  (rest = [] \/ exists e tl, rest = e :: tl /\ (e = x45 \/ e = x65)) ->
  exists w, words w /\ w <> [] /\ val w = dec_value (i ++ f) /\
    literal_digits (i ++ fl ++ rest) false big_zero 0%Z = (w, Z.of_nat (length f), rest).
Proof.
  intros Hi Hf Hfl Hr.
  assert (Z0 : words big_zero) by (constructor; [reflexivity|constructor]).
  assert (Hend : forall seen w fr, literal_digits rest seen w fr = (w, fr, rest)).
  { intros seen w fr. destruct Hr as [->|(e & tl & -> & [->| ->])]; reflexivity. }
  destruct (literal_digits_spec i false big_zero 0%Z (fl ++ rest) Hi Z0 ltac:(discriminate)) as (w & W1 & W2 & W3 & W4).
  change (val big_zero) with 0 in W3. rewrite N.mul_0_l, N.add_0_l in W3.
  destruct Hfl as [[-> ->]| ->].
  - exists w. rewrite W4, app_nil_r. cbn [app length]. rewrite Hend. auto.
  - cbn [app literal_digits] in W4. change (Byte.eqb x2e x2e) with true in W4. cbn iota in W4.
    destruct (literal_digits_spec f true w 0%Z rest Hf W1 W2) as (w2 & X1 & X2 & X3 & X4).
    exists w2. split; [exact X1|]. split; [exact X2|]. split.
    + rewrite X3, W3, dec_value_app. rewrite <- (N.add_0_r (dec_value i)) at 2. rewrite fold_add. reflexivity.
    + cbn [app]. rewrite W4, X4, Hend. reflexivity.
Qed.

Definition has_sign (c : byte) : bool := Byte.eqb c x2d || Byte.eqb c x2b.

Lemma digit_or c : is_digit c -> Byte.eqb c x2d = false /\ Byte.eqb c x2b = false /\ is_space c = false.
Proof. unfold is_digit. intros H. destruct c; cbn in H; try (exfalso; lia); repeat split. Qed.

(** What the text before the sign test starts with. *)
Lemma read_skip (sgn t : bytes) : (sgn = [] \/ sgn = [x2d] \/ sgn = [x2b]) ->
  (t = [] \/ exists c tl, t = c :: tl /\ is_space c = false /\ has_sign c = false) ->
  let l := skipn (scalar_count (fun c => negb (is_space c)) (sgn ++ t)) (sgn ++ t) in
  match l with c :: tl => if Byte.eqb c x2d || Byte.eqb c x2b then tl else l | [] => [] end = t.
Proof.
  intros [->|[->| ->]] Ht; cbn [app].
  - destruct Ht as [->|(c & tl & -> & H1 & H2)]; [reflexivity|].
    rewrite start_zero by exact H1. cbv zeta. cbn [skipn]. unfold has_sign in H2. rewrite H2. reflexivity.
  - reflexivity.
  - reflexivity.
Qed.

Lemma literal_head l D k : dec_literal l D k ->
  l = [] \/ exists c tl, l = c :: tl /\ is_space c = false /\ has_sign c = false.
Proof.
  assert (G : forall i f fl rest, Forall is_digit i -> (f = [] /\ fl = [] \/ fl = x2e :: f) ->
     (rest = [] \/ exists e tl, rest = e :: tl /\ (e = x45 \/ e = x65)) ->
     i ++ fl ++ rest = [] \/ exists c tl, i ++ fl ++ rest = c :: tl /\ is_space c = false /\ has_sign c = false).
  { intros i f fl rest Hi Hfl Hr. destruct Hi as [|c i Hc Hi].
    - cbn [app]. destruct Hfl as [[_ ->]| ->]; cbn [app].
      + destruct Hr as [->|(e & tl & -> & He)]; [auto|]. right. exists e, tl. destruct He as [->| ->]; auto.
      + right. exists x2e, (f ++ rest). auto.
    - right. cbn [app]. exists c, (i ++ fl ++ rest). destruct (digit_or c Hc) as (H1 & H2 & H3).
      unfold has_sign. rewrite H1, H2. auto. }
  destruct 1 as [i f fl Hi Hf Hfl|i f fl e s d Hi Hf Hfl He Hs Hd].
  - generalize (G i f fl [] Hi Hfl (or_introl eq_refl)). rewrite app_nil_r. auto.
  - apply (G i f fl (e :: s ++ d)); auto. right. eauto.
Qed.

Lemma read_literal_spec sgn l D k :
  (sgn = [] \/ sgn = [x2d] \/ sgn = [x2b]) -> dec_literal l D k ->
  exists w, words w /\ w <> [] /\ Z.of_N (val w) = D /\ read_literal (sgn ++ l) = (w, k).
Proof.
  intros Hsg Hl. unfold read_literal.
  assert (Hk := read_skip sgn l Hsg (literal_head l D k Hl)). cbv zeta in Hk.
  rewrite Hk. clear Hk Hsg.
  destruct Hl as [i f fl Hi Hf Hfl|i f fl e s d Hi Hf Hfl He Hs Hd].
  - destruct (literal_mantissa i f fl [] Hi Hf Hfl (or_introl eq_refl)) as (w & W1 & W2 & W3 & W4).
    rewrite app_nil_r in W4. exists w. rewrite W4, W3. auto.
  - destruct (literal_mantissa i f fl (e :: s ++ d) Hi Hf Hfl) as (w & W1 & W2 & W3 & W4); [right; eauto|].
    exists w. rewrite W4, W3.
    assert (Byte.eqb e x65 || Byte.eqb e x45 = true) as -> by (destruct He as [->| ->]; reflexivity).
    split; [exact W1|]. split; [exact W2|]. split; [reflexivity|].
    destruct Hd as [Hd1 Hd2].
    assert (Hlit : literal_exponent d 0 = Z.of_N (dec_value d)) by (rewrite (literal_exponent_spec d Hd2); reflexivity).
    destruct Hs as [->|[->| ->]]; cbn [app].
    + destruct d as [|c d]; [congruence|]. inversion Hd2 as [|? ? Hc _]; subst.
      destruct (digit_or c Hc) as (H1 & H2 & _). rewrite H1, H2, Hlit. reflexivity.
    + change (Byte.eqb x2b x2d) with false. change (Byte.eqb x2b x2b) with true. cbn iota. rewrite Hlit. reflexivity.
    + change (Byte.eqb x2d x2d) with true. cbn iota. rewrite Hlit. f_equal.
Qed.

(** ** Midpoints *)

Lemma float_to_int_spec b :
  let '(m, e) := float_to_int_pow2 b in
  words m /\ m <> [] /\ (scaled (Z.of_N (val m)) 2 e == float_value b)%Q.
Proof.
  unfold float_to_int_pow2, float_value.
  assert (E1 : N.land (N.shiftr b 23) 0xff = (b / 2 ^ 23) mod 2 ^ 8).
  { change 0xff with (N.ones 8). rewrite N.land_ones, N.shiftr_div_pow2. reflexivity. }
  assert (E2 : N.land b 0x7fffff = b mod 2 ^ 23).
  { change 0x7fffff with (N.ones 23). rewrite N.land_ones. reflexivity. }
  rewrite E1, E2. assert (Hm : b mod 2 ^ 23 < 2 ^ 23) by (apply N.mod_lt; discriminate).
  destruct ((b / 2 ^ 23) mod 2 ^ 8 =? 0).
  - split; [constructor; [unfold B; lia|constructor]|]. split; [discriminate|].
    cbn [val fold_right]. rewrite N.mul_0_r, N.add_0_r. reflexivity.
  - assert (E3 : N.lor (b mod 2 ^ 23) 0x800000 = 2 ^ 23 + b mod 2 ^ 23).
    { rewrite N.lor_comm. change 0x800000 with (N.shiftl 1 23). rewrite lor_shift by exact Hm. lia. }
    rewrite E3. split; [constructor; [unfold B; lia|constructor]|]. split; [discriminate|].
    cbn [val fold_right]. rewrite N.mul_0_r, N.add_0_r. reflexivity.
Qed.

Lemma add_big_spec : forall n c a b, words a -> words b -> c <= 1 ->
  (length a <= n)%nat -> (length b <= n)%nat ->
  words (add_big n c a b) /\ val (add_big n c a b) = val a + val b + c.
Proof.
  induction n as [|n IH]; intros c a b Ha Hb Hc La Lb; cbn [add_big].
  - destruct a; [|cbn in La; lia]. destruct b; [|cbn in Lb; lia]. cbn [val fold_right].
    destruct (N.eqb_spec c 0) as [->|]; [split; [constructor|reflexivity]|].
    rewrite u32_small by (unfold B; lia). split; [constructor; [unfold B; lia|constructor]|]. cbn. lia.
  - assert (Hhd : forall w, words w -> hd 0 w < B /\ words (tl w) /\ val w = hd 0 w + B * val (tl w)).
    { intros w Hw. destruct w as [|x w]; [cbn; repeat split; constructor|].
      inversion Hw; subst. cbn [hd tl val fold_right]. auto. }
    destruct (Hhd a Ha) as (A1 & A2 & A3). destruct (Hhd b Hb) as (B1 & B2 & B3).
    assert (Hp : hd 0 a + hd 0 b + c < 2 ^ 64) by (unfold B in *; lia).
    rewrite (u64_small _ Hp). cbv zeta.
    assert (Hs : N.shiftr (hd 0 a + hd 0 b + c) 32 < 2) by (apply shiftr_lt; unfold B in *; lia).
    destruct (IH (N.shiftr (hd 0 a + hd 0 b + c) 32) (tl a) (tl b) A2 B2 ltac:(lia)) as [I1 I2].
    { clear - La. destruct a; cbn in *; lia. }
    { clear - Lb. destruct b; cbn in *; lia. }
    split; [constructor; [apply u32_lt|exact I1]|].
    cbn [val fold_right]. fold (val (add_big n (N.shiftr (hd 0 a + hd 0 b + c) 32) (tl a) (tl b))).
    rewrite I2, A3, B3. assert (S := split32 (hd 0 a + hd 0 b + c)). lia.
Qed.

Lemma midpoint_spec g1 g2 :
  let '(m, e) := float_pair_midpoint g1 g2 in
  words m /\ m <> [] /\ (scaled (Z.of_N (val m)) 2 e == (float_value g1 + float_value g2) / inject_Z 2)%Q.
Proof.
  unfold float_pair_midpoint. generalize (float_to_int_spec g1) (float_to_int_spec g2).
  destruct (float_to_int_pow2 g1) as [m1 e1], (float_to_int_pow2 g2) as [m2 e2].
  intros (H1 & N1 & V1) (H2 & N2 & V2).
  set (emin := (if e1 <? e2 then e1 else e2)%Z).
  assert (He : (emin <= e1 /\ emin <= e2)%Z) by (unfold emin; destruct (Z.ltb_spec e1 e2); lia).
  destruct (shift_left_spec (Z.to_N (e1 - emin)) m1 H1) as [S1 T1].
  destruct (shift_left_spec (Z.to_N (e2 - emin)) m2 H2) as [S2 T2].
  set (a := shift_left (Z.to_N (e1 - emin)) m1) in *. set (b := shift_left (Z.to_N (e2 - emin)) m2) in *.
  destruct (add_big_spec (Nat.max (length a) (length b)) 0 a b S1 S2 ltac:(lia) ltac:(lia) ltac:(lia)) as [A1 A2].
  split; [exact A1|]. split.
  { assert (La : (0 < length a)%nat).
    { generalize (nonnil_shift (Z.to_N (e1 - emin)) m1 N1). fold a. destruct a; [congruence|cbn; lia]. }
    destruct (Nat.max (length a) (length b)) eqn:E; [lia|]. discriminate. }
  rewrite A2, T1, T2, <- V1, <- V2. unfold scaled.
  assert (P2 : ~ inject_Z 2 == 0) by (intros E; discriminate E).
  rewrite N.add_0_r, N2Z.inj_add, !N2Z.inj_mul, !N2Z.inj_pow, !Z2N.id by lia. cbn [Z.of_N].
  rewrite inject_Z_plus, !inject_Z_mult, !Zpower_Qpower by lia.
  replace (emin - 1)%Z with (emin + -1)%Z by lia.
  rewrite (Qpower_plus (inject_Z 2) emin (-1)) by exact P2.
  assert (Q1 : (inject_Z 2 ^ e1 == inject_Z 2 ^ (e1 - emin) * inject_Z 2 ^ emin)%Q).
  { rewrite <- Qpower_plus by exact P2. replace (e1 - emin + emin)%Z with e1 by lia. reflexivity. }
  assert (Q2 : (inject_Z 2 ^ e2 == inject_Z 2 ^ (e2 - emin) * inject_Z 2 ^ emin)%Q).
  { rewrite <- Qpower_plus by exact P2. replace (e2 - emin + emin)%Z with e2 by lia. reflexivity. }
  rewrite Q1, Q2. change (inject_Z 2 ^ (-1))%Q with (/ inject_Z 2)%Q. field.
Qed.

(** The verdict used for rounding is the comparison of the literal with the midpoint. *)
Lemma rounding_verdict sgn l D k g1 g2 w de mid e2 :
  (sgn = [] \/ sgn = [x2d] \/ sgn = [x2b]) -> dec_literal l D k ->
  read_literal (sgn ++ l) = (w, de) -> float_pair_midpoint g1 g2 = (mid, e2) ->
  compare_value_scaled w de mid e2 = (scaled D 10 k ?= (float_value g1 + float_value g2) / inject_Z 2)%Q.
Proof.
  intros Hs Hl Er Em. destruct (read_literal_spec sgn l D k Hs Hl) as (w' & W1 & W2 & W3 & W4).
  rewrite Er in W4. injection W4 as -> ->. generalize (midpoint_spec g1 g2). rewrite Em.
  intros (M1 & M2 & M3). rewrite compare_value_spec by assumption. rewrite W3. apply Qcompare_comp; [reflexivity|exact M3].
Qed.
