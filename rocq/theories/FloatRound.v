(** Rounding of doubles to floats, and the distance test of correctly_round_float. *)
From Coq Require Import QArith Qabs Qpower Lqa Lia ZArith.
From Verif Require Import Base JsonSpec NumSpec DoubleSpec DoubleRound DoubleModel FloatModel.
Local Open Scope Z_scope.

Lemma units_fint p w b : (b <= infinity p w)%N -> units p b = fint p w b.
Proof.
  intros H. unfold units, fint. rewrite (N.mod_small (b / 2 ^ p)); [reflexivity|].
  assert (P : (0 < 2 ^ p)%N) by (apply N.neq_0_lt_0, N.pow_nonzero; discriminate).
  assert (Q : (0 < 2 ^ w)%N) by (apply N.neq_0_lt_0, N.pow_nonzero; discriminate).
  unfold infinity in H. apply N.div_lt_upper_bound; [lia|]. rewrite N.mul_sub_distr_r, N.mul_1_l in H. rewrite N.mul_comm.
  assert (2 ^ p <= 2 ^ w * 2 ^ p)%N by (rewrite <- (N.mul_1_l (2 ^ p)) at 1; apply N.mul_le_mono_r; lia). lia.
Qed.

(** ** Rounding integers *)
Lemma round_shift_spec s z : 0 <= s -> 0 <= z ->
  let q := z / 2 ^ s in
  round_shift s z = q + 1 /\ (2 * q + 1) * 2 ^ s <= 2 * z /\ ((2 * q + 1) * 2 ^ s = 2 * z -> Z.odd q = true) \/
  round_shift s z = q /\ 2 * z <= (2 * q + 1) * 2 ^ s /\ (2 * z = (2 * q + 1) * 2 ^ s -> Z.odd q = false).
Proof.
  intros Hs Hz. cbv zeta. unfold round_shift. assert (P : 0 < 2 ^ s) by (apply Z.pow_pos_nonneg; lia).
  assert (E := Z.div_mod z (2 ^ s) ltac:(lia)). set (q := z / 2 ^ s) in *. set (r := z mod 2 ^ s) in *. set (k := 2 ^ s) in *. clearbody q r k.
  destruct (Z.ltb_spec k (2 * r)) as [H|H]; cbn [orb].
  - left. split; [reflexivity|]. split; lia.
  - destruct (Z.eqb_spec (2 * r) k) as [H1|H1]; destruct (Z.odd q) eqn:O; cbn [andb]; [left|right|right|right]; (split; [reflexivity|]; split; [lia|]; intros; first [reflexivity|lia]).
Qed.

Lemma round_shift_exact s z : 0 <= s -> (2 ^ s | z) -> round_shift s z * 2 ^ s = z.
Proof.
  intros Hs [c E]. unfold round_shift. assert (P : 0 < 2 ^ s) by (apply Z.pow_pos_nonneg; lia).
  rewrite E, Z.mod_mul, Z.div_mul by lia. replace (2 ^ s <? 2 * 0) with false by (symmetry; apply Z.ltb_ge; lia).
  replace (2 * 0 =? 2 ^ s) with false by (symmetry; apply Z.eqb_neq; lia). reflexivity.
Qed.

Lemma to_53_exact c t : 0 <= c < 2 ^ 53 -> 0 <= t -> to_53_bits (c * 2 ^ t) = c * 2 ^ t.
Proof.
  intros Hc Ht. unfold to_53_bits. set (s := Z.max 0 (Z.log2 (c * 2 ^ t) + 1 - 53)). apply round_shift_exact; [unfold s; lia|].
  destruct (Z.eq_dec c 0) as [->|H0]; [apply Z.divide_0_r|].
  assert (Hs : s <= t).
  { unfold s. rewrite Z.log2_mul_pow2 by lia. assert (Z.log2 c < 53) by (apply Z.log2_lt_pow2; lia). lia. }
  apply Z.divide_mul_r. exists (2 ^ (t - s)). rewrite <- Z.pow_add_r by (unfold s in *; lia). f_equal. lia.
Qed.

Lemma to_53_le z k : 0 <= z -> 0 <= k -> z <= 2 ^ k -> to_53_bits z <= 2 ^ k.
Proof.
  intros Hz Hk H. unfold to_53_bits. set (s := Z.max 0 (Z.log2 z + 1 - 53)).
  destruct (Z.eq_dec z (2 ^ k)) as [E|E].
  { enough (X : round_shift s z * 2 ^ s = z) by lia. apply round_shift_exact; [unfold s; lia|]. unfold s. rewrite E, Z.log2_pow2 by exact Hk.
    exists (2 ^ (k - Z.max 0 (k + 1 - 53))). rewrite <- Z.pow_add_r by lia. f_equal. lia. }
  destruct (Z.eq_dec s 0) as [S0|S0].
  { rewrite S0. rewrite (round_shift_exact 0 z); [exact H|lia|apply Z.divide_1_l]. }
  assert (S1 : 0 < s) by (unfold s in *; lia).
  assert (Hsk : s <= k).
  { assert (Hl : Z.log2 z < k) by (apply Z.log2_lt_pow2; [|lia]; destruct (Z.eq_dec z 0) as [->|]; [change (Z.log2 0) with 0 in s; unfold s in S1; lia|lia]). unfold s. lia. }
  assert (Ek : 2 ^ k = 2 ^ (k - s) * 2 ^ s) by (rewrite <- Z.pow_add_r by lia; f_equal; lia).
  assert (Hq : z / 2 ^ s < 2 ^ (k - s)).
  { apply Z.div_lt_upper_bound; [apply Z.pow_pos_nonneg; lia|]. rewrite Z.mul_comm, <- Ek. lia. }
  rewrite Ek. apply Z.mul_le_mono_nonneg_r; [apply Z.pow_nonneg; lia|].
  destruct (round_shift_spec s z ltac:(lia) Hz) as [(-> & _)|(-> & _)]; lia.
Qed.

(** ** The patterns *)
Lemma fint_form p w b : (b < infinity p w)%N -> exists M, 0 <= M < 2 * 2 ^ Z.of_N p /\ fint p w b = M * fgap p w b.
Proof.
  intros Hb. unfold infinity in Hb. unfold fint, fgap.
  assert (P : (0 < 2 ^ p)%N) by (apply N.neq_0_lt_0, N.pow_nonzero; discriminate).
  assert (Q : (0 < 2 ^ w)%N) by (apply N.neq_0_lt_0, N.pow_nonzero; discriminate).
  assert (He : (b / 2 ^ p < 2 ^ w - 1)%N) by (apply N.div_lt_upper_bound; [lia|]; rewrite N.mul_comm; exact Hb).
  rewrite (N.mod_small (b / 2 ^ p)) by lia. assert (Hm := N.mod_lt b (2 ^ p) ltac:(lia)).
  assert (Ep : 2 ^ Z.of_N p = Z.of_N (2 ^ p)) by (rewrite N2Z.inj_pow; reflexivity). rewrite Ep.
  set (e := (b / 2 ^ p)%N) in *. set (m := (b mod 2 ^ p)%N) in *. set (k := (2 ^ p)%N) in *. clearbody e m k.
  destruct (N.eqb_spec e 0) as [->|E].
  - exists (Z.of_N m). split; [lia|]. change (Z.max 1 (Z.of_N 0) - 1) with 0. lia.
  - exists (Z.of_N (k + m)). split; [lia|]. do 2 f_equal. lia.
Qed.

Lemma gap_small p w b : (b < infinity p w)%N -> fgap p w b = 1 \/ fgap p w b * 2 ^ Z.of_N p <= fint p w b.
Proof.
  intros Hb. unfold infinity in Hb. unfold fint, fgap.
  assert (P : (0 < 2 ^ p)%N) by (apply N.neq_0_lt_0, N.pow_nonzero; discriminate).
  assert (Q : (0 < 2 ^ w)%N) by (apply N.neq_0_lt_0, N.pow_nonzero; discriminate).
  assert (He : (b / 2 ^ p < 2 ^ w - 1)%N) by (apply N.div_lt_upper_bound; [lia|]; rewrite N.mul_comm; exact Hb).
  rewrite (N.mod_small (b / 2 ^ p)) by lia.
  assert (Ep : 2 ^ Z.of_N p = Z.of_N (2 ^ p)) by (rewrite N2Z.inj_pow; reflexivity). rewrite Ep.
  set (e := (b / 2 ^ p)%N) in *. set (m := (b mod 2 ^ p)%N) in *. set (k := (2 ^ p)%N) in *. clearbody e m k.
  destruct (N.eqb_spec e 0) as [->|E]; [left; reflexivity|]. right. replace (Z.max 1 (Z.of_N e) - 1) with (Z.of_N e - 1) by lia.
  rewrite Z.mul_comm. apply Z.mul_le_mono_nonneg_r; [apply Z.pow_nonneg; lia|lia].
Qed.

Lemma gap_pow2 p w b : exists j, 0 <= j /\ fgap p w b = 2 ^ j.
Proof. exists (Z.max 1 (Z.of_N (b / 2 ^ p)) - 1). split; [lia|reflexivity]. Qed.

Lemma gap_prev p w b : (0 < b)%N -> fgap p w b <= 2 * fgap p w (b - 1).
Proof.
  intros Hb. unfold fgap. assert (P : (0 < 2 ^ p)%N) by (apply N.neq_0_lt_0, N.pow_nonzero; discriminate).
  assert (H : (b / 2 ^ p <= (b - 1) / 2 ^ p + 1)%N).
  { rewrite <- (N.div_add (b - 1) 1) by lia. apply N.div_le_mono; lia. }
  rewrite <- Z.pow_succ_r by lia. apply Z.pow_le_mono_r; lia.
Qed.

Definition W : Z := 2 ^ 925.
Definition F (b : N) : Z := fint 23 8 b * W.

Lemma W_pos : 2 ^ 30 <= W.
Proof. apply Z.pow_le_mono_r; lia. Qed.

Lemma float_units_F b : (b <= infinity 23 8)%N -> float_units b = F b.
Proof. intros H. unfold float_units, F. rewrite (units_fint 23 8 b H). reflexivity. Qed.

Lemma F_next b : (b < infinity 23 8)%N -> F (b + 1) = F b + fgap 23 8 b * W.
Proof. intros H. unfold F. rewrite fint_succ by exact H. ring. Qed.

Lemma F_mono b c : (b < c)%N -> (c <= infinity 23 8)%N -> F b < F c.
Proof. intros H1 H2. unfold F. apply Z.mul_lt_mono_pos_r; [assert (X := W_pos); lia|apply fint_mono; assumption]. Qed.

(** The double z lies between the midpoints around the float b. *)
Definition between (b : N) (z : Z) : Prop :=
  ((0 < b)%N -> F (b - 1) + F b <= 2 * z /\ (F (b - 1) + F b = 2 * z -> N.even b = true)) /\
  ((b < infinity 23 8)%N -> 2 * z <= F b + F (b + 1) /\ (2 * z = F b + F (b + 1) -> N.even b = true)).

Lemma pattern_fint k q : 0 <= k -> 0 <= q < 2 ^ 24 -> (0 < k -> 2 ^ 23 <= q) -> (Z.to_N (k * 2 ^ 23 + q) < infinity 23 8)%N ->
  fint 23 8 (Z.to_N (k * 2 ^ 23 + q)) = q * 2 ^ k /\ fgap 23 8 (Z.to_N (k * 2 ^ 23 + q)) = 2 ^ k.
Proof.
  intros Hk Hq Hkq Hb. change (infinity 23 8) with 2139095040%N in Hb. change (2 ^ 24) with 16777216 in Hq. change (2 ^ 23) with 8388608 in *.
  destruct (Z.lt_ge_cases q 8388608) as [L|L].
  - assert (k = 0) by lia. subst k. rewrite Z.mul_0_l, Z.add_0_l, Z.pow_0_r, Z.mul_1_r.
    assert (E : Z.to_N q = (0 * 2 ^ 23 + Z.to_N q)%N) by lia. split.
    + rewrite E, fint_at by (change (2 ^ 23)%N with 8388608%N; try reflexivity; lia). cbn [N.eqb]. lia.
    + unfold fgap. rewrite N.div_small by (change (2 ^ 23)%N with 8388608%N; lia). reflexivity.
  - assert (E : Z.to_N (k * 8388608 + q) = (Z.to_N (k + 1) * 2 ^ 23 + Z.to_N (q - 8388608))%N) by (change (2 ^ 23)%N with 8388608%N; lia).
    assert (Hk1 : (Z.to_N (k + 1) < 255)%N) by lia. split.
    + rewrite E, fint_at by (change (2 ^ 23)%N with 8388608%N; change (2 ^ 8)%N with 256%N; lia).
      destruct (N.eqb_spec (Z.to_N (k + 1)) 0) as [X|X]; [lia|]. f_equal; [change (2 ^ 23)%N with 8388608%N; lia|f_equal; lia].
    + unfold fgap. rewrite E. rewrite N.div_add_l by discriminate. rewrite N.div_small by (change (2 ^ 23)%N with 8388608%N; lia). f_equal. lia.
Qed.

Lemma float_of_double_spec d : (d <= infinity 52 11)%N ->
  (float_of_double d <= infinity 23 8)%N /\ between (float_of_double d) (fint 52 11 d).
Proof.
  intros Hd. unfold float_of_double, double_units. rewrite (units_fint 52 11 d Hd). assert (Hz := fint_nonneg 52 11 d Hd).
  set (z := fint 52 11 d) in *. clearbody z. set (s := Z.max 925 (Z.log2 z + 1 - 24)). set (k := s - 925).
  assert (Hk : 0 <= k) by (unfold k, s; lia). assert (Es : s = 925 + k) by (unfold k; lia).
  change float_infinity with (infinity 23 8).
  assert (Hlog : z < 2 ^ (s + 24)).
  { destruct (Z.eq_dec z 0) as [->|H0]; [apply Z.pow_pos_nonneg; lia|].
    assert (X := proj2 (Z.log2_spec z ltac:(lia))). eapply Z.lt_le_trans; [exact X|]. apply Z.pow_le_mono_r; unfold s; lia. }
  assert (P : 0 < 2 ^ s) by (apply Z.pow_pos_nonneg; lia).
  assert (EW : 2 ^ s = 2 ^ k * W) by (rewrite Es, Z.add_comm, Z.pow_add_r by lia; reflexivity).
  assert (PW := W_pos). assert (Pk : 0 < 2 ^ k) by (apply Z.pow_pos_nonneg; lia).
  set (q := z / 2 ^ s).
  assert (Hq : 0 <= q < 2 ^ 24).
  { split; [apply Z.div_pos; lia|]. apply Z.div_lt_upper_bound; [lia|]. rewrite <- Z.pow_add_r by lia. exact Hlog. }
  assert (Hkq : 0 < k -> 2 ^ 23 <= q).
  { intros Hk0. assert (Hl : Z.log2 z = s + 23) by (unfold k, s in *; lia).
    assert (Hz0 : 0 < z) by (destruct (Z.eq_dec z 0) as [E0|]; [rewrite E0 in Hl; change (Z.log2 0) with 0 in Hl; lia|lia]).
    apply Z.div_le_lower_bound; [exact P|]. rewrite <- Z.pow_add_r by lia. rewrite <- Hl. apply Z.log2_spec. exact Hz0. }
  assert (Hqz : q * 2 ^ s <= z < (q + 1) * 2 ^ s).
  { unfold q. assert (E := Z.div_mod z (2 ^ s) ltac:(lia)). assert (R := Z.mod_pos_bound z (2 ^ s) P). lia. }
  assert (HR := round_shift_spec s z ltac:(lia) Hz). cbv zeta in HR. fold q in HR.
  set (R := round_shift s z) in *. clearbody R. clearbody q. clear Hlog. clearbody k. clearbody s.
  set (bb := Z.to_N (k * 2 ^ 23 + q)).
  assert (Ebb : Z.to_N (k * 2 ^ 23 + (q + 1)) = (bb + 1)%N) by (unfold bb; lia).
  assert (Hodd : N.even bb = negb (Z.odd q)).
  { unfold bb. rewrite <- N.negb_odd. f_equal.
    assert (X : Z.odd (Z.of_N (Z.to_N (k * 2 ^ 23 + q))) = Z.odd q).
    { rewrite Z2N.id by lia. rewrite Z.odd_add, Z.odd_mul. change (Z.odd (2 ^ 23)) with false. rewrite andb_false_r. destruct (Z.odd q); reflexivity. }
    rewrite <- X. generalize (Z.to_N (k * 2 ^ 23 + q)). intros [|[]]; reflexivity. }
  destruct (N.lt_ge_cases bb (infinity 23 8)) as [Hbb|Hbb].
  - destruct (pattern_fint k q Hk Hq Hkq Hbb) as [Ef Eg]. fold bb in Ef, Eg.
    assert (F0 : F bb = q * 2 ^ s) by (unfold F; rewrite Ef, EW; ring).
    assert (F1 : F (bb + 1) = (q + 1) * 2 ^ s) by (rewrite F_next by exact Hbb; rewrite F0, Eg, EW; ring).
    destruct HR as [(HR & H1 & H2)|(HR & H1 & H2)]; rewrite HR.
    + rewrite Ebb. rewrite N.min_r by lia. split; [lia|]. split.
      * intros _. replace (bb + 1 - 1)%N with bb by lia. rewrite F0, F1. split; [lia|]. intros E.
        rewrite N.add_1_r, N.even_succ, <- N.negb_even, Hodd, H2 by lia. reflexivity.
      * intros Hi. assert (M := F_mono (bb + 1) (bb + 1 + 1) ltac:(lia) ltac:(lia)). split; [lia|]. intros E. lia.
    + fold bb. rewrite N.min_r by lia. split; [lia|]. split.
      * intros H0. assert (M := F_mono (bb - 1) bb ltac:(lia) ltac:(lia)). split; [lia|]. intros E. lia.
      * intros _. rewrite F0, F1. split; [lia|]. intros E. rewrite Hodd, H2 by lia. reflexivity.
  - assert (EB : N.min (infinity 23 8) (Z.to_N (k * 2 ^ 23 + R)) = infinity 23 8).
    { apply N.min_l. destruct HR as [(HR & _)|(HR & _)]; rewrite HR; [rewrite Ebb; lia|fold bb; exact Hbb]. }
    rewrite EB. split; [lia|]. split; [|lia]. intros _.
    assert (M := F_mono (infinity 23 8 - 1) (infinity 23 8) ltac:(reflexivity) ltac:(lia)).
    enough (F (infinity 23 8) <= z) by (split; [lia|intros E; lia]).
    assert (EI : F (infinity 23 8) = 2 ^ 254 * 2 ^ 23 * W).
    { unfold F. f_equal. }
    rewrite EI. destruct (Z.le_gt_cases 254 k) as [L|L].
    + specialize (Hkq ltac:(lia)). apply (Z.le_trans _ (q * 2 ^ s)); [|lia]. rewrite EW, Z.mul_assoc. apply Z.mul_le_mono_nonneg_r; [lia|].
      rewrite Z.mul_comm. apply Z.mul_le_mono_nonneg; try lia. apply Z.pow_le_mono_r; lia.
    + exfalso. clear - Hbb Hq L Hk. unfold bb in Hbb. change (infinity 23 8) with 2139095040%N in Hbb. change (2 ^ 24) with 16777216 in Hq. change (2 ^ 23) with 8388608 in Hbb. lia.
Qed.

(** ** The distance test *)
Lemma mid_exact g : (g < infinity 23 8)%N -> to_53_bits (F g + F (g + 1)) = F g + F (g + 1) /\ Z.even (F g + F (g + 1)) = true.
Proof.
  intros Hg. destruct (fint_form 23 8 g Hg) as (M & HM & EM). destruct (gap_pow2 23 8 g) as (j & Hj & Ej).
  assert (E : F g + F (g + 1) = (2 * M + 1) * 2 ^ (j + 925)).
  { rewrite F_next by exact Hg. unfold F. rewrite EM, Ej, Z.pow_add_r by lia. fold W. ring. }
  rewrite E. split.
  - apply to_53_exact; [change (2 * 2 ^ Z.of_N 23) with 16777216 in HM; lia|lia].
  - rewrite Z.even_mul, Z.even_pow by lia. apply orb_true_r.
Qed.

Lemma near_false d g : (d < infinity 52 11)%N -> (g < infinity 23 8)%N -> near d g (g + 1) = false ->
  8 * fgap 52 11 d < Z.abs (2 * fint 52 11 d - (F g + F (g + 1))).
Proof.
  intros Hd Hg. unfold near, double_units. rewrite !(units_fint 52 11) by lia. rewrite fint_succ by exact Hd.
  rewrite !float_units_F by lia. destruct (mid_exact g Hg) as [E1 E2]. rewrite E1. intros H. apply Z.leb_gt in H.
  apply Z.even_spec in E2. destruct E2 as [c Ec]. rewrite Ec in *. replace (2 * c / 2) with c in H by (rewrite Z.mul_comm, Z.div_mul by lia; reflexivity).
  destruct (gap_pow2 52 11 d) as (j & Hj & Ej). replace (fint 52 11 d + fgap 52 11 d - fint 52 11 d) with (fgap 52 11 d) in H by lia.
  assert (Ef : 4 * fgap 52 11 d = 2 ^ (2 + j)) by (rewrite Ej, Z.pow_add_r by lia; reflexivity). rewrite Ef in H.
  destruct (Z.le_gt_cases (Z.abs (fint 52 11 d - c)) (2 ^ (2 + j))) as [L|L].
  - apply to_53_le in L; lia.
  - lia.
Qed.
