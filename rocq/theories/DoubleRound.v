(** Facts about the spacing of binary floating point numbers and about rounding to the nearest. *)
From Coq Require Import QArith Qabs Qpower Lqa Lia ZArith.
From Verif Require Import Base JsonSpec NumSpec DoubleSpec.
Local Open Scope Z_scope.

Lemma q2pos k : (0 < inject_Z 2 ^ k)%Q.
Proof. apply Qpower_0_lt. reflexivity. Qed.

Lemma q2add a b : (inject_Z 2 ^ (a + b) == inject_Z 2 ^ a * inject_Z 2 ^ b)%Q.
Proof. apply Qpower_plus. intros H; discriminate H. Qed.

Lemma q2nonneg k : 0 <= k -> (inject_Z 2 ^ k == inject_Z (2 ^ k))%Q.
Proof. intros Hk. symmetry. apply Zpower_Qpower. exact Hk. Qed.

(** The value of a pattern in units of the least positive number. *)
Definition fint (p w b : N) : Z :=
  let e := ((b / 2 ^ p) mod 2 ^ w)%N in
  let m := (b mod 2 ^ p)%N in
  if (e =? 0)%N then Z.of_N m else Z.of_N (2 ^ p + m) * 2 ^ (Z.of_N e - 1).

Definition funit (p w : N) : Z := 2 - 2 ^ (Z.of_N w - 1) - Z.of_N p.

Lemma fp_value_fint p w b : (fp_value p w b == inject_Z (fint p w b) * inject_Z 2 ^ funit p w)%Q.
Proof.
  unfold fp_value, fint, funit. set (e := ((b / 2 ^ p) mod 2 ^ w)%N). set (m := (b mod 2 ^ p)%N).
  unfold scaled. destruct (N.eqb_spec e 0) as [E|E]; [reflexivity|].
  replace (2 - 2 ^ (Z.of_N w - 1) - Z.of_N p + Z.of_N e - 1)
    with ((2 - 2 ^ (Z.of_N w - 1) - Z.of_N p) + (Z.of_N e - 1)) by lia.
  rewrite q2add, inject_Z_mult. rewrite (q2nonneg (Z.of_N e - 1)) by lia. ring.
Qed.

Definition fgap (p w b : N) : Z := 2 ^ (Z.max 1 (Z.of_N (b / 2 ^ p)%N) - 1).

Lemma fint_at p w e m : (m < 2 ^ p)%N -> (e < 2 ^ w)%N ->
  fint p w (e * 2 ^ p + m) = if (e =? 0)%N then Z.of_N m else Z.of_N (2 ^ p + m) * 2 ^ (Z.of_N e - 1).
Proof.
  intros Hm He. unfold fint. assert (Hp : (2 ^ p <> 0)%N) by (apply N.pow_nonzero; lia).
  rewrite N.div_add_l by exact Hp. rewrite N.div_small by exact Hm. rewrite N.add_0_r, N.mod_small by exact He.
  rewrite N.add_comm, N.mod_add by exact Hp. rewrite N.mod_small by exact Hm. reflexivity.
Qed.

Lemma fint_succ p w b : (b < infinity p w)%N -> fint p w (b + 1) = fint p w b + fgap p w b.
Proof.
  intros Hb. unfold infinity in Hb. unfold fgap.
  assert (Hp : (0 < 2 ^ p)%N) by (apply N.neq_0_lt_0, N.pow_nonzero; lia).
  assert (Hw : (0 < 2 ^ w)%N) by (apply N.neq_0_lt_0, N.pow_nonzero; lia).
  assert (Hd := N.div_mod b (2 ^ p) ltac:(lia)). assert (Hr := N.mod_lt b (2 ^ p) ltac:(lia)).
  set (e := (b / 2 ^ p)%N) in *. set (m := (b mod 2 ^ p)%N) in *.
  assert (He : (e < 2 ^ w - 1)%N) by (apply N.div_lt_upper_bound; [lia|rewrite N.mul_comm; exact Hb]).
  rewrite N.mul_comm in Hd. rewrite Hd.
  rewrite (fint_at p w e m) by lia.
  destruct (N.eq_dec (m + 1) (2 ^ p)) as [E|E].
  - replace (e * 2 ^ p + m + 1)%N with ((e + 1) * 2 ^ p + 0)%N by lia.
    rewrite fint_at by lia. destruct (N.eqb_spec (e + 1) 0) as [H0|_]; [lia|].
    destruct (N.eqb_spec e 0) as [->|H1].
    + change (Z.of_N 0) with 0. change (2 ^ (Z.of_N (0 + 1) - 1)) with 1. change (2 ^ (Z.max 1 0 - 1)) with 1. lia.
    + rewrite Z.max_r by lia.
      replace (Z.of_N (e + 1) - 1) with (Z.succ (Z.of_N e - 1)) by lia. rewrite Z.pow_succ_r by lia.
      replace (Z.of_N (2 ^ p + m)) with (2 * Z.of_N (2 ^ p) - 1) by lia. rewrite N.add_0_r. ring.
  - replace (e * 2 ^ p + m + 1)%N with (e * 2 ^ p + (m + 1))%N by lia.
    rewrite fint_at by lia. destruct (N.eqb_spec e 0) as [->|H1].
    + change (2 ^ (Z.max 1 (Z.of_N 0) - 1)) with 1. lia.
    + rewrite Z.max_r by lia. replace (Z.of_N (2 ^ p + (m + 1))) with (Z.of_N (2 ^ p + m) + 1) by lia. ring.
Qed.

Lemma fgap_pos p w b : 0 < fgap p w b.
Proof. apply Z.pow_pos_nonneg; lia. Qed.

Lemma fgap_mono p w b c : (b <= c)%N -> fgap p w b <= fgap p w c.
Proof.
  intros H. apply Z.pow_le_mono_r; [lia|].
  assert (b / 2 ^ p <= c / 2 ^ p)%N by (apply N.div_le_mono; [apply N.pow_nonzero; lia|exact H]). lia.
Qed.

Lemma fint_mono p w b c : (b < c)%N -> (c <= infinity p w)%N -> fint p w b < fint p w c.
Proof.
  intros Hbc. revert Hbc. pattern c. apply N.peano_ind; [lia|]. intros n IH Hb Hn.
  rewrite <- N.add_1_r. rewrite fint_succ by lia. assert (Hg := fgap_pos p w n).
  destruct (N.eq_dec b n) as [->|E]; [lia|]. specialize (IH ltac:(lia) ltac:(lia)). lia.
Qed.

Lemma fint_mono_le p w b c : (b <= c)%N -> (c <= infinity p w)%N -> fint p w b <= fint p w c.
Proof.
  intros H Hc. destruct (N.eq_dec b c) as [->|E]; [lia|]. assert (H1 := fint_mono p w b c ltac:(lia) Hc). lia.
Qed.

Lemma fint_nonneg p w b : (b <= infinity p w)%N -> 0 <= fint p w b.
Proof.
  intros H. unfold fint. destruct (_ =? 0)%N; [apply N2Z.is_nonneg|]. apply Z.mul_nonneg_nonneg; [apply N2Z.is_nonneg|]. apply Z.pow_nonneg. lia.
Qed.

(** ** When a pattern is nearest: x = X units *)
Lemma nearest_crit p w (X : Q) b : (b <= infinity p w)%N ->
  ((0 < b)%N -> (inject_Z (fint p w (b - 1) + fint p w b) <= 2 * X)%Q /\
     ((inject_Z (fint p w (b - 1) + fint p w b) == 2 * X)%Q -> N.even b = true)) ->
  ((b < infinity p w)%N -> (2 * X <= inject_Z (fint p w b + fint p w (b + 1)))%Q /\
     ((2 * X == inject_Z (fint p w b + fint p w (b + 1)))%Q -> N.even b = true)) ->
  forall x, (x == X * inject_Z 2 ^ funit p w)%Q -> nearest p w x b.
Proof.
  intros Hb Hlo Hhi x Hx. split; [exact Hb|]. intros b' Hb' Hne.
  assert (Hu := q2pos (funit p w)). set (u := (inject_Z 2 ^ funit p w)%Q) in *.
  assert (Ea : forall c, (Qabs (x - fp_value p w c) == Qabs (X - inject_Z (fint p w c)) * u)%Q).
  { intros c. rewrite Hx, fp_value_fint. fold u.
    rewrite <- (Qabs_pos u) at 3 by lra. rewrite <- Qabs_Qmult. apply Qabs_wd. ring. }
  rewrite !Ea.
  assert (Hm : (Qabs (X - inject_Z (fint p w b)) <= Qabs (X - inject_Z (fint p w b')))%Q /\
               ((Qabs (X - inject_Z (fint p w b)) == Qabs (X - inject_Z (fint p w b')))%Q -> N.even b = true)).
  { destruct (N.lt_ge_cases b' b) as [H|H].
    - destruct (Hlo ltac:(lia)) as (H1 & H2).
      assert (Hm1 := fint_mono_le p w b' (b - 1) ltac:(lia) ltac:(lia)).
      assert (Hm2 := fint_mono p w (b - 1) b ltac:(lia) Hb).
      rewrite Zle_Qle in Hm1. rewrite Zlt_Qlt in Hm2. rewrite inject_Z_plus in H1, H2.
      set (vb := inject_Z (fint p w b)) in *. set (v1 := inject_Z (fint p w (b - 1))) in *.
      set (v' := inject_Z (fint p w b')) in *. clearbody vb v1 v'. clear - H1 H2 Hm1 Hm2.
      assert (E' : (Qabs (X - v') == X - v')%Q) by (apply Qabs_pos; lra).
      rewrite E'. apply Qabs_case; intros Hs; split; try lra; intros E; apply H2; lra.
    - destruct (Hhi ltac:(lia)) as (H1 & H2).
      assert (Hm1 := fint_mono_le p w (b + 1) b' ltac:(lia) ltac:(lia)).
      assert (Hm2 := fint_mono p w b (b + 1) ltac:(lia) ltac:(lia)).
      rewrite Zle_Qle in Hm1. rewrite Zlt_Qlt in Hm2. rewrite inject_Z_plus in H1, H2.
      set (vb := inject_Z (fint p w b)) in *. set (v1 := inject_Z (fint p w (b + 1))) in *.
      set (v' := inject_Z (fint p w b')) in *. clearbody vb v1 v'. clear - H1 H2 Hm1 Hm2.
      assert (E' : (Qabs (X - v') == v' - X)%Q) by (rewrite Qabs_neg; lra).
      rewrite E'. apply Qabs_case; intros Hs; split; try lra; intros E; apply H2; lra. }
  destruct Hm as (H1 & H2). split.
  - apply Qmult_le_compat_r; [exact H1|lra].
  - intros E. apply H2. apply (Qmult_inj_r _ _ u); [lra|exact E].
Qed.

Lemma adjacent_crit p w (X : Q) b : (b <= infinity p w)%N ->
  ((0 < b)%N -> (inject_Z (fint p w (b - 1)) <= X)%Q) ->
  ((b < infinity p w)%N -> (X <= inject_Z (fint p w (b + 1)))%Q) ->
  forall x, (x == X * inject_Z 2 ^ funit p w)%Q -> adjacent p w x b.
Proof.
  intros Hb Hlo Hhi x Hx. split; [exact Hb|]. intros b' Hb'.
  assert (Hu := q2pos (funit p w)).
  assert (El : forall c d, (fp_value p w c < fp_value p w d)%Q -> fint p w c < fint p w d).
  { intros c d. rewrite !fp_value_fint. intros H. apply Qmult_lt_r in H; [|exact Hu]. rewrite <- Zlt_Qlt in H. exact H. }
  split; intros (H1 & H2).
  - rewrite Hx, fp_value_fint in H1. apply Qmult_lt_r in H1; [|exact Hu]. apply El in H2.
    assert (Hlt : (b' < b)%N).
    { destruct (N.lt_ge_cases b' b) as [H|H]; [exact H|]. assert (H3 := fint_mono_le p w b b' H ltac:(lia)). lia. }
    specialize (Hlo ltac:(lia)). assert (H4 := fint_mono_le p w b' (b - 1) ltac:(lia) ltac:(lia)).
    rewrite Zle_Qle in H4. lra.
  - rewrite Hx, fp_value_fint in H2. apply Qmult_lt_r in H2; [|exact Hu]. apply El in H1.
    assert (Hlt : (b < b')%N).
    { destruct (N.lt_ge_cases b b') as [H|H]; [exact H|]. assert (H3 := fint_mono_le p w b' b H ltac:(lia)). lia. }
    specialize (Hhi ltac:(lia)). assert (H4 := fint_mono_le p w (b + 1) b' ltac:(lia) ltac:(lia)).
    rewrite Zle_Qle in H4. lra.
Qed.
