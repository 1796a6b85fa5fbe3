(** The number chosen by decode lies nearest to the number that is printed. *)
From Coq Require Import QArith Qabs Qpower Lqa Lia ZArith.
From Verif Require Import Base JsonSpec NumSpec DoubleSpec DoubleRound RyuModel RyuExp RyuRow RyuDecode.
Local Open Scope Z_scope.

Definition pw (T : finfo) : N := Z.to_N (mentissa_width T).
Definition ew (T : finfo) : N := Z.to_N (exponent_width T).

(** ** Only one number is nearest *)
Lemma nearest_unique p w x b1 b2 : nearest p w x b1 -> nearest p w x b2 -> b1 = b2.
Proof.
  assert (Hlt : forall b b', (b < b')%N -> nearest p w x b -> nearest p w x b' -> False).
  { intros b b' Hb [B1 N1] [B2 N2].
    destruct (N1 b' B2 ltac:(lia)) as [L1 E1]. destruct (N2 b B1 ltac:(lia)) as [L2 E2].
    assert (Eq : (Qabs (x - fp_value p w b) == Qabs (x - fp_value p w b'))%Q) by (apply Qle_antisym; assumption).
    specialize (E1 Eq). symmetry in Eq. specialize (E2 Eq).
    assert (Hb1 : (b + 1 < b')%N).
    { destruct (N.eq_dec (b + 1) b') as [H|H]; [|lia]. rewrite <- H, N.add_1_r, N.even_succ, <- N.negb_even, E1 in E2. discriminate E2. }
    destruct (N1 (b + 1)%N ltac:(lia) ltac:(lia)) as [L3 _].
    assert (V1 : (fp_value p w b < fp_value p w (b + 1))%Q /\ (fp_value p w (b + 1) < fp_value p w b')%Q).
    { rewrite !fp_value_fint. assert (Hu := q2pos (funit p w)).
      assert (M1 := fint_mono p w b (b + 1) ltac:(lia) ltac:(lia)). assert (M2 := fint_mono p w (b + 1) b' ltac:(lia) ltac:(lia)).
      rewrite Zlt_Qlt in M1, M2. split; apply Qmult_lt_compat_r; assumption. }
    revert L1 L2 L3 V1. generalize (fp_value p w b), (fp_value p w b'), (fp_value p w (b + 1)). clear. intros v v' v1 L1 L2 L3 [V1 V2].
    revert L1 L2 L3. repeat (apply Qabs_case; intros ?); intros; lra. }
  intros H1 H2. destruct (N.lt_trichotomy b1 b2) as [H|[H|H]]; [exfalso; eauto|exact H|exfalso; eauto].
Qed.

Lemma halfway_fint p w b : (halfway p w b == inject_Z (2 * (fint p w b + fint p w (b + 1))) * inject_Z 2 ^ (funit p w - 2))%Q.
Proof.
  unfold halfway. rewrite !fp_value_fint. replace (funit p w) with (funit p w - 2 + 2) by lia. set (f := funit p w - 2).
  replace (f + 2 - 2) with f by lia. rewrite q2add. rewrite inject_Z_mult, inject_Z_plus.
  change (inject_Z 2 ^ 2)%Q with 4%Q. change (inject_Z 2) with 2%Q. field.
Qed.

(** ** The parts of a magnitude *)
Section Parts.
Variables (T : finfo) (mu n : N) (bad : Z) (b : N).
Hypothesis K : checked T mu n bad.
Hypothesis Hb : (b < infinity (pw T) (ew T))%N.
Hypothesis Hb0 : (0 < b)%N.

Let m := mantissa T b.
Let e := biased T b.
Let f := fraction T b.
Let single := single_gap T b.
Let k : Z := Z.max 1 (Z.of_N e) - 1.
Let u : Z := 4 * Z.of_N m - (if single then 1 else 2).
Let w : Z := 4 * Z.of_N m + 2.

Lemma widths : (1 <= pw T)%N /\ (2 <= ew T)%N.
Proof. assert (A := ck_width _ _ _ _ K). assert (B := ck_exp _ _ _ _ K). unfold pw, ew. lia. Qed.

Lemma pp : (0 < 2 ^ pw T)%N.
Proof. apply pow2_pos. Qed.

Lemma split_b : (b = e * 2 ^ pw T + f)%N /\ (f < 2 ^ pw T)%N /\ (e < 2 ^ ew T - 1)%N /\ e = (b / 2 ^ pw T)%N.
Proof.
  assert (P := pp). assert (Q2 := pow2_pos (ew T)).
  assert (Hd := N.div_mod b (2 ^ pw T) ltac:(lia)). assert (Hr := N.mod_lt b (2 ^ pw T) ltac:(lia)).
  assert (He : (b / 2 ^ pw T < 2 ^ ew T - 1)%N).
  { apply N.div_lt_upper_bound; [lia|]. unfold infinity in Hb. rewrite N.mul_comm. exact Hb. }
  assert (Ee : e = (b / 2 ^ pw T)%N).
  { unfold e, biased. fold (pw T) (ew T). apply N.mod_small. lia. }
  unfold f, fraction. fold (pw T). rewrite Ee. clear - Hd Hr He. split; [lia|]. auto.
Qed.

Lemma fint_b : fint (pw T) (ew T) b = Z.of_N m * 2 ^ k.
Proof.
  unfold fint, m, mantissa, k, e, biased, fraction. fold (pw T) (ew T).
  destruct (N.eqb_spec ((b / 2 ^ pw T) mod 2 ^ ew T) 0) as [E|E].
  - rewrite E. change (Z.max 1 (Z.of_N 0) - 1) with 0. rewrite Z.pow_0_r, Z.mul_1_r. reflexivity.
  - f_equal; [f_equal; apply N.add_comm|]. f_equal. revert E. generalize ((b / 2 ^ pw T) mod 2 ^ ew T)%N. clear. intros; lia.
Qed.

Lemma m_pos : (0 < m)%N.
Proof.
  destruct split_b as (E & _). unfold m, mantissa. fold e f (pw T). assert (P := pp). destruct (N.eqb_spec e 0) as [H|H]; [|lia].
  rewrite H in E. lia.
Qed.

Lemma fgap_b : fgap (pw T) (ew T) b = 2 ^ k.
Proof. unfold fgap, k. destruct split_b as (_ & _ & _ & E). rewrite E. reflexivity. Qed.

Lemma fint_next : fint (pw T) (ew T) (b + 1) = (Z.of_N m + 1) * 2 ^ k.
Proof. rewrite fint_succ by exact Hb. rewrite fint_b, fgap_b. ring. Qed.

Lemma fint_prev : 4 * fint (pw T) (ew T) (b - 1) = (4 * Z.of_N m - (if single then 2 else 4)) * 2 ^ k.
Proof.
  assert (S1 := fint_succ (pw T) (ew T) (b - 1) ltac:(lia)). replace (b - 1 + 1)%N with b in S1 by lia. rewrite fint_b in S1.
  destruct split_b as (E & Hf & He & Ee). assert (P := pp).
  unfold single, single_gap. fold f e.
  assert (G : fgap (pw T) (ew T) (b - 1) = if (f =? 0)%N && (1 <? e)%N then 2 ^ (k - 1) else 2 ^ k).
  { unfold fgap. destruct (N.eqb_spec f 0) as [F|F].
    - assert (Hprev : ((b - 1) / 2 ^ pw T = e - 1)%N).
      { symmetry. apply (N.div_unique _ _ _ (2 ^ pw T - 1)); [lia|]. assert (1 <= e)%N by lia.
        rewrite E, F, N.add_0_r. replace e with (e - 1 + 1)%N at 1 by lia. rewrite N.mul_add_distr_r. lia. }
      rewrite Hprev. destruct (N.ltb_spec 1 e); cbn [andb]; f_equal; unfold k; lia.
    - assert (Hprev : ((b - 1) / 2 ^ pw T = e)%N).
      { symmetry. apply (N.div_unique _ _ _ (f - 1)); lia. }
      rewrite Hprev. reflexivity. }
  rewrite G in S1. destruct ((f =? 0)%N && (1 <? e)%N) eqn:Es; [|lia].
  apply andb_prop in Es. destruct Es as [_ Es]. apply N.ltb_lt in Es.
  assert (E2 : 2 ^ k = 2 * 2 ^ (k - 1)) by (rewrite <- Z.pow_succ_r by (unfold k; lia); f_equal; lia). lia.
Qed.

Lemma even_b : N.even b = N.even m.
Proof.
  destruct split_b as (E & _). destruct widths as [W _]. unfold m, mantissa. fold e f (pw T). rewrite E at 1.
  rewrite N.even_add, N.even_mul, N.even_pow by lia. rewrite orb_true_r. destruct (e =? 0)%N; [destruct (N.even f); reflexivity|].
  rewrite N.even_add, N.even_pow by lia. reflexivity.
Qed.

Lemma u_small : 0 < u < 2 ^ 60.
Proof.
  assert (M := m_pos). destruct split_b as (_ & Hf & _). assert (W := ck_width _ _ _ _ K).
  assert (Hm : (m < 2 * 2 ^ 52)%N).
  { assert (2 ^ pw T <= 2 ^ 52)%N by (apply N.pow_le_mono_r; [discriminate|unfold pw; lia]).
    unfold m, mantissa. fold e f (pw T). destruct (e =? 0)%N; lia. }
  unfold u. clear - M Hm. destruct single; lia.
Qed.

(** r times 2^k units is nearest to b. *)
Variable r : Q.
Hypothesis Hup : (r <= inject_Z w)%Q.
Hypothesis Hodd : N.odd m = true -> ~ (r == inject_Z w)%Q.
Hypothesis Hlow : (r == inject_Z u)%Q /\ N.even m = true \/ (inject_Z u * (1 + inject_Z 2 ^ (-110)) < r)%Q.

Let x : Q := (r * inject_Z 2 ^ (k + funit (pw T) (ew T) - 2))%Q.

Lemma r_low : (inject_Z u <= r)%Q.
Proof.
  destruct Hlow as [[H _]|H]; [rewrite H; apply Qle_refl|]. assert (U := proj1 u_small). rewrite Zlt_Qlt in U.
  change (inject_Z 0) with 0%Q in U. assert (E := q2pos (-110)). set (ep := (inject_Z 2 ^ (-110))%Q) in *. clearbody ep.
  assert (0 <= inject_Z u * ep)%Q by (apply Qmult_le_0_compat; lra). lra.
Qed.

Lemma r_nearest : nearest (pw T) (ew T) x b.
Proof.
  assert (P2 := q2pos (k - 2)).
  assert (Hk : (inject_Z 2 ^ k == 4 * inject_Z 2 ^ (k - 2))%Q).
  { replace k with (2 + (k - 2)) at 1 by lia. rewrite q2add. reflexivity. }
  assert (Hk' : (inject_Z (2 ^ k) == inject_Z 2 ^ k)%Q) by (symmetry; apply q2nonneg; unfold k; lia).
  assert (Hprev : (inject_Z (fint (pw T) (ew T) (b - 1) + fint (pw T) (ew T) b) == inject_Z u * (2 * inject_Z 2 ^ (k - 2)))%Q).
  { assert (E : (4 * inject_Z (fint (pw T) (ew T) (b - 1) + fint (pw T) (ew T) b) == inject_Z (2 * u) * inject_Z (2 ^ k))%Q).
    { change 4%Q with (inject_Z 4). rewrite <- !inject_Z_mult. replace (4 * (fint (pw T) (ew T) (b - 1) + fint (pw T) (ew T) b)) with (2 * u * 2 ^ k); [reflexivity|].
      rewrite Z.mul_add_distr_l, fint_prev, fint_b. unfold u. clear. destruct single; ring. }
    apply (Qmult_inj_l _ _ 4); [discriminate|]. rewrite E, Hk', Hk, inject_Z_mult. change (inject_Z 2 * inject_Z u)%Q with (2 * inject_Z u)%Q. ring. }
  assert (Hnext : (inject_Z (fint (pw T) (ew T) b + fint (pw T) (ew T) (b + 1)) == inject_Z w * (2 * inject_Z 2 ^ (k - 2)))%Q).
  { assert (E : (2 * inject_Z (fint (pw T) (ew T) b + fint (pw T) (ew T) (b + 1)) == inject_Z w * inject_Z (2 ^ k))%Q).
    { change 2%Q with (inject_Z 2). rewrite <- !inject_Z_mult. replace (2 * (fint (pw T) (ew T) b + fint (pw T) (ew T) (b + 1))) with (w * 2 ^ k); [reflexivity|].
      rewrite fint_next, fint_b. unfold w. clear. ring. }
    apply (Qmult_inj_l _ _ 2); [discriminate|]. rewrite E, Hk', Hk. ring. }
  apply (nearest_crit (pw T) (ew T) (r * inject_Z 2 ^ (k - 2))%Q).
  - lia.
  - intros _. rewrite Hprev. assert (L := r_low). split.
    + setoid_replace (inject_Z u * (2 * inject_Z 2 ^ (k - 2)))%Q with (2 * (inject_Z u * inject_Z 2 ^ (k - 2)))%Q by ring.
      apply Qmult_le_l; [reflexivity|]. apply Qmult_le_compat_r; [exact L|lra].
    + intros E. rewrite even_b. destruct Hlow as [[_ H]|H]; [exact H|exfalso].
      assert (E' : (inject_Z u == r)%Q).
      { apply (Qmult_inj_r _ _ (2 * inject_Z 2 ^ (k - 2))); [lra|]. rewrite E. ring. }
      rewrite E' in H. assert (U := proj1 u_small). rewrite Zlt_Qlt in U. change (inject_Z 0) with 0%Q in U. rewrite E' in U.
      assert (E2 := q2pos (-110)). assert (0 < r * inject_Z 2 ^ (-110))%Q by (apply Qmult_lt_0_compat; assumption). lra.
  - intros _. rewrite Hnext. split.
    + setoid_replace (inject_Z w * (2 * inject_Z 2 ^ (k - 2)))%Q with (2 * (inject_Z w * inject_Z 2 ^ (k - 2)))%Q by ring.
      apply Qmult_le_l; [reflexivity|]. apply Qmult_le_compat_r; [exact Hup|lra].
    + intros E. rewrite even_b. rewrite <- N.negb_odd. destruct (N.odd m) eqn:O; [|reflexivity]. exfalso. apply (Hodd eq_refl).
      apply (Qmult_inj_r _ _ (2 * inject_Z 2 ^ (k - 2))); [lra|]. rewrite <- E. ring.
  - unfold x. rewrite <- Qmult_assoc, <- q2add. replace (k - 2 + funit (pw T) (ew T)) with (k + funit (pw T) (ew T) - 2) by lia. reflexivity.
Qed.

Lemma r_clear : clear_of_halfway (pw T) (ew T) (1 # 1298074214633706907132624082305024) x.
Proof.
  change (1 # 1298074214633706907132624082305024) with (inject_Z 2 ^ (-110))%Q.
  assert (E0 := q2pos (-110)).
  intros b' Hb'. rewrite halfway_fint. unfold x.
  replace (k + funit (pw T) (ew T) - 2) with (k + (funit (pw T) (ew T) - 2)) by lia. rewrite q2add.
  assert (PU := q2pos (funit (pw T) (ew T) - 2)). set (U := (inject_Z 2 ^ (funit (pw T) (ew T) - 2))%Q) in *. clearbody U.
  assert (Hk' : (inject_Z 2 ^ k == inject_Z (2 ^ k))%Q) by (apply q2nonneg; unfold k; lia). rewrite Hk'.
  assert (Pk : 0 < 2 ^ k) by (apply Z.pow_pos_nonneg; unfold k; lia).
  assert (Pk' := Pk). rewrite Zlt_Qlt in Pk'. change (inject_Z 0) with 0%Q in Pk'.
  set (h := 2 * (fint (pw T) (ew T) b' + fint (pw T) (ew T) (b' + 1))).
  destruct (N.lt_ge_cases b' b) as [Hlt|Hge].
  2:{ left. rewrite Qmult_assoc. apply Qmult_le_compat_r; [|apply Qlt_le_weak; exact PU].
      apply (Qle_trans _ (inject_Z w * inject_Z (2 ^ k))); [apply Qmult_le_compat_r; [exact Hup|apply Qlt_le_weak; exact Pk']|].
      rewrite <- inject_Z_mult, <- Zle_Qle. unfold h.
      assert (M1 := fint_mono_le (pw T) (ew T) b b' Hge ltac:(lia)).
      assert (M2 := fint_mono_le (pw T) (ew T) (b + 1) (b' + 1) ltac:(lia) ltac:(lia)).
      rewrite fint_b in M1. rewrite fint_next in M2. unfold w. lia. }
  destruct (N.eq_dec b' (b - 1)) as [->|Hne].
  - assert (Eh : h = u * 2 ^ k).
    { unfold h. replace (b - 1 + 1)%N with b by lia. rewrite Z.mul_add_distr_l, fint_b.
      assert (F := fint_prev). unfold u. destruct single; lia. }
    rewrite Eh, inject_Z_mult. destruct Hlow as [[H _]|H].
    + left. rewrite H. rewrite Qmult_assoc. apply Qle_refl.
    + right. setoid_replace (inject_Z u * inject_Z (2 ^ k) * U * (1 + inject_Z 2 ^ (-110)))%Q
        with (inject_Z u * (1 + inject_Z 2 ^ (-110)) * (inject_Z (2 ^ k) * U))%Q by ring.
      apply Qmult_lt_compat_r; [apply Qmult_lt_0_compat; assumption|exact H].
  - right.
    assert (Hh : h <= (u - 1) * 2 ^ k).
    { assert (M1 := fint_mono_le (pw T) (ew T) b' (b - 1) ltac:(lia) ltac:(lia)).
      assert (M2 := fint_mono_le (pw T) (ew T) (b' + 1) (b - 1) ltac:(lia) ltac:(lia)).
      assert (F := fint_prev). unfold h, u. destruct single; lia. }
    setoid_replace (inject_Z h * U * (1 + inject_Z 2 ^ (-110)))%Q with (inject_Z h * (1 + inject_Z 2 ^ (-110)) * U)%Q by ring.
    rewrite Qmult_assoc. apply Qmult_lt_compat_r; [exact PU|].
    rewrite Zle_Qle, inject_Z_mult in Hh.
    apply (Qle_lt_trans _ (inject_Z (u - 1) * inject_Z (2 ^ k) * (1 + inject_Z 2 ^ (-110)))); [apply Qmult_le_compat_r; [exact Hh|lra]|].
    setoid_replace (inject_Z (u - 1) * inject_Z (2 ^ k) * (1 + inject_Z 2 ^ (-110)))%Q with (inject_Z (u - 1) * (1 + inject_Z 2 ^ (-110)) * inject_Z (2 ^ k))%Q by ring.
    apply Qmult_lt_compat_r; [exact Pk'|].
    apply (Qlt_le_trans _ (inject_Z u)); [|exact r_low].
    assert (Us := u_small). unfold Z.sub. rewrite inject_Z_plus. destruct Us as [_ Us]. rewrite Zlt_Qlt in Us.
    assert (Ex : (inject_Z (2 ^ 60) * inject_Z 2 ^ (-110) < 1)%Q) by reflexivity.
    assert (Y : (inject_Z u * inject_Z 2 ^ (-110) < inject_Z (2 ^ 60) * inject_Z 2 ^ (-110))%Q) by (apply Qmult_lt_compat_r; assumption).
    change (inject_Z (- (1))) with (-(1))%Q. revert E0 Ex Y. generalize (inject_Z 2 ^ (-110))%Q, (inject_Z (2 ^ 60)), (inject_Z u). clear. intros A B C ? ? ?. lra.
Qed.
End Parts.

Lemma nearest_eq p w x y b : (x == y)%Q -> nearest p w x b -> nearest p w y b.
Proof. intros E [H1 H2]. split; [exact H1|]. intros b' Hb Hne. destruct (H2 b' Hb Hne) as [A B]. rewrite E in A, B. split; assumption. Qed.

Lemma clear_eq p w eps x y : (x == y)%Q -> clear_of_halfway p w eps x -> clear_of_halfway p w eps y.
Proof. intros E H b Hb. specialize (H b Hb). rewrite E in H. exact H. Qed.

Lemma q10pos k : (0 < inject_Z 10 ^ k)%Q.
Proof. apply Qpower_0_lt. reflexivity. Qed.
Lemma q10add a b : (inject_Z 10 ^ (a + b) == inject_Z 10 ^ a * inject_Z 10 ^ b)%Q.
Proof. apply Qpower_plus. intros H; discriminate H. Qed.
Lemma q5nonneg k : 0 <= k -> (inject_Z 5 ^ k == inject_Z (5 ^ k))%Q.
Proof. intros Hk. symmetry. apply Zpower_Qpower. exact Hk. Qed.
Lemma q10split k : (inject_Z 10 ^ k == inject_Z 2 ^ k * inject_Z 5 ^ k)%Q.
Proof. rewrite <- Qmult_power. reflexivity. Qed.
Lemma inject_pow (a k : N) : (inject_Z (Z.of_N (a ^ k)) == inject_Z (Z.of_N a) ^ Z.of_N k)%Q.
Proof. rewrite N2Z.inj_pow. apply Zpower_Qpower. lia. Qed.

Lemma gnum_gden exp q : 0 <= q <= Z.abs exp ->
  (inject_Z (Z.of_N (gnum exp q)) * inject_Z 10 ^ (Z.min exp 0 + q) == inject_Z (Z.of_N (gden exp q)) * inject_Z 2 ^ exp)%Q.
Proof.
  intros Hq. unfold gnum, gden. destruct (Z.leb_spec 0 exp) as [H|H]; rewrite !inject_pow, !Z2N.id by lia;
    change (Z.of_N 2) with 2; change (Z.of_N 5) with 5.
  - rewrite Z.min_r, Z.add_0_l by lia. replace exp with (exp - q + q) at 2 by lia. rewrite q2add, q10split. ring.
  - rewrite Z.min_l by lia. replace (- exp - q) with (- (exp + q)) by lia. rewrite q10split.
    replace (inject_Z 2 ^ exp)%Q with (inject_Z 2 ^ (exp + q + - q))%Q by (f_equal; lia). rewrite (q2add (exp + q) (- q)), !Qpower_opp.
    assert (A := q2pos q). assert (B : (0 < inject_Z 5 ^ (exp + q))%Q) by (apply Qpower_0_lt; reflexivity).
    set (a := (inject_Z 2 ^ q)%Q) in *. set (c := (inject_Z 5 ^ (exp + q))%Q) in *. set (d := (inject_Z 2 ^ (exp + q))%Q). clearbody a c d.
    field. split; intros E; rewrite E in *; discriminate.
Qed.

Lemma inside_nearest T mu n bad b q i D : checked T mu n bad -> (mu <= 44)%N ->
  (b < infinity (pw T) (ew T))%N -> (0 < b)%N -> 0 <= q <= Z.abs (exponent T b) -> inside T mu b q i D ->
  let x := scaled (Z.of_N D) 10 (Z.of_N i + Z.min (exponent T b) 0 + q) in
  nearest (pw T) (ew T) x b /\ clear_of_halfway (pw T) (ew T) (1 # 1298074214633706907132624082305024) x.
Proof.
  intros K Hmu Hb Hb0 Hq I x. unfold inside in I. cbv zeta in I.
  set (m := mantissa T b) in *. set (exp := exponent T b) in *. set (gn := gnum exp q) in *. set (gd := gden exp q) in *.
  set (u := (4 * m - (if single_gap T b then 1 else 2))%N) in *. set (y := (D * 10 ^ i)%N) in *.
  destruct I as (I1 & I2 & I3 & I4).
  assert (Hm0 : (0 < m)%N) by exact (m_pos T b Hb Hb0).
  assert (Eu : Z.of_N u = 4 * Z.of_N m - (if single_gap T b then 1 else 2)) by (unfold u; clear - Hm0; destruct (single_gap T b); lia).
  assert (Hgn : (0 < gn)%N) by (unfold gn, gnum; destruct (0 <=? exp); apply N.neq_0_lt_0, N.pow_nonzero; discriminate).
  assert (Hgd : (0 < gd)%N) by apply gden_pos.
  assert (Pn : (0 < inject_Z (Z.of_N gn))%Q) by (change 0%Q with (inject_Z 0); rewrite <- Zlt_Qlt; lia).
  assert (Pd : (0 < inject_Z (Z.of_N gd))%Q) by (change 0%Q with (inject_Z 0); rewrite <- Zlt_Qlt; lia).
  set (r := (inject_Z (Z.of_N (y * gd)) / inject_Z (Z.of_N gn))%Q).
  assert (Er : (r * inject_Z (Z.of_N gn) == inject_Z (Z.of_N (y * gd)))%Q) by (unfold r; field; lra).
  assert (Hup : (r <= inject_Z (4 * Z.of_N m + 2))%Q).
  { apply (Qmult_le_r _ _ (inject_Z (Z.of_N gn)) Pn). rewrite Er, <- inject_Z_mult, <- Zle_Qle.
    clear - I1. lia. }
  assert (Hodd : N.odd m = true -> ~ (r == inject_Z (4 * Z.of_N m + 2))%Q).
  { intros O E. apply (I2 O). rewrite E, <- inject_Z_mult in Er. apply (proj1 (inject_Z_injective _ _)) in Er. apply N2Z.inj. lia. }
  assert (Hlow : (r == inject_Z (4 * Z.of_N m - (if single_gap T b then 1 else 2)))%Q /\ N.even m = true \/
    (inject_Z (4 * Z.of_N m - (if single_gap T b then 1 else 2)) * (1 + inject_Z 2 ^ (-110)) < r)%Q).
  { rewrite <- Eu. destruct I3 as [[E He]|H].
    - left. split; [|exact He]. apply (Qmult_inj_r _ _ (inject_Z (Z.of_N gn))); [lra|]. rewrite Er, <- inject_Z_mult, E, N2Z.inj_mul. reflexivity.
    - right. apply (Qmult_lt_r _ _ (inject_Z (Z.of_N gn)) Pn). rewrite Er.
      assert (Hmu' : (2 * 2 ^ mu <= 2 ^ 45)%N).
      { rewrite <- N.pow_succ_r by lia. apply N.pow_le_mono_r; [discriminate|lia]. }
      set (M := (2 * 2 ^ mu)%N) in *.
      assert (HM : (0 < M)%N) by (unfold M; assert (X := pow2_pos mu); clear - X; lia).
      assert (H' : (u * gn * 2 ^ 45 + gd <= y * gd * 2 ^ 45)%N).
      { clearbody M. assert (X : (0 < y * gd - u * gn)%N) by (destruct (N.le_gt_cases (y * gd) (u * gn)) as [Z|Z]; [apply (N.mul_le_mono_r _ _ M) in Z; lia|lia]).
        assert (Y : (u * gn <= y * gd)%N) by lia. set (d := (y * gd - u * gn)%N) in *. assert (Ed : (y * gd = u * gn + d)%N) by lia.
        rewrite Ed in H |- *. clearbody d. rewrite N.mul_add_distr_r in H |- *.
        assert (d * M <= d * 2 ^ 45)%N by (apply N.mul_le_mono_l; exact Hmu'). lia. }
      clear H. assert (H : (inject_Z (Z.of_N (u * gn)) * inject_Z (2 ^ 45) + inject_Z (Z.of_N gd) <= inject_Z (Z.of_N (y * gd)) * inject_Z (2 ^ 45))%Q).
      { rewrite <- !inject_Z_mult, <- inject_Z_plus, <- Zle_Qle. clear - H'. lia. }
      assert (J : (inject_Z (Z.of_N (u * gn)) < inject_Z (2 ^ 64) * inject_Z (Z.of_N gd))%Q).
      { rewrite <- inject_Z_mult, <- Zlt_Qlt. clear - I4. lia. }
      rewrite N2Z.inj_mul, inject_Z_mult in H, J.
      setoid_replace (inject_Z (Z.of_N u) * (1 + inject_Z 2 ^ (-110)) * inject_Z (Z.of_N gn))%Q
        with (inject_Z (Z.of_N u) * inject_Z (Z.of_N gn) * (1 + inject_Z 2 ^ (-110)))%Q by ring.
      revert H J Pd. generalize (inject_Z (Z.of_N u) * inject_Z (Z.of_N gn))%Q, (inject_Z (Z.of_N (y * gd))), (inject_Z (Z.of_N gd)).
      change (inject_Z 2 ^ (-110))%Q with (1 # 1298074214633706907132624082305024). change (inject_Z (2 ^ 45)) with 35184372088832%Q.
      change (inject_Z (2 ^ 64)) with 18446744073709551616%Q. clear. intros A B C H J Pd. lra. }
  assert (Ex : (r * inject_Z 2 ^ (Z.max 1 (Z.of_N (biased T b)) - 1 + funit (pw T) (ew T) - 2) == x)%Q).
  { unfold x, scaled. rewrite <- Z.add_assoc, q10add.
    replace (Z.max 1 (Z.of_N (biased T b)) - 1 + funit (pw T) (ew T) - 2) with exp.
    2:{ unfold exp, exponent, funit, bias, pw, ew. assert (A := ck_width _ _ _ _ K). assert (B := ck_exp _ _ _ _ K). rewrite !Z2N.id by lia. lia. }
    assert (G := gnum_gden exp q Hq). fold gn gd in G.
    assert (E10 : (inject_Z 10 ^ Z.of_N i == inject_Z (Z.of_N (10 ^ i)))%Q) by (rewrite inject_pow; reflexivity).
    rewrite E10, Qmult_assoc, <- inject_Z_mult, <- N2Z.inj_mul. fold y.
    apply (Qmult_inj_r _ _ (inject_Z (Z.of_N gn))); [lra|].
    setoid_replace (r * inject_Z 2 ^ exp * inject_Z (Z.of_N gn))%Q with (r * inject_Z (Z.of_N gn) * inject_Z 2 ^ exp)%Q by ring.
    rewrite Er, N2Z.inj_mul, inject_Z_mult. rewrite <- !Qmult_assoc. rewrite (Qmult_comm (inject_Z 10 ^ _)), G. reflexivity. }
  split.
  - apply (nearest_eq _ _ _ _ _ Ex). exact (r_nearest T mu n bad b K Hb Hb0 r Hup Hodd Hlow).
  - apply (clear_eq _ _ _ _ _ Ex). exact (r_clear T mu n bad b K Hb Hb0 r Hup Hodd Hlow).
Qed.
