(** The interval in which the printed digits lie, for one exponent.  [gn / gd] is the power of two
    divided by a power of ten, [t / 2^s] its approximation from the table. *)
From Coq Require Import Lia.
From Verif Require Import Base ScanModel IntModel DoubleModel RyuModel RyuShort.
Local Open Scope N_scope.

Lemma div_bounds x p : 0 < p -> x / p * p <= x < (x / p + 1) * p.
Proof.
  intros Hp. assert (E := N.div_mod x p ltac:(lia)). assert (B := N.mod_lt x p ltac:(lia)).
  revert E B. generalize (x / p). generalize (x mod p). intros r q E B. split; lia.
Qed.

Section Core.
Variables u v w t s gn gd mu n : N.
Let P := 2 ^ s.
Let M := 2 ^ (s - mu).
Let a := (u * t + 2 ^ (s - 1)) / P.
Let b := v * t / P.
Let c := w * t / P.

Hypothesis Hgd : 0 < gd.
Hypothesis Hlo : t * gd <= gn * P.
Hypothesis Hhi : gn * P < (t + 1) * gd.
Hypothesis HP : P <= t.
Hypothesis Hmu : 1 <= mu.
Hypothesis Hs : mu < s.
Hypothesis Huv : u < v.
Hypothesis Hvw : v + 2 = w.
Hypothesis Hu : 0 < u.
Hypothesis Herr : w * 2 <= M.

Lemma P_pos : 0 < P.
Proof. apply N.neq_0_lt_0, N.pow_nonzero. discriminate. Qed.

Lemma P_half : P = 2 * 2 ^ (s - 1).
Proof. unfold P. rewrite <- N.pow_succ_r by lia. f_equal. lia. Qed.

Lemma M_half : M <= 2 ^ (s - 1).
Proof. unfold M. apply N.pow_le_mono_r; lia. Qed.

Lemma P_M : P = 2 ^ mu * M.
Proof. unfold P, M. rewrite <- N.pow_add_r. f_equal. lia. Qed.

Lemma a_bounds : a * P <= u * t + 2 ^ (s - 1) < (a + 1) * P.
Proof. unfold a. apply div_bounds, P_pos. Qed.
Lemma b_bounds : b * P <= v * t < (b + 1) * P.
Proof. unfold b. apply div_bounds, P_pos. Qed.
Lemma c_bounds : c * P <= w * t < (c + 1) * P.
Proof. unfold c. apply div_bounds, P_pos. Qed.

Lemma upper y : y <= c -> y * gd <= w * gn.
Proof.
  intros Hy. assert (Hp := P_pos). apply (N.mul_le_mono_pos_r _ _ P Hp).
  assert (C := proj1 c_bounds). assert (H1 : y * P <= w * t) by (apply (N.le_trans _ (c * P)); [apply N.mul_le_mono_r; exact Hy|exact C]).
  apply (N.mul_le_mono_r _ _ gd) in H1. apply (N.mul_le_mono_l _ _ w) in Hlo.
  replace (y * gd * P) with (y * P * gd) by ring. replace (w * gn * P) with (w * (gn * P)) by ring.
  replace (w * t * gd) with (w * (t * gd)) in H1 by ring. lia.
Qed.

Lemma margin y : u * t + M <= y * P -> u * gn * (2 * 2 ^ mu) + gd <= y * gd * (2 * 2 ^ mu).
Proof.
  intros Hy. assert (Hp := P_pos). assert (Hm : 0 < M) by (apply N.neq_0_lt_0, N.pow_nonzero; discriminate).
  apply (N.mul_le_mono_pos_r _ _ M Hm).
  replace ((u * gn * (2 * 2 ^ mu) + gd) * M) with (2 * (u * gn * (2 ^ mu * M)) + gd * M) by ring.
  replace (y * gd * (2 * 2 ^ mu) * M) with (2 * (y * gd * (2 ^ mu * M))) by ring. rewrite <- P_M.
  apply (N.mul_le_mono_r _ _ gd) in Hy.
  assert (H1 : u * (gn * P) <= u * ((t + 1) * gd)) by (apply N.mul_le_mono_l; lia).
  assert (H2 : 2 * (u * gd) <= M * gd).
  { rewrite N.mul_assoc. apply N.mul_le_mono_r. lia. }
  replace (u * gn * P) with (u * (gn * P)) by ring. replace (y * gd * P) with (y * P * gd) by ring.
  replace (u * ((t + 1) * gd)) with (u * t * gd + u * gd) in H1 by ring.
  replace ((u * t + M) * gd) with (u * t * gd + M * gd) in Hy by ring. lia.
Qed.

Lemma exact_a L : u * gn = L * gd -> a = L.
Proof.
  intros HL. assert (Hp := P_pos). assert (E := P_half). assert (Hm := M_half).
  assert (H1 : u * (t * gd) <= u * (gn * P)) by (apply N.mul_le_mono_l; exact Hlo).
  assert (H2 : u * (gn * P) < u * ((t + 1) * gd)) by (apply N.mul_lt_mono_pos_l; assumption).
  replace (u * (gn * P)) with (L * P * gd) in * by (rewrite N.mul_assoc, HL; ring).
  replace (u * (t * gd)) with (u * t * gd) in H1 by ring. replace (u * ((t + 1) * gd)) with ((u * t + u) * gd) in H2 by ring.
  apply N.mul_le_mono_pos_r in H1; [|exact Hgd]. apply N.mul_lt_mono_pos_r in H2; [|exact Hgd].
  symmetry. unfold a. apply (N.div_unique _ P L (u * t + 2 ^ (s - 1) - P * L)); lia.
Qed.

Lemma a_lt_b : u + 2 = v -> a < b.
Proof.
  intros E. assert (Hp := P_pos). assert (A := proj1 a_bounds). assert (B := proj2 b_bounds). assert (Eh := P_half).
  destruct (N.lt_ge_cases a b) as [H|H]; [exact H|exfalso].
  assert (H1 : b * P <= a * P) by (apply N.mul_le_mono_r; exact H).
  replace (v * t) with (u * t + 2 * t) in B by (rewrite <- E; ring). lia.
Qed.

Lemma b_lt_c : b + 1 < c.
Proof.
  assert (Hp := P_pos). assert (B := proj1 b_bounds). assert (C := proj2 c_bounds).
  destruct (N.lt_ge_cases (b + 1) c) as [H|H]; [exact H|exfalso].
  assert (H1 : c * P <= (b + 1) * P) by (apply N.mul_le_mono_r; exact H).
  replace (w * t) with (v * t + 2 * t) in C by (rewrite <- Hvw; ring). lia.
Qed.

(** The last way in which the digits of a are taken. *)
Definition takes_a (i : N) : Prop := 1 <= i /\ a mod 10 ^ i = 0 /\ a + 10 ^ i <= c /\ 2 * (b + 1) <= 2 * a + 10 ^ i.

Lemma normal_takes_a i : u + 2 = v -> t < 500 * P ->
  (forall j, j = 5 \/ j = 50 \/ j = 500 -> 2 * t <= j * P \/ j * P + M <= 2 * t) ->
  takes_a i -> u * t + M <= a * P.
Proof.
  intros E Ht Hj (Hi & _ & H1 & H2). assert (Hp := P_pos).
  assert (A := proj1 a_bounds). assert (B := proj2 b_bounds). assert (C := proj1 c_bounds). assert (Eh := P_half).
  assert (Ev : v * t = u * t + 2 * t) by (rewrite <- E; ring). assert (Ew : w * t = u * t + 4 * t) by (rewrite <- Hvw, <- E; ring).
  rewrite Ev in B. rewrite Ew in C. clear Ev Ew.
  assert (H1' : (a + 10 ^ i) * P <= c * P) by (apply N.mul_le_mono_r; exact H1).
  assert (H2' : 2 * (b + 1) * P <= (2 * a + 10 ^ i) * P) by (apply N.mul_le_mono_r; exact H2).
  clear H1 H2. revert A B C H1' H2'. generalize a, b, c. intros a0 b0 c0 A B C H1 H2.
  assert (K1 : 10 ^ i * P <= 4 * t + 2 ^ (s - 1)) by lia.
  assert (Hi3 : i <= 3).
  { destruct (N.le_gt_cases i 3) as [X|X]; [exact X|exfalso].
    assert (10 ^ 4 <= 10 ^ i) by (apply N.pow_le_mono_r; lia). assert (10 ^ 4 * P <= 10 ^ i * P) by (apply N.mul_le_mono_r; assumption).
    change (10 ^ 4) with 10000 in *. lia. }
  assert (Hcase : i = 1 \/ i = 2 \/ i = 3) by lia. clear K1 Hi3 Hi Hlo Hhi.
  destruct Hcase as [->|[->| ->]].
  - specialize (Hj 5 ltac:(auto)). change (10 ^ 1) with 10 in *. lia.
  - specialize (Hj 50 ltac:(auto)). change (10 ^ 2) with 100 in *. lia.
  - specialize (Hj 500 ltac:(auto)). change (10 ^ 3) with 1000 in *. lia.
Qed.

(** How much of the interval there is. *)
Definition few_digits (gap : N) : Prop :=
  w * t < n * P \/ (13 * P <= gap * t /\ w * t < n * 10 * P) \/ (103 * P <= gap * t /\ w * t < n * 100 * P).

Lemma digits_bound gap i D c' : u + gap = w -> few_digits gap -> D * 10 ^ i <= c -> c - 1 <= c' ->
  (forall k, a + 10 ^ k <= c' -> k <= i) -> D < n.
Proof.
  intros Eg Hf HD Hc' Hk. assert (Hp := P_pos). assert (A := proj1 a_bounds). assert (C := c_bounds). assert (Eh := P_half).
  assert (Hbc := b_lt_c).
  assert (Ew : w * t = u * t + gap * t) by (rewrite <- Eg; ring).
  assert (G : forall k, w * t < n * 10 ^ k * P -> k <= i -> D < n).
  { intros k H1 H2. assert (H3 : D * 10 ^ k <= D * 10 ^ i) by (apply N.mul_le_mono_l, N.pow_le_mono_r; [discriminate|exact H2]).
    assert (H4 : D * 10 ^ k * P <= c * P) by (apply N.mul_le_mono_r; lia).
    assert (H5 : D * 10 ^ k * P < n * 10 ^ k * P) by lia. apply N.mul_lt_mono_pos_r in H5; [|exact Hp].
    apply N.mul_lt_mono_pos_r in H5; [exact H5|apply pow10_pos]. }
  assert (K : forall k, (10 ^ k + 3) * P <= gap * t -> k <= i).
  { intros k H. apply Hk. destruct C as [_ C]. rewrite Ew in C.
    destruct (N.le_gt_cases (a + 10 ^ k) c') as [X|X]; [exact X|exfalso].
    assert (X1 : (c + 1) * P <= (a + 10 ^ k + 1) * P) by (apply N.mul_le_mono_r; lia).
    revert A C H X1. generalize a, c, (10 ^ k). intros. lia. }
  destruct Hf as [H|[[H1 H2]|[H1 H2]]].
  - apply (G 0); [change (10 ^ 0) with 1; lia|lia].
  - apply (G 1); [exact H2|apply K; exact H1].
  - apply (G 2); [exact H2|apply K; exact H1].
Qed.

(** Where D * 10^i lies. *)
Lemma core (asm al tie even : bool) : a < b -> c < 2 ^ 64 ->
  (forall i, takes_a i -> u * t + M <= a * P) ->
  (asm = true -> even = true /\ exists L, u * gn = L * gd) ->
  exists i D, compute_shortest a b c asm al tie = Ok (Z.of_N i, D) /\ 0 < D /\
    D * 10 ^ i <= (if al then c else c - 1) /\
    D * 10 ^ i * gd <= w * gn /\
    (D * 10 ^ i * gd = u * gn /\ even = true \/ u * gn * (2 * 2 ^ mu) + gd <= D * 10 ^ i * gd * (2 * 2 ^ mu)) /\
    (forall k, a + 10 ^ k <= (if al then c else c - 1) -> k <= i) /\
    (i = 1 -> b mod 10 = 0 -> a / 10 < b / 10 -> D = b / 10).
Proof.
  intros Hab Hc Hta Hasm. assert (Hbc := b_lt_c). assert (Hp := P_pos). assert (Eh := P_half). assert (Mh := M_half).
  assert (Hut : u * t + t <= v * t) by (replace (u * t + t) with ((u + 1) * t) by ring; apply N.mul_le_mono_r; lia).
  assert (A := a_bounds). assert (B := b_bounds).
  destruct (N.eq_dec a 0) as [E0|E0].
  { exfalso. rewrite E0 in A. assert (t <= u * t) by (rewrite <- (N.mul_1_l t) at 1; apply N.mul_le_mono_r; lia). lia. }
  destruct (compute_shortest_spec a b c asm al tie _ eq_refl ltac:(lia) Hab ltac:(destruct al; lia) Hc)
    as (i & D & E & HD & HD0 & Hk & H1 & Hcase).
  exists i, D. split; [exact E|]. split; [exact HD0|]. split; [exact HD|].
  split; [apply upper; destruct al; lia|]. split; [|split; [exact Hk|exact H1]].
  destruct Hcase as [X|[X|[[X Ha]|(X & Hi & X1 & X2)]]].
  - right. apply margin. assert (Y : (b + 1) * P <= D * 10 ^ i * P) by (apply N.mul_le_mono_r; lia). lia.
  - right. apply margin. assert (Y : (a + 1) * P <= D * 10 ^ i * P) by (apply N.mul_le_mono_r; lia). lia.
  - left. destruct (Hasm Ha) as (He & L & HL). split; [|exact He]. rewrite X, HL. f_equal. apply exact_a, HL.
  - right. apply margin. rewrite X. apply (Hta i). split; [exact Hi|]. split; [|split; [destruct al; lia|exact X2]].
    rewrite <- X. apply N.mod_mul, N.pow_nonzero. discriminate.
Qed.
End Core.
