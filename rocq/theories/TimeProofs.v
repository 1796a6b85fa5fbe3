(** Time points: which instants survive writing and reading. *)
From Verif Require Import Base Tactics ScanModel IntModel NumSpec IntProofs TimeModel TimeSpec.
From Coq Require Import Lia ZArith.
Local Open Scope Z_scope.
Ltac Zify.zify_post_hook ::= Z.to_euclidean_division_equations.

Lemma double_bounds t : 2 ^ 53 <= t -> 2 ^ Z.log2 t <= u64_to_double t <= 2 ^ (Z.log2 t + 1).
Proof.
  intros H. assert (L : 53 <= Z.log2 t) by (apply (Z.log2_le_mono (2 ^ 53)); exact H).
  destruct (Z.log2_spec t ltac:(lia)) as [A B]. unfold u64_to_double.
  rewrite Z.max_r by lia. set (l := Z.log2 t) in *. set (u := 2 ^ (l - 52)).
  assert (Hu : 0 < u) by (apply Z.pow_pos_nonneg; lia).
  assert (E : 2 ^ l = u * 2 ^ 52) by (unfold u; rewrite <- Z.pow_add_r by lia; f_equal; lia).
  assert (F : 2 ^ (l + 1) = u * 2 ^ 53) by (unfold u; rewrite <- Z.pow_add_r by lia; f_equal; lia).
  replace (Z.succ l) with (l + 1) in B by lia. rewrite E in A. rewrite F in B.
  assert (Q1 : 2 ^ 52 <= t / u) by (apply Z.div_le_lower_bound; lia).
  assert (Q2 : t / u < 2 ^ 53) by (apply Z.div_lt_upper_bound; lia).
  rewrite E, F. set (q := t / u) in *. clearbody q.
  split; apply Z.mul_le_mono_nonneg_l; try lia;
    destruct (2 * (t mod u) <? u), (u <? 2 * (t mod u)), (Z.even q); lia.
Qed.
Lemma double_small t : 0 <= t < 2 ^ 53 -> u64_to_double t = t.
Proof.
  intros H. unfold u64_to_double.
  assert (L : Z.log2 t - 52 <= 0).
  { destruct (Z.eq_dec t 0) as [->|]; [vm_compute; discriminate|]. apply Z.le_sub_0.
    assert (Z.log2 t < 53) by (apply Z.log2_lt_pow2; lia). lia. }
  rewrite Z.max_l by exact L. change (2 ^ 0) with 1. rewrite Z.div_1_r, Z.mod_1_r.
  replace (2 * 0 <? 1) with true by reflexivity. lia.
Qed.
Lemma double_le_small t c : 0 <= t -> c < 2 ^ 53 -> (u64_to_double t <=? c) = (t <=? c).
Proof.
  intros H Hc. destruct (Z.ltb_spec t (2 ^ 53)) as [L|L].
  - rewrite double_small by lia. reflexivity.
  - assert (2 ^ 53 <= 2 ^ Z.log2 t) by (apply Z.pow_le_mono_r; [lia|]; apply (Z.log2_le_mono (2 ^ 53)); exact L).
    pose proof (double_bounds t L). lia.
Qed.
Lemma double_le_17 t : 0 <= t -> (u64_to_double t <=? 10 ^ 17) = (t <=? 10 ^ 17 + 8).
Proof.
  intros H. destruct (Z.ltb_spec t (2 ^ 53)) as [L|L]; [rewrite double_small by lia; lia|].
  pose proof (double_bounds t L) as D.
  destruct (Z.ltb_spec t (2 ^ 56)) as [A|A].
  - assert (Z.log2 t + 1 <= 56). { assert (Z.log2 t < 56) by (apply Z.log2_lt_pow2; lia). lia. }
    assert (2 ^ (Z.log2 t + 1) <= 2 ^ 56) by (apply Z.pow_le_mono_r; lia). lia.
  - destruct (Z.ltb_spec t (2 ^ 57)) as [C|C].
    + assert (Z.log2 t = 56) by (apply Z.log2_unique; lia). unfold u64_to_double. rewrite H0.
      change (2 ^ Z.max 0 (56 - 52)) with 16. pose proof (Zmod_even (t / 16)) as Ev.
      destruct (Z.ltb_spec (2 * (t mod 16)) 16); [lia|].
      destruct (Z.ltb_spec 16 (2 * (t mod 16))); [lia|]. destruct (Z.even (t / 16)); lia.
    + assert (57 <= Z.log2 t) by (apply (Z.log2_le_mono (2 ^ 57)); exact C).
      assert (2 ^ 57 <= 2 ^ Z.log2 t) by (apply Z.pow_le_mono_r; lia). lia.
Qed.
Lemma double_le_20 t : 0 <= t < 2 ^ 64 -> (u64_to_double t <=? 10 ^ 20) = true.
Proof.
  intros H. destruct (Z.ltb_spec t (2 ^ 53)) as [L|L]; [rewrite double_small by lia; lia|].
  pose proof (double_bounds t L) as D.
  assert (Z.log2 t < 64) by (apply Z.log2_lt_pow2; lia).
  assert (2 ^ (Z.log2 t + 1) <= 2 ^ 64) by (apply Z.pow_le_mono_r; lia). lia.
Qed.

Lemma drop_spec c : 0 <= c < 2 ^ 64 -> exists k t,
  drop_thousands 8 c = Ok t /\ (k <= 4)%nat /\ c = t * 1000 ^ Z.of_nat k /\
  (k = 0%nat \/ 10 ^ 10 < t * 1000) /\ (t mod 1000 <> 0 \/ t <= 10 ^ 10).
Proof.
  intros H.
  assert (G : forall n f x, (n < f)%nat -> 0 <= x <= 10 ^ 10 * 1000 ^ Z.of_nat n -> exists k t,
    drop_thousands f x = Ok t /\ (k <= n)%nat /\ x = t * 1000 ^ Z.of_nat k /\
    (k = 0%nat \/ 10 ^ 10 < t * 1000) /\ (t mod 1000 <> 0 \/ t <= 10 ^ 10)).
  { induction n as [|n IH]; intros [|f] x Hf Hx; [lia| |lia|].
    - exists 0%nat, x. cbn [drop_thousands]. replace (10 ^ 10 <? x) with false by lia.
      rewrite andb_false_r. split; [reflexivity|]. split; [lia|]. split; [lia|]. split; [left; reflexivity|right; lia].
    - cbn [drop_thousands]. destruct ((x mod 1000 =? 0) && (10 ^ 10 <? x)) eqn:E.
      + apply andb_prop in E. destruct E as [E1 E2]. apply Z.eqb_eq in E1. apply Z.ltb_lt in E2.
        assert (P : 1000 ^ Z.of_nat (S n) = 1000 * 1000 ^ Z.of_nat n) by (rewrite Nat2Z.inj_succ, Z.pow_succ_r; lia).
        rewrite P in Hx. set (w := 1000 ^ Z.of_nat n) in *.
        destruct (IH f (x / 1000) ltac:(lia) ltac:(clearbody w; lia)) as (k & t & A & B & C & D & F).
        exists (S k), t. split; [exact A|]. split; [lia|].
        assert (x = x / 1000 * 1000) by lia.
        assert (Q : 1000 ^ Z.of_nat (S k) = 1000 ^ Z.of_nat k * 1000) by (rewrite Nat2Z.inj_succ, Z.pow_succ_r; lia).
        split; [rewrite Q, Z.mul_assoc, <- C; exact H0|]. split; [|exact F].
        right. destruct D as [->|D]; [|exact D]. rewrite Z.pow_0_r, Z.mul_1_r in C. lia.
      + exists 0%nat, x. split; [reflexivity|]. split; [lia|]. split; [lia|]. split; [left; reflexivity|].
        apply andb_false_iff in E. lia. }
  apply (G 4%nat 8%nat); [lia|]. change (10 ^ 10 * 1000 ^ Z.of_nat 4) with (10 ^ 22). lia.
Qed.

(** ** The round trip *)

Lemma uint64_text t : 0 <= t < 2 ^ 64 -> exists text,
  int_from T_uint64 t = Some text /\ int_to T_uint64 text = Ok (NoError, t).
Proof.
  intros H. destruct (int_round_trip T_uint64 t) as (x & A & _ & B); [right; right; right; left; reflexivity| |exists x; auto].
  change (i_min T_uint64) with 0. change (i_max T_uint64) with (2 ^ 64 - 1). lia.
Qed.

(** What reading the number [t] gives. *)
Definition read_time (hr : bool) (p t old : Z) : outcome (error * Z) :=
  let store ticks := let* v := from_unit ticks t in Ok (NoError, v) in
  if t <=? 10 ^ 11 then store (1000000 * p)
  else if t <=? 10 ^ 14 then store (1000 * p)
  else if t <=? 10 ^ 17 + 8 then store p
  else if hr then store (p / 1000) else Ok (IllegalDataValue, old).
Lemma time_to_read hr p text t old : int_to T_uint64 text = Ok (NoError, t) -> 0 <= t < 2 ^ 64 ->
  time_to hr p text old = read_time hr p t old.
Proof.
  intros E H. unfold time_to, read_time. rewrite E. cbn [obind].
  rewrite (double_le_small t (10 ^ 11)), (double_le_small t (10 ^ 14)), double_le_17, double_le_20 by lia.
  reflexivity.
Qed.

Definition round_trips (hr : bool) (p n : Z) : Prop :=
  exists text, time_from hr p n = Ok (Some text) /\ forall old, time_to hr p text old = Ok (NoError, n).

Lemma from_unit_iff ticks t n : (let* v := from_unit ticks t in Ok (NoError, v)) = Ok (NoError, n) <->
  n = int64 t * ticks /\ - 2 ^ 63 <= n < 2 ^ 63.
Proof.
  unfold from_unit, fits_int64. cbv zeta.
  destruct ((- 2 ^ 63 <=? int64 t * ticks) && (int64 t * ticks <? 2 ^ 63)) eqn:E; cbn [obind].
  - split; [intros [= <-]|intros [-> _]; reflexivity]. split; [reflexivity|lia].
  - split; [discriminate|]. intros [-> H]. lia.
Qed.
Lemma int64_small t : 0 <= t < 2 ^ 63 -> int64 t = t.
Proof. intros H. unfold int64. rewrite Z.mod_small by lia. replace (t <? 2 ^ 63) with true by lia. reflexivity. Qed.
Lemma int64_big t : 2 ^ 63 <= t < 2 ^ 64 -> int64 t = t - 2 ^ 64.
Proof. intros H. unfold int64. rewrite Z.mod_small by lia. replace (t <? 2 ^ 63) with false by lia. reflexivity. Qed.

Lemma round_trips_iff (hr : bool) p n c k t :
  c = (if hr then n * 1000 / p else Z.quot n p) mod 2 ^ 64 -> drop_thousands 8 c = Ok t ->
  c = t * 1000 ^ Z.of_nat k -> 0 <= c < 2 ^ 64 -> 0 <= t ->
  (round_trips hr p n <-> read_time hr p t 0 = Ok (NoError, n)).
Proof.
  intros Ec Ed Ek Hc Ht0.
  assert (Ht : 0 <= t < 2 ^ 64).
  { assert (1 <= 1000 ^ Z.of_nat k) by (apply Z.pow_le_mono_r with (b := 0) (c := Z.of_nat k) (a := 1000); lia).
    split; [lia|]. nia. }
  destruct (uint64_text t Ht) as (text & A & B).
  unfold round_trips, time_from. rewrite <- Ec, Ed. cbn [obind]. rewrite A.
  split.
  - intros (x & [= <-] & H). specialize (H 0). rewrite (time_to_read _ _ _ t) in H; auto.
  - intros H. exists text. split; [reflexivity|]. intros old. rewrite (time_to_read _ _ _ t) by auto.
    revert H. unfold read_time. repeat match goal with |- context [if ?b then _ else _] => destruct b end; auto; discriminate.
Qed.

Ltac k_cases k := destruct k as [|[|[|[|[|k]]]]]; [| | | | |lia];
  repeat match goal with
  | H : context [1000 ^ Z.of_nat ?x] |- _ => let v := eval vm_compute in (1000 ^ Z.of_nat x) in change (1000 ^ Z.of_nat x) with v in H
  end.
Ltac read_cases := unfold read_time;
  repeat match goal with
  | |- context [if ?t <=? ?c then _ else _] => destruct (Z.leb_spec t c)
  end.

Lemma ns_round_trips n : - 2 ^ 63 <= n < 2 ^ 63 -> (round_trips true 1000 n <-> survives_ns n = true).
Proof.
  intros Hn. set (c := n mod 2 ^ 64). assert (Hc : 0 <= c < 2 ^ 64) by (unfold c; lia).
  destruct (drop_spec c Hc) as (k & t & A & B & C & D & F).
  assert (Ht : 0 <= t) by (assert (0 < 1000 ^ Z.of_nat k) by (apply Z.pow_pos_nonneg; lia); nia).
  rewrite (round_trips_iff true 1000 n c k t); auto; [|unfold c; rewrite Z.div_mul by lia; reflexivity].
  assert (Ec : c = if n <? 0 then 2 ^ 64 + n else n) by (unfold c; destruct (Z.ltb_spec n 0); lia).
  clearbody c. unfold survives_ns, multiple.
  destruct (Z.ltb_spec n 0) as [L|L]; rewrite <- ?Ec; k_cases k; read_cases;
    change (1000 / 1000) with 1; change (1000000 * 1000) with (10 ^ 9); change (1000 * 1000) with (10 ^ 6);
    try (exfalso; lia); rewrite from_unit_iff; try (rewrite int64_small by lia); try (rewrite int64_big by lia); lia.
Qed.

Lemma us_round_trips p n : 0 < p -> - 2 ^ 63 <= n < 2 ^ 63 ->
  (round_trips false p n <-> multiple p n && survives_us (n / p) = true).
Proof.
  intros Hp Hn. set (m := Z.quot n p).
  assert (Hm : - 2 ^ 63 <= m < 2 ^ 63).
  { assert (Z.abs m <= Z.abs n) by (unfold m; rewrite <- Z.quot_abs by lia; apply Z.quot_le_upper_bound; nia).
    destruct (Z.eq_dec m (2 ^ 63)) as [E|]; [|lia].
    assert (0 <= n \/ n < 0) as [G|G] by lia; [lia|].
    assert (m <= 0); [|lia]. unfold m. replace n with (- (- n)) by lia. rewrite Z.quot_opp_l by lia.
    assert (0 <= Z.quot (- n) p) by (apply Z.quot_pos; lia). lia. }
  set (c := m mod 2 ^ 64). assert (Hc : 0 <= c < 2 ^ 64) by (unfold c; lia).
  destruct (drop_spec c Hc) as (k & t & A & B & C & D & F).
  assert (Ht : 0 <= t) by (assert (0 < 1000 ^ Z.of_nat k) by (apply Z.pow_pos_nonneg; lia); nia).
  rewrite (round_trips_iff false p n c k t) by auto.
  assert (Ec : c = if m <? 0 then 2 ^ 64 + m else m) by (unfold c; destruct (Z.ltb_spec m 0); lia).
  clearbody c.
  assert (U : forall j, (let* v := from_unit (j * p) t in Ok (NoError, v)) = Ok (NoError, n) <->
                        n mod p = 0 /\ m = int64 t * j).
  { intros j. rewrite from_unit_iff. split.
    - intros [E _]. rewrite Z.mul_assoc in E. split; [rewrite E; apply Z.mod_mul; lia|].
      unfold m. rewrite E. apply Z.quot_mul. lia.
    - intros [E F']. split; [|exact Hn]. rewrite Z.mul_assoc, <- F'. unfold m.
      apply Z.mod_divide in E; [|lia]. destruct E as [q ->]. rewrite Z.quot_mul by lia. reflexivity. }
  assert (U1 : (let* v := from_unit p t in Ok (NoError, v)) = Ok (NoError, n) <-> n mod p = 0 /\ m = int64 t * 1).
  { rewrite <- U. rewrite Z.mul_1_l. reflexivity. }
  unfold multiple at 1. destruct (Z.eqb_spec (n mod p) 0) as [E|E].
  2:{ cbn [andb]. split; [|discriminate]. read_cases; rewrite ?U, ?U1; [intros [? _]; contradiction..|discriminate]. }
  cbn [andb]. replace (n / p) with m; [|apply Z.mod_divide in E; [|lia]; destruct E as [q ->]; unfold m; rewrite Z.quot_mul, Z.div_mul by lia; reflexivity].
  assert (I : forall j, n mod p = 0 /\ m = int64 t * j <-> m = int64 t * j) by (intros j; tauto).
  assert (V : forall j, (let* v := from_unit (j * p) t in Ok (NoError, v)) = Ok (NoError, n) <-> m = int64 t * j)
    by (intros j; rewrite U; apply I).
  assert (V1 : (let* v := from_unit p t in Ok (NoError, v)) = Ok (NoError, n) <-> m = int64 t * 1)
    by (rewrite U1; apply I).
  clear U U1 I A. clearbody m. unfold survives_us, multiple.
  destruct (Z.ltb_spec m 0) as [L|L]; k_cases k; read_cases; rewrite ?V, ?V1; clear V V1;
    try (exfalso; lia); try (rewrite int64_small by lia); try lia;
    (split; [discriminate|]; clear Hp Hn E; lia).
Qed.

Lemma time_round_trips hr p n : 0 < p -> (hr = true -> p = 1000) -> - 2 ^ 63 <= n < 2 ^ 63 ->
  (round_trips hr p n <-> survives hr p n = true).
Proof.
  intros Hp Hh Hn. unfold survives. destruct hr.
  - rewrite Hh by reflexivity. apply ns_round_trips, Hn.
  - apply us_round_trips; assumption.
Qed.
