(** What is known about every exponent, and the digits chosen for it. *)
From Coq Require Import Lia Znumtheory Zpow_facts.
From Verif Require Import Base ScanModel IntModel DoubleModel RyuTable RyuModel RyuMul RyuShort RyuCore RyuExp.
Local Open Scope N_scope.

(** [2^exp] over the power of ten is gnum / gden. *)
Definition gnum (exp q : Z) : N := if (0 <=? exp)%Z then 2 ^ Z.to_N (exp - q) else 5 ^ Z.to_N (- exp - q).
Definition gden (exp q : Z) : N := if (0 <=? exp)%Z then 5 ^ Z.to_N q else 2 ^ Z.to_N q.

Definition lowest (T : finfo) : Z := (1 - bias T - mentissa_width T - 2)%Z.
Definition highest (T : finfo) : Z := (2 ^ exponent_width T - 2 - bias T - mentissa_width T - 2)%Z.

Record checked (T : finfo) (mu n : N) (bad : Z) : Prop := mkChecked {
  ck_rows : forall exp, (lowest T <= exp <= highest T)%Z -> check_row T mu n bad exp = true;
  ck_ge : check_entries (check_ge T) 0 1 (greater_than_equals T) = true;
  ck_lt : check_entries (check_lt T) 0 1 (less_than T) = true;
  ck_mu : 1 <= mu;
  ck_width : (1 <= mentissa_width T <= 52)%Z;
  ck_exp : (2 <= exponent_width T <= 11)%Z;
  ck_5 : (0 <= max_5_pow T < 27)%Z;
  ck_5_top : 2 ^ Z.to_N (mentissa_width T + 3) < 2 * 5 ^ Z.to_N (max_5_pow T + 1);
  ck_2 : (1 <= max_2_pow T)%Z }.

Lemma double_checked : checked double_info 40 (10 ^ 17) (-194).
Proof.
  constructor; cbn [mentissa_width exponent_width max_5_pow max_2_pow double_info]; try lia.
  - intros exp H. apply (all_from_spec _ _ _ double_rows). change (lowest double_info) with (-1076)%Z in H.
    change (highest double_info) with 969%Z in H. lia.
  - exact double_ge.
  - exact double_lt.
  - reflexivity.
Qed.

Lemma float_checked : checked float_info 20 (10 ^ 9) (-1000).
Proof.
  constructor; cbn [mentissa_width exponent_width max_5_pow max_2_pow float_info]; try lia.
  - intros exp H. apply (all_from_spec _ _ _ float_rows). change (lowest float_info) with (-151)%Z in H.
    change (highest float_info) with 102%Z in H. lia.
  - exact float_ge.
  - exact float_lt.
  - reflexivity.
Qed.

Lemma gden_pos exp q : 0 < gden exp q.
Proof. unfold gden. destruct (0 <=? exp)%Z; apply N.neq_0_lt_0, N.pow_nonzero; discriminate. Qed.

(** [mwv] is the mantissa of a power of two, times four. *)
Definition mwv (T : finfo) : N := 2 ^ Z.to_N (mentissa_width T + 2).

Record row_ok (T : finfo) (mu n : N) (bad exp q : Z) (s t : N) : Prop := mkRow {
  ro_q : (0 <= q <= Z.abs exp)%Z;
  ro_q0 : (exp < -2)%Z -> (0 < q)%Z;
  ro_lo : t * gden exp q <= gnum exp q * 2 ^ s;
  ro_hi : gnum exp q * 2 ^ s < (t + 1) * gden exp q;
  ro_P : 2 ^ s <= t;
  ro_500 : t < 500 * 2 ^ s;
  ro_64 : 2 * mwv T * t + 2 ^ s <= 2 ^ (64 + s);
  ro_mu : mu < s;
  ro_err : 2 * (2 * mwv T) <= 2 ^ (s - mu);
  ro_close : forall j, j = 5 \/ j = 50 \/ j = 500 -> 2 * t <= j * 2 ^ s \/ j * 2 ^ s + 2 ^ (s - mu) <= 2 * t;
  ro_few : few_digits (2 * mwv T) t s n 4;
  ro_few2 : few_digits (mwv T + 2) t s n 3;
  ro_ab : ((mwv T - 1) * t + 2 ^ (s - 1)) / 2 ^ s < mwv T * t / 2 ^ s;
  ro_pow : exp <> bad -> forall i, takes_a (mwv T - 1) (mwv T) (mwv T + 2) t s i ->
    (mwv T - 1) * t + 2 ^ (s - mu) <= ((mwv T - 1) * t + 2 ^ (s - 1)) / 2 ^ s * 2 ^ s }.

Lemma check_few_spec w t s n gap : check_few w t (2 ^ s) n gap = true -> few_digits w t s n gap.
Proof.
  unfold check_few, few_digits. cbv zeta. intros H. rewrite !orb_true_iff, !andb_true_iff, !N.ltb_lt, !N.leb_le in H.
  destruct H as [[H|[H1 H2]]|[H1 H2]]; [left|right; left|right; right]; lia.
Qed.

Lemma mwv_split T : (1 <= mentissa_width T)%Z -> 8 <= mwv T.
Proof. intros H. unfold mwv. change 8 with (2 ^ 3). apply N.pow_le_mono_r; [discriminate|lia]. Qed.

Lemma takes_a_small u v w t s i : u < w -> w <= u + 3 -> 2 ^ s <= t -> t < 500 * 2 ^ s -> 1 <= s ->
  takes_a u v w t s i -> i = 1 \/ i = 2 \/ i = 3.
Proof.
  intros Hu Hw HP Ht Hs (Hi & _ & H1 & _). destruct (N.le_gt_cases i 3) as [X|X]; [lia|exfalso].
  assert (Hp : 0 < 2 ^ s) by (apply N.neq_0_lt_0, N.pow_nonzero; discriminate).
  assert (H10 : 10 ^ 4 <= 10 ^ i) by (apply N.pow_le_mono_r; lia). change (10 ^ 4) with 10000 in H10.
  assert (A := div_bounds (u * t + 2 ^ (s - 1)) (2 ^ s) Hp). assert (C := div_bounds (w * t) (2 ^ s) Hp).
  set (a := (u * t + 2 ^ (s - 1)) / 2 ^ s) in *. set (c := w * t / 2 ^ s) in *.
  assert (H2 : (a + 10000) * 2 ^ s <= c * 2 ^ s) by (apply N.mul_le_mono_r; lia).
  assert (H3 : w * t <= (u + 3) * t) by (apply N.mul_le_mono_r; exact Hw).
  clearbody a c. lia.
Qed.

Lemma pow2_pos k : 0 < 2 ^ k.
Proof. apply N.neq_0_lt_0, N.pow_nonzero. discriminate. Qed.

Lemma row_table T mu n bad exp q s ws : checked T mu n bad -> row T exp = (q, s, Some ws) -> (0 <= q <= Z.abs exp)%Z -> (0 < s)%Z ->
  (if (0 <=? exp)%Z then k_ge T q = k_ge_fast T q else k_lt T (- exp - q) = k_lt_fast T (- exp - q)) ->
  wval ws * gden exp q <= gnum exp q * 2 ^ Z.to_N s /\ gnum exp q * 2 ^ Z.to_N s < (wval ws + 1) * gden exp q.
Proof.
  intros K Erow Hq Hs Ek. unfold row in Erow. unfold gnum, gden. destruct (Z.leb_spec 0 exp) as [He|He].
  - injection Erow as E1 E2 E3. rewrite E1 in E2, E3. assert (X := check_entries_nth _ _ _ _ (ck_ge _ _ _ _ K) _ _ E3).
    rewrite Z.add_0_l, N.mul_1_l, Z2Nat.id, Z_nat_N in X by lia. unfold check_ge in X. cbv zeta in X.
    apply andb_prop in X. destruct X as [X X3]. apply andb_prop in X. destruct X as [X1 X2].
    apply Z.leb_le in X1. apply N.leb_le in X2. apply N.ltb_lt in X3. rewrite <- Ek in X1, X2, X3.
    rewrite <- N.pow_add_r. replace (Z.to_N (exp - q) + Z.to_N s) with (Z.to_N (k_ge T q)) by lia. lia.
  - injection Erow as E1 E2 E3. rewrite E1 in E2, E3. assert (X := check_entries_nth _ _ _ _ (ck_lt _ _ _ _ K) _ _ E3).
    rewrite Z.add_0_l, N.mul_1_l, Z2Nat.id, Z_nat_N in X by lia. unfold check_lt in X. cbv zeta in X.
    apply andb_prop in X. destruct X as [X2 X3].
    apply N.leb_le in X2. apply N.ltb_lt in X3. rewrite <- Ek in X2, X3. rewrite !N.shiftl_mul_pow2 in X2, X3.
    set (k := k_lt T (- exp - q)) in *. set (p := 5 ^ Z.to_N (- exp - q)) in *. set (t := wval ws) in *.
    clearbody k p t.
    assert (Hr := pow2_pos (Z.to_N (q - Z.max 0 k))).
    assert (R1 : 2 ^ Z.to_N q = 2 ^ Z.to_N k * 2 ^ Z.to_N (q - Z.max 0 k)) by (rewrite <- N.pow_add_r; f_equal; lia).
    assert (R2 : 2 ^ Z.to_N s = 2 ^ Z.to_N (- k) * 2 ^ Z.to_N (q - Z.max 0 k)) by (rewrite <- N.pow_add_r; f_equal; lia).
    rewrite R1, R2. rewrite !N.mul_assoc. split; [apply N.mul_le_mono_r; exact X2|].
    apply N.mul_lt_mono_pos_r; [exact Hr|]. lia.
Qed.

Lemma row_facts T mu n bad exp : checked T mu n bad -> (lowest T <= exp <= highest T)%Z ->
  exists q s ws, row T exp = (q, s, Some ws) /\ (0 < s < 192)%Z /\ (s mod 64 <> 0)%Z /\ words64 ws /\
    (length ws = 1 \/ length ws = 2)%nat /\ row_ok T mu n bad exp q (Z.to_N s) (wval ws).
Proof.
  intros K Hr. assert (H := ck_rows _ _ _ _ K exp Hr). unfold check_row in H.
  destruct (row_fast T exp) as [[[[] q] s] [ws|]] eqn:E; try discriminate H.
  destruct (row_fast_eq _ _ _ _ _ E) as [Erow Ek].
  set (t := wval ws) in *. cbv zeta in H. fold (mwv T) in H.
  repeat match type of H with _ && _ = true => let H' := fresh "H" in apply andb_prop in H; destruct H as [H H'] end.
  rename H into Hw.
  exists q, s, ws. split; [exact Erow|].
  match goal with X : (0 <? s)%Z = true |- _ => apply Z.ltb_lt in X; rename X into Hs0 end.
  match goal with X : (s <? 192)%Z = true |- _ => apply Z.ltb_lt in X; rename X into Hs1 end.
  match goal with X : negb (s mod 64 =? 0)%Z = true |- _ => apply negb_true_iff, Z.eqb_neq in X; rename X into Hs2 end.
  match goal with X : (0 <=? q)%Z = true |- _ => apply Z.leb_le in X; rename X into Hq0 end.
  match goal with X : (q <=? Z.abs exp)%Z = true |- _ => apply Z.leb_le in X; rename X into Hq1 end.
  match goal with X : (2 ^ Z.to_N s <=? t) = true |- _ => apply N.leb_le in X; rename X into HP end.
  match goal with X : (t <? 2 ^ Z.to_N s * 500) = true |- _ => apply N.ltb_lt in X; rename X into H500 end.
  match goal with X : (2 * mwv T * t + 2 ^ Z.to_N s <=? _) = true |- _ => apply N.leb_le in X; rename X into H64 end.
  match goal with X : (mu <? _) = true |- _ => apply N.ltb_lt in X; rename X into Hmu end.
  match goal with X : (2 * (2 * mwv T) <=? _) = true |- _ => apply N.leb_le in X; rename X into Herr end.
  match goal with X : (_ || _ || (-2 <=? exp)%Z) = true |- _ => rename X into Hq2 end.
  match goal with X : check_few (2 * mwv T) _ _ _ _ = true |- _ => apply check_few_spec in X; rename X into F1 end.
  match goal with X : check_few (mwv T + 2) _ _ _ _ = true |- _ => apply check_few_spec in X; rename X into F2 end.
  match goal with X : check_power _ _ _ _ _ = true |- _ => rename X into Hpow end.
  match goal with X : forallb (fun j => _ || _) _ = true |- _ => rename X into Hclose end.
  match goal with X : Nat.eqb _ 1 || _ = true |- _ => rename X into Hlen end.
  split; [lia|]. split; [exact Hs2|].
  assert (Hw64 : words64 ws).
  { apply Forall_forall. intros x Hx. rewrite forallb_forall in Hw. apply N.ltb_lt, Hw, Hx. }
  split; [exact Hw64|].
  split; [apply orb_true_iff in Hlen; destruct Hlen as [X|X]; apply Nat.eqb_eq in X; auto|].
  assert (W8 := mwv_split T (proj1 (ck_width _ _ _ _ K))).
  assert (Hm1 := ck_mu _ _ _ _ K).
  assert (Ex : (mwv T - 1) * t = mwv T * t - t) by (rewrite N.mul_sub_distr_r, N.mul_1_l; reflexivity).
  unfold check_power in Hpow. cbv zeta in Hpow. rewrite !N.shiftr_div_pow2, N.shiftl_mul_pow2, <- Ex in Hpow.
  apply andb_prop in Hpow. destruct Hpow as [Hab Hpow]. apply N.ltb_lt in Hab.
  assert (Tab := row_table T mu n bad exp q s ws K Erow (conj Hq0 Hq1) Hs0 Ek). fold t in Tab.
  change (wval ws) with t. clearbody t. constructor; try assumption.
  - split; assumption.
  - intros Hlt. destruct (Z.leb_spec 0 exp); [lia|]. destruct (Z.ltb_spec 0 q); [assumption|]. destruct (Z.leb_spec (-2) exp); [lia|discriminate Hq2].
  - exact (proj1 Tab).
  - exact (proj2 Tab).
  - clear - H500. lia.
  - intros j Hj. rewrite forallb_forall in Hclose. assert (In j [5; 50; 500]) as Hin by (cbn; intuition).
    specialize (Hclose j Hin). apply orb_true_iff in Hclose. rewrite !N.leb_le in Hclose. clear - Hclose. lia.
  - intros Hb i Hi. destruct (Z.eqb_spec exp bad) as [X|_]; [contradiction|]. cbn [orb] in Hpow.
    apply orb_true_iff in Hpow. destruct Hpow as [X|X]; [apply N.leb_le in X; exact X|]. exfalso.
    rewrite forallb_forall in X.
    assert (Hi' : i = 1 \/ i = 2 \/ i = 3) by (eapply (takes_a_small (mwv T - 1) (mwv T) (mwv T + 2) t (Z.to_N s)); try eassumption; clear - W8 Hs0 H500; lia).
    destruct Hi as (_ & I1 & I2 & I3).
    assert (Hin : In (10 ^ i) [10; 100; 1000]) by (destruct Hi' as [->|[->| ->]]; cbn; auto).
    specialize (X _ Hin). apply negb_true_iff in X. rewrite I1 in X. change (0 =? 0) with true in X. cbn [andb] in X.
    apply N.leb_le in I2. apply N.leb_le in I3. rewrite I2, I3 in X. discriminate X.
Qed.
