(** The decimal number that decode chooses. *)
From Coq Require Import Lia Znumtheory Zpow_facts.
From Verif Require Import Base ScanModel IntModel DoubleModel RyuTable RyuModel RyuMul RyuShort RyuCore RyuExp RyuRow.
Local Open Scope N_scope.

Lemma pow_loop_spec : forall k, 5 ^ (N.of_nat k + 1) < 2 ^ 64 -> pow_loop 5 k = 5 ^ (N.of_nat k + 1).
Proof.
  induction k as [|k IH]; intros H; [reflexivity|]. cbn [pow_loop].
  replace (N.of_nat (S k) + 1) with (1 + (N.of_nat k + 1)) in * by lia. rewrite (N.pow_add_r 5 1 (N.of_nat k + 1)) in *. change (5 ^ 1) with 5 in *.
  rewrite IH by (revert H; generalize (5 ^ (N.of_nat k + 1)); intros; lia). unfold u64. rewrite N.mul_comm, N.mod_small by exact H. reflexivity.
Qed.

Lemma pow_int_spec q : (0 <= q < 27)%Z -> pow_int 5 q = 5 ^ Z.to_N q.
Proof.
  intros Hq. unfold pow_int. destruct (Z.leb_spec q 0); [replace q with 0%Z by lia; reflexivity|].
  assert (Hb : 5 ^ (N.of_nat (Z.to_nat (q - 1)) + 1) < 2 ^ 64).
  { apply (N.le_lt_trans _ (5 ^ 27)); [apply N.pow_le_mono_r; [discriminate|lia]|reflexivity]. }
  rewrite pow_loop_spec by exact Hb. f_equal. lia.
Qed.

Lemma land_ones_zero x k : N.land x (2 ^ k - 1) = x mod 2 ^ k.
Proof. rewrite N.sub_1_r, <- N.ones_equiv. apply N.land_ones. Qed.

(** A power of five and a power of two have no common factor. *)
Lemma divides_cancel x a b (i j y : N) : (a = 2 /\ b = 5 \/ a = 5 /\ b = 2) -> y * a ^ i = x * b ^ j -> x mod a ^ i = 0.
Proof.
  intros Hab H.
  assert (Hr : rel_prime (Z.of_N a ^ Z.of_N i) (Z.of_N b ^ Z.of_N j)).
  { apply rel_prime_Zpower; [lia|lia|]. destruct Hab as [[-> ->]|[-> ->]]; apply Zgcd_1_rel_prime; reflexivity. }
  assert (Hd : (Z.of_N a ^ Z.of_N i | Z.of_N b ^ Z.of_N j * Z.of_N x)%Z).
  { exists (Z.of_N y). apply (f_equal Z.of_N) in H. rewrite !N2Z.inj_mul, !N2Z.inj_pow in H. lia. }
  apply (Gauss _ _ _ Hd) in Hr. apply N2Z.inj. rewrite N2Z.inj_mod, N2Z.inj_pow.
  apply Z.mod_divide; [|exact Hr]. destruct Hab as [[-> _]|[-> _]]; apply Z.pow_nonzero; lia.
Qed.

Lemma few_le w w' t s n gap : w <= w' -> few_digits w' t s n gap -> few_digits w t s n gap.
Proof.
  intros H Hf. assert (Hm : w * t <= w' * t) by (apply N.mul_le_mono_r; exact H).
  unfold few_digits in *. destruct Hf as [X|[[X Y]|[X Y]]]; [left|right; left|right; right]; lia.
Qed.

Section Row.
Variables (T : finfo) (mu n : N) (bad exp q : Z) (s t m : N) (single : bool).
Hypothesis K : checked T mu n bad.
Hypothesis R : row_ok T mu n bad exp q s t.
Hypothesis Hm0 : 0 < m.
Hypothesis Hm1 : 2 * m < mwv T.
Hypothesis Hsingle : single = true -> 4 * m = mwv T /\ exp <> bad.

Let v := 4 * m.
Let u := v - (if single then 1 else 2).
Let w := v + 2.
Let gn := gnum exp q.
Let gd := gden exp q.
Let a := (u * t + 2 ^ (s - 1)) / 2 ^ s.
Let b := v * t / 2 ^ s.
Let c := w * t / 2 ^ s.

Lemma mwv_even : exists k, mwv T = 8 * k.
Proof.
  exists (2 ^ Z.to_N (mentissa_width T - 1)). unfold mwv. change 8 with (2 ^ 3). rewrite <- N.pow_add_r. f_equal.
  assert (X := ck_width _ _ _ _ K). clear - X. lia.
Qed.

Lemma w_le : w <= 2 * mwv T.
Proof. destruct mwv_even as [k E]. unfold w, v. clear - E Hm1. lia. Qed.

Lemma Herr' : w * 2 <= 2 ^ (s - mu).
Proof. assert (X := ro_err _ _ _ _ _ _ _ _ R). assert (Y := w_le). clear - X Y. clearbody w. lia. Qed.

Lemma u_pos : 0 < u.
Proof. unfold u, v. clear - Hm0. destruct single; lia. Qed.

Lemma u_lt_v : u < v.
Proof. unfold u, v. clear - Hm0. destruct single; lia. Qed.

Lemma ut_bound x : x <= w -> x * t + 2 ^ s <= 2 ^ (64 + s).
Proof.
  intros Hx. assert (X := ro_64 _ _ _ _ _ _ _ _ R). assert (Y := w_le).
  assert (Z : x * t <= 2 * mwv T * t) by (apply N.mul_le_mono_r; clear - Hx Y; clearbody w; lia). clear - X Z. lia.
Qed.

Lemma u_scaled : u * gn < 2 ^ 64 * gd.
Proof.
  assert (Hg := gden_pos exp q). fold gd in Hg. assert (Hp := pow2_pos s).
  assert (Huv := u_lt_v). assert (B := ut_bound u ltac:(clear - Huv; unfold w; clearbody u; lia)). rewrite N.pow_add_r in B.
  apply (N.mul_lt_mono_pos_r (2 ^ s)); [exact Hp|].
  assert (H1 := ro_hi _ _ _ _ _ _ _ _ R). fold gn gd in H1.
  assert (H2 : u * (gn * 2 ^ s) < u * ((t + 1) * gd)) by (apply N.mul_lt_mono_pos_l; [exact u_pos|exact H1]).
  assert (H3 : u <= 2 ^ s).
  { assert (X := Herr'). assert (Y := u_lt_v). assert (Z : 2 ^ (s - mu) <= 2 ^ s) by (apply N.pow_le_mono_r; clear; lia). clear - X Y Z. unfold w in X. clearbody u v. lia. }
  assert (H4 : (u * t + u) * gd <= 2 ^ 64 * 2 ^ s * gd) by (apply N.mul_le_mono_r; clear - B H3; clearbody u; lia).
  replace (u * ((t + 1) * gd)) with ((u * t + u) * gd) in H2 by ring. replace (2 ^ 64 * gd * 2 ^ s) with (2 ^ 64 * 2 ^ s * gd) by ring. clear - H2 H4. clearbody u gd gn. lia.
Qed.

Definition strict_case (zero2 : bool) : Prop :=
  zero2 = false -> N.odd m = true -> w mod gd = 0 -> q = 0%Z /\ (exp = -1 \/ exp = -2)%Z.

Let Hg : 0 < gd := gden_pos exp q.
Let Hlo : t * gd <= gn * 2 ^ s := ro_lo _ _ _ _ _ _ _ _ R.
Let Hhi : gn * 2 ^ s < (t + 1) * gd := ro_hi _ _ _ _ _ _ _ _ R.
Let HP := ro_P _ _ _ _ _ _ _ _ R.
Let Hmu := ck_mu _ _ _ _ K.
Let Hs := ro_mu _ _ _ _ _ _ _ _ R.
Let Hvw : v + 2 = w := eq_refl.

Lemma a_lt_b' : a < b.
Proof.
  assert (Huv := u_lt_v). assert (Hu := u_pos). assert (Herr := Herr').
  destruct single eqn:E.
  - destruct (Hsingle eq_refl) as [X _]. unfold a, b, u. fold v in X. rewrite X. exact (ro_ab _ _ _ _ _ _ _ _ R).
  - apply (a_lt_b u v w t s gn gd mu Hg Hlo Hhi HP Hmu Hs Huv Hvw Hu Herr). clear - Hm0. unfold u, v. lia.
Qed.

(** The digits. *)
Lemma digits (zero0 zero1 zero2 : bool) :
  (zero0 = true -> u mod gd = 0) -> strict_case zero2 ->
  exists i D, compute_shortest a b c (N.even m && zero0) (N.even m || negb zero2) zero1 = Ok (Z.of_N i, D) /\
    0 < D < n /\ D * 10 ^ i * gd <= w * gn /\ (N.odd m = true -> D * 10 ^ i * gd <> w * gn) /\
    (D * 10 ^ i * gd = u * gn /\ N.even m = true \/ u * gn * (2 * 2 ^ mu) + gd <= D * 10 ^ i * gd * (2 * 2 ^ mu)).
Proof.
  intros Hz0 Hst.
  assert (Hp := pow2_pos s). assert (Huv := u_lt_v). assert (Hu := u_pos). assert (Herr := Herr').
  assert (Hab := a_lt_b').
  assert (Hc : c < 2 ^ 64).
  { apply N.div_lt_upper_bound; [clear - Hp; lia|]. assert (X := ut_bound w (N.le_refl _)). rewrite N.pow_add_r in X. clear - X Hp. clearbody w. lia. }
  destruct (core u v w t s gn gd mu Hg Hlo Hhi HP Hmu Hs Huv Hvw Hu Herr (N.even m && zero0) (N.even m || negb zero2) zero1 (N.even m) Hab Hc)
    as (i & D & E & HD0 & HDc & Hup & Hlow & Hk & H1).
  { intros i Hi. destruct single eqn:Es.
    - destruct (Hsingle eq_refl) as [X Hb]. fold v in X. unfold u, w in *. rewrite X in *.
      exact (ro_pow _ _ _ _ _ _ _ _ R Hb i Hi).
    - apply (normal_takes_a u v w t s gn gd mu Hg Hlo Hhi HP Hmu Hs Huv Hvw Hu Herr i); [clear - Hm0; unfold u, v; lia|exact (ro_500 _ _ _ _ _ _ _ _ R)|exact (ro_close _ _ _ _ _ _ _ _ R)|exact Hi]. }
  { intros H. apply andb_prop in H. destruct H as [He Hz]. split; [exact He|]. exists (u / gd * gn).
    assert (X := N.div_mod u gd (N.neq_sym _ _ (N.lt_neq _ _ Hg))). rewrite (Hz0 Hz), N.add_0_r in X. rewrite X at 1. ring. }
  fold a b c in E, Hk, H1, HDc. exists i, D. split; [exact E|].
  assert (HDc' : D * 10 ^ i <= c) by (apply (N.le_trans _ _ _ HDc); destruct (_ || _); [apply N.le_refl|apply N.le_sub_l]).
  assert (Hal : c - 1 <= (if N.even m || negb zero2 then c else c - 1)) by (clear; clearbody c; destruct (_ || _); lia).
  split.
  { split; [exact HD0|]. destruct single eqn:Es.
    - destruct (Hsingle eq_refl) as [X _]. fold v in X.
      apply (digits_bound u v w t s gn gd mu n Hg Hlo Hhi HP Hmu Hs Huv Hvw Hu Herr 3 i D (if N.even m || negb zero2 then c else c - 1)); try assumption; [clear - Hm0; unfold u, w, v in *; lia|].
      unfold w. rewrite X. exact (ro_few2 _ _ _ _ _ _ _ _ R).
    - apply (digits_bound u v w t s gn gd mu n Hg Hlo Hhi HP Hmu Hs Huv Hvw Hu Herr 4 i D (if N.even m || negb zero2 then c else c - 1)); try assumption; [clear - Hm0; unfold u, w, v in *; lia|].
      apply (few_le _ (2 * mwv T)); [exact w_le|exact (ro_few _ _ _ _ _ _ _ _ R)]. }
  split; [exact Hup|]. split; [|exact Hlow].
  intros Hodd Heq. assert (He : N.even m = false) by (rewrite <- N.negb_odd, Hodd; reflexivity). rewrite He in *. cbn [orb andb] in *.
  destruct zero2; cbn [negb] in *.
  { assert (X : (D * 10 ^ i + 1) * gd <= w * gn).
    { apply (upper u v w t s gn gd mu Hg Hlo Hhi HP Hmu Hs Huv Hvw Hu Herr). fold c. assert (Y := b_lt_c u v w t s gn gd mu Hg Hlo Hhi HP Hmu Hs Huv Hvw Hu Herr). fold b c in Y. clear - HDc Y. clearbody b c. lia. }
    assert (Hg' := Hg). clear - X Heq Hg'. clearbody gd gn w. lia. }
  (* w * gn / gd is an integer, but zero2 is false *)
  assert (Hgg : w mod gd = 0).
  { unfold gn, gd, gnum, gden in Heq |- *. destruct (0 <=? exp)%Z.
    - apply (divides_cancel _ 5 2 _ _ _ (or_intror (conj eq_refl eq_refl)) Heq).
    - apply (divides_cancel _ 2 5 _ _ _ (or_introl (conj eq_refl eq_refl)) Heq). }
  destruct (Hst eq_refl Hodd Hgg) as [Eq Eexp].
  assert (Egd : gd = 1) by (unfold gd, gden; rewrite Eq; destruct (0 <=? exp)%Z; reflexivity).
  assert (Esingle : single = false).
  { destruct single eqn:Es; [|reflexivity]. exfalso. destruct (Hsingle eq_refl) as [X _]. destruct mwv_even as [k Ek].
    assert (Y : m = 2 * k) by (clear - X Ek; lia). rewrite Y, N.odd_mul in Hodd. discriminate Hodd. }
  assert (Eu : u = v - 2) by (unfold u; rewrite Esingle; reflexivity).
  assert (Ea : a = u * gn) by (apply (exact_a u v w t s gn gd mu Hg Hlo Hhi HP Hmu Hs Huv Hvw Hu Herr); rewrite Egd; ring).
  assert (Et : t = gn * 2 ^ s) by (assert (A1 := Hlo); assert (A2 := Hhi); rewrite Egd in A1, A2; clear - A1 A2; clearbody gn; lia).
  assert (Eb : b = v * gn) by (unfold b; rewrite Et, N.mul_assoc; apply N.div_mul; clear - Hp; lia).
  assert (Ec : c = w * gn) by (unfold c; rewrite Et, N.mul_assoc; apply N.div_mul; clear - Hp; lia).
  rewrite Egd, N.mul_1_r in Heq. apply N.odd_spec in Hodd. destruct Hodd as [k Ek].
  assert (Ev : v = 8 * k + 4) by (unfold v; clear - Ek; lia).
  rewrite Ea, Ec in Hk. rewrite Eb, Ea in H1. rewrite Eu, Ev in H1, Hk. rewrite <- Hvw, Ev in Hk, Heq. cbn [orb] in Hk.
  clear - Heq Hk H1 Eexp Eq HD0.
  assert (Hgn : gn = 5 \/ gn = 25) by (unfold gn, gnum; destruct Eexp as [-> | ->]; rewrite Eq; auto).
  destruct Hgn as [Hgn|Hgn]; rewrite Hgn in *.
  - assert (Hi1 : 1 <= i) by (apply Hk; change (10 ^ 1) with 10; lia).
    destruct (N.eq_dec i 1) as [->|Hne].
    + change (10 ^ 1) with 10 in Heq.
      assert (ED : D = (8 * k + 4) * 5 / 10).
      { apply H1; [reflexivity| |]; replace ((8 * k + 4) * 5) with ((4 * k + 2) * 10) by ring; [apply N.mod_mul; discriminate|].
        replace ((8 * k + 4 - 2) * 5) with ((4 * k + 1) * 10) by lia. rewrite !N.div_mul by discriminate. lia. }
      replace ((8 * k + 4) * 5) with ((4 * k + 2) * 10) in ED by ring. rewrite N.div_mul in ED by discriminate. lia.
    + replace i with (2 + (i - 2)) in Heq by lia. rewrite N.pow_add_r in Heq. change (10 ^ 2) with 100 in Heq.
      replace (D * (100 * 10 ^ (i - 2))) with (100 * (D * 10 ^ (i - 2))) in Heq by ring.
      revert Heq. generalize (D * 10 ^ (i - 2)). intros z Hz. lia.
  - assert (Hi2 : 2 <= i) by (apply Hk; change (10 ^ 2) with 100; lia).
    replace i with (2 + (i - 2)) in Heq by lia. rewrite N.pow_add_r in Heq. change (10 ^ 2) with 100 in Heq.
    replace (D * (100 * 10 ^ (i - 2))) with (100 * (D * 10 ^ (i - 2))) in Heq by ring.
    revert Heq. generalize (D * 10 ^ (i - 2)). intros z Hz. lia.
Qed.
End Row.

(** The flags. *)
Lemma zeros_spec T mu n bad exp q s t m u v z0 z1 z2 : checked T mu n bad -> row_ok T mu n bad exp q s t ->
  0 < m -> 2 * m < mwv T -> zeros T exp q u v (4 * m + 2) = (z0, z1, z2) ->
  (z0 = true -> u mod gden exp q = 0) /\ strict_case exp q m z2.
Proof.
  intros K R Hm0 Hm1 E. assert (Hq := ro_q _ _ _ _ _ _ _ _ R). assert (H5 := ck_5 _ _ _ _ K).
  unfold zeros in E. unfold gden, strict_case, gden. cbv zeta. destruct (Z.leb_spec 0 exp) as [He|He].
  - apply pair_equal_spec in E. destruct E as [E <-]. apply pair_equal_spec in E. destruct E as [<- _]. split.
    + intros H. apply andb_prop in H. destruct H as [H1 H2]. apply Z.leb_le in H1. rewrite pow_int_spec in H2 by lia.
      apply N.eqb_eq. exact H2.
    + intros Hz Hodd Hw. exfalso. destruct (Z.leb_spec q (max_5_pow T)) as [Hq5|Hq5].
      * rewrite pow_int_spec, Hw in Hz by lia. discriminate Hz.
      * assert (Htop := ck_5_top _ _ _ _ K).
        assert (Hle : 5 ^ Z.to_N (max_5_pow T + 1) <= 5 ^ Z.to_N q) by (apply N.pow_le_mono_r; [discriminate|clear - Hq5 H5; lia]).
        assert (Ew : 2 ^ Z.to_N (mentissa_width T + 3) = 2 * mwv T).
        { unfold mwv. rewrite <- N.pow_succ_r by apply N.le_0_l. f_equal. assert (X := ck_width _ _ _ _ K). clear - X. lia. }
        assert (Hp5 : 5 ^ Z.to_N q <> 0) by (apply N.pow_nonzero; discriminate).
        assert (Ho : N.odd (5 ^ Z.to_N q) = true) by (rewrite N.odd_pow by (clear - Hq5 H5; lia); reflexivity).
        apply N.odd_spec in Ho. destruct Ho as [x Ho].
        apply N.mod_divide in Hw; [|exact Hp5]. destruct Hw as [k Hw]. rewrite Ew in Htop.
        assert (Hk : k = 0 \/ k = 1 \/ 2 <= k) by lia. destruct Hk as [->|[->|Hk]].
        -- clear - Hw. lia.
        -- clear - Hw Ho. lia.
        -- assert (X : 2 * 5 ^ Z.to_N q <= k * 5 ^ Z.to_N q) by (apply N.mul_le_mono_r; exact Hk).
           clear - X Hw Htop Hle Hm1. lia.
  - apply pair_equal_spec in E. destruct E as [E <-]. apply pair_equal_spec in E. destruct E as [<- _]. split.
    + intros H. apply andb_prop in H. destruct H as [_ H]. rewrite land_ones_zero in H. apply N.eqb_eq. exact H.
    + intros Hz Hodd Hw. rewrite land_ones_zero, Hw in Hz. change (0 =? 0) with true in Hz. rewrite andb_true_r in Hz.
      destruct (Z.eqb_spec q 0) as [Eq|Eq].
      * split; [exact Eq|]. assert (X := ro_q0 _ _ _ _ _ _ _ _ R). lia.
      * exfalso. destruct (Z.eq_dec q 1) as [->|Hq1].
        { assert (X := ck_2 _ _ _ _ K). cbn [negb andb] in Hz. apply andb_false_iff in Hz. destruct Hz as [Hz|Hz]; apply Z.leb_gt in Hz; lia. }
        replace (Z.to_N q) with (2 + Z.to_N (q - 2)) in Hw by lia. rewrite N.pow_add_r in Hw. change (2 ^ 2) with 4 in Hw.
        apply N.mod_divide in Hw; [|assert (X := pow2_pos (Z.to_N (q - 2))); lia]. destruct Hw as [k Hw].
        replace (k * (4 * 2 ^ Z.to_N (q - 2))) with (4 * (k * 2 ^ Z.to_N (q - 2))) in Hw by ring.
        revert Hw. generalize (k * 2 ^ Z.to_N (q - 2)). clear. intros. lia.
Qed.

(** ** decode *)
Definition biased (T : finfo) (bits : N) : N := (bits / 2 ^ Z.to_N (mentissa_width T)) mod 2 ^ Z.to_N (exponent_width T).
Definition fraction (T : finfo) (bits : N) : N := bits mod 2 ^ Z.to_N (mentissa_width T).
(** The number is mantissa * 2^(exponent + 2). *)
Definition mantissa (T : finfo) (bits : N) : N :=
  if biased T bits =? 0 then fraction T bits else fraction T bits + 2 ^ Z.to_N (mentissa_width T).
Definition exponent (T : finfo) (bits : N) : Z :=
  (Z.max 1 (Z.of_N (biased T bits)) - bias T - mentissa_width T - 2)%Z.
(** The gap below the number is half of the gap above it. *)
Definition single_gap (T : finfo) (bits : N) : bool := (fraction T bits =? 0) && (1 <? biased T bits).

(** The relation between the digits and the neighbours of the number. *)
Definition inside (T : finfo) (mu bits : N) (q : Z) (i D : N) : Prop :=
  let m := mantissa T bits in let exp := exponent T bits in
  let u := 4 * m - (if single_gap T bits then 1 else 2) in let w := 4 * m + 2 in
  let gn := gnum exp q in let gd := gden exp q in
  D * 10 ^ i * gd <= w * gn /\ (N.odd m = true -> D * 10 ^ i * gd <> w * gn) /\
  (D * 10 ^ i * gd = u * gn /\ N.even m = true \/ u * gn * (2 * 2 ^ mu) + gd <= D * 10 ^ i * gd * (2 * 2 ^ mu)) /\
  u * gn < 2 ^ 64 * gd.

Lemma decode_spec T mu n bad bits : checked T mu n bad ->
  biased T bits < 2 ^ Z.to_N (exponent_width T) - 1 -> 0 < mantissa T bits ->
  (single_gap T bits = true -> exponent T bits <> bad) ->
  exists q i D, (0 <= q <= Z.abs (exponent T bits))%Z /\ 0 < D < n /\ inside T mu bits q i D /\
    decode T bits = Ok (mkBase10 (N.testbit bits (Z.to_N (mentissa_width T + exponent_width T))) false false
      (Z.of_nat (count_chars T_uint64 (Z.of_N D))) (Z.of_N i + Z.min (exponent T bits) 0 + q) D).
Proof.
  intros K Hfin Hm0 Hbad. unfold decode. unfold is_nan, is_inf, get_parts. fold (biased T bits) (fraction T bits).
  assert (W := ck_width _ _ _ _ K). assert (X := ck_exp _ _ _ _ K).
  set (f := fraction T bits) in *. set (e := biased T bits) in *.
  assert (Hf : f < 2 ^ Z.to_N (mentissa_width T)) by (apply N.mod_lt, N.pow_nonzero; discriminate).
  assert (H2e : (2 ^ exponent_width T = Z.of_N (2 ^ Z.to_N (exponent_width T)))%Z).
  { rewrite N2Z.inj_pow, Z2N.id by lia. reflexivity. }
  assert (Hne : (Z.of_N e =? 2 ^ exponent_width T - 1)%Z = false) by (apply Z.eqb_neq; rewrite H2e; clear - Hfin; lia).
  rewrite Hne. cbn [andb].
  assert (Hz : (Z.of_N e =? 0)%Z = (e =? 0)).
  { destruct (N.eqb_spec e 0) as [->|H]; [reflexivity|]. apply Z.eqb_neq. lia. }
  rewrite Hz.
  assert (Em : mantissa T bits = if e =? 0 then f else f + 2 ^ Z.to_N (mentissa_width T)) by reflexivity.
  assert (Hnz : (e =? 0) && (f =? 0) = false).
  { destruct (e =? 0); [|reflexivity]. cbn [andb]. apply N.eqb_neq. rewrite Em in Hm0. lia. }
  rewrite Hnz.
  assert (Epow : mwv T = 4 * 2 ^ Z.to_N (mentissa_width T)).
  { unfold mwv. change 4 with (2 ^ 2). rewrite <- N.pow_add_r. f_equal. lia. }
  assert (Hm1 : 2 * mantissa T bits < mwv T) by (rewrite Em, Epow; destruct (e =? 0); lia).
  assert (H52 : 2 ^ Z.to_N (mentissa_width T) <= 2 ^ 52) by (apply N.pow_le_mono_r; [discriminate|lia]).
  assert (Enorm : normalize T (Z.of_N e) f = ((exponent T bits + 2)%Z, mantissa T bits)).
  { unfold normalize. rewrite Hz, Em. unfold exponent. fold e. destruct (N.eqb_spec e 0) as [E|E]; cbn [negb].
    - f_equal. lia.
    - f_equal; [lia|]. unfold u64. apply N.mod_small. lia. }
  rewrite Enorm. replace (exponent T bits + 2 - 2)%Z with (exponent T bits) by lia.
  assert (Esg : (f =? 0) && (1 <? Z.of_N e)%Z = single_gap T bits).
  { unfold single_gap. fold f e. f_equal. destruct (N.ltb_spec 1 e); [apply Z.ltb_lt|apply Z.ltb_ge]; lia. }
  rewrite Esg.
  assert (Hev : (f mod 2 =? 0) = N.even (mantissa T bits)).
  { assert (Hfe : (f mod 2 =? 0) = N.even f).
    { rewrite <- N.bit0_mod, N.bit0_odd. rewrite <- N.negb_odd. destruct (N.odd f); reflexivity. }
    rewrite Hfe, Em. destruct (e =? 0); [reflexivity|]. rewrite N.even_add.
    rewrite N.even_pow by lia. destruct (N.even f); reflexivity. }
  rewrite Hev.
  assert (Eu4 : u64 (mantissa T bits * 4) = 4 * mantissa T bits).
  { unfold u64. rewrite N.mul_comm. apply N.mod_small. lia. }
  rewrite Eu4. assert (Eu2 : u64 (4 * mantissa T bits + 2) = 4 * mantissa T bits + 2) by (unfold u64; apply N.mod_small; lia).
  rewrite Eu2. rewrite scaling_row.
  assert (Hrange : (lowest T <= exponent T bits <= highest T)%Z).
  { unfold lowest, highest, exponent. fold e. rewrite H2e.
    assert (Y : (1 <= Z.of_N (2 ^ Z.to_N (exponent_width T)) - 2)%Z).
    { rewrite <- H2e. assert (2 ^ 2 <= 2 ^ exponent_width T)%Z by (apply Z.pow_le_mono_r; lia). lia. }
    clear - Hfin Y. lia. }
  destruct (row_facts T mu n bad (exponent T bits) K Hrange) as (q & s & ws & Er & Hs & Hs64 & Hw & Hl & R).
  rewrite Er. set (m := mantissa T bits) in *. set (exp := exponent T bits) in *.
  set (u := 4 * m - (if single_gap T bits then 1 else 2)).
  destruct (zeros T exp q u (4 * m) (4 * m + 2)) as [[z0 z1] z2] eqn:Ez.
  destruct (zeros_spec T mu n bad exp q (Z.to_N s) (wval ws) m u (4 * m) z0 z1 z2 K R Hm0 Hm1 Ez) as [Hz0 Hst].
  assert (Hsingle : single_gap T bits = true -> 4 * m = mwv T /\ exp <> bad).
  { intros H. split; [|apply Hbad; exact H]. unfold single_gap in H. fold f e in H. apply andb_prop in H. destruct H as [H1 H2].
    apply N.eqb_eq in H1. apply N.ltb_lt in H2. rewrite Em, H1, Epow. destruct (N.eqb_spec e 0); [lia|]. lia. }
  assert (B := fun x => ut_bound T mu n bad exp q (Z.to_N s) (wval ws) m K R Hm1 x).
  assert (H64 : 4 * m + 2 < 2 ^ 64) by (clear - Hm1 Epow H52; lia).
  assert (Hu4 : u <= 4 * m + 2) by (unfold u; clear; destruct (single_gap T bits); lia).
  rewrite (multiply_and_shift_spec u ws s true) by first [assumption|exact (N.le_lt_trans _ _ _ Hu4 H64)|exact (B u Hu4)].
  rewrite (multiply_and_shift_spec (4 * m) ws s false) by first [assumption|clear - H64; lia|apply B; clear; lia].
  rewrite (multiply_and_shift_spec (4 * m + 2) ws s false) by first [assumption|apply B; apply N.le_refl].
  cbn [obind].
  destruct (digits T mu n bad exp q (Z.to_N s) (wval ws) m (single_gap T bits) K R Hm0 Hm1 Hsingle z0 z1 z2 Hz0 Hst)
    as (i & D & E & HD & I1 & I2 & I3).
  fold u in E, I3. rewrite E. cbn [obind].
  exists q, i, D. split; [exact (ro_q _ _ _ _ _ _ _ _ R)|]. split; [exact HD|]. split.
  - unfold inside. fold m exp u. repeat split; [exact I1|exact I2|exact I3|].
    exact (u_scaled T mu n bad exp q (Z.to_N s) (wval ws) m (single_gap T bits) K R Hm0 Hm1).
  - do 2 f_equal. clear. clearbody exp. destruct (Z.ltb_spec exp 0); lia.
Qed.
