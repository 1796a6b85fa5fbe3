(** What compute_shortest returns. *)
From Coq Require Import Lia.
From Verif Require Import Base ScanModel IntModel DoubleModel RyuModel.
Local Open Scope N_scope.

Lemma pow10_pos i : 0 < 10 ^ i.
Proof. apply N.neq_0_lt_0, N.pow_nonzero. discriminate. Qed.

Lemma pow10_succ i : 10 ^ (i + 1) = 10 * 10 ^ i.
Proof. rewrite N.pow_add_r. change (10 ^ 1) with 10. lia. Qed.

Lemma div_pow_succ x i : x / 10 ^ i / 10 = x / 10 ^ (i + 1).
Proof. rewrite N.div_div by (discriminate || apply N.pow_nonzero; discriminate). rewrite pow10_succ. f_equal. lia. Qed.

Lemma mod_pow_succ x i : x mod 10 ^ (i + 1) = 10 ^ i * ((x / 10 ^ i) mod 10) + x mod 10 ^ i.
Proof.
  assert (Hp := pow10_pos i). rewrite pow10_succ, (N.mul_comm 10).
  rewrite N.mod_mul_r by lia. lia.
Qed.

Lemma mod_pow_zero x i : (x mod 10 ^ i =? 0) && ((x / 10 ^ i) mod 10 =? 0) = (x mod 10 ^ (i + 1) =? 0).
Proof.
  assert (Hp := pow10_pos i). rewrite mod_pow_succ.
  destruct (N.eqb_spec (x mod 10 ^ i) 0) as [E|E]; destruct (N.eqb_spec ((x / 10 ^ i) mod 10) 0) as [F|F]; cbn [andb]; symmetry.
  - apply N.eqb_eq. rewrite E, F. lia.
  - apply N.eqb_neq. intros H. apply N.eq_add_0 in H. destruct H as [H _]. apply N.eq_mul_0 in H. lia.
  - apply N.eqb_neq. intros H. apply N.eq_add_0 in H. apply E, H.
  - apply N.eqb_neq. intros H. apply N.eq_add_0 in H. apply E, H.
Qed.

(** The state of the loops after [i] rounds. *)
Definition st (a b c r0 i : N) : shortening :=
  mkShort (a / 10 ^ i) (b / 10 ^ i) (c / 10 ^ i) (a mod 10 ^ i =? 0) (b mod 10 ^ i =? 0)
    (if i =? 0 then r0 else (b / 10 ^ (i - 1)) mod 10) (Z.of_N i).

Lemma st_succ a b c r0 i (za : bool) : (za = true -> a mod 10 ^ (i + 1) = 0) ->
  mkShort (a / 10 ^ i / 10) (b / 10 ^ i / 10) (c / 10 ^ i / 10)
    (if za then true else (a mod 10 ^ i =? 0) && ((a / 10 ^ i) mod 10 =? 0)) ((b mod 10 ^ i =? 0) && ((b / 10 ^ i) mod 10 =? 0))
    ((b / 10 ^ i) mod 10) (Z.of_N i + 1) = st a b c r0 (i + 1).
Proof.
  intros H1. unfold st. rewrite !div_pow_succ, !mod_pow_zero. replace (i + 1 =? 0) with false by (symmetry; apply N.eqb_neq; lia).
  replace (i + 1 - 1) with i by lia. replace (Z.of_N (i + 1)) with (Z.of_N i + 1)%Z by lia. f_equal.
  destruct za; [symmetry; apply N.eqb_eq; apply H1; reflexivity|reflexivity].
Qed.

Lemma shorten_spec a b c r0 : forall fuel i, c < 10 ^ (N.of_nat fuel + i) ->
  (i = 0 \/ a / 10 ^ i < c / 10 ^ i) -> (0 < fuel)%nat ->
  exists j, i <= j /\ shorten fuel (st a b c r0 i) = Ok (st a b c r0 j) /\
    (j = 0 \/ a / 10 ^ j < c / 10 ^ j) /\ c / 10 ^ (j + 1) <= a / 10 ^ (j + 1).
Proof.
  induction fuel as [|f IH]; intros i Hc Hi Hf; [lia|]. cbn [shorten]. cbn [sh_a sh_b sh_c sh_all_a_zero sh_all_b_zero sh_b_remainder sh_i st].
  change (sh_a (st a b c r0 i)) with (a / 10 ^ i). change (sh_c (st a b c r0 i)) with (c / 10 ^ i).
  rewrite !div_pow_succ. destruct (N.ltb_spec (a / 10 ^ (i + 1)) (c / 10 ^ (i + 1))) as [H|H].
  - change (sh_b (st a b c r0 i)) with (b / 10 ^ i). change (sh_all_a_zero (st a b c r0 i)) with (a mod 10 ^ i =? 0).
    change (sh_all_b_zero (st a b c r0 i)) with (b mod 10 ^ i =? 0). change (sh_i (st a b c r0 i)) with (Z.of_N i).
    rewrite <- !div_pow_succ. rewrite (st_succ a b c r0 i false); [|discriminate].
    destruct f as [|f'].
    { exfalso. change (N.of_nat 1 + i) with (1 + i) in Hc. rewrite N.add_comm in Hc. rewrite (N.div_small c) in H by exact Hc. exact (N.nlt_0_r _ H). }
    destruct (IH (i + 1)) as (j & J1 & J2 & J3 & J4); [|right; exact H|lia|].
    { replace (N.of_nat (S f') + (i + 1)) with (N.of_nat (S (S f')) + i) by lia. exact Hc. }
    exists j. split; [lia|]. auto.
  - exists i. split; [lia|]. auto.
Qed.

Lemma shorten_zeros_spec a b c r0 : 0 < a -> forall fuel i, a < 10 ^ (N.of_nat fuel + i) -> (0 < fuel)%nat -> a mod 10 ^ (i + 1) = 0 ->
  exists j, i <= j /\ shorten_zeros fuel (st a b c r0 i) = Ok (st a b c r0 j) /\ a mod 10 ^ j = 0.
Proof.
  intros Ha. induction fuel as [|f IH]; intros i Hc Hf Hz; [lia|]. cbn [shorten_zeros].
  change (sh_a (st a b c r0 i)) with (a / 10 ^ i). change (sh_c (st a b c r0 i)) with (c / 10 ^ i).
  rewrite !div_pow_succ. assert (Hz1 : a mod 10 ^ i = 0).
  { assert (Z := mod_pow_zero a i). rewrite Hz in Z. apply andb_prop in Z. apply N.eqb_eq. apply Z. }
  destruct (N.eqb_spec ((a / 10 ^ (i + 1)) mod 10) 0) as [E|E].
  - change (sh_b (st a b c r0 i)) with (b / 10 ^ i). change (sh_all_a_zero (st a b c r0 i)) with (a mod 10 ^ i =? 0).
    change (sh_all_b_zero (st a b c r0 i)) with (b mod 10 ^ i =? 0). change (sh_i (st a b c r0 i)) with (Z.of_N i).
    rewrite <- !div_pow_succ. rewrite Hz1. change (0 =? 0) with true.
    rewrite (st_succ a b c r0 i true); [|intros _; exact Hz].
    assert (Hz2 : a mod 10 ^ (i + 1 + 1) = 0) by (rewrite mod_pow_succ, E, Hz; lia).
    destruct f as [|f'].
    { exfalso. change (N.of_nat 1 + i) with (1 + i) in Hc. rewrite N.add_comm in Hc. rewrite N.mod_small in Hz by exact Hc. lia. }
    destruct (IH (i + 1)) as (j & J1 & J2 & J3); [|lia|exact Hz2|].
    { replace (N.of_nat (S f') + (i + 1)) with (N.of_nat (S (S f')) + i) by lia. exact Hc. }
    exists j. split; [lia|]. auto.
  - exists i. split; [lia|]. auto.
Qed.

Lemma div_mul_bounds x i : x / 10 ^ i * 10 ^ i <= x < (x / 10 ^ i + 1) * 10 ^ i.
Proof.
  assert (Hp := pow10_pos i). assert (E := N.div_mod x (10 ^ i) ltac:(lia)). assert (B := N.mod_lt x (10 ^ i) ltac:(lia)).
  revert E B Hp. generalize (x / 10 ^ i). generalize (x mod 10 ^ i). generalize (10 ^ i). intros p r q E B Hp. split; lia.
Qed.

(** The result D * 10^i, given a < b < c. *)
Lemma compute_shortest_spec a b c0 (asm al tie : bool) c :
  c = (if al then c0 else c0 - 1) -> 0 < a -> a < b -> b < c -> c0 < 2 ^ 64 ->
  exists i D, compute_shortest a b c0 asm al tie = Ok (Z.of_N i, D) /\
    D * 10 ^ i <= c /\ 0 < D /\
    (forall k, a + 10 ^ k <= c -> k <= i) /\
    (i = 1 -> b mod 10 = 0 -> a / 10 < b / 10 -> D = b / 10) /\
    (b + 1 <= D * 10 ^ i \/
     a + 1 <= D * 10 ^ i <= b \/
     D * 10 ^ i = a /\ asm = true \/
     D * 10 ^ i = a /\ 1 <= i /\ a + 10 ^ i <= c /\ 2 * (b + 1) <= 2 * a + 10 ^ i).
Proof.
  intros Ec Ha Hab Hbc Hc0. unfold compute_shortest.
  assert (Ec' : (if al then c0 else u64 (c0 + (2 ^ 64 - 1))) = c).
  { subst c. destruct al; [reflexivity|]. unfold u64. replace (c0 + (2 ^ 64 - 1)) with (c0 - 1 + 1 * 2 ^ 64) by lia.
    rewrite N.mod_add by discriminate. apply N.mod_small. lia. }
  rewrite Ec'. assert (Hc : c < 2 ^ 64) by (subst c; destruct al; lia). clear Ec' Ec Hc0 c0.
  assert (Hc64 : c < 10 ^ 64) by (eapply N.lt_trans; [exact Hc|reflexivity]).
  change (mkShort a b c true true (b mod 10) 0%Z) with (mkShort a b c true true (b mod 10) (Z.of_N 0)).
  replace (mkShort a b c true true (b mod 10) (Z.of_N 0)) with (st a b c (b mod 10) 0).
  2:{ unfold st. change (10 ^ 0) with 1. rewrite !N.div_1_r, !N.mod_1_r. reflexivity. }
  destruct (shorten_spec a b c (b mod 10) 64 0) as (j & _ & E1 & J2 & J3); [rewrite N.add_0_r; exact Hc64|left; reflexivity|lia|].
  rewrite E1. cbn [obind]. change (sh_all_a_zero (st a b c (b mod 10) j)) with (a mod 10 ^ j =? 0).
  change (sh_a (st a b c (b mod 10) j)) with (a / 10 ^ j).
  assert (Hk : forall k, a + 10 ^ k <= c -> k <= j).
  { intros k Hk. destruct (N.le_gt_cases k j) as [H|H]; [exact H|]. exfalso.
    assert (Hle : 10 ^ (j + 1) <= 10 ^ k) by (apply N.pow_le_mono_r; lia).
    assert (Hd : (a + 1 * 10 ^ (j + 1)) / 10 ^ (j + 1) <= c / 10 ^ (j + 1)) by (apply N.div_le_mono; [apply N.pow_nonzero; discriminate|lia]).
    rewrite N.div_add in Hd by (apply N.pow_nonzero; discriminate). lia. }
  assert (Fin : exists i, j <= i /\
     (if asm && (a mod 10 ^ j =? 0) && ((a / 10 ^ j) mod 10 =? 0) then shorten_zeros 64 (st a b c (b mod 10) j)
      else Ok (st a b c (b mod 10) j)) = Ok (st a b c (b mod 10) i) /\
     (asm = true /\ a mod 10 ^ i = 0 \/ i = j)).
  { destruct asm; cbn [andb]; [|exists j; split; [lia|auto]].
    rewrite mod_pow_zero. destruct (N.eqb_spec (a mod 10 ^ (j + 1)) 0) as [Z|Z]; [|exists j; split; [lia|auto]].
    destruct (shorten_zeros_spec a b c (b mod 10) Ha 64 j) as (i & I1 & I2 & I3); [|lia|exact Z|exists i; auto].
    apply (N.lt_le_trans _ (10 ^ 64)); [lia|]. apply N.pow_le_mono_r; lia. }
  destruct Fin as (i & Hij & E2 & Hcase). rewrite E2. cbn [obind].
  change (sh_all_a_zero (st a b c (b mod 10) i)) with (a mod 10 ^ i =? 0).
  change (sh_all_b_zero (st a b c (b mod 10) i)) with (b mod 10 ^ i =? 0).
  change (sh_a (st a b c (b mod 10) i)) with (a / 10 ^ i). change (sh_b (st a b c (b mod 10) i)) with (b / 10 ^ i).
  change (sh_c (st a b c (b mod 10) i)) with (c / 10 ^ i). change (sh_i (st a b c (b mod 10) i)) with (Z.of_N i).
  set (br := sh_b_remainder (st a b c (b mod 10) i)).
  assert (Hbr : br = if i =? 0 then b mod 10 else (b / 10 ^ (i - 1)) mod 10) by reflexivity.
  assert (Hp := pow10_pos i). assert (Ba := div_mul_bounds a i). assert (Bb := div_mul_bounds b i). assert (Bc := div_mul_bounds c i).
  assert (Lab : a / 10 ^ i <= b / 10 ^ i) by (apply N.div_le_mono; lia).
  assert (Lbc : b / 10 ^ i <= c / 10 ^ i) by (apply N.div_le_mono; lia).
  assert (Eu : u64 (b / 10 ^ i + 1) = b / 10 ^ i + 1).
  { unfold u64. apply N.mod_small. assert (b / 10 ^ i <= b) by (apply N.div_le_upper_bound; [lia|]; rewrite <- (N.mul_1_l b) at 1; apply N.mul_le_mono_r; lia). lia. }
  rewrite Eu.
  assert (Hbr1 : i = 1 -> br = b mod 10).
  { intros ->. rewrite Hbr. change (1 =? 0) with false. cbv iota. change (1 - 1) with 0. change (10 ^ 0) with 1. rewrite N.div_1_r. reflexivity. }
  assert (Hc' : i = j -> i = 0 \/ a / 10 ^ i < c / 10 ^ i) by (intros ->; exact J2).
  assert (Htie : 0 < i -> br = 5 -> (b mod 10 ^ i =? 0) = false).
  { intros Hi E. apply N.eqb_neq. intros Z. replace i with (i - 1 + 1) in Z by lia. rewrite mod_pow_succ in Z.
    rewrite Hbr in E. destruct (N.eqb_spec i 0) as [X|_]; [lia|]. rewrite E in Z. assert (P := pow10_pos (i - 1)).
    apply N.eq_add_0 in Z. destruct Z as [Z _]. apply N.eq_mul_0 in Z. destruct Z as [Z|Z]; [lia|discriminate Z]. }
  clearbody br. exists i.
  set (want := (br <? 5) || (br =? 5) && (b mod 10 ^ i =? 0) && tie).
  assert (Ht' : forall k, a + 10 ^ k <= c -> k <= i) by (intros k Hk'; specialize (Hk k Hk'); lia).
  assert (Down : b / 10 ^ i * 10 ^ i <= c) by lia.
  destruct (N.ltb_spec (c / 10 ^ i) (b / 10 ^ i + 1)) as [Hover|Hover].
  - (* b + 1 > c *)
    rewrite orb_true_r. exists (b / 10 ^ i). split; [reflexivity|]. split; [exact Down|].
    assert (Epart : i = j -> i = 0 \/ a / 10 ^ i < b / 10 ^ i) by (intros E; destruct (Hc' E); [left; assumption|right; lia]).
    assert (Main : a + 1 <= b / 10 ^ i * 10 ^ i <= b \/ b / 10 ^ i * 10 ^ i = a /\ asm = true).
    { destruct (N.eq_dec (a / 10 ^ i) (b / 10 ^ i)) as [E|E].
      - right. destruct Hcase as [[A1 A2]|E'].
        + split; [|exact A1]. rewrite <- E. assert (X := N.div_mod a (10 ^ i) ltac:(lia)). lia.
        + exfalso. destruct (Epart E') as [X|X]; [|lia]. clear E'. subst i. change (10 ^ 0) with 1 in *. rewrite !N.div_1_r in *. lia.
      - left. split; [|lia]. apply (N.le_trans _ ((a / 10 ^ i + 1) * 10 ^ i)); [lia|]. apply N.mul_le_mono_r. lia. }
    split; [|split; [exact Ht'|split; [intros -> _ _; reflexivity|]]].
    + destruct Main as [X|[X _]]; destruct (N.eq_dec (b / 10 ^ i) 0) as [Z|Z]; try lia; rewrite Z in X; lia.
    + destruct Main as [X|X]; auto.
  - rewrite orb_false_r. destruct (want && (negb (a / 10 ^ i =? b / 10 ^ i) || (a mod 10 ^ i =? 0))) eqn:Ew.
    + apply andb_prop in Ew. destruct Ew as [Ew Ez]. exists (b / 10 ^ i). split; [reflexivity|]. split; [exact Down|].
      assert (Main : a + 1 <= b / 10 ^ i * 10 ^ i <= b \/ b / 10 ^ i * 10 ^ i = a /\ asm = true \/
        b / 10 ^ i * 10 ^ i = a /\ 1 <= i /\ a + 10 ^ i <= c /\ 2 * (b + 1) <= 2 * a + 10 ^ i).
      { destruct (N.eqb_spec (a / 10 ^ i) (b / 10 ^ i)) as [E|E].
        - cbn [negb orb] in Ez. apply N.eqb_eq in Ez. assert (X := N.div_mod a (10 ^ i) ltac:(lia)).
          destruct Hcase as [[A1 A2]|E']; [right; left; split; [lia|exact A1]|]. right. right.
          destruct (Hc' E') as [X0|X0].
          { exfalso. clear E'. subst i. change (10 ^ 0) with 1 in *. rewrite !N.div_1_r in *. lia. }
          assert (Hi : 1 <= i).
          { destruct (N.eq_dec i 0) as [Z|Z]; [|lia]. exfalso. clear E'. subst i. change (10 ^ 0) with 1 in *. rewrite !N.div_1_r in *. lia. }
          split; [lia|]. split; [exact Hi|].
          assert (Hac : (a / 10 ^ i + 1) * 10 ^ i <= c / 10 ^ i * 10 ^ i) by (apply N.mul_le_mono_r; lia).
          split; [lia|].
          assert (Hlt : br < 5).
          { unfold want in Ew. destruct (N.ltb_spec br 5) as [Y|Y]; [exact Y|]. cbn [orb] in Ew.
            destruct (N.eqb_spec br 5) as [Y5|Y5]; [|discriminate Ew]. rewrite (Htie ltac:(lia) Y5) in Ew. discriminate Ew. }
          rewrite Hbr in Hlt. destruct (N.eqb_spec i 0) as [Z|Z]; [lia|].
          assert (Ei : i = i - 1 + 1) by lia.
          assert (Q := pow10_pos (i - 1)).
          assert (Mb := mod_pow_succ b (i - 1)). rewrite <- Ei in Mb.
          assert (Lb := N.mod_lt b (10 ^ (i - 1)) ltac:(lia)).
          assert (Xb := N.div_mod b (10 ^ i) ltac:(lia)).
          assert (Ep : 10 ^ i = 10 * 10 ^ (i - 1)) by (rewrite Ei at 1; apply pow10_succ).
          assert (Hm : 10 ^ (i - 1) * ((b / 10 ^ (i - 1)) mod 10) <= 10 ^ (i - 1) * 4) by (apply N.mul_le_mono_l; lia).
          assert (Eab : 10 ^ i * (b / 10 ^ i) = a) by (rewrite <- E; lia).
          rewrite Eab in Xb. clear - Xb Mb Lb Hm Ep. lia.
        - left. split; [|lia]. apply (N.le_trans _ ((a / 10 ^ i + 1) * 10 ^ i)); [lia|]. apply N.mul_le_mono_r. lia. }
      split; [|split; [exact Ht'|split; [intros -> _ _; reflexivity|]]].
      * destruct Main as [X|[[X _]|[X _]]]; destruct (N.eq_dec (b / 10 ^ i) 0) as [Z|Z]; try lia; rewrite Z in X; lia.
      * destruct Main as [X|X]; auto.
    + exists (b / 10 ^ i + 1). split; [reflexivity|].
      assert (Hup : (b / 10 ^ i + 1) * 10 ^ i <= c / 10 ^ i * 10 ^ i) by (apply N.mul_le_mono_r; lia).
      split; [lia|]. split; [lia|]. split; [exact Ht'|]. split; [|left; lia].
      intros -> Hb0 Hlt. exfalso. unfold want in Ew. rewrite (Hbr1 eq_refl), Hb0 in Ew. cbn [N.ltb N.compare orb andb] in Ew.
      change (10 ^ 1) with 10 in Ew. destruct (N.eqb_spec (a / 10) (b / 10)) as [X|X]; [lia|]. discriminate Ew.
Qed.
