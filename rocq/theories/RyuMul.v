(** multiply_and_shift computes the product exactly. *)
From Coq Require Import Lia.
From Verif Require Import Base ScanModel IntModel DoubleModel RyuModel DoubleWords.
Local Open Scope N_scope.

Fixpoint wval (l : list N) : N := match l with [] => 0 | x :: r => x + 2 ^ 64 * wval r end.
Definition words64 (l : list N) : Prop := Forall (fun x => x < 2 ^ 64) l.

Lemma join_words x y s : x < 2 ^ 64 -> 0 < s < 64 -> x + 2 ^ 64 * y < 2 ^ (64 + s) ->
  N.lor (shr x s) (shl (N.land y (2 ^ s - 1)) (64 - s)) = (x + 2 ^ 64 * y) / 2 ^ s.
Proof.
  intros Hx Hs HV.
  assert (Hy : y < 2 ^ s). { rewrite N.pow_add_r in HV. apply (N.mul_lt_mono_pos_l (2 ^ 64)); [reflexivity|]. lia. }
  replace (2 ^ s - 1) with (N.ones s) by (rewrite N.ones_equiv; lia).
  rewrite N.land_ones, N.mod_small by exact Hy. rewrite shr_div, shl_mul.
  assert (Ep : 2 ^ 64 = 2 ^ (64 - s) * 2 ^ s) by (apply pow_split; lia).
  assert (Hp : 0 < 2 ^ s) by (apply N.neq_0_lt_0, N.pow_nonzero; discriminate).
  assert (Hq : 0 < 2 ^ (64 - s)) by (apply N.neq_0_lt_0, N.pow_nonzero; discriminate).
  rewrite N.mod_small by (rewrite Ep, N.mul_comm; apply N.mul_lt_mono_pos_l; assumption).
  rewrite N.lor_comm, lor_mul by (apply div_pow_lt; [lia|exact Hx]).
  replace (2 ^ 64 * y) with (y * 2 ^ (64 - s) * 2 ^ s) by (rewrite Ep; lia).
  rewrite N.div_add by lia. lia.
Qed.

Lemma swap k z : 0 < z -> k + z - 1 = (z - 1) + k.
Proof. lia. Qed.

(** Adding one half before the division adds the bit below. *)
Lemma half_up v s : 0 < s -> (v + 2 ^ (s - 1)) / 2 ^ s = v / 2 ^ s + (if N.testbit v (s - 1) then 1 else 0).
Proof.
  intros Hs. assert (Hp : 2 ^ (s - 1) <> 0) by (apply N.pow_nonzero; discriminate).
  replace (2 ^ s) with (2 ^ (s - 1) * 2) by (replace s with (N.succ (s - 1)) at 2 by lia; rewrite N.pow_succ_r by lia; lia).
  rewrite <- !N.div_div by lia.
  replace (v + 2 ^ (s - 1)) with (v + 1 * 2 ^ (s - 1)) by lia. rewrite N.div_add by exact Hp.
  rewrite N.testbit_eqb. set (y := v / 2 ^ (s - 1)).
  assert (E := N.div_mod y 2 ltac:(lia)). assert (B := N.mod_lt y 2 ltac:(lia)).
  destruct (N.eqb_spec (y mod 2) 1) as [H|H].
  - replace (y + 1) with ((y / 2 + 1) * 2) by lia. rewrite N.div_mul by lia. reflexivity.
  - replace (y + 1) with (1 + (y / 2) * 2) by lia. rewrite N.div_add by lia. change (1 / 2) with 0. lia.
Qed.

Lemma shift_product_spec ret sh (up : bool) : length ret = 4%nat -> words64 ret -> (0 < sh < 192)%Z -> (sh mod 64 <> 0)%Z ->
  wval ret < 2 ^ (64 + Z.to_N sh) -> (wval ret + 2 ^ (Z.to_N sh - 1)) / 2 ^ Z.to_N sh < 2 ^ 64 ->
  shift_product ret sh up = Ok (if up then (wval ret + 2 ^ (Z.to_N sh - 1)) / 2 ^ Z.to_N sh else wval ret / 2 ^ Z.to_N sh).
Proof.
  intros Hlen Hw Hsh Hm HV HR. unfold shift_product.
  destruct (Z.ltb_spec sh 0) as [H|_]; [lia|].
  assert (Ed := Z.div_mod sh 64 ltac:(lia)). assert (Hmb := Z.mod_pos_bound sh 64 ltac:(lia)).
  set (ix := (sh / 64)%Z) in *. set (s := (sh mod 64)%Z) in *.
  assert (Hix : (0 <= ix <= 2)%Z) by lia.
  destruct (N.eqb_spec (Z.to_N s) 0) as [H|_]; [lia|]. (* used below *)
  destruct ret as [|r0 [|r1 [|r2 [|r3 [|? ?]]]]]; try discriminate Hlen.
  assert (Hr0 : r0 < 2 ^ 64) by (inversion Hw; assumption).
  assert (Hr1 : r1 < 2 ^ 64) by (inversion Hw as [|? ? _ Hw1]; inversion Hw1; assumption).
  assert (Hr2 : r2 < 2 ^ 64) by (inversion Hw as [|? ? _ Hw1]; inversion Hw1 as [|? ? _ Hw2]; inversion Hw2; assumption).
  set (z := Z.to_N s) in *. assert (Hz0 : 0 < z) by (clear - Hm Hmb z; lia). assert (Hz64 : z < 64) by (clear - Hmb z; lia).
  assert (core : forall lo x y k, x < 2 ^ 64 -> lo < 2 ^ k -> wval [r0; r1; r2; r3] = lo + 2 ^ k * (x + 2 ^ 64 * y) -> Z.to_N sh = k + z ->
    Ok (u64 (N.lor (shr x z) (shl (N.land y (2 ^ z - 1)) (64 - z)) + (if up && N.testbit x (z - 1) then 1 else 0))) =
    Ok (if up then (wval [r0; r1; r2; r3] + 2 ^ (Z.to_N sh - 1)) / 2 ^ Z.to_N sh else wval [r0; r1; r2; r3] / 2 ^ Z.to_N sh)).
  { intros lo x y k Hx Hlo E Es. f_equal.
    assert (Hk : 2 ^ k <> 0) by (apply N.pow_nonzero; discriminate).
    assert (EV : wval [r0; r1; r2; r3] / 2 ^ Z.to_N sh = (x + 2 ^ 64 * y) / 2 ^ z).
    { rewrite Es, N.pow_add_r, <- N.div_div by (apply N.pow_nonzero; discriminate). f_equal.
      rewrite E, N.mul_comm, N.div_add by exact Hk. rewrite N.div_small by exact Hlo. reflexivity. }
    rewrite join_words; [|exact Hx|split; assumption|].
    2:{ assert (HV' : 2 ^ k * (x + 2 ^ 64 * y) < 2 ^ k * 2 ^ (64 + z)).
        { rewrite <- N.pow_add_r. replace (k + (64 + z)) with (64 + Z.to_N sh) by lia. lia. }
        apply N.mul_lt_mono_pos_l in HV'; [exact HV'|lia]. }
    assert (Eb : N.testbit x (z - 1) = N.testbit (wval [r0; r1; r2; r3]) (Z.to_N sh - 1)).
    { rewrite Es. rewrite (swap k z Hz0). rewrite <- N.div_pow2_bits, E, N.mul_comm.
      rewrite N.div_add, N.div_small, N.add_0_l by assumption.
      replace (2 ^ 64 * y) with (y * 2 ^ 64) by lia.
      rewrite <- (N.mod_pow2_bits_low (x + y * 2 ^ 64) 64) by lia. rewrite N.mod_add, N.mod_small by (discriminate || exact Hx). reflexivity. }
    rewrite Eb. rewrite <- EV. rewrite half_up in HR |- * by (clear - Hsh; lia). destruct up; cbn [andb].
    - unfold u64. rewrite N.mod_small by exact HR. reflexivity.
    - rewrite N.add_0_r. unfold u64. rewrite N.mod_small; [reflexivity|]. destruct (N.testbit _ _); lia. }
  assert (Hc : ix = 0%Z \/ ix = 1%Z \/ ix = 2%Z) by lia.
  destruct Hc as [Ei|[Ei|Ei]]; rewrite Ei; cbn [Z.to_nat Pos.to_nat Pos.iter_op Nat.add Init.Nat.add nth_error].
  - change (Z.to_nat 0) with 0%nat. cbn [nth_error].
    assert (Hy : r1 + 2 ^ 64 * (r2 + 2 ^ 64 * (r3 + 2 ^ 64 * 0)) < 2 ^ z).
    { apply (N.mul_lt_mono_pos_l (2 ^ 64)); [reflexivity|]. rewrite <- N.pow_add_r. cbn [wval] in HV. replace (Z.to_N sh) with z in HV by lia. lia. }
    assert (Hz : 2 ^ z < 2 ^ 64) by (apply N.pow_lt_mono_r; lia).
    apply (core 0 r0 r1 0); [exact Hr0|reflexivity| |lia]. cbn [wval]. change (2 ^ 0) with 1. lia.
  - change (Z.to_nat 1) with 1%nat. cbn [nth_error].
    assert (Hy : r2 + 2 ^ 64 * r3 < 2 ^ z).
    { apply (N.mul_lt_mono_pos_l (2 ^ 128)); [reflexivity|]. rewrite <- N.pow_add_r. cbn [wval] in HV.
      replace (64 + Z.to_N sh) with (128 + z) in HV by lia. change (2 ^ 128) with (2 ^ 64 * 2 ^ 64). lia. }
    assert (Hz : 2 ^ z < 2 ^ 64) by (apply N.pow_lt_mono_r; lia).
    apply (core r0 r1 r2 64); [exact Hr1|exact Hr0| |lia]. cbn [wval]. lia.
  - change (Z.to_nat 2) with 2%nat. cbn [nth_error].
    apply (core (r0 + 2 ^ 64 * r1) r2 r3 128); [exact Hr2| | |lia].
    + change (2 ^ 128) with (2 ^ 64 * 2 ^ 64). lia.
    + cbn [wval]. change (2 ^ 128) with (2 ^ 64 * 2 ^ 64). lia.
Qed.

Lemma umul128_spec a b : a < 2 ^ 64 -> b < 2 ^ 64 ->
  fst (umul128 a b) < 2 ^ 64 /\ snd (umul128 a b) < 2 ^ 64 /\ fst (umul128 a b) + 2 ^ 64 * snd (umul128 a b) = a * b.
Proof.
  intros Ha Hb. unfold umul128, u64. cbn [fst snd].
  assert (E := N.div_mod (a * b) (2 ^ 64) ltac:(discriminate)). assert (B := N.mod_lt (a * b) (2 ^ 64) ltac:(discriminate)).
  split; [exact B|]. split; [|lia]. apply N.div_lt_upper_bound; [discriminate|]. apply N.mul_lt_mono; assumption.
Qed.

Lemma product_spec a b : a < 2 ^ 64 -> words64 b -> (length b = 1 \/ length b = 2)%nat ->
  length (product a b) = 4%nat /\ words64 (product a b) /\ wval (product a b) = a * wval b.
Proof.
  intros Ha Hb Hlen. destruct b as [|b0 [|b1 [|? ?]]]; try (cbn in Hlen; lia).
  - assert (H0 : b0 < 2 ^ 64) by (inversion Hb; assumption).
    destruct (umul128_spec a b0 Ha H0) as (B1 & B2 & E). unfold product. destruct (umul128 a b0) as [lo hi]. cbn [fst snd] in *.
    split; [reflexivity|]. split; [repeat constructor; assumption|]. cbn [wval]. lia.
  - assert (H0 : b0 < 2 ^ 64) by (inversion Hb; assumption).
    assert (H1 : b1 < 2 ^ 64) by (inversion Hb as [|? ? _ Hb1]; inversion Hb1; assumption).
    destruct (umul128_spec a b0 Ha H0) as (B1 & B2 & E). destruct (umul128_spec a b1 Ha H1) as (B3 & B4 & E').
    unfold product. destruct (umul128 a b0) as [lo0 hi0]. destruct (umul128 a b1) as [lo1 hi1]. cbn [fst snd] in *.
    assert (Hhi : hi1 <= 2 ^ 64 - 2).
    { assert (a * b1 <= (2 ^ 64 - 1) * (2 ^ 64 - 1)) by (apply N.mul_le_mono; lia). lia. }
    set (mid := u64 (hi0 + lo1)).
    assert (Em : mid + 2 ^ 64 * (if mid <? hi0 then 1 else 0) = hi0 + lo1).
    { unfold mid, u64. destruct (N.lt_ge_cases (hi0 + lo1) (2 ^ 64)) as [H|H].
      - rewrite N.mod_small by exact H. destruct (N.ltb_spec (hi0 + lo1) hi0); lia.
      - replace (hi0 + lo1) with (hi0 + lo1 - 2 ^ 64 + 1 * 2 ^ 64) at 1 2 by lia.
        rewrite N.mod_add by discriminate. rewrite N.mod_small by lia. destruct (N.ltb_spec (hi0 + lo1 - 2 ^ 64) hi0); lia. }
    assert (Hmid : mid < 2 ^ 64) by (apply N.mod_lt; discriminate).
    split; [reflexivity|].
    assert (Eu : u64 (hi1 + (if mid <? hi0 then 1 else 0)) = hi1 + (if mid <? hi0 then 1 else 0)).
    { unfold u64. apply N.mod_small. destruct (mid <? hi0); lia. }
    rewrite Eu. split.
    + repeat constructor; try assumption. destruct (mid <? hi0); lia.
    + cbn [wval]. destruct (mid <? hi0); lia.
Qed.

(** a * t / 2^sh, rounded down, or to the nearest integer (halves up). *)
Lemma multiply_and_shift_spec a b sh (up : bool) : a < 2 ^ 64 -> words64 b -> (length b = 1 \/ length b = 2)%nat ->
  (0 < sh < 192)%Z -> (sh mod 64 <> 0)%Z -> a * wval b + 2 ^ Z.to_N sh <= 2 ^ (64 + Z.to_N sh) ->
  multiply_and_shift a b sh up =
  Ok (if up then (a * wval b + 2 ^ (Z.to_N sh - 1)) / 2 ^ Z.to_N sh else a * wval b / 2 ^ Z.to_N sh).
Proof.
  intros Ha Hb Hlen Hsh Hm HV. unfold multiply_and_shift. destruct (product_spec a b Ha Hb Hlen) as (L & Wd & E).
  assert (Hp : 2 ^ Z.to_N sh = 2 * 2 ^ (Z.to_N sh - 1)) by (rewrite <- N.pow_succ_r by lia; f_equal; lia).
  assert (Hq : 0 < 2 ^ (Z.to_N sh - 1)) by (apply N.neq_0_lt_0, N.pow_nonzero; discriminate).
  rewrite shift_product_spec; rewrite ?E; auto.
  - lia.
  - apply N.div_lt_upper_bound; [lia|]. rewrite N.pow_add_r in HV. lia.
Qed.

(** The portable multiplication gives the same words as the one with __int128. *)
Lemma umul128_portable_same a b : a < 2 ^ 64 -> b < 2 ^ 64 -> umul128_portable a b = umul128 a b.
Proof.
  intros Ha Hb. unfold umul128_portable, umul128.
  rewrite !low_mod. unfold high. rewrite !shr_div, shl_mul.
  assert (Ea := N.div_mod a (2 ^ 32) ltac:(discriminate)). assert (Eb := N.div_mod b (2 ^ 32) ltac:(discriminate)).
  assert (La := N.mod_lt a (2 ^ 32) ltac:(discriminate)). assert (Lb := N.mod_lt b (2 ^ 32) ltac:(discriminate)).
  assert (Ha1 : a / 2 ^ 32 < 2 ^ 32) by (apply N.div_lt_upper_bound; [discriminate|exact Ha]).
  assert (Hb1 : b / 2 ^ 32 < 2 ^ 32) by (apply N.div_lt_upper_bound; [discriminate|exact Hb]).
  set (a0 := a mod 2 ^ 32) in *. set (a1 := a / 2 ^ 32) in *. set (b0 := b mod 2 ^ 32) in *. set (b1 := b / 2 ^ 32) in *.
  assert (P : forall x y, x < 2 ^ 32 -> y < 2 ^ 32 -> x * y <= (2 ^ 32 - 1) * (2 ^ 32 - 1)) by (intros x y Hx Hy; apply N.mul_le_mono; lia).
  assert (P00 := P a0 b0 La Lb). assert (P10 := P a1 b0 Ha1 Lb). assert (P01 := P a0 b1 La Hb1). assert (P11 := P a1 b1 Ha1 Hb1).
  assert (Et : u64 (a0 * b0) = a0 * b0) by (apply N.mod_small; lia). rewrite Et.
  set (t := a0 * b0) in *.
  assert (Dt := N.div_mod t (2 ^ 32) ltac:(discriminate)). assert (Lt := N.mod_lt t (2 ^ 32) ltac:(discriminate)).
  assert (Ht : t / 2 ^ 32 < 2 ^ 32) by (apply N.div_lt_upper_bound; [discriminate|lia]).
  assert (Em : u64 (a1 * b0 + t / 2 ^ 32) = a1 * b0 + t / 2 ^ 32) by (apply N.mod_small; lia). rewrite Em.
  set (m := a1 * b0 + t / 2 ^ 32) in *.
  assert (Dm := N.div_mod m (2 ^ 32) ltac:(discriminate)). assert (Lm := N.mod_lt m (2 ^ 32) ltac:(discriminate)).
  assert (Emid : u64 (a0 * b1 + m mod 2 ^ 32) = a0 * b1 + m mod 2 ^ 32) by (apply N.mod_small; lia). rewrite Emid.
  set (mid := a0 * b1 + m mod 2 ^ 32) in *.
  assert (Dmid := N.div_mod mid (2 ^ 32) ltac:(discriminate)). assert (Lmid := N.mod_lt mid (2 ^ 32) ltac:(discriminate)).
  assert (Ep : a * b = t mod 2 ^ 32 + 2 ^ 32 * (mid mod 2 ^ 32) + 2 ^ 64 * (a1 * b1 + m / 2 ^ 32 + mid / 2 ^ 32)).
  { assert (Ef : a * b = 2 ^ 64 * (a1 * b1) + 2 ^ 32 * (a1 * b0) + 2 ^ 32 * (a0 * b1) + a0 * b0).
    { rewrite Ea, Eb. fold a0 b0 a1 b1. change (2 ^ 64) with (2 ^ 32 * 2 ^ 32). ring. }
    rewrite Ef. fold t. change (2 ^ 64) with (2 ^ 32 * 2 ^ 32) in *. clear - Dt Dm Dmid. subst mid m. lia. }
  assert (Hlow : t mod 2 ^ 32 + 2 ^ 32 * (mid mod 2 ^ 32) < 2 ^ 64) by (change (2 ^ 64) with (2 ^ 32 * 2 ^ 32); lia).
  assert (Hhi : a1 * b1 + m / 2 ^ 32 + mid / 2 ^ 32 < 2 ^ 64).
  { apply (N.mul_lt_mono_pos_l (2 ^ 64)); [reflexivity|].
    assert (a * b < 2 ^ 64 * 2 ^ 64) by (apply N.mul_lt_mono; assumption). lia. }
  f_equal.
  - rewrite (N.mod_small (mid mod 2 ^ 32 * 2 ^ 32)) by (change (2 ^ 64) with (2 ^ 32 * 2 ^ 32); lia).
    rewrite lor_mul by exact Lt. unfold u64. rewrite Ep. rewrite N.mul_comm with (n := 2 ^ 64). rewrite N.mod_add by discriminate.
    rewrite (N.mod_small _ (2 ^ 64)) by exact Hlow. lia.
  - rewrite Ep. rewrite N.mul_comm with (n := 2 ^ 64). rewrite N.div_add by discriminate. rewrite (N.div_small _ (2 ^ 64)) by exact Hlow.
    unfold u64. rewrite (N.mod_small (a1 * b1)) by (clear - Hhi; lia). rewrite (N.mod_small (a1 * b1 + m / 2 ^ 32)) by (clear - Hhi; lia). rewrite (N.mod_small _ (2 ^ 64)) by (clear - Hhi; lia). clear; lia.
Qed.
