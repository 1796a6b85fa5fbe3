(** The 128-bit helpers compute what they should on the number held in two words. *)
From Coq Require Import Lia ZArith.
From Verif Require Import Base IntModel DoubleModel EscapeProofs BigProofs.
Local Open Scope N_scope.

Definition V2 (a : w128) : N := fst a + 2 ^ 64 * snd a.
Definition ok128 (a : w128) : Prop := fst a < 2 ^ 64 /\ snd a < 2 ^ 64.

Lemma V2_lt a : ok128 a -> V2 a < 2 ^ 128.
Proof. destruct a as [a0 a1]. intros [H0 H1]. unfold V2. cbn [fst snd] in *. change (2 ^ 128) with (2 ^ 64 * 2 ^ 64). nia. Qed.

Lemma lor_mul a b n : b < 2 ^ n -> N.lor (a * 2 ^ n) b = a * 2 ^ n + b.
Proof. intros H. rewrite <- N.shiftl_mul_pow2. rewrite lor_shift by exact H. rewrite N.shiftl_mul_pow2. reflexivity. Qed.

Lemma shr_div a s : shr a s = a / 2 ^ s.
Proof. apply N.shiftr_div_pow2. Qed.

Lemma shl_mul a s : shl a s = (a * 2 ^ s) mod 2 ^ 64.
Proof. unfold shl, u64. rewrite N.shiftl_mul_pow2. reflexivity. Qed.

Lemma pow_split s : s <= 64 -> 2 ^ 64 = 2 ^ (64 - s) * 2 ^ s.
Proof. intros H. rewrite <- N.pow_add_r. f_equal. lia. Qed.

Lemma shl_mod a s : s <= 64 -> shl a s = (a mod 2 ^ (64 - s)) * 2 ^ s.
Proof.
  intros Hs. rewrite shl_mul. rewrite (pow_split s Hs).
  rewrite N.mul_mod_distr_r; [reflexivity| |]; apply N.pow_nonzero; discriminate.
Qed.

Lemma shl_lt a s : shl a s < 2 ^ 64.
Proof. unfold shl, u64. apply N.mod_lt. discriminate. Qed.

Lemma lor_lt a b n : a < 2 ^ n -> b < 2 ^ n -> N.lor a b < 2 ^ n.
Proof.
  intros Ha Hb. destruct (N.eq_dec a 0) as [->|Ea]; [exact Hb|].
  destruct (N.eq_dec b 0) as [->|Eb]; [rewrite N.lor_0_r; exact Ha|].
  apply N.log2_lt_pow2.
  - apply N.neq_0_lt_0. intros E. apply N.lor_eq_0_l in E. exact (Ea E).
  - rewrite N.log2_lor. apply N.max_lub_lt; apply N.log2_lt_pow2; lia.
Qed.

Lemma div_pow_lt a n s : s <= n -> a < 2 ^ n -> a / 2 ^ s < 2 ^ (n - s).
Proof.
  intros Hs Ha. apply N.div_lt_upper_bound; [apply N.pow_nonzero; discriminate|].
  rewrite <- N.pow_add_r. replace (s + (n - s)) with n by lia. exact Ha.
Qed.

Lemma left_shift_by_spec s a : 0 < s < 64 -> ok128 a ->
  ok128 (left_shift_by s a) /\ V2 (left_shift_by s a) = (V2 a * 2 ^ s) mod 2 ^ 128.
Proof.
  destruct a as [a0 a1]. intros Hs [H0 H1]. cbn [fst snd] in *. unfold left_shift_by.
  assert (Hd : shr a0 (64 - s) < 2 ^ s).
  { rewrite shr_div. replace s with (64 - (64 - s)) at 2 by lia. apply div_pow_lt; [lia|exact H0]. }
  assert (Hp : 0 < 2 ^ (64 - s)) by (apply N.neq_0_lt_0, N.pow_nonzero; discriminate).
  assert (Hq : 0 < 2 ^ s) by (apply N.neq_0_lt_0, N.pow_nonzero; discriminate).
  assert (Hps := pow_split s ltac:(lia)).
  assert (Hle : 2 ^ s <= 2 ^ 64) by (apply N.pow_le_mono_r; lia).
  split.
  - split; cbn [fst snd]; [apply shl_lt|]. apply lor_lt; [apply shl_lt|]. lia.
  - unfold V2. cbn [fst snd]. rewrite !shl_mod by lia. rewrite lor_mul by exact Hd. rewrite shr_div.
    assert (Hm := N.mod_lt a1 (2 ^ (64 - s)) ltac:(lia)).
    assert (Hm0 := N.mod_lt a0 (2 ^ (64 - s)) ltac:(lia)).
    assert (E1 := N.div_mod a1 (2 ^ (64 - s)) ltac:(lia)).
    assert (E0 := N.div_mod a0 (2 ^ (64 - s)) ltac:(lia)).
    apply (N.mod_unique _ _ (a1 / 2 ^ (64 - s))).
    + change (2 ^ 128) with (2 ^ 64 * 2 ^ 64). rewrite shr_div in Hd. rewrite Hps at 2 3.
      set (P := 2 ^ (64 - s)) in *. set (Q := 2 ^ s) in *. rewrite Hps.
      set (m0 := a0 mod P) in *. set (m1 := a1 mod P) in *. set (d0 := a0 / P) in *. clearbody P Q m0 m1 d0. clear - Hm Hm0 Hd Hp Hq.
      assert (m0 * Q + Q <= P * Q) by nia. assert (m1 * Q + d0 + 1 <= P * Q) by nia. nia.
    + change (2 ^ 128) with (2 ^ 64 * 2 ^ 64).
      set (P := 2 ^ (64 - s)) in *. set (Q := 2 ^ s) in *. rewrite Hps. rewrite E0 at 1. rewrite E1 at 1. ring.
Qed.

Lemma left_shift_spec s a : s < 128 -> ok128 a -> V2 a * 2 ^ s < 2 ^ 128 ->
  ok128 (left_shift a s) /\ V2 (left_shift a s) = V2 a * 2 ^ s.
Proof.
  destruct a as [a0 a1]. intros Hs H Hlt. unfold left_shift.
  destruct (N.eqb_spec s 0) as [->|Hz]; [split; [exact H|rewrite N.pow_0_r; lia]|].
  destruct (N.leb_spec 64 s) as [H64|H64].
  - destruct H as [H0 H1]. unfold V2 in *. cbn [fst snd] in *.
    assert (E : 2 ^ s = 2 ^ 64 * 2 ^ (s - 64)) by (rewrite <- N.pow_add_r; f_equal; lia).
    assert (Hp : 0 < 2 ^ (s - 64)) by (apply N.neq_0_lt_0, N.pow_nonzero; discriminate).
    set (Q := 2 ^ (s - 64)) in *. rewrite E in Hlt. change (2 ^ 128) with (2 ^ 64 * 2 ^ 64) in Hlt.
    assert (Ha1 : a1 = 0).
    { destruct (N.eq_dec a1 0) as [E1|E1]; [exact E1|exfalso].
      set (T := 2 ^ 64) in *. assert (HT : 0 < T) by reflexivity. clearbody T Q. clear - Hlt Hp HT E1.
      assert (T * 1 <= T * Q) by (apply N.mul_le_mono_l; lia).
      assert (T * 1 <= a0 + T * a1) by (assert (T * 1 <= T * a1) by (apply N.mul_le_mono_l; lia); lia).
      assert (T * T <= (a0 + T * a1) * (T * Q)) by (apply N.mul_le_mono; lia). lia. }
    subst a1.
    split.
    + split; cbn [fst snd]; [reflexivity|apply shl_lt].
    + rewrite shl_mul. fold Q. rewrite N.mod_small.
      * rewrite E. ring.
      * set (T := 2 ^ 64) in *. assert (0 < T) by reflexivity. clearbody T. clear - Hlt H. nia.
  - destruct (left_shift_by_spec s (a0, a1) ltac:(lia) H) as (Hok & E).
    split; [exact Hok|]. rewrite E. apply N.mod_small, Hlt.
Qed.

Lemma right_shift_spec a : ok128 a -> ok128 (right_shift a) /\ V2 (right_shift a) = V2 a / 2.
Proof.
  destruct a as [a0 a1]. intros [H0 H1]. unfold right_shift, ok128, V2. cbn [fst snd] in *.
  rewrite !shr_div, shl_mod by lia. change (64 - 63) with 1. change (2 ^ 1) with 2.
  assert (Hd : a0 / 2 < 2 ^ 63) by (apply N.div_lt_upper_bound; [lia|exact H0]).
  rewrite N.lor_comm, lor_mul by exact Hd.
  assert (Hm := N.mod_lt a1 2 ltac:(lia)). assert (E1 := N.div_mod a1 2 ltac:(lia)). assert (E0 := N.div_mod a0 2 ltac:(lia)).
  assert (Hm0 := N.mod_lt a0 2 ltac:(lia)).
  change (2 ^ 64) with (2 * 2 ^ 63) in *. set (T := 2 ^ 63) in *. assert (0 < T) by reflexivity. clearbody T.
  split; [split; nia|]. apply (N.div_unique _ _ _ (a0 mod 2)); nia.
Qed.

Lemma low_mod x : low x = x mod 2 ^ 32.
Proof. unfold low. change 0xffffffff with (N.ones 32). apply N.land_ones. Qed.

Lemma mask32_mod x : mask32 x = x mod 2 ^ 32.
Proof. unfold mask32. change (2 ^ 32 - 1) with (N.ones 32). apply N.land_ones. Qed.

Lemma join32 h l : h < 2 ^ 32 -> l < 2 ^ 32 -> N.lor (l) (shl h 32) = h * 2 ^ 32 + l /\ h * 2 ^ 32 + l < 2 ^ 64.
Proof.
  intros Hh Hl. rewrite N.lor_comm, shl_mod by lia. change (64 - 32) with 32. rewrite N.mod_small by exact Hh.
  rewrite lor_mul by exact Hl. split; [reflexivity|]. change (2 ^ 64) with (2 ^ 32 * 2 ^ 32).
  set (T := 2 ^ 32) in *. clearbody T. nia.
Qed.

Lemma add_arith T a0h a0l a1h a1l b0h b0l b1h b1l c0 l0 c1 h0 c2 l1 :
  a0l + b0l = T * c0 + l0 -> a0h + b0h + c0 = T * c1 + h0 -> a1l + b1l + c1 = T * c2 + l1 ->
  T * a0h + a0l + T * T * (T * a1h + a1l) + (T * b0h + b0l + T * T * (T * b1h + b1l)) =
  h0 * T + l0 + T * T * ((a1h + b1h + c2) * T + l1).
Proof.
  intros F1 F2 F3.
  replace (T * a0h + a0l + T * T * (T * a1h + a1l) + (T * b0h + b0l + T * T * (T * b1h + b1l)))
    with ((a0l + b0l) + T * (a0h + b0h) + T * T * (a1l + b1l) + T * T * T * (a1h + b1h)) by ring.
  rewrite F1.
  replace (T * c0 + l0 + T * (a0h + b0h) + T * T * (a1l + b1l) + T * T * T * (a1h + b1h))
    with (l0 + T * (a0h + b0h + c0) + T * T * (a1l + b1l) + T * T * T * (a1h + b1h)) by ring.
  rewrite F2.
  replace (l0 + T * (T * c1 + h0) + T * T * (a1l + b1l) + T * T * T * (a1h + b1h))
    with (l0 + T * h0 + T * T * (a1l + b1l + c1) + T * T * T * (a1h + b1h)) by ring.
  rewrite F3. ring.
Qed.

Lemma add128_spec a b : ok128 a -> ok128 b -> V2 a + V2 b < 2 ^ 128 ->
  ok128 (add128 a b) /\ V2 (add128 a b) = V2 a + V2 b.
Proof.
  destruct a as [a0 a1], b as [b0 b1]. intros [Ha0 Ha1] [Hb0 Hb1] Hlt. unfold V2 in Hlt. cbn [fst snd] in *.
  unfold add128. cbv zeta. rewrite ?mask32_mod, ?low_mod. unfold high. rewrite !shr_div.
  assert (E : forall x, x < 2 ^ 64 -> x = 2 ^ 32 * (x / 2 ^ 32) + x mod 2 ^ 32 /\ x / 2 ^ 32 < 2 ^ 32 /\ x mod 2 ^ 32 < 2 ^ 32).
  { intros x Hx. split; [apply N.div_mod; discriminate|]. split; [|apply N.mod_lt; discriminate].
    apply N.div_lt_upper_bound; [discriminate|exact Hx]. }
  destruct (E a0 Ha0) as (Ea0 & Ha0h & Ha0l). destruct (E a1 Ha1) as (Ea1 & Ha1h & Ha1l).
  destruct (E b0 Hb0) as (Eb0 & Hb0h & Hb0l). destruct (E b1 Hb1) as (Eb1 & Hb1h & Hb1l). clear E.
  set (a0h := a0 / 2 ^ 32) in *. set (a0l := a0 mod 2 ^ 32) in *. set (a1h := a1 / 2 ^ 32) in *. set (a1l := a1 mod 2 ^ 32) in *.
  set (b0h := b0 / 2 ^ 32) in *. set (b0l := b0 mod 2 ^ 32) in *. set (b1h := b1 / 2 ^ 32) in *. set (b1l := b1 mod 2 ^ 32) in *.
  assert (D : forall x, x < 2 ^ 32 * 4 -> x = 2 ^ 32 * (x / 2 ^ 32) + x mod 2 ^ 32 /\ x / 2 ^ 32 < 4 /\ x mod 2 ^ 32 < 2 ^ 32).
  { intros x Hx. split; [apply N.div_mod; discriminate|]. split; [|apply N.mod_lt; discriminate].
    apply N.div_lt_upper_bound; [discriminate|exact Hx]. }
  assert (H64 : 2 ^ 64 = 2 ^ 32 * 2 ^ 32) by reflexivity.
  assert (S64 : forall x, x < 2 ^ 32 * 4 -> u64 x = x).
  { intros x Hx. apply u64_small. eapply N.lt_trans; [exact Hx|reflexivity]. }
  rewrite (S64 (a0l + b0l)) by (clear - Ha0l Hb0l; lia). rewrite (S64 (a0h + b0h)) by (clear - Ha0h Hb0h; lia). rewrite (S64 (a1l + b1l)) by (clear - Ha1l Hb1l; lia). rewrite (S64 (a1h + b1h)) by (clear - Ha1h Hb1h; lia).
  destruct (D (a0l + b0l) ltac:(clear - Ha0l Hb0l; lia)) as (F1 & G1 & K1).
  set (l0 := (a0l + b0l) mod 2 ^ 32) in *. set (c0 := (a0l + b0l) / 2 ^ 32) in *.
  assert (Hc0 : c0 < 2) by (clear - F1 Ha0l Hb0l; change (2 ^ 32) with 4294967296 in *; lia).
  rewrite (S64 (a0h + b0h + c0)) by (clear - Ha0h Hb0h Hc0; lia).
  destruct (D (a0h + b0h + c0) ltac:(clear - Ha0h Hb0h Hc0; lia)) as (F2 & G2 & K2).
  set (h0 := (a0h + b0h + c0) mod 2 ^ 32) in *. set (c1 := (a0h + b0h + c0) / 2 ^ 32) in *.
  assert (Hc1 : c1 < 2) by (clear - F2 Ha0h Hb0h Hc0; change (2 ^ 32) with 4294967296 in *; lia).
  rewrite (S64 (a1l + b1l + c1)) by (clear - Ha1l Hb1l Hc1; lia).
  destruct (D (a1l + b1l + c1) ltac:(clear - Ha1l Hb1l Hc1; lia)) as (F3 & G3 & K3).
  set (l1 := (a1l + b1l + c1) mod 2 ^ 32) in *. set (c2 := (a1l + b1l + c1) / 2 ^ 32) in *.
  assert (Hc2 : c2 < 2) by (clear - F3 Ha1l Hb1l Hc1; change (2 ^ 32) with 4294967296 in *; lia).
  rewrite (S64 (a1h + b1h + c2)) by (clear - Ha1h Hb1h Hc2; lia).
  assert (Hs : forall x, x < 2 ^ 32 * 4 -> shl x 32 = shl (x mod 2 ^ 32) 32).
  { intros x Hx. rewrite !shl_mod by discriminate. change (64 - 32) with 32. rewrite N.mod_mod by discriminate. reflexivity. }
  rewrite (Hs (a0h + b0h + c0)) by (clear - Ha0h Hb0h Hc0; lia). fold h0.
  assert (Et : a0 + 2 ^ 64 * a1 + (b0 + 2 ^ 64 * b1) = h0 * 2 ^ 32 + l0 + 2 ^ 64 * ((a1h + b1h + c2) * 2 ^ 32 + l1)).
  { rewrite Ea0, Ea1, Eb0, Eb1, H64. exact (add_arith _ _ _ _ _ _ _ _ _ _ _ _ _ _ _ F1 F2 F3). }
  assert (Hh1 : a1h + b1h + c2 < 2 ^ 32).
  { rewrite Et in Hlt. clearbody l0 h0 l1 c2. set (K := a1h + b1h + c2) in *. clearbody K. clear - Hlt.
    destruct (N.lt_ge_cases K (2 ^ 32)) as [L|L]; [exact L|exfalso]. revert Hlt. apply N.le_ngt.
    change (2 ^ 128) with (2 ^ 64 * (2 ^ 32 * 2 ^ 32)). apply N.mul_le_mono_r with (p := 2 ^ 32) in L.
    apply N.mul_le_mono_l with (p := 2 ^ 64) in L. rewrite N.mul_add_distr_l. lia. }
  destruct (join32 h0 l0 K2 K1) as (J1 & J2). destruct (join32 (a1h + b1h + c2) l1 Hh1 K3) as (J3 & J4).
  rewrite J1, J3. split; [split; assumption|]. unfold V2. cbn [fst snd].
  symmetry. exact Et.
Qed.

Lemma divide_by_10_spec a : ok128 a -> ok128 (divide_by_10 a) /\ V2 (divide_by_10 a) = V2 a / 10.
Proof.
  destruct a as [a0 a1]. intros [H0 H1]. cbn [fst snd] in *. unfold divide_by_10. cbv zeta.
  rewrite low_mod. unfold high. rewrite shr_div.
  assert (E0 := N.div_mod a0 (2 ^ 32) ltac:(discriminate)).
  assert (Hh : a0 / 2 ^ 32 < 2 ^ 32) by (apply N.div_lt_upper_bound; [discriminate|exact H0]).
  assert (Hl := N.mod_lt a0 (2 ^ 32) ltac:(discriminate)).
  set (h := a0 / 2 ^ 32) in *. set (l := a0 mod 2 ^ 32) in *.
  assert (E1 := N.div_mod a1 10 ltac:(discriminate)). assert (Hr := N.mod_lt a1 10 ltac:(discriminate)).
  set (r := a1 mod 10) in *. set (q1 := a1 / 10) in *.
  assert (Hsh : forall x, x < 10 -> shl x 32 = x * 2 ^ 32).
  { intros x Hx. rewrite shl_mod by lia. change (64 - 32) with 32. rewrite N.mod_small; [reflexivity|]. eapply N.lt_trans; [exact Hx|reflexivity]. }
  assert (Hu : forall x y, x < 10 -> y < 2 ^ 32 -> u64 (y + x * 2 ^ 32) = y + x * 2 ^ 32).
  { intros x y Hx Hy. apply u64_small. change (2 ^ 64) with (4294967296 * 4294967296). change (2 ^ 32) with 4294967296 in *. lia. }
  rewrite (Hsh r Hr). rewrite (Hu r h Hr Hh).
  assert (E2 := N.div_mod (h + r * 2 ^ 32) 10 ltac:(discriminate)). assert (Hr2 := N.mod_lt (h + r * 2 ^ 32) 10 ltac:(discriminate)).
  set (hd := (h + r * 2 ^ 32) / 10) in *. set (hr := (h + r * 2 ^ 32) mod 10) in *.
  rewrite (Hsh hr Hr2). rewrite (Hu hr l Hr2 Hl).
  assert (E3 := N.div_mod (l + hr * 2 ^ 32) 10 ltac:(discriminate)). assert (Hr3 := N.mod_lt (l + hr * 2 ^ 32) 10 ltac:(discriminate)).
  set (ld := (l + hr * 2 ^ 32) / 10) in *. set (lr := (l + hr * 2 ^ 32) mod 10) in *.
  assert (Hhd : hd < 2 ^ 32) by (clear - E2 Hh Hr; change (2 ^ 32) with 4294967296 in *; lia).
  assert (Hld : ld < 2 ^ 32) by (clear - E3 Hl Hr2; change (2 ^ 32) with 4294967296 in *; lia).
  destruct (join32 hd ld Hhd Hld) as (J1 & J2). rewrite N.lor_comm, J1.
  split; [split; cbn [fst snd]; [exact J2|]|].
  - clear - E1 H1. change (2 ^ 64) with (4294967296 * 4294967296) in *. lia.
  - unfold V2. cbn [fst snd]. apply (N.div_unique _ _ _ lr); [exact Hr3|].
    rewrite E0, E1. change (2 ^ 64) with (2 ^ 32 * 2 ^ 32). clear - E2 E3. change (2 ^ 32) with 4294967296 in *. lia.
Qed.

Lemma snd_div a : ok128 a -> snd a = V2 a / 2 ^ 64 /\ fst a = V2 a mod 2 ^ 64.
Proof.
  destruct a as [a0 a1]. intros [H0 H1]. unfold V2. cbn [fst snd] in *.
  split; [apply (N.div_unique _ _ _ a0)|apply (N.mod_unique _ _ a1)]; lia.
Qed.

Lemma has_mask_spec a : ok128 a -> has_mask a = (2 ^ 124 <=? V2 a).
Proof.
  intros H. unfold has_mask. destruct (snd_div a H) as (E & _). destruct H as [H0 H1].
  assert (Em : N.land (snd a) mask60 = (snd a / 2 ^ 60) * 2 ^ 60).
  { rewrite <- N.shiftr_div_pow2, <- N.shiftl_mul_pow2. rewrite <- N.ldiff_ones_r.
    apply N.bits_inj. intros n. rewrite N.land_spec, N.ldiff_spec. unfold mask60.
    replace (2 ^ 64 - 2 ^ 60) with (N.ldiff (N.ones 64) (N.ones 60)) by reflexivity. rewrite N.ldiff_spec.
    destruct (N.lt_ge_cases n 64) as [Hn|Hn].
    - rewrite (N.ones_spec_low 64) by exact Hn. reflexivity.
    - rewrite (N.ones_spec_high 64) by exact Hn.
      assert (N.testbit (snd a) n = false) as ->; [|reflexivity].
      destruct (N.eq_dec (snd a) 0) as [->|Hz]; [apply N.bits_0|].
      apply N.bits_above_log2. apply N.log2_lt_pow2; [lia|].
      eapply N.lt_le_trans; [exact H1|]. apply N.pow_le_mono_r; [discriminate|exact Hn]. }
  rewrite Em. assert (Hd := N.div_mod (snd a) (2 ^ 60) ltac:(discriminate)). assert (Hm := N.mod_lt (snd a) (2 ^ 60) ltac:(discriminate)).
  assert (Hv : V2 a = fst a + 2 ^ 64 * snd a) by reflexivity.
  set (q := snd a / 2 ^ 60) in *. set (m := snd a mod 2 ^ 60) in *.
  change (2 ^ 124) with (18446744073709551616 * 1152921504606846976). change (2 ^ 64) with 18446744073709551616 in *. change (2 ^ 60) with 1152921504606846976 in *.
  destruct (N.leb_spec (18446744073709551616 * 1152921504606846976) (V2 a)) as [L|L].
  - destruct (N.eqb_spec (q * 1152921504606846976) 0) as [Z|Z]; [exfalso|reflexivity]. clear - L Hv Hd Hm H0 Z. lia.
  - destruct (N.eqb_spec (q * 1152921504606846976) 0) as [Z|Z]; [reflexivity|exfalso]. clear - L Hv Hd Hm H0 Z. lia.
Qed.

Lemma shift_left_msb_spec a : ok128 a -> 0 < V2 a < 2 ^ 125 ->
  ok128 (fst (shift_left_msb a)) /\ exists s, snd (shift_left_msb a) = Z.of_N s /\
  V2 (fst (shift_left_msb a)) = V2 a * 2 ^ s /\ 2 ^ 124 <= V2 a * 2 ^ s < 2 ^ 125.
Proof.
  intros H Hv. assert (Hl : N.log2 (V2 a) < 125) by (apply N.log2_lt_pow2; [apply Hv|apply Hv]).
  assert (Hs := N.log2_spec (V2 a) ltac:(lia)).
  set (s := 124 - N.log2 (V2 a)).
  assert (Hb : 2 ^ 124 <= V2 a * 2 ^ s < 2 ^ 125).
  { replace (2 ^ 124) with (2 ^ N.log2 (V2 a) * 2 ^ s) by (rewrite <- N.pow_add_r; f_equal; unfold s; lia).
    replace (2 ^ 125) with (2 ^ N.succ (N.log2 (V2 a)) * 2 ^ s) by (rewrite <- N.pow_add_r; f_equal; unfold s; lia).
    assert (Hp : 0 < 2 ^ s) by (apply N.neq_0_lt_0, N.pow_nonzero; discriminate).
    split; [apply N.mul_le_mono_r, Hs|apply N.mul_lt_mono_pos_r; [exact Hp|apply Hs]]. }
  assert (Hls := left_shift_spec s a ltac:(unfold s; lia) H).
  assert (Hlt : V2 a * 2 ^ s < 2 ^ 128) by (eapply N.lt_trans; [apply Hb|reflexivity]).
  specialize (Hls Hlt).
  assert (Hsh : shift_left_msb a = (left_shift a s, Z.of_N s)).
  { destruct a as [a0 a1]. unfold shift_left_msb. destruct H as [H0 H1]. unfold V2 in *. cbn [fst snd] in *.
    assert (Esc : (124 - Z.of_N (N.log2 (a0 + 2 ^ 64 * a1)))%Z = Z.of_N s) by (unfold s; lia).
    destruct (N.eqb_spec a1 0) as [->|E1]; cbn [negb].
    - rewrite N.mul_0_r, N.add_0_r in *. destruct (N.eqb_spec a0 0) as [->|E0]; cbn [negb]; [lia|].
      rewrite Esc. destruct (Z.ltb_spec (Z.of_N s) 0); [lia|]. rewrite N2Z.id. reflexivity.
    - assert (El : N.log2 (a0 + 2 ^ 64 * a1) = N.log2 a1 + 64).
      { apply N.log2_unique; [lia|]. assert (Hs1 := N.log2_spec a1 ltac:(lia)).
        rewrite N.pow_succ_r' in *. rewrite N.pow_add_r. set (P := 2 ^ N.log2 a1) in *. set (T := 2 ^ 64) in *. clearbody P T. clear - Hs1 H0. nia. }
      rewrite El in Esc. replace (124 - (Z.of_N (N.log2 a1) + 64))%Z with (Z.of_N s) by lia.
      destruct (Z.ltb_spec (Z.of_N s) 0); [lia|]. rewrite N2Z.id. reflexivity. }
  rewrite Hsh. cbn [fst snd]. split; [apply Hls|]. exists s. split; [reflexivity|]. split; [apply Hls|exact Hb].
Qed.
