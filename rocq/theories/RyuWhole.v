(** Printing a whole number: sign, zero, range of the exponents, length of the text. *)
From Coq Require Import QArith Qabs Qpower Lqa Lia ZArith.
From Verif Require Import Base ScanModel JsonSpec NumSpec DoubleSpec DoubleRound IntModel IntProofs NumParse
  DoubleModel DoubleProofs DoubleClear DoubleRead RyuModel RyuShort RyuRow RyuDecode RyuNearest RyuText RyuPrint.
Local Open Scope Z_scope.

(** ** The sign bit *)
Section Sign.
Variables (T : finfo) (mu n : N) (bad : Z) (neg : bool) (b : N).
Hypothesis K : checked T mu n bad.
Hypothesis Hb : (b <= infinity (pw T) (ew T))%N.
Let bits := with_sign (pw T) (ew T) neg b.

Lemma below_sign : (b < 2 ^ (pw T + ew T))%N.
Proof.
  eapply N.le_lt_trans; [exact Hb|]. unfold infinity. rewrite N.pow_add_r, N.mul_comm.
  assert (A := pow2_pos (pw T)). assert (B := pow2_pos (ew T)). apply N.mul_lt_mono_pos_l; lia.
Qed.

Lemma sign_bit : N.testbit bits (Z.to_N (mentissa_width T + exponent_width T)) = neg.
Proof.
  assert (A := ck_width _ _ _ _ K). assert (B := ck_exp _ _ _ _ K).
  replace (Z.to_N (mentissa_width T + exponent_width T)) with (pw T + ew T)%N by (unfold pw, ew; lia).
  assert (H := below_sign). assert (P := pow2_pos (pw T + ew T)). unfold bits, with_sign. set (k := (pw T + ew T)%N) in *.
  destruct neg.
  - rewrite N.testbit_true. replace ((2 ^ k + b) / 2 ^ k)%N with 1%N; [reflexivity|]. apply (N.div_unique _ _ _ b); lia.
  - rewrite N.testbit_false. rewrite N.add_0_l, N.div_small by exact H. reflexivity.
Qed.

Lemma fraction_sign : fraction T bits = fraction T b.
Proof.
  unfold fraction, bits, with_sign. fold (pw T). destruct neg; [|reflexivity].
  rewrite N.pow_add_r, N.add_comm, (N.mul_comm (2 ^ pw T)). apply N.mod_add. apply N.pow_nonzero. discriminate.
Qed.

Lemma biased_sign : biased T bits = biased T b.
Proof.
  unfold biased, bits, with_sign. fold (pw T) (ew T). destruct neg; [|reflexivity].
  rewrite N.pow_add_r, N.add_comm, (N.mul_comm (2 ^ pw T)), N.div_add by (apply N.pow_nonzero; discriminate).
  rewrite <- (N.mul_1_l (2 ^ ew T)) at 1. apply N.mod_add. apply N.pow_nonzero. discriminate.
Qed.

Lemma parts_sign : mantissa T bits = mantissa T b /\ exponent T bits = exponent T b /\ single_gap T bits = single_gap T b.
Proof. unfold mantissa, exponent, single_gap. rewrite fraction_sign, biased_sign. auto. Qed.

Lemma inside_sign q i D : inside T mu bits q i D -> inside T mu b q i D.
Proof. unfold inside. destruct parts_sign as (-> & -> & ->). auto. Qed.
End Sign.

Lemma finite_biased T mu n bad b : checked T mu n bad -> (b < infinity (pw T) (ew T))%N -> (biased T b < 2 ^ ew T - 1)%N.
Proof.
  intros K Hb. destruct (N.eq_dec b 0) as [->|H0].
  - unfold biased. rewrite N.div_0_l, N.mod_0_l by (apply N.pow_nonzero; discriminate). unfold infinity in Hb.
    destruct (2 ^ ew T - 1)%N; [cbn in Hb; lia|lia].
  - pose proof (split_b T b Hb ltac:(lia)) as S. cbv zeta in S. exact (proj1 (proj2 (proj2 S))).
Qed.

Lemma not_special T mu n bad neg b : checked T mu n bad -> (b < infinity (pw T) (ew T))%N ->
  is_nan T (with_sign (pw T) (ew T) neg b) = false /\ is_inf T (with_sign (pw T) (ew T) neg b) = false.
Proof.
  intros K Hb. assert (F := finite_biased T mu n bad b K Hb).
  rewrite <- (biased_sign T neg b) in F. assert (B := ck_exp _ _ _ _ K).
  unfold is_nan, is_inf, get_parts. fold (biased T (with_sign (pw T) (ew T) neg b)).
  replace (Z.of_N (biased T (with_sign (pw T) (ew T) neg b)) =? 2 ^ exponent_width T - 1) with false; [auto|].
  symmetry. apply Z.eqb_neq. replace (2 ^ exponent_width T) with (Z.of_N (2 ^ ew T)) by (unfold ew; rewrite N2Z.inj_pow, Z2N.id by lia; reflexivity).
  clear - F. lia.
Qed.

(** ** The range of the printed number *)
Lemma nearest_range p w x b : nearest p w x b -> (0 < b)%N -> (b < infinity p w)%N -> (0 <= x)%Q ->
  (inject_Z 2 ^ (funit p w - 1) <= x)%Q /\ (x <= fp_value p w (infinity p w))%Q.
Proof.
  intros [_ H] H0 Hi Hx. assert (Hu := q2pos (funit p w)). split.
  - destruct (H 0%N ltac:(lia) ltac:(lia)) as [L _].
    assert (V0 : (fp_value p w 0 == 0)%Q).
    { rewrite fp_value_fint. unfold fint. rewrite N.div_0_l, N.mod_0_l by (apply N.pow_nonzero; discriminate).
      rewrite N.mod_0_l by (apply N.pow_nonzero; discriminate). change (0 =? 0)%N with true. cbv iota. change (inject_Z (Z.of_N 0)) with 0%Q. ring. }
    assert (V1 : (inject_Z 2 ^ funit p w <= fp_value p w b)%Q).
    { rewrite fp_value_fint. assert (M := fint_mono p w 0 b H0 ltac:(lia)). assert (N := fint_nonneg p w 0 ltac:(lia)).
      assert (M1 : 1 <= fint p w b) by lia. rewrite Zle_Qle in M1. rewrite <- (Qmult_1_l (inject_Z 2 ^ funit p w)) at 1.
      apply Qmult_le_compat_r; [exact M1|apply Qlt_le_weak; exact Hu]. }
    assert (E : (inject_Z 2 ^ funit p w == 2 * inject_Z 2 ^ (funit p w - 1))%Q).
    { replace (funit p w) with (1 + (funit p w - 1)) at 1 by lia. rewrite q2add. reflexivity. }
    rewrite V0 in L. revert L V1 E. generalize (fp_value p w b), (inject_Z 2 ^ funit p w)%Q, (inject_Z 2 ^ (funit p w - 1))%Q.
    clear - Hx. intros v u u' L V E. revert L. repeat (apply Qabs_case; intros ?); intros; lra.
  - destruct (H (infinity p w) ltac:(lia) ltac:(lia)) as [L _].
    assert (V : (fp_value p w b < fp_value p w (infinity p w))%Q).
    { rewrite !fp_value_fint. apply Qmult_lt_compat_r; [exact Hu|]. rewrite <- Zlt_Qlt. apply fint_mono; lia. }
    revert L V. generalize (fp_value p w b), (fp_value p w (infinity p w)). clear. intros v u L V.
    revert L. repeat (apply Qabs_case; intros ?); intros; lra.
Qed.

(** Bounds of a format: powers of ten around its numbers, the digits of their exponents and of
    their significands. *)
Record bounds (T : finfo) (n : N) (lo hi : Z) (k c : nat) : Prop := mkBounds {
  bo_lo : (inject_Z 10 ^ lo <= inject_Z 2 ^ (funit (pw T) (ew T) - 1))%Q;
  bo_hi : (fp_value (pw T) (ew T) (infinity (pw T) (ew T)) < inject_Z 10 ^ hi)%Q;
  bo_range : -324 <= lo /\ hi <= 309 /\ lo <= 0 /\ 1 <= hi;
  bo_k : (1 <= k <= 3)%nat /\ - lo < 10 ^ Z.of_nat k /\ hi - 1 < 10 ^ Z.of_nat k;
  bo_c : (n <= 10 ^ N.of_nat c)%N /\ (1 <= c <= 17)%nat;
  bo_expanded : expanded_length T <= 20 }.

Lemma double_bounds : bounds double_info (10 ^ 17) (-324) 309 3 17.
Proof.
  constructor; [vm_compute; discriminate|vm_compute; reflexivity|lia| |split; [apply N.le_refl|lia]|vm_compute; discriminate].
  split; [lia|]. split; reflexivity.
Qed.
Lemma float_bounds : bounds float_info (10 ^ 9) (-46) 39 2 9.
Proof.
  constructor; [vm_compute; discriminate|vm_compute; reflexivity|lia| |split; [apply N.le_refl|lia]|vm_compute; discriminate].
  split; [lia|]. split; reflexivity.
Qed.

Lemma exp_digits e (k : nat) : Z.abs e < 1000 -> (1 <= k)%nat -> Z.abs e < 10 ^ Z.of_nat k -> (count_chars T_int e <= k)%nat.
Proof.
  intros H Hk Hb. destruct (count_chars_spec T_int e) as (H1 & H2 & H3); [cbv; auto|cbv [i_min i_max T_int i_bits i_signed]; cbn; lia|].
  destruct (Nat.le_gt_cases (count_chars T_int e) k) as [L|L]; [exact L|]. specialize (H3 ltac:(lia)).
  assert (10 ^ Z.of_nat k <= 10 ^ (Z.of_nat (count_chars T_int e) - 1)) by (apply Z.pow_le_mono_r; lia). lia.
Qed.

Lemma text_length max count E D (k : nat) : (1 <= count)%nat -> Z.abs (E + Z.of_nat count - 1) < 1000 -> (1 <= k)%nat ->
  Z.abs (E + Z.of_nat count - 1) < 10 ^ Z.of_nat k ->
  Z.of_nat (length (number_text max count E D)) <= Z.max (max - 1) (Z.of_nat (count + 3 + k)).
Proof.
  intros Hc He Hk Hb. unfold number_text. destruct (Z.ltb_spec (complete_of count E) max) as [H|H].
  - rewrite expanded_length_eq by exact Hc. lia.
  - assert (X := exp_digits _ k He Hk Hb). unfold scientific_text. rewrite !app_length, digits_of_length. cbn [length].
    assert (Y := exp_text_length (E + Z.of_nat count - 1)). destruct (_ <? 0); destruct (Z.ltb_spec 1 (Z.of_nat count)); cbn [length]; rewrite ?digits_of_length; lia.
Qed.

Lemma exp_range D E c lo hi x : (scaled (Z.of_N D) 10 E == x)%Q -> (1 <= c)%nat -> (D < 10 ^ N.of_nat c)%N -> (10 ^ N.of_nat (c - 1) <= D)%N ->
  (inject_Z 10 ^ lo <= x)%Q -> (x < inject_Z 10 ^ hi)%Q -> lo <= E + Z.of_nat c - 1 <= hi - 1.
Proof.
  intros Ex Hc H1 H2 L U. rewrite <- Ex in L, U. split.
  - assert (X : (scaled (Z.of_N D) 10 E < inject_Z 10 ^ (Z.of_nat c + E))%Q).
    { apply scaled_upper; [|lia]. rewrite <- nat_N_Z. change 10 with (Z.of_N 10). rewrite <- N2Z.inj_pow. lia. }
    assert (Y : (inject_Z 10 ^ lo < inject_Z 10 ^ (Z.of_nat c + E))%Q) by (eapply Qle_lt_trans; [exact L|exact X]).
    apply q10_lt in Y. lia.
  - assert (X : (inject_Z 10 ^ (Z.of_nat (c - 1) + E) <= scaled (Z.of_N D) 10 E)%Q).
    { apply scaled_lower; [|lia]. rewrite <- nat_N_Z. change 10 with (Z.of_N 10). rewrite <- N2Z.inj_pow. lia. }
    assert (Y : (inject_Z 10 ^ (Z.of_nat (c - 1) + E) < inject_Z 10 ^ hi)%Q) by (eapply Qle_lt_trans; [exact X|exact U]).
    apply q10_lt in Y. lia.
Qed.

Definition tiny_rel : Q := 1 # 1298074214633706907132624082305024.

Lemma nearest_zero p w : nearest p w 0 0.
Proof.
  assert (V0 : forall b, (b <= infinity p w)%N -> (0 <= fp_value p w b)%Q).
  { intros b Hb. rewrite fp_value_fint. apply Qmult_le_0_compat; [apply inj_nonneg, fint_nonneg, Hb|apply Qlt_le_weak, q2pos]. }
  assert (Z0 : (fp_value p w 0 == 0)%Q).
  { rewrite fp_value_fint. unfold fint. rewrite N.div_0_l, N.mod_0_l by (apply N.pow_nonzero; discriminate).
    rewrite N.mod_0_l by (apply N.pow_nonzero; discriminate). change (0 =? 0)%N with true. cbv iota. change (inject_Z (Z.of_N 0)) with 0%Q. ring. }
  split; [lia|]. intros b' Hb' _. split; [|reflexivity]. rewrite Z0. change (Qabs (0 - 0)) with 0%Q. apply Qabs_nonneg.
Qed.

Lemma clear_zero p w eps : clear_of_halfway p w eps 0.
Proof.
  intros b Hb. left. unfold halfway. apply Qle_shift_div_l; [reflexivity|].
  assert (V0 : forall b, (b <= infinity p w)%N -> (0 <= fp_value p w b)%Q).
  { intros b' Hb'. rewrite fp_value_fint. apply Qmult_le_0_compat; [apply inj_nonneg, fint_nonneg, Hb'|apply Qlt_le_weak, q2pos]. }
  assert (A := V0 b ltac:(lia)). assert (B := V0 (b + 1)%N ltac:(lia)). lra.
Qed.

Lemma number_from_text T bits buffer r neg count E D : is_nan T bits = false -> is_inf T bits = false -> decode T bits = Ok r ->
  r = mkBase10 neg false false (Z.of_nat count) E D ->
  (1 <= count <= 17)%nat -> Z.abs (E + Z.of_nat count - 1) < 1000 ->
  (2 + length (number_text (expanded_length T) count E D) <= length buffer)%nat ->
  number_from T bits buffer = Ok (Some (TNumber, minus neg ++ number_text (expanded_length T) count E D)).
Proof.
  intros N1 N2 Ed -> Hc He Hl. unfold number_from, to_buffer. rewrite N1, N2, Ed. cbn [orb obind].
  destruct (convert_spec neg count E D buffer (expanded_length T) Hc He) as (rest & ->).
  { destruct neg; cbn [minus length]; lia. }
  cbn [obind]. set (l := minus neg ++ number_text (expanded_length T) count E D).
  assert (Hpos : (0 < length l)%nat).
  { unfold l. rewrite app_length. unfold number_text. destruct (_ <? _).
    - assert (X := expanded_length_eq count E D ltac:(lia)). unfold complete_of in X. lia.
    - unfold scientific_text. rewrite app_length, digits_of_length. lia. }
  replace (Z.of_nat (length l) <=? 0) with false by (symmetry; apply Z.leb_gt; lia).
  rewrite Nat2Z.id. rewrite firstn_app_exact by reflexivity. reflexivity.
Qed.

Lemma printed T mu n bad lo hi k c neg b buffer : checked T mu n bad -> bounds T n lo hi k c -> (mu <= 44)%N ->
  (b < infinity (pw T) (ew T))%N -> (single_gap T b = true -> exponent T b <> bad) ->
  2 + Z.max (expanded_length T - 1) (Z.of_nat (c + 3 + k)) <= Z.of_nat (length buffer) ->
  exists l x, number_from T (with_sign (pw T) (ew T) neg b) buffer = Ok (Some (TNumber, minus neg ++ l)) /\
    good_text neg l x /\ nearest (pw T) (ew T) x b /\ clear_of_halfway (pw T) (ew T) tiny_rel x /\
    ((x == 0)%Q \/ (inject_Z 10 ^ lo <= x)%Q).
Proof.
  intros K B Hmu Hb Hbad Hlen. destruct (not_special T mu n bad neg b K Hb) as [N1 N2].
  destruct (bo_c _ _ _ _ _ _ B) as [Hn Hc17]. destruct (bo_k _ _ _ _ _ _ B) as (Hk & Hk1 & Hk2). destruct (bo_range _ _ _ _ _ _ B) as (R1 & R2 & R3 & R4).
  assert (Hmax := bo_expanded _ _ _ _ _ _ B). set (bits := with_sign (pw T) (ew T) neg b) in *.
  pose proof (sign_bit T mu n bad neg b K ltac:(lia)) as Sg. cbv zeta in Sg. fold bits in Sg.
  destruct (N.eq_dec b 0) as [E0|E0].
  - (* zero *)
    assert (Hdec : decode T bits = Ok (mkBase10 neg false false 1 0 0)).
    { unfold decode, get_parts. fold (biased T bits) (fraction T bits). rewrite N1, N2.
      rewrite Sg. unfold bits. rewrite biased_sign, fraction_sign. subst b.
      unfold biased, fraction. rewrite N.div_0_l, !N.mod_0_l by (apply N.pow_nonzero; discriminate). reflexivity. }
    exists (number_text (expanded_length T) 1 0 0), (scaled 0 10 0).
    split; [|split; [|split; [|split; [|left; reflexivity]]]].
    + apply (number_from_text T bits buffer _ neg 1 0 0 N1 N2 Hdec eq_refl); [lia|cbn; lia|].
      assert (X := text_length (expanded_length T) 1 0 0 k ltac:(lia) ltac:(cbn; lia) ltac:(lia) ltac:(cbn; apply Z.pow_pos_nonneg; lia)). lia.
    + apply (number_text_spec neg (expanded_length T) 1 0 0); [reflexivity|reflexivity|reflexivity|cbn; lia|exact Hmax].
    + rewrite E0. apply (nearest_eq _ _ 0%Q); [reflexivity|apply nearest_zero].
    + apply (clear_eq _ _ _ 0%Q); [reflexivity|apply clear_zero].
  - assert (Hb0 : (0 < b)%N) by lia. destruct (parts_sign T neg b) as (P1 & P2 & P3). fold bits in P1, P2, P3.
    destruct (decode_spec T mu n bad bits K) as (q & i & D & Hq & HD & I & Ed).
    { unfold bits. rewrite biased_sign. exact (finite_biased T mu n bad b K Hb). }
    { rewrite P1. exact (m_pos T b Hb Hb0). }
    { rewrite P3, P2. exact Hbad. }
    rewrite P2 in Hq, Ed. unfold bits in I. apply inside_sign in I.
    destruct (inside_nearest T mu n bad b q i D K Hmu Hb Hb0 Hq I) as [Hnear Hclear].
    rewrite Sg in Ed.
    set (E := Z.of_N i + Z.min (exponent T b) 0 + q) in *. set (x := scaled (Z.of_N D) 10 E) in *.
    assert (HD17 : (D < 10 ^ 17)%N).
    { eapply N.lt_le_trans; [exact (proj2 HD)|]. eapply N.le_trans; [exact Hn|]. apply N.pow_le_mono_r; [discriminate|lia]. }
    destruct (count_digits D HD17) as (C1 & C2 & C3 & _). specialize (C3 (proj1 HD)).
    set (count := count_chars T_uint64 (Z.of_N D)) in *.
    assert (Hx0 : (0 <= x)%Q) by (apply Qmult_le_0_compat; [apply inj_nonneg; lia|apply Qlt_le_weak, q10pos]).
    destruct (nearest_range _ _ _ _ Hnear Hb0 Hb Hx0) as [X1 X2].
    assert (Xlo : (inject_Z 10 ^ lo <= x)%Q) by (eapply Qle_trans; [exact (bo_lo _ _ _ _ _ _ B)|exact X1]).
    assert (Xhi : (x < inject_Z 10 ^ hi)%Q) by (eapply Qle_lt_trans; [exact X2|exact (bo_hi _ _ _ _ _ _ B)]).
    assert (HE := exp_range D E count lo hi x (Qeq_refl _) ltac:(lia) C2 C3 Xlo Xhi).
    assert (Hcc : (count <= c)%nat).
    { destruct (Nat.le_gt_cases count c) as [L|L]; [exact L|]. exfalso.
      assert (10 ^ N.of_nat c <= 10 ^ N.of_nat (count - 1))%N by (apply N.pow_le_mono_r; [discriminate|lia]).
      clear - H HD Hn C3. lia. }
    exists (number_text (expanded_length T) count E D), x.
    split; [|split; [|split; [exact Hnear|split; [exact Hclear|right; exact Xlo]]]].
    + apply (number_from_text T bits buffer _ neg count E D N1 N2 Ed eq_refl); [exact C1|clear - HE R1 R2; lia|].
      assert (X := text_length (expanded_length T) count E D k ltac:(lia) ltac:(clear - HE R1 R2; lia) ltac:(lia) ltac:(clear - HE Hk1 Hk2 R3 R4; lia)).
      clear - X Hlen Hcc. lia.
    + apply number_text_spec; [exact HD17|reflexivity|intros Z; clear - Z HD; lia|clear - HE R1 R2; lia|exact Hmax].
Qed.

(** ** Reading a printed double *)
Lemma good_text_read neg l x b : good_text neg l x -> (x == 0 \/ inject_Z 10 ^ (-324) <= x)%Q ->
  nearest 52 11 x b -> clear_of_halfway 52 11 tiny_rel x -> double_to (minus neg ++ l) = Ok (NoError, with_sign 52 11 neg b).
Proof.
  intros (m & p & Hl & Ex & Hh & Hm & _ & Hr) Hx Hn Hc.
  destruct (double_to_decimal neg l m p Hl Hh Hm) as (b' & H & _ & N & _).
  - destruct Hr as [Hr|Hr]; [left; exact Hr|right]. split; [exact Hr|]. destruct Hx as [Hx|Hx].
    + left. rewrite Hx in Ex. unfold scaled in Ex. assert (P := DoubleProofs.q10pos p).
      destruct (Qmult_integral _ _ Ex) as [Z|Z]; [|rewrite Z in P; discriminate P]. apply (proj1 (inject_Z_injective m 0)). exact Z.
    + right. rewrite Ex. exact Hx.
  - unfold minus. rewrite H. do 3 f_equal. apply (nearest_unique 52 11 x); [|exact Hn].
    apply (nearest_eq _ _ _ _ _ Ex). apply N. apply (clear_eq 52 11 tiny_rel x); [symmetry; exact Ex|exact Hc].
Qed.
