(** Printing whole floating point numbers and integers into buffers of any size. *)
From Coq Require Import QArith Qabs Qpower Lqa Lia ZArith.
From Verif Require Import Base ScanModel JsonSpec NumSpec DoubleSpec DoubleRound IntModel IntProofs NumParse
  DoubleModel DoubleProofs DoubleClear DoubleRead RyuModel RyuShort RyuRow RyuDecode RyuNearest RyuText RyuPrint RyuWhole
  BufModel BufSpec BufProofs.
Local Open Scope Z_scope.

(** What decode gives for a finite number, and the length of its text. *)
Definition decodes (T : finfo) (neg : bool) (bits : N) (len : Z) : Prop :=
  exists count E D, decode T bits = Ok (mkBase10 neg false false (Z.of_nat count) E D) /\
    (1 <= count <= 17)%nat /\ Z.abs (E + Z.of_nat count - 1) < 1000 /\
    Z.of_nat (length (number_text (expanded_length T) count E D)) <= len.

Lemma decoded T mu n bad lo hi k c neg b : checked T mu n bad -> bounds T n lo hi k c -> (mu <= 44)%N ->
  (b < infinity (pw T) (ew T))%N -> (single_gap T b = true -> exponent T b <> bad) ->
  decodes T neg (with_sign (pw T) (ew T) neg b) (Z.max (expanded_length T - 1) (Z.of_nat (c + 3 + k))).
Proof.
  intros K B Hmu Hb Hbad. destruct (not_special T mu n bad neg b K Hb) as [N1 N2].
  destruct (bo_c _ _ _ _ _ _ B) as [Hn Hc17]. destruct (bo_k _ _ _ _ _ _ B) as (Hk & Hk1 & Hk2). destruct (bo_range _ _ _ _ _ _ B) as (R1 & R2 & R3 & R4).
  set (bits := with_sign (pw T) (ew T) neg b) in *.
  pose proof (sign_bit T mu n bad neg b K ltac:(lia)) as Sg. cbv zeta in Sg. fold bits in Sg.
  destruct (N.eq_dec b 0) as [E0|E0].
  - exists 1%nat, 0, 0%N. split.
    + unfold decode, get_parts. fold (biased T bits) (fraction T bits). rewrite N1, N2.
      rewrite Sg. unfold bits. rewrite biased_sign, fraction_sign. subst b.
      unfold biased, fraction. rewrite N.div_0_l, !N.mod_0_l by (apply N.pow_nonzero; discriminate). reflexivity.
    + split; [lia|]. split; [cbn; lia|].
      assert (X := text_length (expanded_length T) 1 0 0 k ltac:(lia) ltac:(cbn; lia) ltac:(lia) ltac:(cbn; apply Z.pow_pos_nonneg; lia)). lia.
  - assert (Hb0 : (0 < b)%N) by lia. destruct (parts_sign T neg b) as (P1 & P2 & P3). fold bits in P1, P2, P3.
    destruct (decode_spec T mu n bad bits K) as (q & i & D & Hq & HD & I & Ed).
    { unfold bits. rewrite biased_sign. exact (finite_biased T mu n bad b K Hb). }
    { rewrite P1. exact (m_pos T b Hb Hb0). }
    { rewrite P3, P2. exact Hbad. }
    rewrite P2 in Hq, Ed. unfold bits in I. apply inside_sign in I.
    destruct (inside_nearest T mu n bad b q i D K Hmu Hb Hb0 Hq I) as [Hnear _].
    rewrite Sg in Ed.
    set (E := Z.of_N i + Z.min (exponent T b) 0 + q) in *. set (x := scaled (Z.of_N D) 10 E) in *.
    assert (HD17 : (D < 10 ^ 17)%N).
    { eapply N.lt_le_trans; [exact (proj2 HD)|]. eapply N.le_trans; [exact Hn|]. apply N.pow_le_mono_r; [discriminate|lia]. }
    destruct (count_digits D HD17) as (C1 & C2 & C3 & _). specialize (C3 (proj1 HD)).
    set (count := count_chars T_uint64 (Z.of_N D)) in *.
    assert (Hx0 : (0 <= x)%Q) by (apply Qmult_le_0_compat; [apply inj_nonneg; lia|apply Qlt_le_weak, q10pos]).
    destruct (nearest_range _ _ _ _ Hnear Hb0 Hb Hx0) as [X1 X2].
    assert (Xlo : (inject_Z 10 ^ lo <= x)%Q) by (eapply Qle_trans; [exact (bo_lo _ _ _ _ _ _ B)|exact X1]).
    assert (Xhi : (x < inject_Z 10 ^ hi)%Q) by (eapply Qle_lt_trans; [exact X2|exact (bo_hi _ _ _ _ _ _ B)]).
    assert (HE := exp_range D E count lo hi x (Qeq_refl _) ltac:(lia) C2 C3 Xlo Xhi).
    assert (Hcc : (count <= c)%nat).
    { destruct (Nat.le_gt_cases count c) as [L|L]; [exact L|]. exfalso.
      assert (10 ^ N.of_nat c <= 10 ^ N.of_nat (count - 1))%N by (apply N.pow_le_mono_r; [discriminate|lia]).
      clear - H HD Hn C3. lia. }
    exists count, E, D. split; [exact Ed|]. split; [exact C1|]. split; [clear - HE R1 R2; lia|].
    assert (X := text_length (expanded_length T) count E D k ltac:(lia) ltac:(clear - HE R1 R2; lia) ltac:(lia) ltac:(clear - HE Hk1 Hk2 R3 R4; lia)).
    clear - X Hcc. lia.
Qed.

(** ** Every number: finite, infinite or not a number *)
Definition whole_text (T : finfo) (len : nat) (neg : bool) (bits : N) (l : bytes) : Prop :=
  (length l <= len)%nat /\
  forall buffer, (1 <= length buffer)%nat -> room (length buffer) l ->
    exists k rest, to_buffer T bits buffer (Z.of_nat (length buffer)) = Ok (firstn k l ++ rest, Z.of_nat k) /\
      (k <= length l)%nat /\ (k + length rest)%nat = length buffer /\
      ((if neg then 1 else 0) + length l <= length buffer -> k = length l)%nat.

Definition stays_inside (T : finfo) (neg : bool) (bits : N) : Prop :=
  forall buffer, (neg = true -> length buffer <> 1%nat) ->
    exists b' k, to_buffer T bits buffer (Z.of_nat (length buffer)) = Ok (b', k) /\
      length b' = length buffer /\ 0 <= k <= Z.of_nat (length buffer).

Lemma minus_length neg : length (minus neg) = (if neg then 1 else 0)%nat.
Proof. destruct neg; reflexivity. Qed.

Lemma finite_text T neg bits len : decodes T neg bits (Z.of_nat len) ->
  exists l, whole_text T (S len) neg bits l /\ stays_inside T neg bits.
Proof.
  intros (count & E & D & Ed & Hc & He & Hl). exists (minus neg ++ number_text (expanded_length T) count E D). split; [split|].
  - rewrite app_length, minus_length. destruct neg; lia.
  - intros buffer H1 Hr. unfold to_buffer. rewrite Ed. cbn [obind].
    destruct (convert_cut neg count E D buffer (expanded_length T) Hc He H1 Hr) as (k & rest & A & B & C & F).
    exists k, rest. rewrite minus_length in F. repeat split; auto.
  - intros buffer Hn. unfold to_buffer. rewrite Ed. cbn [obind]. exact (convert_ok neg count E D buffer (expanded_length T) Hc He Hn).
Qed.

Lemma copy_short (l a m : bytes) n : n = length (a ++ m) ->
  exists k, (k <= length l)%nat /\ (length a + k <= n)%nat /\ (length a + length l <= n -> k = length l)%nat /\
  (if Z.of_nat (length l) <=? Z.of_nat (length m) then copy_to l (a ++ m) (Z.of_nat (length a)) else Ok (a ++ m, Z.of_nat (length a)))
  = Ok (a ++ firstn k l ++ skipn k m, Z.of_nat (length a + k)).
Proof.
  intros ->. rewrite app_length. destruct (Z.leb_spec (Z.of_nat (length l)) (Z.of_nat (length m))) as [H|H].
  - exists (length l). rewrite firstn_all. repeat split; try lia. rewrite copy_to_app by lia. reflexivity.
  - exists 0%nat. rewrite Nat.add_0_r. repeat split; lia.
Qed.

Lemma special_text T neg bits (inf : bool) : decode T bits = Ok (mkBase10 neg inf (negb inf) 0 0 0) ->
  whole_text T 4 neg bits (if inf then minus neg ++ s2b "inf" else s2b "nan") /\ stays_inside T neg bits.
Proof.
  intros Ed.
  assert (H : forall buffer, (1 <= length buffer)%nat -> exists k rest,
    to_buffer T bits buffer (Z.of_nat (length buffer)) = Ok (firstn k (if inf then minus neg ++ s2b "inf" else s2b "nan") ++ rest, Z.of_nat k) /\
    (k <= length (if inf then minus neg ++ s2b "inf" else s2b "nan"))%nat /\ (k + length rest)%nat = length buffer /\
    (length (if inf then minus neg ++ s2b "inf" else s2b "nan") <= length buffer -> k = length (if inf then minus neg ++ s2b "inf" else s2b "nan"))%nat).
  { intros buffer H1. unfold to_buffer. rewrite Ed. cbn [obind]. unfold convert_parsed_to_buffer. cbn [d_negative d_inf d_nan].
    replace (Z.of_nat (length buffer) <? 1) with false by (symmetry; apply Z.ltb_ge; lia). destruct inf; cbn [negb].
    - destruct (print_minus neg buffer H1) as (m & Hm & Lm). rewrite Hm. cbn [obind].
      replace (if neg then Z.of_nat (length buffer) - 1 else Z.of_nat (length buffer)) with (Z.of_nat (length m)) by (destruct neg; cbn [minus length] in Lm; lia).
      destruct (copy_short (s2b "inf") (minus neg) m (length buffer)) as (k & K1 & K2 & K3 & K4); [rewrite app_length; exact Lm|].
      change 3 with (Z.of_nat (length (s2b "inf"))). rewrite K4.
      exists (length (minus neg) + k)%nat, (skipn k m). rewrite (firstn_app _ (minus neg)), (firstn_all2 (minus neg)) by lia.
      replace (length (minus neg) + k - length (minus neg))%nat with k by lia. rewrite <- app_assoc. split; [reflexivity|].
      rewrite app_length, skipn_length. lia.
    - destruct (copy_short (s2b "nan") [] buffer (length buffer) eq_refl) as (k & K1 & K2 & K3 & K4).
      change 3 with (Z.of_nat (length (s2b "nan"))). cbn [app length] in K4. change (Z.of_nat 0) with 0 in K4. rewrite K4.
      exists k, (skipn k buffer). split; [reflexivity|]. rewrite skipn_length. cbn [length] in K2, K3. split; [exact K1|]. split; [lia|]. intros Hf. apply K3. lia. }
  split; [split|].
  - destruct inf; [destruct neg|]; cbn; lia.
  - intros buffer H1 _. destruct (H buffer H1) as (k & rest & A & B & C & F). exists k, rest. repeat split; auto. intros. apply F. lia.
  - intros buffer _. destruct buffer as [|y buf].
    + exists [], 0. unfold to_buffer. rewrite Ed. cbn. repeat split; lia.
    + destruct (H (y :: buf) ltac:(cbn; lia)) as (k & rest & A & B & C & _). rewrite A. eexists _, _. split; [reflexivity|].
      rewrite app_length, firstn_length. lia.
Qed.

Lemma special_decode T mu n bad neg b : checked T mu n bad -> (infinity (pw T) (ew T) <= b < 2 ^ (pw T + ew T))%N ->
  exists inf : bool, decode T (with_sign (pw T) (ew T) neg b) = Ok (mkBase10 neg inf (negb inf) 0 0 0).
Proof.
  intros K [H1 H2].
  assert (Sg : N.testbit (with_sign (pw T) (ew T) neg b) (Z.to_N (mentissa_width T + exponent_width T)) = neg).
  { assert (A := ck_width _ _ _ _ K). assert (B := ck_exp _ _ _ _ K).
    replace (Z.to_N (mentissa_width T + exponent_width T)) with (pw T + ew T)%N by (unfold pw, ew; lia).
    assert (P := pow2_pos (pw T + ew T)). unfold with_sign. set (k := (pw T + ew T)%N) in *. destruct neg.
    - rewrite N.testbit_true. replace ((2 ^ k + b) / 2 ^ k)%N with 1%N; [reflexivity|]. apply (N.div_unique _ _ _ b); lia.
    - rewrite N.testbit_false. rewrite N.add_0_l, N.div_small by exact H2. reflexivity. }
  assert (Bi : biased T (with_sign (pw T) (ew T) neg b) = (2 ^ ew T - 1)%N).
  { rewrite biased_sign. unfold biased. fold (pw T) (ew T). unfold infinity in H1. rewrite N.pow_add_r in H2.
    assert (P := pow2_pos (pw T)). assert (Q2 := pow2_pos (ew T)).
    replace (b / 2 ^ pw T)%N with (2 ^ ew T - 1)%N; [apply N.mod_small; lia|].
    assert (L1 : (2 ^ ew T - 1 <= b / 2 ^ pw T)%N) by (apply N.div_le_lower_bound; [lia|]; rewrite N.mul_comm; exact H1).
    assert (L2 : (b / 2 ^ pw T < 2 ^ ew T)%N) by (apply N.div_lt_upper_bound; [lia|exact H2]). lia. }
  set (bits := with_sign (pw T) (ew T) neg b) in *. assert (W := ck_exp _ _ _ _ K).
  assert (E : Z.of_N (biased T bits) =? 2 ^ exponent_width T - 1 = true).
  { rewrite Bi. apply Z.eqb_eq. assert (E : 2 ^ exponent_width T = Z.of_N (2 ^ ew T)) by (unfold ew; rewrite N2Z.inj_pow, Z2N.id by lia; reflexivity).
    rewrite E. assert (X := pow2_pos (ew T)). revert X. generalize (2 ^ ew T)%N. clear. intros; lia. }
  unfold decode, is_nan, is_inf, get_parts. fold (biased T bits) (fraction T bits). rewrite Sg, E. cbn [andb].
  destruct (fraction T bits) as [|f].
  - exists true. reflexivity.
  - exists false. reflexivity.
Qed.

(** ** Integers *)
Lemma write_acc n : forall neg x acc, write_digits n neg x acc = write_digits n neg x [] ++ acc.
Proof.
  induction n as [|n IH]; intros neg x acc; [reflexivity|]. cbn [write_digits]. rewrite IH. rewrite (IH _ _ [_]), <- app_assoc. reflexivity.
Qed.

Lemma write_split b : forall a neg x, write_digits (a + b) neg x [] = write_digits a neg (Z.quot x (10 ^ Z.of_nat b)) [] ++ write_digits b neg x [].
Proof.
  induction b as [|b IH]; intros a neg x.
  - rewrite Nat.add_0_r. change (10 ^ Z.of_nat 0) with 1. rewrite Z.quot_1_r. cbn [write_digits]. rewrite app_nil_r. reflexivity.
  - rewrite Nat.add_succ_r. cbn [write_digits]. rewrite (write_acc (a + b)), (write_acc b), IH, <- app_assoc.
    rewrite Z.quot_quot by (try lia; apply Z.pow_nonzero; lia).
    replace (10 * 10 ^ Z.of_nat b) with (10 ^ Z.of_nat (S b)) by (rewrite Nat2Z.inj_succ, Z.pow_succ_r by lia; reflexivity). reflexivity.
Qed.

Lemma write_length n : forall neg x acc, length (write_digits n neg x acc) = (n + length acc)%nat.
Proof. induction n as [|n IH]; intros neg x acc; [reflexivity|]. cbn [write_digits]. rewrite IH. cbn [length]. lia. Qed.

Lemma int_cut t v n : ity_ok t -> i_min t <= v <= i_max t -> (1 <= n)%nat ->
  exists l, int_from t v = Some l /\ (length l <= if (i_bits t =? 128)%N then 40 else 20)%nat /\
    int_to_buffer t v (Z.of_nat n) = (firstn n l, Z.max 0 (Z.of_nat (length l) - Z.of_nat n)).
Proof.
  intros Ht Hv Hn. destruct (int_from_spec t v Ht Hv) as (d & _ & _ & Ef). rewrite Ef. eexists. split; [reflexivity|].
  destruct (count_chars_spec t v Ht Hv) as (C1 & C2 & C3).
  assert (C19 : (if (i_bits t =? 128)%N then True else (count_chars t v <= 20)%nat) /\
    (v < 0 -> if (i_bits t =? 128)%N then True else (count_chars t v <= 19)%nat)).
  { destruct (N.eqb_spec (i_bits t) 128) as [|Hb]; [auto|].
    assert (M : - 2 ^ 63 <= i_min t /\ i_max t < 2 ^ 64).
    { unfold i_min, i_max. destruct Ht as [-> | [-> | [-> | [-> | E]]]]; [..|contradiction]; destruct (i_signed t); split; vm_compute; try reflexivity; discriminate. }
    change (2 ^ 63) with 9223372036854775808 in M. change (2 ^ 64) with 18446744073709551616 in M. split.
    - destruct (Nat.le_gt_cases (count_chars t v) 20) as [L|L]; [exact L|]. specialize (C3 ltac:(lia)).
      assert (X : 10 ^ 20 <= 10 ^ (Z.of_nat (count_chars t v) - 1)) by (apply Z.pow_le_mono_r; lia).
      change (10 ^ 20) with 100000000000000000000 in X. revert X C3. generalize (10 ^ (Z.of_nat (count_chars t v) - 1)). lia.
    - intros Hv0. destruct (Nat.le_gt_cases (count_chars t v) 19) as [L|L]; [exact L|]. specialize (C3 ltac:(lia)).
      assert (X : 10 ^ 19 <= 10 ^ (Z.of_nat (count_chars t v) - 1)) by (apply Z.pow_le_mono_r; lia).
      change (10 ^ 19) with 10000000000000000000 in X. revert X C3. generalize (10 ^ (Z.of_nat (count_chars t v) - 1)). lia. }
  unfold int_from in Ef. unfold int_to_buffer in *. assert (N19 : i_signed t && (v <? 0) = true -> v < 0) by (intros X; apply andb_prop in X; apply Z.ltb_lt, X).
  set (neg := i_signed t && (v <? 0)) in *. clearbody neg.
  set (c := count_chars t v) in *. clearbody c. clear C2 C3.
  assert (X : (0 <? Z.of_nat c - (if neg then 40 - 1 else 40)) = false) by (apply Z.ltb_ge; destruct neg; lia). rewrite X in Ef. clear X.
  cbv zeta in Ef. destruct (_ || _) in Ef; [discriminate Ef|]. injection Ef as Ef. rewrite <- Ef. clear Ef d. rewrite Nat2Z.id.
  set (sign := if neg then [x2d] else []).
  assert (Ls : Z.of_nat n - Z.of_nat (length sign) = if neg then Z.of_nat n - 1 else Z.of_nat n) by (unfold sign; destruct neg; cbn [length]; lia).
  assert (Ls1 : (length sign <= 1)%nat) by (unfold sign; destruct neg; cbn [length]; lia).
  assert (Ls2 : (length sign + c <= if (i_bits t =? 128)%N then 40 else 20)%nat).
  { unfold sign; destruct neg; cbn [length]; [assert (D := proj2 C19 (N19 eq_refl))|assert (D := proj1 C19)]; destruct (i_bits t =? 128)%N; lia. }
  rewrite <- Ls. clearbody sign. rewrite app_length, write_length. cbn [length]. rewrite Nat.add_0_r. split; [exact Ls2|].
  destruct (Z.ltb_spec 0 (Z.of_nat c - (Z.of_nat n - Z.of_nat (length sign)))) as [H|H].
  - set (r := Z.of_nat c - (Z.of_nat n - Z.of_nat (length sign))) in *. f_equal; [|lia].
    assert (HS := write_split (Z.to_nat r) (Z.to_nat (Z.of_nat c - r)) neg v).
    replace (Z.to_nat (Z.of_nat c - r) + Z.to_nat r)%nat with c in HS by lia. rewrite HS. rewrite Z2Nat.id by lia.
    rewrite firstn_app, (firstn_all2 sign) by lia. f_equal. rewrite firstn_app_exact; [reflexivity|]. rewrite write_length. cbn [length]. lia.
  - f_equal; [|lia]. rewrite firstn_all2; [reflexivity|]. rewrite app_length, write_length. cbn [length]. lia.
Qed.
