(** What the printed text means: its grammar, its value, and the number it is nearest to. *)
From Coq Require Import QArith Qabs Qpower Lqa Lia ZArith.
From Verif Require Import Base ScanModel JsonSpec NumSpec DoubleSpec DoubleRound IntModel IntProofs NumParse
  DoubleModel DoubleProofs DoubleClear DoubleRead RyuModel RyuShort RyuRow RyuDecode RyuNearest RyuText.
Local Open Scope Z_scope.

Lemma zeros_digits n : Forall is_digit (repeat x30 n).
Proof. induction n; cbn; constructor; [unfold is_digit; cbn; lia|assumption]. Qed.

Lemma zeros_value n : dec_value (repeat x30 n) = 0%N.
Proof. induction n as [|n IH]; [reflexivity|]. cbn [repeat]. rewrite dec_value_cons, IH. cbn. reflexivity. Qed.

Lemma digit_list_head l : (1 <= length l)%nat -> Forall is_digit l -> forall r, exists c t, l ++ r = c :: t /\ is_digit c.
Proof. intros Hl Hd r. destruct Hd as [|c l Hc Hd]; [cbn in Hl; lia|]. exists c, (l ++ r). auto. Qed.

Lemma scaled_shift (m k p : Z) : 0 <= k -> (scaled (m * 10 ^ k) 10 p == scaled m 10 (k + p))%Q.
Proof.
  intros Hk. unfold scaled. rewrite q10add, (q10nonneg k Hk), inject_Z_mult. ring.
Qed.

Lemma rfc_int_head i : rfc_int i -> i = [x30] \/ exists c t, i = c :: t /\ c <> x30.
Proof. intros [H|(c & t & H & _ & H2 & _)]; [left; exact H|right; exists c, t; auto]. Qed.

(** The count of digits of a number below 10^17. *)
Lemma count_digits D : (D < 10 ^ 17)%N -> let c := count_chars T_uint64 (Z.of_N D) in
  (1 <= c <= 17)%nat /\ (D < 10 ^ N.of_nat c)%N /\ ((0 < D)%N -> (10 ^ N.of_nat (c - 1) <= D)%N) /\ (D = 0%N -> c = 1%nat).
Proof.
  intros HD. cbv zeta. destruct (count_chars_spec T_uint64 (Z.of_N D)) as (H1 & H2 & H3); [cbv; auto 6| |].
  { change (i_min T_uint64) with 0. change (i_max T_uint64) with (2 ^ 64 - 1). lia. }
  set (c := count_chars T_uint64 (Z.of_N D)) in *. clearbody c. rewrite Z.abs_eq in H2, H3 by lia.
  assert (P : forall k : nat, (10 ^ Z.of_nat k = Z.of_N (10 ^ N.of_nat k))%Z) by (intros k; rewrite N2Z.inj_pow; f_equal; lia).
  assert (L : (1 < c)%nat -> (10 ^ N.of_nat (c - 1) <= D)%N).
  { intros Hc. specialize (H3 Hc). replace (Z.of_nat c - 1) with (Z.of_nat (c - 1)) in H3 by lia. rewrite P in H3. lia. }
  split; [|split; [|split]].
  - split; [lia|]. destruct (Nat.le_gt_cases c 17) as [X|X]; [exact X|]. specialize (L ltac:(lia)).
    assert (10 ^ 17 <= 10 ^ N.of_nat (c - 1))%N by (apply N.pow_le_mono_r; [discriminate|lia]). lia.
  - rewrite P in H2. lia.
  - intros Hp. destruct (Nat.eq_dec c 1) as [->|X]; [change (10 ^ N.of_nat (1 - 1))%N with 1%N; lia|apply L; lia].
  - intros ->. destruct (Nat.eq_dec c 1) as [->|X]; [reflexivity|]. specialize (L ltac:(lia)).
    assert (0 < 10 ^ N.of_nat (c - 1))%N by apply pow10_pos. lia.
Qed.

Definition good_text (neg : bool) (l : bytes) (x : Q) : Prop :=
  exists m p, dec_literal l m p /\ (scaled m 10 p == x)%Q /\ (exists c r, l = c :: r /\ is_digit c) /\
    (mantissa_digits l <= 19)%nat /\ rfc_number (minus neg ++ l) /\
    ((exists c r, l = c :: r /\ c <> x30) \/ p + Z.of_nat (mantissa_digits l) <= 309).

Lemma number_text_spec neg max count E D : (D < 10 ^ 17)%N -> count = count_chars T_uint64 (Z.of_N D) -> (D = 0%N -> E = 0) ->
  Z.abs (E + Z.of_nat count - 1) < 1000 -> max <= 20 ->
  good_text neg (number_text max count E D) (scaled (Z.of_N D) 10 E).
Proof.
  intros HD Hcount HE He Hmax. destruct (count_digits D HD) as (C1 & C2 & C3 & C4). rewrite <- Hcount in *. clear Hcount.
  assert (Hsign : minus neg = [] \/ minus neg = [x2d]) by (destruct neg; cbn; auto).
  unfold number_text. destruct (Z.ltb_spec (complete_of count E) max) as [Hc|Hc].
  - assert (Hlen := expanded_length_eq count E D ltac:(lia)). rewrite <- Hlen in Hc. clear Hlen. unfold expanded_text in *.
    destruct (Z.leb_spec 0 E) as [H0|H0]; [|destruct (Z.ltb_spec 0 (Z.of_nat count + E)) as [H1|H1]].
    + set (i := digits_of count D ++ repeat x30 (Z.to_nat E)).
      replace (digits_of count D ++ repeat x30 (Z.to_nat E) ++ [x2e; x30]) with (i ++ x2e :: [x30]) in * by (unfold i; rewrite <- app_assoc; reflexivity).
      assert (Hi : Forall is_digit i) by (apply Forall_app; split; [apply digits_of_digits|apply zeros_digits]).
      assert (Li : length i = (count + Z.to_nat E)%nat) by (unfold i; rewrite app_length, digits_of_length, repeat_length; reflexivity).
      assert (Vi : dec_value i = (D * 10 ^ Z.to_N E)%N).
      { unfold i. rewrite dec_value_app2, zeros_value, digits_of_value, N.add_0_r, repeat_length, N.mod_small by exact C2. f_equal. f_equal. lia. }
      assert (Ri : rfc_int i).
      { apply (canonical_digits i (count + Z.to_nat E) Li Hi ltac:(lia)). intros Hn. assert (HD0 : (0 < D)%N) by (destruct D; [specialize (C4 eq_refl); specialize (HE eq_refl); lia|lia]).
        specialize (C3 HD0). rewrite Vi. replace (Z.of_nat (count + Z.to_nat E) - 1) with (Z.of_N (N.of_nat (count - 1) + Z.to_N E)) by lia.
        change 10 with (Z.of_N 10). rewrite <- N2Z.inj_pow, N.pow_add_r. apply N2Z.inj_le. apply N.mul_le_mono_r. exact C3. }
      assert (Hf : Forall is_digit [x30]) by apply (zeros_digits 1).
      exists (Z.of_N (dec_value (i ++ [x30]))), (- Z.of_nat 1).
      split; [exact (DL_plain i [x30] (x2e :: [x30]) Hi Hf (or_intror eq_refl))|].
      split; [|split; [|split; [|split]]].
      * rewrite dec_value_snoc, Vi. change (byte_val x30 - 48)%N with 0%N. rewrite N.add_0_r, <- N.mul_assoc, (N.mul_comm (10 ^ Z.to_N E) 10), <- pow10_succ, N2Z.inj_mul, N2Z.inj_pow.
        change (Z.of_N 10) with 10. rewrite scaled_shift by lia. unfold scaled. replace (Z.of_N (Z.to_N E + 1) + - Z.of_nat 1) with E by lia. reflexivity.
      * apply digit_list_head; [lia|exact Hi].
      * rewrite mantissa_run by exact Hi. rewrite app_length in Hc. clear - Hc Hmax. cbn in Hc |- *. lia.
      * exists (minus neg), i, (x2e :: [x30]), []. split; [rewrite app_nil_r; reflexivity|]. split; [exact Hsign|]. split; [exact Ri|].
        split; [right; exists [x30]; split; [reflexivity|split; [discriminate|exact Hf]]|left; reflexivity].
      * destruct (rfc_int_head i Ri) as [->|(c & t & -> & Hn)]; [right; cbn; lia|left; exists c, (t ++ x2e :: [x30]); auto].
    + assert (HD0 : (0 < D)%N) by (destruct D; [specialize (HE eq_refl); lia|lia]). specialize (C3 HD0).
      set (k := Z.to_nat (Z.of_nat count + E)) in *. set (g := Z.to_nat (- E)) in *.
      replace (Z.to_N (- E)) with (N.of_nat g) in * by (unfold g; lia). assert (Ekg : count = (k + g)%nat) by (unfold k, g; lia).
      set (i := digits_of k (D / 10 ^ N.of_nat g)%N) in *. set (f := digits_of g D) in *.
      assert (Hi : Forall is_digit i) by apply digits_of_digits. assert (Li : length i = k) by apply digits_of_length.
      assert (Hf : Forall is_digit f) by apply digits_of_digits. assert (Lf : length f = g) by apply digits_of_length.
      assert (Hg : (10 ^ N.of_nat g <> 0)%N) by (apply N.pow_nonzero; discriminate).
      assert (Vif : dec_value (i ++ f) = D).
      { unfold i, f. rewrite <- digits_of_split, digits_of_value, <- Ekg. apply N.mod_small. exact C2. }
      assert (Ri : rfc_int i).
      { apply (canonical_digits i k Li Hi ltac:(lia)). intros Hn. unfold i. rewrite digits_of_value, N.mod_small.
        2:{ apply N.div_lt_upper_bound; [exact Hg|]. rewrite <- N.pow_add_r. replace (N.of_nat g + N.of_nat k)%N with (N.of_nat count) by lia. exact C2. }
        replace (Z.of_nat k - 1) with (Z.of_N (N.of_nat (k - 1))) by lia. change 10 with (Z.of_N 10). rewrite <- N2Z.inj_pow. apply N2Z.inj_le.
        apply N.div_le_lower_bound; [exact Hg|]. rewrite <- N.pow_add_r. replace (N.of_nat g + N.of_nat (k - 1))%N with (N.of_nat (count - 1)) by lia. exact C3. }
      exists (Z.of_N (dec_value (i ++ f))), (- Z.of_nat (length f)).
      split; [exact (DL_plain i f (x2e :: f) Hi Hf (or_intror eq_refl))|].
      split; [|split; [|split; [|split]]].
      * rewrite Vif, Lf. replace (- Z.of_nat g) with E by (unfold g; lia). reflexivity.
      * apply digit_list_head; [lia|exact Hi].
      * rewrite mantissa_run by exact Hi. cbn [mantissa_digits]. change (Byte.eqb x2e x45 || Byte.eqb x2e x65) with false. cbv iota. change (Byte.eqb x2e x2e) with true. cbv iota.
        rewrite <- (app_nil_r f), mantissa_run by exact Hf. rewrite app_length in Hc. cbn [mantissa_digits length] in *. lia.
      * exists (minus neg), i, (x2e :: f), []. split; [rewrite app_nil_r; reflexivity|]. split; [exact Hsign|]. split; [exact Ri|].
        split; [right; exists f; split; [reflexivity|split; [|exact Hf]]|left; reflexivity]. intros X. rewrite X in Lf. cbn in Lf. lia.
      * destruct (rfc_int_head i Ri) as [X|(c & t & -> & Hn)]; [|left; exists c, (t ++ x2e :: f); auto].
        right. rewrite X, mantissa_run by (rewrite X in Hi; exact Hi). cbn [mantissa_digits]. change (Byte.eqb x2e x45 || Byte.eqb x2e x65) with false. cbv iota. change (Byte.eqb x2e x2e) with true. cbv iota.
        rewrite <- (app_nil_r f), mantissa_run by exact Hf. cbn [mantissa_digits length]. rewrite app_nil_r. lia.
    + assert (HD0 : (0 < D)%N) by (destruct D; [specialize (HE eq_refl); lia|lia]). 
      set (g := Z.to_nat (- E)) in *. set (f := digits_of g D) in *.
      assert (Hf : Forall is_digit f) by apply digits_of_digits. assert (Lf : length f = g) by apply digits_of_length.
      assert (Hi : Forall is_digit [x30]) by apply (zeros_digits 1).
      assert (Vf : dec_value (x30 :: f) = D).
      { rewrite dec_value_cons. change (byte_val x30 - 48)%N with 0%N. rewrite N.mul_0_l, N.add_0_l. unfold f. rewrite digits_of_value.
        apply N.mod_small. eapply N.lt_le_trans; [exact C2|]. apply N.pow_le_mono_r; [discriminate|]. unfold g. lia. }
      assert (Md : mantissa_digits (x30 :: x2e :: f) = S g).
      { change (x30 :: x2e :: f) with ([x30] ++ x2e :: f). rewrite mantissa_run by exact Hi. cbn [mantissa_digits]. change (Byte.eqb x2e x45 || Byte.eqb x2e x65) with false. cbv iota.
        change (Byte.eqb x2e x2e) with true. cbv iota. rewrite <- (app_nil_r f), mantissa_run by exact Hf. cbn [mantissa_digits length]. lia. }
      exists (Z.of_N (dec_value ([x30] ++ f))), (- Z.of_nat (length f)).
      split; [exact (DL_plain [x30] f (x2e :: f) Hi Hf (or_intror eq_refl))|].
      split; [|split; [|split; [|split]]].
      * cbn [app]. rewrite Vf, Lf. replace (- Z.of_nat g) with E by (unfold g; lia). reflexivity.
      * exists x30, (x2e :: f). split; [reflexivity|]. inversion Hi. assumption.
      * rewrite Md. cbn [length] in Hc. lia.
      * exists (minus neg), [x30], (x2e :: f), []. split; [rewrite app_nil_r; reflexivity|]. split; [exact Hsign|]. split; [left; reflexivity|].
        split; [right; exists f; split; [reflexivity|split; [|exact Hf]]|left; reflexivity]. intros X. rewrite X in Lf. cbn in Lf. lia.
      * right. rewrite Md. lia.
  - unfold scientific_text, exp_text. set (e := E + Z.of_nat count - 1) in *. destruct (count_exp e He) as ((K1 & K3) & K2 & _).
    set (kx := count_chars T_int e) in *. set (s := if e <? 0 then [x2d] else []). set (d := digits_of kx (Z.to_N (Z.abs e))).
    set (i := digits_of 1 (D / 10 ^ N.of_nat (count - 1))%N). set (f := digits_of (count - 1) D).
    set (fl := if 1 <? Z.of_nat count then x2e :: f else []).
    assert (Hi : Forall is_digit i) by apply digits_of_digits. assert (Li : length i = 1%nat) by apply digits_of_length.
    assert (Hf : Forall is_digit f) by apply digits_of_digits. assert (Lf : length f = (count - 1)%nat) by apply digits_of_length.
    assert (Hd : Forall is_digit d) by apply digits_of_digits. assert (Ld : length d = kx) by apply digits_of_length.
    assert (Hd1 : digits1 d) by (split; [intros X; rewrite X in Ld; cbn in Ld; lia|exact Hd]).
    assert (Hs : s = [] \/ s = [x2b] \/ s = [x2d]) by (unfold s; destruct (e <? 0); auto).
    assert (Hfl : f = [] /\ fl = [] \/ fl = x2e :: f).
    { unfold fl. destruct (Z.ltb_spec 1 (Z.of_nat count)); [right; reflexivity|left]. split; [|reflexivity]. apply length_zero_iff_nil. lia. }
    assert (Vif : dec_value (i ++ f) = D).
    { unfold i, f. rewrite <- digits_of_split, digits_of_value. replace (1 + (count - 1))%nat with count by lia. apply N.mod_small. exact C2. }
    assert (Vd : Z.of_N (dec_value d) = Z.abs e).
    { unfold d. rewrite digits_of_value, N.mod_small; [apply Z2N.id; lia|]. apply N2Z.inj_lt. rewrite Z2N.id, N2Z.inj_pow by lia.
      change (Z.of_N 10) with 10. rewrite nat_N_Z. exact K2. }
    assert (Ri : rfc_int i) by (apply (canonical_digits i 1 Li Hi ltac:(lia)); intros X; lia).
    assert (Mi : mantissa_digits (i ++ fl ++ x65 :: s ++ d) = count).
    { rewrite mantissa_run by exact Hi. destruct Hfl as [[X ->]| ->].
      - cbn. rewrite X in Lf. cbn in Lf. lia.
      - cbn [app mantissa_digits]. change (Byte.eqb x2e x45 || Byte.eqb x2e x65) with false. cbv iota. change (Byte.eqb x2e x2e) with true. cbv iota.
        rewrite mantissa_run by exact Hf. cbn. lia. }
    assert (Ep : - Z.of_nat (length f) + (if match s with [c] => Byte.eqb c x2d | _ => false end then - Z.of_N (dec_value d) else Z.of_N (dec_value d)) = E).
    { rewrite Vd, Lf. unfold s. destruct (Z.ltb_spec e 0) as [X|X].
      - change (Byte.eqb x2d x2d) with true. cbv iota. unfold e in *. lia.
      - cbv iota. unfold e in *. lia. }
    pose proof (DL_exp i f fl x65 s d Hi Hf Hfl (or_intror eq_refl) Hs Hd1) as DL. rewrite Vif, Ep in DL.
    exists (Z.of_N D), E. split; [exact DL|]. split; [reflexivity|]. split; [|split; [|split]].
    + apply digit_list_head; [lia|exact Hi].
    + rewrite Mi. lia.
    + exists (minus neg), i, fl, (x65 :: s ++ d). split; [reflexivity|]. split; [exact Hsign|]. split; [exact Ri|]. split.
      * destruct Hfl as [[_ ->]|X]; [left; reflexivity|]. destruct (Z.ltb_spec 1 (Z.of_nat count)) as [Y|Y].
        -- right. exists f. split; [exact X|]. split; [|exact Hf]. intros Z. rewrite Z in Lf. cbn in Lf. lia.
        -- unfold fl in X. destruct (Z.ltb_spec 1 (Z.of_nat count)); [lia|discriminate X].
      * right. exists x65, s, d. auto.
    + destruct D as [|D']; [right|left].
      * rewrite Mi. specialize (HE eq_refl). specialize (C4 eq_refl). lia.
      * specialize (C3 ltac:(lia)). destruct i as [|c i'] eqn:Ei; [discriminate Li|]. exists c, (i' ++ fl ++ x65 :: s ++ d). split; [reflexivity|]. intros ->.
        assert (V : dec_value i = 0%N) by (rewrite Ei; destruct i'; [reflexivity|discriminate Li]).
        assert (V2 : dec_value (digits_of 1 (N.pos D' / 10 ^ N.of_nat (count - 1))%N) = 0%N) by (rewrite <- V, Ei; fold i; rewrite Ei; reflexivity).
        rewrite digits_of_value, N.mod_small in V2.
        -- assert (P : (10 ^ N.of_nat (count - 1) <> 0)%N) by (apply N.pow_nonzero; discriminate).
           apply (proj1 (N.div_small_iff _ _ P)) in V2. clear - V2 C3. lia.
        -- apply N.div_lt_upper_bound; [apply N.pow_nonzero; discriminate|]. rewrite <- N.pow_add_r.
           replace (N.of_nat (count - 1) + N.of_nat 1)%N with (N.of_nat count) by lia. exact C2.
Qed.
