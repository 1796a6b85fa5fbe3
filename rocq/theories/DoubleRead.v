(** convertToNumber and TypeHandler<double>::to on decimal literals. *)
From Coq Require Import QArith Qabs Qpower Lqa Lia ZArith.
From Verif Require Import Base ScanModel JsonSpec NumSpec DoubleSpec DoubleRound IntModel IntProofs NumParse DoubleModel DoubleSlow DoubleFinish DoubleProofs DoubleClear.
Local Open Scope Z_scope.

Lemma clear_weaken e1 e2 x : (e1 <= e2)%Q -> clear_of_halfway 52 11 e2 x -> clear_of_halfway 52 11 e1 x.
Proof.
  intros Hle H b Hb. destruct (H b Hb) as [L|L]; [left; exact L|right]. eapply Qle_lt_trans; [|exact L].
  destruct (halfway_form b Hb) as (N & k & _ & HN & _ & _ & Eh).
  assert (Hh : (0 <= halfway 52 11 b)%Q). { rewrite Eh. apply Qmult_le_0_compat; [apply inj_nonneg; lia|apply Qlt_le_weak, q2pos]. }
  set (h := halfway 52 11 b) in *. clearbody h. clear - Hh Hle. nra.
Qed.

Lemma q10_le a b : a <= b -> (inject_Z 10 ^ a <= inject_Z 10 ^ b)%Q.
Proof.
  intros H. destruct (Qlt_le_dec (inject_Z 10 ^ b) (inject_Z 10 ^ a)) as [L|L]; [|exact L]. apply q10_lt in L. lia.
Qed.

Lemma scaled_lower D m p : 10 ^ D <= m -> 0 <= D -> (inject_Z 10 ^ (D + p) <= scaled m 10 p)%Q.
Proof.
  intros H HD. unfold scaled. rewrite q10add, (q10nonneg D) by exact HD. apply Qmult_le_compat_r; [rewrite <- Zle_Qle; exact H|apply Qlt_le_weak, q10pos].
Qed.
Lemma scaled_upper D m p : m < 10 ^ D -> 0 <= D -> (scaled m 10 p < inject_Z 10 ^ (D + p))%Q.
Proof.
  intros H HD. unfold scaled. rewrite q10add, (q10nonneg D) by exact HD. apply Qmult_lt_compat_r; [apply q10pos|rewrite <- Zlt_Qlt; exact H].
Qed.

Lemma convert_result q m p D : Z.of_N (p_sig q) = m -> Z.of_N (p_count q) = D -> 1 <= D <= 19 -> m < 10 ^ D ->
  p_exp q = p \/ (1000 < p_exp q /\ 1000 < p) \/ (p_exp q < -1000 /\ p < -1000) ->
  10 ^ (D - 1) <= m \/ (p + D <= 309 /\ (m = 0 \/ (inject_Z 10 ^ (-324) <= scaled m 10 p)%Q)) ->
  exists b, convertToNumber q = Ok (with_sign 52 11 (p_neg q) b) /\ adjacent 52 11 (scaled m 10 p) b /\
    (clear_of_halfway 52 11 tiny (scaled m 10 p) -> nearest 52 11 (scaled m 10 p) b) /\
    (m < 10 ^ 16 -> nearest 52 11 (scaled m 10 p) b).
Proof.
  intros Em ED HD Hm Hp Hr. assert (Hm0 : 0 <= m) by lia. set (x := scaled m 10 p) in *.
  assert (Hx0 : (0 <= x)%Q) by (apply Qmult_le_0_compat; [apply inj_nonneg; exact Hm0|apply Qlt_le_weak, q10pos]).
  assert (Hup : (x < inject_Z 10 ^ (D + p))%Q) by (apply scaled_upper; [exact Hm|lia]).
  unfold convertToNumber. rewrite ED.
  destruct (Z.ltb_spec 308 (p_exp q + D - 1)) as [L1|L1].
  { assert (Hpd : 309 < p + D) by lia. destruct Hr as [Hr|(Hr & _)]; [|lia].
    assert (Hlo := scaled_lower (D - 1) m p Hr ltac:(lia)). fold x in Hlo.
    assert (H2 : (inject_Z 2 ^ 1024 <= x)%Q).
    { apply Qle_trans with (inject_Z 10 ^ 309)%Q; [vm_compute; discriminate|]. eapply Qle_trans; [|exact Hlo]. apply q10_le. lia. }
    destruct (huge_is_infinite x H2) as (A & Nr). exists dinf. rewrite make_inf_sign. auto. }
  destruct (Z.ltb_spec (p_exp q + D - 1) (-324)) as [L2|L2].
  { assert (H2 : (x < inject_Z 2 ^ (-1075))%Q).
    { eapply Qlt_trans; [exact Hup|]. apply Qle_lt_trans with (inject_Z 10 ^ (-324))%Q; [apply q10_le; lia|reflexivity]. }
    destruct (small_is_zero x Hx0 H2) as (A & Nr). exists 0%N. rewrite make_zero_sign. auto. }
  assert (Ep : p_exp q = p) by lia. clear Hp.
  destruct (N.eqb_spec (p_sig q) 0) as [E0|E0].
  { assert (H2 : (x < inject_Z 2 ^ (-1075))%Q).
    { assert (m = 0) by lia. unfold x, scaled. rewrite H. change (inject_Z 0) with 0%Q. rewrite Qmult_0_l. apply q2pos. }
    destruct (small_is_zero x Hx0 H2) as (A & Nr). exists 0%N. rewrite make_zero_sign. auto. }
  assert (Hlo : (inject_Z 10 ^ (-324) <= x)%Q).
  { destruct Hr as [Hr|(_ & [Hr|Hr])]; [|lia|exact Hr].
    eapply Qle_trans; [|apply (scaled_lower (D - 1) m p Hr); lia]. apply q10_le. lia. }
  assert (Es : scaled (Z.of_N (p_sig q)) 10 (p_exp q) = x) by (rewrite Em, Ep; reflexivity).
  assert (H64 : (0 < p_sig q < 2 ^ 64)%N).
  { split; [lia|]. apply N2Z.inj_lt. rewrite Em. eapply Z.lt_trans; [exact Hm|]. eapply Z.le_lt_trans; [apply Z.pow_le_mono_r with (c := 19); lia|reflexivity]. }
  destruct ((p_sig q <? 2 ^ 53)%N && (Z.abs (p_exp q) <? Z.of_nat (count_chars T_uint64 (2 ^ 53)))) eqn:Hf.
  - apply andb_prop in Hf. destruct Hf as (F1 & F2). apply N.ltb_lt in F1. apply Z.ltb_lt in F2.
    change (Z.of_nat (count_chars T_uint64 (2 ^ 53))) with 16 in F2.
    destruct (fast_path_result q ltac:(lia) F2) as (b & -> & A & Nr). rewrite Es in A, Nr. exists b. auto.
  - destruct (slow_path_result q H64 ltac:(lia)) as (b & Hb & A & Nr); [rewrite Es; exact Hlo|]. rewrite Es in A, Nr. rewrite Hb.
    exists b. split; [reflexivity|]. split; [exact A|]. split; intros H.
    + apply Nr. apply clear_weaken with tiny; [|exact H]. apply slack_ok. lia.
    + destruct (clear_16_digits m p) as [C|C]; [lia|exact Hlo| | |].
      * eapply Qlt_le_trans; [exact Hup|]. apply q10_le. lia.
      * apply Nr. rewrite Ep. exact C.
      * destruct (spot_result q m p Em Ep (C (p_neg q))) as (b' & Hb' & Nr'). rewrite Hb in Hb'.
        assert (E : with_sign 52 11 (p_neg q) b = with_sign 52 11 (p_neg q) b') by congruence.
        unfold with_sign in E. apply N.add_cancel_l in E. rewrite E. exact Nr'.
Qed.

Lemma digit_mantissa c : is_digit c -> Byte.eqb c x45 || Byte.eqb c x65 = false /\ Byte.eqb c x2e = false.
Proof.
  intros H. destruct (Byte.eqb c x45) eqn:E1; [apply Byte.byte_dec_bl in E1; subst c; unfold is_digit in H; cbn in H; lia|].
  destruct (Byte.eqb c x65) eqn:E2; [apply Byte.byte_dec_bl in E2; subst c; unfold is_digit in H; cbn in H; lia|].
  destruct (Byte.eqb c x2e) eqn:E3; [apply Byte.byte_dec_bl in E3; subst c; unfold is_digit in H; cbn in H; lia|]. auto.
Qed.

Lemma mantissa_run i r : Forall is_digit i -> mantissa_digits (i ++ r) = (length i + mantissa_digits r)%nat.
Proof.
  induction 1 as [|c i Hc Hi IH]; [reflexivity|]. cbn [app mantissa_digits length].
  destruct (digit_mantissa c Hc) as (-> & ->). rewrite IH. reflexivity.
Qed.

Lemma mantissa_parts i f fl ex n v : Forall is_digit i -> Forall is_digit f -> (f = [] /\ fl = [] \/ fl = x2e :: f) -> exp_part ex n v ->
  mantissa_digits (i ++ fl ++ ex) = length (i ++ f).
Proof.
  intros Hi Hf Hfl Hex. rewrite mantissa_run by exact Hi. rewrite app_length. f_equal.
  assert (Hx : mantissa_digits ex = 0%nat).
  { destruct Hex as [(-> & _)|(e & s & d & -> & [->| ->] & _)]; reflexivity. }
  destruct Hfl as [(-> & ->)| ->]; [exact Hx|]. cbn [app mantissa_digits]. change (Byte.eqb x2e x45 || Byte.eqb x2e x65) with false. cbv iota.
  change (Byte.eqb x2e x2e) with true. cbv iota. rewrite mantissa_run by exact Hf. rewrite Hx. lia.
Qed.

Lemma dec_value_upper l : Forall is_digit l -> (dec_value l < 10 ^ N.of_nat (length l))%N.
Proof.
  induction 1 as [|c l Hc Hl IH]; [reflexivity|]. rewrite dec_value_cons. cbn [length]. rewrite Nat2N.inj_succ, N.pow_succ_r'.
  unfold is_digit in Hc. assert ((byte_val c - 48) * 10 ^ N.of_nat (length l) <= 9 * 10 ^ N.of_nat (length l))%N by (apply N.mul_le_mono_r; lia). lia.
Qed.

Lemma double_to_decimal (neg : bool) l m p : dec_literal l m p -> (exists c r, l = c :: r /\ is_digit c) ->
  (mantissa_digits l <= 19)%nat -> readable l m p ->
  exists b, double_to ((if neg then [x2d] else []) ++ l) = Ok (NoError, with_sign 52 11 neg b) /\
    adjacent 52 11 (scaled m 10 p) b /\
    (clear_of_halfway 52 11 tiny (scaled m 10 p) -> nearest 52 11 (scaled m 10 p) b) /\
    ((mantissa_digits l <= 16)%nat -> nearest 52 11 (scaled m 10 p) b).
Proof.
  intros Hl Hd Hn Hr.
  destruct (dec_literal_parts l m p Hl Hd) as (i & f & fl & ex & n & v & El & Hi & Hf & Hfl & Hex & Hv & Em & Ep).
  assert (Hlen := mantissa_parts i f fl ex n v (proj2 Hi) Hf Hfl Hex). rewrite <- El in Hlen.
  destruct (parse_parts 64 false neg i f fl ex n v Hi Hf Hfl Hex ltac:(right; lia)) as (x & Hx & Hparse).
  unfold double_to, to_double. rewrite El, Hparse. cbn [obind p_end].
  assert (Hi0 : (1 <= length i)%nat) by (destruct Hi as [Hi _]; destruct i; [congruence|cbn [length]; lia]).
  assert (Ell : (length (i ++ f) = length i + length f)%nat) by apply app_length.
  assert (Hall : Forall is_digit (i ++ f)) by (apply Forall_app; split; [apply Hi|exact Hf]).
  assert (Hup := dec_value_upper _ Hall).
  assert (HupZ : m < 10 ^ Z.of_nat (length (i ++ f))).
  { rewrite Em. apply N2Z.inj_lt in Hup. rewrite N2Z.inj_pow, nat_N_Z in Hup. exact Hup. }
  assert (H19 : 10 ^ Z.of_nat (length (i ++ f)) <= 10 ^ 19) by (apply Z.pow_le_mono_r; lia).
  assert (Eb : match fl with [] => 0 | _ => Z.of_N (u8 (N.of_nat (length i))) - Z.of_N (u8 (N.of_nat (length (i ++ f)))) end
               = - Z.of_nat (length f)).
  { unfold u8. rewrite !N.mod_small by (change (2 ^ 8)%N with 256%N; lia).
    destruct Hfl as [(-> & ->)| ->]; cbn [length] in *; [reflexivity|lia]. }
  rewrite Eb. set (q := mkParsed _ _ _ _ _).
  assert (Hsig : Z.of_N (p_sig q) = m).
  { unfold q. cbn [p_sig]. unfold uw. rewrite N.mod_small; [symmetry; exact Em|]. apply N2Z.inj_lt. rewrite <- Em.
    eapply Z.lt_le_trans; [exact HupZ|]. eapply Z.le_trans; [exact H19|]. apply Z.leb_le. vm_compute. reflexivity. }
  destruct (convert_result q m p (Z.of_nat (length (i ++ f)))) as (b & Hb & A & N1 & N2).
  - exact Hsig.
  - unfold q. cbn [p_count]. unfold u8. rewrite N.mod_small by (change (2 ^ 8)%N with 256%N; lia). lia.
  - lia.
  - exact HupZ.
  - unfold q. cbn [p_exp]. unfold near in Hx. destruct n; lia.
  - destruct Hr as [(c & r & Ec & Hc)|(H1 & H2)].
    + left. rewrite Em. destruct i as [|c' i]; [cbn in Hi0; lia|]. rewrite Ec in El. cbn [app] in El. injection El as <- _.
      cbn [app length]. rewrite dec_value_cons. assert (Hd0 := Forall_inv (proj2 Hi)).
      assert (Hc1 : (1 <= byte_val c - 48)%N).
      { unfold is_digit in Hd0. destruct (N.eq_dec (byte_val c) 48) as [E|E]; [|lia]. exfalso. apply Hc.
        unfold byte_val in E. assert (Hbb := Byte.of_to_N c). rewrite E in Hbb. cbn in Hbb. congruence. }
      replace (Z.of_nat (S (length (i ++ f))) - 1) with (Z.of_nat (length (i ++ f))) by lia.
      rewrite N2Z.inj_add, N2Z.inj_mul, N2Z.inj_pow, nat_N_Z. change (Z.of_N 10) with 10.
      assert (Hpp : 0 < 10 ^ Z.of_nat (length (i ++ f))) by (apply Z.pow_pos_nonneg; lia).
      set (T := 10 ^ Z.of_nat (length (i ++ f))) in *. set (k := (byte_val c - 48)%N) in *. clearbody T k. clear - Hc1 Hpp. nia.
    + right. rewrite Hlen in H1. split; assumption.
  - exists b. rewrite Hb. cbn [obind]. change (p_neg q) with neg. rewrite Nat.eqb_refl.
    split; [reflexivity|]. split; [exact A|]. split; [exact N1|]. intros H. apply N2. rewrite <- El, Hlen in H.
    eapply Z.lt_le_trans; [exact HupZ|]. apply Z.pow_le_mono_r; lia.
Qed.
