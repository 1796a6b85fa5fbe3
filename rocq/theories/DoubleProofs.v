(** convertToNumber<double> rounds to the nearest double, except directly above halfway points. *)
From Coq Require Import QArith Qabs Qpower Lqa Lia ZArith Znumtheory.
From Verif Require Import Base JsonSpec NumSpec DoubleSpec DoubleRound IntModel DoubleModel BigProofs DoubleWords DoubleSlow DoubleFinish.
Local Open Scope Z_scope.

Lemma inj_pos z : 0 < z -> (0 < inject_Z z)%Q.
Proof. intros H. change 0%Q with (inject_Z 0). rewrite <- Zlt_Qlt. exact H. Qed.
Lemma inj_nonneg z : 0 <= z -> (0 <= inject_Z z)%Q.
Proof. intros H. change 0%Q with (inject_Z 0). rewrite <- Zle_Qle. exact H. Qed.

Lemma inj_eq a b : (inject_Z a == inject_Z b)%Q -> a = b.
Proof. apply inject_Z_injective. Qed.

Lemma q10pos k : (0 < inject_Z 10 ^ k)%Q.
Proof. apply Qpower_0_lt. reflexivity. Qed.
Lemma q10add a b : (inject_Z 10 ^ (a + b) == inject_Z 10 ^ a * inject_Z 10 ^ b)%Q.
Proof. apply Qpower_plus. intros H; discriminate H. Qed.
Lemma q10nonneg k : 0 <= k -> (inject_Z 10 ^ k == inject_Z (10 ^ k))%Q.
Proof. intros Hk. symmetry. apply Zpower_Qpower. exact Hk. Qed.

Lemma sign_lor b neg : (b < 2 ^ 63)%N -> N.lor b (sign_bit neg) = with_sign 52 11 neg b.
Proof.
  intros Hb. unfold sign_bit, with_sign. destruct neg; [|rewrite N.lor_0_r; reflexivity].
  rewrite N.lor_comm. replace (2 ^ 63)%N with (1 * 2 ^ 63)%N by reflexivity. rewrite lor_mul by exact Hb. reflexivity.
Qed.

Lemma dinf_lt b : (b <= dinf)%N -> (b < 2 ^ 63)%N.
Proof. intros H. eapply N.le_lt_trans; [exact H|]. reflexivity. Qed.

(** ** The two loops together *)
Lemma slow_path_words p : (0 < p_sig p < 2 ^ 64)%N -> Z.abs (p_exp p) < 512 ->
  let x := scaled (Z.of_N (p_sig p)) 10 (p_exp p) in
  exists a be, ok128 a /\ (2 ^ 124 <= V2 a < 2 ^ 125)%N /\
    approx x (Z.abs (p_exp p)) (held (Z.of_N (V2 a)) be) /\
    (forall c k, 0 <= c < 2 ^ 54 -> (x == inject_Z c * inject_Z 2 ^ k)%Q -> (held (Z.of_N (V2 a)) be == x)%Q) /\
    slow_path p = (if be + 1023 <=? 0 then copy_denormal a (be + 1023) (p_neg p)
                   else if be + 1023 <? 2047 then Ok (copy_normal a (be + 1023) (p_neg p))
                   else Ok (make_inf (p_neg p))).
Proof.
  intros Hs He x. set (s := Z.of_N (p_sig p)) in *.
  assert (Hv : V2 (p_sig p, 0%N) = p_sig p) by (unfold V2; cbn [fst snd]; lia).
  assert (Hok0 : ok128 (p_sig p, 0%N)) by (split; cbn [fst snd]; [apply Hs|reflexivity]).
  assert (Hh0 : (held (Z.of_N (V2 (p_sig p, 0%N))) 124 == inject_Z s)%Q).
  { rewrite Hv. unfold held. change (inject_Z 2 ^ (124 - 124))%Q with 1%Q. fold s. ring. }
  assert (Hs0 : (0 <= inject_Z s)%Q) by (apply inj_nonneg; unfold s; lia).
  assert (Hlt0 : (0 < V2 (p_sig p, 0%N) < 2 ^ 124)%N).
  { rewrite Hv. split; [apply Hs|]. eapply N.lt_trans; [apply Hs|reflexivity]. }
  assert (Hap0 : approx (inject_Z s) 0 (held (Z.of_N (V2 (p_sig p, 0%N))) 124)).
  { split; rewrite Hh0; [lra|]. change (inject_Z 0) with 0%Q. lra. }
  unfold slow_path.
  destruct (mul_loop_spec (Z.to_nat (p_exp p)) (p_sig p, 0%N) 124 (inject_Z s) 0 Hok0 (proj2 Hlt0) (proj1 Hlt0) Hs0 ltac:(lia) ltac:(lia) Hap0)
    as (a1 & be1 & E1 & Hok1 & Hv1 & Hap1 & Hex1).
  rewrite E1. cbn [obind].
  set (n := Z.to_nat (p_exp p)) in *. set (m := Z.to_nat (- p_exp p)) in *.
  assert (Hx1 : (0 <= inject_Z s * inject_Z (10 ^ Z.of_nat n))%Q).
  { apply Qmult_le_0_compat; [exact Hs0|]. apply inj_nonneg. apply Z.pow_nonneg. lia. }
  assert (Hv1' : (0 < V2 a1 < 2 ^ 125)%N) by (split; [apply Hv1|eapply N.lt_trans; [apply Hv1|reflexivity]]).
  destruct (div_loop_spec m a1 be1 _ (0 + Z.of_nat n) Hok1 Hv1' Hx1 ltac:(lia) ltac:(lia) Hap1) as (Hok2 & Hv2 & Hap2 & Hex2).
  destruct (div_loop m a1 be1) as [a2 be2] eqn:Edl. cbn [fst snd] in *.
  destruct (shift_left_msb_spec a2 Hok2 Hv2) as (Hok3 & sh & Es & Ev3 & Hv3).
  destruct (shift_left_msb a2) as [a3 s3]. cbn [fst snd] in *. subst s3.
  assert (Hheld : (held (Z.of_N (V2 a3)) (be2 - Z.of_N sh) == held (Z.of_N (V2 a2)) be2)%Q).
  { rewrite Ev3, N2Z.inj_mul, N2Z.inj_pow. change (Z.of_N 2) with 2. rewrite held_shift by lia.
    replace (be2 - Z.of_N sh + Z.of_N sh) with be2 by lia. reflexivity. }
  assert (Hx : (inject_Z s * inject_Z (10 ^ Z.of_nat n) / inject_Z (10 ^ Z.of_nat m) == x)%Q).
  { unfold x, scaled. assert (Hm := inj_pos (10 ^ Z.of_nat m) ltac:(apply Z.pow_pos_nonneg; lia)).
    destruct (Z.le_gt_cases 0 (p_exp p)) as [L|L].
    - replace (Z.of_nat n) with (p_exp p) by (unfold n; lia). replace (Z.of_nat m) with 0 by (unfold m; lia).
      rewrite (q10nonneg _ L). change (inject_Z (10 ^ 0)) with 1%Q. field.
    - replace (Z.of_nat n) with 0 by (unfold n; lia). replace (Z.of_nat m) with (- p_exp p) in * by (unfold m; lia).
      change (inject_Z (10 ^ 0)) with 1%Q. rewrite <- (q10nonneg (- p_exp p)) in * by lia.
      assert (Hp : (inject_Z 10 ^ (p_exp p) * inject_Z 10 ^ (- p_exp p) == 1)%Q).
      { rewrite <- q10add, Z.add_opp_diag_r. reflexivity. }
      set (u := (inject_Z 10 ^ (p_exp p))%Q) in *. set (v := (inject_Z 10 ^ (- p_exp p))%Q) in *. clearbody u v.
      apply (Qmult_inj_r _ _ v); [lra|]. rewrite <- Qmult_assoc, Hp. field. lra. }
  exists a3, (be2 - Z.of_N sh). split; [exact Hok3|]. split; [rewrite Ev3; exact Hv3|]. split; [|split].
  - assert (Hap3 : approx x (0 + Z.of_nat n + Z.of_nat m) (held (Z.of_N (V2 a3)) (be2 - Z.of_N sh))).
    { destruct Hap2 as [G1 G2]. split; rewrite Hheld, <- Hx; assumption. }
    eapply approx_more; [|unfold n, m|exact Hap3]; [|lia]. rewrite <- Hx.
    apply Qle_shift_div_l; [apply inj_pos, Z.pow_pos_nonneg; lia|]. rewrite Qmult_0_l. exact Hx1.
  - intros c k Hc Hck. rewrite Hheld.
    destruct (Z.le_gt_cases 0 (p_exp p)) as [L|L].
    + (* an integer *)
      assert (Hm0 : m = 0%nat) by (unfold m; lia). 
      assert (Hfew : few 54 (Z.of_N (V2 (p_sig p, 0%N)) * 10 ^ Z.of_nat n)).
      { rewrite Hv. fold s.
        assert (Hi : (inject_Z (s * 10 ^ Z.of_nat n) == inject_Z c * inject_Z 2 ^ k)%Q).
        { rewrite <- Hck, <- Hx, Hm0. change (inject_Z (10 ^ Z.of_nat 0)) with 1%Q. rewrite inject_Z_mult. field. }
        destruct (Z.le_gt_cases 0 k) as [K|K].
        - exists c, k. split; [exact K|]. split; [exact Hc|]. rewrite q2nonneg in Hi by exact K.
          rewrite <- inject_Z_mult in Hi. exact (inj_eq _ _ Hi).
        - exists (s * 10 ^ Z.of_nat n), 0. split; [lia|].
          assert (Hi2 : (inject_Z (s * 10 ^ Z.of_nat n) * inject_Z 2 ^ (- k) == inject_Z c)%Q).
          { rewrite Hi, <- Qmult_assoc, <- q2add, Z.add_opp_diag_r. change (inject_Z 2 ^ 0)%Q with 1%Q. ring. }
          rewrite q2nonneg in Hi2 by lia. rewrite <- inject_Z_mult in Hi2. apply inj_eq in Hi2.
          assert (0 <= s * 10 ^ Z.of_nat n) by (apply Z.mul_nonneg_nonneg; [unfold s; lia|apply Z.pow_nonneg; lia]).
          assert (0 < 2 ^ (- k)) by (apply Z.pow_pos_nonneg; lia). change (2 ^ 0) with 1. nia. }
      assert (Ed : (held (Z.of_N (V2 a2)) be2 == held (Z.of_N (V2 a1)) be1)%Q).
      { rewrite Hm0 in Edl. cbn [div_loop] in Edl. injection Edl as <- <-. reflexivity. }
      rewrite Ed, (Hex1 Hfew), Hh0, <- Hx, Hm0. change (inject_Z (10 ^ Z.of_nat 0)) with 1%Q. field.
    + assert (Hn0 : n = 0%nat) by (unfold n; lia).
      rewrite Hn0 in E1. cbn [mul_loop] in E1. injection E1 as <- <-.
      assert (Hk10 : 0 < 10 ^ Z.of_nat m) by (apply Z.pow_pos_nonneg; lia).
      assert (E10 : 10 ^ Z.of_nat m = 2 ^ Z.of_nat m * 5 ^ Z.of_nat m) by (rewrite <- Z.pow_mul_l; reflexivity).
      assert (Hi : (inject_Z s == inject_Z (c * 10 ^ Z.of_nat m) * inject_Z 2 ^ k)%Q).
      { rewrite inject_Z_mult.
        assert (Hi0 : (inject_Z s / inject_Z (10 ^ Z.of_nat m) == inject_Z c * inject_Z 2 ^ k)%Q).
        { rewrite <- Hck, <- Hx, Hn0. change (inject_Z (10 ^ Z.of_nat 0)) with 1%Q. rewrite Qmult_1_r. reflexivity. }
        assert (Hp := inj_pos _ Hk10).
        transitivity (inject_Z s / inject_Z (10 ^ Z.of_nat m) * inject_Z (10 ^ Z.of_nat m))%Q; [field; lra|].
        rewrite Hi0. ring. }
      assert (Hdv : (5 ^ Z.of_nat m | s)).
      { destruct (Z.le_gt_cases 0 k) as [K|K].
        - rewrite q2nonneg in Hi by exact K. rewrite <- inject_Z_mult in Hi. apply inj_eq in Hi.
          exists (c * 2 ^ Z.of_nat m * 2 ^ k). rewrite Hi, E10. ring.
        - assert (Hi2 : (inject_Z s * inject_Z 2 ^ (- k) == inject_Z (c * 10 ^ Z.of_nat m))%Q).
          { rewrite Hi, <- Qmult_assoc, <- q2add, Z.add_opp_diag_r. change (inject_Z 2 ^ 0)%Q with 1%Q. ring. }
          rewrite q2nonneg in Hi2 by lia. rewrite <- inject_Z_mult in Hi2. apply inj_eq in Hi2.
          apply (Gauss _ (2 ^ (- k))).
          + exists (c * 2 ^ Z.of_nat m). rewrite Z.mul_comm, Hi2, E10. ring.
          + apply rel_prime_sym. apply Zpow_facts.rel_prime_Zpower_r; [lia|]. apply rel_prime_sym. apply rel_prime_5_2. lia. }
      rewrite Hex2.
      * rewrite Hh0, <- Hx, Hn0. change (inject_Z (10 ^ Z.of_nat 0)) with 1%Q. rewrite Qmult_1_r. reflexivity.
      * rewrite Hv. exists s, 0. split; [lia|]. split; [|change (2 ^ 0) with 1; unfold s; lia].
        unfold s. split; [lia|]. change (2 ^ 64) with (Z.of_N (2 ^ 64)). apply N2Z.inj_lt, Hs.
      * rewrite Hv. exact Hdv.
  - reflexivity.
Qed.

(** ** Rounding what the words hold *)
Definition slack (n : Z) : Q := (inject_Z (n + 1) * eta)%Q.

Lemma slack_ok n : 0 <= n <= 512 -> (0 < slack n <= tiny)%Q.
Proof.
  intros Hn. unfold slack. split.
  - rewrite <- (Qmult_0_l eta). apply Qmult_lt_compat_r; [reflexivity|]. apply inj_pos. lia.
  - apply Qle_trans with (inject_Z 513 * eta)%Q; [|discriminate].
    apply Qmult_le_compat_r; [|discriminate]. rewrite <- Zle_Qle. lia.
Qed.

Lemma approx_upper x n v : 0 <= n <= 512 -> (0 <= x)%Q -> approx x n v -> (x <= v * (1 + slack n))%Q.
Proof.
  intros Hn Hx [H1 H2].
  assert (Ht : (1 <= (1 - inject_Z n * eta) * (1 + slack n))%Q).
  { unfold slack. rewrite inject_Z_plus. change (inject_Z 1) with 1%Q.
    assert (Hn0 : (0 <= inject_Z n)%Q) by (apply inj_nonneg; lia).
    assert (Hn1 : (inject_Z n <= 512)%Q) by (change 512%Q with (inject_Z 512); rewrite <- Zle_Qle; lia).
    set (m := inject_Z n) in *. clearbody m.
    assert (He : (0 < eta)%Q) by reflexivity. assert (He2 : (512 * 513 * eta <= 1)%Q) by discriminate.
    assert ((1 - m * eta) * (1 + (m + 1) * eta) == 1 + eta * (1 - m * (m + 1) * eta))%Q as -> by ring.
    assert (Hmm : (m * (m + 1) <= 512 * 513)%Q) by nra.
    assert (m * (m + 1) * eta <= 512 * 513 * eta)%Q by (apply Qmult_le_compat_r; lra).
    assert (0 <= eta * (1 - m * (m + 1) * eta))%Q by (apply Qmult_le_0_compat; lra). lra. }
  assert (Htp : (0 < 1 + slack n)%Q) by (assert (H := slack_ok n Hn); lra).
  set (y := (1 - inject_Z n * eta)%Q) in *. set (t := (1 + slack n)%Q) in *. clearbody y t.
  assert (x * y * t <= v * t)%Q by (apply Qmult_le_compat_r; lra).
  assert (x * 1 <= x * (y * t))%Q.
  { rewrite !(Qmult_comm x). apply Qmult_le_compat_r; assumption. }
  assert (x * y * t == x * (y * t))%Q by ring. lra.
Qed.

Lemma two_sum (k : Z) : (inject_Z 2 ^ (k + 1074) * inject_Z 2 ^ (-1074) == inject_Z 2 ^ k)%Q.
Proof. rewrite <- q2add. replace (k + 1074 + -1074) with k by lia. reflexivity. Qed.

Lemma round_words n (x : Q) a be b sh g (up : bool) : 0 <= n <= 512 -> (0 <= x)%Q ->
  let M := (a / 2 ^ sh)%N in
  let r := (a mod 2 ^ sh)%N in
  (M < 2 ^ 53)%N -> 0 <= g -> (b < dinf)%N -> dint b = Z.of_N M * 2 ^ g -> dint (b + 1) = (Z.of_N M + 1) * 2 ^ g ->
  2 ^ g <= fgap 52 11 (b + 1) -> g = be + 950 + Z.of_N sh ->
  approx x n (held (Z.of_N a) be) ->
  (forall c k, 0 <= c < 2 ^ 54 -> (x == inject_Z c * inject_Z 2 ^ k)%Q -> (held (Z.of_N a) be == x)%Q) ->
  (if up then (2 ^ sh <= 2 * r)%N else (2 * r <= 2 ^ sh)%N) ->
  ((x == inject_Z (2 * Z.of_N M + 1) * inject_Z 2 ^ (g - 1075))%Q -> (2 * r = 2 ^ sh)%N -> N.even (if up then b + 1 else b) = true) ->
  adjacent 52 11 x (if up then b + 1 else b)%N /\
  (clear_of_halfway 52 11 (slack n) x -> nearest 52 11 x (if up then b + 1 else b)%N).
Proof.
  intros Hn Hx0 M r HM Hg Hb E1 E2 Hgap Eg Hap Hex Hup Hpar.
  assert (Hu := q2pos (be + 950)). set (U := (inject_Z 2 ^ (be + 950))%Q) in *.
  assert (HG : 0 < 2 ^ g) by (apply Z.pow_pos_nonneg; lia).
  assert (EG : (inject_Z (2 ^ g) == inject_Z (Z.of_N (2 ^ sh)) * U)%Q).
  { rewrite <- q2nonneg by exact Hg. rewrite Eg, q2add. fold U. rewrite N2Z.inj_pow. change (Z.of_N 2) with 2.
    rewrite (q2nonneg (Z.of_N sh)) by lia. ring. }
  assert (Hdm : (inject_Z (Z.of_N a) == inject_Z (Z.of_N (2 ^ sh)) * inject_Z (Z.of_N M) + inject_Z (Z.of_N r))%Q).
  { rewrite <- inject_Z_mult, <- inject_Z_plus, <- N2Z.inj_mul, <- N2Z.inj_add.
    unfold M, r. rewrite <- N.div_mod by (apply N.pow_nonzero; discriminate). reflexivity. }
  assert (Hr : (inject_Z (Z.of_N r) < inject_Z (Z.of_N (2 ^ sh)))%Q).
  { rewrite <- Zlt_Qlt. apply N2Z.inj_lt. apply N.mod_lt, N.pow_nonzero. discriminate. }
  assert (Hr0 : (0 <= inject_Z (Z.of_N r))%Q) by (apply inj_nonneg; lia).
  set (X := (x * inject_Z 2 ^ 1074)%Q). set (A := (held (Z.of_N a) be * inject_Z 2 ^ 1074)%Q).
  assert (Hw := q2pos 1074). set (W := (inject_Z 2 ^ 1074)%Q) in *.
  assert (EA : (A == inject_Z (Z.of_N a) * U)%Q).
  { unfold A, held. rewrite <- Qmult_assoc. unfold W. rewrite <- q2add. replace (be - 124 + 1074) with (be + 950) by lia. reflexivity. }
  assert (HxX : (x == X * inject_Z 2 ^ funit 52 11)%Q).
  { unfold X, W. change (funit 52 11) with (-1074). rewrite <- Qmult_assoc, <- q2add. change (inject_Z 2 ^ (1074 + -1074))%Q with 1%Q. ring. }
  assert (HxA := approx_upper x n _ Hn Hx0 Hap). destruct Hap as [Hap1 Hap2].
  assert (H1 : (A <= X)%Q) by (unfold A, X; apply Qmult_le_compat_r; lra).
  assert (H2 : (X <= A * (1 + slack n))%Q).
  { unfold A, X. assert (x * W <= held (Z.of_N a) be * (1 + slack n) * W)%Q by (apply Qmult_le_compat_r; lra).
    assert (held (Z.of_N a) be * (1 + slack n) * W == held (Z.of_N a) be * W * (1 + slack n))%Q by ring. lra. }
  set (S := inject_Z (Z.of_N (2 ^ sh))) in *. set (m := inject_Z (Z.of_N M)) in *. set (rq := inject_Z (Z.of_N r)) in *.
  assert (EA' : (A == m * (S * U) + rq * U)%Q) by (rewrite EA, Hdm; ring).
  assert (HrU : (rq * U < S * U)%Q) by (apply Qmult_lt_compat_r; assumption).
  assert (HrU0 : (0 <= rq * U)%Q) by (apply Qmult_le_0_compat; lra).
  assert (H3 : (inject_Z (Z.of_N M * 2 ^ g) <= A)%Q) by (rewrite inject_Z_mult, EG, EA'; fold m; lra).
  assert (H4 : (A < inject_Z ((Z.of_N M + 1) * 2 ^ g))%Q).
  { rewrite inject_Z_mult, inject_Z_plus, EG, EA'. fold m. change (inject_Z 1) with 1%Q. lra. }
  set (mid := (inject_Z (2 * Z.of_N M + 1) * inject_Z (2 ^ g))%Q).
  assert (Emid : (mid == (2 * m + 1) * (S * U))%Q).
  { unfold mid. rewrite EG, inject_Z_plus, inject_Z_mult. fold m. reflexivity. }
  (* a halfway value is held exactly *)
  assert (Hxm : (X * 2 == mid)%Q -> (x == inject_Z (2 * Z.of_N M + 1) * inject_Z 2 ^ (g - 1075))%Q).
  { intros E. rewrite HxX. change (funit 52 11) with (-1074).
    assert (X == mid * inject_Z 2 ^ (-1))%Q as -> by (change (inject_Z 2 ^ (-1))%Q with (1 # 2)%Q; lra).
    unfold mid. rewrite <- (q2nonneg g Hg). rewrite <- !Qmult_assoc, <- !q2add.
    replace (g + (-1 + -1074)) with (g - 1075) by lia. reflexivity. }
  assert (Htie : (X * 2 == mid)%Q -> (A == X)%Q /\ (2 * r = 2 ^ sh)%N).
  { intros E. assert (Ex : (held (Z.of_N a) be == x)%Q).
    { apply (Hex (2 * Z.of_N M + 1) (g - 1075)); [|exact (Hxm E)].
      assert (Z.of_N M < 2 ^ 53) by (change (2 ^ 53) with (Z.of_N (2 ^ 53)); apply N2Z.inj_lt; exact HM).
      change (2 ^ 54) with (2 * 2 ^ 53). lia. }
    assert (EAX : (A == X)%Q) by (unfold A, X; rewrite Ex; reflexivity). split; [exact EAX|].
    assert (Er : (2 * rq * U == S * U)%Q) by lra.
    apply Qmult_inj_r in Er; [|lra]. unfold rq, S in Er. change 2%Q with (inject_Z 2) in Er. rewrite <- inject_Z_mult in Er. apply inj_eq in Er. lia. }
  assert (Hup2 : if up then (mid <= 2 * A)%Q /\ ((X * 2 == mid)%Q -> N.even (b + 1) = true)
                 else (2 * A <= mid)%Q /\ ((X * 2 == mid)%Q -> N.even b = true)).
  { assert (Hrr : if up then (S <= 2 * rq)%Q else (2 * rq <= S)%Q).
    { unfold S, rq. change 2%Q with (inject_Z 2). rewrite <- inject_Z_mult. destruct up; rewrite <- Zle_Qle; lia. }
    destruct up.
    - split; [|intros E; apply Hpar; [exact (Hxm E)|apply Htie, E]].
      assert (S * U <= 2 * rq * U)%Q by (apply Qmult_le_compat_r; lra). rewrite Emid, EA'. lra.
    - split; [|intros E; apply Hpar; [exact (Hxm E)|apply Htie, E]].
      assert (2 * rq * U <= S * U)%Q by (apply Qmult_le_compat_r; lra). rewrite Emid, EA'. lra. }
  assert (HMz : 0 <= Z.of_N M < 2 ^ 53).
  { split; [lia|]. change (2 ^ 53) with (Z.of_N (2 ^ 53)). apply N2Z.inj_lt. exact HM. }
  destruct (round_result (slack n) b (Z.of_N M) (2 ^ g) X A up (slack_ok n Hn) Hb E1 E2 HG HMz H1 H2 H3 H4 Hgap Hup2) as (R1 & R2).
  split; [apply R1, HxX|]. intros Hcl. apply R2; [|exact HxX]. intros Hle. fold mid in Hle |- *.
  assert (Ehw : (halfway 52 11 b * W * 2 == mid)%Q).
  { unfold halfway. rewrite !fp_value_fint. change (funit 52 11) with (-1074).
    assert (Ew : (inject_Z 2 ^ (-1074) * W == 1)%Q) by (unfold W; rewrite <- q2add; reflexivity).
    rewrite E1, E2. unfold mid. rewrite !inject_Z_mult, !inject_Z_plus. change (inject_Z 1) with 1%Q. change (inject_Z 2) with 2%Q.
    rewrite inject_Z_mult. change (inject_Z 2) with 2%Q in *. fold m. set (gg := inject_Z (2 ^ g)) in *.
    transitivity ((2 * m + 1) * gg * (2 ^ (-1074) * W))%Q; [field|]. rewrite Ew. ring. }
  destruct (Hcl b Hb) as [C|C].
  - assert (x * W <= halfway 52 11 b * W)%Q by (apply Qmult_le_compat_r; lra). fold X in H. lra.
  - exfalso. assert (Hlt : (halfway 52 11 b * (1 + slack n) * W < x * W)%Q) by (apply Qmult_lt_compat_r; assumption). fold X in Hlt.
    assert (Ht : (0 < 1 + slack n)%Q) by (assert (H := slack_ok n Hn); lra).
    assert (A * (1 + slack n) <= halfway 52 11 b * W * (1 + slack n))%Q by (apply Qmult_le_compat_r; lra).
    assert (halfway 52 11 b * W * (1 + slack n) == halfway 52 11 b * (1 + slack n) * W)%Q by ring. lra.
Qed.

(** ** The ends of the range *)
Lemma huge_is_infinite x : (inject_Z 2 ^ 1024 <= x)%Q -> adjacent 52 11 x dinf /\ nearest 52 11 x dinf.
Proof.
  intros H. set (X := (x * inject_Z 2 ^ 1074)%Q).
  assert (HxX : (x == X * inject_Z 2 ^ funit 52 11)%Q).
  { unfold X. change (funit 52 11) with (-1074). rewrite <- Qmult_assoc, <- q2add. change (inject_Z 2 ^ (1074 + -1074))%Q with 1%Q. ring. }
  assert (HX : (inject_Z (2 ^ 2098) <= X)%Q).
  { unfold X. rewrite <- q2nonneg by discriminate. change 2098 with (1024 + 1074). rewrite q2add.
    apply Qmult_le_compat_r; [exact H|]. apply Qlt_le_weak, q2pos. }
  assert (E1 : dint dinf = 2 ^ 2098) by (vm_compute; reflexivity).
  assert (E0 : dint (dinf - 1) < 2 ^ 2098) by (rewrite <- E1; apply fint_mono; [reflexivity|apply N.le_refl]).
  rewrite Zlt_Qlt in E0.
  split.
  - apply (adjacent_crit 52 11 X); [apply N.le_refl| | |exact HxX].
    + intros _. lra.
    + intros L. exfalso. exact (N.lt_irrefl _ L).
  - apply (nearest_crit 52 11 X); [apply N.le_refl| | |exact HxX].
    + intros _. rewrite E1, inject_Z_plus. split; [lra|]. intros _. reflexivity.
    + intros L. exfalso. exact (N.lt_irrefl _ L).
Qed.

Lemma small_is_zero x : (0 <= x)%Q -> (x < inject_Z 2 ^ (-1075))%Q -> adjacent 52 11 x 0 /\ nearest 52 11 x 0.
Proof.
  intros H0 H. set (X := (x * inject_Z 2 ^ 1074)%Q).
  assert (HxX : (x == X * inject_Z 2 ^ funit 52 11)%Q).
  { unfold X. change (funit 52 11) with (-1074). rewrite <- Qmult_assoc, <- q2add. change (inject_Z 2 ^ (1074 + -1074))%Q with 1%Q. ring. }
  assert (HX : (X < 1 # 2)%Q).
  { unfold X. assert (E : (inject_Z 2 ^ (-1075) * inject_Z 2 ^ 1074 == 1 # 2)%Q) by (rewrite <- q2add; reflexivity).
    rewrite <- E. apply Qmult_lt_compat_r; [apply q2pos|exact H]. }
  split.
  - apply (adjacent_crit 52 11 X); [discriminate| | |exact HxX].
    + intros L. discriminate L.
    + intros _. change (inject_Z (dint (0 + 1))) with 1%Q. lra.
  - apply (nearest_crit 52 11 X); [discriminate| | |exact HxX].
    + intros L. discriminate L.
    + intros _. change (inject_Z (dint 0 + dint (0 + 1))) with 1%Q. split; [lra|]. intros _. reflexivity.
Qed.

Lemma make_inf_sign neg : make_inf neg = with_sign 52 11 neg dinf.
Proof. destruct neg; reflexivity. Qed.
Lemma make_zero_sign neg : make_zero neg = with_sign 52 11 neg 0.
Proof. destruct neg; reflexivity. Qed.

(** A value with few significant bits is not tiny. *)
Lemma halfway_not_tiny s e c k : 0 < s < 2 ^ 64 -> 0 <= c < 2 ^ 54 ->
  (scaled s 10 e == inject_Z c * inject_Z 2 ^ k)%Q -> -28 < e.
Proof.
  intros Hs Hc H. destruct (Z.le_gt_cases e (-28)) as [L|L]; [exfalso|lia].
  set (m := - e) in *. assert (Hm : 28 <= m) by lia.
  assert (Hi : (inject_Z s == inject_Z (c * 10 ^ m) * inject_Z 2 ^ k)%Q).
  { rewrite inject_Z_mult. unfold scaled in H. rewrite <- (q10nonneg m) by lia.
    transitivity (inject_Z s * inject_Z 10 ^ e * inject_Z 10 ^ m)%Q.
    - rewrite <- Qmult_assoc, <- q10add. unfold m. rewrite Z.add_opp_diag_r. change (inject_Z 10 ^ 0)%Q with 1%Q. ring.
    - rewrite H. ring. }
  assert (E10 : 10 ^ m = 2 ^ m * 5 ^ m) by (rewrite <- Z.pow_mul_l; reflexivity).
  assert (Hdv : (5 ^ m | s)).
  { destruct (Z.le_gt_cases 0 k) as [K|K].
    - rewrite q2nonneg in Hi by exact K. rewrite <- inject_Z_mult in Hi. apply inj_eq in Hi.
      exists (c * 2 ^ m * 2 ^ k). rewrite Hi, E10. ring.
    - assert (Hi2 : (inject_Z s * inject_Z 2 ^ (- k) == inject_Z (c * 10 ^ m))%Q).
      { rewrite Hi, <- Qmult_assoc, <- q2add, Z.add_opp_diag_r. change (inject_Z 2 ^ 0)%Q with 1%Q. ring. }
      rewrite q2nonneg in Hi2 by lia. rewrite <- inject_Z_mult in Hi2. apply inj_eq in Hi2.
      apply (Gauss _ (2 ^ (- k))).
      + exists (c * 2 ^ m). rewrite Z.mul_comm, Hi2, E10. ring.
      + apply rel_prime_sym. apply Zpow_facts.rel_prime_Zpower_r; [lia|]. apply rel_prime_sym. apply rel_prime_5_2. lia. }
  apply Z.divide_pos_le in Hdv; [|lia].
  assert (5 ^ 28 <= 5 ^ m) by (apply Z.pow_le_mono_r; lia).
  assert (2 ^ 64 < 5 ^ 28) by reflexivity. lia.
Qed.

Lemma slow_path_result p : (0 < p_sig p < 2 ^ 64)%N -> Z.abs (p_exp p) < 512 ->
  let x := scaled (Z.of_N (p_sig p)) 10 (p_exp p) in (inject_Z 10 ^ (-324) <= x)%Q ->
  exists b, slow_path p = Ok (with_sign 52 11 (p_neg p) b) /\ adjacent 52 11 x b /\
    (clear_of_halfway 52 11 (slack (Z.abs (p_exp p))) x -> nearest 52 11 x b).
Proof.
  intros Hs He x Hlo.
  destruct (slow_path_words p Hs He) as (a & be & Hok & Hv & Hap & Hex & ->). fold x in Hap, Hex.
  assert (Hx0 : (0 <= x)%Q) by (eapply Qle_trans; [|exact Hlo]; apply Qlt_le_weak, q10pos).
  assert (Hn : 0 <= Z.abs (p_exp p) <= 512) by lia.
  assert (Hup := approx_upper x _ _ Hn Hx0 Hap).
  assert (Hsl := slack_ok _ Hn).
  assert (HvZ : 2 ^ 124 <= Z.of_N (V2 a) < 2 ^ 125).
  { change (2 ^ 124) with (Z.of_N (2 ^ 124)). change (2 ^ 125) with (Z.of_N (2 ^ 125)). split; [apply N2Z.inj_le, Hv|apply N2Z.inj_lt, Hv]. }
  assert (Hh1 : (inject_Z 2 ^ be <= held (Z.of_N (V2 a)) be)%Q).
  { unfold held. replace be with (124 + (be - 124)) at 1 by lia. rewrite q2add. apply Qmult_le_compat_r; [|apply Qlt_le_weak, q2pos].
    rewrite q2nonneg by discriminate. rewrite <- Zle_Qle. apply HvZ. }
  assert (Hh2 : (held (Z.of_N (V2 a)) be < inject_Z 2 ^ (be + 1))%Q).
  { unfold held. replace (be + 1) with (125 + (be - 124)) by lia. rewrite q2add. apply Qmult_lt_compat_r; [apply q2pos|].
    rewrite q2nonneg by discriminate. rewrite <- Zlt_Qlt. apply HvZ. }
  assert (Hxb : (x <= inject_Z 2 ^ (be + 2))%Q).
  { replace (be + 2) with (be + 1 + 1) by lia. rewrite q2add. change (inject_Z 2 ^ 1)%Q with 2%Q.
    assert (tiny <= 1)%Q by discriminate.
    set (h := held (Z.of_N (V2 a)) be) in *. set (sl := slack _) in *. assert (Hp := q2pos be). clearbody h sl. clear - Hup Hsl Hh1 Hh2 H Hp. nra. }
  destruct (Z.leb_spec (be + 1023) 0) as [L|L].
  - assert (Hbe : -54 <= be + 1023).
    { assert (Hlt : (inject_Z 2 ^ (-1077) < inject_Z 2 ^ (be + 1))%Q).
      { eapply Qle_lt_trans; [|exact Hh2].
        assert (Hc : (inject_Z 2 ^ (-1077) * (1 + tiny) <= inject_Z 10 ^ (-324))%Q) by (vm_compute; discriminate).
        set (h := held (Z.of_N (V2 a)) be) in *. set (sl := slack _) in *.
        assert (Hc2 : (inject_Z 2 ^ (-1077) * (1 + sl) <= h * (1 + sl))%Q).
        { eapply Qle_trans; [|exact Hup]. eapply Qle_trans; [|exact Hlo]. eapply Qle_trans; [|exact Hc].
          apply Qmult_le_l; [apply q2pos|]. lra. }
        apply Qmult_le_r in Hc2; [exact Hc2|lra]. }
      apply Qpower_lt_compat_l_inv in Hlt; [lia|reflexivity]. }
    destruct (copy_denormal_spec a (be + 1023) (p_neg p) Hok Hv ltac:(lia)) as (Ec & HM).
    set (sh := Z.to_N (73 - (be + 1023))) in *.
    set (M := (V2 a / 2 ^ sh)%N) in *. set (r := (V2 a mod 2 ^ sh)%N) in *. set (up := (2 ^ (sh - 1) <=? r)%N) in *.
    destruct (small_pattern M HM) as (Hb & E1 & E2 & Hg).
    assert (Hsh : (0 < sh)%N) by (unfold sh; lia).
    assert (Eps : (2 ^ sh = 2 * 2 ^ (sh - 1))%N) by (rewrite <- N.pow_succ_r'; f_equal; lia).
    destruct (round_words (Z.abs (p_exp p)) x (V2 a) be M sh 0 up Hn Hx0) as (R1 & R2).
    + fold M. eapply N.lt_trans; [exact HM|reflexivity].
    + lia.
    + exact Hb.
    + fold M. rewrite E1. lia.
    + fold M. rewrite E2. lia.
    + exact Hg.
    + unfold sh. lia.
    + exact Hap.
    + exact Hex.
    + fold r. rewrite Eps. unfold up. destruct (N.leb_spec (2 ^ (sh - 1)) r); lia.
    + intros Et _. exfalso.
      assert (Het := halfway_not_tiny (Z.of_N (p_sig p)) (p_exp p) (2 * Z.of_N M + 1) (0 - 1075)).
      assert (Hlow : (inject_Z 10 ^ (-27) <= x)%Q).
      { unfold x, scaled. apply Qle_trans with (inject_Z 1 * inject_Z 10 ^ (p_exp p))%Q.
        - change (inject_Z 1) with 1%Q. rewrite Qmult_1_l. apply Qpower_le_compat_l; [|discriminate].
          assert (-28 < p_exp p); [|lia]. apply Het; [| |exact Et].
          + split; [lia|]. change (2 ^ 64) with (Z.of_N (2 ^ 64)). apply N2Z.inj_lt, Hs.
          + assert (Z.of_N M < 2 ^ 52) by (change (2 ^ 52) with (Z.of_N (2 ^ 52)); apply N2Z.inj_lt; exact HM).
            change (2 ^ 54) with (4 * 2 ^ 52). lia.
        - apply Qmult_le_compat_r; [rewrite <- Zle_Qle; lia|]. apply Qlt_le_weak, q10pos. }
      assert (Hhi : (inject_Z 2 ^ (be + 2) <= inject_Z 2 ^ (-1021))%Q) by (apply Qpower_le_compat_l; [lia|discriminate]).
      assert (Hc : (inject_Z 2 ^ (-1021) < inject_Z 10 ^ (-27))%Q) by (vm_compute; reflexivity). lra.
    + exists (if up then M + 1 else M)%N.
      assert (Hle : ((if up then M + 1 else M) <= dinf)%N) by (destruct up; lia).
      split; [|split; [exact R1|exact R2]]. rewrite Ec. f_equal.
      replace (M + (if up then 1 else 0))%N with (if up then M + 1 else M)%N by (destruct up; lia).
      apply sign_lor, dinf_lt, Hle.
  - destruct (Z.ltb_spec (be + 1023) 2047) as [L2|L2].
    + destruct (copy_normal_spec a (be + 1023) (p_neg p) Hok Hv ltac:(lia)) as (Ec & HM).
      set (M := (V2 a / 2 ^ 72)%N) in *. set (r := (V2 a mod 2 ^ 72)%N) in *.
      set (up := ((2 ^ 71 <? r) || ((r =? 2 ^ 71) && N.odd M))%N) in *.
      destruct (normal_pattern (Z.to_N (be + 1023)) M ltac:(lia) HM) as (Hb & E1 & E2 & Hg & Hev).
      set (b := (Z.to_N (be + 1023) * 2 ^ 52 + (M - 2 ^ 52))%N) in *.
      rewrite Z2N.id in E1, E2, Hg by lia.
      destruct (round_words (Z.abs (p_exp p)) x (V2 a) be b 72 (be + 1023 - 1) up Hn Hx0) as (R1 & R2).
      * fold M. apply HM.
      * lia.
      * exact Hb.
      * fold M. exact E1.
      * fold M. exact E2.
      * exact Hg.
      * lia.
      * exact Hap.
      * exact Hex.
      * fold r. unfold up. change (2 ^ 72)%N with (2 * 2 ^ 71)%N. set (T := (2 ^ 71)%N) in *. clearbody T r. clear.
        destruct (N.ltb_spec T r); cbn [orb]; [lia|]. destruct (N.eqb_spec r T); cbn [andb]; [|lia]. destruct (N.odd M); lia.
      * intros _ Er. fold r in Er. change (2 ^ 72)%N with (2 * 2 ^ 71)%N in Er.
        assert (Er' : r = (2 ^ 71)%N) by (set (T := (2 ^ 71)%N) in *; clearbody T r; clear - Er; lia).
        unfold up. rewrite Er', N.ltb_irrefl, N.eqb_refl. cbn [orb andb].
        destruct (N.odd M) eqn:Eo.
        -- rewrite N.even_add, Hev. rewrite <- N.negb_odd, Eo. reflexivity.
        -- rewrite Hev, <- N.negb_odd, Eo. reflexivity.
      * exists (if up then b + 1 else b)%N.
        assert (Hle : ((if up then b + 1 else b) <= dinf)%N) by (clear - Hb; destruct up; lia).
        split; [|split; [exact R1|exact R2]]. rewrite Ec. f_equal.
        replace (b + (if up then 1 else 0))%N with (if up then b + 1 else b)%N by (clear; destruct up; lia).
        apply sign_lor, dinf_lt, Hle.
    + exists dinf. rewrite make_inf_sign. split; [reflexivity|].
      destruct (huge_is_infinite x) as (R1 & R2); [|split; [exact R1|intros _; exact R2]].
      apply Qle_trans with (held (Z.of_N (V2 a)) be); [|apply Hap].
      eapply Qle_trans; [|exact Hh1]. apply Qpower_le_compat_l; [lia|discriminate].
Qed.

(** ** One multiplication or division *)
Lemma log2_quotient num den : 0 < num -> 0 < den ->
  let e0 := Z.log2 num - Z.log2 den in
  let below := if 0 <=? e0 then num <? den * 2 ^ e0 else num * 2 ^ (- e0) <? den in
  let e := if below then e0 - 1 else e0 in
  let n := if e <=? 52 then num * 2 ^ (52 - e) else num in
  let d := if e <=? 52 then den else den * 2 ^ (e - 52) in
  0 < d /\ 2 ^ 52 * d <= n < 2 ^ 53 * d /\
  (inject_Z num / inject_Z den == inject_Z n / inject_Z d * inject_Z 2 ^ (e - 52))%Q.
Proof.
  intros Hn Hd e0 below e n d.
  assert (Ln := Z.log2_spec num Hn). assert (Ld := Z.log2_spec den Hd).
  assert (Hl1 := Z.log2_nonneg num). assert (Hl2 := Z.log2_nonneg den).
  set (a := Z.log2 num) in *. set (b := Z.log2 den) in *.
  assert (Hdp : 0 < d).
  { unfold d. destruct (e <=? 52) eqn:E; [exact Hd|]. apply Z.leb_gt in E. apply Z.mul_pos_pos; [exact Hd|apply Z.pow_pos_nonneg; lia]. }
  (* num = quotient * 2^e with quotient in [1, 2), stated with nonnegative powers *)
  assert (Hb : forall k l, 0 <= k -> 0 <= l -> k - l = e -> den * 2 ^ k <= num * 2 ^ l < 2 * (den * 2 ^ k)).
  { intros k l Hk Hl Ekl.
    assert (Hpos : forall z, 0 <= z -> 0 < 2 ^ z) by (intros z Hz; apply Z.pow_pos_nonneg; lia).
    assert (P1 := Hpos k Hk). assert (P2 := Hpos l Hl).
    (* compare through a common power *)
    assert (Hcmp : (below = true -> num * 2 ^ b < den * 2 ^ a) /\ (below = false -> den * 2 ^ a <= num * 2 ^ b)).
    { unfold below. destruct (Z.leb_spec 0 e0) as [L|L].
      - replace a with (b + e0) by (unfold e0; lia). rewrite Z.pow_add_r by lia. assert (Pb := Hpos b Hl2).
        split; intros E; [apply Z.ltb_lt in E|apply Z.ltb_ge in E]; nia.
      - replace b with (a + - e0) by (unfold e0; lia). rewrite Z.pow_add_r by lia. assert (Pa := Hpos a Hl1).
        split; intros E; [apply Z.ltb_lt in E|apply Z.ltb_ge in E]; nia. }
    rewrite !Z.pow_succ_r in * by lia.
    assert (Pa := Hpos a Hl1). assert (Pb := Hpos b Hl2).
    assert (Hab : num * 2 ^ b < 2 * (den * 2 ^ a)) by nia.
    assert (Hab2 : den * 2 ^ a < 2 * (num * 2 ^ b)) by nia.
    destruct Hcmp as (C1 & C2). unfold e in Ekl. destruct below.
    - specialize (C1 eq_refl). assert (Ek : 2 ^ k * 2 ^ b * 2 = 2 ^ l * 2 ^ a).
      { replace (2 ^ k * 2 ^ b * 2) with (2 ^ k * 2 ^ b * 2 ^ 1) by reflexivity. rewrite <- !Z.pow_add_r by lia. f_equal. unfold e0 in Ekl. lia. }
      split.
      + apply (Zmult_le_reg_r _ _ (2 ^ a)); [lia|]. apply (Zmult_le_reg_r _ _ (2 ^ b * 2)); [lia|].
        replace (den * 2 ^ k * 2 ^ a * (2 ^ b * 2)) with (den * 2 ^ a * (2 ^ k * 2 ^ b * 2)) by ring.
        replace (num * 2 ^ l * 2 ^ a * (2 ^ b * 2)) with (2 * (num * 2 ^ b) * (2 ^ l * 2 ^ a)) by ring.
        rewrite Ek. apply Z.mul_le_mono_nonneg_r; [nia|lia].
      + apply (Zmult_lt_reg_r _ _ (2 ^ a)); [lia|]. apply (Zmult_lt_reg_r _ _ (2 ^ b)); [lia|].
        replace (2 * (den * 2 ^ k) * 2 ^ a * 2 ^ b) with (den * 2 ^ a * (2 ^ k * 2 ^ b * 2)) by ring.
        replace (num * 2 ^ l * 2 ^ a * 2 ^ b) with (num * 2 ^ b * (2 ^ l * 2 ^ a)) by ring.
        rewrite Ek. apply Z.mul_lt_mono_pos_r; [nia|lia].
    - specialize (C2 eq_refl). assert (Ek : 2 ^ k * 2 ^ b = 2 ^ l * 2 ^ a).
      { rewrite <- !Z.pow_add_r by lia. f_equal. unfold e0 in Ekl. lia. }
      split.
      + apply (Zmult_le_reg_r _ _ (2 ^ a)); [lia|]. apply (Zmult_le_reg_r _ _ (2 ^ b)); [lia|].
        replace (den * 2 ^ k * 2 ^ a * 2 ^ b) with (den * 2 ^ a * (2 ^ k * 2 ^ b)) by ring.
        replace (num * 2 ^ l * 2 ^ a * 2 ^ b) with (num * 2 ^ b * (2 ^ l * 2 ^ a)) by ring.
        rewrite Ek. apply Z.mul_le_mono_nonneg_r; [nia|lia].
      + apply (Zmult_lt_reg_r _ _ (2 ^ a)); [lia|]. apply (Zmult_lt_reg_r _ _ (2 ^ b)); [lia|].
        replace (2 * (den * 2 ^ k) * 2 ^ a * 2 ^ b) with (2 * (den * 2 ^ a) * (2 ^ k * 2 ^ b)) by ring.
        replace (num * 2 ^ l * 2 ^ a * 2 ^ b) with (num * 2 ^ b * (2 ^ l * 2 ^ a)) by ring.
        rewrite Ek. apply Z.mul_lt_mono_pos_r; [nia|lia]. }
  assert (Hdq := inj_pos _ Hd). assert (Hnq := inj_pos _ Hn).
  split; [exact Hdp|]. unfold n, d. destruct (Z.leb_spec e 52) as [L|L].
  - split.
    + destruct (Z.le_gt_cases 0 e) as [L0|L0].
      * assert (H := Hb e 0 L0 ltac:(lia) ltac:(lia)). rewrite Z.mul_1_r in H.
        assert (E52 : 2 ^ 52 = 2 ^ e * 2 ^ (52 - e)) by (rewrite <- Z.pow_add_r by lia; f_equal; lia).
        change (2 ^ 53) with (2 * 2 ^ 52). rewrite E52. assert (0 < 2 ^ (52 - e)) by (apply Z.pow_pos_nonneg; lia).
        set (u := 2 ^ e) in *. set (v := 2 ^ (52 - e)) in *. clearbody u v. clear - H H0. nia.
      * assert (H := Hb 0 (- e) ltac:(lia) ltac:(lia) ltac:(lia)). rewrite Z.mul_1_r in H.
        assert (E52 : 2 ^ (52 - e) = 2 ^ 52 * 2 ^ (- e)) by (rewrite <- Z.pow_add_r by lia; f_equal; lia).
        rewrite E52. change (2 ^ 53) with (2 * 2 ^ 52). assert (0 < 2 ^ 52) by reflexivity.
        set (u := 2 ^ (- e)) in *. set (v := 2 ^ 52) in *. clearbody u v. clear - H H0. nia.
    + rewrite inject_Z_mult, <- (q2nonneg (52 - e)) by lia.
      assert (E : (inject_Z 2 ^ (52 - e) * inject_Z 2 ^ (e - 52) == 1)%Q).
      { rewrite <- q2add. replace (52 - e + (e - 52)) with 0 by lia. reflexivity. }
      set (u := (inject_Z 2 ^ (52 - e))%Q) in *. set (v := (inject_Z 2 ^ (e - 52))%Q) in *.
      transitivity (inject_Z num / inject_Z den * (u * v))%Q; [rewrite E; ring|field; lra].
  - split.
    + assert (H := Hb e 0 ltac:(lia) ltac:(lia) ltac:(lia)). rewrite Z.mul_1_r in H.
      assert (E52 : 2 ^ e = 2 ^ 52 * 2 ^ (e - 52)) by (rewrite <- Z.pow_add_r by lia; f_equal; lia).
      rewrite E52 in H. change (2 ^ 53) with (2 * 2 ^ 52).
      set (u := 2 ^ (e - 52)) in *. set (v := 2 ^ 52) in *. clearbody u v. clear - H. nia.
    + rewrite inject_Z_mult, <- (q2nonneg (e - 52)) by lia. assert (Hu := q2pos (e - 52)).
      set (u := (inject_Z 2 ^ (e - 52))%Q) in *. field. split; lra.
Qed.

Lemma ieee_quotient_spec num den : 0 < num -> 0 < den -> num < den * 2 ^ 1000 -> den < num * 2 ^ 1000 ->
  let x := (inject_Z num / inject_Z den)%Q in
  (ieee_quotient num den <= dinf)%N /\ adjacent 52 11 x (ieee_quotient num den) /\ nearest 52 11 x (ieee_quotient num den).
Proof.
  intros Hn Hd Hhi Hlo x. destruct (log2_quotient num den Hn Hd) as (Hd0 & Hnd & Ex).
  assert (Ln := Z.log2_spec num Hn). assert (Ld := Z.log2_spec den Hd).
  assert (Hl1 := Z.log2_nonneg num). assert (Hl2 := Z.log2_nonneg den).
  unfold ieee_quotient. cbv zeta in *.
  set (e0 := Z.log2 num - Z.log2 den) in *.
  set (below := if 0 <=? e0 then num <? den * 2 ^ e0 else num * 2 ^ (- e0) <? den) in *.
  set (e := if below then e0 - 1 else e0) in *.
  set (n := if e <=? 52 then num * 2 ^ (52 - e) else num) in *.
  set (d := if e <=? 52 then den else den * 2 ^ (e - 52)) in *.
  assert (He0 : -1001 <= e0 <= 1001).
  { unfold e0. split.
    - assert (2 ^ Z.log2 den < 2 ^ (Z.log2 num + 1 + 1000)).
      { eapply Z.le_lt_trans; [apply Ld|]. eapply Z.lt_le_trans; [exact Hlo|]. rewrite Z.pow_add_r by lia.
        apply Z.mul_le_mono_nonneg_r; [discriminate|]. rewrite Z.add_1_r. lia. }
      apply Z.pow_lt_mono_r_iff in H; lia.
    - assert (2 ^ Z.log2 num < 2 ^ (Z.log2 den + 1 + 1000)).
      { eapply Z.le_lt_trans; [apply Ln|]. eapply Z.lt_le_trans; [exact Hhi|]. rewrite Z.pow_add_r by lia.
        apply Z.mul_le_mono_nonneg_r; [discriminate|]. rewrite Z.add_1_r. lia. }
      apply Z.pow_lt_mono_r_iff in H; lia. }
  assert (He : -1002 <= e <= 1001) by (unfold e; destruct below; lia).
  clearbody e. clear e0 below He0 Ln Ld Hl1 Hl2.
  assert (Hq : 2 ^ 52 <= n / d < 2 ^ 53).
  { split; [apply Z.div_le_lower_bound; lia|apply Z.div_lt_upper_bound; lia]. }
  assert (Edm := Z.div_mod n d ltac:(lia)). assert (Hr := Z.mod_pos_bound n d Hd0).
  set (q := n / d) in *. set (r := n mod d) in *.
  set (up := ((d <? 2 * r) || ((2 * r =? d) && Z.odd q))%bool).
  assert (HqN : (2 ^ 52 <= Z.to_N q < 2 ^ 53)%N).
  { change (2 ^ 52)%N with (Z.to_N (2 ^ 52)). change (2 ^ 53)%N with (Z.to_N (2 ^ 53)).
    split; [apply Z2N.inj_le; lia|apply Z2N.inj_lt; lia]. }
  destruct (normal_pattern (Z.to_N (e + 1023)) (Z.to_N q) ltac:(lia) HqN) as (Hb & E1 & E2 & Hg & Hev).
  rewrite (Z2N.id (e + 1023)) in E1, E2, Hg by (clear - He; lia). rewrite (Z2N.id q) in E1, E2 by (clear - Hq; lia).
  set (b := (Z.to_N (e + 1023) * 2 ^ 52 + (Z.to_N q - 2 ^ 52))%N) in *.
  assert (Eb : Z.to_N ((e + 1023) * 2 ^ 52 + (q - 2 ^ 52) + (if up then 1 else 0)) = (if up then b + 1 else b)%N).
  { unfold b. rewrite Z2N.inj_add by (try (destruct up; lia); lia). rewrite Z2N.inj_add by lia. rewrite Z2N.inj_mul by lia. rewrite Z2N.inj_sub by lia.
    change (Z.to_N (2 ^ 52)) with (2 ^ 52)%N. destruct up; [reflexivity|]. change (Z.to_N 0) with 0%N. apply N.add_0_r. }
  rewrite Eb.
  assert (HG : 0 < 2 ^ (e + 1023 - 1)) by (apply Z.pow_pos_nonneg; lia).
  set (X := (x * inject_Z 2 ^ 1074)%Q).
  assert (HxX : (x == X * inject_Z 2 ^ funit 52 11)%Q).
  { unfold X. change (funit 52 11) with (-1074). rewrite <- Qmult_assoc, <- q2add. change (inject_Z 2 ^ (1074 + -1074))%Q with 1%Q. ring. }
  assert (EX : (X == inject_Z n / inject_Z d * inject_Z (2 ^ (e + 1023 - 1)))%Q).
  { unfold X, x. rewrite Ex, <- Qmult_assoc, <- q2add. rewrite <- (q2nonneg (e + 1023 - 1)) by lia.
    replace (e - 52 + 1074) with (e + 1023 - 1) by lia. reflexivity. }
  assert (Hdq := inj_pos _ Hd0). assert (HGq := inj_pos _ HG).
  set (G := 2 ^ (e + 1023 - 1)) in *.
  assert (Hy : (inject_Z n / inject_Z d == inject_Z q + inject_Z r / inject_Z d)%Q).
  { rewrite Edm, inject_Z_plus, inject_Z_mult. field. lra. }
  assert (Hy1 : (0 <= inject_Z r / inject_Z d)%Q).
  { apply Qle_shift_div_l; [exact Hdq|]. rewrite Qmult_0_l. apply inj_nonneg. lia. }
  assert (Hy2 : (inject_Z r / inject_Z d < 1)%Q).
  { apply Qlt_shift_div_r; [exact Hdq|]. rewrite Qmult_1_l, <- Zlt_Qlt. lia. }
  set (w := (inject_Z r / inject_Z d)%Q) in *.
  assert (Hw : (inject_Z r == w * inject_Z d)%Q) by (unfold w; field; lra).
  rewrite Hy in EX. set (g := inject_Z G) in *.
  assert (Hwg : (0 <= w * g)%Q) by (apply Qmult_le_0_compat; lra).
  assert (Hwg1 : (w * g < 1 * g)%Q) by (apply Qmult_lt_compat_r; lra).
  assert (Hqz : 0 <= q) by lia. assert (Hqq := inj_nonneg _ Hqz).
  assert (Hqg : (0 <= inject_Z q * g)%Q) by (apply Qmult_le_0_compat; lra).
  assert (HX0 : (0 <= X)%Q) by (rewrite EX; lra).
  assert (H2w : (2 * w == inject_Z (2 * r) / inject_Z d)%Q) by (rewrite inject_Z_mult; unfold w; field; lra).
  destruct (round_result tiny b q G X X up) as (R1 & R2).
  - split; [reflexivity|apply Qle_refl].
  - exact Hb.
  - exact E1.
  - exact E2.
  - exact HG.
  - lia.
  - apply Qle_refl.
  - assert (0 <= X * tiny)%Q by (apply Qmult_le_0_compat; [exact HX0|discriminate]). lra.
  - rewrite inject_Z_mult, EX. fold g. lra.
  - rewrite inject_Z_mult, inject_Z_plus, EX. fold g. change (inject_Z 1) with 1%Q. lra.
  - exact Hg.
  - fold g. rewrite inject_Z_plus, inject_Z_mult. change (inject_Z 1) with 1%Q. change (inject_Z 2) with 2%Q.
    assert (Htie : (X * 2 == (2 * inject_Z q + 1) * g)%Q -> 2 * r = d).
    { rewrite EX. intros E. assert (E' : (2 * w * g == 1 * g)%Q) by lra. apply Qmult_inj_r in E'; [|lra].
      apply inj_eq. rewrite inject_Z_mult, Hw. change (inject_Z 2) with 2%Q.
      transitivity (2 * w * inject_Z d)%Q; [ring|]. rewrite E'. ring. }
    assert (Hevq : N.even (Z.to_N q) = negb (Z.odd q)).
    { rewrite <- N.negb_odd. f_equal. rewrite <- (Z2N.id q) at 2 by lia. destruct (Z.to_N q) as [|[ | | ]]; reflexivity. }
    unfold up. destruct (Z.ltb_spec d (2 * r)) as [L|L]; cbn [orb].
    + split.
      * assert (1 <= 2 * w)%Q. { rewrite H2w. apply Qle_shift_div_l; [exact Hdq|]. rewrite Qmult_1_l, <- Zle_Qle. lia. }
        assert (1 * g <= 2 * w * g)%Q by (apply Qmult_le_compat_r; lra). rewrite EX. lra.
      * intros E. apply Htie in E. lia.
    + destruct (Z.eqb_spec (2 * r) d) as [Er|Er]; cbn [andb].
      * assert (E1w : (2 * w == 1)%Q). { rewrite H2w, Er. field. lra. }
        assert (Eg : (2 * w * g == 1 * g)%Q) by (rewrite E1w; reflexivity).
        destruct (Z.odd q) eqn:Eo.
        -- split; [rewrite EX; lra|]. intros _. rewrite N.even_add, Hev, Hevq. reflexivity.
        -- split; [rewrite EX; lra|]. intros _. rewrite Hev, Hevq. reflexivity.
      * split.
        -- assert (2 * w <= 1)%Q. { rewrite H2w. apply Qle_shift_div_r; [exact Hdq|]. rewrite Qmult_1_l, <- Zle_Qle. lia. }
           assert (2 * w * g <= 1 * g)%Q by (apply Qmult_le_compat_r; lra). rewrite EX. lra.
        -- intros E. apply Htie in E. lia.
  - split; [destruct up; lia|]. split; [apply R1, HxX|apply R2; [auto|exact HxX]].
Qed.

Lemma fast_path_result p : (0 < p_sig p < 2 ^ 53)%N -> Z.abs (p_exp p) < 16 ->
  let x := scaled (Z.of_N (p_sig p)) 10 (p_exp p) in
  exists b, fast_path p = with_sign 52 11 (p_neg p) b /\ adjacent 52 11 x b /\ nearest 52 11 x b.
Proof.
  intros Hs He x. unfold fast_path, getPow10. set (s := Z.of_N (p_sig p)) in *.
  assert (Hsz : 0 < s < 2 ^ 53).
  { unfold s. split; [lia|]. change (2 ^ 53) with (Z.of_N (2 ^ 53)). apply N2Z.inj_lt, Hs. }
  rewrite N2Z.inj_pow. rewrite Z2N.id by lia. change (Z.of_N 10) with 10.
  assert (Hp : 1 <= 10 ^ Z.abs (p_exp p) <= 10 ^ 15).
  { split; [|apply Z.pow_le_mono_r; lia]. assert (0 < 10 ^ Z.abs (p_exp p)) by (apply Z.pow_pos_nonneg; lia). lia. }
  set (num := if p_exp p <? 0 then s else s * 10 ^ Z.abs (p_exp p)).
  set (den := if p_exp p <? 0 then 10 ^ Z.abs (p_exp p) else 1).
  assert (Hx : (inject_Z num / inject_Z den == x)%Q).
  { unfold num, den, x, scaled. destruct (Z.ltb_spec (p_exp p) 0) as [L|L].
    - rewrite Z.abs_neq by lia. rewrite <- q10nonneg by lia.
      assert (E : (inject_Z 10 ^ p_exp p * inject_Z 10 ^ (- p_exp p) == 1)%Q) by (rewrite <- q10add, Z.add_opp_diag_r; reflexivity).
      assert (Hq := q10pos (- p_exp p)). set (u := (inject_Z 10 ^ p_exp p)%Q) in *. set (v := (inject_Z 10 ^ (- p_exp p))%Q) in *. clearbody u v.
      apply (Qmult_inj_r _ _ v); [lra|]. rewrite <- Qmult_assoc, E. field. lra.
    - rewrite Z.abs_eq by lia. rewrite inject_Z_mult, q10nonneg by lia. change (inject_Z 1) with 1%Q. field. }
  assert (Hnum : 0 < num < 2 ^ 110 /\ 0 < den < 2 ^ 50).
  { assert (E110 : 2 ^ 110 = 2 ^ 53 * 2 ^ 57) by reflexivity. assert (H57 : 10 ^ 15 < 2 ^ 50) by reflexivity. assert (H58 : 2 ^ 50 < 2 ^ 57) by reflexivity.
    unfold num, den. rewrite E110. set (a := 2 ^ 53) in *. set (c := 2 ^ 57) in *. set (f := 2 ^ 50) in *. set (t := 10 ^ 15) in *. clearbody a c f t.
    destruct (p_exp p <? 0); nia. }
  destruct Hnum as (Hnum & Hden).
  assert (Hbig : 2 ^ 110 < 2 ^ 1000 /\ 2 ^ 50 < 2 ^ 1000) by (split; reflexivity).
  destruct (ieee_quotient_spec num den) as (Hle & R1 & R2); [lia|lia| | |].
  - set (T := 2 ^ 1000) in *. clearbody T. nia.
  - set (T := 2 ^ 1000) in *. clearbody T. nia.
  - exists (ieee_quotient num den). split; [|split].
    + unfold with_sign, sign_bit. change (2 ^ (52 + 11))%N with (2 ^ 63)%N. apply N.add_comm.
    + destruct R1 as [Q1 Q2]. split; [exact Q1|]. intros b' Hb'. specialize (Q2 b' Hb'). rewrite Hx in Q2. exact Q2.
    + destruct R2 as [Q1 Q2]. split; [exact Q1|]. intros b' Hb' Hne. specialize (Q2 b' Hb' Hne). rewrite Hx in Q2. exact Q2.
Qed.
