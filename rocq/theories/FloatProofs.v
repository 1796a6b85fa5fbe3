(** Reading floats: the result of correctly_round_float is the nearest float. *)
From Coq Require Import QArith Qabs Qpower Lqa Lia ZArith.
From Verif Require Import Base ScanModel JsonSpec NumSpec DoubleSpec DoubleRound IntModel DoubleModel BigModel BigProofs FloatModel FloatRound
  RyuDecode RyuNearest.
Local Open Scope Z_scope.

(** ** Units of 2^-1074 *)
Lemma W_scale : (inject_Z 2 ^ (-149) == inject_Z W * inject_Z 2 ^ (-1074))%Q.
Proof. unfold W. rewrite <- q2nonneg by lia. rewrite <- q2add. reflexivity. Qed.

Lemma nearest_F (X : Q) b : (b <= infinity 23 8)%N ->
  ((0 < b)%N -> (inject_Z (F (b - 1) + F b) <= 2 * X)%Q /\ ((inject_Z (F (b - 1) + F b) == 2 * X)%Q -> N.even b = true)) ->
  ((b < infinity 23 8)%N -> (2 * X <= inject_Z (F b + F (b + 1)))%Q /\ ((2 * X == inject_Z (F b + F (b + 1)))%Q -> N.even b = true)) ->
  forall x, (x == X * inject_Z 2 ^ (-1074))%Q -> nearest 23 8 x b.
Proof.
  intros Hb Hlo Hhi x Hx.
  assert (PW : (0 < inject_Z W)%Q) by (change 0%Q with (inject_Z 0); rewrite <- Zlt_Qlt; assert (H := W_pos); lia).
  assert (EX : (X == (X / inject_Z W) * inject_Z W)%Q) by (field; lra).
  set (Y := (X / inject_Z W)%Q) in *. clearbody Y.
  assert (ES : forall a c, (inject_Z (F a + F c) == inject_Z (fint 23 8 a + fint 23 8 c) * inject_Z W)%Q).
  { intros a c. unfold F. rewrite <- inject_Z_mult. f_equiv. ring. }
  apply (nearest_crit 23 8 Y b Hb).
  - intros H0. destruct (Hlo H0) as [H1 H2]. rewrite ES, EX, Qmult_assoc in H1, H2. split.
    + apply Qmult_le_r in H1; [exact H1|exact PW].
    + intros E. apply H2. rewrite E. reflexivity.
  - intros H0. destruct (Hhi H0) as [H1 H2]. rewrite ES, EX, Qmult_assoc in H1, H2. split.
    + apply Qmult_le_r in H1; [exact H1|exact PW].
    + intros E. apply H2. rewrite E. reflexivity.
  - rewrite Hx, EX. change (funit 23 8) with (-149). rewrite W_scale. ring.
Qed.

Lemma adjacent_inv x X b : adjacent 52 11 x b -> (x == X * inject_Z 2 ^ (-1074))%Q ->
  ((0 < b)%N -> (inject_Z (fint 52 11 (b - 1)) <= X)%Q) /\ ((b + 1 < infinity 52 11)%N -> (X <= inject_Z (fint 52 11 (b + 1)))%Q).
Proof.
  intros [Hb H] Hx. assert (Hu := q2pos (-1074)).
  assert (Ev : forall c, (fp_value 52 11 c == inject_Z (fint 52 11 c) * inject_Z 2 ^ (-1074))%Q) by (intros c; apply fp_value_fint).
  assert (El : forall p q : Q, (p < q)%Q -> (p * inject_Z 2 ^ (-1074) < q * inject_Z 2 ^ (-1074))%Q) by (intros p q Hpq; apply Qmult_lt_r; assumption).
  split; intros H0; apply Qnot_lt_le; intros C.
  - destruct (H (b - 1)%N ltac:(lia)) as [H1 _]. apply H1. rewrite !Ev, Hx. split; apply El; [exact C|].
    rewrite <- Zlt_Qlt. apply fint_mono; lia.
  - destruct (H (b + 1)%N H0) as [_ H1]. apply H1. rewrite !Ev, Hx. split; apply El; [|exact C].
    rewrite <- Zlt_Qlt. apply fint_mono; lia.
Qed.

Lemma verdict_units x X g1 g2 : (x == X * inject_Z 2 ^ (-1074))%Q ->
  (x ?= (float_value g1 + float_value g2) / inject_Z 2)%Q = (2 * X ?= inject_Z (F g1 + F g2))%Q.
Proof.
  intros Hx. assert (Hu := q2pos (-1074)).
  assert (Ev : forall c, (float_value c == inject_Z (F c) * inject_Z 2 ^ (-1074))%Q).
  { intros c.
    assert (E : (float_value c == fp_value 23 8 c)%Q).
    { unfold float_value, fp_value. destruct (_ =? 0)%N; [reflexivity|]. 
      replace (2 - 2 ^ (Z.of_N 8 - 1) - Z.of_N 23 + Z.of_N ((c / 2 ^ 23) mod 2 ^ 8) - 1) with (Z.of_N ((c / 2 ^ 23) mod 2 ^ 8) - 150); [reflexivity|].
      change (2 ^ (Z.of_N 8 - 1)) with 128. change (Z.of_N 23) with 23. generalize (Z.of_N ((c / 2 ^ 23) mod 2 ^ 8)). intros; lia. }
    rewrite E, fp_value_fint. change (funit 23 8) with (-149). rewrite W_scale. unfold F. rewrite inject_Z_mult. ring. }
  assert (E2 : ((float_value g1 + float_value g2) / inject_Z 2 == (inject_Z (F g1 + F g2) / inject_Z 2) * inject_Z 2 ^ (-1074))%Q).
  { rewrite !Ev, inject_Z_plus. field. }
  rewrite E2, Hx. set (u := (inject_Z 2 ^ (-1074))%Q) in *. set (s := inject_Z (F g1 + F g2)). clearbody u s.
  assert (Es : (s == 2 * (s / inject_Z 2))%Q) by (unfold inject_Z; field). set (h := (s / inject_Z 2)%Q) in *. clearbody h. rewrite Es. clear Es.
  destruct (Q_dec X h) as [[H|H]|H].
  - transitivity Lt; [|symmetry]; apply (proj1 (Qlt_alt _ _)); [apply Qmult_lt_r; assumption|lra].
  - transitivity Gt; [|symmetry]; apply (proj1 (Qgt_alt _ _)); [apply Qmult_lt_r; assumption|lra].
  - rewrite H. rewrite !(proj1 (Qeq_alt _ _)) by reflexivity. reflexivity.
Qed.

(** ** The two bands where the code goes wrong: just above 2^-150 and just below 2^128 - 2^103 *)
Definition clear_units (X : Q) : Prop :=
  ~ (inject_Z (2 ^ 924) < X /\ X <= inject_Z (2 ^ 924 + 2 ^ 872))%Q /\
  ~ (inject_Z ((2 ^ 128 - 2 ^ 103 - 2 ^ 75) * 2 ^ 1074) <= X /\ X <= inject_Z ((2 ^ 128 - 2 ^ 103) * 2 ^ 1074))%Q.

(** The doubles 2^-150 and 2^128 - 2^103. *)
Definition low_double : N := 873 * 2 ^ 52.
Definition high_double : N := 1151 * 2 ^ 52 - 2 ^ 28.

Lemma low_facts : fint 52 11 low_double = 2 ^ 924 /\ fint 52 11 (low_double + 1) = 2 ^ 924 + 2 ^ 872 /\ F 0 + F 1 = 2 * 2 ^ 924.
Proof. split; [vm_compute; reflexivity|]. split; vm_compute; reflexivity. Qed.

Lemma high_facts : fint 52 11 high_double = (2 ^ 128 - 2 ^ 103) * 2 ^ 1074 /\
  fint 52 11 (high_double - 1) = (2 ^ 128 - 2 ^ 103 - 2 ^ 75) * 2 ^ 1074 /\
  F (infinity 23 8 - 1) + F (infinity 23 8) = 2 * ((2 ^ 128 - 2 ^ 103) * 2 ^ 1074).
Proof. split; [vm_compute; reflexivity|]. split; vm_compute; reflexivity. Qed.

Lemma top_fact : F (infinity 23 8) < fint 52 11 (infinity 52 11 - 1).
Proof. vm_compute. reflexivity. Qed.

Lemma fint_le_inv b c : (b <= infinity 52 11)%N -> (c <= infinity 52 11)%N -> fint 52 11 b <= fint 52 11 c -> (b <= c)%N.
Proof. intros Hb Hc H. destruct (N.lt_ge_cases c b) as [L|L]; [|exact L]. assert (X := fint_mono 52 11 c b L Hb). lia. Qed.

Lemma zero_case x X bd : (bd <= infinity 52 11)%N -> adjacent 52 11 x bd -> (x == X * inject_Z 2 ^ (-1074))%Q -> clear_units X ->
  between 0 (fint 52 11 bd) -> nearest 23 8 x 0.
Proof.
  intros Hb A Hx [C _] [_ B]. destruct (B ltac:(reflexivity)) as [B1 _]. change (0 + 1)%N with 1%N in B1.
  destruct low_facts as (L1 & L2 & L3). rewrite L3 in B1.
  assert (Hbd : (bd <= low_double)%N) by (apply fint_le_inv; [exact Hb|discriminate|rewrite L1; lia]).
  destruct (adjacent_inv x X bd A Hx) as [_ A2].
  assert (Hlt : (bd + 1 < infinity 52 11)%N) by (change low_double with 3931642474694443008%N in Hbd; change (infinity 52 11) with 9218868437227405312%N; lia).
  specialize (A2 Hlt).
  assert (M := fint_mono_le 52 11 (bd + 1) (low_double + 1) ltac:(lia) ltac:(discriminate)). rewrite L2 in M. rewrite Zle_Qle in M.
  apply (nearest_F X); [discriminate|lia| |exact Hx].
  intros _. change (0 + 1)%N with 1%N. rewrite L3. rewrite inject_Z_mult. change (inject_Z 2) with 2%Q. split; [|reflexivity].
  destruct (Qlt_le_dec (inject_Z (2 ^ 924)) X) as [H|H]; [|lra]. exfalso. apply C. split; [exact H|]. eapply Qle_trans; [exact A2|exact M].
Qed.

Lemma infinity_case x X bd : (bd <= infinity 52 11)%N -> adjacent 52 11 x bd -> (x == X * inject_Z 2 ^ (-1074))%Q -> clear_units X ->
  between (infinity 23 8) (fint 52 11 bd) -> nearest 23 8 x (infinity 23 8).
Proof.
  intros Hb A Hx [_ C] [B _]. destruct (B ltac:(reflexivity)) as [B1 _].
  destruct high_facts as (L1 & L2 & L3). rewrite L3 in B1.
  assert (Hbd : (high_double <= bd)%N) by (apply fint_le_inv; [discriminate|exact Hb|rewrite L1; lia]).
  destruct (adjacent_inv x X bd A Hx) as [A1 _].
  assert (Hlt : (0 < bd)%N) by (assert (0 < high_double)%N by reflexivity; lia).
  specialize (A1 Hlt).
  assert (M := fint_mono_le 52 11 (high_double - 1) (bd - 1) ltac:(lia) ltac:(lia)). rewrite L2 in M. rewrite Zle_Qle in M.
  apply (nearest_F X); [lia| |lia|exact Hx].
  intros _. rewrite L3. rewrite (inject_Z_mult 2). change (inject_Z 2) with 2%Q. split; [|reflexivity].
  destruct (Qlt_le_dec X (inject_Z ((2 ^ 128 - 2 ^ 103) * 2 ^ 1074))) as [H|H]; [|lra]. exfalso. apply C. split; [|lra]. eapply Qle_trans; [exact M|exact A1].
Qed.

(** The largest float: the midpoint above it is not looked at. *)
Lemma last_case x X bd : (bd <= infinity 52 11)%N -> adjacent 52 11 x bd -> (x == X * inject_Z 2 ^ (-1074))%Q -> clear_units X ->
  between (infinity 23 8 - 1) (fint 52 11 bd) -> (2 * X < inject_Z (F (infinity 23 8 - 1) + F (infinity 23 8)))%Q.
Proof.
  intros Hb A Hx [_ C] [_ B]. destruct (B ltac:(reflexivity)) as [B1 B2].
  change (infinity 23 8 - 1 + 1)%N with (infinity 23 8) in B1, B2.
  destruct high_facts as (L1 & L2 & L3). rewrite L3 in *.
  assert (B3 : fint 52 11 bd < (2 ^ 128 - 2 ^ 103) * 2 ^ 1074).
  { set (h := (2 ^ 128 - 2 ^ 103) * 2 ^ 1074) in *. clearbody h. destruct (Z.eq_dec (2 * fint 52 11 bd) (2 * h)) as [E|E]; [discriminate (B2 E)|lia]. }
  rewrite <- L1 in B3.
  assert (Hbd : (bd < high_double)%N).
  { destruct (N.lt_ge_cases bd high_double) as [L|L]; [exact L|]. assert (M := fint_mono_le 52 11 high_double bd L Hb). lia. }
  destruct (adjacent_inv x X bd A Hx) as [_ A2].
  assert (Hlt : (bd + 1 < infinity 52 11)%N) by (assert (high_double < infinity 52 11)%N by reflexivity; lia).
  specialize (A2 Hlt). assert (M := fint_mono_le 52 11 (bd + 1) high_double ltac:(lia) ltac:(discriminate)). rewrite L1 in M. rewrite Zle_Qle in M.
  rewrite (inject_Z_mult 2). change (inject_Z 2) with 2%Q.
  destruct (Qlt_le_dec X (inject_Z ((2 ^ 128 - 2 ^ 103 - 2 ^ 75) * 2 ^ 1074))) as [H|H].
  - assert (K : (2 ^ 128 - 2 ^ 103 - 2 ^ 75) * 2 ^ 1074 < (2 ^ 128 - 2 ^ 103) * 2 ^ 1074) by (vm_compute; reflexivity). rewrite Zlt_Qlt in K. lra.
  - exfalso. apply C. split; [exact H|]. eapply Qle_trans; [exact A2|exact M].
Qed.

(** ** The general case *)
Lemma even_land b : float_mantissa_is_even b = N.even b.
Proof. unfold float_mantissa_is_even. change 1%N with (N.ones 1). rewrite N.land_ones. change (2 ^ 1)%N with 2%N. rewrite <- N.bit0_mod, N.bit0_odd. rewrite <- N.negb_odd. destruct (N.odd b); reflexivity. Qed.

Lemma even_next b : N.even (b + 1) = negb (N.even b).
Proof. rewrite N.add_1_r, N.even_succ, <- N.negb_even. reflexivity. Qed.

(** How far apart things are: the gap of doubles is tiny compared with the gaps of floats. *)
Lemma gap_facts af bd : (0 < af < infinity 23 8)%N -> (bd < infinity 52 11)%N -> 2 * fint 52 11 bd <= F af + F (af + 1) ->
  2 ^ 26 * fgap 52 11 bd <= fgap 23 8 af * W.
Proof.
  intros Ha Hb H. rewrite F_next in H by lia. destruct (fint_form 23 8 af ltac:(lia)) as (M & HM & EM).
  change (2 * 2 ^ Z.of_N 23) with 16777216 in HM. assert (G := fgap_pos 23 8 af). unfold F in H. rewrite EM in H.
  assert (PW := W_pos). change (2 ^ 30) with 1073741824 in PW. change (2 ^ 26) with 67108864.
  assert (T : 1 * W <= fgap 23 8 af * W) by (apply Z.mul_le_mono_nonneg_r; lia).
  destruct (gap_small 52 11 bd Hb) as [E|E].
  - rewrite E. lia.
  - change (2 ^ Z.of_N 52) with 4503599627370496 in E. rewrite <- Z.mul_assoc in H.
    set (t := fgap 23 8 af * W) in *. assert (M * t <= 16777215 * t) by (apply Z.mul_le_mono_nonneg_r; lia).
    set (u := fgap 52 11 bd) in *. set (d := fint 52 11 bd) in *. set (mt := M * t) in *. clearbody t u d mt. clear - E H H0 T PW. lia.
Qed.

Section Main.
Variables (x X : Q) (af bd : N).
Hypothesis (Hx : (x == X * inject_Z 2 ^ (-1074))%Q).
Hypothesis (Ha : (0 < af < infinity 23 8)%N).
Hypothesis (Hb : (bd <= infinity 52 11)%N).
Hypothesis (HA : adjacent 52 11 x bd).
Hypothesis (HB : between af (fint 52 11 bd)).

Let lo := F (af - 1) + F af.
Let hi := F af + F (af + 1).
Let D := fint 52 11 bd.
Let u := fgap 52 11 bd.

Lemma main_bd : (0 < bd)%N /\ (bd + 1 < infinity 52 11)%N.
Proof.
  destruct HB as [B1 B2]. destruct (B1 ltac:(lia)) as [B3 _]. destruct (B2 ltac:(lia)) as [B4 _]. split.
  - destruct (N.eq_dec bd 0) as [E|E]; [|lia]. exfalso. rewrite E in B3. change (fint 52 11 0) with 0 in B3.
    assert (M := F_mono (af - 1) af ltac:(lia) ltac:(lia)).
    assert (P : 0 <= F (af - 1)) by (unfold F; apply Z.mul_nonneg_nonneg; [apply fint_nonneg; lia|assert (X0 := W_pos); lia]). lia.
  - destruct (N.lt_ge_cases (bd + 1) (infinity 52 11)) as [L|L]; [exact L|]. exfalso.
    assert (M := fint_mono_le 52 11 (infinity 52 11 - 1) bd ltac:(lia) Hb). assert (T := top_fact).
    assert (M1 := F_mono af (af + 1) ltac:(lia) ltac:(lia)).
    assert (M2 : F (af + 1) <= F (infinity 23 8)).
    { destruct (N.eq_dec (af + 1) (infinity 23 8)) as [->|E]; [lia|]. apply Z.lt_le_incl, F_mono; lia. }
    assert (M3 : 0 <= F (af + 1)) by (unfold F; apply Z.mul_nonneg_nonneg; [apply fint_nonneg; lia|assert (X0 := W_pos); lia]). lia.
Qed.

Lemma main_X : (inject_Z (D - u) <= X /\ X <= inject_Z (D + u))%Q.
Proof.
  destruct main_bd as [P1 P2]. destruct (adjacent_inv x X bd HA Hx) as [A1 A2]. specialize (A1 P1). specialize (A2 P2). split.
  - eapply Qle_trans; [|exact A1]. rewrite <- Zle_Qle. assert (E := fint_succ 52 11 (bd - 1) ltac:(lia)).
    replace (bd - 1 + 1)%N with bd in E by lia. assert (G := fgap_mono 52 11 (bd - 1) bd ltac:(lia)). unfold D, u. lia.
  - rewrite fint_succ in A2 by lia. exact A2.
Qed.

Lemma main_gap : 2 ^ 26 * u <= fgap 23 8 af * W.
Proof. apply gap_facts; [exact Ha|destruct main_bd; lia|]. destruct HB as [_ B2]. apply B2. lia. Qed.

Lemma lo_hi : lo <= 2 * D <= hi.
Proof. destruct HB as [B1 B2]. split; [apply B1|apply B2]; lia. Qed.

(** Each of the three results is right when the comparison says so. *)
Lemma keep : (inject_Z lo <= 2 * X)%Q -> ((inject_Z lo == 2 * X)%Q -> N.even af = true) ->
  (2 * X <= inject_Z hi)%Q -> ((2 * X == inject_Z hi)%Q -> N.even af = true) -> nearest 23 8 x af.
Proof. intros H1 H2 H3 H4. apply (nearest_F X); [lia| | |exact Hx]; intros _; split; assumption. Qed.

Lemma go_up : (inject_Z hi <= 2 * X)%Q -> ((inject_Z hi == 2 * X)%Q -> N.even af = false) -> nearest 23 8 x (af + 1).
Proof.
  intros H1 H2. apply (nearest_F X); [lia| | |exact Hx].
  - intros _. replace (af + 1 - 1)%N with af by lia. split; [exact H1|]. intros E. rewrite even_next, H2 by exact E. reflexivity.
  - intros Hi. destruct main_X as [_ X2]. assert (G := main_gap). assert (L := lo_hi).
    assert (E1 := F_next af ltac:(lia)). assert (E2 := F_next (af + 1) Hi). assert (G2 := fgap_pos 23 8 (af + 1)). assert (U := fgap_pos 52 11 bd). fold u in U.
    assert (PW := W_pos). assert (G3 : 0 < fgap 23 8 (af + 1) * W) by (apply Z.mul_pos_pos; lia).
    assert (K : 2 * (D + u) < F (af + 1) + F (af + 1 + 1)).
    { unfold hi in L. change (2 ^ 26) with 67108864 in G. clear - G L E1 E2 G3 U. clearbody u D. lia. }
    rewrite Zlt_Qlt, inject_Z_mult in K. change (inject_Z 2) with 2%Q in K. split; [lra|]. intros E. exfalso. lra.
Qed.

Lemma go_down : (2 * X <= inject_Z lo)%Q -> ((2 * X == inject_Z lo)%Q -> N.even af = false) -> nearest 23 8 x (af - 1).
Proof.
  intros H1 H2. apply (nearest_F X); [lia| | |exact Hx].
  - intros Hi. destruct main_X as [X1 _]. assert (G := main_gap). assert (L := lo_hi).
    assert (E1 := F_next (af - 1) ltac:(lia)). replace (af - 1 + 1)%N with af in E1 by lia.
    assert (E2 := F_next (af - 1 - 1) ltac:(lia)). replace (af - 1 - 1 + 1)%N with (af - 1)%N in E2 by lia.
    assert (G2 := gap_prev 23 8 af ltac:(lia)). assert (G3 := fgap_pos 23 8 (af - 1 - 1)). assert (U := fgap_pos 52 11 bd). fold u in U.
    assert (PW := W_pos). assert (G4 : 0 < fgap 23 8 (af - 1 - 1) * W) by (apply Z.mul_pos_pos; lia).
    assert (G5 : fgap 23 8 af * W <= 2 * (fgap 23 8 (af - 1) * W)) by (rewrite Z.mul_assoc; apply Z.mul_le_mono_nonneg_r; lia).
    assert (K : F (af - 1 - 1) + F (af - 1) < 2 * (D - u)).
    { unfold lo in L. change (2 ^ 26) with 67108864 in G. clear - G L E1 E2 G4 G5 U. clearbody u D. lia. }
    rewrite Zlt_Qlt, inject_Z_mult in K. change (inject_Z 2) with 2%Q in K. split; [lra|]. intros E. exfalso. lra.
  - intros _. replace (af - 1 + 1)%N with af by lia. split; [exact H1|]. intros E. specialize (H2 E).
    assert (E3 := even_next (af - 1)). replace (af - 1 + 1)%N with af in E3 by lia. rewrite H2 in E3. destruct (N.even (af - 1)); [reflexivity|discriminate].
Qed.

Lemma far_hi : near bd af (af + 1) = false -> (2 * X < inject_Z hi)%Q.
Proof.
  intros N. destruct main_bd as [P1 P2]. apply near_false in N; [|lia|lia]. fold hi D u in N. assert (L := lo_hi).
  assert (U := fgap_pos 52 11 bd). fold u in U. destruct main_X as [_ X2].
  assert (K : 2 * (D + u) < hi) by (clear - N L U; clearbody u D hi lo; lia). rewrite Zlt_Qlt, inject_Z_mult in K. change (inject_Z 2) with 2%Q in K. lra.
Qed.

Lemma far_lo : near bd (af - 1) af = false -> (inject_Z lo < 2 * X)%Q.
Proof.
  intros N. destruct main_bd as [P1 P2]. replace af with (af - 1 + 1)%N in N at 2 by lia. apply near_false in N; [|lia|lia].
  replace (af - 1 + 1)%N with af in N by lia. fold lo D u in N. assert (L := lo_hi).
  assert (U := fgap_pos 52 11 bd). fold u in U. destruct main_X as [X1 _].
  assert (K : lo < 2 * (D - u)) by (clear - N L U; clearbody u D hi lo; lia). rewrite Zlt_Qlt, inject_Z_mult in K. change (inject_Z 2) with 2%Q in K. lra.
Qed.
End Main.

Lemma qcmp_cases (a b : Q) : match (a ?= b)%Q with Lt => (a < b)%Q | Eq => (a == b)%Q | Gt => (b < a)%Q end.
Proof. destruct (a ?= b)%Q eqn:E; [apply Qeq_alt|apply Qlt_alt|apply Qgt_alt]; exact E. Qed.

Lemma correctly_round sgn neg l m p bd X :
  (sgn = [] \/ sgn = [x2d] \/ sgn = [x2b]) -> dec_literal l m p -> (bd <= infinity 52 11)%N ->
  (scaled m 10 p == X * inject_Z 2 ^ (-1074))%Q -> adjacent 52 11 (scaled m 10 p) bd -> clear_units X ->
  exists b, correctly_round_float (sgn ++ l) (with_sign 52 11 neg bd) = with_sign 23 8 neg b /\ nearest 23 8 (scaled m 10 p) b.
Proof.
  intros Hs Hl Hb Hx HA HC.
  assert (E63 : N.testbit (with_sign 52 11 neg bd) 63 = neg /\ (with_sign 52 11 neg bd mod 2 ^ 63 = bd)%N).
  { unfold with_sign. change (52 + 11)%N with 63%N. assert (L : (bd < 2 ^ 63)%N) by (change (2 ^ 63)%N with 9223372036854775808%N; change (infinity 52 11) with 9218868437227405312%N in Hb; lia).
    destruct neg.
    - split.
      + rewrite N.testbit_eqb. rewrite <- (N.mul_1_l (2 ^ 63)) at 1. rewrite N.div_add_l, N.div_small by (try discriminate; exact L). reflexivity.
      + rewrite <- (N.mul_1_l (2 ^ 63)) at 1. rewrite N.add_comm, N.mod_add by discriminate. apply N.mod_small. exact L.
    - split.
      + rewrite N.testbit_eqb. rewrite N.add_0_l, N.div_small by exact L. reflexivity.
      + apply N.mod_small. exact L. }
  destruct E63 as [E1 E2]. unfold correctly_round_float. rewrite E1, E2. change (if neg then 2 ^ 31 else 0)%N with (if neg then 2 ^ (23 + 8) else 0)%N.
  destruct (float_of_double_spec bd Hb) as [HI HB]. set (af := float_of_double bd) in *. clearbody af.
  change float_infinity with (infinity 23 8).
  destruct (N.eqb_spec af 0) as [E0|E0].
  { exists 0%N. rewrite E0. split; [reflexivity|]. rewrite E0 in HB. apply (zero_case _ X bd); assumption. }
  destruct (N.ltb_spec af (infinity 23 8)) as [L|L]; cbn [negb].
  2: { assert (Ea : af = infinity 23 8) by lia. exists (infinity 23 8). rewrite Ea. split; [reflexivity|]. rewrite Ea in HB. apply (infinity_case _ X bd); assumption. }
  assert (Ha : (0 < af < infinity 23 8)%N) by lia.
  assert (V : forall g1 g2 w de mid e2, read_literal (sgn ++ l) = (w, de) -> float_pair_midpoint g1 g2 = (mid, e2) ->
            compare_value_scaled w de mid e2 = (2 * X ?= inject_Z (F g1 + F g2))%Q).
  { intros g1 g2 w de mid e2 R1 R2. rewrite (rounding_verdict sgn l m p g1 g2 w de mid e2 Hs Hl R1 R2). apply verdict_units. exact Hx. }
  set (lo := F (af - 1) + F af) in *. set (hi := F af + F (af + 1)) in *.
  assert (Keep := keep _ X af bd Hx Ha Hb). fold lo hi in Keep.
  assert (Up := go_up _ X af bd Hx Ha Hb HA HB). fold hi in Up.
  assert (Down := go_down _ X af bd Hx Ha Hb HA HB). fold lo in Down.
  assert (FarLo := far_lo _ X af bd Hx Ha Hb HA HB). fold lo in FarLo.
  assert (FarHi : (af + 1 <? infinity 23 8)%N && near bd af (af + 1) = false -> (2 * X < inject_Z hi)%Q).
  { intros E. destruct (N.ltb_spec (af + 1) (infinity 23 8)) as [L1|L1]; cbn [andb] in E.
    - apply (far_hi _ X af bd Hx Ha Hb HA HB E).
    - assert (Ea : af = (infinity 23 8 - 1)%N) by lia. unfold hi. rewrite Ea in HB |- *. 
      change (infinity 23 8 - 1 + 1)%N with (infinity 23 8). apply (last_case _ X bd Hb HA Hx HC HB). }
  set (near_hi := (af + 1 <? infinity 23 8)%N && near bd af (af + 1)) in *. clearbody near_hi.
  set (near_lo := near bd (af - 1) af) in *. clearbody near_lo.
  (* after the comparison with the midpoint above *)
  assert (Low : (2 * X <= inject_Z hi)%Q -> ((2 * X == inject_Z hi)%Q -> N.even af = true) -> forall w de, read_literal (sgn ++ l) = (w, de) ->
    exists b, (if (af =? af)%N && near_lo then
          let '(mid, e2) := float_pair_midpoint (af - 1) af in
          match compare_value_scaled w de mid e2 with
          | Lt => af - 1
          | Eq => if float_mantissa_is_even (af - 1) then af - 1 else af
          | Gt => af
          end
        else af)%N = b /\ nearest 23 8 (scaled m 10 p) b).
  { intros U1 U2 w de R. rewrite N.eqb_refl. cbn [andb]. destruct near_lo.
    - destruct (float_pair_midpoint (af - 1) af) as [mid e2] eqn:Em. rewrite (V _ _ _ _ _ _ R Em). fold lo.
      assert (Q := qcmp_cases (2 * X) (inject_Z lo)). destruct (2 * X ?= inject_Z lo)%Q.
      + rewrite even_land. assert (En := even_next (af - 1)). replace (af - 1 + 1)%N with af in En by lia.
        destruct (N.even (af - 1)) eqn:Ed; cbn [negb] in En.
        * eexists. split; [reflexivity|]. apply Down; [lra|]. intros _. exact En.
        * eexists. split; [reflexivity|]. apply Keep; [lra| |exact U1|exact U2]. intros _. exact En.
      + eexists. split; [reflexivity|]. apply Down; [lra|]. intros; exfalso; lra.
      + eexists. split; [reflexivity|]. apply Keep; [lra| |exact U1|exact U2]. intros; exfalso; lra.
    - exists af. split; [reflexivity|]. specialize (FarLo eq_refl). apply Keep; [lra| |exact U1|exact U2]. intros; exfalso; lra. }
  destruct near_hi; cbn [negb andb].
  - destruct (read_literal (sgn ++ l)) as [w de] eqn:R. destruct (float_pair_midpoint af (af + 1)) as [mid e2] eqn:Em. rewrite (V _ _ _ _ _ _ eq_refl Em). fold hi.
    assert (Hne : (af + 1 =? af)%N = false) by (apply N.eqb_neq; lia).
    assert (Q := qcmp_cases (2 * X) (inject_Z hi)). destruct (2 * X ?= inject_Z hi)%Q.
    + rewrite even_land. destruct (N.even af) eqn:Ed.
      * destruct (Low ltac:(lra) ltac:(intros _; reflexivity) w de eq_refl) as (b & -> & Hn). exists b. split; [reflexivity|exact Hn].
      * rewrite Hne. cbn [andb]. eexists. split; [reflexivity|]. apply Up; [lra|]. intros _. reflexivity.
    + destruct (Low ltac:(lra) ltac:(intros; exfalso; lra) w de eq_refl) as (b & -> & Hn). exists b. split; [reflexivity|exact Hn].
    + rewrite Hne. cbn [andb]. eexists. split; [reflexivity|]. apply Up; [lra|]. intros; exfalso; lra.
  - specialize (FarHi eq_refl). destruct near_lo eqn:EL; cbn [negb].
    + destruct (read_literal (sgn ++ l)) as [w de] eqn:R.
      destruct (Low ltac:(lra) ltac:(intros; exfalso; lra) w de eq_refl) as (b & -> & Hn). exists b. split; [reflexivity|exact Hn].
    + exists af. split; [reflexivity|]. specialize (FarLo eq_refl). apply Keep; try lra; intros; exfalso; lra.
Qed.

(** ** The whole *)
(** From reading the double to reading the float. *)
Lemma float_to_double value neg bd : double_to value = Ok (NoError, with_sign 52 11 neg bd) ->
  float_to value = Ok (NoError, correctly_round_float value (with_sign 52 11 neg bd)).
Proof.
  unfold double_to, float_to, to_double, to_float. destruct (parseNumber 64 false value) as [[e q]| |]; cbn [obind]; [|discriminate|discriminate].
  destruct e; cbn [obind]; try discriminate.
  destruct (convertToNumber q) as [d| |]; cbn [obind]; [|discriminate|discriminate].
  destruct (Nat.eqb (p_end q) (length value)); intros H; [|discriminate]. injection H as ->. reflexivity.
Qed.
