(** Rounding 125 bits to a double, and the one-operation path. *)
From Coq Require Import QArith Qabs Qpower Lqa Lia ZArith.
From Verif Require Import Base JsonSpec NumSpec DoubleSpec DoubleRound IntModel DoubleModel BigProofs DoubleWords DoubleSlow.
Local Open Scope Z_scope.

Notation dint := (fint 52 11).
Notation dinf := (infinity 52 11).

Definition tiny : Q := (1 # 1298074214633706907132624082305024)%Q.   (* 2^-110 *)

(** X and A in units of 2^-1074; A is what the words hold. *)
Lemma round_result t b M G (X A : Q) (up : bool) : (0 < t <= tiny)%Q -> (b < dinf)%N ->
  dint b = M * G -> dint (b + 1) = (M + 1) * G -> 0 < G -> 0 <= M < 2 ^ 53 ->
  (A <= X)%Q -> (X <= A * (1 + t))%Q ->
  (inject_Z (M * G) <= A)%Q -> (A < inject_Z ((M + 1) * G))%Q ->
  (G <= fgap 52 11 (b + 1)) ->
  let mid := (inject_Z (2 * M + 1) * inject_Z G)%Q in
  (if up then (mid <= 2 * A)%Q /\ ((X * 2 == mid)%Q -> N.even (b + 1) = true)
         else (2 * A <= mid)%Q /\ ((X * 2 == mid)%Q -> N.even b = true)) ->
  (forall x, (x == X * inject_Z 2 ^ funit 52 11)%Q -> adjacent 52 11 x (if up then b + 1 else b)%N) /\
  (((2 * A <= mid)%Q -> (2 * X <= mid)%Q) ->
   forall x, (x == X * inject_Z 2 ^ funit 52 11)%Q -> nearest 52 11 x (if up then b + 1 else b)%N).
Proof.
  intros Htt Hb E1 E2 HG HM HAX HXA HA1 HA2 Hgap mid Hup.
  assert (HGq : (0 < inject_Z G)%Q) by (change 0%Q with (inject_Z 0); rewrite <- Zlt_Qlt; exact HG).
  assert (HMq : (inject_Z M + 1 <= inject_Z (2 ^ 53))%Q).
  { change 1%Q with (inject_Z 1). rewrite <- inject_Z_plus, <- Zle_Qle. lia. }
  assert (HM0 : (0 <= inject_Z M)%Q) by (change 0%Q with (inject_Z 0); rewrite <- Zle_Qle; lia).
  assert (Em : (mid == (2 * inject_Z M + 1) * inject_Z G)%Q).
  { unfold mid. rewrite inject_Z_plus, inject_Z_mult. reflexivity. }
  rewrite inject_Z_mult in HA1, HA2. rewrite inject_Z_plus in HA2. change (inject_Z 1) with 1%Q in HA2.
  set (m := inject_Z M) in *. set (g := inject_Z G) in *.
  assert (Ht : (inject_Z (2 ^ 53) * tiny <= 1 # 4)%Q) by discriminate.
  assert (Htp := proj1 Htt).
  assert (Hmt : ((m + 1) * t <= 1 # 4)%Q).
  { eapply Qle_trans; [|exact Ht]. apply Qle_trans with ((m + 1) * tiny)%Q.
    - apply Qmult_le_l; [lra|exact (proj2 Htt)].
    - apply Qmult_le_compat_r; [exact HMq|discriminate]. }
  assert (HXup : (X <= A + (1 # 4) * g)%Q).
  { assert (A * t <= (m + 1) * g * t)%Q by (apply Qmult_le_compat_r; lra).
    assert ((m + 1) * t * g <= (1 # 4) * g)%Q by (apply Qmult_le_compat_r; lra).
    assert (((m + 1) * g * t == (m + 1) * t * g)%Q) by ring. lra. }
  assert (Emm : (inject_Z (dint b + dint (b + 1)) == mid)%Q).
  { rewrite E1, E2, Em. rewrite inject_Z_plus, !inject_Z_mult, inject_Z_plus. fold m g. change (inject_Z 1) with 1%Q. ring. }
  assert (F1 : (inject_Z (dint b) == m * g)%Q) by (rewrite E1, inject_Z_mult; reflexivity).
  assert (F2 : (inject_Z (dint (b + 1)) == (m + 1) * g)%Q) by (rewrite E2, inject_Z_mult, inject_Z_plus; reflexivity).
  assert (F3 : (b + 1 < dinf)%N -> ((m + 2) * g <= inject_Z (dint (b + 1 + 1)))%Q).
  { intros H. rewrite fint_succ by exact H. rewrite inject_Z_plus, F2.
    assert (g <= inject_Z (fgap 52 11 (b + 1)))%Q by (unfold g; rewrite <- Zle_Qle; exact Hgap). lra. }
  clearbody m g mid. clear HMq Ht Hmt.
  destruct up; destruct Hup as (U1 & U2).
  - assert (Hlo : (0 < b + 1)%N -> (inject_Z (dint (b + 1 - 1) + dint (b + 1)) <= 2 * X)%Q /\
      ((inject_Z (dint (b + 1 - 1) + dint (b + 1)) == 2 * X)%Q -> N.even (b + 1) = true)).
    { intros _. rewrite N.add_sub, Emm. split; [lra|]. intros E. apply U2. lra. }
    split; [|intros _]; intros x Hx.
    + apply (adjacent_crit 52 11 X); [lia| | |exact Hx].
      * intros _. rewrite N.add_sub, F1. lra.
      * intros H. specialize (F3 H). lra.
    + apply (nearest_crit 52 11 X); [lia|exact Hlo| |exact Hx].
      intros H. specialize (F3 H). rewrite inject_Z_plus, F2.
      split; [lra|intros E; exfalso; lra].
  - split; [|intros Hcl]; intros x Hx.
    + apply (adjacent_crit 52 11 X); [lia| | |exact Hx].
      * intros H. assert (H' := fint_mono 52 11 (b - 1) b ltac:(lia) ltac:(lia)). rewrite Zlt_Qlt in H'. lra.
      * intros _. rewrite F2. lra.
    + apply (nearest_crit 52 11 X); [lia| | |exact Hx].
      * intros H. assert (H' := fint_mono 52 11 (b - 1) b ltac:(lia) ltac:(lia)). rewrite Zlt_Qlt in H'.
        rewrite inject_Z_plus. split; [lra|intros E; exfalso; lra].
      * intros _. rewrite Emm. specialize (Hcl U1). split; [exact Hcl|]. intros E. apply U2. lra.
Qed.

(** The patterns of a binade. *)
Lemma normal_pattern e M : (0 < e < 2047)%N -> (2 ^ 52 <= M < 2 ^ 53)%N ->
  let b := (e * 2 ^ 52 + (M - 2 ^ 52))%N in
  (b < dinf)%N /\ dint b = Z.of_N M * 2 ^ (Z.of_N e - 1) /\ dint (b + 1) = (Z.of_N M + 1) * 2 ^ (Z.of_N e - 1) /\
  2 ^ (Z.of_N e - 1) <= fgap 52 11 (b + 1) /\ N.even b = N.even M.
Proof.
  intros He HM b.
  assert (Hm : (M - 2 ^ 52 < 2 ^ 52)%N) by (change (2 ^ 53)%N with (2 * 2 ^ 52)%N in HM; lia).
  assert (Hb : (b < dinf)%N).
  { unfold dinf, b. change (2 ^ 11 - 1)%N with 2047%N. set (P := (2 ^ 52)%N) in *. clearbody P. nia. }
  assert (E1 : dint b = Z.of_N M * 2 ^ (Z.of_N e - 1)).
  { unfold b. rewrite fint_at by (try exact Hm; change (2 ^ 11)%N with 2048%N; lia).
    destruct (N.eqb_spec e 0); [lia|]. f_equal. f_equal. lia. }
  assert (Hd : (b / 2 ^ 52 = e)%N) by (unfold b; rewrite N.div_add_l by discriminate; rewrite N.div_small by exact Hm; lia).
  assert (Eg : fgap 52 11 b = 2 ^ (Z.of_N e - 1)) by (unfold fgap; rewrite Hd, Z.max_r by lia; reflexivity).
  split; [exact Hb|]. split; [exact E1|]. split.
  - rewrite fint_succ by exact Hb. rewrite E1, Eg. ring.
  - split; [rewrite <- Eg; apply fgap_mono; lia|].
    unfold b. replace M with (2 ^ 52 + (M - 2 ^ 52))%N at 2 by lia. rewrite !N.even_add.
    rewrite N.even_mul. change (N.even (2 ^ 52)) with true. rewrite Bool.orb_true_r. destruct (N.even (M - 2 ^ 52)); reflexivity.
Qed.

Lemma small_pattern M : (M < 2 ^ 52)%N ->
  (M < dinf)%N /\ dint M = Z.of_N M /\ dint (M + 1) = Z.of_N M + 1 /\ 1 <= fgap 52 11 (M + 1).
Proof.
  intros HM. assert (Hb : (M < dinf)%N) by (eapply N.lt_trans; [exact HM|reflexivity]).
  assert (E : dint M = Z.of_N M).
  { replace M with (0 * 2 ^ 52 + M)%N at 1 by lia. rewrite fint_at by (try exact HM; reflexivity). reflexivity. }
  split; [exact Hb|]. split; [exact E|]. split.
  - rewrite fint_succ by exact Hb. rewrite E. unfold fgap. rewrite N.div_small by exact HM. reflexivity.
  - assert (H := fgap_pos 52 11 (M + 1)). lia.
Qed.

(** H 6374-6390. *)
Lemma copy_normal_spec a be neg : ok128 a -> (2 ^ 124 <= V2 a < 2 ^ 125)%N -> 0 < be < 2047 ->
  let M := (V2 a / 2 ^ 72)%N in
  let r := (V2 a mod 2 ^ 72)%N in
  let up := ((2 ^ 71 <? r) || ((r =? 2 ^ 71) && N.odd M))%N in
  copy_normal a be neg = N.lor (Z.to_N be * 2 ^ 52 + (M - 2 ^ 52) + (if up then 1 else 0))%N (sign_bit neg) /\
  (2 ^ 52 <= M < 2 ^ 53)%N.
Proof.
  intros Hok Hv Hbe M r up. destruct (snd_div a Hok) as (Es & Ef). destruct a as [a0 a1]. destruct Hok as [H0 H1]. cbn [fst snd] in *.
  assert (Ha1 : (2 ^ 60 <= a1 < 2 ^ 61)%N).
  { rewrite Es. split; [apply N.div_le_lower_bound; [discriminate|exact (proj1 Hv)]|apply N.div_lt_upper_bound; [discriminate|exact (proj2 Hv)]]. }
  unfold copy_normal. cbv zeta.
  set (q := N.land a1 (2 ^ 60 - 1)).
  assert (Eq : q = (a1 - 2 ^ 60)%N).
  { unfold q. change (2 ^ 60 - 1)%N with (N.ones 60). rewrite N.land_ones. symmetry.
    change (2 ^ 61)%N with (2 * 2 ^ 60)%N in Ha1. apply (N.mod_unique _ _ 1); lia. }
  assert (Hq : (q < 2 ^ 60)%N) by (rewrite Eq; change (2 ^ 61)%N with (2 * 2 ^ 60)%N in Ha1; lia).
  change (2 ^ 8 - 1)%N with (N.ones 8). change (2 ^ 7 - 1)%N with (N.ones 7). rewrite !N.land_ones.
  assert (Dq := N.div_mod q (2 ^ 8) ltac:(discriminate)). assert (Rq := N.mod_lt q (2 ^ 8) ltac:(discriminate)).
  set (h := (q / 2 ^ 8)%N) in *. set (l := (q mod 2 ^ 8)%N) in *.
  assert (El7 : (q mod 2 ^ 7 = l mod 2 ^ 7)%N).
  { rewrite Dq. change (2 ^ 8)%N with (2 ^ 7 * 2)%N. rewrite <- N.mul_assoc, N.add_comm, N.mul_comm, N.mod_add by discriminate. reflexivity. }
  assert (Eb8 : negb (N.land q (2 ^ 8) =? 0)%N = N.odd h).
  { unfold h. rewrite <- N.shiftr_div_pow2. rewrite <- N.bit0_odd, N.shiftr_spec by apply N.le_0_l. rewrite N.add_0_l.
    destruct (N.testbit q 8) eqn:Et.
    - apply Bool.negb_true_iff, N.eqb_neq. intros E.
      assert (Hb := f_equal (fun z => N.testbit z 8) E). cbn beta in Hb. rewrite N.land_spec, Et, N.pow2_bits_true in Hb. discriminate Hb.
    - apply Bool.negb_false_iff, N.eqb_eq. apply N.bits_inj. intros n. rewrite N.land_spec, N.bits_0, N.pow2_bits_eqb.
      destruct (N.eqb_spec 8 n) as [<-|]; [rewrite Et; reflexivity|apply Bool.andb_false_r]. }
  rewrite Eb8, El7.
  (* the two words as one number *)
  assert (Ev : V2 (a0, a1) = (a0 + 2 ^ 64 * (2 ^ 60 + (2 ^ 8 * h + l)))%N).
  { unfold V2. cbn [fst snd]. rewrite <- Dq. f_equal. f_equal. rewrite Eq. lia. }
  assert (EM : M = (2 ^ 52 + h)%N /\ r = (2 ^ 64 * l + a0)%N).
  { unfold M, r. rewrite Ev.
    split; [symmetry; apply (N.div_unique _ _ _ (2 ^ 64 * l + a0)%N)|symmetry; apply (N.mod_unique _ _ (2 ^ 52 + h)%N)];
      try (change (2 ^ 72)%N with (2 ^ 64 * 2 ^ 8)%N; change (2 ^ 60)%N with (2 ^ 52 * 2 ^ 8)%N; ring);
      change (2 ^ 72)%N with (2 ^ 64 * 2 ^ 8)%N; change (2 ^ 8)%N with 256%N in *; set (T := (2 ^ 64)%N) in *; clearbody T; clear - H0 Rq; nia. }
  destruct EM as (EM & Er).
  assert (Hh : (h < 2 ^ 52)%N) by (unfold h; apply N.div_lt_upper_bound; [discriminate|exact Hq]).
  assert (HM : (2 ^ 52 <= M < 2 ^ 53)%N) by (rewrite EM; change (2 ^ 53)%N with (2 * 2 ^ 52)%N; clear - Hh; lia).
  split; [|exact HM]. f_equal.
  assert (Eod : N.odd M = N.odd h) by (rewrite EM, N.odd_add; change (N.odd (2 ^ 52)) with false; destruct (N.odd h); reflexivity).
  assert (Esh : shl (Z.to_N be) 52 = (Z.to_N be * 2 ^ 52)%N).
  { rewrite shl_mul. apply N.mod_small. change (2 ^ 64)%N with (4096 * 2 ^ 52)%N. apply N.mul_lt_mono_pos_r; [reflexivity|]. clear - Hbe. lia. }
  assert (Hres : forall k, (k <= 2 ^ 52)%N -> u64 (k + shl (Z.to_N be) 52) = (k + Z.to_N be * 2 ^ 52)%N).
  { intros k Hk. rewrite Esh. apply u64_small. change (2 ^ 64)%N with (4096 * 2 ^ 52)%N.
    assert (Z.to_N be * 2 ^ 52 <= 2047 * 2 ^ 52)%N by (apply N.mul_le_mono_r; clear - Hbe; lia). set (P := (2 ^ 52)%N) in *. assert (0 < P)%N by reflexivity. clearbody P. clear - Hk H H2. lia. }
  set (c := ((2 ^ 7 <? l)%N || ((l =? 2 ^ 7)%N && negb (a0 =? 0)%N) || ((l mod 2 ^ 7 =? 0)%N && N.odd h && (a0 =? 0)%N))%bool).
  change (u64 (shr (if c then u64 (q + 2 ^ 7) else q) 8 + shl (Z.to_N be) 52) = (Z.to_N be * 2 ^ 52 + (M - 2 ^ 52) + (if up then 1 else 0))%N).
  assert (EMs : (M - 2 ^ 52 = h)%N) by (rewrite EM, N.add_comm; apply N.add_sub). rewrite EMs.
  assert (Hround : shr (if c then u64 (q + 2 ^ 7) else q) 8 = (h + (if up then 1 else 0))%N).
  { rewrite shr_div. rewrite (u64_small (q + 2 ^ 7)) by (eapply N.lt_trans; [apply N.add_lt_mono_r; exact Hq|reflexivity]).
    unfold up. rewrite Eod.
    assert (Hlt71 : (2 ^ 71 <? r)%N = ((2 ^ 7 <? l)%N || ((l =? 2 ^ 7)%N && negb (a0 =? 0)%N))%bool).
    { rewrite Er. change (2 ^ 71)%N with (2 ^ 64 * 128)%N. change (2 ^ 7)%N with 128%N. change (2 ^ 8)%N with 256%N in *.
      set (T := (2 ^ 64)%N) in *. clearbody T. clear - H0 Rq.
      destruct (N.ltb_spec 128 l) as [L|L]; cbn [orb].
      - apply N.ltb_lt. nia.
      - destruct (N.eqb_spec l 128) as [->|L']; cbn [andb].
        + destruct (N.eqb_spec a0 0) as [->|]; cbn [negb]; [apply N.ltb_ge; lia|apply N.ltb_lt; lia].
        + apply N.ltb_ge. nia. }
    assert (Heq71 : (r =? 2 ^ 71)%N = ((l =? 2 ^ 7)%N && (a0 =? 0)%N)%bool).
    { rewrite Er. change (2 ^ 71)%N with (2 ^ 64 * 128)%N. change (2 ^ 7)%N with 128%N. change (2 ^ 8)%N with 256%N in *.
      set (T := (2 ^ 64)%N) in *. clearbody T. clear - H0 Rq.
      destruct (N.eqb_spec l 128) as [->|L']; cbn [andb].
      - destruct (N.eqb_spec a0 0) as [->|]; [apply N.eqb_eq; lia|apply N.eqb_neq; lia].
      - apply N.eqb_neq. nia. }
    rewrite Hlt71, Heq71. unfold c.
    change (2 ^ 7)%N with 128%N. change (2 ^ 8)%N with 256%N in *. rewrite Dq.
    assert (Hdd : forall y, ((256 * h + y) / 256 = h + y / 256)%N).
    { intros y. rewrite (N.mul_comm 256 h), N.div_add_l by discriminate. reflexivity. }
    rewrite <- N.add_assoc.
    assert (Hd0 : (l / 256 = 0)%N) by (apply N.div_small; exact Rq).
    destruct (N.ltb_spec 128 l) as [L|L]; cbn [orb].
    - rewrite Hdd. f_equal. symmetry. apply (N.div_unique _ _ _ (l + 128 - 256)%N); clear - L Rq; clearbody l; lia.
    - destruct (N.eqb_spec l 128) as [El|El]; cbn [andb].
      + rewrite El. change (128 mod 128 =? 0)%N with true. cbn [andb].
        destruct (a0 =? 0)%N; cbn [negb orb andb].
        * destruct (N.odd h); cbn [andb orb]; rewrite Hdd; [reflexivity|]. reflexivity.
        * rewrite Hdd. reflexivity.
      + destruct ((l mod 128 =? 0)%N && N.odd h && (a0 =? 0)%N)%bool eqn:Et.
        * cbn [orb]. rewrite Hdd. f_equal. apply N.div_small. clear - L El. clearbody l. lia.
        * cbn [orb]. rewrite Hdd, Hd0. reflexivity. }
  rewrite Hround. rewrite Hres by (destruct up; lia). ring.
Qed.

(** H 6359-6372. *)
Lemma copy_denormal_spec a be neg : ok128 a -> (2 ^ 124 <= V2 a < 2 ^ 125)%N -> -54 <= be <= 0 ->
  let sh := Z.to_N (73 - be) in
  let M := (V2 a / 2 ^ sh)%N in
  let r := (V2 a mod 2 ^ sh)%N in
  let up := (2 ^ (sh - 1) <=? r)%N in
  copy_denormal a be neg = Ok (N.lor (M + (if up then 1 else 0))%N (sign_bit neg)) /\ (M < 2 ^ 52)%N.
Proof.
  intros Hok Hv Hbe sh M r up. destruct (snd_div a Hok) as (Es & Ef). destruct a as [a0 a1]. destruct Hok as [H0 H1]. cbn [fst snd] in *.
  assert (Ha1 : (2 ^ 60 <= a1 < 2 ^ 61)%N).
  { rewrite Es. split; [apply N.div_le_lower_bound; [discriminate|exact (proj1 Hv)]|apply N.div_lt_upper_bound; [discriminate|exact (proj2 Hv)]]. }
  assert (Hbes : Z.to_N (- be + 9) = Z.to_N (- be + 9)) by reflexivity. revert Hbes. generalize (Z.to_N (- be + 9)) at 2. intros s Hbes. assert (Hsh : sh = (64 + s)%N) by (unfold sh; rewrite <- Hbes; clear - Hbe; lia).
  assert (Hs : (9 <= s < 64)%N) by (rewrite <- Hbes; clear - Hbe; lia).
  assert (HM : (M < 2 ^ 52)%N).
  { unfold M. apply N.div_lt_upper_bound; [apply N.pow_nonzero; discriminate|]. eapply N.lt_le_trans; [apply Hv|].
    rewrite <- N.pow_add_r. apply N.pow_le_mono_r; [discriminate|]. rewrite Hsh. clear - Hs. lia. }
  split; [|exact HM].
  unfold copy_denormal. cbn [snd]. cbv zeta. destruct (Z.leb_spec 64 (- be + 9)) as [L|L]; [clear - L Hbe; lia|]. rewrite Hbes.
  destruct (N.eqb_spec s 0) as [E|_]; [clear - E Hs; lia|]. f_equal. f_equal.
  rewrite shr_div. assert (Esh1 : shl 1 (s - 1) = (2 ^ (s - 1))%N).
  { rewrite shl_mul, N.mul_1_l. apply N.mod_small. apply N.pow_lt_mono_r; clear - Hs; lia. }
  rewrite Esh1. assert (Hps : (2 ^ (s - 1) <= 2 ^ 62)%N) by (apply N.pow_le_mono_r; clear - Hs; lia).
  rewrite u64_small.
  2:{ eapply N.le_lt_trans; [apply N.add_le_mono; [apply N.lt_le_incl, Ha1|exact Hps]|]. reflexivity. }
  assert (E2 : (2 ^ s = 2 * 2 ^ (s - 1))%N) by (rewrite <- N.pow_succ_r'; f_equal; clear - Hs; lia).
  assert (EM : M = (a1 / 2 ^ s)%N).
  { unfold M. rewrite Hsh, N.pow_add_r, <- N.div_div; [|discriminate|apply N.pow_nonzero; discriminate]. rewrite <- Es. reflexivity. }
  assert (Er : r = (2 ^ 64 * (a1 mod 2 ^ s) + a0)%N).
  { unfold r. rewrite Hsh, N.pow_add_r. symmetry. apply (N.mod_unique _ _ (a1 / 2 ^ s)%N).
    - assert (Hl := N.mod_lt a1 (2 ^ s) ltac:(apply N.pow_nonzero; discriminate)). set (T := (2 ^ 64)%N) in *. set (m := (a1 mod 2 ^ s)%N) in *. set (P := (2 ^ s)%N) in *. clearbody T m P. clear - Hl H0. nia.
    - unfold V2. cbn [fst snd]. assert (Hd := N.div_mod a1 (2 ^ s) ltac:(apply N.pow_nonzero; discriminate)).
      rewrite Hd at 1. ring. }
  assert (Eup : up = (2 ^ (s - 1) <=? a1 mod 2 ^ s)%N).
  { unfold up. rewrite Er, Hsh. replace (64 + s - 1)%N with (64 + (s - 1))%N by (clear - Hs; lia). rewrite N.pow_add_r.
    set (P := (2 ^ (s - 1))%N) in *. set (m := (a1 mod 2 ^ s)%N) in *. set (T := (2 ^ 64)%N) in *. clearbody P m T. clear - H0.
    destruct (N.leb_spec P m) as [L|L]; [apply N.leb_le; nia|apply N.leb_gt; nia]. }
  rewrite Eup, EM.
  assert (Hd := N.div_mod a1 (2 ^ s) ltac:(apply N.pow_nonzero; discriminate)).
  assert (Hl := N.mod_lt a1 (2 ^ s) ltac:(apply N.pow_nonzero; discriminate)).
  set (m := (a1 mod 2 ^ s)%N) in *. set (d := (a1 / 2 ^ s)%N) in *. rewrite Hd.
  replace (2 ^ s * d + m + 2 ^ (s - 1))%N with (d * 2 ^ s + (m + 2 ^ (s - 1)))%N by ring.
  rewrite N.div_add_l by (apply N.pow_nonzero; discriminate). f_equal. rewrite E2 in *. set (P := (2 ^ (s - 1))%N) in *. clearbody P m. clear - Hl.
  destruct (N.leb_spec P m) as [L|L].
  - symmetry. apply (N.div_unique _ _ _ (m + P - 2 * P)%N); lia.
  - apply N.div_small. lia.
Qed.
