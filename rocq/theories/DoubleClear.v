(** Decimals with at most 16 digits and the points halfway between two doubles: for every power of ten
    and every binary exponent a pair of neighbouring fractions bounds the distance from below, or
    names the few decimals that lie closer.  For those the model is run.  The pairs are in
    DoubleTable.v; here the kernel checks them with exact integers. *)
From Coq Require Import QArith Qabs Qpower Lqa Lia ZArith List.
From Verif Require Import Base JsonSpec NumSpec DoubleSpec DoubleRound IntModel DoubleModel DoubleSlow DoubleFinish DoubleProofs DoubleTable.
Local Open Scope Z_scope.

(** ** The check *)
(** 10^e / 2^k as a fraction, where e = n or - n and t = 10^n. *)
Definition frac_num (neg : bool) (t k : Z) : Z := Z.shiftl (if neg then 1 else t) (Z.max 0 (- k)).
Definition frac_den (neg : bool) (t k : Z) : Z := Z.shiftl (if neg then t else 1) (Z.max 0 k).

(** b is the one double nearest to s 10^e, by exact integers. *)
Definition near_check (s e : Z) (b : N) : bool :=
  let u := Z.shiftl (s * (if e <? 0 then 1 else 10 ^ e)) 1075 in
  let v := if e <? 0 then 10 ^ (- e) else 1 in
  (0 <? b)%N && (b <? dinf)%N && ((dint (b - 1) + dint b) * v <? u) && (u <? (dint b + dint (b + 1)) * v).

(** The model reads s 10^e as the nearest double. *)
Definition spot (neg : bool) (s e : Z) : bool :=
  match slow_path (mkParsed neg (Z.to_N s) 0 e 0) with
  | Ok d => let b := (d - (if neg then 2 ^ 63 else 0))%N in (with_sign 52 11 neg b =? d)%N && near_check s e b
  | _ => false
  end.

(** The same for s/10^i 10^(e+i), where 10^i divides s. *)
Fixpoint forms_ok (n : nat) (s e : Z) : bool :=
  spot false s e && spot true s e &&
  match n with
  | O => true
  | S n' => if s mod 10 =? 0 then forms_ok n' (s / 10) (e + 1) else true
  end.

(** The pairs (i q, i p) that can be the significand and the numerator of a halfway point. *)
Definition multiple_ok (e num v r : Z) (c : cert) (i : Z) : bool :=
  if 10 ^ 16 <=? i * c_q c then true
  else if 2 ^ 54 <=? i * c_p c then true
  else if Z.even (i * c_p c) then true
  else if num * v <? Z.shiftl (i * r) 69 then true
  else forms_ok 15 (i * c_q c) e.

(** No s < 10^16 and odd N < 2^54 have 0 < s 10^e/2^k - N <= 2^j 5 (n + 16) / 2^69, except for
    multiples of q that the model reads correctly. *)
Definition cert_ok (n : Z) (neg : bool) (t : Z) (c : cert) : bool :=
  let u := frac_num neg t (c_k c) in
  let v := frac_den neg t (c_k c) in
  let r := c_q c * u - c_p c * v in
  let num := Z.shiftl (5 * (n + 16)) (c_j c) in
  (0 <=? c_j c) && (c_P c * c_q c - c_p c * c_Q c =? 1) && (0 <? c_q c) && (0 <=? c_Q c) &&
  (10000000000000000 <=? c_q c + c_Q c) && (0 <=? r) && (r * c_Q c <=? v) &&
  (if r =? 0 then num * c_q c <? 590295810358705651712
   else if num * v <? Z.shiftl r 69 then true
   else (c_j c =? 0) && (1000000000000000 <=? c_q c) && (num * v <? Z.shiftl (c_P c * v - c_Q c * u) 69) &&
     forallb (multiple_ok (if neg then - n else n) num v r c) [1; 2; 3; 4; 5; 6; 7; 8; 9; 10]).

(** The binary exponents from k to hi are covered. *)
Fixpoint covers (n : Z) (neg : bool) (t : Z) (k hi : Z) (l : list cert) : bool :=
  match l with
  | nil => hi <? k
  | cons c l' => (c_k c =? k) && cert_ok n neg t c && covers n neg t (k + c_j c + 1) hi l'
  end.

(** 2^f <= 10^(15+e) and 10^(16+e) <= 2^(f+5). *)
Definition row_ok (n : Z) (neg : bool) (t : Z) (w : row) : bool :=
  let f := r_f w in
  (frac_den neg t f <=? 1000000000000000 * frac_num neg t f) &&
  (10000000000000000 * frac_num neg t (f + 5) <=? frac_den neg t (f + 5)) &&
  covers n neg t (Z.max (f - 54) (-1075)) (Z.max (f - 49) (-1075)) (r_certs w).

Fixpoint rows_ok (n : Z) (neg : bool) (t : Z) (l : list row) : bool :=
  match l with
  | nil => true
  | cons w l' => row_ok n neg t w && rows_ok (n + 1) neg (10 * t) l'
  end.

Lemma rows_are_ok : rows_ok 1 true 10 negative_rows && rows_ok 0 false 1 positive_rows = true.
Proof. vm_compute. reflexivity. Qed.

(** ** What it shows *)
Lemma shift_pos a n : 0 < a -> 0 <= n -> 0 < Z.shiftl a n.
Proof. intros. rewrite Z.shiftl_mul_pow2 by assumption. apply Z.mul_pos_pos; [assumption|]. apply Z.pow_pos_nonneg; lia. Qed.

Lemma frac_den_pos neg t k : 0 < t -> 0 < frac_den neg t k.
Proof. intros. unfold frac_den. apply shift_pos; [destruct neg; lia|lia]. Qed.

Lemma inj_shiftl a k : 0 <= k -> (inject_Z (Z.shiftl a k) == inject_Z a * inject_Z 2 ^ k)%Q.
Proof. intros. rewrite Z.shiftl_mul_pow2, inject_Z_mult, q2nonneg by assumption. reflexivity. Qed.

Lemma frac_spec neg n k : 0 <= n ->
  (inject_Z (frac_num neg (10 ^ n) k) * inject_Z 2 ^ k == inject_Z (frac_den neg (10 ^ n) k) * inject_Z 10 ^ (if neg then - n else n))%Q.
Proof.
  intros Hn. unfold frac_num, frac_den. rewrite !inj_shiftl by lia.
  assert (E2 : (inject_Z 2 ^ Z.max 0 (- k) * inject_Z 2 ^ k == inject_Z 2 ^ Z.max 0 k)%Q).
  { rewrite <- q2add. replace (Z.max 0 (- k) + k) with (Z.max 0 k) by lia. reflexivity. }
  rewrite <- Qmult_assoc, E2. destruct neg.
  - transitivity (inject_Z 2 ^ Z.max 0 k * (inject_Z 10 ^ n * inject_Z 10 ^ (- n)))%Q.
    + rewrite <- q10add, Z.add_opp_diag_r. change (inject_Z 10 ^ 0)%Q with 1%Q. ring.
    + rewrite q10nonneg by assumption. ring.
  - rewrite q10nonneg by assumption. ring.
Qed.

Lemma cert_gap n neg t c : 0 <= n -> 0 < t -> cert_ok n neg t c = true ->
  0 <= c_j c /\
  forall s N, 0 < s < 10 ^ 16 -> 0 < s * frac_num neg t (c_k c) - N * frac_den neg t (c_k c) ->
    5 * (n + 16) * 2 ^ c_j c * frac_den neg t (c_k c) < 2 ^ 69 * (s * frac_num neg t (c_k c) - N * frac_den neg t (c_k c)) \/
    (c_j c = 0 /\ (N < 2 ^ 54 -> Z.odd N = true -> forms_ok 15 s (if neg then - n else n) = true)).
Proof.
  intros Hn Ht. unfold cert_ok. destruct c as [k j p q P Q]. cbn [c_k c_j c_p c_q c_P c_Q].
  set (u := frac_num neg t k). assert (Hv := frac_den_pos neg t k Ht). set (v := frac_den neg t k) in *. clearbody u v.
  set (r := q * u - p * v).
  rewrite !Bool.andb_true_iff. intros (((((((H0 & H1) & H2) & H3) & H4) & H5) & H6) & H7).
  apply Z.eqb_eq in H1. apply Z.ltb_lt in H2. apply Z.leb_le in H0, H3, H4, H5, H6.
  split; [exact H0|]. intros s N Hs Hpos. change (10 ^ 16) with 10000000000000000 in Hs.
  rewrite Z.shiftl_mul_pow2 in H7 by exact H0. assert (Hj : 0 < 2 ^ j) by (apply Z.pow_pos_nonneg; lia).
  assert (Hnum : 0 < 5 * (n + 16) * 2 ^ j) by (apply Z.mul_pos_pos; lia).
  set (num := 5 * (n + 16) * 2 ^ j) in *. clearbody num. set (e := if neg then - n else n) in *. clearbody e.
  unfold multiple_ok in H7. cbn [c_q c_p] in H7. fold r in H7.
  set (R := P * v - Q * u) in *.
  assert (ER : q * R = v - r * Q).
  { unfold R, r. transitivity ((P * q - p * Q) * v - (q * u - p * v) * Q); [ring|rewrite H1; ring]. }
  set (x := s * P - N * Q). set (y := N * q - s * p).
  assert (Es : s = x * q + y * Q) by (unfold x, y; transitivity (s * (P * q - p * Q)); [rewrite H1; ring|ring]).
  assert (Ev : s * u - N * v = x * r - y * R).
  { unfold x, y, r, R. transitivity ((s * u - N * v) * (P * q - p * Q)); [rewrite H1; ring|ring]. }
  assert (EN : N = x * p + y * P) by (unfold x, y; transitivity (N * (P * q - p * Q)); [rewrite H1; ring|ring]).
  clearbody x y r R. rewrite Ev in *. clear Ev H1.
  assert (HR : 0 <= R).
  { destruct (Z.le_gt_cases 0 R) as [L|L]; [exact L|exfalso]. assert (q * R < 0) by (apply Z.mul_pos_neg; lia). lia. }
  assert (Hx : 1 <= x).
  { destruct (Z.le_gt_cases 1 x) as [L|L]; [exact L|exfalso].
    assert (x * r <= 0) by (apply Z.mul_nonpos_nonneg; lia).
    destruct (Z.le_gt_cases 0 y) as [Ly|Ly].
    - assert (0 <= y * R) by (apply Z.mul_nonneg_nonneg; lia). lia.
    - assert (x * q <= 0) by (apply Z.mul_nonpos_nonneg; lia). assert (y * Q <= 0) by (apply Z.mul_nonpos_nonneg; lia). lia. }
  assert (Hy : y <= 0).
  { destruct (Z.le_gt_cases y 0) as [L|L]; [exact L|exfalso].
    assert (1 * q <= x * q) by (apply Z.mul_le_mono_nonneg_r; lia). assert (1 * Q <= y * Q) by (apply Z.mul_le_mono_nonneg_r; lia). lia. }
  assert (HyR : y * R <= 0) by (apply Z.mul_nonpos_nonneg; lia).
  destruct (Z.eqb_spec r 0) as [E|E]; [|destruct (Z.ltb_spec (num * v) (Z.shiftl r 69)) as [H8|H8]].
  - left. apply Z.ltb_lt in H7. change 590295810358705651712 with (2 ^ 69) in H7. rewrite E in *. rewrite Z.mul_0_l, Z.sub_0_r in ER. rewrite Z.mul_0_r, Z.sub_0_l in Hpos |- *.
    assert (y <> 0) by (intros ->; lia). assert (1 * R <= (- y) * R) by (apply Z.mul_le_mono_nonneg_r; lia).
    eapply Z.lt_le_trans with (2 ^ 69 * R); [|apply Z.mul_le_mono_nonneg_l; [discriminate|lia]].
    rewrite <- ER. rewrite Z.mul_assoc. apply Z.mul_lt_mono_pos_r; [|exact H7].
    destruct (Z.eq_dec R 0) as [R0|R0]; [rewrite R0, Z.mul_0_r in ER; lia|lia].
  - left. rewrite Z.shiftl_mul_pow2 in H8 by discriminate.
    assert (1 * r <= x * r) by (apply Z.mul_le_mono_nonneg_r; lia).
    eapply Z.lt_le_trans; [exact H8|]. rewrite Z.mul_comm. apply Z.mul_le_mono_nonneg_l; [discriminate|lia].
  - rewrite !Bool.andb_true_iff in H7. destruct H7 as (((J0 & Hq) & HRb) & Hm). clear H8.
    apply Z.eqb_eq in J0. apply Z.leb_le in Hq. apply Z.ltb_lt in HRb. rewrite Z.shiftl_mul_pow2 in HRb by discriminate.
    assert (Hxr : 0 <= x * r) by (apply Z.mul_nonneg_nonneg; lia).
    destruct (Z.eq_dec y 0) as [Y|Y].
    2:{ left. eapply Z.lt_le_trans; [exact HRb|]. rewrite Z.mul_comm. apply Z.mul_le_mono_nonneg_l; [discriminate|].
        assert (1 * R <= (- y) * R) by (apply Z.mul_le_mono_nonneg_r; lia). lia. }
    rewrite Y, Z.mul_0_l, Z.add_0_r in Es, EN. rewrite Y, Z.mul_0_l, Z.sub_0_r.
    assert (Hx10 : x <= 10).
    { destruct (Z.le_gt_cases x 10) as [L|L]; [exact L|exfalso].
      assert (11 * q <= x * q) by (apply Z.mul_le_mono_nonneg_r; lia). lia. }
    assert (Hin : In x [1; 2; 3; 4; 5; 6; 7; 8; 9; 10]) by (cbn [In]; lia).
    rewrite forallb_forall in Hm. specialize (Hm x Hin). rewrite <- Es, <- EN in Hm.
    destruct (Z.leb_spec (10 ^ 16) s) as [Hc|_]; [change (10 ^ 16) with 10000000000000000 in Hc; lia|].
    destruct (Z.leb_spec (2 ^ 54) N) as [Hc|_]; [right; split; [exact J0|]; intros HN; lia|].
    destruct (Z.even N) eqn:Hc; [right; split; [exact J0|]; intros _ Ho; rewrite <- Z.negb_even, Hc in Ho; discriminate Ho|].
    destruct (Z.ltb_spec (num * v) (Z.shiftl (x * r) 69)) as [Hc2|_].
    + left. rewrite Z.shiftl_mul_pow2 in Hc2 by discriminate. rewrite (Z.mul_comm (2 ^ 69)). exact Hc2.
    + right. split; [exact J0|]. intros _ _. exact Hm.
Qed.

Lemma covers_cert n neg t l : forall k hi, covers n neg t k hi l = true -> forall k', k <= k' <= hi ->
  exists c, cert_ok n neg t c = true /\ c_k c <= k' <= c_k c + c_j c.
Proof.
  induction l as [|c l IH]; intros k hi H k' Hk; cbn [covers] in H.
  - apply Z.ltb_lt in H. lia.
  - rewrite !Bool.andb_true_iff in H. destruct H as ((H1 & H2) & H3). apply Z.eqb_eq in H1.
    destruct (Z.le_gt_cases k' (c_k c + c_j c)) as [L|L]; [exists c; split; [exact H2|lia]|].
    apply (IH _ _ H3). lia.
Qed.

(** What is known about one power of ten. *)
Definition separated (e : Z) : Prop :=
  exists f, (inject_Z 2 ^ f <= inject_Z 10 ^ (15 + e))%Q /\ (inject_Z 10 ^ (16 + e) <= inject_Z 2 ^ (f + 5))%Q /\
    forall k, Z.max (f - 54) (-1075) <= k <= Z.max (f - 49) (-1075) ->
    forall s N, 0 < s < 10 ^ 16 -> N < 2 ^ 54 -> Z.odd N = true -> (inject_Z N * inject_Z 2 ^ k < scaled s 10 e)%Q ->
      (inject_Z (5 * (Z.abs e + 16)) * inject_Z 2 ^ (k - 69) < scaled s 10 e - inject_Z N * inject_Z 2 ^ k)%Q \/ forms_ok 15 s e = true.

Lemma row_separated n neg w : 0 <= n -> row_ok n neg (10 ^ n) w = true -> separated (if neg then - n else n).
Proof.
  intros Hn. unfold row_ok. destruct w as [f l]. cbn [r_f r_certs]. rewrite !Bool.andb_true_iff. intros ((H1 & H2) & H3).
  apply Z.leb_le in H1, H2. set (e := if neg then - n else n). assert (Ea : Z.abs e = n) by (unfold e; destruct neg; lia).
  assert (Ht : 0 < 10 ^ n) by (apply Z.pow_pos_nonneg; lia).
  exists f. repeat split.
  - assert (Hf := frac_spec neg n f Hn). fold e in Hf. assert (Hv := frac_den_pos neg (10 ^ n) f Ht).
    rewrite Zle_Qle, inject_Z_mult in H1. apply inj_pos in Hv. assert (P2 := q2pos f).
    rewrite q10add. change (inject_Z 10 ^ 15)%Q with (inject_Z 1000000000000000).
    set (u := inject_Z (frac_num _ _ _)) in *. set (v := inject_Z (frac_den _ _ _)) in *. set (two := (inject_Z 2 ^ f)%Q) in *.
    set (ten := (inject_Z 10 ^ e)%Q) in *. set (c := inject_Z 1000000000000000) in *.
    apply (Qmult_le_r _ _ v Hv).
    apply Qle_trans with (two * (c * u))%Q.
    + rewrite (Qmult_comm two v), (Qmult_comm two (c * u)). apply Qmult_le_compat_r; [exact H1|apply Qlt_le_weak, P2].
    + apply Qle_lteq. right. transitivity (c * (u * two))%Q; [ring|]. rewrite Hf. ring.
  - assert (Hf := frac_spec neg n (f + 5) Hn). fold e in Hf. assert (Hv := frac_den_pos neg (10 ^ n) (f + 5) Ht).
    rewrite Zle_Qle, inject_Z_mult in H2. apply inj_pos in Hv. assert (P2 := q2pos (f + 5)).
    rewrite q10add. change (inject_Z 10 ^ 16)%Q with (inject_Z 10000000000000000).
    set (u := inject_Z (frac_num _ _ _)) in *. set (v := inject_Z (frac_den _ _ _)) in *. set (two := (inject_Z 2 ^ (f + 5))%Q) in *.
    set (ten := (inject_Z 10 ^ e)%Q) in *. set (c := inject_Z 10000000000000000) in *.
    apply (Qmult_le_r _ _ v Hv).
    apply Qle_trans with ((c * u) * two)%Q.
    + apply Qle_lteq. right. transitivity (c * (v * ten))%Q; [ring|]. rewrite <- Hf. ring.
    + rewrite (Qmult_comm two v). apply Qmult_le_compat_r; [exact H2|apply Qlt_le_weak, P2].
  - intros k Hk s N Hs HN54 HNo Hpos. rewrite Ea.
    destruct (covers_cert _ _ _ _ _ _ H3 k Hk) as (c & Hc & Hck).
    destruct (cert_gap n neg (10 ^ n) c Hn Ht Hc) as (Hj & Hgap).
    assert (Hf := frac_spec neg n (c_k c) Hn). fold e in Hf. assert (Hv := frac_den_pos neg (10 ^ n) (c_k c) Ht).
    set (k0 := c_k c) in *. set (j := c_j c) in *.
    set (u := frac_num neg (10 ^ n) k0) in *. set (v := frac_den neg (10 ^ n) k0) in *.
    specialize (Hgap s (N * 2 ^ (k - k0)) Hs).
    assert (EN : (inject_Z N * inject_Z 2 ^ k == inject_Z (N * 2 ^ (k - k0)) * inject_Z 2 ^ k0)%Q).
    { rewrite inject_Z_mult, <- q2nonneg by lia. rewrite <- Qmult_assoc, <- q2add. replace (k - k0 + k0) with k by lia. reflexivity. }
    set (N' := N * 2 ^ (k - k0)) in *.
    assert (P0 := q2pos k0). assert (HvQ := inj_pos _ Hv).
    assert (Ed : (inject_Z (s * u - N' * v) * inject_Z 2 ^ k0 == (scaled s 10 e - inject_Z N' * inject_Z 2 ^ k0) * inject_Z v)%Q).
    { unfold scaled. unfold Z.sub. rewrite inject_Z_plus, inject_Z_opp, !inject_Z_mult.
      transitivity (inject_Z s * (inject_Z u * inject_Z 2 ^ k0) - inject_Z N' * inject_Z v * inject_Z 2 ^ k0)%Q; [ring|]. rewrite Hf. ring. }
    rewrite EN in Hpos |- *. set (d := (scaled s 10 e - inject_Z N' * inject_Z 2 ^ k0)%Q) in *.
    assert (Hd : (0 < d)%Q) by (unfold d; clear - Hpos; lra).
    assert (Hg0 : 0 < s * u - N' * v).
    { rewrite Zlt_Qlt. apply (Qmult_lt_r _ _ _ P0). rewrite Ed. rewrite Qmult_0_l. apply Qmult_lt_0_compat; assumption. }
    apply Hgap in Hg0. fold e in Hg0. destruct Hg0 as [Hg0|(J0 & Hg0)].
    2:{ right. assert (EN' : N' = N) by (unfold N'; replace (k - k0) with 0 by lia; change (2 ^ 0) with 1; lia).
        rewrite EN' in Hg0. exact (Hg0 HN54 HNo). }
    left. rewrite Zlt_Qlt in Hg0. rewrite (inject_Z_mult (2 ^ 69)) in Hg0.
    apply (Qmult_lt_r _ _ _ P0) in Hg0. rewrite <- (Qmult_assoc (inject_Z (2 ^ 69))), Ed in Hg0.
    rewrite !inject_Z_mult in Hg0. rewrite inject_Z_mult.
    assert (Hg1 : (inject_Z 5 * inject_Z (n + 16) * inject_Z (2 ^ j) * inject_Z 2 ^ k0 < inject_Z (2 ^ 69) * d)%Q).
    { apply (Qmult_lt_r _ _ _ HvQ). eapply Qle_lt_trans; [|eapply Qlt_le_trans; [exact Hg0|]]; apply Qle_lteq; right; ring. }
    rewrite <- (q2nonneg j) in Hg1 by exact Hj. rewrite <- Qmult_assoc, <- q2add in Hg1.
    assert (E69 : (inject_Z 2 ^ (k - 69) * inject_Z (2 ^ 69) == inject_Z 2 ^ k)%Q).
    { rewrite <- q2nonneg by discriminate. rewrite <- q2add. replace (k - 69 + 69) with k by lia. reflexivity. }
    assert (P69 : (0 < inject_Z (2 ^ 69))%Q) by reflexivity.
    apply (Qmult_lt_r _ _ _ P69). rewrite (Qmult_comm d). eapply Qle_lt_trans; [|exact Hg1].
    rewrite <- Qmult_assoc, E69. rewrite (Qmult_comm _ (inject_Z 2 ^ k)%Q), (Qmult_comm _ (inject_Z 2 ^ (j + k0))%Q).
    apply Qmult_le_compat_r.
    + replace (j + k0) with (k + (j + k0 - k)) by lia. rewrite q2add. rewrite (q2nonneg (j + k0 - k)) by lia.
      assert (P3 := q2pos k). assert (Hge : (1 <= inject_Z (2 ^ (j + k0 - k)))%Q).
      { change 1%Q with (inject_Z 1). rewrite <- Zle_Qle. assert (0 < 2 ^ (j + k0 - k)) by (apply Z.pow_pos_nonneg; lia). lia. }
      set (A := (inject_Z 2 ^ k)%Q) in *. set (B := inject_Z (2 ^ (j + k0 - k))) in *. clearbody A B. clear - P3 Hge. nra.
    + rewrite <- inject_Z_mult. apply inj_nonneg. lia.
Qed.

Lemma rows_ok_row neg l : forall n t, rows_ok n neg t l = true -> forall i, (i < length l)%nat ->
  exists w, row_ok (n + Z.of_nat i) neg (t * 10 ^ Z.of_nat i) w = true.
Proof.
  induction l as [|w l IH]; intros n t H i Hi; cbn [length] in Hi; [lia|]. cbn [rows_ok] in H. apply andb_prop in H. destruct H as (H1 & H2).
  destruct i as [|i].
  - exists w. cbn [Z.of_nat Z.pow]. change (10 ^ 0) with 1. rewrite Z.add_0_r, Z.mul_1_r. exact H1.
  - destruct (IH _ _ H2 i ltac:(lia)) as (w' & Hw). exists w'.
    replace (n + Z.of_nat (S i)) with (n + 1 + Z.of_nat i) by lia.
    replace (t * 10 ^ Z.of_nat (S i)) with (10 * t * 10 ^ Z.of_nat i); [exact Hw|].
    rewrite Nat2Z.inj_succ, Z.pow_succ_r by lia. ring.
Qed.

Lemma all_separated e : -339 <= e <= 293 -> separated e.
Proof.
  intros He. assert (H := rows_are_ok). apply andb_prop in H. destruct H as (H1 & H2).
  destruct (Z.ltb_spec e 0) as [L|L].
  - assert (Hl : (Z.to_nat (- e - 1) < length negative_rows)%nat) by (change (length negative_rows) with 339%nat; lia).
    destruct (rows_ok_row _ _ _ _ H1 _ Hl) as (w & Hw). rewrite Z2Nat.id in Hw by lia.
    replace (1 + (- e - 1)) with (- e) in Hw by lia.
    replace (10 * 10 ^ (- e - 1)) with (10 ^ (- e)) in Hw by (rewrite <- Z.pow_succ_r by lia; f_equal; lia).
    apply row_separated in Hw; [|lia]. cbv iota in Hw. rewrite Z.opp_involutive in Hw. exact Hw.
  - assert (Hl : (Z.to_nat e < length positive_rows)%nat) by (change (length positive_rows) with 294%nat; lia).
    destruct (rows_ok_row _ _ _ _ H2 _ Hl) as (w & Hw). rewrite Z2Nat.id in Hw by lia.
    rewrite Z.add_0_l, Z.mul_1_l in Hw. apply row_separated in Hw; [|lia]. exact Hw.
Qed.

(** ** Halfway points *)
Lemma halfway_form b : (b < dinf)%N -> exists N k, -1075 <= k /\ 0 < N < 2 ^ 54 /\ Z.odd N = true /\ (k = -1075 \/ 2 ^ 53 <= N) /\
  (halfway 52 11 b == inject_Z N * inject_Z 2 ^ k)%Q.
Proof.
  intros Hb. set (e := (b / 2 ^ 52)%N). set (m := (b mod 2 ^ 52)%N).
  assert (Hd := N.div_mod b (2 ^ 52) ltac:(discriminate)). assert (Hr := N.mod_lt b (2 ^ 52) ltac:(discriminate)).
  fold e m in Hd, Hr. assert (He : (e < 2047)%N) by (apply N.div_lt_upper_bound; [discriminate|exact Hb]).
  assert (Hs : (halfway 52 11 b == inject_Z (2 * dint b + fgap 52 11 b) * inject_Z 2 ^ (-1075))%Q).
  { unfold halfway. rewrite !fp_value_fint, fint_succ by exact Hb. change (funit 52 11) with (1 + -1075).
    rewrite q2add. change (inject_Z 2 ^ 1)%Q with 2%Q. set (T := (inject_Z 2 ^ (-1075))%Q). rewrite !inject_Z_plus, !inject_Z_mult. change (inject_Z 2) with 2%Q. field. }
  unfold fgap in Hs. fold e in Hs.
  assert (Hb2 : b = (e * 2 ^ 52 + m)%N) by (rewrite Hd at 1; lia).
  assert (Hfi := fint_at 52 11 e m Hr ltac:(change (2 ^ 11)%N with 2048%N; lia)). rewrite <- Hb2 in Hfi. rewrite Hfi in Hs.
  change (2 ^ 52)%N with 4503599627370496%N in *. change (2 ^ 54) with 18014398509481984. change (2 ^ 53) with 9007199254740992.
  destruct (N.eqb_spec e 0) as [E|E].
  - exists (2 * Z.of_N m + 1), (-1075). split; [lia|]. split; [lia|]. split; [rewrite Z.add_comm, Z.odd_add_mul_2; reflexivity|]. split; [left; reflexivity|].
    rewrite Hs, E. change (2 ^ (Z.max 1 (Z.of_N 0) - 1)) with 1. reflexivity.
  - exists (2 * Z.of_N (4503599627370496 + m) + 1), (Z.of_N e - 1 - 1075). split; [lia|]. split; [lia|]. split; [rewrite Z.add_comm, Z.odd_add_mul_2; reflexivity|]. split; [right; lia|].
    rewrite Hs, Z.max_r by lia. unfold Z.sub at 3. rewrite q2add, (q2nonneg (Z.of_N e - 1)) by lia.
    rewrite Qmult_assoc, <- inject_Z_mult. apply Qmult_comp; [|reflexivity].
    replace ((2 * Z.of_N (4503599627370496 + m) + 1) * 2 ^ (Z.of_N e - 1))
       with (2 * (Z.of_N (4503599627370496 + m) * 2 ^ (Z.of_N e - 1)) + 2 ^ (Z.of_N e - 1)) by ring. reflexivity.
Qed.

Lemma q2_lt a b : (inject_Z 2 ^ a < inject_Z 2 ^ b)%Q -> a < b.
Proof.
  intros H. destruct (Z.lt_ge_cases a b) as [L|L]; [exact L|exfalso].
  assert ((inject_Z 2 ^ b <= inject_Z 2 ^ a)%Q); [|clear - H H0; lra].
  replace a with (b + (a - b)) by lia. rewrite q2add, (q2nonneg (a - b)) by lia.
  assert (P := q2pos b). assert (1 <= inject_Z (2 ^ (a - b)))%Q.
  { change 1%Q with (inject_Z 1). rewrite <- Zle_Qle. assert (0 < 2 ^ (a - b)) by (apply Z.pow_pos_nonneg; lia). lia. }
  set (A := (inject_Z 2 ^ b)%Q) in *. set (B := inject_Z (2 ^ (a - b))) in *. clearbody A B. clear - P H0. nra.
Qed.

Lemma q10_lt a b : (inject_Z 10 ^ a < inject_Z 10 ^ b)%Q -> a < b.
Proof.
  intros H. destruct (Z.lt_ge_cases a b) as [L|L]; [exact L|exfalso].
  assert ((inject_Z 10 ^ b <= inject_Z 10 ^ a)%Q); [|clear - H H0; lra].
  replace a with (b + (a - b)) by lia. rewrite q10add, (q10nonneg (a - b)) by lia.
  assert (P := q10pos b). assert (1 <= inject_Z (10 ^ (a - b)))%Q.
  { change 1%Q with (inject_Z 1). rewrite <- Zle_Qle. assert (0 < 10 ^ (a - b)) by (apply Z.pow_pos_nonneg; lia). lia. }
  set (A := (inject_Z 10 ^ b)%Q) in *. set (B := inject_Z (10 ^ (a - b))) in *. clearbody A B. clear - P H0. nra.
Qed.

Lemma clear_normal s e n : 10 ^ 15 <= s < 10 ^ 16 -> -339 <= e <= 293 -> 0 <= n <= Z.abs e + 15 ->
  clear_of_halfway 52 11 (slack n) (scaled s 10 e) \/ forms_ok 15 s e = true.
Proof.
  intros Hs He Hn. destruct (forms_ok 15 s e) eqn:Hforms; [right; reflexivity|left].
  intros b Hb. destruct (halfway_form b Hb) as (N & k & Hk & HN & Hodd & Hk2 & Eh). rewrite Eh. clear Eh Hb b.
  set (x := scaled s 10 e). set (h := (inject_Z N * inject_Z 2 ^ k)%Q).
  destruct (Qlt_le_dec h x) as [L|L]; [right|left; exact L].
  destruct (Qlt_le_dec (h * (1 + slack n)) x) as [L2|L2]; [exact L2|exfalso].
  destruct (all_separated e He) as (f & F1 & F2 & Hsep).
  assert (Hsl := slack_ok n ltac:(lia)). assert (P := q2pos k).
  assert (Hh0 : (0 < h)%Q) by (unfold h; apply Qmult_lt_0_compat; [apply inj_pos; lia|exact P]).
  assert (Hx2 : (x <= 2 * h)%Q).
  { assert (tiny <= 1)%Q by discriminate. set (sl := slack n) in *. clearbody sl h x. clear - L2 Hsl H Hh0. nra. }
  assert (X1 : (inject_Z 2 ^ f <= x)%Q).
  { eapply Qle_trans; [exact F1|]. unfold x, scaled. rewrite q10add. apply Qmult_le_compat_r; [|apply Qlt_le_weak, q10pos].
    rewrite q10nonneg by discriminate. rewrite <- Zle_Qle. lia. }
  assert (X2 : (x < inject_Z 2 ^ (f + 5))%Q).
  { eapply Qlt_le_trans; [|exact F2]. unfold x, scaled. rewrite q10add. apply Qmult_lt_compat_r; [apply q10pos|].
    rewrite q10nonneg by discriminate. rewrite <- Zlt_Qlt. lia. }
  assert (K1 : f < 55 + k).
  { apply q2_lt. eapply Qle_lt_trans; [exact X1|]. eapply Qle_lt_trans; [exact Hx2|]. unfold h. rewrite q2add, Qmult_assoc.
    apply Qmult_lt_compat_r; [exact P|]. rewrite q2nonneg by discriminate. change 2%Q with (inject_Z 2). rewrite <- inject_Z_mult, <- Zlt_Qlt. lia. }
  assert (K2 : k = -1075 \/ k < f - 48).
  { destruct Hk2 as [?|HN2]; [left; assumption|right]. cut (53 + k < f + 5); [lia|].
    apply q2_lt. eapply Qle_lt_trans; [|exact X2]. apply Qle_trans with h; [|apply Qlt_le_weak, L]. unfold h. rewrite q2add.
    apply Qmult_le_compat_r; [|apply Qlt_le_weak, P]. rewrite q2nonneg by discriminate. rewrite <- Zle_Qle. exact HN2. }
  assert (Hg := Hsep k ltac:(lia) s N ltac:(lia) ltac:(lia) Hodd L). rewrite Hforms in Hg. destruct Hg as [Hg|Hg]; [|discriminate Hg].
  fold x in Hg. fold h in Hg.
  assert (Hb : (h * slack n <= inject_Z (5 * (Z.abs e + 16)) * inject_Z 2 ^ (k - 69))%Q).
  { unfold h, slack. replace (k - 69) with (k + -69) by lia. rewrite q2add, inject_Z_mult.
    assert (Eeta : (eta == 5 * (inject_Z 2 ^ (-69) * inject_Z 2 ^ (-54)))%Q) by reflexivity. rewrite Eeta.
    assert (HA : (inject_Z N * inject_Z 2 ^ (-54) <= 1)%Q).
    { apply Qle_trans with (inject_Z (2 ^ 54) * inject_Z 2 ^ (-54))%Q; [|discriminate].
      apply Qmult_le_compat_r; [|discriminate]. rewrite <- Zle_Qle. lia. }
    assert (HB : (inject_Z (n + 1) <= inject_Z (Z.abs e + 16))%Q) by (rewrite <- Zle_Qle; lia).
    assert (HB0 : (0 <= inject_Z (n + 1))%Q) by (apply inj_nonneg; lia).
    assert (HA0 : (0 <= inject_Z N)%Q) by (apply inj_nonneg; lia).
    assert (P54 := q2pos (-54)). assert (P69 := q2pos (-69)).
    apply Qle_trans with (inject_Z (n + 1) * (inject_Z 5 * (inject_Z 2 ^ k * inject_Z 2 ^ (-69))))%Q.
    - set (a := inject_Z N) in *. set (c := inject_Z (n + 1)) in *. set (t := (inject_Z 2 ^ k)%Q) in *. set (t54 := (inject_Z 2 ^ (-54))%Q) in *.
      set (t69 := (inject_Z 2 ^ (-69))%Q) in *. change (inject_Z 5) with 5%Q.
      assert (E : (a * t * (c * (5 * (t69 * t54))) == (a * t54) * (c * (5 * (t * t69))))%Q) by ring. rewrite E.
      assert (Hz : (0 <= c * (5 * (t * t69)))%Q).
      { apply Qmult_le_0_compat; [exact HB0|]. apply Qmult_le_0_compat; [discriminate|]. apply Qmult_le_0_compat; apply Qlt_le_weak; assumption. }
      set (W := (c * (5 * (t * t69)))%Q) in *. set (Y := (a * t54)%Q) in *. clearbody W Y. clear - Hz HA. nra.
    - apply Qle_trans with (inject_Z (Z.abs e + 16) * (inject_Z 5 * (inject_Z 2 ^ k * inject_Z 2 ^ (-69))))%Q;
        [|generalize (inject_Z 2 ^ (-69))%Q (inject_Z 2 ^ k)%Q (inject_Z (Z.abs e + 16)); intros; apply Qle_lteq; right; change (inject_Z 5) with 5%Q; ring].
      apply Qmult_le_compat_r; [exact HB|]. apply Qmult_le_0_compat; [discriminate|]. apply Qmult_le_0_compat; apply Qlt_le_weak; assumption. }
  set (B := (inject_Z (5 * (Z.abs e + 16)) * inject_Z 2 ^ (k - 69))%Q) in *. set (sl := slack n) in *. clearbody sl h x B. clear - L2 Hb Hg. lra.
Qed.

(** ** What a check by computation shows *)
Lemma near_check_nearest s e b : near_check s e b = true -> nearest 52 11 (scaled s 10 e) b.
Proof.
  unfold near_check. set (u := Z.shiftl _ 1075). set (v := if e <? 0 then 10 ^ (- e) else 1).
  rewrite !Bool.andb_true_iff. intros (((H1 & H2) & H3) & H4). apply N.ltb_lt in H1, H2. apply Z.ltb_lt in H3, H4.
  assert (Hv : 0 < v) by (unfold v; destruct (Z.ltb_spec e 0); [apply Z.pow_pos_nonneg; lia|lia]).
  assert (HvQ := inj_pos _ Hv). set (X := (scaled s 10 e * inject_Z 2 ^ 1074)%Q).
  assert (Eu : (2 * X * inject_Z v == inject_Z u)%Q).
  { unfold X, u, scaled. rewrite inj_shiftl by discriminate. rewrite inject_Z_mult.
    change 1075 with (1074 + 1). rewrite q2add. change (inject_Z 2 ^ 1)%Q with 2%Q.
    assert (Et : (inject_Z 10 ^ e * inject_Z v == inject_Z (if e <? 0 then 1 else 10 ^ e))%Q).
    { unfold v. destruct (Z.ltb_spec e 0).
      - rewrite <- q10nonneg by lia. rewrite <- q10add, Z.add_opp_diag_r. reflexivity.
      - rewrite q10nonneg by assumption. change (inject_Z 1) with 1%Q. ring. }
    rewrite <- Et. ring. }
  apply (nearest_crit 52 11 X).
  - apply N.lt_le_incl, H2.
  - intros _. fold (dint (b - 1)) (dint b). rewrite Zlt_Qlt, inject_Z_mult, <- Eu in H3. apply (proj1 (Qmult_lt_r _ _ _ HvQ)) in H3.
    split; [apply Qlt_le_weak, H3|]. intros E. rewrite E in H3. exfalso. exact (Qlt_irrefl _ H3).
  - intros _. fold (dint (b + 1)) (dint b). rewrite Zlt_Qlt, inject_Z_mult, <- Eu in H4. apply (proj1 (Qmult_lt_r _ _ _ HvQ)) in H4.
    split; [apply Qlt_le_weak, H4|]. intros E. rewrite E in H4. exfalso. exact (Qlt_irrefl _ H4).
  - unfold X. change (funit 52 11) with (-1074). rewrite <- Qmult_assoc, <- q2add. change (inject_Z 2 ^ (1074 + -1074))%Q with 1%Q. ring.
Qed.

Lemma slow_path_reads q q' : p_neg q = p_neg q' -> p_sig q = p_sig q' -> p_exp q = p_exp q' -> slow_path q = slow_path q'.
Proof. intros H1 H2 H3. unfold slow_path. rewrite H1, H2, H3. reflexivity. Qed.

Lemma spot_result q s e : Z.of_N (p_sig q) = s -> p_exp q = e -> spot (p_neg q) s e = true ->
  exists b, slow_path q = Ok (with_sign 52 11 (p_neg q) b) /\ nearest 52 11 (scaled s 10 e) b.
Proof.
  intros Es Ee. unfold spot. rewrite <- Es at 1. rewrite N2Z.id.
  rewrite (slow_path_reads _ q) by (cbn [p_neg p_sig p_exp]; congruence).
  destruct (slow_path q) as [d| |]; try discriminate. rewrite Bool.andb_true_iff. intros (H1 & H2).
  apply N.eqb_eq in H1. eexists. split; [f_equal; symmetry; exact H1|]. apply near_check_nearest. exact H2.
Qed.

Lemma forms_spot n : forall s e, forms_ok n s e = true -> forall j s', 0 <= j <= Z.of_nat n -> s = s' * 10 ^ j ->
  forall neg, spot neg s' (e + j) = true.
Proof.
  induction n as [|n IH]; intros s e H j s' Hj Es neg; cbn [forms_ok] in H; rewrite !Bool.andb_true_iff in H; destruct H as ((H1 & H2) & H3).
  - replace j with 0 in * by lia. rewrite Z.mul_1_r in Es. rewrite Z.add_0_r, <- Es. destruct neg; assumption.
  - destruct (Z.eq_dec j 0) as [->|J].
    + rewrite Z.mul_1_r in Es. rewrite Z.add_0_r, <- Es. destruct neg; assumption.
    + assert (E10 : s = (s' * 10 ^ (j - 1)) * 10).
      { rewrite Es. replace j with (Z.succ (j - 1)) at 1 by lia. rewrite Z.pow_succ_r by lia. ring. }
      rewrite E10, Z.mod_mul, Z.div_mul in H3 by discriminate. cbn [Z.eqb] in H3.
      replace (e + j) with (e + 1 + (j - 1)) by lia. apply (IH _ _ H3 (j - 1) s'); [lia|reflexivity].
Qed.

(** Any decimal with at most 16 digits that is not too small or too large. *)
Lemma clear_16_digits s e : 0 < s < 10 ^ 16 -> (inject_Z 10 ^ (-324) <= scaled s 10 e)%Q -> (scaled s 10 e < inject_Z 10 ^ 309)%Q ->
  clear_of_halfway 52 11 (slack (Z.abs e)) (scaled s 10 e) \/ forall neg, spot neg s e = true.
Proof.
  intros Hs Hlo Hhi.
  assert (Hj : exists j, 0 <= j <= 15 /\ 10 ^ 15 <= s * 10 ^ j < 10 ^ 16).
  { clear Hlo Hhi. assert (G : forall n, (n <= 15)%nat -> forall s, 10 ^ (15 - Z.of_nat n) <= s < 10 ^ 16 ->
      exists j, 0 <= j <= Z.of_nat n /\ 10 ^ 15 <= s * 10 ^ j < 10 ^ 16).
    { clear s Hs. induction n as [|n IH]; intros Hn s Hs.
      - exists 0. change (10 ^ 0) with 1. rewrite Z.mul_1_r. split; [lia|]. rewrite Z.sub_0_r in Hs. exact Hs.
      - destruct (Z.lt_ge_cases s (10 ^ 15)) as [L|L].
        + destruct (IH ltac:(lia) (s * 10)) as (j & H1 & H2).
          { replace (15 - Z.of_nat n) with (Z.succ (15 - Z.of_nat (S n))) by lia. rewrite Z.pow_succ_r by lia.
            change (10 ^ 16) with (10 * 10 ^ 15). lia. }
          exists (j + 1). split; [lia|]. rewrite Z.pow_add_r by lia. change (10 ^ 1) with 10. rewrite (Z.mul_comm (10 ^ j)), Z.mul_assoc. exact H2.
        + exists 0. change (10 ^ 0) with 1. rewrite Z.mul_1_r. lia. }
    apply (G 15%nat); [lia|]. change (10 ^ (15 - Z.of_nat 15)) with 1. lia. }
  destruct Hj as (j & Hj & Hn).
  assert (E : (scaled s 10 e == scaled (s * 10 ^ j) 10 (e - j))%Q).
  { unfold scaled. rewrite inject_Z_mult, <- q10nonneg by lia. rewrite <- Qmult_assoc, <- q10add. replace (j + (e - j)) with e by lia. reflexivity. }
  assert (B1 : -324 < 16 + (e - j)).
  { apply q10_lt. eapply Qle_lt_trans; [exact Hlo|]. rewrite E. unfold scaled. rewrite q10add. apply Qmult_lt_compat_r; [apply q10pos|].
    rewrite q10nonneg by discriminate. rewrite <- Zlt_Qlt. lia. }
  assert (B2 : 15 + (e - j) < 309).
  { apply q10_lt. eapply Qle_lt_trans; [|exact Hhi]. rewrite E. unfold scaled. rewrite q10add. apply Qmult_le_compat_r; [|apply Qlt_le_weak, q10pos].
    rewrite q10nonneg by discriminate. rewrite <- Zle_Qle. lia. }
  destruct (clear_normal (s * 10 ^ j) (e - j) (Z.abs e) Hn ltac:(lia) ltac:(lia)) as [C|C].
  - left. intros b Hb. rewrite E. apply C. exact Hb.
  - right. intros neg. replace e with (e - j + j) by lia. apply (forms_spot 15 (s * 10 ^ j) (e - j) C j s); [lia|reflexivity].
Qed.
