(** Proofs about integer conversion. *)
From Verif Require Import Base Tactics ScanModel ScanProofs JsonSpec NumSpec IntModel.
From Coq Require Import Lia ZArith.
Local Open Scope Z_scope.

Definition ity_ok (t : ity) : Prop := int_type (i_bits t).

Lemma i_max_greatest t : i_max t = greatest (i_bits t) (i_signed t).
Proof. reflexivity. Qed.
Lemma i_min_least t : i_min t = least (i_bits t) (i_signed t).
Proof. reflexivity. Qed.

(** ** count_chars *)

Lemma pow10_mono a b : (a <= b)%nat -> pow10 a <= pow10 b.
Proof.
  intros H. destruct a as [|a], b as [|b]; cbn [pow10].
  - reflexivity.
  - change 1 with (10 ^ 0). apply Z.pow_le_mono_r; lia.
  - lia.
  - apply Z.pow_le_mono_r; lia.
Qed.

Lemma chars_in_digit_spec t : forall fuel width current, (width < fuel)%nat ->
  let r := chars_in_digit fuel width current t in
  (current <= r <= current + width)%nat /\
  (forall c, (current <= c < r)%nat -> pow10 c - 1 < t) /\
  ((r < current + width)%nat -> t <= pow10 r - 1).
Proof.
  induction fuel as [|f IH]; intros width current Hf; [lia|]. cbn [chars_in_digit].
  destruct width as [|w]; [cbn; repeat split; try lia|].
  set (width := S w) in *. set (h := Nat.div2 width).
  assert (Hh : (h < width)%nat) by (apply Nat.lt_div2; lia).
  destruct (Z.ltb_spec (pow10 (current + h) - 1) t) as [H|H].
  - destruct (IH (width - (h + 1))%nat (current + h + 1)%nat ltac:(lia)) as (H1 & H2 & H3).
    cbv zeta in *. repeat split; try lia.
    intros c Hc. destruct (Nat.lt_ge_cases c (current + h + 1)) as [Hlt|Hge]; [|apply H2; lia].
    assert (pow10 c <= pow10 (current + h)) by (apply pow10_mono; lia). lia.
  - destruct (IH h current ltac:(lia)) as (H1 & H2 & H3). cbv zeta in *. repeat split; try lia.
    + exact H2.
    + intros Hr. destruct (Nat.eq_dec (chars_in_digit f h current t) (current + h)) as [->|Hne]; [lia|].
      apply H3. lia.
Qed.

Lemma max_digits_spec t : ity_ok t ->
  (1 <= max_digits t <= 39)%nat /\ i_max t < 10 ^ Z.of_nat (max_digits t).
Proof.
  destruct t as [b s]. unfold ity_ok, int_type. cbn [i_bits].
  intros [->|[->|[->|[->| ->]]]]; destruct s; vm_compute; repeat split; try lia; intros H; discriminate H.
Qed.

Lemma iabs_spec t v : ity_ok t -> i_min t <= v <= i_max t ->
  0 <= iabs t v <= i_max t /\ (10 <= iabs t v -> Z.abs v = iabs t v \/
     v = i_min t /\ Z.abs v = iabs t v + 1) /\ (iabs t v < 10 -> Z.abs v = iabs t v).
Proof.
  intros Ht Hv. unfold iabs. destruct (i_signed t) eqn:Hs; cbn [negb].
  2:{ unfold i_min in Hv. rewrite Hs in Hv. repeat split; try lia. }
  assert (Hm : i_min t = - (i_max t + 1)) by (unfold i_min, i_max; rewrite Hs; lia).
  assert (Hb : 100 < i_max t).
  { unfold i_max. rewrite Hs. destruct Ht as [->|[->|[->|[->| ->]]]]; reflexivity. }
  destruct (Z.ltb_spec 0 v); [repeat split; lia|].
  destruct (Z.eqb_spec v (i_min t)); repeat split; lia.
Qed.

(** No power of ten lies between iabs and the absolute value. *)
Lemma min_not_pow10 t n : ity_ok t -> i_signed t = true ->
  i_max t < 10 ^ Z.of_nat n -> i_max t + 1 < 10 ^ Z.of_nat n.
Proof.
  intros Ht Hs H. assert (i_max t + 1 <> 10 ^ Z.of_nat n); [|lia]. intros E.
  unfold i_max in E, H. rewrite Hs in E, H.
  destruct (Nat.le_gt_cases n 39) as [Hn|Hn].
  - destruct Ht as [E2|[E2|[E2|[E2|E2]]]]; rewrite E2 in *;
      do 40 (destruct n as [|n]; [vm_compute in E; discriminate E|]); exfalso; clear - Hn; lia.
  - assert (10 ^ 39 <= 10 ^ Z.of_nat n) by (apply Z.pow_le_mono_r; lia).
    clear Hn H. assert (2 ^ (Z.of_N (i_bits t) - 1) < 10 ^ 39) by (destruct Ht as [->|[->|[->|[->| ->]]]]; reflexivity).
    lia.
Qed.

Lemma count_chars_spec t v : ity_ok t -> i_min t <= v <= i_max t ->
  let n := count_chars t v in
  (1 <= n <= 39)%nat /\ Z.abs v < 10 ^ Z.of_nat n /\ ((1 < n)%nat -> 10 ^ (Z.of_nat n - 1) <= Z.abs v).
Proof.
  intros Ht Hv. cbv zeta. unfold count_chars.
  destruct (iabs_spec t v Ht Hv) as (H1 & H2 & H3). destruct (max_digits_spec t Ht) as [Hd1 Hd2].
  destruct (Z.ltb_spec (iabs t v) 10) as [H|H].
  { rewrite (H3 H). cbn. lia. }
  specialize (H2 H).
  destruct (chars_in_digit_spec (iabs t v) 64 (max_digits t + 1) 0 ltac:(lia)) as (R1 & R2 & R3).
  cbv zeta in *. set (r := chars_in_digit 64 (max_digits t + 1) 0 (iabs t v)) in *.
  cbn [plus] in *.
  assert (Hr : (2 < r)%nat).
  { destruct (Nat.lt_ge_cases 2 r) as [|Hge]; [assumption|]. exfalso.
    assert (Hlt : (r < max_digits t + 1)%nat).
    { destruct (Nat.eq_dec r (max_digits t + 1)) as [E|]; [|lia].
      assert (max_digits t = 1)%nat as E2 by lia. rewrite E2 in Hd2. cbn in Hd2. lia. }
    specialize (R3 Hlt). destruct r as [|[|[|r]]]; cbn in R3; lia. }
  assert (Hup : iabs t v < 10 ^ Z.of_nat (r - 1)).
  { destruct (Nat.eq_dec r (max_digits t + 1)) as [E|Hne].
    - replace (r - 1)%nat with (max_digits t) by lia. lia.
    - specialize (R3 ltac:(lia)). destruct r as [|r']; [lia|]. cbn [pow10] in R3.
      replace (S r' - 1)%nat with r' by lia. lia. }
  assert (Hlo : 10 ^ (Z.of_nat (r - 1) - 1) <= iabs t v).
  { specialize (R2 (r - 1)%nat ltac:(lia)). destruct (r - 1)%nat as [|q] eqn:Eq; [lia|]. cbn [pow10] in R2.
    replace (Z.of_nat (S q) - 1) with (Z.of_nat q) by lia. lia. }
  split; [lia|]. destruct H2 as [->|[Hmin ->]]; [split; [exact Hup|intros _; exact Hlo]|].
  split; [|lia].
  assert (Hs : i_signed t = true).
  { destruct (i_signed t) eqn:Es; [reflexivity|]. unfold i_min, iabs in *. rewrite Es in *. cbn in H. lia. }
  assert (iabs t v = i_max t).
  { subst v. unfold iabs in *. rewrite Hs in *. cbn [negb] in *.
    assert (i_min t = - (i_max t + 1)) by (unfold i_min, i_max; rewrite Hs; lia).
    destruct (0 <? i_min t) eqn:E0; [apply Z.ltb_lt in E0; lia|]. rewrite Z.eqb_refl. lia. }
  rewrite H0 in *. apply min_not_pow10; assumption.
Qed.

(** ** Writing digits *)

Lemma dec_value_app a b : dec_value (a ++ b) =
  fold_left (fun a c => a * 10 + (byte_val c - 48))%N b (dec_value a).
Proof. unfold dec_value. apply fold_left_app. Qed.

Lemma dec_value_snoc l c : dec_value (l ++ [c]) = (dec_value l * 10 + (byte_val c - 48))%N.
Proof. rewrite dec_value_app. reflexivity. Qed.

Lemma digit_char_spec d : 0 <= d < 10 -> is_digit (digit_char d) /\ Z.of_N (byte_val (digit_char d) - 48) = d.
Proof.
  intros H. assert (d = 0 \/ d = 1 \/ d = 2 \/ d = 3 \/ d = 4 \/ d = 5 \/ d = 6 \/ d = 7 \/ d = 8 \/ d = 9) as Hd by lia.
  unfold is_digit. repeat (destruct Hd as [->|Hd]; [vm_compute; repeat split; discriminate|]).
  subst. vm_compute. repeat split; discriminate.
Qed.

Lemma write_neg n : forall x acc, 0 <= x -> write_digits n true (- x) acc = write_digits n false x acc.
Proof.
  induction n as [|n IH]; intros x acc Hx; [reflexivity|]. cbn [write_digits].
  rewrite Z.rem_opp_l, Z.quot_opp_l by lia. rewrite Z.opp_involutive. apply IH.
  apply Z.quot_pos; lia.
Qed.

Lemma write_spec n : forall x acc, 0 <= x < 10 ^ Z.of_nat n ->
  exists d, write_digits n false x acc = d ++ acc /\ length d = n /\ Forall is_digit d /\
            Z.of_N (dec_value d) = x.
Proof.
  induction n as [|n IH]; intros x acc Hx.
  - exists []. cbn in *. repeat split; auto. lia.
  - cbn [write_digits]. rewrite Z.quot_div_nonneg, Z.rem_mod_nonneg by lia.
    rewrite Nat2Z.inj_succ, Z.pow_succ_r in Hx by lia.
    assert (Hm := Z.mod_pos_bound x 10 ltac:(lia)).
    destruct (digit_char_spec (x mod 10) Hm) as [Hd1 Hd2].
    destruct (IH (x / 10) (digit_char (x mod 10) :: acc)) as (d & E & El & Ef & Ev).
    { split; [apply Z.div_pos; lia|]. apply Z.div_lt_upper_bound; lia. }
    rewrite E. exists (d ++ [digit_char (x mod 10)]). split; [rewrite <- app_assoc; reflexivity|].
    split; [rewrite app_length; cbn; lia|]. split; [apply Forall_app; auto|].
    rewrite dec_value_snoc, N2Z.inj_add, N2Z.inj_mul, Ev, Hd2. cbn [Z.of_N].
    rewrite (Z.div_mod x 10) at 3 by lia. lia.
Qed.

(** The first digit is not 0 when there are several. *)
Lemma dec_value_bound l : Forall is_digit l -> (Z.of_N (dec_value l) < 10 ^ Z.of_nat (length l)).
Proof.
  induction l as [|c l IH] using rev_ind; intros H; [cbn; lia|].
  apply Forall_app in H. destruct H as [H1 H2]. inversion H2 as [|? ? Hc _]; subst. unfold is_digit in Hc.
  rewrite dec_value_snoc, app_length, N2Z.inj_add, N2Z.inj_mul. cbn [length Z.of_N].
  rewrite Nat2Z.inj_add, Z.pow_add_r by lia. specialize (IH H1). cbn [Z.of_nat]. change (10 ^ Z.of_nat 1) with 10. lia.
Qed.

Lemma dec_value_zero_head c l : byte_val c = 48%N -> dec_value (c :: l) = dec_value l.
Proof. intros H. unfold dec_value. cbn [fold_left]. rewrite H. reflexivity. Qed.

Lemma canonical_digits d n :
  length d = n -> Forall is_digit d -> (1 <= n)%nat ->
  ((1 < n)%nat -> 10 ^ (Z.of_nat n - 1) <= Z.of_N (dec_value d)) -> rfc_int d.
Proof.
  intros Hl Hd Hn Hlo. destruct d as [|c d]; [cbn in Hl; lia|].
  inversion Hd as [|? ? Hc Hd']; subst.
  destruct (Byte.eqb c x30) eqn:E.
  - apply Byte.byte_dec_bl in E. subst c. destruct d as [|c2 d]; [left; reflexivity|]. exfalso.
    specialize (Hlo ltac:(cbn; lia)). rewrite dec_value_zero_head in Hlo by reflexivity.
    assert (B := dec_value_bound _ Hd'). cbn [length] in *.
    replace (Z.of_nat (S (S (length d))) - 1) with (Z.of_nat (S (length d))) in Hlo by lia. lia.
  - right. exists c, d. repeat split; auto; try apply Hc. intros ->. discriminate E.
Qed.

(** The text written for [v]. *)
Lemma int_from_spec t v : ity_ok t -> i_min t <= v <= i_max t ->
  exists d, rfc_int d /\ Z.of_N (dec_value d) = Z.abs v /\
    int_from t v = Some (if v <? 0 then x2d :: d else d).
Proof.
  intros Ht Hv. destruct (count_chars_spec t v Ht Hv) as (C1 & C2 & C3). cbv zeta in *.
  unfold int_from, int_to_buffer.
  assert (Hneg : i_signed t && (v <? 0) = (v <? 0)).
  { destruct (i_signed t) eqn:E; [reflexivity|]. unfold i_min in Hv. rewrite E in Hv.
    symmetry. apply Z.ltb_ge. lia. }
  rewrite Hneg. set (n := count_chars t v) in *.
  assert (Hrem : (0 <? Z.of_nat n - (if v <? 0 then 40 - 1 else 40)) = false)
    by (apply Z.ltb_ge; destruct (v <? 0); lia).
  rewrite Hrem, Nat2Z.id.
  destruct (write_spec n (Z.abs v) [] ltac:(lia)) as (d & E & El & Ed & Ev). rewrite app_nil_r in E.
  assert (Hw : write_digits n (v <? 0) v [] = d).
  { destruct (Z.ltb_spec v 0) as [Hlt|Hge].
    - replace v with (- Z.abs v) by lia. rewrite write_neg by lia. exact E.
    - replace (Z.abs v) with v in E by lia. exact E. }
  rewrite Hw. exists d.
  assert (Hr : rfc_int d) by (apply (canonical_digits d n); auto; rewrite ?Ev; auto; lia).
  split; [exact Hr|]. split; [exact Ev|].
  destruct (v <? 0); cbn [app length]; (destruct (Z.leb_spec (Z.of_nat (length d)) 0) as [Hz|Hz] || idtac).
  all: rewrite ?El; cbn [Z.eqb negb orb].
  - exfalso. lia.
  - destruct (Z.leb_spec (Z.of_nat (S n)) 0); [lia|reflexivity].
  - exfalso. lia.
  - destruct (Z.leb_spec (Z.of_nat n) 0); [lia|reflexivity].
Qed.

(** ** Parsing digits *)

Lemma is_digit_char_true c : is_digit c -> is_digit_char c = true.
Proof.
  unfold is_digit, is_digit_char, in_range. intros [H1 H2]. apply andb_true_intro. split; apply N.leb_le; lia.
Qed.

Lemma digit_no_dot c : is_digit c -> Byte.eqb c x2e = false /\ Byte.eqb c x2d = false /\ is_space c = false.
Proof. unfold is_digit. intros H. destruct c; cbn in H; try (exfalso; lia); repeat split. Qed.

Lemma fold_add l : forall a b : N,
  fold_left (fun a c => a * 10 + (byte_val c - 48))%N l (a + b)%N =
  (a * 10 ^ N.of_nat (length l) + fold_left (fun a c => a * 10 + (byte_val c - 48))%N l b)%N.
Proof.
  induction l as [|c l IH]; intros a b; cbn [fold_left length]; [rewrite N.mul_1_r; reflexivity|].
  replace ((a + b) * 10 + (byte_val c - 48))%N with (a * 10 + (b * 10 + (byte_val c - 48)))%N by lia.
  rewrite IH, Nat2N.inj_succ, N.pow_succ_r' by lia. lia.
Qed.

Lemma pow2_nz w : (2 ^ w <> 0)%N.
Proof. apply N.pow_nonzero. discriminate. Qed.

Lemma parse_digits_all w l : Forall is_digit l -> forall pos sig count inc,
  parse_digits w true l pos sig count (-1) inc =
  Ok (PE_ok, match l with [] => sig | _ => uw w (sig * 10 ^ N.of_nat (length l) + dec_value l) end,
      fold_left (fun n _ => u8 (n + 1)) l count, -1, [], (pos + length l)%nat).
Proof.
  induction 1 as [|c l Hc Hl IH]; intros pos sig count inc; cbn [parse_digits].
  - cbn [fold_left length]. rewrite Nat.add_0_r. reflexivity.
  - destruct (digit_no_dot c Hc) as (E1 & E2 & E3). rewrite (is_digit_char_true c Hc), E1. cbn [negb andb orb].
    rewrite IH. cbn [length fold_left]. rewrite Nat.add_succ_comm. do 4 f_equal.
    assert (Hv : dec_value (c :: l) = ((byte_val c - 48) * 10 ^ N.of_nat (length l) + dec_value l)%N).
    { unfold dec_value. cbn [fold_left]. rewrite <- (N.add_0_r (0 * 10 + _)), fold_add. reflexivity. }
    rewrite Hv, Nat2N.inj_succ, N.pow_succ_r' by lia. unfold uw.
    destruct l as [|c2 l2].
    + f_equal. cbn [length N.of_nat]. change (10 ^ 0)%N with 1%N. change (dec_value []) with 0%N. do 2 f_equal. lia.
    + set (l := c2 :: l2) in *. f_equal.
      rewrite N.add_mod, (N.mul_mod (_ mod _)), N.mod_mod, <- N.mul_mod, <- N.add_mod by apply pow2_nz.
      do 2 f_equal. lia.
Qed.

Lemma start_zero c l : is_space c = false ->
  scalar_count (fun c => negb (is_space c)) (c :: l) = 0%nat.
Proof. intros H. cbn [scalar_count]. rewrite H. reflexivity. Qed.

(** parseNumber on an integer literal. *)
Lemma parse_literal w (neg : bool) d : digits1 d ->
  exists count, parseNumber w true (if neg then x2d :: d else d) =
    Ok (PE_ok, mkParsed neg (uw w (dec_value d)) count 0 (length (if neg then x2d :: d else d))).
Proof.
  intros [Hne Hd]. unfold parseNumber.
  destruct d as [|c d]; [congruence|]. inversion Hd as [|? ? Hc _]; subst.
  destruct (digit_no_dot c Hc) as (E1 & E2 & E3).
  assert (start : scalar_count (fun c => negb (is_space c)) (if neg then x2d :: c :: d else c :: d) = 0%nat)
    by (destruct neg; apply start_zero; auto).
  rewrite start. cbn [skipn].
  assert (G := parse_digits_all w (c :: d) Hd).
  destruct neg.
  - change (Byte.eqb x2d x2d) with true. cbn iota. rewrite G. cbn [obind Z.leb Z.compare N.mul]. cbn [N.add].
    eexists. reflexivity.
  - rewrite E2. rewrite G. cbn [obind Z.leb Z.compare N.mul]. cbn [N.add]. eexists. reflexivity.
Qed.

Lemma sig_limit t : ity_ok t -> (2 ^ i_bits (sig_type t))%N = Z.to_N (digit_limit (i_bits t)).
Proof. destruct t as [b s]. unfold ity_ok, int_type. cbn [i_bits]. intros [->|[->|[->|[->| ->]]]]; reflexivity. Qed.

(** Reading an integer literal whose digits fit the significand, except negative ones into unsigned types. *)
Lemma int_to_literal t (neg : bool) d : ity_ok t -> digits1 d -> Z.of_N (dec_value d) < digit_limit (i_bits t) ->
  int_to t (if neg then x2d :: d else d) =
    Ok (NoError, if i_signed t then clamp (i_bits t) true (if neg then - Z.of_N (dec_value d) else Z.of_N (dec_value d))
                 else clamp (i_bits t) false (Z.of_N (dec_value d))).
Proof.
  intros Ht Hd Hlt. unfold int_to, to_integer.
  destruct (parse_literal (i_bits (sig_type t)) neg d Hd) as (count & ->). cbn [obind p_end]. rewrite Nat.eqb_refl.
  f_equal. f_equal. unfold convert_to_integer. cbn [p_exp p_sig p_neg Z.ltb Z.compare].
  unfold uw. rewrite N.mod_small by (rewrite sig_limit by exact Ht; clear - Hlt; lia). unfold make_integer_return_value, clamp.
  assert (Hm : i_min t = if i_signed t then - (i_max t + 1) else 0)
    by (unfold i_min, i_max; destruct (i_signed t); lia).
  assert (H0 : 0 <= i_max t).
  { unfold i_max. destruct Ht as [->|[->|[->|[->| ->]]]]; destruct (i_signed t); vm_compute; discriminate. }
  rewrite i_min_least, i_max_greatest in *. destruct (i_signed t).
  - rewrite Hm. destruct neg.
    + destruct (Z.leb_spec (greatest (i_bits t) true + 1) (Z.of_N (dec_value d))); lia.
    + destruct (Z.ltb_spec (greatest (i_bits t) true) (Z.of_N (dec_value d))); lia.
  - rewrite Hm. destruct (Z.ltb_spec (greatest (i_bits t) false) (Z.of_N (dec_value d))); lia.
Qed.

Lemma rfc_int_digits d : rfc_int d -> digits1 d.
Proof.
  intros [->|(c & tl & -> & Hc & _ & Ht)]; split; try discriminate.
  - constructor; [|constructor]. unfold is_digit. vm_compute. split; discriminate.
  - constructor; assumption.
Qed.

Lemma int_round_trip t v : ity_ok t -> i_min t <= v <= i_max t ->
  exists text, int_from t v = Some text /\ rfc_number text /\ int_to t text = Ok (NoError, v).
Proof.
  intros Ht Hv. destruct (int_from_spec t v Ht Hv) as (d & Hr & Ev & E).
  exists (if v <? 0 then x2d :: d else d). split; [exact E|]. split.
  - exists (if v <? 0 then [x2d] else []), d, [], [].
    split; [rewrite !app_nil_r; destruct (v <? 0); reflexivity|].
    split; [destruct (v <? 0); auto|]. split; [exact Hr|]. split; left; reflexivity.
  - assert (Hlt : Z.of_N (dec_value d) < digit_limit (i_bits t)).
    { rewrite Ev. unfold i_min, i_max in Hv. destruct Ht as [Hb|[Hb|[Hb|[Hb|Hb]]]]; rewrite Hb in *; destruct (i_signed t);
        cbn in Hv |- *; lia. }
    rewrite int_to_literal by auto using rfc_int_digits. rewrite i_min_least, i_max_greatest in Hv.
    f_equal. f_equal. destruct (i_signed t) eqn:Hs; unfold clamp.
    + destruct (Z.ltb_spec v 0); rewrite Ev; lia.
    + unfold least in *. rewrite Ev. lia.
Qed.

(** The text is never longer than the buffer of the handler. *)
Lemma int_from_length t v text : ity_ok t -> i_min t <= v <= i_max t -> int_from t v = Some text -> (length text <= 40)%nat.
Proof.
  intros Ht Hv H. destruct (count_chars_spec t v Ht Hv) as (C1 & C2 & C3). cbv zeta in *.
  assert (L : forall n b x acc, length (write_digits n b x acc) = (n + length acc)%nat).
  { induction n as [|n IH]; intros b x acc; cbn [write_digits]; [reflexivity|]. rewrite IH. cbn [length]. lia. }
  unfold int_from, int_to_buffer in H. cbv zeta in H. set (neg := (i_signed t && (v <? 0))%bool) in *.
  assert (Hneg : (length (if neg then [x2d] else []) <= 1)%nat) by (destruct neg; cbn; lia).
  destruct (0 <? Z.of_nat (count_chars t v) - (if neg then 40 - 1 else 40)) eqn:E.
  - apply Z.ltb_lt in E. destruct (_ || _)%bool eqn:Eb; [discriminate H|]. apply Bool.orb_false_iff in Eb. destruct Eb as [_ Eb].
    apply Bool.negb_false_iff, Z.eqb_eq in Eb. lia.
  - destruct (_ || _)%bool; [discriminate H|]. injection H as <-. rewrite app_length, L, Nat2Z.id. cbn [length]. lia.
Qed.
