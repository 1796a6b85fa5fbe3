(** parseNumber on decimal literals, and integers read from literals with a fraction or exponent. *)
From Verif Require Import Base ScanModel JsonSpec NumSpec IntModel IntProofs.
From Coq Require Import Lia ZArith.
Local Open Scope Z_scope.

Lemma uw_step w a x n v :
  uw w (uw w (a * 10 + x) * 10 ^ n + v) = uw w (a * 10 ^ (N.succ n) + (x * 10 ^ n + v))%N.
Proof.
  unfold uw. rewrite N.add_mod, (N.mul_mod (_ mod _)), N.mod_mod, <- N.mul_mod, <- N.add_mod by apply pow2_nz.
  f_equal. rewrite N.pow_succ_r'. lia.
Qed.
Lemma u8_step a n : u8 (u8 (a + 1) + n) = u8 (a + N.succ n).
Proof.
  unfold u8. rewrite N.add_mod, N.mod_mod, <- N.add_mod by discriminate. f_equal. lia.
Qed.

Lemma dec_value_cons c l : dec_value (c :: l) = ((byte_val c - 48) * 10 ^ N.of_nat (length l) + dec_value l)%N.
Proof. unfold dec_value. cbn [fold_left]. rewrite <- (N.add_0_r (0 * 10 + _)), fold_add. reflexivity. Qed.

Lemma dec_value_app2 a b : dec_value (a ++ b) = (dec_value a * 10 ^ N.of_nat (length b) + dec_value b)%N.
Proof. rewrite dec_value_app. rewrite <- (N.add_0_r (dec_value a)) at 1. apply fold_add. Qed.

(** The digits of one run. *)
Lemma parse_digits_run w nc l r dec inc : Forall is_digit l -> forall pos sig count,
  (sig < 2 ^ w)%N -> (count < 2 ^ 8)%N -> nc = true \/ (count + N.of_nat (length l) <= 19)%N ->
  parse_digits w nc (l ++ r) pos sig count dec inc =
  parse_digits w nc r (pos + length l) (uw w (sig * 10 ^ N.of_nat (length l) + dec_value l))
    (u8 (count + N.of_nat (length l))) dec inc.
Proof.
  induction 1 as [|c l Hc Hl IH]; intros pos sig count Hs Hcn Hn.
  - cbn [app length N.of_nat]. change (10 ^ 0)%N with 1%N. change (dec_value []) with 0%N.
    rewrite Nat.add_0_r, N.mul_1_r, !N.add_0_r. unfold uw, u8. rewrite !N.mod_small by assumption. reflexivity.
  - cbn [app parse_digits]. destruct (digit_no_dot c Hc) as (E1 & E2 & E3).
    rewrite (is_digit_char_true c Hc), E1. cbn [negb andb orb]. cbn [length] in Hn. rewrite Nat2N.inj_succ in Hn.
    assert (Hg : (nc || (count <? 19)%N)%bool = true).
    { destruct Hn as [->|Hn]; [reflexivity|]. apply Bool.orb_true_iff. right. apply N.ltb_lt. lia. }
    rewrite Hg. rewrite IH.
    + rewrite u8_step, uw_step. cbn [length]. rewrite Nat2N.inj_succ, Nat.add_succ_comm, dec_value_cons. reflexivity.
    + unfold uw. apply N.mod_lt, pow2_nz.
    + unfold u8. apply N.mod_lt. discriminate.
    + destruct Hn as [Hn|Hn]; [left; exact Hn|right]. unfold u8. rewrite N.mod_small; lia.
Qed.

(** What the exponent loop keeps: the value, or something as large as its bound. *)
Definition near (x v : Z) : Prop := 0 <= x < 1000000000 /\ (x = v \/ 100000000 <= x /\ 100000000 <= v).
Lemma parse_exponent_run l : Forall is_digit l -> forall pos x v asg, near x v ->
  exists x', near x' (v * 10 ^ Z.of_nat (length l) + Z.of_N (dec_value l)) /\
    parse_exponent l pos x asg = (x', match l with [] => asg | _ => true end, (pos + length l)%nat).
Proof.
  induction 1 as [|c l Hc Hl IH]; intros pos x v asg Hn.
  - exists x. cbn [parse_exponent length]. change (dec_value []) with 0%N. rewrite Nat.add_0_r. change (10 ^ Z.of_nat 0) with 1.
    change (Z.of_N 0) with 0. rewrite Z.mul_1_r, Z.add_0_r. auto.
  - cbn [parse_exponent]. rewrite (is_digit_char_true c Hc).
    assert (Hb : 0 <= Z.of_N (byte_val c - 48) <= 9) by (unfold is_digit in Hc; clear - Hc; lia).
    set (dg := Z.of_N (byte_val c - 48)) in *.
    destruct (IH (S pos) (if x <? 100000000 then x * 10 + dg else x) (v * 10 + dg) true) as (x' & Hn' & E).
    + unfold near in *. clear - Hn Hb. destruct (Z.ltb_spec x 100000000); lia.
    + exists x'. split.
      * rewrite dec_value_cons. cbn [length]. rewrite Nat2Z.inj_succ, Z.pow_succ_r by lia.
        replace (v * (10 * 10 ^ Z.of_nat (length l)) + Z.of_N ((byte_val c - 48) * 10 ^ N.of_nat (length l) + dec_value l))
          with ((v * 10 + dg) * 10 ^ Z.of_nat (length l) + Z.of_N (dec_value l)); [exact Hn'|].
        rewrite N2Z.inj_add, N2Z.inj_mul, N2Z.inj_pow, nat_N_Z. fold dg. change (Z.of_N 10) with 10. lia.
      * rewrite E. cbn [length]. rewrite Nat.add_succ_comm. destruct l; reflexivity.
Qed.

(** The text of an exponent: its sign and absolute value. *)
Definition exp_part (ex : bytes) (n : bool) (v : Z) : Prop :=
  ex = [] /\ n = false /\ v = 0 \/
  exists e s d, ex = e :: s ++ d /\ (e = x45 \/ e = x65) /\
    (s = [] /\ n = false \/ s = [x2b] /\ n = false \/ s = [x2d] /\ n = true) /\ digits1 d /\
    v = Z.of_N (dec_value d).

Lemma parse_digits_stop w nc ex n v pos sig count dec inc : exp_part ex n v ->
  parse_digits w nc ex pos sig count dec inc = Ok (PE_ok, sig, count, dec, ex, pos).
Proof.
  intros [(-> & _)|(e & s & d & -> & He & _)]; [reflexivity|]. cbn [parse_digits].
  destruct He as [->| ->]; reflexivity.
Qed.

(** H 7970-8022: the part of parseNumber behind the digits. *)
Definition parse_tail (neg : bool) (r : parse_error * N * N * Z * bytes * nat) : outcome (parse_error * parsed) :=
  let '(e, sig, count, dec, rest, pos) := r in
  match e with
  | PE_ok =>
      let base := if (0 <=? dec)%Z then (dec - Z.of_N count)%Z else 0%Z in
      match rest with
      | c :: tl =>
        if Byte.eqb c x65 || Byte.eqb c x45 then
          let pos := S pos in
          match tl with
          | [] => Ok (PE_illegal_exponent, mkParsed neg sig count 0 pos)
          | c :: tl2 =>
            let eneg := Byte.eqb c x2d in
            let sign := (eneg || Byte.eqb c x2b)%bool in
            let l := if sign then tl2 else tl in
            let pos := if sign then S pos else pos in
            match l with
            | [] => Ok (PE_illegal_exponent, mkParsed neg sig count 0 pos)
            | _ =>
              let '(exponent, assigned, pos) := parse_exponent l pos 0%Z false in
              if assigned then
                let exponent := if eneg then (- exponent)%Z else exponent in
                Ok (PE_ok, mkParsed neg sig count (base + exponent) pos)
              else Ok (PE_illegal_exponent, mkParsed neg sig count 0 pos)
            end
          end
        else Ok (PE_ok, mkParsed neg sig count base pos)
      | [] => Ok (PE_ok, mkParsed neg sig count base pos)
      end
  | _ => Ok (e, mkParsed neg sig count 0 pos)
  end.
Lemma parseNumber_eq w nc number : parseNumber w nc number =
  let start := scalar_count (fun c => negb (is_space c)) number in
  match skipn start number with
  | [] => Ok (PE_empty_string, mkParsed false 0 0 0 start)
  | c :: tl =>
    let neg := Byte.eqb c x2d in
    let* r := parse_digits w nc (if neg then tl else c :: tl) (if neg then S start else start) 0%N 0%N (-1)%Z true in
    parse_tail neg r
  end.
Proof.
  unfold parseNumber. cbv zeta. destruct (skipn _ number) as [|c tl]; [reflexivity|].
  destruct (parse_digits _ _ _ _ _ _ _ _) as [[[[[[e sig] count] dec] rest] pos]| |]; reflexivity.
Qed.

Lemma parse_tail_exp neg sig count dec ex n v pos : exp_part ex n v ->
  exists x, near x v /\
    parse_tail neg (PE_ok, sig, count, dec, ex, pos) =
    Ok (PE_ok, mkParsed neg sig count ((if 0 <=? dec then dec - Z.of_N count else 0) + (if n then - x else x))
          (pos + length ex)%nat).
Proof.
  unfold parse_tail. intros [(-> & -> & ->)|(e & s & d & -> & He & Hs & (Hdne & Hd) & ->)].
  - exists 0. split; [unfold near; lia|]. rewrite Z.add_0_r. cbn [length]. rewrite Nat.add_0_r. reflexivity.
  - assert (G : (Byte.eqb e x65 || Byte.eqb e x45)%bool = true) by (destruct He as [->| ->]; reflexivity).
    cbv zeta. rewrite G.
    destruct d as [|c0 d]; [congruence|]. assert (Hc0 := Forall_inv Hd).
    destruct (digit_no_dot c0 Hc0) as (F1 & F2 & F3).
    assert (F4 : Byte.eqb c0 x2b = false).
    { clear - Hc0. unfold is_digit in Hc0. destruct c0; cbn in Hc0; try (exfalso; lia); reflexivity. }
    assert (Hx : forall p, exists x', near x' (Z.of_N (dec_value (c0 :: d))) /\
      parse_exponent (c0 :: d) p 0 false = (x', true, (p + length (c0 :: d))%nat)).
    { intros p. destruct (parse_exponent_run (c0 :: d) Hd p 0 0 false) as (x' & Hn' & Ee); [unfold near; lia|].
      exists x'. split; [exact Hn'|exact Ee]. }
    destruct Hs as [(-> & ->)|[(-> & ->)|(-> & ->)]]; cbn [app].
    + rewrite F2, F4. cbn [orb]. destruct (Hx (S pos)) as (x & Hn & ->). exists x. split; [exact Hn|].
      cbn [length]. do 3 f_equal. lia.
    + change (Byte.eqb x2b x2d) with false. change (Byte.eqb x2b x2b) with true. cbn [orb].
      destruct (Hx (S (S pos))) as (x & Hn & ->). exists x. split; [exact Hn|].
      cbn [length]. do 3 f_equal. lia.
    + change (Byte.eqb x2d x2d) with true. cbn [orb].
      destruct (Hx (S (S pos))) as (x & Hn & ->). exists x. split; [exact Hn|].
      cbn [length]. do 3 f_equal. lia.
Qed.

Lemma parse_parts w nc (neg : bool) i f fl ex n v :
  digits1 i -> Forall is_digit f -> (f = [] /\ fl = [] \/ fl = x2e :: f) -> exp_part ex n v ->
  nc = true \/ (length (i ++ f) <= 19)%nat ->
  exists x, near x v /\
  parseNumber w nc ((if neg then [x2d] else []) ++ i ++ fl ++ ex) =
  Ok (PE_ok, mkParsed neg (uw w (dec_value (i ++ f))) (u8 (N.of_nat (length (i ++ f))))
        ((match fl with [] => 0 | _ => Z.of_N (u8 (N.of_nat (length i))) - Z.of_N (u8 (N.of_nat (length (i ++ f)))) end)
          + (if n then - x else x))
        (length ((if neg then [x2d] else []) ++ i ++ fl ++ ex))).
Proof.
  intros [Hine Hi] Hf Hfl Hex Hn.
  destruct i as [|c i]; [congruence|]. assert (Hc := Forall_inv Hi).
  destruct (digit_no_dot c Hc) as (E1 & E2 & E3).
  set (il := c :: i) in *.
  assert (Hdig : forall pos, exists dec,
    parse_digits w nc (il ++ fl ++ ex) pos 0 0 (-1) true =
      Ok (PE_ok, uw w (dec_value (il ++ f)), u8 (N.of_nat (length (il ++ f))), dec, ex,
          (pos + length il + length fl)%nat) /\
    (if 0 <=? dec then dec - Z.of_N (u8 (N.of_nat (length (il ++ f)))) else 0) =
    match fl with [] => 0 | _ => Z.of_N (u8 (N.of_nat (length il))) - Z.of_N (u8 (N.of_nat (length (il ++ f)))) end).
  { intros pos. rewrite app_length in Hn.
    rewrite parse_digits_run; [|exact Hi|apply N.neq_0_lt_0, pow2_nz|reflexivity|destruct Hn as [Hn|Hn]; [left; exact Hn|right; lia]].
    rewrite N.mul_0_l, !N.add_0_l.
    destruct Hfl as [(-> & ->)| ->].
    - exists (-1). split; [|reflexivity]. cbn [app length]. rewrite !app_nil_r, Nat.add_0_r.
      apply (parse_digits_stop _ _ _ _ _ _ _ _ _ _ Hex).
    - exists (Z.of_N (u8 (N.of_nat (length il)))). split.
      + change ((x2e :: f) ++ ex) with (x2e :: (f ++ ex)). cbn [parse_digits].
        change (is_digit_char x2e) with false. change (Byte.eqb x2e x2e) with true. cbn [negb andb Z.leb Z.compare].
        rewrite parse_digits_run.
        * rewrite (parse_digits_stop _ _ _ _ _ _ _ _ _ _ Hex). rewrite app_length, Nat2N.inj_add.
          cbn [length]. rewrite <- Nat.add_succ_comm.
          replace (uw w (uw w (dec_value il) * 10 ^ N.of_nat (length f) + dec_value f)) with (uw w (dec_value (il ++ f))).
          2:{ rewrite dec_value_app2. unfold uw. symmetry.
              rewrite N.add_mod, N.mul_mod, N.mod_mod, <- N.mul_mod, <- N.add_mod by apply pow2_nz. reflexivity. }
          replace (u8 (u8 (N.of_nat (length il)) + N.of_nat (length f))) with
             (u8 (N.of_nat (length il) + N.of_nat (length f))).
          2:{ unfold u8. symmetry. rewrite N.add_mod, N.mod_mod, <- N.add_mod by discriminate. reflexivity. }
          reflexivity.
        * exact Hf.
        * unfold uw. apply N.mod_lt, pow2_nz.
        * unfold u8. apply N.mod_lt. discriminate.
        * destruct Hn as [->|Hn]; [left; reflexivity|right]. unfold u8. rewrite N.mod_small; lia.
      + destruct (Z.leb_spec 0 (Z.of_N (u8 (N.of_nat (length il))))); [reflexivity|lia]. }
  rewrite parseNumber_eq. cbv zeta.
  assert (start : scalar_count (fun c => negb (is_space c)) ((if neg then [x2d] else []) ++ il ++ fl ++ ex) = 0%nat)
    by (destruct neg; apply start_zero; auto).
  rewrite start. cbn [skipn]. destruct neg; cbn [app].
  - change (Byte.eqb x2d x2d) with true. cbn iota.
    destruct (Hdig 1%nat) as (dec & -> & Hb). cbn [obind].
    destruct (parse_tail_exp true (uw w (dec_value (il ++ f))) (u8 (N.of_nat (length (il ++ f)))) dec ex n v
                (1 + length il + length fl) Hex) as (x & Hx & ->).
    exists x. split; [exact Hx|]. rewrite Hb. cbn [length]. rewrite !app_length. do 3 f_equal. lia.
  - unfold il. cbn [app]. rewrite E2. change (c :: i ++ fl ++ ex) with (il ++ fl ++ ex).
    destruct (Hdig 0%nat) as (dec & -> & Hb). cbn [obind].
    destruct (parse_tail_exp false (uw w (dec_value (il ++ f))) (u8 (N.of_nat (length (il ++ f)))) dec ex n v
                (0 + length il + length fl) Hex) as (x & Hx & ->).
    exists x. split; [exact Hx|]. rewrite Hb. fold il.
    match goal with |- Ok (_, mkParsed _ _ _ _ ?a) = Ok (_, mkParsed _ _ _ _ ?b) =>
      replace b with a; [reflexivity|] end.
    change (length il + length fl + length ex = length (il ++ fl ++ ex))%nat. rewrite !app_length. lia.
Qed.

(** ** Conversion to integers *)

Definition tr (m p : Z) : Z := if p <? 0 then m / 10 ^ (- p) else m * 10 ^ p.

Lemma div10_spec n : forall s, Z.of_N (div10 n s) = Z.of_N s / 10 ^ Z.of_nat n.
Proof.
  induction n as [|n IH]; intros s; cbn [div10].
  - change (10 ^ Z.of_nat 0) with 1. rewrite Z.div_1_r. reflexivity.
  - rewrite IH, N2Z.inj_div, Z.div_div by (try lia; apply Z.pow_pos_nonneg; lia).
    rewrite Nat2Z.inj_succ, Z.pow_succ_r by lia. reflexivity.
Qed.
Lemma mul10_spec w n : forall s, Z.of_N s * 10 ^ Z.of_nat n < Z.of_N (2 ^ w) -> Z.of_N (mul10 w n s) = Z.of_N s * 10 ^ Z.of_nat n.
Proof.
  induction n as [|n IH]; intros s H; cbn [mul10].
  - change (10 ^ Z.of_nat 0) with 1. lia.
  - rewrite Nat2Z.inj_succ, Z.pow_succ_r in * by lia.
    assert (0 < 10 ^ Z.of_nat n) by (apply Z.pow_pos_nonneg; lia).
    assert (Es : uw w (s * 10) = (s * 10)%N) by (unfold uw; apply N.mod_small; generalize dependent (2 ^ w)%N; intros; nia).
    rewrite Es. rewrite IH; lia.
Qed.

Lemma make_spec t sig (neg : bool) : ity_ok t -> i_signed t = true \/ neg = false ->
  make_integer_return_value t sig neg = clamp (i_bits t) (i_signed t) (if neg then - Z.of_N sig else Z.of_N sig).
Proof.
  intros Ht Hs. unfold make_integer_return_value, clamp.
  assert (Hm : i_min t = if i_signed t then - (i_max t + 1) else 0)
    by (unfold i_min, i_max; destruct (i_signed t); lia).
  assert (H0 : 0 <= i_max t).
  { unfold i_max. destruct Ht as [->|[->|[->|[->| ->]]]]; destruct (i_signed t); vm_compute; discriminate. }
  rewrite i_min_least, i_max_greatest in *. rewrite Hm. destruct (i_signed t).
  - destruct neg.
    + destruct (Z.leb_spec (greatest (i_bits t) true + 1) (Z.of_N sig)); lia.
    + destruct (Z.ltb_spec (greatest (i_bits t) true) (Z.of_N sig)); lia.
  - destruct Hs as [Hs| ->]; [discriminate|].
    destruct (Z.ltb_spec (greatest (i_bits t) false) (Z.of_N sig)); lia.
Qed.

Lemma max_digits_room t v : ity_ok t -> scale_fits (i_bits t) (i_signed t) v -> v < 10 ^ Z.of_nat (max_digits t) ->
  v < Z.of_N (2 ^ i_bits (sig_type t)).
Proof.
  destruct t as [b s]. unfold ity_ok, int_type, scale_fits. cbn [i_bits i_signed].
  intros H [Ha Hb] Hv.
  assert (K : forall m m', v < m -> (m <=? m') = true -> v < m') by (intros m m' K1 K2; apply Z.leb_le in K2; lia).
  destruct H as [E|[E|[E|[E|E]]]]; subst b.
  - destruct s; apply (K _ _ Hv); vm_compute; reflexivity.
  - destruct s; apply (K _ _ Hv); vm_compute; reflexivity.
  - destruct s; apply (K _ _ Hv); vm_compute; reflexivity.
  - destruct s; [apply (K _ _ Hv); vm_compute; reflexivity|]. destruct (Ha eq_refl eq_refl) as [H|H]; [exact H|]. exfalso.
    change (Z.of_nat (max_digits (mkIty 64 false))) with 20 in Hv. clear - H Hv. lia.
  - destruct (Hb eq_refl) as [H|H]; [destruct s; exact H|]. exfalso.
    assert (E : max_digits (mkIty 128 s) = 39%nat) by (destruct s; vm_compute; reflexivity). rewrite E in Hv. change (Z.of_nat 39) with 39 in Hv.
    clear - H Hv. lia.
Qed.

Lemma sig_type_ok t : ity_ok t -> ity_ok (sig_type t).
Proof. destruct t as [b s]. unfold ity_ok, int_type. cbn [i_bits]. intros [->|[->|[->|[->| ->]]]]; cbn; auto 6. Qed.

Lemma sig_type_range t : i_min (sig_type t) = 0 /\ i_max (sig_type t) = Z.of_N (2 ^ i_bits (sig_type t)) - 1.
Proof.
  unfold sig_type. destruct (i_bits t <=? 64)%N; [split; reflexivity|]. split; [reflexivity|].
  unfold i_max. cbn [i_signed i_bits]. rewrite N2Z.inj_pow. reflexivity.
Qed.

Lemma max_digits_le t : ity_ok t -> (max_digits t <= 39)%nat.
Proof. intros H. apply (max_digits_spec t H). Qed.

Lemma convert_ok t neg sig cnt pos e p : ity_ok t -> Z.of_N sig < digit_limit (i_bits t) ->
  i_signed t = true \/ neg = false -> p <= 0 \/ (0 < sig)%N ->
  scale_fits (i_bits t) (i_signed t) (Z.of_N sig * 10 ^ p) ->
  e = p \/ e <= -39 /\ p <= -39 \/ 40 <= e /\ 40 <= p ->
  convert_to_integer t (mkParsed neg sig cnt e pos) =
  clamp (i_bits t) (i_signed t) (if neg then - tr (Z.of_N sig) p else tr (Z.of_N sig) p).
Proof.
  intros Ht Hlt Hs Hz Hw He. unfold convert_to_integer. cbn [p_sig p_exp p_neg].
  destruct (count_chars_spec (sig_type t) (Z.of_N sig) (sig_type_ok t Ht)) as (C1 & C2 & C3).
  { destruct (sig_type_range t) as [-> ->]. rewrite (sig_limit t Ht). clear - Hlt. lia. }
  set (ch := count_chars (sig_type t) (Z.of_N sig)) in *. rewrite Z.abs_eq in * by lia.
  assert (Hcl0 : clamp (i_bits t) (i_signed t) 0 = 0).
  { unfold clamp, least, greatest. destruct Ht as [->|[->|[->|[->| ->]]]]; destruct (i_signed t); reflexivity. }
  destruct (max_digits_spec t Ht) as [Hd1 Hd2].
  unfold tr. destruct (Z.ltb_spec e 0) as [H|H].
  - assert (Hp : p < 0) by lia. destruct (Z.ltb_spec p 0); [|lia].
    destruct (Z.leb_spec (Z.of_nat ch) (- e)) as [Hc|Hc].
    + assert (Z.of_N sig / 10 ^ (- p) = 0) as ->.
      { apply Z.div_small. split; [lia|].
        assert (10 ^ Z.of_nat ch <= 10 ^ (- p)); [apply Z.pow_le_mono_r; lia|lia]. }
      destruct neg; symmetry; exact Hcl0.
    + assert (e = p) as -> by lia. rewrite make_spec by assumption.
      rewrite div10_spec, Z2Nat.id by lia. reflexivity.
  - destruct (Z.ltb_spec p 0); [lia|]. destruct (Z.ltb_spec 0 e) as [H'|H'].
    + assert (Hp : 0 < p) by lia. assert (Hpos : (0 < sig)%N) by lia.
      assert (Hlow : 10 ^ (Z.of_nat ch - 1) <= Z.of_N sig).
      { destruct (Nat.eq_dec ch 1) as [E|E]; [rewrite E; cbn; lia|apply C3; lia]. }
      destruct (Z.ltb_spec (Z.of_nat (max_digits t) - Z.of_nat ch) e) as [Hc|Hc].
      * assert (Hbig : i_max t < Z.of_N sig * 10 ^ p).
        { assert (Z.of_nat (max_digits t) <= Z.of_nat ch - 1 + p).
          { pose proof (max_digits_le t Ht). lia. }
          assert (10 ^ Z.of_nat (max_digits t) <= 10 ^ (Z.of_nat ch - 1 + p)) by (apply Z.pow_le_mono_r; lia).
          rewrite Z.pow_add_r in * by lia.
          assert (0 < 10 ^ p) by (apply Z.pow_pos_nonneg; lia). nia. }
        unfold clamp. rewrite i_min_least, i_max_greatest in *.
        assert (least (i_bits t) (i_signed t) <= 0 <= greatest (i_bits t) (i_signed t)).
        { unfold least, greatest. destruct Ht as [->|[->|[->|[->| ->]]]]; destruct (i_signed t); cbn; lia. }
        destruct neg.
        -- destruct Hs as [Hs|Hs]; [|discriminate]. rewrite Hs in *.
           assert (least (i_bits t) true = - (greatest (i_bits t) true + 1)) by (unfold least, greatest; lia).
           lia.
        -- lia.
      * assert (e = p) as -> by (pose proof (max_digits_le t Ht); lia).
        assert (Hfit : Z.of_N sig * 10 ^ p < Z.of_N (2 ^ i_bits (sig_type t))).
        { apply max_digits_room; [exact Ht|exact Hw|]. assert (Hu : Z.of_N sig * 10 ^ p < 10 ^ Z.of_nat (max_digits t)).
          { assert (10 ^ (Z.of_nat ch + p) <= 10 ^ Z.of_nat (max_digits t)) by (apply Z.pow_le_mono_r; lia).
            rewrite Z.pow_add_r in * by lia.
            assert (0 < 10 ^ p) by (apply Z.pow_pos_nonneg; lia). nia. }
          exact Hu. }
        rewrite make_spec by assumption.
        rewrite mul10_spec; rewrite Z2Nat.id by lia; [reflexivity|exact Hfit].
    + assert (e = 0) as -> by lia. assert (p = 0) as -> by lia.
      change (10 ^ 0) with 1. rewrite Z.mul_1_r. apply make_spec; assumption.
Qed.

(** ** The number a literal denotes *)
From Coq Require Import QArith Qpower Qround.
Local Open Scope Z_scope.

Lemma tr_floor m p : Qfloor (scaled m 10 p) = tr m p.
Proof.
  unfold scaled, tr. destruct (Z.ltb_spec p 0) as [H|H].
  - assert (E : (inject_Z m * inject_Z 10 ^ p == m # Z.to_pos (10 ^ (- p)))%Q).
    { assert (Hp : 0 < 10 ^ (- p)) by (apply Z.pow_pos_nonneg; lia).
      replace p with (- (- p)) at 1 by lia. rewrite Qpower_opp, <- Zpower_Qpower by lia.
      unfold Qeq, Qmult, inject_Z, Qinv. cbn [Qnum Qden].
      destruct (10 ^ (- p)) as [|q|q]; try lia. cbn [Qnum Qden]. rewrite Z.mul_1_r. reflexivity. }
    rewrite (Qfloor_comp _ _ E). unfold Qfloor. rewrite Z2Pos.id; [reflexivity|apply Z.pow_pos_nonneg; lia].
  - assert (E : (inject_Z m * inject_Z 10 ^ p == inject_Z (m * 10 ^ p))%Q).
    { rewrite inject_Z_mult, Zpower_Qpower by lia. reflexivity. }
    rewrite (Qfloor_comp _ _ E). apply Qfloor_Z.
Qed.

(** The parts of a literal that starts with a digit. *)
Lemma dec_literal_parts l m p : dec_literal l m p -> (exists c r, l = c :: r /\ is_digit c) ->
  exists i f fl ex n v, l = i ++ fl ++ ex /\ digits1 i /\ Forall is_digit f /\
    (f = [] /\ fl = [] \/ fl = x2e :: f) /\ exp_part ex n v /\ 0 <= v /\
    m = Z.of_N (dec_value (i ++ f)) /\ p = - Z.of_nat (length f) + (if n then - v else v).
Proof.
  intros H (c & r & Hl & Hc).
  assert (He : forall e, e = x45 \/ e = x65 -> ~ is_digit e).
  { intros e [->| ->]; unfold is_digit; cbn; lia. }
  assert (Hd : ~ is_digit x2e) by (unfold is_digit; cbn; lia).
  inversion H as [i f fl Hi Hf Hfl El Em Ep|i f fl e s d Hi Hf Hfl Hee Hs Hdd El Em Ep]; subst m p.
  - exists i, f, fl, [], false, 0. rewrite app_nil_r.
    split; [reflexivity|]. split.
    { split; [|exact Hi]. intros ->. rewrite <- El in Hl. destruct Hfl as [(_ & ->)| ->]; [discriminate Hl|].
      injection Hl as E1 _. subst c. exact (Hd Hc). }
    split; [exact Hf|]. split; [exact Hfl|]. split; [left; auto|]. split; [lia|]. split; [reflexivity|lia].
  - exists i, f, fl, (e :: s ++ d), (match s with [c] => Byte.eqb c x2d | _ => false end), (Z.of_N (dec_value d)).
    split; [reflexivity|]. split.
    { split; [|exact Hi]. intros ->. rewrite <- El in Hl. destruct Hfl as [(_ & ->)| ->]; cbn [app] in Hl;
      injection Hl as E1 _; subst c; [exact (He _ Hee Hc)|exact (Hd Hc)]. }
    split; [exact Hf|]. split; [exact Hfl|]. split.
    { right. exists e, s, d. split; [reflexivity|]. split; [exact Hee|]. split; [|split; [exact Hdd|reflexivity]].
      destruct Hs as [->|[->| ->]]; auto. }
    split; [lia|]. split; [reflexivity|reflexivity].
Qed.

Lemma int_to_decimal t (neg : bool) l m p : ity_ok t -> dec_literal l m p ->
  (exists c r, l = c :: r /\ is_digit c) -> (length l < 256)%nat ->
  m < digit_limit (i_bits t) -> i_signed t = true \/ neg = false -> p <= 0 \/ 0 < m ->
  scale_fits (i_bits t) (i_signed t) (m * 10 ^ p) ->
  int_to t ((if neg then [x2d] else []) ++ l) =
  Ok (NoError, clamp (i_bits t) (i_signed t)
                 (if neg then - Qfloor (scaled m 10 p) else Qfloor (scaled m 10 p))).
Proof.
  intros Ht Hl Hd Hlen Hm Hs Hz Hw.
  destruct (dec_literal_parts l m p Hl Hd) as (i & f & fl & ex & n & v & -> & Hi & Hf & Hfl & Hex & Hv & -> & ->).
  unfold int_to, to_integer.
  destruct (parse_parts (i_bits (sig_type t)) true neg i f fl ex n v Hi Hf Hfl Hex (or_introl eq_refl)) as (x & Hx & ->).
  cbn [obind p_end]. rewrite Nat.eqb_refl. rewrite tr_floor. do 2 f_equal.
  assert (Hf' : (length (i ++ f) < 256)%nat).
  { rewrite !app_length in *. destruct Hfl as [(-> & ->)| ->]; cbn [length] in *; lia. }
  assert (El : (length (i ++ f) = length i + length f)%nat) by apply app_length.
  assert (Eb : match fl with [] => 0 | _ => Z.of_N (u8 (N.of_nat (length i))) - Z.of_N (u8 (N.of_nat (length (i ++ f)))) end
               = - Z.of_nat (length f)).
  { unfold u8. rewrite !N.mod_small by (change (2 ^ 8)%N with 256%N; lia).
    destruct Hfl as [(-> & ->)| ->]; cbn [length] in *; [reflexivity|lia]. }
  rewrite Eb. unfold uw. rewrite N.mod_small by (rewrite (sig_limit t Ht); clear - Hm; lia).
  apply convert_ok; try assumption; try lia.
  unfold near in Hx. destruct n; lia.
Qed.
