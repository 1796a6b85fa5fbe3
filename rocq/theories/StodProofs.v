(** Proofs about the comparison of numbers in a diff. *)
From Coq Require Import QArith Qabs Lia.
From Verif Require Import Base Tactics JsonSpec NumSpec TokModel MapModel DiffModel StodModel StodSpec.

Lemma digitb_iff c : digitb c = true <-> is_digit c.
Proof. unfold digitb, is_digit. rewrite andb_true_iff, !N.leb_le. tauto. Qed.

Definition stops (r : bytes) : Prop := match r with [] => True | c :: _ => digitb c = false end.

Lemma span_app i r : Forall is_digit i -> stops r -> span_digits (i ++ r) = (i, r).
Proof.
  intros H Hr. induction H as [|c i Hc _ IH]; cbn [app].
  - destruct r as [|c r]; [reflexivity|]. cbn [span_digits]. cbn in Hr. rewrite Hr. reflexivity.
  - cbn [span_digits]. rewrite (proj2 (digitb_iff c) Hc), IH. reflexivity.
Qed.

Lemma digits_dec l : Forall is_digit l -> digits_number l = Z.of_N (dec_value l).
Proof.
  unfold digits_number, dec_value. intros H. change 0%Z with (Z.of_N 0). generalize 0%N as a.
  induction H as [|c l Hc _ IH]; intros a; [reflexivity|]. cbn [fold_left]. rewrite <- IH. f_equal. unfold is_digit in Hc. lia.
Qed.

(** Digits, an optional fraction and what follows. *)
Lemma strtod_parts neg i f fl r : Forall is_digit i -> i <> [] -> Forall is_digit f -> (f = [] /\ fl = [] \/ fl = x2e :: f) -> stops r ->
  (forall t, r <> x2e :: t) ->
  (let '(i', l) := span_digits (i ++ fl ++ r) in let '(f', l) := fraction_of l in
   match i' ++ f' with [] => None | ds =>
     let v := (inject_Z (digits_number ds) * inject_Z 10 ^ (exponent_of l - Z.of_nat (length f')))%Q in Some (if neg : bool then (- v)%Q else v) end) =
  Some (let v := (inject_Z (Z.of_N (dec_value (i ++ f))) * inject_Z 10 ^ (exponent_of r - Z.of_nat (length f)))%Q in if neg then (- v)%Q else v).
Proof.
  intros Hi Hn Hf Hfl Hr Hd.
  assert (S : stops (fl ++ r)) by (destruct Hfl as [[_ ->]| ->]; [exact Hr|reflexivity]).
  rewrite (span_app i _ Hi S).
  assert (F : fraction_of (fl ++ r) = (f, r)).
  { destruct Hfl as [[-> ->]| ->]; cbn [app].
    - destruct r as [|c r]; [reflexivity|]. cbn [fraction_of]. destruct (Byte.eqb c x2e) eqn:E; [|reflexivity].
      apply Byte.byte_dec_bl in E. subst c. destruct (Hd r eq_refl).
    - cbn [fraction_of Byte.eqb]. change (Byte.eqb x2e x2e) with true. cbn iota. apply span_app; assumption. }
  rewrite F, <- (digits_dec (i ++ f)) by (apply Forall_app; auto).
  destruct i as [|c i]; [congruence|]. reflexivity.
Qed.

Lemma sign_digit c r : is_digit c -> sign_of (c :: r) = (false, c :: r).
Proof.
  intros H. cbn [sign_of]. destruct (Byte.eqb c x2d) eqn:E; [apply Byte.byte_dec_bl in E; subst c; exfalso; unfold is_digit in H; cbn in H; lia|].
  destruct (Byte.eqb c x2b) eqn:E2; [apply Byte.byte_dec_bl in E2; subst c; exfalso; unfold is_digit in H; cbn in H; lia|]. reflexivity.
Qed.

Lemma exponent_ok e s d : (e = x45 \/ e = x65) -> (s = [] \/ s = [x2b] \/ s = [x2d]) -> digits1 d ->
  exponent_of (e :: s ++ d) = (if match s with [c] => Byte.eqb c x2d | _ => false end then - Z.of_N (dec_value d) else Z.of_N (dec_value d))%Z.
Proof.
  intros He Hs [Hn Hd]. assert (Sp : span_digits d = (d, [])) by (rewrite <- (app_nil_r d) at 1; apply span_app; [exact Hd|exact I]).
  assert (E : Byte.eqb e x65 || Byte.eqb e x45 = true) by (destruct He as [-> | ->]; reflexivity).
  cbn [exponent_of]. rewrite E. rewrite <- (digits_dec d Hd).
  destruct Hs as [->|[->| ->]]; cbn [app].
  - destruct d as [|c d]; [congruence|]. inversion Hd; subst. rewrite sign_digit by assumption. cbv beta iota. rewrite Sp. reflexivity.
  - change (sign_of (x2b :: d)) with (false, d). cbv beta iota. rewrite Sp. reflexivity.
  - change (sign_of (x2d :: d)) with (true, d). cbv beta iota. rewrite Sp. reflexivity.
Qed.

Lemma literal_head i fl r c t : Forall is_digit i -> (fl = [] \/ exists f, fl = x2e :: f) -> (r = [] \/ exists e q, r = e :: q /\ (e = x45 \/ e = x65)) ->
  i ++ fl ++ r = c :: t -> is_digit c -> i <> [].
Proof.
  intros _ Hfl Hr E Hc ->. cbn [app] in E. destruct Hfl as [->|(f & ->)]; cbn [app] in E.
  - destruct Hr as [->|(e & q & -> & He)]; [discriminate E|]. injection E as <- _. destruct He as [-> | ->]; unfold is_digit in Hc; cbn in Hc; lia.
  - injection E as <- _. unfold is_digit in Hc; cbn in Hc; lia.
Qed.

Lemma strtod_literal m l n p : (m = [] \/ m = [x2d]) -> (exists c r, l = c :: r /\ is_digit c) -> dec_literal l n p ->
  exists q, strtod (m ++ l) = Some q /\ (q == match m with [] => scaled n 10 p | _ => - scaled n 10 p end)%Q.
Proof.
  intros Hm (c & t & El & Hc) L.
  assert (Sg : sign_of (m ++ l) = (match m with [] => false | _ => true end, l)).
  { destruct Hm as [-> | ->]; cbn [app]; [rewrite El; apply sign_digit, Hc|reflexivity]. }
  unfold strtod. rewrite Sg. clear Sg.
  destruct L as [i f fl Hi Hf Hfl|i f fl e s d Hi Hf Hfl He Hs Hd].
  - assert (Hn : i <> []).
    { apply (literal_head i fl [] c t Hi); [destruct Hfl as [[_ ->]| ->]; eauto|auto|rewrite app_nil_r; exact El|exact Hc]. }
    replace (i ++ fl) with (i ++ fl ++ []) by (rewrite app_nil_r; reflexivity).
    rewrite (strtod_parts _ i f fl [] Hi Hn Hf Hfl I ltac:(discriminate)). eexists. split; [reflexivity|].
    cbn [exponent_of]. unfold scaled. destruct Hm as [-> | ->]; rewrite Z.sub_0_l; reflexivity.
  - assert (Hn : i <> []).
    { apply (literal_head i fl (e :: s ++ d) c t Hi); [destruct Hfl as [[_ ->]| ->]; eauto|right; eauto|exact El|exact Hc]. }
    rewrite (strtod_parts _ i f fl (e :: s ++ d) Hi Hn Hf Hfl); [|destruct He as [-> | ->]; reflexivity|intros t' [= -> _]; destruct He; discriminate].
    eexists. split; [reflexivity|]. rewrite (exponent_ok e s d He Hs Hd). unfold scaled.
    set (x := if match s with [c0] => Byte.eqb c0 x2d | _ => false end then (- Z.of_N (dec_value d))%Z else Z.of_N (dec_value d)).
    replace (x - Z.of_nat (length f))%Z with (- Z.of_nat (length f) + x)%Z by lia. destruct Hm as [-> | ->]; reflexivity.
Qed.

Lemma strtod_denotes text v : denotes_number text v -> exists q, strtod text = Some q /\ (q == v)%Q.
Proof.
  intros (m & l & n & p & -> & Hm & Hd & L).
  destruct (strtod_literal m l n p ltac:(tauto) Hd L) as (q & E & Q). exists q. split; [exact E|].
  rewrite Q. destruct Hm as [[-> H]|[-> H]]; rewrite H; reflexivity.
Qed.

Lemma erange_ok v : normal_range v -> erange v = false.
Proof.
  unfold normal_range, erange. set (big := inject_Z _). set (small := 1 # _). assert (P : (0 < big)%Q) by reflexivity. clearbody big small.
  intros [H|[H1 H2]].
  - assert (A : (Qabs v == 0)%Q) by (rewrite H; reflexivity).
    destruct (Qle_bool big (Qabs v)) eqn:E; [apply Qle_bool_iff in E; rewrite A in E; exfalso; exact (Qlt_not_le _ _ P E)|].
    apply Qeq_bool_iff in H. rewrite H. reflexivity.
  - destruct (Qle_bool big (Qabs v)) eqn:E; [apply Qle_bool_iff in E; exfalso; exact (Qlt_not_le _ _ H2 E)|].
    apply Qle_bool_iff in H1. rewrite H1. cbn [negb]. rewrite andb_false_r. reflexivity.
Qed.

Lemma erange_large v : too_large v -> erange v = true.
Proof. unfold too_large, erange. intros H. apply Qle_bool_iff in H. rewrite H. reflexivity. Qed.

Lemma normal_eq v w : (v == w)%Q -> normal_range v -> normal_range w.
Proof. unfold normal_range. intros E. rewrite E. tauto. Qed.
Lemma large_eq v w : (v == w)%Q -> too_large v -> too_large w.
Proof. unfold too_large. intros E. rewrite E. tauto. Qed.

Lemma stod_ok text v : denotes_number text v -> normal_range v -> exists q, stod text = Ok q /\ (q == v)%Q.
Proof.
  intros D R. destruct (strtod_denotes text v D) as (q & E & Q). exists q. split; [|exact Q]. unfold stod. rewrite E, erange_ok; [reflexivity|].
  apply (normal_eq v); [symmetry; exact Q|exact R].
Qed.

Lemma stod_large text v : denotes_number text v -> too_large v -> stod text = UB.
Proof.
  intros D R. destruct (strtod_denotes text v D) as (q & E & Q). unfold stod. rewrite E, erange_large; [reflexivity|].
  apply (large_eq v); [symmetry; exact Q|exact R].
Qed.

Lemma rfc_denotes text : rfc_number text -> exists v, denotes_number text v.
Proof.
  intros (m & i & f & e & -> & Hm & Hi & Hf & He).
  assert (Hid : Forall is_digit i /\ exists c r, i = c :: r /\ is_digit c).
  { destruct Hi as [->|(c & tl & -> & Hc & _ & Ht)].
    - assert (H0 : is_digit x30) by (unfold is_digit; cbn; lia). split; [constructor; [exact H0|constructor]|]. exists x30, []. auto.
    - split; [constructor; assumption|]. eauto. }
  destruct Hid as [Hid (c & r & Ei & Hc)].
  assert (L : exists n p, dec_literal (i ++ f ++ e) n p).
  { assert (F : exists f', Forall is_digit f' /\ (f' = [] /\ f = [] \/ f = x2e :: f')).
    { destruct Hf as [->|(d & -> & _ & Hd)]; [exists []; auto|exists d; auto]. }
    destruct F as (f' & Hf' & Hff). destruct He as [->|(x & s & d & -> & Hx & Hs & Hd)].
    - rewrite app_nil_r. do 2 eexists. apply (DL_plain i f' f Hid Hf' Hff).
    - do 2 eexists. apply (DL_exp i f' f x s d Hid Hf' Hff Hx Hs Hd). }
  destruct L as (n & p & L).
  assert (Hh : exists c' r', i ++ f ++ e = c' :: r' /\ is_digit c') by (rewrite Ei; cbn [app]; eauto).
  destruct Hm as [-> | ->].
  - exists (scaled n 10 p), [], (i ++ f ++ e), n, p. split; [reflexivity|]. split; [left; split; reflexivity|]. auto.
  - exists (- scaled n 10 p)%Q, [x2d], (i ++ f ++ e), n, p. split; [reflexivity|]. split; [right; split; reflexivity|]. auto.
Qed.
