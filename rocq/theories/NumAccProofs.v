(** Proofs about the texts that parseNumber accepts. *)
From Verif Require Import Base ScanModel JsonSpec NumSpec NumAccSpec IntModel IntProofs NumParse.
From Coq Require Import Lia ZArith.
Local Open Scope Z_scope.

Lemma is_digit_char_iff c : is_digit_char c = true <-> is_digit c.
Proof.
  split; [|apply is_digit_char_true]. unfold is_digit_char, is_digit, in_range. rewrite Bool.andb_true_iff, !N.leb_le. tauto.
Qed.
Lemma byte_eqb_iff a b : Byte.eqb a b = true <-> a = b.
Proof. split; [apply Byte.byte_dec_bl|intros ->; apply Byte.byte_dec_lb; reflexivity]. Qed.

(** The exponent digits. *)
Lemma parse_exponent_end : forall l pos x a x' a' p, parse_exponent l pos x a = (x', a', p) ->
  (p <= pos + length l)%nat /\ (p = (pos + length l)%nat -> Forall is_digit l) /\ (a' = true -> a = true \/ exists c tl, l = c :: tl /\ is_digit c).
Proof.
  induction l as [|c l IH]; intros pos x a x' a' p; cbn [parse_exponent length].
  - intros [= <- <- <-]. split; [lia|]. split; [constructor|auto].
  - destruct (is_digit_char c) eqn:D.
    + intros E. apply IH in E. destruct E as (E1 & E2 & E3). apply is_digit_char_iff in D. split; [lia|].
      split; [intros P; constructor; [exact D|apply E2; lia]|]. intros _. right. eauto.
    + intros [= <- <- <-]. split; [lia|]. split; [lia|auto].
Qed.

(** What the digit loop leaves. *)
Lemma parse_digits_shape w nc : forall l pos sig count dec inc s' c' d' rest p,
  parse_digits w nc l pos sig count dec inc = Ok (PE_ok, s', c', d', rest, p) ->
  exists i fl, l = i ++ fl ++ rest /\ Forall is_digit i /\ p = (pos + length (i ++ fl))%nat /\
    (fl = [] \/ dec < 0 /\ exists f, fl = x2e :: f /\ Forall is_digit f).
Proof.
  induction l as [|c l IH]; intros pos sig count dec inc s' c' d' rest p; cbn [parse_digits].
  - intros [= _ _ _ <- <-]. exists [], []. cbn. repeat split; auto.
  - destruct (is_digit_char c) eqn:D; cbn [negb andb].
    + assert (Dg := proj1 (is_digit_char_iff c) D). destruct (digit_no_dot c Dg) as (-> & _ & _).
      assert (K : forall s c0 i0, parse_digits w nc l (S pos) s c0 dec i0 = Ok (PE_ok, s', c', d', rest, p) ->
        exists i fl, c :: l = i ++ fl ++ rest /\ Forall is_digit i /\ p = (pos + length (i ++ fl))%nat /\
          (fl = [] \/ dec < 0 /\ exists f, fl = x2e :: f /\ Forall is_digit f)).
      { intros s c0 i0 E. apply IH in E. destruct E as (i & fl & -> & Hi & -> & Hf). exists (c :: i), fl.
        cbn [app length]. split; [reflexivity|]. split; [constructor; assumption|]. split; [lia|exact Hf]. }
      destruct (nc || (count <? 19)%N); [apply K|]. destruct (inc && (count <? 20)%N); [|apply K].
      destruct (sig =? 0)%N; [discriminate|]. destruct (10 <=? _)%N; apply K.
    + destruct (Byte.eqb c x2e) eqn:Q; cbn [negb].
      * apply byte_eqb_iff in Q. subst c. destruct (Z.leb_spec 0 dec); [discriminate|]. intros E. apply IH in E.
        destruct E as (i & fl & -> & Hi & -> & Hf). exists [], (x2e :: i).
        assert (fl = []) as -> by (destruct Hf as [Hf|(Hf & _)]; [exact Hf|lia]).
        rewrite app_nil_r. cbn. split; [reflexivity|]. split; [constructor|]. split; [lia|]. right. split; [lia|]. eauto.
      * intros [= _ _ _ <- <-]. exists [], []. cbn. repeat split; auto.
Qed.

(** A text without a second dot passes the digit loop, or the loop divides by zero. *)
Lemma parse_digits_pass w nc fl rest :
  (forall c tl, rest = c :: tl -> is_digit_char c = false /\ Byte.eqb c x2e = false) ->
  forall i pos sig count dec inc r,
  Forall is_digit i -> (fl = [] \/ dec < 0 /\ exists f, fl = x2e :: f /\ Forall is_digit f) ->
  parse_digits w nc (i ++ fl ++ rest) pos sig count dec inc = Ok r ->
  exists s' c' d', r = (PE_ok, s', c', d', rest, (pos + length (i ++ fl))%nat).
Proof.
  intros Hr.
  assert (B : forall i pos sig count dec inc r, Forall is_digit i ->
    parse_digits w nc (i ++ rest) pos sig count dec inc = Ok r ->
    exists s' c' d', r = (PE_ok, s', c', d', rest, (pos + length i)%nat)).
  { induction i as [|c i IH]; intros pos sig count dec inc r Hi.
    - cbn [app length]. rewrite Nat.add_0_r. destruct rest as [|c tl]; cbn [parse_digits].
      + intros [= <-]. eauto.
      + destruct (Hr c tl eq_refl) as (-> & ->). cbn [negb andb]. intros [= <-]. eauto.
    - cbn [app length parse_digits]. assert (Dg := Forall_inv Hi). apply Forall_inv_tail in Hi.
      rewrite (is_digit_char_true c Dg). destruct (digit_no_dot c Dg) as (-> & _ & _). cbn [negb andb].
      rewrite <- Nat.add_succ_comm.
      destruct (nc || (count <? 19)%N); [apply IH; exact Hi|]. destruct (inc && (count <? 20)%N); [|apply IH; exact Hi].
      destruct (sig =? 0)%N; [discriminate|]. destruct (10 <=? _)%N; apply IH; exact Hi. }
  induction i as [|c i IH]; intros pos sig count dec inc r Hi Hf.
  - destruct Hf as [->|(Hd & f & -> & Hf)].
    + apply (B []). constructor.
    + cbn [app parse_digits]. change (is_digit_char x2e) with false. change (Byte.eqb x2e x2e) with true. cbn [negb andb].
      destruct (Z.leb_spec 0 dec); [lia|]. intros E. apply B in E; [|exact Hf]. destruct E as (a & b & d & ->).
      exists a, b, d. f_equal. cbn [app length]. lia.
  - cbn [app length parse_digits]. assert (Dg := Forall_inv Hi). apply Forall_inv_tail in Hi.
    rewrite (is_digit_char_true c Dg). destruct (digit_no_dot c Dg) as (-> & _ & _). cbn [negb andb].
    rewrite <- Nat.add_succ_comm.
    destruct (nc || (count <? 19)%N); [apply IH; assumption|]. destruct (inc && (count <? 20)%N); [|apply IH; assumption].
    destruct (sig =? 0)%N; [discriminate|]. destruct (10 <=? _)%N; apply IH; assumption.
Qed.

(** The part behind the digits reaches the end of the text exactly for an exponent. *)
Lemma parse_tail_all neg sig count dec rest pos p : parse_tail neg (PE_ok, sig, count, dec, rest, pos) = Ok (PE_ok, p) ->
  p_end p = (pos + length rest)%nat -> exists n v, exp_part rest n v.
Proof.
  unfold parse_tail. cbv zeta. destruct rest as [|c tl].
  - intros _ _. exists false, 0. left. auto.
  - destruct (Byte.eqb c x65 || Byte.eqb c x45)%bool eqn:Ee.
    2:{ intros [= <-]. cbn [p_end length]. lia. }
    assert (He : c = x45 \/ c = x65).
    { apply Bool.orb_true_iff in Ee. rewrite !byte_eqb_iff in Ee. tauto. }
    destruct tl as [|c2 tl2]; [discriminate|].
    destruct (Byte.eqb c2 x2d || Byte.eqb c2 x2b)%bool eqn:Sg.
    + destruct tl2 as [|c3 l3]; [discriminate|].
      destruct (parse_exponent (c3 :: l3) (S (S pos)) 0 false) as [[x' a'] q] eqn:PE. destruct a'; [|discriminate].
      intros [= <-]. cbn [p_end length]. intros Q. apply parse_exponent_end in PE. destruct PE as (_ & P2 & _).
      cbn [length] in P2. assert (Dg : Forall is_digit (c3 :: l3)) by (apply P2; lia).
      assert (D1 : digits1 (c3 :: l3)) by (split; [discriminate|exact Dg]).
      apply Bool.orb_true_iff in Sg. rewrite !byte_eqb_iff in Sg. destruct Sg as [->| ->].
      * exists true, (Z.of_N (dec_value (c3 :: l3))). right. exists c, [x2d], (c3 :: l3). repeat split; auto; apply D1.
      * exists false, (Z.of_N (dec_value (c3 :: l3))). right. exists c, [x2b], (c3 :: l3). repeat split; auto; apply D1.
    + destruct (parse_exponent (c2 :: tl2) (S pos) 0 false) as [[x' a'] q] eqn:PE. destruct a'; [|discriminate].
      intros [= <-]. cbn [p_end length]. intros Q. apply parse_exponent_end in PE. destruct PE as (_ & P2 & _).
      cbn [length] in P2. assert (Dg : Forall is_digit (c2 :: tl2)) by (apply P2; lia).
      exists false, (Z.of_N (dec_value (c2 :: tl2))). right. exists c, [], (c2 :: tl2).
      split; [reflexivity|]. split; [exact He|]. split; [auto|]. split; [split; [discriminate|exact Dg]|reflexivity].
Qed.
Lemma parse_tail_error neg e sig count dec rest pos p : parse_tail neg (e, sig, count, dec, rest, pos) = Ok (PE_ok, p) -> e = PE_ok.
Proof. unfold parse_tail. destruct e; [reflexivity|intros [= ?]..]. Qed.

(** Literals, taken apart. *)
Lemma dec_literal_parts l : (exists m p, dec_literal l m p) <->
  exists i fl ex, l = i ++ fl ++ ex /\ Forall is_digit i /\ (fl = [] \/ exists f, fl = x2e :: f /\ Forall is_digit f) /\ exists n v, exp_part ex n v.
Proof.
  split.
  - intros (m & p & [i f fl Hi Hf Hfl|i f fl e s d Hi Hf Hfl He Hs Hd]).
    + exists i, fl, []. rewrite app_nil_r. split; [reflexivity|]. split; [exact Hi|].
      split; [destruct Hfl as [(_ & ->)| ->]; eauto|]. exists false, 0. left. auto.
    + exists i, fl, (e :: s ++ d). split; [reflexivity|]. split; [exact Hi|].
      split; [destruct Hfl as [(_ & ->)| ->]; eauto|].
      destruct Hs as [->|[->| ->]]; [exists false|exists false|exists true]; exists (Z.of_N (dec_value d)); right;
        do 3 eexists; repeat split; try apply Hd; try exact He; auto.
  - intros (i & fl & ex & -> & Hi & Hfl & n & v & Hex).
    assert (exists f, (f = [] /\ fl = [] \/ fl = x2e :: f) /\ Forall is_digit f) as (f & Hf & Hff).
    { destruct Hfl as [->|(f & -> & Hf)]; [exists []|exists f]; auto. }
    destruct Hex as [(-> & _)|(e & s & d & -> & He & Hs & Hd & _)].
    + rewrite app_nil_r. do 2 eexists. apply (DL_plain i f fl); assumption.
    + do 2 eexists. apply (DL_exp i f fl e s d); auto. destruct Hs as [(-> & _)|[(-> & _)|(-> & _)]]; auto.
Qed.

(** White space in front. *)
Lemma is_space_iff c : is_space c = true <-> white c.
Proof.
  unfold is_space, white. rewrite existsb_exists. split.
  - intros (x & Hx & E). apply byte_eqb_iff in E. subst x. exact Hx.
  - intros H. exists c. split; [exact H|apply byte_eqb_iff; reflexivity].
Qed.
Lemma skip_white l : exists w, Forall white w /\ length w = scalar_count (fun c => negb (is_space c)) l /\
  l = w ++ skipn (length w) l /\ forall c tl, skipn (length w) l = c :: tl -> ~ white c.
Proof.
  induction l as [|c l (w & Hw & Lw & El & Hn)].
  - exists []. repeat split; [constructor|]. cbn. discriminate.
  - cbn [scalar_count]. destruct (is_space c) eqn:Sp; cbn [negb].
    + exists (c :: w). split; [constructor; [apply is_space_iff; exact Sp|exact Hw]|]. cbn [length app skipn].
      split; [lia|]. split; [f_equal; exact El|exact Hn].
    + exists []. cbn. repeat split; [constructor|]. intros c' tl [= <- <-] W. apply is_space_iff in W. congruence.
Qed.
Lemma white_split w w' r r' : Forall white w -> Forall white w' -> w ++ r = w' ++ r' ->
  (forall c tl, r = c :: tl -> ~ white c) -> (forall c tl, r' = c :: tl -> ~ white c) -> w = w' /\ r = r'.
Proof.
  revert w'. induction w as [|c w IH]; intros w' Hw Hw' E N N'; destruct w' as [|c' w']; cbn in E.
  - auto.
  - subst r. exfalso. exact (N c' _ eq_refl (Forall_inv Hw')).
  - subst r'. exfalso. exact (N' c _ eq_refl (Forall_inv Hw)).
  - injection E as -> E. destruct (IH w' (Forall_inv_tail Hw) (Forall_inv_tail Hw') E N N') as (-> & ->). auto.
Qed.

Lemma digit_not_white c : is_digit c -> ~ white c.
Proof. unfold is_digit, white. intros D W. repeat (destruct W as [<-|W]; [cbn in D; lia|]). destruct W. Qed.
Lemma literal_head l c tl : (exists m p, dec_literal l m p) -> l = c :: tl -> ~ white c /\ c <> x2d.
Proof.
  intros H ->. apply dec_literal_parts in H. destruct H as (i & fl & ex & E & Hi & Hfl & n & v & Hex).
  destruct i as [|c0 i]; cbn [app] in E.
  2:{ injection E as <- _. apply Forall_inv in Hi. split; [apply digit_not_white, Hi|]. intros ->. unfold is_digit in Hi. cbn in Hi. lia. }
  destruct Hfl as [->|(f & -> & _)]; cbn [app] in E.
  2:{ injection E as -> _. split; [|discriminate]. intros W. repeat (destruct W as [W|W]; [discriminate W|]). destruct W. }
  destruct Hex as [(-> & _)|(e & s & d & -> & He & _)]; [discriminate E|]. injection E as -> _.
  destruct He as [->| ->]; (split; [|discriminate]; intros W; repeat (destruct W as [W|W]; [discriminate W|]); destruct W).
Qed.

Lemma exp_head ex n v : exp_part ex n v -> forall c tl, ex = c :: tl -> is_digit_char c = false /\ Byte.eqb c x2e = false.
Proof.
  intros [(-> & _)|(e & s & d & -> & He & _)] c tl E; [discriminate|]. injection E as <- _. destruct He as [->| ->]; split; reflexivity.
Qed.

(** The main lemma. *)
Lemma parseNumber_taken w nc text e p : parseNumber w nc text = Ok (e, p) ->
  (e = PE_ok /\ p_end p = length text <-> taken_for_number text).
Proof.
  rewrite parseNumber_eq. cbv zeta. destruct (skip_white text) as (ws & Hw & <- & El & Hn).
  destruct (skipn (length ws) text) as [|c tl] eqn:Sk.
  - intros [= <- <-]. split; [intros (H & _); discriminate H|]. intros (w' & m & l & nu & po & E & Hw' & Hm & Hl & Hne). exfalso.
    rewrite app_nil_r in El. subst ws. rewrite E in Hw. apply Forall_app in Hw. destruct Hw as (_ & Hw). destruct Hm as [->| ->].
    + cbn [app] in *. destruct l as [|c l]; [congruence|]. apply Forall_inv in Hw.
      apply (proj1 (literal_head (c :: l) c l (ex_intro _ nu (ex_intro _ po Hl)) eq_refl)). exact Hw.
    + apply Forall_inv in Hw. repeat (destruct Hw as [W|Hw]; [discriminate W|]). destruct Hw.
  - set (neg := Byte.eqb c x2d). set (bd := if neg then tl else c :: tl).
    set (start := if neg then S (length ws) else length ws).
    assert (Lt : length text = (start + length bd)%nat).
    { rewrite El, app_length. unfold start, bd. destruct neg; cbn [length]; lia. }
    destruct (parse_digits w nc bd start 0 0 (-1) true) as [r| |] eqn:PD; cbn [obind]; [|discriminate|discriminate].
    intros PT. split.
    + intros (-> & Pe). destruct r as [[[[[e' sig] count] dec] rest] pos].
      assert (e' = PE_ok) as -> by exact (parse_tail_error _ _ _ _ _ _ _ _ PT).
      apply parse_digits_shape in PD. destruct PD as (i & fl & Eb & Hi & -> & Hfl).
      assert (exists n v, exp_part rest n v) as Hex.
      { apply (parse_tail_all neg sig count dec rest (start + length (i ++ fl)) p PT). rewrite Pe, Lt, Eb.
        rewrite !app_length. lia. }
      assert (exists nu po, dec_literal bd nu po) as (nu & po & Hl).
      { apply dec_literal_parts. exists i, fl, rest. split; [exact Eb|]. split; [exact Hi|]. split; [|exact Hex].
        destruct Hfl as [->|(_ & Hf)]; auto. }
      exists ws, (if neg then [x2d] else []), bd, nu, po.
      assert (Ec : c :: tl = (if neg then [x2d] else []) ++ bd).
      { unfold bd. destruct neg eqn:Ng; [|reflexivity]. unfold neg in Ng. apply byte_eqb_iff in Ng. subst c. reflexivity. }
      split; [rewrite El at 1; f_equal; exact Ec|]. split; [exact Hw|]. split; [destruct neg; auto|]. split; [exact Hl|].
      rewrite <- Ec. discriminate.
    + intros (w' & m & l & nu & po & E & Hw' & Hm & Hl & Hne).
      assert (Hlx : exists m0 p0, dec_literal l m0 p0) by eauto.
      rewrite El in E.
      apply white_split in E; [|exact Hw|exact Hw'|exact Hn|].
      2:{ intros c0 t0 E0. destruct Hm as [->| ->]; cbn [app] in E0.
          - apply (proj1 (literal_head l c0 t0 Hlx E0)).
          - injection E0 as <- _. intros W. repeat (destruct W as [W|W]; [discriminate W|]). destruct W. }
      destruct E as (_ & E).
      assert (bd = l) as Eb.
      { unfold bd, neg. destruct Hm as [->| ->]; cbn [app] in E.
        - destruct (Byte.eqb c x2d) eqn:Q; [|exact E]. apply byte_eqb_iff in Q. subst c.
          exfalso. exact (proj2 (literal_head l x2d tl Hlx (eq_sym E)) eq_refl).
        - injection E as -> ->. reflexivity. }
      rewrite Eb in PD, Lt. apply dec_literal_parts in Hlx. destruct Hlx as (i & fl & ex & -> & Hi & Hfl & n & v & Hex).
      apply parse_digits_pass in PD; [|exact (exp_head ex n v Hex)|exact Hi|].
      2:{ destruct Hfl as [->|Hf]; [left; reflexivity|right; split; [lia|exact Hf]]. }
      destruct PD as (s' & c' & d' & ->).
      destruct (parse_tail_exp neg s' c' d' ex n v (start + length (i ++ fl)) Hex) as (x & _ & PT').
      rewrite PT' in PT. injection PT as <- <-. split; [reflexivity|]. cbn [p_end]. rewrite Lt, !app_length. lia.
Qed.

Lemma int_to_taken t text e z : int_to t text = Ok (e, z) -> (e = NoError <-> taken_for_number text).
Proof.
  unfold int_to, to_integer. destruct (parseNumber _ true text) as [[pe p]| |] eqn:PN; cbn [obind]; [|discriminate|discriminate].
  apply parseNumber_taken in PN. rewrite <- PN. destruct pe; cbn [obind].
  { destruct (p_end p =? length text)%nat eqn:Q; intros [= <- _].
    - apply Nat.eqb_eq in Q. tauto.
    - apply Nat.eqb_neq in Q. split; [discriminate|tauto]. }
  all: intros [= <- _]; split; [discriminate|intros (X & _); discriminate X].
Qed.

(** Numbers of RFC 8259 are among them. *)
Lemma rfc_taken text : rfc_number text -> taken_for_number text.
Proof.
  intros (m & i & f & e & -> & Hm & Hi & Hf & He).
  assert (Hid : Forall is_digit i /\ i <> []).
  { destruct Hi as [->|(c & tl & -> & Hc & _ & Ht)]; (split; [|discriminate]); [repeat constructor; discriminate|constructor; assumption]. }
  assert (exists nu po, dec_literal (i ++ f ++ e) nu po) as (nu & po & Hl).
  { apply dec_literal_parts. exists i, f, e. split; [reflexivity|]. split; [apply Hid|].
    split; [destruct Hf as [->|(d & -> & _ & Hd)]; eauto|].
    destruct He as [->|(x & s & d & -> & Hx & Hs & Hd)]; [exists false, 0; left; auto|].
    destruct Hs as [->|[->| ->]]; [exists false|exists false|exists true]; exists (Z.of_N (dec_value d)); right;
      do 3 eexists; repeat split; try apply Hd; try exact Hx; auto. }
  exists [], m, (i ++ f ++ e), nu, po. split; [reflexivity|]. split; [constructor|]. split; [exact Hm|]. split; [exact Hl|].
  destruct m, i; try discriminate. destruct Hid as (_ & Hid). congruence.
Qed.
