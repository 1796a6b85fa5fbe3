(** Proofs about the reads of handle_json_escapes_in. *)
From Coq Require Import Lia.
From Verif Require Import Base Tactics ScanModel ScanProofs JsonSpec StrSpec HandlerModel EscapeModel EscapeProofs EscapeMemModel EscapeMemSpec.

(** ** Digits *)
Lemma hex_digit_iff c : is_hex c <-> exists v, hex_digit c = Some v.
Proof.
  split; [intros H; exists (hex_value c); apply hex_digit_value, H|].
  intros [v H]. unfold is_hex, is_digit. destruct c; cbn in H |- *; try discriminate H; lia.
Qed.

Lemma four_hex4 l cp r : four l cp r <-> hex4 l = Some cp /\ r = skipn 4 l.
Proof.
  split.
  - intros (a & b & c & d & -> & Ha & Hb & Hc & Hd & ->). split; [apply hex4_number; assumption|reflexivity].
  - intros [H ->]. destruct l as [|a [|b [|c [|d r]]]]; try discriminate H. pose proof H as H0. cbn [hex4] in H0.
    destruct (hex_digit a) eqn:Ea; [|discriminate H0]. destruct (hex_digit b) eqn:Eb; [|discriminate H0].
    destruct (hex_digit c) eqn:Ec; [|discriminate H0]. destruct (hex_digit d) eqn:Ed; [|discriminate H0].
    assert (Ha : is_hex a) by (apply hex_digit_iff; eauto). assert (Hb : is_hex b) by (apply hex_digit_iff; eauto).
    assert (Hc : is_hex c) by (apply hex_digit_iff; eauto). assert (Hd : is_hex d) by (apply hex_digit_iff; eauto).
    exists a, b, c, d. repeat (split; [reflexivity || assumption|]).
    destruct (hex4_number a b c d r Ha Hb Hc Hd) as [E _]. congruence.
Qed.

Lemma no_four_hex4 l : no_four l <-> hex4 l = None.
Proof.
  unfold no_four. split.
  - intros H. destruct (hex4 l) as [cp|] eqn:E; [|reflexivity]. exfalso. apply (H cp (skipn 4 l)), four_hex4. auto.
  - intros H cp r Hf. apply four_hex4 in Hf. destruct Hf. congruence.
Qed.

Lemma at_suffix pre l i : char_at (pre ++ l) (length pre + i) = match nth_error l i with Some b => Fine b | None => Outside end.
Proof. unfold char_at. rewrite nth_error_app2 by lia. replace (length pre + i - length pre) with i by lia. reflexivity. Qed.

Lemma read_four pre l : 4 <= length l ->
  exists arr ok, read_digits (pre ++ l) (length pre) 4 0 no_digits = Fine (arr, ok) /\
    match hex4 l with Some v => ok = true /\ digits_value arr = Fine v | None => ok = false /\ digits_value arr = Unset end.
Proof.
  intros Hl. destruct l as [|a [|b [|c [|d r]]]]; cbn [length] in Hl; try lia.
  unfold no_digits. cbn [read_digits hex4]. rewrite ?at_suffix. cbn [nth_error mbind].
  destruct (hex_digit a); [|do 2 eexists; split; [reflexivity|]; split; reflexivity]. rewrite ?at_suffix. cbn [nth_error mbind].
  destruct (hex_digit b); [|do 2 eexists; split; [reflexivity|]; split; reflexivity]. rewrite ?at_suffix. cbn [nth_error mbind].
  destruct (hex_digit c); [|do 2 eexists; split; [reflexivity|]; split; reflexivity]. rewrite ?at_suffix. cbn [nth_error mbind].
  destruct (hex_digit d); (do 2 eexists; split; [reflexivity|]; split; reflexivity).
Qed.

(** ** Which strings are affected *)
Definition bad_second (cp : N) (t : bytes) : bool :=
  ((0xD800 <=? cp) && (cp <=? 0xDBFF))%N &&
  match t with
  | x :: y :: lo => (6 <=? length t) && Byte.eqb x c_backslash && Byte.eqb y x75 && match hex4 lo with Some _ => false | None => true end
  | _ => false
  end.

Fixpoint un (f : nat) (l : bytes) : bool :=
  match f with
  | O => false
  | S f =>
    match l with
    | [] => false
    | c :: t =>
      if Byte.eqb c_backslash c then
        match t with
        | [] => false
        | e :: tl =>
          if Byte.eqb e x75 then
            match hex4 tl with
            | Some cp => bad_second cp (skipn 4 tl) || un f (skipn (4 + snd (combine_surrogates cp (skipn 4 tl))) tl)
            | None => un f tl
            end
          else un f tl
        end
      else un f t
    end
  end.
Definition U (l : bytes) : bool := un (S (length l)) l.

Lemma un_fuel : forall f f' l, length l < f -> length l < f' -> un f l = un f' l.
Proof.
  induction f as [|f IH]; intros f' l Hf Hf'; [lia|]. destruct f' as [|f']; [lia|]. cbn [un].
  destruct l as [|c [|e tl]]; cbn [length] in *; [reflexivity| |].
  - destruct (Byte.eqb c_backslash c); [reflexivity|]. apply IH; cbn [length]; lia.
  - destruct (Byte.eqb c_backslash c); [|apply IH; cbn [length]; lia]. destruct (Byte.eqb e x75); [|apply IH; lia].
    destruct (hex4 tl); [|apply IH; lia]. f_equal. apply IH; rewrite skipn_length; lia.
Qed.
Lemma un_U f l : length l < f -> un f l = U l.
Proof. intros H. apply un_fuel; lia. Qed.

Lemma eqb_refl_b c : Byte.eqb c c = true.
Proof. destruct c; reflexivity. Qed.
Lemma eqb_ne a b : a <> b -> Byte.eqb a b = false.
Proof. intros H. destruct (Byte.eqb a b) eqn:E; [|reflexivity]. apply Byte.byte_dec_bl in E. congruence. Qed.

Lemma U_raw c l : c <> c_backslash -> U (c :: l) = U l.
Proof. intros H. unfold U at 1. cbn [un]. rewrite eqb_ne by congruence. apply un_U. cbn; lia. Qed.
Lemma U_simple c l : c <> x75 -> U (c_backslash :: c :: l) = U l.
Proof. intros H. unfold U at 1. cbn [un]. rewrite eqb_refl_b, eqb_ne by exact H. apply un_U. cbn; lia. Qed.
Lemma U_plain l : hex4 l = None -> U (c_backslash :: x75 :: l) = U l.
Proof. intros H. unfold U at 1. cbn [un]. rewrite !eqb_refl_b, H. apply un_U. cbn; lia. Qed.
Lemma U_code l cp : hex4 l = Some cp -> U (c_backslash :: x75 :: l) =
  bad_second cp (skipn 4 l) || U (skipn (4 + snd (combine_surrogates cp (skipn 4 l))) l).
Proof. intros H. unfold U at 1. cbn [un]. rewrite !eqb_refl_b, H. f_equal. apply un_U. rewrite skipn_length. cbn [length]. lia. Qed.

Lemma in_plain l : hex4 l = None -> escapes_in (c_backslash :: x75 :: l) = [c_backslash; x75] ++ escapes_in l.
Proof.
  intros H. unfold escapes_in at 1. cbn [escapes_in_loop find_index]. rewrite eqb_refl_b. cbn [skipn firstn app]. rewrite eqb_refl_b, H.
  do 2 f_equal. apply in_fuel. cbn; lia.
Qed.

Lemma prefix_raw l k : find_index (Byte.eqb c_backslash) l = Some k ->
  exists t, l = firstn k l ++ c_backslash :: t /\ length (firstn k l) = k /\ U l = U (c_backslash :: t) /\ escapes_in l = firstn k l ++ escapes_in (c_backslash :: t).
Proof.
  revert k. induction l as [|c l IH]; intros k H; [discriminate H|]. cbn [find_index] in H.
  destruct (Byte.eqb c_backslash c) eqn:E.
  - injection H as <-. apply Byte.byte_dec_bl in E. subst c. exists l. auto.
  - destruct (find_index _ l) as [j|]; [|discriminate H]. injection H as <-. destruct (IH j eq_refl) as (t & A & B & C & D).
    assert (Hc : c <> c_backslash) by (intros ->; rewrite eqb_refl_b in E; discriminate E).
    exists t. cbn [firstn app length]. rewrite U_raw, in_raw by exact Hc. split; [f_equal; exact A|]. split; [f_equal; exact B|]. split; [exact C|]. f_equal. exact D.
Qed.

Lemma all_raw l : find_index (Byte.eqb c_backslash) l = None -> U l = false /\ escapes_in l = l.
Proof.
  induction l as [|c l IH]; intros H; [split; reflexivity|]. cbn [find_index] in H. destruct (Byte.eqb c_backslash c) eqn:E; [discriminate H|].
  destruct (find_index _ l) eqn:F; [discriminate H|]. destruct (IH eq_refl) as [A B].
  assert (Hc : c <> c_backslash) by (intros ->; rewrite eqb_refl_b in E; discriminate E).
  rewrite U_raw, in_raw by exact Hc. split; [exact A|]. f_equal. exact B.
Qed.

(** ** The second half *)
Lemma second_ok pre a l cp : length a = 6 -> second_half (pre ++ a ++ l) (length pre) (4 + length l) cp =
  if bad_second cp l then Unset else Fine (fst (combine_surrogates cp l), 4 + snd (combine_surrogates cp l)).
Proof.
  intros Ha. unfold second_half, bad_second, combine_surrogates. rewrite app_assoc.
  assert (P : length (pre ++ a) = length pre + 6) by (rewrite app_length; lia).
  destruct ((0xD800 <=? cp) && (cp <=? 0xDBFF))%N; cbn [andb]; [|reflexivity].
  destruct (Nat.leb_spec 10 (4 + length l)) as [H|H].
  - destruct l as [|x [|y lo]]; cbn [length] in H; try lia.
    replace (length pre + 6) with (length (pre ++ a) + 0) by lia. replace (length pre + 7) with (length (pre ++ a) + 1) by lia.
    replace (6 <=? length (x :: y :: lo)) with true by (symmetry; apply Nat.leb_le; cbn [length]; lia).
    rewrite ?at_suffix. cbn [nth_error mbind andb].
    destruct (Byte.eqb x c_backslash); cbn [andb]; [|reflexivity]. rewrite ?at_suffix. cbn [nth_error mbind].
    destruct (Byte.eqb y x75); cbn [andb]; [|reflexivity].
    replace ((pre ++ a) ++ x :: y :: lo) with (((pre ++ a) ++ [x; y]) ++ lo) by (rewrite <- app_assoc; reflexivity).
    replace (length pre + 8) with (length ((pre ++ a) ++ [x; y])) by (rewrite app_length, P; cbn; lia).
    destruct (read_four ((pre ++ a) ++ [x; y]) lo ltac:(lia)) as (arr & ok & E & V). rewrite E. cbn [mbind fst snd].
    destruct (hex4 lo) as [v|]; destruct V as [-> ->]; cbn [mbind andb]; [|reflexivity].
    destruct ((0xDC00 <=? v) && (v <=? 0xDFFF))%N; reflexivity.
  - destruct l as [|x [|y lo]]; try reflexivity.
    replace (6 <=? length (x :: y :: lo)) with false by (symmetry; apply Nat.leb_gt; cbn [length] in *; lia). reflexivity.
Qed.

(** ** The loop *)
Lemma combine_le cp t : snd (combine_surrogates cp t) <= length t.
Proof.
  unfold combine_surrogates. destruct (_ && _)%N; [|cbn; lia]. destruct t as [|x [|y lo]]; [cbn; lia..|].
  destruct (Nat.leb_spec 6 (length (x :: y :: lo))); cbn [andb]; [|cbn; lia].
  destruct (Byte.eqb x c_backslash && Byte.eqb y x75); [|cbn; lia].
  destruct (hex4 lo); [|cbn; lia]. destruct (_ && _)%N; cbn [snd]; lia.
Qed.

Lemma hex4_length l cp : hex4 l = Some cp -> 4 <= length l.
Proof. destruct l as [|a [|b [|c [|d r]]]]; try discriminate. cbn; lia. Qed.

Lemma in_loop_ok : forall f pre l out, length l < f ->
  in_loop f (pre ++ l) (length pre) (length l) out = if U l then Unset else Fine (out ++ escapes_in l).
Proof.
  induction f as [|f IH]; intros pre l out Hf; [lia|]. cbn [in_loop].
  destruct (Nat.eqb_spec (length l) 0) as [Hz|Hz].
  { destruct l; [|discriminate Hz]. cbn. now rewrite app_nil_r. }
  destruct (Nat.ltb_spec (length (pre ++ l)) (length pre + length l)) as [H|_]; [rewrite app_length in H; lia|].
  rewrite skipn_app, skipn_all, Nat.sub_diag. cbn [skipn app]. rewrite firstn_all.
  destruct (find_index (Byte.eqb c_backslash) l) as [k|] eqn:E.
  - destruct (prefix_raw l k E) as (t & El & Hk & HU & HE). rewrite HU, HE. set (p := firstn k l) in *. clearbody p.
    assert (Ll : length l = k + S (length t)) by (rewrite El, app_length, Hk; cbn; lia).
    unfold less at 1. destruct (Nat.leb_spec k (length l)); [|lia]. cbn [mbind].
    destruct (Nat.ltb_spec (length l - k) 2) as [H2|H2].
    { destruct t; [|cbn [length] in Ll; lia]. change (U [c_backslash]) with false. cbn iota. change (escapes_in [c_backslash]) with (@nil byte). now rewrite app_nil_r. }
    unfold less at 1. destruct (Nat.leb_spec 2 (length l - k)); [|lia]. cbn [mbind].
    destruct t as [|c tl]; [cbn [length] in Ll; lia|]. cbn [length] in Ll.
    replace (length l - k - 2) with (length tl) by lia.
    assert (Et : pre ++ l = (pre ++ p) ++ c_backslash :: c :: tl) by (rewrite El, app_assoc; reflexivity).
    assert (Lp : length pre + k = length (pre ++ p)) by (rewrite app_length; lia). rewrite Et, Lp. set (q := pre ++ p) in *. clearbody q.
    rewrite at_suffix. cbn [nth_error mbind].
    assert (Step : forall m out', m <= length tl -> in_loop f (q ++ c_backslash :: c :: tl) (length q + 2 + m) (length tl - m) out' =
      if U (skipn m tl) then Unset else Fine (out' ++ escapes_in (skipn m tl))).
    { intros m out' Hm. replace (q ++ c_backslash :: c :: tl) with ((q ++ [c_backslash; c] ++ firstn m tl) ++ skipn m tl) by (rewrite <- !app_assoc, firstn_skipn; reflexivity).
      replace (length q + 2 + m) with (length (q ++ [c_backslash; c] ++ firstn m tl)) by (rewrite !app_length, firstn_length; cbn [length]; lia).
      replace (length tl - m) with (length (skipn m tl)) by (rewrite skipn_length; reflexivity). apply IH. rewrite skipn_length. lia. }
    assert (Step0 : forall out', in_loop f (q ++ c_backslash :: c :: tl) (length q + 2) (length tl) out' = if U tl then Unset else Fine (out' ++ escapes_in tl)).
    { intros out'. specialize (Step 0 out' ltac:(lia)). rewrite Nat.add_0_r, Nat.sub_0_r in Step. exact Step. }
    destruct (Byte.eqb c x75) eqn:Ec.
    + apply Byte.byte_dec_bl in Ec. subst c.
      assert (R : exists arr ok, (if 4 <=? length tl then read_digits (q ++ c_backslash :: x75 :: tl) (length q + 2) 4 0 no_digits else Fine (no_digits, false)) = Fine (arr, ok) /\
        match hex4 tl with Some v => ok = true /\ digits_value arr = Fine v | None => ok = false end).
      { destruct (Nat.leb_spec 4 (length tl)) as [H4|H4].
        - destruct (read_four (q ++ [c_backslash; x75]) tl H4) as (arr & ok & E1 & E2). rewrite <- app_assoc, app_length in E1. cbn [app length] in E1.
          exists arr, ok. split; [exact E1|]. destruct (hex4 tl); [exact E2|apply E2].
        - exists no_digits, false. split; [reflexivity|]. destruct (hex4 tl) eqn:Hx; [apply hex4_length in Hx; lia|reflexivity]. }
      destruct R as (arr & ok & -> & R). cbn [mbind fst snd]. destruct (hex4 tl) as [cp|] eqn:Eh.
      * destruct R as [-> ->]. cbn [mbind]. rewrite (U_code tl cp Eh).
        assert (H4 := hex4_length _ _ Eh).
        assert (S := second_ok q (c_backslash :: x75 :: firstn 4 tl) (skipn 4 tl) cp ltac:(cbn [length]; rewrite firstn_length; lia)).
        cbn [app] in S. rewrite firstn_skipn, skipn_length in S. replace (4 + (length tl - 4)) with (length tl) in S by lia. rewrite S.
        destruct (bad_second cp (skipn 4 tl)); cbn [orb mbind fst snd]; [reflexivity|].
        assert (C := combine_le cp (skipn 4 tl)). rewrite skipn_length in C.
        set (n := snd (combine_surrogates cp (skipn 4 tl))) in *.
        unfold less. destruct (Nat.leb_spec (4 + n) (length tl)); [|lia]. cbn [mbind]. rewrite Step by lia.
        rewrite (in_unicode tl cp (fst (combine_surrogates cp (skipn 4 tl))) n Eh) by (unfold n; apply surjective_pairing).
        rewrite <- !app_assoc. reflexivity.
      * subst ok. rewrite Step0, (U_plain tl Eh), (in_plain tl Eh), <- !app_assoc. reflexivity.
    + assert (Hc : c <> x75) by (intros ->; discriminate Ec). rewrite Step0, U_simple, in_simple by exact Hc. rewrite <- !app_assoc. reflexivity.
  - destruct (all_raw l E) as [-> ->]. reflexivity.
Qed.

Lemma unescape_ok l : unescape l = if U l then Unset else Fine (escapes_in l).
Proof. apply (in_loop_ok (S (length l)) [] l []). lia. Qed.

(** ** The specification *)
Lemma second_cases cp r : (bad_second cp r = true <-> exists t, r = backslash :: x75 :: t /\ high cp /\ 4 <= length t /\ no_four t) /\
  ((exists r2, high cp /\ low_follows r r2 /\ snd (combine_surrogates cp r) = 6 /\ r2 = skipn 6 r) \/
   (~ (high cp /\ exists r2, low_follows r r2) /\ snd (combine_surrogates cp r) = 0)).
Proof.
  assert (Hh : ((0xD800 <=? cp) && (cp <=? 0xDBFF))%N = true <-> high cp).
  { unfold high. rewrite andb_true_iff, !N.leb_le. tauto. }
  unfold bad_second, combine_surrogates. destruct ((0xD800 <=? cp) && (cp <=? 0xDBFF))%N.
  2: { split; [|right; split; [|reflexivity]]; [cbn; split; [discriminate|intros (t & _ & H & _); apply Hh in H; discriminate H]|].
       intros [H _]. apply Hh in H. discriminate H. }
  assert (H1 : high cp) by (apply Hh; reflexivity). clear Hh. cbn [andb].
  destruct r as [|x [|y lo]].
  - split; [split; [discriminate|intros (t & H & _); discriminate H]|]. right. split; [|reflexivity]. intros (_ & r2 & l & v & H & _). discriminate H.
  - split; [split; [discriminate|intros (t & H & _); discriminate H]|]. right. split; [|reflexivity]. intros (_ & r2 & l & v & H & _). discriminate H.
  - split.
    + rewrite !andb_true_iff, Nat.leb_le. cbn [length]. split.
      * intros [[[L X] Y] Z]. apply Byte.byte_dec_bl in X, Y. subst. exists lo. split; [reflexivity|]. split; [exact H1|]. split; [lia|].
        apply no_four_hex4. destruct (hex4 lo); [discriminate Z|reflexivity].
      * intros (t & H & _ & L & N). injection H as -> -> ->. apply no_four_hex4 in N. rewrite N. repeat split. lia.
    + assert (LF : forall r2, low_follows (x :: y :: lo) r2 -> x = c_backslash /\ y = x75 /\ r2 = skipn 4 lo /\ exists v, hex4 lo = Some v /\ ((0xDC00 <=? v) && (v <=? 0xDFFF))%N = true).
      { intros r2 (l & v & H & F & R). injection H as -> -> ->. apply four_hex4 in F. destruct F as [F ->].
        split; [reflexivity|]. split; [reflexivity|]. split; [reflexivity|]. exists v. split; [exact F|]. rewrite andb_true_iff, !N.leb_le. exact R. }
      destruct (Nat.leb_spec 6 (length (x :: y :: lo))) as [L|L]; cbn [andb].
      2: { right. split; [|reflexivity]. intros (_ & r2 & H). apply LF in H. destruct H as (_ & _ & _ & v & H & _). apply hex4_length in H. cbn [length] in L. lia. }
      destruct (Byte.eqb x c_backslash) eqn:X; cbn [andb].
      2: { right. split; [|reflexivity]. intros (_ & r2 & H). apply LF in H. destruct H as (-> & _). rewrite eqb_refl_b in X. discriminate X. }
      destruct (Byte.eqb y x75) eqn:Y.
      2: { right. split; [|reflexivity]. intros (_ & r2 & H). apply LF in H. destruct H as (_ & -> & _). discriminate Y. }
      apply Byte.byte_dec_bl in X, Y. subst x y.
      destruct (hex4 lo) as [v|] eqn:E.
      2: { right. split; [|reflexivity]. intros (_ & r2 & H). apply LF in H. destruct H as (_ & _ & _ & v & H & _). discriminate H. }
      destruct ((0xDC00 <=? v) && (v <=? 0xDFFF))%N eqn:R.
      * left. exists (skipn 4 lo). split; [exact H1|]. split; [|split; reflexivity]. exists lo, v. split; [reflexivity|]. split; [apply four_hex4; auto|].
        rewrite andb_true_iff, !N.leb_le in R. exact R.
      * right. split; [|reflexivity]. intros (_ & r2 & H). apply LF in H. destruct H as (_ & _ & _ & v' & H & R'). congruence.
Qed.

Lemma skipn_more {A} n m (l : list A) : skipn n (skipn m l) = skipn (m + n) l.
Proof. revert l. induction m as [|m IH]; intros l; [reflexivity|]. destruct l; [cbn; apply skipn_nil|]. exact (IH l). Qed.

Lemma U_spec l : U l = true <-> reads_unset l.
Proof.
  split.
  - assert (G : forall n l, length l <= n -> U l = true -> reads_unset l); [|apply (G (length l)); lia].
    clear l. induction n as [|n IH]; intros l Hn H; [destruct l; [discriminate H|cbn in Hn; lia]|].
    destruct l as [|c l]; [discriminate H|]. cbn [length] in Hn.
    destruct (Byte.eqb c_backslash c) eqn:E.
    2: { assert (Hc : c <> c_backslash) by (intros ->; rewrite eqb_refl_b in E; discriminate E).
         rewrite U_raw in H by exact Hc. apply Ru_raw; [exact Hc|]. apply IH; [lia|exact H]. }
    apply Byte.byte_dec_bl in E. subst c. destruct l as [|c tl]; [discriminate H|]. cbn [length] in Hn.
    destruct (Byte.eqb c x75) eqn:E.
    2: { assert (Hc : c <> x75) by (intros ->; discriminate E). rewrite U_simple in H by exact Hc. apply Ru_escape; [exact Hc|]. apply IH; [lia|exact H]. }
    apply Byte.byte_dec_bl in E. subst c. destruct (hex4 tl) as [cp|] eqn:Eh.
    2: { rewrite (U_plain _ Eh) in H. apply Ru_no_digits; [apply no_four_hex4, Eh|]. apply IH; [lia|exact H]. }
    assert (F : four tl cp (skipn 4 tl)) by (apply four_hex4; auto). rewrite (U_code _ _ Eh) in H.
    destruct (second_cases cp (skipn 4 tl)) as [B C]. apply orb_true_iff in H. destruct H as [H|H].
    + apply B in H. destruct H as (t & Et & Hh & L & N). rewrite Et in F. exact (Ru_here _ _ _ F Hh L N).
    + destruct C as [(r2 & Hh & Lf & S & ->)|[Nn S]]; rewrite S in H.
      * rewrite skipn_more in Lf. apply (Ru_pair _ _ _ _ F Hh Lf). apply IH; [rewrite skipn_length; lia|exact H].
      * apply (Ru_one _ _ _ F Nn). apply IH; [rewrite skipn_length; lia|exact H].
  - induction 1 as [l cp t F Hh L N|c l Hc _ IH|c l Hc _ IH|l N _ IH|l cp r F Nn _ IH|l cp r r2 F Hh Lf _ IH].
    + apply four_hex4 in F. destruct F as [F Er]. change backslash with c_backslash. rewrite (U_code _ _ F), <- Er.
      rewrite (proj2 (proj1 (second_cases cp _))); [reflexivity|]. exists t. auto.
    + rewrite U_raw; assumption.
    + change backslash with c_backslash. rewrite U_simple; assumption.
    + change backslash with c_backslash. apply no_four_hex4 in N. rewrite U_plain; assumption.
    + apply four_hex4 in F. destruct F as [F ->]. change backslash with c_backslash. rewrite (U_code _ _ F).
      destruct (second_cases cp (skipn 4 l)) as [_ [(r2 & Hh & Lf & _)|[_ S]]]; [exfalso; apply Nn; eauto|]. rewrite S. cbn [Nat.add]. rewrite IH. apply orb_true_r.
    + apply four_hex4 in F. destruct F as [F ->]. change backslash with c_backslash. rewrite (U_code _ _ F).
      assert (E2 : r2 = skipn 6 (skipn 4 l)).
      { destruct Lf as (l' & lo & El & F' & _). apply four_hex4 in F'. destruct F' as [_ ->]. rewrite El. reflexivity. }
      destruct (second_cases cp (skipn 4 l)) as [_ [(r3 & _ & _ & S & _)|[Nn _]]]; [|exfalso; apply Nn; eauto]. rewrite S.
      rewrite skipn_more in E2. cbn [Nat.add] in *. rewrite <- E2, IH. apply orb_true_r.
Qed.

(** ** Strings of RFC 8259 and written strings *)
Lemma rfc_four l : rfc_string (backslash :: x75 :: l) -> exists cp r, four l cp r /\ rfc_string r.
Proof.
  intros H. inversion H as [|c l' H1 H2 Hb H3 E|c l' Hc H1 E|h1 h2 h3 h4 l' A B C D R E]; subst.
  - congruence.
  - cbn in Hc. decompose [or] Hc; try discriminate. contradiction.
  - exists (hex_number h1 h2 h3 h4), l'. split; [|exact R]. exists h1, h2, h3, h4. auto 10.
Qed.

Lemma four_det l cp r cp' r' : four l cp r -> four l cp' r' -> cp = cp' /\ r = r'.
Proof. intros H H'. apply four_hex4 in H, H'. destruct H as [H ->], H' as [H' ->]. split; congruence. Qed.

Lemma rfc_tail c l : rfc_string (c :: l) -> c <> backslash -> rfc_string l.
Proof. intros H Hc. inversion H; subst; congruence. Qed.
Lemma rfc_tail2 c l : rfc_string (backslash :: c :: l) -> c <> x75 -> rfc_string l.
Proof. intros H Hc. inversion H; subst; congruence. Qed.

Lemma rfc_safe l : reads_unset l -> rfc_string l -> False.
Proof.
  induction 1 as [l cp t F Hh L N|c l Hc _ IH|c l Hc _ IH|l N _ IH|l cp r F Nn _ IH|l cp r r2 F Hh Lf _ IH]; intros R.
  - destruct (rfc_four _ R) as (cp' & r & F' & R'). destruct (four_det _ _ _ _ _ F F') as [_ <-].
    destruct (rfc_four _ R') as (cp2 & r2 & F2 & _). exact (N _ _ F2).
  - apply IH, (rfc_tail c l R Hc).
  - apply IH, (rfc_tail2 c l R Hc).
  - destruct (rfc_four _ R) as (cp' & r & F' & R'). exact (N _ _ F').
  - destruct (rfc_four _ R) as (cp' & r' & F' & R'). destruct (four_det _ _ _ _ _ F F') as [_ <-]. exact (IH R').
  - destruct (rfc_four _ R) as (cp' & r' & F' & R'). destruct (four_det _ _ _ _ _ F F') as [_ <-].
    destruct Lf as (l2 & lo & -> & F2 & _). destruct (rfc_four _ R') as (cp3 & r3 & F3 & R3). destruct (four_det _ _ _ _ _ F2 F3) as [_ <-]. exact (IH R3).
Qed.

Lemma written_safe i s : U (escapes_out i s) = false.
Proof.
  rewrite escapes_out_map. induction s as [|c s IH]; [reflexivity|]. cbn [flat_map].
  assert (E : (exists x, escape_out_char c = [x] /\ x <> c_backslash) \/ (exists x, escape_out_char c = [c_backslash; x] /\ x <> x75)).
  { destruct c; (left; eexists; split; [reflexivity|discriminate]) || (right; eexists; split; [reflexivity|discriminate]). }
  destruct E as [(x & -> & Hx)|(x & -> & Hx)]; cbn [app]; [rewrite U_raw by exact Hx|rewrite U_simple by exact Hx]; exact IH.
Qed.
