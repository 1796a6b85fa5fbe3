(** A compact text for every JSON value; only used to give concrete cases of theorems. *)
From Verif Require Import Base JsonSpec SerDoc.
From Coq Require Import Lia.

Fixpoint join (l : list bytes) : bytes := match l with [] => [] | [x] => x | x :: r => x ++ comma :: join r end.
Fixpoint show (j : json) : bytes :=
  match j with
  | JScalar s => scalar_text s
  | JArr els => lbrack :: join (map show els) ++ [rbrack]
  | JObj ms => lbrace :: join (map (fun kv => quote :: fst kv ++ quote :: colon :: show (snd kv)) ms) ++ [rbrace]
  end.

Fixpoint str_bodyb (l : bytes) : bool :=
  match l with
  | [] => true
  | c :: r => if Byte.eqb c quote then false
              else if Byte.eqb c backslash then match r with [] => false | _ :: r => str_bodyb r end
              else str_bodyb r
  end.
Definition digitb (c : byte) : bool := ((48 <=? byte_val c) && (byte_val c <=? 57))%N.
Definition signb (c : byte) : bool := Byte.eqb c x2b || Byte.eqb c x2d.
Definition num_textb (l : bytes) : bool :=
  match l with
  | [] => false
  | c :: r => (digitb c || signb c) && forallb (fun c => digitb c || signb c || Byte.eqb c x2e || Byte.eqb c x45 || Byte.eqb c x65) r
  end.
Fixpoint okb (j : json) : bool :=
  match j with
  | JScalar (SStr s) => str_bodyb s
  | JScalar (SNum s) => num_textb s
  | JScalar _ => true
  | JArr els => forallb okb els
  | JObj ms => forallb (fun kv => str_bodyb (fst kv) && okb (snd kv)) ms
  end.

Lemma byte_eqb_eq' a b : Byte.eqb a b = true -> a = b.
Proof. apply Byte.byte_dec_bl. Qed.
Lemma str_bodyb_ok : forall n l, length l <= n -> str_bodyb l = true -> str_body l.
Proof.
  induction n as [|n IH]; intros [|c l] Hn H; cbn in Hn; try lia; [constructor..|]; cbn [str_bodyb] in H.
  destruct (Byte.eqb c quote) eqn:Eq; [discriminate H|]. destruct (Byte.eqb c backslash) eqn:Eb.
  - apply byte_eqb_eq' in Eb. subst c. destruct l as [|d l]; [discriminate H|]. apply SB_esc. apply IH; [cbn in Hn; lia|exact H].
  - apply SB_char; [intros ->; discriminate Eq|intros ->; discriminate Eb|]. apply IH; [lia|exact H].
Qed.
Lemma digitb_ok c : digitb c = true -> is_digit c.
Proof. unfold digitb, is_digit. intros H. apply andb_true_iff in H. destruct H as [A B]. apply N.leb_le in A, B. lia. Qed.
Lemma num_textb_ok l : num_textb l = true -> num_text l.
Proof.
  destruct l as [|c l]; [discriminate|]. intros H. cbn in H. apply andb_true_iff in H. destruct H as [A B]. exists c, l. split; [reflexivity|].
  split.
  - apply orb_true_iff in A. destruct A as [A|A]; [left; apply digitb_ok; exact A|]. apply orb_true_iff in A.
    destruct A as [A|A]; apply byte_eqb_eq' in A; auto.
  - apply Forall_forall. intros x Hx. rewrite forallb_forall in B. specialize (B x Hx). unfold num_char.
    repeat (apply orb_true_iff in B; destruct B as [B|B]); try (apply byte_eqb_eq' in B); auto 8 using digitb_ok.
Qed.

Lemma show_value j : okb j = true -> value_text plain j (show j).
Proof.
  assert (G : gap plain []) by constructor. assert (GA : forall v, gap_after plain v []) by (intros; constructor).
  induction j as [s|els IH|ms IH] using json_rect_nested; intros H; cbn [show].
  - constructor. destruct s as [l|l| | |]; cbn in H |- *; auto; [exact (str_bodyb_ok _ l (le_n _) H)|exact (num_textb_ok l H)].
  - destruct els as [|e els]; [exact (VT_arr_empty plain [] G)|]. apply VT_arr. cbn [okb] in H.
    assert (Hall : Forall (fun j => value_text plain j (show j)) (e :: els)).
    { rewrite forallb_forall in H. rewrite Forall_forall in IH |- *. intros j Hj. exact (IH j Hj (H j Hj)). }
    clear H IH. revert e Hall. induction els as [|e2 els IH]; intros e Hall; inversion Hall; subst.
    + change (join (map show [e])) with (show e). rewrite <- (app_nil_r (show e)). exact (ET_one plain e (show e) [] [] G (GA e) H1).
    + change (join (map show (e :: e2 :: els))) with ([] ++ show e ++ [] ++ comma :: join (map show (e2 :: els))).
      apply ET_cons; auto.
  - destruct ms as [|e ms]; [exact (VT_obj_empty plain [] G)|]. apply VT_obj. cbn [okb] in H.
    assert (Hall : Forall (fun kv => str_body (fst kv) /\ value_text plain (snd kv) (show (snd kv))) (e :: ms)).
    { rewrite forallb_forall in H. rewrite Forall_forall in IH |- *. intros j Hj. specialize (H j Hj). apply andb_true_iff in H.
      destruct H as [A B]. split; [exact (str_bodyb_ok _ _ (le_n _) A)|exact (IH j Hj B)]. }
    clear H IH. revert e Hall. induction ms as [|e2 ms IH]; intros [k j] Hall; inversion Hall as [|? ? [K1 K2] K3]; subst; cbn [fst snd] in *.
    + change (join _) with (quote :: k ++ quote :: colon :: show j).
      replace (quote :: k ++ quote :: colon :: show j) with ([] ++ quote :: k ++ quote :: [] ++ colon :: [] ++ show j ++ []) by (cbn; rewrite app_nil_r; reflexivity).
      apply MT_one; auto.
    + match goal with |- members_text _ _ ?x => replace x with ([] ++ quote :: k ++ quote :: [] ++ colon :: [] ++ show j ++ [] ++ comma :: join (map (fun kv => quote :: fst kv ++ quote :: colon :: show (snd kv)) (e2 :: ms))) end.
      * apply MT_cons; auto.
      * cbn [map fst snd]. generalize (quote :: fst e2 ++ quote :: colon :: show (snd e2)). intros x.
        generalize (map (fun kv : bytes * json => quote :: fst kv ++ quote :: colon :: show (snd kv)) ms). intros l.
        change (join ((quote :: k ++ quote :: colon :: show j) :: x :: l)) with (quote :: (k ++ quote :: colon :: show j) ++ comma :: join (x :: l)).
        generalize (join (x :: l)). intros b. cbn [app]. rewrite <- app_assoc. reflexivity.
Qed.
Lemma show_doc j : okb j = true -> match j with JScalar _ => False | _ => True end -> doc_text plain j (show j).
Proof.
  intros H Hc. split; [exact Hc|]. exists [], (show j), []. split; [constructor|]. split; [constructor|]. split; [exact (show_value j H)|].
  cbn. rewrite app_nil_r. reflexivity.
Qed.
