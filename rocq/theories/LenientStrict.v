(** Without deviations, the grammar of LenientSpec.v is RFC 8259. *)
From Coq Require Import Lia.
From Verif Require Import Base JsonSpec LenientSpec.

Definition no_dev : deviation -> Prop := fun _ => False.

Lemma skip_ws w : skip no_dev w <-> ws w.
Proof.
  unfold skip, ws. split; apply Forall_impl; intros c H; [|left; exact H].
  destruct H as [H|[[] _]]. exact H.
Qed.

Definition closer_tok (k : kind) : stoken := st_make None [closing k] (closing_type k).

Definition member_tokens (kv : bytes * json) : list stoken := doc_tokens (Some (fst kv)) (snd kv).

Definition listP (k : kind) (b : bytes) (vs : list stoken) : Prop :=
  match k with
  | KArr => exists els, elems_text plain els b /\ Forall rfc_ok els /\ vs = flat_map (doc_tokens None) els
  | KObj => exists ms, members_text plain ms b /\ Forall (fun kv => rfc_string (fst kv) /\ rfc_ok (snd kv)) ms /\
      vs = flat_map member_tokens ms
  end.

Definition itemsP (k : kind) (p : position) (l : bytes) (vs : list stoken) : Prop :=
  (p = Fresh /\ exists w, ws w /\ l = w ++ [closing k] /\ vs = [closer_tok k]) \/
  exists b u, listP k b u /\ l = b ++ [closing k] /\ vs = u ++ [closer_tok k].

Definition afterP (k : kind) (l : bytes) (vs : list stoken) : Prop :=
  exists w, ws w /\ ((l = w ++ [closing k] /\ vs = [closer_tok k]) \/
    exists b u, listP k b u /\ l = w ++ comma :: b ++ [closing k] /\ vs = u ++ [closer_tok k]).

Definition valueP (nm : option bytes) (t : bytes) (vs : list stoken) : Prop :=
  exists j, value_text plain j t /\ rfc_ok j /\ vs = doc_tokens nm j.

Lemma container_value nm k l vs : itemsP k Fresh l vs ->
  exists j, value_text plain j (opening k :: l) /\ rfc_ok j /\ is_container j /\
    st_make nm [opening k] (opening_type k) :: vs = doc_tokens nm j.
Proof.
  intros [(_ & w & Hw & -> & ->)|(b & u & HL & -> & ->)].
  - destruct k.
    + exists (JArr []). split; [apply VT_arr_empty; exact Hw|]. repeat split. constructor. constructor.
    + exists (JObj []). split; [apply VT_obj_empty; exact Hw|]. repeat split. constructor. constructor.
  - destruct k.
    + destruct HL as (els & H1 & H2 & ->). exists (JArr els). split; [apply VT_arr; exact H1|].
      repeat split. constructor. exact H2.
    + destruct HL as (ms & H1 & H2 & ->). exists (JObj ms). split; [apply VT_obj; exact H1|].
      repeat split. constructor. exact H2.
Qed.

Lemma lexeme_value nm t v ty : lexeme no_dev t v ty -> valueP nm t [st_make nm v ty].
Proof.
  intros H. destruct H as [raw Hb Hr|raw Hb Hr| | | |raw []].
  - destruct Hr as [[]|Hr]. exists (JScalar (SStr raw)). split; [apply (VT_scalar plain (SStr raw)); exact Hb|].
    split; [constructor; exact Hr|reflexivity].
  - destruct Hr as [[]|Hr]. exists (JScalar (SNum raw)). split; [apply (VT_scalar plain (SNum raw)); exact Hb|].
    split; [constructor; exact Hr|reflexivity].
  - exists (JScalar STrue). split; [apply (VT_scalar plain STrue); exact I|]. split; [constructor; exact I|reflexivity].
  - exists (JScalar SFalse). split; [apply (VT_scalar plain SFalse); exact I|]. split; [constructor; exact I|reflexivity].
  - exists (JScalar SNull). split; [apply (VT_scalar plain SNull); exact I|]. split; [constructor; exact I|reflexivity].
Qed.

Lemma element_then p w t u l vs : ws w -> valueP None t u -> afterP KArr l vs -> itemsP KArr p (w ++ t ++ l) (u ++ vs).
Proof.
  intros Hw (j & Hj & Hr & ->) (w2 & Hw2 & [(-> & ->)|(b & ? & (els & H1 & H2 & ->) & -> & ->)]); right.
  - exists (w ++ t ++ w2), (doc_tokens None j). split; [|split; [rewrite <- !app_assoc; reflexivity|reflexivity]].
    exists [j]. split; [apply ET_one; assumption|]. split; [repeat constructor; exact Hr|]. cbn. rewrite app_nil_r. reflexivity.
  - exists (w ++ t ++ w2 ++ comma :: b), (doc_tokens None j ++ flat_map (doc_tokens None) els).
    split; [|split; [rewrite <- !app_assoc; reflexivity|rewrite <- app_assoc; reflexivity]].
    exists (j :: els). split; [apply ET_cons; assumption|]. split; [constructor; assumption|reflexivity].
Qed.

Lemma member_then p w1 nm w2 w3 t u l vs : ws w1 -> str_body nm -> rfc_string nm -> ws w2 -> ws w3 ->
  valueP (Some nm) t u -> afterP KObj l vs ->
  itemsP KObj p (w1 ++ quote :: nm ++ quote :: w2 ++ colon :: w3 ++ t ++ l) (u ++ vs).
Proof.
  intros Hw1 Hb Hn Hw2 Hw3 (j & Hj & Hr & ->) (w4 & Hw4 & [(-> & ->)|(b & ? & (ms & H1 & H2 & ->) & -> & ->)]); right.
  - exists (w1 ++ quote :: nm ++ quote :: w2 ++ colon :: w3 ++ t ++ w4), (doc_tokens (Some nm) j).
    split; [|split; [repeat (rewrite <- ?app_assoc; cbn [app]); reflexivity|reflexivity]].
    exists [(nm, j)]. split; [apply MT_one; assumption|]. split; [repeat constructor; assumption|]. cbn. rewrite app_nil_r. reflexivity.
  - exists (w1 ++ quote :: nm ++ quote :: w2 ++ colon :: w3 ++ t ++ w4 ++ comma :: b), (doc_tokens (Some nm) j ++ flat_map member_tokens ms).
    split; [|split; [repeat (rewrite <- ?app_assoc; cbn [app]); reflexivity|rewrite <- app_assoc; reflexivity]].
    exists ((nm, j) :: ms). split; [apply MT_cons; assumption|]. split; [repeat constructor; assumption|reflexivity].
Qed.

Scheme items_sind := Minimality for items Sort Prop
  with member_sind := Minimality for member Sort Prop
  with after_sind := Minimality for after Sort Prop.
Combined Scheme strict_ind from items_sind, member_sind, after_sind.

Lemma strict_sound :
  (forall k p l vs, items no_dev k p l vs -> itemsP k p l vs) /\
  (forall nm l vs, member no_dev nm l vs ->
     exists w t u l2 v2, l = w ++ t ++ l2 /\ vs = u ++ v2 /\ ws w /\ valueP (Some nm) t u /\ afterP KObj l2 v2) /\
  (forall k l vs, after no_dev k l vs -> afterP k l vs).
Proof.
  apply strict_ind.
  - intros k p w Hw Hp. left. destruct Hp as [-> |[_ []]]. split; [reflexivity|]. exists w. apply skip_ws in Hw. auto.
  - intros p w1 t v ty w2 Hw1 Hlx Hw2. apply skip_ws in Hw1.
    apply (element_then p w1 t [st_make None v ty] (w2 ++ [rbrack]) [closer_tok KArr]); [exact Hw1|apply lexeme_value; exact Hlx|].
    exists w2. split; [exact Hw2|]. left. auto.
  - intros p w1 t v ty w2 l vs Hw1 Hlx Hw2 _ IH. apply skip_ws in Hw1.
    apply (element_then p w1 t [st_make None v ty] (w2 ++ comma :: l) vs); [exact Hw1|apply lexeme_value; exact Hlx|].
    exists w2. split; [exact Hw2|]. right. destruct IH as [(X & _)|(b & u & HL & -> & ->)]; [discriminate X|].
    exists b, u. auto.
  - intros k p w k' l1 v1 l2 v2 Hw Hk _ IH1 _ IH2. apply skip_ws in Hw.
    destruct k; [|destruct (Hk eq_refl)].
    destruct (container_value None k' l1 v1 IH1) as (j & J1 & J2 & _ & J3).
    change (itemsP KArr p (w ++ (opening k' :: l1) ++ l2) ((st_make None [opening k'] (opening_type k') :: v1) ++ v2)). rewrite J3.
    apply (element_then p w (opening k' :: l1) (doc_tokens None j) l2 v2 Hw); [exists j; auto|exact IH2].
  - intros p w1 nm w2 l vs Hw1 Hb Hr Hw2 _ (w3 & t & u & l2 & v2 & -> & -> & Hw3 & HV & HA). apply skip_ws in Hw1.
    destruct Hr as [[]|Hr]. apply member_then; assumption.
  - intros nm w t v ty l vs Hw Hlx _ _ IH. apply skip_ws in Hw.
    exists w, t, [st_make (Some nm) v ty], l, vs. repeat split; auto. apply lexeme_value. exact Hlx.
  - intros nm w k' l1 v1 l2 v2 Hw _ IH1 _ IH2. apply skip_ws in Hw.
    destruct (container_value (Some nm) k' l1 v1 IH1) as (j & J1 & J2 & _ & J3).
    exists w, (opening k' :: l1), (doc_tokens (Some nm) j), l2, v2. rewrite <- J3. repeat split; auto. exists j. auto.
  - intros nm w [].
  - intros k w Hw. exists w. split; [exact Hw|]. left. auto.
  - intros k w l vs Hw _ IH. exists w. split; [exact Hw|]. right.
    destruct IH as [(X & _)|(b & u & HL & -> & ->)]; [discriminate X|]. exists b, u. auto.
Qed.

(** ** The other direction *)

Scheme value_sind := Minimality for value_text Sort Prop
  with elems_sind := Minimality for elems_text Sort Prop
  with members_sind := Minimality for members_text Sort Prop.
Combined Scheme text_strict_ind from value_sind, elems_sind, members_sind.

Definition valueQ (j : json) (t : bytes) : Prop :=
  (exists v ty, lexeme no_dev t v ty /\ ty <> TAscii /\ forall nm, doc_tokens nm j = [st_make nm v ty]) \/
  (exists k l vs, t = opening k :: l /\ items no_dev k Fresh l vs /\
     forall nm, doc_tokens nm j = st_make nm [opening k] (opening_type k) :: vs).

Lemma strict_complete :
  (forall j t, value_text plain j t -> rfc_ok j -> valueQ j t) /\
  (forall els b, elems_text plain els b -> Forall rfc_ok els -> forall p,
     items no_dev KArr p (b ++ [rbrack]) (flat_map (doc_tokens None) els ++ [closer_tok KArr])) /\
  (forall ms b, members_text plain ms b -> Forall (fun kv => rfc_string (fst kv) /\ rfc_ok (snd kv)) ms -> forall p,
     items no_dev KObj p (b ++ [rbrace]) (flat_map member_tokens ms ++ [closer_tok KObj])).
Proof.
  apply text_strict_ind.
  - intros s Hs Hr. left. inversion Hr as [s0 Hr'| |]. subst.
    destruct s as [raw|raw| | |]; cbn in Hs, Hr' |- *.
    + exists raw, TString. repeat split; [constructor; auto|discriminate].
    + exists raw, TNumber. repeat split; [constructor; auto|discriminate].
    + exists b_true, TBool. repeat split; [constructor|discriminate].
    + exists b_false, TBool. repeat split; [constructor|discriminate].
    + exists b_null, TNull. repeat split; [constructor|discriminate].
  - intros w Hw _. right. exists KArr, (w ++ [rbrack]), [closer_tok KArr]. split; [reflexivity|].
    split; [apply (I_close no_dev KArr Fresh w); [apply skip_ws; exact Hw|left; reflexivity]|reflexivity].
  - intros els b _ IH Hr. inversion Hr as [|els0 Hr'|]. subst. right.
    exists KArr, (b ++ [rbrack]), (flat_map (doc_tokens None) els ++ [closer_tok KArr]). split; [reflexivity|].
    split; [apply IH; exact Hr'|reflexivity].
  - intros w Hw _. right. exists KObj, (w ++ [rbrace]), [closer_tok KObj]. split; [reflexivity|].
    split; [apply (I_close no_dev KObj Fresh w); [apply skip_ws; exact Hw|left; reflexivity]|reflexivity].
  - intros ms b _ IH Hr. inversion Hr as [| |ms0 Hr']. subst. right.
    exists KObj, (b ++ [rbrace]), (flat_map member_tokens ms ++ [closer_tok KObj]). split; [reflexivity|].
    split; [apply IH; exact Hr'|reflexivity].
  - intros v t w1 w2 Hw1 Hw2 _ IH Hr p. inversion Hr as [|? ? Hv _]. subst. cbn [flat_map]. rewrite app_nil_r, <- !app_assoc.
    destruct (IH Hv) as [(x & ty & Hlx & _ & E)|(k & l & vs & -> & HI & E)]; rewrite E.
    + apply (I_last no_dev p w1 t x ty w2); [apply skip_ws; exact Hw1|exact Hlx|exact Hw2].
    + apply (I_nested no_dev KArr p w1 k l vs (w2 ++ [rbrack]) [closer_tok KArr]); [apply skip_ws; exact Hw1|discriminate|exact HI|].
      apply (A_close no_dev KArr). exact Hw2.
  - intros v t w1 w2 els b Hw1 Hw2 _ IH _ IHE Hr p. inversion Hr as [|? ? Hv Hvs]. subst. cbn [flat_map].
    repeat (rewrite <- ?app_assoc; cbn [app]).
    destruct (IH Hv) as [(x & ty & Hlx & _ & E)|(k & l & vs & -> & HI & E)]; rewrite E.
    + apply (I_scalar no_dev p w1 t x ty w2); [apply skip_ws; exact Hw1|exact Hlx|exact Hw2|]. apply IHE. exact Hvs.
    + apply (I_nested no_dev KArr p w1 k l vs (w2 ++ comma :: b ++ [rbrack])); [apply skip_ws; exact Hw1|discriminate|exact HI|].
      apply (A_comma no_dev KArr); [exact Hw2|]. apply IHE. exact Hvs.
  - intros nm v t w1 w2 w3 w4 Hw1 Hw2 Hw3 Hw4 Hb _ IH Hr p. inversion Hr as [|? ? [Hn Hv] _]. subst. cbn [fst snd] in Hn, Hv.
    cbn [flat_map]. rewrite app_nil_r. unfold member_tokens. cbn [fst snd]. repeat (rewrite <- ?app_assoc; cbn [app]).
    apply I_member; auto; [apply skip_ws; exact Hw1|].
    destruct (IH Hv) as [(x & ty & Hlx & Hty & E)|(k & l & vs & -> & HI & E)]; rewrite E.
    + apply (M_scalar no_dev nm w3 t x ty); auto; [apply skip_ws; exact Hw3|]. apply (A_close no_dev KObj). exact Hw4.
    + cbn [app]. apply (M_nested no_dev nm w3 k l vs); auto; [apply skip_ws; exact Hw3|]. apply (A_close no_dev KObj). exact Hw4.
  - intros nm v t w1 w2 w3 w4 ms b Hw1 Hw2 Hw3 Hw4 Hb _ IH _ IHM Hr p. inversion Hr as [|? ? [Hn Hv] Hms]. subst. cbn [fst snd] in Hn, Hv.
    cbn [flat_map]. unfold member_tokens at 1. cbn [fst snd]. repeat (rewrite <- ?app_assoc; cbn [app]).
    apply I_member; auto; [apply skip_ws; exact Hw1|].
    destruct (IH Hv) as [(x & ty & Hlx & Hty & E)|(k & l & vs & -> & HI & E)]; rewrite E.
    + apply (M_scalar no_dev nm w3 t x ty); auto; [apply skip_ws; exact Hw3|]. apply (A_comma no_dev KObj); [exact Hw4|]. apply IHM. exact Hms.
    + cbn [app]. apply (M_nested no_dev nm w3 k l vs); auto; [apply skip_ws; exact Hw3|].
      apply (A_comma no_dev KObj); [exact Hw4|]. apply IHM. exact Hms.
Qed.

Theorem strict_is_json t vs : vs <> [] ->
  (accepted no_dev t vs <-> exists j, rfc_text j t /\ vs = doc_tokens None j).
Proof.
  intros Hvs. split.
  - intros H. destruct H as [w t Hw Ht|w k l1 v1 l2 v2 Hw HI HA Hv2]; [congruence|].
    destruct Hv2 as [-> |[]]. apply skip_ws in Hw.
    apply (proj1 strict_sound) in HI.
    destruct (container_value None k l1 v1 HI) as (j & J1 & J2 & J3 & J4).
    exists j. rewrite app_nil_r. split; [|exact J4]. split; [|exact J2]. split; [exact J3|].
    inversion HA as [w2 t2 Hw2 Ht2|]; subst.
    destruct Ht2 as [-> |[[] _]]. apply skip_ws in Hw2.
    exists w, (opening k :: l1), w2. rewrite app_nil_r. repeat split; assumption.
  - intros (j & ((Hc & w1 & t' & w2 & Hw1 & Hw2 & Hv & ->) & Hr) & ->).
    destruct (proj1 strict_complete j t' Hv Hr) as [(v & ty & _ & _ & E)|(k & l & vs & -> & HI & E)].
    + exfalso. destruct j; [exact Hc| |]; specialize (E None); apply (f_equal (@length _)) in E; cbn in E; rewrite app_length in E; cbn in E; clear - E; lia.
    + rewrite E. rewrite <- (app_nil_r vs).
      apply (AC_root no_dev w1 k l vs w2 []); [apply skip_ws; exact Hw1|exact HI| |left; reflexivity].
      rewrite <- (app_nil_r w2). apply AC_end; [apply skip_ws; exact Hw2|left; reflexivity].
Qed.
