(** The comparison code on the tokens of two documents, as a function on trees. *)
From Verif Require Import Base Tactics ScanModel TokModel JsonSpec TokSpec MapModel MapSpec SerDoc MapProofs MapProofs2 MapProofs3 DiffModel DiffSpec.
From Coq Require Import Lia.

(** ** Values inside the tokens of a document *)

Definition placed (d : dsrc) (p : nat) (name : option bytes) (j : json) : Prop :=
  (exists l ts r, ds_tokens d = l ++ ts ++ r /\ length l = p /\ map tok_view ts = doc_tokens name j) /\
  (exists ml mr, ds_meta d = ml ++ tree_meta p j ++ mr /\ Forall (fun m => m_pos m < p) ml).

Lemma src_placed j d : src_of j d -> placed d 0 None j.
Proof.
  intros [H1 H2]. split.
  - exists [], (ds_tokens d), []. cbn. rewrite app_nil_r. auto.
  - rewrite (metaForTokens_spec _ None j) in H2.
    + injection H2 as <-. exists [], []. cbn. rewrite app_nil_r. auto.
    + unfold doc_types. rewrite <- H1, map_map. apply map_ext. reflexivity.
Qed.

Lemma src_length j d : src_of j d -> length (ds_tokens d) = ntok j.
Proof. intros [H _]. rewrite <- (map_length tok_view), H. apply ntok_name. Qed.

Lemma placed_head d p name j : placed d p name j ->
  exists t v r, nth_error (ds_tokens d) p = Some t /\ doc_tokens name j = v :: r /\ tok_view t = v.
Proof.
  intros [(l & ts & r & E & Hl & Ht) _].
  assert (Hd : exists v vs, doc_tokens name j = v :: vs) by (destruct j; do 2 eexists; reflexivity).
  destruct Hd as (v & vs & Hd). rewrite Hd in Ht. apply map_eq_cons in Ht. destruct Ht as (t & ts' & -> & Hv & _).
  exists t, v, vs. split; [|auto]. rewrite E, <- Hl, nth_error_app2, Nat.sub_diag by lia. reflexivity.
Qed.

Definition jtype (j : json) : type :=
  match j with JScalar s => scalar_type s | JArr _ => TArrayStart | JObj _ => TObjectStart end.

Lemma placed_token d p name j : placed d p name j ->
  exists t, nth_error (ds_tokens d) p = Some t /\ tk_value_type t = jtype j /\
    tok_view t = st_make name match j with JScalar s => scalar_value s | JArr _ => [lbrack] | JObj _ => [lbrace] end (jtype j).
Proof.
  intros H. destruct (placed_head _ _ _ _ H) as (t & v & r & E & Hd & Hv). exists t. split; [exact E|].
  assert (Hv2 : tok_view t = st_make name match j with JScalar s => scalar_value s | JArr _ => [lbrack] | JObj _ => [lbrace] end (jtype j)).
  { rewrite Hv. destruct j; cbn in Hd; injection Hd as <- _; reflexivity. }
  split; [|exact Hv2]. change (tk_value_type t) with (st_value_type (tok_view t)). rewrite Hv2. destruct name; reflexivity.
Qed.

Lemma placed_find d p name j x r : placed d p name j -> tree_meta p j = x :: r -> m_pos x = p ->
  find (fun m => Nat.eqb (m_pos m) p) (ds_meta d) = Some x.
Proof.
  intros [_ (ml & mr & -> & Hml)] Ex Ep. rewrite Ex. cbn [app].
  induction Hml as [|m ml Hm _ IH]; cbn [app find].
  - rewrite Ep, Nat.eqb_refl. reflexivity.
  - destruct (Nat.eqb_spec (m_pos m) p); [lia|exact IH].
Qed.

Lemma placed_skip d p name j : placed d p name j -> d_skip d p = Ok (p + ntok j).
Proof.
  intros H. unfold d_skip. destruct (placed_token _ _ _ _ H) as (t & -> & -> & _).
  destruct j as [s|els|ms].
  - change (ntok (JScalar s)) with 1. rewrite Nat.add_1_r. destruct s; reflexivity.
  - cbn [jtype isComplexValue]. erewrite placed_find by (first [exact H|reflexivity]). reflexivity.
  - cbn [jtype isComplexValue]. erewrite placed_find by (first [exact H|reflexivity]). reflexivity.
Qed.

Lemma placed_children d p name j : placed d p name j ->
  childCount d p = Ok (match j with JScalar _ => 0 | JArr els => length els | JObj ms => length ms end) \/ exists s, j = JScalar s.
Proof.
  intros H. unfold childCount. destruct (placed_token _ _ _ _ H) as (t & -> & _ & _).
  destruct j as [s|els|ms]; [right; eauto|left..]; (erewrite placed_find by (first [exact H|reflexivity])); reflexivity.
Qed.

(** Members and elements. *)
Lemma placed_member d p name ms pre k v post : placed d p name (JObj ms) -> ms = pre ++ (k, v) :: post ->
  placed d (S p + msum ntok pre) (Some k) v.
Proof.
  intros [(l & ts & r & E & Hl & Ht) (ml & mr & Em & Hml)] ->. split.
  - cbn [doc_tokens] in Ht. apply map_eq_cons in Ht. destruct Ht as (t0 & ts1 & -> & _ & Ht).
    apply map_eq_app in Ht. destruct Ht as (mid & e & -> & Hmid & _).
    change (map tok_view mid = member_tokens (pre ++ (k, v) :: post)) in Hmid. rewrite member_tokens_app in Hmid.
    apply map_eq_app in Hmid. destruct Hmid as (a & b & -> & Ha & Hb).
    change (map tok_view b = doc_tokens (Some k) v ++ member_tokens post) in Hb.
    apply map_eq_app in Hb. destruct Hb as (b1 & b2 & -> & Hb1 & _).
    exists (l ++ t0 :: a), b1, (b2 ++ e ++ r). split.
    + rewrite E. napp. reflexivity.
    + split; [|exact Hb1]. rewrite app_length. cbn [length].
      assert (length a = msum ntok pre) by (rewrite <- member_tokens_length, <- Ha, map_length; reflexivity). lia.
  - rewrite tree_obj_eq, member_meta_app in Em. cbn [app member_meta snd] in Em.
    exists (ml ++ mkMeta p (ntok (JObj (pre ++ (k, v) :: post))) (containers (JObj (pre ++ (k, v) :: post)))
      (length (pre ++ (k, v) :: post)) (msum complex (pre ++ (k, v) :: post)) false (has_scalar (JObj (pre ++ (k, v) :: post)))
      :: member_meta (S p) pre), (member_meta (S p + msum ntok pre + ntok v) post ++ mr). split.
    + rewrite Em. napp. reflexivity.
    + apply Forall_app. split; [eapply Forall_impl; [|exact Hml]; cbn beta; intros; lia|].
      constructor; [cbn [m_pos]; lia|]. eapply Forall_impl; [|apply member_meta_pos]. cbn beta. intros. lia.
Qed.

Definition esum (f : json -> nat) (l : list json) : nat := list_sum (map f l).
Lemma esum_app f a b : esum f (a ++ b) = esum f a + esum f b.
Proof. unfold esum. rewrite map_app, list_sum_app. reflexivity. Qed.
Lemma esum_cons f a b : esum f (a :: b) = f a + esum f b.
Proof. reflexivity. Qed.
Lemma ntok_JArr els : ntok (JArr els) = esum ntok els + 2.
Proof. rewrite ntok_arr, tsum_map. reflexivity. Qed.
Lemma element_tokens_length els : length (flat_map (doc_tokens None) els) = esum ntok els.
Proof. rewrite flat_length. reflexivity. Qed.
Lemma list_meta_app a : forall p b, list_meta tree_meta p (a ++ b) = list_meta tree_meta p a ++ list_meta tree_meta (p + esum ntok a) b.
Proof.
  induction a as [|v a IH]; intros p b.
  - cbn [app esum map list_sum fold_right]. rewrite Nat.add_0_r. reflexivity.
  - change (tree_meta p v ++ list_meta tree_meta (p + ntok v) (a ++ b) =
      (tree_meta p v ++ list_meta tree_meta (p + ntok v) a) ++ list_meta tree_meta (p + esum ntok (v :: a)) b).
    rewrite IH, esum_cons, Nat.add_assoc, app_assoc. reflexivity.
Qed.
Lemma list_meta_pos els : forall p, Forall (fun m => p <= m_pos m < p + esum ntok els) (list_meta tree_meta p els).
Proof.
  induction els as [|v els IH]; intros p; [constructor|]. rewrite esum_cons.
  change (list_meta tree_meta p (v :: els)) with (tree_meta p v ++ list_meta tree_meta (p + ntok v) els).
  apply Forall_app. split; [eapply Forall_impl; [|apply tree_meta_pos]|eapply Forall_impl; [|apply IH]]; cbn beta; intros; lia.
Qed.

Lemma placed_element d p name els pre v post : placed d p name (JArr els) -> els = pre ++ v :: post ->
  placed d (S p + esum ntok pre) None v.
Proof.
  intros [(l & ts & r & E & Hl & Ht) (ml & mr & Em & Hml)] ->. split.
  - cbn [doc_tokens] in Ht. apply map_eq_cons in Ht. destruct Ht as (t0 & ts1 & -> & _ & Ht).
    apply map_eq_app in Ht. destruct Ht as (mid & e & -> & Hmid & _). rewrite flat_map_app in Hmid.
    apply map_eq_app in Hmid. destruct Hmid as (a & b & -> & Ha & Hb). cbn [flat_map] in Hb.
    apply map_eq_app in Hb. destruct Hb as (b1 & b2 & -> & Hb1 & _).
    exists (l ++ t0 :: a), b1, (b2 ++ e ++ r). split.
    + rewrite E. napp. reflexivity.
    + split; [|exact Hb1]. rewrite app_length. cbn [length].
      assert (length a = esum ntok pre) by (rewrite <- element_tokens_length, <- Ha, map_length; reflexivity). lia.
  - cbn [tree_meta] in Em. rewrite list_meta_app in Em. cbn [app] in Em.
    match type of Em with _ = ml ++ ?h :: _ => exists (ml ++ h :: list_meta tree_meta (S p) pre), (list_meta tree_meta (S p + esum ntok pre + ntok v) post ++ mr) end.
    split.
    + rewrite Em. change (list_meta tree_meta (S p + esum ntok pre) (v :: post)) with
        (tree_meta (S p + esum ntok pre) v ++ list_meta tree_meta (S p + esum ntok pre + ntok v) post).
      napp. reflexivity.
    + apply Forall_app. split; [eapply Forall_impl; [|exact Hml]; cbn beta; intros; lia|].
      constructor; [cbn [m_pos]; lia|]. eapply Forall_impl; [|apply list_meta_pos]. cbn beta. intros. lia.
Qed.

Lemma placed_end_obj d p name ms : placed d p name (JObj ms) ->
  exists t, nth_error (ds_tokens d) (S p + msum ntok ms) = Some t /\ tk_value_type t = TObjectEnd /\
    tok_view t = st_make None [rbrace] TObjectEnd.
Proof.
  intros [(l & ts & r & E & Hl & Ht) _]. cbn [doc_tokens] in Ht. apply map_eq_cons in Ht. destruct Ht as (t0 & ts1 & -> & _ & Ht).
  apply map_eq_app in Ht. destruct Ht as (mid & e & -> & Hmid & He).
  apply map_eq_cons in He. destruct He as (t1 & e' & -> & H1 & _).
  change (map tok_view mid = member_tokens ms) in Hmid.
  assert (length mid = msum ntok ms) by (rewrite <- member_tokens_length, <- Hmid, map_length; reflexivity).
  exists t1. split.
  - rewrite E. replace (l ++ (t0 :: mid ++ t1 :: e') ++ r) with ((l ++ t0 :: mid) ++ t1 :: e' ++ r) by (napp; reflexivity).
    rewrite nth_error_app2 by (rewrite app_length; cbn [length]; lia).
    replace (S p + msum ntok ms - length (l ++ t0 :: mid)) with 0 by (rewrite app_length; cbn [length]; lia). reflexivity.
  - split; [change (st_value_type (tok_view t1) = TObjectEnd); rewrite H1; reflexivity|exact H1].
Qed.
Lemma placed_end_arr d p name els : placed d p name (JArr els) ->
  exists t, nth_error (ds_tokens d) (S p + esum ntok els) = Some t /\ tk_value_type t = TArrayEnd /\
    tok_view t = st_make None [rbrack] TArrayEnd.
Proof.
  intros [(l & ts & r & E & Hl & Ht) _]. cbn [doc_tokens] in Ht. apply map_eq_cons in Ht. destruct Ht as (t0 & ts1 & -> & _ & Ht).
  apply map_eq_app in Ht. destruct Ht as (mid & e & -> & Hmid & He).
  apply map_eq_cons in He. destruct He as (t1 & e' & -> & H1 & _).
  assert (length mid = esum ntok els) by (rewrite <- element_tokens_length, <- Hmid, map_length; reflexivity).
  exists t1. split.
  - rewrite E. replace (l ++ (t0 :: mid ++ t1 :: e') ++ r) with ((l ++ t0 :: mid) ++ t1 :: e' ++ r) by (napp; reflexivity).
    rewrite nth_error_app2 by (rewrite app_length; cbn [length]; lia).
    replace (S p + esum ntok els - length (l ++ t0 :: mid)) with 0 by (rewrite app_length; cbn [length]; lia). reflexivity.
  - split; [change (st_value_type (tok_view t1) = TArrayEnd); rewrite H1; reflexivity|exact H1].
Qed.

Lemma placed_length d p name j : placed d p name j -> p + ntok j <= length (ds_tokens d).
Proof.
  intros [(l & ts & r & -> & <- & Ht) _]. rewrite !app_length.
  assert (length ts = ntok j) by (rewrite <- (map_length tok_view), Ht; apply ntok_name). lia.
Qed.

(** ** Walking over a value *)

Definition ev_view (e : event token) : event stoken :=
  match e with Mark p t => Mark p t | LostMember p tk => LostMember p (tok_view tk) | LostItem p tk => LostItem p (tok_view tk) end.

(** The writes for the tokens [vs] from position [p] on. *)
Fixpoint writes_for (w : nat -> stoken -> event stoken) (p : nat) (vs : list stoken) : list (event stoken) :=
  match vs with [] => [] | v :: r => w p v :: writes_for w (S p) r end.
Lemma writes_for_app w vs : forall p vs', writes_for w p (vs ++ vs') = writes_for w p vs ++ writes_for w (p + length vs) vs'.
Proof.
  induction vs as [|v vs IH]; intros p vs'; cbn [app writes_for length].
  - rewrite Nat.add_0_r. reflexivity.
  - rewrite IH. cbn [app]. do 3 f_equal. lia.
Qed.

Section Walk.
Context (d : dsrc) (w : nat -> token -> event token) (w' : nat -> stoken -> event stoken).
Hypothesis Hw : forall p t, ev_view (w p t) = w' p (tok_view t).

Definition walk_needs (j : json) : nat := 2 * ntok j.

Lemma walk_value j : forall f p name, placed d p name j -> walk_needs j <= f ->
  exists es, walk f d w p = Ok es /\ map ev_view es = writes_for w' p (doc_tokens name j).
Proof.
  induction j as [s|els IH|ms IH] using json_rect_nested; intros f p name Hp Hf; unfold walk_needs in *.
  - change (ntok (JScalar s)) with 1 in Hf. destruct f as [|f]; [lia|]. cbn [walk].
    destruct (placed_token _ _ _ _ Hp) as (t & -> & Et & Hv). rewrite Et.
    exists [w p t]. split; [destruct s; reflexivity|]. cbn. rewrite Hw, Hv. reflexivity.
  - rewrite ntok_JArr in Hf. destruct f as [|f]; [lia|]. cbn [walk].
    destruct (placed_token _ _ _ _ Hp) as (t & -> & Et & Hv). rewrite Et. cbn [jtype isComplexValue].
    assert (G : forall post pre f, els = pre ++ post -> 2 * esum ntok post + 1 <= f ->
       exists es, walk_loop f d w (S p + esum ntok pre) = Ok es /\
         map ev_view es = writes_for w' (S p + esum ntok pre) (flat_map (doc_tokens None) post ++ [st_make None [rbrack] TArrayEnd])).
    { induction post as [|v post IHp]; intros pre f0 E Hf0; (destruct f0 as [|f0]; [lia|]); cbn [walk_loop].
      - rewrite app_nil_r in E. subst pre. destruct (placed_end_arr _ _ _ _ Hp) as (te & -> & Ete & Hve). rewrite Ete.
        cbn [isComplexValue isEnd]. eexists. split; [reflexivity|]. cbn. rewrite Hw, Hve. reflexivity.
      - assert (Hpv := placed_element _ _ _ _ _ _ _ Hp E). destruct (placed_token _ _ _ _ Hpv) as (tv & -> & Etv & Hvv).
        rewrite Etv. rewrite (placed_skip _ _ _ _ Hpv). rewrite esum_cons in Hf0.
        assert (Hn := ntok_pos v).
        destruct (IHp (pre ++ [v]) f0) as (er & Er & Hr); [rewrite <- app_assoc; exact E|lia|].
        rewrite esum_app in Er, Hr. change (esum ntok [v]) with (ntok v + 0) in Er, Hr. rewrite Nat.add_0_r, Nat.add_assoc in Er, Hr.
        cbn [flat_map]. rewrite <- app_assoc, writes_for_app.
        replace (length (doc_tokens None v)) with (ntok v) by reflexivity.
        assert (Hv1 : Forall (fun j => forall f p name, placed d p name j -> 2 * ntok j <= f ->
           exists es, walk f d w p = Ok es /\ map ev_view es = writes_for w' p (doc_tokens name j)) els) by exact IH.
        rewrite E in Hv1. apply Forall_app in Hv1. destruct Hv1 as [_ Hv1]. inversion Hv1 as [|? ? Hv2 _]; subst x l.
        destruct v as [s|e2|m2].
        + cbn [jtype]. assert (Hs : isComplexValue (scalar_type s) = false /\ isEnd (scalar_type s) = false) by (destruct s; auto).
          destruct Hs as [-> ->]. cbn [obind]. rewrite Er. cbn [obind]. eexists. split; [reflexivity|].
          cbn [map]. rewrite Hr, Hw, Hvv. reflexivity.
        + cbn [jtype isComplexValue]. destruct (Hv2 f0 _ None Hpv) as (ev & -> & Hev); [lia|]. cbn [obind]. rewrite Er. cbn [obind].
          eexists. split; [reflexivity|]. rewrite map_app, Hev, Hr. reflexivity.
        + cbn [jtype isComplexValue]. destruct (Hv2 f0 _ None Hpv) as (ev & -> & Hev); [lia|]. cbn [obind]. rewrite Er. cbn [obind].
          eexists. split; [reflexivity|]. rewrite map_app, Hev, Hr. reflexivity. }
    destruct (G els [] f eq_refl ltac:(lia)) as (es & Ees & Hes). change (esum ntok []) with 0 in Ees, Hes. rewrite Nat.add_0_r in Ees, Hes.
    rewrite Ees. cbn [obind]. eexists. split; [reflexivity|]. cbn [map doc_tokens writes_for]. rewrite Hw, Hv, Hes. reflexivity.
  - rewrite ntok_JObj in Hf. destruct f as [|f]; [lia|]. cbn [walk].
    destruct (placed_token _ _ _ _ Hp) as (t & -> & Et & Hv). rewrite Et. cbn [jtype isComplexValue].
    assert (G : forall post pre f, ms = pre ++ post -> 2 * msum ntok post + 1 <= f ->
       exists es, walk_loop f d w (S p + msum ntok pre) = Ok es /\
         map ev_view es = writes_for w' (S p + msum ntok pre) (member_tokens post ++ [st_make None [rbrace] TObjectEnd])).
    { induction post as [|[k v] post IHp]; intros pre f0 E Hf0; (destruct f0 as [|f0]; [lia|]); cbn [walk_loop].
      - rewrite app_nil_r in E. subst pre. destruct (placed_end_obj _ _ _ _ Hp) as (te & -> & Ete & Hve). rewrite Ete.
        cbn [isComplexValue isEnd]. eexists. split; [reflexivity|]. cbn. rewrite Hw, Hve. reflexivity.
      - assert (Hpv := placed_member _ _ _ _ _ _ _ _ Hp E). destruct (placed_token _ _ _ _ Hpv) as (tv & -> & Etv & Hvv).
        rewrite Etv. rewrite (placed_skip _ _ _ _ Hpv). rewrite msum_cons in Hf0. cbn [snd] in Hf0.
        assert (Hn := ntok_pos v).
        destruct (IHp (pre ++ [(k, v)]) f0) as (er & Er & Hr); [rewrite <- app_assoc; exact E|lia|].
        rewrite msum_app in Er, Hr. change (msum ntok [(k, v)]) with (ntok v + 0) in Er, Hr. rewrite Nat.add_0_r, Nat.add_assoc in Er, Hr.
        change (member_tokens ((k, v) :: post)) with (doc_tokens (Some k) v ++ member_tokens post).
        rewrite <- app_assoc, writes_for_app, ntok_name.
        assert (Hv1 : Forall (fun kv => forall f p name, placed d p name (snd kv) -> 2 * ntok (snd kv) <= f ->
           exists es, walk f d w p = Ok es /\ map ev_view es = writes_for w' p (doc_tokens name (snd kv))) ms) by exact IH.
        rewrite E in Hv1. apply Forall_app in Hv1. destruct Hv1 as [_ Hv1]. inversion Hv1 as [|? ? Hv2 _]; subst x l. cbn [snd] in Hv2.
        destruct v as [s|e2|m2].
        + cbn [jtype]. assert (Hs : isComplexValue (scalar_type s) = false /\ isEnd (scalar_type s) = false) by (destruct s; auto).
          destruct Hs as [-> ->]. cbn [obind]. rewrite Er. cbn [obind]. eexists. split; [reflexivity|].
          cbn [map]. rewrite Hr, Hw, Hvv. reflexivity.
        + cbn [jtype isComplexValue]. destruct (Hv2 f0 _ (Some k) Hpv) as (ev & -> & Hev); [lia|]. cbn [obind]. rewrite Er. cbn [obind].
          eexists. split; [reflexivity|]. rewrite map_app, Hev, Hr. reflexivity.
        + cbn [jtype isComplexValue]. destruct (Hv2 f0 _ (Some k) Hpv) as (ev & -> & Hev); [lia|]. cbn [obind]. rewrite Er. cbn [obind].
          eexists. split; [reflexivity|]. rewrite map_app, Hev, Hr. reflexivity. }
    destruct (G ms [] f eq_refl ltac:(lia)) as (es & Ees & Hes). change (msum ntok []) with 0 in Ees, Hes. rewrite Nat.add_0_r in Ees, Hes.
    rewrite Ees. cbn [obind]. eexists. split; [reflexivity|]. cbn [map doc_tokens writes_for]. rewrite Hw, Hv, Hes. reflexivity.
Qed.
End Walk.
