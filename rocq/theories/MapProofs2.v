(** Iterating, searching and updating a JS::Map. *)
From Verif Require Import Base Tactics ScanModel TokModel JsonSpec MapModel MapSpec SerDoc MapProofs.
From Coq Require Import Lia.

Lemma bytes_eqb_spec a b : reflect (a = b) (bytes_eqb a b).
Proof.
  revert b. induction a as [|x a IH]; intros [|y b]; cbn; try (constructor; congruence).
  destruct (Byte.eqb x y) eqn:E; cbn.
  - apply byte_dec_bl in E. subst. destruct (IH b); constructor; congruence.
  - constructor. intros H. injection H as -> _. rewrite byte_dec_lb in E by reflexivity. discriminate.
Qed.

Definition msum (f : json -> nat) (ms : list (bytes * json)) : nat := list_sum (map (fun kv => f (snd kv)) ms).

Lemma msum_app f a b : msum f (a ++ b) = msum f a + msum f b.
Proof. unfold msum. rewrite map_app, list_sum_app. reflexivity. Qed.
Lemma msum_cons f kv b : msum f (kv :: b) = f (snd kv) + msum f b.
Proof. reflexivity. Qed.

Lemma ntok_pos j : 1 <= ntok j.
Proof. destruct j; unfold ntok; cbn; lia. Qed.

Lemma ntok_JObj ms : ntok (JObj ms) = msum ntok ms + 2.
Proof. rewrite ntok_obj, tsum_map. reflexivity. Qed.

Lemma member_tokens_length ms : length (member_tokens ms) = msum ntok ms.
Proof.
  unfold member_tokens, msum. rewrite flat_length. f_equal. apply map_ext. intros. apply ntok_name.
Qed.
Lemma member_tokens_app a b : member_tokens (a ++ b) = member_tokens a ++ member_tokens b.
Proof. apply flat_map_app. Qed.

Lemma list_meta_length els : Forall (fun j => forall p, length (tree_meta p j) = containers j) els ->
  forall p, length (list_meta tree_meta p els) = list_sum (map containers els).
Proof. induction 1 as [|j els Hj _ IH]; intros p; [reflexivity|]. cbn. rewrite app_length, Hj, IH. reflexivity. Qed.

Lemma tree_obj_eq pos ms : tree_meta pos (JObj ms) =
  mkMeta pos (ntok (JObj ms)) (containers (JObj ms)) (length ms) (msum complex ms) false (has_scalar (JObj ms))
  :: member_meta (S pos) ms.
Proof.
  reflexivity.
Qed.

Lemma tree_meta_length j : forall p, length (tree_meta p j) = containers j.
Proof.
  induction j as [s|els IH|ms IH] using json_rect_nested; intros p; [reflexivity| |].
  - cbn [tree_meta length containers]. f_equal. apply list_meta_length. exact IH.
  - rewrite tree_obj_eq. cbn [length containers]. f_equal. generalize (S p).
    induction IH as [|kv ms Hk _ IHl]; intros q; [reflexivity|]. cbn. rewrite app_length, Hk, IHl. reflexivity.
Qed.

Lemma member_meta_length ms : forall p, length (member_meta p ms) = msum containers ms.
Proof. induction ms as [|kv ms IH]; intros p; [reflexivity|]. cbn [member_meta]. rewrite app_length, IH, tree_meta_length. reflexivity. Qed.

Lemma member_meta_app a : forall p b, member_meta p (a ++ b) = member_meta p a ++ member_meta (p + msum ntok a) b.
Proof.
  induction a as [|kv a IH]; intros p b; cbn [app member_meta].
  - rewrite Nat.add_0_r. reflexivity.
  - rewrite IH, msum_cons, Nat.add_assoc, app_assoc. reflexivity.
Qed.

(** Positions lie inside the value. *)
Lemma tree_meta_pos j : forall p, Forall (fun m => p <= m_pos m < p + ntok j) (tree_meta p j).
Proof.
  induction j as [s|els IH|ms IH] using json_rect_nested; intros p; [constructor| |].
  - cbn [tree_meta]. replace (ntok (JArr els)) with (list_sum (map ntok els) + 2) by (rewrite ntok_arr, tsum_map; reflexivity).
    constructor; [cbn [m_pos]; lia|].
    assert (G : forall q, Forall (fun m => q <= m_pos m < q + list_sum (map ntok els)) (list_meta tree_meta q els)).
    { induction IH as [|j els Hj _ IHl]; intros q; [constructor|].
      change (list_sum (map ntok (j :: els))) with (ntok j + list_sum (map ntok els)).
      change (list_meta tree_meta q (j :: els)) with (tree_meta q j ++ list_meta tree_meta (q + ntok j) els).
      apply Forall_app. split; [eapply Forall_impl; [|apply Hj]|eapply Forall_impl; [|apply IHl]]; cbn beta; intros; lia. }
    eapply Forall_impl; [|apply G]. cbn beta. intros m. lia.
  - rewrite tree_obj_eq, ntok_JObj. constructor; [cbn; lia|].
    assert (G : forall q, Forall (fun m => q <= m_pos m < q + msum ntok ms) (member_meta q ms)).
    { induction IH as [|kv ms Hk _ IHl]; intros q; [constructor|].
      rewrite msum_cons. cbn [member_meta].
      apply Forall_app. split; [eapply Forall_impl; [|apply Hk]|eapply Forall_impl; [|apply IHl]]; cbn beta; intros; lia. }
    eapply Forall_impl; [|apply G]. cbn beta. intros m. lia.
Qed.
Lemma member_meta_pos ms : forall p, Forall (fun m => p <= m_pos m < p + msum ntok ms) (member_meta p ms).
Proof.
  induction ms as [|kv ms IH]; intros p; [constructor|]. rewrite msum_cons. cbn [member_meta].
  apply Forall_app. split; [eapply Forall_impl; [|apply tree_meta_pos]|eapply Forall_impl; [|apply IH]]; cbn beta; intros; lia.
Qed.

(** ** The iterator *)

(** The iterator that stands after the members [pre]. *)
Definition it_at (m : jmap) (pre : list (bytes * json)) : mapit :=
  mkIt (1 + msum ntok pre) (1 + msum containers pre) (next_complex m (1 + msum containers pre)).

Section Iter.
Context (m : jmap) (ms : list (bytes * json)) (d : bool) (t0 : token) (mid : list token) (t1 : token).
Hypothesis Htok : mp_tokens m = t0 :: mid ++ [t1].
Hypothesis Hmid : map tok_view mid = member_tokens ms.
Context (root : jmeta).
Hypothesis Hmeta : mp_meta m = root :: member_meta 1 ms.

Lemma tokens_length : length (mp_tokens m) = msum ntok ms + 2.
Proof.
  rewrite Htok. cbn [length]. rewrite app_length. cbn [length].
  assert (length mid = msum ntok ms) by (rewrite <- member_tokens_length, <- Hmid, map_length; reflexivity). lia.
Qed.

Lemma meta_after pre post : ms = pre ++ post ->
  nth_error (mp_meta m) (1 + msum containers pre) = nth_error (member_meta (1 + msum ntok pre) post) 0.
Proof.
  intros E. rewrite Hmeta. cbn [Nat.add nth_error]. rewrite E, member_meta_app.
  rewrite nth_error_app2 by (rewrite member_meta_length; lia). rewrite member_meta_length, Nat.sub_diag. reflexivity.
Qed.

Lemma complex_after pre post : ms = pre ++ post -> next_complex m (1 + msum containers pre) =
  match member_meta (1 + msum ntok pre) post with [] => msum ntok ms + 2 | x :: _ => m_pos x end.
Proof.
  intros E. unfold next_complex. rewrite (meta_after pre post E), tokens_length.
  destruct (member_meta _ post); reflexivity.
Qed.

(** A member is skipped as a whole. *)
Lemma it_step pre k v post : ms = pre ++ (k, v) :: post ->
  it_next m (it_at m pre) = Ok (it_at m (pre ++ [(k, v)])).
Proof.
  intros E. unfold it_next, it_at. cbn [it_index it_meta it_complex].
  rewrite (complex_after pre _ E), (meta_after pre _ E). rewrite !msum_app, !msum_cons. cbn [snd].
  change (msum ntok []) with 0. change (msum containers []) with 0. rewrite !Nat.add_0_r.
  destruct v as [s|els|mm].
  - cbn [member_meta tree_meta app snd].
    assert (N : 1 + msum ntok pre <> match member_meta (1 + msum ntok pre + ntok (JScalar s)) post with
                               | [] => msum ntok ms + 2 | x :: _ => m_pos x end).
    { destruct (member_meta _ post) as [|x r] eqn:Em.
      - assert (msum ntok pre <= msum ntok ms) by (rewrite E, msum_app; lia). lia.
      - assert (H := member_meta_pos post (1 + msum ntok pre + ntok (JScalar s))). rewrite Em in H.
        inversion H as [|? ? H1 _]; subst. assert (ntok (JScalar s) = 1) by reflexivity. lia. }
    destruct (Nat.eqb_spec (1 + msum ntok pre) (match member_meta (1 + msum ntok pre + ntok (JScalar s)) post with
                               | [] => msum ntok ms + 2 | x :: _ => m_pos x end)) as [H|_]; [contradiction|].
    cbn [containers]. rewrite Nat.add_0_r. f_equal. f_equal.
    + assert (ntok (JScalar s) = 1) by reflexivity. lia.
    + symmetry. rewrite (complex_after pre _ E). reflexivity.
  - cbn [member_meta tree_meta app snd m_pos nth_error]. rewrite Nat.eqb_refl. cbn [m_size m_skip].
    rewrite !Nat.add_assoc. reflexivity.
  - cbn [member_meta snd]. rewrite tree_obj_eq. cbn [app m_pos nth_error]. rewrite Nat.eqb_refl. cbn [m_size m_skip].
    rewrite !Nat.add_assoc. reflexivity.
Qed.

(** From the closing bracket to the end. *)
Lemma it_last : it_next m (it_at m ms) = Ok (mkIt (length (mp_tokens m)) (1 + msum containers ms) (length (mp_tokens m))).
Proof.
  unfold it_next, it_at. cbn [it_index it_meta it_complex].
  rewrite (complex_after ms [] (eq_sym (app_nil_r ms))). cbn [member_meta].
  destruct (Nat.eqb_spec (1 + msum ntok ms) (msum ntok ms + 2)) as [H|_]; [lia|].
  rewrite tokens_length. do 2 f_equal. lia.
Qed.

Lemma begin_at : it_begin m = it_at m [].
Proof. reflexivity. Qed.

(** The token the iterator points to. *)
Lemma token_at pre k v post : ms = pre ++ (k, v) :: post ->
  exists tk, nth_error (mp_tokens m) (1 + msum ntok pre) = Some tk /\
    dr_bytes (tk_name tk) = k /\ tok_view tk = hd (tok_view tk) (doc_tokens (Some k) v).
Proof.
  intros E. rewrite Htok. cbn [Nat.add nth_error].
  assert (Hm : map tok_view mid = member_tokens pre ++ doc_tokens (Some k) v ++ member_tokens post).
  { rewrite Hmid, E, member_tokens_app. reflexivity. }
  apply map_eq_app in Hm. destruct Hm as (a & b & -> & Ha & Hb).
  assert (La : length a = msum ntok pre) by (rewrite <- member_tokens_length, <- Ha, map_length; reflexivity).
  apply map_eq_app in Hb. destruct Hb as (b1 & b2 & -> & Hb1 & Hb2).
  assert (Hd : exists v0 r, doc_tokens (Some k) v = v0 :: r /\ st_name v0 = k) by (destruct v; do 2 eexists; split; reflexivity).
  destruct Hd as (v0 & r & Hd & Hk). rewrite Hd in Hb1. apply map_eq_cons in Hb1. destruct Hb1 as (tk & tl & -> & Hv & _).
  exists tk. rewrite <- La, <- app_assoc, nth_error_app2, Nat.sub_diag by lia. cbn. split; [reflexivity|].
  rewrite Hd. cbn [hd]. split; [|exact Hv]. rewrite <- Hk, <- Hv. reflexivity.
Qed.

Lemma closing_at : nth_error (mp_tokens m) (1 + msum ntok ms) = Some t1.
Proof.
  rewrite Htok. cbn [Nat.add nth_error].
  assert (length mid = msum ntok ms) by (rewrite <- member_tokens_length, <- Hmid, map_length; reflexivity).
  rewrite nth_error_app2 by lia. rewrite <- H, Nat.sub_diag. reflexivity.
Qed.

Lemma not_end pre post : ms = pre ++ post -> (1 + msum ntok pre =? length (mp_tokens m)) = false.
Proof. intros E. apply Nat.eqb_neq. rewrite tokens_length, E, msum_app. lia. Qed.

(** Searching. *)
Lemma find_present name v : forall pre2 post pre1 f, ms = pre1 ++ pre2 ++ (name, v) :: post ->
  ~ In name (map fst pre2) -> length pre2 < f ->
  find_from f m (fun tk => bytes_eqb (dr_bytes (tk_name tk)) name) (it_at m pre1) = Ok (it_at m (pre1 ++ pre2)).
Proof.
  induction pre2 as [|[k w] pre2 IH]; intros post pre1 f E Hn Hf; (destruct f as [|f]; [lia|]); cbn [find_from].
  - cbn [it_at it_index]. rewrite (not_end pre1 _ E).
    destruct (token_at pre1 name v post E) as (tk & -> & Hk & _). cbn beta. rewrite Hk.
    destruct (bytes_eqb_spec name name); [|congruence]. rewrite app_nil_r. reflexivity.
  - cbn [it_at it_index]. rewrite (not_end pre1 _ E).
    destruct (token_at pre1 k w (pre2 ++ (name, v) :: post) E) as (tk & -> & Hk & _). cbn beta. rewrite Hk.
    destruct (bytes_eqb_spec k name) as [->|Hne]; [exfalso; apply Hn; left; reflexivity|].
    fold (it_at m pre1). rewrite (it_step pre1 k w _ E). cbn [obind].
    replace (pre1 ++ (k, w) :: pre2) with ((pre1 ++ [(k, w)]) ++ pre2) by (rewrite <- app_assoc; reflexivity).
    apply (IH post); [rewrite <- app_assoc; exact E| |cbn in Hf; lia].
    intros H. apply Hn. right. exact H.
Qed.

Lemma find_absent name : dr_bytes (tk_name t1) = [] -> name <> [] ->
  forall post pre f, ms = pre ++ post -> ~ In name (map fst post) -> length post + 1 < f ->
  exists it, find_from f m (fun tk => bytes_eqb (dr_bytes (tk_name tk)) name) (it_at m pre) = Ok it /\
    it_index it = length (mp_tokens m).
Proof.
  intros Ht1 Hne. induction post as [|[k w] post IH]; intros pre f E Hn Hf; (destruct f as [|f]; [lia|]); cbn [find_from].
  - rewrite app_nil_r in E. subst pre. cbn [it_at it_index].
    rewrite (not_end ms [] (eq_sym (app_nil_r ms))), closing_at. cbn beta. rewrite Ht1.
    destruct (bytes_eqb_spec [] name); [congruence|]. fold (it_at m ms). rewrite it_last. cbn [obind].
    destruct f as [|f]; [cbn in Hf; lia|]. cbn [find_from it_index]. rewrite Nat.eqb_refl. eexists. split; [reflexivity|reflexivity].
  - cbn [it_at it_index]. rewrite (not_end pre _ E).
    destruct (token_at pre k w post E) as (tk & -> & Hk & _). cbn beta. rewrite Hk.
    destruct (bytes_eqb_spec k name) as [->|Hne2]; [exfalso; apply Hn; left; reflexivity|].
    fold (it_at m pre). rewrite (it_step pre k w _ E). cbn [obind].
    apply IH; [rewrite <- app_assoc; exact E| |cbn in Hf; lia].
    intros H. apply Hn. right. exact H.
Qed.

(** Visiting all tokens of the range. *)
Lemma visit_all : forall post pre f, ms = pre ++ post -> length post + 1 < f ->
  exists firsts, visit_from f m (it_at m pre) = Ok (firsts ++ [t1]) /\
    map Some (map tok_view firsts) = map (fun kv => hd_error (doc_tokens (Some (fst kv)) (snd kv))) post.
Proof.
  induction post as [|[k w] post IH]; intros pre f E Hf; (destruct f as [|f]; [lia|]); cbn [visit_from].
  - rewrite app_nil_r in E. subst pre. cbn [it_at it_index].
    rewrite (not_end ms [] (eq_sym (app_nil_r ms))), closing_at. fold (it_at m ms). rewrite it_last. cbn [obind].
    destruct f as [|f]; [cbn in Hf; lia|]. cbn [visit_from it_index]. rewrite Nat.eqb_refl. cbn [obind].
    exists []. split; reflexivity.
  - cbn [it_at it_index]. rewrite (not_end pre _ E).
    destruct (token_at pre k w post E) as (tk & -> & _ & Hv).
    fold (it_at m pre). rewrite (it_step pre k w _ E). cbn [obind].
    destruct (IH (pre ++ [(k, w)]) f ltac:(rewrite <- app_assoc; exact E) ltac:(cbn in Hf; lia)) as (firsts & -> & Hf2).
    cbn [obind]. exists (tk :: firsts). split; [reflexivity|]. cbn [map fst snd]. rewrite Hf2. f_equal.
    rewrite Hv. destruct w; reflexivity.
Qed.

Lemma enough_fuel pre post : ms = pre ++ post -> length post + 1 < S (length (mp_tokens m)).
Proof.
  intros E. rewrite tokens_length, E, msum_app.
  assert (length post <= msum ntok post); [|lia].
  clear. induction post as [|kv post IH]; [cbn; lia|]. rewrite msum_cons. cbn [length].
  assert (H := ntok_pos (snd kv)). lia.
Qed.
End Iter.
