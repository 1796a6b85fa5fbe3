(** Consequences of [diff_events_ok]. *)
From Verif Require Import Base Tactics ScanModel TokModel JsonSpec TokSpec MapModel MapSpec SerDoc MapProofs MapProofs2 MapProofs3 TokSticky DiffModel DiffSpec DiffProofs DiffTree.
From Coq Require Import Lia Permutation.

(** ** Names *)

Lemma strncmp_eq a : forall b, ~ In x00 a -> strncmp_same a b = true -> a = b.
Proof.
  induction a as [|x a IH]; intros [|y b] Hn H; cbn in H; try discriminate H; [reflexivity|].
  apply andb_prop in H. destruct H as [H1 H2]. apply byte_dec_bl in H1. subst y.
  destruct (Byte.eqb x x00) eqn:E; [apply byte_dec_bl in E; subst x; exfalso; apply Hn; left; reflexivity|].
  cbn in H2. f_equal. apply IH; [intros Hi; apply Hn; right; exact Hi|exact H2].
Qed.
Lemma strncmp_refl a : strncmp_same a a = true.
Proof.
  induction a as [|x a IH]; [reflexivity|]. cbn. rewrite IH, orb_true_r, andb_true_r. apply byte_dec_lb. reflexivity.
Qed.
Lemma name_same_refl a : name_same a a = true.
Proof. unfold name_same. rewrite Nat.eqb_refl, strncmp_refl. reflexivity. Qed.
Lemma name_same_eq a b : ~ In x00 a -> name_same a b = true -> a = b.
Proof. intros Hn H. apply andb_prop in H. apply strncmp_eq; [exact Hn|apply H]. Qed.

Lemma same_kind_refl j : same_kind j j = true.
Proof. destruct j as [s| |]; [destruct s|..]; reflexivity. Qed.

(** ** Applying the writes *)

Definition ev_pos {A} (e : event A) : nat := match e with Mark p _ => p | LostMember p _ => p | LostItem p _ => p end.
Definition ev_type {A} (e : event A) : dtype := match e with Mark _ t => t | LostMember _ _ => MissingMembers | LostItem _ _ => MissingArrayItems end.
Definition quiet {A} (e : event A) : Prop := exists p, e = Mark p NoDiff.
Definition loud {A} (e : event A) : bool := negb (is_nodiff (ev_type e)).

Lemma ev_view_pos e : ev_pos (ev_view e) = ev_pos e.
Proof. destruct e; reflexivity. Qed.
Lemma ev_view_type e : ev_type (ev_view e) = ev_type e.
Proof. destruct e; reflexivity. Qed.

Lemma apply_ok es : forall s, Forall (fun e => ev_pos e < length (dt_diffs s)) es ->
  exists s', apply_events es s = Ok s' /\ dt_src s' = dt_src s /\ length (dt_diffs s') = length (dt_diffs s) /\
    dt_count s' = dt_count s + length (filter loud es) /\ dt_error s' = dt_error s.
Proof.
  induction es as [|e es IH]; intros s H.
  - exists s. cbn. rewrite Nat.add_0_r. auto.
  - inversion H as [|? ? He Hes]; subst. apply Nat.ltb_lt in He.
    assert (G : exists s1, apply_event e s = Ok s1 /\ dt_src s1 = dt_src s /\ length (dt_diffs s1) = length (dt_diffs s) /\
       dt_count s1 = dt_count s + (if loud e then 1 else 0) /\ dt_error s1 = dt_error s).
    { destruct e as [p t|p tk|p tk]; cbn [ev_pos] in He; cbn [apply_event]; unfold d_set; cbn [dt_diffs]; rewrite He; eexists; (split; [reflexivity|]);
        cbn [dt_src dt_diffs dt_count dt_error]; rewrite upd_length; do 2 (split; [reflexivity|]); (split; [|reflexivity]).
      - unfold loud. cbn [ev_type]. destruct t; cbn; lia.
      - cbn. lia.
      - cbn. lia. }
    destruct G as (s1 & E1 & A1 & A2 & A3 & A4).
    destruct (IH s1) as (s' & E2 & B1 & B2 & B3 & B4).
    { rewrite A2. exact Hes. }
    exists s'. cbn [apply_events]. rewrite E1. cbn [obind]. split; [exact E2|].
    split; [congruence|]. split; [congruence|]. split; [|congruence].
    rewrite B3, A3. cbn [filter]. destruct (loud e); cbn [length]; lia.
Qed.

Lemma apply_quiet es : forall s, Forall quiet es -> Forall (fun e => ev_pos e < length (dt_diffs s)) es ->
  exists s', apply_events es s = Ok s' /\ dt_src s' = dt_src s /\ dt_count s' = dt_count s /\
    dt_members s' = dt_members s /\ dt_items s' = dt_items s /\
    (Forall (fun t => t = NoDiff) (dt_diffs s) -> Forall (fun t => t = NoDiff) (dt_diffs s')).
Proof.
  induction es as [|e es IH]; intros s Hq H.
  - exists s. repeat split; auto.
  - inversion H as [|? ? He Hes]; subst. inversion Hq as [|? ? [p ->] Hq2]; subst. apply Nat.ltb_lt in He.
    cbn [apply_events apply_event]. unfold d_set. cbn [ev_pos] in He. rewrite He. cbn [obind is_nodiff].
    match goal with |- context [apply_events es ?s1] => destruct (IH s1) as (s' & E2 & B1 & B2 & B3 & B4 & B5) end; [exact Hq2|cbn [dt_diffs]; rewrite upd_length; exact Hes|].
    exists s'. split; [exact E2|]. cbn [dt_src dt_count dt_members dt_items dt_diffs] in *. do 4 (split; [assumption|]).
    intros Hd. apply B5. clear -Hd. revert p. induction Hd as [|t l Ht Hl IHl]; intros [|p]; cbn; constructor; auto.
Qed.

(** The final mark of a position is that of the last write to it. *)
Lemma apply_last es p t : forall s s', apply_events es s = Ok s' ->
  (forall e, In e es -> ev_pos e = p -> ev_type e = t) ->
  (exists e, In e es /\ ev_pos e = p) \/ nth_error (dt_diffs s) p = Some t ->
  nth_error (dt_diffs s') p = Some t.
Proof.
  assert (U : forall (l : list dtype) p q t0, p < length l -> nth_error (upd p (fun _ => t0) l) q = if Nat.eqb q p then Some t0 else nth_error l q).
  { induction l as [|x l IH]; intros [|p0] [|q] t0 Hl; cbn in *; try lia; try reflexivity. apply IH. lia. }
  induction es as [|e es IH]; intros s s' H Hall Hex.
  - cbn in H. injection H as <-. destruct Hex as [(e & [] & _)|Hex]. exact Hex.
  - cbn [apply_events] in H. destruct (apply_event e s) as [s1| |] eqn:E1; try discriminate H. cbn [obind] in H.
    apply (IH s1 s' H); [intros e' Hi; apply Hall; right; exact Hi|].
    assert (Hd : dt_diffs s1 = upd (ev_pos e) (fun _ => ev_type e) (dt_diffs s) /\ ev_pos e < length (dt_diffs s)).
    { destruct e as [p0 t0|p0 tk|p0 tk]; cbn [apply_event] in E1; unfold d_set in E1; cbn [dt_diffs ev_pos ev_type] in *;
        (destruct (p0 <? length (dt_diffs s)) eqn:El; [|discriminate E1]); injection E1 as <-; cbn [dt_diffs];
        (split; [reflexivity|apply Nat.ltb_lt; exact El]). }
    destruct Hd as [Hd Hl].
    destruct (Nat.eq_dec (ev_pos e) p) as [He|He].
    + right. rewrite Hd, U by exact Hl. rewrite He, Nat.eqb_refl. f_equal. apply Hall; [left; reflexivity|exact He].
    + destruct Hex as [(e' & [->|Hi] & Hp)|Hex]; [contradiction|left; exists e'; auto|].
      right. rewrite Hd, U by exact Hl. destruct (Nat.eqb_spec p (ev_pos e)); [congruence|exact Hex].
Qed.

(** ** Positions of the writes *)

Lemma marks_pos p n t e : In e (marks p n t) -> p <= ev_pos e < p + n /\ ev_type e = t.
Proof. intros H. apply in_map_iff in H. destruct H as (i & <- & Hi). apply in_seq in Hi. cbn. split; [lia|reflexivity]. Qed.

Lemma find_at_range k : forall md q q' w, find_at k q md = Some (q', w) -> q <= q' /\ q' + ntok w <= q + msum ntok md.
Proof.
  induction md as [|[k' v] md IH]; intros q q' w H; cbn [find_at fst snd] in H; [discriminate H|]. rewrite msum_cons. cbn [snd].
  destruct (name_same k k'); [injection H as <- <-; lia|]. apply IH in H. lia.
Qed.

Lemma new_ev_pos mb md : forall q e, In e (new_ev mb q md) -> q <= ev_pos e < q + msum ntok md.
Proof.
  induction md as [|[k v] md IH]; intros q e H; [destruct H|]. cbn [new_ev fst snd] in H. rewrite msum_cons. cbn [snd].
  apply in_app_or in H. destruct H as [H|H].
  - destruct (known mb k); [destruct H|]. apply marks_pos in H. lia.
  - apply IH in H. lia.
Qed.

Lemma new_item_ev_pos q ed e : In e (new_item_ev q ed) -> q <= ev_pos e < q + esum ntok ed.
Proof.
  intros H. unfold new_item_ev in H. destruct ed as [|v ed]; [destruct H|]. rewrite esum_cons.
  destruct v as [s|els|ms]; apply marks_pos in H; try (rewrite esum_cons in H; lia). rewrite ntok_JArr. lia.
Qed.

Lemma te_pos o jb : forall q jd e, In e (te o q jb jd) -> q <= ev_pos e < q + ntok jd.
Proof.
  induction jb as [s|els IH|ms IH] using json_rect_nested; intros q jd e H.
  - destruct jd; try destruct H; [subst; cbn; lia|contradiction].
  - destruct jd as [|ed|]; try destruct H. cbn [te] in H. rewrite ntok_JArr.
    assert (G : forall dp ed, S q <= dp -> In e (te_arr (te o) q dp els ed) -> q <= ev_pos e < dp + esum ntok ed).
    { clear H. induction IH as [|v els Hv _ IHl]; intros dp ed' Hq H.
      - apply new_item_ev_pos in H. lia.
      - destruct ed' as [|w ed'].
        + apply in_map_iff in H. destruct H as (x & <- & _). cbn. lia.
        + rewrite esum_cons. change (te_arr (te o) q dp (v :: els) (w :: ed')) with
            ((if same_kind v w then te o dp v w else [Mark dp TypeDiff]) ++ te_arr (te o) q (dp + ntok w) els ed') in H.
          assert (Hn := ntok_pos w).
          apply in_app_or in H. destruct H as [H|H].
          * destruct (same_kind v w); [apply Hv in H; lia|]. destruct H as [<-|[]]. cbn. lia.
          * apply IHl in H; lia. }
    apply G in H; lia.
  - destruct jd as [| |md]; try destruct H. cbn [te] in H. rewrite ntok_JObj. apply in_app_or in H. destruct H as [H|H].
    + apply in_flat_map in H. destruct H as ([k v] & Hk & H). cbn [fst snd] in H.
      destruct (find_at k (S q) md) as [[q' w]|] eqn:Ef.
      * apply find_at_range in Ef. destruct (same_kind v w).
        -- assert (Hv : forall q jd e, In e (te o q v jd) -> q <= ev_pos e < q + ntok jd).
           { rewrite Forall_forall in IH. exact (IH (k, v) Hk). }
           apply Hv in H. lia.
        -- apply marks_pos in H. lia.
      * apply in_map_iff in H. destruct H as (x & <- & _). cbn. lia.
    + apply new_ev_pos in H. lia.
Qed.

(** ** C41 *)

Lemma find_at_unique k v : forall pre post q, ~ In x00 k -> ~ In k (map fst pre) ->
  find_at k q (pre ++ (k, v) :: post) = Some (q + msum ntok pre, v).
Proof.
  induction pre as [|[k' w] pre IH]; intros post q Hz Hn; cbn [app find_at fst snd].
  - rewrite name_same_refl. change (msum ntok []) with 0. rewrite Nat.add_0_r. reflexivity.
  - destruct (name_same k k') eqn:E.
    + apply name_same_eq in E; [|exact Hz]. subst. exfalso. apply Hn. left. reflexivity.
    + rewrite IH; [|exact Hz|intros H; apply Hn; right; exact H]. rewrite msum_cons. cbn [snd]. do 2 f_equal. lia.
Qed.

Lemma new_ev_known mb : forall md q, (forall kv, In kv md -> known mb (fst kv) = true) -> new_ev mb q md = [].
Proof.
  induction md as [|kv md IH]; intros q H; [reflexivity|]. cbn [new_ev]. rewrite H by (left; reflexivity). cbn [app]. apply IH.
  intros kv' Hi. apply H. right. exact Hi.
Qed.

Lemma te_refl o j : unique_names j -> no_nul j -> reflexive_on o j -> forall q, Forall quiet (te o q j j).
Proof.
  induction j as [s|els IH|ms IH] using json_rect_nested; intros Hu Hz Hr q.
  - cbn [te]. constructor; [|constructor]. exists q. f_equal. destruct s as [t|t| | |]; cbn [sdiff]; try reflexivity.
    + rewrite name_same_refl. reflexivity.
    + unfold num_same. rewrite Hr by (left; reflexivity). reflexivity.
  - inversion Hu as [|? Hu'|]; subst. inversion Hz as [|? Hz'|]; subst. cbn [te].
    assert (Hr' : forall v, In v els -> reflexive_on o v).
    { intros v Hv x Hx. apply Hr. cbn [numbers]. apply in_flat_map. eauto. }
    clear Hu Hz Hr. generalize (S q). induction IH as [|v els Hv _ IHl]; intros dp; [constructor|].
    inversion Hu' as [|? ? U1 U2]; subst. inversion Hz' as [|? ? Z1 Z2]; subst.
    change (te_arr (te o) q dp (v :: els) (v :: els)) with
      ((if same_kind v v then te o dp v v else [Mark dp TypeDiff]) ++ te_arr (te o) q (dp + ntok v) els els).
    rewrite same_kind_refl. apply Forall_app. split; [apply Hv; auto using in_eq|].
    apply IHl; auto using in_cons.
  - inversion Hu as [| |? Hnd Hu']; subst. inversion Hz as [| |? Hz']; subst. cbn [te]. apply Forall_app. split.
    + apply Forall_forall. intros e He. apply in_flat_map in He. destruct He as ([k v] & Hk & He). cbn [fst snd] in He.
      destruct (in_split _ _ Hk) as (pre & post & E).
      assert (Hn : ~ In k (map fst pre)).
      { rewrite E, map_app in Hnd. cbn in Hnd. apply NoDup_remove_2 in Hnd. intros Hi. apply Hnd. apply in_or_app. left. exact Hi. }
      assert (Hzk : ~ In x00 k /\ no_nul v) by (rewrite Forall_forall in Hz'; exact (Hz' (k, v) Hk)).
      rewrite E, find_at_unique in He by tauto. rewrite same_kind_refl in He.
      assert (Q : Forall quiet (te o (S q + msum ntok pre) v v)).
      { rewrite Forall_forall in IH, Hu'. apply (IH (k, v) Hk); [exact (Hu' (k, v) Hk)|tauto|].
        intros x Hx. apply Hr. cbn [numbers]. apply in_flat_map. exists (k, v). auto. }
      rewrite Forall_forall in Q. apply Q. exact He.
    + rewrite new_ev_known; [constructor|]. intros kv Hi. apply existsb_exists. exists kv. split; [exact Hi|apply name_same_refl].
Qed.

(** ** C42 *)

Lemma quiet_marks {n p t} : t <> NoDiff -> Forall quiet (marks p (S n) t) -> False.
Proof. intros Ht H. inversion H as [|? ? [q E] _]; subst. injection E as _ E. contradiction. Qed.

Lemma find_at_in k : forall md q q' w, find_at k q md = Some (q', w) -> exists k', In (k', w) md /\ name_same k k' = true.
Proof.
  induction md as [|[k' v] md IH]; intros q q' w H; cbn [find_at fst snd] in H; [discriminate H|].
  destruct (name_same k k') eqn:E.
  - injection H as _ <-. exists k'. split; [left; reflexivity|exact E].
  - destruct (IH _ _ _ H) as (k2 & Hi & Hn). exists k2. split; [right; exact Hi|exact Hn].
Qed.

Lemma quiet_new_ev mb : forall md q, Forall quiet (new_ev mb q md) -> forall kv, In kv md -> known mb (fst kv) = true.
Proof.
  induction md as [|[k v] md IH]; intros q H kv Hi; [destruct Hi|]. cbn [new_ev fst snd] in H. apply Forall_app in H. destruct H as [H1 H2].
  destruct Hi as [<-|Hi]; [|eapply IH; eassumption]. cbn [fst]. destruct (known mb k); [reflexivity|].
  assert (Hn := ntok_pos v). destruct (ntok v) as [|n]; [lia|]. exfalso. eapply quiet_marks; [|exact H1]. discriminate.
Qed.

Lemma te_sound o jb : forall jd q, unique_names jb -> unique_names jd -> no_nul jb -> no_nul jd ->
  same_kind jb jd = true -> Forall quiet (te o q jb jd) -> same_json o jb jd.
Proof.
  induction jb as [s|els IH|ms IH] using json_rect_nested; intros jd q Ub Ud Zb Zd Hk Hq.
  - destruct jd as [s'| |]; [|destruct s; discriminate Hk..]. constructor. cbn [te] in Hq.
    inversion Hq as [|? ? [p E] _]; subst. injection E as _ E.
    destruct s as [x|x| | |], s' as [y|y| | |]; try discriminate Hk; cbn [sdiff] in E; try constructor; try discriminate E.
    + unfold verdict in E. destruct (name_same x y) eqn:Es; [|discriminate E].
      apply name_same_eq in Es; [subst; constructor|]. inversion Zb; subst. auto.
    + unfold num_same, verdict in E. destruct (do_same o x y) as [[]| |]; try discriminate E. reflexivity.
  - destruct jd as [s|ed|md]; [destruct s; discriminate Hk| |discriminate Hk]. constructor. cbn [te] in Hq.
    inversion Ub as [|? Ub'|]; subst. inversion Ud as [|? Ud'|]; subst. inversion Zb as [|? Zb'|]; subst. inversion Zd as [|? Zd'|]; subst.
    clear Ub Ud Zb Zd Hk. revert ed Ud' Zd' Hq. generalize (S q). induction IH as [|v els Hv _ IHl]; intros dp ed Ud' Zd' Hq.
    + destruct ed as [|w ed]; [constructor|]. exfalso. cbn [te_arr] in Hq. unfold new_item_ev in Hq.
      assert (Hn := ntok_pos w).
      destruct w as [s|e2|m2]; [|apply quiet_marks in Hq; [exact Hq|discriminate]|];
        rewrite esum_cons in Hq; match type of Hq with context [marks _ (?a + ?b) _] => destruct (a + b) as [|n] eqn:En; [lia|] end;
        (apply quiet_marks in Hq; [exact Hq|discriminate]).
    + inversion Ub' as [|? ? U1 U2]; subst. inversion Zb' as [|? ? Z1 Z2]; subst. destruct ed as [|w ed].
      * exfalso. change (te_arr (te o) q dp (v :: els) []) with (map (fun v => LostItem q v) (flat_map (doc_tokens None) (v :: els))) in Hq.
        destruct v; inversion Hq as [|? ? [p E] _]; discriminate E.
      * inversion Ud' as [|? ? U3 U4]; subst. inversion Zd' as [|? ? Z3 Z4]; subst.
        change (te_arr (te o) q dp (v :: els) (w :: ed)) with
          ((if same_kind v w then te o dp v w else [Mark dp TypeDiff]) ++ te_arr (te o) q (dp + ntok w) els ed) in Hq.
        apply Forall_app in Hq. destruct Hq as [Q1 Q2].
        destruct (same_kind v w) eqn:Ek; [|inversion Q1 as [|? ? [p E] _]; discriminate E].
        constructor; [exact (Hv w dp U1 U3 Z1 Z3 Ek Q1)|]. eapply IHl; eassumption.
  - destruct jd as [s|ed|md]; [destruct s; discriminate Hk|discriminate Hk|]. cbn [te] in Hq. apply Forall_app in Hq. destruct Hq as [Q1 Q2].
    inversion Ub as [| |? Nb Ub']; subst. inversion Ud as [| |? Nd Ud']; subst. inversion Zb as [| |? Zb']; subst. inversion Zd as [| |? Zd']; subst.
    assert (Hkn := quiet_new_ev ms md (S q) Q2).
    rewrite Forall_forall in IH, Ub', Ud', Zb', Zd'.
    (* every member of the base has a counterpart *)
    assert (G : forall k v, In (k, v) ms -> exists w, In (k, w) md /\ same_json o v w).
    { intros k v Hi. assert (Qe : Forall quiet (match find_at k (S q) md with
                          | Some (q', w) => if same_kind v w then te o q' v w else marks q' (ntok w) TypeDiff
                          | None => map (fun v => LostMember q v) (doc_tokens (Some k) v) end)).
      { apply Forall_forall. intros e He. rewrite Forall_forall in Q1. apply Q1. apply in_flat_map. exists (k, v). split; [exact Hi|exact He]. }
      destruct (Zb' (k, v) Hi) as [Zk Zv]. cbn [fst snd] in Zk, Zv.
      destruct (find_at k (S q) md) as [[q' w]|] eqn:Ef.
      - destruct (find_at_in _ _ _ _ _ Ef) as (k' & Hi' & Hn). apply name_same_eq in Hn; [|exact Zk]. subst k'.
        exists w. split; [exact Hi'|]. destruct (same_kind v w) eqn:Ek.
        + exact (IH (k, v) Hi w q' (Ub' (k, v) Hi) (Ud' (k, w) Hi') Zv (proj2 (Zd' (k, w) Hi')) Ek Qe).
        + exfalso. assert (Hp := ntok_pos w). destruct (ntok w) as [|n]; [lia|]. apply quiet_marks in Qe; [exact Qe|discriminate].
      - exfalso. destruct v; inversion Qe as [|? ? [p E] _]; discriminate E. }
    assert (F : exists l', Forall2 (fun a b => fst a = fst b /\ same_json o (snd a) (snd b)) ms l' /\ incl l' md /\ map fst l' = map fst ms).
    { clear -G. induction ms as [|[k v] ms IHm].
      - exists []. split; [constructor|]. split; [intros x []|reflexivity].
      - destruct IHm as (l' & F1 & F2 & F3); [intros; apply G; right; assumption|].
        destruct (G k v (or_introl eq_refl)) as (w & Hi & Hs). exists ((k, w) :: l'). split; [constructor; [split; auto|exact F1]|].
        split; [intros x [<-|Hx]; auto|]. cbn. rewrite F3. reflexivity. }
    destruct F as (l' & F1 & F2 & F3). apply (Sj_obj o ms l' md F1).
    assert (NDl : NoDup l') by (apply (NoDup_map_inv fst); rewrite F3; exact Nb).
    assert (NDm : NoDup md) by (apply (NoDup_map_inv fst); exact Nd).
    apply NoDup_Permutation; [exact NDl|exact NDm|]. intros [k w]. split; [apply F2|]. intros Hi.
    assert (Hkw := Hkn (k, w) Hi). apply existsb_exists in Hkw. destruct Hkw as ([k2 v2] & Hi2 & Hn). cbn [fst] in Hn.
    apply name_same_eq in Hn; [|exact (proj1 (Zd' (k, w) Hi))]. subst k2.
    assert (Hf : In k (map fst l')) by (rewrite F3; apply (in_map fst) in Hi2; exact Hi2).
    apply in_map_iff in Hf. destruct Hf as ([k3 w3] & E3 & Hi3). cbn in E3. subst k3.
    assert (Hi3' := F2 _ Hi3). assert (w3 = w).
    { clear -Nd Hi Hi3'. induction md as [|[k0 v0] md IHm]; [destruct Hi|]. cbn in Nd. inversion Nd as [|? ? N1 N2]; subst.
      destruct Hi as [E1|Hi], Hi3' as [E2|Hi3].
      - congruence.
      - injection E1 as -> ->. exfalso. apply N1. apply (in_map fst) in Hi3. exact Hi3.
      - injection E2 as -> ->. exfalso. apply N1. apply (in_map fst) in Hi. exact Hi.
      - auto. }
    subst. exact Hi3.
Qed.
