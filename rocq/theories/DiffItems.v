(** New array items, and evaluating again. *)
From Verif Require Import Base Tactics ScanModel TokModel JsonSpec TokSpec MapModel MapSpec SerDoc MapProofs MapProofs2 MapProofs3 TokSticky DiffModel DiffSpec DiffProofs DiffTree DiffLaws.
From Coq Require Import Lia Permutation.

Section Items.
Context (o : dopts).

Lemma te_arr_prefix q : forall pb pd rb rd dp, length pb = length pd ->
  exists A, te_arr (te o) q dp (pb ++ rb) (pd ++ rd) = A ++ te_arr (te o) q (dp + esum ntok pd) rb rd /\
    forall e, In e A -> dp <= ev_pos e < dp + esum ntok pd.
Proof.
  induction pb as [|v pb IH]; intros [|w pd] rb rd dp Hl; try discriminate Hl.
  - exists []. cbn [app]. change (esum ntok []) with 0. rewrite Nat.add_0_r. split; [reflexivity|intros e []].
  - destruct (IH pd rb rd (dp + ntok w) ltac:(cbn in Hl; lia)) as (A & E & HA).
    exists ((if same_kind v w then te o dp v w else [Mark dp TypeDiff]) ++ A). split.
    + cbn [app]. change (te_arr (te o) q dp (v :: pb ++ rb) (w :: pd ++ rd)) with
        ((if same_kind v w then te o dp v w else [Mark dp TypeDiff]) ++ te_arr (te o) q (dp + ntok w) (pb ++ rb) (pd ++ rd)).
      rewrite E, <- app_assoc, esum_cons, Nat.add_assoc. reflexivity.
    + intros e He. rewrite esum_cons. assert (Hn := ntok_pos w). apply in_app_or in He. destruct He as [He|He].
      * destruct (same_kind v w); [apply te_pos in He; lia|]. destruct He as [<-|[]]. cbn. lia.
      * apply HA in He. lia.
Qed.

Lemma te_arr_pos q : forall sb sd dp e, In e (te_arr (te o) q dp sb sd) -> ev_pos e = q \/ dp <= ev_pos e.
Proof.
  induction sb as [|v sb IH]; intros sd dp e H.
  - apply new_item_ev_pos in H. lia.
  - destruct sd as [|w sd].
    + apply in_map_iff in H. destruct H as (x & <- & _). left. reflexivity.
    + change (te_arr (te o) q dp (v :: sb) (w :: sd)) with
        ((if same_kind v w then te o dp v w else [Mark dp TypeDiff]) ++ te_arr (te o) q (dp + ntok w) sb sd) in H.
      apply in_app_or in H. destruct H as [H|H].
      * destruct (same_kind v w); [apply te_pos in H; lia|]. destruct H as [<-|[]]. cbn. lia.
      * apply IH in H. lia.
Qed.

Lemma compared_kind jb q0 jd eb q ed : compared jb q0 jd eb q ed -> same_kind jb jd = true.
Proof. intros H. destruct H; reflexivity. Qed.

Lemma compared_range jb q0 jd eb q ed : compared jb q0 jd eb q ed -> q0 <= q /\ q + ntok (JArr ed) <= q0 + ntok jd.
Proof.
  induction 1 as [eb q ed|pb v sb pd w sd q0 eb q ed Hl _ IH|k pb v sb pd w sd q0 eb q ed _ IH].
  - lia.
  - rewrite (ntok_JArr (pd ++ w :: sd)), esum_app, esum_cons. fold (esum ntok pd) in IH. lia.
  - rewrite ntok_JObj, msum_app, msum_cons. cbn [snd]. fold (msum ntok pd) in IH. lia.
Qed.

Definition new_at (p : nat) (es : list (event stoken)) : Prop :=
  (forall e, In e es -> ev_pos e = p -> e = Mark p NewArrayItem) /\ In (Mark p NewArrayItem) es.

Definition not_array (j : json) : Prop := match j with JArr _ => False | _ => True end.

(** Members with other names are at other places. *)
Lemma find_at_disjoint k k' : k <> k' -> ~ In x00 k' -> forall pd w sd q q2 w2,
  find_at k' q (pd ++ (k, w) :: sd) = Some (q2, w2) ->
  q2 + ntok w2 <= q + msum ntok pd \/ q + msum ntok pd + ntok w <= q2.
Proof.
  intros Hk Hz. induction pd as [|[k0 v0] pd IH]; intros w sd q q2 w2 H; cbn [app find_at fst snd] in H.
  - change (msum ntok []) with 0. destruct (name_same k' k) eqn:E.
    + apply name_same_eq in E; [congruence|exact Hz].
    + apply find_at_range in H. lia.
  - rewrite msum_cons. cbn [snd]. destruct (name_same k' k0); [injection H as <- <-; lia|]. apply IH in H. lia.
Qed.
Lemma new_ev_disjoint mb k : known mb k = true -> forall pd w sd q e, In e (new_ev mb q (pd ++ (k, w) :: sd)) ->
  ev_pos e < q + msum ntok pd \/ q + msum ntok pd + ntok w <= ev_pos e.
Proof.
  intros Hk. induction pd as [|[k0 v0] pd IH]; intros w sd q e H; cbn [app new_ev fst snd] in H.
  - rewrite Hk in H. cbn [app] in H. apply new_ev_pos in H. change (msum ntok []) with 0. lia.
  - rewrite msum_cons. cbn [snd]. apply in_app_or in H. destruct H as [H|H].
    + destruct (known mb k0); [destruct H|]. apply marks_pos in H. lia.
    + apply IH in H. lia.
Qed.

Lemma te_new_items jb q0 jd eb q ed : compared jb q0 jd eb q ed ->
  unique_names jb -> unique_names jd -> no_nul jb -> no_nul jd ->
  forall common x extra, ed = common ++ x :: extra -> length common = length eb -> not_array x ->
  forall p, S q + esum ntok common <= p < S q + esum ntok ed -> new_at p (te o q0 jb jd).
Proof.
  induction 1 as [eb q ed|pb v sb pd w sd q0 eb q ed Hl Hc IH|k pb v sb pd w sd q0 eb q ed Hc IH];
    intros Ub Ud Zb Zd common x extra Ed Hcl Hx p Hp.
  - cbn [te]. rewrite Ed. destruct (te_arr_prefix q eb common [] (x :: extra) (S q) (eq_sym Hcl)) as (A & E & HA).
    rewrite app_nil_r in E. rewrite E. cbn [te_arr].
    assert (Hn : new_item_ev (S q + esum ntok common) (x :: extra) = marks (S q + esum ntok common) (esum ntok (x :: extra)) NewArrayItem)
      by (destruct x; [reflexivity|destruct Hx|reflexivity]).
    rewrite Hn. rewrite Ed, esum_app in Hp. split.
    + intros e He Hpe. apply in_app_or in He. destruct He as [He|He]; [apply HA in He; lia|].
      apply in_map_iff in He. destruct He as (i & <- & _). cbn in Hpe. subst i. reflexivity.
    + apply in_or_app. right. apply in_map_iff. exists p. split; [reflexivity|]. apply in_seq. lia.
  - assert (Hr := compared_range _ _ _ _ _ _ Hc). fold (esum ntok pd) in Hr.
    inversion Ub as [|? Ub'|]; subst. inversion Ud as [|? Ud'|]; subst. inversion Zb as [|? Zb'|]; subst. inversion Zd as [|? Zd'|]; subst.
    apply Forall_app in Ub', Ud', Zb', Zd'. destruct Ub' as [_ Ub'], Ud' as [_ Ud'], Zb' as [_ Zb'], Zd' as [_ Zd'].
    inversion Ub'; subst. inversion Ud'; subst. inversion Zb'; subst. inversion Zd'; subst.
    destruct (IH ltac:(assumption) ltac:(assumption) ltac:(assumption) ltac:(assumption) common x extra eq_refl Hcl Hx p Hp) as [I1 I2].
    fold (esum ntok pd) in I1, I2.
    assert (Hp2 : q0 < p /\ S q0 + esum ntok pd <= p < S q0 + esum ntok pd + ntok w) by (rewrite ntok_JArr in Hr; lia).
    cbn [te]. destruct (te_arr_prefix q0 pb pd (v :: sb) (w :: sd) (S q0) Hl) as (A & E & HA). rewrite E.
    change (te_arr (te o) q0 (S q0 + esum ntok pd) (v :: sb) (w :: sd)) with
      ((if same_kind v w then te o (S q0 + esum ntok pd) v w else [Mark (S q0 + esum ntok pd) TypeDiff]) ++
        te_arr (te o) q0 (S q0 + esum ntok pd + ntok w) sb sd).
    rewrite (compared_kind _ _ _ _ _ _ Hc). split.
    + intros e He Hpe. apply in_app_or in He. destruct He as [He|He]; [apply HA in He; lia|].
      apply in_app_or in He. destruct He as [He|He]; [exact (I1 e He Hpe)|]. apply te_arr_pos in He. lia.
    + apply in_or_app. right. apply in_or_app. left. exact I2.
  - assert (Hr := compared_range _ _ _ _ _ _ Hc). fold (msum ntok pd) in Hr.
    inversion Ub as [| |? Nb Ub']; subst. inversion Ud as [| |? Nd Ud']; subst. inversion Zb as [| |? Zb']; subst. inversion Zd as [| |? Zd']; subst.
    assert (U1 : unique_names v) by (rewrite Forall_forall in Ub'; apply (Ub' (k, v)); apply in_or_app; right; left; reflexivity).
    assert (U2 : unique_names w) by (rewrite Forall_forall in Ud'; apply (Ud' (k, w)); apply in_or_app; right; left; reflexivity).
    assert (Z1 : ~ In x00 k /\ no_nul v) by (rewrite Forall_forall in Zb'; apply (Zb' (k, v)); apply in_or_app; right; left; reflexivity).
    assert (Z2 : ~ In x00 k /\ no_nul w) by (rewrite Forall_forall in Zd'; apply (Zd' (k, w)); apply in_or_app; right; left; reflexivity).
    destruct (IH U1 U2 (proj2 Z1) (proj2 Z2) common x extra eq_refl Hcl Hx p Hp) as [I1 I2].
    fold (msum ntok pd) in I1, I2.
    assert (Hp2 : q0 < p /\ S q0 + msum ntok pd <= p < S q0 + msum ntok pd + ntok w) by (rewrite ntok_JArr in Hr; lia).
    assert (Hnk : ~ In k (map fst pd)).
    { rewrite map_app in Nd. cbn in Nd. apply NoDup_remove_2 in Nd. intros Hi. apply Nd. apply in_or_app. left. exact Hi. }
    cbn [te]. split.
    + intros e He Hpe. apply in_app_or in He. destruct He as [He|He].
      * apply in_flat_map in He. destruct He as ([k' v'] & Hi & He). cbn [fst snd] in He.
        destruct (bytes_eqb_spec k k') as [<-|Hne].
        -- assert (v' = v).
           { apply in_app_or in Hi. rewrite map_app in Nb. cbn in Nb. apply NoDup_remove_2 in Nb.
             destruct Hi as [Hi|[Hi|Hi]]; [|congruence|]; exfalso; apply Nb; apply in_or_app; [left|right]; apply (in_map fst) in Hi; exact Hi. }
           subst v'. rewrite find_at_unique in He by (try apply Z1; exact Hnk). rewrite (compared_kind _ _ _ _ _ _ Hc) in He.
           exact (I1 e He Hpe).
        -- assert (Zk' : ~ In x00 k') by (rewrite Forall_forall in Zb'; apply (Zb' (k', v') Hi)).
           destruct (find_at k' (S q0) (pd ++ (k, w) :: sd)) as [[q2 w2]|] eqn:Ef.
           ++ apply find_at_disjoint in Ef; [|exact Hne|exact Zk']. destruct (same_kind v' w2); [apply te_pos in He|apply marks_pos in He]; lia.
           ++ apply in_map_iff in He. destruct He as (y & <- & _). cbn in Hpe. lia.
      * apply new_ev_disjoint in He; [lia|]. apply existsb_exists. exists (k, v). split; [apply in_or_app; right; left; reflexivity|apply name_same_refl].
    + apply in_or_app. left. apply in_flat_map. exists (k, v). split; [apply in_or_app; right; left; reflexivity|]. cbn [fst snd].
      rewrite find_at_unique by (try apply Z1; exact Hnk). rewrite (compared_kind _ _ _ _ _ _ Hc). exact I2.
Qed.
End Items.

(** ** The whole run *)

Lemma te_bound o q jb jd : Forall (fun e => ev_pos e < q + ntok jd) (te o q jb jd).
Proof. apply Forall_forall. intros e He. apply te_pos in He. lia. Qed.

Lemma run_ok o jb jd b d err : is_container jb -> is_container jd -> src_of jb b -> src_of jd d -> comparable o jb jd ->
  exists es s', diff_events o b d = Ok (es, true) /\ run_diff o b (fresh d err) = Ok s' /\
    apply_events es (fresh d err) = Ok s' /\
    map ev_view es = (if same_kind jb jd then te o 0 jb jd else marks 0 (ntok jd) RootItemDiff) /\
    dt_count s' = length (filter loud es) /\ length (dt_diffs s') = ntok jd /\ Forall (fun e => ev_pos e < ntok jd) es.
Proof.
  intros Cb Cd Sb Sd Hc. destruct (diff_events_ok o jb jd b d Cb Cd Sb Sd Hc) as (es & E & Hv).
  assert (Ld := src_length _ _ Sd).
  assert (B : Forall (fun e => ev_pos e < ntok jd) es).
  { assert (B0 : Forall (fun e => ev_pos e < ntok jd) (map ev_view es)).
    { rewrite Hv. destruct (same_kind jb jd); [apply (te_bound o 0)|]. apply Forall_forall. intros e He. apply marks_pos in He. lia. }
    rewrite Forall_forall in *. intros e He. rewrite <- ev_view_pos. apply B0. apply in_map. exact He. }
  assert (Lf : length (dt_diffs (fresh d err)) = ntok jd) by (cbn; rewrite repeat_length; exact Ld).
  destruct (apply_ok es (fresh d err)) as (s' & Ea & _ & A2 & A3 & _); [rewrite Lf; exact B|].
  exists es, s'. unfold run_diff. cbn [dt_src fresh]. rewrite E. cbn [obind]. rewrite A2, Lf, A3.
  split; [reflexivity|]. split; [exact Ea|]. split; [exact Ea|]. auto.
Qed.

Lemma quiet_of_view es : Forall quiet (map ev_view es) -> Forall quiet es.
Proof.
  intros H. rewrite Forall_forall in *. intros e He. destruct (H (ev_view e) (in_map _ _ _ He)) as (p & Hp).
  destruct e; try discriminate Hp. injection Hp as -> ->. exists p. reflexivity.
Qed.
Lemma quiet_of_count es : length (filter loud es) = 0 -> Forall quiet (map ev_view es).
Proof.
  induction es as [|e es IH]; intros H; [constructor|]. cbn [filter] in H. destruct (loud e) eqn:El; [discriminate H|].
  cbn [map]. constructor; [|auto]. destruct e as [p t|p tk|p tk]; try discriminate El. destruct t; try discriminate El. exists p. reflexivity.
Qed.

(** Evaluating again: everything but missingArrayItems is as before. *)
Definition but_items (s s' : dstate) : Prop :=
  dt_src s = dt_src s' /\ dt_diffs s = dt_diffs s' /\ dt_count s = dt_count s' /\ dt_members s = dt_members s'.
Lemma apply_but_items es : forall s1 s2 s1', but_items s1 s2 -> apply_events es s1 = Ok s1' ->
  exists s2', apply_events es s2 = Ok s2' /\ but_items s1' s2'.
Proof.
  induction es as [|e es IH]; intros s1 s2 s1' (A1 & A2 & A3 & A4) H.
  - cbn in H. injection H as <-. exists s2. split; [reflexivity|]. repeat split; assumption.
  - cbn [apply_events] in H |- *. destruct (apply_event e s1) as [t1| |] eqn:E1; try discriminate H. cbn [obind] in H.
    assert (G : exists t2, apply_event e s2 = Ok t2 /\ but_items t1 t2).
    { clear H IH. destruct s1 as [a1 a2 a3 a4 a5 a6], s2 as [b1 b2 b3 b4 b5 b6]. cbn in A1, A2, A3, A4. subst b1 b2 b3 b4.
      destruct e as [p t|p tk|p tk]; cbn [apply_event] in *; unfold d_set in *; cbn [dt_diffs dt_src dt_count dt_members dt_items dt_error] in *;
        (destruct (p <? length a2); [|discriminate E1]); injection E1 as <-; eexists; (split; [reflexivity|]);
        unfold but_items; cbn; repeat split; reflexivity. }
    destruct G as (t2 & -> & Ht). cbn [obind]. exact (IH t1 t2 s1' Ht H).
Qed.
Lemma run_but_items o b s1 s2 s1' : but_items s1 s2 -> run_diff o b s1 = Ok s1' -> exists s2', run_diff o b s2 = Ok s2' /\ but_items s1' s2'.
Proof.
  unfold run_diff. intros H E. assert (HH := H). destruct HH as (A1 & A2 & A3 & A4). rewrite <- A1.
  destruct (diff_events o b (dt_src s1)) as [[es z]| |]; try discriminate E. cbn [obind] in *.
  eapply apply_but_items; [|exact E]. destruct z; [|exact H]. unfold but_items. cbn. auto.
Qed.

Lemma apply_src es : forall s s', apply_events es s = Ok s' -> dt_src s' = dt_src s.
Proof.
  induction es as [|e es IH]; intros s s' H; [cbn in H; injection H as <-; reflexivity|].
  cbn [apply_events] in H. destruct (apply_event e s) as [t1| |] eqn:E1; try discriminate H. cbn [obind] in H.
  rewrite (IH _ _ H). destruct e as [p t|p tk|p tk]; cbn [apply_event] in E1; unfold d_set in E1; cbn [dt_diffs] in E1;
    (destruct (p <? length (dt_diffs s)); [|discriminate E1]); injection E1 as <-; reflexivity.
Qed.
Lemma run_src o b s s' : run_diff o b s = Ok s' -> dt_src s' = dt_src s.
Proof.
  unfold run_diff. intros E. destruct (diff_events o b (dt_src s)) as [[es z]| |]; try discriminate E. cbn [obind] in E.
  apply apply_src in E. rewrite E. destruct z; reflexivity.
Qed.

(** The states a context can hold: each diff was evaluated against the base with the options. *)
Definition ctx_ok (c : dctx) : Prop :=
  Forall (fun s => exists s0, run_diff (dc_opts c) (dt_src (dc_base c)) (fresh (dt_src s) DNoError) = Ok s0 /\ but_items s0 s) (dc_diffs c).

Lemma run_all_invalidate o b l :
  Forall (fun s => exists s0, run_diff o b (fresh (dt_src s) DNoError) = Ok s0 /\ but_items s0 s) l ->
  exists l', run_all o b (map invalidate l) = Ok l' /\ Forall2 but_items l l'.
Proof.
  induction 1 as [|s l (s0 & E0 & H0) _ IH]; [exists []; split; [reflexivity|constructor]|].
  destruct IH as (l' & El & Hl). cbn [map run_all].
  destruct (run_but_items o b (fresh (dt_src s) DNoError) (invalidate s) s0) as (s1 & E1 & H1); [|exact E0|].
  { unfold but_items, fresh, invalidate. cbn. auto. }
  rewrite E1. cbn [obind]. rewrite El. cbn [obind]. exists (s1 :: l'). split; [reflexivity|]. constructor; [|exact Hl].
  destruct H0 as (A1 & A2 & A3 & A4), H1 as (B1 & B2 & B3 & B4). unfold but_items. repeat split; congruence.
Qed.

Lemma invalidate_ok c : ctx_ok c -> exists c', ctx_invalidate c = Ok c' /\ ctx_ok c' /\
  Forall2 but_items (dc_diffs c) (dc_diffs c') /\ dt_src (dc_base c') = dt_src (dc_base c) /\ dc_opts c' = dc_opts c.
Proof.
  intros H. unfold ctx_invalidate. cbn [invalidate dt_src].
  destruct (run_all_invalidate _ _ _ H) as (l' & -> & Hl). cbn [obind]. eexists. split; [reflexivity|].
  cbn [dc_diffs dc_base dc_opts]. split; [|split; [exact Hl|auto]].
  unfold ctx_ok in *. cbn [dc_opts dc_base dc_diffs invalidate dt_src]. clear -H Hl.
  induction Hl as [|s s' l l' Hs _ IH]; [constructor|]. inversion H as [|? ? (s0 & E0 & H0) H2]; subst. constructor; [|auto].
  destruct Hs as (A1 & A2 & A3 & A4), H0 as (B1 & B2 & B3 & B4). exists s0. rewrite <- A1. split; [exact E0|].
  unfold but_items. repeat split; congruence.
Qed.

Lemma ctx_diff_ok d e c c' : ctx_ok c -> ctx_diff d e c = Ok c' -> ctx_ok c' /\ dc_opts c' = dc_opts c /\ dc_base c' = dc_base c.
Proof.
  intros H E. unfold ctx_diff in E. destruct e; try (injection E as <-; auto).
  destruct (run_diff _ _ _) as [s| |] eqn:Er; try discriminate E. cbn [obind] in E. injection E as <-. cbn. split; [|auto].
  unfold ctx_ok in *. cbn. apply Forall_app. split; [exact H|]. constructor; [|constructor].
  exists s. rewrite (run_src _ _ _ _ Er). split; [exact Er|]. unfold but_items. auto.
Qed.

Lemma but_items_sym s s' : but_items s s' -> but_items s' s.
Proof. intros (A & B & C & D). repeat split; congruence. Qed.
Lemma but_items_trans s t u : but_items s t -> but_items t u -> but_items s u.
Proof. intros (A & B & C & D) (A' & B' & C' & D'). repeat split; congruence. Qed.

(** invalidate() establishes this even after base or options were changed. *)
Lemma invalidate_makes_ok c c' : ctx_invalidate c = Ok c' -> ctx_ok c'.
Proof.
  unfold ctx_invalidate. destruct (run_all _ _ _) as [l'| |] eqn:E; try discriminate. cbn [obind]. intros H. injection H as <-.
  unfold ctx_ok. cbn [dc_opts dc_base dc_diffs]. revert l' E. generalize (dc_opts c) as o, (dt_src (invalidate (dc_base c))) as b.
  intros o b. induction (dc_diffs c) as [|s l IH]; intros l' E; cbn [map run_all] in E.
  - injection E as <-. constructor.
  - destruct (run_diff o b (invalidate s)) as [s1| |] eqn:E1; try discriminate E. cbn [obind] in E.
    destruct (run_all o b (map invalidate l)) as [l1| |] eqn:E2; try discriminate E. cbn [obind] in E. injection E as <-.
    constructor; [|apply IH; reflexivity].
    rewrite (run_src _ _ _ _ E1). cbn [invalidate dt_src].
    destruct (run_but_items o b (invalidate s) (fresh (dt_src s) DNoError) s1) as (s2 & E3 & H3); [|exact E1|].
    + unfold but_items, fresh, invalidate. cbn. auto.
    + exists s2. split; [exact E3|apply but_items_sym; exact H3].
Qed.

(** Everything a context can be after its construction: diffs are added, base and options are
    replaced followed by invalidate(), invalidate() is called. *)
Inductive ctx_reached : dctx -> Prop :=
| Cr_new b o e : ctx_reached (mkDctx b [] o e)
| Cr_diff c d e c' : ctx_reached c -> ctx_diff d e c = Ok c' -> ctx_reached c'
| Cr_invalidate c c' : ctx_reached c -> ctx_invalidate c = Ok c' -> ctx_reached c'
| Cr_change c b o e c' : ctx_reached c -> ctx_invalidate (mkDctx b (dc_diffs c) o e) = Ok c' -> ctx_reached c'.
Lemma ctx_reached_ok c : ctx_reached c -> ctx_ok c.
Proof.
  induction 1 as [b o e|c d e c' _ IH E|c c' _ _ E|c b o e c' _ _ E].
  - constructor.
  - exact (proj1 (ctx_diff_ok _ _ _ _ IH E)).
  - exact (invalidate_makes_ok _ _ E).
  - exact (invalidate_makes_ok _ _ E).
Qed.
