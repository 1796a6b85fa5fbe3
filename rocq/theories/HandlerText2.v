(** Texts: arrays, sets, enums, structs. *)
From Verif Require Import Base Tactics ScanModel TokModel JsonSpec TokSpec EscapeModel IntModel MapSpec MapProofs MapProofs2 SerDoc HandlerModel HandlerSpec HandlerTree HandlerLaws HandlerProps HandlerStruct HandlerText HandlerTerm.
From Coq Require Import Lia Permutation.

Lemma lift_iff {A B} (f : A -> B) (x : sres A) e b r : lift f x = Ok (e, b, r) <-> exists a, x = Ok (e, a, r) /\ b = f a.
Proof.
  split; [intros H; apply lift_ok in H; destruct H as (a & H1 & H2); eauto|]. intros (a & -> & ->). reflexivity.
Qed.

Lemma text_shape o g t v j text e v' r : ty_ok t -> shaped t v -> fits t (Some j) -> o_nl o = false -> doc_text plain j text ->
  parses o g t v text e v' r -> shaped t v'.
Proof. intros Ht Hv Hf Ho Hd H. apply (parses_sem o g t v j text) in H; try assumption. exact (sem_keeps g t _ _ _ _ _ _ Hv H). Qed.

Lemma reads_each_length g t vs js vs' r : reads_each g t vs js vs' r -> length vs = length js /\ length vs' = length js.
Proof. induction 1; cbn; [auto|]. destruct IHreads_each. split; congruence. Qed.

Lemma fixed_text o g n t slots els text v' r : ty_ok t -> shaped (YFixed n t) (VList slots) -> fits (YFixed n t) (Some (JArr els)) ->
  o_nl o = false -> doc_text plain (JArr els) text ->
  (parses o g (YFixed n t) (VList slots) text NoError v' r <-> exists vs', v' = VList vs' /\ reads_each g t slots els vs' r).
Proof.
  intros Ht Hv Hf Ho Hd. rewrite (parses_sem o g (YFixed n t) _ _ _ _ _ _ Ht Hv Hf Ho Hd). cbn [sem s_array]. rewrite lift_iff.
  destruct Hv as [Hl Hs]. destruct Hf as [Hf Hn].
  assert (L : length els < length slots -> rejects (sem g t)).
  { intros K. apply fits_rejects. apply Hn. lia. }
  assert (F : length els = n -> Forall (fun j => fits t (Some j)) els) by (intros <-; rewrite firstn_all in Hf; exact Hf).
  split.
  - intros (a & H & ->). apply (s_fixed_spec _ (sem_appends g t) slots els [] r a L) in H. destruct H as (vs & -> & H). cbn [app].
    exists vs. split; [reflexivity|]. apply sem_each_reads; auto. apply F. clear -H Hl.
    rewrite <- Hl. clear Hl. revert els vs r H. induction slots as [|v slots IH]; intros [|j els] [|v1 vs] r H; try contradiction; auto.
    destruct H as (r1 & r2 & _ & H & _). cbn. f_equal. exact (IH _ _ _ H).
  - intros (vs & -> & H). exists vs. split; [|reflexivity]. apply (s_fixed_spec _ (sem_appends g t) slots els [] r vs L). exists vs. split; [reflexivity|].
    apply sem_each_reads; auto. apply F. apply reads_each_length in H. lia.
Qed.

Lemma var_text o g n t size slots els text v' r : ty_ok t -> shaped (YVar n t) (VVar size slots) -> fits (YVar n t) (Some (JArr els)) ->
  o_nl o = false -> doc_text plain (JArr els) text ->
  (parses o g (YVar n t) (VVar size slots) text NoError v' r <->
   length els <= n /\ exists vs', reads_each g t (firstn (length els) slots) els vs' r /\
     v' = VVar (if length els <? n then length els else size) (vs' ++ skipn (length els) slots)).
Proof.
  intros Ht Hv Hf Ho Hd. rewrite (parses_sem o g (YVar n t) _ _ _ _ _ _ Ht Hv Hf Ho Hd). cbn [sem s_array]. rewrite lift_iff.
  destruct Hv as [Hl Hs].
  assert (F : length els <= n -> Forall (fun j => fits t (Some j)) els) by (intros K; cbn in Hf; rewrite firstn_all2 in Hf by lia; exact Hf).
  assert (Hs' : Forall (shaped t) (firstn (length els) slots)).
  { apply Forall_forall. intros x Hx. rewrite Forall_forall in Hs. apply Hs. rewrite <- (firstn_skipn (length els) slots). apply in_or_app. auto. }
  split.
  - intros (a & H & ->). apply (s_var_spec _ size (sem_appends g t) slots els [] r a) in H. destruct H as (vs & K & H & ->). rewrite Hl in K |- *.
    split; [exact K|]. exists vs. split; [apply sem_each_reads; auto|]. reflexivity.
  - intros (K & vs & H & ->). exists (if length els <? n then length els else size, vs ++ skipn (length els) slots). split; [|reflexivity].
    apply (s_var_spec _ size (sem_appends g t) slots els [] r). exists vs. rewrite Hl. split; [exact K|]. split; [apply sem_each_reads; auto|]. reflexivity.
Qed.

Lemma vec_text o g t v els text v' r : ty_ok t -> shaped (YVec t) v -> Forall (fun j => fits t (Some j)) els ->
  o_nl o = false -> doc_text plain (JArr els) text ->
  (parses o g (YVec t) v text NoError v' r <-> exists vs', v' = VList vs' /\ reads_each g t (repeat (init t) (length els)) els vs' r).
Proof.
  intros Ht Hv Hf Ho Hd. rewrite (parses_sem o g (YVec t) v (JArr els) text NoError v' r Ht Hv Hf Ho Hd). cbn [sem s_array]. rewrite lift_iff.
  assert (R : Forall (shaped t) (repeat (init t) (length els))) by (apply Forall_forall; intros x Hx; apply repeat_spec in Hx; subst x; apply init_shaped).
  split.
  - intros (a & H & ->). apply (s_vec_spec _ _ (sem_appends g t)) in H. destruct H as (vs & -> & H). exists vs. split; [reflexivity|]. apply sem_each_reads; auto.
  - intros (vs & -> & H). exists vs. split; [|reflexivity]. apply (s_vec_spec _ _ (sem_appends g t)). exists vs. split; [reflexivity|]. apply sem_each_reads; auto.
Qed.
Lemma set_text o g t v els text v' r : ty_ok t -> shaped (YSet t) v -> Forall (fun j => fits t (Some j)) els ->
  o_nl o = false -> doc_text plain (JArr els) text ->
  (parses o g (YSet t) v text NoError v' r <-> exists vs', v' = VList vs' /\ all_different vs' /\ reads_each g t (repeat (init t) (length els)) els vs' r).
Proof.
  intros Ht Hv Hf Ho Hd. rewrite (parses_sem o g (YSet t) v (JArr els) text NoError v' r Ht Hv Hf Ho Hd). cbn [sem s_array]. rewrite lift_iff.
  assert (R : Forall (shaped t) (repeat (init t) (length els))) by (apply Forall_forall; intros x Hx; apply repeat_spec in Hx; subst x; apply init_shaped).
  split.
  - intros (a & H & ->). apply (s_set_spec _ _ (sem_appends g t) _ _ _ _ (NoDup_nil _ : all_different [])) in H. destruct H as (vs & -> & H & N). exists vs. split; [reflexivity|].
    split; [exact N|]. apply sem_each_reads; auto.
  - intros (vs & -> & N & H). exists vs. split; [|reflexivity]. apply (s_set_spec _ _ (sem_appends g t) _ _ _ _ (NoDup_nil _ : all_different [])). exists vs. split; [reflexivity|].
    split; [apply sem_each_reads; auto|exact N].
Qed.
Lemma set_text_duplicate o g t v els text vs r : ty_ok t -> shaped (YSet t) v -> Forall (fun j => fits t (Some j)) els ->
  o_nl o = false -> doc_text plain (JArr els) text -> reads_each g t (repeat (init t) (length els)) els vs r -> ~ all_different vs ->
  exists v' r', parses o g (YSet t) v text DuplicateInSet v' r'.
Proof.
  intros Ht Hv Hf Ho Hd H N.
  assert (R : Forall (shaped t) (repeat (init t) (length els))) by (apply Forall_forall; intros x Hx; apply repeat_spec in Hx; subst x; apply init_shaped).
  apply sem_each_reads in H; auto. destruct (s_set_duplicate _ _ (sem_appends g t) els [] r vs (NoDup_nil _ : all_different []) H N) as (l & r' & E).
  exists (VList l), r'. apply (parses_sem o g (YSet t) v (JArr els) text); auto. cbn [sem s_array]. apply lift_iff. eauto.
Qed.

(** Structs. *)
Lemma struct_text o g b fs vs ms text v' r : ty_ok (YStruct b fs) -> shaped (YStruct b fs) (VList vs) -> fits (YStruct b fs) (Some (JObj ms)) ->
  o_nl o = false -> doc_text plain (JObj ms) text ->
  (parses o g (YStruct b fs) (VList vs) text NoError v' r <->
   exists vs' d, v' = VList vs' /\ members_read g b fs ms vs vs' d /\ r = (fst d, snd d ++ if pc_track g then absent_required b fs ms else []) /\
     (absent_required b fs ms = [] \/ pc_allow_unassigned g = true)).
Proof.
  intros Ht Hv Hf Ho Hd. rewrite (parses_sem o g _ _ _ _ _ _ _ Ht Hv Hf Ho Hd).
  assert (G := good_read g b fs Ht ms vs (repeat false (length fs)) Hv Hf). split.
  - intros H. destruct (struct_good g b fs _ _ _ _ _ H eq_refl) as ([vs' a'] & d & A & -> & -> & B). exists vs', d. split; [reflexivity|].
    split; [apply G; eauto|auto].
  - intros (vs' & d & -> & A & -> & B). apply G in A. destruct A as (a' & A). rewrite (good_struct g b fs _ _ _ _ A).
    destruct (absent_required b fs ms); [reflexivity|]. destruct B as [B|B]; [discriminate B|]. rewrite B. reflexivity.
Qed.
Lemma struct_text_unassigned o g b fs vs vs' ms text d : ty_ok (YStruct b fs) -> shaped (YStruct b fs) (VList vs) -> fits (YStruct b fs) (Some (JObj ms)) ->
  o_nl o = false -> doc_text plain (JObj ms) text -> members_read g b fs ms vs vs' d ->
  absent_required b fs ms <> [] -> pc_allow_unassigned g = false ->
  parses o g (YStruct b fs) (VList vs) text UnassignedRequiredMember (VList vs') (fst d, snd d ++ if pc_track g then absent_required b fs ms else []).
Proof.
  intros Ht Hv Hf Ho Hd A B C. apply (parses_sem o g _ _ (JObj ms) _ _ _ _ Ht Hv Hf Ho Hd).
  apply (good_read g b fs Ht ms vs (repeat false (length fs)) Hv Hf) in A. destruct A as (a' & A). rewrite (good_struct g b fs _ _ _ _ A), C.
  destruct (absent_required b fs ms); [contradiction|reflexivity].
Qed.

Lemma denoted_spec b fs ms i f : list_sum b = length fs -> names_distinct fs -> nth_error fs i = Some f ->
  (In i (denoted b fs ms) <-> exists k j, In (k, j) ms /\ In k (snd (fst f))).
Proof.
  intros Hb Hd Hf. unfold denoted. rewrite in_flat_map. split.
  - intros ([k j] & Hin & H). cbn [fst] in H. destruct (member_named b fs k) as [i'|] eqn:E; [|contradiction]. destruct H as [->|[]].
    exists k, j. split; [exact Hin|]. exact (proj1 (member_named_spec b fs k i f Hb Hd Hf) E).
  - intros (k & j & Hin & H). exists (k, j). split; [exact Hin|]. cbn [fst]. rewrite (proj2 (member_named_spec b fs k i f Hb Hd Hf) H). left. reflexivity.
Qed.
Lemma absent_required_spec b fs ms x : list_sum b = length fs -> names_distinct fs ->
  (In x (absent_required b fs ms) <->
   exists i f, nth_error fs i = Some f /\ is_optional (snd f) = false /\ x = display_name f /\ forall k j, In (k, j) ms -> ~ In k (snd (fst f))).
Proof.
  intros Hb Hd. unfold absent_required. rewrite in_flat_map. split.
  - intros (i & Hi & H). destruct (nth_error fs i) as [f|] eqn:Ef; [|contradiction]. exists i, f. split; [exact Ef|].
    destruct (is_optional (snd f)); cbn [orb] in H; [contradiction|]. destruct (existsb _ _) eqn:Ex; [contradiction|]. destruct H as [<-|[]].
    split; [reflexivity|]. split; [reflexivity|]. intros k j Hin Hk.
    assert (K : In i (denoted b fs ms)) by (apply (denoted_spec b fs ms i f Hb Hd Ef); eauto).
    assert (existsb (Nat.eqb i) (denoted b fs ms) = true); [|congruence]. apply existsb_exists. exists i. split; [exact K|apply Nat.eqb_refl].
  - intros (i & f & Ef & Ho & -> & H). exists i. split.
    + apply search_order_lt. assert (i < length fs) by (apply nth_error_Some; congruence). lia.
    + rewrite Ef, Ho. cbn [orb]. destruct (existsb _ _) eqn:Ex; [|left; reflexivity].
      apply existsb_exists in Ex. destruct Ex as (i' & K & E). apply Nat.eqb_eq in E. subst i'.
      apply (denoted_spec b fs ms i f Hb Hd Ef) in K. destruct K as (k & j & K1 & K2). destruct (H k j K1 K2).
Qed.

(** Maps. *)
Lemma s_map_spec d s : appends s -> forall ms m r m',
  (s_map d s ms m r0 = Ok (NoError, m', r) <->
   exists vs, sem_each s (repeat d (length ms)) (map snd ms) vs r /\ m' = fold_left (fun m kv => map_put (fst kv) (snd kv) m) (combine (map (fun kv => escapes_in (fst kv)) ms) vs) m).
Proof.
  intros Hs. induction ms as [|[k j] ms IH]; intros m r m'; cbn [s_map map length repeat].
  - split.
    + intros H. injection H as <- <-. exists []. split; reflexivity.
    + intros ([|v vs] & H & ->); [|contradiction]. cbn in H. subst r. reflexivity.
  - split.
    + intros H. destruct (s d (Some j) r0) as [[[e v] r1]| |] eqn:E; cbn [obind] in H; try discriminate H.
      destruct (is_ok e) eqn:Eo; [apply is_ok_NoError in Eo; subst e|injection H as -> _ _; discriminate Eo].
      replace r1 with (rapp r1 r0) in H by apply rapp_r0. rewrite (s_map_shift d s Hs) in H.
      destruct (s_map d s ms (map_put (escapes_in k) v m) r0) as [[[e2 m2] r2]| |] eqn:E2; cbn [shift] in H; try discriminate H.
      injection H as -> -> <-. apply IH in E2. destruct E2 as (vs & A & ->). exists (v :: vs). split; [|reflexivity].
      exists r1, r2. cbn [snd]. auto.
    + intros ([|v vs] & H & ->); [contradiction|]. destruct H as (r1 & r2 & A & B & ->). cbn [snd] in A. rewrite A. cbn [obind is_ok].
      replace r1 with (rapp r1 r0) by apply rapp_r0. rewrite (s_map_shift d s Hs).
      rewrite (proj2 (IH (map_put (escapes_in k) v m) r2 _) (ex_intro _ vs (conj B eq_refl))). cbn [shift]. rewrite rapp_r0. reflexivity.
Qed.
Lemma map_text o g t m ms text v' r : ty_ok t -> shaped (YMap t) (VMap m) -> Forall (fun kv => fits t (Some (snd kv))) ms ->
  o_nl o = false -> doc_text plain (JObj ms) text ->
  (parses o g (YMap t) (VMap m) text NoError v' r <->
   exists vs, reads_each g t (repeat (init t) (length ms)) (map snd ms) vs r /\
     v' = VMap (fold_left (fun m kv => map_put (fst kv) (snd kv) m) (combine (map (fun kv => escapes_in (fst kv)) ms) vs) m)).
Proof.
  intros Ht Hv Hf Ho Hd. rewrite (parses_sem o g (YMap t) _ (JObj ms) text NoError v' r Ht Hv Hf Ho Hd). cbn [sem s_object]. rewrite lift_iff.
  assert (R : Forall (shaped t) (repeat (init t) (length ms))) by (apply Forall_forall; intros x Hx; apply repeat_spec in Hx; subst x; apply init_shaped).
  assert (F : Forall (fun j => fits t (Some j)) (map snd ms)) by (apply Forall_map; exact Hf).
  split.
  - intros (a & H & ->). apply (s_map_spec _ _ (sem_appends g t)) in H. destruct H as (vs & H & ->). exists vs. split; [apply sem_each_reads; auto|reflexivity].
  - intros (vs & H & ->). eexists. split; [|reflexivity]. apply (s_map_spec _ _ (sem_appends g t)). exists vs. split; [apply sem_each_reads; auto|reflexivity].
Qed.

(** Tuples. *)
Lemma tuple_text_aux g : forall ts vs els acc r l, Forall ty_ok ts -> all2 (map shaped ts) vs ->
  (fix go ts els := match ts with [] => True | t :: ts => fits t (hd_error els) /\ (els <> [] -> go ts (tl els)) end) ts els ->
  (s_tuple (map (sem g) ts) els acc vs r0 = Ok (NoError, l, r) <-> exists vs', l = acc ++ vs' /\ reads_tuple g ts vs els vs' r).
Proof.
  induction ts as [|t ts IH]; intros [|v vs] els acc r l Hok Hv Hf; cbn in Hv; try contradiction; cbn [map s_tuple].
  - split.
    + intros H. destruct els; [|discriminate H]. injection H as <- <-. exists []. rewrite app_nil_r. split; [reflexivity|constructor].
    + intros (vs' & -> & H). inversion H; subst. rewrite app_nil_r. reflexivity.
  - inversion Hok as [|? ? Hok1 Hok2]; subst. destruct Hv as [Hv1 Hv2]. destruct Hf as [Hf1 Hf2]. split.
    + intros H. destruct els as [|j els]; cbn [hd_error tl] in *.
      * destruct (sem g t v None r0) as [[[e v1] r1]| |] eqn:E; cbn [obind] in H; try discriminate H.
        assert (R := fits_rejects g t Hf1 _ _ _ _ _ E). destruct (is_ok e) eqn:Eo; [apply is_ok_NoError in Eo; congruence|].
        injection H as -> _ _. congruence.
      * destruct (sem g t v (Some j) r0) as [[[e v1] r1]| |] eqn:E; cbn [obind] in H; try discriminate H.
        destruct (is_ok e) eqn:Eo; [apply is_ok_NoError in Eo; subst e|injection H as -> _ _; discriminate Eo].
        replace r1 with (rapp r1 r0) in H by apply rapp_r0. rewrite s_tuple_shift in H by (apply Forall_map, Forall_forall; intros; apply sem_appends).
        destruct (s_tuple (map (sem g) ts) els (acc ++ [v1]) vs r0) as [[[e2 l2] r2]| |] eqn:E2; cbn [shift] in H; try discriminate H.
        injection H as -> -> <-. apply IH in E2; [|exact Hok2|exact Hv2|apply Hf2; discriminate]. destruct E2 as (vs' & -> & A).
        exists (v1 :: vs'). rewrite <- app_assoc. split; [reflexivity|]. constructor; [|exact A]. rewrite read_value_sem; assumption.
    + intros (vs' & -> & H). inversion H as [|t0 v0 j v1 r1 ts0 vs0 els0 vs1 r2 A B]; subst. cbn [hd_error tl] in *.
      rewrite read_value_sem in A by assumption. rewrite A. cbn [obind is_ok].
      replace r1 with (rapp r1 r0) by apply rapp_r0. rewrite s_tuple_shift by (apply Forall_map, Forall_forall; intros; apply sem_appends).
      rewrite (proj2 (IH vs els0 (acc ++ [v1]) r2 (acc ++ v1 :: vs1) Hok2 Hv2 (Hf2 ltac:(discriminate)))).
      * cbn [shift]. rewrite rapp_r0. reflexivity.
      * exists vs1. rewrite <- app_assoc. auto.
Qed.
Lemma tuple_text o g ts vs els text v' r : ty_ok (YTuple ts) -> shaped (YTuple ts) (VList vs) -> fits (YTuple ts) (Some (JArr els)) ->
  o_nl o = false -> doc_text plain (JArr els) text ->
  (parses o g (YTuple ts) (VList vs) text NoError v' r <-> exists vs', v' = VList vs' /\ reads_tuple g ts vs els vs' r).
Proof.
  intros Ht Hv Hf Ho Hd. rewrite (parses_sem o g _ _ _ _ _ _ _ Ht Hv Hf Ho Hd). cbn [sem s_array]. rewrite lift_iff. apply ty_ok_tuple in Ht.
  split.
  - intros (a & H & ->). apply tuple_text_aux in H; auto. destruct H as (vs' & -> & H). exists vs'. auto.
  - intros (vs' & -> & H). exists vs'. split; [|reflexivity]. apply tuple_text_aux; auto. exists vs'. auto.
Qed.
