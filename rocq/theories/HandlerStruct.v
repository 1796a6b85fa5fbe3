(** Structs: order of members, unknown members, absent members. *)
From Verif Require Import Base Tactics ScanModel TokModel JsonSpec EscapeModel IntModel MapSpec MapProofs MapProofs2 DiffProofs SerDoc HandlerModel HandlerSpec HandlerTree HandlerLaws HandlerProps.
From Coq Require Import Lia Permutation.

Lemma nth_put_same {A} i (x : A) : forall l, i < length l -> nth_error (put i x l) i = Some x.
Proof. induction i as [|i IH]; intros [|y l] H; cbn in *; try lia; [reflexivity|]. apply IH. lia. Qed.
Lemma nth_put_other {A} i k (x : A) : i <> k -> forall l, nth_error (put i x l) k = nth_error l k.
Proof.
  revert k. induction i as [|i IH]; intros [|k] Hne [|y l]; cbn; try reflexivity; try congruence. apply IH. congruence.
Qed.
Lemma put_comm {A} i k (x y : A) : i <> k -> forall l, put i x (put k y l) = put k y (put i x l).
Proof.
  revert k. induction i as [|i IH]; intros [|k] Hne [|z l]; cbn; try reflexivity; try congruence.
  rewrite IH by congruence. reflexivity.
Qed.
Lemma put_length {A} i (x : A) : forall l, length (put i x l) = length l.
Proof. induction i as [|i IH]; intros [|y l]; cbn; auto. Qed.
Lemma matched_ok e : is_ok (matchedMemberResult e) = true <-> e = NoError.
Proof. destruct e; cbn; split; congruence. Qed.

Section Members.
Context (g : pcfg) (order : list nat) (names : list (list bytes)) (ss : list shandler).
Notation s_members := (s_members g order names ss).
Notation at_ k := (search_both k names order).
Hypothesis Hss : Forall appends ss.

Definition den (ms : list (bytes * json)) : list nat :=
  flat_map (fun kv => match at_ (fst kv) with Some i => [i] | None => [] end) ms.
Definition unk (ms : list (bytes * json)) : list bytes :=
  flat_map (fun kv => match at_ (fst kv) with Some _ => [] | None => [fst kv] end) ms.

Lemma s_members_app ms1 : forall ms2 vs a r,
  s_members (ms1 ++ ms2) vs a r =
  (let* (e, x, r1) := s_members ms1 vs a r in if is_ok e then s_members ms2 (fst x) (snd x) r1 else Ok (e, x, r1)).
Proof.
  induction ms1 as [|[k j] ms1 IH]; intros ms2 vs a r; cbn [app HandlerTree.s_members]; [reflexivity|].
  destruct (at_ k) as [i|].
  - destruct (nth_error ss i) as [s|]; [|reflexivity]. destruct (nth_error vs i) as [v|]; [|reflexivity].
    destruct (s v (Some j) r) as [[[e v'] r']| |]; cbn [obind]; [|reflexivity..].
    destruct (is_ok (matchedMemberResult e)) eqn:Eo; [apply IH|]. cbn [obind]. rewrite Eo. reflexivity.
  - destruct (pc_allow_missing g); [apply IH|]. reflexivity.
Qed.

(** Success, with the reports made. *)
Definition good (ms : list (bytes * json)) vs a x d : Prop := s_members ms vs a r0 = Ok (NoError, x, d).

Lemma good_cons kv ms vs a x d : good (kv :: ms) vs a x d <->
  exists y d1 d2, good [kv] vs a y d1 /\ good ms (fst y) (snd y) x d2 /\ d = rapp d1 d2.
Proof.
  unfold good. change (kv :: ms) with ([kv] ++ ms). rewrite s_members_app.
  destruct (s_members [kv] vs a r0) as [[[e y] d1]| |]; cbn [obind]; split.
  - intros H. destruct (is_ok e) eqn:Eo; [apply is_ok_NoError in Eo; subst e|injection H as -> _ _; discriminate Eo].
    replace d1 with (rapp d1 r0) in H by apply rapp_r0. rewrite (s_members_shift g order names ss Hss) in H.
    destruct (s_members ms (fst y) (snd y) r0) as [[[e2 x2] d2]| |] eqn:E2; cbn [shift] in H; try discriminate H.
    injection H as -> -> <-. exists y, d1, d2. auto.
  - intros (y' & d1' & d2 & A & B & ->). injection A as -> -> ->. cbn [is_ok].
    replace d1' with (rapp d1' r0) by apply rapp_r0. rewrite (s_members_shift g order names ss Hss), B. rewrite rapp_r0. reflexivity.
  - discriminate.
  - intros (y' & d1' & d2 & A & _). discriminate A.
  - discriminate.
  - intros (y' & d1' & d2 & A & _). discriminate A.
Qed.

Lemma good_one k j vs a x d : good [(k, j)] vs a x d <->
  match at_ k with
  | Some i => exists s v v', nth_error ss i = Some s /\ nth_error vs i = Some v /\ s v (Some j) r0 = Ok (NoError, v', d) /\
                x = (put i v' vs, put i true a)
  | None => pc_allow_missing g = true /\ x = (vs, a) /\ d = note_missing g k r0
  end.
Proof.
  unfold good. cbn [HandlerTree.s_members]. destruct (at_ k) as [i|].
  - split.
    + intros H. destruct (nth_error ss i) as [s|]; [|discriminate H]. destruct (nth_error vs i) as [v|]; [|discriminate H].
      destruct (s v (Some j) r0) as [[[e v'] r']| |] eqn:E; cbn [obind] in H; try discriminate H.
      destruct (is_ok (matchedMemberResult e)) eqn:Eo.
      * apply matched_ok in Eo. subst e. injection H as <- <-. exists s, v, v'. auto.
      * injection H as H _ _. rewrite H in Eo. discriminate Eo.
    + intros (s & v & v' & -> & -> & E & ->). rewrite E. reflexivity.
  - split.
    + destruct (pc_allow_missing g); intros H; [|discriminate H]. injection H as <- <-. auto.
    + intros (-> & -> & ->). reflexivity.
Qed.

Definition rperm (a b : report) : Prop := Permutation (fst a) (fst b) /\ Permutation (snd a) (snd b).
Lemma rperm_app a b c d : rperm a b -> rperm c d -> rperm (rapp a c) (rapp b d).
Proof. intros [A B] [C D]. split; apply Permutation_app; assumption. Qed.
Lemma rperm_refl a : rperm a a.
Proof. split; apply Permutation_refl. Qed.
Lemma rperm_swap a b c : rperm (rapp a (rapp b c)) (rapp b (rapp a c)).
Proof.
  split; unfold rapp; cbn [fst snd]; rewrite !app_assoc; apply Permutation_app_tail, Permutation_app_comm.
Qed.

Lemma s_members_perm ms ms' : Permutation ms ms' -> forall vs a x d, NoDup (den ms) -> good ms vs a x d ->
  exists d', good ms' vs a x d' /\ rperm d d'.
Proof.
  induction 1 as [|kv ms ms' Hp IH|kv1 kv2 ms|ms ms' ms'' H1 IH1 H2 IH2]; intros vs a x d N H.
  - exists d. split; [exact H|apply rperm_refl].
  - apply good_cons in H. destruct H as (y & d1 & d2 & A & B & ->).
    assert (N' : NoDup (den ms)).
    { unfold den in N. cbn [flat_map] in N. destruct (at_ (fst kv)); [inversion N; assumption|exact N]. }
    destruct (IH _ _ _ _ N' B) as (d' & C & D). exists (rapp d1 d'). split; [|apply rperm_app; [apply rperm_refl|exact D]].
    apply good_cons. exists y, d1, d'. auto.
  - destruct kv1 as [k1 j1], kv2 as [k2 j2].
    apply good_cons in H. destruct H as (y & d1 & d2 & A & B & ->). apply good_cons in B. destruct B as (z & d3 & d4 & B & C & ->).
    exists (rapp d3 (rapp d1 d4)). split; [|apply rperm_swap].
    apply good_one in A. apply good_one in B.
    assert (Q : exists y', good [(k1, j1)] vs a y' d3 /\ good [(k2, j2)] (fst y') (snd y') z d1).
    { destruct (at_ k2) as [i2|] eqn:E2, (at_ k1) as [i1|] eqn:E1.
      - assert (Hne : i1 <> i2).
        { unfold den in N. cbn [flat_map fst] in N. rewrite E1, E2 in N. cbn [app] in N. inversion N as [|? ? Hn _]; subst. intros ->. apply Hn. left. reflexivity. }
        destruct A as (s2 & v2 & v2' & A1 & A2 & A3 & ->). destruct B as (s1 & v1 & v1' & B1 & B2 & B3 & ->). cbn [fst snd] in *.
        rewrite nth_put_other in B2 by congruence.
        exists (put i1 v1' vs, put i1 true a). split.
        + apply good_one. rewrite E1. exists s1, v1, v1'. auto.
        + apply good_one. rewrite E2. exists s2, v2, v2'. cbn [fst snd]. rewrite nth_put_other by congruence.
          rewrite (put_comm i1 i2), (put_comm i1 i2) by congruence. auto.
      - destruct A as (s2 & v2 & v2' & A1 & A2 & A3 & ->). destruct B as (B1 & -> & ->).
        exists (vs, a). split; apply good_one; [rewrite E1; auto|]. rewrite E2. exists s2, v2, v2'. auto.
      - destruct A as (A1 & -> & ->). exists z. split; apply good_one; [rewrite E1; exact B|]. rewrite E2. rewrite <- surjective_pairing. auto.
      - destruct A as (A1 & -> & ->). destruct B as (B1 & -> & ->). exists (vs, a). split; apply good_one; [rewrite E1; auto|rewrite E2; auto]. }
    destruct Q as (y' & Q1 & Q2). apply good_cons. exists y', d3, (rapp d1 d4). split; [exact Q1|]. split; [|reflexivity].
    apply good_cons. exists z, d1, d4. auto.
  - destruct (IH1 _ _ _ _ N H) as (d1 & A & P1).
    assert (N' : NoDup (den ms')) by (exact (Permutation_NoDup (Permutation_flat_map _ H1) N)).
    destruct (IH2 _ _ _ _ N' A) as (d2 & B & P2). exists d2. split; [exact B|]. destruct P1, P2. split; eapply Permutation_trans; eassumption.
Qed.

(** Unknown members. *)
Lemma s_members_unknown k j ms1 ms2 vs a e x d : pc_allow_missing g = true -> at_ k = None ->
  s_members (ms1 ++ ms2) vs a r0 = Ok (e, x, d) ->
  exists d1 d2 n, d = rapp d1 d2 /\ s_members (ms1 ++ (k, j) :: ms2) vs a r0 = Ok (e, x, rapp d1 (rapp n d2)) /\
    (n = note_missing g k r0 \/ n = r0) /\ (e = NoError -> n = note_missing g k r0).
Proof.
  intros Ha Hk H. change ((k, j) :: ms2) with ([(k, j)] ++ ms2). rewrite s_members_app in H |- *.
  destruct (s_members ms1 vs a r0) as [[[e1 y] d1]| |]; cbn [obind] in H |- *; try discriminate H.
  destruct (is_ok e1) eqn:Eo.
  - rewrite s_members_app. cbn [HandlerTree.s_members]. rewrite Hk, Ha. cbn [obind is_ok fst snd].
    replace d1 with (rapp d1 r0) in H by apply rapp_r0. rewrite (s_members_shift g order names ss Hss) in H.
    replace d1 with (rapp d1 r0) by apply rapp_r0. rewrite note_missing_shift, (s_members_shift g order names ss Hss).
    replace (note_missing g k r0) with (rapp (note_missing g k r0) r0) by apply rapp_r0. rewrite (s_members_shift g order names ss Hss).
    destruct (s_members ms2 (fst y) (snd y) r0) as [[[e2 z] d2]| |]; cbn [shift] in H |- *; try discriminate H.
    injection H as -> -> <-. exists d1, d2, (note_missing g k r0). rewrite !rapp_r0. auto.
  - injection H as -> -> ->. exists d, r0, r0. rewrite !rapp_r0. split; [reflexivity|]. split; [reflexivity|]. split; [auto|].
    intros ->. discriminate Eo.
Qed.

(** What is assigned and what is reported. *)
Lemma good_reports ms : (forall s, In s ss -> forall v oj e v' r, s v oj r0 = Ok (e, v', r) -> r = r0) -> forall vs a x d,
  good ms vs a x d -> snd d = [] /\ fst d = if pc_track g then unk ms else [].
Proof.
  intros Hq. induction ms as [|[k j] ms IH]; intros vs a x d H.
  - injection H as <- <-. destruct (pc_track g); auto.
  - apply good_cons in H. destruct H as (y & d1 & d2 & A & B & ->). destruct (IH _ _ _ _ B) as [C D]. apply good_one in A.
    unfold unk. cbn [flat_map fst]. fold (unk ms). destruct (at_ k) as [i|].
    + destruct A as (s & v & v' & A1 & _ & A3 & _). apply (Hq s (nth_error_In _ _ A1)) in A3. subst d1. rewrite rapp_r0_l. auto.
    + destruct A as (_ & _ & ->). unfold note_missing, rapp. destruct (pc_track g); cbn [fst snd r0 app]; rewrite ?C, ?D; auto.
Qed.

Lemma good_assigned ms : forall vs a x d, good ms vs a x d -> forall i, i < length a ->
  nth i (snd x) false = nth i a false || existsb (Nat.eqb i) (den ms).
Proof.
  induction ms as [|[k j] ms IH]; intros vs a x d H i Hi.
  - injection H as <- <-. cbn. rewrite orb_false_r. reflexivity.
  - apply good_cons in H. destruct H as (y & d1 & d2 & A & B & ->). apply good_one in A.
    unfold den. cbn [flat_map fst]. fold (den ms). destruct (at_ k) as [i1|].
    + destruct A as (s & v & v' & _ & _ & _ & ->). cbn [fst snd] in B. rewrite (IH _ _ _ _ B i) by (rewrite put_length; exact Hi).
      cbn [app existsb]. destruct (Nat.eqb_spec i i1) as [->|Hne].
      * rewrite (nth_error_nth _ i1 false (nth_put_same _ _ _ Hi)). cbn. rewrite orb_true_r. reflexivity.
      * f_equal. clear -Hne. revert i1 Hne. generalize a. induction i as [|i IH]; intros [|b l] [|i1] H; cbn; auto; try congruence.
    + destruct A as (_ & -> & _). exact (IH _ _ _ _ B i Hi).
Qed.

(** Members that are not named keep their values, whatever happens. *)
Lemma s_members_untouched ms : forall vs a r e x r', s_members ms vs a r = Ok (e, x, r') -> forall i, ~ In i (den ms) ->
  nth_error (fst x) i = nth_error vs i.
Proof.
  induction ms as [|[k j] ms IH]; intros vs a r e x r' H i Hi; cbn [HandlerTree.s_members] in H.
  - injection H as _ <- _. reflexivity.
  - unfold den in Hi. cbn [flat_map fst] in Hi. fold (den ms) in Hi. destruct (at_ k) as [i1|].
    + destruct (nth_error ss i1) as [s|]; [|discriminate H]. destruct (nth_error vs i1) as [v|]; [|discriminate H].
      destruct (s v (Some j) r) as [[[e0 v'] r1]| |]; cbn [obind] in H; try discriminate H.
      assert (Hne : i1 <> i) by (intros ->; apply Hi; left; reflexivity).
      destruct (is_ok _).
      * rewrite (IH _ _ _ _ _ _ H i) by (intros Hin; apply Hi; right; exact Hin). apply nth_put_other. exact Hne.
      * injection H as _ <- _. apply nth_put_other. exact Hne.
    + destruct (pc_allow_missing g); [exact (IH _ _ _ _ _ _ H i Hi)|]. injection H as _ <- _. reflexivity.
Qed.
Lemma s_members_assigned_length ms : forall vs a r e x r', s_members ms vs a r = Ok (e, x, r') -> length (snd x) = length a.
Proof.
  induction ms as [|[k j] ms IH]; intros vs a r e x r' H; cbn [HandlerTree.s_members] in H.
  - injection H as _ <- _. reflexivity.
  - destruct (at_ k) as [i1|].
    + destruct (nth_error ss i1) as [s|]; [|discriminate H]. destruct (nth_error vs i1) as [v|]; [|discriminate H].
      destruct (s v (Some j) r) as [[[e0 v'] r1]| |]; cbn [obind] in H; try discriminate H.
      destruct (is_ok _); [rewrite (IH _ _ _ _ _ _ H); apply put_length|]. injection H as _ <- _. apply put_length.
    + destruct (pc_allow_missing g); [exact (IH _ _ _ _ _ _ H)|]. injection H as _ <- _. reflexivity.
Qed.
End Members.

(** Types without structs report nothing. *)
Lemma sem_struct_free g t : struct_free t = true -> forall v oj e v' r, sem g t v oj r0 = Ok (e, v', r) -> r = r0.
Proof.
  assert (LV : forall s, (forall v oj e v' r, s v oj r0 = Ok (e, v', r) -> r = r0) -> forall d els acc e l r, s_vec d s els acc r0 = Ok (e, l, r) -> r = r0).
  { intros s Hs d. induction els as [|j els IH]; intros acc e l r H; cbn [s_vec] in H; [injection H as _ _ <-; reflexivity|].
    destruct (s d (Some j) r0) as [[[e0 v] r1]| |] eqn:E; cbn [obind] in H; try discriminate H. apply Hs in E. subst r1.
    destruct (is_ok e0); [exact (IH _ _ _ _ H)|]. injection H as _ _ <-. reflexivity. }
  assert (LS : forall s, (forall v oj e v' r, s v oj r0 = Ok (e, v', r) -> r = r0) -> forall d els acc e l r, s_set d s els acc r0 = Ok (e, l, r) -> r = r0).
  { intros s Hs d. induction els as [|j els IH]; intros acc e l r H; cbn [s_set] in H; [injection H as _ _ <-; reflexivity|].
    destruct (s d (Some j) r0) as [[[e0 v] r1]| |] eqn:E; cbn [obind] in H; try discriminate H. apply Hs in E. subst r1.
    destruct (is_ok e0); [|injection H as _ _ <-; reflexivity]. destruct (existsb _ _); [injection H as _ _ <-; reflexivity|exact (IH _ _ _ _ H)]. }
  assert (LF : forall s, (forall v oj e v' r, s v oj r0 = Ok (e, v', r) -> r = r0) -> forall slots els acc e l r, s_fixed s els acc slots r0 = Ok (e, l, r) -> r = r0).
  { intros s Hs. induction slots as [|v0 slots IH]; intros els acc e l r H; cbn [s_fixed] in H; [injection H as _ _ <-; reflexivity|].
    destruct (s v0 (hd_error els) r0) as [[[e0 v] r1]| |] eqn:E; cbn [obind] in H; try discriminate H. apply Hs in E. subst r1.
    destruct (is_ok e0); [exact (IH _ _ _ _ _ H)|]. injection H as _ _ <-. reflexivity. }
  assert (LA : forall s, (forall v oj e v' r, s v oj r0 = Ok (e, v', r) -> r = r0) -> forall size slots els acc e l r, s_var s els size acc slots r0 = Ok (e, l, r) -> r = r0).
  { intros s Hs size. induction slots as [|v0 slots IH]; intros els acc e l r H; cbn [s_var] in H; [injection H as _ _ <-; reflexivity|].
    destruct els as [|j els]; [injection H as _ _ <-; reflexivity|].
    destruct (s v0 (Some j) r0) as [[[e0 v] r1]| |] eqn:E; cbn [obind] in H; try discriminate H. apply Hs in E. subst r1.
    destruct (is_ok e0); [exact (IH _ _ _ _ _ H)|]. injection H as _ _ <-. reflexivity. }
  assert (LT : forall ss, Forall (fun s : shandler => forall v oj e v' r, s v oj r0 = Ok (e, v', r) -> r = r0) ss -> forall vs els acc e l r, s_tuple ss els acc vs r0 = Ok (e, l, r) -> r = r0).
  { induction 1 as [|s ss Hs _ IH]; intros [|v0 vs] els acc e l r H; cbn [s_tuple] in H; try discriminate H; [injection H as _ _ <-; reflexivity|].
    destruct (s v0 (hd_error els) r0) as [[[e0 v] r1]| |] eqn:E; cbn [obind] in H; try discriminate H. apply Hs in E. subst r1.
    destruct (is_ok e0); [exact (IH _ _ _ _ _ _ H)|]. injection H as _ _ <-. reflexivity. }
  assert (LM : forall s, (forall v oj e v' r, s v oj r0 = Ok (e, v', r) -> r = r0) -> forall d ms m e l r, s_map d s ms m r0 = Ok (e, l, r) -> r = r0).
  { intros s Hs d. induction ms as [|[k j] ms IH]; intros m e l r H; cbn [s_map] in H; [injection H as _ _ <-; reflexivity|].
    destruct (s d (Some j) r0) as [[[e0 v] r1]| |] eqn:E; cbn [obind] in H; try discriminate H. apply Hs in E. subst r1.
    destruct (is_ok e0); [exact (IH _ _ _ _ H)|]. injection H as _ _ <-. reflexivity. }
  induction t as [|i|sg|hr tp| |ns u|t IH|t IH|t IH|t IH|t IH|u t IH|t IH|t IH|t IH|n t IH|n t IH|t IH|ts IH|t IH|b fs IH] using ty_rect_nested;
    intros Hsf v oj e v' r H; cbn [struct_free] in Hsf; cbn [sem] in H; try discriminate Hsf.
  - destruct (bytes_eqb _ _); [injection H as _ _ <-; reflexivity|]. destruct (bytes_eqb _ _); injection H as _ _ <-; reflexivity.
  - destruct (int_to _ _) as [[e0 z]| |]; try discriminate H. injection H as _ _ <-; reflexivity.
  - destruct (fp_read _ _) as [[e0 z]| |]; try discriminate H. injection H as _ _ <-; reflexivity.
  - destruct v as [|old| | | | | | |]; try discriminate H. destruct (TimeModel.time_to _ _ _ _) as [[e0 z]| |]; try discriminate H. injection H as _ _ <-; reflexivity.
  - injection H as _ _ <-; reflexivity.
  - destruct (first_type oj); try (injection H as _ _ <-; reflexivity).
    + destruct (index_of _ _); injection H as _ _ <-; reflexivity.
    + destruct (int_to _ _) as [[e0 z]| |]; try discriminate H. injection H as _ _ <-; reflexivity.
  - destruct (type_eqb _ _); [injection H as _ _ <-; reflexivity|exact (IH Hsf _ _ _ _ _ H)].
  - destruct v as [| | | |f d| | | |]; try discriminate H. destruct (type_eqb _ _); [injection H as _ _ <-; reflexivity|].
    apply lift_ok in H. destruct H as (a & H & _). exact (IH Hsf _ _ _ _ _ H).
  - exact (IH Hsf _ _ _ _ _ H).
  - destruct v as [| | | |f d| | | |]; try discriminate H. apply lift_ok in H. destruct H as (a & H & _). exact (IH Hsf _ _ _ _ _ H).
  - apply lift_ok in H. destruct H as (a & H & _). exact (IH Hsf _ _ _ _ _ H).
  - destruct v as [| | | | |o| | |]; try discriminate H. destruct (type_eqb _ _); [injection H as _ _ <-; reflexivity|].
    apply lift_ok in H. destruct H as (a & H & _). exact (IH Hsf _ _ _ _ _ H).
  - exact (IH Hsf _ _ _ _ _ H).
  - unfold s_array in H. destruct oj as [[s|els|ms]|]; try (injection H as _ _ <-; reflexivity).
    apply lift_ok in H. destruct H as (a & H & _). exact (LV _ (IH Hsf) _ _ _ _ _ _ H).
  - destruct oj as [[s|els|ms]|].
    2: { apply lift_ok in H. destruct H as (a & H & _). exact (LV _ (IH Hsf) _ _ _ _ _ _ H). }
    all: destruct v as [| | | | | |l| |]; try discriminate H; apply lift_ok in H; destruct H as (a & H & _); exact (IH Hsf _ _ _ _ _ H).
  - destruct v as [| | | | | |l| |]; try discriminate H. unfold s_array in H. destruct oj as [[s|els|ms]|]; try (injection H as _ _ <-; reflexivity).
    apply lift_ok in H. destruct H as (a & H & _). exact (LF _ (IH Hsf) _ _ _ _ _ _ H).
  - destruct v as [| | | | | | |n0 l|]; try discriminate H. unfold s_array in H. destruct oj as [[s|els|ms]|]; try (injection H as _ _ <-; reflexivity).
    apply lift_ok in H. destruct H as (a & H & _). exact (LA _ (IH Hsf) _ _ _ _ _ _ _ H).
  - unfold s_array in H. destruct oj as [[s|els|ms]|]; try (injection H as _ _ <-; reflexivity).
    apply lift_ok in H. destruct H as (a & H & _). exact (LS _ (IH Hsf) _ _ _ _ _ _ H).
  - destruct v as [| | | | | |l| |]; try discriminate H. unfold s_array in H. destruct oj as [[s|els|ms]|]; try (injection H as _ _ <-; reflexivity).
    apply lift_ok in H. destruct H as (a & H & _). refine (LT _ _ _ _ _ _ _ _ H). apply Forall_map.
    rewrite forallb_forall in Hsf. rewrite Forall_forall in IH |- *. intros t Ht. exact (IH t Ht (Hsf t Ht)).
  - destruct v as [| | | | | | | |m]; try discriminate H. unfold s_object in H. destruct oj as [[s|els|ms]|]; try (injection H as _ _ <-; reflexivity).
    apply lift_ok in H. destruct H as (a & H & _). exact (LM _ (IH Hsf) _ _ _ _ _ _ H).
Qed.

(** ** Structs *)
Section Struct.
Context (g : pcfg) (b : list nat) (fs : list (bytes * list bytes * ty)).
Let order := search_order 0 b.
Let names := map (fun f : bytes * list bytes * ty => snd (fst f)) fs.
Let ss := map (fun f : bytes * list bytes * ty => sem g (snd f)) fs.

Lemma ss_appends : Forall appends ss.
Proof. apply Forall_map, Forall_forall. intros f _. apply sem_appends. Qed.

Lemma den_denoted ms : den order names ms = denoted b fs ms.
Proof. reflexivity. Qed.
Lemma unk_unknown ms : unk order names ms = unknown b fs ms.
Proof. reflexivity. Qed.

Lemma unassigned_absent ms vs x d : good g order names ss ms vs (repeat false (length fs)) x d -> 
  unassigned_of order (map field_info fs) (snd x) = absent_required b fs ms.
Proof.
  intros H. unfold unassigned_of, absent_required. fold order. apply flat_map_ext. intros i.
  rewrite nth_error_map. destruct (nth_error fs i) as [f|] eqn:Ef; [|reflexivity]. cbn [option_map field_info].
  assert (Hi : i < length fs) by (apply nth_error_Some; congruence).
  rewrite (good_assigned g order names ss ss_appends _ _ _ _ _ H i) by (rewrite repeat_length; exact Hi).
  rewrite nth_repeat. cbn [orb]. rewrite den_denoted. rewrite orb_comm.
  destruct (is_optional (snd f) || existsb (Nat.eqb i) (denoted b fs ms)); [reflexivity|].
  unfold display_name. destruct (fst (fst f)); reflexivity.
Qed.

(** Success of the whole struct. *)
Lemma struct_good vs ms e v' r : sem g (YStruct b fs) (VList vs) (Some (JObj ms)) r0 = Ok (e, v', r) -> e = NoError ->
  exists x d, good g order names ss ms vs (repeat false (length fs)) x d /\ v' = VList (fst x) /\
    r = (fst d, snd d ++ if pc_track g then absent_required b fs ms else []) /\ (absent_required b fs ms = [] \/ pc_allow_unassigned g = true).
Proof.
  intros H ->. cbn [sem s_object] in H. fold order names ss in H.
  destruct (s_members g order names ss ms vs (repeat false (length fs)) r0) as [[[e0 x] d]| |] eqn:E; cbn [obind] in H; try discriminate H.
  destruct (is_ok e0) eqn:Eo; [apply is_ok_NoError in Eo; subst e0|injection H as -> _ _; discriminate Eo].
  exists x, d. split; [exact E|]. rewrite (unassigned_absent _ _ _ _ E) in H.
  destruct (absent_required b fs ms) as [|u l].
  - injection H as <- <-. split; [reflexivity|]. split; [|auto]. destruct d, (pc_track g); cbn; rewrite app_nil_r; reflexivity.
  - destruct (pc_allow_unassigned g); [|discriminate H]. injection H as <- <-. split; [reflexivity|]. split; [|auto].
    unfold note_unassigned. destruct d, (pc_track g); cbn; rewrite ?app_nil_r; reflexivity.
Qed.
Lemma good_struct vs ms x d : good g order names ss ms vs (repeat false (length fs)) x d ->
  sem g (YStruct b fs) (VList vs) (Some (JObj ms)) r0 =
    Ok (match absent_required b fs ms with [] => NoError | _ => if pc_allow_unassigned g then NoError else UnassignedRequiredMember end,
        VList (fst x), (fst d, snd d ++ if pc_track g then absent_required b fs ms else [])).
Proof.
  intros H. cbn [sem s_object]. fold order names ss. assert (E := unassigned_absent _ _ _ _ H). unfold good in H. rewrite H. cbn [obind is_ok].
  rewrite E. destruct (absent_required b fs ms) as [|u l].
  - destruct d, (pc_track g); cbn; rewrite app_nil_r; reflexivity.
  - unfold note_unassigned. destruct d, (pc_track g); cbn; rewrite ?app_nil_r; reflexivity.
Qed.

Lemma existsb_perm {A} (f : A -> bool) l l' : Permutation l l' -> existsb f l = existsb f l'.
Proof.
  intros P. destruct (existsb f l) eqn:E, (existsb f l') eqn:E'; auto.
  - apply existsb_exists in E. destruct E as (x & Hx & Hf). assert (existsb f l' = true); [|congruence].
    apply existsb_exists. exists x. split; [exact (Permutation_in _ P Hx)|exact Hf].
  - apply existsb_exists in E'. destruct E' as (x & Hx & Hf). assert (existsb f l = true); [|congruence].
    apply existsb_exists. exists x. split; [exact (Permutation_in _ (Permutation_sym P) Hx)|exact Hf].
Qed.
Lemma absent_perm ms ms' : Permutation ms ms' -> absent_required b fs ms = absent_required b fs ms'.
Proof.
  intros P. unfold absent_required. apply flat_map_ext. intros i. destruct (nth_error fs i); [|reflexivity].
  rewrite (existsb_perm _ (denoted b fs ms) (denoted b fs ms')); [reflexivity|]. apply Permutation_flat_map. exact P.
Qed.
Lemma absent_unknown k j ms1 ms2 : member_named b fs k = None -> absent_required b fs (ms1 ++ (k, j) :: ms2) = absent_required b fs (ms1 ++ ms2).
Proof.
  intros H. unfold absent_required. apply flat_map_ext. intros i. destruct (nth_error fs i); [|reflexivity].
  unfold denoted. rewrite !flat_map_app. cbn [flat_map fst]. rewrite H. reflexivity.
Qed.

Lemma struct_perm ms ms' vs v' r : Permutation ms ms' -> NoDup (denoted b fs ms) ->
  sem g (YStruct b fs) (VList vs) (Some (JObj ms)) r0 = Ok (NoError, v', r) ->
  exists r', sem g (YStruct b fs) (VList vs) (Some (JObj ms')) r0 = Ok (NoError, v', r') /\ Permutation (fst r) (fst r') /\ Permutation (snd r) (snd r').
Proof.
  intros P N H. destruct (struct_good _ _ _ _ _ H eq_refl) as (x & d & G & -> & -> & Ha).
  destruct (s_members_perm g order names ss ss_appends _ _ P _ _ _ _ N G) as (d' & G' & P1 & P2).
  exists (fst d', snd d' ++ if pc_track g then absent_required b fs ms' else []).
  rewrite (good_struct _ _ _ _ G'). rewrite (absent_perm _ _ P) in *. split; [|cbn [fst snd]].
  - destruct (absent_required b fs ms'); [reflexivity|]. destruct Ha as [Ha|Ha]; [discriminate Ha|]. rewrite Ha. reflexivity.
  - split; [exact P1|]. apply Permutation_app_tail. exact P2.
Qed.

Lemma struct_unknown k j ms1 ms2 vs e v' r : pc_allow_missing g = true -> member_named b fs k = None ->
  sem g (YStruct b fs) (VList vs) (Some (JObj (ms1 ++ ms2))) r0 = Ok (e, v', r) ->
  exists m1 m2 n, fst r = m1 ++ m2 /\
    sem g (YStruct b fs) (VList vs) (Some (JObj (ms1 ++ (k, j) :: ms2))) r0 = Ok (e, v', (m1 ++ n ++ m2, snd r)) /\
    (n = [k] \/ n = []) /\ (e = NoError -> n = if pc_track g then [k] else []).
Proof.
  intros Ha Hk H. cbn [sem s_object] in H |- *. fold order names ss in H |- *.
  destruct (s_members g order names ss (ms1 ++ ms2) vs (repeat false (length fs)) r0) as [[[e0 x] d]| |] eqn:E; cbn [obind] in H; try discriminate H.
  destruct (s_members_unknown g order names ss ss_appends k j _ _ _ _ _ _ _ Ha Hk E) as (d1 & d2 & n & -> & E' & Hn & Hne).
  rewrite E'. cbn [obind].
  assert (K : (fst n = [k] \/ fst n = []) /\ snd n = [] /\ (e0 = NoError -> fst n = if pc_track g then [k] else [])).
  { assert (A : forall y, y = note_missing g k r0 -> (fst y = [k] \/ fst y = []) /\ snd y = [] /\ fst y = if pc_track g then [k] else []).
    { intros y ->. unfold note_missing. destruct (pc_track g); cbn; auto. }
    destruct Hn as [Hn| ->]; [destruct (A n Hn) as (A1 & A2 & A3); auto|].
    split; [right; reflexivity|]. split; [reflexivity|]. intros He. destruct (A r0 (Hne He)) as (_ & _ & A3). exact A3. }
  destruct K as (K1 & K2 & K3).
  destruct (is_ok e0) eqn:Eo.
  - apply is_ok_NoError in Eo. subst e0. specialize (K3 eq_refl). cbn beta.
    destruct (unassigned_of order (map field_info fs) (snd x)) as [|u l].
    + injection H as <- <- <-. exists (fst d1), (fst d2), (fst n). split; [reflexivity|]. split; [|auto].
      unfold rapp. cbn [fst snd]. rewrite K2. reflexivity.
    + injection H as <- <- <-. exists (fst d1), (fst d2), (fst n). split; [unfold note_unassigned; destruct (pc_track g); reflexivity|]. split; [|auto].
      unfold note_unassigned, rapp. destruct (pc_track g); cbn [fst snd]; rewrite K2; reflexivity.
  - injection H as <- <- <-. exists (fst d1), (fst d2), (fst n). split; [reflexivity|]. split; [|auto].
    unfold rapp. cbn [fst snd]. rewrite K2. reflexivity.
Qed.

Lemma struct_flat_reports vs ms v' r : forallb (fun f => struct_free (snd f)) fs = true ->
  sem g (YStruct b fs) (VList vs) (Some (JObj ms)) r0 = Ok (NoError, v', r) ->
  r = (if pc_track g then unknown b fs ms else [], if pc_track g then absent_required b fs ms else []).
Proof.
  intros Hf H. destruct (struct_good _ _ _ _ _ H eq_refl) as (x & d & G & -> & -> & Ha).
  destruct (good_reports g order names ss ss_appends ms) with (vs := vs) (a := repeat false (length fs)) (x := x) (d := d) as [A B]; [|exact G|].
  - intros s Hs. apply in_map_iff in Hs. destruct Hs as (f & <- & Hin). rewrite forallb_forall in Hf. exact (sem_struct_free g _ (Hf f Hin)).
  - rewrite A, B. reflexivity.
Qed.

Lemma struct_untouched vs ms e v' r : sem g (YStruct b fs) (VList vs) (Some (JObj ms)) r0 = Ok (e, v', r) ->
  exists vs', v' = VList vs' /\ forall i, ~ In i (denoted b fs ms) -> nth_error vs' i = nth_error vs i.
Proof.
  intros H. cbn [sem s_object] in H. fold order names ss in H.
  destruct (s_members g order names ss ms vs (repeat false (length fs)) r0) as [[[e0 x] d]| |] eqn:E; cbn [obind] in H; try discriminate H.
  exists (fst x). split; [|exact (s_members_untouched g order names ss ms _ _ _ _ _ _ E)].
  destruct (is_ok e0); [|injection H as _ <- _; reflexivity]. destruct (unassigned_of _ _ _); injection H as _ <- _; reflexivity.
Qed.
End Struct.

(** With distinct names, a member is denoted by exactly its names. *)
Lemma NoDup_flat_map_nth {A B} (f : A -> list B) l i k a c x : NoDup (flat_map f l) -> nth_error l i = Some a -> nth_error l k = Some c ->
  In x (f a) -> In x (f c) -> i = k.
Proof.
  revert i k. induction l as [|y l IH]; intros [|i] [|k] N Hi Hk Ha Hc; try discriminate; auto; cbn in Hi, Hk, N.
  - injection Hi as ->. exfalso. assert (Hin : In x (flat_map f l)) by (apply in_flat_map; exists c; split; [exact (nth_error_In _ _ Hk)|exact Hc]).
    revert Ha. apply in_split in Hin. destruct Hin as (l1 & l2 & E). rewrite E, app_assoc in N. apply NoDup_remove_2 in N.
    intros Ha. apply N. apply in_or_app. left. apply in_or_app. left. exact Ha.
  - injection Hk as ->. exfalso. assert (Hin : In x (flat_map f l)) by (apply in_flat_map; exists a; split; [exact (nth_error_In _ _ Hi)|exact Ha]).
    apply in_split in Hin. destruct Hin as (l1 & l2 & E). rewrite E, app_assoc in N. apply NoDup_remove_2 in N.
    apply N. apply in_or_app. left. apply in_or_app. left. exact Hc.
  - f_equal. apply (IH i k); try assumption. apply NoDup_remove_l in N || idtac.
    clear -N. induction (f y) as [|z m IHm]; [exact N|]. cbn in N. inversion N; subst. auto.
Qed.

Lemma member_named_spec b fs k i f : list_sum b = length fs -> names_distinct fs -> nth_error fs i = Some f ->
  (member_named b fs k = Some i <-> In k (snd (fst f))).
Proof.
  intros Hb Hd Hf. unfold member_named.
  assert (N : nth i (map (fun f : bytes * list bytes * ty => snd (fst f)) fs) [] = snd (fst f)).
  { erewrite nth_error_nth; [reflexivity|]. rewrite nth_error_map, Hf. reflexivity. }
  assert (Hi : i < length fs) by (apply nth_error_Some; congruence). split.
  - intros H. apply search_has in H. rewrite N in H. exact H.
  - intros H. destruct (search_both k (map (fun f : bytes * list bytes * ty => snd (fst f)) fs) (search_order 0 b)) as [i'|] eqn:E.
    + f_equal. assert (H' := search_has _ _ _ _ E). assert (Hin := search_both_in _ _ _ _ E). apply search_order_lt in Hin.
      destruct (nth_error fs i') as [f'|] eqn:Ef'; [|apply nth_error_None in Ef'; lia].
      erewrite nth_error_nth in H' by (rewrite nth_error_map, Ef'; reflexivity).
      exact (NoDup_flat_map_nth _ _ _ _ _ _ _ Hd Ef' Hf H' H).
    + exfalso. apply (search_both_none _ _ _ E i); [apply search_order_lt; lia|]. rewrite N. exact H.
Qed.
