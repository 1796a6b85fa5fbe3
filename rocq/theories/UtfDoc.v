(** Proofs for C71: documents and values. *)
From Verif Require Import Tactics Base ScanModel TokModel TokSpec JsonSpec StrSpec EscapeModel EscapeProofs IntModel TokJsonDoc SerModel SerSpec SerProofs SerDoc MapSpec HandlerModel HandlerSpec HandlerTree HandlerText WriteModel RoundSpec RoundProofs UtfSpec UtfProofs.
From Coq Require Import Lia.

Definition asc (w : bytes) : Prop := Forall (fun c => (byte_val c < 0x80)%N) w.
Lemma asc_text w : asc w -> utf8_text w.
Proof. intros H. rewrite <- (app_nil_r w). apply text_asciis; [exact H|apply text_nil]. Qed.
Lemma ws_asc w : ws w -> asc w.
Proof. intros H. eapply Forall_impl; [|exact H]. intros c [->|[->|[->| ->]]]; reflexivity. Qed.
Lemma text_tail a w : asc w -> (utf8_text (a ++ w) <-> utf8_text a).
Proof.
  intros H. destruct H as [|c w Hc Hw]; [rewrite app_nil_r; reflexivity|]. rewrite text_cut by exact Hc. split; [tauto|].
  intros K. split; [exact K|apply asc_text, Hw].
Qed.
Lemma num_char_asc c : num_char c -> (byte_val c < 0x80)%N.
Proof. intros [H|[->|[->|[->|[->| ->]]]]]; [unfold is_digit in H; lia|reflexivity..]. Qed.
Lemma num_asc raw : num_text raw -> asc raw.
Proof.
  intros (c & tl & -> & Hc & F). constructor.
  - destruct Hc as [H|[->| ->]]; [unfold is_digit in H; lia|reflexivity..].
  - eapply Forall_impl; [|exact F]. exact num_char_asc.
Qed.

Lemma all_str P s : all_strings P (JScalar (SStr s)) <-> P s.
Proof. split; [intros H; inversion H; subst; [assumption|contradiction]|apply As_str]. Qed.
Lemma all_arr P els : all_strings P (JArr els) <-> Forall (all_strings P) els.
Proof. split; [intros H; inversion H; assumption|apply As_arr]. Qed.
Lemma all_obj P ms : all_strings P (JObj ms) <-> Forall (fun kv => P (fst kv) /\ all_strings P (snd kv)) ms.
Proof. split; [intros H; inversion H; assumption|apply As_obj]. Qed.

(** ** Documents *)
Lemma doc_parts :
  (forall j t, value_text plain j t -> (utf8_text t <-> all_strings utf8_text j)) /\
  (forall els t, elems_text plain els t -> (utf8_text t <-> Forall (all_strings utf8_text) els)) /\
  (forall ms t, members_text plain ms t -> (utf8_text t <-> Forall (fun kv => utf8_text (fst kv) /\ all_strings utf8_text (snd kv)) ms)).
Proof.
  apply (text_mutind plain); cbn [plain gap gap_after].
  - intros s Hs. destruct s as [raw|raw| | |]; cbn [scalar_text scalar_ok] in *;
      try (split; [intros _; apply As_other; exact I|intros _; apply asc_text; repeat constructor]; fail).
    + rewrite all_str, text_ascii by reflexivity. apply text_tail. repeat constructor.
    + split; [intros _; apply As_other; exact I|intros _; apply asc_text, num_asc, Hs].
  - intros w Hw. rewrite all_arr, text_ascii by reflexivity. rewrite text_asciis by (apply ws_asc, Hw).
    split; [constructor|intros _; apply asc_text; repeat constructor].
  - intros els body _ IH. rewrite all_arr, text_ascii by reflexivity. rewrite text_tail by repeat constructor. exact IH.
  - intros w Hw. rewrite all_obj, text_ascii by reflexivity. rewrite text_asciis by (apply ws_asc, Hw).
    split; [constructor|intros _; apply asc_text; repeat constructor].
  - intros ms body _ IH. rewrite all_obj, text_ascii by reflexivity. rewrite text_tail by repeat constructor. exact IH.
  - intros v t w1 w2 H1 H2 _ IH. rewrite text_asciis by (apply ws_asc, H1). rewrite text_tail by (apply ws_asc, H2). rewrite IH.
    split; [intros H; constructor; [exact H|constructor]|intros H; inversion H; assumption].
  - intros v t w1 w2 vs body H1 H2 _ IH _ IHs. rewrite text_asciis by (apply ws_asc, H1).
    rewrite app_assoc, text_cut by reflexivity. rewrite text_tail by (apply ws_asc, H2). rewrite IH, IHs.
    split; [intros [A B]; constructor; assumption|intros H; inversion H; auto].
  - intros k v t w1 w2 w3 w4 H1 H2 H3 H4 _ _ IH. rewrite text_asciis by (apply ws_asc, H1). rewrite text_ascii by reflexivity.
    rewrite text_cut by reflexivity. rewrite text_asciis by (apply ws_asc, H2). rewrite text_ascii by reflexivity.
    rewrite text_asciis by (apply ws_asc, H3). rewrite text_tail by (apply ws_asc, H4). rewrite IH.
    split; [intros H; constructor; [exact H|constructor]|intros H; inversion H; assumption].
  - intros k v t w1 w2 w3 w4 ms body H1 H2 H3 H4 _ _ IH _ IHs. rewrite text_asciis by (apply ws_asc, H1). rewrite text_ascii by reflexivity.
    rewrite text_cut by reflexivity. rewrite text_asciis by (apply ws_asc, H2). rewrite text_ascii by reflexivity.
    rewrite text_asciis by (apply ws_asc, H3). rewrite app_assoc, text_cut by reflexivity. rewrite text_tail by (apply ws_asc, H4). rewrite IH, IHs.
    split; [intros (A & B & C); constructor; [split; assumption|assumption]|intros H; inversion H as [|? ? [A B] C]; auto].
Qed.
Lemma doc_utf8 j text : doc_text plain j text -> (utf8_text text <-> all_strings utf8_text j).
Proof.
  intros (_ & w1 & t & w2 & H1 & H2 & Hv & ->). rewrite text_asciis by (apply ws_asc, H1). rewrite text_tail by (apply ws_asc, H2).
  apply doc_parts, Hv.
Qed.

(** ** What is read *)

(** The texts of all scalars, and the names, decode to UTF-8. *)
Inductive clean : json -> Prop :=
| Cl_scalar s : utf8_text (escapes_in (JsonSpec.scalar_value s)) -> clean (JScalar s)
| Cl_arr els : Forall clean els -> clean (JArr els)
| Cl_obj ms : Forall (fun kv => utf8_text (escapes_in (fst kv)) /\ clean (snd kv)) ms -> clean (JObj ms).

Lemma asc_read w : asc w -> Forall (fun c => c <> backslash) w -> utf8_text (escapes_in w).
Proof.
  intros H K. assert (E : escapes_in w = w); [|rewrite E; apply asc_text, H]. clear H. induction K as [|c w Hc _ IH]; [reflexivity|].
  rewrite in_raw by exact Hc. rewrite IH. reflexivity.
Qed.
Lemma num_read raw : num_text raw -> utf8_text (escapes_in raw).
Proof.
  intros H. apply asc_read; [apply num_asc, H|]. destruct H as (c & tl & -> & Hc & F). constructor.
  - intros ->. destruct Hc as [H|[H|H]]; [cbv in H; destruct H as [_ H]; apply H; reflexivity|discriminate H..].
  - eapply Forall_impl; [|exact F]. intros d Hd ->. destruct Hd as [H|H]; [cbv in H; destruct H as [_ H]; apply H; reflexivity|intuition discriminate].
Qed.
Lemma str_clean s : utf8_text s -> no_lone s -> utf8_text (escapes_in s).
Proof. intros H (ps & Hp & N). apply (reads_utf8 _ _ _ (Nat.lt_succ_diag_r _) Hp). auto. Qed.

Lemma doc_clean :
  (forall j t, value_text plain j t -> all_strings utf8_text j -> all_strings no_lone j -> clean j) /\
  (forall els t, elems_text plain els t -> Forall (all_strings utf8_text) els -> Forall (all_strings no_lone) els -> Forall clean els) /\
  (forall ms t, members_text plain ms t -> Forall (fun kv => utf8_text (fst kv) /\ all_strings utf8_text (snd kv)) ms ->
     Forall (fun kv => no_lone (fst kv) /\ all_strings no_lone (snd kv)) ms -> Forall (fun kv => utf8_text (escapes_in (fst kv)) /\ clean (snd kv)) ms).
Proof.
  apply (text_mutind plain).
  - intros s Hs A B. apply Cl_scalar. destruct s as [raw|raw| | |]; cbn [JsonSpec.scalar_value scalar_ok] in *;
      try (apply asc_read; repeat constructor; discriminate).
    + apply all_str in A, B. apply str_clean; assumption.
    + apply num_read, Hs.
  - intros. apply Cl_arr. constructor.
  - intros els body _ IH A B. rewrite all_arr in A, B. apply Cl_arr. auto.
  - intros. apply Cl_obj. constructor.
  - intros els body _ IH A B. rewrite all_obj in A, B. apply Cl_obj. auto.
  - intros v t w1 w2 _ _ _ IH A B. inversion A; inversion B; subst. constructor; [auto|constructor].
  - intros v t w1 w2 vs body _ _ _ IH _ IHs A B. inversion A; inversion B; subst. constructor; auto.
  - intros k v t w1 w2 w3 w4 _ _ _ _ _ _ IH A B. inversion A as [|? ? [A1 A2] A3]; inversion B as [|? ? [B1 B2] B3]; subst.
    constructor; [|constructor]. split; [apply str_clean; assumption|apply IH; assumption].
  - intros k v t w1 w2 w3 w4 ms body _ _ _ _ _ _ IH _ IHs A B. inversion A as [|? ? [A1 A2] A3]; inversion B as [|? ? [B1 B2] B3]; subst.
    constructor; [|auto]. split; [apply str_clean; assumption|apply IH; assumption].
Qed.

Lemma init_utf8 t : val_utf8 (init t).
Proof.
  induction t as [|i|sg|hr tp| |ns u|t IH|t IH|t IH|t IH|t IH|u t IH|t IH|t IH|t IH|n t IH|n t IH|t IH|ts IH|t IH|b fs IH] using ty_rect_nested;
    cbn [init]; try (constructor; assumption || constructor; fail); auto.
  - constructor. exact text_nil.
  - constructor. apply Forall_forall. intros x Hx. apply repeat_spec in Hx. subst x. exact IH.
  - constructor. apply Forall_forall. intros x Hx. apply repeat_spec in Hx. subst x. exact IH.
  - constructor. induction IH; constructor; assumption.
  - constructor. induction IH; constructor; assumption.
Qed.

Definition oclean (oj : option json) : Prop := match oj with Some j => clean j | None => True end.
Lemma first_clean oj : oclean oj -> utf8_text (escapes_in (first_value oj)).
Proof.
  destruct oj as [[s|els|ms]|]; cbn [first_value oclean]; intros H; [inversion H; assumption|..]; apply asc_text; repeat constructor.
Qed.
Definition cleans (s : shandler) : Prop := forall v oj r e v' r', val_utf8 v -> oclean oj -> s v oj r = Ok (e, v', r') -> val_utf8 v'.
Lemma hd_clean els : Forall clean els -> oclean (hd_error els) /\ Forall clean (tl els).
Proof. intros H. destruct H; cbn; auto. Qed.
Lemma snoc (l : list val) v : Forall val_utf8 l -> val_utf8 v -> Forall val_utf8 (l ++ [v]).
Proof. intros H K. apply Forall_app. auto. Qed.

Lemma s_vec_clean d s : val_utf8 d -> cleans s -> forall els acc r e l r', Forall clean els -> Forall val_utf8 acc -> s_vec d s els acc r = Ok (e, l, r') -> Forall val_utf8 l.
Proof.
  intros Hd Hs. induction els as [|j els IH]; intros acc r e l r' Hc Ha H; cbn [s_vec] in H; [injection H as <- <- <-; exact Ha|].
  inversion Hc as [|? ? Hj Hr]; subst. destruct (s d (Some j) r) as [[[e0 v] r0]| |] eqn:E; cbn [obind] in H; try discriminate H.
  assert (Pv : val_utf8 v) by exact (Hs d (Some j) _ _ _ _ Hd Hj E).
  destruct (is_ok e0); [exact (IH _ _ _ _ _ Hr (snoc _ _ Ha Pv) H)|]. injection H as <- <- <-. apply snoc; assumption.
Qed.
Lemma s_set_clean d s : val_utf8 d -> cleans s -> forall els acc r e l r', Forall clean els -> Forall val_utf8 acc -> s_set d s els acc r = Ok (e, l, r') -> Forall val_utf8 l.
Proof.
  intros Hd Hs. induction els as [|j els IH]; intros acc r e l r' Hc Ha H; cbn [s_set] in H; [injection H as <- <- <-; exact Ha|].
  inversion Hc as [|? ? Hj Hr]; subst. destruct (s d (Some j) r) as [[[e0 v] r0]| |] eqn:E; cbn [obind] in H; try discriminate H.
  assert (Pv : val_utf8 v) by exact (Hs d (Some j) _ _ _ _ Hd Hj E).
  destruct (is_ok e0); [|injection H as <- <- <-; exact Ha].
  destruct (existsb (val_eqb v) acc); [injection H as <- <- <-; exact Ha|exact (IH _ _ _ _ _ Hr (snoc _ _ Ha Pv) H)].
Qed.
Lemma s_fixed_clean s : cleans s -> forall slots els acc r e l r', Forall clean els -> Forall val_utf8 acc -> Forall val_utf8 slots ->
  s_fixed s els acc slots r = Ok (e, l, r') -> Forall val_utf8 l.
Proof.
  intros Hs. induction slots as [|v slots IH]; intros els acc r e l r' Hc Ha Hsl H; cbn [s_fixed] in H; [injection H as <- <- <-; exact Ha|].
  inversion Hsl as [|? ? Pv Psl]; subst. destruct (hd_clean _ Hc) as [Hj Hr].
  destruct (s v (hd_error els) r) as [[[e0 v0] r0]| |] eqn:E; cbn [obind] in H; try discriminate H.
  assert (Pv0 := Hs _ _ _ _ _ _ Pv Hj E).
  destruct (is_ok e0); [exact (IH _ _ _ _ _ _ Hr (snoc _ _ Ha Pv0) Psl H)|]. injection H as <- <- <-. apply Forall_app; auto.
Qed.
Lemma s_var_clean s size : cleans s -> forall slots els acc r e l r', Forall clean els -> Forall val_utf8 acc -> Forall val_utf8 slots ->
  s_var s els size acc slots r = Ok (e, l, r') -> Forall val_utf8 (snd l).
Proof.
  intros Hs. induction slots as [|v slots IH]; intros els acc r e l r' Hc Ha Hsl H; cbn [s_var] in H; [injection H as <- <- <-; exact Ha|].
  inversion Hsl as [|? ? Pv Psl]; subst. destruct els as [|j els]; [injection H as <- <- <-; cbn [snd]; apply Forall_app; auto|].
  inversion Hc as [|? ? Hj Hr]; subst. destruct (s v (Some j) r) as [[[e0 v0] r0]| |] eqn:E; cbn [obind] in H; try discriminate H.
  assert (Pv0 : val_utf8 v0) by exact (Hs v (Some j) _ _ _ _ Pv Hj E).
  destruct (is_ok e0); [exact (IH _ _ _ _ _ _ Hr (snoc _ _ Ha Pv0) Psl H)|]. injection H as <- <- <-. cbn [snd]. apply Forall_app; auto.
Qed.
Lemma s_tuple_clean : forall ss vs els acc r e l r', Forall cleans ss -> Forall clean els -> Forall val_utf8 acc -> Forall val_utf8 vs ->
  s_tuple ss els acc vs r = Ok (e, l, r') -> Forall val_utf8 l.
Proof.
  induction ss as [|s ss IH]; intros vs els acc r e l r' Hk Hc Ha Hv H; destruct vs as [|v vs]; cbn [s_tuple] in H; try discriminate H; [injection H as <- <- <-; exact Ha|].
  inversion Hk as [|? ? Hs Hss]; inversion Hv as [|? ? Pv Psl]; subst. destruct (hd_clean _ Hc) as [Hj Hr].
  destruct (s v (hd_error els) r) as [[[e0 v0] r0]| |] eqn:E; cbn [obind] in H; try discriminate H.
  assert (Pv0 := Hs _ _ _ _ _ _ Pv Hj E).
  destruct (is_ok e0); [exact (IH _ _ _ _ _ _ _ Hss Hr (snoc _ _ Ha Pv0) Psl H)|]. injection H as <- <- <-. apply Forall_app; auto.
Qed.
Notation kv_utf8 := (fun kv : bytes * val => utf8_text (fst kv) /\ val_utf8 (snd kv)).
Lemma map_put_clean k v m : utf8_text k -> val_utf8 v -> Forall kv_utf8 m -> Forall kv_utf8 (map_put k v m).
Proof.
  intros Hk Hv H. induction H as [|[k' v'] m [H1 H2] Hm IH]; cbn [map_put]; [constructor; [split|constructor]; assumption|].
  destruct (bytes_eqb k k'); constructor; auto; split; assumption.
Qed.
Lemma s_map_clean d s : val_utf8 d -> cleans s -> forall ms m r e l r', Forall (fun kv => utf8_text (escapes_in (fst kv)) /\ clean (snd kv)) ms -> Forall kv_utf8 m ->
  s_map d s ms m r = Ok (e, l, r') -> Forall kv_utf8 l.
Proof.
  intros Hd Hs. induction ms as [|[k j] ms IH]; intros m r e l r' Hc Ha H; cbn [s_map] in H; [injection H as <- <- <-; exact Ha|].
  inversion Hc as [|? ? [Hk Hj] Hr]; subst. cbn [fst snd] in Hk, Hj. destruct (s d (Some j) r) as [[[e0 v] r0]| |] eqn:E; cbn [obind] in H; try discriminate H.
  assert (Pv : val_utf8 v) by exact (Hs d (Some j) _ _ _ _ Hd Hj E). assert (Pm := map_put_clean _ _ _ Hk Pv Ha).
  destruct (is_ok e0); [exact (IH _ _ _ _ _ Hr Pm H)|]. injection H as <- <- <-. exact Pm.
Qed.
Lemma put_clean v : val_utf8 v -> forall l i, Forall val_utf8 l -> Forall val_utf8 (put i v l).
Proof. intros Hv. induction l as [|x l IH]; intros [|i] H; cbn; auto; inversion H; subst; constructor; auto. Qed.
Lemma s_members_clean g order names ss : Forall cleans ss -> forall ms vs a r e x r', Forall (fun kv => utf8_text (escapes_in (fst kv)) /\ clean (snd kv)) ms ->
  Forall val_utf8 vs -> s_members g order names ss ms vs a r = Ok (e, x, r') -> Forall val_utf8 (fst x).
Proof.
  intros Hs. induction ms as [|[k j] ms IH]; intros vs a r e x r' Hc Hv H; cbn [s_members] in H; [injection H as <- <- <-; exact Hv|].
  inversion Hc as [|? ? [_ Hj] Hr]; subst. cbn [snd] in Hj. destruct (search_both k names order) as [i|].
  - destruct (nth_error ss i) as [s|] eqn:Es; [|discriminate H]. destruct (nth_error vs i) as [v|] eqn:Ev; [|discriminate H].
    destruct (s v (Some j) r) as [[[e0 v0] r0]| |] eqn:E; cbn [obind] in H; try discriminate H.
    rewrite Forall_forall in Hs. assert (Pv : val_utf8 v) by (rewrite Forall_forall in Hv; apply Hv; exact (nth_error_In _ _ Ev)).
    assert (Pv0 : val_utf8 v0) by exact (Hs s (nth_error_In _ _ Es) v (Some j) _ _ _ _ Pv Hj E).
    assert (Pp := put_clean _ Pv0 vs i Hv).
    destruct (is_ok (matchedMemberResult e0)); [exact (IH _ _ _ _ _ _ Hr Pp H)|]. injection H as <- <- <-. exact Pp.
  - destruct (pc_allow_missing g); [exact (IH _ _ _ _ _ _ Hr Hv H)|]. injection H as <- <- <-. exact Hv.
Qed.

Lemma list_inv l : val_utf8 (VList l) -> Forall val_utf8 l.
Proof. intros H. inversion H. assumption. Qed.
Lemma arr_inv els : oclean (Some (JArr els)) -> Forall clean els.
Proof. intros H. inversion H. assumption. Qed.
Lemma obj_inv ms : oclean (Some (JObj ms)) -> Forall (fun kv => utf8_text (escapes_in (fst kv)) /\ clean (snd kv)) ms.
Proof. intros H. inversion H. assumption. Qed.

Ltac outs H := injection H as <- <- <-.
Lemma sem_clean g t : cleans (sem g t).
Proof.
  induction t as [|i|sg|hr tp| |ns u|t IH|t IH|t IH|t IH|t IH|u t IH|t IH|t IH|t IH|n t IH|n t IH|t IH|ts IH|t IH|b fs IH] using ty_rect_nested;
    intros v oj r e v' r' Hv Hc H; cbn [sem] in H.
  - destruct (bytes_eqb _ _); [outs H; constructor|]. destruct (bytes_eqb _ _); outs H; [constructor|exact Hv].
  - destruct (int_to _ _) as [[e0 z]| |]; cbn [obind] in H; try discriminate H. outs H. constructor.
  - destruct (fp_read _ _) as [[e0 z]| |]; cbn [obind] in H; try discriminate H. outs H. constructor.
  - destruct v; try discriminate H. destruct (TimeModel.time_to _ _ _ _) as [[e0 z0]| |]; cbn [obind] in H; try discriminate H. outs H. constructor.
  - outs H. constructor. apply first_clean, Hc.
  - destruct (first_type oj); try (outs H; exact Hv).
    + destruct (index_of _ _); outs H; [constructor|exact Hv].
    + destruct (int_to _ _) as [[e0 z]| |]; cbn [obind] in H; try discriminate H. outs H. destruct (is_ok e0); [constructor|exact Hv].
  - destruct (type_eqb _ _); [outs H; exact Hv|]. exact (IH _ _ _ _ _ _ Hv Hc H).
  - destruct v as [| | | |f d| | | |]; try discriminate H. inversion Hv; subst. destruct (type_eqb _ _); [outs H; constructor; assumption|].
    apply HandlerTree.lift_ok in H. destruct H as (a & E & ->). constructor. eapply IH; eassumption.
  - exact (IH _ _ _ _ _ _ Hv Hc H).
  - destruct v as [| | | |f d| | | |]; try discriminate H. inversion Hv; subst. apply HandlerTree.lift_ok in H. destruct H as (a & E & ->). constructor. eapply IH; eassumption.
  - apply HandlerTree.lift_ok in H. destruct H as (a & E & ->). constructor. exact (IH _ _ _ _ _ _ (init_utf8 t) Hc E).
  - destruct v as [| | | | |o| | |]; try discriminate H. destruct (type_eqb _ _); [outs H; constructor|].
    apply HandlerTree.lift_ok in H. destruct H as (a & E & ->). constructor. refine (IH _ _ _ _ _ _ _ Hc E). inversion Hv; subst; [apply init_utf8|assumption].
  - exact (IH _ _ _ _ _ _ Hv Hc H).
  - unfold s_array in H. destruct oj as [[s|els|ms]|]; try (outs H; exact Hv). apply HandlerTree.lift_ok in H. destruct H as (a & E & ->). constructor.
    exact (s_vec_clean _ _ (init_utf8 t) IH _ _ _ _ _ _ (arr_inv _ Hc) (Forall_nil _) E).
  - assert (K : match v with VList l => lift (fun x => VList (l ++ [x])) (sem g t (init t) oj r) | _ => UB end = Ok (e, v', r') -> val_utf8 v').
    { intros K. destruct v as [| | | | | |l| |]; try discriminate K. apply HandlerTree.lift_ok in K. destruct K as (a & E & ->). constructor.
      apply snoc; [apply list_inv, Hv|]. exact (IH _ _ _ _ _ _ (init_utf8 t) Hc E). }
    destruct oj as [[s|els|ms]|]; try exact (K H). apply HandlerTree.lift_ok in H. destruct H as (a & E & ->). constructor.
    exact (s_vec_clean _ _ (init_utf8 t) IH _ _ _ _ _ _ (arr_inv _ Hc) (Forall_nil _) E).
  - destruct v as [| | | | | |l| |]; try discriminate H. unfold s_array in H. destruct oj as [[s|els|ms]|]; try (outs H; exact Hv).
    apply HandlerTree.lift_ok in H. destruct H as (a & E & ->). constructor.
    exact (s_fixed_clean _ IH _ _ _ _ _ _ _ (arr_inv _ Hc) (Forall_nil _) (list_inv _ Hv) E).
  - destruct v as [| | | | | | |n0 l|]; try discriminate H. unfold s_array in H. destruct oj as [[s|els|ms]|]; try (outs H; exact Hv).
    apply HandlerTree.lift_ok in H. destruct H as (a & E & ->). constructor. inversion Hv; subst.
    refine (s_var_clean _ _ IH _ _ _ _ _ _ _ (arr_inv _ Hc) (Forall_nil _) _ E). assumption.
  - unfold s_array in H. destruct oj as [[s|els|ms]|]; try (outs H; exact Hv). apply HandlerTree.lift_ok in H. destruct H as (a & E & ->). constructor.
    exact (s_set_clean _ _ (init_utf8 t) IH _ _ _ _ _ _ (arr_inv _ Hc) (Forall_nil _) E).
  - destruct v as [| | | | | |l| |]; try discriminate H. unfold s_array in H. destruct oj as [[s|els|ms]|]; try (outs H; exact Hv).
    apply HandlerTree.lift_ok in H. destruct H as (a & E & ->). constructor.
    refine (s_tuple_clean _ _ _ _ _ _ _ _ _ (arr_inv _ Hc) (Forall_nil _) (list_inv _ Hv) E).
    apply Forall_forall. intros s Hs. apply in_map_iff in Hs. destruct Hs as (t & <- & Ht). rewrite Forall_forall in IH. exact (IH t Ht).
  - destruct v as [| | | | | | | |m]; try discriminate H. unfold s_object in H. destruct oj as [[s|els|ms]|]; try (outs H; exact Hv).
    apply HandlerTree.lift_ok in H. destruct H as (a & E & ->). constructor. inversion Hv; subst.
    refine (s_map_clean _ _ (init_utf8 t) IH _ _ _ _ _ _ (obj_inv _ Hc) _ E). assumption.
  - destruct v as [| | | | | |l| |]; try discriminate H. unfold s_object in H. destruct oj as [[s|els|ms]|]; try (outs H; exact Hv).
    destruct (s_members _ _ _ _ _ _ _ _) as [[[e0 x] r0]| |] eqn:E; cbn [obind] in H; try discriminate H.
    assert (K : Forall val_utf8 (fst x)).
    { refine (s_members_clean _ _ _ _ _ _ _ _ _ _ _ _ (obj_inv _ Hc) (list_inv _ Hv) E).
      apply Forall_forall. intros s Hs. apply in_map_iff in Hs. destruct Hs as (f & <- & Hf). rewrite Forall_forall in IH. exact (IH f Hf). }
    destruct (is_ok e0); [|outs H; constructor; exact K]. destruct (unassigned_of _ _ _); outs H; constructor; exact K.
Qed.

Lemma read_utf8 o g t v j text e v' r : ty_ok t -> shaped t v -> fits t (Some j) -> o_nl o = false -> doc_text plain j text ->
  utf8_text text -> all_strings no_lone j -> val_utf8 v -> parses o g t v text e v' r -> val_utf8 v'.
Proof.
  intros Ht Hs Hf Ho Hd Hu Hn Hv Hp. apply (parses_sem o g t v j text e v' r Ht Hs Hf Ho Hd) in Hp.
  refine (sem_clean g t v (Some j) _ _ _ _ Hv _ Hp). cbn [oclean]. assert (A := proj1 (doc_utf8 _ _ Hd) Hu).
  destruct Hd as (_ & w1 & tx & w2 & _ & _ & Hx & _). exact (proj1 doc_clean _ _ Hx A Hn).
Qed.

(** ** What is written *)

Lemma somes_forall {A} (P : A -> Prop) l : (forall x, In (Some x) l -> P x) -> Forall P (somes l).
Proof.
  induction l as [|[x|] l IH]; intros H; cbn; [constructor|constructor; [apply H; left; reflexivity|apply IH; intros y Hy; apply H; right; exact Hy]|].
  apply IH. intros y Hy. apply H. right. exact Hy.
Qed.

Lemma render_utf8 i : forall t v j, names_utf8 t -> val_utf8 v -> storable i t v -> render i t v = Some j -> all_strings utf8_text j.
Proof.
  assert (L : forall t, (forall v j, names_utf8 t -> val_utf8 v -> storable i t v -> render i t v = Some j -> all_strings utf8_text j) -> names_utf8 t -> forall l, Forall val_utf8 l ->
    Forall (fun x => storable i t x /\ render i t x <> None) l -> all_strings utf8_text (JArr (somes (map (render i t) l)))).
  { intros t IH Hn l Hl Hs. apply As_arr, somes_forall. intros x Hx. apply in_map_iff in Hx. destruct Hx as (v & E & Hv).
    rewrite Forall_forall in Hl, Hs. exact (IH v x Hn (Hl _ Hv) (proj1 (Hs _ Hv)) E). }
  intros t. induction t as [|it|sg|hr tp| |ns u|t IH|t IH|t IH|t IH|t IH|u t IH|t IH|t IH|t IH|n t IH|n t IH|t IH|ts IH|t IH|b fs IH] using ty_rect_nested;
    intros v j Hn Hv Hs H; cbn [render storable] in H, Hs.
  - destruct v; try discriminate H. injection H as <-. destruct b; apply As_other; exact I.
  - destruct v; try discriminate H. destruct (int_from it z); try discriminate H. injection H as <-. apply As_other; exact I.
  - destruct v; try discriminate H. destruct (fp_write sg b) as [[[[] s]|]| |]; try discriminate H; injection H as <-; apply As_other; exact I.
  - destruct v; try discriminate H. destruct (TimeModel.time_from hr tp z) as [[s|]| |]; try discriminate H. injection H as <-. apply As_other; exact I.
  - destruct v; try discriminate H. injection H as <-. apply As_str. apply writes_utf8. inversion Hv. assumption.
  - destruct v; try discriminate H. injection H as <-. apply As_str. inversion Hn as [| | | | |? ? F| | | | | | | | | | | | | | |]; subst.
    destruct (nth_in_or_default (Z.to_nat z) ns []) as [K| ->]; [|exact text_nil]. rewrite Forall_forall in F. exact (F _ K).
  - inversion Hn; subst. destruct Hs as [Hs _]. eapply IH; eassumption.
  - inversion Hn; subst. destruct v as [| | | |f d| | | |]; try discriminate H. inversion Hv; subst. destruct f; [injection H as <-; apply As_other; exact I|].
    destruct Hs as [Hs _]. eapply IH; eassumption.
  - inversion Hn; subst. eapply IH; eassumption.
  - inversion Hn; subst. destruct v as [| | | |f d| | | |]; try discriminate H. inversion Hv; subst. destruct f; [|discriminate H]. eapply IH; eassumption.
  - inversion Hn; subst. destruct v as [| | | | |[d|]| | |]; try discriminate H. inversion Hv; subst. eapply IH; eassumption.
  - inversion Hn; subst. destruct v as [| | | | |[d|]| | |]; try discriminate H; [|injection H as <-; apply As_other; exact I]. inversion Hv; subst. destruct Hs as [Hs _]. eapply IH; eassumption.
  - inversion Hn; subst. destruct (is_silent v); [discriminate H|]. eapply IH; eassumption.
  - inversion Hn; subst. destruct v as [| | | | | |l| |]; try discriminate H. injection H as <-. apply (L t IH); [assumption|apply list_inv, Hv|assumption].
  - inversion Hn; subst. destruct v as [| | | | | |l| |]; try discriminate H. destruct Hs as [Hs _]. apply list_inv in Hv. destruct l as [|x [|y l]]; [discriminate H| |injection H as <-; apply (L t IH ltac:(assumption) (x :: y :: l)); assumption].
    inversion Hs as [|? ? [Hx _] _]; inversion Hv; subst. eapply IH; eassumption.
  - inversion Hn; subst. destruct v as [| | | | | |l| |]; try discriminate H. injection H as <-. apply (L t IH); [assumption|apply list_inv, Hv|apply Hs].
  - inversion Hn; subst. destruct v as [| | | | | | |k l|]; try discriminate H. injection H as <-. destruct Hs as (_ & _ & _ & Hs). inversion Hv; subst. apply (L t IH); [assumption| |exact Hs].
    rewrite Forall_forall in *. intros x Hx. match goal with K : forall x, In x l -> _ |- _ => apply K end. rewrite <- (firstn_skipn k l). apply in_or_app. left. exact Hx.
  - inversion Hn; subst. destruct v as [| | | | | |l| |]; try discriminate H. injection H as <-. apply (L t IH); [assumption|apply list_inv, Hv|apply Hs].
  - inversion Hn as [| | | | | | | | | | | | | | | | | |? F| |]; subst. destruct v as [| | | | | |l| |]; try discriminate H. injection H as <-. apply list_inv in Hv. apply As_arr, somes_forall.
    revert l Hv Hs. induction IH as [|t ts Ht _ IHts]; intros l Hv Hs x Hx; [destruct Hx|]. inversion F; subst. destruct l as [|v l]; [destruct Hx|]. inversion Hv; subst.
    destruct Hs as [[Hs _] Hr]. destruct Hx as [Hx|Hx]; [eapply Ht; eassumption|]. eapply IHts; try eassumption. constructor; assumption.
  - inversion Hn; subst. destruct v as [| | | | | | | |m]; try discriminate H. injection H as <-. destruct Hs as [_ Hs]. inversion Hv as [| | | | | | | | |? F]; subst. apply As_obj, somes_forall.
    intros kx Hx. apply in_map_iff in Hx. destruct Hx as ([k d] & E & Hd). cbn [fst snd] in E. destruct (render i t d) as [x|] eqn:Er; [|discriminate E]. injection E as <-.
    rewrite Forall_forall in F, Hs. destruct (F _ Hd) as [F1 F2]. destruct (Hs _ Hd) as (_ & Hs1 & _). cbn [fst snd] in *. split; [exact F1|]. eapply IH; eassumption.
  - inversion Hn as [| | | | | | | | | | | | | | | | | | | |? ? F]; subst. destruct v as [| | | | | |l| |]; try discriminate H. injection H as <-. apply list_inv in Hv. destruct Hs as (_ & _ & Hs). apply As_obj, somes_forall.
    clear Hn. revert l Hv Hs. induction IH as [|f fs Ht _ IHfs]; intros l Hv Hs kx Hx; [destruct Hx|]. inversion F as [|? ? [F1 F2] F3]; subst. destruct l as [|v l]; [destruct Hx|]. inversion Hv; subst.
    destruct Hs as [(_ & Hs & _) Hr]. destruct Hx as [Hx|Hx]; [|eapply IHfs; eassumption].
    destruct (render i (snd f) v) as [x|] eqn:Er; [|discriminate Hx]. injection Hx as <-. cbn [fst snd]. split; [|eapply Ht; eassumption].
    destruct (snd (fst f)) as [|k ks]; [exact text_nil|]. inversion F1. assumption.
Qed.

Lemma write_utf8 i so t v j : storable i t v -> render i t v = Some j -> is_container j -> options_made so -> so_ascii so = true ->
  (so_depth so + N.of_nat (nesting j) <= 255)%N -> names_utf8 t -> val_utf8 v ->
  exists text, serializeStruct i so t v = Ok text /\ doc_text plain j text /\ utf8_text text.
Proof.
  intros Hs Hr Hc Hso Ha Hd Hn Hv. destruct (serialized i so t v j Hs Hr Hc Hso Ha Hd) as (text & E & D).
  exists text. split; [exact E|]. split; [exact D|]. apply (doc_utf8 _ _ D). exact (render_utf8 i t v j Hn Hv Hs Hr).
Qed.
