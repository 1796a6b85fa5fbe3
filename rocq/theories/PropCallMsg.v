(** C75: the error texts of called functions. *)
From Verif Require Import Base ScanModel TokModel ErrCtxModel ErrMsgModel CallMsgModel CallMsgProofs.
From Coq Require Import Lia ZArith.

(** ** All texts
    Any settings with ranges that are not negative, any list of members at any positions and however their calls end, any
    context before: no step is undefined, there is a text exactly for the members with an error, and each starts as [starts] says: with
    the name of the error and the message of the last setError, except for a refused call after a message was left by an earlier one. *)
Theorem C75_texts gc ms c : (0 <= eg_line_range gc)%Z -> (0 <= eg_range gc)%Z -> Forall member_ok ms ->
  exists ts, member_texts gc ms c = Ok ts /\ Forall2 starts_with ts (starts (ec_message c) ms).
Proof. intros Hl Hr. exact (member_texts_ok gc Hl Hr ms c). Qed.
Print Assumptions C75_texts.

(** ** The function's own error
    A function that calls setError is described by the last error and message it set, whatever was left by the ones before. *)
Theorem C75_own_message gc m c calls : (0 <= eg_line_range gc)%Z -> (0 <= eg_range gc)%Z -> member_ok m -> me_end m = Sets calls ->
  exists c' t rest, member_text gc m c = Ok (c', Some t) /\ t = headed (fst (last calls (NoError, []))) (snd (last calls (NoError, []))) ++ rest.
Proof.
  intros Hl Hr O E. destruct (member_text_ok gc Hl Hr m c O) as (c' & t & M & _ & S). rewrite E in S. cbn [error_of message_of] in S.
  destruct O as (_ & O). rewrite E in O. destruct O as (O1 & O2). assert (N := set_last_error calls O1 O2). unfold set_last in *.
  destruct (fst (last calls (NoError, []))); try congruence; destruct t as [t|]; cbn [starts_with] in S; try contradiction;
    destruct S as (rest & S); exists c', t, rest; auto.
Qed.
Print Assumptions C75_own_message.

(** ** Every error is named
    Full statement: the text of every failed member starts with the name of its own error and its own message.  Missing: lists in which a
    function sets a message and a later call is refused, for which it is false (see below). *)
Definition own (m : member) : option bytes :=
  match error_of (me_end m) with NoError => None | e => Some (headed e (message_of (me_end m))) end.
Fixpoint no_message_before (ms : list member) : Prop :=
  match ms with
  | [] => True
  | m :: r => (message_of (me_end m) = [] \/ Forall (fun m => forall e, me_end m <> Refuses e) r) /\ no_message_before r
  end.
Lemma starts_unrefused : forall ms old, Forall (fun m => forall e, me_end m <> Refuses e) ms -> starts old ms = map own ms.
Proof.
  induction ms as [|m ms IH]; intros old F; [reflexivity|]. cbn [starts map]. rewrite (IH _ (Forall_inv_tail F)). f_equal. unfold own.
  destruct (me_end m) as [|calls|e|e] eqn:X; try reflexivity. exfalso. exact (Forall_inv F e X).
Qed.
Lemma starts_own : forall ms, no_message_before ms -> starts [] ms = map own ms.
Proof.
  induction ms as [|m ms IH]; [reflexivity|]. cbn [no_message_before starts map]. intros (H & R). f_equal.
  - unfold own. destruct (me_end m); reflexivity.
  - destruct H as [H|H]; [|exact (starts_unrefused _ _ H)].
    replace (left_over (me_end m) []) with (@nil byte) by (destruct (me_end m); try reflexivity; symmetry; exact H). exact (IH R).
Qed.
Theorem C75_named_partial gc ms c : (0 <= eg_line_range gc)%Z -> (0 <= eg_range gc)%Z -> Forall member_ok ms -> ec_message c = [] -> no_message_before ms ->
  exists ts, member_texts gc ms c = Ok ts /\ Forall2 starts_with ts (map own ms).
Proof. intros Hl Hr O M H. destruct (C75_texts gc ms c Hl Hr O) as (ts & E & F). rewrite M, starts_own in F by exact H. exists ts. auto. Qed.
Print Assumptions C75_named_partial.

Definition doc : bytes := s2b "{""f"":1,""g"":""x""}".
Definition ms_ok : list member :=
  [mkMember Fine [doc] 6; mkMember (Refuses FailedToParseInt) [doc] 14; mkMember (Sets [(UnknownError, s2b "first"); (KeyNotFound, s2b "no g")]) [doc] 14].
Definition ms_bad : list member := [mkMember (Sets [(KeyNotFound, s2b "no f")]) [doc] 6; mkMember (Refuses FailedToParseInt) [doc] 14].
Example C75_nonvacuous :
  Forall member_ok ms_ok /\ no_message_before ms_ok /\
  map own ms_ok = [None; Some (s2b "Error FailedToParseInt:" ++ [x0a]); Some (s2b "Error KeyNotFound no g:" ++ [x0a])].
Proof.
  split.
  - repeat constructor; try (exists doc, []; split; [reflexivity|vm_compute; lia]); try discriminate.
  - split; [|vm_compute; reflexivity]. cbn. repeat split; try (left; reflexivity). right. constructor.
Qed.

(** The claim for all lists is false: clear() keeps the message, so the second text names no error and tells the first function's message.
    Also, the context is filled twice when the tokenizer fails in an argument or setError is called with an empty message: the lines
    around the error are in the text twice. *)
Definition C75_claim : Prop := forall gc ms c, (0 <= eg_line_range gc)%Z -> (0 <= eg_range gc)%Z -> Forall member_ok ms -> ec_message c = [] ->
  exists ts, member_texts gc ms c = Ok ts /\ Forall2 starts_with ts (map own ms).
Definition some_cfg : ecfg := eg_default.
Theorem C75_left_over_refuted : ~ C75_claim /\
  exists t, member_texts some_cfg ms_bad ec_init = Ok [Some t; Some (s2b "Error NoError no f:" ++ [x0a])].
Proof.
  assert (E : exists t, member_texts some_cfg ms_bad ec_init = Ok [Some t; Some (s2b "Error NoError no f:" ++ [x0a])])
    by (eexists; vm_compute; reflexivity).
  split; [|exact E]. intros H. destruct (H some_cfg ms_bad ec_init) as (ts & T & F).
  - cbn; lia.
  - cbn; lia.
  - repeat constructor; try (exists doc, []; split; [reflexivity|vm_compute; lia]); discriminate.
  - reflexivity.
  - destruct E as (t & E). rewrite E in T. injection T as <-. inversion F as [|? ? ? ? _ F2]; subst. inversion F2 as [|? ? ? ? F3 _]; subst.
    destruct F3 as (rest & F3). vm_compute in F3. discriminate F3.
Qed.
Print Assumptions C75_left_over_refuted.
Definition C75_once_claim : Prop := forall gc m c c' t e, (0 <= eg_line_range gc)%Z -> (0 <= eg_range gc)%Z -> me_end m = Breaks e -> ec_message c = [] ->
  member_text gc m c = Ok (c', Some t) -> exists c1, updateErrorContext gc (me_bufs m) (me_cur m) e [] ec_init = Ok c1 /\ t = tokenizer_message c1.
Theorem C75_doubled_refuted : ~ C75_once_claim /\
  let line := s2b "{""f"":?}" ++ [x0a] in
  member_texts some_cfg [mkMember (Breaks InvalidToken) [s2b "{""f"":?}"] 5] ec_init =
    Ok [Some (headed InvalidToken [] ++ line ++ s2b "     ^" ++ [x0a] ++ line)].
Proof.
  split; [|vm_compute; reflexivity]. intros H.
  set (m := mkMember (Breaks InvalidToken) [s2b "{""f"":?}"] 5).
  destruct (member_text some_cfg m ec_init) as [[c' [t|]]| |] eqn:E; try (vm_compute in E; discriminate E).
  destruct (H some_cfg m ec_init c' t InvalidToken) as (c1 & U & T); try (cbn; lia); try reflexivity; [exact E|].
  vm_compute in U. injection U as <-. vm_compute in E. injection E as _ <-. vm_compute in T. discriminate T.
Qed.
Print Assumptions C75_doubled_refuted.
