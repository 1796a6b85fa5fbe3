(** Proofs about the error texts of callFunctions. *)
From Verif Require Import Base ScanModel TokModel ErrCtxModel ErrCtxProofs ErrMsgModel CallMsgModel.
From Coq Require Import Lia ZArith.

(** The start of a text: the name of an error and a message. *)
Definition headed (e : error) (message : bytes) : bytes :=
  s2b "Error" ++ (match e with UserDefinedErrors => [] | e => x20 :: error_string e end) ++
  (match message with [] => [] | m => x20 :: m end) ++ [x3a; x0a].

(** What the call ends with: the error and the message of the last setError. *)
Definition set_last (calls : list (error * bytes)) : error * bytes := last calls (NoError, []).
Definition error_of (x : ending) : error :=
  match x with Fine => NoError | Sets calls => fst (set_last calls) | Refuses e => e | Breaks e => e end.
Definition message_of (x : ending) : bytes := match x with Sets calls => snd (set_last calls) | _ => [] end.
(** The message that is left for the following members, when [old] was left by the ones before. *)
Definition left_over (x : ending) (old : bytes) : bytes :=
  match x with Fine => old | Sets _ => message_of x | Refuses _ => old | Breaks _ => [] end.

(** The starts of the texts, none for a member without error: its own error and message, except that a refused call after a message has
    been left is described by NoError and that message. *)
Fixpoint starts (old : bytes) (ms : list member) : list (option bytes) :=
  match ms with
  | [] => []
  | m :: r =>
    let x := me_end m in
    match error_of x with
    | NoError => None
    | e => Some (match x, old with Refuses _, _ :: _ => headed NoError old | _, _ => headed e (message_of x) end)
    end :: starts (left_over x old) r
  end.

(** Members that can occur: positions inside the data, errors that are errors. *)
Definition member_ok (m : member) : Prop :=
  (exists data rest, me_bufs m = data :: rest /\ me_cur m <= length data) /\
  match me_end m with Fine => True | Sets calls => calls <> [] /\ Forall (fun p => fst p <> NoError) calls | Refuses e | Breaks e => e <> NoError end.

Definition starts_with (t : option bytes) (h : option bytes) : Prop :=
  match t, h with Some t, Some h => exists rest, t = h ++ rest | None, None => True | _, _ => False end.

Section P.
Context (gc : ecfg) (Hl : (0 <= eg_line_range gc)%Z) (Hr : (0 <= eg_range gc)%Z).

Lemma update_fields bufs cur e m c c' : updateErrorContext gc bufs cur e m c = Ok c' -> ec_error c' = e /\ ec_message c' = m.
Proof.
  unfold updateErrorContext. destruct bufs as [|d r]; [intros H; injection H as <-; split; reflexivity|]. cbv zeta.
  destruct (go_back _ _ _ _ _ _ _ _ _ _) as [[[[[cb fr] ls] lb] ch]| |]; cbn [obind]; try discriminate.
  destruct (go_forward _ _ _ _ _ _ _ _ _) as [[[cf ls2] bk]| |]; cbn [obind]; try discriminate.
  destruct (Nat.ltb _ _).
  - destruct (pieces _ _); cbn [obind]; try discriminate. intros [= <-]. auto.
  - destruct (piece _ _ _); cbn [obind]; try discriminate. intros [= <-]. auto.
Qed.
Lemma update_ok bufs cur e m c : (exists data rest, bufs = data :: rest /\ cur <= length data) ->
  exists c', updateErrorContext gc bufs cur e m c = Ok c' /\ ec_error c' = e /\ ec_message c' = m.
Proof.
  intros (data & rest & -> & Hc). destruct (update_sound gc data rest cur e m c Hc Hl Hr) as (c' & U & _).
  exists c'. split; [exact U|exact (update_fields _ _ _ _ _ _ U)].
Qed.
Lemma message_start c : exists rest, tokenizer_message c = headed (ec_error c) (ec_message c) ++ rest.
Proof. exists (error_lines 0 c (ec_lines c)). unfold tokenizer_message, headed. rewrite <- !app_assoc. destruct (ec_error c), (ec_message c); reflexivity. Qed.

Lemma set_errors_ok bufs cur : (exists data rest, bufs = data :: rest /\ cur <= length data) -> forall calls e0 c, calls <> [] ->
  exists c', set_errors gc bufs cur calls e0 c = Ok (c', fst (set_last calls)) /\ ec_error c' = fst (set_last calls) /\ ec_message c' = snd (set_last calls).
Proof.
  intros Hb. induction calls as [|[e m] r IH]; intros e0 c Hne; [congruence|]. cbn [set_errors]. unfold set_error. cbv zeta.
  destruct (update_ok bufs cur e m c Hb) as (c1 & -> & E1 & E2). cbn [obind]. destruct r as [|p r].
  - exists c1. cbn. auto.
  - destruct (IH e c1 ltac:(discriminate)) as (c2 & A & B). exists c2. split; [exact A|exact B].
Qed.
Lemma set_last_error calls : calls <> [] -> Forall (fun p : error * bytes => fst p <> NoError) calls -> fst (set_last calls) <> NoError.
Proof.
  unfold set_last. induction calls as [|p r IH]; [congruence|]. intros _ F. destruct r as [|q r]; [exact (Forall_inv F)|].
  change (last (p :: q :: r) (NoError, [])) with (last (q :: r) (NoError, @nil byte)). apply IH; [discriminate|exact (Forall_inv_tail F)].
Qed.
Lemma add_text_ok bufs cur e c : (exists data rest, bufs = data :: rest /\ cur <= length data) -> e <> NoError ->
  exists c' t, add_text gc bufs cur e c = Ok (c', Some t) /\ ec_message c' = ec_message c /\
    exists rest, t = headed (match ec_message c with [] => e | _ => ec_error c end) (ec_message c) ++ rest.
Proof.
  intros Hb He.
  assert (E : add_text gc bufs cur e c = let* c := match ec_message c with [] => updateErrorContext gc bufs cur e [] c | _ => Ok c end in Ok (c, Some (tokenizer_message c)))
    by (destruct e; try reflexivity; congruence).
  rewrite E. destruct (ec_message c) as [|b m] eqn:M.
  - destruct (update_ok bufs cur e [] c Hb) as (c' & -> & E1 & E2). cbn [obind]. exists c', (tokenizer_message c'). split; [reflexivity|].
    split; [exact E2|]. rewrite <- E1, <- E2. apply message_start.
  - cbn [obind]. exists c, (tokenizer_message c). split; [reflexivity|]. split; [exact M|]. rewrite <- M. apply message_start.
Qed.

Lemma member_text_ok m c : member_ok m -> exists c' t, member_text gc m c = Ok (c', t) /\
  ec_message c' = left_over (me_end m) (ec_message c) /\
  starts_with t (match error_of (me_end m) with
    | NoError => None
    | e => Some (match me_end m, ec_message c with Refuses _, _ :: _ => headed NoError (ec_message c) | _, _ => headed e (message_of (me_end m)) end)
    end).
Proof.
  intros (Hb & He). unfold member_text. cbv zeta. destruct (me_end m) as [|calls|e|e] eqn:X; cbn [error_of message_of left_over].
  - exists (ec_clear c), None. split; [reflexivity|]. split; [reflexivity|exact I].
  - destruct He as (Hne & He). destruct (set_errors_ok _ _ Hb calls NoError (ec_clear c) Hne) as (c1 & -> & E1 & E2). cbn [obind].
    assert (N := set_last_error calls Hne He). destruct (add_text_ok _ _ (fst (set_last calls)) c1 Hb N) as (c2 & t & -> & M & rest & T).
    exists c2, (Some t). split; [reflexivity|]. split; [congruence|]. destruct (fst (set_last calls)) eqn:Q; try congruence; cbn [starts_with]; exists rest; rewrite T, E1, E2;
      (destruct (snd (set_last calls)); reflexivity).
  - cbn [obind]. destruct (add_text_ok _ _ e (ec_clear c) Hb He) as (c2 & t & -> & M & rest & T). exists c2, (Some t).
    split; [reflexivity|]. split; [exact M|]. cbn [ec_clear ec_message ec_error] in T. destruct e; try congruence; cbn [starts_with]; exists rest; rewrite T;
      (destruct (ec_message c); reflexivity).
  - destruct (update_ok _ _ e [] (ec_clear c) Hb) as (c1 & -> & E1 & E2). cbn [obind].
    destruct (add_text_ok _ _ e c1 Hb He) as (c2 & t & -> & M & rest & T). exists c2, (Some t).
    split; [reflexivity|]. split; [congruence|]. rewrite E2 in T. destruct e; try congruence; cbn [starts_with]; exists rest; exact T.
Qed.
Lemma member_texts_ok : forall ms c, Forall member_ok ms -> exists ts, member_texts gc ms c = Ok ts /\ Forall2 starts_with ts (starts (ec_message c) ms).
Proof.
  induction ms as [|m ms IH]; intros c F; cbn [member_texts starts].
  - exists []. auto.
  - destruct (member_text_ok m c (Forall_inv F)) as (c1 & t & -> & M & S). cbn [obind].
    destruct (IH c1 (Forall_inv_tail F)) as (ts & -> & T). cbn [obind]. exists (t :: ts). split; [reflexivity|]. constructor; [exact S|].
    rewrite <- M. exact T.
Qed.
End P.
