(** Proofs about error messages: the tokenizer. *)
From Verif Require Import Base Tactics ScanModel TokModel JsonSpec TokSpec TokSafe TokSpecProofs TokScope PropTok EscapeModel IntModel HandlerModel HandlerSpec HandlerTree HandlerLaws HandlerSim
  ErrCtxModel ErrCtxSpec ErrCtxProofs ErrCtxTok PropErr ErrMsgModel ErrMsgSpec ErrMsgProofs.
From Coq Require Import Lia.

(** The errors of the tokenizer outside of scopes are not about members. *)
Definition tplain (e : error) : Prop := plain e /\ e <> ScopeHasEnded.
Ltac tp := split; [pl|discriminate].
Lemma fsnv_plain o : forall f rest pos cur e c, fsnv_loop f o rest pos cur = FS_err e c -> tplain e.
Proof.
  induction f as [|f IH]; intros rest pos cur e c H; cbn [fsnv_loop] in H; [discriminate H|].
  destruct rest as [|b tl]; [injection H as <- _; tp|]. destruct (_ && _ && _)%bool.
  - cbv zeta in H. destruct (skipComment _ _ _); [exact (IH _ _ _ _ _ H)|injection H as <- _; tp].
  - destruct (single_char_type b); [discriminate H|]. destruct (has b _); [discriminate H|]. destruct (has b _); [discriminate H|].
    destruct (_ =? 0)%N; [injection H as <- _; tp|exact (IH _ _ _ _ _ H)].
Qed.
Lemma fstart_plain o buf cur e c : findStartOfNextValue o buf cur = FS_err e c -> tplain e.
Proof.
  unfold findStartOfNextValue. cbv zeta. destruct (skipn _ (skipn cur buf)) as [|b l]; [apply fsnv_plain|].
  destruct (single_char_type b); [discriminate|apply fsnv_plain].
Qed.
Lemma fdelim_plain o ct : forall f rest pos cur e c, fdelim_loop f o ct rest pos cur = FD_err e c -> tplain e.
Proof.
  induction f as [|f IH]; intros rest pos cur e c H; cbn [fdelim_loop] in H; [discriminate H|].
  destruct rest as [|b tl]; [injection H as <- _; tp|].
  repeat match type of H with
  | (if ?x then _ else _) = _ => destruct x
  | (let cur1 := _ in _) = _ => cbv zeta in H
  | match skipComment _ _ ?x with _ => _ end = _ => destruct (skipComment _ _ x)
  | FD_err _ _ = _ => injection H as <- _; tp
  | FD_ok _ _ _ = _ => discriminate H
  | fdelim_loop _ _ _ _ _ _ = _ => exact (IH _ _ _ _ _ H)
  end.
Qed.
Lemma fdelimiter_plain o st buf cur e c : findDelimiter o st buf cur = FD_err e c -> tplain e.
Proof. unfold findDelimiter. destruct st; [intros H; injection H as <- _; tp|]. cbv zeta. apply fdelim_plain. Qed.
Lemma ftend_plain o : forall f rest pos cur e c, ftend_loop f o rest pos cur = FE_err e c -> tplain e.
Proof.
  induction f as [|f IH]; intros rest pos cur e c H; cbn [ftend_loop] in H; [discriminate H|].
  destruct rest as [|b tl]; [injection H as <- _; tp|].
  repeat match type of H with
  | (if ?x then _ else _) = _ => destruct x
  | (let cur1 := _ in _) = _ => cbv zeta in H
  | match skipComment _ _ ?x with _ => _ end = _ => destruct (skipComment _ _ x)
  | FE_err _ _ = _ => injection H as <- _; tp
  | FE_ok _ _ _ = _ => discriminate H
  | ftend_loop _ _ _ _ _ = _ => exact (IH _ _ _ _ _ H)
  end.
Qed.
Lemma ftokend_plain o st buf cur e c : findTokenEnd o st buf cur = FE_err e c -> tplain e.
Proof. unfold findTokenEnd. destruct st; [discriminate|]. cbv zeta. apply ftend_plain. Qed.
Lemma finish_plain o buf off size ty s s1 e d t : finish_value o buf off size ty s = Ok (s1, e, d, t) -> tplain e.
Proof.
  unfold finish_value. destruct (t_prop s); try (intros H; injection H as _ <- _ _; tp). cbv zeta.
  destruct ty; try (intros H; injection H as _ <- _ _; tp); intros H;
    repeat match type of H with
    | match ?x with _ => _ end = Ok _ => destruct x
    | Ok _ = Ok _ => injection H as _ <- _ _; tp
    | UB = _ => discriminate H
    end.
Qed.
Lemma from_plain o buf ty s s1 e d t : populateFromDataRef o buf ty s = Ok (s1, e, d, t) -> tplain e.
Proof.
  unfold populateFromDataRef. destruct (t_prop s); try apply finish_plain.
  destruct (findStartOfNextValue o buf (t_cur s)) as [e0 c0|ty0 a0 c0|] eqn:E; [|cbv zeta; destruct (is_bracket _); apply finish_plain|discriminate].
  intros H. injection H as _ <- _ _. exact (fstart_plain _ _ _ _ _ E).
Qed.
Lemma populate_plain o buf : forall f tmp nt s s1 e nt1, populateNext f o buf tmp nt s = Ok (s1, e, nt1) -> tplain e.
Proof.
  induction f as [|f IH]; intros tmp nt s s1 e nt1 H; cbn [populateNext] in H; [discriminate H|].
  destruct (t_cur s <? length buf); [|injection H as _ <- _; tp].
  destruct (t_tok s).
  - destruct (populateFromDataRef o buf _ s) as [[[[s2 e2] [off size]] ty]| |] eqn:E; cbn [obind] in H; try discriminate H.
    apply from_plain in E. destruct e2; try (injection H as _ <- _; exact E).
    + destruct (slice _ _ _) as [raw| |]; cbn [obind] in H; try discriminate H.
      destruct (im_active (t_im s2)); destruct ty;
        repeat match type of H with
        | match ?x with _ => _ end = Ok _ => destruct x
        | Ok _ = Ok _ => injection H as _ <- _; tp
        | populateNext _ _ _ _ _ _ = _ => exact (IH _ _ _ _ _ _ H)
        end; cbv zeta in H;
        repeat match type of H with
        | match ?x with _ => _ end = Ok _ => destruct x
        | Ok _ = Ok _ => injection H as _ <- _; tp
        | populateNext _ _ _ _ _ _ = _ => exact (IH _ _ _ _ _ _ H)
        end.
    + destruct (prop_gt_nostart _); [destruct (slice _ _ _); cbn [obind] in H; try discriminate H|]; injection H as _ <- _; tp.
  - destruct (findDelimiter o (t_stack s) buf (t_cur s)) as [e0 c0|nx a0 c0|] eqn:E; [| |discriminate H].
    + cbv zeta in H. injection H as _ <- _. exact (fdelimiter_plain _ _ _ _ _ _ E).
    + cbv zeta in H. destruct nx; try (destruct (_ && _)%bool); try (injection H as _ <- _; tp); exact (IH _ _ _ _ _ _ H).
  - destruct (populateFromDataRef o buf _ s) as [[[[s2 e2] [off size]] ty]| |] eqn:E; cbn [obind] in H; try discriminate H.
    apply from_plain in E. destruct e2; try (injection H as _ <- _; exact E).
    + destruct (slice _ _ _) as [raw| |]; cbn [obind] in H; try discriminate H. cbv zeta in H.
      destruct (im_active (t_im s2)); cbv iota beta in H; destruct (_ && _)%bool; injection H as _ <- _; tp.
    + cbv zeta in H. destruct (prop_gt_nostart _); [destruct (slice _ _ _); cbn [obind] in H; try discriminate H|]; injection H as _ <- _; tp.
  - destruct (findTokenEnd o (t_stack s) buf (t_cur s)) as [e0 c0|a0 c0 b0|] eqn:E; [| |discriminate H].
    + injection H as _ <- _. exact (ftokend_plain _ _ _ _ _ _ E).
    + exact (IH _ _ _ _ _ _ H).
Qed.
Lemma buffers_plain o : forall f nt s s1 e nt1, buffer_loop f o nt s = Ok (s1, e, nt1) -> tplain e.
Proof.
  induction f as [|f IH]; intros nt s s1 e nt1 H; cbn [buffer_loop] in H; destruct (t_bufs s) as [|buf bs]; try discriminate H; try (injection H as _ <- _; tp).
  destruct (populateNext _ _ _ _ _ _) as [[[s2 e2] nt2]| |] eqn:E; cbn [obind] in H; try discriminate H. apply populate_plain in E.
  destruct e2; try (injection H as _ <- _; exact E).
  destruct (releaseFirstDataRef s2); cbn [obind] in H; try discriminate H. exact (IH _ _ _ _ _ H).
Qed.
Lemma next_plain o nt s s1 e nt1 : t_scope s = [] -> nextToken o nt s = Ok (s1, e, nt1) -> tplain e.
Proof.
  unfold nextToken. cbv zeta. intros ->.
  destruct (t_parsed s) as [ts|]; [destruct (nth_error ts (t_cur s)); intros H; [injection H as _ <- _; tp|discriminate H]|].
  match goal with |- match t_bufs ?x with _ => _ end = _ -> _ => destruct (t_bufs x) end; [intros H; injection H as _ <- _; tp|].
  match goal with |- context [buffer_loop ?n o nt ?x] => destruct (buffer_loop n o nt x) as [[[s2 e2] nt2]| |] eqn:E end; cbn [obind]; try discriminate.
  apply buffers_plain in E. destruct e2; try (intros H; injection H as _ <- _; exact E).
  destruct (tk_value_type nt2); try (intros H; injection H as _ <- _; tp); destruct (t_stack _) as [|[] ?]; intros H; injection H as _ <- _; tp.
Qed.

(** ** Lists of members *)
Section Says.
Context (gc : ecfg) (o : opts) (g : pcfg).
Hypothesis Htrack : pc_track g = true.
Notation next := (next_ctx gc o).
Notation ctx := (ctx (tstate * ectx)).
Definition says (e : error) (c : ctx) : Prop :=
  (e = MissingPropertyMember -> c_missing c <> []) /\ (e = UnassignedRequiredMember -> c_unassigned c <> []).
Definition I1 (c : ctx) : Prop := c_cfg c = g /\ t_scope (fst (c_src c)) = [] /\ says (c_err c) c.
Definition R1 (e : error) (c : ctx) : Prop := I1 c /\ says e c.
Lemma says_plain e c : plain e -> says e c.
Proof. intros (A & B & _). split; contradiction. Qed.

Lemma next_ctx_ok nt s s1 e nt1 : t_scope (fst s) = [] -> next nt s = Ok (s1, e, nt1) ->
  nextToken o nt (fst s) = Ok (fst s1, e, nt1) /\ context_after gc (fst s1) e (snd s) = Ok (snd s1) /\ tplain e /\ t_scope (fst s1) = [].
Proof.
  unfold next_ctx. intros Hs. destruct (nextToken o nt (fst s)) as [[[s2 e2] nt2]| |] eqn:E; cbn [obind]; try discriminate.
  destruct (context_after gc s2 e2 (snd s)) as [c2| |] eqn:E2; cbn [obind]; try discriminate. intros H. injection H as <- <- <-.
  split; [reflexivity|]. split; [exact E2|]. split; [exact (next_plain _ _ _ _ _ _ Hs E)|exact (next_no_scope _ _ _ _ _ _ Hs E)].
Qed.
Lemma ctx_read_src c e c' : ctx_read next c = Ok (e, c') ->
  next (c_tok c) (c_src c) = Ok (c_src c', e, c_tok c') /\ c_err c' = c_err c /\ c_missing c' = c_missing c /\ c_unassigned c' = c_unassigned c /\ c_cfg c' = c_cfg c.
Proof.
  unfold ctx_read. destruct (next (c_tok c) (c_src c)) as [[[s e0] nt]| |]; cbn [obind]; try discriminate.
  intros H. injection H as <- <-. repeat split.
Qed.

Lemma to_says fuel t : keep I1 R1 (to next fuel t).
Proof.
  apply (to_keep next I1 R1 true); [..|left; reflexivity].
  - intros c e c' (A & B & C) H. apply ctx_read_src in H. destruct H as (H & E1 & E2 & E3 & E4).
    destruct (next_ctx_ok _ _ _ _ _ B H) as (_ & _ & P & Sc). split; [|apply says_plain, P].
    unfold I1, says in *. rewrite E1, E2, E3, E4. auto.
  - intros e c ((A & B & C) & D). split; [|exact D]. split; [exact A|]. split; [exact B|exact D].
  - intros e c H P. split; [exact H|apply says_plain, P].
  - intros n c (A & [B C]).
    assert (K : I1 (add_missing n c)).
    { unfold add_missing. rewrite A, Htrack. split; [reflexivity|]. split; [exact B|]. destruct C as [C1 C2]. split; [|exact C2].
      cbn. intros _. destruct (c_missing c); discriminate. }
    split; [exact K|]. split; [exact K|]. unfold add_missing. rewrite A, Htrack. split; [|discriminate].
    cbn. intros _. destruct (c_missing c); discriminate.
  - intros n l c (A & [B C]).
    assert (K : I1 (add_unassigned (n :: l) c)).
    { unfold add_unassigned. rewrite A, Htrack. split; [reflexivity|]. split; [exact B|]. destruct C as [C1 C2]. split; [exact C1|].
      cbn. intros _. destruct (c_unassigned c); discriminate. }
    split; [exact K|]. split; [exact K|]. unfold add_unassigned. rewrite A, Htrack. split; [discriminate|].
    cbn. intros _. destruct (c_unassigned c); discriminate.
  - intros c H. split; [exact H|apply H].
  - intros e c [H _] _. exact H.
  - intros e c [H K]. split; [exact H|]. destruct e; try exact K. split; discriminate.
Qed.
End Says.

(** ** The error context names the error *)
Section Same.
Context (gc : ecfg) (o : opts).
Notation next := (next_ctx gc o).
Notation ctx := (ctx (tstate * ectx)).
Definition I2 (c : ctx) : Prop := t_scope (fst (c_src c)) = [] /\ ec_error (snd (c_src c)) = NoError /\ c_err c = NoError.
Definition R2 (e : error) (c : ctx) : Prop :=
  t_scope (fst (c_src c)) = [] /\ e <> UserDefinedErrors /\ (e = NoError -> I2 c) /\
  (ec_error (snd (c_src c)) = NoError \/ (ec_error (snd (c_src c)) = e /\ plain e)).

Lemma update_error bufs cur e m c c' : updateErrorContext gc bufs cur e m c = Ok c' -> ec_error c' = e.
Proof.
  unfold updateErrorContext. destruct bufs as [|d r]; [intros H; injection H as <-; reflexivity|]. cbv zeta.
  destruct (go_back _ _ _ _ _ _ _ _ _ _) as [[[[[cb fr] ls] lb] ch]| |]; cbn [obind]; try discriminate.
  destruct (go_forward _ _ _ _ _ _ _ _ _) as [[[cf ls2] bk]| |]; cbn [obind]; try discriminate.
  destruct (Nat.ltb _ _).
  - destruct (pieces _ _); cbn [obind]; try discriminate. intros H; injection H as <-; reflexivity.
  - destruct (piece _ _ _); cbn [obind]; try discriminate. intros H; injection H as <-; reflexivity.
Qed.
Lemma context_error s e c c' : tplain e -> context_after gc s e c = Ok c' ->
  ec_error c' = match e with NeedMoreData => NoError | _ => e end.
Proof.
  intros [_ P] H. destruct e; cbn [context_after] in H; try contradiction; try (injection H as <-; reflexivity); exact (update_error _ _ _ _ _ _ H).
Qed.

Lemma to_same fuel t : direct t = true -> keep I2 R2 (to next fuel t).
Proof.
  intros Hd. apply (to_keep next I2 R2 false); [..|right; exact Hd].
  - intros c e c' (A & B & C) H. apply ctx_read_src in H. destruct H as (H & E1 & E2 & E3 & E4).
    destruct (next_ctx_ok _ _ _ _ _ _ _ A H) as (_ & K & P & Sc). apply (context_error _ _ _ _ P) in K.
    split; [exact Sc|]. split; [apply P|]. split.
    + intros ->. split; [exact Sc|]. split; [exact K|congruence].
    + destruct e; rewrite K; auto; right; split; auto; apply P.
  - intros e c (A & B & C & D). split; [exact A|]. split; [exact B|]. split; [|exact D]. intros ->. destruct (C eq_refl) as (C1 & C2 & C3).
    split; [exact C1|]. split; [exact C2|reflexivity].
  - intros e c (A & B & C) P. split; [exact A|]. split; [apply P|]. split; [intros ->; repeat split; assumption|left; exact B].
  - intros n c (A & B & C). unfold add_missing. destruct (pc_track _); (split; [repeat split; assumption|]);
      (split; [exact A|split; [discriminate|split; [discriminate|left; exact B]]]).
  - intros n l c (A & B & C). unfold add_unassigned. destruct (pc_track _); (split; [repeat split; assumption|]);
      (split; [exact A|split; [discriminate|split; [discriminate|left; exact B]]]).
  - intros c (A & B & C). rewrite C. split; [exact A|split; [discriminate|split; [intros _; repeat split; assumption|left; exact B]]].
  - intros e c (_ & _ & H & _) [K|K]; [exact (H K)|discriminate K].
  - intros e c (A & B & C & D). destruct e; try exact (conj A (conj B (conj C D))). cbn [matchedMemberResult].
    split; [exact A|]. split; [discriminate|]. split; [discriminate|]. left. destruct D as [D|[_ (D & _)]]; [exact D|contradiction].
Qed.
End Same.

(** ** The message *)
Lemma mentions_here a b c : mentions b (a ++ b ++ c).
Proof. exists a, c. reflexivity. Qed.
Lemma tokenizer_mentions c e : ec_error c = e -> e <> UserDefinedErrors -> mentions (error_name e) (tokenizer_message c).
Proof.
  intros E N. unfold tokenizer_message. rewrite E.
  match goal with |- mentions _ (_ ++ ?X ++ _) => replace X with (x20 :: error_name e) by (rewrite <- error_string_name; destruct e; congruence || reflexivity) end.
  exists (s2b "Error" ++ [x20]). eexists. rewrite <- !app_assoc. reflexivity.
Qed.
Lemma context_mentions e m u c : plain e -> e <> NoError -> ec_error c = NoError \/ ec_error c = e ->
  mentions (error_name e) (context_message e m u c).
Proof.
  intros (P1 & P2 & P3) N H.
  replace (context_message e m u c) with (match ec_error c with NoError => s2b "Error:" ++ error_string e | _ => tokenizer_message c end)
    by (destruct e; congruence || reflexivity).
  destruct H as [H|H].
  - rewrite H. exists (s2b "Error:"), []. rewrite app_nil_r, error_string_name. reflexivity.
  - replace (match ec_error c with NoError => s2b "Error:" ++ error_string e | _ => tokenizer_message c end) with (tokenizer_message c)
      by (rewrite H; destruct e; congruence || reflexivity). apply tokenizer_mentions; assumption.
Qed.

Definition missing_one := s2b "JSON Object contained member not found in C++ struct/class. JSON Object member is: ".
Definition missing_many := s2b "JSON Object contained members not found in C++ struct/class. JSON Object members are: ".
Definition unassigned_one := s2b "C++ struct/class has a required member that is not present in input JSON. The unassigned C++ member is: ".
Definition unassigned_many := s2b "C++ struct/class has required members that are not present in the input JSON. The unassigned C++ members are: ".

Lemma missing_about m u k : m <> [] -> about missing_one missing_many m (context_message MissingPropertyMember m u k).
Proof.
  intros H. split; [exact H|]. destruct m as [|n [|n2 r]]; [contradiction|reflexivity|]. unfold context_message. rewrite more_names_listed. reflexivity.
Qed.
Lemma unassigned_about m u k : u <> [] -> about unassigned_one unassigned_many u (context_message UnassignedRequiredMember m u k).
Proof.
  intros H. split; [exact H|]. destruct u as [|n [|n2 r]]; [contradiction|reflexivity|]. unfold context_message. rewrite more_names_listed. reflexivity.
Qed.

Definition start_ctx (g : pcfg) (text : bytes) : ctx (tstate * ectx) := mkCtx (addData text t_init, ec_init) tok_default NoError [] [] g.
Definition finish_ectx (gc : ecfg) (e : error) (s : tstate) (k : ectx) : outcome ectx :=
  match e, ec_error k with
  | NoError, _ => Ok k
  | _, NoError => updateErrorContext gc (t_bufs s) (t_cur s) e [] k
  | _, _ => Ok k
  end.
Lemma message_inv gc o g fuel t v text e v' c msg : parse_message gc o g fuel t v text = Ok (e, v', c, msg) ->
  exists e1 c1, ctx_next (next_ctx gc o) (start_ctx g text) = Ok (e1, c1) /\
    ((e1 <> NoError /\ e = e1 /\ c = c1 /\ msg = context_message e (c_missing c) (c_unassigned c) (snd (c_src c))) \/
     (e1 = NoError /\ exists c2 k, to (next_ctx gc o) fuel t v c1 = Ok (e, v', c2) /\ c = set_err e c2 /\
        finish_ectx gc e (fst (c_src c2)) (snd (c_src c2)) = Ok k /\ msg = context_message e (c_missing c) (c_unassigned c) k)).
Proof.
  unfold parse_message. cbv zeta. change (mkCtx (addData text t_init, ec_init) tok_default NoError [] [] g) with (start_ctx g text).
  destruct (ctx_next (next_ctx gc o) (start_ctx g text)) as [[e1 c1]| |]; cbn [obind]; try discriminate.
  intros H. exists e1, c1. split; [reflexivity|]. destruct (is_ok e1) eqn:Eo.
  - right. split; [destruct e1; reflexivity || discriminate Eo|].
    destruct (to (next_ctx gc o) fuel t v c1) as [[[e2 v2] c2]| |]; cbn [obind] in H; try discriminate H.
    change (c_src (set_err e2 c2)) with (c_src c2) in H. destruct (c_src c2) as [s k] eqn:Es.
    change (match e2, ec_error k with NoError, _ => Ok k | _, NoError => updateErrorContext gc (t_bufs s) (t_cur s) e2 [] k | _, _ => Ok k end)
      with (finish_ectx gc e2 s k) in H.
    destruct (finish_ectx gc e2 s k) as [k2| |] eqn:Ek; cbn [obind] in H; try discriminate H.
    injection H as <- <- <- <-. exists c2, k2. rewrite Es. auto.
  - left. injection H as <- <- <- <-. split; [intros ->; discriminate Eo|]. auto.
Qed.


Lemma start1 g text : I1 g (start_ctx g text).
Proof. split; [reflexivity|split; [reflexivity|apply says_plain; pl]]. Qed.
Lemma first1 gc o g c0 e1 c1 : I1 g c0 -> ctx_next (next_ctx gc o) c0 = Ok (e1, c1) -> I1 g c1 /\ plain e1.
Proof.
  intros (B1 & B2 & B3). unfold ctx_next. destruct (ctx_read (next_ctx gc o) c0) as [[e2 c2]| |] eqn:E2; cbn [obind]; try discriminate.
  intros H. assert (e2 = e1 /\ set_err e2 c2 = c1) by (injection H; auto). destruct H0 as [<- <-]. clear H.
  apply ctx_read_src in E2. destruct E2 as (A & A1 & A2 & A3 & A4). 
  destruct (next_ctx_ok _ _ _ _ _ _ _ B2 A) as (_ & _ & P & Sc). split; [|apply P]. split; [|split; [exact Sc|apply says_plain, P]].
  change (c_cfg c2 = g). congruence.
Qed.
Lemma fin1 gc o g fuel t v c1 e v' c2 k : pc_track g = true -> I1 g c1 -> to (next_ctx gc o) fuel t v c1 = Ok (e, v', c2) ->
  let c := set_err e c2 in let msg := context_message e (c_missing c) (c_unassigned c) k in
  (e = MissingPropertyMember -> about missing_one missing_many (c_missing c) msg) /\
  (e = UnassignedRequiredMember -> about unassigned_one unassigned_many (c_unassigned c) msg).
Proof.
  intros Ht K1 E2. 
   assert (K := to_says gc o g Ht fuel t v c1 K1). rewrite E2 in K. destruct K as [_ [S1 S2]].
    split; intros ->; [apply missing_about; exact (S1 eq_refl)|apply unassigned_about; exact (S2 eq_refl)].
Qed.

Theorem members_named gc o g fuel t v text e v' c msg : pc_track g = true ->
  parse_message gc o g fuel t v text = Ok (e, v', c, msg) ->
  (e = MissingPropertyMember -> about missing_one missing_many (c_missing c) msg) /\
  (e = UnassignedRequiredMember -> about unassigned_one unassigned_many (c_unassigned c) msg).
Proof.
  intros Ht H. destruct (message_inv _ _ _ _ _ _ _ _ _ _ _ H) as (e1 & c1 & E1 & K). clear H.
  destruct (first1 _ _ _ _ _ _ (start1 g text) E1) as [K1 P1]. destruct K as [(N & -> & -> & ->)|(-> & c2 & k & E2 & -> & Ek & ->)].
  - destruct P1 as (P1 & P2 & _). split; contradiction.
  - exact (fin1 _ _ _ _ _ _ _ _ _ _ k Ht K1 E2).
Qed.

Lemma first2 gc o c0 e1 c1 : t_scope (fst (c_src c0)) = [] -> ctx_next (next_ctx gc o) c0 = Ok (e1, c1) ->
  (e1 = NoError -> I2 c1) /\ plain e1 /\ (ec_error (snd (c_src c1)) = NoError \/ ec_error (snd (c_src c1)) = e1).
Proof.
  intros B2. unfold ctx_next. destruct (ctx_read (next_ctx gc o) c0) as [[e2 c2]| |] eqn:E2; cbn [obind]; try discriminate.
  intros H. assert (e2 = e1 /\ set_err e2 c2 = c1) by (injection H; auto). destruct H0 as [<- <-]. clear H.
  apply ctx_read_src in E2. destruct E2 as (A & A1 & A2 & A3 & A4).
  destruct (next_ctx_ok _ _ _ _ _ _ _ B2 A) as (_ & C & P & Sc). apply (context_error _ _ _ _ _ P) in C.
  split; [intros ->; split; [exact Sc|split; [exact C|reflexivity]]|]. split; [apply P|].
  change (c_src (set_err e2 c2)) with (c_src c2). rewrite C. destruct e2; auto.
Qed.

Theorem error_named gc o g fuel t v text e v' c msg : direct t = true ->
  parse_message gc o g fuel t v text = Ok (e, v', c, msg) ->
  e <> NoError -> e <> MissingPropertyMember -> e <> UnassignedRequiredMember -> mentions (error_name e) msg.
Proof.
  intros Ht H N1 N2 N3. destruct (message_inv _ _ _ _ _ _ _ _ _ _ _ H) as (e1 & c1 & E1 & K). clear H.
  assert (K1 := first2 gc o (start_ctx g text) e1 c1 eq_refl E1).
  destruct K1 as (K1 & P1 & C1). destruct K as [(N & -> & -> & ->)|(-> & c2 & k & E2 & -> & Ek & ->)].
  - apply context_mentions; assumption.
  - assert (K := to_same gc o fuel t Ht v c1 (K1 eq_refl)). rewrite E2 in K. destruct K as (_ & U & _ & D).
    apply context_mentions; [repeat split; assumption|exact N1|]. right. unfold finish_ectx in Ek.
    destruct D as [D|[D _]]; rewrite D in Ek.
    + apply (update_error gc (t_bufs (fst (c_src c2))) (t_cur (fst (c_src c2))) e [] (snd (c_src c2))). destruct e; congruence || exact Ek.
    + destruct e; congruence.
Qed.

(** ** The same result as without the messages *)
Section Sim2.
Context (gc : ecfg) (o : opts).
Hypothesis Hl : (0 <= eg_line_range gc)%Z.
Hypothesis Hr : (0 <= eg_range gc)%Z.
Definition Q (nt1 : token) (s1 : tstate) (nt2 : token) (s2 : tstate * ectx) : Prop :=
  nt1 = nt2 /\ s1 = fst s2 /\ reachable o s1 /\ t_parsed s1 = None /\
  match t_bufs s1 with [] => True | b :: _ => t_cur s1 <= length b end.
Lemma context_total s nt s1 e nt1 c0 : reachable o s -> nextToken o nt s = Ok (s1, e, nt1) -> exists c, context_after gc s1 e c0 = Ok c.
Proof.
  intros R E. destruct e; try (eexists; reflexivity);
    (destruct (C45_context_partial o gc s nt s1 _ nt1 c0 R Hl Hr E) as (? & ? & c & ? & _ & H & _); try discriminate; exists c; exact H).
Qed.
Lemma next_same nt1 s1 nt2 s2 : tok_view nt1 = tok_view nt2 -> Q nt1 s1 nt2 s2 ->
  orel (fun x y => snd (fst x) = snd (fst y) /\ tok_view (snd x) = tok_view (snd y) /\ Q (snd x) (fst (fst x)) (snd y) (fst (fst y)))
    (nextToken o nt1 s1) (next_ctx gc o nt2 s2).
Proof.
  intros _ (<- & -> & R & Hp & _). unfold next_ctx. destruct (C01_every_call_returns o (fst s2) nt1 R) as (s3 & e & nt3 & E & B).
  rewrite E. cbn [obind]. destruct (context_total _ _ _ _ _ (snd s2) R E) as (c & Ec). rewrite Ec. cbn.
  split; [reflexivity|]. split; [reflexivity|]. split; [reflexivity|]. split; [reflexivity|]. split; [exact (R_next _ _ _ _ _ _ R E)|].
  assert (Hp' := nextToken_parsed_None _ _ _ _ _ _ (proj1 (reachable_inv _ _ R)) Hp E). split; [exact Hp'|]. specialize (B Hp').
  destruct (t_bufs s3); auto.
Qed.

Theorem message_same g fuel t v text :
  orel (fun x y => fst (fst x) = fst (fst (fst y)) /\ snd (fst x) = snd (fst (fst y)) /\ snd x = rep (snd (fst y)))
    (parse_text o g fuel t v text) (parse_message gc o g fuel t v text).
Proof.
  unfold parse_text, parse_message, parseTo, context_of. cbv zeta.
  set (c1 := mkCtx (addData text t_init) tok_default NoError [] [] g).
  set (c2 := mkCtx (addData text t_init, ec_init) tok_default NoError [] [] g).
  assert (Hc : crel Q g c1 c2).
  { split; [reflexivity|]. split; [reflexivity|]. split; [reflexivity|]. split; [reflexivity|]. split; [split; reflexivity|].
    split; [reflexivity|]. split; [reflexivity|]. split; [apply R_add; [apply R_init|reflexivity]|]. split; [reflexivity|]. cbn. lia. }
  assert (Hn := next_sim _ _ Q g next_same c1 c2 Hc).
  destruct (ctx_next (nextToken o) c1) as [[e d1]| |], (ctx_next (next_ctx gc o) c2) as [[e' d2]| |]; cbn [orel] in Hn; try contradiction; cbn [obind orel]; auto.
  destruct Hn as [He Hd]. cbn [fst snd] in He, Hd. subst e'.
  destruct (is_ok e).
  - assert (Ht := to_sim _ _ Q g next_same t fuel v d1 d2 Hd).
    destruct (to (nextToken o) fuel t v d1) as [[[e1 v1] k1]| |], (to (next_ctx gc o) fuel t v d2) as [[[e2 v2] k2]| |]; cbn [orel] in Ht; try contradiction; cbn [obind orel]; auto.
    destruct Ht as [Hx Hk]. cbn [fst snd] in Hx, Hk. injection Hx as <- <-.
    destruct Hk as (_ & _ & M & U & _ & (_ & Es & R & Hp & B)).
    change (c_src (set_err e1 k2)) with (c_src k2). destruct (c_src k2) as [s k]. cbn [fst] in Es.
    assert (X : exists k', (match e1, ec_error k with NoError, _ => Ok k | _, NoError => updateErrorContext gc (t_bufs s) (t_cur s) e1 [] k | _, _ => Ok k end) = Ok k').
    { assert (Y : exists k', updateErrorContext gc (t_bufs s) (t_cur s) e1 [] k = Ok k').
      { rewrite <- Es. destruct (t_bufs (c_src k1)) as [|d r]; [eexists; reflexivity|].
        destruct (C45_lines gc d r (t_cur (c_src k1)) e1 [] k B Hl Hr) as (k' & ? & ? & H & _). eauto. }
      destruct e1; eauto; destruct (ec_error k); eauto. }
    destruct X as (k' & X). rewrite X. cbn. unfold rep. cbn. rewrite M, U. auto.
  - cbn. destruct Hd as (_ & _ & M & U & _). unfold rep. rewrite M, U. auto.
Qed.
End Sim2.
