(** The tokenizer properties C01 and C02 over all histories. *)
From Verif Require Import Base ScanModel ScanProofs TokModel TokLoops TokProofs TokSafe TokSpec.
From Coq Require Import Lia ZifyBool ZifyNat ZifyN.

Lemma reachable_inv o s : reachable o s -> tok_inv s /\ t_copy s = [].
Proof.
  induction 1 as [|s l H IH|s d H IH Hp|s d i H IH Hi|s ts H IH Hts|s ts i H IH Hi
                 |s nt s1 e nt1 H IH E|s t H IH|s s1 H IH E].
  - split; [|reflexivity]. repeat split; try (left; reflexivity); try constructor.
  - exact IH.
  - destruct IH as [[IH1 IH2] IH3]. split; [|exact IH3]. rewrite Hp in IH1.
    unfold tok_inv, addData. cbn. rewrite Hp. split; [|exact IH2].
    destruct IH1 as [C1 C2]. split; [|exact C2].
    unfold cur_ok in *. cbn. destruct (t_bufs s); cbn; [lia|exact C1].
  - destruct IH as [IH1 IH3]. unfold resetData, resetForNewToken, addData. cbn.
    split; [|exact IH3]. unfold tok_inv. cbn. split; [split|].
    + unfold cur_ok. cbn. lia.
    + unfold copies_ok. cbn. rewrite IH3. constructor.
    + intros _. left. reflexivity.
  - destruct IH as [[IH1 IH2] IH3]. split; [|exact IH3]. unfold tok_inv, addParsed. cbn.
    split; [split; [|exact IH3]|].
    + destruct ts; [congruence|cbn; lia].
    + unfold cont_ok in *. cbn. intros Hc. destruct (IH2 Hc) as [H1|(H1 & H2 & H3 & H4)]; auto.
  - destruct IH as [IH1 IH3]. split; [|exact IH3]. unfold tok_inv, resetParsed. cbn.
    split; [split; [exact Hi|exact IH3]|]. intros _. left. reflexivity.
  - destruct IH as [IH1 IH3].
    destruct (nextToken_ok o nt s IH1) as (s1' & e' & nt1' & E' & Hinv & _ & _ & Hc & _).
    rewrite E in E'. injection E' as <- <- <-. split; [exact Hinv|].
    rewrite IH3 in Hc. destruct (t_copy s1); [reflexivity|discriminate].
  - exact IH.
  - unfold popScope in E. destruct (t_scope s); [discriminate|]. injection E as <-. exact IH.
Qed.

(** ** C01 *)

Lemma nextToken_defined o s nt :
  reachable o s ->
  exists s1 e nt1, nextToken o nt s = Ok (s1, e, nt1) /\
    (t_parsed s1 = None ->
     match t_bufs s1 with [] => t_cur s1 = 0 | b :: _ => t_cur s1 <= length b end).
Proof.
  intros H. apply reachable_inv in H. destruct H as [H _].
  destruct (nextToken_ok o nt s H) as (s1 & e & nt1 & E & Hinv & _).
  do 3 eexists. split; [exact E|]. intros Hp.
  destruct Hinv as [Hinv _]. rewrite Hp in Hinv. apply Hinv.
Qed.

Lemma weight_bound s : weight s <= total_bytes s + parsed_count s + 1.
Proof.
  unfold weight, bytes_left, parsed_left, total_bytes, parsed_count.
  destruct (t_parsed s); destruct (t_cont s); try lia; destruct (t_tok s); lia.
Qed.

Lemma drain_terminates o s nt :
  reachable o s ->
  exists ts e s1,
    (forall f, total_bytes s + parsed_count s + 1 < f -> drain f o nt s = Ok (ts, e, s1)) /\
    e <> NoError /\ length ts <= total_bytes s + parsed_count s + 1.
Proof.
  intros H. apply reachable_inv in H. destruct H as [H _].
  destruct (drain_ok o (S (weight s)) nt s H (Nat.lt_succ_diag_r _)) as (ts & e & s1 & E & _ & He & Hl).
  pose proof (weight_bound s) as Hw.
  exists ts, e, s1. split; [|split; [exact He|lia]].
  intros f Hf. apply (drain_fuel o (S (weight s))); [exact E|lia].
Qed.

(** ** C02 *)

Lemma trace_inv o ts s : trace o ts s -> tok_inv s /\ t_copy s = [] /\ t_parsed s = None.
Proof.
  assert (Hnext : forall s nt s1 e nt1, tok_inv s /\ t_copy s = [] /\ t_parsed s = None ->
    nextToken o nt s = Ok (s1, e, nt1) -> tok_inv s1 /\ t_copy s1 = [] /\ t_parsed s1 = None).
  { intros s0 nt s1 e nt1 (H1 & H2 & H3) E.
    destruct (nextToken_ok o nt s0 H1) as (s1' & e' & nt1' & E' & Hinv & _ & _ & Hc & _).
    rewrite E in E'. injection E' as <- <- <-. split; [exact Hinv|].
    split; [rewrite H2 in Hc; destruct (t_copy s1); [reflexivity|discriminate]|].
    apply (nextToken_parsed_None o nt s0 s1 e nt1 H1 H3 E). }
  induction 1 as [|ts s l H IH|ts s d H IH|ts s nt s1 nt1 H IH E|ts s nt s1 e nt1 H IH E He
                 |ts s t H IH|ts s s1 H IH E].
  - repeat split; try (left; reflexivity); try constructor.
  - exact IH.
  - destruct IH as [[IH1 IH2] [IH3 Hp]]. split; [|auto]. rewrite Hp in IH1.
    unfold tok_inv, addData. cbn. rewrite Hp. split; [|exact IH2].
    destruct IH1 as [C1 C2]. split; [|exact C2].
    unfold cur_ok in *. cbn. destruct (t_bufs s); cbn; [lia|exact C1].
  - eapply Hnext; eauto.
  - eapply Hnext; eauto.
  - exact IH.
  - unfold popScope in E. destruct (t_scope s); [discriminate|]. injection E as <-. exact IH.
Qed.

Definition close_of (t : type) : type :=
  match t with TObjectStart => TObjectEnd | _ => TArrayEnd end.

(** The stack machine behind [balanced]. *)
Inductive runs : list type -> list type -> list type -> Prop :=
| Runs_nil st : runs st [] st
| Runs_cons st t st1 l st2 : stack_step t st st1 -> runs st1 l st2 -> runs st (t :: l) st2.

Lemma runs_snoc st l st1 t st2 : runs st l st1 -> stack_step t st1 st2 -> runs st (l ++ [t]) st2.
Proof.
  induction 1 as [st|st u st1 l st2' H1 H2 IH]; intros H.
  - cbn. econstructor; [exact H|constructor].
  - cbn. econstructor; [exact H1|auto].
Qed.

(** [l] closes the open brackets [st], innermost first. *)
Fixpoint closes (st : list type) (l : list type) : Prop :=
  match st with
  | [] => balanced l
  | o :: st' => exists l1 l2, l = l1 ++ close_of o :: l2 /\ balanced l1 /\ closes st' l2
  end.

Definition open_stack (st : list type) : Prop :=
  Forall (fun t => t = TObjectStart \/ t = TArrayStart) st.

Lemma closes_other t st l :
  t <> TObjectStart -> t <> TObjectEnd -> t <> TArrayStart -> t <> TArrayEnd ->
  closes st l -> closes st (t :: l).
Proof.
  intros H1 H2 H3 H4. destruct st as [|o st]; cbn [closes].
  - intros H. constructor; assumption.
  - intros (l1 & l2 & -> & Hb & Hc). exists (t :: l1), l2. repeat split; auto.
    constructor; assumption.
Qed.

Lemma closes_open t st l :
  t = TObjectStart \/ t = TArrayStart -> closes (t :: st) l -> closes st (t :: l).
Proof.
  intros Ht (l1 & l2 & -> & Hb & Hc).
  assert (Hbal : forall l3, balanced l3 -> balanced (t :: l1 ++ close_of t :: l3)).
  { intros l3 H3. destruct Ht as [-> | ->]; cbn [close_of]; constructor; assumption. }
  destruct st as [|o st]; cbn [closes] in *.
  - apply Hbal. exact Hc.
  - destruct Hc as (l3 & l4 & -> & Hb3 & Hc). exists (t :: l1 ++ close_of t :: l3), l4.
    split; [|split; [apply Hbal; exact Hb3|exact Hc]].
    cbn. rewrite <- app_assoc. reflexivity.
Qed.

Lemma runs_closes st l st' rest :
  runs st l st' -> closes st' rest -> closes st (l ++ rest).
Proof.
  induction 1 as [st|st t st1 l st2 H1 H2 IH]; intros Hc; [exact Hc|].
  specialize (IH Hc). cbn [app].
  destruct t; cbn [stack_step] in H1; subst;
    try (apply closes_other; [discriminate..|exact IH]);
    try (apply closes_open; [auto|exact IH]);
    try (exists [], (l ++ rest); repeat split; [constructor|exact IH]).
Qed.

Lemma closes_closers st : open_stack st -> closes st (map close_of st).
Proof.
  induction 1 as [|t st Ht _ IH]; cbn [closes map]; [constructor|].
  exists [], (map close_of st). repeat split; [constructor|exact IH].
Qed.

Lemma runs_open st l st' : runs st l st' -> open_stack st -> open_stack st'.
Proof.
  induction 1 as [st|st t st1 l st2 H1 H2 IH]; intros Ho; [exact Ho|]. apply IH.
  destruct t; cbn [stack_step] in H1; subst; auto;
    try (constructor; auto); try (inversion Ho; assumption).
Qed.

Lemma trace_runs o ts s : trace o ts s -> runs [] (map tk_value_type ts) (t_stack s).
Proof.
  induction 1 as [|ts s l H IH|ts s d H IH|ts s nt s1 nt1 H IH E|ts s nt s1 e nt1 H IH E He
                 |ts s t H IH|ts s s1 H IH E]; try exact IH.
  - constructor.
  - destruct (trace_inv o ts s H) as (H1 & H2 & H3).
    destruct (nextToken_ok o nt s H1) as (s1' & e' & nt1' & E' & _ & Hs & _).
    rewrite E in E'. injection E' as <- <- <-.
    rewrite map_app. cbn [map]. eapply runs_snoc; [exact IH|]. apply Hs; auto.
  - destruct (trace_inv o ts s H) as (H1 & H2 & H3).
    destruct (nextToken_ok o nt s H1) as (s1' & e' & nt1' & E' & _ & _ & Hs & _).
    rewrite E in E'. injection E' as <- <- <-. rewrite (Hs He). exact IH.
  - unfold popScope in E. destruct (t_scope s); [discriminate|]. injection E as <-. exact IH.
Qed.

Lemma trace_balanced o ts s :
  trace o ts s ->
  exists closing,
    Forall (fun t => t = TObjectEnd \/ t = TArrayEnd) closing /\
    balanced (map tk_value_type ts ++ closing).
Proof.
  intros H. apply trace_runs in H.
  exists (map close_of (t_stack s)). split.
  - apply Forall_forall. intros t Ht. apply in_map_iff in Ht. destruct Ht as (u & <- & _).
    destruct u; cbn; auto.
  - change (closes [] (map tk_value_type ts ++ map close_of (t_stack s))).
    eapply runs_closes; [exact H|]. apply closes_closers.
    apply (runs_open _ _ _ H). constructor.
Qed.

(** ** Which errors the scanning part can return *)

Definition scan_err (e : error) : bool :=
  match e with
  | NoError | NeedMoreData | EncounteredIllegalChar | ExpectedDelimiter | IllegalPropertyType
  | InvalidToken | ExpectedDataToken | IllegalPropertyName | IllegalDataValue => true
  | _ => false
  end.

Lemma fsnv_err o : forall f rest pos cur e c,
  fsnv_loop f o rest pos cur = FS_err e c -> scan_err e = true.
Proof.
  induction f as [|f IH]; intros rest pos cur e c; cbn [fsnv_loop]; [discriminate|].
  destruct rest as [|x tl]; [intros E; injection E as <- _; reflexivity|].
  destruct (o_comments o && Byte.eqb x c_slash && starts_slash tl).
  - destruct (skipComment _ _ _); [apply IH|intros E; injection E as <- _; reflexivity].
  - destruct (single_char_type x); [discriminate|].
    destruct (has x _); [discriminate|]. destruct (has x _); [discriminate|].
    destruct (lookup x =? 0)%N; [intros E; injection E as <- _; reflexivity|apply IH].
Qed.

Lemma fdelim_err o ct : forall f rest pos cur e c,
  fdelim_loop f o ct rest pos cur = FD_err e c -> scan_err e = true.
Proof.
  induction f as [|f IH]; intros rest pos cur e c; cbn [fdelim_loop]; [discriminate|].
  destruct rest as [|x tl]; [intros E; injection E as <- _; reflexivity|].
  assert (H : FD_err ExpectedDelimiter cur = FD_err e c -> scan_err e = true)
    by (intros E; injection E as <- _; reflexivity).
  destruct (o_comments o && Byte.eqb x c_slash && starts_slash tl).
  - destruct (skipComment _ _ _); [apply IH|intros E; injection E as <- _; reflexivity].
  - destruct (Byte.eqb x c_colon); [destruct (negb _); [exact H|discriminate]|].
    destruct (Byte.eqb x c_comma || _); [destruct (negb _); [exact H|discriminate]|].
    destruct (Byte.eqb x c_rbracket); [destruct (negb _); [exact H|discriminate]|].
    destruct (negb (has x _)); [exact H|apply IH].
Qed.

Lemma ftend_err o : forall f rest pos cur e c,
  ftend_loop f o rest pos cur = FE_err e c -> scan_err e = true.
Proof.
  induction f as [|f IH]; intros rest pos cur e c; cbn [ftend_loop]; [discriminate|].
  destruct rest as [|x tl]; [intros E; injection E as <- _; reflexivity|].
  destruct (o_comments o && Byte.eqb x c_slash && starts_slash tl).
  - destruct (skipComment _ _ _); [apply IH|intros E; injection E as <- _; reflexivity].
  - destruct (Byte.eqb x c_comma); [discriminate|].
    destruct (Byte.eqb x c_rbracket || _); [discriminate|].
    destruct (Byte.eqb x c_nl); [destruct (o_nl o); [discriminate|apply IH]|].
    destruct (has x _); [apply IH|intros E; injection E as <- _; reflexivity].
Qed.

Lemma populateFrom_err o buf ty s s1 e d t :
  populateFromDataRef o buf ty s = Ok (s1, e, d, t) -> scan_err e = true.
Proof.
  assert (Hfin : forall off size ty s, finish_value o buf off size ty s = Ok (s1, e, d, t) ->
                 scan_err e = true).
  { clear. intros off size ty s. unfold finish_value. destruct (t_prop s).
    - intros E. injection E as _ <- _ _. reflexivity.
    - cbv zeta. destruct ty; try (intros E; injection E as _ <- _ _; reflexivity).
      + destruct (findStringEnd _ _ _) as [[k|] e'].
        * destruct (_ <? _); [discriminate|]. intros E. injection E as _ <- _ _. reflexivity.
        * intros E. injection E as _ <- _ _. reflexivity.
      + destruct (findAsciiEnd _ _).
        * destruct (_ <? _); [discriminate|]. intros E. injection E as _ <- _ _. reflexivity.
        * intros E. injection E as _ <- _ _. reflexivity.
      + destruct (findNumberEnd _ _).
        * destruct (_ <? _); [discriminate|]. intros E. injection E as _ <- _ _. reflexivity.
        * intros E. injection E as _ <- _ _. reflexivity.
    - intros E. injection E as _ <- _ _. reflexivity. }
  unfold populateFromDataRef. destruct (t_prop s); try apply Hfin.
  destruct (findStartOfNextValue o buf (t_cur s)) as [e' c|t' a c|] eqn:Hf; [| |discriminate].
  - intros E. injection E as _ <- _ _. rewrite findStart_eq in Hf. eapply fsnv_err. exact Hf.
  - cbv zeta. destruct (is_bracket t'); apply Hfin.
Qed.

Lemma populateNext_err o buf : forall f tmp nt s s1 e nt1,
  populateNext f o buf tmp nt s = Ok (s1, e, nt1) -> scan_err e = true.
Proof.
  induction f as [|f IH]; intros tmp nt s s1 e nt1; cbn [populateNext]; [discriminate|].
  destruct (t_cur s <? length buf); [|intros E; injection E as _ <- _; reflexivity].
  destruct (t_tok s).
  - destruct (populateFromDataRef o buf (im_name_type (t_im s)) s) as [[[[s2 e2] [off size]] ty]| |] eqn:Ep;
      cbn [obind]; try discriminate.
    apply populateFrom_err in Ep.
    destruct e2; try (intros E; injection E as _ <- _; exact Ep); try discriminate.
    + destruct (slice buf off size) as [raw| |]; cbn [obind]; try discriminate.
      match goal with |- context [if im_active (t_im s2) then ?a else ?b] =>
        destruct (if im_active (t_im s2) then a else b) as [[s3 d] ty2] end.
      destruct ty2; try apply IH; try (intros E; injection E as _ <- _; reflexivity);
      (destruct (t_expect s3 && negb (o_comma o)); intros E; injection E as _ <- _; reflexivity).
    + destruct (prop_gt_nostart (t_prop s2)); [|intros E; injection E as _ <- _; reflexivity].
      destruct (slice buf off (length buf - t_ds s2)) as [raw| |]; cbn [obind]; try discriminate.
      intros E; injection E as _ <- _; reflexivity.
  - destruct (findDelimiter o (t_stack s) buf (t_cur s)) as [e' c|n a c|] eqn:Hf; [| |discriminate].
    + intros E. injection E as _ <- _. rewrite findDelimiter_eq in Hf.
      destruct (t_stack s); [injection Hf as <- _; reflexivity|]. eapply fdelim_err. exact Hf.
    + cbv zeta. destruct n; try (intros E; injection E as _ <- _; reflexivity);
      (destruct (negb (type_eqb (tk_name_type tmp) TString) && _);
       [intros E; injection E as _ <- _; reflexivity|apply IH]).
  - destruct (populateFromDataRef o buf (im_data_type (t_im s)) s) as [[[[s2 e2] [off size]] ty]| |] eqn:Ep;
      cbn [obind]; try discriminate.
    apply populateFrom_err in Ep.
    destruct e2; try (intros E; injection E as _ <- _; exact Ep); try discriminate.
    + destruct (slice buf off size) as [raw| |]; cbn [obind]; try discriminate.
      match goal with |- context [if im_active (t_im s2) then ?a else ?b] =>
        destruct (if im_active (t_im s2) then a else b) as [[[[s3 nm] nty] d] ty2] end.
      destruct (type_eqb (getType ty2 (dr_bytes d)) TAscii && negb (o_ascii o));
        intros E; injection E as _ <- _; reflexivity.
    + destruct (prop_gt_nostart (t_prop s2)); [|intros E; injection E as _ <- _; reflexivity].
      destruct (slice buf off (length buf - t_ds s2)) as [raw| |]; cbn [obind]; try discriminate.
      intros E; injection E as _ <- _; reflexivity.
  - destruct (findTokenEnd o (t_stack s) buf (t_cur s)) as [e' c|a c comma|] eqn:Hf; [| |discriminate].
    + intros E. injection E as _ <- _. rewrite findTokenEnd_eq in Hf.
      destruct (t_stack s); [discriminate|]. eapply ftend_err. exact Hf.
    + apply IH.
Qed.

Lemma buffer_loop_err o : forall f nt s s1 e nt1,
  buffer_loop f o nt s = Ok (s1, e, nt1) -> scan_err e = true.
Proof.
  induction f as [|f IH]; intros nt s s1 e nt1; cbn [buffer_loop];
    (destruct (t_bufs s) as [|b bs]; [intros E; injection E as _ <- _; reflexivity|]); [discriminate|].
  destruct (populateNext loop_fuel o b tok_default nt s) as [[[s2 e2] nt2]| |] eqn:Ep;
    cbn [obind]; try discriminate.
  apply populateNext_err in Ep.
  destruct e2; try (intros E; injection E as _ <- _; exact Ep); try discriminate.
  destruct (releaseFirstDataRef s2) as [s3| |]; cbn [obind]; try discriminate. apply IH.
Qed.

(** ** A wrong closer is reported *)

Lemma nextToken_unexpected o nt s s1 e nt1 t :
  t_parsed s = None -> nextToken o nt s = Ok (s1, e, nt1) ->
  (e = UnexpectedArrayEnd /\ t = TArrayEnd \/ e = UnexpectedObjectEnd /\ t = TObjectEnd) ->
  tok_inv s -> tk_value_type nt1 = t /\ forall st', ~ stack_step t (t_stack s) st'.
Proof.
  intros Hp E He Hinv. revert E. unfold nextToken.
  destruct (match t_scope s with (_, d) :: _ => (d =? 0)%N | [] => false end).
  { intros E. injection E as _ <- _. destruct He as [[He _]|[He _]]; discriminate. }
  rewrite Hp. cbv zeta. set (s0 := match t_bufs s with [] => requestMoreData s | _ :: _ => s end).
  destruct Hinv as [Hinv Hcont]. rewrite Hp in Hinv. destruct Hinv as [Hcur Hcopy].
  assert (Z : t_stack s0 = t_stack s /\ t_parsed s0 = None /\ cur_ok s0 /\ copies_ok s0 /\ cont_ok s0).
  { unfold s0, cur_ok, copies_ok, cont_ok in *. destruct (t_bufs s) as [|b bs] eqn:Hb.
    - unfold requestMoreData. destruct (t_supply s) as [|l ls]; cbn; rewrite Hb; repeat split; auto.
      cbn. destruct l; cbn; lia.
    - repeat split; auto. rewrite Hb. exact Hcur. }
  destruct Z as (Z0 & Z1 & Z3 & Z4 & Z5).
  destruct (t_bufs s0) as [|b0 bs0].
  { intros E. injection E as _ <- _. destruct He as [[He _]|[He _]]; discriminate. }
  set (s2 := if t_cont s0 then s0 else resetForNewToken s0).
  assert (W : t_stack s2 = t_stack s /\ t_parsed s2 = None /\ cur_ok s2 /\ copies_ok s2 /\ entry_ok s2).
  { unfold s2. destruct (t_cont s0) eqn:Hc0.
    - repeat split; auto. destruct (Z5 Hc0) as [H|(H1 & H2 & H3 & H4)]; [left; auto|right; auto].
    - repeat split; auto. left. reflexivity. }
  destruct W as (W0 & W1 & W2 & W3 & W4).
  destruct (buffer_loop_ok o (S (buffers_left s2)) nt s2 W1 W4 W2 W3 (Nat.lt_succ_diag_r _))
    as (s3 & e3 & nt3 & E & Y1 & Y2 & Y3 & _).
  pose proof (buffer_loop_err _ _ _ _ _ _ _ E) as Herr.
  rewrite E. cbn [obind].
  assert (Hst : t_stack (set_cont (is_need_more e3) s3) = t_stack s) by (cbn; congruence).
  destruct e3; try discriminate Herr;
    try (intros E2; injection E2 as _ <- _; destruct He as [[He _]|[He _]]; discriminate).
  destruct (tk_value_type nt3) eqn:Hvt;
    try (intros E2; injection E2 as _ <- _; destruct He as [[He _]|[He _]]; discriminate);
  rewrite Hst;
  (destruct (t_stack s) as [|u st];
   [|destruct u;
     try (intros E2; injection E2 as _ <- _; destruct He as [[He _]|[He _]]; discriminate)]);
  (intros E2; injection E2 as _ <- <-;
   destruct He as [[He ->]|[He ->]]; try discriminate He; rewrite Hvt;
   split; [reflexivity|intros st'; cbn [stack_step]; discriminate]).
Qed.

Lemma runs_app st l1 l2 st2 :
  runs st (l1 ++ l2) st2 -> exists st1, runs st l1 st1 /\ runs st1 l2 st2.
Proof.
  revert st. induction l1 as [|t l1 IH]; intros st H; cbn [app] in H.
  - exists st. split; [constructor|exact H].
  - inversion H as [|? ? st1 ? ? Hs Hr]. subst. destruct (IH _ Hr) as (st3 & H1 & H2).
    exists st3. split; [econstructor; eauto|exact H2].
Qed.

Lemma runs_concat st l1 st1 l2 st2 : runs st l1 st1 -> runs st1 l2 st2 -> runs st (l1 ++ l2) st2.
Proof.
  induction 1 as [st|st t stx l sty H1 H2 IH]; intros H; [exact H|]. cbn. econstructor; eauto.
Qed.

Lemma balanced_runs l : balanced l -> forall st, runs st l st.
Proof.
  induction 1 as [|t l H1 H2 H3 H4 H5 IH|l1 l2 H1 IH1 H2 IH2|l1 l2 H1 IH1 H2 IH2]; intros st.
  - constructor.
  - econstructor; [|apply IH]. destruct t; try congruence; reflexivity.
  - econstructor; [reflexivity|]. eapply runs_concat; [apply IH1|].
    econstructor; [reflexivity|apply IH2].
  - econstructor; [reflexivity|]. eapply runs_concat; [apply IH1|].
    econstructor; [reflexivity|apply IH2].
Qed.

Lemma stack_step_det t st st1 st2 : stack_step t st st1 -> stack_step t st st2 -> st1 = st2.
Proof. destruct t; cbn [stack_step]; congruence. Qed.

Lemma runs_det st l st1 : runs st l st1 -> forall st2, runs st l st2 -> st1 = st2.
Proof.
  induction 1 as [st|st t stx l sty H1 H2 IH]; intros st2 H; inversion H; subst; [reflexivity|].
  apply IH. replace stx with st1; [assumption|]. eapply stack_step_det; eauto.
Qed.

Lemma wrong_closer o ts s nt s1 e nt1 t :
  trace o ts s -> nextToken o nt s = Ok (s1, e, nt1) ->
  (e = UnexpectedArrayEnd /\ t = TArrayEnd \/ e = UnexpectedObjectEnd /\ t = TObjectEnd) ->
  tk_value_type nt1 = t /\
  forall rest, ~ balanced (map tk_value_type ts ++ t :: rest).
Proof.
  intros H E He. destruct (trace_inv o ts s H) as (H1 & H2 & H3).
  destruct (nextToken_unexpected o nt s s1 e nt1 t H3 E He H1) as [Ht Hno].
  split; [exact Ht|]. intros rest Hb.
  apply balanced_runs with (st := []) in Hb. apply runs_app in Hb.
  destruct Hb as (st & Hr1 & Hr2). rewrite (runs_det _ _ _ Hr1 _ (trace_runs o ts s H)) in Hr2.
  inversion Hr2 as [|? ? st' ? ? Hs Hr]. subst. eapply Hno. exact Hs.
Qed.

(** Reading [n] tokens that all return NoError (used to build concrete traces). *)
Fixpoint next_n (n : nat) (o : opts) (nt : token) (s : tstate) : outcome (list token * tstate) :=
  match n with
  | O => Ok ([], s)
  | S k =>
    let* (s1, e, nt1) := nextToken o nt s in
    match e with
    | NoError => let* (ts, s2) := next_n k o nt1 s1 in Ok (nt1 :: ts, s2)
    | _ => UB
    end
  end.

Lemma trace_next_n o : forall n nt ts s ts' s',
  trace o ts s -> next_n n o nt s = Ok (ts', s') -> trace o (ts ++ ts') s'.
Proof.
  induction n as [|n IH]; intros nt ts s ts' s' H; cbn [next_n].
  - intros E. injection E as <- <-. rewrite app_nil_r. exact H.
  - destruct (nextToken o nt s) as [[[s1 e] nt1]| |] eqn:En; cbn [obind]; try discriminate.
    destruct e; try discriminate.
    destruct (next_n n o nt1 s1) as [[ts2 s2]| |] eqn:E2; cbn [obind]; try discriminate.
    intros E. injection E as <- <-.
    change (nt1 :: ts2) with ([nt1] ++ ts2). rewrite app_assoc.
    eapply IH; [|exact E2]. eapply Tr_next_ok; eassumption.
Qed.
