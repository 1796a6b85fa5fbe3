(** Reading a text in several buffers, with harmless cuts only, gives the tokens of the text. *)
From Verif Require Import Base ScanModel ScanProofs TokModel TokLoops TokProofs TokSafe TokSpec TokIsa JsonSpec
  ChunkSpec TokStream TokStreamProofs TokStreamNext TokPlace.
From Coq Require Import Lia ZifyBool ZifyNat ZifyN.

Lemma run_err o stk : forall l ex ph e,
  run o stk ex ph l = RErr e -> e <> NoError /\ e <> NeedMoreData.
Proof.
  assert (HN : forall ex c e, name_step o ex c = Fail e -> e <> NoError /\ e <> NeedMoreData).
  { intros ex c e. unfold name_step. destruct (start_class c) as [[]|]; try discriminate;
      try (destruct (ex && negb (o_comma o)); [|discriminate]; intros X; injection X as <-; split; discriminate).
    destruct (lookup c =? 0)%N; [|discriminate]. intros X. injection X as <-. split; discriminate. }
  assert (HD : forall ex nm nty c e, delim_step o stk ex nm nty c = Fail e -> e <> NoError /\ e <> NeedMoreData).
  { intros ex nm nty c e. unfold delim_step. destruct stk as [|ct st].
    { intros X. injection X as <-. split; discriminate. }
    repeat match goal with
    | |- (if ?b then _ else _) = _ -> _ => destruct b
    end; intros X; try discriminate X; injection X as <-; split; discriminate. }
  assert (HV : forall ex nm nty ty acc k e, value_done o ex nm nty ty acc k = Fail e -> e <> NoError /\ e <> NeedMoreData).
  { intros ex nm nty ty acc k e. unfold value_done. destruct (_ && _); intros X; [|discriminate X].
    injection X as <-. split; discriminate. }
  assert (HS : forall ex ph c e, step o stk ex ph c = Fail e -> e <> NoError /\ e <> NeedMoreData).
  { intros ex ph c e. destruct ph as [|ty esc acc|nm nty|nm nty|nm nty ty esc acc|].
    - apply HN.
    - destruct ty; cbn [step];
        try (match goal with |- context [word_cont ?t c] => destruct (word_cont t c) end; [discriminate|apply HD]).
      destruct esc; [discriminate|]. destruct (Byte.eqb c c_backslash); [discriminate|].
      destruct (Byte.eqb c c_quote); discriminate.
    - apply HD.
    - cbn [step]. unfold data_step. destruct (start_class c) as [[]|]; try discriminate.
      destruct (lookup c =? 0)%N; [|discriminate]. intros X. injection X as <-. split; discriminate.
    - destruct ty; cbn [step];
        try (match goal with |- context [word_cont ?t c] => destruct (word_cont t c) end; [discriminate|apply HV]).
      destruct esc; [discriminate|]. destruct (Byte.eqb c c_backslash); [discriminate|].
      destruct (Byte.eqb c c_quote); [apply HV|discriminate].
    - cbn [step]. unfold end_step. destruct stk; [apply HN|]. destruct (Byte.eqb c c_comma); [discriminate|].
      destruct (Byte.eqb c c_rbracket || Byte.eqb c c_rbrace); [apply HN|].
      destruct (Byte.eqb c c_nl || has c L_WhiteSpaceOrNull); [discriminate|].
      intros X. injection X as <-. split; discriminate. }
  induction l as [|c l IH]; intros ex ph e; cbn [run]; [discriminate|].
  destruct (step o stk ex ph c) as [ph' ex'|e'|tk ph' ex' keep] eqn:E; try discriminate.
  - apply IH.
  - intros X. injection X as <-. eapply HS. exact E.
Qed.

(** ** The bytes not yet read, buffer by buffer *)

Definition pieces (s : tstate) : list bytes :=
  match t_bufs s with
  | [] => concat (t_supply s)
  | b :: bs => skipn (t_cur s) b :: bs ++ concat (t_supply s)
  end.

(** What holds of the tokenizer's other fields throughout. *)
Definition plain (s : tstate) : Prop :=
  t_copy s = [] /\ t_parsed s = None /\ t_scope s = [] /\
  Forall (fun l => l <> []) (t_supply s) /\ cur_ok s /\
  Forall no_nul (t_bufs s ++ concat (t_supply s)).

Lemma no_nul_skipn n l : no_nul l -> no_nul (skipn n l).
Proof.
  unfold no_nul. intros H. rewrite <- (firstn_skipn n l) in H. apply Forall_app in H. apply H.
Qed.

Lemma no_nul_concat l : Forall no_nul l -> no_nul (concat l).
Proof. induction 1 as [|x l H _ IH]; [constructor|]. cbn. apply Forall_app. split; assumption. Qed.

Lemma pieces_no_nul s : plain s -> Forall no_nul (pieces s).
Proof.
  intros (_ & _ & _ & _ & _ & H). unfold pieces. destruct (t_bufs s) as [|b bs]; [exact H|].
  inversion H. subst. constructor; [apply no_nul_skipn; assumption|assumption].
Qed.

Lemma supply_nil (l : list (list bytes)) : Forall (fun x => x <> []) l -> concat l = [] -> l = [].
Proof. destruct l as [|x l]; [reflexivity|]. intros H E. inversion H. subst. destruct x; [congruence|discriminate]. Qed.

Lemma harmless_split a l0 r rest : harmless_cuts a ((l0 ++ r) :: rest) -> harmless_cuts (feed a l0) (r :: rest).
Proof. cbn [harmless_cuts]. destruct rest as [|p rest]; [trivial|]. rewrite feed_app. trivial. Qed.

(** The state after a token. *)
Definition token_read (s s1 : tstate) (a : place) (ph : phase) (ex : bool) (r : bytes) : Prop :=
  plain s1 /\ t_stack s1 = t_stack s /\ t_expect s1 = ex /\ t_esc s1 = false /\
  (im_active (t_im s1) = true \/ t_im s1 = im_init) /\
  ((ph = PName /\ t_tok s1 = FindingName) \/ (ph = PEnd /\ t_tok s1 = FindingTokenEnd)) /\
  concat (pieces s1) = r /\
  exists l0, concat (pieces s) = l0 ++ r /\ harmless_cuts (feed a l0) (pieces s1).

Definition token_phase (ph : phase) : Prop := ph = PName \/ ph = PEnd.

Lemma requestMore_nil s : t_supply s = [] -> requestMoreData s = s.
Proof. unfold requestMoreData. intros ->. reflexivity. Qed.

Lemma app_last_cases (l : bytes) : l = [] \/ exists l0 c, l = l0 ++ [c].
Proof. destruct l as [|x l] using rev_ind; [left; reflexivity|right; eauto]. Qed.

Lemma buffer_loop_run o : o_isa o = Scalar -> o_comments o = false -> o_nl o = false ->
  forall f nt s ph a,
  plain s -> (t_bufs s = [] -> t_supply s = []) ->
  at_phase (t_stack s) ph (t_expect s) s -> (t_cur s = 0 \/ token_phase ph) ->
  tracks a (t_stack s) ph -> harmless_cuts a (pieces s) -> buffers_left s < f ->
  match run o (t_stack s) (t_expect s) ph (concat (pieces s)) with
  | RNeed _ _ => exists s1 nt1, buffer_loop f o nt s = Ok (s1, NeedMoreData, nt1)
  | RErr e => exists s1 nt1, buffer_loop f o nt s = Ok (s1, e, nt1)
  | ROut tk ph' ex' r => exists s1 nt1, buffer_loop f o nt s = Ok (s1, NoError, nt1) /\
      tok_view nt1 = tk /\ token_read s s1 a ph' ex' r
  end.
Proof.
  intros Hisa Hcom Hnl. induction f as [|f IH]; intros nt s ph a Hpl Hne Hat Hc0 Htr Hh Hf; [exfalso; clear - Hf; lia|].
  destruct (t_bufs s) as [|b bs] eqn:Eb.
  { unfold pieces. rewrite Eb, (Hne eq_refl). cbn [concat run]. cbn [buffer_loop]. rewrite Eb. eauto. }
  assert (Hpl' := Hpl). destruct Hpl' as (Pcopy & Ppars & Pscope & Psup & Pcur & Pnul).
  unfold cur_ok in Pcur. rewrite Eb in Pcur, Pnul.
  assert (Hbn : no_nul b) by (cbn in Pnul; inversion Pnul; assumption).
  assert (Epc : pieces s = skipn (t_cur s) b :: bs ++ concat (t_supply s)) by (unfold pieces; rewrite Eb; reflexivity).
  rewrite Epc in *. cbn [concat]. rewrite run_app.
  assert (NP := next_phase o b tok_default nt s ph Hisa Hcom Hnl Hbn Hat Pcur eq_refl).
  assert (RT := run_tracks o (t_stack s) (skipn (t_cur s) b) (t_expect s) ph a Htr (no_nul_skipn _ _ Hbn)).
  cbn [buffer_loop]. rewrite Eb.
  destruct (run o (t_stack s) (t_expect s) ph (skipn (t_cur s) b)) as [ph1 ex1|e|tk ph1 ex1 r1] eqn:ER; cbn [matches] in NP.
  - destruct NP as (s1 & -> & F & Hsafe). cbn [obind].
    destruct F as (F1 & F2 & F3 & F4 & F5 & F6 & F7).
    unfold releaseFirstDataRef. rewrite F1, Eb, F5, Pcopy. cbn [flush_copies obind].
    set (s2 := set_bufs bs (set_ds 0 (set_cur 0 (set_copy [] s1)))).
    destruct (bs ++ concat (t_supply s)) as [|p ps] eqn:Erest.
    { apply app_eq_nil in Erest. destruct Erest as [-> Ecs]. cbn [concat run].
      rewrite requestMore_nil by (unfold s2; cbn; rewrite F2; apply supply_nil; assumption).
      unfold s2. destruct f; cbn; eauto. }
    destruct Hh as [Hh1 Hh2].
    assert (Hsf : safe_end (t_stack s) b ph1).
    { destruct (app_last_cases (skipn (t_cur s) b)) as [E0|(l0 & c & E0)].
      - destruct (Nat.eq_dec (length b) 0) as [El|El].
        + apply length_zero_iff_nil in El. eapply harmless_safe; eauto.
        + rewrite E0 in ER. cbn [run] in ER. injection ER as <- <-.
          destruct Hc0 as [Hc0|[-> | ->]]; try exact I.
          exfalso. rewrite Hc0 in E0. cbn in E0. subst b. apply El. reflexivity.
      - eapply harmless_safe; eauto. right. exists l0, c. split; [exact E0|].
        exists (firstn (t_cur s) b ++ l0). rewrite <- app_assoc, <- E0. symmetry. apply firstn_skipn. }
    specialize (Hsafe Hsf).
    set (s3 := requestMoreData s2).
    destruct (requestMore_all s2) as (A1 & A2 & A3 & A4 & A5 & A6 & A7 & A8 & A9). fold s3 in A1, A2, A3, A4, A5, A6, A7, A8, A9.
    assert (A10 : t_im s3 = t_im s1 /\ t_expect s3 = t_expect s1 /\ t_stack s3 = t_stack s1 /\ t_scope s3 = t_scope s1 /\
                  Forall (fun l => l <> []) (t_supply s3) /\ (t_bufs s3 = [] -> t_supply s3 = [])).
    { assert (Es2 : t_supply s2 = t_supply s) by exact F2.
      unfold s3, requestMoreData. rewrite Es2.
      destruct (t_supply s) as [|l ls] eqn:Es; [rewrite Es2|]; repeat split; auto; cbn.
      - inversion Psup; assumption.
      - intros X. exfalso. apply app_eq_nil in X. destruct X as [_ X]. inversion Psup. congruence. }
    destruct A10 as (A10 & A11 & A12 & A13 & A14 & A15).
    assert (Eall : t_bufs s3 ++ concat (t_supply s3) = p :: ps).
    { rewrite A1. unfold s2. cbn. rewrite F2. exact Erest. }
    assert (Hcur3 : t_cur s3 = 0) by (rewrite A4; reflexivity).
    assert (Ep3 : pieces s3 = p :: ps).
    { unfold pieces. rewrite Hcur3. destruct (t_bufs s3) as [|b3 bs3]; [exact Eall|]. exact Eall. }
    assert (Hpl3 : plain s3).
    { unfold plain. rewrite A8, A3, A13, Eall. unfold s2. cbn. rewrite F6, F3. repeat split; auto.
      - unfold cur_ok. rewrite Hcur3. destruct (t_bufs s3); [reflexivity|apply Nat.le_0_l].
      - cbn in Pnul. rewrite Erest in Pnul. inversion Pnul. assumption. }
    assert (Hst : t_stack s3 = t_stack s) by congruence.
    assert (Hat3 : at_phase (t_stack s) ph1 ex1 s3).
    { assert (X : t_expect s3 = t_expect s1 /\ t_tok s3 = t_tok s1 /\ t_prop s3 = t_prop s1 /\ t_esc s3 = t_esc s1 /\ t_im s3 = t_im s1 /\
                  t_cur s3 = 0 /\ t_ds s3 = 0) by (repeat split; auto).
      clear - Hsafe X. destruct X as (X1 & X2 & X3 & X4 & X5 & X6 & X7).
      unfold at_phase, entry_at in *. destruct ph1; cbn in Hsafe; rewrite ?X1, ?X2, ?X3, ?X4, ?X5, ?X6, ?X7; exact Hsafe. }
    assert (Hex : t_expect s3 = ex1) by (destruct Hat3; assumption).
    specialize (IH nt s3 ph1 (feed a (skipn (t_cur s) b)) Hpl3 A15).
    rewrite Hst, Hex, Ep3 in IH.
    specialize (IH Hat3 (or_introl Hcur3) RT Hh2).
    assert (Hl : buffers_left s3 < f).
    { unfold buffers_left in *. rewrite <- app_length, Eall. rewrite Eb in Hf. cbn in Hf. rewrite <- app_length, Erest in Hf.
      clear - Hf. lia. }
    specialize (IH Hl).
    destruct (run o (t_stack s) ex1 ph1 (concat (p :: ps))) as [ph2 ex2|e|tk ph2 ex2 r2]; auto.
    destruct IH as (s4 & nt4 & E4 & V4 & T). exists s4, nt4. split; [exact E4|]. split; [exact V4|].
    destruct T as (T1 & T2 & T3 & T4 & T5 & T6 & T7 & l0 & T8 & T9).
    unfold token_read. repeat (split; [first [assumption|congruence]|]).
    exists (skipn (t_cur s) b ++ l0). rewrite feed_app. split; [|exact T9].
    rewrite Epc. change (concat (skipn (t_cur s) b :: p :: ps)) with (skipn (t_cur s) b ++ concat (p :: ps)).
    rewrite <- Ep3, T8. apply app_assoc.
  - destruct NP as (s1 & nt1 & ->). cbn [obind].
    destruct (run_err _ _ _ _ _ _ ER) as [_ Hn]. exists s1, nt1. destruct e; try reflexivity. congruence.
  - destruct NP as (s1 & nt1 & -> & F & V & Hr & Hcl & Hex & Hesc & Him & Hph). cbn [obind].
    exists s1, nt1. split; [reflexivity|]. split; [exact V|].
    destruct F as (F1 & F2 & F3 & F4 & F5 & F6 & F7).
    destruct RT as (l0 & El0 & _).
    assert (Ep1 : pieces s1 = r1 :: bs ++ concat (t_supply s)).
    { unfold pieces. rewrite F1, Eb, F2, Hr. reflexivity. }
    unfold token_read. split.
    { unfold plain, cur_ok. rewrite F5, F6, F3, F2, F1, Eb. repeat split; auto. }
    split; [exact F4|]. split; [exact Hex|]. split; [exact Hesc|]. split; [exact Him|]. split; [exact Hph|].
    split; [rewrite Ep1; reflexivity|].
    exists l0. rewrite Epc, Ep1. split.
    + cbn [concat]. rewrite El0, <- app_assoc. reflexivity.
    + apply harmless_split. rewrite <- El0. exact Hh.
Qed.

(** ** nextToken and the reading of all tokens *)

(** The state before a token. *)
Definition ready (s : tstate) (ph : phase) : Prop :=
  t_cont s = false /\ t_esc s = false /\ (im_active (t_im s) = true \/ t_im s = im_init) /\
  ((ph = PName /\ t_tok s = FindingName) \/ (ph = PEnd /\ t_tok s = FindingTokenEnd)).

Lemma im_clear_init im : im_active im = true \/ im = im_init -> im_clear im = im_init.
Proof. unfold im_clear. intros [-> | ->]; reflexivity. Qed.

Lemma nextToken_run o : o_isa o = Scalar -> o_comments o = false -> o_nl o = false ->
  forall nt s ph a,
  plain s -> ready s ph -> (t_bufs s = [] -> t_cur s = 0) ->
  tracks a (t_stack s) ph -> harmless_cuts a (pieces s) ->
  match run o (t_stack s) (t_expect s) ph (concat (pieces s)) with
  | RNeed _ _ => exists s1 nt1, nextToken o nt s = Ok (s1, NeedMoreData, nt1)
  | RErr e => exists s1 nt1, nextToken o nt s = Ok (s1, e, nt1)
  | ROut tk ph' ex' r =>
    match next_stack (st_value_type tk) (t_stack s) with
    | inr e => exists s1 nt1, nextToken o nt s = Ok (s1, e, nt1)
    | inl stk' => exists s1 nt1, nextToken o nt s = Ok (s1, NoError, nt1) /\ tok_view nt1 = tk /\
        plain s1 /\ ready s1 ph' /\ (t_bufs s1 = [] -> t_cur s1 = 0) /\
        t_stack s1 = stk' /\ t_expect s1 = ex' /\ concat (pieces s1) = r /\
        exists a', tracks a' stk' ph' /\ harmless_cuts a' (pieces s1)
    end
  end.
Proof.
  intros Hisa Hcom Hnl nt s ph a Hpl Hrd Hc0 Htr Hh.
  unfold nextToken. assert (Hpl' := Hpl). destruct Hpl' as (Pcopy & Ppars & Pscope & Psup & Pcur & Pnul).
  rewrite Pscope, Ppars. cbv zeta.
  set (s0 := match t_bufs s with [] => requestMoreData s | _ => s end).
  assert (HX : plain s0 /\ ready s0 ph /\ (t_bufs s0 = [] -> t_supply s0 = []) /\ t_stack s0 = t_stack s /\
              t_expect s0 = t_expect s /\ pieces s0 = pieces s).
  { unfold s0. destruct (t_bufs s) as [|b bs] eqn:Eb;
      [|split; [exact Hpl|]; split; [exact Hrd|]; split; [rewrite Eb; discriminate|auto]].
    specialize (Hc0 eq_refl). unfold requestMoreData. destruct (t_supply s) as [|l ls] eqn:Es.
    { split; [exact Hpl|]. split; [exact Hrd|]. auto. }
    cbn. inversion Psup as [|? ? Hl Hls]. subst. rewrite Eb. cbn [app].
    unfold plain, ready, pieces, cur_ok in *. cbn. rewrite Eb, Hc0, Es in *. cbn in Pnul.
    repeat split; auto.
    - destruct l; [reflexivity|apply Nat.le_0_l].
    - tauto.
    - destruct Hrd as (_ & X & _). exact X.
    - destruct Hrd as (_ & _ & X & _). exact X.
    - destruct Hrd as (_ & _ & _ & X). exact X.
    - intros ->. congruence.
    - destruct l; [congruence|]. reflexivity. }
  destruct HX as (Q1 & Q2 & Q3 & Q4 & Q5 & Q6). clearbody s0.
  rewrite <- Q4, <- Q5, <- Q6 in *. clear Q4 Q5 Q6.
  assert (Pscope0 : t_scope s0 = []) by apply Q1.
  destruct (t_bufs s0) as [|b bs] eqn:Eb.
  { unfold pieces. rewrite Eb, (Q3 eq_refl). cbn [concat run]. eauto. }
  destruct Q2 as (R1 & R2 & R3 & R4). rewrite R1.
  set (s1 := resetForNewToken s0).
  assert (Hat : at_phase (t_stack s1) ph (t_expect s1) s1).
  { split; [reflexivity|]. unfold s1, resetForNewToken, resetForNewValue.
    destruct R4 as [[-> R4]|[-> R4]]; cbn; rewrite im_clear_init by exact R3; auto. }
  assert (Hpl1 : plain s1) by exact Q1.
  assert (Hb1 : t_bufs s1 = [] -> t_supply s1 = []) by (cbn; rewrite Eb; discriminate).
  assert (Hph : token_phase ph) by (unfold token_phase; tauto).
  assert (BL := buffer_loop_run o Hisa Hcom Hnl (S (buffers_left s1)) nt s1 ph a Hpl1 Hb1 Hat (or_intror Hph) Htr Hh (Nat.lt_succ_diag_r _)).
  change (t_stack s1) with (t_stack s0) in BL. change (t_expect s1) with (t_expect s0) in BL.
  change (pieces s1) with (pieces s0) in BL.
  assert (RT := run_tracks o (t_stack s0) (concat (pieces s0)) (t_expect s0) ph a Htr (no_nul_concat _ (pieces_no_nul s0 Q1))).
  destruct (run o (t_stack s0) (t_expect s0) ph (concat (pieces s0))) as [ph2 ex2|e|tk ph2 ex2 r2] eqn:ER.
  - destruct BL as (s2 & nt2 & ->). cbn [obind]. eauto.
  - destruct BL as (s2 & nt2 & ->). cbn [obind]. destruct (run_err _ _ _ _ _ _ ER) as [Hn _].
    destruct e; try congruence; eauto.
  - destruct BL as (s2 & nt2 & -> & V & T). cbn [obind].
    destruct T as (T1 & T2 & T3 & T4 & T5 & T6 & T7 & l0 & T8 & T9).
    destruct RT as (l1 & L1 & L2).
    change (pieces s1) with (pieces s0) in T8. change (t_stack s1) with (t_stack s0) in T2.
    assert (l1 = l0) by (rewrite L1 in T8; apply app_inv_tail in T8; exact T8). subst l1.
    assert (Evt : tk_value_type nt2 = st_value_type tk) by (rewrite <- V; reflexivity).
    rewrite Evt. cbn [is_need_more].
    assert (Hb2 : t_bufs s2 = [] -> t_cur s2 = 0).
    { destruct T1 as (_ & _ & _ & _ & C & _). unfold cur_ok in C. intros X. rewrite X in C. exact C. }
    assert (G : forall stk', next_stack (st_value_type tk) (t_stack s0) = inl stk' ->
      exists s4 nt4, Ok (scope_handle (st_value_type tk) (set_stack stk' (set_cont false s2)), NoError, nt2) = Ok (s4, NoError, nt4) /\
        tok_view nt4 = tk /\ plain s4 /\ ready s4 ph2 /\ (t_bufs s4 = [] -> t_cur s4 = 0) /\
        t_stack s4 = stk' /\ t_expect s4 = ex2 /\ concat (pieces s4) = r2 /\
        exists a', tracks a' stk' ph2 /\ harmless_cuts a' (pieces s4)).
    { intros stk' Hn. exists (set_stack stk' (set_cont false s2)), nt2. unfold scope_handle. cbn [t_scope set_stack set_cont].
      assert (t_scope s2 = []) as -> by apply T1.
      repeat (split; [first [reflexivity|exact V|exact T1|exact Hb2|exact T3|exact T7|repeat split; assumption]|]).
      exists (feed a l0). split; [apply L2; exact Hn|exact T9]. }
    assert (Es3 : t_stack (set_cont false s2) = t_stack s0) by exact T2.
    rewrite Es3.
    assert (Eset : set_stack (t_stack s0) (set_cont false s2) = set_cont false s2).
    { rewrite <- Es3. destruct s2; reflexivity. }
    destruct (st_value_type tk) eqn:Et; cbn [next_stack] in G |- *;
      try (specialize (G _ eq_refl); rewrite ?Eset in G; exact G).
    + destruct (t_stack s0) as [|[] st] eqn:Est; cbn [next_stack]; eauto; exact (G _ eq_refl).
    + destruct (t_stack s0) as [|[] st] eqn:Est; cbn [next_stack]; eauto; exact (G _ eq_refl).
Qed.

Lemma run_not_noerror o stk l ex ph : run o stk ex ph l <> RErr NoError.
Proof. intros E. destruct (run_err _ _ _ _ _ _ E). congruence. Qed.

Lemma drain_run o : o_isa o = Scalar -> o_comments o = false -> o_nl o = false ->
  forall f nt s ph a,
  plain s -> ready s ph -> (t_bufs s = [] -> t_cur s = 0) ->
  tracks a (t_stack s) ph -> harmless_cuts a (pieces s) ->
  match sdrain f o (t_stack s) (t_expect s) ph (concat (pieces s)) with
  | None => drain f o nt s = OutOfFuel
  | Some (vs, e) => exists ts s1, drain f o nt s = Ok (ts, e, s1) /\ map tok_view ts = vs
  end.
Proof.
  intros Hisa Hcom Hnl. induction f as [|f IH]; intros nt s ph a Hpl Hrd Hc0 Htr Hh; [reflexivity|].
  cbn [sdrain drain].
  assert (N := nextToken_run o Hisa Hcom Hnl nt s ph a Hpl Hrd Hc0 Htr Hh).
  destruct (run o (t_stack s) (t_expect s) ph (concat (pieces s))) as [ph2 ex2|e|tk ph2 ex2 r2] eqn:ER.
  - destruct N as (s1 & nt1 & ->). cbn [obind]. exists [], s1. split; reflexivity.
  - destruct N as (s1 & nt1 & ->). cbn [obind]. exists [], s1.
    destruct (run_err _ _ _ _ _ _ ER) as [Hn _]. destruct e; try congruence; split; reflexivity.
  - destruct (next_stack (st_value_type tk) (t_stack s)) as [stk'|e] eqn:En.
    + destruct N as (s1 & nt1 & -> & V & P1 & P2 & P3 & P4 & P5 & P6 & a' & P7 & P8). cbn [obind].
      rewrite <- P4 in P7. specialize (IH nt1 s1 ph2 a' P1 P2 P3 P7 P8). rewrite P4, P5, P6 in IH.
      destruct (sdrain f o stk' ex2 ph2 r2) as [[vs e]|].
      * destruct IH as (ts & s2 & -> & M). cbn [obind]. do 2 eexists. split; [reflexivity|]. cbn. rewrite V, M. reflexivity.
      * rewrite IH. reflexivity.
    + destruct N as (s1 & nt1 & ->). cbn [obind]. exists [], s1.
      assert (e <> NoError).
      { intros ->. clear - En. destruct (st_value_type tk); cbn in En; try discriminate;
          destruct (t_stack s) as [|[] ?]; discriminate. }
      destruct e; try congruence; split; reflexivity.
Qed.

Lemma reads_as_stream o bufs supply vs e :
  o_isa o = Scalar -> o_comments o = false -> o_nl o = false ->
  Forall no_nul (bufs ++ concat supply) -> Forall (fun l => l <> []) supply ->
  harmless_cuts place_start (bufs ++ concat supply) ->
  (reads_as o bufs supply vs e <->
   exists f, sdrain f o [] false PName (concat (bufs ++ concat supply)) = Some (vs, e)).
Proof.
  intros Hisa Hcom Hnl Hnul Hsup Hh.
  assert (Hp : pieces (tok_with bufs supply) = bufs ++ concat supply).
  { unfold pieces. cbn. destruct bufs; reflexivity. }
  assert (D : forall f nt,
    match sdrain f o [] false PName (concat (bufs ++ concat supply)) with
    | None => drain f o nt (tok_with bufs supply) = OutOfFuel
    | Some (vs, e) => exists ts s1, drain f o nt (tok_with bufs supply) = Ok (ts, e, s1) /\ map tok_view ts = vs
    end).
  { intros f nt. rewrite <- Hp.
    apply (drain_run o Hisa Hcom Hnl f nt (tok_with bufs supply) PName place_start).
    - unfold plain, cur_ok. cbn. repeat split; auto. destruct bufs; [reflexivity|apply Nat.le_0_l].
    - unfold ready. cbn. split; [reflexivity|]. split; [reflexivity|]. split; [right; reflexivity|left; split; reflexivity].
    - reflexivity.
    - split; [reflexivity|]. split; [reflexivity|]. discriminate.
    - rewrite Hp. exact Hh. }
  split.
  - intros H. destruct (H tok_default) as (f & ts & s & E & M). exists f. specialize (D f tok_default).
    destruct (sdrain f o [] false PName (concat (bufs ++ concat supply))) as [[vs1 e1]|]; [|congruence].
    destruct D as (ts1 & s1 & E1 & M1). congruence.
  - intros (f & E) nt. specialize (D f nt). rewrite E in D. destruct D as (ts & s1 & D). exists f, ts, s1. exact D.
Qed.

Lemma reads_as_isa o bufs supply vs e :
  cut_clean (bufs ++ concat supply) ->
  (reads_as o bufs supply vs e <-> reads_as (scalar_opts o) bufs supply vs e).
Proof.
  intros H. assert (D := fun f nt => drain_isa_new (o_isa o) o bufs supply f nt H).
  assert (mkOpts (o_isa o) (o_ascii o) (o_nl o) (o_comma o) (o_comments o) = o) as E by (destruct o; reflexivity).
  rewrite E in D. unfold reads_as. split; intros R nt; destruct (R nt) as (f & ts & s & X); exists f, ts, s;
    [rewrite <- D|rewrite D]; exact X.
Qed.

Lemma cut_clean_one b : cut_clean [b].
Proof. intros l1 x l2 E Hn. destruct l1 as [|y l1]; [injection E as -> <-; congruence|]. destruct l1; discriminate. Qed.

Theorem harmless_cuts_same o bufs supply :
  o_comments o = false -> o_nl o = false ->
  (o_isa o = Scalar \/ cut_clean (bufs ++ concat supply)) ->
  ~ In x00 (concat (bufs ++ concat supply)) ->
  Forall (fun l => l <> []) supply ->
  harmless_cuts place_start (bufs ++ concat supply) ->
  forall vs e, reads_as o [concat (bufs ++ concat supply)] [] vs e <-> reads_as o bufs supply vs e.
Proof.
  intros Hcom Hnl Hisa Hnul Hsup Hh vs e.
  assert (Hn : no_nul (concat (bufs ++ concat supply))).
  { apply Forall_forall. intros c Hc ->. apply Hnul. exact Hc. }
  assert (Hn2 : Forall no_nul (bufs ++ concat supply)).
  { clear - Hn. induction (bufs ++ concat supply) as [|b l IH]; [constructor|].
    cbn in Hn. apply Forall_app in Hn. destruct Hn as [H1 H2]. constructor; auto. }
  rewrite (reads_as_isa o [_]) by apply cut_clean_one.
  assert (X : reads_as o bufs supply vs e <-> reads_as (scalar_opts o) bufs supply vs e).
  { destruct Hisa as [Hisa|Hisa]; [|apply reads_as_isa; exact Hisa].
    assert (scalar_opts o = o) as -> by (destruct o; cbn in Hisa; subst; reflexivity). reflexivity. }
  rewrite X. rewrite (reads_as_stream (scalar_opts o) bufs supply) by (first [reflexivity|assumption]).
  rewrite reads_as_stream by (try reflexivity; try assumption; cbn; repeat constructor; exact Hn).
  cbn [concat app]. rewrite !app_nil_r. reflexivity.
Qed.
