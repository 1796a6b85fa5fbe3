(** The places of ChunkSpec.v follow the byte machine of TokStream.v: at a harmless place the
    tokenizer forgets nothing when a buffer ends. *)
From Verif Require Import Base ScanModel ScanProofs TokModel TokLoops TokProofs TokSafe TokSpec TokIsa JsonSpec
  ChunkSpec TokStream TokStreamProofs TokStreamNext.
From Coq Require Import Lia ZifyBool ZifyNat ZifyN.

(** ** The automaton follows the byte machine *)

Definition type_open (t : type) : byte := match t with TObjectStart => lbrace | _ => lbrack end.

Definition not_member_value (a : place) : Prop := in_object a = true -> pl_before a <> Some colon.

Definition tracks (a : place) (stk : list type) (ph : phase) : Prop :=
  pl_open a = map type_open stk /\
  match ph with
  | PName =>
    pl_str a = None /\
    (in_object a = true ->
     pl_last a <> Some colon /\ (opt_is word_byte (pl_last a) = true -> pl_before a <> Some colon))
  | PNameIn ty esc acc =>
    value_ty ty /\ not_member_value a /\
    (ty = TString -> pl_str a = Some esc) /\
    (ty <> TString -> pl_str a = None /\ opt_is word_byte (pl_last a) = true /\ pl_space a = false)
  | PDelim nm nty =>
    is_bracket nty = false /\ pl_str a = None /\ not_member_value a /\
    ((pl_last a = Some quote /\ nty = TString) \/ (opt_is word_byte (pl_last a) = true /\ pl_space a = true))
  | PData nm nty => pl_str a = None /\ (pl_last a = Some colon \/ opt_is word_byte (pl_last a) = true)
  | PDataIn nm nty ty esc acc =>
    value_ty ty /\ (ty = TString -> pl_str a = Some esc) /\ (ty <> TString -> pl_str a = None)
  | PEnd => pl_str a = None
  end.

Lemma feed1_ws a c : pl_str a = None -> ws_byte c = true ->
  feed1 a c = mkPlace (pl_open a) None (pl_last a) (pl_before a) true.
Proof. intros H1 H2. unfold feed1. rewrite H1, H2. reflexivity. Qed.

Lemma feed1_word a c : pl_str a = None -> word_byte c = true ->
  feed1 a c = mkPlace (pl_open a) None (Some c)
    (if opt_is word_byte (pl_last a) && negb (pl_space a) then pl_before a else pl_last a) false.
Proof.
  intros H1 H2. unfold feed1. rewrite H1. unfold word_byte in H2. apply negb_true_iff in H2.
  do 7 (apply orb_false_iff in H2; destruct H2 as [H2 ?]).
  rewrite H2. repeat match goal with H : _ = false |- _ => rewrite H; clear H end. reflexivity.
Qed.

Lemma skip_byte c : start_class c = None -> (lookup c =? 0)%N = false ->
  ws_byte c = true \/ word_byte c = true.
Proof. intros H1 H2. destruct c; try discriminate H1; try discriminate H2; try (left; reflexivity); right; reflexivity. Qed.

Lemma ws_or_nul c : has c L_WhiteSpaceOrNull = true -> c <> c_nul -> ws_byte c = true.
Proof. intros H1 H3. destruct c; try discriminate H1; try reflexivity. exfalso. apply H3. reflexivity. Qed.

Lemma start_byte_word c t : start_class c = Some t -> value_ty t -> t <> TString -> word_byte c = true.
Proof.
  intros H1 H2 H3. destruct c; try discriminate H1; try reflexivity; injection H1 as <-;
    destruct H2 as [X|[X|X]]; try discriminate X; congruence.
Qed.

Lemma cont_byte_word ty c : word_cont ty c = true -> word_byte c = true.
Proof.
  assert (H1 : word_cont TNumber c = true -> word_byte c = true) by (destruct c; intros H; try discriminate H; reflexivity).
  assert (H2 : word_cont TAscii c = true -> word_byte c = true) by (destruct c; intros H; try discriminate H; reflexivity).
  destruct ty; assumption.
Qed.

Lemma bracket_byte c t : start_class c = Some t -> is_bracket t = true ->
  c = match t with TObjectStart => lbrace | TObjectEnd => rbrace | TArrayStart => lbrack | _ => rbrack end.
Proof. intros H1 H2. destruct c; try discriminate H1; injection H1 as <-; try discriminate H2; reflexivity. Qed.

Lemma getType_not_bracket ty d : value_ty ty -> is_bracket (getType ty d) = false.
Proof.
  intros [->|[->| ->]]; try reflexivity. cbn. destruct (bool_or_null_type d) as [X|[X|X]]; rewrite X; reflexivity.
Qed.

Lemma next_stack_plain t stk : is_bracket t = false -> next_stack t stk = inl stk.
Proof. destruct t; try discriminate; reflexivity. Qed.

Definition step_tracks (a : place) (stk : list type) (c : byte) (r : sres) : Prop :=
  match r with
  | Go ph' _ => tracks (feed1 a c) stk ph'
  | Fail _ => True
  | Out tk ph' _ keep =>
    forall stk', next_stack (st_value_type tk) stk = inl stk' -> tracks (if keep then a else feed1 a c) stk' ph'
  end.

Lemma in_object_open a b : pl_open a = pl_open b -> in_object a = in_object b.
Proof. unfold in_object. intros ->. reflexivity. Qed.

(** A bracket: the open brackets after it. *)
Lemma bracket_tracks a stk c t stk' ph :
  pl_open a = map type_open stk -> pl_str a = None -> start_class c = Some t -> is_bracket t = true ->
  next_stack t stk = inl stk' -> (ph = PName \/ ph = PEnd) -> tracks (feed1 a c) stk' ph.
Proof.
  intros Ho Hs Hc Hb Hn Hph. assert (E := bracket_byte c t Hc Hb).
  assert (Hf : pl_open (feed1 a c) = map type_open stk' /\ pl_str (feed1 a c) = None /\ pl_last (feed1 a c) = Some c).
  { unfold feed1. rewrite Hs. destruct t; try discriminate Hb; subst c; cbn in Hn |- *.
    - injection Hn as <-. cbn. rewrite Ho. auto.
    - destruct stk as [|[] stk]; try discriminate. injection Hn as <-. rewrite Ho. auto.
    - injection Hn as <-. cbn. rewrite Ho. auto.
    - destruct stk as [|[] stk]; try discriminate. injection Hn as <-. rewrite Ho. auto. }
  destruct Hf as (H1 & H2 & H3). split; [exact H1|].
  destruct Hph as [-> | ->]; [|exact H2]. split; [exact H2|]. intros _. rewrite H3.
  split; [|cbn; subst c; destruct t; discriminate].
  subst c. destruct t; try discriminate Hb; discriminate.
Qed.

Lemma name_step_tracks o stk ex a c :
  tracks a stk PName -> c <> c_nul -> step_tracks a stk c (name_step o ex c).
Proof.
  intros (Ho & Hs & Hl) Hc. unfold name_step.
  destruct (start_class c) as [t|] eqn:Et.
  - assert (HB : is_bracket t = true -> forall ph stk', (ph = PName \/ ph = PEnd) ->
      next_stack t stk = inl stk' -> tracks (feed1 a c) stk' ph).
    { intros Hb ph stk' Hph Hn. eapply bracket_tracks; eauto. }
    assert (HW : value_ty t -> t <> TString -> tracks (feed1 a c) stk (PNameIn t false [c])).
    { intros Hv Ht. assert (Hw := start_byte_word c t Et Hv Ht). rewrite feed1_word by assumption.
      split; [exact Ho|]. split; [exact Hv|]. cbn [pl_str pl_last pl_space].
      split; [|split; [congruence|repeat split; auto]].
      intros Hi. rewrite (in_object_open _ a) in Hi by reflexivity. cbn [pl_before].
      destruct (Hl Hi) as [L1 L2]. destruct (opt_is word_byte (pl_last a)); cbn [andb]; auto.
      destruct (negb (pl_space a)); auto. }
    destruct (is_bracket t) eqn:Hb.
    + destruct t; try discriminate Hb; cbn [step_tracks st_value_type].
      * intros stk' Hn. apply HB; auto.
      * destruct (ex && negb (o_comma o)); [exact I|]. intros stk' Hn. apply HB; auto.
      * intros stk' Hn. apply HB; auto.
      * destruct (ex && negb (o_comma o)); [exact I|]. intros stk' Hn. apply HB; auto.
    + assert (Hv := start_class_type c t Et Hb). destruct Hv as [->|[->| ->]].
      * cbn [step_tracks]. apply start_class_string in Et. subst c.
        unfold feed1. rewrite Hs. cbn.
        split; [exact Ho|]. split; [left; reflexivity|]. cbn. split; [|split; [auto|congruence]].
        intros Hi. cbn in Hi. cbn. destruct (Hl Hi). assumption.
      * apply HW; [right; left; reflexivity|discriminate].
      * apply HW; [right; right; reflexivity|discriminate].
  - destruct (lookup c =? 0)%N eqn:El; [exact I|]. cbn [step_tracks].
    destruct (skip_byte c Et El) as [Hw|Hw].
    + rewrite feed1_ws by assumption. split; [exact Ho|]. cbn. split; [reflexivity|]. exact Hl.
    + rewrite feed1_word by assumption. split; [exact Ho|]. cbn [pl_str pl_last pl_before]. split; [reflexivity|].
      intros Hi. destruct (Hl Hi) as [L1 L2]. split.
      { intros E. injection E as ->. discriminate Hw. }
      intros _. destruct (opt_is word_byte (pl_last a)); cbn [andb]; auto. destruct (negb (pl_space a)); auto.
Qed.

Lemma data_step_tracks o stk ex nm nty a c :
  tracks a stk (PData nm nty) -> c <> c_nul -> step_tracks a stk c (data_step o ex nm nty c).
Proof.
  intros (Ho & Hs & Hl) Hc. unfold data_step.
  destruct (start_class c) as [t|] eqn:Et.
  - assert (HB : is_bracket t = true -> forall ph stk', (ph = PName \/ ph = PEnd) ->
      next_stack t stk = inl stk' -> tracks (feed1 a c) stk' ph).
    { intros Hb ph stk' Hph Hn. eapply bracket_tracks; eauto. }
    assert (HW : value_ty t -> t <> TString -> tracks (feed1 a c) stk (PDataIn nm nty t false [c])).
    { intros Hv Ht. assert (Hw := start_byte_word c t Et Hv Ht). rewrite feed1_word by assumption.
      split; [exact Ho|]. split; [exact Hv|]. cbn [pl_str]. split; [congruence|reflexivity]. }
    destruct (is_bracket t) eqn:Hb.
    + destruct t; try discriminate Hb; cbn [step_tracks st_value_type]; intros stk' Hn; apply HB; auto.
    + assert (Hv := start_class_type c t Et Hb). destruct Hv as [->|[->| ->]].
      * cbn [step_tracks]. apply start_class_string in Et. subst c.
        unfold feed1. rewrite Hs. cbn.
        split; [exact Ho|]. split; [left; reflexivity|]. cbn. split; [auto|congruence].
      * apply HW; [right; left; reflexivity|discriminate].
      * apply HW; [right; right; reflexivity|discriminate].
  - destruct (lookup c =? 0)%N eqn:El; [exact I|]. cbn [step_tracks].
    destruct (skip_byte c Et El) as [Hw|Hw].
    + rewrite feed1_ws by assumption. split; [exact Ho|]. cbn. split; [reflexivity|]. exact Hl.
    + rewrite feed1_word by assumption. split; [exact Ho|]. cbn [pl_str pl_last pl_before]. split; [reflexivity|].
      right. exact Hw.
Qed.

(** Both [PDelim] and the end of a word lead here. *)
Lemma delim_step_tracks o stk ex nm nty a c :
  pl_open a = map type_open stk -> pl_str a = None -> is_bracket nty = false -> not_member_value a ->
  ((pl_last a = Some quote /\ nty = TString) \/ opt_is word_byte (pl_last a) = true) ->
  c <> c_nul -> step_tracks a stk c (delim_step o stk ex nm nty c).
Proof.
  intros Ho Hs Hb Hm Hl Hc. unfold delim_step. destruct stk as [|ct st]; [exact I|].
  destruct (Byte.eqb c c_colon) eqn:E1.
  { apply byte_eqb_eq in E1. subst c.
    destruct (negb (type_eqb ct TObjectStart)); [exact I|]. destruct (name_ok o nty); [|exact I].
    cbn [step_tracks]. unfold feed1. rewrite Hs. cbn. split; [exact Ho|]. cbn. auto. }
  destruct (Byte.eqb c c_comma) eqn:E2.
  { apply byte_eqb_eq in E2. subst c.
    destruct (negb (type_eqb ct TArrayStart)); [exact I|]. cbn [step_tracks st_value_type].
    intros stk' Hn. rewrite next_stack_plain in Hn by exact Hb. injection Hn as <-.
    unfold feed1. rewrite Hs. cbn. split; [exact Ho|]. cbn. split; [reflexivity|].
    intros _. split; discriminate. }
  destruct (Byte.eqb c c_rbracket) eqn:E3.
  { destruct (type_eqb ct TArrayStart) eqn:Ect; [|exact I]. cbn [negb step_tracks st_value_type].
    intros stk' Hn. rewrite next_stack_plain in Hn by exact Hb. injection Hn as <-.
    split; [exact Ho|]. split; [exact Hs|]. unfold in_object. rewrite Ho.
    apply type_eqb_eq in Ect. subst ct. cbn. discriminate. }
  destruct (has c L_WhiteSpaceOrNull) eqn:E4; [|exact I]. cbn [negb step_tracks].
  assert (Hw := ws_or_nul c E4 Hc). rewrite feed1_ws by assumption.
  split; [exact Ho|]. split; [exact Hb|]. split; [reflexivity|]. split; [exact Hm|].
  cbn. destruct Hl as [Hl|Hl]; auto.
Qed.

Lemma step_tracks_ok o stk ex ph a c :
  tracks a stk ph -> c <> c_nul -> step_tracks a stk c (step o stk ex ph c).
Proof.
  intros Ht Hc. destruct ph as [|ty esc acc|nm nty|nm nty|nm nty ty esc acc|].
  - apply name_step_tracks; assumption.
  - destruct Ht as (Ho & Hv & Hm & Hstr & Hword).
    assert (HW : ty <> TString -> step_tracks a stk c
        (if word_cont ty c then Go (PNameIn ty false (acc ++ [c])) ex
         else delim_step o stk ex acc (getType ty acc) c)).
    { intros Hty. destruct (Hword Hty) as (W1 & W2 & W3). destruct (word_cont ty c) eqn:Ec.
      - cbn [step_tracks]. rewrite feed1_word by (try assumption; eapply cont_byte_word; eassumption).
        rewrite W2, W3. cbn [andb negb].
        split; [exact Ho|]. split; [exact Hv|]. split; [exact Hm|]. split; [congruence|].
        intros _. cbn. repeat split. eapply cont_byte_word; eassumption.
      - apply delim_step_tracks; auto. apply getType_not_bracket. exact Hv. }
    destruct Hv as [->|[->| ->]].
    + specialize (Hstr eq_refl).
      assert (HG : forall esc', feed1 a c = mkPlace (pl_open a) (Some esc') (pl_last a) (pl_before a) (pl_space a) \/
          feed1 a c = mkPlace (pl_open a) (Some esc') (pl_last a) (pl_before a) false ->
          tracks (feed1 a c) stk (PNameIn TString esc' (acc ++ [c]))).
      { intros esc' [-> | ->]; (split; [exact Ho|]; split; [left; reflexivity|]; split; [exact Hm|];
          split; [reflexivity|congruence]). }
      cbn [step]. destruct esc.
      { apply (HG false). right. unfold feed1. rewrite Hstr. reflexivity. }
      destruct (Byte.eqb c c_backslash) eqn:E1.
      { apply (HG true). right. unfold feed1. rewrite Hstr. change backslash with c_backslash. rewrite E1. reflexivity. }
      destruct (Byte.eqb c c_quote) eqn:E2.
      { cbn [step_tracks]. unfold feed1. rewrite Hstr. change backslash with c_backslash. change quote with c_quote.
        rewrite E1, E2. split; [exact Ho|]. split; [reflexivity|]. split; [reflexivity|]. split; [exact Hm|].
        left. split; reflexivity. }
      apply (HG false). left. unfold feed1. rewrite Hstr. change backslash with c_backslash. change quote with c_quote.
      rewrite E1, E2. destruct a; cbn in *. congruence.
    + apply HW. discriminate.
    + apply HW. discriminate.
  - destruct Ht as (Ho & Hb & Hs & Hm & Hl). apply delim_step_tracks; auto.
    destruct Hl as [Hl|[Hl _]]; auto.
  - apply data_step_tracks; assumption.
  - destruct Ht as (Ho & Hv & Hstr & Hword).
    assert (HD : forall keep : bool, pl_str (if keep then a else feed1 a c) = None ->
        pl_open (if keep then a else feed1 a c) = pl_open a ->
        step_tracks a stk c (value_done o ex nm nty ty acc keep)).
    { intros keep Hk Hk2. unfold value_done. destruct (type_eqb _ _ && _); [exact I|]. cbn [step_tracks st_value_type].
      intros stk' Hn. rewrite next_stack_plain in Hn by (apply getType_not_bracket; exact Hv). injection Hn as <-.
      split; [congruence|exact Hk]. }
    assert (HW : ty <> TString -> step_tracks a stk c
        (if word_cont ty c then Go (PDataIn nm nty ty false (acc ++ [c])) ex
         else value_done o ex nm nty ty acc true)).
    { intros Hty. specialize (Hword Hty). destruct (word_cont ty c) eqn:Ec.
      - cbn [step_tracks]. rewrite feed1_word by (try assumption; eapply cont_byte_word; eassumption).
        split; [exact Ho|]. split; [exact Hv|]. split; [congruence|]. reflexivity.
      - apply HD; auto. }
    destruct Hv as [->|[->| ->]].
    + specialize (Hstr eq_refl).
      assert (HG : forall esc', feed1 a c = mkPlace (pl_open a) (Some esc') (pl_last a) (pl_before a) (pl_space a) \/
          feed1 a c = mkPlace (pl_open a) (Some esc') (pl_last a) (pl_before a) false ->
          tracks (feed1 a c) stk (PDataIn nm nty TString esc' (acc ++ [c]))).
      { intros esc' [-> | ->]; (split; [exact Ho|]; split; [left; reflexivity|];
          split; [reflexivity|congruence]). }
      cbn [step]. destruct esc.
      { apply (HG false). right. unfold feed1. rewrite Hstr. reflexivity. }
      destruct (Byte.eqb c c_backslash) eqn:E1.
      { apply (HG true). right. unfold feed1. rewrite Hstr. change backslash with c_backslash. rewrite E1. reflexivity. }
      destruct (Byte.eqb c c_quote) eqn:E2.
      { apply HD; unfold feed1; rewrite Hstr; change backslash with c_backslash; change quote with c_quote;
        rewrite E1, E2; reflexivity. }
      apply (HG false). left. unfold feed1. rewrite Hstr. change backslash with c_backslash. change quote with c_quote.
      rewrite E1, E2. destruct a; cbn in *. congruence.
    + apply HW. discriminate.
    + apply HW. discriminate.
  - destruct Ht as (Ho & Hs). cbn [step]. unfold end_step.
    destruct stk as [|ct st].
    { apply name_step_tracks; [|exact Hc]. split; [exact Ho|]. split; [exact Hs|].
      unfold in_object. rewrite Ho. discriminate. }
    destruct (Byte.eqb c c_comma) eqn:E1.
    { apply byte_eqb_eq in E1. subst c. cbn [step_tracks]. unfold feed1. rewrite Hs. cbn.
      split; [exact Ho|]. cbn. split; [reflexivity|]. intros _. split; discriminate. }
    destruct (Byte.eqb c c_rbracket || Byte.eqb c c_rbrace) eqn:E2.
    { unfold name_step.
      assert (HB : exists t, start_class c = Some t /\ (t = TObjectEnd \/ t = TArrayEnd)).
      { apply orb_true_iff in E2. destruct E2 as [E2|E2]; apply byte_eqb_eq in E2; subst c; eexists; split; try reflexivity; auto. }
      destruct HB as (t & Et & HB). rewrite Et.
      destruct HB as [-> | ->]; (destruct (ex && negb (o_comma o)); [exact I|]; cbn [step_tracks st_value_type];
        intros stk' Hn; eapply bracket_tracks; eauto). }
    destruct (Byte.eqb c c_nl || has c L_WhiteSpaceOrNull) eqn:E3; [|exact I]. cbn [step_tracks].
    assert (Hw : ws_byte c = true).
    { apply orb_true_iff in E3. destruct E3 as [E3|E3]; [apply byte_eqb_eq in E3; subst c; reflexivity|].
      apply ws_or_nul; assumption. }
    rewrite feed1_ws by assumption. split; [exact Ho|reflexivity].
Qed.

Lemma run_tracks o stk : forall l ex ph a,
  tracks a stk ph -> no_nul l ->
  match run o stk ex ph l with
  | RNeed ph' _ => tracks (feed a l) stk ph'
  | RErr _ => True
  | ROut tk ph' _ r => exists l0, l = l0 ++ r /\
      forall stk', next_stack (st_value_type tk) stk = inl stk' -> tracks (feed a l0) stk' ph'
  end.
Proof.
  induction l as [|c l IH]; intros ex ph a Ht Hn; [exact Ht|].
  inversion Hn as [|? ? Hc Hl]. subst. cbn [run].
  assert (ST := step_tracks_ok o stk ex ph a c Ht Hc). unfold step_tracks in ST.
  destruct (step o stk ex ph c) as [ph' ex'|e|tk ph' ex' keep].
  - specialize (IH ex' ph' (feed1 a c) ST Hl). destruct (run o stk ex' ph' l) as [p q|e|tk p q r]; auto.
    destruct IH as (l0 & -> & IH). exists (c :: l0). split; [reflexivity|exact IH].
  - exact I.
  - destruct keep; [exists []|exists [c]]; (split; [reflexivity|exact ST]).
Qed.

(** ** Harmless places *)

Lemma feed_app a l1 l2 : feed a (l1 ++ l2) = feed (feed a l1) l2.
Proof. apply fold_left_app. Qed.

Lemma space_after a c : (forall e, pl_str a = Some e -> pl_str (feed1 a c) = None -> Byte.eqb c quote = true) /\
  (pl_str (feed1 a c) = None -> pl_space (feed1 a c) = true -> ws_byte c = true).
Proof.
  unfold feed1. destruct (pl_str a) as [[]|] eqn:Es.
  - split; [intros e _; discriminate|discriminate].
  - destruct (Byte.eqb c backslash); [split; [intros e _; discriminate|discriminate]|].
    destruct (Byte.eqb c quote) eqn:E; [split; [auto|discriminate]|].
    rewrite Es. split; [intros e _; discriminate|discriminate].
  - split; [discriminate|]. destruct (ws_byte c); [auto|].
    destruct (Byte.eqb c quote); [discriminate|].
    destruct (Byte.eqb c lbrace || Byte.eqb c lbrack); [discriminate|].
    destruct (Byte.eqb c rbrace || Byte.eqb c rbrack); [discriminate|].
    destruct (Byte.eqb c comma || Byte.eqb c colon); discriminate.
Qed.

Lemma colon_after a : pl_str (feed1 a colon) = None -> pl_last (feed1 a colon) = Some colon.
Proof. unfold feed1. destruct (pl_str a) as [[]|] eqn:Es; [discriminate|cbn; congruence|reflexivity]. Qed.

Lemma harmless_safe a stk ph l buf :
  tracks (feed a l) stk ph -> harmless (feed a l) = true ->
  (buf = [] \/ exists l0 c, l = l0 ++ [c] /\ exists b0, buf = b0 ++ [c]) ->
  safe_end stk buf ph.
Proof.
  intros Ht Hh Hb. destruct ph as [|ty esc acc|nm nty|nm nty|nm nty ty esc acc|]; try exact I.
  - destruct Ht as (Ho & Hbr & Hs & Hm & Hl). unfold harmless in Hh. rewrite Hs in Hh.
    assert (Hobj : in_object (feed a l) = true -> exists st, stk = TObjectStart :: st).
    { unfold in_object. rewrite Ho. destruct stk as [|[] st]; cbn; try discriminate. eauto. }
    assert (Hv : in_object (feed a l) && opt_is (Byte.eqb colon) (pl_before (feed a l)) = false).
    { destruct (in_object (feed a l)) eqn:Hi; [|reflexivity]. cbn [andb]. specialize (Hm Hi).
      destruct (pl_before (feed a l)) as [b|]; [|reflexivity]. cbn [opt_is].
      apply byte_eqb_neq. congruence. }
    destruct Hl as [(Hl & Hnt)|(Hl & Hsp)].
    + rewrite Hl, Hv in Hh. cbn in Hh. apply andb_true_iff in Hh. destruct Hh as [Hsp Hi].
      split; [exact Hnt|]. split; [apply Hobj; exact Hi|].
      destruct Hb as [-> |(l0 & c & -> & b0 & ->)].
      * intros (x & X). destruct x; discriminate.
      * rewrite feed_app in Hs, Hsp. cbn [feed fold_left] in Hs, Hsp.
        destruct (space_after (feed a l0) c) as [_ W]. specialize (W Hs Hsp).
        intros (x & X). apply app_inj_tail in X. destruct X as [_ ->]. discriminate W.
    + destruct (pl_last (feed a l)) as [c|]; [|discriminate Hl]. cbn [opt_is] in Hl.
      rewrite Hv, Hsp in Hh. exfalso. clear - Hh Hl. unfold word_byte in Hl. apply negb_true_iff in Hl.
      do 7 (apply orb_false_iff in Hl; destruct Hl as [Hl ?]).
      repeat match goal with H : Byte.eqb _ _ = false |- _ => rewrite H in Hh; clear H end. discriminate Hh.
  - destruct Ht as (Ho & Hs & Hl). unfold safe_end. destruct Hb as [-> |(l0 & c & -> & b0 & ->)].
    { intros (x & X). destruct x; discriminate. }
    intros (x & X). apply app_inj_tail in X. destruct X as [_ ->].
    rewrite feed_app in *. cbn [feed fold_left] in *.
    assert (L := colon_after _ Hs). change colon with c_colon in L.
    unfold harmless in Hh. rewrite Hs, L in Hh. cbn in Hh.
    destruct (space_after (fold_left feed1 l0 a) c_colon) as [_ W]. specialize (W Hs Hh). discriminate W.
Qed.
