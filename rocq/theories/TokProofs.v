(** Invariants of the tokenizer model: no undefined behaviour, progress, bracket discipline. *)
From Verif Require Import Base ScanModel ScanProofs TokModel TokLoops.
From Coq Require Import Lia ZifyBool ZifyNat ZifyN.

(** ** Bounds for the scanners *)

Lemma findStringEnd_None i esc rest :
  fst (findStringEnd i esc rest) = None -> findStringEnd i esc rest = str_scan esc rest 0.
Proof.
  unfold findStringEnd. destruct (str_width i) as [w|]; [|reflexivity].
  destruct (w <=? length rest); [|reflexivity].
  destruct (findStringEnd_vec w esc rest) as [k e'].
  destruct (k <? length rest); [discriminate|reflexivity].
Qed.

Lemma str_bytes_bound rest : forall esc n,
  n <= fst (str_bytes esc rest n) <= n + length rest /\
  (rest <> [] -> n < fst (str_bytes esc rest n)) /\
  (fst (str_bytes esc rest n) < n + length rest -> snd (str_bytes esc rest n) = false).
Proof.
  induction rest as [|c tl IH]; intros esc n; cbn [str_bytes length fst snd].
  - repeat split; try lia. congruence.
  - destruct esc; [|destruct (Byte.eqb c c_backslash); [|destruct (Byte.eqb c c_quote)]];
      try (match goal with |- context [str_bytes ?e tl (S n)] => destruct (IH e (S n)) as (H1 & H2 & H3) end;
           repeat split; try lia; intros; apply H3; lia).
    cbn [fst snd]. repeat split; lia.
Qed.

Lemma findStringEnd_Some i esc rest k e :
  findStringEnd i esc rest = (Some k, e) -> 0 < k <= length rest /\ e = false.
Proof.
  assert (Hs : str_scan esc rest 0 = (Some k, e) -> 0 < k <= length rest /\ e = false).
  { intros E. generalize (str_bytes_scan rest esc 0). rewrite E. intros (_ & H & He).
    split; [lia|exact He]. }
  unfold findStringEnd. destruct (str_width i) as [w|] eqn:Hw; [|exact Hs].
  destruct (w <=? length rest) eqn:Hl; [|exact Hs].
  destruct (findStringEnd_vec w esc rest) as [k' e'] eqn:Hv.
  destruct (k' <? length rest) eqn:Hk; [|exact Hs].
  intros E. injection E as -> ->. apply Nat.ltb_lt in Hk.
  unfold findStringEnd_vec in Hv.
  destruct (lane_scan (S (length rest)) w is_str_special rest) as [n hit] eqn:En.
  destruct (lane_scan_spec _ w (str_width_pos _ _ Hw) _ _ _ _ (Nat.lt_succ_diag_r _) En)
    as (H1 & _ & _ & _).
  destruct (str_bytes_bound (skipn n rest) esc n) as (B1 & B2 & B3). rewrite Hv in B1, B2, B3.
  cbn [fst snd] in *. rewrite skipn_length in B1, B3.
  assert (skipn n rest <> []).
  { intros Hn. apply (f_equal (@length byte)) in Hn. rewrite skipn_length in Hn. cbn in Hn. lia. }
  specialize (B2 H). split; [lia|]. apply B3. lia.
Qed.

Lemma findStringEnd_None_esc i rest :
  findStringEnd i false rest = (None, true) -> exists l, rest = l ++ [c_backslash].
Proof.
  intros E. assert (H : fst (findStringEnd i false rest) = None) by (rewrite E; reflexivity).
  rewrite (findStringEnd_None _ _ _ H) in E.
  destruct (str_scan_None_length rest false 0 true E eq_refl) as [l [Hl|[_ Hl]]]; [eauto|discriminate].
Qed.

Lemma findNumberEnd_Some i rest k : findNumberEnd i rest = Some k -> k < length rest.
Proof.
  rewrite findNumberEnd_isa. cbn [findNumberEnd]. unfold number_scan. intros E.
  destruct (find_index_Some _ _ _ E) as [H _]. exact H.
Qed.

Lemma findAsciiEnd_Some i rest k : findAsciiEnd i rest = AsciiFound k -> k < length rest.
Proof.
  rewrite findAsciiEnd_isa. cbn [findAsciiEnd]. rewrite ascii_scan_spec.
  destruct (nth_error rest _) as [c|] eqn:Hn; [|discriminate].
  destruct (Byte.eqb c c_nul); [discriminate|]. intros E. injection E as <-.
  cbn [Nat.add]. apply nth_error_Some. congruence.
Qed.

(** ** Bounds for the find functions *)

Lemma fsnv_bound o : forall f rest pos cur,
  length rest < f -> cur <= pos ->
  match fsnv_loop f o rest pos cur with
  | FS_fuel => False
  | FS_err e c => cur <= c <= pos + length rest /\ e <> NoError
  | FS_ok t a c => cur <= c /\ c + a < pos + length rest /\ t <> TError
  end.
Proof.
  induction f as [|f IH]; intros rest pos cur Hf Hp; [lia|].
  cbn [fsnv_loop]. destruct rest as [|c tl]; [split; [cbn [length]; lia|discriminate]|].
  cbn [length] in *.
  destruct (o_comments o && Byte.eqb c c_slash && starts_slash tl) eqn:Hc.
  - apply andb_true_iff in Hc. destruct Hc as [_ Hc]. apply skipn_1_length in Hc.
    destruct (skipComment (o_isa o) (o_nl o) (skipn 1 tl)) as [k|] eqn:Hk;
      [|split; [lia|discriminate]].
    apply skipComment_le in Hk.
    specialize (IH (skipn k (skipn 1 tl)) (pos + 2 + k) (pos + 2 + k)).
    rewrite skipn_length in IH.
    destruct (fsnv_loop f o _ _ _); [ |  | apply IH; lia].
    + destruct IH as [IH1 IH2]; try lia. split; [lia|exact IH2].
    + destruct IH as (IH1 & IH2 & IH3); try lia. repeat split; try lia. exact IH3.
  - destruct (single_char_type c) as [t|] eqn:Ht.
    { repeat split; try lia. intros ->. unfold single_char_type in Ht.
      repeat match type of Ht with context [if ?b then _ else _] => destruct b; [discriminate|] end.
      discriminate. }
    destruct (has c _); [repeat split; try lia; discriminate|].
    destruct (has c _); [repeat split; try lia; discriminate|].
    destruct (lookup c =? 0)%N; [split; [lia|discriminate]|].
    specialize (IH tl (S pos) cur).
    destruct (fsnv_loop f o tl (S pos) cur); [ | | apply IH; lia].
    + destruct IH as [IH1 IH2]; try lia. split; [lia|exact IH2].
    + destruct IH as (IH1 & IH2 & IH3); try lia. repeat split; try lia. exact IH3.
Qed.

Lemma findStart_bound o buf cur :
  cur <= length buf ->
  match findStartOfNextValue o buf cur with
  | FS_fuel => False
  | FS_err e c => cur <= c <= length buf /\ e <> NoError
  | FS_ok t a c => cur <= c /\ c + a < length buf /\ t <> TError
  end.
Proof.
  intros H. rewrite findStart_eq.
  generalize (fsnv_bound (scalar_opts o) _ (skipn cur buf) cur cur (Nat.lt_succ_diag_r _) (le_n _)).
  rewrite skipn_length. replace (cur + (length buf - cur)) with (length buf) by lia. auto.
Qed.

Lemma fdelim_bound o ct : forall f rest pos cur,
  length rest < f -> cur <= pos ->
  match fdelim_loop f o ct rest pos cur with
  | FD_fuel => False
  | FD_err e c => cur <= c <= pos + length rest /\ e <> NoError
  | FD_ok n a c => cur <= c /\ c + a <= pos + length rest /\ (n = FindingData \/ n = FindingName) /\
                   (n = FindingData -> ct = TObjectStart) /\ (n = FindingName -> ct = TArrayStart)
  end.
Proof.
  assert (Hteq : forall t t', negb (type_eqb t t') = false -> t = t').
  { intros t t' E. destruct t, t'; try discriminate E; reflexivity. }
  induction f as [|f IH]; intros rest pos cur Hf Hp; [lia|].
  cbn [fdelim_loop]. destruct rest as [|c tl]; [split; [cbn [length]; lia|discriminate]|].
  cbn [length] in *.
  destruct (o_comments o && Byte.eqb c c_slash && starts_slash tl) eqn:Hc.
  - apply andb_true_iff in Hc. destruct Hc as [_ Hc]. apply skipn_1_length in Hc.
    destruct (skipComment (o_isa o) (o_nl o) (skipn 1 tl)) as [k|] eqn:Hk;
      [|split; [lia|discriminate]].
    apply skipComment_le in Hk.
    specialize (IH (skipn k (skipn 1 tl)) (pos + 2 + k) (pos + 2 + k)).
    rewrite skipn_length in IH.
    destruct (fdelim_loop f o ct _ _ _); [ |  | apply IH; lia].
    + destruct IH as [IH1 IH2]; try lia. split; [lia|exact IH2].
    + destruct IH as (IH1 & IH2 & IH3); try lia. repeat split; try lia; apply IH3.
  - destruct (Byte.eqb c c_colon).
    { destruct (negb (type_eqb ct TObjectStart)) eqn:E; [split; [lia|discriminate]|].
      apply Hteq in E. repeat split; try lia; auto. discriminate. }
    destruct (Byte.eqb c c_comma || _).
    { destruct (negb (type_eqb ct TArrayStart)) eqn:E; [split; [lia|discriminate]|].
      apply Hteq in E. repeat split; try lia; auto. discriminate. }
    destruct (Byte.eqb c c_rbracket).
    { destruct (negb (type_eqb ct TArrayStart)) eqn:E; [split; [lia|discriminate]|].
      apply Hteq in E. repeat split; try lia; auto. discriminate. }
    destruct (negb (has c _)); [split; [lia|discriminate]|].
    specialize (IH tl (S pos) cur).
    destruct (fdelim_loop f o ct tl (S pos) cur); [ | | apply IH; lia].
    + destruct IH as [IH1 IH2]; try lia. split; [lia|exact IH2].
    + destruct IH as (IH1 & IH2 & IH3); try lia. repeat split; try lia; apply IH3.
Qed.

Lemma findDelimiter_bound o st buf cur :
  cur <= length buf ->
  match findDelimiter o st buf cur with
  | FD_fuel => False
  | FD_err e c => cur <= c <= length buf /\ e <> NoError
  | FD_ok n a c => cur <= c /\ c + a <= length buf /\ (n = FindingData \/ n = FindingName)
  end.
Proof.
  intros H. rewrite findDelimiter_eq. destruct st as [|ct st]; [split; [lia|discriminate]|].
  generalize (fdelim_bound (scalar_opts o) ct _ (skipn cur buf) cur cur (Nat.lt_succ_diag_r _) (le_n _)).
  rewrite skipn_length. replace (cur + (length buf - cur)) with (length buf) by lia.
  destruct (fdelim_loop _ _ _ _ _ _); auto. intuition.
Qed.

Lemma ftend_bound o : forall f rest pos cur,
  length rest < f -> cur <= pos ->
  match ftend_loop f o rest pos cur with
  | FE_fuel => False
  | FE_err e c => cur <= c <= pos + length rest /\ e <> NoError
  | FE_ok a c _ => cur <= c /\ c + a <= pos + length rest
  end.
Proof.
  induction f as [|f IH]; intros rest pos cur Hf Hp; [lia|].
  cbn [ftend_loop]. destruct rest as [|c tl]; [split; [cbn [length]; lia|discriminate]|].
  cbn [length] in *.
  assert (Hstep : match ftend_loop f o tl (S pos) cur with
    | FE_fuel => False
    | FE_err e c => cur <= c <= pos + S (length tl) /\ e <> NoError
    | FE_ok a c _ => cur <= c /\ c + a <= pos + S (length tl) end).
  { specialize (IH tl (S pos) cur). destruct (ftend_loop f o tl (S pos) cur); [ | | apply IH; lia].
    + destruct IH as [IH1 IH2]; try lia. split; [lia|exact IH2].
    + destruct IH as (IH1 & IH2); try lia. }
  destruct (o_comments o && Byte.eqb c c_slash && starts_slash tl) eqn:Hc.
  - apply andb_true_iff in Hc. destruct Hc as [_ Hc]. apply skipn_1_length in Hc.
    destruct (skipComment (o_isa o) (o_nl o) (skipn 1 tl)) as [k|] eqn:Hk;
      [|split; [lia|discriminate]].
    apply skipComment_le in Hk.
    specialize (IH (skipn k (skipn 1 tl)) (pos + 2 + k) (pos + 2 + k)).
    rewrite skipn_length in IH.
    destruct (ftend_loop f o _ _ _); [ |  | apply IH; lia].
    + destruct IH as [IH1 IH2]; try lia. split; [lia|exact IH2].
    + destruct IH as (IH1 & IH2); try lia.
  - destruct (Byte.eqb c c_comma); [lia|].
    destruct (Byte.eqb c c_rbracket || _); [lia|].
    destruct (Byte.eqb c c_nl); [destruct (o_nl o); [lia|exact Hstep]|].
    destruct (has c _); [exact Hstep|]. split; [lia|discriminate].
Qed.

Lemma findTokenEnd_bound o st buf cur :
  cur <= length buf ->
  match findTokenEnd o st buf cur with
  | FE_fuel => False
  | FE_err e c => cur <= c <= length buf /\ e <> NoError
  | FE_ok a c _ => cur <= c /\ c + a <= length buf
  end.
Proof.
  intros H. rewrite findTokenEnd_eq. destruct st as [|ct st]; [lia|].
  generalize (ftend_bound (scalar_opts o) _ (skipn cur buf) cur cur (Nat.lt_succ_diag_r _) (le_n _)).
  rewrite skipn_length. replace (cur + (length buf - cur)) with (length buf) by lia.
  auto.
Qed.

(** ** One call of populateFromDataRef *)

(** The fields populateNextTokenFromDataRef never touches. *)
Definition frame (s s1 : tstate) : Prop :=
  t_bufs s1 = t_bufs s /\ t_supply s1 = t_supply s /\ t_scope s1 = t_scope s /\
  t_stack s1 = t_stack s /\ t_copy s1 = t_copy s /\ t_parsed s1 = t_parsed s /\
  t_cont s1 = t_cont s.

Lemma frame_refl s : frame s s.
Proof. repeat split. Qed.
Lemma frame_trans a b c : frame a b -> frame b c -> frame a c.
Proof. unfold frame. intuition congruence. Qed.

(** What holds whenever populateNextTokenFromDataRef is entered. *)
Definition entry_ok (s : tstate) : Prop :=
  t_prop s = NoStartFound \/
  (t_prop s = FindingEnd /\ t_cur s = 0 /\ t_ds s = 0 /\
   (t_tok s = FindingName \/ t_tok s = FindingData)).

Definition ends_backslash (b : bytes) : Prop := exists l, b = l ++ [c_backslash].

Lemma skipn_ends_backslash n b : ends_backslash (skipn n b) -> ends_backslash b.
Proof.
  intros [l Hl]. exists (firstn n b ++ l). rewrite <- app_assoc, <- Hl. symmetry. apply firstn_skipn.
Qed.

(** Everything later proofs need about one populateFromDataRef call. *)
Definition pf_ok (buf : bytes) (s s1 : tstate) (e : error) (off size : nat) : Prop :=
  frame s s1 /\ t_tok s1 = t_tok s /\ t_im s1 = t_im s /\ t_expect s1 = t_expect s /\
  t_cur s <= t_cur s1 <= length buf /\
  (e = NoError -> off + size <= length buf /\
                  (t_prop s = NoStartFound -> t_cur s < t_cur s1)) /\
  (e = NeedMoreData ->
     (t_prop s1 = NoStartFound /\ t_prop s = NoStartFound) \/
     (t_prop s1 = FindingEnd /\ off <= t_ds s1 <= length buf)) /\
  (t_esc s = false -> e <> NeedMoreData -> t_esc s1 = false) /\
  (t_esc s = false -> e = NeedMoreData -> t_esc s1 = true -> ends_backslash buf).

Lemma finish_value_ok o buf off size0 ty s :
  t_prop s = FindingEnd -> t_cur s <= length buf -> t_ds s <= t_cur s -> off <= t_ds s ->
  exists s1 e size,
    finish_value o buf off size0 ty s = Ok (s1, e, (off, size), ty) /\
    frame s s1 /\ t_tok s1 = t_tok s /\ t_im s1 = t_im s /\ t_expect s1 = t_expect s /\
    t_cur s <= t_cur s1 <= length buf /\
    (e = NoError -> off + size <= length buf) /\
    (e = NeedMoreData -> t_prop s1 = FindingEnd /\ t_ds s1 = t_ds s) /\
    (t_esc s = false -> e <> NeedMoreData -> t_esc s1 = false) /\
    (t_esc s = false -> e = NeedMoreData -> t_esc s1 = true -> ends_backslash buf).
Proof.
  intros Hp Hc Hd Hoff. unfold finish_value. rewrite Hp. cbv zeta.
  assert (Hrest : length (skipn (t_cur s) buf) = length buf - t_cur s) by apply skipn_length.
  assert (Hsame : forall e, e <> NoError -> e <> NeedMoreData -> exists s1 e' size,
    Ok (s, e, (off, size0), ty) = Ok (s1, e', (off, size), ty) /\
    frame s s1 /\ t_tok s1 = t_tok s /\ t_im s1 = t_im s /\ t_expect s1 = t_expect s /\
    t_cur s <= t_cur s1 <= length buf /\
    (e' = NoError -> off + size <= length buf) /\
    (e' = NeedMoreData -> t_prop s1 = FindingEnd /\ t_ds s1 = t_ds s) /\
    (t_esc s = false -> e' <> NeedMoreData -> t_esc s1 = false) /\
    (t_esc s = false -> e' = NeedMoreData -> t_esc s1 = true -> ends_backslash buf)).
  { intros e He1 He2. exists s, e, size0. repeat split; auto; try lia; try congruence. }
  assert (Hneed : exists s1 e' size,
    Ok (s, NeedMoreData, (off, size0), ty) = Ok (s1, e', (off, size), ty) /\
    frame s s1 /\ t_tok s1 = t_tok s /\ t_im s1 = t_im s /\ t_expect s1 = t_expect s /\
    t_cur s <= t_cur s1 <= length buf /\
    (e' = NoError -> off + size <= length buf) /\
    (e' = NeedMoreData -> t_prop s1 = FindingEnd /\ t_ds s1 = t_ds s) /\
    (t_esc s = false -> e' <> NeedMoreData -> t_esc s1 = false) /\
    (t_esc s = false -> e' = NeedMoreData -> t_esc s1 = true -> ends_backslash buf)).
  { exists s, NeedMoreData, size0. repeat split; auto; try lia; try congruence. }
  assert (Hdone : forall neg ahead s1,
    (s1 = s \/ exists e, s1 = set_esc e s) -> (t_esc s = false -> t_esc s1 = false) ->
    t_cur s + ahead <= length buf -> t_ds s + neg <= t_cur s + ahead ->
    exists s1' e' size,
    (if t_cur s1 + ahead <? t_ds s1 + neg then UB
      else Ok (set_prop FoundEnd (set_cur (t_cur s1 + ahead) s1), NoError,
               (off, t_cur s1 + ahead - t_ds s1 - neg), ty)) = Ok (s1', e', (off, size), ty) /\
    frame s s1' /\ t_tok s1' = t_tok s /\ t_im s1' = t_im s /\ t_expect s1' = t_expect s /\
    t_cur s <= t_cur s1' <= length buf /\
    (e' = NoError -> off + size <= length buf) /\
    (e' = NeedMoreData -> t_prop s1' = FindingEnd /\ t_ds s1' = t_ds s) /\
    (t_esc s = false -> e' <> NeedMoreData -> t_esc s1' = false) /\
    (t_esc s = false -> e' = NeedMoreData -> t_esc s1' = true -> ends_backslash buf)).
  { intros neg ahead s1 Hs1 He Hb Hneg.
    assert (Hcd : t_cur s1 = t_cur s /\ t_ds s1 = t_ds s /\ frame s s1 /\ t_tok s1 = t_tok s /\
                  t_im s1 = t_im s /\ t_expect s1 = t_expect s).
    { destruct Hs1 as [->|[e ->]]; repeat split; reflexivity. }
    destruct Hcd as (C1 & C2 & C3 & C4 & C5 & C6). rewrite C1, C2.
    destruct (Nat.ltb_spec (t_cur s + ahead) (t_ds s + neg)) as [Hl|Hl]; [lia|].
    do 3 eexists. split; [reflexivity|]. cbn.
    repeat split; try apply C3; auto; try lia; try congruence. }
  destruct ty; try (apply Hsame; discriminate).
  - destruct (findStringEnd (o_isa o) (t_esc s) (skipn (t_cur s) buf)) as [[k|] e] eqn:Hf.
    + apply findStringEnd_Some in Hf. destruct Hf as [Hk He].
      apply (Hdone 1 k); [right; eauto|intros _; exact He|lia|lia].
    + exists (set_esc e s), NeedMoreData, size0. repeat split; auto; try lia; try congruence.
      cbn [set_esc t_esc]. intros He _ ->. rewrite He in Hf.
      apply findStringEnd_None_esc in Hf. apply (skipn_ends_backslash (t_cur s)). exact Hf.
  - destruct (findAsciiEnd (o_isa o) (skipn (t_cur s) buf)) as [k|] eqn:Hf.
    + apply findAsciiEnd_Some in Hf. apply (Hdone 0 k); auto; lia.
    + exact Hneed.
  - destruct (findNumberEnd (o_isa o) (skipn (t_cur s) buf)) as [k|] eqn:Hf.
    + apply findNumberEnd_Some in Hf. apply (Hdone 0 k); auto; lia.
    + exact Hneed.
Qed.

Lemma populateFrom_ok o buf ty s :
  entry_ok s -> t_cur s <= length buf ->
  exists s1 e off size ty1,
    populateFromDataRef o buf ty s = Ok (s1, e, (off, size), ty1) /\ pf_ok buf s s1 e off size.
Proof.
  intros Hentry Hc. unfold populateFromDataRef.
  destruct Hentry as [Hp|(Hp & Hc0 & Hd0 & Htok)]; rewrite Hp.
  - generalize (findStart_bound o buf (t_cur s) Hc).
    destruct (findStartOfNextValue o buf (t_cur s)) as [e c|t a c|]; intros Hb.
    + destruct Hb as [Hb He]. do 5 eexists. split; [reflexivity|].
      unfold pf_ok. cbn. rewrite Hp. repeat split; auto; try lia; try congruence.
    + destruct Hb as (Hb1 & Hb2 & Hb3). cbv zeta.
      set (start := c + a + (if type_eqb t TString then 1 else 0)).
      assert (Hst : c + a <= start <= c + a + 1) by (unfold start; destruct (type_eqb t TString); lia).
      destruct (is_bracket t) eqn:Hbr.
      * unfold finish_value. cbn [t_prop set_prop]. do 5 eexists. split; [reflexivity|].
        assert (start = c + a).
        { unfold start. destruct t; try discriminate Hbr; cbn; lia. }
        unfold pf_ok. cbn. repeat split; auto; try lia; try congruence.
      * destruct (finish_value_ok o buf start 0 t
          (set_prop FindingEnd (set_ptype t (set_cur (c + a + 1) (set_ds start s)))))
          as (s1 & e & size & E & F & T1 & T2 & T3 & T4 & T5 & T6 & T7 & T8);
          [reflexivity|cbn; lia|cbn; lia|cbn; lia|].
        exists s1, e, start, size, t. split; [exact E|].
        cbn in *. unfold pf_ok.
        repeat split; try apply F; auto; try lia.
        intros He. right. destruct (T6 He) as [T61 T62]. split; [exact T61|]. rewrite T62. lia.
    + contradiction.
  - destruct (finish_value_ok o buf (t_cur s) 0 ty s Hp Hc) as
      (s1 & e & size & E & F & T1 & T2 & T3 & T4 & T5 & T6 & T7 & T8); [lia|lia|].
    exists s1, e, (t_cur s), size, ty. split; [exact E|].
    unfold pf_ok. repeat split; try apply F; auto; try lia; try congruence.
    intros He. right. destruct (T6 He) as [T61 T62]. split; [exact T61|]. rewrite T62. lia.
Qed.

(** ** populateNextTokenFromDataRef *)

(** What one call guarantees. *)
Definition pn_ok (buf : bytes) (s s1 : tstate) (e : error) : Prop :=
  frame s s1 /\ t_cur s <= t_cur s1 <= length buf /\
  (e = NeedMoreData ->
     t_prop s1 = NoStartFound \/
     (t_prop s1 = FindingEnd /\ (t_tok s1 = FindingName \/ t_tok s1 = FindingData))) /\
  (e = NoError ->
     (t_tok s1 = FindingName \/ t_tok s1 = FindingTokenEnd) /\
     (t_cur s < t_cur s1 \/ t_prop s = FindingEnd \/ t_tok s = FindingDelimiter)) /\
  (t_esc s = false -> e <> NeedMoreData -> t_esc s1 = false) /\
  (t_esc s = false -> e = NeedMoreData -> t_esc s1 = true -> ends_backslash buf).

Definition rank (t : tokst) : nat :=
  match t with FindingData => 1 | FindingDelimiter => 2 | FindingName => 3 | FindingTokenEnd => 4 end.

Lemma slice_ok buf off n : off + n <= length buf -> slice buf off n = Ok (firstn n (skipn off buf)).
Proof. intros H. unfold slice. destruct (Nat.leb_spec (off + n) (length buf)); [reflexivity|lia]. Qed.

Lemma populateNext_ok o buf : forall f tmp nt s,
  rank (t_tok s) < f -> entry_ok s -> t_cur s <= length buf ->
  exists s1 e nt1, populateNext f o buf tmp nt s = Ok (s1, e, nt1) /\ pn_ok buf s s1 e.
Proof.
  induction f as [|f IH]; intros tmp nt s Hf Hentry Hc; [lia|].
  cbn [populateNext].
  destruct (Nat.ltb_spec (t_cur s) (length buf)) as [Hlt|Hge].
  2:{ do 3 eexists. split; [reflexivity|]. unfold pn_ok.
      repeat split; try lia; try discriminate; try congruence.
      - intros _. destruct Hentry as [H|(H1 & _ & _ & H2)]; auto. }
  destruct (t_tok s) eqn:Htok.
  - (* FindingName *)
    destruct (populateFrom_ok o buf (im_name_type (t_im s)) s Hentry Hc)
      as (s1 & e & off & size & ty & E & F & P1 & P2 & P3 & P4 & P5 & P6 & P7 & P8).
    rewrite E. cbn [obind].
    assert (Hother : e <> NoError -> e <> NeedMoreData ->
      exists s1' e' nt1, Ok (s1, e, nt) = Ok (s1', e', nt1) /\ pn_ok buf s s1' e').
    { intros He1 He2. do 3 eexists. split; [reflexivity|]. unfold pn_ok.
      repeat split; try apply F; auto; try lia; try congruence. }
    destruct e; try (apply Hother; discriminate).
    + (* NoError *)
      destruct (P5 eq_refl) as [P51 P52]. rewrite slice_ok by exact P51. cbn [obind].
      assert (Hprog : t_cur s < t_cur s1 \/ t_prop s = FindingEnd \/ t_tok s = FindingDelimiter).
      { destruct Hentry as [H|(H & _)]; [left; apply P52; exact H|right; left; exact H]. }
      specialize (P7) as P7'. 
      match goal with |- context [if im_active (t_im s1) then ?a else ?b] =>
        set (trip := if im_active (t_im s1) then a else b) end.
      assert (Htrip : frame s1 (fst (fst trip)) /\ t_tok (fst (fst trip)) = t_tok s1 /\
                      t_cur (fst (fst trip)) = t_cur s1 /\ t_esc (fst (fst trip)) = t_esc s1 /\
                      t_prop (fst (fst trip)) = t_prop s1).
      { unfold trip. destruct (im_active (t_im s1)); repeat split. }
      destruct trip as [[s2 d] ty2]. cbn [fst] in Htrip.
      destruct Htrip as (G & G1 & G2 & G3 & G4).
      assert (Hret : forall s3 e3 (nt3 : token),
        frame s2 s3 -> t_cur s3 = t_cur s2 -> t_esc s3 = t_esc s2 -> e3 <> NeedMoreData ->
        (e3 = NoError -> t_tok s3 = FindingName \/ t_tok s3 = FindingTokenEnd) ->
        exists s1' e' nt1, Ok (s3, e3, nt3) = Ok (s1', e', nt1) /\ pn_ok buf s s1' e').
      { intros s3 e3 nt3 F3 C3 X3 N3 T3. do 3 eexists. split; [reflexivity|].
        unfold pn_ok.
        split; [exact (frame_trans _ _ _ F (frame_trans _ _ _ G F3))|].
        split; [rewrite C3, G2; lia|].
        split; [congruence|].
        split; [intros He; split; [exact (T3 He)|rewrite C3, G2; exact Hprog]|].
        split; [intros H1 _; rewrite X3, G3; apply P7; [exact H1|discriminate]|congruence]. }
      assert (Hcont :
        exists s1' e' nt1,
         populateNext f o buf (mkTok d (tk_value tmp) (getType ty2 (dr_bytes d)) (tk_value_type tmp)) nt
           (resetForNewValue (set_tok FindingDelimiter s2)) = Ok (s1', e', nt1) /\
         pn_ok buf s s1' e').
      { destruct (IH (mkTok d (tk_value tmp) (getType ty2 (dr_bytes d)) (tk_value_type tmp)) nt
           (resetForNewValue (set_tok FindingDelimiter s2))) as (s3 & e3 & nt3 & E3 & F3 & Q2 & Q3 & Q4 & Q5 & Q6).
        - cbn. cbn in Hf. lia.
        - left. reflexivity.
        - cbn. lia.
        - do 3 eexists. split; [exact E3|]. cbn in F3, Q2, Q3, Q4, Q5, Q6.
          assert (He3 : t_esc s = false -> t_esc s2 = false).
          { intros H1. rewrite G3. apply P7; [exact H1|discriminate]. }
          unfold pn_ok.
          split; [exact (frame_trans _ _ _ F (frame_trans _ _ _ G F3))|].
          split; [lia|].
          split; [exact Q3|].
          split; [intros He; destruct (Q4 He) as [Q41 _]; split; [exact Q41|]|].
          { destruct Hprog as [Hl|Hr]; [left; lia|right; exact Hr]. }
          split; intros; [apply Q5; auto|apply Q6; auto]. }
      destruct ty2; try exact Hcont.
      * apply Hret; [repeat split|reflexivity|reflexivity|discriminate|intros _; left; reflexivity].
      * destruct (t_expect s2 && negb (o_comma o)).
        -- apply Hret; [repeat split|reflexivity|reflexivity|discriminate|discriminate].
        -- apply Hret; [repeat split|reflexivity|reflexivity|discriminate|intros _; right; reflexivity].
      * apply Hret; [repeat split|reflexivity|reflexivity|discriminate|intros _; left; reflexivity].
      * destruct (t_expect s2 && negb (o_comma o)).
        -- apply Hret; [repeat split|reflexivity|reflexivity|discriminate|discriminate].
        -- apply Hret; [repeat split|reflexivity|reflexivity|discriminate|intros _; right; reflexivity].
    + (* NeedMoreData *)
      destruct (P6 eq_refl) as [[P61 P62]|[P61 P62]]; rewrite P61; cbn [prop_gt_nostart].
      * do 3 eexists. split; [reflexivity|]. unfold pn_ok.
        repeat split; try apply F; auto; try lia; try congruence.
      * rewrite slice_ok by lia. cbn [obind]. do 3 eexists. split; [reflexivity|].
        unfold pn_ok. cbn. repeat split; try apply F; auto; try lia; try congruence.
        intros _. right. split; [exact P61|]. rewrite P1, Htok. auto.
  - (* FindingDelimiter *)
    generalize (findDelimiter_bound o (t_stack s) buf (t_cur s) Hc).
    assert (Hp : t_prop s = NoStartFound).
    { destruct Hentry as [H|(_ & _ & _ & [H|H])]; [exact H|congruence|congruence]. }
    destruct (findDelimiter o (t_stack s) buf (t_cur s)) as [e c|n a c|]; intros Hb.
    + destruct Hb as [Hb1 Hb2]. cbv zeta.
      assert (Hret : forall m, exists s1 e' nt1,
         Ok (if im_active (t_im (set_cur c s)) then set_cur c s else set_im m (set_cur c s), e, nt)
           = Ok (s1, e', nt1) /\ pn_ok buf s s1 e').
      { intros m. do 3 eexists. split; [reflexivity|].
        destruct (im_active (t_im (set_cur c s)));
        (unfold pn_ok; cbn; repeat split; auto; try lia; try congruence). }
      apply Hret.
    + destruct Hb as (Hb1 & Hb2 & Hb3). cbv zeta.
      assert (Hret : forall e3 (nt3 : token), e3 <> NeedMoreData -> (e3 = NoError -> n = FindingName) ->
        exists s1' e' nt1,
          Ok (set_expect false (resetForNewValue (set_tok n (set_cur (c + a) s))), e3, nt3) =
          Ok (s1', e', nt1) /\ pn_ok buf s s1' e').
      { intros e3 nt3 He Hn. do 3 eexists. split; [reflexivity|]. unfold pn_ok. cbn.
        repeat split; auto; try lia; try congruence. }
      destruct n; try (destruct Hb3; discriminate).
      * apply Hret; [discriminate|reflexivity].
      * destruct (negb (type_eqb (tk_name_type tmp) TString) && _).
        -- apply Hret; discriminate.
        -- destruct (IH tmp nt (set_expect false (resetForNewValue (set_tok FindingData (set_cur (c + a) s)))))
             as (s3 & e3 & nt3 & E3 & F3 & Q2 & Q3 & Q4 & Q5 & Q6).
           ++ cbn. cbn in Hf. lia.
           ++ left. reflexivity.
           ++ cbn. lia.
           ++ do 3 eexists. split; [exact E3|]. cbn in F3, Q2, Q3, Q4, Q5, Q6.
              unfold pn_ok. repeat split; try apply F3; auto; try lia. apply Q4; assumption.
    + contradiction.
  - (* FindingData *)
    destruct (populateFrom_ok o buf (im_data_type (t_im s)) s Hentry Hc)
      as (s1 & e & off & size & ty & E & F & P1 & P2 & P3 & P4 & P5 & P6 & P7 & P8).
    rewrite E. cbn [obind].
    assert (Hother : e <> NoError -> e <> NeedMoreData ->
      exists s1' e' nt1, Ok (s1, e, nt) = Ok (s1', e', nt1) /\ pn_ok buf s s1' e').
    { intros He1 He2. do 3 eexists. split; [reflexivity|]. unfold pn_ok.
      repeat split; try apply F; auto; try lia; try congruence. }
    destruct e; try (apply Hother; discriminate).
    + destruct (P5 eq_refl) as [P51 P52]. rewrite slice_ok by exact P51. cbn [obind].
      assert (Hprog : t_cur s < t_cur s1 \/ t_prop s = FindingEnd \/ t_tok s = FindingDelimiter).
      { destruct Hentry as [H|(H & _)]; [left; apply P52; exact H|right; left; exact H]. }
      match goal with |- context [if im_active (t_im s1) then ?a else ?b] =>
        set (trip := if im_active (t_im s1) then a else b) end.
      assert (Htrip : frame s1 (fst (fst (fst (fst trip)))) /\
                      t_cur (fst (fst (fst (fst trip)))) = t_cur s1 /\
                      t_esc (fst (fst (fst (fst trip)))) = t_esc s1).
      { unfold trip. destruct (im_active (t_im s1)); repeat split. }
      destruct trip as [[[[s2 name] nty] d] ty2]. cbn [fst] in Htrip.
      destruct Htrip as (G & G2 & G3).
      assert (Hret : forall s3 e3 (nt3 : token),
        frame s2 s3 -> t_cur s3 = t_cur s2 -> t_esc s3 = t_esc s2 -> e3 <> NeedMoreData ->
        (e3 = NoError -> t_tok s3 = FindingName \/ t_tok s3 = FindingTokenEnd) ->
        exists s1' e' nt1, Ok (s3, e3, nt3) = Ok (s1', e', nt1) /\ pn_ok buf s s1' e').
      { intros s3 e3 nt3 F3 C3 X3 N3 T3. do 3 eexists. split; [reflexivity|].
        unfold pn_ok.
        split; [exact (frame_trans _ _ _ F (frame_trans _ _ _ G F3))|].
        split; [rewrite C3, G2; lia|].
        split; [congruence|].
        split; [intros He; split; [exact (T3 He)|rewrite C3, G2; exact Hprog]|].
        split; [intros H1 _; rewrite X3, G3; apply P7; [exact H1|discriminate]|congruence]. }
      cbv zeta.
      destruct (type_eqb (getType ty2 (dr_bytes d)) TAscii && negb (o_ascii o)).
      * apply Hret; [repeat split|reflexivity|reflexivity|discriminate|discriminate].
      * apply Hret; [repeat split|reflexivity|reflexivity|discriminate|intros _; cbn; destruct ty2; auto].
    + cbv zeta. destruct (P6 eq_refl) as [[P61 P62]|[P61 P62]]; rewrite P61; cbn [prop_gt_nostart].
      * do 3 eexists. split; [reflexivity|]. unfold pn_ok. cbn.
        repeat split; try apply F; auto; try lia; try congruence.
      * rewrite slice_ok by lia. cbn [obind]. do 3 eexists. split; [reflexivity|].
        unfold pn_ok. cbn. repeat split; try apply F; auto; try lia; try congruence.
        intros _. right. split; [exact P61|]. rewrite P1, Htok. auto.
  - (* FindingTokenEnd *)
    generalize (findTokenEnd_bound o (t_stack s) buf (t_cur s) Hc).
    assert (Hp : t_prop s = NoStartFound).
    { destruct Hentry as [H|(_ & _ & _ & [H|H])]; [exact H|congruence|congruence]. }
    destruct (findTokenEnd o (t_stack s) buf (t_cur s)) as [e c|a c comma|]; intros Hb.
    + destruct Hb as [Hb1 Hb2]. do 3 eexists. split; [reflexivity|]. unfold pn_ok. cbn.
      repeat split; auto; try lia; try congruence.
    + cbv zeta. set (s1 := if comma then set_expect true s else s).
      assert (Hs1 : frame s s1 /\ t_esc s1 = t_esc s /\ t_prop s1 = t_prop s).
      { unfold s1. destruct comma; repeat split. }
      destruct Hs1 as (G & G2 & G3).
      destruct (IH tmp nt (set_tok FindingName (set_cur (c + a) s1)))
        as (s3 & e3 & nt3 & E3 & F3 & Q2 & Q3 & Q4 & Q5 & Q6).
      * cbn. cbn in Hf. lia.
      * left. cbn. congruence.
      * cbn. lia.
      * do 3 eexists. split; [exact E3|]. cbn in F3, Q2, Q3, Q4, Q5, Q6.
        unfold pn_ok.
        split; [exact (frame_trans _ _ _ G F3)|].
        split; [lia|]. split; [exact Q3|].
        split; [intros He; destruct (Q4 He) as [Q41 Q42]; split; [exact Q41|]|].
        { left. destruct Q42 as [Hl|[Hl|Hl]]; [lia|congruence|discriminate]. }
        split; intros; [apply Q5; congruence|apply Q6; congruence].
    + contradiction.
Qed.
