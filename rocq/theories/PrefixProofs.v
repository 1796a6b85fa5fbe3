(** Lemmas for C65: what the tokenizer makes of a buffer it also makes of a longer buffer, as
    long as it does not ask for more data. *)
From Verif Require Import Base ScanModel ScanProofs TokModel TokLoops TokSpec TokProofs TokIsa.
From Coq Require Import Lia.

Section Ext.
Variable u : bytes.

Lemma find_index_ext_app p l k : find_index p l = Some k -> find_index p (l ++ u) = Some k.
Proof.
  revert k. induction l as [|c l IH]; intros k; [discriminate|]. cbn.
  destruct (p c); [auto|]. destruct (find_index p l) as [j|]; [|discriminate].
  rewrite (IH j eq_refl). auto.
Qed.

Lemma comment_ext nl l k : skipComment Scalar nl l = Some k -> skipComment Scalar nl (l ++ u) = Some k.
Proof.
  unfold skipComment, comment_scalar. intros H.
  destruct (find_index _ l) as [j|] eqn:E; [|discriminate].
  rewrite (find_index_ext_app _ _ _ E). exact H.
Qed.

Lemma skipn_app_le {A} k (l r : list A) : k <= length l -> skipn k (l ++ r) = skipn k l ++ r.
Proof. intros H. rewrite skipn_app. replace (k - length l) with 0 by lia. reflexivity. Qed.

Lemma starts_slash_app c l : starts_slash ((c :: l) ++ u) = starts_slash (c :: l).
Proof. reflexivity. Qed.

(** The loops; [o] is a scalar build. *)

Lemma fsnv_ext o : o_isa o = Scalar -> forall f rest pos cur f2,
  length rest < f -> length (rest ++ u) < f2 ->
  match fsnv_loop f o rest pos cur with
  | FS_ok t a c => fsnv_loop f2 o (rest ++ u) pos cur = FS_ok t a c
  | FS_err e c => e = NeedMoreData \/ fsnv_loop f2 o (rest ++ u) pos cur = FS_err e c
  | FS_fuel => True
  end.
Proof.
  intros Hi. induction f as [|f IH]; intros rest pos cur f2 L L2; [lia|].
  destruct rest as [|c tl]; [left; reflexivity|].
  destruct f2 as [|f2]; [lia|]. cbn [app length] in L, L2.
  assert (N : forall p q, match fsnv_loop f o tl p q with
                | FS_ok t a c => fsnv_loop f2 o (tl ++ u) p q = FS_ok t a c
                | FS_err e c => e = NeedMoreData \/ fsnv_loop f2 o (tl ++ u) p q = FS_err e c
                | FS_fuel => True end) by (intros; apply IH; lia).
  cbn [fsnv_loop app].
  destruct (o_comments o && Byte.eqb c c_slash) eqn:C; cbn [andb].
  - destruct tl as [|d tl].
    + cbn [starts_slash]. apply andb_prop in C. destruct C as [_ C]. apply byte_eqb_eq in C. subst c.
      cbn. destruct f; [lia|]. left. reflexivity.
    + rewrite starts_slash_app. destruct (starts_slash (d :: tl)).
      * rewrite Hi. cbn [skipn app].
        destruct (skipComment Scalar (o_nl o) tl) as [k|] eqn:K; [|left; reflexivity].
        rewrite (comment_ext _ _ _ K).
        pose proof (skipComment_le _ _ _ _ K) as Lk.
        rewrite skipn_app_le by exact Lk. cbn [length app] in *.
        apply IH; rewrite ?app_length, skipn_length in *; rewrite ?app_length in *; lia.
      * destruct (single_char_type c); [reflexivity|].
        destruct (has c (N.lor L_PlusOrMinus L_Digits)); [reflexivity|].
        destruct (has c L_AsciiLetters); [reflexivity|].
        destruct (lookup c =? 0)%N; [right; reflexivity|apply N].
  - destruct (single_char_type c); [reflexivity|].
    destruct (has c (N.lor L_PlusOrMinus L_Digits)); [reflexivity|].
    destruct (has c L_AsciiLetters); [reflexivity|].
    destruct (lookup c =? 0)%N; [right; reflexivity|apply N].
Qed.

Lemma fdelim_ext o ct : o_isa o = Scalar -> forall f rest pos cur f2,
  length rest < f -> length (rest ++ u) < f2 ->
  match fdelim_loop f o ct rest pos cur with
  | FD_ok t a c => fdelim_loop f2 o ct (rest ++ u) pos cur = FD_ok t a c
  | FD_err e c => e = NeedMoreData \/ (o_comments o = true /\ e = ExpectedDelimiter) \/
                  fdelim_loop f2 o ct (rest ++ u) pos cur = FD_err e c
  | FD_fuel => True
  end.
Proof.
  intros Hi. induction f as [|f IH]; intros rest pos cur f2 L L2; [lia|].
  destruct rest as [|c tl]; [left; reflexivity|].
  destruct f2 as [|f2]; [lia|]. cbn [app length] in L, L2.
  assert (N : forall p q, match fdelim_loop f o ct tl p q with
                | FD_ok t a c => fdelim_loop f2 o ct (tl ++ u) p q = FD_ok t a c
                | FD_err e c => e = NeedMoreData \/ (o_comments o = true /\ e = ExpectedDelimiter) \/
                                fdelim_loop f2 o ct (tl ++ u) p q = FD_err e c
                | FD_fuel => True end) by (intros; apply IH; lia).
  cbn [fdelim_loop app].
  destruct (o_comments o && Byte.eqb c c_slash) eqn:C; cbn [andb].
  - assert (CC : o_comments o = true) by (apply andb_prop in C; tauto).
    destruct tl as [|d tl].
    + cbn [starts_slash]. apply andb_prop in C. destruct C as [_ C]. apply byte_eqb_eq in C. subst c.
      cbn. rewrite ?andb_false_r. cbn. right. left. split; [exact CC|reflexivity].
    + rewrite starts_slash_app. destruct (starts_slash (d :: tl)).
      * rewrite Hi. cbn [skipn app].
        destruct (skipComment Scalar (o_nl o) tl) as [k|] eqn:K; [|left; reflexivity].
        rewrite (comment_ext _ _ _ K).
        pose proof (skipComment_le _ _ _ _ K) as Lk.
        rewrite skipn_app_le by exact Lk. cbn [length app] in *.
        apply IH; rewrite ?app_length, skipn_length in *; rewrite ?app_length in *; lia.
      * repeat match goal with |- context [if ?b then _ else _] =>
          destruct b; [first [reflexivity|right; right; reflexivity|idtac]|] end;
        repeat match goal with |- context [if ?b then _ else _] => destruct b end;
        first [reflexivity|right; right; reflexivity|apply N].
  - repeat match goal with |- context [if ?b then _ else _] => destruct b end;
    first [reflexivity|right; right; reflexivity|apply N].
Qed.

Lemma ftend_ext o : o_isa o = Scalar -> forall f rest pos cur f2,
  length rest < f -> length (rest ++ u) < f2 ->
  match ftend_loop f o rest pos cur with
  | FE_ok a c b => ftend_loop f2 o (rest ++ u) pos cur = FE_ok a c b
  | FE_err e c => e = NeedMoreData \/ (o_comments o = true /\ e = InvalidToken) \/
                  ftend_loop f2 o (rest ++ u) pos cur = FE_err e c
  | FE_fuel => True
  end.
Proof.
  intros Hi. induction f as [|f IH]; intros rest pos cur f2 L L2; [lia|].
  destruct rest as [|c tl]; [left; reflexivity|].
  destruct f2 as [|f2]; [lia|]. cbn [app length] in L, L2.
  assert (N : forall p q, match ftend_loop f o tl p q with
                | FE_ok a c b => ftend_loop f2 o (tl ++ u) p q = FE_ok a c b
                | FE_err e c => e = NeedMoreData \/ (o_comments o = true /\ e = InvalidToken) \/
                                ftend_loop f2 o (tl ++ u) p q = FE_err e c
                | FE_fuel => True end) by (intros; apply IH; lia).
  cbn [ftend_loop app].
  destruct (o_comments o && Byte.eqb c c_slash) eqn:C; cbn [andb].
  - assert (CC : o_comments o = true) by (apply andb_prop in C; tauto).
    destruct tl as [|d tl].
    + cbn [starts_slash]. apply andb_prop in C. destruct C as [_ C]. apply byte_eqb_eq in C. subst c.
      cbn. rewrite ?andb_false_r. cbn. right. left. split; [exact CC|reflexivity].
    + rewrite starts_slash_app. destruct (starts_slash (d :: tl)).
      * rewrite Hi. cbn [skipn app].
        destruct (skipComment Scalar (o_nl o) tl) as [k|] eqn:K; [|left; reflexivity].
        rewrite (comment_ext _ _ _ K).
        pose proof (skipComment_le _ _ _ _ K) as Lk.
        rewrite skipn_app_le by exact Lk. cbn [length app] in *.
        apply IH; rewrite ?app_length, skipn_length in *; rewrite ?app_length in *; lia.
      * repeat match goal with |- context [if ?b then _ else _] => destruct b end;
        first [reflexivity|right; right; reflexivity|apply N].
  - repeat match goal with |- context [if ?b then _ else _] => destruct b end;
    first [reflexivity|right; right; reflexivity|apply N].
Qed.

Lemma skipn_ext cur (buf : bytes) : cur <= length buf -> skipn cur (buf ++ u) = skipn cur buf ++ u.
Proof. apply skipn_app_le. Qed.

Lemma findStart_ext o buf cur : o_isa o = Scalar -> cur <= length buf ->
  match findStartOfNextValue o buf cur with
  | FS_ok t a c => findStartOfNextValue o (buf ++ u) cur = FS_ok t a c
  | FS_err e c => e = NeedMoreData \/ findStartOfNextValue o (buf ++ u) cur = FS_err e c
  | FS_fuel => True
  end.
Proof.
  intros Hi L. rewrite !findStart_eq, skipn_ext by exact L. apply fsnv_ext; [reflexivity| |]; lia.
Qed.

Lemma findDelimiter_ext o st buf cur : o_isa o = Scalar -> cur <= length buf ->
  match findDelimiter o st buf cur with
  | FD_ok t a c => findDelimiter o st (buf ++ u) cur = FD_ok t a c
  | FD_err e c => e = NeedMoreData \/ (o_comments o = true /\ e = ExpectedDelimiter) \/
                  findDelimiter o st (buf ++ u) cur = FD_err e c
  | FD_fuel => True
  end.
Proof.
  intros Hi L. rewrite !findDelimiter_eq, skipn_ext by exact L.
  destruct st; [right; right; reflexivity|]. apply (fdelim_ext (scalar_opts o)); [reflexivity| |]; lia.
Qed.

Lemma findTokenEnd_ext o st buf cur : o_isa o = Scalar -> cur <= length buf ->
  match findTokenEnd o st buf cur with
  | FE_ok a c b => findTokenEnd o st (buf ++ u) cur = FE_ok a c b
  | FE_err e c => e = NeedMoreData \/ (o_comments o = true /\ e = InvalidToken) \/
                  findTokenEnd o st (buf ++ u) cur = FE_err e c
  | FE_fuel => True
  end.
Proof.
  intros Hi L. rewrite !findTokenEnd_eq, skipn_ext by exact L.
  destruct st; [reflexivity|]. apply (ftend_ext (scalar_opts o)); [reflexivity| |]; lia.
Qed.

Lemma str_scan_ext l : forall esc n k e,
  str_scan esc l n = (Some k, e) -> str_scan esc (l ++ u) n = (Some k, e).
Proof.
  induction l as [|c l IH]; intros esc n k e; [discriminate|]. cbn [str_scan app].
  destruct esc; [apply IH|]. destruct (_ =? _)%N; [|apply IH].
  destruct (Byte.eqb c c_backslash); [apply IH|]. destruct (Byte.eqb c c_quote); [auto|apply IH].
Qed.

Lemma ascii_scan_ext l : forall n k,
  ascii_scan l n = AsciiFound k -> ascii_scan (l ++ u) n = AsciiFound k.
Proof.
  induction l as [|c l IH]; intros n k; [discriminate|]. cbn [ascii_scan app].
  destruct (negb _); [apply IH|]. destruct (_ || _); [apply IH|].
  destruct (Byte.eqb c c_nul); [discriminate|auto].
Qed.

Lemma finish_ext o buf off size0 ty s s1 e r t B : o_isa o = Scalar -> t_cur s <= length buf ->
  finish_value o buf off size0 ty s = Ok (s1, e, r, t) -> e <> NeedMoreData ->
  finish_value o (buf ++ u) off size0 ty (set_bufs B s) = Ok (set_bufs B s1, e, r, t).
Proof.
  intros Hi L E N. unfold finish_value in *. cbn [t_prop set_bufs t_cur t_esc] in *.
  destruct (t_prop s); try (injection E as <- <- <- <-; reflexivity).
  rewrite skipn_ext by exact L. rewrite Hi in *. cbv zeta in *. cbn [findStringEnd findNumberEnd findAsciiEnd str_width] in *.
  destruct ty; try (injection E as <- <- <- <-; reflexivity).
  - unfold findStringEnd in *. cbn [str_width] in *.
    destruct (str_scan (t_esc s) (skipn (t_cur s) buf) 0) as [[k|] esc] eqn:K;
      [|injection E as <- <- <- <-; congruence].
    rewrite (str_scan_ext _ _ _ _ _ K).
    cbn [t_cur t_ds set_esc set_bufs] in *. destruct (_ <? _); [discriminate|].
    injection E as <- <- <- <-. reflexivity.
  - destruct (ascii_scan (skipn (t_cur s) buf) 0) as [k|] eqn:K;
      [|injection E as <- <- <- <-; congruence].
    rewrite (ascii_scan_ext _ _ _ K).
    cbn [t_cur t_ds set_esc set_bufs] in *. destruct (_ <? _); [discriminate|].
    injection E as <- <- <- <-. reflexivity.
  - unfold number_scan in *.
    destruct (find_index _ (skipn (t_cur s) buf)) as [k|] eqn:K;
      [|injection E as <- <- <- <-; congruence].
    rewrite (find_index_ext_app _ _ _ K).
    cbn [t_cur t_ds set_esc set_bufs] in *. destruct (_ <? _); [discriminate|].
    injection E as <- <- <- <-. reflexivity.
Qed.

(** The results that do not change when the buffer gets longer. *)
Definition keeps (o : opts) (e : error) : Prop :=
  e <> NeedMoreData /\ (o_comments o = true -> e <> ExpectedDelimiter /\ e <> InvalidToken).

Lemma keeps_no o : keeps o NoError.
Proof. split; [discriminate|split; discriminate]. Qed.

Lemma slice_ext buf off n raw : slice buf off n = Ok raw -> slice (buf ++ u) off n = Ok raw.
Proof.
  unfold slice. rewrite app_length. destruct (Nat.leb_spec (off + n) (length buf)); [|discriminate].
  destruct (Nat.leb_spec (off + n) (length buf + length u)); [|lia].
  rewrite skipn_app_le by lia. intros H1. rewrite firstn_app.
  replace (n - length (skipn off buf)) with 0 by (rewrite skipn_length; lia).
  rewrite app_nil_r. exact H1.
Qed.

Lemma populateFrom_ext o buf ty s s1 e r t B : o_isa o = Scalar ->
  t_prop s = NoStartFound -> t_cur s <= length buf ->
  populateFromDataRef o buf ty s = Ok (s1, e, r, t) -> e <> NeedMoreData ->
  populateFromDataRef o (buf ++ u) ty (set_bufs B s) = Ok (set_bufs B s1, e, r, t).
Proof.
  intros Hi Hp L E N. unfold populateFromDataRef in *. cbn [t_prop set_bufs t_cur]. rewrite Hp in *.
  pose proof (findStart_ext o buf (t_cur s) Hi L) as X.
  pose proof (findStart_bound o buf (t_cur s) L) as Y.
  destruct (findStartOfNextValue o buf (t_cur s)) as [e1 c|t1 a c|]; try discriminate E.
  - injection E as <- <- <- <-. destruct X as [X|X]; [congruence|]. rewrite X. reflexivity.
  - rewrite X. cbv zeta in *. destruct (is_bracket t1).
    + refine (finish_ext o buf _ _ _ _ _ _ _ _ B Hi _ E N). cbn. lia.
    + refine (finish_ext o buf _ _ _ _ _ _ _ _ B Hi _ E N). cbn. lia.
Qed.

Lemma populateNext_ext o B buf : o_isa o = Scalar -> forall f tmp nt s s1 e t,
  t_prop s = NoStartFound -> t_cur s <= length buf ->
  populateNext f o buf tmp nt s = Ok (s1, e, t) -> keeps o e ->
  populateNext f o (buf ++ u) tmp nt (set_bufs B s) = Ok (set_bufs B s1, e, t).
Proof.
  intros Hi. induction f as [|f IH]; intros tmp nt s s1 e t Hp L E K; [discriminate E|].
  destruct K as [K1 K2]. assert (K : keeps o e) by (split; assumption).
  cbn [populateNext] in *. change (t_cur (set_bufs B s)) with (t_cur s).
  change (t_tok (set_bufs B s)) with (t_tok s). change (t_im (set_bufs B s)) with (t_im s).
  change (t_stack (set_bufs B s)) with (t_stack s).
  destruct (Nat.ltb_spec (t_cur s) (length buf)) as [Lt|]; [|injection E as <- <- <-; congruence].
  destruct (Nat.ltb_spec (t_cur s) (length (buf ++ u))) as [_|Lu]; [|rewrite app_length in Lu; lia].
  destruct (t_tok s).
  - destruct (populateFrom_ok o buf (im_name_type (t_im s)) s (or_introl Hp) L)
      as (s2 & e2 & off & size & ty & E2 & P).
    rewrite E2 in E. cbn [obind] in E.
    assert (N2 : e2 <> NeedMoreData).
    { intros ->. destruct (prop_gt_nostart _); [|injection E as <- <- <-; congruence].
      destruct (slice _ _ _); cbn [obind] in E; try discriminate E. injection E as <- <- <-. congruence. }
    rewrite (populateFrom_ext _ _ _ _ _ _ _ _ B Hi Hp L E2 N2). cbn [obind].
    destruct P as (_ & _ & _ & _ & Pc & _).
    destruct e2; try congruence; try (injection E as <- <- <-; reflexivity).
    destruct (slice buf off size) as [raw| |] eqn:Es; cbn [obind] in E; try discriminate E.
    rewrite (slice_ext _ _ _ _ Es). cbn [obind]. change (t_im (set_bufs B s2)) with (t_im s2).
    destruct (im_active (t_im s2)).
    + destruct (im_name_type (t_im s2));
        try (refine (IH _ _ _ _ _ _ _ _ E K); [reflexivity|cbn; lia]);
        try (injection E as <- <- <-; reflexivity);
        change (t_expect (set_bufs B s2)) with (t_expect s2); cbn [t_expect set_im set_bufs] in *;
        destruct (t_expect s2 && negb (o_comma o)); injection E as <- <- <-; reflexivity.
    + destruct ty;
        try (refine (IH _ _ _ _ _ _ _ _ E K); [reflexivity|cbn; lia]);
        try (injection E as <- <- <-; reflexivity);
        change (t_expect (set_bufs B s2)) with (t_expect s2);
        destruct (t_expect s2 && negb (o_comma o)); injection E as <- <- <-; reflexivity.
  - pose proof (findDelimiter_ext o (t_stack s) buf (t_cur s) Hi L) as X.
    pose proof (findDelimiter_bound o (t_stack s) buf (t_cur s) L) as Y.
    destruct (findDelimiter o (t_stack s) buf (t_cur s)) as [e1 c|n1 a c|]; try discriminate E.
    + cbv zeta in *. change (t_im (set_cur c (set_bufs B s))) with (t_im (set_cur c s)).
      destruct X as [->|[[X ->]|X]].
      * injection E as <- <- <-. congruence.
      * injection E as <- <- <-. destruct (K2 X). congruence.
      * rewrite X. injection E as <- <- <-. destruct (im_active _); reflexivity.
    + rewrite X. destruct n1; try (injection E as <- <- <-; reflexivity);
      (destruct (negb _ && _); [injection E as <- <- <-; reflexivity|
        refine (IH _ _ _ _ _ _ _ _ E K); [reflexivity|cbn; lia]]).
  - destruct (populateFrom_ok o buf (im_data_type (t_im s)) s (or_introl Hp) L)
      as (s2 & e2 & off & size & ty & E2 & P).
    rewrite E2 in E. cbn [obind] in E.
    assert (N2 : e2 <> NeedMoreData).
    { intros ->. destruct (prop_gt_nostart _); [|injection E as <- <- <-; congruence].
      destruct (slice _ _ _); cbn [obind] in E; try discriminate E. injection E as <- <- <-. congruence. }
    rewrite (populateFrom_ext _ _ _ _ _ _ _ _ B Hi Hp L E2 N2). cbn [obind].
    destruct e2; try congruence; try (injection E as <- <- <-; reflexivity).
    destruct (slice buf off size) as [raw| |] eqn:Es; cbn [obind] in E; try discriminate E.
    rewrite (slice_ext _ _ _ _ Es). cbn [obind]. change (t_im (set_bufs B s2)) with (t_im s2).
    destruct (im_active (t_im s2)); cbv zeta in *;
      (destruct (type_eqb _ TAscii && _); injection E as <- <- <-; reflexivity).
  - pose proof (findTokenEnd_ext o (t_stack s) buf (t_cur s) Hi L) as X.
    pose proof (findTokenEnd_bound o (t_stack s) buf (t_cur s) L) as Y.
    destruct (findTokenEnd o (t_stack s) buf (t_cur s)) as [e1 c|a c b|]; try discriminate E.
    + destruct X as [->|[[X ->]|X]].
      * injection E as <- <- <-. congruence.
      * injection E as <- <- <-. destruct (K2 X). congruence.
      * rewrite X. injection E as <- <- <-. reflexivity.
    + rewrite X. destruct b; (refine (IH _ _ _ _ _ _ _ _ E K); [exact Hp|cbn; lia]).
Qed.

(** A tokenizer that has only one buffer, and has not asked for more. *)
Definition one_buf (buf : bytes) (s : tstate) : Prop :=
  t_bufs s = [buf] /\ t_supply s = [] /\ t_parsed s = None /\ t_cont s = false /\
  t_copy s = [] /\ t_cur s <= length buf.

Lemma scope_handle_bufs t B s : scope_handle t (set_bufs B s) = set_bufs B (scope_handle t s).
Proof. unfold scope_handle. cbn [t_scope set_bufs]. destruct (t_scope s); reflexivity. Qed.

Lemma one_buf_scope buf t s : one_buf buf s -> one_buf buf (scope_handle t s).
Proof. unfold scope_handle, one_buf. destruct (t_scope s); auto. Qed.

Lemma nextToken_ext o nt buf s s1 e t : o_isa o = Scalar -> one_buf buf s ->
  nextToken o nt s = Ok (s1, e, t) ->
  (e = NoError -> one_buf buf s1) /\
  (keeps o e -> nextToken o nt (set_bufs [buf ++ u] s) = Ok (set_bufs [buf ++ u] s1, e, t)).
Proof.
  intros Hi (S1 & S2 & S3 & S4 & S5 & S6) E. unfold nextToken in *.
  change (t_scope (set_bufs [buf ++ u] s)) with (t_scope s).
  change (t_parsed (set_bufs [buf ++ u] s)) with (t_parsed s).
  destruct (match t_scope s with (_, d) :: _ => (d =? 0)%N | [] => false end).
  { injection E as <- <- <-. split; [discriminate|reflexivity]. }
  rewrite S3 in *. rewrite S1 in E. cbv zeta in *. rewrite S1, S4 in E. cbn [t_bufs set_bufs].
  change (t_cont (set_bufs [buf ++ u] s)) with (t_cont s). rewrite S4.
  set (s2 := resetForNewToken s) in *.
  change (resetForNewToken (set_bufs [buf ++ u] s)) with (set_bufs [buf ++ u] s2).
  assert (B1 : buffers_left s2 = 1).
  { unfold buffers_left. change (t_bufs s2) with (t_bufs s). change (t_supply s2) with (t_supply s).
    rewrite S1, S2. reflexivity. }
  assert (B2 : buffers_left (set_bufs [buf ++ u] s2) = 1).
  { unfold buffers_left. cbn [t_bufs set_bufs]. change (t_supply (set_bufs [buf ++ u] s2)) with (t_supply s).
    rewrite S2. reflexivity. }
  rewrite B1 in E. rewrite B2. cbn [buffer_loop t_bufs set_bufs] in *.
  change (t_bufs s2) with (t_bufs s) in E. rewrite S1 in E.
  change (resetForNewToken s) with s2 in E.
  assert (C2 : t_cur s2 <= length buf) by exact S6.
  assert (Q2 : t_prop s2 = NoStartFound) by reflexivity.
  destruct (populateNext_ok o buf loop_fuel tok_default nt s2) as (s3 & e3 & nt3 & E3 & F & Q).
  { unfold loop_fuel. destruct (t_tok s2); cbn; lia. }
  { left. reflexivity. }
  { exact C2. }
  rewrite E3 in E. cbn [obind] in E.
  destruct F as (F1 & F2 & F3 & F4 & F5 & F6 & F7).
  assert (S3' : e3 <> NeedMoreData -> one_buf buf s3).
  { intros _. repeat split.
    - rewrite F1. exact S1.
    - rewrite F2. exact S2.
    - rewrite F6. exact S3.
    - rewrite F7. exact S4.
    - rewrite F5. exact S5.
    - destruct Q as (Qc & _). lia. }
  assert (Hneed : e3 = NeedMoreData -> e = NeedMoreData).
  { intros ->. cbn [obind] in E. unfold releaseFirstDataRef in E. rewrite F1 in E.
    change (t_bufs s2) with (t_bufs s) in E. rewrite S1, F5 in E. change (t_copy s2) with (t_copy s) in E.
    rewrite S5 in E. cbn [flush_copies obind] in E.
    unfold requestMoreData in E. cbn [t_supply set_bufs set_ds set_cur set_copy] in E.
    rewrite F2 in E. change (t_supply s2) with (t_supply s) in E. rewrite S2 in E.
    cbn [buffer_loop t_bufs set_bufs obind] in E. injection E as <- <- <-. reflexivity. }
  destruct (match e3 with NeedMoreData => true | _ => false end) eqn:Hn.
  { destruct e3; try discriminate Hn. rewrite (Hneed eq_refl). split; [discriminate|].
    intros [K _]. congruence. }
  assert (N3 : e3 <> NeedMoreData) by (intros ->; discriminate Hn).
  specialize (S3' N3).
  assert (X : keeps o e3 -> populateNext loop_fuel o (buf ++ u) tok_default nt (set_bufs [buf ++ u] s2) =
              Ok (set_bufs [buf ++ u] s3, e3, nt3)).
  { apply populateNext_ext; auto. }
  assert (E4 : match e3 with NeedMoreData => True | _ => True end) by (destruct e3; exact I).
  clear E4 Hneed.
  destruct (match e3 with NoError => true | _ => false end) eqn:H0.
  - destruct e3; try discriminate H0. cbn [obind] in E. rewrite (X (keeps_no o)). cbn [obind].
    cbn [is_need_more] in *.
    assert (S4' : one_buf buf (set_cont false s3)).
    { destruct S3' as (T1 & T2 & T3 & T4 & T5 & T6). repeat split; assumption. }
    assert (S5' : forall st, one_buf buf (set_stack st (set_cont false s3))).
    { intros st. destruct S3' as (T1 & T2 & T3 & T4 & T5 & T6). repeat split; assumption. }
    change (set_cont false (set_bufs [buf ++ u] s3)) with (set_bufs [buf ++ u] (set_cont false s3)).
    change (t_stack (set_bufs [buf ++ u] (set_cont false s3))) with (t_stack (set_cont false s3)).
    assert (G : forall st, set_stack st (set_bufs [buf ++ u] (set_cont false s3)) =
                set_bufs [buf ++ u] (set_stack st (set_cont false s3))) by reflexivity.
    destruct (tk_value_type nt3); cbn [t_stack set_cont] in *;
      try (destruct (t_stack s3) as [|[] st]);
      injection E as <- <- <-; rewrite ?G, ?scope_handle_bufs;
      (split; [first [discriminate|intros _; apply one_buf_scope; auto]|reflexivity]).
  - assert (Ee : e = e3 /\ t = nt3 /\ s1 = set_cont (is_need_more e3) s3).
    { destruct e3; try congruence; try discriminate H0; cbn [obind] in E;
      injection E as <- <- <-; repeat split. }
    destruct Ee as (-> & -> & ->). split; [intros ->; discriminate H0|].
    intros K. rewrite (X K). cbn [obind]. destruct e3; try congruence; try discriminate H0; reflexivity.
Qed.

Lemma drain_ext o buf : o_isa o = Scalar -> forall f f2 nt s ts e s1 ts2 e2 s2, one_buf buf s ->
  drain f o nt s = Ok (ts, e, s1) ->
  drain f2 o nt (set_bufs [buf ++ u] s) = Ok (ts2, e2, s2) ->
  exists more, ts2 = ts ++ more /\ (keeps o e -> more = [] /\ e2 = e).
Proof.
  intros Hi. induction f as [|f IH]; intros f2 nt s ts e s1 ts2 e2 s2 Hs D1 D2; [discriminate D1|].
  destruct f2 as [|f2]; [discriminate D2|]. cbn [drain] in *.
  destruct (nextToken o nt s) as [[[s3 e3] t3]| |] eqn:E; cbn [obind] in D1; try discriminate D1.
  destruct (nextToken_ext o nt buf s s3 e3 t3 Hi Hs E) as [X1 X2].
  destruct (match e3 with NoError => true | _ => false end) eqn:H0.
  - destruct e3; try discriminate H0. rewrite (X2 (keeps_no o)) in D2. cbn [obind] in D2.
    destruct (drain f o t3 s3) as [[[ts3 e4] s4]| |] eqn:D3; cbn [obind] in D1; try discriminate D1.
    injection D1 as <- <- <-.
    destruct (drain f2 o t3 (set_bufs [buf ++ u] s3)) as [[[ts5 e5] s5]| |] eqn:D4; cbn [obind] in D2; try discriminate D2.
    injection D2 as <- <- <-.
    destruct (IH _ _ _ _ _ _ _ _ _ (X1 eq_refl) D3 D4) as (more & -> & M).
    exists more. split; [reflexivity|exact M].
  - assert (ts = [] /\ e = e3) as [-> ->].
    { destruct e3; try discriminate H0; injection D1 as <- <- <-; auto. }
    exists ts2. split; [reflexivity|]. intros K. rewrite (X2 K) in D2. cbn [obind] in D2.
    destruct e3; try discriminate H0; injection D2 as <- <- <-; auto.
Qed.

End Ext.

Lemma drain_prefix i o t u f f2 nt ts e s1 ts2 e2 s2 :
  drain f (mkOpts i (o_ascii o) (o_nl o) (o_comma o) (o_comments o)) nt (tok_with [t] []) = Ok (ts, e, s1) ->
  drain f2 (mkOpts i (o_ascii o) (o_nl o) (o_comma o) (o_comments o)) nt (tok_with [t ++ u] []) = Ok (ts2, e2, s2) ->
  exists more, ts2 = ts ++ more /\ (keeps o e -> more = [] /\ e2 = e).
Proof.
  assert (C : forall b : bytes, cut_clean ([b] ++ concat [])).
  { intros b [|x l1] c [|y l2] H Hn; try congruence; cbn in H; try discriminate H;
    try (destruct l1; discriminate H). }
  intros D1 D2. rewrite (drain_isa_new i o [t] [] f nt (C t)) in D1.
  rewrite (drain_isa_new i o [t ++ u] [] f2 nt (C (t ++ u))) in D2.
  refine (drain_ext u (scalar_opts o) t eq_refl f f2 nt (tok_with [t] []) ts e s1 ts2 e2 s2 _ D1 D2).
  repeat split. cbn. lia.
Qed.
