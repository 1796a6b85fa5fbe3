(** Errors that every further call repeats. *)
From Verif Require Import Tactics Base ScanModel ScanProofs TokModel TokLoops TokProofs TokSafe TokSpecProofs JsonSpec TokSpec TokSlice.
From Coq Require Import Lia.

Lemma skipn_skipn {A} (m n : nat) : forall l : list A, skipn m (skipn n l) = skipn (m + n) l.
Proof.
  intros l. rewrite Nat.add_comm. revert l.
  induction n as [|n IH]; intros l; [reflexivity|]. destruct l; [rewrite !skipn_nil; reflexivity|]. apply IH.
Qed.

Lemma skipn_cons_next {A} n (l : list A) c tl : skipn n l = c :: tl -> skipn (S n) l = tl.
Proof.
  intros H. change (S n) with (1 + n). rewrite <- skipn_skipn, H. reflexivity.
Qed.

Lemma skipn_comment n k (l : bytes) c tl :
  skipn n l = c :: tl -> skipn k (skipn 1 tl) = skipn (n + 2 + k) l.
Proof.
  intros H. apply skipn_cons_next in H. rewrite <- H, !skipn_skipn. f_equal. lia.
Qed.

(** ** A scan that failed fails again when it is started at the resulting position *)

Lemma fsnv_again o buf e : e <> NeedMoreData -> forall f rest pos cur c,
  rest = skipn pos buf -> length rest < f -> cur <= pos ->
  fsnv_loop f o rest pos cur = fsnv_loop (S (length (skipn cur buf))) o (skipn cur buf) cur cur ->
  fsnv_loop f o rest pos cur = FS_err e c ->
  fsnv_loop (S (length (skipn c buf))) o (skipn c buf) c c = FS_err e c.
Proof.
  intros He. induction f as [|f IH]; intros rest pos cur c Hr Hf Hc H E; [lia|].
  assert (Hdone : c = cur -> fsnv_loop (S (length (skipn c buf))) o (skipn c buf) c c = FS_err e c).
  { intros ->. rewrite <- H. exact E. }
  remember (fsnv_loop (S (length (skipn cur buf))) o (skipn cur buf) cur cur) as R eqn:HR.
  cbn [fsnv_loop] in E, H. destruct rest as [|b tl].
  { injection E as <- <-. congruence. }
  destruct (o_comments o && Byte.eqb b c_slash && starts_slash tl) eqn:Hcm.
  - destruct (skipComment (o_isa o) (o_nl o) (skipn 1 tl)) as [k|] eqn:Hk.
    2:{ injection E as <- _. congruence. }
    rewrite (skipn_comment _ _ _ _ _ (eq_sym Hr)) in E, H.
    eapply (IH (skipn (pos + 2 + k) buf) (pos + 2 + k) (pos + 2 + k) c); [reflexivity| |lia| |exact E].
    + apply (f_equal (@length _)) in Hr. rewrite skipn_length in Hr |- *. cbn [length] in Hr, Hf. lia.
    + apply fsnv_fuel; [|lia].
      apply (f_equal (@length _)) in Hr. rewrite skipn_length in Hr |- *. cbn [length] in Hr, Hf. lia.
  - destruct (single_char_type b); [discriminate|].
    destruct (has b (N.lor L_PlusOrMinus L_Digits)); [discriminate|].
    destruct (has b L_AsciiLetters); [discriminate|].
    destruct (lookup b =? 0)%N.
    + injection E as <- <-. apply Hdone. reflexivity.
    + eapply (IH tl (S pos) cur c); [|cbn [length] in Hf; lia|lia| |exact E].
      * symmetry. eapply skipn_cons_next. symmetry. exact Hr.
      * rewrite H, HR. reflexivity.
Qed.

Lemma fdelim_again o ct buf e : e <> NeedMoreData -> forall f rest pos cur c,
  rest = skipn pos buf -> length rest < f -> cur <= pos ->
  fdelim_loop f o ct rest pos cur = fdelim_loop (S (length (skipn cur buf))) o ct (skipn cur buf) cur cur ->
  fdelim_loop f o ct rest pos cur = FD_err e c ->
  fdelim_loop (S (length (skipn c buf))) o ct (skipn c buf) c c = FD_err e c.
Proof.
  intros He. induction f as [|f IH]; intros rest pos cur c Hr Hf Hc H E; [lia|].
  assert (Hdone : c = cur -> fdelim_loop (S (length (skipn c buf))) o ct (skipn c buf) c c = FD_err e c).
  { intros ->. rewrite <- H. exact E. }
  remember (fdelim_loop (S (length (skipn cur buf))) o ct (skipn cur buf) cur cur) as R eqn:HR.
  cbn [fdelim_loop] in E, H. destruct rest as [|b tl].
  { injection E as <- <-. congruence. }
  destruct (o_comments o && Byte.eqb b c_slash && starts_slash tl) eqn:Hcm.
  - destruct (skipComment (o_isa o) (o_nl o) (skipn 1 tl)) as [k|] eqn:Hk.
    2:{ injection E as <- _. congruence. }
    rewrite (skipn_comment _ _ _ _ _ (eq_sym Hr)) in E, H.
    eapply (IH (skipn (pos + 2 + k) buf) (pos + 2 + k) (pos + 2 + k) c); [reflexivity| |lia| |exact E].
    + apply (f_equal (@length _)) in Hr. rewrite skipn_length in Hr |- *. cbn [length] in Hr, Hf. lia.
    + apply fdelim_fuel; [|lia].
      apply (f_equal (@length _)) in Hr. rewrite skipn_length in Hr |- *. cbn [length] in Hr, Hf. lia.
  - destruct (Byte.eqb b c_colon).
    { destruct (negb (type_eqb ct TObjectStart)); [|discriminate].
      injection E as <- <-. apply Hdone. reflexivity. }
    destruct (Byte.eqb b c_comma || (o_nl o && Byte.eqb b c_nl)).
    { destruct (negb (type_eqb ct TArrayStart)); [|discriminate].
      injection E as <- <-. apply Hdone. reflexivity. }
    destruct (Byte.eqb b c_rbracket).
    { destruct (negb (type_eqb ct TArrayStart)); [|discriminate].
      injection E as <- <-. apply Hdone. reflexivity. }
    destruct (negb (has b L_WhiteSpaceOrNull)).
    + injection E as <- <-. apply Hdone. reflexivity.
    + eapply (IH tl (S pos) cur c); [|cbn [length] in Hf; lia|lia| |exact E].
      * symmetry. eapply skipn_cons_next. symmetry. exact Hr.
      * rewrite H, HR. reflexivity.
Qed.

Lemma ftend_again o buf e : e <> NeedMoreData -> forall f rest pos cur c,
  rest = skipn pos buf -> length rest < f -> cur <= pos ->
  ftend_loop f o rest pos cur = ftend_loop (S (length (skipn cur buf))) o (skipn cur buf) cur cur ->
  ftend_loop f o rest pos cur = FE_err e c ->
  ftend_loop (S (length (skipn c buf))) o (skipn c buf) c c = FE_err e c.
Proof.
  intros He. induction f as [|f IH]; intros rest pos cur c Hr Hf Hc H E; [lia|].
  assert (Hdone : c = cur -> ftend_loop (S (length (skipn c buf))) o (skipn c buf) c c = FE_err e c).
  { intros ->. rewrite <- H. exact E. }
  remember (ftend_loop (S (length (skipn cur buf))) o (skipn cur buf) cur cur) as R eqn:HR.
  cbn [ftend_loop] in E, H. destruct rest as [|b tl].
  { injection E as <- <-. congruence. }
  assert (Hnext : ftend_loop f o tl (S pos) cur = R -> ftend_loop f o tl (S pos) cur = FE_err e c ->
     ftend_loop (S (length (skipn c buf))) o (skipn c buf) c c = FE_err e c).
  { intros H' E'. eapply (IH tl (S pos) cur c); [|cbn [length] in Hf; lia|lia| |exact E'].
    - symmetry. eapply skipn_cons_next. symmetry. exact Hr.
    - rewrite H', HR. reflexivity. }
  destruct (o_comments o && Byte.eqb b c_slash && starts_slash tl) eqn:Hcm.
  - destruct (skipComment (o_isa o) (o_nl o) (skipn 1 tl)) as [k|] eqn:Hk.
    2:{ injection E as <- _. congruence. }
    rewrite (skipn_comment _ _ _ _ _ (eq_sym Hr)) in E, H.
    eapply (IH (skipn (pos + 2 + k) buf) (pos + 2 + k) (pos + 2 + k) c); [reflexivity| |lia| |exact E].
    + apply (f_equal (@length _)) in Hr. rewrite skipn_length in Hr |- *. cbn [length] in Hr, Hf. lia.
    + apply ftend_fuel; [|lia].
      apply (f_equal (@length _)) in Hr. rewrite skipn_length in Hr |- *. cbn [length] in Hr, Hf. lia.
  - destruct (Byte.eqb b c_comma); [discriminate|].
    destruct (Byte.eqb b c_rbracket || Byte.eqb b c_rbrace); [discriminate|].
    destruct (Byte.eqb b c_nl).
    { destruct (o_nl o); [discriminate|]. apply Hnext; assumption. }
    destruct (has b L_WhiteSpaceOrNull).
    + apply Hnext; assumption.
    + injection E as <- <-. apply Hdone. reflexivity.
Qed.

Lemma findStart_again o buf cur e c :
  e <> NeedMoreData -> findStartOfNextValue o buf cur = FS_err e c ->
  findStartOfNextValue o buf c = FS_err e c.
Proof.
  intros He. rewrite !findStart_eq. intros E.
  eapply fsnv_again; [exact He|reflexivity| |apply le_n| |exact E]; [lia|reflexivity].
Qed.

Lemma findDelimiter_again o st buf cur e c :
  e <> NeedMoreData -> findDelimiter o st buf cur = FD_err e c ->
  findDelimiter o st buf c = FD_err e c.
Proof.
  intros He. rewrite !findDelimiter_eq. destruct st; [congruence|]. intros E.
  eapply fdelim_again; [exact He|reflexivity| |apply le_n| |exact E]; [lia|reflexivity].
Qed.

Lemma findTokenEnd_again o st buf cur e c :
  e <> NeedMoreData -> findTokenEnd o st buf cur = FE_err e c ->
  findTokenEnd o st buf c = FE_err e c.
Proof.
  intros He. rewrite !findTokenEnd_eq. destruct st; [discriminate|]. intros E.
  eapply ftend_again; [exact He|reflexivity| |apply le_n| |exact E]; [lia|reflexivity].
Qed.

(** ** Stuck states *)

Definition scan_fails (o : opts) (buf : bytes) (s : tstate) (e : error) : Prop :=
  match t_tok s with
  | FindingName | FindingData => findStartOfNextValue o buf (t_cur s) = FS_err e (t_cur s)
  | FindingDelimiter => findDelimiter o (t_stack s) buf (t_cur s) = FD_err e (t_cur s)
  | FindingTokenEnd => findTokenEnd o (t_stack s) buf (t_cur s) = FE_err e (t_cur s)
  end.

Definition stuck (o : opts) (e : error) (s : tstate) : Prop :=
  t_parsed s = None /\ t_cont s = false /\
  exists buf bs, t_bufs s = buf :: bs /\ t_cur s < length buf /\ scan_fails o buf s e.

Lemma populateNext_stuck o buf e tmp nt s f :
  e <> NeedMoreData -> e <> NoError -> t_prop s = NoStartFound -> t_cur s < length buf -> scan_fails o buf s e ->
  exists s1, populateNext (S f) o buf tmp nt s = Ok (s1, e, nt) /\
    t_tok s1 = t_tok s /\ t_cur s1 = t_cur s /\ frame s s1.
Proof.
  intros He He0 Hp Hc Hs. unfold scan_fails in Hs. cbn [populateNext].
  destruct (Nat.ltb_spec (t_cur s) (length buf)); [|lia].
  destruct (t_tok s) eqn:Ht.
  - unfold populateFromDataRef. rewrite Hp, Hs. cbn [obind].
    destruct e; try congruence;
      (eexists; split; [reflexivity|]; split; [exact Ht|]; split; [reflexivity|repeat split]).
  - rewrite Hs. eexists. split; [reflexivity|].
    destruct (im_active (t_im (set_cur (t_cur s) s))); split; try exact Ht; (split; [reflexivity|repeat split]).
  - unfold populateFromDataRef. rewrite Hp, Hs. cbn [obind].
    destruct e; try congruence;
      (eexists; split; [reflexivity|]; split; [exact Ht|]; split; [reflexivity|repeat split]).
  - rewrite Hs. eexists. split; [reflexivity|]. split; [exact Ht|]. split; [reflexivity|repeat split].
Qed.

Lemma stuck_next o e nt s s1 e1 nt1 :
  e <> NeedMoreData -> e <> NoError -> stuck o e s -> nextToken o nt s = Ok (s1, e1, nt1) ->
  (e1 = e \/ e1 = ScopeHasEnded) /\ nt1 = nt /\ stuck o e s1.
Proof.
  intros He He0 (Hp & Hcont & buf & bs & Hb & Hc & Hs) E.
  destruct (nextToken_inv o nt s s1 e1 nt1 Hp E) as [(-> & -> & ->)|H].
  { split; [auto|]. split; [reflexivity|]. split; [exact Hp|]. split; [exact Hcont|]. exists buf, bs. auto. }
  rewrite Hb in H. cbv zeta in H.
  destruct H as [(H & _)|(_ & s2 & e2 & sc & st & E2 & -> & H1 & H2 & H3)]; [congruence|].
  rewrite Hcont in E2. set (s0 := resetForNewToken s) in *.
  cbn [buffer_loop] in E2. replace (t_bufs s0) with (buf :: bs) in E2 by (symmetry; exact Hb).
  destruct (populateNext_stuck o buf e tok_default nt s0 4 He He0 eq_refl Hc Hs) as (s3 & E3 & T1 & T2 & F).
  change 5 with loop_fuel in E3. rewrite E3 in E2. cbn [obind] in E2.
  assert (E4 : Ok (s3, e, nt) = Ok (s2, e2, nt1)) by (destruct e; try exact E2; congruence).
  injection E4 as <- <- <-. specialize (H2 He0). subst e1.
  split; [auto|]. split; [reflexivity|]. destruct (H3 He0) as [-> ->].
  destruct F as (F1 & F2 & F3 & F4 & F5 & F6 & F7).
  unfold stuck. cbn. split; [rewrite F6; exact Hp|]. split; [destruct e; congruence || reflexivity|].
  exists buf, bs. split; [rewrite F1; exact Hb|]. split; [rewrite T2; exact Hc|].
  unfold scan_fails in *. cbn. rewrite T1, T2, F4. exact Hs.
Qed.

Lemma stuck_continued o e s s1 :
  e <> NeedMoreData -> e <> NoError -> stuck o e s -> continued o s s1 -> stuck o e s1.
Proof.
  intros He He0 Hs. induction 1 as [|s1 nt s2 e1 nt1 H IH E|s1 d H IH|s1 l H IH|s1 t H IH|s1 s2 H IH E].
  - exact Hs.
  - eapply stuck_next; eauto.
  - destruct IH as (A & B & buf & bs & C & D & F). split; [exact A|]. split; [exact B|].
    exists buf, (bs ++ [d]). cbn. rewrite C. auto.
  - exact IH.
  - exact IH.
  - unfold popScope in E. destruct (t_scope s1); [discriminate|]. injection E as <-. exact IH.
Qed.

(** ** Which errors leave the tokenizer stuck *)

Definition sticky (e : error) : Prop :=
  e = ExpectedDelimiter \/ e = EncounteredIllegalChar \/ e = IllegalPropertyType.

Lemma scan_not_end o buf s e : e <> NeedMoreData -> t_cur s <= length buf ->
  t_tok s <> FindingDelimiter -> scan_fails o buf s e -> t_cur s < length buf.
Proof.
  intros He Hc Ht Hs. destruct (Nat.eq_dec (t_cur s) (length buf)) as [H|H]; [exfalso|lia].
  assert (Hn : skipn (t_cur s) buf = []) by (rewrite H; apply skipn_all).
  unfold scan_fails in Hs. rewrite findStart_eq, findTokenEnd_eq, Hn in Hs.
  destruct (t_tok s); cbn in Hs; try congruence. destruct (t_stack s); [discriminate|congruence].
Qed.

Lemma finish_errors o buf off size ty s s1 e r ty1 :
  finish_value o buf off size ty s = Ok (s1, e, r, ty1) ->
  e = NoError \/ e = NeedMoreData \/ e = InvalidToken /\ t_prop s = FindingEnd /\ ty <> TString /\ ty <> TNumber /\ ty <> TAscii.
Proof.
  unfold finish_value. destruct (t_prop s); try (intros E; injection E as _ <- _ _; auto).
  cbv zeta. destruct ty; try (intros E; injection E as _ <- _ _; right; right; repeat split; discriminate).
  - destruct (findStringEnd _ _ _) as [[k|] b]; [destruct (_ <? _); [discriminate|]|]; intros E; injection E as _ <- _ _; auto.
  - destruct (findAsciiEnd _ _) as [k|]; [destruct (_ <? _); [discriminate|]|]; intros E; injection E as _ <- _ _; auto.
  - destruct (findNumberEnd _ _) as [k|]; [destruct (_ <? _); [discriminate|]|]; intros E; injection E as _ <- _ _; auto.
Qed.

Lemma fsnv_type_loop o : forall f rest pos cur t a c,
  fsnv_loop f o rest pos cur = FS_ok t a c ->
  is_bracket t = true \/ t = TString \/ t = TNumber \/ t = TAscii.
Proof.
  induction f as [|f IH]; intros rest pos cur t a c E; [discriminate|].
  cbn [fsnv_loop] in E. destruct rest as [|b tl]; [discriminate|].
  destruct (o_comments o && Byte.eqb b c_slash && starts_slash tl).
  - destruct (skipComment _ _ _); [|discriminate]. eapply IH; exact E.
  - destruct (single_char_type b) as [t'|] eqn:Hs.
    + injection E as <- _ _. unfold single_char_type in Hs.
      repeat (destruct (Byte.eqb b _); [injection Hs as <-; auto|]). discriminate.
    + destruct (has b (N.lor L_PlusOrMinus L_Digits)); [injection E as <- _ _; auto|].
      destruct (has b L_AsciiLetters); [injection E as <- _ _; auto|].
      destruct (lookup b =? 0)%N; [discriminate|]. eapply IH; exact E.
Qed.

Lemma fsnv_type o buf cur t a c :
  findStartOfNextValue o buf cur = FS_ok t a c ->
  is_bracket t = true \/ t = TString \/ t = TNumber \/ t = TAscii.
Proof. rewrite findStart_eq. apply fsnv_type_loop. Qed.

Lemma populateFrom_stuck o buf ty s s1 e r ty1 :
  t_cur s <= length buf ->
  populateFromDataRef o buf ty s = Ok (s1, e, r, ty1) ->
  e = NoError \/ e = NeedMoreData \/ (e = InvalidToken /\ t_prop s = FindingEnd) \/
  findStartOfNextValue o buf (t_cur s1) = FS_err e (t_cur s1) /\ t_cur s1 <= length buf /\ t_tok s1 = t_tok s.
Proof.
  intros Hc. unfold populateFromDataRef.
  destruct (t_prop s) eqn:Hp.
  - generalize (findStart_bound o buf (t_cur s) Hc) (fsnv_type o buf (t_cur s)). intros Hb Ht. revert Hb Ht.
    destruct (findStartOfNextValue o buf (t_cur s)) as [e0 c|t a c|] eqn:Ef; intros Hb Ht E; [| |discriminate].
    + injection E as <- <- _ _. destruct (error_is_need e0) as [->|He0]; [auto|].
      right. right. right. cbn. split; [eapply findStart_again; eauto|]. split; [lia|reflexivity].
    + destruct (is_bracket t) eqn:Hbr.
      * unfold finish_value in E. cbn in E. injection E as _ <- _ _. auto.
      * apply finish_errors in E. destruct E as [E|[E|(_ & _ & E1 & E2 & E3)]]; auto.
        specialize (Ht _ _ _ eq_refl). intuition congruence.
  - intros E. apply finish_errors in E. rewrite Hp in E. destruct E as [E|[E|(E & E1 & _)]]; auto.
  - intros E. apply finish_errors in E. rewrite Hp in E. destruct E as [E|[E|(E & E1 & _)]]; auto.
Qed.

Lemma populateNext_sticks o buf e : forall f tmp nt s s1 nt1,
  sticky e \/ (e = InvalidToken /\ t_prop s = NoStartFound) ->
  t_cur s <= length buf -> entry_ok s ->
  populateNext f o buf tmp nt s = Ok (s1, e, nt1) ->
  t_cur s1 < length buf /\ scan_fails o buf s1 e.
Proof.
  induction f as [|f IH]; intros tmp nt s s1 nt1 He Hc Hen E; [discriminate|].
  assert (Hne : e <> NeedMoreData /\ e <> NoError) by (unfold sticky in He; intuition congruence).
  destruct Hne as [Hne1 Hne2].
  cbn [populateNext] in E. destruct (Nat.ltb_spec (t_cur s) (length buf)); [|congruence].
  destruct (t_tok s) eqn:Htok.
  - destruct (populateFromDataRef o buf (im_name_type (t_im s)) s) as [[[[s2 e2] [off sz]] ty]| |] eqn:Epf;
      cbn [obind] in E; try discriminate.
    destruct (populateFrom_ok o buf (im_name_type (t_im s)) s Hen Hc) as (s2' & e' & off' & sz' & ty' & E' & Hok).
    rewrite Epf in E'. injection E' as <- <- <- <- <-.
    destruct (populateFrom_stuck _ _ _ _ _ _ _ _ Hc Epf) as [->|[->|[[-> Hpr]|(P1 & P2 & P3)]]].
    + destruct Hok as (F & Q1 & Q2 & Q3 & Q4 & _).
      destruct (slice buf off sz) as [raw| |] eqn:Esl; cbn [obind] in E; try discriminate.
      set (pr := if im_active (t_im s2) then _ else _) in E.
      assert (Hpr : t_cur (fst (fst pr)) = t_cur s2) by (unfold pr; destruct (im_active (t_im s2)); reflexivity).
      destruct pr as [[s3 d] ty2]. cbn [fst] in Hpr.
      assert (Hcont : forall tmp', populateNext f o buf tmp' nt (resetForNewValue (set_tok FindingDelimiter s3)) = Ok (s1, e, nt1) ->
         t_cur s1 < length buf /\ scan_fails o buf s1 e).
      { intros tmp' H'. eapply IH; [| | |exact H'].
        - destruct He as [He|[He _]]; [auto|right; split; [exact He|reflexivity]].
        - cbn. lia.
        - left. reflexivity. }
      destruct ty2; try (eapply Hcont; exact E); try congruence.
      * destruct (t_expect s3 && negb (o_comma o)); [|congruence].
        injection E as _ <- _. unfold sticky in He. intuition congruence.
      * destruct (t_expect s3 && negb (o_comma o)); [|congruence].
        injection E as _ <- _. unfold sticky in He. intuition congruence.
    + destruct (prop_gt_nostart (t_prop s2)); [|congruence].
      destruct (slice _ _ _); cbn [obind] in E; congruence.
    + injection E as _ <- _. unfold sticky in He. intuition congruence.
    + assert (E2 : Ok (s2, e2, nt) = Ok (s1, e, nt1)).
      { destruct e2; try exact E; generalize (findStart_bound o buf (t_cur s2) P2); rewrite P1; intros [_ HH]; [congruence|].
        destruct (prop_gt_nostart (t_prop s2)); [|congruence]. destruct (slice _ _ _); cbn [obind] in E; congruence. }
      injection E2 as <- <- <-.
      assert (Hsf : scan_fails o buf s2 e2) by (unfold scan_fails; rewrite P3, Htok; exact P1).
      split; [|exact Hsf]. eapply scan_not_end; [exact Hne1|exact P2| |exact Hsf]. rewrite P3, Htok. discriminate.
  - generalize (findDelimiter_bound o (t_stack s) buf (t_cur s) Hc).
    destruct (findDelimiter o (t_stack s) buf (t_cur s)) as [e0 c|n a c|] eqn:Ef; intros Hb; [| |discriminate E].
    + destruct Hb as [Hb _]. cbv zeta in E.
      assert (G : t_cur s1 = c /\ t_tok s1 = FindingDelimiter /\ t_stack s1 = t_stack s /\ e0 = e).
      { destruct (im_active (t_im (set_cur c s))); injection E as <- <- _; repeat split; exact Htok. }
      destruct G as (G1 & G2 & G3 & ->).
      assert (Hag := findDelimiter_again _ _ _ _ _ _ Hne1 Ef).
      assert (Hc' : c < length buf).
      { rewrite findDelimiter_eq in Ef, Hag. destruct (t_stack s); [injection Ef as _ <-; assumption|].
        destruct (Nat.eq_dec c (length buf)) as [Hx|Hx]; [|lia]. rewrite Hx, skipn_all in Hag. cbn in Hag. congruence. }
      rewrite G1. split; [exact Hc'|]. unfold scan_fails. rewrite G1, G2, G3. exact Hag.
    + destruct Hb as (Hb1 & Hb2 & Hb3). cbv zeta in E.
      assert (Hcont : populateNext f o buf tmp nt
           (set_expect false (resetForNewValue (set_tok n (set_cur (c + a) s)))) = Ok (s1, e, nt1) ->
           t_cur s1 < length buf /\ scan_fails o buf s1 e).
      { intros H'. eapply IH; [| | |exact H'].
        - destruct He as [He|[He _]]; [auto|right; split; [exact He|reflexivity]].
        - cbn. lia.
        - left. reflexivity. }
      destruct n; try congruence;
        (match type of E with (if ?b then _ else _) = _ => destruct b end;
         [injection E as _ <- _; unfold sticky in He; intuition congruence|exact (Hcont E)]).
  - destruct (populateFromDataRef o buf (im_data_type (t_im s)) s) as [[[[s2 e2] [off sz]] ty]| |] eqn:Epf;
      cbn [obind] in E; try discriminate.
    destruct (populateFrom_stuck _ _ _ _ _ _ _ _ Hc Epf) as [->|[->|[[-> Hpr]|(P1 & P2 & P3)]]].
    + destruct (slice buf off sz) as [raw| |] eqn:Esl; cbn [obind] in E; try discriminate.
      destruct (im_active (t_im s2)); cbv zeta in E;
        (match type of E with (if ?b then _ else _) = _ => destruct b end;
         [injection E as _ <- _; unfold sticky in He; intuition congruence|congruence]).
    + cbv zeta in E. destruct (prop_gt_nostart (t_prop s2)); [|congruence].
      destruct (slice _ _ _); cbn [obind] in E; congruence.
    + injection E as _ <- _. unfold sticky in He. intuition congruence.
    + assert (E2 : Ok (s2, e2, nt) = Ok (s1, e, nt1)).
      { destruct e2; try exact E; generalize (findStart_bound o buf (t_cur s2) P2); rewrite P1; intros [_ HH]; [congruence|].
        cbv zeta in E.
        destruct (prop_gt_nostart (t_prop s2)); [|congruence]. destruct (slice _ _ _); cbn [obind] in E; congruence. }
      injection E2 as <- <- <-.
      assert (Hsf : scan_fails o buf s2 e2) by (unfold scan_fails; rewrite P3, Htok; exact P1).
      split; [|exact Hsf]. eapply scan_not_end; [exact Hne1|exact P2| |exact Hsf]. rewrite P3, Htok. discriminate.
  - generalize (findTokenEnd_bound o (t_stack s) buf (t_cur s) Hc).
    destruct (findTokenEnd o (t_stack s) buf (t_cur s)) as [e0 c|a c cm|] eqn:Ef; intros Hb; [| |discriminate E].
    + destruct Hb as [Hb _]. injection E as <- <- _. cbn.
      assert (Hag := findTokenEnd_again _ _ _ _ _ _ Hne1 Ef).
      assert (Hsf : scan_fails o buf (set_cur c s) e0) by (unfold scan_fails; cbn; rewrite Htok; exact Hag).
      split; [|exact Hsf]. eapply (scan_not_end o buf (set_cur c s)); [exact Hne1|cbn; lia| |exact Hsf].
      cbn. rewrite Htok. discriminate.
    + assert (Hns : t_prop s = NoStartFound) by (destruct Hen as [Hx|(_ & _ & _ & [Hx|Hx])]; congruence).
      cbv zeta in E. eapply IH; [| | |exact E].
      * destruct He as [He|[He _]]; [auto|right; split; [exact He|destruct cm; exact Hns]].
      * destruct cm; cbn; lia.
      * left. destruct cm; exact Hns.
Qed.

(** The buffer in which a call of nextToken ends. *)
Lemma buffer_loop_last o : forall f nt s s1 e nt1,
  t_parsed s = None -> entry_ok s -> cur_ok s -> copies_ok s ->
  e <> NeedMoreData ->
  buffer_loop f o nt s = Ok (s1, e, nt1) ->
  exists s' nt' buf bs,
    t_bufs s' = buf :: bs /\ t_parsed s' = None /\ entry_ok s' /\ t_cur s' <= length buf /\
    populateNext loop_fuel o buf tok_default nt' s' = Ok (s1, e, nt1).
Proof.
  induction f as [|f IH]; intros nt s s1 e nt1 Hp Hentry Hcur Hcopy He E0; cbn [buffer_loop] in E0;
    unfold cur_ok in Hcur; destruct (t_bufs s) as [|buf bs] eqn:Hb; try congruence.
  destruct (populateNext_ok o buf loop_fuel tok_default nt s) as (s2 & e2 & nt2 & E & F & Q2 & Q3 & _).
  { unfold loop_fuel. destruct (t_tok s); cbn; lia. }
  { exact Hentry. }
  { exact Hcur. }
  rewrite E in E0. cbn [obind] in E0.
  destruct (error_is_need e2) as [->|He2].
  2:{ exists s, nt, buf, bs. rewrite E. repeat (split; [assumption|]). destruct e2; congruence. }
  destruct F as (F1 & F2 & F3 & F4 & F5 & F6 & F7).
  unfold releaseFirstDataRef in E0. rewrite F1, Hb in E0.
  destruct (flush_copies_ok buf (t_copy s2)) as (cs & Ec & Mc & Fc).
  { rewrite F5. eapply Forall_impl; [|exact Hcopy]. cbn. intros; lia. }
  rewrite Ec in E0. cbn [obind] in E0.
  set (s3 := set_bufs bs (set_ds 0 (set_cur 0 (set_copy cs s2)))) in *.
  assert (Hreq : t_parsed (requestMoreData s3) = None /\ t_cur (requestMoreData s3) = 0 /\
    t_ds (requestMoreData s3) = 0 /\ t_prop (requestMoreData s3) = t_prop s2 /\
    t_tok (requestMoreData s3) = t_tok s2 /\ t_copy (requestMoreData s3) = cs).
  { unfold requestMoreData. destruct (t_supply s3); cbn; repeat split; congruence. }
  destruct Hreq as (X1 & X4 & X5 & X6 & X7 & X8).
  eapply (IH nt2 (requestMoreData s3)); [exact X1| | | |exact He|exact E0].
  { unfold entry_ok. rewrite X4, X5, X6, X7. destruct (Q3 eq_refl) as [H|[H1 H2]]; auto. }
  { unfold cur_ok. rewrite X4. destruct (t_bufs (requestMoreData s3)); lia. }
  { unfold copies_ok. rewrite X4, X8. eapply Forall_impl; [|exact Fc]. cbn. intros; lia. }
Qed.

(** The state in which nextToken enters its loop. *)
Lemma next_entry s :
  tok_inv s -> t_parsed s = None ->
  let s0 := match t_bufs s with [] => requestMoreData s | _ => s end in
  let s0' := if t_cont s0 then s0 else resetForNewToken s0 in
  t_parsed s0' = None /\ entry_ok s0' /\ cur_ok s0' /\ copies_ok s0'.
Proof.
  intros [Hin Hcont] Hp. rewrite Hp in Hin. destruct Hin as [Hcur Hcopy].
  cbv zeta. remember (match t_bufs s with [] => requestMoreData s | _ => s end) as s0 eqn:H0.
  assert (H1 : t_parsed s0 = None /\ cur_ok s0 /\ copies_ok s0 /\ cont_ok s0).
  { unfold cur_ok, copies_ok, cont_ok in *. destruct (t_bufs s) as [|b bs] eqn:Hb.
    - subst s0. unfold requestMoreData.
      destruct (t_supply s) as [|l ls]; cbn; rewrite Hb; repeat split; auto.
      cbn. destruct l as [|x l]; cbn; lia.
    - subst s0. repeat split; auto. rewrite Hb. exact Hcur. }
  destruct H1 as (Z1 & Z2 & Z3 & Z4). destruct (t_cont s0) eqn:Hc0.
  - repeat split; auto. unfold entry_ok. destruct (Z4 Hc0) as [H|(H1 & H2 & H3 & H4)]; auto 10.
  - repeat split; auto. left. reflexivity.
Qed.

Lemma nextToken_sticks o nt s s1 e nt1 :
  sticky e -> tok_inv s -> t_parsed s = None ->
  nextToken o nt s = Ok (s1, e, nt1) -> stuck o e s1.
Proof.
  intros He Hinv Hp E.
  assert (Hne : e <> NeedMoreData /\ e <> NoError /\ e <> ScopeHasEnded /\ is_need_more e = false)
    by (destruct He as [->|[->| ->]]; repeat split; discriminate).
  destruct Hne as (N1 & N2 & N3 & N4).
  destruct (next_entry s Hinv Hp) as (V1 & V2 & V3 & V4).
  destruct (nextToken_inv o nt s s1 e nt1 Hp E) as [(_ & H & _)|H]; [congruence|].
  cbv zeta in H. destruct H as [(_ & _ & H & _)|(_ & s2 & e2 & sc & st & E2 & -> & H1 & H2 & H3)]; [congruence|].
  destruct (H3 N2) as [-> ->].
  assert (Hcase : e2 = e \/ (e2 = NoError)) by (destruct e2; auto; left; symmetry; apply H2; discriminate).
  destruct Hcase as [->|Hz].
  - destruct (buffer_loop_last _ _ _ _ _ _ _ V1 V2 V3 V4 N1 E2) as (s' & nt' & buf & bs & B1 & B2 & B3 & B4 & B5).
    destruct (populateNext_sticks o buf e loop_fuel tok_default nt' s' s2 nt1 (or_introl He) B4 B3 B5) as [C1 C2].
    destruct (populateNext_frame o buf tok_default nt' s' s2 e nt1 B3 B4 B5) as [F _].
    destruct F as (F1 & F2 & F3 & F4 & F5 & F6 & F7).
    unfold stuck. cbn. split; [congruence|]. split; [exact N4|].
    exists buf, bs. split; [congruence|]. split; [exact C1|]. exact C2.
  - (* the only errors added after NoError are the unexpected ends *)
    exfalso. subst e2. clear - E E2 He Hp. unfold nextToken in E.
    destruct (match t_scope s with (_, d) :: _ => (d =? 0)%N | [] => false end).
    { injection E as _ <- _. destruct He as [He|[He|He]]; discriminate. }
    rewrite Hp in E. cbv zeta in E.
    destruct (t_bufs (match t_bufs s with [] => requestMoreData s | _ => s end)).
    { injection E as _ <- _. destruct He as [He|[He|He]]; discriminate. }
    rewrite E2 in E. cbn [obind] in E.
    assert (Hk : forall (sx : tstate) (ex : error), Ok (sx, ex, nt1) =
              Ok (set_scope (t_scope s2) (set_stack (t_stack s2) (set_cont (is_need_more NoError) s2)), e, nt1) ->
              ex <> NoError -> ex = UnexpectedArrayEnd \/ ex = UnexpectedObjectEnd -> False).
    { intros sx ex Hx _ Hx2. assert (ex = e) by congruence. subst ex.
      destruct He as [->|[->| ->]]; destruct Hx2; discriminate. }
    assert (Hk0 : forall (sx : tstate), Ok (sx, NoError, nt1) =
              Ok (set_scope (t_scope s2) (set_stack (t_stack s2) (set_cont (is_need_more NoError) s2)), e, nt1) -> False).
    { intros sx Hx. assert (NoError = e) by congruence. subst e. destruct He as [He|[He|He]]; discriminate. }
    destruct (tk_value_type nt1); try (exact (Hk0 _ E));
      destruct (t_stack (set_cont (is_need_more NoError) s2)) as [|[] ?];
      try (exact (Hk0 _ E)); (eapply Hk; [exact E|discriminate|auto]).
Qed.

(** [e] was returned once; whatever the caller does next, only [e] or ScopeHasEnded follow. *)
Lemma sticky_final o s nt s1 e nt1 s2 nt2 s3 e3 nt3 :
  reachable o s -> t_parsed s = None -> sticky e ->
  nextToken o nt s = Ok (s1, e, nt1) -> continued o s1 s2 ->
  nextToken o nt2 s2 = Ok (s3, e3, nt3) ->
  (e3 = e \/ e3 = ScopeHasEnded) /\ nt3 = nt2.
Proof.
  intros Hr Hp He E Hc E3. destruct (reachable_inv _ _ Hr) as [Hinv _].
  assert (Hs := nextToken_sticks _ _ _ _ _ _ He Hinv Hp E).
  assert (N1 : e <> NeedMoreData) by (destruct He as [->|[->| ->]]; discriminate).
  assert (N2 : e <> NoError) by (destruct He as [->|[->| ->]]; discriminate).
  assert (Hs2 := stuck_continued _ _ _ _ N1 N2 Hs Hc).
  destruct (stuck_next _ _ _ _ _ _ _ N1 N2 Hs2 E3) as (H1 & H2 & _). auto.
Qed.

(** InvalidToken, for a tokenizer reading one buffer. *)
Lemma invalid_final o t ts s nt s1 nt1 s2 nt2 s3 e3 nt3 :
  one_buffer o t ts s ->
  nextToken o nt s = Ok (s1, InvalidToken, nt1) -> continued o s1 s2 ->
  nextToken o nt2 s2 = Ok (s3, e3, nt3) ->
  (e3 = InvalidToken \/ e3 = ScopeHasEnded) /\ nt3 = nt2.
Proof.
  intros Ho E Hc E3. destruct (one_buffer_spans _ _ _ _ Ho) as [(Hp & Hs & Hcp & Hb) _].
  assert (Hst : stuck o InvalidToken s1).
  { destruct (nextToken_inv o nt s s1 InvalidToken nt1 Hp E) as [(_ & H & _)|H]; [discriminate|].
    cbv zeta in H. destruct H as [(_ & _ & H & _)|(Hnb & s4 & e2 & sc & st & E2 & -> & H1 & H2 & H3)]; [discriminate|].
    destruct (H3 ltac:(discriminate)) as [-> ->].
    destruct Hb as [Hb|(Hb & Hcu & Hct)].
    { rewrite Hb, requestMore_none in Hnb by exact Hs. congruence. }
    rewrite Hb, Hct in E2. set (s0 := resetForNewToken s) in *.
    assert (Hbl : buffers_left s0 = 1) by (unfold buffers_left, s0; cbn; rewrite Hb, Hs; reflexivity).
    assert (Hcase : e2 = InvalidToken \/ e2 = NoError) by (destruct e2; auto; left; symmetry; apply H2; discriminate).
    destruct Hcase as [->| ->].
    - rewrite Hbl in E2. cbn [buffer_loop] in E2. replace (t_bufs s0) with [t] in E2 by (symmetry; exact Hb).
      destruct (populateNext loop_fuel o t tok_default nt s0) as [[[s5 e5] nt5]| |] eqn:Epn; try discriminate E2.
      cbn [obind] in E2.
      destruct (populateNext_frame o t tok_default nt s0 s5 e5 nt5 (or_introl eq_refl) Hcu Epn) as (F & _).
      destruct F as (F1 & F2 & F3 & F4 & F5 & F6 & F7). cbn in F1, F2, F3, F4, F5, F6, F7.
      destruct (error_is_need e5) as [->|He5].
      + exfalso. destruct (release_last s5 t) as (s6 & E4 & G1 & G2 & G3 & G4); [congruence|congruence|congruence|].
        rewrite E4 in E2. cbn [obind] in E2. rewrite requestMore_none in E2 by congruence.
        rewrite G1 in E2. discriminate.
      + assert (Ok (s5, e5, nt5) = Ok (s4, InvalidToken, nt1)) as E5 by (destruct e5; try exact E2; congruence).
        injection E5 as <- -> <-.
        destruct (populateNext_sticks o t InvalidToken loop_fuel tok_default nt s0 s5 nt5) as [C1 C2];
          [right; split; reflexivity|exact Hcu|left; reflexivity|exact Epn|].
        unfold stuck. cbn. split; [congruence|]. split; [reflexivity|]. exists t, []. split; [congruence|].
        split; [exact C1|exact C2].
    - exfalso. clear - E E2 Hp Hb Hct. unfold nextToken in E.
      destruct (match t_scope s with (_, d) :: _ => (d =? 0)%N | [] => false end); [discriminate|].
      rewrite Hp in E. cbv zeta in E. rewrite Hb in E. cbv zeta in E. rewrite Hb, Hct in E.
      unfold s0 in E2. rewrite E2 in E. cbn [obind] in E.
      destruct (tk_value_type nt1); try discriminate E;
        destruct (t_stack (set_cont (is_need_more NoError) s4)) as [|[] ?]; discriminate E. }
  assert (N1 : InvalidToken <> NeedMoreData) by discriminate.
  assert (N2 : InvalidToken <> NoError) by discriminate.
  assert (Hs2 := stuck_continued _ _ _ _ N1 N2 Hst Hc).
  destruct (stuck_next _ _ _ _ _ _ _ N1 N2 Hs2 E3) as (H1 & H2 & _). auto.
Qed.
