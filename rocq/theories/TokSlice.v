(** Token texts are slices of the input buffer, in increasing order (one buffer). *)
From Verif Require Import Tactics Base ScanModel ScanProofs TokModel TokLoops TokProofs TokSafe JsonSpec TokSpec.
From Coq Require Import Lia.

Lemma finish_span o buf off size0 ty s s1 sz ty1 off1 :
  t_prop s = FindingEnd -> off = t_ds s ->
  finish_value o buf off size0 ty s = Ok (s1, NoError, (off1, sz), ty1) ->
  off1 = off /\ off + sz <= t_cur s1.
Proof.
  intros Hp Hoff. unfold finish_value. rewrite Hp. cbv zeta. intros E.
  assert (Hd : forall neg ahead s2,
    (if t_cur s2 + ahead <? t_ds s2 + neg then UB
     else Ok (set_prop FoundEnd (set_cur (t_cur s2 + ahead) s2), NoError,
              (off, t_cur s2 + ahead - t_ds s2 - neg), ty)) = Ok (s1, NoError, (off1, sz), ty1) ->
    t_ds s2 = t_ds s -> off1 = off /\ off + sz <= t_cur s1).
  { intros neg ahead s2 H Hds. destruct (Nat.ltb_spec (t_cur s2 + ahead) (t_ds s2 + neg)); [discriminate|].
    injection H as <- <- <- <-. cbn. lia. }
  destruct ty; try discriminate E.
  - destruct (findStringEnd _ _ _) as [[k|] e]; [|discriminate E]. apply (Hd _ _ _ E). reflexivity.
  - destruct (findAsciiEnd _ _) as [k|]; [|discriminate E]. apply (Hd _ _ _ E). reflexivity.
  - destruct (findNumberEnd _ _) as [k|]; [|discriminate E]. apply (Hd _ _ _ E). reflexivity.
Qed.

Lemma populateFrom_span o buf ty s s1 off sz ty1 :
  t_prop s = NoStartFound -> t_cur s <= length buf ->
  populateFromDataRef o buf ty s = Ok (s1, NoError, (off, sz), ty1) ->
  t_cur s <= off /\ off + sz <= t_cur s1 /\ t_cur s1 <= length buf /\
  frame s s1 /\ t_im s1 = t_im s /\ t_tok s1 = t_tok s.
Proof.
  intros Hp Hc E.
  destruct (populateFrom_ok o buf ty s (or_introl Hp) Hc) as (s1' & e & off' & sz' & ty' & E' & Hok).
  rewrite E in E'. injection E' as <- <- <- <- <-.
  destruct Hok as (F & P1 & P2 & P3 & P4 & P5 & _).
  assert (Hs : t_cur s <= off /\ off + sz <= t_cur s1).
  { unfold populateFromDataRef in E. rewrite Hp in E.
    generalize (findStart_bound o buf (t_cur s) Hc).
    destruct (findStartOfNextValue o buf (t_cur s)) as [e c|t a c|]; intros Hb.
    - destruct Hb as [_ Hb]. injection E as _ E _ _ _. congruence.
    - destruct Hb as (Hb1 & Hb2 & _). cbv zeta in E.
      destruct (is_bracket t) eqn:Hbr.
      + unfold finish_value in E. cbn [t_prop set_prop] in E. injection E as <- <- <- <-. cbn.
        destruct t; try discriminate Hbr; cbn; lia.
      + apply finish_span in E; [|reflexivity|reflexivity]. destruct E as [-> E]. split; [lia|exact E].
    - discriminate E. }
  split; [apply Hs|]. split; [apply Hs|]. split; [lia|]. auto.
Qed.

(** [d] is empty, or a slice of [buf] between [lo] and [hi]. *)
Definition ref_in (buf : bytes) (lo hi : nat) (d : dref) : Prop :=
  slice_of buf d /\ increasing lo (span d) hi.

Lemma increasing_weaken l : forall lo lo' hi hi',
  lo' <= lo -> hi <= hi' -> increasing lo l hi -> increasing lo' l hi'.
Proof.
  induction l as [|[off n] l IH]; intros lo lo' hi hi' H1 H2; cbn [increasing]; [lia|].
  intros [H3 H4]. split; [lia|]. eapply IH; [|exact H2|exact H4]. lia.
Qed.

Lemma increasing_app l1 : forall lo l2 mid hi,
  increasing lo l1 mid -> increasing mid l2 hi -> increasing lo (l1 ++ l2) hi.
Proof.
  induction l1 as [|[off n] l1 IH]; intros lo l2 mid hi; cbn [increasing app].
  - intros H1 H2. eapply increasing_weaken; [exact H1|apply le_n|exact H2].
  - intros [H1 H2] H3. split; [exact H1|]. eapply IH; eauto.
Qed.

Lemma increasing_le l : forall lo hi, increasing lo l hi -> lo <= hi.
Proof.
  induction l as [|[off n] l IH]; intros lo hi; cbn [increasing]; [auto|].
  intros [H1 H2]. apply IH in H2. lia.
Qed.

Lemma ref_in_weaken buf lo lo' hi hi' d :
  lo' <= lo -> hi <= hi' -> ref_in buf lo hi d -> ref_in buf lo' hi' d.
Proof. intros H1 H2 [H3 H4]. split; [exact H3|]. eapply increasing_weaken; eauto. Qed.

Lemma slice_ref_in buf lo hi off sz raw :
  slice buf off sz = Ok raw -> lo <= off -> off + sz <= hi -> ref_in buf lo hi (mkRef (InBuffer off) raw).
Proof.
  intros E H1 H2. unfold slice in E. destruct (Nat.leb_spec (off + sz) (length buf)); [|discriminate].
  injection E as <-.
  assert (Hl : length (firstn sz (skipn off buf)) = sz)
    by (rewrite firstn_length_le; [reflexivity|rewrite skipn_length; lia]).
  split.
  - right. exists off. cbn [dr_bytes dr_loc]. rewrite Hl. auto.
  - cbn [span dr_loc dr_bytes increasing]. rewrite Hl. auto.
Qed.

Definition tok_spans (tk : token) : list (nat * nat) := span (tk_name tk) ++ span (tk_value tk).

Definition tok_in (buf : bytes) (lo hi : nat) (tk : token) : Prop :=
  slice_of buf (tk_name tk) /\ slice_of buf (tk_value tk) /\ increasing lo (tok_spans tk) hi.

Lemma slice_of_empty buf : slice_of buf dref_empty.
Proof. left. reflexivity. Qed.

Lemma anon_in buf lo hi d t : ref_in buf lo hi d -> tok_in buf lo hi (anonymous_token d t).
Proof. intros [H1 H2]. split; [apply slice_of_empty|]. split; [exact H1|exact H2]. Qed.

Definition has_ref (d : dref) : Prop := span d <> [].

Lemma populateNext_span o buf : forall f tmp nt s s1 nt1 lo,
  t_prop s = NoStartFound -> im_active (t_im s) = false -> t_cur s <= length buf ->
  lo <= t_cur s -> ref_in buf lo (t_cur s) (tk_name tmp) ->
  populateNext f o buf tmp nt s = Ok (s1, NoError, nt1) ->
  tok_in buf lo (t_cur s1) nt1 /\ im_active (t_im s1) = false /\
  (t_tok s <> FindingDelimiter \/ has_ref (tk_name tmp) -> has_ref (tk_value nt1)).
Proof.
  induction f as [|f IH]; intros tmp nt s s1 nt1 lo Hp Him Hc Hlo Htmp E; [discriminate|].
  cbn [populateNext] in E. destruct (t_cur s <? length buf); [|discriminate].
  destruct (t_tok s) eqn:Htok.
  - destruct (populateFromDataRef o buf (im_name_type (t_im s)) s) as [[[[s2 e] [off sz]] ty]| |] eqn:Epf;
      cbn [obind] in E; try discriminate.
    destruct e; try discriminate.
    2:{ destruct (prop_gt_nostart (t_prop s2)); [|discriminate].
        destruct (slice _ _ _); discriminate. }
    destruct (populateFrom_span _ _ _ _ _ _ _ _ Hp Hc Epf) as (A1 & A2 & A3 & A4 & A5 & A6).
    destruct (slice buf off sz) as [raw| |] eqn:Esl; cbn [obind] in E; try discriminate.
    rewrite A5, Him in E. cbv zeta in E.
    assert (Hr : ref_in buf lo (t_cur s2) (mkRef (InBuffer off) raw)).
    { eapply slice_ref_in; [exact Esl|lia|lia]. }
    assert (Hh : has_ref (mkRef (InBuffer off) raw)) by discriminate.
    assert (Hcont : forall nm,
       populateNext f o buf (mkTok (mkRef (InBuffer off) raw) (tk_value tmp) nm (tk_value_type tmp)) nt
           (resetForNewValue (set_tok FindingDelimiter s2)) = Ok (s1, NoError, nt1) ->
       tok_in buf lo (t_cur s1) nt1 /\ im_active (t_im s1) = false /\
       (FindingName <> FindingDelimiter \/ has_ref (tk_name tmp) -> has_ref (tk_value nt1))).
    { intros nm H. eapply IH with (lo := lo) in H; cbn.
      - destruct H as (H1 & H2 & H3). split; [exact H1|]. split; [exact H2|].
        intros _. apply H3. right. exact Hh.
      - reflexivity. - rewrite A5; exact Him. - exact A3. - lia. - exact Hr. }
    destruct ty; try (eapply Hcont; exact E).
    + injection E as <- <-. cbn. rewrite A5. split; [apply anon_in; exact Hr|]. split; [exact Him|]. intros _; exact Hh.
    + destruct (t_expect s2 && negb (o_comma o)); [discriminate|].
      injection E as <- <-. cbn. rewrite A5. split; [apply anon_in; exact Hr|]. split; [exact Him|]. intros _; exact Hh.
    + injection E as <- <-. cbn. rewrite A5. split; [apply anon_in; exact Hr|]. split; [exact Him|]. intros _; exact Hh.
    + destruct (t_expect s2 && negb (o_comma o)); [discriminate|].
      injection E as <- <-. cbn. rewrite A5. split; [apply anon_in; exact Hr|]. split; [exact Him|]. intros _; exact Hh.
  - generalize (findDelimiter_bound o (t_stack s) buf (t_cur s) Hc).
    destruct (findDelimiter o (t_stack s) buf (t_cur s)) as [e c|n a c|]; intros Hb.
    + destruct Hb as [_ Hb]. injection E as _ E _. congruence.
    + destruct Hb as (Hb1 & Hb2 & Hb3). cbv zeta in E.
      assert (Hcont : populateNext f o buf tmp nt
           (set_expect false (resetForNewValue (set_tok n (set_cur (c + a) s)))) = Ok (s1, NoError, nt1) ->
         tok_in buf lo (t_cur s1) nt1 /\ im_active (t_im s1) = false /\
         (FindingDelimiter <> FindingDelimiter \/ has_ref (tk_name tmp) -> has_ref (tk_value nt1))).
      { intros H. eapply IH with (lo := lo) in H; cbn.
        - destruct H as (H1 & H2 & H3). split; [exact H1|]. split; [exact H2|].
          intros [H|H]; [congruence|]. apply H3. right. exact H.
        - reflexivity. - exact Him. - lia. - lia.
        - eapply ref_in_weaken; [apply le_n| |exact Htmp]. lia. }
      destruct n.
      * injection E as <- <-. cbn. split; [|split; [exact Him|intros [H|H]; [congruence|exact H]]]. apply anon_in.
        eapply ref_in_weaken; [apply le_n| |exact Htmp]. lia.
      * destruct (_ && _); [discriminate|]. exact (Hcont E).
      * destruct (_ && _); [discriminate|]. exact (Hcont E).
      * destruct (_ && _); [discriminate|]. exact (Hcont E).
    + discriminate E.
  - destruct (populateFromDataRef o buf (im_data_type (t_im s)) s) as [[[[s2 e] [off sz]] ty]| |] eqn:Epf;
      cbn [obind] in E; try discriminate.
    destruct e; try discriminate.
    2:{ destruct (prop_gt_nostart (t_prop s2)); [|discriminate].
        destruct (slice _ _ _); discriminate. }
    destruct (populateFrom_span _ _ _ _ _ _ _ _ Hp Hc Epf) as (A1 & A2 & A3 & A4 & A5 & A6).
    destruct (slice buf off sz) as [raw| |] eqn:Esl; cbn [obind] in E; try discriminate.
    rewrite A5, Him in E. cbv zeta in E.
    assert (Hr : ref_in buf (t_cur s) (t_cur s2) (mkRef (InBuffer off) raw)).
    { eapply slice_ref_in; [exact Esl|lia|lia]. }
    destruct (_ && _); [discriminate|]. injection E as <- <-. cbn. rewrite A5.
    split; [|split; [exact Him|intros _; discriminate]].
    destruct Htmp as [T1 T2]. destruct Hr as [R1 R2].
    split; [exact T1|]. split; [exact R1|]. unfold tok_spans. cbn [tk_name tk_value].
    eapply increasing_app; eauto.
  - generalize (findTokenEnd_bound o (t_stack s) buf (t_cur s) Hc).
    destruct (findTokenEnd o (t_stack s) buf (t_cur s)) as [e c|a c comma|]; intros Hb.
    + destruct Hb as [_ Hb]. injection E as _ E _. congruence.
    + cbv zeta in E. eapply IH with (lo := lo) in E.
      * destruct E as (H1 & H2 & H3). split; [exact H1|]. split; [exact H2|]. intros _. apply H3.
        left. destruct comma; discriminate.
      * destruct comma; exact Hp.
      * destruct comma; exact Him.
      * destruct comma; cbn; lia.
      * destruct comma; cbn; lia.
      * eapply ref_in_weaken; [apply le_n| |exact Htmp]. destruct comma; cbn; lia.
    + discriminate E.
Qed.

(** ** nextToken *)

(** State of a tokenizer that was given the single buffer [t]. *)
Definition single (t : bytes) (s : tstate) : Prop :=
  t_parsed s = None /\ t_supply s = [] /\ t_copy s = [] /\
  (t_bufs s = [] \/ t_bufs s = [t] /\ t_cur s <= length t /\ t_cont s = false).

Lemma populateNext_frame o buf tmp nt s s1 e nt1 :
  entry_ok s -> t_cur s <= length buf -> populateNext loop_fuel o buf tmp nt s = Ok (s1, e, nt1) ->
  frame s s1 /\ t_cur s <= t_cur s1 <= length buf /\ (e = NoError -> t_tok s1 <> FindingDelimiter).
Proof.
  intros He Hc E.
  destruct (populateNext_ok o buf loop_fuel tmp nt s) as (s1' & e' & nt1' & E' & F & C & _ & C2 & _).
  - unfold loop_fuel. destruct (t_tok s); cbn; lia.
  - exact He.
  - exact Hc.
  - rewrite E in E'. injection E' as <- <- <-. split; [exact F|]. split; [exact C|].
    intros H. destruct (C2 H) as [[H1|H1] _]; congruence.
Qed.

Lemma error_is_need e : e = NeedMoreData \/ e <> NeedMoreData.
Proof. destruct e; (left; reflexivity) || (right; discriminate). Qed.

(** Everything nextToken does after the buffers were read: it only changes the scopes, the
    stack and the continue flag. *)
Lemma nextToken_inv o nt s s1 e nt1 :
  t_parsed s = None -> nextToken o nt s = Ok (s1, e, nt1) ->
  (s1 = s /\ e = ScopeHasEnded /\ nt1 = nt) \/
  (let s0 := match t_bufs s with [] => requestMoreData s | _ => s end in
   (t_bufs s0 = [] /\ s1 = s0 /\ e = NeedMoreData /\ nt1 = nt) \/
   (t_bufs s0 <> [] /\
    let s0' := if t_cont s0 then s0 else resetForNewToken s0 in
    exists s2 e2 sc st,
      buffer_loop (S (buffers_left s0')) o nt s0' = Ok (s2, e2, nt1) /\
      s1 = set_scope sc (set_stack st (set_cont (is_need_more e2) s2)) /\
      (e = NoError -> e2 = NoError) /\ (e2 <> NoError -> e = e2) /\
      (e <> NoError -> sc = t_scope s2 /\ st = t_stack s2))).
Proof.
  intros Hp E. unfold nextToken in E.
  destruct (match t_scope s with (_, d) :: _ => (d =? 0)%N | [] => false end).
  { injection E as <- <- <-. auto. }
  right. rewrite Hp in E. cbv zeta in *.
  remember (match t_bufs s with [] => requestMoreData s | _ => s end) as s0 eqn:H0. clear H0.
  destruct (t_bufs s0) eqn:Hb.
  { injection E as <- <- <-. auto. }
  right. split; [discriminate|].
  remember (if t_cont s0 then s0 else resetForNewToken s0) as s0' eqn:H1. clear H1.
  destruct (buffer_loop (S (buffers_left s0')) o nt s0') as [[[s2 e2] nt2]| |]; try discriminate E.
  cbn [obind] in E.
  assert (Hsame : forall st e', Ok (set_stack st (set_cont (is_need_more e2) s2), e', nt2) = Ok (s1, e, nt1) ->
     (e' = NoError -> e2 = NoError) -> (e2 <> NoError -> e' = e2) -> (e' <> NoError -> st = t_stack s2) ->
     exists s2' e2' sc st',
      Ok (s2, e2, nt2) = Ok (s2', e2', nt1) /\
      s1 = set_scope sc (set_stack st' (set_cont (is_need_more e2') s2')) /\
      (e = NoError -> e2' = NoError) /\ (e2' <> NoError -> e = e2') /\
      (e <> NoError -> sc = t_scope s2' /\ st' = t_stack s2')).
  { intros st e' H. injection H as <- <- <-. intros H2 H3 H4. exists s2, e2, (t_scope s2), st.
    split; [reflexivity|]. split; [destruct s2; reflexivity|auto]. }
  assert (Hsc : forall vt st, Ok (scope_handle vt (set_stack st (set_cont (is_need_more e2) s2)), NoError, nt2) = Ok (s1, e, nt1) ->
     e2 = NoError ->
     exists s2' e2' sc st',
      Ok (s2, e2, nt2) = Ok (s2', e2', nt1) /\
      s1 = set_scope sc (set_stack st' (set_cont (is_need_more e2') s2')) /\
      (e = NoError -> e2' = NoError) /\ (e2' <> NoError -> e = e2') /\
      (e <> NoError -> sc = t_scope s2' /\ st' = t_stack s2')).
  { intros vt st H. injection H as <- <- <-. intros H2.
    exists s2, e2, (t_scope (scope_handle vt (set_stack st (set_cont (is_need_more e2) s2)))), st.
    split; [reflexivity|].
    split; [|split; [auto|split; congruence]].
    unfold scope_handle. destruct s2. cbn. destruct t_scope as [|[sa sb] sl]; reflexivity. }
  assert (Hid : set_cont (is_need_more e2) s2 = set_stack (t_stack s2) (set_cont (is_need_more e2) s2))
    by (destruct s2; reflexivity).
  destruct e2; try (rewrite Hid in E; apply (Hsame _ _ E); congruence).
  destruct (tk_value_type nt2);
    try (apply (Hsc _ _ E); reflexivity);
    try (rewrite Hid in E; apply (Hsc _ _ E); reflexivity);
    rewrite Hid in E; cbn [t_stack set_stack] in E;
    destruct (t_stack s2) as [|[] st] eqn:Hst;
    try (apply (Hsc _ _ E); reflexivity);
    apply (Hsame _ _ E); congruence.
Qed.

Lemma release_last s t :
  t_bufs s = [t] -> t_copy s = [] -> t_supply s = [] ->
  exists s1, releaseFirstDataRef s = Ok s1 /\ t_bufs s1 = [] /\ t_copy s1 = [] /\
    t_supply s1 = [] /\ t_parsed s1 = t_parsed s.
Proof.
  intros H1 H2 H3. unfold releaseFirstDataRef. rewrite H1, H2. cbn [map obind].
  eexists. split; [reflexivity|]. cbn. auto.
Qed.

Lemma requestMore_none s : t_supply s = [] -> requestMoreData s = s.
Proof. intros H. unfold requestMoreData. rewrite H. reflexivity. Qed.

Lemma nextToken_single o t nt s s1 e nt1 :
  single t s -> nextToken o nt s = Ok (s1, e, nt1) ->
  single t s1 /\
  (t_bufs s1 = [t] -> t_bufs s = [t] /\ t_cur s <= t_cur s1) /\
  (e = NoError -> t_bufs s1 = [t] /\ tok_in t (t_cur s) (t_cur s1) nt1 /\
     t_tok s1 <> FindingDelimiter /\ (t_tok s <> FindingDelimiter -> has_ref (tk_value nt1))).
Proof.
  intros HS E. destruct HS as (Hp & Hs & Hcp & Hb).
  destruct (nextToken_inv o nt s s1 e nt1 Hp E) as [(-> & -> & ->)|H].
  { split; [repeat split; auto|]. split; [auto|discriminate]. }
  destruct Hb as [Hb|(Hb & Hc & Hct)]; rewrite Hb in H; cbv zeta in H.
  - unfold requestMoreData in H. rewrite Hs in H. destruct H as [(_ & -> & -> & ->)|(H & _)]; [|congruence].
    split; [repeat split; auto|]. split; [rewrite Hb; discriminate|discriminate].
  - destruct H as [(H & _)|(_ & s2 & e2 & sc & st & E2 & -> & H1 & H2 & _)]; [congruence|].
    rewrite Hct in E2. set (s0 := resetForNewToken s) in *.
    assert (Hbl : buffers_left s0 = 1) by (unfold buffers_left, s0; cbn; rewrite Hb, Hs; reflexivity).
    rewrite Hbl in E2. cbn [buffer_loop] in E2. replace (t_bufs s0) with [t] in E2 by (symmetry; exact Hb).
    destruct (populateNext loop_fuel o t tok_default nt s0) as [[[s3 e3] nt3]| |] eqn:Epn; try discriminate E2.
    destruct (populateNext_frame o t tok_default nt s0 s3 e3 nt3 (or_introl eq_refl) Hc Epn) as (F & (C1 & C2) & C3).
    destruct F as (F1 & F2 & F3 & F4 & F5 & F6 & F7). cbn in F1, F2, F3, F4, F5, F6, F7.
    assert (H0 : im_active (t_im s0) = false).
    { unfold s0. cbn. unfold im_clear. destruct (im_active (t_im s)) eqn:Ea; [reflexivity|exact Ea]. }
    cbn [obind] in E2.
    destruct (error_is_need e3) as [He3|He3].
    + subst e3.
      destruct (release_last s3 t) as (s4 & E4 & G1 & G2 & G3 & G4);
        [congruence|congruence|congruence|].
      rewrite E4 in E2. cbn [obind] in E2. rewrite requestMore_none in E2 by congruence.
      rewrite G1 in E2. injection E2 as <- <- <-.
      assert (e = NeedMoreData) by (apply H2; discriminate). subst e.
      split; [|split; [cbn; congruence|discriminate]].
      repeat split; cbn; try congruence. left. exact G1.
    + assert (Ok (s3, e3, nt3) = Ok (s2, e2, nt1)) as E3 by (destruct e3; try exact E2; congruence).
      injection E3 as <- <- <-.
      assert (Hnm : is_need_more e3 = false) by (destruct e3; congruence || reflexivity).
      split; [|split].
      * repeat split; cbn; try congruence. right. rewrite Hnm. repeat split; [congruence|exact C2].
      * intros _. cbn. split; [exact Hb|exact C1].
      * intros He. specialize (H1 He). subst e3. cbn. split; [congruence|].
        destruct (populateNext_span o t loop_fuel tok_default nt s0 s3 nt3 (t_cur s)) as (K1 & _ & K2);
          [reflexivity|exact H0|exact Hc|apply le_n| |exact Epn|].
        { split; [apply slice_of_empty|apply le_n]. }
        split; [exact K1|]. split; [auto|]. intros Ht. apply K2. left. exact Ht.
Qed.

(** ** Whole runs *)

Lemma token_spans_app ts tk : token_spans (ts ++ [tk]) = token_spans ts ++ tok_spans tk.
Proof. unfold token_spans. rewrite map_app, concat_app. cbn. rewrite app_nil_r. reflexivity. Qed.

Lemma push_single t ty s : single t s -> single t (pushScope ty s).
Proof. intros H. exact H. Qed.

Lemma pop_single t s s1 : single t s -> popScope s = Ok s1 ->
  single t s1 /\ t_bufs s1 = t_bufs s /\ t_cur s1 = t_cur s.
Proof.
  unfold popScope. destruct (t_scope s) as [|[a d] l]; [discriminate|].
  intros H E. injection E as <-. split; [exact H|auto].
Qed.

Lemma one_buffer_spans o t ts s :
  one_buffer o t ts s ->
  single t s /\
  Forall (fun tk => slice_of t (tk_name tk) /\ slice_of t (tk_value tk)) ts /\
  exists hi, hi <= length t /\ (t_bufs s = [t] -> hi = t_cur s) /\ increasing 0 (token_spans ts) hi.
Proof.
  induction 1 as [|ts s nt s1 nt1 H IH E|ts s nt s1 e nt1 H IH E He|ts s ty H IH|ts s s1 H IH E].
  - split.
    + unfold single, tok_with. cbn. repeat split. right. repeat split. apply Nat.le_0_l.
    + split; [constructor|]. exists 0. split; [apply Nat.le_0_l|]. split; [reflexivity|apply le_n].
  - destruct IH as (I1 & I2 & hi & I3 & I4 & I5).
    destruct (nextToken_single _ _ _ _ _ _ _ I1 E) as (J1 & J2 & J3).
    destruct (J3 eq_refl) as (K1 & (K2 & K3 & K4) & _). destruct (J2 K1) as [K5 K6].
    split; [exact J1|]. split; [apply Forall_app; split; [exact I2|constructor; [split; assumption|constructor]]|].
    exists (t_cur s1). split.
    { destruct J1 as (_ & _ & _ & [L|(_ & L & _)]); [congruence|exact L]. }
    split; [reflexivity|]. rewrite token_spans_app. eapply increasing_app; [exact I5|].
    rewrite (I4 K5). exact K4.
  - destruct IH as (I1 & I2 & hi & I3 & I4 & I5).
    destruct (nextToken_single _ _ _ _ _ _ _ I1 E) as (J1 & J2 & _).
    split; [exact J1|]. split; [exact I2|].
    destruct (t_bufs s1) eqn:Hb1.
    + exists hi. split; [exact I3|]. split; [discriminate|exact I5].
    + destruct J1 as (J11 & J12 & J13 & [L|(L1 & L2 & _)]); [congruence|].
      rewrite Hb1 in L1. destruct (J2 L1) as [K5 K6]. exists (t_cur s1).
      split; [exact L2|]. split; [reflexivity|].
      eapply increasing_weaken; [apply le_n| |exact I5]. rewrite (I4 K5). exact K6.
  - destruct IH as (I1 & I2 & I3). split; [apply push_single; exact I1|]. split; [exact I2|exact I3].
  - destruct IH as (I1 & I2 & hi & I3 & I4 & I5).
    destruct (pop_single _ _ _ I1 E) as (J1 & J2 & J3).
    split; [exact J1|]. split; [exact I2|]. exists hi. rewrite J2, J3. auto.
Qed.

Lemma tokens_are_slices o t ts s :
  one_buffer o t ts s ->
  Forall (fun tk => slice_of t (tk_name tk) /\ slice_of t (tk_value tk)) ts /\
  increasing 0 (token_spans ts) (length t).
Proof.
  intros H. destruct (one_buffer_spans _ _ _ _ H) as (_ & H2 & hi & H3 & _ & H4).
  split; [exact H2|]. eapply increasing_weaken; [apply le_n|exact H3|exact H4].
Qed.

Lemma drain_values o t : forall f nt s ts e s1,
  single t s -> t_tok s <> FindingDelimiter ->
  drain f o nt s = Ok (ts, e, s1) ->
  Forall (fun tk => exists off, dr_loc (tk_value tk) = InBuffer off) ts.
Proof.
  induction f as [|f IH]; intros nt s ts e s1 HS Ht E; [discriminate|].
  cbn [drain] in E. destruct (nextToken o nt s) as [[[s2 e2] nt2]| |] eqn:En; try discriminate E.
  cbn [obind] in E. destruct (nextToken_single _ _ _ _ _ _ _ HS En) as (J1 & _ & J3).
  destruct e2; try (injection E as <- <- <-; constructor).
  destruct (J3 eq_refl) as (_ & _ & K1 & K2).
  destruct (drain f o nt2 s2) as [[[ts' e'] s']| |] eqn:Ed; try discriminate E.
  injection E as <- <- <-. constructor.
  - specialize (K2 Ht). unfold has_ref, span in K2. destruct (dr_loc (tk_value nt2)); try congruence. eexists; reflexivity.
  - eapply IH; [exact J1|exact K1|exact Ed].
Qed.

Lemma drain_values_in_buffer o t f nt ts e s :
  drain f o nt (tok_with [t] []) = Ok (ts, e, s) ->
  Forall (fun tk => exists off, dr_loc (tk_value tk) = InBuffer off) ts.
Proof.
  intros E. eapply drain_values; [| |exact E].
  - unfold single, tok_with. cbn. repeat split. right. repeat split. apply Nat.le_0_l.
  - discriminate.
Qed.
