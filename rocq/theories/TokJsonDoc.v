(** Induction over documents: the tokenizer emits exactly the tokens of the document. *)
From Verif Require Import Tactics Base ScanModel ScanProofs TokModel TokLoops TokProofs TokSafe JsonSpec TokSpec TokGap TokStep TokJson.
From Coq Require Import Lia.

Scheme value_text_mut := Minimality for value_text Sort Prop
with elems_text_mut := Minimality for elems_text Sort Prop
with members_text_mut := Minimality for members_text Sort Prop.
Combined Scheme text_mutind from value_text_mut, elems_text_mut, members_text_mut.

Ltac len := cbn [length]; repeat (rewrite app_length; cbn [length]); lia.
Ltac asc := cbn [app]; repeat (rewrite <- app_assoc; cbn [app]); reflexivity.

Lemma reach_cur o buf c vs tok e stk cur cur' :
  reach o buf c vs (mkC tok e stk cur) -> cur = cur' -> reach o buf c vs (mkC tok e stk cur').
Proof. intros H <-. exact H. Qed.

Lemma step_tokend0 o buf t stk cur w d rest :
  skips (scalar_opts o) w -> d = comma \/ d = rbrack \/ d = rbrace ->
  skipn cur buf = w ++ d :: rest ->
  silent o buf (mkC FindingTokenEnd false (t :: stk) cur)
               (mkC FindingName (Byte.eqb d comma) (t :: stk)
                  (cur + length w + (if Byte.eqb d comma then 1 else 0))).
Proof.
  intros Hw Hd E. pose proof (step_tokend o buf false t stk cur w d rest Hw Hd E) as H.
  rewrite orb_false_r in H. exact H.
Qed.

Section Doc.
Variables (o : opts) (L : layout).
Hypothesis HL : crosses o L.

Definition inner (t : type) (body : bytes) (vs : list stoken) : Prop :=
  forall buf stk cur rest, skipn cur buf = body ++ close_char t :: rest ->
  reach o buf (mkC FindingName false (t :: stk) cur)
              (vs ++ [st_make None [close_char t] (end_type t)])
              (mkC FindingTokenEnd false stk (cur + length body + 1)).

Definition member_tokens (kv : bytes * json) : list stoken := doc_tokens (Some (fst kv)) (snd kv).

Definition Pv (v : json) (t : bytes) : Prop :=
  match v with
  | JScalar s => t = scalar_text s /\ scalar_ok s
  | JArr els => exists body, t = lbrack :: body ++ [rbrack] /\
                  inner TArrayStart body (flat_map (doc_tokens None) els)
  | JObj ms => exists body, t = lbrace :: body ++ [rbrace] /\
                  inner TObjectStart body (flat_map member_tokens ms)
  end.

Definition Pe (els : list json) (body : bytes) : Prop :=
  forall buf e stk cur rest, skipn cur buf = body ++ rbrack :: rest ->
  reach o buf (mkC FindingName e (TArrayStart :: stk) cur) (flat_map (doc_tokens None) els)
              (mkC FindingName false (TArrayStart :: stk) (cur + length body)).

Definition Pm (ms : list (bytes * json)) (body : bytes) : Prop :=
  forall buf e stk cur rest, skipn cur buf = body ++ rbrace :: rest ->
  reach o buf (mkC FindingName e (TObjectStart :: stk) cur) (flat_map member_tokens ms)
              (mkC FindingName false (TObjectStart :: stk) (cur + length body)).

Lemma stops_after s w d rest :
  gap_after L (JScalar s) w -> d = comma \/ d = rbrack \/ d = rbrace -> stops s (w ++ d :: rest).
Proof.
  intros Hg Hd. pose proof (cr_number _ _ HL _ _ Hg) as Hn.
  assert (Hd1 : vec_number_char d = false /\ vec_ascii_char d = false /\ d <> x00).
  { destruct Hd as [->|[->| ->]]; repeat split; discriminate. }
  destruct Hd1 as (Hd1 & Hd2 & Hd3).
  destruct s as [raw|raw| | |]; cbn [stops].
  - exact I.
  - destruct w as [|x w]; cbn [app stops_number] in *; eauto.
  - pose proof (cr_word _ _ HL (JScalar STrue) w I Hg) as H.
    destruct w as [|x w]; cbn [app stops_word] in *; do 2 eexists; split; try reflexivity; auto.
  - pose proof (cr_word _ _ HL (JScalar SFalse) w I Hg) as H.
    destruct w as [|x w]; cbn [app stops_word] in *; do 2 eexists; split; try reflexivity; auto.
  - pose proof (cr_word _ _ HL (JScalar SNull) w I Hg) as H.
    destruct w as [|x w]; cbn [app stops_word] in *; do 2 eexists; split; try reflexivity; auto.
Qed.

(** A container whose opening bracket has been read by [c0 -> FindingName, t :: stk], as an
    element or member of [t0]. *)
Lemma container_tail buf c0 v0 t body vs t0 stk cur w d rest :
  inner t body vs ->
  emits o buf c0 v0 (mkC FindingName false (t :: t0 :: stk) cur) ->
  skips (scalar_opts o) w -> d = comma \/ d = rbrack \/ d = rbrace ->
  skipn cur buf = body ++ close_char t :: w ++ d :: rest ->
  reach o buf c0 (v0 :: vs ++ [st_make None [close_char t] (end_type t)])
    (mkC FindingName (Byte.eqb d comma) (t0 :: stk)
       (cur + length body + 1 + length w + (if Byte.eqb d comma then 1 else 0))).
Proof.
  intros Hin Hem Hw Hd E.
  eapply Re_emit; [exact Hem|].
  rewrite <- (app_nil_r (vs ++ _)).
  eapply reach_app; [apply (Hin buf (t0 :: stk) cur (w ++ d :: rest) E)|].
  apply reach_silent.
  apply step_tokend0 with (rest := rest); try assumption.
  replace (cur + length body + 1) with (cur + length (body ++ [close_char t])) by len.
  apply skipn_step. rewrite E. asc.
Qed.

Lemma elem_reach v t buf e stk cur w1 w2 d rest :
  Pv v t -> gap L w1 -> gap_after L v w2 -> d = comma \/ d = rbrack ->
  skipn cur buf = w1 ++ t ++ w2 ++ d :: rest ->
  exists e', (d = rbrack -> e' = false) /\
    reach o buf (mkC FindingName e (TArrayStart :: stk) cur) (doc_tokens None v)
      (mkC FindingName e' (TArrayStart :: stk)
         (cur + length w1 + length t + length w2 + (if Byte.eqb d comma then 1 else 0))).
Proof.
  intros Hv Hw1 Hw2 Hd E.
  pose proof (cr_gap _ _ HL _ Hw1) as Sw1. pose proof (cr_after _ _ HL _ _ Hw2) as Sw2.
  assert (Hd3 : d = comma \/ d = rbrack \/ d = rbrace) by tauto.
  destruct v as [s|els|ms]; cbn [Pv] in Hv.
  - destruct Hv as [-> Hs]. exists false. split; [reflexivity|]. cbn [doc_tokens].
    apply reach_one. apply step_elem_scalar with (rest := rest); try assumption.
    apply stops_after; assumption.
  - destruct Hv as (body & -> & Hin). exists (Byte.eqb d comma).
    split; [intros ->; reflexivity|]. cbn [doc_tokens].
    eapply reach_cur.
    + eapply (container_tail buf _ (st_make None [lbrack] TArrayStart) TArrayStart body _ TArrayStart stk
               (cur + length w1 + 1) w2 d rest Hin).
      * apply (step_open o buf e (TArrayStart :: stk) cur w1 TArrayStart (body ++ rbrack :: w2 ++ d :: rest) Sw1).
        -- left. reflexivity.
        -- rewrite E. asc.
      * exact Sw2.
      * exact Hd3.
      * replace (cur + length w1 + 1) with (cur + length (w1 ++ [lbrack])) by len.
        apply skipn_step. rewrite E. asc.
    + len.
  - destruct Hv as (body & -> & Hin). exists (Byte.eqb d comma).
    split; [intros ->; reflexivity|]. cbn [doc_tokens].
    eapply reach_cur.
    + eapply (container_tail buf _ (st_make None [lbrace] TObjectStart) TObjectStart body _ TArrayStart stk
               (cur + length w1 + 1) w2 d rest Hin).
      * apply (step_open o buf e (TArrayStart :: stk) cur w1 TObjectStart (body ++ rbrace :: w2 ++ d :: rest) Sw1).
        -- right. reflexivity.
        -- rewrite E. asc.
      * exact Sw2.
      * exact Hd3.
      * replace (cur + length w1 + 1) with (cur + length (w1 ++ [lbrace])) by len.
        apply skipn_step. rewrite E. asc.
    + len.
Qed.

Lemma member_reach k v t buf e stk cur w1 w2 w3 w4 d rest :
  Pv v t -> gap L w1 -> gap L w2 -> gap L w3 -> gap_after L v w4 -> str_body k ->
  d = comma \/ d = rbrace ->
  skipn cur buf = w1 ++ quote :: k ++ quote :: w2 ++ colon :: w3 ++ t ++ w4 ++ d :: rest ->
  exists e', (d = rbrace -> e' = false) /\
    reach o buf (mkC FindingName e (TObjectStart :: stk) cur) (doc_tokens (Some k) v)
      (mkC FindingName e' (TObjectStart :: stk)
         (cur + length w1 + length k + 2 + length w2 + 1 + length w3 + length t + length w4 +
          (if Byte.eqb d comma then 1 else 0))).
Proof.
  intros Hv Hw1 Hw2 Hw3 Hw4 Hk Hd E.
  pose proof (cr_gap _ _ HL _ Hw1) as Sw1. pose proof (cr_gap _ _ HL _ Hw2) as Sw2.
  pose proof (cr_gap _ _ HL _ Hw3) as Sw3. pose proof (cr_after _ _ HL _ _ Hw4) as Sw4.
  assert (Hd3 : d = comma \/ d = rbrack \/ d = rbrace) by tauto.
  exists (Byte.eqb d comma). split; [intros ->; reflexivity|].
  destruct v as [s|els|ms]; cbn [Pv] in Hv.
  - destruct Hv as [-> Hs]. cbn [doc_tokens].
    eapply Re_emit.
    + eapply (step_member_scalar o buf e stk cur w1 k w2 w3 s (w4 ++ d :: rest)); try assumption.
      apply stops_after; assumption.
    + eapply reach_cur; [apply reach_silent|].
      * apply step_tokend0 with (rest := rest) (w := w4); try assumption.
        replace (cur + length w1 + length k + 2 + length w2 + 1 + length w3 + length (scalar_text s))
          with (cur + length (w1 ++ quote :: k ++ quote :: w2 ++ colon :: w3 ++ scalar_text s)) by len.
        apply skipn_step. rewrite E. asc.
      * reflexivity.
  - destruct Hv as (body & -> & Hin). cbn [doc_tokens].
    eapply reach_cur.
    + eapply (container_tail buf _ (st_make (Some k) [lbrack] TArrayStart) TArrayStart body _ TObjectStart stk
               (cur + length w1 + length k + 2 + length w2 + 1 + length w3 + 1) w4 d rest Hin).
      * apply (step_member_open o buf e stk cur w1 k w2 w3 TArrayStart (body ++ rbrack :: w4 ++ d :: rest)); try assumption.
        -- left. reflexivity.
        -- rewrite E. asc.
      * exact Sw4.
      * exact Hd3.
      * replace (cur + length w1 + length k + 2 + length w2 + 1 + length w3 + 1)
          with (cur + length (w1 ++ quote :: k ++ quote :: w2 ++ colon :: w3 ++ [lbrack])) by len.
        apply skipn_step. rewrite E. asc.
    + len.
  - destruct Hv as (body & -> & Hin). cbn [doc_tokens].
    eapply reach_cur.
    + eapply (container_tail buf _ (st_make (Some k) [lbrace] TObjectStart) TObjectStart body _ TObjectStart stk
               (cur + length w1 + length k + 2 + length w2 + 1 + length w3 + 1) w4 d rest Hin).
      * apply (step_member_open o buf e stk cur w1 k w2 w3 TObjectStart (body ++ rbrace :: w4 ++ d :: rest)); try assumption.
        -- right. reflexivity.
        -- rewrite E. asc.
      * exact Sw4.
      * exact Hd3.
      * replace (cur + length w1 + length k + 2 + length w2 + 1 + length w3 + 1)
          with (cur + length (w1 ++ quote :: k ++ quote :: w2 ++ colon :: w3 ++ [lbrace])) by len.
        apply skipn_step. rewrite E. asc.
    + len.
Qed.

(** Closing bracket at once or after the last element. *)
Lemma inner_close t body vs :
  is_open t ->
  (forall buf stk cur rest, skipn cur buf = body ++ close_char t :: rest ->
     reach o buf (mkC FindingName false (t :: stk) cur) vs
                 (mkC FindingName false (t :: stk) (cur + length body))) ->
  inner t body vs.
Proof.
  intros Ht H buf stk cur rest E.
  eapply reach_app; [apply (H buf stk cur rest E)|].
  apply reach_one.
  replace (cur + length body + 1) with (cur + length body + length (@nil byte) + 1) by (cbn; lia).
  apply step_close with (rest := rest).
  - apply skips_nil.
  - exact Ht.
  - cbn [app]. apply skipn_step. exact E.
  - left. reflexivity.
Qed.

Lemma inner_empty t w : is_open t -> gap L w -> inner t w [].
Proof.
  intros Ht Hw buf stk cur rest E. cbn [app]. apply reach_one.
  apply step_close with (rest := rest); auto. apply (cr_gap _ _ HL _ Hw).
Qed.

Lemma doc_induction :
  (forall v t, value_text L v t -> Pv v t) /\
  (forall els b, elems_text L els b -> Pe els b) /\
  (forall ms b, members_text L ms b -> Pm ms b).
Proof.
  apply text_mutind.
  - intros s Hs. split; [reflexivity|exact Hs].
  - intros w Hw. exists w. split; [reflexivity|]. apply inner_empty; [left; reflexivity|exact Hw].
  - intros els body _ IH. exists body. split; [reflexivity|].
    apply inner_close; [left; reflexivity|]. intros. apply IH with (rest := rest). assumption.
  - intros w Hw. exists w. split; [reflexivity|]. apply inner_empty; [right; reflexivity|exact Hw].
  - intros ms body _ IH. exists body. split; [reflexivity|].
    apply inner_close; [right; reflexivity|]. intros. apply IH with (rest := rest). assumption.
  - intros v t w1 w2 Hw1 Hw2 _ IH buf e stk cur rest E.
    cbn [flat_map]. rewrite app_nil_r.
    destruct (elem_reach v t buf e stk cur w1 w2 rbrack rest IH Hw1 Hw2) as (e' & He' & R).
    + right. reflexivity.
    + rewrite E. asc.
    + rewrite (He' eq_refl) in R. eapply reach_cur; [exact R|].
      change (if Byte.eqb rbrack comma then 1 else 0) with 0. len.
  - intros v t w1 w2 vs body Hw1 Hw2 _ IH _ IH2 buf e stk cur rest E.
    cbn [flat_map].
    destruct (elem_reach v t buf e stk cur w1 w2 comma (body ++ rbrack :: rest) IH Hw1 Hw2) as (e' & He' & R).
    + left. reflexivity.
    + rewrite E. asc.
    + eapply reach_app; [exact R|]. eapply reach_cur; [apply (IH2 buf e' stk _ rest)|].
      * change (if Byte.eqb comma comma then 1 else 0) with 1.
        replace (cur + length w1 + length t + length w2 + 1) with (cur + length (w1 ++ t ++ w2 ++ [comma])) by len.
        apply skipn_step. rewrite E. asc.
      * change (if Byte.eqb comma comma then 1 else 0) with 1. len.
  - intros k v t w1 w2 w3 w4 Hw1 Hw2 Hw3 Hw4 Hk _ IH buf e stk cur rest E.
    cbn [flat_map]. rewrite app_nil_r.
    destruct (member_reach k v t buf e stk cur w1 w2 w3 w4 rbrace rest IH Hw1 Hw2 Hw3 Hw4 Hk) as (e' & He' & R).
    + right. reflexivity.
    + rewrite E. asc.
    + rewrite (He' eq_refl) in R. eapply reach_cur; [exact R|].
      change (if Byte.eqb rbrace comma then 1 else 0) with 0. len.
  - intros k v t w1 w2 w3 w4 ms body Hw1 Hw2 Hw3 Hw4 Hk _ IH _ IH2 buf e stk cur rest E.
    cbn [flat_map].
    destruct (member_reach k v t buf e stk cur w1 w2 w3 w4 comma (body ++ rbrace :: rest) IH Hw1 Hw2 Hw3 Hw4 Hk) as (e' & He' & R).
    + left. reflexivity.
    + rewrite E. asc.
    + eapply reach_app; [exact R|]. eapply reach_cur; [apply (IH2 buf e' stk _ rest)|].
      * change (if Byte.eqb comma comma then 1 else 0) with 1.
        replace (cur + length w1 + length k + 2 + length w2 + 1 + length w3 + length t + length w4 + 1)
          with (cur + length (w1 ++ quote :: k ++ quote :: w2 ++ colon :: w3 ++ t ++ w4 ++ [comma])) by len.
        apply skipn_step. rewrite E. asc.
      * change (if Byte.eqb comma comma then 1 else 0) with 1. len.
Qed.

(** A whole document at the start of a buffer (or after a complete document). *)
Lemma doc_reach j w1 t rest buf e cur :
  is_container j -> gap L w1 -> value_text L j t ->
  skipn cur buf = w1 ++ t ++ rest ->
  reach o buf (mkC FindingName e [] cur) (doc_tokens None j)
    (mkC FindingTokenEnd false [] (cur + length w1 + length t)).
Proof.
  intros Hj Hw1 Ht E. pose proof (cr_gap _ _ HL _ Hw1) as Sw1.
  pose proof (proj1 doc_induction _ _ Ht) as Hv.
  destruct j as [s|els|ms]; [contradiction| |]; destruct Hv as (body & -> & Hin); cbn [doc_tokens].
  - eapply Re_emit.
    + apply (step_open o buf e [] cur w1 TArrayStart (body ++ rbrack :: rest) Sw1); [left; reflexivity|].
      rewrite E. asc.
    + eapply reach_cur; [apply (Hin buf [] _ rest)|len].
      replace (cur + length w1 + 1) with (cur + length (w1 ++ [lbrack])) by len.
      apply skipn_step. rewrite E. asc.
  - eapply Re_emit.
    + apply (step_open o buf e [] cur w1 TObjectStart (body ++ rbrace :: rest) Sw1); [right; reflexivity|].
      rewrite E. asc.
    + eapply reach_cur; [apply (Hin buf [] _ rest)|len].
      replace (cur + length w1 + 1) with (cur + length (w1 ++ [lbrace])) by len.
      apply skipn_step. rewrite E. asc.
Qed.

End Doc.

(** ** At the end of the data *)

(** Between two documents. *)
Definition idle (e : bool) (s : tstate) : Prop :=
  t_stack s = [] /\ (t_tok s = FindingName \/ t_tok s = FindingTokenEnd) /\ t_esc s = false /\
  t_expect s = e /\ t_scope s = [] /\ t_copy s = [] /\ t_parsed s = None /\ t_im s = im_init.

Lemma populate_nothing o buf nt e cur w :
  skips (scalar_opts o) w -> skipn cur buf = w -> forall tok, tok = FindingTokenEnd \/ tok = FindingName ->
  exists s, populateNext loop_fuel o buf tok_default nt (canon tok e [] cur buf) = Ok (s, NeedMoreData, nt) /\
    t_bufs s = [buf] /\ t_supply s = [] /\ t_copy s = [] /\ idle e s.
Proof.
  intros Hw E tok Htok.
  destruct (le_lt_dec (length buf) cur) as [Hge|Hlt].
  { exists (canon tok e [] cur buf). split; [|repeat split; destruct Htok as [->| ->]; cbn; auto].
    assert (H : forall f s, length buf <= t_cur s -> populateNext (S f) o buf tok_default nt s = Ok (s, NeedMoreData, nt)).
    { intros f s Hs. cbn [populateNext]. apply Nat.ltb_ge in Hs. rewrite Hs. reflexivity. }
    apply (H 4). exact Hge. }
  assert (HN : forall f, exists s, populateNext (S f) o buf tok_default nt (canon FindingName e [] cur buf) = Ok (s, NeedMoreData, nt) /\
    t_bufs s = [buf] /\ t_supply s = [] /\ t_copy s = [] /\ idle e s).
  { intros f. rewrite populateNext_S by exact Hlt.
    change (t_tok (canon FindingName e [] cur buf)) with FindingName. cbn iota.
    unfold populateFromDataRef. change (t_prop (canon FindingName e [] cur buf)) with NoStartFound. cbn iota.
    change (t_cur (canon FindingName e [] cur buf)) with cur.
    rewrite findStart_eq, E.
    destruct (sk_fs _ _ Hw [] cur cur (le_n _)) as (cur' & _ & Ef). rewrite app_nil_r in Ef. rewrite Ef.
    cbn. eexists. split; [reflexivity|]. repeat split. left. reflexivity. }
  destruct Htok as [->| ->]; [|apply HN].
  unfold loop_fuel. rewrite populateNext_S by exact Hlt.
  change (t_tok (canon FindingTokenEnd e [] cur buf)) with FindingTokenEnd. cbn iota.
  change (t_stack (canon FindingTokenEnd e [] cur buf)) with (@nil type).
  change (t_cur (canon FindingTokenEnd e [] cur buf)) with cur.
  cbn [findTokenEnd]. rewrite Nat.add_0_r.
  exact (HN 3).
Qed.

Lemma next_nothing o nt e buf cur w :
  skips (scalar_opts o) w -> skipn cur buf = w ->
  exists s, nextToken o nt (st_of (mkC FindingTokenEnd e [] cur) buf) = Ok (s, NeedMoreData, nt) /\
            idle e s.
Proof.
  intros Hw E.
  destruct (populate_nothing o buf nt e cur w Hw E FindingTokenEnd (or_introl eq_refl))
    as (s & Hp & Hb & Hs & Hc & Hst).
  unfold nextToken, st_of, canon in *. cbn [t_scope t_parsed t_bufs t_cont S0 k_tok k_e k_stk k_cur] in *.
  change (resetForNewToken (S0 FindingTokenEnd NoStartFound TError e cur 0 buf []))
    with (S0 FindingTokenEnd NoStartFound TError e cur 0 buf []).
  change (buffers_left _) with 1.
  cbn [buffer_loop t_bufs S0]. rewrite Hp. cbn [obind]. unfold releaseFirstDataRef. rewrite Hb, Hc.
  cbn [flush_copies obind]. unfold requestMoreData. cbn [t_supply set_bufs set_ds set_cur set_copy].
  rewrite Hs. cbn. eexists. split; [reflexivity|].
  destruct Hst as (I1 & I2 & I3 & I4 & I5 & I6 & I7 & I8). repeat split; assumption.
Qed.

(** Reading everything. *)
Lemma drain_at o c buf s f nt : at_cfg c buf s -> drain (S f) o nt s = drain (S f) o nt (st_of c buf).
Proof. intros Hs. cbn [drain]. rewrite (at_cfg_next _ _ _ _ _ Hs). reflexivity. Qed.

Lemma reach_drain o buf c vs c' :
  reach o buf c vs c' -> forall nt,
  exists ts nt', map tok_view ts = vs /\
    forall f, drain (length vs + S f) o nt (st_of c buf) =
              let* (ts', e, s'') := drain (S f) o nt' (st_of c' buf) in Ok (ts ++ ts', e, s'').
Proof.
  induction 1 as [c|c v c1 vs c2 He Hr IH|c c1 vs c2 Hsil Hr IH]; intros nt.
  - exists [], nt. split; [reflexivity|]. intros f. cbn [length Nat.add].
    destruct (drain (S f) o nt (st_of c buf)) as [[[ts' e] s'']| |]; reflexivity.
  - destruct (He nt) as (s1 & nt1 & E & Hv & Hs1).
    destruct (IH nt1) as (ts & nt' & Hts & Hd).
    exists (nt1 :: ts), nt'. cbn [map]. split; [rewrite Hv, Hts; reflexivity|].
    intros f. specialize (Hd f).
    change (length (v :: vs) + S f) with (S (length vs + S f)).
    assert (Hg : exists g, length vs + S f = S g) by (exists (length vs + f); lia).
    destruct Hg as (g & Hg). rewrite Hg in *.
    remember (S g) as g1 eqn:Hg1. remember (S f) as f1 eqn:Hf1.
    cbn [drain]. rewrite E. cbn [obind]. subst g1 f1.
    rewrite (drain_at _ _ _ _ _ _ Hs1), Hd.
    destruct (drain (S f) o nt' (st_of c2 buf)) as [[[ts' e] s'']| |]; reflexivity.
  - destruct (IH nt) as (ts & nt' & Hts & Hd). exists ts, nt'. split; [exact Hts|].
    intros f. rewrite <- Hd.
    assert (Hg : exists g, length vs + S f = S g) by (exists (length vs + f); lia).
    destruct Hg as (g & ->). cbn [drain]. rewrite (Hsil nt). reflexivity.
Qed.

Lemma doc_tokens_correct o L j t f nt :
  crosses o L -> doc_text L j t -> length (doc_tokens None j) < f ->
  exists ts s, drain f o nt (addData t t_init) = Ok (ts, NeedMoreData, s) /\
               map tok_view ts = doc_tokens None j /\ idle false s.
Proof.
  intros HL (Hj & w1 & t' & w2 & Hw1 & Hw2 & Ht & ->) Hf.
  set (buf := w1 ++ t' ++ w2).
  change (addData buf t_init) with (st_of (mkC FindingName false [] 0) buf).
  pose proof (doc_reach o L HL j w1 t' w2 buf false 0 Hj Hw1 Ht eq_refl) as R.
  destruct (reach_drain _ _ _ _ _ R nt) as (ts & nt' & Hts & Hd).
  destruct (next_nothing o nt' false buf (0 + length w1 + length t') w2) as (s & Hs & Hst).
  - apply (cr_after _ _ HL _ _ Hw2).
  - replace (0 + length w1 + length t') with (0 + length (w1 ++ t')) by len.
    apply skipn_step. cbn [skipn]. unfold buf. asc.
  - exists ts, s. split; [|auto].
    replace f with (length (doc_tokens None j) + S (f - length (doc_tokens None j) - 1)) by lia.
    rewrite Hd. cbn [drain]. rewrite Hs. cbn [obind]. rewrite app_nil_r. reflexivity.
Qed.

Lemma doc_reads_as o L j t :
  crosses o L -> doc_text L j t -> reads_as o [t] [] (doc_tokens None j) NeedMoreData.
Proof.
  intros HL Ht nt.
  destruct (doc_tokens_correct o L j t (S (length (doc_tokens None j))) nt HL Ht (Nat.lt_succ_diag_r _))
    as (ts & s & E & Hts & _).
  do 3 eexists. split; [exact E|exact Hts].
Qed.

(** ** RFC 8259 texts are texts of the grammar *)

Lemma rfc_string_body l : rfc_string l -> str_body l.
Proof.
  assert (Hh : forall h l, is_hex h -> str_body l -> str_body (h :: l)).
  { intros h l0 Hh Hl. apply SB_char; [| |exact Hl]; intros ->; clear - Hh;
      unfold is_hex, is_digit in Hh; vm_compute in Hh; intuition congruence. }
  induction 1.
  - constructor.
  - apply SB_char; assumption.
  - apply SB_esc; assumption.
  - apply SB_esc. repeat apply Hh; assumption.
Qed.

Lemma rfc_number_text l : rfc_number l -> num_text l.
Proof.
  intros (m & i & f & e & -> & Hm & Hi & Hf & He).
  assert (Hd : forall d, Forall is_digit d -> Forall num_char d).
  { intros d. apply Forall_impl. intros c Hc. left. exact Hc. }
  assert (HF : Forall num_char f).
  { destruct Hf as [->|(d & -> & _ & Hd1)]; [constructor|]. constructor; [unfold num_char; tauto|auto]. }
  assert (HE : Forall num_char e).
  { destruct He as [->|(c & s & d & -> & Hc & Hs & _ & Hd1)]; [constructor|].
    constructor; [unfold num_char; intuition|]. apply Forall_app. split; [|auto].
    destruct Hs as [->|[->| ->]]; repeat constructor; unfold num_char; tauto. }
  assert (HI : exists c tl, i = c :: tl /\ is_digit c /\ Forall num_char tl).
  { destruct Hi as [->|(c & tl & -> & Hc & _ & Htl)].
    - exists x30, []. split; [reflexivity|]. split; [unfold is_digit; vm_compute; split; discriminate|constructor].
    - exists c, tl. auto. }
  destruct HI as (c & tl & -> & Hc & Htl).
  assert (HT : Forall num_char (tl ++ f ++ e)) by (repeat (apply Forall_app; split); auto).
  destruct Hm as [->| ->]; cbn [app].
  - exists c, (tl ++ f ++ e). auto.
  - exists x2d, (c :: tl ++ f ++ e). split; [reflexivity|]. split; [tauto|].
    constructor; [left; exact Hc|exact HT].
Qed.

(** ** Documents have no bare words *)

Lemma reads_as_det o bufs sup vs1 e1 vs2 e2 :
  reads_as o bufs sup vs1 e1 -> reads_as o bufs sup vs2 e2 -> vs1 = vs2 /\ e1 = e2.
Proof.
  intros H1 H2. destruct (H1 tok_default) as (f1 & ts1 & s1 & E1 & <-).
  destruct (H2 tok_default) as (f2 & ts2 & s2 & E2 & <-).
  apply (drain_fuel _ _ (f1 + f2)) in E1; [|lia]. apply (drain_fuel _ _ (f1 + f2)) in E2; [|lia].
  split; congruence.
Qed.

Lemma doc_tokens_types : forall j name v, In v (doc_tokens name j) -> st_value_type v <> TAscii.
Proof.
  fix IH 1. intros [s|els|ms] name v; cbn [doc_tokens].
  - intros [<-|[]]. destruct name, s; discriminate.
  - intros [<-|H]; [destruct name; discriminate|]. apply in_app_or in H.
    destruct H as [H|[<-|[]]]; [|discriminate].
    induction els as [|j els IHl]; [destruct H|]. cbn [flat_map] in H. apply in_app_or in H.
    destruct H as [H|H]; [exact (IH _ _ _ H)|exact (IHl H)].
  - intros [<-|H]; [destruct name; discriminate|]. apply in_app_or in H.
    destruct H as [H|[<-|[]]]; [|discriminate].
    induction ms as [|[k j] ms IHl]; [destruct H|]. cbn [flat_map fst snd] in H. apply in_app_or in H.
    destruct H as [H|H]; [exact (IH _ _ _ H)|exact (IHl H)].
Qed.

Lemma doc_no_word o j t vs L :
  crosses o L -> doc_text L j t -> reads_as o [t] [] vs NeedMoreData ->
  forall v, In v vs -> st_value_type v <> TAscii.
Proof.
  intros HL Hd Hr v Hv. destruct (reads_as_det _ _ _ _ _ _ _ (doc_reads_as o L j t HL Hd) Hr) as [<- _].
  eapply doc_tokens_types; exact Hv.
Qed.
