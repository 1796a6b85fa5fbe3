(** The whole tokenizer does not depend on the instruction set, as long as no buffer but the
    last ends in a backslash. *)
From Verif Require Import Base ScanModel ScanProofs TokModel TokLoops TokProofs TokSafe TokSpec.
From Coq Require Import Lia ZifyBool ZifyNat ZifyN.

Lemma populateNext_isa o buf : forall f tmp nt s,
  t_esc s = false -> entry_ok s -> t_cur s <= length buf ->
  populateNext f o buf tmp nt s = populateNext f (scalar_opts o) buf tmp nt s.
Proof.
  induction f as [|f IH]; intros tmp nt s He Hentry Hc; [reflexivity|].
  cbn [populateNext]. destruct (t_cur s <? length buf); [|reflexivity].
  destruct (t_tok s) eqn:Htok.
  - rewrite <- populateFrom_isa by exact He.
    destruct (populateFrom_ok o buf (im_name_type (t_im s)) s Hentry Hc)
      as (s1 & e & off & size & ty & E & F & P1 & P2 & P3 & P4 & P5 & P6 & P7 & P8).
    rewrite E. cbn [obind]. destruct e; try reflexivity.
    destruct (slice buf off size) as [raw| |]; cbn [obind]; try reflexivity.
    cbn [o_comma scalar_opts].
    match goal with |- context [if im_active (t_im s1) then ?a else ?b] =>
      set (trip := if im_active (t_im s1) then a else b) end.
    assert (Htrip : t_esc (fst (fst trip)) = false /\ t_cur (fst (fst trip)) = t_cur s1).
    { unfold trip. destruct (im_active (t_im s1)); cbn; split; auto; apply P7; auto; discriminate. }
    destruct trip as [[s2 d] ty2]. cbn [fst] in Htrip. destruct Htrip as [G1 G2].
    destruct ty2; try reflexivity;
    (apply IH; [exact G1|left; reflexivity|cbn; lia]).
  - rewrite <- findDelimiter_isa.
    generalize (findDelimiter_bound o (t_stack s) buf (t_cur s) Hc).
    destruct (findDelimiter o (t_stack s) buf (t_cur s)) as [e c|n a c|]; try reflexivity.
    intros (Hb1 & Hb2 & Hb3). cbn [o_ascii scalar_opts]. cbv zeta.
    destruct n; try reflexivity;
    (match goal with |- context [if ?b then _ else _] => destruct b; [reflexivity|] end;
     apply IH; [exact He|left; reflexivity|cbn; lia]).
  - rewrite <- populateFrom_isa by exact He. reflexivity.
  - rewrite <- findTokenEnd_isa.
    generalize (findTokenEnd_bound o (t_stack s) buf (t_cur s) Hc).
    destruct (findTokenEnd o (t_stack s) buf (t_cur s)) as [e c|a c comma|]; try reflexivity.
    intros (Hb1 & Hb2). cbv zeta.
    assert (Hp : t_prop s = NoStartFound).
    { destruct Hentry as [H|(_ & _ & _ & [H|H])]; [exact H|congruence|congruence]. }
    apply IH.
    + destruct comma; exact He.
    + left. destruct comma; exact Hp.
    + cbn. lia.
Qed.

(** No buffer but the last ends in a backslash. *)
Definition cut_clean (l : list bytes) : Prop :=
  forall l1 b l2, l = l1 ++ b :: l2 -> l2 <> [] -> ~ ends_backslash b.

Definition isa_ok (s : tstate) : Prop :=
  tok_inv s /\ t_parsed s = None /\
  (t_esc s = false \/ (t_bufs s = [] /\ concat (t_supply s) = [])) /\
  cut_clean (t_bufs s ++ concat (t_supply s)).

Lemma requestMore_all s :
  t_bufs (requestMoreData s) ++ concat (t_supply (requestMoreData s)) =
  t_bufs s ++ concat (t_supply s) /\
  t_esc (requestMoreData s) = t_esc s /\ t_parsed (requestMoreData s) = t_parsed s /\
  t_cur (requestMoreData s) = t_cur s /\ t_ds (requestMoreData s) = t_ds s /\
  t_prop (requestMoreData s) = t_prop s /\ t_tok (requestMoreData s) = t_tok s /\
  t_copy (requestMoreData s) = t_copy s /\ t_cont (requestMoreData s) = t_cont s.
Proof.
  unfold requestMoreData. destruct (t_supply s) as [|l ls] eqn:Es.
  - rewrite Es. repeat split.
  - cbn. rewrite <- app_assoc. repeat split.
Qed.

Lemma cut_clean_tl b l : cut_clean (b :: l) -> cut_clean l.
Proof. intros H l1 c l2 -> Hn. apply (H (b :: l1) c l2); auto. Qed.

Lemma buffer_loop_isa o : forall f nt s,
  t_parsed s = None -> entry_ok s -> cur_ok s -> copies_ok s ->
  (t_esc s = false \/ (t_bufs s = [] /\ concat (t_supply s) = [])) ->
  cut_clean (t_bufs s ++ concat (t_supply s)) ->
  buffer_loop f o nt s = buffer_loop f (scalar_opts o) nt s /\
  forall s1 e nt1, buffer_loop f o nt s = Ok (s1, e, nt1) ->
    (t_esc s1 = false \/ (t_bufs s1 = [] /\ concat (t_supply s1) = [])) /\
    cut_clean (t_bufs s1 ++ concat (t_supply s1)).
Proof.
  induction f as [|f IH]; intros nt s Hp Hentry Hcur Hcopy Hesc Hcut.
  { cbn [buffer_loop]. destruct (t_bufs s) eqn:Hb; split; auto; try discriminate.
    intros s1 e nt1 E. injection E as <- _ _. rewrite Hb. auto. }
  cbn [buffer_loop]. unfold cur_ok in Hcur.
  destruct (t_bufs s) as [|buf bs] eqn:Hb.
  { split; auto. intros s1 e nt1 E. injection E as <- _ _. rewrite Hb. auto. }
  destruct Hesc as [Hesc|[Hx _]]; [|discriminate].
  rewrite <- (populateNext_isa o buf loop_fuel tok_default nt s Hesc Hentry Hcur).
  destruct (populateNext_ok o buf loop_fuel tok_default nt s) as (s1 & e & nt1 & E & F & Q2 & Q3 & Q4 & Q5 & Q6).
  { unfold loop_fuel. destruct (t_tok s); cbn; lia. }
  { exact Hentry. }
  { exact Hcur. }
  rewrite E. cbn [obind].
  destruct F as (F1 & F2 & F3 & F4 & F5 & F6 & F7).
  assert (Hcs : copies_ok s1).
  { unfold copies_ok in *. rewrite F5. eapply Forall_impl; [|exact Hcopy]. cbn. intros; lia. }
  assert (Hdone : e <> NeedMoreData ->
    forall s1' e' nt1', Ok (s1, e, nt1) = Ok (s1', e', nt1') ->
    (t_esc s1' = false \/ (t_bufs s1' = [] /\ concat (t_supply s1') = [])) /\
    cut_clean (t_bufs s1' ++ concat (t_supply s1'))).
  { intros He s1' e' nt1' E1. injection E1 as <- <- <-. rewrite F1, F2, Hb. split; [|exact Hcut].
    left. apply Q5; assumption. }
  destruct e; try (split; [reflexivity|apply Hdone; discriminate]).
  clear Hdone. unfold releaseFirstDataRef. rewrite F1, Hb.
  destruct (flush_copies_ok buf (t_copy s1)) as (cs & Ec & Mc & Fc).
  { rewrite F5. eapply Forall_impl; [|exact Hcopy]. cbn. intros; lia. }
  rewrite Ec. cbn [obind].
  set (s2 := set_bufs bs (set_ds 0 (set_cur 0 (set_copy cs s1)))).
  destruct (requestMore_all s2) as (R1 & R2 & R3 & R4 & R5 & R6 & R7 & R8 & R9).
  apply IH.
  - rewrite R3. cbn. congruence.
  - unfold entry_ok. rewrite R4, R5, R6, R7. cbn. destruct (Q3 eq_refl) as [H|[H1 H2]]; auto.
  - unfold cur_ok. rewrite R4. cbn. destruct (t_bufs (requestMoreData s2)); [reflexivity|apply Nat.le_0_l].
  - unfold copies_ok. rewrite R4, R8. cbn. eapply Forall_impl; [|exact Fc]. cbn. clear. intros; lia.
  - rewrite R2. cbn. destruct (t_esc s1) eqn:He1; [|auto]. right.
    assert (Hbs : ends_backslash buf) by (apply Q6; auto).
    assert (Hnil : bs ++ concat (t_supply s1) = []).
    { destruct (bs ++ concat (t_supply s1)) eqn:Hl; [reflexivity|exfalso].
      rewrite F2 in Hl. apply (Hcut [] buf (bs ++ concat (t_supply s))); auto.
      rewrite Hl. discriminate. }
    change (t_bufs s2) with bs in R1. change (t_supply s2) with (t_supply s1) in R1.
    rewrite Hnil in R1. apply app_eq_nil in R1. exact R1.
  - rewrite R1. change (t_bufs s2) with bs. change (t_supply s2) with (t_supply s1).
    rewrite F2. apply (cut_clean_tl buf). exact Hcut.
Qed.

Lemma nextToken_isa o nt s :
  isa_ok s ->
  nextToken o nt s = nextToken (scalar_opts o) nt s /\
  forall s1 e nt1, nextToken o nt s = Ok (s1, e, nt1) -> isa_ok s1.
Proof.
  intros (Hinv & Hp & Hesc & Hcut).
  assert (Hres : forall s1 e nt1, nextToken o nt s = Ok (s1, e, nt1) -> tok_inv s1 /\ t_parsed s1 = None).
  { intros s1 e nt1 E. split; [|eapply nextToken_parsed_None; eauto].
    destruct (nextToken_ok o nt s Hinv) as (s1' & e' & nt1' & E' & Hinv1 & _).
    rewrite E in E'. injection E' as <- <- <-. exact Hinv1. }
  cut (nextToken o nt s = nextToken (scalar_opts o) nt s /\
       forall s1 e nt1, nextToken o nt s = Ok (s1, e, nt1) ->
       (t_esc s1 = false \/ (t_bufs s1 = [] /\ concat (t_supply s1) = [])) /\
       cut_clean (t_bufs s1 ++ concat (t_supply s1))).
  { intros [H1 H2]. split; [exact H1|]. intros s1 e nt1 E.
    destruct (Hres _ _ _ E). destruct (H2 _ _ _ E). repeat split; auto; apply H. }
  clear Hres. unfold nextToken.
  destruct (match t_scope s with (_, d) :: _ => (d =? 0)%N | [] => false end).
  { split; [reflexivity|]. intros s1 e nt1 E. injection E as <- _ _. auto. }
  rewrite Hp. destruct Hinv as [Hinv Hcont]. rewrite Hp in Hinv. destruct Hinv as [Hcur Hcopy].
  cbv zeta. set (s0 := match t_bufs s with [] => requestMoreData s | _ :: _ => s end).
  assert (Z : t_parsed s0 = None /\ cur_ok s0 /\ copies_ok s0 /\ cont_ok s0 /\
     (t_esc s0 = false \/ (t_bufs s0 = [] /\ concat (t_supply s0) = [])) /\
     cut_clean (t_bufs s0 ++ concat (t_supply s0))).
  { unfold s0. destruct (t_bufs s) as [|b bs] eqn:Hb.
    - destruct (requestMore_all s) as (R1 & R2 & R3 & R4 & R5 & R6 & R7 & R8 & R9).
      unfold cur_ok, copies_ok, cont_ok in *. rewrite R1, R2, R3, R4, R5, R6, R7, R8, R9, Hb in *.
      repeat split; auto.
      + rewrite Hcur. destruct (t_bufs (requestMoreData s)); lia.
      + destruct Hesc as [H|[_ H]]; [auto|right]. cbn [app] in R1. rewrite H in R1.
        apply app_eq_nil in R1. exact R1.
    - rewrite Hb. repeat split; auto. }
  destruct Z as (Z1 & Z3 & Z4 & Z5 & Z6 & Z7).
  destruct (t_bufs s0) as [|b0 bs0] eqn:Hb0.
  { split; [reflexivity|]. intros s1 e nt1 E. injection E as <- _ _. rewrite Hb0. auto. }
  set (s2 := if t_cont s0 then s0 else resetForNewToken s0).
  assert (W : t_parsed s2 = None /\ cur_ok s2 /\ copies_ok s2 /\ entry_ok s2 /\
     (t_esc s2 = false \/ (t_bufs s2 = [] /\ concat (t_supply s2) = [])) /\
     cut_clean (t_bufs s2 ++ concat (t_supply s2)) /\ buffers_left s2 = buffers_left s2).
  { unfold s2. destruct (t_cont s0) eqn:Hc0.
    - rewrite Hb0. repeat split; auto.
      destruct (Z5 Hc0) as [H|(H1 & H2 & H3 & H4)]; [left; auto|right; auto].
    - unfold resetForNewToken, resetForNewValue. cbn. rewrite Hb0. repeat split; auto.
      left. reflexivity. }
  destruct W as (W1 & W2 & W3 & W4 & W5 & W6 & _).
  destruct (buffer_loop_isa o (S (buffers_left s2)) nt s2 W1 W4 W2 W3 W5 W6) as [B1 B2].
  rewrite <- B1.
  destruct (buffer_loop (S (buffers_left s2)) o nt s2) as [[[s3 e3] nt3]| |];
    cbn [obind]; try (split; [reflexivity|discriminate]).
  specialize (B2 s3 e3 nt3 eq_refl).
  split; [reflexivity|]. intros s1 e nt1.
  assert (Hs : forall t s, t_esc (scope_handle t s) = t_esc s /\ t_bufs (scope_handle t s) = t_bufs s
             /\ t_supply (scope_handle t s) = t_supply s).
  { intros t s'. unfold scope_handle. destruct (t_scope s'); auto. }
  assert (Hgo : forall t st, (t_esc (scope_handle t (set_stack st (set_cont (is_need_more e3) s3))) = false \/
       (t_bufs (scope_handle t (set_stack st (set_cont (is_need_more e3) s3))) = [] /\
        concat (t_supply (scope_handle t (set_stack st (set_cont (is_need_more e3) s3)))) = [])) /\
     cut_clean (t_bufs (scope_handle t (set_stack st (set_cont (is_need_more e3) s3))) ++
        concat (t_supply (scope_handle t (set_stack st (set_cont (is_need_more e3) s3)))))).
  { intros t st. destruct (Hs t (set_stack st (set_cont (is_need_more e3) s3))) as (-> & -> & ->).
    exact B2. }
  assert (Hgo2 : forall t, (t_esc (scope_handle t (set_cont (is_need_more e3) s3)) = false \/
       (t_bufs (scope_handle t (set_cont (is_need_more e3) s3)) = [] /\
        concat (t_supply (scope_handle t (set_cont (is_need_more e3) s3))) = [])) /\
     cut_clean (t_bufs (scope_handle t (set_cont (is_need_more e3) s3)) ++
        concat (t_supply (scope_handle t (set_cont (is_need_more e3) s3))))).
  { intros t. destruct (Hs t (set_cont (is_need_more e3) s3)) as (-> & -> & ->). exact B2. }
  destruct e3; try (intros E; injection E as <- _ _; exact B2).
  destruct (tk_value_type nt3);
    try (intros E; injection E as <- _ _; first [apply Hgo|apply Hgo2]);
    cbn [t_stack set_cont];
    destruct (t_stack s3) as [|[] st]; intros E; injection E as <- _ _;
    first [exact B2|apply Hgo].
Qed.

Lemma drain_isa o : forall f nt s, isa_ok s -> drain f o nt s = drain f (scalar_opts o) nt s.
Proof.
  induction f as [|f IH]; intros nt s H; [reflexivity|]. cbn [drain].
  destruct (nextToken_isa o nt s H) as [E Hn]. rewrite <- E.
  destruct (nextToken o nt s) as [[[s1 e] nt1]| |]; cbn [obind]; try reflexivity.
  destruct e; try reflexivity. rewrite (IH nt1 s1); [reflexivity|]. eapply Hn. reflexivity.
Qed.

Lemma tok_with_isa_ok bufs supply : cut_clean (bufs ++ concat supply) -> isa_ok (tok_with bufs supply).
Proof.
  intros H. repeat split; auto.
  - unfold cur_ok. cbn. destruct bufs; lia.
  - constructor.
  - intros _. left. reflexivity.
Qed.

Lemma drain_isa_new i o bufs supply f nt :
  cut_clean (bufs ++ concat supply) ->
  drain f (mkOpts i (o_ascii o) (o_nl o) (o_comma o) (o_comments o)) nt (tok_with bufs supply) =
  drain f (scalar_opts o) nt (tok_with bufs supply).
Proof.
  intros H. rewrite drain_isa by (apply tok_with_isa_ok; exact H). reflexivity.
Qed.

Lemma ends_backslash_last b : ends_backslash b -> last b x00 = c_backslash.
Proof. intros [l ->]. apply last_last. Qed.
