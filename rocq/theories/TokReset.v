(** A tokenizer that has read complete documents behaves like a new one after resetData. *)
From Verif Require Import Tactics Base ScanModel ScanProofs TokModel TokLoops TokProofs TokSafe TokSpecProofs JsonSpec TokSpec TokSlice TokScope TokGap TokStep TokJson TokJsonDoc.
From Coq Require Import Lia.

(** ** The continue flag is not read while a token is assembled *)

Lemma finish_cont sc o buf off size ty s :
  finish_value o buf off size ty (set_cont sc s) = on_state3 (set_cont sc) (finish_value o buf off size ty s).
Proof.
  unfold finish_value. cbn [t_prop set_cont]. destruct (t_prop s); try reflexivity.
  cbv zeta. cbn [t_cur t_esc set_cont]. destruct ty; try reflexivity.
  - destruct (findStringEnd _ _ _) as [[k|] e]; [|reflexivity]. cbn [t_cur t_ds set_esc set_cont].
    destruct (_ <? _); reflexivity.
  - destruct (findAsciiEnd _ _) as [k|]; [|reflexivity]. cbn [t_cur t_ds set_esc set_cont].
    destruct (_ <? _); reflexivity.
  - destruct (findNumberEnd _ _) as [k|]; [|reflexivity]. cbn [t_cur t_ds set_esc set_cont].
    destruct (_ <? _); reflexivity.
Qed.

Lemma pf_cont sc o buf ty s :
  populateFromDataRef o buf ty (set_cont sc s) = on_state3 (set_cont sc) (populateFromDataRef o buf ty s).
Proof.
  unfold populateFromDataRef. cbn [t_prop t_cur set_cont].
  destruct (t_prop s); try apply (finish_cont sc o buf (t_cur s) 0 ty s).
  destruct (findStartOfNextValue o buf (t_cur s)) as [e c|t a c|]; try reflexivity.
  cbv zeta. destruct (is_bracket t).
  - rewrite <- finish_cont. reflexivity.
  - rewrite <- finish_cont. reflexivity.
Qed.

Lemma pn_cont sc o buf : forall f tmp nt s,
  populateNext f o buf tmp nt (set_cont sc s) = on_state2 (set_cont sc) (populateNext f o buf tmp nt s).
Proof.
  induction f as [|f IH]; intros tmp nt s; [reflexivity|].
  cbn [populateNext]. cbn [t_cur t_tok t_im t_stack set_cont].
  destruct (t_cur s <? length buf); [|reflexivity].
  destruct (t_tok s).
  - rewrite pf_cont.
    destruct (populateFromDataRef o buf (im_name_type (t_im s)) s) as [[[[s1 e] [off size]] ty]| |];
      cbn [on_state3 obind]; try reflexivity.
    cbn [t_prop t_ds t_im set_cont].
    destruct e; try reflexivity.
    + destruct (slice buf off size) as [raw| |]; cbn [obind]; try reflexivity.
      destruct (im_active (t_im s1)).
      * cbv zeta. destruct (im_name_type (t_im s1)); try reflexivity;
          try (cbn [t_expect set_im set_cont]; destruct (t_expect s1 && negb (o_comma o)); reflexivity);
          rewrite <- IH; reflexivity.
      * cbv zeta. destruct ty; try reflexivity;
          try (cbn [t_expect set_im set_cont]; destruct (t_expect s1 && negb (o_comma o)); reflexivity);
          rewrite <- IH; reflexivity.
    + destruct (prop_gt_nostart (t_prop s1)); [|reflexivity].
      destruct (slice buf off (length buf - t_ds s1)); reflexivity.
  - destruct (findDelimiter o (t_stack s) buf (t_cur s)) as [e c|n a c|]; try reflexivity.
    + cbv zeta. cbn [t_im set_cur set_cont]. destruct (im_active (t_im s)); reflexivity.
    + cbv zeta. destruct n; try reflexivity;
        match goal with |- (if ?b then _ else _) = _ => destruct b end; try reflexivity; rewrite <- IH; reflexivity.
  - rewrite pf_cont.
    destruct (populateFromDataRef o buf (im_data_type (t_im s)) s) as [[[[s1 e] [off size]] ty]| |];
      cbn [on_state3 obind]; try reflexivity.
    cbn [t_prop t_ds t_im set_cont].
    destruct e; try reflexivity.
    + destruct (slice buf off size) as [raw| |]; cbn [obind]; try reflexivity.
      destruct (im_active (t_im s1)); cbv zeta;
        match goal with |- (if ?b then _ else _) = _ => destruct b end; reflexivity.
    + cbv zeta. destruct (prop_gt_nostart (t_prop s1)); [|reflexivity].
      destruct (slice buf off (length buf - t_ds s1)); reflexivity.
  - destruct (findTokenEnd o (t_stack s) buf (t_cur s)) as [e c|a c cm|]; try reflexivity.
    cbv zeta. rewrite <- IH. destruct cm; reflexivity.
Qed.

Lemma request_cont sc s : requestMoreData (set_cont sc s) = set_cont sc (requestMoreData s).
Proof. unfold requestMoreData. cbn [t_supply set_cont]. destruct (t_supply s); reflexivity. Qed.

Lemma release_cont sc s :
  releaseFirstDataRef (set_cont sc s) =
  match releaseFirstDataRef s with Ok s1 => Ok (set_cont sc s1) | UB => UB | OutOfFuel => OutOfFuel end.
Proof.
  unfold releaseFirstDataRef. cbn [t_bufs t_copy set_cont]. destruct (t_bufs s) as [|b bs]; [reflexivity|].
  destruct (flush_copies b (t_copy s)); reflexivity.
Qed.

Lemma buffer_loop_cont sc o : forall f nt s,
  buffer_loop f o nt (set_cont sc s) = on_state2 (set_cont sc) (buffer_loop f o nt s).
Proof.
  induction f as [|f IH]; intros nt s; cbn [buffer_loop]; cbn [t_bufs set_cont];
    (destruct (t_bufs s) as [|buf bs]; [reflexivity|]); [reflexivity|].
  rewrite pn_cont.
  destruct (populateNext loop_fuel o buf tok_default nt s) as [[[s1 e] nt1]| |]; cbn [on_state2 obind]; try reflexivity.
  destruct e; try reflexivity.
  rewrite release_cont. destruct (releaseFirstDataRef s1) as [s2| |]; cbn [obind]; try reflexivity.
  rewrite request_cont. apply IH.
Qed.


(** ** Looking for the end of a token outside all brackets is looking for the next one *)

Lemma populate_tokend o buf tmp nt s f :
  t_stack s = [] -> t_tok s = FindingName -> t_cur s < length buf ->
  populateNext (S f) o buf tmp nt (set_tok FindingTokenEnd s) = populateNext f o buf tmp nt s.
Proof.
  intros Hst Ht Hc. rewrite populateNext_S by exact Hc.
  change (t_tok (set_tok FindingTokenEnd s)) with FindingTokenEnd. cbn iota.
  change (t_stack (set_tok FindingTokenEnd s)) with (t_stack s). rewrite Hst. cbn [findTokenEnd].
  rewrite Nat.add_0_r. f_equal. destruct s. cbn in *. subst. reflexivity.
Qed.

Lemma populate_fuel o buf tmp nt s :
  entry_ok s -> t_cur s <= length buf -> t_tok s = FindingName ->
  populateNext 4 o buf tmp nt s = populateNext 5 o buf tmp nt s.
Proof.
  intros He Hc Ht.
  destruct (populateNext_ok o buf 4 tmp nt s) as (s1 & e & nt1 & E & _);
    [rewrite Ht; cbn; lia|exact He|exact Hc|].
  rewrite E. symmetry. apply populateNext_mono. exact E.
Qed.

Definition tok_alike (s s' : tstate) : Prop :=
  s' = s \/ (s' = set_tok FindingTokenEnd s /\ t_tok s = FindingName /\ t_stack s = []).

Lemma buffer_loop_tok o : forall f nt s,
  t_parsed s = None -> entry_ok s -> cur_ok s -> copies_ok s ->
  t_tok s = FindingName -> t_stack s = [] -> t_prop s = NoStartFound ->
  match buffer_loop f o nt s with
  | Ok (s1, e, nt1) =>
    exists s1', buffer_loop f o nt (set_tok FindingTokenEnd s) = Ok (s1', e, nt1) /\ tok_alike s1 s1' /\
      (s1' <> s1 -> t_prop s1 = NoStartFound)
  | UB => buffer_loop f o nt (set_tok FindingTokenEnd s) = UB
  | OutOfFuel => buffer_loop f o nt (set_tok FindingTokenEnd s) = OutOfFuel
  end.
Proof.
  induction f as [|f IH]; intros nt s Hp Hentry Hcur Hcopy Ht Hst Hpr; cbn [buffer_loop];
    cbn [t_bufs set_tok]; destruct (t_bufs s) as [|buf bs] eqn:Hb.
  - exists (set_tok FindingTokenEnd s). split; [reflexivity|]. split; [right; auto|auto].
  - reflexivity.
  - exists (set_tok FindingTokenEnd s). split; [reflexivity|]. split; [right; auto|auto].
  - unfold cur_ok in Hcur. rewrite Hb in Hcur.
    destruct (Nat.eq_dec (t_cur s) (length buf)) as [Heq|Hne].
    + rewrite !populateNext_end by exact Heq. cbn [obind].
      unfold releaseFirstDataRef. cbn [t_bufs t_copy set_tok]. rewrite Hb.
      destruct (flush_copies_ok buf (t_copy s)) as (cs & Ec & Mc & Fc).
      { eapply Forall_impl; [|exact Hcopy]. cbn. intros; lia. }
      rewrite Ec. cbn [obind].
      set (s2 := set_bufs bs (set_ds 0 (set_cur 0 (set_copy cs s)))).
      assert (Hreq : t_parsed (requestMoreData s2) = None /\ t_cur (requestMoreData s2) = 0 /\
        t_prop (requestMoreData s2) = t_prop s /\ t_stack (requestMoreData s2) = t_stack s /\
        t_tok (requestMoreData s2) = t_tok s /\ t_copy (requestMoreData s2) = cs).
      { unfold requestMoreData. destruct (t_supply s2); cbn; repeat split; congruence. }
      destruct Hreq as (X1 & X4 & X6 & X9 & X7 & X8).
      replace (requestMoreData (set_bufs bs (set_ds 0 (set_cur 0 (set_copy cs (set_tok FindingTokenEnd s))))))
        with (set_tok FindingTokenEnd (requestMoreData s2)).
      2:{ unfold requestMoreData, s2. cbn [t_supply set_bufs set_ds set_cur set_copy set_tok]. destruct (t_supply s); reflexivity. }
      apply IH; try congruence.
      * left. congruence.
      * unfold cur_ok. rewrite X4. destruct (t_bufs (requestMoreData s2)); lia.
      * unfold copies_ok. rewrite X4, X8. eapply Forall_impl; [|exact Fc]. cbn. intros; lia.
    + unfold loop_fuel. rewrite populate_tokend by (assumption || lia).
      rewrite (populate_fuel o buf tok_default nt s Hentry Hcur Ht).
      destruct (populateNext 5 o buf tok_default nt s) as [[[s1 e] nt1]| |]; cbn [obind]; try reflexivity.
      destruct e; try (eexists; split; [reflexivity|split; [left; reflexivity|congruence]]).
      destruct (releaseFirstDataRef s1) as [s2| |]; cbn [obind]; try reflexivity.
      destruct (buffer_loop f o nt1 (requestMoreData s2)) as [[[s3 e3] nt3]| |]; try reflexivity.
      eexists; split; [reflexivity|split; [left; reflexivity|congruence]].
Qed.

(** ** Two states that give the same tokens *)

Definition ready (s : tstate) : Prop :=
  t_parsed s = None /\ t_prop s = NoStartFound /\ t_ptype s = TError /\ t_ds s = 0 /\ t_im s = im_init /\
  cur_ok s /\ copies_ok s /\ t_tok s = FindingName /\ t_stack s = [].

Lemma ready_reset s : ready s -> resetForNewToken s = s.
Proof. intros (H1 & H2 & H3 & H4 & H5 & _). destruct s. cbn in *. subst. reflexivity. Qed.

Lemma set_cont_twice a b s : set_cont a (set_cont b s) = set_cont a s.
Proof. reflexivity. Qed.

(** What nextToken does after the loop over the buffers. *)
Definition next_tail (r : outcome (tstate * error * token)) : outcome (tstate * error * token) :=
  let* (s2, e, nt1) := r in
  let s3 := set_cont (is_need_more e) s2 in
  match e with
  | NoError =>
    let vt := tk_value_type nt1 in
    match vt with
    | TArrayStart | TObjectStart => Ok (scope_handle vt (set_stack (vt :: t_stack s3) s3), NoError, nt1)
    | TArrayEnd =>
      match t_stack s3 with
      | TArrayStart :: st => Ok (scope_handle vt (set_stack st s3), NoError, nt1)
      | _ => Ok (s3, UnexpectedArrayEnd, nt1)
      end
    | TObjectEnd =>
      match t_stack s3 with
      | TObjectStart :: st => Ok (scope_handle vt (set_stack st s3), NoError, nt1)
      | _ => Ok (s3, UnexpectedObjectEnd, nt1)
      end
    | _ => Ok (scope_handle vt s3, NoError, nt1)
    end
  | _ => Ok (s3, e, nt1)
  end.

Lemma nextToken_tail o nt s :
  t_parsed s = None -> t_scope s = [] ->
  nextToken o nt s =
  let s0 := match t_bufs s with [] => requestMoreData s | _ => s end in
  match t_bufs s0 with
  | [] => Ok (s0, NeedMoreData, nt)
  | _ => let s1 := if t_cont s0 then s0 else resetForNewToken s0 in
         next_tail (buffer_loop (S (buffers_left s1)) o nt s1)
  end.
Proof. intros Hp Hs. unfold nextToken. rewrite Hp, Hs. reflexivity. Qed.

Definition same_result (a b : outcome (tstate * error * token)) : Prop :=
  match a, b with
  | Ok (s1, e1, nt1), Ok (s2, e2, nt2) => e1 = e2 /\ nt1 = nt2 /\ (e1 = NoError -> s1 = s2)
  | UB, UB | OutOfFuel, OutOfFuel => True
  | _, _ => False
  end.

Lemma same_refl r : same_result r r.
Proof. destruct r as [[[s e] nt]| |]; cbn; auto. Qed.

Lemma next_tail_alike s1 s1' e nt1 :
  tok_alike s1 s1' -> (e = NoError -> s1' = s1) ->
  same_result (next_tail (Ok (s1', e, nt1))) (next_tail (Ok (s1, e, nt1))).
Proof.
  intros Ha He. destruct e; try (cbn; repeat split; congruence).
  rewrite (He eq_refl). apply same_refl.
Qed.

Lemma next_tail_cont c r : next_tail (on_state2 (set_cont c) r) = next_tail r.
Proof. destruct r as [[[s e] nt]| |]; reflexivity. Qed.

(** After NoError the first call was not left in the middle: both loops end in the same state. *)
Lemma buffer_loop_tok_ok o : forall f nt s s1 nt1,
  t_parsed s = None -> entry_ok s -> cur_ok s -> copies_ok s ->
  t_tok s = FindingName -> t_stack s = [] -> t_prop s = NoStartFound ->
  buffer_loop f o nt s = Ok (s1, NoError, nt1) ->
  buffer_loop f o nt (set_tok FindingTokenEnd s) = Ok (s1, NoError, nt1).
Proof.
  induction f as [|f IH]; intros nt s s1 nt1 Hp Hentry Hcur Hcopy Ht Hst Hpr E; cbn [buffer_loop] in *;
    cbn [t_bufs set_tok]; destruct (t_bufs s) as [|buf bs] eqn:Hb; try discriminate E.
  unfold cur_ok in Hcur. rewrite Hb in Hcur.
  destruct (Nat.eq_dec (t_cur s) (length buf)) as [Heq|Hne].
  - rewrite populateNext_end in E by exact Heq. rewrite populateNext_end by exact Heq. cbn [obind] in *.
    unfold releaseFirstDataRef in *. cbn [t_bufs t_copy set_tok] in *. rewrite Hb in *.
    destruct (flush_copies_ok buf (t_copy s)) as (cs & Ec & Mc & Fc).
    { eapply Forall_impl; [|exact Hcopy]. cbn. intros; lia. }
    rewrite Ec in *. cbn [obind] in *.
    set (s2 := set_bufs bs (set_ds 0 (set_cur 0 (set_copy cs s)))) in *.
    assert (Hreq : t_parsed (requestMoreData s2) = None /\ t_cur (requestMoreData s2) = 0 /\
      t_prop (requestMoreData s2) = t_prop s /\ t_stack (requestMoreData s2) = t_stack s /\
      t_tok (requestMoreData s2) = t_tok s /\ t_copy (requestMoreData s2) = cs).
    { unfold requestMoreData. destruct (t_supply s2); cbn; repeat split; congruence. }
    destruct Hreq as (X1 & X4 & X6 & X9 & X7 & X8).
    replace (requestMoreData (set_bufs bs (set_ds 0 (set_cur 0 (set_copy cs (set_tok FindingTokenEnd s))))))
      with (set_tok FindingTokenEnd (requestMoreData s2)).
    2:{ unfold requestMoreData, s2. cbn [t_supply set_bufs set_ds set_cur set_copy set_tok]. destruct (t_supply s); reflexivity. }
    apply IH; try congruence.
    + left. congruence.
    + unfold cur_ok. rewrite X4. destruct (t_bufs (requestMoreData s2)); lia.
    + unfold copies_ok. rewrite X4, X8. eapply Forall_impl; [|exact Fc]. cbn. intros; lia.
  - unfold loop_fuel in *. rewrite populate_tokend by (assumption || lia).
    rewrite (populate_fuel o buf tok_default nt s Hentry Hcur Ht). exact E.
Qed.

Lemma buffer_loop_same o f nt s :
  t_parsed s = None -> entry_ok s -> cur_ok s -> copies_ok s ->
  t_tok s = FindingName -> t_stack s = [] -> t_prop s = NoStartFound ->
  same_result (next_tail (buffer_loop f o nt (set_tok FindingTokenEnd s))) (next_tail (buffer_loop f o nt s)).
Proof.
  intros H1 H2 H3 H4 H5 H6 H7.
  generalize (buffer_loop_tok o f nt s H1 H2 H3 H4 H5 H6 H7).
  destruct (buffer_loop f o nt s) as [[[s1 e] nt1]| |] eqn:E.
  - intros (s1' & E' & Ha & _). destruct e; try (rewrite E'; apply next_tail_alike; [exact Ha|discriminate]).
    rewrite (buffer_loop_tok_ok o f nt s s1 nt1) by assumption. apply same_refl.
  - intros ->. exact I.
  - intros ->. exact I.
Qed.

Lemma next_ready o nt s c (end_ : bool) :
  ready s -> t_scope s = [] -> t_cont s = false ->
  same_result (nextToken o nt (set_cont c (if end_ then set_tok FindingTokenEnd s else s))) (nextToken o nt s).
Proof.
  intros HR Hs Hc.
  set (s' := if end_ then set_tok FindingTokenEnd s else s).
  assert (Hs' : t_parsed s' = None /\ t_scope s' = [] /\ t_bufs s' = t_bufs s).
  { destruct HR as (H1 & _). unfold s'. destruct end_; auto. }
  destruct Hs' as (P1 & P2 & P3).
  rewrite nextToken_tail by assumption. rewrite (nextToken_tail o nt s) by (try apply HR; assumption).
  cbv zeta. change (t_bufs (set_cont c s')) with (t_bufs s'). rewrite P3.
  set (s0 := match t_bufs s with [] => requestMoreData s | _ => s end).
  assert (HR0 : ready s0 /\ t_cont s0 = false).
  { unfold s0. destruct (t_bufs s) as [|b bs] eqn:Hb; [|auto].
    destruct HR as (H1 & H2 & H3 & H4 & H5 & H6 & H7 & H8 & H9).
    unfold requestMoreData. destruct (t_supply s) as [|l ls]; [repeat split; auto|].
    split; [|exact Hc]. repeat split; auto. unfold cur_ok in *. cbn. rewrite Hb in *. cbn. destruct l; cbn; lia. }
  destruct HR0 as [HR0 Hc0].
  replace (match t_bufs s with [] => requestMoreData (set_cont c s') | _ => set_cont c s' end)
    with (set_cont c (if end_ then set_tok FindingTokenEnd s0 else s0)).
  2:{ unfold s0, s'. destruct (t_bufs s).
      - rewrite request_cont. f_equal. destruct end_; [|reflexivity]. unfold requestMoreData.
        cbn [t_supply set_tok]. destruct (t_supply s); reflexivity.
      - reflexivity. }
  replace (t_bufs (set_cont c (if end_ then set_tok FindingTokenEnd s0 else s0))) with (t_bufs s0) by (destruct end_; reflexivity).
  destruct (t_bufs s0) as [|b bs] eqn:Hb0.
  { cbn. repeat split; congruence. }
  rewrite Hc0, (ready_reset s0 HR0).
  assert (Hrs : forall e, resetForNewToken (set_cont c (if e : bool then set_tok FindingTokenEnd s0 else s0)) =
                          set_cont c (if e then set_tok FindingTokenEnd s0 else s0)).
  { intros []; pattern s0 at 2; rewrite <- (ready_reset s0 HR0); reflexivity. }
  rewrite Hrs.
  set (x := set_cont c (if end_ then set_tok FindingTokenEnd s0 else s0)).
  replace (if t_cont x then x else x) with x by (destruct (t_cont x); reflexivity).
  replace (if false then s0 else s0) with s0 by reflexivity.
  replace (buffers_left x) with (buffers_left s0) by (unfold x; destruct end_; reflexivity).
  unfold x.
  rewrite buffer_loop_cont, next_tail_cont.
  destruct end_; [|apply same_refl].
  destruct HR0 as (H1 & H2 & H3 & H4 & H5 & H6 & H7 & H8 & H9).
  apply buffer_loop_same; auto. left. exact H2.
Qed.

(** ** resetData *)

Lemma drain_same o f nt s' s :
  same_result (nextToken o nt s') (nextToken o nt s) ->
  match drain f o nt s', drain f o nt s with
  | Ok (ts1, e1, _), Ok (ts2, e2, _) => ts1 = ts2 /\ e1 = e2
  | UB, UB | OutOfFuel, OutOfFuel => True
  | _, _ => False
  end.
Proof.
  destruct f as [|f]; [exact (fun _ => I)|]. cbn [drain].
  destruct (nextToken o nt s') as [[[s1 e1] nt1]| |], (nextToken o nt s) as [[[s2 e2] nt2]| |]; cbn [same_result obind]; try tauto.
  intros (<- & <- & Hs). destruct e1; auto.
  rewrite (Hs eq_refl). destruct (drain f o nt1 s2) as [[[ts e] sx]| |]; cbn [obind]; auto.
Qed.

Lemma reset_idle o s d i f nt :
  idle false s -> i <= length d ->
  match drain f o nt (resetData d i s), drain f o nt (resetData d i (set_supply (t_supply s) t_init)) with
  | Ok (ts1, e1, _), Ok (ts2, e2, _) => ts1 = ts2 /\ e1 = e2
  | UB, UB | OutOfFuel, OutOfFuel => True
  | _, _ => False
  end.
Proof.
  intros (I1 & I2 & I3 & I4 & I5 & I6 & I7 & I8) Hi. apply drain_same.
  set (s0 := resetData d i (set_supply (t_supply s) t_init)).
  replace (resetData d i s) with
    (set_cont (t_cont s) (if match t_tok s with FindingTokenEnd => true | _ => false end
                          then set_tok FindingTokenEnd s0 else s0)).
  - apply next_ready; [|reflexivity|reflexivity].
    unfold ready, s0. cbn. repeat split; auto. unfold copies_ok. cbn. constructor.
  - unfold s0. destruct s. cbn in *. subst. destruct I2 as [->| ->]; reflexivity.
Qed.

(** A tokenizer that has read a whole document, then is reset. *)
Lemma reset_after_document o L j t :
  crosses o L -> doc_text L j t -> forall nt f ts e s d i f2 nt2,
  drain f o nt (tok_with [t] []) = Ok (ts, e, s) -> i <= length d ->
  match drain f2 o nt2 (resetData d i s), drain f2 o nt2 (resetData d i (set_supply (t_supply s) t_init)) with
  | Ok (ts1, e1, _), Ok (ts2, e2, _) => ts1 = ts2 /\ e1 = e2
  | UB, UB | OutOfFuel, OutOfFuel => True
  | _, _ => False
  end.
Proof.
  intros HL Hd nt f ts e s d i f2 nt2 E Hi. apply reset_idle; [|exact Hi].
  destruct (doc_tokens_correct o L j t (S (length (doc_tokens None j))) nt HL Hd (Nat.lt_succ_diag_r _))
    as (ts' & s' & E' & _ & Hidle).
  set (n := Nat.max f (S (length (doc_tokens None j)))).
  apply (drain_fuel _ _ n) in E'; [|lia]. apply (drain_fuel _ _ n) in E; [|lia].
  change (tok_with [t] []) with (addData t t_init) in E. congruence.
Qed.
