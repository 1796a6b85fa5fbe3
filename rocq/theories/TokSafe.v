(** nextToken on every reachable state: no undefined behaviour, progress, bracket discipline. *)
From Verif Require Import Base ScanModel ScanProofs TokModel TokLoops TokProofs.
From Coq Require Import Lia ZifyBool ZifyNat ZifyN.

Definition cur_ok (s : tstate) : Prop :=
  match t_bufs s with [] => t_cur s = 0 | b :: _ => t_cur s <= length b end.

Definition cont_ok (s : tstate) : Prop :=
  t_cont s = true ->
  t_prop s = NoStartFound \/
  (t_prop s = FindingEnd /\ t_ds s = 0 /\ (t_parsed s = None -> t_cur s = 0) /\
   (t_tok s = FindingName \/ t_tok s = FindingData)).

Definition copies_ok (s : tstate) : Prop :=
  Forall (fun c => fst (snd c) <= t_cur s) (t_copy s).

Definition tok_inv (s : tstate) : Prop :=
  match t_parsed s with
  | Some ts => t_cur s < length ts /\ t_copy s = []
  | None => cur_ok s /\ copies_ok s
  end /\ cont_ok s.

Definition bytes_left (s : tstate) : nat :=
  length (concat (t_bufs s)) + length (concat (concat (t_supply s))) -
  match t_parsed s with Some _ => 0 | None => t_cur s end.

Definition parsed_left (s : tstate) : nat :=
  match t_parsed s with Some ts => length ts - t_cur s | None => 0 end.

(** ** The buffer loop *)

Lemma flush_copies_ok b cs :
  Forall (fun c => fst (snd c) <= length b) cs ->
  exists cs', flush_copies b cs = Ok cs' /\ map fst cs' = map fst cs /\
    Forall (fun c : nat * (nat * bytes) => fst (snd c) = 0) cs'.
Proof.
  induction cs as [|[id [st txt]] cs IH]; intros H; cbn [flush_copies].
  - exists []. repeat split; constructor.
  - inversion H as [|? ? H1 H2]. subst. cbn [fst snd] in H1.
    destruct (IH H2) as (cs' & E & M & F). rewrite E.
    destruct (Nat.ltb_spec (length b) st); [lia|]. cbn [obind].
    eexists. split; [reflexivity|]. split; [cbn; rewrite M; reflexivity|].
    constructor; [reflexivity|exact F].
Qed.

Lemma requestMore_left s :
  buffers_left (requestMoreData s) = buffers_left s /\
  bytes_left (requestMoreData s) = bytes_left s.
Proof.
  unfold requestMoreData. destruct (t_supply s) as [|bs sup] eqn:Es; [auto|].
  unfold buffers_left, bytes_left. cbn. rewrite Es. cbn.
  rewrite !app_length, !concat_app, !app_length. lia.
Qed.

Lemma populateNext_S_end o buf tmp nt s f :
  t_cur s = length buf -> populateNext (S f) o buf tmp nt s = Ok (s, NeedMoreData, nt).
Proof. intros H. cbn [populateNext]. rewrite H, Nat.ltb_irrefl. reflexivity. Qed.

Lemma populateNext_end o buf tmp nt s :
  t_cur s = length buf -> populateNext loop_fuel o buf tmp nt s = Ok (s, NeedMoreData, nt).
Proof. apply populateNext_S_end. Qed.

Lemma buffer_loop_ok o : forall f nt s,
  t_parsed s = None -> entry_ok s -> cur_ok s -> copies_ok s ->
  buffers_left s < f ->
  exists s1 e nt1, buffer_loop f o nt s = Ok (s1, e, nt1) /\
    t_scope s1 = t_scope s /\ t_stack s1 = t_stack s /\ t_parsed s1 = None /\
    map fst (t_copy s1) = map fst (t_copy s) /\ cur_ok s1 /\ copies_ok s1 /\ bytes_left s1 <= bytes_left s /\
    (e = NeedMoreData -> entry_ok s1) /\
    (e = NoError ->
     (t_tok s1 = FindingName \/ t_tok s1 = FindingTokenEnd) /\
     (bytes_left s1 < bytes_left s \/ t_prop s = FindingEnd \/ t_tok s = FindingDelimiter)).
Proof.
  induction f as [|f IH]; intros nt s Hp Hentry Hcur Hcopy Hf; [lia|].
  cbn [buffer_loop]. unfold cur_ok in Hcur.
  destruct (t_bufs s) as [|buf bs] eqn:Hb.
  { do 3 eexists. split; [reflexivity|].
    repeat split; auto; try congruence; try discriminate. unfold cur_ok. rewrite Hb. exact Hcur. }
  destruct (populateNext_ok o buf loop_fuel tok_default nt s) as (s1 & e & nt1 & E & F & Q2 & Q3 & Q4 & Q5 & Q6).
  { unfold loop_fuel. destruct (t_tok s); cbn; lia. }
  { exact Hentry. }
  { exact Hcur. }
  rewrite E. cbn [obind].
  destruct F as (F1 & F2 & F3 & F4 & F5 & F6 & F7).
  assert (Hbl : bytes_left s1 + t_cur s1 = bytes_left s + t_cur s).
  { unfold bytes_left. rewrite F1, F2, F6, Hp, Hb. cbn [concat]. rewrite app_length. lia. }
  assert (Hcs : copies_ok s1).
  { unfold copies_ok in *. rewrite F5. eapply Forall_impl; [|exact Hcopy]. cbn. intros; lia. }
  assert (Hret : e <> NeedMoreData -> exists s1' e' nt1', Ok (s1, e, nt1) = Ok (s1', e', nt1') /\
    t_scope s1' = t_scope s /\ t_stack s1' = t_stack s /\ t_parsed s1' = None /\
    map fst (t_copy s1') = map fst (t_copy s) /\ cur_ok s1' /\ copies_ok s1' /\ bytes_left s1' <= bytes_left s /\
    (e' = NeedMoreData -> entry_ok s1') /\
    (e' = NoError ->
     (t_tok s1' = FindingName \/ t_tok s1' = FindingTokenEnd) /\
     (bytes_left s1' < bytes_left s \/ t_prop s = FindingEnd \/ t_tok s = FindingDelimiter))).
  { intros He. do 3 eexists. split; [reflexivity|].
    repeat split; auto; try congruence; try lia.
    - unfold cur_ok. rewrite F1, Hb. lia.
    - apply Q4; assumption.
    - destruct (Q4 H) as [_ [H1|H1]]; [left; lia|right; exact H1]. }
  destruct e; try (apply Hret; discriminate).
  (* NeedMoreData *)
  unfold releaseFirstDataRef. rewrite F1, Hb.
  destruct (flush_copies_ok buf (t_copy s1)) as (cs & Ec & Mc & Fc).
  { rewrite F5. eapply Forall_impl; [|exact Hcopy]. cbn. intros; lia. }
  rewrite Ec. cbn [obind].
  set (s2 := set_bufs bs (set_ds 0 (set_cur 0 (set_copy cs s1)))).
  destruct (requestMore_left s2) as [R1 R2].
  assert (Hreq : t_parsed (requestMoreData s2) = None /\ t_scope (requestMoreData s2) = t_scope s /\
    t_stack (requestMoreData s2) = t_stack s /\ t_cur (requestMoreData s2) = 0 /\
    t_ds (requestMoreData s2) = 0 /\ t_prop (requestMoreData s2) = t_prop s1 /\
    t_tok (requestMoreData s2) = t_tok s1 /\ t_copy (requestMoreData s2) = cs).
  { unfold requestMoreData. destruct (t_supply s2); cbn; repeat split; congruence. }
  destruct Hreq as (X1 & X2 & X3 & X4 & X5 & X6 & X7 & X8).
  destruct (IH nt1 (requestMoreData s2)) as (s3 & e3 & nt3 & E3 & Y1 & Y2 & Y3 & Y0 & Y4 & Y5 & Y6 & Y7 & Y8).
  { exact X1. }
  { unfold entry_ok. rewrite X4, X5, X6, X7. destruct (Q3 eq_refl) as [H|[H1 H2]]; auto. }
  { unfold cur_ok. rewrite X4. destruct (t_bufs (requestMoreData s2)); lia. }
  { unfold copies_ok. rewrite X4, X8. eapply Forall_impl; [|exact Fc]. cbn. intros; lia. }
  { rewrite R1. unfold buffers_left in *. cbn. rewrite F2. rewrite Hb in Hf. cbn in Hf. lia. }
  assert (Hle : bytes_left s2 + length buf = bytes_left s + t_cur s).
  { unfold bytes_left. cbn. rewrite F2, F6, Hp, Hb. cbn. rewrite app_length. lia. }
  do 3 eexists. split; [exact E3|].
  repeat split; auto; try congruence; try lia.
  - apply Y8; assumption.
  - destruct (Y8 H) as [_ [H1|[H1|H1]]].
    + left. lia.
    + (* a value was being read when the first buffer ended *)
      rewrite X6 in H1.
      destruct (t_prop s) eqn:Hps; auto.
      * left. (* the start was found in this buffer *)
        assert (t_cur s < length buf \/ t_cur s = length buf) as [Hc|Hc] by lia.
        { lia. }
        exfalso. clear - E Hc H1 Hps.
        rewrite populateNext_end in E by assumption. injection E as <- _. congruence.
      * destruct Hentry as [Hx|[Hx _]]; congruence.
    + rewrite X7 in H1. destruct (t_tok s) eqn:Hts; auto;
      (left; assert (t_cur s < length buf \/ t_cur s = length buf) as [Hc|Hc] by lia;
       [lia|]; exfalso; clear - E Hc H1 Hts;
       rewrite populateNext_end in E by assumption; injection E as <- _; congruence).
Qed.

(** ** nextToken *)

Definition is_close (t : type) : bool :=
  match t with TObjectEnd | TArrayEnd => true | _ => false end.

(** How a returned token changes the bracket stack. *)
Definition stack_step (t : type) (st st' : list type) : Prop :=
  match t with
  | TObjectStart | TArrayStart => st' = t :: st
  | TObjectEnd => st = TObjectStart :: st'
  | TArrayEnd => st = TArrayStart :: st'
  | _ => st' = st
  end.

Lemma scope_handle_fields t s :
  t_tok (scope_handle t s) = t_tok s /\ t_prop (scope_handle t s) = t_prop s /\
  t_cur (scope_handle t s) = t_cur s /\ t_ds (scope_handle t s) = t_ds s /\
  t_cont (scope_handle t s) = t_cont s /\ t_bufs (scope_handle t s) = t_bufs s /\
  t_supply (scope_handle t s) = t_supply s /\ t_stack (scope_handle t s) = t_stack s /\
  t_copy (scope_handle t s) = t_copy s /\ t_parsed (scope_handle t s) = t_parsed s /\
  t_esc (scope_handle t s) = t_esc s /\ t_im (scope_handle t s) = t_im s /\
  t_expect (scope_handle t s) = t_expect s /\ t_ptype (scope_handle t s) = t_ptype s.
Proof. unfold scope_handle. destruct (t_scope s); repeat split. Qed.

Definition weight (s : tstate) : nat :=
  bytes_left s + parsed_left s +
  (if t_cont s then 1 else match t_tok s with FindingDelimiter => 1 | _ => 0 end).

Lemma nextToken_ok o nt s :
  tok_inv s ->
  exists s1 e nt1, nextToken o nt s = Ok (s1, e, nt1) /\ tok_inv s1 /\
    (e = NoError -> t_parsed s = None -> stack_step (tk_value_type nt1) (t_stack s) (t_stack s1)) /\
    (e <> NoError -> t_stack s1 = t_stack s) /\
    map fst (t_copy s1) = map fst (t_copy s) /\
    (e = NoError -> weight s1 < weight s).
Proof.
  intros Hinv. unfold nextToken.
  destruct (match t_scope s with (_, d) :: _ => (d =? 0)%N | [] => false end).
  { do 3 eexists. split; [reflexivity|]. repeat split; auto; try apply Hinv; try discriminate. }
  destruct Hinv as [Hinv Hcont].
  destruct (t_parsed s) as [ts|] eqn:Hp.
  - destruct Hinv as [Hlen Hcopy].
    destruct (nth_error ts (t_cur s)) as [tk|] eqn:Hn.
    2:{ apply nth_error_None in Hn. lia. }
    destruct (Nat.eqb_spec (S (t_cur s)) (length ts)) as [Heq|Hne].
    + do 3 eexists. split; [reflexivity|].
      set (s1 := set_parsed None (set_cur 0 s)).
      destruct (scope_handle_fields (tk_value_type tk) s1)
        as (A1 & A2 & A3 & A4 & A5 & A6 & A7 & A8 & A9 & A10 & _).
      split; [|split; [congruence|split; [congruence|split; [rewrite A9; reflexivity|]]]].
      * split.
        -- rewrite A10. cbn [t_parsed s1 set_parsed]. split.
           ++ unfold cur_ok. rewrite A6, A3. cbn. destruct (t_bufs s); lia.
           ++ unfold copies_ok. rewrite A9. cbn. rewrite Hcopy. constructor.
        -- unfold cont_ok in *. rewrite A1, A2, A3, A4, A5, A10. cbn.
           intros Hc. destruct (Hcont Hc) as [H|(H1 & H2 & H3 & H4)]; auto.
      * intros _. unfold weight, bytes_left, parsed_left. rewrite A1, A3, A5, A6, A7, A10.
        cbn. rewrite Hp. destruct (t_cont s); lia.
    + do 3 eexists. split; [reflexivity|].
      set (s1 := set_cur (S (t_cur s)) s).
      destruct (scope_handle_fields (tk_value_type tk) s1)
        as (A1 & A2 & A3 & A4 & A5 & A6 & A7 & A8 & A9 & A10 & _).
      split; [|split; [congruence|split; [congruence|split; [rewrite A9; reflexivity|]]]].
      * split.
        -- rewrite A10. cbn [t_parsed s1 set_cur]. rewrite Hp, A3, A9. cbn. split; [lia|exact Hcopy].
        -- unfold cont_ok in *. rewrite A1, A2, A3, A4, A5, A10. cbn. rewrite Hp.
           intros Hc. destruct (Hcont Hc) as [H|(H1 & H2 & H3 & H4)]; auto.
           right. repeat split; auto. congruence.
      * intros _. unfold weight, bytes_left, parsed_left. rewrite A1, A3, A5, A6, A7, A10.
        cbn. rewrite Hp. destruct (t_cont s); lia.
  - destruct Hinv as [Hcur Hcopy]. cbv zeta.
    set (s0 := match t_bufs s with [] => requestMoreData s | _ :: _ => s end).
    assert (H0 : t_parsed s0 = None /\ t_cur s0 = t_cur s /\ t_stack s0 = t_stack s /\
                 bytes_left s0 = bytes_left s /\ cur_ok s0 /\ copies_ok s0 /\ cont_ok s0 /\
                 t_cont s0 = t_cont s /\ t_tok s0 = t_tok s /\ t_copy s0 = t_copy s).
    { unfold s0, cur_ok, copies_ok, cont_ok in *. destruct (t_bufs s) as [|b bs] eqn:Hb.
      - destruct (requestMore_left s) as [_ R]. rewrite R. unfold requestMoreData.
        destruct (t_supply s) as [|l ls]; cbn; rewrite Hb; repeat split; auto.
        cbn. destruct l as [|x l]; cbn; lia.
      - repeat split; auto. rewrite Hb. exact Hcur. }
    destruct H0 as (Z1 & Z2 & Z3 & Z4 & Z5 & Z6 & Z7 & Z8 & Z9 & Z10).
    destruct (t_bufs s0) as [|b0 bs0] eqn:Hb0.
    { do 3 eexists. split; [reflexivity|].
      repeat split; auto; try discriminate.
      - rewrite Z1. auto.
      - rewrite Z10. reflexivity. }
    set (s1 := if t_cont s0 then s0 else resetForNewToken s0).
    assert (H1 : t_parsed s1 = None /\ t_stack s1 = t_stack s /\ bytes_left s1 = bytes_left s /\
                 cur_ok s1 /\ copies_ok s1 /\ entry_ok s1 /\ t_tok s1 = t_tok s /\
                 (t_prop s1 = FindingEnd -> t_cont s = true) /\ t_copy s1 = t_copy s).
    { unfold s1. destruct (t_cont s0) eqn:Hc0.
      - repeat split; auto; try congruence. unfold entry_ok.
        destruct (Z7 Hc0) as [H|(H1 & H2 & H3 & H4)]; auto 10.
      - repeat split; auto.
        + left. reflexivity.
        + cbn. discriminate. }
    destruct H1 as (W1 & W2 & W3 & W4 & W5 & W6 & W7 & W8 & W9).
    destruct (buffer_loop_ok o (S (buffers_left s1)) nt s1 W1 W6 W4 W5 (Nat.lt_succ_diag_r _))
      as (s2 & e & nt1 & E & Y1 & Y2 & Y3 & Y0 & Y4 & Y5 & Y6 & Y7 & Y8).
    rewrite E. cbn [obind].
    set (s3 := set_cont (is_need_more e) s2).
    assert (Hinv3 : tok_inv s3).
    { unfold tok_inv, cont_ok, s3. cbn. rewrite Y3. split; [split; [exact Y4|exact Y5]|].
      destruct e; try discriminate. intros _.
      destruct (Y7 eq_refl) as [H|(H1 & H2 & H3 & H4)]; auto 10. }
    assert (Herr : forall e', e' <> NoError ->
      exists s1' e'' nt1', Ok (s3, e', nt1) = Ok (s1', e'', nt1') /\ tok_inv s1' /\
       (e'' = NoError -> None = @None (list token) ->
          stack_step (tk_value_type nt1') (t_stack s) (t_stack s1')) /\
       (e'' <> NoError -> t_stack s1' = t_stack s) /\
       map fst (t_copy s1') = map fst (t_copy s) /\
       (e'' = NoError -> weight s1' < weight s)).
    { intros e' He'. do 3 eexists. split; [reflexivity|].
      split; [exact Hinv3|]. split; [congruence|].
      split; [intros _; cbn; congruence|]. split; [cbn; congruence|congruence]. }
    destruct e eqn:He0; try (apply Herr; discriminate).
    destruct (Y8 eq_refl) as [Y81 Y82].
    assert (Hw : forall st', weight (scope_handle (tk_value_type nt1) (set_stack st' s3)) < weight s).
    { intros st'.
      destruct (scope_handle_fields (tk_value_type nt1) (set_stack st' s3))
        as (A1 & A2 & A3 & A4 & A5 & A6 & A7 & A8 & A9 & A10 & _).
      unfold weight. unfold bytes_left, parsed_left. rewrite A1, A3, A5, A6, A7, A10. cbn.
      rewrite Y3, Hp.
      assert (B : length (concat (t_bufs s2)) + length (concat (concat (t_supply s2))) - t_cur s2
                  = bytes_left s2) by (unfold bytes_left; rewrite Y3; reflexivity).
      rewrite B.
      assert (B' : length (concat (t_bufs s)) + length (concat (concat (t_supply s))) - t_cur s
                  = bytes_left s) by (unfold bytes_left; rewrite Hp; reflexivity).
      rewrite B'. clear B B'.
      destruct Y82 as [H|[H|H]].
      - destruct Y81 as [-> | ->]; cbn; destruct (t_cont s); try lia; destruct (t_tok s); lia.
      - rewrite (W8 H). destruct Y81 as [-> | ->]; lia.
      - rewrite W7 in H. rewrite H. destruct Y81 as [-> | ->]; destruct (t_cont s); lia. }
    assert (Hgood : forall st', stack_step (tk_value_type nt1) (t_stack s) st' ->
      exists s1' e' nt1',
       Ok (scope_handle (tk_value_type nt1) (set_stack st' s3), NoError, nt1) = Ok (s1', e', nt1') /\
       tok_inv s1' /\
       (e' = NoError -> None = @None (list token) ->
          stack_step (tk_value_type nt1') (t_stack s) (t_stack s1')) /\
       (e' <> NoError -> t_stack s1' = t_stack s) /\
       map fst (t_copy s1') = map fst (t_copy s) /\
       (e' = NoError -> weight s1' < weight s)).
    { intros st' Hst. do 3 eexists. split; [reflexivity|].
      destruct (scope_handle_fields (tk_value_type nt1) (set_stack st' s3))
        as (A1 & A2 & A3 & A4 & A5 & A6 & A7 & A8 & A9 & A10 & _).
      split.
      - unfold tok_inv, cur_ok, copies_ok, cont_ok in *. rewrite A1, A2, A3, A4, A5, A6, A9, A10.
        exact Hinv3.
      - split; [intros _ _; rewrite A8; cbn; exact Hst|].
        split; [congruence|]. split; [rewrite A9; cbn; congruence|intros _; apply Hw]. }
    assert (Hst3 : t_stack s3 = t_stack s) by (cbn; congruence).
    assert (Hsame : set_stack (t_stack s3) s3 = s3) by (destruct s3; reflexivity).
    assert (Hplain : is_bracket (tk_value_type nt1) = false ->
      exists s1' e' nt1',
       Ok (scope_handle (tk_value_type nt1) s3, NoError, nt1) = Ok (s1', e', nt1') /\
       tok_inv s1' /\
       (e' = NoError -> None = @None (list token) ->
          stack_step (tk_value_type nt1') (t_stack s) (t_stack s1')) /\
       (e' <> NoError -> t_stack s1' = t_stack s) /\
       map fst (t_copy s1') = map fst (t_copy s) /\
       (e' = NoError -> weight s1' < weight s)).
    { intros Hbr. specialize (Hgood (t_stack s3)). rewrite Hsame in Hgood. apply Hgood.
      rewrite Hst3. destruct (tk_value_type nt1); try discriminate Hbr; reflexivity. }
    destruct (tk_value_type nt1) eqn:Hvt; try (apply Hplain; reflexivity).
    + apply Hgood. rewrite Hst3. reflexivity.
    + rewrite Hst3. destruct (t_stack s) as [|[] st] eqn:Hst; try (apply Herr; discriminate).
      apply Hgood. reflexivity.
    + apply Hgood. rewrite Hst3. reflexivity.
    + rewrite Hst3. destruct (t_stack s) as [|[] st] eqn:Hst; try (apply Herr; discriminate).
      apply Hgood. reflexivity.
Qed.

Lemma drain_ok o : forall f nt s,
  tok_inv s -> weight s < f ->
  exists ts e s1, drain f o nt s = Ok (ts, e, s1) /\ tok_inv s1 /\ e <> NoError /\
    length ts <= weight s.
Proof.
  induction f as [|f IH]; intros nt s Hinv Hf; [lia|].
  cbn [drain].
  destruct (nextToken_ok o nt s Hinv) as (s1 & e & nt1 & E & Hinv1 & _ & _ & _ & Hw).
  rewrite E. cbn [obind].
  destruct e; try (do 3 eexists; split; [reflexivity|]; repeat split; try apply Hinv1;
                   try discriminate; cbn; lia).
  specialize (Hw eq_refl).
  destruct (IH nt1 s1 Hinv1) as (ts & e' & s' & E' & Hinv' & He' & Hl); [lia|].
  rewrite E'. cbn [obind]. do 3 eexists. split; [reflexivity|].
  repeat split; try apply Hinv'; auto. cbn [length]. lia.
Qed.

(** More fuel changes nothing. *)
Lemma drain_fuel o : forall f f' nt s r,
  drain f o nt s = Ok r -> f <= f' -> drain f' o nt s = Ok r.
Proof.
  induction f as [|f IH]; intros f' nt s r E Hf; [discriminate|].
  destruct f' as [|f']; [lia|]. cbn [drain] in *.
  destruct (nextToken o nt s) as [[[s1 e] nt1]| |]; cbn [obind] in *; try discriminate.
  destruct e; auto.
  destruct (drain f o nt1 s1) as [[[ts e'] s']| |] eqn:E1; cbn [obind] in *; try discriminate.
  rewrite (IH f' nt1 s1 _ E1) by lia. cbn [obind]. exact E.
Qed.

(** Reading raw data never switches to parsed-token mode. *)
Lemma nextToken_parsed_None o nt s s1 e nt1 :
  tok_inv s -> t_parsed s = None -> nextToken o nt s = Ok (s1, e, nt1) -> t_parsed s1 = None.
Proof.
  intros Hinv Hp. unfold nextToken.
  destruct (match t_scope s with (_, d) :: _ => (d =? 0)%N | [] => false end).
  { intros E. injection E as <- _ _. exact Hp. }
  rewrite Hp. destruct Hinv as [Hinv Hcont]. rewrite Hp in Hinv. destruct Hinv as [Hcur Hcopy].
  cbv zeta. set (s0 := match t_bufs s with [] => requestMoreData s | _ :: _ => s end).
  assert (Z1 : t_parsed s0 = None).
  { unfold s0, requestMoreData. destruct (t_bufs s); [destruct (t_supply s)|]; exact Hp. }
  assert (Z2 : t_cur s0 = t_cur s /\ cur_ok s0 /\ copies_ok s0 /\ cont_ok s0).
  { unfold s0, cur_ok, copies_ok, cont_ok in *. destruct (t_bufs s) as [|b bs] eqn:Hb.
    - unfold requestMoreData. destruct (t_supply s) as [|l ls]; cbn; rewrite Hb; repeat split; auto.
      cbn. destruct l; cbn; lia.
    - repeat split; auto. rewrite Hb. exact Hcur. }
  destruct Z2 as (Z2 & Z3 & Z4 & Z5).
  destruct (t_bufs s0) as [|b0 bs0]; [intros E; injection E as <- _ _; exact Z1|].
  set (s2 := if t_cont s0 then s0 else resetForNewToken s0).
  assert (W : t_parsed s2 = None /\ cur_ok s2 /\ copies_ok s2 /\ entry_ok s2).
  { unfold s2. destruct (t_cont s0) eqn:Hc0.
    - repeat split; auto. destruct (Z5 Hc0) as [H|(H1 & H2 & H3 & H4)]; [left; auto|right; auto].
    - repeat split; auto. left. reflexivity. }
  destruct W as (W1 & W2 & W3 & W4).
  destruct (buffer_loop_ok o (S (buffers_left s2)) nt s2 W1 W4 W2 W3 (Nat.lt_succ_diag_r _))
    as (s3 & e3 & nt3 & E & Y1 & Y2 & Y3 & _).
  rewrite E. cbn [obind].
  assert (Hs : forall t s, t_parsed (scope_handle t s) = t_parsed s).
  { intros t s'. unfold scope_handle. destruct (t_scope s'); reflexivity. }
  destruct e3; try (intros E2; injection E2 as <- _ _; exact Y3).
  destruct (tk_value_type nt3); cbn [t_stack set_cont];
    try (intros E2; injection E2 as <- _ _; rewrite ?Hs; exact Y3);
    destruct (t_stack s3) as [|[] st]; intros E2; injection E2 as <- _ _; rewrite ?Hs; exact Y3.
Qed.
