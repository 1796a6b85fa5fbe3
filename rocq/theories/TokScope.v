(** Scopes: reading inside a scope is reading without it, until the matching end. *)
From Verif Require Import Tactics Base ScanModel ScanProofs TokModel TokLoops TokProofs TokSafe TokSpecProofs JsonSpec TokSpec TokSlice.
From Coq Require Import Lia.

Definition on_state {A} (g : tstate -> tstate) (r : outcome (tstate * A)) : outcome (tstate * A) :=
  match r with Ok (s, a) => Ok (g s, a) | UB => UB | OutOfFuel => OutOfFuel end.

Definition on_state2 {A B} (g : tstate -> tstate) (r : outcome (tstate * A * B)) : outcome (tstate * A * B) :=
  match r with Ok (s, a, b) => Ok (g s, a, b) | UB => UB | OutOfFuel => OutOfFuel end.

Definition on_state3 {A B C} (g : tstate -> tstate) (r : outcome (tstate * A * B * C)) : outcome (tstate * A * B * C) :=
  match r with Ok (s, a, b, c) => Ok (g s, a, b, c) | UB => UB | OutOfFuel => OutOfFuel end.

Lemma finish_scope sc o buf off size ty s :
  finish_value o buf off size ty (set_scope sc s) = on_state3 (set_scope sc) (finish_value o buf off size ty s).
Proof.
  unfold finish_value. cbn [t_prop set_scope]. destruct (t_prop s); try reflexivity.
  cbv zeta. cbn [t_cur t_esc set_scope]. destruct ty; try reflexivity.
  - destruct (findStringEnd _ _ _) as [[k|] e]; [|reflexivity]. cbn [t_cur t_ds set_esc set_scope].
    destruct (_ <? _); reflexivity.
  - destruct (findAsciiEnd _ _) as [k|]; [|reflexivity]. cbn [t_cur t_ds set_esc set_scope].
    destruct (_ <? _); reflexivity.
  - destruct (findNumberEnd _ _) as [k|]; [|reflexivity]. cbn [t_cur t_ds set_esc set_scope].
    destruct (_ <? _); reflexivity.
Qed.

Lemma pf_scope sc o buf ty s :
  populateFromDataRef o buf ty (set_scope sc s) = on_state3 (set_scope sc) (populateFromDataRef o buf ty s).
Proof.
  unfold populateFromDataRef. cbn [t_prop t_cur set_scope].
  destruct (t_prop s); try apply (finish_scope sc o buf (t_cur s) 0 ty s).
  destruct (findStartOfNextValue o buf (t_cur s)) as [e c|t a c|]; try reflexivity.
  cbv zeta. destruct (is_bracket t).
  - rewrite <- finish_scope. reflexivity.
  - rewrite <- finish_scope. reflexivity.
Qed.

Lemma pn_scope sc o buf : forall f tmp nt s,
  populateNext f o buf tmp nt (set_scope sc s) = on_state2 (set_scope sc) (populateNext f o buf tmp nt s).
Proof.
  induction f as [|f IH]; intros tmp nt s; [reflexivity|].
  cbn [populateNext]. cbn [t_cur t_tok t_im t_stack set_scope].
  destruct (t_cur s <? length buf); [|reflexivity].
  destruct (t_tok s).
  - rewrite pf_scope.
    destruct (populateFromDataRef o buf (im_name_type (t_im s)) s) as [[[[s1 e] [off size]] ty]| |];
      cbn [on_state3 obind]; try reflexivity.
    cbn [t_prop t_ds t_im set_scope].
    destruct e; try reflexivity.
    + destruct (slice buf off size) as [raw| |]; cbn [obind]; try reflexivity.
      destruct (im_active (t_im s1)).
      * cbv zeta. destruct (im_name_type (t_im s1)); try reflexivity;
          try (cbn [t_expect set_im set_scope]; destruct (t_expect s1 && negb (o_comma o)); reflexivity);
          rewrite <- IH; reflexivity.
      * cbv zeta. destruct ty; try reflexivity;
          try (cbn [t_expect set_im set_scope]; destruct (t_expect s1 && negb (o_comma o)); reflexivity);
          rewrite <- IH; reflexivity.
    + destruct (prop_gt_nostart (t_prop s1)); [|reflexivity].
      destruct (slice buf off (length buf - t_ds s1)); reflexivity.
  - destruct (findDelimiter o (t_stack s) buf (t_cur s)) as [e c|n a c|]; try reflexivity.
    + cbv zeta. cbn [t_im set_cur set_scope]. destruct (im_active (t_im s)); reflexivity.
    + cbv zeta. destruct n; try reflexivity;
        match goal with |- (if ?b then _ else _) = _ => destruct b end; try reflexivity; rewrite <- IH; reflexivity.
  - rewrite pf_scope.
    destruct (populateFromDataRef o buf (im_data_type (t_im s)) s) as [[[[s1 e] [off size]] ty]| |];
      cbn [on_state3 obind]; try reflexivity.
    cbn [t_prop t_ds t_im set_scope].
    destruct e; try reflexivity.
    + destruct (slice buf off size) as [raw| |]; cbn [obind]; try reflexivity.
      destruct (im_active (t_im s1)); cbv zeta;
        match goal with |- (if ?b then _ else _) = _ => destruct b end; reflexivity.
    + cbv zeta. destruct (prop_gt_nostart (t_prop s1)); [|reflexivity].
      destruct (slice buf off (length buf - t_ds s1)); reflexivity.
  - destruct (findTokenEnd o (t_stack s) buf (t_cur s)) as [e c|a c cm|]; try reflexivity.
    cbv zeta. rewrite <- IH. destruct cm; reflexivity.
Qed.

Lemma request_scope sc s : requestMoreData (set_scope sc s) = set_scope sc (requestMoreData s).
Proof. unfold requestMoreData. cbn [t_supply set_scope]. destruct (t_supply s); reflexivity. Qed.

Lemma release_scope sc s :
  releaseFirstDataRef (set_scope sc s) =
  match releaseFirstDataRef s with Ok s1 => Ok (set_scope sc s1) | UB => UB | OutOfFuel => OutOfFuel end.
Proof.
  unfold releaseFirstDataRef. cbn [t_bufs t_copy set_scope]. destruct (t_bufs s) as [|b bs]; [reflexivity|].
  destruct (flush_copies b (t_copy s)); reflexivity.
Qed.

Lemma buffer_loop_scope sc o : forall f nt s,
  buffer_loop f o nt (set_scope sc s) = on_state2 (set_scope sc) (buffer_loop f o nt s).
Proof.
  induction f as [|f IH]; intros nt s; cbn [buffer_loop]; cbn [t_bufs set_scope];
    (destruct (t_bufs s) as [|buf bs]; [reflexivity|]); [reflexivity|].
  rewrite pn_scope.
  destruct (populateNext loop_fuel o buf tok_default nt s) as [[[s1 e] nt1]| |]; cbn [on_state2 obind]; try reflexivity.
  destruct e; try reflexivity.
  rewrite release_scope. destruct (releaseFirstDataRef s1) as [s2| |]; cbn [obind]; try reflexivity.
  rewrite request_scope. apply IH.
Qed.

(** Updating the innermost scope. *)
Definition scope_upd (t : type) (sc : list (type * N)) : list (type * N) :=
  match sc with [] => [] | c :: r => handleType c t :: r end.

Definition open_scope (sc : list (type * N)) : Prop :=
  match sc with [] => True | (_, d) :: _ => d <> 0%N end.

Lemma scope_handle_set t sc s : t_scope s = [] ->
  scope_handle t (set_scope sc s) = set_scope (scope_upd t sc) (scope_handle t s).
Proof.
  intros H. unfold scope_handle. rewrite H. cbn [t_scope set_scope]. destruct sc; [destruct s; cbn in *; subst; reflexivity|].
  reflexivity.
Qed.

Lemma next_scope o nt sc s :
  t_scope s = [] -> open_scope sc ->
  nextToken o nt (set_scope sc s) =
  match nextToken o nt s with
  | Ok (s1, NoError, nt1) => Ok (set_scope (scope_upd (tk_value_type nt1) sc) s1, NoError, nt1)
  | Ok (s1, e, nt1) => Ok (set_scope sc s1, e, nt1)
  | UB => UB
  | OutOfFuel => OutOfFuel
  end.
Proof.
  intros Hs Ho. unfold nextToken. rewrite Hs. cbn [t_scope set_scope].
  assert (Hopen : match sc with (_, d) :: _ => (d =? 0)%N | [] => false end = false).
  { destruct sc as [|[t d] l]; [reflexivity|]. apply N.eqb_neq. exact Ho. }
  rewrite Hopen. cbn [t_parsed t_cur t_bufs set_scope].
  destruct (t_parsed s) as [ts|].
  { destruct (nth_error ts (t_cur s)) as [tk|]; [|reflexivity]. cbv zeta.
    rewrite <- scope_handle_set by (destruct (_ =? _); exact Hs).
    destruct (S (t_cur s) =? length ts); reflexivity. }
  cbv zeta.
  replace (match t_bufs s with [] => requestMoreData (set_scope sc s) | _ => set_scope sc s end)
    with (set_scope sc (match t_bufs s with [] => requestMoreData s | _ => s end)).
  2:{ destruct (t_bufs s); [rewrite request_scope|]; reflexivity. }
  assert (Hs0 : t_scope (match t_bufs s with [] => requestMoreData s | _ => s end) = []).
  { destruct (t_bufs s); [|exact Hs]. unfold requestMoreData. destruct (t_supply s); exact Hs. }
  remember (match t_bufs s with [] => requestMoreData s | _ => s end) as s0 eqn:H0. clear H0.
  cbn [t_bufs t_cont set_scope]. destruct (t_bufs s0) as [|b bs]; [reflexivity|].
  replace (if t_cont s0 then set_scope sc s0 else resetForNewToken (set_scope sc s0))
    with (set_scope sc (if t_cont s0 then s0 else resetForNewToken s0)) by (destruct (t_cont s0); reflexivity).
  assert (Hs1 : t_scope (if t_cont s0 then s0 else resetForNewToken s0) = []) by (destruct (t_cont s0); exact Hs0).
  remember (if t_cont s0 then s0 else resetForNewToken s0) as s1 eqn:H1. clear H1.
  replace (buffers_left (set_scope sc s1)) with (buffers_left s1) by reflexivity.
  rewrite buffer_loop_scope.
  assert (Hk : forall s2 e2 nt2, buffer_loop (S (buffers_left s1)) o nt s1 = Ok (s2, e2, nt2) -> t_scope s2 = []).
  { intros s2 e2 nt2 E. generalize (buffer_loop_scope [] o (S (buffers_left s1)) nt s1).
    replace (set_scope [] s1) with s1 by (destruct s1; cbn in Hs1; subst; reflexivity).
    rewrite E. cbn [on_state2]. intros E2. injection E2 as E2. rewrite E2. reflexivity. }
  destruct (buffer_loop (S (buffers_left s1)) o nt s1) as [[[s2 e2] nt2]| |]; cbn [on_state2 obind]; try reflexivity.
  specialize (Hk _ _ _ eq_refl).
  destruct e2; try reflexivity.
  assert (Hh : forall vt st, scope_handle vt (set_stack st (set_cont (is_need_more NoError) (set_scope sc s2))) =
     set_scope (scope_upd vt sc) (scope_handle vt (set_stack st (set_cont (is_need_more NoError) s2)))).
  { intros vt st. rewrite <- scope_handle_set by exact Hk. reflexivity. }
  assert (Hh0 : forall vt, scope_handle vt (set_cont (is_need_more NoError) (set_scope sc s2)) =
     set_scope (scope_upd vt sc) (scope_handle vt (set_cont (is_need_more NoError) s2))).
  { intros vt. rewrite <- scope_handle_set by exact Hk. reflexivity. }
  cbn [t_stack set_cont set_scope].
  destruct (tk_value_type nt2) eqn:Hvt; try (rewrite Hh0, Hvt; reflexivity); try (rewrite Hh, Hvt; reflexivity);
    destruct (t_stack s2) as [|[] st]; try reflexivity; rewrite Hh, Hvt; reflexivity.
Qed.

(** ** Counting *)

Lemma type_eqb_eq a b : type_eqb a b = true <-> a = b.
Proof. destruct a, b; cbn; split; congruence || reflexivity. Qed.

Definition scope_type (ty : type) : Prop := ty = TArrayStart \/ ty = TObjectStart.

Definition count_step (ty : type) (d : N) (t : type) : N :=
  (if type_eqb t ty then d + 1 else if type_eqb t (closer ty) then d - 1 else d)%N.

Lemma handle_step ty d t : scope_type ty -> (0 < d)%N -> (count_step ty d t < 65536)%N -> (d < 65536)%N ->
  handleType (ty, d) t = (ty, count_step ty d t).
Proof.
  intros Hty Hd Hb Hb2. unfold handleType, count_step in *.
  assert (Hm : ((d + 65535) mod 65536 = d - 1)%N).
  { replace (d + 65535)%N with ((d - 1) + 1 * 65536)%N by lia. rewrite N.mod_add by discriminate.
    apply N.mod_small. lia. }
  destruct Hty as [->| ->]; rewrite Hm; destruct t; cbn in *; try reflexivity;
    (rewrite N.mod_small by exact Hb; reflexivity).
Qed.

Lemma deepest_ge ty d l : (d <= deepest ty d l)%N.
Proof. destruct l; cbn; lia. Qed.

Definition count_all (ty : type) (l : list type) (d : N) : N := fold_left (count_step ty) l d.

Lemma count_app ty l1 l2 d : count_all ty (l1 ++ l2) d = count_all ty l2 (count_all ty l1 d).
Proof. apply fold_left_app. Qed.

(** Inside balanced brackets the count never drops below its start. *)
Lemma balanced_count ty l : scope_type ty -> balanced l -> forall d, (0 < d)%N ->
  count_all ty l d = d /\
  (forall p q, l = p ++ q -> (d <= count_all ty p d)%N).
Proof.
  intros Hty. induction 1 as [|t l H1 H2 H3 H4 H5 IH|l1 l2 H1 IH1 H2 IH2|l1 l2 H1 IH1 H2 IH2]; intros d Hd.
  - split; [reflexivity|]. intros p q E. symmetry in E. apply app_eq_nil in E. destruct E as [-> _]. apply N.le_refl.
  - assert (Hs : count_step ty d t = d).
    { unfold count_step. destruct Hty as [->| ->]; destruct t; cbn; congruence. }
    destruct (IH d Hd) as [I1 I2]. split.
    + unfold count_all. cbn. rewrite Hs. exact I1.
    + intros p q E. destruct p as [|x p]; [apply N.le_refl|]. injection E as <- E.
      unfold count_all. cbn. rewrite Hs. eapply I2; exact E.
  - assert (Hs : exists d', count_step ty d TObjectStart = d' /\ (d <= d')%N /\ count_step ty d' TObjectEnd = d).
    { unfold count_step. destruct Hty as [->| ->]; cbn; eexists; (split; [reflexivity|]); lia. }
    destruct Hs as (d' & S1 & S2 & S3).
    destruct (IH1 d' ltac:(lia)) as [I1 I2]. destruct (IH2 d Hd) as [I3 I4]. split.
    + change (TObjectStart :: l1 ++ TObjectEnd :: l2) with ([TObjectStart] ++ l1 ++ [TObjectEnd] ++ l2).
      rewrite !count_app. cbn [count_all fold_left]. rewrite S1, I1, S3. exact I3.
    + intros p q E. destruct p as [|x p]; [apply N.le_refl|]. injection E as <- E.
      change (count_all ty (TObjectStart :: p) d) with (count_all ty p (count_step ty d TObjectStart)). rewrite S1.
      destruct (Nat.le_gt_cases (length p) (length l1)) as [Hl|Hl].
      * apply N.le_trans with d'; [exact S2|]. apply (I2 p (skipn (length p) l1)).
        assert (Hf : firstn (length p) (l1 ++ TObjectEnd :: l2) = p) by (rewrite E, firstn_app, firstn_all, Nat.sub_diag; cbn; apply app_nil_r).
        rewrite firstn_app in Hf. replace (length p - length l1) with 0 in Hf by lia. cbn in Hf. rewrite app_nil_r in Hf.
        rewrite <- Hf at 1. rewrite firstn_skipn. reflexivity.
      * assert (Hp : exists p2, p = l1 ++ TObjectEnd :: p2 /\ exists q2, l2 = p2 ++ q2).
        { assert (Hf : firstn (length p) (l1 ++ TObjectEnd :: l2) = p) by (rewrite E, firstn_app, firstn_all, Nat.sub_diag; cbn; apply app_nil_r).
          rewrite firstn_app, firstn_all2 in Hf by lia.
          destruct (length p - length l1) as [|k] eqn:Hk; [lia|]. cbn in Hf.
          exists (firstn k l2). split; [symmetry; exact Hf|]. exists (skipn k l2). symmetry. apply firstn_skipn. }
        destruct Hp as (p2 & -> & q2 & E2).
        change (l1 ++ TObjectEnd :: p2) with (l1 ++ [TObjectEnd] ++ p2). rewrite !count_app, I1. cbn [count_all fold_left].
        rewrite S3. eapply I4. exact E2.
  - assert (Hs : exists d', count_step ty d TArrayStart = d' /\ (d <= d')%N /\ count_step ty d' TArrayEnd = d).
    { unfold count_step. destruct Hty as [->| ->]; cbn; eexists; (split; [reflexivity|]); lia. }
    destruct Hs as (d' & S1 & S2 & S3).
    destruct (IH1 d' ltac:(lia)) as [I1 I2]. destruct (IH2 d Hd) as [I3 I4]. split.
    + change (TArrayStart :: l1 ++ TArrayEnd :: l2) with ([TArrayStart] ++ l1 ++ [TArrayEnd] ++ l2).
      rewrite !count_app. cbn [count_all fold_left]. rewrite S1, I1, S3. exact I3.
    + intros p q E. destruct p as [|x p]; [apply N.le_refl|]. injection E as <- E.
      change (count_all ty (TArrayStart :: p) d) with (count_all ty p (count_step ty d TArrayStart)). rewrite S1.
      destruct (Nat.le_gt_cases (length p) (length l1)) as [Hl|Hl].
      * apply N.le_trans with d'; [exact S2|]. apply (I2 p (skipn (length p) l1)).
        assert (Hf : firstn (length p) (l1 ++ TArrayEnd :: l2) = p) by (rewrite E, firstn_app, firstn_all, Nat.sub_diag; cbn; apply app_nil_r).
        rewrite firstn_app in Hf. replace (length p - length l1) with 0 in Hf by lia. cbn in Hf. rewrite app_nil_r in Hf.
        rewrite <- Hf at 1. rewrite firstn_skipn. reflexivity.
      * assert (Hp : exists p2, p = l1 ++ TArrayEnd :: p2 /\ exists q2, l2 = p2 ++ q2).
        { assert (Hf : firstn (length p) (l1 ++ TArrayEnd :: l2) = p) by (rewrite E, firstn_app, firstn_all, Nat.sub_diag; cbn; apply app_nil_r).
          rewrite firstn_app, firstn_all2 in Hf by lia.
          destruct (length p - length l1) as [|k] eqn:Hk; [lia|]. cbn in Hf.
          exists (firstn k l2). split; [symmetry; exact Hf|]. exists (skipn k l2). symmetry. apply firstn_skipn. }
        destruct Hp as (p2 & -> & q2 & E2).
        change (l1 ++ TArrayEnd :: p2) with (l1 ++ [TArrayEnd] ++ p2). rewrite !count_app, I1. cbn [count_all fold_left].
        rewrite S3. eapply I4. exact E2.
Qed.

(** ** Reading with and without scopes *)

Lemma next_no_scope o nt s s1 e nt1 : t_scope s = [] -> nextToken o nt s = Ok (s1, e, nt1) -> t_scope s1 = [].
Proof.
  intros Hs E. generalize (next_scope o nt [] s Hs I).
  replace (set_scope [] s) with s by (destruct s; cbn in Hs; subst; reflexivity).
  rewrite E. destruct e; intros E2; injection E2 as E2; rewrite E2; reflexivity.
Qed.

Lemma reads_scoped o ty sc0 : scope_type ty -> forall ts nt s d nt1 s1,
  t_scope s = [] -> reads o nt s ts nt1 s1 ->
  (deepest ty d (map tk_value_type ts) < 65536)%N -> (0 < d)%N ->
  (forall p q, map tk_value_type ts = p ++ q -> q <> [] -> (0 < count_all ty p d)%N) ->
  reads o nt (set_scope ((ty, d) :: sc0) s) ts nt1
        (set_scope ((ty, count_all ty (map tk_value_type ts) d) :: sc0) s1) /\ t_scope s1 = [].
Proof.
  intros Hty. induction ts as [|tk ts IH]; intros nt s d nt1 s1 Hs H Hdeep Hd Hpos; inversion H; subst.
  - split; [constructor|exact Hs].
  - match goal with E : nextToken o nt s = _, R : reads _ _ _ _ _ _ |- _ => rename E into En; rename R into Rn end.
    cbn [map deepest] in Hdeep. fold (count_step ty d (tk_value_type tk)) in Hdeep.
    assert (Hb := deepest_ge ty (count_step ty d (tk_value_type tk)) (map tk_value_type ts)).
    assert (Hh : handleType (ty, d) (tk_value_type tk) = (ty, count_step ty d (tk_value_type tk))).
    { apply handle_step; [exact Hty|exact Hd|lia|lia]. }
    assert (Hs2 := next_no_scope _ _ _ _ _ _ Hs En).
    assert (En' : nextToken o nt (set_scope ((ty, d) :: sc0) s) =
                  Ok (set_scope ((ty, count_step ty d (tk_value_type tk)) :: sc0) s2, NoError, tk)).
    { rewrite next_scope; [|exact Hs|cbn; lia]. rewrite En. cbn [scope_upd]. rewrite Hh. reflexivity. }
    destruct ts as [|tk2 ts].
    + inversion Rn; subst. split; [|exact Hs2]. econstructor; [exact En'|constructor].
    + destruct (IH tk s2 (count_step ty d (tk_value_type tk)) nt1 s1) as [I1 I2]; auto.
      * lia.
      * apply (Hpos [tk_value_type tk] (map tk_value_type (tk2 :: ts))); [reflexivity|discriminate].
      * intros p q E Hq. apply (Hpos (tk_value_type tk :: p) q); [cbn [map] in *; rewrite E; reflexivity|exact Hq].
      * split; [|exact I2]. econstructor; [exact En'|]. exact I1.
Qed.

Lemma reads_goTo o ty sc0 : forall ts nt s d nt1 s1 f,
  reads o nt (set_scope ((ty, d) :: sc0) s) ts nt1 s1 ->
  (forall p q ntp sp, ts = p ++ q -> q <> [] -> reads o nt (set_scope ((ty, d) :: sc0) s) p ntp sp ->
     match t_scope sp with (_, x) :: _ => x <> 0%N | [] => False end) ->
  match t_scope s1 with (_, x) :: _ => x = 0%N | [] => False end ->
  length ts < f ->
  goToEndOfScope f o nt (set_scope ((ty, d) :: sc0) s) = Ok (s1, NoError, nt1).
Proof.
  intros ts nt s d nt1 s1 f.
  generalize (set_scope ((ty, d) :: sc0) s). intros s0. clear s. revert nt s0 nt1 s1 f.
  induction ts as [|tk ts IH]; intros nt s0 nt1 s1 f H Hpos Hend Hf; inversion H; subst.
  - destruct f as [|f]; [lia|]. cbn [goToEndOfScope]. destruct (t_scope s1) as [|[t x] l]; [contradiction|].
    subst x. reflexivity.
  - destruct f as [|f]; [cbn in Hf; lia|]. cbn [goToEndOfScope].
    assert (Hh := Hpos [] (tk :: ts) nt s0 eq_refl ltac:(discriminate) (Rd_nil _ _ _)).
    destruct (t_scope s0) as [|[t x] l]; [contradiction|].
    apply N.eqb_neq in Hh. rewrite Hh.
    match goal with E : nextToken o nt s0 = _ |- _ => rewrite E end. cbn [obind].
    eapply IH; [eassumption| |exact Hend|cbn in Hf; lia].
    intros p q ntp sp E Hq Hr. apply (Hpos (tk :: p) q ntp sp); [rewrite E; reflexivity|exact Hq|].
    econstructor; eassumption.
Qed.

Lemma reads_det o nt s ts nt1 s1 : reads o nt s ts nt1 s1 -> forall nt2 s2, reads o nt s ts nt2 s2 -> nt1 = nt2 /\ s1 = s2.
Proof.
  induction 1 as [nt s|nt s tk sa ts nt1 s1 E H IH]; intros nt2 s2 H2; inversion H2; subst; [auto|].
  match goal with E' : nextToken o nt s = Ok (?x, _, _) |- _ => rewrite E in E'; injection E' as <- end. apply IH. assumption.
Qed.

Lemma reads_prefix o nt s p q nt1 s1 : reads o nt s (p ++ q) nt1 s1 -> exists ntp sp, reads o nt s p ntp sp.
Proof.
  revert nt s. induction p as [|tk p IH]; intros nt s H; [do 2 eexists; constructor|].
  cbn in H. inversion H; subst. match goal with R : reads _ _ _ (p ++ q) _ _ |- _ => destruct (IH _ _ R) as (ntp & sp & Hp) end.
  do 2 eexists. econstructor; eassumption.
Qed.

Lemma deepest_prefix ty : forall p d q, (deepest ty d p <= deepest ty d (p ++ q))%N.
Proof.
  induction p as [|t p IH]; intros d q; cbn [app deepest]; [apply deepest_ge|].
  generalize (IH (if type_eqb t ty then d + 1 else if type_eqb t (closer ty) then d - 1 else d)%N q). lia.
Qed.

Lemma deepest_snoc ty : forall l d t, scope_type ty -> t = closer ty ->
  deepest ty d (l ++ [t]) = deepest ty d l.
Proof.
  induction l as [|x l IH]; intros d t Hty ->; cbn [app deepest].
  - assert (type_eqb (closer ty) ty = false) by (destruct Hty as [->| ->]; reflexivity). rewrite H.
    assert (type_eqb (closer ty) (closer ty) = true) by (apply type_eqb_eq; reflexivity). rewrite H0. lia.
  - rewrite IH by auto. reflexivity.
Qed.

Lemma scope_ends o nt s ty ts close nt1 s1 :
  scope_type ty -> balanced (map tk_value_type ts) -> tk_value_type close = closer ty ->
  (deepest ty 1 (map tk_value_type ts) < 65536)%N ->
  reads o nt (set_scope [] s) (ts ++ [close]) nt1 s1 ->
  exists s2,
    reads o nt (pushScope ty s) (ts ++ [close]) nt1 s2 /\
    (forall nt', nextToken o nt' s2 = Ok (s2, ScopeHasEnded, nt')) /\
    (forall f, length ts + 1 < f -> goToEndOfScope f o nt (pushScope ty s) = Ok (s2, NoError, nt1)) /\
    popScope s2 = Ok (set_scope (t_scope s) s1).
Proof.
  intros Hty Hbal Hcl Hdeep Hr.
  assert (Hpush : pushScope ty s = set_scope ((ty, 1%N) :: t_scope s) (set_scope [] s)).
  { unfold pushScope. destruct Hty as [->| ->]; reflexivity. }
  assert (Hmap : map tk_value_type (ts ++ [close]) = map tk_value_type ts ++ [closer ty]).
  { rewrite map_app. cbn. rewrite Hcl. reflexivity. }
  destruct (balanced_count ty _ Hty Hbal 1%N ltac:(lia)) as [Hc1 Hc2].
  assert (Hpos : forall p q, map tk_value_type (ts ++ [close]) = p ++ q -> q <> [] -> (0 < count_all ty p 1)%N).
  { intros p q E Hq. rewrite Hmap in E. destruct (exists_last Hq) as (q' & x & ->).
    rewrite app_assoc in E. apply app_inj_tail in E. destruct E as [E _].
    generalize (Hc2 p q' E). lia. }
  destruct (reads_scoped o ty (t_scope s) Hty (ts ++ [close]) nt (set_scope [] s) 1 nt1 s1) as [R1 R2]; auto.
  { rewrite Hmap, deepest_snoc by auto. exact Hdeep. }
  { lia. }
  rewrite Hmap, count_app, Hc1 in R1.
  assert (Hz : count_all ty [closer ty] 1 = 0%N).
  { unfold count_all, count_step. cbn. destruct Hty as [->| ->]; reflexivity. }
  rewrite Hz in R1.
  exists (set_scope ((ty, 0%N) :: t_scope s) s1). rewrite Hpush. split; [exact R1|]. split.
  - intros nt'. reflexivity.
  - split.
    + intros f Hf. eapply reads_goTo; [exact R1| | |rewrite app_length; exact Hf].
      * intros p q ntp sp E Hq Hrp.
        assert (Hrp' : exists ntp' sp', reads o nt (set_scope [] s) p ntp' sp').
        { rewrite E in Hr. eapply reads_prefix; exact Hr. }
        destruct Hrp' as (ntp' & sp' & Hrp').
        destruct (reads_scoped o ty (t_scope s) Hty p nt (set_scope [] s) 1 ntp' sp') as [Q1 _]; auto.
        { eapply N.le_lt_trans; [apply deepest_prefix with (q := map tk_value_type q)|].
          rewrite <- map_app, <- E, Hmap, deepest_snoc by auto. exact Hdeep. }
        { lia. }
        { intros p' q' E' Hq'. apply (Hpos p' (q' ++ map tk_value_type q)).
          - rewrite E, map_app, E', app_assoc. reflexivity.
          - destruct q'; [congruence|discriminate]. }
        destruct (reads_det _ _ _ _ _ _ Hrp _ _ Q1) as [_ ->]. cbn.
        assert (0 < count_all ty (map tk_value_type p) 1)%N.
        { apply (Hpos _ (map tk_value_type q)); [rewrite E, map_app; reflexivity|].
          destruct q; [congruence|discriminate]. }
        lia.
      * reflexivity.
    + reflexivity.
Qed.
