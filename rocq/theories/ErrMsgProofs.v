(** Proofs about error messages. *)
From Verif Require Import Base Tactics ScanModel TokModel JsonSpec TokSpec TokSafe TokSpecProofs TokScope EscapeModel IntModel HandlerModel HandlerSpec HandlerTree HandlerLaws HandlerSim
  ErrCtxModel ErrCtxSpec ErrCtxProofs ErrCtxTok ErrMsgModel ErrMsgSpec.
From Coq Require Import Lia.

(** Errors that no list of members belongs to. *)
Definition plain (e : error) : Prop := e <> MissingPropertyMember /\ e <> UnassignedRequiredMember /\ e <> UserDefinedErrors.
Ltac pl := split; [discriminate|split; discriminate].

(** ** The text *)
Lemma more_names_acc l : forall s, fold_left (fun s n => s ++ s2b ", " ++ n) l s = s ++ more_names l.
Proof.
  unfold more_names. induction l as [|n l IH]; intros s; cbn [fold_left]; [symmetry; apply app_nil_r|].
  rewrite IH, (IH ([] ++ s2b ", " ++ n)). rewrite <- app_assoc. reflexivity.
Qed.
Lemma more_names_listed n l : n ++ more_names l = listed (n :: l).
Proof.
  revert n. induction l as [|m l IH]; intros n; [apply app_nil_r|]. unfold more_names. cbn [fold_left]. rewrite more_names_acc.
  change (listed (n :: m :: l)) with (n ++ s2b ", " ++ listed (m :: l)). rewrite <- IH. rewrite app_nil_l, <- app_assoc. reflexivity.
Qed.
Lemma error_string_name e : error_string e = error_name e.
Proof. destruct e; reflexivity. Qed.

(** ** What all handlers keep *)
Section Keep.
Context {S : Type} (next : token -> S -> outcome (S * error * token)).
Notation ctx := (ctx S).
Notation handler := (handler S).
(** [I]: before a handler runs; [R e]: after it returned [e]. *)
Context (I : ctx -> Prop) (R : error -> ctx -> Prop) (all : bool).
Hypothesis Hread : forall c e c', I c -> ctx_read next c = Ok (e, c') -> R e c'.
Hypothesis Hset : forall e c, R e c -> R e (set_err e c).
Hypothesis Hplain : forall e c, I c -> plain e -> R e c.
Hypothesis Hmiss : forall n c, I c -> I (add_missing n c) /\ R MissingPropertyMember (add_missing n c).
Hypothesis Hun : forall n l c, I c -> I (add_unassigned (n :: l) c) /\ R UnassignedRequiredMember (add_unassigned (n :: l) c).
Hypothesis Herr : forall c, I c -> R (c_err c) c.
Hypothesis HI : forall e c, R e c -> e = NoError \/ all = true -> I c.
Hypothesis Hmatched : forall e c, R e c -> R (matchedMemberResult e) c.

Definition post {A} (x : outcome (error * A * ctx)) : Prop := match x with Ok (e, _, c') => R e c' | _ => True end.
Definition keep (h : handler) : Prop := forall v c, I c -> post (h v c).
Lemma post_bind {A B} (x : outcome (error * A * ctx)) (k : error * A * ctx -> outcome (error * B * ctx)) :
  post x -> (forall e a c, R e c -> post (k (e, a, c))) -> post (obind x k).
Proof. destruct x as [[[e a] c]| |]; cbn; auto. Qed.
Lemma next_keep c e c' : I c -> ctx_next next c = Ok (e, c') -> R e c' /\ c_err c' = e.
Proof.
  intros H. unfold ctx_next. destruct (ctx_read next c) as [[e0 c0]| |] eqn:E; cbn [obind]; try discriminate.
  intros K. injection K as <- <-. split; [|reflexivity]. apply Hset, (Hread _ _ _ H E).
Qed.
Lemma post_next {A} c (k : error * ctx -> outcome (error * A * ctx)) :
  I c -> (forall e c', R e c' -> c_err c' = e -> post (k (e, c'))) -> post (obind (ctx_next next c) k).
Proof.
  intros H K. destruct (ctx_next next c) as [[e c']| |] eqn:E; cbn [obind]; try exact Logic.I.
  destruct (next_keep _ _ _ H E). apply K; assumption.
Qed.
Lemma R_ok c : I c -> R NoError c. Proof. intros H. apply Hplain; [exact H|pl]. Qed.
Lemma ok_I e c : is_ok e = true -> R e c -> I c.
Proof. intros E H. apply (HI e c H). left. destruct e; reflexivity || discriminate E. Qed.

Ltac kp := repeat match goal with
  | |- post (Ok (NoError, _, _)) => cbn; apply R_ok; assumption
  | H : R ?e ?c |- post (Ok (?e, _, ?c)) => exact H
  | |- post UB => exact Logic.I
  | |- post OutOfFuel => exact Logic.I
  | E : is_ok ?e = true, H : R ?e ?c |- _ => lazymatch goal with _ : I c |- _ => fail | _ => assert (I c) by exact (ok_I _ _ E H) end
  | |- post (if is_ok ?e then _ else _) => destruct (is_ok e) eqn:?
  | |- post (if ?b then _ else _) => destruct b
  | |- post (obind (ctx_next next _) _) => apply post_next; [assumption|intros ? ? ? ?]
  | |- post (Ok (?e, _, _)) => cbn; apply Hplain; [assumption|pl]
  end.

Lemma vec_keep d h : keep h -> forall f acc c, I c -> post (vec_loop next f d h acc c).
Proof.
  intros Hh. induction f as [|f IH]; intros acc c Hc; [exact Logic.I|]. cbn [vec_loop]. kp.
  apply post_bind; [apply Hh; assumption|]. intros e v c1 H1. kp. apply IH; assumption.
Qed.
Lemma set_keep d h : keep h -> forall f acc c, I c -> post (set_loop next f d h acc c).
Proof.
  intros Hh. induction f as [|f IH]; intros acc c Hc; [exact Logic.I|]. cbn [set_loop]. kp.
  apply post_bind; [apply Hh; assumption|]. intros e v c1 H1. kp. apply IH; assumption.
Qed.
Lemma tuple_keep : forall hs, Forall keep hs -> forall acc vs c, I c -> post (tuple_loop next hs acc vs c).
Proof.
  induction 1 as [|h hs Hh _ IH]; intros acc [|v vs] c Hc; cbn [tuple_loop]; try exact Logic.I.
  - destruct (type_eqb _ _); kp.
  - apply post_bind; [apply Hh; assumption|]. intros e v1 c1 H1. kp. apply IH; assumption.
Qed.
Lemma fixed_keep h : all = true -> keep h -> forall slots acc c, I c -> post (fixed_loop next h acc slots c).
Proof.
  intros Ha Hh. induction slots as [|v slots IH]; intros acc c Hc; cbn [fixed_loop].
  - destruct (type_eqb _ _); [exact (Herr _ Hc)|kp].
  - destruct (is_ok (c_err c)); [|exact (Herr _ Hc)]. apply post_bind; [apply Hh; assumption|]. intros e v1 c1 H1.
    cbv zeta. apply Hset in H1. kp. apply IH. apply (HI _ _ H0). auto.
Qed.
Lemma var_keep h size : all = true -> keep h -> forall slots acc c, I c -> post (var_loop next h size acc slots c).
Proof.
  intros Ha Hh. induction slots as [|v slots IH]; intros acc c Hc; cbn [var_loop].
  - destruct (type_eqb _ _); [exact (Herr _ Hc)|kp].
  - destruct (is_ok (c_err c)); [|exact (Herr _ Hc)]. destruct (type_eqb _ _); [exact (Herr _ Hc)|].
    apply post_bind; [apply Hh; assumption|]. intros e v1 c1 H1.
    cbv zeta. apply Hset in H1. kp. apply IH. apply (HI _ _ H0). auto.
Qed.
Lemma map_keep d h : all = true -> keep h -> forall f e m c, I c -> R e c -> post (map_loop next f d h e m c).
Proof.
  intros Ha Hh. induction f as [|f IH]; intros e m c Hc Hr; [exact Logic.I|]. cbn [map_loop].
  destruct (type_eqb _ _); [exact Hr|]. cbv zeta. apply post_bind; [apply Hh; assumption|]. intros e1 v1 c1 H1. kp.
  apply IH; [apply (HI _ _ H0); auto|assumption].
Qed.
Lemma skip_keep start stop : forall f depth c, I c -> match skip_loop next f start stop depth c with Ok c' => R (c_err c') c' | _ => True end.
Proof.
  induction f as [|f IH]; intros [|depth] c Hc; cbn [skip_loop]; try exact Logic.I; try exact (Herr _ Hc).
  destruct (ctx_next next c) as [[e c']| |] eqn:E; cbn [obind]; try exact Logic.I.
  destruct (next_keep _ _ _ Hc E) as [A B]. destruct (is_ok e) eqn:Eo; [apply IH, (ok_I _ _ Eo A)|]. rewrite B. exact A.
Qed.
Lemma skipAO_keep f c : I c -> match skipArrayOrObject next f c with Ok c' => R (c_err c') c' | _ => True end.
Proof. intros Hc. unfold skipArrayOrObject. destruct (c_type c); try exact (Herr _ Hc); apply skip_keep; exact Hc. Qed.
Definition post4 {A B} (x : outcome (error * A * B * ctx)) : Prop := match x with Ok (e, _, _, c') => R e c' | _ => True end.
Lemma struct_keep order fs : Forall (fun fd => keep (f_to fd)) fs -> forall f vs a c, I c -> post4 (struct_loop next f order fs vs a c).
Proof.
  intros Hfs. induction f as [|f IH]; intros vs a c Hc; [exact Logic.I|]. cbn [struct_loop].
  destruct (type_eqb _ _); [apply R_ok, Hc|].
  destruct (search_both _ _ _) as [i|].
  - destruct (nth_error fs i) as [fd|] eqn:En; [|exact Logic.I]. destruct (nth_error vs i) as [v|]; [|exact Logic.I].
    apply nth_error_In in En. rewrite Forall_forall in Hfs. assert (K := Hfs fd En v c Hc).
    destruct (f_to fd v c) as [[[e v1] c1]| |]; cbn [obind]; try exact Logic.I. cbn in K. apply Hmatched in K. cbv zeta.
    destruct (is_ok (matchedMemberResult e)) eqn:Eo; [|exact K]. assert (I1 := ok_I _ _ Eo K).
    destruct (ctx_next next c1) as [[e2 c2]| |] eqn:E2; cbn [obind]; try exact Logic.I.
    destruct (next_keep _ _ _ I1 E2) as [A B]. destruct (is_ok e2) eqn:Eo2; [apply IH, (ok_I _ _ Eo2 A)|exact A].
  - cbv zeta. destruct (Hmiss (c_name c) c Hc) as [M1 M2]. destruct (pc_allow_missing _); [|exact M2].
    assert (K := skipAO_keep (Datatypes.S f) _ M1).
    destruct (skipArrayOrObject _ _ _) as [c1| |]; cbn [obind]; try exact Logic.I.
    destruct (is_ok (c_err c1)) eqn:Eo; [|exact K]. assert (I1 := ok_I _ _ Eo K).
    destruct (ctx_next next c1) as [[e2 c2]| |] eqn:E2; cbn [obind]; try exact Logic.I.
    destruct (next_keep _ _ _ I1 E2) as [A B]. destruct (is_ok e2) eqn:Eo2; [apply IH, (ok_I _ _ Eo2 A)|exact A].
Qed.

Lemma int_to_plain i v e z : int_to i v = Ok (e, z) -> plain e.
Proof.
  unfold int_to, to_integer. destruct (parseNumber_ok (i_bits (sig_type i)) v) as ([e0 p] & ->). cbn [obind].
  destruct e0; cbn [obind]; try (intros H; injection H as <- _; pl). destruct (_ =? _); intros H; injection H as <- _; pl.
Qed.
Lemma fp_read_plain sg v e z : fp_read sg v = Ok (e, z) -> plain e.
Proof.
  unfold fp_read, FloatModel.float_to, FloatModel.to_float, DoubleModel.double_to, DoubleModel.to_double.
  destruct (parseNumber 64 false v) as [[e0 p]| |]; cbn [obind]; [|destruct sg; discriminate|destruct sg; discriminate].
  destruct sg, e0; cbn [obind]; try (intros H; injection H as <- _; pl);
    (destruct (DoubleModel.convertToNumber p); cbn [obind]; [destruct (_ =? _)|discriminate|discriminate]; intros H; injection H as <- _; pl).
Qed.
Lemma time_to_plain hr tp v old e z : TimeModel.time_to hr tp v old = Ok (e, z) -> plain e.
Proof.
  unfold TimeModel.time_to. destruct (int_to T_uint64 v) as [[e0 t]| |] eqn:E; cbn [obind]; try discriminate.
  apply int_to_plain in E. destruct e0; try (intros H; injection H as <- _; exact E). cbv zeta. unfold TimeModel.from_unit.
  repeat (match goal with |- context [if ?c then _ else _] => destruct c; cbn [obind] end; try discriminate); intros H; injection H as <- _; pl.
Qed.

Theorem to_keep fuel t : all = true \/ direct t = true -> keep (to next fuel t).
Proof.
  induction t as [|i|sg|hr tp| |ns u|t IH|t IH|t IH|t IH|t IH|u t IH|t IH|t IH|t IH|n t IH|n t IH|t IH|ts IH|t IH|b fs IH] using ty_rect_nested;
    intros Hd v c Hc; cbn [to]; cbn [direct] in Hd; try specialize (IH Hd).
  - unfold bool_to. kp.
  - unfold integer_to. destruct (int_to i (c_value c)) as [[e z]| |] eqn:E; cbn [obind]; try exact Logic.I. cbn. apply Hplain; [exact Hc|exact (int_to_plain _ _ _ _ E)].
  - unfold fp_to. destruct (fp_read sg (c_value c)) as [[e z]| |] eqn:E; cbn [obind]; try exact Logic.I. cbn. apply Hplain; [exact Hc|exact (fp_read_plain _ _ _ _ E)].
  - unfold time_point_to. destruct v as [|old| | | | | | |]; try exact Logic.I.
    destruct (TimeModel.time_to hr tp (c_value c) old) as [[e z]| |] eqn:E; cbn [obind]; try exact Logic.I. cbn. apply Hplain; [exact Hc|exact (time_to_plain _ _ _ _ _ _ E)].
  - unfold string_to. kp.
  - unfold enum_to. destruct (c_type c); kp.
    + destruct (index_of _ _); kp.
    + destruct (int_to u (c_value c)) as [[e z]| |] eqn:E; cbn [obind]; try exact Logic.I. cbn. apply Hplain; [exact Hc|exact (int_to_plain _ _ _ _ E)].
  - unfold nullable_to. kp. apply IH, Hc.
  - unfold nullable_checked_to. destruct v; kp. apply post_bind; [apply IH, Hc|]. intros. kp.
  - apply IH, Hc.
  - unfold optional_checked_to. destruct v; kp. apply post_bind; [apply IH, Hc|]. intros. kp.
  - unfold std_optional_to. apply post_bind; [apply IH, Hc|]. intros. kp.
  - unfold ptr_to. destruct v; kp. apply post_bind; [apply IH, Hc|]. intros. kp.
  - apply IH, Hc.
  - unfold vec_to. kp. apply post_bind; [apply vec_keep; assumption|]. intros. kp.
  - unfold one_or_many_to. destruct (type_eqb (c_type c) TArrayStart).
    + apply post_bind; [unfold vec_to; kp; apply post_bind; [apply vec_keep; assumption|]; intros; kp|]. intros. cbn. apply Hset. assumption.
    + destruct v; kp. apply post_bind; [apply IH, Hc|]. intros. cbn. apply Hset. assumption.
  - destruct Hd as [Hd|Hd]; [|discriminate Hd]. specialize (IH (or_introl Hd)). unfold fixed_to. destruct v; kp.
    apply post_bind; [apply fixed_keep; try assumption|]. 2: intros; kp. apply (HI _ _ H). auto.
  - destruct Hd as [Hd|Hd]; [|discriminate Hd]. specialize (IH (or_introl Hd)). unfold var_to. destruct v; kp.
    apply post_bind; [apply var_keep; try assumption|]. 2: intros; kp. apply (HI _ _ H). auto.
  - unfold set_to. kp. apply post_bind; [apply set_keep; assumption|]. intros. kp.
  - unfold tuple_to. destruct v; kp. apply post_bind; [apply tuple_keep; try assumption|]. 2: intros; kp.
    clear -IH Hd. induction IH as [|t ts Ht _ IH]; cbn in *; constructor.
    + apply Ht. destruct Hd as [Hd|Hd]; [auto|]. apply andb_true_iff in Hd. tauto.
    + apply IH. destruct Hd as [Hd|Hd]; [auto|]. apply andb_true_iff in Hd. tauto.
  - destruct Hd as [Hd|Hd]; [|discriminate Hd]. specialize (IH (or_introl Hd)). unfold map_to. destruct v; kp.
    apply post_bind; [apply map_keep; try assumption|]. 2: intros; kp. apply R_ok. assumption.
  - unfold struct_to. destruct v as [| | | | | |l| |]; try exact Logic.I. destruct (type_eqb _ _); [|kp].
    destruct (ctx_read next c) as [[e c1]| |] eqn:E; cbn [obind]; try exact Logic.I.
    assert (R1 := Hread _ _ _ Hc E). destruct (is_ok e) eqn:Eo; [|exact R1]. assert (I1 := ok_I _ _ Eo R1). cbv zeta.
    match goal with |- context [struct_loop next fuel ?o ?F l ?a c1] =>
      assert (K : post4 (struct_loop next fuel o F l a c1)); [|destruct (struct_loop next fuel o F l a c1) as [[[[e2 vs2] a2] c2]| |]] end; cbn [obind]; try exact Logic.I.
    { apply struct_keep; [|exact I1]. clear -IH Hd. induction IH as [|f fs Hf _ IH]; cbn in *; constructor.
      + cbn. apply Hf. destruct Hd as [Hd|Hd]; [auto|]. apply andb_true_iff in Hd. tauto.
      + apply IH. destruct Hd as [Hd|Hd]; [auto|]. apply andb_true_iff in Hd. tauto. }
    cbn in K. destruct (is_ok e2) eqn:Eo2; [|exact K]. assert (I2 := ok_I _ _ Eo2 K).
    destruct (unassigned_of _ _ _) as [|x l0]; [kp|]. destruct (Hun x l0 c2 I2) as [U1 U2].
    cbn [post]. destruct (pc_allow_unassigned _); [apply R_ok; exact U1|exact U2].
Qed.
End Keep.
