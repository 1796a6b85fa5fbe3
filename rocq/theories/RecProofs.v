(** The handlers of recursive types and of their unrollings. *)
From Verif Require Import Base Tactics ScanModel TokModel IntModel HandlerModel HandlerSpec HandlerTree RecModel RecSpec.
From Coq Require Import Lia.

Lemma rty_ind_nested (P : rty -> Prop) :
  P RBool -> (forall i, P (RInt i)) -> (forall s, P (RFp s)) -> (forall h p, P (RTime h p)) -> P RString -> (forall n u, P (REnum n u)) ->
  (forall k, P (RRef k)) ->
  (forall r, P r -> P (RNullable r)) -> (forall r, P r -> P (RNullableChecked r)) -> (forall r, P r -> P (ROptional r)) ->
  (forall r, P r -> P (ROptionalChecked r)) -> (forall r, P r -> P (RStdOptional r)) -> (forall u r, P r -> P (RPtr u r)) ->
  (forall r, P r -> P (RSilent r)) -> (forall r, P r -> P (RVec r)) -> (forall r, P r -> P (ROneOrMany r)) ->
  (forall n r, P r -> P (RFixed n r)) -> (forall n r, P r -> P (RVar n r)) -> (forall r, P r -> P (RSet r)) ->
  (forall rs, Forall P rs -> P (RTuple rs)) -> (forall r, P r -> P (RMap r)) ->
  (forall b fs, Forall (fun f => P (snd f)) fs -> P (RStruct b fs)) -> forall r, P r.
Proof.
  intros H1 H2 H2' H2'' H3 H4 H4' H5 H6 H7 H8 H9 H10 H11 H12 H13 H14 H15 H16 H17 H18 H19.
  fix F 1. intros r. destruct r as [|i|s|h p| |n u|k|r|r|r|r|r|u r|r|r|r|n r|n r|r|rs|r|b fs].
  - exact H1.
  - exact (H2 i).
  - exact (H2' s).
  - exact (H2'' h p).
  - exact H3.
  - exact (H4 n u).
  - exact (H4' k).
  - exact (H5 r (F r)).
  - exact (H6 r (F r)).
  - exact (H7 r (F r)).
  - exact (H8 r (F r)).
  - exact (H9 r (F r)).
  - exact (H10 u r (F r)).
  - exact (H11 r (F r)).
  - exact (H12 r (F r)).
  - exact (H13 r (F r)).
  - exact (H14 n r (F r)).
  - exact (H15 n r (F r)).
  - exact (H16 r (F r)).
  - apply H17. induction rs as [|r rs IH]; constructor; [exact (F r)|exact IH].
  - exact (H18 r (F r)).
  - apply H19. induction fs as [|[f r] fs IH]; constructor; [exact (F r)|exact IH].
Qed.

Ltac rind r := induction r as [|it|sg|hr tp| |ns u|k|r IH|r IH|r IH|r IH|r IH|u r IH|r IH|r IH|r IH|n r IH|n r IH|r IH|rs IH|r IH|b fs IH] using rty_ind_nested.

(** ** A finite type as a recursive one *)
Lemma map_Forall_eq {A B} (f g : A -> B) l : Forall (fun x => f x = g x) l -> map f l = map g l.
Proof. induction 1; cbn; congruence. Qed.

Lemma inst_init sigma r : init (inst sigma r) = rinit (fun k => init (sigma k)) r.
Proof.
  rind r; cbn [inst init rinit]; try congruence; try reflexivity.
  - rewrite map_map. f_equal. apply map_Forall_eq. exact IH.
  - rewrite map_map. f_equal. cbn [snd]. apply map_Forall_eq. exact IH.
Qed.
Lemma inst_optional sigma r : (forall k, is_optional (sigma k) = false) -> is_optional (inst sigma r) = r_optional r.
Proof. intros H. destruct r; try reflexivity. apply H. Qed.
Lemma inst_handle {S} (next : token -> S -> outcome (S * error * token)) fuel sigma r : (forall k, is_optional (sigma k) = false) ->
  to next fuel (inst sigma r) = rhandle next fuel (fun k => to next fuel (sigma k)) (fun k => init (sigma k)) r.
Proof.
  intros Ho. rind r; cbn [inst to rhandle]; rewrite ?inst_init, ?IH; try reflexivity.
  - rewrite map_map. f_equal. apply map_Forall_eq. exact IH.
  - rewrite map_map. f_equal. apply map_Forall_eq. eapply Forall_impl; [|exact IH]. intros f Hf. cbn [fst snd]. cbn in Hf. rewrite Hf, (inst_optional _ _ Ho). reflexivity.
Qed.

Section Agree.
Context {S : Type} (next : token -> S -> outcome (S * error * token)) (Inv : S -> Prop) (mu beta : S -> nat).
Hypothesis Hnext : forall nt s s' e nt', Inv s -> next nt s = Ok (s', e, nt') ->
  Inv s' /\ (e = NoError -> mu s' < mu s) /\ beta s' <= beta s.
Hypothesis Hbeta : forall s, Inv s -> beta s <= mu s <= beta s + 1.
Notation ctx := (ctx S).
Notation handler := (handler S).

(** The two computations are the same, and have not gone back. *)
Definition same {A} (w b : nat) (x y : outcome (error * A * ctx)) : Prop :=
  x = y /\ forall e a c, x = Ok (e, a, c) -> Inv (c_src c) /\ beta (c_src c) <= b /\ (e = NoError -> mu (c_src c) <= w).
Definition agree (m : nat) (h h' : handler) : Prop :=
  forall v c, Inv (c_src c) -> mu (c_src c) < m -> same (mu (c_src c)) (beta (c_src c)) (h v c) (h' v c).

Lemma same_ok {A} w b e (a : A) c : Inv (c_src c) -> beta (c_src c) <= b -> (e = NoError -> mu (c_src c) <= w) -> same w b (Ok (e, a, c)) (Ok (e, a, c)).
Proof. intros H1 H2 H3. split; [reflexivity|]. intros ? ? ? K. injection K as <- <- <-. auto. Qed.
Lemma same_ub {A} w b : @same A w b UB UB.
Proof. split; [reflexivity|discriminate]. Qed.
Lemma same_fuel {A} w b : @same A w b OutOfFuel OutOfFuel.
Proof. split; [reflexivity|discriminate]. Qed.
Lemma same_bind {A B} w b w2 b2 (x y : outcome (error * A * ctx)) (k k' : error * A * ctx -> outcome (error * B * ctx)) :
  same w b x y ->
  (forall e a c, Inv (c_src c) -> beta (c_src c) <= b -> (e = NoError -> mu (c_src c) <= w) -> same w2 b2 (k (e, a, c)) (k' (e, a, c))) ->
  same w2 b2 (obind x k) (obind y k').
Proof.
  intros [<- H] K. destruct x as [[[e a] c]| |]; cbn [obind]; [|apply same_ub|apply same_fuel].
  destruct (H e a c eq_refl) as (H1 & H2 & H3). apply K; assumption.
Qed.
Lemma same_weaken {A} w b w2 b2 (x y : outcome (error * A * ctx)) : w <= w2 -> b <= b2 -> same w b x y -> same w2 b2 x y.
Proof. intros H1 H2 [E H]. split; [exact E|]. intros e a c K. destruct (H e a c K) as (A1 & A2 & A3). split; [exact A1|]. split; [lia|]. intros Q. specialize (A3 Q). lia. Qed.
Lemma same_read {B} w b (c : ctx) (k k' : error * ctx -> outcome (error * B * ctx)) : Inv (c_src c) ->
  (forall e c', Inv (c_src c') -> beta (c_src c') <= beta (c_src c) -> (e = NoError -> mu (c_src c') < mu (c_src c)) -> same w b (k (e, c')) (k' (e, c'))) ->
  same w b (obind (ctx_read next c) k) (obind (ctx_read next c) k').
Proof.
  intros Hi K. unfold ctx_read. destruct (next (c_tok c) (c_src c)) as [[[s e] tk]| |] eqn:E; cbn [obind]; [|apply same_ub|apply same_fuel].
  destruct (Hnext _ _ _ _ _ Hi E) as (H1 & H2 & H3). apply K; assumption.
Qed.
Lemma same_next {B} w b (c : ctx) (k k' : error * ctx -> outcome (error * B * ctx)) : Inv (c_src c) ->
  (forall e c', Inv (c_src c') -> beta (c_src c') <= beta (c_src c) -> (e = NoError -> mu (c_src c') < mu (c_src c)) -> c_err c' = e -> same w b (k (e, c')) (k' (e, c'))) ->
  same w b (obind (ctx_next next c) k) (obind (ctx_next next c) k').
Proof.
  intros Hi K. unfold ctx_next, ctx_read. destruct (next (c_tok c) (c_src c)) as [[[s e] tk]| |] eqn:E; cbn [obind]; [|apply same_ub|apply same_fuel].
  destruct (Hnext _ _ _ _ _ Hi E) as (H1 & H2 & H3). apply K; assumption || reflexivity.
Qed.

Lemma ok_iff e : is_ok e = true -> e = NoError.
Proof. destruct e; reflexivity || discriminate. Qed.
Lemma not_ok e : is_ok e = false -> e = NoError -> forall P : Prop, P.
Proof. intros H ->. discriminate H. Qed.
Ltac okd e := let E := fresh "Eo" in destruct (is_ok e) eqn:E; [apply ok_iff in E|].
Ltac done := apply same_ok; cbn [set_err c_src]; auto; try lia; try discriminate; try (intros; lia);
  try (let K := fresh in intros K; rewrite K in *; match goal with E : is_ok NoError = false |- _ => discriminate E end).

Lemma vec_same m d h h' : agree m h h' -> forall f acc c, Inv (c_src c) -> mu (c_src c) < m ->
  same (mu (c_src c)) (beta (c_src c)) (vec_loop next f d h acc c) (vec_loop next f d h' acc c).
Proof.
  intros H. induction f as [|f IH]; intros acc c Hi Hm; cbn [vec_loop]; [apply same_fuel|]. destruct (type_eqb _ _); [done|].
  eapply same_bind; [apply H; assumption|]. intros e v c1 I1 B1 M1. okd e; [specialize (M1 Eo)|done].
  apply same_next; [exact I1|]. intros e2 c2 I2 B2 M2 _. okd e2; [specialize (M2 Eo0)|done].
  eapply same_weaken; [| |apply IH]; auto; lia.
Qed.
Lemma set_same m d h h' : agree m h h' -> forall f acc c, Inv (c_src c) -> mu (c_src c) < m ->
  same (mu (c_src c)) (beta (c_src c)) (set_loop next f d h acc c) (set_loop next f d h' acc c).
Proof.
  intros H. induction f as [|f IH]; intros acc c Hi Hm; cbn [set_loop]; [apply same_fuel|]. destruct (type_eqb _ _); [done|].
  eapply same_bind; [apply H; assumption|]. intros e v c1 I1 B1 M1. okd e; [specialize (M1 Eo)|done].
  destruct (existsb _ _); [done|].
  apply same_next; [exact I1|]. intros e2 c2 I2 B2 M2 _. okd e2; [specialize (M2 Eo0)|done].
  eapply same_weaken; [| |apply IH]; auto; lia.
Qed.
Lemma fixed_same m h h' : agree m h h' -> forall slots acc c w, w < m -> Inv (c_src c) -> (c_err c = NoError -> mu (c_src c) <= w) ->
  same w (beta (c_src c)) (fixed_loop next h acc slots c) (fixed_loop next h' acc slots c).
Proof.
  intros H. induction slots as [|v0 slots IH]; intros acc c w Hw Hi Hm; cbn [fixed_loop].
  - destruct (type_eqb _ _); done.
  - okd (c_err c); [specialize (Hm Eo)|done]. eapply same_bind; [apply H; [exact Hi|lia]|]. intros e v c1 I1 B1 M1. cbv zeta. okd e; [specialize (M1 Eo0)|done].
    apply same_next; [exact I1|]. cbn [set_err c_src]. intros e2 c2 I2 B2 M2 E2.
    eapply same_weaken; [| |apply (IH _ _ w)]; auto; try lia. rewrite E2. intros K. specialize (M2 K). lia.
Qed.
Lemma var_same m h h' size : agree m h h' -> forall slots acc c w, w < m -> Inv (c_src c) -> (c_err c = NoError -> mu (c_src c) <= w) ->
  same w (beta (c_src c)) (var_loop next h size acc slots c) (var_loop next h' size acc slots c).
Proof.
  intros H. induction slots as [|v0 slots IH]; intros acc c w Hw Hi Hm; cbn [var_loop].
  - destruct (type_eqb _ _); done.
  - okd (c_err c); [specialize (Hm Eo)|done]. destruct (type_eqb _ _); [done|].
    eapply same_bind; [apply H; [exact Hi|lia]|]. intros e v c1 I1 B1 M1. cbv zeta. okd e; [specialize (M1 Eo0)|done].
    apply same_next; [exact I1|]. cbn [set_err c_src]. intros e2 c2 I2 B2 M2 E2.
    eapply same_weaken; [| |apply (IH _ _ w)]; auto; try lia. rewrite E2. intros K. specialize (M2 K). lia.
Qed.
Lemma tuple_same m hs hs' : Forall2 (agree m) hs hs' -> forall acc vs c, Inv (c_src c) -> mu (c_src c) < m ->
  same (mu (c_src c)) (beta (c_src c)) (tuple_loop next hs acc vs c) (tuple_loop next hs' acc vs c).
Proof.
  induction 1 as [|h h' hs hs' H _ IH]; intros acc [|v vs] c Hi Hm; cbn [tuple_loop]; try apply same_ub; [destruct (type_eqb _ _); done|].
  eapply same_bind; [apply H; assumption|]. intros e v1 c1 I1 B1 M1. okd e; [specialize (M1 Eo)|done].
  apply same_next; [exact I1|]. intros e2 c2 I2 B2 M2 _. okd e2; [specialize (M2 Eo0)|done].
  eapply same_weaken; [| |apply IH]; auto; lia.
Qed.
(** The loop over a map goes on after an error of the tokenizer; only [beta] is bounded then. *)
Lemma map_same m d h h' : agree m h h' -> forall f e mm c b, b + 1 < m -> Inv (c_src c) -> beta (c_src c) <= b ->
  same (b + 1) b (map_loop next f d h e mm c) (map_loop next f d h' e mm c).
Proof.
  intros H. induction f as [|f IH]; intros e mm c b Hb Hi Hm; cbn [map_loop]; [apply same_fuel|].
  assert (K := Hbeta _ Hi). destruct (type_eqb _ _); [done|]. cbv zeta.
  eapply same_bind; [apply H; [exact Hi|lia]|]. intros e1 v c1 I1 B1 M1. assert (K1 := Hbeta _ I1). okd e1; [|done].
  apply same_next; [exact I1|]. intros e2 c2 I2 B2 M2 _. apply IH; auto; lia.
Qed.
Lemma skip_same start stop : forall f depth c, Inv (c_src c) -> forall c', skip_loop next f start stop depth c = Ok c' ->
  Inv (c_src c') /\ beta (c_src c') <= beta (c_src c) /\ (c_err c' = NoError -> mu (c_src c') <= mu (c_src c)).
Proof.
  induction f as [|f IH]; intros [|depth] c Hi c'; cbn [skip_loop]; try discriminate.
  - intros K. injection K as <-. auto.
  - intros K. injection K as <-. auto.
  - unfold ctx_next, ctx_read. destruct (next (c_tok c) (c_src c)) as [[[s e] tk]| |] eqn:E; cbn [obind]; try discriminate.
    destruct (Hnext _ _ _ _ _ Hi E) as (H1 & H2 & H3). okd e.
    + specialize (H2 Eo). intros K. apply IH in K; [|exact H1]. cbn in K. destruct K as (A & B & C). split; [exact A|]. split; [lia|]. intros Q. specialize (C Q). lia.
    + intros K. injection K as <-. cbn. split; [exact H1|]. split; [exact H3|]. intros ->. discriminate Eo.
Qed.
Lemma skipAO_same f c c' : Inv (c_src c) -> skipArrayOrObject next f c = Ok c' ->
  Inv (c_src c') /\ beta (c_src c') <= beta (c_src c) /\ (c_err c' = NoError -> mu (c_src c') <= mu (c_src c)).
Proof.
  intros Hi. unfold skipArrayOrObject. destruct (c_type c); try (intros K; injection K as <-; auto; fail); apply skip_same; exact Hi.
Qed.

Definition fagree (m : nat) (a b : field S) : Prop :=
  f_super a = f_super b /\ f_names a = f_names b /\ f_optional a = f_optional b /\ agree m (f_to a) (f_to b).

(** The same with the list of assigned members. *)
Definition same4 {A B} (w b : nat) (x y : outcome (error * A * B * ctx)) : Prop :=
  x = y /\ forall e a l c, x = Ok (e, a, l, c) -> Inv (c_src c) /\ beta (c_src c) <= b /\ (e = NoError -> mu (c_src c) <= w).
Lemma same4_ok {A B} w b e (a : A) (l : B) c : Inv (c_src c) -> beta (c_src c) <= b -> (e = NoError -> mu (c_src c) <= w) -> same4 w b (Ok (e, a, l, c)) (Ok (e, a, l, c)).
Proof. intros H1 H2 H3. split; [reflexivity|]. intros ? ? ? ? K. injection K as <- <- <- <-. auto. Qed.
Ltac done4 := apply same4_ok; cbn [set_err c_src]; auto; try lia; try discriminate; try (intros; lia);
  try (let K := fresh in intros K; rewrite K in *; match goal with E : is_ok NoError = false |- _ => discriminate E end).
Lemma matched_plain e : is_ok (matchedMemberResult e) = true -> e = NoError.
Proof. destruct e; cbn; congruence. Qed.

Lemma struct_same m order fs fs' : Forall2 (fagree m) fs fs' -> forall f vs a c, Inv (c_src c) -> mu (c_src c) < m ->
  same4 (mu (c_src c)) (beta (c_src c)) (struct_loop next f order fs vs a c) (struct_loop next f order fs' vs a c).
Proof.
  intros H. assert (En : map f_names fs = map f_names fs') by (induction H as [|x y l l' (_ & E & _) _ IH]; cbn; congruence).
  assert (Hn : forall i, match nth_error fs i, nth_error fs' i with Some x, Some y => agree m (f_to x) (f_to y) | None, None => True | _, _ => False end).
  { clear En. induction H as [|x y l l' (_ & _ & _ & E) _ IH]; intros [|i]; cbn; [exact I|exact I|exact E|apply IH]. }
  induction f as [|f IH]; intros vs a c Hi Hm; cbn [struct_loop]; [split; [reflexivity|discriminate]|]. rewrite <- En.
  destruct (type_eqb _ _); [done4|]. destruct (search_both _ _ _) as [i|].
  - specialize (Hn i). destruct (nth_error fs i) as [x|], (nth_error fs' i) as [y|]; try contradiction; [|split; [reflexivity|discriminate]].
    destruct (nth_error vs i) as [v|]; [|split; [reflexivity|discriminate]]. cbv zeta.
    destruct (Hn v c Hi Hm) as [<- P]. destruct (f_to x v c) as [[[e v1] c1]| |]; cbn [obind]; [|split; [reflexivity|discriminate]..].
    destruct (P e v1 c1 eq_refl) as (I1 & B1 & M1).
    destruct (is_ok (matchedMemberResult e)) eqn:Eo; [apply matched_plain in Eo; subst e; specialize (M1 eq_refl)|done4].
    unfold ctx_next, ctx_read. destruct (next (c_tok c1) (c_src c1)) as [[[s e2] tk]| |] eqn:E; cbn [obind]; [|split; [reflexivity|discriminate]..].
    destruct (Hnext _ _ _ _ _ I1 E) as (I2 & M2 & B2). okd e2; [specialize (M2 Eo)|done4].
    set (c2 := set_err e2 _). destruct (IH (put i v1 vs) (put i true a) c2) as [Q1 Q2]; [exact I2|cbn; lia|]. split; [exact Q1|].
    intros e' a' l' c' K. destruct (Q2 _ _ _ _ K) as (Q3 & Q4 & Q5). split; [exact Q3|]. cbn in Q4, Q5. split; [lia|]. intros Z. specialize (Q5 Z). lia.
  - cbv zeta. set (c0 := add_missing (c_name c) c).
    assert (A0 : c_src c0 = c_src c) by (unfold c0, add_missing; destruct (pc_track _); reflexivity).
    destruct (pc_allow_missing (c_cfg c0)); [|apply same4_ok; rewrite ?A0; auto].
    destruct (skipArrayOrObject next (Datatypes.S f) c0) as [c1| |] eqn:E0; cbn [obind]; [|split; [reflexivity|discriminate]..].
    apply skipAO_same in E0; [|rewrite A0; exact Hi]. rewrite A0 in E0. destruct E0 as (I1 & B1 & M1).
    okd (c_err c1); [specialize (M1 Eo)|done4].
    unfold ctx_next, ctx_read. destruct (next (c_tok c1) (c_src c1)) as [[[s e2] tk]| |] eqn:E; cbn [obind]; [|split; [reflexivity|discriminate]..].
    destruct (Hnext _ _ _ _ _ I1 E) as (I2 & M2 & B2). okd e2; [specialize (M2 Eo0)|done4].
    set (c2 := set_err e2 _). destruct (IH vs a c2) as [Q1 Q2]; [exact I2|cbn; lia|]. split; [exact Q1|].
    intros e' a' l' c' K. destruct (Q2 _ _ _ _ K) as (Q3 & Q4 & Q5). split; [exact Q3|]. cbn in Q4, Q5. split; [lia|]. intros Z. specialize (Q5 Z). lia.
Qed.

(** A struct reads a token before any of its members. *)
Lemma struct_to_same m fuel blocks fs fs' : Forall2 (fagree m) fs fs' -> agree (Datatypes.S m) (struct_to next fuel blocks fs) (struct_to next fuel blocks fs').
Proof.
  intros H v c Hi Hm. unfold struct_to. destruct v; try apply same_ub. destruct (type_eqb _ _); [|done].
  apply same_read; [exact Hi|]. intros e c1 I1 B1 M1. okd e; [specialize (M1 Eo)|done]. cbv zeta.
  assert (El : length fs = length fs') by (induction H; cbn; congruence).
  assert (Ef : map (fun f => (f_super f, f_names f, f_optional f)) fs = map (fun f => (f_super f, f_names f, f_optional f)) fs').
  { clear -H. induction H as [|x y l0 l' (A & B & C & _) _ IH]; cbn; congruence. }
  rewrite <- El, <- Ef. destruct (struct_same m (search_order 0 blocks) fs fs' H fuel l (repeat false (length fs)) c1 I1 ltac:(lia)) as [<- P].
  destruct (struct_loop next fuel _ fs l _ c1) as [[[[e2 vs] a] c2]| |]; cbn [obind]; [|apply same_ub|apply same_fuel].
  destruct (P _ _ _ _ eq_refl) as (I2 & B2 & M2). okd e2; [specialize (M2 Eo0)|done].
  destruct (unassigned_of _ _ _); [done|]. unfold add_unassigned. destruct (pc_track _); destruct (pc_allow_unassigned _); done.
Qed.

Lemma agree_weaken m m' h h' : m' <= m -> agree m h h' -> agree m' h h'.
Proof. intros H A v c Hi Hm. apply A; [exact Hi|lia]. Qed.

Theorem rhandle_agree m fuel ref ref' iref iref' r : (forall k, agree m (ref k) (ref' k)) -> (forall k, iref k = iref' k) ->
  agree m (rhandle next fuel ref iref r) (rhandle next fuel ref' iref' r).
Proof.
  intros Hr Hk. assert (Hin : forall r, rinit iref r = rinit iref' r).
  { clear r. intros r. rind r; cbn [rinit]; try congruence; try reflexivity; [f_equal; apply map_Forall_eq; exact IH|f_equal; apply map_Forall_eq; exact IH]. }
  rind r; cbn [rhandle]; rewrite <- ?Hin; try (apply Hr; fail); try exact IH; try (intros v c Hi Hm).
  - unfold bool_to. destruct (bytes_eqb _ _); [done|]. destruct (bytes_eqb _ _); done.
  - unfold integer_to. destruct (int_to _ _) as [[e z]| |]; cbn [obind]; [done|apply same_ub|apply same_fuel].
  - unfold fp_to. destruct (fp_read _ _) as [[e z]| |]; cbn [obind]; [done|apply same_ub|apply same_fuel].
  - unfold time_point_to. destruct v; try apply same_ub. destruct (TimeModel.time_to _ _ _ _) as [[e t]| |]; cbn [obind]; [done|apply same_ub|apply same_fuel].
  - unfold string_to. done.
  - unfold enum_to. destruct (c_type c); try done; [destruct (index_of _ _); done|]. destruct (int_to _ _) as [[e z]| |]; cbn [obind]; [done|apply same_ub|apply same_fuel].
  - unfold nullable_to. destruct (type_eqb _ _); [done|]. apply IH; assumption.
  - unfold nullable_checked_to. destruct v; try apply same_ub. destruct (type_eqb _ _); [done|].
    eapply same_bind; [apply IH; assumption|]. intros e a c1 I1 B1 M1. done.
  - unfold optional_checked_to. destruct v; try apply same_ub.
    eapply same_bind; [apply IH; assumption|]. intros e a c1 I1 B1 M1. done.
  - unfold std_optional_to. eapply same_bind; [apply IH; assumption|]. intros e a c1 I1 B1 M1. done.
  - unfold ptr_to. destruct v; try apply same_ub. destruct (type_eqb _ _); [done|].
    eapply same_bind; [apply IH; assumption|]. intros e a c1 I1 B1 M1. done.
  - unfold vec_to. destruct (type_eqb _ _); [|done]. apply same_next; [exact Hi|]. intros e c1 I1 B1 M1 _. okd e; [specialize (M1 Eo)|done].
    eapply same_bind; [apply (vec_same m); [exact IH|exact I1|lia]|]. intros e2 a c2 I2 B2 M2. done; intros K; specialize (M2 K); lia.
  - unfold one_or_many_to. destruct (type_eqb _ _) eqn:Et.
    + unfold vec_to. rewrite Et. cbn [obind].
      eapply (same_bind (mu (c_src c)) (beta (c_src c))); [|intros e2 a c2 I2 B2 M2; done].
      apply same_next; [exact Hi|]. intros e c1 I1 B1 M1 _. okd e; [specialize (M1 Eo)|done].
      eapply same_bind; [apply (vec_same m); [exact IH|exact I1|lia]|]. intros e2 a c2 I2 B2 M2. done; intros K; specialize (M2 K); lia.
    + destruct v; try apply same_ub. eapply same_bind; [apply IH; assumption|]. intros e a c1 I1 B1 M1. done.
  - unfold fixed_to. destruct v; try apply same_ub. destruct (type_eqb _ _); [|done]. apply same_next; [exact Hi|]. intros e c1 I1 B1 M1 E1.
    eapply same_bind; [apply (fixed_same m _ _ IH l [] c1 (mu (c_src c))); [lia|exact I1|rewrite E1; intros K; specialize (M1 K); lia]|].
    intros e2 a c2 I2 B2 M2. done.
  - unfold var_to. destruct v; try apply same_ub. destruct (type_eqb _ _); [|done]. apply same_next; [exact Hi|]. intros e c1 I1 B1 M1 E1.
    eapply same_bind; [apply (var_same m _ _ size IH slots [] c1 (mu (c_src c))); [lia|exact I1|rewrite E1; intros K; specialize (M1 K); lia]|].
    intros e2 a c2 I2 B2 M2. done.
  - unfold set_to. destruct (type_eqb _ _); [|done]. apply same_next; [exact Hi|]. intros e c1 I1 B1 M1 _. okd e; [specialize (M1 Eo)|done].
    eapply same_bind; [apply (set_same m); [exact IH|exact I1|lia]|]. intros e2 a c2 I2 B2 M2. done; intros K; specialize (M2 K); lia.
  - unfold tuple_to. destruct v; try apply same_ub. destruct (type_eqb _ _); [|done]. apply same_next; [exact Hi|]. intros e c1 I1 B1 M1 _. okd e; [specialize (M1 Eo)|done].
    eapply same_bind; [apply (tuple_same m)|]; [|exact I1|lia|].
    + clear -IH. induction IH; cbn; constructor; auto.
    + intros e2 a c2 I2 B2 M2. done; intros K; specialize (M2 K); lia.
  - unfold map_to. destruct v; try apply same_ub. destruct (type_eqb _ _); [|done]. apply same_next; [exact Hi|]. intros e c1 I1 B1 M1 _. okd e; [specialize (M1 Eo)|done].
    assert (K := Hbeta _ I1). eapply same_bind; [apply (map_same m _ _ _ IH _ _ _ _ (beta (c_src c1))); [lia|exact I1|lia]|].
    intros e2 a c2 I2 B2 M2. done; intros Q; specialize (M2 Q); lia.
  - revert v c Hi Hm. apply (agree_weaken (Datatypes.S m)); [lia|]. apply struct_to_same.
    clear -IH. induction IH as [|f fs H _ IHf]; cbn; constructor; [|exact IHf]. unfold fagree. cbn. auto.
Qed.

(** ** The handlers of the program and of the unrolled types *)
Section Env.
Context (fuel : nat) (env : list rty).
Hypothesis Henv : forall k, exists b fs, struct_of env k = RStruct b fs.

Lemma unroll_init d k : init (unroll env d k) = init_of env d k.
Proof.
  revert k. induction d as [|d IHd]; intros k; [reflexivity|]. cbn [unroll init_of]. rewrite inst_init.
  generalize (struct_of env k). clear k. intros r. rind r; cbn [rinit]; try congruence; try reflexivity; f_equal; apply map_Forall_eq; assumption.
Qed.
Lemma unroll_optional d k : is_optional (unroll env d k) = false.
Proof. destruct d; [reflexivity|]. cbn [unroll]. destruct (Henv k) as (b & fs & ->). reflexivity. Qed.

Theorem handler_unroll d k : agree d (handler_of next fuel env d k) (to next fuel (unroll env d k)).
Proof.
  revert k. induction d as [|d IH]; intros k; [intros v c _ H; lia|]. cbn [handler_of unroll].
  rewrite (inst_handle next fuel (unroll env d)) by apply unroll_optional. destruct (Henv k) as (b & fs & ->). cbn [rhandle].
  apply struct_to_same. induction fs as [|f fs IHf]; cbn; constructor; [|exact IHf]. unfold fagree. cbn. split; [reflexivity|]. split; [reflexivity|]. split; [reflexivity|].
  apply rhandle_agree; [exact IH|intros; symmetry; apply unroll_init].
Qed.
Theorem rto_unroll d r : agree d (rto next fuel env d r) (to next fuel (inst (unroll env d) r)).
Proof.
  rewrite (inst_handle next fuel (unroll env d)) by apply unroll_optional. apply rhandle_agree; [apply handler_unroll|].
  intros k. symmetry. apply unroll_init.
Qed.

Hypothesis Hinline : Forall (fun r => no_inline r = true) env.
Lemma no_inline_init iref iref' r : no_inline r = true -> rinit iref r = rinit iref' r.
Proof.
  rind r; cbn [no_inline rinit]; intros H; try reflexivity; try discriminate H; try (rewrite IH by exact H; reflexivity).
  - f_equal. apply map_Forall_eq. rewrite forallb_forall in H. rewrite Forall_forall in *. auto.
  - f_equal. apply map_Forall_eq. rewrite forallb_forall in H. rewrite Forall_forall in *. auto.
Qed.
Lemma struct_no_inline k : no_inline (struct_of env k) = true.
Proof. unfold struct_of. destruct (nth_in_or_default k env (RStruct [] [])) as [H|H]; [rewrite Forall_forall in Hinline; auto|rewrite H; reflexivity]. Qed.
Lemma init_of_same d d' k : 0 < d -> 0 < d' -> init_of env d k = init_of env d' k.
Proof. destruct d, d'; try lia. intros _ _. cbn [init_of]. apply no_inline_init, struct_no_inline. Qed.

Theorem handler_depth : forall d d' m k, m <= d -> m <= d' -> agree m (handler_of next fuel env d k) (handler_of next fuel env d' k).
Proof.
  induction d as [|d IH]; intros d' m k H H'; [intros v c _ K; lia|]. destruct d' as [|d']; [intros v c _ K; lia|]. destruct m as [|m]; [intros v c _ K; lia|].
  cbn [handler_of]. destruct (Henv k) as (b & fs & ->). cbn [rhandle]. apply struct_to_same.
  induction fs as [|f fs IHf]; cbn; constructor; [|exact IHf]. unfold fagree. cbn. split; [reflexivity|]. split; [reflexivity|]. split; [reflexivity|].
  intros v c Hi Hm. assert (0 < m) by lia. assert (G : agree m (rhandle next fuel (handler_of next fuel env d) (init_of env d) (snd f)) (rhandle next fuel (handler_of next fuel env d') (init_of env d') (snd f))).
  { apply rhandle_agree; [intros j; apply IH; lia|]. intros j. apply init_of_same; lia. }
  apply G; assumption.
Qed.
Theorem rto_depth d d' r : agree (min d d') (rto next fuel env d r) (rto next fuel env d' r).
Proof.
  intros v c Hi Hm. assert (0 < d /\ 0 < d') by lia. revert v c Hi Hm. apply rhandle_agree; [intros k; apply handler_depth; lia|]. intros k. apply init_of_same; lia.
Qed.
End Env.
End Agree.
