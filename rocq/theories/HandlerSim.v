(** Two token sources that deliver the same tokens and errors: every type handler does the same with
    both. *)
From Verif Require Import Base Tactics ScanModel TokModel JsonSpec TokSpec EscapeModel IntModel HandlerModel HandlerSpec HandlerTree.
From Coq Require Import Lia.

Section Sim.
Context {S1 S2 : Type} (next1 : token -> S1 -> outcome (S1 * error * token)) (next2 : token -> S2 -> outcome (S2 * error * token)).
Context (Q : token -> S1 -> token -> S2 -> Prop) (g : pcfg).

Definition orel {A B} (R : A -> B -> Prop) (x : outcome A) (y : outcome B) : Prop :=
  match x, y with
  | Ok a, Ok b => R a b
  | UB, UB | OutOfFuel, OutOfFuel => True
  | _, _ => False
  end.

Hypothesis Hnext : forall nt1 s1 nt2 s2, tok_view nt1 = tok_view nt2 -> Q nt1 s1 nt2 s2 ->
  orel (fun x y => snd (fst x) = snd (fst y) /\ tok_view (snd x) = tok_view (snd y) /\ Q (snd x) (fst (fst x)) (snd y) (fst (fst y)))
    (next1 nt1 s1) (next2 nt2 s2).

Definition crel (c1 : ctx S1) (c2 : ctx S2) : Prop :=
  tok_view (c_tok c1) = tok_view (c_tok c2) /\ c_err c1 = c_err c2 /\ c_missing c1 = c_missing c2 /\
  c_unassigned c1 = c_unassigned c2 /\ (c_cfg c1 = g /\ c_cfg c2 = g) /\ Q (c_tok c1) (c_src c1) (c_tok c2) (c_src c2).

(** The same result and related contexts. *)
Definition rrel {A} (x : A * ctx S1) (y : A * ctx S2) : Prop := fst x = fst y /\ crel (snd x) (snd y).
Definition hrel (h1 : handler S1) (h2 : handler S2) : Prop := forall v c1 c2, crel c1 c2 -> orel rrel (h1 v c1) (h2 v c2).

Lemma orel_bind {A B C D} (R : A -> B -> Prop) (R' : C -> D -> Prop) x y k1 k2 :
  orel R x y -> (forall a b, R a b -> orel R' (k1 a) (k2 b)) -> orel R' (obind x k1) (obind y k2).
Proof. destruct x, y; cbn; intros H K; try contradiction; auto. Qed.
Lemma orel_ok {A} (a : A) c1 c2 : crel c1 c2 -> orel rrel (Ok (a, c1)) (Ok (a, c2)).
Proof. split; [reflexivity|assumption]. Qed.
Lemma rrel_bind {A B} (x : outcome (A * ctx S1)) (y : outcome (A * ctx S2)) (k1 : A * ctx S1 -> outcome (B * ctx S1)) k2 :
  orel rrel x y -> (forall a c1 c2, crel c1 c2 -> orel rrel (k1 (a, c1)) (k2 (a, c2))) -> orel rrel (obind x k1) (obind y k2).
Proof. intros H K. eapply orel_bind; [exact H|]. intros [a c1] [b c2] [E C]. cbn in E. subst b. apply K. exact C. Qed.

Lemma crel_type c1 c2 : crel c1 c2 -> c_type c2 = c_type c1.
Proof. intros (H & _). unfold c_type, tok_view in *. congruence. Qed.
Lemma crel_value c1 c2 : crel c1 c2 -> c_value c2 = c_value c1.
Proof. intros (H & _). unfold c_value, tok_view in *. congruence. Qed.
Lemma crel_name c1 c2 : crel c1 c2 -> c_name c2 = c_name c1.
Proof. intros (H & _). unfold c_name, tok_view in *. congruence. Qed.
Lemma crel_err c1 c2 : crel c1 c2 -> c_err c2 = c_err c1.
Proof. intros (_ & H & _). congruence. Qed.
Lemma crel_cfg c1 c2 : crel c1 c2 -> c_cfg c2 = c_cfg c1.
Proof. intros (_ & _ & _ & _ & (H1 & H2) & _). congruence. Qed.
Lemma crel_set e c1 c2 : crel c1 c2 -> crel (set_err e c1) (set_err e c2).
Proof. intros (A & B & C & D & (E & E') & F). repeat split; assumption. Qed.
Lemma crel_missing n c1 c2 : crel c1 c2 -> crel (add_missing n c1) (add_missing n c2).
Proof.
  intros H. unfold add_missing. rewrite (crel_cfg _ _ H). destruct (pc_track _); [|exact H].
  destruct H as (A & B & C & D & (E & E') & F). repeat split; cbn; congruence || assumption.
Qed.
Lemma crel_unassigned n c1 c2 : crel c1 c2 -> crel (add_unassigned n c1) (add_unassigned n c2).
Proof.
  intros H. unfold add_unassigned. rewrite (crel_cfg _ _ H). destruct (pc_track _); [|exact H].
  destruct H as (A & B & C & D & (E & E') & F). repeat split; cbn; congruence || assumption.
Qed.

Lemma read_sim c1 c2 : crel c1 c2 -> orel rrel (ctx_read next1 c1) (ctx_read next2 c2).
Proof.
  intros (A & B & C & D & (E & E') & F). unfold ctx_read. eapply orel_bind; [apply Hnext; eassumption|].
  intros [[s1 e1] t1] [[s2 e2] t2] (H1 & H2 & H3). cbn in H1, H2, H3 |- *. subst e2. repeat split; assumption.
Qed.
Lemma next_sim c1 c2 : crel c1 c2 -> orel rrel (ctx_next next1 c1) (ctx_next next2 c2).
Proof.
  intros H. unfold ctx_next. apply rrel_bind; [apply read_sim; exact H|]. intros e d1 d2 Hd. apply orel_ok, crel_set. exact Hd.
Qed.

Ltac facts1 := match goal with H : crel ?a ?b |- _ =>
  first [rewrite (crel_type a b H) | rewrite (crel_value a b H) | rewrite (crel_name a b H) | rewrite (crel_err a b H) | rewrite (crel_cfg a b H)] end.
Ltac facts := repeat facts1.
Ltac sim := repeat first
  [ facts1
  | exact I
  | match goal with
    | |- orel _ (Ok _) _ => apply orel_ok; try apply crel_set; assumption
    | |- orel _ (obind _ _) _ => apply rrel_bind; [|intros ? ? ? ?; repeat match goal with x : _ * _ |- _ => destruct x end]
    | |- orel _ (ctx_next _ _) _ => apply next_sim; try apply crel_set; assumption
    | |- orel _ (ctx_read _ _) _ => apply read_sim; try apply crel_set; assumption
    | H : hrel ?h _ |- orel _ (?h _ _) _ => apply H; try apply crel_set; assumption
    | |- orel _ (if ?b then _ else _) _ => destruct b eqn:?
    | IH : _ |- orel _ _ _ => apply IH; try apply crel_set; assumption
    | |- orel _ (match ?o with _ => _ end) _ => destruct o eqn:?
    end
  | progress cbn [c_err set_err] ].

Lemma vec_sim h1 h2 d : hrel h1 h2 -> forall f acc c1 c2, crel c1 c2 -> orel rrel (vec_loop next1 f d h1 acc c1) (vec_loop next2 f d h2 acc c2).
Proof. intros H. induction f as [|f IH]; intros acc c1 c2 Hc; cbn [vec_loop]; [exact I|]. sim. Qed.
Lemma set_sim h1 h2 d : hrel h1 h2 -> forall f acc c1 c2, crel c1 c2 -> orel rrel (set_loop next1 f d h1 acc c1) (set_loop next2 f d h2 acc c2).
Proof. intros H. induction f as [|f IH]; intros acc c1 c2 Hc; cbn [set_loop]; [exact I|]. sim. Qed.
Lemma map_sim h1 h2 d : hrel h1 h2 -> forall f e m c1 c2, crel c1 c2 -> orel rrel (map_loop next1 f d h1 e m c1) (map_loop next2 f d h2 e m c2).
Proof. intros H. induction f as [|f IH]; intros e m c1 c2 Hc; cbn [map_loop]; [exact I|]. cbv zeta. facts. destruct (type_eqb _ _); sim. Qed.
Lemma fixed_sim h1 h2 : hrel h1 h2 -> forall slots acc c1 c2, crel c1 c2 -> orel rrel (fixed_loop next1 h1 acc slots c1) (fixed_loop next2 h2 acc slots c2).
Proof.
  intros H. induction slots as [|v slots IH]; intros acc c1 c2 Hc; cbn [fixed_loop]; cbv zeta; facts; [sim|].
  destruct (is_ok (c_err c1)); [|sim]. apply rrel_bind; [apply H; exact Hc|]. intros [e x] d1 d2 Hd. sim.
Qed.
Lemma var_sim h1 h2 size : hrel h1 h2 -> forall slots acc c1 c2, crel c1 c2 -> orel rrel (var_loop next1 h1 size acc slots c1) (var_loop next2 h2 size acc slots c2).
Proof.
  intros H. induction slots as [|v slots IH]; intros acc c1 c2 Hc; cbn [var_loop]; cbv zeta; facts; [sim|].
  destruct (is_ok (c_err c1)); [|sim]. destruct (type_eqb _ _); [sim|]. apply rrel_bind; [apply H; exact Hc|]. intros [e x] d1 d2 Hd. sim.
Qed.
Lemma tuple_sim hs1 hs2 : Forall2 hrel hs1 hs2 -> forall acc vs c1 c2, crel c1 c2 -> orel rrel (tuple_loop next1 hs1 acc vs c1) (tuple_loop next2 hs2 acc vs c2).
Proof. induction 1 as [|h h' hs hs' H _ IH]; intros acc [|v vs] c1 c2 Hc; cbn [tuple_loop]; facts; sim. Qed.

Lemma skip_sim start stop : forall f depth c1 c2, crel c1 c2 -> orel crel (skip_loop next1 f start stop depth c1) (skip_loop next2 f start stop depth c2).
Proof.
  induction f as [|f IH]; intros [|depth] c1 c2 Hc; cbn [skip_loop]; try exact I; try exact Hc.
  eapply orel_bind; [apply next_sim; exact Hc|]. intros [e d1] [e' d2] [E Hd]. cbn in E, Hd. subst e'. destruct (is_ok e); [|exact Hd].
  rewrite (crel_type _ _ Hd). apply IH. exact Hd.
Qed.
Lemma skipAO_sim f c1 c2 : crel c1 c2 -> orel crel (skipArrayOrObject next1 f c1) (skipArrayOrObject next2 f c2).
Proof. intros H. unfold skipArrayOrObject. rewrite (crel_type _ _ H). destruct (c_type c1); try exact H; apply skip_sim; exact H. Qed.

Lemma struct_sim order fs1 fs2 : map f_names fs1 = map f_names fs2 -> Forall2 hrel (map f_to fs1) (map f_to fs2) ->
  forall f vs a c1 c2, crel c1 c2 -> orel rrel (struct_loop next1 f order fs1 vs a c1) (struct_loop next2 f order fs2 vs a c2).
Proof.
  intros En H. assert (Hn : forall i, match nth_error fs1 i, nth_error fs2 i with Some x, Some y => hrel (f_to x) (f_to y) | None, None => True | _, _ => False end).
  { clear En. revert fs2 H. induction fs1 as [|x fs1 IH]; intros [|y fs2] H i; inversion H; subst; destruct i; cbn; auto. apply IH. assumption. }
  induction f as [|f IH]; intros vs a c1 c2 Hc; cbn [struct_loop]; [exact I|]. rewrite <- En. facts.
  destruct (type_eqb _ _); [sim|]. destruct (search_both _ _ _) as [i|].
  - specialize (Hn i). destruct (nth_error fs1 i) as [x|], (nth_error fs2 i) as [y|]; try contradiction; [|exact I].
    destruct (nth_error vs i) as [v|]; [|exact I]. cbv zeta. apply rrel_bind; [apply Hn; exact Hc|]. intros [e z] d1 d2 Hd. sim.
  - cbv zeta. assert (Hm := crel_missing (c_name c1) _ _ Hc). rewrite (crel_cfg _ _ Hm).
    destruct (pc_allow_missing _); [|sim]. eapply orel_bind; [apply skipAO_sim; exact Hm|].
    intros d1 d2 Hd. rewrite (crel_err _ _ Hd). destruct (is_ok (c_err d1)); sim.
Qed.

Lemma Forall2_map2 {A B C} (R : B -> C -> Prop) (f : A -> B) (h : A -> C) l : Forall (fun a => R (f a) (h a)) l -> Forall2 R (map f l) (map h l).
Proof. induction 1; cbn; constructor; assumption. Qed.

Theorem to_sim t fuel : hrel (to next1 fuel t) (to next2 fuel t).
Proof.
  induction t as [|i|sg|hr tp| |ns u|t IH|t IH|t IH|t IH|t IH|u t IH|t IH|t IH|t IH|n t IH|n t IH|t IH|ts IH|t IH|b fs IH] using ty_rect_nested;
    intros v c1 c2 Hc; cbn [to].
  - unfold bool_to. facts. sim.
  - unfold integer_to. facts. destruct (int_to i (c_value c1)) as [[e z]| |]; cbn [obind]; sim.
  - unfold fp_to. facts. destruct (fp_read sg (c_value c1)) as [[e z]| |]; cbn [obind]; sim.
  - unfold time_point_to. facts. destruct v as [|old| | | | | | |]; try solve [sim]. destruct (TimeModel.time_to hr tp (c_value c1) old) as [[e z]| |]; cbn [obind]; sim.
  - unfold string_to. facts. sim.
  - unfold enum_to. facts. destruct (c_type c1); try solve [sim].
    destruct (int_to u (c_value c1)) as [[e z]| |]; cbn [obind]; sim.
  - unfold nullable_to. facts. sim.
  - unfold nullable_checked_to. facts. destruct v; sim.
  - apply IH. exact Hc.
  - unfold optional_checked_to. destruct v; sim.
  - unfold std_optional_to. sim.
  - unfold ptr_to. facts. destruct v; try exact I. destruct (type_eqb _ _); sim.
  - apply IH. exact Hc.
  - unfold vec_to. facts. destruct (type_eqb _ _); [|sim]. apply rrel_bind; [sim|]. intros e d1 d2 Hd. destruct (is_ok e); [|sim].
    apply rrel_bind; [apply vec_sim; assumption|]. intros [? ?] ? ? ?. sim.
  - assert (V : orel rrel (vec_to next1 fuel (init t) (to next1 fuel t) v c1) (vec_to next2 fuel (init t) (to next2 fuel t) v c2)).
    { unfold vec_to. facts. destruct (type_eqb _ _); [|sim]. apply rrel_bind; [sim|]. intros e d1 d2 Hd. destruct (is_ok e); [|sim].
      apply rrel_bind; [apply vec_sim; assumption|]. intros [? ?] ? ? ?. sim. }
    unfold one_or_many_to. facts. destruct (type_eqb _ _).
    + apply rrel_bind; [exact V|]. intros [? ?] ? ? ?. sim.
    + destruct v; try exact I. apply rrel_bind; [sim|]. intros [? ?] ? ? ?. sim.
  - unfold fixed_to. destruct v; try exact I. facts. destruct (type_eqb _ _); [|sim]. apply rrel_bind; [sim|]. intros e d1 d2 Hd.
    apply rrel_bind; [apply fixed_sim; assumption|]. intros [? ?] ? ? ?. sim.
  - unfold var_to. destruct v; try exact I. facts. destruct (type_eqb _ _); [|sim]. apply rrel_bind; [sim|]. intros e d1 d2 Hd.
    apply rrel_bind; [apply var_sim; assumption|]. intros [? [? ?]] ? ? ?. sim.
  - unfold set_to. facts. destruct (type_eqb _ _); [|sim]. apply rrel_bind; [sim|]. intros e d1 d2 Hd. destruct (is_ok e); [|sim].
    apply rrel_bind; [apply set_sim; assumption|]. intros [? ?] ? ? ?. sim.
  - unfold tuple_to. destruct v; try exact I. facts. destruct (type_eqb _ _); [|sim]. apply rrel_bind; [sim|]. intros e d1 d2 Hd. destruct (is_ok e); [|sim].
    apply rrel_bind; [apply tuple_sim; [apply Forall2_map2; exact IH|assumption]|]. intros [? ?] ? ? ?. sim.
  - unfold map_to. destruct v; try exact I. facts. destruct (type_eqb _ _); [|sim]. apply rrel_bind; [sim|]. intros e d1 d2 Hd. destruct (is_ok e); [|sim].
    apply rrel_bind; [apply map_sim; assumption|]. intros [? ?] ? ? ?. sim.
  - unfold struct_to. destruct v; try exact I. facts. destruct (type_eqb _ _); [|sim]. apply rrel_bind; [sim|]. intros e d1 d2 Hd. destruct (is_ok e); [|sim].
    cbv zeta. rewrite !map_length, !map_map. cbn [f_super f_names f_optional]. apply rrel_bind.
    + apply struct_sim; [rewrite !map_map; reflexivity| |exact Hd]. rewrite !map_map. cbn [f_to]. apply Forall2_map2. exact IH.
    + intros [[e2 l2] a2] k1 k2 Hk. destruct (is_ok e2); [|sim]. destruct (unassigned_of _ _ _) as [|x l0]; [sim|].
      rewrite (crel_cfg _ _ Hk). apply orel_ok, crel_unassigned. exact Hk.
Qed.
End Sim.
