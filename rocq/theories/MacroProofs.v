(** Proofs about the macros.  The statements are in PropMacro.v. *)
From Verif Require Import Base MacroModel MacroSpec.
From Coq Require Import String List Bool Lia Arith.
Import ListNotations.
Local Open Scope list_scope.

(* keeps the table of macros out of the way of unification *)
Local Opaque macro_of.

Lemma bytes_eqb_iff : forall a b, bytes_eqb a b = true <-> a = b.
Proof.
  induction a as [|x a IH]; destruct b as [|y b]; cbn; try (split; congruence).
  rewrite andb_true_iff, IH.
  split.
  - intros [H ->]. apply Byte.byte_dec_bl in H. congruence.
  - intros [= -> ->]. split; [apply Byte.byte_dec_lb; reflexivity|reflexivity].
Qed.

Lemma name_in_iff : forall n l, name_in n l = true <-> In n l.
Proof.
  induction l as [|m l IH]; cbn; [split; [discriminate|tauto]|].
  rewrite orb_true_iff, IH, bytes_eqb_iff. split; intros [H|H]; auto.
Qed.

Lemma name_in_false : forall n l, name_in n l = false <-> ~ In n l.
Proof.
  intros n l. rewrite <- name_in_iff. destruct (name_in n l); split; congruence.
Qed.

Lemma marks_app : forall a b, marks (a ++ b) = marks a ++ marks b.
Proof. induction a as [|[t|n] a IH]; intro b; cbn; [reflexivity|apply IH|rewrite IH; reflexivity]. Qed.

Lemma marks_T : forall ts, marks (map T ts) = [].
Proof. induction ts; cbn; auto. Qed.

Lemma marks_E : forall ms, marks (map E ms) = ms.
Proof. induction ms; cbn; congruence. Qed.

Lemma skip_marks_E : forall ms r, skip_marks (map E ms ++ r) = skip_marks r.
Proof. induction ms; cbn; auto. Qed.

(** ** Scanning with enough fuel *)

Definition scan (act : list bytes) (its : list item) (out : list ptok) : Prop :=
  exists F, forall f, (F <= f)%nat -> run macro_of f act its = Ok out.

Definition inert (t : ptok) : Prop :=
  match t with Id n false => macro_of n = None | _ => True end.

Lemma scan_nil : forall act, scan act [] [].
Proof. intro act. exists 1%nat. intros [|f] H; [lia|reflexivity]. Qed.

Lemma scan_end : forall act n r out, scan act r out -> scan act (E n :: r) out.
Proof.
  intros act n r out [F HF]. exists (S F). intros [|f] H; [lia|].
  cbn [run]. apply HF. lia.
Qed.

Lemma scan_ends : forall act ms r out, scan act r out -> scan act (map E ms ++ r) out.
Proof. induction ms; cbn; intros; [assumption|]. apply scan_end. auto. Qed.

Lemma scan_keep : forall act t r out, inert t -> scan act r out -> scan act (T t :: r) (t :: out).
Proof.
  intros act t r out Hi [F HF]. exists (S F). intros [|f] H; [lia|].
  assert (R : run macro_of f act r = Ok out) by (apply HF; lia).
  cbn [run]. destruct t as [n [|]|n|s|s]; cbn [inert] in Hi; try rewrite Hi; rewrite R; reflexivity.
Qed.

Lemma scan_nocall : forall act n np v body r out,
  macro_of n = Some (Fun np v body) -> ~ In n (act ++ marks r) ->
  match skip_marks r with T t :: _ => is_sym [x28] t = false | _ => True end ->
  scan act r out -> scan act (T (Id n false) :: r) (Id n false :: out).
Proof.
  intros act n np v body r out Hm Hn Hs [F HF]. exists (S F). intros [|f] H; [lia|].
  assert (R : run macro_of f act r = Ok out) by (apply HF; lia).
  cbn [run]. rewrite Hm. apply name_in_false in Hn. rewrite Hn.
  destruct (skip_marks r) as [|[t|m] r1]; try (rewrite R; reflexivity).
  rewrite Hs, R. reflexivity.
Qed.

Lemma scan_obj : forall act n body ts r out,
  macro_of n = Some (Obj body) -> ~ In n (act ++ marks r) -> subst body [] [] = Some ts ->
  scan act (map T ts ++ E n :: r) out -> scan act (T (Id n false) :: r) out.
Proof.
  intros act n body ts r out Hm Hn Hs [F HF]. exists (S F). intros [|f] H; [lia|].
  cbn [run]. rewrite Hm. apply name_in_false in Hn. rewrite Hn, Hs. apply HF. lia.
Qed.

(** ** Arguments *)

(** Depth of parentheses after a text; no comma and no closing parenthesis at the outside. *)
Fixpoint walk (d : nat) (a : list ptok) : option nat :=
  match a with
  | [] => Some d
  | t :: r =>
    if is_sym [x28] t then walk (S d) r
    else if is_sym [x29] t then match d with O => None | S d' => walk d' r end
    else if is_sym [x2c] t then match d with O => None | _ => walk d r end
    else walk d r
  end.

Definition arg_ok (a : list ptok) : Prop := walk 0 a = Some 0%nat.

Lemma walk_app : forall a b d, walk d (a ++ b) = match walk d a with Some d' => walk d' b | None => None end.
Proof.
  induction a as [|t a IH]; intros b d; cbn [walk app]; [reflexivity|].
  destruct (is_sym [x28] t); [apply IH|].
  destruct (is_sym [x29] t); [destruct d; [reflexivity|apply IH]|].
  destruct (is_sym [x2c] t); [destruct d; [reflexivity|apply IH]|apply IH].
Qed.

Definition simple (t : ptok) : bool := negb (is_sym [x28] t || is_sym [x29] t || is_sym [x2c] t).

Lemma walk_simple : forall a d, forallb simple a = true -> walk d a = Some d.
Proof.
  induction a as [|t a IH]; intros d H; cbn [walk forallb] in *; [reflexivity|].
  apply andb_true_iff in H as [H1 H2]. unfold simple in H1.
  destruct (is_sym [x28] t), (is_sym [x29] t), (is_sym [x2c] t); try discriminate. auto.
Qed.

Lemma collect_walk : forall a d d' its h tl r,
  walk d a = Some d' -> collect d' its = Some (h :: tl, r) ->
  collect d (map T a ++ its) = Some ((a ++ h) :: tl, r).
Proof.
  induction a as [|t a IH]; intros d d' its h tl r Hw Hc; cbn [walk map app collect] in *.
  - injection Hw as ->. assumption.
  - destruct (is_sym [x28] t); [rewrite (IH _ _ _ _ _ _ Hw Hc); reflexivity|].
    destruct (is_sym [x29] t).
    { destruct d; [discriminate|]. rewrite (IH _ _ _ _ _ _ Hw Hc). reflexivity. }
    destruct (is_sym [x2c] t).
    { destruct d; [discriminate|]. rewrite (IH _ _ _ _ _ _ Hw Hc). reflexivity. }
    rewrite (IH _ _ _ _ _ _ Hw Hc). reflexivity.
Qed.

Lemma join_cons : forall a args, args <> [] -> join (a :: args) = a ++ cm :: join args.
Proof. intros a [|b args] H; [congruence|reflexivity]. Qed.

Lemma collect_cm : forall its,
  collect 0 (T cm :: its) = match collect 0 its with Some (args, r) => Some ([] :: args, r) | None => None end.
Proof. reflexivity. Qed.

Lemma collect_join : forall args r, args <> [] -> Forall arg_ok args ->
  collect 0 (map T (join args) ++ T rp :: r) = Some (args, r).
Proof.
  induction args as [|a args IH]; intros r Hne Ha; [congruence|].
  inversion Ha as [|? ? Ha1 Ha2]; subst.
  destruct args as [|b args].
  - cbn [join]. rewrite (collect_walk a 0 0 _ [] [] r Ha1); [rewrite app_nil_r; reflexivity|reflexivity].
  - rewrite join_cons by discriminate. rewrite map_app, <- app_assoc.
    rewrite (collect_walk a 0 0 _ [] (b :: args) r Ha1); [rewrite app_nil_r; reflexivity|].
    change (map T (cm :: join (b :: args)) ++ T rp :: r)
      with (T cm :: (map T (join (b :: args)) ++ T rp :: r)).
    rewrite collect_cm. rewrite IH; [reflexivity|discriminate|assumption].
Qed.

Lemma join_app : forall a b, a <> [] -> b <> [] -> join (a ++ b) = join a ++ cm :: join b.
Proof.
  induction a as [|x a IH]; intros b Ha Hb; [congruence|].
  destruct a as [|y a].
  - cbn [app]. rewrite join_cons by assumption. reflexivity.
  - change ((x :: y :: a) ++ b) with (x :: ((y :: a) ++ b)).
    rewrite join_cons by (cbn; discriminate).
    rewrite IH by (assumption || discriminate).
    rewrite (join_cons x (y :: a)) by discriminate.
    rewrite <- app_assoc. reflexivity.
Qed.

Definition callp (n : bytes) (args : list (list ptok)) : list ptok :=
  Id n false :: lp :: join args ++ [rp].

Fixpoint exps_ok (P : list ptok -> list ptok -> Prop) (i : nat) (body : list elem)
  (raws exps : list (list ptok)) : Prop :=
  match raws, exps with
  | [], [] => True
  | a :: r, e :: es => (if used i body then P a e else e = []) /\ exps_ok P (S i) body r es
  | _, _ => False
  end.

Lemma exps_ok_run : forall act body raws i exps,
  exps_ok (fun a e => scan act (map T a) e) i body raws exps ->
  exists F, forall f, (F <= f)%nat ->
    expand_args (fun a => run macro_of f act (map T a)) i body raws = Ok exps.
Proof.
  induction raws as [|a raws IH]; intros i [|e exps] H; cbn [exps_ok] in H; try contradiction.
  - exists 0%nat. intros f _. reflexivity.
  - destruct H as [H1 H2]. destruct (IH _ _ H2) as [F HF].
    destruct (used i body) eqn:Hu.
    + destruct H1 as [G HG]. exists (F + G)%nat. intros f Hf. cbn [expand_args]. rewrite Hu.
      rewrite HG by lia. cbn [obind]. rewrite HF by lia. reflexivity.
    + exists F. intros f Hf. cbn [expand_args]. rewrite Hu, HF by lia. subst e. reflexivity.
Qed.

Lemma scan_call : forall act n np v body ms args r raws exps ts out,
  macro_of n = Some (Fun np v body) -> ~ In n (act ++ ms ++ marks r) ->
  args <> [] -> Forall arg_ok args -> bind np v args = Some raws ->
  exps_ok (fun a e => scan (act ++ marks r) (map T a) e) 0 body raws exps ->
  subst body raws exps = Some ts ->
  scan act (map T ts ++ E n :: r) out ->
  scan act (T (Id n false) :: map E ms ++ map T (lp :: join args ++ [rp]) ++ r) out.
Proof.
  intros act n np v body ms args r raws exps ts out Hm Hn Hne Ha Hb He Hs [F HF].
  destruct (exps_ok_run _ _ _ _ _ He) as [G HG].
  exists (S (F + G))%nat. intros [|f] H; [lia|].
  cbn [run]. rewrite Hm.
  rewrite !marks_app, marks_E, marks_T. cbn [app].
  apply name_in_false in Hn. rewrite Hn.
  rewrite skip_marks_E. cbn [map app skip_marks].
  change (is_sym [x28] lp) with true. cbv iota.
  rewrite map_app, <- app_assoc. cbn [map app].
  rewrite (collect_join args r Hne Ha), Hb.
  rewrite HG by lia. cbn [obind]. rewrite Hs. apply HF. lia.
Qed.

(** ** Texts that are scanned to the end whatever follows *)

Definition avoid (ns l : list bytes) : Prop := forall n, In n ns -> ~ In n l.

(** [ns]: the names that must not be in the middle of a replacement. *)
Definition front (ns : list bytes) (a b : list ptok) : Prop :=
  forall act r out, avoid ns (act ++ marks r) -> scan act r out ->
    scan act (map T a ++ r) (b ++ out).

Definition alone (ns : list bytes) (a b : list ptok) : Prop :=
  forall act, avoid ns act -> scan act (map T a) b.

Lemma front_alone : forall ns a b, front ns a b -> alone ns a b.
Proof.
  intros ns a b H act Ha. specialize (H act [] []). cbn [marks] in H.
  rewrite !app_nil_r in H. apply H; [assumption|apply scan_nil].
Qed.

Lemma avoid_incl : forall ns ns' l, incl ns ns' -> avoid ns' l -> avoid ns l.
Proof. intros ns ns' l Hi Ha n Hn. apply Ha, Hi, Hn. Qed.

Lemma front_incl : forall ns ns' a b, incl ns ns' -> front ns a b -> front ns' a b.
Proof. intros ns ns' a b Hi H act r out Ha. apply H. eapply avoid_incl; eassumption. Qed.

Lemma alone_incl : forall ns ns' a b, incl ns ns' -> alone ns a b -> alone ns' a b.
Proof. intros ns ns' a b Hi H act Ha. apply H. eapply avoid_incl; eassumption. Qed.

Lemma front_app : forall ns a a' b b', front ns a a' -> front ns b b' -> front ns (a ++ b) (a' ++ b').
Proof.
  intros ns a a' b b' Ha Hb act r out Hv Hr.
  rewrite map_app, <- !app_assoc. apply Ha.
  - rewrite marks_app, marks_T. exact Hv.
  - apply Hb; assumption.
Qed.

Lemma front_inert : forall ns a, Forall inert a -> front ns a a.
Proof.
  intros ns a H act r out Hv Hr. induction H; cbn; [assumption|].
  apply scan_keep; assumption.
Qed.

Lemma alone_front_app : forall ns a a' b b', front ns a a' -> alone ns b b' -> alone ns (a ++ b) (a' ++ b').
Proof.
  intros ns a a' b b' Ha Hb act Hv.
  rewrite map_app. apply Ha.
  - rewrite marks_T, app_nil_r. exact Hv.
  - apply Hb; assumption.
Qed.

Lemma exps_ok_mono : forall (P Q : list ptok -> list ptok -> Prop) body raws i exps,
  (forall a e, P a e -> Q a e) -> exps_ok P i body raws exps -> exps_ok Q i body raws exps.
Proof.
  induction raws as [|a raws IH]; intros i [|e exps] H He; cbn [exps_ok] in *; try contradiction; auto.
  destruct He as [He1 He2]. split; [destruct (used i body); auto|eauto].
Qed.

Lemma avoid_cons : forall ns n act r, avoid ns (act ++ marks r) -> ~ In n ns ->
  avoid ns (act ++ marks (E n :: r)).
Proof.
  intros ns n act r Ha Hn m Hm. cbn [marks]. rewrite in_app_iff. intros [H|[H|H]].
  - apply (Ha m Hm). apply in_or_app. auto.
  - subst m. contradiction.
  - apply (Ha m Hm). apply in_or_app. auto.
Qed.

(** A call, possibly with ends of replacement lists between the name and the parenthesis. *)
Lemma scan_callp : forall nsa ns act n np v body ms args r raws exps ts out out',
  macro_of n = Some (Fun np v body) -> ~ In n act -> ~ In n ms -> ~ In n (marks r) ->
  args <> [] -> Forall arg_ok args -> bind np v args = Some raws ->
  exps_ok (alone nsa) 0 body raws exps -> avoid nsa (act ++ marks r) ->
  subst body raws exps = Some ts ->
  front ns ts out -> avoid ns (act ++ marks r) -> ~ In n ns ->
  scan act r out' ->
  scan act (T (Id n false) :: map E ms ++ map T (lp :: join args ++ [rp]) ++ r) (out ++ out').
Proof.
  intros nsa ns act n np v body ms args r raws exps ts out out' Hm H1 H2 H3 Hne Ha Hb He Hna Hs Hf Hns Hnn Hr.
  eapply scan_call; try eassumption.
  - rewrite !in_app_iff. tauto.
  - eapply exps_ok_mono; [|exact He]. intros a e Hae. apply Hae. exact Hna.
  - apply Hf; [apply avoid_cons; assumption|]. apply scan_end. exact Hr.
Qed.

Lemma front_call : forall nsa ns N n np v body args raws exps ts out,
  macro_of n = Some (Fun np v body) ->
  args <> [] -> Forall arg_ok args -> bind np v args = Some raws ->
  exps_ok (alone nsa) 0 body raws exps -> subst body raws exps = Some ts ->
  front ns ts out -> ~ In n ns -> In n N -> incl nsa N -> incl ns N ->
  front N (callp n args) out.
Proof.
  intros nsa ns N n np v body args raws exps ts out Hm Hne Ha Hb He Hs Hf Hnn HN Hi1 Hi2 act r out' Hv Hr.
  pose proof (Hv n HN) as Hn. rewrite in_app_iff in Hn.
  apply (scan_callp nsa ns act n np v body [] args r raws exps ts out out'); try assumption; try tauto.
  - eapply avoid_incl; eassumption.
  - eapply avoid_incl; eassumption.
Qed.

(** Finite lists of names are compared by computation. *)
Lemma incl_b : forall a b, forallb (fun n => name_in n b) a = true -> incl a b.
Proof. intros a b H n Hn. rewrite forallb_forall in H. apply name_in_iff. auto. Qed.
Lemma in_b : forall n l, name_in n l = true -> In n l.
Proof. intros. apply name_in_iff. assumption. Qed.
Lemma notin_b : forall n l, name_in n l = false -> ~ In n l.
Proof. intros. apply name_in_false. assumption. Qed.

Ltac names := solve [apply incl_b; vm_compute; reflexivity | apply in_b; vm_compute; reflexivity
                    | apply notin_b; vm_compute; reflexivity].

(** ** Shapes of arguments *)

Lemma walk_shift : forall a d k e, walk d a = Some e -> walk (d + k) a = Some (e + k)%nat.
Proof.
  induction a as [|t a IH]; intros d k e H; cbn [walk] in *; [congruence|].
  destruct (is_sym [x28] t); [exact (IH (S d) k e H)|].
  destruct (is_sym [x29] t).
  { destruct d; [discriminate|]. cbn [Nat.add]. auto. }
  destruct (is_sym [x2c] t).
  { destruct d; [discriminate|]. exact (IH (S d) k e H). }
  auto.
Qed.

Lemma arg_ok_walk : forall a d, arg_ok a -> walk d a = Some d.
Proof. intros a d H. apply (walk_shift a 0 d 0 H). Qed.

Lemma walk_join : forall args d, Forall arg_ok args -> walk (S d) (join args) = Some (S d).
Proof.
  induction args as [|a args IH]; intros d H; [reflexivity|].
  inversion H as [|? ? H1 H2]; subst.
  destruct args as [|b args]; [apply (arg_ok_walk a (S d) H1)|].
  rewrite join_cons by discriminate. rewrite walk_app, (arg_ok_walk a (S d) H1).
  change (walk (S d) (cm :: join (b :: args))) with (walk (S d) (join (b :: args))).
  apply IH. assumption.
Qed.

Lemma parens_ok : forall args, Forall arg_ok args -> arg_ok (lp :: join args ++ [rp]).
Proof.
  intros args H. unfold arg_ok.
  change (walk 0 (lp :: join args ++ [rp])) with (walk 1 (join args ++ [rp])).
  rewrite walk_app, walk_join by assumption. reflexivity.
Qed.

Lemma app_ok : forall a b, arg_ok a -> arg_ok b -> arg_ok (a ++ b).
Proof. intros a b Ha Hb. unfold arg_ok. rewrite walk_app, Ha. exact Hb. Qed.

Lemma callp_ok : forall n args, Forall arg_ok args -> arg_ok (callp n args).
Proof.
  intros n args H. unfold callp.
  change (Id n false :: lp :: join args ++ [rp]) with ([Id n false] ++ (lp :: join args ++ [rp])).
  apply app_ok; [reflexivity|apply parens_ok; assumption].
Qed.

Lemma inert_join : forall args, Forall (Forall inert) args -> Forall inert (join args).
Proof.
  induction args as [|a args IH]; intro H; [constructor|].
  inversion H as [|? ? H1 H2]; subst.
  destruct args as [|b args]; [assumption|].
  rewrite join_cons by discriminate. apply Forall_app. split; [assumption|].
  constructor; [exact I|auto].
Qed.

(** ** The macros that look at arguments *)

Notation nm s := (s2b s%string).
Definition n_expand := nm "JS_INTERNAL_EXPAND".
Definition n_second := nm "JS_INTERNAL_SECOND".
Definition n_second_ := nm "JS_INTERNAL_SECOND_".
Definition n_empty := nm "JS_INTERNAL_EMPTY".
Definition n_eval := nm "JS_INTERNAL_EVAL".
Definition n_defer2 := nm "JS_INTERNAL_DEFER2".
Definition n_is_probe := nm "JS_INTERNAL_IS_PROBE".
Definition n_probe := nm "JS_INTERNAL_PROBE".
Definition n_cat := nm "JS_INTERNAL_CAT".
Definition n_not := nm "JS_INTERNAL_NOT".
Definition n_not_ := nm "JS_INTERNAL__NOT_".
Definition n_not0 := nm "JS_INTERNAL__NOT_0".
Definition n_bool := nm "JS_INTERNAL_BOOL".
Definition n_if := nm "JS_INTERNAL_IF_ELSE".
Definition n_if' := nm "JS_INTERNAL__IF_ELSE".
Definition n_if_ := nm "JS_INTERNAL__IF_".
Definition n_if1 := nm "JS_INTERNAL__IF_1".
Definition n_if0 := nm "JS_INTERNAL__IF_0".
Definition n_if1e := nm "JS_INTERNAL__IF_1_ELSE".
Definition n_if0e := nm "JS_INTERNAL__IF_0_ELSE".
Definition n_more := nm "JS_INTERNAL_HAS_MORE_THAN_ONE_ARGS".
Definition n_endargs := nm "JS_INTERNAL__END_OF_ARGUMENTS_".

Definition zero : ptok := Num [x30].
Definition one : ptok := Num [x31].
Definition tilde : ptok := Sym [x7e].

Lemma second_front : forall a b rest ns0 N,
  Forall arg_ok (a :: b :: rest) ->
  alone ns0 (join (a :: b :: rest)) (join (a :: b :: rest)) -> front ns0 b b ->
  ~ In n_second ns0 -> ~ In n_expand ns0 -> ~ In n_second_ ns0 ->
  incl (n_second :: n_expand :: n_second_ :: ns0) N ->
  front N (callp n_second (a :: b :: rest)) b.
Proof.
  intros a b rest ns0 N Hok Hj Hb H1 H2 H3 HN.
  set (args := a :: b :: rest) in *.
  assert (Hne : args <> []) by discriminate.
  assert (F2 : front (n_second_ :: ns0) (callp n_second_ args) b).
  { eapply (front_call ns0 ns0) with (exps := [[]; b; []]) (raws := [a; b; join rest]).
    - vm_compute; reflexivity.
    - exact Hne.
    - exact Hok.
    - reflexivity.
    - cbn. split; [reflexivity|]. split; [apply front_alone; exact Hb|]. split; [reflexivity|exact I].
    - cbn. rewrite app_nil_r. reflexivity.
    - exact Hb.
    - exact H3.
    - left; reflexivity.
    - apply incl_tl, incl_refl.
    - apply incl_tl, incl_refl. }
  assert (F1 : front (n_expand :: n_second_ :: ns0) (callp n_expand [callp n_second_ args]) b).
  { eapply (front_call (n_second_ :: ns0) ns0) with (exps := [b]) (raws := [callp n_second_ args]).
    - vm_compute; reflexivity.
    - discriminate.
    - constructor; [apply callp_ok; exact Hok|constructor].
    - reflexivity.
    - cbn. split; [apply front_alone; exact F2|exact I].
    - cbn. rewrite app_nil_r. reflexivity.
    - exact Hb.
    - exact H2.
    - left; reflexivity.
    - apply incl_tl, incl_refl.
    - do 2 apply incl_tl; apply incl_refl. }
  eapply (front_call ns0 (n_expand :: n_second_ :: ns0)) with (exps := [join args]) (raws := [join args]).
  - vm_compute; reflexivity.
  - exact Hne.
  - exact Hok.
  - reflexivity.
  - cbn [exps_ok]. split; [exact Hj|exact I].
  - instantiate (1 := callp n_expand [callp n_second_ args]).
    change (Some (Id n_expand false :: lp :: Id n_second_ false :: lp :: (join args ++ [rp; rp])) = Some (callp n_expand [callp n_second_ args])).
    unfold callp at 1. cbn [join app]. unfold callp. cbn [app]. rewrite <- app_assoc. reflexivity.
  - exact F1.
  - intros [H|[H|H]]; [vm_compute in H; discriminate|vm_compute in H; discriminate|contradiction].
  - apply HN. left; reflexivity.
  - intros x Hx. apply HN. do 3 right. exact Hx.
  - intros x Hx. apply HN. right. exact Hx.
Qed.

Definition ns_second : list bytes := [n_second; n_expand; n_second_].
Definition ns_probe : list bytes := n_is_probe :: n_cat :: n_probe :: n_not0 :: ns_second.
Definition ns_not : list bytes := n_not :: ns_probe.
Definition ns_bool : list bytes := n_bool :: ns_not.

Lemma cat_front : forall a b g out ns N,
  arg_ok b -> glue [Id a false] b = Some g -> front ns g out -> ~ In n_cat ns -> incl (n_cat :: ns) N ->
  front N (callp n_cat [[Id a false]; b]) out.
Proof.
  intros a b g out ns N Hb Hg Hf Hn HN.
  eapply (front_call [] ns) with (exps := [[]; []]) (raws := [[Id a false]; b]).
  - vm_compute; reflexivity.
  - discriminate.
  - constructor; [reflexivity|]. constructor; [exact Hb|constructor].
  - reflexivity.
  - cbn. tauto.
  - cbn [subst nth]. rewrite Hg, app_nil_r. reflexivity.
  - exact Hf.
  - exact Hn.
  - apply HN. left; reflexivity.
  - intros x [].
  - intros x Hx. apply HN. right. exact Hx.
Qed.

Lemma not_front : forall nsx N x x' g args a b rest,
  arg_ok x -> alone nsx x x' -> arg_ok x' -> glue [Id n_not_ false] x' = Some g ->
  front [n_probe; n_not0] g (join args) -> args <> [] ->
  args ++ [[zero]; [zero]] = a :: b :: rest ->
  Forall arg_ok (a :: b :: rest) -> Forall (Forall inert) (a :: b :: rest) ->
  incl nsx N -> incl ns_not N ->
  front N (callp n_not [x]) b.
Proof.
  intros nsx N x x' g args a b rest Hx Hxx Hx' Hg Hp Hne Hargs Hok Hin Hi1 Hi2.
  eapply (front_call nsx ns_probe) with (exps := [x']) (raws := [x]).
  - vm_compute; reflexivity.
  - discriminate.
  - constructor; [exact Hx|constructor].
  - reflexivity.
  - cbn [exps_ok]. split; [exact Hxx|exact I].
  - instantiate (1 := callp n_is_probe [callp n_cat [[Id n_not_ false]; x']]).
    change (Some (Id n_is_probe false :: lp :: Id n_cat false :: lp :: Id n_not_ false :: cm :: (x' ++ [rp; rp]))
            = Some (callp n_is_probe [callp n_cat [[Id n_not_ false]; x']])).
    unfold callp. cbn [join app]. rewrite <- app_assoc. reflexivity.
  - eapply (front_call (n_cat :: n_probe :: n_not0 :: nil) ns_second)
      with (exps := [join args]) (raws := [callp n_cat [[Id n_not_ false]; x']]).
    + vm_compute; reflexivity.
    + discriminate.
    + constructor; [apply callp_ok; repeat constructor; exact Hx'|constructor].
    + reflexivity.
    + cbn [exps_ok]. split; [|exact I]. apply front_alone.
      eapply cat_front; [exact Hx'|exact Hg|exact Hp|names|apply incl_refl].
    + instantiate (1 := callp n_second (a :: b :: rest)).
      rewrite <- Hargs.
      change (Some (Id n_second false :: lp :: (join args ++ [cm; zero; cm; zero; rp]))
              = Some (callp n_second (args ++ [[zero]; [zero]]))).
      unfold callp. rewrite join_app by (assumption || discriminate).
      rewrite <- app_assoc. reflexivity.
    + eapply (second_front a b rest []); try (intros []; fail).
      * exact Hok.
      * apply front_alone, front_inert, inert_join. exact Hin.
      * apply front_inert. inversion Hin as [|? ? _ Hin']; inversion Hin'; assumption.
      * names.
    + names.
    + names.
    + names.
    + names.
  - names.
  - apply Hi2. names.
  - exact Hi1.
  - eapply incl_tran; [|exact Hi2]. names.
Qed.

Definition plain (x : bytes) : Prop := macro_of x = None /\ macro_of (n_not_ ++ x) = None.

Definition inert_b (t : ptok) : bool :=
  match t with Id n false => match macro_of n with None => true | _ => false end | _ => true end.
Lemma inert_dec : forall t, inert_b t = true -> inert t.
Proof.
  intros [n [|]|n|s|s] H; unfold inert, inert_b in *; try exact I. destruct (macro_of n); [discriminate|reflexivity].
Qed.

Ltac inert1 :=
  lazymatch goal with
  | |- inert (name ?x) => match goal with H : macro_of x = None |- _ => exact H end
  | |- inert (Id ?x false) => first [match goal with H : macro_of x = None |- _ => exact H end
                                    | apply inert_dec; vm_compute; reflexivity]
  | |- inert _ => first [exact I | apply inert_dec; vm_compute; reflexivity]
  end.
Ltac inerts :=
  lazymatch goal with
  | |- Forall _ [] => apply Forall_nil
  | |- Forall _ (_ :: _) => apply Forall_cons; inerts
  | |- Forall _ (join _) => cbn [join app]; inerts
  | |- Forall _ (info _ _) => cbn [info]; unfold member_info, super_info, function_info; inerts
  | |- inert _ => inert1
  | |- arg_ok _ => reflexivity
  | _ => idtac
  end.

Lemma probe_front : front [n_probe; n_not0] [Id n_not0 false] [tilde; cm; one].
Proof.
  intros act r out Hv Hr. cbn [map app].
  assert (Hn : forall n, In n [n_probe; n_not0] -> ~ In n act /\ ~ In n (marks r)).
  { intros n Hin. pose proof (Hv n Hin) as H. rewrite in_app_iff in H. tauto. }
  eapply scan_obj.
  - vm_compute; reflexivity.
  - apply Hv. names.
  - instantiate (1 := callp n_probe [[]]). reflexivity.
  - assert (F : front [n_probe] (callp n_probe [[]]) [tilde; cm; one]).
    { eapply (front_call [] []) with (exps := []) (raws := []).
      - vm_compute; reflexivity.
      - discriminate.
      - repeat constructor.
      - reflexivity.
      - exact I.
      - instantiate (1 := [tilde; cm; one]). reflexivity.
      - apply front_inert. inerts.
      - intros [].
      - names.
      - names.
      - names. }
    apply (F act (E n_not0 :: r)).
    + apply avoid_cons; [|names]. eapply avoid_incl; [|exact Hv]. names.
    + apply scan_end. exact Hr.
Qed.

Lemma not_one : forall nsx N x, arg_ok x -> alone nsx x [one] -> incl nsx N -> incl ns_not N ->
  front N (callp n_not [x]) [zero].
Proof.
  intros nsx N x Hx Ha H1 H2.
  eapply (not_front nsx N x [one] [Id (n_not_ ++ [x31]) false] [[Id (n_not_ ++ [x31]) false]]);
    try eassumption; try reflexivity; try discriminate; try (apply front_inert); inerts.
Qed.

Lemma not_zero : forall nsx N x, arg_ok x -> alone nsx x [zero] -> incl nsx N -> incl ns_not N ->
  front N (callp n_not [x]) [one].
Proof.
  intros nsx N x Hx Ha H1 H2.
  eapply (not_front nsx N x [zero] [Id n_not0 false] [[tilde]; [one]]);
    try eassumption; try reflexivity; try discriminate; try (exact probe_front); inerts.
Qed.

Lemma not_zero_p : forall nsx N x, arg_ok x -> alone nsx x [zero; lp; rp] -> incl nsx N -> incl ns_not N ->
  front N (callp n_not [x]) [one; lp; rp].
Proof.
  intros nsx N x Hx Ha H1 H2.
  eapply (not_front nsx N x [zero; lp; rp] [Id n_not0 false; lp; rp] [[tilde]; [one; lp; rp]]);
    try eassumption; try reflexivity; try discriminate.
  - change [Id n_not0 false; lp; rp] with ([Id n_not0 false] ++ [lp; rp]).
    change (join [[tilde]; [one; lp; rp]]) with ([tilde; cm; one] ++ [lp; rp]).
    apply front_app; [exact probe_front|apply front_inert; inerts].
  - inerts.
  - inerts.
Qed.

Lemma not_one_p : forall nsx N x, arg_ok x -> alone nsx x [one; lp; rp] -> incl nsx N -> incl ns_not N ->
  front N (callp n_not [x]) [zero].
Proof.
  intros nsx N x Hx Ha H1 H2.
  eapply (not_front nsx N x [one; lp; rp] [Id (n_not_ ++ [x31]) false; lp; rp] [[Id (n_not_ ++ [x31]) false; lp; rp]]);
    try eassumption; try reflexivity; try discriminate; try (apply front_inert); inerts.
Qed.

Lemma not_id_p : forall nsx N x y, plain y -> arg_ok x -> alone nsx x [Id y false; lp; rp] ->
  incl nsx N -> incl ns_not N ->
  front N (callp n_not [x]) [zero].
Proof.
  intros nsx N x y [Hy1 Hy2] Hx Ha H1 H2.
  eapply (not_front nsx N x [Id y false; lp; rp] [Id (n_not_ ++ y) false; lp; rp] [[Id (n_not_ ++ y) false; lp; rp]]);
    try eassumption; try reflexivity; try discriminate; try (apply front_inert).
  - constructor; [exact Hy2|inerts].
  - inerts.
  - constructor; [constructor; [exact Hy2|inerts]|inerts].
Qed.

Lemma bool_front : forall nsx N x x' y z,
  arg_ok x -> alone nsx x x' -> front ns_not (callp n_not [callp n_not [x']]) z ->
  y = z -> incl nsx N -> incl ns_bool N ->
  front N (callp n_bool [x]) y.
Proof.
  intros nsx N x x' y z Hx Ha Hz -> H1 H2.
  eapply (front_call nsx ns_not) with (exps := [x']) (raws := [x]).
  - vm_compute; reflexivity.
  - discriminate.
  - constructor; [exact Hx|constructor].
  - reflexivity.
  - cbn [exps_ok]. split; [exact Ha|exact I].
  - instantiate (1 := callp n_not [callp n_not [x']]).
    change (Some (Id n_not false :: lp :: Id n_not false :: lp :: (x' ++ [rp; rp]))
            = Some (callp n_not [callp n_not [x']])).
    unfold callp. cbn [join app]. rewrite <- app_assoc. reflexivity.
  - exact Hz.
  - names.
  - apply H2. names.
  - exact H1.
  - eapply incl_tran; [|exact H2]. names.
Qed.

Lemma bool_one : forall nsx N x, arg_ok x -> alone nsx x [one] -> incl nsx N -> incl ns_bool N ->
  front N (callp n_bool [x]) [one].
Proof.
  intros nsx N x Hx Ha H1 H2. eapply (bool_front nsx N x [one]); try eassumption; [|reflexivity].
  apply (not_zero ns_not); try apply incl_refl; [reflexivity|].
  apply front_alone, (not_one []); try apply incl_refl; [reflexivity| |intros ? []].
  apply front_alone, front_inert. inerts.
Qed.

Lemma bool_zero : forall nsx N x, arg_ok x -> alone nsx x [zero] -> incl nsx N -> incl ns_bool N ->
  front N (callp n_bool [x]) [zero].
Proof.
  intros nsx N x Hx Ha H1 H2. eapply (bool_front nsx N x [zero]); try eassumption; [|reflexivity].
  apply (not_one ns_not); try apply incl_refl; [reflexivity|].
  apply front_alone, (not_zero []); try apply incl_refl; [reflexivity| |intros ? []].
  apply front_alone, front_inert. inerts.
Qed.

Lemma bool_zero_p : forall nsx N x, arg_ok x -> alone nsx x [zero; lp; rp] -> incl nsx N -> incl ns_bool N ->
  front N (callp n_bool [x]) [zero].
Proof.
  intros nsx N x Hx Ha H1 H2. eapply (bool_front nsx N x [zero; lp; rp]); try eassumption; [|reflexivity].
  apply (not_one_p ns_not); try apply incl_refl; [reflexivity|].
  apply front_alone, (not_zero_p []); try apply incl_refl; [reflexivity| |intros ? []].
  apply front_alone, front_inert. inerts.
Qed.

Lemma bool_id_p : forall nsx N x y, plain y -> arg_ok x -> alone nsx x [Id y false; lp; rp] ->
  incl nsx N -> incl ns_bool N -> front N (callp n_bool [x]) [one].
Proof.
  intros nsx N x y Hy Hx Ha H1 H2. eapply (bool_front nsx N x [Id y false; lp; rp]); try eassumption; [|reflexivity].
  apply (not_zero ns_not); try apply incl_refl; [reflexivity|].
  apply front_alone. eapply (not_id_p [] _ _ y Hy); try apply incl_refl; [reflexivity| |intros ? []].
  apply front_alone, front_inert. destruct Hy as [Hy1 Hy2]. constructor; [exact Hy1|inerts].
Qed.

Definition ids (xs : list bytes) : list (list ptok) := map (fun x => [Id x false]) xs.

Lemma ids_ok : forall xs, Forall arg_ok (ids xs).
Proof. induction xs; cbn; constructor; [reflexivity|assumption]. Qed.

Lemma ids_inert : forall xs, Forall plain xs -> Forall (Forall inert) (ids xs).
Proof.
  induction 1 as [|x xs [H _] _ IH]; cbn; constructor; [|assumption].
  constructor; [exact H|constructor].
Qed.

Lemma ids_ne : forall x xs, ids (x :: xs) <> [].
Proof. discriminate. Qed.

Definition ns_more : list bytes := n_more :: n_endargs :: ns_bool.

Lemma endargs_front : forall x ns, macro_of x = None -> In n_endargs ns ->
  front ns [Id n_endargs false; Id x false] [Id n_endargs false; Id x false].
Proof.
  intros x ns Hx Hi act r out Hv Hr. cbn [map app].
  eapply scan_nocall; [vm_compute; reflexivity|apply (Hv n_endargs Hi)|reflexivity|].
  apply scan_keep; [exact Hx|exact Hr].
Qed.

(** What JS_INTERNAL_SECOND picks in JS_INTERNAL_HAS_MORE_THAN_ONE_ARGS. *)
Definition second_of (xs : list bytes) : ptok := match xs with y :: _ => Id y false | [] => zero end.

Lemma more_second : forall x xs, Forall plain (x :: xs) ->
  front (n_endargs :: ns_second)
    (callp n_second (([Id n_endargs false; Id x false] :: ids xs) ++ [[zero]; [zero]])) [second_of xs].
Proof.
  intros x xs H. inversion H as [|? ? [Hx _] Hxs]; subst.
  assert (G : exists rest, ids xs ++ [[zero]; [zero]] = [second_of xs] :: rest).
  { destruct xs; cbn; eexists; reflexivity. }
  destruct G as [rest G]. cbn [app]. rewrite G.
  assert (Hok : Forall arg_ok ([second_of xs] :: rest)).
  { rewrite <- G. apply Forall_app. split; [apply ids_ok|repeat constructor]. }
  assert (Hin : Forall (Forall inert) ([second_of xs] :: rest)).
  { rewrite <- G. apply Forall_app. split; [apply ids_inert; assumption|inerts]. }
  apply (second_front _ _ _ [n_endargs]).
  - constructor; [reflexivity|exact Hok].
  - apply front_alone. rewrite join_cons by discriminate.
    apply front_app; [apply endargs_front; [exact Hx|left; reflexivity]|].
    apply front_inert. constructor; [exact I|apply inert_join; exact Hin].
  - apply front_inert. inversion Hin; assumption.
  - names.
  - names.
  - names.
  - names.
Qed.

Lemma more_front : forall N x xs, Forall plain (x :: xs) -> incl ns_more N ->
  front N (callp n_more (ids (x :: xs))) [match xs with [] => zero | _ => one end].
Proof.
  intros N x xs H HN.
  set (sc := callp n_second (([Id n_endargs false; Id x false] :: ids xs) ++ [[zero]; [zero]]) ++ [lp; rp]).
  assert (Hsc : alone (n_endargs :: ns_second) sc ([second_of xs] ++ [lp; rp])).
  { apply front_alone, front_app; [apply more_second; exact H|apply front_inert; inerts]. }
  assert (Hok : arg_ok sc).
  { apply app_ok; [|reflexivity]. apply callp_ok. apply Forall_app. split; [|repeat constructor].
    constructor; [reflexivity|apply ids_ok]. }
  eapply (front_call [] (n_endargs :: ns_bool)) with (exps := [join (ids (x :: xs))]) (raws := [join (ids (x :: xs))]).
  - vm_compute; reflexivity.
  - discriminate.
  - apply ids_ok.
  - reflexivity.
  - cbn [exps_ok]. split; [|exact I]. apply front_alone, front_inert, inert_join, ids_inert. exact H.
  - instantiate (1 := callp n_bool [sc]).
    change (Some (Id n_bool false :: lp :: Id n_second false :: lp :: Id n_endargs false ::
                  (join (ids (x :: xs)) ++ [cm; zero; cm; zero; rp; lp; rp; rp])) = Some (callp n_bool [sc])).
    unfold callp, sc. cbn [join]. unfold callp. rewrite join_app by discriminate.
    do 3 f_equal. cbn [app]. do 2 f_equal.
    destruct xs as [|y xs]; [reflexivity|].
    change (ids (x :: y :: xs)) with ([Id x false] :: ids (y :: xs)).
    rewrite !join_cons by discriminate.
    cbn [app]. rewrite <- !app_assoc. reflexivity.
  - inversion H as [|? ? _ Hxs]; subst. destruct xs as [|y xs].
    + apply (bool_zero_p (n_endargs :: ns_second)); try assumption; names.
    + apply (bool_id_p (n_endargs :: ns_second) _ _ y); try assumption; try names.
      inversion Hxs; assumption.
  - names.
  - apply HN. names.
  - intros ? [].
  - eapply incl_tran; [|exact HN]. names.
Qed.

(** ** The conditional *)

Definition parens (args : list (list ptok)) : list ptok := lp :: join args ++ [rp].

Definition ns_if : list bytes := [n_if; n_if'; n_cat; n_if1; n_if0; n_if1e; n_if0e] ++ ns_bool.

Lemma if_head : forall nsc act c b its out,
  (b = [x31] \/ b = [x30]) -> arg_ok c -> alone nsc c [Num b] ->
  avoid nsc (act ++ marks its) -> avoid ns_if (act ++ marks its) ->
  scan act (T (Id (n_if_ ++ b) false) :: map E [n_cat; n_if'; n_if] ++ its) out ->
  scan act (map T (callp n_if [c]) ++ its) out.
Proof.
  intros nsc act c b its out Hb Hc Ha Hv1 Hv2 Hr.
  assert (Hsplit : forall n, In n ns_if -> ~ In n act /\ ~ In n (marks its)).
  { intros n Hin. pose proof (Hv2 n Hin) as H. rewrite in_app_iff in H. tauto. }
  eapply (scan_call act n_if 1 false _ [] [c] its [c] [[Num b]]) with (ts := callp n_if' [callp n_bool [[Num b]]]).
  - vm_compute; reflexivity.
  - apply Hv2. names.
  - discriminate.
  - constructor; [exact Hc|constructor].
  - reflexivity.
  - cbn [exps_ok]. split; [apply Ha; exact Hv1|exact I].
  - reflexivity.
  - assert (Hv3 : avoid ns_bool (act ++ marks (E n_if :: its))).
    { apply avoid_cons; [|names]. eapply avoid_incl; [|exact Hv2]. names. }
    eapply (scan_call act n_if' 1 false _ [] [callp n_bool [[Num b]]] (E n_if :: its) _ [[Num b]])
      with (ts := callp n_cat [[Id n_if_ false]; [Num b]]).
    + vm_compute; reflexivity.
    + cbn [app marks]. rewrite in_app_iff. cbn [In].
      destruct (Hsplit n_if') as [G1 G2]; [names|]. intros [G|[G|G]]; try contradiction.
      vm_compute in G. discriminate.
    + discriminate.
    + constructor; [apply callp_ok; repeat constructor|constructor].
    + reflexivity.
    + cbn [exps_ok]. split; [|exact I].
      destruct Hb as [-> | ->].
      * apply front_alone with (ns := ns_bool); [|exact Hv3].
        apply (bool_one []); [reflexivity| |intros ? []|apply incl_refl].
        apply front_alone, front_inert. inerts.
      * apply front_alone with (ns := ns_bool); [|exact Hv3].
        apply (bool_zero []); [reflexivity| |intros ? []|apply incl_refl].
        apply front_alone, front_inert. inerts.
    + reflexivity.
    + eapply (scan_call act n_cat 2 false _ [] [[Id n_if_ false]; [Num b]] (E n_if' :: E n_if :: its) _ [[]; []])
        with (ts := [Id (n_if_ ++ b) false]).
      * vm_compute; reflexivity.
      * cbn [app marks]. rewrite in_app_iff. cbn [In].
        destruct (Hsplit n_cat) as [G1 G2]; [names|]. intros [G|[G|[G|G]]]; try contradiction;
          vm_compute in G; discriminate.
      * discriminate.
      * repeat constructor.
      * reflexivity.
      * cbn. tauto.
      * reflexivity.
      * exact Hr.
Qed.

Lemma if_one : forall nsc nsA nsB N c argsA A' A'' argsB,
  arg_ok c -> alone nsc c [one] ->
  argsA <> [] -> Forall arg_ok argsA -> alone nsA (join argsA) A' -> front nsB A' A'' -> ~ In n_if1 nsB ->
  argsB <> [] -> Forall arg_ok argsB ->
  incl nsc N -> incl nsA N -> incl nsB N -> incl ns_if N ->
  front N (callp n_if [c] ++ parens argsA ++ parens argsB) A''.
Proof.
  intros nsc nsA nsB N c argsA A' A'' argsB Hc Hc1 HA1 HA2 HA3 HA4 HA5 HB1 HB2 I1 I2 I3 I4 act r out Hv Hr.
  assert (Hsplit : forall n, In n ns_if -> ~ In n act /\ ~ In n (marks r)).
  { intros n Hin. pose proof (Hv n (I4 n Hin)) as H. rewrite in_app_iff in H. tauto. }
  assert (V : forall ns, incl ns N -> avoid ns (act ++ marks r)).
  { intros ns Hi. eapply avoid_incl; eassumption. }
  assert (M : forall ts, marks (map T ts ++ r) = marks r).
  { intro ts. rewrite marks_app, marks_T. reflexivity. }
  rewrite map_app, <- app_assoc.
  apply (if_head nsc act c [x31]); auto.
  { rewrite M. auto. } { rewrite M. auto. }
  rewrite map_app, <- app_assoc.
  eapply (scan_call act n_if1 0 true _ [n_cat; n_if'; n_if] argsA (map T (parens argsB) ++ r) [join argsA] [A'])
    with (ts := A' ++ [Id n_if1e false]).
  - vm_compute; reflexivity.
  - rewrite M. rewrite in_app_iff. destruct (Hsplit n_if1) as [G1 G2]; [names|].
    rewrite in_app_iff. intros [G|[G|G]]; try contradiction. revert G. apply notin_b. reflexivity.
  - exact HA1.
  - exact HA2.
  - reflexivity.
  - cbn [exps_ok]. split; [|exact I]. rewrite M. apply HA3. auto.
  - reflexivity.
  - rewrite map_app, <- app_assoc. apply HA4.
    + cbn [map app marks]. rewrite M. apply avoid_cons; auto.
    + cbn [map app].
      eapply (scan_call act n_if1e 0 true _ [n_if1] argsB r [join argsB] [[]]) with (ts := []).
      * vm_compute; reflexivity.
      * rewrite in_app_iff. destruct (Hsplit n_if1e) as [G1 G2]; [names|].
        rewrite in_app_iff. intros [G|[G|G]]; try contradiction. revert G. apply notin_b. reflexivity.
      * exact HB1.
      * exact HB2.
      * reflexivity.
      * cbn. tauto.
      * reflexivity.
      * apply scan_end. exact Hr.
Qed.

Lemma if_zero : forall nsc nsA nsB N c argsA argsB B' B'',
  arg_ok c -> alone nsc c [zero] ->
  argsA <> [] -> Forall arg_ok argsA ->
  argsB <> [] -> Forall arg_ok argsB -> alone nsA (join argsB) B' -> front nsB B' B'' -> ~ In n_if0e nsB ->
  incl nsc N -> incl nsA N -> incl nsB N -> incl ns_if N ->
  front N (callp n_if [c] ++ parens argsA ++ parens argsB) B''.
Proof.
  intros nsc nsA nsB N c argsA argsB B' B'' Hc Hc1 HA1 HA2 HB1 HB2 HB3 HB4 HB5 I1 I2 I3 I4 act r out Hv Hr.
  assert (Hsplit : forall n, In n ns_if -> ~ In n act /\ ~ In n (marks r)).
  { intros n Hin. pose proof (Hv n (I4 n Hin)) as H. rewrite in_app_iff in H. tauto. }
  assert (V : forall ns, incl ns N -> avoid ns (act ++ marks r)).
  { intros ns Hi. eapply avoid_incl; eassumption. }
  assert (M : forall ts, marks (map T ts ++ r) = marks r).
  { intro ts. rewrite marks_app, marks_T. reflexivity. }
  rewrite map_app, <- app_assoc.
  apply (if_head nsc act c [x30]); auto.
  { rewrite M. auto. } { rewrite M. auto. }
  rewrite map_app, <- app_assoc.
  eapply (scan_call act n_if0 0 true _ [n_cat; n_if'; n_if] argsA (map T (parens argsB) ++ r) [join argsA] [[]])
    with (ts := [Id n_if0e false]).
  - vm_compute; reflexivity.
  - rewrite M. rewrite in_app_iff. destruct (Hsplit n_if0) as [G1 G2]; [names|].
    rewrite in_app_iff. intros [G|[G|G]]; try contradiction. revert G. apply notin_b. reflexivity.
  - exact HA1.
  - exact HA2.
  - reflexivity.
  - cbn. tauto.
  - reflexivity.
  - cbn [map app].
    eapply (scan_call act n_if0e 0 true _ [n_if0] argsB r [join argsB] [B']) with (ts := B').
    + vm_compute; reflexivity.
    + rewrite in_app_iff. destruct (Hsplit n_if0e) as [G1 G2]; [names|].
      rewrite in_app_iff. intros [G|[G|G]]; try contradiction. revert G. apply notin_b. reflexivity.
    + exact HB1.
    + exact HB2.
    + reflexivity.
    + cbn [exps_ok]. split; [apply HB3; auto|exact I].
    + cbn [subst nth]. rewrite app_nil_r. reflexivity.
    + apply HB4; [apply avoid_cons; auto|]. apply scan_end. exact Hr.
Qed.

(** ** Lists of names *)

Definition n_map (k : kind) : bytes :=
  match k with Members => nm "JS_INTERNAL_MAP_MEMBER" | Supers => nm "JS_INTERNAL_MAP_SUPER"
             | Functions => nm "JS_INTERNAL_MAP_FUNCTION" end.
Definition n_map_ (k : kind) : bytes :=
  match k with Members => nm "JS_INTERNAL__MAP_MEMBER" | Supers => nm "JS_INTERNAL__MAP_SUPER"
             | Functions => nm "JS_INTERNAL__MAP_FUNCTION" end.
Definition n_apply (k : kind) : bytes :=
  match k with Members => nm "JS_INTERNAL_MAP_APPLY_MEMBER" | Supers => nm "JS_INTERNAL_MAP_APPLY_SUPER"
             | Functions => nm "JS_INTERNAL_MAP_APPLY_FUNCTION" end.
Definition n_make (k : kind) : bytes :=
  match k with Members => nm "JS_INTERNAL_MAKE_MEMBERS" | Supers => nm "JS_INTERNAL_MAKE_SUPER_CLASSES"
             | Functions => nm "JS_INTERNAL_MAKE_FUNCTIONS" end.
Definition mk (k : kind) : list ptok :=
  [word "JS"; sym "::";
   match k with Members => word "makeMemberInfo" | Supers => word "makeSuperInfo" | Functions => word "makeFunctionInfo" end].

Lemma mk_ok : forall k, arg_ok (mk k).
Proof. destruct k; reflexivity. Qed.
Lemma mk_inert : forall k, Forall inert (mk k).
Proof. destruct k; unfold mk; inerts. Qed.

Lemma info_ok : forall k x, arg_ok (info k x).
Proof. destruct k; reflexivity. Qed.
Lemma info_inert : forall k x, plain x -> Forall inert (info k x).
Proof. intros k x [H _]. destruct k; inerts. Qed.

Lemma args_ok : forall k xs, Forall arg_ok (mk k :: ids xs).
Proof. intros. constructor; [apply mk_ok|apply ids_ok]. Qed.
Lemma args_inert : forall k xs, Forall plain xs -> Forall (Forall inert) (mk k :: ids xs).
Proof. intros. constructor; [apply mk_inert|apply ids_inert; assumption]. Qed.

Lemma apply_front : forall k x N, plain x -> In (n_apply k) N -> front N (callp (n_apply k) [mk k; [Id x false]]) (info k x).
Proof.
  intros k x N Hx HN.
  assert (E0 : exists body, macro_of (n_apply k) = Some (Fun 2 false body) /\
    exps_ok (alone []) 0 body [mk k; [Id x false]] [mk k; [Id x false]] /\
    subst body [mk k; [Id x false]] [mk k; [Id x false]] = Some (info k x)).
  { assert (A1 : alone [] (mk k) (mk k)) by (apply front_alone, front_inert, mk_inert).
    assert (A2 : alone [] [Id x false] [Id x false]).
    { apply front_alone, front_inert. constructor; [apply Hx|constructor]. }
    destruct k; eexists; (split; [vm_compute; reflexivity|]); (split; [cbn; auto|]); cbn; rewrite app_nil_r; reflexivity. }
  destruct E0 as (body & E1 & E2 & E3).
  eapply (front_call [] []) with (exps := [mk k; [Id x false]]) (raws := [mk k; [Id x false]]).
  - exact E1.
  - discriminate.
  - constructor; [apply mk_ok|]. repeat constructor.
  - reflexivity.
  - exact E2.
  - exact E3.
  - apply front_inert, info_inert, Hx.
  - intros [].
  - exact HN.
  - intros ? [].
  - intros ? [].
Qed.

(** The text that is put off. *)
Definition phase (k : kind) (xs : list bytes) : list ptok :=
  Id (n_map_ k) false :: lp :: rp :: parens (mk k :: ids xs).

Definition rest_text (k : kind) (xs : list bytes) : list ptok :=
  match xs with [y] => info k y | _ => phase k xs end.

Definition ns_map (k : kind) : list bytes := n_apply k :: n_map_ k :: n_defer2 :: n_empty :: ns_if ++ ns_more.

Lemma empty_front : forall N, In n_empty N -> front N (callp n_empty [[]]) [].
Proof.
  intros N HN.
  eapply (front_call [] []) with (exps := []) (raws := []).
  - vm_compute; reflexivity.
  - discriminate.
  - repeat constructor.
  - reflexivity.
  - exact I.
  - reflexivity.
  - apply front_inert. constructor.
  - intros [].
  - exact HN.
  - intros ? [].
  - intros ? [].
Qed.

(** A deferred name: the name is passed over because an identifier follows. *)
Lemma skip_front : forall k n np v body N a b, macro_of n = Some (Fun np v body) -> In n N ->
  front N (Id k false :: a) b ->
  front N (Id n false :: Id k false :: a) (Id n false :: b).
Proof.
  intros k n np v body N a b Hm Hi H act r out Hv Hr. cbn [map app].
  eapply scan_nocall; [exact Hm| |reflexivity|].
  - change (T (Id k false) :: map T a ++ r) with (map T (Id k false :: a) ++ r).
    rewrite marks_app, marks_T. apply Hv. exact Hi.
  - apply (H act r out Hv Hr).
Qed.

Lemma map__macro : forall k, exists body, macro_of (n_map_ k) = Some (Fun 0 false body) /\
  subst body [] [] = Some [Id (n_map k) false].
Proof. destruct k; eexists; split; vm_compute; reflexivity. Qed.

Lemma empty_macro : exists body, macro_of n_empty = Some (Fun 0 false body).
Proof. eexists; vm_compute; reflexivity. Qed.

Definition deferred (k : kind) : list ptok := [Id (n_map_ k) false; Id n_empty false; lp; rp].

Lemma defer_front : forall k N, incl [n_defer2; n_map_ k; n_empty] N ->
  front N (callp n_defer2 [[Id (n_map_ k) false]]) (deferred k).
Proof.
  intros k N HN.
  destruct (map__macro k) as (bm & Hm & _). destruct empty_macro as (be & He).
  eapply (front_call [n_map_ k] [n_map_ k; n_empty]) with (exps := [[Id (n_map_ k) false]]) (raws := [[Id (n_map_ k) false]]).
  - vm_compute; reflexivity.
  - discriminate.
  - repeat constructor.
  - reflexivity.
  - cbn [exps_ok used]. split; [|exact I]. intros act Hv. cbn [map].
    eapply scan_nocall; [exact Hm| |exact I|apply scan_nil].
    cbn [marks]. rewrite app_nil_r. apply Hv. left; reflexivity.
  - instantiate (1 := Id (n_map_ k) false :: Id n_empty false :: (callp n_empty [[]] ++ [lp; rp])). reflexivity.
  - unfold deferred. eapply skip_front; [exact Hm|left; reflexivity|].
    eapply skip_front; [exact He|right; left; reflexivity|].
    refine (front_app _ (callp n_empty [[]]) [] [lp; rp] [lp; rp] _ _);
      [apply empty_front; right; left; reflexivity|apply front_inert; inerts].
  - destruct k; names.
  - apply HN. left; reflexivity.
  - intros ? [<-|[]]. apply HN. right; left; reflexivity.
  - intros ? [<-|[<-|[]]]; apply HN; cbn; auto.
Qed.

Lemma resume_front : forall k N a, incl [n_map_ k; n_empty] N -> Forall inert a ->
  front N (deferred k ++ a) (Id (n_map_ k) false :: a).
Proof.
  intros k N a HN Ha.
  destruct (map__macro k) as (bm & Hm & _).
  unfold deferred. cbn [app]. eapply skip_front; [exact Hm|apply HN; cbn; auto|].
  refine (front_app _ (callp n_empty [[]]) [] a a _ _);
    [apply empty_front; apply HN; cbn; auto|apply front_inert; exact Ha].
Qed.

Lemma map_text : forall k x y ys, Forall plain (x :: y :: ys) ->
  exists body ts, macro_of (n_map k) = Some (Fun 2 true body) /\
    (forall i, (i < 3)%nat -> used i body = true) /\
    subst body [mk k; [Id x false]; join (ids (y :: ys))] [mk k; [Id x false]; join (ids (y :: ys))] = Some ts /\
    front (ns_map k) ts (info k x ++ cm :: rest_text k (y :: ys)).
Proof.
  intros k x y ys H. inversion H as [|? ? Hx Hys]; subst.
  set (vas := join (ids (y :: ys))).
  set (argsA := [[]; callp n_defer2 [[Id (n_map_ k) false]] ++ [lp; rp] ++ parens (mk k :: ids (y :: ys))]).
  set (argsB := [[]; callp (n_apply k) (mk k :: ids (y :: ys))]).
  set (ts := callp (n_apply k) [mk k; [Id x false]] ++
             callp n_if [callp n_more (ids (y :: ys))] ++ parens argsA ++ parens argsB).
  assert (HS : exists body, macro_of (n_map k) = Some (Fun 2 true body) /\
    (forall i, (i < 3)%nat -> used i body = true) /\
    subst body [mk k; [Id x false]; vas] [mk k; [Id x false]; vas] = Some ts).
  { destruct k; eexists; (split; [vm_compute; reflexivity|]);
      (split; [intros [|[|[|i]]] Hi; [reflexivity|reflexivity|reflexivity|lia]|]);
      cbn [subst nth]; unfold ts, argsA, argsB, callp, parens;
      cbn [join]; rewrite ?join_cons by discriminate; fold vas; unfold callp, parens; cbn [join];
      rewrite ?join_cons by discriminate; fold vas; cbn [mk app]; rewrite <- ?app_assoc; cbn [app]; reflexivity. }
  destruct HS as (body & HS1 & HS2 & HS3).
  exists body, ts. split; [exact HS1|]. split; [exact HS2|]. split; [exact HS3|].
  assert (HokA : Forall arg_ok argsA).
  { constructor; [reflexivity|]. constructor; [|constructor].
    apply app_ok; [apply callp_ok; repeat constructor|].
    apply app_ok; [reflexivity|]. apply parens_ok, args_ok. }
  assert (HokB : Forall arg_ok argsB).
  { constructor; [reflexivity|]. constructor; [|constructor]. apply callp_ok, args_ok. }
  assert (Hc : arg_ok (callp n_more (ids (y :: ys)))) by (apply callp_ok, ids_ok).
  assert (Hm : alone ns_more (callp n_more (ids (y :: ys))) [match ys with [] => zero | _ => one end]).
  { apply front_alone, more_front; [exact Hys|apply incl_refl]. }
  unfold ts. apply front_app; [apply apply_front; [exact Hx|left; reflexivity]|].
  destruct ys as [|z zs].
  - cbn [rest_text].
    eapply (if_zero ns_more [n_apply k] []) with (B' := cm :: info k y).
    + exact Hc.
    + exact Hm.
    + discriminate.
    + exact HokA.
    + discriminate.
    + exact HokB.
    + apply front_alone. unfold argsB. rewrite join_cons by discriminate.
      change ([] ++ cm :: join [callp (n_apply k) (mk k :: ids [y])]) with ([cm] ++ callp (n_apply k) [mk k; [Id y false]]).
      change (cm :: info k y) with ([cm] ++ info k y).
      apply front_app; [apply front_inert; inerts|].
      apply apply_front; [inversion Hys; assumption|left; reflexivity].
    + apply front_inert. constructor; [exact I|apply info_inert; inversion Hys; assumption].
    + intros [].
    + destruct k; names.
    + destruct k; names.
    + intros ? [].
    + destruct k; names.
  - cbn [rest_text].
    set (tail := parens (mk k :: ids (y :: z :: zs))) in *.
    assert (Htl : Forall inert ([lp; rp] ++ tail)).
    { apply Forall_app. split; [inerts|]. constructor; [exact I|].
      apply Forall_app. split; [apply inert_join, args_inert; exact Hys|inerts]. }
    eapply (if_one ns_more [n_defer2; n_map_ k; n_empty] [n_map_ k; n_empty])
      with (A' := [cm] ++ (deferred k ++ ([lp; rp] ++ tail))).
    + exact Hc.
    + exact Hm.
    + discriminate.
    + exact HokA.
    + apply front_alone. unfold argsA. rewrite join_cons by discriminate.
      change ([] ++ cm :: join [callp n_defer2 [[Id (n_map_ k) false]] ++ [lp; rp] ++ tail])
        with ([cm] ++ (callp n_defer2 [[Id (n_map_ k) false]] ++ ([lp; rp] ++ tail))).
      apply front_app; [apply front_inert; inerts|].
      apply front_app; [apply defer_front, incl_refl|apply front_inert; exact Htl].
    + change (cm :: phase k (y :: z :: zs)) with ([cm] ++ (Id (n_map_ k) false :: ([lp; rp] ++ tail))).
      apply front_app; [apply front_inert; inerts|].
      apply resume_front; [apply incl_refl|exact Htl].
    + destruct k; names.
    + discriminate.
    + exact HokB.
    + destruct k; names.
    + destruct k; names.
    + destruct k; names.
    + destruct k; names.
Qed.

Lemma mk_alone : forall k ns, alone ns (mk k) (mk k).
Proof. intros. apply front_alone, front_inert, mk_inert. Qed.

Lemma exps_three : forall ns body a b c,
  (forall i, (i < 3)%nat -> used i body = true) -> alone ns a a -> alone ns b b -> alone ns c c ->
  exps_ok (alone ns) 0 body [a; b; c] [a; b; c].
Proof.
  intros ns body a b c Hu Ha Hb Hc. cbn [exps_ok].
  rewrite !Hu by lia. auto.
Qed.

Lemma map_scan : forall k x y ys act ms r out,
  Forall plain (x :: y :: ys) -> avoid (n_map k :: ns_map k) (act ++ marks r) -> ~ In (n_map k) ms ->
  scan act r out ->
  scan act (T (Id (n_map k) false) :: map E ms ++ map T (parens (mk k :: ids (x :: y :: ys))) ++ r)
    ((info k x ++ cm :: rest_text k (y :: ys)) ++ out).
Proof.
  intros k x y ys act ms r out H Hv Hms Hr.
  destruct (map_text k x y ys H) as (body & ts & H1 & H2 & H3 & H4).
  pose proof (Hv (n_map k) (or_introl eq_refl)) as Hn. rewrite in_app_iff in Hn.
  inversion H as [|? ? Hx Hys]; subst.
  eapply (scan_callp [] (ns_map k) act (n_map k) 2 true body ms (mk k :: ids (x :: y :: ys)) r
            [mk k; [Id x false]; join (ids (y :: ys))] [mk k; [Id x false]; join (ids (y :: ys))]).
  - exact H1.
  - tauto.
  - exact Hms.
  - tauto.
  - discriminate.
  - apply args_ok.
  - reflexivity.
  - apply exps_three; [exact H2|apply mk_alone| |].
    + apply front_alone, front_inert. constructor; [apply Hx|constructor].
    + apply front_alone, front_inert, inert_join, ids_inert. exact Hys.
  - intros ? [].
  - exact H3.
  - exact H4.
  - eapply avoid_incl; [|exact Hv]. apply incl_tl, incl_refl.
  - destruct k; names.
  - exact Hr.
Qed.

Definition ns_step (k : kind) : list bytes := n_map k :: ns_map k.

Lemma map_front : forall k x y ys, Forall plain (x :: y :: ys) ->
  front (ns_step k) (callp (n_map k) (mk k :: ids (x :: y :: ys))) (info k x ++ cm :: rest_text k (y :: ys)).
Proof.
  intros k x y ys H act r out Hv Hr.
  apply (map_scan k x y ys act [] r out H Hv); [intros []|exact Hr].
Qed.

Lemma phase_front : forall k x y ys, Forall plain (x :: y :: ys) ->
  front (ns_step k) (phase k (x :: y :: ys)) (info k x ++ cm :: rest_text k (y :: ys)).
Proof.
  intros k x y ys H act r out Hv Hr.
  destruct (map__macro k) as (bm & Hm & Hs).
  assert (Hn : ~ In (n_map_ k) (act ++ marks r)).
  { apply Hv. destruct k; names. }
  rewrite in_app_iff in Hn.
  eapply (scan_call act (n_map_ k) 0 false bm [] [[]] (map T (parens (mk k :: ids (x :: y :: ys))) ++ r) [] []).
  - exact Hm.
  - cbn [app]. rewrite marks_app, marks_T, in_app_iff. exact Hn.
  - discriminate.
  - repeat constructor.
  - reflexivity.
  - exact I.
  - exact Hs.
  - apply (map_scan k x y ys act [n_map_ k] r out H Hv); [destruct k; names|exact Hr].
Qed.

(** The parts of the text after [j] names have been dealt with. *)
Fixpoint parts (k : kind) (j : nat) (xs : list bytes) {struct xs} : list (list ptok) :=
  match xs with
  | [] => []
  | [y] => [info k y]
  | x :: ys => match j with O => [phase k xs] | S j' => info k x :: parts k j' ys end
  end.

Lemma parts_ne : forall k j x xs, parts k j (x :: xs) <> [].
Proof. intros k [|j] x [|y ys]; discriminate. Qed.

Lemma phase_ok : forall k xs, arg_ok (phase k xs).
Proof.
  intros k xs. unfold phase.
  change (Id (n_map_ k) false :: lp :: rp :: parens (mk k :: ids xs))
    with ([Id (n_map_ k) false; lp; rp] ++ parens (mk k :: ids xs)).
  apply app_ok; [reflexivity|apply parens_ok, args_ok].
Qed.

Lemma parts_ok : forall k xs j, Forall arg_ok (parts k j xs).
Proof.
  induction xs as [|x [|y ys] IH]; intro j; [constructor|constructor; [apply info_ok|constructor]|].
  destruct j as [|j]; cbn [parts].
  - constructor; [apply phase_ok|constructor].
  - constructor; [apply info_ok|apply IH].
Qed.

Lemma parts_done : forall k xs j, (List.length xs <= S j)%nat -> parts k j xs = map (info k) xs.
Proof.
  induction xs as [|x [|y ys] IH]; intros j Hj; [reflexivity|reflexivity|].
  destruct j as [|j]; cbn [List.length] in Hj; [lia|].
  cbn [parts map]. f_equal. apply IH. cbn [List.length]. lia.
Qed.

Lemma parts_step : forall k xs j, Forall plain xs ->
  front (ns_step k) (join (parts k j xs)) (join (parts k (S j) xs)).
Proof.
  induction xs as [|x [|y ys] IH]; intros j H.
  - apply front_inert. constructor.
  - apply front_inert. apply info_inert. inversion H; assumption.
  - inversion H as [|? ? Hx Hys]; subst.
    destruct j as [|j].
    + change (parts k 1 (x :: y :: ys)) with (info k x :: parts k 0 (y :: ys)).
      rewrite join_cons by apply parts_ne.
      change (join (parts k 0 (x :: y :: ys))) with (phase k (x :: y :: ys)).
      replace (join (parts k 0 (y :: ys))) with (rest_text k (y :: ys)) by (destruct ys; reflexivity).
      apply phase_front. exact H.
    + change (parts k (S (S j)) (x :: y :: ys)) with (info k x :: parts k (S j) (y :: ys)).
      change (parts k (S j) (x :: y :: ys)) with (info k x :: parts k j (y :: ys)).
      rewrite !join_cons by apply parts_ne.
      change (cm :: join (parts k j (y :: ys))) with ([cm] ++ join (parts k j (y :: ys))).
      change (cm :: join (parts k (S j) (y :: ys))) with ([cm] ++ join (parts k (S j) (y :: ys))).
      apply front_app; [apply front_inert, info_inert; exact Hx|].
      apply front_app; [apply front_inert; inerts|apply IH; exact Hys].
Qed.

(** ** Repeated scanning *)

Definition evals : list bytes :=
  [nm "JS_INTERNAL_EVAL1"; nm "JS_INTERNAL_EVAL2"; nm "JS_INTERNAL_EVAL4"; nm "JS_INTERNAL_EVAL8";
   nm "JS_INTERNAL_EVAL16"; nm "JS_INTERNAL_EVAL32"; nm "JS_INTERNAL_EVAL64"; nm "JS_INTERNAL_EVAL128";
   nm "JS_INTERNAL_EVAL256"; nm "JS_INTERNAL_EVAL512"; nm "JS_INTERNAL_EVAL1024"].
Definition ev (i : nat) : bytes := nth i evals [].

Definition ev_text (i : nat) (v : list ptok) : list ptok :=
  match i with O => v | S i' => callp (ev i') [callp (ev i') [v]] end.

Lemma ev_macro : forall i, (i < 11)%nat -> exists body, macro_of (ev i) = Some (Fun 0 true body) /\
  used 0 body = true /\ forall raw v, subst body [raw] [v] = Some (ev_text i v).
Proof.
  intros i Hi. do 11 (destruct i as [|i];
    [eexists; split; [vm_compute; reflexivity|split; [reflexivity|]];
     intros raw v; cbn; rewrite ?app_nil_r; unfold callp; cbn [join app]; rewrite <- ?app_assoc; reflexivity|]).
  lia.
Qed.

Definition ns_ev (k : kind) (i : nat) : list bytes := firstn i evals ++ ns_step k.

Lemma ns_ev_in : forall k i, (i < 11)%nat ->
  ~ In (ev i) (ns_ev k i) /\ In (ev i) (ns_ev k (S i)) /\ incl (ns_ev k i) (ns_ev k (S i)).
Proof.
  intros k i Hi. do 11 (destruct i as [|i]; [destruct k; (split; [names|split; names])|]). lia.
Qed.

Lemma ns_step_ev : forall k i, incl (ns_step k) (ns_ev k i).
Proof. intros k i n Hn. apply in_or_app. right. exact Hn. Qed.

(** How many times the replacement list of an EVAL macro scans its argument again. *)
Fixpoint rounds (i : nat) : nat := match i with O => 1%nat | S i' => (rounds i' + S (rounds i'))%nat end.

Lemma ev_front : forall k xs, Forall plain xs -> xs <> [] -> forall i, (i < 11)%nat -> forall args j,
  args <> [] -> Forall arg_ok args -> alone (ns_ev k (S i)) (join args) (join (parts k j xs)) ->
  front (ns_ev k (S i)) (callp (ev i) args) (join (parts k (j + rounds i) xs)).
Proof.
  intros k xs Hxs Hne. induction i as [|i IH]; intros Hi args j Ha Hok Hj.
  - destruct (ev_macro 0 Hi) as (body & B1 & B2 & B3).
    destruct (ns_ev_in k 0 Hi) as (N1 & N2 & N3).
    eapply (front_call (ns_ev k 1) (ns_ev k 0)) with (raws := [join args]) (exps := [join (parts k j xs)]);
      try eassumption; try reflexivity; try apply incl_refl; try apply B3.
    + cbn [exps_ok]. rewrite B2. split; [exact Hj|exact I].
    + cbn [ev_text rounds]. rewrite Nat.add_1_r. apply parts_step. exact Hxs.
  - destruct (ev_macro (S i) Hi) as (body & B1 & B2 & B3).
    destruct (ns_ev_in k (S i) Hi) as (N1 & N2 & N3).
    eapply (front_call (ns_ev k (S (S i))) (ns_ev k (S i))) with (raws := [join args]) (exps := [join (parts k j xs)]);
      try eassumption; try reflexivity; try apply incl_refl; try apply B3.
    + cbn [exps_ok]. rewrite B2. split; [exact Hj|exact I].
    + cbn [ev_text rounds].
      assert (Q : callp (ev i) [join (parts k j xs)] = callp (ev i) (parts k j xs)) by reflexivity.
      rewrite Q.
      replace (j + (rounds i + S (rounds i)))%nat with ((S j + rounds i) + rounds i)%nat by lia.
      destruct xs as [|x xs]; [congruence|].
      apply IH; [lia|discriminate| |].
      * constructor; [apply callp_ok, parts_ok|constructor].
      * cbn [join]. apply front_alone. apply IH; [lia|apply parts_ne|apply parts_ok|].
        apply front_alone. eapply front_incl; [apply ns_step_ev|]. apply parts_step. exact Hxs.
Qed.

Definition ns_eval (k : kind) : list bytes := n_eval :: ns_ev k 11.

Lemma eval_front : forall k x y ys, Forall plain (x :: y :: ys) ->
  front (ns_eval k) (callp n_eval [callp (n_map k) (mk k :: ids (x :: y :: ys))])
    (join (parts k 2049 (x :: y :: ys))).
Proof.
  intros k x y ys H. set (xs := x :: y :: ys) in *.
  assert (P1 : join (parts k 1 xs) = info k x ++ cm :: rest_text k (y :: ys)).
  { change (parts k 1 xs) with (info k x :: parts k 0 (y :: ys)).
    rewrite join_cons by apply parts_ne. destruct ys; reflexivity. }
  eapply (front_call (ns_step k) (ns_ev k 11)) with (exps := [join (parts k 1 xs)])
    (raws := [callp (n_map k) (mk k :: ids xs)]).
  - vm_compute; reflexivity.
  - discriminate.
  - constructor; [apply callp_ok, args_ok|constructor].
  - reflexivity.
  - cbn [exps_ok]. split; [|exact I]. rewrite P1. apply front_alone, map_front. exact H.
  - instantiate (1 := callp (ev 10) (parts k 1 xs)). reflexivity.
  - change 2049%nat with (2 + rounds 10)%nat.
    apply (ev_front k xs H); [discriminate|lia|apply parts_ne|apply parts_ok|].
    apply front_alone. eapply front_incl; [apply ns_step_ev|]. apply parts_step. exact H.
  - destruct k; names.
  - left; reflexivity.
  - apply incl_tl, ns_step_ev.
  - apply incl_tl, incl_refl.
Qed.

(** ** Whole lists *)

Definition ns_make (k : kind) : list bytes := n_make k :: ns_eval k.

Lemma infos_inert : forall k xs, Forall plain xs -> Forall inert (join (map (info k) xs)).
Proof.
  intros k xs H. apply inert_join. induction H; cbn; constructor; [apply info_inert; assumption|assumption].
Qed.

Lemma make_front : forall k x xs, Forall plain (x :: xs) -> (List.length xs <= 2049)%nat ->
  front (ns_make k) (callp (n_make k) (ids (x :: xs))) (join (map (info k) (x :: xs))).
Proof.
  intros k x xs H Hl.
  set (vas := join (ids (x :: xs))).
  set (argsA := [callp n_expand [callp n_eval [callp (n_map k) (mk k :: ids (x :: xs))]]]).
  set (argsB := [callp (n_apply k) (mk k :: ids (x :: xs))]).
  set (ts := callp n_if [callp n_more (ids (x :: xs))] ++ parens argsA ++ parens argsB).
  assert (HS : exists body, macro_of (n_make k) = Some (Fun 0 true body) /\
    used 0 body = true /\ subst body [vas] [vas] = Some ts).
  { destruct k; eexists; (split; [vm_compute; reflexivity|]); (split; [reflexivity|]);
      cbn [subst nth]; unfold ts, argsA, argsB, callp, parens;
      cbn [join]; rewrite ?join_cons by discriminate; fold vas; unfold callp, parens; cbn [join];
      rewrite ?join_cons by discriminate; fold vas; cbn [mk app]; rewrite <- ?app_assoc; cbn [app]; reflexivity. }
  destruct HS as (body & HS1 & HS2 & HS3).
  eapply (front_call [] (ns_eval k)) with (raws := [vas]) (exps := [vas]).
  - exact HS1.
  - discriminate.
  - apply ids_ok.
  - reflexivity.
  - cbn [exps_ok]. rewrite HS2. split; [|exact I]. apply front_alone, front_inert, inert_join, ids_inert. exact H.
  - exact HS3.
  - assert (Hc : arg_ok (callp n_more (ids (x :: xs)))) by (apply callp_ok, ids_ok).
    assert (Hm : alone ns_more (callp n_more (ids (x :: xs))) [match xs with [] => zero | _ => one end]).
    { apply front_alone, more_front; [exact H|apply incl_refl]. }
    assert (HokA : Forall arg_ok argsA).
    { constructor; [|constructor]. apply callp_ok. constructor; [|constructor].
      apply callp_ok. constructor; [|constructor]. apply callp_ok, args_ok. }
    assert (HokB : Forall arg_ok argsB).
    { constructor; [|constructor]. apply callp_ok, args_ok. }
    unfold ts. destruct xs as [|y ys].
    + eapply (if_zero ns_more [n_apply k] []) with (B' := info k x).
      * exact Hc.
      * exact Hm.
      * discriminate.
      * exact HokA.
      * discriminate.
      * exact HokB.
      * apply front_alone. cbn [argsB join]. apply apply_front; [inversion H; assumption|left; reflexivity].
      * apply front_inert. apply info_inert. inversion H; assumption.
      * intros [].
      * destruct k; names.
      * destruct k; names.
      * intros ? [].
      * destruct k; names.
    + assert (Done : join (parts k 2049 (x :: y :: ys)) = join (map (info k) (x :: y :: ys))).
      { rewrite parts_done; [reflexivity|]. cbn [List.length] in *. lia. }
      eapply (if_one ns_more (n_expand :: ns_eval k) []) with (A' := join (map (info k) (x :: y :: ys))).
      * exact Hc.
      * exact Hm.
      * discriminate.
      * exact HokA.
      * apply front_alone. cbn [argsA join].
        eapply (front_call (ns_eval k) []) with (exps := [join (map (info k) (x :: y :: ys))])
          (raws := [callp n_eval [callp (n_map k) (mk k :: ids (x :: y :: ys))]]).
        -- vm_compute; reflexivity.
        -- discriminate.
        -- constructor; [|constructor]. apply callp_ok. constructor; [|constructor]. apply callp_ok, args_ok.
        -- reflexivity.
        -- cbn [exps_ok]. split; [|exact I]. rewrite <- Done. apply front_alone, eval_front. exact H.
        -- cbn [subst nth]. rewrite app_nil_r. reflexivity.
        -- apply front_inert, infos_inert. exact H.
        -- intros [].
        -- left; reflexivity.
        -- apply incl_tl, incl_refl.
        -- intros ? [].
      * apply front_inert, infos_inert. exact H.
      * intros [].
      * discriminate.
      * exact HokB.
      * destruct k; names.
      * destruct k; names.
      * intros ? [].
      * destruct k; names.
  - destruct k; names.
  - left; reflexivity.
  - intros ? [].
  - apply incl_tl, incl_refl.
Qed.

(** ** The macros that are written in a class *)

Lemma commas_join : forall l, commas l = join l.
Proof.
  induction l as [|a l IH]; [reflexivity|]. destruct l as [|b l]; [reflexivity|].
  change (commas (a :: b :: l)) with (a ++ cm :: commas (b :: l)). rewrite IH. reflexivity.
Qed.

Lemma call_callp : forall n args, call n args = callp n args.
Proof. intros. unfold call, callp. rewrite commas_join. reflexivity. Qed.

Lemma find_macro_none : forall n l, existsb (fun m => bytes_eqb n (fst m)) l = false -> find_macro n l = None.
Proof.
  induction l as [|[m d] l IH]; cbn; [reflexivity|]. intro H. apply orb_false_iff in H as [H1 H2].
  rewrite H1. auto.
Qed.

Lemma find_macro_in : forall n l d, find_macro n l = Some d -> In n (map fst l).
Proof.
  induction l as [|[m e] l IH]; cbn; intros d H; [discriminate|].
  destruct (bytes_eqb n m) eqn:Hb; [left; symmetry; apply bytes_eqb_iff; exact Hb|right; eauto].
Qed.

Fixpoint starts (p n : bytes) : bool :=
  match p, n with
  | [], _ => true
  | a :: p', b :: n' => Byte.eqb a b && starts p' n'
  | _, _ => false
  end.

Lemma starts_app : forall p n, starts p (p ++ n) = true.
Proof. induction p; cbn; intros; [reflexivity|]. rewrite IHp, Byte.byte_dec_lb; reflexivity. Qed.

Local Transparent macro_of.
Lemma usable_plain : forall x, usable x -> plain x.
Proof.
  intros x [Hi Hm]. split; [exact (find_macro_none x table Hm)|].
  destruct (macro_of (n_not_ ++ x)) eqn:H; [|reflexivity]. exfalso.
  apply find_macro_in in H.
  assert (A : forallb (fun n => negb (starts n_not_ n) || bytes_eqb n n_not0) (map fst table) = true)
    by (vm_compute; reflexivity).
  rewrite forallb_forall in A. specialize (A _ H). rewrite starts_app in A. cbn [negb orb] in A.
  apply bytes_eqb_iff in A. change n_not0 with (n_not_ ++ [x30]) in A.
  apply app_inv_head in A. subst x. discriminate.
Qed.

Local Opaque macro_of.

Lemma usable_all : forall xs, Forall usable xs -> Forall plain xs.
Proof. induction 1; constructor; auto using usable_plain. Qed.

Lemma alone_expands : forall ns a b, alone ns a b -> expands a b.
Proof. intros ns a b H. apply (H []). intros n _ []. Qed.

Lemma front_expands : forall ns a b, front ns a b -> expands a b.
Proof. intros ns a b H. eapply alone_expands, front_alone, H. Qed.

Definition n_impl := nm "JS_OBJECT_INTERNAL_IMPL".
Definition n_ext := nm "JS_OBJECT_EXTERNAL_INTERNAL_IMPL".
Definition n_fimpl := nm "JS_FUNCTION_CONTAINER_INTERNAL_IMPL".

Ltac inert_text :=
  repeat lazymatch goal with |- Forall _ (_ ++ _) => apply Forall_app; split end; try assumption; inerts.

Lemma impl_front : forall nsa N a b a' b', arg_ok a -> arg_ok b -> alone nsa a a' -> alone nsa b b' ->
  Forall inert a' -> Forall inert b' -> In n_impl N -> incl nsa N ->
  front N (callp n_impl [a; b]) (struct_base a' b').
Proof.
  intros nsa N a b a' b' Ha Hb Haa Hbb Hia Hib HN Hi.
  eapply (front_call nsa []) with (raws := [a; b]) (exps := [a'; b']).
  - vm_compute; reflexivity.
  - discriminate.
  - repeat (constructor; try assumption).
  - reflexivity.
  - cbn [exps_ok]. split; [exact Haa|]. split; [exact Hbb|exact I].
  - instantiate (1 := struct_base a' b'). reflexivity.
  - apply front_inert. unfold struct_base. inert_text.
  - intros [].
  - exact HN.
  - exact Hi.
  - intros ? [].
Qed.

Lemma ext_front : forall nsa N t a b t' a' b', arg_ok t -> arg_ok a -> arg_ok b ->
  alone nsa t t' -> alone nsa a a' -> alone nsa b b' ->
  Forall inert t' -> Forall inert a' -> Forall inert b' -> In n_ext N -> incl nsa N ->
  front N (callp n_ext [t; a; b]) (struct_dummy t' a' b').
Proof.
  intros nsa N t a b t' a' b' Ht Ha Hb Htt Haa Hbb Hit Hia Hib HN Hi.
  eapply (front_call nsa []) with (raws := [t; a; b]) (exps := [t'; a'; b']).
  - vm_compute; reflexivity.
  - discriminate.
  - repeat (constructor; try assumption).
  - reflexivity.
  - cbn [exps_ok]. split; [exact Htt|]. split; [exact Haa|]. split; [exact Hbb|exact I].
  - instantiate (1 := struct_dummy t' a' b'). reflexivity.
  - apply front_inert. unfold struct_dummy. inert_text.
  - intros [].
  - exact HN.
  - exact Hi.
  - intros ? [].
Qed.

Lemma fimpl_front : forall nsa N a b a' b', arg_ok a -> arg_ok b -> alone nsa a a' -> alone nsa b b' ->
  Forall inert a' -> Forall inert b' -> In n_fimpl N -> incl nsa N ->
  front N (callp n_fimpl [a; b]) (struct_functions a' b').
Proof.
  intros nsa N a b a' b' Ha Hb Haa Hbb Hia Hib HN Hi.
  eapply (front_call nsa []) with (raws := [a; b]) (exps := [a'; b']).
  - vm_compute; reflexivity.
  - discriminate.
  - repeat (constructor; try assumption).
  - reflexivity.
  - cbn [exps_ok]. split; [exact Haa|]. split; [exact Hbb|exact I].
  - instantiate (1 := struct_functions a' b'). reflexivity.
  - apply front_inert. unfold struct_functions. inert_text.
  - intros [].
  - exact HN.
  - exact Hi.
  - intros ? [].
Qed.

(** JS::makeTuple(text) *)
Definition tuple_of (a : list ptok) : list ptok :=
  [word "JS"; sym "::"; word "makeTuple"; lp] ++ a ++ [rp].

Lemma tuple_tuple : forall l, tuple l = tuple_of (join l).
Proof. intro l. unfold tuple. rewrite call_callp. reflexivity. Qed.

Lemma tuple_front : forall ns a b, front ns a b -> front ns (tuple_of a) (tuple_of b).
Proof.
  intros ns a b H. unfold tuple_of. apply front_app; [apply front_inert; inerts|].
  apply front_app; [exact H|apply front_inert; inerts].
Qed.

Lemma tuple_ok : forall args, Forall arg_ok args -> arg_ok (tuple_of (join args)).
Proof.
  intros args H.
  change (tuple_of (join args)) with ([word "JS"; sym "::"; word "makeTuple"] ++ (lp :: join args ++ [rp])).
  apply app_ok; [reflexivity|apply parens_ok; exact H].
Qed.

Lemma tuple_inert : forall a, Forall inert a -> Forall inert (tuple_of a).
Proof. intros a H. unfold tuple_of. inert_text. Qed.

Lemma tuple_empty_alone : forall ns, alone ns (tuple_of []) (tuple_of []).
Proof. intro ns. apply front_alone, front_inert, tuple_inert. constructor. Qed.

Lemma make_tuple : forall k x xs, Forall plain (x :: xs) -> (List.length xs <= 2049)%nat ->
  arg_ok (tuple_of (callp (n_make k) (ids (x :: xs)))) /\
  front (ns_make k) (tuple_of (callp (n_make k) (ids (x :: xs)))) (tuple_of (join (map (info k) (x :: xs)))) /\
  Forall inert (tuple_of (join (map (info k) (x :: xs)))).
Proof.
  intros k x xs H Hl. split; [|split].
  - apply (tuple_ok [callp (n_make k) (ids (x :: xs))]). constructor; [|constructor]. apply callp_ok, ids_ok.
  - apply tuple_front, make_front; assumption.
  - apply tuple_inert, infos_inert. exact H.
Qed.

Lemma ids_alone : forall ns xs, Forall plain xs -> alone ns (join (ids xs)) (join (ids xs)).
Proof. intros. apply front_alone, front_inert, inert_join, ids_inert. assumption. Qed.

Ltac regroup := unfold tuple_of, callp; cbn [join app]; repeat (progress rewrite <- ?app_assoc; cbn [app]); reflexivity.

(** JS_SUPER(s1, ...) *)
Definition n_super := nm "JS_SUPER".
Definition ns_super : list bytes := n_super :: n_expand :: ns_make Supers.

Lemma super_front : forall s ss, Forall plain (s :: ss) -> (List.length ss <= 2049)%nat ->
  front ns_super (callp n_super (ids (s :: ss))) (tuple_of (join (map (info Supers) (s :: ss)))).
Proof.
  intros s ss H Hl.
  eapply (front_call [] (n_expand :: ns_make Supers)) with (raws := [join (ids (s :: ss))]) (exps := [join (ids (s :: ss))]).
  - vm_compute; reflexivity.
  - discriminate.
  - apply ids_ok.
  - reflexivity.
  - cbn [exps_ok]. split; [apply ids_alone; exact H|exact I].
  - instantiate (1 := tuple_of (callp n_expand [callp (n_make Supers) (ids (s :: ss))])).
    cbn [subst nth]. regroup.
  - apply tuple_front.
    eapply (front_call (ns_make Supers) []) with (raws := [callp (n_make Supers) (ids (s :: ss))])
      (exps := [join (map (info Supers) (s :: ss))]).
    + vm_compute; reflexivity.
    + discriminate.
    + constructor; [|constructor]. apply callp_ok, ids_ok.
    + reflexivity.
    + cbn [exps_ok]. split; [|exact I]. apply front_alone, make_front; assumption.
    + cbn [subst nth]. rewrite app_nil_r. reflexivity.
    + apply front_inert, infos_inert. exact H.
    + intros [].
    + left; reflexivity.
    + apply incl_tl, incl_refl.
    + intros ? [].
  - names.
  - left; reflexivity.
  - intros ? [].
  - apply incl_tl, incl_refl.
Qed.

Lemma obj_expands : forall x xs, Forall plain (x :: xs) -> (List.length xs <= 2049)%nat ->
  expands (callp (nm "JS_OBJ") (ids (x :: xs)))
    (struct_base (tuple_of []) (tuple_of (join (map (info Members) (x :: xs))))).
Proof.
  intros x xs H Hl. destruct (make_tuple Members x xs H Hl) as (T1 & T2 & T3).
  apply (front_expands (nm "JS_OBJ" :: n_impl :: ns_make Members)).
  eapply (front_call [] (n_impl :: ns_make Members)) with (raws := [join (ids (x :: xs))]) (exps := [join (ids (x :: xs))]).
  - vm_compute; reflexivity.
  - discriminate.
  - apply ids_ok.
  - reflexivity.
  - cbn [exps_ok]. split; [apply ids_alone; exact H|exact I].
  - instantiate (1 := callp n_impl [tuple_of []; tuple_of (callp (n_make Members) (ids (x :: xs)))]).
    cbn [subst nth]. regroup.
  - apply (impl_front (ns_make Members)); try assumption.
    + reflexivity.
    + apply tuple_empty_alone.
    + apply front_alone, T2.
    + apply tuple_inert. constructor.
    + left; reflexivity.
    + apply incl_tl, incl_refl.
  - names.
  - left; reflexivity.
  - intros ? [].
  - apply incl_tl, incl_refl.
Qed.

Lemma func_obj_expands : forall x xs, Forall plain (x :: xs) -> (List.length xs <= 2049)%nat ->
  expands (callp (nm "JS_FUNC_OBJ") (ids (x :: xs)))
    (struct_functions (tuple_of []) (tuple_of (join (map (info Functions) (x :: xs))))).
Proof.
  intros x xs H Hl. destruct (make_tuple Functions x xs H Hl) as (T1 & T2 & T3).
  apply (front_expands (nm "JS_FUNC_OBJ" :: n_fimpl :: ns_make Functions)).
  eapply (front_call [] (n_fimpl :: ns_make Functions)) with (raws := [join (ids (x :: xs))]) (exps := [join (ids (x :: xs))]).
  - vm_compute; reflexivity.
  - discriminate.
  - apply ids_ok.
  - reflexivity.
  - cbn [exps_ok]. split; [apply ids_alone; exact H|exact I].
  - instantiate (1 := callp n_fimpl [tuple_of []; tuple_of (callp (n_make Functions) (ids (x :: xs)))]).
    cbn [subst nth]. regroup.
  - apply (fimpl_front (ns_make Functions)); try assumption.
    + reflexivity.
    + apply tuple_empty_alone.
    + apply front_alone, T2.
    + apply tuple_inert. constructor.
    + left; reflexivity.
    + apply incl_tl, incl_refl.
  - names.
  - left; reflexivity.
  - intros ? [].
  - apply incl_tl, incl_refl.
Qed.

(** The first argument is expanded before it is handed on, so it is scanned twice. *)
Lemma obj_super_expands : forall s ss x xs,
  Forall plain (s :: ss) -> (List.length ss <= 2049)%nat ->
  Forall plain (x :: xs) -> (List.length xs <= 2049)%nat ->
  expands (callp (nm "JS_OBJ_SUPER") (callp n_super (ids (s :: ss)) :: ids (x :: xs)))
    (struct_base (tuple_of (join (map (info Supers) (s :: ss)))) (tuple_of (join (map (info Members) (x :: xs))))).
Proof.
  intros s ss x xs Hs Hsl H Hl. destruct (make_tuple Members x xs H Hl) as (T1 & T2 & T3).
  set (sup := tuple_of (join (map (info Supers) (s :: ss)))).
  assert (Si : Forall inert sup) by (apply tuple_inert, infos_inert; exact Hs).
  assert (So : arg_ok sup).
  { apply tuple_ok. clear. induction (s :: ss); constructor; [reflexivity|assumption]. }
  apply (front_expands (nm "JS_OBJ_SUPER" :: ns_super ++ n_impl :: ns_make Members)).
  eapply (front_call ns_super (n_impl :: ns_make Members))
    with (raws := [callp n_super (ids (s :: ss)); join (ids (x :: xs))]) (exps := [sup; join (ids (x :: xs))]).
  - vm_compute; reflexivity.
  - discriminate.
  - constructor; [apply callp_ok|]; apply ids_ok.
  - reflexivity.
  - cbn [exps_ok]. split; [apply front_alone, super_front; assumption|]. split; [apply ids_alone; exact H|exact I].
  - instantiate (1 := callp n_impl [sup; tuple_of (callp (n_make Members) (ids (x :: xs)))]).
    cbn [subst nth]. regroup.
  - apply (impl_front (ns_make Members)); try assumption.
    + apply front_alone, front_inert. exact Si.
    + apply front_alone, T2.
    + left; reflexivity.
    + apply incl_tl, incl_refl.
  - names.
  - left; reflexivity.
  - apply incl_tl, incl_appl, incl_refl.
  - apply incl_tl, incl_appr, incl_refl.
Qed.

Lemma obj_ext_expands : forall t x xs, plain t -> Forall plain (x :: xs) -> (List.length xs <= 2049)%nat ->
  expands (callp (nm "JS_OBJ_EXT") ([Id t false] :: ids (x :: xs)))
    (struct_dummy [Id t false] (tuple_of []) (tuple_of (join (map (info Members) (x :: xs))))).
Proof.
  intros t x xs Ht H Hl. destruct (make_tuple Members x xs H Hl) as (T1 & T2 & T3).
  assert (Ti : Forall inert [Id t false]) by (constructor; [apply Ht|constructor]).
  apply (front_expands (nm "JS_OBJ_EXT" :: n_ext :: ns_make Members)).
  eapply (front_call [] (n_ext :: ns_make Members)) with (raws := [[Id t false]; join (ids (x :: xs))])
    (exps := [[Id t false]; join (ids (x :: xs))]).
  - vm_compute; reflexivity.
  - discriminate.
  - constructor; [reflexivity|apply ids_ok].
  - reflexivity.
  - cbn [exps_ok]. split; [apply front_alone, front_inert; exact Ti|]. split; [apply ids_alone; exact H|exact I].
  - instantiate (1 := callp n_ext [[Id t false]; tuple_of []; tuple_of (callp (n_make Members) (ids (x :: xs)))]).
    cbn [subst nth]. regroup.
  - apply (ext_front (ns_make Members)); try assumption.
    + reflexivity.
    + reflexivity.
    + apply front_alone, front_inert. exact Ti.
    + apply tuple_empty_alone.
    + apply front_alone, T2.
    + apply tuple_inert. constructor.
    + left; reflexivity.
    + apply incl_tl, incl_refl.
  - names.
  - left; reflexivity.
  - intros ? [].
  - apply incl_tl, incl_refl.
Qed.

(** ** Members described one by one *)

Definition strs (l : list bytes) : list (list ptok) := map (fun s => [Str s]) l.

Lemma strs_ok : forall l, Forall arg_ok (strs l).
Proof. induction l; cbn; constructor; [reflexivity|assumption]. Qed.
Lemma strs_inert : forall l, Forall inert (join (strs l)).
Proof. intro l. apply inert_join. induction l; cbn; constructor; [repeat constructor|assumption]. Qed.
Lemma strs_alone : forall ns l, alone ns (join (strs l)) (join (strs l)).
Proof. intros. apply front_alone, front_inert, strs_inert. Qed.

Definition ns_member : list bytes :=
  [nm "JS_MEMBER"; nm "JS_MEMBER_ALIASES"; nm "JS_MEMBER_WITH_NAME"; nm "JS_MEMBER_WITH_NAME_AND_ALIASES"; n_expand].

Definition target (n x : bytes) (aliases : list bytes) : list ptok :=
  [word "JS"; sym "::"; word "makeMemberInfo"; lp; Str n; cm; sym "&"; word "JS_OBJECT_T"; sym "::"; name x] ++
  match aliases with [] => [rp] | _ => cm :: join (strs aliases) ++ [rp] end.

Lemma target_eq : forall m, member_target m =
  match member_names m with [] => [] | n :: al => target n (member_var m) al end.
Proof.
  intro m. unfold member_target. destruct (member_names m) as [|n al]; [reflexivity|].
  rewrite call_callp. unfold callp, target. fold (strs al).
  destruct al as [|a al]; [reflexivity|].
  rewrite (join_cons [Str n]) by discriminate. rewrite (join_cons [sym "&"; _; _; _]) by discriminate. reflexivity.
Qed.

Lemma target_inert : forall n x al, plain x -> Forall inert (target n x al).
Proof.
  intros n x al [Hx _]. unfold target. apply Forall_app. split; [inerts|].
  destruct al as [|a al]; [inerts|]. constructor; [exact I|].
  apply Forall_app. split; [apply strs_inert|inerts].
Qed.

Lemma target_ok : forall n x al, arg_ok (target n x al).
Proof.
  intros n x al.
  assert (E0 : target n x al = [word "JS"; sym "::"; word "makeMemberInfo"] ++
    parens ([Str n] :: [sym "&"; word "JS_OBJECT_T"; sym "::"; name x] :: strs al)).
  { unfold target, parens. destruct al as [|a al]; [reflexivity|].
    rewrite (join_cons [Str n]) by discriminate. rewrite (join_cons [sym "&"; _; _; _]) by discriminate. reflexivity. }
  rewrite E0. apply app_ok; [reflexivity|]. apply parens_ok.
  constructor; [reflexivity|]. constructor; [reflexivity|apply strs_ok].
Qed.

Lemma source_ok : forall m, arg_ok (member_source m).
Proof.
  destruct m; cbn [member_source]; rewrite call_callp; apply callp_ok;
    repeat first [apply Forall_nil | apply Forall_cons; [reflexivity|] | apply strs_ok].
Qed.

Lemma member_front : forall m, plain (member_var m) -> front ns_member (member_source m) (member_target m).
Proof.
  intros m Hx. rewrite target_eq.
  assert (Ax : forall ns, plain (member_var m) -> alone ns [name (member_var m)] [name (member_var m)]).
  { intros ns [H _]. apply front_alone, front_inert. constructor; [exact H|constructor]. }
  assert (As : forall ns n, alone ns [Str n] [Str n]).
  { intros ns n. apply front_alone, front_inert. repeat constructor. }
  destruct m as [x|x a more|x n|x n a more]; cbn [member_var member_names member_source] in *; rewrite call_callp.
  - eapply (front_call [] []) with (raws := [[name x]]) (exps := [[name x]]).
    + vm_compute; reflexivity.
    + discriminate.
    + repeat constructor.
    + reflexivity.
    + cbn [exps_ok]. split; [apply Ax; exact Hx|exact I].
    + instantiate (1 := target x x []). unfold target. cbn. rewrite app_nil_r. reflexivity.
    + apply front_inert, target_inert. exact Hx.
    + intros [].
    + names.
    + intros ? [].
    + intros ? [].
  - eapply (front_call [] [n_expand]) with (raws := [[name x]; join (strs (a :: more))]) (exps := [[name x]; join (strs (a :: more))]).
    + vm_compute; reflexivity.
    + discriminate.
    + constructor; [reflexivity|apply strs_ok].
    + reflexivity.
    + cbn [exps_ok]. split; [apply Ax; exact Hx|]. split; [apply strs_alone|exact I].
    + instantiate (1 := callp n_expand [target x x (a :: more)]).
      cbn [subst nth map spell List.concat]. rewrite app_nil_r.
      unfold target. unfold callp. cbn [join app]. repeat (progress rewrite <- ?app_assoc; cbn [app]). reflexivity.
    + eapply (front_call [] []) with (raws := [target x x (a :: more)]) (exps := [target x x (a :: more)]).
      * vm_compute; reflexivity.
      * discriminate.
      * constructor; [apply target_ok|constructor].
      * reflexivity.
      * cbn [exps_ok]. split; [|exact I]. apply front_alone, front_inert, target_inert. exact Hx.
      * cbn [subst nth]. rewrite app_nil_r. reflexivity.
      * apply front_inert, target_inert. exact Hx.
      * intros [].
      * left; reflexivity.
      * intros ? [].
      * intros ? [].
    + names.
    + names.
    + intros ? [].
    + names.
  - eapply (front_call [] []) with (raws := [[name x]; [Str n]]) (exps := [[name x]; [Str n]]).
    + vm_compute; reflexivity.
    + discriminate.
    + repeat constructor.
    + reflexivity.
    + cbn [exps_ok]. split; [apply Ax; exact Hx|]. split; [apply As|exact I].
    + instantiate (1 := target n x []). reflexivity.
    + apply front_inert, target_inert. exact Hx.
    + intros [].
    + names.
    + intros ? [].
    + intros ? [].
  - eapply (front_call [] []) with (raws := [[name x]; [Str n]; join (strs (a :: more))])
      (exps := [[name x]; [Str n]; join (strs (a :: more))]).
    + vm_compute; reflexivity.
    + discriminate.
    + constructor; [reflexivity|]. constructor; [reflexivity|apply strs_ok].
    + reflexivity.
    + cbn [exps_ok]. split; [apply Ax; exact Hx|]. split; [apply As|]. split; [apply strs_alone|exact I].
    + instantiate (1 := target n x (a :: more)). unfold target. cbn [subst nth app]. reflexivity.
    + apply front_inert, target_inert. exact Hx.
    + intros [].
    + names.
    + intros ? [].
    + intros ? [].
Qed.

Lemma joined_front : forall ns (f g : member -> list ptok) l,
  (forall m, In m l -> front ns (f m) (g m)) -> front ns (join (map f l)) (join (map g l)).
Proof.
  induction l as [|m l IH]; intro H; [apply front_inert; constructor|].
  destruct l as [|m' l]; [apply H; left; reflexivity|].
  cbn [map]. rewrite !join_cons by discriminate.
  apply front_app; [apply H; left; reflexivity|].
  refine (front_app _ [cm] [cm] _ _ _ _); [apply front_inert; inerts|].
  apply IH. intros k Hk. apply H. right. exact Hk.
Qed.

Definition n_object := nm "JS_OBJECT".

Lemma object_expands : forall ms, ms <> [] -> (forall m, In m ms -> plain (member_var m)) ->
  expands (callp n_object (map member_source ms))
    (struct_base (tuple_of []) (tuple_of (join (map member_target ms)))).
Proof.
  intros ms Hne H.
  assert (It : Forall inert (join (map member_target ms))).
  { apply inert_join. apply Forall_forall. intros a Ha. apply in_map_iff in Ha as (m & <- & Hm).
    rewrite target_eq. destruct (member_names m); [constructor|apply target_inert; auto]. }
  assert (Ot : Forall arg_ok (map member_target ms)).
  { apply Forall_forall. intros a Ha. apply in_map_iff in Ha as (m & <- & Hm).
    rewrite target_eq. destruct (member_names m); [reflexivity|apply target_ok]. }
  apply (front_expands (n_object :: n_impl :: ns_member)).
  eapply (front_call ns_member [n_impl]) with (raws := [join (map member_source ms)]) (exps := [join (map member_target ms)]).
  - vm_compute; reflexivity.
  - destruct ms; [congruence|discriminate].
  - apply Forall_forall. intros a Ha. apply in_map_iff in Ha as (m & <- & _). apply source_ok.
  - reflexivity.
  - cbn [exps_ok]. split; [|exact I]. apply front_alone, joined_front. intros m Hm. apply member_front. auto.
  - instantiate (1 := callp n_impl [tuple_of []; tuple_of (join (map member_target ms))]).
    cbn [subst nth]. regroup.
  - apply (impl_front []).
    + reflexivity.
    + apply tuple_ok. exact Ot.
    + apply tuple_empty_alone.
    + apply front_alone, front_inert, tuple_inert. exact It.
    + apply tuple_inert. constructor.
    + apply tuple_inert. exact It.
    + left; reflexivity.
    + intros ? [].
  - names.
  - left; reflexivity.
  - do 2 apply incl_tl. apply incl_refl.
  - names.
Qed.

(** ** One name too many *)

(** As [front], at a place where JS_INTERNAL_EXPAND is being replaced. *)
Definition frontb (ns : list bytes) (a b : list ptok) : Prop :=
  forall act r out, avoid ns (act ++ marks r) -> In n_expand (act ++ marks r) -> scan act r out ->
    scan act (map T a ++ r) (b ++ out).
Definition aloneb (ns : list bytes) (a b : list ptok) : Prop :=
  forall act, avoid ns act -> In n_expand act -> scan act (map T a) b.

Lemma front_frontb : forall ns a b, front ns a b -> frontb ns a b.
Proof. intros ns a b H act r out Hv _ Hr. apply H; assumption. Qed.

Lemma frontb_aloneb : forall ns a b, frontb ns a b -> aloneb ns a b.
Proof.
  intros ns a b H act Ha Hi. specialize (H act [] []). cbn [marks] in H.
  rewrite !app_nil_r in H. apply H; [assumption|assumption|apply scan_nil].
Qed.

Lemma frontb_app : forall ns a a' b b', frontb ns a a' -> frontb ns b b' -> frontb ns (a ++ b) (a' ++ b').
Proof.
  intros ns a a' b b' Ha Hb act r out Hv Hi Hr.
  rewrite map_app, <- !app_assoc. apply Ha.
  - rewrite marks_app, marks_T. exact Hv.
  - rewrite marks_app, marks_T. exact Hi.
  - apply Hb; assumption.
Qed.

Lemma frontb_call : forall nsa ns N n np v body args raws exps ts out,
  macro_of n = Some (Fun np v body) ->
  args <> [] -> Forall arg_ok args -> bind np v args = Some raws ->
  exps_ok (aloneb nsa) 0 body raws exps -> subst body raws exps = Some ts ->
  frontb ns ts out -> ~ In n ns -> In n N -> incl nsa N -> incl ns N ->
  frontb N (callp n args) out.
Proof.
  intros nsa ns N n np v body args raws exps ts out Hm Hne Ha Hb He Hs Hf Hnn HN Hi1 Hi2 act r out' Hv Hi Hr.
  pose proof (Hv n HN) as Hn.
  apply (scan_call act n np v body [] args r raws exps ts); try assumption.
  - eapply exps_ok_mono; [|exact He]. intros a e Hae. apply Hae; [|exact Hi]. eapply avoid_incl; eassumption.
  - apply Hf.
    + apply avoid_cons; [|exact Hnn]. eapply avoid_incl; eassumption.
    + cbn [marks]. rewrite in_app_iff in *. cbn [In]. tauto.
    + apply scan_end. exact Hr.
Qed.

Lemma paint_front : forall ns, frontb ns [Id n_expand false] [Id n_expand true].
Proof.
  intros ns act r out _ Hi [F HF]. exists (S F). intros [|f] H; [lia|].
  cbn [map app run].
  assert (Hm : exists m, macro_of n_expand = Some m) by (eexists; vm_compute; reflexivity).
  destruct Hm as [m Hm]. rewrite Hm.
  apply name_in_iff in Hi. rewrite Hi. rewrite HF by lia. reflexivity.
Qed.

(** The call that is left standing. *)
Definition xp (b : list ptok) : list ptok := Id n_expand true :: lp :: b ++ [rp].

Lemma secondb_front : forall a b rest ns0 N,
  Forall arg_ok (a :: b :: rest) ->
  aloneb ns0 (join (a :: b :: rest)) (join (a :: b :: rest)) -> front ns0 b b ->
  ~ In n_second ns0 -> ~ In n_second_ ns0 ->
  incl (n_second :: n_second_ :: ns0) N ->
  frontb N (callp n_second (a :: b :: rest)) (xp b).
Proof.
  intros a b rest ns0 N Hok Hj Hb H1 H3 HN.
  set (args := a :: b :: rest) in *.
  assert (Hne : args <> []) by discriminate.
  assert (F2 : frontb (n_second_ :: ns0) (callp n_second_ args) b).
  { eapply (frontb_call ns0 ns0) with (exps := [[]; b; []]) (raws := [a; b; join rest]).
    - vm_compute; reflexivity.
    - exact Hne.
    - exact Hok.
    - reflexivity.
    - cbn. split; [reflexivity|]. split; [apply frontb_aloneb, front_frontb; exact Hb|]. split; [reflexivity|exact I].
    - cbn. rewrite app_nil_r. reflexivity.
    - apply front_frontb. exact Hb.
    - exact H3.
    - left; reflexivity.
    - apply incl_tl, incl_refl.
    - apply incl_tl, incl_refl. }
  eapply (frontb_call ns0 (n_second_ :: ns0)) with (exps := [join args]) (raws := [join args]).
  - vm_compute; reflexivity.
  - exact Hne.
  - exact Hok.
  - reflexivity.
  - cbn [exps_ok]. split; [exact Hj|exact I].
  - instantiate (1 := [Id n_expand false] ++ ([lp] ++ (callp n_second_ args ++ [rp]))).
    change (Some (Id n_expand false :: lp :: Id n_second_ false :: lp :: (join args ++ [rp; rp])) = Some ([Id n_expand false] ++ ([lp] ++ (callp n_second_ args ++ [rp])))).
    unfold callp. cbn [app]. rewrite <- app_assoc. reflexivity.
  - refine (frontb_app _ [_] [_] _ _ (paint_front _) _).
    refine (frontb_app _ [lp] [lp] _ _ (front_frontb _ _ _ _) _); [apply front_inert; inerts|].
    apply frontb_app; [exact F2|apply front_frontb, front_inert; inerts].
  - intros [H|H]; [vm_compute in H; discriminate|contradiction].
  - apply HN. left; reflexivity.
  - intros x Hx. apply HN. do 2 right. exact Hx.
  - intros x Hx. apply HN. right. exact Hx.
Qed.

Definition n_notx : bytes := n_not_ ++ n_expand.
Definition n_ifx : bytes := n_if_ ++ n_expand.

Lemma n_notx_inert : inert (Id n_notx false).
Proof. inerts. Qed.

Definition nsb_probe : list bytes := [n_is_probe; n_cat; n_second; n_second_].

(** JS_INTERNAL_NOT of a text that begins with a call left standing. *)
Lemma notb_front : forall N x t, arg_ok x -> arg_ok (Id n_expand true :: t) -> Forall inert t ->
  aloneb (n_not :: nsb_probe) x (Id n_expand true :: t) -> incl (n_not :: nsb_probe) N ->
  frontb N (callp n_not [x]) (xp [zero]).
Proof.
  intros N x t Hx Hxt Ht Ha HN.
  set (x' := Id n_expand true :: t) in *.
  eapply (frontb_call (n_not :: nsb_probe) nsb_probe) with (exps := [x']) (raws := [x]).
  - vm_compute; reflexivity.
  - discriminate.
  - constructor; [exact Hx|constructor].
  - reflexivity.
  - cbn [exps_ok]. split; [exact Ha|exact I].
  - instantiate (1 := callp n_is_probe [callp n_cat [[Id n_not_ false]; x']]).
    change (Some (Id n_is_probe false :: lp :: Id n_cat false :: lp :: Id n_not_ false :: cm :: (x' ++ [rp; rp]))
            = Some (callp n_is_probe [callp n_cat [[Id n_not_ false]; x']])).
    unfold callp. cbn [join app]. rewrite <- app_assoc. reflexivity.
  - assert (Og : arg_ok (Id n_notx false :: t)) by exact Hxt.
    assert (Ig : Forall inert (Id n_notx false :: t)) by (constructor; [exact n_notx_inert|exact Ht]).
    eapply (frontb_call [n_cat] [n_second; n_second_])
      with (exps := [Id n_notx false :: t]) (raws := [callp n_cat [[Id n_not_ false]; x']]).
    + vm_compute; reflexivity.
    + discriminate.
    + constructor; [apply callp_ok|constructor]. constructor; [reflexivity|]. constructor; [exact Hxt|constructor].
    + reflexivity.
    + cbn [exps_ok]. split; [|exact I]. apply frontb_aloneb, front_frontb.
      eapply (cat_front _ _ _ _ []); [exact Hxt|reflexivity|apply front_inert; exact Ig|intros []|apply incl_refl].
    + instantiate (1 := callp n_second [Id n_notx false :: t; [zero]; [zero]]).
      change (Some (Id n_second false :: lp :: ((Id n_notx false :: t) ++ [cm; zero; cm; zero; rp]))
              = Some (callp n_second [Id n_notx false :: t; [zero]; [zero]])).
      unfold callp. cbn [join app]. rewrite <- app_assoc. reflexivity.
    + apply (secondb_front _ _ _ []); try (intros []; fail).
      * constructor; [exact Og|]. repeat constructor.
      * apply frontb_aloneb, front_frontb, front_inert, inert_join.
        constructor; [exact Ig|inerts].
      * apply front_inert. inerts.
      * apply incl_refl.
    + names.
    + names.
    + names.
    + names.
  - names.
  - apply HN. left; reflexivity.
  - exact HN.
  - eapply incl_tran; [|exact HN]. names.
Qed.

Lemma xp_ok : forall b, arg_ok b -> arg_ok (xp b).
Proof.
  intros b H. change (xp b) with ([Id n_expand true] ++ parens [b]).
  apply app_ok; [reflexivity|apply parens_ok]. constructor; [exact H|constructor].
Qed.

Definition nsb_bool : list bytes := n_bool :: n_not :: nsb_probe.

Lemma boolb_front : forall nsx N x t, arg_ok x -> arg_ok (Id n_expand true :: t) -> Forall inert t ->
  aloneb nsx x (Id n_expand true :: t) -> incl nsx N -> incl nsb_bool N ->
  frontb N (callp n_bool [x]) (xp [zero]).
Proof.
  intros nsx N x t Hx Hxt Ht Ha H1 H2.
  set (x' := Id n_expand true :: t) in *.
  eapply (frontb_call nsx (n_not :: nsb_probe)) with (exps := [x']) (raws := [x]).
  - vm_compute; reflexivity.
  - discriminate.
  - constructor; [exact Hx|constructor].
  - reflexivity.
  - cbn [exps_ok]. split; [exact Ha|exact I].
  - instantiate (1 := callp n_not [callp n_not [x']]).
    change (Some (Id n_not false :: lp :: Id n_not false :: lp :: (x' ++ [rp; rp]))
            = Some (callp n_not [callp n_not [x']])).
    unfold callp. cbn [join app]. rewrite <- app_assoc. reflexivity.
  - apply (notb_front _ _ [lp; zero; rp]); [| |inerts| |apply incl_refl].
    + apply callp_ok. constructor; [exact Hxt|constructor].
    + reflexivity.
    + apply frontb_aloneb. apply (notb_front _ _ t); try assumption; [|apply incl_refl].
      apply frontb_aloneb, front_frontb, front_inert. constructor; [exact I|exact Ht].
  - names.
  - apply H2. left; reflexivity.
  - exact H1.
  - eapply incl_tran; [|exact H2]. names.
Qed.

Lemma moreb_front : forall N x xs, Forall plain (x :: xs) -> incl (n_more :: n_endargs :: nsb_bool) N ->
  frontb N (callp n_more (ids (x :: xs))) (xp [zero]).
Proof.
  intros N x xs H HN.
  set (sc := callp n_second (([Id n_endargs false; Id x false] :: ids xs) ++ [[zero]; [zero]]) ++ [lp; rp]).
  assert (Hs2 : inert (second_of xs)).
  { inversion H as [|? ? _ Hxs]; subst. destruct xs; cbn; [exact I|]. inversion Hxs as [|? ? [G _] _]; exact G. }
  assert (Hsc : aloneb [n_endargs; n_second; n_second_] sc (xp [second_of xs] ++ [lp; rp])).
  { apply frontb_aloneb, frontb_app; [|apply front_frontb, front_inert; inerts].
    inversion H as [|? ? [Hx _] Hxs]; subst.
    assert (G : exists rest, ids xs ++ [[zero]; [zero]] = [second_of xs] :: rest).
    { destruct xs; cbn; eexists; reflexivity. }
    destruct G as [rest G]. cbn [app]. rewrite G.
    assert (Hok : Forall arg_ok ([second_of xs] :: rest)).
    { rewrite <- G. apply Forall_app. split; [apply ids_ok|repeat constructor]. }
    assert (Hin : Forall (Forall inert) ([second_of xs] :: rest)).
    { rewrite <- G. apply Forall_app. split; [apply ids_inert; assumption|inerts]. }
    apply (secondb_front _ _ _ [n_endargs]).
    - constructor; [reflexivity|exact Hok].
    - apply frontb_aloneb, front_frontb. rewrite join_cons by discriminate.
      apply front_app; [apply endargs_front; [exact Hx|left; reflexivity]|].
      apply front_inert. constructor; [exact I|apply inert_join; exact Hin].
    - apply front_inert. inversion Hin; assumption.
    - names.
    - names.
    - names. }
  assert (Hok : arg_ok sc).
  { apply app_ok; [|reflexivity]. apply callp_ok. apply Forall_app. split; [|repeat constructor].
    constructor; [reflexivity|apply ids_ok]. }
  eapply (frontb_call [] (n_endargs :: nsb_bool)) with (exps := [join (ids (x :: xs))]) (raws := [join (ids (x :: xs))]).
  - vm_compute; reflexivity.
  - discriminate.
  - apply ids_ok.
  - reflexivity.
  - cbn [exps_ok]. split; [|exact I]. apply frontb_aloneb, front_frontb, front_inert, inert_join, ids_inert. exact H.
  - instantiate (1 := callp n_bool [sc]).
    change (Some (Id n_bool false :: lp :: Id n_second false :: lp :: Id n_endargs false ::
                  (join (ids (x :: xs)) ++ [cm; zero; cm; zero; rp; lp; rp; rp])) = Some (callp n_bool [sc])).
    unfold callp, sc. cbn [join]. unfold callp. rewrite join_app by discriminate.
    do 3 f_equal. cbn [app]. do 2 f_equal.
    destruct xs as [|y xs]; [reflexivity|].
    change (ids (x :: y :: xs)) with ([Id x false] :: ids (y :: xs)).
    rewrite !join_cons by discriminate.
    cbn [app]. rewrite <- !app_assoc. reflexivity.
  - eapply (boolb_front [n_endargs; n_second; n_second_] _ _ ([lp] ++ [second_of xs] ++ [rp; lp; rp])).
    + exact Hok.
    + destruct xs; reflexivity.
    + cbn [app]. constructor; [exact I|]. constructor; [exact Hs2|inerts].
    + exact Hsc.
    + names.
    + names.
  - names.
  - apply HN. names.
  - intros ? [].
  - eapply incl_tran; [|exact HN]. names.
Qed.

Definition nsb_if : list bytes := n_if :: n_if' :: n_cat :: nsb_bool.

Lemma ifb_front : forall nsc N c, arg_ok c -> aloneb nsc c (xp [zero]) -> incl nsc N -> incl nsb_if N ->
  frontb N (callp n_if [c]) [Id n_ifx false; lp; zero; rp].
Proof.
  intros nsc N c Hc Ha H1 H2.
  eapply (frontb_call nsc (n_if' :: n_cat :: nsb_bool)) with (exps := [xp [zero]]) (raws := [c]).
  - vm_compute; reflexivity.
  - discriminate.
  - constructor; [exact Hc|constructor].
  - reflexivity.
  - cbn [exps_ok]. split; [exact Ha|exact I].
  - instantiate (1 := callp n_if' [callp n_bool [xp [zero]]]). reflexivity.
  - eapply (frontb_call nsb_bool [n_cat]) with (exps := [xp [zero]]) (raws := [callp n_bool [xp [zero]]]).
    + vm_compute; reflexivity.
    + discriminate.
    + constructor; [apply callp_ok; repeat constructor|constructor].
    + reflexivity.
    + cbn [exps_ok]. split; [|exact I].
      apply frontb_aloneb, (boolb_front [] _ _ [lp; zero; rp]); [reflexivity|reflexivity|inerts| |intros ? []|apply incl_refl].
      apply frontb_aloneb, front_frontb, front_inert. inerts.
    + instantiate (1 := callp n_cat [[Id n_if_ false]; xp [zero]]). reflexivity.
    + apply front_frontb. eapply (cat_front _ _ _ _ []); [reflexivity|reflexivity| |intros []|apply incl_refl].
      apply front_inert. inerts.
    + names.
    + names.
    + names.
    + names.
  - names.
  - apply H2. left; reflexivity.
  - exact H1.
  - eapply incl_tran; [|exact H2]. names.
Qed.

(** The text that a list of one name too many ends with. *)
Definition stuck (k : kind) (x y : bytes) (mid : list ptok) : list ptok :=
  info k x ++ [Id n_ifx false; lp; zero; rp] ++
  (lp :: cm :: Id (n_map_ k) false :: mid ++ [lp; rp] ++ parens (mk k :: ids [y]) ++ [rp]) ++
  (lp :: cm :: info k y ++ [rp]).

Definition nsb_map (k : kind) : list bytes :=
  n_apply k :: n_map_ k :: n_defer2 :: n_empty :: n_more :: n_endargs :: nsb_if.

Lemma phaseb_front : forall k x y, plain x -> plain y ->
  frontb (n_map k :: nsb_map k) (phase k [x; y]) (stuck k x y [Id n_empty false; lp; rp]).
Proof.
  intros k x y Hx Hy.
  assert (Hys : Forall plain [y]) by (constructor; [exact Hy|constructor]).
  set (tail := parens (mk k :: ids [y])).
  assert (Htl : Forall inert tail).
  { constructor; [exact I|]. apply Forall_app. split; [apply inert_join, args_inert; exact Hys|inerts]. }
  set (argsA := [[]; callp n_defer2 [[Id (n_map_ k) false]] ++ [lp; rp] ++ tail]).
  set (argsB := [[]; callp (n_apply k) (mk k :: ids [y])]).
  set (ts := callp (n_apply k) [mk k; [Id x false]] ++
             callp n_if [callp n_more (ids [y])] ++ parens argsA ++ parens argsB).
  assert (HS : exists body, macro_of (n_map k) = Some (Fun 2 true body) /\
    (forall i, (i < 3)%nat -> used i body = true) /\
    subst body [mk k; [Id x false]; [Id y false]] [mk k; [Id x false]; [Id y false]] = Some ts).
  { destruct k; eexists; (split; [vm_compute; reflexivity|]);
      (split; [intros [|[|[|i]]] Hi; [reflexivity|reflexivity|reflexivity|lia]|]); reflexivity. }
  destruct HS as (body & HS1 & HS2 & HS3).
  assert (F : frontb (nsb_map k) ts (stuck k x y [Id n_empty false; lp; rp])).
  { unfold ts, stuck. apply frontb_app; [apply front_frontb, apply_front; [exact Hx|left; reflexivity]|].
    apply frontb_app.
    { apply (ifb_front (n_more :: n_endargs :: nsb_bool)).
      - apply callp_ok, ids_ok.
      - apply frontb_aloneb, moreb_front; [exact Hys|apply incl_refl].
      - destruct k; names.
      - destruct k; names. }
    apply front_frontb. apply front_app.
    - change (parens argsA) with ([lp; cm] ++ ((callp n_defer2 [[Id (n_map_ k) false]] ++ [lp; rp] ++ tail) ++ [rp])).
      replace (lp :: cm :: Id (n_map_ k) false :: [Id n_empty false; lp; rp] ++ [lp; rp] ++ parens (mk k :: ids [y]) ++ [rp])
        with ([lp; cm] ++ ((deferred k ++ ([lp; rp] ++ tail)) ++ [rp])).
      2:{ unfold deferred, tail. cbn [app]. reflexivity. }
      apply front_app; [apply front_inert; inerts|].
      apply front_app; [|apply front_inert; inerts].
      apply front_app; [apply defer_front; destruct k; names|].
      apply front_app; apply front_inert; [inerts|exact Htl].
    - change (parens argsB) with ([lp; cm] ++ (callp (n_apply k) [mk k; [Id y false]] ++ [rp])).
      change (lp :: cm :: info k y ++ [rp]) with ([lp; cm] ++ (info k y ++ [rp])).
      apply front_app; [apply front_inert; inerts|].
      apply front_app; [apply apply_front; [exact Hy|left; reflexivity]|apply front_inert; inerts]. }
  intros act r out Hv Hi Hr.
  destruct (map__macro k) as (bm & Hm & Hs).
  assert (Hn : ~ In (n_map_ k) (act ++ marks r)).
  { apply Hv. destruct k; names. }
  assert (Hn2 : ~ In (n_map k) (act ++ marks r)).
  { apply Hv. left; reflexivity. }
  assert (Hne : ~ In (n_map k) [n_map_ k]) by (destruct k; names).
  rewrite in_app_iff in Hn, Hn2.
  eapply (scan_call act (n_map_ k) 0 false bm [] [[]] (map T (parens (mk k :: ids [x; y])) ++ r) [] []).
  - exact Hm.
  - cbn [app]. rewrite marks_app, marks_T, in_app_iff. exact Hn.
  - discriminate.
  - repeat constructor.
  - reflexivity.
  - exact I.
  - exact Hs.
  - apply (scan_call act (n_map k) 2 true body [n_map_ k] (mk k :: ids [x; y]) r
             [mk k; [Id x false]; [Id y false]] [mk k; [Id x false]; [Id y false]] ts).
    + exact HS1.
    + rewrite !in_app_iff. tauto.
    + discriminate.
    + apply args_ok.
    + reflexivity.
    + assert (G : forall a, Forall inert a -> scan (act ++ marks r) (map T a) a).
      { intros a Ha. apply (front_alone [] a a); [apply front_inert; exact Ha|intros ? []]. }
      cbn [exps_ok]. rewrite !HS2 by lia. repeat split; apply G; [apply mk_inert| |];
        (constructor; [first [apply Hx|apply Hy]|constructor]).
    + exact HS3.
    + apply F.
      * apply avoid_cons; [|destruct k; names]. eapply avoid_incl; [|exact Hv]. apply incl_tl, incl_refl.
      * cbn [marks]. rewrite in_app_iff in *. cbn [In]. tauto.
      * apply scan_end. exact Hr.
Qed.

Lemma parts_over : forall k x y pre, parts k (List.length pre) (pre ++ [x; y]) = map (info k) pre ++ [phase k [x; y]].
Proof.
  induction pre as [|a pre IH]; [reflexivity|].
  destruct pre as [|b pre]; [reflexivity|].
  change (parts k (List.length (a :: b :: pre)) ((a :: b :: pre) ++ [x; y]))
    with (info k a :: parts k (List.length (b :: pre)) ((b :: pre) ++ [x; y])).
  rewrite IH. reflexivity.
Qed.

Lemma over_front : forall k pre x y, Forall plain (pre ++ [x; y]) -> List.length pre = 2049%nat ->
  front (ns_make k) (callp (n_make k) (ids (pre ++ [x; y])))
    (join (map (info k) pre) ++ cm :: stuck k x y []).
Proof.
  intros k pre x y H Hl.
  assert (Hxy : plain x /\ plain y).
  { apply Forall_app in H as [_ H]. inversion H as [|? ? Hx H']; inversion H'; auto. }
  destruct Hxy as [Hx Hy].
  assert (Hpre : Forall plain pre) by (apply Forall_app in H as [H _]; exact H).
  assert (Hpne : pre <> []) by (intros ->; discriminate).
  assert (Sh : exists a b bs, pre ++ [x; y] = a :: b :: bs).
  { destruct pre as [|a [|b bs]]; [congruence|discriminate|]. exists a, b, (bs ++ [x; y]). reflexivity. }
  destruct Sh as (a & b & bs & Sh).
  assert (P : join (parts k 2049 (a :: b :: bs)) = join (map (info k) pre) ++ ([cm] ++ phase k [x; y])).
  { rewrite <- Sh, <- Hl, parts_over. rewrite join_app; [reflexivity| |discriminate].
    destruct pre; [congruence|discriminate]. }
  rewrite Sh in *.
  set (xs := a :: b :: bs) in *.
  set (vas := join (ids xs)).
  set (argsA := [callp n_expand [callp n_eval [callp (n_map k) (mk k :: ids xs)]]]).
  set (argsB := [callp (n_apply k) (mk k :: ids xs)]).
  set (ts := callp n_if [callp n_more (ids xs)] ++ parens argsA ++ parens argsB).
  assert (HS : exists body, macro_of (n_make k) = Some (Fun 0 true body) /\
    used 0 body = true /\ subst body [vas] [vas] = Some ts).
  { destruct k; eexists; (split; [vm_compute; reflexivity|]); (split; [reflexivity|]);
      cbn [subst nth]; unfold ts, argsA, argsB, callp, parens;
      cbn [join]; rewrite ?join_cons by discriminate; fold vas; unfold callp, parens; cbn [join];
      rewrite ?join_cons by discriminate; fold vas; cbn [mk app]; rewrite <- ?app_assoc; cbn [app]; reflexivity. }
  destruct HS as (body & HS1 & HS2 & HS3).
  set (pinf := join (map (info k) pre)) in *.
  assert (Pi : Forall inert pinf) by (apply infos_inert; exact Hpre).
  set (mid := pinf ++ ([cm] ++ stuck k x y [Id n_empty false; lp; rp])).
  assert (FE : front (n_expand :: ns_eval k) (callp n_expand [callp n_eval [callp (n_map k) (mk k :: ids xs)]]) mid).
  { intros act r out Hv Hr.
    pose proof (Hv n_expand (or_introl eq_refl)) as Hn.
    apply (scan_call act n_expand 1 false [Par 0] [] [callp n_eval [callp (n_map k) (mk k :: ids xs)]] r
             [callp n_eval [callp (n_map k) (mk k :: ids xs)]] [pinf ++ ([cm] ++ phase k [x; y])]
             (pinf ++ ([cm] ++ phase k [x; y]))).
    - vm_compute; reflexivity.
    - exact Hn.
    - discriminate.
    - constructor; [|constructor]. apply callp_ok. constructor; [|constructor]. apply callp_ok, args_ok.
    - reflexivity.
    - cbn [exps_ok]. split; [|exact I]. rewrite <- P.
      apply (front_alone (ns_eval k)); [apply eval_front; exact H|].
      eapply avoid_incl; [|exact Hv]. apply incl_tl, incl_refl.
    - cbn [subst nth]. rewrite app_nil_r. reflexivity.
    - assert (FB : frontb (n_map k :: nsb_map k) (pinf ++ ([cm] ++ phase k [x; y])) mid).
      { apply frontb_app; [apply front_frontb, front_inert; exact Pi|].
        apply frontb_app; [apply front_frontb, front_inert; inerts|]. apply phaseb_front; assumption. }
      apply FB.
      + apply avoid_cons; [|destruct k; names]. eapply avoid_incl; [|exact Hv]. destruct k; names.
      + cbn [marks]. rewrite in_app_iff. right. left. reflexivity.
      + apply scan_end. exact Hr. }
  assert (FR : front [n_map_ k; n_empty] mid (pinf ++ cm :: stuck k x y [])).
  { unfold mid. apply front_app; [apply front_inert; exact Pi|].
    refine (front_app _ [cm] [cm] _ _ _ _); [apply front_inert; inerts|].
    unfold stuck. apply front_app; [apply front_inert, info_inert; exact Hx|].
    apply front_app; [apply front_inert; inerts|].
    set (tail := parens (mk k :: ids [y])).
    assert (Htl : Forall inert (([lp; rp] ++ tail) ++ [rp])).
    { apply Forall_app. split; [|inerts]. apply Forall_app. split; [inerts|]. constructor; [exact I|].
      apply Forall_app. split; [apply inert_join, args_inert; constructor; [exact Hy|constructor]|inerts]. }
    apply front_app.
    - replace (lp :: cm :: Id (n_map_ k) false :: [Id n_empty false; lp; rp] ++ [lp; rp] ++ tail ++ [rp])
        with ([lp; cm] ++ (deferred k ++ (([lp; rp] ++ tail) ++ [rp]))) by reflexivity.
      replace (lp :: cm :: Id (n_map_ k) false :: [] ++ [lp; rp] ++ tail ++ [rp])
        with ([lp; cm] ++ (Id (n_map_ k) false :: (([lp; rp] ++ tail) ++ [rp]))) by reflexivity.
      apply front_app; [apply front_inert; inerts|]. apply resume_front; [apply incl_refl|exact Htl].
    - apply front_inert. constructor; [exact I|]. constructor; [exact I|].
      apply Forall_app. split; [apply info_inert; exact Hy|inerts]. }
  eapply (front_call [] (ns_eval k)) with (raws := [vas]) (exps := [vas]).
  - exact HS1.
  - discriminate.
  - apply ids_ok.
  - reflexivity.
  - cbn [exps_ok]. rewrite HS2. split; [|exact I]. apply front_alone, front_inert, inert_join, ids_inert. exact H.
  - exact HS3.
  - unfold ts.
    eapply (if_one ns_more (n_expand :: ns_eval k) [n_map_ k; n_empty]) with (A' := mid).
    + apply callp_ok, ids_ok.
    + apply front_alone. apply (more_front ns_more a (b :: bs)); [exact H|apply incl_refl].
    + discriminate.
    + constructor; [|constructor]. apply callp_ok. constructor; [|constructor].
      apply callp_ok. constructor; [|constructor]. apply callp_ok, args_ok.
    + apply front_alone. exact FE.
    + exact FR.
    + destruct k; names.
    + discriminate.
    + constructor; [|constructor]. apply callp_ok, args_ok.
    + destruct k; names.
    + destruct k; names.
    + destruct k; names.
    + destruct k; names.
  - destruct k; names.
  - left; reflexivity.
  - intros ? [].
  - apply incl_tl, incl_refl.
Qed.
