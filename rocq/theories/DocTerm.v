(** Reading a valid document always returns, also into types with maps and whether or not it fits the
    type. *)
From Verif Require Import Base Tactics ScanModel TokModel JsonSpec TokSpec TokSafe TokScope TokSlice TokSpecProofs EscapeModel IntModel PropJson MapProofs2 SerDoc HandlerModel HandlerSpec HandlerTree HandlerLaws HandlerProps HandlerStruct HandlerText HandlerTerm.
From Coq Require Import Lia.

(** ** Brackets *)

Definition is_scalar (v : stoken) : Prop := match st_value_type v with TArrayStart | TArrayEnd | TObjectStart | TObjectEnd => False | _ => True end.
Definition brackets (a b : stoken) : Prop :=
  st_value_type a = TArrayStart /\ st_value_type b = TArrayEnd /\ st_value b = [rbrack] \/
  st_value_type a = TObjectStart /\ st_value_type b = TObjectEnd /\ st_value b = [rbrace].
Inductive bal : list stoken -> Prop :=
| B_nil : bal []
| B_one v l : is_scalar v -> bal l -> bal (v :: l)
| B_pair a x b l : brackets a b -> bal x -> bal l -> bal (a :: x ++ b :: l).

Lemma bal_app x y : bal x -> bal y -> bal (x ++ y).
Proof.
  intros H Hy. induction H as [|v l Hv _ IH|a x b l Hp Hx _ _ IH]; cbn [app]; [exact Hy|constructor; assumption|].
  rewrite <- app_assoc. cbn [app]. constructor; assumption.
Qed.
Lemma brackets_open a b : brackets a b -> ~ is_scalar a.
Proof. intros [(E & _)|(E & _)] H; unfold is_scalar in H; rewrite E in H; exact H. Qed.

(** The end of a bracket that opens inside. *)
Lemma bal_match W : bal W -> forall A v B, W = A ++ v :: B -> st_value_type v = TArrayStart \/ st_value_type v = TObjectStart ->
  exists Y z R, brackets v z /\ B = Y ++ z :: R /\ bal Y.
Proof.
  intros H. induction H as [|w l Hw _ IH|a x b l Hp Hx IHx Hl IHl]; intros A v B E Ho.
  - destruct A; discriminate E.
  - destruct A as [|w' A]; cbn [app] in E; injection E as -> E; [|exact (IH A v B E Ho)].
    unfold is_scalar in Hw. destruct Ho as [Ho|Ho]; rewrite Ho in Hw; contradiction.
  - destruct A as [|a' A]; cbn [app] in E; injection E as <- E.
    + exists x, b, l. auto.
    + destruct (app_eq_app _ _ _ _ E) as (m & [[Em Eb]|[Em Eb]]).
      * destruct m as [|m0 m]; cbn [app] in Eb.
        { injection Eb as -> Eb. destruct Hp as [(_ & K & _)|(_ & K & _)]; rewrite K in Ho; destruct Ho; discriminate. }
        injection Eb as -> Eb. destruct (IHx A m0 m Em Ho) as (Y & z & R & P & -> & HY).
        exists Y, z, (R ++ b :: l). split; [exact P|]. split; [|exact HY]. rewrite Eb, <- app_assoc. reflexivity.
      * destruct m as [|m0 m]; cbn [app] in Eb.
        { injection Eb as -> Eb. destruct Hp as [(_ & K & _)|(_ & K & _)]; rewrite K in Ho; destruct Ho; discriminate. }
        injection Eb as <- Eb. exact (IHl m v B Eb Ho).
Qed.

Lemma doc_bal j : forall name, bal (doc_tokens name j).
Proof.
  induction j as [s|els IH|ms IH] using json_rect_nested; intros name; cbn [doc_tokens].
  - constructor; [|constructor]. destruct name, s; exact I.
  - apply B_pair; [|induction IH as [|x l Hx _ IHl]; cbn [flat_map]; [constructor|apply bal_app; auto]|constructor].
    left. destruct name; auto.
  - apply B_pair; [|induction IH as [|x l Hx _ IHl]; cbn [flat_map]; [constructor|apply bal_app; auto]|constructor].
    right. destruct name; auto.
Qed.

Definition closing (v : stoken) : Prop :=
  st_value_type v = TArrayEnd /\ st_value v = [rbrack] \/ st_value_type v = TObjectEnd /\ st_value v = [rbrace].
Definition one_value (W : list stoken) : Prop :=
  (exists v, W = [v] /\ is_scalar v) \/ forall A v, W = A ++ [v] -> closing v.
Lemma doc_one_value name j : one_value (doc_tokens name j).
Proof.
  destruct j as [s|els|ms]; cbn [doc_tokens].
  - left. eexists. split; [reflexivity|]. destruct name, s; exact I.
  - right. intros A v E. rewrite app_comm_cons in E. apply app_inj_tail in E. destruct E as [_ <-]. left. auto.
  - right. intros A v E. rewrite app_comm_cons in E. apply app_inj_tail in E. destruct E as [_ <-]. right. auto.
Qed.

Definition suf (X W : list stoken) : Prop := exists A, W = A ++ X.
Lemma suf_refl X : suf X X.
Proof. exists []. reflexivity. Qed.
Lemma suf_trans X Y Z : suf X Y -> suf Y Z -> suf X Z.
Proof. intros (A & ->) (B & ->). exists (B ++ A). apply app_assoc. Qed.
Lemma suf_cons v X : suf X (v :: X).
Proof. exists [v]. reflexivity. Qed.
Lemma suf_app A X : suf X (A ++ X).
Proof. exists A. reflexivity. Qed.
Lemma suf_app_r X Y r : suf X Y -> suf (X ++ r) (Y ++ r).
Proof. intros (A & ->). exists A. symmetry. apply app_assoc. Qed.
Definition inside (X : list stoken) : Prop := exists A, bal (A ++ X).
Lemma inside_suf X Y : suf X Y -> inside Y -> inside X.
Proof. intros (A & ->) (B & H). exists (B ++ A). rewrite <- app_assoc. exact H. Qed.

(** ** Types whose handler takes any token, also a closing bracket *)

Fixpoint string_like (t : ty) : bool :=
  match t with
  | YString => true
  | YNullable t | YNullableChecked t | YOptional t | YOptionalChecked t | YStdOptional t | YPtr _ t | YSilent t | YOneOrMany t => string_like t
  | _ => false
  end.

Section Doc.
Context {S : Type} (next : token -> S -> outcome (S * error * token)) (mu : S -> nat) (fp : bool)
  (Rest : list stoken -> token -> S -> Prop) (W : list stoken).
Hypothesis Hcons : forall w l nt s, Rest (w :: l) nt s ->
  exists s' nt', next nt s = Ok (s', NoError, nt') /\ tok_view nt' = w /\ Rest l nt' s' /\ mu s' < mu s.
Hypothesis Hnil : forall nt s, Rest [] nt s -> exists s' e, next nt s = Ok (s', e, nt) /\ e <> NoError /\ Rest [] nt s'.
Hypothesis Hpos : forall s, 0 < mu s.
Hypothesis HW : bal W.
Hypothesis Hlast : one_value W.

Notation ctx := (ctx S).
Notation handler := (handler S).

(** The tokens from the current one on. *)
Definition at_ (l : list stoken) (c : ctx) : Prop := exists vs, l = tok_view (c_tok c) :: vs /\ Rest vs (c_tok c) (c_src c).
Definition Inv (nt : token) (s : S) : Prop := exists vs, Rest vs nt s /\ suf (tok_view nt :: vs) W.

Lemma at_Inv l c : at_ l c -> suf l W -> Inv (c_tok c) (c_src c).
Proof. intros (vs & -> & H) Hs. exists vs. auto. Qed.
Lemma Inv_at c : Inv (c_tok c) (c_src c) -> exists l, at_ l c /\ suf l W.
Proof. intros (vs & H & Hs). eexists. split; [eexists; split; [reflexivity|exact H]|exact Hs]. Qed.
Lemma at_type v l c : at_ (v :: l) c -> c_type c = st_value_type v.
Proof. intros (vs & E & _). injection E as -> _. reflexivity. Qed.
Lemma at_value v l c : at_ (v :: l) c -> c_value c = st_value v.
Proof. intros (vs & E & _). injection E as -> _. reflexivity. Qed.
Lemma at_set_err l e c : at_ l c -> at_ l (set_err e c).
Proof. exact (fun H => H). Qed.

Lemma next_more v w l c : at_ (v :: w :: l) c -> exists c', ctx_next next c = Ok (NoError, c') /\ at_ (w :: l) c' /\ mu (c_src c') < mu (c_src c).
Proof.
  intros (vs & E & H). injection E as -> <-. destruct (Hcons _ _ _ _ H) as (s' & nt' & En & Ev & Hr & Hm).
  unfold ctx_next, ctx_read. rewrite En. cbn [obind]. eexists. split; [reflexivity|]. split; [|exact Hm].
  eexists. cbn. rewrite Ev. split; [reflexivity|exact Hr].
Qed.
Lemma next_last v c : at_ [v] c -> exists e c', ctx_next next c = Ok (e, c') /\ e <> NoError /\ at_ [v] c'.
Proof.
  intros (vs & E & H). injection E as -> <-. destruct (Hnil _ _ H) as (s' & e & En & He & Hr).
  unfold ctx_next, ctx_read. rewrite En. cbn [obind]. do 2 eexists. split; [reflexivity|]. split; [exact He|].
  eexists. cbn. split; [reflexivity|exact Hr].
Qed.

Lemma Hnext : forall nt s, Inv nt s -> exists s' e nt', next nt s = Ok (s', e, nt') /\ Inv nt' s' /\ (e = NoError -> mu s' < mu s).
Proof.
  intros nt s (vs & H & Hs). destruct vs as [|w l].
  - destruct (Hnil _ _ H) as (s' & e & E & He & Hr). do 3 eexists. split; [exact E|]. split; [exists []; auto|congruence].
  - destruct (Hcons _ _ _ _ H) as (s' & nt' & E & <- & Hr & Hm). do 3 eexists. split; [exact E|]. split; [|auto].
    exists l. split; [exact Hr|]. exact (suf_trans _ _ _ (suf_cons _ _) Hs).
Qed.

(** ** The others fail on a closing bracket of an array *)

Definition refused (P : val -> Prop) (c : ctx) (x : outcome (error * val * ctx)) : Prop :=
  exists e v c', x = Ok (e, v, c') /\ e <> NoError /\ P v /\ c_tok c' = c_tok c /\ c_src c' = c_src c.
Lemma rejects fuel t : string_like t = false -> forall v c, shaped t v -> c_type c = TArrayEnd -> c_value c = [rbrack] ->
  refused (shaped t) c (to next fuel t v c).
Proof.
  induction t as [|i|sg|hr tp| |ns u|t IH|t IH|t IH|t IH|t IH|u t IH|t IH|t IH|t IH|n t IH|n t IH|t IH|ts IH|t IH|b fs IH] using ty_rect_nested;
    intros Hsl v c Hsh Ht Hv; cbn [to]; cbn [string_like] in Hsl;
    assert (Hfin : forall (P : val -> Prop) e, e <> NoError -> P v -> refused P c (Ok (e, v, c))) by (intros P e He HP; exists e, v, c; auto).
  - unfold bool_to. rewrite Hv. apply Hfin; [discriminate|exact Hsh].
  - unfold integer_to. rewrite Hv.
    destruct (int_to i [rbrack]) as [[e0 z0]| |] eqn:E0; destruct i; vm_compute in E0; try discriminate E0; injection E0 as <- <-;
      cbn [obind]; do 3 eexists; (split; [reflexivity|]); repeat split; discriminate.
  - unfold fp_to. rewrite Hv.
    destruct (fp_read sg [rbrack]) as [[e0 z0]| |] eqn:E0; destruct sg; vm_compute in E0; try discriminate E0; injection E0 as <- <-;
      cbn [obind]; do 3 eexists; (split; [reflexivity|]); repeat split; discriminate.
  - unfold time_point_to. rewrite Hv. destruct v as [|old| | | | | | |]; try contradiction.
    unfold TimeModel.time_to. destruct (int_to T_uint64 [rbrack]) as [[e0 z0]| |] eqn:E0; vm_compute in E0; try discriminate E0. injection E0 as <- <-.
    cbn. apply Hfin; [discriminate|exact Hsh].
  - discriminate Hsl.
  - unfold enum_to. rewrite Ht. apply Hfin; [discriminate|exact Hsh].
  - unfold nullable_to. rewrite Ht. cbn [type_eqb]. apply IH; assumption.
  - unfold nullable_checked_to. rewrite Ht. cbn in Hsh. destruct v as [| | | |f d| | | |]; try contradiction. cbn.
    destruct (IH Hsl d c Hsh Ht Hv) as (e1 & v1 & c1 & E & He & Hs1 & A & B). rewrite E. cbn. do 3 eexists. split; [reflexivity|]. auto.
  - apply IH; assumption.
  - unfold optional_checked_to. cbn in Hsh. destruct v as [| | | |f d| | | |]; try contradiction.
    destruct (IH Hsl d c Hsh Ht Hv) as (e1 & v1 & c1 & E & He & Hs1 & A & B). rewrite E. cbn. do 3 eexists. split; [reflexivity|]. auto.
  - unfold std_optional_to.
    destruct (IH Hsl (init t) c (init_shaped t) Ht Hv) as (e1 & v1 & c1 & E & He & Hs1 & A & B). rewrite E. cbn. do 3 eexists. split; [reflexivity|]. auto.
  - unfold ptr_to. cbn in Hsh. destruct v as [| | | | |o| | |]; try contradiction. rewrite Ht. cbn [type_eqb].
    assert (Hd : shaped t (match o with Some x => x | None => init t end)) by (destruct o; [exact Hsh|apply init_shaped]).
    destruct (IH Hsl _ c Hd Ht Hv) as (e1 & v1 & c1 & E & He & Hs1 & A & B). cbn. rewrite E. cbn. do 3 eexists. split; [reflexivity|]. auto.
  - apply IH; assumption.
  - unfold vec_to. rewrite Ht. apply Hfin; [discriminate|exact Hsh].
  - unfold one_or_many_to. rewrite Ht. cbn [type_eqb]. cbn in Hsh. destruct v as [| | | | | |l| |]; try contradiction.
    destruct (IH Hsl (init t) c (init_shaped t) Ht Hv) as (e1 & v1 & c1 & E & He & Hs1 & A & B). cbn. rewrite E. cbn. do 3 eexists. split; [reflexivity|]. repeat split; auto.
    apply Forall_app. auto.
  - unfold fixed_to. cbn in Hsh. destruct v as [| | | | | |l| |]; try contradiction. rewrite Ht. apply Hfin; [discriminate|exact Hsh].
  - unfold var_to. cbn in Hsh. destruct v as [| | | | | | |k l|]; try contradiction. rewrite Ht. apply Hfin; [discriminate|exact Hsh].
  - unfold set_to. rewrite Ht. apply Hfin; [discriminate|exact Hsh].
  - unfold tuple_to. cbn in Hsh. destruct v as [| | | | | |l| |]; try contradiction. rewrite Ht. apply Hfin; [discriminate|exact Hsh].
  - unfold map_to. cbn in Hsh. destruct v as [| | | | | | | |l]; try contradiction. rewrite Ht. apply Hfin; [discriminate|exact Hsh].
  - unfold struct_to. cbn in Hsh. destruct v as [| | | | | |l| |]; try contradiction. rewrite Ht. apply Hfin; [discriminate|exact Hsh].
Qed.

(** ** The string-like ones stay inside the brackets they started in *)

Definition stays (h : handler) : Prop := forall v c e v' c' X r, h v c = Ok (e, v', c') -> e = NoError -> X <> [] -> inside X -> at_ (X ++ r) c ->
  exists X', X' <> [] /\ suf X' X /\ at_ (X' ++ r) c'.

Lemma vec_stays d h z r : stays h -> st_value_type z = TArrayEnd -> forall f acc c e l c' Z, vec_loop next f d h acc c = Ok (e, l, c') -> e = NoError ->
  inside Z -> at_ (Z ++ z :: r) c -> exists Z', suf Z' Z /\ at_ (Z' ++ z :: r) c'.
Proof.
  intros Hh Hz. induction f as [|f IH]; intros acc c e l c' Z E He HZ Hc; cbn [vec_loop] in E; [discriminate E|].
  destruct Z as [|w Z].
  { cbn [app] in Hc. rewrite (at_type _ _ _ Hc), Hz in E. cbn in E. injection E as _ _ <-. exists []. split; [apply suf_refl|exact Hc]. }
  destruct (type_eqb _ _); [injection E as _ _ <-; exists (w :: Z); split; [apply suf_refl|exact Hc]|].
  destruct (h d c) as [[[e1 v1] c1]| |] eqn:E1; cbn [obind] in E; try discriminate E.
  destruct (is_ok e1) eqn:Eo; [apply is_ok_NoError in Eo; subst e1|injection E as -> _ _; rewrite He in Eo; discriminate Eo].
  destruct (Hh _ _ _ _ _ (w :: Z) (z :: r) E1 eq_refl ltac:(discriminate) HZ Hc) as (X' & HX & Hs & H1).
  destruct X' as [|w' X']; [congruence|]. clear HX. cbn [app] in H1.
  assert (Hn : exists c2, ctx_next next c1 = Ok (NoError, c2) /\ at_ (X' ++ z :: r) c2).
  { destruct X' as [|w2 X']; cbn [app] in *; destruct (next_more _ _ _ _ H1) as (c2 & ? & ? & _); eauto. }
  destruct Hn as (c2 & En & H2). rewrite En in E. cbn [obind is_ok] in E.
  assert (Hs' : suf X' (w :: Z)) by exact (suf_trans _ _ _ (suf_cons _ _) Hs).
  destruct (IH _ _ _ _ _ X' E He (inside_suf _ _ Hs' HZ) H2) as (Z' & HZ' & H3). exists Z'. split; [exact (suf_trans _ _ _ HZ' Hs')|exact H3].
Qed.

Lemma to_stays fuel t : string_like t = true -> stays (to next fuel t).
Proof.
  induction t as [|i|sg|hr tp| |ns u|t IH|t IH|t IH|t IH|t IH|u t IH|t IH|t IH|t IH|n t IH|n t IH|t IH|ts IH|t IH|b fs IH] using ty_rect_nested;
    intros Hsl; cbn [string_like] in Hsl; try discriminate Hsl; try specialize (IH Hsl); intros v c e v' c' X r E He HX Hin Hc; cbn [to] in E;
    assert (Hsame : c' = c -> exists X', X' <> [] /\ suf X' X /\ at_ (X' ++ r) c') by (intros ->; exists X; split; [exact HX|]; split; [apply suf_refl|exact Hc]).
  - unfold string_to in E. injection E as _ _ <-. apply Hsame. reflexivity.
  - unfold nullable_to in E. destruct (type_eqb _ _); [injection E as _ _ <-; apply Hsame; reflexivity|]. exact (IH _ _ _ _ _ X r E He HX Hin Hc).
  - unfold nullable_checked_to in E. destruct v; try discriminate E. destruct (type_eqb _ _); [injection E as _ _ <-; apply Hsame; reflexivity|].
    destruct (to next fuel t _ c) as [[[e1 v1] c1]| |] eqn:E1; cbn [obind] in E; try discriminate E. injection E as -> _ ->. exact (IH _ _ _ _ _ X r E1 He HX Hin Hc).
  - exact (IH _ _ _ _ _ X r E He HX Hin Hc).
  - unfold optional_checked_to in E. destruct v; try discriminate E.
    destruct (to next fuel t _ c) as [[[e1 v1] c1]| |] eqn:E1; cbn [obind] in E; try discriminate E. injection E as -> _ ->. exact (IH _ _ _ _ _ X r E1 He HX Hin Hc).
  - unfold std_optional_to in E.
    destruct (to next fuel t _ c) as [[[e1 v1] c1]| |] eqn:E1; cbn [obind] in E; try discriminate E. injection E as -> _ ->. exact (IH _ _ _ _ _ X r E1 He HX Hin Hc).
  - unfold ptr_to in E. destruct v; try discriminate E. destruct (type_eqb _ _); [injection E as _ _ <-; apply Hsame; reflexivity|].
    destruct (to next fuel t _ c) as [[[e1 v1] c1]| |] eqn:E1; cbn [obind] in E; try discriminate E. injection E as -> _ ->. exact (IH _ _ _ _ _ X r E1 He HX Hin Hc).
  - exact (IH _ _ _ _ _ X r E He HX Hin Hc).
  - unfold one_or_many_to in E. destruct (type_eqb (c_type c) TArrayStart) eqn:Et.
    + unfold vec_to in E. rewrite Et in E. apply type_eqb_true in Et. destruct X as [|w X]; [congruence|]. cbn [app] in Hc.
      rewrite (at_type _ _ _ Hc) in Et. destruct Hin as (A & HA). destruct (bal_match _ HA A w X eq_refl (or_introl Et)) as (Y & z & R & Hp & -> & HY).
      assert (Hz : st_value_type z = TArrayEnd) by (destruct Hp as [(_ & K & _)|(K & _)]; congruence).
      assert (Hn : exists c2, ctx_next next c = Ok (NoError, c2) /\ at_ (Y ++ z :: R ++ r) c2).
      { rewrite <- app_assoc in Hc. cbn [app] in Hc. destruct Y as [|y Y]; cbn [app] in *; destruct (next_more _ _ _ _ Hc) as (c2 & ? & ? & _); eauto. }
      destruct Hn as (c2 & En & H2). rewrite En in E. cbn [obind is_ok] in E.
      destruct (vec_loop _ _ _ _ _ c2) as [[[e1 l1] c1]| |] eqn:E1; cbn [obind] in E; try discriminate E. injection E as -> _ <-.
      destruct (vec_stays (init t) _ z (R ++ r) IH Hz _ _ _ _ _ _ Y E1 He (ex_intro _ [] HY) H2) as (Z' & HZ & H3).
      exists (Z' ++ z :: R). split; [destruct Z'; discriminate|]. split.
      * apply (suf_trans _ (Y ++ z :: R)); [apply suf_app_r; exact HZ|apply suf_cons].
      * rewrite <- app_assoc. exact H3.
    + destruct v; try discriminate E.
      destruct (to next fuel t _ c) as [[[e1 v1] c1]| |] eqn:E1; cbn [obind] in E; try discriminate E. injection E as -> _ <-.
      destruct (IH _ _ _ _ _ X r E1 He HX Hin Hc) as (X' & A1 & A2 & A3). exists X'. auto.
Qed.

(** ** Maps *)

Notation done := (@done S Inv mu fp).
Notation ends := (@ends S Inv mu fp).
Ltac ub := match goal with U : _ = UB |- _ => rewrite U; left; split; [assumption|reflexivity] end.
Ltac fin := right; do 3 eexists; split; [reflexivity|]; cbn [set_err c_src c_tok]; repeat split; auto; try congruence; try lia.

(** Whatever the value handler takes, the loop is still before the closing bracket. *)
Lemma map_inside fuel t z r : string_like t = true -> ends fuel (shaped t) (to next fuel t) -> st_value_type z = TObjectEnd ->
  forall f e m c Z, f <= fuel -> Forall (fun kv => shaped t (snd kv)) m -> inside Z -> at_ (Z ++ z :: r) c -> suf (Z ++ z :: r) W -> mu (c_src c) < f ->
  done (Forall (fun kv => shaped t (snd kv))) (mu (c_src c)) (map_loop next f (init t) (to next fuel t) e m c).
Proof.
  intros Hsl Hh Hz. induction f as [|f IH]; intros e m c Z Hf Hm HZ Hc Hs Hmu; [lia|]. cbn [map_loop].
  assert (Hi := at_Inv _ _ Hc Hs).
  destruct (type_eqb _ _) eqn:Et; [fin|]. cbv zeta.
  destruct Z as [|w Z]; [cbn [app] in Hc; rewrite (at_type _ _ _ Hc), Hz in Et; discriminate Et|].
  destruct (Hh (init t) c (init_shaped t) Hi ltac:(lia)) as [[HU U]|(e1 & v1 & c1 & E1 & Hv1 & Hi1 & Hm1)]; [ub|]. rewrite E1. cbn [obind].
  assert (Hm' := map_put_keeps (shaped t) (escapes_in (c_name c)) v1 m Hv1 Hm).
  destruct (is_ok e1) eqn:Eo; [apply is_ok_NoError in Eo; subst e1; specialize (Hm1 eq_refl)|fin; intros ->; discriminate Eo].
  destruct (to_stays fuel t Hsl _ _ _ _ _ (w :: Z) (z :: r) E1 eq_refl ltac:(discriminate) HZ Hc) as (X' & HX & Hs' & H1).
  destruct X' as [|w' X']; [congruence|]. clear HX. cbn [app] in H1.
  assert (Hn : exists c2, ctx_next next c1 = Ok (NoError, c2) /\ at_ (X' ++ z :: r) c2 /\ mu (c_src c2) < mu (c_src c1)).
  { destruct X' as [|w2 X']; cbn [app] in *; destruct (next_more _ _ _ _ H1) as (c2 & ? & ? & ?); eauto. }
  destruct Hn as (c2 & En & H2 & M2). rewrite En. cbn [obind].
  assert (S2 : suf X' (w :: Z)) by exact (suf_trans _ _ _ (suf_cons _ _) Hs').
  destruct (IH NoError _ c2 X' ltac:(lia) Hm' (inside_suf _ _ S2 HZ) H2 (suf_trans _ _ _ (suf_app_r _ _ (z :: r) S2) Hs) ltac:(lia)) as [[HU U]|(e3 & a3 & c3 & E3 & Q3 & I3 & M3)]; [ub|].
  rewrite E3. fin; intros K; specialize (M3 K); lia.
Qed.

(** Any other value handler makes progress or fails at the end of the document. *)
Lemma map_progress fuel t : string_like t = false -> ends fuel (shaped t) (to next fuel t) -> (forall A v, W = A ++ [v] -> closing v) ->
  forall f e m c, f <= fuel -> Forall (fun kv => shaped t (snd kv)) m -> Inv (c_tok c) (c_src c) -> mu (c_src c) < f ->
  done (Forall (fun kv => shaped t (snd kv))) (mu (c_src c)) (map_loop next f (init t) (to next fuel t) e m c).
Proof.
  intros Hsl Hh Hcl. induction f as [|f IH]; intros e m c Hf Hm Hi Hmu; [lia|]. cbn [map_loop].
  destruct (type_eqb _ _) eqn:Et; [fin|]. cbv zeta.
  destruct (Hh (init t) c (init_shaped t) Hi ltac:(lia)) as [[HU U]|(e1 & v1 & c1 & E1 & Hv1 & Hi1 & Hm1)]; [ub|]. rewrite E1. cbn [obind].
  assert (Hm' := map_put_keeps (shaped t) (escapes_in (c_name c)) v1 m Hv1 Hm).
  destruct (is_ok e1) eqn:Eo; [apply is_ok_NoError in Eo; subst e1; specialize (Hm1 eq_refl)|fin; intros ->; discriminate Eo].
  destruct (Inv_at c1 Hi1) as (l & Hl & Hs). destruct l as [|w l]; [destruct Hl as (? & K & _); discriminate K|].
  destruct l as [|w2 l].
  - destruct (next_last _ _ Hl) as (e2 & c2 & En & He2 & H2). rewrite En. cbn [obind].
    assert (I2 := at_Inv _ _ H2 Hs). destruct Hs as (A & HA). specialize (Hcl _ _ HA).
    assert (P1 := Hpos (c_src c1)). assert (P2 := Hpos (c_src c2)). destruct f as [|f]; [lia|]. cbn [map_loop]. rewrite (at_type _ _ _ H2).
    destruct Hcl as [[Ct Cv]|[Ct Cv]]; rewrite Ct; cbn [type_eqb]; [|fin].
    destruct (rejects fuel t Hsl (init t) c2 (init_shaped t)) as (e4 & v4 & c4 & E4 & He4 & Hv4 & A4 & B4); [rewrite (at_type _ _ _ H2); exact Ct|rewrite (at_value _ _ _ H2); exact Cv|].
    cbn. rewrite E4. cbn [obind]. destruct (is_ok e4) eqn:Eo; [apply is_ok_NoError in Eo; congruence|].
    right. do 3 eexists. split; [reflexivity|]. rewrite A4, B4. split; [apply map_put_keeps; assumption|]. split; [exact I2|congruence].
  - destruct (next_more _ _ _ _ Hl) as (c2 & En & H2 & M2). rewrite En. cbn [obind].
    destruct (IH NoError _ c2 ltac:(lia) Hm' (at_Inv _ _ H2 (suf_trans _ _ _ (suf_cons _ _) Hs)) ltac:(lia)) as [[HU U]|(e3 & a3 & c3 & E3 & Q3 & I3 & M3)]; [ub|].
    rewrite E3. fin; intros K; specialize (M3 K); lia.
Qed.

Lemma map_ends fuel t : ty_ok t -> ends fuel (shaped t) (to next fuel t) -> ends fuel (shaped (YMap t)) (to next fuel (YMap t)).
Proof.
  intros Hok Hh v c Hv Hi Hm. cbn [to]. unfold map_to. cbn in Hv. destruct v as [| | | | | | | |m]; try contradiction.
  destruct (type_eqb _ _) eqn:Et; [apply type_eqb_true in Et|fin].
  destruct (Inv_at c Hi) as (l & Hl & Hs). destruct l as [|w l]; [destruct Hl as (? & K & _); discriminate K|].
  assert (Ew := at_type _ _ _ Hl). rewrite Et in Ew. destruct Hs as (A & HA).
  destruct (bal_match _ HW _ _ _ HA (or_intror (eq_sym Ew))) as (Y & z & R & Hp & El & HY). subst l.
  assert (Hz : st_value_type z = TObjectEnd) by (destruct Hp as [(K & _)|(_ & K & _)]; congruence).
  assert (Hn : exists c2, ctx_next next c = Ok (NoError, c2) /\ at_ (Y ++ z :: R) c2 /\ mu (c_src c2) < mu (c_src c)).
  { destruct Y as [|y Y]; cbn [app] in *; destruct (next_more _ _ _ _ Hl) as (c2 & ? & ? & ?); eauto. }
  destruct Hn as (c2 & En & H2 & M2). rewrite En. cbn [obind is_ok].
  assert (S2 : suf (Y ++ z :: R) W) by (exists (A ++ [w]); rewrite <- app_assoc; exact HA).
  assert (Hd : done (Forall (fun kv => shaped t (snd kv))) (mu (c_src c2)) (map_loop next fuel (init t) (to next fuel t) NoError m c2)).
  { destruct (string_like t) eqn:Hsl.
    - apply (map_inside fuel t z R Hsl Hh Hz fuel NoError m c2 Y); auto; [exists []; exact HY|lia].
    - assert (Hcl : forall A v, W = A ++ [v] -> closing v).
      { destruct Hlast as [(v & E & K)|K]; [|exact K]. rewrite E in HA. destruct A as [|? A]; [destruct Y; discriminate HA|].
        injection HA as _ HA. destruct A; discriminate HA. }
      apply (map_progress fuel t Hsl Hh Hcl); auto; [exact (at_Inv _ _ H2 S2)|lia]. }
  destruct Hd as [[HU U]|(e3 & a3 & c3 & E3 & Q3 & I3 & M3)]; [ub|]. rewrite E3. cbn [obind]. fin; intros K; specialize (M3 K); lia.
Qed.

Theorem to_ends_doc fuel t : ty_ok t -> (fp = true \/ fp_free t = true) -> ends fuel (shaped t) (to next fuel t).
Proof. intros Hok Hf. apply (to_ends next Inv mu fp true Hnext (fun _ => map_ends)); auto. Qed.
End Doc.

(** ** The tokenizer at the end of a document *)

Lemma populateNext_keeps o buf : forall f tmp nt s s1 e nt1, populateNext f o buf tmp nt s = Ok (s1, e, nt1) -> e <> NoError -> nt1 = nt.
Proof.
  induction f as [|f IH]; intros tmp nt s s1 e nt1; [discriminate|]. cbn [populateNext].
  destruct (t_cur s <? length buf); [|intros [= <- <- <-]; reflexivity].
  destruct (t_tok s).
  - destruct (populateFromDataRef _ _ _ s) as [[[[s2 e2] [off size]] ty]| |]; cbn [obind]; try discriminate.
    destruct e2; try (intros [= <- <- <-]; reflexivity).
    + destruct (slice _ _ _) as [raw| |]; cbn [obind]; try discriminate.
      destruct (if im_active (t_im s2) then _ else _) as [[s3 d] ty2].
      destruct ty2; try (destruct (_ && _); intros [= <- <- <-]; congruence); try (intros [= <- <- <-]; congruence); apply IH.
    + destruct (prop_gt_nostart _); [|intros [= <- <- <-]; reflexivity].
      destruct (slice _ _ _); cbn [obind]; try discriminate. intros [= <- <- <-]. reflexivity.
  - destruct (findDelimiter _ _ _ _) as [? ?|nx ? ?|]; try discriminate.
    + intros [= <- <- <-]. reflexivity.
    + destruct nx; try (intros [= <- <- <-]; congruence); (destruct (_ && _); [intros [= <- <- <-]; reflexivity|apply IH]).
  - destruct (populateFromDataRef _ _ _ s) as [[[[s2 e2] [off size]] ty]| |]; cbn [obind]; try discriminate.
    destruct e2; try (intros [= <- <- <-]; reflexivity).
    + destruct (slice _ _ _) as [raw| |]; cbn [obind]; try discriminate.
      destruct (if im_active (t_im s2) then _ else _) as [[[[s3 name] nty] d] ty2].
      destruct (_ && _); intros [= <- <- <-]; congruence.
    + destruct (prop_gt_nostart _); [|intros [= <- <- <-]; reflexivity].
      destruct (slice _ _ _); cbn [obind]; try discriminate. intros [= <- <- <-]. reflexivity.
  - destruct (findTokenEnd _ _ _ _) as [? ?|? ? comma|]; try discriminate.
    + intros [= <- <- <-]. reflexivity.
    + apply IH.
Qed.
Lemma buffer_loop_need o : forall f nt s s1 nt1, buffer_loop f o nt s = Ok (s1, NeedMoreData, nt1) -> t_bufs s1 = [] /\ nt1 = nt.
Proof.
  induction f as [|f IH]; intros nt s s1 nt1; cbn [buffer_loop].
  { destruct (t_bufs s) eqn:E; [intros [= <- <-]; auto|discriminate]. }
  destruct (t_bufs s) as [|buf bs] eqn:Hb; [intros [= <- <-]; auto|].
  destruct (populateNext _ _ _ _ _ _) as [[[s2 e2] nt2]| |] eqn:E; cbn [obind]; try discriminate.
  destruct e2; try discriminate. apply populateNext_keeps in E; [|discriminate]. subst nt2.
  destruct (releaseFirstDataRef s2) as [s3| |]; cbn [obind]; try discriminate. apply IH.
Qed.
Lemma nextToken_need o nt s s1 nt1 : t_parsed s = None -> nextToken o nt s = Ok (s1, NeedMoreData, nt1) -> t_bufs s1 = [] /\ nt1 = nt.
Proof.
  intros Hp. unfold nextToken. destruct (match t_scope s with (_, d) :: _ => (d =? 0)%N | [] => false end); [discriminate|]. rewrite Hp. cbv zeta.
  set (s0 := match t_bufs s with [] => requestMoreData s | _ => s end). destruct (t_bufs s0) eqn:Hb; [intros [= <- <-]; auto|].
  destruct (buffer_loop _ _ _ _) as [[[s2 e2] nt2]| |] eqn:E; cbn [obind]; try discriminate.
  destruct e2; try discriminate.
  - destruct (tk_value_type nt2); try discriminate; cbn [t_stack set_cont]; destruct (t_stack s2) as [|[] ?]; discriminate.
  - intros [= <- <-]. exact (buffer_loop_need _ _ _ _ _ _ E).
Qed.

(** What is left of a document given as one text. *)
Definition rest (o : opts) (text : bytes) (l : list stoken) (nt : token) (s : tstate) : Prop :=
  tok_inv s /\ single text s /\ t_scope s = [] /\
  exists s1 nt1, feeds (nextToken o) nt s l s1 nt1 /\ exists s2 nt2, nextToken o nt1 s1 = Ok (s2, NeedMoreData, nt2).

Lemma rest_cons o text w l nt s : rest o text (w :: l) nt s ->
  exists s' nt', nextToken o nt s = Ok (s', NoError, nt') /\ tok_view nt' = w /\ rest o text l nt' s' /\ weight s' + 1 < weight s + 1.
Proof.
  intros (Hi & Hs & Hsc & s1 & nt1 & F & L). inversion F as [|? ? s2 nt2 ? ? ? ? En Ev F2]; subst.
  exists s2, nt2. split; [exact En|]. split; [reflexivity|].
  destruct (nextToken_ok o nt s Hi) as (s1' & e' & nt1' & E' & Hi' & _ & _ & _ & Hw). rewrite En in E'. injection E' as <- <- <-. specialize (Hw eq_refl).
  destruct (nextToken_single _ _ _ _ _ _ _ Hs En) as [Hs' _].
  split; [|lia]. repeat split; auto; try apply Hi'; try apply Hs'; [exact (next_no_scope _ _ _ _ _ _ Hsc En)|]. exists s1, nt1. auto.
Qed.
Lemma rest_nil o text nt s : rest o text [] nt s -> exists s' e, nextToken o nt s = Ok (s', e, nt) /\ e <> NoError /\ rest o text [] nt s'.
Proof.
  intros (Hi & Hs & Hsc & s1 & nt1 & F & s2 & nt2 & En). inversion F; subst.
  destruct (nextToken_need o nt1 s1 s2 nt2 (proj1 Hs) En) as [Hb ->].
  destruct (nextToken_ok o nt1 s1 Hi) as (s1' & e' & nt1' & E' & Hi' & _). rewrite En in E'. injection E' as <- <- <-.
  destruct (nextToken_single _ _ _ _ _ _ _ Hs En) as [Hs' _]. assert (Hsc' := next_no_scope _ _ _ _ _ _ Hsc En).
  exists s2, NeedMoreData. split; [exact En|]. split; [discriminate|].
  split; [exact Hi'|]. split; [exact Hs'|]. split; [exact Hsc'|]. exists s2, nt1. split; [constructor|].
  destruct Hs' as (P1 & P2 & _). unfold nextToken. rewrite Hsc', P1, Hb. unfold requestMoreData. rewrite P2. cbv zeta. rewrite Hb. eauto.
Qed.

Lemma drain_rest o f : forall nt s ts s', drain f o nt s = Ok (ts, NeedMoreData, s') ->
  exists s1 nt1, feeds (nextToken o) nt s (map tok_view ts) s1 nt1 /\ exists s2 nt2, nextToken o nt1 s1 = Ok (s2, NeedMoreData, nt2).
Proof.
  induction f as [|f IH]; intros nt s ts s' H; cbn [drain] in H; [discriminate H|].
  destruct (nextToken o nt s) as [[[s1 e1] nt1]| |] eqn:E; cbn [obind] in H; try discriminate H.
  destruct e1; try discriminate H.
  - destruct (drain f o nt1 s1) as [[[ts1 e1] s2]| |] eqn:D; cbn [obind] in H; try discriminate H. injection H as <- -> <-.
    destruct (IH _ _ _ _ D) as (sa & na & F & L). exists sa, na. split; [|exact L]. cbn [map]. econstructor; [exact E|reflexivity|exact F].
  - injection H as <- <-. exists s, nt. split; [constructor|eauto].
Qed.

Lemma doc_ends o g t v j text fp : o_nl o = false -> doc_text plain j text -> ty_ok t -> (fp = true \/ fp_free t = true) -> shaped t v ->
  (exists e v' r, parses o g t v text e v' r) \/ (fp = true /\ exists n, forall fuel, n <= fuel -> parse_text o g fuel t v text = UB).
Proof.
  intros Ho Hd Ht Hp Hv. set (s0 := c_src (context_of g text)).
  assert (I0 : tok_inv s0) by (apply (reachable_inv o); apply R_add; [apply R_init|reflexivity]).
  assert (R0 : rest o text (doc_tokens None j) tok_default s0).
  { split; [exact I0|]. split; [repeat split; right; repeat split; cbn; lia|]. split; [reflexivity|].
    destruct (C03_document_tokens o j text Ho Hd tok_default) as (f & ts & s & Hdr & Hvw). rewrite <- Hvw. exact (drain_rest _ _ _ _ _ _ Hdr). }
  assert (B := doc_bal j None). assert (L := doc_one_value None j). remember (doc_tokens None j) as W eqn:EW.
  destruct W as [|w W]; [destruct j; discriminate EW|].
  destruct (rest_cons _ _ _ _ _ _ R0) as (s1 & nt1 & En & Ev & R1 & M1).
  set (mu := fun s => weight s + 1). set (fuel := mu s1 + 1).
  enough (H : (exists e v' r, parse_text o g fuel t v text = Ok (e, v', r)) \/ (fp = true /\ forall f, fuel <= f -> parse_text o g f t v text = UB)).
  { destruct H as [(e & v' & r & H)|[Hfp H]]; [left; exists e, v', r; apply parses_iff; eauto|right; split; [exact Hfp|exists fuel; exact H]]. }
  assert (E1 : exists c, ctx_next (nextToken o) (context_of g text) = Ok (NoError, c) /\ c_src c = s1 /\ c_tok c = nt1).
  { unfold ctx_next, ctx_read. change (c_tok (context_of g text)) with tok_default. fold s0. rewrite En. cbn [obind]. eexists. split; [reflexivity|]. auto. }
  destruct E1 as (c & E & Ec & Et). unfold parse_text, parseTo. rewrite E. cbn [obind is_ok].
  assert (Hi : Inv (rest o text) (w :: W) (c_tok c) (c_src c)).
  { exists W. rewrite Ec, Et, Ev. split; [exact R1|apply suf_refl]. }
  destruct (to_ends_doc (nextToken o) mu fp (rest o text) (w :: W) (rest_cons o text) (rest_nil o text) ltac:(unfold mu; intros; lia) B L fuel t Ht Hp v c Hv Hi ltac:(rewrite Ec; unfold fuel; lia)) as [[Hfp E2]|(e2 & v2 & c2 & E2 & _)].
  - right. split; [exact Hfp|]. intros f Hf. destruct (to_below (nextToken o) t fuel f Hf v c) as [K|K]; rewrite E2 in K; [discriminate K|rewrite K; reflexivity].
  - left. rewrite E2. cbn. eauto.
Qed.

