(** Proofs for C69. *)
From Verif Require Import Base Tactics ScanModel TokModel JsonSpec TokSpec EscapeModel IntModel SerModel WriteModel HandlerModel HandlerSpec EscapeProofs HandlerTree HandlerLaws HandlerProps HandlerText HandlerTerm ErrMsgModel EnumValModel EnumValSpec.
From Coq Require Import String List Lia.
Import ListNotations.
Local Open Scope list_scope.

Lemma mty_rect_nested (P : mty -> Prop) :
  (forall t, P (MTy t)) -> (forall u l, P (MEnum u l)) -> P MError -> (forall m, P m -> P (MVec m)) -> (forall m, P m -> P (MMap m)) ->
  (forall m, P m -> P (MStdOptional m)) -> (forall b fs, Forall (fun f => P (snd f)) fs -> P (MStruct b fs)) -> forall m, P m.
Proof.
  intros H1 H2 H3 H4 H5 H6 H7. fix F 1. intros [t|u l| |m|m|m|b fs]; [exact (H1 t)|exact (H2 u l)|exact H3|exact (H4 m (F m))|exact (H5 m (F m))|exact (H6 m (F m))|].
  apply H7. induction fs as [|f fs IH]; constructor; [apply F|exact IH].
Qed.

Section Sim.
Context {S : Type} (next : token -> S -> outcome (S * error * token)).
Notation handler := (handler S).

Definition hsim (R : val -> val -> Prop) (h h' : handler) : Prop := forall v v' c, R v v' -> same_run R (h v c) (h' v' c).

Lemma same_refl {A C} (P : A -> A -> Prop) (x : outcome (error * A * C)) : (forall a, P a a) -> same_run P x x.
Proof. intros H. destruct x as [[[e a] c]| |]; cbn; auto. Qed.
Lemma same_bind {A B C D} (P : A -> A -> Prop) (Q : B -> B -> Prop) (x y : outcome (error * A * C)) (k k' : error * A * C -> outcome (error * B * D)) :
  same_run P x y -> (forall e a a' c, (e = NoError -> P a a') -> same_run Q (k (e, a, c)) (k' (e, a', c))) -> same_run Q (obind x k) (obind y k').
Proof.
  intros H K. destruct x as [[[e a] c]| |], y as [[[e' a'] c']| |]; cbn in H |- *; try contradiction; auto.
  destruct H as (<- & <- & H). apply K. exact H.
Qed.
Lemma same_step {A B C} (Q : A -> A -> Prop) (x : outcome B) (k k' : B -> outcome (error * A * C)) :
  (forall b, same_run Q (k b) (k' b)) -> same_run Q (obind x k) (obind x k').
Proof. intros H. destruct x; cbn; auto. Qed.

Lemma vec_sim (R : val -> val -> Prop) d d' h h' : R d d' -> hsim R h h' -> forall f acc acc' c, Forall2 R acc acc' ->
  same_run (Forall2 R) (vec_loop next f d h acc c) (vec_loop next f d' h' acc' c).
Proof.
  intros Hd Hh. induction f as [|f IH]; intros acc acc' c Ha; cbn [vec_loop]; [exact I|].
  destruct (type_eqb _ _); [cbn; auto|].
  apply (same_bind R); [apply Hh, Hd|]. intros e a a' c1 Hv. destruct (is_ok e) eqn:Eo.
  - apply is_ok_NoError in Eo. apply same_step. intros [e2 c2].
    assert (Ha2 : Forall2 R (acc ++ [a]) (acc' ++ [a'])) by (apply Forall2_app; auto).
    destruct (is_ok e2); [apply IH, Ha2|cbn; auto].
  - cbn. repeat split. intros ->. discriminate Eo.
Qed.
Definition map_rel (R : val -> val -> Prop) (l l' : list (bytes * val)) : Prop := Forall2 (fun kv kv' => fst kv = fst kv' /\ R (snd kv) (snd kv')) l l'.
Lemma map_put_rel (R : val -> val -> Prop) k v v' l l' : R v v' -> map_rel R l l' -> map_rel R (map_put k v l) (map_put k v' l').
Proof.
  intros Hv H. induction H as [|[k1 v1] [k2 v2] l l' [E1 E2] H IH]; cbn [map_put]; [repeat constructor; assumption|].
  cbn in E1, E2. subst k2. destruct (bytes_eqb k k1); constructor; cbn; auto.
Qed.
Lemma map_sim (R : val -> val -> Prop) d d' h h' : R d d' -> hsim R h h' -> forall f e acc acc' c, map_rel R acc acc' ->
  same_run (map_rel R) (map_loop next f d h e acc c) (map_loop next f d' h' e acc' c).
Proof.
  intros Hd Hh. induction f as [|f IH]; intros e acc acc' c Ha; cbn [map_loop]; [exact I|].
  destruct (type_eqb _ _); [cbn; auto|]. cbv zeta.
  apply (same_bind R); [apply Hh, Hd|]. intros e1 a a' c1 Hv. destruct (is_ok e1) eqn:Eo.
  - apply is_ok_NoError in Eo. apply same_step. intros [e2 c2]. apply IH, map_put_rel; auto.
  - cbn. repeat split. intros ->. discriminate Eo.
Qed.

Lemma put_length {A} (x : A) : forall i l, length (put i x l) = length l.
Proof. induction i as [|i IH]; intros [|y l]; cbn; auto. Qed.
Lemma put_nth {A} (x : A) : forall i l k, nth_error (put i x l) k = if (i =? k)%nat then match nth_error l k with Some _ => Some x | None => None end else nth_error l k.
Proof. induction i as [|i IH]; intros [|y l] [|k]; cbn; auto; try (destruct (_ =? _)%nat; reflexivity). Qed.
Lemma put_rel Rs l l' i v v' : members_rel Rs l l' -> nth i Rs eq v v' -> members_rel Rs (put i v l) (put i v' l').
Proof.
  intros H Hv k. rewrite !put_nth. specialize (H k). destruct (i =? k)%nat eqn:E; [|exact H].
  apply Nat.eqb_eq in E. subst k. destruct (nth_error l i), (nth_error l' i); cbn in *; auto.
Qed.

(** Fields with the same names whose handlers do the same. *)
Definition fields_sim (Rs : list (val -> val -> Prop)) (fs fs' : list (field S)) : Prop :=
  map f_names fs = map f_names fs' /\ map (fun f => (f_super f, f_names f, f_optional f)) fs = map (fun f => (f_super f, f_names f, f_optional f)) fs' /\
  forall k, match nth_error fs k, nth_error fs' k with
            | Some f, Some f' => hsim (nth k Rs eq) (f_to f) (f_to f')
            | None, None => True | _, _ => False end.

Definition same_run4 Rs (x y : outcome (error * list val * list bool * ctx S)) : Prop :=
  match x, y with
  | Ok (e, a, b, c), Ok (e', a', b', c') => e = e' /\ b = b' /\ c = c' /\ (e = NoError -> members_rel Rs a a')
  | UB, UB | OutOfFuel, OutOfFuel => True
  | _, _ => False
  end.
Lemma struct_sim Rs fs fs' order : fields_sim Rs fs fs' -> forall f vs vs' a c, members_rel Rs vs vs' ->
  same_run4 Rs (struct_loop next f order fs vs a c) (struct_loop next f order fs' vs' a c).
Proof.
  intros (En & _ & Hf). induction f as [|f IH]; intros vs vs' a c Hv; cbn [struct_loop]; [exact I|]. rewrite <- En.
  destruct (type_eqb _ _); [cbn; auto|]. destruct (search_both _ _ _) as [i|].
  - specialize (Hf i). destruct (nth_error fs i) as [x|], (nth_error fs' i) as [x'|]; try contradiction; [|exact I].
    assert (Hi := Hv i). destruct (nth_error vs i) as [v|], (nth_error vs' i) as [v'|]; cbn in Hi; try contradiction; [|exact I].
    specialize (Hf v v' c Hi). destruct (f_to x v c) as [[[e1 v1] c1]| |], (f_to x' v' c) as [[[e1' v1'] c1']| |]; cbn in Hf |- *; try contradiction; auto.
    destruct Hf as (<- & <- & Hf). cbv zeta. destruct (is_ok (matchedMemberResult e1)) eqn:Eo.
    + assert (e1 = NoError) by (destruct e1; try discriminate Eo; reflexivity). subst e1. specialize (Hf eq_refl).
      assert (Hp := put_rel _ _ _ _ _ _ Hv Hf). destruct (ctx_next next c1) as [[e2 c2]| |]; cbn; auto.
      destruct (is_ok e2); [apply IH, Hp|cbn; auto].
    + cbn. repeat split. intros K. rewrite K in Eo. discriminate Eo.
  - cbv zeta. destruct (pc_allow_missing _); [|cbn; auto]. destruct (skipArrayOrObject _ _ _) as [c1| |]; cbn; auto.
    destruct (is_ok (c_err c1)); [|cbn; auto]. destruct (ctx_next next c1) as [[e2 c2]| |]; cbn; auto.
    destruct (is_ok e2); [apply IH, Hv|cbn; auto].
Qed.

Lemma m_optional_as m : m_optional m = is_optional (as_ty m).
Proof. destruct m; reflexivity. Qed.
Lemma alike_init (E : val -> Prop) m : E (VInt 0) -> alike_in E m (minit m) (init (as_ty m)).
Proof.
  intros HE. induction m as [t|u l| |m IH|m IH|m IH|b fs IH] using mty_rect_nested; cbn; auto; try constructor.
  intros k. revert k. induction IH as [|f fs Hf _ IHfs]; intros [|k]; cbn; auto.
Qed.

Lemma all_fixed_struct b fs : all_fixed (MStruct b fs) <-> Forall (fun f => all_fixed (snd f)) fs.
Proof.
  cbn. split; intros H.
  - induction fs as [|f fs IH]; constructor; [apply H|apply IH, H].
  - induction H; auto.
Qed.

Theorem mto_sim (E : val -> Prop) fuel m : E (VInt 0) -> all_fixed m -> hsim (alike_in E m) (mto next fuel m) (to next fuel (as_ty m)).
Proof.
  intros HE. induction m as [t|u l| |m IH|m IH|m IH|b fs IH] using mty_rect_nested; intros Hx v v' c Hv; cbn [mto to as_ty].
  - cbn in Hv. subst v'. apply same_refl. reflexivity.
  - unfold enum_value_to, integer_to. destruct (int_to u (c_value c)) as [[e z]| |]; cbn [obind]; try exact I.
    destruct (is_ok e) eqn:Eo; cbn in Hx; [rewrite Hx; cbn; auto|]. cbn. repeat split. intros ->. discriminate Eo.
  - cbn. auto.
  - unfold vec_to. destruct (type_eqb _ _).
    + apply same_step. intros [e c1]. destruct (is_ok e); [|cbn; auto].
      apply (same_bind (Forall2 (alike_in E m))); [apply vec_sim; [apply alike_init, HE|apply IH, Hx|constructor]|]. intros e2 a a' c2 Ha. cbn. auto.
    + cbn. repeat split. discriminate.
  - unfold map_to. cbn in Hv.
    assert (Hc : (exists l l', v = VMap l /\ v' = VMap l' /\ map_rel (alike_in E m) l l') \/ (v = v' /\ match v with VMap _ => False | _ => True end)).
    { destruct v; try (right; split; [exact Hv|exact I]). destruct v'; try discriminate Hv. left. eauto. }
    destruct Hc as [(l & l' & -> & -> & Hl)|[<- Hc]]; [|destruct v; try exact I; contradiction].
    destruct (type_eqb _ _).
    + apply same_step. intros [e c1]. destruct (is_ok e); [|cbn; auto].
      apply (same_bind (map_rel (alike_in E m))); [apply map_sim; [apply alike_init, HE|apply IH, Hx|exact Hl]|]. intros e2 a a' c2 Ha. cbn. auto.
    + cbn. repeat split. discriminate.
  - unfold std_optional_to. apply (same_bind (alike_in E m)); [apply IH; [exact Hx|apply alike_init, HE]|]. intros e a a' c1 Ha. cbn. auto.
  - unfold struct_to. cbn in Hv.
    assert (Hc : (exists l l', v = VList l /\ v' = VList l' /\ members_rel (map (fun f => alike_in E (snd f)) fs) l l') \/ (v = v' /\ match v with VList _ => False | _ => True end)).
    { destruct v; try (right; split; [exact Hv|exact I]). destruct v'; try discriminate Hv. left. eauto. }
    destruct Hc as [(l & l' & -> & -> & Hl)|[<- Hc]]; [|destruct v; try exact I; contradiction].
    destruct (type_eqb _ _); [|cbn; repeat split; discriminate].
    apply same_step. intros [e c1]. destruct (is_ok e); [|cbn; auto]. cbv zeta.
    match goal with |- same_run _ (obind (struct_loop _ _ _ ?A _ _ _) _) (obind (struct_loop _ _ _ ?B _ _ _) _) => set (fa := A); set (fb := B) end.
    assert (Hs : fields_sim (map (fun f => alike_in E (snd f)) fs) fa fb).
    { apply all_fixed_struct in Hx. unfold fa, fb. clear -IH Hx. split; [|split].
      - rewrite !map_map. reflexivity.
      - rewrite !map_map. apply map_ext. intros f. cbn. rewrite m_optional_as. reflexivity.
      - intros k. revert k. induction IH as [|f fs Hf _ IHfs]; intros [|k]; cbn; auto; inversion Hx; subst; [auto|]. apply IHfs. assumption. }
    assert (El : length fa = length fb) by (unfold fa, fb; rewrite !map_length; reflexivity). rewrite El.
    assert (H := struct_sim _ _ _ (search_order 0 b) Hs fuel l l' (repeat false (length fb)) c1 Hl).
    destruct Hs as (_ & Hu & _). rewrite Hu.
    destruct (struct_loop _ _ _ fa _ _ _) as [[[[e2 vs2] a2] c2]| |], (struct_loop _ _ _ fb _ _ _) as [[[[e2' vs2'] a2'] c2']| |]; cbn in H |- *; try contradiction; auto.
    destruct H as (<- & <- & <- & H). destruct (is_ok e2) eqn:Eo; [apply is_ok_NoError in Eo; specialize (H Eo)|cbn; repeat split; intros ->; discriminate Eo].
    destruct (unassigned_of _ _ _); cbn; auto.
Qed.

Theorem mparseTo_sim (E : val -> Prop) fuel m v v' c : E (VInt 0) -> all_fixed m -> alike_in E m v v' -> same_run (alike_in E m) (mparseTo next fuel m v c) (parseTo next fuel (as_ty m) v' c).
Proof.
  intros HE Hx Hv. unfold mparseTo, parseTo. apply same_step. intros [e c1]. destruct (is_ok e); [|cbn; auto].
  apply (same_bind (alike_in E m)); [apply mto_sim; assumption|]. intros e2 a a' c2 Ha. cbn. auto.
Qed.

(** An Error is left as it was. *)
Lemma struct_keeps fs order i : (forall f, nth_error fs i = Some f -> forall v c e v' c', f_to f v c = Ok (e, v', c') -> v' = v) ->
  forall f vs a c e vs' a' c', struct_loop next f order fs vs a c = Ok (e, vs', a', c') -> nth_error vs' i = nth_error vs i.
Proof.
  intros Hf. induction f as [|f IH]; intros vs a c e vs' a' c' E; cbn [struct_loop] in E; [discriminate E|].
  destruct (type_eqb _ _); [injection E as _ <- _ _; reflexivity|]. destruct (search_both _ _ _) as [k|].
  - destruct (nth_error fs k) as [x|] eqn:Ek; [|discriminate E]. destruct (nth_error vs k) as [v|] eqn:Ev; [|discriminate E].
    destruct (f_to x v c) as [[[e1 v1] c1]| |] eqn:E1; cbn [obind] in E; try discriminate E. cbv zeta in E.
    assert (Hp : nth_error (put k v1 vs) i = nth_error vs i).
    { rewrite put_nth. destruct (k =? i)%nat eqn:Eq; [|reflexivity]. apply Nat.eqb_eq in Eq. subst k. rewrite Ev. rewrite (Hf _ Ek _ _ _ _ _ E1). reflexivity. }
    destruct (is_ok (matchedMemberResult e1)); [|injection E as _ <- _ _; exact Hp].
    destruct (ctx_next next c1) as [[e2 c2]| |]; cbn [obind] in E; try discriminate E.
    destruct (is_ok e2); [|injection E as _ <- _ _; exact Hp]. apply IH in E. congruence.
  - cbv zeta in E. destruct (pc_allow_missing _); [|injection E as _ <- _ _; reflexivity].
    destruct (skipArrayOrObject _ _ _) as [c1| |]; cbn [obind] in E; try discriminate E.
    destruct (is_ok (c_err c1)); [|injection E as _ <- _ _; reflexivity].
    destruct (ctx_next next c1) as [[e2 c2]| |]; cbn [obind] in E; try discriminate E.
    destruct (is_ok e2); [|injection E as _ <- _ _; reflexivity]. apply IH in E. exact E.
Qed.
Lemma error_kept fuel b fs l c e v' c' i n : nth_error fs i = Some (n, MError) -> mto next fuel (MStruct b fs) (VList l) c = Ok (e, v', c') ->
  exists l', v' = VList l' /\ nth_error l' i = nth_error l i.
Proof.
  intros Hi E. cbn [mto] in E. unfold struct_to in E. destruct (type_eqb _ _); [|injection E as _ <- _; eauto].
  destruct (ctx_read next c) as [[e1 c1]| |]; cbn [obind] in E; try discriminate E. destruct (is_ok e1); [|injection E as _ <- _; eauto].
  cbv zeta in E. destruct (struct_loop _ _ _ _ _ _ _) as [[[[e2 vs2] a2] c2]| |] eqn:Es; cbn [obind] in E; try discriminate E.
  apply (struct_keeps _ _ i) in Es.
  - destruct (is_ok e2); [|injection E as _ <- _; eauto]. destruct (unassigned_of _ _ _); injection E as _ <- _; eauto.
  - intros f Hf v c0 e0 v0 c0' E0. rewrite nth_error_map, Hi in Hf. injection Hf as <-. cbn in E0. unfold error_to in E0. injection E0 as _ <- _. reflexivity.
Qed.
Lemma error_kept_parseTo fuel b fs l c e v' c' i n : nth_error fs i = Some (n, MError) -> mparseTo next fuel (MStruct b fs) (VList l) c = Ok (e, v', c') ->
  exists l', v' = VList l' /\ nth_error l' i = nth_error l i.
Proof.
  intros Hi E. unfold mparseTo in E. destruct (ctx_next next c) as [[e1 c1]| |]; cbn [obind] in E; try discriminate E.
  destruct (is_ok e1); [|injection E as _ <- _; eauto].
  destruct (mto next fuel (MStruct b fs) (VList l) c1) as [[[e2 v2] c2]| |] eqn:E2; cbn [obind] in E; try discriminate E. injection E as _ <- _.
  exact (error_kept _ _ _ _ _ _ _ _ _ _ Hi E2).
Qed.
Lemma error_kept_report {R} (rep : ctx S -> R) fuel b fs l c e v' r i n : nth_error fs i = Some (n, MError) ->
  (let* (e, v, c) := mparseTo next fuel (MStruct b fs) (VList l) c in Ok (e, v, rep c)) = Ok (e, v', r) ->
  exists l', v' = VList l' /\ nth_error l' i = nth_error l i.
Proof.
  intros Hi E. destruct (mparseTo _ _ _ _ _) as [[[e1 v1] c1]| |] eqn:E1; cbn [obind] in E; try discriminate E. injection E as _ <- _.
  exact (error_kept_parseTo _ _ _ _ _ _ _ _ _ _ Hi E1).
Qed.
End Sim.

(** ** Whole texts *)

Lemma mparse_text_eq o g fuel m v text :
  mparse_text o g fuel m v text = let* (e, v, c) := mparseTo (nextToken o) fuel m v (context_of g text) in Ok (e, v, rep c).
Proof. reflexivity. Qed.

Lemma mparse_text_sim (E : val -> Prop) o g fuel m v v' text : E (VInt 0) -> all_fixed m -> alike_in E m v v' -> same_run (alike_in E m) (mparse_text o g fuel m v text) (parse_text o g fuel (as_ty m) v' text).
Proof.
  intros HE Hx Hv. unfold mparse_text, parse_text. apply (same_bind (alike_in E m)); [apply mparseTo_sim; assumption|]. intros e a a' c Ha. cbn. auto.
Qed.

(** ** Writing *)

Lemma error_text_plain i z : (0 <= z < 256)%Z -> escapes_out i (error_text z) = error_text z.
Proof.
  intros Hz. rewrite escapes_out_map. unfold error_text. destruct (z <? 30)%Z; [|reflexivity].
  assert (H : Forall (fun l => flat_map escape_out_char l = l) error_strings) by (repeat constructor).
  destruct (nth_in_or_default (Z.to_nat z) error_strings []) as [K|K]; [rewrite Forall_forall in H; exact (H _ K)|rewrite K; reflexivity].
Qed.

Lemma from_list_ext (ws ws' : list (wname -> list token * wname)) : Forall2 (fun w w' => forall n, w n = w' n) ws ws' -> forall n, from_list ws n = from_list ws' n.
Proof. intros H. induction H as [|w w' ws ws' Hw _ IH]; intros n; cbn; [reflexivity|]. rewrite Hw. destruct (w' n) as [l1 n1]. rewrite IH. reflexivity. Qed.

Theorem mfrom_names i m : forall v n, errors_ok m v -> mfrom i m v n = from i (as_ty m) (with_names m v) n.
Proof.
  induction m as [t|u l| |m IH|m IH|m IH|b fs IH] using mty_rect_nested; intros v n Hv; cbn [mfrom from as_ty with_names]; try reflexivity.
  - cbn in Hv. destruct v; try contradiction. cbn. rewrite error_text_plain by exact Hv. reflexivity.
  - cbn in Hv. destruct v as [| | | | | |l| |]; try contradiction. cbn [vals_of]. unfold from_array. rewrite map_map.
    rewrite (from_list_ext (map (mfrom i m) l) (map (fun x => from i (as_ty m) (with_names m x)) l)); [reflexivity|].
    induction Hv; cbn; constructor; auto.
  - cbn in Hv. destruct v as [| | | | | | | |l]; try contradiction. unfold from_object. rewrite map_map. cbn [fst snd].
    rewrite (from_list_ext (map (fun kv => named (fst kv) TString (mfrom i m (snd kv))) l) (map (fun kv => named (fst kv) TString (from i (as_ty m) (with_names m (snd kv)))) l)); [reflexivity|].
    induction Hv; cbn; constructor; auto. intros n0. unfold named. apply IH. assumption.
  - cbn in Hv. destruct v as [| | | | |[x|]| | |]; try contradiction; [apply IH, Hv|reflexivity].
  - cbn in Hv. destruct v as [| | | | | |l| |]; try contradiction. cbn [vals_of]. unfold from_object.
    match goal with |- (let '(_, _) := from_list ?A n in _) = (let '(_, _) := from_list ?B n in _) => rewrite (from_list_ext A B) end; [reflexivity|].
    clear n. revert l Hv. induction IH as [|f fs Hf _ IHfs]; intros [|x l] Hv; cbn; try contradiction; constructor; [intros n; unfold named; apply Hf, Hv|apply IHfs, Hv].
Qed.
Theorem mserialize_names i so m v : errors_ok m v -> mserialize i so m v = serializeStruct i so (as_ty m) (with_names m v).
Proof. intros H. unfold mserialize, serializeStruct. rewrite mfrom_names by exact H. reflexivity. Qed.

(** Two objects like the same one: the one with NoError everywhere is determined. *)
Lemma alike_cleared m : forall a v, errors_ok m v -> alike_in (fun x => x = VInt 0) m a (with_names m v) -> a = cleared m v.
Proof.
  induction m as [t|u l| |m IH|m IH|m IH|b fs IH] using mty_rect_nested; cbn [alike_in with_names cleared errors_ok]; intros a v Hv H; try exact H.
  - destruct v as [| | | | | |l| |]; try contradiction. destruct a as [| | | | | |a| |]; try discriminate H. f_equal.
    revert a H. induction Hv as [|x l Hx _ IHl]; intros a H; inversion H; subst; [reflexivity|]. cbn. f_equal; auto.
  - destruct v as [| | | | | | | |l]; try contradiction. destruct a as [| | | | | | | |a]; try discriminate H. f_equal.
    revert a H. induction Hv as [|x l Hx _ IHl]; intros a H; inversion H as [|[k1 v1] ? a1 ? [E1 E2]]; subst; [reflexivity|]. cbn in E1, E2. cbn. apply IH in E2; [|exact Hx]. f_equal; [congruence|auto].
  - destruct v as [| | | | |[x|]| | |]; try contradiction; destruct a as [| | | | |[a|]| | |]; try discriminate H; [|reflexivity]. do 2 f_equal. auto.
  - destruct v as [| | | | | |l| |]; try contradiction. destruct a as [| | | | | |a| |]; try discriminate H. f_equal.
    revert l Hv a H. induction IH as [|f fs Hf _ IHfs]; intros [|x l] Hv a H; try contradiction.
    + destruct a as [|y a]; [reflexivity|destruct (H 0)].
    + destruct a as [|y a]; [destruct (H 0)|]. f_equal; [apply Hf; [apply Hv|exact (H 0)]|].
      apply IHfs; [apply Hv|]. intros k. exact (H (Datatypes.S k)).
Qed.
Lemma no_errors_cleared m : no_errors m = true -> forall v, cleared m v = v.
Proof.
  induction m as [t|u l| |m IH|m IH|m IH|b fs IH] using mty_rect_nested; cbn [cleared no_errors]; intros Hn v; try (reflexivity || discriminate Hn).
  - destruct v as [| | | | | |l| |]; try reflexivity. f_equal. induction l as [|x l IHl]; cbn; [reflexivity|]. rewrite IHl, IH by exact Hn. reflexivity.
  - destruct v as [| | | | | | | |l]; try reflexivity. f_equal. induction l as [|[k x] l IHl]; cbn; [reflexivity|]. rewrite IHl, IH by exact Hn. reflexivity.
  - destruct v as [| | | | |[x|]| | |]; try reflexivity. rewrite IH by exact Hn. reflexivity.
  - destruct v as [| | | | | |l| |]; try reflexivity. f_equal. revert l. induction IH as [|f fs Hf _ IHfs]; intros l; [reflexivity|].
    destruct l as [|x l]; [reflexivity|]. cbn in Hn. apply andb_prop in Hn. destruct Hn as [A B]. rewrite (Hf A), (IHfs B). reflexivity.
Qed.
