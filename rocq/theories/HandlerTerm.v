(** Reading always returns, for types without maps, on every source whose nextToken always returns
    and makes progress. *)
From Verif Require Import Base Tactics ScanModel TokModel JsonSpec TokSpec TokSafe TokSpecProofs EscapeModel IntModel MapProofs2 SerDoc HandlerModel HandlerSpec HandlerTree HandlerLaws HandlerProps HandlerStruct HandlerText.
From Coq Require Import Lia.

Section Term.
Context {S : Type} (next : token -> S -> outcome (S * error * token)) (Inv : token -> S -> Prop) (mu : S -> nat) (fp maps : bool).
Hypothesis Hnext : forall nt s, Inv nt s -> exists s' e nt', next nt s = Ok (s', e, nt') /\ Inv nt' s' /\ (e = NoError -> mu s' < mu s).

Notation ctx := (ctx S).
Notation handler := (handler S).

Lemma ctx_read_ok (c : ctx) : Inv (c_tok c) (c_src c) -> exists e c', ctx_read next c = Ok (e, c') /\ Inv (c_tok c') (c_src c') /\ (e = NoError -> mu (c_src c') < mu (c_src c)).
Proof.
  intros H. unfold ctx_read. destruct (Hnext _ _ H) as (s' & e & nt' & E & Hi & Hm). rewrite E. cbn [obind]. do 2 eexists.
  split; [reflexivity|]. cbn. auto.
Qed.
Lemma ctx_next_ok (c : ctx) : Inv (c_tok c) (c_src c) -> exists e c', ctx_next next c = Ok (e, c') /\ Inv (c_tok c') (c_src c') /\ c_err c' = e /\ (e = NoError -> mu (c_src c') < mu (c_src c)).
Proof.
  intros H. unfold ctx_next. destruct (ctx_read_ok c H) as (e & c' & E & Hi & Hm). rewrite E. cbn [obind]. do 2 eexists.
  split; [reflexivity|]. cbn. auto.
Qed.

(** Returns, keeps the shape, and has not gone back.  Only with floating point numbers ([fp]) undefined
    behaviour is possible. *)
Definition done {A} (Q : A -> Prop) (m : nat) (x : outcome (error * A * ctx)) : Prop :=
  (fp = true /\ x = UB) \/
  exists e a c', x = Ok (e, a, c') /\ Q a /\ Inv (c_tok c') (c_src c') /\ (e = NoError -> mu (c_src c') <= m).
Definition ends (fuel : nat) (P : val -> Prop) (h : handler) : Prop :=
  forall v c, P v -> Inv (c_tok c) (c_src c) -> mu (c_src c) < fuel -> done P (mu (c_src c)) (h v c).

Ltac step_next c H :=
  let e := fresh "e" in let c' := fresh "c'" in let E := fresh "E" in let Hi := fresh "Hi" in let He := fresh "He" in let Hm := fresh "Hm" in
  destruct (ctx_next_ok c H) as (e & c' & E & Hi & He & Hm); rewrite E; cbn [obind].
Ltac ub := match goal with U : _ = UB |- _ => rewrite U; left; split; [assumption|reflexivity] end.
Ltac fin := right; do 3 eexists; split; [reflexivity|]; cbn [set_err c_src c_tok add_missing add_unassigned]; repeat split; auto; try congruence; try lia.

Ltac fin2 := fin; cbn [snd]; try (rewrite app_length; cbn; lia); try (apply Forall_app; auto); try (apply all2_app; [assumption|cbn; auto]);
  try (intros -> ; discriminate); try (intros K; match goal with E : is_ok _ = false |- _ => rewrite K in E; discriminate E end).

Lemma vec_ends fuel (P : val -> Prop) d (h : handler) : P d -> ends fuel P h -> forall f acc c, f <= fuel -> Forall P acc -> Inv (c_tok c) (c_src c) -> mu (c_src c) < f ->
  done (Forall P) (mu (c_src c)) (vec_loop next f d h acc c).
Proof.
  intros Hd Hh. induction f as [|f IH]; intros acc c Hf Ha Hi Hm; [lia|]. cbn [vec_loop].
  destruct (type_eqb _ _); [fin|].
  destruct (Hh d c Hd Hi ltac:(lia)) as [[HU U]|(e & v & c1 & E & Hv & Hi1 & Hm1)]; [ub|]. rewrite E. cbn [obind].
  assert (Ha' : Forall P (acc ++ [v])) by (apply Forall_app; auto).
  destruct (is_ok e) eqn:Eo; [apply is_ok_NoError in Eo; subst e; specialize (Hm1 eq_refl)|fin; intros ->; discriminate Eo].
  step_next c1 Hi1. destruct (is_ok e) eqn:Eo; [apply is_ok_NoError in Eo|fin; intros ->; discriminate Eo].
  specialize (Hm0 Eo). destruct (IH (acc ++ [v]) c' ltac:(lia) Ha' Hi0 ltac:(lia)) as [[HU U]|(e2 & a2 & c2 & E2 & Q2 & I2 & M2)]; [ub|].
  rewrite E2. fin; intros K; specialize (M2 K); lia.
Qed.
Lemma set_ends fuel (P : val -> Prop) d (h : handler) : P d -> ends fuel P h -> forall f acc c, f <= fuel -> Forall P acc -> Inv (c_tok c) (c_src c) -> mu (c_src c) < f ->
  done (Forall P) (mu (c_src c)) (set_loop next f d h acc c).
Proof.
  intros Hd Hh. induction f as [|f IH]; intros acc c Hf Ha Hi Hm; [lia|]. cbn [set_loop].
  destruct (type_eqb _ _); [fin|].
  destruct (Hh d c Hd Hi ltac:(lia)) as [[HU U]|(e & v & c1 & E & Hv & Hi1 & Hm1)]; [ub|]. rewrite E. cbn [obind].
  assert (Ha' : Forall P (acc ++ [v])) by (apply Forall_app; auto).
  destruct (is_ok e) eqn:Eo; [apply is_ok_NoError in Eo; subst e; specialize (Hm1 eq_refl)|fin; intros ->; discriminate Eo].
  destruct (existsb _ _); [fin|].
  step_next c1 Hi1. destruct (is_ok e) eqn:Eo; [apply is_ok_NoError in Eo|fin; intros ->; discriminate Eo].
  specialize (Hm0 Eo). destruct (IH (acc ++ [v]) c' ltac:(lia) Ha' Hi0 ltac:(lia)) as [[HU U]|(e2 & a2 & c2 & E2 & Q2 & I2 & M2)]; [ub|].
  rewrite E2. fin; intros K; specialize (M2 K); lia.
Qed.

Lemma fixed_ends fuel (P : val -> Prop) (h : handler) : ends fuel P h -> forall slots acc c m, m < fuel -> Forall P acc -> Forall P slots -> Inv (c_tok c) (c_src c) -> (c_err c = NoError -> mu (c_src c) <= m) ->
  done (fun l => length l = length acc + length slots /\ Forall P l) m (fixed_loop next h acc slots c).
Proof.
  intros Hh. induction slots as [|v0 slots IH]; intros acc c m Hf Ha Hs Hi Hm; cbn [fixed_loop].
  - destruct (type_eqb _ _); fin.
  - inversion Hs; subst. destruct (is_ok (c_err c)) eqn:Ec.
    + apply is_ok_NoError in Ec. specialize (Hm Ec).
      destruct (Hh v0 c ltac:(assumption) Hi ltac:(lia)) as [[HU U]|(e & v & c1 & E & Hv & Hi1 & Hm1)]; [ub|]. rewrite E. cbn [obind].
      destruct (is_ok e) eqn:Eo.
      * apply is_ok_NoError in Eo; subst e; specialize (Hm1 eq_refl).
        assert (Hi1' : Inv (c_tok (set_err NoError c1)) (c_src (set_err NoError c1))) by exact Hi1. step_next (set_err NoError c1) Hi1'.
        assert (Ha' : Forall P (acc ++ [v])) by (apply Forall_app; auto).
        destruct (IH (acc ++ [v]) c' m ltac:(lia) Ha' ltac:(assumption) Hi0) as [[HU U]|(e2 & a2 & c2 & E2 & Q2 & I2 & M2)]; [rewrite He; intros K; specialize (Hm0 K); cbn in Hm0; lia|ub|].
        rewrite E2. fin; try apply Q2. destruct Q2 as [Q2 _]. rewrite Q2, app_length. cbn. lia.
      * fin2.
    + fin2.
Qed.
Lemma var_ends fuel (P : val -> Prop) (h : handler) size : ends fuel P h -> forall slots acc c m, m < fuel -> Forall P acc -> Forall P slots -> Inv (c_tok c) (c_src c) -> (c_err c = NoError -> mu (c_src c) <= m) ->
  done (fun r => length (snd r) = length acc + length slots /\ Forall P (snd r)) m (var_loop next h size acc slots c).
Proof.
  intros Hh. induction slots as [|v0 slots IH]; intros acc c m Hf Ha Hs Hi Hm; cbn [var_loop].
  - destruct (type_eqb _ _); fin.
  - inversion Hs; subst. destruct (is_ok (c_err c)) eqn:Ec.
    + destruct (type_eqb (c_type c) TArrayEnd).
      { fin2. }
      apply is_ok_NoError in Ec. specialize (Hm Ec).
      destruct (Hh v0 c ltac:(assumption) Hi ltac:(lia)) as [[HU U]|(e & v & c1 & E & Hv & Hi1 & Hm1)]; [ub|]. rewrite E. cbn [obind].
      destruct (is_ok e) eqn:Eo.
      * apply is_ok_NoError in Eo; subst e; specialize (Hm1 eq_refl).
        assert (Hi1' : Inv (c_tok (set_err NoError c1)) (c_src (set_err NoError c1))) by exact Hi1. step_next (set_err NoError c1) Hi1'.
        assert (Ha' : Forall P (acc ++ [v])) by (apply Forall_app; auto).
        destruct (IH (acc ++ [v]) c' m ltac:(lia) Ha' ltac:(assumption) Hi0) as [[HU U]|(e2 & a2 & c2 & E2 & Q2 & I2 & M2)]; [rewrite He; intros K; specialize (Hm0 K); cbn in Hm0; lia|ub|].
        rewrite E2. fin; try apply Q2. destruct Q2 as [Q2 _]. rewrite Q2, app_length. cbn. lia.
      * fin2.
    + fin2.
Qed.
Lemma tuple_ends fuel : forall ps hs, Forall2 (ends fuel) ps hs -> forall qs acc vs c, all2 qs acc -> all2 ps vs -> Inv (c_tok c) (c_src c) -> mu (c_src c) < fuel ->
  done (all2 (qs ++ ps)) (mu (c_src c)) (tuple_loop next hs acc vs c).
Proof.
  induction 1 as [|P h ps hs Hh _ IH]; intros qs acc [|v0 vs] c Ha Hv Hi Hm; cbn in Hv; try contradiction; cbn [tuple_loop].
  - rewrite app_nil_r. fin.
  - destruct Hv as [Hv0 Hv].
    destruct (Hh v0 c Hv0 Hi ltac:(lia)) as [[HU U]|(e & v & c1 & E & Hv1 & Hi1 & Hm1)]; [ub|]. rewrite E. cbn [obind].
    destruct (is_ok e) eqn:Eo; [apply is_ok_NoError in Eo; subst e; specialize (Hm1 eq_refl)|].
    2: { fin2. }
    step_next c1 Hi1. destruct (is_ok e) eqn:Eo; [apply is_ok_NoError in Eo|].
    2: { fin2. }
    specialize (Hm0 Eo). destruct (IH (qs ++ [P]) (acc ++ [v]) vs c') as [[HU U]|(e2 & a2 & c2 & E2 & Q2 & I2 & M2)]; auto; try lia; [apply all2_app; cbn; auto|ub|].
    rewrite <- app_assoc in Q2. rewrite E2. fin; intros K; specialize (M2 K); lia.
Qed.
Lemma skip_ends start stop : forall f depth c, Inv (c_tok c) (c_src c) -> mu (c_src c) < f ->
  exists c', skip_loop next f start stop depth c = Ok c' /\ Inv (c_tok c') (c_src c') /\ c_cfg c' = c_cfg c /\ (c_err c' = NoError -> mu (c_src c') <= mu (c_src c)).
Proof.
  induction f as [|f IH]; intros [|depth] c Hi Hm; cbn [skip_loop]; try lia.
  - eexists. split; [reflexivity|]. auto.
  - assert (Hg : forall e c', ctx_next next c = Ok (e, c') -> c_cfg c' = c_cfg c).
    { unfold ctx_next, ctx_read. intros e c'. destruct (next _ _) as [[[? ?] ?]| |]; cbn; intros K; try discriminate K. injection K as _ <-. reflexivity. }
    step_next c Hi. apply Hg in E. destruct (is_ok e) eqn:Eo; [apply is_ok_NoError in Eo|].
    2: { eexists. split; [reflexivity|]. repeat split; auto. rewrite He. intros ->. discriminate Eo. }
    specialize (Hm0 Eo).
    match goal with |- context [skip_loop next f start stop ?d c'] => destruct (IH d c' Hi0 ltac:(lia)) as (c2 & E2 & I2 & G2 & M2) end.
    exists c2. split; [exact E2|]. split; [exact I2|]. split; [congruence|]. intros K. specialize (M2 K). lia.
Qed.
Lemma skipAO_ends f c : Inv (c_tok c) (c_src c) -> mu (c_src c) < f ->
  exists c', skipArrayOrObject next f c = Ok c' /\ Inv (c_tok c') (c_src c') /\ c_cfg c' = c_cfg c /\ (c_err c' = NoError -> mu (c_src c') <= mu (c_src c)).
Proof.
  intros Hi Hm. unfold skipArrayOrObject. destruct (c_type c); try (eexists; split; [reflexivity|auto]; fail); apply skip_ends; assumption.
Qed.

Lemma struct_ends fuel order fs ps : Forall2 (fun P fd => ends fuel P (f_to fd)) ps fs ->
  (forall k i, search_both k (map f_names fs) order = Some i -> i < length fs) ->
  forall f vs a c, f <= fuel -> all2 ps vs -> Inv (c_tok c) (c_src c) -> mu (c_src c) < f ->
  (fp = true /\ struct_loop next f order fs vs a c = UB) \/
  exists e vs' a' c', struct_loop next f order fs vs a c = Ok (e, vs', a', c') /\ all2 ps vs' /\ Inv (c_tok c') (c_src c') /\ (e = NoError -> mu (c_src c') <= mu (c_src c)).
Proof.
  intros Hfs Ho. induction f as [|f IH]; intros vs a c Hf Hv Hi Hm; [lia|]. cbn [struct_loop].
  destruct (type_eqb (c_type c) TObjectEnd).
  { right; do 4 eexists. split; [reflexivity|]. auto. }
  destruct (search_both (c_name c) (map f_names fs) order) as [i|] eqn:Es.
  - specialize (Ho _ _ Es). destruct (nth_error fs i) as [fd|] eqn:En; [|apply nth_error_None in En; lia].
    assert (Hp : exists P, nth_error ps i = Some P /\ ends fuel P (f_to fd)).
    { clear -Hfs En. revert i En. induction Hfs as [|P fd0 ps fs H _ IH]; intros [|i] En; try discriminate En; cbn in *; eauto. injection En as ->. eauto. }
    destruct Hp as (P & Ep & HP).
    destruct (nth_error vs i) as [v|] eqn:Ev; [|apply nth_error_None in Ev; rewrite <- (all2_length _ _ Hv) in Ev; apply nth_error_None in Ev; congruence].
    assert (Pv := all2_nth _ _ _ _ _ Hv Ep Ev).
    destruct (HP v c Pv Hi ltac:(lia)) as [[HU U]|(e & v1 & c1 & E & Hv1 & Hi1 & Hm1)]; [ub|]. rewrite E. cbn [obind]. cbv zeta.
    assert (Hv' := all2_put _ _ _ _ v1 Hv Ep Hv1).
    destruct (is_ok (matchedMemberResult e)) eqn:Eo.
    2: { right; do 4 eexists. split; [reflexivity|]. repeat split; auto. intros K. rewrite K in Eo. discriminate Eo. }
    apply matched_ok in Eo. subst e. specialize (Hm1 eq_refl).
    step_next c1 Hi1. destruct (is_ok e) eqn:Eo; [apply is_ok_NoError in Eo|].
    2: { right; do 4 eexists. split; [reflexivity|]. repeat split; auto. intros ->. discriminate Eo. }
    specialize (Hm0 Eo). destruct (IH (put i v1 vs) (put i true a) c' ltac:(lia) Hv' Hi0 ltac:(lia)) as [[HU U]|(e2 & vs2 & a2 & c2 & E2 & Q2 & I2 & M2)]; [ub|].
    rewrite E2. right; do 4 eexists. split; [reflexivity|]. repeat split; auto. intros K. specialize (M2 K). lia.
  - cbv zeta. set (c0 := add_missing (c_name c) c).
    assert (A0 : c_src c0 = c_src c) by (unfold c0, add_missing; destruct (pc_track _); reflexivity).
    assert (A1 : c_tok c0 = c_tok c) by (unfold c0, add_missing; destruct (pc_track _); reflexivity).
    destruct (pc_allow_missing (c_cfg c0)).
    2: { right; do 4 eexists. split; [reflexivity|]. rewrite A0, A1. repeat split; auto. }
    assert (Hi' : Inv (c_tok c0) (c_src c0)) by (rewrite A0, A1; exact Hi).
    destruct (skipAO_ends (Datatypes.S f) c0 Hi' ltac:(rewrite A0; lia)) as (c1 & E1 & I1 & _ & M1). rewrite E1. cbn [obind].
    destruct (is_ok (c_err c1)) eqn:Ec.
    2: { right; do 4 eexists. split; [reflexivity|]. repeat split; auto. intros K. rewrite K in Ec. discriminate Ec. }
    apply is_ok_NoError in Ec. specialize (M1 Ec). rewrite A0 in M1.
    step_next c1 I1. destruct (is_ok e) eqn:Eo; [apply is_ok_NoError in Eo|].
    2: { right; do 4 eexists. split; [reflexivity|]. repeat split; auto. intros ->. discriminate Eo. }
    specialize (Hm0 Eo). destruct (IH vs a c' ltac:(lia) Hv Hi0 ltac:(lia)) as [[HU U]|(e2 & vs2 & a2 & c2 & E2 & Q2 & I2 & M2)]; [ub|].
    rewrite E2. right; do 4 eexists. split; [reflexivity|]. repeat split; auto. intros K. specialize (M2 K). lia.
Qed.

Ltac wrap := lazymatch goal with H : done _ _ _ |- _ =>
  let e := fresh "e" in let v := fresh "v" in let c := fresh "c" in let E := fresh "E" in let HU := fresh "HU" in let U := fresh "U" in
  destruct H as [[HU U]|(e & v & c & E & ? & ? & ?)]; [ub|]; rewrite E; cbn [obind]; right; do 3 eexists; split; [reflexivity|]; auto end.

(** Maps, where they are allowed. *)
Hypothesis Hmap : maps = true -> forall fuel t, ty_ok t -> ends fuel (shaped t) (to next fuel t) -> ends fuel (shaped (YMap t)) (to next fuel (YMap t)).

Theorem to_ends fuel t : ty_ok t -> (maps = true \/ map_free t = true) -> (fp = true \/ fp_free t = true) -> ends fuel (shaped t) (to next fuel t).
Proof.
  induction t as [|i|sg|hr tp| |ns u|t IH|t IH|t IH|t IH|t IH|u t IH|t IH|t IH|t IH|n t IH|n t IH|t IH|ts IH|t IH|b fs IH] using ty_rect_nested;
    intros Hok Hmf Hff v c Hv Hi Hm; cbn [to]; cbn [map_free fp_free] in Hmf, Hff.
  - unfold bool_to. destruct (bytes_eqb _ _); [fin; exact I|]. destruct (bytes_eqb _ _); [fin; exact I|fin].
  - unfold integer_to. destruct (int_to_ok i (c_value c)) as (e & z & E). rewrite E. cbn [obind]. fin; exact I.
  - unfold fp_to. assert (K := fp_read_fuel sg (c_value c)). destruct (fp_read sg (c_value c)) as [[e z]| |]; cbn [obind]; [fin|left|contradiction].
    destruct Hff as [Hff|Hff]; [auto|discriminate Hff].
  - unfold time_point_to. cbn [shaped] in Hv. destruct v as [|old| | | | | | |]; try contradiction.
    assert (K := time_to_fuel hr tp (c_value c) old). destruct (TimeModel.time_to hr tp (c_value c) old) as [[e z]| |]; cbn [obind]; [fin|left|contradiction]; try exact I.
    destruct Hff as [Hff|Hff]; [auto|discriminate Hff].
  - unfold string_to. fin; exact I.
  - unfold enum_to. destruct (c_type c); try fin.
    + destruct (index_of _ _); fin; exact I.
    + destruct (int_to_ok u (c_value c)) as (e & z & E). rewrite E. cbn [obind]. destruct (is_ok e); fin; exact I.
  - unfold nullable_to. destruct (type_eqb _ _); [fin|]. exact (IH Hok Hmf Hff v c Hv Hi Hm).
  - unfold nullable_checked_to. cbn in Hv. destruct v as [| | | |f d| | | |]; try contradiction. destruct (type_eqb _ _); [fin|].
    assert (H := IH Hok Hmf Hff d c Hv Hi Hm). wrap.
  - exact (IH Hok Hmf Hff v c Hv Hi Hm).
  - unfold optional_checked_to. cbn in Hv. destruct v as [| | | |f d| | | |]; try contradiction.
    assert (H := IH Hok Hmf Hff d c Hv Hi Hm). wrap.
  - unfold std_optional_to. assert (H := IH Hok Hmf Hff (init t) c (init_shaped t) Hi Hm). wrap.
  - unfold ptr_to. cbn in Hv. destruct v as [| | | | |o| | |]; try contradiction. destruct (type_eqb _ _); [fin; exact I|].
    assert (Hd : shaped t (match o with Some x => x | None => init t end)) by (destruct o; [exact Hv|apply init_shaped]).
    assert (H := IH Hok Hmf Hff _ c Hd Hi Hm). wrap.
  - exact (IH Hok Hmf Hff v c Hv Hi Hm).
  - unfold vec_to. destruct (type_eqb _ _); [|fin]. step_next c Hi. destruct (is_ok e) eqn:Eo; [apply is_ok_NoError in Eo|fin; intros ->; discriminate Eo].
    specialize (Hm0 Eo). destruct (vec_ends fuel (shaped t) (init t) _ (init_shaped t) (IH Hok Hmf Hff) fuel [] c' ltac:(lia) ltac:(constructor) Hi0 ltac:(lia)) as [[HU U]|(e2 & a2 & c2 & E2 & Q2 & I2 & M2)]; [ub|].
    rewrite E2. cbn [obind]. fin; intros K; specialize (M2 K); lia.
  - unfold one_or_many_to. destruct (type_eqb _ _) eqn:Et.
    + unfold vec_to. rewrite Et. step_next c Hi. destruct (is_ok e) eqn:Eo; [apply is_ok_NoError in Eo|fin; intros ->; discriminate Eo].
      specialize (Hm0 Eo). destruct (vec_ends fuel (shaped t) (init t) _ (init_shaped t) (IH Hok Hmf Hff) fuel [] c' ltac:(lia) ltac:(constructor) Hi0 ltac:(lia)) as [[HU U]|(e2 & a2 & c2 & E2 & Q2 & I2 & M2)]; [ub|].
      rewrite E2. cbn [obind]. fin; intros K; specialize (M2 K); lia.
    + cbn in Hv. destruct v as [| | | | | |l| |]; try contradiction. assert (H := IH Hok Hmf Hff (init t) c (init_shaped t) Hi Hm).
      destruct H as [[HU U]|(e & x & c1 & E & Hx & Hi1 & Hm1)]; [ub|]. rewrite E. cbn [obind]. fin; cbn; apply Forall_app. auto.
  - unfold fixed_to. cbn in Hv. destruct v as [| | | | | |l| |]; try contradiction. destruct Hv as [Hl Hv]. destruct (type_eqb _ _); [|fin].
    step_next c Hi. destruct (fixed_ends fuel (shaped t) _ (IH Hok Hmf Hff) l [] c' (mu (c_src c)) ltac:(lia) ltac:(constructor) Hv Hi0) as [[HU U]|(e2 & a2 & c2 & E2 & (Q2 & Q3) & I2 & M2)]; [rewrite He; intros K; specialize (Hm0 K); lia|ub|].
    rewrite E2. cbn [obind]. fin; cbn; cbn in Q2; try rewrite Q2; auto.
  - unfold var_to. cbn in Hv. destruct v as [| | | | | | |size l|]; try contradiction. destruct Hv as [Hl Hv]. destruct (type_eqb _ _); [|fin].
    step_next c Hi. destruct (var_ends fuel (shaped t) _ size (IH Hok Hmf Hff) l [] c' (mu (c_src c)) ltac:(lia) ltac:(constructor) Hv Hi0) as [[HU U]|(e2 & a2 & c2 & E2 & (Q2 & Q3) & I2 & M2)]; [rewrite He; intros K; specialize (Hm0 K); lia|ub|].
    rewrite E2. cbn [obind]. fin; cbn; cbn in Q2; try rewrite Q2; auto.
  - unfold set_to. destruct (type_eqb _ _); [|fin]. step_next c Hi. destruct (is_ok e) eqn:Eo; [apply is_ok_NoError in Eo|fin; intros ->; discriminate Eo].
    specialize (Hm0 Eo). destruct (set_ends fuel (shaped t) (init t) _ (init_shaped t) (IH Hok Hmf Hff) fuel [] c' ltac:(lia) ltac:(constructor) Hi0 ltac:(lia)) as [[HU U]|(e2 & a2 & c2 & E2 & Q2 & I2 & M2)]; [ub|].
    rewrite E2. cbn [obind]. fin; intros K; specialize (M2 K); lia.
  - unfold tuple_to. cbn in Hv. destruct v as [| | | | | |l| |]; try contradiction. destruct (type_eqb _ _); [|fin].
    step_next c Hi. destruct (is_ok e) eqn:Eo; [apply is_ok_NoError in Eo|fin; intros ->; discriminate Eo]. specialize (Hm0 Eo).
    apply ty_ok_tuple in Hok. rewrite forallb_forall in Hmf, Hff.
    assert (F : Forall2 (ends fuel) (map shaped ts) (map (to next fuel) ts)).
    { clear -IH Hok Hmf Hff. induction ts as [|t ts IHt]; cbn; constructor.
      - inversion IH; inversion Hok; subst. apply H1; [assumption|destruct Hmf as [Hmf|Hmf]; [left; exact Hmf|right; apply Hmf; left; reflexivity]|destruct Hff as [Hff|Hff]; [left; exact Hff|right; apply Hff; left; reflexivity]].
      - inversion IH; inversion Hok; subst. apply IHt; auto; [destruct Hmf as [Hmf|Hmf]; [left; exact Hmf|right; intros x Hx; apply Hmf; right; exact Hx]|destruct Hff as [Hff|Hff]; [left; exact Hff|right; intros x Hx; apply Hff; right; exact Hx]]. }
    destruct (tuple_ends fuel _ _ F [] [] l c') as [[HU U]|(e2 & a2 & c2 & E2 & Q2 & I2 & M2)]; auto; try exact I; try lia; [ub|].
    rewrite E2. cbn [obind]. fin; intros K; specialize (M2 K); lia.
  - destruct Hmf as [Hmf|Hmf]; [|discriminate Hmf]. apply (Hmap Hmf fuel t Hok); try assumption. apply IH; auto.
  - unfold struct_to. cbn in Hv. destruct v as [| | | | | |l| |]; try contradiction. destruct (type_eqb _ _); [|fin].
    destruct (ctx_read_ok c Hi) as (e & c' & E & Hi0 & Hm0). rewrite E. cbn [obind].
    destruct (is_ok e) eqn:Eo; [apply is_ok_NoError in Eo|fin; intros ->; discriminate Eo]. specialize (Hm0 Eo).
    apply ty_ok_struct in Hok. destruct Hok as [Hb Hok]. rewrite forallb_forall in Hmf, Hff. cbv zeta.
    set (fields := map (fun f : bytes * list bytes * ty => mkField (fst (fst f)) (snd (fst f)) (is_optional (snd f)) (to next fuel (snd f))) fs).
    assert (F : Forall2 (fun P fd => ends fuel P (f_to fd)) (map (fun f => shaped (snd f)) fs) fields).
    { unfold fields. clear -IH Hok Hmf Hff. induction fs as [|t ts IHt]; cbn; constructor.
      - inversion IH; inversion Hok; subst. apply H1; [assumption|destruct Hmf as [Hmf|Hmf]; [left; exact Hmf|right; apply Hmf; left; reflexivity]|destruct Hff as [Hff|Hff]; [left; exact Hff|right; apply Hff; left; reflexivity]].
      - inversion IH; inversion Hok; subst. apply IHt; auto; [destruct Hmf as [Hmf|Hmf]; [left; exact Hmf|right; intros x Hx; apply Hmf; right; exact Hx]|destruct Hff as [Hff|Hff]; [left; exact Hff|right; intros x Hx; apply Hff; right; exact Hx]]. }
    destruct (struct_ends fuel (search_order 0 b) fields _ F) with (f := fuel) (vs := l) (a := repeat false (length fields)) (c := c') as [[HU U]|(e2 & vs2 & a2 & c2 & E2 & Q2 & I2 & M2)]; auto; try lia;
      [intros k i H; apply search_both_in, search_order_lt in H; unfold fields; rewrite map_length; lia|ub|].
    rewrite E2. cbn [obind]. destruct (is_ok e2) eqn:Eo2; [apply is_ok_NoError in Eo2; specialize (M2 Eo2)|fin; intros ->; discriminate Eo2].
    destruct (unassigned_of _ _ _); [fin|]. unfold add_unassigned. destruct (pc_track _); fin.
Qed.
End Term.

(** More fuel does not change a result. *)
Section Mono.
Context {S : Type} (next : token -> S -> outcome (S * error * token)).
Notation ctx := (ctx S).
Notation handler := (handler S).
Definition below {A} (x y : outcome A) : Prop := x = OutOfFuel \/ y = x.
Definition hbelow (h h' : handler) : Prop := forall v c, below (h v c) (h' v c).

Lemma below_refl {A} (x : outcome A) : below x x.
Proof. right. reflexivity. Qed.
Lemma below_bind {A B} (x y : outcome A) (k k' : A -> outcome B) : below x y -> (forall a, below (k a) (k' a)) -> below (obind x k) (obind y k').
Proof. intros [->| ->] H; [left; reflexivity|]. destruct x; cbn [obind]; [apply H|apply below_refl..]. Qed.

Ltac bel := repeat first [apply below_refl | apply below_bind; [|intros; repeat match goal with x : _ * _ |- _ => destruct x end] | match goal with
  | H : hbelow ?h _ |- below (?h _ _) _ => apply H
  | IH : forall _, _ |- below (_ _) (_ _) => apply IH; assumption || lia
  | |- below (if ?b then _ else _) _ => destruct b
  | |- below (match ?o with _ => _ end) _ => destruct o
  end].

Lemma vec_below h h' d : hbelow h h' -> forall f f' acc c, f <= f' -> below (vec_loop next f d h acc c) (vec_loop next f' d h' acc c).
Proof.
  intros H. induction f as [|f IH]; intros [|f'] acc c Hf; try lia; try (left; reflexivity); cbn [vec_loop]. bel.
Qed.
Lemma set_below h h' d : hbelow h h' -> forall f f' acc c, f <= f' -> below (set_loop next f d h acc c) (set_loop next f' d h' acc c).
Proof.
  intros H. induction f as [|f IH]; intros [|f'] acc c Hf; try lia; try (left; reflexivity); cbn [set_loop]. bel.
Qed.
Lemma map_below h h' d : hbelow h h' -> forall f f' e m c, f <= f' -> below (map_loop next f d h e m c) (map_loop next f' d h' e m c).
Proof.
  intros H. induction f as [|f IH]; intros [|f'] e m c Hf; try lia; try (left; reflexivity); cbn [map_loop]. cbv zeta. bel.
Qed.
Lemma fixed_below h h' : hbelow h h' -> forall slots acc c, below (fixed_loop next h acc slots c) (fixed_loop next h' acc slots c).
Proof. intros H. induction slots as [|v slots IH]; intros acc c; cbn [fixed_loop]; cbv zeta; bel. Qed.
Lemma var_below h h' size : hbelow h h' -> forall slots acc c, below (var_loop next h size acc slots c) (var_loop next h' size acc slots c).
Proof. intros H. induction slots as [|v slots IH]; intros acc c; cbn [var_loop]; cbv zeta; bel. Qed.
Lemma tuple_below hs hs' : Forall2 hbelow hs hs' -> forall acc vs c, below (tuple_loop next hs acc vs c) (tuple_loop next hs' acc vs c).
Proof. induction 1 as [|h h' hs hs' H _ IH]; intros acc [|v vs] c; cbn [tuple_loop]; bel. Qed.
Lemma skip_below start stop : forall f f' depth c, f <= f' -> below (skip_loop next f start stop depth c) (skip_loop next f' start stop depth c).
Proof.
  induction f as [|f IH]; intros [|f'] [|depth] c Hf; cbn [skip_loop]; try lia; try apply below_refl; try (left; reflexivity); bel.
Qed.
Lemma skipAO_below f f' c : f <= f' -> below (skipArrayOrObject next f c) (skipArrayOrObject next f' c).
Proof. intros H. unfold skipArrayOrObject. destruct (c_type c); try apply below_refl; apply skip_below; exact H. Qed.
Lemma struct_below order fs fs' : map f_names fs = map f_names fs' -> Forall2 hbelow (map f_to fs) (map f_to fs') ->
  forall f f' vs a c, f <= f' -> below (struct_loop next f order fs vs a c) (struct_loop next f' order fs' vs a c).
Proof.
  intros En H. assert (Hn : forall i, match nth_error fs i, nth_error fs' i with Some x, Some y => hbelow (f_to x) (f_to y) | None, None => True | _, _ => False end).
  { clear En. revert fs' H. induction fs as [|x fs IH]; intros [|y fs'] H i; inversion H; subst; destruct i; cbn; auto. apply IH. assumption. }
  induction f as [|f IH]; intros [|f'] vs a c Hf; try lia; try (left; reflexivity); cbn [struct_loop]. rewrite <- En.
  destruct (type_eqb _ _); [apply below_refl|]. destruct (search_both _ _ _) as [i|].
  - specialize (Hn i). destruct (nth_error fs i) as [x|], (nth_error fs' i) as [y|]; try contradiction; [|apply below_refl].
    destruct (nth_error vs i) as [v|]; [|apply below_refl]. cbv zeta. bel.
  - cbv zeta. destruct (pc_allow_missing _); [|apply below_refl]. apply below_bind; [apply skipAO_below; lia|]. intros c1. bel.
Qed.

Theorem to_below t : forall f f', f <= f' -> hbelow (to next f t) (to next f' t).
Proof.
  induction t as [|i|sg|hr tp| |ns u|t IH|t IH|t IH|t IH|t IH|u t IH|t IH|t IH|t IH|n t IH|n t IH|t IH|ts IH|t IH|b fs IH] using ty_rect_nested;
    intros f f' Hf v c; cbn [to]; try apply below_refl; try (specialize (IH f f' Hf)).
  - unfold nullable_to. bel.
  - unfold nullable_checked_to. bel.
  - apply IH.
  - unfold optional_checked_to. bel.
  - unfold std_optional_to. bel.
  - unfold ptr_to. destruct v; try apply below_refl. destruct (type_eqb _ _); [apply below_refl|]. bel.
  - apply IH.
  - unfold vec_to. destruct (type_eqb _ _); [|apply below_refl]. apply below_bind; [apply below_refl|]. intros [e c1]. destruct (is_ok e); [|apply below_refl].
    apply below_bind; [apply vec_below; assumption|]. intros [[? ?] ?]. apply below_refl.
  - unfold one_or_many_to. destruct (type_eqb _ _) eqn:Et.
    + apply below_bind; [|intros [[? ?] ?]; apply below_refl]. unfold vec_to. rewrite Et. apply below_bind; [apply below_refl|]. intros [e c1]. destruct (is_ok e); [|apply below_refl].
      apply below_bind; [apply vec_below; assumption|]. intros [[? ?] ?]. apply below_refl.
    + destruct v; try apply below_refl. bel.
  - unfold fixed_to. destruct v; try apply below_refl. destruct (type_eqb _ _); [|apply below_refl]. apply below_bind; [apply below_refl|]. intros [e c1].
    apply below_bind; [apply fixed_below; assumption|]. intros [[? ?] ?]. apply below_refl.
  - unfold var_to. destruct v; try apply below_refl. destruct (type_eqb _ _); [|apply below_refl]. apply below_bind; [apply below_refl|]. intros [e c1].
    apply below_bind; [apply var_below; assumption|]. intros [[? ?] ?]. apply below_refl.
  - unfold set_to. destruct (type_eqb _ _); [|apply below_refl]. apply below_bind; [apply below_refl|]. intros [e c1]. destruct (is_ok e); [|apply below_refl].
    apply below_bind; [apply set_below; assumption|]. intros [[? ?] ?]. apply below_refl.
  - unfold tuple_to. destruct v; try apply below_refl. destruct (type_eqb _ _); [|apply below_refl]. apply below_bind; [apply below_refl|]. intros [e c1]. destruct (is_ok e); [|apply below_refl].
    apply below_bind; [apply tuple_below|intros [[? ?] ?]; apply below_refl].
    clear -IH Hf. induction IH as [|t ts Ht _ IH]; cbn; constructor; [apply Ht; exact Hf|assumption].
  - unfold map_to. destruct v; try apply below_refl. destruct (type_eqb _ _); [|apply below_refl]. apply below_bind; [apply below_refl|]. intros [e c1]. destruct (is_ok e); [|apply below_refl].
    apply below_bind; [apply map_below; assumption|]. intros [[? ?] ?]. apply below_refl.
  - unfold struct_to. destruct v; try apply below_refl. destruct (type_eqb _ _); [|apply below_refl]. apply below_bind; [apply below_refl|]. intros [e c1]. destruct (is_ok e); [|apply below_refl].
    cbv zeta. rewrite !map_map, !map_length. cbn [f_super f_names f_optional]. apply below_bind.
    + apply struct_below; [rewrite !map_map; reflexivity| |exact Hf]. rewrite !map_map. cbn [f_to].
      clear -IH Hf. induction IH as [|t ts Ht _ IH]; cbn; constructor; [apply Ht; exact Hf|assumption].
    + intros [[[? ?] ?] ?]. apply below_refl.
Qed.
End Mono.

Lemma parse_text_below o g t v text f f' x : f <= f' -> parse_text o g f t v text = Ok x -> parse_text o g f' t v text = Ok x.
Proof.
  intros Hf. unfold parse_text, parseTo. destruct (ctx_next (nextToken o) (context_of g text)) as [[e c]| |]; cbn [obind]; try discriminate.
  destruct (is_ok e); [|auto]. destruct (to_below (nextToken o) t f f' Hf v c) as [E|E].
  - rewrite E. discriminate.
  - rewrite E. auto.
Qed.
Lemma parses_iff o g t v text e v' r : parses o g t v text e v' r <-> exists fuel, parse_text o g fuel t v text = Ok (e, v', r).
Proof.
  split.
  - intros (n & H). exists n. apply H. lia.
  - intros (n & H). exists n. intros f Hf. exact (parse_text_below _ _ _ _ _ _ _ _ Hf H).
Qed.

(** On any text, with any option. *)
Lemma text_ends_fp o g t v text fp : ty_ok t -> map_free t = true -> (fp = true \/ fp_free t = true) -> shaped t v ->
  (exists e v' r, parses o g t v text e v' r) \/ (fp = true /\ exists n, forall fuel, n <= fuel -> parse_text o g fuel t v text = UB).
Proof.
  intros Ht Hm Hp Hv. set (s0 := c_src (context_of g text)).
  assert (I0 : tok_inv s0) by (apply (reachable_inv o); apply R_add; [apply R_init|reflexivity]).
  assert (Hn : forall nt s, tok_inv s -> exists s' e nt', nextToken o nt s = Ok (s', e, nt') /\ tok_inv s' /\ (e = NoError -> weight s' < weight s)).
  { intros nt s Hs. destruct (nextToken_ok o nt s Hs) as (s1 & e & nt1 & E & Hi & _ & _ & _ & Hw). eauto 8. }
  set (fuel := weight s0 + 1). enough (H : (exists e v' r, parse_text o g fuel t v text = Ok (e, v', r)) \/ (fp = true /\ forall f, fuel <= f -> parse_text o g f t v text = UB)).
  { destruct H as [(e & v' & r & H)|[Hfp H]]; [left; exists e, v', r; apply parses_iff; eauto|right; split; [exact Hfp|exists fuel; exact H]]. }
  unfold parse_text, parseTo.
  destruct (ctx_next_ok (nextToken o) (fun _ => tok_inv) weight Hn (context_of g text) I0) as (e & c & E & Hi & _ & Hw). rewrite E. cbn [obind].
  destruct (is_ok e) eqn:Eo; [apply is_ok_NoError in Eo|left; cbn; eauto]. specialize (Hw Eo). fold s0 in Hw.
  destruct (to_ends (nextToken o) (fun _ => tok_inv) weight fp false Hn ltac:(discriminate) fuel t Ht (or_intror Hm) Hp v c Hv Hi ltac:(unfold fuel; lia)) as [[Hfp E2]|(e2 & v2 & c2 & E2 & _)].
  - right. split; [exact Hfp|]. intros f Hf. destruct (to_below (nextToken o) t fuel f Hf v c) as [K|K]; rewrite E2 in K; [discriminate K|rewrite K; reflexivity].
  - left. rewrite E2. cbn. eauto.
Qed.
Lemma text_ends o g t v text : ty_ok t -> map_free t = true -> fp_free t = true -> shaped t v ->
  exists e v' r, parses o g t v text e v' r.
Proof. intros Ht Hm Hp Hv. destruct (text_ends_fp o g t v text false Ht Hm (or_intror Hp) Hv) as [H|[H _]]; [exact H|discriminate H]. Qed.
