(** The comparison stays inside the tokens if all brackets are closed. *)
From Verif Require Import Base ScanModel TokModel TokSafe TokSpec TokSpecProofs MapModel DiffModel CallProofs DiffAnyMeta DiffAnyProofs HandlerTree.
From Coq Require Import Lia.

(** All brackets are closed. *)
Definition closed (d : dsrc) : Prop := balanced (types_of d).
(** The tokens from position [p] on are balanced up to the closing bracket [c]. *)
Definition inside (d : dsrc) (p : nat) (c : type) : Prop := exists a l r, types_of d = a ++ l ++ c :: r /\ length a = p /\ balanced l.
(** The value at position [p] is complete. *)
Definition whole (d : dsrc) (p : nat) (tk : token) : Prop := nth_error (ds_tokens d) p = Some tk /\
  (opening (tk_value_type tk) -> inside d (S p) (close_of (tk_value_type tk))).
Definition closer (c : type) : Prop := c = TObjectEnd \/ c = TArrayEnd.

Lemma type_at d p t : nth_error (types_of d) p = Some t -> exists tk, nth_error (ds_tokens d) p = Some tk /\ tk_value_type tk = t.
Proof. unfold types_of. rewrite nth_error_map. destruct (nth_error (ds_tokens d) p) as [tk|]; [|discriminate]. cbn. intros [= <-]. eauto. Qed.
Lemma nth_mid {A} (a : list A) x r : nth_error (a ++ x :: r) (length a) = Some x.
Proof. rewrite nth_error_app2, Nat.sub_diag by lia. reflexivity. Qed.
Lemma not_open_simple t : ~ opening t -> isComplexValue t = false.
Proof. destruct t; try reflexivity; intros H; exfalso; apply H; [left|right]; reflexivity. Qed.

Lemma inside_cases d p c : source d -> inside d p c ->
  (exists tk, nth_error (ds_tokens d) p = Some tk /\ tk_value_type tk = c) \/
  (exists tk q, whole d p tk /\ ~ closer (tk_value_type tk) /\ d_skip d p = Ok q /\ inside d q c).
Proof.
  intros S (a & l & r & T & L & B).
  assert (BR : forall o l1 l2, opening o -> balanced l1 -> balanced l2 -> l = o :: l1 ++ close_of o :: l2 ->
    exists tk q, whole d p tk /\ ~ closer (tk_value_type tk) /\ d_skip d p = Ok q /\ inside d q c).
  { intros o l1 l2 O B1 B2 ->. cbn [app] in T. rewrite <- app_assoc in T. cbn [app] in T.
    assert (N : nth_error (types_of d) p = Some o) by (rewrite T, <- L; apply nth_mid). destruct (type_at d p o N) as (tk & N' & E).
    exists tk, (p + length l1 + 2). split; [split; [exact N'|]|].
    - rewrite E. intros _. exists (a ++ [o]), l1, (l2 ++ c :: r). split; [rewrite T, <- app_assoc; reflexivity|].
      split; [rewrite app_length; cbn; lia|exact B1].
    - split; [rewrite E; intros [-> | ->]; destruct O; discriminate|]. split; [rewrite <- L; exact (skip_closed d a o l1 _ S T O B1)|].
      exists (a ++ o :: l1 ++ [close_of o]), l2, r. split; [rewrite T, <- app_assoc; cbn [app]; rewrite <- app_assoc; reflexivity|].
      split; [|exact B2]. rewrite app_length. cbn [length]. rewrite app_length. cbn [length]. lia. }
  destruct B as [|t l A1 A2 A3 A4 B|l1 l2 B1 B2|l1 l2 B1 B2].
  - left. cbn [app] in T. apply type_at. rewrite T, <- L. apply nth_mid.
  - right. cbn [app] in T. assert (N : nth_error (types_of d) p = Some t) by (rewrite T, <- L; apply nth_mid). destruct (type_at d p t N) as (tk & N' & E).
    assert (O : ~ opening t) by (intros [X|X]; contradiction).
    exists tk, (Datatypes.S p). split; [split; [exact N'|rewrite E; tauto]|]. split; [rewrite E; intros [X|X]; contradiction|].
    split; [unfold d_skip; rewrite N', E, (not_open_simple t O); reflexivity|].
    exists (a ++ [t]), l, r. split; [rewrite T, <- app_assoc; reflexivity|]. split; [rewrite app_length; cbn; lia|exact B].
  - right. exact (BR TObjectStart l1 l2 (or_introl eq_refl) B1 B2 eq_refl).
  - right. exact (BR TArrayStart l1 l2 (or_intror eq_refl) B1 B2 eq_refl).
Qed.

(** The events that are fine for [n] tokens; running out of fuel is excluded by DiffAnyProofs. *)
Definition at_ {A} (e : event A) : nat := match e with Mark p _ | LostMember p _ | LostItem p _ => p end.
Definition safe (n : nat) (x : outcome (list (event token))) : Prop :=
  match x with Ok es => Forall (fun e => at_ e < n) es | UB => False | OutOfFuel => True end.
Lemma safe_bind {A} n (x : outcome A) f : x <> UB -> (forall a, x = Ok a -> safe n (f a)) -> safe n (obind x f).
Proof. intros H1 H2. destruct x as [a| |]; cbn [obind safe]; [exact (H2 a eq_refl)|congruence|exact I]. Qed.
Lemma safe_then n x f : safe n x -> (forall es, Forall (fun e => at_ e < n) es -> safe n (f es)) -> safe n (obind x f).
Proof. intros H1 H2. destruct x as [a| |]; cbn [obind safe] in *; auto. Qed.
Lemma safe_app n es x : Forall (fun e => at_ e < n) es -> safe n x -> safe n (let* r := x in Ok (es ++ r)).
Proof. intros H X. destruct x as [r| |]; cbn in *; auto. apply Forall_app. auto. Qed.

Lemma teq a b : type_eqb a b = true <-> a = b.
Proof. exact (type_eqb_true a b). Qed.
Lemma tneq a b : type_eqb a b = false <-> a <> b.
Proof. rewrite <- teq. destruct (type_eqb a b); split; congruence. Qed.

Section Safe.
Context (o : dopts) (Ho : forall x y, exists r, do_same o x y = Ok r).

Lemma walk_safe n d w : source d -> (forall p t, nth_error (ds_tokens d) p = Some t -> at_ (w p t) < n) -> forall f,
  (forall p tk, whole d p tk -> safe n (walk f d w p)) /\ (forall p c, closer c -> inside d p c -> safe n (walk_loop f d w p)).
Proof.
  intros S W. induction f as [|f (I1 & I2)]; [split; intros; exact I|]. split.
  - intros p tk (N & H). cbn [walk]. rewrite N. destruct (isComplexValue (tk_value_type tk)) eqn:C; [|cbn; constructor; [apply W, N|constructor]].
    assert (O : opening (tk_value_type tk)) by (destruct (tk_value_type tk); try discriminate C; [left|right]; reflexivity).
    apply (safe_app n [w p tk]); [constructor; [apply W, N|constructor]|]. apply (I2 _ (close_of (tk_value_type tk))); [|exact (H O)].
    destruct O as [-> | ->]; [left|right]; reflexivity.
  - intros p c C H. cbn [walk_loop]. destruct (inside_cases d p c S H) as [(tk & N & E)|(tk & q & Wh & K & Sk & Q)].
    + rewrite N, E. destruct C as [-> | ->]; cbn; (constructor; [apply W, N|constructor]).
    + assert (N := proj1 Wh). rewrite N, Sk. cbn [obind]. destruct (isComplexValue (tk_value_type tk)) eqn:X.
      * apply safe_then; [exact (I1 p tk Wh)|]. intros es F. apply safe_app; [exact F|]. exact (I2 q c C Q).
      * destruct (isEnd (tk_value_type tk)) eqn:Y; [exfalso; apply K; destruct (tk_value_type tk); try discriminate Y; [left|right]; reflexivity|].
        apply (safe_app n [w p tk]); [constructor; [apply W, N|constructor]|]. exact (I2 q c C Q).
Qed.
Lemma state_safe d p tk t : source d -> whole d p tk -> safe (length (ds_tokens d)) (setStateForEntireToken d p t).
Proof. intros S H. exact (proj1 (walk_safe (length (ds_tokens d)) d (fun p _ => Mark p t) S (fun p tk N => nth_lt _ _ _ N) _) p tk H). Qed.
Lemma missing_safe n s b p tk : source b -> s < n -> whole b p tk -> safe n (addMissingMembers s b p).
Proof. intros S L H. exact (proj1 (walk_safe n b (fun _ tk => LostMember s tk) S (fun _ _ _ => L) _) p tk H). Qed.
Lemma missing_array_safe n s b p tk : source b -> s < n -> whole b p tk -> safe n (addMissingArrayItems s b p).
Proof. intros S L H. exact (proj1 (walk_safe n b (fun _ tk => LostItem s tk) S (fun _ _ _ => L) _) p tk H). Qed.

Lemma in_base_safe b dt : source b -> forall f p, inside b p TObjectEnd -> in_base f b dt p <> UB.
Proof.
  intros S. induction f as [|f IH]; intros p H; [discriminate|]. cbn [in_base]. destruct (inside_cases b p _ S H) as [(tk & N & E)|(tk & q & Wh & K & Sk & Q)].
  - rewrite N, E. discriminate.
  - rewrite (proj1 Wh), Sk. cbn [obind]. destruct (type_eqb _ _); [discriminate|]. destruct (isSameMember dt tk); [discriminate|]. exact (IH q Q).
Qed.
Lemma new_members_safe b basePos d : source b -> source d -> inside b (S basePos) TObjectEnd -> forall f p, inside d p TObjectEnd ->
  safe (length (ds_tokens d)) (new_members f b basePos d p).
Proof.
  intros Sb S HB. induction f as [|f IH]; intros p H; [exact I|]. cbn [new_members]. destruct (inside_cases d p _ S H) as [(tk & N & E)|(tk & q & Wh & K & Sk & Q)].
  - rewrite N, E. constructor.
  - rewrite (proj1 Wh), Sk. destruct (type_eqb _ _); [constructor|]. apply safe_bind; [apply in_base_safe; assumption|]. intros found _.
    apply safe_then; [destruct found; [constructor|exact (state_safe d p tk _ S Wh)]|]. intros es F. cbn [obind]. apply safe_app; [exact F|]. exact (IH q Q).
Qed.

(** What follows closes the brackets [st], innermost first, and possibly goes on. *)
Fixpoint shuts (st : list type) (l : list type) : Prop :=
  match st with [] => True | t :: st => exists l1 l2, l = l1 ++ close_of t :: l2 /\ balanced l1 /\ shuts st l2 end.
Definition arrays (st : list type) : nat := length (filter (type_eqb TArrayStart) st).
Lemma shuts_step st t l : st <> [] -> Forall opening st -> shuts st (t :: l) ->
  match t with
  | TObjectStart | TArrayStart => shuts (t :: st) l
  | TObjectEnd => exists st', st = TObjectStart :: st' /\ shuts st' l
  | TArrayEnd => exists st', st = TArrayStart :: st' /\ shuts st' l
  | _ => shuts st l
  end.
Proof.
  intros H F. destruct st as [|u st]; [congruence|]. intros (l1 & l2 & E & B & Sh). assert (U := Forall_inv F). destruct B as [|v k A1 A2 A3 A4 B|k1 k2 B1 B2|k1 k2 B1 B2].
  - injection E as -> ->. destruct U as [-> | ->]; cbn [close_of]; exists st; auto.
  - injection E as -> ->. assert (X : shuts (u :: st) (k ++ close_of u :: l2)) by (exists k, l2; auto). destruct v; try exact X; contradiction.
  - injection E as -> ->. exists k1, (k2 ++ close_of u :: l2). split; [rewrite <- app_assoc; reflexivity|]. split; [exact B1|]. exists k2, l2. auto.
  - injection E as -> ->. exists k1, (k2 ++ close_of u :: l2). split; [rewrite <- app_assoc; reflexivity|]. split; [exact B1|]. exists k2, l2. auto.
Qed.
Lemma new_items_safe d : forall f p n a st l, types_of d = a ++ l -> length a = S p -> Forall opening st -> S n <= arrays st -> shuts st l ->
  safe (length (ds_tokens d)) (new_items f d p n).
Proof.
  induction f as [|f IH]; intros p n a st l T L F C Sh; [exact I|]. cbn [new_items].
  assert (NE : st <> []) by (intros ->; cbn in C; lia).
  assert (exists t l', l = t :: l') as (t & l' & ->).
  { destruct st as [|u st]; [congruence|]. destruct Sh as (l1 & l2 & -> & _). destruct l1; cbn; eauto. }
  assert (LT : S p < length (ds_tokens d)).
  { apply (f_equal (@length _)) in T. unfold types_of in T. rewrite map_length, app_length in T. cbn in T. lia. }
  destruct (nth_error (ds_tokens d) p) as [tk|] eqn:N; [|apply nth_error_None in N; lia].
  assert (N1 : nth_error (types_of d) (S p) = Some t) by (rewrite T, <- L; apply nth_mid). destruct (type_at d (S p) t N1) as (tk1 & N2 & E). rewrite N2, E.
  assert (T' : types_of d = (a ++ [t]) ++ l') by (rewrite T, <- app_assoc; reflexivity).
  assert (L' : length (a ++ [t]) = S (S p)) by (rewrite app_length; cbn; lia).
  assert (M : Forall (fun e => at_ e < length (ds_tokens d)) [@Mark token p NewArrayItem]) by (constructor; [cbn; lia|constructor]).
  assert (GO : forall n' st', Forall opening st' -> S n' <= arrays st' -> shuts st' l' ->
    safe (length (ds_tokens d)) (let* r := new_items f d (S p) n' in Ok (Mark p NewArrayItem :: r))).
  { intros n' st' F' C' S'. apply (safe_app _ [Mark p NewArrayItem]); [exact M|]. exact (IH (S p) n' _ st' l' T' L' F' C' S'). }
  apply (shuts_step st t l' NE F) in Sh. destruct t; try (apply (GO n st); assumption).
  - apply (GO n (TObjectStart :: st)); [constructor; [left; reflexivity|exact F]|exact C|exact Sh].
  - destruct Sh as (st' & -> & Sh). apply (GO n st'); [exact (Forall_inv_tail F)|exact C|exact Sh].
  - apply (GO (S n) (TArrayStart :: st)); [constructor; [right; reflexivity|exact F]|unfold arrays in *; cbn; lia|exact Sh].
  - destruct Sh as (st' & -> & Sh). destruct n as [|n]; [exact M|]. apply (GO n st'); [exact (Forall_inv_tail F)|unfold arrays in *; cbn in C; lia|exact Sh].
Qed.
Lemma new_items_inside d p tk f : source d -> whole d p tk -> ~ closer (tk_value_type tk) -> inside d p TArrayEnd -> safe (length (ds_tokens d)) (new_items f d p 0).
Proof.
  intros S (N & _) K (a & l & r & T & L & B).
  assert (N1 : nth_error (types_of d) p = Some (tk_value_type tk)) by (unfold types_of; rewrite nth_error_map, N; reflexivity).
  assert (Sh : shuts [TArrayStart] (l ++ TArrayEnd :: r)) by (exists l, r; cbn; auto).
  destruct (l ++ TArrayEnd :: r) as [|t l'] eqn:Q; [destruct l; discriminate Q|].
  rewrite T, <- L, nth_mid in N1. injection N1 as ->.
  assert (F : Forall opening [TArrayStart]) by (constructor; [right; reflexivity|constructor]).
  apply (shuts_step [TArrayStart] _ l' ltac:(discriminate) F) in Sh.
  assert (T' : types_of d = (a ++ [tk_value_type tk]) ++ l') by (rewrite T, <- app_assoc; reflexivity).
  assert (L' : length (a ++ [tk_value_type tk]) = Datatypes.S p) by (rewrite app_length; cbn; lia).
  destruct (tk_value_type tk) eqn:X; try (apply (new_items_safe d f p 0 _ [TArrayStart] l' T' L' F); [cbn; lia|exact Sh]).
  - apply (new_items_safe d f p 0 _ [TObjectStart; TArrayStart] l' T' L'); [constructor; [left; reflexivity|exact F]|cbn; lia|exact Sh].
  - exfalso. apply K. left. reflexivity.
  - apply (new_items_safe d f p 0 _ [TArrayStart; TArrayStart] l' T' L'); [constructor; [right; reflexivity|exact F]|cbn; lia|exact Sh].
  - exfalso. apply K. right. reflexivity.
Qed.
Lemma missing_items_safe n b diffPos : source b -> diffPos < n -> forall f p, inside b p TArrayEnd -> safe n (missing_items f b p diffPos).
Proof.
  intros S L. induction f as [|f IH]; intros p H; [exact I|]. cbn [missing_items]. destruct (inside_cases b p _ S H) as [(tk & N & E)|(tk & q & Wh & K & Sk & Q)].
  - rewrite N, E. constructor.
  - rewrite (proj1 Wh), Sk. destruct (type_eqb _ _); [constructor|]. apply safe_then; [exact (missing_array_safe n diffPos b p tk S L Wh)|]. intros es F. cbn [obind].
    apply safe_app; [exact F|]. exact (IH q Q).
Qed.
Lemma scalar_safe n bt dt p : p < n -> safe n (diffScalar o bt dt p).
Proof.
  intros L. unfold diffScalar. destruct (tk_value_type bt); cbn; try (repeat constructor; exact L).
  destruct (Ho (dr_bytes (tk_value bt)) (dr_bytes (tk_value dt))) as (r & ->). cbn. repeat constructor. exact L.
Qed.

(** Only values that JSON has; no bare words. *)
Definition json_type (t : type) : Prop := match t with TError | TAscii | TVerbatim => False | _ => True end.
Lemma count_defined d p tk : nth_error (ds_tokens d) p = Some tk -> childCount d p <> UB.
Proof. intros N. unfold childCount. rewrite N. destruct (find _ _); discriminate. Qed.

Lemma diff_safe b d : source b -> source d -> Forall (fun tk => json_type (tk_value_type tk)) (ds_tokens b) -> forall f,
  let n := length (ds_tokens d) in
  (forall p q bt dt, nth_error (ds_tokens b) p = Some bt -> nth_error (ds_tokens d) q = Some dt -> inside b (S p) TObjectEnd -> inside d (S q) TObjectEnd -> safe n (diffObjects f o b p d q)) /\
  (forall p q, q < n -> inside b p TObjectEnd -> inside d (S q) TObjectEnd -> safe n (obj_loop f o b p d q)) /\
  (forall p bt q0 q, q0 < n -> whole b p bt -> inside d q TObjectEnd -> safe n (obj_find f o b p bt d q0 q)) /\
  (forall p bt q dt, whole b p bt -> whole d q dt -> tk_value_type bt = tk_value_type dt -> safe n (diffValue f o b p bt d q dt)) /\
  (forall p q bt dt, nth_error (ds_tokens b) p = Some bt -> nth_error (ds_tokens d) q = Some dt -> inside b (S p) TArrayEnd -> inside d (S q) TArrayEnd -> safe n (diffArrays f o b p d q)) /\
  (forall p q0 q, q0 < n -> inside b p TArrayEnd -> inside d q TArrayEnd -> safe n (arr_loop f o b p d q0 q)).
Proof.
  intros Sb Sd J f n. induction f as [|f (I1 & I2 & I3 & I4 & I5 & I6)]; [repeat split; intros; exact I|].
  split; [|split; [|split; [|split; [|split]]]].
  - intros p q bt dt Np Nq Hp Hq. cbn [diffObjects]. apply safe_bind; [exact (count_defined b p bt Np)|intros bc _]. apply safe_bind; [exact (count_defined d q dt Nq)|intros dc _].
    destruct (_ && _); [constructor|]. apply safe_then; [exact (I2 _ _ (nth_lt _ _ _ Nq) Hp Hq)|]. intros es F. apply safe_app; [exact F|].
    apply new_members_safe; assumption.
  - intros p q Lq Hp Hq. cbn [obj_loop]. destruct (inside_cases b p _ Sb Hp) as [(tk & N & E)|(tk & p' & Wh & K & Sk & Q)].
    + rewrite N, E. constructor.
    + rewrite (proj1 Wh), Sk. destruct (type_eqb _ _); [constructor|]. apply safe_then; [exact (I3 _ _ _ _ Lq Wh Hq)|]. intros es F. cbn [obind].
      apply safe_app; [exact F|]. exact (I2 _ _ Lq Q Hq).
  - intros p bt q0 q L0 Wb Hq. cbn [obj_find]. destruct (inside_cases d q _ Sd Hq) as [(tk & N & E)|(tk & q' & Wh & K & Sk & Q)].
    + rewrite N, E. cbn. exact (missing_safe n q0 b p bt Sb L0 Wb).
    + rewrite (proj1 Wh), Sk. destruct (type_eqb _ TObjectEnd); [exact (missing_safe n q0 b p bt Sb L0 Wb)|]. destruct (isSameMember bt tk).
      * destruct (type_eqb _ _) eqn:E; [apply teq in E; exact (I4 _ _ _ _ Wb Wh E)|exact (state_safe d q tk _ Sd Wh)].
      * cbn [obind]. exact (I3 _ _ _ _ L0 Wb Q).
  - intros p bt q dt Wb Wd E. cbn [diffValue]. assert (Ld := nth_lt _ _ _ (proj1 Wd)).
    destruct (tk_value_type bt) eqn:X; try (apply scalar_safe; exact Ld).
    + refine (I1 p q bt dt (proj1 Wb) (proj1 Wd) _ _); [destruct Wb as (_ & H); rewrite X in H|destruct Wd as (_ & H); rewrite <- E in H]; apply H; left; reflexivity.
    + refine (I5 p q bt dt (proj1 Wb) (proj1 Wd) _ _); [destruct Wb as (_ & H); rewrite X in H|destruct Wd as (_ & H); rewrite <- E in H]; apply H; right; reflexivity.
  - intros p q bt dt Np Nq Hp Hq. cbn [diffArrays]. apply safe_bind; [exact (count_defined b p bt Np)|intros bc _]. apply safe_bind; [exact (count_defined d q dt Nq)|intros dc _].
    destruct (_ && _); [constructor|]. exact (I6 _ _ _ (nth_lt _ _ _ Nq) Hp Hq).
  - intros p q0 q L0 Hp Hq. cbn [arr_loop].
    destruct (inside_cases b p _ Sb Hp) as [(bt & Nb & Eb)|(bt & p' & Wb & Kb & Skb & Qb)]; destruct (inside_cases d q _ Sd Hq) as [(dt & Nd & Ed)|(dt & q' & Wd & Kd & Skd & Qd)].
    + rewrite Nb, Nd, Eb, Ed. constructor.
    + rewrite Nb, (proj1 Wd), Eb. destruct (type_eqb TArrayEnd (tk_value_type dt)) eqn:X; [apply teq in X; exfalso; apply Kd; right; congruence|].
      change (type_eqb TArrayEnd TArrayEnd) with true. cbv iota. exact (new_items_inside d q dt _ Sd Wd Kd Hq).
    + rewrite (proj1 Wb), Nd, Ed. destruct (type_eqb (tk_value_type bt) TArrayEnd) eqn:X; [apply teq in X; exfalso; apply Kb; right; congruence|].
      try rewrite X. change (type_eqb TArrayEnd TArrayEnd) with true. cbv iota. exact (missing_items_safe n b q0 Sb L0 _ _ Hp).
    + rewrite (proj1 Wb), (proj1 Wd), Skb, Skd. cbn [obind]. destruct (type_eqb (tk_value_type bt) (tk_value_type dt)) eqn:X.
      * apply teq in X. assert (V : safe n (let* e := diffValue f o b p bt d q dt in let* r := arr_loop f o b p' d q0 q' in Ok (e ++ r))).
        { apply safe_then; [exact (I4 _ _ _ _ Wb Wd X)|]. intros es F. apply safe_app; [exact F|]. exact (I6 _ _ _ L0 Qb Qd). }
        assert (JT : json_type (tk_value_type bt)) by (rewrite Forall_forall in J; apply J; exact (nth_error_In _ _ (proj1 Wb))).
        destruct (tk_value_type bt) eqn:Y; try exact V; try destruct JT. exfalso. apply Kb. left. reflexivity. constructor.
      * destruct (type_eqb (tk_value_type bt) TArrayEnd) eqn:Y; [apply teq in Y; exfalso; apply Kb; right; exact Y|].
        destruct (type_eqb (tk_value_type dt) TArrayEnd) eqn:Z; [apply teq in Z; exfalso; apply Kd; right; exact Z|].
        apply (safe_app n [Mark q TypeDiff]); [constructor; [exact (nth_lt _ _ _ (proj1 Wd))|constructor]|]. exact (I6 _ _ _ L0 Qb Qd).
Qed.

Lemma whole_first d tk l : closed d -> ds_tokens d = tk :: l -> whole d 0 tk.
Proof.
  intros C E. split; [rewrite E; reflexivity|]. intros O. unfold closed, types_of in C. unfold inside, types_of. rewrite E in *. cbn [map] in *.
  inversion C as [|t k A1 A2 A3 A4 B Q|l1 l2 B1 B2 Q|l1 l2 B1 B2 Q].
  - exfalso. destruct O as [O|O]; congruence.
  - exists [TObjectStart], l1, l2. split; [reflexivity|]. auto.
  - exists [TArrayStart], l1, l2. split; [reflexivity|]. auto.
Qed.
Lemma events_safe b d : source b -> source d -> closed b -> closed d -> Forall (fun tk => json_type (tk_value_type tk)) (ds_tokens b) ->
  (ds_tokens d = [] -> ds_tokens b = []) ->
  match diff_events o b d with Ok (es, _) => Forall (fun e => at_ e < length (ds_tokens d)) es | UB => False | OutOfFuel => True end.
Proof.
  intros Sb Sd Cb Cd J E. unfold diff_events.
  assert (K : forall x (z : bool), safe (length (ds_tokens d)) x -> match (let* e := x in Ok (e, z)) with Ok (es, _) => Forall (fun e => at_ e < length (ds_tokens d)) es | UB => False | OutOfFuel => True end : Prop)
    by (intros [es| |] z H; exact H).
  destruct (ds_tokens b) as [|bt lb] eqn:Eb, (ds_tokens d) as [|dt ld] eqn:Ed.
  - constructor.
  - rewrite <- Ed in *. apply K. exact (state_safe d 0 dt _ Sd (whole_first d dt ld Cd Ed)).
  - specialize (E eq_refl). discriminate E.
  - rewrite <- Eb, <- Ed in *. apply K. assert (Wb := whole_first b bt lb Cb Eb). assert (Wd := whole_first d dt ld Cd Ed).
    destruct (type_eqb _ _) eqn:X; [|exact (state_safe d 0 dt _ Sd Wd)]. apply teq in X.
    destruct (diff_safe b d Sb Sd J (diff_fuel b d)) as (I1 & _ & _ & _ & I5 & _).
    destruct (tk_value_type bt) eqn:Y; try exact (state_safe d 0 dt _ Sd Wd).
    + refine (I1 0 0 bt dt (proj1 Wb) (proj1 Wd) _ _); [destruct Wb as (_ & H); rewrite Y in H|destruct Wd as (_ & H); rewrite <- X in H]; apply H; left; reflexivity.
    + refine (I5 0 0 bt dt (proj1 Wb) (proj1 Wd) _ _); [destruct Wb as (_ & H); rewrite Y in H|destruct Wd as (_ & H); rewrite <- X in H]; apply H; right; reflexivity.
Qed.
Lemma apply_safe : forall es s, Forall (fun e => at_ e < length (dt_diffs s)) es -> exists s', apply_events es s = Ok s' /\ length (dt_diffs s') = length (dt_diffs s) /\ dt_src s' = dt_src s.
Proof.
  induction es as [|e es IH]; intros s F; [exists s; auto|]. cbn [apply_events]. assert (L := Forall_inv F).
  assert (exists s1, apply_event e s = Ok s1 /\ length (dt_diffs s1) = length (dt_diffs s) /\ dt_src s1 = dt_src s) as (s1 & -> & L1 & Q1).
  { destruct e; cbn [apply_event at_] in *; unfold d_set; cbn [dt_diffs]; (destruct (Nat.ltb_spec pos (length (dt_diffs s))); [|lia]);
      (eexists; split; [reflexivity|]); cbn; rewrite upd_len; auto. }
  cbn [obind]. destruct (IH s1) as (s' & A & B & C); [rewrite L1; exact (Forall_inv_tail F)|]. exists s'. split; [exact A|]. split; congruence.
Qed.
Lemma run_safe b d err : source b -> source d -> closed b -> closed d -> Forall (fun tk => json_type (tk_value_type tk)) (ds_tokens b) ->
  (ds_tokens d = [] -> ds_tokens b = []) -> exists s, run_diff o b (fresh d err) = Ok s /\ length (dt_diffs s) = length (ds_tokens d).
Proof.
  intros Sb Sd Cb Cd J E. assert (EV := events_safe b d Sb Sd Cb Cd J E).
  assert (NF := events_end o ltac:(intros x y; destruct (Ho x y) as (r & ->); discriminate) b d Sb Sd).
  unfold run_diff. cbn [fresh dt_src]. destruct (diff_events o b d) as [[es z]| |]; [|destruct EV|exfalso; apply NF; reflexivity]. cbn [obind].
  destruct (apply_safe es (if z then mkDst d (repeat NoDiff (length (ds_tokens d))) 0 [] [] err else fresh d err)) as (s' & A & B & _).
  - destruct z; cbn; rewrite repeat_length; exact EV.
  - exists s'. split; [exact A|]. rewrite B. destruct z; cbn; apply repeat_length.
Qed.
End Safe.
