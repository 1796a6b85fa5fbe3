(** The comparison of any two texts: it ends, and it stays inside the tokens if all brackets are closed. *)
From Verif Require Import Base ScanModel TokModel TokSafe TokSpec TokSpecProofs MapModel DiffModel CallProofs DiffAnyMeta HandlerTree.
From Coq Require Import Lia.

(** ** It ends *)
Definition ends {A} (x : outcome A) : Prop := x <> OutOfFuel.
Lemma ends_bind {A B} (x : outcome A) (f : A -> outcome B) : ends x -> (forall a, x = Ok a -> ends (f a)) -> ends (obind x f).
Proof. intros H1 H2. destruct x as [a| |]; cbn [obind]; [exact (H2 a eq_refl)|discriminate|exfalso; apply H1; reflexivity]. Qed.
Lemma ends_ok {A} (a : A) : ends (Ok a).
Proof. discriminate. Qed.
Lemma ends_ub {A} : ends (@UB A).
Proof. discriminate. Qed.
#[local] Hint Resolve ends_ok ends_ub : core.

Lemma skip_ends d pos : ends (d_skip d pos).
Proof. unfold d_skip. destruct (nth_error _ _); [|auto]. destruct (isComplexValue _); [|auto]. destruct (find _ _); auto. Qed.
Lemma skip_past d pos t p : source d -> nth_error (ds_tokens d) pos = Some t -> d_skip d pos = Ok p -> pos < p.
Proof.
  intros S N E. assert (L : pos < length (ds_tokens d)) by (apply nth_error_Some; rewrite N; discriminate).
  destruct (skip_forward d pos S L) as (q & E' & Q). rewrite E in E'. injection E' as ->. exact Q.
Qed.
Lemma count_ends d pos : ends (childCount d pos).
Proof. unfold childCount. destruct (nth_error _ _); [|auto]. destruct (find _ _); auto. Qed.
Lemma nth_lt {A} (l : list A) p t : nth_error l p = Some t -> p < length l.
Proof. intros N. apply nth_error_Some. rewrite N. discriminate. Qed.

Section Ends.
Context (o : dopts) (Ho : forall x y, ends (do_same o x y)).

Lemma walk_ends d w : source d -> forall f,
  (forall pos, 2 * (length (ds_tokens d) - pos) + 1 <= f -> ends (walk f d w pos)) /\
  (forall pos, 2 * (length (ds_tokens d) - pos) + 2 <= f -> ends (walk_loop f d w pos)).
Proof.
  intros S. induction f as [|f (IH1 & IH2)]; [split; intros; lia|]. split; intros pos F; cbn [walk walk_loop];
    (destruct (nth_error (ds_tokens d) pos) as [t|] eqn:N; [|auto]); assert (L := nth_lt _ _ _ N); destruct (isComplexValue (tk_value_type t)); auto.
  - apply ends_bind; [apply IH2; lia|auto].
  - apply ends_bind; [apply IH1; lia|intros a _]. apply ends_bind; [apply skip_ends|intros p E]. apply (skip_past _ _ _ _ S N) in E.
    apply ends_bind; [apply IH2; lia|auto].
  - destruct (isEnd (tk_value_type t)); auto. apply ends_bind; [apply skip_ends|intros p E]. apply (skip_past _ _ _ _ S N) in E.
    apply ends_bind; [apply IH2; lia|auto].
Qed.
Lemma state_ends d pos t : source d -> ends (setStateForEntireToken d pos t).
Proof. intros S. apply walk_ends; [exact S|]. unfold walk_fuel. lia. Qed.
Lemma missing_ends s b pos : source b -> ends (addMissingMembers s b pos).
Proof. intros S. apply walk_ends; [exact S|]. unfold walk_fuel. lia. Qed.
Lemma missing_array_ends s b pos : source b -> ends (addMissingArrayItems s b pos).
Proof. intros S. apply walk_ends; [exact S|]. unfold walk_fuel. lia. Qed.
Lemma in_base_ends b dt : source b -> forall f bPos, length (ds_tokens b) - bPos + 1 <= f -> ends (in_base f b dt bPos).
Proof.
  intros S. induction f as [|f IH]; intros bPos F; [lia|]. cbn [in_base]. destruct (nth_error (ds_tokens b) bPos) as [t|] eqn:N; [|auto]. assert (L := nth_lt _ _ _ N).
  destruct (type_eqb _ _); auto. destruct (isSameMember dt t); auto. apply ends_bind; [apply skip_ends|intros p E]. apply (skip_past _ _ _ _ S N) in E. apply IH. lia.
Qed.
Lemma new_members_ends b basePos d : source b -> source d -> forall f dPos, length (ds_tokens d) - dPos + 1 <= f -> ends (new_members f b basePos d dPos).
Proof.
  intros Sb S. induction f as [|f IH]; intros dPos F; [lia|]. cbn [new_members]. destruct (nth_error (ds_tokens d) dPos) as [t|] eqn:N; [|auto]. assert (L := nth_lt _ _ _ N).
  destruct (type_eqb _ _); auto. apply ends_bind; [apply in_base_ends; [exact Sb|lia]|intros found _].
  apply ends_bind; [destruct found; [auto|apply state_ends, S]|intros e _]. apply ends_bind; [apply skip_ends|intros p E]. apply (skip_past _ _ _ _ S N) in E.
  apply ends_bind; [apply IH; lia|auto].
Qed.
Lemma new_items_ends d : forall f dPos n, length (ds_tokens d) - dPos + 1 <= f -> ends (new_items f d dPos n).
Proof.
  induction f as [|f IH]; intros dPos n F; [lia|]. cbn [new_items]. destruct (nth_error (ds_tokens d) dPos) as [t|] eqn:N; [|auto]. assert (L := nth_lt _ _ _ N).
  destruct (nth_error (ds_tokens d) (S dPos)) as [t2|]; [|auto].
  destruct (tk_value_type t2); try (apply ends_bind; [apply IH; lia|auto]). destruct n; [auto|]. apply ends_bind; [apply IH; lia|auto].
Qed.
Lemma missing_items_ends b diffPos : source b -> forall f bPos, length (ds_tokens b) - bPos + 1 <= f -> ends (missing_items f b bPos diffPos).
Proof.
  intros S. induction f as [|f IH]; intros bPos F; [lia|]. cbn [missing_items]. destruct (nth_error (ds_tokens b) bPos) as [t|] eqn:N; [|auto]. assert (L := nth_lt _ _ _ N).
  destruct (type_eqb _ _); auto. apply ends_bind; [apply missing_array_ends, S|intros e _]. apply ends_bind; [apply skip_ends|intros p E]. apply (skip_past _ _ _ _ S N) in E.
  apply ends_bind; [apply IH; lia|auto].
Qed.
Lemma scalar_ends bt dt pos : ends (diffScalar o bt dt pos).
Proof. unfold diffScalar. destruct (tk_value_type bt); auto. apply ends_bind; [apply Ho|auto]. Qed.

Definition dist (b d : dsrc) (p q : nat) : nat := 2 * ((length (ds_tokens b) - p) + (length (ds_tokens d) - q)).
Lemma count_valid d pos n : childCount d pos = Ok n -> pos < length (ds_tokens d).
Proof. unfold childCount. destruct (nth_error (ds_tokens d) pos) eqn:N; [|discriminate]. intros _. exact (nth_lt _ _ _ N). Qed.
Lemma diff_ends b d : source b -> source d -> forall f,
  (forall p q, dist b d p q + 1 <= f -> ends (diffObjects f o b p d q)) /\
  (forall p q, q < length (ds_tokens d) -> dist b d p q + 2 <= f -> ends (obj_loop f o b p d q)) /\
  (forall p bt q0 q, nth_error (ds_tokens b) p = Some bt -> dist b d p q + 3 <= f -> ends (obj_find f o b p bt d q0 q)) /\
  (forall p bt q dt, dist b d p q + 2 <= f -> ends (diffValue f o b p bt d q dt)) /\
  (forall p q, dist b d p q + 1 <= f -> ends (diffArrays f o b p d q)) /\
  (forall p q0 q, dist b d p q + 3 <= f -> ends (arr_loop f o b p d q0 q)).
Proof.
  intros Sb Sd. unfold dist. induction f as [|f (I1 & I2 & I3 & I4 & I5 & I6)]; [repeat split; intros; lia|].
  split; [|split; [|split; [|split; [|split]]]].
  - intros p q F. cbn [diffObjects]. apply ends_bind; [apply count_ends|intros bc B]. apply ends_bind; [apply count_ends|intros dc D].
    apply count_valid in B, D. destruct (_ && _); auto. apply ends_bind; [apply I2; [exact D|lia]|intros e _].
    apply ends_bind; [apply new_members_ends; [exact Sb|exact Sd|lia]|auto].
  - intros p q Q F. cbn [obj_loop]. destruct (nth_error (ds_tokens b) p) as [bt|] eqn:N; [|auto]. assert (L := nth_lt _ _ _ N). destruct (type_eqb _ _); auto.
    apply ends_bind; [apply I3; [exact N|lia]|intros e _]. apply ends_bind; [apply skip_ends|intros p' E]. apply (skip_past _ _ _ _ Sb N) in E.
    apply ends_bind; [apply I2; [exact Q|lia]|auto].
  - intros p bt q0 q N F. assert (L := nth_lt _ _ _ N). cbn [obj_find]. destruct (nth_error (ds_tokens d) q) as [dt|] eqn:M; [|auto]. assert (K := nth_lt _ _ _ M).
    destruct (type_eqb _ _); [apply missing_ends, Sb|]. destruct (isSameMember bt dt).
    + destruct (type_eqb _ _); [apply I4; lia|apply state_ends, Sd].
    + apply ends_bind; [apply skip_ends|intros p' E]. apply (skip_past _ _ _ _ Sd M) in E. apply I3; [exact N|lia].
  - intros p bt q dt F. cbn [diffValue]. destruct (tk_value_type bt); try apply scalar_ends; [apply I1|apply I5]; lia.
  - intros p q F. cbn [diffArrays]. apply ends_bind; [apply count_ends|intros bc B]. apply ends_bind; [apply count_ends|intros dc D].
    apply count_valid in B, D. destruct (_ && _); auto. apply I6. lia.
  - intros p q0 q F. cbn [arr_loop]. destruct (nth_error (ds_tokens b) p) as [bt|] eqn:N; [|auto]. assert (L := nth_lt _ _ _ N).
    destruct (nth_error (ds_tokens d) q) as [dt|] eqn:M; [|auto]. assert (K := nth_lt _ _ _ M).
    assert (ST : forall (ev : list (event token) -> list (event token)), ends (let* p := d_skip b p in let* q := d_skip d q in let* r := arr_loop f o b p d q0 q in Ok (ev r))).
    { intros ev. apply ends_bind; [apply skip_ends|intros p' E]. apply (skip_past _ _ _ _ Sb N) in E. apply ends_bind; [apply skip_ends|intros q' E']. apply (skip_past _ _ _ _ Sd M) in E'.
      apply ends_bind; [apply I6; lia|auto]. }
    destruct (type_eqb (tk_value_type bt) (tk_value_type dt)).
    + assert (V : ends (let* e := diffValue f o b p bt d q dt in let* p := d_skip b p in let* q := d_skip d q in let* r := arr_loop f o b p d q0 q in Ok (e ++ r))).
      { apply ends_bind; [apply I4; lia|intros e _]. apply (ST (fun r => e ++ r)). }
      destruct (tk_value_type bt); auto.
    + destruct (type_eqb _ _); [apply new_items_ends; lia|]. destruct (type_eqb _ _); [apply missing_items_ends; [exact Sb|lia]|]. apply (ST (fun r => Mark q TypeDiff :: r)).
Qed.
Lemma events_end b d : source b -> source d -> ends (diff_events o b d).
Proof.
  intros Sb Sd. unfold diff_events. destruct (diff_ends b d Sb Sd (diff_fuel b d)) as (I1 & _ & _ & _ & I5 & _). unfold dist, diff_fuel in I1, I5.
  destruct (ds_tokens b) as [|bt lb] eqn:Eb, (ds_tokens d) as [|dt ld] eqn:Ed; auto.
  - apply ends_bind; [apply state_ends, Sd|auto].
  - apply ends_bind; [|auto]. destruct (type_eqb _ _); [|apply state_ends, Sd].
    destruct (tk_value_type bt); try apply state_ends, Sd; unfold diff_fuel; rewrite Eb, Ed; [apply I1|apply I5]; lia.
Qed.
Lemma apply_ends : forall es s, ends (apply_events es s).
Proof.
  induction es as [|e es IH]; intros s; cbn [apply_events]; [auto|]. apply ends_bind; [|auto].
  destruct e; cbn [apply_event]; unfold d_set; destruct (Nat.ltb _ _); auto.
Qed.
Lemma run_ends b s : source b -> source (dt_src s) -> ends (run_diff o b s).
Proof. intros Sb Sd. unfold run_diff. apply ends_bind; [apply events_end; assumption|]. intros [es z] _. apply apply_ends. Qed.
End Ends.

(** ** Texts give sources *)
Lemma drain_trace o : forall f nt s ts0 ts e s', trace o ts0 s -> drain f o nt s = Ok (ts, e, s') -> exists s1, trace o (ts0 ++ ts) s1.
Proof.
  induction f as [|f IH]; intros nt s ts0 ts e s' T H; cbn [drain] in H; [discriminate H|].
  destruct (nextToken o nt s) as [[[s1 e1] nt1]| |] eqn:E; cbn [obind] in H; try discriminate H. destruct e1;
    try (injection H as <- <- <-; exists s; rewrite app_nil_r; exact T).
  destruct (drain f o nt1 s1) as [[[ts2 e2] s2]| |] eqn:E2; cbn [obind] in H; try discriminate H. injection H as <- <- <-.
  destruct (IH _ _ _ _ _ _ (Tr_next_ok o _ _ _ _ _ T E) E2) as (s3 & T3). exists s3. rewrite <- app_assoc in T3. exact T3.
Qed.
Lemma text_source f o t d e : src_of_text f o t = Ok (d, e) -> source d.
Proof.
  unfold src_of_text. destruct t as [|c t]; [intros [= <- <-]; split; [exists []; constructor|reflexivity]|].
  destruct (drain _ _ _ _) as [[[ts e'] s']| |] eqn:D; cbn [obind]; try discriminate.
  destruct (metaForTokens ts) as [m| |] eqn:M; cbn [obind]; try discriminate. intros [= <- <-]. split; [|exact M].
  change (tok_with [c :: t] []) with (set_supply [] (addData (c :: t) t_init)) in D.
  destruct (drain_trace o f _ _ [] ts e' s' (Tr_callback o _ _ [] (Tr_add o _ _ (c :: t) (Tr_init o))) D) as (s1 & T).
  exists (t_stack s1). exact (trace_runs o _ _ T).
Qed.
Lemma text_defined o t : exists f d e, src_of_text f o t = Ok (d, e) /\ (e = DNoError <-> ds_tokens d <> []) /\ (e = DEmptyString <-> t = []).
Proof.
  destruct t as [|c t]; [exists 0, (mkSrc [] []), DEmptyString; split; [reflexivity|]; cbn; split; split; try congruence; auto|].
  destruct (drain_terminates o (set_supply [] (addData (c :: t) t_init)) (mkTok dref_empty dref_empty TString TString)) as (ts & e & s1 & D & _).
  { apply R_callback, R_add; [apply R_init|reflexivity]. }
  eexists (S _). specialize (D (S _) (Nat.lt_succ_diag_r _)).
  destruct (drain_trace o _ _ _ [] ts e s1 (Tr_callback o _ _ [] (Tr_add o _ _ (c :: t) (Tr_init o))) D) as (s2 & T).
  apply trace_runs in T. cbn [app] in T. destruct (loop_ok _ _ _ T 0 [] [] eq_refl) as (m & P & L & _).
  exists (mkSrc ts m), (match ts with [] => DNoTokens | _ => DNoError end). split.
  - unfold src_of_text. change (tok_with [c :: t] []) with (set_supply [] (addData (c :: t) t_init)). rewrite D. cbn [obind]. unfold metaForTokens. rewrite L. reflexivity.
  - destruct ts; cbn; split; split; congruence.
Qed.
