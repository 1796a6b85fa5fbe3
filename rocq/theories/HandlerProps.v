(** Containers and structs, one value at a time. *)
From Verif Require Import Base Tactics ScanModel TokModel JsonSpec EscapeModel IntModel MapSpec MapProofs MapProofs2 DiffProofs SerDoc HandlerModel HandlerSpec HandlerTree HandlerLaws.
From Coq Require Import Lia Permutation.

Lemma fits_string_free t : string_free t = true -> fp_free t = true -> forall oj, fits t oj.
Proof.
  induction t as [|i|sg|hr tp| |ns u|t IH|t IH|t IH|t IH|t IH|u t IH|t IH|t IH|t IH|n t IH|n t IH|t IH|ts IH|t IH|b fs IH] using ty_rect_nested;
    intros H F oj; cbn [string_free fp_free] in H, F; cbn [fits]; auto; try discriminate H; try discriminate F.
  - destruct oj as [[s|els|ms]|]; auto. apply Forall_forall. auto.
  - destruct oj as [[s|els|ms]|]; auto. apply Forall_forall. auto.
  - destruct oj as [[s|els|ms]|]; auto. split; [apply Forall_forall; auto|auto].
  - destruct oj as [[s|els|ms]|]; auto. apply Forall_forall. auto.
  - destruct oj as [[s|els|ms]|]; auto. apply Forall_forall. auto.
  - destruct oj as [[s|els|ms]|]; auto. revert els. induction IH as [|t ts Ht _ IHl]; intros els; [exact I|].
    cbn [forallb] in H, F. apply andb_true_iff in H, F. destruct H as [H1 H2], F as [F1 F2]. split; [apply Ht; assumption|]. intros _. apply IHl; assumption.
  - destruct oj as [[s|els|ms]|]; auto. apply Forall_forall. auto.
  - destruct oj as [[s|els|ms]|]; auto. apply Forall_forall. intros kv _. destruct (search_both _ _ _) as [i|]; [|exact I].
    destruct (nth_error fs i) as [f|] eqn:E.
    + erewrite nth_error_nth by (rewrite nth_error_map, E; reflexivity). cbn beta.
      rewrite Forall_forall in IH. rewrite forallb_forall in H, F. apply nth_error_In in E. exact (IH f E (H f E) (F f E) (Some (snd kv))).
    + rewrite nth_overflow; [exact I|]. rewrite map_length. apply nth_error_None. exact E.
Qed.

(** ** Equality of values *)
Lemma val_rect_nested (P : val -> Prop) :
  (forall b, P (VBool b)) -> (forall z, P (VInt z)) -> (forall s b, P (VFp s b)) -> (forall s, P (VStr s)) -> (forall f v, P v -> P (VFlag f v)) ->
  P (VOpt None) -> (forall v, P v -> P (VOpt (Some v))) -> (forall l, Forall P l -> P (VList l)) ->
  (forall n l, Forall P l -> P (VVar n l)) -> (forall m, Forall (fun kv => P (snd kv)) m -> P (VMap m)) -> forall v, P v.
Proof.
  intros H1 H2 H2' H3 H4 H5 H6 H7 H8 H9. fix F 1. intros v. destruct v as [b|z|sg b|s|f v|[v|]|l|n l|m].
  - apply H1.
  - apply H2.
  - apply H2'.
  - apply H3.
  - apply H4, F.
  - apply H6, F.
  - apply H5.
  - apply H7. induction l as [|v l IH]; constructor; [apply F|exact IH].
  - apply H8. induction l as [|v l IH]; constructor; [apply F|exact IH].
  - apply H9. induction m as [|[k v] l IH]; constructor; [apply F|exact IH].
Qed.
Lemma val_eqb_eq a : forall b, val_eqb a b = true <-> plain_zero a = plain_zero b.
Proof.
  assert (L : forall l, Forall (fun a => forall b, val_eqb a b = true <-> plain_zero a = plain_zero b) l -> forall m,
    (fix go l m := match l, m with | [], [] => true | x :: l, y :: m => val_eqb x y && go l m | _, _ => false end) l m = true <-> map plain_zero l = map plain_zero m).
  { induction 1 as [|x l Hx _ IH]; intros [|y m]; split; intros H; try discriminate H; auto; cbn [map] in *.
    - apply andb_true_iff in H. destruct H as [A B]. apply Hx in A. apply IH in B. congruence.
    - injection H as A B. apply andb_true_iff. split; [apply Hx; exact A|apply IH; exact B]. }
  induction a as [b|z|sg b|s|f v IH| |v IH|l IH|n l IH|m IH] using val_rect_nested; intros w; destruct w as [b'|z'|sg' b2|s'|f' v'|[v'|]|l'|n' l'|m']; cbn [val_eqb plain_zero];
    try (split; intros H; discriminate H).
  - rewrite Bool.eqb_true_iff. split; congruence.
  - rewrite Z.eqb_eq. split; congruence.
  - rewrite andb_true_iff, Bool.eqb_true_iff. unfold fp_zero. rewrite orb_true_iff, andb_true_iff, !orb_true_iff, !N.eqb_eq.
    assert (Z : (if sg then 2 ^ 31 else 2 ^ 63)%N <> 0%N) by (destruct sg; discriminate).
    destruct (Bool.bool_dec sg sg') as [<-|Hs].
    + generalize dependent (if sg then 2 ^ 31 else 2 ^ 63)%N. intros k Z.
      destruct (N.eqb_spec b k) as [->|H1], (N.eqb_spec b2 k) as [->|H2].
      * tauto.
      * split; [intros [_ [E|[_ [E|E]]]]|intros H; injection H as <-]; subst; tauto || congruence.
      * split; [intros [_ [E|[[E|E] _]]]|intros H; injection H as H]; subst; tauto || congruence.
      * split; [intros [_ [E|[[E|E] [E'|E']]]]|intros H; injection H as H]; subst; tauto || congruence.
    + split; [intros [H _]; contradiction|intros H; injection H as H _; contradiction].
  - rewrite beq_iff. split; congruence.
  - rewrite andb_true_iff, Bool.eqb_true_iff, IH. split; [intros [-> ->]; reflexivity|intros H; injection H as -> ->; auto].
  - split; reflexivity.
  - rewrite IH. split; congruence.
  - rewrite (L l IH). split; congruence.
  - rewrite andb_true_iff, Nat.eqb_eq, (L l IH). split; [intros [-> ->]; reflexivity|intros H; injection H as -> ->; auto].
  - assert (M : forall m', (fix go l m := match l, m with
                     | [], [] => true
                     | x :: l, y :: m => bytes_eqb (fst x) (fst y) && val_eqb (snd x) (snd y) && go l m
                     | _, _ => false end) m m' = true <-> map (fun kv => (fst kv, plain_zero (snd kv))) m = map (fun kv => (fst kv, plain_zero (snd kv))) m');
      [|rewrite M; split; congruence].
    induction IH as [|[k x] l Hx _ IHl]; intros [|[k' y] l']; split; intros H; try discriminate H; auto; cbn [fst snd map] in *.
    + apply andb_true_iff in H. destruct H as [A B]. apply andb_true_iff in A. destruct A as [A C].
      apply beq_iff in A. apply Hx in C. apply IHl in B. congruence.
    + injection H as A B C. apply andb_true_iff. split; [apply andb_true_iff; split; [apply beq_iff; exact A|apply Hx; exact B]|apply IHl; exact C].
Qed.

(** ** Containers *)
Section Cont.
Context (g : pcfg).

(** Reading into [t], as a relation on [sem]. *)
Definition sem_each (s : shandler) : list val -> list json -> list val -> report -> Prop :=
  fix go vs js vs' r := match vs, js, vs' with
    | [], [], [] => r = r0
    | v :: vs, j :: js, v' :: vs' => exists r1 r2, s v (Some j) r0 = Ok (NoError, v', r1) /\ go vs js vs' r2 /\ r = rapp r1 r2
    | _, _, _ => False
    end.

Lemma sem_each_reads t : ty_ok t -> forall vs js vs' r, Forall (shaped t) vs -> Forall (fun j => fits t (Some j)) js ->
  (sem_each (sem g t) vs js vs' r <-> reads_each g t vs js vs' r).
Proof.
  intros Ht. induction vs as [|v vs IH]; intros [|j js] [|v' vs'] r Hv Hj; cbn [sem_each]; split; intros H; try contradiction; try (inversion H; fail).
  - subst r. constructor.
  - inversion H; subst. reflexivity.
  - inversion Hv; inversion Hj; subst. destruct H as (r1 & r2 & A & B & ->). constructor.
    + rewrite read_value_sem; assumption.
    + apply IH; assumption.
  - inversion Hv; inversion Hj; subst. inversion H; subst. exists r1, r2. split; [|split; [apply IH; assumption|reflexivity]].
    rewrite <- read_value_sem; assumption.
Qed.

Lemma is_ok_NoError e : is_ok e = true -> e = NoError.
Proof. apply is_ok_spec. Qed.

Lemma s_fixed_spec s : appends s -> forall slots els acc r l,
  (length els < length slots -> rejects s) ->
  (s_fixed s els acc slots r0 = Ok (NoError, l, r) <-> exists vs, l = acc ++ vs /\ sem_each s slots els vs r).
Proof.
  intros Hs. induction slots as [|v slots IH]; intros els acc r l Hrej; cbn [s_fixed].
  - destruct els as [|j els]; split.
    + intros H. injection H as <- <-. exists []. rewrite app_nil_r. split; reflexivity.
    + intros ([|v vs] & -> & H); [|contradiction]. cbn in H. subst r. rewrite app_nil_r. reflexivity.
    + intros H. discriminate H.
    + intros ([|v vs] & -> & H); contradiction.
  - destruct els as [|j els]; cbn [hd_error tl].
    + split.
      * intros H. assert (R := Hrej ltac:(cbn; lia)). exfalso.
        destruct (s v None r0) as [[[e v'] r']| |] eqn:E; cbn [obind] in H; try discriminate H.
        specialize (R v r0 e v' r' E). destruct (is_ok e) eqn:Eo; [apply is_ok_NoError in Eo; contradiction|].
        injection H as H _ _. contradiction.
      * intros (vs & _ & H). destruct vs; contradiction.
    + destruct (s v (Some j) r0) as [[[e v'] r']| |] eqn:E; cbn [obind].
      * destruct (is_ok e) eqn:Eo.
        -- apply is_ok_NoError in Eo. subst e. replace r' with (rapp r' r0) by apply rapp_r0. rewrite (s_fixed_shift s Hs).
           specialize (IH els (acc ++ [v'])).
           split.
           ++ intros H. destruct (s_fixed s els (acc ++ [v']) slots r0) as [[[e2 l2] r2]| |] eqn:E2; cbn [shift] in H; try discriminate H.
              injection H as -> -> <-. destruct (proj1 (IH r2 l ltac:(intros; apply Hrej; cbn; lia)) eq_refl) as (vs & -> & H).
              exists (v' :: vs). rewrite <- app_assoc. split; [reflexivity|]. exists r', r2. auto.
           ++ intros ([|v2 vs] & -> & H); [contradiction|]. destruct H as (r1 & r2 & A & B & ->). rewrite E in A. injection A as <- <-.
              rewrite (proj2 (IH r2 (acc ++ v' :: vs) ltac:(intros; apply Hrej; cbn; lia))); [reflexivity|].
              exists vs. rewrite <- app_assoc. auto.
        -- split.
           ++ intros H. injection H as -> _ _. discriminate Eo.
           ++ intros ([|v2 vs] & -> & H); [contradiction|]. destruct H as (r1 & r2 & A & _). rewrite E in A. injection A as -> _ _. discriminate Eo.
      * split; [discriminate|]. intros ([|v2 vs] & -> & H); [contradiction|]. destruct H as (r1 & r2 & A & _). congruence.
      * split; [discriminate|]. intros ([|v2 vs] & -> & H); [contradiction|]. destruct H as (r1 & r2 & A & _). congruence.
Qed.

Lemma s_var_spec s size : appends s -> forall slots els acc r l,
  (s_var s els size acc slots r0 = Ok (NoError, l, r) <->
   exists vs, length els <= length slots /\ sem_each s (firstn (length els) slots) els vs r /\
     l = (if length els <? length slots then length acc + length els else size, acc ++ vs ++ skipn (length els) slots)).
Proof.
  intros Hs. induction slots as [|v slots IH]; intros els acc r l; cbn [s_var].
  - destruct els as [|j els]; split.
    + intros H. injection H as <- <-. exists []. cbn. rewrite app_nil_r. auto.
    + intros ([|v vs] & Hl & H & ->); [|contradiction]. cbn in H. subst r. cbn. rewrite app_nil_r. reflexivity.
    + discriminate.
    + intros (vs & Hl & _). cbn in Hl. lia.
  - destruct els as [|j els].
    + split.
      * intros H. injection H as <- <-. exists []. cbn. rewrite Nat.add_0_r. auto with arith.
      * intros ([|v' vs] & Hl & H & ->); [|contradiction]. cbn in H. subst r. cbn. rewrite Nat.add_0_r. reflexivity.
    + destruct (s v (Some j) r0) as [[[e v'] r']| |] eqn:E; cbn [obind].
      * destruct (is_ok e) eqn:Eo.
        -- apply is_ok_NoError in Eo. subst e. replace r' with (rapp r' r0) by apply rapp_r0. rewrite (s_var_shift s _ Hs).
           specialize (IH els (acc ++ [v'])). split.
           ++ intros H. destruct (s_var s els size (acc ++ [v']) slots r0) as [[[e2 l2] r2]| |] eqn:E2; cbn [shift] in H; try discriminate H.
              injection H as -> -> <-. destruct (proj1 (IH r2 l) eq_refl) as (vs & Hl & H & ->).
              exists (v' :: vs). split; [cbn; lia|]. split; [cbn [length firstn]; exists r', r2; auto|].
              rewrite app_length. cbn [length skipn]. rewrite <- app_assoc. f_equal.
              change (S (length els) <? S (length slots)) with (length els <? length slots). destruct (length els <? length slots); [cbn; lia|reflexivity].
           ++ intros ([|v2 vs] & Hl & H & ->); [contradiction|]. destruct H as (r1 & r2 & A & B & ->). rewrite E in A. injection A as <- <-.
              cbn [length] in Hl |- *. erewrite (proj2 (IH r2 (_, _))); [reflexivity|].
              exists vs. split; [lia|]. split; [exact B|]. rewrite app_length. cbn [length skipn]. rewrite <- app_assoc. f_equal.
              change (S (length els) <? S (length slots)) with (length els <? length slots). destruct (length els <? length slots); [cbn; lia|reflexivity].
        -- split.
           ++ intros H. injection H as -> _ _. discriminate Eo.
           ++ intros ([|v2 vs] & Hl & H & _); [contradiction|]. destruct H as (r1 & r2 & A & _). rewrite E in A. injection A as -> _ _. discriminate Eo.
      * split; [discriminate|]. intros ([|v2 vs] & Hl & H & _); [contradiction|]. destruct H as (r1 & r2 & A & _). congruence.
      * split; [discriminate|]. intros ([|v2 vs] & Hl & H & _); [contradiction|]. destruct H as (r1 & r2 & A & _). congruence.
Qed.

Lemma s_vec_spec d s : appends s -> forall els acc r l,
  (s_vec d s els acc r0 = Ok (NoError, l, r) <-> exists vs, l = acc ++ vs /\ sem_each s (repeat d (length els)) els vs r).
Proof.
  intros Hs. induction els as [|j els IH]; intros acc r l; cbn [s_vec].
  - split.
    + intros H. injection H as <- <-. exists []. rewrite app_nil_r. split; reflexivity.
    + intros ([|v vs] & -> & H); [|contradiction]. cbn in H. subst r. rewrite app_nil_r. reflexivity.
  - cbn [length repeat]. destruct (s d (Some j) r0) as [[[e v'] r']| |] eqn:E; cbn [obind].
    + destruct (is_ok e) eqn:Eo.
      * apply is_ok_NoError in Eo. subst e. replace r' with (rapp r' r0) by apply rapp_r0. rewrite (s_vec_shift d s Hs).
        specialize (IH (acc ++ [v'])). split.
        -- intros H. destruct (s_vec d s els (acc ++ [v']) r0) as [[[e2 l2] r2]| |] eqn:E2; cbn [shift] in H; try discriminate H.
           injection H as -> -> <-. destruct (proj1 (IH r2 l) eq_refl) as (vs & -> & H).
           exists (v' :: vs). rewrite <- app_assoc. split; [reflexivity|]. exists r', r2. auto.
        -- intros ([|v2 vs] & -> & H); [contradiction|]. destruct H as (r1 & r2 & A & B & ->). rewrite E in A. injection A as <- <-.
           rewrite (proj2 (IH r2 (acc ++ v' :: vs))); [reflexivity|]. exists vs. rewrite <- app_assoc. auto.
      * split.
        -- intros H. injection H as -> _ _. discriminate Eo.
        -- intros ([|v2 vs] & -> & H); [contradiction|]. destruct H as (r1 & r2 & A & _). rewrite E in A. injection A as -> _ _. discriminate Eo.
    + split; [discriminate|]. intros ([|v2 vs] & -> & H); [contradiction|]. destruct H as (r1 & r2 & A & _). congruence.
    + split; [discriminate|]. intros ([|v2 vs] & -> & H); [contradiction|]. destruct H as (r1 & r2 & A & _). congruence.
Qed.

(** Sets. *)
Lemma NoDup_snoc {A} (l : list A) x : NoDup l -> ~ In x l -> NoDup (l ++ [x]).
Proof. intros N H. apply (Permutation_NoDup (Permutation_cons_append l x)). constructor; assumption. Qed.
Lemma existsb_val v acc : existsb (val_eqb v) acc = true <-> In (plain_zero v) (map plain_zero acc).
Proof.
  rewrite existsb_exists, in_map_iff. split.
  - intros (x & Hx & H). apply val_eqb_eq in H. exists x. auto.
  - intros (x & H & Hx). exists x. split; [exact Hx|]. apply val_eqb_eq. auto.
Qed.
Lemma all_different_snoc l x : all_different l -> ~ In (plain_zero x) (map plain_zero l) -> all_different (l ++ [x]).
Proof. unfold all_different. intros N H. rewrite map_app. apply NoDup_snoc; assumption. Qed.
Lemma s_set_spec d s : appends s -> forall els acc r l, all_different acc ->
  (s_set d s els acc r0 = Ok (NoError, l, r) <-> exists vs, l = acc ++ vs /\ sem_each s (repeat d (length els)) els vs r /\ all_different (acc ++ vs)).
Proof.
  intros Hs. induction els as [|j els IH]; intros acc r l Hnd; cbn [s_set].
  - split.
    + intros H. injection H as <- <-. exists []. rewrite app_nil_r. split; [reflexivity|]. split; [reflexivity|exact Hnd].
    + intros ([|v vs] & -> & H & _); [|contradiction]. cbn in H. subst r. rewrite app_nil_r. reflexivity.
  - cbn [length repeat]. destruct (s d (Some j) r0) as [[[e v'] r']| |] eqn:E; cbn [obind].
    + destruct (is_ok e) eqn:Eo.
      * apply is_ok_NoError in Eo. subst e. destruct (existsb (val_eqb v') acc) eqn:Ex.
        -- split; [intros H; discriminate H|]. intros ([|v2 vs] & -> & H & N); [contradiction|]. destruct H as (r1 & r2 & A & _).
           rewrite E in A. injection A as <- _. apply existsb_val in Ex. unfold all_different in N. rewrite map_app in N. cbn [map] in N. apply NoDup_remove_2 in N. exfalso. apply N. apply in_or_app. left. exact Ex.
        -- assert (Hnd' : all_different (acc ++ [v'])).
           { apply all_different_snoc; [exact Hnd|]. intros Hx. apply existsb_val in Hx. congruence. }
           replace r' with (rapp r' r0) by apply rapp_r0. rewrite (s_set_shift d s Hs).
           specialize (IH (acc ++ [v'])). split.
           ++ intros H. destruct (s_set d s els (acc ++ [v']) r0) as [[[e2 l2] r2]| |] eqn:E2; cbn [shift] in H; try discriminate H.
              injection H as -> -> <-. destruct (proj1 (IH r2 l Hnd') eq_refl) as (vs & -> & H & N).
              exists (v' :: vs). rewrite <- app_assoc in N |- *. split; [reflexivity|]. split; [exists r', r2; auto|exact N].
           ++ intros ([|v2 vs] & -> & H & N); [contradiction|]. destruct H as (r1 & r2 & A & B & ->). rewrite E in A. injection A as <- <-.
              rewrite (proj2 (IH r2 (acc ++ v' :: vs) Hnd')); [reflexivity|]. exists vs. rewrite <- app_assoc. auto.
      * split.
        -- intros H. injection H as -> _ _. discriminate Eo.
        -- intros ([|v2 vs] & -> & H & _); [contradiction|]. destruct H as (r1 & r2 & A & _). rewrite E in A. injection A as -> _ _. discriminate Eo.
    + split; [discriminate|]. intros ([|v2 vs] & -> & H & _); [contradiction|]. destruct H as (r1 & r2 & A & _). congruence.
    + split; [discriminate|]. intros ([|v2 vs] & -> & H & _); [contradiction|]. destruct H as (r1 & r2 & A & _). congruence.
Qed.
(** All elements can be read, but two are equal. *)
Lemma s_set_duplicate d s : appends s -> forall els acc r vs, all_different acc ->
  sem_each s (repeat d (length els)) els vs r -> ~ all_different (acc ++ vs) -> exists l r', s_set d s els acc r0 = Ok (DuplicateInSet, l, r').
Proof.
  intros Hs. induction els as [|j els IH]; intros acc r vs Hnd H N; cbn [s_set].
  - destruct vs; [|contradiction]. rewrite app_nil_r in N. contradiction.
  - destruct vs as [|v vs]; [contradiction|]. destruct H as (r1 & r2 & A & B & ->). rewrite A. cbn [obind is_ok].
    destruct (existsb (val_eqb v) acc) eqn:Ex; [eauto|].
    assert (Hnd' : all_different (acc ++ [v])).
    { apply all_different_snoc; [exact Hnd|]. intros Hx. apply existsb_val in Hx. congruence. }
    destruct (IH (acc ++ [v]) r2 vs Hnd' B) as (l & r' & E); [rewrite <- app_assoc; exact N|].
    replace r1 with (rapp r1 r0) by apply rapp_r0. rewrite (s_set_shift d s Hs), E. cbn [shift]. eauto.
Qed.
End Cont.
