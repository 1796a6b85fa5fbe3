(** Consequences of [to_sem]: totality, reports, the reading of single values. *)
From Verif Require Import Base Tactics ScanModel TokModel JsonSpec EscapeModel IntModel MapSpec MapProofs MapProofs2 DiffProofs SerDoc HandlerModel HandlerSpec HandlerTree.
From Coq Require Import Lia.

Lemma beq_iff a b : bytes_eqb a b = true <-> a = b.
Proof. destruct (bytes_eqb_spec a b); split; congruence. Qed.

(** ** Reading never gets stuck *)
Definition total (P : val -> Prop) (F : option json -> Prop) (s : shandler) : Prop :=
  forall v oj r, P v -> F oj -> exists e v' r', s v oj r = Ok (e, v', r').

Section Total.
Context (g : pcfg).

Lemma s_vec_total (P : val -> Prop) F d s : P d -> total P F s -> forall els acc r, Forall (fun j => F (Some j)) els ->
  exists e l r', s_vec d s els acc r = Ok (e, l, r').
Proof.
  intros Hd Hs. induction els as [|j els IH]; intros acc r H; cbn [s_vec]; [eauto|]. inversion H; subst.
  destruct (Hs d (Some j) r Hd) as (e & v & r' & ->); [assumption|]. cbn [obind]. destruct (is_ok e); eauto.
Qed.
Lemma s_set_total (P : val -> Prop) F d s : P d -> total P F s -> forall els acc r, Forall (fun j => F (Some j)) els ->
  exists e l r', s_set d s els acc r = Ok (e, l, r').
Proof.
  intros Hd Hs. induction els as [|j els IH]; intros acc r H; cbn [s_set]; [eauto|]. inversion H; subst.
  destruct (Hs d (Some j) r Hd) as (e & v & r' & ->); [assumption|]. cbn [obind]. destruct (is_ok e); eauto. destruct (existsb _ _); eauto.
Qed.
Lemma s_fixed_total (P : val -> Prop) F s : total P F s -> forall slots els acc r, Forall P slots ->
  Forall (fun j => F (Some j)) (firstn (length slots) els) -> (length els < length slots -> F None) ->
  exists e l r', s_fixed s els acc slots r = Ok (e, l, r').
Proof.
  intros Hs. induction slots as [|v slots IH]; intros els acc r H He Hn; cbn [s_fixed]; [eauto|].
  inversion H; subst. cbn [length firstn] in He, Hn. destruct (Hs v (hd_error els) r) as (e & v' & r' & ->); [assumption| |].
  { destruct els as [|j els]; [apply Hn; cbn; lia|]. inversion He; assumption. }
  cbn [obind]. destruct (is_ok e); [|eauto]. apply IH; [assumption| |].
  - destruct els as [|j els]; cbn [tl]; [rewrite firstn_nil; constructor|]. inversion He; assumption.
  - intros Hl. apply Hn. destruct els as [|j els]; cbn in Hl |- *; lia.
Qed.
Lemma s_var_total (P : val -> Prop) F s size : total P F s -> forall slots els acc r, Forall P slots ->
  Forall (fun j => F (Some j)) (firstn (length slots) els) -> exists e l r', s_var s els size acc slots r = Ok (e, l, r').
Proof.
  intros Hs. induction slots as [|v slots IH]; intros els acc r H He; cbn [s_var]; [eauto|]. destruct els as [|j els]; [eauto|].
  inversion H; subst. inversion He; subst.
  destruct (Hs v (Some j) r) as (e & v' & r' & ->); [assumption|assumption|]. cbn [obind]. destruct (is_ok e); eauto.
Qed.
Lemma s_tuple_total : forall ts vs els acc r, Forall (fun t => total (shaped t) (fits t) (sem g t)) ts -> all2 (map shaped ts) vs ->
  fits (YTuple ts) (Some (JArr els)) -> exists e l r', s_tuple (map (sem g) ts) els acc vs r = Ok (e, l, r').
Proof.
  induction ts as [|t ts IH]; intros vs els acc r Hk Hv Hf; destruct vs as [|v vs]; try destruct Hv; cbn [map s_tuple]; [eauto|].
  inversion Hk as [|? ? HP Hk']; subst. cbn in Hf. destruct Hf as [Hf1 Hf2].
  destruct (HP v (hd_error els) r) as (e & v' & r' & E); [assumption|exact Hf1|]. rewrite E. cbn [obind]. destruct (is_ok e) eqn:Eo; [|eauto].
  destruct els as [|j els].
  - apply is_ok_spec in Eo. subst e. destruct (fits_rejects g t Hf1 _ _ _ _ _ E eq_refl).
  - apply IH; [assumption|assumption|]. apply Hf2. discriminate.
Qed.
Lemma s_map_total (P : val -> Prop) F d s : P d -> total P F s -> forall ms m r, Forall (fun kv => F (Some (snd kv))) ms ->
  exists e l r', s_map d s ms m r = Ok (e, l, r').
Proof.
  intros Hd Hs. induction ms as [|[k j] ms IH]; intros m r H; cbn [s_map]; [eauto|]. inversion H; subst.
  destruct (Hs d (Some j) r Hd) as (e & v & r' & ->); [assumption|]. cbn [obind]. destruct (is_ok e); eauto.
Qed.

(** Which members exist. *)
Lemma search_order_lt blocks : forall start i, In i (search_order start blocks) <-> start <= i < start + list_sum blocks.
Proof.
  induction blocks as [|n r IH]; intros start i; cbn [search_order].
  - cbn. split; [contradiction|lia].
  - rewrite in_app_iff, <- in_rev, in_seq, IH. change (list_sum (n :: r)) with (n + list_sum r). lia.
Qed.
Lemma search_in primary k names order i : search primary k names order = Some i -> In i order.
Proof. unfold search. intros H. apply find_some in H. apply H. Qed.
Lemma search_both_in k names order i : search_both k names order = Some i -> In i order.
Proof.
  unfold search_both. destruct (search true k names order) as [i'|] eqn:E; intros H.
  - injection H as ->. exact (search_in _ _ _ _ _ E).
  - exact (search_in _ _ _ _ _ H).
Qed.
Lemma search_has k names order i : search_both k names order = Some i -> In k (nth i names []).
Proof.
  assert (G : forall p, search p k names order = Some i -> In k (nth i names [])).
  { intros p H. unfold search in H. apply find_some in H. destruct H as [_ H]. unfold has_name in H.
    destruct (nth i names []) as [|x l]; [discriminate H|]. destruct p.
    - left. apply beq_iff. exact H.
    - right. apply existsb_exists in H. destruct H as (y & Hy & H). apply beq_iff in H. subst y. exact Hy. }
  unfold search_both. destruct (search true k names order) as [i'|] eqn:E; intros H; [|eapply G; exact H].
  injection H as ->. eapply G; exact E.
Qed.
(** A name that some member of the search order has is found. *)
Lemma search_both_none k names order : search_both k names order = None -> forall i, In i order -> ~ In k (nth i names []).
Proof.
  unfold search_both. destruct (search true k names order) as [i'|] eqn:E; [discriminate|]. intros H i Hi Hk.
  assert (A := find_none _ _ E i Hi). assert (B := find_none _ _ H i Hi). unfold has_name in A, B.
  destruct (nth i names []) as [|x l]; [contradiction|]. destruct Hk as [->|Hk].
  - rewrite (proj2 (beq_iff k k) eq_refl) in A. discriminate A.
  - assert (C : existsb (fun a => bytes_eqb a k) l = true); [|congruence]. apply existsb_exists. exists k. split; [exact Hk|]. apply beq_iff. reflexivity.
Qed.

Lemma s_members_total order names (fs : list (bytes * list bytes * ty)) : (forall k i, search_both k names order = Some i -> i < length fs) ->
  Forall (fun f => total (shaped (snd f)) (fits (snd f)) (sem g (snd f))) fs ->
  forall ms vs a r, all2 (map (fun f => shaped (snd f)) fs) vs ->
  Forall (fun kv => match search_both (fst kv) names order with
                    | Some i => nth i (map (fun f => fits (snd f)) fs) (fun _ => True) (Some (snd kv))
                    | None => True end) ms ->
  exists e x r', s_members g order names (map (fun f => sem g (snd f)) fs) ms vs a r = Ok (e, x, r').
Proof.
  intros Ho Ht. induction ms as [|[k j] ms IH]; intros vs a r Hv Hm; cbn [s_members]; [eauto|].
  inversion Hm as [|? ? Hkv Hm']; subst. cbn [fst snd] in Hkv.
  destruct (search_both k names order) as [i|] eqn:Es.
  - specialize (Ho _ _ Es). rewrite nth_error_map. destruct (nth_error fs i) as [f|] eqn:En; [|apply nth_error_None in En; lia]. cbn [option_map].
    assert (Ep : nth_error (map (fun f => shaped (snd f)) fs) i = Some (shaped (snd f))) by (rewrite nth_error_map, En; reflexivity).
    erewrite nth_error_nth in Hkv by (rewrite nth_error_map, En; reflexivity). cbn beta in Hkv.
    destruct (nth_error vs i) as [v|] eqn:Ev; [|apply nth_error_None in Ev; rewrite <- (all2_length _ _ Hv) in Ev; apply nth_error_None in Ev; congruence].
    assert (Pv := all2_nth _ _ _ _ _ Hv Ep Ev).
    rewrite Forall_forall in Ht.
    destruct (Ht f (nth_error_In _ _ En) v (Some j) r Pv Hkv) as (e & v' & r' & E). rewrite E. cbn [obind].
    destruct (is_ok (matchedMemberResult e)); [|eauto]. apply IH; [|exact Hm']. apply (all2_put _ _ _ (shaped (snd f))); [exact Hv|exact Ep|].
    exact (sem_keeps g (snd f) _ _ _ _ _ _ Pv E).
  - destruct (pc_allow_missing g); eauto.
Qed.

End Total.

Lemma ty_ok_tuple ts : ty_ok (YTuple ts) <-> Forall ty_ok ts.
Proof.
  cbn. induction ts as [|t ts IH]; split; intros H; auto.
  - constructor; [apply H|apply IH, H].
  - inversion H; subst. split; [assumption|apply IH; assumption].
Qed.
Lemma ty_ok_struct b fs : ty_ok (YStruct b fs) <-> list_sum b = length fs /\ Forall (fun f => ty_ok (snd f)) fs.
Proof.
  cbn. assert (E : (fix go fs := match fs with [] => True | f :: fs => ty_ok (snd f) /\ go fs end) fs <-> Forall (fun f => ty_ok (snd f)) fs).
  { induction fs as [|t ts IH]; split; intros H; auto.
    - constructor; [apply H|apply IH, H].
    - inversion H; subst. split; [assumption|apply IH; assumption]. }
  rewrite E. reflexivity.
Qed.

Lemma Forall2_maps {A B C} (R : B -> C -> Prop) (f : A -> B) (h : A -> C) l : Forall (fun a => R (f a) (h a)) l -> Forall2 R (map f l) (map h l).
Proof. induction 1; constructor; assumption. Qed.

Lemma sem_total g t : ty_ok t -> total (shaped t) (fits t) (sem g t).
Proof.
  induction t as [|i|sg|hr tp| |ns u|t IH|t IH|t IH|t IH|t IH|u t IH|t IH|t IH|t IH|n t IH|n t IH|t IH|ts IH|t IH|b fs IH] using ty_rect_nested;
    intros Hok v oj r Hv Hf; cbn [sem]; cbn [shaped] in Hv; cbn [fits] in Hf.
  - destruct (bytes_eqb _ _); [eauto|]. destruct (bytes_eqb _ _); eauto.
  - destruct (int_to_ok i (first_value oj)) as (e & z & ->). cbn. eauto.
  - destruct oj as [[s|els|ms]|]; try (destruct sg; cbn; eauto; fail). cbn [first_value].
    assert (K := fp_read_fuel sg (scalar_value s)). destruct (fp_read sg (scalar_value s)) as [[e b]| |]; [cbn; eauto|contradiction..].
  - destruct v as [|old| | | | | | |]; try contradiction. destruct oj as [[s|els|ms]|].
    { destruct (time_to_total hr tp (first_value (Some (JScalar s))) Hf old) as (e & n & E). rewrite E. cbn. eauto. }
    { assert (E : exists z, int_to T_uint64 (first_value (Some (JArr els))) = Ok (FailedToParseInt, z)) by (eexists; reflexivity).
      destruct E as (z & E). rewrite (time_to_int_error hr tp _ old _ _ E) by discriminate. cbn. eauto. }
    { assert (E : exists z, int_to T_uint64 (first_value (Some (JObj ms))) = Ok (FailedToParseInt, z)) by (eexists; reflexivity).
      destruct E as (z & E). rewrite (time_to_int_error hr tp _ old _ _ E) by discriminate. cbn. eauto. }
    { assert (E : exists z, int_to T_uint64 (first_value None) = Ok (FailedToParseInt, z)) by (eexists; reflexivity).
      destruct E as (z & E). rewrite (time_to_int_error hr tp _ old _ _ E) by discriminate. cbn. eauto. }
  - eauto.
  - destruct (first_type oj); eauto.
    + destruct (index_of _ _); eauto.
    + destruct (int_to_ok u (first_value oj)) as (e & z & ->). cbn. eauto.
  - destruct (type_eqb _ _); [eauto|]. exact (IH Hok v oj r Hv Hf).
  - destruct v as [| | | |f d| | | |]; try contradiction. destruct (type_eqb _ _); [eauto|].
    destruct (IH Hok d oj r Hv Hf) as (e & v' & r' & ->). cbn. eauto.
  - exact (IH Hok v oj r Hv Hf).
  - destruct v as [| | | |f d| | | |]; try contradiction. destruct (IH Hok d oj r Hv Hf) as (e & v' & r' & ->). cbn. eauto.
  - destruct (IH Hok _ oj r (init_shaped t) Hf) as (e & v' & r' & ->). cbn. eauto.
  - destruct v as [| | | | |o| | |]; try contradiction. destruct (type_eqb _ _); [eauto|].
    destruct (IH Hok (match o with Some x => x | None => init t end) oj r) as (e & v' & r' & ->); [destruct o; [exact Hv|apply init_shaped]|exact Hf|]. cbn. eauto.
  - exact (IH Hok v oj r Hv Hf).
  - unfold s_array. destruct oj as [[s|els|ms]|]; eauto.
    destruct (s_vec_total _ _ _ _ (init_shaped t) (IH Hok) els [] r Hf) as (e & l & r' & ->). cbn. eauto.
  - assert (K : forall o, fits t o -> exists e v' r', match v with VList l => lift (fun x => VList (l ++ [x])) (sem g t (init t) o r) | _ => UB end = Ok (e, v', r')).
    { intros o Ho. destruct v as [| | | | | |l| |]; try contradiction. destruct (IH Hok _ o r (init_shaped t) Ho) as (e & v' & r' & ->). cbn. eauto. }
    destruct oj as [[s|els|ms]|]; try (apply K; exact Hf).
    destruct (s_vec_total _ _ _ _ (init_shaped t) (IH Hok) els [] r Hf) as (e & l & r' & ->). cbn. eauto.
  - destruct v as [| | | | | |l| |]; try contradiction. unfold s_array. destruct oj as [[s|els|ms]|]; eauto.
    destruct Hv as [Hl Hv], Hf as [Hf1 Hf2]. rewrite <- Hl in Hf1, Hf2.
    destruct (s_fixed_total _ _ _ (IH Hok) l els [] r Hv Hf1 Hf2) as (e & l' & r' & ->). cbn. eauto.
  - destruct v as [| | | | | | |n0 l|]; try contradiction. unfold s_array. destruct oj as [[s|els|ms]|]; eauto.
    destruct Hv as [Hl Hv]. rewrite <- Hl in Hf.
    destruct (s_var_total _ _ _ n0 (IH Hok) l els [] r Hv Hf) as (e & l' & r' & ->). cbn. eauto.
  - unfold s_array. destruct oj as [[s|els|ms]|]; eauto.
    destruct (s_set_total _ _ _ _ (init_shaped t) (IH Hok) els [] r Hf) as (e & l & r' & ->). cbn. eauto.
  - destruct v as [| | | | | |l| |]; try contradiction. unfold s_array. destruct oj as [[s|els|ms]|]; eauto.
    apply ty_ok_tuple in Hok.
    destruct (s_tuple_total g ts l els [] r) as (e & l' & r' & ->); [|exact Hv|exact Hf|cbn; eauto].
    rewrite Forall_forall in *. auto.
  - destruct v as [| | | | | | | |m]; try contradiction. unfold s_object. destruct oj as [[s|els|ms]|]; eauto.
    destruct (s_map_total _ _ _ _ (init_shaped t) (IH Hok) ms m r Hf) as (e & l & r' & ->). cbn. eauto.
  - destruct v as [| | | | | |l| |]; try contradiction. unfold s_object. destruct oj as [[s|els|ms]|]; eauto.
    apply ty_ok_struct in Hok. destruct Hok as [Hb Hok].
    destruct (s_members_total g (search_order 0 b) (map (fun f => snd (fst f)) fs) fs) with (ms := ms) (vs := l) (a := repeat false (length fs)) (r := r) as (e & x & r' & ->).
    + intros k i H. apply search_both_in, search_order_lt in H. lia.
    + rewrite Forall_forall in *. auto.
    + exact Hv.
    + exact Hf.
    + cbn [obind]. destruct (is_ok e); [|eauto]. destruct (unassigned_of _ _ _); eauto.
Qed.

(** ** Reports are only appended to *)
Definition r0 : report := ([], []).
Definition shift {A} (r : report) (x : sres A) : sres A :=
  match x with Ok (e, a, r') => Ok (e, a, rapp r r') | UB => UB | OutOfFuel => OutOfFuel end.
Definition appends (s : shandler) : Prop := forall v oj r, s v oj r = shift r (s v oj r0).

Lemma rapp_assoc a b c : rapp (rapp a b) c = rapp a (rapp b c).
Proof. unfold rapp. cbn. rewrite !app_assoc. reflexivity. Qed.
Lemma rapp_r0 a : rapp a r0 = a.
Proof. destruct a. unfold rapp. cbn. rewrite !app_nil_r. reflexivity. Qed.
Lemma rapp_r0_l a : rapp r0 a = a.
Proof. destruct a. reflexivity. Qed.
Lemma shift_shift {A} a b (x : sres A) : shift a (shift b x) = shift (rapp a b) x.
Proof. destruct x as [[[e v] r]| |]; cbn; rewrite ?rapp_assoc; reflexivity. Qed.
Lemma shift_ok {A} r e (a : A) : Ok (e, a, r) = shift r (Ok (e, a, r0)).
Proof. cbn. rewrite rapp_r0. reflexivity. Qed.
Lemma shift_bind {A B} r (x : sres A) (k : error -> A -> report -> sres B) :
  (forall e a r1, k e a (rapp r r1) = shift r (k e a r1)) ->
  (let* (e, a, r1) := shift r x in k e a r1) = shift r (let* (e, a, r1) := x in k e a r1).
Proof. intros H. destruct x as [[[e a] r1]| |]; cbn; auto. Qed.
Lemma shift_lift {A B} (f : A -> B) r x : lift f (shift r x) = shift r (lift f x).
Proof. destruct x as [[[e v] r']| |]; reflexivity. Qed.

Section Appends.
Context (g : pcfg).

(** All loops at once: the step function of a loop is [s] and a continuation. *)
Lemma s_step {B} s v oj r (k : error -> val -> report -> sres B) (r1 : report) : appends s ->
  (forall e a ra rb, k e a (rapp ra rb) = shift ra (k e a rb)) ->
  (let* (e, a, r2) := s v oj (rapp r r1) in k e a r2) = shift r (let* (e, a, r2) := s v oj r1 in k e a r2).
Proof.
  intros Hs Hk. rewrite (Hs v oj (rapp r r1)), (Hs v oj r1). destruct (s v oj r0) as [[[e a] r2]| |]; cbn; [|reflexivity..].
  rewrite rapp_assoc. apply Hk.
Qed.

Lemma s_vec_shift d s : appends s -> forall els acc r r1, s_vec d s els acc (rapp r r1) = shift r (s_vec d s els acc r1).
Proof.
  intros Hs. induction els as [|j els IH]; intros acc r r1; cbn [s_vec]; [reflexivity|].
  apply (s_step s d (Some j) r (fun e v r2 => if is_ok e then s_vec d s els (acc ++ [v]) r2 else Ok (e, acc ++ [v], r2)) r1 Hs).
  intros e a ra rb. destruct (is_ok e); [apply IH|reflexivity].
Qed.
Lemma s_set_shift d s : appends s -> forall els acc r r1, s_set d s els acc (rapp r r1) = shift r (s_set d s els acc r1).
Proof.
  intros Hs. induction els as [|j els IH]; intros acc r r1; cbn [s_set]; [reflexivity|].
  apply (s_step s d (Some j) r (fun e v r2 => if is_ok e then if existsb (val_eqb v) acc then Ok (DuplicateInSet, acc, r2) else s_set d s els (acc ++ [v]) r2 else Ok (e, acc, r2)) r1 Hs).
  intros e a ra rb. destruct (is_ok e); [destruct (existsb _ _); [reflexivity|apply IH]|reflexivity].
Qed.
Lemma s_fixed_shift s : appends s -> forall slots els acc r r1, s_fixed s els acc slots (rapp r r1) = shift r (s_fixed s els acc slots r1).
Proof.
  intros Hs. induction slots as [|v slots IH]; intros els acc r r1; cbn [s_fixed]; [reflexivity|].
  apply (s_step s v (hd_error els) r (fun e v r2 => if is_ok e then s_fixed s (tl els) (acc ++ [v]) slots r2 else Ok (e, acc ++ v :: slots, r2)) r1 Hs).
  intros e a ra rb. destruct (is_ok e); [apply IH|reflexivity].
Qed.
Lemma s_var_shift s size : appends s -> forall slots els acc r r1, s_var s els size acc slots (rapp r r1) = shift r (s_var s els size acc slots r1).
Proof.
  intros Hs. induction slots as [|v slots IH]; intros els acc r r1; cbn [s_var]; [reflexivity|]. destruct els as [|j els]; [reflexivity|].
  apply (s_step s v (Some j) r (fun e v r2 => if is_ok e then s_var s els size (acc ++ [v]) slots r2 else Ok (e, (size, acc ++ v :: slots), r2)) r1 Hs).
  intros e a ra rb. destruct (is_ok e); [apply IH|reflexivity].
Qed.
Lemma s_tuple_shift : forall ss, Forall appends ss -> forall vs els acc r r1, s_tuple ss els acc vs (rapp r r1) = shift r (s_tuple ss els acc vs r1).
Proof.
  intros ss H. induction H as [|s ss Hs _ IH]; intros [|v vs] els acc r r1; cbn [s_tuple]; try reflexivity.
  apply (s_step s v (hd_error els) r (fun e v r2 => if is_ok e then s_tuple ss (tl els) (acc ++ [v]) vs r2 else Ok (e, acc ++ v :: vs, r2)) r1 Hs).
  intros e a ra rb. destruct (is_ok e); [apply IH|reflexivity].
Qed.
Lemma s_map_shift d s : appends s -> forall ms m r r1, s_map d s ms m (rapp r r1) = shift r (s_map d s ms m r1).
Proof.
  intros Hs. induction ms as [|[k j] ms IH]; intros m r r1; cbn [s_map]; [reflexivity|].
  apply (s_step s d (Some j) r (fun e v r2 => if is_ok e then s_map d s ms (map_put (escapes_in k) v m) r2 else Ok (e, map_put (escapes_in k) v m, r2)) r1 Hs).
  intros e a ra rb. destruct (is_ok e); [apply IH|reflexivity].
Qed.
Lemma note_missing_shift k r r1 : note_missing g k (rapp r r1) = rapp r (note_missing g k r1).
Proof. unfold note_missing. destruct (pc_track g); [|reflexivity]. unfold rapp. cbn. rewrite app_assoc. reflexivity. Qed.
Lemma note_unassigned_shift k r r1 : note_unassigned g k (rapp r r1) = rapp r (note_unassigned g k r1).
Proof. unfold note_unassigned. destruct (pc_track g); [|reflexivity]. unfold rapp. cbn. rewrite app_assoc. reflexivity. Qed.
Lemma s_members_shift order names ss : Forall appends ss -> forall ms vs a r r1,
  s_members g order names ss ms vs a (rapp r r1) = shift r (s_members g order names ss ms vs a r1).
Proof.
  intros Hs. induction ms as [|[k j] ms IH]; intros vs a r r1; cbn [s_members]; [reflexivity|].
  destruct (search_both k names order) as [i|].
  - destruct (nth_error ss i) as [s|] eqn:Es; [|reflexivity]. destruct (nth_error vs i) as [v|]; [|reflexivity].
    rewrite Forall_forall in Hs. specialize (Hs s (nth_error_In _ _ Es)).
    apply (s_step s v (Some j) r (fun e v r2 => if is_ok (matchedMemberResult e) then s_members g order names ss ms (put i v vs) (put i true a) r2 else Ok (matchedMemberResult e, (put i v vs, put i true a), r2)) r1 Hs).
    intros e x ra rb. destruct (is_ok _); [apply IH|reflexivity].
  - rewrite note_missing_shift. destruct (pc_allow_missing g); [apply IH|reflexivity].
Qed.

Lemma sem_appends t : appends (sem g t).
Proof.
  induction t as [|i|sg|hr tp| |ns u|t IH|t IH|t IH|t IH|t IH|u t IH|t IH|t IH|t IH|n t IH|n t IH|t IH|ts IH|t IH|b fs IH] using ty_rect_nested;
    intros v oj r; cbn [sem].
  - destruct (bytes_eqb _ _); [apply shift_ok|]. destruct (bytes_eqb _ _); apply shift_ok.
  - destruct (int_to _ _) as [[e z]| |]; [apply shift_ok|reflexivity..].
  - destruct (fp_read _ _) as [[e z]| |]; [apply shift_ok|reflexivity..].
  - destruct v as [|old| | | | | | |]; try reflexivity. destruct (TimeModel.time_to _ _ _ _) as [[e z]| |]; [apply shift_ok|reflexivity..].
  - apply shift_ok.
  - destruct (first_type oj); try apply shift_ok.
    + destruct (index_of _ _); apply shift_ok.
    + destruct (int_to _ _) as [[e z]| |]; [apply shift_ok|reflexivity..].
  - destruct (type_eqb _ _); [apply shift_ok|apply IH].
  - destruct v as [| | | |f d| | | |]; try reflexivity. destruct (type_eqb _ _); [apply shift_ok|]. rewrite IH. apply shift_lift.
  - apply IH.
  - destruct v as [| | | |f d| | | |]; try reflexivity. rewrite IH. apply shift_lift.
  - rewrite IH. apply shift_lift.
  - destruct v as [| | | | |o| | |]; try reflexivity. destruct (type_eqb _ _); [apply shift_ok|]. rewrite IH. apply shift_lift.
  - apply IH.
  - unfold s_array. destruct oj as [[s|els|ms]|]; try apply shift_ok.
    rewrite <- shift_lift, <- (s_vec_shift _ _ IH), rapp_r0. reflexivity.
  - destruct oj as [[s|els|ms]|].
    2: { rewrite <- shift_lift, <- (s_vec_shift _ _ IH), rapp_r0. reflexivity. }
    all: destruct v as [| | | | | |l| |]; try reflexivity; rewrite IH; apply shift_lift.
  - destruct v as [| | | | | |l| |]; try reflexivity. unfold s_array. destruct oj as [[s|els|ms]|]; try apply shift_ok.
    rewrite <- shift_lift, <- (s_fixed_shift _ IH), rapp_r0. reflexivity.
  - destruct v as [| | | | | | |n0 l|]; try reflexivity. unfold s_array. destruct oj as [[s|els|ms]|]; try apply shift_ok.
    rewrite <- shift_lift, <- (s_var_shift _ _ IH), rapp_r0. reflexivity.
  - unfold s_array. destruct oj as [[s|els|ms]|]; try apply shift_ok.
    rewrite <- shift_lift, <- (s_set_shift _ _ IH), rapp_r0. reflexivity.
  - destruct v as [| | | | | |l| |]; try reflexivity. unfold s_array. destruct oj as [[s|els|ms]|]; try apply shift_ok.
    assert (H : Forall appends (map (sem g) ts)) by (apply Forall_map; exact IH).
    rewrite <- shift_lift, <- (s_tuple_shift _ H), rapp_r0. reflexivity.
  - destruct v as [| | | | | | | |m]; try reflexivity. unfold s_object. destruct oj as [[s|els|ms]|]; try apply shift_ok.
    rewrite <- shift_lift, <- (s_map_shift _ _ IH), rapp_r0. reflexivity.
  - destruct v as [| | | | | |l| |]; try reflexivity. unfold s_object. destruct oj as [[s|els|ms]|]; try apply shift_ok.
    assert (H : Forall appends (map (fun f => sem g (snd f)) fs)) by (apply Forall_map; exact IH).
    replace r with (rapp r r0) at 1 by apply rapp_r0. rewrite (s_members_shift _ _ _ H).
    apply (shift_bind r _ (fun e x r => if is_ok e then
              match unassigned_of (search_order 0 b) (map field_info fs) (snd x) with
              | [] => Ok (NoError, VList (fst x), r)
              | l => Ok (if pc_allow_unassigned g then NoError else UnassignedRequiredMember, VList (fst x), note_unassigned g l r)
              end else Ok (e, VList (fst x), r))).
    intros e x r1. destruct (is_ok e); [|reflexivity]. destruct (unassigned_of _ _ _); [reflexivity|].
    rewrite note_unassigned_shift. reflexivity.
Qed.
End Appends.

(** ** The reading of single values *)
Lemma token_of_view v : tok_view (token_of v) = v.
Proof. destruct v. reflexivity. Qed.
Lemma list_feeds : forall l nt s', exists nt', feeds list_next nt (map token_of l ++ s') l s' nt'.
Proof.
  induction l as [|v l IH]; intros nt s'; [exists nt; constructor|].
  destruct (IH (token_of v) s') as (nt' & H). exists nt'. cbn [map app]. econstructor; [reflexivity|apply token_of_view|exact H].
Qed.

Lemma fits_value_sem g t v j : shaped t v -> fits t (Some j) -> read_value g t v j = sem g t v (Some j) r0 \/ sem g t v (Some j) r0 = UB.
Proof.
  intros Hv Hf. unfold read_value. destruct (map token_of (doc_tokens None j)) as [|first others] eqn:E.
  { destruct j; discriminate E. }
  destruct (doc_tokens None j) as [|v0 l] eqn:El; [discriminate E|]. cbn [map] in E. injection E as <- <-.
  destruct (list_feeds l (token_of v0) []) as (nt' & F). rewrite app_nil_r in F.
  set (c := mkCtx _ _ _ _ _ _).
  assert (Hst : stands list_next c (item_tokens None (Some j)) [] nt').
  { split; [reflexivity|]. exists l. cbn [item_tokens c c_tok c_src]. rewrite token_of_view. split; [exact El|exact F]. }
  assert (H := to_sem list_next g (S (length (map token_of l))) t (Some j) Hf None v c [] nt' Hv eq_refl Hst).
  cbn [item_size] in H. unfold ntok in H. rewrite El, map_length in H. specialize (H (le_n _)). rewrite map_length.
  change (rep c) with r0 in H.
  destruct (sem g t v (Some j) r0) as [[[e v'] r']| |]; cbn [agrees] in H; [left|right; reflexivity|contradiction].
  destruct H as (c' & E & Hr & _). rewrite E. cbn [obind]. rewrite Hr. reflexivity.
Qed.
Lemma read_value_sem g t v j : ty_ok t -> shaped t v -> fits t (Some j) -> read_value g t v j = sem g t v (Some j) r0.
Proof.
  intros Ht Hv Hf. destruct (fits_value_sem g t v j Hv Hf) as [H|H]; [exact H|].
  destruct (sem_total g t Ht v (Some j) r0 Hv Hf) as (e & v' & r' & E). congruence.
Qed.

(** Any source that delivers the tokens of [j]: the outcome is that of [read_value], and on success
    exactly these tokens have been consumed. *)
Lemma to_read {S} (next : token -> S -> outcome (S * error * token)) fuel t v c name j s' nt' :
  ty_ok t -> shaped t v -> fits t (Some j) -> stands next c (doc_tokens name j) s' nt' -> length (doc_tokens name j) <= fuel ->
  exists e v' m u c', read_value (c_cfg c) t v j = Ok (e, v', (m, u)) /\ to next fuel t v c = Ok (e, v', c') /\
    c_missing c' = c_missing c ++ m /\ c_unassigned c' = c_unassigned c ++ u /\ c_cfg c' = c_cfg c /\
    (e = NoError -> c_err c' = NoError /\ c_src c' = s' /\ c_tok c' = nt').
Proof.
  intros Ht Hv Hf Hst Hl. rewrite ntok_name in Hl.
  assert (H := to_sem next (c_cfg c) fuel t (Some j) Hf name v c s' nt' Hv eq_refl Hst Hl).
  rewrite (read_value_sem _ _ _ _ Ht Hv Hf). rewrite (sem_appends _ _ _ _ (rep c)) in H.
  destruct (sem_total (c_cfg c) t Ht v (Some j) r0 Hv Hf) as (e & v' & [m u] & E). rewrite E in H |- *. cbn [shift agrees] in H.
  destruct H as (c' & Et & Hr & Hg & He). exists e, v', m, u, c'. unfold rep, rapp in Hr. cbn in Hr. injection Hr as Hm Hu.
  repeat split; auto; apply He; assumption.
Qed.
