(** The templates of ClassModel compute what the flat list of members of HandlerModel gives. *)
From Coq Require Import Lia.
From Verif Require Import Base ScanModel TokModel HandlerModel TupleModel TupleProofs ClassModel ClassSpec.

Local Open Scope nat_scope.

Lemma put_app1 {A} (x : A) l r : forall i, i < length l -> put i x (l ++ r) = put i x l ++ r.
Proof. induction l as [|y l IH]; intros [|i] H; cbn in *; try lia; [reflexivity|]. f_equal. apply IH. lia. Qed.
Lemma put_app2 {A} (x : A) l r i : put (length l + i) x (l ++ r) = l ++ put i x r.
Proof. induction l as [|y l IH]; cbn; [reflexivity|]. f_equal. exact IH. Qed.
Lemma put_len {A} (x : A) l : forall i, length (put i x l) = length l.
Proof. induction l as [|y l IH]; intros [|i]; cbn; auto. Qed.
Lemma put_same {A} (x : A) l : forall i, nth_error l i = Some x -> put i x l = l.
Proof. induction l as [|y l IH]; intros [|i] H; cbn in *; try discriminate; [congruence|]. f_equal. apply IH, H. Qed.
Lemma nth_put_same {A} (x : A) l : forall i, i < length l -> nth_error (put i x l) i = Some x.
Proof. induction l as [|y l IH]; intros [|i] H; cbn in *; try lia; [reflexivity|]. apply IH. lia. Qed.

Section Cls_ind.
Context {S : Type} (P : cls S -> Prop).
Hypothesis H : forall ms ss, Forall (fun s => P (snd s)) ss -> P (Cls ms ss).
Fixpoint cls_ind2 (k : cls S) : P k :=
  match k with
  | Cls ms ss => H ms ss ((fix go ss : Forall (fun s => P (snd s)) ss :=
      match ss with [] => Forall_nil _ | s :: r => Forall_cons s (cls_ind2 (snd s)) (go r) end) ss)
  end.
End Cls_ind.

Section Proofs.
Context {S : Type} (next : token -> S -> outcome (S * error * token)).
Notation ctx := (ctx S).

(** ** Names *)
Lemma name_primary (m : minfo S) n : good_length (length (mi_names m)) ->
  (let* literal := lift (get_of 0 (mi_names m)) in Ok (bytes_eqb literal n)) = Ok (has_name true n (mi_names m)).
Proof.
  intros H. rewrite get_of_ok by (unfold small, good_length in *; lia).
  destruct (mi_names m) as [|p r]; [unfold good_length in H; cbn in H; lia|]. reflexivity.
Qed.

Lemma name_checker_aux (l r : list bytes) n : (N.of_nat (length (l ++ r)) < 2 ^ 64)%N -> l <> [] ->
  nameChecker (length (l ++ r)) (length r) (l ++ r) n = Ok (existsb (fun a => bytes_eqb a n) r).
Proof.
  revert l. induction r as [|a r IH]; intros l Hs Hl; [reflexivity|]. cbn [nameChecker length existsb].
  assert (Hlen : length (l ++ a :: r) = length l + Datatypes.S (length r)) by (rewrite app_length; reflexivity).
  destruct (Nat.eqb_spec (Datatypes.S (length r)) (length (l ++ a :: r))) as [E|E].
  { destruct l; [congruence|]. cbn in Hlen. cbn in E. lia. }
  cbn [negb]. rewrite get_of_ok by (unfold small; lia). rewrite size_sub_ok by lia.
  replace (N.to_nat (N.of_nat (length (l ++ a :: r)) - N.of_nat (Datatypes.S (length r)))) with (length l) by lia.
  rewrite nth_error_app2, Nat.sub_diag by lia. cbn [nth_error lift obind].
  destruct (bytes_eqb a n); [reflexivity|]. cbn [orb].
  specialize (IH (l ++ [a])). rewrite <- app_assoc in IH. apply IH; [exact Hs|]. destruct l; discriminate.
Qed.
Lemma name_alias (m : minfo S) n : good_length (length (mi_names m)) ->
  nameChecker (length (mi_names m)) (length (mi_names m)) (mi_names m) n = Ok (has_name false n (mi_names m)).
Proof.
  intros H. unfold good_length in H. destruct (mi_names m) as [|p r]; [cbn in H; lia|].
  cbn [length nameChecker has_name]. rewrite Nat.eqb_refl. cbn [negb].
  apply (name_checker_aux [p] r n); [cbn [app length] in *; lia|discriminate].
Qed.

(** ** One member *)
Definition good_member (m : minfo S) : Prop := good_length (length (mi_names m)).
Lemma unpackMember_ok m v c index primary assigned : good_member m -> index < length assigned ->
  unpackMember m v c index primary assigned =
  if has_name primary (c_name c) (mi_names m)
  then let* (e, v, c) := mi_to m v c in Ok (matchedMemberResult e, v, put index true assigned, c)
  else Ok (MissingPropertyMember, v, assigned, c).
Proof.
  intros Hm Hi. unfold unpackMember, mark. destruct primary.
  - rewrite name_primary by exact Hm. cbn [obind]. destruct (has_name _ _ _); [|reflexivity].
    destruct (Nat.ltb_spec index (length assigned)); [|lia]. reflexivity.
  - rewrite name_alias by exact Hm. cbn [obind]. destruct (has_name _ _ _); [|reflexivity].
    destruct (Nat.ltb_spec index (length assigned)); [|lia]. reflexivity.
Qed.

(** ** The flat search, as a step of the loop of HandlerModel *)
Definition flat_unpack (primary : bool) (F : list (bytes * minfo S)) (order : list nat) (page : nat) (vs : list val) (assigned : list bool) (c : ctx)
  : outcome (error * list val * list bool * ctx) :=
  match search primary (c_name c) (map (fun sm => mi_names (snd sm)) F) order with
  | None => Ok (MissingPropertyMember, vs, assigned, c)
  | Some i =>
      match nth_error F i, nth_error vs i with
      | Some sm, Some v =>
          let* (e, v, c) := mi_to (snd sm) v c in Ok (matchedMemberResult e, put i v vs, put (page + i) true assigned, c)
      | _, _ => UB
      end
  end.

Lemma matched_not_missing e : matchedMemberResult e <> MissingPropertyMember.
Proof. destruct e; discriminate. Qed.

Lemma find_map {A B} (f : A -> B) p (l : list A) : find p (map f l) = option_map f (find (fun x => p (f x)) l).
Proof. induction l as [|x l IH]; cbn; [reflexivity|]. destruct (p (f x)); [reflexivity|exact IH]. Qed.
Lemma find_ext_in {A} (p q : A -> bool) (l : list A) : (forall x, In x l -> p x = q x) -> find p l = find q l.
Proof.
  induction l as [|x l IH]; intros H; [reflexivity|]. cbn. rewrite (H x (or_introl eq_refl)), IH; [reflexivity|].
  intros y Hy. apply H. right. exact Hy.
Qed.
Lemma find_app {A} (p : A -> bool) (a b : list A) : find p (a ++ b) = match find p a with Some x => Some x | None => find p b end.
Proof. induction a as [|x a IH]; cbn; [reflexivity|]. destruct (p x); [reflexivity|exact IH]. Qed.

Lemma search_app primary n (N1 N2 : list (list bytes)) o1 o2 : Forall (fun i => i < length N1) o1 ->
  search primary n (N1 ++ N2) (o1 ++ map (Nat.add (length N1)) o2) =
  match search primary n N1 o1 with
  | Some i => Some i
  | None => option_map (Nat.add (length N1)) (search primary n N2 o2)
  end.
Proof.
  intros H. unfold search. rewrite find_app, find_map. rewrite Forall_forall in H.
  erewrite find_ext_in; [|intros x Hx; rewrite app_nth1 by (apply H, Hx); reflexivity].
  destruct (find _ o1); [reflexivity|]. f_equal. apply find_ext_in. intros x _.
  rewrite app_nth2 by lia. replace (length N1 + x - length N1) with x by lia. reflexivity.
Qed.

Lemma search_in primary n names o i : search primary n names o = Some i -> In i o.
Proof. intros H. apply find_some in H. apply H. Qed.

Lemma flat_app primary F1 F2 o1 o2 page vs1 vs2 assigned c : Forall (fun i => i < length F1) o1 -> length vs1 = length F1 ->
  flat_unpack primary (F1 ++ F2) (o1 ++ map (Nat.add (length F1)) o2) page (vs1 ++ vs2) assigned c =
  let* (e, vs1, assigned, c) := flat_unpack primary F1 o1 page vs1 assigned c in
  match e with
  | MissingPropertyMember =>
      let* (e, vs2, assigned, c) := flat_unpack primary F2 o2 (page + length F1) vs2 assigned c in
      Ok (e, vs1 ++ vs2, assigned, c)
  | _ => Ok (e, vs1 ++ vs2, assigned, c)
  end.
Proof.
  intros Ho Hv. unfold flat_unpack. rewrite map_app.
  replace (map (Nat.add (length F1)) o2) with (map (Nat.add (length (map (fun sm => mi_names (snd sm)) F1))) o2) by (rewrite map_length; reflexivity).
  rewrite search_app by (rewrite map_length; exact Ho). rewrite map_length.
  destruct (search _ _ _ o1) as [i|] eqn:E1.
  - apply search_in in E1. rewrite Forall_forall in Ho. specialize (Ho i E1).
    rewrite !nth_error_app1 by lia.
    destruct (nth_error F1 i) as [sm|]; [|reflexivity]. destruct (nth_error vs1 i) as [v|]; [|reflexivity].
    destruct (mi_to (snd sm) v c) as [[[e v'] c']| |]; cbn [obind]; try reflexivity.
    rewrite put_app1 by lia. pose proof (matched_not_missing e). destruct (matchedMemberResult e); congruence.
  - cbn [obind]. destruct (search _ _ _ o2) as [i|] eqn:E2; cbn [option_map obind]; [|reflexivity].
    rewrite !nth_error_app2 by lia. rewrite Hv. replace (length F1 + i - length F1) with i by lia.
    destruct (nth_error F2 i) as [sm|]; [|reflexivity]. destruct (nth_error vs2 i) as [v|]; [|reflexivity].
    destruct (mi_to (snd sm) v c) as [[[e v'] c']| |]; cbn [obind]; try reflexivity.
    rewrite <- Hv, put_app2, Hv, Nat.add_assoc. reflexivity.
Qed.

(** ** The result of a class, flattened *)
Definition flat_result (r : outcome (error * obj * list bool * ctx)) : outcome (error * list val * list bool * ctx) :=
  let* (e, o, a, c) := r in Ok (e, all_values o, a, c).
Definition keeps (k : cls S) (n : nat) (r : outcome (error * obj * list bool * ctx)) : Prop :=
  forall e o a c, r = Ok (e, o, a, c) -> is_object k o /\ length a = n.

Definition order_of (k : cls S) : list nat := search_order 0 (all_sizes k).

(** The own members, from index [i] downwards. *)
Lemma own_ok primary super ms page supers : small (length ms) -> Forall good_member ms ->
  forall i own bases assigned c, i < length ms -> length own = length ms -> page + length ms <= length assigned ->
  unpackFrom primary ms page i supers own bases assigned c =
  let* (e, own, assigned, c) := flat_unpack primary (map (pair super) ms) (rev (seq 0 (Datatypes.S i))) page own assigned c in
  match e with
  | MissingPropertyMember => let* (e, bases, assigned, c) := supers assigned c in Ok (e, Obj own bases, assigned, c)
  | _ => Ok (e, Obj own bases, assigned, c)
  end.
Proof.
  intros Hs Hm. induction i as [|i IH]; intros own bases assigned c Hi Hl Ha; cbn [unpackFrom].
  - rewrite get_of_ok by exact Hs. change (N.to_nat (N.of_nat 0)) with 0.
    destruct ms as [|m ms]; [cbn in Hi; lia|]. destruct own as [|v own]; [discriminate|].
    cbn [nth_error lift obind]. inversion Hm as [|? ? Gm _]; subst.
    rewrite (unpackMember_ok m v c (page + 0) primary assigned Gm) by (cbn in Ha; lia).
    unfold flat_unpack, search. cbn [map seq rev app find nth snd].
    destruct (has_name primary (c_name c) (mi_names m)); cbn [obind nth_error snd].
    + destruct (mi_to m v c) as [[[e v'] c']| |]; cbn [obind]; try reflexivity.
    + reflexivity.
  - rewrite get_of_ok by exact Hs. rewrite Nat2N.id.
    destruct (nth_error ms (Datatypes.S i)) as [m|] eqn:Em; [|apply nth_error_None in Em; lia].
    destruct (nth_error own (Datatypes.S i)) as [v|] eqn:Ev; [|apply nth_error_None in Ev; lia].
    cbn [lift obind]. assert (Gm : good_member m).
    { rewrite Forall_forall in Hm. apply Hm. eapply nth_error_In, Em. }
    rewrite (unpackMember_ok m v c (page + Datatypes.S i) primary assigned Gm) by lia.
    rewrite (seq_S (Datatypes.S i) 0), rev_app_distr. cbn [rev app Nat.add].
    unfold flat_unpack at 1. unfold search at 1. cbn [find].
    assert (En : nth (Datatypes.S i) (map (fun sm : bytes * minfo S => mi_names (snd sm)) (map (pair super) ms)) [] = mi_names m).
    { rewrite map_map. cbn [snd]. apply nth_error_nth. rewrite nth_error_map, Em. reflexivity. }
    rewrite En. destruct (has_name primary (c_name c) (mi_names m)); cbn [obind].
    + rewrite nth_error_map, Em. cbn [option_map snd]. rewrite Ev.
      destruct (mi_to m v c) as [[[e v'] c']| |]; cbn [obind]; try reflexivity.
      pose proof (matched_not_missing e). destruct (matchedMemberResult e); try congruence; reflexivity.
    + rewrite (put_same v own _ Ev). rewrite IH by lia. unfold flat_unpack, search.
      reflexivity.
Qed.

Lemma order_bound blocks : forall s i, In i (search_order s blocks) -> s <= i < s + list_sum blocks.
Proof.
  induction blocks as [|n r IH]; intros s i H; [destruct H|]. cbn [search_order list_sum fold_right] in *.
  apply in_app_iff in H. destruct H as [H|H].
  - apply in_rev, in_seq in H. lia.
  - apply IH in H. change (fold_right Nat.add 0 r) with (list_sum r). lia.
Qed.
Lemma order_shift blocks : forall s k, search_order (s + k) blocks = map (Nat.add s) (search_order k blocks).
Proof.
  induction blocks as [|n r IH]; intros s k; [reflexivity|]. cbn [search_order]. rewrite map_app, <- IH. f_equal.
  - rewrite map_rev. f_equal. clear. revert k. induction n as [|n IH]; intros k; [reflexivity|]. cbn. f_equal.
    rewrite <- IH. f_equal. lia.
  - f_equal. lia.
Qed.
Lemma order_app b1 b2 : search_order 0 (b1 ++ b2) = search_order 0 b1 ++ map (Nat.add (list_sum b1)) (search_order 0 b2).
Proof.
  enough (forall s, search_order s (b1 ++ b2) = search_order s b1 ++ search_order (list_sum b1 + s) b2) as H.
  { rewrite H, order_shift. reflexivity. }
  induction b1 as [|n r IH]; intros s; [reflexivity|]. cbn [app search_order]. rewrite IH, app_assoc. do 2 f_equal.
  change (list_sum (n :: r)) with (n + list_sum r). lia.
Qed.
Lemma list_sum_concat (l : list (list nat)) : list_sum (concat l) = list_sum (map list_sum l).
Proof. induction l as [|x l IH]; [reflexivity|]. cbn [concat map]. rewrite list_sum_app, IH. reflexivity. Qed.
Lemma length_concat {A} (l : list (list A)) : length (concat l) = list_sum (map (@length A) l).
Proof. induction l as [|x l IH]; [reflexivity|]. cbn [concat map]. rewrite app_length, IH. reflexivity. Qed.

Lemma sizes_sum (k : cls S) : forall super, list_sum (all_sizes k) = length (all_members super k).
Proof.
  induction k as [ms ss IH] using cls_ind2. intros super. cbn [all_sizes all_members].
  change (list_sum (?a :: ?b)) with (a + list_sum b). rewrite app_length, map_length. f_equal.
  rewrite list_sum_concat, length_concat, !map_rev, !map_map. f_equal. f_equal.
  induction IH as [|s r Hs _ IHr]; [reflexivity|]. cbn [map]. f_equal; [apply Hs|exact IHr].
Qed.
Lemma values_length (k : cls S) : forall o super, is_object k o -> length (all_values o) = length (all_members super k).
Proof.
  induction k as [ms ss IH] using cls_ind2. intros o super H. inversion H as [ms' ss' own bases Hl Hf]; subst.
  cbn [all_values all_members]. rewrite !app_length, map_length, Hl. f_equal.
  rewrite !length_concat, !map_rev, !map_map. f_equal. f_equal. clear H. revert IH.
  induction Hf as [|s b ss bs Hsb _ IHf]; intros IH; [reflexivity|]. inversion IH as [|? ? H1 H2]; subst.
  cbn [map]. f_equal; [apply H1, Hsb|apply IHf, H2].
Qed.

(** memberCount *)
Lemma superCount_ok (counts : list nat) : small (length counts) -> forall i, i < length counts ->
  superCount i (map Ok counts) = Ok (list_sum (firstn (Datatypes.S i) counts)).
Proof.
  intros Hs. induction i as [|i IH]; intros Hi; cbn [superCount].
  - rewrite get_of_ok by (rewrite map_length; exact Hs). change (N.to_nat (N.of_nat 0)) with 0.
    destruct counts as [|n r]; [cbn in Hi; lia|]. cbn. f_equal. lia.
  - rewrite get_of_ok by (rewrite map_length; exact Hs). rewrite Nat2N.id, nth_error_map.
    destruct (nth_error counts (Datatypes.S i)) as [n|] eqn:E; [|apply nth_error_None in E; lia].
    cbn [option_map lift obind]. rewrite IH by lia. cbn [obind]. f_equal.
    rewrite <- (firstn_skipn (Datatypes.S i) counts) at 2. rewrite firstn_app, firstn_firstn, firstn_length.
    replace (Nat.min (Datatypes.S (Datatypes.S i)) (Datatypes.S i)) with (Datatypes.S i) by lia.
    replace (Datatypes.S (Datatypes.S i) - Nat.min (Datatypes.S i) (length counts)) with 1 by lia.
    rewrite list_sum_app, Nat.add_comm. f_equal.
    assert (X : nth_error (skipn (Datatypes.S i) counts) 0 = Some n).
    { rewrite <- E. rewrite <- (firstn_skipn (Datatypes.S i) counts) at 2. rewrite nth_error_app2; rewrite firstn_length; [f_equal; lia|lia]. }
    destruct (skipn (Datatypes.S i) counts); [discriminate|]. injection X as ->. cbn. lia.
Qed.
Lemma memberCount_ok (k : cls S) : good_class k -> forall super, memberCount k = Ok (length (all_members super k)).
Proof.
  induction k as [ms ss IH] using cls_ind2. intros G super. inversion G as [ms' ss' G1 G2 G3 G4]; subst.
  cbn [memberCount all_members]. rewrite app_length, map_length, length_concat, map_rev, map_map.
  assert (E : map (fun s => memberCount (snd s)) ss = map Ok (map (fun s => length (all_members (fst s) (snd s))) ss)).
  { rewrite map_map. clear G G3. induction IH as [|s r Hs _ IHr]; [reflexivity|]. inversion G4; subst. cbn [map]. f_equal; [apply Hs; assumption|apply IHr; assumption]. }
  rewrite E. clear E. set (counts := map (fun s => length (all_members (fst s) (snd s))) ss).
  assert (Hlen : length counts = length ss) by apply map_length. rewrite <- Hlen.
  assert (R : list_sum (rev counts) = list_sum counts).
  { clear. induction counts as [|x l IH]; [reflexivity|]. cbn [rev]. rewrite list_sum_app, IH.
    change (list_sum (x :: l)) with (x + list_sum l). cbn. lia. }
  rewrite R. destruct (length counts) as [|i] eqn:El; cbn [obind].
  - destruct counts; [reflexivity|discriminate].
  - rewrite superCount_ok by (unfold small; lia). cbn [obind]. rewrite firstn_all2 by lia. reflexivity.
Qed.

(** ** Super classes *)
Lemma firstn_S_nth {A} (l : list A) : forall i x, nth_error l i = Some x -> firstn (Datatypes.S i) l = firstn i l ++ [x].
Proof. induction l as [|y l IH]; intros [|i] x H; cbn in *; try discriminate; [congruence|]. f_equal. apply IH, H. Qed.
Lemma nth_skipn {A} (l : list A) : forall i, nth_error l i = hd_error (skipn i l).
Proof. induction l as [|y l IH]; intros [|i]; cbn; auto. Qed.
Lemma firstn_put {A} (x : A) l : forall i, firstn i (put i x l) = firstn i l.
Proof. induction l as [|y l IH]; intros [|i]; cbn; auto. f_equal. apply IH. Qed.
Lemma skipn_put {A} (x : A) l : forall i j, i < j -> skipn j (put i x l) = skipn j l.
Proof. induction l as [|y l IH]; intros [|i] [|j] H; cbn; try lia; auto. apply IH. lia. Qed.
Lemma Forall2_put {A B} (R : A -> B -> Prop) la lb : Forall2 R la lb -> forall i a b, nth_error la i = Some a -> R a b -> Forall2 R la (put i b lb).
Proof.
  induction 1 as [|x y la lb Hxy H IH]; intros [|i] a b E Hab; cbn in *; try discriminate.
  - injection E as <-. constructor; assumption.
  - constructor; [assumption|]. eapply IH; eassumption.
Qed.
Lemma Forall2_nth {A B} (R : A -> B -> Prop) la lb : Forall2 R la lb -> forall i a, nth_error la i = Some a -> exists b, nth_error lb i = Some b /\ R a b.
Proof.
  induction 1 as [|x y la lb Hxy H IH]; intros [|i] a E; cbn in *; try discriminate.
  - injection E as <-. eauto.
  - apply IH, E.
Qed.
Lemma Forall2_len {A B} (R : A -> B -> Prop) la lb : Forall2 R la lb -> length la = length lb.
Proof. induction 1; cbn; congruence. Qed.

Definition unpack_ok (primary : bool) (k : cls S) : Prop := forall super page o assigned c, is_object k o ->
  page + length (all_members super k) <= length assigned ->
  flat_result (unpackMembers primary k page o assigned c) =
    flat_unpack primary (all_members super k) (order_of k) page (all_values o) assigned c /\
  keeps k (length assigned) (unpackMembers primary k page o assigned c).

Definition super_members (ss : list (bytes * cls S)) : list (bytes * minfo S) := concat (rev (map (fun s => all_members (fst s) (snd s)) ss)).
Definition super_sizes (ss : list (bytes * cls S)) : list nat := concat (rev (map (fun s => all_sizes (snd s)) ss)).
Definition super_values (bs : list obj) : list val := concat (rev (map all_values bs)).
Lemma super_members_snoc ss s : super_members (ss ++ [s]) = all_members (fst s) (snd s) ++ super_members ss.
Proof. unfold super_members. rewrite map_app, rev_app_distr. reflexivity. Qed.
Lemma super_sizes_snoc ss s : super_sizes (ss ++ [s]) = all_sizes (snd s) ++ super_sizes ss.
Proof. unfold super_sizes. rewrite map_app, rev_app_distr. reflexivity. Qed.
Lemma super_values_snoc bs b : super_values (bs ++ [b]) = all_values b ++ super_values bs.
Proof. unfold super_values. rewrite map_app, rev_app_distr. reflexivity. Qed.

Lemma order_below (k : cls S) super : Forall (fun i => i < length (all_members super k)) (order_of k).
Proof. apply Forall_forall. intros i Hi. apply order_bound in Hi. rewrite (sizes_sum k super) in Hi. lia. Qed.

Lemma supers_ok primary (ss : list (bytes * cls S)) : small (length ss) -> Forall (fun s => good_class (snd s)) ss ->
  Forall (fun s => unpack_ok primary (snd s)) ss ->
  forall i page bases assigned c, i < length ss -> Forall2 (fun s b => is_object (snd s) b) ss bases ->
  page + length (super_members (firstn (Datatypes.S i) ss)) <= length assigned ->
  let r := handleSuperClasses i page (map (fun s => unpackMembers primary (snd s)) ss) (map (fun s => memberCount (snd s)) ss) bases assigned c in
  (let* (e, bs, a, c) := r in Ok (e, super_values (firstn (Datatypes.S i) bs), a, c)) =
    flat_unpack primary (super_members (firstn (Datatypes.S i) ss)) (search_order 0 (super_sizes (firstn (Datatypes.S i) ss))) page
      (super_values (firstn (Datatypes.S i) bases)) assigned c /\
  (forall e bs a c', r = Ok (e, bs, a, c') ->
     Forall2 (fun s b => is_object (snd s) b) ss bs /\ length a = length assigned /\ skipn (Datatypes.S i) bs = skipn (Datatypes.S i) bases).
Proof.
  intros Hs Hg Hu. induction i as [|i IH]; intros page bases assigned c Hi Hf Ha; cbn zeta.
  - destruct ss as [|s ss]; [cbn in Hi; lia|]. inversion Hf as [|? b ? bs Hb Hf']; subst.
    inversion Hu as [|? ? Hu1 _]; subst. cbn [firstn] in *.
    change (super_members [s]) with (super_members ([] ++ [s])) in *. rewrite super_members_snoc in *.
    change (super_sizes [s]) with (super_sizes ([] ++ [s])). rewrite super_sizes_snoc.
    change (super_values [b]) with (super_values ([] ++ [b])). rewrite super_values_snoc.
    change (super_members []) with (@nil (bytes * minfo S)) in *. change (super_sizes []) with (@nil nat). change (super_values []) with (@nil val).
    rewrite !app_nil_r in *. cbn [handleSuperClasses].
    rewrite get_of_ok by (rewrite map_length; exact Hs). change (N.to_nat (N.of_nat 0)) with 0. cbn [map nth_error lift obind].
    destruct (Hu1 (fst s) page b assigned c Hb Ha) as [E K].
    fold (order_of (snd s)). rewrite <- E. clear E.
    destruct (unpackMembers primary (snd s) page b assigned c) as [[[[e o] a] c']| |] eqn:Eu; cbn [obind flat_result]; try (split; [reflexivity|discriminate]).
    split.
    + cbn [put firstn]. change (super_values [o]) with (super_values ([] ++ [o])). rewrite super_values_snoc. cbn [super_values map rev concat]. rewrite app_nil_r. reflexivity.
    + intros ? ? ? ? [= <- <- <- <-]. destruct (K _ _ _ _ eq_refl) as [K1 K2]. cbn [put]. split; [constructor; assumption|split; [exact K2|reflexivity]].
  - destruct (nth_error ss (Datatypes.S i)) as [s|] eqn:Es; [|apply nth_error_None in Es; lia].
    destruct (Forall2_nth _ _ _ Hf _ _ Es) as (b & Eb & Hb).
    rewrite (firstn_S_nth ss _ s Es) in *. rewrite (firstn_S_nth bases _ b Eb).
    rewrite super_members_snoc in *. rewrite super_sizes_snoc, super_values_snoc, app_length in *.
    rewrite order_app, (sizes_sum (snd s) (fst s)).
    rewrite flat_app; [|apply (order_below (snd s) (fst s))|apply values_length, Hb].
    assert (Hus : unpack_ok primary (snd s)) by (rewrite Forall_forall in Hu; apply Hu; eapply nth_error_In, Es).
    assert (Hgs : good_class (snd s)) by (rewrite Forall_forall in Hg; apply Hg; eapply nth_error_In, Es).
    destruct (Hus (fst s) page b assigned c Hb ltac:(lia)) as [E K].
    change (search_order 0 (all_sizes (snd s))) with (order_of (snd s)). rewrite <- E. clear E.
    remember (Datatypes.S i) as i1. cbn [handleSuperClasses]. subst i1.
    unfold handleSuperClasses; fold (@handleSuperClasses S).
    rewrite get_of_ok by (rewrite map_length; exact Hs). rewrite Nat2N.id, nth_error_map, Es. cbn [option_map lift obind]. rewrite Eb. cbn [lift obind].
    destruct (unpackMembers primary (snd s) page b assigned c) as [[[[e o] a] c']| |] eqn:Eu; cbn [obind flat_result]; try (split; [reflexivity|discriminate]).
    destruct (K _ _ _ _ eq_refl) as [K1 K2].
    assert (Hlb : length ss = length bases) by apply (Forall2_len _ _ _ Hf).
    assert (Hf' : Forall2 (fun s b => is_object (snd s) b) ss (put (Datatypes.S i) o bases)) by (eapply Forall2_put; eassumption).
    assert (Eo : nth_error (put (Datatypes.S i) o bases) (Datatypes.S i) = Some o) by (apply nth_put_same; lia).
    assert (Hsk : forall j, Datatypes.S i < j -> skipn j (put (Datatypes.S i) o bases) = skipn j bases) by (intros j Hj; apply skipn_put, Hj).
    assert (Hfp : firstn (Datatypes.S i) (put (Datatypes.S i) o bases) = firstn (Datatypes.S i) bases) by apply firstn_put.
    set (pb := put (Datatypes.S i) o bases) in *. clearbody pb.
    assert (Done : forall e0, (let* (e, bs, a, c) := (Ok (e0, pb, a, c') : outcome (error * list obj * list bool * ctx)) in Ok (e, super_values (firstn (Datatypes.S (Datatypes.S i)) bs), a, c)) =
              Ok (e0, all_values o ++ super_values (firstn (Datatypes.S i) bases), a, c') /\
              (forall e bs a0 c'0, Ok (e0, pb, a, c') = Ok (e, bs, a0, c'0) ->
                 Forall2 (fun s b => is_object (snd s) b) ss bs /\ length a0 = length assigned /\ skipn (Datatypes.S (Datatypes.S i)) bs = skipn (Datatypes.S (Datatypes.S i)) bases)).
    { intros e0. split.
      - cbn [obind]. rewrite (firstn_S_nth _ _ o Eo), super_values_snoc, Hfp. reflexivity.
      - intros ? ? ? ? [= <- <- <- <-]. split; [exact Hf'|split; [exact K2|apply Hsk; lia]]. }
    destruct e; try apply Done.
    rewrite get_of_ok by (rewrite map_length; exact Hs). rewrite Nat2N.id, nth_error_map, Es. cbn [option_map lift obind].
    rewrite (memberCount_ok (snd s) Hgs (fst s)). cbn [obind].
    specialize (IH (page + length (all_members (fst s) (snd s))) pb a c' ltac:(lia) Hf' ltac:(lia)). cbn zeta in IH.
    rewrite Hfp in IH. destruct IH as [I1 I2]. rewrite <- I1. clear I1.
    destruct (handleSuperClasses i _ _ _ _ _ _) as [[[[e2 bs2] a2] c2]| |] eqn:Eh; cbn [obind]; try (split; [reflexivity|discriminate]).
    destruct (I2 _ _ _ _ eq_refl) as (J1 & J2 & J3). split.
    + assert (E2 : nth_error bs2 (Datatypes.S i) = Some o) by (rewrite nth_skipn, J3, <- nth_skipn; exact Eo).
      rewrite (firstn_S_nth _ _ o E2), super_values_snoc. reflexivity.
    + intros ? ? ? ? [= <- <- <- <-]. split; [exact J1|split; [congruence|]].
      change (Datatypes.S (Datatypes.S i)) with (1 + Datatypes.S i). 
      assert (X : forall l : list obj, skipn (1 + Datatypes.S i) l = skipn 1 (skipn (Datatypes.S i) l)).
      { clear. generalize (Datatypes.S i). induction n as [|n IH]; intros [|x l]; try reflexivity. exact (IH l). }
      rewrite !X, J3, <- !X. apply Hsk. lia.
Qed.

Lemma unpackMembers_ok primary (k : cls S) : good_class k -> unpack_ok primary k.
Proof.
  induction k as [ms ss IH] using cls_ind2. intros G super page o assigned c Ho Ha.
  inversion G as [ms' ss' G1 G2 G3 G4]; subst. inversion Ho as [ms' ss' own bases Hl Hf]; subst.
  assert (Hu : Forall (fun s => unpack_ok primary (snd s)) ss).
  { rewrite Forall_forall in *. intros s Hs. apply IH; [exact Hs|apply G4, Hs]. }
  clear IH. cbn [all_members] in Ha. fold (super_members ss) in Ha. rewrite app_length, map_length in Ha.
  cbn [unpackMembers]. destruct (length ms) as [|last] eqn:El; [unfold good_length in G1; cbn in G1; lia|].
  rewrite <- El in *.
  rewrite (own_ok primary super ms page _ ltac:(unfold small, good_length in *; lia) G2 last own bases assigned c) by lia.
  cbn [all_members all_values]. unfold order_of. cbn [all_sizes].
  fold (super_members ss) (super_sizes ss) (super_values bases).
  change (length ms :: super_sizes ss) with ([length ms] ++ super_sizes ss). rewrite order_app.
  cbn [search_order]. rewrite app_nil_r. change (list_sum [length ms]) with (length ms + 0). rewrite Nat.add_0_r.
  replace (map (Nat.add (length ms)) (search_order 0 (super_sizes ss))) with (map (Nat.add (length (map (pair super) ms))) (search_order 0 (super_sizes ss))) by (rewrite map_length; reflexivity).
  rewrite flat_app; [|rewrite map_length; apply Forall_forall; intros i Hi; apply in_rev, in_seq in Hi; lia|rewrite map_length; exact Hl].
  rewrite map_length. replace (Datatypes.S last) with (length ms) by exact El.
  destruct (flat_unpack primary (map (pair super) ms) (rev (seq 0 (length ms))) page own assigned c) as [[[[e own1] a1] c1]| |] eqn:E1;
    cbn [obind flat_result]; try (split; [reflexivity|unfold keeps; discriminate]).
  assert (Hlen : length own1 = length own /\ length a1 = length assigned).
  { unfold flat_unpack in E1. destruct (search _ _ _ _); [|injection E1 as <- <- <- <-; split; reflexivity].
    destruct (nth_error _ _); [|discriminate]. destruct (nth_error own _); [|discriminate].
    destruct (mi_to _ _ _) as [[[? ?] ?]| |]; [|discriminate|discriminate]. cbn [obind] in E1. injection E1 as <- <- <- <-. rewrite !put_len. split; reflexivity. }
  destruct Hlen as [Hl1 Ha1].
  assert (Done : forall e0, flat_result (Ok (e0, Obj own1 bases, a1, c1)) = Ok (e0, own1 ++ super_values bases, a1, c1) /\
     keeps (Cls ms ss) (length assigned) (Ok (e0, Obj own1 bases, a1, c1))).
  { intros e0. split; [reflexivity|]. intros ? ? ? ? [= <- <- <- <-]. split; [constructor; [congruence|assumption]|assumption]. }
  destruct e; try apply Done.
  destruct (length ss) as [|i] eqn:Es.
  - destruct ss; [|discriminate]. inversion Hf; subst. cbn [obind flat_result].
    change (flat_unpack primary (super_members []) (search_order 0 (super_sizes [])) (page + length ms) (super_values []) a1 c1)
      with (Ok (MissingPropertyMember, @nil val, a1, c1)). cbn [obind]. apply Done.
  - assert (Hall : forall A (l : list A), length l = length ss -> firstn (Datatypes.S i) l = l).
    { intros A l HH. apply firstn_all2. lia. }
    destruct (supers_ok primary ss ltac:(unfold small; lia) G4 Hu i (page + length ms) bases a1 c1 ltac:(lia) Hf) as [I1 I2].
    { rewrite (Hall _ ss eq_refl). lia. }
    rewrite !(Hall _ ss eq_refl), (Hall _ bases ltac:(symmetry; apply (Forall2_len _ _ _ Hf))) in I1. rewrite <- I1. clear I1.
    destruct (handleSuperClasses i _ _ _ _ _ _) as [[[[e2 bs2] a2] c2]| |] eqn:Eh; cbn [obind flat_result]; try (split; [reflexivity|unfold keeps; discriminate]).
    destruct (I2 _ _ _ _ eq_refl) as (J1 & J2 & J3). split.
    + cbn [all_values]. fold (super_values bs2). rewrite (Hall _ bs2); [reflexivity|]. symmetry. apply (Forall2_len _ _ _ J1).
    + intros ? ? ? ? [= <- <- <- <-]. split; [constructor; [congruence|exact J1]|congruence].
Qed.
End Proofs.
