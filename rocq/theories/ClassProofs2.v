(** TypeHandler<T>::to and ::from of ClassModel against struct_to and from of HandlerModel. *)
From Coq Require Import Lia.
From Verif Require Import Base ScanModel TokModel SerModel HandlerModel HandlerSpec HandlerLaws HandlerTerm WriteModel TupleModel TupleProofs ClassModel ClassSpec ClassProofs.

Local Open Scope nat_scope.

Section Proofs.
Context {S : Type} (next : token -> S -> outcome (S * error * token)).
Notation ctx := (ctx S).

Definition fields (k : cls S) : list (field S) := map field_of (all_members [] k).
Lemma fields_names k : map f_names (fields k) = map (fun sm => mi_names (snd sm)) (all_members [] k).
Proof. unfold fields. rewrite map_map. reflexivity. Qed.

(** ** The loop *)

Lemma class_loop_ok (k : cls S) : good_class k -> forall n o assigned c, is_object k o -> length assigned = length (all_members [] k) ->
  flat_result (class_loop next n k o assigned c) = struct_loop next n (order_of k) (fields k) (all_values o) assigned c /\
  keeps k (length assigned) (class_loop next n k o assigned c).
Proof.
  intros G. induction n as [|n IH]; intros o assigned c Ho Ha; [split; [reflexivity|unfold keeps; discriminate]|].
  cbn [class_loop struct_loop].
  destruct (type_eqb (c_type c) TObjectEnd).
  { split; [reflexivity|]. intros ? ? ? ? [= <- <- <- <-]. split; [exact Ho|reflexivity]. }
  rewrite fields_names. unfold search_both.
  destruct (unpackMembers_ok true k G [] 0 o assigned c Ho ltac:(lia)) as [E1 K1].
  unfold flat_unpack in E1.
  (* what happens once a member was found *)
  assert (Found : forall i e o1 a1 c1,
    match nth_error (all_members [] k) i with
    | Some sm => match nth_error (all_values o) i with
                 | Some v => let* (e0, v0, c0) := mi_to (snd sm) v c in Ok (matchedMemberResult e0, put i v0 (all_values o), put (0 + i) true assigned, c0)
                 | None => UB end
    | None => UB
    end = Ok (e, all_values o1, a1, c1) -> is_object k o1 -> length a1 = length assigned ->
    e <> MissingPropertyMember /\
    (let r := match e with
     | NoError => let* (e, c) := ctx_next next c1 in if is_ok e then class_loop next n k o1 a1 c else Ok (e, o1, a1, c)
     | _ => Ok (e, o1, a1, c1)
     end in
     flat_result r =
     match nth_error (fields k) i with
     | Some fd => match nth_error (all_values o) i with
        | Some v => let* (e, v, c) := f_to fd v c in
              let vs := put i v (all_values o) in
              let assigned := put i true assigned in
              let e := matchedMemberResult e in
              if is_ok e then
                let* (e, c) := ctx_next next c in
                if is_ok e then struct_loop next n (order_of k) (fields k) vs assigned c else Ok (e, vs, assigned, c)
              else Ok (e, vs, assigned, c)
        | None => UB end
     | None => UB
     end /\ keeps k (length assigned) r)).
  { intros i e o1 a1 c1 E Ho1 Hl1. unfold fields at 1. rewrite nth_error_map.
    destruct (nth_error (all_members [] k) i) as [sm|]; [|discriminate]. cbn [option_map].
    destruct (nth_error (all_values o) i) as [v|]; [|discriminate].
    unfold field_of at 1. cbn [f_to]. destruct (mi_to (snd sm) v c) as [[[e0 v0] c0]| |]; try discriminate.
    cbn [obind Nat.add] in E. injection E as Ee Ev Eas Ec. subst c0.
    split; [rewrite <- Ee; apply matched_not_missing|]. cbn zeta. cbn [obind]. rewrite Ee, Ev, Eas.
    assert (Stop : forall e', flat_result (Ok (e', o1, a1, c1)) = Ok (e', all_values o1, a1, c1) /\ keeps k (length assigned) (Ok (e', o1, a1, c1))).
    { intros e'. split; [reflexivity|]. intros ? ? ? ? [= <- <- <- <-]. split; assumption. }
    destruct e; cbn [is_ok]; try apply Stop.
    destruct (ctx_next next c1) as [[e2 c2]| |]; cbn [obind]; try (split; [reflexivity|unfold keeps; discriminate]).
    destruct (is_ok e2).
    - destruct (IH o1 a1 c2 Ho1 ltac:(congruence)) as [I1 I2]. rewrite <- I1. split; [reflexivity|].
      intros ? ? ? ? E'. destruct (I2 _ _ _ _ E') as [J1 J2]. split; [exact J1|congruence].
    - split; [reflexivity|]. intros ? ? ? ? [= <- <- <- <-]. split; assumption. }
  destruct (unpackMembers true k 0 o assigned c) as [[[[e o1] a1] c1]| |] eqn:Eu; cbn [obind flat_result] in *.
  2,3: destruct (search true _ _ _) as [i|]; [|discriminate];
    unfold fields at 1; rewrite nth_error_map;
    destruct (nth_error (all_members [] k) i) as [sm|]; cbn [option_map]; [|first [discriminate|split; [reflexivity|unfold keeps; discriminate]]];
    destruct (nth_error (all_values o) i) as [v|]; [|first [discriminate|split; [reflexivity|unfold keeps; discriminate]]];
    unfold field_of at 1; cbn [f_to]; destruct (mi_to (snd sm) v c) as [[[e0 v0] c0]| |]; try discriminate;
    split; [reflexivity|unfold keeps; discriminate].
  destruct (K1 _ _ _ _ eq_refl) as [Ho1 Hl1].
  destruct (search true _ _ _) as [i|].
  { destruct (Found i e o1 a1 c1 ltac:(symmetry; exact E1) Ho1 Hl1) as [Hne F]. cbn zeta in F.
    destruct e; try congruence; exact F. }
  injection E1 as -> Ev -> ->.
  destruct (unpackMembers_ok false k G [] 0 o1 assigned c Ho1 ltac:(lia)) as [E2 K2].
  unfold flat_unpack in E2. rewrite Ev in E2.
  destruct (unpackMembers false k 0 o1 assigned c) as [[[[e o2] a2] c2]| |] eqn:Eu2; cbn [obind flat_result] in *.
  2,3: destruct (search false _ _ _) as [i|]; [|discriminate];
    unfold fields at 1; rewrite nth_error_map;
    destruct (nth_error (all_members [] k) i) as [sm|]; cbn [option_map]; [|first [discriminate|split; [reflexivity|unfold keeps; discriminate]]];
    destruct (nth_error (all_values o) i) as [v|]; [|first [discriminate|split; [reflexivity|unfold keeps; discriminate]]];
    unfold field_of at 1; cbn [f_to]; destruct (mi_to (snd sm) v c) as [[[e0 v0] c0]| |]; try discriminate;
    split; [reflexivity|unfold keeps; discriminate].
  destruct (K2 _ _ _ _ eq_refl) as [Ho2 Hl2].
  destruct (search false _ _ _) as [i|].
  { destruct (Found i e o2 a2 c2 ltac:(symmetry; exact E2) Ho2 Hl2) as [Hne F]. cbn zeta in F.
    destruct e; try congruence; exact F. }
  injection E2 as -> Ev2 -> ->.
  destruct (pc_allow_missing (c_cfg (add_missing (c_name c) c))).
  - destruct (skipArrayOrObject next (Datatypes.S n) (add_missing (c_name c) c)) as [c3| |]; cbn [obind]; try (split; [reflexivity|unfold keeps; discriminate]).
    destruct (is_ok (c_err c3)).
    + destruct (ctx_next next c3) as [[e4 c4]| |]; cbn [obind]; try (split; [reflexivity|unfold keeps; discriminate]).
      destruct (is_ok e4).
      * destruct (IH o2 assigned c4 Ho2 Ha) as [I1 I2]. rewrite Ev2 in I1. rewrite <- I1. split; [reflexivity|exact I2].
      * cbn [flat_result obind]. rewrite Ev2. split; [reflexivity|]. intros ? ? ? ? [= <- <- <- <-]. split; [assumption|reflexivity].
    + cbn [flat_result obind]. rewrite Ev2. split; [reflexivity|]. intros ? ? ? ? [= <- <- <- <-]. split; [assumption|reflexivity].
  - cbn [flat_result obind]. rewrite Ev2. split; [reflexivity|]. intros ? ? ? ? [= <- <- <- <-]. split; [assumption|reflexivity].
Qed.

(** ** Unassigned members *)
Definition left_name (sm : bytes * minfo S) : bytes :=
  (match fst sm with [] => [] | _ => fst sm ++ [x3a; x3a] end) ++ hd [] (mi_names (snd sm)).
Definition names_left (page : nat) (order : list nat) (F : list (bytes * minfo S)) (assigned : list bool) : list bytes :=
  flat_map (fun i => match nth_error F i with
                     | Some sm => if nth (page + i) assigned false || mi_optional (snd sm) then [] else [left_name sm]
                     | None => []
                     end) order.
Definition verdict (track : bool) (l : list bytes) : outcome (error * list bytes) :=
  Ok (match l with [] => NoError | _ => UnassignedRequiredMember end, if track then l else []).

Lemma names_left_app page o1 o2 F1 F2 assigned : Forall (fun i => i < length F1) o1 ->
  names_left page (o1 ++ map (Nat.add (length F1)) o2) (F1 ++ F2) assigned =
  names_left page o1 F1 assigned ++ names_left (page + length F1) o2 F2 assigned.
Proof.
  intros H. unfold names_left. rewrite flat_map_app. f_equal.
  - induction H as [|i o1 Hi _ IH]; [reflexivity|]. cbn [flat_map]. rewrite IH. rewrite nth_error_app1 by lia. reflexivity.
  - induction o2 as [|i o2 IH]; [reflexivity|]. cbn [map flat_map]. rewrite IH. rewrite nth_error_app2 by lia.
    replace (length F1 + i - length F1) with i by lia. rewrite Nat.add_assoc. reflexivity.
Qed.

Lemma verdict_app track a b :
  (let* (e, l) := verdict track a in let* (e', l') := verdict track b in Ok (first_error e e', l ++ l')) = verdict track (a ++ b).
Proof. unfold verdict. cbn [obind]. destruct a as [|x a], track; reflexivity. Qed.

Lemma verify_one m index assigned track super : good_member m -> index < length assigned ->
  verifyMember m index assigned track super =
  verdict track (if nth index assigned false || mi_optional m then [] else [left_name (super, m)]).
Proof.
  intros Hm Hi. unfold verifyMember. destruct (nth_error assigned index) as [a|] eqn:E; [|apply nth_error_None in E; lia].
  cbn [lift obind]. rewrite (nth_error_nth _ _ false E). destruct a; [destruct track; reflexivity|]. cbn [orb].
  destruct (mi_optional m); [destruct track; reflexivity|].
  unfold good_member, good_length in Hm. rewrite get_of_ok by (unfold small; lia).
  unfold left_name. cbn [fst snd]. destruct (mi_names m) as [|p r]; [cbn in Hm; lia|]. destruct track; reflexivity.
Qed.

Lemma verify_own super ms page track assigned l : small (length ms) -> Forall good_member ms -> page + length ms <= length assigned ->
  forall i, i < length ms ->
  verifyFrom ms page i (verdict track l) assigned track super =
  verdict track (names_left page (rev (seq 0 (Datatypes.S i))) (map (pair super) ms) assigned ++ l).
Proof.
  intros Hs Hm Ha. induction i as [|i IH]; intros Hi.
  - cbn [verifyFrom]. rewrite get_of_ok by exact Hs. change (N.to_nat (N.of_nat 0)) with 0.
    destruct ms as [|m ms]; [cbn in Hi; lia|]. cbn [nth_error lift obind]. inversion Hm as [|? ? Gm _]; subst.
    rewrite verify_one by (try exact Gm; cbn in Ha; lia). rewrite verdict_app. unfold names_left. cbn [seq rev app flat_map map nth_error snd]. rewrite app_nil_r. reflexivity.
  - cbn [verifyFrom]. rewrite get_of_ok by exact Hs. rewrite Nat2N.id.
    destruct (nth_error ms (Datatypes.S i)) as [m|] eqn:Em; [|apply nth_error_None in Em; lia].
    assert (Gm : good_member m) by (rewrite Forall_forall in Hm; apply Hm; eapply nth_error_In, Em).
    cbn [lift obind]. rewrite verify_one by (try exact Gm; lia). rewrite IH by lia. rewrite verdict_app.
    rewrite (seq_S (Datatypes.S i) 0), rev_app_distr. cbn [rev app Nat.add].
    unfold names_left at 2. cbn [flat_map]. rewrite nth_error_map, Em. cbn [option_map snd]. rewrite <- app_assoc. reflexivity.
Qed.

Definition verify_ok (k : cls S) : Prop := forall super page assigned track, page + length (all_members super k) <= length assigned ->
  verifyMembers k page assigned track super = verdict track (names_left page (order_of k) (all_members super k) assigned).

Lemma verify_supers (ss : list (bytes * cls S)) assigned track : small (length ss) -> Forall (fun s => good_class (snd s)) ss ->
  Forall (fun s => verify_ok (snd s)) ss ->
  forall i page, i < length ss -> page + length (super_members (firstn (Datatypes.S i) ss)) <= length assigned ->
  verifySuperClasses i page (map (fun s => verifyMembers (snd s)) ss) (map fst ss) (map (fun s => memberCount (snd s)) ss) assigned track =
  verdict track (names_left page (search_order 0 (super_sizes (firstn (Datatypes.S i) ss))) (super_members (firstn (Datatypes.S i) ss)) assigned).
Proof.
  intros Hs Hg Hv. induction i as [|i IH]; intros page Hi Ha.
  - destruct ss as [|s ss]; [cbn in Hi; lia|]. inversion Hv as [|? ? Hv1 _]; subst. cbn [firstn] in *.
    change [s] with ([] ++ [s]) in *. rewrite super_members_snoc, super_sizes_snoc in *.
    change (super_members []) with (@nil (bytes * minfo S)) in *. change (super_sizes []) with (@nil nat). rewrite !app_nil_r in *.
    cbn [verifySuperClasses]. rewrite !get_of_ok by (rewrite map_length; exact Hs). change (N.to_nat (N.of_nat 0)) with 0.
    cbn [map nth_error lift obind]. rewrite Hv1 by exact Ha. reflexivity.
  - destruct (nth_error ss (Datatypes.S i)) as [s|] eqn:Es; [|apply nth_error_None in Es; lia].
    rewrite (firstn_S_nth ss _ s Es) in *. rewrite super_members_snoc in *. rewrite super_sizes_snoc, app_length in *.
    rewrite order_app, (sizes_sum (snd s) (fst s)). rewrite names_left_app by apply (order_below (snd s) (fst s)).
    assert (Hvs : verify_ok (snd s)) by (rewrite Forall_forall in Hv; apply Hv; eapply nth_error_In, Es).
    assert (Hgs : good_class (snd s)) by (rewrite Forall_forall in Hg; apply Hg; eapply nth_error_In, Es).
    unfold verifySuperClasses; fold (@verifySuperClasses).
    rewrite !get_of_ok by (rewrite map_length; exact Hs). rewrite Nat2N.id, !nth_error_map, Es. cbn [option_map lift obind].
    rewrite Hvs by lia. rewrite (memberCount_ok (snd s) Hgs (fst s)). rewrite <- verdict_app.
    unfold verdict at 1 3. cbn [obind]. rewrite IH by lia. reflexivity.
Qed.

Lemma verifyMembers_ok (k : cls S) : good_class k -> verify_ok k.
Proof.
  induction k as [ms ss IH] using cls_ind2. intros G super page assigned track Ha.
  inversion G as [ms' ss' G1 G2 G3 G4]; subst.
  assert (Hv : Forall (fun s => verify_ok (snd s)) ss).
  { rewrite Forall_forall in *. intros s Hs. apply IH; [exact Hs|apply G4, Hs]. }
  clear IH. cbn [all_members] in *. fold (super_members ss) in *. rewrite app_length, map_length in Ha.
  cbn [verifyMembers]. destruct (length ms) as [|last] eqn:El; [unfold good_length in G1; cbn in G1; lia|]. rewrite <- El in *.
  unfold order_of. cbn [all_sizes]. fold (super_sizes ss).
  change (length ms :: super_sizes ss) with ([length ms] ++ super_sizes ss). rewrite order_app.
  cbn [search_order]. rewrite app_nil_r. change (list_sum [length ms]) with (length ms + 0). rewrite Nat.add_0_r.
  replace (map (Nat.add (length ms)) (search_order 0 (super_sizes ss))) with (map (Nat.add (length (map (pair super) ms))) (search_order 0 (super_sizes ss))) by (rewrite map_length; reflexivity).
  rewrite names_left_app by (rewrite map_length; apply Forall_forall; intros i Hi; apply in_rev, in_seq in Hi; lia).
  rewrite map_length.
  assert (E : (match length ss with
               | 0 => Ok (NoError, [])
               | Datatypes.S i => verifySuperClasses i (page + length ms) (map (fun s => verifyMembers (snd s)) ss) (map fst ss) (map (fun s => memberCount (snd s)) ss) assigned track
               end) = verdict track (names_left (page + length ms) (search_order 0 (super_sizes ss)) (super_members ss) assigned)).
  { destruct (length ss) as [|i] eqn:Es; [destruct ss; [destruct track; reflexivity|discriminate]|].
    assert (Hall : firstn (Datatypes.S i) ss = ss) by (apply firstn_all2; lia).
    rewrite verify_supers; rewrite ?Hall; try assumption; try lia; [reflexivity|unfold small; lia]. }
  rewrite E. rewrite (verify_own super) by (try assumption; try lia; unfold small, good_length in *; lia).
  rewrite El. reflexivity.
Qed.

Lemma names_left_flat k assigned : names_left 0 (order_of k) (all_members [] k) assigned =
  unassigned_of (order_of k) (map (fun f => (f_super f, f_names f, f_optional f)) (fields k)) assigned.
Proof.
  unfold names_left, unassigned_of. apply flat_map_ext. intros i. unfold fields. rewrite map_map, nth_error_map.
  destruct (nth_error (all_members [] k) i) as [sm|]; cbn [option_map]; reflexivity.
Qed.

(** ** TypeHandler<T>::to *)
Definition class_result (r : outcome (error * obj * ctx)) : outcome (error * val * ctx) :=
  let* (e, o, c) := r in Ok (e, VList (all_values o), c).

Lemma class_to_ok fuel k o c : good_class k -> is_object k o ->
  class_result (class_to next fuel k o c) = struct_to next fuel (all_sizes k) (fields k) (VList (all_values o)) c /\
  (forall e o' c', class_to next fuel k o c = Ok (e, o', c') -> is_object k o').
Proof.
  intros G Ho. unfold class_to, struct_to.
  destruct (type_eqb (c_type c) TObjectStart); [|split; [reflexivity|intros ? ? ? [= <- <- <-]; exact Ho]].
  destruct (ctx_read next c) as [[e1 c1]| |]; cbn [obind]; try (split; [reflexivity|discriminate]).
  destruct (is_ok e1); [|split; [reflexivity|intros ? ? ? [= <- <- <-]; exact Ho]].
  rewrite (memberCount_ok k G []). cbn [obind].
  replace (length (fields k)) with (length (all_members [] k)) by (unfold fields; rewrite map_length; reflexivity).
  destruct (class_loop_ok k G fuel o (repeat false (length (all_members [] k))) c1 Ho (repeat_length _ _)) as [E K].
  unfold order_of in E. rewrite <- E. clear E.
  destruct (class_loop next fuel k o (repeat false (length (all_members [] k))) c1) as [[[[e2 o2] a2] c2]| |]; cbn [obind flat_result]; try (split; [reflexivity|discriminate]).
  destruct (K _ _ _ _ eq_refl) as [Ho2 Ha2]. rewrite repeat_length in Ha2.
  destruct (is_ok e2); [|split; [reflexivity|intros ? ? ? [= <- <- <-]; exact Ho2]].
  rewrite (verifyMembers_ok k G) by lia. rewrite names_left_flat. unfold verdict, order_of. cbn [obind].
  destruct (unassigned_of _ _ _) as [|x l]; [split; [reflexivity|intros ? ? ? [= <- <- <-]; exact Ho2]|].
  split; [|intros ? ? ? [= <- <- <-]; exact Ho2]. cbn [class_result obind]. unfold add_unassigned.
  destruct (pc_track (c_cfg c2)); reflexivity.
Qed.

(** ** TypeHandler<T>::from *)
Definition member_writer (smv : bytes * minfo S * val) : wname -> list token * wname :=
  named (hd [] (mi_names (snd (fst smv)))) TAscii (mi_from (snd (fst smv)) (snd smv)).
Definition writers (F : list (bytes * minfo S)) (vs : list val) : list (wname -> list token * wname) := map member_writer (combine F vs).

Lemma from_list_app a b n : from_list (a ++ b) n = let '(l1, n) := from_list a n in let '(l2, n) := from_list b n in (l1 ++ l2, n).
Proof.
  revert n. induction a as [|w a IH]; intros n; cbn [app from_list].
  - destruct (from_list b n). reflexivity.
  - destruct (w n) as [l n1]. rewrite IH. destruct (from_list a n1) as [l1 n2]. destruct (from_list b n2) as [l2 n3].
    rewrite app_assoc. reflexivity.
Qed.
Lemma combine_app {A B} (a1 a2 : list A) (b1 b2 : list B) : length a1 = length b1 -> combine (a1 ++ a2) (b1 ++ b2) = combine a1 b1 ++ combine a2 b2.
Proof. revert b1. induction a1 as [|x a1 IH]; intros [|y b1] H; try discriminate H; [reflexivity|]. injection H as H. cbn. f_equal. apply IH, H. Qed.
Lemma writers_app F1 F2 vs1 vs2 : length vs1 = length F1 -> writers (F1 ++ F2) (vs1 ++ vs2) = writers F1 vs1 ++ writers F2 vs2.
Proof. intros H. unfold writers. rewrite combine_app by congruence. apply map_app. Qed.

Lemma serialize_own super (ms0 ms1 : list (minfo S)) : (N.of_nat (length (ms0 ++ ms1)) < 2 ^ 64)%N -> Forall good_member (ms0 ++ ms1) ->
  forall own0 own1 supers n index, length own0 = length ms0 -> length own1 = length ms1 -> length ms1 = Datatypes.S index ->
  serializeFrom (ms0 ++ ms1) index supers (own0 ++ own1) =
  let '(l, n) := from_list (writers (map (pair super) ms1) own1) n in let* (l', n) := supers n in Ok (l ++ l', n).
Proof.
  revert ms0. induction ms1 as [|m ms1 IH]; intros ms0 Hs Hm own0 own1 supers n index H0 H1 Hi; [discriminate|].
  destruct own1 as [|v own1]; [discriminate|]. injection H1 as H1. injection Hi as Hi.
  assert (Hlen : length (ms0 ++ m :: ms1) = length ms0 + Datatypes.S (length ms1)) by (rewrite app_length; reflexivity).
  assert (Ei : size_sub (size_sub (N.of_nat (length (ms0 ++ m :: ms1))) (N.of_nat index)) 1 = N.of_nat (length ms0)).
  { rewrite (size_sub_ok (N.of_nat (length (ms0 ++ m :: ms1)))) by lia. rewrite size_sub_ok by lia. lia. }
  assert (Gm : good_member m) by (rewrite Forall_forall in Hm; apply Hm, in_app_iff; right; left; reflexivity).
  assert (Emember : serializeMember m v = Ok (mi_from m v (mkWn (hd [] (mi_names m)) TAscii))).
  { unfold serializeMember. unfold good_member, good_length in Gm. rewrite get_of_ok by (unfold small; lia).
    destruct (mi_names m); [cbn in Gm; lia|]. reflexivity. }
  assert (Eget : get_of (N.of_nat (length ms0)) (ms0 ++ m :: ms1) = Some m).
  { rewrite get_of_ok by (unfold small; lia). rewrite Nat2N.id, nth_error_app2, Nat.sub_diag by lia. reflexivity. }
  assert (Ev : nth_error (own0 ++ v :: own1) (N.to_nat (N.of_nat (length ms0))) = Some v).
  { rewrite Nat2N.id, nth_error_app2 by lia. rewrite H0, Nat.sub_diag. reflexivity. }
  cbn [map]. unfold writers. cbn [combine map from_list]. unfold member_writer at 1. cbn [fst snd].
  unfold named at 1.
  destruct index as [|index].
  - cbn [serializeFrom]. change (N.of_nat 0) with 0%N in *. rewrite Ei, Eget. cbn [lift obind]. rewrite Ev. cbn [lift obind]. rewrite Emember. cbn [obind].
    destruct (mi_from m v _) as [l1 n1]. destruct ms1; [|discriminate]. cbn [map combine from_list]. destruct (supers n1) as [[l2 n2]| |]; cbn [obind]; try reflexivity.
    rewrite app_nil_r. reflexivity.
  - unfold serializeFrom; fold (@serializeFrom S). rewrite Ei, Eget. cbn [lift obind]. rewrite Ev. cbn [lift obind]. rewrite Emember. cbn [obind].
    destruct (mi_from m v _) as [l1 n1].
    specialize (IH (ms0 ++ [m])). rewrite <- app_assoc in IH. specialize (IH Hs Hm (own0 ++ [v]) own1 supers n1 index).
    rewrite <- app_assoc in IH. cbn [app] in IH. rewrite IH; [|rewrite !app_length; cbn; lia|exact H1|exact Hi].
    fold (writers (map (pair super) ms1) own1). destruct (from_list (writers (map (pair super) ms1) own1) n1) as [l2 n2].
    destruct (supers n2) as [[l3 n3]| |]; cbn [obind]; try reflexivity. rewrite app_assoc. reflexivity.
Qed.

Definition serialize_ok (k : cls S) : Prop := forall super o n, is_object k o ->
  serializeMembers k o n = Ok (from_list (writers (all_members super k) (all_values o)) n).

Lemma serialize_supers (ss : list (bytes * cls S)) : small (length ss) -> Forall (fun s => serialize_ok (snd s)) ss ->
  forall i bases n, i < length ss -> Forall2 (fun s b => is_object (snd s) b) ss bases ->
  serializeSuperClasses i (map (fun s => serializeMembers (snd s)) ss) bases n =
  Ok (from_list (writers (super_members (firstn (Datatypes.S i) ss)) (super_values (firstn (Datatypes.S i) bases))) n).
Proof.
  intros Hs Hv. induction i as [|i IH]; intros bases n Hi Hf.
  - destruct ss as [|s ss]; [cbn in Hi; lia|]. inversion Hf as [|? b ? bs Hb Hf']; subst. inversion Hv as [|? ? Hv1 _]; subst. cbn [firstn] in *.
    change [s] with ([] ++ [s]) in *. change [b] with ([] ++ [b]). rewrite super_members_snoc, super_values_snoc.
    change (super_members []) with (@nil (bytes * minfo S)). change (super_values []) with (@nil val). rewrite !app_nil_r.
    cbn [serializeSuperClasses]. rewrite get_of_ok by (rewrite map_length; exact Hs). change (N.to_nat (N.of_nat 0)) with 0.
    cbn [map nth_error lift obind]. rewrite (Hv1 (fst s)) by exact Hb. cbn [obind]. destruct (from_list _ _). reflexivity.
  - destruct (nth_error ss (Datatypes.S i)) as [s|] eqn:Es; [|apply nth_error_None in Es; lia].
    destruct (Forall2_nth _ _ _ Hf _ _ Es) as (b & Eb & Hb).
    rewrite (firstn_S_nth ss _ s Es), (firstn_S_nth bases _ b Eb), super_members_snoc, super_values_snoc.
    assert (Hvs : serialize_ok (snd s)) by (rewrite Forall_forall in Hv; apply Hv; eapply nth_error_In, Es).
    rewrite writers_app by (apply values_length, Hb). rewrite from_list_app.
    unfold serializeSuperClasses; fold (@serializeSuperClasses).
    rewrite get_of_ok by (rewrite map_length; exact Hs). rewrite Nat2N.id, nth_error_map, Es. cbn [option_map lift obind]. rewrite Eb. cbn [lift obind].
    rewrite (Hvs (fst s)) by exact Hb. cbn [obind].
    destruct (from_list (writers (all_members (fst s) (snd s)) (all_values b)) n) as [l1 n1].
    rewrite IH by (try exact Hf; lia). cbn [obind].
    destruct (from_list _ n1) as [l2 n2]. reflexivity.
Qed.

Lemma serializeMembers_ok (k : cls S) : good_class k -> serialize_ok k.
Proof.
  induction k as [ms ss IH] using cls_ind2. intros G super o n Ho.
  inversion G as [ms' ss' G1 G2 G3 G4]; subst. inversion Ho as [ms' ss' own bases Hl Hf]; subst.
  assert (Hv : Forall (fun s => serialize_ok (snd s)) ss).
  { rewrite Forall_forall in *. intros s Hs. apply IH; [exact Hs|apply G4, Hs]. }
  clear IH. cbn [all_members all_values]. fold (super_members ss) (super_values bases).
  cbn [serializeMembers]. destruct (length ms) as [|last] eqn:El; [unfold good_length in G1; cbn in G1; lia|].
  rewrite writers_app by (rewrite map_length; lia). rewrite from_list_app.
  pose proof (serialize_own super [] ms ltac:(unfold good_length in G1; cbn [app]; lia) G2 [] own) as E. cbn [app] in E.
  rewrite (E _ n last eq_refl) by lia. clear E.
  destruct (from_list (writers (map (pair super) ms) own) n) as [l1 n1].
  destruct (length ss) as [|i] eqn:Es.
  - destruct ss; [|discriminate]. inversion Hf; subst. cbn. reflexivity.
  - rewrite serialize_supers; [|unfold small; lia|exact Hv|lia|exact Hf]. cbn [obind].
    rewrite !firstn_all2; [|rewrite <- (Forall2_len _ _ _ Hf); lia|lia].
    destruct (from_list _ n1) as [l2 n2]. reflexivity.
Qed.

Lemma class_from_ok k o n : good_class k -> is_object k o ->
  class_from k o n = Ok (from_object (writers (all_members [] k) (all_values o)) n).
Proof.
  intros G Ho. unfold class_from, from_object. rewrite (serializeMembers_ok k G [] o n Ho). cbn [obind].
  destruct (from_list _ n) as [l n1]. reflexivity.
Qed.
End Proofs.

(** ** Classes given by the types of their members *)
Section Tcls_ind.
Context (P : tcls -> Prop).
Hypothesis H : forall ms ss, Forall (fun s => P (snd s)) ss -> P (TCls ms ss).
Fixpoint tcls_ind2 (k : tcls) : P k :=
  match k with
  | TCls ms ss => H ms ss ((fix go ss : Forall (fun s => P (snd s)) ss :=
      match ss with [] => Forall_nil _ | s :: r => Forall_cons s (tcls_ind2 (snd s)) (go r) end) ss)
  end.
End Tcls_ind.

Section Typed.
Context {S : Type} (next : token -> S -> outcome (S * error * token)) (fuel : nat) (i : isa).
Notation cls_of := (cls_of next fuel i).

Lemma good_cls_of k : good_tcls k -> good_class (cls_of k).
Proof.
  induction k as [ms ss IH] using tcls_ind2. intros G. inversion G as [ms' ss' G1 G2 G3 G4]; subst. cbn [ClassSpec.cls_of].
  constructor; rewrite ?map_length; try assumption.
  - rewrite Forall_map. eapply Forall_impl; [|exact G2]. intros m Hm. exact Hm.
  - rewrite Forall_map. rewrite Forall_forall in *. intros s Hs. cbn [snd]. apply IH; [exact Hs|apply G4, Hs].
Qed.
Lemma object_cls_of k : forall o, object_of k o -> is_object (cls_of k) o.
Proof.
  induction k as [ms ss IH] using tcls_ind2. intros o Ho. inversion Ho as [ms' ss' own bases Hl Hf]; subst. cbn [ClassSpec.cls_of].
  constructor; [rewrite map_length; exact Hl|]. clear Ho Hl. induction Hf as [|s b ss bs Hb _ IHf]; [constructor|].
  inversion IH as [|? ? I1 I2]; subst. cbn [map]. constructor; [apply I1, Hb|apply IHf, I2].
Qed.
Lemma object_of_cls k : forall o, is_object (cls_of k) o -> object_of k o.
Proof.
  induction k as [ms ss IH] using tcls_ind2. intros o Ho. cbn [ClassSpec.cls_of] in Ho. inversion Ho as [ms' ss' own bases Hl Hf]; subst.
  rewrite map_length in Hl. constructor; [exact Hl|]. clear Ho Hl. revert bases Hf. induction ss as [|s ss IHf]; intros bases Hf; inversion Hf as [|? b ? bs Hb Hf']; subst; [constructor|].
  inversion IH as [|? ? I1 I2]; subst. constructor; [apply I1, Hb|apply IHf; assumption].
Qed.
Definition info_of (f : bytes * list bytes * ty) : bytes * minfo S := (fst (fst f), minfo_of next fuel i (snd (fst f), snd f)).
Lemma members_cls_of k : forall super, all_members super (cls_of k) = map info_of (members_of super k).
Proof.
  induction k as [ms ss IH] using tcls_ind2. intros super. cbn [ClassSpec.cls_of all_members members_of]. rewrite map_app, concat_map, map_rev, !map_map. f_equal.
  f_equal. f_equal. induction IH as [|s ss Hs _ IHs]; [reflexivity|]. cbn [map fst snd]. f_equal; [apply Hs|exact IHs].
Qed.
Lemma sizes_cls_of k : all_sizes (cls_of k) = sizes_of k.
Proof.
  induction k as [ms ss IH] using tcls_ind2. cbn [ClassSpec.cls_of all_sizes sizes_of]. rewrite map_length, map_map. f_equal. f_equal. f_equal.
  induction IH as [|s ss Hs _ IHs]; [reflexivity|]. cbn [map fst snd]. f_equal; [apply Hs|exact IHs].
Qed.

Lemma typed_to k o c : good_tcls k -> object_of k o ->
  class_result (class_to next fuel (cls_of k) o c) = to next fuel (struct_type k) (VList (all_values o)) c /\
  (forall e o' c', class_to next fuel (cls_of k) o c = Ok (e, o', c') -> object_of k o').
Proof.
  intros G Ho. destruct (class_to_ok next fuel (cls_of k) o c (good_cls_of k G) (object_cls_of k o Ho)) as [E K]. split.
  - rewrite E. unfold struct_type. cbn [to]. rewrite sizes_cls_of. f_equal. unfold fields. rewrite members_cls_of, map_map. reflexivity.
  - intros e o' c' E'. eapply object_of_cls, K, E'.
Qed.
Lemma typed_from k o n : good_tcls k -> object_of k o ->
  class_from (cls_of k) o n = Ok (from i (struct_type k) (VList (all_values o)) n).
Proof.
  intros G Ho. rewrite class_from_ok by (try apply good_cls_of; try apply object_cls_of; assumption).
  f_equal. unfold struct_type. cbn [from vals_of]. rewrite members_cls_of. f_equal.
  generalize (members_of [] k) (all_values o). intros fs. induction fs as [|f fs IH]; intros [|v vs]; try reflexivity.
  cbn [map]. unfold writers. cbn [combine map]. f_equal. apply IH.
Qed.
End Typed.

(** ** The flattened struct *)
Lemma sizes_sum k : forall super, list_sum (sizes_of k) = length (members_of super k).
Proof.
  induction k as [ms ss IH] using tcls_ind2. intros super. cbn [sizes_of members_of list_sum fold_right].
  rewrite app_length, map_length. f_equal.
  change (fold_right Init.Nat.add 0) with list_sum.
  assert (E : forall (A : Type) (f : A -> list nat) (g : A -> list (bytes * list bytes * ty)) (l : list A),
             Forall (fun a => list_sum (f a) = length (g a)) l -> list_sum (concat (rev (map f l))) = length (concat (rev (map g l)))).
  { intros A f g l Hl. induction Hl as [|a l Ha _ IHl]; [reflexivity|]. cbn [map rev]. rewrite !concat_app, list_sum_app, app_length. cbn [concat]. rewrite !app_nil_r. congruence. }
  apply E. eapply Forall_impl; [|exact IH]. intros s Hs. apply Hs.
Qed.
(** The values of two objects of a class are the same only if the objects are. *)
Lemma object_values_length k : forall o, object_of k o -> forall super, length (all_values o) = length (members_of super k).
Proof.
  induction k as [ms ss IH] using tcls_ind2. intros o Ho super. inversion Ho as [ms' ss' own bases Hl Hf]; subst.
  cbn [all_values members_of]. rewrite !app_length, map_length. f_equal; [exact Hl|]. clear Ho Hl.
  induction Hf as [|s b ss bs Hb _ IHf]; [reflexivity|]. inversion IH as [|? ? I1 I2]; subst.
  cbn [map rev]. rewrite !concat_app, !app_length. cbn [concat]. rewrite !app_nil_r. f_equal; [apply IHf, I2|apply I1, Hb].
Qed.
Lemma app_same_length {A : Type} (a b c d : list A) : length a = length c -> a ++ b = c ++ d -> a = c /\ b = d.
Proof.
  revert c. induction a as [|x a IH]; intros [|y c] Hl H; cbn in *; try discriminate; [auto|].
  injection H as -> H. injection Hl as Hl. destruct (IH c Hl H) as [-> ->]. auto.
Qed.
Lemma values_inj k : forall o o', object_of k o -> object_of k o' -> all_values o = all_values o' -> o = o'.
Proof.
  induction k as [ms ss IH] using tcls_ind2. intros o o' Ho Ho' H. inversion Ho as [ms' ss' own bases Hl Hf]; subst.
  inversion Ho' as [ms' ss' own' bases' Hl' Hf']; subst. cbn [all_values] in H.
  apply app_same_length in H; [|congruence]. destruct H as [-> H]. f_equal. clear Ho Ho' Hl Hl'.
  revert bases' Hf' H. induction Hf as [|s b ss bs Hb Hf IHf]; intros bases' Hf' H; inversion Hf' as [|? b' ? bs' Hb' Hf2]; subst; [reflexivity|].
  inversion IH as [|? ? I1 I2]; subst. cbn [map rev] in H. rewrite !concat_app in H. cbn [concat] in H. rewrite !app_nil_r in H.
  apply app_same_length in H.
  - destruct H as [H1 H2]. f_equal; [apply I1; assumption|apply IHf; assumption].
  - clear - Hf Hf2. revert bs' Hf2. induction Hf as [|s b ss bs Hb _ IHf]; intros bs' Hf2; inversion Hf2 as [|? b' ? bs2 Hb' Hf3]; subst; [reflexivity|].
    cbn [map rev]. rewrite !concat_app, !app_length. cbn [concat]. rewrite !app_nil_r. f_equal; [apply IHf, Hf3|].
    rewrite (object_values_length _ _ Hb []), (object_values_length _ _ Hb' []). reflexivity.
Qed.

Lemma init_values k : forall super, all_values (init_object k) = map (fun f => init (snd f)) (members_of super k).
Proof.
  induction k as [ms ss IH] using tcls_ind2. intros super. cbn [init_object all_values members_of]. rewrite map_app, map_map, concat_map, map_rev, !map_map. f_equal.
  f_equal. f_equal. induction IH as [|s ss Hs _ IHs]; [reflexivity|]. cbn [map]. f_equal; [apply Hs|exact IHs].
Qed.
Lemma init_is_object k : object_of k (init_object k).
Proof.
  induction k as [ms ss IH] using tcls_ind2. constructor; [apply map_length|]. induction IH as [|s ss Hs _ IHs]; constructor; assumption.
Qed.
Lemma members_spec k : forall super f, In f (members_of super k) <-> has_member super k f.
Proof.
  induction k as [ms ss IH] using tcls_ind2. intros super f. cbn [members_of]. rewrite in_app_iff, in_map_iff, in_concat. rewrite Forall_forall in IH. split.
  - intros [(m & <- & Hm)|(l & Hl & Hf)]; [apply Own, Hm|]. rewrite <- in_rev, in_map_iff in Hl. destruct Hl as ([n k] & <- & Hs).
    eapply Inherited; [exact Hs|]. apply (IH _ Hs), Hf.
  - intros H. inversion H as [? ? ? m Hm|? ? ? n k ? Hs Hf]; subst; [left; eauto|right]. exists (members_of n k). split.
    + rewrite <- in_rev, in_map_iff. exists (n, k). auto.
    + apply (IH _ Hs), Hf.
Qed.

(** ** Whole texts *)
Lemma class_text_ok o g fuel i k ob text : good_tcls k -> object_of k ob ->
  (let* (e, ob', r) := class_text o g fuel i k ob text in Ok (e, VList (all_values ob'), r)) =
  parse_text o g fuel (struct_type k) (VList (all_values ob)) text /\
  forall e ob' r, class_text o g fuel i k ob text = Ok (e, ob', r) -> object_of k ob'.
Proof.
  intros G Ho. unfold class_text, parse_text, class_parseTo, parseTo.
  destruct (ctx_next (nextToken o) (context_of g text)) as [[e c]| |]; cbn [obind]; [|split; [reflexivity|discriminate]..].
  destruct (is_ok e); cbn [obind]; [|split; [reflexivity|intros ? ? ? H; injection H as <- <- <-; exact Ho]].
  destruct (typed_to (nextToken o) fuel i k ob c G Ho) as [E K]. rewrite <- E. unfold class_result.
  destruct (class_to _ _ _ _ _) as [[[e1 o1] c1]| |] eqn:E1; cbn [obind]; [|split; [reflexivity|discriminate]..].
  split; [reflexivity|]. intros ? ? ? H. injection H as <- <- <-. eapply K. reflexivity.
Qed.
Lemma class_parses_ok o g i k ob text e ob' r : good_tcls k -> object_of k ob ->
  (class_parses o g i k ob text e ob' r <->
   object_of k ob' /\ parses o g (struct_type k) (VList (all_values ob)) text e (VList (all_values ob')) r).
Proof.
  intros G Ho. split.
  - intros (n & H). split.
    + eapply (proj2 (class_text_ok o g n i k ob text G Ho)). apply H. lia.
    + exists n. intros fuel Hf. rewrite <- (proj1 (class_text_ok o g fuel i k ob text G Ho)), (H fuel Hf). reflexivity.
  - intros (Ho' & n & H). exists n. intros fuel Hf. specialize (H fuel Hf). destruct (class_text_ok o g fuel i k ob text G Ho) as [E K]. rewrite H in E.
    destruct (class_text o g fuel i k ob text) as [[[e1 o1] r1]| |] eqn:E1; cbn [obind] in E; try discriminate E. injection E as -> E ->.
    rewrite (values_inj k o1 ob'); auto. eapply K. reflexivity.
Qed.
Lemma class_serialize_ok (S : Type) next fuel i so k ob : good_tcls k -> object_of k ob ->
  class_serialize so (cls_of (S := S) next fuel i k) ob = serializeStruct i so (struct_type k) (VList (all_values ob)).
Proof.
  intros G Ho. unfold class_serialize, serializeStruct. rewrite (typed_from next fuel i k ob wname_default G Ho). cbn [obind].
  destruct (from i _ _ _) as [l n]. reflexivity.
Qed.
(** Whatever the struct has become, it is an object of the class. *)
Lemma object_from k : forall super vs, length vs = length (members_of super k) -> exists o, object_of k o /\ all_values o = vs.
Proof.
  induction k as [ms ss IH] using tcls_ind2. intros super vs Hl. cbn [members_of] in Hl. rewrite app_length, map_length in Hl.
  assert (B : forall vs, length vs = length (concat (rev (map (fun s => members_of (fst s) (snd s)) ss))) ->
    exists bases, Forall2 (fun s b => object_of (snd s) b) ss bases /\ concat (rev (map all_values bases)) = vs).
  { clear Hl vs. induction IH as [|s ss Hs _ IHs]; intros vs Hl; cbn [map rev] in Hl.
    - destruct vs; [|discriminate]. exists []. split; [constructor|reflexivity].
    - rewrite concat_app, app_length in Hl. cbn [concat] in Hl. rewrite app_nil_r in Hl.
      set (n := length (concat (rev (map (fun s => members_of (fst s) (snd s)) ss)))) in *.
      destruct (IHs (firstn n vs)) as (bs & F & E); [rewrite firstn_length; lia|].
      destruct (Hs (fst s) (skipn n vs)) as (b & Hb & Eb); [rewrite skipn_length; lia|].
      exists (b :: bs). split; [constructor; assumption|]. cbn [map rev]. rewrite concat_app. cbn [concat]. rewrite app_nil_r, E, Eb. apply firstn_skipn. }
  destruct (B (skipn (length ms) vs)) as (bs & F & E); [rewrite skipn_length; lia|].
  exists (Obj (firstn (length ms) vs) bs). split; [constructor; [rewrite firstn_length; lia|exact F]|]. cbn [all_values]. rewrite E. apply firstn_skipn.
Qed.
Lemma class_ends o g i k ob text e v r : good_tcls k -> object_of k ob ->
  parses o g (struct_type k) (VList (all_values ob)) text e v r -> exists ob', class_parses o g i k ob text e ob' r /\ v = VList (all_values ob').
Proof.
  intros G Ho (n & H).
  assert (A : forall fuel, n <= fuel -> exists ob', class_text o g fuel i k ob text = Ok (e, ob', r) /\ object_of k ob' /\ v = VList (all_values ob')).
  { intros fuel Hf. specialize (H fuel Hf). destruct (class_text_ok o g fuel i k ob text G Ho) as [E K]. rewrite H in E.
    destruct (class_text o g fuel i k ob text) as [[[e1 o1] r1]| |] eqn:E1; cbn [obind] in E; try discriminate E. injection E as <- <- <-.
    exists o1. split; [reflexivity|]. split; [eapply K; reflexivity|reflexivity]. }
  destruct (A n (le_n n)) as (ob' & _ & O & V). exists ob'. split; [|exact V]. exists n. intros fuel Hf.
  destruct (A fuel Hf) as (ob2 & E2 & O2 & V2). rewrite E2. rewrite V in V2. injection V2 as V2. rewrite (values_inj k ob2 ob'); auto.
Qed.

(** ** Names *)
Lemma find_app {A : Type} (f : A -> bool) l l' : find f (l ++ l') = match find f l with Some x => Some x | None => find f l' end.
Proof. induction l as [|a l IH]; [reflexivity|]. cbn. destruct (f a); [reflexivity|exact IH]. Qed.
Lemma own_first k n m : In m (match k with TCls ms _ => ms end) -> hd_error (fst m) = Some n ->
  exists i, member_named (sizes_of k) (members_of [] k) n = Some i /\ i < length (match k with TCls ms _ => ms end).
Proof.
  destruct k as [ms ss]. intros Hm Hn. unfold member_named, search_both, search. cbn [sizes_of search_order].
  rewrite find_app. destruct (In_nth_error _ _ Hm) as (j & Hj).
  assert (Lj : j < length ms) by (apply nth_error_Some; congruence).
  match goal with |- context [find ?f (rev (seq 0 (length ms)))] => destruct (find f (rev (seq 0 (length ms)))) as [i|] eqn:E end.
  - exists i. split; [reflexivity|]. apply find_some in E. destruct E as [E _]. rewrite <- in_rev, in_seq in E. lia.
  - exfalso. assert (B := find_none _ _ E j). cbv beta in B. rewrite <- in_rev, in_seq in B. specialize (B ltac:(lia)).
    cbn [members_of] in B. erewrite nth_error_nth in B.
    2: { rewrite nth_error_map, nth_error_app1 by (rewrite map_length; exact Lj). rewrite nth_error_map, Hj. reflexivity. }
    cbn [fst snd] in B. destruct (fst m) as [|x l]; [discriminate Hn|]. injection Hn as ->. cbn in B.
    rewrite (proj2 (beq_iff n n) eq_refl) in B. discriminate B.
Qed.
Lemma unknown_spec k ms x : In x (unknown (sizes_of k) (members_of [] k) ms) <->
  (exists j, In (x, j) ms) /\ forall f, has_member [] k f -> ~ In x (snd (fst f)).
Proof.
  unfold unknown. rewrite in_flat_map. split.
  - intros ([y j] & Hin & H). cbn [fst] in H. destruct (member_named _ _ y) as [i|] eqn:E; [contradiction|]. destruct H as [<-|[]].
    split; [eauto|]. intros f Hf Hx. apply members_spec, In_nth_error in Hf. destruct Hf as (i & Hi).
    refine (search_both_none _ _ _ E i _ _).
    + apply search_order_lt. rewrite (sizes_sum k []). split; [lia|]. cbn. apply nth_error_Some. congruence.
    + erewrite nth_error_nth by (rewrite nth_error_map, Hi; reflexivity). exact Hx.
  - intros ((j & Hin) & H). exists (x, j). split; [exact Hin|]. cbn [fst]. destruct (member_named _ _ x) as [i|] eqn:E; [|left; reflexivity].
    assert (Hi := search_both_in _ _ _ _ E). apply search_order_lt in Hi. rewrite (sizes_sum k []) in Hi. cbn in Hi.
    destruct (nth_error (members_of [] k) i) as [f|] eqn:Ef; [|apply nth_error_None in Ef; lia].
    apply search_has in E. erewrite nth_error_nth in E by (rewrite nth_error_map, Ef; reflexivity).
    exfalso. exact (H f (proj1 (members_spec k [] f) (nth_error_In _ _ Ef)) E).
Qed.
