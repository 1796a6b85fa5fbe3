(** Properties C37 to C39: token metadata and JS::Map. *)
From Verif Require Import Base ScanModel TokModel JsonSpec TokSpec MapModel MapSpec MapProofs MapProofs2 MapProofs3.
From Coq Require Import Lia.

(** ** C37: the metadata describes the tree. *)

Theorem C37_metadata_describes_tree : forall ts name j,
  map tk_value_type ts = doc_types name j -> metaForTokens ts = Ok (tree_meta 0 j).
Proof. exact metaForTokens_spec. Qed.
Print Assumptions C37_metadata_describes_tree.

(** Tokens with the views of a document. *)
Definition as_tok (v : stoken) : token :=
  mkTok (mkRef Elsewhere (st_name v)) (mkRef Elsewhere (st_value v)) (st_name_type v) (st_value_type v).
Definition toks (j : json) : list token := map as_tok (doc_tokens None j).

Definition num (t : bytes) : json := JScalar (SNum t).
Definition ex_obj : list (bytes * json) :=
  [(s2b "a", num (s2b "1")); (s2b "b", JArr [num (s2b "2"); JObj []; JObj [(s2b "a", num (s2b "3"))]]); (s2b "c", JObj []); (s2b "d", num (s2b "4"))].

Example C37_nonvacuous :
  metaForTokens (toks (JObj ex_obj)) =
  Ok [mkMeta 0 14 5 4 2 false true; mkMeta 2 8 3 3 2 true true; mkMeta 4 2 1 0 0 false false;
      mkMeta 6 3 1 1 0 false true; mkMeta 10 2 1 0 0 false false].
Proof. vm_compute. reflexivity. Qed.

(** A map made from the tokens of an object. *)
Theorem C37_map_of_object : forall ts name ms, map tok_view ts = doc_tokens name (JObj ms) ->
  exists m, map_load ts = Ok m /\ mp_tokens m = ts /\ is_map ms (has_scalar (JObj ms)) m.
Proof.
  intros ts name ms H. unfold map_load. rewrite (metaForTokens_spec ts name (JObj ms)).
  2:{ unfold doc_types. rewrite <- H, map_map. apply map_ext. reflexivity. }
  cbn [obind]. eexists. split; [reflexivity|]. split; [reflexivity|].
  cbn [doc_tokens] in H. apply map_eq_cons in H. destruct H as (t0 & r & -> & H0 & H).
  apply map_eq_app in H. destruct H as (mid & e & -> & Hm & He).
  apply map_eq_cons in He. destruct He as (t1 & e' & -> & H1 & He). apply map_eq_nil in He. subst e'.
  exists t0, mid, t1. cbn [mp_tokens mp_meta].
  split; [reflexivity|].
  split; [change (st_value_type (tok_view t0) = TObjectStart); rewrite H0; destruct name; reflexivity|].
  split; [change (st_value_type (tok_view t1) = TObjectEnd); rewrite H1; reflexivity|].
  split.
  { split; [change (st_name (tok_view t1) = []); rewrite H1; reflexivity|].
    split; [change (st_value (tok_view t0) = [x7b]); rewrite H0; destruct name; reflexivity|].
    split; [change (st_value (tok_view t1) = [x7d]); rewrite H1; reflexivity|].
    unfold plain_name_type. change (tk_name_type t0) with (st_name_type (tok_view t0)). change (tk_name_type t1) with (st_name_type (tok_view t1)).
    rewrite H0, H1. split; [destruct name|]; cbn; auto. }
  split; [exact Hm|reflexivity].
Qed.
Print Assumptions C37_map_of_object.

(** ** C38: iteration and search. *)

(** Iterating visits the first token of each member, in order, and then the closing bracket. *)
Theorem C38_iteration_partial : forall ms d m, is_map ms d m ->
  exists firsts last, map_visit m = Ok (firsts ++ [last]) /\ tk_value_type last = TObjectEnd /\
    map Some (map tok_view firsts) = map (fun kv => hd_error (doc_tokens (Some (fst kv)) (snd kv))) ms.
Proof.
  intros ms d m (t0 & mid & t1 & Ht & _ & T1 & _ & Hmid & Hmeta). unfold map_visit. rewrite begin_at.
  destruct (visit_all m ms t0 mid t1 Ht Hmid _ Hmeta ms [] _ eq_refl (enough_fuel m ms t0 mid t1 Ht Hmid [] ms eq_refl))
    as (firsts & -> & Hf).
  exists firsts, t1. auto.
Qed.
Print Assumptions C38_iteration_partial.

(** find(name): the tokens of the first member with that name, or the end. *)
Theorem C38_find : forall ms d m name, is_map ms d m -> name <> [] ->
  match lookup name ms with
  | Some v => exists it, map_find m name = Ok it /\ it_index it <> it_index (it_end m) /\
      map tok_view (firstn (ntok v) (skipn (it_index it) (mp_tokens m))) = doc_tokens (Some name) v
  | None => exists it, map_find m name = Ok it /\ it_index it = it_index (it_end m)
  end.
Proof.
  intros ms d m name Hm Hne. destruct (lookup name ms) as [v|] eqn:El.
  - assert (HL := locate_ok d m ms name Hm Hne). rewrite El in HL. destruct HL as (i & HL & Hv).
    destruct (lookup_split _ _ _ El) as (pre & post & E & Hn & _).
    assert (Hf := map_find_present ms d m pre name v post Hm E Hn).
    assert (He := it_at_not_end ms d m pre _ post Hm E).
    unfold map_locate in HL. destruct (mp_tokens m) as [|t r] eqn:Et; [discriminate HL|]. rewrite <- Et in *.
    destruct (type_eqb _ _); [|discriminate HL]. rewrite Hf in HL. cbn [obind] in HL. rewrite He in HL. injection HL as <-.
    exists (it_at m pre). split; [exact Hf|]. split; [apply Nat.eqb_neq; exact He|exact Hv].
  - destruct (map_find_absent ms d m name Hm Hne El) as (it & -> & Hi). exists it. split; [reflexivity|exact Hi].
Qed.
Print Assumptions C38_find.

Definition ex_map : jmap := match map_load (toks (JObj ex_obj)) with Ok m => m | _ => mkMap [] [] [] end.

Example C38_nonvacuous :
  is_map ex_obj true ex_map /\
  match map_visit ex_map with Ok ts => Some (map (fun t => dr_bytes (tk_name t)) ts) | _ => None end =
    Some [s2b "a"; s2b "b"; s2b "c"; s2b "d"; []] /\
  map_find ex_map (s2b "d") = Ok (mkIt 12 5 14) /\ map_find ex_map (s2b "e") = Ok (mkIt 14 5 14).
Proof.
  split; [|vm_compute; auto].
  destruct (C37_map_of_object (toks (JObj ex_obj)) None ex_obj) as (m & E & _ & H); [reflexivity|].
  unfold ex_map. rewrite E. exact H.
Qed.

(** Iteration also visits the closing bracket, and find of the empty name returns it. *)
Theorem C38_only_members_refuted :
  let m := match map_load (toks (JObj [(s2b "a", num (s2b "1"))])) with Ok m => m | _ => mkMap [] [] [] end in
  match map_visit m with Ok ts => Some (map tk_value_type ts) | _ => None end = Some [TNumber; TObjectEnd] /\
  map_find m [] = Ok (mkIt 2 1 3).
Proof. vm_compute. auto. Qed.
Print Assumptions C38_only_members_refuted.

(** find on a Map without tokens runs past its end. *)
Theorem C38_empty_map_refuted : map_find (mkMap [] [] []) (s2b "a") = UB.
Proof. vm_compute. reflexivity. Qed.
Print Assumptions C38_empty_map_refuted.

(** ** C39: setValue. *)

(** Replacing or adding a member; a scalar is replaced only if no container follows it. *)
Theorem C39_set_partial : forall ms d m name v out new,
  is_map ms d m -> name <> [] -> replaceable name ms = true ->
  map tok_view new = doc_tokens None (JObj [(name, v)]) ->
  exists m', map_setValue m name out new = Ok m' /\ is_map (set_member name v ms) d m'.
Proof. intros ms d m name v out new. exact (set_ok d m ms name v out new). Qed.
Print Assumptions C39_set_partial.

(** The first call on a Map without tokens. *)
Theorem C39_set_first : forall meta data name v out new, name <> [] ->
  map tok_view new = doc_tokens None (JObj [(name, v)]) ->
  exists m', map_setValue (mkMap [] meta data) name out new = Ok m' /\ is_map [(name, v)] false m'.
Proof. intros meta data name v out new. exact (set_first data meta name v out new). Qed.
Print Assumptions C39_set_first.

(** The new members the calls write. *)
Definition writes (nv : bytes * json) (call : bytes * bytes * list token) : Prop :=
  let '(name, _, new) := call in
  name = fst nv /\ name <> [] /\ map tok_view new = doc_tokens None (JObj [nv]).

(** The value of [name] after the assignments. *)
Definition assigned (name : bytes) (l : list (bytes * json)) (ms : list (bytes * json)) : option json :=
  match lookup name (rev l) with Some v => Some v | None => lookup name ms end.

(** Any sequence of calls: castToType(name) starts reading at the value last set for the name, or
    at the original one if it was not set; the metadata stays that of the tokens. *)
Theorem C39_sets_partial : forall l calls ms d m,
  is_map ms d m -> NoDup (map fst ms) -> Forall2 writes l calls -> all_replaceable l ms = true ->
  exists m', map_sets m calls = Ok m' /\ is_map (set_members l ms) d m' /\
  forall name, name <> [] ->
    match assigned name l ms with
    | Some v => exists i, map_locate m' name = Ok (Some i) /\
        map tok_view (firstn (ntok v) (skipn i (mp_tokens m'))) = doc_tokens (Some name) v
    | None => map_locate m' name = Ok None
    end.
Proof.
  intros l calls ms d m Hm Hu Hl Ha.
  assert (G : exists m', map_sets m calls = Ok m' /\ is_map (set_members l ms) d m' /\
              forall name, lookup name (set_members l ms) = assigned name l ms).
  { revert ms m Hm Hu Ha. induction Hl as [|[k v] [[n out] new] l calls Hc _ IH]; intros ms m Hm Hu Ha.
    - exists m. split; [reflexivity|]. split; [exact Hm|]. intros name. reflexivity.
    - destruct Hc as (-> & Hne & Hnew). cbn [fst] in *. cbn [all_replaceable fst snd] in Ha. apply andb_prop in Ha. destruct Ha as [Ha1 Ha2].
      destruct (set_ok d m ms k v out new Hm Hne Ha1 Hnew) as (m1 & E1 & Hm1).
      destruct (set_member_same k v ms Hu) as [S1 S2].
      destruct (IH _ m1 Hm1 S2 Ha2) as (m' & E2 & Hm' & Hlk).
      exists m'. split; [cbn [map_sets]; rewrite E1; exact E2|]. split; [exact Hm'|].
      intros name. change (set_members ((k, v) :: l) ms) with (set_members l (set_member k v ms)). rewrite Hlk.
      unfold assigned. cbn [rev]. rewrite lookup_app. destruct (lookup name (rev l)); [reflexivity|].
      cbn [lookup fst snd]. destruct (bytes_eqb_spec k name) as [->|Hne2]; [exact S1|].
      apply set_member_other. congruence. }
  destruct G as (m' & E & Hm' & Hlk). exists m'. split; [exact E|]. split; [exact Hm'|].
  intros name Hn. rewrite <- Hlk. exact (locate_ok d m' _ name Hm' Hn).
Qed.
Print Assumptions C39_sets_partial.

Definition call_of (nv : bytes * json) : bytes * bytes * list token := (fst nv, [], toks (JObj [nv])).

Example C39_nonvacuous :
  let l := [(s2b "b", num (s2b "7")); (s2b "e", JArr [num (s2b "8")]); (s2b "c", JObj [(s2b "x", num (s2b "9"))]); (s2b "e", JArr [])] in
  Forall2 writes l (map call_of l) /\ NoDup (map fst ex_obj) /\ all_replaceable l ex_obj = true /\
  set_members l ex_obj = [(s2b "a", num (s2b "1")); (s2b "d", num (s2b "4")); (s2b "b", num (s2b "7"));
                          (s2b "c", JObj [(s2b "x", num (s2b "9"))]); (s2b "e", JArr [])].
Proof.
  cbv zeta. split; [repeat constructor; discriminate|]. split.
  - repeat (constructor; [cbn; intuition discriminate|]). constructor.
  - split; vm_compute; reflexivity.
Qed.

(** Replacing a scalar before a container: the position of the container is not adjusted, and the
    new value is not found any more. *)
Theorem C39_scalar_before_container_refuted :
  let ms := [(s2b "a", num (s2b "1")); (s2b "b", JArr [num (s2b "2")])] in
  exists m m', map_load (toks (JObj ms)) = Ok m /\
    map_setValue m (s2b "a") [] (toks (JObj [(s2b "a", num (s2b "5"))])) = Ok m' /\
    map_locate m' (s2b "a") = Ok None.
Proof. vm_compute. do 2 eexists. do 2 (split; [reflexivity|]). reflexivity. Qed.
Print Assumptions C39_scalar_before_container_refuted.

(** has_data of the object itself is not updated. *)
Theorem C39_has_data_refuted :
  let new := toks (JObj [(s2b "a", num (s2b "5"))]) in
  exists m, map_setValue (mkMap [] [] []) (s2b "a") [] new = Ok m /\
    metaForTokens (mp_tokens m) <> Ok (mp_meta m) /\
    exists x y, nth_error (mp_meta m) 0 = Some x /\ metaForTokens (mp_tokens m) = Ok [y] /\ m_data x = false /\ m_data y = true.
Proof. vm_compute. eexists. split; [reflexivity|]. split; [discriminate|]. do 2 eexists. repeat split. Qed.
Print Assumptions C39_has_data_refuted.

(** With two members of the same name the older value is found after the assignment. *)
Theorem C39_duplicate_names_refuted :
  let ms := [(s2b "a", num (s2b "1")); (s2b "a", num (s2b "2"))] in
  match (let* m := map_load (toks (JObj ms)) in
         let* m := map_setValue m (s2b "a") [] (toks (JObj [(s2b "a", num (s2b "5"))])) in
         let* i := map_locate m (s2b "a") in
         Ok (match i with Some i => match nth_error (mp_tokens m) i with Some t => dr_bytes (tk_value t) | None => [] end | None => [] end))
  with Ok v => Some v | _ => None end = Some (s2b "2").
Proof. vm_compute. reflexivity. Qed.
Print Assumptions C39_duplicate_names_refuted.

(** setValue of the empty name removes the closing bracket. *)
Theorem C39_empty_name_refuted :
  match (let* m := map_load (toks (JObj [(s2b "a", num (s2b "1"))])) in
         let* m := map_setValue m [] [] (toks (JObj [([], num (s2b "5"))])) in Ok (map tk_value_type (mp_tokens m)))
  with Ok v => Some v | _ => None end = Some [TObjectStart; TNumber; TNumber].
Proof. vm_compute. reflexivity. Qed.
Print Assumptions C39_empty_name_refuted.

(** A value whose handler writes nothing (an unassigned optional) adds no token but one to the
    counters. *)
Theorem C39_unassigned_refuted :
  match (let* m := map_load (toks (JObj [(s2b "a", num (s2b "1"))])) in
         let* m := map_setValue m (s2b "b") [] (toks (JObj [])) in
         Ok (length (mp_tokens m), map (fun x => (m_size x, m_children x)) (mp_meta m)))
  with Ok v => Some v | _ => None end = Some (3, [(4, 2)]).
Proof. vm_compute. reflexivity. Qed.
Print Assumptions C39_unassigned_refuted.
