(** Properties C27, C28, C29 and C36: JSON objects read into JS_OBJECT structs.
    [parses o g t v text e v' r]: parseTo into an object [v] of type [t] from [text] returns [e],
    leaves the object [v'] and reports [r] = (missing_members, unassigned_required_members).
    [o_nl o = false]: allowNewLineAsTokenDelimiter is off (see C11).  [fits]: no std::string member
    meets an array or object; see [C47_string_takes_bracket_refuted]. *)
From Verif Require Import Base ScanModel TokModel JsonSpec TokSpec IntModel HandlerModel HandlerSpec HandlerTree HandlerLaws HandlerProps HandlerStruct HandlerText HandlerTerm HandlerText2 ShowJson PropTok.
From Coq Require Import Lia Permutation.

Definition I32 : ity := mkIty 32 true.

(** struct { int a; std::string b (alias bb); Optional<bool> c; struct { int x; } d; } *)
Definition ex_inner : ty := YStruct [1] [([], [s2b "x"], YInt I32)].
Definition ex_fields : list (bytes * list bytes * ty) :=
  [([], [s2b "a"], YInt I32); ([], [s2b "b"; s2b "bb"], YString); ([], [s2b "c"], YOptional YBool); ([], [s2b "d"], ex_inner)].
Definition ex_struct : ty := YStruct [4] ex_fields.
Definition num (s : bytes) : json := JScalar (SNum s).
Definition str (s : bytes) : json := JScalar (SStr s).
Definition ex_a : bytes * json := (s2b "a", num (s2b "5")).
Definition ex_b : bytes * json := (s2b "bb", str (s2b "hi")).
Definition ex_d : bytes * json := (s2b "d", JObj [(s2b "x", num (s2b "7")); (s2b "y", JScalar SNull)]).
Definition ex_u : bytes * json := (s2b "zz", JObj [(s2b "a", JArr [num (s2b "1"); JArr []])]).

(** ** C27: the order of the members does not matter. *)

(** Success in one order is success in every other, with the same object and the same reports up
    to order, provided no member of the struct is named twice. *)
Theorem C27_member_order_partial : forall o g b fs vs ms ms' text text' v' r,
  o_nl o = false -> ty_ok (YStruct b fs) -> shaped (YStruct b fs) (VList vs) ->
  fits (YStruct b fs) (Some (JObj ms)) -> NoDup (denoted b fs ms) -> Permutation ms ms' ->
  doc_text plain (JObj ms) text -> doc_text plain (JObj ms') text' ->
  parses o g (YStruct b fs) (VList vs) text NoError v' r ->
  exists r', parses o g (YStruct b fs) (VList vs) text' NoError v' r' /\
    Permutation (fst r) (fst r') /\ Permutation (snd r) (snd r').
Proof.
  intros o g b fs vs ms ms' text text' v' r Ho Ht Hv Hf N P D D' H.
  assert (Hf' : fits (YStruct b fs) (Some (JObj ms'))) by (cbn in *; rewrite <- P; exact Hf).
  apply (parses_sem o g _ _ (JObj ms)) in H; try assumption.
  destruct (struct_perm g b fs ms ms' vs v' r P N H) as (r' & A & B). exists r'. split; [|exact B].
  apply (parses_sem o g _ _ (JObj ms')); assumption.
Qed.
Print Assumptions C27_member_order_partial.

(** Likewise failure in one order is failure in every other. *)
Theorem C27_failure_in_any_order_partial : forall o g b fs vs ms ms' text text' e v' r,
  o_nl o = false -> ty_ok (YStruct b fs) -> shaped (YStruct b fs) (VList vs) ->
  fits (YStruct b fs) (Some (JObj ms)) -> NoDup (denoted b fs ms) -> Permutation ms ms' ->
  doc_text plain (JObj ms) text -> doc_text plain (JObj ms') text' ->
  parses o g (YStruct b fs) (VList vs) text e v' r -> e <> NoError ->
  exists e' v'' r', parses o g (YStruct b fs) (VList vs) text' e' v'' r' /\ e' <> NoError.
Proof.
  intros o g b fs vs ms ms' text text' e v' r Ho Ht Hv Hf N P D D' H He.
  assert (Hf' : fits (YStruct b fs) (Some (JObj ms'))) by (cbn in *; rewrite <- P; exact Hf).
  destruct (parses_total o g _ _ _ _ Ht Hv Hf' Ho D') as (e' & v'' & r' & H'). exists e', v'', r'. split; [exact H'|]. intros ->.
  assert (N' : NoDup (denoted b fs ms')) by (exact (Permutation_NoDup (Permutation_flat_map _ P) N)).
  destruct (C27_member_order_partial o g b fs vs ms' ms text' text v'' r' Ho Ht Hv Hf' N' (Permutation_sym P) D' D H') as (r2 & A & _).
  destruct (parses_fun _ _ _ _ _ _ _ _ _ _ _ H A) as (-> & _). congruence.
Qed.
Print Assumptions C27_failure_in_any_order_partial.

Ltac fits_tac := cbn; repeat (constructor; cbn; auto).

Example C27_nonvacuous :
  let ms := [ex_a; ex_u; ex_d; ex_b] in let ms' := [ex_b; ex_d; ex_u; ex_a] in
  let v' := VList [VInt 5; VStr (s2b "hi"); VBool false; VList [VInt 7]] in
  ty_ok ex_struct /\ shaped ex_struct (init ex_struct) /\ fits ex_struct (Some (JObj ms)) /\ NoDup (denoted [4] ex_fields ms) /\
  Permutation ms ms' /\ doc_text plain (JObj ms) (show (JObj ms)) /\ doc_text plain (JObj ms') (show (JObj ms')) /\
  parses default_opts cfg_default ex_struct (init ex_struct) (show (JObj ms)) NoError v' ([s2b "zz"; s2b "y"], []) /\
  parses default_opts cfg_default ex_struct (init ex_struct) (show (JObj ms')) NoError v' ([s2b "y"; s2b "zz"], []).
Proof.
  intros ms ms' v'. split; [fits_tac|]. split; [apply init_shaped|]. split; [fits_tac|].
  split; [vm_compute; repeat constructor; cbn; intuition discriminate|]. split.
  { exact (Permutation_rev ms). }
  split; [apply show_doc; [reflexivity|exact I]|]. split; [apply show_doc; [reflexivity|exact I]|].
  split; apply parses_iff; exists 100; vm_compute; reflexivity.
Qed.

(** Which error is returned does depend on the order. *)
Theorem C27_error_depends_on_order_refuted :
  let t := YStruct [2] [([], [s2b "a"], YInt I32); ([], [s2b "b"], YBool)] in
  exists ms ms', Permutation ms ms' /\ NoDup (map fst ms) /\ doc_text plain (JObj ms) (show (JObj ms)) /\ doc_text plain (JObj ms') (show (JObj ms')) /\
  (exists v r, parses default_opts cfg_default t (init t) (show (JObj ms)) FailedToParseInt v r) /\
  (exists v r, parses default_opts cfg_default t (init t) (show (JObj ms')) FailedToParseBoolean v r).
Proof.
  exists [(s2b "a", str (s2b "x")); (s2b "b", str (s2b "x"))], [(s2b "b", str (s2b "x")); (s2b "a", str (s2b "x"))].
  split; [constructor|]. split; [cbn; repeat constructor; cbn; intuition discriminate|].
  split; [apply show_doc; [reflexivity|exact I]|]. split; [apply show_doc; [reflexivity|exact I]|]. split.
  - exists (VList [VInt 0; VBool false]), ([], []). apply parses_iff. exists 50. vm_compute. reflexivity.
  - exists (VList [VInt 0; VBool false]), ([], []). apply parses_iff. exists 50. vm_compute. reflexivity.
Qed.
Print Assumptions C27_error_depends_on_order_refuted.

(** With a name and an alias of the same member, the names in the object are distinct, but the last
    one decides. *)
Theorem C27_alias_and_name_refuted :
  exists ms ms' v v', Permutation ms ms' /\ NoDup (map fst ms) /\ doc_text plain (JObj ms) (show (JObj ms)) /\ doc_text plain (JObj ms') (show (JObj ms')) /\
  parses default_opts cfg_default ex_struct (init ex_struct) (show (JObj ms)) NoError v ([], []) /\
  parses default_opts cfg_default ex_struct (init ex_struct) (show (JObj ms')) NoError v' ([], []) /\ v <> v'.
Proof.
  set (d := (s2b "d", JObj [(s2b "x", num (s2b "7"))])).
  exists [ex_a; (s2b "b", str (s2b "1")); (s2b "bb", str (s2b "2")); d], [ex_a; (s2b "bb", str (s2b "2")); (s2b "b", str (s2b "1")); d].
  exists (VList [VInt 5; VStr (s2b "2"); VBool false; VList [VInt 7]]), (VList [VInt 5; VStr (s2b "1"); VBool false; VList [VInt 7]]).
  split; [constructor; constructor|]. split; [cbn; repeat constructor; cbn; intuition discriminate|].
  split; [apply show_doc; [reflexivity|exact I]|]. split; [apply show_doc; [reflexivity|exact I]|].
  split; [apply parses_iff; exists 100; vm_compute; reflexivity|]. split; [apply parses_iff; exists 100; vm_compute; reflexivity|]. discriminate.
Qed.
Print Assumptions C27_alias_and_name_refuted.

(** ** C28: unknown members are skipped without effect. *)

(** A member with an unknown name, of any value, put anywhere into any object changes neither the
    error nor the object nor the unassigned members; its name is added to the missing ones at its
    place (always on success; on failure if it is reached). *)
Theorem C28_unknown_member_no_effect_partial : forall o g b fs vs k j ms1 ms2 text text' e v' r,
  o_nl o = false -> ty_ok (YStruct b fs) -> shaped (YStruct b fs) (VList vs) ->
  fits (YStruct b fs) (Some (JObj (ms1 ++ ms2))) -> pc_allow_missing g = true -> member_named b fs k = None ->
  doc_text plain (JObj (ms1 ++ ms2)) text -> doc_text plain (JObj (ms1 ++ (k, j) :: ms2)) text' ->
  parses o g (YStruct b fs) (VList vs) text e v' r ->
  exists m1 m2 n, fst r = m1 ++ m2 /\ parses o g (YStruct b fs) (VList vs) text' e v' (m1 ++ n ++ m2, snd r) /\
    (n = [k] \/ n = []) /\ (e = NoError -> n = if pc_track g then [k] else []).
Proof.
  intros o g b fs vs k j ms1 ms2 text text' e v' r Ho Ht Hv Hf Ha Hk D D' H.
  assert (Hf' : fits (YStruct b fs) (Some (JObj (ms1 ++ (k, j) :: ms2)))).
  { cbn in *. apply Forall_app in Hf. destruct Hf as [Hf1 Hf2]. apply Forall_app. split; [exact Hf1|]. constructor; [|exact Hf2].
    unfold member_named in Hk. cbn [fst]. rewrite Hk. exact I. }
  apply (parses_sem o g _ _ (JObj (ms1 ++ ms2))) in H; try assumption.
  destruct (struct_unknown g b fs k j ms1 ms2 vs e v' r Ha Hk H) as (m1 & m2 & n & A & B & C). exists m1, m2, n. split; [exact A|]. split; [|exact C].
  apply (parses_sem o g _ _ (JObj (ms1 ++ (k, j) :: ms2))); assumption.
Qed.
Print Assumptions C28_unknown_member_no_effect_partial.

(** The missing members reported are exactly the unknown names, in order (when no member is itself a
    struct, which adds its own unknown names; the general rule is [C29_struct_success_partial]). *)
Theorem C28_missing_members_exact_partial : forall o g b fs vs ms text v' r,
  o_nl o = false -> ty_ok (YStruct b fs) -> shaped (YStruct b fs) (VList vs) ->
  fits (YStruct b fs) (Some (JObj ms)) -> forallb (fun f => struct_free (snd f)) fs = true -> pc_track g = true ->
  doc_text plain (JObj ms) text -> parses o g (YStruct b fs) (VList vs) text NoError v' r ->
  fst r = unknown b fs ms.
Proof.
  intros o g b fs vs ms text v' r Ho Ht Hv Hf Hsf Htr D H. apply (parses_sem o g _ _ (JObj ms)) in H; try assumption.
  rewrite (struct_flat_reports g b fs _ _ _ _ Hsf H), Htr. reflexivity.
Qed.
Print Assumptions C28_missing_members_exact_partial.

(** Not reached members: those that no name of the object denotes keep their value, in success and
    in failure. *)
Theorem C28_other_members_untouched_partial : forall o g b fs vs ms text e v' r,
  o_nl o = false -> ty_ok (YStruct b fs) -> shaped (YStruct b fs) (VList vs) ->
  fits (YStruct b fs) (Some (JObj ms)) -> doc_text plain (JObj ms) text ->
  parses o g (YStruct b fs) (VList vs) text e v' r ->
  exists vs', v' = VList vs' /\ length vs' = length vs /\ forall i, ~ In i (denoted b fs ms) -> nth_error vs' i = nth_error vs i.
Proof.
  intros o g b fs vs ms text e v' r Ho Ht Hv Hf D H. assert (Hs := text_shape o g _ _ _ _ _ _ _ Ht Hv Hf Ho D H).
  apply (parses_sem o g _ _ (JObj ms)) in H; try assumption. destruct (struct_untouched g b fs _ _ _ _ _ H) as (vs' & -> & A).
  exists vs'. split; [reflexivity|]. split; [|exact A]. cbn in Hs, Hv. apply all2_length in Hs, Hv. congruence.
Qed.
Print Assumptions C28_other_members_untouched_partial.

Example C28_nonvacuous :
  let ms1 := [ex_a; ex_b] in let ms2 := [ex_d] in
  fits ex_struct (Some (JObj (ms1 ++ ms2))) /\ member_named [4] ex_fields (fst ex_u) = None /\
  doc_text plain (JObj (ms1 ++ ms2)) (show (JObj (ms1 ++ ms2))) /\ doc_text plain (JObj (ms1 ++ ex_u :: ms2)) (show (JObj (ms1 ++ ex_u :: ms2))) /\
  parses default_opts cfg_default ex_struct (init ex_struct) (show (JObj (ms1 ++ ms2))) NoError
    (VList [VInt 5; VStr (s2b "hi"); VBool false; VList [VInt 7]]) ([s2b "y"], []) /\
  forallb (fun f => struct_free (snd f)) (firstn 3 ex_fields) = true /\ unknown [3] (firstn 3 ex_fields) (ms1 ++ ex_u :: ms2) = [s2b "zz"; s2b "d"].
Proof.
  split; [fits_tac|]. split; [reflexivity|]. split; [apply show_doc; [reflexivity|exact I]|]. split; [apply show_doc; [reflexivity|exact I]|].
  split; [apply parses_iff; exists 100; vm_compute; reflexivity|]. split; reflexivity.
Qed.

(** ** C29: absent required members are reported exactly. *)

(** Success of a struct, completely: the members of the object are read one after the other, each
    into the member it denotes; the reports are those of the members, the unknown names and, last,
    the absent required members; and these are absent only if that is allowed. *)
Theorem C29_struct_success_partial : forall o g b fs vs ms text v' r,
  o_nl o = false -> ty_ok (YStruct b fs) -> shaped (YStruct b fs) (VList vs) ->
  fits (YStruct b fs) (Some (JObj ms)) -> doc_text plain (JObj ms) text ->
  (parses o g (YStruct b fs) (VList vs) text NoError v' r <->
   exists vs' d, v' = VList vs' /\ members_read g b fs ms vs vs' d /\
     r = (fst d, snd d ++ if pc_track g then absent_required b fs ms else []) /\
     (absent_required b fs ms = [] \/ pc_allow_unassigned g = true)).
Proof. intros. apply struct_text; assumption. Qed.
Print Assumptions C29_struct_success_partial.

(** If they are not allowed, the result is UnassignedRequiredMember. *)
Theorem C29_absent_is_error_partial : forall o g b fs vs vs' ms text d,
  o_nl o = false -> ty_ok (YStruct b fs) -> shaped (YStruct b fs) (VList vs) ->
  fits (YStruct b fs) (Some (JObj ms)) -> doc_text plain (JObj ms) text ->
  members_read g b fs ms vs vs' d -> absent_required b fs ms <> [] -> pc_allow_unassigned g = false ->
  parses o g (YStruct b fs) (VList vs) text UnassignedRequiredMember (VList vs')
    (fst d, snd d ++ if pc_track g then absent_required b fs ms else []).
Proof. intros. apply struct_text_unassigned; assumption. Qed.
Print Assumptions C29_absent_is_error_partial.

(** What [absent_required] contains: the non-optional members none of whose names and aliases
    occurs in the object. *)
Theorem C29_absent_required_exact : forall b fs ms x,
  list_sum b = length fs -> names_distinct fs ->
  (In x (absent_required b fs ms) <->
   exists i f, nth_error fs i = Some f /\ is_optional (snd f) = false /\ x = display_name f /\
     forall k j, In (k, j) ms -> ~ In k (snd (fst f))).
Proof. exact absent_required_spec. Qed.
Print Assumptions C29_absent_required_exact.

(** Without members that are structs the reported names are exactly those. *)
Theorem C29_reported_exactly_partial : forall o g b fs vs ms text v' r,
  o_nl o = false -> ty_ok (YStruct b fs) -> shaped (YStruct b fs) (VList vs) ->
  fits (YStruct b fs) (Some (JObj ms)) -> forallb (fun f => struct_free (snd f)) fs = true -> pc_track g = true ->
  doc_text plain (JObj ms) text -> parses o g (YStruct b fs) (VList vs) text NoError v' r ->
  snd r = absent_required b fs ms.
Proof.
  intros o g b fs vs ms text v' r Ho Ht Hv Hf Hsf Htr D H. apply (parses_sem o g _ _ (JObj ms)) in H; try assumption.
  rewrite (struct_flat_reports g b fs _ _ _ _ Hsf H), Htr. reflexivity.
Qed.
Print Assumptions C29_reported_exactly_partial.

Example C29_nonvacuous :
  let ms := [ex_b; ex_u; (s2b "d", JObj [])] in
  let v' := VList [VInt 0; VStr (s2b "hi"); VBool false; VList [VInt 0]] in
  names_distinct ex_fields /\ fits ex_struct (Some (JObj ms)) /\ absent_required [4] ex_fields ms = [s2b "a"] /\
  doc_text plain (JObj ms) (show (JObj ms)) /\
  parses default_opts cfg_default ex_struct (init ex_struct) (show (JObj ms)) NoError v' ([s2b "zz"], [s2b "x"; s2b "a"]) /\
  let ms := [ex_b; ex_u; (s2b "d", JObj [(s2b "x", num (s2b "0"))])] in
  members_read (mkCfg true false true) [4] ex_fields ms (vals_of (init ex_struct)) (vals_of v') ([s2b "zz"], []) /\
  parses default_opts (mkCfg true false true) ex_struct (init ex_struct) (show (JObj ms)) UnassignedRequiredMember v' ([s2b "zz"], [s2b "a"]).
Proof.
  intros ms v'. split; [vm_compute; repeat constructor; cbn; intuition discriminate|]. split; [fits_tac|]. split; [reflexivity|].
  split; [apply show_doc; [reflexivity|exact I]|]. split; [apply parses_iff; exists 100; vm_compute; reflexivity|]. intros ms2. split.
  - change ([s2b "zz"], []) with (rapp ([], []) (rapp (if pc_track (mkCfg true false true) then [s2b "zz"] else [], []) (rapp ([], []) (([], []) : report)))).
    eapply Mr_known; [reflexivity..|]. apply Mr_unknown; [reflexivity..|]. eapply Mr_known; [reflexivity..|]. constructor.
  - apply parses_iff; exists 100; vm_compute; reflexivity.
Qed.

(** ** C36: optional and nullable members. *)

(** An absent optional member is no error and not reported, and keeps its value ([C28_other_members_untouched_partial]). *)
Theorem C36_absent_optional_not_reported : forall b fs ms x,
  list_sum b = length fs -> names_distinct fs -> In x (absent_required b fs ms) ->
  exists f, In f fs /\ is_optional (snd f) = false /\ x = display_name f.
Proof.
  intros b fs ms x Hb Hd H. apply (absent_required_spec b fs ms x Hb Hd) in H. destruct H as (i & f & A & B & C & _).
  exists f. split; [exact (nth_error_In _ _ A)|auto].
Qed.
Print Assumptions C36_absent_optional_not_reported.

(** null clears NullableChecked and the smart pointers. *)
Theorem C36_null_clears_partial : forall g t v,
  (forall f, read_value g (YNullableChecked t) (VFlag f v) (JScalar SNull) = Ok (NoError, VFlag true v, ([], []))) /\
  (forall u o, read_value g (YPtr u t) (VOpt o) (JScalar SNull) = Ok (NoError, VOpt None, ([], []))).
Proof. intros g t v. split; reflexivity. Qed.
Print Assumptions C36_null_clears_partial.

(** A value after null sets them again: the result is that of the value itself. *)
Theorem C36_value_sets_partial : forall g t v o u j e v' r,
  ty_ok t -> shaped t v -> fits t (Some j) -> j <> JScalar SNull ->
  read_value g t v j = Ok (e, v', r) ->
  (forall f, read_value g (YNullableChecked t) (VFlag f v) j = Ok (e, VFlag false v', r)) /\
  (o = Some v \/ o = None /\ v = init t -> read_value g (YPtr u t) (VOpt o) j = Ok (e, VOpt (Some v'), r)).
Proof.
  intros g t v o u j e v' r Ht Hv Hf Hj H. rewrite read_value_sem in H by assumption.
  assert (Hn : type_eqb (first_type (Some j)) TNull = false).
  { destruct j as [[s|s| | |]|els|ms]; try reflexivity. congruence. }
  split.
  - intros f. rewrite read_value_sem by assumption. cbn [sem]. rewrite Hn, H. reflexivity.
  - intros Ho. rewrite read_value_sem; [|assumption| |assumption].
    + cbn [sem]. rewrite Hn. destruct Ho as [->|[-> ->]]; rewrite H; reflexivity.
    + destruct Ho as [->|[-> ->]]; cbn; auto.
Qed.
Print Assumptions C36_value_sets_partial.

Definition ex_ptr : ty := YStruct [2] [([], [s2b "p"], YPtr true (YVec (YInt I32))); ([], [s2b "n"], YNullableChecked (YInt I32))].
Example C36_nonvacuous :
  let v0 := VList [VOpt (Some (VList [VInt 1])); VFlag false (VInt 4)] in
  let ms := [(s2b "p", JScalar SNull); (s2b "n", JScalar SNull)] in
  shaped ex_ptr v0 /\ parses default_opts cfg_default ex_ptr v0 (show (JObj ms)) NoError (VList [VOpt None; VFlag true (VInt 4)]) ([], []) /\
  parses default_opts cfg_default ex_ptr v0 (show (JObj [(s2b "n", num (s2b "9"))])) NoError (VList [VOpt (Some (VList [VInt 1])); VFlag false (VInt 9)]) ([], []).
Proof.
  split; [cbn; auto|]. split; apply parses_iff; exists 100; vm_compute; reflexivity.
Qed.

(** null does not clear a Nullable, and is an error for std::optional<int>; it is the text null for
    std::optional<std::string>. *)
Theorem C36_null_refuted :
  let t := YStruct [3] [([], [s2b "n"], YNullable (YInt I32)); ([], [s2b "o"], YStdOptional (YInt I32)); ([], [s2b "s"], YStdOptional YString)] in
  let v := VList [VInt 4; VOpt (Some (VInt 5)); VOpt (Some (VStr (s2b "x")))] in
  let ms := fun k => [(k, JScalar SNull)] in
  parses default_opts cfg_default t v (show (JObj (ms (s2b "n")))) NoError v ([], []) /\
  parses default_opts cfg_default t v (show (JObj (ms (s2b "o")))) FailedToParseInt (VList [VInt 4; VOpt (Some (VInt 0)); VOpt (Some (VStr (s2b "x")))]) ([], []) /\
  parses default_opts cfg_default t v (show (JObj (ms (s2b "s")))) NoError (VList [VInt 4; VOpt (Some (VInt 5)); VOpt (Some (VStr (s2b "null")))]) ([], [s2b "n"]).
Proof.
  split; [|split]; apply parses_iff; exists 100; vm_compute; reflexivity.
Qed.
Print Assumptions C36_null_refuted.
