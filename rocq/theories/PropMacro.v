(** C66: the macros that describe a class. *)
From Verif Require Import Base MacroModel MacroSpec MacroProofs.
From Coq Require Import String List Lia.
Import ListNotations.
Local Open Scope list_scope.

Notation expansion s := (s2b s%string).

(** A list of up to 2050 names becomes the list of their infos, in order. *)
Theorem C66_lists : forall k xs, listable xs ->
  expands (call (list_macro k) (names_of xs)) (commas (map (info k) xs)).
Proof.
  intros k [|x xs] [H [H1 H2]]; cbn [List.length] in *; [lia|].
  rewrite call_callp, commas_join. apply (front_expands (ns_make k)).
  destruct k; (apply (make_front _ x xs); [apply usable_all; exact H|lia]).
Qed.

(** JS_OBJ(x1, ..., xn) *)
Theorem C66_obj : forall xs, listable xs ->
  expands (call (expansion "JS_OBJ") (names_of xs))
    (struct_base (tuple []) (tuple (map member_info xs))).
Proof.
  intros [|x xs] [H [H1 H2]]; cbn [List.length] in *; [lia|].
  rewrite call_callp, !tuple_tuple. apply (obj_expands x xs); [apply usable_all; exact H|lia].
Qed.

(** JS_OBJ_SUPER(JS_SUPER(s1, ..., sm), x1, ..., xn) *)
Theorem C66_obj_super : forall ss xs, listable ss -> listable xs ->
  expands (call (expansion "JS_OBJ_SUPER") (call (expansion "JS_SUPER") (names_of ss) :: names_of xs))
    (struct_base (tuple (map super_info ss)) (tuple (map member_info xs))).
Proof.
  intros [|s ss] [|x xs] [Hs [S1 S2]] [H [H1 H2]]; cbn [List.length] in *; try lia.
  rewrite !call_callp, !tuple_tuple.
  apply (obj_super_expands s ss x xs); try (apply usable_all; assumption); lia.
Qed.

(** JS_OBJ_EXT(Type, x1, ..., xn) *)
Theorem C66_obj_ext : forall t xs, usable t -> listable xs ->
  expands (call (expansion "JS_OBJ_EXT") ([name t] :: names_of xs))
    (struct_dummy [name t] (tuple []) (tuple (map member_info xs))).
Proof.
  intros t [|x xs] Ht [H [H1 H2]]; cbn [List.length] in *; [lia|].
  rewrite call_callp, !tuple_tuple.
  apply (obj_ext_expands t x xs); [apply usable_plain; exact Ht|apply usable_all; exact H|lia].
Qed.

(** JS_FUNC_OBJ(f1, ..., fn) *)
Theorem C66_func_obj : forall xs, listable xs ->
  expands (call (expansion "JS_FUNC_OBJ") (names_of xs))
    (struct_functions (tuple []) (tuple (map function_info xs))).
Proof.
  intros [|x xs] [H [H1 H2]]; cbn [List.length] in *; [lia|].
  rewrite call_callp, !tuple_tuple. apply (func_obj_expands x xs); [apply usable_all; exact H|lia].
Qed.

(** JS_OBJECT with members described one by one; here the number is not limited. *)
Theorem C66_object : forall ms, ms <> [] -> (forall m, In m ms -> usable (member_var m)) ->
  expands (call (expansion "JS_OBJECT") (map member_source ms))
    (struct_base (tuple []) (tuple (map member_target ms))).
Proof.
  intros ms Hne H. rewrite call_callp, !tuple_tuple.
  apply object_expands; [exact Hne|]. intros m Hm. apply usable_plain, H, Hm.
Qed.

(** What is expanded has one result. *)
Theorem C66_one_result : forall a b b', expands a b -> expands a b' -> b = b'.
Proof.
  intros a b b' [F HF] [G HG].
  specialize (HF (F + G)%nat ltac:(lia)). specialize (HG (F + G)%nat ltac:(lia)). congruence.
Qed.

(** The limit is exact: of 2051 names the last two are left in a text that does not compile, a call of
    JS_INTERNAL__IF_JS_INTERNAL_EXPAND, which is no macro. *)
Theorem C66_no_limit_refuted : forall k pre x y,
  Forall usable (pre ++ [x; y]) -> List.length pre = 2049%nat ->
  exists tail, expands (call (list_macro k) (names_of (pre ++ [x; y])))
    (commas (map (info k) pre) ++ sym "," :: info k x ++ word "JS_INTERNAL__IF_JS_INTERNAL_EXPAND" :: tail).
Proof.
  intros k pre x y H Hl. eexists. rewrite call_callp, commas_join.
  apply (front_expands (ns_make k)).
  destruct k; apply (over_front _ pre x y); try exact Hl; apply usable_all; exact H.
Qed.

(** ** Cases *)

Example C66_usable : Forall usable [s2b "alpha"; s2b "_b2"; s2b "JS_MEMBERS"; s2b "x"].
Proof. repeat (constructor; [split; vm_compute; reflexivity|]). constructor. Qed.

Example C66_not_usable : ~ usable (s2b "JS_OBJ") /\ ~ usable (s2b "0") /\ ~ usable (s2b "a-b").
Proof. repeat split; intros [H1 H2]; vm_compute in H1, H2; discriminate. Qed.

(** Four members. *)
Example C66_four : exists b, expands (call (s2b "JS_OBJ") (names_of [s2b "alpha"; s2b "_b2"; s2b "JS_MEMBERS"; s2b "x"])) b
  /\ List.length b = 156%nat.
Proof.
  eexists. split; [apply C66_obj; split; [exact C66_usable|cbn; lia]|]. vm_compute; reflexivity.
Qed.

(** The largest lists that work, and the smallest that does not. *)
Example C66_limit_met : listable (repeat (s2b "m") 2050).
Proof.
  split; [|rewrite repeat_length; lia].
  apply Forall_forall. intros x Hx. apply repeat_spec in Hx. subst x. split; vm_compute; reflexivity.
Qed.

Example C66_over_met : Forall usable (repeat (s2b "m") 2049 ++ [s2b "y"; s2b "z"]) /\
  List.length (repeat (s2b "m") 2049) = 2049%nat.
Proof.
  split; [|apply repeat_length]. apply Forall_app. split.
  - apply Forall_forall. intros x Hx. apply repeat_spec in Hx. subst x. split; vm_compute; reflexivity.
  - repeat (constructor; [split; vm_compute; reflexivity|]). constructor.
Qed.

(** The model itself on a text. *)
Example C66_run_members :
  preprocess 200 (lex (s2b "JS_MEMBER(a), JS_MEMBER_ALIASES(b, c, d), JS_SUPER_CLASS(e)")) =
  Ok [word "JS"; sym "::"; word "makeMemberInfo"; sym "("; Str (s2b "a"); sym ","; sym "&"; word "JS_OBJECT_T"; sym "::"; word "a"; sym ")"; sym ",";
      word "JS"; sym "::"; word "makeMemberInfo"; sym "("; Str (s2b "b"); sym ","; sym "&"; word "JS_OBJECT_T"; sym "::"; word "b"; sym ",";
      word "c"; sym ","; word "d"; sym ")"; sym ",";
      word "JS"; sym "::"; word "makeSuperInfo"; sym "<"; word "e"; sym ">"; sym "("; Str (s2b "e"); sym ")"].
Proof. vm_compute; reflexivity. Qed.

Example C66_run_more :
  preprocess 400 (lex (s2b "JS_INTERNAL_HAS_MORE_THAN_ONE_ARGS(a) JS_INTERNAL_HAS_MORE_THAN_ONE_ARGS(a, b, c)")) =
  Ok [Num (s2b "0"); Num (s2b "1")].
Proof. vm_compute; reflexivity. Qed.

(** One scan of the list macro does one name and puts the rest off. *)
Example C66_run_map :
  preprocess 400 (lex (s2b "JS_INTERNAL_MAP_SUPER(m, a, b, c)")) =
  Ok (lex (s2b "m<a>") ++ [sym "("; Str (s2b "a")] ++ lex (s2b "), JS_INTERNAL__MAP_SUPER()(m, b, c)")).
Proof. vm_compute; reflexivity. Qed.

Print Assumptions C66_lists.
Print Assumptions C66_obj.
Print Assumptions C66_obj_super.
Print Assumptions C66_obj_ext.
Print Assumptions C66_func_obj.
Print Assumptions C66_object.
Print Assumptions C66_one_result.
Print Assumptions C66_no_limit_refuted.
