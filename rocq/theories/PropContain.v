(** Properties C49, C50 and C51: vectors, tuples and maps hold what the document says; which JSON
    values are read as booleans, integers and strings. *)
From Verif Require Import Base ScanModel TokModel JsonSpec StrSpec NumSpec TokSpec IntModel EscapeModel MapProofs2 EscapeProofs HandlerModel HandlerSpec HandlerTree HandlerLaws HandlerProps HandlerText HandlerText2 ShowJson ContainSpec PropTok PropNum PropString PropStruct PropArray HandlerTerm.
From Coq Require Import Lia ZArith.

(** ** C49: vectors and tuples. *)

(** Reading an array into a vector succeeds exactly when every element can be read into a new
    element; the vector then holds these, in order, and nothing that was there before. *)
Theorem C49_vector : forall o g t v els text v' r,
  o_nl o = false -> ty_ok t -> shaped (YVec t) v -> Forall (fun j => fits t (Some j)) els ->
  doc_text plain (JArr els) text ->
  (parses o g (YVec t) v text NoError v' r <->
   exists vs', v' = VList vs' /\ reads_each g t (repeat (init t) (length els)) els vs' r).
Proof. intros. apply vec_text; assumption. Qed.
Print Assumptions C49_vector.

(** A tuple: as many elements as members, each read into its member. *)
Theorem C49_tuple : forall o g ts vs els text v' r,
  o_nl o = false -> ty_ok (YTuple ts) -> shaped (YTuple ts) (VList vs) -> fits (YTuple ts) (Some (JArr els)) ->
  doc_text plain (JArr els) text ->
  (parses o g (YTuple ts) (VList vs) text NoError v' r <-> exists vs', v' = VList vs' /\ reads_tuple g ts vs els vs' r).
Proof. intros. apply tuple_text; assumption. Qed.
Print Assumptions C49_tuple.

(** OneOrMany: an array is read as by a vector; a single object is added to what was there. *)
Theorem C49_one_or_many : forall o g t l j text v' r,
  o_nl o = false -> ty_ok t -> shaped (YOneOrMany t) (VList l) -> fits (YOneOrMany t) (Some j) ->
  doc_text plain j text ->
  (parses o g (YOneOrMany t) (VList l) text NoError v' r <->
   match j with
   | JArr els => exists vs', v' = VList vs' /\ reads_each g t (repeat (init t) (length els)) els vs' r
   | _ => exists x, v' = VList (l ++ [x]) /\ read_value g t (init t) j = Ok (NoError, x, r)
   end).
Proof.
  intros o g t l j text v' r Ho Ht Hv Hf Hd.
  destruct j as [s|els|ms].
  - destruct Hd as [[] _].
  - rewrite <- (vec_text o g t (VList l) els text v' r Ht Hv Hf Ho Hd).
    rewrite (parses_sem o g (YOneOrMany t) _ _ _ _ _ _ Ht Hv Hf Ho Hd), (parses_sem o g (YVec t) (VList l) (JArr els) _ _ _ _ Ht Hv Hf Ho Hd). reflexivity.
  - rewrite (parses_sem o g (YOneOrMany t) _ _ _ _ _ _ Ht Hv Hf Ho Hd). cbn [sem]. rewrite lift_iff.
    rewrite (read_value_sem g t (init t) (JObj ms) Ht (init_shaped t) Hf).
    split; intros (x & A & B); exists x; auto.
Qed.
Print Assumptions C49_one_or_many.

Example C49_nonvacuous :
  let d := JArr [JArr [num (s2b "1"); JScalar STrue]; JArr [num (s2b "-2"); JScalar SFalse]] in
  let t := YTuple [YInt (mkIty 32 true); YBool] in
  ty_ok t /\ doc_text plain d (show d) /\
  parses default_opts cfg_default (YVec t) (VList [VList [VInt 9; VBool true]]) (show d) NoError
    (VList [VList [VInt 1; VBool true]; VList [VInt (-2); VBool false]]) ([], []) /\
  parses default_opts cfg_default (YOneOrMany YBool) (VList [VBool true]) (s2b "[false]") NoError (VList [VBool false]) ([], []).
Proof.
  split; [cbn; auto|]. split; [apply show_doc; [reflexivity|exact I]|]. split; apply parses_iff; exists 100; vm_compute; reflexivity.
Qed.

(** ** C50: maps. *)
Lemma map_put_keys k v : forall m, NoDup (map fst m) -> NoDup (map fst (map_put k v m)) /\
  forall k' v', In (k', v') (map_put k v m) <-> if list_eq_dec Byte.byte_eq_dec k' k then v' = v else In (k', v') m.
Proof.
  induction m as [|[k1 v1] m IH]; intros N; cbn [map_put map fst].
  - split; [repeat constructor; auto|]. intros k' v'. destruct (list_eq_dec Byte.byte_eq_dec k' k) as [->|X]; cbn; split; try tauto.
    + intros [[= ->]|[]]. reflexivity.
    + intros ->. auto.
    + intros [[= <- <-]|[]]. congruence.
  - inversion N as [|? ? N1 N2]; subst. specialize (IH N2). destruct IH as [IH1 IH2].
    destruct (bytes_eqb k k1) eqn:E.
    + apply beq_iff in E. subst k1. cbn [map fst]. split; [constructor; assumption|].
      intros k' v'. destruct (list_eq_dec Byte.byte_eq_dec k' k) as [->|X]; cbn [In]; split.
      * intros [[= ->]|H]; [reflexivity|]. destruct N1. apply (in_map fst) in H. exact H.
      * intros ->. auto.
      * intros [[= <- <-]|H]; [congruence|auto].
      * intros [[= <- <-]|H]; [congruence|auto].
    + assert (K : k <> k1) by (intros ->; rewrite (proj2 (beq_iff k1 k1) eq_refl) in E; discriminate E).
      cbn [map fst]. split.
      * constructor; [|exact IH1]. intros H. apply in_map_iff in H. destruct H as ([k2 v2] & <- & H). cbn [fst] in *.
        apply IH2 in H. destruct (list_eq_dec Byte.byte_eq_dec k2 k) as [->|X]; [congruence|]. destruct N1. apply (in_map fst) in H. exact H.
      * intros k' v'. cbn [In]. rewrite IH2. destruct (list_eq_dec Byte.byte_eq_dec k' k) as [->|X]; [|tauto].
        split; [intros [[= -> _]|H]; [congruence|exact H]|auto].
Qed.
Lemma map_puts kvs : forall m, NoDup (map fst m) -> NoDup (map fst (fold_left (fun m kv => map_put (fst kv) (snd kv) m) kvs m)) /\
  forall k v, In (k, v) (fold_left (fun m kv => map_put (fst kv) (snd kv) m) kvs m) <->
    match last_value k kvs with Some x => v = x | None => In (k, v) m end.
Proof.
  induction kvs as [|[k0 v0] kvs IH]; intros m N; cbn [fold_left last_value fst snd]; [split; [exact N|reflexivity]|].
  destruct (map_put_keys k0 v0 m N) as [N1 P]. destruct (IH _ N1) as [N2 Q]. split; [exact N2|].
  intros k v. rewrite Q. destruct (last_value k kvs); [reflexivity|]. rewrite P. destruct (list_eq_dec _ k k0); reflexivity.
Qed.

(** Reading an object into a map succeeds exactly when every member can be read into a new value.
    Each key then has the value of the last member with that name (after decoding its escapes),
    other keys keep what they had, and keys stay distinct. *)
Theorem C50_map : forall o g t m ms text v' r,
  o_nl o = false -> ty_ok t -> shaped (YMap t) (VMap m) -> Forall (fun kv => fits t (Some (snd kv))) ms ->
  doc_text plain (JObj ms) text -> NoDup (map fst m) -> parses o g (YMap t) (VMap m) text NoError v' r ->
  exists vs m', reads_each g t (repeat (init t) (length ms)) (map snd ms) vs r /\
    v' = VMap m' /\ NoDup (map fst m') /\
    forall k v, stored k m' v <->
      match last_value k (combine (map (fun kv => escapes_in (fst kv)) ms) vs) with
      | Some x => v = x
      | None => stored k m v
      end.
Proof.
  intros o g t m ms text v' r Ho Ht Hv Hf Hd N H. apply (map_text o g t m ms text v' r Ht Hv Hf Ho Hd) in H.
  destruct H as (vs & H & ->). destruct (map_puts (combine (map (fun kv => escapes_in (fst kv)) ms) vs) m N) as [A B].
  exists vs. eexists. split; [exact H|]. split; [reflexivity|]. split; [exact A|exact B].
Qed.
Print Assumptions C50_map.

Theorem C50_map_success : forall o g t m ms text vs r,
  o_nl o = false -> ty_ok t -> shaped (YMap t) (VMap m) -> Forall (fun kv => fits t (Some (snd kv))) ms ->
  doc_text plain (JObj ms) text -> reads_each g t (repeat (init t) (length ms)) (map snd ms) vs r ->
  exists v', parses o g (YMap t) (VMap m) text NoError v' r.
Proof.
  intros o g t m ms text vs r Ho Ht Hv Hf Hd H. eexists. apply (map_text o g t m ms text _ r Ht Hv Hf Ho Hd). eauto.
Qed.
Print Assumptions C50_map_success.

Example C50_nonvacuous :
  let d := JObj [(s2b "a", num (s2b "1")); (s2b "b", num (s2b "2")); (s2b "a", num (s2b "3"))] in
  let t := YInt (mkIty 32 true) in
  doc_text plain d (show d) /\ Forall (fun kv : bytes * json => fits t (Some (snd kv))) [(s2b "a", num (s2b "1"))] /\
  parses default_opts cfg_default (YMap t) (VMap [(s2b "z", VInt 0)]) (show d) NoError
    (VMap [(s2b "z", VInt 0); (s2b "a", VInt 3); (s2b "b", VInt 2)]) ([], []).
Proof.
  split; [apply show_doc; [reflexivity|exact I]|]. split; [repeat constructor|]. apply parses_iff; exists 100; vm_compute; reflexivity.
Qed.

(** ** C51: scalars. *)

(** The claim for booleans. *)
Definition C51_bool_claim : Prop := forall g v j b r,
  shaped YBool v -> read_value g YBool v j = Ok (NoError, VBool b, r) -> j = JScalar (if b then STrue else SFalse).

(** Exactly the literals and the strings with the same text are read; all else is an error and
    leaves the object as it was. *)
Theorem C51_bool_partial : forall g v j,
  (forall raw, j = JScalar (SNum raw) -> num_text raw) -> shaped YBool v ->
  (forall b, read_value g YBool v j = Ok (NoError, VBool b, ([], [])) <-> bool_value j b) /\
  ((forall b : bool, ~ bool_value j b) -> read_value g YBool v j = Ok (FailedToParseBoolean, v, ([], []))).
Proof.
  intros g v j Hn Hv. rewrite (read_value_sem g YBool v j I Hv I). cbn [sem]. change r0 with (@nil bytes, @nil bytes).
  assert (K : forall b : bool, bytes_eqb (first_value (Some j)) (if b then [x74; x72; x75; x65] else [x66; x61; x6c; x73; x65]) = true <-> bool_value j b).
  { intros b. rewrite beq_iff. split.
    - destruct j as [[raw|raw| | |]|els|ms]; cbn; intros H; try (destruct b; discriminate H).
      + subst raw. destruct b; constructor.
      + specialize (Hn raw eq_refl). cbn in H. subst raw. destruct b; destruct Hn as (c & tl & E & D & _); injection E as <- _;
          (destruct D as [[D1 D2]|[D|D]]; [cbn in D1, D2; lia|discriminate D|discriminate D]).
      + destruct b; [constructor|discriminate H].
      + destruct b; [discriminate H|constructor].
    - intros []; reflexivity. }
  assert (K1 := K true). assert (K0 := K false). cbn beta iota in K1, K0.
  destruct (bytes_eqb (first_value (Some j)) [x74; x72; x75; x65]) eqn:E1.
  - assert (B := proj1 K1 eq_refl). split; [|intros N; destruct (N true B)].
    intros b. split; [intros [= <-]; exact B|]. intros B'. f_equal. f_equal. f_equal. f_equal. inversion B; subst; inversion B'; reflexivity.
  - destruct (bytes_eqb (first_value (Some j)) [x66; x61; x6c; x73; x65]) eqn:E2.
    + assert (B := proj1 K0 eq_refl). split; [|intros N; destruct (N false B)].
      intros b. split; [intros [= <-]; exact B|]. intros B'. f_equal. f_equal. f_equal. f_equal. inversion B; subst; inversion B'; reflexivity.
    + split; [|reflexivity]. intros b. split; [discriminate|]. intros B. destruct b; [apply K1 in B|apply K0 in B]; discriminate B.
Qed.
Print Assumptions C51_bool_partial.

(** So the strings "true" and "false" are read as booleans. *)
Theorem C51_bool_refuted : ~ C51_bool_claim /\
  parses default_opts cfg_default (YVec YBool) (VList []) (s2b "[""true"",""false""]") NoError (VList [VBool true; VBool false]) ([], []).
Proof.
  split; [|apply parses_iff; exists 100; vm_compute; reflexivity].
  intros H. specialize (H cfg_default (VBool false) (JScalar (SStr (s2b "true"))) true ([], []) I eq_refl). discriminate H.
Qed.
Print Assumptions C51_bool_refuted.

(** Integer literals in an array of any length, at any nesting the array may have: each element is
    the literal's value, limited to the range of the type. *)
Theorem C51_integers_partial : forall g bits signed v text z,
  int_type bits -> int_literal text z -> (Z.abs z < digit_limit bits)%Z -> (signed = true \/ (0 <= z)%Z) ->
  shaped (YInt (mkIty bits signed)) v ->
  read_value g (YInt (mkIty bits signed)) v (JScalar (SNum text)) = Ok (NoError, VInt (clamp bits signed z), ([], [])).
Proof.
  intros g bits signed v text z Ht Hl Hb Hs Hv. rewrite (read_value_sem g (YInt _) v (JScalar (SNum text)) I Hv I). cbn [sem]. cbn [first_value scalar_value].
  rewrite (C22_int_literals_partial bits signed text z Ht Hl Hb Hs). reflexivity.
Qed.
Print Assumptions C51_integers_partial.

(** Strings are read as what they denote. *)
Theorem C51_strings : forall g v l m,
  denotes l m -> shaped YString v ->
  read_value g YString v (JScalar (SStr (string_text l))) = Ok (NoError, VStr m, ([], [])).
Proof.
  intros g v l m D Hv. rewrite (read_value_sem g YString v (JScalar (SStr (string_text l))) I Hv I). cbn [sem]. cbn [first_value scalar_value].
  rewrite (C19_strings_denote l m D). reflexivity.
Qed.
Print Assumptions C51_strings.

(** Put together for a text: an array of such strings into a vector of strings. *)
Theorem C51_string_vector : forall o g v ls ms text,
  o_nl o = false -> shaped (YVec YString) v -> Forall2 denotes ls ms ->
  doc_text plain (JArr (map (fun l => JScalar (SStr (string_text l))) ls)) text ->
  parses o g (YVec YString) v text NoError (VList (map VStr ms)) ([], []).
Proof.
  intros o g v ls ms text Ho Hv D Hd.
  refine (proj2 (vec_text o g YString v (map (fun l => JScalar (SStr (string_text l))) ls) text _ _ I Hv _ Ho Hd) _).
  - apply Forall_map, Forall_forall. intros l _. exact I.
  - exists (map VStr ms). split; [reflexivity|]. clear Hd. rewrite map_length.
    induction D as [|l m ls ms Dl D IH]; cbn [map length repeat]; [constructor|].
    apply (Re_cons g YString _ _ (VStr m) ([], []) _ _ _ ([], [])); [apply C51_strings; [exact Dl|exact I]|exact IH].
Qed.
Print Assumptions C51_string_vector.

Example C51_nonvacuous :
  let d := JArr [JScalar (SStr (s2b "a\u00e9")); JScalar (SStr [])] in
  doc_text plain d (show d) /\
  denotes [IRaw x61; IUnicode x30 x30 x65 x39] [x61; xc3; xa9] /\ string_text [IRaw x61; IUnicode x30 x30 x65 x39] = s2b "a\u00e9" /\
  parses default_opts cfg_default (YVec YString) (VList []) (show d) NoError (VList [VStr [x61; xc3; xa9]; VStr []]) ([], []).
Proof.
  split; [apply show_doc; [reflexivity|exact I]|]. split.
  - apply (De_cons (IRaw x61) _ [x61]); [split; [discriminate|reflexivity]|].
    apply (De_cons (IUnicode x30 x30 x65 x39) [] [xc3; xa9] []); [|constructor].
    repeat split; try (unfold is_hex, is_digit; cbn; lia).
  - split; [reflexivity|]. apply parses_iff; exists 100; vm_compute; reflexivity.
Qed.
