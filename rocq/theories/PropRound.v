(** Properties C26 and C35, and the writing parts of C33, C36 and C48: serializeStruct followed by
    parseTo.  [render i t v] is the JSON value of an object, [storable i t v] says that [v] is an
    object of type [t] that its JSON value determines (both in RoundSpec.v, without the handlers). *)
From Verif Require Import Base ScanModel TokModel JsonSpec TokSpec StrSpec NumSpec EscapeModel IntModel SerModel SerSpec SerDoc HandlerModel HandlerSpec HandlerTree HandlerLaws HandlerProps HandlerStruct HandlerText HandlerTerm HandlerText2 WriteModel RoundSpec RoundProofs ShowJson PropTok PropStruct.
From Coq Require Import Lia.

(** ** C26 *)

(** serializeStruct gives a text of the JSON value, which reads back as an equal object without
    reports.  The full claim would be without [storable]: see the refutations below.  Any style, any
    tokenizer option but allowNewLineAsTokenDelimiter, any setting of ParseContext.
    Scalars are not documents of this tokenizer.
    [so_ascii]: see [C26_unquoted_names_refuted]; nesting: see C16. *)
Theorem C26_round_trip_partial : forall i so o g t v j,
  ty_ok t -> storable i t v -> render i t v = Some j -> is_container j ->
  options_made so -> so_ascii so = true -> (so_depth so + N.of_nat (nesting j) <= 255)%N -> o_nl o = false ->
  exists text, serializeStruct i so t v = Ok text /\ doc_text plain j text /\
    parses o g t (init t) text NoError v ([], []).
Proof. exact round_trip. Qed.
Print Assumptions C26_round_trip_partial.

(** A struct with all kinds of members. *)
Definition rt_type : ty := YStruct [2; 12]
  [ ([], [s2b "i"], YInt (mkIty 64 true)); ([], [s2b "s"; s2b "alias"], YString);
    (s2b "Base", [s2b "v"], YVec (YTuple [YBool; YNullableChecked (YInt I32)]));
    (s2b "Base", [s2b "m"], YMap (YStruct [1] [([], [s2b "x"], YPtr true YString)]));
    (s2b "Base", [s2b "o"], YOptionalChecked YString);
    (s2b "Base", [s2b "p"], YStdOptional (YVec YString));
    (s2b "Base", [s2b "e"], YEnum [s2b "red"; s2b "green"] I32);
    (s2b "Base", [s2b "f"], YFixed 2 (YOneOrMany YBool));
    (s2b "Base", [s2b "c"], YVar 3 (YInt I32));
    (s2b "Base", [s2b "t"], YSet YString);
    (s2b "Base", [s2b "q"], YSilent YString);
    (s2b "Base", [s2b "d"], YVec (YFp false));
    (s2b "Base", [s2b "g"], YOptional (YFp true));
    (s2b "Base", [s2b "w"], YVec (YTime true 1000)) ].
Definition rt_value : val := VList
  [ VInt (-9223372036854775808); VStr (s2b "a""b\c");
    VList [VList [VBool true; VFlag true (VInt 0)]; VList [VBool false; VFlag false (VInt 7)]];
    VMap [(s2b "k1", VList [VOpt None]); (s2b "k2", VList [VOpt (Some (VStr []))])];
    VFlag false (VStr []); VOpt (Some (VList [VStr (s2b "z")])); VInt 1;
    VList [VList [VBool true]; VList [VBool false; VBool true]];
    VVar 2 [VInt 4; VInt 5; VInt 0]; VList [VStr (s2b "b"); VStr (s2b "a")]; VStr [];
    VList [VFp false 4609434218613702656; VFp false 9223372036854775808; VFp false 9218868437227405311]; VFp true 1036831949;
    VList [VInt 1763300000123456789; VInt 0; VInt (-1)] ].

Ltac bodyT := apply (str_bodyb_ok 100); [cbn; lia|reflexivity].
Ltac nodupT := repeat (constructor; [cbn; intuition discriminate|]); constructor.
Ltac storeT :=
  repeat match goal with
  | |- _ /\ _ => split
  | |- True => exact I
  | |- Forall _ [] => constructor
  | |- Forall _ (_ :: _) => constructor
  | |- NoDup _ => nodupT
  | |- all_different _ => unfold all_different; cbn [map plain_zero fp_zero]
  | |- storable_fp ?s ?b => exists (N.testbit b (if s then 31 else 63)%N), (N.modulo b (if s then 2 ^ 31 else 2 ^ 63)%N)
  | |- (_ < _)%N => vm_compute; reflexivity
  | |- _ = _ -> _ <> _ => vm_compute; discriminate
  | |- _ = true -> _ => intros _
  | |- names_distinct _ => unfold names_distinct; cbn [flat_map fst snd app]
  | |- str_body _ => bodyT
  | |- int_type _ => unfold int_type; cbn; tauto
  | |- (_ <= _)%Z => vm_compute; discriminate
  | |- (_ < _)%Z => vm_compute; reflexivity
  | |- _ <> _ => vm_compute; discriminate
  | |- ~ is_null _ => vm_compute; discriminate
  | |- ~ is_array _ => vm_compute; intros [? H]; discriminate H
  | |- _ < _ \/ _ => left; vm_compute; lia
  | |- _ -> _ /\ _ => vm_compute; first [discriminate | intros _; split; reflexivity]
  | |- _ = _ => vm_compute; reflexivity
  | |- _ => progress (cbn [storable rt_type rt_value fst snd hd firstn skipn length])
  end.

Example C26_nonvacuous :
  ty_ok rt_type /\ storable Sse2 rt_type rt_value /\
  (exists j, render Sse2 rt_type rt_value = Some j /\ is_container j /\ nesting j = 3) /\
  serializeStruct Sse2 (so_make false) rt_type rt_value =
    Ok (s2b "{""i"":-9223372036854775808,""s"":""a\""b\\c"",""v"":[[true,null],[false,7]],""m"":{""k1"":{""x"":null},""k2"":{""x"":""""}},""p"":[""z""],""e"":""green"",""f"":[true,[false,true]],""c"":[4,5],""t"":[""b"",""a""],""d"":[1.5,-0.0,1.7976931348623157e308],""g"":0.1,""w"":[1763300000123456789,0,18446744073709551615]}").
Proof.
  split; [cbn; auto 20|]. split; [unfold rt_type, rt_value, names_distinct; storeT|]. split.
  - eexists. split; [vm_compute; reflexivity|]. split; [exact I|reflexivity].
  - vm_compute. reflexivity.
Qed.

(** An unassigned std::optional in a vector disappears: {nullopt, 5} reads back as {5}. *)
Theorem C26_optional_element_refuted :
  let t := YVec (YStdOptional (YInt I32)) in
  let v := VList [VOpt None; VOpt (Some (VInt 5))] in
  shaped t v /\ serializeStruct Sse2 (so_make false) t v = Ok (s2b "[5]") /\
  parses (mkOpts Sse2 false false false false) cfg_default t (init t) (s2b "[5]") NoError (VList [VOpt (Some (VInt 5))]) ([], []).
Proof.
  split; [cbn; repeat constructor|]. split; [vm_compute; reflexivity|]. apply parses_iff. exists 100. vm_compute. reflexivity.
Qed.
Print Assumptions C26_optional_element_refuted.

(** In a tuple it makes the text unreadable. *)
Theorem C26_optional_in_tuple_refuted :
  let t := YTuple [YStdOptional (YInt I32); YInt I32] in
  let v := VList [VOpt None; VInt 5] in
  shaped t v /\ serializeStruct Sse2 (so_make false) t v = Ok (s2b "[5]") /\
  exists v', parses (mkOpts Sse2 false false false false) cfg_default t (init t) (s2b "[5]") FailedToParseInt v' ([], []).
Proof.
  split; [cbn; repeat constructor|]. split; [vm_compute; reflexivity|]. eexists. apply parses_iff. exists 100. vm_compute. reflexivity.
Qed.
Print Assumptions C26_optional_in_tuple_refuted.

(** An empty OneOrMany member is not written, but it is required when reading. *)
Theorem C26_empty_one_or_many_refuted :
  let t := YStruct [1] [([], [s2b "a"], YOneOrMany (YInt I32))] in
  let v := VList [VList []] in
  shaped t v /\ serializeStruct Sse2 (so_make false) t v = Ok (s2b "{}") /\
  parses (mkOpts Sse2 false false false false) cfg_default t (init t) (s2b "{}") NoError v ([], [s2b "a"]) /\
  parses (mkOpts Sse2 false false false false) (mkCfg true false true) t (init t) (s2b "{}") UnassignedRequiredMember v ([], [s2b "a"]).
Proof.
  split; [cbn; repeat constructor|]. split; [vm_compute; reflexivity|].
  split; apply parses_iff; exists 100; vm_compute; reflexivity.
Qed.
Print Assumptions C26_empty_one_or_many_refuted.

(** An infinite double is written as null, and null is not a double. *)
Theorem C26_infinity_refuted :
  let t := YVec (YFp false) in
  let v := VList [VFp false 9218868437227405312] in
  shaped t v /\ serializeStruct Sse2 (so_make false) t v = Ok (s2b "[null]") /\
  exists v', parses (mkOpts Sse2 false false false false) cfg_default t (init t) (s2b "[null]") FailedToParseDouble v' ([], []).
Proof.
  split; [cbn; repeat constructor|]. split; [vm_compute; reflexivity|]. eexists. apply parses_iff. exists 100. vm_compute. reflexivity.
Qed.
Print Assumptions C26_infinity_refuted.

(** Seven nanoseconds after the epoch become seven seconds. *)
Theorem C26_instant_refuted :
  let t := YVec (YTime true 1000) in
  let v := VList [VInt 7] in
  shaped t v /\ serializeStruct Sse2 (so_make false) t v = Ok (s2b "[7]") /\
  parses (mkOpts Sse2 false false false false) cfg_default t (init t) (s2b "[7]") NoError (VList [VInt 7000000000]) ([], []).
Proof.
  split; [cbn; repeat constructor|]. split; [vm_compute; reflexivity|]. apply parses_iff. exists 100. vm_compute. reflexivity.
Qed.
Print Assumptions C26_instant_refuted.

(** With setConvertAsciiToString(false) the names of members are not quoted. *)
Theorem C26_unquoted_names_refuted :
  let t := YStruct [1] [([], [s2b "a"], YBool)] in
  let v := VList [VBool true] in
  storable Sse2 t v /\ serializeStruct Sse2 (setConvertAsciiToString false (so_make false)) t v = Ok (s2b "{a:true}") /\
  exists e v' r, parses (mkOpts Sse2 false false false false) cfg_default t (init t) (s2b "{a:true}") e v' r /\ e <> NoError.
Proof.
  split; [unfold names_distinct; storeT|]. split; [vm_compute; reflexivity|]. do 3 eexists. split; [apply parses_iff; exists 100; vm_compute; reflexivity|discriminate].
Qed.
Print Assumptions C26_unquoted_names_refuted.

(** ** C35: map keys *)

(** For keys that are their own escaped form. *)
Theorem C35_map_round_trip_partial : forall i so o g t m,
  ty_ok t -> NoDup (map fst m) ->
  Forall (fun kv => (fst kv <> [] /\ str_body (fst kv) /\ escapes_in (fst kv) = fst kv) /\
                    storable i t (snd kv) /\ render i t (snd kv) <> None) m ->
  options_made so -> so_ascii so = true -> o_nl o = false ->
  (forall j, render i (YMap t) (VMap m) = Some j -> (so_depth so + N.of_nat (nesting j) <= 255)%N) ->
  exists text, serializeStruct i so (YMap t) (VMap m) = Ok text /\
    parses o g (YMap t) (VMap []) text NoError (VMap m) ([], []).
Proof.
  intros i so o g t m Ht Hnd Hall Hso Ha Ho Hd.
  destruct (round_trip i so o g (YMap t) (VMap m) _ Ht (conj Hnd Hall) eq_refl I Hso Ha (Hd _ eq_refl) Ho) as (text & A & _ & B).
  exists text. auto.
Qed.
Print Assumptions C35_map_round_trip_partial.

(** Keys without quotes and backslashes are such keys. *)
Theorem C35_plain_keys : forall k, ~ In quote k -> ~ In backslash k -> str_body k /\ escapes_in k = k.
Proof.
  intros k Hq Hb. split.
  - induction k as [|c k IH]; constructor; try (intros ->; cbn in *; tauto). apply IH; cbn in *; tauto.
  - unfold escapes_in. cbn [escapes_in_loop]. replace (find_index (Byte.eqb c_backslash) k) with (@None nat); [reflexivity|].
    symmetry. clear Hq. induction k as [|c k IH]; [reflexivity|]. cbn [find_index].
    destruct (Byte.eqb c_backslash c) eqn:E.
    + apply byte_eqb_eq' in E. subst c. elim Hb. left. reflexivity.
    + rewrite IH; [reflexivity|]. intros H. apply Hb. right. exact H.
Qed.
Print Assumptions C35_plain_keys.

(** Exactly these keys survive among those that are string contents at all: any other key is
    silently replaced by the string it would denote in JSON. *)
Theorem C35_key_unescaped : forall i so o g t k v j,
  ty_ok t -> k <> [] -> str_body k -> storable i t v -> render i t v = Some j ->
  options_made so -> so_ascii so = true -> o_nl o = false -> (so_depth so + N.of_nat (S (nesting j)) <= 255)%N ->
  exists text, serializeStruct i so (YMap t) (VMap [(k, v)]) = Ok text /\
    parses o g (YMap t) (VMap []) text NoError (VMap [(escapes_in k, v)]) ([], []).
Proof. exact key_unescaped. Qed.
Print Assumptions C35_key_unescaped.

Example C35_nonvacuous : storable Sse2 (YMap YBool) (VMap [(s2b "key", VBool true); (s2b "k/2", VBool false)]).
Proof. storeT. Qed.

(** The key a\nb (with a backslash) reads back with a line feed; a key with a quote makes the text
    unreadable; the empty key is lost. *)
Theorem C35_keys_refuted :
  let o := mkOpts Sse2 false false false false in
  let out k := serializeStruct Sse2 (so_make false) (YMap YBool) (VMap [(k, VBool true)]) in
  (out (s2b "a\nb") = Ok (s2b "{""a\nb"":true}") /\
   parses o cfg_default (YMap YBool) (VMap []) (s2b "{""a\nb"":true}") NoError (VMap [([x61; x0a; x62], VBool true)]) ([], [])) /\
  (out (s2b "a""b") = Ok (s2b "{""a""b"":true}") /\
   exists e v' r, parses o cfg_default (YMap YBool) (VMap []) (s2b "{""a""b"":true}") e v' r /\ e <> NoError) /\
  (out [] = Ok (s2b "{true}") /\
   exists e v' r, parses o cfg_default (YMap YBool) (VMap []) (s2b "{true}") e v' r /\ e <> NoError).
Proof.
  split; [|split].
  - split; [vm_compute; reflexivity|]. apply parses_iff. exists 100. vm_compute. reflexivity.
  - split; [vm_compute; reflexivity|]. do 3 eexists. split; [apply parses_iff; exists 100; vm_compute; reflexivity|discriminate].
  - split; [vm_compute; reflexivity|]. do 3 eexists. split; [apply parses_iff; exists 100; vm_compute; reflexivity|discriminate].
Qed.
Print Assumptions C35_keys_refuted.

(** ** C48: sets *)
Theorem C48_round_trip_partial : forall i so o g t l,
  ty_ok t -> all_different l -> Forall (fun x => storable i t x /\ render i t x <> None) l ->
  options_made so -> so_ascii so = true -> o_nl o = false ->
  (forall j, render i (YSet t) (VList l) = Some j -> (so_depth so + N.of_nat (nesting j) <= 255)%N) ->
  exists text, serializeStruct i so (YSet t) (VList l) = Ok text /\
    parses o g (YSet t) (VList []) text NoError (VList l) ([], []).
Proof.
  intros i so o g t l Ht Hnd Hall Hso Ha Ho Hd.
  destruct (round_trip i so o g (YSet t) (VList l) _ Ht (conj Hnd Hall) eq_refl I Hso Ha (Hd _ eq_refl) Ho) as (text & A & _ & B).
  exists text. auto.
Qed.
Print Assumptions C48_round_trip_partial.

Example C48_round_trip_nonvacuous : storable Sse2 (YSet YString) (VList [VStr (s2b "b"); VStr (s2b "a""")]).
Proof. storeT. Qed.

(** 0 and -0 are equal, so that they are one element. *)
Example C48_zeros : ~ all_different [VFp false 0; VFp false 9223372036854775808] /\
  val_eqb (VFp true 0) (VFp true 2147483648) = true /\ val_eqb (VFp true 0) (VFp true 1) = false.
Proof. split; [|split; reflexivity]. intros H. inversion H as [|x l N _]. apply N. left. reflexivity. Qed.

(** ** C36: an unassigned OptionalChecked member writes nothing and reads back as unassigned. *)
Theorem C36_unassigned_round_trip : forall i so o g k t,
  ty_ok t -> k <> [] -> str_body k -> options_made so -> so_ascii so = true -> (so_depth so < 255)%N -> o_nl o = false ->
  let s := YStruct [1] [([], [k], YOptionalChecked t)] in
  let v := VList [VFlag false (init t)] in
  render i s v = Some (JObj []) /\
  exists text, serializeStruct i so s v = Ok text /\ doc_text plain (JObj []) text /\
    parses o g s (init s) text NoError v ([], []).
Proof.
  intros i so o g k t Ht Hk Hb Hso Ha Hd Ho s v. split; [reflexivity|]. apply (round_trip i so o g s v (JObj [])); auto.
  - cbn. auto.
  - cbn. unfold names_distinct. cbn. repeat split; auto. repeat constructor. cbn. tauto.
  - exact I.
  - change (nesting (JObj [])) with 1. lia.
Qed.
Print Assumptions C36_unassigned_round_trip.
