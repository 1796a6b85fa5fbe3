(** Properties C30, C31, C32, C33, C47 and C48: arrays, maps, sets and enums; what a handler consumes.
    [parses o g t v text e v' r]: parseTo into an object [v] of type [t] from [text] returns [e],
    leaves the object [v'] and reports [r]. *)
From Verif Require Import Base ScanModel TokModel JsonSpec TokSpec IntModel EscapeModel HandlerModel HandlerSpec HandlerTree HandlerLaws HandlerProps HandlerStruct HandlerText HandlerTerm DocTerm HandlerText2 ShowJson PropTok PropStruct.
From Coq Require Import Lia Permutation.

(** ** C30: fixed-size arrays are filled exactly or rejected. *)

(** Success is exactly: as many elements as slots, element i read into slot i.  ([fits] excludes an
    element type that contains a std::string if the array is too short, see below.) *)
Theorem C30_fixed_array_partial : forall o g n t slots els text v' r,
  o_nl o = false -> ty_ok t -> shaped (YFixed n t) (VList slots) -> fits (YFixed n t) (Some (JArr els)) ->
  doc_text plain (JArr els) text ->
  (parses o g (YFixed n t) (VList slots) text NoError v' r <-> exists vs', v' = VList vs' /\ reads_each g t slots els vs' r).
Proof. intros. apply fixed_text; assumption. Qed.
Print Assumptions C30_fixed_array_partial.

Theorem C30_exactly_n_elements_partial : forall o g n t slots els text v' r,
  o_nl o = false -> ty_ok t -> shaped (YFixed n t) (VList slots) -> fits (YFixed n t) (Some (JArr els)) ->
  doc_text plain (JArr els) text -> parses o g (YFixed n t) (VList slots) text NoError v' r -> length els = n.
Proof.
  intros o g n t slots els text v' r Ho Ht Hv Hf Hd H. apply (fixed_text o g n t slots els text) in H; try assumption.
  destruct H as (vs' & -> & H). apply reads_each_length in H. destruct Hv as [Hl _]. lia.
Qed.
Print Assumptions C30_exactly_n_elements_partial.

(** Whatever happens, there are N slots afterwards: nothing is written outside. *)
Theorem C30_always_n_slots : forall o g n t slots j text e v' r,
  o_nl o = false -> ty_ok t -> shaped (YFixed n t) (VList slots) -> fits (YFixed n t) (Some j) ->
  doc_text plain j text -> parses o g (YFixed n t) (VList slots) text e v' r ->
  exists slots', v' = VList slots' /\ length slots' = n.
Proof.
  intros o g n t slots j text e v' r Ho Ht Hv Hf Hd H. assert (K := text_shape o g (YFixed n t) _ _ _ _ _ _ Ht Hv Hf Ho Hd H).
  destruct v'; try contradiction. destruct K as [K _]. eauto.
Qed.
Print Assumptions C30_always_n_slots.

Example C30_nonvacuous :
  let t := YFixed 2 (YFixed 1 (YInt I32)) in
  let d k := JArr (repeat (JArr [num (s2b "4")]) k) in
  shaped t (init t) /\ fits t (Some (d 2)) /\ fits t (Some (d 1)) /\ doc_text plain (d 2) (show (d 2)) /\
  parses default_opts cfg_default t (init t) (show (d 2)) NoError (VList [VList [VInt 4]; VList [VInt 4]]) ([], []) /\
  parses default_opts cfg_default t (init t) (show (d 1)) ExpectedArrayStart (VList [VList [VInt 4]; VList [VInt 0]]) ([], []) /\
  parses default_opts cfg_default t (init t) (show (d 3)) ExpectedArrayEnd (VList [VList [VInt 4]; VList [VInt 4]]) ([], []).
Proof.
  split; [apply init_shaped|]. split; [fits_tac|]. split; [fits_tac|]. split; [apply show_doc; [reflexivity|exact I]|].
  repeat split; apply parses_iff; exists 100; vm_compute; reflexivity.
Qed.

(** std::array<std::string, 2> also takes brackets for elements: an array with one element, which is
    an array, is read without an error. *)
Theorem C30_string_array_refuted :
  let t := YFixed 2 YString in let d := JArr [JArr [str (s2b "x")]] in
  doc_text plain d (show d) /\ parses default_opts cfg_default t (init t) (show d) NoError (VList [VStr [lbrack]; VStr (s2b "x")]) ([], []).
Proof. split; [apply show_doc; [reflexivity|exact I]|]. apply parses_iff; exists 100; vm_compute; reflexivity. Qed.
Print Assumptions C30_string_array_refuted.

(** ** C31: parsing always returns. *)

(** Any text, valid or not, into any type without maps, float, double and time points: parseTo returns and its
    result does not depend on the fuel of the model. *)
Theorem C31_returns_without_maps_partial : forall o g t v text,
  ty_ok t -> map_free t = true -> fp_free t = true -> shaped t v -> exists e v' r, parses o g t v text e v' r.
Proof. intros. apply text_ends; assumption. Qed.
Print Assumptions C31_returns_without_maps_partial.

(** With float, double and time points, too, it does not run forever: it returns or meets the undefined
    behaviour of [C24_undefined_refuted] or [C34_overflow_refuted]. *)
Theorem C31_ends_without_maps_partial : forall o g t v text,
  ty_ok t -> map_free t = true -> shaped t v ->
  (exists e v' r, parses o g t v text e v' r) \/ exists n, forall fuel, n <= fuel -> parse_text o g fuel t v text = UB.
Proof.
  intros o g t v text Ht Hm Hv. destruct (text_ends_fp o g t v text true Ht Hm (or_introl eq_refl) Hv) as [H|[_ H]]; auto.
Qed.
Print Assumptions C31_ends_without_maps_partial.

(** Any valid document into any type without float, double and time points, also with maps, whether or
    not it fits the type. *)
Theorem C31_valid_document_returns : forall o g t v j text,
  o_nl o = false -> ty_ok t -> fp_free t = true -> shaped t v -> doc_text plain j text ->
  exists e v' r, parses o g t v text e v' r.
Proof.
  intros o g t v j text Ho Ht Hf Hv Hd. destruct (doc_ends o g t v j text false Ho Hd Ht (or_intror Hf) Hv) as [H|[H _]]; [exact H|discriminate H].
Qed.
Print Assumptions C31_valid_document_returns.

(** With them, too, it does not run forever. *)
Theorem C31_valid_document_ends : forall o g t v j text,
  o_nl o = false -> ty_ok t -> shaped t v -> doc_text plain j text ->
  (exists e v' r, parses o g t v text e v' r) \/ exists n, forall fuel, n <= fuel -> parse_text o g fuel t v text = UB.
Proof.
  intros o g t v j text Ho Ht Hv Hd. destruct (doc_ends o g t v j text true Ho Hd Ht (or_introl eq_refl) Hv) as [H|[_ H]]; auto.
Qed.
Print Assumptions C31_valid_document_ends.

(** And it returns when the numbers for them are in range. *)
Theorem C31_fitting_document_returns : forall o g t v j text,
  o_nl o = false -> ty_ok t -> shaped t v -> fits t (Some j) -> doc_text plain j text ->
  exists e v' r, parses o g t v text e v' r.
Proof. intros o g t v j text Ho Ht Hv Hf Hd. exact (parses_total o g t v j text Ht Hv Hf Ho Hd). Qed.
Print Assumptions C31_fitting_document_returns.

(** Documents that do not fit: an object for a vector of integers, and brackets for strings, where the
    map ends at the first closing brace. *)
Definition ex_no_fit : json := JObj [(s2b "a", JArr [JScalar (SNum (s2b "1")); JObj [(s2b "b", JScalar (SNum (s2b "2")))]])].
Example C31_no_fit_nonvacuous :
  doc_text plain ex_no_fit (show ex_no_fit) /\ ty_ok (YMap (YVec (YInt (mkIty 32 true)))) /\ fp_free (YMap (YVec (YInt (mkIty 32 true)))) = true /\
  parses default_opts cfg_default (YMap (YVec (YInt (mkIty 32 true)))) (VMap []) (show ex_no_fit) FailedToParseInt (VMap [(s2b "a", VList [VInt 1; VInt 0])]) ([], []) /\
  parses default_opts cfg_default (YMap YString) (VMap []) (show ex_no_fit) NoError
    (VMap [(s2b "a", VStr (s2b "[")); ([], VStr (s2b "{")); (s2b "b", VStr (s2b "2"))]) ([], []).
Proof.
  split; [apply show_doc; [reflexivity|exact I]|]. split; [fits_tac|]. split; [reflexivity|].
  split; apply parses_iff; exists 100; vm_compute; reflexivity.
Qed.

Example C31_nonvacuous :
  map_free (YVec ex_struct) = true /\ ty_ok (YMap ex_struct) /\
  parses default_opts cfg_default (YVec ex_struct) (VList []) (s2b "[{""zz"":[{""a"":") NeedMoreData (VList [init ex_struct]) ([s2b "zz"], []).
Proof. split; [reflexivity|]. split; [fits_tac|]. apply parses_iff; exists 100; vm_compute; reflexivity. Qed.

(** An object that is not closed: the loop of the map handler never ends. *)
Definition ex_open : bytes := s2b "{""a"":true,".
Theorem C31_open_map_refuted :
  forall fuel, parse_text default_opts cfg_default fuel (YMap YBool) (VMap []) ex_open = OutOfFuel.
Proof.
  set (next := nextToken default_opts). intros fuel. unfold parse_text, parseTo.
  assert (H1 : exists c1, ctx_next next (context_of cfg_default ex_open) = Ok (NoError, c1) /\
    type_eqb (c_type c1) TObjectStart = true /\ exists c2, ctx_next next c1 = Ok (NoError, c2) /\
    type_eqb (c_type c2) TObjectEnd = false /\ bool_to (VBool false) c2 = Ok (NoError, VBool true, c2) /\ escapes_in (c_name c2) = s2b "a" /\
    exists e3 c3, ctx_next next c2 = Ok (e3, c3) /\
    type_eqb (c_type c3) TObjectEnd = false /\ bool_to (VBool false) c3 = Ok (NoError, VBool true, c3) /\ escapes_in (c_name c3) = s2b "a" /\
    exists e4, ctx_next next c3 = Ok (e4, c3)).
  { destruct (ctx_next next (context_of cfg_default ex_open)) as [[e1 c1]| |] eqn:E1; vm_compute in E1; try discriminate E1. injection E1 as <- <-.
    eexists. split; [reflexivity|]. split; [reflexivity|].
    match goal with |- exists c2, ?x = _ /\ _ => destruct x as [[e2 c2]| |] eqn:E2; vm_compute in E2; try discriminate E2 end. injection E2 as <- <-.
    eexists. split; [reflexivity|]. split; [reflexivity|]. split; [reflexivity|]. split; [reflexivity|].
    match goal with |- exists e3 c3, ?x = _ /\ _ => destruct x as [[e3 c3]| |] eqn:E3; vm_compute in E3; try discriminate E3 end. injection E3 as <- <-.
    do 2 eexists. split; [reflexivity|]. split; [reflexivity|]. split; [reflexivity|]. split; [reflexivity|].
    match goal with |- exists e4, ?x = _ => destruct x as [[e4 c4]| |] eqn:E4; vm_compute in E4; try discriminate E4 end. injection E4 as <- <-.
    eexists. reflexivity. }
  destruct H1 as (c1 & E1 & T1 & c2 & E2 & T2 & B2 & N2 & e3 & c3 & E3 & T3 & B3 & N3 & e4 & E4).
  assert (Stuck : forall f e, map_loop next f (VBool false) bool_to e [(s2b "a", VBool true)] c3 = OutOfFuel).
  { induction f as [|f IH]; intros e; cbn [map_loop]; [reflexivity|]. rewrite T3, B3. cbn [obind is_ok]. rewrite N3, E4. cbn [obind]. apply IH. }
  assert (L : map_loop next fuel (VBool false) bool_to NoError [] c2 = OutOfFuel).
  { destruct fuel as [|f]; cbn [map_loop]; [reflexivity|]. rewrite T2, B2. cbn [obind is_ok]. rewrite N2, E3. cbn [obind]. apply Stuck. }
  fold next. rewrite E1. cbn [obind is_ok to init]. unfold map_to. rewrite T1, E2. cbn [obind is_ok]. rewrite L. reflexivity.
Qed.
Print Assumptions C31_open_map_refuted.

(** ** C32: variable-length array content. *)

(** Success is exactly: at most N elements, read into the first slots, the other slots unchanged;
    the size is the number of elements unless this is N. *)
Theorem C32_variable_array_partial : forall o g n t size slots els text v' r,
  o_nl o = false -> ty_ok t -> shaped (YVar n t) (VVar size slots) -> fits (YVar n t) (Some (JArr els)) ->
  doc_text plain (JArr els) text ->
  (parses o g (YVar n t) (VVar size slots) text NoError v' r <->
   length els <= n /\ exists vs', reads_each g t (firstn (length els) slots) els vs' r /\
     v' = VVar (if length els <? n then length els else size) (vs' ++ skipn (length els) slots)).
Proof. intros. apply var_text; assumption. Qed.
Print Assumptions C32_variable_array_partial.

(** A full array leaves the size as it was. *)
Theorem C32_full_array_refuted :
  let t := YVar 2 (YInt I32) in let d := JArr [num (s2b "4"); num (s2b "5")] in
  doc_text plain d (show d) /\ parses default_opts cfg_default t (init t) (show d) NoError (VVar 0 [VInt 4; VInt 5]) ([], []).
Proof. split; [apply show_doc; [reflexivity|exact I]|]. apply parses_iff; exists 100; vm_compute; reflexivity. Qed.
Print Assumptions C32_full_array_refuted.

Example C32_nonvacuous :
  let t := YVar 3 (YInt I32) in let d := JArr [num (s2b "4"); num (s2b "5")] in
  fits t (Some d) /\ parses default_opts cfg_default t (VVar 1 [VInt 7; VInt 8; VInt 9]) (show d) NoError (VVar 2 [VInt 4; VInt 5; VInt 9]) ([], []) /\
  exists v r, parses default_opts cfg_default (YVar 1 (YInt I32)) (VVar 1 [VInt 7]) (show d) ExpectedArrayEnd v r.
Proof.
  split; [fits_tac|]. split; [|exists (VVar 1 [VInt 4]), ([], [])]; apply parses_iff; exists 100; vm_compute; reflexivity.
Qed.

(** ** C33: enums. *)
Lemma index_of_nth (l : list bytes) : forall i, NoDup l -> i < length l -> index_of (nth i l []) l = Some i.
Proof.
  induction l as [|x l IH]; intros i N H; cbn in H; [lia|]. inversion N as [|? ? Hx N']; subst. cbn [index_of]. destruct i as [|i]; cbn [nth].
  - rewrite (proj2 (beq_iff x x) eq_refl). reflexivity.
  - destruct (bytes_eqb x (nth i l [])) eqn:E; [apply beq_iff in E; exfalso; apply Hx; rewrite E; apply nth_In; lia|].
    rewrite IH by (auto; lia). reflexivity.
Qed.
Lemma index_of_none (l : list bytes) n : ~ In n l -> index_of n l = None.
Proof.
  induction l as [|x l IH]; intros H; [reflexivity|]. cbn [index_of]. destruct (bytes_eqb x n) eqn:E; [apply beq_iff in E; exfalso; apply H; left; exact E|].
  rewrite IH by (intros K; apply H; right; exact K). reflexivity.
Qed.

(** Writing gives the name; the token written, read back (in the JSON text this is the string), gives
    the value. *)
Theorem C33_name_round_trip : forall i g names u v k n,
  NoDup names -> k < length names ->
  map tok_view (fst (from i (YEnum names u) (VInt (Z.of_nat k)) n)) = [mkSt (wn n) (wn_type n) (nth k names []) TString] /\
  read_value g (YEnum names u) v (str (nth k names [])) = Ok (NoError, VInt (Z.of_nat k), ([], [])).
Proof.
  intros i g names u v k n N H. split.
  - cbn. rewrite Nat2Z.id. reflexivity.
  - unfold read_value. cbn. unfold enum_to. cbn. rewrite index_of_nth by assumption. reflexivity.
Qed.
Print Assumptions C33_name_round_trip.

Theorem C33_other_strings_rejected : forall g names u v s,
  ~ In s names -> read_value g (YEnum names u) v (str s) = Ok (IllegalDataValue, v, ([], [])).
Proof. intros g names u v s H. unfold read_value. cbn. unfold enum_to. cbn. rewrite index_of_none by exact H. reflexivity. Qed.
Print Assumptions C33_other_strings_rejected.

(** true, false, null, arrays and objects are rejected. *)
Theorem C33_other_values_rejected : forall g names u v j,
  match j with JScalar (SStr _) | JScalar (SNum _) => False | _ => True end ->
  read_value g (YEnum names u) v j = Ok (IllegalDataValue, v, ([], [])).
Proof. intros g names u v j H. destruct j as [[s|s| | |]|els|ms]; try contradiction; reflexivity. Qed.
Print Assumptions C33_other_values_rejected.

(** Numbers are not checked: 7 is accepted by an enum with two values (writing it then reads past the
    table of names). *)
Theorem C33_number_refuted :
  let t := YEnum [s2b "Red"; s2b "Green"] I32 in
  parses default_opts cfg_default (YVec t) (VList []) (s2b "[""Green"",7]") NoError (VList [VInt 1; VInt 7]) ([], []).
Proof. apply parses_iff; exists 100; vm_compute; reflexivity. Qed.
Print Assumptions C33_number_refuted.

Example C33_nonvacuous :
  NoDup [s2b "Red"; s2b "Green"] /\
  parses default_opts cfg_default (YVec (YEnum [s2b "Red"; s2b "Green"] I32)) (VList []) (s2b "[""Red"",""Blue""]") IllegalDataValue (VList [VInt 0; VInt 0]) ([], []).
Proof. split; [repeat constructor; cbn; intuition discriminate|]. apply parses_iff; exists 100; vm_compute; reflexivity. Qed.

(** ** C47: a handler consumes exactly the tokens of its value. *)

(** On any source of tokens: if the context stands on the tokens of the value [j], whatever comes
    later, the outcome is [read_value], which is defined from [t], [v] and [j] alone; and on success
    the source is left exactly behind the last token of the value. *)
Theorem C47_consumes_its_tokens_partial : forall S (next : token -> S -> outcome (S * error * token)) fuel t v c name j s' nt',
  ty_ok t -> shaped t v -> fits t (Some j) -> stands next c (doc_tokens name j) s' nt' ->
  length (doc_tokens name j) <= fuel ->
  exists e v' m u c', read_value (c_cfg c) t v j = Ok (e, v', (m, u)) /\ to next fuel t v c = Ok (e, v', c') /\
    c_missing c' = c_missing c ++ m /\ c_unassigned c' = c_unassigned c ++ u /\ c_cfg c' = c_cfg c /\
    (e = NoError -> c_err c' = NoError /\ c_src c' = s' /\ c_tok c' = nt').
Proof. intros S next. apply to_read. Qed.
Print Assumptions C47_consumes_its_tokens_partial.

(** For types without strings, float, double and time points nothing is assumed about the value. *)
Theorem C47_any_value_without_strings : forall S (next : token -> S -> outcome (S * error * token)) fuel t v c name j s' nt',
  ty_ok t -> shaped t v -> string_free t = true -> fp_free t = true -> stands next c (doc_tokens name j) s' nt' ->
  length (doc_tokens name j) <= fuel ->
  exists e v' m u c', read_value (c_cfg c) t v j = Ok (e, v', (m, u)) /\ to next fuel t v c = Ok (e, v', c') /\
    (e = NoError -> c_err c' = NoError /\ c_src c' = s' /\ c_tok c' = nt').
Proof.
  intros S next fuel t v c name j s' nt' Ht Hv Hs Hp St Hl.
  destruct (to_read next fuel t v c name j s' nt' Ht Hv (fits_string_free t Hs Hp (Some j)) St Hl) as (e & v' & m & u & c' & A & B & _ & _ & _ & C).
  exists e, v', m, u, c'. auto.
Qed.
Print Assumptions C47_any_value_without_strings.

(** The two tokens that a vector in an array consumes; the third is the next one read. *)
Example C47_nonvacuous :
  let t := YVec (YInt I32) in
  let l := map token_of (doc_tokens None (JArr [num (s2b "4")])) in
  let rest := [token_of (st_make None (s2b "9") TNumber)] in
  let c := mkCtx (tl l ++ rest) (hd tok_default l) NoError [] [] cfg_default in
  stands list_next c (doc_tokens None (JArr [num (s2b "4")])) rest (nth 2 l tok_default) /\
  to list_next 10 t (VList []) c = Ok (NoError, VList [VInt 4], mkCtx rest (nth 2 l tok_default) NoError [] [] cfg_default).
Proof.
  split; [|vm_compute; reflexivity]. split; [reflexivity|]. eexists. split; [reflexivity|].
  eapply Fd_cons; [reflexivity|reflexivity|]. eapply Fd_cons; [reflexivity|reflexivity|]. apply Fd_nil.
Qed.

(** The string handler takes any token: the opening brace is the value of b, the inner member is
    taken for one of the outer object, and the inner closing brace ends the outer object, so that the
    unknown member zz is never seen. *)
Theorem C47_string_takes_bracket_refuted :
  let t := YStruct [2] [([], [s2b "a"], YInt I32); ([], [s2b "b"], YString)] in
  let j := JObj [(s2b "b", JObj [(s2b "a", num (s2b "5"))]); (s2b "zz", num (s2b "1"))] in
  doc_text plain j (show j) /\
  parses default_opts cfg_default t (init t) (show j) NoError (VList [VInt 5; VStr [lbrace]]) ([], []).
Proof. split; [apply show_doc; [reflexivity|exact I]|]. apply parses_iff; exists 100; vm_compute; reflexivity. Qed.
Print Assumptions C47_string_takes_bracket_refuted.

(** ** C48: sets. *)

(** Success is exactly: the elements read are pairwise distinct, and they are the set. *)
Theorem C48_set_success_partial : forall o g t v els text v' r,
  o_nl o = false -> ty_ok t -> shaped (YSet t) v -> Forall (fun j => fits t (Some j)) els ->
  doc_text plain (JArr els) text ->
  (parses o g (YSet t) v text NoError v' r <->
   exists vs', v' = VList vs' /\ all_different vs' /\ reads_each g t (repeat (init t) (length els)) els vs' r).
Proof. intros. apply set_text; assumption. Qed.
Print Assumptions C48_set_success_partial.

(** If every element can be read and two are equal, the duplicate is reported. *)
Theorem C48_duplicate_reported_partial : forall o g t v els text vs r,
  o_nl o = false -> ty_ok t -> shaped (YSet t) v -> Forall (fun j => fits t (Some j)) els ->
  doc_text plain (JArr els) text -> reads_each g t (repeat (init t) (length els)) els vs r -> ~ all_different vs ->
  exists v' r', parses o g (YSet t) v text DuplicateInSet v' r'.
Proof. intros. eapply set_text_duplicate; eassumption. Qed.
Print Assumptions C48_duplicate_reported_partial.

Example C48_nonvacuous :
  let d := JArr [str (s2b "x"); str (s2b "y"); str (s2b "x")] in
  Forall (fun j => fits YString (Some j)) [str (s2b "x"); str (s2b "y"); str (s2b "x")] /\ doc_text plain d (show d) /\
  parses default_opts cfg_default (YSet YString) (VList []) (show d) DuplicateInSet (VList [VStr (s2b "x"); VStr (s2b "y")]) ([], []) /\
  parses default_opts cfg_default (YSet YString) (VList []) (s2b "[""x"",""y""]") NoError (VList [VStr (s2b "x"); VStr (s2b "y")]) ([], []).
Proof.
  split; [fits_tac|]. split; [apply show_doc; [reflexivity|exact I]|]. split; apply parses_iff; exists 100; vm_compute; reflexivity.
Qed.
