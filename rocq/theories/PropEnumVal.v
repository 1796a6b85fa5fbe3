(** Property C69: enums that are read and written by value (JS_ENUM_DECLARE_VALUE_PARSER) and JS::Error.

    [mty]: types with such enums and Errors at any depth; [as_ty]: the type with the underlying integers in
    place of the enums and std::string in place of Error; [alike_in E]: equal but for the Errors, those of the
    first object satisfying [E]. *)
From Verif Require Import Base ScanModel TokModel JsonSpec TokSpec StrSpec IntModel SerModel SerSpec SerDoc HandlerModel HandlerSpec HandlerTree HandlerText HandlerTerm WriteModel RoundSpec RoundProofs ShowJson PropTok PropRound EnumValModel EnumValSpec EnumValProofs.
From Coq Require Import String List Lia.
Import ListNotations.
Local Open Scope list_scope.

(** Reading any text, valid or not: the same error and the same reports as with the integers and
    strings, on success the same object but for the Errors.  So what C26 to C36 say of integers holds
    for these enums.  The Errors are the ones from before or NoError. *)
Theorem C69_read : forall (E : val -> Prop) o g fuel m v v' text, E (VInt 0) -> all_fixed m -> alike_in E m v v' ->
  same_run (alike_in E m) (mparse_text o g fuel m v text) (parse_text o g fuel (as_ty m) v' text).
Proof. exact mparse_text_sim. Qed.
Print Assumptions C69_read.

(** An Error member keeps its value, also on errors. *)
Theorem C69_error_member : forall o g fuel b fs l text e v' r i n, nth_error fs i = Some (n, MError) ->
  mparse_text o g fuel (MStruct b fs) (VList l) text = Ok (e, v', r) -> exists l', v' = VList l' /\ nth_error l' i = nth_error l i.
Proof.
  intros o g fuel b fs l text e v' r i n Hi E. rewrite mparse_text_eq in E. exact (error_kept_report _ _ _ _ _ _ _ _ _ _ _ _ Hi E).
Qed.
Print Assumptions C69_error_member.

(** A value that cannot be read leaves the enum as it was. *)
Theorem C69_failure : forall (S : Type) u legal v (c : ctx S) e v' c',
  enum_value_to u legal v c = Ok (e, v', c') -> e <> NoError -> v' = v.
Proof.
  intros S u legal v c e v' c' E He. unfold enum_value_to in E. destruct (int_to u (c_value c)) as [[e1 z]| |]; cbn [obind] in E; try discriminate E.
  destruct (is_ok e1) eqn:Eo; [destruct (legal z); [|discriminate E]; injection E as <- _ _; destruct e1; try discriminate Eo; congruence|].
  injection E as _ <- _. reflexivity.
Qed.
Print Assumptions C69_failure.

(** Writing: the numbers, and the names of the Errors. *)
Theorem C69_write : forall i so m v, errors_ok m v -> mserialize i so m v = serializeStruct i so (as_ty m) (with_names m v).
Proof. exact mserialize_names. Qed.
Print Assumptions C69_write.

(** What is written is read back, but for the Errors, which are all NoError then.  The full claim would be with
    the Errors (false, see [C69_error_round_trip_refuted]) and without [storable], as in C26. *)
Theorem C69_round_trip_partial : forall i so o g m v j, all_fixed m -> errors_ok m v ->
  ty_ok (as_ty m) -> storable i (as_ty m) (with_names m v) -> render i (as_ty m) (with_names m v) = Some j -> is_container j ->
  options_made so -> so_ascii so = true -> (so_depth so + N.of_nat (nesting j) <= 255)%N -> o_nl o = false ->
  exists text, mserialize i so m v = Ok text /\ doc_text plain j text /\ mparses o g m (minit m) text NoError (cleared m v) ([], []).
Proof.
  intros i so o g m v j Hx Hv Ht Hs Hr Hc H1 H2 H3 Ho.
  destruct (C26_round_trip_partial i so o g _ _ j Ht Hs Hr Hc H1 H2 H3 Ho) as (text & Hw & Hd & n & Hp).
  exists text. split; [rewrite C69_write; assumption|]. split; [exact Hd|]. exists n. intros fuel Hf.
  assert (R := mparse_text_sim (fun x => x = VInt 0) o g fuel m _ _ text eq_refl Hx (alike_init (fun x => x = VInt 0) m eq_refl)). rewrite (Hp fuel Hf) in R.
  destruct (mparse_text o g fuel m (minit m) text) as [[[e a] r]| |]; cbn in R; try contradiction. destruct R as (-> & -> & R).
  rewrite <- (alike_cleared m a v Hv (R eq_refl)). reflexivity.
Qed.
Print Assumptions C69_round_trip_partial.

(** Without Errors: all of it. *)
Theorem C69_round_trip : forall i so o g m v j, all_fixed m -> no_errors m = true -> errors_ok m v ->
  ty_ok (as_ty m) -> storable i (as_ty m) (with_names m v) -> render i (as_ty m) (with_names m v) = Some j -> is_container j ->
  options_made so -> so_ascii so = true -> (so_depth so + N.of_nat (nesting j) <= 255)%N -> o_nl o = false ->
  exists text, mserialize i so m v = Ok text /\ mparses o g m (minit m) text NoError v ([], []).
Proof.
  intros i so o g m v j Hx Hn Hv Ht Hs Hr Hc H1 H2 H3 Ho.
  destruct (C69_round_trip_partial i so o g m v j Hx Hv Ht Hs Hr Hc H1 H2 H3 Ho) as (text & Hw & _ & Hp).
  exists text. rewrite (no_errors_cleared m Hn) in Hp. auto.
Qed.
Print Assumptions C69_round_trip.

(** struct { Color c; Error e; std::map<std::string, std::vector<Color>> m; std::optional<Error> o; } with
    enum class Color : short. *)
Definition ev_color : mty := MEnum (mkIty 16 true) (fun _ => true).
Definition ev_type : mty := MStruct [4] [([], [s2b "c"], ev_color); ([], [s2b "e"], MError); ([], [s2b "m"], MMap (MVec ev_color));
  ([], [s2b "o"], MStdOptional MError)].
Definition ev_value : val := VList [VInt (-7); VInt 2; VMap [(s2b "a", VList [VInt 1; VInt 32767])]; VOpt (Some (VInt 200))].
Example C69_nonvacuous :
  all_fixed ev_type /\ errors_ok ev_type ev_value /\ ty_ok (as_ty ev_type) /\ storable Sse2 (as_ty ev_type) (with_names ev_type ev_value) /\
  (exists j, render Sse2 (as_ty ev_type) (with_names ev_type ev_value) = Some j /\ is_container j /\ nesting j = 3) /\
  mserialize Sse2 (so_make false) ev_type ev_value = Ok (s2b "{""c"":-7,""e"":""InvalidToken"",""m"":{""a"":[1,32767]},""o"":""UserDefinedError""}") /\
  mparse_text default_opts cfg_default 50 ev_type ev_value (s2b "{""c"":true,""e"":0}") =
    Ok (FailedToParseInt, ev_value, ([], [])).
Proof.
  split; [cbn; auto 20|]. split; [cbn; repeat first [split | constructor | lia]|]. split; [cbn; auto 20|]. split; [|split; [|split]].
  - change (as_ty ev_type) with (YStruct [4] [([], [s2b "c"], YInt (mkIty 16 true)); ([], [s2b "e"], YString); ([], [s2b "m"], YMap (YVec (YInt (mkIty 16 true)))); ([], [s2b "o"], YStdOptional YString)]).
    change (with_names ev_type ev_value) with (VList [VInt (-7); VStr (s2b "InvalidToken"); VMap [(s2b "a", VList [VInt 1; VInt 32767])]; VOpt (Some (VStr (s2b "UserDefinedError")))]).
    unfold names_distinct. storeT.
  - eexists. split; [vm_compute; reflexivity|]. split; [exact I|reflexivity].
  - vm_compute. reflexivity.
  - vm_compute. reflexivity.
Qed.

(** An Error does not survive writing and reading. *)
Theorem C69_error_round_trip_refuted :
  let m := MStruct [1] [([], [s2b "e"], MError)] in
  exists text, mserialize Sse2 (so_make false) m (VList [VInt 2]) = Ok text /\
    mparses default_opts cfg_default m (minit m) text NoError (VList [VInt 0]) ([], []) /\ VList [VInt 0] <> VList [VInt 2].
Proof.
  cbv zeta. exists (s2b "{""e"":""InvalidToken""}"). split; [vm_compute; reflexivity|]. split; [|discriminate].
  exists 3. intros fuel Hf. do 3 (destruct fuel as [|fuel]; [lia|]). vm_compute. reflexivity.
Qed.

(** An object in place of an Error is not skipped: its members are taken for those of the enclosing struct, and
    the parse ends at its closing brace, with no error. *)
Theorem C69_error_object_refuted :
  let m := MStruct [2] [([], [s2b "e"], MError); ([], [s2b "a"], MTy (YInt (mkIty 32 true)))] in
  mparses default_opts cfg_default m (minit m) (s2b "{""e"":{""a"":5},""a"":1}") NoError (VList [VInt 0; VInt 5]) ([], []).
Proof. exists 4. intros fuel Hf. do 4 (destruct fuel as [|fuel]; [lia|]). vm_compute. reflexivity. Qed.

(** A number that is no value of an enum without a fixed underlying type: undefined behaviour. *)
Theorem C69_enum_range_refuted :
  let m := MStruct [1] [([], [s2b "e"], MEnum (mkIty 32 false) (fun z => (0 <=? z)%Z && (z <=? 3)%Z))] in
  forall fuel, 2 <= fuel -> mparse_text default_opts cfg_default fuel m (minit m) (s2b "{""e"":4}") = UB.
Proof. cbv zeta. intros fuel Hf. do 2 (destruct fuel as [|fuel]; [lia|]). vm_compute. reflexivity. Qed.
