(** C58: the messages of makeErrorString. *)
From Coq Require Import Lia.
From Verif Require Import Base ScanModel TokModel IntModel HandlerModel HandlerSpec HandlerLaws HandlerSim ErrCtxModel ErrMsgModel ErrMsgSpec ErrMsgProofs ErrMsgProofs2.

(** The sentences. *)
Definition unknown_one : bytes := s2b "JSON Object contained member not found in C++ struct/class. JSON Object member is: ".
Definition unknown_many : bytes := s2b "JSON Object contained members not found in C++ struct/class. JSON Object members are: ".
Definition absent_one : bytes := s2b "C++ struct/class has a required member that is not present in input JSON. The unassigned C++ member is: ".
Definition absent_many : bytes := s2b "C++ struct/class has required members that are not present in the input JSON. The unassigned C++ members are: ".

(** ** The members are named
    Any text, any type, any initial object, any tokenizer options and error context settings: if an
    unknown member or the absence of a member is the error, then the message is the sentence followed by
    all the names in the lists of the context.  These lists are exact by C28 and C29. *)
Theorem C58_members_named gc o g fuel t v text e v' c msg : pc_track g = true ->
  parse_message gc o g fuel t v text = Ok (e, v', c, msg) ->
  (e = MissingPropertyMember -> about unknown_one unknown_many (c_missing c) msg) /\
  (e = UnassignedRequiredMember -> about absent_one absent_many (c_unassigned c) msg).
Proof. exact (members_named gc o g fuel t v text e v' c msg). Qed.

(** ** The error is named
    Full statement: every message about another error contains the name of the error.
    Missing: types with maps, T[N] or ArrayVariableContent, for which it is false (see below). *)
Theorem C58_error_named_partial gc o g fuel t v text e v' c msg : direct t = true ->
  parse_message gc o g fuel t v text = Ok (e, v', c, msg) ->
  e <> NoError -> e <> MissingPropertyMember -> e <> UnassignedRequiredMember -> mentions (error_name e) msg.
Proof. exact (error_named gc o g fuel t v text e v' c msg). Qed.

(** ** Keeping the error context changes nothing else
    The result, the object and the reports are those of HandlerModel, of which the other properties
    speak; and making the message is never out of bounds. *)
Theorem C58_same_result gc o g fuel t v text : (0 <= eg_line_range gc)%Z -> (0 <= eg_range gc)%Z ->
  match parse_text o g fuel t v text with
  | Ok (e, v', r) => exists c msg, parse_message gc o g fuel t v text = Ok (e, v', c, msg) /\ r = (c_missing c, c_unassigned c)
  | UB => parse_message gc o g fuel t v text = UB
  | OutOfFuel => parse_message gc o g fuel t v text = OutOfFuel
  end.
Proof.
  intros H1 H2. assert (H := message_same gc o H1 H2 g fuel t v text).
  destruct (parse_text o g fuel t v text) as [[[e v'] r]| |], (parse_message gc o g fuel t v text) as [[[[e2 v2] c] msg]| |];
    cbn [orel] in H; try contradiction; auto.
  destruct H as (A & B & C). cbn in A, B, C. subst. exists c, msg. auto.
Qed.

(** ** Cases *)
Definition m_opts : opts := mkOpts Sse2 false false false false.
Definition m_strict : pcfg := mkCfg false false true.
Definition m_point : ty := YStruct [2] [([], [s2b "x"], YInt (mkIty 32 true)); ([], [s2b "y"], YBool)].
Definition m_zero : val := VList [VInt 0; VBool false].
Definition message_of (gc : ecfg) (g : pcfg) (t : ty) (v : val) (text : bytes) : option (error * bytes) :=
  match parse_message gc m_opts g 100 t v text with Ok (e, _, _, msg) => Some (e, msg) | _ => None end.

Example C58_nonvacuous :
  (message_of eg_default m_strict m_point m_zero (s2b "{""x"":1,""a"":[2]}") = Some (MissingPropertyMember, unknown_one ++ s2b "a")) /\
  (message_of eg_default m_strict m_point m_zero (s2b "{}") = Some (UnassignedRequiredMember, absent_many ++ s2b "y, x")) /\
  (message_of eg_default m_strict m_point m_zero (s2b "{""y"":true}") = Some (UnassignedRequiredMember, absent_one ++ s2b "x")) /\
  (direct m_point = true /\
   message_of eg_default m_strict m_point m_zero (s2b "{""x"":tru}") = Some (IllegalDataValue, s2b "Error IllegalDataValue:" ++ x0a :: s2b "{""x"":tru}" ++ x0a :: s2b "        ^" ++ [x0a]) /\
   mentions (error_name IllegalDataValue) (s2b "Error IllegalDataValue:" ++ x0a :: s2b "{""x"":tru}" ++ x0a :: s2b "        ^" ++ [x0a])).
Proof.
  split; [vm_compute; reflexivity|]. split; [vm_compute; reflexivity|]. split; [vm_compute; reflexivity|]. split; [reflexivity|].
  split; [vm_compute; reflexivity|]. exists (s2b "Error "). eexists. reflexivity.
Qed.

(** ** Refutations *)
Fixpoint prefixb (p s : bytes) : bool :=
  match p, s with
  | [], _ => true
  | a :: p, b :: s => Byte.eqb a b && prefixb p s
  | _, _ => false
  end.
Fixpoint mentionsb (p s : bytes) : bool :=
  prefixb p s || match s with [] => false | _ :: s => mentionsb p s end.
Lemma prefixb_app p b : prefixb p (p ++ b) = true.
Proof. induction p as [|a p IH]; [reflexivity|]. cbn. rewrite IH, andb_true_r. apply Byte.byte_dec_lb. reflexivity. Qed.
Lemma mentionsb_complete p s : mentions p s -> mentionsb p s = true.
Proof.
  intros (a & b & ->). induction a as [|x a IH].
  - cbn [app]. assert (H := prefixb_app p b). destruct (p ++ b); cbn [mentionsb]; rewrite H; reflexivity.
  - cbn [app mentionsb]. rewrite IH. apply orb_true_r.
Qed.

(** The message names another error than the one returned: after the elements of an array of fixed size
    the handler returns ExpectedArrayEnd, but the message is about the error of the tokenizer; and the
    loop over the members of a map goes on after an error. *)
Theorem C58_other_error_refuted :
  (exists msg, message_of eg_default m_strict (YFixed 2 YBool) (VList [VBool false; VBool false]) (s2b "[true,false,;") = Some (ExpectedArrayEnd, msg) /\
     mentions (error_name EncounteredIllegalChar) msg /\ ~ mentions (error_name ExpectedArrayEnd) msg) /\
  (exists msg, message_of eg_default m_strict (YMap (YVec YBool)) (VMap []) (s2b "{""a"":[true] x") = Some (ExpectedArrayStart, msg) /\
     mentions (error_name InvalidToken) msg /\ ~ mentions (error_name ExpectedArrayStart) msg).
Proof.
  split.
  - eexists. split; [vm_compute; reflexivity|]. split; [exists (s2b "Error "); eexists; reflexivity|].
    intros H. apply mentionsb_complete in H. vm_compute in H. discriminate H.
  - eexists. split; [vm_compute; reflexivity|]. split; [exists (s2b "Error "); eexists; reflexivity|].
    intros H. apply mentionsb_complete in H. vm_compute in H. discriminate H.
Qed.

(** An unknown member in a nested struct becomes UnknownPropertyMember, and a longer name is not in the
    message, although it is in the list of the context. *)
Definition m_long : bytes := s2b "a_member_with_a_name_of_more_than_forty_characters".
Theorem C58_nested_member_refuted :
  exists msg, message_of eg_default m_strict (YStruct [1] [([], [s2b "p"], m_point)]) (VList [m_zero])
      (s2b "{""p"":{""x"":2,""y"":true,""" ++ m_long ++ s2b """:1}}") = Some (UnknownPropertyMember, msg) /\
    ~ mentions m_long msg.
Proof.
  eexists. split; [vm_compute; reflexivity|]. intros H. apply mentionsb_complete in H. vm_compute in H. discriminate H.
Qed.

(** Without track_member_assignement_state the message is empty. *)
Theorem C58_untracked_refuted :
  message_of eg_default (mkCfg false false false) m_point m_zero (s2b "{""a"":1}") = Some (MissingPropertyMember, []).
Proof. vm_compute. reflexivity. Qed.

Print Assumptions C58_members_named.
Print Assumptions C58_error_named_partial.
Print Assumptions C58_same_result.
Print Assumptions C58_other_error_refuted.
Print Assumptions C58_nested_member_refuted.
Print Assumptions C58_untracked_refuted.
