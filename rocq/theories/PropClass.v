(** Property C68: super classes.
    [class_parses o g i k ob text e ob' r]: parseTo, spelled out template by template in ClassModel.v,
    into an object [ob] of the class [k] from [text] returns [e], leaves the object [ob'] and the reports
    [r].  A class has members, given by their names and types, and super classes, given by the name they
    are listed with; an object has a value for each member and an object for each super class.
    [good_tcls]: every class has a member and every member a name; there are less than 2^64. *)
From Verif Require Import Base ScanModel TokModel JsonSpec TokSpec StrSpec IntModel SerModel SerSpec SerDoc HandlerModel HandlerSpec HandlerTree HandlerStruct HandlerText HandlerTerm DocTerm HandlerText2 WriteModel RoundSpec RoundProofs ShowJson PropTok PropStruct PropRound TupleModel ClassModel ClassSpec ClassProofs2.
From Coq Require Import Lia.

(** The class is read like one struct with its members and all inherited ones, for every text, valid or
    not, so what C27 to C31, C36 and C58 say about structs holds for classes with super classes. *)
Theorem C68_read : forall o g i k ob text e ob' r, good_tcls k -> object_of k ob ->
  (class_parses o g i k ob text e ob' r <->
   object_of k ob' /\ parses o g (struct_type k) (VList (all_values ob)) text e (VList (all_values ob')) r).
Proof. exact class_parses_ok. Qed.
Print Assumptions C68_read.

(** It is written like that struct. *)
Theorem C68_write : forall (S : Type) next fuel i so k ob, good_tcls k -> object_of k ob ->
  class_serialize so (cls_of (S := S) next fuel i k) ob = serializeStruct i so (struct_type k) (VList (all_values ob)).
Proof. exact class_serialize_ok. Qed.
Print Assumptions C68_write.

(** The values of that struct determine the object, and it has exactly the inherited members. *)
Theorem C68_same_object : forall k o o', object_of k o -> object_of k o' -> all_values o = all_values o' -> o = o'.
Proof. exact values_inj. Qed.
Print Assumptions C68_same_object.
Theorem C68_members : forall k b fs f, struct_type k = YStruct b fs -> In f fs <-> has_member [] k f.
Proof. intros k b fs f H. injection H as _ <-. apply members_spec. Qed.
Print Assumptions C68_members.

(** Every text into every class without maps, float, double and time points: parseTo returns; it does not
    access assigned_members outside its size memberCount.  Maps: see C31. *)
Theorem C68_returns_partial : forall o g i k ob text, good_tcls k -> object_of k ob ->
  ty_ok (struct_type k) -> map_free (struct_type k) = true -> fp_free (struct_type k) = true ->
  shaped (struct_type k) (VList (all_values ob)) -> exists e ob' r, class_parses o g i k ob text e ob' r.
Proof.
  intros o g i k ob text G Ho Ht Hm Hp Hv. destruct (text_ends o g _ _ text Ht Hm Hp Hv) as (e & v & r & H).
  destruct (class_ends o g i k ob text e v r G Ho H) as (ob' & H' & _). eauto.
Qed.
Print Assumptions C68_returns_partial.

(** On a valid document also with maps. *)
Theorem C68_document_returns : forall o g i k ob j text, good_tcls k -> object_of k ob ->
  o_nl o = false -> ty_ok (struct_type k) -> fp_free (struct_type k) = true -> doc_text plain j text ->
  shaped (struct_type k) (VList (all_values ob)) -> exists e ob' r, class_parses o g i k ob text e ob' r.
Proof.
  intros o g i k ob j text G Hob Ho Ht Hp Hd Hv. destruct (doc_ends o g _ _ j text false Ho Hd Ht (or_intror Hp) Hv) as [(e & v & r & H)|[H _]]; [|discriminate H].
  destruct (class_ends o g i k ob text e v r G Hob H) as (ob' & H' & _). eauto.
Qed.
Print Assumptions C68_document_returns.

(** The reports are about all members: reported as missing in the class are the names that neither it nor
    a super class has; reported as unassigned are the required members, also those of super classes. *)
Theorem C68_reported_exactly_partial : forall o g i k ob ms text ob' r, good_tcls k -> object_of k ob ->
  o_nl o = false -> ty_ok (struct_type k) -> shaped (struct_type k) (VList (all_values ob)) -> fits (struct_type k) (Some (JObj ms)) ->
  (forall f, has_member [] k f -> struct_free (snd f) = true) -> names_distinct (members_of [] k) -> pc_track g = true ->
  doc_text plain (JObj ms) text -> class_parses o g i k ob text NoError ob' r ->
  (forall x, In x (fst r) <-> (exists j, In (x, j) ms) /\ forall f, has_member [] k f -> ~ In x (snd (fst f))) /\
  (forall x, In x (snd r) <-> exists f, has_member [] k f /\ is_optional (snd f) = false /\ x = display_name f /\
     forall n j, In (n, j) ms -> ~ In n (snd (fst f))).
Proof.
  intros o g i k ob ms text ob' r G Ho Hnl Ht Hv Hf Hsf Hd Htr D H. apply class_parses_ok in H; try assumption. destruct H as [_ H].
  assert (Hs : forallb (fun f => struct_free (snd f)) (members_of [] k) = true).
  { apply forallb_forall. intros f Hi. apply Hsf, members_spec, Hi. }
  unfold struct_type in *.
  rewrite (C28_missing_members_exact_partial o g _ _ _ ms text _ r Hnl Ht Hv Hf Hs Htr D H).
  rewrite (C29_reported_exactly_partial o g _ _ _ ms text _ r Hnl Ht Hv Hf Hs Htr D H).
  split; intros x; [apply unknown_spec|]. rewrite (C29_absent_required_exact _ _ _ _ (sizes_sum k []) Hd). split.
  - intros (j & f & Hj & A & B & C). exists f. split; [apply members_spec; exact (nth_error_In _ _ Hj)|auto].
  - intros (f & Hi & A & B & C). apply members_spec, In_nth_error in Hi. destruct Hi as (j & Hj). exists j, f. auto.
Qed.
Print Assumptions C68_reported_exactly_partial.

(** A name that a class has itself does not go to a super class. *)
Theorem C68_own_member_first : forall ms ss n m, In m ms -> hd_error (fst m) = Some n ->
  exists i, member_named (sizes_of (TCls ms ss)) (members_of [] (TCls ms ss)) n = Some i /\ i < length ms.
Proof. intros ms ss n m. apply (own_first (TCls ms ss) n m). Qed.
Print Assumptions C68_own_member_first.

(** What is written is read back into all super classes.  [storable]: see C26. *)
Theorem C68_round_trip_partial : forall (S : Type) next fuel i so o g k ob j, good_tcls k -> object_of k ob ->
  ty_ok (struct_type k) -> storable i (struct_type k) (VList (all_values ob)) -> render i (struct_type k) (VList (all_values ob)) = Some j ->
  is_container j -> options_made so -> so_ascii so = true -> (so_depth so + N.of_nat (nesting j) <= 255)%N -> o_nl o = false ->
  exists text, class_serialize so (cls_of (S := S) next fuel i k) ob = Ok text /\
    class_parses o g i k (init_object k) text NoError ob ([], []).
Proof.
  intros S next fuel i so o g k ob j G Ho Ht Hs Hr Hc Hm Ha Hn Hnl.
  destruct (round_trip i so o g (struct_type k) (VList (all_values ob)) j Ht Hs Hr Hc Hm Ha Hn Hnl) as (text & E & _ & P).
  exists text. rewrite class_serialize_ok by assumption. split; [exact E|]. apply class_parses_ok; [exact G|apply init_is_object|]. split; [exact Ho|].
  rewrite (init_values k []). exact P.
Qed.
Print Assumptions C68_round_trip_partial.

(** ** A class with two super classes, one of which has a super class itself *)
Definition ex_root : tcls := TCls [([s2b "r"], YInt I32)] [].
Definition ex_left : tcls := TCls [([s2b "l"; s2b "left"], YString)] [(s2b "Root", ex_root)].
Definition ex_right : tcls := TCls [([s2b "x"], YOptional YBool); ([s2b "y"], YBool)] [].
Definition ex_class : tcls := TCls [([s2b "a"], YInt I32); ([s2b "b"], YInt I32)] [(s2b "Left", ex_left); (s2b "Right", ex_right)].
Definition ex_object : obj := Obj [VInt 1; VInt 2] [Obj [VStr (s2b "s")] [Obj [VInt 3] []]; Obj [VBool true; VBool false] []].
Definition ex_text : bytes := s2b "{""y"":true,""left"":""t"",""b"":7,""q"":[1,{""a"":2}],""r"":9}".
Example C68_nonvacuous :
  good_tcls ex_class /\ object_of ex_class ex_object /\ ty_ok (struct_type ex_class) /\
  shaped (struct_type ex_class) (VList (all_values ex_object)) /\ map_free (struct_type ex_class) = true /\ fp_free (struct_type ex_class) = true /\
  all_values ex_object = [VInt 1; VInt 2; VBool true; VBool false; VStr (s2b "s"); VInt 3] /\
  has_member [] ex_class (s2b "Root", [s2b "r"], YInt I32) /\ names_distinct (members_of [] ex_class) /\
  class_parses default_opts cfg_default Sse2 ex_class ex_object ex_text NoError
    (Obj [VInt 1; VInt 7] [Obj [VStr (s2b "t")] [Obj [VInt 9] []]; Obj [VBool true; VBool true] []]) ([s2b "q"], [s2b "a"]) /\
  class_parses default_opts cfg_default Sse2 ex_class ex_object (s2b "{}") NoError
    ex_object ([], [s2b "b"; s2b "a"; s2b "Right::y"; s2b "Left::l"; s2b "Root::r"]).
Proof.
  assert (L : forall n, (n <> 0)%nat -> (n < 10)%nat -> good_length n) by (unfold good_length; intros; lia).
  assert (G : good_tcls ex_class) by (repeat first [constructor | apply L; cbn; lia | cbn; lia]).
  assert (O : object_of ex_class ex_object) by (repeat constructor).
  split; [exact G|]. split; [exact O|]. split; [cbn; auto 20|]. split; [cbn; auto 20|]. split; [reflexivity|]. split; [reflexivity|]. split; [reflexivity|].
  split; [eapply Inherited; [left; reflexivity|]; eapply Inherited; [left; reflexivity|]; apply (Own _ _ _ ([s2b "r"], YInt I32)); left; reflexivity|].
  split; [vm_compute; repeat constructor; cbn; intuition discriminate|].
  split; apply C68_read; try assumption; (split; [repeat constructor|]); apply parses_iff; exists 100; vm_compute; reflexivity.
Qed.
Example C68_nonvacuous_write :
  class_serialize (so_make false) (cls_of (S := unit) (fun _ _ => UB) 0 Sse2 ex_class) ex_object =
    Ok (s2b "{""a"":1,""b"":2,""x"":true,""y"":false,""l"":""s"",""r"":3}") /\
  storable Sse2 (struct_type ex_class) (VList (all_values ex_object)) /\
  exists j, render Sse2 (struct_type ex_class) (VList (all_values ex_object)) = Some j /\ is_container j.
Proof.
  split; [vm_compute; reflexivity|]. split.
  { change (struct_type ex_class) with (YStruct [2; 2; 1; 1] [([], [s2b "a"], YInt I32); ([], [s2b "b"], YInt I32);
      (s2b "Right", [s2b "x"], YOptional YBool); (s2b "Right", [s2b "y"], YBool); (s2b "Left", [s2b "l"; s2b "left"], YString); (s2b "Root", [s2b "r"], YInt I32)]).
    change (all_values ex_object) with [VInt 1; VInt 2; VBool true; VBool false; VStr (s2b "s"); VInt 3]. unfold names_distinct. storeT. }
  eexists. split; [vm_compute; reflexivity|exact I].
Qed.

(** A class that has no members of its own and only derives from another is rejected by the compiler, for
    MemberChecker<T, Members, 0, Members::size - 1> asks for the element 2^64 - 1 of an empty tuple. *)
Theorem C68_no_own_members_refuted : forall so,
  object_of (TCls [] [(s2b "Right", ex_right)]) (Obj [] [Obj [VBool true; VBool false] []]) /\
  class_serialize so (cls_of (S := unit) (fun _ _ => UB) 0 Sse2 (TCls [] [(s2b "Right", ex_right)])) (Obj [] [Obj [VBool true; VBool false] []]) = UB /\
  get_of (size_sub (N.of_nat (@length bytes [])) 1) (@nil bytes) = None.
Proof. intros so. split; [repeat constructor|]. split; reflexivity. Qed.
Print Assumptions C68_no_own_members_refuted.
