(** Property C59: types that refer to themselves, such as trees and linked lists. *)
From Verif Require Import Base ScanModel TokModel JsonSpec TokSpec StrSpec NumSpec EscapeModel IntModel SerModel SerSpec SerDoc HandlerModel HandlerSpec HandlerTree HandlerText HandlerTerm WriteModel RoundSpec RoundProofs ShowJson PropTok PropRound RecModel RecSpec RecProofs RecProofs2 RecDeep.
From Coq Require Import Lia.

(** Reading into a recursive type is reading into the finite type that one gets by unrolling it as many
    times as the text has bytes, and once more: what the other properties say of finite types holds for
    recursive ones.  Any text, valid or not; any type, object, option and setting. *)
Theorem C59_unrolled : forall o g env fuel depth r v text, env_ok env -> length text < depth ->
  rparse o g env fuel depth r v text = parse_text o g fuel (inst (unroll env depth) r) v text.
Proof. exact rparse_unroll. Qed.
Print Assumptions C59_unrolled.

(** The calls of the handlers are never nested deeper than the text is long: a larger bound does not
    change the result. *)
Theorem C59_depth : forall o g env fuel d d' r v text, env_ok env -> length text < d -> length text < d' ->
  rparse o g env fuel d r v text = rparse o g env fuel d' r v text.
Proof. exact rparse_depth. Qed.
Print Assumptions C59_depth.

(** It returns on every text.  The full claim would be for all types: maps loop for ever on some
    invalid texts (see C31), floating point numbers and time points have undefined behaviour on some. *)
Theorem C59_returns_partial : forall o g env r v text d0,
  env_ok env -> Forall (fun r => r_plain r = true) env -> r_ok r = true -> r_plain r = true ->
  length text < d0 -> shaped (inst (unroll env d0) r) v ->
  exists e v' rp n, forall fuel depth, n <= fuel -> length text < depth -> rparse o g env fuel depth r v text = Ok (e, v', rp).
Proof. exact rparse_ends. Qed.
Print Assumptions C59_returns_partial.

(** On a valid document also with maps. *)
Theorem C59_document_returns : forall o g env r v j text d0,
  env_ok env -> Forall (fun r => r_fp_free r = true) env -> r_ok r = true -> r_fp_free r = true ->
  o_nl o = false -> doc_text plain j text -> length text < d0 -> shaped (inst (unroll env d0) r) v ->
  exists e v' rp n, forall fuel depth, n <= fuel -> length text < depth -> rparse o g env fuel depth r v text = Ok (e, v', rp).
Proof. exact rparse_doc_ends. Qed.
Print Assumptions C59_document_returns.

(** serializeStruct gives the text of the JSON value of an object of any depth, and parseTo makes an
    equal object of it.  The full claim would be without [storable], as in C26. *)
Theorem C59_round_trip_partial : forall i so o g env r v j d0, env_ok env -> r_ok r = true -> height v < d0 ->
  storable i (inst (unroll env d0) r) v -> render i (inst (unroll env d0) r) v = Some j -> is_container j ->
  options_made so -> so_ascii so = true -> (so_depth so + N.of_nat (nesting j) <= 255)%N -> o_nl o = false ->
  exists text n, doc_text plain j text /\
    (forall depth, height v < depth -> rserialize i so env depth r v = Ok text) /\
    (forall fuel depth, n <= fuel -> length text < depth -> rparse o g env fuel depth r (fresh env r) text = Ok (NoError, v, ([], []))).
Proof. exact rround_trip. Qed.
Print Assumptions C59_round_trip_partial.

(** Whether an object is determined by its JSON value, and this value, do not depend on how often
    the type is unrolled. *)
Theorem C59_meaning : forall i env d d' r v, env_ok env -> height v < d -> height v < d' ->
  render i (inst (unroll env d) r) v = render i (inst (unroll env d') r) v /\
  (storable i (inst (unroll env d) r) v <-> storable i (inst (unroll env d') r) v).
Proof. exact storable_depth. Qed.
Print Assumptions C59_meaning.

(** A tree, a list and a directory:
    struct Tree { int n; std::vector<Tree> c; };
    struct Item { std::string s; std::unique_ptr<Item> next; };
    struct Dir { std::map<std::string, Dir> d; Tree t; }; *)
Definition rec_env : list rty :=
  [ RStruct [2] [([], [s2b "n"], RInt (mkIty 32 true)); ([], [s2b "c"], RVec (RRef 0))];
    RStruct [2] [([], [s2b "s"], RString); ([], [s2b "next"], RPtr true (RRef 1))];
    RStruct [2] [([], [s2b "d"], RMap (RRef 2)); ([], [s2b "t"], RPtr false (RRef 0))] ].
Definition rec_leaf (z : Z) : val := VList [VInt z; VList []].
Definition rec_tree : val := VList [VInt 1; VList [rec_leaf 2; VList [VInt 3; VList [rec_leaf 4]]]].
Definition rec_list : val := VList [VStr (s2b "a"); VOpt (Some (VList [VStr (s2b "b"); VOpt None]))].
Definition rec_dir : val :=
  VList [VMap [(s2b "x", VList [VMap []; VOpt (Some (rec_leaf 5))])]; VOpt None].

Ltac storeR := cbn [inst unroll struct_of nth rec_env map fst snd]; unfold rec_tree, rec_list, rec_dir, rec_leaf, names_distinct; storeT.

(** The objects meet the hypotheses of the round trip, and the texts those of the reading theorems. *)
Example C59_nonvacuous :
  env_ok rec_env /\ Forall (fun r => r_plain r = true) (firstn 2 rec_env) /\ Forall (fun r => r_fp_free r = true) rec_env /\
  (storable Sse2 (inst (unroll rec_env 7) (RRef 0)) rec_tree /\ height rec_tree = 6 /\
   exists j, render Sse2 (inst (unroll rec_env 7) (RRef 0)) rec_tree = Some j /\ is_container j /\ nesting j = 6) /\
  (storable Sse2 (inst (unroll rec_env 7) (RRef 1)) rec_list /\ height rec_list < 7) /\
  (storable Sse2 (inst (unroll rec_env 7) (RRef 2)) rec_dir /\ height rec_dir = 6) /\
  rserialize Sse2 (so_make false) rec_env 7 (RRef 0) rec_tree = Ok (s2b "{""n"":1,""c"":[{""n"":2,""c"":[]},{""n"":3,""c"":[{""n"":4,""c"":[]}]}]}") /\
  rserialize Sse2 (so_make false) rec_env 7 (RRef 2) rec_dir = Ok (s2b "{""d"":{""x"":{""d"":{},""t"":{""n"":5,""c"":[]}}},""t"":null}") /\
  rparse default_opts cfg_default rec_env 60 60 (RRef 0) (fresh rec_env (RRef 0)) (s2b "{""n"":1,""c"":[{""n"":2,""c"":[]},{""n"":3,""c"":[]}]}")
    = Ok (NoError, VList [VInt 1; VList [rec_leaf 2; rec_leaf 3]], ([], [])) /\
  rparse default_opts cfg_default rec_env 60 60 (RRef 1) (fresh rec_env (RRef 1)) (s2b "{""s"":""a"",""next"":{""s"":""b"",""next"":null}}")
    = Ok (NoError, rec_list, ([], [])) /\
  rparse default_opts cfg_default rec_env 60 60 (RRef 2) (fresh rec_env (RRef 2)) (s2b "{""d"":{""x"":{""d"":{""y"":{""d"":7}}}}}")
    = Ok (ExpectedObjectStart, VList [VMap [(s2b "x", VList [VMap [(s2b "y", VList [VMap []; VOpt None])]; VOpt None])]; VOpt None], ([], [])).
Proof.
  split; [repeat constructor|]. split; [repeat constructor|]. split; [repeat constructor|].
  split; [split; [storeR|split; [reflexivity|eexists; split; [vm_compute; reflexivity|split; [exact I|reflexivity]]]]|].
  split; [split; [storeR|cbn; lia]|]. split; [split; [storeR|reflexivity]|].
  split; [vm_compute; reflexivity|]. split; [vm_compute; reflexivity|]. split; [vm_compute; reflexivity|]. split; [vm_compute; reflexivity|].
  vm_compute; reflexivity.
Qed.

(** Nothing but the text bounds the depth of the calls, which are on the stack: for the struct
    Tree { std::vector<Tree> c; } and every [n] there is a valid text of about 6 n bytes that needs more
    than [n] nested calls of the handler. *)
Theorem C59_bounded_stack_refuted : forall o g n,
  o_nl o = false -> exists text, doc_text plain (nested n) text /\ length text <= 8 * n + 16 /\
    (forall fuel, rparse o g tree_env fuel n (RRef 0) (fresh tree_env (RRef 0)) text = OutOfFuel) /\
    exists e v rp m, forall fuel depth, m <= fuel -> length text < depth -> rparse o g tree_env fuel depth (RRef 0) (fresh tree_env (RRef 0)) text = Ok (e, v, rp).
Proof.
  intros o g n Ho. exists (show (nested n)).
  assert (D : doc_text plain (nested n) (show (nested n))).
  { apply show_doc; [|destruct n; exact I]. induction n as [|n IH]; [reflexivity|]. cbn in *. rewrite IH. reflexivity. }
  split; [exact D|]. split.
  { clear. induction n as [|n IH]; [cbn; lia|]. cbn in *. rewrite ?app_length in *. cbn in *. rewrite ?app_length in *. cbn in *. lia. }
  split; [intros fuel; exact (tree_needs_depth o g fuel n [] _ Ho D)|].
  apply (rparse_ends o g tree_env (RRef 0) (fresh tree_env (RRef 0)) (show (nested n)) (S (length (show (nested n))))); try reflexivity; [repeat constructor..|].
  rewrite <- (fresh_init tree_env (S (length (show (nested n))))); [apply HandlerTree.init_shaped|repeat constructor|lia].
Qed.
Print Assumptions C59_bounded_stack_refuted.
