(** C77: reading and writing structs, and writing vectors, that hold token vectors. *)
From Coq Require Import Lia.
From Verif Require Import Base Tactics ScanModel TokModel JsonSpec TokSpec SerModel SerSpec SerDoc HandlerModel HandlerSpec HandlerTree HandlerLaws ShowJson TokVecModel TokMemberModel MapUseProofs HandlerStruct HandlerText PropTok PropStruct PropSer PropTokVec MapSpec MapProofs2.
From Verif Require Import TokMemberProofs.
From Verif Require CallProofs.
From Verif Require Import WriteModel RoundSpec RoundProofs.

(** ** Proofs *)
Lemma members_list fs : forall n, fst (from_list (map (fun f => named (fst f) TAscii (tokens_from (snd f))) fs) n) = concat (map snd fs).
Proof.
  induction fs as [|f fs IH]; intros n; [reflexivity|]. cbn [map from_list concat]. unfold named at 1, tokens_from at 1.
  match goal with |- context [from_list _ ?m] => specialize (IH m) end.
  destruct (from_list _ _) as [l n']. cbn [fst] in IH |- *. congruence.
Qed.

Lemma elements_list vs : forall n, fst (from_list (map tokens_from vs) n) = concat vs.
Proof.
  induction vs as [|v vs IH]; intros n; [reflexivity|]. cbn [map from_list concat]. unfold tokens_from at 1.
  match goal with |- context [from_list _ ?m] => specialize (IH m) end.
  destruct (from_list _ _) as [l n']. cbn [fst] in IH |- *. congruence.
Qed.

Lemma elements_name vs : forall n, plain_name n -> Forall plain_tok (concat vs) -> plain_name (snd (from_list (map tokens_from vs) n)).
Proof.
  induction vs as [|v vs IH]; intros n Hn Hp; [exact Hn|]. cbn [concat] in Hp. apply Forall_app in Hp. destruct Hp as [P1 P2].
  cbn [map from_list]. unfold tokens_from at 1. set (n1 := match rev v with [] => n | t :: _ => _ end).
  assert (H1 : plain_name n1).
  { unfold n1. destruct (rev v) as [|t r] eqn:E; [exact Hn|]. rewrite Forall_forall in P1. apply (P1 t), in_rev. rewrite E. left. reflexivity. }
  specialize (IH n1 H1 P2). destruct (from_list _ n1) as [l n2]. exact IH.
Qed.

(** ** Theorems *)

(** The declared names take no part in what a struct of token vectors writes. *)
Theorem C77_declared_names : forall fs gs n, map snd fs = map snd gs ->
  fst (tokstruct_from fs n) = fst (tokstruct_from gs n).
Proof.
  intros fs gs n H. unfold tokstruct_from, from_object.
  assert (A := members_list fs n). assert (B := members_list gs n).
  destruct (from_list _ n) as [l1 n1]. destruct (from_list _ n) as [l2 n2]. cbn [fst] in *. congruence.
Qed.
Print Assumptions C77_declared_names.

(** Members that hold the tokens of values read under the names of [ms]: the object [ms] is written. *)
Theorem C77_struct_partial : forall so n sup fs ms,
  Forall2 (fun f kv => map tok_view (snd f) = doc_tokens (Some (fst kv)) (snd kv)) fs ms ->
  json_ok (JObj ms) -> names_nonempty (JObj ms) -> options_made so -> so_ascii so = true ->
  (so_depth so + N.of_nat (nesting (JObj ms)) <= 255)%N -> (forall k, 0 < sup k) ->
  exists bs s, ser_writes (fst (tokstruct_from fs wname_default)) (ser_make so n sup) = Ok (bs, s) /\
    doc_text plain (JObj ms) (ser_output s).
Proof.
  intros so n sup fs ms H Hok Hnn Hso Ha Hd Hs.
  assert (A := members_list fs wname_default). unfold tokstruct_from, from_object. destruct (from_list _ _) as [l n']. cbn [fst] in A |- *. subst l.
  assert (M : map tok_view (concat (map snd fs)) = flat_map (fun kv => doc_tokens (Some (fst kv)) (snd kv)) ms).
  { clear - H. induction H as [|f kv fs ms Hf _ IH]; [reflexivity|]. cbn [map concat flat_map]. rewrite map_app. congruence. }
  destruct (right_strip (concat (map snd fs))) as [S P]; [rewrite M; apply member_right, Hnn|].
  apply CallProofs.tokens_text; auto; [| |exact I].
  - constructor; [left; reflexivity|]. apply Forall_app. split; [exact P|]. constructor; [left; reflexivity|constructor].
  - cbn [map doc_tokens]. rewrite map_app, S, M. reflexivity.
Qed.
Print Assumptions C77_struct_partial.

(** Elements that hold the tokens of values read without a name: the array of the values is written. *)
Theorem C77_vector_partial : forall so n sup vs js,
  Forall2 (fun v j => map tok_view v = doc_tokens None j) vs js ->
  json_ok (JArr js) -> names_nonempty (JArr js) -> options_made so -> so_ascii so = true ->
  (so_depth so + N.of_nat (nesting (JArr js)) <= 255)%N -> (forall k, 0 < sup k) ->
  exists bs s, ser_writes (fst (tokvector_from vs wname_default)) (ser_make so n sup) = Ok (bs, s) /\
    doc_text plain (JArr js) (ser_output s).
Proof.
  intros so n sup vs js H Hok Hnn Hso Ha Hd Hs.
  assert (A := elements_list vs (noname wname_default)). unfold tokvector_from, from_array. destruct (from_list _ _) as [l n'] eqn:E. cbn [fst] in A |- *. subst l.
  assert (M : map tok_view (concat vs) = flat_map (doc_tokens None) js).
  { clear - H. induction H as [|f kv fs ms Hf _ IH]; [reflexivity|]. cbn [map concat flat_map]. rewrite map_app. congruence. }
  assert (D := doc_right (JArr js) Hnn None ltac:(discriminate)). cbn [doc_tokens] in D. apply Forall_inv_tail, Forall_app in D. destruct D as [D _].
  rewrite <- M in D. destruct (right_strip _ D) as [S P].
  assert (T := elements_name vs (noname wname_default) ltac:(left; reflexivity) P). rewrite E in T. cbn [snd] in T.
  apply CallProofs.tokens_text; auto; [| |exact I].
  - constructor; [left; reflexivity|]. apply Forall_app. split; [exact P|]. constructor; [exact T|constructor].
  - cbn [map doc_tokens]. rewrite map_app, S, M. reflexivity.
Qed.
Print Assumptions C77_vector_partial.

(** ** Reading *)

Lemma flat_rev {A B} (F : A -> list B) l : (forall x, In x l -> length (F x) <= 1) -> flat_map F (rev l) = rev (flat_map F l).
Proof.
  induction l as [|x l IH]; intros H; [reflexivity|]. cbn [rev flat_map]. rewrite flat_map_app, rev_app_distr, IH by (intros; apply H; right; assumption).
  f_equal. cbn [flat_map]. rewrite app_nil_r. assert (L := H x (or_introl eq_refl)). destruct (F x) as [|y [|z r]]; [reflexivity..|cbn in L; lia].
Qed.

Lemma flat_seq (F : nat -> list bytes) (G : bytes -> list bytes) ns : forall s,
  (forall i k, nth_error ns i = Some k -> F (s + i) = G k) -> flat_map F (seq s (length ns)) = flat_map G ns.
Proof.
  induction ns as [|k ns IH]; intros s H; [reflexivity|]. cbn [length seq flat_map]. rewrite <- (H 0 k eq_refl), Nat.add_0_r. f_equal.
  apply IH. intros i k' Hi. rewrite <- (H (S i) k' Hi). f_equal. lia.
Qed.

Lemma flat_filter {A} (p : A -> bool) l : flat_map (fun x => if p x then [x] else []) l = filter p l.
Proof. induction l as [|x l IH]; [reflexivity|]. cbn. rewrite IH. destruct (p x); reflexivity. Qed.

(** The declared names that [ms] does not have. *)
Definition absent (ns : list bytes) (ms : list (bytes * json)) : list bytes :=
  filter (fun k => negb (existsb (bytes_eqb k) (map fst ms))) ns.

Lemma named_in k (l : list bytes) : existsb (bytes_eqb k) l = true <-> In k l.
Proof.
  rewrite existsb_exists. split.
  - intros (x & Hx & E). destruct (MapProofs2.bytes_eqb_spec k x); [subst; exact Hx|discriminate E].
  - intros H. exists k. split; [exact H|]. destruct (MapProofs2.bytes_eqb_spec k k); congruence.
Qed.

Lemma left_unassigned ns ms : forall a, length a = length ns ->
  (forall i k, nth_error ns i = Some k -> nth_error a i = Some (existsb (bytes_eqb k) (map fst ms))) ->
  unassigned_of (search_order 0 [length ns]) (map (fun k : bytes => ([], [k], false)) ns) a = rev (absent ns ms).
Proof.
  intros a Hl Ha. unfold unassigned_of. cbn [search_order]. rewrite app_nil_r, flat_rev.
  - f_equal. unfold absent. rewrite <- flat_filter. apply flat_seq. intros i k Hi. cbn [Nat.add]. rewrite nth_error_map, Hi. cbn [option_map].
    rewrite (nth_error_nth a i false (Ha i k Hi)). cbn [hd app]. destruct (existsb _ _); reflexivity.
  - intros i _. rewrite nth_error_map. destruct (nth_error ns i); cbn; [|lia]. destruct (_ || _); cbn; lia.
Qed.

(** An object whose names differ, from any source into a new struct: each member holds the tokens of its value;
    absent ones stay empty and are reported, the last first, and are an error unless allowed; unknown ones are reported. *)
Theorem C77_read_partial : forall S (next : token -> S -> outcome (S * error * token)) fuel ns c name ms s' nt',
  NoDup ns -> NoDup (map fst ms) -> (pc_allow_missing (c_cfg c) = true \/ incl (map fst ms) ns) ->
  stands next c (doc_tokens name (JObj ms)) s' nt' -> ntok (JObj ms) <= fuel ->
  exists vs c', tokstruct_to next fuel ns (repeat [] (length ns)) c =
      Ok (match absent ns ms with [] => NoError | _ => if pc_allow_unassigned (c_cfg c) then NoError else UnassignedRequiredMember end, vs, c') /\
    Forall2 (fun k ts => (forall j, In (k, j) ms -> map tok_view ts = doc_tokens (Some k) j) /\ (~ In k (map fst ms) -> ts = [])) ns vs /\
    c_err c' = NoError /\ c_src c' = s' /\ c_tok c' = nt' /\
    c_unassigned c' = c_unassigned c ++ (if pc_track (c_cfg c) then rev (absent ns ms) else []) /\
    c_missing c' = c_missing c ++ (if pc_track (c_cfg c) then filter (fun k => negb (existsb (bytes_eqb k) ns)) (map fst ms) else []).
Proof.
  intros S next fuel ns c name ms s' nt' Hns Hms Hmiss Hst Hf. destruct (ms_fuel ms fuel Hf) as [F1 F2].
  assert (Ht : c_type c = TObjectStart) by exact (proj2 (stands_view next c name (Some (JObj ms)) s' nt' Hst)).
  unfold tokstruct_to. rewrite Ht. cbn [type_eqb].
  destruct (enter_object next c ms name s' nt' Hst _ (or_intror eq_refl)) as (c1 & E & Hr & Hg & Hst'). rewrite E. cbn [obind is_ok].
  assert (Rep : forall A (x : A) n i, i < n -> nth_error (repeat x n) i = Some x).
  { intros A x n. induction n as [|n IH]; intros i H; [lia|]. destruct i; [reflexivity|]. apply IH. lia. }
  assert (Lt : forall i k, nth_error ns i = Some k -> i < length ns) by (intros i k Hi; apply nth_error_Some; congruence).
  destruct (members_read next fuel ns Hns ms Hms fuel (repeat [] (length ns)) (repeat false (length ns)) c1 s' nt')
    as (vs & a & c2 & R1 & (R2a & R2b & R2c) & R3 & R4 & R5 & R6 & R7 & R8).
  - apply repeat_length.
  - apply repeat_length.
  - intros i k Hi _. apply Rep, (Lt i k Hi).
  - rewrite Hg. exact Hmiss.
  - exact F2.
  - clear - F1. revert F1. induction ms as [|kv ms IH]; intros F; [constructor|]. rewrite msum_cons in F. constructor; [lia|]. apply IH. lia.
  - exact Hst'.
  - rewrite R1. cbn [obind is_ok]. rewrite (left_unassigned ns ms a R4).
    + assert (G : Forall2 (fun k ts => (forall j, In (k, j) ms -> map tok_view ts = doc_tokens (Some k) j) /\ (~ In k (map fst ms) -> ts = [])) ns vs).
      { assert (G : forall i k, nth_error ns i = Some k -> exists ts, nth_error vs i = Some ts /\
          (forall j, In (k, j) ms -> map tok_view ts = doc_tokens (Some k) j) /\ (~ In k (map fst ms) -> ts = [])).
        { intros i k Hi. destruct (R8 i k Hi) as [Q1 Q2]. destruct (nth_error vs i) as [ts|] eqn:Ev; [|apply nth_error_None in Ev; specialize (Lt i k Hi); lia].
          exists ts. split; [reflexivity|]. split.
          - intros j Hj. destruct (Q1 j Hj) as (_ & ts' & [= ->] & H). exact H.
          - intros Hn. destruct (Q2 Hn) as [_ W]. rewrite Rep in W by exact (Lt i k Hi). injection W as ->. reflexivity. }
        clear - G R3. revert vs R3 G. induction ns as [|k ns IH]; intros [|ts vs] R3 G; try discriminate R3; constructor.
        * destruct (G 0 k eq_refl) as (ts' & [= ->] & H). exact H.
        * apply IH; [injection R3; auto|]. intros i k' Hi. exact (G (Datatypes.S i) k' Hi). }
      unfold rep in Hr. injection Hr as Hm Hu. rewrite Hm, Hg in R7. rewrite Hu in R6. rewrite Hg in R5.
      destruct (rev (absent ns ms)) as [|x l] eqn:Ea.
      * exists vs, c2. assert (Z : absent ns ms = []) by (rewrite <- (rev_involutive (absent ns ms)), Ea; reflexivity). rewrite Z.
        split; [reflexivity|]. split; [exact G|]. repeat (split; [assumption|]). split; [|exact R7]. rewrite R6. destruct (pc_track (c_cfg c)); now rewrite app_nil_r.
      * exists vs, (add_unassigned (x :: l) c2). destruct (absent ns ms) as [|y r] eqn:Z; [discriminate Ea|].
        rewrite R5. split; [reflexivity|]. split; [exact G|]. unfold add_unassigned. rewrite R5, <- Ea.
        destruct (pc_track (c_cfg c)); cbn [c_err c_src c_tok c_unassigned c_missing]; rewrite ?R6, ?app_nil_r; rewrite ?app_nil_r in R7; repeat (split; [assumption || reflexivity|]); exact R7.
    + intros i k Hi. destruct (R8 i k Hi) as [Q1 Q2]. destruct (existsb (bytes_eqb k) (map fst ms)) eqn:Ex.
      * apply named_in, in_map_iff in Ex. destruct Ex as ([k' j] & Ek & Hkj). cbn in Ek. subst k'. exact (proj1 (Q1 j Hkj)).
      * rewrite (proj1 (Q2 ltac:(intros H; apply named_in in H; congruence))). apply Rep, (Lt i k Hi).
Qed.
Print Assumptions C77_read_partial.

(** What is not an object is refused, and nothing is changed. *)
Theorem C77_refused : forall S (next : token -> S -> outcome (S * error * token)) fuel ns vs c,
  tk_value_type (c_tok c) <> TObjectStart -> tokstruct_to next fuel ns vs c = Ok (ExpectedObjectStart, vs, c).
Proof.
  intros S next fuel ns vs c H. unfold tokstruct_to. change (c_type c) with (tk_value_type (c_tok c)).
  destruct (tk_value_type (c_tok c)); try reflexivity. congruence.
Qed.
Print Assumptions C77_refused.

(** The same for a text, with the error left in the context. *)
Theorem C77_text_partial : forall o g ns ms text fuel,
  o_nl o = false -> doc_text plain (JObj ms) text -> NoDup ns -> NoDup (map fst ms) ->
  (pc_allow_missing g = true \/ incl (map fst ms) ns) -> ntok (JObj ms) <= fuel ->
  let e := match absent ns ms with [] => NoError | _ => if pc_allow_unassigned g then NoError else UnassignedRequiredMember end in
  exists vs c, tokstruct_parseTo (nextToken o) fuel ns (repeat [] (length ns)) (context_of g text) = Ok (e, vs, c) /\ c_err c = e /\
    Forall2 (fun k ts => (forall j, In (k, j) ms -> map tok_view ts = doc_tokens (Some k) j) /\ (~ In k (map fst ms) -> ts = [])) ns vs.
Proof.
  intros o g ns ms text fuel Ho Hd Hns Hms Hmiss Hf e.
  destruct (text_feeds o g (JObj ms) text Ho Hd) as (s' & nt' & F).
  destruct (doc_tokens None (JObj ms)) as [|v0 r0] eqn:Ed; [discriminate Ed|].
  destruct (ctx_next_feeds (nextToken o) (context_of g text) v0 r0 s' nt' F) as (c1 & En & St & _ & Hg). rewrite <- Ed in St.
  destruct (C77_read_partial _ (nextToken o) fuel ns c1 None ms s' nt' Hns Hms) as (vs & c2 & E & Hvs & _); [rewrite Hg; exact Hmiss|exact St|exact Hf|].
  rewrite Hg in E. change (c_cfg (context_of g text)) with g in E. fold e in E.
  exists vs, (set_err e c2). split; [|split; [reflexivity|exact Hvs]]. unfold tokstruct_parseTo. rewrite En. cbn [obind is_ok]. rewrite E. reflexivity.
Qed.
Print Assumptions C77_text_partial.

Lemma chosen_ok ms ms' : incl ms' ms -> json_ok (JObj ms) -> names_nonempty (JObj ms) ->
  json_ok (JObj ms') /\ names_nonempty (JObj ms') /\ nesting (JObj ms') <= nesting (JObj ms).
Proof.
  intros Hi H1 H2. split; [|split].
  - inversion H1 as [| |? H]; subst. constructor. rewrite Forall_forall in *. auto.
  - inversion H2 as [| |? H]; subst. constructor. rewrite Forall_forall in *. auto.
  - cbn [nesting]. apply le_n_S. apply list_max_le. rewrite Forall_forall. intros x Hx. apply in_map_iff in Hx. destruct Hx as (kv & <- & Hkv).
    assert (L := proj1 (list_max_le _ _) (le_n (list_max (map (fun kv => nesting (snd kv)) ms)))). rewrite Forall_forall in L.
    apply L. apply in_map_iff. exists kv. auto.
Qed.

(** From text to text: the members of the object that are declared, in the order of the declaration. *)
Theorem C77_round_trip_partial : forall so n sup o g ns ms text fuel,
  o_nl o = false -> doc_text plain (JObj ms) text -> names_nonempty (JObj ms) ->
  NoDup ns -> NoDup (map fst ms) -> incl ns (map fst ms) -> (pc_allow_missing g = true \/ incl (map fst ms) ns) ->
  options_made so -> so_ascii so = true -> (so_depth so + N.of_nat (nesting (JObj ms)) <= 255)%N -> (forall k, 0 < sup k) ->
  ntok (JObj ms) <= fuel ->
  exists vs c ms' bs s, tokstruct_parseTo (nextToken o) fuel ns (repeat [] (length ns)) (context_of g text) = Ok (NoError, vs, c) /\
    map fst ms' = ns /\ incl ms' ms /\
    ser_writes (fst (tokstruct_from (combine ns vs) wname_default)) (ser_make so n sup) = Ok (bs, s) /\
    doc_text plain (JObj ms') (ser_output s).
Proof.
  intros so n sup o g ns ms text fuel Ho Hd Hnn Hns Hms Hin Hmiss Hso Ha Hdep Hs Hf. destruct (doc_text_ok _ _ _ Hd) as [Hok _].
  destruct (text_feeds o g (JObj ms) text Ho Hd) as (s' & nt' & F).
  destruct (doc_tokens None (JObj ms)) as [|v0 r0] eqn:Ed; [discriminate Ed|].
  destruct (ctx_next_feeds (nextToken o) (context_of g text) v0 r0 s' nt' F) as (c1 & En & St & _ & Hg). rewrite <- Ed in St.
  destruct (C77_read_partial _ (nextToken o) fuel ns c1 None ms s' nt' Hns Hms) as (vs & c2 & E & Hvs & _); [rewrite Hg; exact Hmiss|exact St|exact Hf|].
  assert (Ab : absent ns ms = []).
  { unfold absent. clear - Hin. induction ns as [|k ns IH]; [reflexivity|]. cbn [filter]. rewrite (proj2 (named_in k (map fst ms))) by (apply Hin; left; reflexivity).
    apply IH. intros x Hx. apply Hin. right. exact Hx. }
  rewrite Ab in E.
  assert (M : exists ms', map fst ms' = ns /\ incl ms' ms /\
    Forall2 (fun f kv => map tok_view (snd f) = doc_tokens (Some (fst kv)) (snd kv)) (combine ns vs) ms').
  { clear - Hvs Hin. induction Hvs as [|k ts ns vs [Hts _] _ IH].
    - exists []. split; [reflexivity|]. split; [intros x []|constructor].
    - destruct IH as (ms' & I1 & I2 & I3); [intros x Hx; apply Hin; right; exact Hx|].
      assert (Hj := Hin k (or_introl eq_refl)). apply in_map_iff in Hj. destruct Hj as ([k' j] & Ek & Hj). cbn in Ek. subst k'.
      exists ((k, j) :: ms'). cbn [map fst combine]. split; [congruence|]. split; [intros x [<-|Hx]; auto|]. constructor; auto. }
  destruct M as (ms' & M1 & M2 & M3). destruct (chosen_ok ms ms' M2 Hok Hnn) as (K1 & K2 & K3).
  destruct (C77_struct_partial so n sup (combine ns vs) ms' M3 K1 K2 Hso Ha ltac:(lia) Hs) as (bs & s & W1 & W2).
  exists vs, (set_err NoError c2), ms', bs, s. split; [|auto].
  unfold tokstruct_parseTo. rewrite En. cbn [obind is_ok]. rewrite E. reflexivity.
Qed.
Print Assumptions C77_round_trip_partial.

(** ** Cases *)
Definition kept_of (text : bytes) : list token :=
  match tokvec_parseTo (nextToken default_opts) 20 [] (context_of cfg_default text) with Ok (_, ts, _) => ts | _ => [] end.
Definition text_of (l : list token) : bytes :=
  match ser_writes l (ser_make (so_make false) 4096 (reformat_supply 4096)) with Ok (_, s) => ser_output s | _ => [] end.
(** The tokens of a member: those of the object around it without its brackets. *)
Definition inner {A} (l : list A) : list A := removelast (tl l).

Example C77_nonvacuous :
  let a := inner (kept_of (s2b "{""a"":[1,{}]}")) in let b := inner (kept_of (s2b "{""b"":2}")) in
  Forall2 (fun f kv => map tok_view (snd f) = doc_tokens (Some (fst kv)) (snd kv)) [(s2b "a", a); (s2b "b", b)]
    [(s2b "a", JArr [num (s2b "1"); JObj []]); (s2b "b", num (s2b "2"))] /\
  text_of (fst (tokstruct_from [(s2b "a", a); (s2b "b", b)] wname_default)) = s2b "{""a"":[1,{}],""b"":2}" /\
  text_of (fst (tokvector_from [kept_of (s2b "[1,{}]"); []; kept_of (s2b "{""x"":3}")] wname_default)) = s2b "[[1,{}],{""x"":3}]".
Proof.
  split; [constructor; [|constructor; [|constructor]]; vm_compute; reflexivity|]. split; vm_compute; reflexivity.
Qed.

(** One member absent, one unknown. *)
Example C77_read_nonvacuous :
  match tokstruct_parseTo (nextToken default_opts) 30 [s2b "a"; s2b "b"] [[]; []] (context_of cfg_default (s2b "{""b"":[1],""x"":{""y"":0}}")) with
  | Ok (e, vs, c) => e = (if pc_allow_unassigned cfg_default then NoError else UnassignedRequiredMember) /\ map (map tok_view) vs = [[]; doc_tokens (Some (s2b "b")) (JArr [num (s2b "1")])] /\
      c_missing c = [s2b "x"] /\ c_unassigned c = [s2b "a"]
  | _ => False
  end.
Proof. vm_compute. split; [|split; [|split]]; reflexivity. Qed.

Example C77_round_trip_nonvacuous :
  let text := s2b "{""b"":[1,{}],""x"":{""y"":0},""a"":2}" in
  let ms := [(s2b "b", JArr [num (s2b "1"); JObj []]); (s2b "x", JObj [(s2b "y", num (s2b "0"))]); (s2b "a", num (s2b "2"))] in
  let ns := [s2b "a"; s2b "b"] in
  doc_text plain (JObj ms) text /\ NoDup ns /\ NoDup (map fst ms) /\ incl ns (map fst ms) /\ pc_allow_missing cfg_default = true /\
  match tokstruct_parseTo (nextToken default_opts) 30 ns [[]; []] (context_of cfg_default text) with
  | Ok (NoError, vs, _) => text_of (fst (tokstruct_from (combine ns vs) wname_default)) = s2b "{""a"":2,""b"":[1,{}]}"
  | _ => False
  end.
Proof.
  cbv zeta. split; [apply (show_doc (JObj [(s2b "b", JArr [num (s2b "1"); JObj []]); (s2b "x", JObj [(s2b "y", num (s2b "0"))]); (s2b "a", num (s2b "2"))])); [reflexivity|exact I]|].
  split; [repeat (constructor; [cbn; intuition discriminate|]); constructor|].
  split; [repeat (constructor; [cbn; intuition discriminate|]); constructor|].
  split; [intros x [<-|[<-|[]]]; cbn; auto|]. split; [reflexivity|]. vm_compute. reflexivity.
Qed.

(** ** Where it fails *)

(** Tokens read as a whole document and stored in a member: the name of the member is not written, and the text
    is no JSON; with tokens of another member, its name is written; in a vector, the name stays. *)
Theorem C77_name_refuted :
  let whole := kept_of (s2b "[1]") in let a := inner (kept_of (s2b "{""a"":1}")) in
  text_of (fst (tokstruct_from [(s2b "m", whole)] wname_default)) = s2b "{[1]}" /\
  text_of (fst (tokstruct_from [(s2b "m", a)] wname_default)) = s2b "{""a"":1}" /\
  text_of (fst (tokvector_from [a] wname_default)) = s2b "[""a"":1]".
Proof. split; [|split]; vm_compute; reflexivity. Qed.
Print Assumptions C77_name_refuted.
