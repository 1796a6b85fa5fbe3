(** C57: token vectors keep the tokens of a value, which can be read again and written again. *)
From Coq Require Import Lia.
From Verif Require Import Base Tactics ScanModel TokModel JsonSpec TokSpec SerModel SerSpec SerDoc HandlerModel HandlerSpec HandlerTree HandlerLaws HandlerProps HandlerStruct HandlerText ShowJson TokVecModel PropTok PropStruct PropSer.

(** ** Proofs *)
Lemma json_ind2 (P : json -> Prop) (Hs : forall s, P (JScalar s)) (Ha : forall els, Forall P els -> P (JArr els))
  (Ho : forall ms, Forall (fun kv => P (snd kv)) ms -> P (JObj ms)) : forall j, P j.
Proof.
  fix rec 1. intros [s|els|ms]; [apply Hs|apply Ha|apply Ho].
  - induction els as [|j r IH]; constructor; [apply rec|exact IH].
  - induction ms as [|[k j] r IH]; constructor; [apply rec|exact IH].
Qed.

(** The level after the tokens, if it is 0 only at the end. *)
Fixpoint lev (n : nat) (l : list stoken) : option nat :=
  match l with
  | [] => Some n
  | v :: r => match n with O => None | S _ => lev (tv_level (st_value_type v) n) r end
  end.

Lemma lev_app l1 : forall n m l2, lev n l1 = Some m -> lev n (l1 ++ l2) = lev m l2.
Proof.
  induction l1 as [|v l1 IH]; intros n m l2 H; [injection H as ->; reflexivity|].
  cbn [app lev] in *. destruct n; [discriminate H|]. apply IH. exact H.
Qed.

Lemma st_make_type name v t : st_value_type (st_make name v t) = t.
Proof. destruct name; reflexivity. Qed.

Lemma lev_doc j : forall name n, lev (S n) (doc_tokens name j) = Some (S n).
Proof.
  induction j as [s|els IH|ms IH] using json_ind2; intros name n; cbn [doc_tokens lev]; rewrite st_make_type.
  - destruct s; reflexivity.
  - rewrite (lev_app _ _ (S (S n))); [reflexivity|]. cbn [tv_level]. induction IH as [|j r Hj _ IHr]; [reflexivity|].
    cbn [flat_map]. rewrite (lev_app _ _ (S (S n))); [exact IHr|apply Hj].
  - rewrite (lev_app _ _ (S (S n))); [reflexivity|]. cbn [tv_level]. induction IH as [|j r Hj _ IHr]; [reflexivity|].
    cbn [flat_map]. rewrite (lev_app _ _ (S (S n))); [exact IHr|apply Hj].
Qed.

Lemma lev_rest j name : is_container j -> exists v r, doc_tokens name j = v :: r /\ (st_value_type v = TArrayStart \/ st_value_type v = TObjectStart) /\ lev 1 r = Some 0.
Proof.
  destruct j as [s|els|ms]; [contradiction| |]; intros _; cbn [doc_tokens]; eexists _, _; (split; [reflexivity|]); rewrite st_make_type; (split; [auto|]).
  - rewrite (lev_app _ _ 1); [reflexivity|]. induction els as [|j r IHr]; [reflexivity|]. cbn [flat_map]. rewrite (lev_app _ _ 1); [exact IHr|apply lev_doc].
  - rewrite (lev_app _ _ 1); [reflexivity|]. induction ms as [|j r IHr]; [reflexivity|]. cbn [flat_map]. rewrite (lev_app _ _ 1); [exact IHr|apply lev_doc].
Qed.

(** Before the last token of a value the level is not zero. *)
Lemma lev_before l1 : forall n k l2, lev n (l1 ++ l2) = Some k -> l2 <> [] -> exists m, lev n l1 = Some (S m).
Proof.
  induction l1 as [|v l1 IH]; intros n k l2 H Hn.
  - destruct l2; [contradiction|]. destruct n; [discriminate H|]. exists n. reflexivity.
  - cbn [app lev] in H |- *. destruct n; [discriminate H|]. exact (IH _ _ _ H Hn).
Qed.

Section Capture.
Context {S : Type} (next : token -> S -> outcome (S * error * token)).

Lemma loop_lev nt s l s' nt' : feeds next nt s l s' nt' -> forall n m, lev n l = Some m -> exists ts, map tok_view ts = l /\
  forall f acc c, c_tok c = nt -> c_src c = s -> c_err c = NoError ->
    tokvec_loop next (length l + f) n acc c = tokvec_loop next f m (acc ++ ts) (moved c s' nt').
Proof.
  induction 1 as [nt s|nt s s1 nt1 v r s' nt' Hn Hv F IH]; intros n m Hl.
  - injection Hl as ->. exists []. split; [reflexivity|]. intros f acc c <- <- He. rewrite app_nil_r. cbn [length Nat.add].
    f_equal. destruct c. cbn in *. subst. reflexivity.
  - cbn [lev] in Hl. destruct n as [|n]; [discriminate Hl|]. subst v. destruct (IH _ _ Hl) as (ts & Hts & IH').
    exists (nt1 :: ts). split; [cbn [map]; now rewrite Hts|]. intros f acc c <- <- He. cbn [length Nat.add tokvec_loop].
    unfold ctx_next, ctx_read. rewrite Hn. cbn [obind is_ok set_err c_tok c_type].
    rewrite IH'; [|reflexivity..]. rewrite <- app_assoc. reflexivity.
Qed.
End Capture.

Lemma parsed_feeds o ts : forall k nt s, t_scope s = [] -> t_parsed s = Some ts -> t_cur s = k -> k < length ts ->
  exists s' nt', feeds (nextToken o) nt s (map tok_view (skipn k ts)) s' nt' /\ t_scope s' = [].
Proof.
  assert (W : forall n k nt s, length ts = k + S n -> t_scope s = [] -> t_parsed s = Some ts -> t_cur s = k ->
    exists s' nt', feeds (nextToken o) nt s (map tok_view (skipn k ts)) s' nt' /\ t_scope s' = []).
  { induction n as [|n IH]; intros k nt s Hl Hsc Hp Hk.
    - destruct (nth_error ts k) as [tk|] eqn:E; [|apply nth_error_None in E; lia].
      assert (Es : skipn k ts = [tk]).
      { destruct (nth_error_split ts k E) as (l1 & l2 & El & Hl1). rewrite El in Hl |- *. rewrite app_length in Hl. cbn [length] in Hl.
        destruct l2; [|cbn [length] in Hl; lia]. rewrite <- Hl1, skipn_app, skipn_all, Nat.sub_diag. reflexivity. }
      rewrite Es. eexists _, tk. split.
      + eapply Fd_cons; [|reflexivity|apply Fd_nil]. unfold nextToken. rewrite Hsc, Hp, Hk, E. cbn [obind].
        destruct (S k =? length ts) eqn:E2; [reflexivity|apply Nat.eqb_neq in E2; lia].
      + unfold scope_handle. cbn. now rewrite Hsc.
    - destruct (nth_error ts k) as [tk|] eqn:E; [|apply nth_error_None in E; lia].
      assert (Es : skipn k ts = tk :: skipn (S k) ts).
      { destruct (nth_error_split ts k E) as (l1 & l2 & El & Hl1). rewrite El. rewrite <- Hl1. clear.
        induction l1; [reflexivity|exact IHl1]. }
      rewrite Es. cbn [map]. set (s1 := scope_handle (tk_value_type tk) (set_cur (S k) s)).
      destruct (IH (S k) tk s1) as (s' & nt' & F & Hs'); try lia; try (unfold s1, scope_handle; cbn; rewrite Hsc; assumption || reflexivity).
      exists s', nt'. split; [|exact Hs']. eapply Fd_cons; [|reflexivity|exact F]. unfold nextToken. rewrite Hsc, Hp, Hk, E.
      destruct (S k =? length ts) eqn:E2; [apply Nat.eqb_eq in E2; lia|]. unfold s1. rewrite <- Hk. reflexivity. }
  intros k nt s Hsc Hp Hk Hlt. apply (W (length ts - k - 1)); auto; lia.
Qed.

(** ** Theorems *)

(** Standing on the tokens of an array or object, whatever the source and whatever comes later: the vector
    holds exactly these tokens, nothing of its old content, and the context stands on the last of them. *)
Theorem C57_keeps_the_tokens : forall S (next : token -> S -> outcome (S * error * token)) fuel v c name j s' nt',
  is_container j -> stands next c (doc_tokens name j) s' nt' -> length (doc_tokens name j) <= fuel ->
  exists ts c', tokvec_to next fuel v c = Ok (NoError, ts, c') /\ map tok_view ts = doc_tokens name j /\
    c_err c' = NoError /\ c_src c' = s' /\ c_tok c' = nt' /\ c_missing c' = c_missing c /\ c_unassigned c' = c_unassigned c /\ c_cfg c' = c_cfg c.
Proof.
  intros S next fuel v c name j s' nt' Hc (He & r & E & F) Hl.
  destruct (lev_rest j name Hc) as (v0 & r0 & E0 & Ht & Hlev). rewrite E in E0, Hl. injection E0 as Ev <-. rewrite <- Ev in Ht. cbn [tok_view st_value_type] in Ht.
  destruct (loop_lev next _ _ _ _ _ F 1 0 Hlev) as (ts & Hts & H).
  exists (c_tok c :: ts), (moved c s' nt'). split; [|split; [cbn [map]; rewrite Hts; symmetry; exact E|repeat split]].
  unfold tokvec_to, c_type. cbn [length] in Hl. replace fuel with (length r + (fuel - length r)) by lia.
  rewrite (H (fuel - length r) [c_tok c] c eq_refl eq_refl He). destruct (fuel - length r); destruct Ht as [-> | ->]; reflexivity.
Qed.
Print Assumptions C57_keeps_the_tokens.

(** The source fails in the middle of an array or object, with whatever error: that error is returned and kept
    in the context, and the vector holds the tokens read so far and the token of the failed call. *)
Theorem C57_failure : forall S (next : token -> S -> outcome (S * error * token)) fuel v c name j p q s' nt' s2 e nt2,
  is_container j -> doc_tokens name j = p ++ q -> q <> [] -> stands next c p s' nt' ->
  next nt' s' = Ok (s2, e, nt2) -> e <> NoError -> length p <= fuel ->
  exists ts c', tokvec_to next fuel v c = Ok (e, ts ++ [nt2], c') /\ map tok_view ts = p /\
    c_err c' = e /\ c_src c' = s2 /\ c_tok c' = nt2 /\ c_missing c' = c_missing c /\ c_unassigned c' = c_unassigned c.
Proof.
  intros S next fuel v c name j p q s' nt' s2 e nt2 Hc Hj Hq (He & r & E & F) Hn Hne Hl.
  destruct (lev_rest j name Hc) as (v0 & r0 & E0 & Ht & Hlev). rewrite E0, E in Hj. rewrite E in Hl. cbn [app] in Hj. injection Hj as Ev Er.
  rewrite Ev in Ht. cbn [tok_view st_value_type] in Ht. rewrite Er in Hlev.
  destruct (lev_before r 1 0 q Hlev Hq) as (m & Hm).
  destruct (loop_lev next _ _ _ _ _ F 1 (Datatypes.S m) Hm) as (ts & Hts & H).
  exists (c_tok c :: ts). eexists. split; [|split; [cbn [map]; rewrite Hts; symmetry; exact E|]].
  - unfold tokvec_to, c_type. cbn [length] in Hl. replace fuel with (length r + Datatypes.S (fuel - length r - 1)) by lia.
    rewrite (H (Datatypes.S (fuel - length r - 1)) [c_tok c] c eq_refl eq_refl He).
    assert (L : tokvec_loop next (Datatypes.S (fuel - length r - 1)) (Datatypes.S m) ([c_tok c] ++ ts) (moved c s' nt') =
      Ok (e, (c_tok c :: ts) ++ [nt2], mkCtx s2 nt2 e (c_missing c) (c_unassigned c) (c_cfg c))).
    { cbn [tokvec_loop]. unfold ctx_next, ctx_read. cbn [moved c_tok c_src]. rewrite Hn. destruct e; [contradiction| ..]; reflexivity. }
    destruct Ht as [-> | ->]; exact L.
  - repeat split.
Qed.
Print Assumptions C57_failure.

(** A scalar is added behind the old content. *)
Theorem C57_scalar_partial : forall S (next : token -> S -> outcome (S * error * token)) fuel v c name s s' nt',
  stands next c (doc_tokens name (JScalar s)) s' nt' ->
  tokvec_to next fuel v c = Ok (NoError, v ++ [c_tok c], c) /\ map tok_view [c_tok c] = doc_tokens name (JScalar s).
Proof.
  intros S next fuel v c name s s' nt' (He & r & E & F). cbn [doc_tokens] in E. injection E as E <-. split; [|cbn; now rewrite <- E].
  unfold tokvec_to, c_type. assert (Ht : tk_value_type (c_tok c) = scalar_type s) by (rewrite <- (st_make_type name (scalar_value s)), E; reflexivity).
  rewrite Ht, He. destruct s; reflexivity.
Qed.
Print Assumptions C57_scalar_partial.

(** Reading kept tokens, which may start with a name, into an object of any type: the same as reading the value
    itself.  Any context outside of scopes, whatever it has read before. *)
Theorem C57_replay_partial : forall o ts c name j t v fuel,
  map tok_view ts = doc_tokens name j -> t_scope (c_src c) = [] -> ty_ok t -> shaped t v -> fits t (Some j) ->
  length ts <= fuel ->
  exists e v' m u c', parseTo (nextToken o) fuel t v (replaying ts c) = Ok (e, v', c') /\
    read_value (c_cfg c) t v j = Ok (e, v', (m, u)) /\
    c_missing c' = c_missing c ++ m /\ c_unassigned c' = c_unassigned c ++ u.
Proof.
  intros o ts c name j t v fuel Hts Hsc Ht Hv Hf Hl.
  assert (Hpos : 0 < length ts).
  { rewrite <- (map_length tok_view), Hts. destruct j; cbn [doc_tokens length]; lia. }
  destruct (parsed_feeds o ts 0 (c_tok c) (resetParsed ts 0 (c_src c)) Hsc eq_refl eq_refl Hpos) as (s' & nt' & F & _).
  rewrite skipn_O, Hts in F. unfold parseTo.
  destruct (doc_tokens name j) as [|v0 r] eqn:Ed; [destruct ts; [cbn in Hpos; lia|discriminate Hts]|].
  destruct (ctx_next_feeds (nextToken o) (replaying ts c) v0 r s' nt' F) as (c1 & En & St & Hr & Hg). rewrite En. cbn [obind is_ok].
  rewrite <- Ed in St.
  destruct (to_read (nextToken o) fuel t v c1 name j s' nt' Ht Hv Hf St) as (e & v' & m & u & c2 & A & B & C & D & _).
  { rewrite Ed, <- Hts, map_length. exact Hl. }
  rewrite B. cbn [obind]. exists e, v', m, u, (set_err e c2). split; [reflexivity|]. rewrite Hg in A. split; [exact A|].
  unfold rep in Hr. cbn [replaying c_missing c_unassigned] in Hr. injection Hr as Hm Hu. cbn [set_err c_missing c_unassigned].
  rewrite C, D, Hm, Hu. split; reflexivity.
Qed.
Print Assumptions C57_replay_partial.

(** Keeping the tokens of a text and reading them later is the same as reading the text. *)
Theorem C57_deferred_partial : forall o g t v j text fuel,
  o_nl o = false -> doc_text plain j text -> ty_ok t -> shaped t v -> fits t (Some j) -> length (doc_tokens None j) <= fuel ->
  exists ts c, tokvec_parseTo (nextToken o) fuel [] (context_of g text) = Ok (NoError, ts, c) /\
    forall g' e v' r, parses o g' t v text e v' r <->
      exists n, forall f, n <= f -> exists c',
        parseTo (nextToken o) f t v (replaying ts (mkCtx t_init tok_default NoError [] [] g')) = Ok (e, v', c') /\ r = (c_missing c', c_unassigned c').
Proof.
  intros o g t v j text fuel Ho Hd Ht Hv Hf Hl. destruct (doc_text_ok _ _ _ Hd) as [_ Hc].
  destruct (text_feeds o g j text Ho Hd) as (s' & nt' & F).
  destruct (doc_tokens None j) as [|v0 r0] eqn:Ed; [destruct j; discriminate Ed|].
  destruct (ctx_next_feeds (nextToken o) (context_of g text) v0 r0 s' nt' F) as (c1 & En & St & _ & _). rewrite <- Ed in St.
  destruct (C57_keeps_the_tokens _ (nextToken o) fuel [] c1 None j s' nt' Hc St) as (ts & c2 & E & Hts & _); [rewrite Ed; exact Hl|].
  exists ts, (set_err NoError c2). split; [unfold tokvec_parseTo; rewrite En; cbn [obind is_ok]; rewrite E; reflexivity|].
  intros g' e v' r. rewrite (parses_read o g' t v j text e v' r Ht Hv Hf Ho Hd).
  set (c0 := mkCtx t_init tok_default NoError [] [] g').
  assert (R := fun f => C57_replay_partial o ts c0 None j t v f Hts eq_refl Ht Hv Hf). split.
  - intros H. exists (length ts). intros f Hlf. destruct (R f Hlf) as (e1 & v1 & m & u & c' & A & B & C & D).
    cbn [c0 c_cfg c_missing c_unassigned app] in B, C, D. rewrite H in B. injection B as <- <- ->. exists c'. rewrite C, D. auto.
  - intros (n & H). destruct (H (max n (length ts)) ltac:(lia)) as (c' & A & ->).
    destruct (R (max n (length ts)) ltac:(lia)) as (e1 & v1 & m & u & c3 & A' & B & C & D). rewrite A in A'. injection A' as <- <- <-.
    cbn [c0 c_cfg c_missing c_unassigned app] in B, C, D. rewrite B, C, D. reflexivity.
Qed.
Print Assumptions C57_deferred_partial.

(** Writing kept tokens of a document gives a text of it.  Members with empty names: see C14. *)
Theorem C57_written_again_partial : forall so n sup j ts,
  options_made so -> (forall k, 0 < sup k) -> json_ok j -> is_container j -> names_nonempty j ->
  (so_depth so + N.of_nat (nesting j) <= 255)%N -> map tok_view ts = doc_tokens None j ->
  exists s, tokvec_from ts (ser_make so n sup) = Ok (repeat true (length ts), s) /\ doc_text plain j (ser_output s).
Proof.
  intros so n sup j ts H1 H2 H3 H4 H5 H6 H7.
  destruct (C14_serialized_tokens_read_back_partial so n sup default_opts j ts H1 H2 eq_refl H3 H4 H5 H6 H7) as (s & A & B & _). eauto.
Qed.
Print Assumptions C57_written_again_partial.

Example C57_nonvacuous :
  let j := JObj [(s2b "a", JArr [num (s2b "1"); JObj []]); (s2b "b", num (s2b "2"))] in
  doc_text plain j (show j) /\ fits (YMap (YNullable (YVec (YInt I32)))) (Some j) /\
  exists ts c, tokvec_parseTo (nextToken default_opts) 20 [tok_default] (context_of cfg_default (s2b "{""a"":[1,{}],""b"":2}")) = Ok (NoError, ts, c) /\
    map tok_view ts = doc_tokens None j /\ length ts = 8.
Proof.
  split; [apply show_doc; [reflexivity|exact I]|]. split; [fits_tac|].
  eexists _, _. split; [vm_compute; reflexivity|]. split; reflexivity.
Qed.

(** A text that ends inside the inner array. *)
Example C57_failure_nonvacuous :
  exists ts c, tokvec_parseTo (nextToken default_opts) 20 [] (context_of cfg_default (s2b "{""a"":[1,2,")) = Ok (NeedMoreData, ts, c) /\
    map tok_view (firstn 4 ts) = firstn 4 (doc_tokens None (JObj [(s2b "a", JArr [num (s2b "1"); num (s2b "2")])])) /\ length ts = 5.
Proof. eexists _, _. split; [vm_compute; reflexivity|]. split; reflexivity. Qed.

(** Read twice into the same vector, an array replaces the first one, but a scalar member comes on top of the
    old tokens: reading a second document whose member is 2 where the first had 1 leaves both tokens. *)
Theorem C57_scalar_appends_refuted :
  let c k := mkCtx [] (token_of (st_make (Some (s2b "a")) k TNumber)) NoError [] [] cfg_default in
  tokvec_to list_next 10 [] (c (s2b "1")) = Ok (NoError, [c_tok (c (s2b "1"))], c (s2b "1")) /\
  tokvec_to list_next 10 [c_tok (c (s2b "1"))] (c (s2b "2")) = Ok (NoError, [c_tok (c (s2b "1")); c_tok (c (s2b "2"))], c (s2b "2")).
Proof. split; reflexivity. Qed.
Print Assumptions C57_scalar_appends_refuted.
