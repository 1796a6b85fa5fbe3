(** Proofs about the uses of JS::Map. *)
From Coq Require Import Lia.
From Verif Require Import Base Tactics ScanModel TokModel JsonSpec TokSpec SerModel SerSpec SerDoc SerProofs HandlerModel HandlerSpec HandlerTree HandlerLaws HandlerProps HandlerStruct HandlerText WriteModel RoundSpec RoundProofs TokVecModel MapModel MapSpec MapProofs MapProofs2 MapProofs3 MapUseModel PropMap PropTokVec.

Lemma view_type tk : tk_value_type tk = st_value_type (tok_view tk).
Proof. reflexivity. Qed.

(** ** Reading a part of the tokens *)

Lemma cast_at o fuel m i t v c name j :
  map tok_view (firstn (ntok j) (skipn i (mp_tokens m))) = doc_tokens name j -> t_scope (c_src c) = [] ->
  ty_ok t -> shaped t v -> fits t (Some j) -> ntok j <= fuel ->
  exists e v' rm ru c', map_cast_at o fuel m i t v c = Ok (e, v', c') /\ read_value (c_cfg c) t v j = Ok (e, v', (rm, ru)) /\
    c_missing c' = c_missing c ++ rm /\ c_unassigned c' = c_unassigned c ++ ru.
Proof.
  intros Hv Hsc Ht Hsh Hf Hl.
  assert (Hlen : length (doc_tokens name j) = ntok j) by apply ntok_name.
  assert (Hpos : 0 < ntok j) by (unfold ntok; destruct j; cbn [doc_tokens length]; lia).
  assert (Hi : i < length (mp_tokens m)).
  { destruct (Nat.lt_ge_cases i (length (mp_tokens m))) as [H|H]; [exact H|].
    rewrite skipn_all2, firstn_nil in Hv by exact H. rewrite <- Hv in Hlen. cbn in Hlen. lia. }
  destruct (parsed_feeds o (mp_tokens m) i (c_tok c) (resetParsed (mp_tokens m) i (c_src c)) Hsc eq_refl eq_refl Hi) as (s2 & nt2 & F & _).
  rewrite <- (firstn_skipn (ntok j) (skipn i (mp_tokens m))), map_app, Hv in F.
  destruct (feeds_app (nextToken o) _ _ _ _ _ _ F) as (s1 & nt1 & F1 & _). clear F.
  destruct (doc_tokens name j) as [|v0 r] eqn:Ed; [cbn in Hlen; lia|].
  destruct (ctx_next_feeds (nextToken o) (replaying_at (mp_tokens m) i c) v0 r s1 nt1 F1) as (c1 & En & St & Hr & Hg).
  unfold map_cast_at. rewrite En. cbn [obind]. rewrite <- Ed in St.
  destruct (to_read (nextToken o) fuel t v c1 name j s1 nt1 Ht Hsh Hf St) as (e & v' & rm & ru & c2 & A & B & C & D & _).
  { rewrite Ed, Hlen. exact Hl. }
  rewrite B. exists e, v', rm, ru, c2. split; [reflexivity|]. rewrite Hg in A. split; [exact A|].
  unfold rep in Hr. cbn [replaying_at c_missing c_unassigned] in Hr. injection Hr as Hm Hu. rewrite C, D, Hm, Hu. split; reflexivity.
Qed.

Lemma cast_name o fuel m ms d name t v c : is_map ms d m -> name <> [] ->
  map_cast o fuel m name t v c =
  match map_locate m name with
  | Ok (Some i) => map_cast_at o fuel m i t v c
  | Ok None => Ok (KeyNotFound, v, set_err KeyNotFound c)
  | UB => UB
  | OutOfFuel => OutOfFuel
  end.
Proof.
  intros (t0 & mid & t1 & Ht & T0 & _) _. unfold map_cast, map_locate.
  assert (E : forall A (a b : A), match mp_tokens m with [] => a | t0 :: _ => if type_eqb (tk_value_type t0) TObjectStart then b else a end = b).
  { intros A a b. rewrite Ht, T0. reflexivity. }
  rewrite !E. clear. destruct (map_find m name) as [it| |]; cbn [obind]; [|reflexivity..]. destruct (Nat.eqb (it_index it) (length (mp_tokens m))); reflexivity.
Qed.

(** ** The texts *)

Lemma tokens_text so l j : map (fun tk => tok_view (strip tk)) l = doc_tokens None j -> Forall plain_tok l ->
  json_ok j -> names_nonempty j -> is_container j -> options_made so -> so_ascii so = true -> (so_depth so + N.of_nat (nesting j) <= 255)%N ->
  exists text, (let* (_, s) := ser_writes l (ser_make so 4096 (reformat_supply 4096)) in Ok (ser_output s)) = Ok text /\ doc_text plain j text.
Proof.
  intros Hv Hp Hok Hnn Hc Hso Ha Hd. rewrite <- map_map in Hv.
  destruct (all_written j Hok Hnn (map strip l) None true true so Hv I (options_good so Hso) Hd) as (w & w3 & t' & Hw & _ & Ht & B1 & B2 & _).
  destruct (ser_writes_generous l (ser_make so 4096 (reformat_supply 4096))) as (s & R1 & R2 & R3 & R4 & R5).
  { split; cbn -[Nat.mul]; [lia|constructor]. }
  { intros k. cbn -[Nat.mul Nat.pow]. unfold reformat_supply. apply Nat.mul_pos_pos; [lia|]. assert (2 ^ k <> 0) by (apply Nat.pow_nonzero; discriminate). lia. }
  rewrite R1. cbn [obind]. eexists. split; [reflexivity|]. rewrite R5.
  change (cfg_of (ser_make so 4096 (reformat_supply 4096))) with (true, true, so).
  destruct (strip_written l true true so Hp Ha) as [<- _]. rewrite B1. cbn [start_comma nametext app].
  split; [exact Hc|]. exists w, t', []. rewrite app_nil_r. repeat split; auto. constructor.
Qed.

(** The names of the tokens of a document have the type TString; tokens without a name TAscii. *)
Definition right_name (v : stoken) : Prop := st_name_type v = match st_name v with [] => TAscii | _ => TString end.

Lemma doc_right j : names_nonempty j -> forall name, name <> Some [] -> Forall right_name (doc_tokens name j).
Proof.
  assert (M : forall name v t, name <> Some [] -> right_name (st_make name v t)).
  { intros [[|c k]|] v t H; [congruence|reflexivity..]. }
  induction j as [s|els IH|ms IH] using json_ind2; intros Hn name Hne; cbn [doc_tokens].
  - constructor; [apply M, Hne|constructor].
  - constructor; [apply M, Hne|]. apply Forall_app. split; [|constructor; [apply M; discriminate|constructor]].
    inversion Hn as [|? Hels|]; subst. clear Hn. induction els as [|x els IHl]; [constructor|]. cbn [flat_map].
    apply Forall_app. split; [apply (Forall_inv IH); [exact (Forall_inv Hels)|discriminate]|].
    apply IHl; [exact (Forall_inv_tail IH)|exact (Forall_inv_tail Hels)].
  - constructor; [apply M, Hne|]. apply Forall_app. split; [|constructor; [apply M; discriminate|constructor]].
    inversion Hn as [| |? Hms]; subst. clear Hn. induction ms as [|x ms IHl]; [constructor|]. cbn [flat_map].
    apply Forall_app. split; [|apply IHl; [exact (Forall_inv_tail IH)|exact (Forall_inv_tail Hms)]].
    destruct (Forall_inv Hms) as [H1 H2]. apply (Forall_inv IH); [exact H2|congruence].
Qed.

Lemma right_strip ts : Forall right_name (map tok_view ts) -> map (fun tk => tok_view (strip tk)) ts = map tok_view ts /\ Forall plain_tok ts.
Proof.
  induction ts as [|tk ts IH]; intros H; [split; constructor|]. cbn [map] in H. destruct (IH (Forall_inv_tail H)) as [A B].
  assert (Hr := Forall_inv H). unfold right_name in Hr. cbn [tok_view st_name_type st_name] in Hr. split.
  - cbn [map]. rewrite A. f_equal. unfold tok_view, strip. cbn. rewrite <- Hr. reflexivity.
  - constructor; [|exact B]. unfold plain_tok. rewrite Hr. destruct (dr_bytes (tk_name tk)); auto.
Qed.

Lemma member_right ms : names_nonempty (JObj ms) -> Forall right_name (member_tokens ms).
Proof.
  intros H. assert (D := doc_right (JObj ms) H None ltac:(discriminate)). cbn [doc_tokens] in D.
  apply Forall_inv_tail, Forall_app in D. exact (proj1 D).
Qed.

(** What a Map writes. *)
Lemma jmap_writes ms d m n : is_map ms d m -> names_nonempty (JObj ms) -> plain_name n ->
  exists l n', jmap_from m n = (l, n') /\ map (fun tk => tok_view (strip tk)) l = doc_tokens (name_of n) (JObj ms) /\
    Forall plain_tok l /\ plain_name n' /\ (wn n = [] -> wn n' = []).
Proof.
  intros (t0 & mid & t1 & Ht & T0 & T1 & (N1 & V0 & V1 & P0 & P1) & Hmid & _) Hnn Hn. unfold jmap_from. rewrite Ht.
  destruct (right_strip mid) as [S P]; [rewrite Hmid; apply member_right, Hnn|].
  eexists _, n. split; [reflexivity|]. split; [|split; [|auto]].
  - cbn [map doc_tokens]. f_equal.
    + unfold tok_view, strip, st_make, name_of. cbn. rewrite V0, T0. destruct (wn n); reflexivity.
    + rewrite map_app, S, Hmid. unfold member_tokens. f_equal. cbn [map]. unfold tok_view, strip, st_make. cbn. rewrite N1, V1, T1. reflexivity.
  - constructor; [exact P0|]. apply Forall_app. split; [exact P|]. constructor; [exact P1|constructor].
Qed.

(** What setValue writes for one member. *)
Lemma member_text_ok i name t v j : name <> [] -> str_body name -> storable i t v -> render i t v = Some j -> nesting j <= 254 ->
  exists text, member_text i name t v = Ok text /\ doc_text plain (JObj [(name, j)]) text.
Proof.
  intros Hne Hb Hs Hr Hd. destruct (all_restored cfg_default i t v j Hs Hr) as (Hok & Hnn & _).
  unfold member_text. assert (W := all_written_as i t v Hs). rewrite Hr in W.
  destruct (W (mkWn name TString) (or_introl eq_refl)) as (l & n' & E & Hv & Hp & Hn' & _). rewrite E.
  apply tokens_text.
  - cbn [map]. rewrite map_app, Hv. cbn [map doc_tokens flat_map fst snd tokens_of]. rewrite app_nil_r, !view_wtok.
    unfold name_of at 2. cbn [wn]. destruct name; [congruence|]. reflexivity.
  - constructor; [left; reflexivity|]. apply Forall_app. split; [exact Hp|]. constructor; [exact Hn'|constructor].
  - constructor. constructor; [auto|constructor].
  - constructor. constructor; [auto|constructor].
  - exact I.
  - constructor.
  - reflexivity.
  - cbn [so_make so_depth nesting map list_max fst snd]. cbn. lia.
Qed.

(** The tokens of a text. *)
Lemma text_tokens o g j text c : o_nl o = false -> doc_text plain j text -> c = context_of g text ->
  forall fuel, ntok j <= fuel ->
  exists ts c', tokvec_parseTo (nextToken o) fuel [] c = Ok (NoError, ts, c') /\ map tok_view ts = doc_tokens None j /\ c_err c' = NoError.
Proof.
  intros Ho Hd -> fuel Hl. destruct (doc_text_ok _ _ _ Hd) as [_ Hc].
  destruct (text_feeds o g j text Ho Hd) as (s' & nt' & F).
  destruct (doc_tokens None j) as [|v0 r0] eqn:Ed; [destruct j; discriminate Ed|].
  destruct (ctx_next_feeds (nextToken o) (context_of g text) v0 r0 s' nt' F) as (c1 & En & St & _ & _). rewrite <- Ed in St.
  destruct (C57_keeps_the_tokens _ (nextToken o) fuel [] c1 None j s' nt' Hc St Hl) as (ts & c2 & E & Hts & _).
  exists ts, (set_err NoError c2). split; [unfold tokvec_parseTo; rewrite En; cbn [obind is_ok]; rewrite E; reflexivity|].
  split; [rewrite Hts; exact Ed|reflexivity].
Qed.

Lemma ntok_one name j : ntok (JObj [(name, j)]) = ntok j + 2.
Proof.
  unfold ntok. cbn [doc_tokens flat_map fst snd]. rewrite app_nil_r. cbn [length]. rewrite app_length. cbn [length].
  rewrite (ntok_name (Some name)). unfold ntok. lia.
Qed.

Lemma set_works i o fuel ms d m name t v j : is_map ms d m -> name <> [] -> str_body name -> replaceable name ms = true ->
  storable i t v -> render i t v = Some j -> nesting j <= 254 -> o_nl o = false -> ntok j + 2 <= fuel ->
  exists m', map_set i o fuel m name t v = Ok m' /\ is_map (set_member name j ms) d m'.
Proof.
  intros Hm Hne Hb Hrep Hs Hr Hd Ho Hl. destruct (member_text_ok i name t v j Hne Hb Hs Hr Hd) as (text & E & D).
  unfold map_set. rewrite E. cbn [obind].
  destruct (text_tokens o cfg_default _ text _ Ho D eq_refl fuel) as (ts & c' & Et & Hts & _).
  { rewrite ntok_one. exact Hl. }
  rewrite Et. cbn [obind]. apply set_ok; auto.
Qed.
Lemma set_works_first i o fuel meta data name t v j : name <> [] -> str_body name ->
  storable i t v -> render i t v = Some j -> nesting j <= 254 -> o_nl o = false -> ntok j + 2 <= fuel ->
  exists m', map_set i o fuel (mkMap [] meta data) name t v = Ok m' /\ is_map [(name, j)] false m'.
Proof.
  intros Hne Hb Hs Hr Hd Ho Hl. destruct (member_text_ok i name t v j Hne Hb Hs Hr Hd) as (text & E & D).
  unfold map_set. rewrite E. cbn [obind].
  destruct (text_tokens o cfg_default _ text _ Ho D eq_refl fuel) as (ts & c' & Et & Hts & _).
  { rewrite ntok_one. exact Hl. }
  rewrite Et. cbn [obind]. apply set_first; auto.
Qed.
