(** Property C62: JS::Map from text to text. *)
From Coq Require Import Lia.
From Verif Require Import Base Tactics ScanModel TokModel JsonSpec NumSpec TokSpec SerModel SerSpec SerDoc HandlerModel HandlerSpec HandlerTree HandlerLaws HandlerProps HandlerStruct HandlerText WriteModel RoundSpec RoundProofs ShowJson TokVecModel MapModel MapSpec MapProofs MapProofs2 MapProofs3 MapUseModel MapProofs2 MapUseProofs PropTok PropMap PropTokVec PropStruct.

(** ** Reading a Map *)

(** Standing on an object, which may be a member, in any source: the Map holds that object, nothing of its old
    members, and the context stands on the closing bracket. *)
Theorem C62_read : forall S (next : token -> S -> outcome (S * error * token)) fuel m c name ms s' nt',
  stands next c (doc_tokens name (JObj ms)) s' nt' -> ntok (JObj ms) <= fuel ->
  exists m' c', jmap_to next fuel m c = Ok (NoError, m', c') /\ is_map ms (has_scalar (JObj ms)) m' /\
    map tok_view (mp_tokens m') = doc_tokens name (JObj ms) /\ c_err c' = NoError /\ c_src c' = s' /\ c_tok c' = nt'.
Proof.
  intros S next fuel m c name ms s' nt' St Hl.
  destruct (C57_keeps_the_tokens S next fuel (mp_tokens m) c name (JObj ms) s' nt' I St) as (ts & c' & E & Hts & H1 & H2 & H3 & _); [rewrite ntok_name; exact Hl|].
  unfold jmap_to. rewrite E. cbn [obind is_ok].
  destruct (C37_map_of_object ts name ms Hts) as (m1 & E1 & Et & Hm). unfold map_load in E1. destruct (metaForTokens ts) as [meta| |]; [|discriminate E1..].
  cbn [obind] in E1 |- *. injection E1 as <-. exists (mkMap ts meta (mp_data m)), c'. split; [reflexivity|]. split; [exact Hm|]. auto.
Qed.
Print Assumptions C62_read.

(** From the text of an object. *)
Theorem C62_read_text : forall o g fuel m ms text,
  o_nl o = false -> doc_text plain (JObj ms) text -> ntok (JObj ms) <= fuel ->
  exists m' c', jmap_parseTo (nextToken o) fuel m (context_of g text) = Ok (NoError, m', c') /\
    is_map ms (has_scalar (JObj ms)) m' /\ map tok_view (mp_tokens m') = doc_tokens None (JObj ms).
Proof.
  intros o g fuel m ms text Ho Hd Hl. destruct (text_feeds o g _ text Ho Hd) as (s' & nt' & F).
  cbn [doc_tokens] in F. destruct (ctx_next_feeds (nextToken o) (context_of g text) _ _ s' nt' F) as (c1 & En & St & _ & _).
  destruct (C62_read _ (nextToken o) fuel m c1 None ms s' nt' St Hl) as (m' & c' & E & Hm & Hv & _).
  unfold jmap_parseTo. rewrite En. cbn [obind is_ok]. rewrite E. exists m'. eexists. split; [reflexivity|]. split; assumption.
Qed.
Print Assumptions C62_read_text.

(** ** castToType *)

(** By name, into an object of any type with any content, in a context outside of scopes whatever it has read:
    the same as reading the value of the member from a text; an absent name is KeyNotFound and changes nothing. *)
Theorem C62_cast_partial : forall o fuel ms d m name t v c,
  is_map ms d m -> name <> [] -> t_scope (c_src c) = [] -> ty_ok t -> shaped t v ->
  match lookup name ms with
  | Some j => fits t (Some j) -> ntok j <= fuel ->
      exists e v' rm ru c', map_cast o fuel m name t v c = Ok (e, v', c') /\ read_value (c_cfg c) t v j = Ok (e, v', (rm, ru)) /\
        c_missing c' = c_missing c ++ rm /\ c_unassigned c' = c_unassigned c ++ ru
  | None => map_cast o fuel m name t v c = Ok (KeyNotFound, v, set_err KeyNotFound c)
  end.
Proof.
  intros o fuel ms d m name t v c Hm Hne Hsc Ht Hv. rewrite (cast_name o fuel m ms d name t v c Hm Hne).
  assert (L := locate_ok d m ms name Hm Hne). destruct (lookup name ms) as [j|].
  - intros Hf Hl. destruct L as (i & -> & Hi). exact (cast_at o fuel m i t v c (Some name) j Hi Hsc Ht Hv Hf Hl).
  - rewrite L. reflexivity.
Qed.
Print Assumptions C62_cast_partial.

(** A Map without tokens or with those of an array has no members. *)
Theorem C62_cast_no_object : forall o fuel m name t v c, hd_error (map tk_value_type (mp_tokens m)) <> Some TObjectStart ->
  map_cast o fuel m name t v c = Ok (ExpectedObjectStart, v, set_err ExpectedObjectStart c).
Proof.
  intros o fuel m name t v c H. unfold map_cast. destruct (mp_tokens m) as [|t0 r]; [reflexivity|]. cbn in H.
  destruct (tk_value_type t0); try reflexivity. congruence.
Qed.
Print Assumptions C62_cast_no_object.

(** The whole Map, as it was read. *)
Theorem C62_cast_whole_partial : forall o fuel m name j t v c,
  map tok_view (mp_tokens m) = doc_tokens name j -> t_scope (c_src c) = [] -> ty_ok t -> shaped t v -> fits t (Some j) -> ntok j <= fuel ->
  exists e v' rm ru c', map_cast_at o fuel m 0 t v c = Ok (e, v', c') /\ read_value (c_cfg c) t v j = Ok (e, v', (rm, ru)) /\
    c_missing c' = c_missing c ++ rm /\ c_unassigned c' = c_unassigned c ++ ru.
Proof.
  intros o fuel m name j t v c Hv Hsc Ht Hs Hf Hl. apply (cast_at o fuel m 0 t v c name j); auto.
  assert (L : length (mp_tokens m) = ntok j) by (rewrite <- (map_length tok_view), Hv; apply ntok_name).
  cbn [skipn]. rewrite <- L, firstn_all. exact Hv.
Qed.
Print Assumptions C62_cast_whole_partial.

(** ** setValue *)

(** A value of any type that can be written comes back, whatever the Map held for the name, and the other members
    are those of before.  (C39: scalars in front of containers, repeated names.) *)
Theorem C62_set_get_partial : forall i o fuel ms d m name t v j,
  is_map ms d m -> NoDup (map fst ms) -> name <> [] -> str_body name -> replaceable name ms = true ->
  ty_ok t -> storable i t v -> render i t v = Some j -> nesting j <= 254 -> o_nl o = false -> ntok j + 2 <= fuel ->
  exists m', map_set i o fuel m name t v = Ok m' /\ is_map (set_member name j ms) d m' /\
    (forall c, t_scope (c_src c) = [] -> exists c', map_cast o fuel m' name t (init t) c = Ok (NoError, v, c') /\
       c_missing c' = c_missing c /\ c_unassigned c' = c_unassigned c) /\
    (forall other, other <> name -> lookup other (set_member name j ms) = lookup other ms).
Proof.
  intros i o fuel ms d m name t v j Hm Hu Hne Hb Hrep Ht Hs Hr Hd Ho Hl.
  destruct (set_works i o fuel ms d m name t v j Hm Hne Hb Hrep Hs Hr Hd Ho Hl) as (m' & E & Hm').
  exists m'. split; [exact E|]. split; [exact Hm'|]. split; [|intros other Hoth; apply set_member_other; exact Hoth].
  intros c Hsc. destruct (all_restored (c_cfg c) i t v j Hs Hr) as (_ & _ & Hf & Hsem).
  assert (C := C62_cast_partial o fuel _ d m' name t (init t) c Hm' Hne Hsc Ht (init_shaped t)).
  rewrite (proj1 (set_member_same name j ms Hu)) in C. destruct (C Hf ltac:(lia)) as (e & v' & rm & ru & c' & A & B & C1 & C2).
  rewrite (read_value_sem _ _ _ _ Ht (init_shaped t) Hf), Hsem in B. unfold r0 in B. injection B as <- <- <- <-. rewrite app_nil_r in C1, C2. eauto.
Qed.
Print Assumptions C62_set_get_partial.

(** The first value of a new Map. *)
Theorem C62_set_first : forall i o fuel meta data name t v j,
  name <> [] -> str_body name -> storable i t v -> render i t v = Some j -> nesting j <= 254 -> o_nl o = false -> ntok j + 2 <= fuel ->
  exists m', map_set i o fuel (mkMap [] meta data) name t v = Ok m' /\ is_map [(name, j)] false m'.
Proof. intros i o fuel meta data name t v j. apply set_works_first. Qed.
Print Assumptions C62_set_first.

(** Any number of calls of setValue. *)
Fixpoint map_puts (i : isa) (o : opts) (fuel : nat) (m : jmap) (l : list (bytes * (ty * val))) : outcome jmap :=
  match l with
  | [] => Ok m
  | (name, (t, v)) :: r => let* m := map_set i o fuel m name t v in map_puts i o fuel m r
  end.
(** The call writes a member whose value is [snd nj]. *)
Definition puts (i : isa) (fuel : nat) (call : bytes * (ty * val)) (nj : bytes * json) : Prop :=
  fst call = fst nj /\ fst nj <> [] /\ str_body (fst nj) /\ storable i (fst (snd call)) (snd (snd call)) /\
  render i (fst (snd call)) (snd (snd call)) = Some (snd nj) /\ nesting (snd nj) <= 254 /\ ntok (snd nj) + 2 <= fuel.

Lemma assigned_lookup l : forall ms name, NoDup (map fst ms) -> lookup name (set_members l ms) = assigned name l ms.
Proof.
  induction l as [|[k v] l IH]; intros ms name Hu; [reflexivity|].
  change (set_members ((k, v) :: l) ms) with (set_members l (set_member k v ms)).
  destruct (set_member_same k v ms Hu) as [S1 S2]. rewrite (IH _ _ S2). unfold assigned. cbn [rev]. rewrite lookup_app.
  destruct (lookup name (rev l)); [reflexivity|]. cbn [lookup fst snd]. destruct (bytes_eqb_spec k name) as [->|Hne]; [exact S1|].
  apply set_member_other. congruence.
Qed.

(** After them castToType by name reads the value set last for the name, or the original one if it was not set. *)
Theorem C62_history_partial : forall i o fuel calls l ms d m,
  is_map ms d m -> NoDup (map fst ms) -> Forall2 (puts i fuel) calls l -> all_replaceable l ms = true -> o_nl o = false ->
  exists m', map_puts i o fuel m calls = Ok m' /\ is_map (set_members l ms) d m' /\
    forall name t v c, name <> [] -> t_scope (c_src c) = [] -> ty_ok t -> shaped t v ->
      match assigned name l ms with
      | Some j => fits t (Some j) -> ntok j <= fuel ->
          exists e v' rm ru c', map_cast o fuel m' name t v c = Ok (e, v', c') /\ read_value (c_cfg c) t v j = Ok (e, v', (rm, ru)) /\
            c_missing c' = c_missing c ++ rm /\ c_unassigned c' = c_unassigned c ++ ru
      | None => map_cast o fuel m' name t v c = Ok (KeyNotFound, v, set_err KeyNotFound c)
      end.
Proof.
  intros i o fuel calls l ms d m Hm Hu Hc Ha Ho.
  assert (G : exists m', map_puts i o fuel m calls = Ok m' /\ is_map (set_members l ms) d m').
  { revert ms m Hm Hu Ha. induction Hc as [|[n [t v]] [k j] calls l (En & H1 & H2 & H3 & H4 & H5 & H6) _ IH]; intros ms m Hm Hu Ha.
    - exists m. split; [reflexivity|exact Hm].
    - cbn [fst snd] in *. subst n. cbn [all_replaceable fst snd] in Ha. apply andb_prop in Ha. destruct Ha as [Ha1 Ha2].
      destruct (set_works i o fuel ms d m k t v j Hm H1 H2 Ha1 H3 H4 H5 Ho H6) as (m1 & E1 & Hm1).
      destruct (IH _ m1 Hm1 (proj2 (set_member_same k j ms Hu)) Ha2) as (m' & E2 & Hm').
      exists m'. split; [cbn [map_puts]; rewrite E1; exact E2|exact Hm']. }
  destruct G as (m' & E & Hm'). exists m'. split; [exact E|]. split; [exact Hm'|].
  intros name t v c Hne Hsc Ht Hv. rewrite <- (assigned_lookup l ms name Hu). exact (C62_cast_partial o fuel _ d m' name t v c Hm' Hne Hsc Ht Hv).
Qed.
Print Assumptions C62_history_partial.

(** setValue of a whole struct or other object, in a new context. *)
Theorem C62_set_whole_partial : forall i o fuel m t v ms c,
  storable i t v -> render i t v = Some (JObj ms) -> nesting (JObj ms) <= 255 -> o_nl o = false -> c_src c = t_init -> c_tok c = tok_default ->
  ntok (JObj ms) <= fuel ->
  exists m' c' text, map_set_all i o fuel m t v c = Ok (NoError, m', c') /\ is_map ms (has_scalar (JObj ms)) m' /\
    map tok_view (mp_tokens m') = doc_tokens None (JObj ms) /\
    serializeStruct i (so_make true) t v = Ok text /\ mp_data m' = [(0, text)].
Proof.
  intros i o fuel m t v ms c Hs Hr Hd Ho Hc Hc2 Hl.
  destruct (serialized i (so_make true) t v (JObj ms) Hs Hr I (Om_new true) eq_refl) as (text & E & D); [cbn [so_make so_depth]; lia|].
  unfold map_set_all. rewrite E. cbn [obind].
  destruct (text_feeds o (c_cfg c) _ text Ho D) as (s' & nt' & F). rewrite Hc, Hc2.
  set (c0 := mkCtx _ _ _ _ _ _). change (c_src (context_of (c_cfg c) text)) with (c_src c0) in F. change tok_default with (c_tok c0) in F.
  cbn [doc_tokens] in F. destruct (ctx_next_feeds (nextToken o) c0 _ _ s' nt' F) as (c1 & En & St & _ & _).
  destruct (C57_keeps_the_tokens _ (nextToken o) fuel [] c1 None (JObj ms) s' nt' I St Hl) as (ts & c2 & Et & Hts & _).
  unfold tokvec_parseTo. rewrite En. cbn [obind is_ok]. rewrite Et. cbn [obind].
  destruct (C37_map_of_object ts None ms Hts) as (m1 & E1 & _ & Hm). unfold map_load in E1. destruct (metaForTokens ts) as [meta| |]; [|discriminate E1..].
  cbn [obind] in E1 |- *. injection E1 as <-. exists (mkMap ts meta [(0, text)]). eexists. exists text. split; [reflexivity|]. split; [exact Hm|]. split; [exact Hts|]. split; reflexivity.
Qed.
Print Assumptions C62_set_whole_partial.

(** ** Writing a Map *)

(** The text of a Map is a text of its object, also after any calls of setValue. *)
Theorem C62_written_partial : forall so ms d m,
  is_map ms d m -> json_ok (JObj ms) -> names_nonempty (JObj ms) -> options_made so -> so_ascii so = true ->
  (so_depth so + N.of_nat (nesting (JObj ms)) <= 255)%N ->
  exists text, jmap_text so m = Ok text /\ doc_text plain (JObj ms) text.
Proof.
  intros so ms d m Hm Hok Hnn Hso Ha Hd.
  destruct (jmap_writes ms d m wname_default Hm Hnn (or_introl eq_refl)) as (l & n' & E & Hv & Hp & _).
  unfold jmap_text. rewrite E. cbn [fst]. apply tokens_text; auto. exact I.
Qed.
Print Assumptions C62_written_partial.

(** A new Map is written as an empty object. *)
Theorem C62_empty_written : forall so meta data, options_made so -> so_ascii so = true -> (so_depth so < 255)%N ->
  exists text, jmap_text so (mkMap [] meta data) = Ok text /\ doc_text plain (JObj []) text.
Proof.
  intros so meta data Hso Ha Hd. unfold jmap_text. cbn [jmap_from mp_tokens fst].
  assert (A1 : json_ok (JObj [])) by (constructor; constructor). assert (A2 : names_nonempty (JObj [])) by (constructor; constructor).
  refine (tokens_text so _ (JObj []) _ _ A1 A2 I Hso Ha _).
  - reflexivity.
  - constructor; [left; reflexivity|constructor; [left; reflexivity|constructor]].
  - cbn [nesting map list_max]. cbn. lia.
Qed.
Print Assumptions C62_empty_written.

(** As a member or element, under any name: the tokens of the object under that name, whatever name it was read with. *)
Definition written_as (tk : token) : bytes * bytes * type := (dr_bytes (tk_name tk), dr_bytes (tk_value tk), tk_value_type tk).
Definition meant (v : stoken) : bytes * bytes * type := (st_name v, st_value v, st_value_type v).
Theorem C62_member_written : forall ms d m n,
  is_map ms d m \/ (mp_tokens m = [] /\ ms = []) ->
  map written_as (fst (jmap_from m n)) = map meant (doc_tokens (Some (wn n)) (JObj ms)) /\
  (wn n = [] -> wn (snd (jmap_from m n)) = []).
Proof.
  intros ms d m n [(t0 & mid & t1 & Ht & T0 & T1 & (N1 & V0 & V1 & _) & Hmid & _)|[Ht ->]]; unfold jmap_from; rewrite Ht; cbn [fst snd].
  - split; [|auto]. cbn [map doc_tokens st_make]. unfold written_as at 1, meant at 1. cbn. rewrite V0, T0. f_equal.
    rewrite !map_app. change (flat_map _ ms) with (member_tokens ms). rewrite <- Hmid, map_map. f_equal. cbn. unfold written_as. rewrite N1, V1, T1. reflexivity.
  - split; [reflexivity|]. intros _. reflexivity.
Qed.
Print Assumptions C62_member_written.

(** Written and read again, the Map holds the same object. *)
Theorem C62_round_trip_partial : forall so o g fuel ms d m,
  is_map ms d m -> json_ok (JObj ms) -> names_nonempty (JObj ms) -> options_made so -> so_ascii so = true ->
  (so_depth so + N.of_nat (nesting (JObj ms)) <= 255)%N -> o_nl o = false -> ntok (JObj ms) <= fuel ->
  exists text m' c', jmap_text so m = Ok text /\ jmap_parseTo (nextToken o) fuel (mkMap [] [] []) (context_of g text) = Ok (NoError, m', c') /\
    is_map ms (has_scalar (JObj ms)) m'.
Proof.
  intros so o g fuel ms d m Hm Hok Hnn Hso Ha Hd Ho Hl.
  destruct (C62_written_partial so ms d m Hm Hok Hnn Hso Ha Hd) as (text & E & D).
  destruct (C62_read_text o g fuel (mkMap [] [] []) ms text Ho D Hl) as (m' & c' & E2 & Hm' & _). eauto 8.
Qed.
Print Assumptions C62_round_trip_partial.

(** ** Cases *)

Definition ex_text : bytes := s2b "{""n"":5,""v"":[1,2],""o"":{""x"":true}}".
Definition ex_ms : list (bytes * json) :=
  [(s2b "n", num (s2b "5")); (s2b "v", JArr [num (s2b "1"); num (s2b "2")]); (s2b "o", JObj [(s2b "x", JScalar STrue)])].
Definition loaded : jmap :=
  match jmap_parseTo (nextToken default_opts) 100 (mkMap [] [] []) (context_of cfg_default ex_text) with
  | Ok (_, m, _) => m | _ => mkMap [] [] [] end.
Definition new_ctx : ctx tstate := mkCtx t_init tok_default NoError [] [] cfg_default.
Definition cast_of (m : jmap) (name : bytes) (t : ty) : option (error * val) :=
  match map_cast default_opts 100 m name t (init t) new_ctx with Ok (e, v, _) => Some (e, v) | _ => None end.

Example C62_nonvacuous :
  doc_text plain (JObj ex_ms) ex_text /\
  cast_of loaded (s2b "v") (YVec (YInt I32)) = Some (NoError, VList [VInt 1; VInt 2]) /\
  cast_of loaded (s2b "zz") (YInt I32) = Some (KeyNotFound, VInt 0) /\
  replaceable (s2b "v") ex_ms = true /\ storable Scalar (YVec (YInt I32)) (VList [VInt 7]) /\
  (match map_set Scalar default_opts 100 loaded (s2b "v") (YVec (YInt I32)) (VList [VInt 7]) with
   | Ok m => (cast_of m (s2b "v") (YVec (YInt I32)), cast_of m (s2b "n") (YInt I32),
              match jmap_text (so_make false) m with Ok t => t | _ => [] end)
   | _ => (None, None, []) end)
  = (Some (NoError, VList [VInt 7]), Some (NoError, VInt 5), s2b "{""n"":5,""o"":{""x"":true},""v"":[7]}").
Proof.
  split; [apply (show_doc (JObj ex_ms)); [reflexivity|exact I]|]. split; [vm_compute; reflexivity|]. split; [vm_compute; reflexivity|].
  split; [reflexivity|]. split; [|vm_compute; reflexivity].
  cbn. constructor; [|constructor]. split; [|discriminate]. split; [unfold int_type; cbn; auto|]. cbn. lia.
Qed.

(** ** Where it fails *)

(** A name with a quotation mark is written as it is, so the text of the new member is not a text of it, and the
    value cannot be found under its name. *)
Theorem C62_names_refuted :
  let name := [x61; x22; x62] in
  member_text Scalar name (YInt I32) (VInt 5) = Ok [x7b; x22; x61; x22; x62; x22; x3a; x35; x7d] /\
  match map_set Scalar default_opts 100 loaded name (YInt I32) (VInt 5) with
  | Ok m => (cast_of m name (YInt I32), length (mp_tokens m) - length (mp_tokens loaded)) | _ => (None, 0) end
  = (Some (KeyNotFound, VInt 0), 0).
Proof. split; vm_compute; reflexivity. Qed.
Print Assumptions C62_names_refuted.

(** Reading a Map that has old strings of setValue keeps them. *)
Theorem C62_old_data_refuted :
  match map_set Scalar default_opts 100 (mkMap [] [] []) (s2b "a") (YInt I32) (VInt 5) with
  | Ok m => match jmap_parseTo (nextToken default_opts) 100 m (context_of cfg_default (s2b "{}")) with
            | Ok (e, m, _) => Some (e, length (mp_tokens m), mp_data m) | _ => None end
  | _ => None end = Some (NoError, 2, [(1, s2b "{""a"":5}")]).
Proof. vm_compute. reflexivity. Qed.
Print Assumptions C62_old_data_refuted.
