(** Property C70: the tokens of a JS::Map point to memory that is there. *)
From Coq Require Import Lia.
From Verif Require Import Base Tactics ScanModel TokModel JsonSpec TokSpec SerModel SerSpec HandlerModel HandlerSpec WriteModel RoundSpec ShowJson TokVecModel MapModel MapSpec MapUseModel PropTok PropMap PropStruct PropMapUse LifeModel LifeSpec LifeProofs.

(** A text written through a SerializerContext is in a block of its own, however short it is, if strings of 4096
    characters are not kept in the std::string itself: so a move of the string leaves it where it is. *)
Theorem C70_strings : forall sso grow f k used, sso < 4096 ->
  exists b f' s, str_written sso grow f k used = (f', s) /\ ss_store s = Block b /\ f <= b < f'.
Proof. exact str_written_block. Qed.
Print Assumptions C70_strings.

(** The tokens of a text that was read without error lie in it. *)
Theorem C70_tokens : forall o g text fuel ts c',
  tokvec_parseTo (nextToken o) fuel [] (context_of g text) = Ok (NoError, ts, c') -> Forall (lies_in text) ts.
Proof. exact text_lies. Qed.
Print Assumptions C70_tokens.

(** Any number of calls of setValue on a Map that was read: every token then points outside (to what was read) or
    into a string of the Map that holds it, and the Map has no more strings than members. *)
Theorem C70_alive_partial : forall sso grow i o fuel calls l ms d m f,
  sso < 4096 -> is_map ms d m -> mp_data m = [] -> Forall2 (puts i fuel) (map snd calls) l -> all_replaceable l ms = true -> o_nl o = false ->
  exists f' m', life_puts sso grow i o fuel f (life_read m) calls = Ok (f', m') /\
    is_map (set_members l ms) d (lf_map m') /\ sound f' m' /\ length (lf_strs m') <= length (set_members l ms).
Proof.
  intros sso grow i o fuel calls l ms d m f Hs Hm Hd Hc Ha Ho.
  destruct (puts_inv sso grow i o fuel [] d calls l Hs Ho Hc ms f _ (read_inv f d ms m Hm Hd) Ha) as (f' & m' & E & Hi).
  exists f', m'. split; [exact E|]. destruct (inv_is_map _ _ _ _ _ Hi) as [H1 H2]. split; [exact H1|]. split; [exact (inv_sound _ _ _ _ _ Hi)|exact H2].
Qed.
Print Assumptions C70_alive_partial.

(** The same from a new Map. *)
Theorem C70_alive_new_partial : forall sso grow i o fuel calls l f,
  sso < 4096 -> l <> [] -> Forall2 (puts i fuel) (map snd calls) l -> all_replaceable l [] = true -> o_nl o = false ->
  exists f' m', life_puts sso grow i o fuel f life_empty calls = Ok (f', m') /\
    is_map (set_members l []) false (lf_map m') /\ sound f' m' /\ length (lf_strs m') <= length (set_members l []).
Proof.
  intros sso grow i o fuel calls l f Hs Hl Hc Ha Ho.
  destruct (C70_alive_partial sso grow i o fuel calls l [] false _ f Hs (MapProofs3.braces_map []) eq_refl Hc Ha Ho) as (f' & m' & E & H).
  exists f', m'. split; [|exact H]. rewrite <- E. destruct calls as [|[k [n [t v]]] calls]; [inversion Hc; congruence|].
  cbn [life_puts]. unfold life_set. destruct (member_text i n t v) as [out| |]; cbn [obind]; [|reflexivity..].
  destruct (tokvec_parseTo (nextToken o) fuel [] (context_of cfg_default out)) as [[[e new] c]| |]; cbn [obind]; [|reflexivity..].
  rewrite first_is_braces. reflexivity.
Qed.
Print Assumptions C70_alive_new_partial.

(** The same from a Map that a whole struct was put into; its string stays for good. *)
Theorem C70_alive_whole_partial : forall sso grow i o fuel t v ms k calls l f,
  sso < 4096 -> storable i t v -> render i t v = Some (JObj ms) -> nesting (JObj ms) <= 255 -> ntok (JObj ms) <= fuel ->
  Forall2 (puts i fuel) (map snd calls) l -> all_replaceable l ms = true -> o_nl o = false ->
  exists f' m', (let* (f, m) := life_set_all sso grow i o fuel f k t v in life_puts sso grow i o fuel f m calls) = Ok (f', m') /\
    is_map (set_members l ms) (has_scalar (JObj ms)) (lf_map m') /\ sound f' m' /\ length (lf_strs m') <= 1 + length (set_members l ms).
Proof.
  intros sso grow i o fuel t v ms k calls l f Hs Hv Hr Hn Hl Hc Ha Ho.
  destruct (whole_put sso grow i o fuel f k t v ms Hs Hv Hr Hn Ho Hl) as (f1 & m1 & base & -> & Hi & Hb). cbn [obind].
  destruct (puts_inv sso grow i o fuel base _ calls l Hs Ho Hc ms f1 _ Hi Ha) as (f' & m' & E & Hi').
  exists f', m'. split; [exact E|]. destruct (inv_is_map _ _ _ _ _ Hi') as [H1 H2]. rewrite Hb in H2. split; [exact H1|]. split; [exact (inv_sound _ _ _ _ _ Hi')|exact H2].
Qed.
Print Assumptions C70_alive_whole_partial.

(** Leaving out the strings this is the Map of C39 and C62. *)
Theorem C70_same_map : forall sso grow i o fuel calls f m f' m', life_puts sso grow i o fuel f m calls = Ok (f', m') ->
  map_puts i o fuel (lf_map m) (map snd calls) = Ok (lf_map m').
Proof. intros sso grow i o fuel calls. exact (puts_same sso grow i o fuel calls). Qed.
Print Assumptions C70_same_map.

(** ** Where it fails *)

(** A copy of a Map one of whose tokens points into a string of the Map: that string is not among those of the copy,
    so the copy is good only as long as the original lives and is not changed. *)
Theorem C70_copy_refuted : forall sso f m f' m', sound f m -> (exists b, In (InBlock b) (lf_target m)) -> life_copy sso f m = (f', m') ->
  lf_map m' = lf_map m /\ ~ sound f' m'.
Proof. exact copy_unsound. Qed.
Print Assumptions C70_copy_refuted.

(** Capacities as in libstdc++. *)
Definition grow2 (c n : nat) : nat := Nat.max (2 * c) n.
Definition ex_int (z : Z) : ty * val := (YInt I32, VInt z).
Definition ex_vec (z : Z) : ty * val := (YVec (YInt I32), VList [VInt z]).

(** A scalar is replaced while a container follows it, which C39 excludes: the metadata of the container is then wrong, and
    when the container is replaced only its first token goes, but its string goes too; the other tokens dangle. *)
Definition dangling_calls : list (nat * (bytes * (ty * val))) :=
  [(0, (s2b "s", ex_int 1)); (0, (s2b "c", ex_vec 2)); (0, (s2b "s", ex_int 3)); (0, (s2b "c", ex_vec 4))].
Definition seen (r : outcome (nat * lmap)) : option (list bytes * list target * list nat) :=
  match r with
  | Ok (_, m) => Some (map (fun t => dr_bytes (tk_value t)) (mp_tokens (lf_map m)), lf_target m, blocks (lf_strs m))
  | _ => None
  end.
Lemma dangling_seen : seen (life_puts 15 grow2 Scalar default_opts 100 0 life_empty dangling_calls) =
  Some ([s2b "{"; s2b "2"; s2b "]"; s2b "3"; s2b "["; s2b "4"; s2b "]"; s2b "}"],
        [Outside; InBlock 1; InBlock 1; InBlock 2; InBlock 3; InBlock 3; InBlock 3; Outside], [2; 3]).
Proof. vm_compute. reflexivity. Qed.
Theorem C70_dangling_refuted : exists f' m',
  life_puts 15 grow2 Scalar default_opts 100 0 life_empty dangling_calls = Ok (f', m') /\
  map (fun t => dr_bytes (tk_value t)) (mp_tokens (lf_map m')) = [s2b "{"; s2b "2"; s2b "]"; s2b "3"; s2b "["; s2b "4"; s2b "]"; s2b "}"] /\
  lf_target m' = [Outside; InBlock 1; InBlock 1; InBlock 2; InBlock 3; InBlock 3; InBlock 3; Outside] /\
  blocks (lf_strs m') = [2; 3] /\ ~ sound f' m'.
Proof.
  assert (E := dangling_seen).
  destruct (life_puts 15 grow2 Scalar default_opts 100 0 life_empty dangling_calls) as [[f' m']| |]; [|discriminate E..].
  unfold seen in E. injection E as E1 E2 E3. exists f', m'. repeat (split; [assumption || reflexivity|]).
  apply (lost_unsound f' m' 1); [rewrite E2; right; left; reflexivity|rewrite E3; intros [H|[H|[]]]; discriminate H].
Qed.
Print Assumptions C70_dangling_refuted.

(** The hypotheses can be met: calls on a new Map with values replaced and added, on a Map that was read, and in a whole struct;
    short texts, and one that asks for room twice. *)
Definition ex_calls : list (nat * (bytes * (ty * val))) :=
  [(0, (s2b "c", ex_vec 2)); (0, (s2b "s", ex_int 1)); (0, (s2b "c", ex_vec 4)); (2, (s2b "c", ex_int 6))].
Definition ex_set : list (bytes * json) :=
  [(s2b "c", JArr [num (s2b "2")]); (s2b "s", num (s2b "1")); (s2b "c", JArr [num (s2b "4")]); (s2b "c", num (s2b "6"))].
Example C70_nonvacuous :
  Forall2 (puts Scalar 100) (map snd ex_calls) ex_set /\ all_replaceable ex_set [] = true /\ all_replaceable ex_set ex_ms = true /\
  set_members ex_set [] = [(s2b "s", num (s2b "1")); (s2b "c", num (s2b "6"))] /\
  seen (life_puts 15 grow2 Scalar default_opts 100 0 life_empty ex_calls) =
  Some ([s2b "{"; s2b "1"; s2b "6"; s2b "}"], [Outside; InBlock 1; InBlock 5; Outside], [1; 5]).
Proof.
  split; [|split; [reflexivity|split; [reflexivity|split; [reflexivity|vm_compute; reflexivity]]]].
  assert (B : forall c, c = s2b "c" \/ c = s2b "s" -> c <> [] /\ str_body c).
  { intros c [-> | ->]; (split; [discriminate|]); (apply (ShowJson.str_bodyb_ok 100); [cbn; lia|reflexivity]). }
  assert (V : forall z, (z = 1 \/ z = 2 \/ z = 4 \/ z = 6)%Z -> storable Scalar (fst (ex_vec z)) (snd (ex_vec z)) /\ storable Scalar (fst (ex_int z)) (snd (ex_int z))).
  { intros z Hz. assert (I1 : storable Scalar (YInt I32) (VInt z)) by (split; [unfold NumSpec.int_type; cbn; auto|]; cbn; lia).
    split; [|exact I1]. constructor; [|constructor]. split; [exact I1|]. destruct Hz as [-> |[-> |[-> | ->]]]; discriminate. }
  unfold ex_calls, ex_set. cbn [map snd].
  repeat (constructor; [split; [reflexivity|]; cbn [fst snd]; split; [first [exact (proj1 (B _ (or_introl eq_refl)))|exact (proj1 (B _ (or_intror eq_refl)))]|];
    split; [first [exact (proj2 (B _ (or_introl eq_refl)))|exact (proj2 (B _ (or_intror eq_refl)))]|]; split; [apply V; lia|];
    split; [vm_compute; reflexivity|]; split; vm_compute; repeat constructor|]). constructor.
Qed.
