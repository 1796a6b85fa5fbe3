(** Specification vocabulary for the type handlers.  No proofs here. *)
From Verif Require Import Base ScanModel TokModel JsonSpec EscapeModel IntModel HandlerModel.
From Verif Require TimeModel.

(** ** A source that delivers a given list of tokens, and then NeedMoreData *)
Definition list_next (nt : token) (s : list token) : outcome (list token * error * token) :=
  match s with
  | t :: r => Ok (r, NoError, t)
  | [] => Ok ([], NeedMoreData, nt)
  end.

Definition token_of (v : stoken) : token :=
  mkTok (mkRef Elsewhere (st_name v)) (mkRef Elsewhere (st_value v)) (st_name_type v) (st_value_type v).

(** What was reported: missing members, unassigned required members. *)
Definition report : Type := (list bytes * list bytes)%type.
Definition rep {S} (c : ctx S) : report := (c_missing c, c_unassigned c).

(** The handler of type [t], applied to an object [v] and exactly the tokens of the JSON value [j]:
    error, object afterwards, reports. *)
Definition read_value (g : pcfg) (t : ty) (v : val) (j : json) : outcome (error * val * report) :=
  match map token_of (doc_tokens None j) with
  | [] => UB
  | first :: others =>
      let* (e, v, c) := to list_next (S (length others)) t v (mkCtx others first NoError [] [] g) in
      Ok (e, v, rep c)
  end.

(** ** Objects of a C++ type *)
Fixpoint all2 (ps : list (val -> Prop)) (vs : list val) : Prop :=
  match ps, vs with
  | [], [] => True
  | p :: ps, v :: vs => p v /\ all2 ps vs
  | _, _ => False
  end.
Fixpoint shaped (t : ty) (v : val) {struct t} : Prop :=
  match t with
  | YBool => match v with VBool _ => True | _ => False end
  | YInt _ | YTime _ _ | YEnum _ _ => match v with VInt _ => True | _ => False end
  | YFp single => match v with VFp s _ => s = single | _ => False end
  | YString => match v with VStr _ => True | _ => False end
  | YNullable t | YOptional t | YSilent t => shaped t v
  | YNullableChecked t | YOptionalChecked t => match v with VFlag _ d => shaped t d | _ => False end
  | YStdOptional t | YPtr _ t => match v with VOpt None => True | VOpt (Some d) => shaped t d | _ => False end
  | YVec t | YOneOrMany t | YSet t => match v with VList l => Forall (shaped t) l | _ => False end
  | YFixed n t => match v with VList l => length l = n /\ Forall (shaped t) l | _ => False end
  | YVar n t => match v with VVar _ l => length l = n /\ Forall (shaped t) l | _ => False end
  | YTuple ts => match v with VList l => all2 (map shaped ts) l | _ => False end
  | YMap t => match v with VMap m => Forall (fun kv => shaped t (snd kv)) m | _ => False end
  | YStruct _ fs => match v with VList l => all2 (map (fun f => shaped (snd f)) fs) l | _ => False end
  end.

(** A value with every -0.0 replaced by 0.0: values are equal for std::set when this is the same. *)
Fixpoint plain_zero (v : val) : val :=
  match v with
  | VFp single b => VFp single (if N.eqb b (if single then 2 ^ 31 else 2 ^ 63) then 0%N else b)
  | VBool _ | VInt _ | VStr _ | VOpt None => v
  | VFlag f v => VFlag f (plain_zero v)
  | VOpt (Some v) => VOpt (Some (plain_zero v))
  | VList l => VList (map plain_zero l)
  | VVar n l => VVar n (map plain_zero l)
  | VMap m => VMap (map (fun kv => (fst kv, plain_zero (snd kv))) m)
  end.
Definition all_different (vs : list val) : Prop := NoDup (map plain_zero vs).

(** Struct types have as many members as their blocks say. *)
Fixpoint ty_ok (t : ty) : Prop :=
  match t with
  | YString | YBool | YInt _ | YFp _ | YTime _ _ | YEnum _ _ => True
  | YNullable t | YNullableChecked t | YOptional t | YOptionalChecked t | YStdOptional t | YPtr _ t | YSilent t
  | YVec t | YOneOrMany t | YFixed _ t | YVar _ t | YSet t | YMap t => ty_ok t
  | YTuple ts => (fix go ts := match ts with [] => True | t :: ts => ty_ok t /\ go ts end) ts
  | YStruct blocks fs => list_sum blocks = length fs /\ (fix go fs := match fs with [] => True | f :: fs => ty_ok (snd f) /\ go fs end) fs
  end.

(** ** Strings are only read from scalars
    The string handler takes any token, also a bracket.  [fits t (Some j)]: in the reading of [j]
    into [t], no string meets a bracket, and no float, double or time point meets one of the literals whose
    reading is undefined behaviour (C24_undefined_refuted, C34_overflow_refuted); [fits t None]: [t] reads no string from the closing
    bracket of an array that is too short. *)
Fixpoint fits (t : ty) (oj : option json) {struct t} : Prop :=
  match t with
  | YBool | YInt _ | YEnum _ _ => True
  | YFp single => match oj with Some (JScalar s) => fp_read single (scalar_value s) <> UB | _ => True end
  | YTime hr ticks => match oj with Some (JScalar s) => TimeModel.time_to hr ticks (scalar_value s) 0 <> UB | _ => True end
  | YString => match oj with Some (JScalar _) => True | _ => False end
  | YNullable t | YNullableChecked t | YOptional t | YOptionalChecked t | YStdOptional t | YPtr _ t | YSilent t => fits t oj
  | YVec t | YSet t => match oj with Some (JArr els) => Forall (fun j => fits t (Some j)) els | _ => True end
  | YOneOrMany t => match oj with Some (JArr els) => Forall (fun j => fits t (Some j)) els | _ => fits t oj end
  | YVar n t => match oj with Some (JArr els) => Forall (fun j => fits t (Some j)) (firstn n els) | _ => True end
  | YFixed n t =>
      match oj with
      | Some (JArr els) => Forall (fun j => fits t (Some j)) (firstn n els) /\ (length els < n -> fits t None)
      | _ => True
      end
  | YTuple ts =>
      match oj with
      | Some (JArr els) =>
          (fix go ts els := match ts with
                            | [] => True
                            | t :: ts => fits t (hd_error els) /\ (els <> [] -> go ts (tl els))
                            end) ts els
      | _ => True
      end
  | YMap t => match oj with Some (JObj ms) => Forall (fun kv => fits t (Some (snd kv))) ms | _ => True end
  | YStruct blocks fs =>
      match oj with
      | Some (JObj ms) =>
          Forall (fun kv =>
            match search_both (fst kv) (map (fun f => snd (fst f)) fs) (search_order 0 blocks) with
            | Some i => nth i (map (fun f => fits (snd f)) fs) (fun _ => True) (Some (snd kv))
            | None => True
            end) ms
      | _ => True
      end
  end.

(** No float, double or time point anywhere in the type. *)
Fixpoint fp_free (t : ty) : bool :=
  match t with
  | YFp _ | YTime _ _ => false
  | YString | YBool | YInt _ | YEnum _ _ => true
  | YNullable t | YNullableChecked t | YOptional t | YOptionalChecked t | YStdOptional t | YPtr _ t | YSilent t
  | YVec t | YOneOrMany t | YFixed _ t | YVar _ t | YSet t | YMap t => fp_free t
  | YTuple ts => forallb fp_free ts
  | YStruct _ fs => forallb (fun f => fp_free (snd f)) fs
  end.
(** No string anywhere in the type: every JSON value fits, if there is no float, double or time point either. *)
Fixpoint string_free (t : ty) : bool :=
  match t with
  | YString => false
  | YBool | YInt _ | YFp _ | YTime _ _ | YEnum _ _ => true
  | YNullable t | YNullableChecked t | YOptional t | YOptionalChecked t | YStdOptional t | YPtr _ t | YSilent t
  | YVec t | YOneOrMany t | YFixed _ t | YVar _ t | YSet t | YMap t => string_free t
  | YTuple ts => forallb string_free ts
  | YStruct _ fs => forallb (fun f => string_free (snd f)) fs
  end.
(** No struct anywhere in the type: nothing is reported. *)
Fixpoint struct_free (t : ty) : bool :=
  match t with
  | YStruct _ _ => false
  | YString | YBool | YInt _ | YFp _ | YTime _ _ | YEnum _ _ => true
  | YNullable t | YNullableChecked t | YOptional t | YOptionalChecked t | YStdOptional t | YPtr _ t | YSilent t
  | YVec t | YOneOrMany t | YFixed _ t | YVar _ t | YSet t | YMap t => struct_free t
  | YTuple ts => forallb struct_free ts
  end.
(** No std::map or std::unordered_map anywhere in the type. *)
Fixpoint map_free (t : ty) : bool :=
  match t with
  | YMap _ => false
  | YString | YBool | YInt _ | YFp _ | YTime _ _ | YEnum _ _ => true
  | YNullable t | YNullableChecked t | YOptional t | YOptionalChecked t | YStdOptional t | YPtr _ t | YSilent t
  | YVec t | YOneOrMany t | YFixed _ t | YVar _ t | YSet t => map_free t
  | YTuple ts => forallb map_free ts
  | YStruct _ fs => forallb (fun f => map_free (snd f)) fs
  end.

(** ** Sources *)
Section Sources.
Context {S : Type} (next : token -> S -> outcome (S * error * token)).

(** Successive calls of [next] give tokens that look like the list. *)
Inductive feeds : token -> S -> list stoken -> S -> token -> Prop :=
| Fd_nil nt s : feeds nt s [] s nt
| Fd_cons nt s s1 nt1 v r s' nt' :
    next nt s = Ok (s1, NoError, nt1) -> tok_view nt1 = v -> feeds nt1 s1 r s' nt' -> feeds nt s (v :: r) s' nt'.

(** The context has read the first of the tokens [l]; the source delivers the others and is then in
    the state [s'], the last token read being [nt']. *)
Definition stands (c : ctx S) (l : list stoken) (s' : S) (nt' : token) : Prop :=
  c_err c = NoError /\ exists r, l = tok_view (c_tok c) :: r /\ feeds (c_tok c) (c_src c) r s' nt'.
End Sources.

(** ** Members of a struct *)

(** The member of the struct that a name of a JSON object denotes: the first one in search order
    with this primary name, otherwise the first one with this alias. *)
Definition member_named (blocks : list nat) (fs : list (bytes * list bytes * ty)) (k : bytes) : option nat :=
  search_both k (map (fun f => snd (fst f)) fs) (search_order 0 blocks).

Definition display_name (f : bytes * list bytes * ty) : bytes :=
  match fst (fst f) with [] => [] | s => s ++ s2b "::" end ++ hd [] (snd (fst f)).

(** ** Elements read one after the other *)
Definition rapp (a b : report) : report := (fst a ++ fst b, snd a ++ snd b).

(** The objects [vs] become [vs'] when the values [js] are read into them, one into each. *)
Inductive reads_each (g : pcfg) (t : ty) : list val -> list json -> list val -> report -> Prop :=
| Re_nil : reads_each g t [] [] [] ([], [])
| Re_cons v j v' r1 vs js vs' r2 :
    read_value g t v j = Ok (NoError, v', r1) -> reads_each g t vs js vs' r2 ->
    reads_each g t (v :: vs) (j :: js) (v' :: vs') (rapp r1 r2).
Inductive reads_tuple (g : pcfg) : list ty -> list val -> list json -> list val -> report -> Prop :=
| Rt_nil : reads_tuple g [] [] [] [] ([], [])
| Rt_cons t v j v' r1 ts vs js vs' r2 :
    read_value g t v j = Ok (NoError, v', r1) -> reads_tuple g ts vs js vs' r2 ->
    reads_tuple g (t :: ts) (v :: vs) (j :: js) (v' :: vs') (rapp r1 r2).

(** The members of the struct that the names of a JSON object denote, in order. *)
Definition denoted (blocks : list nat) (fs : list (bytes * list bytes * ty)) (ms : list (bytes * json)) : list nat :=
  flat_map (fun kv => match member_named blocks fs (fst kv) with Some i => [i] | None => [] end) ms.
(** The names that denote no member, in order. *)
Definition unknown (blocks : list nat) (fs : list (bytes * list bytes * ty)) (ms : list (bytes * json)) : list bytes :=
  flat_map (fun kv => match member_named blocks fs (fst kv) with Some _ => [] | None => [fst kv] end) ms.
(** The required members that no name denotes, in search order. *)
Definition absent_required (blocks : list nat) (fs : list (bytes * list bytes * ty)) (ms : list (bytes * json)) : list bytes :=
  flat_map (fun i =>
    match nth_error fs i with
    | Some f => if is_optional (snd f) || existsb (Nat.eqb i) (denoted blocks fs ms) then [] else [display_name f]
    | None => []
    end) (search_order 0 blocks).

(** No name or alias belongs to two members or twice to one. *)
Definition names_distinct (fs : list (bytes * list bytes * ty)) : Prop := NoDup (flat_map (fun f => snd (fst f)) fs).

(** The members [ms] of a JSON object read one after the other into the members of a struct. *)
Inductive members_read (g : pcfg) (blocks : list nat) (fs : list (bytes * list bytes * ty))
  : list (bytes * json) -> list val -> list val -> report -> Prop :=
| Mr_nil vs : members_read g blocks fs [] vs vs ([], [])
| Mr_known k j ms i f v v' vs vs' r1 r2 :
    member_named blocks fs k = Some i -> nth_error fs i = Some f -> nth_error vs i = Some v ->
    read_value g (snd f) v j = Ok (NoError, v', r1) -> members_read g blocks fs ms (put i v' vs) vs' r2 ->
    members_read g blocks fs ((k, j) :: ms) vs vs' (rapp r1 r2)
| Mr_unknown k j ms vs vs' r :
    member_named blocks fs k = None -> pc_allow_missing g = true -> members_read g blocks fs ms vs vs' r ->
    members_read g blocks fs ((k, j) :: ms) vs vs' (rapp (if pc_track g then [k] else [], []) r).

(** ** Whole texts
    parseTo on a ParseContext made for one text. *)
Definition parse_text (o : opts) (g : pcfg) (fuel : nat) (t : ty) (v : val) (text : bytes) : outcome (error * val * report) :=
  let* (e, v, c) := parseTo (nextToken o) fuel t v (context_of g text) in Ok (e, v, rep c).

(** It returns with this error, object and these reports. *)
Definition parses (o : opts) (g : pcfg) (t : ty) (v : val) (text : bytes) (e : error) (v' : val) (r : report) : Prop :=
  exists n, forall fuel, n <= fuel -> parse_text o g fuel t v text = Ok (e, v', r).
