(** Model of ParseContext (H 3864-3966), ParseContext::parseTo (H 4607-4619) and of the type
    handlers for bool, integers, double, float, time points, strings, enums, wrappers, smart pointers, vectors, fixed and
    variable arrays, sets, tuples, maps and JS_OBJECT structs (H 4174-4604, 5705-5832, 6093-6120,
    8562-8945, 9008-9160, 9484-9750, 10100-10286).  No proofs here.

    Simplifications: C++ types are codes [ty], objects are trees [val]; values that C++ leaves
    indeterminate (a [T t;] that is parsed into at once) are zero; std::set and std::map keep
    their elements in insertion order (the theorems are stated so that the order of iteration
    does not matter).  Types that refer to themselves are in RecModel.v. *)
From Verif Require Import Base ScanModel TokModel EscapeModel IntModel.
From Verif Require DoubleModel FloatModel RyuModel TimeModel.

(** ** Types and values *)

(** A struct: [blocks] are the numbers of members of the struct itself and of its super classes,
    in the order of the indices of assigned_members (H 4358-4365, 4470-4484: own members, then
    the super classes from the last to the first, each followed by its own super classes);
    [fs] are all members in that order: name of the super class, names (primary, aliases), type. *)
Inductive ty : Type :=
| YBool
| YInt (i : ity)
| YFp (single : bool)   (* float or double *)
| YTime (hr : bool) (ticks : Z)   (* time_point, see TimeModel *)
| YString
| YEnum (names : list bytes) (under : ity)
| YNullable (t : ty)
| YNullableChecked (t : ty)
| YOptional (t : ty)
| YOptionalChecked (t : ty)
| YStdOptional (t : ty)
| YPtr (unique : bool) (t : ty)
| YSilent (t : ty)      (* SilentString, SilentVector, SilentUniquePtr around their plain type *)
| YVec (t : ty)
| YOneOrMany (t : ty)
| YFixed (n : nat) (t : ty)
| YVar (n : nat) (t : ty)
| YSet (t : ty)
| YTuple (ts : list ty)
| YMap (t : ty)
| YStruct (blocks : list nat) (fs : list (bytes * list bytes * ty)).

(** Nullable, Optional and the Silent types only wrap their value.  [VFlag]: NullableChecked
    (flag [null]) and OptionalChecked (flag [assigned]).  [VFp]: the bit pattern of a float or double. *)
Inductive val : Type :=
| VBool (b : bool)
| VInt (z : Z)
| VFp (single : bool) (b : N)
| VStr (s : bytes)
| VFlag (flag : bool) (v : val)
| VOpt (v : option val)
| VList (l : list val)
| VVar (size : nat) (slots : list val)
| VMap (m : list (bytes * val)).

(** T(): a value-initialised object. *)
Fixpoint init (t : ty) : val :=
  match t with
  | YBool => VBool false
  | YInt _ | YEnum _ _ => VInt 0
  | YFp single => VFp single 0
  | YTime _ _ => VInt 0
  | YString => VStr []
  | YNullable t | YOptional t | YSilent t => init t
  | YNullableChecked t => VFlag true (init t)
  | YOptionalChecked t => VFlag false (init t)
  | YStdOptional _ | YPtr _ _ => VOpt None
  | YVec _ | YOneOrMany _ | YSet _ => VList []
  | YFixed n t => VList (repeat (init t) n)
  | YVar n t => VVar 0 (repeat (init t) n)
  | YTuple ts => VList (map init ts)
  | YMap _ => VMap []
  | YStruct _ fs => VList (map (fun f => init (snd f)) fs)
  end.

(** H 3828-3862: IsOptionalType. *)
Definition is_optional (t : ty) : bool :=
  match t with
  | YOptional _ | YOptionalChecked _ | YStdOptional _ | YSilent _ | YPtr true _ => true
  | _ => false
  end.

(** 0.0 and -0.0. *)
Definition fp_zero (single : bool) (b : N) : bool := N.eqb b 0 || N.eqb b (if single then 2 ^ 31 else 2 ^ 63).

(** operator== as used by std::set and std::map (there: neither a < b nor b < a), without NaN, which is
    only stored together with an error. *)
Fixpoint val_eqb (a b : val) {struct a} : bool :=
  match a, b with
  | VBool x, VBool y => Bool.eqb x y
  | VInt x, VInt y => Z.eqb x y
  | VFp s x, VFp s' y => Bool.eqb s s' && (N.eqb x y || fp_zero s x && fp_zero s y)
  | VStr x, VStr y => bytes_eqb x y
  | VFlag f x, VFlag g y => Bool.eqb f g && val_eqb x y
  | VOpt None, VOpt None => true
  | VOpt (Some x), VOpt (Some y) => val_eqb x y
  | VList l, VList m =>
      (fix go l m := match l, m with
                     | [], [] => true | x :: l, y :: m => val_eqb x y && go l m | _, _ => false end) l m
  | VVar n l, VVar k m =>
      Nat.eqb n k &&
      (fix go l m := match l, m with
                     | [], [] => true | x :: l, y :: m => val_eqb x y && go l m | _, _ => false end) l m
  | VMap l, VMap m =>
      (fix go l m := match l, m with
                     | [], [] => true
                     | x :: l, y :: m => bytes_eqb (fst x) (fst y) && val_eqb (snd x) (snd y) && go l m
                     | _, _ => false end) l m
  | _, _ => false
  end.

(** to_type[key] = v *)
Fixpoint map_put (k : bytes) (v : val) (m : list (bytes * val)) : list (bytes * val) :=
  match m with
  | [] => [(k, v)]
  | (k', v') :: r => if bytes_eqb k k' then (k', v) :: r else (k', v') :: map_put k v r
  end.

(** Position [i] of a list replaced. *)
Fixpoint put {A} (i : nat) (x : A) (l : list A) : list A :=
  match l, i with
  | [], _ => []
  | _ :: r, O => x :: r
  | y :: r, S i => y :: put i x r
  end.

(** ** Reading *)

(** H 3962-3964. *)
Record pcfg : Set := mkCfg { pc_allow_missing : bool; pc_allow_unassigned : bool; pc_track : bool }.
Definition cfg_default : pcfg := mkCfg true true true.

Section Handlers.
(** The tokenizer: [next token state] is nextToken(token). *)
Context {S : Type} (next : token -> S -> outcome (S * error * token)).

Record ctx : Type := mkCtx {
  c_src : S; c_tok : token; c_err : error; c_missing : list bytes; c_unassigned : list bytes; c_cfg : pcfg }.

Definition set_err (e : error) (c : ctx) : ctx :=
  mkCtx (c_src c) (c_tok c) e (c_missing c) (c_unassigned c) (c_cfg c).
Definition add_missing (n : bytes) (c : ctx) : ctx :=
  if pc_track (c_cfg c) then
    mkCtx (c_src c) (c_tok c) (c_err c) (c_missing c ++ [n]) (c_unassigned c) (c_cfg c)
  else c.
Definition add_unassigned (l : list bytes) (c : ctx) : ctx :=
  if pc_track (c_cfg c) then
    mkCtx (c_src c) (c_tok c) (c_err c) (c_missing c) (c_unassigned c ++ l) (c_cfg c)
  else c.

(** context.tokenizer.nextToken(context.token): context.error is not touched. *)
Definition ctx_read (c : ctx) : outcome (error * ctx) :=
  let* (s, e, tk) := next (c_tok c) (c_src c) in
  Ok (e, mkCtx s tk (c_err c) (c_missing c) (c_unassigned c) (c_cfg c)).
(** H 3900-3904: ParseContext::nextToken. *)
Definition ctx_next (c : ctx) : outcome (error * ctx) :=
  let* (e, c) := ctx_read c in Ok (e, set_err e c).

Definition handler : Type := val -> ctx -> outcome (error * val * ctx).
Definition is_ok (e : error) : bool := match e with NoError => true | _ => false end.

Definition c_type (c : ctx) : type := tk_value_type (c_tok c).
Definition c_value (c : ctx) : bytes := dr_bytes (tk_value (c_tok c)).
Definition c_name (c : ctx) : bytes := dr_bytes (tk_name (c_tok c)).

(** H 8916-8932. *)
Definition bool_to : handler := fun v c =>
  if bytes_eqb (c_value c) [x74; x72; x75; x65] then Ok (NoError, VBool true, c)
  else if bytes_eqb (c_value c) [x66; x61; x6c; x73; x65] then Ok (NoError, VBool false, c)
  else Ok (FailedToParseBoolean, v, c).

(** H 8652-8661. *)
Definition integer_to (i : ity) : handler := fun v c =>
  let* (e, z) := int_to i (c_value c) in Ok (e, VInt z, c).

(** H 8562-8570 and 8606-8614. *)
Definition fp_read (single : bool) (value : bytes) : outcome (error * N) :=
  if single then FloatModel.float_to value else DoubleModel.double_to value.
Definition fp_to (single : bool) : handler := fun v c =>
  let* (e, b) := fp_read single (c_value c) in Ok (e, VFp single b, c).

(** H 8967-8992: see TimeModel. *)
Definition time_point_to (hr : bool) (ticks : Z) : handler := fun v c =>
  match v with
  | VInt old => let* (e, n) := TimeModel.time_to hr ticks (c_value c) old in Ok (e, VInt n, c)
  | _ => UB
  end.

(** H 6097-6102. *)
Definition string_to : handler := fun v c => Ok (NoError, VStr (escapes_in (c_value c)), c).

(** H 5790-5823: EnumHandler::to. *)
Fixpoint index_of (n : bytes) (l : list bytes) : option nat :=
  match l with
  | [] => None
  | x :: r => if bytes_eqb x n then Some 0 else option_map Datatypes.S (index_of n r)
  end.
Definition enum_to (names : list bytes) (under : ity) : handler := fun v c =>
  match c_type c with
  | TString =>
      match index_of (c_value c) names with
      | Some i => Ok (NoError, VInt (Z.of_nat i), c)
      | None => Ok (IllegalDataValue, v, c)
      end
  | TNumber =>
      let* (e, z) := int_to under (c_value c) in
      Ok (e, if is_ok e then VInt z else v, c)
  | _ => Ok (IllegalDataValue, v, c)
  end.

(** H 8745-8754: Nullable. *)
Definition nullable_to (h : handler) : handler := fun v c =>
  if type_eqb (c_type c) TNull then Ok (NoError, v, c) else h v c.
(** H 8763-8777: NullableChecked. *)
Definition nullable_checked_to (h : handler) : handler := fun v c =>
  match v with
  | VFlag _ d =>
      if type_eqb (c_type c) TNull then Ok (NoError, VFlag true d, c)
      else let* (e, d, c) := h d c in Ok (e, VFlag false d, c)
  | _ => UB
  end.
(** H 8811-8819: OptionalChecked. *)
Definition optional_checked_to (h : handler) : handler := fun v c =>
  match v with
  | VFlag _ d => let* (e, d, c) := h d c in Ok (e, VFlag true d, c)
  | _ => UB
  end.
(** H 8831-8838: std::optional; emplace() makes a new T(). *)
Definition std_optional_to (d : val) (h : handler) : handler := fun v c =>
  let* (e, d, c) := h d c in Ok (e, VOpt (Some d), c).
(** H 8849-8863 and 8882-8896: shared_ptr, unique_ptr. *)
Definition ptr_to (d : val) (h : handler) : handler := fun v c =>
  match v with
  | VOpt o =>
      if type_eqb (c_type c) TNull then Ok (NoError, VOpt None, c)
      else let* (e, d, c) := h (match o with Some x => x | None => d end) c in Ok (e, VOpt (Some d), c)
  | _ => UB
  end.

(** H 9010-9031: vectors (and 9056-9081 for bool). *)
Fixpoint vec_loop (fuel : nat) (d : val) (h : handler) (acc : list val) (c : ctx) : outcome (error * list val * ctx) :=
  match fuel with
  | O => OutOfFuel
  | Datatypes.S f =>
    if type_eqb (c_type c) TArrayEnd then Ok (NoError, acc, c)
    else
      let* (e, v, c) := h d c in
      if is_ok e then
        let* (e, c) := ctx_next c in
        if is_ok e then vec_loop f d h (acc ++ [v]) c else Ok (e, acc ++ [v], c)
      else Ok (e, acc ++ [v], c)
  end.
Definition vec_to (fuel : nat) (d : val) (h : handler) : handler := fun v c =>
  if type_eqb (c_type c) TArrayStart then
    let* (e, c) := ctx_next c in
    if is_ok e then let* (e, l, c) := vec_loop fuel d h [] c in Ok (e, VList l, c)
    else Ok (e, v, c)
  else Ok (ExpectedArrayStart, v, c).

(** H 9650-9662: OneOrMany; a single value is appended to what was there. *)
Definition one_or_many_to (fuel : nat) (d : val) (h : handler) : handler := fun v c =>
  if type_eqb (c_type c) TArrayStart then
    let* (e, v, c) := vec_to fuel d h v c in Ok (e, v, set_err e c)
  else
    match v with
    | VList l => let* (e, x, c) := h d c in Ok (e, VList (l ++ [x]), set_err e c)
    | _ => UB
    end.

(** H 9679-9699 and 10253-10270: T[N], std::array.  [acc]: slots already filled. *)
Fixpoint fixed_loop (h : handler) (acc slots : list val) (c : ctx) : outcome (error * list val * ctx) :=
  match slots with
  | [] => Ok (if type_eqb (c_type c) TArrayEnd then c_err c else ExpectedArrayEnd, acc, c)
  | v :: r =>
    if is_ok (c_err c) then
      let* (e, v, c) := h v c in
      let c := set_err e c in
      if is_ok e then
        let* (_, c) := ctx_next c in fixed_loop h (acc ++ [v]) r c
      else Ok (e, acc ++ v :: r, c)
    else Ok (c_err c, acc ++ v :: r, c)
  end.
Definition fixed_to (h : handler) : handler := fun v c =>
  match v with
  | VList slots =>
      if type_eqb (c_type c) TArrayStart then
        let* (_, c) := ctx_next c in
        let* (e, l, c) := fixed_loop h [] slots c in Ok (e, VList l, c)
      else Ok (ExpectedArrayStart, v, c)
  | _ => UB
  end.

(** H 10111-10136: ArrayVariableContent.  [size]: the member as it is now. *)
Fixpoint var_loop (h : handler) (size : nat) (acc slots : list val) (c : ctx) : outcome (error * (nat * list val) * ctx) :=
  match slots with
  | [] => Ok (if type_eqb (c_type c) TArrayEnd then c_err c else ExpectedArrayEnd, (size, acc), c)
  | v :: r =>
    if is_ok (c_err c) then
      if type_eqb (c_type c) TArrayEnd then Ok (c_err c, (length acc, acc ++ v :: r), c)
      else
        let* (e, v, c) := h v c in
        let c := set_err e c in
        if is_ok e then
          let* (_, c) := ctx_next c in var_loop h size (acc ++ [v]) r c
        else Ok (e, (size, acc ++ v :: r), c)
    else Ok (c_err c, (size, acc ++ v :: r), c)
  end.
Definition var_to (h : handler) : handler := fun v c =>
  match v with
  | VVar size slots =>
      if type_eqb (c_type c) TArrayStart then
        let* (_, c) := ctx_next c in
        let* (e, r, c) := var_loop h size [] slots c in Ok (e, VVar (fst r) (snd r), c)
      else Ok (ExpectedArrayStart, v, c)
  | _ => UB
  end.

(** H 10156-10181: TypeHandlerSet::to. *)
Fixpoint set_loop (fuel : nat) (d : val) (h : handler) (acc : list val) (c : ctx) : outcome (error * list val * ctx) :=
  match fuel with
  | O => OutOfFuel
  | Datatypes.S f =>
    if type_eqb (c_type c) TArrayEnd then Ok (NoError, acc, c)
    else
      let* (e, v, c) := h d c in
      if is_ok e then
        if existsb (val_eqb v) acc then Ok (DuplicateInSet, acc, c)
        else
          let* (e, c) := ctx_next c in
          if is_ok e then set_loop f d h (acc ++ [v]) c else Ok (e, acc ++ [v], c)
      else Ok (e, acc, c)
  end.
Definition set_to (fuel : nat) (d : val) (h : handler) : handler := fun v c =>
  if type_eqb (c_type c) TArrayStart then
    let* (e, c) := ctx_next c in
    if is_ok e then let* (e, l, c) := set_loop fuel d h [] c in Ok (e, VList l, c)
    else Ok (e, v, c)
  else Ok (ExpectedArrayStart, v, c).

(** H 9484-9530, 9532-9638: tuples. *)
Fixpoint tuple_loop (hs : list handler) (acc vs : list val) (c : ctx) : outcome (error * list val * ctx) :=
  match hs, vs with
  | [], [] => Ok (if type_eqb (c_type c) TArrayEnd then NoError else ExpectedArrayEnd, acc, c)
  | h :: hs, v :: r =>
      let* (e, v, c) := h v c in
      if is_ok e then
        let* (e, c) := ctx_next c in
        if is_ok e then tuple_loop hs (acc ++ [v]) r c else Ok (e, acc ++ v :: r, c)
      else Ok (e, acc ++ v :: r, c)
  | _, _ => UB
  end.
Definition tuple_to (hs : list handler) : handler := fun v c =>
  match v with
  | VList vs =>
      if type_eqb (c_type c) TArrayStart then
        let* (e, c) := ctx_next c in
        if is_ok e then let* (e, l, c) := tuple_loop hs [] vs c in Ok (e, VList l, c)
        else Ok (e, v, c)
      else Ok (ExpectedArrayStart, v, c)
  | _ => UB
  end.

(** H 9721-9747: TypeHandlerMap::to.  The loop does not look at the error of nextToken. *)
Fixpoint map_loop (fuel : nat) (d : val) (h : handler) (e : error) (m : list (bytes * val)) (c : ctx)
  : outcome (error * list (bytes * val) * ctx) :=
  match fuel with
  | O => OutOfFuel
  | Datatypes.S f =>
    if type_eqb (c_type c) TObjectEnd then Ok (e, m, c)
    else
      let key := escapes_in (c_name c) in
      let* (e, v, c) := h d c in
      let m := map_put key v m in
      if is_ok e then let* (e, c) := ctx_next c in map_loop f d h e m c
      else Ok (e, m, c)
  end.
Definition map_to (fuel : nat) (d : val) (h : handler) : handler := fun v c =>
  match v with
  | VMap m =>
      if type_eqb (c_type c) TObjectStart then
        let* (e, c) := ctx_next c in
        if is_ok e then let* (e, m, c) := map_loop fuel d h NoError m c in Ok (e, VMap m, c)
        else Ok (e, v, c)
      else Ok (ExpectedObjectStart, v, c)
  | _ => UB
  end.

(** H 4567-4603: skipArrayOrObject.  The result is not used by its caller (H 5735); on the token of
    a scalar nothing happens. *)
Fixpoint skip_loop (fuel : nat) (start stop : type) (depth : nat) (c : ctx) : outcome ctx :=
  match depth with
  | O => Ok c
  | Datatypes.S d =>
    match fuel with
    | O => OutOfFuel
    | Datatypes.S f =>
      let* (e, c) := ctx_next c in
      if is_ok e then
        skip_loop f start stop
          (if type_eqb (c_type c) start then Datatypes.S depth else if type_eqb (c_type c) stop then d else depth) c
      else Ok c
    end
  end.
Definition skipArrayOrObject (fuel : nat) (c : ctx) : outcome ctx :=
  match c_type c with
  | TObjectStart => skip_loop fuel TObjectStart TObjectEnd 1 c
  | TArrayStart => skip_loop fuel TArrayStart TArrayEnd 1 c
  | _ => Ok c
  end.

(** A member of a struct: super class, names, IsOptionalType, handler. *)
Record field : Type := mkField { f_super : bytes; f_names : list bytes; f_optional : bool; f_to : handler }.

(** The order in which members are tried: block by block, in a block from the last to the first
    (H 4400-4425, 4434-4447, 4470-4484). *)
Fixpoint search_order (start : nat) (blocks : list nat) : list nat :=
  match blocks with
  | [] => []
  | n :: r => rev (seq start n) ++ search_order (start + n) r
  end.

(** H 4231-4262 and 4284-4308: the primary name, or one of the aliases.  (NameChecker starts at
    get<size - size>, which it skips, so it looks at the aliases only.) *)
Definition has_name (primary : bool) (n : bytes) (names : list bytes) : bool :=
  match names with
  | [] => false
  | p :: aliases => if primary then bytes_eqb p n else existsb (fun a => bytes_eqb a n) aliases
  end.
Definition search (primary : bool) (n : bytes) (names : list (list bytes)) (order : list nat) : option nat :=
  find (fun i => has_name primary n (nth i names [])) order.
(** H 5723-5728. *)
Definition search_both (n : bytes) (names : list (list bytes)) (order : list nat) : option nat :=
  match search true n names order with
  | Some i => Some i
  | None => search false n names order
  end.

(** H 4273-4276. *)
Definition matchedMemberResult (e : error) : error :=
  match e with MissingPropertyMember => UnknownPropertyMember | _ => e end.

(** H 5718-5758. *)
Fixpoint struct_loop (fuel : nat) (order : list nat) (fs : list field) (vs : list val) (assigned : list bool) (c : ctx)
  : outcome (error * list val * list bool * ctx) :=
  match fuel with
  | O => OutOfFuel
  | Datatypes.S f =>
    if type_eqb (c_type c) TObjectEnd then Ok (NoError, vs, assigned, c)
    else
      match search_both (c_name c) (map f_names fs) order with
      | Some i =>
          match nth_error fs i, nth_error vs i with
          | Some fd, Some v =>
              let* (e, v, c) := f_to fd v c in
              let vs := put i v vs in
              let assigned := put i true assigned in
              let e := matchedMemberResult e in
              if is_ok e then
                let* (e, c) := ctx_next c in
                if is_ok e then struct_loop f order fs vs assigned c else Ok (e, vs, assigned, c)
              else Ok (e, vs, assigned, c)
          | _, _ => UB
          end
      | None =>
          let c := add_missing (c_name c) c in
          if pc_allow_missing (c_cfg c) then
            let* c := skipArrayOrObject fuel c in
            if is_ok (c_err c) then
              let* (e, c) := ctx_next c in
              if is_ok e then struct_loop f order fs vs assigned c else Ok (e, vs, assigned, c)
            else Ok (c_err c, vs, assigned, c)
          else Ok (MissingPropertyMember, vs, assigned, c)
      end
  end.

(** H 4310-4326, 4427-4431, 4448-4461: the names of the unassigned members that are not optional,
    in the order of the search. *)
Definition unassigned_of (order : list nat) (fs : list (bytes * list bytes * bool)) (assigned : list bool) : list bytes :=
  flat_map (fun i =>
    match nth_error fs i with
    | Some (super, names, opt) =>
        if nth i assigned false || opt then []
        else [(match super with [] => [] | _ => super ++ [x3a; x3a] end) ++ hd [] names]
    | None => []
    end) order.

(** H 5705-5778. *)
Definition struct_to (fuel : nat) (blocks : list nat) (fs : list field) : handler := fun v c =>
  match v with
  | VList vs =>
      if type_eqb (c_type c) TObjectStart then
        let* (e, c) := ctx_read c in
        if is_ok e then
          let order := search_order 0 blocks in
          let* (e, vs, assigned, c) := struct_loop fuel order fs vs (repeat false (length fs)) c in
          if is_ok e then
            match unassigned_of order (map (fun f => (f_super f, f_names f, f_optional f)) fs) assigned with
            | [] => Ok (NoError, VList vs, c)
            | l => Ok (if pc_allow_unassigned (c_cfg c) then NoError else UnassignedRequiredMember, VList vs, add_unassigned l c)
            end
          else Ok (e, VList vs, c)
        else Ok (e, v, c)
      else Ok (ExpectedObjectStart, v, c)
  | _ => UB
  end.

(** TypeHandler<T>::to.  [fuel] bounds every loop. *)
Fixpoint to (fuel : nat) (t : ty) : handler :=
  match t with
  | YBool => bool_to
  | YInt i => integer_to i
  | YFp single => fp_to single
  | YTime hr ticks => time_point_to hr ticks
  | YString => string_to
  | YEnum names under => enum_to names under
  | YNullable t => nullable_to (to fuel t)
  | YNullableChecked t => nullable_checked_to (to fuel t)
  | YOptional t => to fuel t
  | YOptionalChecked t => optional_checked_to (to fuel t)
  | YStdOptional t => std_optional_to (init t) (to fuel t)
  | YPtr _ t => ptr_to (init t) (to fuel t)
  | YSilent t => to fuel t
  | YVec t => vec_to fuel (init t) (to fuel t)
  | YOneOrMany t => one_or_many_to fuel (init t) (to fuel t)
  | YFixed _ t => fixed_to (to fuel t)
  | YVar _ t => var_to (to fuel t)
  | YSet t => set_to fuel (init t) (to fuel t)
  | YTuple ts => tuple_to (map (to fuel) ts)
  | YMap t => map_to fuel (init t) (to fuel t)
  | YStruct blocks fs =>
      struct_to fuel blocks (map (fun f => mkField (fst (fst f)) (snd (fst f)) (is_optional (snd f)) (to fuel (snd f))) fs)
  end.

(** H 4607-4619: ParseContext::parseTo, without the update of the tokenizer's error context. *)
Definition parseTo (fuel : nat) (t : ty) (v : val) (c : ctx) : outcome (error * val * ctx) :=
  let* (e, c) := ctx_next c in
  if is_ok e then
    let* (e, v, c) := to fuel t v c in Ok (e, v, set_err e c)
  else Ok (e, v, c).
End Handlers.
Arguments ctx : clear implicits.
Arguments handler : clear implicits.
Arguments field : clear implicits.

(** A context around the modelled tokenizer with one text and no callbacks. *)
Definition context_of (cfg : pcfg) (text : bytes) : ctx tstate :=
  mkCtx (addData text t_init) tok_default NoError [] [] cfg.

(** ** Writing *)

(** token.name and token.name_type as they are carried from write to write. *)
Record wname : Type := mkWn { wn : bytes; wn_type : type }.

Definition wtok (n : wname) (v : bytes) (t : type) : token :=
  mkTok (mkRef Elsewhere (wn n)) (mkRef Elsewhere v) (wn_type n) t.
Definition noname (n : wname) : wname := mkWn [] (wn_type n).

(** What a handler passes to Serializer::write, and the name left in the token. *)
Definition writer : Type := val -> wname -> list token * wname.

Definition write1 (v : bytes) (t : type) (n : wname) : list token * wname := ([wtok n v t], n).
Definition null_text : bytes := [x6e; x75; x6c; x6c].

Fixpoint from_list (ws : list (wname -> list token * wname)) (n : wname) : list token * wname :=
  match ws with
  | [] => ([], n)
  | w :: r => let '(l1, n) := w n in let '(l2, n) := from_list r n in (l1 ++ l2, n)
  end.

(** H 9033-9052 and the like: vectors, arrays, sets, tuples. *)
Definition from_array (ws : list (wname -> list token * wname)) (n : wname) : list token * wname :=
  let '(l, n') := from_list ws (noname n) in
  (wtok n [x5b] TArrayStart :: l ++ [wtok (noname n') [x5d] TArrayEnd], noname n').

Definition from_object (ws : list (wname -> list token * wname)) (n : wname) : list token * wname :=
  let '(l, n') := from_list ws n in
  (wtok n [x7b] TObjectStart :: l ++ [wtok (mkWn [] TString) [x7d] TObjectEnd], mkWn [] TString).

Definition named (k : bytes) (t : type) (w : wname -> list token * wname) : wname -> list token * wname :=
  fun _ => w (mkWn k t).

(** SilentString and SilentVector: nothing when empty; SilentUniquePtr: nothing when null. *)
Definition is_silent (v : val) : bool :=
  match v with VStr [] | VList [] | VOpt None => true | _ => false end.

Definition vals_of (v : val) : list val := match v with VList l => l | _ => [] end.

(** H 8572-8604 and 8616-8642; the buffer is on the stack and not initialised (C25 and C54 hold for any
    content). *)
Definition fp_write (single : bool) (b : N) : outcome (option (type * bytes)) :=
  if single then RyuModel.float_from b (repeat x00 16) else RyuModel.double_from b (repeat x00 32).

(** The order of serialization: the members of each block in order (H 4427-4432, 4463-4469,
    4486-4495), which is the order of the indices. *)
Fixpoint from (i : isa) (t : ty) (v : val) (n : wname) {struct t} : list token * wname :=
  match t with
  | YBool => match v with
             | VBool true => write1 [x74; x72; x75; x65] TBool n
             | _ => write1 [x66; x61; x6c; x73; x65] TBool n
             end
  | YInt it => match v with
               | VInt z => match int_from it z with Some text => write1 text TNumber n | None => ([], n) end
               | _ => ([], n)
               end
  | YFp single => match v with
                  | VFp _ b => match fp_write single b with Ok (Some (t, text)) => write1 text t n | _ => ([], n) end
                  | _ => ([], n)
                  end
  | YTime hr ticks => match v with
                      | VInt z => match TimeModel.time_from hr ticks z with Ok (Some text) => write1 text TNumber n | _ => ([], n) end
                      | _ => ([], n)
                      end
  | YString => match v with VStr s => write1 (escapes_out i s) TString n | _ => ([], n) end
  | YEnum names _ =>
      (* an index out of range reads past the vector; see C33 *)
      match v with VInt z => write1 (nth (Z.to_nat z) names []) TString n | _ => ([], n) end
  | YNullable t | YOptional t => from i t v n
  | YNullableChecked t => match v with
                          | VFlag true _ => write1 null_text TNull n
                          | VFlag false v => from i t v n
                          | _ => ([], n)
                          end
  | YOptionalChecked t => match v with VFlag true v => from i t v n | _ => ([], n) end
  | YStdOptional t => match v with VOpt (Some v) => from i t v n | _ => ([], n) end
  | YPtr _ t => match v with VOpt (Some v) => from i t v n | _ => write1 null_text TNull n end
  | YSilent t => if is_silent v then ([], n) else from i t v n
  | YVec t | YFixed _ t | YSet t => from_array (map (from i t) (vals_of v)) n
  | YOneOrMany t => match vals_of v with
                    | [] => ([], n)
                    | [x] => from i t x n
                    | l => from_array (map (from i t) l) n
                    end
  | YVar _ t => match v with VVar size slots => from_array (map (from i t) (firstn size slots)) n | _ => ([], n) end
  | YTuple ts => from_array ((fix go ts vs := match ts, vs with
                                | t :: ts, v :: vs => from i t v :: go ts vs | _, _ => [] end) ts (vals_of v)) n
  | YMap t => match v with
              | VMap m => from_object (map (fun kv => named (fst kv) TString (from i t (snd kv))) m) n
              | _ => ([], n)
              end
  | YStruct _ fs => from_object ((fix go fs vs := match fs, vs with
                                | f :: fs, v :: vs => named (hd [] (snd (fst f))) TAscii (from i (snd f) v) :: go fs vs
                                | _, _ => [] end) fs (vals_of v)) n
  end.
