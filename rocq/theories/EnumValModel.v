(** Model of the handlers of enums that are read and written by value (JS_ENUM_DECLARE_VALUE_PARSER,
    H 5657-5699) and of JS::Error (H 4686-4726), alone and inside of vectors, maps, std::optional and
    structs.  No proofs here.

    An enum value is the number it stands for, an Error is its number (H 1273-1306), so an object is a
    [val] as in HandlerModel.  Members of all other types are [MTy]. *)
From Verif Require Import Base ScanModel TokModel EscapeModel IntModel HandlerModel SerModel WriteModel ErrMsgModel.
From Coq Require Import String List.
Import ListNotations.
Local Open Scope list_scope.

(** [legal]: the numbers that are values of the enum ([dcl.enum]/8): all of the underlying type if that is
    fixed, as for enum class; else those of the smallest bit field that holds all enumerators. *)
Inductive mty : Type :=
| MTy (t : ty)
| MEnum (under : ity) (legal : Z -> bool)
| MError
| MVec (m : mty)
| MMap (m : mty)
| MStdOptional (m : mty)
| MStruct (blocks : list nat) (fs : list (bytes * list bytes * mty)).

(** A value-initialised object; [Error] is then NoError. *)
Fixpoint minit (m : mty) : val :=
  match m with
  | MTy t => init t
  | MEnum _ _ | MError => VInt 0
  | MVec _ => VList []
  | MMap _ => VMap []
  | MStdOptional _ => VOpt None
  | MStruct _ fs => VList (map (fun f => minit (snd f)) fs)
  end.
Definition m_optional (m : mty) : bool :=
  match m with MTy t => is_optional t | MStdOptional _ => true | _ => false end.

Section Read.
Context {S : Type} (next : token -> S -> outcome (S * error * token)).

(** H 5664-5671 and 5686-5693: static_cast of a number that is not a value of the enum is undefined. *)
Definition enum_value_to (u : ity) (legal : Z -> bool) : handler S := fun v c =>
  let* (e, z) := int_to u (c_value c) in
  if is_ok e then if legal z then Ok (e, VInt z, c) else UB else Ok (e, v, c).

(** H 4689-4711. *)
Definition error_to : handler S := fun v c => Ok (NoError, v, c).

Fixpoint mto (fuel : nat) (m : mty) : handler S :=
  match m with
  | MTy t => to next fuel t
  | MEnum u legal => enum_value_to u legal
  | MError => error_to
  | MVec m => vec_to next fuel (minit m) (mto fuel m)
  | MMap m => map_to next fuel (minit m) (mto fuel m)
  | MStdOptional m => std_optional_to (minit m) (mto fuel m)
  | MStruct blocks fs =>
      struct_to next fuel blocks (map (fun f => mkField (fst (fst f)) (snd (fst f)) (m_optional (snd f)) (mto fuel (snd f))) fs)
  end.

(** H 4607-4619, as in HandlerModel. *)
Definition mparseTo (fuel : nat) (m : mty) (v : val) (c : ctx S) : outcome (error * val * ctx S) :=
  let* (e, c) := ctx_next next c in
  if is_ok e then let* (e, v, c) := mto fuel m v c in Ok (e, v, set_err e c) else Ok (e, v, c).
End Read.

(** H 4713-4725: the text for the number of an Error. *)
Definition error_text (z : Z) : bytes :=
  if (z <? 30)%Z then nth (Z.to_nat z) error_strings [] else s2b "UserDefinedError".

(** H 5672-5676 and 5694-5698: the number, as the underlying integer type writes it. *)
Fixpoint mfrom (i : isa) (m : mty) (v : val) (n : wname) {struct m} : list token * wname :=
  match m with
  | MTy t => from i t v n
  | MEnum u _ => match v with
                 | VInt z => match int_from u z with Some text => write1 text TNumber n | None => ([], n) end
                 | _ => ([], n)
                 end
  | MError => match v with VInt z => write1 (error_text z) TString n | _ => ([], n) end
  | MVec m => from_array (map (mfrom i m) (vals_of v)) n
  | MMap m => match v with
              | VMap l => from_object (map (fun kv => named (fst kv) TString (mfrom i m (snd kv))) l) n
              | _ => ([], n)
              end
  | MStdOptional m => match v with VOpt (Some v) => mfrom i m v n | _ => ([], n) end
  | MStruct _ fs => from_object ((fix go fs vs := match fs, vs with
                                | f :: fs, v :: vs => named (hd [] (snd (fst f))) TAscii (mfrom i (snd f) v) :: go fs vs
                                | _, _ => [] end) fs (vals_of v)) n
  end.

(** serializeStruct, as in WriteModel. *)
Definition mserialize (i : isa) (so : sopts) (m : mty) (v : val) : outcome bytes :=
  let* (_, s) := ser_writes (fst (mfrom i m v wname_default)) (ser_make so 4096 (reformat_supply 4096)) in
  Ok (ser_output s).
