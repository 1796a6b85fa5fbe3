(** Model of recursive types: structs with members that hold objects of the struct itself, through
    vectors, smart pointers, maps and the like.  No proofs here.

    In HandlerModel a type is a finite tree.  Here a type may refer to a named struct ([RRef]), and the
    handler of a reference is the handler of that struct, as in the templates of H (the instantiation
    TypeHandler<T> is one function, which may call itself).  [depth] bounds the depth of these calls;
    the bound is not in the code, and a call beyond it gives OutOfFuel.  The handlers themselves are
    those of HandlerModel. *)
From Verif Require Import Base ScanModel TokModel IntModel SerModel HandlerModel WriteModel.

Inductive rty : Type :=
| RBool
| RInt (i : ity)
| RFp (single : bool)
| RTime (hr : bool) (ticks : Z)
| RString
| REnum (names : list bytes) (under : ity)
| RRef (k : nat)    (* the struct number [k] of the program *)
| RNullable (r : rty)
| RNullableChecked (r : rty)
| ROptional (r : rty)
| ROptionalChecked (r : rty)
| RStdOptional (r : rty)
| RPtr (unique : bool) (r : rty)
| RSilent (r : rty)
| RVec (r : rty)
| ROneOrMany (r : rty)
| RFixed (n : nat) (r : rty)
| RVar (n : nat) (r : rty)
| RSet (r : rty)
| RTuple (rs : list rty)
| RMap (r : rty)
| RStruct (blocks : list nat) (fs : list (bytes * list bytes * rty)).

(** H 3828-3862: IsOptionalType; a struct is not optional. *)
Definition r_optional (r : rty) : bool :=
  match r with
  | ROptional _ | ROptionalChecked _ | RStdOptional _ | RSilent _ | RPtr true _ => true
  | _ => false
  end.

(** T(), given the initial objects of the structs. *)
Fixpoint rinit (iref : nat -> val) (r : rty) : val :=
  match r with
  | RBool => VBool false
  | RInt _ | REnum _ _ | RTime _ _ => VInt 0
  | RFp single => VFp single 0
  | RString => VStr []
  | RRef k => iref k
  | RNullable r | ROptional r | RSilent r => rinit iref r
  | RNullableChecked r => VFlag true (rinit iref r)
  | ROptionalChecked r => VFlag false (rinit iref r)
  | RStdOptional _ | RPtr _ _ => VOpt None
  | RVec _ | ROneOrMany _ | RSet _ => VList []
  | RFixed n r => VList (repeat (rinit iref r) n)
  | RVar n r => VVar 0 (repeat (rinit iref r) n)
  | RTuple rs => VList (map (rinit iref) rs)
  | RMap _ => VMap []
  | RStruct _ fs => VList (map (fun f => rinit iref (snd f)) fs)
  end.

Section Handlers.
Context {S : Type} (next : token -> S -> outcome (S * error * token)) (fuel : nat).

(** TypeHandler<T>::to, given the handlers of the structs. *)
Fixpoint rhandle (ref : nat -> handler S) (iref : nat -> val) (r : rty) : handler S :=
  match r with
  | RBool => bool_to
  | RInt i => integer_to i
  | RFp single => fp_to single
  | RTime hr ticks => time_point_to hr ticks
  | RString => string_to
  | REnum names under => enum_to names under
  | RRef k => ref k
  | RNullable r => nullable_to (rhandle ref iref r)
  | RNullableChecked r => nullable_checked_to (rhandle ref iref r)
  | ROptional r => rhandle ref iref r
  | ROptionalChecked r => optional_checked_to (rhandle ref iref r)
  | RStdOptional r => std_optional_to (rinit iref r) (rhandle ref iref r)
  | RPtr _ r => ptr_to (rinit iref r) (rhandle ref iref r)
  | RSilent r => rhandle ref iref r
  | RVec r => vec_to next fuel (rinit iref r) (rhandle ref iref r)
  | ROneOrMany r => one_or_many_to next fuel (rinit iref r) (rhandle ref iref r)
  | RFixed _ r => fixed_to next (rhandle ref iref r)
  | RVar _ r => var_to next (rhandle ref iref r)
  | RSet r => set_to next fuel (rinit iref r) (rhandle ref iref r)
  | RTuple rs => tuple_to next (map (rhandle ref iref) rs)
  | RMap r => map_to next fuel (rinit iref r) (rhandle ref iref r)
  | RStruct blocks fs =>
      struct_to next fuel blocks (map (fun f => mkField (fst (fst f)) (snd (fst f)) (r_optional (snd f)) (rhandle ref iref (snd f))) fs)
  end.

(** The structs of the program.  (A number beyond the list is a struct without members.) *)
Variable env : list rty.
Definition struct_of (k : nat) : rty := nth k env (RStruct [] []).

Fixpoint init_of (depth : nat) (k : nat) : val :=
  match depth with
  | O => VBool false
  | Datatypes.S d => rinit (init_of d) (struct_of k)
  end.
Fixpoint handler_of (depth : nat) (k : nat) : handler S :=
  match depth with
  | O => fun _ _ => OutOfFuel
  | Datatypes.S d => rhandle (handler_of d) (init_of d) (struct_of k)
  end.
Definition rto (depth : nat) (r : rty) : handler S := rhandle (handler_of depth) (init_of depth) r.

(** As parseTo of HandlerModel. *)
Definition rparseTo (depth : nat) (r : rty) (v : val) (c : ctx S) : outcome (error * val * ctx S) :=
  let* (e, c) := ctx_next next c in
  if is_ok e then
    let* (e, v, c) := rto depth r v c in Ok (e, v, set_err e c)
  else Ok (e, v, c).
End Handlers.

(** The text into an object; error, object and reports. *)
Definition rparse (o : opts) (g : pcfg) (env : list rty) (fuel depth : nat) (r : rty) (v : val) (text : bytes)
  : outcome (error * val * (list bytes * list bytes)) :=
  let* (e, v, c) := rparseTo (nextToken o) fuel env depth r v (context_of g text) in
  Ok (e, v, (c_missing c, c_unassigned c)).

(** ** Writing *)

(** TypeHandler<T>::from, given those of the structs; as in HandlerModel. *)
Fixpoint rwrite (i : isa) (wref : nat -> writer) (r : rty) (v : val) (n : wname) {struct r} : list token * wname :=
  match r with
  | RBool => from i YBool v n
  | RInt it => from i (YInt it) v n
  | RFp single => from i (YFp single) v n
  | RTime hr ticks => from i (YTime hr ticks) v n
  | RString => from i YString v n
  | REnum names under => from i (YEnum names under) v n
  | RRef k => wref k v n
  | RNullable r | ROptional r => rwrite i wref r v n
  | RNullableChecked r => match v with
                          | VFlag true _ => write1 null_text TNull n
                          | VFlag false v => rwrite i wref r v n
                          | _ => ([], n)
                          end
  | ROptionalChecked r => match v with VFlag true v => rwrite i wref r v n | _ => ([], n) end
  | RStdOptional r => match v with VOpt (Some v) => rwrite i wref r v n | _ => ([], n) end
  | RPtr _ r => match v with VOpt (Some v) => rwrite i wref r v n | _ => write1 null_text TNull n end
  | RSilent r => if is_silent v then ([], n) else rwrite i wref r v n
  | RVec r | RFixed _ r | RSet r => from_array (map (rwrite i wref r) (vals_of v)) n
  | ROneOrMany r => match vals_of v with
                    | [] => ([], n)
                    | [x] => rwrite i wref r x n
                    | l => from_array (map (rwrite i wref r) l) n
                    end
  | RVar _ r => match v with VVar size slots => from_array (map (rwrite i wref r) (firstn size slots)) n | _ => ([], n) end
  | RTuple rs => from_array ((fix go rs vs := match rs, vs with
                                | r :: rs, v :: vs => rwrite i wref r v :: go rs vs | _, _ => [] end) rs (vals_of v)) n
  | RMap r => match v with
              | VMap m => from_object (map (fun kv => named (fst kv) TString (rwrite i wref r (snd kv))) m) n
              | _ => ([], n)
              end
  | RStruct _ fs => from_object ((fix go fs vs := match fs, vs with
                                | f :: fs, v :: vs => named (hd [] (snd (fst f))) TAscii (rwrite i wref (snd f) v) :: go fs vs
                                | _, _ => [] end) fs (vals_of v)) n
  end.

(** The handlers of the structs; a call deeper than [depth] writes nothing (again the bound is not in
    the code; C59 is about objects that are not that deep). *)
Fixpoint writer_of (i : isa) (env : list rty) (depth : nat) (k : nat) : writer :=
  match depth with
  | O => fun _ n => ([], n)
  | S d => rwrite i (writer_of i env d) (struct_of env k)
  end.

(** As serializeStruct of WriteModel. *)
Definition rserialize (i : isa) (so : sopts) (env : list rty) (depth : nat) (r : rty) (v : val) : outcome bytes :=
  let* (_, s) := ser_writes (fst (rwrite i (writer_of i env depth) r v wname_default)) (ser_make so 4096 (reformat_supply 4096)) in
  Ok (ser_output s).
