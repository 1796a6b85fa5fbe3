(** Recursive types: the finite types that they stand for.  No proofs here. *)
From Verif Require Import Base IntModel HandlerModel RecModel.

(** The type [r] with the finite types [sigma] in the place of the references. *)
Fixpoint inst (sigma : nat -> ty) (r : rty) : ty :=
  match r with
  | RBool => YBool
  | RInt i => YInt i
  | RFp single => YFp single
  | RTime hr ticks => YTime hr ticks
  | RString => YString
  | REnum names under => YEnum names under
  | RRef k => sigma k
  | RNullable r => YNullable (inst sigma r)
  | RNullableChecked r => YNullableChecked (inst sigma r)
  | ROptional r => YOptional (inst sigma r)
  | ROptionalChecked r => YOptionalChecked (inst sigma r)
  | RStdOptional r => YStdOptional (inst sigma r)
  | RPtr u r => YPtr u (inst sigma r)
  | RSilent r => YSilent (inst sigma r)
  | RVec r => YVec (inst sigma r)
  | ROneOrMany r => YOneOrMany (inst sigma r)
  | RFixed n r => YFixed n (inst sigma r)
  | RVar n r => YVar n (inst sigma r)
  | RSet r => YSet (inst sigma r)
  | RTuple rs => YTuple (map (inst sigma) rs)
  | RMap r => YMap (inst sigma r)
  | RStruct b fs => YStruct b (map (fun f => (fst f, inst sigma (snd f))) fs)
  end.

(** The struct number [k], unrolled [depth] times; bool stands in the place of what is below. *)
Fixpoint unroll (env : list rty) (depth : nat) (k : nat) : ty :=
  match depth with
  | O => YBool
  | S d => inst (unroll env d) (struct_of env k)
  end.

(** An object holds other objects of recursive types only on the heap: through vectors, sets, maps and
    pointers.  (Otherwise the type has no finite size, and C++ does not have it.) *)
Fixpoint no_inline (r : rty) : bool :=
  match r with
  | RRef _ => false
  | RBool | RInt _ | RFp _ | RTime _ _ | RString | REnum _ _ => true
  | RStdOptional _ | RPtr _ _ | RVec _ | ROneOrMany _ | RSet _ | RMap _ => true
  | RNullable r | RNullableChecked r | ROptional r | ROptionalChecked r | RSilent r | RFixed _ r | RVar _ r => no_inline r
  | RTuple rs => forallb no_inline rs
  | RStruct _ fs => forallb (fun f => no_inline (snd f)) fs
  end.

(** How deep an object is. *)
Fixpoint height (v : val) : nat :=
  match v with
  | VBool _ | VInt _ | VFp _ _ | VStr _ | VOpt None => 0
  | VFlag _ v | VOpt (Some v) => S (height v)
  | VList l | VVar _ l => S (list_max (map height l))
  | VMap m => S (list_max (map (fun kv => height (snd kv)) m))
  end.

(** T(): the objects of recursive types in it are on the heap, so that it does not depend on them. *)
Definition fresh (env : list rty) (r : rty) : val := rinit (init_of env 1) r.

(** The program: every name is that of a struct with members as its blocks say, and no object has
    itself as a part. *)
Fixpoint r_ok (r : rty) : bool :=
  match r with
  | RBool | RInt _ | RFp _ | RTime _ _ | RString | REnum _ _ | RRef _ => true
  | RNullable r | RNullableChecked r | ROptional r | ROptionalChecked r | RStdOptional r | RPtr _ r | RSilent r
  | RVec r | ROneOrMany r | RFixed _ r | RVar _ r | RSet r | RMap r => r_ok r
  | RTuple rs => forallb r_ok rs
  | RStruct blocks fs => Nat.eqb (list_sum blocks) (length fs) && forallb (fun f => r_ok (snd f)) fs
  end.
Definition is_struct (r : rty) : bool := match r with RStruct _ _ => true | _ => false end.
Definition env_ok (env : list rty) : Prop := Forall (fun r => is_struct r && r_ok r && no_inline r = true) env.

(** No maps, no floating point numbers and time points. *)
Fixpoint r_plain (r : rty) : bool :=
  match r with
  | RBool | RInt _ | RString | REnum _ _ | RRef _ => true
  | RFp _ | RTime _ _ | RMap _ => false
  | RNullable r | RNullableChecked r | ROptional r | ROptionalChecked r | RStdOptional r | RPtr _ r | RSilent r
  | RVec r | ROneOrMany r | RFixed _ r | RVar _ r | RSet r => r_plain r
  | RTuple rs => forallb r_plain rs
  | RStruct blocks fs => forallb (fun f => r_plain (snd f)) fs
  end.

(** No floating point numbers and time points. *)
Fixpoint r_fp_free (r : rty) : bool :=
  match r with
  | RBool | RInt _ | RString | REnum _ _ | RRef _ => true
  | RFp _ | RTime _ _ => false
  | RNullable r | RNullableChecked r | ROptional r | ROptionalChecked r | RStdOptional r | RPtr _ r | RSilent r
  | RVec r | ROneOrMany r | RFixed _ r | RVar _ r | RSet r | RMap r => r_fp_free r
  | RTuple rs => forallb r_fp_free rs
  | RStruct blocks fs => forallb (fun f => r_fp_free (snd f)) fs
  end.
