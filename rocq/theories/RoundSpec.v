(** Specification for writing typed values: the JSON value of a typed value, and which values can be
    restored from it.  No proofs here. *)
From Verif Require Import Base ScanModel TokModel JsonSpec StrSpec NumSpec EscapeModel IntModel HandlerModel HandlerSpec.
From Verif Require DoubleSpec TimeModel TimeSpec.

Fixpoint somes {A} (l : list (option A)) : list A :=
  match l with [] => [] | Some x :: r => x :: somes r | None :: r => somes r end.

(** The JSON value written for an object, if anything is written at all.  [i]: the build (only the
    implementation of the escaping depends on it). *)
Fixpoint render (i : isa) (t : ty) (v : val) {struct t} : option json :=
  match t, v with
  | YBool, VBool b => Some (JScalar (if b then STrue else SFalse))
  | YInt it, VInt z => option_map (fun s => JScalar (SNum s)) (int_from it z)
  | YFp single, VFp _ b =>
      match fp_write single b with
      | Ok (Some (TNumber, s)) => Some (JScalar (SNum s))
      | Ok (Some (TNull, _)) => Some (JScalar SNull)
      | _ => None
      end
  | YTime hr ticks, VInt n =>
      match TimeModel.time_from hr ticks n with Ok (Some s) => Some (JScalar (SNum s)) | _ => None end
  | YString, VStr s => Some (JScalar (SStr (escapes_out i s)))
  | YEnum names _, VInt z => Some (JScalar (SStr (nth (Z.to_nat z) names [])))
  | YNullable t, _ | YOptional t, _ => render i t v
  | YNullableChecked t, VFlag null d => if null then Some (JScalar SNull) else render i t d
  | YOptionalChecked t, VFlag assigned d => if assigned then render i t d else None
  | YStdOptional t, VOpt o => match o with Some d => render i t d | None => None end
  | YPtr _ t, VOpt o => match o with Some d => render i t d | None => Some (JScalar SNull) end
  | YSilent t, _ => if is_silent v then None else render i t v
  | YVec t, VList l | YFixed _ t, VList l | YSet t, VList l => Some (JArr (somes (map (render i t) l)))
  | YOneOrMany t, VList l =>
      match l with [] => None | [x] => render i t x | _ => Some (JArr (somes (map (render i t) l))) end
  | YVar _ t, VVar size slots => Some (JArr (somes (map (render i t) (firstn size slots))))
  | YTuple ts, VList vs =>
      Some (JArr (somes ((fix go ts vs := match ts, vs with t :: ts, v :: vs => render i t v :: go ts vs | _, _ => [] end) ts vs)))
  | YMap t, VMap m => Some (JObj (somes (map (fun kv => option_map (pair (fst kv)) (render i t (snd kv))) m)))
  | YStruct _ fs, VList vs =>
      Some (JObj (somes ((fix go fs vs := match fs, vs with
        | f :: fs, v :: vs => option_map (pair (hd [] (snd (fst f)))) (render i (snd f) v) :: go fs vs
        | _, _ => [] end) fs vs)))
  | _, _ => None
  end.

Definition is_null (o : option json) : Prop := o = Some (JScalar SNull).
Definition is_array (o : option json) : Prop := exists els, o = Some (JArr els).

(** The finite floats, and the finite doubles but 2^-140 and -2^-140 (see C25). *)
Definition storable_fp (single : bool) (b : N) : Prop :=
  let p := if single then 23%N else 52%N in let w := if single then 8%N else 11%N in
  exists neg m, b = DoubleSpec.with_sign p w neg m /\ (m < DoubleSpec.infinity p w)%N /\
    (single = false -> m <> 3976678470968147968%N).

(** [storable i t v]: [v] is a value of type [t] that its JSON value determines.  Not storable are, for
    example, an int out of range, an infinite double (written as null, C54), an instant that is read in another unit (see C34), a vector that
    contains an unassigned std::optional (nothing is written for it), a NullableChecked that is not null but whose value is written as null, a full
    ArrayVariableContent (see C32), a OneOrMany with a single element that is itself an array, map keys
    with characters that need escapes (see C35), a struct with an unassigned member that is not optional. *)
Fixpoint storable (i : isa) (t : ty) (v : val) {struct t} : Prop :=
  match t, v with
  | YBool, VBool _ => True
  | YInt it, VInt z => int_type (i_bits it) /\ (least (i_bits it) (i_signed it) <= z <= greatest (i_bits it) (i_signed it))%Z
  | YFp single, VFp s b => s = single /\ storable_fp single b
  | YTime hr ticks, VInt n =>
      (0 < ticks /\ (hr = true -> ticks = 1000) /\ - 2 ^ 63 <= n < 2 ^ 63)%Z /\ TimeSpec.survives hr ticks n = true
  | YString, VStr _ => True
  | YEnum names _, VInt z => (0 <= z < Z.of_nat (length names))%Z /\ NoDup names /\ Forall str_body names
  | YNullable t, _ => storable i t v /\ (is_null (render i t v) -> v = init t)
  | YOptional t, _ | YSilent t, _ => storable i t v
  | YNullableChecked t, VFlag null d => if null then d = init t else storable i t d /\ ~ is_null (render i t d)
  | YOptionalChecked t, VFlag assigned d => if assigned then storable i t d else d = init t
  | YStdOptional t, VOpt o => match o with Some d => storable i t d | None => True end
  | YPtr _ t, VOpt o => match o with Some d => storable i t d /\ ~ is_null (render i t d) | None => True end
  | YVec t, VList l => Forall (fun x => storable i t x /\ render i t x <> None) l
  | YFixed n t, VList l => length l = n /\ Forall (fun x => storable i t x /\ render i t x <> None) l
  | YSet t, VList l => all_different l /\ Forall (fun x => storable i t x /\ render i t x <> None) l
  | YOneOrMany t, VList l =>
      Forall (fun x => storable i t x /\ render i t x <> None) l /\
      match l with [x] => ~ is_array (render i t x) | _ => True end
  | YVar n t, VVar size slots =>
      length slots = n /\ (size < n \/ size = 0) /\ skipn size slots = repeat (init t) (n - size) /\
      Forall (fun x => storable i t x /\ render i t x <> None) (firstn size slots)
  | YTuple ts, VList vs =>
      (fix go ts vs := match ts, vs with
        | [], [] => True
        | t :: ts, v :: vs => (storable i t v /\ render i t v <> None) /\ go ts vs
        | _, _ => False end) ts vs
  | YMap t, VMap m =>
      NoDup (map fst m) /\
      Forall (fun kv => (fst kv <> [] /\ str_body (fst kv) /\ escapes_in (fst kv) = fst kv) /\
                        storable i t (snd kv) /\ render i t (snd kv) <> None) m
  | YStruct blocks fs, VList vs =>
      list_sum blocks = length fs /\ names_distinct fs /\
      (fix go fs vs := match fs, vs with
        | [], [] => True
        | f :: fs, v :: vs =>
            ((hd [] (snd (fst f)) <> [] /\ str_body (hd [] (snd (fst f)))) /\ storable i (snd f) v /\
             (render i (snd f) v = None -> v = init (snd f) /\ is_optional (snd f) = true)) /\ go fs vs
        | _, _ => False end) fs vs
  | _, _ => False
  end.
