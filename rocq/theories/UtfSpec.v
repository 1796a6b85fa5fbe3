(** Specification for C71: UTF-8 texts, and what any text between quotes means, also one that is not a JSON string.
    No reference to the model but its types and values. *)
From Verif Require Import Base JsonSpec StrSpec HandlerModel.

(** Unicode scalar values and their texts (RFC 3629). *)
Definition unicode_scalar (cp : N) : Prop := (cp < 0xD800 \/ 0xE000 <= cp < 0x110000)%N.
Definition utf8_text (l : bytes) : Prop := exists cps, Forall unicode_scalar cps /\ l = flat_map utf8 cps.

(** Four hexadecimal digits of the number [n], and what follows. *)
Definition four_hex (l : bytes) (n : N) (r : bytes) : Prop :=
  exists a b c d, l = a :: b :: c :: d :: r /\ (is_hex a /\ is_hex b /\ is_hex c /\ is_hex d) /\ n = hex_number a b c d.
Definition high (n : N) : Prop := (0xD800 <= n <= 0xDBFF)%N.
Definition low_follows (l : bytes) (lo : N) (r : bytes) : Prop :=
  exists l2, l = backslash :: x75 :: l2 /\ four_hex l2 lo r /\ (0xDC00 <= lo <= 0xDFFF)%N.

(** The pieces of a text, from the left. *)
Inductive piece : Set :=
| PRaw (c : byte)           (* a byte other than the backslash *)
| PSimple (v : byte)        (* one of the two-character escapes of JSON, for [v] *)
| POther (c : byte)         (* a backslash and any other byte *)
| PUni (n : N)              (* backslash, u, four digits *)
| PPair (hi lo : N)         (* two of these, a surrogate pair *)
| PCut.                     (* a backslash at the end *)
Inductive pieces : bytes -> list piece -> Prop :=
| Pc_nil : pieces [] []
| Pc_cut : pieces [backslash] [PCut]
| Pc_raw c l ps : c <> backslash -> pieces l ps -> pieces (c :: l) (PRaw c :: ps)
| Pc_simple c v l ps : In (c, v) simple_escapes -> pieces l ps -> pieces (backslash :: c :: l) (PSimple v :: ps)
| Pc_other c l ps : (forall v, ~ In (c, v) simple_escapes) -> (c = x75 -> forall n r, ~ four_hex l n r) ->
    pieces l ps -> pieces (backslash :: c :: l) (POther c :: ps)
| Pc_uni l n r ps : four_hex l n r -> ~ (high n /\ exists lo r2, low_follows r lo r2) ->
    pieces r ps -> pieces (backslash :: x75 :: l) (PUni n :: ps)
| Pc_pair l hi r lo r2 ps : four_hex l hi r -> high hi -> low_follows r lo r2 ->
    pieces r2 ps -> pieces (backslash :: x75 :: l) (PPair hi lo :: ps).

(** A surrogate on its own. *)
Definition lone (p : piece) : Prop := match p with PUni n => (0xD800 <= n <= 0xDFFF)%N | _ => False end.

(** What a piece means; unknown escapes stand for themselves, a surrogate on its own for the three bytes UTF-8 would have
    for its number, a backslash at the end for nothing. *)
Definition meaning (p : piece) : bytes :=
  match p with
  | PRaw c => [c]
  | PSimple v => [v]
  | POther c => [backslash; c]
  | PUni n => utf8 n
  | PPair hi lo => utf8 (0x10000 + (hi - 0xD800) * 1024 + (lo - 0xDC00))
  | PCut => []
  end.

(** All strings of a document, names too, as they stand in the text. *)
Inductive all_strings (P : bytes -> Prop) : json -> Prop :=
| As_str s : P s -> all_strings P (JScalar (SStr s))
| As_other s : match s with SStr _ => False | _ => True end -> all_strings P (JScalar s)
| As_arr els : Forall (all_strings P) els -> all_strings P (JArr els)
| As_obj ms : Forall (fun kv => P (fst kv) /\ all_strings P (snd kv)) ms -> all_strings P (JObj ms).
Definition no_lone (t : bytes) : Prop := exists ps, pieces t ps /\ Forall (fun p => ~ lone p) ps.

(** All strings of a value, keys of maps too. *)
Inductive val_utf8 : val -> Prop :=
| Vu_bool b : val_utf8 (VBool b)
| Vu_int z : val_utf8 (VInt z)
| Vu_fp s b : val_utf8 (VFp s b)
| Vu_str s : utf8_text s -> val_utf8 (VStr s)
| Vu_flag f v : val_utf8 v -> val_utf8 (VFlag f v)
| Vu_none : val_utf8 (VOpt None)
| Vu_some v : val_utf8 v -> val_utf8 (VOpt (Some v))
| Vu_list l : Forall val_utf8 l -> val_utf8 (VList l)
| Vu_var n l : Forall val_utf8 l -> val_utf8 (VVar n l)
| Vu_map m : Forall (fun kv => utf8_text (fst kv) /\ val_utf8 (snd kv)) m -> val_utf8 (VMap m).

(** The names of the members and of the enumerators in a type. *)
Inductive names_utf8 : ty -> Prop :=
| Nu_bool : names_utf8 YBool
| Nu_int i : names_utf8 (YInt i)
| Nu_fp s : names_utf8 (YFp s)
| Nu_time h t : names_utf8 (YTime h t)
| Nu_string : names_utf8 YString
| Nu_enum names u : Forall utf8_text names -> names_utf8 (YEnum names u)
| Nu_nullable t : names_utf8 t -> names_utf8 (YNullable t)
| Nu_nullable_checked t : names_utf8 t -> names_utf8 (YNullableChecked t)
| Nu_optional t : names_utf8 t -> names_utf8 (YOptional t)
| Nu_optional_checked t : names_utf8 t -> names_utf8 (YOptionalChecked t)
| Nu_std_optional t : names_utf8 t -> names_utf8 (YStdOptional t)
| Nu_ptr u t : names_utf8 t -> names_utf8 (YPtr u t)
| Nu_silent t : names_utf8 t -> names_utf8 (YSilent t)
| Nu_vec t : names_utf8 t -> names_utf8 (YVec t)
| Nu_one t : names_utf8 t -> names_utf8 (YOneOrMany t)
| Nu_fixed n t : names_utf8 t -> names_utf8 (YFixed n t)
| Nu_var n t : names_utf8 t -> names_utf8 (YVar n t)
| Nu_set t : names_utf8 t -> names_utf8 (YSet t)
| Nu_tuple ts : Forall names_utf8 ts -> names_utf8 (YTuple ts)
| Nu_map t : names_utf8 t -> names_utf8 (YMap t)
| Nu_struct b fs : Forall (fun f => Forall utf8_text (snd (fst f)) /\ names_utf8 (snd f)) fs -> names_utf8 (YStruct b fs).
