(** Specification: the texts the tokenizer accepts with its default options, as the grammar of JSON
    extended by a list of deviations.  Independent of the tokenizer model.  No proofs here. *)
From Verif Require Import Base JsonSpec.

Inductive deviation : Set :=
| DJunk      (* one of . / \ ^ _ ` where whitespace may stand before a value or name *)
| DWord      (* a bare word as array element *)
| DComma     (* a comma between the last element, a scalar, and the end of an array *)
| DUnnamed   (* an array or object directly in an object, without a name *)
| DNoValue   (* a name and a colon, then the end of the object *)
| DString    (* control characters or unknown escapes in a string *)
| DNumber    (* digits, signs, dots, e and E in any order *)
| DRoots     (* several roots *)
| DTail.     (* a string, number or word at the end of the text, perhaps unfinished *)

Inductive kind : Set := KArr | KObj.
Definition opening (k : kind) : byte := match k with KArr => lbrack | KObj => lbrace end.
Definition closing (k : kind) : byte := match k with KArr => rbrack | KObj => rbrace end.
Definition opening_type (k : kind) : type := match k with KArr => TArrayStart | KObj => TObjectStart end.
Definition closing_type (k : kind) : type := match k with KArr => TArrayEnd | KObj => TObjectEnd end.

Definition junk : bytes := [x2e; x2f; x5c; x5e; x5f; x60].

Definition is_letter (c : byte) : Prop := (65 <= byte_val c <= 90)%N \/ (97 <= byte_val c <= 122)%N.
Definition bare_char (c : byte) : Prop := is_letter c \/ is_digit c \/ In c (x2d :: junk) /\ c <> x5c.
Definition bare_word (l : bytes) : Prop := exists c tl, l = c :: tl /\ is_letter c /\ Forall bare_char tl.

(** A string, number or word, perhaps cut off. *)
Definition unfinished (l : bytes) : Prop :=
  num_text l \/ bare_word l \/
  (exists b, l = quote :: b /\ str_body b) \/
  (exists b, l = quote :: b ++ [backslash] /\ str_body b) \/
  (exists b, l = quote :: b ++ [quote] /\ str_body b).

(** Where a value or name is expected: behind an opening bracket, behind the comma after a scalar
    element, behind another comma. *)
Inductive position : Set := Fresh | AfterScalar | AfterOther.

(** [A]: the allowed deviations. *)
Section Grammar.
Variable A : deviation -> Prop.

Definition skip (w : bytes) : Prop := Forall (fun c => is_ws c \/ (A DJunk /\ In c junk)) w.

(** A scalar: its text, its value and type as delivered. *)
Inductive lexeme : bytes -> bytes -> type -> Prop :=
| LX_str raw : str_body raw -> (A DString \/ rfc_string raw) -> lexeme (quote :: raw ++ [quote]) raw TString
| LX_num raw : num_text raw -> (A DNumber \/ rfc_number raw) -> lexeme raw raw TNumber
| LX_true : lexeme b_true b_true TBool
| LX_false : lexeme b_false b_false TBool
| LX_null : lexeme b_null b_null TNull
| LX_word raw : A DWord -> bare_word raw -> raw <> b_true -> raw <> b_false -> raw <> b_null ->
    lexeme raw raw TAscii.

(** [items k p l vs]: [l] is the text from [p] up to the end of an array or object, its closing bracket
    included, and [vs] are the tokens.  [member name l vs]: the same from behind a colon;
    [after k l vs]: the same from behind a member's value or a nested array or object. *)
Inductive items : kind -> position -> bytes -> list stoken -> Prop :=
| I_close k p w :
    skip w -> (p = Fresh \/ p = AfterScalar /\ A DComma) ->
    items k p (w ++ [closing k]) [st_make None [closing k] (closing_type k)]
| I_last p w1 t v ty w2 :
    skip w1 -> lexeme t v ty -> ws w2 ->
    items KArr p (w1 ++ t ++ w2 ++ [rbrack]) [st_make None v ty; st_make None [rbrack] TArrayEnd]
| I_scalar p w1 t v ty w2 l vs :
    skip w1 -> lexeme t v ty -> ws w2 -> items KArr AfterScalar l vs ->
    items KArr p (w1 ++ t ++ w2 ++ comma :: l) (st_make None v ty :: vs)
| I_nested k p w k' l1 v1 l2 v2 :
    skip w -> (k = KObj -> A DUnnamed) -> items k' Fresh l1 v1 -> after k l2 v2 ->
    items k p (w ++ opening k' :: l1 ++ l2) (st_make None [opening k'] (opening_type k') :: v1 ++ v2)
| I_member p w1 nm w2 l vs :
    skip w1 -> str_body nm -> (A DString \/ rfc_string nm) -> ws w2 -> member nm l vs ->
    items KObj p (w1 ++ quote :: nm ++ quote :: w2 ++ colon :: l) vs
with member : bytes -> bytes -> list stoken -> Prop :=
| M_scalar nm w t v ty l vs :
    skip w -> lexeme t v ty -> ty <> TAscii -> after KObj l vs ->
    member nm (w ++ t ++ l) (st_make (Some nm) v ty :: vs)
| M_nested nm w k' l1 v1 l2 v2 :
    skip w -> items k' Fresh l1 v1 -> after KObj l2 v2 ->
    member nm (w ++ opening k' :: l1 ++ l2) (st_make (Some nm) [opening k'] (opening_type k') :: v1 ++ v2)
| M_none nm w :
    A DNoValue -> skip w -> member nm (w ++ [rbrace]) [st_make (Some nm) [rbrace] TObjectEnd]
with after : kind -> bytes -> list stoken -> Prop :=
| A_close k w :
    ws w -> after k (w ++ [closing k]) [st_make None [closing k] (closing_type k)]
| A_comma k w l vs :
    ws w -> items k AfterOther l vs -> after k (w ++ comma :: l) vs.

(** Whole texts. *)
Inductive accepted : bytes -> list stoken -> Prop :=
| AC_end w t :
    skip w -> (t = [] \/ A DTail /\ unfinished t) -> accepted (w ++ t) []
| AC_root w k l1 v1 l2 v2 :
    skip w -> items k Fresh l1 v1 -> accepted l2 v2 -> (v2 = [] \/ A DRoots) ->
    accepted (w ++ opening k :: l1 ++ l2) (st_make None [opening k] (opening_type k) :: v1 ++ v2).
End Grammar.

(** Strings and numbers as in RFC 8259. *)
Inductive rfc_ok : json -> Prop :=
| RJ_scalar s :
    match s with SStr r => rfc_string r | SNum r => rfc_number r | _ => True end -> rfc_ok (JScalar s)
| RJ_arr els : Forall rfc_ok els -> rfc_ok (JArr els)
| RJ_obj ms : Forall (fun kv => rfc_string (fst kv) /\ rfc_ok (snd kv)) ms -> rfc_ok (JObj ms).

(** An RFC 8259 text with an array or object as root. *)
Definition rfc_text (j : json) (t : bytes) : Prop := doc_text plain j t /\ rfc_ok j.
