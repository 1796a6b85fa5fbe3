(** Specification: JSON documents, their texts with arbitrary whitespace, and the token
    sequence a document denotes.  Independent of the tokenizer model.  No proofs here. *)
From Verif Require Import Base.

(** A JSON value.  Strings and numbers carry their raw source text (strings without the
    quotes, escapes not decoded). *)
Inductive scalar : Set :=
| SStr (raw : bytes) | SNum (raw : bytes) | STrue | SFalse | SNull.

Inductive json : Type :=
| JScalar (s : scalar)
| JArr (els : list json)
| JObj (members : list (bytes * json)).

(** ** Lexical level *)

Definition quote : byte := x22.
Definition backslash : byte := x5c.

(** RFC 8259 whitespace. *)
Definition is_ws (c : byte) : Prop := c = x20 \/ c = x09 \/ c = x0a \/ c = x0d.
Definition ws (w : bytes) : Prop := Forall is_ws w.

(** Raw string contents: any byte but quote and backslash, or a backslash with the byte it
    escapes.  (RFC 8259 allows less: no control characters, only certain escapes.) *)
Inductive str_body : bytes -> Prop :=
| SB_nil : str_body []
| SB_char c l : c <> quote -> c <> backslash -> str_body l -> str_body (c :: l)
| SB_esc c l : str_body l -> str_body (backslash :: c :: l).

Definition is_digit (c : byte) : Prop := (48 <= byte_val c <= 57)%N.
Definition num_char (c : byte) : Prop :=
  is_digit c \/ c = x2b \/ c = x2d \/ c = x2e \/ c = x45 \/ c = x65.

(** Number texts: a digit or sign followed by digits, signs, dots and e/E.  (A superset of
    the numbers of RFC 8259, see [rfc_number].) *)
Definition num_text (l : bytes) : Prop :=
  exists c tl, l = c :: tl /\ (is_digit c \/ c = x2b \/ c = x2d) /\ Forall num_char tl.

(** RFC 8259 section 6. *)
Definition digits1 (l : bytes) : Prop := l <> [] /\ Forall is_digit l.
Definition rfc_int (l : bytes) : Prop :=
  l = [x30] \/ exists c tl, l = c :: tl /\ is_digit c /\ c <> x30 /\ Forall is_digit tl.
Definition rfc_frac (l : bytes) : Prop := l = [] \/ exists d, l = x2e :: d /\ digits1 d.
Definition rfc_exp (l : bytes) : Prop :=
  l = [] \/ exists e s d, l = e :: s ++ d /\ (e = x45 \/ e = x65) /\
                          (s = [] \/ s = [x2b] \/ s = [x2d]) /\ digits1 d.
Definition rfc_number (l : bytes) : Prop :=
  exists m i f e, l = m ++ i ++ f ++ e /\ (m = [] \/ m = [x2d]) /\ rfc_int i /\ rfc_frac f /\ rfc_exp e.

(** RFC 8259 section 7. *)
Definition is_hex (c : byte) : Prop :=
  is_digit c \/ (65 <= byte_val c <= 70)%N \/ (97 <= byte_val c <= 102)%N.
Inductive rfc_string : bytes -> Prop :=
| RS_nil : rfc_string []
| RS_char c l : (32 <= byte_val c)%N -> c <> quote -> c <> backslash -> rfc_string l -> rfc_string (c :: l)
| RS_esc c l : In c [x22; x5c; x2f; x62; x66; x6e; x72; x74] -> rfc_string l ->
    rfc_string (backslash :: c :: l)
| RS_unicode h1 h2 h3 h4 l : is_hex h1 -> is_hex h2 -> is_hex h3 -> is_hex h4 -> rfc_string l ->
    rfc_string (backslash :: x75 :: h1 :: h2 :: h3 :: h4 :: l).

Definition scalar_ok (s : scalar) : Prop :=
  match s with SStr raw => str_body raw | SNum raw => num_text raw | _ => True end.

Definition b_true : bytes := [x74; x72; x75; x65].
Definition b_false : bytes := [x66; x61; x6c; x73; x65].
Definition b_null : bytes := [x6e; x75; x6c; x6c].

Definition scalar_text (s : scalar) : bytes :=
  match s with
  | SStr raw => quote :: raw ++ [quote]
  | SNum raw => raw
  | STrue => b_true | SFalse => b_false | SNull => b_null
  end.

(** ** Documents with layout *)

Definition lbrack := x5b. Definition rbrack := x5d.
Definition lbrace := x7b. Definition rbrace := x7d.
Definition comma := x2c. Definition colon := x3a.

(** Where whitespace may stand: [gap] between tokens, [gap_after v] after the value [v]. *)
Record layout : Type := mkLayout { gap : bytes -> Prop; gap_after : json -> bytes -> Prop }.

(** [value_text L v t]: [t] is a text of [v] without surrounding whitespace. *)
Inductive value_text (L : layout) : json -> bytes -> Prop :=
| VT_scalar s : scalar_ok s -> value_text L (JScalar s) (scalar_text s)
| VT_arr_empty w : gap L w -> value_text L (JArr []) (lbrack :: w ++ [rbrack])
| VT_arr els body : elems_text L els body -> value_text L (JArr els) (lbrack :: body ++ [rbrack])
| VT_obj_empty w : gap L w -> value_text L (JObj []) (lbrace :: w ++ [rbrace])
| VT_obj ms body : members_text L ms body -> value_text L (JObj ms) (lbrace :: body ++ [rbrace])
with elems_text (L : layout) : list json -> bytes -> Prop :=
| ET_one v t w1 w2 :
    gap L w1 -> gap_after L v w2 -> value_text L v t -> elems_text L [v] (w1 ++ t ++ w2)
| ET_cons v t w1 w2 vs body :
    gap L w1 -> gap_after L v w2 -> value_text L v t -> elems_text L vs body ->
    elems_text L (v :: vs) (w1 ++ t ++ w2 ++ comma :: body)
with members_text (L : layout) : list (bytes * json) -> bytes -> Prop :=
| MT_one k v t w1 w2 w3 w4 :
    gap L w1 -> gap L w2 -> gap L w3 -> gap_after L v w4 -> str_body k -> value_text L v t ->
    members_text L [(k, v)] (w1 ++ quote :: k ++ quote :: w2 ++ colon :: w3 ++ t ++ w4)
| MT_cons k v t w1 w2 w3 w4 ms body :
    gap L w1 -> gap L w2 -> gap L w3 -> gap_after L v w4 -> str_body k -> value_text L v t ->
    members_text L ms body ->
    members_text L ((k, v) :: ms)
      (w1 ++ quote :: k ++ quote :: w2 ++ colon :: w3 ++ t ++ w4 ++ comma :: body).

Definition is_container (j : json) : Prop := match j with JScalar _ => False | _ => True end.

(** A document: an object or array with surrounding whitespace. *)
Definition doc_text (L : layout) (j : json) (t : bytes) : Prop :=
  is_container j /\
  exists w1 t' w2, gap L w1 /\ gap_after L j w2 /\ value_text L j t' /\ t = w1 ++ t' ++ w2.

(** Standard JSON layout. *)
Definition plain : layout := mkLayout ws (fun _ => ws).

(** Standard JSON layout on a single line. *)
Definition one_line : layout :=
  let g w := ws w /\ ~ In x0a w in mkLayout g (fun _ => g).

(** Whitespace and // comments, each comment ended by a newline. *)
Inductive ws_comments : bytes -> Prop :=
| WC_nil : ws_comments []
| WC_ws c w : is_ws c -> ws_comments w -> ws_comments (c :: w)
| WC_comment body w :
    ~ In x0a body -> ws_comments w -> ws_comments (x2f :: x2f :: body ++ x0a :: w).

Definition is_word (v : json) : Prop :=
  match v with JScalar STrue | JScalar SFalse | JScalar SNull => True | _ => False end.

(** Layout with comments; no comment directly after true, false or null (the code takes the
    slashes for a part of the word). *)
Definition commented : layout :=
  mkLayout ws_comments
    (fun v w => ws_comments w /\ (is_word v -> forall w', w <> x2f :: w')).

(** ** The tokens of a document *)

(** What a user sees of a token: name, name type, value, value type. *)
Record stoken : Set := mkSt { st_name : bytes; st_name_type : type; st_value : bytes; st_value_type : type }.

Definition tok_view (tk : token) : stoken :=
  mkSt (dr_bytes (tk_name tk)) (tk_name_type tk) (dr_bytes (tk_value tk)) (tk_value_type tk).

(** Array elements, end brackets and the root have no name: it is empty and of type Ascii. *)
Definition st_make (name : option bytes) (v : bytes) (t : type) : stoken :=
  match name with
  | Some k => mkSt k TString v t
  | None => mkSt [] TAscii v t
  end.

Definition scalar_type (s : scalar) : type :=
  match s with
  | SStr _ => TString | SNum _ => TNumber | STrue | SFalse => TBool | SNull => TNull
  end.
Definition scalar_value (s : scalar) : bytes :=
  match s with SStr raw => raw | SNum raw => raw | STrue => b_true | SFalse => b_false | SNull => b_null end.

Fixpoint doc_tokens (name : option bytes) (j : json) : list stoken :=
  match j with
  | JScalar s => [st_make name (scalar_value s) (scalar_type s)]
  | JArr els =>
      st_make name [lbrack] TArrayStart :: flat_map (doc_tokens None) els ++
      [st_make None [rbrack] TArrayEnd]
  | JObj ms =>
      st_make name [lbrace] TObjectStart :: flat_map (fun kv => doc_tokens (Some (fst kv)) (snd kv)) ms ++
      [st_make None [rbrace] TObjectEnd]
  end.
