(** Specification vocabulary for strings: what the items of a JSON string denote (RFC 8259
    section 7) and UTF-8 (RFC 3629 section 3).  No reference to the model. *)
From Verif Require Import Base JsonSpec.

(** The byte with value [n mod 256]. *)
Definition octet (n : N) : byte :=
  match Byte.of_N (n mod 256) with Some b => b | None => x00 end.

(** UTF-8 encoding of a code point below 0x110000. *)
Definition utf8 (cp : N) : bytes :=
  (if cp <? 0x80 then [octet cp]
   else if cp <? 0x800 then [octet (0xc0 + cp / 64); octet (0x80 + cp mod 64)]
   else if cp <? 0x10000 then
     [octet (0xe0 + cp / 4096); octet (0x80 + cp / 64 mod 64); octet (0x80 + cp mod 64)]
   else
     [octet (0xf0 + cp / 262144); octet (0x80 + cp / 4096 mod 64); octet (0x80 + cp / 64 mod 64);
      octet (0x80 + cp mod 64)])%N.

(** Reading UTF-8: the number made of the payload bits of the bytes. *)
Definition utf8_read (l : bytes) : option N :=
  match map byte_val l with
  | [a] => if (a <? 0x80)%N then Some a else None
  | [a; b] =>
    (if (0xc0 <=? a) && (a <? 0xe0) && (b / 64 =? 2)
     then Some ((a - 0xc0) * 64 + b mod 64) else None)%N
  | [a; b; c] =>
    (if (0xe0 <=? a) && (a <? 0xf0) && (b / 64 =? 2) && (c / 64 =? 2)
     then Some ((a - 0xe0) * 4096 + (b mod 64) * 64 + c mod 64) else None)%N
  | [a; b; c; d] =>
    (if (0xf0 <=? a) && (a <? 0xf8) && (b / 64 =? 2) && (c / 64 =? 2) && (d / 64 =? 2)
     then Some ((a - 0xf0) * 262144 + (b mod 64) * 4096 + (c mod 64) * 64 + d mod 64) else None)%N
  | _ => None
  end.

(** The value of a hexadecimal digit. *)
Definition hex_value (c : byte) : N :=
  (if byte_val c <=? 57 then byte_val c - 48
   else if byte_val c <=? 70 then byte_val c - 55 else byte_val c - 87)%N.
Definition hex_number (h1 h2 h3 h4 : byte) : N :=
  (((hex_value h1 * 16 + hex_value h2) * 16 + hex_value h3) * 16 + hex_value h4)%N.

(** The items a JSON string is made of. *)
Inductive sitem : Set :=
| IRaw (c : byte)                            (* a byte standing for itself *)
| ISimple (c : byte)                         (* backslash c *)
| IUnicode (h1 h2 h3 h4 : byte)              (* backslash u and four digits *)
| IPair (h1 h2 h3 h4 l1 l2 l3 l4 : byte).    (* two of these forming a surrogate pair *)

Definition simple_escapes : list (byte * byte) :=
  [(x22, x22); (x5c, x5c); (x2f, x2f); (x62, x08); (x66, x0c); (x6e, x0a); (x72, x0d); (x74, x09)].

Definition item_text (i : sitem) : bytes :=
  match i with
  | IRaw c => [c]
  | ISimple c => [backslash; c]
  | IUnicode a b c d => [backslash; x75; a; b; c; d]
  | IPair a b c d e f g h => [backslash; x75; a; b; c; d; backslash; x75; e; f; g; h]
  end.

Definition item_denotes (i : sitem) (m : bytes) : Prop :=
  match i with
  | IRaw c => c <> backslash /\ m = [c]
  | ISimple c => exists v, In (c, v) simple_escapes /\ m = [v]
  | IUnicode a b c d =>
      is_hex a /\ is_hex b /\ is_hex c /\ is_hex d /\
      ~ (0xD800 <= hex_number a b c d <= 0xDFFF)%N /\ m = utf8 (hex_number a b c d)
  | IPair a b c d e f g h =>
      is_hex a /\ is_hex b /\ is_hex c /\ is_hex d /\ is_hex e /\ is_hex f /\ is_hex g /\ is_hex h /\
      (0xD800 <= hex_number a b c d <= 0xDBFF)%N /\ (0xDC00 <= hex_number e f g h <= 0xDFFF)%N /\
      m = utf8 (0x10000 + (hex_number a b c d - 0xD800) * 1024 + (hex_number e f g h - 0xDC00))%N
  end.

(** A whole string and what it denotes. *)
Inductive denotes : list sitem -> bytes -> Prop :=
| De_nil : denotes [] []
| De_cons i l m ms : item_denotes i m -> denotes l ms -> denotes (i :: l) (m ++ ms).

Definition string_text (l : list sitem) : bytes := flat_map item_text l.

(** Control characters RFC 8259 forbids inside strings. *)
Definition is_control (c : byte) : Prop := (byte_val c < 32)%N.
