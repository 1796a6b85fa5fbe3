(** Which strings make the unescaping use digits that were never stored.  No reference to the model. *)
From Verif Require Import Base JsonSpec StrSpec.

(** [l] starts with four hexadecimal digits of value [cp], then comes [r]. *)
Definition four (l : bytes) (cp : N) (r : bytes) : Prop :=
  exists a b c d, l = a :: b :: c :: d :: r /\ is_hex a /\ is_hex b /\ is_hex c /\ is_hex d /\ cp = hex_number a b c d.
Definition no_four (l : bytes) : Prop := forall cp r, ~ four l cp r.

Definition high (cp : N) : Prop := (0xD800 <= cp <= 0xDBFF)%N.
(** [r] is the escape of a low surrogate and then [r2]. *)
Definition low_follows (r r2 : bytes) : Prop := exists l lo, r = backslash :: x75 :: l /\ four l lo r2 /\ (0xDC00 <= lo <= 0xDFFF)%N.

(** Somewhere, reading from the left, a high surrogate is followed by the letter u with a backslash and at least four
    characters that are not all digits. *)
Inductive reads_unset : bytes -> Prop :=
| Ru_here l cp t : four l cp (backslash :: x75 :: t) -> high cp -> 4 <= length t -> no_four t -> reads_unset (backslash :: x75 :: l)
| Ru_raw c l : c <> backslash -> reads_unset l -> reads_unset (c :: l)
| Ru_escape c l : c <> x75 -> reads_unset l -> reads_unset (backslash :: c :: l)
| Ru_no_digits l : no_four l -> reads_unset l -> reads_unset (backslash :: x75 :: l)
| Ru_one l cp r : four l cp r -> ~ (high cp /\ exists r2, low_follows r r2) -> reads_unset r -> reads_unset (backslash :: x75 :: l)
| Ru_pair l cp r r2 : four l cp r -> high cp -> low_follows r r2 -> reads_unset r2 -> reads_unset (backslash :: x75 :: l).
