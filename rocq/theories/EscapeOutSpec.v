(** What writing a string's bytes means, independently of the program. *)
From Verif Require Import Base.

(** The bytes with an escape of two characters. *)
Definition short_escapes : list (byte * byte) :=
  [(x08, x62); (x09, x74); (x0a, x6e); (x0c, x66); (x0d, x72); (x22, x22); (x5c, x5c)].

(** [written l o]: [o] is [l] with those bytes escaped and all others unchanged. *)
Inductive written : bytes -> bytes -> Prop :=
| written_nil : written [] []
| written_short c e l o : In (c, e) short_escapes -> written l o ->
    written (c :: l) (x5c :: e :: o)
| written_plain c l o : ~ In c (map fst short_escapes) -> written l o ->
    written (c :: l) (c :: o).

(** The bytes the scan passes over: all but those up to 0x0d, the quote and the backslash. *)
Definition passed (c : byte) : Prop := (13 < Byte.to_N c)%N /\ c <> x22 /\ c <> x5c.
