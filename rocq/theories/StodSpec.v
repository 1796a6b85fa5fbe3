(** The number a text denotes, and the numbers a double can hold.  No reference to the model. *)
From Coq Require Import QArith Qabs.
From Verif Require Import Base JsonSpec NumSpec.

(** An optional minus sign and a literal that starts with a digit. *)
Definition denotes_number (text : bytes) (v : Q) : Prop :=
  exists m l n p, text = m ++ l /\ (m = [] /\ (v == scaled n 10 p)%Q \/ m = [x2d] /\ (v == - scaled n 10 p)%Q) /\
    (exists c r, l = c :: r /\ is_digit c) /\ dec_literal l n p.

(** Zero, or between the least normal double and the point from which on numbers are rounded to infinity. *)
Definition normal_range (v : Q) : Prop :=
  (v == 0)%Q \/ ((1 # 2 ^ 1022) <= Qabs v /\ Qabs v < inject_Z (2 ^ 1024 - 2 ^ 970))%Q.
Definition too_large (v : Q) : Prop := (inject_Z (2 ^ 1024 - 2 ^ 970) <= Qabs v)%Q.

(** Numbers of RFC 8259 a normal double can hold. *)
Definition plain_number (text : bytes) : Prop := rfc_number text /\ forall v, denotes_number text v -> normal_range v.
