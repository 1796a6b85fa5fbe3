(** Specification: the texts that are taken for numbers.  No reference to the model. *)
From Verif Require Import Base JsonSpec NumSpec.

Definition white (c : byte) : Prop := In c [x20; x09; x0a; x0b; x0c; x0d].

(** Any white space, an optional minus sign, then digits with at most one dot anywhere among them and an optional
    exponent.  There need not be any digit: a sign, a dot or an exponent alone will do, but not nothing at all. *)
Definition taken_for_number (text : bytes) : Prop :=
  exists w m l number power, text = w ++ m ++ l /\ Forall white w /\ (m = [] \/ m = [x2d]) /\
    dec_literal l number power /\ m ++ l <> [].

(** The value of a document that is a scalar with such a text; strings count, without their quotes. *)
Definition number_like (j : json) : Prop := exists s, j = JScalar s /\ taken_for_number (scalar_value s).
