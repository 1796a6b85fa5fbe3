(** Specification vocabulary for numbers.  No reference to the model. *)
From Verif Require Import Base JsonSpec.

(** The number denoted by a list of decimal digits. *)
Definition dec_value (l : bytes) : N :=
  fold_left (fun a c => a * 10 + (byte_val c - 48))%N l 0%N.

(** An integer literal: optional minus sign and at least one digit. *)
Definition int_literal (l : bytes) (v : Z) : Prop :=
  exists d, digits1 d /\
    ((l = d /\ v = Z.of_N (dec_value d)) \/ (l = x2d :: d /\ v = (- Z.of_N (dec_value d))%Z)).

(** The integer types of C++, with the 128 bit ones of gcc and clang: width and signedness. *)
Definition int_type (bits : N) : Prop := (bits = 8 \/ bits = 16 \/ bits = 32 \/ bits = 64 \/ bits = 128)%N.
(** What the digits of a literal may amount to: 2^64, and 2^128 for the 128 bit types. *)
Definition digit_limit (bits : N) : Z := if (bits =? 128)%N then (2 ^ 128)%Z else (2 ^ 64)%Z.
Definition least (bits : N) (signed : bool) : Z :=
  if signed then (- 2 ^ (Z.of_N bits - 1))%Z else 0%Z.
Definition greatest (bits : N) (signed : bool) : Z :=
  if signed then (2 ^ (Z.of_N bits - 1) - 1)%Z else (2 ^ Z.of_N bits - 1)%Z.
Definition clamp (bits : N) (signed : bool) (v : Z) : Z :=
  Z.max (least bits signed) (Z.min (greatest bits signed) v).

(** Scaling up the digits stays inside the significand, or exceeds the digits that a value of the type can have. *)
Definition scale_fits (bits : N) (signed : bool) (v : Z) : Prop :=
  (bits = 64%N -> signed = false -> v < 2 ^ 64 \/ 10 ^ 20 <= v)%Z /\
  (bits = 128%N -> v < 2 ^ 128 \/ 10 ^ 39 <= v)%Z.

(** A natural number as 32-bit words, least significant first. *)
Definition B : N := (2 ^ 32)%N.
Definition words (w : list N) : Prop := Forall (fun x => x < B)%N w.
Definition val (w : list N) : N := fold_right (fun x a => x + B * a)%N 0%N w.

(** ** Decimal literals as rational numbers *)
From Coq Require Import QArith.

(** Digits [i], then optionally a dot and digits [f], then optionally an exponent: the text after
    the sign, the number formed by all digits, and the power of ten that scales it. *)
Inductive dec_literal : bytes -> Z -> Z -> Prop :=
| DL_plain i f fl : Forall is_digit i -> Forall is_digit f -> (f = [] /\ fl = [] \/ fl = x2e :: f) ->
    dec_literal (i ++ fl) (Z.of_N (dec_value (i ++ f))) (- Z.of_nat (length f))
| DL_exp i f fl e s d : Forall is_digit i -> Forall is_digit f -> (f = [] /\ fl = [] \/ fl = x2e :: f) ->
    (e = x45 \/ e = x65) -> (s = [] \/ s = [x2b] \/ s = [x2d]) -> digits1 d ->
    dec_literal (i ++ fl ++ e :: s ++ d) (Z.of_N (dec_value (i ++ f)))
      (- Z.of_nat (length f) + (if match s with [c] => Byte.eqb c x2d | _ => false end
                                then - Z.of_N (dec_value d) else Z.of_N (dec_value d)))%Z.

(** [m * b^k]. *)
Definition scaled (m : Z) (b : Z) (k : Z) : Q := (inject_Z m * inject_Z b ^ k)%Q.

(** The value of the float with this bit pattern (IEEE 754 binary32, sign bit ignored). *)
Definition float_value (b : N) : Q :=
  let e := ((b / 2 ^ 23) mod 2 ^ 8)%N in
  let m := (b mod 2 ^ 23)%N in
  if (e =? 0)%N then scaled (Z.of_N m) 2 (-149)
  else scaled (Z.of_N (2 ^ 23 + m)) 2 (Z.of_N e - 150).
