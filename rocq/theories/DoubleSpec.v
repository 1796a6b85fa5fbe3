(** Specification vocabulary for reading decimal literals as binary floating point numbers.
    No reference to the model. *)
From Coq Require Import QArith Qabs.
From Verif Require Import Base JsonSpec NumSpec.
Local Open Scope N_scope.

(** An IEEE 754 binary format with [p] fraction bits and [w] exponent bits.  The magnitude of a
    number is its bit pattern [b] without the sign.  Patterns below [infinity p w] are the finite
    numbers, in increasing order; the formula also gives the pattern of infinity the value
    2^(emax+1), which is what IEEE 754 (4.3.1) compares against when it rounds. *)
Definition infinity (p w : N) : N := (2 ^ w - 1) * 2 ^ p.

Definition fp_value (p w b : N) : Q :=
  let e := (b / 2 ^ p) mod 2 ^ w in
  let m := b mod 2 ^ p in
  let unit := (2 - 2 ^ (Z.of_N w - 1) - Z.of_N p)%Z in
  if e =? 0 then scaled (Z.of_N m) 2 unit
  else scaled (Z.of_N (2 ^ p + m)) 2 (unit + Z.of_N e - 1).

(** [b] is the number nearest to x >= 0; of two nearest numbers it is the even one. *)
Definition nearest (p w : N) (x : Q) (b : N) : Prop :=
  b <= infinity p w /\
  forall b', b' <= infinity p w -> b' <> b ->
    (Qabs (x - fp_value p w b) <= Qabs (x - fp_value p w b'))%Q /\
    ((Qabs (x - fp_value p w b) == Qabs (x - fp_value p w b'))%Q -> N.even b = true).

(** No number of the format lies strictly between x and [b]. *)
Definition adjacent (p w : N) (x : Q) (b : N) : Prop :=
  b <= infinity p w /\
  forall b', b' < infinity p w ->
    ~ (x < fp_value p w b' /\ fp_value p w b' < fp_value p w b)%Q /\
    ~ (fp_value p w b < fp_value p w b' /\ fp_value p w b' < x)%Q.

(** The point halfway between two neighbours. *)
Definition halfway (p w b : N) : Q := ((fp_value p w b + fp_value p w (b + 1)) / 2)%Q.

(** x does not lie directly above a halfway point, closer than [eps] relative to it. *)
Definition clear_of_halfway (p w : N) (eps x : Q) : Prop :=
  forall b, b < infinity p w ->
    (x <= halfway p w b \/ halfway p w b * (1 + eps) < x)%Q.

(** The bit pattern with its sign. *)
Definition with_sign (p w : N) (neg : bool) (b : N) : N := (if neg then 2 ^ (p + w) else 0) + b.

(** The number of decimal digits before the exponent. *)
Fixpoint mantissa_digits (l : bytes) : nat :=
  match l with
  | [] => 0
  | c :: r => if Byte.eqb c x45 || Byte.eqb c x65 then 0
              else if Byte.eqb c x2e then mantissa_digits r else S (mantissa_digits r)
  end.

(** The literal [l] of the number m * 10^p starts with a digit other than 0, or its digits reach at most
    309 places to the left of the dot, and it is 0 or not smaller than 10^-324. *)
Definition readable (l : bytes) (m p : Z) : Prop :=
  (exists c r, l = c :: r /\ c <> x30) \/
  ((p + Z.of_nat (mantissa_digits l) <= 309)%Z /\ (m = 0%Z \/ (inject_Z 10 ^ (-324) <= scaled m 10 p)%Q)).
