(** The comparison of numbers in a diff (D 438-471) with std::stod.  No proofs here.

    std::stod is modelled after the C++ standard [string.conversions] and C17 7.22.1.3 (strtod) in the C locale, for the
    characters a number token can have: digits, signs, dots and e.  The exact value of the text is kept; rounding it to a
    double is left to the comparison, a parameter [eq] on exact values that stands for == or fuzzyEquals (D 438-442) of the
    two rounded numbers.  The exceptions are the outcome [UB] here: std::invalid_argument when there is no number, and
    std::out_of_range when errno becomes ERANGE.  C17 requires that when the value rounds to infinity and allows it for
    values below the normal numbers; the model takes it to be set for all of these. *)
From Coq Require Import QArith Qabs.
From Verif Require Import Base TokModel MapModel DiffModel.

Definition digitb (c : byte) : bool := ((48 <=? byte_val c) && (byte_val c <=? 57))%N.
Fixpoint span_digits (l : bytes) : bytes * bytes :=
  match l with
  | [] => ([], [])
  | c :: r => if digitb c then let '(a, b) := span_digits r in (c :: a, b) else ([], l)
  end.
Definition digits_number (l : bytes) : Z :=
  fold_left (fun a c => 10 * a + (Z.of_N (byte_val c) - 48))%Z l 0%Z.

(** C17 7.22.1.3, paragraph 3: an optional sign, digits with an optional dot, an optional exponent. *)
Definition sign_of (l : bytes) : bool * bytes :=
  match l with
  | c :: r => if Byte.eqb c x2d then (true, r) else if Byte.eqb c x2b then (false, r) else (false, l)
  | [] => (false, [])
  end.
Definition fraction_of (l : bytes) : bytes * bytes :=
  match l with
  | c :: r => if Byte.eqb c x2e then span_digits r else ([], l)
  | [] => ([], [])
  end.
Definition exponent_of (l : bytes) : Z :=
  match l with
  | c :: r =>
    if Byte.eqb c x65 || Byte.eqb c x45 then
      let '(neg, r) := sign_of r in
      let '(d, _) := span_digits r in
      if neg then (- digits_number d)%Z else digits_number d
    else 0%Z
  | [] => 0%Z
  end.
Definition strtod (l : bytes) : option Q :=
  let '(neg, l) := sign_of l in
  let '(i, l) := span_digits l in
  let '(f, l) := fraction_of l in
  match i ++ f with
  | [] => None
  | ds =>
    let v := (inject_Z (digits_number ds) * inject_Z 10 ^ (exponent_of l - Z.of_nat (length f)))%Q in
    Some (if neg then (- v)%Q else v)
  end.

(** Values that make errno ERANGE: 2^1024 - 2^970 is halfway between the largest double and 2^1024. *)
Definition erange (v : Q) : bool :=
  Qle_bool (inject_Z (2 ^ 1024 - 2 ^ 970)) (Qabs v) || (negb (Qeq_bool v 0) && negb (Qle_bool (1 # 2 ^ 1022) (Qabs v))).
Definition stod (l : bytes) : outcome Q :=
  match strtod l with
  | None => UB
  | Some v => if erange v then UB else Ok v
  end.

(** D 452-471: diffNumberValues. *)
Definition number_same (eq : Q -> Q -> bool) (base diff : bytes) : outcome bool :=
  let* b := stod base in
  let* d := stod diff in
  Ok (eq b d).
Definition numbers_by (eq : Q -> Q -> bool) : dopts := mkDOpts (number_same eq).
