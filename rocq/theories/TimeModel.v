(** Model of the time_point handler (H 8949-9003) with the std::chrono arithmetic it uses.  No
    proofs here.

    A time_point is its count of ticks, an int64_t.  [p] is the number of ticks in a microsecond:
    the handler only compiles for types to which microseconds convert implicitly, so a microsecond
    is a whole number of ticks.  [hr] says whether the type is
    std::chrono::high_resolution_clock::time_point, whose tick is a nanosecond (p = 1000). *)
From Verif Require Import Base ScanModel IntModel.
Local Open Scope Z_scope.

(** Conversion of a uint64_t to double: rounding to 53 bits, ties to even.  The result is an
    integer again. *)
Definition u64_to_double (t : Z) : Z :=
  let sh := Z.max 0 (Z.log2 t - 52) in
  let u := 2 ^ sh in
  let q := t / u in
  let r := t mod u in
  u * (if 2 * r <? u then q else if u <? 2 * r then q + 1 else if Z.even q then q else q + 1).

Definition int64 (n : Z) : Z := let m := n mod 2 ^ 64 in if m <? 2 ^ 63 then m else m - 2 ^ 64.
Definition fits_int64 (n : Z) : bool := (- 2 ^ 63 <=? n) && (n <? 2 ^ 63).

(** [T{std::chrono::seconds{t}}] and the like: static_cast of [t] to the int64_t of the duration,
    then multiplication by the number of ticks in the unit; signed overflow is undefined. *)
Definition from_unit (ticks t : Z) : outcome Z :=
  let v := int64 t * ticks in if fits_int64 v then Ok v else UB.

(** H 8967-8992: to.  [old] is what the variable held. *)
Definition time_to (hr : bool) (p : Z) (value : bytes) (old : Z) : outcome (error * Z) :=
  let* (e, t) := int_to T_uint64 value in
  match e with
  | NoError =>
    let d := u64_to_double t in
    let store ticks := let* v := from_unit ticks t in Ok (NoError, v) in
    if d <=? 10 ^ 11 then store (1000000 * p)
    else if d <=? 10 ^ 14 then store (1000 * p)
    else if d <=? 10 ^ 17 then store p
    else if d <=? 10 ^ 20 then if hr then store (p / 1000) else Ok (IllegalDataValue, old)
    else Ok (IllegalDataValue, old)
  | _ => Ok (e, old)
  end.

(** H 8999-9000: the loop; (uint64_t)1e10 is 10^10. *)
Fixpoint drop_thousands (fuel : nat) (t : Z) : outcome Z :=
  match fuel with
  | O => OutOfFuel
  | S f => if (t mod 1000 =? 0) && (10 ^ 10 <? t) then drop_thousands f (t / 1000) else Ok t
  end.

(** H 8994-9002: from; the text of the value written, None if nothing is. *)
Definition time_from (hr : bool) (p : Z) (n : Z) : outcome (option bytes) :=
  let c := if hr then n * 1000 / p else Z.quot n p in
  let* t := drop_thousands 8 (c mod 2 ^ 64) in
  Ok (int_from T_uint64 t).
