(** Which instants survive writing and reading.  No reference to the model. *)
From Verif Require Import Base.
Local Open Scope Z_scope.

(** [x] is a whole multiple of [d]. *)
Definition multiple (d x : Z) : bool := x mod d =? 0.

(** high_resolution_clock::time_point, [n] nanoseconds since the epoch (before it if negative).
    10^17 ns is 3 March 1973. *)
Definition survives_ns (n : Z) : bool :=
  if n <? 0 then negb (multiple 1000 (2 ^ 64 + n))
  else (n =? 0) || (10 ^ 17 + 8 <? n) || (multiple (10 ^ 9) n && (10 ^ 16 <? n)).

(** Any other time_point, [m] microseconds since the epoch.  10^13 us is 26 April 1970, 10^14 us is
    3 March 1973, 10^16 us is in the year 2286, 10^17 us in the year 5138. *)
Definition survives_us (m : Z) : bool :=
  (m =? 0) ||
  (((10 ^ 14 <? m) && (m <=? 10 ^ 17 + 8)) || (multiple (10 ^ 6) m && (10 ^ 13 <? m) && (m <=? 10 ^ 14)))
  && negb (multiple (10 ^ 9) m && (10 ^ 16 <? m)).

(** [n] ticks of a type with [p] ticks in a microsecond. *)
Definition survives (hr : bool) (p n : Z) : bool :=
  if hr then survives_ns n else multiple p n && survives_us (n / p).
