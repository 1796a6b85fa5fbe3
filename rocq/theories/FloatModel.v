(** Model of reading floats: correctly_round_float (H 8421-8509), to_ieee_t<float> (H 8528-8544),
    to_float (H 8546-8549) and TypeHandler<float>::to (H 8606-8614).  No proofs here.

    Floats and doubles are bit patterns; without the sign bit they are called magnitudes.  The values
    of magnitudes and the results of the arithmetic on doubles are integers that count units of 2^-1074,
    the least positive double; all of them are far below the overflow limit of double where the
    arithmetic is done.  Rounding is to nearest even; excess precision (x87) is not modelled.
    convertToNumber never yields NaN (H 8044-8116), so the test for it is left out. *)
From Verif Require Import Base ScanModel IntModel DoubleModel BigModel.
Local Open Scope Z_scope.

(** The value of a magnitude with [p] fraction bits, in units of the least positive number. *)
Definition units (p : N) (b : N) : Z :=
  let e := (b / 2 ^ p)%N in let m := (b mod 2 ^ p)%N in
  if (e =? 0)%N then Z.of_N m else Z.of_N (2 ^ p + m) * 2 ^ (Z.of_N e - 1).
Definition double_units (b : N) : Z := units 52 b.
Definition float_units (b : N) : Z := units 23 b * 2 ^ 925.

Definition float_infinity : N := 0x7f800000.

(** z >= 0 without its last s bits, rounded. *)
Definition round_shift (s z : Z) : Z :=
  let q := z / 2 ^ s in let r := z mod 2 ^ s in
  if (2 ^ s <? 2 * r) || ((2 * r =? 2 ^ s) && Z.odd q) then q + 1 else q.

(** The result of an operation on doubles with the exact value z >= 0. *)
Definition to_53_bits (z : Z) : Z :=
  let s := Z.max 0 (Z.log2 z + 1 - 53) in round_shift s z * 2 ^ s.

(** float(d), on magnitudes. *)
Definition float_of_double (d : N) : N :=
  let z := double_units d in
  let s := Z.max 925 (Z.log2 z + 1 - 24) in
  N.min float_infinity (Z.to_N ((s - 925) * 2 ^ 23 + round_shift s z)).

(** H 8434-8440: std::fabs(ad - 0.5 * (double(g1) + double(g2))) <= 4.0 * ulp_d; the product with
    0.5 is exact. *)
Definition near (ad : N) (g1 g2 : N) : bool :=
  let ulp_d := double_units (ad + 1) - double_units ad in
  let mid := to_53_bits (float_units g1 + float_units g2) / 2 in
  to_53_bits (Z.abs (double_units ad - mid)) <=? 4 * ulp_d.

(** H 8398-8403: float_mantissa_is_even. *)
Definition float_mantissa_is_even (g : N) : bool := (N.land g 1 =? 0)%N.

(** H 8421-8509: correctly_round_float for f = float(d). *)
Definition correctly_round_float (str : bytes) (d : N) : N :=
  let neg := N.testbit d 63 in
  let sign := (if neg then 2 ^ 31 else 0)%N in
  let ad := (d mod 2 ^ 63)%N in
  let af := float_of_double ad in
  let f := (sign + af)%N in
  if (af =? 0)%N then f
  else if negb (af <? float_infinity)%N then f
  else
    let up := (af + 1)%N in
    let dn := (af - 1)%N in
    let have_up := (up <? float_infinity)%N in
    let near_hi := have_up && near ad af up in
    let near_lo := near ad dn af in
    if negb near_hi && negb near_lo then f
    else
      let '(digits, decimal_exp) := read_literal str in
      let mag :=
        if near_hi then
          let '(mid, e2) := float_pair_midpoint af up in
          match compare_value_scaled digits decimal_exp mid e2 with
          | Gt => up
          | Eq => if float_mantissa_is_even af then af else up
          | Lt => af
          end
        else af in
      let mag :=
        if (mag =? af)%N && near_lo then
          let '(mid, e2) := float_pair_midpoint dn af in
          match compare_value_scaled digits decimal_exp mid e2 with
          | Lt => dn
          | Eq => if float_mantissa_is_even dn then dn else af
          | Gt => mag
          end
        else mag in
      (sign + mag)%N.

(** H 6549-6561: make_nan<float>(true, 1). *)
Definition make_float_nan : N := 0x7f800001.

(** H 8528-8549: to_ieee_t<float>, to_float: error, value, offset of endptr. *)
Definition to_float (str : bytes) : outcome (parse_error * N * nat) :=
  let* (e, p) := parseNumber 64 false str in
  match e with
  | PE_ok => let* d := convertToNumber p in Ok (e, correctly_round_float str d, p_end p)
  | _ => Ok (e, make_float_nan, p_end p)
  end.

(** H 8606-8614: TypeHandler<float>::to: the error and the value stored. *)
Definition float_to (value : bytes) : outcome (error * N) :=
  let* (e, f, endp) := to_float value in
  match e with
  | PE_ok => if Nat.eqb endp (length value) then Ok (NoError, f) else Ok (FailedToParseFloat, f)
  | _ => Ok (FailedToParseFloat, f)
  end.
