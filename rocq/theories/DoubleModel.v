(** Model of reading doubles: the 128-bit helpers and float_info<double> (H 6144-6391), the constants
    (H 6525-6561), getPow10 and convertToNumber<double> (H 8019-8116), to_ieee_t<double>
    (H 8511-8526) and TypeHandler<double>::to (H 8562-8570).  No proofs here.

    A double is its bit pattern, a number below 2^64.  The arithmetic of the machine on doubles
    (H 8068: one multiplication or division) is IEEE 754 binary64 with rounding to nearest even,
    modelled by [ieee_quotient]; excess precision (x87) is not modelled. *)
From Verif Require Import Base ScanModel IntModel.
Local Open Scope N_scope.

(** uint64_t[2], the less significant word first. *)
Definition w128 : Set := (N * N)%type.

(** [a << s] and [a >> s] on uint64_t, for s < 64. *)
Definition shl (a s : N) : N := u64 (N.shiftl a s).
Definition shr (a s : N) : N := N.shiftr a s.

(** H 6144-6151: high, low. *)
Definition high (x : N) : N := shr x 32.
Definition low (x : N) : N := N.land x 0xffffffff.

(** H 6153-6160: left_shift<shift>. *)
Definition left_shift_by (shift : N) (a : w128) : w128 :=
  let '(a0, a1) := a in (shl a0 shift, N.lor (shl a1 shift) (shr a0 (64 - shift))).

(** H 6170-6189: left_shift(a, shift). *)
Definition left_shift (a : w128) (shift : N) : w128 :=
  let '(a0, a1) := a in
  if shift =? 0 then a
  else if 64 <=? shift then (0, shl a0 (shift - 64))
  else left_shift_by shift a.

(** H 6196-6200: right_shift. *)
Definition right_shift (a : w128) : w128 :=
  let '(a0, a1) := a in (N.lor (shr a0 1) (shl a1 63), shr a1 1).

(** H 6207-6210: mask32. *)
Definition mask32 (a : N) : N := N.land a (2 ^ 32 - 1).

(** H 6212-6227: add(a, b), the new b. *)
Definition add128 (a b : w128) : w128 :=
  let '(a0, a1) := a in
  let '(b0, b1) := b in
  let tmplow0 := u64 (low a0 + low b0) in
  let tmplow1 := u64 (low a1 + low b1) in
  let tmphigh0 := u64 (high a0 + high b0) in
  let tmphigh1 := u64 (high a1 + high b1) in
  let tmphigh0 := u64 (tmphigh0 + shr tmplow0 32) in
  let tmplow1 := u64 (tmplow1 + shr tmphigh0 32) in
  let tmphigh1 := u64 (tmphigh1 + shr tmplow1 32) in
  (N.lor (mask32 tmplow0) (shl tmphigh0 32), N.lor (mask32 tmplow1) (shl tmphigh1 32)).

(** H 6234-6243: divide_by_10. *)
Definition divide_by_10 (a : w128) : w128 :=
  let '(a0, a1) := a in
  let remainder := a1 mod 10 in
  let high_pluss_reminder := u64 (high a0 + shl remainder 32) in
  let high_d := high_pluss_reminder / 10 in
  let high_r := high_pluss_reminder mod 10 in
  let low_d := u64 (low a0 + shl high_r 32) / 10 in
  (N.lor (shl high_d 32) low_d, a1 / 10).

(** H 6313-6316, 6325-6328: str_to_float_mask, conversion_type_has_mask. *)
Definition mask60 : N := 2 ^ 64 - 2 ^ 60.
Definition has_mask (a : w128) : bool := negb (N.land (snd a) mask60 =? 0).

(** H 6337-6358: shift_left_msb_to_index(a, 124): the new a and the number of bits shifted. *)
Definition shift_left_msb (a : w128) : w128 * Z :=
  let '(a0, a1) := a in
  if negb (a1 =? 0) then
    let shift_count := (124 - (Z.of_N (N.log2 a1) + 64))%Z in
    if (shift_count <? 0)%Z then (a, 0%Z) else (left_shift a (Z.to_N shift_count), shift_count)
  else if negb (a0 =? 0) then
    let shift_count := (124 - Z.of_N (N.log2 a0))%Z in
    if (shift_count <? 0)%Z then (a, 0%Z) else (left_shift a (Z.to_N shift_count), shift_count)
  else (a, 0%Z).

Definition sign_bit (neg : bool) : N := if neg then 2 ^ 63 else 0.

(** H 6359-6372: copy_denormal_to_type.  Shifting by 64 or more is undefined. *)
Definition copy_denormal (a : w128) (binary_exponent : Z) (negative : bool) : outcome N :=
  let q := snd a in
  let expo_shift := (- binary_exponent + 9)%Z in
  if (64 <=? expo_shift)%Z then UB
  else
    let s := Z.to_N expo_shift in
    let q := if s =? 0 then q else shr (u64 (q + shl 1 (s - 1))) s in
    Ok (N.lor q (sign_bit negative)).

(** H 6374-6390: copy_normal_to_type. *)
Definition copy_normal (a : w128) (binary_exponent : Z) (negative : bool) : N :=
  let '(a0, a1) := a in
  let q := N.land a1 (2 ^ 60 - 1) in
  let to_round_off := N.land q (2 ^ 8 - 1) in
  let bigger := (2 ^ 7 <? to_round_off) || ((to_round_off =? 2 ^ 7) && negb (a0 =? 0)) in
  let tie_odd := (N.land q (2 ^ 7 - 1) =? 0) && negb (N.land q (2 ^ 8) =? 0) && (a0 =? 0) in
  let q := if bigger || tie_odd then u64 (q + 2 ^ 7) else q in
  let q := shr q 8 in
  let q := u64 (q + shl (Z.to_N binary_exponent) 52) in
  N.lor q (sign_bit negative).

(** H 6525-6561: make_zero, make_inf, make_nan(true, 1). *)
Definition make_zero (negative : bool) : N := sign_bit negative.
Definition make_inf (negative : bool) : N := 2047 * 2 ^ 52 + sign_bit negative.
Definition make_nan : N := N.lor (2047 * 2 ^ 52) 1.

(** H 8019-8042: getPow10, for pow < 20. *)
Definition getPow10 (pow : N) : N := 10 ^ pow.

(** IEEE 754: the double nearest to num/den, ties to even, for quotients in the normal range. *)
Definition ieee_quotient (num den : Z) : N :=
  (let e0 := Z.log2 num - Z.log2 den in
   let below := if 0 <=? e0 then num <? den * 2 ^ e0 else num * 2 ^ (- e0) <? den in
   let e := if below then e0 - 1 else e0 in
   let n := if e <=? 52 then num * 2 ^ (52 - e) else num in
   let d := if e <=? 52 then den else den * 2 ^ (e - 52) in
   let q := n / d in
   let r := n mod d in
   let up := (d <? 2 * r) || ((2 * r =? d) && Z.odd q) in
   Z.to_N ((e + 1023) * 2 ^ 52 + (q - 2 ^ 52) + (if up then 1 else 0)))%Z.

(** H 8062-8069: the multiplication or division of two exact doubles. *)
Definition fast_path (p : parsed) : N :=
  let de := Z.of_N (getPow10 (Z.to_N (Z.abs (p_exp p)))) in
  let ds := Z.of_N (p_sig p) in
  ieee_quotient (if (p_exp p <? 0)%Z then ds else ds * de)%Z (if (p_exp p <? 0)%Z then de else 1%Z)
  + sign_bit (p_neg p).

(** H 8085-8089: while (has_mask) right_shift; returns a and binary_exponent. *)
Fixpoint drop_mask (fuel : nat) (a : w128) (be : Z) : outcome (w128 * Z) :=
  match fuel with
  | O => OutOfFuel
  | S f => if has_mask a then drop_mask f (right_shift a) (be + 1)%Z else Ok (a, be)
  end.

(** H 8078-8090: the loop for positive exponents. *)
Fixpoint mul_loop (n : nat) (a : w128) (be : Z) : outcome (w128 * Z) :=
  match n with
  | O => Ok (a, be)
  | S n' =>
    let a := left_shift_by 1 a in
    let b := left_shift_by 2 a in
    let a := add128 b a in
    let* (a, be) := drop_mask 128 a be in
    mul_loop n' a be
  end.

(** H 8092-8097: the loop for negative exponents. *)
Fixpoint div_loop (n : nat) (a : w128) (be : Z) : w128 * Z :=
  match n with
  | O => (a, be)
  | S n' => let '(a, s) := shift_left_msb a in div_loop n' (divide_by_10 a) (be - s)%Z
  end.

(** H 8072-8115: the conversion with 128 bits. *)
Definition slow_path (p : parsed) : outcome N :=
  let* (a, be) := mul_loop (Z.to_nat (p_exp p)) (p_sig p, 0) 124%Z in
  let '(a, be) := div_loop (Z.to_nat (- p_exp p)) a be in
  let '(a, s) := shift_left_msb a in
  let be := (be - s + 1023)%Z in
  if (be <=? 0)%Z then copy_denormal a be (p_neg p)
  else if (be <? 2047)%Z then Ok (copy_normal a be (p_neg p))
  else Ok (make_inf (p_neg p)).

(** H 8044-8116: convertToNumber<double, uint64_t>. *)
Definition convertToNumber (p : parsed) : outcome N :=
  let base10exponent := (p_exp p + Z.of_N (p_count p) - 1)%Z in
  if (308 <? base10exponent)%Z then Ok (make_inf (p_neg p))
  else if (base10exponent <? -324)%Z then Ok (make_zero (p_neg p))
  else if p_sig p =? 0 then Ok (make_zero (p_neg p))
  else if (p_sig p <? 2 ^ 53) && (Z.abs (p_exp p) <? Z.of_nat (count_chars T_uint64 (2 ^ 53)))%Z then
    Ok (fast_path p)
  else slow_path p.

(** H 8511-8526: to_ieee_t<double>: error, value, offset of endptr. *)
Definition to_double (str : bytes) : outcome (parse_error * N * nat) :=
  let* (e, p) := parseNumber 64 false str in
  match e with
  | PE_ok => let* d := convertToNumber p in Ok (e, d, p_end p)
  | _ => Ok (e, make_nan, p_end p)
  end.

(** H 8562-8570: TypeHandler<double>::to: the error and the value stored. *)
Definition double_to (value : bytes) : outcome (error * N) :=
  let* (e, d, endp) := to_double value in
  match e with
  | PE_ok => if Nat.eqb endp (length value) then Ok (NoError, d) else Ok (FailedToParseDouble, d)
  | _ => Ok (FailedToParseDouble, d)
  end.
