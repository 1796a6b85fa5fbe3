(** Model of printing doubles and floats: get_parts, is_nan, is_inf (H 6393-6402, 6563-6581),
    namespace ryu (H 7418-7876), ryu::to_buffer (H 8126-8132) and the from functions of
    TypeHandler<double> and TypeHandler<float> (H 8572-8601, 8620-8643).  No proofs here.

    int is Z (no overflow occurs for these formats), uint64_t is N below 2^64.  The arithmetic of the
    machine on doubles is IEEE 754 binary64 with rounding to nearest even, as in DoubleModel.v. *)
From Verif Require Import Base ScanModel IntModel DoubleModel RyuTable.
Local Open Scope Z_scope.

(** H 6262-6324, 6418-6465: float_info<T>; H 6725-7416: cache_values<T>. *)
Record finfo : Set := mkInfo {
  mentissa_width : Z; exponent_width : Z; max_5_pow : Z; max_2_pow : Z; expanded_length : Z;
  cache_b0 : Z; cache_b1 : Z; less_than : list (list N); greater_than_equals : list (list N) }.

Definition double_info : finfo :=
  mkInfo 52 11 23 54 19 124 124 double_less_than double_greater_than_equals.
Definition float_info : finfo :=
  mkInfo 23 8 10 25 10 59 61 float_less_than float_greater_than_equals.

Definition bias (T : finfo) : Z := 2 ^ (exponent_width T - 1) - 1.

(** H 6393-6402: get_parts: negative, exp, mentissa. *)
Definition get_parts (T : finfo) (bits : N) : bool * Z * N :=
  (N.testbit bits (Z.to_N (mentissa_width T + exponent_width T)),
   Z.of_N ((bits / 2 ^ Z.to_N (mentissa_width T)) mod 2 ^ Z.to_N (exponent_width T)),
   (bits mod 2 ^ Z.to_N (mentissa_width T))%N).

(** H 6563-6581: is_nan, is_inf. *)
Definition is_nan (T : finfo) (bits : N) : bool :=
  let '(_, e, m) := get_parts T bits in (e =? 2 ^ exponent_width T - 1) && (0 <? m)%N.
Definition is_inf (T : finfo) (bits : N) : bool :=
  let '(_, e, m) := get_parts T bits in (e =? 2 ^ exponent_width T - 1) && (m =? 0)%N.

(** H 7418-7420: the constants, rounded to double by the compiler. *)
Definition log_10_2 : N := ieee_quotient 30102999566398114 (10 ^ 17).
Definition log_10_5 : N := ieee_quotient 6989700043360189 (10 ^ 16).
Definition log_2_5 : N := ieee_quotient 2321928094887362 (10 ^ 15).

(** A positive normal double below 2^52 is [fst * 2^-snd]. *)
Definition unpack (d : N) : Z * Z := (2 ^ 52 + Z.of_N d mod 2 ^ 52, 1075 - Z.of_N d / 2 ^ 52).

(** The product of the integer n >= 0, converted to double, and the double d, as a fraction. *)
Definition int_times (n : Z) (d : N) : Z * Z :=
  if n =? 0 then (0, 0) else
  let '(m, k) := unpack d in unpack (ieee_quotient (n * m) (2 ^ k)).

(** Conversion to int, and std::ceil. *)
Definition trunc (x : Z * Z) : Z := let '(m, k) := x in m / 2 ^ k.
Definition ceil (x : Z * Z) : Z := let '(m, k) := x in - ((- m) / 2 ^ k).

(** H 7422-7434: normalize. *)
Definition normalize (T : finfo) (exp : Z) (mentissa : N) : Z * N :=
  if negb (exp =? 0)
  then (exp - bias T - mentissa_width T, u64 (mentissa + 2 ^ Z.to_N (mentissa_width T)))
  else (1 - bias T - mentissa_width T, mentissa).

(** The variables of compute_shortest that its loops change. *)
Record shortening : Set := mkShort {
  sh_a : N; sh_b : N; sh_c : N; sh_all_a_zero : bool; sh_all_b_zero : bool; sh_b_remainder : N; sh_i : Z }.

(** H 7452-7466: while (a_next < c_next).  The variables a_next, b_next, c_next are a/10, b/10, c/10
    throughout. *)
Fixpoint shorten (fuel : nat) (s : shortening) : outcome shortening :=
  match fuel with
  | O => OutOfFuel
  | S f =>
    if (sh_a s / 10 <? sh_c s / 10)%N then
      shorten f (mkShort (sh_a s / 10) (sh_b s / 10) (sh_c s / 10)
        (sh_all_a_zero s && (sh_a s mod 10 =? 0)%N) (sh_all_b_zero s && (sh_b s mod 10 =? 0)%N)
        (sh_b s mod 10) (sh_i s + 1))
    else Ok s
  end.

(** H 7469-7482: while ( !(a_next % 10) ). *)
Fixpoint shorten_zeros (fuel : nat) (s : shortening) : outcome shortening :=
  match fuel with
  | O => OutOfFuel
  | S f =>
    if ((sh_a s / 10) mod 10 =? 0)%N then
      shorten_zeros f (mkShort (sh_a s / 10) (sh_b s / 10) (sh_c s / 10)
        (sh_all_a_zero s) (sh_all_b_zero s && (sh_b s mod 10 =? 0)%N)
        (sh_b s mod 10) (sh_i s + 1))
    else Ok s
  end.

(** H 7436-7497: compute_shortest: exponent_adjuster, shortest_base10. *)
Definition compute_shortest (a b c : N) (accept_smaller accept_larger break_tie_down : bool) : outcome (Z * N) :=
  let c := if accept_larger then c else u64 (c + (2 ^ 64 - 1)) in
  let* s := shorten 64 (mkShort a b c true true (b mod 10) 0) in
  let* s := if accept_smaller && sh_all_a_zero s && (sh_a s mod 10 =? 0)%N then shorten_zeros 64 s else Ok s in
  let is_tie := (sh_b_remainder s =? 5)%N && sh_all_b_zero s in
  let want_to_round_down := (sh_b_remainder s <? 5)%N || (is_tie && break_tie_down) in
  let round_down := (want_to_round_down && (negb (sh_a s =? sh_b s)%N || sh_all_a_zero s))
                    || (sh_c s <? u64 (sh_b s + 1))%N in
  Ok (sh_i s, if round_down then sh_b s else u64 (sh_b s + 1)).

(** H 7499-7519: umul128 with __int128: the low and the high word. *)
Definition umul128 (a b : N) : N * N := (u64 (a * b), (a * b) / 2 ^ 64)%N.

(** H 7510-7517: umul128 without __int128. *)
Definition umul128_portable (a b : N) : N * N :=
  let a0 := low a in let a1 := high a in let b0 := low b in let b1 := high b in
  let t := u64 (a0 * b0) in
  let m := u64 (a1 * b0 + high t) in
  let mid := u64 (a0 * b1 + low m) in
  (N.lor (shl (low mid) 32) (low t), u64 (u64 (u64 (a1 * b1) + high m) + high mid)).

(** H 7533-7541 (double, two words) and 7565-7569 (float, one word): the array ret. *)
Definition product (a : N) (b : list N) : list N :=
  match b with
  | [b0; b1] =>
    let '(lo0, hi0) := umul128 a b0 in
    let '(lo1, hi1) := umul128 a b1 in
    let mid := u64 (hi0 + lo1) in
    [lo0; mid; u64 (hi1 + (if mid <? hi0 then 1 else 0)); 0]%N
  | [b0] => let '(lo, hi) := umul128 a b0 in [lo; hi; 0; 0]%N
  | _ => []
  end.

(** H 7543-7560, 7571-7588: the rest of multiply_and_shift.  For a shift by a multiple of 64 the last
    shift is by 64 bits, which is undefined. *)
Definition shift_product (ret : list N) (shift_right : Z) (round_up : bool) : outcome N :=
  if shift_right <? 0 then UB else
  let index := Z.to_nat (shift_right / 64) in
  let s := Z.to_N (shift_right mod 64) in
  match nth_error ret index, nth_error ret (S index) with
  | Some x, Some y =>
    if (s =? 0)%N then UB
    else
      let up := round_up && N.testbit x (s - 1) in
      let r := N.lor (shr x s) (shl (N.land y (2 ^ s - 1)) (64 - s)) in
      Ok (u64 (r + (if up then 1 else 0)))
  | _, _ => UB
  end.

Definition multiply_and_shift (a : N) (b : list N) (shift_right : Z) (round_up : bool) : outcome N :=
  shift_product (product a b) shift_right round_up.

(** H 7591-7601: pow_int. *)
Fixpoint pow_loop (n : N) (k : nat) : N :=
  match k with O => n | S k' => u64 (pow_loop n k' * n) end.
Definition pow_int (n : N) (exp : Z) : N :=
  if exp <=? 0 then 1 else pow_loop n (Z.to_nat (exp - 1)).

(** H 6123-6141: float_base10. *)
Record base10 : Set := mkBase10 {
  d_negative : bool; d_inf : bool; d_nan : bool; d_count : Z; d_exp : Z; d_significand : N }.

(** H 7641-7683: q, shift_right, zero[0], zero[1], zero[2] and the table entry. *)
Definition scaling (T : finfo) (exp : Z) (u mentissa w : N) : Z * Z * (bool * bool * bool) * option (list N) :=
  if 0 <=? exp then
    let q := Z.max 0 (trunc (int_times exp log_10_2) - 1) in
    let k := cache_b0 T + trunc (int_times q log_2_5) in
    let zero1 := (q - 1 <=? max_5_pow T) && (mentissa mod pow_int 5 (q - 1) =? 0)%N in
    let zero0 := (q <=? max_5_pow T) && (u mod pow_int 5 q =? 0)%N in
    let zero2 := (q <=? max_5_pow T) && (w mod pow_int 5 q =? 0)%N in
    (q, - exp + q + k, (zero0, zero1, zero2), nth_error (greater_than_equals T) (Z.to_nat q))
  else
    let q := Z.max 0 (trunc (int_times (- exp) log_10_5) - 1) in
    let k := ceil (int_times (- exp - q) log_2_5) - cache_b1 T in
    let some := negb (q =? 0) && (q - 1 <=? max_2_pow T) in
    let zero1 := some && (N.land mentissa (2 ^ Z.to_N (q - 1) - 1) =? 0)%N in
    let zero0 := some && (q <=? max_2_pow T) && (N.land u (2 ^ Z.to_N q - 1) =? 0)%N in
    let zero2 := some && (q <=? max_2_pow T) && (N.land w (2 ^ Z.to_N q - 1) =? 0)%N in
    (q, q - k, (zero0, zero1, zero2), nth_error (less_than T) (Z.to_nat (- exp - q))).

(** H 7603-7697: decode. *)
Definition decode (T : finfo) (bits : N) : outcome base10 :=
  let '(negative, exp, mentissa) := get_parts T bits in
  let shift_u_with_one := (mentissa =? 0)%N && (1 <? exp) in
  if is_nan T bits then Ok (mkBase10 negative false true 0 0 0)
  else if is_inf T bits then Ok (mkBase10 negative true false 0 0 0)
  else if (exp =? 0) && (mentissa =? 0)%N then Ok (mkBase10 negative false false 1 0 0)
  else
    let accept := (mentissa mod 2 =? 0)%N in
    let '(exp, mentissa) := normalize T exp mentissa in
    let exp := exp - 2 in
    let mentissa := u64 (mentissa * 4) in
    let u := (mentissa - (if shift_u_with_one then 1 else 2))%N in
    let w := u64 (mentissa + 2) in
    let e10 := if exp <? 0 then exp else 0 in
    let '(q, shift_right, (zero0, zero1, zero2), entry) := scaling T exp u mentissa w in
    match entry with
    | None => UB
    | Some cache_value =>
      let* a := multiply_and_shift u cache_value shift_right true in
      let* b := multiply_and_shift mentissa cache_value shift_right false in
      let* c := multiply_and_shift w cache_value shift_right false in
      let* (exponent_adjust, shortest_base10) :=
        compute_shortest a b c (accept && zero0) (accept || negb zero2) zero1 in
      Ok (mkBase10 negative false false (Z.of_nat (count_chars T_uint64 (Z.of_N shortest_base10)))
            (exponent_adjust + e10 + q) shortest_base10)
    end.

(** ** The text *)

(** buffer[i] = c *)
Definition store (buffer : bytes) (i : Z) (c : byte) : outcome bytes :=
  if (0 <=? i) && (i <? Z.of_nat (length buffer)) then
    Ok (firstn (Z.to_nat i) buffer ++ c :: skipn (S (Z.to_nat i)) buffer)
  else UB.

Definition digit (n : N) : byte := digit_char (Z.of_N (n mod 10)).

(** H 7788-7793, 7809-7814: for (int i = 0; i < n && index_pos >= 0; i++, index_pos--), writing digits
    into the buffer at [offset]: the buffer, index_pos and the remaining significand. *)
Fixpoint put_digits (n : nat) (buffer : bytes) (offset index_pos : Z) (significand : N) : outcome (bytes * Z * N) :=
  match n with
  | O => Ok (buffer, index_pos, significand)
  | S n' =>
    if 0 <=? index_pos then
      let* buffer := store buffer (offset + index_pos) (digit significand) in
      put_digits n' buffer offset (index_pos - 1) (significand / 10)%N
    else Ok (buffer, index_pos, significand)
  end.

(** H 7804-7808: the same with zeros; also the new digits_before_decimals. *)
Fixpoint put_zeros (n : nat) (buffer : bytes) (offset index_pos before : Z) : outcome (bytes * Z * Z) :=
  match n with
  | O => Ok (buffer, index_pos, before)
  | S n' =>
    if 0 <=? index_pos then
      let* buffer := store buffer (offset + index_pos) x30 in
      put_zeros n' buffer offset (index_pos - 1) (before - 1)
    else Ok (buffer, index_pos, before)
  end.

(** H 7744-7786: what is dropped when the buffer is too small: complete_digits, digits_before_decimals,
    digits_after_decimals, significand, print_desimal_seperator. *)
Definition truncate (buffer_size complete before after : Z) (significand : N) : Z * Z * Z * N * bool :=
  if buffer_size <? complete then
    let to_remove := complete - buffer_size in
    let n := Z.min to_remove after in
    let complete := complete - n in
    let after := after - n in
    let significand := (significand / 10 ^ Z.to_N n)%N in
    let to_remove := to_remove - n in
    if 0 <? to_remove then
      let less := if after =? 0 then 1 else 0 in
      let complete := complete - less - 1 in
      let to_remove := to_remove - less - 1 in
      if 0 <? to_remove then
        let n := Z.max 0 (Z.min to_remove before) in
        (complete - n, before - n, after, (significand / 10 ^ Z.to_N n)%N, false)
      else (complete, before, after, significand, false)
    else if after =? 0 then (complete - 1, before, after, significand, false)
    else (complete, before, after, significand, true)
  else (complete, before, after, significand, true).

(** H 7738-7817: the number without exponent. *)
Definition print_expanded (r : base10) (buffer : bytes) (offset buffer_size complete before after : Z) :
    outcome (bytes * Z) :=
  let '(complete, before, after, significand, separator) :=
    truncate buffer_size complete before after (d_significand r) in
  let index_pos := Z.max (complete - 1) 0 in
  let* (buffer, index_pos, significand) := put_digits (Z.to_nat after) buffer offset index_pos significand in
  let* (buffer, index_pos) :=
    if separator then
      let* (buffer, index_pos) :=
        if (after =? 0) && (0 <=? index_pos) then
          let* buffer := store buffer (offset + index_pos) x30 in Ok (buffer, index_pos - 1)
        else Ok (buffer, index_pos) in
      if 0 <=? index_pos then
        let* buffer := store buffer (offset + index_pos) x2e in Ok (buffer, index_pos - 1)
      else Ok (buffer, index_pos)
    else Ok (buffer, index_pos) in
  let* (buffer, index_pos, before) := put_zeros (Z.to_nat (d_exp r)) buffer offset index_pos before in
  let* (buffer, index_pos, _) := put_digits (Z.to_nat before) buffer offset index_pos significand in
  let* buffer := if (before <=? 0) && (0 <=? index_pos) then store buffer (offset + index_pos) x30 else Ok buffer in
  Ok (buffer, complete + offset).

(** H 7822-7826, 7836-7840: the digits of n, count of them, written from the last to the first into an
    array of [size] characters, behind [offset] others. *)
Definition small_buffer (size offset count : Z) (n : N) : outcome bytes :=
  let* (b, _, _) := put_digits (Z.to_nat count) (repeat x00 (Z.to_nat size)) 0 (offset + count - 1) n in Ok b.

(** H 7855-7858, 7865-7869: copying characters to buffer + offset. *)
Fixpoint copy_to (l : bytes) (buffer : bytes) (offset : Z) : outcome (bytes * Z) :=
  match l with
  | [] => Ok (buffer, offset)
  | c :: r => let* buffer := store buffer offset c in copy_to r buffer (offset + 1)
  end.

Definition T_int : ity := mkIty 32 true.

(** H 7819-7873: the number with exponent. *)
Definition print_scientific (r : base10) (buffer : bytes) (offset buffer_size : Z) : outcome (bytes * Z) :=
  let count := d_count r in
  let* significan_buffer := small_buffer 17 0 count (d_significand r) in
  let exp := d_exp r + count - 1 in
  let exponent_digit_count := Z.of_nat (count_chars T_int exp) in
  let sign := if exp <? 0 then 1 else 0 in
  let* exponent_buffer := small_buffer 4 sign exponent_digit_count (Z.to_N (Z.abs exp)) in
  let* exponent_buffer := if exp <? 0 then store exponent_buffer 0 x2d else Ok exponent_buffer in
  let exponent_digit_count := exponent_digit_count + sign in
  if negb (offset <? buffer_size) then Ok (buffer, offset) else
  let* (buffer, offset) := copy_to (firstn 1 significan_buffer) buffer offset in
  if (1 <? count) && negb (offset <? buffer_size) then Ok (buffer, offset) else
  let* (buffer, offset) := if 1 <? count then copy_to [x2e] buffer offset else Ok (buffer, offset) in
  let to_copy := Z.min (buffer_size - offset) (count - 1) in
  let* (buffer, offset) := copy_to (firstn (Z.to_nat to_copy) (skipn 1 significan_buffer)) buffer offset in
  if buffer_size <=? offset then Ok (buffer, offset) else
  let* (buffer, offset) := copy_to [x65] buffer offset in
  let to_copy := Z.min (buffer_size - offset) exponent_digit_count in
  copy_to (firstn (Z.to_nat to_copy) exponent_buffer) buffer offset.

(** H 7699-7874: convert_parsed_to_buffer.  [buffer] is the memory at the pointer; the caller may pass a
    smaller buffer_size.  The new memory and the value returned. *)
Definition convert_parsed_to_buffer (r : base10) (buffer : bytes) (buffer_size max_expanded_length : Z) :
    outcome (bytes * Z) :=
  if buffer_size <? 1 then Ok (buffer, 0)
  else if d_nan r then
    if 3 <=? buffer_size then copy_to (s2b "nan") buffer 0 else Ok (buffer, 0)
  else
    let* (buffer, offset) := if d_negative r then copy_to [x2d] buffer 0 else Ok (buffer, 0) in
    let buffer_size := if d_negative r then buffer_size - 1 else buffer_size in
    if d_inf r then
      if 3 <=? buffer_size then copy_to (s2b "inf") buffer offset else Ok (buffer, offset)
    else if 17 <? d_count r then UB
    else
      let before := d_count r + d_exp r in
      let after := if d_exp r <? 0 then - d_exp r else 0 in
      let complete := Z.max 1 before + Z.max 1 after + 1 in
      if complete <? max_expanded_length then print_expanded r buffer offset buffer_size complete before after
      else print_scientific r buffer offset buffer_size.

(** H 8126-8132: to_buffer. *)
Definition to_buffer (T : finfo) (bits : N) (buffer : bytes) (buffer_size : Z) : outcome (bytes * Z) :=
  let* r := decode T bits in
  convert_parsed_to_buffer r buffer buffer_size (expanded_length T).

(** H 8572-8601, 8620-8643: TypeHandler<double>::from with a buffer of 32 characters and
    TypeHandler<float>::from with 16: the type and text of the value that is written.  The buffer starts
    with arbitrary contents. *)
Definition number_from (T : finfo) (bits : N) (buffer : bytes) : outcome (option (type * bytes)) :=
  if is_nan T bits || is_inf T bits then Ok (Some (TNull, s2b "null"))
  else
    let* (buffer, size) := to_buffer T bits buffer (Z.of_nat (length buffer)) in
    if size <=? 0 then Ok None else Ok (Some (TNumber, firstn (Z.to_nat size) buffer)).

Definition double_from (bits : N) (buffer : bytes) : outcome (option (type * bytes)) := number_from double_info bits buffer.
Definition float_from (bits : N) (buffer : bytes) : outcome (option (type * bytes)) := number_from float_info bits buffer.
