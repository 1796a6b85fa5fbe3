(** Model of number parsing and integer conversion (H 6595-6716, 7876-8038, 8140-8276).
    No proofs here. *)
From Verif Require Import Base ScanModel.

(** An integer type: number of bits and signedness (H 8680-8741, 10303-10314: the types with a handler). *)
Record ity : Set := mkIty { i_bits : N; i_signed : bool }.

Definition i_max (t : ity) : Z :=
  if i_signed t then (2 ^ (Z.of_N (i_bits t) - 1) - 1)%Z else (2 ^ Z.of_N (i_bits t) - 1)%Z.
Definition i_min (t : ity) : Z :=
  if i_signed t then (- 2 ^ (Z.of_N (i_bits t) - 1))%Z else 0%Z.

Definition T_uint64 : ity := mkIty 64 false.

(** H 8256-8257: SignificandType: uint64_t for types of up to 64 bits, else the unsigned type of the same size
    (unsigned __int128). *)
Definition sig_type (t : ity) : ity := if (i_bits t <=? 64)%N then T_uint64 else mkIty (i_bits t) false.

(** H 6644-6661: StaticLog10<T, VALUE, 0, 0, true>::get(), instantiated at compile time; [fuel]
    bounds the number of instantiations. *)
Fixpoint static_log10 (fuel : nat) (value : Z) (sum : nat) : nat :=
  match fuel with
  | O => sum
  | S f => let v := (value / 10)%Z in
           if (v =? 0)%Z then S sum else static_log10 f v (S sum)
  end.
Definition max_digits (t : ity) : nat := static_log10 64 (i_max t) 0.

(** H 6620-6643: Pow10<T, COUNT, 1>::get(). *)
Definition pow10 (count : nat) : Z :=
  match count with O => 1 | S n => 10 ^ Z.of_nat n end%Z.

(** H 6663-6690: CharsInDigit<T, WIDTH, CURRENT>::lower_bounds. *)
Fixpoint chars_in_digit (fuel width current : nat) (t : Z) : nat :=
  match fuel with
  | O => current
  | S f =>
    match width with
    | O => current
    | _ =>
      let h := Nat.div2 width in
      if (pow10 (current + h) - 1 <? t)%Z
      then chars_in_digit f (width - (h + 1)) (current + h + 1) t
      else chars_in_digit f h current t
    end
  end.

(** H 6692-6706: iabs. *)
Definition iabs (t : ity) (a : Z) : Z :=
  if negb (i_signed t) then a
  else if (0 <? a)%Z then a
  else if (a =? i_min t)%Z then (- (a + 1))%Z else (- a)%Z.

(** H 6708-6716: count_chars. *)
Definition count_chars (t : ity) (v : Z) : nat :=
  let a := iabs t v in
  if (a <? 10)%Z then 1
  else chars_in_digit 64 (max_digits t + 1) 0 a - 1.

Definition digit_char (d : Z) : byte :=
  match Byte.of_N (Z.to_N (48 + d)) with Some b => b | None => x00 end.

(** H 8171-8182: the digits, written from the last to the first. *)
Fixpoint write_digits (n : nat) (negative : bool) (integer : Z) (acc : bytes) : bytes :=
  match n with
  | O => acc
  | S n' =>
    let remainder := Z.rem integer 10 in
    let remainder := if negative then (- remainder)%Z else remainder in
    write_digits n' negative (Z.quot integer 10) (digit_char remainder :: acc)
  end.

(** H 8145-8185: integer::to_buffer.  Returns the text and digits_truncated. *)
Definition int_to_buffer (t : ity) (integer : Z) (buffer_size : Z) : bytes * Z :=
  let chars_to_write := Z.of_nat (count_chars t integer) in
  let negative := i_signed t && (integer <? 0)%Z in
  let buffer_size := if negative then (buffer_size - 1)%Z else buffer_size in
  let to_remove := (chars_to_write - buffer_size)%Z in
  let sign := if negative then [x2d] else [] in
  if (0 <? to_remove)%Z then
    (sign ++ write_digits (Z.to_nat (chars_to_write - to_remove)) negative
               (Z.quot integer (10 ^ to_remove)) [], to_remove)
  else (sign ++ write_digits (Z.to_nat chars_to_write) negative integer [], 0%Z).

(** H 6128-6134, 6121-6127: parsed_string<uint64_t>; [p_end] is the offset of endptr. *)
Record parsed : Set := mkParsed {
  p_neg : bool; p_sig : N; p_count : N; p_exp : Z; p_end : nat }.

(** H 6135-6142. *)
Inductive parse_error : Set :=
| PE_ok | PE_invalid_format | PE_multiple_commas | PE_empty_string | PE_illegal_exponent.

Definition u64 (n : N) : N := (n mod 2 ^ 64)%N.
(** Wraps to [w] bits. *)
Definition uw (w n : N) : N := (n mod 2 ^ w)%N.
Definition u8 (n : N) : N := (n mod 2 ^ 8)%N.

Definition is_space (c : byte) : bool :=
  existsb (Byte.eqb c) [x20; x09; x0a; x0b; x0c; x0d].
Definition is_digit_char (c : byte) : bool := in_range 48 57 c.

(** H 7926-7968: the digit loop.  [w] is the number of bits of the significand, [nc] is NoDigitCount, [dec] is desimal_position, [inc] is
    increase_significand, [pos] the offset of [current]. *)
Fixpoint parse_digits (w : N) (nc : bool) (l : bytes) (pos : nat) (sig count : N) (dec : Z) (inc : bool)
  : outcome (parse_error * N * N * Z * bytes * nat) :=
  match l with
  | [] => Ok (PE_ok, sig, count, dec, [], pos)
  | c :: tl =>
    if negb (is_digit_char c) && negb (Byte.eqb c x2e) then Ok (PE_ok, sig, count, dec, l, pos)
    else if Byte.eqb c x2e then
      if (0 <=? dec)%Z then Ok (PE_multiple_commas, sig, count, dec, l, pos)
      else parse_digits w nc tl (S pos) sig count (Z.of_N count) inc
    else
      let d := (byte_val c - 48)%N in
      if nc || (count <? 19)%N then
        parse_digits w nc tl (S pos) (uw w (sig * 10 + d)) (u8 (count + 1)) dec inc
      else if inc && (count <? 20)%N then
        if (sig =? 0)%N then UB                   (* H 7959: division by the significand *)
        else if (10 <=? (2 ^ 64 - 1 - d) / sig)%N
        then parse_digits w nc tl (S pos) (uw w (sig * 10 + d)) (u8 (count + 1)) dec false
        else parse_digits w nc tl (S pos) sig count dec false
      else parse_digits w nc tl (S pos) sig count dec inc
  end.

(** H 7999-8010: the exponent digits. *)
Fixpoint parse_exponent (l : bytes) (pos : nat) (exponent : Z) (assigned : bool) : Z * bool * nat :=
  match l with
  | [] => (exponent, assigned, pos)
  | c :: tl =>
    if is_digit_char c then
      parse_exponent tl (S pos)
        (if (exponent <? 100000000)%Z then (exponent * 10 + Z.of_N (byte_val c - 48))%Z else exponent) true
    else (exponent, assigned, pos)
  end.

(** H 7902-8022: parseNumber<SignificandType, NoDigitCount>. *)
Definition parseNumber (w : N) (nc : bool) (number : bytes) : outcome (parse_error * parsed) :=
  let start := scalar_count (fun c => negb (is_space c)) number in
  match skipn start number with
  | [] => Ok (PE_empty_string, mkParsed false 0 0 0 start)
  | c :: tl =>
    let neg := Byte.eqb c x2d in
    let l := if neg then tl else c :: tl in
    let pos := if neg then S start else start in
    let* (e, sig, count, dec, rest, pos) := parse_digits w nc l pos 0%N 0%N (-1)%Z true in
    match e with
    | PE_ok =>
      let base := if (0 <=? dec)%Z then (dec - Z.of_N count)%Z else 0%Z in
      match rest with
      | c :: tl =>
        if Byte.eqb c x65 || Byte.eqb c x45 then
          let pos := S pos in
          match tl with
          | [] => Ok (PE_illegal_exponent, mkParsed neg sig count 0 pos)
          | c :: tl2 =>
            let eneg := Byte.eqb c x2d in
            let sign := eneg || Byte.eqb c x2b in
            let l := if sign then tl2 else tl in
            let pos := if sign then S pos else pos in
            match l with
            | [] => Ok (PE_illegal_exponent, mkParsed neg sig count 0 pos)
            | _ =>
              let '(exponent, assigned, pos) := parse_exponent l pos 0%Z false in
              if assigned then
                let exponent := if eneg then (- exponent)%Z else exponent in
                Ok (PE_ok, mkParsed neg sig count (base + exponent) pos)
              else Ok (PE_illegal_exponent, mkParsed neg sig count 0 pos)
            end
          end
        else Ok (PE_ok, mkParsed neg sig count base pos)
      | [] => Ok (PE_ok, mkParsed neg sig count base pos)
      end
    | _ => Ok (e, mkParsed neg sig count 0 pos)
    end
  end.

(** H 8187-8213: make_integer_return_value. *)
Definition make_integer_return_value (t : ity) (sig : N) (negative : bool) : Z :=
  let sig := Z.of_N sig in
  if i_signed t then
    if negative then if (i_max t + 1 <=? sig)%Z then i_min t else (- sig)%Z
    else if (i_max t <? sig)%Z then i_max t else sig
  else if (i_max t <? sig)%Z then i_max t else sig.

(** H 8234-8238: the division loop, H 8243-8247: the multiplication loop (wraps). *)
Fixpoint mul10 (w : N) (n : nat) (sig : N) : N :=
  match n with O => sig | S n' => mul10 w n' (uw w (sig * 10)) end.
Fixpoint div10 (n : nat) (sig : N) : N :=
  match n with O => sig | S n' => div10 n' (sig / 10)%N end.

(** H 8215-8251: convert_to_integer; inf and nan are never set by parseNumber. *)
Definition convert_to_integer (t : ity) (p : parsed) : Z :=
  let chars_in_sig := Z.of_nat (count_chars (sig_type t) (Z.of_N (p_sig p))) in
  if (p_exp p <? 0)%Z then
    if (chars_in_sig <=? - p_exp p)%Z then 0%Z
    else make_integer_return_value t (div10 (Z.to_nat (- p_exp p)) (p_sig p)) (p_neg p)
  else if (0 <? p_exp p)%Z then
    if (Z.of_nat (max_digits t) - chars_in_sig <? p_exp p)%Z then
      if p_neg p then i_min t else i_max t
    else make_integer_return_value t (mul10 (i_bits (sig_type t)) (Z.to_nat (p_exp p)) (p_sig p)) (p_neg p)
  else make_integer_return_value t (p_sig p) (p_neg p).

(** H 8253-8269: to_integer. *)
Definition to_integer (t : ity) (str : bytes) : outcome (parse_error * Z * nat) :=
  let* (e, p) := parseNumber (i_bits (sig_type t)) true str in
  match e with
  | PE_ok => Ok (e, convert_to_integer t p, p_end p)
  | _ => Ok (e, 0%Z, p_end p)
  end.

(** H 8645-8654: TypeHandlerIntType::to.  Returns the error and the value stored. *)
Definition int_to (t : ity) (value : bytes) : outcome (error * Z) :=
  let* (e, v, endp) := to_integer t value in
  match e with
  | PE_ok => if endp =? length value then Ok (NoError, v) else Ok (FailedToParseInt, v)
  | _ => Ok (FailedToParseInt, v)
  end.

(** H 8656-8671: TypeHandlerIntType::from: the token value written, None if none is. *)
Definition int_from (t : ity) (v : Z) : option bytes :=
  let '(text, truncated) := int_to_buffer t v 40 in
  if (Z.of_nat (length text) <=? 0)%Z || negb (truncated =? 0)%Z then None else Some text.
