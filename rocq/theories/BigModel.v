(** Model of the big integers used to round decimal literals to float (H 8278-8396) and of the
    literal's digit loop in correctly_round_float (H 8444-8484).  No proofs here.

    A [big_uint_cmp] is its vector [w] of 32-bit words, least significant first; it is never
    empty. *)
From Verif Require Import Base ScanModel IntModel.
Local Open Scope N_scope.

Definition u32 (n : N) : N := n mod 2 ^ 32.

(** H 8281-8284: the constructor. *)
Definition big_zero : list N := [0].

(** H 8285-8289: normalize. *)
Fixpoint strip_zeros (rev_w : list N) : list N :=
  match rev_w with
  | x :: tl => match tl with
               | [] => rev_w
               | _ => if x =? 0 then strip_zeros tl else rev_w
               end
  | [] => rev_w
  end.
Definition normalize (w : list N) : list N := rev (strip_zeros (rev w)).

(** H 8290-8301: mul_small. *)
Fixpoint mul_words (m c : N) (w : list N) : list N :=
  match w with
  | [] => if c =? 0 then [] else [u32 c]
  | x :: r => let p := u64 (x * m + c) in u32 p :: mul_words m (N.shiftr p 32) r
  end.
Definition mul_small (m : N) (w : list N) : list N := mul_words m 0 w.

(** H 8302-8313: add_small. *)
Fixpoint add_words (c : N) (w : list N) : list N :=
  if c =? 0 then w
  else match w with
       | [] => [u32 c]
       | x :: r => let p := u64 (x + c) in u32 p :: add_words (N.shiftr p 32) r
       end.
Definition add_small (a : N) (w : list N) : list N := add_words a w.

(** H 8314-8318: mul_pow5. *)
Fixpoint mul_pow5 (n : nat) (w : list N) : list N :=
  match n with O => w | S n' => mul_pow5 n' (mul_small 5 w) end.

(** H 8319-8336: shift_left; [bits] is never negative. *)
Fixpoint shift_words (b c : N) (w : list N) : list N :=
  match w with
  | [] => if c =? 0 then [] else [c]
  | x :: r => let p := N.lor (u64 (N.shiftl x b)) c in u32 p :: shift_words b (u32 (N.shiftr p 32)) r
  end.
Definition shift_left (bits : N) (w : list N) : list N :=
  let words := bits / 32 in let b := bits mod 32 in
  let w := if b =? 0 then w else shift_words b 0 w in
  repeat 0 (N.to_nat words) ++ w.

(** H 8339-8349: compare_big; [Lt], [Eq], [Gt] stand for -1, 0, 1.  Lists are most significant
    word first here. *)
Fixpoint compare_words (a b : list N) : comparison :=
  match a, b with
  | x :: a', y :: b' => if x =? y then compare_words a' b' else if x <? y then Lt else Gt
  | _, _ => Eq
  end.
Definition compare_big (a b : list N) : comparison :=
  let a := normalize a in let b := normalize b in
  if Nat.eqb (length a) (length b) then compare_words (rev a) (rev b)
  else if Nat.ltb (length a) (length b) then Lt else Gt.

(** H 8351-8362: compare_value_scaled.  The int arithmetic is on exponents of at most ten digits
    (parseNumber caps them) plus the number of fraction digits. *)
Definition compare_value_scaled (value_digits : list N) (decimal_exp : Z)
                                (mid_int : list N) (mid_pow2 : Z) : comparison :=
  let min5 := (if decimal_exp <? 0 then decimal_exp else 0)%Z in
  let min2 := (if decimal_exp <? mid_pow2 then decimal_exp else mid_pow2)%Z in
  let l := mul_pow5 (Z.to_nat (decimal_exp - min5)) value_digits in
  let l := shift_left (Z.to_N (decimal_exp - min2)) l in
  let r := mul_pow5 (Z.to_nat (0 - min5)) mid_int in
  let r := shift_left (Z.to_N (mid_pow2 - min2)) r in
  compare_big l r.

(** H 8364-8372: float_to_int_pow2 on the bit pattern of the float. *)
Definition float_to_int_pow2 (b : N) : list N * Z :=
  let ce := N.land (N.shiftr b 23) 0xff in
  let mant := N.land b 0x7fffff in
  if ce =? 0 then ([mant], (-149)%Z) else ([N.lor mant 0x800000], (Z.of_N ce - 150)%Z).

(** H 8384-8391: word-wise addition, [n] words of both. *)
Fixpoint add_big (n : nat) (c : N) (a b : list N) : list N :=
  match n with
  | O => if c =? 0 then [] else [u32 c]
  | S n' => let p := u64 (hd 0 a + hd 0 b + c) in
            u32 p :: add_big n' (N.shiftr p 32) (tl a) (tl b)
  end.

(** H 8374-8396: float_pair_midpoint. *)
Definition float_pair_midpoint (g1 g2 : N) : list N * Z :=
  let '(m1, e1) := float_to_int_pow2 g1 in
  let '(m2, e2) := float_to_int_pow2 g2 in
  let emin := (if e1 <? e2 then e1 else e2)%Z in
  let m1 := shift_left (Z.to_N (e1 - emin)) m1 in
  let m2 := shift_left (Z.to_N (e2 - emin)) m2 in
  (add_big (Nat.max (length m1) (length m2)) 0 m1 m2, (emin - 1)%Z).

(** H 8451-8468: the digits of the literal and the number of fraction digits.  Returns what is
    left of the text. *)
Fixpoint literal_digits (l : bytes) (seen_dot : bool) (digits : list N) (frac : Z)
  : list N * Z * bytes :=
  match l with
  | [] => (digits, frac, [])
  | c :: tl =>
    if Byte.eqb c x2e then
      if seen_dot then (digits, frac, l) else literal_digits tl true digits frac
    else if is_digit_char c then
      literal_digits tl seen_dot (add_small (byte_val c - 48) (mul_small 10 digits))
        (if seen_dot then frac + 1 else frac)%Z
    else (digits, frac, l)
  end.

(** H 8479-8483: exponent digits.  (No cap here: the int may overflow for exponents of more than
    nine digits; the function is only reached when the double is finite and not zero.) *)
Fixpoint literal_exponent (l : bytes) (ex : Z) : Z :=
  match l with
  | c :: tl => if is_digit_char c then literal_exponent tl (ex * 10 + Z.of_N (byte_val c - 48))%Z else ex
  | [] => ex
  end.

(** H 8444-8484: value digits and decimal exponent of the literal. *)
Definition read_literal (str : bytes) : list N * Z :=
  let l := skipn (scalar_count (fun c => negb (is_space c)) str) str in
  let l := match l with
           | c :: tl => if Byte.eqb c x2d || Byte.eqb c x2b then tl else l
           | [] => [] end in
  let '(digits, frac, rest) := literal_digits l false big_zero 0%Z in
  match rest with
  | c :: tl =>
    if Byte.eqb c x65 || Byte.eqb c x45 then
      match tl with
      | s :: tl' =>
        if Byte.eqb s x2d then (digits, (- frac - literal_exponent tl' 0)%Z)
        else if Byte.eqb s x2b then (digits, (- frac + literal_exponent tl' 0)%Z)
        else (digits, (- frac + literal_exponent tl 0)%Z)
      | [] => (digits, (- frac + 0)%Z)
      end
    else (digits, (- frac)%Z)
  | [] => (digits, (- frac)%Z)
  end.
