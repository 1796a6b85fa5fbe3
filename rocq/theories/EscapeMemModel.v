(** handle_json_escapes_in (H 5854-5977) with its pointers, sizes and digit arrays.  No proofs here.

    Where EscapeModel.v says what is appended, this model says which bytes and which digits are read.  The
    appending itself (std::string) is not modelled further. *)
From Verif Require Import Base ScanModel HandlerModel EscapeModel.

(** How a run ends: normally, with a read outside of the string or a size below zero, with the use of a digit
    that was never stored, or not within the given number of rounds. *)
Inductive mres (A : Type) : Type := Fine (a : A) | Outside | Unset | Endless.
Arguments Fine {A} a.
Arguments Outside {A}.
Arguments Unset {A}.
Arguments Endless {A}.
Definition mbind {A B} (x : mres A) (k : A -> mres B) : mres B :=
  match x with Fine a => k a | Outside => Outside | Unset => Unset | Endless => Endless end.
Notation "'do' x '<-' a ';' b" := (mbind a (fun x => b)) (at level 200, x name, a at level 100, b at level 200).

(** *(ref.data + p). *)
Definition char_at (text : bytes) (p : nat) : mres byte :=
  match nth_error text p with Some b => Fine b | None => Outside end.

(** size -= n, a size_t. *)
Definition less (size n : nat) : mres nat := if n <=? size then Fine (size - n) else Outside.

(** H 5884, 5911: unsigned char hex[4]; *)
Definition no_digits : list (option N) := [None; None; None; None].

(** H 5885-5896, 5913-5924: the loops; [n] rounds are left, [k] is the index.  False when a character is no digit. *)
Fixpoint read_digits (text : bytes) (base n k : nat) (arr : list (option N)) : mres (list (option N) * bool) :=
  match n with
  | O => Fine (arr, true)
  | S n =>
    do d <- char_at text (base + k);
    match hex_digit d with
    | Some v => read_digits text base n (S k) (put k (Some v) arr)
    | None => Fine (arr, false)
    end
  end.

(** H 5899-5900, 5925-5926: the four digits shifted together.  All four are used. *)
Definition digits_value (arr : list (option N)) : mres N :=
  match arr with
  | [Some a; Some b; Some c; Some d] => Fine (N.lor (N.shiftl a 12) (N.lor (N.shiftl b 8) (N.lor (N.shiftl c 4) d)))
  | _ => Unset
  end.

(** H 5901-5932: the code point and hex_consumed. *)
Definition second_half (text : bytes) (next_it size : nat) (cp : N) : mres (N * nat) :=
  if ((0xD800 <=? cp) && (cp <=? 0xDBFF))%N && (10 <=? size) then
    do x <- char_at text (next_it + 6);
    if Byte.eqb x c_backslash then
      do y <- char_at text (next_it + 7);
      if Byte.eqb y x75 then
        do r <- read_digits text (next_it + 8) 4 0 no_digits;
        do lo <- digits_value (fst r);
        if snd r && ((0xDC00 <=? lo) && (lo <=? 0xDFFF))%N
        then Fine ((0x10000 + N.shiftl (cp - 0xD800) 10 + (lo - 0xDC00))%N, 10)
        else Fine (cp, 4)
      else Fine (cp, 4)
    else Fine (cp, 4)
  else Fine (cp, 4).

(** H 5857-5976: the loop.  memchr looks at [size] bytes from [it] on. *)
Fixpoint in_loop (fuel : nat) (text : bytes) (it size : nat) (out : bytes) : mres bytes :=
  match fuel with
  | O => Endless
  | S f =>
    if size =? 0 then Fine out
    else if length text <? it + size then Outside
    else
      match find_index (Byte.eqb c_backslash) (firstn size (skipn it text)) with
      | None => Fine (out ++ firstn size (skipn it text))
      | Some k =>
        let next_it := it + k in
        let out := out ++ firstn k (skipn it text) in
        do size <- less size k;
        if size <? 2 then Fine out
        else
          do size <- less size 2;
          do c <- char_at text (next_it + 1);
          if Byte.eqb c x75 then
            do r <- (if 4 <=? size then read_digits text (next_it + 2) 4 0 no_digits else Fine (no_digits, false));
            if snd r then
              do cp <- digits_value (fst r);
              do p <- second_half text next_it size cp;
              do size <- less size (snd p);
              in_loop f text (next_it + 2 + snd p) size (out ++ push_code_point (fst p))
            else in_loop f text (next_it + 2) size (out ++ [c_backslash; c])
          else in_loop f text (next_it + 2) size (out ++ push_back_escape c)
      end
  end.
Definition unescape (text : bytes) : mres bytes := in_loop (S (length text)) text 0 (length text) [].
