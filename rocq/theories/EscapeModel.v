(** Model of the string escape functions (H 5836-6088).  No proofs here.

    Simplification: the second surrogate's digit array (H 5909-5922) is read uninitialised in the
    C++ text when one of its digits is bad; the value read is discarded, so the model ignores it. *)
From Verif Require Import Base ScanModel.

(** [static_cast<char>(n)]. *)
Definition char_of (n : N) : byte :=
  match Byte.of_N (n mod 256) with Some b => b | None => x00 end.

(** H 5837-5852: push_back_escape. *)
Definition push_back_escape (c : byte) : bytes :=
  match find_index (Byte.eqb c) [x62; x66; x6e; x72; x74; x22; x5c; x2f] with
  | Some k => [nth k [x08; x0c; x0a; x0d; x09; x22; x5c; x2f] x00]
  | None => [c_backslash; c]
  end.

(** H 5887-5895 (and 5913-5921): one hex digit.  The comparisons are on [char]; on platforms with
    signed char the bytes from 128 on are negative, on others too large: no digit either way. *)
Definition hex_digit (d : byte) : option N :=
  if in_range 48 57 d then Some (byte_val d - 48)%N
  else if in_range 65 70 d then Some (byte_val d - 65 + 10)%N
  else if in_range 97 102 d then Some (byte_val d - 97 + 10)%N
  else None.

(** Four digits combined by shifts (H 5899-5900, 5923-5924). *)
Definition hex4 (l : bytes) : option N :=
  match l with
  | a :: b :: c :: d :: _ =>
    match hex_digit a, hex_digit b, hex_digit c, hex_digit d with
    | Some a, Some b, Some c, Some d =>
      Some (N.lor (N.shiftl a 12) (N.lor (N.shiftl b 8) (N.lor (N.shiftl c 4) d)))
    | _, _, _, _ => None
    end
  | _ => None
  end.

(** H 5932-5957: the UTF-8 bytes pushed for a code point. *)
Definition push_code_point (cp : N) : bytes :=
  (if 0x10000 <=? cp then
     [ char_of (N.lor 0xf0 (N.shiftr cp 18));
       char_of (N.lor 0x80 (N.land (N.shiftr cp 12) 0x3f));
       char_of (N.lor 0x80 (N.land (N.shiftr cp 6) 0x3f));
       char_of (N.lor 0x80 (N.land cp 0x3f)) ]
   else if 0x0800 <=? cp then
     [ char_of (N.lor 0xe0 (N.shiftr cp 12));
       char_of (N.lor 0x80 (N.land (N.shiftr cp 6) 0x3f));
       char_of (N.lor 0x80 (N.land cp 0x3f)) ]
   else if 0x0080 <=? cp then
     [ char_of (N.lor 0xc0 (N.shiftr cp 6));
       char_of (N.lor 0x80 (N.land cp 0x3f)) ]
   else [ char_of cp ])%N.

(** H 5907-5930: surrogate handling.  [tl] is what follows the four digits of [cp].  Returns the
    code point and the number of bytes used up after those digits (0 or 6). *)
Definition combine_surrogates (cp : N) (tl : bytes) : N * nat :=
  if ((0xD800 <=? cp) && (cp <=? 0xDBFF))%N then
    match tl with
    | x :: y :: lo =>
      if (6 <=? length tl) && Byte.eqb x c_backslash && Byte.eqb y x75 then
        match hex4 lo with
        | Some l =>
          if ((0xDC00 <=? l) && (l <=? 0xDFFF))%N
          then ((0x10000 + N.shiftl (cp - 0xD800) 10 + (l - 0xDC00))%N, 6)
          else (cp, 0)
        | None => (cp, 0)
        end
      else (cp, 0)
    | _ => (cp, 0)
    end
  else (cp, 0).

(** H 5854-5977: handle_json_escapes_in, the text appended to [to_type].  [l] is the part of the
    reference from [it] on; each round of the loop consumes at least one byte of fuel. *)
Fixpoint escapes_in_loop (fuel : nat) (l : bytes) : bytes :=
  match fuel with
  | O => []
  | S f =>
    match find_index (Byte.eqb c_backslash) l with
    | None => l
    | Some k =>
      firstn k l ++
      match skipn (S k) l with
      | [] => []                              (* a lone trailing backslash: dropped *)
      | c :: tl =>
        if Byte.eqb c x75 then
          match hex4 tl with
          | Some cp =>
            let '(cp', n) := combine_surrogates cp (skipn 4 tl) in
            push_code_point cp' ++ escapes_in_loop f (skipn (4 + n) tl)
          | None => c_backslash :: c :: escapes_in_loop f tl
          end
        else push_back_escape c ++ escapes_in_loop f tl
      end
    end
  end.
Definition escapes_in (l : bytes) : bytes := escapes_in_loop (S (length l)) l.

(** H 5982-6028: which bytes stop findFirstEscapeOut. *)
Definition escape_stop (c : byte) : bool :=
  (byte_val c <=? 13)%N || Byte.eqb c c_quote || Byte.eqb c c_backslash.

(** H 5982-6028: findFirstEscapeOut.  SSE2 and AVX2 builds scan 16 and 32 bytes at a time (the
    vector test [min(chunk, 0x0d) == chunk] is [chunk <= 0x0d] unsigned); others byte by byte. *)
Definition findFirstEscapeOut (i : isa) (l : bytes) : nat :=
  match i with
  | Avx2 => simd_count 32 escape_stop l
  | Sse2 | Sse42 => simd_count 16 escape_stop l
  | Scalar | Neon => scalar_count escape_stop l
  end.

(** H 6051-6077: the switch. *)
Definition escape_out_char (c : byte) : bytes :=
  if Byte.eqb c x08 then [x5c; x62]
  else if Byte.eqb c x09 then [x5c; x74]
  else if Byte.eqb c x0a then [x5c; x6e]
  else if Byte.eqb c x0c then [x5c; x66]
  else if Byte.eqb c x0d then [x5c; x72]
  else if Byte.eqb c c_quote then [x5c; x22]
  else if Byte.eqb c c_backslash then [x5c; x5c]
  else [c].

(** H 6029-6089: handle_json_escapes_out.  At the head of the loop [start_index = i]; [l] is the
    text from there on.  Returns the final [buffer] and the text from [start_index] on. *)
Fixpoint escapes_out_loop (fuel : nat) (i : isa) (l buffer : bytes) : bytes * bytes :=
  match fuel with
  | O => (buffer, l)
  | S f =>
    let k := findFirstEscapeOut i l in
    match skipn k l with
    | [] => (buffer, l)
    | c :: tl => escapes_out_loop f i tl (buffer ++ firstn k l ++ escape_out_char c)
    end
  end.
(** The bytes of the DataRef returned: [buffer] if anything was put there, else the data itself. *)
Definition escapes_out (i : isa) (data : bytes) : bytes :=
  let '(buffer, rest) := escapes_out_loop (S (length data)) i data [] in
  match buffer with [] => data | _ => buffer ++ rest end.
