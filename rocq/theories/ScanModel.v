(** Model of the byte classification table and of the scanning helpers of the
    tokenizer, in their scalar and vectorised variants.  No proofs here.

    All scanners work on [rest], the bytes from cursor_index to the end of the
    buffer, and return counts relative to cursor_index, like the C++ code's
    [*chars_ahead]. *)
From Verif Require Import Base.
From Coq Require Import Strings.Byte.

(** Which scanners are compiled in (H 188-213: JSON_STRUCT_HAS_* macros).
    Avx2 implies Sse2; Sse42 is Sse2 with JSON_STRUCT_HAS_SSE4_2. *)
Inductive isa : Set := Scalar | Sse2 | Sse42 | Neon | Avx2.

(** H 391-424: lookup_table[256], transcribed row by row. *)
Definition lookup_table : list N :=
 [ (*0*)   4; 0; 0; 0; 0; 0; 0; 0;
   (*8*)   0; 4; 4; 0; 0; 4; 0; 0;
   (*16*)  0; 0; 0; 0; 0; 0; 0; 0;
   (*24*)  0; 0; 0; 0; 0; 0; 0; 0;
   (*32*)  4; 0; 1; 0; 0; 0; 0; 0;
   (*40*)  0; 0; 0; 72; 0; 104; 96; 32;
   (*48*)  80; 80; 80; 80; 80; 80; 80; 80;
   (*56*)  80; 80; 0; 0; 0; 0; 0; 0;
   (*64*)  0; 2; 2; 2; 2; 66; 2; 2;
   (*72*)  2; 2; 2; 2; 2; 2; 2; 2;
   (*80*)  2; 2; 2; 2; 2; 2; 2; 2;
   (*88*)  2; 2; 2; 0; 1; 0; 32; 32;
   (*96*)  32; 2; 2; 2; 2; 66; 2; 2;
   (*104*) 2; 2; 2; 2; 2; 2; 2; 2;
   (*112*) 2; 2; 2; 2; 2; 2; 2; 2;
   (*120*) 2; 2; 2; 0; 0; 0; 0; 0 ]%N.
   (* 128-255: all 0, given by the default of [nth] below *)

Definition lookup (c : byte) : N := nth (N.to_nat (byte_val c)) lookup_table 0%N.

(** H 379-388: enum Lookup. *)
Definition L_StrEndOrBackSlash := 1%N.
Definition L_AsciiLetters := 2%N.
Definition L_WhiteSpaceOrNull := 4%N.
Definition L_PlusOrMinus := 8%N.
Definition L_Digits := 16%N.
Definition L_HatUnderscoreAprostoph := 32%N.
Definition L_NumberEnd := 64%N.

Definition has (c : byte) (mask : N) : bool := negb (N.land (lookup c) mask =? 0)%N.

Definition c_quote : byte := x22.
Definition c_backslash : byte := x5c.
Definition c_slash : byte := x2f.
Definition c_nl : byte := x0a.
Definition c_comma : byte := x2c.
Definition c_colon : byte := x3a.
Definition c_lbrace : byte := x7b.
Definition c_rbrace : byte := x7d.
Definition c_lbracket : byte := x5b.
Definition c_rbracket : byte := x5d.
Definition c_nul : byte := x00.

(** Index of the first byte satisfying [p] (std::find_if), if any. *)
Fixpoint find_index (p : byte -> bool) (l : bytes) : option nat :=
  match l with
  | [] => None
  | c :: tl => if p c then Some 0
               else match find_index p tl with Some k => Some (S k) | None => None end
  end.

(** The common shape of the vector loops: while at least [w] bytes are left, look
    for a lane satisfying [p]; stop at the first such lane, otherwise advance by
    [w].  Returns the number of bytes advanced and whether a lane stopped it.
    (SSE2/NEON: w = 16, AVX2: w = 32.)  [fuel] bounds the number of rounds. *)
Fixpoint lane_scan (fuel w : nat) (p : byte -> bool) (rest : bytes) : nat * bool :=
  match fuel with
  | O => (0, false)
  | S f =>
    if w <=? length rest then
      match find_index p (firstn w rest) with
      | Some k => (k, true)
      | None => let '(n, b) := lane_scan f w p (skipn w rest) in (w + n, b)
      end
    else (0, false)
  end.

(** Scalar tail loops: number of bytes up to (not including) the first one
    satisfying [p], or all of them. *)
Fixpoint scalar_count (p : byte -> bool) (rest : bytes) : nat :=
  match rest with
  | [] => 0
  | c :: tl => if p c then 0 else S (scalar_count p tl)
  end.

(** Vector loop that returns at the stopping lane, followed by a scalar tail
    (findNumberEndNEON H 600-673, skipWhitespace* H 675-738 1006-1053 1057-1103,
    findAsciiEnd* H 740-837 892-971). *)
Definition simd_count (w : nat) (p : byte -> bool) (rest : bytes) : nat :=
  let '(n, hit) := lane_scan (S (length rest)) w p rest in
  if hit then n else n + scalar_count p (skipn n rest).

(** Vector loop that breaks into the scalar tail at the stopping lane
    (findNumberEndSIMD with SSE4.2, H 493-527). The scalar tail's predicate is
    [q]. *)
Definition simd_count_break (w : nat) (p q : byte -> bool) (rest : bytes) : nat :=
  let '(n, _) := lane_scan (S (length rest)) w p rest in
  n + scalar_count q (skipn n rest).

(** ** Strings *)

(** H 1974-2007: scalar part of findStringEnd.  Returns chars_ahead when the closing quote is
    found and the resulting is_escaped. *)
Fixpoint str_scan (esc : bool) (rest : bytes) (n : nat) : option nat * bool :=
  match rest with
  | [] => (None, esc)
  | c :: tl =>
    if esc then str_scan false tl (S n)
    else if (lookup c =? L_StrEndOrBackSlash)%N then
      if Byte.eqb c c_backslash then str_scan true tl (S n)
      else if Byte.eqb c c_quote then (Some (S n), false)
      else str_scan false tl (S n)
    else str_scan false tl (S n)
  end.

(** H 468-488 (and 573-595, 1164-1186): byte-by-byte part of findStringEnd{SIMD,NEON,AVX2}.
    Returns the consumed count relative to the start of the scan and is_escaped. *)
Fixpoint str_bytes (esc : bool) (rest : bytes) (n : nat) : nat * bool :=
  match rest with
  | [] => (n, esc)
  | c :: tl =>
    if esc then str_bytes false tl (S n)
    else if Byte.eqb c c_backslash then str_bytes true tl (S n)
    else if Byte.eqb c c_quote then (S n, false)
    else str_bytes false tl (S n)
  end.

Definition is_str_special (c : byte) : bool := Byte.eqb c c_quote || Byte.eqb c c_backslash.

(** H 443-491, 532-598, 1138-1187: findStringEndSIMD / NEON / AVX2. *)
Definition findStringEnd_vec (w : nat) (esc : bool) (rest : bytes) : nat * bool :=
  let '(n, _) := lane_scan (S (length rest)) w is_str_special rest in
  str_bytes esc (skipn n rest) n.

(** Lane width of the string and whitespace scanners per build (H 1932-1966, 2138-2155). *)
Definition str_width (i : isa) : option nat :=
  match i with Scalar => None | Sse2 | Sse42 | Neon => Some 16 | Avx2 => Some 32 end.

(** H 1923-2008: Tokenizer::findStringEnd.  [None] stands for NeedMoreData. *)
Definition findStringEnd (i : isa) (esc : bool) (rest : bytes) : option nat * bool :=
  match str_width i with
  | Some w =>
    if w <=? length rest then
      let '(consumed, esc') := findStringEnd_vec w esc rest in
      if consumed <? length rest then (Some consumed, esc')
      else str_scan esc rest 0
    else str_scan esc rest 0
  | None => str_scan esc rest 0
  end.

(** ** Words *)

(** Character set of the vectorised word scanners and their scalar tails
    (H 762-800, 826-831, 915-946, 959-964): letters, digits, _ ^ ` / . - *)
Definition vec_ascii_char (c : byte) : bool :=
  in_range 65 90 c || in_range 97 122 c || in_range 48 57 c
  || Byte.eqb c x5f || Byte.eqb c x5e || Byte.eqb c x60 || Byte.eqb c x2f || Byte.eqb c x2e
  || Byte.eqb c x2d.

Inductive ascii_end : Set := AsciiFound (n : nat) | AsciiNeedMore.

(** H 2048-2082: scalar loop of findAsciiEnd, started [n] bytes past cursor_index. *)
Fixpoint ascii_scan (rest : bytes) (n : nat) : ascii_end :=
  match rest with
  | [] => AsciiNeedMore
  | c :: tl =>
    if negb (N.land (lookup c)
               (N.lor L_AsciiLetters (N.lor L_Digits L_HatUnderscoreAprostoph)) =? 0)%N
    then ascii_scan tl (S n)
    else if in_range 65 90 c || in_range 94 122 c || in_range 48 57 c then ascii_scan tl (S n)
    else if Byte.eqb c c_nul then AsciiNeedMore
    else AsciiFound n
  end.

(** H 2010-2083: Tokenizer::findAsciiEnd (AVX2 builds use the SSE2 word scanner). *)
Definition findAsciiEnd (i : isa) (rest : bytes) : ascii_end :=
  match i with
  | Scalar => ascii_scan rest 0
  | _ =>
    if 16 <=? length rest then
      let consumed := simd_count 16 (fun c => negb (vec_ascii_char c)) rest in
      if consumed <? length rest then
        match nth_error rest consumed with
        | Some c => if Byte.eqb c c_nul then AsciiNeedMore else AsciiFound consumed
        | None => AsciiNeedMore
        end
      else ascii_scan (skipn consumed rest) consumed
    else ascii_scan rest 0
  end.

(** ** Numbers *)

(** H 516-522, 616-636, 662-668: characters accepted by the vectorised number scanners. *)
Definition vec_number_char (c : byte) : bool :=
  in_range 48 57 c || Byte.eqb c x2e || Byte.eqb c x65 || Byte.eqb c x45
  || Byte.eqb c x2b || Byte.eqb c x2d.

(** H 2110-2127: scalar findNumberEnd; [None] is NeedMoreData. *)
Definition number_scan (rest : bytes) : option nat :=
  find_index (fun c => negb (has c L_NumberEnd)) rest.

(** Consumed count of findNumberEndSIMD / NEON.  The SSE4.2 loop uses _mm_cmpistri with an
    implicit length: lanes from a NUL byte on count as not matching, so the first
    non-matching lane is the first byte that is no number character or NUL. *)
Definition number_vec (i : isa) (rest : bytes) : nat :=
  match i with
  | Scalar => 0
  | Sse2 => scalar_count (fun c => negb (vec_number_char c)) rest
  | Sse42 | Avx2 =>
      simd_count_break 16 (fun c => negb (vec_number_char c) || Byte.eqb c c_nul)
        (fun c => negb (vec_number_char c)) rest
  | Neon => simd_count 16 (fun c => negb (vec_number_char c)) rest
  end.

(** H 2085-2128: Tokenizer::findNumberEnd.  [None] is NeedMoreData. *)
Definition findNumberEnd (i : isa) (rest : bytes) : option nat :=
  match i with
  | Scalar => number_scan rest
  | _ =>
    if 16 <=? length rest then
      let consumed := number_vec i rest in
      if (0 <? consumed) && (consumed <? length rest) then Some consumed
      else number_scan rest
    else number_scan rest
  end.

(** ** Whitespace *)

Definition vec_ws_char (c : byte) : bool :=
  Byte.eqb c x20 || Byte.eqb c x09 || Byte.eqb c x0a || Byte.eqb c x0d.

(** H 2138-2155: number of bytes skipped by the vectorised whitespace pre-scan. *)
Definition ws_skip (i : isa) (rest : bytes) : nat :=
  match str_width i with
  | Some w => if w <=? length rest then simd_count w (fun c => negb (vec_ws_char c)) rest else 0
  | None => 0
  end.

(** ** Comments *)

(** H 2427-2472: Tokenizer::skipComment on the bytes after the two slashes.
    [None] is NeedMoreData.  (AVX2 builds use the SSE2 comment scanner.) *)
Definition comment_scalar (allow_nl : bool) (rest : bytes) : option nat :=
  match find_index (fun c => Byte.eqb c c_nl) rest with
  | Some k => Some (if allow_nl then k else S k)
  | None => None
  end.

(** skipCommentSIMD / NEON (H 839-887, 973-1004): position after the newline, or the length. *)
Definition comment_vec (rest : bytes) : nat :=
  let '(n, hit) := lane_scan (S (length rest)) 16 (fun c => Byte.eqb c c_nl) rest in
  if hit then S n
  else
    let tail := skipn n rest in
    let m := scalar_count (fun c => Byte.eqb c c_nl) tail in
    if m <? length tail then S (n + m) else n + m.

Definition skipComment (i : isa) (allow_nl : bool) (rest : bytes) : option nat :=
  match i with
  | Scalar => comment_scalar allow_nl rest
  | _ =>
    if (16 <=? length rest) && negb allow_nl then
      let consumed := comment_vec rest in
      if (0 <? consumed) && (consumed <=? length rest) &&
         match nth_error rest (consumed - 1) with
         | Some c => Byte.eqb c c_nl
         | None => false
         end
      then Some consumed
      else comment_scalar allow_nl rest
    else comment_scalar allow_nl rest
  end.
