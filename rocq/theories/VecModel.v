(** Model of the vectorised scanners at the level of the instructions they use:
    registers are lists of lanes, and every intrinsic is a function on registers.
    ScanModel.v describes the same scanners lane by lane; VecProofs.v shows that the two
    agree.  No proofs here.

    A load outside the data is [UB], and so is counting the trailing zeros of 0.
    Simplified: pointers are counts relative to [data] ([current + 16 <= end] is a
    comparison of counts, not of pointers that may lie past the end). *)
From Verif Require Import Base ScanModel.
Open Scope N_scope.

(** ** Registers and intrinsics

    A register of w lanes of 8 bits, lane 0 first; a lane holds a number below 256. *)
Definition reg := list N.

(** _mm_loadu_si128, _mm256_loadu_si256, vld1q_u8 at the start of [rest]. *)
Definition vload (w : nat) (rest : bytes) : outcome reg :=
  if (w <=? length rest)%nat then Ok (map byte_val (firstn w rest)) else UB.

(** _mm_set1_epi8, _mm256_set1_epi8, vdupq_n_u8. *)
Definition vset1 (w : nat) (c : byte) : reg := repeat (byte_val c) w.

Fixpoint vmap2 (f : N -> N -> N) (a b : reg) : reg :=
  match a, b with
  | x :: a', y :: b' => f x y :: vmap2 f a' b'
  | _, _ => []
  end.

(** _mm_cmpeq_epi8, _mm256_cmpeq_epi8, vceqq_u8: all ones where equal. *)
Definition vcmpeq := vmap2 (fun x y => if x =? y then 255 else 0).
(** vcgeq_u8, vcleq_u8. *)
Definition vcge := vmap2 (fun x y => if y <=? x then 255 else 0).
Definition vcle := vmap2 (fun x y => if x <=? y then 255 else 0).
(** _mm_max_epu8, _mm_min_epu8 and their 256 bit forms. *)
Definition vmax := vmap2 N.max.
Definition vmin := vmap2 N.min.
(** _mm_or_si128, _mm256_or_si256, vorrq_u8; _mm_and_si128, _mm256_and_si256, vandq_u8. *)
Definition vor := vmap2 N.lor.
Definition vand := vmap2 N.land.
(** vmvnq_u8: complement of every lane. *)
Definition vmvn (a : reg) : reg := map (fun x => N.lxor x 255) a.

(** The bits collected by _mm_movemask_epi8 and _mm256_movemask_epi8: bit i is the sign
    bit of lane i. *)
Fixpoint mask_bits (a : reg) : N :=
  match a with
  | [] => 0
  | x :: tl => N.b2n (N.testbit x 7) + 2 * mask_bits tl
  end.

(** A number of [b] bits stored in an int of 32 bits. *)
Definition to_int32 (n : N) : Z :=
  let z := Z.of_N (n mod 2 ^ 32) in
  if (z <? 2 ^ 31)%Z then z else (z - 2 ^ 32)%Z.

(** _mm_movemask_epi8 (16 bits in an int: never negative), _mm256_movemask_epi8 (32 bits). *)
Definition movemask (a : reg) : Z := to_int32 (mask_bits a).

(** Conversion from int to unsigned int. *)
Definition to_uint32 (z : Z) : N := Z.to_N (z mod 2 ^ 32)%Z.

(** H 432-441: bit_scan_forward, __builtin_ctz; 0 is undefined behaviour. *)
Fixpoint ctz_pos (p : positive) : nat :=
  match p with
  | xO q => S (ctz_pos q)
  | _ => O
  end.
Definition bit_scan_forward (mask : N) : outcome nat :=
  match mask with
  | 0 => UB
  | Npos p => Ok (ctz_pos p)
  end.

(** _mm_cmpistri(set, chunk, _SIDD_CMP_EQUAL_ANY | _SIDD_NEGATIVE_POLARITY) with unsigned
    bytes: both operands end at their first zero byte; bit j of the first result is set when
    lane j of [chunk] lies before its end and equals a lane of [set] before its end; all 16
    bits are then inverted, and the index of the lowest set bit, or 16, is returned. *)
Fixpoint valid_lanes (a : reg) : reg :=
  match a with
  | [] => []
  | x :: tl => if x =? 0 then [] else x :: valid_lanes tl
  end.
Fixpoint res1 (set chunk : reg) (ended : bool) : list bool :=
  match chunk with
  | [] => []
  | x :: tl =>
    let e := ended || (x =? 0) in
    (negb e && existsb (N.eqb x) (valid_lanes set)) :: res1 set tl e
  end.
Fixpoint lowest_set (bits : list bool) : nat :=
  match bits with
  | [] => O
  | b :: tl => if b then O else S (lowest_set tl)
  end.
Definition cmpistri_any_neg (set chunk : reg) : nat :=
  lowest_set (map negb (res1 set chunk false)).

(** vreinterpretq_u64_u8 / vreinterpretq_u32_u8 on a little endian machine: [k] lanes make
    one number, the first lane lowest. *)
Fixpoint le_word (a : reg) : N :=
  match a with
  | [] => 0
  | x :: tl => x + 256 * le_word tl
  end.
Fixpoint le_words (n k : nat) (a : reg) : list N :=
  match n with
  | O => []
  | S n' => le_word (firstn k a) :: le_words n' k (skipn k a)
  end.
Definition as_u64 (a : reg) : list N := le_words 2 8 a.
Definition as_u32 (a : reg) : list N := le_words 4 4 a.

(** ** One round of a vector loop

    [None]: go on with the next chunk; [Some k]: stop [k] bytes further. *)

(** H 459-465, 983-991, 1113-1121, 1154-1160: stop at the first lane whose sign bit is set. *)
Definition stop_at_set (m : reg) : outcome (option nat) :=
  let mask := movemask m in
  if negb (mask =? 0)%Z then
    let* k := bit_scan_forward (to_uint32 mask) in Ok (Some k)
  else Ok None.

(** H 947-955, 1033-1041: stop at the first of 16 lanes whose sign bit is not set. *)
Definition stop_at_clear16 (m : reg) : outcome (option nat) :=
  let mask := movemask m in
  if negb (mask =? 65535)%Z then
    let* k := bit_scan_forward (to_uint32 (Z.land (Z.lnot mask) 65535)) in Ok (Some k)
  else Ok None.

(** H 1081-1088, 1247-1254: the same for 32 lanes; int(0xFFFFFFFF) is -1. *)
Definition stop_at_clear32 (m : reg) : outcome (option nat) :=
  let mask := movemask m in
  if negb (mask =? to_int32 4294967295)%Z then
    let* k := bit_scan_forward (to_uint32 (Z.lnot mask)) in Ok (Some k)
  else Ok None.

(** H 646-656 (also 550-566, 714-729, 810-822, 856-867): the two nested loops over the words
    stored by vst1q_u32. *)
Fixpoint neon_bytes (word : N) (j n : nat) : option nat :=
  match n with
  | O => None
  | S n' =>
    if negb (N.land (N.shiftr word (N.of_nat (j * 8))) 255 =? 0) then Some j
    else neon_bytes word (S j) n'
  end.
Fixpoint neon_words (words : list N) (i : nat) : option nat :=
  match words with
  | [] => None
  | word :: tl =>
    if negb (word =? 0) then
      match neon_bytes word 0 4 with
      | Some j => Some (i * 4 + j)%nat
      | None => neon_words tl (S i)
      end
    else neon_words tl (S i)
  end.

(** H 546-568, 635-658, 708-731, 804-824, 849-869: stop at the first lane that is not 0. *)
Definition neon_stop (m : reg) : outcome (option nat) :=
  let u := as_u64 m in
  let scalar := N.lor (nth 0 u 0) (nth 1 u 0) in
  if negb (scalar =? 0) then Ok (neon_words (as_u32 m) 0) else Ok None.

(** ** The conditions on a chunk *)

(** H 455-457, 541-543, 1149-1151: the quote and the backslash. *)
Definition string_mask (w : nat) (chunk : reg) : reg :=
  let quote_mask := vcmpeq chunk (vset1 w x22) in
  let backslash_mask := vcmpeq chunk (vset1 w x5c) in
  vor quote_mask backslash_mask.

(** H 1019-1028, 698-705, 1067-1076. *)
Definition whitespace_mask (w : nat) (chunk : reg) : reg :=
  let is_space := vcmpeq chunk (vset1 w x20) in
  let is_tab := vcmpeq chunk (vset1 w x09) in
  let is_newline := vcmpeq chunk (vset1 w x0a) in
  let is_carriage := vcmpeq chunk (vset1 w x0d) in
  let whitespace := vor is_space is_tab in
  let whitespace := vor whitespace is_newline in
  vor whitespace is_carriage.

(** H 979-980, 847, 1110-1111. *)
Definition newline_mask (w : nat) (chunk : reg) : reg := vcmpeq chunk (vset1 w x0a).

(** Comparison with a range: x86 has only signed byte comparisons, so the code compares
    max(chunk, lo) and min(chunk, hi) with chunk (H 915-927, 1215-1227); NEON compares directly
    (H 615-617, 762-774). *)
Definition range_x86 (w : nat) (lo hi : byte) (chunk : reg) : reg :=
  let ge := vcmpeq (vmax chunk (vset1 w lo)) chunk in
  let le := vcmpeq (vmin chunk (vset1 w hi)) chunk in
  vand ge le.
Definition range_neon (lo hi : byte) (chunk : reg) : reg :=
  let ge := vcge chunk (vset1 16 lo) in
  let le := vcle chunk (vset1 16 hi) in
  vand ge le.

(** H 913-945, 1213-1245 (x86), 760-795 (NEON): letters, digits, _ ^ ` / . - *)
Definition ascii_mask (w : nat) (range : byte -> byte -> reg -> reg) (chunk : reg) : reg :=
  let is_upper := range x41 x5a chunk in
  let is_lower := range x61 x7a chunk in
  let is_digit := range x30 x39 chunk in
  let is_underscore := vcmpeq chunk (vset1 w x5f) in
  let is_caret := vcmpeq chunk (vset1 w x5e) in
  let is_apostrophe := vcmpeq chunk (vset1 w x60) in
  let is_slash := vcmpeq chunk (vset1 w x2f) in
  let is_dot := vcmpeq chunk (vset1 w x2e) in
  let is_hyphen := vcmpeq chunk (vset1 w x2d) in
  let valid_chars := vor is_upper is_lower in
  let valid_chars := vor valid_chars is_digit in
  let valid_chars := vor valid_chars is_underscore in
  let valid_chars := vor valid_chars is_caret in
  let valid_chars := vor valid_chars is_apostrophe in
  let valid_chars := vor valid_chars is_slash in
  let valid_chars := vor valid_chars is_dot in
  vor valid_chars is_hyphen.

(** H 615-631: the characters of a number, NEON. *)
Definition number_mask_neon (chunk : reg) : reg :=
  let digits := range_neon x30 x39 chunk in
  let is_dot := vcmpeq chunk (vset1 16 x2e) in
  let is_plus := vcmpeq chunk (vset1 16 x2b) in
  let is_minus := vcmpeq chunk (vset1 16 x2d) in
  let is_e_lower := vcmpeq chunk (vset1 16 x65) in
  let is_e_upper := vcmpeq chunk (vset1 16 x45) in
  let valid_chars := vor digits is_dot in
  let valid_chars := vor valid_chars is_plus in
  let valid_chars := vor valid_chars is_minus in
  let valid_chars := vor valid_chars is_e_lower in
  vor valid_chars is_e_upper.

(** H 499-500: _mm_setr_epi8 of the number characters, the last lane 0. *)
Definition number_chars : reg :=
  map byte_val [x30; x31; x32; x33; x34; x35; x36; x37; x38; x39; x2e; x65; x45; x2b; x2d; x00].

(** ** The loops *)

(** The vector loop of every scanner: [while (current + w <= end)], load a chunk, look for a
    place to stop, otherwise advance by [w].  Gives the count reached and whether the loop was
    left at a found place. *)
Fixpoint vloop (fuel w : nat) (round : reg -> outcome (option nat)) (rest : bytes)
  : outcome (nat * bool) :=
  match fuel with
  | O => OutOfFuel
  | S f =>
    if (w <=? length rest)%nat then
      let* chunk := vload w rest in
      let* r := round chunk in
      match r with
      | Some k => Ok (k, true)
      | None => let* (n, hit) := vloop f w round (skipn w rest) in Ok ((w + n)%nat, hit)
      end
    else Ok (O, false)
  end.

(** The value of a [char], which is signed on x86 and unsigned on ARM. *)
Definition char_val (sgn : bool) (c : byte) : Z :=
  let v := Z.of_N (byte_val c) in
  if sgn && (128 <=? v)%Z then (v - 256)%Z else v.
Definition ch_between (sgn : bool) (lo hi c : byte) : bool :=
  ((char_val sgn lo <=? char_val sgn c) && (char_val sgn c <=? char_val sgn hi))%Z.
Definition ch_is (sgn : bool) (a c : byte) : bool := (char_val sgn c =? char_val sgn a)%Z.

(** H 516-524, 661-669: condition of the byte loop of the number scanners. *)
Definition tail_number (sgn : bool) (c : byte) : bool :=
  negb (ch_between sgn x30 x39 c || ch_is sgn x2e c || ch_is sgn x65 c || ch_is sgn x45 c
        || ch_is sgn x2b c || ch_is sgn x2d c).
(** H 733-735, 1045-1047, 1095-1097. *)
Definition tail_space (sgn : bool) (c : byte) : bool :=
  negb (ch_is sgn x20 c) && negb (ch_is sgn x09 c) && negb (ch_is sgn x0a c)
  && negb (ch_is sgn x0d c).
(** H 828-830, 961-963, 1261-1263. *)
Definition tail_ascii (sgn : bool) (c : byte) : bool :=
  negb (ch_between sgn x41 x5a c || ch_between sgn x61 x7a c || ch_between sgn x30 x39 c
        || ch_is sgn x5f c || ch_is sgn x5e c || ch_is sgn x60 c || ch_is sgn x2f c
        || ch_is sgn x2e c || ch_is sgn x2d c).

(** The byte loops: the number of bytes before the first one that satisfies [p]. *)
Fixpoint tail_loop (p : byte -> bool) (rest : bytes) : nat :=
  match rest with
  | [] => O
  | c :: tl => if p c then O else S (tail_loop p tl)
  end.

(** H 871-880, 993-1000, 1123-1132: the byte loop of the comment scanners; [n] bytes lie before. *)
Fixpoint tail_comment (sgn : bool) (rest : bytes) (n : nat) : nat :=
  match rest with
  | [] => n
  | c :: tl => if ch_is sgn x0a c then S n else tail_comment sgn tl (S n)
  end.

(** H 469-490, 573-597, 1164-1186: the byte loop of the string scanners; [n] bytes lie before. *)
Fixpoint tail_string (sgn esc : bool) (rest : bytes) (n : nat) : nat * bool :=
  match rest with
  | [] => (n, esc)
  | c :: tl =>
    if esc then tail_string sgn false tl (S n)
    else if ch_is sgn x5c c then tail_string sgn true tl (S n)
    else if ch_is sgn x22 c then (S n, esc)
    else tail_string sgn esc tl (S n)
  end.

(** A scanner that returns where the vector loop stops. *)
Definition scan_return (w : nat) (round : reg -> outcome (option nat)) (p : byte -> bool)
    (data : bytes) : outcome nat :=
  let* (n, hit) := vloop (S (length data)) w round data in
  Ok (if hit then n else (n + tail_loop p (skipn n data))%nat).

(** A comment scanner: the place after the newline. *)
Definition scan_comment (w : nat) (round : reg -> outcome (option nat)) (sgn : bool)
    (data : bytes) : outcome nat :=
  let* (n, hit) := vloop (S (length data)) w round data in
  Ok (if hit then S n else tail_comment sgn (skipn n data) n).

(** A string scanner: the byte loop starts where the vector loop stops. *)
Definition scan_string (w : nat) (round : reg -> outcome (option nat)) (sgn esc : bool)
    (data : bytes) : outcome (nat * bool) :=
  let* (n, _) := vloop (S (length data)) w round data in
  Ok (tail_string sgn esc (skipn n data) n).

(** ** The scanners *)

(** H 443-491. *)
Definition findStringEndSIMD (sgn : bool) (data : bytes) (is_escaped : bool) :=
  scan_string 16 (fun chunk => stop_at_set (string_mask 16 chunk)) sgn is_escaped data.
(** H 532-598. *)
Definition findStringEndNEON (sgn : bool) (data : bytes) (is_escaped : bool) :=
  scan_string 16 (fun chunk => neon_stop (string_mask 16 chunk)) sgn is_escaped data.
(** H 1138-1187. *)
Definition findStringEndAVX2 (sgn : bool) (data : bytes) (is_escaped : bool) :=
  scan_string 32 (fun chunk => stop_at_set (string_mask 32 chunk)) sgn is_escaped data.

(** H 493-527 without JSON_STRUCT_HAS_SSE4_2: only the byte loop. *)
Definition findNumberEndSIMD_sse2 (sgn : bool) (data : bytes) : outcome nat :=
  Ok (tail_loop (tail_number sgn) data).
(** H 493-527 with JSON_STRUCT_HAS_SSE4_2. *)
Definition findNumberEndSIMD_sse42 (sgn : bool) (data : bytes) : outcome nat :=
  let* (n, _) :=
    vloop (S (length data)) 16
      (fun chunk => let result := cmpistri_any_neg number_chars chunk in
                    Ok (if (result =? 16)%nat then None else Some result)) data in
  Ok (n + tail_loop (tail_number sgn) (skipn n data))%nat.
(** H 600-673. *)
Definition findNumberEndNEON (sgn : bool) (data : bytes) : outcome nat :=
  scan_return 16 (fun chunk => neon_stop (vmvn (number_mask_neon chunk))) (tail_number sgn) data.

(** H 675-738. *)
Definition skipWhitespaceNEON (sgn : bool) (data : bytes) : outcome nat :=
  scan_return 16 (fun chunk => neon_stop (vmvn (whitespace_mask 16 chunk))) (tail_space sgn) data.
(** H 1005-1053. *)
Definition skipWhitespaceSIMD (sgn : bool) (data : bytes) : outcome nat :=
  scan_return 16 (fun chunk => stop_at_clear16 (whitespace_mask 16 chunk)) (tail_space sgn) data.
(** H 1057-1103. *)
Definition skipWhitespaceAVX2 (sgn : bool) (data : bytes) : outcome nat :=
  scan_return 32 (fun chunk => stop_at_clear32 (whitespace_mask 32 chunk)) (tail_space sgn) data.

(** H 740-837. *)
Definition findAsciiEndNEON (sgn : bool) (data : bytes) : outcome nat :=
  scan_return 16 (fun chunk => neon_stop (vmvn (ascii_mask 16 range_neon chunk)))
    (tail_ascii sgn) data.
(** H 892-971. *)
Definition findAsciiEndSIMD (sgn : bool) (data : bytes) : outcome nat :=
  scan_return 16 (fun chunk => stop_at_clear16 (ascii_mask 16 (range_x86 16) chunk))
    (tail_ascii sgn) data.
(** H 1188-1272; the tokenizer does not call it. *)
Definition findAsciiEndAVX2 (sgn : bool) (data : bytes) : outcome nat :=
  scan_return 32 (fun chunk => stop_at_clear32 (ascii_mask 32 (range_x86 32) chunk))
    (tail_ascii sgn) data.

(** H 839-885. *)
Definition skipCommentNEON (sgn : bool) (data : bytes) : outcome nat :=
  scan_comment 16 (fun chunk => neon_stop (newline_mask 16 chunk)) sgn data.
(** H 973-1003. *)
Definition skipCommentSIMD (sgn : bool) (data : bytes) : outcome nat :=
  scan_comment 16 (fun chunk => stop_at_set (newline_mask 16 chunk)) sgn data.
(** H 1105-1137; the tokenizer does not call it. *)
Definition skipCommentAVX2 (sgn : bool) (data : bytes) : outcome nat :=
  scan_comment 32 (fun chunk => stop_at_set (newline_mask 32 chunk)) sgn data.

(** ** The tokenizer's functions on top of them

    [isa] selects the build as in ScanModel.v; [sgn] says whether char is signed. *)
Open Scope nat_scope.

(** H 1923-2008: Tokenizer::findStringEnd. *)
Definition vfindStringEnd (i : isa) (sgn esc : bool) (rest : bytes) : outcome (option nat * bool) :=
  let scalar := Ok (str_scan esc rest 0) in
  let after (w : nat) (f : bool -> bytes -> bool -> outcome (nat * bool)) :=
    if w <=? length rest then
      let* (consumed, esc') := f sgn rest esc in
      if consumed <? length rest then Ok (Some consumed, esc') else scalar
    else scalar in
  match i with
  | Scalar => scalar
  | Avx2 => after 32 findStringEndAVX2
  | Neon => after 16 findStringEndNEON
  | Sse2 | Sse42 => after 16 findStringEndSIMD
  end.

(** H 2010-2083: Tokenizer::findAsciiEnd. *)
Definition vfindAsciiEnd (i : isa) (sgn : bool) (rest : bytes) : outcome ascii_end :=
  let after (f : bool -> bytes -> outcome nat) :=
    if 16 <=? length rest then
      let* consumed := f sgn rest in
      if consumed <? length rest then
        match nth_error rest consumed with
        | Some c => Ok (if Byte.eqb c c_nul then AsciiNeedMore else AsciiFound consumed)
        | None => UB
        end
      else Ok (ascii_scan (skipn consumed rest) consumed)
    else Ok (ascii_scan rest 0) in
  match i with
  | Scalar => Ok (ascii_scan rest 0)
  | Neon => after findAsciiEndNEON
  | Sse2 | Sse42 | Avx2 => after findAsciiEndSIMD
  end.

(** H 2085-2128: Tokenizer::findNumberEnd. *)
Definition vfindNumberEnd (i : isa) (sgn : bool) (rest : bytes) : outcome (option nat) :=
  let after (f : bool -> bytes -> outcome nat) :=
    if 16 <=? length rest then
      let* consumed := f sgn rest in
      if (0 <? consumed) && (consumed <? length rest) then Ok (Some consumed)
      else Ok (number_scan rest)
    else Ok (number_scan rest) in
  match i with
  | Scalar => Ok (number_scan rest)
  | Neon => after findNumberEndNEON
  | Sse2 => after findNumberEndSIMD_sse2
  | Sse42 | Avx2 => after findNumberEndSIMD_sse42
  end.

(** H 2138-2155: the whitespace skipped by findStartOfNextValue. *)
Definition vws_skip (i : isa) (sgn : bool) (rest : bytes) : outcome nat :=
  let after (w : nat) (f : bool -> bytes -> outcome nat) :=
    if w <=? length rest then f sgn rest else Ok 0 in
  match i with
  | Scalar => Ok 0
  | Avx2 => after 32 skipWhitespaceAVX2
  | Neon => after 16 skipWhitespaceNEON
  | Sse2 | Sse42 => after 16 skipWhitespaceSIMD
  end.

(** H 2427-2472: Tokenizer::skipComment. *)
Definition vskipComment (i : isa) (sgn allow_nl : bool) (rest : bytes) : outcome (option nat) :=
  let scalar := Ok (comment_scalar allow_nl rest) in
  let after (f : bool -> bytes -> outcome nat) :=
    if (16 <=? length rest) && negb allow_nl then
      let* consumed := f sgn rest in
      if (0 <? consumed) && (consumed <=? length rest) then
        match nth_error rest (consumed - 1) with
        | Some c => if Byte.eqb c c_nl then Ok (Some consumed) else scalar
        | None => UB
        end
      else scalar
    else scalar in
  match i with
  | Scalar => scalar
  | Neon => after skipCommentNEON
  | Sse2 | Sse42 | Avx2 => after skipCommentSIMD
  end.
