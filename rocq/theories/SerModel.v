(** Model of SerializerOptions, SerializerBuffer and Serializer (H 1466-1568, 3095-3432) and of
    reformat (H 2905-2944).  No proofs here. *)
From Verif Require Import Base ScanModel TokModel.
Local Open Scope N_scope.

(** H 1469-1506: class SerializerOptions. *)
Record sopts : Set := mkSo {
  so_shift : N;        (* uint8_t m_shift_size *)
  so_depth : N;        (* uint8_t m_depth *)
  so_pretty : bool;    (* m_style == Pretty *)
  so_ascii : bool;     (* m_convert_ascii_to_string *)
  so_prefix : bytes;
  so_delim : bytes;    (* m_token_delimiter *)
  so_vdelim : bytes;   (* m_value_delimiter *)
  so_postfix : bytes }.

(** H 3095-3105: SerializerOptions(style). *)
Definition so_make (pretty : bool) : sopts :=
  mkSo (if pretty then 2 else 0) 0 pretty true [] [x2c]
       (if pretty then [x3a; x20] else [x3a]) (if pretty then [x0a] else []).

(** H 3112-3115: setShiftSize(unsigned char). *)
Definition setShiftSize (n : N) (o : sopts) : sopts :=
  mkSo (n mod 256) (so_depth o) (so_pretty o) (so_ascii o) (so_prefix o) (so_delim o) (so_vdelim o) (so_postfix o).

(** H 3132-3135: setConvertAsciiToString. *)
Definition setConvertAsciiToString (b : bool) (o : sopts) : sopts :=
  mkSo (so_shift o) (so_depth o) (so_pretty o) b (so_prefix o) (so_delim o) (so_vdelim o) (so_postfix o).

(** H 3153-3157: setDepth(int).  Non-negative arguments only: with a negative one the prefix would
    be a string of nearly 2^64 spaces. *)
Definition setDepth (d : N) (o : sopts) : sopts :=
  mkSo (so_shift o) (d mod 256) (so_pretty o) (so_ascii o)
       (if so_pretty o then repeat x20 (N.to_nat (d * so_shift o)) else [])
       (so_delim o) (so_vdelim o) (so_postfix o).

(** H 3137-3143: setStyle. *)
Definition setStyle (pretty : bool) (o : sopts) : sopts :=
  setDepth (so_depth o)
    (mkSo (so_shift o) (so_depth o) pretty (so_ascii o) (so_prefix o) (so_delim o)
          (if pretty then [x20; x3a; x20] else [x3a]) (if pretty then [x0a] else [])).

(** H 3145-3151: skipDelimiter. *)
Definition skipDelimiter (skip : bool) (o : sopts) : sopts :=
  mkSo (so_shift o) (so_depth o) (so_pretty o) (so_ascii o) (so_prefix o)
       (if skip then [] else [x2c]) (so_vdelim o) (so_postfix o).

(** H 1508-1568: class Serializer.  The current buffer is its size and the bytes written so far;
    the buffers used before are kept in [se_done] (size and contents).  The n-th call of the
    request-buffer callback calls setBuffer with [se_supply n] bytes; a callback that does not
    call setBuffer, and a missing callback, supply 0 bytes. *)
Record ser : Type := mkSer {
  se_first : bool;
  se_start : bool;                 (* m_token_start *)
  se_opt : sopts;
  se_size : nat;
  se_buf : bytes;
  se_done : list (nat * bytes);
  se_supply : nat -> nat;
  se_calls : nat }.

(** H 3192-3213 with setOptions and setRequestBufferCallback. *)
Definition ser_make (o : sopts) (size : nat) (supply : nat -> nat) : ser :=
  mkSer true true o size [] [] supply 0.

(** All bytes stored so far, in order. *)
Definition ser_output (s : ser) : bytes := concat (map snd (se_done s)) ++ se_buf s.

Definition set_first (b : bool) (s : ser) : ser :=
  mkSer b (se_start s) (se_opt s) (se_size s) (se_buf s) (se_done s) (se_supply s) (se_calls s).
Definition set_start (b : bool) (s : ser) : ser :=
  mkSer (se_first s) b (se_opt s) (se_size s) (se_buf s) (se_done s) (se_supply s) (se_calls s).
Definition set_opt (o : sopts) (s : ser) : ser :=
  mkSer (se_first s) (se_start s) o (se_size s) (se_buf s) (se_done s) (se_supply s) (se_calls s).

(** H 1525-1528: SerializerBuffer::free. *)
Definition ser_free (s : ser) : nat := se_size s - length (se_buf s).

(** H 3205-3208: setBuffer. *)
Definition setBuffer (size : nat) (s : ser) : ser :=
  mkSer (se_first s) (se_start s) (se_opt s) size [] (se_done s ++ [(se_size s, se_buf s)])
        (se_supply s) (se_calls s).

(** H 3176-3189: SerializerBuffer::append; without room the memcpy overruns the buffer. *)
Definition append (d : bytes) (s : ser) : outcome ser :=
  if Nat.leb (length (se_buf s) + length d) (se_size s) then
    Ok (mkSer (se_first s) (se_start s) (se_opt s) (se_size s) (se_buf s ++ d) (se_done s)
              (se_supply s) (se_calls s))
  else UB.

(** H 3349-3359: markCurrentSerializerBufferFull, askForMoreBuffers. *)
Definition markFull (s : ser) : ser :=
  mkSer (se_first s) (se_start s) (se_opt s) (se_supply s (se_calls s)) []
        (se_done s ++ [(se_size s, se_buf s)]) (se_supply s) (S (se_calls s)).

(** H 3401-3422: write(const char *, size_t). *)
Fixpoint write_loop (fuel : nat) (d : bytes) (s : ser) : outcome (bool * ser) :=
  match d with
  | [] => Ok (true, s)
  | _ =>
    match fuel with
    | O => OutOfFuel
    | S f =>
      if Nat.eqb (ser_free s) 0 then
        let s := markFull s in
        if Nat.eqb (ser_free s) 0 then Ok (false, s) else write_loop f d s
      else
        let n := Nat.min (length d) (ser_free s) in
        let* s := append (firstn n d) s in
        write_loop f (skipn n d) s
    end
  end.
Definition write_data (d : bytes) (s : ser) : outcome (bool * ser) := write_loop (2 * length d) d s.

(** H 3424-3432: write(StringLiteral). *)
Definition write_lit (d : bytes) (s : ser) : outcome (bool * ser) :=
  if Nat.ltb (ser_free s) (length d) then write_data d s
  else let* s := append d s in Ok (true, s).

(** [if (!m1) return false; m2] *)
Definition and_then (m1 m2 : ser -> outcome (bool * ser)) (s : ser) : outcome (bool * ser) :=
  let* (b, s1) := m1 s in if b then m2 s1 else Ok (false, s1).
Definition done_true (s : ser) : outcome (bool * ser) := Ok (true, s).
(** [if (c) if (!m) return false;] *)
Definition when (c : bool) (m : ser -> outcome (bool * ser)) : ser -> outcome (bool * ser) :=
  if c then m else done_true.

(** H 3361-3375: writeAsString. *)
Definition writeAsString (d : bytes) : ser -> outcome (bool * ser) :=
  and_then (write_lit [x22]) (and_then (write_data d) (write_lit [x22])).

(** H 3377-3399: write(Type, const DataRef &). *)
Definition write_value (t : type) (d : bytes) (s : ser) : outcome (bool * ser) :=
  match t with
  | TString => writeAsString d s
  | TAscii => if so_ascii (se_opt s) then writeAsString d s else write_data d s
  | TNull => write_data [x6e; x75; x6c; x6c] s
  | _ => write_data d s
  end.

Definition is_end (t : type) : bool :=
  match t with TObjectEnd | TArrayEnd => true | _ => false end.
Definition is_start (t : type) : bool :=
  match t with TObjectStart | TArrayStart => true | _ => false end.

(** H 3217-3222: the prepared literals, for depths 1 to 5. *)
Definition prepared (with_comma : bool) (depth : N) : option bytes :=
  if (1 <=? depth) && (depth <=? 5) then
    Some ((if with_comma then [x2c] else []) ++ x0a :: repeat x20 (N.to_nat (2 * depth)))
  else None.

(** H 3236-3280: the shortcut for shift size 2. *)
Definition front_shortcut (isEnd : bool) (s : ser) : outcome (bool * ser) :=
  if (so_shift (se_opt s) =? 2) && negb (se_first s) then
    let with_comma :=
      negb (se_start s) && negb isEnd && negb (Nat.eqb (length (so_delim (se_opt s))) 0) in
    match prepared with_comma (so_depth (se_opt s)) with
    | Some l => write_lit l s
    | None => Ok (false, s)
    end
  else Ok (false, s).

Definition nonempty (l : bytes) : bool := negb (Nat.eqb (length l) 0).

(** H 3282-3310. *)
Definition front_generic (isEnd : bool) (s : ser) : outcome (bool * ser) :=
  and_then (when (negb (se_start s) && negb isEnd && nonempty (so_delim (se_opt s))) (write_lit [x2c]))
    (and_then
      (fun s => if se_first s then Ok (true, set_first false s)
                else when (nonempty (so_postfix (se_opt s))) (write_data (so_postfix (se_opt s))) s)
      (fun s => when (nonempty (so_prefix (se_opt s))) (write_data (so_prefix (se_opt s))) s)) s.

(** H 3311-3329: name and value. *)
Definition write_name (tk : token) (s : ser) : outcome (bool * ser) :=
  when (nonempty (dr_bytes (tk_name tk)))
    (and_then (write_value (tk_name_type tk) (dr_bytes (tk_name tk)))
      (fun s => write_lit (if so_pretty (se_opt s) then [x3a; x20] else [x3a]) s)) s.

(** H 3215-3337: write(const Token &). *)
Definition ser_write (tk : token) (s : ser) : outcome (bool * ser) :=
  let isEnd := is_end (tk_value_type tk) in
  if isEnd && (so_depth (se_opt s) =? 0) then Ok (false, s)
  else
    let s := if isEnd then set_opt (setDepth (so_depth (se_opt s) - 1) (se_opt s)) s else s in
    let* (shortcut, s) := front_shortcut isEnd s in
    and_then (fun s => if shortcut then Ok (true, s) else front_generic isEnd s)
      (and_then (write_name tk)
        (and_then (write_value (tk_value_type tk) (dr_bytes (tk_value tk)))
          (fun s =>
             let st := is_start (tk_value_type tk) in
             let s := set_start st s in
             Ok (true, if st then set_opt (setDepth (so_depth (se_opt s) + 1) (se_opt s)) s else s)))) s.

(** A sequence of write calls; the results are collected. *)
Fixpoint ser_writes (tks : list token) (s : ser) : outcome (list bool * ser) :=
  match tks with
  | [] => Ok ([], s)
  | tk :: r => let* (b, s1) := ser_write tk s in
               let* (bs, s2) := ser_writes r s1 in Ok (b :: bs, s2)
  end.

(** H 2905-2944: reformat.  The buffers are consecutive parts of [out]; a buffer is replaced only
    when it is full, so the final [out.resize(last_pos + used)] leaves exactly the bytes written.
    [n0]: size of the string passed in. *)
Definition reformat_supply (n0 : nat) (k : nat) : nat := (n0 * 2 ^ k)%nat.
Fixpoint reformat_loop (fuel : nat) (o : opts) (nt : token) (s : tstate) (se : ser)
  : outcome (error * ser) :=
  match fuel with
  | O => OutOfFuel
  | S f =>
    let* (s1, e, nt1) := nextToken o nt s in
    match e with
    | NoError => let* (_, se1) := ser_write nt1 se in reformat_loop f o nt1 s1 se1
    | _ => Ok (e, se)
    end
  end.
Definition reformat (i : isa) (so : sopts) (n0 : nat) (data : bytes) : outcome (error * bytes) :=
  let n := if Nat.eqb n0 0 then 4096%nat else n0 in
  let* (e, se) := reformat_loop (length data + 3) (mkOpts i false false false false) tok_default
                    (addData data t_init) (ser_make so n (reformat_supply n)) in
  Ok (match e with NeedMoreData => NoError | _ => e end, ser_output se).
