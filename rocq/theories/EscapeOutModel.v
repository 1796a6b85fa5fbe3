(** Model of findFirstEscapeOut and handle_json_escapes_out (H 5982-6089) with the positions
    the program uses and, for the scan, the instructions of VecModel.v.  A read outside of the
    data is [UB].  No proofs here. *)
From Verif Require Import Base ScanModel VecModel EscapeModel.

(** H 5993-5996, 6012-6015: the lanes with a byte up to 0x0d (their unsigned minimum with 0x0d
    is the byte itself), a quote or a backslash. *)
Definition escape_mask (w : nat) (chunk : reg) : reg :=
  let le_ctrl := vcmpeq (vmin chunk (vset1 w x0d)) chunk in
  let is_q := vcmpeq chunk (vset1 w x22) in
  let is_b := vcmpeq chunk (vset1 w x5c) in
  vor (vor le_ctrl is_q) is_b.

(** H 6022-6026: the test of the byte loop; [c] is an unsigned char. *)
Definition tail_escape (c : byte) : bool :=
  (byte_val c <=? 13)%N || (byte_val c =? byte_val x22)%N || (byte_val c =? byte_val x5c)%N.

(** H 5982-6028: findFirstEscapeOut. *)
Definition find_escape (i : isa) (data : bytes) : outcome nat :=
  match i with
  | Avx2 => scan_return 32 (fun chunk => stop_at_set (escape_mask 32 chunk)) tail_escape data
  | Sse2 | Sse42 =>
    scan_return 16 (fun chunk => stop_at_set (escape_mask 16 chunk)) tail_escape data
  | Scalar | Neon => Ok (tail_loop tail_escape data)
  end.

(** The text from position [p] on; [d + p] past the end of the text is no pointer into it. *)
Definition text_from (d : bytes) (p : nat) : outcome bytes :=
  if p <=? length d then Ok (skipn p d) else UB.

(** [d[p]]. *)
Definition byte_at (d : bytes) (p : nat) : outcome byte :=
  match nth_error d p with Some c => Ok c | None => UB end.

(** The range [d + from, d + to). *)
Definition text_between (d : bytes) (from to : nat) : outcome bytes :=
  if (from <=? to) && (to <=? length d) then Ok (firstn (to - from) (skipn from d)) else UB.

(** H 6035-6078: the loop over the positions [start_index] and [i]; the switch is
    [escape_out_char].  Gives the buffer and [start_index]. *)
Fixpoint out_rounds (fuel : nat) (b : isa) (d buffer : bytes) (start_index i : nat)
  : outcome (bytes * nat) :=
  match fuel with
  | O => OutOfFuel
  | S f =>
    if i <? length d then
      let* text := text_from d i in
      let* k := find_escape b text in
      let i := i + k in
      if length d <=? i then Ok (buffer, start_index)
      else
        let* cur := byte_at d i in
        let* buffer :=
          if start_index <? i then
            let* part := text_between d start_index i in Ok (buffer ++ part)
          else Ok buffer in
        let start_index := i + 1 in
        out_rounds f b d (buffer ++ escape_out_char cur) start_index (i + 1)
    else Ok (buffer, start_index)
  end.

(** The DataRef returned: of the buffer or of the string itself. *)
Inductive data_ref := OfBuffer (text : bytes) | OfData (text : bytes).

(** H 6029-6088: handle_json_escapes_out; [buffer] is what the caller's buffer holds. *)
Definition handle_json_escapes_out (b : isa) (data buffer : bytes) : outcome data_ref :=
  let* (buffer, start_index) := out_rounds (S (length data)) b data buffer 0 0 in
  if 0 <? length buffer then
    if start_index <? length data then
      let* part := text_between data start_index (length data) in
      Ok (OfBuffer (buffer ++ part))
    else Ok (OfBuffer buffer)
  else Ok (OfData data).
