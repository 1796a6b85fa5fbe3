(** Model of ryu::to_string (H 8134-8141).  No proofs here.  Its callee convert_parsed_to_buffer is in
    RyuModel; integer::to_buffer (H 8145-8185) is in IntModel. *)
From Verif Require Import Base DoubleModel RyuModel.

(** H 8134-8141: char buffer[25], with arbitrary contents, and the std::string made of it. *)
Definition ryu_to_string (T : finfo) (bits : N) (buffer : bytes) : outcome bytes :=
  let* r := decode T bits in
  let* (buffer, n) := convert_parsed_to_buffer r buffer (Z.of_nat (length buffer)) (expanded_length T) in
  Ok (firstn (Z.to_nat n) buffer).
