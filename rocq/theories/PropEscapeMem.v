(** Property C78: the reads of handle_json_escapes_in. *)
From Verif Require Import Base JsonSpec StrSpec EscapeModel EscapeProofs EscapeMemModel EscapeMemSpec EscapeMemProofs TokJsonDoc.
From Coq Require Import Lia.

(** For every string: no byte outside of it is read, no size goes below zero, and the loop ends. *)
Theorem C78_inside : forall l, unescape l <> Outside /\ unescape l <> Endless.
Proof. intros l. rewrite unescape_ok. destruct (U l); split; discriminate. Qed.
Print Assumptions C78_inside.

(** Only stored digits are used unless a high surrogate is followed by a second escape without four digits, and then
    the result is the one of EscapeModel.v, the function C17, C19 and the other properties of strings are about. *)
Theorem C78_defined : forall l, ~ reads_unset l -> unescape l = Fine (escapes_in l).
Proof. intros l H. rewrite unescape_ok. destruct (U l) eqn:E; [apply U_spec in E; contradiction|reflexivity]. Qed.
Print Assumptions C78_defined.

(** In that case digits that were never stored are shifted together. *)
Theorem C78_undefined : forall l, reads_unset l -> unescape l = Unset.
Proof. intros l H. rewrite unescape_ok. apply U_spec in H. rewrite H. reflexivity. Qed.
Print Assumptions C78_undefined.

(** It does not arise for any string of RFC 8259, ... *)
Theorem C78_rfc : forall l, rfc_string l -> unescape l = Fine (escapes_in l).
Proof. intros l H. apply C78_defined. intros R. exact (rfc_safe l R H). Qed.
Print Assumptions C78_rfc.

(** ... nor for what handle_json_escapes_out writes, in any build. *)
Theorem C78_written : forall i s, unescape (escapes_out i s) = Fine s.
Proof. intros i s. rewrite unescape_ok, written_safe, escape_round_trip. reflexivity. Qed.
Print Assumptions C78_written.

(** The tokenizer lets such strings through: [str_body] is all it asks of the characters between two quotes (C01, C03). *)
Theorem C78_only_stored_refuted : exists l, str_body l /\ unescape l = Unset.
Proof.
  exists (s2b "\ud800\uzzzz"). split; [|vm_compute; reflexivity].
  change (s2b "\ud800\uzzzz") with ([x5c; x75] ++ [x64; x38; x30; x30] ++ [x5c; x75] ++ [x7a; x7a; x7a; x7a]).
  cbn [app]. repeat (first [apply SB_nil | apply SB_esc | apply SB_char; [discriminate|discriminate|]]).
Qed.
Print Assumptions C78_only_stored_refuted.

(** A string with a raw character, a simple escape, a pair, a lone surrogate and one with bad digits where none is expected; and
    one where the bad digits come second. *)
Example C78_nonvacuous :
  unescape (s2b "a\n\ud83d\ude00\ud800x\u00zz") = Fine (s2b "a" ++ [x0a; xf0; x9f; x98; x80; xed; xa0; x80] ++ s2b "x\u00zz") /\
  reads_unset (s2b "a\n\ud800\u00zz") /\ rfc_string (s2b "a\n\ud83d\ude00").
Proof.
  split; [vm_compute; reflexivity|]. split.
  - apply U_spec. vm_compute. reflexivity.
  - apply RS_char; [vm_compute; discriminate|discriminate|discriminate|]. apply RS_esc; [cbn; tauto|].
    apply RS_unicode; try (unfold is_hex, is_digit; cbn; lia).
    apply RS_unicode; try (unfold is_hex, is_digit; cbn; lia). apply RS_nil.
Qed.
