(** C80: writing a string reads only its bytes, whatever the build; the text is that of the
    string itself exactly when no byte stops the scan. *)
From Verif Require Import Base ScanModel ScanProofs VecModel VecProofs EscapeModel EscapeProofs.
From Verif Require Import EscapeOutModel EscapeOutSpec EscapeOutProofs PropVec.
From Coq Require Import Lia.

(** findFirstEscapeOut, instruction by instruction, finds the first byte that is not passed, and
    no load leaves the data. *)
Theorem C80_scan b data : exists n, find_escape b data = Ok n /\ span passed data n.
Proof.
  eexists. split; [apply find_escape_count|]. apply span_count, stop_passed.
Qed.

(** A string of passed bytes is not copied. *)
Theorem C80_not_copied b data :
  Forall passed data -> handle_json_escapes_out b data [] = Ok (OfData data).
Proof. intros F. destruct (handle_out b data []) as [(_ & _ & H)|[N _]]; [exact H|tauto]. Qed.

(** Every other string is written into the buffer, with its escapes. *)
Theorem C80_copied b data : ~ Forall passed data ->
  exists o, handle_json_escapes_out b data [] = Ok (OfBuffer o) /\ written data o.
Proof.
  intros F. destruct (handle_out b data []) as [(X & _)|[_ H]]; [tauto|].
  eexists. split; [exact H|]. apply flat_written.
Qed.

(** A string that is not copied has nothing to escape. *)
Theorem C80_nothing_lost data o : Forall passed data -> written data o -> o = data.
Proof.
  intros F W. induction W as [|c e l o I W IH|c l o I W IH]; [reflexivity| |].
  - exfalso. inversion F as [|x y P Q]; subst. destruct P as (P & P1 & P2).
    cbn in I. repeat (destruct I as [[= <- <-]|I]; [first [congruence|cbn in P; lia]|]). exact I.
  - inversion F; subst. rewrite IH by assumption. reflexivity.
Qed.

(** What a byte is written as does not depend on the build or on the rest. *)
Theorem C80_one_text data o o' : written data o -> written data o' -> o = o'.
Proof.
  intros W. revert o'. induction W as [|c e l o I W IH|c l o I W IH]; intros o' W'.
  - inversion W'. reflexivity.
  - inversion W' as [|c' e' l' x I' V|c' l' x I' V]; subst.
    + rewrite (IH _ V). do 2 f_equal. cbn in I, I'. intuition congruence.
    + destruct I'. apply (in_map fst) in I. exact I.
  - inversion W' as [|c' e' l' x I' V|c' l' x I' V]; subst.
    + destruct I. apply (in_map fst) in I'. exact I'.
    + rewrite (IH _ V). reflexivity.
Qed.

Theorem C80_same_for_every_build b b' data buffer :
  handle_json_escapes_out b data buffer = handle_json_escapes_out b' data buffer.
Proof.
  destruct (handle_out b data buffer) as [(F & E & H)|[N H]], (handle_out b' data buffer)
    as [(F' & E' & H')|[N' H']]; rewrite H, H'; tauto || reflexivity.
Qed.

(** A buffer that is not empty is not cleared: its old content is part of the text. *)
Theorem C80_old_content b data buffer : buffer <> [] ->
  exists o, handle_json_escapes_out b data buffer = Ok (OfBuffer (buffer ++ o)) /\ written data o.
Proof.
  intros N. destruct (handle_out b data buffer) as [(_ & E & _)|[_ H]]; [tauto|].
  eexists. split; [exact H|]. apply flat_written.
Qed.

(** The model of C17-C20 is this one. *)
Theorem C80_refines b data : exists r, handle_json_escapes_out b data [] = Ok r /\
  match r with OfBuffer o | OfData o => o end = escapes_out b data.
Proof.
  destruct (handle_out b data []) as [(F & _ & H)|[_ H]]; eexists; (split; [exact H|]).
  - rewrite escapes_out_map. apply (C80_one_text data); [|apply flat_written].
    rewrite <- (C80_nothing_lost data _ F (flat_written data)) at 2. apply flat_written.
  - rewrite escapes_out_map. reflexivity.
Qed.

(** ** Cases *)

(** 40 bytes with a byte above 127, a quote as the 34th and a newline as the last. *)
Definition long40 : bytes := s2b "0123456789abcdef0123456789abcdef" ++ [xe9; x22] ++ s2b "vwxyz" ++ [x0a].

Example case_scan b : find_escape b long40 = Ok 33.
Proof. destruct b; reflexivity. Qed.
Example case_copied b : handle_json_escapes_out b long40 [] =
  Ok (OfBuffer (s2b "0123456789abcdef0123456789abcdef" ++ [xe9; x5c; x22] ++ s2b "vwxyz" ++ [x5c; x6e])).
Proof. destruct b; reflexivity. Qed.
Example case_stops : ~ Forall passed long40.
Proof.
  intros F. rewrite Forall_forall in F. destruct (F x22) as (_ & N & _); [|congruence].
  cbn. tauto.
Qed.
Example case_passed : Forall passed (s2b "plain text of more than sixteen bytes" ++ [x7f; xff]).
Proof. repeat (constructor; [repeat split; discriminate|]). constructor. Qed.
(** The byte 0x01 stops the scan but has no escape here: it is copied as it is. *)
Example case_control b : handle_json_escapes_out b [x61; x01; x62] [] = Ok (OfBuffer [x61; x01; x62]).
Proof. destruct b; reflexivity. Qed.
Example case_old b : handle_json_escapes_out b (s2b "ab") (s2b "x") = Ok (OfBuffer (s2b "xab")).
Proof. destruct b; reflexivity. Qed.

Print Assumptions C80_scan.
Print Assumptions C80_not_copied.
Print Assumptions C80_copied.
Print Assumptions C80_nothing_lost.
Print Assumptions C80_one_text.
Print Assumptions C80_same_for_every_build.
Print Assumptions C80_old_content.
Print Assumptions C80_refines.
