(** Properties C17, C18, C19, C20: strings. *)
From Verif Require Import Base ScanModel TokModel JsonSpec TokSpec StrSpec EscapeModel EscapeProofs TokGap TokStep TokJsonDoc.
From Coq Require Import Lia.

(** ** C17: escaping round-trips, for every build. *)
Theorem C17_escape_round_trip : forall i s, escapes_in (escapes_out i s) = s.
Proof. exact escape_round_trip. Qed.
Print Assumptions C17_escape_round_trip.

Example C17_nonvacuous :
  escapes_out Sse2 [x00; x61; x22; x5c; x0a; xc3; x75] = [x00; x61; x5c; x22; x5c; x5c; x5c; x6e; xc3; x75].
Proof. reflexivity. Qed.

(** ** C18: the quoted escaped form is one string token. *)

(** The scan for the closing quote stops exactly at the added quote, whatever follows. *)
Theorem C18_string_ends_at_its_quote : forall i1 i2 s rest,
  findStringEnd i1 false (escapes_out i2 s ++ quote :: rest) = (Some (length (escapes_out i2 s) + 1), false).
Proof. intros i1 i2 s rest. apply findStringEnd_body, escaped_body. Qed.
Print Assumptions C18_string_ends_at_its_quote.

(** Any document in which some strings are escaped forms reads back with these strings as tokens;
    here an array of such strings. *)
Theorem C18_strings_are_tokens : forall o i ss t,
  o_nl o = false ->
  doc_text plain (JArr (map (fun s => JScalar (SStr (escapes_out i s))) ss)) t ->
  reads_as o [t] []
    (st_make None [lbrack] TArrayStart ::
     map (fun s => st_make None (escapes_out i s) TString) ss ++
     [st_make None [rbrack] TArrayEnd]) NeedMoreData.
Proof.
  intros o i ss t Hnl Hd. pose proof (doc_reads_as o plain _ _ (crosses_plain o Hnl) Hd) as H.
  cbn [doc_tokens] in H.
  assert (E : flat_map (doc_tokens None) (map (fun s => JScalar (SStr (escapes_out i s))) ss) =
              map (fun s => st_make None (escapes_out i s) TString) ss).
  { clear. induction ss as [|s ss IH]; [reflexivity|]. cbn [map flat_map doc_tokens app]. rewrite IH. reflexivity. }
  rewrite E in H. exact H.
Qed.
Print Assumptions C18_strings_are_tokens.

(** Such documents exist for every list of byte strings. *)
Theorem C18_strings_have_texts : forall i s ss,
  exists t, doc_text plain (JArr (map (fun s => JScalar (SStr (escapes_out i s))) (s :: ss))) t.
Proof. exact escaped_array_text. Qed.
Print Assumptions C18_strings_have_texts.

(** ** C19: unicode escapes. *)
Theorem C19_strings_denote : forall l m, denotes l m -> escapes_in (string_text l) = m.
Proof. exact escapes_in_denotes. Qed.
Print Assumptions C19_strings_denote.

(** The encoding used in [denotes] is read back by the definition of UTF-8. *)
Theorem C19_utf8_reads : forall cp, (cp < 0x110000)%N -> utf8_read (utf8 cp) = Some cp.
Proof. exact utf8_reads. Qed.
Print Assumptions C19_utf8_reads.

Example C19_nonvacuous :
  denotes [IRaw x41; IUnicode x30 x30 x65 x39; IPair x44 x38 x33 x44 x64 x45 x30 x30; ISimple x6e]
          [x41; xc3; xa9; xf0; x9f; x98; x80; x0a].
Proof.
  apply (De_cons (IRaw x41) _ [x41]); [split; [discriminate|reflexivity]|].
  apply (De_cons (IUnicode x30 x30 x65 x39) _ [xc3; xa9]).
  { repeat split; try (unfold is_hex, is_digit; cbn; lia). }
  apply (De_cons (IPair x44 x38 x33 x44 x64 x45 x30 x30) _ [xf0; x9f; x98; x80]).
  { repeat split; try (unfold is_hex, is_digit; cbn; lia). }
  apply (De_cons (ISimple x6e) [] [x0a] []); [|constructor]. exists x0a. split; [cbn; auto 10|reflexivity].
Qed.

(** ** C20: control characters in the output. *)

(** Text whose control characters are only \b \t \n \f \r comes out without any. *)
Theorem C20_no_control_characters_partial : forall i s,
  (forall c, In c s -> is_control c -> In c [x08; x09; x0a; x0c; x0d]) ->
  forall c, In c (escapes_out i s) -> ~ is_control c.
Proof. exact escaped_no_control. Qed.
Print Assumptions C20_no_control_characters_partial.

Example C20_nonvacuous : escapes_out Avx2 [x09; x0d; x20] = [x5c; x74; x5c; x72; x20].
Proof. reflexivity. Qed.

(** All others are written raw. *)
Theorem C20_no_control_characters_refuted : forall i s c,
  In c s -> is_control c -> ~ In c [x08; x09; x0a; x0c; x0d] ->
  exists c', In c' (escapes_out i s) /\ is_control c'.
Proof. intros i s c H1 H2 H3. exists c. split; [apply control_stays; assumption|exact H2]. Qed.
Print Assumptions C20_no_control_characters_refuted.
Example C20_refuted_witness : exists c, In c (escapes_out Sse2 [x41; x1f]) /\ is_control c.
Proof. exists x1f. split; [cbn; auto|reflexivity]. Qed.
