(** Property C71: strings stay UTF-8. *)
From Verif Require Import Base ScanModel TokModel TokSpec JsonSpec StrSpec EscapeModel EscapeProofs SerModel SerSpec SerDoc HandlerModel HandlerSpec HandlerTree WriteModel RoundSpec RoundProofs ShowJson PropTok PropRound UtfSpec UtfProofs UtfDoc.
From Coq Require Import List Lia.
Import ListNotations.
Local Open Scope list_scope.

(** Every text, also one that is no JSON string, has exactly one list of pieces. *)
Theorem C71_pieces : forall l, exists ps, pieces l ps /\ forall ps', pieces l ps' -> ps' = ps.
Proof. intros l. destruct (pieces_exist _ l (Nat.lt_succ_diag_r _)) as (ps & H). exists ps. split; [exact H|]. apply pieces_unique, H. Qed.
Print Assumptions C71_pieces.

(** What handle_json_escapes_in makes of any text. *)
Theorem C71_read_exactly : forall l ps, pieces l ps -> escapes_in l = flat_map meaning ps.
Proof. exact pieces_read. Qed.
Print Assumptions C71_read_exactly.

(** The string read is UTF-8 exactly if the text is and has no surrogate on its own. *)
Theorem C71_read : forall l ps, pieces l ps ->
  (utf8_text (escapes_in l) <-> utf8_text l /\ Forall (fun p => ~ lone p) ps).
Proof. intros l ps. exact (reads_utf8 _ l ps (Nat.lt_succ_diag_r _)). Qed.
Print Assumptions C71_read.

(** Writing a string keeps UTF-8, and makes no text UTF-8 that was not. *)
Theorem C71_written : forall i s, utf8_text (escapes_out i s) <-> utf8_text s.
Proof. exact writes_utf8. Qed.
Print Assumptions C71_written.

(** A document is UTF-8 exactly if the texts of all its strings and names are: cutting out a token never cuts a character. *)
Theorem C71_document : forall j text, doc_text plain j text -> (utf8_text text <-> all_strings utf8_text j).
Proof. exact doc_utf8. Qed.
Print Assumptions C71_document.

(** Reading a document that is UTF-8 and has no surrogate on its own into any type, with any error: all strings and keys of the
    value are UTF-8 afterwards, if they were before. *)
Theorem C71_value_read_partial : forall o g t v j text e v' r, ty_ok t -> shaped t v -> fits t (Some j) -> o_nl o = false -> doc_text plain j text ->
  utf8_text text -> all_strings no_lone j -> val_utf8 v -> parses o g t v text e v' r -> val_utf8 v'.
Proof. exact read_utf8. Qed.
Print Assumptions C71_value_read_partial.

(** A value whose strings and keys are UTF-8 is written as a UTF-8 document. *)
Theorem C71_value_written_partial : forall i so t v j, storable i t v -> render i t v = Some j -> is_container j -> options_made so -> so_ascii so = true ->
  (so_depth so + N.of_nat (nesting j) <= 255)%N -> names_utf8 t -> val_utf8 v ->
  exists text, serializeStruct i so t v = Ok text /\ doc_text plain j text /\ utf8_text text.
Proof. exact write_utf8. Qed.
Print Assumptions C71_value_written_partial.

(** Without the condition on surrogates it is false, also for JSON strings in ASCII. *)
Theorem C71_lone_refuted : exists l, rfc_string l /\ utf8_text l /\ ~ utf8_text (escapes_in l).
Proof.
  exists (backslash :: x75 :: s2b "d800"). assert (F : four_hex (s2b "d800") 0xD800 []).
  { exists x64, x38, x30, x30. split; [reflexivity|]. split; [|reflexivity]. repeat split; cbv; intuition discriminate. }
  split; [|split].
  - apply RS_unicode; [cbv; intuition discriminate..|constructor].
  - apply asc_text. repeat constructor.
  - assert (P : pieces (backslash :: x75 :: s2b "d800") [PUni 0xD800]).
    { eapply Pc_uni; [exact F| |constructor]. intros (_ & lo & r & l2 & E & _). discriminate E. }
    rewrite (C71_read _ _ P). intros [_ K]. inversion K as [|? ? K1 _]; subst. apply K1. cbv. split; discriminate.
Qed.
Print Assumptions C71_lone_refuted.

(** An e with an accent, the euro sign and a smiley: as bytes and as escapes. *)
Definition chars : list N := [0xE9; 0x20AC; 0x1F600]%N.
Definition chars_text : bytes := flat_map utf8 chars.
Definition chars_escaped : bytes := [backslash] ++ s2b "u00e9" ++ [backslash] ++ s2b "u20AC" ++ [backslash] ++ s2b "ud83d" ++ [backslash] ++ s2b "ude00".
Lemma chars_utf8 : utf8_text chars_text.
Proof. exists chars. split; [repeat constructor; cbv; intuition discriminate|reflexivity]. Qed.
Example C71_nonvacuous :
  chars_text = [xc3; xa9; xe2; x82; xac; xf0; x9f; x98; x80] /\ utf8_text chars_text /\
  pieces chars_escaped [PUni 0xE9; PUni 0x20AC; PPair 0xD83D 0xDE00] /\ escapes_in chars_escaped = chars_text /\
  ~ utf8_text [xc3] /\ ~ utf8_text (s2b "a" ++ [xa9]) /\
  let t := YMap (YVec YString) in let v := VMap [(chars_text, VList [VStr (chars_text ++ [x0a]); VStr []])] in
  ty_ok t /\ names_utf8 t /\ val_utf8 v /\ storable Scalar t v /\
  render Scalar t v = Some (JObj [(chars_text, JArr [JScalar (SStr (chars_text ++ [backslash; x6e])); JScalar (SStr [])])]) /\
  fits t (render Scalar t v) /\ all_strings no_lone (JObj [(chars_text, JArr [JScalar (SStr (chars_text ++ [backslash; x6e])); JScalar (SStr [])])]).
Proof.
  assert (R : forall l r ps, Forall (fun c => c <> backslash) l -> pieces r ps -> pieces (l ++ r) (map PRaw l ++ ps)).
  { intros l r ps F H. induction F; [exact H|]. cbn. constructor; assumption. }
  assert (Nl : no_lone chars_text).
  { exists (map PRaw chars_text ++ []). split; [rewrite <- (app_nil_r chars_text) at 1; apply R; [repeat constructor; discriminate|constructor]|].
    repeat constructor; intros []. }
  split; [reflexivity|]. split; [exact chars_utf8|]. split.
  { assert (H : forall a b c d, In a (s2b "0289acdefACDEF3") -> In b (s2b "0289acdefACDEF3") -> In c (s2b "0289acdefACDEF3") -> In d (s2b "0289acdefACDEF3") ->
      forall r, four_hex (a :: b :: c :: d :: r) (hex_number a b c d) r).
    { intros a b c d Ha Hb Hc Hd r. exists a, b, c, d. split; [reflexivity|]. split; [|reflexivity].
      assert (X : forall x, In x (s2b "0289acdefACDEF3") -> is_hex x).
      { intros x Hx. cbn in Hx. unfold is_hex, is_digit. repeat (destruct Hx as [<-|Hx]; [cbv -[N.le]; lia|]). destruct Hx. }
      auto. }
    eapply Pc_uni; [apply H; cbn; tauto|cbv -[low_follows]; intros [[K _] _]; apply K; reflexivity|].
    eapply Pc_uni; [apply H; cbn; tauto|cbv -[low_follows]; intros [[K _] _]; apply K; reflexivity|].
    eapply Pc_pair; [apply H; cbn; tauto|cbv; split; discriminate| |constructor].
    eexists. split; [reflexivity|]. split; [apply H; cbn; tauto|cbv; split; discriminate]. }
  split; [reflexivity|]. split.
  { intros K. apply text_wide in K; [|cbv; discriminate]. destruct K as (cp & tl & r & Hs & E & _ & E2 & _).
    symmetry in E2. apply app_eq_nil in E2. destruct E2 as [-> ->].
    destruct (utf8_shape cp (scalar_small _ Hs)) as (h & tl & E3 & L & _). rewrite E in E3. injection E3 as <- <-. discriminate L. }
  split.
  { cbn [s2b app]. intros K. apply text_ascii in K; [|reflexivity]. apply text_wide in K; [|cbv; discriminate]. destruct K as (cp & tl & r & Hs & E & _).
    destruct (utf8_shape cp (scalar_small _ Hs)) as (h & tl' & E3 & _ & B). rewrite E in E3. injection E3 as <- <-.
    destruct B as [(B & E4 & _)|(_ & B & _)]; [rewrite <- E4 in B; discriminate B|apply B; reflexivity]. }
  cbn zeta. split; [cbn; tauto|]. split; [repeat constructor|]. split.
  { constructor. constructor; [|constructor]. split; [exact chars_utf8|]. cbn [snd]. constructor. repeat constructor; [|exact text_nil].
    apply text_tail; [repeat constructor|exact chars_utf8]. }
  split.
  { cbn [storable]. split; [repeat constructor; intros []|]. constructor; [|constructor]. cbn [fst snd]. split; [|split; [repeat constructor; discriminate|discriminate]].
    split; [discriminate|]. split; [|reflexivity]. repeat (apply SB_char; [discriminate..|]). constructor. }
  split; [reflexivity|]. split; [cbn; repeat constructor; discriminate|].
  apply As_obj. constructor; [|constructor]. split; [exact Nl|]. cbn [snd]. apply As_arr. repeat constructor.
  - exists (map PRaw chars_text ++ [PSimple x0a]). split; [apply R; [repeat constructor; discriminate|]; eapply Pc_simple; [unfold simple_escapes; cbn; eauto 10|constructor]|].
    repeat constructor; intros [].
  - exists []. split; constructor.
Qed.
Print Assumptions C71_nonvacuous.
