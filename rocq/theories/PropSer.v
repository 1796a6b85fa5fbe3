(** Properties C13 to C16 and C53: the serializer and reformat. *)
From Verif Require Import Base ScanModel TokModel JsonSpec TokSpec TokGap TokJsonDoc SerModel SerSpec SerProofs SerDoc LayoutSpec SerLayout PropJson.
From Coq Require Import Lia.

(** ** C13: the output does not depend on the buffers. *)

(** Any options, any tokens, any two sequences of non-empty buffers (the first may be empty): the
    same calls succeed, the bytes stored are the same, and no buffer is overrun. *)
Theorem C13_output_independent_of_buffers : forall so tks n1 n2 sup1 sup2,
  (forall k, 0 < sup1 k) -> (forall k, 0 < sup2 k) ->
  exists bs s1 s2,
    ser_writes tks (ser_make so n1 sup1) = Ok (bs, s1) /\
    ser_writes tks (ser_make so n2 sup2) = Ok (bs, s2) /\
    ser_output s1 = ser_output s2 /\ inb s1 /\ inb s2.
Proof.
  intros so tks n1 n2 sup1 sup2 H1 H2.
  assert (I0 : forall n sup, inb (ser_make so n sup)) by (intros; split; cbn; [lia|constructor]).
  destruct (ser_writes_generous tks (ser_make so n1 sup1) (I0 _ _) H1) as (s1 & A1 & A2 & _ & _ & A5).
  destruct (ser_writes_generous tks (ser_make so n2 sup2) (I0 _ _) H2) as (s2 & B1 & B2 & _ & _ & B5).
  eexists _, s1, s2. split; [exact A1|]. split; [exact B1|]. split; [rewrite A5, B5; reflexivity|auto].
Qed.
Print Assumptions C13_output_independent_of_buffers.

(** Whatever the callback supplies, also nothing: every call returns and no buffer is overrun. *)
Theorem C13_never_out_of_bounds : forall tks s, inb s ->
  exists bs s', ser_writes tks s = Ok (bs, s') /\ inb s'.
Proof. exact ser_writes_safe. Qed.
Print Assumptions C13_never_out_of_bounds.

(** A token for which there is not enough space, now or later, is reported by false. *)
Theorem C13_no_space_is_reported : forall tk s1 b1 s1' s2 t,
  inb s1 -> generous s1 -> ser_write tk s1 = Ok (b1, s1') -> ser_output s1' = ser_output s1 ++ t ->
  inb s2 -> no_supply s2 -> dr_bytes (tk_value tk) <> [] ->
  (se_first s2, se_start s2, se_opt s2) = (se_first s1, se_start s1, se_opt s1) ->
  exists b2 s2', ser_write tk s2 = Ok (b2, s2') /\ inb s2' /\
    (b2 = true -> ser_output s2' = ser_output s2 ++ t) /\ (ser_free s2 < length t -> b2 = false).
Proof.
  intros tk s1 b1 s1' s2 t I1 G1 E1 O1 I2 N2 Hv Hc. change (cfg_of s2 = cfg_of s1) in Hc.
  destruct (refused tk (cfg_of s1)) eqn:Hr.
  - assert (Hr2 : refused tk (cfg_of s2) = true) by (rewrite Hc; exact Hr).
    rewrite (ser_write_refused tk s2 Hr2). exists false, s2.
    split; [reflexivity|]. split; [exact I2|]. split; [discriminate|auto].
  - destruct (ser_write_generous tk s1 I1 G1 Hr) as (s' & A1 & _ & _ & _ & A5).
    rewrite A1 in E1. injection E1 as <- <-. rewrite O1 in A5. apply app_inv_head in A5. subst t.
    destruct (ser_write_stuck tk s2 I2 N2 Hv) as (b2 & s2' & B1 & B2 & B3). rewrite Hc in B3.
    exists b2, s2'. split; [exact B1|]. split; [exact B2|]. split; [intros Hb; apply B3, Hb|].
    intros Hlt. destruct b2; [|reflexivity]. destruct (B3 eq_refl) as [_ H]. lia.
Qed.
Print Assumptions C13_no_space_is_reported.

Definition tok (name : option bytes) (v : bytes) (t : type) : token :=
  mkTok (mkRef Elsewhere match name with Some k => k | None => [] end) (mkRef Elsewhere v)
        match name with Some _ => TString | None => TAscii end t.

(** Results, output and number of buffers used up. *)
Definition seen (r : outcome (list bool * ser)) : option (list bool * bytes * nat) :=
  match r with Ok (bs, s) => Some (bs, ser_output s, length (se_done s)) | _ => None end.

Example C13_nonvacuous :
  let ts := [tok None [lbrace] TObjectStart; tok (Some (s2b "name")) (s2b "text") TString;
             tok None [rbrace] TObjectEnd] in
  let out := s2b "{
  ""name"": ""text""
}" in
  seen (ser_writes ts (ser_make (so_make true) 0 (fun _ => 1))) = Some ([true; true; true], out, 20) /\
  seen (ser_writes ts (ser_make (so_make true) 7 (fun k => k + 2))) = Some ([true; true; true], out, 4).
Proof. split; vm_compute; reflexivity. Qed.

Example C13_no_space_example :
  seen (ser_writes [tok None (s2b "12345") TNumber] (ser_make (so_make true) 4 (fun _ => 0))) =
  Some ([false], s2b "1234", 1).
Proof. vm_compute. reflexivity. Qed.

(** ** C14: serialized tokens read back as the same tokens. *)

(** The full claim would be without the conditions on names and nesting; both are needed, see
    C14_empty_name_refuted and C16_deep_nesting_refuted.  Options: constructor and setters, except
    skipDelimiter(true). *)
Theorem C14_serialized_tokens_read_back_partial : forall so n sup o j ts,
  options_made so -> (forall k, 0 < sup k) -> o_nl o = false ->
  json_ok j -> is_container j -> names_nonempty j -> (so_depth so + N.of_nat (nesting j) <= 255)%N ->
  map tok_view ts = doc_tokens None j ->
  exists s, ser_writes ts (ser_make so n sup) = Ok (repeat true (length ts), s) /\
    doc_text plain j (ser_output s) /\
    reads_as o [ser_output s] [] (map tok_view ts) NeedMoreData.
Proof.
  intros so n sup o j ts Hso Hsup Hnl Hok Hc Hnn Hd Hts.
  destruct (doc_written j ts so n sup Hok Hnn Hc Hts Hso Hd Hsup) as (s & H1 & _ & H2).
  exists s. split; [exact H1|]. split; [exact H2|]. rewrite Hts.
  apply (doc_reads_as o plain j _ (crosses_plain o Hnl) H2).
Qed.
Print Assumptions C14_serialized_tokens_read_back_partial.

Example C14_nonvacuous : json_ok ex_doc /\ names_nonempty ex_doc /\ nesting ex_doc = 3 /\
  options_made (setShiftSize 4 (setStyle true (so_make false))).
Proof.
  split; [|split; [|split; [reflexivity|]]].
  - destruct C03_nonvacuous as (_ & w1 & t & w2 & _ & _ & H & _). exact (value_text_ok _ _ _ H).
  - repeat constructor; discriminate.
  - apply Om_shift, Om_style, Om_new.
Qed.

(** A member with the empty name loses its name: the object {"":1} is written as {1}, which is not
    even accepted back. *)
Theorem C14_empty_name_refuted :
  let j := JObj [([], JScalar (SNum (s2b "1")))] in
  let ts := [tok None [lbrace] TObjectStart; tok (Some []) (s2b "1") TNumber; tok None [rbrace] TObjectEnd] in
  json_ok j /\ map tok_view ts = doc_tokens None j /\
  exists s, ser_writes ts (ser_make (so_make false) 100 (fun _ => 1)) = Ok ([true; true; true], s) /\
    ser_output s = s2b "{1}" /\
    forall vs, ~ reads_as default_opts [ser_output s] [] vs NeedMoreData.
Proof.
  split; [|split; [reflexivity|]].
  - constructor. constructor; [|constructor]. split; [constructor|]. constructor.
    exists x31, []. split; [reflexivity|]. split; [left; unfold is_digit; vm_compute; split; discriminate|constructor].
  - match goal with |- exists s, ?x = _ /\ _ => assert (E : seen x = Some ([true; true; true], s2b "{1}", 0)) by reflexivity;
      destruct x as [[bs s]| |] eqn:Ex; try discriminate E end.
    injection E as -> E _. exists s. split; [reflexivity|]. split; [exact E|]. rewrite E. intros vs H.
    assert (R : reads_as default_opts [s2b "{1}"] [] [st_make None [lbrace] TObjectStart] ExpectedDelimiter).
    { intros nt. destruct nt. exists 3. do 2 eexists. split; vm_compute; reflexivity. }
    destruct (reads_as_det _ _ _ _ _ _ _ H R) as [_ E2]. discriminate E2.
Qed.
Print Assumptions C14_empty_name_refuted.

(** ** C15: reformat preserves the document. *)

Theorem C15_reformat_preserves_partial : forall i so n0 o j t,
  doc_text plain j t -> names_nonempty j -> options_made so ->
  (so_depth so + N.of_nat (nesting j) <= 255)%N -> o_nl o = false ->
  exists out, reformat i so n0 t = Ok (NoError, out) /\ doc_text plain j out /\
    reads_as o [t] [] (doc_tokens None j) NeedMoreData /\
    reads_as o [out] [] (doc_tokens None j) NeedMoreData.
Proof.
  intros i so n0 o j t Ht Hnn Hso Hd Hnl. destruct (reformat_doc i so n0 j t Ht Hnn Hso Hd) as (out & E & Ho).
  exists out. split; [exact E|]. split; [exact Ho|].
  split; apply (doc_reads_as o plain j _ (crosses_plain o Hnl)); assumption.
Qed.
Print Assumptions C15_reformat_preserves_partial.

(** Formatting twice is formatting once, with the second options. *)
Theorem C15_reformat_twice_partial : forall i1 i2 i3 so1 so2 n1 n2 n3 j t out,
  doc_text plain j t -> names_nonempty j -> options_made so1 ->
  (so_depth so1 + N.of_nat (nesting j) <= 255)%N ->
  reformat i1 so1 n1 t = Ok (NoError, out) -> reformat i2 so2 n2 out = reformat i3 so2 n3 t.
Proof.
  intros i1 i2 i3 so1 so2 n1 n2 n3 j t out Ht Hnn Hso Hd E.
  destruct (reformat_doc i1 so1 n1 j t Ht Hnn Hso Hd) as (out' & E' & Ho).
  rewrite E in E'. injection E' as <-. apply (reformat_same i2 i3 so2 n2 n3 j out t Ho Ht).
Qed.
Print Assumptions C15_reformat_twice_partial.

Example C15_nonvacuous :
  reformat Sse2 (so_make true) 3 ex_text = Ok (NoError, s2b "{
  ""a"": [
    -1.5e3,
    true,
    {
    },
    [
    ]
  ],
  ""b\"""": null
}") /\
  reformat Neon (so_make false) 0 ex_text = Ok (NoError, s2b "{""a"":[-1.5e3,true,{},[]],""b\"""":null}").
Proof. split; vm_compute; reflexivity. Qed.

Theorem C15_reformat_refuted :
  reformat Sse2 (so_make false) 0 (s2b "{"""":1}") = Ok (NoError, s2b "{1}").
Proof. vm_compute. reflexivity. Qed.
Print Assumptions C15_reformat_refuted.

(** ** C16: the nesting depth is limited by the serializer. *)

(** Up to 255 levels every bracket is written (also a consequence of C14). *)
Theorem C16_all_tokens_written_partial : forall so n sup j ts,
  options_made so -> (forall k, 0 < sup k) ->
  json_ok j -> is_container j -> names_nonempty j -> (so_depth so + N.of_nat (nesting j) <= 255)%N ->
  map tok_view ts = doc_tokens None j ->
  exists s, ser_writes ts (ser_make so n sup) = Ok (repeat true (length ts), s) /\
            doc_text plain j (ser_output s).
Proof.
  intros so n sup j ts Hso Hsup Hok Hc Hnn Hd Hts.
  destruct (doc_written j ts so n sup Hok Hnn Hc Hts Hso Hd Hsup) as (s & H1 & _ & H2). eauto.
Qed.
Print Assumptions C16_all_tokens_written_partial.

Fixpoint nested_arrays (n : nat) : json := match n with O => JArr [] | S m => JArr [nested_arrays m] end.

(** With 256 nested arrays the 8-bit depth counter wraps: no closing bracket is written, and
    reformat does not report an error. *)
Theorem C16_deep_nesting_refuted :
  nesting (nested_arrays 255) = 256 /\
  doc_text plain (nested_arrays 255) (repeat lbrack 256 ++ repeat rbrack 256) /\
  reformat Sse2 (so_make false) 0 (repeat lbrack 256 ++ repeat rbrack 256) = Ok (NoError, repeat lbrack 256).
Proof.
  split; [vm_compute; reflexivity|]. split.
  - split; [exact I|]. exists [], (repeat lbrack 256 ++ repeat rbrack 256), [].
    split; [constructor|]. split; [constructor|]. split; [|rewrite app_nil_r; reflexivity].
    change 256 with (S 255). generalize 255. induction n as [|n IH].
    + apply (VT_arr_empty plain []). constructor.
    + cbn [nested_arrays]. change (repeat lbrack (S (S n))) with (lbrack :: repeat lbrack (S n)).
      replace (S (S n)) with (S n + 1) by lia. rewrite (repeat_app rbrack (S n) 1).
      change (repeat rbrack 1) with [rbrack]. cbn [app].
      rewrite app_assoc. apply VT_arr.
      rewrite <- (app_nil_r (repeat lbrack (S n) ++ repeat rbrack (S n))).
      apply (ET_one plain (nested_arrays n) _ [] []); [constructor|constructor|exact IH].
  - vm_compute. reflexivity.
Qed.
Print Assumptions C16_deep_nesting_refuted.

(** ** C53: the exact layout of the output. *)

(** Pretty style with [k] blanks per level (setShiftSize), for every document without empty names
    nested at most 255 deep (C14_empty_name_refuted, C16_deep_nesting_refuted). *)
Theorem C53_pretty_layout : forall k j ts n sup,
  (k < 256)%N -> (forall m, 0 < sup m) -> names_nonempty j -> nesting j <= 255 ->
  map tok_view ts = doc_tokens None j ->
  exists s, ser_writes ts (ser_make (setShiftSize k (so_make true)) n sup) = Ok (repeat true (length ts), s) /\
    ser_output s = layout (Some k) 0 j.
Proof.
  intros k j ts n sup Hk Hs Hnn Hd Hts.
  apply doc_laid; auto. apply styled_pretty, Hk.
Qed.
Print Assumptions C53_pretty_layout.

(** The default pretty style has two blanks per level, the compact style no white space at all. *)
Theorem C53_default_layout : forall (pretty : bool) j ts n sup,
  (forall m, 0 < sup m) -> names_nonempty j -> nesting j <= 255 ->
  map tok_view ts = doc_tokens None j ->
  exists s, ser_writes ts (ser_make (so_make pretty) n sup) = Ok (repeat true (length ts), s) /\
    ser_output s = layout (if pretty then Some 2%N else None) 0 j.
Proof.
  intros [] j ts n sup Hs Hnn Hd Hts; apply doc_laid; auto; [apply styled_pretty_default|apply styled_compact].
Qed.
Print Assumptions C53_default_layout.

(** reformat turns every text of a document into that layout. *)
Theorem C53_reformat_layout : forall i (pretty : bool) n0 j t,
  doc_text plain j t -> names_nonempty j -> nesting j <= 255 ->
  reformat i (so_make pretty) n0 t = Ok (NoError, layout (if pretty then Some 2%N else None) 0 j).
Proof.
  intros i [] n0 j t Ht Hnn Hd; apply reformat_laid; auto; [apply styled_pretty_default|apply styled_compact].
Qed.
Print Assumptions C53_reformat_layout.

Example C53_nonvacuous :
  let j := JObj [(s2b "a", JArr [JScalar (SNum (s2b "1")); JArr []]); (s2b "b", JObj [])] in
  names_nonempty j /\ nesting j = 3 /\
  layout None 0 j = s2b "{""a"":[1,[]],""b"":{}}" /\
  layout (Some 2%N) 0 j = s2b "{
  ""a"": [
    1,
    [
    ]
  ],
  ""b"": {
  }
}" /\
  reformat Scalar (so_make true) 0 (s2b " {""a"":[1,[]],""b"":{}} ") = Ok (NoError, layout (Some 2%N) 0 j).
Proof.
  split; [|vm_compute; auto]. repeat constructor; discriminate.
Qed.

(** The layout does not follow from the style alone: after the compact style has been selected on
    pretty options, line breaks and blanks are still written, as they are with a shift size of 2
    set on compact options. *)
Theorem C53_compact_with_shift_refuted :
  reformat Scalar (setStyle false (so_make true)) 0 (s2b "[1,[2]]") =
    Ok (NoError, s2b "[
  1,
  [
    2
  ]]") /\
  reformat Scalar (setShiftSize 2 (so_make false)) 0 (s2b "[1]") = Ok (NoError, s2b "[
  1]").
Proof. split; vm_compute; reflexivity. Qed.
Print Assumptions C53_compact_with_shift_refuted.
