(** C63: the vectorised scanners, instruction by instruction, compute what a byte by byte
    reading defines, for all data; no load leaves the data and no trailing zeros of 0 are
    counted (both would be [UB]).  [sgn] says whether char is signed. *)
From Verif Require Import Base ScanModel ScanProofs VecModel VecProofs.
From Coq Require Import Lia.

(** ** Specification *)

(** The first [n] bytes of [data] are good and no further one follows directly. *)
Definition span (good : byte -> Prop) (data : bytes) (n : nat) : Prop :=
  exists pre post, data = pre ++ post /\ length pre = n /\ Forall good pre /\
    match post with [] => True | c :: _ => ~ good c end.

Definition number_byte (c : byte) : Prop := In c (s2b "0123456789.eE+-").
Definition space_byte (c : byte) : Prop := In c [x20; x09; x0a; x0d].
Definition word_byte (c : byte) : Prop :=
  In c (s2b "ABCDEFGHIJKLMNOPQRSTUVWXYZabcdefghijklmnopqrstuvwxyz0123456789_^`/.-").

(** Bytes inside a string: [walk e l e'] goes over [l] without meeting the closing quote; [e]
    and [e'] say whether the byte before [l], and the last byte of [l], is a backslash that
    escapes the next byte. *)
Inductive walk : bool -> bytes -> bool -> Prop :=
| walk_nil e : walk e [] e
| walk_escaped c l e : walk false l e -> walk true (c :: l) e
| walk_backslash l e : walk true l e -> walk false (x5c :: l) e
| walk_char c l e : c <> x5c -> c <> x22 -> walk false l e -> walk false (c :: l) e.

(** The closing quote is the [n]th byte, or [data] ends before it and [n] is its length. *)
Definition string_end (e : bool) (data : bytes) (n : nat) (e' : bool) : Prop :=
  (exists pre post, data = pre ++ x22 :: post /\ walk e pre false /\
                    n = length pre + 1 /\ e' = false) \/
  (walk e data e' /\ n = length data).

(** The newline is the [n]th byte, or there is none and [n] is the length. *)
Definition comment_end (data : bytes) (n : nat) : Prop :=
  (exists pre post, data = pre ++ x0a :: post /\ ~ In x0a pre /\ n = length pre + 1) \/
  (~ In x0a data /\ n = length data).

(** ** The byte loops meet it *)

Lemma span_count (good : byte -> Prop) p data :
  (forall c, p c = false <-> good c) -> span good data (scalar_count p data).
Proof.
  intros G. induction data as [|c tl IH].
  - exists [], []. repeat split; constructor.
  - cbn [scalar_count]. destruct (p c) eqn:P.
    + exists [], (c :: tl). repeat split; [constructor|]. rewrite <- G. congruence.
    + destruct IH as (pre & post & E & L & F & S). exists (c :: pre), post.
      rewrite E. repeat split; cbn; [congruence|constructor; [apply G; exact P|exact F]|exact S].
Qed.

Lemma in_existsb c l : existsb (Byte.eqb c) l = true <-> In c l.
Proof.
  rewrite existsb_exists. split.
  - intros (x & I & E). apply byte_eqb_eq in E. subst. exact I.
  - intros I. exists c. split; [exact I|apply byte_eqb_refl].
Qed.

Lemma number_list c : vec_number_char c = existsb (Byte.eqb c) (s2b "0123456789.eE+-").
Proof. destruct c; reflexivity. Qed.
Lemma number_good c : negb (vec_number_char c) = false <-> number_byte c.
Proof. unfold number_byte. rewrite <- in_existsb, <- number_list. apply negb_false_iff. Qed.
Lemma space_list c : vec_ws_char c = existsb (Byte.eqb c) ([x20; x09; x0a; x0d]).
Proof. destruct c; reflexivity. Qed.
Lemma space_good c : negb (vec_ws_char c) = false <-> space_byte c.
Proof. unfold space_byte. rewrite <- in_existsb, <- space_list. apply negb_false_iff. Qed.
Lemma word_list c : vec_ascii_char c = existsb (Byte.eqb c) (s2b "ABCDEFGHIJKLMNOPQRSTUVWXYZabcdefghijklmnopqrstuvwxyz0123456789_^`/.-").
Proof. destruct c; reflexivity. Qed.
Lemma word_good c : negb (vec_ascii_char c) = false <-> word_byte c.
Proof. unfold word_byte. rewrite <- in_existsb, <- word_list. apply negb_false_iff. Qed.

Lemma number_span i data : i <> Scalar -> span number_byte data (number_vec i data).
Proof.
  intros I. rewrite number_vec_eq by exact I. apply span_count. intros c.
  rewrite <- number_class. apply number_good.
Qed.

Lemma comment_spec data : comment_end data (comment_vec data).
Proof.
  rewrite comment_vec_eq. cbv zeta.
  assert (G : forall c, Byte.eqb c c_nl = false <-> c <> x0a) by (intros; apply byte_eqb_neq).
  destruct (span_count (fun c => c <> x0a) (fun c => Byte.eqb c c_nl) data G)
    as (pre & post & E & L & F & St).
  rewrite <- L. rewrite Forall_forall in F.
  assert (N : ~ In x0a pre) by (intros I; exact (F _ I eq_refl)).
  destruct post as [|c post].
  - rewrite app_nil_r in E. subst pre. rewrite Nat.ltb_irrefl. right. auto.
  - left. exists pre, post.
    assert (c = x0a).
    { destruct (byte_eqb_eq c x0a) as [A _]. destruct (Byte.eqb c x0a) eqn:B; [auto|].
      exfalso. apply St. apply byte_eqb_neq. exact B. }
    subst c. rewrite E, app_length. cbn [length].
    destruct (Nat.ltb_spec (length pre) (length pre + S (length post))); [|lia].
    repeat split; [exact N|lia].
Qed.

Lemma bytes_spec data : forall e n m e', str_bytes e data n = (m, e') ->
  exists k, m = n + k /\ string_end e data k e'.
Proof.
  induction data as [|c tl IH]; intros e n m e'; cbn [str_bytes].
  - intros H. injection H as <- <-. exists 0. split; [lia|]. right. split; [constructor|reflexivity].
  - assert (K : forall e1, str_bytes e1 tl (S n) = (m, e') ->
      (forall l e2, walk e1 l e2 -> walk e (c :: l) e2) ->
      exists k, m = n + k /\ string_end e (c :: tl) k e').
    { intros e1 H W. destruct (IH _ _ _ _ H) as (k & -> & R). exists (S k). split; [lia|].
      destruct R as [(pre & post & -> & R & -> & ->)|(R & ->)].
      - left. exists (c :: pre), post. repeat split; auto.
      - right. split; [auto|reflexivity]. }
    destruct e.
    + intros H. apply (K false H). intros l e2 R. constructor. exact R.
    + destruct (Byte.eqb c c_backslash) eqn:B.
      * apply byte_eqb_eq in B. subst c. intros H. apply (K true H).
        intros l e2 R. constructor. exact R.
      * apply byte_eqb_neq in B. destruct (Byte.eqb c c_quote) eqn:Q.
        -- apply byte_eqb_eq in Q. subst c. intros H. injection H as <- <-. exists 1.
           split; [lia|]. left. exists [], tl. repeat split. constructor.
        -- apply byte_eqb_neq in Q. intros H. apply (K false H).
           intros l e2 R. constructor; assumption.
Qed.

Lemma walk_plain pre : Forall (fun c => is_str_special c = false) pre ->
  forall l e, walk false l e -> walk false (pre ++ l) e.
Proof.
  induction 1 as [|c pre C _ IH]; intros l e W; [exact W|].
  unfold is_str_special in C. apply orb_false_iff in C. destruct C as [Q B].
  apply byte_eqb_neq in Q. apply byte_eqb_neq in B.
  cbn. constructor; [exact B|exact Q|apply IH; exact W].
Qed.

Lemma string_spec w data : 0 < w ->
  string_end false data (fst (findStringEnd_vec w false data)) (snd (findStringEnd_vec w false data)).
Proof.
  intros W. unfold findStringEnd_vec.
  destruct (lane_scan (S (length data)) w is_str_special data) as [n hit] eqn:E.
  destruct (lane_scan_spec _ w W _ _ _ _ (Nat.lt_succ_diag_r _) E) as (H1 & H2 & _).
  destruct (str_bytes false (skipn n data) n) as [m e'] eqn:B.
  destruct (bytes_spec _ _ _ _ _ B) as (k & -> & R). cbn [fst snd].
  pose proof (firstn_skipn n data) as D. pose proof (firstn_length_le data H1) as L.
  destruct R as [(pre & post & X & R & -> & ->)|(R & ->)].
  - left. exists (firstn n data ++ pre), post.
    rewrite <- app_assoc, <- X, D, app_length, L. repeat split; [|lia].
    apply walk_plain; assumption.
  - right. rewrite skipn_length. split; [|lia].
    rewrite <- D. apply walk_plain; assumption.
Qed.

Lemma string_short w data e : length data < w ->
  string_end e data (fst (findStringEnd_vec w e data)) (snd (findStringEnd_vec w e data)).
Proof.
  intros W. unfold findStringEnd_vec. cbn [lane_scan].
  destruct (Nat.leb_spec w (length data)); [lia|]. cbn [skipn].
  destruct (str_bytes e data 0) as [m e'] eqn:B.
  destruct (bytes_spec _ _ _ _ _ B) as (k & -> & R). exact R.
Qed.

(** ** The theorems *)

(** The number scanners give the length of the longest run of number characters. *)
Theorem C63_number sgn data :
  (exists n, findNumberEndSIMD_sse2 sgn data = Ok n /\ span number_byte data n) /\
  (exists n, findNumberEndSIMD_sse42 sgn data = Ok n /\ span number_byte data n) /\
  (exists n, findNumberEndNEON sgn data = Ok n /\ span number_byte data n).
Proof.
  repeat split; eexists; (split; [first [apply number_sse2|apply number_sse42|apply number_neon]|]);
    apply number_span; discriminate.
Qed.

Theorem C63_whitespace sgn data :
  (exists n, skipWhitespaceSIMD sgn data = Ok n /\ span space_byte data n) /\
  (exists n, skipWhitespaceAVX2 sgn data = Ok n /\ span space_byte data n) /\
  (exists n, skipWhitespaceNEON sgn data = Ok n /\ span space_byte data n).
Proof.
  repeat split; eexists; (split; [first [apply ws_simd|apply ws_avx2|apply ws_neon]|]);
    rewrite simd_count_eq by lia; apply span_count, space_good.
Qed.

Theorem C63_word sgn data :
  (exists n, findAsciiEndSIMD sgn data = Ok n /\ span word_byte data n) /\
  (exists n, findAsciiEndAVX2 sgn data = Ok n /\ span word_byte data n) /\
  (exists n, findAsciiEndNEON sgn data = Ok n /\ span word_byte data n).
Proof.
  repeat split; eexists; (split; [first [apply ascii_simd|apply ascii_avx2|apply ascii_neon]|]);
    rewrite simd_count_eq by lia; apply span_count, word_good.
Qed.

Theorem C63_comment sgn data :
  (exists n, skipCommentSIMD sgn data = Ok n /\ comment_end data n) /\
  (exists n, skipCommentAVX2 sgn data = Ok n /\ comment_end data n) /\
  (exists n, skipCommentNEON sgn data = Ok n /\ comment_end data n).
Proof.
  repeat split; eexists; (split; [first [apply comment_simd|apply comment_avx2|apply comment_neon]|]);
    apply comment_spec.
Qed.

(** The string scanners, entered outside an escape sequence. *)
Theorem C63_string sgn data :
  (exists n e, findStringEndSIMD sgn data false = Ok (n, e) /\ string_end false data n e) /\
  (exists n e, findStringEndAVX2 sgn data false = Ok (n, e) /\ string_end false data n e) /\
  (exists n e, findStringEndNEON sgn data false = Ok (n, e) /\ string_end false data n e).
Proof.
  rewrite string_simd, string_avx2, string_neon.
  repeat split; do 2 eexists; (split; [rewrite <- surjective_pairing; reflexivity|]);
    apply string_spec; lia.
Qed.

(** Entered inside an escape sequence they are right on data shorter than a register ... *)
Theorem C63_string_escaped_short sgn data :
  (length data < 16 -> exists n e, findStringEndSIMD sgn data true = Ok (n, e) /\
                                    string_end true data n e) /\
  (length data < 32 -> exists n e, findStringEndAVX2 sgn data true = Ok (n, e) /\
                                    string_end true data n e) /\
  (length data < 16 -> exists n e, findStringEndNEON sgn data true = Ok (n, e) /\
                                    string_end true data n e).
Proof.
  rewrite string_simd, string_avx2, string_neon.
  repeat split; intros L; do 2 eexists; (split; [rewrite <- surjective_pairing; reflexivity|]);
    apply string_short; exact L.
Qed.

(** ... and wrong on longer data: they run over the closing quote (see C06). *)
Definition after_backslash : bytes := s2b "n more text in a string"" , 1 , 2 , 3 ".

Theorem C63_string_escaped_refuted :
  walk true (firstn 23 after_backslash) false /\ nth 23 after_backslash x00 = x22 /\
  findStringEndSIMD true after_backslash true = Ok (length after_backslash, false) /\
  findStringEndAVX2 true after_backslash true = Ok (length after_backslash, false) /\
  findStringEndNEON false after_backslash true = Ok (length after_backslash, false).
Proof.
  split; [cbn; repeat (constructor; try discriminate)|].
  split; [reflexivity|]. split; [vm_compute; reflexivity|].
  split; vm_compute; reflexivity.
Qed.

(** The functions of the tokenizer that call them are what ScanModel.v, on which the model
    of the tokenizer rests, says they are. *)
Theorem C63_tokenizer i sgn esc nl rest :
  vfindStringEnd i sgn esc rest = Ok (findStringEnd i esc rest) /\
  vfindAsciiEnd i sgn rest = Ok (findAsciiEnd i rest) /\
  vfindNumberEnd i sgn rest = Ok (findNumberEnd i rest) /\
  vws_skip i sgn rest = Ok (ws_skip i rest) /\
  vskipComment i sgn nl rest = Ok (skipComment i nl rest).
Proof.
  repeat split; [apply vfindStringEnd_ok|apply vfindAsciiEnd_ok|apply vfindNumberEnd_ok
                |apply vws_skip_ok|apply vskipComment_ok].
Qed.

(** Hence all builds give the same answers for numbers, words, comments, and for strings
    entered outside an escape sequence. *)
Theorem C63_builds i j sgn sgn' nl rest :
  vfindStringEnd i sgn false rest = vfindStringEnd j sgn' false rest /\
  vfindAsciiEnd i sgn rest = vfindAsciiEnd j sgn' rest /\
  vfindNumberEnd i sgn rest = vfindNumberEnd j sgn' rest /\
  vskipComment i sgn nl rest = vskipComment j sgn' nl rest.
Proof.
  rewrite !vfindStringEnd_ok, !vfindAsciiEnd_ok, !vfindNumberEnd_ok, !vskipComment_ok.
  rewrite (findStringEnd_isa i), (findStringEnd_isa j), (findAsciiEnd_isa i), (findAsciiEnd_isa j),
    (findNumberEnd_isa i), (findNumberEnd_isa j), (skipComment_isa i), (skipComment_isa j).
  repeat split.
Qed.

(** The specification determines the answer. *)
Theorem C63_span_unique good data n m : span good data n -> span good data m -> n = m.
Proof.
  intros (p & q & -> & <- & F & S) (p' & q' & E & <- & F' & S').
  revert p' E F'. induction p as [|c p IH]; intros [|c' p'] E F'; cbn in *.
  - reflexivity.
  - subst q. inversion F'; subst. contradiction.
  - subst q'. inversion F; subst. contradiction.
  - injection E as <- E. inversion F; subst. inversion F'; subst. f_equal. apply IH; assumption.
Qed.

Lemma walk_bytes e l e1 : walk e l e1 -> forall rest n,
  str_bytes e (l ++ rest) n = str_bytes e1 rest (n + length l).
Proof.
  induction 1 as [e|c l e _ IH|l e _ IH|c l e B Q _ IH]; intros rest n; cbn [app length].
  - rewrite Nat.add_0_r. reflexivity.
  - cbn [str_bytes]. rewrite IH. f_equal. lia.
  - cbn [str_bytes]. rewrite (IH rest (S n)). cbn. f_equal. lia.
  - cbn [str_bytes]. apply byte_eqb_neq in B. apply byte_eqb_neq in Q.
    unfold c_backslash, c_quote. rewrite B, Q, IH. f_equal. lia.
Qed.

Theorem C63_string_unique e data n e1 m e2 :
  string_end e data n e1 -> string_end e data m e2 -> n = m /\ e1 = e2.
Proof.
  assert (U : forall n e1, string_end e data n e1 -> str_bytes e data 0 = (n, e1)).
  { intros k e' [(pre & post & -> & W & -> & ->)|(W & ->)].
    - rewrite (walk_bytes _ _ _ W). cbn. f_equal. lia.
    - rewrite <- (app_nil_r data) at 1. rewrite (walk_bytes _ _ _ W). reflexivity. }
  intros A B. apply U in A. apply U in B. rewrite A in B. injection B as -> ->. split; reflexivity.
Qed.

(** ** Examples *)

(** A number of 20 characters followed by text: the vector loop stops in the second chunk. *)
Example C63_ex_number :
  let data := s2b "-123456.7890123e+456, and more text behind it" in
  findNumberEndSIMD_sse42 true data = Ok 20 /\ findNumberEndNEON false data = Ok 20 /\
  span number_byte data 20.
Proof.
  cbv zeta. split; [vm_compute; reflexivity|]. split; [vm_compute; reflexivity|].
  destruct (C63_number true (s2b "-123456.7890123e+456, and more text behind it"))
    as (_ & (n & E & S) & _).
  vm_compute in E. injection E as <-. exact S.
Qed.

(** A string of 38 bytes with an escaped quote; 36 spaces and tabs before a bracket. *)
Example C63_ex_string :
  findStringEndAVX2 true (s2b "a text with a quote in it: \"" goes on"", x and y") false
  = Ok (38, false).
Proof. vm_compute. reflexivity. Qed.

Example C63_ex_space :
  let data := repeat x20 20 ++ repeat x09 16 ++ s2b "[1, 2, 3]" in
  skipWhitespaceSIMD true data = Ok 36 /\ skipWhitespaceAVX2 true data = Ok 36 /\
  skipWhitespaceNEON false data = Ok 36.
Proof. cbv zeta. split; [vm_compute; reflexivity|]. split; vm_compute; reflexivity. Qed.

(** A byte above 127 stops the word scanners whether or not char is signed. *)
Example C63_ex_word :
  let data := s2b "some_long^word/with.dots-" ++ [xc3; xa9] ++ s2b "and more to fill a register" in
  findAsciiEndSIMD true data = Ok 25 /\ findAsciiEndAVX2 true data = Ok 25 /\
  findAsciiEndNEON false data = Ok 25.
Proof. cbv zeta. split; [vm_compute; reflexivity|]. split; vm_compute; reflexivity. Qed.

Print Assumptions C63_number.
Print Assumptions C63_whitespace.
Print Assumptions C63_word.
Print Assumptions C63_comment.
Print Assumptions C63_string.
Print Assumptions C63_string_escaped_short.
Print Assumptions C63_string_escaped_refuted.
Print Assumptions C63_tokenizer.
Print Assumptions C63_builds.
Print Assumptions C63_span_unique.
Print Assumptions C63_string_unique.
