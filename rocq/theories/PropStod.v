(** Property C79: the numbers of a diff, with std::stod. *)
From Coq Require Import QArith Qabs Lia.
From Verif Require Import Base ScanModel TokModel JsonSpec NumSpec TokSpec MapModel MapSpec DiffModel DiffSpec StodModel StodSpec StodProofs PropTok PropDiff.

(** Every number of RFC 8259 denotes a value, and only one. *)
Theorem C79_values : forall text, rfc_number text ->
  exists v, denotes_number text v /\ forall w, denotes_number text w -> (v == w)%Q.
Proof.
  intros text H. destruct (rfc_denotes text H) as (v & D). exists v. split; [exact D|]. intros w D'.
  destruct (strtod_denotes _ _ D) as (q & E & Q), (strtod_denotes _ _ D') as (q' & E' & Q').
  rewrite <- Q, <- Q'. rewrite E in E'. injection E' as ->. reflexivity.
Qed.
Print Assumptions C79_values.

(** std::stod reads that value if it is in the range of the normal doubles, ... *)
Theorem C79_read : forall text v, denotes_number text v -> normal_range v -> exists q, stod text = Ok q /\ (q == v)%Q.
Proof. exact stod_ok. Qed.
Print Assumptions C79_read.

(** ... and throws if it is too large. *)
Theorem C79_throws : forall text v, denotes_number text v -> too_large v -> stod text = UB.
Proof. exact stod_large. Qed.
Print Assumptions C79_throws.

Lemma plain_ok text : plain_number text -> exists q, stod text = Ok q.
Proof. intros [R N]. destruct (rfc_denotes text R) as (v & D). destruct (stod_ok text v D (N v D)) as (q & E & _). eauto. Qed.

Lemma plain_comparable eq jb jd : Forall plain_number (numbers jb) -> Forall plain_number (numbers jd) -> comparable (numbers_by eq) jb jd.
Proof.
  intros Hb Hd x y Hx Hy. rewrite Forall_forall in Hb, Hd. destruct (plain_ok x (Hb x Hx)) as (p & Ep), (plain_ok y (Hd y Hy)) as (q & Eq).
  exists (eq p q). cbn [numbers_by do_same]. unfold number_same. rewrite Ep, Eq. reflexivity.
Qed.

(** The diff of any two documents whose numbers are of this kind completes, for every comparison of doubles: nothing
    is assumed about numbers any more, unlike in C42. *)
Theorem C79_completes_partial : forall eq o jb tb jd td err,
  o_nl o = false -> is_container jb -> is_container jd -> doc_text plain jb tb -> doc_text plain jd td ->
  Forall plain_number (numbers jb) -> Forall plain_number (numbers jd) ->
  exists fb b fd d s, src_of_text fb o tb = Ok (b, DNoError) /\ src_of_text fd o td = Ok (d, DNoError) /\
    run_diff (numbers_by eq) b (fresh d err) = Ok s /\ length (dt_diffs s) = length (ds_tokens d).
Proof.
  intros eq o jb tb jd td err Ho Cb Cd Tb Td Nb Nd.
  destruct (C41_text_gives_document o jb tb Ho Tb) as (fb & b & Eb & Sb), (C41_text_gives_document o jd td Ho Td) as (fd & d & Ed & Sd).
  destruct (C42_diff_completes (numbers_by eq) jb jd b d err Cb Cd (plain_comparable eq jb jd Nb Nd) Sb Sd) as (s & R & L).
  exists fb, b, fd, d, s. auto.
Qed.
Print Assumptions C79_completes_partial.

(** A document does not differ from itself.  [eq] is reflexive for == of finite doubles and for fuzzyEquals with an
    epsilon that is not negative. *)
Theorem C79_same_document_partial : forall eq j b d err, (forall x, eq x x = true) ->
  is_container j -> unique_names j -> no_nul j -> Forall plain_number (numbers j) -> src_of j b -> src_of j d ->
  exists s, run_diff (numbers_by eq) b (fresh d err) = Ok s /\ no_difference s.
Proof.
  intros eq j b d err He Cj Uj Zj Nj Sb Sd. apply (C41_same_document_partial (numbers_by eq) j); try assumption; [|apply plain_comparable; assumption].
  intros x Hx. rewrite Forall_forall in Nj. destruct (plain_ok x (Nj x Hx)) as (q & E). cbn [numbers_by do_same]. unfold number_same. rewrite E. cbn [obind]. rewrite He. reflexivity.
Qed.
Print Assumptions C79_same_document_partial.

(** Two texts of one number are the same number, however they are written. *)
Theorem C79_same_number : forall eq x y v, (forall p q, (p == q)%Q -> eq p q = true) ->
  denotes_number x v -> denotes_number y v -> normal_range v -> do_same (numbers_by eq) x y = Ok true.
Proof.
  intros eq x y v He Dx Dy R. destruct (stod_ok x v Dx R) as (p & Ep & Qp), (stod_ok y v Dy R) as (q & Eq & Qq).
  cbn [numbers_by do_same]. unfold number_same. rewrite Ep, Eq. cbn [obind]. rewrite He; [reflexivity|]. rewrite Qp, Qq. reflexivity.
Qed.
Print Assumptions C79_same_number.

(** A valid document with a number no double can hold: the diff with itself throws, whatever the comparison. *)
Theorem C79_out_of_range_refuted : exists j, is_container j /\ unique_names j /\ no_nul j /\ Forall rfc_number (numbers j) /\
  forall eq, run_diff (numbers_by eq) (src j) (fresh (src j) DNoError) = UB.
Proof.
  exists (JArr [JScalar (SNum (s2b "1e400"))]). split; [exact I|]. split; [repeat constructor|]. split; [repeat constructor; intros; discriminate|].
  split; [|intros eq; vm_compute; reflexivity]. constructor; [|constructor].
  exists [], [x31], [], (s2b "e400"). split; [reflexivity|]. split; [auto|].
  split; [right; exists x31, []; repeat split; try discriminate; constructor|]. split; [left; reflexivity|]. right.
  exists x65, [], (s2b "400"). split; [reflexivity|]. split; [auto|]. split; [auto|]. split; [discriminate|]. repeat (apply Forall_cons; [unfold is_digit; cbn; lia|]). constructor.
Qed.
Print Assumptions C79_out_of_range_refuted.

(** A minus sign alone is a number for the tokenizer but not for std::stod. *)
Theorem C79_sign_refuted : exists d, src_of_text 100 default_opts (s2b "[-]") = Ok (d, DNoError) /\
  forall eq, run_diff (numbers_by eq) d (fresh d DNoError) = UB.
Proof. eexists. split; [vm_compute; reflexivity|]. intros eq. vm_compute. reflexivity. Qed.
Print Assumptions C79_sign_refuted.

(** Three ways to write 3/2, one of them in a document. *)
Lemma three_halves text l n p : text = l -> dec_literal l n p -> (scaled n 10 p == 3 # 2)%Q -> (exists c r, l = c :: r /\ is_digit c) -> denotes_number text (3 # 2).
Proof. intros -> L E H. exists [], l, n, p. split; [reflexivity|]. split; [left; split; [reflexivity|symmetry; exact E]|]. auto. Qed.

Example C79_nonvacuous :
  denotes_number (s2b "1.5") (3 # 2) /\ denotes_number (s2b "15e-1") (3 # 2) /\ plain_number (s2b "1.5") /\
  too_large (scaled 1 10 400) /\
  do_same (numbers_by Qeq_bool) (s2b "1.5") (s2b "0.15E+1") = Ok true /\ do_same (numbers_by Qeq_bool) (s2b "1.5") (s2b "-1.5") = Ok false.
Proof.
  assert (Dg : forall c, digitb c = true -> is_digit c) by (intros c; apply digitb_iff).
  assert (A : denotes_number (s2b "1.5") (3 # 2)).
  { apply (three_halves _ ([x31] ++ [x2e; x35]) 15 (-1)); [reflexivity| |reflexivity|exists x31, [x2e; x35]; split; [reflexivity|apply Dg; reflexivity]].
    apply (DL_plain [x31] [x35] [x2e; x35]); [repeat constructor; apply Dg; reflexivity|repeat constructor; apply Dg; reflexivity|right; reflexivity]. }
  split; [exact A|]. split.
  { apply (three_halves _ ([x31; x35] ++ [] ++ x65 :: [x2d] ++ [x31]) 15 (-1)); [reflexivity| |reflexivity|eexists _, _; split; [reflexivity|apply Dg; reflexivity]].
    apply (DL_exp [x31; x35] [] [] x65 [x2d] [x31]); [repeat constructor; apply Dg; reflexivity|constructor|left; auto|auto|auto|split; [discriminate|repeat constructor; apply Dg; reflexivity]]. }
  split.
  { split.
    - exists [], [x31], [x2e; x35], []. split; [reflexivity|]. split; [auto|]. split.
      + right. exists x31, []. split; [reflexivity|]. split; [apply Dg; reflexivity|]. split; [discriminate|constructor].
      + split; [|left; reflexivity]. right. exists [x35]. split; [reflexivity|]. split; [discriminate|repeat constructor; apply Dg; reflexivity].
    - intros v D. destruct (strtod_denotes _ _ D) as (q & E & Q), (strtod_denotes _ _ A) as (q' & E' & Q').
      apply (normal_eq (3 # 2)); [rewrite <- Q, <- Q'; rewrite E in E'; injection E' as ->; reflexivity|].
      right. split; [vm_compute; discriminate|vm_compute; reflexivity]. }
  split; [vm_compute; discriminate|]. split; vm_compute; reflexivity.
Qed.
