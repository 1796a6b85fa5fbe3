(** How the three scanning loops of the tokenizer cross the gaps between tokens. *)
From Verif Require Import Tactics Base ScanModel ScanProofs TokModel TokLoops JsonSpec.
From Coq Require Import Lia ZifyBool ZifyNat ZifyN.

(** All three loops cross [w]; comments may move cursor_index on the way. *)
Record skips (o : opts) (w : bytes) : Prop := {
  sk_fs : forall rest pos cur, cur <= pos -> exists cur', cur' <= pos + length w /\
    fsnv_loop (S (length (w ++ rest))) o (w ++ rest) pos cur =
    fsnv_loop (S (length rest)) o rest (pos + length w) cur';
  sk_fd : forall ct rest pos cur, cur <= pos -> exists cur', cur' <= pos + length w /\
    fdelim_loop (S (length (w ++ rest))) o ct (w ++ rest) pos cur =
    fdelim_loop (S (length rest)) o ct rest (pos + length w) cur';
  sk_ft : forall rest pos cur, cur <= pos -> exists cur', cur' <= pos + length w /\
    ftend_loop (S (length (w ++ rest))) o (w ++ rest) pos cur =
    ftend_loop (S (length rest)) o rest (pos + length w) cur' }.

Lemma is_ws_class c : is_ws c <-> vec_ws_char c = true.
Proof.
  unfold is_ws, vec_ws_char. rewrite !orb_true_iff, !byte_eqb_eq. tauto.
Qed.

Lemma ws_class w : ws w -> Forall (fun c => vec_ws_char c = true) w.
Proof. apply Forall_impl. intros c. apply is_ws_class. Qed.

Lemma skips_nil o : skips o [].
Proof. split; intros; exists cur; cbn [app length]; rewrite Nat.add_0_r; auto. Qed.

(** One whitespace character in front. *)
Lemma skips_ws_cons o c w :
  is_ws c -> (o_nl o = true -> c <> c_nl) -> skips o w -> skips o (c :: w).
Proof.
  intros Hc Hnl [H1 H2 H3]. apply is_ws_class in Hc.
  destruct (vec_ws_class c Hc) as (E1 & E2 & E3 & E4 & E5 & E6 & E7 & E8 & E9 & E10 & _).
  assert (Hn : o_nl o && Byte.eqb c c_nl = false).
  { destruct (o_nl o); [|reflexivity]. cbn [andb]. apply byte_eqb_neq. auto. }
  split.
  - intros rest pos cur Hp. destruct (H1 rest (S pos) cur ltac:(alia)) as (cur' & Hle & E).
    exists cur'. cbn [length]. split; [alia|].
    change (length ((c :: w) ++ rest)) with (S (length (w ++ rest))).
    remember (S (length (w ++ rest))) as f eqn:Hf. remember (S (length rest)) as g eqn:Hg.
    cbn [app fsnv_loop]. rewrite E6, andb_false_r. cbn [andb].
    rewrite E1, E2, E3, E4, E, Nat.add_succ_comm. reflexivity.
  - intros ct rest pos cur Hp. destruct (H2 ct rest (S pos) cur ltac:(alia)) as (cur' & Hle & E).
    exists cur'. cbn [length]. split; [alia|].
    change (length ((c :: w) ++ rest)) with (S (length (w ++ rest))).
    remember (S (length (w ++ rest))) as f eqn:Hf. remember (S (length rest)) as g eqn:Hg.
    cbn [app fdelim_loop]. rewrite E6, andb_false_r. cbn [andb].
    rewrite E7, E8, E9, Hn, E5. cbn [orb negb]. rewrite E, Nat.add_succ_comm. reflexivity.
  - intros rest pos cur Hp. destruct (H3 rest (S pos) cur ltac:(alia)) as (cur' & Hle & E).
    exists cur'. cbn [length]. split; [alia|].
    change (length ((c :: w) ++ rest)) with (S (length (w ++ rest))).
    remember (S (length (w ++ rest))) as f eqn:Hf. remember (S (length rest)) as g eqn:Hg.
    cbn [app ftend_loop]. rewrite E6, andb_false_r. cbn [andb].
    rewrite E8, E9, E10, E5. cbn [orb].
    destruct (Byte.eqb c c_nl).
    + rewrite andb_true_r in Hn. rewrite Hn, E, Nat.add_succ_comm. reflexivity.
    + rewrite E, Nat.add_succ_comm. reflexivity.
Qed.

Lemma find_index_app p l c rest :
  Forall (fun x => p x = false) l -> p c = true -> find_index p (l ++ c :: rest) = Some (length l).
Proof.
  induction 1 as [|x l Hx Hl IH]; intros Hc; cbn [app find_index length].
  - rewrite Hc. reflexivity.
  - rewrite Hx, IH by assumption. reflexivity.
Qed.

Lemma comment_skip o body w rest :
  o_nl o = false -> ~ In x0a body ->
  skipComment (o_isa o) (o_nl o) (body ++ x0a :: w ++ rest) = Some (length body + 1).
Proof.
  intros Hnl Hb. rewrite skipComment_isa. cbn [skipComment]. unfold comment_scalar.
  rewrite find_index_app, Hnl by
    (try reflexivity; apply Forall_forall; intros x Hx; apply byte_eqb_neq; intros ->; auto).
  rewrite Nat.add_1_r. reflexivity.
Qed.

Lemma skipn_body body (w : bytes) : skipn (length body + 1) (body ++ x0a :: w) = w.
Proof.
  rewrite skipn_app, skipn_all2 by lia.
  replace (length body + 1 - length body) with 1 by lia. reflexivity.
Qed.

(** One comment in front. *)
Lemma skips_comment o body w :
  o_comments o = true -> o_nl o = false -> ~ In x0a body -> skips o w ->
  skips o (x2f :: x2f :: body ++ x0a :: w).
Proof.
  intros Hc Hnl Hb [H1 H2 H3].
  assert (El : forall rest : bytes, length ((x2f :: x2f :: body ++ x0a :: w) ++ rest) =
                           S (S (length body + S (length (w ++ rest))))).
  { intros. cbn [app length]. rewrite <- app_assoc, app_length. reflexivity. }
  assert (Ea : forall rest : bytes, (x2f :: x2f :: body ++ x0a :: w) ++ rest =
                          x2f :: x2f :: body ++ x0a :: (w ++ rest)).
  { intros. cbn [app]. rewrite <- app_assoc. reflexivity. }
  assert (Ep : forall pos, pos + 2 + (length body + 1) + length w =
                           pos + length (x2f :: x2f :: body ++ x0a :: w)).
  { intros. cbn [length]. rewrite app_length. cbn [length]. lia. }
  split.
  - intros rest pos cur Hp.
    destruct (H1 rest (pos + 2 + (length body + 1)) (pos + 2 + (length body + 1)) ltac:(alia))
      as (cur' & Hle & E).
    exists cur'. rewrite <- Ep. split; [assumption|]. rewrite <- E, El, Ea.
    remember (S (S (length body + S (length (w ++ rest))))) as f eqn:Hf.
    remember (S (length (w ++ rest))) as g eqn:Hg.
    cbn [fsnv_loop starts_slash]. rewrite Hc, !byte_eqb_refl. cbn [andb skipn].
    rewrite comment_skip, skipn_body by assumption.
    apply fsnv_fuel; clear - Hf Hg; lia.
  - intros ct rest pos cur Hp.
    destruct (H2 ct rest (pos + 2 + (length body + 1)) (pos + 2 + (length body + 1)) ltac:(alia))
      as (cur' & Hle & E).
    exists cur'. rewrite <- Ep. split; [assumption|]. rewrite <- E, El, Ea.
    remember (S (S (length body + S (length (w ++ rest))))) as f eqn:Hf.
    remember (S (length (w ++ rest))) as g eqn:Hg.
    cbn [fdelim_loop starts_slash]. rewrite Hc, !byte_eqb_refl. cbn [andb skipn].
    rewrite comment_skip, skipn_body by assumption.
    apply fdelim_fuel; clear - Hf Hg; lia.
  - intros rest pos cur Hp.
    destruct (H3 rest (pos + 2 + (length body + 1)) (pos + 2 + (length body + 1)) ltac:(alia))
      as (cur' & Hle & E).
    exists cur'. rewrite <- Ep. split; [assumption|]. rewrite <- E, El, Ea.
    remember (S (S (length body + S (length (w ++ rest))))) as f eqn:Hf.
    remember (S (length (w ++ rest))) as g eqn:Hg.
    cbn [ftend_loop starts_slash]. rewrite Hc, !byte_eqb_refl. cbn [andb skipn].
    rewrite comment_skip, skipn_body by assumption.
    apply ftend_fuel; clear - Hf Hg; lia.
Qed.

Lemma skips_ws o w : o_nl o = false -> ws w -> skips o w.
Proof.
  intros Hnl. induction 1; [apply skips_nil|apply skips_ws_cons; auto; congruence].
Qed.

Lemma skips_one_line o w : ws w -> ~ In x0a w -> skips o w.
Proof.
  induction 1; intros Hn; [apply skips_nil|]. cbn [In] in Hn.
  apply skips_ws_cons; [assumption| |auto]. intros _ ->. apply Hn. left. reflexivity.
Qed.

Lemma skips_comments o w :
  o_comments o = true -> o_nl o = false -> ws_comments w -> skips o w.
Proof.
  intros Hc Hnl. induction 1; [apply skips_nil|apply skips_ws_cons; auto; congruence|].
  apply skips_comment; auto.
Qed.

(** ** Layouts the tokenizer can cross *)

(** First bytes that end a number or a word. *)
Definition stops_word (w : bytes) : Prop :=
  match w with [] => True | c :: _ => vec_ascii_char c = false /\ c <> x00 end.
Definition stops_number (w : bytes) : Prop :=
  match w with [] => True | c :: _ => vec_number_char c = false end.

Record crosses (o : opts) (L : layout) : Prop := {
  cr_gap : forall w, gap L w -> skips (scalar_opts o) w;
  cr_after : forall v w, gap_after L v w -> skips (scalar_opts o) w;
  cr_number : forall v w, gap_after L v w -> stops_number w;
  cr_word : forall v w, is_word v -> gap_after L v w -> stops_word w }.

Lemma is_ws_stops c : is_ws c -> vec_ascii_char c = false /\ c <> x00 /\ vec_number_char c = false.
Proof. intros [->|[->|[->|]]]; subst; repeat split; try reflexivity; discriminate. Qed.

Lemma ws_stops w : ws w -> stops_number w /\ stops_word w.
Proof.
  destruct 1 as [|c w Hc Hw]; cbn; [auto|]. destruct (is_ws_stops c Hc) as (? & ? & ?). auto.
Qed.

Lemma crosses_plain o : o_nl o = false -> crosses o plain.
Proof.
  intros Hnl. split; cbn [plain gap gap_after]; intros.
  - apply skips_ws; auto.
  - apply skips_ws; auto.
  - apply ws_stops; auto.
  - apply ws_stops; auto.
Qed.

Lemma crosses_one_line o : crosses o one_line.
Proof.
  split; cbn [one_line gap gap_after].
  - intros w [H1 H2]. apply skips_one_line; auto.
  - intros _ w [H1 H2]. apply skips_one_line; auto.
  - intros _ w [H1 H2]. apply ws_stops; auto.
  - intros _ w _ [H1 H2]. apply ws_stops; auto.
Qed.

Lemma crosses_commented o : o_comments o = true -> o_nl o = false -> crosses o commented.
Proof.
  intros Hc Hnl. split; cbn [commented gap gap_after].
  - intros w H. apply skips_comments; auto.
  - intros v w [H1 _]. apply skips_comments; auto.
  - intros v w [H1 _]. destruct H1 as [|c w Hw ?|body w]; cbn [stops_number].
    + exact I.
    + apply is_ws_stops; auto.
    + reflexivity.
  - intros v w Hv [H1 H2]. specialize (H2 Hv).
    destruct H1 as [|c w Hw ?|body w]; cbn [stops_word].
    + exact I.
    + destruct (is_ws_stops c Hw) as (? & ? & ?). auto.
    + exfalso. eapply H2. reflexivity.
Qed.
