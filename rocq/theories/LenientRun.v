(** The byte machine of TokStream.v and the grammar of LenientSpec.v. *)
From Verif Require Import Base ScanModel ScanProofs TokModel TokLoops TokProofs TokSpec JsonSpec
  TokStream TokStreamProofs TokStreamNext TokPlace LenientSpec.
From Coq Require Import Lia ZifyBool ZifyNat ZifyN.

Definition all_dev : deviation -> Prop := fun _ => True.

(** ** Classes of bytes *)

Definition memb (c : byte) (l : bytes) : bool := existsb (Byte.eqb c) l.
Lemma memb_in c l : memb c l = true <-> In c l.
Proof.
  unfold memb. rewrite existsb_exists. split.
  - intros (x & H & E). apply byte_eqb_eq in E. subst. exact H.
  - intros H. exists c. split; [exact H|apply byte_eqb_refl].
Qed.

Definition digitb (c : byte) : bool := ((48 <=? byte_val c) && (byte_val c <=? 57))%N.
Definition letterb (c : byte) : bool :=
  (((65 <=? byte_val c) && (byte_val c <=? 90)) || ((97 <=? byte_val c) && (byte_val c <=? 122)))%N.
Lemma digitb_spec c : digitb c = true <-> is_digit c.
Proof. unfold digitb, is_digit. rewrite andb_true_iff, !N.leb_le. reflexivity. Qed.
Lemma letterb_spec c : letterb c = true <-> is_letter c.
Proof. unfold letterb, is_letter. rewrite orb_true_iff, !andb_true_iff, !N.leb_le. reflexivity. Qed.

Definition wsb (c : byte) : bool := memb c [x20; x09; x0a; x0d].
Lemma wsb_spec c : wsb c = true <-> is_ws c.
Proof. unfold wsb. rewrite memb_in. unfold is_ws. cbn. intuition. Qed.

Definition skipb (c : byte) : bool := wsb c || memb c junk.
Definition skipsb (c : byte) : bool :=
  match start_class c with None => negb (lookup c =? 0)%N | Some _ => false end.

Lemma skipsb_class : forall c, skipsb c = (skipb c || Byte.eqb c c_nul).
Proof. destruct c; reflexivity. Qed.
Lemma skipsb_skips c : skipsb c = true <-> skips c.
Proof.
  unfold skipsb, skips. destruct (start_class c); [split; [discriminate|intros [X _]; discriminate]|].
  destruct (lookup c =? 0)%N; cbn; split; auto; try discriminate. intros [_ X]. discriminate.
Qed.
Lemma skipb_spec c : skipb c = true <-> is_ws c \/ (all_dev DJunk /\ In c junk).
Proof. unfold skipb. rewrite orb_true_iff, wsb_spec, memb_in. unfold all_dev. tauto. Qed.

Lemma delim_class : forall c, has c L_WhiteSpaceOrNull = (wsb c || Byte.eqb c c_nul).
Proof. destruct c; reflexivity. Qed.

Definition starts_word (c : byte) : bool := match start_class c with Some TAscii => true | _ => false end.
Definition starts_number (c : byte) : bool := match start_class c with Some TNumber => true | _ => false end.
Lemma starts_word_class : forall c, starts_word c = letterb c.
Proof. destruct c; reflexivity. Qed.
Lemma starts_number_class : forall c, starts_number c = (digitb c || memb c [x2b; x2d]).
Proof. destruct c; reflexivity. Qed.
Lemma word_cont_class : forall c, word_cont TAscii c = (letterb c || digitb c || (memb c (x2d :: junk) && negb (Byte.eqb c x5c))).
Proof. destruct c; reflexivity. Qed.
Lemma num_cont_class : forall c, word_cont TNumber c = (digitb c || memb c [x2b; x2d; x2e; x45; x65]).
Proof. destruct c; reflexivity. Qed.

Lemma word_cont_spec c : word_cont TAscii c = true <-> bare_char c.
Proof.
  rewrite word_cont_class. unfold bare_char. rewrite !orb_true_iff, andb_true_iff, letterb_spec, digitb_spec, memb_in.
  rewrite negb_true_iff, byte_eqb_neq. tauto.
Qed.
Lemma num_cont_spec c : word_cont TNumber c = true <-> num_char c.
Proof.
  rewrite num_cont_class. unfold num_char. rewrite orb_true_iff, digitb_spec, memb_in. cbn. intuition.
Qed.
Lemma start_word_spec c : start_class c = Some TAscii <-> is_letter c.
Proof.
  rewrite <- letterb_spec, <- starts_word_class. unfold starts_word.
  destruct (start_class c) as [[]|]; split; intros X; try discriminate X; reflexivity.
Qed.
Lemma start_number_spec c : start_class c = Some TNumber <-> is_digit c \/ c = x2b \/ c = x2d.
Proof.
  transitivity (starts_number c = true).
  - unfold starts_number. destruct (start_class c) as [[]|]; split; intros X; try discriminate X; reflexivity.
  - rewrite starts_number_class, orb_true_iff, digitb_spec, memb_in. cbn. intuition.
Qed.

(** The byte after a scalar: whitespace, comma or bracket. *)
Definition ends_word (l : bytes) : Prop :=
  match l with [] => False | c :: _ => word_cont TAscii c = false /\ word_cont TNumber c = false end.

Lemma ws_ends_word w l : ws w -> ends_word l -> ends_word (w ++ l).
Proof.
  intros Hw Hl. destruct w as [|c w]; [exact Hl|]. inversion Hw as [|? ? Hc _]. subst.
  destruct Hc as [->|[->|[->| ->]]]; split; reflexivity.
Qed.

(** ** Splitting *)

Lemma split_while (p : byte -> bool) l : exists w l', l = w ++ l' /\ Forall (fun c => p c = true) w /\
  match l' with [] => True | c :: _ => p c = false end.
Proof.
  induction l as [|c l IH]; [exists [], []; auto|].
  destruct (p c) eqn:E; [|exists [], (c :: l); auto].
  destruct IH as (w & l' & -> & H1 & H2). exists (c :: w), l'. split; [reflexivity|]. split; [constructor; assumption|exact H2].
Qed.

Lemma str_split l : (exists b tl, l = b ++ quote :: tl /\ str_body b) \/ str_body l \/
  (exists b, l = b ++ [backslash] /\ str_body b).
Proof.
  assert (G : forall n l, length l <= n -> (exists b tl, l = b ++ quote :: tl /\ str_body b) \/ str_body l \/
    (exists b, l = b ++ [backslash] /\ str_body b)); [|apply (G (length l)); apply le_n].
  induction n as [|n IH]; intros [|c m] Hn; try (right; left; exact SB_nil); cbn in Hn; [exfalso; clear - Hn; lia|].
  destruct (Byte.eqb c quote) eqn:E1.
  { apply byte_eqb_eq in E1. subst. left. exists [], m. split; [reflexivity|constructor]. }
  destruct (Byte.eqb c backslash) eqn:E2.
  { apply byte_eqb_eq in E2. subst c. destruct m as [|d m].
    - right. right. exists []. split; [reflexivity|constructor].
    - destruct (IH m) as [(b & tl & -> & H)|[H|(b & -> & H)]]; [cbn in Hn; lia| | |].
      + left. exists (backslash :: d :: b), tl. split; [reflexivity|apply SB_esc; exact H].
      + right. left. apply SB_esc. exact H.
      + right. right. exists (backslash :: d :: b). split; [reflexivity|apply SB_esc; exact H]. }
  apply byte_eqb_neq in E1. apply byte_eqb_neq in E2.
  destruct (IH m) as [(b & tl & -> & H)|[H|(b & -> & H)]]; [lia| | |].
  - left. exists (c :: b), tl. split; [reflexivity|apply SB_char; assumption].
  - right. left. apply SB_char; assumption.
  - right. right. exists (c :: b). split; [reflexivity|apply SB_char; assumption].
Qed.

Lemma no_nul_app l1 l2 : no_nul (l1 ++ l2) <-> no_nul l1 /\ no_nul l2.
Proof. apply Forall_app. Qed.
Lemma no_nul_cons c l : no_nul (c :: l) <-> c <> c_nul /\ no_nul l.
Proof. unfold no_nul. split; [intros H; inversion H; auto|intros []; constructor; assumption]. Qed.

Lemma skip_of_skips w : no_nul w -> Forall (fun c => skipsb c = true) w -> skip all_dev w.
Proof.
  intros Hn. induction 1 as [|c w H _ IH]; [constructor|]. apply no_nul_cons in Hn. destruct Hn as [H1 H2].
  constructor; [|apply IH; exact H2]. apply skipb_spec. rewrite skipsb_class in H. apply orb_true_iff in H.
  destruct H as [H|H]; [exact H|]. apply byte_eqb_eq in H. congruence.
Qed.
Lemma skips_of_skip w : skip all_dev w -> Forall skips w.
Proof.
  apply Forall_impl. intros c H. apply skipb_spec in H. apply skipsb_skips. rewrite skipsb_class, H. reflexivity.
Qed.
Lemma ws_of_wsb w : no_nul w -> Forall (fun c => has c L_WhiteSpaceOrNull = true) w -> ws w.
Proof.
  intros Hn. induction 1 as [|c w H _ IH]; [constructor|]. apply no_nul_cons in Hn. destruct Hn as [H1 H2].
  constructor; [|apply IH; exact H2]. rewrite delim_class in H. apply orb_true_iff in H.
  destruct H as [H|H]; [apply wsb_spec; exact H|]. apply byte_eqb_eq in H. congruence.
Qed.
Lemma ws_delim w : ws w -> Forall delim_ws w.
Proof. apply Forall_impl. intros c [->|[->|[->| ->]]]; repeat split. Qed.
Lemma ws_end w : ws w -> Forall end_ws w.
Proof. apply Forall_impl. intros c [->|[->|[->| ->]]]; repeat split. Qed.

(** ** Strings and words *)

Lemma run_string o stk ex b l : str_body b -> forall acc,
  run o stk ex (PNameIn TString false acc) (b ++ l) = run o stk ex (PNameIn TString false (acc ++ b)) l.
Proof.
  induction 1 as [|c b H1 H2 H IH|c b H IH]; intros acc.
  - rewrite app_nil_r. reflexivity.
  - cbn [app run step]. apply byte_eqb_neq in H1. apply byte_eqb_neq in H2.
    change c_backslash with backslash. change c_quote with quote. rewrite H1, H2, IH, <- app_assoc. reflexivity.
  - transitivity (run o stk ex (PNameIn TString false ((acc ++ [backslash]) ++ [c])) (b ++ l)); [reflexivity|].
    rewrite IH, <- !app_assoc. reflexivity.
Qed.
Lemma run_data_string o stk ex nm nty b l : str_body b -> forall acc,
  run o stk ex (PDataIn nm nty TString false acc) (b ++ l) = run o stk ex (PDataIn nm nty TString false (acc ++ b)) l.
Proof.
  induction 1 as [|c b H1 H2 H IH|c b H IH]; intros acc.
  - rewrite app_nil_r. reflexivity.
  - cbn [app run step]. apply byte_eqb_neq in H1. apply byte_eqb_neq in H2.
    change c_backslash with backslash. change c_quote with quote. rewrite H1, H2, IH, <- app_assoc. reflexivity.
  - transitivity (run o stk ex (PDataIn nm nty TString false ((acc ++ [backslash]) ++ [c])) (b ++ l)); [reflexivity|].
    rewrite IH, <- !app_assoc. reflexivity.
Qed.
Lemma run_word o stk ex ty w l : ty = TNumber \/ ty = TAscii -> Forall (fun c => word_cont ty c = true) w -> forall acc,
  run o stk ex (PNameIn ty false acc) (w ++ l) = run o stk ex (PNameIn ty false (acc ++ w)) l.
Proof.
  intros Hty. induction 1 as [|c w H _ IH]; intros acc; [rewrite app_nil_r; reflexivity|].
  destruct Hty as [-> | ->]; cbn [app run step]; rewrite H, IH, <- app_assoc; reflexivity.
Qed.
Lemma run_data_word o stk ex nm nty ty w l : ty = TNumber \/ ty = TAscii -> Forall (fun c => word_cont ty c = true) w -> forall acc,
  run o stk ex (PDataIn nm nty ty false acc) (w ++ l) = run o stk ex (PDataIn nm nty ty false (acc ++ w)) l.
Proof.
  intros Hty. induction 1 as [|c w H _ IH]; intros acc; [rewrite app_nil_r; reflexivity|].
  destruct Hty as [-> | ->]; cbn [app run step]; rewrite H, IH, <- app_assoc; reflexivity.
Qed.
Lemma run_word_end o stk ex ty acc c l : ty = TNumber \/ ty = TAscii -> word_cont ty c = false ->
  run o stk ex (PNameIn ty false acc) (c :: l) = run o stk ex (PDelim acc (getType ty acc)) (c :: l).
Proof. intros [-> | ->] H; cbn [run step]; rewrite H; reflexivity. Qed.

(** The text, value and type of a word or number. *)
Lemma word_lexeme ty c w : (ty = TNumber \/ ty = TAscii) -> start_class c = Some ty ->
  Forall (fun c => word_cont ty c = true) w -> lexeme all_dev (c :: w) (c :: w) (getType ty (c :: w)).
Proof.
  intros [-> | ->] Hc Hw; cbn [getType].
  - apply LX_num; [|left; exact I]. exists c, w. split; [reflexivity|]. split; [apply start_number_spec; exact Hc|].
    revert Hw. apply Forall_impl. intros x. apply num_cont_spec.
  - unfold bool_or_null.
    destruct (bytes_eqb (c :: w) [x6e; x75; x6c; x6c]) eqn:E1; [apply bytes_eqb_eq in E1; rewrite E1; constructor|].
    destruct (bytes_eqb (c :: w) [x74; x72; x75; x65]) eqn:E2; [apply bytes_eqb_eq in E2; rewrite E2; constructor|].
    destruct (bytes_eqb (c :: w) [x66; x61; x6c; x73; x65]) eqn:E3; [apply bytes_eqb_eq in E3; rewrite E3; constructor|].
    apply LX_word; [exact I| |intros X..].
    + exists c, w. split; [reflexivity|]. split; [apply start_word_spec; exact Hc|].
      revert Hw. apply Forall_impl. intros x. apply word_cont_spec.
    + rewrite X in E2. discriminate E2.
    + rewrite X in E3. discriminate E3.
    + rewrite X in E1. discriminate E1.
Qed.

Lemma lexeme_word A t v ty : lexeme A t v ty -> ty <> TString ->
  exists ty0 c w, (ty0 = TNumber \/ ty0 = TAscii) /\ t = c :: w /\ v = t /\ start_class c = Some ty0 /\
    Forall (fun c => word_cont ty0 c = true) w /\ getType ty0 t = ty.
Proof.
  intros H Hn. destruct H as [raw Hb _|raw (c & w & -> & Hc & Hw) _| | | |raw _ (c & w & -> & Hc & Hw) N1 N2 N3].
  - congruence.
  - exists TNumber, c, w. repeat split; auto; [apply start_number_spec; exact Hc|].
    revert Hw. apply Forall_impl. intros x. apply num_cont_spec.
  - exists TAscii, x74, [x72; x75; x65]. repeat split; auto; repeat constructor.
  - exists TAscii, x66, [x61; x6c; x73; x65]. repeat split; auto; repeat constructor.
  - exists TAscii, x6e, [x75; x6c; x6c]. repeat split; auto; repeat constructor.
  - exists TAscii, c, w. repeat split; auto; [apply start_word_spec; exact Hc| |].
    + revert Hw. apply Forall_impl. intros x. apply word_cont_spec.
    + cbn [getType]. unfold bool_or_null.
      destruct (bytes_eqb (c :: w) [x6e; x75; x6c; x6c]) eqn:E1; [apply bytes_eqb_eq in E1; contradiction|].
      destruct (bytes_eqb (c :: w) [x74; x72; x75; x65]) eqn:E2; [apply bytes_eqb_eq in E2; contradiction|].
      destruct (bytes_eqb (c :: w) [x66; x61; x6c; x73; x65]) eqn:E3; [apply bytes_eqb_eq in E3; contradiction|].
      reflexivity.
Qed.

Lemma ends_word_ty ty l : (ty = TNumber \/ ty = TAscii) -> ends_word l ->
  exists c l', l = c :: l' /\ word_cont ty c = false.
Proof. intros [-> | ->]; destruct l as [|c l']; cbn; try tauto; intros [H1 H2]; eauto. Qed.

(** A scalar where a name or element may stand. *)
Lemma run_lexeme_name o stk ex A t v ty l : lexeme A t v ty -> ends_word l \/ ty = TString ->
  run o stk ex PName (t ++ l) = run o stk ex (PDelim v ty) l.
Proof.
  intros H Hl. destruct (type_eqb ty TString) eqn:Et.
  - apply type_eqb_eq in Et. subst ty. inversion H as [raw Hb _| | | | |]. subst.
    change (run o stk ex PName ((quote :: v ++ [quote]) ++ l))
      with (run o stk ex (PNameIn TString false []) ((v ++ [quote]) ++ l)).
    rewrite <- app_assoc, run_string by exact Hb. reflexivity.
  - assert (Hn : ty <> TString) by (intros ->; discriminate Et).
    destruct Hl as [Hl|Hl]; [|contradiction].
    destruct (lexeme_word A t v ty H Hn) as (ty0 & c & w & Hty & -> & -> & Hc & Hw & <-).
    destruct (ends_word_ty ty0 l Hty Hl) as (d & l' & -> & Hd).
    transitivity (run o stk ex (PNameIn ty0 false [c]) (w ++ d :: l')).
    + cbn [app run step]. unfold name_step. rewrite Hc. destruct Hty as [-> | ->]; reflexivity.
    + rewrite run_word by assumption. apply run_word_end; assumption.
Qed.

(** A scalar as value of a member. *)
Lemma run_lexeme_data o stk ex A nm nty t v ty l : lexeme A t v ty -> ty <> TAscii -> ends_word l \/ ty = TString ->
  run o stk ex (PData nm nty) (t ++ l) = ROut (mkSt nm nty v ty) PEnd ex l.
Proof.
  intros H Ha Hl. destruct (type_eqb ty TString) eqn:Et.
  - apply type_eqb_eq in Et. subst ty. inversion H as [raw Hb _| | | | |]. subst.
    change (run o stk ex (PData nm nty) ((quote :: v ++ [quote]) ++ l))
      with (run o stk ex (PDataIn nm nty TString false []) ((v ++ [quote]) ++ l)).
    rewrite <- app_assoc, run_data_string by exact Hb. reflexivity.
  - assert (Hn : ty <> TString) by (intros ->; discriminate Et).
    destruct Hl as [Hl|Hl]; [|contradiction].
    destruct (lexeme_word A t v ty H Hn) as (ty0 & c & w & Hty & -> & -> & Hc & Hw & <-).
    destruct (ends_word_ty ty0 l Hty Hl) as (d & l' & -> & Hd).
    transitivity (run o stk ex (PDataIn nm nty ty0 false [c]) (w ++ d :: l')).
    + cbn [app run step]. unfold data_step. rewrite Hc. destruct Hty as [-> | ->]; reflexivity.
    + rewrite run_data_word by assumption.
      assert (X : type_eqb (getType ty0 ([c] ++ w)) TAscii = false).
      { destruct (type_eqb (getType ty0 ([c] ++ w)) TAscii) eqn:E; [|reflexivity]. apply type_eqb_eq in E. contradiction. }
      destruct Hty as [-> | ->]; cbn [run step]; rewrite Hd; unfold value_done; rewrite X; reflexivity.
Qed.
