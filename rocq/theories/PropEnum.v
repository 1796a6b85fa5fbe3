(** C56: the names of the enumerators of JS_ENUM. *)
From Coq Require Import Lia.
From Verif Require Import Base ScanModel TokModel JsonSpec StrSpec TokSpec NumSpec IntModel SerModel SerSpec HandlerModel HandlerSpec HandlerTree HandlerLaws HandlerProps HandlerStruct HandlerText WriteModel RoundSpec RoundProofs EnumModel.

(** ** Specification: lists of enumerators *)
Definition letter (c : byte) : Prop := (65 <= byte_val c <= 90)%N \/ (97 <= byte_val c <= 122)%N.
Definition blanks (w : bytes) : Prop := Forall (fun c => In c [x09; x0a; x0d; x20]) w.
(** A name is any run of characters but blanks, commas, NUL, quotes and backslashes; in particular of
    letters, digits, underscores and bytes of UTF-8 sequences. *)
Definition enumerator (n : bytes) : Prop :=
  n <> [] /\ Forall (fun c => ~ In c [x00; x09; x0a; x0d; x20; x2c; quote; backslash]) n.
Definition starts_with_letter (n : bytes) : Prop := exists c r, n = c :: r /\ letter c.

(** [from_letter n s]: [s] is [n] without the characters before its first letter. *)
Definition from_letter (n s : bytes) : Prop :=
  exists p, n = p ++ s /\ Forall (fun c => ~ letter c) p /\ (s = [] \/ starts_with_letter s).

(** [enum_text ns t]: [t] is a list of the enumerators [ns], with or without a comma at its end. *)
Inductive enum_text : list bytes -> bytes -> Prop :=
| Et_last w1 n w2 : blanks w1 -> enumerator n -> blanks w2 -> enum_text [n] (w1 ++ n ++ w2)
| Et_comma w1 n w2 w3 : blanks w1 -> enumerator n -> blanks w2 -> blanks w3 -> enum_text [n] (w1 ++ n ++ w2 ++ x2c :: w3)
| Et_more w1 n w2 ns t : blanks w1 -> enumerator n -> blanks w2 -> enum_text ns t -> enum_text (n :: ns) (w1 ++ n ++ w2 ++ x2c :: t).

(** ** Proofs *)
Lemma byte_eqb_iff a b : Byte.eqb a b = true <-> a = b.
Proof. split; [apply Byte.byte_dec_bl|apply Byte.byte_dec_lb]. Qed.
Lemma letter_iff c : letter c <-> is_enum_letter c = true.
Proof. unfold letter, is_enum_letter. rewrite orb_true_iff, !andb_true_iff, !N.leb_le. lia. Qed.

Lemma ends_iff c : ends_enum_name c = true <-> In c [x00; x09; x0a; x0d; x20; x2c].
Proof.
  unfold ends_enum_name. rewrite !orb_true_iff. cbn [In]. rewrite !byte_eqb_iff. intuition congruence.
Qed.

Lemma blank_no_letter c : In c [x09; x0a; x0d; x20] -> is_enum_letter c = false /\ ends_enum_name c = true /\ Byte.eqb c x2c = false.
Proof. cbn. intuition subst; reflexivity. Qed.

Lemma loop_blanks_start w : blanks w -> forall i rest k,
  enum_names_loop i (w ++ rest) FindingNameStart k = enum_names_loop (i + length w) rest FindingNameStart k.
Proof.
  induction 1 as [|c w Hc Hw IH]; intros i rest k; [cbn; f_equal; lia|].
  destruct (blank_no_letter c Hc) as (A & _). cbn [app enum_names_loop length]. rewrite A, IH. f_equal. lia.
Qed.

Lemma loop_blanks_sep w : blanks w -> forall i rest k,
  enum_names_loop i (w ++ rest) FindingSeparator k = enum_names_loop (i + length w) rest FindingSeparator k.
Proof.
  induction 1 as [|c w Hc Hw IH]; intros i rest k; [cbn; f_equal; lia|].
  destruct (blank_no_letter c Hc) as (_ & _ & A). cbn [app enum_names_loop length]. rewrite A, IH. f_equal. lia.
Qed.

Lemma loop_name r : Forall (fun c => ~ In c [x00; x09; x0a; x0d; x20; x2c; quote; backslash]) r -> forall i rest k,
  enum_names_loop i (r ++ rest) FindingNameEnd k = enum_names_loop (i + length r) rest FindingNameEnd k.
Proof.
  induction 1 as [|c r Hc Hr IH]; intros i rest k; [cbn; f_equal; lia|].
  cbn [app enum_names_loop length]. destruct (ends_enum_name c) eqn:E.
  - elim Hc. apply ends_iff in E. cbn in E |- *. tauto.
  - rewrite IH. f_equal. lia.
Qed.

(** Behind a name: blanks and a comma, or blanks and the end. *)
Lemma loop_behind_comma w i rest k : blanks w ->
  enum_names_loop i (w ++ x2c :: rest) FindingNameEnd k = (k, i - k) :: enum_names_loop (i + length w + 1) rest FindingNameStart k.
Proof.
  intros [|c w' Hc Hw].
  - cbn. f_equal. f_equal. lia.
  - destruct (blank_no_letter c Hc) as (_ & A & B). cbn [app enum_names_loop]. rewrite A, B. f_equal.
    rewrite (loop_blanks_sep w' Hw). cbn [enum_names_loop length]. cbn. f_equal. lia.
Qed.

Lemma loop_behind_end w i k : blanks w -> enum_names_loop i (w ++ [x00]) FindingNameEnd k = [(k, i - k)].
Proof.
  intros [|c w' Hc Hw]; [reflexivity|].
  destruct (blank_no_letter c Hc) as (_ & A & B). cbn [app enum_names_loop]. rewrite A, B. f_equal.
  rewrite (loop_blanks_sep w' Hw). reflexivity.
Qed.

(** The part of a name before its first letter is passed over. *)
Lemma loop_skip p : Forall (fun c => ~ letter c) p -> forall i rest k,
  enum_names_loop i (p ++ rest) FindingNameStart k = enum_names_loop (i + length p) rest FindingNameStart k.
Proof.
  induction 1 as [|c p Hc Hp IH]; intros i rest k; [cbn; f_equal; lia|].
  rewrite letter_iff in Hc. apply not_true_is_false in Hc. cbn [app enum_names_loop length]. rewrite Hc, IH. f_equal. lia.
Qed.
Lemma blanks_skip w : blanks w -> Forall (fun c => ~ letter c) w.
Proof.
  intros H. eapply Forall_impl; [|exact H]. intros c Hc. rewrite letter_iff. destruct (blank_no_letter c Hc) as (-> & _). discriminate.
Qed.

Lemma loop_item n i rest k : starts_with_letter n -> Forall (fun c => ~ In c [x00; x09; x0a; x0d; x20; x2c; quote; backslash]) n ->
  enum_names_loop i (n ++ rest) FindingNameStart k = enum_names_loop (i + length n) rest FindingNameEnd i.
Proof.
  intros (c & r & -> & Hc) Hr. apply letter_iff in Hc. inversion Hr as [|x y _ Hr']; subst.
  cbn [app enum_names_loop]. rewrite Hc, (loop_name r Hr'). cbn [length]. f_equal. lia.
Qed.

Lemma taken (pre n : bytes) (rest : bytes) : firstn (length n) (skipn (length pre) (pre ++ n ++ rest)) = n.
Proof.
  rewrite skipn_app, skipn_all, Nat.sub_diag. cbn [app skipn].
  rewrite firstn_app, Nat.sub_diag, firstn_all. cbn. apply app_nil_r.
Qed.

Definition found (all : bytes) (i : nat) (rest : bytes) (k : nat) : list bytes :=
  map (fun r => firstn (snd r) (skipn (fst r) all)) (enum_names_loop i rest FindingNameStart k).

Lemma found_skip p pre rest all k : Forall (fun c => ~ letter c) p -> all = pre ++ p ++ rest ->
  found all (length pre) (p ++ rest) k = found all (length (pre ++ p)) rest k.
Proof. intros Hp ->. unfold found. rewrite (loop_skip p Hp), app_length. reflexivity. Qed.

(** One name with what stands before and behind it; [b]: with its comma. *)
Lemma found_item (b : bool) w1 n s w2 pre rest all k :
  blanks w1 -> enumerator n -> blanks w2 -> from_letter n s -> (b = false -> rest = [x00]) ->
  let item := w1 ++ n ++ w2 ++ if b then [x2c] else [] in
  all = pre ++ item ++ rest ->
  exists k', found all (length pre) (item ++ rest) k =
    (match s with [] => [] | _ => [s] end) ++ if b then found all (length (pre ++ item)) rest k' else [].
Proof.
  intros H1 [_ Hn] H2 (p & -> & Hp & Hs) Hb item Hall. apply Forall_app in Hn. destruct Hn as [_ Hn].
  destruct Hs as [->|Hs].
  - exists k. assert (Hi : Forall (fun c => ~ letter c) item).
    { unfold item. repeat (apply Forall_app; split); auto using blanks_skip. destruct b; constructor; [|constructor]. intros H. unfold letter in H. cbn in H. lia. }
    rewrite (found_skip item pre rest all k Hi Hall). cbn [app]. destruct b; [reflexivity|].
    rewrite (Hb eq_refl). reflexivity.
  - assert (Hw : Forall (fun c => ~ letter c) (w1 ++ p)) by (apply Forall_app; split; auto using blanks_skip).
    exists (length (pre ++ w1 ++ p)).
    replace (match s with [] => [] | _ => [s] end) with [s] by (destruct Hs as (c & r & -> & _); reflexivity).
    assert (E : item ++ rest = (w1 ++ p) ++ s ++ w2 ++ (if b then [x2c] else []) ++ rest) by (unfold item; rewrite <- !app_assoc; reflexivity).
    rewrite E in *.
    assert (T : firstn (length s) (skipn (length (pre ++ w1 ++ p)) all) = s) by (rewrite Hall, (app_assoc pre (w1 ++ p) (s ++ _)); apply taken).
    rewrite (found_skip (w1 ++ p) pre _ all k Hw Hall). unfold found at 1. rewrite (loop_item s _ _ _ Hs Hn).
    destruct b.
    + cbn [app]. rewrite (loop_behind_comma w2 _ _ _ H2). cbn [map fst snd].
      replace (length (pre ++ w1 ++ p) + length s - length (pre ++ w1 ++ p)) with (length s) by lia.
      rewrite T. cbn [app]. f_equal. unfold found.
      replace (length (pre ++ item)) with (length (pre ++ w1 ++ p) + length s + length w2 + 1); [reflexivity|].
      unfold item. rewrite !app_length. cbn [length]. lia.
    + rewrite (Hb eq_refl). cbn [app]. rewrite (loop_behind_end w2 _ _ H2). cbn [map fst snd].
      replace (length (pre ++ w1 ++ p) + length s - length (pre ++ w1 ++ p)) with (length s) by lia.
      rewrite T. reflexivity.
Qed.

Lemma names_from ns t : enum_text ns t -> forall ss, Forall2 from_letter ns ss -> forall pre k all, all = pre ++ t ++ [x00] ->
  found all (length pre) (t ++ [x00]) k = filter (fun s => negb (Nat.eqb (length s) 0)) ss.
Proof.
  assert (F : forall (s : bytes) l, filter (fun s => negb (Nat.eqb (length s) 0)) (s :: l) =
    (match s with [] => [] | _ => [s] end) ++ filter (fun s => negb (Nat.eqb (length s) 0)) l) by (intros [|c r] l; reflexivity).
  induction 1 as [w1 n w2 H1 Hn H2|w1 n w2 w3 H1 Hn H2 H3|w1 n w2 ns t H1 Hn H2 Ht IH]; intros ss Hss pre k all Hall;
    inversion Hss as [|n' s ns' ss' Hs Hss']; subst n' ns' ss; rewrite F.
  - inversion Hss'; subst ss'.
    destruct (found_item false w1 n s w2 pre [x00] all k H1 Hn H2 Hs (fun _ => eq_refl)) as (k' & E); rewrite app_nil_r in *; [exact Hall|rewrite app_nil_r in E; exact E].
  - inversion Hss'; subst ss'.
    destruct (found_item true w1 n s w2 pre (w3 ++ [x00]) all k H1 Hn H2 Hs ltac:(discriminate)) as (k' & E).
    + rewrite Hall, <- !app_assoc. reflexivity.
    + rewrite <- !app_assoc in E |- *. cbn [app] in E |- *. rewrite E. f_equal.
      rewrite (found_skip w3 _ [x00]); [|apply blanks_skip; assumption|rewrite Hall, <- !app_assoc; reflexivity]. reflexivity.
  - destruct (found_item true w1 n s w2 pre (t ++ [x00]) all k H1 Hn H2 Hs ltac:(discriminate)) as (k' & E).
    + rewrite Hall, <- !app_assoc. reflexivity.
    + rewrite <- !app_assoc in E |- *. cbn [app] in E |- *. rewrite E. f_equal.
      apply IH; [exact Hss'|]. rewrite Hall, <- !app_assoc. reflexivity.
Qed.

(** ** Theorems *)

(** Exactly what is found: every enumerator from its first letter on, and nothing for an enumerator without
    letters. *)
Theorem C56_names_found : forall ns t ss, enum_text ns t -> Forall2 from_letter ns ss ->
  populateEnumNames t = filter (fun s => negb (Nat.eqb (length s) 0)) ss.
Proof. intros ns t ss H Hs. exact (names_from ns t H ss Hs [] 0 _ eq_refl). Qed.
Print Assumptions C56_names_found.

(** So the names found are the enumerators, in order, if all of them start with a letter; otherwise see the
    refutation. *)
Theorem C56_names_partial : forall ns t, enum_text ns t -> Forall starts_with_letter ns -> populateEnumNames t = ns.
Proof.
  intros ns t H Hl. rewrite (C56_names_found ns t ns H).
  - clear H. induction Hl as [|n ns (c & r & -> & _) _ IH]; [reflexivity|]. cbn. now rewrite IH.
  - clear H. induction Hl as [|n ns Hn _ IH]; constructor; [|exact IH]. exists []. auto.
Qed.
Print Assumptions C56_names_partial.

(** So the values of such an enum, whose names are distinct, read back: [k] stands for the enumerator
    with this index, and is written as its name. *)
Theorem C56_round_trip_partial : forall ns t u i so o g ks,
  enum_text ns t -> Forall starts_with_letter ns -> NoDup ns -> Forall (fun k => (0 <= k < Z.of_nat (length ns))%Z) ks ->
  options_made so -> so_ascii so = true -> (so_depth so < 255)%N -> o_nl o = false ->
  let e := YVec (YEnum (populateEnumNames t) u) in
  exists text, serializeStruct i so e (VList (map VInt ks)) = Ok text /\
    doc_text plain (JArr (map (fun k => JScalar (SStr (nth (Z.to_nat k) ns []))) ks)) text /\
    parses o g e (init e) text NoError (VList (map VInt ks)) ([], []).
Proof.
  intros ns t u i so o g ks Ht Hl Hnd Hks Hso Ha Hdep Ho e.
  assert (E := C56_names_partial ns t Ht Hl). unfold e. rewrite E. clear e.
  assert (B : forall n, enumerator n -> str_body n).
  { intros n [_ Hn]. induction Hn as [|c r Hc _ IH]; [constructor|].
    constructor; [intros ->; apply Hc; cbn; tauto|intros ->; apply Hc; cbn; tauto|exact IH]. }
  assert (Hb : Forall str_body ns).
  { clear - Ht B. induction Ht as [w1 n w2 _ Hn _|w1 n w2 w3 _ Hn _ _|w1 n w2 ns t _ Hn _ _ IH]; repeat constructor; auto. }
  apply (round_trip i so o g (YVec (YEnum ns u)) (VList (map VInt ks))); auto.
  - exact I.
  - cbn. rewrite Forall_map. apply Forall_forall. intros k Hk. rewrite Forall_forall in Hks. split; [auto|discriminate].
  - cbn. f_equal. f_equal. clear. induction ks as [|k ks IH]; [reflexivity|]. cbn. now rewrite IH.
  - exact I.
  - cbn [nesting]. rewrite map_map. cbn [nesting].
    replace (list_max (map (fun _ => 0) ks)) with 0; [lia|]. clear. induction ks; [reflexivity|]. cbn. auto.
Qed.
Print Assumptions C56_round_trip_partial.

Example C56_nonvacuous :
  enum_text [s2b "Red"; s2b "dark_green"; s2b "B2"] (s2b "Red, dark_green , B2,") /\
  populateEnumNames (s2b "Red, dark_green , B2,") = [s2b "Red"; s2b "dark_green"; s2b "B2"].
Proof.
  split; [|reflexivity].
  assert (N : forall n, forallb (fun c => negb (existsb (Byte.eqb c) [x00; x09; x0a; x0d; x20; x2c; quote; backslash])) n = true -> n <> [] -> enumerator n).
  { intros n H Hn. split; [exact Hn|]. apply Forall_forall. intros c Hc K. rewrite forallb_forall in H. specialize (H c Hc).
    apply negb_true_iff in H. rewrite <- not_true_iff_false in H. apply H. apply existsb_exists. exists c. split; [exact K|]. now apply byte_eqb_iff. }
  apply (Et_more [] (s2b "Red") []); [constructor|apply N; [reflexivity|discriminate]|constructor|].
  apply (Et_more (s2b " ") (s2b "dark_green") (s2b " ")); [repeat constructor; cbn; tauto|apply N; [reflexivity|discriminate]|repeat constructor; cbn; tauto|].
  apply (Et_comma (s2b " ") (s2b "B2") [] []); [repeat constructor; cbn; tauto|apply N; [reflexivity|discriminate]|constructor|constructor].
Qed.

(** Valid enumerators may start with an underscore: enum { _1, b } has two values but one name, so that
    the value 0, the enumerator _1, is written as b, the text b is read as _1, and for the value of b
    the name behind the end of the vector is used; of _a the underscore is lost. *)
Theorem C56_underscore_refuted :
  enum_text [s2b "_1"; s2b "b"] (s2b "_1, b") /\ populateEnumNames (s2b "_1, b") = [s2b "b"] /\
  enum_text [s2b "_a"] (s2b "_a") /\ populateEnumNames (s2b "_a") = [s2b "a"] /\
  serializeStruct Sse2 (so_make false) (YVec (YEnum (populateEnumNames (s2b "_1, b")) (mkIty 32 true))) (VList [VInt 0]) = Ok (s2b "[""b""]").
Proof.
  assert (W : enumerator (s2b "_1") /\ enumerator (s2b "b") /\ enumerator (s2b "_a")).
  { repeat split; try discriminate; repeat constructor; cbn; intuition discriminate. }
  destruct W as (W1 & W2 & W3).
  split; [apply (Et_more [] (s2b "_1") [] _ (s2b " b")); [constructor|exact W1|constructor|];
    apply (Et_last (s2b " ") (s2b "b") []); [repeat constructor; cbn; tauto|exact W2|constructor]|].
  split; [reflexivity|]. split; [apply (Et_last [] (s2b "_a") []); [constructor|exact W3|constructor]|].
  split; [reflexivity|vm_compute; reflexivity].
Qed.
Print Assumptions C56_underscore_refuted.
