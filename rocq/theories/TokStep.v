(** Single steps of the tokenizer on one buffer: what nextToken does in each parser state
    when the next bytes are a bracket, a scalar, a member or the end of a token. *)
From Verif Require Import Tactics Base ScanModel ScanProofs TokModel TokLoops TokProofs JsonSpec TokGap.
From Coq Require Import Lia.

(** States with one buffer and nothing pending. *)
Definition S0 (tok : tokst) (p : propst) (pt : type) (e : bool) (cur ds : nat) (buf : bytes)
  (stk : list type) : tstate :=
  mkT tok p pt false e false cur ds im_init [buf] [] [] stk [] None.

Definition canon (tok : tokst) (e : bool) (stk : list type) (cur : nat) (buf : bytes) : tstate :=
  S0 tok NoStartFound TError e cur 0 buf stk.

(** ** Positions *)

Lemma skipn_step (cur : nat) (buf a r : bytes) :
  skipn cur buf = a ++ r -> skipn (cur + length a) buf = r.
Proof.
  intros H. rewrite Nat.add_comm.
  rewrite <- (firstn_skipn cur buf) at 1.
  destruct (le_lt_dec (length buf) cur) as [Hl|Hl].
  - rewrite skipn_all2 in H by assumption. symmetry in H. apply app_eq_nil in H as [-> ->].
    cbn [length Nat.add]. rewrite firstn_skipn. apply skipn_all2. assumption.
  - rewrite skipn_app, firstn_length_le by lia.
    replace (length a + cur - cur) with (length a) by lia.
    rewrite skipn_all2 by (rewrite firstn_length_le; lia).
    rewrite H, skipn_app, skipn_all, Nat.sub_diag. reflexivity.
Qed.

Lemma skipn_lt (cur : nat) (buf : bytes) c r : skipn cur buf = c :: r -> cur < length buf.
Proof.
  intros H. destruct (le_lt_dec (length buf) cur) as [Hl|Hl]; [|assumption].
  rewrite skipn_all2 in H by assumption. discriminate.
Qed.

Lemma skipn_app_lt (cur : nat) (buf w : bytes) c r : skipn cur buf = w ++ c :: r -> cur < length buf.
Proof. destruct w as [|x w]; apply skipn_lt. Qed.

Lemma slice_at buf cur a m r :
  cur <= length buf -> skipn cur buf = a ++ m ++ r -> slice buf (cur + length a) (length m) = Ok m.
Proof.
  intros Hc H. pose proof (skipn_step _ _ _ _ H) as H1. unfold slice.
  assert (length (skipn cur buf) = length (a ++ m ++ r)) as Hl by (rewrite H; reflexivity).
  rewrite skipn_length, !app_length in Hl.
  assert (cur + length a + length m <=? length buf = true) as -> by (apply Nat.leb_le; lia).
  rewrite H1, firstn_app, firstn_all, Nat.sub_diag. cbn [firstn]. rewrite app_nil_r. reflexivity.
Qed.

(** ** Scanning to the end of a scalar *)

Lemma str_scan_body body : str_body body -> forall rest n,
  str_scan false (body ++ quote :: rest) n = (Some (n + length body + 1), false).
Proof.
  induction 1 as [|c l Hq Hb _ IH|c l _ IH]; intros rest n.
  - cbn [app str_scan length]. change (lookup quote =? L_StrEndOrBackSlash)%N with true. cbn iota.
    change (Byte.eqb quote c_backslash) with false. change (Byte.eqb quote c_quote) with true.
    cbn iota. rewrite Nat.add_0_r, Nat.add_1_r. reflexivity.
  - cbn [app str_scan length].
    apply byte_eqb_neq in Hq, Hb. change quote with c_quote in *. change backslash with c_backslash in *.
    rewrite Hq, Hb, IH. rewrite Nat.add_succ_comm. destruct (_ =? _)%N; reflexivity.
  - cbn [app str_scan length]. change (lookup backslash =? L_StrEndOrBackSlash)%N with true.
    cbn iota. change (Byte.eqb backslash c_backslash) with true. cbn iota.
    rewrite IH, !Nat.add_succ_comm. reflexivity.
Qed.

Lemma findStringEnd_body i body rest :
  str_body body -> findStringEnd i false (body ++ quote :: rest) = (Some (length body + 1), false).
Proof.
  intros H. rewrite findStringEnd_isa. unfold findStringEnd. cbn [str_width].
  rewrite str_scan_body by assumption. reflexivity.
Qed.

Lemma findNumberEnd_body i l c rest :
  Forall (fun x => vec_number_char x = true) l -> vec_number_char c = false ->
  findNumberEnd i (l ++ c :: rest) = Some (length l).
Proof.
  intros Hl Hc. rewrite findNumberEnd_isa. cbn [findNumberEnd]. unfold number_scan.
  apply find_index_app.
  - revert Hl. apply Forall_impl. intros x Hx. rewrite <- number_class, Hx. reflexivity.
  - rewrite <- number_class, Hc. reflexivity.
Qed.

Lemma ascii_scan_body : forall l c rest n,
  Forall (fun x => vec_ascii_char x = true) l -> vec_ascii_char c = false -> c <> x00 ->
  ascii_scan (l ++ c :: rest) n = AsciiFound (n + length l).
Proof.
  intros l c rest n Hl Hc Hn. revert n. induction Hl as [|x l Hx Hl IH]; intros n; cbn [app ascii_scan length].
  - rewrite Nat.add_0_r. destruct c; try discriminate Hc; try congruence; reflexivity.
  - rewrite IH, <- Nat.add_succ_comm.
    assert (negb (N.land (lookup x) (N.lor L_AsciiLetters (N.lor L_Digits L_HatUnderscoreAprostoph)) =? 0)%N = true) as ->.
    { clear - Hx. destruct x; try discriminate Hx; reflexivity. }
    reflexivity.
Qed.

Lemma findAsciiEnd_body i l c rest :
  Forall (fun x => vec_ascii_char x = true) l -> vec_ascii_char c = false -> c <> x00 ->
  findAsciiEnd i (l ++ c :: rest) = AsciiFound (length l).
Proof. intros. rewrite findAsciiEnd_isa. cbn [findAsciiEnd]. rewrite ascii_scan_body by assumption. reflexivity. Qed.

(** ** Finding the start of a value behind a gap *)

Lemma fs_start o w c rest buf cur t :
  skips (scalar_opts o) w -> skipn cur buf = w ++ c :: rest ->
  (single_char_type c = Some t \/
   single_char_type c = None /\ has c (N.lor L_PlusOrMinus L_Digits) = true /\ t = TNumber \/
   single_char_type c = None /\ has c (N.lor L_PlusOrMinus L_Digits) = false /\
     has c L_AsciiLetters = true /\ t = TAscii) ->
  exists ahead cur', findStartOfNextValue o buf cur = FS_ok t ahead cur' /\
                     cur' + ahead = cur + length w.
Proof.
  intros Hw E Hc. rewrite findStart_eq, E.
  destruct (sk_fs _ _ Hw (c :: rest) cur cur (le_n _)) as (cur' & Hle & E1). rewrite E1.
  exists (cur + length w - cur'), cur'. split; [|lia].
  cbn [fsnv_loop length].
  assert (Byte.eqb c c_slash = false) as ->.
  { apply byte_eqb_neq. intros ->. vm_compute in Hc. intuition discriminate. }
  rewrite andb_false_r. cbn [andb].
  destruct Hc as [->|[(-> & -> & ->)|(-> & -> & -> & ->)]]; reflexivity.
Qed.

(** ** populateFromDataRef *)

Definition starts (c : byte) (t : type) : Prop :=
  single_char_type c = Some t \/
  single_char_type c = None /\ has c (N.lor L_PlusOrMinus L_Digits) = true /\ t = TNumber \/
  single_char_type c = None /\ has c (N.lor L_PlusOrMinus L_Digits) = false /\
    has c L_AsciiLetters = true /\ t = TAscii.

Lemma pf_bracket o buf ty tok e cur stk w c rest t :
  skips (scalar_opts o) w -> skipn cur buf = w ++ c :: rest -> single_char_type c = Some t ->
  is_bracket t = true ->
  populateFromDataRef o buf ty (canon tok e stk cur buf) =
  Ok (S0 tok FoundEnd t e (cur + length w + 1) (cur + length w) buf stk, NoError,
      (cur + length w, 1), t).
Proof.
  intros Hw E Ht Hb. unfold populateFromDataRef, canon. cbn [t_prop S0 t_cur].
  destruct (fs_start o w c rest buf cur t Hw E (or_introl Ht)) as (ahead & cur' & -> & Ha).
  cbv zeta. rewrite Hb, Ha.
  assert (type_eqb t TString = false) as -> by (destruct t; try discriminate Hb; reflexivity).
  rewrite Nat.add_0_r. reflexivity.
Qed.

Lemma pf_string o buf ty tok e cur stk w body rest :
  skips (scalar_opts o) w -> skipn cur buf = w ++ quote :: body ++ quote :: rest -> str_body body ->
  populateFromDataRef o buf ty (canon tok e stk cur buf) =
  Ok (S0 tok FoundEnd TString e (cur + length w + length body + 2) (cur + length w + 1) buf stk,
      NoError, (cur + length w + 1, length body), TString).
Proof.
  intros Hw E Hb. unfold populateFromDataRef, canon. cbn [t_prop S0 t_cur].
  destruct (fs_start o w quote (body ++ quote :: rest) buf cur TString Hw E (or_introl eq_refl))
    as (ahead & cur' & -> & Ha).
  cbv zeta. cbn [is_bracket]. rewrite Ha.
  change (if type_eqb TString TString then 1 else 0) with 1.
  unfold finish_value, S0. cbn [t_prop set_prop set_ptype set_cur set_ds t_cur t_esc t_ds set_esc].
  assert (skipn (cur + length w + 1) buf = body ++ quote :: rest) as ->.
  { replace (cur + length w + 1) with (cur + length (w ++ [quote])) by (rewrite app_length; cbn; lia).
    apply skipn_step. rewrite E, <- app_assoc. reflexivity. }
  rewrite findStringEnd_body by assumption.
  cbn [t_prop set_prop set_ptype set_cur set_ds t_cur t_esc t_ds set_esc].
  assert (cur + length w + 1 + (length body + 1) <? cur + length w + 1 + 1 = false) as ->
    by (apply Nat.ltb_ge; lia).
  replace (cur + length w + 1 + (length body + 1) - (cur + length w + 1) - 1) with (length body) by lia.
  replace (cur + length w + 1 + (length body + 1)) with (cur + length w + length body + 2) by lia.
  reflexivity.
Qed.

(** Numbers and words. *)
Lemma pf_plain o buf ty tok e cur stk w c tl rest t :
  skips (scalar_opts o) w -> skipn cur buf = w ++ c :: tl ++ rest -> starts c t ->
  (t = TNumber /\ findNumberEnd (o_isa o) (tl ++ rest) = Some (length tl) \/
   t = TAscii /\ findAsciiEnd (o_isa o) (tl ++ rest) = AsciiFound (length tl)) ->
  populateFromDataRef o buf ty (canon tok e stk cur buf) =
  Ok (S0 tok FoundEnd t e (cur + length w + length (c :: tl)) (cur + length w) buf stk,
      NoError, (cur + length w, length (c :: tl)), t).
Proof.
  intros Hw E Hc Ht. unfold populateFromDataRef, canon. cbn [t_prop S0 t_cur].
  destruct (fs_start o w c (tl ++ rest) buf cur t Hw E Hc) as (ahead & cur' & -> & Ha).
  cbv zeta. rewrite Ha.
  assert (is_bracket t = false) as -> by (destruct Ht as [[-> _]|[-> _]]; reflexivity).
  assert (type_eqb t TString = false) as -> by (destruct Ht as [[-> _]|[-> _]]; reflexivity).
  unfold finish_value, S0. cbn [t_prop set_prop set_ptype set_cur set_ds t_cur t_esc t_ds set_esc].
  assert (skipn (cur + length w + 1) buf = tl ++ rest) as ->.
  { replace (cur + length w + 1) with (cur + length (w ++ [c])) by (rewrite app_length; cbn; lia).
    apply skipn_step. rewrite E, <- app_assoc. reflexivity. }
  rewrite Nat.add_0_r.
  assert (Hlt : cur + length w + 1 + length tl <? cur + length w + 0 = false)
    by (apply Nat.ltb_ge; lia).
  assert (H1 : cur + length w + 1 + length tl - (cur + length w) - 0 = length (c :: tl))
    by (cbn [length]; lia).
  assert (H2 : cur + length w + 1 + length tl = cur + length w + length (c :: tl))
    by (cbn [length]; lia).
  destruct Ht as [[-> ->]|[-> ->]]; cbn [t_cur t_ds]; rewrite Hlt, H1, H2; reflexivity.
Qed.

(** ** Scalars *)

(** The type found by the scanner (before true/false/null are told apart). *)
Definition raw_type (s : scalar) : type :=
  match s with SStr _ => TString | SNum _ => TNumber | _ => TAscii end.

Definition stops (s : scalar) (rest : bytes) : Prop :=
  match s with
  | SStr _ => True
  | SNum _ => exists c r, rest = c :: r /\ vec_number_char c = false
  | _ => exists c r, rest = c :: r /\ vec_ascii_char c = false /\ c <> x00
  end.

Lemma num_char_class c : num_char c -> vec_number_char c = true.
Proof.
  unfold num_char, is_digit, vec_number_char, in_range. intros H.
  rewrite !orb_true_iff, !andb_true_iff, !N.leb_le, !byte_eqb_eq. tauto.
Qed.

Lemma digit_starts c : is_digit c \/ c = x2b \/ c = x2d -> starts c TNumber.
Proof.
  intros H. right. left.
  assert (in_range 48 57 c || Byte.eqb c x2b || Byte.eqb c x2d = true) as H1.
  { unfold is_digit, in_range in *. rewrite !orb_true_iff, !andb_true_iff, !N.leb_le, !byte_eqb_eq. tauto. }
  clear H. destruct c; try discriminate H1; repeat split; vm_compute; reflexivity.
Qed.

Lemma word_chars s : match s with STrue | SFalse | SNull => True | _ => False end ->
  exists c tl, scalar_text s = c :: tl /\ starts c TAscii /\ Forall (fun x => vec_ascii_char x = true) tl.
Proof.
  destruct s; intros []; do 2 eexists; (split; [reflexivity|]); (split; [right; right; repeat split|]);
    repeat constructor.
Qed.

Lemma pf_scalar o buf ty tok e cur stk w s rest :
  skips (scalar_opts o) w -> scalar_ok s -> skipn cur buf = w ++ scalar_text s ++ rest -> stops s rest ->
  exists ds off,
  populateFromDataRef o buf ty (canon tok e stk cur buf) =
  Ok (S0 tok FoundEnd (raw_type s) e (cur + length w + length (scalar_text s)) ds buf stk,
      NoError, (off, length (scalar_value s)), raw_type s) /\
  slice buf off (length (scalar_value s)) = Ok (scalar_value s).
Proof.
  intros Hw Hs E Hr. destruct s as [raw|raw| | |]; cbn [scalar_ok raw_type scalar_value] in *.
  - cbn [scalar_text] in *. exists (cur + length w + 1), (cur + length w + 1).
    assert (E' : skipn cur buf = w ++ quote :: raw ++ quote :: rest)
      by (rewrite E; cbn [app]; rewrite <- app_assoc; reflexivity).
    pose proof (skipn_app_lt _ _ _ _ _ E') as Hlt.
    rewrite (pf_string o buf ty tok e cur stk w raw rest Hw E' Hs).
    split.
    + cbn [length]. rewrite app_length. cbn [length]. do 4 f_equal. f_equal. lia.
    + replace (cur + length w + 1) with (cur + length (w ++ [quote])) by (rewrite app_length; cbn; lia).
      apply slice_at with (r := quote :: rest); [lia|].
      rewrite E', <- app_assoc. reflexivity.
  - cbn [scalar_text] in *. exists (cur + length w), (cur + length w).
    destruct Hs as (c & tl & -> & Hc & Htl). destruct Hr as (d & r & -> & Hd).
    cbn [app] in E. rewrite (pf_plain o buf ty tok e cur stk w c tl (d :: r) TNumber Hw E).
    + split; [reflexivity|]. pose proof (skipn_app_lt _ _ _ _ _ E) as Hlt.
      apply slice_at with (r := d :: r); [lia|assumption].
    + apply digit_starts; assumption.
    + left. split; [reflexivity|]. apply findNumberEnd_body; [|assumption].
      revert Htl. apply Forall_impl, num_char_class.
  - destruct (word_chars STrue I) as (c & tl & Et & Hc & Htl). rewrite Et in *.
    destruct Hr as (d & r & -> & Hd & Hz). exists (cur + length w), (cur + length w).
    cbn [app] in E. rewrite (pf_plain o buf ty tok e cur stk w c tl (d :: r) TAscii Hw E Hc).
    + cbn [scalar_text] in Et. rewrite Et. split; [reflexivity|]. pose proof (skipn_app_lt _ _ _ _ _ E) as Hlt.
      apply slice_at with (r := d :: r); [lia|assumption].
    + right. split; [reflexivity|]. apply findAsciiEnd_body; assumption.
  - destruct (word_chars SFalse I) as (c & tl & Et & Hc & Htl). rewrite Et in *.
    destruct Hr as (d & r & -> & Hd & Hz). exists (cur + length w), (cur + length w).
    cbn [app] in E. rewrite (pf_plain o buf ty tok e cur stk w c tl (d :: r) TAscii Hw E Hc).
    + cbn [scalar_text] in Et. rewrite Et. split; [reflexivity|]. pose proof (skipn_app_lt _ _ _ _ _ E) as Hlt.
      apply slice_at with (r := d :: r); [lia|assumption].
    + right. split; [reflexivity|]. apply findAsciiEnd_body; assumption.
  - destruct (word_chars SNull I) as (c & tl & Et & Hc & Htl). rewrite Et in *.
    destruct Hr as (d & r & -> & Hd & Hz). exists (cur + length w), (cur + length w).
    cbn [app] in E. rewrite (pf_plain o buf ty tok e cur stk w c tl (d :: r) TAscii Hw E Hc).
    + cbn [scalar_text] in Et. rewrite Et. split; [reflexivity|]. pose proof (skipn_app_lt _ _ _ _ _ E) as Hlt.
      apply slice_at with (r := d :: r); [lia|assumption].
    + right. split; [reflexivity|]. apply findAsciiEnd_body; assumption.
Qed.

Lemma getType_scalar s : scalar_ok s -> getType (raw_type s) (scalar_value s) = scalar_type s.
Proof. destruct s; reflexivity. Qed.

(** ** Delimiters *)

Lemma fd_colon o stk buf cur w rest :
  skips (scalar_opts o) w -> skipn cur buf = w ++ colon :: rest ->
  exists ahead cur', findDelimiter o (TObjectStart :: stk) buf cur = FD_ok FindingData ahead cur' /\
                     cur' + ahead = cur + length w + 1.
Proof.
  intros Hw E. rewrite findDelimiter_eq, E.
  destruct (sk_fd _ _ Hw TObjectStart (colon :: rest) cur cur (le_n _)) as (cur' & Hle & ->).
  exists (cur + length w + 1 - cur'), cur'. split; [|lia].
  cbn [fdelim_loop length]. change (Byte.eqb colon c_slash) with false.
  rewrite andb_false_r. reflexivity.
Qed.

(** After an array element: a comma is consumed, a closing bracket is not. *)
Lemma fd_elem o stk buf cur w d rest :
  skips (scalar_opts o) w -> skipn cur buf = w ++ d :: rest -> d = comma \/ d = rbrack ->
  exists ahead cur', findDelimiter o (TArrayStart :: stk) buf cur = FD_ok FindingName ahead cur' /\
                     cur' + ahead = cur + length w + (if Byte.eqb d comma then 1 else 0).
Proof.
  intros Hw E Hd. rewrite findDelimiter_eq, E.
  destruct (sk_fd _ _ Hw TArrayStart (d :: rest) cur cur (le_n _)) as (cur' & Hle & ->).
  exists (cur + length w + (if Byte.eqb d comma then 1 else 0) - cur'), cur'. split; [|destruct (Byte.eqb d comma); lia].
  cbn [fdelim_loop length]. destruct Hd as [->| ->].
  - change (Byte.eqb comma c_slash) with false. rewrite andb_false_r. reflexivity.
  - change (Byte.eqb rbrack c_slash) with false. rewrite andb_false_r.
    change (Byte.eqb rbrack c_nl) with false. rewrite andb_false_r.
    change (if Byte.eqb rbrack comma then 1 else 0) with 0. rewrite Nat.add_0_r. reflexivity.
Qed.

Lemma fe_end o t stk buf cur w d rest :
  skips (scalar_opts o) w -> skipn cur buf = w ++ d :: rest -> d = comma \/ d = rbrack \/ d = rbrace ->
  exists ahead cur', findTokenEnd o (t :: stk) buf cur = FE_ok ahead cur' (Byte.eqb d comma) /\
                     cur' + ahead = cur + length w + (if Byte.eqb d comma then 1 else 0).
Proof.
  intros Hw E Hd. rewrite findTokenEnd_eq, E.
  destruct (sk_ft _ _ Hw (d :: rest) cur cur (le_n _)) as (cur' & Hle & ->).
  exists (cur + length w + (if Byte.eqb d comma then 1 else 0) - cur'), cur'. split; [|destruct (Byte.eqb d comma); lia].
  cbn [ftend_loop length]. destruct Hd as [->|[->| ->]].
  - change (Byte.eqb comma c_slash) with false. rewrite andb_false_r. reflexivity.
  - change (Byte.eqb rbrack c_slash) with false. rewrite andb_false_r.
    change (if Byte.eqb rbrack comma then 1 else 0) with 0. rewrite Nat.add_0_r. reflexivity.
  - change (Byte.eqb rbrace c_slash) with false. rewrite andb_false_r.
    change (if Byte.eqb rbrace comma then 1 else 0) with 0. rewrite Nat.add_0_r. reflexivity.
Qed.
