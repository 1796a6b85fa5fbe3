(** One call of populateNextTokenFromDataRef on a buffer does what the byte machine of
    TokStream.v does on its bytes. *)
From Verif Require Import Base ScanModel ScanProofs TokModel TokLoops TokProofs TokSafe JsonSpec TokStream.
From Coq Require Import Lia ZifyBool ZifyNat ZifyN.

(** ** Splitting the input of the byte machine *)

Lemma run_app o stk : forall l1 ex ph l2,
  run o stk ex ph (l1 ++ l2) =
  match run o stk ex ph l1 with
  | RNeed ph' ex' => run o stk ex' ph' l2
  | RErr e => RErr e
  | ROut tk ph' ex' r => ROut tk ph' ex' (r ++ l2)
  end.
Proof.
  induction l1 as [|c l1 IH]; intros ex ph l2; [reflexivity|]. cbn [app run].
  destruct (step o stk ex ph c) as [ph' ex'|e|tk ph' ex' keep]; [apply IH|reflexivity|].
  destruct keep; reflexivity.
Qed.

(** ** The start of a value *)

Definition skips (c : byte) : Prop := start_class c = None /\ (lookup c =? 0)%N = false.

Lemma fsnv_spec o : o_comments o = false -> forall f rest pos cur,
  length rest < f ->
  (exists w b tl t, rest = w ++ b :: tl /\ Forall skips w /\ start_class b = Some t /\
     fsnv_loop f o rest pos cur = FS_ok t (pos + length w - cur) cur) \/
  (exists w b tl, rest = w ++ b :: tl /\ Forall skips w /\ start_class b = None /\
     (lookup b =? 0)%N = true /\ fsnv_loop f o rest pos cur = FS_err EncounteredIllegalChar cur) \/
  (Forall skips rest /\ fsnv_loop f o rest pos cur = FS_err NeedMoreData cur).
Proof.
  intros Hc. induction f as [|f IH]; intros rest pos cur Hf; [lia|].
  cbn [fsnv_loop]. destruct rest as [|c tl]; [right; right; split; [constructor|reflexivity]|].
  rewrite Hc. cbn [andb].
  assert (HS : forall t, start_class c = Some t ->
    exists w b tl0 t0, c :: tl = w ++ b :: tl0 /\ Forall skips w /\ start_class b = Some t0 /\
      FS_ok t (pos - cur) cur = FS_ok t0 (pos + length w - cur) cur).
  { intros t Ht. exists [], c, tl, t. cbn. rewrite Nat.add_0_r. repeat split; auto. }
  unfold start_class in HS.
  destruct (single_char_type c) as [t|] eqn:E1; [left; apply HS; reflexivity|].
  destruct (has c (N.lor L_PlusOrMinus L_Digits)) eqn:E2; [left; apply HS; reflexivity|].
  destruct (has c L_AsciiLetters) eqn:E3; [left; apply HS; reflexivity|].
  assert (HN : start_class c = None) by (unfold start_class; rewrite E1, E2, E3; reflexivity).
  destruct (lookup c =? 0)%N eqn:E4.
  { right; left. exists [], c, tl. repeat split; auto. }
  assert (Hs : skips c) by (split; assumption).
  cbn [length] in Hf.
  destruct (IH tl (S pos) cur) as [(w & b & tl0 & t & -> & Hw & Hb & E)|
    [(w & b & tl0 & -> & Hw & Hb & Hb2 & E)|(Hw & E)]]; [lia| | |]; rewrite E.
  - left. exists (c :: w), b, tl0, t. cbn [app length]. repeat split; auto.
    f_equal. lia.
  - right; left. exists (c :: w), b, tl0. repeat split; auto.
  - right; right. split; auto.
Qed.

Lemma run_skips_name o stk ex : forall w l,
  Forall skips w -> run o stk ex PName (w ++ l) = run o stk ex PName l.
Proof.
  induction w as [|c w IH]; intros l H; [reflexivity|]. inversion H as [|? ? [H1 H2] H3]. subst.
  cbn [app run step]. unfold name_step. rewrite H1, H2. apply IH. exact H3.
Qed.

Lemma run_skips_data o stk ex nm nty : forall w l,
  Forall skips w -> run o stk ex (PData nm nty) (w ++ l) = run o stk ex (PData nm nty) l.
Proof.
  induction w as [|c w IH]; intros l H; [reflexivity|]. inversion H as [|? ? [H1 H2] H3]. subst.
  cbn [app run step]. unfold data_step. rewrite H1, H2. apply IH. exact H3.
Qed.

(** ** The delimiter *)

Definition delim_ws (c : byte) : Prop :=
  Byte.eqb c c_colon = false /\ Byte.eqb c c_comma = false /\ Byte.eqb c c_rbracket = false /\
  has c L_WhiteSpaceOrNull = true.

Definition fdelim_at (ct : type) (c : byte) (pos cur : nat) : option fd_res :=
  if Byte.eqb c c_colon then
    Some (if negb (type_eqb ct TObjectStart) then FD_err ExpectedDelimiter cur
          else FD_ok FindingData (pos + 1 - cur) cur)
  else if Byte.eqb c c_comma then
    Some (if negb (type_eqb ct TArrayStart) then FD_err ExpectedDelimiter cur
          else FD_ok FindingName (pos + 1 - cur) cur)
  else if Byte.eqb c c_rbracket then
    Some (if negb (type_eqb ct TArrayStart) then FD_err ExpectedDelimiter cur
          else FD_ok FindingName (pos - cur) cur)
  else if negb (has c L_WhiteSpaceOrNull) then Some (FD_err ExpectedDelimiter cur)
  else None.

Lemma fdelim_spec o ct : o_comments o = false -> o_nl o = false -> forall f rest pos cur,
  length rest < f ->
  (exists w b tl r, rest = w ++ b :: tl /\ Forall delim_ws w /\
     fdelim_at ct b (pos + length w) cur = Some r /\ fdelim_loop f o ct rest pos cur = r) \/
  (Forall delim_ws rest /\ fdelim_loop f o ct rest pos cur = FD_err NeedMoreData cur).
Proof.
  intros Hc Hn. induction f as [|f IH]; intros rest pos cur Hf; [lia|].
  cbn [fdelim_loop]. destruct rest as [|c tl]; [right; split; [constructor|reflexivity]|].
  rewrite Hc, Hn. cbn [andb]. rewrite orb_false_r.
  destruct (fdelim_at ct c pos cur) as [r|] eqn:Er.
  { left. exists [], c, tl, r. cbn [app length]. rewrite Nat.add_0_r.
    split; [reflexivity|]. split; [constructor|]. split; [exact Er|].
    unfold fdelim_at in Er.
    destruct (Byte.eqb c c_colon); [injection Er as <-; reflexivity|].
    destruct (Byte.eqb c c_comma); [injection Er as <-; reflexivity|].
    destruct (Byte.eqb c c_rbracket); [injection Er as <-; reflexivity|].
    destruct (negb (has c L_WhiteSpaceOrNull)); [injection Er as <-; reflexivity|discriminate]. }
  unfold fdelim_at in Er.
  destruct (Byte.eqb c c_colon) eqn:E1; [discriminate|].
  destruct (Byte.eqb c c_comma) eqn:E2; [discriminate|].
  destruct (Byte.eqb c c_rbracket) eqn:E3; [discriminate|].
  destruct (has c L_WhiteSpaceOrNull) eqn:E4; cbn [negb] in Er; [|discriminate]. cbn [negb].
  assert (Hs : delim_ws c) by (repeat split; assumption).
  cbn [length] in Hf.
  destruct (IH tl (S pos) cur) as [(w & b & tl0 & r & -> & Hw & Hb & E)|(Hw & E)]; [lia| |];
    rewrite E.
  - left. exists (c :: w), b, tl0, r. cbn [app length]. repeat split; auto.
    rewrite <- Hb. f_equal. lia.
  - right. split; auto.
Qed.

Lemma run_delim_ws o ct st ex nm nty : forall w l,
  Forall delim_ws w ->
  run o (ct :: st) ex (PDelim nm nty) (w ++ l) = run o (ct :: st) ex (PDelim nm nty) l.
Proof.
  induction w as [|c w IH]; intros l H; [reflexivity|].
  inversion H as [|? ? (H1 & H2 & H3 & H4) H5]. subst.
  cbn [app run step]. unfold delim_step. rewrite H1, H2, H3, H4. cbn [negb]. apply IH. exact H5.
Qed.

(** ** The end of a token *)

Definition end_ws (c : byte) : Prop :=
  Byte.eqb c c_comma = false /\ Byte.eqb c c_rbracket || Byte.eqb c c_rbrace = false /\
  Byte.eqb c c_nl || has c L_WhiteSpaceOrNull = true.

Definition ftend_at (c : byte) (pos cur : nat) : option fe_res :=
  if Byte.eqb c c_comma then Some (FE_ok (pos + 1 - cur) cur true)
  else if Byte.eqb c c_rbracket || Byte.eqb c c_rbrace then Some (FE_ok (pos - cur) cur false)
  else if Byte.eqb c c_nl || has c L_WhiteSpaceOrNull then None
  else Some (FE_err InvalidToken cur).

Lemma ftend_spec o : o_comments o = false -> o_nl o = false -> forall f rest pos cur,
  length rest < f ->
  (exists w b tl r, rest = w ++ b :: tl /\ Forall end_ws w /\
     ftend_at b (pos + length w) cur = Some r /\ ftend_loop f o rest pos cur = r) \/
  (Forall end_ws rest /\ ftend_loop f o rest pos cur = FE_err NeedMoreData cur).
Proof.
  intros Hc Hn. induction f as [|f IH]; intros rest pos cur Hf; [lia|].
  cbn [ftend_loop]. destruct rest as [|c tl]; [right; split; [constructor|reflexivity]|].
  rewrite Hc, Hn. cbn [andb].
  destruct (ftend_at c pos cur) as [r|] eqn:Er.
  { left. exists [], c, tl, r. cbn [app length]. rewrite Nat.add_0_r.
    split; [reflexivity|]. split; [constructor|]. split; [exact Er|].
    unfold ftend_at in Er.
    destruct (Byte.eqb c c_comma); [injection Er as <-; reflexivity|].
    destruct (Byte.eqb c c_rbracket || Byte.eqb c c_rbrace); [injection Er as <-; reflexivity|].
    destruct (Byte.eqb c c_nl); [discriminate|].
    destruct (has c L_WhiteSpaceOrNull); [discriminate|injection Er as <-; reflexivity]. }
  unfold ftend_at in Er.
  destruct (Byte.eqb c c_comma) eqn:E1; [discriminate|].
  destruct (Byte.eqb c c_rbracket || Byte.eqb c c_rbrace) eqn:E2; [discriminate|].
  destruct (Byte.eqb c c_nl || has c L_WhiteSpaceOrNull) eqn:E4; [|discriminate].
  assert (Hs : end_ws c) by (repeat split; assumption).
  cbn [length] in Hf.
  assert (G : forall r, r = ftend_loop f o tl (S pos) cur ->
    (if Byte.eqb c c_nl then ftend_loop f o tl (S pos) cur
     else if has c L_WhiteSpaceOrNull then ftend_loop f o tl (S pos) cur
     else FE_err InvalidToken cur) = r).
  { intros r ->. destruct (Byte.eqb c c_nl); [reflexivity|].
    cbn [orb] in E4. rewrite E4. reflexivity. }
  destruct (IH tl (S pos) cur) as [(w & b & tl0 & r & -> & Hw & Hb & E)|(Hw & E)]; [lia| |].
  - left. exists (c :: w), b, tl0, r. cbn [app length]. repeat split; auto.
    rewrite <- Hb. f_equal. lia.
  - right. split; auto.
Qed.

Lemma run_end_ws o ct st ex : forall w l,
  Forall end_ws w -> run o (ct :: st) ex PEnd (w ++ l) = run o (ct :: st) ex PEnd l.
Proof.
  induction w as [|c w IH]; intros l H; [reflexivity|].
  inversion H as [|? ? (H1 & H2 & H3) H5]. subst.
  cbn [app run step]. unfold end_step. rewrite H1, H2, H3. apply IH. exact H5.
Qed.

(** ** Strings *)

Lemma str_scan_spec rest : forall esc n,
  (exists w tl, rest = w ++ c_quote :: tl /\ str_scan esc rest n = (Some (n + S (length w)), false) /\
    (forall o stk ex acc, run o stk ex (PNameIn TString esc acc) rest =
       run o stk ex (PDelim (acc ++ w) TString) tl) /\
    (forall o stk ex nm nty acc, run o stk ex (PDataIn nm nty TString esc acc) rest =
       run o stk ex (PDataIn nm nty TString false (acc ++ w)) (c_quote :: tl))) \/
  (exists e, str_scan esc rest n = (None, e) /\
    (forall o stk ex acc, run o stk ex (PNameIn TString esc acc) rest =
       RNeed (PNameIn TString e (acc ++ rest)) ex) /\
    (forall o stk ex nm nty acc, run o stk ex (PDataIn nm nty TString esc acc) rest =
       RNeed (PDataIn nm nty TString e (acc ++ rest)) ex)).
Proof.
  induction rest as [|c rest IH]; intros esc n.
  { right. exists esc. cbn. split; [reflexivity|]. split; intros; rewrite app_nil_r; reflexivity. }
  assert (Hgo : forall esc',
    str_scan esc (c :: rest) n = str_scan esc' rest (S n) ->
    (forall o stk ex acc, step o stk ex (PNameIn TString esc acc) c = Go (PNameIn TString esc' (acc ++ [c])) ex) ->
    (forall o stk ex nm nty acc, step o stk ex (PDataIn nm nty TString esc acc) c =
       Go (PDataIn nm nty TString esc' (acc ++ [c])) ex) ->
    (exists w tl, c :: rest = w ++ c_quote :: tl /\ str_scan esc (c :: rest) n = (Some (n + S (length w)), false) /\
    (forall o stk ex acc, run o stk ex (PNameIn TString esc acc) (c :: rest) =
       run o stk ex (PDelim (acc ++ w) TString) tl) /\
    (forall o stk ex nm nty acc, run o stk ex (PDataIn nm nty TString esc acc) (c :: rest) =
       run o stk ex (PDataIn nm nty TString false (acc ++ w)) (c_quote :: tl))) \/
  (exists e, str_scan esc (c :: rest) n = (None, e) /\
    (forall o stk ex acc, run o stk ex (PNameIn TString esc acc) (c :: rest) =
       RNeed (PNameIn TString e (acc ++ c :: rest)) ex) /\
    (forall o stk ex nm nty acc, run o stk ex (PDataIn nm nty TString esc acc) (c :: rest) =
       RNeed (PDataIn nm nty TString e (acc ++ c :: rest)) ex))).
  { intros esc' E S1 S2. rewrite E.
    destruct (IH esc' (S n)) as [(w & tl & -> & E1 & R1 & R2)|(e & E1 & R1 & R2)].
    - left. exists (c :: w), tl. cbn [app length]. split; [reflexivity|].
      split; [rewrite E1; do 2 f_equal; lia|].
      split; intros; (replace (acc ++ c :: w) with ((acc ++ [c]) ++ w) by (rewrite <- app_assoc; reflexivity)).
      + rewrite <- (R1 o stk ex (acc ++ [c])). cbn [run]. rewrite S1. reflexivity.
      + rewrite <- (R2 o stk ex nm nty (acc ++ [c])). cbn [run]. rewrite S2. reflexivity.
    - right. exists e. split; [exact E1|].
      split; intros; (replace (acc ++ c :: rest) with ((acc ++ [c]) ++ rest) by (rewrite <- app_assoc; reflexivity)).
      + rewrite <- (R1 o stk ex (acc ++ [c])). cbn [run]. rewrite S1. reflexivity.
      + rewrite <- (R2 o stk ex nm nty (acc ++ [c])). cbn [run]. rewrite S2. reflexivity. }
  destruct esc; [apply (Hgo false); reflexivity|].
  destruct (Byte.eqb c c_backslash) eqn:Eb.
  { apply (Hgo true).
    - apply byte_eqb_eq in Eb. subst c. reflexivity.
    - intros. cbn [step]. rewrite Eb. reflexivity.
    - intros. cbn [step]. rewrite Eb. reflexivity. }
  destruct (Byte.eqb c c_quote) eqn:Eq.
  { clear Hgo. apply byte_eqb_eq in Eq. subst c. left. exists [], rest. cbn [app length].
    split; [reflexivity|]. split; [rewrite Nat.add_1_r; reflexivity|].
    split; intros; rewrite app_nil_r; [reflexivity|reflexivity]. }
  apply (Hgo false).
  - cbn [str_scan]. rewrite Eb, Eq. destruct (lookup c =? L_StrEndOrBackSlash)%N; reflexivity.
  - intros. cbn [step]. rewrite Eb, Eq. reflexivity.
  - intros. cbn [step]. rewrite Eb, Eq. reflexivity.
Qed.

(** ** Numbers and words *)

Definition word_end (ty : type) (rest : bytes) : option nat :=
  find_index (fun c => negb (word_cont ty c)) rest.

Lemma word_end_spec ty rest : (ty = TNumber \/ ty = TAscii) ->
  (exists w b tl, rest = w ++ b :: tl /\ word_end ty rest = Some (length w) /\ word_cont ty b = false /\
    (forall o stk ex acc, run o stk ex (PNameIn ty false acc) rest =
       run o stk ex (PNameIn ty false (acc ++ w)) (b :: tl)) /\
    (forall o stk ex nm nty acc, run o stk ex (PDataIn nm nty ty false acc) rest =
       run o stk ex (PDataIn nm nty ty false (acc ++ w)) (b :: tl))) \/
  (word_end ty rest = None /\
    (forall o stk ex acc, run o stk ex (PNameIn ty false acc) rest =
       RNeed (PNameIn ty false (acc ++ rest)) ex) /\
    (forall o stk ex nm nty acc, run o stk ex (PDataIn nm nty ty false acc) rest =
       RNeed (PDataIn nm nty ty false (acc ++ rest)) ex)).
Proof.
  intros Hty. induction rest as [|c rest IH].
  { right. split; [reflexivity|]. split; intros; rewrite app_nil_r; reflexivity. }
  destruct (word_cont ty c) eqn:Ec.
  - assert (S1 : forall o stk ex acc, step o stk ex (PNameIn ty false acc) c =
       Go (PNameIn ty false (acc ++ [c])) ex).
    { intros. destruct Hty as [-> | ->]; cbn [step]; rewrite Ec; reflexivity. }
    assert (S2 : forall o stk ex nm nty acc, step o stk ex (PDataIn nm nty ty false acc) c =
       Go (PDataIn nm nty ty false (acc ++ [c])) ex).
    { intros. destruct Hty as [-> | ->]; cbn [step]; rewrite Ec; reflexivity. }
    unfold word_end in *. cbn [find_index]. rewrite Ec. cbn [negb].
    destruct IH as [(w & b & tl & -> & E1 & Eb & R1 & R2)|(E1 & R1 & R2)]; rewrite E1.
    + left. exists (c :: w), b, tl. cbn [app length]. split; [reflexivity|].
      split; [reflexivity|]. split; [exact Eb|].
      split; intros; (replace (acc ++ c :: w) with ((acc ++ [c]) ++ w) by (rewrite <- app_assoc; reflexivity)).
      * rewrite <- (R1 o stk ex (acc ++ [c])). cbn [run]. rewrite S1. reflexivity.
      * rewrite <- (R2 o stk ex nm nty (acc ++ [c])). cbn [run]. rewrite S2. reflexivity.
    + right. split; [reflexivity|].
      split; intros; (replace (acc ++ c :: rest) with ((acc ++ [c]) ++ rest) by (rewrite <- app_assoc; reflexivity)).
      * rewrite <- (R1 o stk ex (acc ++ [c])). cbn [run]. rewrite S1. reflexivity.
      * rewrite <- (R2 o stk ex nm nty (acc ++ [c])). cbn [run]. rewrite S2. reflexivity.
  - left. exists [], c, rest. unfold word_end. cbn [find_index]. rewrite Ec.
    split; [reflexivity|]. split; [reflexivity|]. split; [reflexivity|].
    split; intros; rewrite app_nil_r; reflexivity.
Qed.

Definition no_nul (l : bytes) : Prop := Forall (fun c => c <> c_nul) l.

Lemma ascii_scan_word rest : no_nul rest -> forall n,
  ascii_scan rest n =
  match word_end TAscii rest with Some k => AsciiFound (n + k) | None => AsciiNeedMore end.
Proof.
  induction rest as [|c rest IH]; intros Hn n; [reflexivity|].
  inversion Hn as [|? ? Hc Hr]. subst. unfold word_end in *. cbn [ascii_scan find_index].
  unfold word_cont, has. fold (has c (N.lor L_AsciiLetters (N.lor L_Digits L_HatUnderscoreAprostoph))).
  assert (Hgo : ascii_scan rest (S n) =
    match match find_index (fun c => negb (word_cont TAscii c)) rest with
          | Some k => Some (S k) | None => None end with
    | Some k => AsciiFound (n + k) | None => AsciiNeedMore end).
  { rewrite (IH Hr). destruct (find_index _ rest); [f_equal; lia|reflexivity]. }
  unfold has. destruct (negb (N.land (lookup c) _ =? 0)%N); cbn [orb negb]; [exact Hgo|].
  destruct (in_range 65 90 c || in_range 94 122 c || in_range 48 57 c); cbn [negb]; [exact Hgo|].
  assert (Byte.eqb c c_nul = false) as -> by (apply byte_eqb_neq; exact Hc).
  f_equal. lia.
Qed.

(** ** One value *)

Definition value_ty (ty : type) : Prop := ty = TString \/ ty = TNumber \/ ty = TAscii.

Definition keeps (s s1 : tstate) : Prop :=
  frame s s1 /\ t_tok s1 = t_tok s /\ t_im s1 = t_im s /\ t_expect s1 = t_expect s.

(** Reading starts fresh, or goes on inside a value of a type, with the bytes so far. *)
Definition entry : Set := option (type * bool * bytes).
Definition phaseN (en : entry) : phase :=
  match en with None => PName | Some (ty, esc, acc) => PNameIn ty esc acc end.
Definition phaseD (nm : bytes) (nty : type) (en : entry) : phase :=
  match en with None => PData nm nty | Some (ty, esc, acc) => PDataIn nm nty ty esc acc end.
Definition acc_of (en : entry) : bytes := match en with None => [] | Some (_, _, acc) => acc end.

Definition entry_at (en : entry) (ty : type) (s : tstate) : Prop :=
  match en with
  | None => t_prop s = NoStartFound /\ t_esc s = false
  | Some (ty', esc, _) =>
    ty' = ty /\ value_ty ty /\ t_prop s = FindingEnd /\ t_cur s = 0 /\ t_ds s = 0 /\ t_esc s = esc /\
    (ty <> TString -> esc = false)
  end.

Definition after_value (o : opts) (ex : bool) nm nty ty acc (rest : bytes) : rres :=
  match value_done o ex nm nty ty acc false with
  | Out tk ph ex' _ => ROut tk ph ex' rest
  | Fail e => RErr e
  | Go ph ex' => RNeed ph ex'
  end.

Lemma skipn_app_exact {A} (l1 l2 : list A) n : n = length l1 -> skipn n (l1 ++ l2) = l2.
Proof. intros ->. rewrite skipn_app, skipn_all, Nat.sub_diag. reflexivity. Qed.

Lemma skipn_add {A} n m (l : list A) : skipn (n + m) l = skipn m (skipn n l).
Proof. revert l. induction n as [|n IH]; intros l; [reflexivity|]. destruct l; cbn; [rewrite skipn_nil; reflexivity|apply IH]. Qed.

Lemma finish_str o buf off s :
  o_isa o = Scalar -> t_prop s = FindingEnd -> t_ds s = t_cur s -> off = t_cur s -> t_cur s <= length buf ->
  (exists w s1, finish_value o buf off 0 TString s = Ok (s1, NoError, (off, length w), TString) /\
     keeps s s1 /\ t_prop s1 = FoundEnd /\ t_esc s1 = false /\ t_cur s1 = t_cur s + S (length w) /\
     skipn (t_cur s) buf = w ++ c_quote :: skipn (t_cur s1) buf /\
    (forall o stk ex acc, run o stk ex (PNameIn TString (t_esc s) acc) (skipn (t_cur s) buf) =
       run o stk ex (PDelim (acc ++ w) TString) (skipn (t_cur s1) buf)) /\
    (forall o stk ex nm nty acc, run o stk ex (PDataIn nm nty TString (t_esc s) acc) (skipn (t_cur s) buf) =
       after_value o ex nm nty TString (acc ++ w) (skipn (t_cur s1) buf))) \/
  (exists e, finish_value o buf off 0 TString s = Ok (set_esc e s, NeedMoreData, (off, 0), TString) /\
    (forall o stk ex acc, run o stk ex (PNameIn TString (t_esc s) acc) (skipn (t_cur s) buf) =
       RNeed (PNameIn TString e (acc ++ skipn (t_cur s) buf)) ex) /\
    (forall o stk ex nm nty acc, run o stk ex (PDataIn nm nty TString (t_esc s) acc) (skipn (t_cur s) buf) =
       RNeed (PDataIn nm nty TString e (acc ++ skipn (t_cur s) buf)) ex)).
Proof.
  intros Ho Hp Hd Hoff Hc. unfold finish_value. rewrite Hp, Ho. cbn [findStringEnd str_width]. cbv zeta.
  destruct (str_scan_spec (skipn (t_cur s) buf) (t_esc s) 0)
    as [(w & tl & E & Es & R1 & R2)|(e & Es & R1 & R2)]; rewrite Es; cbn [plus].
  - left. change (t_cur (set_esc false s)) with (t_cur s). change (t_ds (set_esc false s)) with (t_ds s).
    rewrite Hd. destruct (Nat.ltb_spec (t_cur s + S (length w)) (t_cur s + 1)) as [H|H]; [lia|].
    exists w. eexists. split.
    { f_equal. f_equal. f_equal. f_equal. lia. }
    assert (Hsk : skipn (t_cur s + S (length w)) buf = tl).
    { rewrite skipn_add, E. change (w ++ c_quote :: tl) with (w ++ [c_quote] ++ tl). rewrite app_assoc.
      apply skipn_app_exact. rewrite app_length. cbn. lia. }
    split; [repeat split|]. split; [reflexivity|]. split; [reflexivity|]. split; [reflexivity|].
    cbn [t_cur set_prop set_cur]. rewrite Hsk. split; [exact E|].
    split; [exact R1|]. intros. rewrite R2. unfold after_value.
    change (run ?a ?b ?c (PDataIn nm nty TString false (acc ++ w)) (c_quote :: tl)) with
      (match value_done a c nm nty TString (acc ++ w) false with
       | Go ph' ex' => run a b ex' ph' tl | Fail e => RErr e
       | Out tk ph' ex' keep => ROut tk ph' ex' (if keep then c_quote :: tl else tl) end).
    unfold value_done. destruct (type_eqb _ _ && _); reflexivity.
  - right. exists e. split; [reflexivity|]. split; [exact R1|exact R2].
Qed.

Lemma finish_word o buf off ty s :
  o_isa o = Scalar -> no_nul buf -> (ty = TNumber \/ ty = TAscii) ->
  t_prop s = FindingEnd -> t_ds s <= t_cur s -> t_cur s <= length buf -> t_esc s = false ->
  (exists w b tl s1, finish_value o buf off 0 ty s = Ok (s1, NoError, (off, t_cur s1 - t_ds s), ty) /\
     keeps s s1 /\ t_prop s1 = FoundEnd /\ t_esc s1 = false /\ t_cur s1 = t_cur s + length w /\
     skipn (t_cur s) buf = w ++ skipn (t_cur s1) buf /\ skipn (t_cur s1) buf = b :: tl /\
    (forall o stk ex acc, run o stk ex (PNameIn ty false acc) (skipn (t_cur s) buf) =
       run o stk ex (PDelim (acc ++ w) (getType ty (acc ++ w))) (skipn (t_cur s1) buf)) /\
    (forall o stk ex nm nty acc, run o stk ex (PDataIn nm nty ty false acc) (skipn (t_cur s) buf) =
       after_value o ex nm nty ty (acc ++ w) (skipn (t_cur s1) buf))) \/
  (finish_value o buf off 0 ty s = Ok (s, NeedMoreData, (off, 0), ty) /\
    (forall o stk ex acc, run o stk ex (PNameIn ty false acc) (skipn (t_cur s) buf) =
       RNeed (PNameIn ty false (acc ++ skipn (t_cur s) buf)) ex) /\
    (forall o stk ex nm nty acc, run o stk ex (PDataIn nm nty ty false acc) (skipn (t_cur s) buf) =
       RNeed (PDataIn nm nty ty false (acc ++ skipn (t_cur s) buf)) ex)).
Proof.
  intros Ho Hn Hty Hp Hd Hc He.
  assert (Hnr : no_nul (skipn (t_cur s) buf)).
  { unfold no_nul in *. rewrite <- (firstn_skipn (t_cur s) buf) in Hn. apply Forall_app in Hn. apply Hn. }
  assert (Ef : finish_value o buf off 0 ty s =
    match word_end ty (skipn (t_cur s) buf) with
    | Some k => if t_cur s + k <? t_ds s + 0 then UB
                else Ok (set_prop FoundEnd (set_cur (t_cur s + k) s), NoError,
                         (off, t_cur s + k - t_ds s - 0), ty)
    | None => Ok (s, NeedMoreData, (off, 0), ty)
    end).
  { unfold finish_value. rewrite Hp, Ho. cbv zeta. destruct Hty as [-> | ->].
    - unfold findNumberEnd, number_scan, word_end. reflexivity.
    - unfold findAsciiEnd. rewrite ascii_scan_word by exact Hnr.
      destruct (word_end TAscii (skipn (t_cur s) buf)); reflexivity. }
  rewrite Ef. destruct (word_end_spec ty (skipn (t_cur s) buf) Hty)
    as [(w & b & tl & E & Es & Hb & R1 & R2)|(Es & R1 & R2)]; rewrite Es.
  - left. destruct (Nat.ltb_spec (t_cur s + length w) (t_ds s + 0)) as [H|H]; [lia|].
    assert (Hsk : skipn (t_cur s + length w) buf = b :: tl).
    { rewrite skipn_add, E. apply skipn_app_exact. reflexivity. }
    exists w, b, tl. eexists. split.
    { f_equal. f_equal. f_equal. f_equal. cbn. lia. }
    split; [repeat split|]. split; [reflexivity|]. split; [exact He|]. split; [reflexivity|].
    cbn [t_cur set_prop set_cur]. rewrite Hsk. split; [exact E|]. split; [reflexivity|].
    split; intros.
    + rewrite R1. cbn [run]. destruct Hty as [-> | ->]; cbn [step]; rewrite Hb; reflexivity.
    + rewrite R2. unfold after_value.
      assert (Hst : step o0 stk ex (PDataIn nm nty ty false (acc ++ w)) b =
                    value_done o0 ex nm nty ty (acc ++ w) true).
      { destruct Hty as [-> | ->]; cbn [step]; rewrite Hb; reflexivity. }
      cbn [run]. rewrite Hst. unfold value_done. destruct (type_eqb _ _ && _); reflexivity.
  - right. split; [reflexivity|]. split; [exact R1|exact R2].
Qed.

(** The possible outcomes of populateFromDataRef, with the byte machine's view of each. *)
Definition pfr_out (o : opts) (buf : bytes) (en : entry) (s s1 : tstate) (e : error)
  (off size : nat) (ty1 : type) : Prop :=
  let rest := skipn (t_cur s) buf in
  let rest1 := skipn (t_cur s1) buf in
  (e = EncounteredIllegalChar /\ en = None /\
   (forall o stk ex, run o stk ex PName rest = RErr e) /\
   (forall o stk ex nm nty, run o stk ex (PData nm nty) rest = RErr e)) \/
  (e = NeedMoreData /\ en = None /\ t_prop s1 = NoStartFound /\ t_esc s1 = false /\
   (forall o stk ex, run o stk ex PName rest = RNeed PName ex) /\
   (forall o stk ex nm nty, run o stk ex (PData nm nty) rest = RNeed (PData nm nty) ex)) \/
  (e = NeedMoreData /\ t_prop s1 = FindingEnd /\ value_ty ty1 /\ (ty1 <> TString -> t_esc s1 = false) /\
   (en = None -> rest <> []) /\
   exists txt, slice buf off (length buf - t_ds s1) = Ok txt /\
   (forall o stk ex, run o stk ex (phaseN en) rest = RNeed (PNameIn ty1 (t_esc s1) (acc_of en ++ txt)) ex) /\
   (forall o stk ex nm nty, run o stk ex (phaseD nm nty en) rest =
      RNeed (PDataIn nm nty ty1 (t_esc s1) (acc_of en ++ txt)) ex)) \/
  (e = NoError /\ en = None /\ t_prop s1 = FoundEnd /\ t_esc s1 = false /\ t_cur s1 <= length buf /\
   is_bracket ty1 = true /\
   exists c, slice buf off size = Ok [c] /\ start_class c = Some ty1 /\
   (forall o stk ex, run o stk ex PName rest = run o stk ex PName (c :: rest1)) /\
   (forall o stk ex nm nty, run o stk ex (PData nm nty) rest = run o stk ex (PData nm nty) (c :: rest1))) \/
  (e = NoError /\ t_prop s1 = FoundEnd /\ t_esc s1 = false /\ t_cur s1 <= length buf /\ value_ty ty1 /\
   (t_cur s1 < length buf \/ (ty1 = TString /\ exists l, buf = l ++ [c_quote])) /\
   exists txt, slice buf off size = Ok txt /\
   (forall o stk ex, run o stk ex (phaseN en) rest =
      run o stk ex (PDelim (acc_of en ++ txt) (getType ty1 (acc_of en ++ txt))) rest1) /\
   (forall o stk ex nm nty, run o stk ex (phaseD nm nty en) rest =
      after_value o ex nm nty ty1 (acc_of en ++ txt) rest1)).

Lemma set_cur_same s : set_cur (t_cur s) s = s.
Proof. destruct s; reflexivity. Qed.

Lemma start_class_type c t : start_class c = Some t -> is_bracket t = false -> value_ty t.
Proof.
  unfold start_class. destruct (single_char_type c) as [t'|] eqn:E.
  - intros H. injection H as ->. unfold single_char_type in E.
    destruct (Byte.eqb c c_quote); [injection E as <-; left; reflexivity|].
    destruct (Byte.eqb c c_lbrace); [injection E as <-; discriminate|].
    destruct (Byte.eqb c c_rbrace); [injection E as <-; discriminate|].
    destruct (Byte.eqb c c_lbracket); [injection E as <-; discriminate|].
    destruct (Byte.eqb c c_rbracket); [injection E as <-; discriminate|discriminate].
  - destruct (has c _); [intros H; injection H as <-; right; left; reflexivity|].
    destruct (has c _); [intros H; injection H as <-; right; right; reflexivity|discriminate].
Qed.

Lemma start_class_string c : start_class c = Some TString -> c = c_quote.
Proof.
  unfold start_class, single_char_type. destruct (Byte.eqb c c_quote) eqn:E.
  - intros _. apply byte_eqb_eq. exact E.
  - destruct (Byte.eqb c c_lbrace); [discriminate|]. destruct (Byte.eqb c c_rbrace); [discriminate|].
    destruct (Byte.eqb c c_lbracket); [discriminate|]. destruct (Byte.eqb c c_rbracket); [discriminate|].
    destruct (has c _); [discriminate|]. destruct (has c _); discriminate.
Qed.

Lemma skipn_nil_length {A} n (l : list A) : n <= length l -> skipn n l = [] -> n = length l.
Proof. intros H E. apply (f_equal (@length A)) in E. rewrite skipn_length in E. cbn in E. lia. Qed.

Lemma keeps_trans a b c : keeps a b -> keeps b c -> keeps a c.
Proof.
  intros (H1 & H2 & H3 & H4) (K1 & K2 & K3 & K4). repeat split; try congruence;
  try (eapply frame_trans; eassumption); destruct (frame_trans _ _ _ H1 K1) as (A1&A2&A3&A4&A5&A6&A7); assumption.
Qed.

Lemma populateFrom_run o buf ty en s :
  o_isa o = Scalar -> o_comments o = false -> no_nul buf ->
  entry_at en ty s -> t_cur s <= length buf ->
  exists s1 e off size ty1,
    populateFromDataRef o buf ty s = Ok (s1, e, (off, size), ty1) /\ keeps s s1 /\
    (en <> None -> ty1 = ty) /\ pfr_out o buf en s s1 e off size ty1.
Proof.
  intros Ho Hcm Hn Hen Hc. unfold populateFromDataRef.
  destruct en as [[[ty' esc] acc]|]; cbn [entry_at] in Hen.
  - (* inside a value *)
    destruct Hen as (-> & Hty & Hp & Hc0 & Hd0 & He & Hesc). rewrite Hp.
    assert (Hrest : slice buf 0 (length buf - 0) = Ok (skipn 0 buf)).
    { rewrite slice_ok by lia. f_equal. cbn [skipn]. apply firstn_all2. lia. }
    assert (HS : ty = TString \/ (ty = TNumber \/ ty = TAscii)) by (destruct Hty as [?|[?|?]]; auto).
    destruct HS as [-> | HS].
    + destruct (finish_str o buf (t_cur s) s Ho Hp) as
        [(w & s1 & E & K & P & Es & Ec & Er & R1 & R2)|(e & E & R1 & R2)]; try lia.
      * exists s1, NoError, (t_cur s), (length w), TString. split; [exact E|]. split; [exact K|].
        split; [reflexivity|]. unfold pfr_out. do 4 right. cbn [phaseN phaseD acc_of].
        assert (Hl : t_cur s1 <= length buf).
        { apply (f_equal (@length byte)) in Er. rewrite app_length in Er. cbn [length] in Er.
          rewrite !skipn_length in Er. lia. }
        repeat split; auto.
        -- destruct (Nat.eq_dec (t_cur s1) (length buf)) as [Hx|Hx]; [|lia]. right. split; [reflexivity|].
           exists (firstn (t_cur s) buf ++ w). rewrite Hx, skipn_all in Er.
           rewrite <- app_assoc. rewrite <- Er. symmetry. apply firstn_skipn.
        -- exists w. rewrite Hc0 in *. split.
           { rewrite slice_ok by lia. cbn [skipn] in *. rewrite Er at 1.
             rewrite firstn_app, firstn_all, Nat.sub_diag. cbn [firstn]. rewrite app_nil_r. reflexivity. }
           rewrite He in *. split; [intros; apply R1|intros; apply R2].
      * exists (set_esc e s), NeedMoreData, (t_cur s), 0, TString. split; [exact E|]. split; [repeat split|].
        split; [reflexivity|]. unfold pfr_out. do 2 right. left. cbn [phaseN phaseD acc_of].
        split; [reflexivity|]. split; [exact Hp|]. split; [left; reflexivity|].
        split; [congruence|]. split; [discriminate|].
        exists (skipn 0 buf). cbn [t_ds set_esc t_esc]. rewrite Hd0, Hc0 in *. split; [exact Hrest|].
        rewrite He in *. split; [intros; apply R1|intros; apply R2].
    + assert (Hns : ty <> TString) by (destruct HS as [-> | ->]; discriminate).
      specialize (Hesc Hns). subst esc.
      destruct (finish_word o buf (t_cur s) ty s Ho Hn HS Hp) as
        [(w & b & tl & s1 & E & K & P & Es & Ec & Er & Eb & R1 & R2)|(E & R1 & R2)]; try lia; try congruence.
      * exists s1, NoError, (t_cur s), (t_cur s1 - t_ds s), ty. split; [exact E|]. split; [exact K|].
        split; [reflexivity|]. unfold pfr_out. do 4 right. cbn [phaseN phaseD acc_of].
        assert (Hl : t_cur s1 < length buf).
        { apply (f_equal (@length byte)) in Eb. cbn [length] in Eb. rewrite skipn_length in Eb. lia. }
        repeat split; auto; try lia.
        exists w. rewrite Hc0, Hd0 in *. split.
        { rewrite slice_ok by lia. cbn [skipn] in *. rewrite Er at 1.
          rewrite Ec. rewrite Nat.sub_0_r. cbn [plus]. rewrite firstn_app, firstn_all, Nat.sub_diag. cbn [firstn].
          rewrite app_nil_r. reflexivity. }
        rewrite Hesc. split; [intros; apply R1|intros; apply R2].
      * exists s, NeedMoreData, (t_cur s), 0, ty. split; [exact E|]. split; [repeat split|].
        split; [reflexivity|]. unfold pfr_out. do 2 right. left. cbn [phaseN phaseD acc_of].
        split; [reflexivity|]. split; [exact Hp|]. split; [exact Hty|]. split; [intros _; exact Hesc|].
        split; [discriminate|].
        exists (skipn 0 buf). rewrite Hd0, Hc0 in *. split; [exact Hrest|].
        rewrite Hesc. split; [intros; apply R1|intros; apply R2].
  - (* looking for a value *)
    destruct Hen as [Hp He]. rewrite Hp. rewrite findStart_eq.
    destruct (fsnv_spec (scalar_opts o) Hcm (S (length (skipn (t_cur s) buf))) (skipn (t_cur s) buf)
                (t_cur s) (t_cur s) (Nat.lt_succ_diag_r _))
      as [(w & b & tl & t & Er & Hw & Hb & E)|[(w & b & tl & Er & Hw & Hb & Hb2 & E)|(Hw & E)]]; rewrite E.
    + (* a start was found *)
      replace (t_cur s + (t_cur s + length w - t_cur s)) with (t_cur s + length w) by lia.
      assert (Hlen : t_cur s + length w < length buf).
      { apply (f_equal (@length byte)) in Er. rewrite app_length, skipn_length in Er. cbn [length] in Er. lia. }
      assert (Hsk1 : skipn (t_cur s + length w) buf = b :: tl).
      { rewrite skipn_add, Er. apply skipn_app_exact. reflexivity. }
      assert (Hsk2 : skipn (t_cur s + length w + 1) buf = tl).
      { rewrite skipn_add, Hsk1. reflexivity. }
      cbv zeta. destruct (is_bracket t) eqn:Hbr.
      * assert (Hts : type_eqb t TString = false) by (destruct t; try discriminate Hbr; reflexivity).
        rewrite Hts, Nat.add_0_r. unfold finish_value. cbn [t_prop set_prop].
        do 5 eexists. split; [reflexivity|]. split; [repeat split|].
        split; [congruence|]. unfold pfr_out. do 3 right. left. cbn [t_cur set_prop set_ptype set_cur t_prop t_esc set_ds].
        repeat split; auto; try lia.
        exists b. split; [rewrite slice_ok by lia; rewrite Hsk1; reflexivity|]. split; [exact Hb|].
        rewrite Er, Hsk2. split; intros; [apply run_skips_name; exact Hw|apply run_skips_data; exact Hw].
      * assert (Hvt := start_class_type b t Hb Hbr).
        set (start := t_cur s + length w + (if type_eqb t TString then 1 else 0)).
        set (s0 := set_prop FindingEnd (set_ptype t (set_cur (t_cur s + length w + 1) (set_ds start s)))).
        assert (K0 : keeps s s0) by (repeat split).
        assert (HS : t = TString \/ (t = TNumber \/ t = TAscii)) by (destruct Hvt as [?|[?|?]]; auto).
        destruct HS as [-> | HS].
        -- assert (Hstart : start = t_cur s + length w + 1) by reflexivity.
           assert (RN : forall o stk ex, run o stk ex PName (skipn (t_cur s) buf) =
                     run o stk ex (PNameIn TString false []) tl).
           { intros. rewrite Er, run_skips_name by exact Hw. cbn [run step]. unfold name_step. rewrite Hb.
             reflexivity. }
           assert (RD : forall o stk ex nm nty, run o stk ex (PData nm nty) (skipn (t_cur s) buf) =
                     run o stk ex (PDataIn nm nty TString false []) tl).
           { intros. rewrite Er, run_skips_data by exact Hw. cbn [run step]. unfold data_step. rewrite Hb.
             reflexivity. }
           assert (Hc0 : t_cur s0 = t_cur s + length w + 1) by reflexivity.
           assert (Hd0 : t_ds s0 = start) by reflexivity.
           assert (He0 : t_esc s0 = false) by exact He.
           assert (Hp0 : t_prop s0 = FindingEnd) by reflexivity.
           clearbody s0.
           destruct (finish_str o buf start s0 Ho Hp0) as
             [(w1 & s1 & E1 & K & P & Es & Ec & Er1 & R1 & R2)|(e & E1 & R1 & R2)]; try lia.
           ++ exists s1, NoError, start, (length w1), TString. split; [exact E1|].
              split; [eapply keeps_trans; eassumption|].
              split; [congruence|]. unfold pfr_out. do 4 right. cbn [phaseN phaseD acc_of app].
              assert (Hl : t_cur s1 <= length buf).
              { apply (f_equal (@length byte)) in Er1. rewrite app_length in Er1. cbn [length] in Er1.
                rewrite !skipn_length in Er1. lia. }
              repeat split; auto.
              ** destruct (Nat.eq_dec (t_cur s1) (length buf)) as [Hx|Hx]; [|lia]. right. split; [reflexivity|].
                 exists (firstn (t_cur s0) buf ++ w1). rewrite Hx, skipn_all in Er1.
                 rewrite <- app_assoc. rewrite <- Er1. symmetry. apply firstn_skipn.
              ** exists w1. rewrite He0, Hc0, Hsk2 in *. rewrite Hstart. split.
                 { rewrite slice_ok by lia. rewrite Hsk2. rewrite Er1 at 1.
                   rewrite firstn_app, firstn_all, Nat.sub_diag. cbn [firstn]. rewrite app_nil_r. reflexivity. }
                 split; intros.
                 { rewrite RN. apply (R1 o0 stk ex []). }
                 { rewrite RD. apply (R2 o0 stk ex nm nty []). }
           ++ exists (set_esc e s0), NeedMoreData, start, 0, TString. split; [exact E1|].
              split; [eapply keeps_trans; [exact K0|repeat split]|].
              split; [congruence|]. unfold pfr_out. do 2 right. left. cbn [phaseN phaseD acc_of app].
              split; [reflexivity|]. split; [exact Hp0|]. split; [left; reflexivity|].
              split; [congruence|].
              split; [intros _ Hx; rewrite Hx in Er; destruct w; discriminate|].
              exists tl. change (t_ds (set_esc e s0)) with (t_ds s0). cbn [t_esc set_esc].
              rewrite He0, Hc0, Hsk2 in *. rewrite Hd0. split.
              { rewrite slice_ok by lia. rewrite Hstart, Hsk2. f_equal. apply firstn_all2.
                apply (f_equal (@length byte)) in Hsk2. rewrite skipn_length in Hsk2. lia. }
              split; intros.
              { rewrite RN. apply (R1 o0 stk ex []). }
              { rewrite RD. apply (R2 o0 stk ex nm nty []). }
        -- assert (Hts : t <> TString) by (destruct HS as [-> | ->]; discriminate).
           assert (Hstart : start = t_cur s + length w).
           { unfold start. destruct HS as [-> | ->]; cbn; lia. }
           assert (RN : forall o stk ex, run o stk ex PName (skipn (t_cur s) buf) =
                     run o stk ex (PNameIn t false [b]) tl).
           { intros. rewrite Er, run_skips_name by exact Hw. cbn [run step]. unfold name_step. rewrite Hb.
             destruct HS as [-> | ->]; reflexivity. }
           assert (RD : forall o stk ex nm nty, run o stk ex (PData nm nty) (skipn (t_cur s) buf) =
                     run o stk ex (PDataIn nm nty t false [b]) tl).
           { intros. rewrite Er, run_skips_data by exact Hw. cbn [run step]. unfold data_step. rewrite Hb.
             destruct HS as [-> | ->]; reflexivity. }
           assert (Hc0 : t_cur s0 = t_cur s + length w + 1) by reflexivity.
           assert (Hd0 : t_ds s0 = start) by reflexivity.
           assert (He0 : t_esc s0 = false) by exact He.
           assert (Hp0 : t_prop s0 = FindingEnd) by reflexivity.
           clearbody s0.
           destruct (finish_word o buf start t s0 Ho Hn HS Hp0) as
             [(w1 & b1 & tl1 & s1 & E1 & K & P & Es & Ec & Er1 & Eb & R1 & R2)|(E1 & R1 & R2)]; try lia; try congruence.
           ++ exists s1, NoError, start, (t_cur s1 - t_ds s0), t. split; [exact E1|].
              split; [eapply keeps_trans; eassumption|].
              split; [congruence|]. unfold pfr_out. do 4 right. cbn [phaseN phaseD acc_of app].
              assert (Hl : t_cur s1 < length buf).
              { apply (f_equal (@length byte)) in Eb. cbn [length] in Eb. rewrite skipn_length in Eb. lia. }
              repeat split; auto; try lia.
              exists (b :: w1). rewrite Hc0, Hsk2 in *. rewrite Hd0. split.
              { rewrite slice_ok by lia. rewrite Hstart, Hsk1. rewrite Er1 at 1. rewrite Ec.
                replace (t_cur s + length w + 1 + length w1 - (t_cur s + length w)) with (S (length w1)) by lia.
                cbn [firstn]. rewrite firstn_app, firstn_all, Nat.sub_diag. cbn [firstn].
                rewrite app_nil_r. reflexivity. }
              split; intros.
              { rewrite RN. apply (R1 o0 stk ex [b]). }
              { rewrite RD. apply (R2 o0 stk ex nm nty [b]). }
           ++ exists s0, NeedMoreData, start, 0, t. split; [exact E1|].
              split; [exact K0|].
              split; [congruence|]. unfold pfr_out. do 2 right. left. cbn [phaseN phaseD acc_of app].
              split; [reflexivity|]. split; [exact Hp0|]. split; [exact Hvt|]. split; [intros _; exact He0|].
              split; [intros _ Hx; rewrite Hx in Er; destruct w; discriminate|].
              exists (b :: tl). rewrite Hc0, Hsk2 in *. rewrite Hd0, He0. split.
              { rewrite slice_ok by lia. rewrite Hstart, Hsk1. f_equal. apply firstn_all2.
                apply (f_equal (@length byte)) in Hsk1. rewrite skipn_length in Hsk1. lia. }
              split; intros.
              { rewrite RN. apply (R1 o0 stk ex [b]). }
              { rewrite RD. apply (R2 o0 stk ex nm nty [b]). }
    + rewrite set_cur_same. do 5 eexists. split; [reflexivity|]. split; [repeat split|].
      split; [congruence|]. unfold pfr_out. left. repeat split; auto; intros.
      * rewrite Er, run_skips_name by exact Hw. cbn [run step]. unfold name_step. rewrite Hb, Hb2. reflexivity.
      * rewrite Er, run_skips_data by exact Hw. cbn [run step]. unfold data_step. rewrite Hb, Hb2. reflexivity.
    + rewrite set_cur_same. do 5 eexists. split; [reflexivity|]. split; [repeat split|].
      split; [congruence|]. unfold pfr_out. right. left. repeat split; auto; intros.
      * rewrite <- (app_nil_r (skipn (t_cur s) buf)). apply run_skips_name. exact Hw.
      * rewrite <- (app_nil_r (skipn (t_cur s) buf)). apply run_skips_data. exact Hw.
Qed.

Lemma upto_nul_id txt : no_nul txt -> upto_nul txt = txt.
Proof.
  intros Hnt. unfold upto_nul. rewrite <- (firstn_all txt) at 3. f_equal.
  induction Hnt as [|c l H1 _ IH]; [reflexivity|].
  cbn. assert (Byte.eqb c c_nul = false) as -> by (apply byte_eqb_neq; exact H1). rewrite IH. reflexivity.
Qed.

Lemma slice_no_nul buf off n txt : no_nul buf -> slice buf off n = Ok txt -> no_nul txt.
Proof.
  unfold slice, no_nul. destruct (off + n <=? length buf); [|discriminate]. intros Hn X. injection X as <-.
  rewrite <- (firstn_skipn off buf) in Hn. apply Forall_app in Hn. destruct Hn as [_ Hn].
  rewrite <- (firstn_skipn n (skipn off buf)) in Hn. apply Forall_app in Hn. apply Hn.
Qed.
