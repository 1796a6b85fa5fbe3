(** The tokenizer accepts exactly the texts of LenientSpec.v. *)
From Verif Require Import Base ScanModel ScanProofs TokModel TokLoops TokProofs TokSafe TokSpec TokIsa JsonSpec
  ChunkSpec TokStream TokStreamProofs TokStreamNext TokPlace TokChunk LenientSpec LenientRun.
From Coq Require Import Lia ZifyBool ZifyNat ZifyN.

Lemma run_skip_name o stk ex w l : skip all_dev w -> run o stk ex PName (w ++ l) = run o stk ex PName l.
Proof. intros H. apply run_skips_name, skips_of_skip, H. Qed.
Lemma run_skip_data o stk ex nm nty w l : skip all_dev w ->
  run o stk ex (PData nm nty) (w ++ l) = run o stk ex (PData nm nty) l.
Proof. intros H. apply run_skips_data, skips_of_skip, H. Qed.

(** A start byte: a bracket, a quote, or the first byte of a word or number. *)
Lemma start_cases c t : start_class c = Some t ->
  (exists k, c = opening k /\ t = opening_type k) \/ (exists k, c = closing k /\ t = closing_type k) \/
  (c = quote /\ t = TString) \/ (t = TNumber \/ t = TAscii).
Proof.
  intros H. destruct (is_bracket t) eqn:Eb.
  - assert (E := bracket_byte c t H Eb). destruct t; try discriminate Eb.
    + left. exists KObj. auto.
    + right. left. exists KObj. auto.
    + left. exists KArr. auto.
    + right. left. exists KArr. auto.
  - destruct (start_class_type c t H Eb) as [->|[->| ->]]; auto.
    right. right. left. split; [apply start_class_string; exact H|reflexivity].
Qed.

Lemma start_opening k : start_class (opening k) = Some (opening_type k).
Proof. destruct k; reflexivity. Qed.
Lemma start_closing k : start_class (closing k) = Some (closing_type k).
Proof. destruct k; reflexivity. Qed.

Section Default.
Variable o : opts.
Hypothesis Hcomma : o_comma o = false.
Hypothesis Hascii : o_ascii o = false.

Lemma run_open stk ex k l :
  run o stk ex PName (opening k :: l) = ROut (st_make None [opening k] (opening_type k)) PName false l.
Proof. cbn [run step]. unfold name_step. rewrite start_opening. destruct k; reflexivity. Qed.
Lemma run_close stk k l :
  run o stk false PName (closing k :: l) = ROut (st_make None [closing k] (closing_type k)) PEnd false l.
Proof. cbn [run step]. unfold name_step. rewrite start_closing. destruct k; reflexivity. Qed.
Lemma run_close_true stk k l : run o stk true PName (closing k :: l) = RErr ExpectedDataToken.
Proof. cbn [run step]. unfold name_step. rewrite start_closing, Hcomma. destruct k; reflexivity. Qed.
Lemma run_data_open stk ex nm k l :
  run o stk ex (PData nm TString) (opening k :: l) = ROut (st_make (Some nm) [opening k] (opening_type k)) PName ex l.
Proof. cbn [run step]. unfold data_step. rewrite start_opening. destruct k; reflexivity. Qed.
Lemma run_data_close stk ex nm k l :
  run o stk ex (PData nm TString) (closing k :: l) = ROut (st_make (Some nm) [closing k] (closing_type k)) PEnd ex l.
Proof. cbn [run step]. unfold data_step. rewrite start_closing. destruct k; reflexivity. Qed.

(** ** What a successful step means *)

Lemma delim_cases k st ex nm nty l tk ph' ex' r :
  no_nul l -> run o (opening_type k :: st) ex (PDelim nm nty) l = ROut tk ph' ex' r ->
  exists w, ws w /\
    ((k = KArr /\ l = w ++ comma :: r /\ tk = mkSt [] TAscii nm nty /\ ph' = PName /\ ex' = false) \/
     (k = KArr /\ exists r', l = w ++ rbrack :: r' /\ r = rbrack :: r' /\ tk = mkSt [] TAscii nm nty /\ ph' = PName /\ ex' = false) \/
     (k = KObj /\ nty = TString /\ exists l', l = w ++ colon :: l' /\
        run o (opening_type k :: st) false (PData nm nty) l' = ROut tk ph' ex' r)).
Proof.
  intros Hn E. destruct (split_while (fun c => has c L_WhiteSpaceOrNull) l) as (w & l' & -> & Hw & Hl').
  apply no_nul_app in Hn. destruct Hn as [Hn1 Hn2]. assert (Hws := ws_of_wsb w Hn1 Hw).
  exists w. split; [exact Hws|]. rewrite run_delim_ws in E by (apply ws_delim; exact Hws).
  destruct l' as [|c l']; [discriminate E|]. cbn [run step] in E. unfold delim_step in E.
  destruct (Byte.eqb c c_colon) eqn:E1.
  { apply byte_eqb_eq in E1. subst c. destruct k; [discriminate E|]. cbn [opening_type type_eqb negb] in E.
    destruct (name_ok o nty) eqn:En; [|discriminate E]. right. right. split; [reflexivity|].
    split; [|exists l'; split; [reflexivity|exact E]].
    unfold name_ok in En. rewrite Hascii in En. cbn [negb orb] in En. rewrite andb_true_r, negb_involutive in En.
    apply type_eqb_eq. exact En. }
  destruct (Byte.eqb c c_comma) eqn:E2.
  { apply byte_eqb_eq in E2. subst c. destruct k; [|discriminate E]. cbn in E. injection E as <- <- <- <-.
    left. repeat split. }
  destruct (Byte.eqb c c_rbracket) eqn:E3.
  { apply byte_eqb_eq in E3. subst c. destruct k; [|discriminate E]. cbn in E. injection E as <- <- <- <-.
    right. left. split; [reflexivity|]. exists l'. repeat split. }
  rewrite Hl' in E. discriminate E.
Qed.

Lemma data_cases k st ex nm l tk ph' ex' r :
  no_nul l -> run o (opening_type k :: st) ex (PData nm TString) l = ROut tk ph' ex' r ->
  exists w, skip all_dev w /\
    ((exists k', l = w ++ closing k' :: r /\ tk = st_make (Some nm) [closing k'] (closing_type k') /\ ph' = PEnd /\ ex' = ex) \/
     (exists k', l = w ++ opening k' :: r /\ tk = st_make (Some nm) [opening k'] (opening_type k') /\ ph' = PName /\ ex' = ex) \/
     (exists t v ty, l = w ++ t ++ r /\ lexeme all_dev t v ty /\ ty <> TAscii /\ tk = st_make (Some nm) v ty /\
        ph' = PEnd /\ ex' = ex)).
Proof.
  intros Hn E. destruct (split_while skipsb l) as (w & l' & -> & Hw & Hl').
  apply no_nul_app in Hn. destruct Hn as [Hn1 Hn2]. assert (Hsk := skip_of_skips w Hn1 Hw).
  exists w. split; [exact Hsk|]. rewrite run_skip_data in E by exact Hsk.
  destruct l' as [|c l']; [discriminate E|].
  destruct (start_class c) as [t|] eqn:Ec.
  2:{ cbn [run step] in E. unfold data_step in E. unfold skipsb in Hl'. rewrite Ec in E, Hl'.
      apply negb_false_iff in Hl'. rewrite Hl' in E. discriminate E. }
  apply no_nul_cons in Hn2. destruct Hn2 as [_ Hn2].
  destruct (start_cases c t Ec) as [(k' & -> & ->)|[(k' & -> & ->)|[(-> & ->)|Hty]]].
  - rewrite run_data_open in E. injection E as <- <- <- <-. right. left. exists k'. repeat split.
  - rewrite run_data_close in E. injection E as <- <- <- <-. left. exists k'. repeat split.
  - change (run o (opening_type k :: st) ex (PDataIn nm TString TString false []) l' = ROut tk ph' ex' r) in E.
    destruct (str_split l') as [(b & tl & -> & Hb)|[Hb|(b & -> & Hb)]].
    + rewrite run_data_string in E by exact Hb. cbn in E. injection E as <- <- <- <-.
      right. right. exists (quote :: b ++ [quote]), b, TString.
      split; [cbn; rewrite <- !app_assoc; reflexivity|]. split; [constructor; [exact Hb|left; exact I]|].
      repeat split. discriminate.
    + rewrite <- (app_nil_r l'), run_data_string in E by exact Hb. discriminate E.
    + rewrite run_data_string in E by exact Hb. discriminate E.
  - assert (E' : run o (opening_type k :: st) ex (PDataIn nm TString t false [c]) l' = ROut tk ph' ex' r).
    { cbn [run step] in E. unfold data_step in E. rewrite Ec in E. destruct Hty as [-> | ->]; exact E. }
    clear E. destruct (split_while (word_cont t) l') as (w2 & l2 & -> & Hw2 & Hl2).
    rewrite run_data_word in E' by assumption. destruct l2 as [|d l2]; [discriminate E'|].
    assert (E : run o (opening_type k :: st) ex (PDataIn nm TString t false ([c] ++ w2)) (d :: l2) =
      match value_done o ex nm TString t ([c] ++ w2) true with
      | Go ph' ex' => run o (opening_type k :: st) ex' ph' l2
      | Fail e => RErr e | Out tk ph' ex' keep => ROut tk ph' ex' (if keep then d :: l2 else l2) end).
    { destruct Hty as [-> | ->]; cbn [run step]; rewrite Hl2; reflexivity. }
    rewrite E in E'. clear E. unfold value_done in E'. rewrite Hascii in E'. cbn [negb] in E'. rewrite andb_true_r in E'.
    destruct (type_eqb (getType t ([c] ++ w2)) TAscii) eqn:Ea; [discriminate E'|]. injection E' as <- <- <- <-.
    right. right. exists (c :: w2), (c :: w2), (getType t (c :: w2)).
    split; [reflexivity|]. split; [apply word_lexeme; assumption|]. split; [|repeat split].
    intros X. cbn [app] in Ea. rewrite X in Ea. discriminate Ea.
Qed.

Lemma name_cases k st ex l tk ph' ex' r :
  no_nul l -> run o (opening_type k :: st) ex PName l = ROut tk ph' ex' r ->
  exists w, skip all_dev w /\
    ((exists k', l = w ++ closing k' :: r /\ ex = false /\ tk = st_make None [closing k'] (closing_type k') /\ ph' = PEnd /\ ex' = false) \/
     (exists k', l = w ++ opening k' :: r /\ tk = st_make None [opening k'] (opening_type k') /\ ph' = PName /\ ex' = false) \/
     (k = KArr /\ exists t v ty w2, l = w ++ t ++ w2 ++ comma :: r /\ lexeme all_dev t v ty /\ ws w2 /\
        tk = st_make None v ty /\ ph' = PName /\ ex' = false) \/
     (k = KArr /\ exists t v ty w2 r', l = w ++ t ++ w2 ++ rbrack :: r' /\ r = rbrack :: r' /\ lexeme all_dev t v ty /\ ws w2 /\
        tk = st_make None v ty /\ ph' = PName /\ ex' = false) \/
     (k = KObj /\ exists nm w2 l', l = w ++ quote :: nm ++ quote :: w2 ++ colon :: l' /\ str_body nm /\ ws w2 /\
        no_nul l' /\ run o (opening_type k :: st) false (PData nm TString) l' = ROut tk ph' ex' r)).
Proof.
  intros Hn E. destruct (split_while skipsb l) as (w & l' & -> & Hw & Hl').
  apply no_nul_app in Hn. destruct Hn as [Hn1 Hn2]. assert (Hsk := skip_of_skips w Hn1 Hw).
  exists w. split; [exact Hsk|]. rewrite run_skip_name in E by exact Hsk.
  destruct l' as [|c l']; [discriminate E|].
  destruct (start_class c) as [t|] eqn:Ec.
  2:{ cbn [run step] in E. unfold name_step in E. unfold skipsb in Hl'. rewrite Ec in E, Hl'.
      apply negb_false_iff in Hl'. rewrite Hl' in E. discriminate E. }
  apply no_nul_cons in Hn2. destruct Hn2 as [_ Hn2].
  (* a scalar [c :: t1] in front of [l2], read up to the delimiter *)
  assert (HD : forall t1 v ty l2, c :: l' = t1 ++ l2 -> lexeme all_dev t1 v ty -> no_nul l2 ->
    (ty = TString -> exists b, t1 = quote :: b ++ [quote] /\ v = b /\ str_body b) ->
    run o (opening_type k :: st) ex (PDelim v ty) l2 = ROut tk ph' ex' r ->
    (k = KArr /\ exists t v ty w2, w ++ c :: l' = w ++ t ++ w2 ++ comma :: r /\ lexeme all_dev t v ty /\ ws w2 /\
        tk = st_make None v ty /\ ph' = PName /\ ex' = false) \/
     (k = KArr /\ exists t v ty w2 r', w ++ c :: l' = w ++ t ++ w2 ++ rbrack :: r' /\ r = rbrack :: r' /\ lexeme all_dev t v ty /\ ws w2 /\
        tk = st_make None v ty /\ ph' = PName /\ ex' = false) \/
     (k = KObj /\ exists nm w2 l2, w ++ c :: l' = w ++ quote :: nm ++ quote :: w2 ++ colon :: l2 /\ str_body nm /\ ws w2 /\
        no_nul l2 /\ run o (opening_type k :: st) false (PData nm TString) l2 = ROut tk ph' ex' r)).
  { intros t1 v ty l2 Et Hlx Hnl Hstr ER.
    destruct (delim_cases k st ex v ty l2 tk ph' ex' r Hnl ER) as (w2 & Hw2 & [(-> & -> & -> & -> & ->)|[(-> & r' & -> & -> & -> & -> & ->)|(-> & -> & l3 & -> & ER2)]]).
    - left. split; [reflexivity|]. exists t1, v, ty, w2. rewrite Et. repeat split; assumption.
    - right. left. split; [reflexivity|]. exists t1, v, ty, w2, r'. rewrite Et. repeat split; assumption.
    - right. right. split; [reflexivity|]. destruct (Hstr eq_refl) as (b & -> & -> & Hb).
      exists b, w2, l3. rewrite Et. apply no_nul_app in Hnl. destruct Hnl as [_ Hnl]. apply no_nul_cons in Hnl.
      split; [cbn; rewrite <- app_assoc; reflexivity|]. repeat split; try assumption. apply Hnl. }
  destruct (start_cases c t Ec) as [(k' & -> & ->)|[(k' & -> & ->)|[(-> & ->)|Hty]]].
  - rewrite run_open in E. injection E as <- <- <- <-. right. left. exists k'. repeat split.
  - destruct ex; [rewrite run_close_true in E; discriminate E|].
    rewrite run_close in E. injection E as <- <- <- <-. left. exists k'. repeat split.
  - right. right.
    change (run o (opening_type k :: st) ex (PNameIn TString false []) l' = ROut tk ph' ex' r) in E.
    destruct (str_split l') as [(b & tl & -> & Hb)|[Hb|(b & -> & Hb)]].
    + rewrite run_string in E by exact Hb.
      apply no_nul_app in Hn2. destruct Hn2 as [_ Hn2]. apply no_nul_cons in Hn2.
      apply (HD (quote :: b ++ [quote]) b TString tl).
      * cbn. rewrite <- app_assoc. reflexivity.
      * constructor; [exact Hb|left; exact I].
      * apply Hn2.
      * intros _. exists b. auto.
      * exact E.
    + rewrite <- (app_nil_r l'), run_string in E by exact Hb. discriminate E.
    + rewrite run_string in E by exact Hb. discriminate E.
  - right. right.
    assert (E' : run o (opening_type k :: st) ex (PNameIn t false [c]) l' = ROut tk ph' ex' r).
    { cbn [run step] in E. unfold name_step in E. rewrite Ec in E. destruct Hty as [-> | ->]; exact E. }
    clear E. destruct (split_while (word_cont t) l') as (w2 & l2 & -> & Hw2 & Hl2).
    rewrite run_word in E' by assumption. destruct l2 as [|d l2]; [discriminate E'|].
    rewrite run_word_end in E' by assumption.
    apply no_nul_app in Hn2. destruct Hn2 as [_ Hn2].
    apply (HD (c :: w2) (c :: w2) (getType t (c :: w2)) (d :: l2)).
    * reflexivity.
    * apply word_lexeme; assumption.
    * exact Hn2.
    * intros X. exfalso. destruct Hty as [-> | ->]; [discriminate X|]. cbn in X.
      destruct (bool_or_null_type (c :: w2)) as [Y|[Y|Y]]; rewrite Y in X; discriminate X.
    * exact E'.
Qed.

Lemma end_cases k st l tk ph' ex' r :
  no_nul l -> run o (opening_type k :: st) false PEnd l = ROut tk ph' ex' r ->
  exists w, ws w /\
    ((exists k', l = w ++ closing k' :: r /\ tk = st_make None [closing k'] (closing_type k') /\ ph' = PEnd /\ ex' = false) \/
     (exists l', l = w ++ comma :: l' /\ no_nul l' /\ run o (opening_type k :: st) true PName l' = ROut tk ph' ex' r)).
Proof.
  intros Hn E. destruct (split_while (fun c => has c L_WhiteSpaceOrNull) l) as (w & l' & -> & Hw & Hl').
  apply no_nul_app in Hn. destruct Hn as [Hn1 Hn2]. assert (Hws := ws_of_wsb w Hn1 Hw).
  exists w. split; [exact Hws|]. rewrite run_end_ws in E by (apply ws_end; exact Hws).
  destruct l' as [|c l']; [discriminate E|]. apply no_nul_cons in Hn2.
  destruct (Byte.eqb c c_comma) eqn:E1.
  { apply byte_eqb_eq in E1. subst c. right. exists l'. split; [reflexivity|]. split; [apply Hn2|]. exact E. }
  left. cbn [run step] in E. unfold end_step in E. rewrite E1 in E.
  destruct (Byte.eqb c c_rbracket || Byte.eqb c c_rbrace) eqn:E2.
  - assert (exists k', c = closing k') as (k' & ->).
    { apply orb_true_iff in E2. destruct E2 as [E2|E2]; apply byte_eqb_eq in E2; subst; [exists KArr|exists KObj]; reflexivity. }
    exists k'. assert (X := run_close (opening_type k :: st) k' l'). cbn [run step] in X. rewrite X in E.
    injection E as <- <- <- <-. repeat split.
  - rewrite Hl' in E. destruct (Byte.eqb c c_nl) eqn:E3; [|discriminate E].
    apply byte_eqb_eq in E3. subst c. discriminate Hl'.
Qed.

(** ** All tokens of a text *)

Definition sd (stk : list type) (ex : bool) (ph : phase) (l : bytes) (vs : list stoken) (e : error) : Prop :=
  exists f, sdrain f o stk ex ph l = Some (vs, e).

Lemma sd_cons stk ex ph l v vs e : sd stk ex ph l (v :: vs) e <->
  exists ph' ex' r stk', run o stk ex ph l = ROut v ph' ex' r /\ next_stack (st_value_type v) stk = inl stk' /\
    sd stk' ex' ph' r vs e.
Proof.
  split.
  - intros (f & E). destruct f as [|f]; [discriminate E|]. cbn [sdrain] in E.
    destruct (run o stk ex ph l) as [p q|e'|tk ph' ex' r]; try discriminate E.
    destruct (next_stack (st_value_type tk) stk) as [stk'|e'] eqn:En; [|discriminate E].
    destruct (sdrain f o stk' ex' ph' r) as [[ts e']|] eqn:Es; [|discriminate E].
    injection E as <- <- <-. exists ph', ex', r, stk'. repeat split; auto. exists f. exact Es.
  - intros (ph' & ex' & r & stk' & ER & En & f & Es). exists (S f). cbn [sdrain]. rewrite ER, En, Es. reflexivity.
Qed.

Lemma sd_run stk ex ph l ex2 ph2 l2 vs e :
  run o stk ex ph l = run o stk ex2 ph2 l2 -> sd stk ex2 ph2 l2 vs e -> sd stk ex ph l vs e.
Proof. intros E (f & H). exists f. destruct f; [discriminate H|]. cbn [sdrain] in *. rewrite E. exact H. Qed.

Lemma sd_run_same stk ex ph l ex2 ph2 l2 vs e :
  match run o stk ex ph l, run o stk ex2 ph2 l2 with RNeed _ _, RNeed _ _ => True | a, b => a = b end ->
  sd stk ex2 ph2 l2 vs e -> sd stk ex ph l vs e.
Proof.
  intros E (f & H). exists f. destruct f; [discriminate H|]. cbn [sdrain] in *.
  destruct (run o stk ex ph l), (run o stk ex2 ph2 l2); try discriminate E; try exact H; injection E; intros; subst; exact H.
Qed.

Definition closes (v : stoken) : Prop := st_value_type v = TArrayEnd \/ st_value_type v = TObjectEnd.

Lemma next_stack_closing k st k' stk' :
  next_stack (closing_type k') (opening_type k :: st) = inl stk' -> k' = k /\ stk' = st.
Proof. destruct k, k'; cbn; intros X; try discriminate X; injection X as <-; auto. Qed.

Lemma next_stack_opening k stk : next_stack (opening_type k) stk = inl (opening_type k :: stk).
Proof. destruct k; reflexivity. Qed.

Lemma balanced_cons_close v l : balanced (map st_value_type (v :: l)) -> ~ closes v.
Proof.
  intros H [X|X]; inversion H as [|t l' N1 N2 N3 N4 _|l1 l2 _ _ E|l1 l2 _ _ E]; subst; congruence.
Qed.

Lemma balanced_cons_plain v l : balanced (map st_value_type (v :: l)) ->
  st_value_type v <> TArrayStart -> st_value_type v <> TObjectStart -> balanced (map st_value_type l).
Proof.
  intros H X Y. cbn in H. inversion H as [|t l' N1 N2 N3 N4 Hb|l1 l2 _ _ E|l1 l2 _ _ E]; subst; try congruence.
Qed.

Lemma balanced_cons_open k v l : balanced (map st_value_type (v :: l)) -> st_value_type v = opening_type k ->
  exists u1 c u2, l = u1 ++ c :: u2 /\ balanced (map st_value_type u1) /\ st_value_type c = closing_type k /\
    balanced (map st_value_type u2).
Proof.
  intros H X. cbn in H. rewrite X in H.
  assert (G : forall l1 l2 t, map st_value_type l = l1 ++ t :: l2 -> exists u1 c u2, l = u1 ++ c :: u2 /\
    map st_value_type u1 = l1 /\ st_value_type c = t /\ map st_value_type u2 = l2).
  { intros l1 l2 t E. apply map_eq_app in E. destruct E as (u1 & m & -> & <- & E).
    destruct m as [|c u2]; [discriminate E|]. injection E as <- <-. exists u1, c, u2. auto. }
  inversion H as [|t l' N1 N2 N3 N4 Hb|l1 l2 B1 B2 E|l1 l2 B1 B2 E].
  - destruct k; cbn in *; congruence.
  - destruct k; [discriminate|].
    destruct (G l1 l2 TObjectEnd) as (u1 & c & u2 & -> & E1 & E2 & E3); [congruence|].
    exists u1, c, u2. rewrite E1, E3. auto.
  - destruct k; [|discriminate].
    destruct (G l1 l2 TArrayEnd) as (u1 & c & u2 & -> & E1 & E2 & E3); [congruence|].
    exists u1, c, u2. rewrite E1, E3. auto.
Qed.

Lemma lexeme_plain A t v ty : lexeme A t v ty -> is_bracket ty = false.
Proof. intros H; destruct H; reflexivity. Qed.

(** [vs1 ++ c :: vs2]: [c] is the closing bracket of the innermost open array or object. *)
Lemma split_head {X : Type} (v : X) vs (vs1 : list X) c vs2 : v :: vs = vs1 ++ c :: vs2 ->
  (vs1 = [] /\ v = c /\ vs = vs2) \/ exists u, vs1 = v :: u /\ vs = u ++ c :: vs2.
Proof.
  destruct vs1 as [|x vs1]; cbn; intros E; injection E as -> ->; [left; auto|right; eauto].
Qed.

Lemma no_nul_tail stk ex ph l tk ph' ex' r : no_nul l -> run o stk ex ph l = ROut tk ph' ex' r -> no_nul r.
Proof.
  intros Hn E. assert (G : exists l0, l = l0 ++ r).
  { revert ex ph E. clear Hn. induction l as [|c l IH]; intros ex ph E; [discriminate E|]. cbn [run] in E.
    destruct (step o stk ex ph c) as [p q|e'|t2 p q keep]; try discriminate E.
    - destruct (IH _ _ E) as (l0 & ->). exists (c :: l0). reflexivity.
    - injection E as <- <- <- <-. destruct keep; [exists []|exists [c]]; reflexivity. }
  destruct G as (l0 & ->). apply no_nul_app in Hn. apply Hn.
Qed.

Definition hard (p : position) : bool := match p with AfterOther => true | _ => false end.

Lemma sound : forall n vs1, length vs1 <= n -> balanced (map st_value_type vs1) ->
  forall k st l c vs2 e, closes c -> no_nul l ->
  (forall p, sd (opening_type k :: st) (hard p) PName l (vs1 ++ c :: vs2) e ->
     exists l1 l2, l = l1 ++ l2 /\ items all_dev k p l1 (vs1 ++ [c]) /\ no_nul l2 /\ sd st false PEnd l2 vs2 e) /\
  (sd (opening_type k :: st) false PEnd l (vs1 ++ c :: vs2) e ->
     exists l1 l2, l = l1 ++ l2 /\ after all_dev k l1 (vs1 ++ [c]) /\ no_nul l2 /\ sd st false PEnd l2 vs2 e).
Proof.
  induction n as [n IH] using (well_founded_induction Wf_nat.lt_wf). intros vs1 Hlen Hbal k st l c vs2 e Hc Hn.
  (* tokens behind an opening bracket *)
  assert (HNest : forall k' tk u r, vs1 = tk :: u -> st_value_type tk = opening_type k' -> no_nul r ->
     sd (opening_type k' :: opening_type k :: st) false PName r (u ++ c :: vs2) e ->
     exists l1 l2 l3 v1 v2, r = l1 ++ l2 ++ l3 /\ u ++ [c] = v1 ++ v2 /\ items all_dev k' Fresh l1 v1 /\ after all_dev k l2 v2 /\
       no_nul l3 /\ sd st false PEnd l3 vs2 e).
  { intros k' tk u r Ev Et Hr Hs. subst vs1.
    destruct (balanced_cons_open k' tk u Hbal Et) as (u1 & c' & u2 & -> & B1 & Ec' & B2).
    cbn in Hlen. rewrite app_length in Hlen. cbn in Hlen.
    rewrite <- app_assoc in Hs. cbn [app] in Hs.
    assert (Hc' : closes c') by (unfold closes; rewrite Ec'; destruct k'; auto).
    destruct (IH (length u1)) with (vs1 := u1) (k := k') (st := opening_type k :: st) (l := r) (c := c') (vs2 := u2 ++ c :: vs2) (e := e)
      as [P _]; try assumption; [clear - Hlen; lia|apply le_n|].
    destruct (P Fresh Hs) as (l1 & l' & -> & I1 & N1 & S1).
    destruct (IH (length u2)) with (vs1 := u2) (k := k) (st := st) (l := l') (c := c) (vs2 := vs2) (e := e)
      as [_ Q]; try assumption; [clear - Hlen; lia|apply le_n|].
    destruct (Q S1) as (l2 & l3 & -> & I2 & N2 & S2).
    exists l1, l2, l3, (u1 ++ [c']), (u2 ++ [c]). split; [reflexivity|]. split; [rewrite <- !app_assoc; reflexivity|].
    repeat split; assumption. }
  (* a plain token, then [PEnd] or [PName] *)
  assert (HPlain : forall tk u, vs1 = tk :: u -> is_bracket (st_value_type tk) = false -> length u < n /\ balanced (map st_value_type u)).
  { intros tk u Ev Eb. subst vs1. cbn in Hlen. split; [clear - Hlen; lia|].
    apply (balanced_cons_plain tk); [exact Hbal|..]; intros X; rewrite X in Eb; discriminate Eb. }
  (* [PName] *)
  assert (HName : forall p l, no_nul l -> sd (opening_type k :: st) (hard p) PName l (vs1 ++ c :: vs2) e ->
     exists l1 l2, l = l1 ++ l2 /\ items all_dev k p l1 (vs1 ++ [c]) /\ no_nul l2 /\ sd st false PEnd l2 vs2 e).
  { clear l Hn. intros p l Hn Hs.
    destruct (vs1 ++ c :: vs2) as [|tk vs'] eqn:Ev; [destruct vs1; discriminate Ev|].
    apply sd_cons in Hs. destruct Hs as (ph' & ex' & r & stk' & ER & En & Hs).
    assert (Hr := no_nul_tail _ _ _ _ _ _ _ _ Hn ER).
    symmetry in Ev. apply split_head in Ev.
    destruct (name_cases k st (hard p) l tk ph' ex' r Hn ER) as (w & Hw & [H|[H|[H|[H|H]]]]).
    - destruct H as (k' & -> & Hp & -> & -> & ->). cbn [st_make st_value_type] in En.
      apply next_stack_closing in En. destruct En as [-> ->].
      destruct Ev as [(-> & <- & ->)|(u & -> & _)].
      + exists (w ++ [closing k]), r. split; [rewrite <- app_assoc; reflexivity|].
        split; [|split; assumption]. cbn [app]. apply I_close; [exact Hw|].
        destruct p; [left; reflexivity|right; split; [reflexivity|exact I]|discriminate Hp].
      + exfalso. apply (balanced_cons_close _ _ Hbal). unfold closes. cbn. destruct k; auto.
    - destruct H as (k' & -> & -> & -> & ->). cbn [st_make st_value_type] in En.
      rewrite next_stack_opening in En. injection En as <-.
      destruct Ev as [(-> & <- & ->)|(u & Eu & ->)].
      + exfalso. destruct Hc as [X|X]; cbn in X; destruct k'; discriminate X.
      + destruct (HNest k' _ u r Eu eq_refl Hr Hs) as (l1 & l2 & l3 & v1 & v2 & -> & Ev & I1 & I2 & N3 & S3).
        exists (w ++ opening k' :: l1 ++ l2), l3. split; [rewrite <- !app_assoc; cbn; rewrite <- app_assoc; reflexivity|].
        split; [|split; assumption]. rewrite Eu. cbn [app]. rewrite Ev. apply I_nested; auto. intros _. exact I.
    - destruct H as (-> & t & v & ty & w2 & -> & Hlx & Hw2 & -> & -> & ->). cbn [st_make st_value_type] in En.
      assert (Hb := lexeme_plain _ _ _ _ Hlx). rewrite next_stack_plain in En by exact Hb. injection En as <-.
      destruct Ev as [(-> & <- & ->)|(u & Eu & ->)].
      + exfalso. destruct Hc as [X|X]; cbn in X; subst ty; discriminate Hb.
      + destruct (HPlain _ u Eu Hb) as [Hl Hbu].
        destruct (IH (length u) Hl u (le_n _) Hbu KArr st r c vs2 e Hc Hr) as [P _].
        destruct (P AfterScalar Hs) as (l1 & l2 & -> & I1 & N2 & S2).
        exists (w ++ t ++ w2 ++ comma :: l1), l2. split; [rewrite <- !app_assoc; reflexivity|].
        split; [|split; assumption]. rewrite Eu. cbn [app]. apply I_scalar; assumption.
    - destruct H as (-> & t & v & ty & w2 & r' & -> & -> & Hlx & Hw2 & -> & -> & ->). cbn [st_make st_value_type] in En.
      assert (Hb := lexeme_plain _ _ _ _ Hlx). rewrite next_stack_plain in En by exact Hb. injection En as <-.
      destruct Ev as [(-> & <- & ->)|(u & Eu & ->)].
      + exfalso. destruct Hc as [X|X]; cbn in X; subst ty; discriminate Hb.
      + destruct (HPlain _ u Eu Hb) as [Hl Hbu].
        destruct (u ++ c :: vs2) as [|tk2 vs3] eqn:Ev; [destruct u; discriminate Ev|].
        apply sd_cons in Hs. destruct Hs as (ph2 & ex2 & r2 & stk2 & ER2 & En2 & Hs2).
        rewrite (run_close _ KArr) in ER2. injection ER2 as <- <- <- <-. cbn in En2. injection En2 as <-.
        symmetry in Ev. apply split_head in Ev. destruct Ev as [(-> & <- & ->)|(u2 & -> & _)].
        * exists (w ++ t ++ w2 ++ [rbrack]), r'. split; [rewrite <- !app_assoc; reflexivity|].
          split; [|split; [|exact Hs2]].
          -- rewrite Eu. cbn [app]. apply I_last; assumption.
          -- apply no_nul_cons in Hr. apply Hr.
        * exfalso. apply (balanced_cons_close _ _ Hbu). left. reflexivity.
    - destruct H as (-> & nm & w2 & l' & -> & Hnm & Hw2 & Hn' & ER2).
      destruct (data_cases KObj st false nm l' tk ph' ex' r Hn' ER2) as (w3 & Hw3 & [H|[H|H]]).
      + destruct H as (k' & -> & -> & -> & ->). cbn [st_make st_value_type] in En.
        apply next_stack_closing in En. destruct En as [-> ->].
        destruct Ev as [(-> & <- & ->)|(u & -> & _)].
        * exists (w ++ quote :: nm ++ quote :: w2 ++ colon :: w3 ++ [rbrace]), r.
          split; [repeat (rewrite <- ?app_assoc; cbn [app]); reflexivity|].
          split; [|split; assumption]. cbn [app]. apply I_member; auto; [left; exact I|]. apply M_none; [exact I|exact Hw3].
        * exfalso. apply (balanced_cons_close _ _ Hbal). right. reflexivity.
      + destruct H as (k' & -> & -> & -> & ->). cbn [st_make st_value_type] in En.
        rewrite next_stack_opening in En. injection En as <-.
        destruct Ev as [(-> & <- & ->)|(u & Eu & ->)].
        * exfalso. destruct Hc as [X|X]; cbn in X; destruct k'; discriminate X.
        * destruct (HNest k' _ u r Eu eq_refl Hr Hs) as (l1 & l2 & l3 & v1 & v2 & -> & Ev & I1 & I2 & N3 & S3).
          exists (w ++ quote :: nm ++ quote :: w2 ++ colon :: w3 ++ opening k' :: l1 ++ l2), l3.
          split; [repeat (rewrite <- ?app_assoc; cbn [app]); reflexivity|].
          split; [|split; assumption]. rewrite Eu. cbn [app]. rewrite Ev.
          apply I_member; auto; [left; exact I|]. apply M_nested; assumption.
      + destruct H as (t & v & ty & -> & Hlx & Hty & -> & -> & ->). cbn [st_make st_value_type] in En.
        assert (Hb := lexeme_plain _ _ _ _ Hlx). rewrite next_stack_plain in En by exact Hb. injection En as <-.
        destruct Ev as [(-> & <- & ->)|(u & Eu & ->)].
        * exfalso. destruct Hc as [X|X]; cbn in X; subst ty; discriminate Hb.
        * destruct (HPlain _ u Eu Hb) as [Hl Hbu].
          destruct (IH (length u) Hl u (le_n _) Hbu KObj st r c vs2 e Hc Hr) as [_ Q].
          destruct (Q Hs) as (l1 & l2 & -> & I1 & N2 & S2).
          exists (w ++ quote :: nm ++ quote :: w2 ++ colon :: w3 ++ t ++ l1), l2.
          split; [repeat (rewrite <- ?app_assoc; cbn [app]); reflexivity|].
          split; [|split; assumption]. rewrite Eu. cbn [app]. apply I_member; auto; [left; exact I|].
          apply M_scalar; assumption. }
  split; [intros p; apply HName; exact Hn|].
  intros Hs. destruct (vs1 ++ c :: vs2) as [|tk vs'] eqn:Ev; [destruct vs1; discriminate Ev|].
  assert (Hs0 := Hs). apply sd_cons in Hs. destruct Hs as (ph' & ex' & r & stk' & ER & En & Hs).
  assert (Hr := no_nul_tail _ _ _ _ _ _ _ _ Hn ER).
  destruct (end_cases k st l tk ph' ex' r Hn ER) as (w & Hw & [H|H]).
  - destruct H as (k' & -> & -> & -> & ->). cbn [st_make st_value_type] in En.
    apply next_stack_closing in En. destruct En as [-> ->].
    symmetry in Ev. apply split_head in Ev. destruct Ev as [(-> & <- & ->)|(u & -> & _)].
    + exists (w ++ [closing k]), r. split; [rewrite <- app_assoc; reflexivity|].
      split; [|split; assumption]. cbn [app]. apply A_close. exact Hw.
    + exfalso. apply (balanced_cons_close _ _ Hbal). unfold closes. cbn. destruct k; auto.
  - destruct H as (l' & -> & Hn' & ER2).
    destruct (HName AfterOther l' Hn') as (l1 & l2 & -> & I1 & N2 & S2).
    { apply sd_cons. exists ph', ex', r, stk'. auto. }
    exists (w ++ comma :: l1), l2. split; [rewrite <- app_assoc; reflexivity|].
    split; [|split; assumption]. apply A_comma; assumption.
Qed.

(** ** Every text of the grammar is read *)

Scheme items_mind := Minimality for items Sort Prop
  with member_mind := Minimality for member Sort Prop
  with after_mind := Minimality for after Sort Prop.
Combined Scheme grammar_ind from items_mind, member_mind, after_mind.

Lemma after_ends_word k l vs l2 : after all_dev k l vs -> ends_word (l ++ l2).
Proof.
  intros H. destruct H as [k w Hw|k w l vs Hw _]; rewrite <- app_assoc; apply ws_ends_word; try exact Hw;
    [destruct k; split; reflexivity|split; reflexivity].
Qed.

Lemma delim_after_array st ex v ty w2 c l : ws w2 -> is_bracket ty = false ->
  run o (TArrayStart :: st) ex (PDelim v ty) (w2 ++ c :: l) = run o (TArrayStart :: st) ex (PDelim v ty) (c :: l).
Proof. intros H _. apply run_delim_ws, ws_delim, H. Qed.

Lemma sd_close st k l vs e : sd st false PEnd l vs e ->
  sd (opening_type k :: st) false PName (closing k :: l) (st_make None [closing k] (closing_type k) :: vs) e.
Proof.
  intros H. apply sd_cons. exists PEnd, false, l, st. split; [apply run_close|]. split; [destruct k; reflexivity|exact H].
Qed.

Lemma complete_mut :
  (forall k p l vs, items all_dev k p l vs -> forall st l2 vs2 e, sd st false PEnd l2 vs2 e ->
     sd (opening_type k :: st) (hard p) PName (l ++ l2) (vs ++ vs2) e) /\
  (forall nm l vs, member all_dev nm l vs -> forall st l2 vs2 e, sd st false PEnd l2 vs2 e ->
     sd (TObjectStart :: st) false (PData nm TString) (l ++ l2) (vs ++ vs2) e) /\
  (forall k l vs, after all_dev k l vs -> forall st l2 vs2 e, sd st false PEnd l2 vs2 e ->
     sd (opening_type k :: st) false PEnd (l ++ l2) (vs ++ vs2) e).
Proof.
  apply grammar_ind.
  - intros k p w Hw Hp st l2 vs2 e H. rewrite <- app_assoc. eapply sd_run; [apply run_skip_name; exact Hw|].
    assert (hard p = false) as -> by (destruct Hp as [-> |[-> _]]; reflexivity).
    apply sd_close. exact H.
  - intros p w1 t v ty w2 Hw1 Hlx Hw2 st l2 vs2 e H. rewrite <- !app_assoc.
    eapply sd_run; [apply run_skip_name; exact Hw1|].
    assert (Hb := lexeme_plain _ _ _ _ Hlx).
    apply sd_cons. exists PName, false, (rbrack :: l2), (TArrayStart :: st). split.
    + rewrite (run_lexeme_name _ _ _ all_dev t v ty) by (first [exact Hlx|left; apply ws_ends_word; [exact Hw2|split; reflexivity]]).
      cbn [app opening_type]. rewrite delim_after_array by assumption. reflexivity.
    + split; [apply next_stack_plain; exact Hb|]. apply (sd_close st KArr). exact H.
  - intros p w1 t v ty w2 l vs Hw1 Hlx Hw2 _ IH st l2 vs2 e H. rewrite <- !app_assoc. cbn [app].
    eapply sd_run; [apply run_skip_name; exact Hw1|].
    assert (Hb := lexeme_plain _ _ _ _ Hlx).
    apply sd_cons. exists PName, false, (l ++ l2), (TArrayStart :: st). split.
    + rewrite (run_lexeme_name _ _ _ all_dev t v ty) by (first [exact Hlx|left; apply ws_ends_word; [exact Hw2|split; reflexivity]]).
      cbn [app opening_type]. rewrite delim_after_array by assumption. reflexivity.
    + split; [apply next_stack_plain; exact Hb|]. apply (IH st l2 vs2 e H).
  - intros k p w k' l1 v1 l2 v2 Hw _ _ IH1 _ IH2 st l3 vs2 e H. rewrite <- !app_assoc. cbn [app].
    eapply sd_run; [apply run_skip_name; exact Hw|]. rewrite <- !app_assoc.
    apply sd_cons. exists PName, false, (l1 ++ l2 ++ l3), (opening_type k' :: opening_type k :: st).
    split; [apply run_open|]. split; [apply next_stack_opening|].
    apply (IH1 (opening_type k :: st) (l2 ++ l3) (v2 ++ vs2) e). apply IH2. exact H.
  - intros p w1 nm w2 l vs Hw1 Hnm _ Hw2 _ IH st l2 vs2 e H. specialize (IH st l2 vs2 e H).
    repeat (rewrite <- ?app_assoc; cbn [app]).
    eapply sd_run; [apply run_skip_name; exact Hw1|].
    eapply sd_run; [|exact IH].
    change (quote :: nm ++ quote :: w2 ++ colon :: l ++ l2)
      with ((quote :: nm ++ quote :: w2 ++ colon :: l ++ l2)).
    transitivity (run o (TObjectStart :: st) (hard p) (PDelim nm TString) (w2 ++ colon :: l ++ l2)).
    + assert (X := run_lexeme_name o (TObjectStart :: st) (hard p) all_dev (quote :: nm ++ [quote]) nm TString (w2 ++ colon :: l ++ l2)).
      rewrite <- X by (first [right; reflexivity|constructor; [exact Hnm|left; exact I]]).
      cbn [app opening_type]. rewrite <- app_assoc. reflexivity.
    + rewrite run_delim_ws by (apply ws_delim; exact Hw2). reflexivity.
  - intros nm w t v ty l vs Hw Hlx Hty Haf IH st l2 vs2 e H. rewrite <- !app_assoc.
    eapply sd_run; [apply run_skip_data; exact Hw|].
    assert (Hb := lexeme_plain _ _ _ _ Hlx).
    apply sd_cons. exists PEnd, false, (l ++ l2), (TObjectStart :: st). split.
    + rewrite (run_lexeme_data _ _ _ all_dev nm TString t v ty) by (try assumption; left; eapply after_ends_word; exact Haf). reflexivity.
    + split; [apply next_stack_plain; exact Hb|]. apply (IH st l2 vs2 e H).
  - intros nm w k' l1 v1 l2 v2 Hw _ IH1 _ IH2 st l3 vs2 e H. rewrite <- !app_assoc. cbn [app].
    eapply sd_run; [apply run_skip_data; exact Hw|]. rewrite <- !app_assoc.
    apply sd_cons. exists PName, false, (l1 ++ l2 ++ l3), (opening_type k' :: TObjectStart :: st).
    split; [apply run_data_open|]. split; [apply next_stack_opening|].
    apply (IH1 (TObjectStart :: st) (l2 ++ l3) (v2 ++ vs2) e). apply IH2. exact H.
  - intros nm w _ Hw st l2 vs2 e H. rewrite <- app_assoc.
    eapply sd_run; [apply run_skip_data; exact Hw|].
    apply sd_cons. exists PEnd, false, l2, st. split; [apply (run_data_close _ _ _ KObj)|]. split; [reflexivity|exact H].
  - intros k w Hw st l2 vs2 e H. rewrite <- app_assoc.
    eapply sd_run; [apply run_end_ws, ws_end; exact Hw|].
    apply sd_cons. exists PEnd, false, l2, st. split; [|split; [destruct k; reflexivity|exact H]].
    destruct k; reflexivity.
  - intros k w l vs Hw _ IH st l2 vs2 e H. rewrite <- app_assoc.
    eapply sd_run; [apply run_end_ws, ws_end; exact Hw|].
    eapply sd_run; [|apply (IH st l2 vs2 e H)]. reflexivity.
Qed.

(** ** Roots *)

Lemma root_phase ex l : forall vs e, sd [] ex PEnd l vs e <-> sd [] ex PName l vs e.
Proof.
  intros vs e. destruct l as [|c l].
  - split; intros (f & H); exists f; destruct f; try discriminate H; exact H.
  - split; apply sd_run; reflexivity.
Qed.

Lemma run_root_delim ex nm nty c l : run o [] ex (PDelim nm nty) (c :: l) = RErr IllegalPropertyType.
Proof. reflexivity. Qed.

Lemma root_tail l : no_nul l ->
  (sd [] false PName l [] NeedMoreData <->
   exists w t, l = w ++ t /\ skip all_dev w /\ (t = [] \/ all_dev DTail /\ unfinished t)).
Proof.
  intros Hn.
  assert (G : sd [] false PName l [] NeedMoreData <-> exists ph ex, run o [] false PName l = RNeed ph ex).
  { split.
    - intros (f & E). destruct f as [|f]; [discriminate E|]. cbn [sdrain] in E.
      destruct (run o [] false PName l) as [p q|e'|tk ph' ex' r] eqn:ER; [eauto|..].
      + injection E as ->. exfalso. destruct (run_err _ _ _ _ _ _ ER) as [_ X]. apply X. reflexivity.
      + destruct (next_stack (st_value_type tk) []) as [stk'|e'] eqn:En.
        * destruct (sdrain f o stk' ex' ph' r) as [[ts e']|]; discriminate E.
        * injection E as ->. exfalso. destruct (st_value_type tk); discriminate En.
    - intros (ph & ex & E). exists 1. cbn [sdrain]. rewrite E. reflexivity. }
  rewrite G. clear G. split.
  - intros (ph & ex & E). destruct (split_while skipsb l) as (w & l' & -> & Hw & Hl').
    apply no_nul_app in Hn. destruct Hn as [Hn1 Hn2]. assert (Hsk := skip_of_skips w Hn1 Hw).
    exists w, l'. split; [reflexivity|]. split; [exact Hsk|]. rewrite run_skip_name in E by exact Hsk.
    destruct l' as [|c l']; [left; reflexivity|]. right. split; [exact I|].
    destruct (start_class c) as [t|] eqn:Ec.
    2:{ cbn [run step] in E. unfold name_step in E. unfold skipsb in Hl'. rewrite Ec in E, Hl'.
        apply negb_false_iff in Hl'. rewrite Hl' in E. discriminate E. }
    destruct (start_cases c t Ec) as [(k' & -> & ->)|[(k' & -> & ->)|[(-> & ->)|Hty]]].
    + rewrite run_open in E. discriminate E.
    + rewrite run_close in E. discriminate E.
    + change (run o [] false (PNameIn TString false []) l' = RNeed ph ex) in E.
      right. right. destruct (str_split l') as [(b & tl & -> & Hb)|[Hb|(b & -> & Hb)]].
      * rewrite run_string in E by exact Hb. destruct tl as [|d tl]; [|discriminate E].
        right. right. exists b. auto.
      * left. exists l'. auto.
      * right. left. exists b. auto.
    + assert (E' : run o [] false (PNameIn t false [c]) l' = RNeed ph ex).
      { cbn [run step] in E. unfold name_step in E. rewrite Ec in E. destruct Hty as [-> | ->]; exact E. }
      clear E. destruct (split_while (word_cont t) l') as (w2 & l2 & -> & Hw2 & Hl2).
      rewrite run_word in E' by assumption. destruct l2 as [|d l2].
      2:{ rewrite run_word_end in E' by assumption. discriminate E'. }
      rewrite app_nil_r. destruct Hty as [-> | ->].
      * left. exists c, w2. split; [reflexivity|]. split; [apply start_number_spec; exact Ec|].
        revert Hw2. apply Forall_impl. intros x. apply num_cont_spec.
      * right. left. exists c, w2. split; [reflexivity|]. split; [apply start_word_spec; exact Ec|].
        revert Hw2. apply Forall_impl. intros x. apply word_cont_spec.
  - intros (w & t & -> & Hw & Ht). rewrite run_skip_name by exact Hw.
    destruct Ht as [-> |[_ Ht]]; [do 2 eexists; reflexivity|].
    assert (HW : forall ty c w, ty = TNumber \/ ty = TAscii -> start_class c = Some ty -> Forall (fun c => word_cont ty c = true) w ->
       exists ph ex, run o [] false PName (c :: w) = RNeed ph ex).
    { clear. intros ty c w Hty Hc Hw. exists (PNameIn ty false ([c] ++ w)), false.
      transitivity (run o [] false (PNameIn ty false [c]) w).
      - cbn [run step]. unfold name_step. rewrite Hc. destruct Hty as [-> | ->]; reflexivity.
      - rewrite <- (app_nil_r w) at 1. rewrite run_word by assumption. destruct Hty as [-> | ->]; reflexivity. }
    destruct Ht as [(c & tl & -> & Hc & Htl)|[(c & tl & -> & Hc & Htl)|[(b & -> & Hb)|[(b & -> & Hb)|(b & -> & Hb)]]]].
    + apply (HW TNumber); [auto|apply start_number_spec; exact Hc|]. revert Htl. apply Forall_impl. intros x. apply num_cont_spec.
    + apply (HW TAscii); [auto|apply start_word_spec; exact Hc|]. revert Htl. apply Forall_impl. intros x. apply word_cont_spec.
    + exists (PNameIn TString false ([] ++ b)), false.
      change (run o [] false PName (quote :: b)) with (run o [] false (PNameIn TString false []) b).
      rewrite <- (app_nil_r b) at 1. rewrite run_string by exact Hb. reflexivity.
    + do 2 eexists.
      change (run o [] false PName (quote :: b ++ [backslash])) with (run o [] false (PNameIn TString false []) (b ++ [backslash])).
      rewrite run_string by exact Hb. reflexivity.
    + do 2 eexists.
      change (run o [] false PName (quote :: b ++ [quote])) with (run o [] false (PNameIn TString false []) (b ++ [quote])).
      rewrite run_string by exact Hb. reflexivity.
Qed.

Lemma root_name_cases ex l tk ph' ex' r :
  no_nul l -> run o [] ex PName l = ROut tk ph' ex' r ->
  exists w k, skip all_dev w /\
    ((l = w ++ opening k :: r /\ tk = st_make None [opening k] (opening_type k) /\ ph' = PName /\ ex' = false) \/
     st_value_type tk = closing_type k).
Proof.
  intros Hn E. destruct (split_while skipsb l) as (w & l' & -> & Hw & Hl').
  apply no_nul_app in Hn. destruct Hn as [Hn1 Hn2]. assert (Hsk := skip_of_skips w Hn1 Hw).
  exists w. rewrite run_skip_name in E by exact Hsk.
  destruct l' as [|c l']; [discriminate E|].
  destruct (start_class c) as [t|] eqn:Ec.
  2:{ cbn [run step] in E. unfold name_step in E. unfold skipsb in Hl'. rewrite Ec in E, Hl'.
      apply negb_false_iff in Hl'. rewrite Hl' in E. discriminate E. }
  destruct (start_cases c t Ec) as [(k' & -> & ->)|[(k' & -> & ->)|[(-> & ->)|Hty]]].
  - rewrite run_open in E. injection E as <- <- <- <-. exists k'. split; [exact Hsk|]. left. repeat split.
  - destruct ex; [rewrite run_close_true in E; discriminate E|].
    rewrite run_close in E. injection E as <- <- <- <-. exists k'. split; [exact Hsk|]. right. reflexivity.
  - exfalso. change (run o [] ex (PNameIn TString false []) l' = ROut tk ph' ex' r) in E.
    destruct (str_split l') as [(b & tl & -> & Hb)|[Hb|(b & -> & Hb)]].
    + rewrite run_string in E by exact Hb. destruct tl; discriminate E.
    + rewrite <- (app_nil_r l'), run_string in E by exact Hb. discriminate E.
    + rewrite run_string in E by exact Hb. discriminate E.
  - exfalso. assert (E' : run o [] ex (PNameIn t false [c]) l' = ROut tk ph' ex' r).
    { cbn [run step] in E. unfold name_step in E. rewrite Ec in E. destruct Hty as [-> | ->]; exact E. }
    clear E. destruct (split_while (word_cont t) l') as (w2 & l2 & -> & Hw2 & Hl2).
    rewrite run_word in E' by assumption. destruct l2 as [|d l2]; [destruct Hty as [-> | ->]; discriminate E'|].
    rewrite run_word_end in E' by assumption. discriminate E'.
Qed.

Lemma items_balanced :
  (forall k p l vs, items all_dev k p l vs -> exists u c, vs = u ++ [c] /\ balanced (map st_value_type u) /\ st_value_type c = closing_type k) /\
  (forall nm l vs, member all_dev nm l vs -> exists u c, vs = u ++ [c] /\ balanced (map st_value_type u) /\ st_value_type c = TObjectEnd) /\
  (forall k l vs, after all_dev k l vs -> exists u c, vs = u ++ [c] /\ balanced (map st_value_type u) /\ st_value_type c = closing_type k).
Proof.
  assert (HB : forall t l, is_bracket t = false -> balanced l -> balanced (t :: l)).
  { intros t l Ht Hl. apply Bal_other; auto; intros ->; discriminate Ht. }
  assert (HO : forall k l1 l2, balanced l1 -> balanced l2 -> balanced (opening_type k :: l1 ++ closing_type k :: l2)).
  { intros [] l1 l2 H1 H2; constructor; assumption. }
  assert (HN : forall k' k x v1 v2, (exists u c, v1 = u ++ [c] /\ balanced (map st_value_type u) /\ st_value_type c = closing_type k') ->
     (exists u c, v2 = u ++ [c] /\ balanced (map st_value_type u) /\ st_value_type c = closing_type k) ->
     st_value_type x = opening_type k' ->
     exists u c, x :: v1 ++ v2 = u ++ [c] /\ balanced (map st_value_type u) /\ st_value_type c = closing_type k).
  { intros k' k x v1 v2 (u1 & c1 & -> & B1 & E1) (u2 & c2 & -> & B2 & E2) Ex.
    exists (x :: u1 ++ c1 :: u2), c2. split; [cbn; rewrite <- !app_assoc; reflexivity|]. split; [|exact E2].
    cbn. rewrite map_app. cbn. rewrite Ex, E1. apply HO; assumption. }
  apply grammar_ind.
  - intros k p w _ _. exists [], (st_make None [closing k] (closing_type k)). split; [reflexivity|]. split; [constructor|reflexivity].
  - intros p w1 t v ty w2 _ Hlx _. exists [st_make None v ty], (st_make None [rbrack] TArrayEnd).
    split; [reflexivity|]. split; [|reflexivity]. cbn. apply HB; [eapply lexeme_plain; exact Hlx|constructor].
  - intros p w1 t v ty w2 l vs _ Hlx _ _ (u & c & -> & B & E). exists (st_make None v ty :: u), c.
    split; [reflexivity|]. split; [|exact E]. cbn. apply HB; [eapply lexeme_plain; exact Hlx|exact B].
  - intros k p w k' l1 v1 l2 v2 _ _ _ IH1 _ IH2. apply (HN k'); auto.
  - intros p w1 nm w2 l vs _ _ _ _ _ IH. exact IH.
  - intros nm w t v ty l vs _ Hlx _ _ (u & c & -> & B & E). exists (st_make (Some nm) v ty :: u), c.
    split; [reflexivity|]. split; [|exact E]. cbn. apply HB; [eapply lexeme_plain; exact Hlx|exact B].
  - intros nm w k' l1 v1 l2 v2 _ _ IH1 _ IH2. apply (HN k' KObj); auto.
  - intros nm w _ _. exists [], (st_make (Some nm) [rbrace] TObjectEnd). split; [reflexivity|]. split; [constructor|reflexivity].
  - intros k w _. exists [], (st_make None [closing k] (closing_type k)). split; [reflexivity|]. split; [constructor|reflexivity].
  - intros k w l vs _ _ IH. exact IH.
Qed.

Lemma roots_sound : forall n vs l, length vs <= n -> no_nul l -> balanced (map st_value_type vs) ->
  sd [] false PName l vs NeedMoreData -> accepted all_dev l vs.
Proof.
  induction n as [n IH] using (well_founded_induction Wf_nat.lt_wf). intros vs l Hlen Hn Hbal Hs.
  destruct vs as [|v vs].
  { apply root_tail in Hs; [|exact Hn]. destruct Hs as (w & t & -> & Hw & Ht). apply AC_end; assumption. }
  apply sd_cons in Hs. destruct Hs as (ph' & ex' & r & stk' & ER & En & Hs).
  assert (Hr := no_nul_tail _ _ _ _ _ _ _ _ Hn ER).
  destruct (root_name_cases _ _ _ _ _ _ Hn ER) as (w & k & Hw & [(-> & -> & -> & ->)|X]).
  2:{ rewrite X in En. destruct k; discriminate En. }
  cbn [st_make st_value_type] in En. rewrite next_stack_opening in En. injection En as <-.
  destruct (balanced_cons_open k _ vs Hbal eq_refl) as (u1 & c & u2 & -> & B1 & Ec & B2).
  assert (Hc : closes c) by (unfold closes; rewrite Ec; destruct k; auto).
  destruct (sound (length u1) u1 (le_n _) B1 k [] r c u2 NeedMoreData Hc Hr) as [P _].
  destruct (P Fresh Hs) as (l1 & l2 & -> & I1 & N2 & S2).
  change (c :: u2) with ([c] ++ u2). rewrite app_assoc.
  apply AC_root; auto; [|right; exact I].
  cbn in Hlen. rewrite app_length in Hlen. cbn in Hlen.
  apply (IH (length u2)); try assumption; [clear - Hlen; lia|apply le_n|]. apply root_phase. exact S2.
Qed.

Lemma roots_complete l vs : accepted all_dev l vs -> no_nul l ->
  sd [] false PName l vs NeedMoreData /\ balanced (map st_value_type vs).
Proof.
  induction 1 as [w t Hw Ht|w k l1 v1 l2 v2 Hw Hi Ha IH _]; intros Hn.
  - split; [|constructor]. apply root_tail; [exact Hn|]. exists w, t. auto.
  - apply no_nul_app in Hn. destruct Hn as [_ Hn]. apply no_nul_cons in Hn. destruct Hn as [_ Hn].
    apply no_nul_app in Hn. destruct Hn as [_ Hn]. destruct (IH Hn) as [S2 B2]. split.
    + eapply sd_run; [apply run_skip_name; exact Hw|].
      apply sd_cons. exists PName, false, (l1 ++ l2), [opening_type k].
      split; [apply run_open|]. split; [apply next_stack_opening|].
      apply (proj1 complete_mut k Fresh l1 v1 Hi [] l2 v2 NeedMoreData). apply root_phase. exact S2.
    + destruct (proj1 items_balanced k Fresh l1 v1 Hi) as (u & c & -> & B1 & E1).
      cbn. rewrite map_app, map_app. cbn. rewrite E1, <- app_assoc.
      destruct k; constructor; assumption.
Qed.
End Default.

(** The accepted texts, for every build. *)
Theorem accepted_exactly o t vs :
  o_comments o = false -> o_nl o = false -> o_comma o = false -> o_ascii o = false -> ~ In x00 t ->
  (reads_as o [t] [] vs NeedMoreData /\ balanced (map st_value_type vs) <-> accepted all_dev t vs).
Proof.
  intros Hcom Hnl Hcomma Hascii Hnul.
  assert (Hn : no_nul t) by (apply Forall_forall; intros c Hc ->; apply Hnul; exact Hc).
  rewrite (reads_as_isa o [t]) by apply cut_clean_one.
  rewrite (reads_as_stream (scalar_opts o)) by (try reflexivity; try assumption; cbn; repeat constructor; exact Hn).
  cbn [concat app]. rewrite !app_nil_r. change (exists f, sdrain f (scalar_opts o) [] false PName t = Some (vs, NeedMoreData))
    with (sd (scalar_opts o) [] false PName t vs NeedMoreData).
  split.
  - intros [H1 H2]. apply (roots_sound (scalar_opts o) Hcomma Hascii (length vs)); auto.
  - intros H. apply roots_complete; assumption.
Qed.
