(** populateNextTokenFromDataRef follows the byte machine of TokStream.v. *)
From Verif Require Import Base ScanModel ScanProofs TokModel TokLoops TokProofs TokSafe JsonSpec TokStream TokStreamProofs.
From Coq Require Import Lia ZifyBool ZifyNat ZifyN.

(** The tokenizer's state between two buffers (or before a token) for a phase of the machine. *)
Definition at_phase (stk : list type) (ph : phase) (ex : bool) (s : tstate) : Prop :=
  t_expect s = ex /\
  match ph with
  | PName => t_tok s = FindingName /\ t_prop s = NoStartFound /\ t_esc s = false /\ t_im s = im_init
  | PNameIn ty esc acc =>
    t_tok s = FindingName /\ entry_at (Some (ty, esc, acc)) ty s /\
    t_im s = mkIm true true false ty TError acc []
  | PDelim nm nty =>
    t_tok s = FindingDelimiter /\ t_prop s = NoStartFound /\ t_esc s = false /\ nty = TString /\
    (exists st, stk = TObjectStart :: st) /\
    exists ns, t_im s = mkIm true ns false TString TError nm []
  | PData nm nty =>
    t_tok s = FindingData /\ t_prop s = NoStartFound /\ t_esc s = false /\
    exists ns, t_im s = mkIm true ns false nty TError nm []
  | PDataIn nm nty ty esc acc =>
    t_tok s = FindingData /\ entry_at (Some (ty, esc, acc)) ty s /\
    exists ns, t_im s = mkIm true ns true nty ty nm acc
  | PEnd => t_tok s = FindingTokenEnd /\ t_prop s = NoStartFound /\ t_esc s = false /\ t_im s = im_init
  end.

Definition ends_with (c : byte) (buf : bytes) : Prop := exists l, buf = l ++ [c].

(** Nothing is forgotten if the buffer ends in this phase. *)
Definition safe_end (stk : list type) (buf : bytes) (ph : phase) : Prop :=
  match ph with
  | PDelim nm nty => nty = TString /\ (exists st, stk = TObjectStart :: st) /\ ~ ends_with c_quote buf
  | PData nm nty => ~ ends_with c_colon buf
  | _ => True
  end.

Definition matches (stk : list type) (buf : bytes) (s : tstate) (nt : token) (r : rres)
  (res : outcome (tstate * error * token)) : Prop :=
  match r with
  | RErr e => exists s1 nt1, res = Ok (s1, e, nt1)
  | RNeed ph ex =>
    exists s1, res = Ok (s1, NeedMoreData, nt) /\ frame s s1 /\
      (safe_end stk buf ph -> at_phase stk ph ex (set_ds 0 (set_cur 0 s1)))
  | ROut tk ph ex r' =>
    exists s1 nt1, res = Ok (s1, NoError, nt1) /\ frame s s1 /\ tok_view nt1 = tk /\
      skipn (t_cur s1) buf = r' /\ t_cur s1 <= length buf /\ t_expect s1 = ex /\ t_esc s1 = false /\
      (im_active (t_im s1) = true \/ t_im s1 = im_init) /\
      ((ph = PName /\ t_tok s1 = FindingName) \/ (ph = PEnd /\ t_tok s1 = FindingTokenEnd))
  end.

Lemma matches_frame stk buf s s' nt r res :
  frame s s' -> matches stk buf s' nt r res -> matches stk buf s nt r res.
Proof.
  intros F. destruct r as [ph ex|e|tk ph ex r']; cbn [matches]; auto.
  - intros (s1 & E & F1 & H). exists s1. split; [exact E|]. split; [|exact H]. eapply frame_trans; eassumption.
  - intros (s1 & nt1 & E & F1 & H). exists s1, nt1. split; [exact E|]. split; [|exact H].
    eapply frame_trans; eassumption.
Qed.

Lemma skipn_at_end (buf : bytes) n : n = length buf -> skipn n buf = [].
Proof. intros ->. apply skipn_all. Qed.

Lemma getType_bracket t d : is_bracket t = true -> getType t d = t.
Proof. destruct t; try discriminate; reflexivity. Qed.

(** ** Member values *)

Definition data_local (buf : bytes) (tmp : token) (s : tstate) (nm : bytes) (nty : type) (en : entry) : Prop :=
  match en with
  | None =>
    (t_im s = im_init /\ dr_bytes (tk_name tmp) = nm /\ tk_name_type tmp = nty /\
     (t_cur s = length buf -> ends_with c_colon buf)) \/
    (exists ns, t_im s = mkIm true ns false nty TError nm [])
  | Some (ty, esc, acc) => exists ns, t_im s = mkIm true ns true nty ty nm acc
  end.

Definition data_from (tmp : token) (s : tstate) (nm : bytes) (nty : type) (en : entry) : Prop :=
  match en with
  | None =>
    (t_im s = im_init /\ dr_bytes (tk_name tmp) = nm /\ tk_name_type tmp = nty) \/
    (exists ns, t_im s = mkIm true ns false nty TError nm [])
  | Some (ty, esc, acc) => exists ns, t_im s = mkIm true ns true nty ty nm acc
  end.

(** The token assembled from the intermediate token or the buffer (H 2740-2765). *)
Lemma data_token off tmp s s1 nm nty en ty1 raw :
  t_im s1 = t_im s -> (en <> None -> ty1 = im_data_type (t_im s)) ->
  entry_at en (im_data_type (t_im s)) s -> data_from tmp s nm nty en ->
  exists s2 name l,
    (if im_active (t_im s1)
     then (set_im (mkIm true (im_name_set (t_im s1)) true (im_name_type (t_im s1))
             (if im_data_set (t_im s1) then im_data_type (t_im s1) else ty1) (im_name (t_im s1))
             (im_data (t_im s1) ++ raw)) s1,
           mkRef InIntermediate (im_name (t_im s1)), im_name_type (t_im s1),
           mkRef InIntermediate (im_data (t_im s1) ++ raw),
           if im_data_set (t_im s1) then im_data_type (t_im s1) else ty1)
     else (s1, tk_name tmp, tk_name_type tmp, mkRef (InBuffer off) raw, ty1)) =
    (s2, name, nty, mkRef l (acc_of en ++ raw), ty1) /\
    dr_bytes name = nm /\ frame s1 s2 /\ t_cur s2 = t_cur s1 /\ t_expect s2 = t_expect s1 /\
    t_esc s2 = t_esc s1 /\ (im_active (t_im s2) = true \/ t_im s2 = im_init).
Proof.
  intros K Ht Hen Hd. rewrite K. destruct en as [[[ty esc] acc]|]; cbn [data_from entry_at acc_of app] in *.
  - destruct Hd as (ns & Hi). rewrite Hi in *. cbn in *. rewrite (Ht ltac:(discriminate)).
    do 3 eexists. split; [reflexivity|]. repeat split. left. reflexivity.
  - destruct Hd as [(Hi & Hnm & Hnt)|(ns & Hi)]; rewrite Hi; cbn; subst; do 3 eexists; (split; [reflexivity|]);
      repeat split; [right; congruence|left; reflexivity].
Qed.

Lemma next_data o buf f tmp nt s nm nty en :
  o_isa o = Scalar -> o_comments o = false -> no_nul buf ->
  t_tok s = FindingData -> entry_at en (im_data_type (t_im s)) s -> t_cur s <= length buf ->
  data_local buf tmp s nm nty en ->
  matches (t_stack s) buf s nt (run o (t_stack s) (t_expect s) (phaseD nm nty en) (skipn (t_cur s) buf))
    (populateNext (S f) o buf tmp nt s).
Proof.
  intros Ho Hcm Hn Htok Hen Hc Hloc. cbn [populateNext].
  destruct (Nat.ltb_spec (t_cur s) (length buf)) as [Hlt|Hge].
  2:{ rewrite skipn_at_end by lia. cbn [run matches]. exists s. split; [reflexivity|].
      split; [apply frame_refl|]. intros Hsafe. unfold at_phase. split; [reflexivity|].
      destruct en as [[[ty esc] acc]|]; cbn [phaseD data_local entry_at] in *.
      - destruct Hen as (H1 & H2 & H3 & H4 & H5 & H6 & H7). rewrite <- H1 in *. repeat split; auto.
      - destruct Hen as [H1 H2]. destruct Hloc as [(_ & _ & _ & Hx)|Hx].
        + exfalso. apply Hsafe. apply Hx. lia.
        + repeat split; auto. }
  rewrite Htok.
  destruct (populateFrom_run o buf (im_data_type (t_im s)) en s Ho Hcm Hn Hen Hc)
    as (s1 & e & off & size & ty1 & E & K & R). rewrite E. cbn [obind].
  destruct K as (F & K1 & K2 & K3). destruct R as [Ht1 R].
  destruct R as [(-> & -> & _ & R)|[(-> & -> & P & Es & _ & R)|[(-> & P & Hv & Hes & Hne & txt & Sl & _ & R)|
    [(-> & -> & P & Es & Hle & Hbr & c & Sl & Hsc & _ & R)|(-> & P & Es & Hle & Hv & _ & txt & Sl & _ & R)]]]].
  - cbn [phaseD]. rewrite R. cbn [matches]. eauto.
  - cbn [phaseD]. rewrite R. rewrite P. cbn [prop_gt_nostart matches]. eexists. split; [reflexivity|].
    split; [exact F|]. intros _. unfold at_phase. cbn. rewrite K3. split; [reflexivity|].
    rewrite K1, P, Es, Htok. repeat split.
    cbn [data_local] in Hloc. rewrite K2. destruct Hloc as [(Hi & Hnm & Hnt & _)|(ns & Hi)]; rewrite Hi; cbn.
    + exists false. rewrite Hnm, Hnt. reflexivity.
    + exists ns. reflexivity.
  - rewrite R, P. cbn [prop_gt_nostart]. rewrite Sl. cbn [obind matches]. eexists. split; [reflexivity|].
    split; [exact F|]. intros _. unfold at_phase. cbn. rewrite K3. split; [reflexivity|].
    rewrite K1, P, Htok. split; [reflexivity|]. split.
    { repeat split; auto. }
    assert (Hu : upto_nul txt = txt) by (apply upto_nul_id; eapply slice_no_nul; eassumption).
    rewrite K2, Hu. destruct en as [[[ty esc] acc]|]; cbn [data_local acc_of app] in *.
    + destruct Hloc as (ns & Hi). rewrite Hi. cbn. exists ns.
      destruct Hen as (-> & _). rewrite (Ht1 ltac:(discriminate)). reflexivity.
    + destruct Hloc as [(Hi & Hnm & Hnt & _)|(ns & Hi)]; rewrite Hi; cbn.
      * exists false. rewrite Hnm, Hnt. reflexivity.
      * exists ns. reflexivity.
  - (* a bracket *)
    rewrite Sl. cbn [obind phaseD] in *. rewrite R. cbn [run step]. unfold data_step. rewrite Hsc.
    destruct (data_token off tmp s s1 nm nty None ty1 [c] K2 Ht1 Hen) as (s2 & name & l & -> & T1 & T2 & T3 & T4 & T5 & T6).
    { destruct Hloc as [(Hi & Hnm & Hnt & _)|Hi]; [left|right]; auto. }
    cbn [acc_of app dr_bytes]. rewrite (getType_bracket ty1 [c] Hbr).
    assert (Hna : type_eqb ty1 TAscii = false) by (destruct ty1; try discriminate Hbr; reflexivity).
    rewrite Hna. cbn [andb].
    destruct ty1; try discriminate Hbr; cbn [matches]; do 2 eexists; (split; [reflexivity|]);
      unfold tok_view; cbn; rewrite T1, T3, T4, T5, K3; repeat split; auto; try (eapply frame_trans; [exact F|exact T2]).
  - rewrite Sl. cbn [obind]. rewrite R. unfold after_value, value_done.
    destruct (data_token off tmp s s1 nm nty en ty1 txt K2 Ht1 Hen) as (s2 & name & l & -> & T1 & T2 & T3 & T4 & T5 & T6).
    { destruct en as [[[ty esc] acc]|]; [exact Hloc|].
      destruct Hloc as [(Hi & Hnm & Hnt & _)|Hi]; [left|right]; auto. }
    cbn [dr_bytes]. cbv zeta.
    destruct (type_eqb (getType ty1 (acc_of en ++ txt)) TAscii && negb (o_ascii o)); cbn [matches]; [eauto|].
    assert (Hnx : match ty1 with TObjectStart | TArrayStart => FindingName | _ => FindingTokenEnd end = FindingTokenEnd).
    { destruct Hv as [->|[->| ->]]; reflexivity. }
    rewrite Hnx. do 2 eexists. split; [reflexivity|].
    unfold tok_view. cbn. rewrite T1, T3, T4, T5, K3. split; [eapply frame_trans; [exact F|exact T2]|].
    repeat split; auto.
Qed.

(** ** Delimiters *)

Definition delim_local (buf : bytes) (tmp : token) (s : tstate) (nm : bytes) (nty : type) : Prop :=
  tk_name_type tmp = nty /\
  ((t_im s = im_init /\ dr_bytes (tk_name tmp) = nm) \/
   (exists ns raw, t_im s = mkIm true ns false raw TError nm [] /\ value_ty raw /\ getType raw nm = nty /\
      (dr_bytes (tk_name tmp) = nm \/ (exists st, t_stack s = TObjectStart :: st)))) /\
  (t_cur s = length buf -> (exists ns, t_im s = mkIm true ns false TString TError nm []) \/ ends_with c_quote buf).

Lemma bool_or_null_type d : bool_or_null d = TNull \/ bool_or_null d = TBool \/ bool_or_null d = TAscii.
Proof.
  unfold bool_or_null. destruct (bytes_eqb d _); auto. destruct (bytes_eqb d _); auto.
  destruct (bytes_eqb d _); auto.
Qed.

Lemma getType_same raw d : value_ty raw -> getType raw d = TString \/ getType raw d = TAscii -> raw = getType raw d.
Proof.
  intros Hv H. destruct raw; try reflexivity. cbn in *.
  destruct (bool_or_null_type d) as [X|[X|X]]; rewrite X in *; auto; destruct H; discriminate.
Qed.

Lemma type_eqb_eq a b : type_eqb a b = true -> a = b.
Proof. destruct a, b; cbn; intros H; try reflexivity; discriminate H. Qed.

Lemma name_ok_type o nty : name_ok o nty = true -> nty = TString \/ nty = TAscii.
Proof.
  unfold name_ok. destruct (type_eqb nty TString) eqn:E1; [left; apply type_eqb_eq; exact E1|].
  destruct (type_eqb nty TAscii) eqn:E2; [right; apply type_eqb_eq; exact E2|].
  cbn. rewrite orb_true_r. discriminate.
Qed.

Lemma next_delim o buf f tmp nt s nm nty :
  o_isa o = Scalar -> o_comments o = false -> o_nl o = false -> no_nul buf ->
  t_tok s = FindingDelimiter -> t_prop s = NoStartFound -> t_esc s = false -> t_cur s <= length buf ->
  delim_local buf tmp s nm nty ->
  matches (t_stack s) buf s nt (run o (t_stack s) (t_expect s) (PDelim nm nty) (skipn (t_cur s) buf))
    (populateNext (S (S f)) o buf tmp nt s).
Proof.
  intros Ho Hcm Hnl Hn Htok Hp He Hc (Htt & Him & Hend).
  remember (S f) as f1 eqn:Hf1. cbn [populateNext].
  destruct (Nat.ltb_spec (t_cur s) (length buf)) as [Hlt|Hge].
  2:{ rewrite skipn_at_end by lia. cbn [run matches]. exists s. split; [reflexivity|].
      split; [apply frame_refl|]. intros (S1 & S2 & S3). unfold at_phase. split; [reflexivity|].
      destruct (Hend ltac:(lia)) as [Hx|Hx]; [|contradiction]. repeat split; auto. }
  rewrite Htok, findDelimiter_eq.
  destruct (t_stack s) as [|ct st] eqn:Hst.
  { destruct (skipn (t_cur s) buf) as [|c tl] eqn:Er.
    { apply skipn_nil_length in Er; lia. }
    cbn [run step delim_step matches]. eauto. }
  destruct (fdelim_spec (scalar_opts o) ct Hcm Hnl (S (length (skipn (t_cur s) buf))) (skipn (t_cur s) buf)
              (t_cur s) (t_cur s) (Nat.lt_succ_diag_r _))
    as [(w & b & tl & r & Er & Hw & Hb & E)|(Hw & E)]; rewrite E; clear E.
  2:{ (* only whitespace *)
      rewrite <- (app_nil_r (skipn (t_cur s) buf)), run_delim_ws by exact Hw.
      cbn [run matches]. rewrite set_cur_same. eexists. split; [reflexivity|].
      split; [destruct (im_active (t_im s)); repeat split|].
      intros (S1 & S2 & S3). unfold at_phase.
      destruct Him as [(Hi & Hnm)|(ns & raw & Hi & Hv & Hg & _)]; rewrite Hi; cbn.
      - repeat split; auto. exists false. rewrite Htt, Hnm, S1. reflexivity.
      - repeat split; auto. exists ns. rewrite Hi. rewrite (getType_same raw nm Hv) by (rewrite Hg; auto).
        rewrite Hg, S1. reflexivity. }
  assert (Hlen : t_cur s + length w < length buf).
  { apply (f_equal (@length byte)) in Er. rewrite app_length, skipn_length in Er. cbn [length] in Er. lia. }
  assert (Hsk1 : skipn (t_cur s + length w) buf = b :: tl).
  { rewrite skipn_add, Er. apply skipn_app_exact. reflexivity. }
  assert (Hsk2 : skipn (t_cur s + length w + 1) buf = tl).
  { rewrite skipn_add, Hsk1. reflexivity. }
  rewrite Er, run_delim_ws by exact Hw. cbn [run step]. unfold delim_step. unfold fdelim_at in Hb.
  assert (Hnb : type_eqb ct TArrayStart = true -> dr_bytes (tk_name tmp) = nm).
  { intros Hct. destruct Him as [(_ & H)|(ns & raw & _ & _ & _ & [H|(st' & H)])]; auto.
    injection H as -> _. discriminate Hct. }
  assert (Hact : im_active (t_im s) = true \/ t_im s = im_init).
  { destruct Him as [(H & _)|(ns & raw & H & _)]; rewrite H; auto. }
  destruct (Byte.eqb b c_colon) eqn:E1.
  { injection Hb as <-. destruct (type_eqb ct TObjectStart) eqn:Ect; cbn [negb matches]; [|eauto].
    fold (name_ok o nty). rewrite <- Htt.
    destruct (name_ok o (tk_name_type tmp)) eqn:Ek.
    2:{ unfold name_ok in Ek. apply negb_false_iff in Ek. rewrite Ek. cbn [matches]. eauto. }
    assert (Ek' := Ek). unfold name_ok in Ek'. apply negb_true_iff in Ek'. rewrite Ek'.
    replace (t_cur s + (t_cur s + length w + 1 - t_cur s)) with (t_cur s + length w + 1) by (clear; lia).
    set (s1 := set_expect false (resetForNewValue (set_tok FindingData (set_cur (t_cur s + length w + 1) s)))).
    subst f1. apply (matches_frame _ buf s s1); [repeat split|].
    rewrite <- Hst. change (t_stack s) with (t_stack s1).
    change false with (t_expect s1) at 1.
    replace tl with (skipn (t_cur s1) buf) by (cbn; exact Hsk2).
    apply (next_data o buf f tmp nt s1 nm (tk_name_type tmp) None Ho Hcm Hn eq_refl).
    - split; [reflexivity|exact He].
    - cbn. clear - Hlen. lia.
    - cbn [data_local]. destruct Him as [(Hi & Hnm)|(ns & raw & Hi & Hv & Hg & _)].
      + left. split; [exact Hi|]. split; [exact Hnm|]. split; [reflexivity|].
        intros Hx. cbn in Hx. exists (firstn (t_cur s + length w) buf).
        rewrite skipn_at_end in Hsk2 by exact Hx. subst tl.
        apply byte_eqb_eq in E1. subst b. rewrite <- Hsk1. symmetry. apply firstn_skipn.
      + right. exists ns. cbn. rewrite Hi, Htt.
        rewrite (getType_same raw nm Hv) by (rewrite Hg, <- Htt; eapply name_ok_type; eassumption).
        rewrite Hg. reflexivity. }
  destruct (Byte.eqb b c_comma) eqn:E2.
  { injection Hb as <-. destruct (type_eqb ct TArrayStart) eqn:Ect; cbn [negb matches]; [|eauto].
    do 2 eexists. split; [reflexivity|]. split; [repeat split|].
    unfold tok_view, anonymous_token. cbn. rewrite Hnb, Htt by reflexivity.
    replace (t_cur s + (t_cur s + length w + 1 - t_cur s)) with (t_cur s + length w + 1) by (clear; lia).
    repeat split; auto; clear - Hlen; lia. }
  destruct (Byte.eqb b c_rbracket) eqn:E3.
  { injection Hb as <-. destruct (type_eqb ct TArrayStart) eqn:Ect; cbn [negb matches]; [|eauto].
    do 2 eexists. split; [reflexivity|]. split; [repeat split|].
    unfold tok_view, anonymous_token. cbn. rewrite Hnb, Htt by reflexivity.
    replace (t_cur s + (t_cur s + length w - t_cur s)) with (t_cur s + length w) by (clear; lia).
    repeat split; auto; clear - Hlen; lia. }
  destruct (has b L_WhiteSpaceOrNull); cbn [negb] in *; [discriminate|].
  injection Hb as <-. cbn [matches]. eauto.
Qed.

(** ** Names and array elements *)

Definition name_local (s : tstate) (en : entry) : Prop :=
  match en with
  | None => t_im s = im_init
  | Some (ty, esc, acc) => t_im s = mkIm true true false ty TError acc []
  end.

Lemma next_name o buf f tmp nt s en :
  o_isa o = Scalar -> o_comments o = false -> o_nl o = false -> no_nul buf ->
  t_tok s = FindingName -> entry_at en (im_name_type (t_im s)) s -> t_cur s <= length buf ->
  name_local s en ->
  matches (t_stack s) buf s nt (run o (t_stack s) (t_expect s) (phaseN en) (skipn (t_cur s) buf))
    (populateNext (S (S (S f))) o buf tmp nt s).
Proof.
  intros Ho Hcm Hnl Hn Htok Hen Hc Hloc. remember (S (S f)) as f1 eqn:Hf1. cbn [populateNext].
  destruct (Nat.ltb_spec (t_cur s) (length buf)) as [Hlt|Hge].
  2:{ rewrite skipn_at_end by lia. cbn [run matches]. exists s. split; [reflexivity|].
      split; [apply frame_refl|]. intros _. unfold at_phase. split; [reflexivity|].
      destruct en as [[[ty esc] acc]|]; cbn [phaseN name_local entry_at] in *.
      - destruct Hen as (H1 & H2 & H3 & H4 & H5 & H6 & H7). rewrite <- H1 in *. repeat split; auto.
      - destruct Hen as [H1 H2]. repeat split; auto. }
  rewrite Htok.
  destruct (populateFrom_run o buf (im_name_type (t_im s)) en s Ho Hcm Hn Hen Hc)
    as (s1 & e & off & size & ty1 & E & K & Ht1 & R). rewrite E. cbn [obind].
  destruct K as (F & K1 & K2 & K3).
  destruct R as [(-> & -> & R & _)|[(-> & -> & P & Es & R & _)|[(-> & P & Hv & Hes & Hne & txt & Sl & R & _)|
    [(-> & -> & P & Es & Hle & Hbr & c & Sl & Hsc & R & _)|(-> & P & Es & Hle & Hv & Hq & txt & Sl & R & _)]]]].
  - cbn [phaseN]. rewrite R. cbn [matches]. eauto.
  - cbn [phaseN]. rewrite R, P. cbn [prop_gt_nostart matches]. eexists. split; [reflexivity|].
    split; [exact F|]. intros _. unfold at_phase. cbn. rewrite K1, K2, K3, P, Es. cbn [name_local] in Hloc.
    repeat split; auto.
  - rewrite R, P. cbn [prop_gt_nostart]. rewrite Sl. cbn [obind matches]. eexists. split; [reflexivity|].
    split; [exact F|]. intros _. unfold at_phase. cbn. rewrite K3. split; [reflexivity|].
    rewrite K1, P, Htok. split; [reflexivity|]. split; [repeat split; auto|].
    rewrite (upto_nul_id txt) by (eapply slice_no_nul; eassumption).
    rewrite K2. destruct en as [[[ty esc] acc]|]; cbn [name_local acc_of app] in *; rewrite Hloc in *; cbn in *.
    + rewrite (Ht1 ltac:(discriminate)). reflexivity.
    + reflexivity.
  - (* a bracket *)
    rewrite Sl. cbn [obind phaseN name_local] in *. rewrite R. cbn [run step]. unfold name_step. rewrite Hsc.
    rewrite K2, Hloc. cbn [im_active im_init].
    destruct ty1; try discriminate Hbr; cbn beta iota; rewrite ?K3.
    + cbn [matches]. do 2 eexists. split; [reflexivity|]. split; [exact F|].
      unfold tok_view, anonymous_token. cbn. rewrite K2. repeat split; auto.
    + destruct (t_expect s && negb (o_comma o)); cbn [matches]; [eauto|].
      do 2 eexists. split; [reflexivity|]. split; [exact F|].
      unfold tok_view, anonymous_token. cbn. rewrite K2. repeat split; auto.
    + cbn [matches]. do 2 eexists. split; [reflexivity|]. split; [exact F|].
      unfold tok_view, anonymous_token. cbn. rewrite K2. repeat split; auto.
    + destruct (t_expect s && negb (o_comma o)); cbn [matches]; [eauto|].
      do 2 eexists. split; [reflexivity|]. split; [exact F|].
      unfold tok_view, anonymous_token. cbn. rewrite K2. repeat split; auto.
  - (* a value *)
    rewrite Sl. cbn [obind]. rewrite R.
    assert (T : exists s2 l,
      (if im_active (t_im s1)
       then (set_im (mkIm true (im_name_set (t_im s1)) (im_data_set (t_im s1)) (im_name_type (t_im s1))
               (im_data_type (t_im s1)) (im_name (t_im s1) ++ txt) (im_data (t_im s1))) s1,
             mkRef InIntermediate (im_name (t_im s1) ++ txt), im_name_type (t_im s1))
       else (s1, mkRef (InBuffer off) txt, ty1)) = (s2, mkRef l (acc_of en ++ txt), ty1) /\
      frame s1 s2 /\ t_cur s2 = t_cur s1 /\ t_expect s2 = t_expect s1 /\ t_esc s2 = t_esc s1 /\
      ((t_im s2 = im_init) \/
       (exists ns, t_im s2 = mkIm true ns false ty1 TError (acc_of en ++ txt) []))).
    { rewrite K2. destruct en as [[[ty esc] acc]|]; cbn [name_local acc_of app] in *; rewrite Hloc in *; cbn in *.
      - rewrite (Ht1 ltac:(discriminate)). do 2 eexists. split; [reflexivity|]. repeat split. right. exists true. reflexivity.
      - do 2 eexists. split; [reflexivity|]. repeat split. left. congruence. }
    destruct T as (s2 & l & -> & T1 & T2 & T3 & T4 & T5).
    assert (G : matches (t_stack s) buf s nt
        (run o (t_stack s) (t_expect s) (PDelim (acc_of en ++ txt) (getType ty1 (acc_of en ++ txt))) (skipn (t_cur s1) buf))
        (populateNext f1 o buf
          (mkTok (mkRef l (acc_of en ++ txt)) (tk_value tmp) (getType ty1 (dr_bytes (mkRef l (acc_of en ++ txt))))
             (tk_value_type tmp)) nt (resetForNewValue (set_tok FindingDelimiter s2)))).
    { set (s3 := resetForNewValue (set_tok FindingDelimiter s2)).
      assert (F3 : frame s s3) by (eapply frame_trans; [exact F|]; exact T1).
      apply (matches_frame _ buf s s3); [exact F3|].
      replace (t_stack s) with (t_stack s3) by (apply F3).
      replace (t_expect s) with (t_expect s3) by (cbn; congruence).
      replace (t_cur s1) with (t_cur s3) by (cbn; congruence).
      subst f1. apply next_delim; auto.
      - cbn. congruence.
      - cbn. congruence.
      - cbn [dr_bytes]. unfold delim_local. cbn [tk_name_type tk_name dr_bytes].
        change (t_im s3) with (t_im s2). split; [reflexivity|]. split.
        + destruct T5 as [T5|(ns & T5)]; [left; auto|right].
          exists ns, ty1. repeat split; auto.
        + intros Hx. right. destruct Hq as [Hq|(_ & Hq)]; [|exact Hq].
          cbn in Hx. clear - Hq Hx T2. lia. }
    destruct Hv as [->|[->| ->]]; exact G.
Qed.

(** ** The end of a token *)

Lemma next_name_from o buf f tmp nt s ex n :
  o_isa o = Scalar -> o_comments o = false -> o_nl o = false -> no_nul buf ->
  t_prop s = NoStartFound -> t_esc s = false -> t_im s = im_init -> n <= length buf ->
  matches (t_stack s) buf s nt (run o (t_stack s) ex PName (skipn n buf))
    (populateNext (S (S (S f))) o buf tmp nt (set_tok FindingName (set_cur n (set_expect ex s)))).
Proof.
  intros Ho Hcm Hnl Hn Hp He Him Hle.
  set (s3 := set_tok FindingName (set_cur n (set_expect ex s))).
  assert (E1 : t_stack s3 = t_stack s) by reflexivity.
  assert (E2 : t_expect s3 = ex) by reflexivity.
  assert (E3 : t_cur s3 = n) by reflexivity.
  assert (E4 : t_prop s3 = NoStartFound) by exact Hp.
  assert (E5 : t_esc s3 = false) by exact He.
  assert (E6 : t_im s3 = im_init) by exact Him.
  assert (E7 : t_tok s3 = FindingName) by reflexivity.
  assert (E8 : frame s s3) by (repeat split).
  clearbody s3. apply (matches_frame _ buf s s3); [exact E8|].
  rewrite <- E1, <- E2, <- E3. apply (next_name o buf f tmp nt s3 None); auto; [split; assumption|lia].
Qed.

Lemma next_end o buf f1 f tmp nt s :
  f1 = S (S (S f)) ->
  o_isa o = Scalar -> o_comments o = false -> o_nl o = false -> no_nul buf ->
  t_tok s = FindingTokenEnd -> t_prop s = NoStartFound -> t_esc s = false -> t_im s = im_init ->
  t_cur s <= length buf ->
  matches (t_stack s) buf s nt (run o (t_stack s) (t_expect s) PEnd (skipn (t_cur s) buf))
    (populateNext (S f1) o buf tmp nt s).
Proof.
  intros Hf1 Ho Hcm Hnl Hn Htok Hp He Him Hc. cbn [populateNext].
  destruct (Nat.ltb_spec (t_cur s) (length buf)) as [Hlt|Hge].
  2:{ rewrite skipn_at_end by lia. cbn [run matches]. exists s. split; [reflexivity|].
      split; [apply frame_refl|]. intros _. unfold at_phase. repeat split; auto. }
  assert (Hlt0 : t_cur s + 0 <= length buf) by (clear - Hlt; lia).
  rewrite Htok, findTokenEnd_eq.
  assert (G : forall ex n, n <= length buf ->
    matches (t_stack s) buf s nt (run o (t_stack s) ex PName (skipn n buf))
      (populateNext f1 o buf tmp nt (set_tok FindingName (set_cur n (set_expect ex s))))).
  { intros ex n Hle. subst f1. apply next_name_from; auto. }
  assert (Hex : set_expect (t_expect s) s = s) by (destruct s; reflexivity).
  assert (HL : length (skipn (t_cur s) buf) = length buf - t_cur s) by apply skipn_length.
  destruct (t_stack s) as [|ct st] eqn:Hst.
  { specialize (G (t_expect s) (t_cur s + 0) Hlt0). rewrite Hex in G.
    rewrite Nat.add_0_r in *. cbv zeta. cbn iota.
    destruct (skipn (t_cur s) buf) as [|c tl] eqn:Er; [cbn in HL; lia|]. cbn [run step end_step] in *. exact G. }
  destruct (ftend_spec (scalar_opts o) Hcm Hnl (S (length (skipn (t_cur s) buf))) (skipn (t_cur s) buf)
              (t_cur s) (t_cur s) (Nat.lt_succ_diag_r _))
    as [(w & b & tl & r & Er & Hw & Hb & E)|(Hw & E)]; rewrite E; clear E.
  2:{ rewrite <- (app_nil_r (skipn (t_cur s) buf)), run_end_ws by exact Hw.
      cbn [run matches]. rewrite set_cur_same. eexists. split; [reflexivity|].
      split; [apply frame_refl|]. intros _. unfold at_phase. repeat split; auto. }
  assert (Hlen : t_cur s + length w < length buf).
  { rewrite Er, app_length in HL. cbn [length] in HL. lia. }
  assert (Hsk1 : skipn (t_cur s + length w) buf = b :: tl).
  { rewrite skipn_add, Er. apply skipn_app_exact. reflexivity. }
  assert (Hsk2 : skipn (t_cur s + length w + 1) buf = tl).
  { rewrite skipn_add, Hsk1. reflexivity. }
  assert (Hlen1 : t_cur s + length w + 1 <= length buf) by (clear - Hlen; lia).
  rewrite Er, run_end_ws by exact Hw. cbn [run step]. unfold end_step. unfold ftend_at in Hb.
  destruct (Byte.eqb b c_comma).
  { injection Hb as <-. cbv zeta. cbn iota.
    replace (t_cur s + (t_cur s + length w + 1 - t_cur s)) with (t_cur s + length w + 1) by (clear; lia).
    specialize (G true (t_cur s + length w + 1) Hlen1). rewrite Hsk2 in G. exact G. }
  destruct (Byte.eqb b c_rbracket || Byte.eqb b c_rbrace).
  { injection Hb as <-. cbv zeta. cbn iota.
    replace (t_cur s + (t_cur s + length w - t_cur s)) with (t_cur s + length w) by (clear; lia).
    specialize (G (t_expect s) (t_cur s + length w) (Nat.lt_le_incl _ _ Hlen)). rewrite Hsk1, Hex in G. cbn [run step] in G. exact G. }
  destruct (Byte.eqb b c_nl || has b L_WhiteSpaceOrNull); [discriminate|].
  injection Hb as <-. cbn [matches]. eauto.
Qed.

(** ** Every phase *)

Lemma next_phase o buf tmp nt s ph :
  o_isa o = Scalar -> o_comments o = false -> o_nl o = false -> no_nul buf ->
  at_phase (t_stack s) ph (t_expect s) s -> t_cur s <= length buf -> tmp = tok_default ->
  matches (t_stack s) buf s nt (run o (t_stack s) (t_expect s) ph (skipn (t_cur s) buf))
    (populateNext loop_fuel o buf tmp nt s).
Proof.
  intros Ho Hcm Hnl Hn [_ Hph] Hc ->. unfold loop_fuel. destruct ph as [|ty esc acc|nm nty|nm nty|nm nty ty esc acc|].
  - destruct Hph as (H1 & H2 & H3 & H4). apply (next_name o buf _ _ nt s None); auto. split; auto.
  - destruct Hph as (H1 & H2 & H3). apply (next_name o buf _ _ nt s (Some (ty, esc, acc))); auto.
    rewrite H3. exact H2.
  - destruct Hph as (H1 & H2 & H3 & H4 & H5 & ns & H6). apply next_delim; auto.
    split; [symmetry; exact H4|]. split.
    + right. exists ns, TString. repeat split; auto. left; reflexivity.
    + intros _. left. exists ns. exact H6.
  - destruct Hph as (H1 & H2 & H3 & ns & H4). apply (next_data o buf _ _ nt s nm nty None); auto.
    + split; auto.
    + right. exists ns. exact H4.
  - destruct Hph as (H1 & H2 & ns & H3). apply (next_data o buf _ _ nt s nm nty (Some (ty, esc, acc))); auto.
    + rewrite H3. exact H2.
    + exists ns. exact H3.
  - destruct Hph as (H1 & H2 & H3 & H4). apply (next_end o buf _ 1); auto.
Qed.
