(** Lemmas about the tokenizer model: fuel, independence of the instruction set, absence of
    undefined behaviour, termination and bracket balance. *)
From Verif Require Import Base ScanModel ScanProofs TokModel.
From Coq Require Import Lia ZifyBool ZifyNat ZifyN.

Definition scalar_opts (o : opts) : opts :=
  mkOpts Scalar (o_ascii o) (o_nl o) (o_comma o) (o_comments o).

Lemma skipComment_le i nl rest k : skipComment i nl rest = Some k -> k <= length rest.
Proof.
  rewrite skipComment_isa. cbn [skipComment]. unfold comment_scalar.
  destruct (find_index (fun c => Byte.eqb c c_nl) rest) as [j|] eqn:E; [|discriminate].
  destruct (find_index_Some _ _ _ E) as (H & _ & _).
  intros E2. injection E2 as <-. destruct nl; lia.
Qed.

Lemma skipn_1_length (l : bytes) : starts_slash l = true -> S (length (skipn 1 l)) = length l.
Proof. destruct l as [|c l]; cbn; [discriminate|]. intros _. reflexivity. Qed.

(** ** Fuel of the three loops is irrelevant once it exceeds the number of bytes *)

Lemma fsnv_fuel o : forall f1 f2 rest pos cur,
  length rest < f1 -> length rest < f2 ->
  fsnv_loop f1 o rest pos cur = fsnv_loop f2 o rest pos cur.
Proof.
  induction f1 as [|f1 IH]; intros f2 rest pos cur H1 H2; [lia|].
  destruct f2 as [|f2]; [lia|]. cbn [fsnv_loop]. destruct rest as [|c tl]; [reflexivity|].
  cbn [length] in *.
  destruct (o_comments o && Byte.eqb c c_slash && starts_slash tl) eqn:Hc.
  - apply andb_true_iff in Hc. destruct Hc as [_ Hc]. apply skipn_1_length in Hc.
    destruct (skipComment (o_isa o) (o_nl o) (skipn 1 tl)) as [k|] eqn:Hk; [|reflexivity].
    apply IH; rewrite skipn_length; lia.
  - destruct (single_char_type c); [reflexivity|].
    destruct (has c _); [reflexivity|]. destruct (has c _); [reflexivity|].
    destruct (lookup c =? 0)%N; [reflexivity|]. apply IH; lia.
Qed.

Lemma fdelim_fuel o ct : forall f1 f2 rest pos cur,
  length rest < f1 -> length rest < f2 ->
  fdelim_loop f1 o ct rest pos cur = fdelim_loop f2 o ct rest pos cur.
Proof.
  induction f1 as [|f1 IH]; intros f2 rest pos cur H1 H2; [lia|].
  destruct f2 as [|f2]; [lia|]. cbn [fdelim_loop]. destruct rest as [|c tl]; [reflexivity|].
  cbn [length] in *.
  destruct (o_comments o && Byte.eqb c c_slash && starts_slash tl) eqn:Hc.
  - apply andb_true_iff in Hc. destruct Hc as [_ Hc]. apply skipn_1_length in Hc.
    destruct (skipComment (o_isa o) (o_nl o) (skipn 1 tl)) as [k|] eqn:Hk; [|reflexivity].
    apply IH; rewrite skipn_length; lia.
  - destruct (Byte.eqb c c_colon); [reflexivity|].
    destruct (Byte.eqb c c_comma || _); [reflexivity|].
    destruct (Byte.eqb c c_rbracket); [reflexivity|].
    destruct (negb (has c _)); [reflexivity|]. apply IH; lia.
Qed.

Lemma ftend_fuel o : forall f1 f2 rest pos cur,
  length rest < f1 -> length rest < f2 ->
  ftend_loop f1 o rest pos cur = ftend_loop f2 o rest pos cur.
Proof.
  induction f1 as [|f1 IH]; intros f2 rest pos cur H1 H2; [lia|].
  destruct f2 as [|f2]; [lia|]. cbn [ftend_loop]. destruct rest as [|c tl]; [reflexivity|].
  cbn [length] in *.
  destruct (o_comments o && Byte.eqb c c_slash && starts_slash tl) eqn:Hc.
  - apply andb_true_iff in Hc. destruct Hc as [_ Hc]. apply skipn_1_length in Hc.
    destruct (skipComment (o_isa o) (o_nl o) (skipn 1 tl)) as [k|] eqn:Hk; [|reflexivity].
    apply IH; rewrite skipn_length; lia.
  - destruct (Byte.eqb c c_comma); [reflexivity|].
    destruct (Byte.eqb c c_rbracket || _); [reflexivity|].
    destruct (Byte.eqb c c_nl); [destruct (o_nl o); [reflexivity|apply IH; lia]|].
    destruct (has c _); [apply IH; lia|reflexivity].
Qed.

(** ** Independence of the instruction set *)

Lemma fsnv_isa o : forall f rest pos cur,
  fsnv_loop f o rest pos cur = fsnv_loop f (scalar_opts o) rest pos cur.
Proof.
  induction f as [|f IH]; intros rest pos cur; [reflexivity|].
  cbn [fsnv_loop scalar_opts o_comments o_isa o_nl]. destruct rest as [|c tl]; [reflexivity|].
  rewrite (skipComment_isa (o_isa o)).
  destruct (o_comments o && Byte.eqb c c_slash && starts_slash tl).
  - destruct (skipComment Scalar (o_nl o) (skipn 1 tl)); [apply IH|reflexivity].
  - destruct (single_char_type c); [reflexivity|].
    destruct (has c _); [reflexivity|]. destruct (has c _); [reflexivity|].
    destruct (lookup c =? 0)%N; [reflexivity|apply IH].
Qed.

Lemma fdelim_isa o ct : forall f rest pos cur,
  fdelim_loop f o ct rest pos cur = fdelim_loop f (scalar_opts o) ct rest pos cur.
Proof.
  induction f as [|f IH]; intros rest pos cur; [reflexivity|].
  cbn [fdelim_loop scalar_opts o_comments o_isa o_nl]. destruct rest as [|c tl]; [reflexivity|].
  rewrite (skipComment_isa (o_isa o)).
  destruct (o_comments o && Byte.eqb c c_slash && starts_slash tl).
  - destruct (skipComment Scalar (o_nl o) (skipn 1 tl)); [apply IH|reflexivity].
  - destruct (Byte.eqb c c_colon); [reflexivity|].
    destruct (Byte.eqb c c_comma || _); [reflexivity|].
    destruct (Byte.eqb c c_rbracket); [reflexivity|].
    destruct (negb (has c _)); [reflexivity|apply IH].
Qed.

Lemma ftend_isa o : forall f rest pos cur,
  ftend_loop f o rest pos cur = ftend_loop f (scalar_opts o) rest pos cur.
Proof.
  induction f as [|f IH]; intros rest pos cur; [reflexivity|].
  cbn [ftend_loop scalar_opts o_comments o_isa o_nl]. destruct rest as [|c tl]; [reflexivity|].
  rewrite (skipComment_isa (o_isa o)).
  destruct (o_comments o && Byte.eqb c c_slash && starts_slash tl).
  - destruct (skipComment Scalar (o_nl o) (skipn 1 tl)); [apply IH|reflexivity].
  - destruct (Byte.eqb c c_comma); [reflexivity|].
    destruct (Byte.eqb c c_rbracket || _); [reflexivity|].
    destruct (Byte.eqb c c_nl); [destruct (o_nl o); [reflexivity|apply IH]|].
    destruct (has c _); [apply IH|reflexivity].
Qed.

Lemma vec_ws_class c : vec_ws_char c = true ->
  single_char_type c = None /\ has c (N.lor L_PlusOrMinus L_Digits) = false /\
  has c L_AsciiLetters = false /\ (lookup c =? 0)%N = false /\
  has c L_WhiteSpaceOrNull = true /\ Byte.eqb c c_slash = false /\ Byte.eqb c c_colon = false /\
  Byte.eqb c c_comma = false /\ Byte.eqb c c_rbracket = false /\ Byte.eqb c c_rbrace = false /\
  Byte.eqb c c_quote = false.
Proof. intros H. destruct c; try discriminate H; repeat split; vm_compute; reflexivity. Qed.

(** Whitespace steps of the three loops, at exact fuel. *)
Lemma fsnv_ws o : forall w rest pos cur,
  Forall (fun c => vec_ws_char c = true) w ->
  fsnv_loop (S (length (w ++ rest))) o (w ++ rest) pos cur =
  fsnv_loop (S (length rest)) o rest (pos + length w) cur.
Proof.
  induction w as [|c w IH]; intros rest pos cur H.
  - cbn [app length]. rewrite Nat.add_0_r. reflexivity.
  - inversion H as [|? ? Hc Hw]. subst.
    destruct (vec_ws_class c Hc) as (E1 & E2 & E3 & E4 & E5 & E6 & _).
    change (length ((c :: w) ++ rest)) with (S (length (w ++ rest))).
    specialize (IH rest (S pos) cur Hw). remember (S (length (w ++ rest))) as f eqn:Hf. remember (S (length rest)) as g eqn:Hg.
    cbn [app fsnv_loop]. rewrite E6, andb_false_r. cbn [andb].
    rewrite E1, E2, E3, E4. rewrite IH. rewrite Nat.add_succ_comm. reflexivity.
Qed.

Lemma fdelim_ws o ct : o_nl o = false -> forall w rest pos cur,
  Forall (fun c => vec_ws_char c = true) w ->
  fdelim_loop (S (length (w ++ rest))) o ct (w ++ rest) pos cur =
  fdelim_loop (S (length rest)) o ct rest (pos + length w) cur.
Proof.
  intros Hnl. induction w as [|c w IH]; intros rest pos cur H.
  - cbn [app length]. rewrite Nat.add_0_r. reflexivity.
  - inversion H as [|? ? Hc Hw]. subst.
    destruct (vec_ws_class c Hc) as (E1 & E2 & E3 & E4 & E5 & E6 & E7 & E8 & E9 & _).
    change (length ((c :: w) ++ rest)) with (S (length (w ++ rest))).
    specialize (IH rest (S pos) cur Hw). remember (S (length (w ++ rest))) as f eqn:Hf. remember (S (length rest)) as g eqn:Hg.
    cbn [app fdelim_loop]. rewrite E6, andb_false_r. cbn [andb].
    rewrite E7, E8, E9, Hnl, E5. cbn [orb andb negb].
    rewrite IH. rewrite Nat.add_succ_comm. reflexivity.
Qed.

Lemma ftend_ws o : o_nl o = false -> forall w rest pos cur,
  Forall (fun c => vec_ws_char c = true) w ->
  ftend_loop (S (length (w ++ rest))) o (w ++ rest) pos cur =
  ftend_loop (S (length rest)) o rest (pos + length w) cur.
Proof.
  intros Hnl. induction w as [|c w IH]; intros rest pos cur H.
  - cbn [app length]. rewrite Nat.add_0_r. reflexivity.
  - inversion H as [|? ? Hc Hw]. subst.
    destruct (vec_ws_class c Hc) as (E1 & E2 & E3 & E4 & E5 & E6 & E7 & E8 & E9 & E10 & _).
    change (length ((c :: w) ++ rest)) with (S (length (w ++ rest))).
    specialize (IH rest (S pos) cur Hw). remember (S (length (w ++ rest))) as f eqn:Hf. remember (S (length rest)) as g eqn:Hg.
    cbn [app ftend_loop]. rewrite E6, andb_false_r. cbn [andb].
    rewrite E8, E9, E10, Hnl, E5. cbn [orb].
    destruct (Byte.eqb c c_nl); (rewrite IH; rewrite Nat.add_succ_comm; reflexivity).
Qed.

Lemma split_ws i rest :
  exists w r, rest = w ++ r /\ length w = ws_skip i rest /\ r = skipn (ws_skip i rest) rest /\
              Forall (fun c => vec_ws_char c = true) w.
Proof.
  destruct (ws_skip_spec i rest) as [H1 H2].
  exists (firstn (ws_skip i rest) rest), (skipn (ws_skip i rest) rest).
  rewrite firstn_skipn, firstn_length_le by assumption. auto.
Qed.

(** The fast path of findStartOfNextValue is redundant. *)
Lemma fsnv_fast o rest pos cur :
  match rest with
  | c :: _ => match single_char_type c with
              | Some t => FS_ok t (pos - cur) cur
              | None => fsnv_loop (S (length rest)) o rest pos cur
              end
  | [] => fsnv_loop (S (length rest)) o rest pos cur
  end = fsnv_loop (S (length rest)) o rest pos cur.
Proof.
  destruct rest as [|c tl]; [reflexivity|].
  destruct (single_char_type c) as [t|] eqn:Ht; [|reflexivity].
  cbn [fsnv_loop].
  assert (Byte.eqb c c_slash = false) as ->.
  { apply byte_eqb_neq. intros ->. discriminate Ht. }
  rewrite andb_false_r. cbn [andb]. rewrite Ht. reflexivity.
Qed.

(** findStartOfNextValue without vectorisation and fast path. *)
Lemma findStart_eq o buf cur :
  findStartOfNextValue o buf cur =
  fsnv_loop (S (length (skipn cur buf))) (scalar_opts o) (skipn cur buf) cur cur.
Proof.
  unfold findStartOfNextValue. set (rest0 := skipn cur buf). cbv zeta.
  rewrite fsnv_fast, fsnv_isa.
  destruct (split_ws (o_isa o) rest0) as (w & r & Hr & Hl & Hs & Hw).
  rewrite <- Hl. rewrite <- Hl in Hs. rewrite <- Hs. rewrite Hr.
  rewrite fsnv_ws by assumption. reflexivity.
Qed.

Lemma findDelimiter_eq o stack buf cur :
  findDelimiter o stack buf cur =
  match stack with
  | [] => FD_err IllegalPropertyType cur
  | ct :: _ =>
    fdelim_loop (S (length (skipn cur buf))) (scalar_opts o) ct (skipn cur buf) cur cur
  end.
Proof.
  unfold findDelimiter. destruct stack as [|ct st]; [reflexivity|].
  set (rest0 := skipn cur buf). cbv zeta. rewrite fdelim_isa.
  destruct (o_nl o) eqn:Hnl; cbn [negb].
  - rewrite Nat.add_0_r. reflexivity.
  - destruct (split_ws (o_isa o) rest0) as (w & r & Hr & Hl & Hs & Hw).
    rewrite <- Hl. rewrite <- Hl in Hs. rewrite <- Hs. rewrite Hr.
    rewrite fdelim_ws by assumption. reflexivity.
Qed.

Lemma findTokenEnd_eq o stack buf cur :
  findTokenEnd o stack buf cur =
  match stack with
  | [] => FE_ok 0 cur false
  | _ => ftend_loop (S (length (skipn cur buf))) (scalar_opts o) (skipn cur buf) cur cur
  end.
Proof.
  unfold findTokenEnd. destruct stack as [|ct st]; [reflexivity|].
  set (rest0 := skipn cur buf). cbv zeta. rewrite ftend_isa.
  destruct (negb (o_nl o) && negb (o_ascii o)) eqn:Hnl.
  - apply andb_true_iff in Hnl. destruct Hnl as [Hnl _]. apply negb_true_iff in Hnl.
    destruct (split_ws (o_isa o) rest0) as (w & r & Hr & Hl & Hs & Hw).
    rewrite <- Hl. rewrite <- Hl in Hs. rewrite <- Hs. rewrite Hr.
    rewrite ftend_ws by assumption. reflexivity.
  - rewrite Nat.add_0_r. reflexivity.
Qed.

Lemma findStart_isa o buf cur :
  findStartOfNextValue o buf cur = findStartOfNextValue (scalar_opts o) buf cur.
Proof. rewrite !findStart_eq. reflexivity. Qed.

Lemma findDelimiter_isa o st buf cur :
  findDelimiter o st buf cur = findDelimiter (scalar_opts o) st buf cur.
Proof. rewrite !findDelimiter_eq. reflexivity. Qed.

Lemma findTokenEnd_isa o st buf cur :
  findTokenEnd o st buf cur = findTokenEnd (scalar_opts o) st buf cur.
Proof. rewrite !findTokenEnd_eq. reflexivity. Qed.

Lemma finish_value_isa o buf off size ty s :
  t_esc s = false -> finish_value o buf off size ty s = finish_value (scalar_opts o) buf off size ty s.
Proof.
  intros He. unfold finish_value. destruct (t_prop s); try reflexivity.
  cbv zeta. cbn [scalar_opts o_isa]. rewrite He.
  rewrite (findStringEnd_isa (o_isa o)), (findNumberEnd_isa (o_isa o)),
    (findAsciiEnd_isa (o_isa o)). reflexivity.
Qed.

Lemma populateFrom_isa o buf ty s :
  t_esc s = false -> populateFromDataRef o buf ty s = populateFromDataRef (scalar_opts o) buf ty s.
Proof.
  intros He. unfold populateFromDataRef. rewrite <- findStart_isa.
  destruct (t_prop s).
  - destruct (findStartOfNextValue o buf (t_cur s)) as [e cur|t ahead cur|]; try reflexivity.
    cbv zeta. destruct (is_bracket t); apply finish_value_isa; exact He.
  - apply finish_value_isa; exact He.
  - apply finish_value_isa; exact He.
Qed.
