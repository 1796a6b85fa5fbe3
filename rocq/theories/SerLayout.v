(** The exact text the serializer writes for a document. *)
From Verif Require Import Base Tactics ScanModel TokModel TokSpec JsonSpec TokLoops TokSafe TokSpecProofs TokGap TokJsonDoc
  SerModel SerSpec SerProofs SerDoc LayoutSpec.
From Coq Require Import Lia.

Definition styled (sty : option N) (o : sopts) : Prop :=
  so_delim o = [comma] /\
  match sty with
  | Some k => so_pretty o = true /\ so_shift o = k /\ so_postfix o = [x0a] /\
              so_prefix o = repeat x20 (N.to_nat (so_depth o * k))
  | None => so_pretty o = false /\ so_shift o <> 2%N /\ so_postfix o = [] /\ so_prefix o = []
  end.

Lemma styled_depth sty d o : (d < 256)%N -> styled sty o -> styled sty (setDepth d o).
Proof.
  intros Hd (H1 & H2). split; [exact H1|]. destruct sty as [k|].
  - destruct H2 as (P & S & Q & _). cbn. rewrite P, S, N.mod_small by lia. auto.
  - destruct H2 as (P & S & Q & _). cbn. rewrite P. auto.
Qed.

Lemma f_text_styled sty isEnd f st o : styled sty o ->
  f_text isEnd f st o = (if (negb st && negb isEnd)%bool then [comma] else []) ++
                        (if f then so_prefix o else new_line sty (so_depth o)).
Proof.
  intros (H1 & H2). unfold f_text, shortcut.
  assert (G : g_text isEnd f st o = (if (negb st && negb isEnd)%bool then [comma] else []) ++
                        (if f then so_prefix o else new_line sty (so_depth o))).
  { unfold g_text, c_text. rewrite H1. change (nonempty [comma]) with true. rewrite andb_true_r. f_equal.
    destruct sty as [k|]; destruct H2 as (_ & _ & Q & R); rewrite Q; destruct f; cbn [app]; auto; rewrite R; reflexivity. }
  destruct ((so_shift o =? 2)%N && negb f)%bool eqn:E; [|exact G].
  apply andb_prop in E. destruct E as [E1 E2]. apply N.eqb_eq in E1. destruct f; [discriminate E2|].
  unfold prepared. destruct ((1 <=? so_depth o)%N && (so_depth o <=? 5)%N)%bool; [|exact G].
  rewrite H1. cbn [length Nat.eqb negb]. rewrite andb_true_r.
  destruct sty as [k|]; [|destruct H2 as (_ & Hs & _); congruence].
  destruct H2 as (_ & Hs & _). rewrite E1 in Hs. subst k. cbn [new_line]. rewrite N.mul_comm. reflexivity.
Qed.

Lemma n_text_styled sty o tk name v t : styled sty o -> tok_view tk = st_make name v t -> name_fine name ->
  n_text o tk = nametext name (after_colon sty).
Proof.
  unfold n_text, tok_view, st_make, nametext. intros (_ & Ho) Hv Hn. destruct name as [k|].
  - injection Hv as -> -> _ _. cbn in Hn. destruct k as [|c k]; [congruence|].
    cbn -[app]. unfold v_text, quote, colon. cbn [app nonempty length Nat.eqb negb]. rewrite <- !app_assoc.
    destruct sty; destruct Ho as (-> & _); reflexivity.
  - injection Hv as -> -> _ _. reflexivity.
Qed.

Lemma token_styled sty tk name v t f st o : tok_view tk = st_make name v t -> name_fine name ->
  is_end t = false -> styled sty o ->
  refused tk (f, st, o) = false /\
  token_text tk (f, st, o) = start_comma st ++ (if f then so_prefix o else new_line sty (so_depth o)) ++
                             nametext name (after_colon sty) ++ v_text o t v.
Proof.
  intros Hv Hn He Ho.
  assert (Ht : tk_value_type tk = t /\ dr_bytes (tk_value tk) = v).
  { destruct name; injection Hv; auto. }
  destruct Ht as [Ht Hb]. unfold refused, token_text, entry. rewrite Ht, Hb, He. split; [reflexivity|].
  rewrite (f_text_styled sty false f st o Ho), (n_text_styled sty o tk name v t Ho Hv Hn).
  rewrite <- app_assoc. unfold start_comma. destruct st; reflexivity.
Qed.

Lemma end_styled sty tk v t st o : tok_view tk = st_make None v t -> is_end t = true -> styled sty o ->
  (0 < so_depth o < 256)%N ->
  refused tk (false, st, o) = false /\
  token_text tk (false, st, o) = new_line sty (so_depth o - 1) ++ v.
Proof.
  intros Hv He Ho Hd. injection Hv as Hn _ Hb Ht. unfold refused, token_text, entry. rewrite Ht, He, Hb. cbn [andb].
  split; [apply N.eqb_neq; lia|].
  rewrite (f_text_styled sty true false st _ (styled_depth sty (so_depth o - 1) o ltac:(lia) Ho)).
  rewrite andb_false_r. unfold n_text. rewrite Hn. cbn [nonempty length Nat.eqb negb app].
  cbn [setDepth so_depth]. rewrite N.mod_small by lia. f_equal.
  destruct t; try discriminate He; reflexivity.
Qed.

(** The tokens [ts] with settings [c] at first have the text [d] and leave the depth unchanged. *)
Definition laid (sty : option N) (ts : list token) (c : cfg) (d : bytes) : Prop :=
  texts ts c = d /\ results ts c = repeat true (length ts) /\
  exists o', afters ts c = (false, false, o') /\ styled sty o' /\ so_depth o' = so_depth (snd c).

Definition lays_value (sty : option N) (j : json) : Prop :=
  names_nonempty j ->
  forall ts name f st o, map tok_view ts = doc_tokens name j -> name_fine name -> styled sty o ->
  (so_depth o + N.of_nat (nesting j) <= 255)%N ->
  laid sty ts (f, st, o) (start_comma st ++ (if f then so_prefix o else new_line sty (so_depth o)) ++
                          nametext name (after_colon sty) ++ layout sty (so_depth o) j).

Lemma laid_app sty ts1 ts2 c d1 d2 :
  laid sty ts1 c d1 ->
  (forall o, styled sty o -> so_depth o = so_depth (snd c) -> laid sty ts2 (false, false, o) d2) ->
  laid sty (ts1 ++ ts2) c (d1 ++ d2).
Proof.
  intros (A1 & A2 & o1 & A3 & A4 & A5) H. destruct (H o1 A4 A5) as (B1 & B2 & o2 & B3 & B4 & B5).
  cbn [snd] in B5. split; [|split].
  - rewrite texts_app, A3, A1, B1. reflexivity.
  - rewrite results_app, A3, A2, B2, app_length, repeat_app. reflexivity.
  - exists o2. rewrite afters_app, A3. split; [exact B3|]. split; [exact B4|]. congruence.
Qed.

(** The items of a container: [name] gives the name of an item, [text] its text. *)
Lemma items_laid {A} (sty : option N) (nm : A -> option bytes) (vl : A -> json) (items : list A) :
  Forall (fun a => lays_value sty (vl a)) items -> Forall (fun a => name_fine (nm a) /\ names_nonempty (vl a)) items ->
  items <> [] ->
  forall ts st o, map tok_view ts = flat_map (fun a => doc_tokens (nm a) (vl a)) items -> styled sty o ->
  (so_depth o + N.of_nat (list_max (map (fun a => nesting (vl a)) items)) <= 255)%N ->
  laid sty ts (false, st, o)
    (start_comma st ++ commas (map (fun a => new_line sty (so_depth o) ++
                                      nametext (nm a) (after_colon sty) ++ layout sty (so_depth o) (vl a)) items)).
Proof.
  induction 1 as [|a items Ha Hi IH]; intros Hn Hne ts st o Hts Ho Hd; [congruence|].
  inversion Hn as [|? ? [Hn1 Hn2] Hn3]; subst.
  cbn [flat_map] in Hts. apply map_eq_app in Hts. destruct Hts as (ts1 & ts2 & -> & E1 & E2).
  cbn [map list_max fold_right] in Hd. fold (list_max (map (fun a => nesting (vl a)) items)) in Hd.
  assert (L := Ha Hn2 ts1 (nm a) false st o E1 Hn1 Ho ltac:(lia)). cbn [map].
  destruct items as [|b items].
  - cbn in E2. apply map_eq_nil in E2. subst ts2. rewrite app_nil_r. exact L.
  - cbn [map commas].
    match goal with |- laid _ _ _ (start_comma st ++ ?x ++ comma :: ?y) =>
      replace (start_comma st ++ x ++ comma :: y) with ((start_comma st ++ x) ++ (start_comma false ++ y))
        by (rewrite <- !app_assoc; reflexivity) end.
    apply laid_app; [exact L|]. intros o1 Ho1 Hd1. cbn [snd] in Hd1. rewrite <- Hd1.
    apply (IH Hn3 ltac:(discriminate) ts2 false o1 E2 Ho1). rewrite Hd1. clear - Hd. lia.
Qed.

Lemma container_laid sty open opent close closet name tk mid tk2 f st o :
  is_start opent = true -> is_end opent = false -> is_end closet = true -> is_start closet = false ->
  v_text o opent [open] = [open] ->
  tok_view tk = st_make name [open] opent -> tok_view tk2 = st_make None [close] closet ->
  name_fine name -> styled sty o -> (so_depth o + 1 <= 255)%N ->
  forall d,
  (mid = [] /\ d = [] \/ laid sty mid (false, true, setDepth (so_depth o + 1) o) d) ->
  laid sty (tk :: mid ++ [tk2]) (f, st, o)
    (start_comma st ++ (if f then so_prefix o else new_line sty (so_depth o)) ++
     nametext name (after_colon sty) ++ open :: d ++ new_line sty (so_depth o) ++ [close]).
Proof.
  intros S1 E1 E2 S2 Hop Hv1 Hv2 Hn Ho Hd d Hmid.
  assert (T1 : tk_value_type tk = opent) by (destruct name; injection Hv1; auto).
  assert (T2 : tk_value_type tk2 = closet) by (injection Hv2; auto).
  destruct (token_styled sty tk name [open] opent f st o Hv1 Hn E1 Ho) as (R1 & X1).
  rewrite Hop in X1.
  set (o1 := setDepth (so_depth o + 1) o) in *.
  assert (A1 : after tk (f, st, o) = (false, true, o1)).
  { unfold after, leave, entry. rewrite T1, S1, E1. reflexivity. }
  assert (D1 : so_depth o1 = (so_depth o + 1)%N) by (cbn; apply N.mod_small; lia).
  assert (G1 : styled sty o1) by (apply styled_depth; [lia|exact Ho]).
  assert (M : exists st2 o2, texts mid (false, true, o1) = d /\
      results mid (false, true, o1) = repeat true (length mid) /\
      afters mid (false, true, o1) = (false, st2, o2) /\ styled sty o2 /\ so_depth o2 = so_depth o1).
  { destruct Hmid as [[-> ->]|(B1 & B2 & o2 & B3 & B4 & B5)].
    - exists true, o1. auto 6.
    - exists false, o2. auto 6. }
  destruct M as (st2 & o2 & B1 & B2 & B3 & B4 & B5).
  destruct (end_styled sty tk2 [close] closet st2 o2 Hv2 E2 B4 ltac:(lia)) as (R2 & X2).
  assert (A2 : after tk2 (false, st2, o2) = (false, false, setDepth (so_depth o2 - 1) o2)).
  { unfold after, leave, entry. rewrite T2, S2, E2. reflexivity. }
  assert (D2 : (so_depth o2 - 1 = so_depth o)%N) by lia. rewrite D2 in *.
  split; [|split].
  - cbn [texts]. rewrite R1, A1, X1, texts_app, B1, B3. cbn [texts]. rewrite R2, X2, app_nil_r.
    rewrite <- !app_assoc. reflexivity.
  - cbn [results length repeat]. rewrite R1, A1, results_app, B2, B3. cbn [results]. rewrite R2.
    rewrite app_length, repeat_app. reflexivity.
  - cbn [afters]. rewrite R1, A1, afters_app, B3. cbn [afters]. rewrite R2, A2.
    exists (setDepth (so_depth o) o2). split; [reflexivity|]. split; [apply styled_depth; [lia|exact B4]|].
    cbn. apply N.mod_small. lia.
Qed.

Lemma all_laid sty j : lays_value sty j.
Proof.
  induction j as [s|els IH|ms IH] using json_rect_nested; intros Hnn ts name f st o Hts Hn Ho Hd.
  - cbn [doc_tokens] in Hts. apply map_eq_cons in Hts. destruct Hts as (tk & tl & -> & Hv & Hnil).
    apply map_eq_nil in Hnil. subst tl.
    assert (E : is_end (scalar_type s) = false /\ is_start (scalar_type s) = false) by (destruct s; auto).
    destruct E as [E1 E2].
    destruct (token_styled sty tk name _ _ f st o Hv Hn E1 Ho) as (R1 & X1).
    assert (V : v_text o (scalar_type s) (scalar_value s) = scalar_text s) by (destruct s; reflexivity).
    rewrite V in X1. assert (T1 : tk_value_type tk = scalar_type s) by (destruct name; injection Hv; auto).
    split; [|split].
    + cbn [texts]. rewrite R1, X1, app_nil_r. reflexivity.
    + cbn [results length repeat]. rewrite R1. reflexivity.
    + cbn [afters]. rewrite R1. exists o. unfold after, leave, entry. rewrite T1, E1, E2. auto.
  - cbn [doc_tokens] in Hts. apply map_eq_cons in Hts. destruct Hts as (tk & tl & -> & Hv & Hts).
    apply last_split in Hts. destruct Hts as (mid & tk2 & -> & Hmid & Hv2).
    inversion Hnn as [|? Hnn'|]; subst. cbn [nesting] in Hd. cbn [layout].
    apply (container_laid sty lbrack TArrayStart rbrack TArrayEnd name tk mid tk2 f st o
        eq_refl eq_refl eq_refl eq_refl eq_refl Hv Hv2 Hn Ho ltac:(lia)).
    destruct els as [|e els]; [left; cbn in Hmid; apply map_eq_nil in Hmid; auto|right].
    assert (D1 : so_depth (setDepth (so_depth o + 1) o) = (so_depth o + 1)%N) by (cbn; apply N.mod_small; lia).
    assert (Ho1 : styled sty (setDepth (so_depth o + 1) o)) by (apply styled_depth; [lia|exact Ho]).
    remember (setDepth (so_depth o + 1) o) as o1 eqn:Eo1. clear Eo1. rewrite <- D1.
    apply (items_laid sty (fun _ => None) (fun e => e) (e :: els)) with (st := true).
    + exact IH.
    + eapply Forall_impl; [|exact Hnn']. intros; split; [exact I|assumption].
    + discriminate.
    + exact Hmid.
    + exact Ho1.
    + rewrite D1. change (fun a => nesting a) with nesting. clear - Hd. lia.
  - cbn [doc_tokens] in Hts. apply map_eq_cons in Hts. destruct Hts as (tk & tl & -> & Hv & Hts).
    apply last_split in Hts. destruct Hts as (mid & tk2 & -> & Hmid & Hv2).
    inversion Hnn as [| |? Hnn']; subst. cbn [nesting] in Hd. cbn [layout].
    apply (container_laid sty lbrace TObjectStart rbrace TObjectEnd name tk mid tk2 f st o
        eq_refl eq_refl eq_refl eq_refl eq_refl Hv Hv2 Hn Ho ltac:(lia)).
    destruct ms as [|e ms]; [left; cbn in Hmid; apply map_eq_nil in Hmid; auto|right].
    assert (D1 : so_depth (setDepth (so_depth o + 1) o) = (so_depth o + 1)%N) by (cbn; apply N.mod_small; lia).
    assert (Ho1 : styled sty (setDepth (so_depth o + 1) o)) by (apply styled_depth; [lia|exact Ho]).
    remember (setDepth (so_depth o + 1) o) as o1 eqn:Eo1. clear Eo1. rewrite <- D1.
    assert (L := items_laid sty (fun kv : bytes * json => Some (fst kv)) (fun kv => snd kv) (e :: ms) IH).
    replace (commas (map (fun kv : bytes * json => new_line sty (so_depth o1) ++
               quote :: fst kv ++ quote :: colon :: after_colon sty ++
               layout sty (so_depth o1) (snd kv)) (e :: ms)))
      with (start_comma true ++ commas (map (fun a : bytes * json => new_line sty (so_depth o1) ++
               nametext (Some (fst a)) (after_colon sty) ++ layout sty (so_depth o1) (snd a)) (e :: ms))).
    2:{ cbn [start_comma app]. f_equal. apply map_ext. intros a. cbn [nametext]. f_equal. cbn [app]. f_equal.
        rewrite <- app_assoc. reflexivity. }
    apply L.
    + eapply Forall_impl; [|exact Hnn']. intros kv [H1 H2]. split; assumption.
    + discriminate.
    + exact Hmid.
    + exact Ho1.
    + rewrite D1. lia.
Qed.

(** The options the constructor makes, and setShiftSize. *)
Lemma styled_pretty k : (k < 256)%N -> styled (Some k) (setShiftSize k (so_make true)).
Proof. intros H. split; [reflexivity|]. cbn. rewrite N.mod_small by exact H. auto. Qed.
Lemma styled_pretty_default : styled (Some 2%N) (so_make true).
Proof. split; [reflexivity|]. cbn. auto. Qed.
Lemma styled_compact : styled None (so_make false).
Proof. split; [reflexivity|]. cbn. split; [reflexivity|]. split; [discriminate|auto]. Qed.

Lemma doc_laid sty so j ts n sup : styled sty so -> so_depth so = 0%N -> so_prefix so = [] ->
  names_nonempty j -> map tok_view ts = doc_tokens None j -> (nesting j <= 255)%nat -> (forall k, 0 < sup k) ->
  exists s, ser_writes ts (ser_make so n sup) = Ok (repeat true (length ts), s) /\
    ser_output s = layout sty 0 j.
Proof.
  intros Hst Hd0 Hp Hnn Hts Hd Hsup.
  destruct (all_laid sty j Hnn ts None true true so Hts I Hst ltac:(lia)) as (B1 & B2 & _).
  destruct (ser_writes_generous ts (ser_make so n sup)) as (s & R1 & R2 & R3 & R4 & R5).
  { split; cbn; [lia|constructor]. }
  { exact Hsup. }
  change (cfg_of (ser_make so n sup)) with (true, true, so) in *. rewrite B2 in R1.
  exists s. split; [exact R1|]. rewrite R5, B1, Hp, Hd0. reflexivity.
Qed.

Lemma reformat_laid sty i so n0 j t : styled sty so -> so_depth so = 0%N -> so_prefix so = [] ->
  doc_text plain j t -> names_nonempty j -> (nesting j <= 255)%nat ->
  reformat i so n0 t = Ok (NoError, layout sty 0 j).
Proof.
  intros Hst Hd0 Hp Ht Hnn Hd.
  destruct (reformat_tokens i so n0 t _ _ (doc_reads_as (mkOpts i false false false false) plain j t
    (crosses_plain (mkOpts i false false false false) eq_refl) Ht)) as (ts & Hv & ->).
  destruct (all_laid sty j Hnn ts None true true so Hv I Hst ltac:(lia)) as (B1 & _).
  rewrite B1, Hp, Hd0. reflexivity.
Qed.
