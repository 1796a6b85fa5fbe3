(** Writing the tokens of a document gives a text of that document. *)
From Verif Require Import Base Tactics ScanModel TokModel TokSpec JsonSpec TokLoops TokSafe TokSpecProofs TokGap TokJsonDoc SerModel SerSpec SerProofs.
From Coq Require Import Lia.

Lemma json_rect_nested (P : json -> Prop) :
  (forall s, P (JScalar s)) -> (forall els, Forall P els -> P (JArr els)) ->
  (forall ms, Forall (fun kv => P (snd kv)) ms -> P (JObj ms)) -> forall j, P j.
Proof.
  intros H1 H2 H3. fix F 1. intros [s|els|ms]; [apply H1| |].
  - apply H2. induction els as [|e els IH]; constructor; [apply F|exact IH].
  - apply H3. induction ms as [|[k v] ms IH]; constructor; [apply F|exact IH].
Qed.

Ltac napp := repeat (first [rewrite <- app_assoc | progress (cbn [app])]).

(** Settings under which everything but the tokens' own text is whitespace or a comma. *)
Definition good (o : sopts) : Prop := ws (so_prefix o) /\ ws (so_postfix o) /\ nonempty (so_delim o) = true.

Lemma ws_spaces n : ws (repeat x20 n).
Proof. induction n; constructor; [left; reflexivity|assumption]. Qed.
Lemma ws_nl l : ws l -> ws (x0a :: l).
Proof. constructor; [right; right; left; reflexivity|assumption]. Qed.

Lemma good_depth d o : good o -> good (setDepth d o).
Proof. intros (H1 & H2 & H3). split; [|split; assumption]. cbn. destruct (so_pretty o); [apply ws_spaces|constructor]. Qed.

Lemma options_good o : options_made o -> good o.
Proof.
  induction 1 as [p|n o _ IH|b o _ IH|d o _ IH|p o _ IH|o _ IH].
  - destruct p; (split; [constructor|]; split; [|reflexivity]); [apply ws_nl|]; constructor.
  - exact IH.
  - exact IH.
  - apply good_depth, IH.
  - apply good_depth. destruct IH as (H1 & H2 & H3). split; [exact H1|]. split; [|exact H3].
    cbn. destruct p; [apply ws_nl|]; constructor.
  - destruct IH as (H1 & H2 & H3). repeat split; assumption.
Qed.

Lemma ws_app a b : ws a -> ws b -> ws (a ++ b).
Proof. intros Ha Hb. apply Forall_app. auto. Qed.

Lemma f_text_shape isEnd f st o : good o ->
  exists w, ws w /\ f_text isEnd f st o = (if (negb st && negb isEnd)%bool then [comma] else []) ++ w.
Proof.
  intros (H1 & H2 & H3). unfold f_text, shortcut.
  assert (G : exists w, ws w /\ g_text isEnd f st o = (if (negb st && negb isEnd)%bool then [comma] else []) ++ w).
  { unfold g_text, c_text. rewrite H3, andb_true_r. exists ((if f then [] else so_postfix o) ++ so_prefix o).
    split; [|destruct (_ && _)%bool; reflexivity]. apply ws_app; [destruct f; [constructor|exact H2]|exact H1]. }
  destruct (_ && negb f)%bool; [|exact G]. unfold prepared.
  destruct ((1 <=? so_depth o)%N && (so_depth o <=? 5)%N)%bool; [|exact G]. eexists. split; [apply ws_nl, ws_spaces|].
  unfold nonempty in H3. rewrite H3, andb_true_r. reflexivity.
Qed.

Definition nametext (name : option bytes) (w : bytes) : bytes :=
  match name with Some k => quote :: k ++ quote :: colon :: w | None => [] end.
Definition name_fine (name : option bytes) : Prop := match name with Some k => k <> [] | None => True end.

Lemma n_text_shape o tk name v t : tok_view tk = st_make name v t -> name_fine name ->
  exists w, ws w /\ n_text o tk = nametext name w.
Proof.
  unfold n_text, tok_view, st_make, nametext. intros Hv Hn. destruct name as [k|].
  - injection Hv as -> -> _ _. cbn in Hn. destruct k as [|c k]; [congruence|].
    exists (if so_pretty o then [x20] else []).
    split; [destruct (so_pretty o); repeat constructor|].
    cbn -[app]. unfold v_text, quote, colon.
    cbn [app nonempty length Nat.eqb negb]. rewrite <- !app_assoc. destruct (so_pretty o); reflexivity.
  - injection Hv as -> -> _ _. exists []. split; [constructor|reflexivity].
Qed.

Definition start_comma (st : bool) : bytes := if st then [] else [comma].

(** One token that is not an end bracket. *)
Lemma token_shape tk name v t f st o : tok_view tk = st_make name v t -> name_fine name ->
  is_end t = false -> good o ->
  refused tk (f, st, o) = false /\
  exists w w3, ws w /\ ws w3 /\
    token_text tk (f, st, o) = start_comma st ++ w ++ nametext name w3 ++ v_text o t v.
Proof.
  intros Hv Hn He Ho.
  assert (Ht : tk_value_type tk = t /\ dr_bytes (tk_value tk) = v).
  { destruct name; injection Hv; auto. }
  destruct Ht as [Ht Hb]. unfold refused, token_text, entry. rewrite Ht, Hb, He. split; [reflexivity|].
  destruct (f_text_shape false f st o Ho) as (w & Hw & ->).
  destruct (n_text_shape o tk name v t Hv Hn) as (w3 & Hw3 & ->).
  exists w, w3. split; [exact Hw|]. split; [exact Hw3|]. rewrite <- app_assoc. unfold start_comma.
  destruct st; reflexivity.
Qed.

(** An end bracket. *)
Lemma end_shape tk v t f st o : tok_view tk = st_make None v t -> is_end t = true -> good o ->
  (0 < so_depth o)%N ->
  refused tk (f, st, o) = false /\
  exists w, ws w /\ token_text tk (f, st, o) = w ++ v.
Proof.
  intros Hv He Ho Hd. injection Hv as Hn _ Hb Ht. unfold refused, token_text, entry. rewrite Ht, He, Hb. cbn [andb].
  split; [apply N.eqb_neq; lia|].
  destruct (f_text_shape true f st (setDepth (so_depth o - 1) o) (good_depth _ _ Ho)) as (w & Hw & ->).
  exists w. split; [exact Hw|]. rewrite andb_false_r. unfold n_text. rewrite Hn. cbn [nonempty length Nat.eqb negb app].
  destruct t; try discriminate He; reflexivity.
Qed.

(** What has been achieved after the tokens [ts] with settings [c] at first. *)
Definition written (ts : list token) (c : cfg) (d : bytes) : Prop :=
  texts ts c = d /\ results ts c = repeat true (length ts) /\
  exists o', afters ts c = (false, false, o') /\ good o' /\ so_depth o' = so_depth (snd c).

Definition writes_value (j : json) : Prop :=
  json_ok j -> names_nonempty j ->
  forall ts name f st o, map tok_view ts = doc_tokens name j -> name_fine name -> good o ->
  (so_depth o + N.of_nat (nesting j) <= 255)%N ->
  exists w w3 t, ws w /\ ws w3 /\ value_text plain j t /\
    written ts (f, st, o) (start_comma st ++ w ++ nametext name w3 ++ t).

Lemma written_app ts1 ts2 c d1 d2 f o1 :
  written ts1 c d1 -> afters ts1 c = (f, false, o1) -> written ts2 (f, false, o1) d2 ->
  written (ts1 ++ ts2) c (d1 ++ d2).
Proof.
  intros (A1 & A2 & o1' & A3 & A4 & A5) E (B1 & B2 & o2 & B3 & B4 & B5).
  rewrite A3 in E. injection E as <- <-. cbn [snd] in B5. split; [|split].
  - rewrite texts_app, A3, A1, B1. reflexivity.
  - rewrite results_app, A3, A2, B2, app_length, repeat_app. reflexivity.
  - exists o2. rewrite afters_app, A3. repeat split; [exact B3|apply B4|apply B4|apply B4|congruence].
Qed.

(** The elements of an array. *)
Lemma elems_written els : Forall writes_value els ->
  Forall json_ok els -> Forall names_nonempty els -> els <> [] ->
  forall ts f st o, map tok_view ts = flat_map (doc_tokens None) els -> good o ->
  (so_depth o + N.of_nat (list_max (map nesting els)) <= 255)%N ->
  exists d, (forall w, ws w -> elems_text plain els (d ++ w)) /\ written ts (f, st, o) (start_comma st ++ d).
Proof.
  induction 1 as [|j els Hj Hels IH]; intros Hok Hnn Hne ts f st o Hts Ho Hd; [congruence|].
  inversion Hok as [|? ? Hok1 Hok2]; subst. inversion Hnn as [|? ? Hnn1 Hnn2]; subst.
  cbn [flat_map] in Hts. apply map_eq_app in Hts. destruct Hts as (ts1 & ts2 & -> & E1 & E2).
  cbn [map list_max fold_right] in Hd. fold (list_max (map nesting els)) in Hd.
  destruct (Hj Hok1 Hnn1 ts1 None f st o E1 I Ho ltac:(lia)) as (w & w3 & t & Hw & _ & Ht & Hwr).
  cbn [nametext app] in Hwr.
  destruct els as [|j2 els].
  - exists (w ++ t). split.
    + intros w2 Hw2. rewrite <- app_assoc. apply ET_one; assumption.
    + cbn in E2. apply map_eq_nil in E2. subst ts2. rewrite app_nil_r. exact Hwr.
  - assert (Hwr' := Hwr). destruct Hwr' as (_ & _ & o1 & A1 & A2 & A3). cbn [snd] in A3.
    destruct (IH Hok2 Hnn2 ltac:(discriminate) ts2 false false o1 E2 A2 ltac:(lia)) as (d & Hd1 & Hd2).
    exists (w ++ t ++ comma :: d). split.
    + intros w2 Hw2. napp.
      apply (ET_cons plain j t w [] (j2 :: els)); auto; try constructor.
    + generalize (written_app _ _ _ _ _ _ _ Hwr A1 Hd2). unfold start_comma at 2.
      napp. auto.
Qed.

Lemma members_written ms : Forall (fun kv => writes_value (snd kv)) ms ->
  Forall (fun kv => str_body (fst kv) /\ json_ok (snd kv)) ms ->
  Forall (fun kv => fst kv <> [] /\ names_nonempty (snd kv)) ms -> ms <> [] ->
  forall ts f st o, map tok_view ts = flat_map (fun kv => doc_tokens (Some (fst kv)) (snd kv)) ms -> good o ->
  (so_depth o + N.of_nat (list_max (map (fun kv => nesting (snd kv)) ms)) <= 255)%N ->
  exists d, (forall w, ws w -> members_text plain ms (d ++ w)) /\ written ts (f, st, o) (start_comma st ++ d).
Proof.
  induction 1 as [|[k j] ms Hj Hms IH]; intros Hok Hnn Hne ts f st o Hts Ho Hd; [congruence|].
  inversion Hok as [|? ? [Hk Hok1] Hok2]; subst. inversion Hnn as [|? ? [Hkn Hnn1] Hnn2]; subst.
  cbn [fst snd] in *.
  cbn [flat_map fst snd] in Hts. apply map_eq_app in Hts. destruct Hts as (ts1 & ts2 & -> & E1 & E2).
  cbn [map list_max fold_right snd] in Hd. fold (list_max (map (fun kv => nesting (snd kv)) ms)) in Hd.
  destruct (Hj Hok1 Hnn1 ts1 (Some k) f st o E1 Hkn Ho ltac:(lia)) as (w & w3 & t & Hw & Hw3 & Ht & Hwr).
  cbn [nametext] in Hwr.
  destruct ms as [|kv2 ms].
  - exists (w ++ quote :: k ++ quote :: colon :: w3 ++ t). split.
    + intros w2 Hw2. napp.
      apply (MT_one plain k j t w [] w3 w2); auto; constructor.
    + cbn in E2. apply map_eq_nil in E2. subst ts2. rewrite app_nil_r.
      cbn [app] in Hwr. rewrite <- app_assoc in Hwr. exact Hwr.
  - assert (Hwr' := Hwr). destruct Hwr' as (_ & _ & o1 & A1 & A2 & A3). cbn [snd] in A3.
    destruct (IH Hok2 Hnn2 ltac:(discriminate) ts2 false false o1 E2 A2 ltac:(lia)) as (d & Hd1 & Hd2).
    exists (w ++ quote :: k ++ quote :: colon :: w3 ++ t ++ comma :: d). split.
    + intros w2 Hw2. napp.
      apply (MT_cons plain k j t w [] w3 [] (kv2 :: ms)); auto; constructor.
    + generalize (written_app _ _ _ _ _ _ _ Hwr A1 Hd2). unfold start_comma at 2.
      napp. auto.
Qed.

Lemma last_split (ts : list token) l v : map tok_view ts = l ++ [v] ->
  exists ts' tk, ts = ts' ++ [tk] /\ map tok_view ts' = l /\ tok_view tk = v.
Proof.
  intros H. apply map_eq_app in H. destruct H as (a & b & -> & H1 & H2).
  apply map_eq_cons in H2. destruct H2 as (tk & tl & -> & H3 & H4). apply map_eq_nil in H4. subst tl. eauto.
Qed.

(** Brackets around a body. *)
Lemma container_written open opent close closet name tk mid tk2 f st o :
  is_start opent = true -> is_end opent = false -> is_end closet = true -> is_start closet = false ->
  v_text o opent [open] = [open] ->
  tok_view tk = st_make name [open] opent -> tok_view tk2 = st_make None [close] closet ->
  name_fine name -> good o -> (so_depth o + 1 <= 255)%N ->
  forall d,
  (mid = [] /\ d = [] \/ written mid (false, true, setDepth (so_depth o + 1) o) d) ->
  exists w w2 w3, ws w /\ ws w2 /\ ws w3 /\
    written (tk :: mid ++ [tk2]) (f, st, o) (start_comma st ++ w ++ nametext name w3 ++ open :: d ++ w2 ++ [close]).
Proof.
  intros S1 E1 E2 S2 Hop Hv1 Hv2 Hn Ho Hd d Hmid.
  assert (T1 : tk_value_type tk = opent) by (destruct name; injection Hv1; auto).
  assert (T2 : tk_value_type tk2 = closet) by (injection Hv2; auto).
  destruct (token_shape tk name [open] opent f st o Hv1 Hn E1 Ho) as (R1 & w & w3 & Hw & Hw3 & X1).
  rewrite Hop in X1.
  set (o1 := setDepth (so_depth o + 1) o).
  assert (A1 : after tk (f, st, o) = (false, true, o1)).
  { unfold after, leave, entry. rewrite T1, S1, E1. reflexivity. }
  assert (D1 : so_depth o1 = (so_depth o + 1)%N) by (cbn; apply N.mod_small; lia).
  assert (G1 : good o1) by (apply good_depth, Ho).
  assert (M : exists f2 st2 o2, texts mid (false, true, o1) = d /\
      results mid (false, true, o1) = repeat true (length mid) /\
      afters mid (false, true, o1) = (f2, st2, o2) /\ good o2 /\ so_depth o2 = so_depth o1).
  { destruct Hmid as [[-> ->]|(B1 & B2 & o2 & B3 & B4 & B5)].
    - exists false, true, o1. auto 6.
    - exists false, false, o2. auto 6. }
  destruct M as (f2 & st2 & o2 & B1 & B2 & B3 & B4 & B5).
  destruct (end_shape tk2 [close] closet f2 st2 o2 Hv2 E2 B4 ltac:(lia)) as (R2 & w2 & Hw2 & X2).
  assert (A2 : after tk2 (f2, st2, o2) = (false, false, setDepth (so_depth o2 - 1) o2)).
  { unfold after, leave, entry. rewrite T2, S2, E2. reflexivity. }
  exists w, w2, w3. split; [exact Hw|]. split; [exact Hw2|]. split; [exact Hw3|].
  split; [|split].
  - cbn [texts]. rewrite R1, A1, X1, texts_app, B1, B3. cbn [texts]. rewrite R2, X2, app_nil_r.
    rewrite <- !app_assoc. reflexivity.
  - cbn [results length repeat]. rewrite R1, A1, results_app, B2, B3. cbn [results]. rewrite R2.
    rewrite app_length, repeat_app. reflexivity.
  - cbn [afters]. rewrite R1, A1, afters_app, B3. cbn [afters]. rewrite R2, A2.
    exists (setDepth (so_depth o2 - 1) o2). split; [reflexivity|]. split; [apply good_depth, B4|].
    cbn. rewrite N.mod_small by lia. lia.
Qed.

Lemma all_written j : writes_value j.
Proof.
  induction j as [s|els IH|ms IH] using json_rect_nested; intros Hok Hnn ts name f st o Hts Hn Ho Hd.
  - cbn [doc_tokens] in Hts. apply map_eq_cons in Hts. destruct Hts as (tk & tl & -> & Hv & Hnil).
    apply map_eq_nil in Hnil. subst tl.
    assert (E : is_end (scalar_type s) = false /\ is_start (scalar_type s) = false) by (destruct s; auto).
    destruct E as [E1 E2].
    destruct (token_shape tk name _ _ f st o Hv Hn E1 Ho) as (R1 & w & w3 & Hw & Hw3 & X1).
    exists w, w3, (scalar_text s). split; [exact Hw|]. split; [exact Hw3|].
    split; [constructor; inversion Hok; assumption|].
    assert (V : v_text o (scalar_type s) (scalar_value s) = scalar_text s) by (destruct s; reflexivity).
    rewrite V in X1. assert (T1 : tk_value_type tk = scalar_type s) by (destruct name; injection Hv; auto).
    split; [|split].
    + cbn [texts]. rewrite R1, X1, app_nil_r. reflexivity.
    + cbn [results length repeat]. rewrite R1. reflexivity.
    + cbn [afters]. rewrite R1. exists o. unfold after, leave, entry. rewrite T1, E1, E2. auto.
  - cbn [doc_tokens] in Hts. apply map_eq_cons in Hts. destruct Hts as (tk & tl & -> & Hv & Hts).
    apply last_split in Hts. destruct Hts as (mid & tk2 & -> & Hmid & Hv2).
    inversion Hok as [|? Hok'|]; subst. inversion Hnn as [|? Hnn'|]; subst.
    cbn [nesting] in Hd.
    destruct els as [|e els].
    + cbn in Hmid. apply map_eq_nil in Hmid. subst mid.
      destruct (container_written lbrack TArrayStart rbrack TArrayEnd name tk [] tk2 f st o
        eq_refl eq_refl eq_refl eq_refl eq_refl Hv Hv2 Hn Ho ltac:(lia) [] ltac:(auto))
        as (w & w2 & w3 & Hw & Hw2 & Hw3 & Hwr).
      exists w, w3, (lbrack :: w2 ++ [rbrack]). split; [exact Hw|]. split; [exact Hw3|].
      split; [constructor; exact Hw2|exact Hwr].
    + set (o1 := setDepth (so_depth o + 1) o).
      assert (D1 : so_depth o1 = (so_depth o + 1)%N) by (cbn; apply N.mod_small; lia).
      destruct (elems_written (e :: els) IH Hok' Hnn' ltac:(discriminate) mid false true o1 Hmid
        (good_depth _ _ Ho) ltac:(lia)) as (d & Hd1 & Hd2). cbn [start_comma app] in Hd2.
      destruct (container_written lbrack TArrayStart rbrack TArrayEnd name tk mid tk2 f st o
        eq_refl eq_refl eq_refl eq_refl eq_refl Hv Hv2 Hn Ho ltac:(lia) d (or_intror Hd2))
        as (w & w2 & w3 & Hw & Hw2 & Hw3 & Hwr).
      exists w, w3, (lbrack :: (d ++ w2) ++ [rbrack]). split; [exact Hw|]. split; [exact Hw3|].
      split; [apply VT_arr, Hd1, Hw2|]. rewrite <- (app_assoc d). exact Hwr.
  - cbn [doc_tokens] in Hts. apply map_eq_cons in Hts. destruct Hts as (tk & tl & -> & Hv & Hts).
    apply last_split in Hts. destruct Hts as (mid & tk2 & -> & Hmid & Hv2).
    inversion Hok as [| |? Hok']; subst. inversion Hnn as [| |? Hnn']; subst.
    cbn [nesting] in Hd.
    destruct ms as [|e ms].
    + cbn in Hmid. apply map_eq_nil in Hmid. subst mid.
      destruct (container_written lbrace TObjectStart rbrace TObjectEnd name tk [] tk2 f st o
        eq_refl eq_refl eq_refl eq_refl eq_refl Hv Hv2 Hn Ho ltac:(lia) [] ltac:(auto))
        as (w & w2 & w3 & Hw & Hw2 & Hw3 & Hwr).
      exists w, w3, (lbrace :: w2 ++ [rbrace]). split; [exact Hw|]. split; [exact Hw3|].
      split; [constructor; exact Hw2|exact Hwr].
    + set (o1 := setDepth (so_depth o + 1) o).
      assert (D1 : so_depth o1 = (so_depth o + 1)%N) by (cbn; apply N.mod_small; lia).
      destruct (members_written (e :: ms) IH Hok' Hnn' ltac:(discriminate) mid false true o1 Hmid
        (good_depth _ _ Ho) ltac:(lia)) as (d & Hd1 & Hd2). cbn [start_comma app] in Hd2.
      destruct (container_written lbrace TObjectStart rbrace TObjectEnd name tk mid tk2 f st o
        eq_refl eq_refl eq_refl eq_refl eq_refl Hv Hv2 Hn Ho ltac:(lia) d (or_intror Hd2))
        as (w & w2 & w3 & Hw & Hw2 & Hw3 & Hwr).
      exists w, w3, (lbrace :: (d ++ w2) ++ [rbrace]). split; [exact Hw|]. split; [exact Hw3|].
      split; [apply VT_obj, Hd1, Hw2|]. rewrite <- (app_assoc d). exact Hwr.
Qed.

(** Writing a document with a new serializer. *)
Lemma doc_written j ts so n sup : json_ok j -> names_nonempty j -> is_container j ->
  map tok_view ts = doc_tokens None j -> options_made so ->
  (so_depth so + N.of_nat (nesting j) <= 255)%N -> (forall k, 0 < sup k) ->
  exists s, ser_writes ts (ser_make so n sup) = Ok (repeat true (length ts), s) /\
    inb s /\ doc_text plain j (ser_output s).
Proof.
  intros Hok Hnn Hc Hts Hso Hd Hsup.
  destruct (all_written j Hok Hnn ts None true true so Hts I (options_good so Hso) Hd)
    as (w & w3 & t & Hw & _ & Ht & B1 & B2 & _).
  destruct (ser_writes_generous ts (ser_make so n sup)) as (s & R1 & R2 & R3 & R4 & R5).
  { split; cbn; [lia|constructor]. }
  { exact Hsup. }
  change (cfg_of (ser_make so n sup)) with (true, true, so) in *. rewrite B2 in R1.
  exists s. split; [exact R1|]. split; [exact R2|]. rewrite R5, B1. cbn [start_comma nametext app].
  split; [exact Hc|]. exists w, t, []. rewrite app_nil_r. repeat split; auto. constructor.
Qed.

(** ** reformat *)

Scheme value_ind3 := Induction for value_text Sort Prop
  with elems_ind3 := Induction for elems_text Sort Prop
  with members_ind3 := Induction for members_text Sort Prop.

Lemma value_text_ok L j t : value_text L j t -> json_ok j.
Proof.
  intros H. induction H using value_ind3 with
    (P0 := fun els _ _ => Forall json_ok els)
    (P1 := fun ms _ _ => Forall (fun kv => str_body (fst kv) /\ json_ok (snd kv)) ms);
    try (constructor; auto; fail).
  all: repeat (constructor; auto).
Qed.

Lemma doc_text_ok L j t : doc_text L j t -> json_ok j /\ is_container j.
Proof. intros (Hc & w1 & t' & w2 & _ & _ & H & _). split; [eapply value_text_ok; exact H|exact Hc]. Qed.

Lemma reformat_loop_drain f o : forall nt s ts e s' se bs se',
  drain f o nt s = Ok (ts, e, s') -> ser_writes ts se = Ok (bs, se') ->
  reformat_loop f o nt s se = Ok (e, se').
Proof.
  induction f as [|f IH]; intros nt s ts e s' se bs se' Hd Hw; [discriminate Hd|].
  cbn [drain reformat_loop] in *. destruct (nextToken o nt s) as [[[s1 e1] nt1]| |]; cbn [obind] in *; try discriminate Hd.
  destruct e1; try (injection Hd as <- <- <-; injection Hw as <- <-; reflexivity).
  destruct (drain f o nt1 s1) as [[[ts1 e2] s2]| |] eqn:Ed; cbn [obind] in Hd; try discriminate Hd.
  injection Hd as <- <- <-. cbn [ser_writes] in Hw.
  destruct (ser_write nt1 se) as [[b se1]| |]; cbn [obind] in *; try discriminate Hw.
  destruct (ser_writes ts1 se1) as [[bs1 se2]| |] eqn:Ew; cbn [obind] in Hw; try discriminate Hw.
  injection Hw as _ <-. eapply IH; eassumption.
Qed.

(** The output depends only on what a user sees of the tokens. *)
Lemma view_texts : forall ts ts' c, map tok_view ts = map tok_view ts' -> texts ts c = texts ts' c.
Proof.
  induction ts as [|tk ts IH]; intros [|tk' ts'] c H; try discriminate H; [reflexivity|].
  injection H as H1 H2 H3 H4 H. cbn [texts]. destruct c as [[f st] o].
  assert (refused tk (f, st, o) = refused tk' (f, st, o)) as -> by (unfold refused; rewrite H4; reflexivity).
  assert (token_text tk (f, st, o) = token_text tk' (f, st, o)) as ->
    by (unfold token_text, entry, n_text; rewrite H1, H2, H3, H4; reflexivity).
  assert (after tk (f, st, o) = after tk' (f, st, o)) as -> by (unfold after, leave, entry; rewrite H4; reflexivity).
  rewrite !(IH _ _ H). reflexivity.
Qed.

(** What reformat does with an input that has tokens [ts]. *)
Lemma reformat_tokens i so n0 t vs e :
  reads_as (mkOpts i false false false false) [t] [] vs e ->
  exists ts, map tok_view ts = vs /\
    reformat i so n0 t = Ok (match e with NeedMoreData => NoError | _ => e end, texts ts (true, true, so)).
Proof.
  intros H. destruct (H tok_default) as (f & ts & s & Hd & Hv).
  set (o := mkOpts i false false false false) in *.
  assert (Hr : reachable o (addData t t_init)) by (apply R_add; [apply R_init|reflexivity]).
  destruct (drain_terminates o _ tok_default Hr) as (ts2 & e2 & s2 & Hd2 & _).
  assert (Hb : total_bytes (addData t t_init) + parsed_count (addData t t_init) = length t).
  { unfold total_bytes, parsed_count. cbn. rewrite app_nil_r. lia. }
  rewrite Hb in Hd2. change (tok_with [t] []) with (addData t t_init) in Hd.
  assert (E : Ok (ts2, e2, s2) = Ok (ts, e, s)).
  { rewrite <- (Hd2 (f + (length t + 3))) by lia. apply (drain_fuel _ _ (f + (length t + 3))) in Hd; [exact Hd|lia]. }
  injection E as -> -> ->. specialize (Hd2 (length t + 3) ltac:(lia)).
  unfold reformat. cbv zeta. set (n := if Nat.eqb n0 0 then 4096 else n0). fold o.
  assert (Hn : 0 < n).
  { unfold n. destruct (Nat.eqb_spec n0 0); [|lia]. apply Nat.ltb_lt. vm_compute. reflexivity. }
  destruct (ser_writes_generous ts (ser_make so n (reformat_supply n))) as (se & R1 & _ & _ & _ & R5).
  { split; cbn; [lia|constructor]. }
  { intros k. cbn. unfold reformat_supply. assert (2 ^ k <> 0) by (apply Nat.pow_nonzero; discriminate). nia. }
  rewrite (reformat_loop_drain _ _ _ _ _ _ _ _ _ _ Hd2 R1). cbn [obind].
  exists ts. split; [exact Hv|]. rewrite R5. reflexivity.
Qed.

Lemma reformat_doc i so n0 j t : doc_text plain j t -> names_nonempty j -> options_made so ->
  (so_depth so + N.of_nat (nesting j) <= 255)%N ->
  exists out, reformat i so n0 t = Ok (NoError, out) /\ doc_text plain j out.
Proof.
  intros Ht Hnn Hso Hd. destruct (doc_text_ok _ _ _ Ht) as [Hok Hc].
  destruct (reformat_tokens i so n0 t _ _ (doc_reads_as (mkOpts i false false false false) plain j t (crosses_plain (mkOpts i false false false false) eq_refl) Ht)) as (ts & Hv & E).
  exists (texts ts (true, true, so)). split; [exact E|].
  destruct (all_written j Hok Hnn ts None true true so Hv I (options_good so Hso) Hd)
    as (w & w3 & t' & Hw & _ & Ht' & B1 & _).
  rewrite B1. cbn [start_comma nametext app]. split; [exact Hc|]. exists w, t', []. rewrite app_nil_r.
  repeat split; auto. constructor.
Qed.

Lemma reformat_same i1 i2 so n1 n2 j t1 t2 : doc_text plain j t1 -> doc_text plain j t2 ->
  reformat i1 so n1 t1 = reformat i2 so n2 t2.
Proof.
  intros H1 H2.
  destruct (reformat_tokens i1 so n1 t1 _ _ (doc_reads_as (mkOpts i1 false false false false) plain j t1 (crosses_plain (mkOpts i1 false false false false) eq_refl) H1)) as (ts & Hv & ->).
  destruct (reformat_tokens i2 so n2 t2 _ _ (doc_reads_as (mkOpts i2 false false false false) plain j t2 (crosses_plain (mkOpts i2 false false false false) eq_refl) H2)) as (ts2 & Hv2 & ->).
  f_equal. f_equal. apply view_texts. congruence.
Qed.
