(** Function calls: which function is called, with which argument, and what is written. *)
From Verif Require Import Base Tactics ScanModel TokModel JsonSpec TokSpec TokScope TokGap TokJsonDoc PropJson EscapeModel IntModel MapSpec MapProofs MapProofs2 DiffProofs SerModel SerSpec SerProofs SerDoc
  HandlerModel HandlerSpec HandlerTree HandlerLaws HandlerText HandlerTerm HandlerSim WriteModel RoundSpec RoundProofs CallModel CallSpec.
From Coq Require Import Lia ZArith.

(** ** Brackets of a document *)
Definition types (l : list stoken) : list type := map st_value_type l.

Lemma balanced_app l1 l2 : balanced l1 -> balanced l2 -> balanced (l1 ++ l2).
Proof.
  intros H1 H2. induction H1 as [|t l A B C D _ IH|a b Ha _ _ IHb|a b Ha _ _ IHb]; cbn [app].
  - exact H2.
  - apply Bal_other; assumption.
  - rewrite <- app_assoc. cbn [app]. apply Bal_object; assumption.
  - rewrite <- app_assoc. cbn [app]. apply Bal_array; assumption.
Qed.

Lemma st_type name v t : st_value_type (st_make name v t) = t.
Proof. destruct name; reflexivity. Qed.

Lemma types_flat {A} (f : A -> list stoken) l : Forall (fun a => balanced (types (f a))) l -> balanced (types (flat_map f l)).
Proof. induction 1 as [|a l H _ IH]; cbn [flat_map]; [constructor|]. unfold types. rewrite map_app. apply balanced_app; assumption. Qed.

Lemma doc_balanced j : forall name, balanced (types (doc_tokens name j)).
Proof.
  induction j as [s|els IH|ms IH] using json_rect_nested; intros name; cbn [doc_tokens types map]; rewrite ?map_app; cbn [map]; rewrite ?st_type.
  - destruct s; constructor; try discriminate; constructor.
  - apply (Bal_array (types (flat_map (doc_tokens None) els)) []); [|constructor]. apply types_flat.
    apply Forall_forall. rewrite Forall_forall in IH. intros x Hx. apply IH, Hx.
  - apply (Bal_object (types (flat_map (fun kv => doc_tokens (Some (fst kv)) (snd kv)) ms)) []); [|constructor]. apply types_flat.
    apply Forall_forall. rewrite Forall_forall in IH. intros x Hx. apply IH, Hx.
Qed.

Lemma list_max_cons a l : list_max (a :: l) = Nat.max a (list_max l).
Proof. reflexivity. Qed.

Definition shallow (ty : type) (l : list type) (n : nat) : Prop :=
  forall d rest, (deepest ty d (l ++ rest) <= N.max (d + N.of_nat n) (deepest ty d rest))%N.

Lemma shallow_flat {A} ty (f : A -> list stoken) (h : A -> nat) l : Forall (fun a => shallow ty (types (f a)) (h a)) l ->
  shallow ty (types (flat_map f l)) (list_max (map h l)).
Proof.
  induction 1 as [|a l H _ IH]; intros d rest; cbn [flat_map types map]; [cbn [app]; lia|].
  unfold types. rewrite map_app, <- app_assoc. cbn [map]. rewrite list_max_cons.
  specialize (H d (map st_value_type (flat_map f l) ++ rest)). specialize (IH d rest). unfold types in *. lia.
Qed.

Lemma shallow_bracket ty op cl l n : scope_type ty -> (op, cl) = (TArrayStart, TArrayEnd) \/ (op, cl) = (TObjectStart, TObjectEnd) ->
  shallow ty l n -> shallow ty (op :: l ++ [cl]) (S n).
Proof.
  intros Hty Hb H d rest. cbn [app deepest]. rewrite <- app_assoc. cbn [app].
  set (d1 := (if type_eqb op ty then d + 1 else if type_eqb op (closer ty) then d - 1 else d)%N).
  specialize (H d1 (cl :: rest)). cbn [deepest] in H.
  assert (Hd1 : (d <= d1 <= d + 1)%N) by (subst d1; destruct Hty as [-> | ->], Hb as [Hb|Hb]; injection Hb as -> ->; cbn; lia).
  assert (Hd2 : (if type_eqb cl ty then d1 + 1 else if type_eqb cl (closer ty) then d1 - 1 else d1)%N = d).
  { subst d1. destruct Hty as [-> | ->], Hb as [Hb|Hb]; injection Hb as -> ->; cbn; lia. }
  rewrite Hd2 in H. lia.
Qed.

Lemma doc_shallow ty j : scope_type ty -> forall name, shallow ty (types (doc_tokens name j)) (nesting j).
Proof.
  intros Hty. induction j as [s|els IH|ms IH] using json_rect_nested; intros name; cbn [doc_tokens nesting types map]; rewrite ?map_app; cbn [map]; rewrite ?st_type.
  - intros d rest. cbn [app deepest]. destruct Hty as [-> | ->], s; cbn [scalar_type]; cbn; lia.
  - apply shallow_bracket; [exact Hty|left; reflexivity|]. change (shallow ty (types (flat_map (doc_tokens None) els)) (list_max (map nesting els))).
    apply shallow_flat. apply Forall_forall. rewrite Forall_forall in IH. intros x Hx. apply IH, Hx.
  - apply shallow_bracket; [exact Hty|right; reflexivity|].
    change (shallow ty (types (flat_map (fun kv => doc_tokens (Some (fst kv)) (snd kv)) ms)) (list_max (map (fun kv => nesting (snd kv)) ms))).
    apply (shallow_flat ty (fun kv : bytes * json => doc_tokens (Some (fst kv)) (snd kv)) (fun kv => nesting (snd kv))).
    apply Forall_forall. rewrite Forall_forall in IH. intros x Hx. apply IH, Hx.
Qed.

Lemma ntok_named j name : ntok j = length (doc_tokens (Some name) j).
Proof. unfold ntok. destruct j; cbn [doc_tokens length]; rewrite ?app_length; reflexivity. Qed.

(** ** Reading a value in a scope *)
Section Tok.
Context (o : opts).
Notation feeds := (feeds (nextToken o)).
Notation stands := (stands (nextToken o)).

Lemma feeds_reads nt s l s' nt' : feeds nt s l s' nt' -> exists ts, map tok_view ts = l /\ reads o nt s ts nt' s'.
Proof.
  induction 1 as [nt s|nt s s1 nt1 v r s' nt' E Ev _ (ts & H1 & H2)]; [exists []; split; [reflexivity|constructor]|].
  exists (nt1 :: ts). cbn [map]. split; [congruence|]. econstructor; eassumption.
Qed.
Lemma reads_feeds nt s ts s' nt' : reads o nt s ts nt' s' -> feeds nt s (map tok_view ts) s' nt'.
Proof. induction 1; cbn [map]; [constructor|]. econstructor; [eassumption|reflexivity|assumption]. Qed.

Lemma feeds_no_scope nt s l s' nt' : feeds nt s l s' nt' -> t_scope s = [] -> t_scope s' = [].
Proof. induction 1 as [|nt s s1 nt1 v r s' nt' E _ _ IH]; auto. intros H. apply IH. exact (next_no_scope _ _ _ _ _ _ H E). Qed.

Lemma set_scope_id s : set_scope (t_scope s) s = s.
Proof. destruct s. reflexivity. Qed.
Lemma set_scope_nil s : t_scope s = [] -> set_scope [] s = s.
Proof. intros <-. apply set_scope_id. Qed.

Definition scoped (c : ctx tstate) : ctx tstate := with_src (pushScope (c_type c) (c_src c)) (c_tok c) c.

Lemma reads_in_scope s ty nt ts close nt1 s1 : scope_type ty -> balanced (map tk_value_type ts) -> tk_value_type close = closer ty ->
  (deepest ty 1 (map tk_value_type ts) < 65536)%N -> t_scope s = [] -> reads o nt s (ts ++ [close]) nt1 s1 ->
  reads o nt (pushScope ty s) (ts ++ [close]) nt1 (set_scope [(ty, 0%N)] s1).
Proof.
  intros Hty Hbal Hcl Hdeep Hs Hr.
  assert (Hpush : pushScope ty s = set_scope [(ty, 1%N)] s).
  { unfold pushScope. rewrite Hs. destruct Hty as [->| ->]; reflexivity. }
  assert (Hmap : map tk_value_type (ts ++ [close]) = map tk_value_type ts ++ [closer ty]).
  { rewrite map_app. cbn. rewrite Hcl. reflexivity. }
  destruct (balanced_count ty _ Hty Hbal 1%N ltac:(lia)) as [Hc1 Hc2].
  destruct (reads_scoped o ty [] Hty (ts ++ [close]) nt s 1 nt1 s1) as [R1 R2]; auto.
  { rewrite Hmap, deepest_snoc by auto. exact Hdeep. }
  { lia. }
  { intros p q E Hq. rewrite Hmap in E. destruct (exists_last Hq) as (q' & x & ->).
    rewrite app_assoc in E. apply app_inj_tail in E. destruct E as [E _]. generalize (Hc2 p q' E). lia. }
  rewrite Hmap, count_app, Hc1 in R1.
  assert (Hz : count_all ty [closer ty] 1 = 0%N) by (unfold count_all, count_step; cbn; destruct Hty as [->| ->]; reflexivity).
  rewrite Hz in R1. rewrite Hpush. exact R1.
Qed.

(** After pushScope the same tokens are delivered, then the scope has ended; popScope gives back the
    state of the tokenizer that has read the value. *)
Lemma scoped_stands c name j s1 nt1 : t_scope (c_src c) = [] -> stands c (doc_tokens name j) s1 nt1 -> (N.of_nat (nesting j) < 65536)%N ->
  exists ty, stands (scoped c) (doc_tokens name j) (set_scope [(ty, 0%N)] s1) nt1 /\ t_scope s1 = [].
Proof.
  intros Hs (He & r & E & F) Hn.
  assert (Hs1 := feeds_no_scope _ _ _ _ _ F Hs).
  assert (Hview : tok_view (c_tok (scoped c)) = tok_view (c_tok c)) by reflexivity.
  assert (Main : forall ty mid closet name' v v', scope_type ty -> closet = closer ty ->
      doc_tokens name j = st_make name' v ty :: mid ++ [st_make None v' closet] -> balanced (types mid) -> (deepest ty 1 (types mid) < 65536)%N ->
      exists ty, stands (scoped c) (doc_tokens name j) (set_scope [(ty, 0%N)] s1) nt1 /\ t_scope s1 = []).
  { intros ty mid closet name' v v' Hty Hcl Ed Hb Hdeep. rewrite Ed in E. injection E as E1 E2. subst r.
    assert (Ht : c_type c = ty) by (unfold c_type; apply (f_equal st_value_type) in E1; rewrite st_type in E1; cbn in E1; congruence).
    destruct (feeds_reads _ _ _ _ _ F) as (ts & V & R).
    apply last_split in V. destruct V as (ts' & tk & -> & V1 & V2).
    assert (Tm : map tk_value_type ts' = types mid).
    { rewrite <- V1. unfold types. rewrite map_map. reflexivity. }
    exists ty. split; [|exact Hs1]. split; [exact He|]. exists (mid ++ [st_make None v' closet]). rewrite Hview, Ed. split; [congruence|].
    replace (mid ++ [st_make None v' closet]) with (map tok_view (ts' ++ [tk])) by (rewrite map_app, V1; cbn [map]; rewrite V2; reflexivity).
    apply reads_feeds. unfold scoped, with_src. cbn [c_src c_tok]. rewrite Ht. apply reads_in_scope; try assumption.
    - rewrite Tm. exact Hb.
    - apply (f_equal st_value_type) in V2. subst closet; cbn in V2 |- *; congruence.
    - rewrite Tm. exact Hdeep. }
  destruct j as [s|els|ms].
  - exists (scalar_type s). split; [|exact Hs1]. cbn [doc_tokens] in E |- *. injection E as E1 E2. subst r. inversion F; subst.
    split; [exact He|]. exists []. rewrite Hview. split; [congruence|].
    assert (Ht : c_type c = scalar_type s) by (unfold c_type; apply (f_equal st_value_type) in E1; rewrite st_type in E1; cbn in E1; congruence).
    replace (set_scope [(scalar_type s, 0%N)] (c_src c)) with (c_src (scoped c)); [constructor|].
    unfold scoped, with_src, pushScope. cbn [c_src]. rewrite Ht, Hs. destruct s; reflexivity.
  - apply (Main TArrayStart (flat_map (doc_tokens None) els) TArrayEnd name [lbrack] [rbrack]); try reflexivity; [left; reflexivity| |].
    + apply types_flat. apply Forall_forall. intros x _. apply doc_balanced.
    + assert (H := shallow_flat TArrayStart (doc_tokens None) nesting els).
      assert (G : Forall (fun a => shallow TArrayStart (types (doc_tokens None a)) (nesting a)) els).
      { apply Forall_forall. intros x _. apply doc_shallow. left. reflexivity. }
      specialize (H G 1%N []). rewrite app_nil_r in H. cbn [deepest] in H. cbn [nesting] in Hn. lia.
  - apply (Main TObjectStart (flat_map (fun kv => doc_tokens (Some (fst kv)) (snd kv)) ms) TObjectEnd name [lbrace] [rbrace]); try reflexivity; [right; reflexivity| |].
    + apply types_flat. apply Forall_forall. intros x _. apply doc_balanced.
    + assert (H := shallow_flat TObjectStart (fun kv : bytes * json => doc_tokens (Some (fst kv)) (snd kv)) (fun kv => nesting (snd kv)) ms).
      assert (G : Forall (fun a : bytes * json => shallow TObjectStart (types (doc_tokens (Some (fst a)) (snd a))) (nesting (snd a))) ms).
      { apply Forall_forall. intros x _. apply doc_shallow. right. reflexivity. }
      specialize (H G 1%N []). rewrite app_nil_r in H. cbn [deepest] in H. cbn [nesting] in Hn. lia.
Qed.

(** goToEndOfScope reads the rest of the value. *)
Lemma feeds_goTo nt s l s' nt' ty : feeds nt s l s' nt' -> t_scope s' = [(ty, 0%N)] -> forall f, length l <= f ->
  goToEndOfScope f o nt s = Ok (s', NoError, nt').
Proof.
  intros F Hs'. assert (G : forall f, length l <= f -> t_scope s <> [] /\ goToEndOfScope f o nt s = Ok (s', NoError, nt')).
  2:{ intros f Hf. apply G. exact Hf. }
  revert Hs'. induction F as [nt s|nt s s1 nt1 v r s' nt' E Ev F IH]; intros Hs' f Hf.
  - split; [rewrite Hs'; discriminate|]. destruct f; cbn [goToEndOfScope]; rewrite Hs'; reflexivity.
  - cbn [length] in Hf. destruct f as [|f]; [lia|]. destruct (IH Hs' f ltac:(lia)) as [Hne G].
    assert (Hs : t_scope s <> []) by (intros Hs; apply Hne; exact (next_no_scope _ _ _ _ _ _ Hs E)).
    split; [exact Hs|]. cbn [goToEndOfScope]. destruct (t_scope s) as [|[t d] sc] eqn:Es; [congruence|].
    destruct (d =? 0)%N eqn:Ed.
    + exfalso. unfold nextToken in E. rewrite Es, Ed in E. discriminate E.
    + rewrite E. cbn [obind]. exact G.
Qed.

(** ** The argument is read like from a list of tokens *)
Definition on_path (s2 : tstate) (nt2 : token) (nt1 : token) (s1 : tstate) (_ : token) (l : list token) : Prop :=
  feeds nt1 s1 (map tok_view l) s2 nt2.

Lemma on_path_next ty s2 nt2 : t_scope s2 = [(ty, 0%N)] -> forall nt1 s1 nta l, tok_view nt1 = tok_view nta -> on_path s2 nt2 nt1 s1 nta l ->
  orel (fun x y => snd (fst x) = snd (fst y) /\ tok_view (snd x) = tok_view (snd y) /\ on_path s2 nt2 (snd x) (fst (fst x)) (snd y) (fst (fst y)))
    (nextToken o nt1 s1) (scope_next nta l).
Proof.
  intros Hs2 nt1 s1 nta l Hv H. unfold on_path in H. destruct l as [|t l]; cbn [map scope_next] in *.
  - inversion H; subst. unfold nextToken. rewrite Hs2. cbn. repeat split; auto.
  - inversion H as [|? ? sa nta' ? ? ? ? H1 H2 H3]; subst. rewrite H1. cbn. repeat split; auto.
Qed.

Lemma argument_read g t name j e v r : reads_argument g t name j e v r ->
  exists n, forall fuel c s2 nt2 sc, n <= fuel -> c_cfg c = g -> rep c = ([], []) -> t_scope s2 = [(sc, 0%N)] ->
  stands c (doc_tokens (Some name) j) s2 nt2 ->
  exists c' l, to (nextToken o) fuel t (init t) c = Ok (e, v, c') /\ rep c' = r /\ c_cfg c' = g /\
    feeds (c_tok c') (c_src c') l s2 nt2 /\ length l <= ntok j.
Proof.
  intros (fuel0 & first & others & c0 & A & B & C).
  exists fuel0. intros fuel c s2 nt2 sc Hf Hg Hr Hs2 (He & rest & E & F).
  destruct (to_below scope_next t fuel0 fuel Hf (init t) (mkCtx others first NoError [] [] g)) as [B'|B'].
  { rewrite B' in B. discriminate B. }
  rewrite B in B'. rewrite E in A. cbn [map] in A. injection A as A1 A2.
  assert (Hl : map tok_view others = rest).
  { rewrite <- A2, map_map. rewrite <- (map_id rest) at 2. apply map_ext. intros x. apply token_of_view. }
  assert (M : S (length others) <= ntok j).
  { assert (Z : ntok j = length (doc_tokens (Some name) j)) by apply ntok_named. rewrite Z, E, <- Hl. cbn [length]. rewrite map_length. lia. }
  pose (Q := fun nt1 s1 nta (l : list token) => on_path s2 nt2 nt1 s1 nta l /\ length l <= length others).
  assert (R' : crel Q g c (mkCtx others first NoError [] [] g)).
  { unfold crel. cbn [c_tok c_err c_missing c_unassigned c_cfg c_src]. unfold rep in Hr. injection Hr as Hm Hu.
    repeat split; auto.
    - rewrite <- A1, token_of_view. reflexivity.
    - unfold on_path. rewrite Hl. exact F. }
  assert (HQ : forall nt1 s1 nta l, tok_view nt1 = tok_view nta -> Q nt1 s1 nta l ->
     orel (fun x y => snd (fst x) = snd (fst y) /\ tok_view (snd x) = tok_view (snd y) /\ Q (snd x) (fst (fst x)) (snd y) (fst (fst y)))
       (nextToken o nt1 s1) (scope_next nta l)).
  { intros nt1 s1 nta l V [P L]. assert (K := on_path_next sc s2 nt2 Hs2 nt1 s1 nta l V P).
    assert (L' : forall x, scope_next nta l = Ok x -> length (fst (fst x)) <= length others).
    { intros x Ex. destruct l; cbn in Ex; injection Ex as <-; cbn in *; lia. }
    destruct (nextToken o nt1 s1) as [x| |], (scope_next nta l) as [y| |]; try exact K.
    destruct K as (K1 & K2 & K3). split; [exact K1|]. split; [exact K2|]. split; [exact K3|]. apply (L' y). reflexivity. }
  assert (S := to_sim (nextToken o) scope_next Q g HQ t fuel (init t) _ _ R').
  rewrite B' in S. destruct (to (nextToken o) fuel t (init t) c) as [[[e' v'] c']| |]; try contradiction.
  destruct S as [S1 S2]. cbn in S1, S2. injection S1 as -> ->. destruct S2 as (S3 & S4 & S5 & S6 & (S7 & S7') & S8 & S9).
  exists c', (map tok_view (c_src c0)). split; [reflexivity|]. split; [unfold rep in *; congruence|]. split; [exact S7|].
  split; [exact S8|]. rewrite map_length. lia.
Qed.
End Tok.

(** ** Which function is found *)
Section Search.
Context {K : Type} (o : opts) (fuel : nat) (primary : bool).
Implicit Types (cn : fcont K) (f : func K) (k : K) (st : cstate).
Notation act := (callFunctionAndSerializeReturn o fuel).

Lemma fcont_ind_nested (P : fcont K -> Prop) : (forall fs l, Forall P l -> P (FCont fs l)) -> forall cn, P cn.
Proof. intros H. fix F 1. intros [fs l]. apply H. induction l as [|c l IH]; constructor; [apply F|exact IH]. Qed.

Definition fits_name (name : bytes) f : bool := if primary then called f name else also_called f name.
Lemma has_name_fits name f : has_name primary name (fn_names f) = fits_name name f.
Proof. unfold has_name, fits_name, called, also_called. destruct (fn_names f), primary; reflexivity. Qed.

Lemma find_app {A} (p : A -> bool) l1 l2 : find p (l1 ++ l2) = match find p l1 with Some x => Some x | None => find p l2 end.
Proof. induction l1 as [|a l IH]; cbn; [reflexivity|]. destruct (p a); [reflexivity|exact IH]. Qed.

Lemma traverse_none fs sup k st : find (fits_name (c_name (cs_ctx st))) fs = None ->
  traverse o fuel primary fs sup k st = sup k st.
Proof.
  induction fs as [|f fs IH]; cbn [find traverse]; [reflexivity|]. unfold matchAndCallFunction. rewrite has_name_fits.
  destruct (fits_name _ f); [discriminate|]. intros H. cbn [obind]. exact (IH H).
Qed.
Lemma traverse_some fs sup k st f e k' st' : find (fits_name (c_name (cs_ctx st))) fs = Some f ->
  act f k st = Ok (e, k', st') -> e <> MissingFunction -> (e <> NoError -> c_err (cs_ctx st') = e) ->
  traverse o fuel primary fs sup k st = Ok (e, k', st').
Proof.
  intros Hf Ha He Hc. induction fs as [|f0 fs IH]; cbn [find traverse] in *; [discriminate|].
  unfold matchAndCallFunction. rewrite has_name_fits. destruct (fits_name _ f0).
  - injection Hf as ->. rewrite Ha. cbn [obind]. destruct e; try congruence; destruct fs; rewrite ?Hc by discriminate; reflexivity.
  - cbn [obind]. exact (IH Hf).
Qed.

Lemma search_none cn k st : find (fits_name (c_name (cs_ctx st))) (functions cn) = None ->
  call_in o fuel primary cn k st = Ok (MissingFunction, k, st).
Proof.
  induction cn as [fs l IH] using fcont_ind_nested. cbn [functions call_in]. rewrite find_app.
  destruct (find _ (rev fs)) eqn:E1; [discriminate|]. intros E2. rewrite traverse_none by exact E1.
  rewrite <- map_rev in E2 |- *. apply Forall_rev in IH. induction IH as [|c r Hc _ IHr]; cbn [map try_supers]; [reflexivity|].
  cbn [map concat] in E2. rewrite find_app in E2. destruct (find _ (functions c)) eqn:E3; [discriminate|].
  rewrite Hc by reflexivity. cbn [obind]. exact (IHr E2).
Qed.
Lemma search_some cn k st f e k' st' : find (fits_name (c_name (cs_ctx st))) (functions cn) = Some f ->
  act f k st = Ok (e, k', st') -> e <> MissingFunction -> (e <> NoError -> c_err (cs_ctx st') = e) ->
  call_in o fuel primary cn k st = Ok (e, k', st').
Proof.
  intros Hf Ha He Hc. revert Hf. induction cn as [fs l IH] using fcont_ind_nested. cbn [functions call_in]. rewrite find_app.
  destruct (find _ (rev fs)) as [f0|] eqn:E1; intros E2.
  - injection E2 as ->. exact (traverse_some _ _ _ _ _ _ _ _ E1 Ha He Hc).
  - rewrite traverse_none by exact E1. rewrite <- map_rev in E2 |- *. apply Forall_rev in IH.
    induction IH as [|c r IHc _ IHr]; cbn [map concat] in E2; [discriminate|]. cbn [map try_supers].
    rewrite find_app in E2. destruct (find _ (functions c)) as [f1|] eqn:E3.
    + injection E2 as ->. rewrite IHc by reflexivity. cbn [obind]. destruct e; congruence || reflexivity.
    + rewrite search_none by exact E3. cbn [obind]. exact (IHr E2).
Qed.
End Search.

Section Both.
Context {K : Type} (o : opts) (fuel : nat).
Definition call_both (cn : fcont K) (k : K) (st : cstate) : outcome (error * K * cstate) :=
  let* (e, k, st) := call_in o fuel true cn k st in
  match e with MissingFunction => call_in o fuel false cn k st | _ => Ok (e, k, st) end.

Lemma both_none cn k st : function_named cn (c_name (cs_ctx st)) = None -> call_both cn k st = Ok (MissingFunction, k, st).
Proof.
  unfold function_named, call_both. destruct (find _ (functions cn)) eqn:E; [discriminate|]. intros E2.
  rewrite (search_none o fuel true) by exact E. cbn [obind]. exact (search_none o fuel false cn k st E2).
Qed.
Lemma both_some cn k st f e k' st' : function_named cn (c_name (cs_ctx st)) = Some f ->
  callFunctionAndSerializeReturn o fuel f k st = Ok (e, k', st') -> e <> MissingFunction -> (e <> NoError -> c_err (cs_ctx st') = e) ->
  call_both cn k st = Ok (e, k', st').
Proof.
  unfold function_named, call_both. intros Hf Ha He Hc. destruct (find _ (functions cn)) as [f0|] eqn:E.
  - injection Hf as ->. rewrite (search_some o fuel true cn k st f e k' st' E Ha He Hc). cbn [obind]. destruct e; congruence || reflexivity.
  - rewrite (search_none o fuel true) by exact E. cbn [obind]. exact (search_some o fuel false cn k st f e k' st' Hf Ha He Hc).
Qed.
End Both.

(** ** One member *)
Lemma upd_last_snoc {A} (f : A -> A) l x : upd_last f (l ++ [x]) = l ++ [f x].
Proof.
  induction l as [|a l IH]; [reflexivity|]. cbn [app upd_last]. rewrite IH. destruct (l ++ [x]) eqn:E; [|reflexivity].
  apply app_eq_nil in E. destruct E. discriminate.
Qed.
Lemma last_snoc {A} (l : list A) x d : last (l ++ [x]) d = x.
Proof. apply last_last. Qed.

Definition written_by (i : isa) (res : option (HandlerModel.ty * val)) : list token :=
  match res with Some (t, v) => fst (from i t v wname_default) | None => [] end.

Section Member.
Context {K : Type} (o : opts).
Notation feeds := (feeds (nextToken o)).
Notation stands := (stands (nextToken o)).

Lemma member_call g (cn : fcont K) k name j e k' r res : one_call g cn k name j e k' r res ->
  exists n, forall fuel st s2 nt2 sc xs, n <= fuel -> c_cfg (cs_ctx st) = g -> rep (cs_ctx st) = ([], []) -> t_scope s2 = [(sc, 0%N)] ->
  stands (cs_ctx st) (doc_tokens (Some name) j) s2 nt2 -> inb (cs_out st) -> generous (cs_out st) ->
  cs_exec st = xs ++ [mkEx name NoError [] []] ->
  exists st' l x bs, call_both o fuel cn k st = Ok (e, k', st') /\ rep (cs_ctx st') = r /\ c_cfg (cs_ctx st') = g /\
    feeds (c_tok (cs_ctx st')) (c_src (cs_ctx st')) l s2 nt2 /\ length l <= ntok j /\
    (e = NoError -> c_err (cs_ctx st') = NoError) /\
    cs_exec st' = xs ++ [mkEx name x [] []] /\ inb (cs_out st') /\ generous (cs_out st') /\
    ser_writes (written_by (o_isa o) res) (cs_out st) = Ok (bs, cs_out st').
Proof.
  intros H.
  assert (Hname : forall st s2 nt2, stands (cs_ctx st) (doc_tokens (Some name) j) s2 nt2 -> c_name (cs_ctx st) = name).
  { intros st s2 nt2 S. exact (stands_name _ _ _ _ _ _ S). }
  assert (Hrest : forall st s2 nt2, stands (cs_ctx st) (doc_tokens (Some name) j) s2 nt2 ->
     exists l, feeds (c_tok (cs_ctx st)) (c_src (cs_ctx st)) l s2 nt2 /\ length l <= ntok j).
  { intros st s2 nt2 (_ & l & E & F). exists l. split; [exact F|]. rewrite (ntok_named j name), E. cbn. lia. }
  destruct H as [Hn|f t e v r Hn Hat Hr He He'|f a r k' e v Hn Ha Hb He].
  - exists 0. intros fuel st s2 nt2 sc xs _ Hg Hrep Hs2 Hst Hi Hge Hx.
    destruct (Hrest _ _ _ Hst) as (l & F & Hl). exists st, l, NoError, [].
    split; [apply both_none; rewrite (Hname _ _ _ Hst); exact Hn|]. destruct Hst as (Herr & _). cbn [written_by ser_writes]. auto 20.
  - destruct (argument_read o g t name j e v r Hr) as (n & A). exists n. intros fuel st s2 nt2 sc xs Hf Hg Hrep Hs2 Hst Hi Hge Hx.
    destruct (A fuel _ s2 nt2 sc Hf Hg Hrep Hs2 Hst) as (c' & l & E & B & C & D & L).
    exists (cs_with (set_err e c') st), l, NoError, []. cbn [cs_with cs_ctx cs_exec cs_out set_err c_tok c_src c_err c_cfg written_by ser_writes].
    split; [|repeat (split; [first [assumption|congruence|tauto]|]); reflexivity].
    apply both_some with (f := f); auto.
    + rewrite (Hname _ _ _ Hst). exact Hn.
    + unfold callFunctionAndSerializeReturn. rewrite Hat, E. cbn [obind]. cbn [c_err set_err].
      assert (Hf' : is_ok e = false) by (destruct e; congruence || reflexivity). rewrite Hf'. reflexivity.
  - assert (Arg : exists n, forall fuel st s2 nt2 sc, n <= fuel -> c_cfg (cs_ctx st) = g -> rep (cs_ctx st) = ([], []) -> t_scope s2 = [(sc, 0%N)] ->
       stands (cs_ctx st) (doc_tokens (Some name) j) s2 nt2 ->
       exists c' l, match fn_arg f with
         | Some t => let* (e, v, c) := to (nextToken o) fuel t (init t) (cs_ctx st) in Ok (Some v, set_err e c)
         | None => let* c := skipArrayOrObject (nextToken o) fuel (cs_ctx st) in Ok (None, c) end = Ok (a, c') /\
         c_err c' = NoError /\ rep c' = r /\ c_cfg c' = g /\ feeds (c_tok c') (c_src c') l s2 nt2 /\ length l <= ntok j).
    { destruct (fn_arg f) as [t|].
      - destruct Ha as (x & -> & Hr). destruct (argument_read o g t name j NoError x r Hr) as (n & A). exists n.
        intros fuel st s2 nt2 sc Hf Hg Hrep Hs2 Hst. destruct (A fuel _ s2 nt2 sc Hf Hg Hrep Hs2 Hst) as (c' & l & E & B & C & D & L).
        exists (set_err NoError c'), l. rewrite E. cbn [obind]. auto 10.
      - destruct Ha as [-> ->]. exists (ntok j). intros fuel st s2 nt2 sc Hf Hg Hrep Hs2 Hst.
        exists (moved (cs_ctx st) s2 nt2), []. rewrite (skip_value_ok _ fuel _ name j s2 nt2 Hst Hf). cbn [obind].
        split; [reflexivity|]. split; [reflexivity|]. split; [exact Hrep|]. split; [exact Hg|]. split; [constructor|cbn; lia]. }
    destruct Arg as (n & Arg). exists n. intros fuel st s2 nt2 sc xs Hf Hg Hrep Hs2 Hst Hi Hge Hx.
    destruct (Arg fuel st s2 nt2 sc Hf Hg Hrep Hs2 Hst) as (c' & l & E & B0 & B & C & D & L).
    destruct (is_ok e) eqn:Ee.
    + assert (e = NoError) by (destruct e; congruence || discriminate). subst e.
      assert (W : exists bs s', ser_writes (written_by (o_isa o) match fn_ret f with Some t => Some (t, v) | None => None end) (cs_out st) = Ok (bs, s') /\ inb s' /\ generous s').
      { destruct (ser_writes_generous (written_by (o_isa o) match fn_ret f with Some t => Some (t, v) | None => None end) (cs_out st) Hi Hge) as (s' & R1 & R2 & R3 & _). eauto. }
      destruct W as (bs & s' & W1 & W2 & W3).
      exists (mkCs c' (cs_exec st) s'), l, NoError, bs. cbn [cs_ctx cs_exec cs_out].
      split; [|auto 20].
      apply both_some with (f := f); [rewrite (Hname _ _ _ Hst); exact Hn| |discriminate|congruence].
      unfold callFunctionAndSerializeReturn. rewrite E. cbn [obind]. rewrite B0. cbn [is_ok]. rewrite Hb. cbn [is_ok].
      unfold back_error. cbn [cs_with cs_exec cs_ctx cs_out]. rewrite Hx, last_snoc. cbn [ex_error is_ok].
      destruct (fn_ret f) as [t|]; cbn [written_by] in W1.
      * rewrite W1. reflexivity.
      * cbn [ser_writes] in W1. injection W1 as _ <-. rewrite <- ?Hx. destruct st; reflexivity.
    + exists (setError e (cs_with c' st)), l, e, []. unfold setError. cbn [cs_with cs_ctx cs_exec cs_out set_err c_tok c_src c_err c_cfg].
      rewrite Hx, upd_last_snoc. cbn [ex_set ex_name ex_missing ex_unassigned].
      assert (Hres : match e, fn_ret f with NoError, Some t => Some (t, v) | _, _ => None end = None) by (destruct e; try reflexivity; discriminate).
      rewrite Hres. cbn [written_by ser_writes].
      split; [|repeat (split; [first [exact B|assumption|reflexivity|congruence|intros ->; discriminate]|]); reflexivity].
      apply both_some with (f := f); [rewrite (Hname _ _ _ Hst); exact Hn| |exact He|reflexivity].
      unfold callFunctionAndSerializeReturn. rewrite E. cbn [obind]. rewrite B0. cbn [is_ok]. rewrite Hb, Ee.
      unfold back_error, setError. cbn [cs_with cs_exec cs_ctx cs_out]. rewrite Hx, upd_last_snoc, last_snoc.
      cbn [ex_set ex_error ex_name ex_missing ex_unassigned]. rewrite Ee. reflexivity.
Qed.
End Member.

(** ** The loop *)
Lemma ser_writes_app a : forall b s bs s1 bs2 s2, ser_writes a s = Ok (bs, s1) -> ser_writes b s1 = Ok (bs2, s2) ->
  ser_writes (a ++ b) s = Ok (bs ++ bs2, s2).
Proof.
  induction a as [|tk a IH]; intros b s bs s1 bs2 s2; cbn [ser_writes app].
  - intros H1 H2. injection H1 as <- <-. exact H2.
  - destruct (ser_write tk s) as [[x sx]| |]; cbn [obind]; try discriminate.
    destruct (ser_writes a sx) as [[y sy]| |] eqn:E; cbn [obind]; try discriminate.
    intros H1 H2. injection H1 as <- <-. rewrite (IH _ _ _ _ _ _ E H2). reflexivity.
Qed.

Lemma one_call_silent {K} g (cn : fcont K) k name j e k' r res : one_call g cn k name j e k' r res -> e <> NoError -> res = None.
Proof. intros H He. destruct H; auto. destruct e; try reflexivity. congruence. Qed.

Section Loop.
Context {K : Type} (o : opts) (g : pcfg) (am sp : bool) (cn : fcont K).
Notation feeds := (feeds (nextToken o)).
Notation stands := (stands (nextToken o)).
Notation members ms := (flat_map (fun kv : bytes * json => doc_tokens (Some (fst kv)) (snd kv)) ms ++ [st_make None [rbrace] TObjectEnd]).
Notation wr rs := (concat (map (fun x => written_by (o_isa o) (Some x)) rs)).

Lemma next_keeps_scope c e c' : ctx_next (nextToken o) c = Ok (e, c') -> t_scope (c_src c) = [] -> t_scope (c_src c') = [].
Proof.
  unfold ctx_next, ctx_read. destruct (nextToken o (c_tok c) (c_src c)) as [[[s e1] tk]| |] eqn:E; cbn [obind]; try discriminate.
  intros H Hs. injection H as <- <-. cbn. exact (next_no_scope _ _ _ _ _ _ Hs E).
Qed.

(** What happens with one member, up to the next token. *)
Lemma member_round k name j e k1 r res : one_call g cn k name j e k1 r res -> (N.of_nat (nesting j) < 65536)%N ->
  exists n, forall fuel st m s1 nt1, n <= fuel -> c_cfg (cs_ctx st) = g -> rep (cs_ctx st) = ([], []) -> t_scope (c_src (cs_ctx st)) = [] ->
  stands (cs_ctx st) (doc_tokens (Some name) j) s1 nt1 -> inb (cs_out st) -> generous (cs_out st) ->
  exists st' bs, c_cfg (cs_ctx st') = g /\ rep (cs_ctx st') = ([], []) /\ t_scope (c_src (cs_ctx st')) = [] /\
    c_src (cs_ctx st') = s1 /\ c_tok (cs_ctx st') = nt1 /\ inb (cs_out st') /\ generous (cs_out st') /\
    cs_exec st' = cs_exec st ++ [mkEx name e (fst r) (snd r)] /\
    ser_writes (written_by (o_isa o) res) (cs_out st) = Ok (bs, cs_out st') /\
    calls_loop o fuel (S m) am sp cn k st =
      (if stops am sp e then Ok (e, k1, st')
       else let* (e, c) := ctx_next (nextToken o) (cs_ctx st') in
            let st := cs_with c st' in
            if is_ok e then calls_loop o fuel m am sp cn k1 st else Ok (e, k1, st)).
Proof.
  intros H Hn. destruct (member_call o g cn k name j e k1 r res H) as (n & A). exists (n + ntok j).
  intros fuel st m s1 nt1 Hf Hg Hrep Hsc Hst Hi Hge.
  destruct (scoped_stands o (cs_ctx st) (Some name) j s1 nt1 Hsc Hst Hn) as (sc & Hst' & Hs1).
  set (st0 := mkCs (scoped (cs_ctx st)) (cs_exec st ++ [mkEx name NoError [] []]) (cs_out st)).
  destruct (A fuel st0 (set_scope [(sc, 0%N)] s1) nt1 sc (cs_exec st)) as (st1 & l & x & bs & B1 & B2 & B3 & B4 & B5 & B6 & B7 & B8 & B9 & B10);
    try assumption; try reflexivity; [lia|].
  assert (Hname : c_name (cs_ctx st) = name) by exact (stands_name _ _ _ _ _ _ Hst).
  assert (Hty : type_eqb (c_type (cs_ctx st)) TObjectEnd = false).
  { assert (E := proj2 (stands_view _ _ _ (Some j) _ _ Hst)). rewrite E. apply first_not_end. }
  assert (Gt := feeds_goTo o _ _ _ _ _ sc B4 eq_refl fuel ltac:(lia)).
  assert (Cerr : c_err (if is_ok e then cs_ctx st1 else set_err e (cs_ctx st1)) = e).
  { destruct (is_ok e) eqn:Ee; [|reflexivity]. assert (e = NoError) by (destruct e; congruence || discriminate). subst e. auto. }
  assert (Rep1 : c_missing (cs_ctx st1) = fst r /\ c_unassigned (cs_ctx st1) = snd r) by (rewrite <- B2; split; reflexivity).
  set (st2 := mkCs (mkCtx s1 nt1 e [] [] g) (cs_exec st ++ [mkEx name e (fst r) (snd r)]) (cs_out st1)).
  exists st2, bs. subst st2. cbn [cs_ctx cs_exec cs_out c_cfg c_src c_tok].
  repeat (split; [first [reflexivity|assumption]|]).
  cbn [calls_loop]. rewrite Hty. fold (scoped (cs_ctx st)). rewrite Hname. fold st0.
  assert (Both : forall (X : error * K * cstate -> outcome (error * K * cstate)),
     (let* (e, k, st) := call_in o fuel true cn k st0 in
      let* y := match e with MissingFunction => call_in o fuel false cn k st | _ => Ok (e, k, st) end in X y) =
     X (e, k1, st1)).
  { intros X. unfold call_both in B1. destruct (call_in o fuel true cn k st0) as [[[e0 k0] st0']| |]; cbn [obind] in B1 |- *; try discriminate.
    rewrite B1. reflexivity. }
  rewrite Both. clear Both. cbv zeta.
  set (st1' := if is_ok e then st1 else cs_with (set_err e (cs_ctx st1)) st1) in *.
  assert (P1 : c_src (cs_ctx st1') = c_src (cs_ctx st1) /\ c_tok (cs_ctx st1') = c_tok (cs_ctx st1) /\ c_err (cs_ctx st1') = e /\
    c_missing (cs_ctx st1') = fst r /\ c_unassigned (cs_ctx st1') = snd r /\ c_cfg (cs_ctx st1') = g /\
    cs_exec st1' = cs_exec st ++ [mkEx name x [] []] /\ cs_out st1' = cs_out st1).
  { subst st1'. destruct Rep1 as [R1 R2]. destruct (is_ok e) eqn:Ee; cbn; repeat split; auto. }
  destruct P1 as (P1 & P2 & P3 & P4 & P5 & P6 & P7 & P8). clearbody st1'.
  assert (Add : add_error st1' =
     mkCs (mkCtx (c_src (cs_ctx st1)) (c_tok (cs_ctx st1)) e [] [] g) (cs_exec st ++ [mkEx name e (fst r) (snd r)]) (cs_out st1)).
  { unfold add_error. rewrite P7, last_snoc, P1, P2, P3, P4, P5, P6, P8. cbn [ex_missing ex_unassigned ex_name].
    destruct (fst r), (snd r); rewrite upd_last_snoc; reflexivity. }
  rewrite Add. cbn [cs_ctx c_tok c_src]. rewrite Gt. cbn [obind popScope set_scope t_scope].
  cbn [obind]. change (popScope (set_scope [(sc, 0%N)] s1)) with (Ok (set_scope [] (set_scope [(sc, 0%N)] s1))). cbn [obind].
  replace (set_scope [] (set_scope [(sc, 0%N)] s1)) with s1 by (destruct s1; cbn in *; subst; reflexivity).
  unfold cs_with, with_src. cbn [cs_ctx cs_exec cs_out c_err c_missing c_unassigned c_cfg].
  assert (St : stops am sp e = sp && negb (is_ok match e with MissingFunction => if am then NoError else e | _ => e end)).
  { unfold stops. destruct e, am, sp; reflexivity. }
  rewrite <- St. destruct (stops am sp e) eqn:Es; [|reflexivity].
  destruct e, am, sp; cbn in Es; try discriminate; reflexivity.
Qed.

Lemma calls_loop_ok k ms e k' xs rs : calls g am sp cn k ms e k' xs rs -> Forall (fun kv => (N.of_nat (nesting (snd kv)) < 65536)%N) ms ->
  exists n, forall fuel st m s' nt', n <= fuel -> length ms < m -> c_cfg (cs_ctx st) = g -> rep (cs_ctx st) = ([], []) -> t_scope (c_src (cs_ctx st)) = [] ->
  stands (cs_ctx st) (members ms) s' nt' -> inb (cs_out st) -> generous (cs_out st) ->
  exists st' bs, calls_loop o fuel m am sp cn k st = Ok (e, k', st') /\ cs_exec st' = cs_exec st ++ xs /\
    inb (cs_out st') /\ generous (cs_out st') /\ ser_writes (wr rs) (cs_out st) = Ok (bs, cs_out st').
Proof.
  induction 1 as [k|k name j ms e k1 r res e2 k2 xs rs H1 H2 H3 IH|k name j ms e k1 r res H1 H2]; intros Hn.
  - exists 0. intros fuel st m s' nt' _ Hm _ _ _ Hst Hi Hge. destruct m as [|m]; [lia|].
    destruct (on_members _ _ _ _ _ Hst) as [Ht _]. cbn [calls_loop]. rewrite Ht.
    exists st, []. split; [reflexivity|]. rewrite app_nil_r. cbn. auto.
  - inversion Hn as [|? ? Hn1 Hn2]; subst. cbn [snd] in Hn1.
    destruct (member_round _ _ _ _ _ _ _ H1 Hn1) as (n1 & A). destruct (IH Hn2) as (n2 & B). exists (n1 + n2).
    intros fuel st m s' nt' Hf Hm Hg Hrep Hsc Hst Hi Hge. cbn [length] in Hm. destruct m as [|m]; [lia|].
    destruct (on_members _ _ _ _ _ Hst) as (_ & _ & s1 & nt1 & S1 & S2).
    destruct (A fuel st m s1 nt1) as (st1 & bs1 & C1 & C2 & C3 & C4 & C5 & C6 & C7 & C8 & C9 & C10); auto; [lia|].
    rewrite C10, H2. clear C10.
    assert (E0 : exists v r0, members ms = v :: r0) by (destruct ms as [|[k0 [z|z|z]] ms]; do 2 eexists; reflexivity).
    destruct E0 as (v0 & r0 & E0). rewrite E0 in S2. rewrite <- C4, <- C5 in S2.
    destruct (ctx_next_feeds _ _ _ _ _ _ S2) as (c' & N1 & N2 & N3 & N4). rewrite <- E0 in N2.
    rewrite N1. cbn [obind is_ok].
    destruct (B fuel (cs_with c' st1) m s' nt') as (st2 & bs2 & D1 & D2 & D3 & D4 & D5); cbn [cs_with cs_ctx cs_out]; auto;
      [lia|lia|congruence|congruence|exact (next_keeps_scope _ _ _ N1 C3)|].
    exists st2, (bs1 ++ bs2). split; [exact D1|]. split; [rewrite D2; cbn [cs_with cs_exec]; rewrite C8, <- app_assoc; reflexivity|].
    split; [exact D3|]. split; [exact D4|].
    assert (W : ser_writes (written_by (o_isa o) res ++ wr rs) (cs_out st) = Ok (bs1 ++ bs2, cs_out st2)) by exact (ser_writes_app _ _ _ _ _ _ _ C9 D5).
    destruct res; exact W.
  - inversion Hn as [|? ? Hn1 Hn2]; subst. cbn [snd] in Hn1.
    destruct (member_round _ _ _ _ _ _ _ H1 Hn1) as (n1 & A). exists n1.
    intros fuel st m s' nt' Hf Hm Hg Hrep Hsc Hst Hi Hge. cbn [length] in Hm. destruct m as [|m]; [lia|].
    destruct (on_members _ _ _ _ _ Hst) as (_ & _ & s1 & nt1 & S1 & S2).
    destruct (A fuel st m s1 nt1) as (st1 & bs1 & C1 & C2 & C3 & C4 & C5 & C6 & C7 & C8 & C9 & C10); auto.
    rewrite C10, H2. exists st1, bs1. split; [reflexivity|]. split; [exact C8|]. split; [exact C6|]. split; [exact C7|].
    assert (Hres : res = None).
    { apply (one_call_silent _ _ _ _ _ _ _ _ _ H1). intros ->. unfold stops in H2. rewrite andb_false_r in H2. discriminate. }
    subst res. exact C9.
Qed.
End Loop.

(** ** The output *)
Lemma tokens_text so l j n sup : Forall plain_tok l -> map (fun tk => tok_view (strip tk)) l = doc_tokens None j ->
  json_ok j -> names_nonempty j -> is_container j -> options_made so -> so_ascii so = true ->
  (so_depth so + N.of_nat (nesting j) <= 255)%N -> (forall k, 0 < sup k) ->
  exists bs s, ser_writes l (ser_make so n sup) = Ok (bs, s) /\ doc_text plain j (ser_output s).
Proof.
  intros Hp Hv Hok Hnn Hc Hso Ha Hd Hsup. rewrite <- map_map in Hv.
  destruct (all_written j Hok Hnn (map strip l) None true true so Hv I (options_good so Hso) Hd) as (w & w3 & t' & Hw & _ & Ht & B1 & B2 & _).
  destruct (ser_writes_generous l (ser_make so n sup)) as (s & R1 & R2 & R3 & R4 & R5).
  { split; cbn; [lia|constructor]. }
  { exact Hsup. }
  exists (SerProofs.results l (cfg_of (ser_make so n sup))), s. split; [exact R1|]. rewrite R5.
  change (cfg_of (ser_make so n sup)) with (true, true, so).
  destruct (strip_written l true true so Hp Ha) as [<- _]. rewrite B1. cbn [start_comma nametext app].
  split; [exact Hc|]. exists w, t', []. rewrite app_nil_r. repeat split; auto. constructor.
Qed.

Definition writable (i : isa) (n : nat) (x : HandlerModel.ty * val) : Prop :=
  storable i (fst x) (snd x) /\ forall j, render i (fst x) (snd x) = Some j -> nesting j <= n.

Lemma results_written i n rs : Forall (writable i n) rs ->
  let l := concat (map (fun x => written_by i (Some x)) rs) in
  let els := CallSpec.results i rs in
  Forall plain_tok l /\ map (fun tk => tok_view (strip tk)) l = flat_map (doc_tokens None) els /\
  Forall json_ok els /\ Forall names_nonempty els /\ list_max (map nesting els) <= n.
Proof.
  cbv zeta. unfold CallSpec.results. induction 1 as [|[t v] rs [Hs Hj] _ (A & B & C & D & E)]; cbn [map concat somes flat_map fst snd written_by] in *.
  - cbn. repeat split; try constructor; lia.
  - destruct (all_written_as i t v Hs wname_default (or_introl eq_refl)) as (l & n' & E1 & E2 & E3 & _).
    rewrite E1. cbn [fst]. split; [apply Forall_app; auto|]. rewrite map_app, E2, B.
    destruct (render i t v) as [j|] eqn:Er; cbn [somes tokens_of]; [|cbn [app]; auto].
    destruct (all_restored cfg_default i t v j Hs Er) as (Hok & Hnn & _). cbn [flat_map map]. rewrite list_max_cons.
    split; [reflexivity|]. split; [constructor; assumption|]. split; [constructor; assumption|]. specialize (Hj j eq_refl). lia.
Qed.

Lemma strip_bracket v t : tok_view (strip (bracket v t)) = st_make None [v] t.
Proof. reflexivity. Qed.

Lemma array_written i so n rs : Forall (writable i n) rs -> options_made so -> so_ascii so = true -> (so_depth so + N.of_nat n < 255)%N ->
  exists bs s, ser_writes (bracket x5b TArrayStart :: concat (map (fun x => written_by i (Some x)) rs) ++ [bracket x5d TArrayEnd])
      (ser_make so 4096 (reformat_supply 4096)) = Ok (bs, s) /\
    doc_text plain (JArr (CallSpec.results i rs)) (ser_output s).
Proof.
  intros H Hso Ha Hd. destruct (results_written i n rs H) as (A & B & C & D & E).
  apply tokens_text; auto.
  - constructor; [left; reflexivity|]. apply Forall_app. split; [exact A|]. constructor; [left; reflexivity|constructor].
  - cbn [map doc_tokens]. rewrite map_app, B. reflexivity.
  - constructor. exact C.
  - constructor. exact D.
  - exact I.
  - cbn [nesting]. lia.
  - intros k. cbn -[Nat.mul Nat.pow]. unfold reformat_supply. apply Nat.mul_pos_pos; [lia|]. assert (2 ^ k <> 0) by (apply Nat.pow_nonzero; discriminate). lia.
Qed.

(** ** callFunctions on a call document *)
Lemma calls_writable {K} g am sp (cn : fcont K) i n k ms e k' xs rs : returns_json i n nesting cn ->
  calls g am sp cn k ms e k' xs rs -> Forall (writable i n) rs.
Proof.
  intros Hr. induction 1 as [| k name j ms e k1 r res e2 k2 xs rs H1 H2 H3 IH|]; [constructor| |constructor].
  apply Forall_app. split; [|exact IH]. destruct res as [[t v]|]; [|constructor]. constructor; [|constructor].
  inversion H1 as [| |f a r0 k0 e0 v0 Hf Ha Hb He]; subst. destruct e; try discriminate.
  destruct (fn_ret f) as [t0|] eqn:Et; [|discriminate].
  match goal with Hx : Some _ = Some _ |- _ => injection Hx as <- <- end.
  apply (Hr f t0 k a k1 NoError v0); auto.
  unfold function_named in Hf. destruct (find _ (functions cn)) eqn:E1 in Hf.
  - injection Hf as <-. exact (proj1 (find_some _ _ E1)).
  - exact (proj1 (find_some _ _ Hf)).
Qed.

Theorem call_document {K} o g am sp (cn : fcont K) so n k ms text e k' xs rs :
  o_nl o = false -> doc_text plain (JObj ms) text -> Forall (fun kv => (N.of_nat (nesting (snd kv)) < 65536)%N) ms ->
  options_made so -> so_ascii so = true -> (so_depth so + N.of_nat n < 255)%N -> returns_json (o_isa o) n nesting cn ->
  calls g am sp cn k ms e k' xs rs ->
  exists f, forall fuel, f <= fuel -> exists st,
    callFunctions o fuel am sp cn k (call_context g text so) = Ok (e, k', st) /\
    cs_exec st = xs /\ doc_text plain (JArr (CallSpec.results (o_isa o) rs)) (ser_output (cs_out st)).
Proof.
  intros Ho Hd Hn Hso Ha Hdep Hret Hc.
  destruct (calls_loop_ok o g am sp cn k ms e k' xs rs Hc Hn) as (n1 & A).
  exists (n1 + S (length ms)). intros fuel Hf.
  destruct (text_feeds o g (JObj ms) text Ho Hd) as (s' & nt' & F). cbn [doc_tokens] in F.
  change tok_default with (c_tok (context_of g text)) in F at 1.
  destruct (ctx_next_feeds _ _ _ _ _ _ F) as (c1 & N1 & N2 & N3 & N4).
  assert (Hc1 := proj2 (stands_view (nextToken o) c1 None (Some (JObj ms)) s' nt' N2)). cbn [first_type] in Hc1.
  destruct (enter_object (nextToken o) c1 ms None s' nt' N2 _ (or_introl eq_refl)) as (c2 & M1 & M2 & M3 & M4).
  set (ser0 := ser_make so 4096 (reformat_supply 4096)).
  assert (G0 : inb ser0 /\ generous ser0).
  { split; [split; cbn -[Nat.mul]; [lia|constructor]|]. intros z. cbn -[Nat.mul Nat.pow]. unfold reformat_supply.
    apply Nat.mul_pos_pos; [lia|]. assert (2 ^ z <> 0) by (apply Nat.pow_nonzero; discriminate). lia. }
  destruct (ser_writes_generous [bracket x5b TArrayStart] ser0 (proj1 G0) (proj2 G0)) as (s1 & W1 & W2 & W3 & _).
  assert (T0 : t_scope (c_src (context_of g text)) = []) by reflexivity.
  assert (T2 := next_keeps_scope o _ _ _ M1 (next_keeps_scope o _ _ _ N1 T0)).
  destruct (A fuel (mkCs c2 [] s1) fuel s' nt') as (st & bs & D1 & D2 & D3 & D4 & D5); cbn [cs_ctx cs_out]; auto.
  { lia. } { lia. } { rewrite M3, N4. reflexivity. } { rewrite M2, N3. reflexivity. }
  destruct (ser_writes_generous [bracket x5d TArrayEnd] (cs_out st) D3 D4) as (s2 & V1 & _).
  exists (mkCs (cs_ctx st) (cs_exec st) s2). cbn [cs_exec cs_out].
  assert (L1 : forall tk s b sx, ser_writes [tk] s = Ok (b, sx) -> exists b', ser_write tk s = Ok (b', sx)).
  { intros tk s b sx. cbn [ser_writes]. destruct (ser_write tk s) as [[y sy]| |]; cbn [obind]; try discriminate. intros Z. injection Z as _ <-. eauto. }
  split; [|split].
  - unfold callFunctions, call_context. cbn [cs_ctx]. rewrite N1. cbn [obind is_ok]. rewrite Hc1. cbn [type_eqb type_num N.eqb Pos.eqb].
    rewrite M1. cbn [obind is_ok cs_with cs_out cs_exec cs_ctx]. fold ser0.
    destruct (L1 _ _ _ _ W1) as (b1 & ->). cbn [obind]. rewrite D1. cbn [obind].
    destruct (L1 _ _ _ _ V1) as (b2 & ->). cbn [obind]. reflexivity.
  - rewrite D2. reflexivity.
  - destruct (array_written (o_isa o) so n rs (calls_writable _ _ _ _ _ _ _ _ _ _ _ _ Hret Hc) Hso Ha Hdep) as (bs' & s3 & X & Y).
    assert (Z := ser_writes_app _ _ _ _ _ _ _ W1 (ser_writes_app _ _ _ _ _ _ _ D5 V1)).
    cbn [app] in Z. fold ser0 in X. rewrite X in Z. injection Z as _ <-. exact Y.
Qed.

(** ** The output, whatever the text *)
Section Any.
Context {K : Type} (o : opts) (fuel : nat) (i_n : nat) (so : sopts) (cn0 : fcont K).
Hypothesis Hret : returns_json (o_isa o) i_n nesting cn0.
Let ser0 : ser := ser_make so 4096 (reformat_supply 4096).
Notation wr rs := (concat (map (fun x => written_by (o_isa o) (Some x)) rs)).

Definition out_ok (s : ser) : Prop :=
  exists rs bs, Forall (writable (o_isa o) i_n) rs /\ ser_writes (bracket x5b TArrayStart :: wr rs) ser0 = Ok (bs, s).

Lemma call_out f k st e k' st' : In f (functions cn0) -> out_ok (cs_out st) ->
  callFunctionAndSerializeReturn o fuel f k st = Ok (e, k', st') -> out_ok (cs_out st').
Proof.
  intros Hin (rs & bs & H1 & H2). unfold callFunctionAndSerializeReturn.
  match goal with |- context [obind ?X _] => destruct X as [[a c]| |]; cbn [obind]; try discriminate end.
  cbn [cs_with cs_ctx cs_exec cs_out]. destruct (is_ok (c_err c)); [|intros H; injection H as _ _ <-; exists rs, bs; auto].
  destruct (fn_body f k a) as [[k1 e1] v] eqn:Eb.
  assert (Hout : forall s0, cs_out (if is_ok e1 then mkCs c (cs_exec st) (cs_out st) else setError e1 (mkCs c (cs_exec st) (cs_out st))) = s0 -> s0 = cs_out st).
  { intros s0. destruct (is_ok e1); intros <-; reflexivity. }
  set (st1 := if is_ok e1 then _ else _) in *. specialize (Hout _ eq_refl).
  destruct (is_ok (back_error st1)); [|intros H; injection H as _ _ <-; rewrite Hout; exists rs, bs; auto].
  destruct (fn_ret f) as [t|] eqn:Et; [|intros H; injection H as _ _ <-; rewrite Hout; exists rs, bs; auto].
  rewrite Hout. destruct (ser_writes (fst (from (o_isa o) t v wname_default)) (cs_out st)) as [[bs2 s2]| |] eqn:Ew; cbn [obind]; try discriminate.
  intros H. injection H as _ _ <-. cbn [cs_out]. exists (rs ++ [(t, v)]), (bs ++ bs2). split.
  - apply Forall_app. split; [exact H1|]. constructor; [|constructor]. exact (Hret f t k a k1 e1 v Hin Et Eb).
  - rewrite map_app, concat_app. cbn [map concat written_by]. rewrite app_nil_r. exact (ser_writes_app (_ :: _) _ _ _ _ _ _ H2 Ew).
Qed.

Lemma call_in_out primary cn : incl (functions cn) (functions cn0) -> forall k st e k' st', out_ok (cs_out st) ->
  call_in o fuel primary cn k st = Ok (e, k', st') -> out_ok (cs_out st').
Proof.
  induction cn as [fs l IH] using fcont_ind_nested. intros Hin k st e k' st'. cbn [call_in functions] in *.
  assert (Hf : incl (rev fs) (functions cn0)) by (intros x Hx; apply Hin, in_or_app; left; exact Hx).
  assert (Hl : Forall (fun c => forall k st e k' st', out_ok (cs_out st) -> call_in o fuel primary c k st = Ok (e, k', st') -> out_ok (cs_out st')) (rev l)).
  { apply Forall_rev. rewrite Forall_forall in IH |- *. intros c Hc. apply IH; [exact Hc|]. intros x Hx. apply Hin, in_or_app. right.
    apply in_concat. exists (functions c). split; [apply -> in_rev; apply in_map; exact Hc|exact Hx]. }
  rewrite <- map_rev. clear Hin IH. revert k st e k' st'.
  assert (Hsup : forall k st e k' st', out_ok (cs_out st) -> try_supers (map (call_in o fuel primary) (rev l)) k st = Ok (e, k', st') -> out_ok (cs_out st')).
  { induction Hl as [|c r Hc _ IHr]; intros k st e k' st' Ho; cbn [map try_supers].
    - intros H. injection H as _ _ <-. exact Ho.
    - destruct (call_in o fuel primary c k st) as [[[e1 k1] st1]| |] eqn:E; cbn [obind]; try discriminate.
      assert (O1 := Hc _ _ _ _ _ Ho E). destruct e1; try (intros H; injection H as _ _ <-; exact O1).
      exact (IHr _ _ _ _ _ O1). }
  induction (rev fs) as [|f r IHr]; intros k st e k' st' Ho; cbn [traverse]; [exact (Hsup _ _ _ _ _ Ho)|].
  unfold matchAndCallFunction. destruct (has_name primary (c_name (cs_ctx st)) (fn_names f)).
  - destruct (callFunctionAndSerializeReturn o fuel f k st) as [[[e1 k1] st1]| |] eqn:E; cbn [obind]; try discriminate.
    assert (O1 := call_out _ _ _ _ _ _ (Hf f (or_introl eq_refl)) Ho E).
    destruct e1; try (intros H; injection H as _ _ <-; exact O1).
    apply IHr; [intros x Hx; apply Hf; right; exact Hx|exact O1].
  - cbn [obind]. apply IHr; [intros x Hx; apply Hf; right; exact Hx|exact Ho].
Qed.

Lemma add_error_out st : cs_out (add_error st) = cs_out st.
Proof. unfold add_error. destruct (c_missing (cs_ctx st)), (c_unassigned (cs_ctx st)); reflexivity. Qed.

Lemma loop_out m am sp : forall k st e k' st', out_ok (cs_out st) -> calls_loop o fuel m am sp cn0 k st = Ok (e, k', st') -> out_ok (cs_out st').
Proof.
  induction m as [|m IH]; intros k st e k' st' Ho; cbn [calls_loop]; [discriminate|].
  destruct (type_eqb _ _); [intros H; injection H as _ _ <-; exact Ho|].
  set (st0 := mkCs _ _ _). assert (O0 : out_ok (cs_out st0)) by exact Ho. clearbody st0.
  destruct (call_in o fuel true cn0 k st0) as [[[e1 k1] st1]| |] eqn:E1; cbn [obind]; try discriminate.
  assert (O1 := call_in_out true cn0 (incl_refl _) _ _ _ _ _ O0 E1).
  destruct (match e1 with MissingFunction => call_in o fuel false cn0 k1 st1 | _ => Ok (e1, k1, st1) end) as [[[e2 k2] st2]| |] eqn:E2; cbn [obind]; try discriminate.
  assert (O2 : out_ok (cs_out st2)).
  { destruct e1; try (injection E2 as _ _ <-; exact O1). exact (call_in_out false cn0 (incl_refl _) _ _ _ _ _ O1 E2). }
  set (st3 := if is_ok e2 then st2 else _). assert (O3 : out_ok (cs_out st3)) by (subst st3; destruct (is_ok e2); exact O2). clearbody st3.
  assert (O4 : out_ok (cs_out (add_error st3))) by (rewrite add_error_out; exact O3). set (st4 := add_error st3) in *. clearbody st4.
  destruct (goToEndOfScope _ _ _ _) as [[[s3 e3] tk3]| |]; cbn [obind]; try discriminate.
  destruct (popScope s3) as [s4| |]; cbn [obind]; try discriminate.
  destruct (sp && _)%bool; [intros H; injection H as _ _ <-; exact O4|].
  destruct (ctx_next _ _) as [[e5 c5]| |]; cbn [obind]; try discriminate.
  destruct (is_ok e5); [|intros H; injection H as _ _ <-; exact O4].
  apply IH. exact O4.
Qed.

Lemma output_array g am sp k text e k' st : options_made so -> so_ascii so = true -> (so_depth so + N.of_nat i_n < 255)%N ->
  callFunctions o fuel am sp cn0 k (call_context g text so) = Ok (e, k', st) ->
  ser_output (cs_out st) = [] \/ exists els, doc_text plain (JArr els) (ser_output (cs_out st)).
Proof.
  intros Hso Ha Hd. unfold callFunctions, call_context. cbn [cs_ctx cs_with cs_exec cs_out]. fold ser0.
  destruct (ctx_next (nextToken o) (context_of g text)) as [[e1 c1]| |]; cbn [obind]; try discriminate.
  destruct (is_ok e1); [|intros H; injection H as _ _ <-; left; reflexivity].
  destruct (type_eqb _ _); [|intros H; injection H as _ _ <-; left; reflexivity].
  destruct (ctx_next (nextToken o) c1) as [[e2 c2]| |]; cbn [obind]; try discriminate.
  destruct (is_ok e2); [|intros H; injection H as _ _ <-; left; reflexivity].
  cbn [cs_out cs_exec cs_ctx].
  destruct (ser_write (bracket x5b TArrayStart) ser0) as [[b1 s1]| |] eqn:W1; cbn [obind]; try discriminate.
  destruct (calls_loop o fuel fuel am sp cn0 k (mkCs c2 [] s1)) as [[[e3 k3] st3]| |] eqn:L; cbn [obind]; try discriminate.
  destruct (ser_write (bracket x5d TArrayEnd) (cs_out st3)) as [[b2 s2]| |] eqn:W2; cbn [obind]; try discriminate.
  intros H. injection H as _ _ <-. cbn [cs_out]. right.
  assert (O1 : out_ok s1).
  { exists [], [b1]. split; [constructor|]. cbn [map concat ser_writes]. rewrite W1. reflexivity. }
  destruct (loop_out _ _ _ _ _ _ _ _ (O1 : out_ok (cs_out (mkCs c2 [] s1))) L) as (rs & bs & H1 & H2).
  assert (W2' : ser_writes [bracket x5d TArrayEnd] (cs_out st3) = Ok ([b2], s2)) by (cbn [ser_writes]; rewrite W2; reflexivity).
  destruct (array_written (o_isa o) so i_n rs H1 Hso Ha Hd) as (bs' & s3 & X & Y).
  assert (Z := ser_writes_app _ _ _ _ _ _ _ H2 W2'). cbn [app] in Z. unfold ser0 in Z. rewrite X in Z. injection Z as _ <-.
  exists (CallSpec.results (o_isa o) rs). exact Y.
Qed.
End Any.

(** ** Every call document is covered: no type handler reports MissingFunction *)
Definition known {A} (x : sres A) : Prop := match x with Ok (e, _, _) => e <> MissingFunction | _ => True end.
Definition sknown (s : shandler) : Prop := forall v oj r, known (s v oj r).

Lemma known_bind {A B} (x : sres A) (k : error * A * report -> sres B) : known x ->
  (forall e a r, e <> MissingFunction -> known (k (e, a, r))) -> known (obind x k).
Proof. destruct x as [[[e a] r]| |]; cbn; auto. Qed.
Lemma known_lift {A B} (f : A -> B) x : known x -> known (lift f x).
Proof. intros H. unfold lift. apply known_bind; [exact H|]. intros e a r He. exact He. Qed.
Lemma int_to_known i v e z : int_to i v = Ok (e, z) -> e <> MissingFunction.
Proof.
  unfold int_to. destruct (to_integer i v) as [[[pe x] p]| |]; cbn [obind]; try discriminate.
  destruct pe; [destruct (p =? length v)|..]; intros H; injection H as <- _; discriminate.
Qed.

Ltac knw := repeat match goal with
  | |- known (Ok _) => cbn; first [assumption | discriminate | congruence]
  | |- known (obind _ _) => apply known_bind; [|intros ? ? ? ?]
  | |- known (if ?b then _ else _) => destruct b
  | H : sknown ?s |- known (?s _ _ _) => apply H
  | IH : _ |- known _ => apply IH
  | |- known (match ?x with _ => _ end) => destruct x
  end.
Lemma members_known g order names ss : Forall sknown ss -> forall ms vs a r, known (s_members g order names ss ms vs a r).
Proof.
  intros H. induction ms as [|[k j] ms IHm]; intros vs a r; cbn [s_members]; [knw|].
  destruct (search_both _ _ _) as [i|]; [|cbv zeta; destruct (pc_allow_missing g); [apply IHm|knw]].
  destruct (nth_error ss i) as [s|] eqn:En; [|exact I]. destruct (nth_error vs i) as [v|]; [|exact I].
  apply nth_error_In in En. rewrite Forall_forall in H.
  apply known_bind; [apply (H s En)|]. intros e x r1 He. cbv zeta. destruct (is_ok _); [apply IHm|].
  cbn. destruct e; cbn; congruence || discriminate.
Qed.
Lemma fp_read_known sg v e z : fp_read sg v = Ok (e, z) -> e <> MissingFunction.
Proof.
  unfold fp_read, FloatModel.float_to, FloatModel.to_float, DoubleModel.double_to, DoubleModel.to_double.
  destruct (parseNumber 64 false v) as [[e0 p]| |]; cbn [obind]; [|destruct sg; discriminate|destruct sg; discriminate].
  destruct sg, e0; cbn [obind]; try (intros H; injection H as <- _; discriminate);
    (destruct (DoubleModel.convertToNumber p); cbn [obind]; [destruct (_ =? _)|discriminate|discriminate]; intros H; injection H as <- _; discriminate).
Qed.
Lemma time_to_known hr tp v old e z : TimeModel.time_to hr tp v old = Ok (e, z) -> e <> MissingFunction.
Proof.
  unfold TimeModel.time_to. destruct (int_to T_uint64 v) as [[e0 t]| |] eqn:E; cbn [obind]; try discriminate.
  apply int_to_known in E. destruct e0; try (intros H; injection H as <- _; congruence). cbv zeta. unfold TimeModel.from_unit.
  repeat (match goal with |- context [if ?c then _ else _] => destruct c; cbn [obind] end; try discriminate); intros H; injection H as <- _; discriminate.
Qed.
Lemma sem_known g t : sknown (sem g t).
Proof.
  induction t as [|i|sg|hr tp| |ns u|t IH|t IH|t IH|t IH|t IH|u t IH|t IH|t IH|t IH|n t IH|n t IH|t IH|ts IH|t IH|b fs IH] using ty_rect_nested;
    intros v oj r; cbn [sem]; try solve [knw].
  - destruct (int_to i (first_value oj)) as [[e z]| |] eqn:E; cbn; auto. exact (int_to_known _ _ _ _ E).
  - destruct (fp_read sg (first_value oj)) as [[e z]| |] eqn:E; cbn; auto. exact (fp_read_known _ _ _ _ E).
  - destruct v as [|old| | | | | | |]; try exact I. destruct (TimeModel.time_to hr tp (first_value oj) old) as [[e z]| |] eqn:E; cbn; auto. exact (time_to_known _ _ _ _ _ _ E).
  - destruct (first_type oj); try solve [knw].
    destruct (int_to u (first_value oj)) as [[e z]| |] eqn:E; cbn; auto. exact (int_to_known _ _ _ _ E).
  - destruct v; try exact I. destruct (type_eqb _ _); [knw|]. apply known_lift, IH.
  - destruct v; try exact I. apply known_lift, IH.
  - apply known_lift, IH.
  - destruct v; try exact I. destruct (type_eqb _ _); [knw|]. apply known_lift, IH.
  - unfold s_array. assert (V : forall els acc r, known (s_vec (init t) (sem g t) els acc r)) by (induction els as [|x els IHe]; intros; cbn [s_vec]; knw).
    destruct oj as [[]|]; try solve [knw]. apply known_lift, V.
  - assert (V : forall els acc r, known (s_vec (init t) (sem g t) els acc r)) by (induction els as [|x els IHe]; intros; cbn [s_vec]; knw).
    destruct oj as [[]|]; try (apply known_lift, V); destruct v; try exact I; apply known_lift, IH.
  - destruct v; try exact I. unfold s_array. destruct oj as [[|els|]|]; try solve [knw]. apply known_lift.
    generalize (@nil val). revert els r. induction l as [|x l IHl]; intros els r acc; cbn [s_fixed]; [destruct els; knw|]. knw.
  - destruct v; try exact I. unfold s_array. destruct oj as [[|els|]|]; try solve [knw]. apply known_lift.
    generalize (@nil val). revert els r. induction slots as [|x l IHl]; intros els r acc; cbn [s_var]; [destruct els; knw|]. knw.
  - unfold s_array. assert (V : forall els acc r, known (s_set (init t) (sem g t) els acc r)) by (induction els as [|x els IHe]; intros; cbn [s_set]; knw).
    destruct oj as [[]|]; try solve [knw]. apply known_lift, V.
  - destruct v; try exact I. unfold s_array. destruct oj as [[|els|]|]; try solve [knw]. apply known_lift.
    generalize (@nil val). revert l els r. induction IH as [|x ts Hx _ IHl]; intros [|v l] els r acc; cbn [map s_tuple]; try exact I; [destruct els; knw|].
    apply known_bind; [apply Hx|]. intros e a r1 He. destruct (is_ok e); [apply IHl|exact He].
  - destruct v; try exact I. unfold s_object. destruct oj as [[| |ms]|]; try solve [knw]. apply known_lift.
    revert m r. induction ms as [|[k j] ms IHm]; intros m r; cbn [s_map]; knw.
  - destruct v as [| | | | | |vs| |]; try exact I. unfold s_object. destruct oj as [[| |ms]|]; try solve [knw]. cbv zeta.
    apply known_bind.
    + apply members_known. apply Forall_map. exact IH.
    + intros e x r1 He. destruct (is_ok e); [|exact He]. destruct (unassigned_of _ _ _); cbn; [discriminate|]. destruct (pc_allow_unassigned g); discriminate.
Qed.

Lemma scope_feeds l : forall nt, exists nt', feeds scope_next nt (map token_of l) l [] nt'.
Proof.
  induction l as [|v l IH]; intros nt; [exists nt; constructor|]. destruct (IH (token_of v)) as (nt' & F). exists nt'.
  cbn [map]. econstructor; [reflexivity|apply token_of_view|exact F].
Qed.

(** What is read as an argument is what the handler reads from the tokens of the value alone (C49 to
    C51 and the properties of structs say what that is). *)
Lemma argument_value g t name j : ty_ok t -> fits t (Some j) -> exists e v r,
  read_value g t (init t) j = Ok (e, v, r) /\ reads_argument g t name j e v r /\ e <> MissingFunction.
Proof.
  intros Ht Hf. destruct (doc_tokens (Some name) j) as [|v0 vs] eqn:Ed; [destruct j; discriminate|].
  destruct (scope_feeds vs (token_of v0)) as (nt' & F).
  destruct (to_read scope_next (length (doc_tokens (Some name) j)) t (init t) (mkCtx (map token_of vs) (token_of v0) NoError [] [] g) (Some name) j [] nt')
    as (e & v & m & u & c' & R1 & R2 & R3 & R4 & _); auto.
  { apply init_shaped. }
  { split; [reflexivity|]. exists vs. cbn [c_tok c_src]. rewrite token_of_view. split; [exact Ed|exact F]. }
  exists e, v, (m, u). split; [exact R1|]. split.
  - do 4 eexists. split; [rewrite Ed; reflexivity|]. split; [exact R2|]. unfold rep. rewrite R3, R4. reflexivity.
  - cbn [c_cfg] in R1. rewrite (read_value_sem g t (init t) j Ht (init_shaped t) Hf) in R1.
    assert (Z := sem_known g t (init t) (Some j) ([], [])). unfold r0 in R1. rewrite R1 in Z. exact Z.
Qed.

Lemma calls_total {K} g am sp (cn : fcont K) ms :
  (forall f k a k' e v, In f (functions cn) -> fn_body f k a = (k', e, v) -> e <> MissingFunction) ->
  (forall f t kv, In f (functions cn) -> In kv ms -> fn_arg f = Some t -> ty_ok t /\ fits t (Some (snd kv))) ->
  forall k, exists e k' xs rs, calls g am sp cn k ms e k' xs rs.
Proof.
  intros Hm Hf. induction ms as [|[name j] ms IH]; intros k; [repeat eexists; apply Ca_nil|].
  assert (One : exists e k1 r res, one_call g cn k name j e k1 r res).
  { destruct (function_named cn name) as [f|] eqn:En; [|repeat eexists; apply Oc_unknown; exact En].
    assert (Hin : In f (functions cn)).
    { unfold function_named in En. destruct (find _ (functions cn)) eqn:E1 in En.
      - injection En as <-. exact (proj1 (find_some _ _ E1)).
      - exact (proj1 (find_some _ _ En)). }
    destruct (fn_arg f) as [t|] eqn:Ea.
    - destruct (Hf f t (name, j) Hin (or_introl eq_refl) Ea) as [Ht Hfit].
      destruct (argument_value g t name j Ht Hfit) as (e & v & r & _ & R & He).
      destruct (is_ok e) eqn:Ee.
      + assert (e = NoError) by (destruct e; congruence || discriminate). subst e.
        destruct (fn_body f k (Some v)) as [[k1 e1] v1] eqn:Eb. repeat eexists.
        apply (Oc_called g cn k name j f (Some v) r k1 e1 v1 En); [rewrite Ea; eauto|exact Eb|exact (Hm _ _ _ _ _ _ Hin Eb)].
      + repeat eexists. apply (Oc_argument g cn k name j f t e v r En Ea R); [intros ->; discriminate|exact He].
    - destruct (fn_body f k None) as [[k1 e1] v1] eqn:Eb. repeat eexists.
      apply (Oc_called g cn k name j f None ([], []) k1 e1 v1 En); [rewrite Ea; auto|exact Eb|exact (Hm _ _ _ _ _ _ Hin Eb)]. }
  destruct One as (e & k1 & r & res & H1). destruct (stops am sp e) eqn:Es.
  - repeat eexists. eapply Ca_stop; eassumption.
  - destruct (IH (fun f t kv A B => Hf f t kv A (or_intror B)) k1) as (e2 & k2 & xs & rs & H2). repeat eexists. eapply Ca_next; eassumption.
Qed.
