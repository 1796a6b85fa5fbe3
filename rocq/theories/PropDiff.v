(** Properties C41 to C44: json_struct_diff.h. *)
From Verif Require Import Base ScanModel TokModel JsonSpec TokSpec MapModel MapSpec MapProofs MapProofs2 TokLoops TokGap TokJsonDoc
  DiffModel DiffSpec DiffProofs DiffTree DiffLaws DiffItems PropJson PropMap.
From Coq Require Import Lia.

(** The text of a document gives the tokens and metadata of the document. *)
Theorem C41_text_gives_document : forall o j t, o_nl o = false -> doc_text plain j t ->
  exists f d, src_of_text f o t = Ok (d, DNoError) /\ src_of j d.
Proof.
  intros o j t Ho Ht.
  destruct (C03_document_tokens o j t Ho Ht (mkTok dref_empty dref_empty TString TString)) as (f & ts & s & E & Hv).
  exists f, (mkSrc ts (tree_meta 0 j)).
  assert (M : metaForTokens ts = Ok (tree_meta 0 j)).
  { apply (C37_metadata_describes_tree ts None j). unfold doc_types. rewrite <- Hv, map_map. apply map_ext. reflexivity. }
  assert (Hne : ts <> []).
  { intros ->. destruct Ht as (Hc & _). destruct j; [destruct Hc|discriminate Hv..]. }
  assert (Htne : t <> []).
  { intros ->. destruct Ht as (_ & w1 & t' & w2 & _ & _ & Hvt & Ht). symmetry in Ht. apply app_eq_nil in Ht. destruct Ht as [_ Ht].
    apply app_eq_nil in Ht. destruct Ht as [-> _]. inversion Hvt as [s0 Hs Hj He| | | |]. subst.
    destruct s0; cbn in He; try discriminate He. cbn in Hs. rewrite He in Hs. destruct Hs as (c & r & He2 & _). discriminate He2. }
  split.
  - unfold src_of_text. destruct t as [|c t]; [congruence|]. rewrite E. cbn [obind]. rewrite M. cbn [obind]. destruct ts; [congruence|reflexivity].
  - split; [exact Hv|exact M].
Qed.
Print Assumptions C41_text_gives_document.

(** ** C41: no difference between a document and itself. *)

Theorem C41_same_document_partial : forall o j b d err,
  is_container j -> unique_names j -> no_nul j -> reflexive_on o j -> comparable o j j ->
  src_of j b -> src_of j d ->
  exists s, run_diff o b (fresh d err) = Ok s /\ no_difference s.
Proof.
  intros o j b d err Hj Hu Hz Hr Hc Sb Sd.
  destruct (run_ok o j j b d err Hj Hj Sb Sd Hc) as (es & s & _ & Er & Ea & Hv & _ & _ & B).
  exists s. split; [exact Er|].
  assert (Hk : same_kind j j = true) by (unfold same_kind; destruct (jtype j); reflexivity).
  rewrite Hk in Hv.
  assert (Q : Forall quiet es) by (apply quiet_of_view; rewrite Hv; apply te_refl; assumption).
  destruct (apply_quiet es (fresh d err) Q) as (s' & E' & _ & A2 & A3 & A4 & A5).
  { cbn. rewrite repeat_length, (src_length _ _ Sd). exact B. }
  rewrite E' in Ea. injection Ea as ->. split; [exact A2|]. split; [|split; [exact A3|exact A4]].
  apply A5. cbn. apply Forall_forall. intros t Ht. apply repeat_spec in Ht. exact Ht.
Qed.
Print Assumptions C41_same_document_partial.

(** A comparison of numbers that only knows equal texts, and one that fails on some. *)
Definition by_text : dopts := mkDOpts (fun x y => Ok (bytes_eqb x y)).
Definition src (j : json) : dsrc := mkSrc (toks j) (tree_meta 0 j).

Lemma src_is_of j : src_of j (src j).
Proof.
  assert (V : map tok_view (toks j) = doc_tokens None j).
  { unfold toks. rewrite map_map. rewrite <- (map_id (doc_tokens None j)) at 2. apply map_ext. intros [n v nt vt]. reflexivity. }
  split; [exact V|]. cbn. apply (C37_metadata_describes_tree _ None j). unfold doc_types. rewrite <- V, map_map. apply map_ext. reflexivity.
Qed.

Definition ex_a : json :=
  JObj [(s2b "a", JArr [num (s2b "1"); JObj [(s2b "x", JScalar (SStr (s2b "u")))]; JArr [num (s2b "2")]]); (s2b "b", JScalar SNull)].

Example C41_nonvacuous :
  is_container ex_a /\ unique_names ex_a /\ no_nul ex_a /\ reflexive_on by_text ex_a /\ comparable by_text ex_a ex_a /\
  match run_diff by_text (src ex_a) (fresh (src ex_a) DNoError) with
  | Ok s => Some (dt_count s, dt_diffs s, dt_members s, dt_items s) | _ => None end = Some (0, repeat NoDiff 12, [], []).
Proof.
  assert (N : forall (k : bytes), existsb (Byte.eqb x00) k = false -> ~ In x00 k).
  { intros k H Hi. assert (existsb (Byte.eqb x00) k = true) by (apply existsb_exists; exists x00; split; [exact Hi|reflexivity]). congruence. }
  split; [exact I|]. split; [|split; [|split; [|split]]].
  - repeat constructor; cbn; intros H; repeat (destruct H as [H|H]; try discriminate H); try destruct H.
  - repeat constructor; cbn [fst snd]; intros; try discriminate; try (apply N; reflexivity).
    intros H0. match goal with H : SStr _ = SStr _ |- _ => injection H as <- end. revert H0. apply N. reflexivity.
  - intros x Hx. cbn in Hx. repeat (destruct Hx as [<-|Hx]; [reflexivity|]). destruct Hx.
  - intros x y _ _. eexists. reflexivity.
  - vm_compute. reflexivity.
Qed.

(** With two members of one name the document differs from itself. *)
Theorem C41_duplicate_names_refuted : exists j b d s,
  is_container j /\ no_nul j /\ reflexive_on by_text j /\ comparable by_text j j /\ src_of j b /\ src_of j d /\
  run_diff by_text b (fresh d DNoError) = Ok s /\ dt_count s = 1 /\ nth_error (dt_diffs s) 1 = Some ValueDiff.
Proof.
  set (j := JObj [(s2b "a", num (s2b "1")); (s2b "a", num (s2b "2"))]).
  exists j, (src j), (src j), (match run_diff by_text (src j) (fresh (src j) DNoError) with Ok s => s | _ => fresh (src j) DNoError end).
  split; [exact I|]. split.
  { repeat constructor; cbn; intros; try discriminate; intuition discriminate. }
  split; [intros x Hx; cbn in Hx; repeat (destruct Hx as [<-|Hx]; [reflexivity|]); destruct Hx|].
  split; [intros x y _ _; eexists; reflexivity|]. split; [apply src_is_of|]. split; [apply src_is_of|]. vm_compute. auto.
Qed.
Print Assumptions C41_duplicate_names_refuted.

(** ** C42: no reported difference means equal documents. *)

Theorem C42_no_difference_means_same_partial : forall o jb jd b d err s,
  is_container jb -> is_container jd -> unique_names jb -> unique_names jd -> no_nul jb -> no_nul jd -> comparable o jb jd ->
  src_of jb b -> src_of jd d ->
  run_diff o b (fresh d err) = Ok s -> dt_count s = 0 -> same_json o jb jd.
Proof.
  intros o jb jd b d err s Cb Cd Ub Ud Zb Zd Hc Sb Sd Er H0.
  destruct (run_ok o jb jd b d err Cb Cd Sb Sd Hc) as (es & s' & _ & Er' & _ & Hv & Hn & _).
  rewrite Er in Er'. injection Er' as <-. rewrite H0 in Hn. symmetry in Hn. apply quiet_of_count in Hn. rewrite Hv in Hn.
  destruct (same_kind jb jd) eqn:Hk; [exact (te_sound o jb jd 0 Ub Ud Zb Zd Hk Hn)|].
  exfalso. assert (Hp := ntok_pos jd). destruct (ntok jd) as [|n]; [lia|].
  cbn in Hn. inversion Hn as [|? ? [p Hq] _]. discriminate Hq.
Qed.
Print Assumptions C42_no_difference_means_same_partial.

(** The diff of two documents always completes when the numbers can be compared. *)
Theorem C42_diff_completes : forall o jb jd b d err,
  is_container jb -> is_container jd -> comparable o jb jd -> src_of jb b -> src_of jd d ->
  exists s, run_diff o b (fresh d err) = Ok s /\ length (dt_diffs s) = length (ds_tokens d).
Proof.
  intros o jb jd b d err Cb Cd Hc Sb Sd.
  destruct (run_ok o jb jd b d err Cb Cd Sb Sd Hc) as (es & s' & _ & Er & _ & _ & _ & L & _).
  exists s'. rewrite (src_length _ _ Sd). auto.
Qed.
Print Assumptions C42_diff_completes.

(** Other member order, no difference. *)
Definition ex_b : json :=
  JObj [(s2b "b", JScalar SNull); (s2b "a", JArr [num (s2b "1"); JObj [(s2b "x", JScalar (SStr (s2b "u")))]; JArr [num (s2b "2")]])].
Example C42_nonvacuous :
  match run_diff by_text (src ex_a) (fresh (src ex_b) DNoError) with Ok s => Some (dt_count s) | _ => None end = Some 0.
Proof. vm_compute. reflexivity. Qed.
Example C42_difference_found :
  match run_diff by_text (src ex_a) (fresh (src (JObj [(s2b "b", JScalar SNull)])) DNoError) with
  | Ok s => Some (dt_count s, dt_diffs s, map (fun x => (fst x, length (snd x))) (dt_members s)) | _ => None end
  = Some (9, [MissingMembers; NoDiff; NoDiff], [(0, 9)]).
Proof. vm_compute. reflexivity. Qed.

(** Strings that differ only after a NUL are taken as equal. *)
Theorem C42_nul_refuted : exists jb jd s,
  is_container jb /\ is_container jd /\ unique_names jb /\ unique_names jd /\ comparable by_text jb jd /\
  run_diff by_text (src jb) (fresh (src jd) DNoError) = Ok s /\ dt_count s = 0 /\ ~ same_json by_text jb jd.
Proof.
  set (jb := JArr [JScalar (SStr [x00; x61])]). set (jd := JArr [JScalar (SStr [x00; x62])]).
  exists jb, jd, (match run_diff by_text (src jb) (fresh (src jd) DNoError) with Ok s => s | _ => fresh (src jb) DNoError end).
  split; [exact I|]. split; [exact I|]. split; [repeat constructor|]. split; [repeat constructor|].
  split; [intros x y []|]. split; [vm_compute; reflexivity|]. split; [vm_compute; reflexivity|].
  intros H. inversion H as [|? ? HF|]; subst. inversion HF as [|? ? ? ? Hs _]; subst. inversion Hs as [? ? Hss| |]; subst. inversion Hss.
Qed.
Print Assumptions C42_nul_refuted.

(** ** C43: new array items. *)

(** [ed] is the new array, longer than [eb], in place of [eb] in the base (reached by the same
    names and element numbers).  All tokens of the additional items are marked, provided the
    first additional item is not itself an array. *)
Theorem C43_new_items_marked_partial : forall o jb jd b d err s eb q common x extra,
  is_container jb -> is_container jd -> unique_names jb -> unique_names jd -> no_nul jb -> no_nul jd -> comparable o jb jd ->
  src_of jb b -> src_of jd d ->
  run_diff o b (fresh d err) = Ok s ->
  compared jb 0 jd eb q (common ++ x :: extra) -> length common = length eb -> (forall l, x <> JArr l) ->
  forall p, S q + list_sum (map ntok common) <= p < S q + list_sum (map ntok (common ++ x :: extra)) ->
  nth_error (dt_diffs s) p = Some NewArrayItem.
Proof.
  intros o jb jd b d err s eb q common x extra Cb Cd Ub Ud Zb Zd Hc Sb Sd Er Hco Hl Hx p Hp.
  destruct (run_ok o jb jd b d err Cb Cd Sb Sd Hc) as (es & s' & _ & Er' & Ea & Hv & _).
  rewrite Er in Er'. injection Er' as <-.
  rewrite (compared_kind _ _ _ _ _ _ Hco) in Hv.
  destruct (te_new_items o _ _ _ _ _ _ Hco Ub Ud Zb Zd common x extra eq_refl Hl) with (p := p) as [H1 H2].
  - destruct x; try exact I. exact (Hx _ eq_refl).
  - exact Hp.
  - rewrite <- Hv in H1, H2. refine (apply_last es p NewArrayItem (fresh d err) s Ea _ _).
    + intros e He Hpe. specialize (H1 (ev_view e) (in_map _ _ _ He)). rewrite ev_view_pos in H1. specialize (H1 Hpe).
      rewrite <- ev_view_type, H1. reflexivity.
    + left. apply in_map_iff in H2. destruct H2 as (e & He & Hi). exists e. split; [exact Hi|]. rewrite <- ev_view_pos, He. reflexivity.
Qed.
Print Assumptions C43_new_items_marked_partial.

Definition c43_base : json := JObj [(s2b "k", JScalar SNull); (s2b "a", JArr [num (s2b "1")])].
Definition c43_new : json := JObj [(s2b "a", JArr [num (s2b "1"); num (s2b "5"); JArr [num (s2b "2"); JArr []]; num (s2b "3")])].
Example C43_nonvacuous :
  compared c43_base 0 c43_new [num (s2b "1")] 1 ([num (s2b "1")] ++ num (s2b "5") :: [JArr [num (s2b "2"); JArr []]; num (s2b "3")]) /\
  match run_diff by_text (src c43_base) (fresh (src c43_new) DNoError) with Ok s => Some (dt_diffs s) | _ => None end =
  Some [MissingMembers; NoDiff; NoDiff; NewArrayItem; NewArrayItem; NewArrayItem; NewArrayItem; NewArrayItem; NewArrayItem; NewArrayItem; NoDiff; NoDiff].
Proof.
  split; [|vm_compute; reflexivity].
  apply (Co_member (s2b "a") [(s2b "k", JScalar SNull)] _ [] [] _ [] 0). apply Co_here.
Qed.

(** When the first additional item is an array, only its tokens before the closing bracket are marked. *)
Theorem C43_array_first_refuted : exists jb jd eb q common extra s p,
  is_container jb /\ is_container jd /\ unique_names jb /\ unique_names jd /\ no_nul jb /\ no_nul jd /\ comparable by_text jb jd /\
  run_diff by_text (src jb) (fresh (src jd) DNoError) = Ok s /\
  compared jb 0 jd eb q (common ++ extra) /\ length common = length eb /\
  S q + list_sum (map ntok common) <= p < S q + list_sum (map ntok (common ++ extra)) /\
  nth_error (dt_diffs s) p = Some NoDiff.
Proof.
  set (jb := JArr [num (s2b "1")]). set (jd := JArr ([num (s2b "1")] ++ [JArr [num (s2b "2")]; num (s2b "3")])).
  exists jb, jd, [num (s2b "1")], 0, [num (s2b "1")], [JArr [num (s2b "2")]; num (s2b "3")].
  exists (match run_diff by_text (src jb) (fresh (src jd) DNoError) with Ok s => s | _ => fresh (src jb) DNoError end), 5.
  split; [exact I|]. split; [exact I|]. split; [repeat constructor|]. split; [repeat constructor|].
  split; [repeat constructor; intros; discriminate|]. split; [repeat constructor; intros; discriminate|].
  split; [intros x y _ _; eexists; reflexivity|]. split; [vm_compute; reflexivity|]. split; [apply Co_here|].
  split; [reflexivity|]. split; [cbn; lia|]. vm_compute. reflexivity.
Qed.
Print Assumptions C43_array_first_refuted.

(** ** C44: evaluating again. *)

Definition invalidated (n : nat) (c : dctx) : outcome dctx := Nat.iter n (fun r => let* c := r in ctx_invalidate c) (Ok c).

(** All but missingArrayItems: the source, the marks, the count and the missing members. *)
Theorem C44_invalidate_idempotent_partial : forall c n, ctx_reached c ->
  exists c', invalidated n c = Ok c' /\
    Forall2 (fun s s' => dt_src s' = dt_src s /\ dt_diffs s' = dt_diffs s /\ dt_count s' = dt_count s /\ dt_members s' = dt_members s)
      (dc_diffs c) (dc_diffs c').
Proof.
  intros c n Hc. assert (G : exists c', invalidated n c = Ok c' /\ ctx_ok c' /\ Forall2 but_items (dc_diffs c) (dc_diffs c')).
  { induction n as [|n IH].
    - exists c. split; [reflexivity|]. split; [apply ctx_reached_ok; exact Hc|].
      induction (dc_diffs c) as [|s l IHl]; constructor; [repeat split|exact IHl].
    - destruct IH as (c1 & E1 & O1 & F1). destruct (invalidate_ok c1 O1) as (c2 & E2 & O2 & F2 & _).
      exists c2. split; [unfold invalidated in *; cbn [Nat.iter nat_rect]; unfold Nat.iter in E1; rewrite E1; exact E2|]. split; [exact O2|].
      clear -F1 F2. revert F1 F2. generalize (dc_diffs c), (dc_diffs c1), (dc_diffs c2). intros l1 l2 l3 F. revert l3.
      induction F as [|a b l1 l2 Hab _ IH]; intros l3 F2; inversion F2; subst; constructor; [eapply but_items_trans; eassumption|auto]. }
  destruct G as (c' & E & _ & F). exists c'. split; [exact E|]. clear -F.
  induction F as [|a b l1 l2 (A & B & C & D) _ IH]; constructor; [|exact IH]. repeat split; congruence.
Qed.
Print Assumptions C44_invalidate_idempotent_partial.

Definition c44_base : json := JArr [num (s2b "1"); num (s2b "2")].
Definition c44_new : json := JArr [num (s2b "3")].
Definition c44_ctx : outcome dctx := ctx_diff (src c44_new) DNoError (mkDctx (fresh (src c44_base) DNoError) [] by_text DNoError).
Example C44_nonvacuous : exists c, c44_ctx = Ok c /\ ctx_reached c /\ map dt_diffs (dc_diffs c) = [[MissingArrayItems; ValueDiff; NoDiff]].
Proof.
  exists (match c44_ctx with Ok c => c | _ => mkDctx (fresh (src c44_base) DNoError) [] by_text DNoError end).
  split; [vm_compute; reflexivity|]. split; [|vm_compute; reflexivity].
  apply (Cr_diff (mkDctx (fresh (src c44_base) DNoError) [] by_text DNoError) (src c44_new) DNoError); [apply Cr_new|].
  vm_compute. reflexivity.
Qed.

(** The missing array items pile up. *)
Theorem C44_missing_items_refuted : exists c c', ctx_reached c /\ ctx_invalidate c = Ok c' /\
  map (fun s => map (fun x => length (snd x)) (dt_items s)) (dc_diffs c) = [[1]] /\
  map (fun s => map (fun x => length (snd x)) (dt_items s)) (dc_diffs c') = [[2]].
Proof.
  set (c0 := mkDctx (fresh (src c44_base) DNoError) [] by_text DNoError).
  exists (match c44_ctx with Ok c => c | _ => c0 end).
  exists (match c44_ctx with Ok c => match ctx_invalidate c with Ok c' => c' | _ => c0 end | _ => c0 end).
  split; [|vm_compute; auto].
  apply (Cr_diff c0 (src c44_new) DNoError); [apply Cr_new|]. vm_compute. reflexivity.
Qed.
Print Assumptions C44_missing_items_refuted.
