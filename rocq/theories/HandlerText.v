(** From the tokens of a document to its text. *)
From Verif Require Import Base Tactics ScanModel TokModel JsonSpec TokSpec TokGap TokJsonDoc PropJson EscapeModel IntModel MapSpec MapProofs MapProofs2 DiffProofs SerDoc HandlerModel HandlerSpec HandlerTree HandlerLaws HandlerProps HandlerStruct.
From Coq Require Import Lia Permutation.

Lemma drain_feeds o f : forall nt s ts e s', drain f o nt s = Ok (ts, e, s') ->
  exists s1 nt1, feeds (nextToken o) nt s (map tok_view ts) s1 nt1.
Proof.
  induction f as [|f IH]; intros nt s ts e s' H; cbn [drain] in H; [discriminate H|].
  destruct (nextToken o nt s) as [[[s1 e1] nt1]| |] eqn:E; cbn [obind] in H; try discriminate H.
  destruct e1; try (injection H as <- _ _; exists s, nt; constructor).
  destruct (drain f o nt1 s1) as [[[ts1 e2] s2]| |] eqn:E1; cbn [obind] in H; try discriminate H. injection H as <- _ _.
  destruct (IH _ _ _ _ _ E1) as (s3 & nt3 & F). exists s3, nt3. cbn [map]. exact (Fd_cons _ _ _ _ _ _ _ _ _ E eq_refl F).
Qed.

Lemma text_feeds o g j text : o_nl o = false -> doc_text plain j text ->
  exists s' nt', feeds (nextToken o) tok_default (c_src (context_of g text)) (doc_tokens None j) s' nt'.
Proof.
  intros Ho Hd. destruct (C03_document_tokens o j text Ho Hd tok_default) as (f & ts & s & Hdr & Hv).
  rewrite <- Hv. exact (drain_feeds o f _ _ _ _ _ Hdr).
Qed.

Lemma parses_fun o g t v text e1 v1 r1 e2 v2 r2 : parses o g t v text e1 v1 r1 -> parses o g t v text e2 v2 r2 -> e1 = e2 /\ v1 = v2 /\ r1 = r2.
Proof.
  intros (n1 & H1) (n2 & H2). specialize (H1 (max n1 n2) ltac:(lia)). specialize (H2 (max n1 n2) ltac:(lia)).
  rewrite H1 in H2. injection H2 as -> -> ->. auto.
Qed.

Lemma text_read o g t v j text : ty_ok t -> shaped t v -> fits t (Some j) -> o_nl o = false -> doc_text plain j text ->
  forall fuel, length (doc_tokens None j) <= fuel -> exists e v' r, read_value g t v j = Ok (e, v', r) /\ parse_text o g fuel t v text = Ok (e, v', r).
Proof.
  intros Ht Hv Hf Ho Hd fuel Hl. destruct (text_feeds o g j text Ho Hd) as (s' & nt' & F).
  unfold parse_text, parseTo, ctx_next, ctx_read. change (c_tok (context_of g text)) with tok_default.
  destruct (doc_tokens None j) as [|v0 vs] eqn:Ed.
  { assert (L := ntok_pos j). unfold ntok in L. rewrite Ed in L. cbn in L. lia. }
  inversion F as [|? ? s1 nt1 ? ? ? ? Hn Hv0 Hfd]; subst. rewrite Hn. cbn [obind is_ok].
  set (c := set_err _ _).
  assert (St : stands (nextToken o) c (doc_tokens None j) s' nt').
  { split; [reflexivity|]. rewrite Ed. eexists. split; [reflexivity|exact Hfd]. }
  destruct (to_read (nextToken o) fuel t v c None j s' nt' Ht Hv Hf St) as (e & v' & m & u & c' & A & B & C & D & _); [rewrite Ed; exact Hl|].
  exists e, v', (m, u). split; [exact A|]. rewrite B. cbn [obind]. unfold rep. cbn. cbn in C, D. rewrite C, D. reflexivity.
Qed.

Lemma parses_read o g t v j text e v' r : ty_ok t -> shaped t v -> fits t (Some j) -> o_nl o = false -> doc_text plain j text ->
  (parses o g t v text e v' r <-> read_value g t v j = Ok (e, v', r)).
Proof.
  intros Ht Hv Hf Ho Hd. assert (K := text_read o g t v j text Ht Hv Hf Ho Hd). split.
  - intros (n & H). destruct (K (max n (length (doc_tokens None j))) ltac:(lia)) as (e1 & v1 & r1 & A & B).
    rewrite (H (max n (length (doc_tokens None j))) ltac:(lia)) in B. injection B as -> -> ->. exact A.
  - intros H. exists (length (doc_tokens None j)). intros fuel Hl. destruct (K fuel Hl) as (e1 & v1 & r1 & A & B).
    rewrite H in A. injection A as -> -> ->. exact B.
Qed.

Lemma parses_total o g t v j text : ty_ok t -> shaped t v -> fits t (Some j) -> o_nl o = false -> doc_text plain j text ->
  exists e v' r, parses o g t v text e v' r.
Proof.
  intros Ht Hv Hf Ho Hd. destruct (text_read o g t v j text Ht Hv Hf Ho Hd _ (le_n _)) as (e & v' & r & A & _).
  exists e, v', r. apply (parses_read o g t v j text); assumption.
Qed.

Lemma parses_sem o g t v j text e v' r : ty_ok t -> shaped t v -> fits t (Some j) -> o_nl o = false -> doc_text plain j text ->
  (parses o g t v text e v' r <-> sem g t v (Some j) r0 = Ok (e, v', r)).
Proof. intros Ht Hv Hf Ho Hd. rewrite (parses_read o g t v j text) by assumption. rewrite read_value_sem by assumption. reflexivity. Qed.

(** ** Structs *)
Lemma good_read g b fs : ty_ok (YStruct b fs) -> forall ms vs a, all2 (map (fun f => shaped (snd f)) fs) vs -> fits (YStruct b fs) (Some (JObj ms)) ->
  forall vs' d, ((exists a', good g (search_order 0 b) (map (fun f => snd (fst f)) fs) (map (fun f => sem g (snd f)) fs) ms vs a (vs', a') d) <->
     members_read g b fs ms vs vs' d).
Proof.
  intros Hok. assert (Hap := ss_appends g fs). destruct (proj1 (ty_ok_struct _ _) Hok) as (Hb & Hall). rewrite Forall_forall in Hall.
  induction ms as [|[k j] ms IH]; intros vs a Hv Hfit vs' d.
  - split; intros H.
    + destruct H as (a' & H). injection H as <- <- <-. constructor.
    + inversion H; subst. exists a. reflexivity.
  - cbn [fits] in Hfit. apply Forall_cons_iff in Hfit. destruct Hfit as (Hk & Hfit). cbn [fst snd] in Hk.
    split; intros H.
    + destruct H as (a' & H). apply (good_cons g _ _ _ Hap) in H. destruct H as (y & d1 & d2 & A & B & ->). apply good_one in A.
      destruct (search_both k _ _) as [i|] eqn:E.
      * destruct A as (s & v & v' & A1 & A2 & A3 & ->). cbn [fst snd] in B.
        rewrite nth_error_map in A1. destruct (nth_error fs i) as [f|] eqn:Ef; [|discriminate A1]. injection A1 as <-.
        assert (Hfi : fits (snd f) (Some j)).
        { erewrite nth_error_nth in Hk; [exact Hk|]. rewrite nth_error_map, Ef. reflexivity. }
        assert (Hvi : shaped (snd f) v).
        { eapply all2_nth; [exact Hv| |exact A2]. rewrite nth_error_map, Ef. reflexivity. }
        eapply Mr_known; [exact E|exact Ef|exact A2| |].
        -- rewrite read_value_sem; [exact A3|exact (Hall f (nth_error_In _ _ Ef))|exact Hvi|exact Hfi].
        -- eapply IH; [|exact Hfit|eexists; exact B].
           eapply all2_put; [exact Hv|rewrite nth_error_map, Ef; reflexivity|].
           eapply sem_keeps; [|exact A3]. exact Hvi.
      * destruct A as (A1 & -> & ->). cbn [fst snd] in B. replace (note_missing g k r0) with ((if pc_track g then [k] else [], []) : report).
        -- apply Mr_unknown; [exact E|exact A1|]. eapply IH; [exact Hv|exact Hfit|eexists; exact B].
        -- unfold note_missing. destruct (pc_track g); reflexivity.
    + inversion H as [|k0 j0 ms0 i f v v' vs0 vs0' r1 r2 Hk1 Hk2 Hk3 Hk4 Hk5|k0 j0 ms0 vs0 vs0' r Hk1 Hk4 Hk5]; subst.
      * unfold member_named in Hk1. rewrite Hk1 in Hk.
        assert (Hfi : fits (snd f) (Some j)).
        { erewrite nth_error_nth in Hk; [exact Hk|]. rewrite nth_error_map, Hk2. reflexivity. }
        assert (Hvi : shaped (snd f) v).
        { eapply all2_nth; [exact Hv| |exact Hk3]. rewrite nth_error_map, Hk2. reflexivity. }
        rewrite read_value_sem in Hk4; [|exact (Hall f (nth_error_In _ _ Hk2))|exact Hvi|exact Hfi].
        assert (Hv' : all2 (map (fun f => shaped (snd f)) fs) (put i v' vs)).
        { eapply all2_put; [exact Hv|rewrite nth_error_map, Hk2; reflexivity|]. eapply sem_keeps; [|exact Hk4]. exact Hvi. }
        destruct (proj2 (IH (put i v' vs) (put i true a) Hv' Hfit vs' r2) Hk5) as (a' & B).
        exists a'. apply (good_cons g _ _ _ Hap). exists (put i v' vs, put i true a), r1, r2. split; [|split; [exact B|reflexivity]].
        apply good_one. rewrite Hk1. exists (sem g (snd f)), v, v'. rewrite nth_error_map, Hk2. auto.
      * unfold member_named in Hk1. destruct (proj2 (IH vs a Hv Hfit vs' r) Hk5) as (a' & B). exists a'.
        apply (good_cons g _ _ _ Hap). exists (vs, a), (if pc_track g then [k] else [], []), r. split; [|split; [exact B|reflexivity]].
        apply good_one. rewrite Hk1. split; [exact Hk4|]. split; [reflexivity|]. unfold note_missing. destruct (pc_track g); reflexivity.
Qed.
