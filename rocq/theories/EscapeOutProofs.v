(** Lemmas about EscapeOutModel.v. *)
From Verif Require Import Base ScanModel ScanProofs VecModel VecProofs EscapeModel EscapeProofs.
From Verif Require Import EscapeOutModel EscapeOutSpec.
From Coq Require Import Lia.

Lemma escape_mask_on w cs : length cs = w ->
  escape_mask w (map byte_val cs) = on escape_stop cs.
Proof.
  intros H. unfold escape_mask. cbv zeta. rewrite !cmpeq_on by assumption.
  assert (A : vcmpeq (vmin (map byte_val cs) (vset1 w x0d)) (map byte_val cs)
              = on (fun c => (byte_val c <=? 13)%N) cs).
  { rewrite <- H. unfold vcmpeq, vmin. rewrite vset1_map, !vmap2_map. unfold on.
    apply map_ext. intros c. change (byte_val x0d) with 13%N.
    destruct (N.leb_spec (byte_val c) 13).
    - rewrite N.min_l by lia. rewrite N.eqb_refl. reflexivity.
    - rewrite N.min_r by lia. destruct (N.eqb_spec 13 (byte_val c)); [lia|reflexivity]. }
  rewrite A, !or_on. reflexivity.
Qed.

Lemma tail_escape_stop c : tail_escape c = escape_stop c.
Proof. unfold tail_escape. rewrite !byte_val_eqb. reflexivity. Qed.

Lemma find_escape_count b data : find_escape b data = Ok (scalar_count escape_stop data).
Proof.
  assert (S : forall w, 0 < w -> w <= 32 ->
    scan_return w (fun chunk => stop_at_set (escape_mask w chunk)) tail_escape data
    = Ok (scalar_count escape_stop data)).
  { intros w W W'. rewrite (scan_return_ok w _ escape_stop); [|exact W| |apply tail_escape_stop].
    - rewrite simd_count_eq by exact W. reflexivity.
    - apply round_set; [exact W'|]. intros; apply escape_mask_on; assumption. }
  destruct b; cbn [find_escape]; try (apply S; lia);
    rewrite tail_loop_count, (scalar_count_ext _ _ _ tail_escape_stop); reflexivity.
Qed.

Lemma stop_passed c : escape_stop c = false <-> passed c.
Proof.
  unfold escape_stop, passed, byte_val. rewrite !orb_false_iff, N.leb_gt.
  rewrite !byte_eqb_neq. unfold c_quote, c_backslash. tauto.
Qed.

Lemma count_end p l : scalar_count p l = length l -> Forall (fun c => p c = false) l.
Proof.
  induction l as [|c l IH]; cbn [scalar_count length]; [constructor|].
  destruct (p c) eqn:P; [lia|]. intros H. constructor; [exact P|]. apply IH. lia.
Qed.

Lemma count_le p l : scalar_count p l <= length l.
Proof. induction l as [|c l IH]; cbn; [lia|]. destruct (p c); lia. Qed.

Lemma count_hit p l c : nth_error l (scalar_count p l) = Some c -> p c = true /\ In c l.
Proof.
  induction l as [|x l IH]; cbn [scalar_count]; [discriminate|].
  destruct (p x) eqn:P; cbn; [intros [= <-]; auto|]. intros H. apply IH in H. tauto.
Qed.

Lemma out_char_cons c : exists x y, escape_out_char c = x :: y.
Proof. destruct c; do 2 eexists; reflexivity. Qed.

Lemma skipn_cons {A} (l : list A) : forall p c, nth_error l p = Some c ->
  skipn p l = c :: skipn (S p) l.
Proof.
  induction l as [|x l IH]; intros [|p] c H; cbn in H |- *; try discriminate.
  - congruence.
  - rewrite (IH p c H). reflexivity.
Qed.

Lemma skipn_add {A} (l : list A) : forall p k, skipn k (skipn p l) = skipn (p + k) l.
Proof.
  induction l as [|x l IH]; intros [|p] k; cbn; rewrite ?skipn_nil; try reflexivity. apply IH.
Qed.

Lemma flat_map_stop l :
  flat_map escape_out_char l =
  firstn (scalar_count escape_stop l) l ++
  flat_map escape_out_char (skipn (scalar_count escape_stop l) l).
Proof.
  rewrite <- (firstn_skipn (scalar_count escape_stop l) l) at 1.
  rewrite flat_map_app, out_prefix. reflexivity.
Qed.

Lemma out_rounds_ok b d : forall fuel buffer p, p <= length d -> length d - p < fuel ->
  exists new s, out_rounds fuel b d buffer p p = Ok (buffer ++ new, s) /\ s <= length d /\
    new ++ skipn s d = flat_map escape_out_char (skipn p d) /\
    (new = [] -> s = p) /\ (new = [] <-> Forall passed (skipn p d)).
Proof.
  induction fuel as [|f IH]; intros buffer p P F; [lia|].
  cbn [out_rounds]. destruct (Nat.ltb_spec p (length d)) as [L|L].
  2:{ exists [], p. rewrite app_nil_r, skipn_all2 by lia. repeat split; auto; constructor. }
  unfold text_from. destruct (Nat.leb_spec p (length d)); [|lia]. cbn [obind].
  rewrite find_escape_count. cbn [obind]. cbv zeta.
  pose proof (flat_map_stop (skipn p d)) as FM. pose proof (count_le escape_stop (skipn p d)) as CL.
  pose proof (count_end escape_stop (skipn p d)) as CE.
  pose proof (count_hit escape_stop (skipn p d)) as CH.
  pose proof (skipn_length p d) as SL. rewrite SL in *.
  set (k := scalar_count escape_stop (skipn p d)) in *.
  destruct (Nat.leb_spec (length d) (p + k)) as [E|E].
  - exists [], p. assert (K : k = length d - p) by lia. rewrite app_nil_r.
    split; [reflexivity|]. split; [exact P|]. split; [|split; [reflexivity|]].
    + rewrite FM, (skipn_all2 (skipn p d)) by lia. cbn [flat_map app].
      rewrite app_nil_r, firstn_all2 by lia.
      reflexivity.
    + split; [intros _|reflexivity]. eapply Forall_impl; [|apply CE; exact K].
      intros c. apply stop_passed.
  - unfold byte_at. destruct (nth_error d (p + k)) as [c|] eqn:N.
    2:{ apply nth_error_None in N. lia. }
    cbn [obind]. pose proof (skipn_cons d (p + k) c N) as SC.
    assert (H0 : nth_error (skipn p d) k = Some c).
    { rewrite <- (firstn_skipn p d) in N. rewrite nth_error_app2 in N
        by (rewrite firstn_length; lia).
      rewrite firstn_length, Nat.min_l in N by lia. replace (p + k - p) with k in N by lia.
      exact N. }
    destruct (CH c H0) as [ST IN].
    assert (B : (if p <? p + k then let* part := text_between d p (p + k) in Ok (buffer ++ part)
                 else Ok buffer) = Ok (buffer ++ firstn k (skipn p d))).
    { destruct (Nat.ltb_spec p (p + k)).
      - unfold text_between. destruct (Nat.leb_spec p (p + k)); [|lia].
        destruct (Nat.leb_spec (p + k) (length d)); [|lia]. cbn [andb obind].
        replace (p + k - p) with k by lia. reflexivity.
      - replace k with 0 by lia. cbn [firstn]. rewrite app_nil_r. reflexivity. }
    rewrite B. cbn [obind].
    destruct (IH ((buffer ++ firstn k (skipn p d)) ++ escape_out_char c) (p + k + 1))
      as (new & s & R & Sl & FX & _ & _); [lia|lia|].
    exists (firstn k (skipn p d) ++ escape_out_char c ++ new), s.
    split; [rewrite R, !app_assoc; reflexivity|]. split; [exact Sl|]. split.
    + rewrite FM, skipn_add, SC. cbn [flat_map]. rewrite <- !app_assoc, FX.
      replace (p + k + 1) with (S (p + k)) by lia. reflexivity.
    + assert (NN : firstn k (skipn p d) ++ escape_out_char c ++ new <> []).
      { destruct (out_char_cons c) as (x & y & ->). cbn [app].
        intros X. apply app_eq_nil in X. destruct X. discriminate. }
      split; [intros X; destruct (NN X)|]. split; [intros X; destruct (NN X)|].
      intros X. exfalso. rewrite Forall_forall in X. apply X in IN. apply stop_passed in IN.
      congruence.
Qed.

Lemma flat_written l : written l (flat_map escape_out_char l).
Proof.
  induction l as [|c l IH]; cbn [flat_map]; [constructor|].
  destruct (existsb (Byte.eqb c) (map fst short_escapes)) eqn:E.
  - destruct c; try discriminate E; cbn [escape_out_char app];
      apply written_short; try exact IH; cbn; tauto.
  - assert (escape_out_char c = [c]) as -> by (destruct c; try discriminate E; reflexivity).
    apply written_plain; [|exact IH]. intros I.
    assert (X : existsb (Byte.eqb c) (map fst short_escapes) = true).
    { apply existsb_exists. exists c. split; [exact I|apply byte_eqb_refl]. }
    congruence.
Qed.

(** The result for every content of the caller's buffer. *)
Lemma handle_out b data buffer :
  (Forall passed data /\ buffer = [] /\
   handle_json_escapes_out b data buffer = Ok (OfData data)) \/
  (~ (Forall passed data /\ buffer = []) /\
   handle_json_escapes_out b data buffer
   = Ok (OfBuffer (buffer ++ flat_map escape_out_char data))).
Proof.
  unfold handle_json_escapes_out.
  destruct (out_rounds_ok b data (S (length data)) buffer 0) as (new & s & R & S & F & Z & I);
    [lia|lia|]. rewrite R. cbn [obind skipn] in *.
  assert (PT : (if s <? length data then let* part := text_between data s (length data) in
                  Ok (OfBuffer ((buffer ++ new) ++ part)) else Ok (OfBuffer (buffer ++ new)))
               = Ok (OfBuffer (buffer ++ flat_map escape_out_char data))).
  { rewrite <- F. destruct (Nat.ltb_spec s (length data)).
    - unfold text_between. destruct (Nat.leb_spec s (length data)); [|lia].
      rewrite Nat.leb_refl. cbn [andb obind]. rewrite firstn_all2 by (rewrite skipn_length; lia).
      rewrite app_assoc. reflexivity.
    - rewrite skipn_all2, app_nil_r by lia. reflexivity. }
  rewrite PT. destruct (Nat.ltb_spec 0 (length (buffer ++ new))) as [L|L].
  - right. split; [|reflexivity]. intros [X ->]. apply I in X. subst new. cbn in L. lia.
  - left. destruct buffer; [|cbn in L; lia]. destruct new; [|cbn in L; lia].
    split; [apply I; reflexivity|]. auto.
Qed.
