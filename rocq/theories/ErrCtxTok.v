(** The error context after nextToken. *)
From Verif Require Import Base ScanModel TokModel.
Local Open Scope nat_scope.

(** ** After nextToken *)

Lemma finish_bufs o buf off size0 ty s s1 e x t :
  finish_value o buf off size0 ty s = Ok (s1, e, x, t) -> t_bufs s1 = t_bufs s.
Proof.
  unfold finish_value. destruct (t_prop s); try (intros [= <- <- <- <-]; reflexivity).
  destruct ty; try (intros [= <- <- <- <-]; reflexivity).
  - destruct (findStringEnd _ _ _) as [[k|] es]; [|intros [= <- <- <- <-]; reflexivity].
    destruct (_ <? _); [discriminate|]. intros [= <- <- <- <-]. reflexivity.
  - destruct (findAsciiEnd _ _); [|intros [= <- <- <- <-]; reflexivity].
    destruct (_ <? _); [discriminate|]. intros [= <- <- <- <-]. reflexivity.
  - destruct (findNumberEnd _ _); [|intros [= <- <- <- <-]; reflexivity].
    destruct (_ <? _); [discriminate|]. intros [= <- <- <- <-]. reflexivity.
Qed.
Lemma populateFrom_bufs o buf ty s s1 e x t :
  populateFromDataRef o buf ty s = Ok (s1, e, x, t) -> t_bufs s1 = t_bufs s.
Proof.
  unfold populateFromDataRef. destruct (t_prop s); try apply finish_bufs.
  destruct (findStartOfNextValue _ _ _) as [? ?|? ? ?|]; [intros [= <- <- <- <-]; reflexivity| |discriminate].
  cbv zeta. destruct (is_bracket _); intros E; apply finish_bufs in E; exact E.
Qed.
Lemma populateNext_bufs o buf : forall f tmp nt s s1 e nt1,
  populateNext f o buf tmp nt s = Ok (s1, e, nt1) -> t_bufs s1 = t_bufs s.
Proof.
  induction f as [|f IH]; intros tmp nt s s1 e nt1; [discriminate|]. cbn [populateNext].
  destruct (t_cur s <? length buf); [|intros [= <- <- <-]; reflexivity].
  destruct (t_tok s).
  - destruct (populateFromDataRef _ _ _ s) as [[[[s2 e2] [off size]] ty]| |] eqn:E; cbn [obind]; try discriminate.
    apply populateFrom_bufs in E.
    destruct e2; try (intros [= <- <- <-]; exact E).
    + destruct (slice _ _ _) as [raw| |]; cbn [obind]; try discriminate.
      set (p := if im_active (t_im s2) then _ else _). assert (Hp : t_bufs (fst (fst p)) = t_bufs s2)
        by (unfold p; destruct (im_active _); reflexivity). destruct p as [[s3 d] ty2]. cbn in Hp.
      destruct ty2; try (destruct (_ && _); intros [= <- <- <-]; cbn; congruence);
        try (intros [= <- <- <-]; cbn; congruence); intros H; apply IH in H; cbn in H; congruence.
    + destruct (prop_gt_nostart _); [|intros [= <- <- <-]; exact E].
      destruct (slice _ _ _); cbn [obind]; try discriminate. intros [= <- <- <-]. exact E.
  - destruct (findDelimiter _ _ _ _) as [? ?|next ? ?|]; try discriminate.
    + intros [= <- <- <-]. cbn. destruct (im_active _); reflexivity.
    + destruct next; try (intros [= <- <- <-]; reflexivity);
        (destruct (_ && _); [intros [= <- <- <-]; reflexivity|intros H; apply IH in H; exact H]).
  - destruct (populateFromDataRef _ _ _ s) as [[[[s2 e2] [off size]] ty]| |] eqn:E; cbn [obind]; try discriminate.
    apply populateFrom_bufs in E.
    destruct e2; try (intros [= <- <- <-]; exact E).
    + destruct (slice _ _ _) as [raw| |]; cbn [obind]; try discriminate.
      set (p := if im_active (t_im s2) then _ else _). assert (Hp : t_bufs (fst (fst (fst (fst p)))) = t_bufs s2)
        by (unfold p; destruct (im_active _); reflexivity). destruct p as [[[[s3 name] nty] d] ty2]. cbn in Hp.
      destruct (_ && _); intros [= <- <- <-]; cbn; congruence.
    + destruct (prop_gt_nostart _); [|intros [= <- <- <-]; exact E].
      destruct (slice _ _ _); cbn [obind]; try discriminate. intros [= <- <- <-]. exact E.
  - destruct (findTokenEnd _ _ _ _) as [? ?|? ? comma|]; try discriminate.
    + intros [= <- <- <-]. reflexivity.
    + intros H. apply IH in H. cbn in H. destruct comma; exact H.
Qed.
Lemma buffer_loop_bufs o : forall f nt s s1 e nt1,
  buffer_loop f o nt s = Ok (s1, e, nt1) -> e <> NeedMoreData -> t_bufs s1 <> [].
Proof.
  induction f as [|f IH]; intros nt s s1 e nt1; cbn [buffer_loop].
  { destruct (t_bufs s); [intros [= <- <- <-]; congruence|discriminate]. }
  destruct (t_bufs s) as [|buf bs] eqn:Hb; [intros [= <- <- <-]; congruence|].
  destruct (populateNext _ _ _ _ _ _) as [[[s2 e2] nt2]| |] eqn:E; cbn [obind]; try discriminate.
  apply populateNext_bufs in E.
  destruct e2; try (intros [= <- <- <-] _; rewrite E, Hb; discriminate).
  destruct (releaseFirstDataRef s2) as [s3| |]; cbn [obind]; try discriminate. apply IH.
Qed.
Lemma nextToken_error_bufs o nt s s1 e nt1 : nextToken o nt s = Ok (s1, e, nt1) ->
  e <> NoError -> e <> NeedMoreData -> e <> ScopeHasEnded -> t_parsed s = None /\ t_bufs s1 <> [].
Proof.
  unfold nextToken. destruct (match t_scope s with (_, d) :: _ => (d =? 0)%N | [] => false end); [intros [= <- <- <-]; congruence|].
  destruct (t_parsed s) as [ts|].
  { destruct (nth_error _ _); intros [= <- <- <-]; congruence. }
  set (s0 := match t_bufs s with [] => requestMoreData s | _ => s end).
  destruct (t_bufs s0); [intros [= <- <- <-]; congruence|].
  destruct (buffer_loop _ _ _ _) as [[[s2 e2] nt2]| |] eqn:E; cbn [obind]; try discriminate.
  pose proof (buffer_loop_bufs _ _ _ _ _ _ _ E) as H.
  destruct e2; try (intros [= <- <- <-]; intros; split; [reflexivity|]; apply H; congruence).
  destruct (tk_value_type nt2); try (intros [= <- <- <-]; congruence);
    (destruct (t_stack _) as [|[] ?]; intros [= <- <- <-]; intros; try congruence; (split; [reflexivity|apply H; congruence])).
Qed.
