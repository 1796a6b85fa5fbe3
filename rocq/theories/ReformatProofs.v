(** Lemmas for C64 and C65: reformat on arbitrary bytes. *)
From Verif Require Import Base ScanModel TokModel JsonSpec TokSpec TokProofs TokSafe TokSpecProofs
  TokSlice TokJsonDoc TokGap SerModel SerSpec SerProofs SerDoc TokIsa PrefixProofs.
From Coq Require Import Lia.

Lemma error_eq_dec (a b : error) : {a = b} + {a <> b}.
Proof. decide equality. Qed.

(** The tokens of a text. *)
Lemma plain_drain o t nt : exists ts e s,
  (forall f, length t + 1 < f -> drain f o nt (tok_with [t] []) = Ok (ts, e, s)) /\
  e <> NoError /\ length ts <= length t + 1.
Proof.
  assert (Hr : reachable o (addData t t_init)) by (apply R_add; [apply R_init|reflexivity]).
  destruct (drain_terminates o _ nt Hr) as (ts & e & s & H1 & H2 & H3).
  assert (Hb : total_bytes (addData t t_init) + parsed_count (addData t t_init) = length t).
  { unfold total_bytes, parsed_count. cbn. rewrite app_nil_r. lia. }
  rewrite Hb in H1, H3. exists ts, e, s. auto.
Qed.

Definition shown (e : error) : error := match e with NeedMoreData => NoError | _ => e end.

Lemma reformat_drain i so n0 t f ts e s :
  drain f (mkOpts i false false false false) tok_default (tok_with [t] []) = Ok (ts, e, s) ->
  reformat i so n0 t = Ok (shown e, texts ts (true, true, so)).
Proof.
  intros Hd. set (o := mkOpts i false false false false) in *.
  destruct (plain_drain o t tok_default) as (ts2 & e2 & s2 & Hd2 & _).
  assert (E : Ok (ts2, e2, s2) = Ok (ts, e, s)).
  { rewrite <- (Hd2 (f + (length t + 3))) by lia. apply (drain_fuel _ _ (f + (length t + 3))) in Hd; [exact Hd|lia]. }
  injection E as -> -> ->. specialize (Hd2 (length t + 3) ltac:(lia)).
  change (tok_with [t] []) with (addData t t_init) in Hd2.
  unfold reformat. cbv zeta. set (n := if Nat.eqb n0 0 then 4096 else n0). fold o.
  assert (Hn : 0 < n).
  { unfold n. destruct (Nat.eqb_spec n0 0); [|lia]. apply Nat.ltb_lt. vm_compute. reflexivity. }
  destruct (ser_writes_generous ts (ser_make so n (reformat_supply n))) as (se & R1 & _ & _ & _ & R5).
  { split; cbn; [lia|constructor]. }
  { intros k. cbn. unfold reformat_supply. assert (2 ^ k <> 0) by (apply Nat.pow_nonzero; discriminate). nia. }
  rewrite (reformat_loop_drain _ _ _ _ _ _ _ _ _ _ Hd2 R1). cbn [obind]. rewrite R5. reflexivity.
Qed.

Lemma reformat_total i so n0 t : exists f ts e s,
  drain f (mkOpts i false false false false) tok_default (tok_with [t] []) = Ok (ts, e, s) /\
  e <> NoError /\ length ts <= length t + 1 /\
  reformat i so n0 t = Ok (shown e, texts ts (true, true, so)).
Proof.
  destruct (plain_drain (mkOpts i false false false false) t tok_default) as (ts & e & s & H1 & H2 & H3).
  specialize (H1 (length t + 3) ltac:(lia)). exists (length t + 3), ts, e, s.
  repeat split; auto. eapply reformat_drain. exact H1.
Qed.

Lemma drain_determined o nt t f1 f2 r1 r2 :
  drain f1 o nt (tok_with [t] []) = Ok r1 -> drain f2 o nt (tok_with [t] []) = Ok r2 -> r1 = r2.
Proof.
  intros H1 H2. apply (drain_fuel _ _ (f1 + f2)) in H1; [|lia]. apply (drain_fuel _ _ (f1 + f2)) in H2; [|lia].
  congruence.
Qed.

Lemma reformat_written i so n0 t f ts e s n sup bs se :
  drain f (mkOpts i false false false false) tok_default (tok_with [t] []) = Ok (ts, e, s) ->
  (forall k, 0 < sup k) ->
  ser_writes ts (ser_make so n sup) = Ok (bs, se) ->
  reformat i so n0 t = Ok (shown e, ser_output se).
Proof.
  intros Hd Hs Hw. rewrite (reformat_drain i so n0 t f ts e s Hd).
  destruct (ser_writes_generous ts (ser_make so n sup)) as (se' & R1 & _ & _ & _ & R5).
  { split; cbn; [lia|constructor]. }
  { exact Hs. }
  rewrite Hw in R1. injection R1 as _ <-. rewrite R5. reflexivity.
Qed.

Lemma reformat_same_data i1 i2 so n1 n2 t : reformat i1 so n1 t = reformat i2 so n2 t.
Proof.
  destruct (reformat_total i1 so n1 t) as (f & ts & e & s & D & _ & _ & ->).
  symmetry. eapply reformat_drain.
  assert (C : cut_clean ([t] ++ concat [])).
  { intros [|x l1] c [|y l2] H Hn; try congruence; cbn in H; try discriminate H; try (destruct l1; discriminate H). }
  pose proof (drain_isa_new i1 (mkOpts i1 false false false false) [t] [] f tok_default C) as X1.
  pose proof (drain_isa_new i2 (mkOpts i1 false false false false) [t] [] f tok_default C) as X2.
  cbn [o_ascii o_nl o_comma o_comments] in X1, X2. rewrite X2, <- X1. exact D.
Qed.

(** ** How long the output can be *)

Lemma drain_one_buffer o t : forall f nt s ts0 ts e s1, one_buffer o t ts0 s ->
  drain f o nt s = Ok (ts, e, s1) -> one_buffer o t (ts0 ++ ts) s1.
Proof.
  induction f as [|f IH]; intros nt s ts0 ts e s1 H D; [discriminate D|]. cbn [drain] in D.
  destruct (nextToken o nt s) as [[[s2 e2] t2]| |] eqn:E; cbn [obind] in D; try discriminate D.
  destruct (match e2 with NoError => true | _ => false end) eqn:H0.
  - destruct e2; try discriminate H0.
    destruct (drain f o t2 s2) as [[[ts3 e3] s3]| |] eqn:D2; cbn [obind] in D; try discriminate D.
    injection D as <- <- <-. replace (ts0 ++ t2 :: ts3) with ((ts0 ++ [t2]) ++ ts3) by (rewrite <- app_assoc; reflexivity).
    eapply IH; [|exact D2]. eapply OB_ok; eassumption.
  - assert (ts = [] /\ s1 = s2) as [-> ->] by (destruct e2; try discriminate H0; injection D as <- <- <-; auto).
    rewrite app_nil_r. eapply OB_err; [exact H|exact E|]. intros ->. discriminate H0.
Qed.

(** Bytes of a list of tokens. *)
Definition tok_bytes (tk : token) : nat := length (dr_bytes (tk_name tk)) + length (dr_bytes (tk_value tk)).

Lemma increasing_sum l : forall lo hi, increasing lo l hi -> lo + list_sum (map snd l) <= hi.
Proof.
  unfold list_sum. induction l as [|[off n] l IH]; intros lo hi H; cbn in *; [lia|]. destruct H as [H1 H2].
  specialize (IH _ _ H2). lia.
Qed.

Lemma span_sum t d : slice_of t d -> list_sum (map snd (span d)) = length (dr_bytes d).
Proof. intros [->|(off & H & _)]; [reflexivity|]. unfold span. rewrite H. cbn. lia. Qed.

Lemma list_sum_app2 a b : list_sum (a ++ b) = list_sum a + list_sum b.
Proof. unfold list_sum. induction a; cbn; lia. Qed.

Lemma tokens_bytes o t ts s : one_buffer o t ts s -> list_sum (map tok_bytes ts) <= length t.
Proof.
  intros H. destruct (tokens_are_slices o t ts s H) as [F I].
  apply increasing_sum in I. cbn in I. clear H.
  assert (list_sum (map tok_bytes ts) = list_sum (map snd (token_spans ts))) as ->; [|exact I].
  unfold token_spans. clear I. induction F as [|tk ts [F1 F2] F IH]; [reflexivity|].
  cbn [map concat list_sum fold_right]. change (fold_right Nat.add 0 (map tok_bytes ts)) with (list_sum (map tok_bytes ts)).
  rewrite !map_app, !list_sum_app2, IH, (span_sum t _ F1), (span_sum t _ F2). unfold tok_bytes. lia.
Qed.

Definition indent_max (o : sopts) : nat := if so_pretty o then N.to_nat (256 * so_shift o) else 0.
Definition per_token (o : sopts) : nat :=
  Nat.max (length (so_prefix o)) (indent_max o) + length (so_postfix o) + 22.

Definition bounded_by (K P : nat) (o : sopts) : Prop :=
  length (so_prefix o) <= K /\ indent_max o <= K /\ length (so_postfix o) <= P.

Lemma depth_bounded K P d o : (d <= 256)%N -> bounded_by K P o -> bounded_by K P (setDepth d o).
Proof.
  intros Hd (H1 & H2 & H3). unfold bounded_by, indent_max in *. cbn [so_prefix so_postfix so_pretty so_shift setDepth] in *.
  split; [|split; assumption]. destruct (so_pretty o); [|cbn; lia]. rewrite repeat_length.
  enough (N.to_nat (d * so_shift o) <= N.to_nat (256 * so_shift o)) by lia. nia.
Qed.

Lemma shortcut_len isEnd f st o l : shortcut isEnd f st o = Some l -> length l <= 12.
Proof.
  unfold shortcut, prepared. destruct (_ && _)%bool; [|discriminate].
  destruct (N.leb_spec 1 (so_depth o)); cbn [andb]; [|discriminate].
  destruct (N.leb_spec (so_depth o) 5); cbn [andb]; [|discriminate].
  intros E. apply (f_equal (fun x => match x with Some l => length l | None => 0 end)) in E. cbv beta iota in E.
  rewrite <- E, app_length. cbn [length]. rewrite repeat_length.
  destruct (_ && _)%bool; cbn [length]; lia.
Qed.

Lemma v_text_len o t d : length (v_text o t d) <= length d + 4.
Proof.
  unfold v_text. destruct t; try destruct (so_ascii o); cbn [length]; rewrite ?app_length; cbn [length]; lia.
Qed.

Lemma n_text_len o tk : length (n_text o tk) <= length (dr_bytes (tk_name tk)) + 6.
Proof.
  unfold n_text. destruct (nonempty _); [|cbn; lia]. rewrite app_length.
  pose proof (v_text_len o (tk_name_type tk) (dr_bytes (tk_name tk))).
  destruct (so_pretty o); cbn [length]; lia.
Qed.

Lemma f_text_len K P isEnd f st o : bounded_by K P o -> length (f_text isEnd f st o) <= K + P + 12.
Proof.
  intros (H1 & H2 & H3). unfold f_text. destruct (shortcut isEnd f st o) as [l|] eqn:E.
  - pose proof (shortcut_len _ _ _ _ _ E). lia.
  - unfold g_text, c_text. rewrite !app_length. destruct (_ && _)%bool, f; cbn [length]; lia.
Qed.

Lemma texts_len K P : forall ts c, bounded_by K P (snd c) -> (so_depth (snd c) < 256)%N ->
  length (texts ts c) <= list_sum (map tok_bytes ts) + length ts * (K + P + 22).
Proof.
  induction ts as [|tk ts IH]; intros [[f st] o] H Hd; [cbn; lia|]. cbn [texts map list_sum fold_right length snd] in *.
  change (fold_right Nat.add 0 (map tok_bytes ts)) with (list_sum (map tok_bytes ts)).
  destruct (refused tk (f, st, o)) eqn:R.
  - specialize (IH (f, st, o) H Hd). lia.
  - rewrite app_length. set (o1 := entry tk o).
    assert (B1 : bounded_by K P o1 /\ (so_depth o1 < 256)%N).
    { unfold o1, entry. destruct (is_end (tk_value_type tk)); [|auto]. split; [apply depth_bounded; [lia|exact H]|].
      cbn [so_depth setDepth]. apply N.mod_lt. discriminate. }
    assert (B2 : bounded_by K P (snd (after tk (f, st, o))) /\ (so_depth (snd (after tk (f, st, o))) < 256)%N).
    { cbn [after snd]. fold o1. unfold leave. destruct (is_start _); [|exact B1]. destruct B1 as [B1 B3].
      split; [apply depth_bounded; [lia|exact B1]|]. cbn [so_depth setDepth]. apply N.mod_lt. discriminate. }
    destruct B2 as [B2 B3]. specialize (IH _ B2 B3).
    assert (L : length (token_text tk (f, st, o)) <= tok_bytes tk + (K + P + 22)).
    { unfold token_text. fold o1. rewrite !app_length.
      pose proof (f_text_len K P (is_end (tk_value_type tk)) f st o1 (proj1 B1)).
      pose proof (n_text_len o1 tk). pose proof (v_text_len o1 (tk_value_type tk) (dr_bytes (tk_value tk))).
      unfold tok_bytes. lia. }
    lia.
Qed.

Lemma reformat_length i so n0 t e out : (so_depth so < 256)%N -> reformat i so n0 t = Ok (e, out) ->
  length out <= length t + (length t + 1) * per_token so.
Proof.
  intros Hd E. destruct (reformat_total i so n0 t) as (f & ts & e2 & s & D & _ & L & E2).
  rewrite E in E2. injection E2 as -> ->.
  assert (OB : one_buffer (mkOpts i false false false false) t ts s).
  { change ts with ([] ++ ts). eapply drain_one_buffer; [apply OB_init|exact D]. }
  pose proof (tokens_bytes _ _ _ _ OB) as TB.
  unfold per_token.
  pose proof (texts_len (Nat.max (length (so_prefix so)) (indent_max so)) (length (so_postfix so)) ts (true, true, so)) as TL.
  cbn [snd] in TL. specialize (TL ltac:(unfold bounded_by; lia) Hd).
  set (m := Nat.max (length (so_prefix so)) (indent_max so) + length (so_postfix so) + 22) in *.
  pose proof (Nat.mul_le_mono_r _ _ m L). lia.
Qed.

(** ** Prefixes *)

Lemma reformat_prefix i so n0 t u e out e2 out2 :
  reformat i so n0 t = Ok (e, out) -> reformat i so n0 (t ++ u) = Ok (e2, out2) ->
  exists more, out2 = out ++ more /\ (e <> NoError -> more = [] /\ e2 = e).
Proof.
  intros E E2.
  destruct (reformat_total i so n0 t) as (f & ts & e1 & s & D & N1 & _ & R).
  rewrite E in R. injection R as -> ->.
  destruct (reformat_total i so n0 (t ++ u)) as (f' & ts' & e1' & s' & D' & N2 & _ & R).
  rewrite E2 in R. injection R as -> ->.
  destruct (drain_prefix i (mkOpts i false false false false) t u f f' tok_default ts e1 s ts' e1' s' D D')
    as (more & -> & K).
  rewrite texts_app. eexists. split; [reflexivity|]. intros Hs.
  destruct K as [-> ->].
  - split; [|discriminate]. intros ->. apply Hs. reflexivity.
  - split; reflexivity.
Qed.
