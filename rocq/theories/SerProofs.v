(** Proofs about the serializer: what is written, independently of the buffers. *)
From Verif Require Import Base Tactics ScanModel TokModel SerModel SerSpec.
From Coq Require Import Lia.


Definition cfg : Type := bool * bool * sopts.
Definition cfg_of (s : ser) : cfg := (se_first s, se_start s, se_opt s).

Lemma output_mark s : ser_output (markFull s) = ser_output s.
Proof. unfold ser_output, markFull. cbn. rewrite map_app, concat_app, app_nil_r. cbn. rewrite app_nil_r. reflexivity. Qed.

Lemma inb_mark s : inb s -> inb (markFull s).
Proof. intros [H1 H2]. split; cbn; [lia|]. apply Forall_app. split; [exact H2|]. constructor; [exact H1|constructor]. Qed.

(** [does m c d c']: started with settings [c], [m] writes [d] and leaves the settings [c'], unless
    it runs out of buffers. *)
Definition does (m : ser -> outcome (bool * ser)) (c : cfg) (d : bytes) (c' : cfg) : Prop :=
  forall s, inb s -> cfg_of s = c ->
  exists b s', m s = Ok (b, s') /\ inb s' /\ se_supply s' = se_supply s /\
    (exists x, ser_output s' = ser_output s ++ x) /\
    (b = true -> cfg_of s' = c' /\ ser_output s' = ser_output s ++ d) /\
    (generous s -> b = true) /\
    (no_supply s -> ser_free s' + length (ser_output s') <= ser_free s + length (ser_output s) /\
                    (b = false -> ser_free s' = 0)).

Lemma append_spec d s : inb s -> length d <= ser_free s ->
  exists s', append d s = Ok s' /\ inb s' /\ se_supply s' = se_supply s /\ cfg_of s' = cfg_of s /\
    ser_output s' = ser_output s ++ d /\ ser_free s' = ser_free s - length d /\
    ser_free s' + length (ser_output s') = ser_free s + length (ser_output s).
Proof.
  intros [H1 H2] Hd. unfold append, ser_free in *.
  destruct (Nat.leb_spec (length (se_buf s) + length d) (se_size s)); [|lia].
  eexists. split; [reflexivity|]. unfold ser_output. cbn.
  split; [split; cbn; [rewrite app_length; lia|exact H2]|].
  repeat split; [rewrite app_assoc; reflexivity|rewrite app_length; lia|].
  rewrite !app_length. lia.
Qed.

Lemma write_loop_does : forall f d s, inb s ->
  2 * length d <= f + (if Nat.eqb (ser_free s) 0 then 0 else 1) ->
  exists b s', write_loop f d s = Ok (b, s') /\ inb s' /\ se_supply s' = se_supply s /\ cfg_of s' = cfg_of s /\
    (exists x, ser_output s' = ser_output s ++ x) /\
    (b = true -> ser_output s' = ser_output s ++ d) /\ (generous s -> b = true) /\
    (no_supply s -> ser_free s' + length (ser_output s') <= ser_free s + length (ser_output s) /\
                    (b = false -> ser_free s' = 0)).
Proof.
  induction f as [|f IH]; intros d s Hs Hf.
  - destruct d as [|c d].
    + exists true, s. cbn [write_loop]. do 4 (split; [auto|]).
      split; [exists []; rewrite app_nil_r; reflexivity|]. split; [rewrite app_nil_r; reflexivity|].
      split; [auto|]. intros _. split; [lia|discriminate].
    + exfalso. cbn [length] in Hf. destruct (Nat.eqb (ser_free s) 0); lia.
  - destruct d as [|c d].
    + exists true, s. cbn [write_loop]. do 4 (split; [auto|]).
      split; [exists []; rewrite app_nil_r; reflexivity|]. split; [rewrite app_nil_r; reflexivity|].
      split; [auto|]. intros _. split; [lia|discriminate].
    + cbn [write_loop]. set (dd := c :: d) in *. destruct (Nat.eqb_spec (ser_free s) 0) as [E|E].
      * assert (Hm := inb_mark s Hs).
        destruct (Nat.eqb_spec (ser_free (markFull s)) 0) as [E2|E2].
        -- exists false, (markFull s). split; [reflexivity|]. split; [exact Hm|].
           split; [reflexivity|]. split; [reflexivity|].
           split; [exists []; rewrite output_mark, app_nil_r; reflexivity|]. split; [discriminate|].
           split; [|intros _; rewrite output_mark; split; [lia|auto]].
           intros G. exfalso. specialize (G (se_calls s)). unfold ser_free, markFull in E2. cbn in E2. lia.
        -- destruct (IH dd (markFull s) Hm) as (b & s' & R1 & R2 & R3 & R4 & R5 & R6 & R7 & R8).
           { destruct (Nat.eqb_spec (ser_free (markFull s)) 0); lia. }
           exists b, s'. rewrite output_mark in *. do 6 (split; [assumption|]). split; [exact R7|].
           intros N. exfalso. specialize (N (se_calls s)). unfold ser_free, markFull in E2. cbn in E2. lia.
      * cbv zeta. set (n := Nat.min (length dd) (ser_free s)).
        assert (Hn : 1 <= n /\ n <= length dd /\ n <= ser_free s) by (unfold n; subst dd; cbn [length]; lia).
        assert (Ln : length (firstn n dd) = n) by (rewrite firstn_length; lia).
        destruct (append_spec (firstn n dd) s Hs ltac:(lia)) as (s1 & A1 & A2 & A3 & A4 & A5 & A6 & A7).
        rewrite A1. cbn [obind].
        assert (Ls : length (skipn n dd) = length dd - n) by apply skipn_length.
        destruct (IH (skipn n dd) s1 A2) as (b & s' & R1 & R2 & R3 & R4 & R5 & R6 & R7 & R8).
        { rewrite Ls. destruct (Nat.eqb (ser_free s1) 0); lia. }
        exists b, s'. split; [exact R1|]. split; [exact R2|]. split; [congruence|]. split; [congruence|].
        split; [destruct R5 as (x & R5); exists (firstn n dd ++ x); rewrite R5, A5, app_assoc; reflexivity|].
        split; [intros Hb; rewrite R6 by exact Hb; rewrite A5, <- app_assoc, firstn_skipn; reflexivity|].
        unfold generous, no_supply in *. rewrite A3 in *.
        split; [exact R7|]. intros N. destruct (R8 N) as [R9 R10]. split; [lia|exact R10].
Qed.

Lemma write_data_does d c : does (write_data d) c d c.
Proof.
  intros s Hs Hc. destruct (write_loop_does (2 * length d) d s Hs ltac:(lia)) as (b & s' & R1 & R2 & R3 & R4 & R5 & R6 & R7 & R8).
  exists b, s'. do 4 (split; [assumption|]). split; [|split; assumption].
  intros Hb. split; [congruence|auto].
Qed.

Lemma write_lit_does d c : does (write_lit d) c d c.
Proof.
  intros s Hs Hc. unfold write_lit. destruct (Nat.ltb_spec (ser_free s) (length d)) as [H|H].
  - apply write_data_does; assumption.
  - destruct (append_spec d s Hs H) as (s1 & A1 & A2 & A3 & A4 & A5 & A6 & A7).
    rewrite A1. cbn [obind]. exists true, s1. do 3 (split; [assumption || reflexivity|]).
    split; [eauto|]. split; [intros _; split; [congruence|assumption]|]. split; [auto|].
    intros _. split; [lia|discriminate].
Qed.

Lemma done_does c : does done_true c [] c.
Proof.
  intros s Hs Hc. exists true, s. unfold done_true. do 3 (split; [auto|]).
  split; [exists []; rewrite app_nil_r; reflexivity|]. split; [rewrite app_nil_r; auto|].
  split; [auto|]. intros _. split; [lia|discriminate].
Qed.

Lemma when_does (c0 : bool) m c d : does m c d c -> does (when c0 m) c (if c0 then d else []) c.
Proof. intros H. destruct c0; [exact H|apply done_does]. Qed.

Lemma and_then_does m1 m2 c d1 c1 d2 c2 :
  does m1 c d1 c1 -> does m2 c1 d2 c2 -> does (and_then m1 m2) c (d1 ++ d2) c2.
Proof.
  intros H1 H2 s Hs Hc. unfold and_then.
  destruct (H1 s Hs Hc) as (b & s1 & R1 & R2 & R3 & (x1 & R4) & R5 & R6 & R7). rewrite R1. cbn [obind].
  destruct b.
  - destruct (R5 eq_refl) as [R8 R9].
    destruct (H2 s1 R2 R8) as (b & s2 & Q1 & Q2 & Q3 & (x2 & Q4) & Q5 & Q6 & Q7).
    exists b, s2. split; [exact Q1|]. split; [exact Q2|]. split; [congruence|].
    split; [exists (x1 ++ x2); rewrite Q4, R4, app_assoc; reflexivity|].
    split; [intros Hb; destruct (Q5 Hb) as [Q8 Q9]; split; [exact Q8|]; rewrite Q9, R9, app_assoc; reflexivity|].
    unfold generous, no_supply in *. rewrite R3 in *. split; [exact Q6|].
    intros N. destruct (R7 N) as [R10 _]. destruct (Q7 N) as [Q10 Q11]. split; [lia|exact Q11].
  - exists false, s1. split; [reflexivity|]. split; [exact R2|]. split; [exact R3|]. split; [eauto|].
    split; [discriminate|]. split; [exact R6|exact R7].
Qed.

(** [does] for functions that look at the settings first. *)
Lemma does_ext m m' c d c' : (forall s, cfg_of s = c -> m s = m' s) -> does m' c d c' -> does m c d c'.
Proof. intros E H s Hs Hc. rewrite (E s Hc). apply H; assumption. Qed.

Definition v_text (o : sopts) (t : type) (d : bytes) : bytes :=
  match t with
  | TString => x22 :: d ++ [x22]
  | TAscii => if so_ascii o then x22 :: d ++ [x22] else d
  | TNull => [x6e; x75; x6c; x6c]
  | _ => d
  end.

Lemma writeAsString_does d c : does (writeAsString d) c (x22 :: d ++ [x22]) c.
Proof.
  change (x22 :: d ++ [x22]) with ([x22] ++ d ++ [x22]).
  unfold writeAsString. eapply and_then_does; [apply write_lit_does|].
  eapply and_then_does; [apply write_data_does|apply write_lit_does].
Qed.

Lemma write_value_does t d f st o : does (write_value t d) (f, st, o) (v_text o t d) (f, st, o).
Proof.
  unfold v_text. destruct t; try apply write_data_does; try apply writeAsString_does.
  eapply does_ext with (m' := fun s => if so_ascii o then writeAsString d s else write_data d s).
  - intros s Hc. unfold cfg_of in Hc. injection Hc as _ _ <-. reflexivity.
  - destruct (so_ascii o); [apply writeAsString_does|apply write_data_does].
Qed.

Definition n_text (o : sopts) (tk : token) : bytes :=
  if nonempty (dr_bytes (tk_name tk)) then
    v_text o (tk_name_type tk) (dr_bytes (tk_name tk)) ++ (if so_pretty o then [x3a; x20] else [x3a])
  else [].

Lemma write_name_does tk f st o : does (write_name tk) (f, st, o) (n_text o tk) (f, st, o).
Proof.
  unfold write_name, n_text. apply (when_does (nonempty (dr_bytes (tk_name tk)))).
  eapply and_then_does; [apply write_value_does|].
  eapply does_ext with (m' := write_lit (if so_pretty o then [x3a; x20] else [x3a])); [|apply write_lit_does].
  intros s Hc. unfold cfg_of in Hc. injection Hc as _ _ <-. reflexivity.
Qed.

Definition c_text (isEnd : bool) (st : bool) (o : sopts) : bytes :=
  if negb st && negb isEnd && nonempty (so_delim o) then [x2c] else [].
Definition g_text (isEnd f st : bool) (o : sopts) : bytes :=
  c_text isEnd st o ++ (if f then [] else so_postfix o) ++ so_prefix o.

Lemma when_nonempty d c : does (fun s => when (nonempty d) (write_data d) s) c d c.
Proof.
  assert (H := when_does (nonempty d) _ c d (write_data_does d c)).
  destruct d; exact H.
Qed.

Lemma front_generic_does isEnd f st o :
  does (front_generic isEnd) (f, st, o) (g_text isEnd f st o) (false, st, o).
Proof.
  eapply does_ext with (m' :=
    and_then (when (negb st && negb isEnd && nonempty (so_delim o)) (write_lit [x2c]))
    (and_then (fun s => if se_first s then Ok (true, set_first false s)
                else when (nonempty (so_postfix (se_opt s))) (write_data (so_postfix (se_opt s))) s)
      (fun s => when (nonempty (so_prefix (se_opt s))) (write_data (so_prefix (se_opt s))) s))).
  { intros s Hc. unfold cfg_of in Hc. injection Hc as _ <- <-. reflexivity. }
  unfold g_text, c_text. eapply and_then_does; [apply when_does, write_lit_does|].
  eapply and_then_does with (c1 := (false, st, o)).
  - destruct f.
    + intros s Hs Hc. assert (se_first s = true) as -> by (unfold cfg_of in Hc; congruence).
      exists true, (set_first false s). split; [reflexivity|]. split; [exact Hs|]. split; [reflexivity|].
      split; [exists []; rewrite app_nil_r; reflexivity|].
      split; [intros _; split; [unfold cfg_of in *; cbn; congruence|rewrite app_nil_r; reflexivity]|].
      split; [auto|]. intros _. split; [reflexivity|discriminate].
    + eapply does_ext; [|apply (when_nonempty (so_postfix o))].
      intros s Hc. unfold cfg_of in Hc. injection Hc as -> _ ->. reflexivity.
  - eapply does_ext; [|apply (when_nonempty (so_prefix o))].
    intros s Hc. unfold cfg_of in Hc. injection Hc as _ _ ->. reflexivity.
Qed.

(** The prepared literal used instead, if any. *)
Definition shortcut (isEnd f st : bool) (o : sopts) : option bytes :=
  if ((so_shift o =? 2)%N && negb f)%bool then
    prepared (negb st && negb isEnd && negb (Nat.eqb (length (so_delim o)) 0)) (so_depth o)
  else None.

Definition f_text (isEnd f st : bool) (o : sopts) : bytes :=
  match shortcut isEnd f st o with Some l => l | None => g_text isEnd f st o end.

Lemma front_shortcut_eq isEnd f st o s : cfg_of s = (f, st, o) ->
  front_shortcut isEnd s = match shortcut isEnd f st o with Some l => write_lit l s | None => Ok (false, s) end.
Proof.
  intros Hc. unfold cfg_of in Hc. injection Hc as <- <- <-. unfold front_shortcut, shortcut.
  destruct (_ && _)%bool; reflexivity.
Qed.

Lemma shortcut_not_first isEnd f st o l : shortcut isEnd f st o = Some l -> f = false.
Proof. unfold shortcut. destruct f; [|reflexivity]. rewrite andb_false_r. discriminate. Qed.

(** ** A whole token *)

Definition entry (tk : token) (o : sopts) : sopts :=
  if is_end (tk_value_type tk) then setDepth (so_depth o - 1) o else o.
Definition leave (tk : token) (o : sopts) : sopts :=
  if is_start (tk_value_type tk) then setDepth (so_depth o + 1) o else o.
Definition token_text (tk : token) (c : cfg) : bytes :=
  let '(f, st, o) := c in
  let o := entry tk o in
  f_text (is_end (tk_value_type tk)) f st o ++ n_text o tk ++
  v_text o (tk_value_type tk) (dr_bytes (tk_value tk)).
Definition after (tk : token) (c : cfg) : cfg :=
  let '(f, st, o) := c in (false, is_start (tk_value_type tk), leave tk (entry tk o)).
Definition refused (tk : token) (c : cfg) : bool :=
  let '(f, st, o) := c in (is_end (tk_value_type tk) && (so_depth o =? 0)%N)%bool.

Definition body (tk : token) : ser -> outcome (bool * ser) :=
  and_then (write_name tk)
    (and_then (write_value (tk_value_type tk) (dr_bytes (tk_value tk)))
      (fun s =>
         let st := is_start (tk_value_type tk) in
         let s := set_start st s in
         Ok (true, if st then set_opt (setDepth (so_depth (se_opt s) + 1) (se_opt s)) s else s))).

Lemma body_does tk st o :
  does (body tk) (false, st, o) (n_text o tk ++ v_text o (tk_value_type tk) (dr_bytes (tk_value tk)))
    (false, is_start (tk_value_type tk), leave tk o).
Proof.
  unfold body. eapply and_then_does; [apply write_name_does|].
  rewrite <- (app_nil_r (v_text _ _ _)).
  eapply and_then_does; [apply write_value_does|].
  intros s Hs Hc. cbv zeta. unfold cfg_of in Hc. injection Hc as H1 H2 H3.
  eexists true, _. split; [reflexivity|].
  unfold leave. destruct (is_start _); cbn.
  all: split; [exact Hs|]; split; [reflexivity|]; split; [exists []; rewrite app_nil_r; reflexivity|].
  all: split; [intros _; split; [unfold cfg_of; cbn; congruence|rewrite app_nil_r; reflexivity]|].
  all: split; [auto|]; intros _; split; [unfold ser_free, ser_output; cbn; lia|discriminate].
Qed.

Lemma ser_write_refused tk s : refused tk (cfg_of s) = true -> ser_write tk s = Ok (false, s).
Proof. unfold refused, ser_write, cfg_of. intros ->. reflexivity. Qed.

Definition entered (tk : token) (s : ser) : ser :=
  if is_end (tk_value_type tk) then set_opt (setDepth (so_depth (se_opt s) - 1) (se_opt s)) s else s.

Lemma ser_write_eq tk s : refused tk (cfg_of s) = false ->
  ser_write tk s =
  (let* (sc, s1) := front_shortcut (is_end (tk_value_type tk)) (entered tk s) in
   and_then (fun s => if sc then Ok (true, s) else front_generic (is_end (tk_value_type tk)) s) (body tk) s1).
Proof. unfold refused, ser_write, cfg_of. intros ->. reflexivity. Qed.

Lemma entered_cfg tk s : cfg_of (entered tk s) = (se_first s, se_start s, entry tk (se_opt s)).
Proof. unfold entered, entry. destruct (is_end _); reflexivity. Qed.
Lemma entered_same tk s : ser_output (entered tk s) = ser_output s /\ ser_free (entered tk s) = ser_free s /\
  se_supply (entered tk s) = se_supply s /\ (inb s -> inb (entered tk s)).
Proof. unfold entered. destruct (is_end _); repeat split; auto; apply H. Qed.

(** With a callback that always supplies space the token is written completely. *)
Lemma ser_write_generous tk s : inb s -> generous s -> refused tk (cfg_of s) = false ->
  exists s', ser_write tk s = Ok (true, s') /\ inb s' /\ se_supply s' = se_supply s /\
    cfg_of s' = after tk (cfg_of s) /\ ser_output s' = ser_output s ++ token_text tk (cfg_of s).
Proof.
  intros Hs Hg Hr. rewrite (ser_write_eq tk s Hr).
  assert (Hc := entered_cfg tk s). destruct (entered_same tk s) as (E1 & E2 & E3 & E4). specialize (E4 Hs).
  set (s0 := entered tk s) in *. rewrite (front_shortcut_eq _ _ _ _ s0 Hc).
  change (cfg_of s) with (se_first s, se_start s, se_opt s). unfold token_text, after, f_text.
  assert (G0 : generous s0) by (unfold generous; rewrite E3; exact Hg).
  destruct (shortcut _ _ _ _) as [l|] eqn:Hsc.
  - assert (Hf := shortcut_not_first _ _ _ _ _ Hsc).
    destruct (write_lit_does l _ s0 E4 Hc) as (b & s1 & R1 & R2 & R3 & _ & R5 & R6 & _).
    rewrite (R6 G0) in *. destruct (R5 eq_refl) as [R8 R9]. rewrite R1. cbn [obind].
    rewrite Hf in R8.
    assert (Hd : does (and_then (fun s => Ok (true, s)) (body tk)) (false, se_start s, entry tk (se_opt s))
       ([] ++ n_text (entry tk (se_opt s)) tk ++ v_text (entry tk (se_opt s)) (tk_value_type tk) (dr_bytes (tk_value tk)))
       (false, is_start (tk_value_type tk), leave tk (entry tk (se_opt s)))).
    { eapply and_then_does; [apply done_does|apply body_does]. }
    destruct (Hd s1 R2 R8) as (b2 & s2 & Q1 & Q2 & Q3 & _ & Q5 & Q6 & _).
    assert (G1 : generous s1) by (unfold generous; rewrite R3; exact G0).
    rewrite (Q6 G1) in *. destruct (Q5 eq_refl) as [Q8 Q9].
    exists s2. split; [exact Q1|]. split; [exact Q2|]. split; [congruence|]. split; [exact Q8|].
    rewrite Q9, R9, E1, <- app_assoc. reflexivity.
  - cbn [obind].
    assert (Hd : does (and_then (front_generic (is_end (tk_value_type tk))) (body tk)) (se_first s, se_start s, entry tk (se_opt s))
       (g_text (is_end (tk_value_type tk)) (se_first s) (se_start s) (entry tk (se_opt s)) ++
        n_text (entry tk (se_opt s)) tk ++ v_text (entry tk (se_opt s)) (tk_value_type tk) (dr_bytes (tk_value tk)))
       (false, is_start (tk_value_type tk), leave tk (entry tk (se_opt s)))).
    { eapply and_then_does; [apply front_generic_does|apply body_does]. }
    destruct (Hd s0 E4 Hc) as (b & s2 & Q1 & Q2 & Q3 & _ & Q5 & Q6 & _).
    rewrite (Q6 G0) in *. destruct (Q5 eq_refl) as [Q8 Q9].
    exists s2. split; [exact Q1|]. split; [exact Q2|]. split; [congruence|]. split; [exact Q8|].
    rewrite Q9, E1. reflexivity.
Qed.

Lemma v_text_nonempty o t d : d <> [] -> v_text o t d <> [].
Proof. destruct d; [congruence|]. intros _. destruct t; try discriminate. unfold v_text. destruct (so_ascii o); discriminate. Qed.

(** Whatever the callback supplies: no overrun, and the loop ends. *)
Lemma ser_write_safe tk s : inb s ->
  exists b s', ser_write tk s = Ok (b, s') /\ inb s' /\ se_supply s' = se_supply s.
Proof.
  intros Hs. destruct (refused tk (cfg_of s)) eqn:Hr.
  { exists false, s. split; [apply ser_write_refused, Hr|auto]. }
  rewrite (ser_write_eq tk s Hr).
  assert (Hc := entered_cfg tk s). destruct (entered_same tk s) as (E1 & E2 & E3 & E4). specialize (E4 Hs).
  set (s0 := entered tk s) in *. rewrite (front_shortcut_eq _ _ _ _ s0 Hc).
  assert (G : forall (sc : bool) s1 c1, inb s1 -> se_supply s1 = se_supply s0 -> cfg_of s1 = c1 ->
     (sc = true -> fst (fst c1) = false) ->
     exists b s', and_then (fun s => if sc then Ok (true, s) else front_generic (is_end (tk_value_type tk)) s) (body tk) s1
        = Ok (b, s') /\ inb s' /\ se_supply s' = se_supply s).
  { intros sc s1 [[f st] o] H1 H2 H3 H4. destruct sc.
    - cbn in H4. rewrite (H4 eq_refl) in H3.
      assert (Hd : does (and_then (fun s => Ok (true, s)) (body tk)) (false, st, o) _ _)
        by (eapply and_then_does; [apply done_does|apply body_does]).
      destruct (Hd s1 H1 H3) as (b & s' & Q1 & Q2 & Q3 & _). exists b, s'. repeat split; auto; try apply Q2; congruence.
    - assert (Hd : does (and_then (front_generic (is_end (tk_value_type tk))) (body tk)) (f, st, o) _ _)
        by (eapply and_then_does; [apply front_generic_does|apply body_does]).
      destruct (Hd s1 H1 H3) as (b & s' & Q1 & Q2 & Q3 & _). exists b, s'. repeat split; auto; try apply Q2; congruence. }
  destruct (shortcut _ _ _ _) as [l|] eqn:Hsc.
  - assert (Hf := shortcut_not_first _ _ _ _ _ Hsc).
    destruct (write_lit_does l _ s0 E4 Hc) as (b & s1 & R1 & R2 & R3 & _ & R5 & _).
    rewrite R1. cbn [obind]. apply (G b s1 (cfg_of s1)); auto.
    intros Hb. destruct (R5 Hb) as [R8 _]. rewrite R8. exact Hf.
  - cbn [obind]. apply (G false s0 (cfg_of s0)); auto. discriminate.
Qed.

(** Without any supply the token is written completely or refused. *)
Lemma ser_write_stuck tk s : inb s -> no_supply s -> dr_bytes (tk_value tk) <> [] ->
  exists b s', ser_write tk s = Ok (b, s') /\ inb s' /\
    (b = true -> ser_output s' = ser_output s ++ token_text tk (cfg_of s) /\
                 length (token_text tk (cfg_of s)) <= ser_free s).
Proof.
  intros Hs Hn Hv. destruct (refused tk (cfg_of s)) eqn:Hr.
  { exists false, s. split; [apply ser_write_refused, Hr|]. split; [exact Hs|discriminate]. }
  rewrite (ser_write_eq tk s Hr).
  assert (Hc := entered_cfg tk s). destruct (entered_same tk s) as (E1 & E2 & E3 & E4). specialize (E4 Hs).
  set (s0 := entered tk s) in *. rewrite (front_shortcut_eq _ _ _ _ s0 Hc).
  assert (N0 : no_supply s0) by (unfold no_supply; rewrite E3; exact Hn).
  unfold token_text, cfg_of. unfold f_text.
  destruct (shortcut _ _ _ _) as [l|] eqn:Hsc.
  - assert (Hf := shortcut_not_first _ _ _ _ _ Hsc).
    destruct (write_lit_does l _ s0 E4 Hc) as (b & s1 & R1 & R2 & R3 & (x1 & R4) & R5 & _ & R7).
    destruct (R7 N0) as [R8 R9]. assert (N1 : no_supply s1) by (unfold no_supply; rewrite R3; exact N0).
    rewrite R1. cbn [obind]. destruct b.
    + destruct (R5 eq_refl) as [R10 R11]. rewrite Hf in R10.
      assert (Hd : does (and_then (fun s => Ok (true, s)) (body tk)) (false, se_start s, entry tk (se_opt s)) _ _)
        by (eapply and_then_does; [apply done_does|apply body_does]).
      destruct (Hd s1 R2 R10) as (b2 & s' & Q1 & Q2 & Q3 & _ & Q5 & _ & Q7).
      exists b2, s'. split; [exact Q1|]. split; [exact Q2|]. intros Hb.
      destruct (Q5 Hb) as [_ Q9]. destruct (Q7 N1) as [Q10 _].
      rewrite R11, E1, <- app_assoc in Q9. split; [exact Q9|].
      rewrite E1 in *. rewrite E2 in *. rewrite Q9 in Q10. rewrite app_length in Q10. cbn [app] in Q10. lia.
    + assert (F1 := R9 eq_refl).
      destruct (cfg_of s1) as [[f st] o] eqn:Hc1.
      assert (Hd : does (and_then (front_generic (is_end (tk_value_type tk))) (body tk)) (f, st, o) _ _)
        by (eapply and_then_does; [apply front_generic_does|apply body_does]).
      destruct (Hd s1 R2 Hc1) as (b & s' & Q1 & Q2 & Q3 & _ & Q5 & _ & Q7).
      exists b, s'. split; [exact Q1|]. split; [exact Q2|]. intros Hb. exfalso.
      destruct (Q5 Hb) as [_ Q9]. destruct (Q7 N1) as [Q10 _]. rewrite Q9, F1, !app_length in Q10.
      assert (Hl := v_text_nonempty o (tk_value_type tk) _ Hv).
      destruct (v_text o (tk_value_type tk) (dr_bytes (tk_value tk))) eqn:Ev; [congruence|].
      cbn [length] in Q10. lia.
  - cbn [obind].
    assert (Hd : does (and_then (front_generic (is_end (tk_value_type tk))) (body tk)) (se_first s, se_start s, entry tk (se_opt s)) _ _)
      by (eapply and_then_does; [apply front_generic_does|apply body_does]).
    destruct (Hd s0 E4 Hc) as (b & s' & Q1 & Q2 & Q3 & _ & Q5 & _ & Q7).
    exists b, s'. split; [exact Q1|]. split; [exact Q2|]. intros Hb.
    destruct (Q5 Hb) as [_ Q9]. destruct (Q7 N0) as [Q10 _]. rewrite E1 in *. split; [exact Q9|].
    rewrite E2 in *. rewrite Q9 in Q10. rewrite app_length in Q10. lia.
Qed.

(** ** Sequences of tokens *)

Fixpoint texts (tks : list token) (c : cfg) : bytes :=
  match tks with
  | [] => []
  | tk :: r => if refused tk c then texts r c else token_text tk c ++ texts r (after tk c)
  end.
Fixpoint results (tks : list token) (c : cfg) : list bool :=
  match tks with
  | [] => []
  | tk :: r => if refused tk c then false :: results r c else true :: results r (after tk c)
  end.
Fixpoint afters (tks : list token) (c : cfg) : cfg :=
  match tks with
  | [] => c
  | tk :: r => if refused tk c then afters r c else afters r (after tk c)
  end.

Lemma ser_writes_generous : forall tks s, inb s -> generous s ->
  exists s', ser_writes tks s = Ok (results tks (cfg_of s), s') /\ inb s' /\ generous s' /\
    cfg_of s' = afters tks (cfg_of s) /\ ser_output s' = ser_output s ++ texts tks (cfg_of s).
Proof.
  induction tks as [|tk tks IH]; intros s Hs Hg; cbn [ser_writes results texts afters].
  - exists s. rewrite app_nil_r. auto 6.
  - destruct (refused tk (cfg_of s)) eqn:Hr.
    + rewrite (ser_write_refused tk s Hr). cbn [obind].
      destruct (IH s Hs Hg) as (s' & R1 & R2 & R3 & R4 & R5). exists s'. rewrite R1. cbn [obind]. auto 6.
    + destruct (ser_write_generous tk s Hs Hg Hr) as (s1 & Q1 & Q2 & Q3 & Q4 & Q5). rewrite Q1. cbn [obind].
      assert (G1 : generous s1) by (unfold generous; rewrite Q3; exact Hg).
      destruct (IH s1 Q2 G1) as (s' & R1 & R2 & R3 & R4 & R5). rewrite R1, Q4. cbn [obind].
      exists s'. rewrite Q4 in *. rewrite R5, Q5, app_assoc. auto 6.
Qed.

Lemma ser_writes_safe : forall tks s, inb s ->
  exists bs s', ser_writes tks s = Ok (bs, s') /\ inb s'.
Proof.
  induction tks as [|tk tks IH]; intros s Hs; cbn [ser_writes].
  - eauto.
  - destruct (ser_write_safe tk s Hs) as (b & s1 & -> & H1 & _). cbn [obind].
    destruct (IH s1 H1) as (bs & s2 & -> & H2). cbn [obind]. eauto.
Qed.

(** The text depends only on what a user sees of the tokens. *)
Lemma texts_app a : forall b c, texts (a ++ b) c = texts a c ++ texts b (afters a c).
Proof.
  induction a as [|tk a IH]; intros b c; cbn [app texts afters]; [reflexivity|].
  destruct (refused tk c); rewrite IH; [reflexivity|]. rewrite app_assoc. reflexivity.
Qed.
Lemma results_app a : forall b c, results (a ++ b) c = results a c ++ results b (afters a c).
Proof.
  induction a as [|tk a IH]; intros b c; cbn [app results afters]; [reflexivity|].
  destruct (refused tk c); rewrite IH; reflexivity.
Qed.
Lemma afters_app a : forall b c, afters (a ++ b) c = afters b (afters a c).
Proof.
  induction a as [|tk a IH]; intros b c; cbn [app afters]; [reflexivity|].
  destruct (refused tk c); rewrite IH; reflexivity.
Qed.
