(** What metaForTokens computes for the tokens of any text, and where skip goes. *)
From Verif Require Import Base ScanModel TokModel TokSafe TokSpec TokSpecProofs MapModel DiffModel CallProofs.
From Coq Require Import Lia.

Definition vw (m : jmeta) : nat * nat := (m_pos m, m_size m).
Definition vinc (v : nat * nat) : nat * nat := (fst v, snd v + 1).
Definition opening (t : type) : Prop := t = TObjectStart \/ t = TArrayStart.

Lemma vw_upd f : (forall m, vw (f m) = vw m) -> forall i l, map vw (upd i f l) = map vw l.
Proof. intros H. induction i as [|i IH]; intros [|x l]; cbn; try reflexivity; [rewrite H|rewrite IH]; reflexivity. Qed.
Lemma vw_upd_all f : (forall m, vw (f m) = vw m) -> forall P l, map vw (upd_all P f l) = map vw l.
Proof. intros H. unfold upd_all. induction P as [|p P IH]; intros l; cbn; [reflexivity|]. rewrite IH. apply vw_upd, H. Qed.
Lemma vw_inc1 : forall i l, map vw (upd i inc_size l) = upd i vinc (map vw l).
Proof. induction i as [|i IH]; intros [|x l]; cbn; try reflexivity. rewrite IH. reflexivity. Qed.
Lemma vw_inc : forall P l, map vw (upd_all P inc_size l) = upd_all P vinc (map vw l).
Proof. unfold upd_all. induction P as [|p P IH]; intros l; cbn; [reflexivity|]. rewrite IH, vw_inc1. reflexivity. Qed.
Lemma upd_len {A} (f : A -> A) : forall i l, length (upd i f l) = length l.
Proof. induction i as [|i IH]; intros [|x l]; cbn; try reflexivity. rewrite IH. reflexivity. Qed.
Lemma upd_all_len {A} (f : A -> A) : forall P l, length (upd_all P f l) = length l.
Proof. unfold upd_all. induction P as [|p P IH]; intros l; cbn; [reflexivity|]. rewrite IH. apply upd_len. Qed.

(** One step, in terms of positions and sizes. *)
Definition parents (n : nat) (t : type) (P : list nat) : list nat :=
  match t with TObjectStart | TArrayStart => n :: P | TObjectEnd | TArrayEnd => tl P | _ => P end.
Definition entry (i : nat) (t : type) : list (nat * nat) := match t with TObjectStart | TArrayStart => [(i, 1)] | _ => [] end.
Lemma meta_step_spec i t meta P meta' P' : meta_step i t meta P = Ok (meta', P') ->
  map vw meta' = upd_all P vinc (map vw meta) ++ entry i t /\ P' = parents (length meta) t P.
Proof.
  unfold meta_step. intros H. destruct t; cbn [parents entry]; rewrite ?app_nil_r;
    (destruct P as [|p P]; cbn [obind] in H; try discriminate H; injection H as <- <-; (split; [|cbn [tl]; repeat (rewrite upd_all_len || rewrite upd_len); reflexivity]);
     rewrite ?map_app; cbn [map]; repeat ((rewrite vw_upd_all by reflexivity) || (rewrite vw_upd by reflexivity) || rewrite vw_inc || rewrite vw_inc1); reflexivity).
Qed.
Lemma meta_step_ok i t meta P : (t = TObjectEnd \/ t = TArrayEnd -> P <> []) -> exists r, meta_step i t meta P = Ok r.
Proof.
  intros H. unfold meta_step. destruct t, P as [|p P]; cbn [obind]; eauto; exfalso; apply H; auto.
Qed.

Lemma loop_ok : forall ts st st', runs st ts st' -> forall i meta P, length P = length st ->
  exists meta' P', meta_loop i ts meta P = Ok (meta', P') /\ length P' = length st'.
Proof.
  induction 1 as [st|st t st1 l st2 H1 H2 IH]; intros i meta P L; cbn [meta_loop]; [eauto|].
  destruct (meta_step_ok i t meta P) as ([meta1 P1] & E).
  { intros [-> | ->] ->; cbn [stack_step] in H1; subst st; discriminate L. }
  rewrite E. cbn [obind]. apply IH. destruct (meta_step_spec _ _ _ _ _ _ E) as (_ & ->).
  destruct t; cbn [stack_step] in H1; cbn [parents]; subst; try exact L; try (cbn [length]; congruence);
    (destruct P; cbn in L |- *; congruence).
Qed.

(** The positions of the entries. *)
Fixpoint opens (i : nat) (ts : list type) : list nat :=
  match ts with [] => [] | t :: r => map fst (entry i t) ++ opens (S i) r end.
Lemma fst_upd_all : forall P V, map fst (upd_all P vinc V) = map fst V.
Proof.
  assert (A : forall i V, map fst (upd i vinc V) = map fst V) by (induction i as [|i IH]; intros [|x l]; cbn; try reflexivity; rewrite IH; reflexivity).
  unfold upd_all. induction P as [|p P IH]; intros V; cbn; [reflexivity|]. rewrite IH. apply A.
Qed.
Lemma loop_positions : forall ts i meta P meta' P', meta_loop i ts meta P = Ok (meta', P') ->
  map m_pos meta' = map m_pos meta ++ opens i ts.
Proof.
  induction ts as [|t ts IH]; intros i meta P meta' P' H; cbn [meta_loop opens] in *.
  - injection H as <- <-. rewrite app_nil_r. reflexivity.
  - destruct (meta_step i t meta P) as [[meta1 P1]| |] eqn:E; cbn [obind] in H; try discriminate H.
    rewrite (IH _ _ _ _ _ H), app_assoc. f_equal. destruct (meta_step_spec _ _ _ _ _ _ E) as (V & _).
    change m_pos with (fun m => fst (vw m)). rewrite <- !(map_map vw fst), V, map_app, fst_upd_all. reflexivity.
Qed.
Lemma opens_ge : forall ts i k, In k (opens i ts) -> i <= k < i + length ts.
Proof.
  induction ts as [|t ts IH]; intros i k H; cbn in H; [destruct H|]. apply in_app_or in H. destruct H as [H|H].
  - destruct t; cbn in H; try tauto; destruct H as [<-|[]]; cbn; lia.
  - apply IH in H. cbn. lia.
Qed.
Lemma opens_nodup : forall ts i, NoDup (opens i ts).
Proof.
  induction ts as [|t ts IH]; intros i; cbn [opens]; [constructor|]. destruct t; cbn; try apply IH; constructor; try apply IH;
    intros H; apply opens_ge in H; lia.
Qed.
Lemma opens_in : forall ts i k t, nth_error ts k = Some t -> opening t -> In (i + k) (opens i ts).
Proof.
  induction ts as [|u ts IH]; intros i k t H O; [destruct k; discriminate H|]. cbn [opens]. apply in_or_app. destruct k as [|k]; cbn in H.
  - injection H as ->. left. rewrite Nat.add_0_r. destruct O as [-> | ->]; left; reflexivity.
  - right. replace (i + S k) with (S i + k) by lia. exact (IH _ _ _ H O).
Qed.

(** Sizes only grow, and only those of the open entries. *)
Lemma upd_nth {A} (f : A -> A) : forall i l k, nth_error (upd i f l) k = if Nat.eqb i k then option_map f (nth_error l k) else nth_error l k.
Proof. induction i as [|i IH]; intros [|x l] [|k]; cbn; try reflexivity; [destruct (Nat.eqb i k); reflexivity|apply IH]. Qed.
Lemma upd_all_out {A} (f : A -> A) : forall P l k, ~ In k P -> nth_error (upd_all P f l) k = nth_error l k.
Proof.
  unfold upd_all. induction P as [|p P IH]; intros l k H; cbn; [reflexivity|]. rewrite IH by (intros X; apply H; right; exact X).
  rewrite upd_nth. destruct (Nat.eqb_spec p k); [exfalso; apply H; left; assumption|reflexivity].
Qed.
Lemma upd_all_in {A} (f : A -> A) : forall P l k, NoDup P -> In k P -> nth_error (upd_all P f l) k = option_map f (nth_error l k).
Proof.
  unfold upd_all. induction P as [|p P IH]; intros l k N H; cbn; [destruct H|]. inversion N as [|? ? N1 N2]; subst. destruct H as [->|H].
  - change (fold_left (fun l i => upd i f l) P (upd k f l)) with (upd_all P f (upd k f l)). rewrite (upd_all_out f P _ _ N1), upd_nth, Nat.eqb_refl. reflexivity.
  - rewrite (IH _ _ N2 H), upd_nth. destruct (Nat.eqb_spec p k); [subst; contradiction|reflexivity].
Qed.

Definition fine (n : nat) (P : list nat) : Prop := NoDup P /\ Forall (fun k => k < n) P.
Lemma fine_step i t meta P meta' P' : fine (length meta) P -> meta_step i t meta P = Ok (meta', P') ->
  fine (length meta') P' /\ length meta <= length meta'.
Proof.
  intros (N & F) E. destruct (meta_step_spec _ _ _ _ _ _ E) as (V & ->). apply (f_equal (@length _)) in V.
  rewrite app_length, upd_all_len, !map_length in V. assert (F' : Forall (fun k => k < length meta') P).
  { revert F. apply Forall_impl. intros; lia. }
  split; [|lia]. destruct t; cbn [parents entry length] in *; try (split; assumption);
    try (destruct P as [|p P]; [split; constructor|]; cbn; inversion N; inversion F'; split; assumption);
    (split; constructor; try assumption; try lia; intros X; rewrite Forall_forall in F; specialize (F _ X); lia).
Qed.
Lemma step_out i t meta P meta' P' k : meta_step i t meta P = Ok (meta', P') -> k < length meta -> ~ In k P ->
  nth_error (map vw meta') k = nth_error (map vw meta) k /\ ~ In k P'.
Proof.
  intros E K H. destruct (meta_step_spec _ _ _ _ _ _ E) as (V & ->). split.
  - rewrite V, nth_error_app1 by (rewrite upd_all_len, map_length; exact K). apply upd_all_out, H.
  - destruct t; cbn [parents]; try exact H; try (destruct P; cbn; [tauto|intros X; apply H; right; exact X]);
      (intros [X|X]; [lia|exact (H X)]).
Qed.
Lemma step_in i t meta P meta' P' k : fine (length meta) P -> meta_step i t meta P = Ok (meta', P') -> In k P ->
  nth_error (map vw meta') k = option_map vinc (nth_error (map vw meta) k).
Proof.
  intros (N & F) E H. destruct (meta_step_spec _ _ _ _ _ _ E) as (V & _). rewrite Forall_forall in F.
  rewrite V, nth_error_app1 by (rewrite upd_all_len, map_length; exact (F _ H)). apply upd_all_in; assumption.
Qed.
Lemma loop_fine : forall ts i meta P meta' P', fine (length meta) P -> meta_loop i ts meta P = Ok (meta', P') -> fine (length meta') P' /\ length meta <= length meta'.
Proof.
  induction ts as [|t ts IH]; intros i meta P meta' P' F H; cbn [meta_loop] in H; [injection H as <- <-; auto|].
  destruct (meta_step i t meta P) as [[meta1 P1]| |] eqn:E; cbn [obind] in H; try discriminate H.
  destruct (fine_step _ _ _ _ _ _ F E) as (F1 & L1). destruct (IH _ _ _ _ _ F1 H) as (F2 & L2). split; [exact F2|lia].
Qed.
Lemma loop_out : forall ts i meta P meta' P' k, fine (length meta) P -> meta_loop i ts meta P = Ok (meta', P') -> k < length meta -> ~ In k P ->
  nth_error (map vw meta') k = nth_error (map vw meta) k.
Proof.
  induction ts as [|t ts IH]; intros i meta P meta' P' k F H K N; cbn [meta_loop] in H; [injection H as <- <-; reflexivity|].
  destruct (meta_step i t meta P) as [[meta1 P1]| |] eqn:E; cbn [obind] in H; try discriminate H.
  destruct (fine_step _ _ _ _ _ _ F E) as (F1 & L1). destruct (step_out _ _ _ _ _ _ _ E K N) as (A & B).
  rewrite (IH _ _ _ _ _ k F1 H ltac:(lia) B). exact A.
Qed.
Lemma loop_app : forall a i b meta P, meta_loop i (a ++ b) meta P = let* (meta, P) := meta_loop i a meta P in meta_loop (i + length a) b meta P.
Proof.
  induction a as [|t a IH]; intros i b meta P; cbn [meta_loop app length obind]; [rewrite Nat.add_0_r; reflexivity|].
  destruct (meta_step i t meta P) as [[meta1 P1]| |]; cbn [obind]; try reflexivity. rewrite IH, Nat.add_succ_r. reflexivity.
Qed.
Lemma vinc_n n p s : vinc (p, s + n) = (p, s + S n).
Proof. unfold vinc. cbn. f_equal. lia. Qed.
Definition grown (n : nat) (v : nat * nat) : nat * nat := (fst v, snd v + n).
Lemma grown_grown a b o : option_map (grown a) (option_map (grown b) o) = option_map (grown (b + a)) o.
Proof. destruct o as [[p s]|]; [|reflexivity]. unfold grown. cbn. do 2 f_equal. lia. Qed.
(** Balanced tokens: the parents are the same afterwards and their sizes have grown. *)
Lemma loop_balanced : forall ts, balanced ts -> forall i meta P, fine (length meta) P ->
  exists meta', meta_loop i ts meta P = Ok (meta', P) /\ (forall k, In k P -> nth_error (map vw meta') k = option_map (grown (length ts)) (nth_error (map vw meta) k)).
Proof.
  assert (STEP : forall i t meta P, (t = TObjectEnd \/ t = TArrayEnd -> P <> []) -> fine (length meta) P -> exists meta', meta_step i t meta P = Ok (meta', parents (length meta) t P) /\
    fine (length meta') (parents (length meta) t P) /\ length meta <= length meta' /\
    (forall k, In k P -> nth_error (map vw meta') k = option_map (grown 1) (nth_error (map vw meta) k))).
  { intros i t meta P T F. destruct (meta_step_ok i t meta P T) as ([meta' P'] & E). destruct (meta_step_spec _ _ _ _ _ _ E) as (_ & X). subst P'.
    exists meta'. split; [exact E|]. destruct (fine_step _ _ _ _ _ _ F E) as (A & B). split; [exact A|]. split; [exact B|].
    intros k K. exact (step_in _ _ _ _ _ _ k F E K). }
  assert (BR : forall o l1 l2, opening o ->
    (forall i meta P, fine (length meta) P -> exists meta', meta_loop i l1 meta P = Ok (meta', P) /\ (forall k, In k P -> nth_error (map vw meta') k = option_map (grown (length l1)) (nth_error (map vw meta) k))) ->
    (forall i meta P, fine (length meta) P -> exists meta', meta_loop i l2 meta P = Ok (meta', P) /\ (forall k, In k P -> nth_error (map vw meta') k = option_map (grown (length l2)) (nth_error (map vw meta) k))) ->
    forall i meta P, fine (length meta) P -> exists meta', meta_loop i (o :: l1 ++ close_of o :: l2) meta P = Ok (meta', P) /\
      (forall k, In k P -> nth_error (map vw meta') k = option_map (grown (length (o :: l1 ++ close_of o :: l2))) (nth_error (map vw meta) k))).
  { intros o l1 l2 O IH1 IH2 i meta P F. cbn [meta_loop].
    destruct (STEP i o meta P ltac:(intros [X|X]; destruct O as [-> | ->]; discriminate X) F) as (m1 & -> & F1 & L1 & G1). cbn [obind]. rewrite loop_app.
    replace (parents (length meta) o P) with (length meta :: P) in * by (destruct O as [-> | ->]; reflexivity).
    destruct (IH1 (S i) m1 _ F1) as (m2 & E2 & G2). rewrite E2. cbn [obind meta_loop].
    destruct (loop_fine _ _ _ _ _ _ F1 E2) as (F2 & L2).
    destruct (STEP (S i + length l1) (close_of o) m2 (length meta :: P) ltac:(intros _; discriminate) F2) as (m3 & -> & F3 & L3 & G3). cbn [obind].
    replace (parents (length m2) (close_of o) (length meta :: P)) with P in * by (destruct O as [-> | ->]; reflexivity).
    destruct (IH2 (S (S i + length l1)) m3 P F3) as (m4 & -> & G4). exists m4. split; [reflexivity|]. intros k K.
    rewrite (G4 k K), (G3 k (or_intror K)), (G2 k (or_intror K)), (G1 k K), !grown_grown. f_equal. f_equal. cbn [length]. rewrite app_length. cbn [length]. lia. }
  induction 1 as [|t l A B C D _ IH|l1 l2 _ IH1 _ IH2|l1 l2 _ IH1 _ IH2]; intros i meta P F.
  - exists meta. split; [reflexivity|]. intros k K. destruct (nth_error (map vw meta) k) as [[p s]|]; [|reflexivity]. unfold grown. cbn. rewrite Nat.add_0_r. reflexivity.
  - cbn [meta_loop]. destruct (STEP i t meta P ltac:(intros [X|X]; contradiction) F) as (m1 & -> & F1 & L1 & G1). cbn [obind].
    replace (parents (length meta) t P) with P in * by (destruct t; try reflexivity; congruence).
    destruct (IH (S i) m1 P F1) as (m2 & -> & G2). exists m2. split; [reflexivity|]. intros k K. rewrite (G2 k K), (G1 k K), grown_grown. f_equal.
  - exact (BR TObjectStart l1 l2 (or_introl eq_refl) IH1 IH2 i meta P F).
  - exact (BR TArrayStart l1 l2 (or_intror eq_refl) IH1 IH2 i meta P F).
Qed.

(** The source of a list of tokens whose brackets match. *)
Definition types_of (d : dsrc) : list type := map tk_value_type (ds_tokens d).
Definition source (d : dsrc) : Prop := (exists st, runs [] (types_of d) st) /\ metaForTokens (ds_tokens d) = Ok (ds_meta d).
Lemma source_loop d : source d -> exists P, meta_loop 0 (types_of d) [] [] = Ok (ds_meta d, P).
Proof.
  intros (_ & M). unfold metaForTokens in M. fold (types_of d) in M. destruct (meta_loop 0 (types_of d) [] []) as [[m P]| |]; cbn [obind] in M; try discriminate M.
  injection M as <-. eauto.
Qed.
Lemma fine_nil : fine 0 [].
Proof. split; constructor. Qed.

Lemma sizes_pos : forall ts i meta P meta' P', Forall (fun v => 1 <= snd v) (map vw meta) -> meta_loop i ts meta P = Ok (meta', P') -> Forall (fun v => 1 <= snd v) (map vw meta').
Proof.
  assert (U1 : forall i V, Forall (fun v : nat * nat => 1 <= snd v) V -> Forall (fun v : nat * nat => 1 <= snd v) (upd i vinc V)).
  { induction i as [|i IH]; intros [|x V] H; cbn; try exact H; inversion H; subst; constructor; auto. cbn. lia. }
  assert (U : forall P V, Forall (fun v : nat * nat => 1 <= snd v) V -> Forall (fun v : nat * nat => 1 <= snd v) (upd_all P vinc V)).
  { unfold upd_all. induction P as [|p P IH]; intros V H; cbn; [exact H|]. apply IH, U1, H. }
  induction ts as [|t ts IH]; intros i meta P meta' P' S H; cbn [meta_loop] in H; [injection H as <- <-; exact S|].
  destruct (meta_step i t meta P) as [[meta1 P1]| |] eqn:E; cbn [obind] in H; try discriminate H.
  refine (IH _ _ _ _ _ _ H). destruct (meta_step_spec _ _ _ _ _ _ E) as (-> & _). apply Forall_app. split; [apply U, S|].
  destruct t; cbn; repeat constructor.
Qed.

Lemma find_pos meta pos : In pos (map m_pos meta) -> exists m, find (fun m => Nat.eqb (m_pos m) pos) meta = Some m /\ In m meta /\ m_pos m = pos.
Proof.
  intros H. apply in_map_iff in H. destruct H as (m0 & E0 & I0). destruct (find (fun m => Nat.eqb (m_pos m) pos) meta) as [m|] eqn:E.
  - apply find_some in E. destruct E as (I & E). exists m. split; [reflexivity|]. split; [exact I|]. apply Nat.eqb_eq, E.
  - exfalso. apply (find_none _ _ E) in I0. rewrite E0, Nat.eqb_refl in I0. discriminate I0.
Qed.
Lemma entry_of d pos t : source d -> nth_error (types_of d) pos = Some t -> opening t ->
  exists m, find (fun m => Nat.eqb (m_pos m) pos) (ds_meta d) = Some m /\ In m (ds_meta d) /\ m_pos m = pos /\ 1 <= m_size m.
Proof.
  intros S H O. destruct (source_loop d S) as (P & L). assert (Q := loop_positions _ _ _ _ _ _ L). cbn [map app] in Q.
  assert (I : In pos (map m_pos (ds_meta d))) by (rewrite Q; exact (opens_in _ 0 _ _ H O)).
  destruct (find_pos _ _ I) as (m & F & J & E). exists m. split; [exact F|]. split; [exact J|]. split; [exact E|].
  assert (Z := sizes_pos _ _ [] _ _ _ (Forall_nil _) L). rewrite Forall_forall in Z. exact (Z _ (in_map vw _ _ J)).
Qed.

(** skip always goes forward ... *)
Lemma skip_forward d pos : source d -> pos < length (ds_tokens d) -> exists p, d_skip d pos = Ok p /\ pos < p.
Proof.
  intros S H. unfold d_skip. destruct (nth_error (ds_tokens d) pos) as [t|] eqn:E; [|apply nth_error_None in E; lia].
  destruct (isComplexValue (tk_value_type t)) eqn:C; [|exists (Datatypes.S pos); split; [reflexivity|lia]].
  destruct (entry_of d pos (tk_value_type t) S) as (m & F & _ & _ & L).
  - unfold types_of. rewrite nth_error_map, E. reflexivity.
  - destruct (tk_value_type t); try discriminate C; [left|right]; reflexivity.
  - rewrite F. exists (pos + m_size m). split; [reflexivity|lia].
Qed.

(** ... and over a closed container to the token behind it. *)
Lemma skip_closed d a t l b : source d -> types_of d = a ++ t :: l ++ close_of t :: b -> opening t -> balanced l ->
  d_skip d (length a) = Ok (length a + length l + 2).
Proof.
  intros S T O B. assert (N : nth_error (types_of d) (length a) = Some t) by (rewrite T, nth_error_app2, Nat.sub_diag by lia; reflexivity).
  destruct (entry_of d (length a) t S N O) as (m & F & J & E & _).
  unfold d_skip. assert (N' := N). unfold types_of in N'. rewrite nth_error_map in N'. destruct (nth_error (ds_tokens d) (length a)) as [tk|]; [|discriminate N'].
  cbn in N'. injection N' as N'. rewrite N', F. destruct (isComplexValue t) eqn:C; [|destruct O as [-> | ->]; discriminate C].
  assert (Z : m_size m = length l + 2); [|rewrite Z; f_equal; lia].
  destruct (source_loop d S) as (P & L). rewrite T in L. rewrite loop_app in L.
  destruct (meta_loop 0 a [] []) as [[ma Pa]| |] eqn:La; cbn [obind meta_loop] in L; try discriminate L.
  destruct (loop_fine _ _ [] _ _ _ fine_nil La) as (Fa & _).
  destruct (meta_step (0 + length a) t ma Pa) as [[m1 P1]| |] eqn:L1; cbn [obind] in L; try discriminate L.
  destruct (fine_step _ _ _ _ _ _ Fa L1) as (F1 & G1). destruct (meta_step_spec _ _ _ _ _ _ L1) as (V1 & Q1).
  replace (parents (length ma) t Pa) with (length ma :: Pa) in Q1 by (destruct O as [-> | ->]; reflexivity).
  replace (entry (0 + length a) t) with [(length a, 1)] in V1 by (destruct O as [-> | ->]; reflexivity).
  assert (K1 : nth_error (map vw m1) (length ma) = Some (length a, 1)).
  { rewrite V1, nth_error_app2 by (rewrite upd_all_len, map_length; lia). rewrite upd_all_len, map_length, Nat.sub_diag. reflexivity. }
  rewrite loop_app in L. destruct (loop_balanced l B (Datatypes.S (0 + length a)) m1 P1 F1) as (m2 & L2 & G2). rewrite L2 in L. cbn [obind meta_loop] in L.
  destruct (loop_fine _ _ _ _ _ _ F1 L2) as (F2 & _).
  destruct (meta_step _ (close_of t) m2 P1) as [[m3 P3]| |] eqn:L3; cbn [obind] in L; try discriminate L.
  destruct (fine_step _ _ _ _ _ _ F2 L3) as (F3 & G3). destruct (meta_step_spec _ _ _ _ _ _ L3) as (_ & Q3).
  assert (K3 : nth_error (map vw m3) (length ma) = Some (length a, length l + 2)).
  { rewrite (step_in _ _ _ _ _ _ (length ma) F2 L3) by (rewrite Q1; left; reflexivity).
    rewrite (G2 (length ma)) by (rewrite Q1; left; reflexivity). rewrite K1. unfold grown, vinc. cbn. do 2 f_equal. lia. }
  assert (N3 : ~ In (length ma) P3).
  { rewrite Q3, Q1. replace (parents (length m2) (close_of t) (length ma :: Pa)) with Pa by (destruct O as [-> | ->]; reflexivity).
    destruct F1 as (X & _). rewrite Q1 in X. inversion X; assumption. }
  assert (K : nth_error (map vw (ds_meta d)) (length ma) = Some (length a, length l + 2)).
  { rewrite (loop_out _ _ _ _ _ _ _ F3 L); [exact K3| |exact N3].
    assert (X : nth_error (map vw m3) (length ma) <> None) by (rewrite K3; discriminate). apply nth_error_Some in X. rewrite map_length in X. exact X. }
  apply In_nth_error in J. destruct J as (j & J).
  assert (Q := loop_positions (types_of d) 0 [] [] (ds_meta d) P). rewrite T, loop_app, La in Q. cbn [obind meta_loop] in Q. rewrite L1 in Q. cbn [obind] in Q.
  rewrite loop_app, L2 in Q. cbn [obind meta_loop] in Q. rewrite L3 in Q. cbn [obind] in Q. specialize (Q L). cbn [map app] in Q.
  assert (ND : NoDup (map m_pos (ds_meta d))) by (rewrite Q; apply opens_nodup).
  assert (Ej : j = length ma).
  { rewrite NoDup_nth_error in ND. apply ND.
    - rewrite map_length. apply nth_error_Some. rewrite J. discriminate.
    - rewrite (nth_error_map m_pos), J. cbn. rewrite E. rewrite nth_error_map in K |- *. destruct (nth_error (ds_meta d) (length ma)) as [x|]; [|discriminate K].
      cbn in K |- *. injection K as K _. rewrite K. reflexivity. }
  subst j. rewrite nth_error_map, J in K. cbn in K. injection K as _ K. exact K.
Qed.
