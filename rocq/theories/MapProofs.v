(** metaForTokens computes the metadata of the tree. *)
From Verif Require Import Base Tactics ScanModel TokModel JsonSpec MapModel MapSpec SerDoc.
From Coq Require Import Lia.

(** ** Updating entries *)

Definition adj (s k c x : nat) (d : bool) (m : jmeta) : jmeta :=
  mkMeta (m_pos m) (m_size m + s) (m_skip m + k) (m_children m + c) (m_complex m + x) (m_array m) (m_data m || d).

Lemma adj_comp s k c x d s' k' c' x' d' m :
  adj s k c x d (adj s' k' c' x' d' m) = adj (s' + s) (k' + k) (c' + c) (x' + x) (d' || d) m.
Proof. unfold adj. cbn. rewrite <- !Nat.add_assoc, <- orb_assoc. reflexivity. Qed.
Lemma adj_comm s k c x d s' k' c' x' d' m :
  adj s k c x d (adj s' k' c' x' d' m) = adj s' k' c' x' d' (adj s k c x d m).
Proof. rewrite !adj_comp. f_equal; lia. Qed.
Lemma adj_zero m : adj 0 0 0 0 false m = m.
Proof. destruct m. unfold adj. cbn. rewrite !Nat.add_0_r, orb_false_r. reflexivity. Qed.

Lemma inc_size_adj m : inc_size m = adj 1 0 0 0 false m.
Proof. destruct m. unfold adj. cbn. rewrite !Nat.add_0_r, orb_false_r. reflexivity. Qed.
Lemma inc_skip_adj m : inc_skip m = adj 0 1 0 0 false m.
Proof. destruct m. unfold adj. cbn. rewrite !Nat.add_0_r, orb_false_r. reflexivity. Qed.
Lemma inc_children_adj m : inc_children m = adj 0 0 1 0 false m.
Proof. destruct m. unfold adj. cbn. rewrite !Nat.add_0_r, orb_false_r. reflexivity. Qed.
Lemma inc_complex_adj m : inc_complex m = adj 0 0 0 1 false m.
Proof. destruct m. unfold adj. cbn. rewrite !Nat.add_0_r, orb_false_r. reflexivity. Qed.
Lemma set_data_adj m : set_data m = adj 0 0 0 0 true m.
Proof. destruct m. unfold adj. cbn. rewrite !Nat.add_0_r, orb_true_r. reflexivity. Qed.

Section Upd.
Context {A : Type}.
Implicit Types (f g : A -> A) (l : list A).

Lemma upd_ext f g : (forall x, f x = g x) -> forall i l, upd i f l = upd i g l.
Proof. intros H i l. revert i. induction l as [|x l IH]; intros [|i]; cbn; rewrite ?H, ?IH; reflexivity. Qed.
Lemma upd_length f i l : length (upd i f l) = length l.
Proof. revert i. induction l as [|x l IH]; intros [|i]; cbn; rewrite ?IH; reflexivity. Qed.
Lemma upd_upd f g i l : upd i f (upd i g l) = upd i (fun x => f (g x)) l.
Proof. revert i. induction l as [|x l IH]; intros [|i]; cbn; rewrite ?IH; reflexivity. Qed.
Lemma upd_comm f g : (forall x, f (g x) = g (f x)) -> forall i j l, upd i f (upd j g l) = upd j g (upd i f l).
Proof. intros H i j l. revert i j. induction l as [|x l IH]; intros [|i] [|j]; cbn; rewrite ?IH, ?H; reflexivity. Qed.
Lemma upd_app f i l r : i < length l -> upd i f (l ++ r) = upd i f l ++ r.
Proof. revert i. induction l as [|x l IH]; intros [|i] H; cbn in *; try lia; [reflexivity|]. rewrite IH by lia. reflexivity. Qed.
Lemma upd_mid f l x r : upd (length l) f (l ++ x :: r) = l ++ f x :: r.
Proof. induction l as [|y l IH]; cbn; [reflexivity|]. rewrite IH. reflexivity. Qed.

Lemma upd_all_ext f g : (forall x, f x = g x) -> forall P l, upd_all P f l = upd_all P g l.
Proof. intros H. unfold upd_all. induction P as [|p P IH]; intros l; cbn; [reflexivity|]. rewrite (upd_ext f g H). apply IH. Qed.
Lemma upd_all_length f P : forall l, length (upd_all P f l) = length l.
Proof. unfold upd_all. induction P as [|p P IH]; intros l; cbn; [reflexivity|]. rewrite IH. apply upd_length. Qed.
Lemma upd_all_comm1 f g : (forall x, f (g x) = g (f x)) -> forall P i l, upd i f (upd_all P g l) = upd_all P g (upd i f l).
Proof.
  intros H. unfold upd_all. induction P as [|p P IH]; intros i l; cbn; [reflexivity|].
  rewrite IH, (upd_comm f g H). reflexivity.
Qed.
Lemma upd_all_comp f g : (forall x, f (g x) = g (f x)) -> forall P l,
  upd_all P f (upd_all P g l) = upd_all P (fun x => f (g x)) l.
Proof.
  intros H. induction P as [|p P IH]; intros l; [reflexivity|].
  change (upd_all P f (upd p f (upd_all P g (upd p g l))) = upd_all P (fun x => f (g x)) (upd p (fun x => f (g x)) l)).
  rewrite (upd_all_comm1 f g H), IH, upd_upd. reflexivity.
Qed.
Lemma upd_all_app f P : forall l r, Forall (fun p => p < length l) P -> upd_all P f (l ++ r) = upd_all P f l ++ r.
Proof.
  unfold upd_all. induction P as [|p P IH]; intros l r H; cbn; [reflexivity|].
  inversion H as [|? ? H1 H2]; subst. rewrite (upd_app f p l r H1). apply IH.
  rewrite upd_length. exact H2.
Qed.
End Upd.

(** ** The effect of a value on its ancestors *)

(** All of [P] contain the tokens, the first of [P] also gets children. *)
Definition eff (P : list nat) (s k : nat) (d : bool) (c x : nat) (M : list jmeta) : list jmeta :=
  match P with
  | [] => M
  | p :: _ => upd p (adj 0 0 c x false) (upd_all P (adj s k 0 0 d) M)
  end.

Lemma eff_length P s k d c x M : length (eff P s k d c x M) = length M.
Proof. unfold eff. destruct P; [reflexivity|]. rewrite upd_length, upd_all_length. reflexivity. Qed.

Lemma eff_app P s k d c x M X : Forall (fun p => p < length M) P -> eff P s k d c x (M ++ X) = eff P s k d c x M ++ X.
Proof.
  intros H. unfold eff. destruct P as [|p P]; [reflexivity|].
  rewrite upd_all_app by exact H. inversion H as [|? ? H1 H2]; subst.
  rewrite upd_app by (rewrite upd_all_length; exact H1). reflexivity.
Qed.

Lemma eff_eff P s k d c x s' k' d' c' x' M :
  eff P s k d c x (eff P s' k' d' c' x' M) = eff P (s' + s) (k' + k) (d' || d) (c' + c) (x' + x) M.
Proof.
  unfold eff. destruct P as [|p P]; [reflexivity|]. set (Q := p :: P).
  rewrite <- (upd_all_comm1 (adj 0 0 c' x' false) (adj s k 0 0 d)) by (intros; apply adj_comm).
  rewrite upd_upd, upd_all_comp by (intros; apply adj_comm).
  rewrite (upd_ext _ (adj 0 0 (c' + c) (x' + x) false)) by (intros; apply adj_comp).
  f_equal. apply upd_all_ext. intros. rewrite adj_comp. f_equal; lia.
Qed.

Lemma eff_zero P M : eff P 0 0 false 0 0 M = M.
Proof.
  assert (H : forall i (l : list jmeta), upd i (adj 0 0 0 0 false) l = l).
  { intros i l. revert i. induction l as [|x l IH]; intros [|i]; cbn; rewrite ?adj_zero, ?IH; reflexivity. }
  unfold eff. destruct P as [|p P]; [reflexivity|]. rewrite H. unfold upd_all. generalize (p :: P). clear p P.
  intros P. revert M. induction P as [|p P IH]; intros M; cbn; [reflexivity|]. rewrite H. apply IH.
Qed.

(** A new entry below the innermost container. *)
Lemma eff_inner M e X P s k d c x : Forall (fun p => p < length M) P ->
  eff (length M :: P) s k d c x (M ++ e :: X) = eff P s k d 0 0 M ++ adj s k c x d e :: X.
Proof.
  intros H. unfold eff. change (upd_all (length M :: P) (adj s k 0 0 d) (M ++ e :: X)) with
    (upd_all P (adj s k 0 0 d) (upd (length M) (adj s k 0 0 d) (M ++ e :: X))).
  rewrite upd_mid. rewrite (upd_all_app _ P M) by exact H.
  replace (length M) with (length (upd_all P (adj s k 0 0 d) M)) by apply upd_all_length.
  rewrite upd_mid, adj_comp. rewrite !Nat.add_0_r, !Nat.add_0_l, orb_false_r.
  f_equal. destruct P as [|p P]; [reflexivity|].
  assert (Hz : forall i (l : list jmeta), upd i (adj 0 0 0 0 false) l = l).
  { intros i l. revert i. induction l as [|y l IH]; intros [|i]; cbn; rewrite ?adj_zero, ?IH; reflexivity. }
  rewrite Hz. reflexivity.
Qed.

(** ** Single steps *)

Lemma step_scalar i t M P : t <> TArrayEnd -> t <> TObjectEnd -> t <> TArrayStart -> t <> TObjectStart ->
  meta_step i t M P = Ok (eff P 1 0 true 1 0 M, P).
Proof.
  intros H1 H2 H3 H4. unfold meta_step.
  assert (G : match P with
     | [] => Ok (upd_all P inc_size M, P)
     | p :: _ => Ok (upd p inc_children (upd_all P inc_size M), P)
     end = Ok (match P with [] => M | p :: _ => upd p (adj 0 0 1 0 false) (upd_all P (adj 1 0 0 0 false) M) end, P)).
  { destruct P as [|p P]; [reflexivity|]. rewrite (upd_ext _ _ inc_children_adj), (upd_all_ext _ _ inc_size_adj). reflexivity. }
  assert (R : (let* (meta, parent) := Ok (match P with [] => M | p :: _ => upd p (adj 0 0 1 0 false) (upd_all P (adj 1 0 0 0 false) M) end, P) in
     Ok (upd_all parent set_data meta, parent)) = Ok (eff P 1 0 true 1 0 M, P)).
  { cbn [obind]. unfold eff. destruct P as [|p P]; [reflexivity|]. rewrite (upd_all_ext _ _ set_data_adj).
    rewrite <- (upd_all_comm1 (adj 0 0 1 0 false)) by (intros; apply adj_comm).
    rewrite upd_all_comp by (intros; apply adj_comm).
    rewrite (upd_all_ext _ (adj 1 0 0 0 true)); [reflexivity|]. intros. apply adj_comp. }
  destruct t; try congruence; rewrite G; exact R.
Qed.

Lemma step_start i t M P (arr : bool) : t = (if arr then TArrayStart else TObjectStart) ->
  meta_step i t M P = Ok (eff P 1 1 false 1 1 M ++ [meta_new i arr], length M :: P).
Proof.
  intros ->. unfold meta_step.
  assert (G : forall t', (let* (meta, parent) :=
      match P with [] => Ok (upd_all P inc_size M, P) | p :: _ => Ok (upd p inc_children (upd_all P inc_size M), P) end in
      let meta0 := match parent with [] => meta | p :: _ => upd p inc_complex meta end in
      let meta1 := upd_all parent inc_skip meta0 in
      Ok (meta1 ++ [meta_new i t'], length meta1 :: parent)) =
      Ok (eff P 1 1 false 1 1 M ++ [meta_new i t'], length M :: P)).
  { intros t'. destruct P as [|p P]; [reflexivity|]. cbn [obind]. cbv zeta.
    rewrite upd_all_length, upd_length, upd_length, upd_all_length. do 3 f_equal.
    unfold eff. rewrite (upd_ext _ _ inc_children_adj), (upd_ext _ _ inc_complex_adj),
      (upd_all_ext _ _ inc_size_adj), (upd_all_ext _ _ inc_skip_adj).
    rewrite upd_upd.
    rewrite (upd_ext _ (adj 0 0 1 1 false)) by (intros; apply adj_comp).
    rewrite <- (upd_all_comm1 (adj 0 0 1 1 false)) by (intros; apply adj_comm).
    rewrite upd_all_comp by (intros; apply adj_comm).
    rewrite (upd_all_ext _ (adj 1 1 0 0 false)); [reflexivity|]. intros. apply adj_comp. }
  destruct arr; apply G.
Qed.

Lemma step_end i t M p P : t = TArrayEnd \/ t = TObjectEnd ->
  meta_step i t M (p :: P) = Ok (eff (p :: P) 1 0 false 0 0 M, P).
Proof.
  intros H. unfold meta_step. assert (E : upd_all (p :: P) inc_size M = eff (p :: P) 1 0 false 0 0 M).
  { unfold eff. rewrite (upd_all_ext _ _ inc_size_adj).
    assert (Hz : forall i (l : list jmeta), upd i (adj 0 0 0 0 false) l = l).
    { intros j l. revert j. induction l as [|y l IH]; intros [|j]; cbn; rewrite ?adj_zero, ?IH; reflexivity. }
    rewrite Hz. reflexivity. }
  destruct H as [-> | ->]; cbn [obind]; rewrite E; reflexivity.
Qed.

(** ** Whole values *)

Definition below (M : list jmeta) (P : list nat) : Prop := Forall (fun p => p < length M) P.

Definition meta_value (j : json) : Prop := forall name i rest M P, below M P ->
  meta_loop i (doc_types name j ++ rest) M P =
  meta_loop (i + ntok j) rest (eff P (ntok j) (containers j) (has_scalar j) 1 (complex j) M ++ tree_meta i j) P.

(** Members and elements alike: a list of values with names. *)
Definition types_of (l : list (option bytes * json)) : list type :=
  flat_map (fun nv => doc_types (fst nv) (snd nv)) l.
Fixpoint metas (pos : nat) (l : list (option bytes * json)) : list jmeta :=
  match l with [] => [] | nv :: r => tree_meta pos (snd nv) ++ metas (pos + ntok (snd nv)) r end.
Definition tsum (f : json -> nat) (l : list (option bytes * json)) : nat := list_sum (map (fun nv => f (snd nv)) l).

Lemma below_app M X P : below M P -> below (M ++ X) P.
Proof. intros H. eapply Forall_impl; [|exact H]. intros p Hp. rewrite app_length. cbn in Hp. lia. Qed.
Lemma below_eff M P Q s k d c x : below M P -> below (eff Q s k d c x M) P.
Proof. unfold below. rewrite eff_length. auto. Qed.

Lemma meta_list l : Forall (fun nv => meta_value (snd nv)) l ->
  forall i rest M P, below M P ->
  meta_loop i (types_of l ++ rest) M P =
  meta_loop (i + tsum ntok l) rest
    (eff P (tsum ntok l) (tsum containers l) (existsb (fun nv => has_scalar (snd nv)) l) (length l) (tsum complex l) M ++ metas i l) P.
Proof.
  induction 1 as [|nv l Hv Hl IH]; intros i rest M P HM.
  - cbn. rewrite eff_zero, app_nil_r, Nat.add_0_r. reflexivity.
  - unfold types_of. cbn [flat_map]. fold (types_of l). rewrite <- app_assoc.
    rewrite Hv by exact HM. rewrite IH by (apply below_app, below_eff, HM).
    rewrite eff_app by (apply below_eff, HM). rewrite eff_eff. cbn [metas existsb length].
    unfold tsum. cbn [map list_sum fold_right]. fold (list_sum (map (fun nv => ntok (snd nv)) l)).
    fold (list_sum (map (fun nv => containers (snd nv)) l)). fold (list_sum (map (fun nv => complex (snd nv)) l)).
    rewrite Nat.add_assoc, <- app_assoc. reflexivity.
Qed.

Lemma meta_container (arr : bool) l i rest M P o c :
  Forall (fun nv => meta_value (snd nv)) l -> below M P ->
  let t1 := if arr then TArrayStart else TObjectStart in
  let t2 := if arr then TArrayEnd else TObjectEnd in
  st_value_type o = t1 -> st_value_type c = t2 ->
  meta_loop i ((st_value_type o :: types_of l ++ [st_value_type c]) ++ rest) M P =
  meta_loop (i + (tsum ntok l + 2)) rest
    (eff P (tsum ntok l + 2) (S (tsum containers l)) (existsb (fun nv => has_scalar (snd nv)) l) 1 1 M ++
     mkMeta i (tsum ntok l + 2) (S (tsum containers l)) (length l) (tsum complex l) arr
       (existsb (fun nv => has_scalar (snd nv)) l) :: metas (S i) l) P.
Proof.
  intros Hl HM t1 t2 -> ->. cbn [app meta_loop]. rewrite (step_start i t1 M P arr eq_refl). cbn [obind].
  rewrite <- app_assoc.
  set (M1 := eff P 1 1 false 1 1 M).
  assert (L1 : length M1 = length M) by apply eff_length. rewrite <- L1.
  assert (HM1 : below M1 P) by (apply below_eff, HM).
  rewrite (meta_list l Hl).
  2:{ constructor; [cbn; rewrite app_length; cbn; lia|]. apply below_app, HM1. }
  rewrite eff_inner by exact HM1. cbn [app meta_loop].
  rewrite step_end by (subst t2; destruct arr; auto). cbn [obind].
  set (M2 := eff P _ _ _ 0 0 M1).
  assert (L2 : length M2 = length M1) by apply eff_length. rewrite <- L2.
  rewrite <- app_assoc. cbn [app]. rewrite eff_inner by (apply below_eff, HM1).
  unfold M2, M1. rewrite !eff_eff. unfold adj, meta_new. cbn [m_pos m_size m_skip m_children m_complex m_array m_data].
  rewrite !orb_false_r, !orb_false_l, !Nat.add_0_r.
  replace (S (S i + tsum ntok l)) with (i + (tsum ntok l + 2)) by lia.
  replace (1 + tsum ntok l + 1) with (tsum ntok l + 2) by lia. cbn [Nat.add]. replace (S (tsum ntok l + 1)) with (tsum ntok l + 2) by lia. reflexivity.
Qed.

Lemma ntok_name name j : length (doc_tokens name j) = ntok j.
Proof. destruct j; unfold ntok; cbn; try reflexivity; rewrite !app_length; reflexivity. Qed.

Lemma types_arr els : map st_value_type (flat_map (doc_tokens None) els) = types_of (map (fun v => (None, v)) els).
Proof. unfold types_of. induction els as [|e els IH]; [reflexivity|]. cbn. rewrite map_app, IH. reflexivity. Qed.
Lemma types_obj ms : map st_value_type (flat_map (fun kv => doc_tokens (Some (fst kv)) (snd kv)) ms) =
  types_of (map (fun kv => (Some (fst kv), snd kv)) ms).
Proof. unfold types_of. induction ms as [|e ms IH]; [reflexivity|]. cbn. rewrite map_app, IH. reflexivity. Qed.

Lemma metas_arr els : forall pos, list_meta tree_meta pos els = metas pos (map (fun v => (None, v)) els).
Proof. induction els as [|e els IH]; intros pos; [reflexivity|]. cbn. rewrite IH. reflexivity. Qed.

Lemma tsum_map {A} (h : A -> option bytes * json) f (l : list A) :
  tsum f (map h l) = list_sum (map (fun a => f (snd (h a))) l).
Proof. unfold tsum. rewrite map_map. reflexivity. Qed.

Lemma flat_length {A} (h : A -> list stoken) (l : list A) : length (flat_map h l) = list_sum (map (fun a => length (h a)) l).
Proof. induction l as [|a l IH]; [reflexivity|]. cbn. rewrite app_length, IH. reflexivity. Qed.

Lemma ntok_arr els : ntok (JArr els) = tsum ntok (map (fun v => (None, v)) els) + 2.
Proof.
  unfold ntok at 1. cbn [doc_tokens length]. rewrite app_length, flat_length, tsum_map. cbn. lia.
Qed.
Lemma ntok_obj ms : ntok (JObj ms) = tsum ntok (map (fun kv => (Some (fst kv), snd kv)) ms) + 2.
Proof.
  unfold ntok at 1. cbn [doc_tokens length]. rewrite app_length, flat_length, tsum_map. cbn [length snd].
  rewrite (map_ext _ (fun a => ntok (snd a))) by (intros; apply ntok_name). lia.
Qed.
Lemma existsb_map {A B} (h : A -> B) f l : existsb f (map h l) = existsb (fun a => f (h a)) l.
Proof. induction l as [|a l IH]; [reflexivity|]. cbn. rewrite IH. reflexivity. Qed.
Lemma Forall_map_intro {A B} (h : A -> B) (Q : B -> Prop) l : Forall (fun a => Q (h a)) l -> Forall Q (map h l).
Proof. induction 1; constructor; assumption. Qed.

Lemma all_meta j : meta_value j.
Proof.
  induction j as [s|els IH|ms IH] using json_rect_nested; intros name i rest M P HM.
  - assert (E : doc_types name (JScalar s) = [scalar_type s]) by (destruct name; reflexivity).
    rewrite E. cbn [app meta_loop]. rewrite step_scalar by (destruct s; discriminate). cbn [obind].
    rewrite app_nil_r. f_equal. unfold ntok. cbn. lia.
  - assert (E : doc_types name (JArr els) = st_value_type (st_make name [lbrack] TArrayStart) ::
        types_of (map (fun v => (None, v)) els) ++ [st_value_type (st_make None [rbrack] TArrayEnd)]).
    { unfold doc_types. cbn [doc_tokens map]. rewrite map_app, types_arr. reflexivity. }
    rewrite E. rewrite (meta_container true); [|apply Forall_map_intro; exact IH|exact HM|destruct name; reflexivity|reflexivity].
    rewrite <- ntok_arr. cbn [tree_meta containers has_scalar complex].
    rewrite metas_arr, !tsum_map, existsb_map, map_length. reflexivity.
  - assert (E : doc_types name (JObj ms) = st_value_type (st_make name [lbrace] TObjectStart) ::
        types_of (map (fun kv => (Some (fst kv), snd kv)) ms) ++ [st_value_type (st_make None [rbrace] TObjectEnd)]).
    { unfold doc_types. cbn [doc_tokens map]. rewrite map_app, types_obj. reflexivity. }
    rewrite E. rewrite (meta_container false); [|apply Forall_map_intro; exact IH|exact HM|destruct name; reflexivity|reflexivity].
    rewrite <- ntok_obj. cbn [tree_meta containers has_scalar complex].
    rewrite !tsum_map, existsb_map, map_length. cbn [snd]. do 4 f_equal.
    generalize (S i). clear. induction ms as [|kv ms IH]; intros p; [reflexivity|]. cbn. rewrite IH. reflexivity.
Qed.

Lemma metaForTokens_spec ts name j : map tk_value_type ts = doc_types name j ->
  metaForTokens ts = Ok (tree_meta 0 j).
Proof.
  intros H. unfold metaForTokens. rewrite H, <- (app_nil_r (doc_types name j)).
  rewrite all_meta by constructor. reflexivity.
Qed.
