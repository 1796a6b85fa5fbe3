(** Updating a JS::Map. *)
From Verif Require Import Base Tactics ScanModel TokModel JsonSpec MapModel MapSpec SerDoc MapProofs MapProofs2.
From Coq Require Import Lia.

(** ** Moving entries *)

Lemma tree_meta_move n j : forall p, tree_meta (p + n) j = map (move_on n) (tree_meta p j).
Proof.
  induction j as [s|els IH|ms IH] using json_rect_nested; intros p; [reflexivity| |].
  - cbn [tree_meta map]. f_equal. change (S (p + n)) with (S p + n). generalize (S p).
    induction IH as [|j els Hj _ IHl]; intros q; [reflexivity|].
    change (list_meta tree_meta (q + n) (j :: els)) with (tree_meta (q + n) j ++ list_meta tree_meta (q + n + ntok j) els).
    change (list_meta tree_meta q (j :: els)) with (tree_meta q j ++ list_meta tree_meta (q + ntok j) els).
    rewrite map_app, Hj, <- IHl. do 2 f_equal. lia.
  - rewrite !tree_obj_eq. cbn [map]. f_equal. change (S (p + n)) with (S p + n). generalize (S p).
    induction IH as [|kv ms Hk _ IHl]; intros q; [reflexivity|].
    cbn [member_meta]. rewrite map_app, Hk, <- IHl. do 2 f_equal. lia.
Qed.

Lemma member_meta_move n ms : forall p, member_meta (p + n) ms = map (move_on n) (member_meta p ms).
Proof.
  induction ms as [|kv ms IH]; intros p; [reflexivity|].
  cbn [member_meta]. rewrite map_app, tree_meta_move, <- IH. do 2 f_equal. lia.
Qed.

Lemma move_back_on n l : map (move_back n) (map (move_on n) l) = l.
Proof.
  induction l as [|x l IH]; [reflexivity|]. cbn [map]. rewrite IH. f_equal. destruct x. unfold move_back, move_on. cbn.
  f_equal. lia.
Qed.

Lemma erase_app {A} (a b c : list A) i n : length a = i -> length b = n -> erase i n (a ++ b ++ c) = a ++ c.
Proof.
  intros <- <-. unfold erase. rewrite firstn_app, firstn_all, Nat.sub_diag, firstn_O, app_nil_r.
  rewrite app_assoc, skipn_app, skipn_all2 by (rewrite app_length; lia).
  rewrite app_length, Nat.sub_diag. reflexivity.
Qed.

(** ** Searching in the specification *)

Lemma lookup_split name ms v : lookup name ms = Some v ->
  exists pre post, ms = pre ++ (name, v) :: post /\ ~ In name (map fst pre) /\ remove_first name ms = pre ++ post.
Proof.
  induction ms as [|[k w] ms IH]; cbn; [discriminate|]. intros H.
  destruct (bytes_eqb_spec k name) as [->|Hne].
  - injection H as ->. exists [], ms. repeat split; auto.
  - destruct (IH H) as (pre & post & -> & Hn & Hr). exists ((k, w) :: pre), post. rewrite Hr. repeat split.
    cbn. intros [E|E]; auto.
Qed.
Lemma lookup_none name ms : lookup name ms = None -> ~ In name (map fst ms) /\ remove_first name ms = ms.
Proof.
  induction ms as [|[k w] ms IH]; cbn; [auto|]. intros H.
  destruct (bytes_eqb_spec k name) as [->|Hne]; [discriminate|].
  destruct (IH H) as [Hn Hr]. rewrite Hr. split; [|reflexivity]. intros [E|E]; auto.
Qed.

Lemma is_map_length ms d m : is_map ms d m -> length (mp_tokens m) = msum ntok ms + 2.
Proof. intros (t0 & mid & t1 & Ht & _ & _ & _ & Hmid & _). exact (tokens_length m ms t0 mid t1 Ht Hmid). Qed.

Lemma map_find_present ms d m pre name v post : is_map ms d m -> ms = pre ++ (name, v) :: post ->
  ~ In name (map fst pre) -> map_find m name = Ok (it_at m pre).
Proof.
  intros (t0 & mid & t1 & Ht & _ & _ & _ & Hmid & Hmeta) E Hn. unfold map_find. rewrite begin_at.
  apply (find_present m ms t0 mid t1 Ht Hmid _ Hmeta name v pre post []); [exact E|exact Hn|].
  assert (H := enough_fuel m ms t0 mid t1 Ht Hmid [] ms eq_refl).
  rewrite E, app_length in H. cbn [length] in H. lia.
Qed.
Lemma map_find_absent ms d m name : is_map ms d m -> name <> [] -> lookup name ms = None ->
  exists it, map_find m name = Ok it /\ it_index it = length (mp_tokens m).
Proof.
  intros (t0 & mid & t1 & Ht & _ & _ & Ht1 & Hmid & Hmeta) Hne Hl. unfold map_find. rewrite begin_at.
  apply lookup_none in Hl. destruct Hl as [Hl _].
  apply (find_absent m ms t0 mid t1 Ht Hmid _ Hmeta name (proj1 Ht1) Hne ms []); [reflexivity|exact Hl|].
  apply (enough_fuel m ms t0 mid t1 Ht Hmid [] ms eq_refl).
Qed.

Lemma it_at_not_end ms d m pre kv post : is_map ms d m -> ms = pre ++ kv :: post ->
  (it_index (it_at m pre) =? length (mp_tokens m)) = false.
Proof.
  intros (t0 & mid & t1 & Ht & _ & _ & Ht1 & Hmid & Hmeta) E.
  exact (not_end m ms t0 mid t1 Ht Hmid pre _ E).
Qed.

(** ** Removing *)

Lemma scalars_no_meta post : forallb (fun kv : bytes * json => is_scalar (snd kv)) post = true ->
  forall p, member_meta p post = [].
Proof.
  induction post as [|[k v] post IH]; intros H p; [reflexivity|]. cbn in H. apply andb_prop in H. destruct H as [Hv H].
  cbn [member_meta snd]. destruct v; try discriminate Hv. cbn. apply IH. exact H.
Qed.

Lemma map_remove_ok d m pre name v post : is_map (pre ++ (name, v) :: post) d m ->
  is_scalar v = false \/ forallb (fun kv => is_scalar (snd kv)) post = true ->
  exists m', map_remove m (it_at m pre) = Ok m' /\ is_map (pre ++ post) d m'.
Proof.
  intros (t0 & mid & t1 & Ht & T0 & T1 & N1 & Hmid & Hmeta) Hs.
  set (ms := pre ++ (name, v) :: post) in *.
  assert (Hm : map tok_view mid = member_tokens pre ++ doc_tokens (Some name) v ++ member_tokens post).
  { rewrite Hmid. unfold ms. rewrite member_tokens_app. reflexivity. }
  apply map_eq_app in Hm. destruct Hm as (a & b0 & -> & Ha & Hb).
  apply map_eq_app in Hb. destruct Hb as (b & c & -> & Hb & Hc).
  assert (La : length a = msum ntok pre) by (rewrite <- member_tokens_length, <- Ha, map_length; reflexivity).
  assert (Lb : length b = ntok v) by (rewrite <- (map_length tok_view), Hb; apply ntok_name).
  assert (Etok : erase (1 + msum ntok pre) (ntok v) (mp_tokens m) = t0 :: (a ++ c) ++ [t1]).
  { rewrite Ht. replace (t0 :: (a ++ b ++ c) ++ [t1]) with ((t0 :: a) ++ b ++ (c ++ [t1])) by (cbn; rewrite <- !app_assoc; reflexivity).
    rewrite erase_app by (cbn [length]; lia). cbn. rewrite <- app_assoc. reflexivity. }
  assert (Emid : map tok_view (a ++ c) = member_tokens (pre ++ post)).
  { rewrite map_app, Ha, Hc, member_tokens_app. reflexivity. }
  assert (Hn : ntok (JObj ms) = ntok (JObj (pre ++ post)) + ntok v).
  { rewrite !ntok_JObj. unfold ms. rewrite !msum_app, msum_cons. cbn [snd]. lia. }
  assert (Hcn : containers (JObj ms) = containers (JObj (pre ++ post)) + containers v).
  { change (containers (JObj ms)) with (S (msum containers ms)).
    change (containers (JObj (pre ++ post))) with (S (msum containers (pre ++ post))).
    unfold ms. rewrite !msum_app, msum_cons. cbn [snd]. lia. }
  assert (Hl : length ms = length (pre ++ post) + 1) by (unfold ms; rewrite !app_length; cbn [length]; lia).
  assert (Hx : msum complex ms = msum complex (pre ++ post) + complex v).
  { unfold ms. rewrite !msum_app, msum_cons. cbn [snd]. lia. }
  fold (msum complex ms) in Hmeta.
  assert (Hcx := complex_after m ms t0 _ t1 Ht Hmid _ Hmeta pre _ eq_refl).
  assert (Hma := meta_after m ms _ Hmeta pre _ eq_refl).
  unfold map_remove. cbn [it_at it_index it_meta it_complex]. rewrite Hcx, Hma.
  destruct (is_scalar v) eqn:Ev.
  - destruct Hs as [Hs|Hs]; [discriminate|]. destruct v as [s| |]; try discriminate Ev. clear Ev.
    cbn [member_meta tree_meta app snd]. rewrite (scalars_no_meta post Hs).
    assert (1 + msum ntok pre <> msum ntok ms + 2).
    { unfold ms. rewrite msum_app. lia. }
    destruct (Nat.eqb_spec (1 + msum ntok pre) (msum ntok ms + 2)); [contradiction|].
    eexists. split; [reflexivity|]. exists t0, (a ++ c), t1. cbn [mp_tokens mp_meta].
    split; [exact Etok|]. do 4 (split; [assumption|]).
    rewrite Hmeta. cbn [upd sub_root m_pos m_size m_skip m_children m_complex m_array m_data].
    change (ntok (JScalar s)) with 1 in Hn. change (containers (JScalar s)) with 0 in Hcn. change (complex (JScalar s)) with 0 in Hx.
    fold (msum complex (pre ++ post)). unfold sub_root. cbn [m_pos m_size m_skip m_children m_complex m_array m_data].
    rewrite Hn, Hcn, Hl, Hx, !Nat.add_sub. f_equal.
    unfold ms. rewrite !member_meta_app. cbn [member_meta tree_meta snd app].
    rewrite !(scalars_no_meta post Hs). reflexivity.
  - assert (E : exists x r, tree_meta (1 + msum ntok pre) v = x :: r /\ m_pos x = 1 + msum ntok pre /\ m_size x = ntok v /\
        m_skip x = containers v).
    { destruct v; try discriminate Ev; do 2 eexists; (split; [reflexivity|]); repeat split. }
    destruct E as (x & r & Ex & Ep & Es & Ek). cbn [member_meta snd]. rewrite Ex. cbn [app nth_error]. rewrite Ep, Nat.eqb_refl, Es, Ek.
    eexists. split; [reflexivity|]. exists t0, (a ++ c), t1. cbn [mp_tokens mp_meta].
    split; [exact Etok|]. do 4 (split; [assumption|]).
    assert (complex v = 1) by (destruct v; [discriminate Ev| |]; reflexivity).
    rewrite Hmeta. cbn [upd].
    assert (Er : erase (1 + msum containers pre) (containers v)
       (sub_root (ntok v) (containers v) 1
          (mkMeta 0 (ntok (JObj ms)) (containers (JObj ms)) (length ms) (msum complex ms) false d) :: member_meta 1 ms) =
       (mkMeta 0 (ntok (JObj (pre ++ post))) (containers (JObj (pre ++ post))) (length (pre ++ post))
          (msum complex (pre ++ post)) false d :: member_meta 1 pre) ++ member_meta (1 + msum ntok pre + ntok v) post).
    { unfold sub_root. cbn [m_pos m_size m_skip m_children m_complex m_array m_data].
      rewrite Hn, Hcn, Hl, Hx, H. rewrite !Nat.add_sub.
      unfold ms. rewrite member_meta_app. cbn [member_meta snd].
      match goal with |- erase _ _ (?h :: ?p ++ ?q ++ ?s) = _ => change (h :: p ++ q ++ s) with ((h :: p) ++ q ++ s) end.
      rewrite erase_app; [reflexivity|cbn [length]; rewrite member_meta_length; lia|apply tree_meta_length]. }
    rewrite Er.
    assert (Ll : forall h, length (h :: member_meta 1 pre) = 1 + msum containers pre) by (intros h; cbn [length]; rewrite member_meta_length; lia).
    rewrite firstn_app, firstn_all2 by (rewrite Ll; lia). rewrite Ll, Nat.sub_diag, firstn_O, app_nil_r.
    rewrite skipn_app, skipn_all2 by (rewrite Ll; lia). rewrite Ll, Nat.sub_diag. cbn [skipn app].
    rewrite member_meta_move, move_back_on, member_meta_app. reflexivity.
Qed.

(** ** Appending *)

Lemma map_append_ok d m ms name v out new : is_map ms d m ->
  map tok_view new = doc_tokens None (JObj [(name, v)]) ->
  exists m', map_append m out new = Ok m' /\ is_map (ms ++ [(name, v)]) d m'.
Proof.
  intros Hm Hnew. assert (Hlen := is_map_length _ _ _ Hm).
  destruct Hm as (t0 & mid & t1 & Ht & T0 & T1 & N1 & Hmid & Hmeta).
  unfold map_append. rewrite (metaForTokens_spec new None (JObj [(name, v)])).
  2:{ unfold doc_types. rewrite <- Hnew, map_map. apply map_ext. reflexivity. }
  cbn [obind]. rewrite tree_obj_eq. cbn [member_meta snd]. rewrite app_nil_r. cbn [m_complex].
  replace (msum complex [(name, v)]) with (complex v) by (unfold msum; cbn; lia).
  assert (Enew : exists n0 nm n1, new = n0 :: nm ++ [n1] /\ map tok_view nm = doc_tokens (Some name) v).
  { cbn [doc_tokens flat_map fst snd app] in Hnew. rewrite app_nil_r in Hnew. apply map_eq_cons in Hnew.
    destruct Hnew as (n0 & r & -> & _ & Hr). apply map_eq_app in Hr. destruct Hr as (nm & e & -> & Hnm & He).
    apply map_eq_cons in He. destruct He as (n1 & e' & -> & _ & He). apply map_eq_nil in He. subst e'.
    exists n0, nm, n1. split; [reflexivity|exact Hnm]. }
  destruct Enew as (n0 & nm & n1 & -> & Hnm). cbn [tl]. rewrite removelast_last.
  assert (Etok : firstn (length (mp_tokens m) - 1) (mp_tokens m) ++ nm ++ skipn (length (mp_tokens m) - 1) (mp_tokens m) =
     t0 :: (mid ++ nm) ++ [t1]).
  { rewrite Ht. change (t0 :: mid ++ [t1]) with ((t0 :: mid) ++ [t1]).
    replace (length ((t0 :: mid) ++ [t1]) - 1) with (length (t0 :: mid)) by (rewrite app_length; cbn [length]; lia).
    rewrite firstn_app, firstn_all, Nat.sub_diag, firstn_O, app_nil_r.
    rewrite skipn_app, skipn_all, Nat.sub_diag. cbn. rewrite <- app_assoc. reflexivity. }
  assert (Emid : map tok_view (mid ++ nm) = member_tokens (ms ++ [(name, v)])).
  { rewrite map_app, Hmid, Hnm, member_tokens_app. cbn. rewrite app_nil_r. reflexivity. }
  assert (Hn : ntok (JObj (ms ++ [(name, v)])) = ntok (JObj ms) + ntok v).
  { rewrite !ntok_JObj, msum_app. change (msum ntok [(name, v)]) with (ntok v + 0). lia. }
  assert (Hcn : containers (JObj (ms ++ [(name, v)])) = containers (JObj ms) + containers v).
  { change (containers (JObj (ms ++ [(name, v)]))) with (S (msum containers (ms ++ [(name, v)]))).
    change (containers (JObj ms)) with (S (msum containers ms)). rewrite msum_app.
    change (msum containers [(name, v)]) with (containers v + 0). lia. }
  assert (Hl : length (ms ++ [(name, v)]) = length ms + 1) by (rewrite app_length; reflexivity).
  assert (Hx : msum complex (ms ++ [(name, v)]) = msum complex ms + complex v).
  { rewrite msum_app. change (msum complex [(name, v)]) with (complex v + 0). lia. }
  fold (msum complex ms) in Hmeta.
  destruct (is_scalar v) eqn:Ev.
  - destruct v as [s| |]; try discriminate Ev. cbn [complex Nat.eqb].
    eexists. split; [reflexivity|]. exists t0, (mid ++ nm), t1. cbn [mp_tokens mp_meta].
    split; [exact Etok|]. do 4 (split; [assumption|]).
    rewrite Hmeta. cbn [upd]. unfold add_root. cbn [m_pos m_size m_skip m_children m_complex m_array m_data].
    fold (msum complex (ms ++ [(name, JScalar s)])). rewrite Hn, Hcn, Hl, Hx, member_meta_app. cbn [member_meta snd tree_meta app].
    rewrite app_nil_r. reflexivity.
  - assert (complex v = 1) by (destruct v; [discriminate Ev| |]; reflexivity). rewrite H. cbn [Nat.eqb].
    assert (E : exists x r, tree_meta 1 v = x :: r /\ m_size x = ntok v /\ m_skip x = containers v).
    { destruct v; try discriminate Ev; do 2 eexists; (split; [reflexivity|]); repeat split. }
    destruct E as (x & r & Ex & Es & Ek). rewrite Ex. rewrite <- Ex, Es, Ek.
    eexists. split; [reflexivity|]. exists t0, (mid ++ nm), t1. cbn [mp_tokens mp_meta].
    split; [exact Etok|]. do 4 (split; [assumption|]).
    rewrite Hmeta. cbn [upd app]. unfold add_root. cbn [m_pos m_size m_skip m_children m_complex m_array m_data].
    fold (msum complex (ms ++ [(name, v)])). rewrite Hn, Hcn, Hl, Hx, H, member_meta_app. cbn [member_meta snd].
    rewrite app_nil_r. do 2 f_equal. rewrite <- tree_meta_move. f_equal. lia.
Qed.

(** ** Setting *)

Lemma replaceable_split name ms pre v post : replaceable name ms = true -> ms = pre ++ (name, v) :: post ->
  ~ In name (map fst pre) -> is_scalar v = false \/ forallb (fun kv => is_scalar (snd kv)) post = true.
Proof.
  intros H -> Hn. induction pre as [|[k w] pre IH]; cbn in H.
  - destruct (bytes_eqb_spec name name); [|congruence]. apply orb_prop in H. destruct H as [H|H]; [left|right; exact H].
    apply negb_true_iff. exact H.
  - destruct (bytes_eqb_spec k name) as [->|Hne]; [exfalso; apply Hn; left; reflexivity|].
    apply IH; [exact H|]. intros Hi. apply Hn. right. exact Hi.
Qed.

Lemma set_ok d m ms name v out new : is_map ms d m -> name <> [] -> replaceable name ms = true ->
  map tok_view new = doc_tokens None (JObj [(name, v)]) ->
  exists m', map_setValue m name out new = Ok m' /\ is_map (set_member name v ms) d m'.
Proof.
  intros Hm Hne Hr Hnew. unfold map_setValue.
  assert (E : match mp_tokens m with [] => (let* meta := metaForTokens brace_tokens in Ok (mkMap brace_tokens meta (mp_data m))) | _ => Ok m end = Ok m).
  { destruct Hm as (t0 & mid & t1 & -> & _). reflexivity. }
  rewrite E. cbn [obind]. clear E. unfold set_member. destruct (lookup name ms) as [w|] eqn:El.
  - destruct (lookup_split _ _ _ El) as (pre & post & -> & Hn & ->).
    rewrite (map_find_present _ d m pre name w post Hm eq_refl Hn). cbn [obind].
    rewrite (it_at_not_end _ d m pre _ post Hm eq_refl).
    destruct (map_remove_ok d m pre name w post Hm (replaceable_split _ _ _ _ _ Hr eq_refl Hn)) as (m' & -> & Hm').
    cbn [obind]. exact (map_append_ok d m' _ name v out new Hm' Hnew).
  - destruct (map_find_absent _ d m name Hm Hne El) as (it & -> & Hi). cbn [obind]. rewrite Hi, Nat.eqb_refl. cbn [obind].
    destruct (lookup_none _ _ El) as [_ ->].
    exact (map_append_ok d m _ name v out new Hm Hnew).
Qed.

Lemma braces_map data : is_map [] false (mkMap brace_tokens (tree_meta 0 (JObj [])) data).
Proof.
  exists (mkTok dref_empty (mkRef Elsewhere [x7b]) TString TObjectStart), [],
    (mkTok dref_empty (mkRef Elsewhere [x7d]) TString TObjectEnd). repeat split; left; reflexivity.
Qed.

Lemma set_first data meta name v out new : name <> [] -> map tok_view new = doc_tokens None (JObj [(name, v)]) ->
  exists m', map_setValue (mkMap [] meta data) name out new = Ok m' /\ is_map [(name, v)] false m'.
Proof.
  intros Hne Hnew.
  destruct (set_ok false _ [] name v out new (braces_map data) Hne eq_refl Hnew) as (m' & E & Hm').
  exists m'. split; [|exact Hm']. rewrite <- E. unfold map_setValue. cbn [mp_tokens mp_data].
  rewrite (metaForTokens_spec brace_tokens None (JObj [])) by reflexivity. reflexivity.
Qed.

(** Looking up. *)
Lemma locate_ok d m ms name : is_map ms d m -> name <> [] ->
  match lookup name ms with
  | Some v => exists i, map_locate m name = Ok (Some i) /\
      map tok_view (firstn (ntok v) (skipn i (mp_tokens m))) = doc_tokens (Some name) v
  | None => map_locate m name = Ok None
  end.
Proof.
  intros Hm Hne. destruct (lookup name ms) as [v|] eqn:El.
  - destruct (lookup_split _ _ _ El) as (pre & post & -> & Hn & _).
    assert (Hf := map_find_present _ d m pre name v post Hm eq_refl Hn).
    assert (He := it_at_not_end _ d m pre _ post Hm eq_refl).
    destruct Hm as (t0 & mid & t1 & Ht & T0 & T1 & N1 & Hmid & Hmeta).
    exists (1 + msum ntok pre). split.
    + unfold map_locate. rewrite Ht at 1. rewrite T0. cbn [type_eqb]. rewrite Hf. cbn [obind]. rewrite He. reflexivity.
    + rewrite Ht. cbn [Nat.add skipn].
      assert (H : map tok_view mid = member_tokens pre ++ doc_tokens (Some name) v ++ member_tokens post).
      { rewrite Hmid, member_tokens_app. reflexivity. }
      apply map_eq_app in H. destruct H as (a & b0 & -> & Ha & Hb).
      apply map_eq_app in Hb. destruct Hb as (b & c & -> & Hb & Hc).
      assert (La : length a = msum ntok pre) by (rewrite <- member_tokens_length, <- Ha, map_length; reflexivity).
      assert (Lb : length b = ntok v) by (rewrite <- (map_length tok_view), Hb; apply ntok_name).
      rewrite <- La, <- app_assoc, skipn_app, skipn_all, Nat.sub_diag. cbn [app skipn].
      rewrite <- Lb, <- app_assoc, firstn_app, firstn_all, Nat.sub_diag, firstn_O, app_nil_r. exact Hb.
  - destruct (map_find_absent _ d m name Hm Hne El) as (it & Hf & Hi).
    destruct Hm as (t0 & mid & t1 & Ht & T0 & T1 & N1 & Hmid & Hmeta).
    unfold map_locate. rewrite Ht at 1. rewrite T0. cbn [type_eqb]. rewrite Hf. cbn [obind]. rewrite Hi, Nat.eqb_refl. reflexivity.
Qed.

(** ** Assignments in the specification *)

Lemma lookup_app name a b : lookup name (a ++ b) = match lookup name a with Some v => Some v | None => lookup name b end.
Proof. induction a as [|[k w] a IH]; cbn; [reflexivity|]. destruct (bytes_eqb k name); auto. Qed.
Lemma lookup_in name ms : lookup name ms = None <-> ~ In name (map fst ms).
Proof.
  split; [intros H; apply lookup_none; exact H|]. induction ms as [|[k w] ms IH]; cbn; intros H; [reflexivity|].
  destruct (bytes_eqb_spec k name) as [->|Hne]; [exfalso; auto|]. apply IH. auto.
Qed.

Lemma set_member_other name v other ms : other <> name -> lookup other (set_member name v ms) = lookup other ms.
Proof.
  intros Hne. unfold set_member. rewrite lookup_app. cbn. destruct (bytes_eqb_spec name other); [congruence|].
  assert (H : lookup other (remove_first name ms) = lookup other ms).
  { induction ms as [|[k w] ms IH]; cbn; [reflexivity|]. destruct (bytes_eqb_spec k name) as [->|Hk].
    - destruct (bytes_eqb_spec name other); [congruence|reflexivity].
    - cbn. rewrite IH. reflexivity. }
  rewrite H. destruct (lookup other ms); reflexivity.
Qed.

Lemma remove_first_in name x ms : In x (map fst (remove_first name ms)) -> In x (map fst ms).
Proof. induction ms as [|[k w] ms IH]; cbn; [auto|]. destruct (bytes_eqb k name); cbn; tauto. Qed.
Lemma remove_first_unique name ms : NoDup (map fst ms) ->
  NoDup (map fst (remove_first name ms)) /\ ~ In name (map fst (remove_first name ms)).
Proof.
  induction ms as [|[k w] ms IH]; cbn; intros H; [split; auto|].
  inversion H as [|? ? Hk Hms]; subst. destruct (bytes_eqb_spec k name) as [->|Hne]; [split; assumption|].
  destruct (IH Hms) as [I1 I2]. cbn. split; [constructor; [|exact I1]|intros [E|E]; auto].
  intros Hi. apply Hk. eapply remove_first_in. exact Hi.
Qed.
Lemma set_member_same name v ms : NoDup (map fst ms) ->
  lookup name (set_member name v ms) = Some v /\ NoDup (map fst (set_member name v ms)).
Proof.
  intros H. destruct (remove_first_unique name ms H) as [I1 I2]. unfold set_member. split.
  - rewrite lookup_app. apply lookup_in in I2. rewrite I2. cbn. destruct (bytes_eqb_spec name name); congruence.
  - rewrite map_app. cbn. rewrite <- (rev_involutive (map fst (remove_first name ms) ++ [name])). apply NoDup_rev. rewrite rev_app_distr. cbn.
    constructor; [rewrite <- in_rev; exact I2|apply NoDup_rev; exact I1].
Qed.
