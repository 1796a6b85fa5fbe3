(** The writes of the comparison as a function on trees. *)
From Verif Require Import Base Tactics ScanModel TokModel JsonSpec TokSpec MapModel MapSpec SerDoc MapProofs MapProofs2 MapProofs3 TokSticky DiffModel DiffSpec DiffProofs.
From Coq Require Import Lia.

Definition name_same (a b : bytes) : bool := Nat.eqb (length a) (length b) && strncmp_same a b.
Definition same_kind (v w : json) : bool := type_eqb (jtype v) (jtype w).
Definition marks (p n : nat) (t : dtype) : list (event stoken) := map (fun i => Mark i t) (seq p n).

Definition num_same (o : dopts) (x y : bytes) : bool := match do_same o x y with Ok r => r | _ => false end.
Definition sdiff (o : dopts) (a b : scalar) : dtype :=
  match a, b with
  | SStr x, SStr y => verdict (name_same x y)
  | SNum x, SNum y => verdict (num_same o x y)
  | STrue, SFalse | SFalse, STrue => ValueDiff
  | _, _ => NoDiff
  end.

Fixpoint find_at (k : bytes) (q : nat) (md : list (bytes * json)) : option (nat * json) :=
  match md with
  | [] => None
  | kv :: r => if name_same k (fst kv) then Some (q, snd kv) else find_at k (q + ntok (snd kv)) r
  end.
Definition known (mb : list (bytes * json)) (k : bytes) : bool := existsb (fun kv => name_same k (fst kv)) mb.
Fixpoint new_ev (mb : list (bytes * json)) (q : nat) (md : list (bytes * json)) : list (event stoken) :=
  match md with
  | [] => []
  | kv :: r => (if known mb (fst kv) then [] else marks q (ntok (snd kv)) NewMember) ++ new_ev mb (q + ntok (snd kv)) r
  end.
Definition new_item_ev (q : nat) (ed : list json) : list (event stoken) :=
  match ed with
  | JArr els :: _ => marks q (S (esum ntok els)) NewArrayItem
  | _ => marks q (esum ntok ed) NewArrayItem
  end.

Section Te.
Context (o : dopts).
Definition te_arr (te : nat -> json -> json -> list (event stoken)) (q : nat) : nat -> list json -> list json -> list (event stoken) :=
  fix go dp eb ed {struct eb} :=
    match eb, ed with
    | [], _ => new_item_ev dp ed
    | _, [] => map (fun v => LostItem q v) (flat_map (doc_tokens None) eb)
    | v :: eb', w :: ed' => (if same_kind v w then te dp v w else [Mark dp TypeDiff]) ++ go (dp + ntok w) eb' ed'
    end.
Fixpoint te (q : nat) (jb jd : json) {struct jb} : list (event stoken) :=
  match jb, jd with
  | JScalar a, JScalar b => [Mark q (sdiff o a b)]
  | JObj mb, JObj md =>
      flat_map (fun kv => match find_at (fst kv) (S q) md with
                          | Some (q', w) => if same_kind (snd kv) w then te q' (snd kv) w else marks q' (ntok w) TypeDiff
                          | None => map (fun v => LostMember q v) (doc_tokens (Some (fst kv)) (snd kv))
                          end) mb ++ new_ev mb (S q) md
  | JArr eb, JArr ed => te_arr te q (S q) eb ed
  | _, _ => []
  end.
End Te.

(** ** Names *)

Lemma view_name t k v ty : tok_view t = st_make (Some k) v ty -> tk_name_type t = TString /\ dr_bytes (tk_name t) = k.
Proof. intros H. unfold tok_view in H. cbn in H. injection H as <- <- _ _. auto. Qed.
Lemma view_value t n v ty : tok_view t = st_make n v ty -> dr_bytes (tk_value t) = v.
Proof. intros H. unfold tok_view in H. destruct n; cbn in H; congruence. Qed.

Lemma same_member t k v ty t' k' v' ty' : tok_view t = st_make (Some k) v ty -> tok_view t' = st_make (Some k') v' ty' ->
  isSameMember t t' = name_same k k'.
Proof.
  intros H H'. apply view_name in H, H'. destruct H as [A B], H' as [A' B'].
  unfold isSameMember, stringValuesEqual. rewrite A, A', B, B'. reflexivity.
Qed.

Lemma jtype_not_end v : type_eqb (jtype v) TObjectEnd = false /\ type_eqb (jtype v) TArrayEnd = false.
Proof. destruct v as [s| |]; [destruct s|..]; auto. Qed.

(** ** Walks *)

Lemma writes_for_marks ty vs : forall p, writes_for (fun p _ => Mark p ty) p vs = marks p (length vs) ty.
Proof. induction vs as [|v vs IH]; intros p; [reflexivity|]. cbn. rewrite IH. reflexivity. Qed.
Lemma writes_for_const (w : stoken -> event stoken) vs : forall p, writes_for (fun _ v => w v) p vs = map w vs.
Proof. induction vs as [|v vs IH]; intros p; [reflexivity|]. cbn. rewrite IH. reflexivity. Qed.

Lemma set_entire d p name j ty : placed d p name j ->
  exists es, setStateForEntireToken d p ty = Ok es /\ map ev_view es = marks p (ntok j) ty.
Proof.
  intros Hp. assert (H := placed_length _ _ _ _ Hp).
  destruct (walk_value d (fun p _ => Mark p ty) (fun p _ => Mark p ty) ltac:(reflexivity) j (walk_fuel d) p name Hp) as (es & E & Hes).
  { unfold walk_needs, walk_fuel. lia. }
  exists es. split; [exact E|]. rewrite Hes, writes_for_marks, ntok_name. reflexivity.
Qed.
Lemma lost_members b p name j q : placed b p name j ->
  exists es, addMissingMembers q b p = Ok es /\ map ev_view es = map (fun v => LostMember q v) (doc_tokens name j).
Proof.
  intros Hp. assert (H := placed_length _ _ _ _ Hp).
  destruct (walk_value b (fun _ tk => LostMember q tk) (fun _ v => LostMember q v) ltac:(reflexivity) j (walk_fuel b) p name Hp) as (es & E & Hes).
  { unfold walk_needs, walk_fuel. lia. }
  exists es. split; [exact E|]. rewrite Hes. apply (writes_for_const (LostMember q)).
Qed.
Lemma lost_items b p name j q : placed b p name j ->
  exists es, addMissingArrayItems q b p = Ok es /\ map ev_view es = map (fun v => LostItem q v) (doc_tokens name j).
Proof.
  intros Hp. assert (H := placed_length _ _ _ _ Hp).
  destruct (walk_value b (fun _ tk => LostItem q tk) (fun _ v => LostItem q v) ltac:(reflexivity) j (walk_fuel b) p name Hp) as (es & E & Hes).
  { unfold walk_needs, walk_fuel. lia. }
  exists es. split; [exact E|]. rewrite Hes. apply (writes_for_const (LostItem q)).
Qed.

(** ** New members *)

Lemma length_msum ms : length ms <= msum ntok ms.
Proof. induction ms as [|kv ms IH]; [cbn; lia|]. rewrite msum_cons. cbn [length]. assert (H := ntok_pos (snd kv)). lia. Qed.
Lemma length_esum els : length els <= esum ntok els.
Proof. induction els as [|v els IH]; [cbn; lia|]. rewrite esum_cons. cbn [length]. assert (H := ntok_pos v). lia. Qed.

Lemma in_base_ok b p name mb dt k v ty : placed b p name (JObj mb) -> tok_view dt = st_make (Some k) v ty ->
  forall post pre f, mb = pre ++ post -> length post < f ->
  in_base f b dt (S p + msum ntok pre) = Ok (known post k).
Proof.
  intros Hp Hdt. induction post as [|[k' w] post IH]; intros pre f E Hf; (destruct f as [|f]; [lia|]); cbn [in_base].
  - rewrite app_nil_r in E. subst pre. destruct (placed_end_obj _ _ _ _ Hp) as (te & -> & -> & _). reflexivity.
  - assert (Hpv := placed_member _ _ _ _ _ _ _ _ Hp E). destruct (placed_token _ _ _ _ Hpv) as (tv & -> & Etv & Hvv).
    rewrite Etv. rewrite (proj1 (jtype_not_end w)). rewrite (same_member _ _ _ _ _ _ _ _ Hdt Hvv).
    change (known ((k', w) :: post) k) with (name_same k k' || known post k).
    destruct (name_same k k'); [reflexivity|]. rewrite (placed_skip _ _ _ _ Hpv). cbn [obind orb].
    replace (S p + msum ntok pre + ntok w) with (S p + msum ntok (pre ++ [(k', w)])) by
      (rewrite msum_app; change (msum ntok [(k', w)]) with (ntok w + 0); lia).
    apply IH; [rewrite <- app_assoc; exact E|cbn in Hf; lia].
Qed.

Lemma new_members_ok b p bn mb d q dn md : placed b p bn (JObj mb) -> placed d q dn (JObj md) ->
  forall post pre f, md = pre ++ post -> length post < f ->
  exists es, new_members f b p d (S q + msum ntok pre) = Ok es /\
    map ev_view es = new_ev mb (S q + msum ntok pre) post.
Proof.
  intros Hb Hd. induction post as [|[k' w] post IH]; intros pre f E Hf; (destruct f as [|f]; [lia|]); cbn [new_members].
  - rewrite app_nil_r in E. subst pre. destruct (placed_end_obj _ _ _ _ Hd) as (te & -> & -> & _). exists []. split; reflexivity.
  - assert (Hpv := placed_member _ _ _ _ _ _ _ _ Hd E). destruct (placed_token _ _ _ _ Hpv) as (tv & -> & Etv & Hvv).
    rewrite Etv, (proj1 (jtype_not_end w)). assert (Hlb := placed_length _ _ _ _ Hb). rewrite ntok_JObj in Hlb.
    assert (Hin := in_base_ok b p bn mb tv k' _ _ Hb Hvv mb [] (S (length (ds_tokens b))) eq_refl ltac:(assert (X := length_msum mb); lia)).
    change (msum ntok []) with 0 in Hin. rewrite Nat.add_0_r in Hin. rewrite Hin. cbn [obind].
    rewrite (placed_skip _ _ _ _ Hpv). cbn [obind].
    destruct (IH (pre ++ [(k', w)]) f) as (er & Er & Hr); [rewrite <- app_assoc; exact E|cbn in Hf; lia|].
    rewrite msum_app in Er, Hr. change (msum ntok [(k', w)]) with (ntok w + 0) in Er, Hr. rewrite Nat.add_0_r, Nat.add_assoc in Er, Hr.
    cbn [new_ev fst snd]. destruct (known mb k').
    + cbn [obind]. rewrite Er. cbn [obind]. eexists. split; [reflexivity|]. exact Hr.
    + destruct (set_entire d _ _ _ NewMember Hpv) as (es & -> & Hes). cbn [obind]. rewrite Er. cbn [obind].
      eexists. split; [reflexivity|]. rewrite map_app, Hes, Hr. reflexivity.
Qed.

(** ** New items *)

(** Number of tokens the loop passes before it stops. *)
Fixpoint scan (c : nat) (ts : list type) : option nat :=
  match ts with
  | [] => None
  | t :: r => match t with
              | TArrayStart => option_map S (scan (S c) r)
              | TArrayEnd => match c with O => Some 0 | S c' => option_map S (scan c' r) end
              | _ => option_map S (scan c r)
              end
  end.

Lemma new_items_scan d : forall n f p c ts, skipn (S p) (map tk_value_type (ds_tokens d)) = ts -> scan c ts = Some n -> n < f ->
  exists es, new_items f d p c = Ok es /\ map ev_view es = marks p (S n) NewArrayItem.
Proof.
  induction n as [|n IH]; intros f p c ts Hts Hs Hf; (destruct f as [|f]; [lia|]); cbn [new_items];
    (destruct ts as [|t ts]; [discriminate Hs|]).
  all: assert (Hn : nth_error (map tk_value_type (ds_tokens d)) (S p) = Some t)
    by (rewrite <- (firstn_skipn (S p) (map tk_value_type (ds_tokens d))), Hts, nth_error_app2;
        [|apply firstn_le_length];
        replace (S p - length (firstn (S p) (map tk_value_type (ds_tokens d)))) with 0; [reflexivity|];
        rewrite firstn_length, min_l; [lia|];
        assert (HL := f_equal (@length _) Hts); rewrite skipn_length in HL; cbn in HL; lia).
  all: assert (Hlt : S p < length (ds_tokens d)) by (rewrite <- (map_length tk_value_type); apply nth_error_Some; rewrite Hn; discriminate).
  all: destruct (nth_error (ds_tokens d) p) as [t0|] eqn:E0; [|apply nth_error_None in E0; lia].
  all: destruct (nth_error (ds_tokens d) (S p)) as [t1|] eqn:E1; [|apply nth_error_None in E1; lia].
  all: erewrite map_nth_error in Hn by exact E1; injection Hn as Hn.
  all: assert (Hts2 : skipn (S (S p)) (map tk_value_type (ds_tokens d)) = ts)
    by (change (S (S p)) with (1 + S p); rewrite <- skipn_skipn, Hts; reflexivity).
  - rewrite Hn. destruct t; cbn [scan] in Hs;
      try (destruct (scan c ts); discriminate Hs); try (destruct (scan (S c) ts); discriminate Hs).
    destruct c as [|c]; [|destruct (scan c ts); discriminate Hs]. eexists. split; reflexivity.
  - rewrite Hn. 
    assert (G : forall c', scan c' ts = Some n -> exists es, (let* r := new_items f d (S p) c' in Ok (Mark p NewArrayItem :: r)) = Ok es /\
        map ev_view es = marks p (S (S n)) NewArrayItem).
    { intros c' Hc'. destruct (IH f (S p) c' ts Hts2 Hc' ltac:(lia)) as (es & -> & Hes). cbn [obind].
      eexists. split; [reflexivity|]. cbn [map ev_view]. rewrite Hes. reflexivity. }
    destruct t; cbn [scan] in Hs;
      try (destruct (scan c ts) as [n'|] eqn:En; [|discriminate Hs]; injection Hs as ->; apply G; exact En).
    + destruct (scan (S c) ts) as [n'|] eqn:En; [|discriminate Hs]. injection Hs as ->. apply G. exact En.
    + destruct c as [|c]; [discriminate Hs|]. destruct (scan c ts) as [n'|] eqn:En; [|discriminate Hs]. injection Hs as ->. apply G. exact En.
Qed.

Lemma opt_add0 x : option_map (Nat.add 0) x = x.
Proof. destruct x; reflexivity. Qed.

Lemma scan_value j : forall name c ts, scan c (doc_types name j ++ ts) = option_map (Nat.add (ntok j)) (scan c ts).
Proof.
  assert (T : forall n v t, st_value_type (st_make n v t) = t) by (intros [] ? ?; reflexivity).
  induction j as [s|els IH|ms IH] using json_rect_nested; intros name c ts; unfold doc_types.
  - cbn [doc_tokens map]. rewrite T. cbn [app]. change (ntok (JScalar s)) with 1. destruct s; reflexivity.
  - cbn [doc_tokens map]. rewrite T, map_app. cbn [app scan map]. rewrite T, ntok_JArr.
    assert (G : forall c ts, scan c (map st_value_type (flat_map (doc_tokens None) els) ++ ts) = option_map (Nat.add (esum ntok els)) (scan c ts)).
    { clear -IH. induction IH as [|v els Hv _ IHe]; intros c ts; [symmetry; apply opt_add0|].
      cbn [flat_map]. rewrite map_app, <- app_assoc. unfold doc_types in Hv. rewrite Hv, IHe, esum_cons.
      destruct (scan c ts); cbn; [f_equal; lia|reflexivity]. }
    rewrite <- app_assoc, G. cbn [app scan]. destruct (scan c ts); cbn; [f_equal; lia|reflexivity].
  - cbn [doc_tokens map]. rewrite T, map_app. cbn [app scan map]. rewrite T, ntok_JObj.
    assert (G : forall c ts, scan c (map st_value_type (flat_map (fun kv => doc_tokens (Some (fst kv)) (snd kv)) ms) ++ ts) = option_map (Nat.add (msum ntok ms)) (scan c ts)).
    { clear -IH. induction IH as [|v els Hv _ IHe]; intros c ts; [symmetry; apply opt_add0|].
      cbn [flat_map]. rewrite map_app, <- app_assoc. unfold doc_types in Hv. rewrite Hv, IHe, msum_cons.
      destruct (scan c ts); cbn; [f_equal; lia|reflexivity]. }
    rewrite <- app_assoc, G. cbn [app scan]. destruct (scan c ts); cbn; [f_equal; lia|reflexivity].
Qed.
Lemma scan_elements els : forall c ts, scan c (map st_value_type (flat_map (doc_tokens None) els) ++ ts) = option_map (Nat.add (esum ntok els)) (scan c ts).
Proof.
  induction els as [|v els IHe]; intros c ts; [symmetry; apply opt_add0|].
  cbn [flat_map]. rewrite map_app, <- app_assoc. change (map st_value_type (doc_tokens None v)) with (doc_types None v).
  rewrite scan_value, IHe, esum_cons. destruct (scan c ts); cbn; [f_equal; lia|reflexivity].
Qed.
Lemma scan_members ms : forall c ts, scan c (map st_value_type (member_tokens ms) ++ ts) = option_map (Nat.add (msum ntok ms)) (scan c ts).
Proof.
  induction ms as [|v els IHe]; intros c ts; [symmetry; apply opt_add0|].
  change (member_tokens (v :: els)) with (doc_tokens (Some (fst v)) (snd v) ++ member_tokens els).
  rewrite map_app, <- app_assoc. change (map st_value_type (doc_tokens (Some (fst v)) (snd v))) with (doc_types (Some (fst v)) (snd v)).
  rewrite scan_value, IHe, msum_cons. destruct (scan c ts); cbn; [f_equal; lia|reflexivity].
Qed.

(** The types of the tokens from an element of an array on. *)
Lemma types_from d q name ed pre v post : placed d q name (JArr ed) -> ed = pre ++ v :: post ->
  exists r, skipn (S q + esum ntok pre) (map tk_value_type (ds_tokens d)) =
    map st_value_type (flat_map (doc_tokens None) (v :: post)) ++ TArrayEnd :: r.
Proof.
  intros [(l & ts & r & E & Hl & Ht) _] ->. cbn [doc_tokens] in Ht. apply map_eq_cons in Ht. destruct Ht as (t0 & ts1 & -> & _ & Ht).
  apply map_eq_app in Ht. destruct Ht as (mid & e & -> & Hmid & He). rewrite flat_map_app in Hmid.
  apply map_eq_app in Hmid. destruct Hmid as (a & b & -> & Ha & Hb).
  apply map_eq_cons in He. destruct He as (t1 & e' & -> & H1 & _).
  assert (La : length a = esum ntok pre) by (rewrite <- element_tokens_length, <- Ha, map_length; reflexivity).
  exists (map tk_value_type (e' ++ r)). rewrite E.
  replace (l ++ (t0 :: (a ++ b) ++ t1 :: e') ++ r) with ((l ++ t0 :: a) ++ b ++ t1 :: e' ++ r) by (napp; reflexivity).
  rewrite map_app, skipn_app, skipn_all2, map_length by (rewrite map_length, app_length; cbn [length]; lia).
  replace (S q + esum ntok pre - length (l ++ t0 :: a)) with 0 by (rewrite app_length; cbn [length]; lia).
  cbn [skipn app]. rewrite map_app. cbn [map]. f_equal.
  - rewrite <- Hb, map_map. reflexivity.
  - f_equal. change (tk_value_type t1) with (st_value_type (tok_view t1)). rewrite H1. reflexivity.
Qed.

Lemma new_items_ok d q name ed pre v post : placed d q name (JArr ed) -> ed = pre ++ v :: post ->
  exists es, new_items (S (length (ds_tokens d))) d (S q + esum ntok pre) 0 = Ok es /\
    map ev_view es = new_item_ev (S q + esum ntok pre) (v :: post).
Proof.
  intros Hp E. destruct (types_from _ _ _ _ _ _ _ Hp E) as (r & Hts).
  assert (T : forall n v t, st_value_type (st_make n v t) = t) by (intros [] ? ?; reflexivity).
  set (p := S q + esum ntok pre) in *.
  set (n := match v with JArr els => esum ntok els | _ => ntok v - 1 + esum ntok post end).
  assert (Hlen := placed_length _ _ _ _ Hp). rewrite ntok_JArr, E, esum_app, esum_cons in Hlen.
  assert (Hpos := ntok_pos v).
  assert (Hn : n < S (length (ds_tokens d))).
  { unfold n. destruct v as [s|els|ms]; try lia. rewrite ntok_JArr in Hlen. lia. }
  assert (Hs : scan 0 (tl (map st_value_type (flat_map (doc_tokens None) (v :: post)) ++ TArrayEnd :: r)) = Some n).
  { unfold n. cbn [flat_map]. rewrite map_app, <- app_assoc. destruct v as [s|els|ms]; cbn [doc_tokens map app tl].
    - rewrite scan_elements. cbn. f_equal. lia.
    - rewrite map_app, <- app_assoc, scan_elements. cbn [map app scan]. rewrite T. cbn. f_equal. lia.
    - change (flat_map (fun kv => doc_tokens (Some (fst kv)) (snd kv)) ms) with (member_tokens ms).
      rewrite map_app, <- app_assoc, scan_members. cbn [map app scan]. rewrite T, scan_elements, ntok_JObj. cbn. f_equal. lia. }
  destruct (new_items_scan d n (S (length (ds_tokens d))) p 0 _ eq_refl) with (2 := Hn) as (es & E1 & E2).
  - rewrite <- Hs. f_equal. change (S p) with (1 + p).
    rewrite <- skipn_skipn, Hts.
    destruct v; reflexivity.
  - exists es. split; [exact E1|]. rewrite E2. unfold n, new_item_ev. destruct v as [s|els|ms]; [..|reflexivity|]; rewrite esum_cons; f_equal; lia.
Qed.

(** ** Missing items *)

Lemma missing_items_ok b p name eb q : placed b p name (JArr eb) ->
  forall post pre f, eb = pre ++ post -> length post < f ->
  exists es, missing_items f b (S p + esum ntok pre) q = Ok es /\
    map ev_view es = map (fun v => LostItem q v) (flat_map (doc_tokens None) post).
Proof.
  intros Hp. induction post as [|v post IH]; intros pre f E Hf; (destruct f as [|f]; [lia|]); cbn [missing_items].
  - rewrite app_nil_r in E. subst pre. destruct (placed_end_arr _ _ _ _ Hp) as (te & -> & -> & _). exists []. split; reflexivity.
  - assert (Hpv := placed_element _ _ _ _ _ _ _ Hp E). destruct (placed_token _ _ _ _ Hpv) as (tv & -> & Etv & Hvv).
    rewrite Etv, (proj2 (jtype_not_end v)). destruct (lost_items b _ _ _ q Hpv) as (e1 & -> & He1). cbn [obind].
    rewrite (placed_skip _ _ _ _ Hpv). cbn [obind].
    destruct (IH (pre ++ [v]) f) as (er & Er & Hr); [rewrite <- app_assoc; exact E|cbn in Hf; lia|].
    rewrite esum_app in Er. change (esum ntok [v]) with (ntok v + 0) in Er. rewrite Nat.add_0_r, Nat.add_assoc in Er.
    rewrite Er. cbn [obind]. eexists. split; [reflexivity|]. cbn [flat_map]. rewrite !map_app, He1, Hr. reflexivity.
Qed.

(** ** The comparison *)

Lemma type_eqb_eq a b : type_eqb a b = true -> a = b.
Proof. destruct a, b; intros H; try reflexivity; discriminate H. Qed.

Section Compare.
Context (o : dopts) (b d : dsrc) (NB ND : list bytes).
Hypothesis Hnum : forall x y, In x NB -> In y ND -> exists r, do_same o x y = Ok r.

Definition value_ok (jb : json) : Prop :=
  forall jd f p bn q dn bt dt,
    placed b p bn jb -> placed d q dn jd -> same_kind jb jd = true ->
    incl (numbers jb) NB -> incl (numbers jd) ND -> 4 * (ntok jb + ntok jd) <= f ->
    nth_error (ds_tokens b) p = Some bt -> nth_error (ds_tokens d) q = Some dt ->
    exists es, diffValue f o b p bt d q dt = Ok es /\ map ev_view es = te o q jb jd.

Lemma scalar_value_ok s : value_ok (JScalar s).
Proof.
  intros jd f p bn q dn bt dt Hb Hd Hk Hib Hid Hf Hbt Hdt.
  assert (Hn := ntok_pos jd). destruct f as [|f]; [lia|].
  destruct (placed_token _ _ _ _ Hb) as (bt' & Eb & Tb & Vb). rewrite Hbt in Eb. injection Eb as <-.
  destruct (placed_token _ _ _ _ Hd) as (dt' & Ed & Td & Vd). rewrite Hdt in Ed. injection Ed as <-.
  assert (Hj : exists s', jd = JScalar s') by (destruct jd as [s'| |]; [eauto|destruct s; discriminate Hk..]).
  destruct Hj as (s' & ->). cbn [diffValue]. rewrite Tb. apply view_value in Vb, Vd. cbn [jtype] in *.
  assert (E : scalar_type s = scalar_type s') by (apply type_eqb_eq; exact Hk).
  destruct s; cbn [scalar_type]; unfold diffScalar; rewrite Tb; cbn [scalar_type]; unfold stringValuesEqual, bool_value; rewrite ?Vb, ?Vd;
    destruct s'; try discriminate E; cbn [te sdiff scalar_value].
  - eexists. split; reflexivity.
  - destruct (Hnum raw raw0) as (r & Hr); [apply Hib; left; reflexivity|apply Hid; left; reflexivity|].
    unfold num_same. rewrite Hr. eexists. split; reflexivity.
  - eexists. split; reflexivity.
  - eexists. split; reflexivity.
  - eexists. split; reflexivity.
  - eexists. split; reflexivity.
  - rewrite Td. eexists. split; reflexivity.
Qed.

(** The writes for one member of the base. *)
Definition te_member (q : nat) (md : list (bytes * json)) (k : bytes) (v : json) : list (event stoken) :=
  match find_at k (S q) md with
  | Some (q', w) => if same_kind v w then te o q' v w else marks q' (ntok w) TypeDiff
  | None => map (fun x => LostMember q x) (doc_tokens (Some k) v)
  end.

Lemma obj_find_ok k v bt p : value_ok v -> placed b p (Some k) v -> incl (numbers v) NB -> nth_error (ds_tokens b) p = Some bt ->
  forall q dn md, placed d q dn (JObj md) -> incl (numbers (JObj md)) ND ->
  forall post pre f, md = pre ++ post -> 4 * ntok v + 4 * msum ntok post + 1 <= f ->
  exists es, obj_find f o b p bt d q (S q + msum ntok pre) = Ok es /\
    map ev_view es =
    match find_at k (S q + msum ntok pre) post with
    | Some (q', w) => if same_kind v w then te o q' v w else marks q' (ntok w) TypeDiff
    | None => map (fun x => LostMember q x) (doc_tokens (Some k) v)
    end.
Proof.
  intros Hv Hp Hib Hbt q dn md Hd Hid.
  destruct (placed_token _ _ _ _ Hp) as (bt' & Eb & Tb & Vb). rewrite Hbt in Eb. injection Eb as <-.
  induction post as [|[k' w] post IH]; intros pre f E Hf; (destruct f as [|f]; [lia|]); cbn [obj_find].
  - rewrite app_nil_r in E. subst pre. destruct (placed_end_obj _ _ _ _ Hd) as (te & -> & -> & _). cbn [find_at].
    destruct (lost_members b p _ _ q Hp) as (es & E1 & E2). exists es. split; [exact E1|exact E2].
  - assert (Hpv := placed_member _ _ _ _ _ _ _ _ Hd E). destruct (placed_token _ _ _ _ Hpv) as (tv & Etv0 & Etv & Hvv).
    rewrite Etv0, Etv, (proj1 (jtype_not_end w)), (same_member _ _ _ _ _ _ _ _ Vb Hvv), Tb.
    rewrite msum_cons in Hf. cbn [snd] in Hf. cbn [find_at fst snd]. assert (Hn := ntok_pos w).
    destruct (name_same k k').
    + fold (same_kind v w). destruct (same_kind v w) eqn:Ek.
      * apply (Hv w f p (Some k) _ (Some k')); try assumption; [|lia].
        intros x Hx. apply Hid. cbn [numbers]. rewrite E. apply in_flat_map. exists (k', w). split; [apply in_or_app; right; left; reflexivity|exact Hx].
      * destruct (set_entire d _ _ _ TypeDiff Hpv) as (es & E1 & E2). exists es. auto.
    + rewrite (placed_skip _ _ _ _ Hpv). cbn [obind].
      destruct (IH (pre ++ [(k', w)]) f) as (es & E1 & E2); [rewrite <- app_assoc; exact E|lia|].
      rewrite msum_app in E1, E2. change (msum ntok [(k', w)]) with (ntok w + 0) in E1, E2. rewrite Nat.add_0_r, Nat.add_assoc in E1, E2.
      exists es. auto.
Qed.

Lemma obj_loop_ok p bn mb q dn md : placed b p bn (JObj mb) -> placed d q dn (JObj md) ->
  incl (numbers (JObj mb)) NB -> incl (numbers (JObj md)) ND -> Forall (fun kv => value_ok (snd kv)) mb ->
  forall post pre f, mb = pre ++ post -> 4 * msum ntok post + 4 * msum ntok md + 2 <= f ->
  exists es, obj_loop f o b (S p + msum ntok pre) d q = Ok es /\
    map ev_view es = flat_map (fun kv => te_member q md (fst kv) (snd kv)) post.
Proof.
  intros Hb Hd Hib Hid Hvs. induction post as [|[k v] post IH]; intros pre f E Hf; (destruct f as [|f]; [lia|]); cbn [obj_loop].
  - rewrite app_nil_r in E. subst pre. destruct (placed_end_obj _ _ _ _ Hb) as (te & -> & -> & _). exists []. split; reflexivity.
  - assert (Hpv := placed_member _ _ _ _ _ _ _ _ Hb E). destruct (placed_token _ _ _ _ Hpv) as (tv & Etv0 & Etv & Hvv).
    rewrite Etv0, Etv, (proj1 (jtype_not_end v)). rewrite msum_cons in Hf. cbn [snd] in Hf. assert (Hn := ntok_pos v).
    assert (Hv : value_ok v).
    { rewrite E in Hvs. apply Forall_app in Hvs. destruct Hvs as [_ Hvs]. inversion Hvs; subst. assumption. }
    assert (Hiv : incl (numbers v) NB).
    { intros x Hx. apply Hib. cbn [numbers]. rewrite E. apply in_flat_map. exists (k, v). split; [apply in_or_app; right; left; reflexivity|exact Hx]. }
    destruct (obj_find_ok k v tv _ Hv Hpv Hiv Etv0 q dn md Hd Hid md [] f eq_refl ltac:(lia)) as (e1 & E1 & H1).
    change (msum ntok []) with 0 in E1, H1. rewrite Nat.add_0_r in E1, H1. rewrite E1. cbn [obind].
    rewrite (placed_skip _ _ _ _ Hpv). cbn [obind].
    destruct (IH (pre ++ [(k, v)]) f) as (er & Er & Hr); [rewrite <- app_assoc; exact E|lia|].
    rewrite msum_app in Er. change (msum ntok [(k, v)]) with (ntok v + 0) in Er. rewrite Nat.add_0_r, Nat.add_assoc in Er.
    rewrite Er. cbn [obind]. eexists. split; [reflexivity|]. cbn [flat_map]. rewrite map_app, H1, Hr. reflexivity.
Qed.

Lemma diffObjects_ok p bn mb q dn md f : placed b p bn (JObj mb) -> placed d q dn (JObj md) ->
  incl (numbers (JObj mb)) NB -> incl (numbers (JObj md)) ND -> Forall (fun kv => value_ok (snd kv)) mb ->
  4 * (msum ntok mb + msum ntok md) + 3 <= f ->
  exists es, diffObjects f o b p d q = Ok es /\ map ev_view es = te o q (JObj mb) (JObj md).
Proof.
  intros Hb Hd Hib Hid Hvs Hf. destruct f as [|f]; [lia|]. cbn [diffObjects].
  destruct (placed_children _ _ _ _ Hb) as [->|(s & Hs)]; [|discriminate Hs].
  destruct (placed_children _ _ _ _ Hd) as [->|(s & Hs)]; [|discriminate Hs]. cbn [obind].
  destruct ((length mb =? 0) && (length md =? 0)) eqn:E0.
  - apply andb_prop in E0. destruct E0 as [Z1 Z2]. apply Nat.eqb_eq in Z1, Z2.
    destruct mb; [|discriminate Z1]. destruct md; [|discriminate Z2]. exists []. split; reflexivity.
  - destruct (obj_loop_ok p bn mb q dn md Hb Hd Hib Hid Hvs mb [] f eq_refl ltac:(lia)) as (e1 & E1 & H1).
    change (msum ntok []) with 0 in E1. rewrite Nat.add_0_r in E1. rewrite E1. cbn [obind].
    assert (Hld := placed_length _ _ _ _ Hd). rewrite ntok_JObj in Hld.
    destruct (new_members_ok b p bn mb d q dn md Hb Hd md [] (S (length (ds_tokens d))) eq_refl ltac:(assert (X := length_msum md); lia)) as (e2 & E2 & H2).
    change (msum ntok []) with 0 in E2, H2. rewrite Nat.add_0_r in E2, H2. rewrite E2. cbn [obind].
    eexists. split; [reflexivity|]. rewrite map_app, H1, H2. reflexivity.
Qed.

Lemma arr_loop_ok p bn eb q dn ed : placed b p bn (JArr eb) -> placed d q dn (JArr ed) ->
  incl (numbers (JArr eb)) NB -> incl (numbers (JArr ed)) ND -> Forall value_ok eb ->
  forall postb preb postd pred f, eb = preb ++ postb -> ed = pred ++ postd -> 4 * esum ntok postb + 4 * esum ntok postd + 1 <= f ->
  exists es, arr_loop f o b (S p + esum ntok preb) d q (S q + esum ntok pred) = Ok es /\
    map ev_view es = te_arr (te o) q (S q + esum ntok pred) postb postd.
Proof.
  intros Hb Hd Hib Hid Hvs.
  induction postb as [|v postb IH]; intros preb postd pred f Eb Ed Hf; (destruct f as [|f]; [lia|]); cbn [arr_loop].
  - rewrite app_nil_r in Eb. subst preb. destruct (placed_end_arr _ _ _ _ Hb) as (te1 & -> & -> & _).
    destruct postd as [|w postd].
    + rewrite app_nil_r in Ed. subst pred. destruct (placed_end_arr _ _ _ _ Hd) as (te2 & -> & -> & _). exists []. split; reflexivity.
    + assert (Hpw := placed_element _ _ _ _ _ _ _ Hd Ed). destruct (placed_token _ _ _ _ Hpw) as (tw & -> & Etw & Hvw).
      rewrite Etw. replace (type_eqb TArrayEnd (jtype w)) with false by (destruct w as [s| |]; [destruct s|..]; reflexivity).
      cbn [type_eqb type_num N.eqb Pos.eqb]. exact (new_items_ok d q dn ed pred w postd Hd Ed).
  - assert (Hpv := placed_element _ _ _ _ _ _ _ Hb Eb). destruct (placed_token _ _ _ _ Hpv) as (tv & Etv0 & Etv & Hvv).
    rewrite Etv0, Etv. destruct postd as [|w postd].
    + rewrite app_nil_r in Ed. subst pred. destruct (placed_end_arr _ _ _ _ Hd) as (te2 & -> & -> & _).
      rewrite (proj2 (jtype_not_end v)). change (type_eqb TArrayEnd TArrayEnd) with true.
      assert (Hlb := placed_length _ _ _ _ Hb). rewrite ntok_JArr, Eb, esum_app in Hlb.
      apply (missing_items_ok b p bn eb q Hb (v :: postb) preb); [exact Eb|]. assert (X := length_esum (v :: postb)). lia.
    + assert (Hpw := placed_element _ _ _ _ _ _ _ Hd Ed). destruct (placed_token _ _ _ _ Hpw) as (tw & Etw0 & Etw & Hvw).
      rewrite Etw0, Etw. fold (same_kind v w). rewrite !esum_cons in Hf.
      assert (Hnv := ntok_pos v). assert (Hnw := ntok_pos w).
      destruct (IH (preb ++ [v]) postd (pred ++ [w]) f) as (er & Er & Hr); [rewrite <- app_assoc; assumption..|lia|].
      assert (Q1 : S p + esum ntok (preb ++ [v]) = S p + esum ntok preb + ntok v) by (rewrite esum_app, esum_cons; cbn; lia).
      assert (Q2 : S q + esum ntok (pred ++ [w]) = S q + esum ntok pred + ntok w) by (rewrite esum_app, esum_cons; cbn; lia).
      rewrite Q1, Q2 in Er. rewrite Q2 in Hr.
      rewrite (placed_skip _ _ _ _ Hpv), (placed_skip _ _ _ _ Hpw). cbn [obind]. rewrite Er. cbn [obind].
      assert (Hv : value_ok v).
      { rewrite Eb in Hvs. apply Forall_app in Hvs. destruct Hvs as [_ Hvs]. inversion Hvs; subst. assumption. }
      change (te_arr (te o) q (S q + esum ntok pred) (v :: postb) (w :: postd)) with
        ((if same_kind v w then te o (S q + esum ntok pred) v w else [Mark (S q + esum ntok pred) TypeDiff]) ++
         te_arr (te o) q (S q + esum ntok pred + ntok w) postb postd).
      destruct (same_kind v w) eqn:Ek.
      * destruct (Hv w f _ None _ None tv tw Hpv Hpw Ek) as (e1 & E1 & H1); try assumption.
        { intros x Hx. apply Hib. cbn [numbers]. rewrite Eb. apply in_flat_map. exists v. split; [apply in_or_app; right; left; reflexivity|exact Hx]. }
        { intros x Hx. apply Hid. cbn [numbers]. rewrite Ed. apply in_flat_map. exists w. split; [apply in_or_app; right; left; reflexivity|exact Hx]. }
        { lia. }
        rewrite E1. cbn [obind]. exists (e1 ++ er). split; [|rewrite map_app, H1, Hr; reflexivity].
        destruct v as [s| |]; [destruct s|..]; reflexivity.
      * rewrite (proj2 (jtype_not_end v)), (proj2 (jtype_not_end w)). eexists. split; [reflexivity|]. cbn [map ev_view app]. rewrite Hr. reflexivity.
Qed.

Lemma diffArrays_ok p bn eb q dn ed f : placed b p bn (JArr eb) -> placed d q dn (JArr ed) ->
  incl (numbers (JArr eb)) NB -> incl (numbers (JArr ed)) ND -> Forall value_ok eb ->
  4 * (esum ntok eb + esum ntok ed) + 3 <= f ->
  exists es, diffArrays f o b p d q = Ok es /\ map ev_view es = te o q (JArr eb) (JArr ed).
Proof.
  intros Hb Hd Hib Hid Hvs Hf. destruct f as [|f]; [lia|]. cbn [diffArrays].
  destruct (placed_children _ _ _ _ Hb) as [->|(s & Hs)]; [|discriminate Hs].
  destruct (placed_children _ _ _ _ Hd) as [->|(s & Hs)]; [|discriminate Hs]. cbn [obind].
  destruct ((length eb =? 0) && (length ed =? 0)) eqn:E0.
  - apply andb_prop in E0. destruct E0 as [Z1 Z2]. apply Nat.eqb_eq in Z1, Z2.
    destruct eb; [|discriminate Z1]. destruct ed; [|discriminate Z2]. exists []. split; reflexivity.
  - destruct (arr_loop_ok p bn eb q dn ed Hb Hd Hib Hid Hvs eb [] ed [] f eq_refl eq_refl ltac:(lia)) as (e1 & E1 & H1).
    change (esum ntok []) with 0 in E1, H1. rewrite !Nat.add_0_r in E1. rewrite Nat.add_0_r in H1. exists e1. split; [exact E1|exact H1].
Qed.

Lemma all_values_ok jb : value_ok jb.
Proof.
  induction jb as [s|els IH|ms IH] using json_rect_nested; [apply scalar_value_ok| |].
  - intros jd f p bn q dn bt dt Hb Hd Hk Hib Hid Hf Hbt Hdt.
    destruct jd as [s|ed|md]; [destruct s; discriminate Hk| |discriminate Hk].
    rewrite !ntok_JArr in Hf. destruct f as [|f]; [lia|]. cbn [diffValue].
    destruct (placed_token _ _ _ _ Hb) as (bt' & Eb & Tb & Vb). rewrite Hbt in Eb. injection Eb as <-. rewrite Tb. cbn [jtype].
    apply (diffArrays_ok p bn els q dn ed); try assumption. lia.
  - intros jd f p bn q dn bt dt Hb Hd Hk Hib Hid Hf Hbt Hdt.
    destruct jd as [s|ed|md]; [destruct s; discriminate Hk|discriminate Hk|].
    rewrite !ntok_JObj in Hf. destruct f as [|f]; [lia|]. cbn [diffValue].
    destruct (placed_token _ _ _ _ Hb) as (bt' & Eb & Tb & Vb). rewrite Hbt in Eb. injection Eb as <-. rewrite Tb. cbn [jtype].
    apply (diffObjects_ok p bn ms q dn md); try assumption. lia.
Qed.
End Compare.

(** The whole comparison of two documents. *)
Lemma diff_events_ok o jb jd b d : is_container jb -> is_container jd -> src_of jb b -> src_of jd d -> comparable o jb jd ->
  exists es, diff_events o b d = Ok (es, true) /\
    map ev_view es = if same_kind jb jd then te o 0 jb jd else marks 0 (ntok jd) RootItemDiff.
Proof.
  intros Cb Cd Sb Sd Hc. assert (Pb := src_placed _ _ Sb). assert (Pd := src_placed _ _ Sd).
  assert (Lb := src_length _ _ Sb). assert (Ld := src_length _ _ Sd).
  destruct (placed_token _ _ _ _ Pb) as (bt & Eb & Tb & _). destruct (placed_token _ _ _ _ Pd) as (dt & Ed & Td & _).
  unfold diff_events. unfold diff_fuel.
  destruct (ds_tokens b) as [|bt' rb] eqn:Eqb; [discriminate Eb|]. destruct (ds_tokens d) as [|dt' rd] eqn:Eqd; [discriminate Ed|].
  cbn [nth_error] in Eb, Ed. injection Eb as ->. injection Ed as ->. rewrite Tb, Td. fold (same_kind jb jd).
  rewrite Lb, Ld.
  destruct (same_kind jb jd) eqn:Ek.
  - assert (V := all_values_ok o b d (numbers jb) (numbers jd) Hc).
    destruct jb as [s|eb|mb]; [destruct Cb| |]; (destruct jd as [s|ed|md]; [destruct Cd| |]); try discriminate Ek; cbn [jtype].
    + destruct (diffArrays_ok o b d (numbers (JArr eb)) (numbers (JArr ed)) 0 None eb 0 None ed (4 * (ntok (JArr eb) + ntok (JArr ed)) + 4) Pb Pd)
        as (es & E1 & E2); try apply incl_refl; [apply Forall_forall; intros; apply V|rewrite !ntok_JArr; lia|].
      rewrite E1. exists es. split; [reflexivity|exact E2].
    + destruct (diffObjects_ok o b d (numbers (JObj mb)) (numbers (JObj md)) Hc 0 None mb 0 None md (4 * (ntok (JObj mb) + ntok (JObj md)) + 4) Pb Pd)
        as (es & E1 & E2); try apply incl_refl; [apply Forall_forall; intros; apply V|rewrite !ntok_JObj; lia|].
      rewrite E1. exists es. split; [reflexivity|exact E2].
  - destruct (set_entire d 0 None jd RootItemDiff Pd) as (es & E1 & E2). rewrite E1. exists es. split; [reflexivity|exact E2].
Qed.
