(** Proofs for C70: the strings of a Map follow its members. *)
From Verif Require Import Tactics Base ScanModel TokModel JsonSpec TokSpec TokSlice HandlerModel TokVecModel MapModel MapSpec MapProofs MapProofs2 MapProofs3 MapUseModel PropMap WriteModel SerModel SerDoc SerSpec HandlerSpec RoundSpec RoundProofs MapUseProofs PropMapUse LifeModel LifeSpec.
From Coq Require Import List Lia.
Import ListNotations.

Lemma str_written_block sso grow f k used : sso < 4096 ->
  exists b f' s, str_written sso grow f k used = (f', s) /\ ss_store s = Block b /\ f <= b < f'.
Proof.
  intros H. unfold str_written.
  assert (R : forall n f0 s0 b, ss_store s0 = Block b -> f <= b < f0 ->
    exists b' f' s, str_resize grow n (f0, s0) = (f', s) /\ ss_store s = Block b' /\ f <= b' < f').
  { intros n f0 s0 b Hb Hf. unfold str_resize. destruct (n <=? ss_cap s0); do 3 eexists; (split; [reflexivity|]); cbn; [split; [exact Hb|exact Hf]|].
    split; [reflexivity|lia]. }
  assert (Q : forall k f0 s0 b, ss_store s0 = Block b -> f <= b < f0 ->
    exists b' f' s, str_requests grow k (f0, s0) = (f', s) /\ ss_store s = Block b' /\ f <= b' < f').
  { clear k. induction k as [|k IH]; intros f0 s0 b Hb Hf; cbn [str_requests]; [eauto 6|].
    destruct (R (ss_size (snd (f0, s0)) * 2) f0 s0 b Hb Hf) as (b1 & f1 & s1 & -> & Hb1 & Hf1). exact (IH f1 s1 b1 Hb1 Hf1). }
  unfold str_resize at 2, str_new. cbn [ss_cap]. destruct (Nat.leb_spec 4096 sso); [lia|].
  destruct (Q k (S f) (mkStr (Block f) (grow sso 4096) 4096) f eq_refl ltac:(lia)) as (b1 & f1 & s1 & -> & Hb1 & Hf1).
  exact (R used f1 s1 b1 Hb1 Hf1).
Qed.

(** ** The members of a Map and the elements of json_data *)

Lemma forall2_length {A B} (R : A -> B -> Prop) l l' : Forall2 R l l' -> length l = length l'.
Proof. induction 1; cbn; congruence. Qed.
Lemma forall2_impl {A B} (R Q : A -> B -> Prop) l l' : (forall a b, R a b -> Q a b) -> Forall2 R l l' -> Forall2 Q l l'.
Proof. intros H. induction 1; constructor; auto. Qed.

Section Slices.
Context (base : memory).

(** Members that were there at the start, and members with a string of their own. *)
Inductive slices : nat -> list token -> list target -> list (bytes * json) -> memory -> Prop :=
| sl_nil pos : slices pos [] [] [] []
| sl_base pos ts ws toks tgts kv ms mem : length ts = ntok (snd kv) -> Forall2 (points base) ts ws ->
    slices (pos + ntok (snd kv)) toks tgts ms mem -> slices pos (ts ++ toks) (ws ++ tgts) (kv :: ms) mem
| sl_own pos ts toks tgts kv ms mem text s b : length ts = ntok (snd kv) -> Forall (lies_in text) ts -> ss_store s = Block b ->
    slices (pos + ntok (snd kv)) toks tgts ms mem ->
    slices pos (ts ++ toks) (repeat (InBlock b) (length ts) ++ tgts) (kv :: ms) (((pos, text), s) :: mem).

Lemma slices_length pos toks tgts ms mem : slices pos toks tgts ms mem -> length toks = msum ntok ms /\ length tgts = msum ntok ms.
Proof.
  induction 1 as [|pos ts ws toks tgts kv ms mem L F _ [I1 I2]|pos ts toks tgts kv ms mem text s b L F Hb _ [I1 I2]]; [auto| |]; rewrite !app_length, msum_cons.
  - apply forall2_length in F. lia.
  - rewrite repeat_length. lia.
Qed.
Lemma slices_firsts pos toks tgts ms mem : slices pos toks tgts ms mem -> Forall (fun x => pos <= fst (fst x) < pos + msum ntok ms) mem.
Proof.
  induction 1 as [|pos ts ws toks tgts kv ms mem L F _ IH|pos ts toks tgts kv ms mem text s b L F Hb _ IH]; [constructor| |]; rewrite msum_cons.
  - eapply Forall_impl; [|exact IH]. cbn. lia.
  - assert (P := ntok_pos (snd kv)). constructor; [cbn; lia|]. eapply Forall_impl; [|exact IH]. cbn. lia.
Qed.
Lemma slices_split a : forall b pos toks tgts mem, slices pos toks tgts (a ++ b) mem ->
  exists t1 t2 w1 w2 m1 m2, toks = t1 ++ t2 /\ tgts = w1 ++ w2 /\ mem = m1 ++ m2 /\ slices pos t1 w1 a m1 /\ slices (pos + msum ntok a) t2 w2 b m2.
Proof.
  induction a as [|kv a IH]; intros b pos toks tgts mem H.
  - exists [], toks, [], tgts, [], mem. repeat split; [constructor|]. cbn. rewrite Nat.add_0_r. exact H.
  - cbn [app] in H. inversion H; subst.
    + match goal with K : slices _ _ _ (a ++ b) _ |- _ => destruct (IH _ _ _ _ _ K) as (t1 & t2 & w1 & w2 & m1 & m2 & -> & -> & -> & S1 & S2) end.
      eexists (_ ++ t1), t2, (_ ++ w1), w2, m1, m2. rewrite !app_assoc. repeat split; [apply sl_base; eassumption|].
      rewrite msum_cons, Nat.add_assoc. exact S2.
    + match goal with K : slices _ _ _ (a ++ b) _ |- _ => destruct (IH _ _ _ _ _ K) as (t1 & t2 & w1 & w2 & m1 & m2 & -> & -> & -> & S1 & S2) end.
      eexists (_ ++ t1), t2, (_ ++ w1), w2, (_ :: m1), m2. rewrite !app_assoc. repeat split; [apply sl_own; eassumption|].
      rewrite msum_cons, Nat.add_assoc. exact S2.
Qed.
Lemma slices_join pos t1 w1 a m1 : slices pos t1 w1 a m1 -> forall t2 w2 b m2, slices (pos + msum ntok a) t2 w2 b m2 ->
  slices pos (t1 ++ t2) (w1 ++ w2) (a ++ b) (m1 ++ m2).
Proof.
  induction 1 as [|pos ts ws toks tgts kv ms mem L F _ IH|pos ts toks tgts kv ms mem text s b L F Hb _ IH]; intros t2 w2 b0 m2 H2; cbn [app].
  - cbn in H2. rewrite Nat.add_0_r in H2. exact H2.
  - rewrite <- !app_assoc. apply sl_base; [exact L|exact F|]. apply IH. rewrite msum_cons in H2. rewrite <- Nat.add_assoc. exact H2.
  - rewrite <- !app_assoc. apply sl_own; [exact L|exact F|exact Hb|]. apply IH. rewrite msum_cons in H2. rewrite <- Nat.add_assoc. exact H2.
Qed.
Definition back (n : nat) (x : (nat * bytes) * sstr) : (nat * bytes) * sstr := ((fst (fst x) - n, snd (fst x)), snd x).
Lemma slices_shift n pos t w a m : slices pos t w a m -> n <= pos -> slices (pos - n) t w a (map (back n) m).
Proof.
  induction 1 as [|pos ts ws toks tgts kv ms mem L F _ IH|pos ts toks tgts kv ms mem text s b L F Hb _ IH]; intros Hn; cbn [map].
  - constructor.
  - apply sl_base; [exact L|exact F|]. replace (pos - n + ntok (snd kv)) with (pos + ntok (snd kv) - n) by lia. apply IH. lia.
  - unfold back at 1. cbn. apply sl_own; [exact L|exact F|exact Hb|]. replace (pos - n + ntok (snd kv)) with (pos + ntok (snd kv) - n) by lia. apply IH. lia.
Qed.

Lemma points_more mem mem' t w : (forall x, In x mem -> In x mem') -> points mem t w -> points mem' t w.
Proof. intros H. destruct w; cbn; auto. intros (text & (p & s & Hi & Hs) & Hl). exists text. split; [exists p, s; auto|exact Hl]. Qed.
Lemma slices_points pos toks tgts ms mem all : slices pos toks tgts ms mem -> (forall x, In x base -> In x all) -> (forall x, In x mem -> In x all) ->
  Forall2 (points all) toks tgts.
Proof.
  intros H Hb. induction H as [|pos ts ws toks tgts kv ms mem L F _ IH|pos ts toks tgts kv ms mem text s b L F Hs _ IH]; intros Hm.
  - constructor.
  - apply Forall2_app; [|apply IH, Hm]. eapply forall2_impl; [|exact F]. intros t w. apply points_more. exact Hb.
  - apply Forall2_app; [|apply IH; intros x Hx; apply Hm; right; exact Hx]. clear L IH.
    induction F as [|t ts Ht _ IHF]; cbn; constructor; [|exact IHF]. exists text. split; [|exact Ht]. exists pos, s. split; [apply Hm; left; reflexivity|exact Hs].
Qed.
End Slices.

(** ** Removing an element of json_data *)

Lemma last_at_app idx a : forall i r b, last_at idx i r (a ++ b) = last_at idx (i + length a) (last_at idx i r a) b.
Proof. induction a as [|p a IH]; intros i r b; cbn [app last_at length]; [rewrite Nat.add_0_r; reflexivity|]. rewrite IH. f_equal. lia. Qed.
Lemma last_at_none idx l : Forall (fun p : nat * bytes => fst p <> idx) l -> forall i r, last_at idx i r l = r.
Proof. induction 1 as [|p l Hp _ IH]; intros i r; cbn; [reflexivity|]. rewrite IH. destruct (Nat.eqb_spec (fst p) idx); congruence. Qed.

Section Drop.
Context (idx n : nat) (base m1 mm m2 : memory).
Context (Hb : Forall (fun x => fst (fst x) < idx) base) (H1 : Forall (fun x => fst (fst x) < idx) m1) (H2 : Forall (fun x => idx < fst (fst x)) m2).
Context (Hm : mm = [] \/ exists text s, mm = [((idx, text), s)]).

Lemma low_ne (l : memory) : Forall (fun x => fst (fst x) < idx) l -> Forall (fun p => fst p <> idx) (map fst l).
Proof. intros H. apply Forall_map. eapply Forall_impl; [|exact H]. cbn. intros a Ha. cbn in Ha. lia. Qed.
Lemma drop_data_split : drop_data idx n (map fst (base ++ m1 ++ mm ++ m2)) = map fst (base ++ m1 ++ map (back n) m2).
Proof.
  unfold drop_data. set (g := fun p : nat * bytes => if Nat.ltb idx (fst p) then (fst p - n, snd p) else p).
  assert (L : forall l : memory, Forall (fun x => fst (fst x) < idx) l -> map g (map fst l) = map fst l).
  { induction 1 as [|x l Hx _ IH]; [reflexivity|]. cbn [map]. rewrite IH. f_equal. unfold g. destruct (Nat.ltb_spec idx (fst (fst x))); [lia|reflexivity]. }
  assert (U : map g (map fst m2) = map fst (map (back n) m2)).
  { rewrite !map_map. apply map_ext_in. intros x Hx. rewrite Forall_forall in H2. specialize (H2 x Hx). unfold g, back. destruct (Nat.ltb_spec idx (fst (fst x))); [reflexivity|lia]. }
  assert (M : map g (map fst mm) = map fst mm).
  { destruct Hm as [->|(text & s & ->)]; [reflexivity|]. cbn [map fst]. unfold g. cbn [fst]. rewrite Nat.ltb_irrefl. reflexivity. }
  rewrite !map_app, (L base Hb), (L m1 H1), M, U.
  rewrite !last_at_app. rewrite (last_at_none idx (map fst base) (low_ne base Hb)), (last_at_none idx (map fst m1) (low_ne m1 H1)).
  rewrite (last_at_none idx (map fst m2)) by (apply Forall_map; eapply Forall_impl; [|exact H2]; cbn; intros a Ha; lia).
  destruct Hm as [->|(text & s & ->)]; cbn [map last_at fst app]; [reflexivity|].
  rewrite Nat.eqb_refl. change ((idx, text) :: map fst (map (back n) m2)) with ([(idx, text)] ++ map fst (map (back n) m2)).
  rewrite !app_assoc, <- app_assoc. apply erase_app; [rewrite !app_length; lia|reflexivity].
Qed.
Lemma drop_strs_split : match last_at idx 0 None (map fst (base ++ m1 ++ mm ++ m2)) with
    | Some i => erase i 1 (map snd (base ++ m1 ++ mm ++ m2)) | None => map snd (base ++ m1 ++ mm ++ m2) end
  = map snd (base ++ m1 ++ map (back n) m2).
Proof.
  assert (U : map snd (map (back n) m2) = map snd m2) by (rewrite map_map; reflexivity).
  rewrite !map_app, U, !last_at_app. rewrite (last_at_none idx (map fst base) (low_ne base Hb)), (last_at_none idx (map fst m1) (low_ne m1 H1)).
  rewrite (last_at_none idx (map fst m2)) by (apply Forall_map; eapply Forall_impl; [|exact H2]; cbn; intros a Ha; lia).
  destruct Hm as [->|(text & s & ->)]; cbn [map last_at fst snd app]; [reflexivity|].
  rewrite Nat.eqb_refl. change (s :: map snd m2) with ([s] ++ map snd m2).
  rewrite !app_assoc, <- app_assoc. apply erase_app; [rewrite !app_length, !map_length; lia|reflexivity].
Qed.
End Drop.

(** ** The invariant *)

Definition inv (base : memory) (d : bool) (f : nat) (ms : list (bytes * json)) (m : lmap) : Prop :=
  exists t0 mid t1 w0 wmid w1 mem,
    mp_tokens (lf_map m) = t0 :: mid ++ [t1] /\ lf_target m = w0 :: wmid ++ [w1] /\ points base t0 w0 /\ points base t1 w1 /\
    mp_data (lf_map m) = map fst (base ++ mem) /\ lf_strs m = map snd (base ++ mem) /\ slices base 1 mid wmid ms mem /\
    is_map ms d (lf_map m) /\ NoDup (blocks (lf_strs m)) /\ Forall (fun b => b < f) (blocks (lf_strs m)) /\
    Forall (fun x => fst (fst x) = 0) base.

Lemma combine_split_map {A B} (l : list (A * B)) : combine (map fst l) (map snd l) = l.
Proof. induction l as [|[a b] l IH]; cbn; congruence. Qed.

Lemma inv_sound base d f ms m : inv base d f ms m -> sound f m.
Proof.
  intros (t0 & mid & t1 & w0 & wmid & w1 & mem & Ht & Hw & P0 & P1 & Hd & Hs & Hsl & Hm & Hnd & Hf & Hb).
  assert (Em : memory_of m = base ++ mem) by (unfold memory_of; rewrite Hd, Hs; apply combine_split_map).
  split; [|split; [rewrite Hd, Hs, !map_length; reflexivity|auto]]. rewrite Em, Ht, Hw.
  assert (I1 : forall x, In x base -> In x (base ++ mem)) by (intros; apply in_or_app; auto).
  constructor; [eapply points_more; eassumption|]. apply Forall2_app; [|constructor; [eapply points_more; eassumption|constructor]].
  eapply slices_points; [exact Hsl|exact I1|intros; apply in_or_app; auto].
Qed.

Lemma blocks_app a b : blocks (a ++ b) = blocks a ++ blocks b.
Proof. apply flat_map_app. Qed.
Lemma nodup_mid {A} (b : list A) : forall a c, NoDup (a ++ b ++ c) -> NoDup (a ++ c).
Proof. induction b as [|x b IH]; intros a c H; [exact H|]. apply IH. exact (NoDup_remove_1 _ _ _ H). Qed.
Lemma nodup_snoc {A} (x : A) l : NoDup l -> ~ In x l -> NoDup (l ++ [x]).
Proof.
  induction 1 as [|y l Hy _ IH]; intros Hx; cbn; constructor; [intros []|constructor| |].
  - intros H. apply in_app_or in H. destruct H as [H|[->|[]]]; [exact (Hy H)|]. apply Hx. left. reflexivity.
  - apply IH. intros H. apply Hx. right. exact H.
Qed.

Lemma map_remove_inv m it m' : map_remove m it = Ok m' -> exists n,
  (if Nat.eqb (it_index it) (it_complex it) then match nth_error (mp_meta m) (it_meta it) with Some x => Ok (m_size x) | None => UB end else Ok 1) = Ok n /\
  mp_tokens m' = erase (it_index it) n (mp_tokens m) /\ mp_data m' = drop_data (it_index it) n (mp_data m).
Proof.
  unfold map_remove. destruct (_ =? _); [destruct (nth_error _ _) as [x|]; [|discriminate]|]; intros E; injection E as <-; eexists; repeat split.
Qed.
Lemma map_append_inv m out new m' : map_append m out new = Ok m' ->
  mp_tokens m' = firstn (length (mp_tokens m) - 1) (mp_tokens m) ++ removelast (tl new) ++ skipn (length (mp_tokens m) - 1) (mp_tokens m) /\
  mp_data m' = mp_data m ++ [(length (mp_tokens m) - 1, out)].
Proof.
  unfold map_append. destruct (metaForTokens new) as [nm| |]; cbn [obind]; try discriminate. destruct nm as [|root inner]; [discriminate|].
  destruct (_ =? 0); [|destruct inner; [discriminate|]]; intros E; injection E as <-; auto.
Qed.

Lemma remove_inv base d f m pre name v post : inv base d f (pre ++ (name, v) :: post) m ->
  is_scalar v = false \/ forallb (fun kv => is_scalar (snd kv)) post = true ->
  exists m', life_remove m (it_at (lf_map m) pre) = Ok m' /\ inv base d f (pre ++ post) m'.
Proof.
  intros (t0 & mid & t1 & w0 & wmid & w1 & mem & Ht & Hw & P0 & P1 & Hd & Hs & Hsl & Hm & Hnd & Hf & Hb) Hr.
  destruct (map_remove_ok d (lf_map m) pre name v post Hm Hr) as (m1 & Er & Hm1).
  destruct (map_remove_inv _ _ _ Er) as (n & En & Et & Ed). unfold life_remove. rewrite Er. cbn [obind]. rewrite En. cbn [obind].
  eexists. split; [reflexivity|].
  destruct (slices_split _ _ _ _ _ _ _ Hsl) as (T1 & T' & W1 & W' & M1 & M' & -> & -> & -> & S1 & S').
  change ((name, v) :: post) with ([(name, v)] ++ post) in S'. destruct (slices_split _ _ _ _ _ _ _ S') as (Tm & T2 & Wm & W2 & Mm & M2 & -> & -> & -> & Sm & S2).
  destruct (slices_length _ _ _ _ _ _ S1) as [L1 LW1]. destruct (slices_length _ _ _ _ _ _ Sm) as [Lm LWm]. destruct (slices_length _ _ _ _ _ _ S2) as [L2 LW2].
  assert (Hone : msum ntok [(name, v)] = ntok v) by (rewrite msum_cons; change (msum ntok []) with 0; cbn [snd]; lia). rewrite Hone in *.
  assert (Pv := ntok_pos v).
  assert (Hn : n = ntok v).
  { assert (K1 := is_map_length _ _ _ Hm). assert (K2 := is_map_length _ _ _ Hm1). rewrite Et in K2. unfold erase in K2. cbn [it_at it_index] in K2.
    rewrite app_length, firstn_length, skipn_length in K2. rewrite msum_app, msum_cons in K1. rewrite msum_app in K2. cbn [snd] in K1. lia. }
  subst n. cbn [it_at it_index] in *. set (idx := 1 + msum ntok pre) in *.
  assert (HMm : Mm = [] \/ exists text s, Mm = [((idx, text), s)]).
  { inversion Sm; subst; [left|right]; match goal with K : slices _ _ _ _ [] _ |- _ => inversion K; subst end; [reflexivity|]. do 2 eexists. reflexivity. }
  assert (B1 := slices_firsts _ _ _ _ _ _ S1). assert (B2 := slices_firsts _ _ _ _ _ _ S2).
  assert (Hb' : Forall (fun x => fst (fst x) < idx) base) by (eapply Forall_impl; [|exact Hb]; cbn; unfold idx; intros; lia).
  assert (B1' : Forall (fun x => fst (fst x) < idx) M1) by (eapply Forall_impl; [|exact B1]; cbn; unfold idx; intros; lia).
  assert (B2' : Forall (fun x => idx < fst (fst x)) M2) by (eapply Forall_impl; [|exact B2]; cbn; unfold idx; intros; lia).
  exists t0, (T1 ++ T2), t1, w0, (W1 ++ W2), w1, (M1 ++ map (back (ntok v)) M2). cbn [lf_map lf_target lf_strs].
  assert (Estr := drop_strs_split idx (ntok v) base M1 Mm M2 Hb' B1' B2' HMm).
  rewrite <- Hd, <- Hs in Estr.
  split. { rewrite Et, Ht. rewrite <- !app_assoc. change (t0 :: T1 ++ Tm ++ T2 ++ [t1]) with ((t0 :: T1) ++ Tm ++ (T2 ++ [t1])). rewrite erase_app; [reflexivity|cbn; unfold idx; lia|exact Lm]. }
  split. { rewrite Hw. rewrite <- !app_assoc. change (w0 :: W1 ++ Wm ++ W2 ++ [w1]) with ((w0 :: W1) ++ Wm ++ (W2 ++ [w1])). rewrite erase_app; [reflexivity|cbn; unfold idx; lia|exact LWm]. }
  split; [exact P0|]. split; [exact P1|].
  split. { rewrite Ed, Hd. apply (drop_data_split idx (ntok v) base M1 Mm M2 Hb' B1' B2' HMm). }
  split. { exact Estr. }
  split. { eapply slices_join; [exact S1|]. assert (S3 := slices_shift base (ntok v) _ _ _ _ _ S2 ltac:(lia)). replace (1 + msum ntok pre) with (1 + msum ntok pre + ntok v - ntok v) by lia. exact S3. }
  split; [exact Hm1|]. rewrite Estr.
  assert (Esn : forall l, map snd (map (back (ntok v)) l) = map snd l) by (intros l; rewrite map_map; reflexivity).
  rewrite Hs in Hnd, Hf. rewrite !map_app, !blocks_app in Hnd, Hf. rewrite !map_app, Esn, !blocks_app.
  split; [|split; [|exact Hb]].
  - rewrite app_assoc. rewrite app_assoc in Hnd. exact (nodup_mid _ _ _ Hnd).
  - rewrite !Forall_app in *. tauto.
Qed.

Lemma append_inv sso grow base d f k m ms name v out new f' s : sso < 4096 -> inv base d f ms m ->
  map tok_view new = doc_tokens None (JObj [(name, v)]) -> Forall (lies_in out) new ->
  str_written sso grow f k (length out) = (f', s) ->
  exists m', life_append m s out new = Ok m' /\ inv base d f' (ms ++ [(name, v)]) m'.
Proof.
  intros Hsso (t0 & mid & t1 & w0 & wmid & w1 & mem & Ht & Hw & P0 & P1 & Hd & Hs & Hsl & Hm & Hnd & Hf & Hb) Hnew Hin Ew.
  destruct (str_written_block sso grow f k (length out) Hsso) as (b & f1 & s1 & Ew' & Hblk & Hbf). rewrite Ew in Ew'. injection Ew' as <- <-.
  destruct (map_append_ok d (lf_map m) ms name v out new Hm Hnew) as (m1 & Ea & Hm1).
  destruct (map_append_inv _ _ _ _ Ea) as [Et Ed]. unfold life_append. rewrite Ea. cbn [obind]. eexists. split; [reflexivity|].
  destruct (slices_length _ _ _ _ _ _ Hsl) as [L LW].
  set (mid2 := removelast (tl new)) in *.
  assert (Ln : length mid2 = ntok v).
  { assert (Ll : length new = ntok v + 2).
    { rewrite <- (map_length tok_view), Hnew. change (length (doc_tokens None (JObj [(name, v)]))) with (ntok (JObj [(name, v)])). rewrite ntok_JObj, msum_cons. change (msum ntok []) with 0. cbn [snd]. lia. }
    unfold mid2. destruct new as [|n0 nr]; [cbn in Ll; lia|]. cbn [tl]. cbn [length] in Ll.
    assert (Hne : nr <> []) by (intros ->; cbn in Ll; lia). apply (app_removelast_last n0) in Hne. apply (f_equal (@length _)) in Hne. rewrite app_length in Hne. cbn in Hne. lia. }
  assert (Hl2 : Forall (lies_in out) mid2).
  { unfold mid2. destruct Hin as [|n0 nr _ Hin]; [constructor|]. cbn [tl]. destruct nr as [|n1 nr]; [constructor|].
    assert (Hne : n1 :: nr <> []) by discriminate. apply (app_removelast_last n0) in Hne. rewrite Hne in Hin. apply Forall_app in Hin. apply Hin. }
  assert (Lt : length (mp_tokens (lf_map m)) - 1 = S (length mid)) by (rewrite Ht; cbn; rewrite app_length; cbn; lia).
  rewrite Lt in *. cbn [lf_map lf_target lf_strs].
  assert (Etg : target_of s = InBlock b) by (unfold target_of; rewrite Hblk; reflexivity).
  exists t0, (mid ++ mid2), t1, w0, (wmid ++ repeat (InBlock b) (length mid2) ++ []), w1, (mem ++ [((S (length mid), out), s)]). cbn [lf_map lf_target lf_strs].
  assert (Cut : forall {X} (x : X) (l : list X) y n, length l = n -> firstn (S n) (x :: l ++ [y]) = x :: l /\ skipn (S n) (x :: l ++ [y]) = [y]).
  { intros X x l y n <-. cbn [firstn skipn]. rewrite firstn_app, firstn_all, Nat.sub_diag, firstn_O, app_nil_r, skipn_app, skipn_all, Nat.sub_diag. split; reflexivity. }
  split. { rewrite Et, Ht. destruct (Cut _ t0 mid t1 _ eq_refl) as [-> ->]. cbn [app]. rewrite <- app_assoc. reflexivity. }
  split. { rewrite Hw, Etg. destruct (Cut _ w0 wmid w1 (length mid)) as [-> ->]; [lia|]. rewrite app_nil_r. cbn [app]. rewrite <- app_assoc. reflexivity. }
  split; [exact P0|]. split; [exact P1|].
  split. { rewrite Ed, Hd, app_assoc, (map_app fst (base ++ mem)). reflexivity. }
  split. { rewrite Hs, app_assoc, (map_app snd (base ++ mem)). reflexivity. }
  split. { eapply slices_join; [exact Hsl|]. rewrite <- L. change (1 + length mid) with (S (length mid)). rewrite <- (app_nil_r mid2) at 1.
    apply sl_own; [exact Ln|exact Hl2|exact Hblk|constructor]. }
  split; [exact Hm1|]. rewrite blocks_app. cbn [blocks flat_map]. rewrite Hblk. cbn [app].
  split; [|split; [|exact Hb]].
  - apply nodup_snoc; [exact Hnd|]. intros H. rewrite Forall_forall in Hf. specialize (Hf _ H). lia.
  - apply Forall_app. split; [eapply Forall_impl; [|exact Hf]; cbn; intros; lia|]. constructor; [lia|constructor].
Qed.

Lemma set_inv sso grow base d f k m ms name v out new : sso < 4096 -> inv base d f ms m -> name <> [] -> replaceable name ms = true ->
  map tok_view new = doc_tokens None (JObj [(name, v)]) -> Forall (lies_in out) new ->
  exists f' m', life_setValue sso grow f k m name out new = Ok (f', m') /\ inv base d f' (set_member name v ms) m'.
Proof.
  intros Hsso Hi Hne Hr Hnew Hin. unfold life_setValue.
  assert (Hm : is_map ms d (lf_map m)) by (destruct Hi as (t0 & mid & t1 & w0 & wmid & w1 & mem & Ht & Hw & P0 & P1 & Hd & Hs & Hsl & Hm & _); exact Hm).
  assert (E : match mp_tokens (lf_map m) with
              | [] => (let* meta := metaForTokens brace_tokens in Ok (mkLife (mkMap brace_tokens meta (mp_data (lf_map m))) [Outside; Outside] (lf_strs m)))
              | _ => Ok m end = Ok m).
  { destruct Hm as (t0 & mid & t1 & -> & _). reflexivity. }
  rewrite E. cbn [obind]. clear E. unfold set_member. destruct (str_written sso grow f k (length out)) as [f' s] eqn:Ew.
  destruct (lookup name ms) as [w|] eqn:El.
  - destruct (lookup_split _ _ _ El) as (pre & post & -> & Hn & ->).
    rewrite (map_find_present _ d _ pre name w post Hm eq_refl Hn). cbn [obind].
    rewrite (it_at_not_end _ d _ pre _ post Hm eq_refl).
    destruct (remove_inv base d f m pre name w post Hi (replaceable_split _ _ _ _ _ Hr eq_refl Hn)) as (m' & -> & Hm').
    cbn [obind]. destruct (append_inv sso grow base d f k m' _ name v out new f' s Hsso Hm' Hnew Hin Ew) as (m2 & -> & H2). cbn [obind]. eauto.
  - destruct (map_find_absent _ d _ name Hm Hne El) as (it & -> & Hit). cbn [obind]. rewrite Hit, Nat.eqb_refl. cbn [obind].
    destruct (lookup_none _ _ El) as [_ ->].
    destruct (append_inv sso grow base d f k m _ name v out new f' s Hsso Hi Hnew Hin Ew) as (m2 & -> & H2). cbn [obind]. eauto.
Qed.

(** ** The beginnings *)

Lemma slices_base base : forall ms pos ts ws, length ts = msum ntok ms -> Forall2 (points base) ts ws -> slices base pos ts ws ms [].
Proof.
  induction ms as [|kv ms IH]; intros pos ts ws L F.
  - destruct F; [constructor|discriminate L].
  - rewrite msum_cons in L. rewrite <- (firstn_skipn (ntok (snd kv)) ts) in F |- *.
    apply Forall2_app_inv_l in F. destruct F as (w1 & w2 & F1 & F2 & ->).
    assert (L1 : length (firstn (ntok (snd kv)) ts) = ntok (snd kv)) by (rewrite firstn_length; lia).
    apply sl_base; [exact L1|exact F1|]. apply IH; [rewrite skipn_length; lia|exact F2].
Qed.
Lemma slices_few base pos ts ws ms mem : slices base pos ts ws ms mem -> length mem <= length ms.
Proof. induction 1; cbn [length]; lia. Qed.

(** All tokens point as [base] allows. *)
Lemma inv_base base d f ms m : is_map ms d (lf_map m) -> Forall2 (points base) (mp_tokens (lf_map m)) (lf_target m) ->
  mp_data (lf_map m) = map fst base -> lf_strs m = map snd base -> NoDup (blocks (lf_strs m)) -> Forall (fun b => b < f) (blocks (lf_strs m)) ->
  Forall (fun x => fst (fst x) = 0) base -> inv base d f ms m.
Proof.
  intros Hm F Hd Hs Hn Hf Hb. assert (L := is_map_length _ _ _ Hm). destruct Hm as (t0 & mid & t1 & Ht & Hm).
  rewrite Ht in F, L. cbn [length] in L. rewrite app_length in L. cbn [length] in L.
  destruct (lf_target m) as [|w0 wr] eqn:Ew; [inversion F|]. inversion F as [|? ? ? ? P0 F0]; subst. clear F. rename F0 into F.
  apply Forall2_app_inv_l in F. destruct F as (wmid & wl & F1 & F2 & ->). inversion F2 as [|? w1 ? ? P1 F3]; subst. inversion F3; subst.
  exists t0, mid, t1, w0, wmid, w1, []. rewrite app_nil_r. repeat (split; [assumption|]).
  split; [apply slices_base; [lia|exact F1]|]. split; [exists t0, mid, t1; split; assumption|auto].
Qed.
Lemma outside_points base ts : Forall2 (points base) ts (repeat Outside (length ts)).
Proof. induction ts; cbn; constructor; cbn; auto. Qed.
Lemma read_inv f d ms m : is_map ms d m -> mp_data m = [] -> inv [] d f ms (life_read m).
Proof.
  intros Hm Hd. apply inv_base; cbn [life_read lf_map lf_target lf_strs]; auto; try constructor. apply outside_points.
Qed.
Lemma whole_inv sso grow f k out new ms : sso < 4096 -> map tok_view new = doc_tokens None (JObj ms) -> Forall (lies_in out) new ->
  exists f' m' base, life_setAll sso grow f k out new = Ok (f', m') /\ inv base (has_scalar (JObj ms)) f' ms m' /\ length base = 1.
Proof.
  intros Hsso Hn Hin. unfold life_setAll. destruct (str_written_block sso grow f k (length out) Hsso) as (b & f1 & s & -> & Hs & Hb).
  destruct (C37_map_of_object new None ms Hn) as (m1 & E1 & _ & Hm). unfold map_load in E1. destruct (metaForTokens new) as [meta| |]; [|discriminate E1..].
  cbn [obind] in E1 |- *. injection E1 as <-. eexists f1, _, [((0, out), s)]. split; [reflexivity|]. split; [|reflexivity].
  assert (Bl : blocks [s] = [b]) by (cbn [blocks flat_map]; rewrite Hs; reflexivity).
  apply inv_base; cbn [lf_map lf_target lf_strs mp_tokens mp_data map fst snd]; auto.
  - unfold target_of. rewrite Hs. clear -Hin Hs. induction Hin; cbn [length repeat]; constructor; auto.
    exists out. split; [exists 0, s; split; [left; reflexivity|exact Hs]|assumption].
  - rewrite Bl. repeat constructor. intros [].
  - rewrite Bl. constructor; [lia|constructor].
Qed.

(** setValue on a new Map. *)
Lemma first_is_braces sso grow f k name out new : life_setValue sso grow f k life_empty name out new
  = life_setValue sso grow f k (life_read (mkMap brace_tokens (tree_meta 0 (JObj [])) [])) name out new.
Proof.
  unfold life_setValue at 1. cbn [life_empty lf_map mp_tokens mp_data lf_strs].
  rewrite (metaForTokens_spec brace_tokens None (JObj [])) by reflexivity. reflexivity.
Qed.

(** ** The tokens of a text lie in it *)

Lemma next_lies o text c c1 : single text (c_src c) -> ctx_next (nextToken o) c = Ok (NoError, c1) -> single text (c_src c1) /\ lies_in text (c_tok c1).
Proof.
  intros Hs. unfold ctx_next, ctx_read. destruct (nextToken o (c_tok c) (c_src c)) as [[[s e] tk]| |] eqn:En; cbn [obind]; try discriminate.
  intros [= -> <-]. destruct (nextToken_single _ _ _ _ _ _ _ Hs En) as (H1 & _ & H2). destruct (H2 eq_refl) as (_ & (I1 & I2 & _) & _).
  cbn. split; [exact H1|split; assumption].
Qed.
Lemma loop_lies o text fuel : forall level acc c ts c', single text (c_src c) -> Forall (lies_in text) acc ->
  tokvec_loop (nextToken o) fuel level acc c = Ok (NoError, ts, c') -> Forall (lies_in text) ts.
Proof.
  induction fuel as [|fuel IH]; intros [|level] acc c ts c' Hs Ha; cbn [tokvec_loop]; try discriminate; try (intros [= <- _]; exact Ha).
  destruct (ctx_next (nextToken o) c) as [[e c1]| |] eqn:En; cbn [obind]; try discriminate. cbv zeta.
  destruct (is_ok e) eqn:Ee; [|intros [= -> _ _]; discriminate Ee]. destruct e; try discriminate Ee.
  destruct (next_lies o text c c1 Hs En) as [S1 L1]. apply IH; [exact S1|]. apply Forall_app. split; [exact Ha|constructor; [exact L1|constructor]].
Qed.
Lemma text_lies o g text fuel ts c' : tokvec_parseTo (nextToken o) fuel [] (context_of g text) = Ok (NoError, ts, c') -> Forall (lies_in text) ts.
Proof.
  unfold tokvec_parseTo. destruct (ctx_next (nextToken o) (context_of g text)) as [[e c1]| |] eqn:En; cbn [obind]; try discriminate.
  destruct (is_ok e) eqn:Ee; [|intros [= -> _ _]; discriminate Ee]. destruct e; try discriminate Ee.
  assert (S0 : single text (c_src (context_of g text))).
  { unfold single. cbn. repeat split. right. repeat split. lia. }
  destruct (next_lies o text _ c1 S0 En) as [S1 L1].
  assert (L2 : Forall (lies_in text) [c_tok c1]) by (constructor; [exact L1|constructor]).
  unfold tokvec_to. destruct (tokvec_loop (nextToken o) fuel 1 [c_tok c1] c1) as [[[e2 t2] c2]| |] eqn:El;
  destruct (c_type c1); cbn [obind]; try discriminate; intros E; injection E as E0 E1 E2; try subst e2; subst ts;
    first [exact (loop_lies o text fuel _ _ _ _ _ S1 L2 El)|exact L2].
Qed.

(** ** Values *)

Lemma put_inv sso grow i o fuel base d f k m ms name t v j : sso < 4096 -> inv base d f ms m -> name <> [] -> str_body name -> replaceable name ms = true ->
  storable i t v -> render i t v = Some j -> nesting j <= 254 -> o_nl o = false -> ntok j + 2 <= fuel ->
  exists f' m', life_set sso grow i o fuel f k m name t v = Ok (f', m') /\ inv base d f' (set_member name j ms) m'.
Proof.
  intros Hsso Hm Hne Hb Hrep Hs Hr Hd Ho Hl. destruct (member_text_ok i name t v j Hne Hb Hs Hr Hd) as (text & E & D).
  unfold life_set. rewrite E. cbn [obind].
  destruct (text_tokens o cfg_default _ text _ Ho D eq_refl fuel) as (ts & c' & Et & Hts & _).
  { rewrite ntok_one. exact Hl. }
  assert (L := text_lies _ _ _ _ _ _ Et). rewrite Et. cbn [obind]. apply set_inv; auto.
Qed.
Lemma puts_inv sso grow i o fuel base d calls l : sso < 4096 -> o_nl o = false -> Forall2 (puts i fuel) (map snd calls) l ->
  forall ms f m, inv base d f ms m -> all_replaceable l ms = true ->
  exists f' m', life_puts sso grow i o fuel f m calls = Ok (f', m') /\ inv base d f' (set_members l ms) m'.
Proof.
  intros Hsso Ho. revert l. induction calls as [|[k [n [t v]]] calls IH]; intros l Hc ms f m Hm Ha; cbn [map snd] in Hc; inversion Hc as [|x0 y0 l0 l1 HP HF]; subst.
  - exists f, m. split; [reflexivity|exact Hm].
  - destruct y0 as [k' j]. destruct HP as (En & H1 & H2 & H3 & H4 & H5 & H6).
    cbn [fst snd] in *. subst n. cbn [all_replaceable fst snd] in Ha. apply andb_prop in Ha. destruct Ha as [Ha1 Ha2].
    destruct (put_inv sso grow i o fuel base d f k m ms k' t v j Hsso Hm H1 H2 Ha1 H3 H4 H5 Ho H6) as (f1 & m1 & E1 & Hm1).
    destruct (IH _ HF _ f1 m1 Hm1 Ha2) as (f' & m' & E2 & Hm').
    exists f', m'. split; [cbn [life_puts]; rewrite E1; exact E2|exact Hm'].
Qed.
Lemma inv_is_map base d f ms m : inv base d f ms m -> is_map ms d (lf_map m) /\ length (lf_strs m) <= length base + length ms.
Proof.
  intros (t0 & mid & t1 & w0 & wmid & w1 & mem & Ht & Hw & P0 & P1 & Hd & Hs & Hsl & Hm & Hnd & Hf & Hb). split; [exact Hm|].
  rewrite Hs, map_length, app_length. assert (H := slices_few _ _ _ _ _ _ Hsl). lia.
Qed.
Lemma whole_put sso grow i o fuel f k t v ms : sso < 4096 -> storable i t v -> render i t v = Some (JObj ms) -> nesting (JObj ms) <= 255 -> o_nl o = false ->
  ntok (JObj ms) <= fuel ->
  exists f' m' base, life_set_all sso grow i o fuel f k t v = Ok (f', m') /\ inv base (has_scalar (JObj ms)) f' ms m' /\ length base = 1.
Proof.
  intros Hsso Hs Hr Hd Ho Hl. unfold life_set_all.
  destruct (serialized i (so_make true) t v (JObj ms) Hs Hr I (Om_new true) eq_refl) as (text & E & D); [cbn [so_make so_depth]; lia|].
  rewrite E. cbn [obind]. destruct (text_tokens o cfg_default _ text _ Ho D eq_refl fuel Hl) as (ts & c' & Et & Hts & _).
  assert (L := text_lies _ _ _ _ _ _ Et). rewrite Et. cbn [obind]. apply whole_inv; auto.
Qed.

(** ** The same Map as in MapUseModel.v *)

Lemma life_same sso grow f k m name out new f' m' : life_setValue sso grow f k m name out new = Ok (f', m') -> map_setValue (lf_map m) name out new = Ok (lf_map m').
Proof.
  unfold life_setValue, map_setValue.
  set (start := match mp_tokens (lf_map m) with [] => _ | _ => _ end). set (start' := match mp_tokens (lf_map m) with [] => _ | _ => _ end).
  assert (Es : start' = match start with Ok m => Ok (lf_map m) | UB => UB | OutOfFuel => OutOfFuel end).
  { unfold start, start'. destruct (mp_tokens (lf_map m)); [|reflexivity]. destruct (metaForTokens brace_tokens); reflexivity. }
  rewrite Es. clearbody start. clear Es start'. destruct start as [m0| |]; cbn [obind]; try discriminate.
  destruct (map_find (lf_map m0) name) as [it| |]; cbn [obind]; try discriminate.
  set (rem := if it_index it =? length (mp_tokens (lf_map m0)) then Ok m0 else life_remove m0 it).
  assert (Er : match rem with Ok m1 => (if it_index it =? length (mp_tokens (lf_map m0)) then Ok (lf_map m0) else map_remove (lf_map m0) it) = Ok (lf_map m1) | _ => True end).
  { unfold rem. destruct (_ =? _); [reflexivity|]. unfold life_remove. destruct (map_remove (lf_map m0) it) as [m1| |]; cbn [obind]; try exact I.
    destruct (if it_index it =? it_complex it then _ else _) as [n| |]; cbn [obind]; try exact I. reflexivity. }
  clearbody rem. destruct rem as [m1| |]; cbn [obind]; try discriminate. rewrite Er. cbn [obind].
  destruct (str_written sso grow f k (length out)) as [f1 s]. unfold life_append. destruct (map_append (lf_map m1) out new) as [m2| |]; cbn [obind]; try discriminate.
  intros E. injection E as <- <-. reflexivity.
Qed.
Lemma put_same sso grow i o fuel f k m name t v f' m' : life_set sso grow i o fuel f k m name t v = Ok (f', m') ->
  map_set i o fuel (lf_map m) name t v = Ok (lf_map m').
Proof.
  unfold life_set, map_set. destruct (member_text i name t v) as [out| |]; cbn [obind]; try discriminate.
  destruct (tokvec_parseTo (nextToken o) fuel [] (context_of cfg_default out)) as [[[e new] c]| |]; cbn [obind]; try discriminate. apply life_same.
Qed.
Lemma puts_same sso grow i o fuel calls : forall f m f' m', life_puts sso grow i o fuel f m calls = Ok (f', m') ->
  map_puts i o fuel (lf_map m) (map snd calls) = Ok (lf_map m').
Proof.
  induction calls as [|[k [n [t v]]] calls IH]; intros f m f' m'; cbn [life_puts map snd map_puts]; [intros [= _ <-]; reflexivity|].
  destruct (life_set sso grow i o fuel f k m n t v) as [[f1 m1]| |] eqn:E; cbn [obind]; try discriminate. rewrite (put_same _ _ _ _ _ _ _ _ _ _ _ _ _ E). apply IH.
Qed.

(** ** Copies *)

Lemma copy_blocks sso l : forall f l0 f' l', fold_left (str_copy sso) l (f, l0) = (f', l') ->
  f <= f' /\ forall b, In b (blocks l') -> In b (blocks l0) \/ f <= b.
Proof.
  induction l as [|s l IH]; intros f l0 f' l' E; cbn [fold_left] in E.
  - injection E as <- <-. split; [lia|auto].
  - unfold str_copy in E at 2. destruct (ss_size s <=? sso); destruct (IH _ _ _ _ E) as [H1 H2]; (split; [lia|]); intros b Hb; apply H2 in Hb;
      rewrite blocks_app, in_app_iff in Hb; cbn in Hb; intuition lia.
Qed.
Lemma held_block m b text : held (memory_of m) b text -> In b (blocks (lf_strs m)).
Proof.
  intros (p & s & Hi & Hs). apply in_combine_r in Hi. unfold blocks. apply in_flat_map. exists s. rewrite Hs. split; [exact Hi|left; reflexivity].
Qed.
Lemma forall2_in_r {A B} (R : A -> B -> Prop) l l' y : Forall2 R l l' -> In y l' -> exists x, R x y.
Proof. induction 1; cbn; [intros []|]. intros [->|H1]; eauto. Qed.
Lemma copy_unsound sso f m f' m' : sound f m -> (exists b, In (InBlock b) (lf_target m)) -> life_copy sso f m = (f', m') ->
  lf_map m' = lf_map m /\ ~ sound f' m'.
Proof.
  intros (H1 & _ & _ & H4) (b & Hb). unfold life_copy. destruct (fold_left (str_copy sso) (lf_strs m) (f, [])) as [f1 l1] eqn:E.
  intros [= <- <-]. split; [reflexivity|]. intros (G1 & _). cbn [lf_map lf_target] in G1.
  destruct (forall2_in_r _ _ _ _ H1 Hb) as (t & text & Hh & _). apply held_block in Hh.
  destruct (forall2_in_r _ _ _ _ G1 Hb) as (t' & text' & Hh' & _). apply held_block in Hh'. cbn [lf_strs] in Hh'.
  destruct (copy_blocks _ _ _ _ _ _ E) as [_ H]. destruct (H _ Hh') as [[]|H5]. rewrite Forall_forall in H4. specialize (H4 _ Hh). lia.
Qed.
Lemma lost_unsound f m b : In (InBlock b) (lf_target m) -> ~ In b (blocks (lf_strs m)) -> ~ sound f m.
Proof.
  intros H1 H2 (F & _). destruct (forall2_in_r _ _ _ _ F H1) as (t & text & Hh & _). exact (H2 (held_block _ _ _ Hh)).
Qed.
