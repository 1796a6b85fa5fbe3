(** Proofs that typed values are restored from what is written for them. *)
From Verif Require Import Base Tactics ScanModel TokModel TokSpec JsonSpec StrSpec NumSpec EscapeModel EscapeProofs IntModel IntProofs TokJsonDoc
  SerModel SerSpec SerProofs SerDoc MapProofs MapProofs2 HandlerModel HandlerSpec HandlerTree HandlerLaws HandlerProps HandlerStruct HandlerText HandlerText2 WriteModel RoundSpec.
From Verif Require RyuModel PropRyu PropFloat TimeModel TimeSpec TimeProofs.
From Coq Require Import Lia.

Lemma fits_null t : fits t (Some (JScalar SNull)).
Proof.
  induction t as [|i|sg|hr tp| |ns u|t IH|t IH|t IH|t IH|t IH|u t IH|t IH|t IH|t IH|n t IH|n t IH|t IH|ts IH|t IH|b fs IH] using ty_rect_nested; cbn [fits]; auto.
  - destruct sg; discriminate.
  - discriminate.
Qed.

(** Numbers: C25 and C54. *)
Lemma fp_round_trip single b : storable_fp single b -> exists l,
  fp_write single b = Ok (Some (TNumber, l)) /\ rfc_number l /\ fp_read single l = Ok (NoError, b).
Proof.
  intros (neg & m & -> & Hm & Hne). unfold fp_write, fp_read. destruct single.
  - destruct (PropFloat.C25_float_round_trip neg m (repeat x00 16) Hm eq_refl) as (l & A & B).
    destruct (PropRyu.C54_float_is_json neg m (repeat x00 16) Hm eq_refl) as (l' & A' & R). rewrite A' in A. injection A as <-. exists l'. auto.
  - destruct (PropRyu.C25_round_trip_partial neg m (repeat x00 32) Hm (Hne eq_refl) eq_refl) as (l & A & B).
    destruct (PropRyu.C54_double_is_json neg m (repeat x00 32) Hm eq_refl) as (l' & A' & R). rewrite A' in A. injection A as <-. exists l'. auto.
Qed.

(** Time points: C34.  The text is that of an integer. *)
Lemma time_point_round_trip hr p n : (0 < p /\ (hr = true -> p = 1000) /\ - 2 ^ 63 <= n < 2 ^ 63)%Z -> TimeSpec.survives hr p n = true ->
  exists l, TimeModel.time_from hr p n = Ok (Some l) /\ rfc_number l /\ forall old, TimeModel.time_to hr p l old = Ok (NoError, n).
Proof.
  intros (Hp & Hhr & Hn) Hs. destruct (proj2 (TimeProofs.time_round_trips hr p n Hp Hhr Hn) Hs) as (l & A & B).
  exists l. split; [exact A|]. split; [|exact B]. unfold TimeModel.time_from in A.
  destruct (TimeModel.drop_thousands 8 _) as [t| |] eqn:E; cbn [obind] in A; try discriminate A. injection A as A.
  assert (R : (0 <= t < 2 ^ 64)%Z).
  { revert E. assert (R0 := Z.mod_pos_bound (if hr then (n * 1000 / p)%Z else Z.quot n p) (2 ^ 64) eq_refl).
    revert R0. generalize ((if hr then (n * 1000 / p)%Z else Z.quot n p) mod 2 ^ 64)%Z. clear.
    generalize 8 as k. induction k as [|k IH]; intros z Hz E; cbn [TimeModel.drop_thousands] in E; [discriminate E|].
    destruct ((z mod 1000 =? 0) && (10 ^ 10 <? z))%Z%bool; [|injection E as <-; exact Hz]. apply (IH (z / 1000)%Z); [|exact E].
    split; [apply Z.div_pos; lia|]. apply Z.div_lt_upper_bound; lia. }
  destruct (int_round_trip T_uint64 t) as (text & E1 & E2 & _); [right; right; right; left; reflexivity|rewrite i_min_least, i_max_greatest|].
  - change (0 <= t <= 2 ^ 64 - 1)%Z. lia.
  - rewrite E1 in A. injection A as <-. exact E2.
Qed.

Lemma somes_all {A B} (f : A -> option B) l : Forall (fun x => f x <> None) l -> exists js, map f l = map Some js /\ somes (map f l) = js.
Proof.
  induction 1 as [|x l Hx _ (js & A1 & A2)]; [exists []; auto|]. destruct (f x) as [j|] eqn:E; [|congruence].
  exists (j :: js). cbn [map]. rewrite E, A1. cbn [somes]. rewrite <- A1, A2. auto.
Qed.

(** ** What is read from the rendering *)
Definition restores (g : pcfg) (t : ty) (v : val) (j : json) : Prop :=
  json_ok j /\ names_nonempty j /\ fits t (Some j) /\ sem g t (init t) (Some j) r0 = Ok (NoError, v, r0).

Section Restore.
Context (g : pcfg) (i : isa).

Definition P (t : ty) : Prop := forall v j, storable i t v -> render i t v = Some j -> restores g t v j.

Lemma elements t l : P t -> Forall (fun x => storable i t x /\ render i t x <> None) l ->
  exists js, somes (map (render i t) l) = js /\ length js = length l /\
    Forall json_ok js /\ Forall names_nonempty js /\ Forall (fun j => fits t (Some j)) js /\
    sem_each (sem g t) (repeat (init t) (length js)) js l r0.
Proof.
  intros Ht. induction 1 as [|x l [H1 H2] _ (js & A1 & A2 & A3 & A4 & A5 & A6)].
  - exists []. cbn. repeat split; constructor.
  - destruct (render i t x) as [j|] eqn:E; [|congruence]. destruct (Ht x j H1 E) as (B1 & B2 & B3 & B4).
    exists (j :: js). cbn [map somes]. rewrite E. cbn [somes length repeat sem_each].
    split; [congruence|]. split; [congruence|]. repeat (split; [constructor; assumption|]).
    exists r0, r0. auto.
Qed.

Lemma index_nth : forall names k, NoDup names -> k < length names -> index_of (nth k names []) names = Some k.
Proof.
  induction names as [|x names IH]; intros k Hnd Hk; cbn in Hk; [lia|]. inversion Hnd; subst.
  destruct k as [|k]; cbn [nth index_of].
  - rewrite (proj2 (beq_iff x x) eq_refl). reflexivity.
  - destruct (bytes_eqb_spec x (nth k names [])) as [->|_].
    + exfalso. apply H1. apply nth_In. lia.
    + rewrite (IH k) by (auto; lia). reflexivity.
Qed.

Lemma map_put_new k v : forall m, ~ In k (map fst m) -> map_put k v m = m ++ [(k, v)].
Proof.
  induction m as [|[k' v'] m IH]; intros H; cbn [map_put app]; [reflexivity|].
  cbn in H. destruct (bytes_eqb_spec k k') as [->|_]; [tauto|]. rewrite IH by tauto. reflexivity.
Qed.

Lemma map_restore t : P t -> forall m, NoDup (map fst m) ->
  Forall (fun kv => (fst kv <> [] /\ str_body (fst kv) /\ escapes_in (fst kv) = fst kv) /\ storable i t (snd kv) /\ render i t (snd kv) <> None) m ->
  exists ms, somes (map (fun kv => option_map (pair (fst kv)) (render i t (snd kv))) m) = ms /\
    Forall (fun kv => str_body (fst kv) /\ json_ok (snd kv)) ms /\ Forall (fun kv => fst kv <> [] /\ names_nonempty (snd kv)) ms /\
    Forall (fun kv => fits t (Some (snd kv))) ms /\
    forall m0, NoDup (map fst (m0 ++ m)) -> s_map (init t) (sem g t) ms m0 r0 = Ok (NoError, m0 ++ m, r0).
Proof.
  intros Ht. induction m as [|[k v] m IH]; intros Hnd Hall.
  - exists []. cbn. repeat split; try constructor. intros m0 _. rewrite app_nil_r. reflexivity.
  - inversion Hall as [|? ? [(K1 & K2 & K3) [H1 H2]] Hall']; subst. cbn [fst snd map] in *. inversion Hnd; subst.
    destruct (IH ltac:(assumption) Hall') as (ms & A1 & A2 & A3 & A4 & A5).
    destruct (render i t v) as [j|] eqn:E; [|congruence]. destruct (Ht v j H1 E) as (B1 & B2 & B3 & B4).
    exists ((k, j) :: ms). cbn [option_map somes]. split; [congruence|]. repeat (split; [constructor; cbn; auto|]).
    intros m0 N. cbn [s_map]. rewrite B4. cbn [obind is_ok]. rewrite K3, map_put_new.
    + rewrite A5; [rewrite <- app_assoc; reflexivity|]. rewrite <- app_assoc. exact N.
    + rewrite map_app in N. cbn in N. apply NoDup_remove_2 in N. intros Hin. apply N. apply in_or_app. auto.
Qed.

(** Tuples. *)
Lemma tuple_restore ts : Forall P ts -> forall vs acc,
  (fix go ts vs := match ts, vs with
        | [], [] => True
        | t :: ts, v :: vs => (storable i t v /\ render i t v <> None) /\ go ts vs
        | _, _ => False end) ts vs ->
  exists js, somes ((fix go ts vs := match ts, vs with t :: ts, v :: vs => render i t v :: go ts vs | _, _ => [] end) ts vs) = js /\
    Forall json_ok js /\ Forall names_nonempty js /\ fits (YTuple ts) (Some (JArr js)) /\
    s_tuple (map (sem g) ts) js acc (map init ts) r0 = Ok (NoError, acc ++ vs, r0).
Proof.
  induction 1 as [|t ts Ht _ IH]; intros [|v vs] acc H; try contradiction.
  - exists []. cbn. rewrite app_nil_r. repeat split; constructor.
  - destruct H as [[H1 H2] H3]. destruct (render i t v) as [j|] eqn:E; [|congruence]. destruct (Ht v j H1 E) as (B1 & B2 & B3 & B4).
    destruct (IH vs (acc ++ [v]) H3) as (js & A1 & A2 & A3 & A4 & A5). exists (j :: js). split; [cbn [somes]; congruence|].
    split; [constructor; assumption|]. split; [constructor; assumption|]. split.
    + cbn [fits hd_error tl]. cbn [fits] in A4. split; [exact B3|]. intros _. exact A4.
    + cbn [map s_tuple hd_error tl]. rewrite B4. cbn [obind is_ok]. rewrite A5, <- app_assoc. reflexivity.
Qed.

(** Structs: the members before are done, those from [k] on are still to come. *)
Lemma put_app {A} (a : list A) x y r : put (length a) x (a ++ y :: r) = a ++ x :: r.
Proof. induction a as [|z a IH]; cbn; [reflexivity|]. rewrite IH. reflexivity. Qed.
Lemma nth_app {A} (a : list A) y r : nth_error (a ++ y :: r) (length a) = Some y.
Proof. induction a as [|z a IH]; cbn; auto. Qed.

Notation stored_members := (fix go fs vs := match fs, vs with
        | [], [] => True
        | f :: fs, v :: vs =>
            ((hd [] (snd (fst f)) <> [] /\ str_body (hd [] (snd (fst f)))) /\ storable i (snd f) v /\
             (render i (snd f) v = None -> v = init (snd f) /\ is_optional (snd f) = true)) /\ go fs vs
        | _, _ => False end).
Notation rendered_members := (fix go fs vs := match fs, vs with
        | f :: fs, v :: vs => option_map (pair (hd [] (snd (fst f)))) (render i (snd f) v) :: go fs vs
        | _, _ => [] end).

Lemma flat_map_nothing {A B} (f : A -> list B) l : (forall x, f x = []) -> flat_map f l = [].
Proof. intros H. induction l as [|x l IH]; cbn; [reflexivity|]. rewrite H. exact IH. Qed.
Lemma hd_in (l : list bytes) : hd [] l <> [] -> In (hd [] l) l.
Proof. destruct l; cbn; [congruence|auto]. Qed.

Section Struct.
Context (b : list nat) (fs : list (bytes * list bytes * ty)).
Hypothesis Hb : list_sum b = length fs.
Hypothesis Hd : names_distinct fs.
Notation order := (search_order 0 b).
Notation names := (map (fun f : bytes * list bytes * ty => snd (fst f)) fs).
Notation ss := (map (fun f : bytes * list bytes * ty => sem g (snd f)) fs).

Lemma struct_restore : forall fs2 fs1 vs2 vs1 a, fs = fs1 ++ fs2 -> length vs1 = length fs1 -> Forall (fun f => P (snd f)) fs2 ->
  stored_members fs2 vs2 ->
  exists ms a', somes (rendered_members fs2 vs2) = ms /\
    Forall (fun kv => str_body (fst kv) /\ json_ok (snd kv)) ms /\ Forall (fun kv => fst kv <> [] /\ names_nonempty (snd kv)) ms /\
    Forall (fun kv => match search_both (fst kv) names order with
                      | Some i => nth i (map (fun f => fits (snd f)) fs) (fun _ => True) (Some (snd kv)) | None => True end) ms /\
    good g order names ss ms (vs1 ++ map (fun f => init (snd f)) fs2) a (vs1 ++ vs2, a') r0 /\
    (forall k f, nth_error fs2 k = Some f -> is_optional (snd f) = true \/ In (length fs1 + k) (denoted b fs ms)).
Proof.
  induction fs2 as [|f fs2 IH]; intros fs1 vs2 vs1 a Hfs Hl HP H.
  - destruct vs2; [|contradiction]. exists [], a. split; [reflexivity|]. do 3 (split; [constructor|]). split; [reflexivity|]. intros [|k] f Hf; discriminate Hf.
  - destruct vs2 as [|v vs2]; [contradiction|]. inversion HP as [|? ? Pf HP']; subst. destruct H as [((N1 & N2) & H1 & H2) H3].
    assert (Hn : nth_error (fs1 ++ f :: fs2) (length fs1) = Some f) by apply nth_app.
    assert (E1 : fs1 ++ f :: fs2 = (fs1 ++ [f]) ++ fs2) by (rewrite <- app_assoc; reflexivity).
    assert (L1 : forall x : val, length (vs1 ++ [x]) = length (fs1 ++ [f])) by (intros x; rewrite !app_length; cbn; lia).
    destruct (render i (snd f) v) as [j|] eqn:E.
    + destruct (Pf v j H1 E) as (B1 & B2 & B3 & B4).
      assert (Hm : search_both (hd [] (snd (fst f))) (map (fun f : bytes * list bytes * ty => snd (fst f)) (fs1 ++ f :: fs2)) order = Some (length fs1)).
      { apply (member_named_spec b (fs1 ++ f :: fs2) (hd [] (snd (fst f))) (length fs1) f Hb Hd Hn). apply hd_in. exact N1. }
      destruct (IH (fs1 ++ [f]) vs2 (vs1 ++ [v]) (put (length fs1) true a) E1 (L1 v) HP' H3) as (ms & a' & A1 & A2 & A3 & A4 & A5 & A6).
      exists ((hd [] (snd (fst f)), j) :: ms), a'. cbn [option_map somes].
      split; [f_equal; exact A1|]. split; [constructor; [cbn; auto|exact A2]|]. split; [constructor; [cbn; auto|exact A3]|]. split; [|split].
      * constructor; [|exact A4]. cbn [fst snd]. rewrite Hm. rewrite map_app. cbn [map].
        replace (length fs1) with (length (map (fun f : bytes * list bytes * ty => fits (snd f)) fs1)) by apply map_length.
        rewrite nth_middle. exact B3.
      * apply good_cons; [apply ss_appends|]. exists (vs1 ++ v :: map (fun f => init (snd f)) fs2, put (length fs1) true a), r0, r0.
        split; [|split; [|reflexivity]].
        -- apply good_one. rewrite Hm. exists (sem g (snd f)), (init (snd f)), v. rewrite nth_error_map, Hn.
           split; [reflexivity|]. cbn [map]. rewrite <- Hl, nth_app, put_app. auto.
        -- cbn [fst snd]. rewrite <- !app_assoc in A5. exact A5.
      * intros [|k] f' Hf'.
        -- right. unfold denoted, member_named. cbn [flat_map fst]. rewrite Hm. cbn. left. lia.
        -- destruct (A6 k f' Hf') as [K|K]; [left; exact K|right]. unfold denoted in *. cbn [flat_map]. apply in_or_app. right.
           rewrite app_length in K. cbn in K. replace (length fs1 + S k) with (length fs1 + 1 + k) by lia. exact K.
    + destruct (H2 eq_refl) as [-> Ho].
      destruct (IH (fs1 ++ [f]) vs2 (vs1 ++ [init (snd f)]) a E1 (L1 _) HP' H3) as (ms & a' & A1 & A2 & A3 & A4 & A5 & A6).
      exists ms, a'. cbn [option_map somes]. split; [exact A1|]. split; [exact A2|]. split; [exact A3|]. split; [exact A4|]. split.
      * rewrite <- !app_assoc in A5. exact A5.
      * intros [|k] f' Hf'; [injection Hf' as <-; left; exact Ho|].
        destruct (A6 k f' Hf') as [K|K]; [left; exact K|right].
        rewrite app_length in K. cbn in K. replace (length fs1 + S k) with (length fs1 + 1 + k) by lia. exact K.
Qed.

Lemma struct_restored vs : Forall (fun f => P (snd f)) fs -> stored_members fs vs ->
  restores g (YStruct b fs) (VList vs) (JObj (somes (rendered_members fs vs))).
Proof.
  intros HP H. destruct (struct_restore fs [] vs [] (repeat false (length fs)) eq_refl eq_refl HP H) as (ms & a' & A1 & A2 & A3 & A4 & A5 & A6).
  rewrite A1. split; [constructor; exact A2|]. split; [constructor; exact A3|]. split; [exact A4|].
  cbn [app] in A5. cbn [init]. rewrite (good_struct g b fs _ _ _ _ A5).
  assert (E : absent_required b fs ms = []).
  { unfold absent_required. apply flat_map_nothing. intros k. destruct (nth_error fs k) as [f|] eqn:Ef; [|reflexivity].
    destruct (A6 k f Ef) as [K|K]; [rewrite K; reflexivity|]. cbn in K.
    replace (existsb (Nat.eqb k) (denoted b fs ms)) with true; [rewrite orb_true_r; reflexivity|].
    symmetry. apply existsb_exists. exists k. split; [exact K|apply Nat.eqb_refl]. }
  rewrite E. destruct (pc_track g); reflexivity.
Qed.
End Struct.

Lemma type_null oj : type_eqb (first_type oj) TNull = true -> is_null oj.
Proof. unfold is_null. destruct oj as [[[]| |]|]; cbn; congruence. Qed.
Lemma not_null oj : ~ is_null oj -> type_eqb (first_type oj) TNull = false.
Proof. intros H. destruct (type_eqb (first_type oj) TNull) eqn:E; [|reflexivity]. elim H. apply type_null, E. Qed.

Lemma lift_ok {A B} (f : A -> B) x e a r : x = Ok (e, a, r) -> lift f x = Ok (e, f a, r).
Proof. intros ->. reflexivity. Qed.

Lemma all_restored t : P t.
Proof.
  induction t as [|it|sg|hr tp| |ns u|t IH|t IH|t IH|t IH|t IH|u t IH|t IH|t IH|t IH|n t IH|n t IH|t IH|ts IH|t IH|b fs IH] using ty_rect_nested;
    intros v j Hs Hr; cbn [render] in Hr; cbn [storable] in Hs.
  - (* bool *) destruct v as [b| | | | | | | |]; try contradiction. injection Hr as <-.
    destruct b; (split; [repeat constructor|]; split; [constructor|]; split; [exact I|reflexivity]).
  - (* int *) destruct v as [|z| | | | | | |]; try contradiction. destruct Hs as [Hs1 Hs2].
    destruct (int_round_trip it z Hs1) as (text & E1 & E2 & E3); [rewrite i_min_least, i_max_greatest; exact Hs2|].
    rewrite E1 in Hr. injection Hr as <-. split; [constructor; apply rfc_number_text, E2|]. split; [constructor|]. split; [exact I|].
    cbn [sem first_value scalar_value]. rewrite E3. reflexivity.
  - (* floating point *) destruct v as [| |s b| | | | | |]; try contradiction. destruct Hs as [-> Hs].
    destruct (fp_round_trip sg b Hs) as (text & E1 & E2 & E3).
    rewrite E1 in Hr. injection Hr as <-. split; [constructor; apply rfc_number_text, E2|]. split; [constructor|]. split; [cbn; congruence|].
    cbn [sem first_value scalar_value]. rewrite E3. reflexivity.
  - (* time point *) destruct v as [|z| | | | | | |]; try contradiction. destruct Hs as [Hs1 Hs2].
    destruct (time_point_round_trip hr tp z Hs1 Hs2) as (text & E1 & E2 & E3).
    rewrite E1 in Hr. injection Hr as <-. split; [constructor; apply rfc_number_text, E2|]. split; [constructor|]. split; [cbn; rewrite E3; discriminate|].
    cbn [sem init first_value scalar_value]. rewrite E3. reflexivity.
  - (* string *) destruct v as [| | |s| | | | |]; try contradiction. injection Hr as <-.
    split; [constructor; apply escaped_body|]. split; [constructor|]. split; [exact I|].
    cbn [sem first_value scalar_value]. rewrite escape_round_trip. reflexivity.
  - (* enum *) destruct v as [|z| | | | | | |]; try contradiction. injection Hr as <-. destruct Hs as (Hz & Hnd & Hbody).
    assert (Hk : Z.to_nat z < length ns) by lia.
    split; [constructor; rewrite Forall_forall in Hbody; apply Hbody, nth_In, Hk|]. split; [constructor|]. split; [exact I|].
    cbn [sem first_type scalar_type first_value scalar_value]. rewrite index_nth by assumption. rewrite Z2Nat.id by lia. reflexivity.
  - (* Nullable *) destruct Hs as [Hs Hn]. destruct (IH v j Hs Hr) as (A1 & A2 & A3 & A4).
    split; [exact A1|]. split; [exact A2|]. split; [exact A3|]. cbn [sem init].
    destruct (type_eqb (first_type (Some j)) TNull) eqn:E; [|exact A4]. apply type_null in E.
    rewrite Hr in Hn. rewrite (Hn E). reflexivity.
  - (* NullableChecked *) destruct v as [| | | |f d| | | |]; try contradiction. destruct f.
    + injection Hr as <-. subst d. split; [repeat constructor|]. split; [constructor|]. split; [apply fits_null|]. reflexivity.
    + destruct Hs as [Hs Hn]. destruct (IH d j Hs Hr) as (A1 & A2 & A3 & A4).
      split; [exact A1|]. split; [exact A2|]. split; [exact A3|]. cbn [sem init].
      rewrite Hr in Hn. rewrite (not_null _ Hn). exact (lift_ok _ _ _ _ _ A4).
  - (* Optional *) exact (IH v j Hs Hr).
  - (* OptionalChecked *) destruct v as [| | | |f d| | | |]; try contradiction. destruct f; [|discriminate Hr].
    destruct (IH d j Hs Hr) as (A1 & A2 & A3 & A4).
    split; [exact A1|]. split; [exact A2|]. split; [exact A3|]. cbn [sem init]. exact (lift_ok _ _ _ _ _ A4).
  - (* std::optional *) destruct v as [| | | | |o| | |]; try contradiction. destruct o as [d|]; [|discriminate Hr].
    destruct (IH d j Hs Hr) as (A1 & A2 & A3 & A4).
    split; [exact A1|]. split; [exact A2|]. split; [exact A3|]. cbn [sem init]. exact (lift_ok _ _ _ _ _ A4).
  - (* pointers *) destruct v as [| | | | |o| | |]; try contradiction. destruct o as [d|].
    + destruct Hs as [Hs Hn]. destruct (IH d j Hs Hr) as (A1 & A2 & A3 & A4).
      split; [exact A1|]. split; [exact A2|]. split; [exact A3|]. cbn [sem init].
      rewrite Hr in Hn. rewrite (not_null _ Hn). exact (lift_ok _ _ _ _ _ A4).
    + injection Hr as <-. split; [repeat constructor|]. split; [constructor|]. split; [apply fits_null|]. reflexivity.
  - (* Silent *) destruct (is_silent v); [discriminate Hr|]. exact (IH v j Hs Hr).
  - (* vector *) destruct v as [| | | | | |l| |]; try contradiction. injection Hr as <-.
    destruct (elements t l IH Hs) as (js & E & A2 & A3 & A4 & A5 & A6). rewrite E.
    split; [constructor; exact A3|]. split; [constructor; exact A4|]. split; [exact A5|]. cbn [sem init s_array].
    apply lift_ok. apply s_vec_spec; [apply sem_appends|]. exists l. auto.
  - (* OneOrMany *) destruct v as [| | | | | |l| |]; try contradiction. destruct Hs as [Hs Hone].
    destruct l as [|x [|y l]]; [discriminate Hr| |].
    + inversion Hs as [|? ? [H1 H2] _]; subst. destruct (IH x j H1 Hr) as (A1 & A2 & A3 & A4).
      assert (Hj : match j with JArr _ => False | _ => True end).
      { destruct j as [s|els|ms]; auto. apply Hone. exists els. exact Hr. }
      split; [exact A1|]. split; [exact A2|]. split; [destruct j; try contradiction; exact A3|].
      cbn [sem init]. destruct j as [s|els|ms]; try contradiction; exact (lift_ok _ _ _ _ _ A4).
    + destruct (elements t (x :: y :: l) IH Hs) as (js & E & A2 & A3 & A4 & A5 & A6).
      rewrite E in Hr. injection Hr as <-.
      split; [constructor; exact A3|]. split; [constructor; exact A4|]. split; [exact A5|]. cbn [sem init].
      apply lift_ok. apply s_vec_spec; [apply sem_appends|]. exists (x :: y :: l). auto.
  - (* T[N] *) destruct v as [| | | | | |l| |]; try contradiction. injection Hr as <-. destruct Hs as [Hl Hs].
    destruct (elements t l IH Hs) as (js & E & A2 & A3 & A4 & A5 & A6). rewrite E.
    split; [constructor; exact A3|]. split; [constructor; exact A4|]. split.
    { cbn [fits]. split; [rewrite firstn_all2 by lia; exact A5|lia]. }
    cbn [sem init s_array]. apply lift_ok. apply s_fixed_spec; [apply sem_appends|rewrite repeat_length; lia|].
    exists l. split; [reflexivity|]. replace n with (length js) by lia. exact A6.
  - (* ArrayVariableContent *) destruct v as [| | | | | | |size slots|]; try contradiction. injection Hr as <-.
    destruct Hs as (Hl & Hsz & Hrest & Hs).
    destruct (elements t _ IH Hs) as (js & E & A2 & A3 & A4 & A5 & A6). rewrite E.
    assert (Hjs : length js = size) by (rewrite A2, firstn_length; lia).
    split; [constructor; exact A3|]. split; [constructor; exact A4|]. split.
    { cbn [fits]. rewrite firstn_all2 by lia. exact A5. }
    cbn [sem init s_array].
    assert (K : s_var (sem g t) js 0 [] (repeat (init t) n) r0 = Ok (NoError, (size, slots), r0)).
    { apply s_var_spec; [apply sem_appends|]. exists (firstn size slots). rewrite repeat_length.
      assert (R : forall a k, a <= k -> repeat (init t) k = repeat (init t) a ++ repeat (init t) (k - a)).
      { intros a k Ha. rewrite <- repeat_app. f_equal. lia. }
      rewrite (R (length js) n) by lia. split; [lia|]. split.
      - rewrite firstn_app, repeat_length, Nat.sub_diag, firstn_O, app_nil_r, firstn_all2 by (rewrite repeat_length; lia). exact A6.
      - rewrite skipn_app, repeat_length, Nat.sub_diag, skipn_O, skipn_all2 by (rewrite repeat_length; lia).
        cbn [length app]. rewrite Hjs. f_equal.
        + destruct (Nat.ltb_spec size n); lia.
        + rewrite <- Hrest. symmetry. apply firstn_skipn. }
    exact (lift_ok _ _ _ _ _ K).
  - (* set *) destruct v as [| | | | | |l| |]; try contradiction. injection Hr as <-. destruct Hs as [Hnd Hs].
    destruct (elements t l IH Hs) as (js & E & A2 & A3 & A4 & A5 & A6). rewrite E.
    split; [constructor; exact A3|]. split; [constructor; exact A4|]. split; [exact A5|]. cbn [sem init s_array].
    apply lift_ok. apply s_set_spec; [apply sem_appends|constructor|]. exists l. auto.
  - (* tuple *) destruct v as [| | | | | |vs| |]; try contradiction. injection Hr as <-.
    destruct (tuple_restore ts IH vs [] Hs) as (js & E & A2 & A3 & A4 & A5). rewrite E.
    split; [constructor; exact A2|]. split; [constructor; exact A3|]. split; [exact A4|]. cbn [sem init s_array].
    exact (lift_ok _ _ _ _ _ A5).
  - (* map *) destruct v as [| | | | | | | |m]; try contradiction. injection Hr as <-. destruct Hs as [Hnd Hs].
    destruct (map_restore t IH m Hnd Hs) as (ms & E & A2 & A3 & A4 & A5). rewrite E.
    split; [constructor; exact A2|]. split; [constructor; exact A3|]. split; [exact A4|]. cbn [sem init s_object].
    exact (lift_ok _ _ _ _ _ (A5 [] Hnd)).
  - (* struct *) destruct v as [| | | | | |vs| |]; try contradiction. injection Hr as <-. destruct Hs as (Hb & Hd & Hs).
    exact (struct_restored b fs Hb Hd vs IH Hs).
Qed.
End Restore.

(** ** What is written *)
Definition name_of (n : wname) : option bytes := match wn n with [] => None | k => Some k end.
Definition strip (tk : token) : token :=
  mkTok (tk_name tk) (tk_value tk) (match dr_bytes (tk_name tk) with [] => TAscii | _ => TString end) (tk_value_type tk).
Definition plain_name (n : wname) : Prop := wn_type n = TString \/ wn_type n = TAscii.
Definition plain_tok (tk : token) : Prop := tk_name_type tk = TString \/ tk_name_type tk = TAscii.

Definition tokens_of (name : option bytes) (oj : option json) : list stoken :=
  match oj with Some j => doc_tokens name j | None => [] end.
(** [w] writes the value [oj] and leaves no name where there was none. *)
Definition writes_as (w : wname -> list token * wname) (oj : option json) : Prop :=
  forall n, plain_name n -> exists l n', w n = (l, n') /\ map (fun tk => tok_view (strip tk)) l = tokens_of (name_of n) oj /\
    Forall plain_tok l /\ plain_name n' /\ (wn n = [] -> wn n' = []).

Lemma view_wtok n v t : tok_view (strip (wtok n v t)) = st_make (name_of n) v t.
Proof. unfold tok_view, strip, wtok, name_of, st_make. cbn. destruct (wn n); reflexivity. Qed.

Lemma writes_one v t s : scalar_value s = v -> scalar_type s = t -> writes_as (write1 v t) (Some (JScalar s)).
Proof.
  intros <- <- n Hn. exists [wtok n (scalar_value s) (scalar_type s)], n. split; [reflexivity|]. split.
  - cbn [map tokens_of doc_tokens]. rewrite view_wtok. reflexivity.
  - split; [constructor; [exact Hn|constructor]|]. auto.
Qed.
Lemma writes_nothing : writes_as (fun n => ([], n)) None.
Proof. intros n Hn. exists [], n. repeat split; auto. Qed.

Lemma writes_list ws ojs : Forall2 writes_as ws ojs -> forall n, plain_name n -> wn n = [] ->
  exists l n', from_list ws n = (l, n') /\ map (fun tk => tok_view (strip tk)) l = flat_map (doc_tokens None) (somes ojs) /\
    Forall plain_tok l /\ plain_name n' /\ wn n' = [].
Proof.
  induction 1 as [|w oj ws ojs Hw _ IH]; intros n Hn Hname; cbn [from_list].
  - exists [], n. auto.
  - destruct (Hw n Hn) as (l1 & n1 & -> & A1 & A2 & A3 & A4). destruct (IH n1 A3 (A4 Hname)) as (l2 & n2 & -> & B1 & B2 & B3 & B4).
    exists (l1 ++ l2), n2. split; [reflexivity|]. rewrite map_app, A1, B1. unfold name_of. rewrite Hname. split.
    + destruct oj; reflexivity.
    + split; [apply Forall_app; auto|auto].
Qed.

Lemma writes_array ws ojs : Forall2 writes_as ws ojs -> writes_as (from_array ws) (Some (JArr (somes ojs))).
Proof.
  intros H n Hn. unfold from_array. destruct (writes_list ws ojs H (noname n) Hn eq_refl) as (l & n' & -> & A1 & A2 & A3 & A4).
  eexists. exists (noname n'). split; [reflexivity|]. split.
  - cbn [map tokens_of doc_tokens]. rewrite map_app, A1. cbn [map]. rewrite !view_wtok. reflexivity.
  - split; [|auto]. constructor; [exact Hn|]. apply Forall_app. split; [exact A2|]. constructor; [exact A3|constructor].
Qed.

(** Members of an object. *)
Lemma writes_members ws kojs : Forall2 (fun w koj => exists t w0, (t = TString \/ t = TAscii) /\ fst koj <> [] /\ w = named (fst koj) t w0 /\ writes_as w0 (snd koj)) ws kojs ->
  forall n, plain_name n ->
  exists l n', from_list ws n = (l, n') /\
    map (fun tk => tok_view (strip tk)) l =
      flat_map (fun kv => doc_tokens (Some (fst kv)) (snd kv)) (somes (map (fun koj => option_map (pair (fst koj)) (snd koj)) kojs)) /\
    Forall plain_tok l /\ plain_name n'.
Proof.
  induction 1 as [|w [k oj] ws kojs (t & w0 & Ht & Hk & -> & Hw) _ IH]; intros n Hn; cbn [from_list].
  - exists [], n. auto.
  - cbn [fst snd] in *. unfold named. destruct (Hw (mkWn k t) Ht) as (l1 & n1 & -> & A1 & A2 & A3 & _).
    destruct (IH n1 A3) as (l2 & n2 & -> & B1 & B2 & B3).
    exists (l1 ++ l2), n2. split; [reflexivity|]. rewrite map_app, A1, B1. cbn [map fst snd]. split.
    + unfold name_of. cbn [wn]. destruct k as [|c k]; [congruence|]. destruct oj; reflexivity.
    + split; [apply Forall_app; auto|auto].
Qed.
Lemma writes_object ws kojs : Forall2 (fun w koj => exists t w0, (t = TString \/ t = TAscii) /\ fst koj <> [] /\ w = named (fst koj) t w0 /\ writes_as w0 (snd koj)) ws kojs ->
  writes_as (from_object ws) (Some (JObj (somes (map (fun koj => option_map (pair (fst koj)) (snd koj)) kojs)))).
Proof.
  intros H n Hn. unfold from_object. destruct (writes_members ws kojs H n Hn) as (l & n' & -> & A1 & A2 & A3).
  eexists. exists (mkWn [] TString). split; [reflexivity|]. split.
  - cbn [map tokens_of doc_tokens]. rewrite map_app, A1. cbn [map]. rewrite !view_wtok. reflexivity.
  - split; [|split; [left; reflexivity|reflexivity]]. constructor; [exact Hn|]. apply Forall_app. split; [exact A2|].
    constructor; [left; reflexivity|constructor].
Qed.

Lemma all_written_as i t : forall v, storable i t v -> writes_as (from i t v) (render i t v).
Proof.
  assert (L : forall t l, (forall v, storable i t v -> writes_as (from i t v) (render i t v)) ->
    Forall (fun x => storable i t x /\ render i t x <> None) l -> Forall2 writes_as (map (from i t) l) (map (render i t) l)).
  { intros t0 l H. induction 1 as [|x l [Hx _] _ IH]; cbn; constructor; auto. }
  induction t as [|it|sg|hr tp| |ns u|t IH|t IH|t IH|t IH|t IH|u t IH|t IH|t IH|t IH|n t IH|n t IH|t IH|ts IH|t IH|b fs IH] using ty_rect_nested;
    intros v Hs; cbn [storable] in Hs; cbn [from render].
  - destruct v as [b| | | | | | | |]; try contradiction. destruct b; apply writes_one; reflexivity.
  - destruct v as [|z| | | | | | |]; try contradiction. destruct (int_from it z); cbn [option_map]; [apply writes_one; reflexivity|apply writes_nothing].
  - destruct v as [| |s b| | | | | |]; try contradiction. destruct Hs as [-> Hs].
    destruct (fp_round_trip sg b Hs) as (text & -> & _). apply writes_one; reflexivity.
  - destruct v as [|z| | | | | | |]; try contradiction. destruct Hs as [Hs1 Hs2].
    destruct (time_point_round_trip hr tp z Hs1 Hs2) as (text & -> & _). apply writes_one; reflexivity.
  - destruct v as [| | |s| | | | |]; try contradiction. apply writes_one; reflexivity.
  - destruct v as [|z| | | | | | |]; try contradiction. apply writes_one; reflexivity.
  - apply IH, Hs.
  - destruct v as [| | | |f d| | | |]; try contradiction. destruct f; [apply writes_one; reflexivity|]. apply IH, Hs.
  - apply IH, Hs.
  - destruct v as [| | | |f d| | | |]; try contradiction. destruct f; [|apply writes_nothing]. apply IH, Hs.
  - destruct v as [| | | | |o| | |]; try contradiction. destruct o as [d|]; [|apply writes_nothing]. apply IH, Hs.
  - destruct v as [| | | | |o| | |]; try contradiction. destruct o as [d|]; [|apply writes_one; reflexivity]. apply IH, Hs.
  - destruct (is_silent v); [apply writes_nothing|]. apply IH, Hs.
  - destruct v as [| | | | | |l| |]; try contradiction. apply writes_array. apply L; assumption.
  - destruct v as [| | | | | |l| |]; try contradiction. destruct Hs as [Hs _]. cbn [vals_of].
    destruct l as [|x [|y l]]; [apply writes_nothing| |].
    + inversion Hs as [|? ? [H1 _] _]; subst. apply IH, H1.
    + apply (writes_array (map (from i t) (x :: y :: l)) (map (render i t) (x :: y :: l))). apply L; assumption.
  - destruct v as [| | | | | |l| |]; try contradiction. apply writes_array. apply L; [assumption|apply Hs].
  - destruct v as [| | | | | | |size slots|]; try contradiction. apply writes_array. apply L; [assumption|apply Hs].
  - destruct v as [| | | | | |l| |]; try contradiction. apply writes_array. apply L; [assumption|apply Hs].
  - destruct v as [| | | | | |l| |]; try contradiction. cbn [vals_of]. apply writes_array. revert l Hs.
    induction IH as [|t ts Ht _ IH]; intros [|v vs] Hs; try contradiction; constructor.
    + apply Ht, Hs.
    + apply IH, Hs.
  - destruct v as [| | | | | | | |m]; try contradiction. destruct Hs as [_ Hs].
    match goal with |- writes_as _ (Some (JObj (somes ?l))) =>
      replace l with (map (fun koj => option_map (pair (fst koj)) (snd koj)) (map (fun kv => (fst kv, render i t (snd kv))) m)) by apply map_map end.
    apply writes_object. induction Hs as [|[k v] m [(K & _) [Hv _]] _ IHm]; cbn [map fst snd] in *; constructor; [|exact IHm].
    exists TString, (from i t v). split; [auto|]. split; [exact K|]. split; [reflexivity|]. apply IH, Hv.
  - destruct v as [| | | | | |vs| |]; try contradiction. destruct Hs as (_ & _ & Hs). cbn [vals_of].
    set (kojs := (fix go fs vs := match fs, vs with
                  | f :: fs, v :: vs => (hd [] (snd (fst f)), render i (snd f) v) :: go fs vs
                  | _, _ => [] end) fs vs).
    match goal with |- writes_as _ (Some (JObj (somes ?l))) => replace l with (map (fun koj => option_map (pair (fst koj)) (snd koj)) kojs) end.
    + apply writes_object. subst kojs. revert vs Hs. induction IH as [|f fs Hf _ IH]; intros [|v vs] Hs; try contradiction; constructor.
      * destruct Hs as [((K & _) & Hv & _) _]. exists TAscii, (from i (snd f) v). split; [auto|]. split; [exact K|]. split; [reflexivity|]. apply Hf, Hv.
      * apply IH, Hs.
    + subst kojs. clear. revert vs. induction fs as [|f fs IH]; intros [|v vs]; try reflexivity. cbn [map fst snd]. f_equal. apply IH.
Qed.

(** Names of type Ascii are written like others unless setConvertAsciiToString(false). *)
Lemma strip_written : forall ts f st o, Forall plain_tok ts -> so_ascii o = true ->
  texts (map strip ts) (f, st, o) = texts ts (f, st, o) /\ results (map strip ts) (f, st, o) = results ts (f, st, o).
Proof.
  induction ts as [|tk ts IH]; intros f st o H Ho; [auto|]. inversion H as [|? ? Htk Hts]; subst. cbn [map texts results].
  assert (R : refused (strip tk) (f, st, o) = refused tk (f, st, o)) by reflexivity.
  assert (A : after (strip tk) (f, st, o) = after tk (f, st, o)) by reflexivity.
  assert (T : token_text (strip tk) (f, st, o) = token_text tk (f, st, o)).
  { unfold token_text. change (entry (strip tk) o) with (entry tk o).
    assert (Ho' : so_ascii (entry tk o) = true) by (unfold entry; destruct (is_end _); exact Ho).
    change (tk_value_type (strip tk)) with (tk_value_type tk). change (tk_value (strip tk)) with (tk_value tk).
    do 2 f_equal. unfold n_text. change (tk_name (strip tk)) with (tk_name tk). cbn [tk_name_type strip].
    destruct (dr_bytes (tk_name tk)) as [|c k]; [reflexivity|]. cbn [nonempty length Nat.eqb negb]. f_equal.
    unfold v_text. rewrite Ho'. destruct Htk as [-> | ->]; reflexivity. }
  rewrite R, A, T. destruct (after tk (f, st, o)) as [[f' st'] o'] eqn:Ea.
  assert (Ho' : so_ascii o' = true).
  { unfold after in Ea. injection Ea as _ _ <-. unfold leave, entry. destruct (is_start _), (is_end _); exact Ho. }
  destruct (IH f' st' o' Hts Ho') as [I1 I2]. destruct (IH f st o Hts Ho) as [J1 J2].
  rewrite I1, I2, J1, J2. auto.
Qed.

(** What serializeStruct returns. *)
Lemma written_text i so t v j : writes_as (from i t v) (Some j) -> json_ok j -> names_nonempty j -> is_container j -> options_made so -> so_ascii so = true ->
  (so_depth so + N.of_nat (nesting j) <= 255)%N ->
  exists text, serializeStruct i so t v = Ok text /\ doc_text plain j text.
Proof.
  intros W Hok Hnn Hc Hso Ha Hd.
  destruct (W wname_default (or_introl eq_refl)) as (l & n' & E & Hv & Hp & _).
  cbn [tokens_of] in Hv. change (name_of wname_default) with (@None bytes) in Hv.
  rewrite <- map_map in Hv.
  destruct (all_written j Hok Hnn (map strip l) None true true so Hv I (options_good so Hso) Hd) as (w & w3 & t' & Hw & _ & Ht & B1 & B2 & _).
  unfold serializeStruct. rewrite E. cbn [fst].
  destruct (ser_writes_generous l (ser_make so 4096 (reformat_supply 4096))) as (s & R1 & R2 & R3 & R4 & R5).
  { split; cbn -[Nat.mul]; [lia|constructor]. }
  { intros k. cbn -[Nat.mul Nat.pow]. unfold reformat_supply. apply Nat.mul_pos_pos; [lia|]. assert (2 ^ k <> 0) by (apply Nat.pow_nonzero; discriminate). lia. }
  rewrite R1. cbn [obind]. eexists. split; [reflexivity|]. rewrite R5.
  change (cfg_of (ser_make so 4096 (reformat_supply 4096))) with (true, true, so).
  destruct (strip_written l true true so Hp Ha) as [<- _]. rewrite B1. cbn [start_comma nametext app].
  split; [exact Hc|]. exists w, t', []. rewrite app_nil_r. repeat split; auto. constructor.
Qed.

Lemma serialized i so t v j : storable i t v -> render i t v = Some j -> is_container j -> options_made so -> so_ascii so = true ->
  (so_depth so + N.of_nat (nesting j) <= 255)%N ->
  exists text, serializeStruct i so t v = Ok text /\ doc_text plain j text.
Proof.
  intros Hs Hr Hc Hso Ha Hd. destruct (all_restored cfg_default i t v j Hs Hr) as (Hok & Hnn & _).
  apply written_text; auto. rewrite <- Hr. apply all_written_as. exact Hs.
Qed.

Lemma round_trip i so o g t v j : ty_ok t -> storable i t v -> render i t v = Some j -> is_container j -> options_made so -> so_ascii so = true ->
  (so_depth so + N.of_nat (nesting j) <= 255)%N -> o_nl o = false ->
  exists text, serializeStruct i so t v = Ok text /\ doc_text plain j text /\ parses o g t (init t) text NoError v ([], []).
Proof.
  intros Ht Hs Hr Hc Hso Ha Hd Ho. destruct (serialized i so t v j Hs Hr Hc Hso Ha Hd) as (text & E & D).
  destruct (all_restored g i t v j Hs Hr) as (_ & _ & Hf & Hsem).
  exists text. split; [exact E|]. split; [exact D|]. apply (parses_sem o g t (init t) j); auto. apply init_shaped.
Qed.

(** A map with one key that is string contents. *)
Lemma key_unescaped i so o g t k v j : ty_ok t -> k <> [] -> str_body k -> storable i t v -> render i t v = Some j ->
  options_made so -> so_ascii so = true -> o_nl o = false -> (so_depth so + N.of_nat (S (nesting j)) <= 255)%N ->
  exists text, serializeStruct i so (YMap t) (VMap [(k, v)]) = Ok text /\
    parses o g (YMap t) (VMap []) text NoError (VMap [(escapes_in k, v)]) ([], []).
Proof.
  intros Ht Hk Hb Hs Hr Hso Ha Ho Hd. destruct (all_restored g i t v j Hs Hr) as (Hok & Hnn & Hf & Hsem).
  assert (W : writes_as (from i (YMap t) (VMap [(k, v)])) (Some (JObj [(k, j)]))).
  { cbn [from map fst snd]. apply (writes_object [named k TString (from i t v)] [(k, Some j)]). constructor; [|constructor].
    exists TString, (from i t v). cbn [fst snd]. repeat split; auto. rewrite <- Hr. apply all_written_as. exact Hs. }
  destruct (written_text i so (YMap t) (VMap [(k, v)]) (JObj [(k, j)]) W) as (text & E & D); auto.
  { constructor. constructor; [auto|constructor]. }
  { constructor. constructor; [auto|constructor]. }
  { exact I. }
  { cbn. lia. }
  exists text. split; [exact E|]. apply (parses_sem o g (YMap t) (VMap []) (JObj [(k, j)])); auto.
  - constructor.
  - cbn. constructor; [exact Hf|constructor].
  - cbn [sem s_object s_map]. rewrite Hsem. reflexivity.
Qed.
