(** Raw capture: the copies hold the text that was passed over. *)
From Verif Require Import Base ScanModel ScanProofs TokModel TokLoops TokProofs TokSafe TokSpec TokSpecProofs TokSlice CopyModel CopySpec.
From Coq Require Import Lia ZArith ZifyBool.
Local Open Scope nat_scope.

(** ** Where a bracket token is *)

Definition im_ok (m : interm) : Prop :=
  is_bracket (im_name_type m) = false /\ is_bracket (im_data_type m) = false /\
  (im_data_set m = false -> im_data m = []).

Definition im_inv (s : tstate) : Prop :=
  im_ok (t_im s) \/ (t_cont s = false /\ im_active (t_im s) = true).

Lemma skipn_cons_nth {A} (l : list A) : forall n x tl, skipn n l = x :: tl -> nth_error l n = Some x /\ skipn (S n) l = tl.
Proof.
  induction l as [|a l IH]; intros [|n] x tl H; cbn in *; try discriminate.
  - injection H as -> ->. auto.
  - destruct (IH n x tl H) as [H1 H2]. split; [exact H1|]. destruct l; exact H2.
Qed.
Lemma nth_skipn_cons {A} (l : list A) : forall n x, nth_error l n = Some x -> skipn n l = x :: skipn (S n) l.
Proof.
  induction l as [|a l IH]; intros [|n] x H; cbn in *; try discriminate.
  - injection H as ->. reflexivity.
  - rewrite (IH n x H). destruct l; reflexivity.
Qed.
Lemma nth_error_skipn_plus {A} (l : list A) : forall st n, nth_error (skipn st l) n = nth_error l (st + n).
Proof. induction l as [|a l IH]; intros [|st] n; cbn; try reflexivity; [destruct n; reflexivity|apply IH]. Qed.
Lemma skipn_plus {A} (a b : nat) (l : list A) : skipn a (skipn b l) = skipn (b + a) l.
Proof. revert l. induction b as [|b IH]; intros l; [reflexivity|]. destruct l; cbn; [destruct a; reflexivity|apply IH]. Qed.

Lemma single_bracket c t : single_char_type c = Some t -> t = TString \/ is_bracket t = true.
Proof.
  unfold single_char_type. repeat (destruct (Byte.eqb _ _); [intros [= <-]; auto|]). discriminate.
Qed.

Lemma fsnv_byte o buf : forall f rest pos cur t ahead cur1,
  rest = skipn pos buf -> cur <= pos ->
  fsnv_loop f o rest pos cur = FS_ok t ahead cur1 ->
  cur <= cur1 /\ (is_bracket t = true ->
    exists c, nth_error buf (cur1 + ahead) = Some c /\ single_char_type c = Some t).
Proof.
  induction f as [|f IH]; intros rest pos cur t ahead cur1 Hr Hc E; [discriminate|]. cbn [fsnv_loop] in E.
  destruct rest as [|c tl]; [discriminate|].
  destruct (skipn_cons_nth buf pos c tl (eq_sym Hr)) as [Hn Htl].
  destruct (_ && _ && _).
  { destruct (skipComment _ _ _) as [k|]; [|discriminate].
    apply IH in E; [|rewrite <- Htl, !skipn_plus; f_equal; lia|apply le_n].
    destruct E as [A B]. split; [lia|exact B]. }
  destruct (single_char_type c) as [t0|] eqn:Ec.
  { injection E as <- <- <-. split; [lia|]. intros _. exists c. split; [|exact Ec].
    replace (cur + (pos - cur)) with pos by lia. exact Hn. }
  destruct (has c _); [injection E as <- <- <-; split; [lia|discriminate]|].
  destruct (has c _); [injection E as <- <- <-; split; [lia|discriminate]|].
  destruct (_ =? 0)%N; [discriminate|].
  apply (IH tl (S pos) cur t ahead cur1); [congruence|lia|exact E].
Qed.

Lemma findStart_byte o buf cur t ahead cur1 :
  findStartOfNextValue o buf cur = FS_ok t ahead cur1 ->
  cur <= cur1 /\ (is_bracket t = true ->
    exists c, nth_error buf (cur1 + ahead) = Some c /\ single_char_type c = Some t).
Proof.
  unfold findStartOfNextValue. rewrite skipn_plus. set (k := ws_skip _ _).
  destruct (skipn (cur + k) buf) as [|c tl] eqn:Hr.
  { intros E. apply (fsnv_byte o buf _ [] (cur + k) cur t ahead cur1) in E; auto; lia. }
  destruct (single_char_type c) as [t0|] eqn:Ec.
  - intros [= <- <- <-]. split; [lia|]. intros _. exists c. split; [|exact Ec].
    replace (cur + (cur + k - cur)) with (cur + k) by lia. apply (skipn_cons_nth buf _ c tl Hr).
  - intros E. rewrite <- Hr in E. apply (fsnv_byte o buf _ _ (cur + k) cur t ahead cur1) in E; auto; lia.
Qed.

Lemma finish_type o buf off size0 ty s s1 e x t :
  finish_value o buf off size0 ty s = Ok (s1, e, x, t) -> t = ty.
Proof.
  unfold finish_value. destruct (t_prop s); try (intros [= <- <- <- <-]; reflexivity).
  destruct ty; try (intros [= <- <- <- <-]; reflexivity).
  - destruct (findStringEnd _ _ _) as [[k|] es]; [|intros [= <- <- <- <-]; reflexivity].
    destruct (_ <? _); [discriminate|]. intros [= <- <- <- <-]. reflexivity.
  - destruct (findAsciiEnd _ _); [|intros [= <- <- <- <-]; reflexivity].
    destruct (_ <? _); [discriminate|]. intros [= <- <- <- <-]. reflexivity.
  - destruct (findNumberEnd _ _); [|intros [= <- <- <- <-]; reflexivity].
    destruct (_ <? _); [discriminate|]. intros [= <- <- <- <-]. reflexivity.
Qed.

Lemma pf_bracket o buf ty s s1 e off size ty1 :
  populateFromDataRef o buf ty s = Ok (s1, e, (off, size), ty1) ->
  is_bracket ty = false -> is_bracket ty1 = true ->
  e = NoError /\ size = 1 /\ t_cur s1 = S off /\ t_cur s <= off /\
  exists c, nth_error buf off = Some c /\ single_char_type c = Some ty1.
Proof.
  unfold populateFromDataRef. intros E Ht Ht1.
  destruct (t_prop s) eqn:Hp; try (apply finish_type in E; congruence).
  destruct (findStartOfNextValue o buf (t_cur s)) as [e0 c0|t a c0|] eqn:Ef; [|cbv zeta in E|discriminate].
  { injection E as <- <- <- <- <-. discriminate. }
  destruct (findStart_byte _ _ _ _ _ _ Ef) as [A B].
  destruct (is_bracket t) eqn:Hb.
  - unfold finish_value in E. cbn in E. injection E as <- <- <- <- <-. cbn.
    assert (Hs : (if type_eqb t TString then 1 else 0) = 0) by (destruct t; try discriminate; reflexivity).
    rewrite Hs. rewrite Nat.add_0_r. split; [reflexivity|]. split; [reflexivity|]. split; [lia|]. split; [lia|].
    destruct (B eq_refl) as (c & H1 & H2). exists c. split; [|exact H2]. exact H1.
  - apply finish_type in E. congruence.
Qed.

(** The returned token is a bracket: it is the byte before the cursor. *)
Definition bracket_at (buf : bytes) (lo : nat) (s : tstate) (tk : token) : Prop :=
  exists c off, single_char_type c = Some (tk_value_type tk) /\ t_cur s = S off /\ lo <= off /\
    nth_error buf off = Some c /\ dr_bytes (tk_value tk) = [c] /\
    (dr_loc (tk_value tk) = InBuffer off \/ dr_loc (tk_value tk) = InIntermediate /\ im_active (t_im s) = true).

Lemma getType_bracket t d : is_bracket (getType t d) = is_bracket t.
Proof.
  destruct t; try reflexivity. cbn [getType]. unfold bool_or_null.
  repeat (destruct (bytes_eqb _ _); [reflexivity|]). reflexivity.
Qed.
Lemma getType_bracket_id t d : is_bracket t = true -> getType t d = t.
Proof. destruct t; try reflexivity. discriminate. Qed.

Lemma bracket_slice buf off raw c : slice buf off 1 = Ok raw -> nth_error buf off = Some c -> raw = [c].
Proof.
  unfold slice. intros E Hn. destruct (_ <=? _); [|discriminate]. injection E as <-.
  rewrite (nth_skipn_cons buf off c Hn). reflexivity.
Qed.

Lemma pf_im o buf ty s s1 e x t :
  populateFromDataRef o buf ty s = Ok (s1, e, x, t) -> t_im s1 = t_im s.
Proof.
  assert (F : forall off size0 ty s s1 e x t, finish_value o buf off size0 ty s = Ok (s1, e, x, t) -> t_im s1 = t_im s).
  { clear. intros off size0 ty s s1 e x t. unfold finish_value. destruct (t_prop s); try (intros [= <- <- <- <-]; reflexivity).
    destruct ty; try (intros [= <- <- <- <-]; reflexivity).
    - destruct (findStringEnd _ _ _) as [[k|] es]; [|intros [= <- <- <- <-]; reflexivity].
      destruct (_ <? _); [discriminate|]. intros [= <- <- <- <-]. reflexivity.
    - destruct (findAsciiEnd _ _); [|intros [= <- <- <- <-]; reflexivity].
      destruct (_ <? _); [discriminate|]. intros [= <- <- <- <-]. reflexivity.
    - destruct (findNumberEnd _ _); [|intros [= <- <- <- <-]; reflexivity].
      destruct (_ <? _); [discriminate|]. intros [= <- <- <- <-]. reflexivity. }
  unfold populateFromDataRef. destruct (t_prop s); try apply F.
  destruct (findStartOfNextValue _ _ _) as [? ?|? ? ?|]; [intros [= <- <- <- <-]; reflexivity| |discriminate].
  cbv zeta. destruct (is_bracket _); intros E; apply F in E; exact E.
Qed.

Lemma pf_mono o buf ty s s1 e x t :
  populateFromDataRef o buf ty s = Ok (s1, e, x, t) -> e <> NoError \/ t_cur s <= t_cur s1.
Proof.
  assert (F : forall off size0 ty s s1 e x t, finish_value o buf off size0 ty s = Ok (s1, e, x, t) -> t_cur s <= t_cur s1).
  { clear. intros off size0 ty s s1 e x t. unfold finish_value. destruct (t_prop s); try (intros [= <- <- <- <-]; lia).
    destruct ty; try (intros [= <- <- <- <-]; lia).
    - destruct (findStringEnd _ _ _) as [[k|] es]; [|intros [= <- <- <- <-]; cbn; lia].
      destruct (_ <? _); [discriminate|]. intros [= <- <- <- <-]. cbn; lia.
    - destruct (findAsciiEnd _ _); [|intros [= <- <- <- <-]; cbn; lia].
      destruct (_ <? _); [discriminate|]. intros [= <- <- <- <-]. cbn; lia.
    - destruct (findNumberEnd _ _); [|intros [= <- <- <- <-]; cbn; lia].
      destruct (_ <? _); [discriminate|]. intros [= <- <- <- <-]. cbn; lia. }
  unfold populateFromDataRef. destruct (t_prop s); try (intros E; right; eapply F; exact E).
  destruct (findStartOfNextValue _ _ _) as [e0 ?|t0 a c|] eqn:Ef; [| |discriminate].
  { intros [= <- <- <- <-]. assert (H : e0 <> NoError \/ e0 = NoError) by (destruct e0; (left; discriminate) || (right; reflexivity)).
    destruct H as [H|H]; [left; exact H|]. exfalso. subst e0. revert Ef. unfold findStartOfNextValue.
    assert (G : forall f rest pos cur c, fsnv_loop f o rest pos cur <> FS_err NoError c).
    { clear. induction f as [|f IH]; intros rest pos cur c; cbn [fsnv_loop]; [discriminate|].
      destruct rest; [discriminate|]. destruct (_ && _ && _).
      { destruct (skipComment _ _ _); [apply IH|discriminate]. }
      destruct (single_char_type _); [discriminate|]. destruct (has _ _); [discriminate|]. destruct (has _ _); [discriminate|].
      destruct (_ =? 0)%N; [discriminate|apply IH]. }
    destruct (skipn _ (skipn _ _)); [apply G|]. destruct (single_char_type _); [discriminate|apply G]. }
  destruct (findStart_byte _ _ _ _ _ _ Ef) as [A _].
  cbv zeta. destruct (is_bracket _); intros E; apply F in E; cbn in E; right; lia.
Qed.

Lemma fdelim_mono o ct : forall f rest pos cur next ahead cur1, cur <= pos ->
  fdelim_loop f o ct rest pos cur = FD_ok next ahead cur1 -> cur <= cur1.
Proof.
  induction f as [|f IH]; intros rest pos cur next ahead cur1 Hc; cbn [fdelim_loop]; [discriminate|].
  destruct rest as [|c tl]; [discriminate|].
  destruct (_ && _ && _).
  { destruct (skipComment _ _ _); [|discriminate]. intros E. apply IH in E; lia. }
  destruct (Byte.eqb _ _). { destruct (negb _); [discriminate|]. intros [= <- <- <-]. lia. }
  destruct (_ || _). { destruct (negb _); [discriminate|]. intros [= <- <- <-]. lia. }
  destruct (Byte.eqb _ _). { destruct (negb _); [discriminate|]. intros [= <- <- <-]. lia. }
  destruct (negb _); [discriminate|]. intros E. apply IH in E; lia.
Qed.
Lemma findDelimiter_mono o st buf cur next ahead cur1 :
  findDelimiter o st buf cur = FD_ok next ahead cur1 -> cur <= cur1.
Proof.
  unfold findDelimiter. destruct st; [discriminate|]. apply fdelim_mono. lia.
Qed.
Lemma ftend_mono o : forall f rest pos cur ahead cur1 b, cur <= pos ->
  ftend_loop f o rest pos cur = FE_ok ahead cur1 b -> cur <= cur1.
Proof.
  induction f as [|f IH]; intros rest pos cur ahead cur1 b Hc; cbn [ftend_loop]; [discriminate|].
  destruct rest as [|c tl]; [discriminate|].
  destruct (_ && _ && _).
  { destruct (skipComment _ _ _); [|discriminate]. intros E. apply IH in E; lia. }
  destruct (Byte.eqb _ _); [intros [= <- <- <-]; lia|].
  destruct (_ || _); [intros [= <- <- <-]; lia|].
  destruct (Byte.eqb _ _). { destruct (o_nl o); [intros [= <- <- <-]; lia|]. intros E. apply IH in E; lia. }
  destruct (has _ _); [|discriminate]. intros E. apply IH in E; lia.
Qed.
Lemma findTokenEnd_mono o st buf cur ahead cur1 b :
  findTokenEnd o st buf cur = FE_ok ahead cur1 b -> cur <= cur1.
Proof.
  unfold findTokenEnd. destruct st; [intros [= <- <- <-]; lia|]. apply ftend_mono. lia.
Qed.

Lemma findDelimiter_noerr o st buf cur c : findDelimiter o st buf cur <> FD_err NoError c.
Proof.
  assert (G : forall ct f r p cur, fdelim_loop f o ct r p cur <> FD_err NoError c).
  { intros ct f. induction f as [|f IH]; intros r p cu; cbn [fdelim_loop]; [discriminate|].
    destruct r; [discriminate|]. destruct (_ && _ && _).
    { destruct (skipComment _ _ _); [apply IH|discriminate]. }
    destruct (Byte.eqb _ _). { destruct (negb _); discriminate. }
    destruct (_ || _). { destruct (negb _); discriminate. }
    destruct (Byte.eqb _ _). { destruct (negb _); discriminate. }
    destruct (negb _); [discriminate|apply IH]. }
  unfold findDelimiter. destruct st; [discriminate|apply G].
Qed.
Lemma findTokenEnd_noerr o st buf cur c : findTokenEnd o st buf cur <> FE_err NoError c.
Proof.
  assert (G : forall f r p cur, ftend_loop f o r p cur <> FE_err NoError c).
  { intros f. induction f as [|f IH]; intros r p cu; cbn [ftend_loop]; [discriminate|].
    destruct r; [discriminate|]. destruct (_ && _ && _).
    { destruct (skipComment _ _ _); [apply IH|discriminate]. }
    destruct (Byte.eqb _ _); [discriminate|]. destruct (_ || _); [discriminate|].
    destruct (Byte.eqb _ _). { destruct (o_nl o); [discriminate|apply IH]. }
    destruct (has _ _); [apply IH|discriminate]. }
  unfold findTokenEnd. destruct st; [discriminate|apply G].
Qed.

Lemma bracket_at_lo buf lo lo' s tk : lo' <= lo -> bracket_at buf lo s tk -> bracket_at buf lo' s tk.
Proof. intros H (c & off & A & B & C & D). exists c, off. repeat (split; [assumption || lia|]). exact D. Qed.

Lemma pn_bracket o buf : forall f tmp nt s s1 e nt1,
  populateNext f o buf tmp nt s = Ok (s1, e, nt1) ->
  im_ok (t_im s) -> is_bracket (tk_name_type tmp) = false ->
  (im_ok (t_im s1) \/ (e <> NeedMoreData /\ im_active (t_im s1) = true)) /\
  (e = NoError -> is_bracket (tk_value_type nt1) = true -> bracket_at buf (t_cur s) s1 nt1).
Proof.
  induction f as [|f IH]; intros tmp nt s s1 e nt1; [discriminate|]. cbn [populateNext].
  destruct (t_cur s <? length buf).
  2:{ intros [= <- <- <-] H _. split; [left; exact H|discriminate]. }
  intros E Hi Ht. destruct Hi as (I1 & I2 & I3).
  destruct (t_tok s).
  - destruct (populateFromDataRef _ _ _ s) as [[[[s2 e2] [off size]] ty]| |] eqn:Ep; cbn [obind] in E; try discriminate.
    pose proof (pf_im _ _ _ _ _ _ _ _ Ep) as Him. pose proof (pf_mono _ _ _ _ _ _ _ _ Ep) as Hm.
    pose proof (pf_bracket _ _ _ _ _ _ _ _ _ Ep I1) as Hb.
    assert (Hi2 : im_ok (t_im s2)) by (rewrite Him; repeat split; assumption).
    destruct e2; try (injection E as <- <- <-; split; [left; exact Hi2|discriminate]).
    + destruct Hm as [Hm|Hm]; [congruence|].
      destruct (slice buf off size) as [raw| |] eqn:Es; cbn [obind] in E; try discriminate.
      set (p := if im_active (t_im s2) then _ else _) in E.
      assert (Hp : im_ok (t_im (fst (fst p))) /\ t_cur (fst (fst p)) = t_cur s2 /\
        (is_bracket (snd p) = true -> snd p = ty /\ snd (fst p) = mkRef (InBuffer off) raw)).
      { unfold p. destruct (im_active (t_im s2)) eqn:Ha; cbn [fst snd]; rewrite Him in *.
        - split; [repeat split; assumption|]. split; [reflexivity|]. congruence.
        - split; [exact Hi2|]. split; [reflexivity|]. auto. }
      destruct p as [[s3 d] ty2]. cbn [fst snd] in Hp. destruct Hp as (P1 & P2 & P3).
      assert (HB : is_bracket ty2 = true -> forall s4, t_cur s4 = t_cur s3 ->
                bracket_at buf (t_cur s) s4 (anonymous_token d ty2)).
      { intros H s4 Hs4. destruct (P3 H) as [-> ->]. destruct (Hb H) as (_ & -> & B1 & B2 & c & B3 & B4).
        exists c, off. cbn. split; [exact B4|]. split; [congruence|]. split; [exact B2|]. split; [exact B3|].
        split; [eapply bracket_slice; eassumption|left; reflexivity]. }
      destruct (is_bracket ty2) eqn:Hty2.
      * destruct ty2; try discriminate Hty2;
          try (injection E as <- <- <-; (split; [left; exact P1|]); intros _ H; apply HB; [exact H|reflexivity]);
          (destruct (_ && _); injection E as <- <- <-; (split; [left; exact P1|]); [discriminate|];
           intros _ H; apply HB; [exact H|reflexivity]).
      * assert (E' : exists tmp', is_bracket (tk_name_type tmp') = false /\ populateNext f o buf tmp' nt (resetForNewValue (set_tok FindingDelimiter s3)) = Ok (s1, e, nt1)).
        { eexists. split; [|destruct ty2; try discriminate Hty2; exact E].
          cbn [tk_name_type]. rewrite getType_bracket. exact Hty2. }
        clear E. destruct E' as (tmp' & Ht' & E).
        apply IH in E; [|exact P1|exact Ht'].
        destruct E as [E1 E2]. split; [exact E1|]. intros X Y. eapply bracket_at_lo; [|apply E2; assumption].
        cbn. lia.
    + destruct (prop_gt_nostart _); [|injection E as <- <- <-; split; [left; exact Hi2|discriminate]].
      destruct (slice _ _ _); cbn [obind] in E; try discriminate. injection E as <- <- <-.
      split; [left|discriminate]. cbn. rewrite Him. split; [|split; [exact I2|exact I3]].
      cbn. destruct (im_name_set _); [exact I1|]. destruct (is_bracket ty) eqn:Hty; [|reflexivity].
      destruct (Hb eq_refl) as [Hx _]. discriminate Hx.
  - destruct (findDelimiter _ _ _ _) as [? ?|next ah cu|] eqn:Ed; try discriminate.
    + injection E as <- <- <-. split; [|intros ->; intros Hx].
      * left. cbn. destruct (im_active _) eqn:Ha; cbn; repeat split; assumption.
      * exfalso. exact (findDelimiter_noerr _ _ _ _ _ Ed).
    + apply findDelimiter_mono in Ed.
      destruct next; try (injection E as <- <- <-; split; [left; repeat split; assumption|]; intros _ Hx; cbn in Hx; congruence);
        (destruct (_ && _); [injection E as <- <- <-; split; [left; repeat split; assumption|discriminate]|];
         apply IH in E; [|repeat split; assumption|exact Ht]; cbn [t_cur set_expect resetForNewValue set_prop set_ptype set_ds set_tok set_cur] in E;
         destruct E as [E1 E2]; split; [exact E1|intros X Y; eapply bracket_at_lo; [|apply E2; assumption]; lia]).
  - destruct (populateFromDataRef _ _ _ s) as [[[[s2 e2] [off size]] ty]| |] eqn:Ep; cbn [obind] in E; try discriminate.
    pose proof (pf_im _ _ _ _ _ _ _ _ Ep) as Him.
    pose proof (pf_bracket _ _ _ _ _ _ _ _ _ Ep I2) as Hb.
    assert (Hi2 : im_ok (t_im s2)) by (rewrite Him; repeat split; assumption).
    destruct e2; try (injection E as <- <- <-; split; [left; exact Hi2|discriminate]).
    + destruct (slice buf off size) as [raw| |] eqn:Es; cbn [obind] in E; try discriminate.
      destruct (im_active (t_im s2)) eqn:Ha; rewrite Him in *.
      * destruct (_ && _); injection E as <- <- <-; (split; [right; split; [discriminate|reflexivity]|]); [discriminate|].
        cbn [tk_value_type]. rewrite getType_bracket. intros _ H.
        destruct (im_data_set (t_im s)) eqn:Hds; [congruence|].
        destruct (Hb H) as (_ & -> & B1 & B2 & c & B3 & B4).
        exists c, off. cbn. rewrite (getType_bracket_id ty) by exact H. rewrite (I3 eq_refl).
        split; [exact B4|]. split; [exact B1|]. split; [exact B2|]. split; [exact B3|].
        split; [eapply bracket_slice; eassumption|right; split; reflexivity].
      * destruct (_ && _); injection E as <- <- <-; (split; [left; cbn; rewrite Him; exact Hi2|]); [discriminate|].
        cbn [tk_value_type]. rewrite getType_bracket. intros _ H.
        destruct (Hb H) as (_ & -> & B1 & B2 & c & B3 & B4).
        exists c, off. cbn. rewrite (getType_bracket_id ty) by exact H.
        split; [exact B4|]. split; [exact B1|]. split; [exact B2|]. split; [exact B3|].
        split; [eapply bracket_slice; eassumption|left; reflexivity].
    + assert (Hty : prop_gt_nostart (t_prop s2) = true -> is_bracket ty = false).
      { intros _. destruct (is_bracket ty) eqn:Hty; [|reflexivity]. destruct (Hb eq_refl) as [Hx _]. discriminate Hx. }
      rewrite Him in E.
      destruct (prop_gt_nostart _).
      * destruct (slice _ _ _); cbn [obind] in E; try discriminate. injection E as <- <- <-.
        split; [left|discriminate]. cbn. specialize (Hty eq_refl).
        destruct (im_active (t_im s)); cbn; (split; [assumption|split; [destruct (im_data_set _); assumption|discriminate]]).
      * injection E as <- <- <-. split; [left|discriminate].
        cbn. destruct (im_active (t_im s)); cbn; repeat split; assumption.
  - destruct (findTokenEnd _ _ _ _) as [? ?|ah cu comma|] eqn:Ed; try discriminate.
    + injection E as <- <- <-. split; [left; repeat split; assumption|]. intros -> Hx.
      exfalso. exact (findTokenEnd_noerr _ _ _ _ _ Ed).
    + apply findTokenEnd_mono in Ed. apply IH in E; [|destruct comma; repeat split; assumption|exact Ht].
      cbn [t_cur set_tok set_cur] in E. destruct E as [E1 E2]. split; [exact E1|].
      intros X Y. eapply bracket_at_lo; [|apply E2; assumption]. lia.
Qed.

(** ** What nextToken does to the copies *)

Definition copy_text (s : tstate) (c : nat * (nat * bytes)) : nat * bytes :=
  (fst c, snd (snd c) ++ skipn (fst (snd c)) (pending s)).
Definition copies (s : tstate) : list (nat * bytes) := map (copy_text s) (t_copy s).

Lemma requestMore_pending s : pending (requestMoreData s) = pending s.
Proof.
  unfold requestMoreData, pending. destruct (t_supply s) as [|bs sup] eqn:Es; [rewrite Es; reflexivity|].
  cbn [t_bufs t_supply set_supply set_bufs concat]. rewrite !concat_app, <- app_assoc. reflexivity.
Qed.
Lemma requestMore_fields s : t_copy (requestMoreData s) = t_copy s /\ t_cur (requestMoreData s) = t_cur s /\
  t_im (requestMoreData s) = t_im s /\ t_cont (requestMoreData s) = t_cont s /\ t_prop (requestMoreData s) = t_prop s /\
  t_ds (requestMoreData s) = t_ds s /\ t_tok (requestMoreData s) = t_tok s /\ t_parsed (requestMoreData s) = t_parsed s.
Proof. unfold requestMoreData. destruct (t_supply s); repeat split. Qed.

Lemma requestMore_copies s : copies (requestMoreData s) = copies s.
Proof.
  unfold copies. destruct (requestMore_fields s) as (R1 & _). rewrite R1. apply map_ext. intros c.
  unfold copy_text. rewrite requestMore_pending. reflexivity.
Qed.

Lemma flush_copies_text b rest : forall cs cs', flush_copies b cs = Ok cs' ->
  map (fun c : nat * (nat * bytes) => (fst c, snd (snd c) ++ skipn (fst (snd c)) rest)) cs' =
  map (fun c => (fst c, snd (snd c) ++ skipn (fst (snd c)) (b ++ rest))) cs.
Proof.
  induction cs as [|[id [st txt]] cs IH]; cbn [flush_copies]; intros cs' E; [injection E as <-; reflexivity|].
  destruct (Nat.ltb_spec (length b) st); [discriminate|].
  destruct (flush_copies b cs) as [tl| |]; cbn [obind] in E; try discriminate. injection E as <-.
  cbn [map fst snd]. rewrite (IH tl eq_refl). f_equal. f_equal. rewrite skipn_app.
  replace (st - length b) with 0 by lia. rewrite <- app_assoc. reflexivity.
Qed.

Lemma release_copies s s1 : releaseFirstDataRef s = Ok s1 -> copies s1 = copies s.
Proof.
  unfold releaseFirstDataRef. destruct (t_bufs s) as [|b bs] eqn:Hb; [intros [= <-]; reflexivity|].
  destruct (flush_copies b (t_copy s)) as [cs| |] eqn:Ec; cbn [obind]; try discriminate. intros [= <-].
  unfold copies, copy_text, pending. cbn [t_copy t_bufs t_supply set_bufs set_ds set_cur set_copy].
  rewrite (flush_copies_text _ _ _ _ Ec). rewrite Hb. cbn [concat]. rewrite <- app_assoc. reflexivity.
Qed.
Lemma frame_copies s s1 : frame s s1 -> copies s1 = copies s.
Proof. intros (F1 & F2 & _ & _ & F5 & _). unfold copies, copy_text, pending. rewrite F1, F2, F5. reflexivity. Qed.

Definition first_buf (s : tstate) : bytes := match t_bufs s with [] => [] | b :: _ => b end.

(** The bracket just read is the byte before the cursor in the first buffer, and all copies start
    at or before it. *)
Definition just_read (s : tstate) (tk : token) : Prop :=
  exists c off, single_char_type c = Some (tk_value_type tk) /\ t_cur s = S off /\
    nth_error (first_buf s) off = Some c /\ dr_bytes (tk_value tk) = [c] /\
    (dr_loc (tk_value tk) = InBuffer off \/ dr_loc (tk_value tk) = InIntermediate /\ im_active (t_im s) = true) /\
    Forall (fun c : nat * (nat * bytes) => fst (snd c) <= off) (t_copy s).

Lemma buffer_loop_copies o : forall f nt s s1 e nt1,
  t_parsed s = None -> entry_ok s -> cur_ok s -> copies_ok s -> im_ok (t_im s) ->
  buffer_loop f o nt s = Ok (s1, e, nt1) ->
  copies s1 = copies s /\
  (im_ok (t_im s1) \/ (e <> NeedMoreData /\ im_active (t_im s1) = true)) /\
  (e = NoError -> is_bracket (tk_value_type nt1) = true -> just_read s1 nt1) /\
  buffers_left s1 <= buffers_left s /\
  (e = NoError -> buffers_left s1 = buffers_left s -> t_bufs s1 = t_bufs s /\ t_supply s1 = t_supply s /\ t_cur s <= t_cur s1) /\
  bytes_left s1 <= bytes_left s /\
  (e = NoError -> is_bracket (tk_value_type nt1) = true -> bytes_left s1 < bytes_left s) /\
  (e = NoError -> buffers_left s1 = buffers_left s -> t_prop s = NoStartFound -> im_active (t_im s) = false ->
   im_active (t_im s1) = false).
Proof.
  induction f as [|f IH]; intros nt s s1 e nt1 Hp Hen Hcur Hcp Him; cbn [buffer_loop]; unfold cur_ok in Hcur.
  { destruct (t_bufs s); [intros [= <- <- <-]|discriminate]. split; [reflexivity|]. split; [auto|]. split; [discriminate|]. split; [lia|]. split; [discriminate|]. split; [lia|split; discriminate]. }
  destruct (t_bufs s) as [|buf bs] eqn:Hb.
  { intros [= <- <- <-]. split; [reflexivity|]. split; [auto|]. split; [discriminate|]. split; [lia|]. split; [discriminate|]. split; [lia|split; discriminate]. }
  destruct (populateNext loop_fuel o buf tok_default nt s) as [[[s2 e2] nt2]| |] eqn:E; cbn [obind]; try discriminate.
  destruct (populateNext_ok o buf loop_fuel tok_default nt s) as (s2' & e2' & nt2' & E' & F & Q2 & Q3 & _).
  { unfold loop_fuel. destruct (t_tok s); cbn; lia. }
  { exact Hen. }
  { exact Hcur. }
  rewrite E in E'. injection E' as <- <- <-.
  destruct (pn_bracket _ _ _ _ _ _ _ _ _ E Him eq_refl) as [B1 B2].
  pose proof F as (F1 & F2 & F3 & F4 & F5 & F6 & F7).
  assert (Hbl : buffers_left s2 = buffers_left s) by (unfold buffers_left; rewrite F1, F2; reflexivity).
  assert (Hret : e2 <> NeedMoreData -> Ok (s2, e2, nt2) = Ok (s1, e, nt1) ->
    copies s1 = copies s /\
    (im_ok (t_im s1) \/ (e <> NeedMoreData /\ im_active (t_im s1) = true)) /\
    (e = NoError -> is_bracket (tk_value_type nt1) = true -> just_read s1 nt1) /\
    buffers_left s1 <= buffers_left s /\
    (e = NoError -> buffers_left s1 = buffers_left s -> t_bufs s1 = t_bufs s /\ t_supply s1 = t_supply s /\ t_cur s <= t_cur s1) /\
    bytes_left s1 <= bytes_left s /\
    (e = NoError -> is_bracket (tk_value_type nt1) = true -> bytes_left s1 < bytes_left s) /\
    (e = NoError -> buffers_left s1 = buffers_left s -> t_prop s = NoStartFound -> im_active (t_im s) = false ->
     im_active (t_im s1) = false)).
  { assert (Hby : bytes_left s2 + t_cur s2 = bytes_left s + t_cur s).
    { unfold bytes_left. rewrite F1, F2, F6, Hp, Hb. cbn [concat]. rewrite app_length. lia. }
    intros He [= <- <- <-]. split; [apply frame_copies; exact F|]. split; [exact B1|]. split.
    - intros He2 Hbr. destruct (B2 He2 Hbr) as (c & off & A1 & A2 & A3 & A4 & A5 & A6).
      exists c, off. split; [exact A1|]. split; [exact A2|]. split; [unfold first_buf; rewrite F1, Hb; exact A4|].
      split; [exact A5|]. split; [exact A6|]. rewrite F5. eapply Forall_impl; [|exact Hcp]. cbn. intros; lia.
    - split; [lia|]. split; [intros _ _; split; [congruence|]; split; [exact F2|lia]|]. split; [lia|].
      split; [intros He2 Hbr; destruct (B2 He2 Hbr) as (c & off & A1 & A2 & A3 & _); lia|].
      intros He2 _ Hpr Hact. subst e2.
      refine (proj1 (proj2 (populateNext_span o buf loop_fuel tok_default nt s s2 nt2 0 Hpr Hact Hcur (Nat.le_0_l _) _ E))).
      split; [left; reflexivity|apply Nat.le_0_l]. }
  rewrite <- Hb.
  destruct e2; try (apply Hret; discriminate). clear Hret.
  destruct (releaseFirstDataRef s2) as [s3| |] eqn:Er; cbn [obind]; try discriminate. intros E3.
  pose proof (release_copies _ _ Er) as C3.
  unfold releaseFirstDataRef in Er. rewrite F1, Hb in Er.
  destruct (flush_copies_ok buf (t_copy s2)) as (cs & Ec & Mc & Fc).
  { rewrite F5. eapply Forall_impl; [|exact Hcp]. cbn. intros; lia. }
  rewrite Ec in Er. cbn [obind] in Er.
  assert (Hs3 : t_cur s3 = 0 /\ t_ds s3 = 0 /\ t_prop s3 = t_prop s2 /\ t_tok s3 = t_tok s2 /\ t_parsed s3 = None /\
                t_copy s3 = cs /\ t_im s3 = t_im s2 /\ S (buffers_left s3) = buffers_left s2 /\
                bytes_left s3 + length buf = bytes_left s + t_cur s).
  { injection Er as <-. cbn. repeat (split; [congruence|]). split.
    - unfold buffers_left. cbn. rewrite F1, Hb. cbn. lia.
    - unfold bytes_left. cbn. rewrite F2, F6, Hp, Hb. cbn. rewrite app_length. lia. }
  clear Er. destruct Hs3 as (S1 & S2 & S3 & S4 & S5 & S6 & S7 & S8 & S9).
  destruct (requestMore_fields s3) as (R1 & R2 & R3 & R4 & R5 & R6 & R7 & R8).
  destruct (requestMore_left s3) as [RL RB].
  apply IH in E3.
  - destruct E3 as (D1 & D2 & D3 & D4 & D5 & D6 & D7 & D8). split.
    { rewrite D1, requestMore_copies, C3. apply frame_copies; exact F. }
    assert (Hl : buffers_left s1 < buffers_left s) by (clear - D4 RL S8 Hbl; lia).
    assert (Hy : bytes_left s1 <= bytes_left s) by (clear - D6 RB S9 Q2; lia).
    split; [exact D2|]. split; [exact D3|]. split; [apply Nat.lt_le_incl; exact Hl|].
    split; [intros _ Hx; rewrite Hx in Hl; exfalso; exact (Nat.lt_irrefl _ Hl)|]. split; [exact Hy|].
    split; [intros H1 H2; specialize (D7 H1 H2); clear - D7 RB S9 Q2; lia|].
    intros _ Hx. rewrite Hx in Hl. exfalso. exact (Nat.lt_irrefl _ Hl).
  - congruence.
  - unfold entry_ok. rewrite R2, R5, R6, R7, S1, S2, S3, S4. destruct (Q3 eq_refl) as [H|[H1 H2]]; auto.
  - unfold cur_ok. rewrite R2, S1. destruct (t_bufs (requestMoreData s3)); [reflexivity|apply Nat.le_0_l].
  - unfold copies_ok. rewrite R1, R2, S1, S6. eapply Forall_impl; [|exact Fc]. cbn. intros; lia.
  - rewrite R3, S7. destruct B1 as [B1|[B1 _]]; [exact B1|congruence].
Qed.

Definition cap_inv (s : tstate) : Prop := tok_inv s /\ t_parsed s = None /\ im_inv s.

Lemma nextToken_copies o nt s s1 e nt1 :
  cap_inv s -> nextToken o nt s = Ok (s1, e, nt1) ->
  cap_inv s1 /\ copies s1 = copies s /\
  (e = NoError -> is_bracket (tk_value_type nt1) = true -> just_read s1 nt1) /\
  buffers_left s1 <= buffers_left s /\
  (e = NoError -> buffers_left s1 = buffers_left s -> t_bufs s <> [] -> t_bufs s1 = t_bufs s /\ t_supply s1 = t_supply s /\ t_cur s <= t_cur s1) /\
  bytes_left s1 <= bytes_left s /\
  (e = NoError -> is_bracket (tk_value_type nt1) = true -> bytes_left s1 < bytes_left s) /\
  (e = NoError -> t_cont s1 = false) /\
  (e = NoError -> t_cont s = false -> buffers_left s1 = buffers_left s -> im_active (t_im s1) = false).
Proof.
  intros (Hinv & Hp & Hi) E.
  assert (Hinv1 : tok_inv s1).
  { destruct (nextToken_ok o nt s Hinv) as (s1' & e' & nt1' & E' & H & _). rewrite E in E'. injection E' as <- <- <-. exact H. }
  pose proof (nextToken_parsed_None o nt s s1 e nt1 Hinv Hp E) as Hp1.
  unfold cap_inv. destruct Hinv as [Hc Hco]. rewrite Hp in Hc. destruct Hc as [Hcur Hcp].
  destruct (nextToken_inv o nt s s1 e nt1 Hp E) as [(-> & -> & ->)|H].
  { repeat split; auto; try apply Hinv1; discriminate. }
  cbv zeta in H. set (s0 := match t_bufs s with [] => requestMoreData s | _ => s end) in H.
  assert (H0 : copies s0 = copies s /\ t_cur s0 = t_cur s /\ t_im s0 = t_im s /\ t_cont s0 = t_cont s /\
               cont_ok s0 /\ cur_ok s0 /\ copies_ok s0 /\ t_parsed s0 = None /\ buffers_left s0 = buffers_left s /\
               (t_bufs s <> [] -> s0 = s) /\ bytes_left s0 = bytes_left s).
  { unfold s0. destruct (t_bufs s) as [|b bs] eqn:Hb.
    - destruct (requestMore_fields s) as (R1 & R2 & R3 & R4 & R5 & R6 & R7 & R8).
      destruct (requestMore_left s) as [RL RB].
      split; [apply requestMore_copies|].
      split; [exact R2|]. split; [exact R3|]. split; [exact R4|].
      split; [unfold cont_ok in *; rewrite R2, R4, R5, R6, R7, R8; exact Hco|].
      split; [unfold cur_ok in *; rewrite R2; rewrite Hb in Hcur; destruct (t_bufs (requestMoreData s)); lia|].
      split; [unfold copies_ok in *; rewrite R1, R2; exact Hcp|]. split; [congruence|]. split; [exact RL|split; [congruence|exact RB]].
    - repeat split; auto. }
  destruct H0 as (K1 & K2 & K3 & K4 & K5 & K6 & K7 & K8 & K9 & K10 & K11).
  destruct H as [(Hb & -> & -> & ->)|(Hb & s2 & e2 & sc & st & E2 & Es1 & He1 & He2 & _)].
  { split; [split; [exact Hinv1|]; split; [exact K8|]; unfold im_inv in *; rewrite K3, K4; exact Hi|].
    split; [exact K1|]. split; [discriminate|]. split; [lia|]. split; [discriminate|]. split; [lia|]. split; [discriminate|split; discriminate]. }
  set (s0' := if t_cont s0 then s0 else resetForNewToken s0) in E2.
  assert (H1 : copies s0' = copies s /\ t_cur s0' = t_cur s /\ t_parsed s0' = None /\ entry_ok s0' /\ cur_ok s0' /\ copies_ok s0' /\
               im_ok (t_im s0') /\ t_bufs s0' = t_bufs s0 /\ t_supply s0' = t_supply s0 /\ buffers_left s0' = buffers_left s /\ bytes_left s0' = bytes_left s).
  { unfold s0'. destruct (t_cont s0) eqn:Hc.
    - split; [exact K1|]. split; [exact K2|]. split; [exact K8|]. split; [unfold entry_ok; destruct (K5 Hc) as [H|(H1 & H2 & H3 & H4)]; auto 10|].
      split; [exact K6|]. split; [exact K7|]. split; [|auto].
      rewrite K3. destruct Hi as [Hi|[Hi _]]; [exact Hi|congruence].
    - split; [rewrite <- K1; reflexivity|]. split; [exact K2|]. split; [exact K8|]. split; [left; reflexivity|].
      split; [exact K6|]. split; [exact K7|]. split; [|split; [reflexivity|split; [reflexivity|split; [exact K9|exact K11]]]].
      cbn. unfold im_clear. rewrite K3. destruct (im_active (t_im s)) eqn:Ha; [repeat split; auto|].
      destruct Hi as [Hi|[_ Hi]]; [exact Hi|congruence]. }
  destruct H1 as (L1 & L2 & L3 & L4 & L5 & L6 & L7 & L8 & L8' & L9 & L10).
  destruct (buffer_loop_copies o _ nt s0' s2 e2 nt1 L3 L4 L5 L6 L7 E2) as (D1 & D2 & D3 & D4 & D5 & D6 & D7 & D8).
  subst s1. split; [split; [exact Hinv1|split; [exact Hp1|]]|].
  - unfold im_inv. cbn [t_im t_cont set_scope set_stack set_cont]. destruct D2 as [D2|[D2 D2']]; [left; exact D2|].
    right. split; [destruct e2; try reflexivity; congruence|exact D2'].
  - split; [rewrite <- L1, <- D1; reflexivity|]. split.
    + intros He Hbr. exact (D3 (He1 He) Hbr).
    + split.
      * change (buffers_left s2 <= buffers_left s). lia.
      * split.
        { intros He Hbl Hne. specialize (K10 Hne). destruct (D5 (He1 He)) as (X & X' & Y).
          { change (buffers_left s2 = buffers_left s) in Hbl. lia. }
          cbn. rewrite X, X', L8, L8', K10. split; [reflexivity|]. split; [reflexivity|]. lia. }
        split; [change (bytes_left s2 <= bytes_left s); lia|].
        split; [intros He Hbr; specialize (D7 (He1 He) Hbr); change (bytes_left s2 < bytes_left s); lia|].
        split; [intros He; rewrite (He1 He); reflexivity|].
        intros He Hcf Hbl. change (buffers_left s2 = buffers_left s) in Hbl. cbn.
        assert (Hs0' : s0' = resetForNewToken s0) by (unfold s0'; rewrite K4, Hcf; reflexivity).
        apply D8; [exact (He1 He)|lia|rewrite Hs0'; reflexivity|rewrite Hs0'; cbn; unfold im_clear].
        destruct (im_active (t_im s0)) eqn:Ha; [reflexivity|exact Ha].
Qed.

(** ** The handlers *)

Lemma app_cancel_last {A} (l1 l2 : list A) x1 x2 : l1 ++ [x1] = l2 ++ [x2] -> l1 = l2 /\ x1 = x2.
Proof. apply app_inj_tail. Qed.

Lemma nth_pending s off c : nth_error (first_buf s) off = Some c ->
  skipn off (pending s) = c :: skipn (S off) (pending s).
Proof.
  intros H. apply nth_skipn_cons. unfold first_buf, pending in *. destruct (t_bufs s) as [|b bs]; [destruct off; discriminate|].
  cbn [concat]. rewrite <- !app_assoc. rewrite nth_error_app1; [exact H|]. apply nth_error_Some. congruence.
Qed.

Lemma copyFrom_ok id txt tk s : cap_inv s -> just_read s tk ->
  exists s0, copyFromValue id txt tk s = Ok s0 /\ cap_inv s0 /\
    copies s0 = copies s ++ [(id, txt ++ dr_bytes (tk_value tk) ++ unread s)] /\
    (exists st tx, t_copy s0 = t_copy s ++ [(id, (st, tx))]) /\
    t_stack s0 = t_stack s /\ weight s0 = weight s /\ t_bufs s0 = t_bufs s /\ unread s0 = unread s.
Proof.
  intros (Hinv & Hp & Hi) (c & off & A1 & A2 & A3 & A4 & A5 & A6).
  assert (Hdone : forall st tx, st <= t_cur s -> tx ++ skipn st (pending s) = txt ++ [c] ++ unread s ->
    exists s0, Ok (set_copy (t_copy s ++ [(id, (st, tx))]) s) = Ok s0 /\ cap_inv s0 /\
      copies s0 = copies s ++ [(id, txt ++ [c] ++ unread s)] /\
      (exists st tx, t_copy s0 = t_copy s ++ [(id, (st, tx))]) /\
      t_stack s0 = t_stack s /\ weight s0 = weight s /\ t_bufs s0 = t_bufs s /\ unread s0 = unread s).
  { intros st tx H1 H2. eexists. split; [reflexivity|]. split; [|split; [|split; [do 2 eexists; reflexivity|auto]]].
    - split; [|split; [exact Hp|exact Hi]]. destruct Hinv as [H Hco]. split; [|exact Hco].
      rewrite Hp in H. cbn [t_parsed set_copy]. rewrite Hp. destruct H as [Hcur Hcp]. split; [exact Hcur|].
      unfold copies_ok in *. cbn. apply Forall_app. split; [exact Hcp|]. constructor; [exact H1|constructor].
    - unfold copies. cbn [t_copy set_copy]. rewrite map_app. f_equal. cbn [map]. unfold copy_text. cbn [fst snd].
      change (pending (set_copy _ s)) with (pending s). rewrite H2. reflexivity. }
  unfold copyFromValue. rewrite A4. destruct A5 as [-> | [-> _]].
  - apply Hdone; [lia|]. unfold unread. rewrite A2. rewrite (nth_pending s off c A3). reflexivity.
  - apply Hdone; [lia|]. rewrite <- app_assoc. reflexivity.
Qed.

Lemma take_copy_last id c : forall cs, ~ In id (map fst cs) -> take_copy id (cs ++ [(id, c)]) = Some (c, cs).
Proof.
  induction cs as [|[i p] cs IH]; intros H; cbn [take_copy app map fst] in *.
  - rewrite Nat.eqb_refl. reflexivity.
  - destruct (Nat.eqb_spec i id) as [->|Hne]; [exfalso; apply H; left; reflexivity|].
    rewrite IH by (intros X; apply H; right; exact X). reflexivity.
Qed.

Lemma copyIncluding_ok id txt cs0 s : cap_inv s -> ~ In id (map fst cs0) -> copies s = cs0 ++ [(id, txt)] ->
  exists s2 out, copyIncludingValue id s = Ok (s2, out) /\ cap_inv s2 /\ copies s2 = cs0 /\
    out ++ unread s2 = txt /\ unread s2 = unread s /\ t_stack s2 = t_stack s /\ t_bufs s2 = t_bufs s /\

    (forall c tk, just_read s tk -> dr_bytes (tk_value tk) = [c] -> exists pre, out = pre ++ [c]).
Proof.
  intros (Hinv & Hp & Hi) Hid Hcs.
  assert (Hsplit : exists cs st tx, t_copy s = cs ++ [(id, (st, tx))] /\ map (copy_text s) cs = cs0 /\
    tx ++ skipn st (pending s) = txt).
  { unfold copies in Hcs. destruct (exists_last (l := t_copy s)) as (cs & [i [st tx]] & Hc).
    { intros H. rewrite H in Hcs. destruct cs0; discriminate. }
    exists cs, st, tx. rewrite Hc, map_app in Hcs. apply app_inj_tail in Hcs. destruct Hcs as [H1 H2].
    unfold copy_text in H2. cbn in H2. injection H2 as -> H2. rewrite Hc. auto. }
  destruct Hsplit as (cs & st & tx & Hc & Hm & Ht).
  assert (Hid' : ~ In id (map fst cs)).
  { intros H. apply Hid. rewrite <- Hm. rewrite map_map. exact H. }
  destruct Hinv as [H Hco]. rewrite Hp in H. destruct H as [Hcur Hcp].
  unfold copies_ok in Hcp. rewrite Hc in Hcp. apply Forall_app in Hcp. destruct Hcp as [Hcp1 Hcp2].
  apply Forall_inv in Hcp2. cbn in Hcp2.
  unfold copyIncludingValue. rewrite Hc, (take_copy_last id (st, tx) cs Hid').
  assert (Hinv2 : cap_inv (set_copy cs s)).
  { split; [|split; [exact Hp|exact Hi]]. split; [|exact Hco]. cbn [t_parsed set_copy]. rewrite Hp. split; [exact Hcur|exact Hcp1]. }
  assert (Hjr : forall tk, just_read s tk -> st < t_cur s).
  { intros tk (c & off & _ & A2 & _ & _ & _ & A6). rewrite Hc in A6. apply Forall_app in A6. destruct A6 as [_ A6].
    apply Forall_inv in A6. cbn in A6. lia. }
  destruct (Nat.eqb_spec (t_cur s) st) as [He|Hne].
  - do 2 eexists. split; [reflexivity|]. split; [exact Hinv2|]. split; [exact Hm|].
    split; [rewrite <- Ht, <- He; reflexivity|].
    split; [reflexivity|]. split; [reflexivity|]. split; [reflexivity|].
    intros c tk Hj _. apply Hjr in Hj. lia.
  - unfold cur_ok in Hcur. destruct (t_bufs s) as [|buf bs] eqn:Hb; [lia|].
    destruct (Nat.ltb_spec (t_cur s) st); [lia|]. unfold slice.
    destruct (Nat.leb_spec (st + (t_cur s - st)) (length buf)); [|lia]. cbn [obind].
    do 2 eexists. split; [reflexivity|]. split; [exact Hinv2|]. split; [exact Hm|].
    assert (Hu : firstn (t_cur s - st) (skipn st buf) ++ unread s = skipn st (pending s)).
    { unfold unread, pending. rewrite Hb. cbn [concat]. rewrite <- app_assoc.
      set (r := concat bs ++ _). rewrite !skipn_app.
      replace (t_cur s - length buf) with 0 by lia. replace (st - length buf) with 0 by lia. cbn [skipn].
      rewrite app_assoc. f_equal.
      replace (skipn (t_cur s) buf) with (skipn (t_cur s - st) (skipn st buf)) by (rewrite skipn_plus; f_equal; lia).
      apply firstn_skipn. }
    split; [rewrite <- app_assoc; change (unread (set_copy cs s)) with (unread s); rewrite Hu; exact Ht|].
    split; [reflexivity|]. split; [reflexivity|]. split; [exact Hb|].
    intros c tk Hj Hd. pose proof Hj as (c' & off & A1 & A2 & A3 & A4 & A5 & A6).
    rewrite A4 in Hd. injection Hd as ->. unfold first_buf in A3. rewrite Hb in A3.
    apply Hjr in Hj.
    exists (tx ++ firstn (off - st) (skipn st buf)). rewrite <- app_assoc. f_equal. rewrite A2.
    replace (S off - st) with (off - st + 1) by lia.
    assert (G : forall (l : bytes) n x, nth_error l n = Some x -> firstn (n + 1) l = firstn n l ++ [x]).
    { clear. induction l as [|a l IH]; intros [|n] x H; cbn in *; try discriminate; [injection H as ->; reflexivity|].
      rewrite (IH n x H). reflexivity. }
    apply G. rewrite nth_error_skipn_plus, <- A3. f_equal. lia.
Qed.

(** ** Brackets *)

Definition own (opn t : type) : nat := if type_eqb t opn then 1 else 0.
Fixpoint count_own (opn : type) (l : list type) : nat :=
  match l with [] => 0 | t :: l => own opn t + count_own opn l end.

(** The stack is [fr] on top of [opn :: base]; [level] counts the own brackets in [fr ++ [opn]]. *)
Definition level_inv (opn : type) (base : list type) (level : nat) (st : list type) : Prop :=
  exists fr, st = fr ++ opn :: base /\ level = S (count_own opn fr).

Definition pair_of (opn cls : type) : Prop := (opn = TObjectStart /\ cls = TObjectEnd) \/ (opn = TArrayStart /\ cls = TArrayEnd).

Lemma raw_loop_ok o opn cls base : pair_of opn cls -> forall f level tk s,
  cap_inv s -> level_inv opn base level (t_stack s) -> weight s < f ->
  exists s1 e tk1, raw_loop f o opn cls level tk s = Ok (s1, e, tk1) /\ cap_inv s1 /\ copies s1 = copies s /\
    buffers_left s1 <= buffers_left s /\
    (e = NoError -> just_read s1 tk1 /\ tk_value_type tk1 = cls /\ t_stack s1 = base /\ bytes_left s1 < bytes_left s) /\
    (e = NoError -> buffers_left s1 = buffers_left s -> t_bufs s <> [] -> t_bufs s1 = t_bufs s /\ t_supply s1 = t_supply s /\ t_cur s <= t_cur s1) /\
    (e = NoError -> buffers_left s1 = buffers_left s -> t_cont s = false -> im_active (t_im s1) = false).
Proof.
  intros Hpair. induction f as [|f IH]; intros level tk s Hinv (fr & Hst & Hl) Hw; [lia|]. subst level. cbn [raw_loop].
  pose proof Hinv as (Hti & Hp & _).
  destruct (nextToken_ok o tk s Hti) as (s1 & e & tk1 & E & _ & S1 & _ & _ & S4). rewrite E. cbn [obind].
  destruct (nextToken_copies o tk s s1 e tk1 Hinv E) as (N1 & N2 & N3 & N4 & N5 & N6 & N7 & N8 & N9).
  assert (Herr : e <> NoError -> exists s1' e' tk1', Ok (s1, e, tk1) = Ok (s1', e', tk1') /\ cap_inv s1' /\
      copies s1' = copies s /\ buffers_left s1' <= buffers_left s /\
      (e' = NoError -> just_read s1' tk1' /\ tk_value_type tk1' = cls /\ t_stack s1' = base /\ bytes_left s1' < bytes_left s) /\
      (e' = NoError -> buffers_left s1' = buffers_left s -> t_bufs s <> [] -> t_bufs s1' = t_bufs s /\ t_supply s1' = t_supply s /\ t_cur s <= t_cur s1') /\
      (e' = NoError -> buffers_left s1' = buffers_left s -> t_cont s = false -> im_active (t_im s1') = false))
    by (intros He; exists s1, e, tk1; split; [reflexivity|]; split; [exact N1|]; split; [exact N2|];
        split; [exact N4|]; split; [intros; congruence|]; split; intros; congruence).
  destruct e; try (apply Herr; discriminate); clear Herr.
  specialize (S1 eq_refl Hp). specialize (S4 eq_refl). specialize (N3 eq_refl). specialize (N5 eq_refl). specialize (N7 eq_refl).
  specialize (N8 eq_refl). specialize (N9 eq_refl).
  set (level' := raw_level opn cls (tk_value_type tk1) (S (count_own opn fr))).
  assert (Hcase : (level' = 0 /\ tk_value_type tk1 = cls /\ t_stack s1 = base) \/ level_inv opn base level' (t_stack s1)).
  { unfold level', raw_level. rewrite Hst in S1. clear - S1 Hpair.
    destruct Hpair as [[-> ->]|[-> ->]]; destruct (tk_value_type tk1); cbn [type_eqb stack_step] in *;
      try (right; exists fr; split; [exact S1|reflexivity]);
      try (right; eexists (_ :: fr); split; [exact S1|reflexivity]);
      destruct fr as [|f0 fr]; cbn [app] in S1; try discriminate S1;
      try (injection S1 as H1; left; split; [reflexivity|split; [reflexivity|congruence]]);
      try (injection S1 as H0 H1; right; exists fr; split; [congruence|]; rewrite H0; cbn; lia). }
  destruct Hcase as [(L1 & L2 & L3)|Hcase].
  { assert (Hbr : is_bracket (tk_value_type tk1) = true) by (rewrite L2; destruct Hpair as [[-> ->]|[-> ->]]; reflexivity).
    rewrite L1. exists s1, NoError, tk1. split; [destruct f; reflexivity|]. split; [exact N1|]. split; [exact N2|]. split; [exact N4|].
    split; [intros _; auto|]. split; [intros _; exact N5|]. intros _ X Y. exact (N9 Y X). }
  destruct (IH level' tk1 s1 N1 Hcase ltac:(lia)) as (s2 & e2 & tk2 & E2 & M1 & M2 & M4 & M5 & M6 & M7).
  exists s2, e2, tk2. split; [exact E2|]. split; [exact M1|]. split; [congruence|]. split; [lia|].
  split; [|split; [|intros He Hbl _; apply M7; [exact He|lia|exact N8]]].
  - intros He. destruct (M5 He) as (X1 & X2 & X3 & X4). repeat (split; [assumption|]). lia.
  - intros He Hbl Hne. destruct N5 as (X1 & X1' & X2); [lia|exact Hne|].
    destruct (M6 He) as (Y1 & Y1' & Y2); [lia|rewrite X1; exact Hne|]. split; [congruence|]. split; [congruence|lia].
Qed.

Lemma unread_length s : t_parsed s = None -> length (unread s) = bytes_left s.
Proof. intros Hp. unfold unread, bytes_left, pending. rewrite skipn_length, app_length, Hp. reflexivity. Qed.

Lemma raw_start_pair k t opn cls : raw_start k t = inl (opn, cls) -> t = opn /\ pair_of opn cls.
Proof. unfold pair_of. destruct k, t; cbn; intros [= <- <-]; auto. Qed.

Lemma pair_bytes opn cls : pair_of opn cls -> forall c, 
  (single_char_type c = Some opn -> c = opening opn) /\ (single_char_type c = Some cls -> c = closing opn).
Proof.
  intros Hp c. unfold single_char_type.
  repeat match goal with |- context [Byte.eqb c ?x] => destruct (Byte.eqb c x) eqn:?E end;
    try (apply byte_eqb_eq in E; subst c); try (apply byte_eqb_eq in E0; subst c); try (apply byte_eqb_eq in E1; subst c);
    try (apply byte_eqb_eq in E2; subst c); try (apply byte_eqb_eq in E3; subst c);
    destruct Hp as [[-> ->]|[-> ->]]; split; intros H; try discriminate H; reflexivity.
Qed.

Lemma prefix_longer {A} (out u1 p u : list A) : out ++ u1 = p ++ u -> length u1 < length u ->
  exists z, z <> [] /\ out = p ++ z /\ u = z ++ u1.
Proof.
  revert out. induction p as [|x p IH]; intros out H Hl.
  - exists out. cbn in *. split; [intros ->; cbn in H; subst; lia|]. split; [reflexivity|congruence].
  - destruct out as [|y out]; cbn in H; [exfalso; subst u1; cbn in Hl; rewrite app_length in Hl; lia|].
    injection H as -> H. destruct (IH out H Hl) as (z & A1 & A2 & A3). exists z. subst. auto.
Qed.

Lemma raw_to_ok o f k id txt tk s opn cls base :
  cap_inv s -> just_read s tk -> raw_start k (tk_value_type tk) = inl (opn, cls) -> t_stack s = opn :: base ->
  ~ In id (map fst (t_copy s)) -> weight s < f ->
  exists s1 e tk1 out, raw_to f o k id txt tk s = Ok (s1, e, tk1, out) /\ cap_inv s1 /\
    (e = NoError -> t_stack s1 = base /\ tk_value_type tk1 = cls /\ copies s1 = copies s /\
       exists body, out = txt ++ [opening opn] ++ body ++ [closing opn] /\ unread s = body ++ [closing opn] ++ unread s1).
Proof.
  intros Hinv Hjr Hk Hst Hid Hw. unfold raw_to. rewrite Hk. destruct (raw_start_pair _ _ _ _ Hk) as [Ht Hpair].
  destruct (copyFrom_ok id txt tk s Hinv Hjr) as (s0 & E0 & I0 & C0 & (st0 & tx0 & T0) & St0 & W0 & B0 & U0).
  rewrite E0. cbn [obind].
  destruct (raw_loop_ok o opn cls base Hpair f 1 tk s0 I0) as (s1 & e & tk1 & E1 & I1 & C1 & BL & R1 & _).
  { exists []. split; [rewrite St0; exact Hst|reflexivity]. }
  { lia. }
  rewrite E1. cbn [obind]. rewrite C0 in C1.
  destruct (copyIncluding_ok id _ (copies s) s1 I1 ltac:(unfold copies; rewrite map_map; exact Hid) C1)
    as (s2 & out & E2 & I2 & C2 & D1 & D2 & D3 & D4 & D5).
  assert (Hgood : e = NoError -> t_stack s2 = base /\ tk_value_type tk1 = cls /\ copies s2 = copies s /\
       exists body, out = txt ++ [opening opn] ++ body ++ [closing opn] /\ unread s = body ++ [closing opn] ++ unread s2).
  { intros He. destruct (R1 He) as (X1 & X2 & X3 & X4). split; [congruence|]. split; [exact X2|]. split; [exact C2|].
    destruct Hjr as (c & off & A1 & _ & _ & A4 & _). rewrite A4 in D1.
    rewrite Ht in A1. pose proof (proj1 (pair_bytes _ _ Hpair c) A1) as ->.
    pose proof X1 as (c1 & off1 & Y1 & _ & _ & Y4 & _). rewrite X2 in Y1.
    pose proof (proj2 (pair_bytes _ _ Hpair c1) Y1) as ->.
    destruct (D5 _ _ X1 Y4) as (pre & Hpre).
    rewrite app_assoc in D1. apply prefix_longer in D1.
    2:{ rewrite D2. rewrite <- U0, !unread_length; [exact X4|apply I0|apply I1]. }
    destruct D1 as (z & Z1 & Z2 & Z3). destruct (exists_last Z1) as (body & x & ->).
    exists body. rewrite Hpre in Z2. rewrite <- !app_assoc in Z2.
    assert (x = closing opn).
    { rewrite !app_assoc in Z2. apply app_inj_tail in Z2. symmetry. apply Z2. }
    subst x. split; [rewrite Hpre, Z2; reflexivity|]. rewrite Z3, <- app_assoc. reflexivity. }
  destruct k.
  - destruct e; try (do 4 eexists; split; [reflexivity|]; split; [exact I1|discriminate]).
    rewrite E2. cbn [obind]. do 4 eexists. split; [reflexivity|]. split; [exact I2|exact Hgood].
  - rewrite E2. cbn [obind]. do 4 eexists. split; [reflexivity|]. split; [exact I2|exact Hgood].
  - rewrite E2. cbn [obind]. do 4 eexists. split; [reflexivity|]. split; [exact I2|exact Hgood].
Qed.

(** Fuel that is too small is the only way not to return. *)
Lemma raw_loop_fuel o opn cls : forall f f' level tk s r,
  raw_loop f o opn cls level tk s = Ok r -> f <= f' -> raw_loop f' o opn cls level tk s = Ok r.
Proof.
  induction f as [|f IH]; intros f' level tk s r E Hf.
  - destruct level; cbn in E; [|discriminate]. destruct f'; exact E.
  - destruct f' as [|f']; [lia|]. cbn [raw_loop] in *. destruct level; [exact E|].
    destruct (nextToken o tk s) as [[[s1 e] tk1]| |]; cbn [obind] in *; try discriminate.
    destruct e; try exact E. apply IH; [exact E|lia].
Qed.
Lemma raw_to_fuel o k id txt tk s f f' r :
  raw_to f o k id txt tk s = Ok r -> f <= f' -> raw_to f' o k id txt tk s = Ok r.
Proof.
  unfold raw_to. destruct (raw_start _ _) as [[opn cls]|]; [|auto].
  destruct (copyFromValue id txt tk s) as [s0| |]; cbn [obind]; try discriminate. intros E Hf.
  destruct (raw_loop f o opn cls 1 tk s0) as [[[s1 e] tk1]| |] eqn:E1; cbn [obind] in E; try discriminate.
  rewrite (raw_loop_fuel _ _ _ _ _ _ _ _ _ E1 Hf). exact E.
Qed.
Lemma raw_ref_fuel o k tk s f f' r :
  raw_ref_to f o k tk s = Ok r -> f <= f' -> raw_ref_to f' o k tk s = Ok r.
Proof.
  unfold raw_ref_to. destruct (raw_start _ _) as [[opn cls]|]; [|auto]. intros E Hf.
  destruct (raw_loop f o opn cls 1 tk s) as [[[s1 e] tk1]| |] eqn:E1; cbn [obind] in E; try discriminate.
  rewrite (raw_loop_fuel _ _ _ _ _ _ _ _ _ E1 Hf). exact E.
Qed.

Lemma next_bracket o nt s s0 tk : cap_inv s -> nextToken o nt s = Ok (s0, NoError, tk) ->
  cap_inv s0 /\ (is_bracket (tk_value_type tk) = true -> just_read s0 tk) /\
  stack_step (tk_value_type tk) (t_stack s) (t_stack s0).
Proof.
  intros Hi E. destruct (nextToken_copies _ _ _ _ _ _ Hi E) as (N1 & _ & N3 & _).
  split; [exact N1|]. split; [exact (N3 eq_refl)|].
  destruct (nextToken_ok o nt s (proj1 Hi)) as (s1' & e' & tk' & E' & _ & S1 & _). rewrite E in E'.
  injection E' as <- <- <-. apply S1; [reflexivity|apply Hi].
Qed.

(** Every step of a capturing session keeps the invariant. *)
Lemma capturing_inv o s : capturing o s -> cap_inv s.
Proof.
  induction 1 as [|s l _ IH|s d _ IH|s nt s1 e nt1 _ IH E|s t _ IH|s s1 _ IH E
                  |s nt s0 tk f k id txt s1 e tk1 out _ IH E1 Hid E2|s tk f k s1 e tk1 out _ IH E].
  - split; [|split; [reflexivity|left; repeat split; reflexivity]].
    split; [split; [reflexivity|constructor]|discriminate].
  - exact IH.
  - destruct IH as (H & Hp & Hi). split; [|split; [exact Hp|exact Hi]].
    destruct H as [H Hco]. split; [|exact Hco]. cbn [t_parsed addData set_bufs]. rewrite Hp in *.
    destruct H as [Hcur Hcp]. split; [|exact Hcp]. unfold cur_ok in *. cbn.
    destruct (t_bufs s); cbn; [rewrite Hcur; apply Nat.le_0_l|exact Hcur].
  - apply (nextToken_copies _ _ _ _ _ _ IH E).
  - exact IH.
  - unfold popScope in E. destruct (t_scope s); [discriminate|]. injection E as <-. exact IH.
  - destruct (next_bracket _ _ _ _ _ IH E1) as (I0 & J0 & St).
    destruct (raw_start k (tk_value_type tk)) as [[opn cls]|er] eqn:Ek.
    + destruct (raw_start_pair _ _ _ _ Ek) as [Ht Hpair].
      assert (Hs : t_stack s0 = opn :: t_stack s).
      { rewrite Ht in St. destruct Hpair as [[-> ->]|[-> ->]]; exact St. }
      destruct (raw_to_ok o (f + S (weight s0)) k id txt tk s0 opn cls (t_stack s) I0) as (s1' & e' & tk1' & out' & E' & I1 & _);
        [apply J0; rewrite Ht; destruct Hpair as [[-> ->]|[-> ->]]; reflexivity|exact Ek|exact Hs|exact Hid|lia|].
      rewrite (raw_to_fuel _ _ _ _ _ _ _ (f + S (weight s0)) _ E2) in E' by lia. injection E' as <- <- <- <-. exact I1.
    + unfold raw_to in E2. rewrite Ek in E2. injection E2 as <- <- <- <-. exact I0.
  - unfold raw_ref_to in E. destruct (raw_start k (tk_value_type tk)) as [[opn cls]|er] eqn:Ek; [|injection E as <- <- <- <-; exact IH].
    destruct (raw_loop f o opn cls 1 tk s) as [[[s2 e2] tk2]| |] eqn:E1; cbn [obind] in E; try discriminate.
    assert (G : forall f level tk s r, cap_inv s -> raw_loop f o opn cls level tk s = Ok r -> cap_inv (fst (fst r))).
    { clear. induction f as [|f IH]; intros level tk s r Hi E; cbn [raw_loop] in E.
      - destruct level; [|discriminate]. injection E as <-. exact Hi.
      - destruct level; [injection E as <-; exact Hi|].
        destruct (nextToken o tk s) as [[[s1 e] tk1]| |] eqn:En; cbn [obind] in E; try discriminate.
        pose proof (proj1 (nextToken_copies _ _ _ _ _ _ Hi En)) as Hi1.
        destruct e; try (injection E as <-; exact Hi1). apply IH in E; assumption. }
    pose proof (G _ _ _ _ _ IH E1) as I2. cbn in I2.
    destruct e2; try (injection E as <- <- <- <-; exact I2).
    destruct (dr_loc _); try discriminate. destruct (dr_loc _); try discriminate. destruct (t_bufs s2); try discriminate.
    destruct (_ && _); [|discriminate]. destruct (slice _ _ _); cbn [obind] in E; try discriminate.
    injection E as <- <- <- <-. exact I2.
Qed.

(** The references: exact when no buffer was given up in between. *)
Lemma raw_ref_ok o f k tk s opn cls base :
  cap_inv s -> just_read s tk -> raw_start k (tk_value_type tk) = inl (opn, cls) -> t_stack s = opn :: base ->
  t_cont s = false -> dr_loc (tk_value tk) <> InIntermediate -> weight s < f ->
  (exists s1 e tk1, raw_loop f o opn cls 1 tk s = Ok (s1, e, tk1) /\ cap_inv s1 /\ (buffers_left s1 = buffers_left s ->
    exists out, raw_ref_to f o k tk s = Ok (s1, e, tk1, out) /\
    (e = NoError -> t_stack s1 = base /\ exists body, out = Some ([opening opn] ++ body ++ [closing opn]) /\
       unread s = body ++ [closing opn] ++ unread s1))).
Proof.
  intros Hinv Hjr Hk Hst Hcf Hloc Hw. destruct (raw_start_pair _ _ _ _ Hk) as [Ht Hpair].
  destruct (raw_loop_ok o opn cls base Hpair f 1 tk s Hinv) as (s1 & e & tk1 & E1 & I1 & C1 & BL & R1 & R2 & R3).
  { exists []. split; [exact Hst|reflexivity]. }
  { exact Hw. }
  exists s1, e, tk1. split; [exact E1|]. split; [exact I1|]. intros Hbl.
  unfold raw_ref_to. rewrite Hk, E1. cbn [obind].
  destruct e; try (eexists; split; [reflexivity|discriminate]).
  destruct Hjr as (c & off & A1 & A2 & A3 & A4 & A5 & _).
  destruct A5 as [A5|[A5 _]]; [|congruence]. rewrite A5.
  destruct (R1 eq_refl) as ((c1 & off1 & B1 & B2 & B3 & B4 & B5 & _) & X2 & X3 & X4).
  specialize (R3 eq_refl Hbl Hcf).
  destruct B5 as [B5|[_ B5]]; [|congruence]. rewrite B5.
  assert (Hne : t_bufs s <> []) by (intros Hx; unfold first_buf in A3; rewrite Hx in A3; destruct off; discriminate).
  destruct (R2 eq_refl Hbl Hne) as (Y1 & Y1' & Y2).
  unfold first_buf in A3, B3. rewrite Y1 in *. destruct (t_bufs s) as [|buf bs] eqn:Hb; [congruence|].
  rewrite Hbl, Nat.eqb_refl, B4. cbn [andb length].
  assert (Hoff : off < off1).
  { unfold bytes_left in X4. rewrite Y1, Hb, Y1', (proj1 (proj2 Hinv)), (proj1 (proj2 I1)) in X4. lia. }
  destruct (Nat.leb_spec off (off1 + 1)); [|lia].
  assert (Hlen : off1 < length buf) by (apply nth_error_Some; congruence).
  unfold slice. destruct (Nat.leb_spec (off + (off1 + 1 - off)) (length buf)); [|lia]. cbn [obind].
  eexists. split; [reflexivity|]. intros _. split; [exact X3|].
  rewrite Ht in A1. pose proof (proj1 (pair_bytes _ _ Hpair c) A1) as Hc. subst c.
  rewrite X2 in B1. pose proof (proj2 (pair_bytes _ _ Hpair c1) B1) as Hc. subst c1.
  exists (firstn (off1 - S off) (skipn (S off) buf)).
  assert (Hb1 : skipn (off1 - S off) (skipn (S off) buf) = closing opn :: skipn (S off1) buf).
  { rewrite skipn_plus. replace (S off + (off1 - S off)) with off1 by lia. apply nth_skipn_cons. exact B3. }
  split.
  - f_equal. rewrite (nth_skipn_cons buf off _ A3). replace (off1 + 1 - off) with (S (off1 - S off + 1)) by lia. cbn [firstn app].
    f_equal. set (l := skipn (S off) buf) in *. set (n := off1 - S off) in *.
    replace (firstn (n + 1) l) with (firstn (n + 1) (firstn n l ++ skipn n l)) by (rewrite firstn_skipn; reflexivity).
    assert (Hn : length (firstn n l) = n).
    { apply firstn_length_le. unfold l, n. rewrite skipn_length. lia. }
    rewrite firstn_app, Hn. replace (n + 1 - n) with 1 by lia. rewrite Hb1. rewrite firstn_all2 by lia. reflexivity.
  - unfold unread, pending. rewrite Hb, Y1, Y1'. cbn [concat]. rewrite <- app_assoc. set (r := concat bs ++ _).
    rewrite A2, B2, !skipn_app. replace (S off - length buf) with 0 by lia. replace (S off1 - length buf) with 0 by lia. change (skipn 0 r) with r.
    set (body := firstn _ _) in *.
    assert (Hx : skipn (S off) buf = body ++ [closing opn] ++ skipn (S off1) buf)
      by (cbn [app]; rewrite <- Hb1; symmetry; apply firstn_skipn).
    rewrite Hx, <- !app_assoc. reflexivity.
Qed.

(** The tokens between the brackets are balanced. *)
Lemma raw_loop_reads o opn cls base : pair_of opn cls -> forall f fr tk s s1 tk1,
  cap_inv s -> t_stack s = fr ++ opn :: base ->
  raw_loop f o opn cls (S (count_own opn fr)) tk s = Ok (s1, NoError, tk1) ->
  exists ts, reads o tk s (ts ++ [tk1]) tk1 s1 /\ closes fr (map tk_value_type ts) /\ tk_value_type tk1 = cls.
Proof.
  intros Hpair. induction f as [|f IH]; intros fr tk s s1 tk1 Hinv Hst E; cbn [raw_loop] in E; [discriminate|].
  destruct (nextToken o tk s) as [[[s2 e2] tk2]| |] eqn:En; cbn [obind] in E; try discriminate.
  destruct e2; try discriminate.
  destruct (next_bracket _ _ _ _ _ Hinv En) as (I2 & _ & St). rewrite Hst in St.
  assert (Hrec : forall fr', t_stack s2 = fr' ++ opn :: base ->
     raw_level opn cls (tk_value_type tk2) (S (count_own opn fr)) = S (count_own opn fr') ->
     (forall l, closes fr' l -> closes fr (tk_value_type tk2 :: l)) ->
     exists ts, reads o tk s (ts ++ [tk1]) tk1 s1 /\ closes fr (map tk_value_type ts) /\ tk_value_type tk1 = cls).
  { intros fr' H1 H2 H3. rewrite H2 in E. destruct (IH fr' tk2 s2 s1 tk1 I2 H1 E) as (ts & R1 & R2 & R3).
    exists (tk2 :: ts). split; [econstructor; [exact En|exact R1]|]. split; [apply H3; exact R2|exact R3]. }
  assert (Hother : is_bracket (tk_value_type tk2) = false -> t_stack s2 = fr ++ opn :: base ->
     exists ts, reads o tk s (ts ++ [tk1]) tk1 s1 /\ closes fr (map tk_value_type ts) /\ tk_value_type tk1 = cls).
  { intros Hb H1. apply (Hrec fr H1).
    - unfold raw_level. destruct Hpair as [[-> ->]|[-> ->]]; destruct (tk_value_type tk2); try discriminate Hb; reflexivity.
    - intros l. apply closes_other; intros Hx; rewrite Hx in Hb; discriminate. }
  assert (Hopen : forall t, tk_value_type tk2 = t -> t = TObjectStart \/ t = TArrayStart -> t_stack s2 = t :: fr ++ opn :: base ->
     exists ts, reads o tk s (ts ++ [tk1]) tk1 s1 /\ closes fr (map tk_value_type ts) /\ tk_value_type tk1 = cls).
  { intros t Ht Hor H1. apply (Hrec (t :: fr) H1).
    - unfold raw_level. rewrite Ht. cbn [count_own]. unfold own.
      destruct Hpair as [[-> ->]|[-> ->]]; destruct Hor as [-> | ->]; reflexivity.
    - intros l Hl. rewrite Ht. apply closes_open; [exact Hor|exact Hl]. }
  assert (Hclose : forall t, tk_value_type tk2 = close_of t -> t = TObjectStart \/ t = TArrayStart -> fr ++ opn :: base = t :: t_stack s2 ->
     exists ts, reads o tk s (ts ++ [tk1]) tk1 s1 /\ closes fr (map tk_value_type ts) /\ tk_value_type tk1 = cls).
  { intros t Ht Hor H1. destruct fr as [|f0 fr]; cbn [app] in H1; injection H1 as H0 H1.
    - subst t. assert (Hc : tk_value_type tk2 = cls) by (destruct Hpair as [[-> ->]|[-> ->]]; exact Ht).
      assert (Hl : raw_level opn cls (tk_value_type tk2) 1 = 0)
        by (unfold raw_level; rewrite Hc; destruct Hpair as [[-> ->]|[-> ->]]; reflexivity).
      cbn [count_own] in E. rewrite Hl in E.
      assert (E0 : Ok (s2, NoError, tk2) = Ok (s1, NoError, tk1)) by (destruct f; exact E).
      injection E0 as <- <-. exists []. split; [econstructor; [exact En|constructor]|]. split; [constructor|exact Hc].
    - subst f0. apply (Hrec fr (eq_sym H1)).
      + unfold raw_level. rewrite Ht. cbn [count_own]. unfold own.
        destruct Hpair as [[-> ->]|[-> ->]]; destruct Hor as [-> | ->]; cbn; lia.
      + intros l Hl. rewrite Ht. exists [], l. split; [reflexivity|]. split; [constructor|exact Hl]. }
  destruct (tk_value_type tk2) eqn:Hvt; cbn [stack_step] in St;
    try (apply Hother; [reflexivity|exact St]);
    try (apply (Hopen _ eq_refl); [auto|exact St]);
    [apply (Hclose TObjectStart); [reflexivity|auto|exact St]|apply (Hclose TArrayStart); [reflexivity|auto|exact St]].
Qed.

(** ** All together *)

Lemma capture_correct o s nt s0 tk k id txt opn cls :
  capturing o s -> nextToken o nt s = Ok (s0, NoError, tk) -> ~ In id (map fst (t_copy s0)) ->
  raw_start k (tk_value_type tk) = inl (opn, cls) ->
  exists f0 s1 e tk1 out,
    (forall f, f0 <= f -> raw_to f o k id txt tk s0 = Ok (s1, e, tk1, out)) /\
    (e = NoError ->
       (exists body, out = txt ++ [opening opn] ++ body ++ [closing opn] /\
          unread s0 = body ++ [closing opn] ++ unread s1) /\
       t_stack s1 = t_stack s /\
       (exists s0' s1' ts, copyFromValue id txt tk s0 = Ok s0' /\ reads o tk s0' (ts ++ [tk1]) tk1 s1' /\
          balanced (map tk_value_type ts) /\ tk_value_type tk1 = cls)).
Proof.
  intros Hc En Hid Hk. pose proof (capturing_inv _ _ Hc) as Hinv.
  destruct (next_bracket _ _ _ _ _ Hinv En) as (I0 & J0 & St).
  destruct (raw_start_pair _ _ _ _ Hk) as [Ht Hpair].
  assert (Hs : t_stack s0 = opn :: t_stack s).
  { rewrite Ht in St. destruct Hpair as [[-> ->]|[-> ->]]; exact St. }
  assert (Hj : just_read s0 tk) by (apply J0; rewrite Ht; destruct Hpair as [[-> ->]|[-> ->]]; reflexivity).
  destruct (raw_to_ok o (S (weight s0)) k id txt tk s0 opn cls (t_stack s) I0 Hj Hk Hs Hid (Nat.lt_succ_diag_r _))
    as (s1 & e & tk1 & out & E & _ & G).
  exists (S (weight s0)), s1, e, tk1, out. split; [intros f Hf; exact (raw_to_fuel _ _ _ _ _ _ _ _ _ E Hf)|].
  intros He. destruct (G He) as (G1 & G2 & _ & G4). split; [exact G4|]. split; [exact G1|].
  destruct (copyFrom_ok id txt tk s0 I0 Hj) as (s0' & E0 & I0' & _ & _ & St0 & _).
  unfold raw_to in E. rewrite Hk, E0 in E. cbn [obind] in E.
  destruct (raw_loop (S (weight s0)) o opn cls 1 tk s0') as [[[s1' e'] tk1']| |] eqn:El; cbn [obind] in E; try discriminate.
  assert (Hx : e' = NoError /\ tk1' = tk1).
  { destruct k, e'; try (injection E as <- <- <- <-; discriminate);
      (destruct (copyIncludingValue id s1') as [[s2 o2]| |]; cbn [obind] in E; try discriminate; injection E as <- <- <- <-; auto; discriminate). }
  destruct Hx as [-> ->].
  destruct (raw_loop_reads o opn cls (t_stack s) Hpair (S (weight s0)) [] tk s0' s1' tk1 I0' ltac:(rewrite St0; exact Hs) El)
    as (ts & R1 & R2 & R3).
  exists s0', s1', ts. auto.
Qed.

Lemma reference_correct o s nt s0 tk k opn cls :
  capturing o s -> nextToken o nt s = Ok (s0, NoError, tk) ->
  raw_start k (tk_value_type tk) = inl (opn, cls) -> dr_loc (tk_value tk) <> InIntermediate ->
  exists f0 s1 e tk1,
    (forall f, f0 <= f -> raw_loop f o opn cls 1 tk s0 = Ok (s1, e, tk1)) /\
    (buffers_left s1 = buffers_left s0 ->
     exists out, (forall f, f0 <= f -> raw_ref_to f o k tk s0 = Ok (s1, e, tk1, out)) /\
       (e = NoError ->
        (exists body, out = Some ([opening opn] ++ body ++ [closing opn]) /\
           unread s0 = body ++ [closing opn] ++ unread s1) /\
        t_stack s1 = t_stack s /\
        (exists ts, reads o tk s0 (ts ++ [tk1]) tk1 s1 /\
           balanced (map tk_value_type ts) /\ tk_value_type tk1 = cls))).
Proof.
  intros Hc En Hk Hloc. pose proof (capturing_inv _ _ Hc) as Hinv.
  destruct (next_bracket _ _ _ _ _ Hinv En) as (I0 & J0 & St).
  destruct (raw_start_pair _ _ _ _ Hk) as [Ht Hpair].
  assert (Hs : t_stack s0 = opn :: t_stack s).
  { rewrite Ht in St. destruct Hpair as [[-> ->]|[-> ->]]; exact St. }
  assert (Hj : just_read s0 tk) by (apply J0; rewrite Ht; destruct Hpair as [[-> ->]|[-> ->]]; reflexivity).
  destruct (nextToken_copies _ _ _ _ _ _ Hinv En) as (_ & _ & _ & _ & _ & _ & _ & N8 & _).
  destruct (raw_ref_ok o (S (weight s0)) k tk s0 opn cls (t_stack s) I0 Hj Hk Hs (N8 eq_refl) Hloc (Nat.lt_succ_diag_r _))
    as (s1 & e & tk1 & El & _ & G).
  exists (S (weight s0)), s1, e, tk1. split; [intros f Hf; exact (raw_loop_fuel _ _ _ _ _ _ _ _ _ El Hf)|].
  intros Hbl. destruct (G Hbl) as (out & E & G1). exists out.
  split; [intros f Hf; exact (raw_ref_fuel _ _ _ _ _ _ _ E Hf)|].
  intros He. destruct (G1 He) as (G2 & G3). split; [exact G3|]. split; [exact G2|]. subst e.
  destruct (raw_loop_reads o opn cls (t_stack s) Hpair (S (weight s0)) [] tk s0 s1 tk1 I0 Hs El) as (ts & R1 & R2 & R3).
  exists ts. auto.
Qed.
