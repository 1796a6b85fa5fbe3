(** Lemmas about the scanners of ScanModel.v: the vectorised variants compute the same
    counts as the scalar ones. *)
From Verif Require Import Base ScanModel.
From Coq Require Import Lia ZifyBool ZifyNat ZifyN.

(** ** Bytes *)

Lemma byte_eqb_eq (a b : byte) : Byte.eqb a b = true <-> a = b.
Proof.
  split.
  - apply Byte.byte_dec_bl.
  - apply Byte.byte_dec_lb.
Qed.

Lemma byte_eqb_neq (a b : byte) : Byte.eqb a b = false <-> a <> b.
Proof.
  split.
  - intros H E. subst. rewrite (Byte.byte_dec_lb (x:=b) (y:=b) eq_refl) in H. discriminate.
  - intros H. destruct (Byte.eqb a b) eqn:E; [|reflexivity].
    apply byte_eqb_eq in E. contradiction.
Qed.

Lemma byte_eqb_refl (a : byte) : Byte.eqb a a = true.
Proof. apply byte_eqb_eq. reflexivity. Qed.

Lemma bytes_eqb_eq (a b : bytes) : bytes_eqb a b = true <-> a = b.
Proof.
  revert b. induction a as [|x a IH]; intros [|y b]; cbn [bytes_eqb]; try (split; congruence).
  rewrite andb_true_iff, byte_eqb_eq, IH. split.
  - intros [-> ->]. reflexivity.
  - intros E. injection E as -> ->. auto.
Qed.

(** ** Character classes: the table and the explicit tests agree *)

Lemma number_class (c : byte) : vec_number_char c = has c L_NumberEnd.
Proof. destruct c; reflexivity. Qed.

Lemma ascii_class (c : byte) :
  vec_ascii_char c =
  negb (N.land (lookup c) (N.lor L_AsciiLetters (N.lor L_Digits L_HatUnderscoreAprostoph)) =? 0)%N.
Proof. destruct c; reflexivity. Qed.

Lemma ascii_unreachable (c : byte) :
  vec_ascii_char c = false ->
  in_range 65 90 c || in_range 94 122 c || in_range 48 57 c = false.
Proof. destruct c; cbn; intros H; try discriminate H; reflexivity. Qed.

Lemma str_class (c : byte) : is_str_special c = (lookup c =? L_StrEndOrBackSlash)%N.
Proof. destruct c; reflexivity. Qed.

Lemma nul_not_number : vec_number_char c_nul = false.
Proof. reflexivity. Qed.

(** ** find_index and scalar_count *)

Lemma find_index_Some p l k :
  find_index p l = Some k ->
  k < length l /\ scalar_count p l = k /\
  exists c, nth_error l k = Some c /\ p c = true.
Proof.
  revert k. induction l as [|c l IH]; intros k; cbn [find_index]; [discriminate|].
  cbn [scalar_count length]. destruct (p c) eqn:Hp.
  - intros E. injection E as <-. repeat split; [lia|]. exists c. auto.
  - destruct (find_index p l) as [j|]; [|discriminate].
    intros E. injection E as <-. destruct (IH j eq_refl) as (H1 & H2 & x & H3 & H4).
    repeat split; [lia|lia|]. exists x. auto.
Qed.

Lemma find_index_None p l :
  find_index p l = None -> scalar_count p l = length l /\ Forall (fun c => p c = false) l.
Proof.
  induction l as [|c l IH]; cbn [find_index scalar_count length]; [auto|].
  destruct (p c) eqn:Hp; [discriminate|].
  destruct (find_index p l); [discriminate|].
  intros _. destruct (IH eq_refl) as [H1 H2]. split; [lia|]. constructor; auto.
Qed.

Lemma find_index_scalar p l :
  find_index p l = if scalar_count p l <? length l then Some (scalar_count p l) else None.
Proof.
  induction l as [|c l IH]; [reflexivity|]. cbn [find_index scalar_count length].
  destruct (p c); [reflexivity|]. rewrite IH.
  destruct (Nat.ltb_spec (scalar_count p l) (length l)) as [H|H];
    destruct (Nat.ltb_spec (S (scalar_count p l)) (S (length l))) as [H'|H']; try lia; reflexivity.
Qed.

Lemma scalar_count_le p l : scalar_count p l <= length l.
Proof. induction l as [|c l IH]; cbn [scalar_count length]; [lia|]. destruct (p c); lia. Qed.

Lemma scalar_count_firstn p l : Forall (fun c => p c = false) (firstn (scalar_count p l) l).
Proof.
  induction l as [|c l IH]; cbn [scalar_count]; [constructor|].
  destruct (p c) eqn:Hp; cbn [firstn]; constructor; auto.
Qed.

Lemma scalar_count_app p l1 l2 :
  Forall (fun c => p c = false) l1 -> scalar_count p (l1 ++ l2) = length l1 + scalar_count p l2.
Proof.
  induction 1 as [|c l Hc _ IH]; [reflexivity|].
  cbn [app scalar_count length]. rewrite Hc, IH. reflexivity.
Qed.

Lemma scalar_count_stop p l c l2 :
  Forall (fun c => p c = false) l -> p c = true -> scalar_count p (l ++ c :: l2) = length l.
Proof.
  intros H Hc. rewrite scalar_count_app by exact H. cbn [scalar_count]. rewrite Hc. lia.
Qed.

Lemma scalar_count_ext p q l : (forall c, p c = q c) -> scalar_count p l = scalar_count q l.
Proof.
  intros E. induction l as [|c l IH]; cbn [scalar_count]; [reflexivity|]. rewrite E, IH. reflexivity.
Qed.

Lemma find_index_ext p q l : (forall c, p c = q c) -> find_index p l = find_index q l.
Proof.
  intros E. induction l as [|c l IH]; cbn [find_index]; [reflexivity|]. rewrite E, IH. reflexivity.
Qed.

Lemma find_index_firstn p l n k :
  find_index p (firstn n l) = Some k -> find_index p l = Some k.
Proof.
  revert n k. induction l as [|c l IH]; intros n k; destruct n as [|n]; cbn [firstn find_index];
    try discriminate.
  destruct (p c); [auto|].
  destruct (find_index p (firstn n l)) as [j|] eqn:E; [|discriminate].
  rewrite (IH _ _ E). auto.
Qed.

(** ** lane_scan *)

Lemma lane_scan_spec p w : 0 < w -> forall fuel rest n hit,
  length rest < fuel ->
  lane_scan fuel w p rest = (n, hit) ->
  n <= length rest /\
  Forall (fun c => p c = false) (firstn n rest) /\
  (hit = true -> find_index p rest = Some n) /\
  (hit = false -> length rest - n < w).
Proof.
  intros Hw fuel. induction fuel as [|f IH]; intros rest n hit Hf; [lia|].
  cbn [lane_scan]. destruct (Nat.leb_spec w (length rest)) as [Hle|Hgt].
  - destruct (find_index p (firstn w rest)) as [k|] eqn:Hk.
    + intros E. injection E as <- <-.
      pose proof (find_index_firstn _ _ _ _ Hk) as Hk'.
      destruct (find_index_Some _ _ _ Hk') as (H1 & H2 & _).
      repeat split; try lia; auto; try discriminate.
      rewrite <- H2. apply scalar_count_firstn.
    + destruct (lane_scan f w p (skipn w rest)) as [m b] eqn:Hm.
      intros E. injection E as <- <-.
      assert (Hlen : length (skipn w rest) = length rest - w) by apply skipn_length.
      destruct (IH (skipn w rest) m b ltac:(lia) Hm) as (H1 & H2 & H3 & H4).
      destruct (find_index_None _ _ Hk) as [_ Hnone].
      assert (Hsplit : rest = firstn w rest ++ skipn w rest) by (symmetry; apply firstn_skipn).
      repeat split.
      * lia.
      * rewrite Hsplit at 1. rewrite firstn_app, firstn_length_le by lia.
        replace (w + m - w) with m by lia.
        rewrite firstn_all2 by (rewrite firstn_length_le by lia; lia).
        apply Forall_app. split; assumption.
      * intros ->. specialize (H3 eq_refl).
        rewrite find_index_scalar in *.
        assert (Hsc : scalar_count p rest = w + scalar_count p (skipn w rest)).
        { rewrite Hsplit at 1. rewrite scalar_count_app by assumption.
          rewrite firstn_length_le by lia. reflexivity. }
        rewrite Hsc. rewrite Hlen in H3.
        destruct (Nat.ltb_spec (scalar_count p (skipn w rest)) (length rest - w)) as [Hl|Hl];
          [|discriminate].
        injection H3 as H3.
        destruct (Nat.ltb_spec (w + scalar_count p (skipn w rest)) (length rest)); [|lia].
        f_equal. lia.
      * intros ->. specialize (H4 eq_refl). lia.
  - intros E. injection E as <- <-. cbn [firstn]. repeat split; auto; lia.
Qed.

Lemma firstn_forall_scalar p n l :
  n <= length l -> Forall (fun c => p c = false) (firstn n l) ->
  n + scalar_count p (skipn n l) = scalar_count p l.
Proof.
  intros Hn H. rewrite <- (firstn_skipn n l) at 2. rewrite scalar_count_app by assumption.
  rewrite firstn_length_le by lia. reflexivity.
Qed.

Lemma simd_count_eq w p rest : 0 < w -> simd_count w p rest = scalar_count p rest.
Proof.
  intros Hw. unfold simd_count.
  destruct (lane_scan (S (length rest)) w p rest) as [n hit] eqn:E.
  destruct (lane_scan_spec p w Hw _ _ _ _ (Nat.lt_succ_diag_r _) E) as (H1 & H2 & H3 & H4).
  destruct hit.
  - specialize (H3 eq_refl). destruct (find_index_Some _ _ _ H3) as (_ & H & _). auto.
  - apply firstn_forall_scalar; assumption.
Qed.

Lemma Forall_impl' {A} (P Q : A -> Prop) l : (forall a, P a -> Q a) -> Forall P l -> Forall Q l.
Proof. intros H. apply Forall_impl. exact H. Qed.

Lemma simd_count_break_eq w p q rest :
  0 < w -> (forall c, p c = false -> q c = false) ->
  simd_count_break w p q rest = scalar_count q rest.
Proof.
  intros Hw Hpq. unfold simd_count_break.
  destruct (lane_scan (S (length rest)) w p rest) as [n hit] eqn:E.
  destruct (lane_scan_spec p w Hw _ _ _ _ (Nat.lt_succ_diag_r _) E) as (H1 & H2 & H3 & H4).
  apply firstn_forall_scalar; [assumption|].
  eapply Forall_impl'; [|exact H2]. intros c Hc. apply Hpq. exact Hc.
Qed.

(** ** Numbers *)

Lemma number_vec_eq i rest :
  i <> Scalar -> number_vec i rest = scalar_count (fun c => negb (has c L_NumberEnd)) rest.
Proof.
  assert (E : forall c, negb (vec_number_char c) = negb (has c L_NumberEnd))
    by (intros c; rewrite number_class; reflexivity).
  intros Hi. destruct i; [congruence| | | | ]; cbn [number_vec].
  - apply scalar_count_ext. exact E.
  - rewrite simd_count_break_eq; [apply scalar_count_ext; exact E | lia |].
    intros c Hc. apply orb_false_iff in Hc. tauto.
  - rewrite simd_count_eq by lia. apply scalar_count_ext. exact E.
  - rewrite simd_count_break_eq; [apply scalar_count_ext; exact E | lia |].
    intros c Hc. apply orb_false_iff in Hc. tauto.
Qed.

Theorem findNumberEnd_isa i rest : findNumberEnd i rest = findNumberEnd Scalar rest.
Proof.
  destruct i; try reflexivity;
  (unfold findNumberEnd; destruct (16 <=? length rest) eqn:H16; [|reflexivity];
   rewrite number_vec_eq by discriminate;
   unfold number_scan; rewrite find_index_scalar;
   set (k := scalar_count _ rest);
   destruct (Nat.ltb_spec k (length rest)); [|rewrite andb_false_r; reflexivity];
   destruct (0 <? k); reflexivity).
Qed.

(** ** Words *)

Lemma ascii_scan_spec rest : forall n,
  ascii_scan rest n =
  match nth_error rest (scalar_count (fun c => negb (vec_ascii_char c)) rest) with
  | Some c => if Byte.eqb c c_nul then AsciiNeedMore
              else AsciiFound (n + scalar_count (fun c => negb (vec_ascii_char c)) rest)
  | None => AsciiNeedMore
  end.
Proof.
  induction rest as [|c tl IH]; intros n; [reflexivity|].
  cbn [ascii_scan scalar_count]. rewrite <- ascii_class.
  destruct (vec_ascii_char c) eqn:Hc; cbn [negb nth_error].
  - rewrite IH. destruct (nth_error tl _); [|reflexivity].
    rewrite Nat.add_succ_comm. reflexivity.
  - rewrite (ascii_unreachable _ Hc), Nat.add_0_r. reflexivity.
Qed.

Theorem findAsciiEnd_isa i rest : findAsciiEnd i rest = findAsciiEnd Scalar rest.
Proof.
  assert (H : forall i, i <> Scalar -> findAsciiEnd i rest = ascii_scan rest 0); [|
    destruct i; [reflexivity| apply H; discriminate ..]].
  clear i. intros i Hi.
  assert (E : findAsciiEnd i rest =
    if 16 <=? length rest then
      let consumed := simd_count 16 (fun c => negb (vec_ascii_char c)) rest in
      if consumed <? length rest then
        match nth_error rest consumed with
        | Some c => if Byte.eqb c c_nul then AsciiNeedMore else AsciiFound consumed
        | None => AsciiNeedMore
        end
      else ascii_scan (skipn consumed rest) consumed
    else ascii_scan rest 0) by (destruct i; [congruence|reflexivity..]).
  rewrite E. clear E.
  destruct (16 <=? length rest); [|reflexivity].
  rewrite simd_count_eq by lia. cbv zeta.
  set (k := scalar_count _ rest).
  rewrite (ascii_scan_spec rest 0). fold k.
  destruct (Nat.ltb_spec k (length rest)) as [Hk|Hk].
  - reflexivity.
  - assert (k = length rest) as Hkl
      by (pose proof (scalar_count_le (fun c => negb (vec_ascii_char c)) rest); unfold k in *; lia).
    rewrite skipn_all2 by lia. cbn [ascii_scan].
    rewrite (proj2 (nth_error_None rest k)) by lia. reflexivity.
Qed.

(** ** Strings *)

Lemma str_scan_shift rest : forall esc n m,
  str_scan esc rest (n + m) =
  (match fst (str_scan esc rest n) with Some k => Some (k + m) | None => None end,
   snd (str_scan esc rest n)).
Proof.
  induction rest as [|c tl IH]; intros esc n m; cbn [str_scan]; [reflexivity|].
  destruct esc; [apply (IH false (S n) m)|].
  destruct (lookup c =? L_StrEndOrBackSlash)%N; [|apply (IH false (S n) m)].
  destruct (Byte.eqb c c_backslash); [apply (IH true (S n) m)|].
  destruct (Byte.eqb c c_quote); [reflexivity|apply (IH false (S n) m)].
Qed.

Lemma str_scan_skip rest : forall n k,
  k <= length rest ->
  Forall (fun c => is_str_special c = false) (firstn k rest) ->
  str_scan false rest n = str_scan false (skipn k rest) (n + k).
Proof.
  induction rest as [|c tl IH]; intros n k Hk H; destruct k as [|k];
    cbn [skipn]; rewrite ?Nat.add_0_r; try reflexivity.
  cbn [firstn] in H. inversion H as [|? ? Hc Htl]. subst.
    cbn [str_scan]. rewrite <- str_class, Hc.
    rewrite (IH (S n) k); [f_equal; lia| cbn [length] in Hk; lia | exact Htl].
Qed.

Lemma str_bytes_scan rest : forall esc n,
  match str_scan esc rest n with
  | (Some k, e) => str_bytes esc rest n = (k, e) /\ n < k <= n + length rest /\ e = false
  | (None, e) => str_bytes esc rest n = (n + length rest, e)
  end.
Proof.
  induction rest as [|c tl IH]; intros esc n; cbn [str_scan str_bytes].
  - cbn [length]. rewrite Nat.add_0_r. reflexivity.
  - assert (Hgo : forall e',
      str_bytes e' tl (S n) = str_bytes e' tl (S n) ->
      match str_scan e' tl (S n) with
      | (Some k, e) => str_bytes e' tl (S n) = (k, e) /\ n < k <= n + length (c :: tl) /\ e = false
      | (None, e) => str_bytes e' tl (S n) = (n + length (c :: tl), e)
      end).
    { intros e' _. specialize (IH e' (S n)). destruct (str_scan e' tl (S n)) as [[k|] e].
      - destruct IH as (H1 & H2 & H3). cbn [length]. repeat split; auto; lia.
      - rewrite IH. cbn [length]. f_equal. lia. }
    destruct esc; [apply (Hgo false eq_refl)|].
    rewrite <- str_class. unfold is_str_special.
    destruct (Byte.eqb c c_backslash) eqn:Hb.
    + apply byte_eqb_eq in Hb. subst c. cbn [orb]. rewrite orb_true_r. apply (Hgo true eq_refl).
    + rewrite orb_false_r. destruct (Byte.eqb c c_quote) eqn:Hq.
      * cbn [length]. repeat split; lia.
      * apply (Hgo false eq_refl).
Qed.

Lemma str_width_pos i w : str_width i = Some w -> 0 < w.
Proof. destruct i; cbn [str_width]; intros E; inversion E; lia. Qed.

(** With is_escaped false on entry every build finds the same end and leaves the same escape
    state. *)
Theorem findStringEnd_isa i rest : findStringEnd i false rest = findStringEnd Scalar false rest.
Proof.
  unfold findStringEnd. cbn [str_width]. destruct (str_width i) as [w|] eqn:Hw; [|reflexivity].
  destruct (w <=? length rest) eqn:Hl; [|reflexivity].
  unfold findStringEnd_vec.
  destruct (lane_scan (S (length rest)) w is_str_special rest) as [n hit] eqn:E.
  destruct (lane_scan_spec _ w (str_width_pos _ _ Hw) _ _ _ _ (Nat.lt_succ_diag_r _) E)
    as (H1 & H2 & _ & _).
  rewrite (str_scan_skip rest 0 n H1 H2), Nat.add_0_l.
  pose proof (str_bytes_scan (skipn n rest) false n) as H.
  rewrite skipn_length in H.
  destruct (str_scan false (skipn n rest) n) as [[k|] e].
  - destruct H as (-> & Hk & ->). destruct (k <? length rest) eqn:Hkl; reflexivity.
  - rewrite H. destruct (Nat.ltb_spec (n + (length rest - n)) (length rest)); [lia|reflexivity].
Qed.

(** Entered in escaped state, a vectorised build agrees with the scalar one whenever it
    does not find a quote strictly inside the buffer; see PropTokenizer.v for the
    disagreement. *)
Lemma str_scan_None_length rest : forall esc n e,
  str_scan esc rest n = (None, e) -> e = true -> 
  exists l, rest = l ++ [c_backslash] \/ (rest = [] /\ esc = true).
Proof.
  induction rest as [|c tl IH]; intros esc n e; cbn [str_scan].
  - intros E Ht. injection E as ->. exists []. auto.
  - assert (Hgo : forall e', str_scan e' tl (S n) = (None, e) -> e = true ->
        (e' = true -> c = c_backslash) ->
        exists l, c :: tl = l ++ [c_backslash] \/ (c :: tl = [] /\ esc = true)).
    { intros e' H1 H2 Hc. destruct (IH _ _ _ H1 H2) as (l & [-> | [-> He]]).
      - exists (c :: l). auto.
      - exists []. left. rewrite (Hc He). reflexivity. }
    destruct esc; [intros H He; apply (Hgo false); congruence|].
    destruct (lookup c =? L_StrEndOrBackSlash)%N; [|intros H He; apply (Hgo false); congruence].
    destruct (Byte.eqb c c_backslash) eqn:Hb.
    + apply byte_eqb_eq in Hb. intros H He. apply (Hgo true); auto.
    + destruct (Byte.eqb c c_quote); [discriminate|]. intros H He. apply (Hgo false); congruence.
Qed.

(** ** Comments *)

Lemma comment_vec_eq rest :
  comment_vec rest =
  let k := scalar_count (fun c => Byte.eqb c c_nl) rest in
  if k <? length rest then S k else length rest.
Proof.
  unfold comment_vec.
  destruct (lane_scan (S (length rest)) 16 (fun c => Byte.eqb c c_nl) rest) as [n hit] eqn:E.
  destruct (lane_scan_spec _ 16 ltac:(lia) _ _ _ _ (Nat.lt_succ_diag_r _) E)
    as (H1 & H2 & H3 & _).
  pose proof (firstn_forall_scalar _ _ _ H1 H2) as Hs.
  pose proof (scalar_count_le (fun c => Byte.eqb c c_nl) (skipn n rest)) as Hle.
  rewrite skipn_length in *. cbv zeta.
  destruct hit.
  - specialize (H3 eq_refl). destruct (find_index_Some _ _ _ H3) as (H4 & H5 & _).
    rewrite H5. destruct (Nat.ltb_spec n (length rest)); [reflexivity|lia].
  - rewrite <- Hs.
    destruct (Nat.ltb_spec (scalar_count (fun c => Byte.eqb c c_nl) (skipn n rest))
                (length rest - n)) as [Hl|Hl];
    destruct (Nat.ltb_spec (n + scalar_count (fun c => Byte.eqb c c_nl) (skipn n rest))
                (length rest)) as [Hl'|Hl']; lia.
Qed.

Theorem skipComment_isa i nl rest : skipComment i nl rest = skipComment Scalar nl rest.
Proof.
  assert (H : i <> Scalar -> skipComment i nl rest = comment_scalar nl rest); [|
    destruct i; [reflexivity| apply H; discriminate ..]].
  intros Hi.
  assert (E : skipComment i nl rest =
    if (16 <=? length rest) && negb nl then
      let consumed := comment_vec rest in
      if (0 <? consumed) && (consumed <=? length rest) &&
         match nth_error rest (consumed - 1) with
         | Some c => Byte.eqb c c_nl
         | None => false
         end
      then Some consumed
      else comment_scalar nl rest
    else comment_scalar nl rest) by (destruct i; [congruence|reflexivity..]).
  rewrite E. clear E.
  destruct ((16 <=? length rest) && negb nl) eqn:Hc; [|reflexivity].
  apply andb_true_iff in Hc. destruct Hc as [_ Hnl]. apply negb_true_iff in Hnl. subst nl.
  cbv zeta. rewrite comment_vec_eq. cbv zeta.
  unfold comment_scalar. rewrite find_index_scalar.
  set (k := scalar_count _ rest).
  destruct (Nat.ltb_spec k (length rest)) as [Hk|Hk]; cycle 1.
  - destruct ((0 <? length rest) && (length rest <=? length rest) &&
      match nth_error rest (length rest - 1) with
      | Some c => Byte.eqb c c_nl
      | None => false
      end) eqn:Hb; [|reflexivity].
    exfalso. apply andb_true_iff in Hb. destruct Hb as [_ Hb].
    destruct (nth_error rest (length rest - 1)) as [c|] eqn:Hn; [|discriminate].
    assert (Hall : Forall (fun c => Byte.eqb c c_nl = false) rest).
    { pose proof (scalar_count_firstn (fun c => Byte.eqb c c_nl) rest) as Hf.
      fold k in Hf. rewrite firstn_all2 in Hf by lia. exact Hf. }
    rewrite Forall_forall in Hall. apply nth_error_In in Hn.
    rewrite (Hall c Hn) in Hb. discriminate.
  - replace (S k - 1) with k by lia.
    assert (Hn : exists c, nth_error rest k = Some c /\ Byte.eqb c c_nl = true).
    { assert (Hf : find_index (fun c => Byte.eqb c c_nl) rest = Some k).
      { rewrite find_index_scalar. fold k. destruct (Nat.ltb_spec k (length rest)); [auto|lia]. }
      destruct (find_index_Some _ _ _ Hf) as (_ & _ & H). exact H. }
    destruct Hn as (c & -> & ->).
    destruct (Nat.ltb_spec 0 (S k)); [|lia].
    destruct (Nat.leb_spec (S k) (length rest)); [reflexivity|lia].
Qed.

(** ** Whitespace *)

Lemma ws_skip_spec i rest :
  ws_skip i rest <= length rest /\
  Forall (fun c => vec_ws_char c = true) (firstn (ws_skip i rest) rest).
Proof.
  unfold ws_skip. destruct (str_width i) as [w|] eqn:Hw; [|split; [lia|constructor]].
  destruct (w <=? length rest); [|split; [lia|constructor]].
  rewrite simd_count_eq by (eapply str_width_pos; eauto).
  split; [apply scalar_count_le|].
  pose proof (scalar_count_firstn (fun c => negb (vec_ws_char c)) rest) as H.
  eapply Forall_impl'; [|exact H]. intros c Hc. apply negb_false_iff. exact Hc.
Qed.
