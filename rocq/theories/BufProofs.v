(** Printing into buffers of any size. *)
From Coq Require Import Lia ZArith.
From Verif Require Import Base JsonSpec IntModel IntProofs DoubleModel RyuModel RyuText BufSpec.
Local Open Scope Z_scope.

(** ** Nothing is written outside *)
Lemma store_ok b i c : 0 <= i < Z.of_nat (length b) -> exists b', store b i c = Ok b' /\ length b' = length b.
Proof.
  intros H. unfold store. replace ((0 <=? i) && (i <? Z.of_nat (length b))) with true.
  2:{ symmetry. apply andb_true_intro. split; [apply Z.leb_le|apply Z.ltb_lt]; lia. }
  eexists. split; [reflexivity|]. rewrite app_length. cbn [length]. rewrite firstn_length, skipn_length. lia.
Qed.

Lemma put_digits_ok n : forall b offset idx sig, 0 <= offset -> offset + idx < Z.of_nat (length b) ->
  exists b' idx' sig', put_digits n b offset idx sig = Ok (b', idx', sig') /\ length b' = length b /\ idx' <= idx.
Proof.
  induction n as [|n IH]; intros b offset idx sig Ho Hi; cbn [put_digits].
  - exists b, idx, sig. repeat split; lia.
  - destruct (Z.leb_spec 0 idx) as [L|L]; [|exists b, idx, sig; repeat split; lia].
    destruct (store_ok b (offset + idx) (digit sig) ltac:(lia)) as (b1 & -> & L1). cbn [obind].
    destruct (IH b1 offset (idx - 1) (sig / 10)%N Ho ltac:(lia)) as (b2 & i2 & s2 & -> & L2 & L3).
    exists b2, i2, s2. repeat split; lia.
Qed.

Lemma put_zeros_ok n : forall b offset idx before, 0 <= offset -> offset + idx < Z.of_nat (length b) ->
  exists b' idx' before', put_zeros n b offset idx before = Ok (b', idx', before') /\ length b' = length b /\ idx' <= idx.
Proof.
  induction n as [|n IH]; intros b offset idx before Ho Hi; cbn [put_zeros].
  - exists b, idx, before. repeat split; lia.
  - destruct (Z.leb_spec 0 idx) as [L|L]; [|exists b, idx, before; repeat split; lia].
    destruct (store_ok b (offset + idx) x30 ltac:(lia)) as (b1 & -> & L1). cbn [obind].
    destruct (IH b1 offset (idx - 1) (before - 1) Ho ltac:(lia)) as (b2 & i2 & s2 & -> & L2 & L3).
    exists b2, i2, s2. repeat split; lia.
Qed.

(** What follows the truncation (H 7787-7817). *)
Definition print_body (exp complete before after : Z) (significand : N) (separator : bool) (buffer : bytes) (offset : Z) :
    outcome (bytes * Z) :=
  let index_pos := Z.max (complete - 1) 0 in
  let* (buffer, index_pos, significand) := put_digits (Z.to_nat after) buffer offset index_pos significand in
  let* (buffer, index_pos) :=
    if separator then
      let* (buffer, index_pos) :=
        if (after =? 0) && (0 <=? index_pos) then
          let* buffer := store buffer (offset + index_pos) x30 in Ok (buffer, index_pos - 1)
        else Ok (buffer, index_pos) in
      if 0 <=? index_pos then
        let* buffer := store buffer (offset + index_pos) x2e in Ok (buffer, index_pos - 1)
      else Ok (buffer, index_pos)
    else Ok (buffer, index_pos) in
  let* (buffer, index_pos, before) := put_zeros (Z.to_nat exp) buffer offset index_pos before in
  let* (buffer, index_pos, _) := put_digits (Z.to_nat before) buffer offset index_pos significand in
  let* buffer := if (before <=? 0) && (0 <=? index_pos) then store buffer (offset + index_pos) x30 else Ok buffer in
  Ok (buffer, complete + offset).

Lemma print_expanded_body r buffer offset s complete before after :
  print_expanded r buffer offset s complete before after =
  let '(complete, before, after, significand, separator) := truncate s complete before after (d_significand r) in
  print_body (d_exp r) complete before after significand separator buffer offset.
Proof. reflexivity. Qed.

Lemma print_body_ok exp complete before after sig sep buffer offset : 0 <= offset ->
  offset + Z.max (complete - 1) 0 < Z.of_nat (length buffer) ->
  exists b', print_body exp complete before after sig sep buffer offset = Ok (b', complete + offset) /\ length b' = length buffer.
Proof.
  intros Ho Hi. unfold print_body. set (idx := Z.max (complete - 1) 0) in *. clearbody idx.
  destruct (put_digits_ok (Z.to_nat after) buffer offset idx sig Ho Hi) as (b1 & i1 & s1 & -> & L1 & I1). cbn [obind].
  match goal with |- context [obind (if sep then ?X else ?Y) _] => assert (H : exists b2 i2, (if sep then X else Y) = Ok (b2, i2) /\ length b2 = length buffer /\ i2 <= idx) end.
  { destruct sep; [|exists b1, i1; split; [reflexivity|lia]].
    match goal with |- context [obind (if ?c then ?X else ?Y) _] => assert (H : exists b2 i2, (if c then X else Y) = Ok (b2, i2) /\ length b2 = length buffer /\ i2 <= idx) end.
    { destruct ((after =? 0) && (0 <=? i1)) eqn:C; [|exists b1, i1; split; [reflexivity|lia]].
      apply andb_prop in C. destruct C as [_ C]. apply Z.leb_le in C.
      destruct (store_ok b1 (offset + i1) x30 ltac:(lia)) as (b2 & -> & L2). cbn [obind]. exists b2, (i1 - 1). split; [reflexivity|lia]. }
    destruct H as (b2 & i2 & -> & L2 & I2). cbn [obind].
    destruct (Z.leb_spec 0 i2) as [C|C]; [|exists b2, i2; split; [reflexivity|lia]].
    destruct (store_ok b2 (offset + i2) x2e ltac:(lia)) as (b3 & -> & L3). cbn [obind]. exists b3, (i2 - 1). split; [reflexivity|lia]. }
  destruct H as (b2 & i2 & -> & L2 & I2). cbn [obind].
  destruct (put_zeros_ok (Z.to_nat exp) b2 offset i2 before Ho ltac:(lia)) as (b3 & i3 & before' & -> & L3 & I3). cbn [obind].
  destruct (put_digits_ok (Z.to_nat before') b3 offset i3 s1 Ho ltac:(lia)) as (b4 & i4 & s4 & -> & L4 & I4). cbn [obind].
  destruct ((before' <=? 0) && (0 <=? i4)) eqn:C.
  - apply andb_prop in C. destruct C as [_ C]. apply Z.leb_le in C.
    destruct (store_ok b4 (offset + i4) x30 ltac:(lia)) as (b5 & -> & L5). cbn [obind]. exists b5. split; [reflexivity|lia].
  - cbn [obind]. exists b4. split; [reflexivity|lia].
Qed.

Lemma truncate_range s count E D : 1 <= s -> (1 <= count)%nat ->
  let '(complete, _, _, _, _) := truncate s (complete_of count E) (Z.of_nat count + E) (if E <? 0 then - E else 0) D in
  0 <= complete <= s.
Proof.
  intros Hs Hc. unfold truncate, complete_of. set (after := if E <? 0 then - E else 0).
  assert (Ha : 0 <= after /\ (after = 0 -> 0 <= E)) by (unfold after; destruct (Z.ltb_spec E 0); lia). clearbody after.
  destruct (Z.ltb_spec s (Z.max 1 (Z.of_nat count + E) + Z.max 1 after + 1)) as [L|L]; [|lia].
  set (rem := Z.max 1 (Z.of_nat count + E) + Z.max 1 after + 1 - s).
  destruct (Z.ltb_spec 0 (rem - Z.min rem after)) as [L1|L1].
  - replace (after - Z.min rem after =? 0) with true by (symmetry; apply Z.eqb_eq; lia).
    destruct (Z.ltb_spec 0 (rem - Z.min rem after - 1 - 1)); lia.
  - destruct (Z.eqb_spec (after - Z.min rem after) 0); lia.
Qed.

Lemma print_expanded_ok r count E buffer offset s : d_exp r = E -> (1 <= count)%nat -> 0 <= offset -> 1 <= s ->
  offset + s <= Z.of_nat (length buffer) ->
  exists b' k, print_expanded r buffer offset s (complete_of count E) (Z.of_nat count + E) (if E <? 0 then - E else 0) = Ok (b', k) /\
    length b' = length buffer /\ offset <= k <= offset + s.
Proof.
  intros HE Hc Ho Hs Hl. rewrite print_expanded_body. assert (R := truncate_range s count E (d_significand r) Hs Hc).
  destruct (truncate s _ _ _ _) as [[[[c b] a] sg] sep]. 
  destruct (print_body_ok (d_exp r) c b a sg sep buffer offset Ho ltac:(lia)) as (b' & -> & L).
  exists b', (c + offset). repeat split; lia.
Qed.

(** ** The text is cut off *)
Lemma copy_to_app l a m : (length l <= length m)%nat ->
  copy_to l (a ++ m) (Z.of_nat (length a)) = Ok (a ++ l ++ skipn (length l) m, Z.of_nat (length a + length l)).
Proof.
  intros H. destruct (take_n m (length l) H) as (m1 & m2 & -> & L). rewrite (copy_to_spec l a m1 m2 L). do 3 f_equal. f_equal.
  rewrite <- L. rewrite skipn_app, skipn_all, Nat.sub_diag. reflexivity.
Qed.

Lemma skipn_skipn {A} (x : nat) : forall y (l : list A), skipn x (skipn y l) = skipn (x + y) l.
Proof.
  intros y. induction y as [|y IH]; intros l; [rewrite Nat.add_0_r; reflexivity|]. rewrite Nat.add_succ_r.
  destruct l; [rewrite !skipn_nil; reflexivity|]. cbn [skipn]. apply IH.
Qed.

(** The parts of a text, one after the other, as far as there is room. *)
Definition cut (R : nat) (a l m : bytes) : bytes * Z := (a ++ firstn R l ++ skipn (length (firstn R l)) m, Z.of_nat (length a + length (firstn R l))).

Lemma print_scientific_cut r count E D a m s : d_exp r = E -> d_significand r = D -> d_count r = Z.of_nat count ->
  (1 <= count <= 17)%nat -> Z.abs (E + Z.of_nat count - 1) < 1000 ->
  s <= Z.of_nat (length a + length m) ->
  print_scientific r (a ++ m) (Z.of_nat (length a)) s
  = Ok (cut (Z.to_nat (s - Z.of_nat (length a))) a (scientific_text count E D) m).
Proof.
  intros HE HD HC Hc He Hs. unfold print_scientific. rewrite HE, HD, HC.
  change 17 with (Z.of_nat 17). change 0 with (Z.of_nat 0) at 1. rewrite small_buffer_spec by lia. cbn [obind repeat app].
  set (e := E + Z.of_nat count - 1) in *. destruct (count_exp e He) as ((PX & He3) & _). pose proof (exp_buffer e _ eq_refl He3) as HX.
  rewrite <- obind_assoc. rewrite HX. cbn [obind]. clear HX.
  pose proof (exp_text_length e) as LX. rewrite <- LX.
  unfold scientific_text in *. fold e.
  assert (ED : digits_of count D = digits_of 1 (D / 10 ^ N.of_nat (count - 1))%N ++ digits_of (count - 1) D).
  { rewrite <- digits_of_split. f_equal. lia. }
  rewrite ED. set (X := exp_text e) in *. set (d1 := digits_of 1 _) in *. set (ds := digits_of (count - 1) D) in *.
  assert (L1 : length d1 = 1%nat) by apply digits_of_length. assert (Ls : length ds = (count - 1)%nat) by apply digits_of_length.
  clearbody X d1 ds e. clear ED LX He He3 PX HE HD HC.
  rewrite <- !app_assoc. rewrite firstn_app_exact by exact L1.
  replace (skipn 1 (d1 ++ ds ++ repeat x00 (17 - 0 - count))) with (ds ++ repeat x00 (17 - 0 - count)).
  2:{ destruct d1 as [|? [|? ?]]; try discriminate L1. reflexivity. }
  set (R := Z.to_nat (s - Z.of_nat (length a))). unfold cut.
  destruct (Z.ltb_spec (Z.of_nat (length a)) s) as [H0|H0]; cbn [negb].
  2:{ replace R with 0%nat by (unfold R; lia). cbn [firstn length skipn app]. rewrite Nat.add_0_r. reflexivity. }
  assert (HR : s = Z.of_nat (length a + R)) by (unfold R; lia). assert (HR1 : (1 <= R)%nat) by (unfold R; lia). clearbody R. clear H0.
  destruct d1 as [|y [|? ?]]; try discriminate L1. cbn [app]. clear L1.
  rewrite copy_to_app by (cbn [length]; lia). cbn [obind length].
  destruct (Z.ltb_spec 1 (Z.of_nat count)) as [H1|H1]; cbn [andb].
  - destruct (Z.ltb_spec (Z.of_nat (length a + 1)) s) as [H2|H2]; cbn [negb].
    2:{ replace R with 1%nat by lia. reflexivity. }
    cbn [obind]. change (a ++ [y] ++ skipn 1 m) with (a ++ [y] ++ skipn 1 m). rewrite app_assoc.
    replace (length a + 1)%nat with (length (a ++ [y])) by (rewrite app_length; reflexivity).
    rewrite copy_to_app by (rewrite skipn_length; cbn [length]; lia). cbn [obind length]. rewrite skipn_skipn.
    rewrite app_assoc. replace (length (a ++ [y]) + 1)%nat with (length ((a ++ [y]) ++ [x2e])) by (rewrite app_length; reflexivity).
    set (b := (a ++ [y]) ++ [x2e]). assert (Lb : length b = (length a + 2)%nat) by (unfold b; rewrite !app_length; cbn; lia).
    destruct (Z.leb_spec (s - Z.of_nat (length b)) (Z.of_nat count - 1)) as [H3|H3].
    + rewrite Z.min_l by lia. set (k := Z.to_nat (s - Z.of_nat (length b))).
      assert (Lk : length (firstn k (ds ++ repeat x00 (17 - 0 - count))) = k) by (rewrite firstn_length, app_length, Ls; unfold k; lia).
      rewrite copy_to_app by (rewrite Lk, skipn_length; unfold k; lia). cbn [obind]. rewrite Lk.
      replace (s <=? Z.of_nat (length b + k)) with true by (symmetry; apply Z.leb_le; unfold k; lia).
      replace R with (S (S k)) by (unfold k; lia). cbn [firstn app].
      assert (EF : firstn k (ds ++ repeat x00 (17 - 0 - count)) = firstn k (ds ++ x65 :: X)).
      { rewrite !firstn_app. replace (k - length ds)%nat with 0%nat by (unfold k; lia). reflexivity. }
      rewrite EF in *. rewrite skipn_skipn. cbn [length]. rewrite Lk. do 2 f_equal; [|rewrite Lb; lia].
      unfold b. rewrite <- !app_assoc. cbn [app]. repeat f_equal. lia.
    + rewrite Z.min_r by lia. replace (Z.to_nat (Z.of_nat count - 1)) with (length ds) by lia. rewrite firstn_app_exact by reflexivity.
      rewrite copy_to_app by (rewrite skipn_length; lia). cbn [obind].
      replace (s <=? Z.of_nat (length b + length ds)) with false by (symmetry; apply Z.leb_gt; lia).
      rewrite skipn_skipn. rewrite app_assoc, <- app_length.
      rewrite copy_to_app by (rewrite skipn_length; cbn [length]; lia). cbn [obind length]. rewrite skipn_skipn.
      rewrite app_assoc. replace (length (b ++ ds) + 1)%nat with (length ((b ++ ds) ++ [x65])) by (rewrite app_length; reflexivity).
      set (c := (b ++ ds) ++ [x65]). assert (Lc : length c = (length a + 2 + length ds + 1)%nat) by (unfold c; rewrite !app_length, Lb; cbn; lia).
      set (k := Z.to_nat (Z.min (s - Z.of_nat (length c)) (Z.of_nat (length X)))).
      assert (EF : firstn k (X ++ repeat x00 (4 - length X)) = firstn (R - 3 - length ds) X).
      { destruct (Nat.le_gt_cases (R - 3 - length ds) (length X)) as [L|L].
        - replace k with (R - 3 - length ds)%nat by (unfold k; lia). rewrite firstn_app. replace (R - 3 - length ds - length X)%nat with 0%nat by lia.
          rewrite firstn_O, app_nil_r. reflexivity.
        - replace k with (length X) by (unfold k; lia). rewrite firstn_app_exact by reflexivity. rewrite firstn_all2 by lia. reflexivity. }
      rewrite EF. rewrite copy_to_app by (rewrite firstn_length, skipn_length; lia). rewrite skipn_skipn.
      assert (ET : firstn R (y :: x2e :: ds ++ x65 :: X) = y :: x2e :: ds ++ x65 :: firstn (R - 3 - length ds) X).
      { replace R with (S (S (length ds + S (R - 3 - length ds))))%nat at 1 by lia. cbn [firstn]. rewrite firstn_app, (firstn_all2 ds) by lia.
        replace (length ds + S (R - 3 - length ds) - length ds)%nat with (S (R - 3 - length ds)) by lia. reflexivity. }
      change (firstn R (y :: (x2e :: ds) ++ x65 :: X)) with (firstn R (y :: x2e :: ds ++ x65 :: X)). rewrite ET. cbn [length]. rewrite app_length. cbn [length].
      f_equal. f_equal; [|rewrite Lc; lia].
      unfold c, b. rewrite <- !app_assoc. cbn [app]. rewrite <- ?app_assoc. cbn [app]. repeat f_equal. lia.
  - assert (count = 1)%nat by lia. subst count. destruct ds; [|discriminate Ls]. cbn [app obind length].
    change (Z.of_nat 1 - 1) with 0. rewrite Z.min_r by lia. cbn [Z.to_nat firstn].
    match goal with |- context [copy_to [] ?b ?o] => change (copy_to [] b o) with (Ok (b, o)) end. cbn [obind].
    destruct (Z.leb_spec s (Z.of_nat (length a + 1))) as [H2|H2].
    { replace R with 1%nat by lia. reflexivity. }
    change (a ++ y :: skipn 1 m) with (a ++ [y] ++ skipn 1 m).
    rewrite (app_assoc a). replace (length a + 1)%nat with (length (a ++ [y])) by (rewrite app_length; reflexivity).
    rewrite copy_to_app by (rewrite skipn_length; cbn [length]; lia). cbn [obind length]. rewrite skipn_skipn.
    rewrite app_assoc. replace (length (a ++ [y]) + 1)%nat with (length ((a ++ [y]) ++ [x65])) by (rewrite app_length; reflexivity).
    set (c := (a ++ [y]) ++ [x65]). assert (Lc : length c = (length a + 2)%nat) by (unfold c; rewrite !app_length; cbn; lia).
    set (k := Z.to_nat (Z.min (s - Z.of_nat (length c)) (Z.of_nat (length X)))).
    assert (EF : firstn k (X ++ repeat x00 (4 - length X)) = firstn (R - 2) X).
    { destruct (Nat.le_gt_cases (R - 2) (length X)) as [L|L].
      - replace k with (R - 2)%nat by (unfold k; lia). rewrite firstn_app. replace (R - 2 - length X)%nat with 0%nat by lia.
        rewrite firstn_O, app_nil_r. reflexivity.
      - replace k with (length X) by (unfold k; lia). rewrite firstn_app_exact by reflexivity. rewrite firstn_all2 by lia. reflexivity. }
    rewrite EF. rewrite copy_to_app by (rewrite firstn_length, skipn_length; lia). rewrite skipn_skipn.
    assert (ET : firstn R (y :: x65 :: X) = y :: x65 :: firstn (R - 2) X) by (replace R with (S (S (R - 2)))%nat at 1 by lia; reflexivity).
    rewrite ET. cbn [length].
    f_equal. f_equal; [|rewrite Lc; lia].
    unfold c. rewrite <- !app_assoc. cbn [app]. repeat f_equal. lia.
Qed.

Definition int_text (before : Z) (X : N) : bytes := if 0 <? before then digits_of (Z.to_nat before) X else [x30].

Lemma int_text_length before X : Z.of_nat (length (int_text before X)) = Z.max 1 before.
Proof. unfold int_text. destruct (Z.ltb_spec 0 before); [rewrite digits_of_length|cbn [length]]; lia. Qed.

(** The part in front of the point, written last. *)
Lemma print_int before a m rest idx D : Z.of_nat (length m) = Z.max 1 before -> idx = Z.max 1 before - 1 ->
  (let* (b, index_pos, _) := put_digits (Z.to_nat before) (a ++ m ++ rest) (Z.of_nat (length a)) idx D in
   (if (before <=? 0) && (0 <=? index_pos) then store b (Z.of_nat (length a) + index_pos) x30 else Ok b)) =
  Ok (a ++ int_text before D ++ rest).
Proof.
  intros Hm ->. unfold int_text. destruct (Z.ltb_spec 0 before) as [H|H].
  - rewrite put_digits_spec by lia. cbn [obind].
    replace (before <=? 0) with false by (symmetry; apply Z.leb_gt; lia). reflexivity.
  - replace (Z.to_nat before) with 0%nat by lia. cbn [put_digits obind].
    replace (before <=? 0) with true by (symmetry; apply Z.leb_le; lia).
    replace (0 <=? Z.max 1 before - 1) with true by (symmetry; apply Z.leb_le; lia). cbn [andb].
    destruct m as [|y [|? ?]]; cbn [length] in Hm; try lia. cbn [app]. rewrite store_at by lia. reflexivity.
Qed.

Lemma obind_ext {A B} (x : outcome A) (f g : A -> outcome B) : (forall a, f a = g a) -> obind x f = obind x g.
Proof. intros H. destruct x; cbn; auto. Qed.

Lemma body_fraction exp complete before after D a m rest : exp < 0 -> 1 <= after -> complete = Z.max 1 before + after + 1 ->
  Z.of_nat (length m) = complete ->
  print_body exp complete before after D true (a ++ m ++ rest) (Z.of_nat (length a)) =
  Ok (a ++ (int_text before (D / 10 ^ Z.to_N after)%N ++ x2e :: digits_of (Z.to_nat after) D) ++ rest, complete + Z.of_nat (length a)).
Proof.
  intros He Ha Hc Hm. unfold print_body. rewrite Z.max_l by lia.
  destruct (take_n m (Z.to_nat (Z.max 1 before)) ltac:(lia)) as (m1 & m2 & -> & L1). rewrite app_length in Hm.
  destruct m2 as [|y m2]; [cbn [length] in Hm; lia|]. cbn [length] in Hm.
  replace (a ++ (m1 ++ y :: m2) ++ rest) with ((a ++ m1 ++ [y]) ++ m2 ++ rest) by (rewrite <- !app_assoc; reflexivity).
  rewrite put_digits_spec by (rewrite ?app_length; cbn [length]; lia). cbn [obind].
  replace (after =? 0) with false by (symmetry; apply Z.eqb_neq; lia). cbn [andb obind].
  replace (0 <=? complete - 1 - Z.of_nat (Z.to_nat after)) with true by (symmetry; apply Z.leb_le; lia).
  replace ((a ++ m1 ++ [y]) ++ digits_of (Z.to_nat after) D ++ rest) with ((a ++ m1) ++ y :: digits_of (Z.to_nat after) D ++ rest) by (rewrite <- !app_assoc; reflexivity).
  rewrite store_at by (rewrite app_length; lia). cbn [obind].
  replace (Z.to_nat exp) with 0%nat by lia. cbn [put_zeros obind]. rewrite <- app_assoc.
  replace (10 ^ N.of_nat (Z.to_nat after))%N with (10 ^ Z.to_N after)%N by (f_equal; lia).
  set (idx := complete - 1 - Z.of_nat (Z.to_nat after) - 1). assert (Hi : idx = Z.max 1 before - 1) by (unfold idx; lia). clearbody idx.
  assert (P := print_int before a m1 (x2e :: digits_of (Z.to_nat after) D ++ rest) idx (D / 10 ^ Z.to_N after)%N ltac:(lia) Hi).
  destruct (put_digits _ _ _ _ _) as [[[b i] s]| |]; cbn [obind] in P |- *; try discriminate P.
  rewrite P. cbn [obind]. rewrite <- app_assoc. reflexivity.
Qed.

Lemma body_whole exp complete before D a m rest : exp <= 0 -> complete = Z.max 1 before ->
  Z.of_nat (length m) = complete ->
  print_body exp complete before 0 D false (a ++ m ++ rest) (Z.of_nat (length a)) =
  Ok (a ++ int_text before D ++ rest, complete + Z.of_nat (length a)).
Proof.
  intros He Hc Hm. unfold print_body. rewrite Z.max_l by lia. cbn [Z.to_nat put_digits obind].
  replace (Z.to_nat exp) with 0%nat by lia. cbn [put_zeros obind].
  assert (P := print_int before a m rest (complete - 1) D ltac:(lia) ltac:(lia)).
  destruct (put_digits _ _ _ _ _) as [[[b i] s]| |]; cbn [obind] in P |- *; try discriminate P.
  rewrite P. cbn [obind]. reflexivity.
Qed.

Lemma body_zeros exp count complete D a m rest : 0 <= exp -> (1 <= count)%nat -> complete = Z.of_nat count + exp ->
  Z.of_nat (length m) = complete ->
  print_body exp complete (Z.of_nat count + exp) 0 D false (a ++ m ++ rest) (Z.of_nat (length a)) =
  Ok (a ++ (digits_of count D ++ repeat x30 (Z.to_nat exp)) ++ rest, complete + Z.of_nat (length a)).
Proof.
  intros He Hn Hc Hm. unfold print_body. rewrite Z.max_l by lia. cbn [Z.to_nat put_digits obind].
  destruct (take_n m count ltac:(lia)) as (m1 & m3 & -> & L1). rewrite app_length in Hm.
  replace (a ++ (m1 ++ m3) ++ rest) with ((a ++ m1) ++ m3 ++ rest) by (rewrite <- !app_assoc; reflexivity).
  rewrite put_zeros_spec by (rewrite ?app_length; lia). cbn [obind].
  replace (Z.to_nat (Z.of_nat count + exp - Z.of_nat (Z.to_nat exp))) with count by lia.
  rewrite <- app_assoc. rewrite put_digits_spec by (auto; lia). cbn [obind].
  replace (Z.of_nat count + exp - Z.of_nat (Z.to_nat exp) <=? 0) with false by (symmetry; apply Z.leb_gt; lia). cbn [andb obind].
  rewrite <- !app_assoc. reflexivity.
Qed.

Lemma firstn_of_app (p q : bytes) : p = firstn (length p) (p ++ q).
Proof. rewrite firstn_app_exact; reflexivity. Qed.

Lemma print_expanded_cut r count E D a m s : d_exp r = E -> d_significand r = D -> (1 <= count)%nat ->
  Z.max 1 (Z.of_nat count + E) < s -> s <= Z.of_nat (length m) ->
  exists k, (k <= length (expanded_text count E D))%nat /\ (Z.of_nat k <= s) /\ (complete_of count E <= s -> k = length (expanded_text count E D)) /\
  print_expanded r (a ++ m) (Z.of_nat (length a)) s (complete_of count E) (Z.of_nat count + E) (if E <? 0 then - E else 0)
  = Ok (a ++ firstn k (expanded_text count E D) ++ skipn k m, Z.of_nat (length a + k)).
Proof.
  intros HE HD Hc Hs Hm. destruct (Z.le_gt_cases (complete_of count E) s) as [Hf|Hf].
  { assert (LT := expanded_length_eq count E D Hc).
    destruct (take_n m (length (expanded_text count E D)) ltac:(lia)) as (m1 & m2 & -> & L1).
    exists (length (expanded_text count E D)). split; [lia|]. split; [lia|]. split; [reflexivity|].
    rewrite print_expanded_spec with (D := D) by (auto; lia). rewrite firstn_all. rewrite <- L1, skipn_app, skipn_all, Nat.sub_diag. reflexivity. }
  rewrite print_expanded_body, HE, HD. unfold truncate.
  replace (s <? complete_of count E) with true by (symmetry; apply Z.ltb_lt; lia).
  assert (EC : complete_of count E = Z.max 1 (Z.of_nat count + E) + Z.max 1 (if E <? 0 then - E else 0) + 1) by reflexivity.
  set (C := complete_of count E) in *. clearbody C.
  destruct (Z.ltb_spec E 0) as [H0|H0].
  - set (before := Z.of_nat count + E) in *. set (after := - E) in *. set (n := C - s) in *.
    rewrite (Z.min_l n after) by lia.
    replace (0 <? n - n) with false by (symmetry; apply Z.ltb_ge; lia).
    assert (ET : expanded_text count E D = int_text before (D / 10 ^ Z.to_N after)%N ++ x2e :: digits_of (Z.to_nat after) D).
    { unfold expanded_text, int_text. replace (0 <=? E) with false by (symmetry; apply Z.leb_gt; lia). fold before after.
      destruct (0 <? before); reflexivity. }
    assert (ES : digits_of (Z.to_nat after) D = digits_of (Z.to_nat (after - n)) (D / 10 ^ Z.to_N n)%N ++ digits_of (Z.to_nat n) D).
    { replace (Z.to_N n) with (N.of_nat (Z.to_nat n)) by lia. rewrite <- digits_of_split. f_equal. lia. }
    destruct (Z.eqb_spec (after - n) 0) as [H1|H1].
    + (* without the point *)
      replace (C - n - 1) with (Z.max 1 before) by lia. rewrite H1 in *. replace n with after in * by lia.
      destruct (take_n m (Z.to_nat (Z.max 1 before)) ltac:(lia)) as (m1 & m2 & -> & L1).
      rewrite body_whole by lia. assert (LI := int_text_length before (D / 10 ^ Z.to_N after)%N).
      rewrite ET. clear ES ET. revert LI. generalize (int_text before (D / 10 ^ Z.to_N after)%N). intros I LI.
      exists (length I). split; [rewrite app_length; lia|]. split; [lia|]. split; [lia|].
      rewrite <- firstn_of_app. replace (length I) with (length m1) by lia.
      rewrite skipn_app, skipn_all, Nat.sub_diag. f_equal. f_equal. lia.
    + destruct (take_n m (Z.to_nat (C - n)) ltac:(lia)) as (m1 & m2 & -> & L1).
      rewrite body_fraction by lia.
      assert (ED : (D / 10 ^ Z.to_N n / 10 ^ Z.to_N (after - n) = D / 10 ^ Z.to_N after)%N).
      { rewrite N.div_div by (apply N.pow_nonzero; discriminate). rewrite <- N.pow_add_r. do 2 f_equal. lia. }
      rewrite ED. set (p := int_text before (D / 10 ^ Z.to_N after)%N ++ x2e :: digits_of (Z.to_nat (after - n)) (D / 10 ^ Z.to_N n)%N).
      assert (Lp : length p = length m1).
      { unfold p. rewrite app_length. cbn [length]. rewrite digits_of_length. assert (LI := int_text_length before (D / 10 ^ Z.to_N after)%N).
        revert LI. generalize (int_text before (D / 10 ^ Z.to_N after)%N). clear ED ES ET p. intros. lia. }
      assert (ET2 : expanded_text count E D = p ++ digits_of (Z.to_nat n) D).
      { rewrite ET, ES. unfold p. rewrite <- !app_assoc. reflexivity. }
      rewrite ET2. clearbody p. clear ED ES ET ET2.
      exists (length p). split; [rewrite app_length; lia|]. split; [lia|]. split; [lia|].
      rewrite <- firstn_of_app. rewrite Lp. rewrite skipn_app, skipn_all, Nat.sub_diag. f_equal. f_equal. lia.
  - change (Z.max 1 0) with 1 in EC. rewrite Z.min_r by lia. rewrite !Z.sub_0_r.
    replace (0 <? C - s) with true by (symmetry; apply Z.ltb_lt; lia). change (0 =? 0) with true. cbv iota.
    replace (0 <? C - s - 1 - 1) with false by (symmetry; apply Z.ltb_ge; lia).
    change (10 ^ Z.to_N 0)%N with 1%N. rewrite N.div_1_r.
    destruct (take_n m (Z.to_nat (C - 1 - 1)) ltac:(lia)) as (m1 & m2 & -> & L1).
    rewrite body_zeros by lia. set (p := digits_of count D ++ repeat x30 (Z.to_nat E)).
    assert (Lp : length p = length m1) by (unfold p; rewrite app_length, digits_of_length, repeat_length; lia).
    assert (ET2 : expanded_text count E D = p ++ [x2e; x30]).
    { unfold expanded_text, p. replace (0 <=? E) with true by (symmetry; apply Z.leb_le; lia). rewrite <- app_assoc. reflexivity. }
    exists (length p). rewrite ET2. split; [rewrite app_length; lia|]. split; [lia|]. split; [lia|].
    rewrite <- firstn_of_app. rewrite Lp. rewrite skipn_app, skipn_all, Nat.sub_diag. f_equal. f_equal. lia.
Qed.

(** ** The whole number *)
Lemma print_minus (neg : bool) (buffer : bytes) : (1 <= length buffer)%nat -> exists m,
  (if neg then copy_to [x2d] buffer 0 else Ok (buffer, 0)) = Ok (minus neg ++ m, Z.of_nat (length (minus neg))) /\
  length buffer = (length (minus neg) + length m)%nat.
Proof.
  intros H. destruct neg; cbn [minus length].
  - destruct buffer as [|y m]; [cbn in H; lia|]. exists m. split; [|reflexivity]. exact (copy_to_spec [x2d] [] [y] m eq_refl).
  - exists buffer. split; reflexivity.
Qed.

Lemma convert_unfold (neg : bool) count E D buffer max m : (1 <= length buffer)%nat -> (count <= 17)%nat ->
  (if neg then copy_to [x2d] buffer 0 else Ok (buffer, 0)) = Ok (minus neg ++ m, Z.of_nat (length (minus neg))) ->
  length buffer = (length (minus neg) + length m)%nat ->
  convert_parsed_to_buffer (mkBase10 neg false false (Z.of_nat count) E D) buffer (Z.of_nat (length buffer)) max =
  if complete_of count E <? max
  then print_expanded (mkBase10 neg false false (Z.of_nat count) E D) (minus neg ++ m) (Z.of_nat (length (minus neg))) (Z.of_nat (length m))
         (complete_of count E) (Z.of_nat count + E) (if E <? 0 then - E else 0)
  else print_scientific (mkBase10 neg false false (Z.of_nat count) E D) (minus neg ++ m) (Z.of_nat (length (minus neg))) (Z.of_nat (length m)).
Proof.
  intros H1 H2 H3 H4. unfold convert_parsed_to_buffer. cbn [d_negative d_inf d_nan d_count d_exp].
  replace (Z.of_nat (length buffer) <? 1) with false by (symmetry; apply Z.ltb_ge; lia).
  replace (17 <? Z.of_nat count) with false by (symmetry; apply Z.ltb_ge; lia).
  rewrite H3. cbn [obind]. replace (if neg then Z.of_nat (length buffer) - 1 else Z.of_nat (length buffer)) with (Z.of_nat (length m)) by (destruct neg; cbn [minus length] in H4; lia).
  reflexivity.
Qed.

Lemma convert_ok (neg : bool) count E D buffer max : (1 <= count <= 17)%nat -> Z.abs (E + Z.of_nat count - 1) < 1000 ->
  (neg = true -> length buffer <> 1%nat) ->
  exists b' k, convert_parsed_to_buffer (mkBase10 neg false false (Z.of_nat count) E D) buffer (Z.of_nat (length buffer)) max = Ok (b', k) /\
    length b' = length buffer /\ 0 <= k <= Z.of_nat (length buffer).
Proof.
  intros Hc He Hn. destruct buffer as [|y0 buf] eqn:EB.
  { exists [], 0. repeat split; cbn; lia. }
  rewrite <- EB in *. assert (H1 : (1 <= length buffer)%nat) by (rewrite EB; cbn; lia). clear EB.
  destruct (print_minus neg buffer H1) as (m & Hm & Lm). rewrite (convert_unfold neg count E D buffer max m H1 ltac:(lia) Hm Lm).
  destruct (complete_of count E <? max).
  - destruct (print_expanded_ok (mkBase10 neg false false (Z.of_nat count) E D) count E (minus neg ++ m) (Z.of_nat (length (minus neg))) (Z.of_nat (length m)) eq_refl
      ltac:(lia) ltac:(lia)) as (b' & k & -> & L & K).
    + destruct neg; cbn [minus length] in *; [specialize (Hn eq_refl)|]; lia.
    + rewrite app_length. lia.
    + exists b', k. split; [reflexivity|]. rewrite L, app_length. split; lia.
  - rewrite (print_scientific_cut _ count E D (minus neg) m (Z.of_nat (length m))) by (auto; lia).
    unfold cut. set (l := firstn _ _). assert (Ll : (length l <= length m)%nat) by (unfold l; rewrite firstn_length; lia). clearbody l.
    eexists _, _. split; [reflexivity|]. rewrite !app_length, skipn_length. lia.
Qed.

Lemma digits_no_e l : Forall is_digit l -> ~ In x65 l.
Proof. intros H F. rewrite Forall_forall in H. specialize (H _ F). destruct H as [_ H]. apply H. reflexivity. Qed.

Lemma expanded_shape neg count E D : (1 <= count)%nat ->
  (~ In x65 (minus neg ++ expanded_text count E D)) /\
  exists p r, expanded_text count E D = p ++ x2e :: r /\ Z.of_nat (length p) = Z.max 1 (Z.of_nat count + E).
Proof.
  intros Hc. assert (HI : exists p r, expanded_text count E D = p ++ x2e :: r /\ Z.of_nat (length p) = Z.max 1 (Z.of_nat count + E) /\ ~ In x65 p /\ ~ In x65 r).
  { unfold expanded_text. destruct (Z.leb_spec 0 E).
    - exists (digits_of count D ++ repeat x30 (Z.to_nat E)), [x30]. rewrite <- app_assoc. split; [reflexivity|].
      rewrite app_length, digits_of_length, repeat_length. split; [lia|]. split.
      + intros F. apply in_app_or in F. destruct F as [F|F]; [revert F; apply digits_no_e, digits_of_digits|]. apply repeat_spec in F. discriminate F.
      + intros [F|[]]; discriminate F.
    - destruct (Z.ltb_spec 0 (Z.of_nat count + E)).
      + eexists _, _. split; [reflexivity|]. rewrite digits_of_length. split; [lia|]. split; apply digits_no_e, digits_of_digits.
      + exists [x30], (digits_of (Z.to_nat (- E)) D). split; [reflexivity|]. cbn [length]. split; [lia|]. split.
        * intros [F|[]]; discriminate F.
        * apply digits_no_e, digits_of_digits. }
  destruct HI as (p & r & -> & L & Np & Nr). split; [|exists p, r; auto].
  intros F. apply in_app_or in F. destruct F as [F|F].
  - destruct neg; [destruct F as [F|[]]; discriminate F|destruct F].
  - apply in_app_or in F. destruct F as [F|[F|F]]; [exact (Np F)|discriminate F|exact (Nr F)].
Qed.

Lemma convert_cut neg count E D buffer max : (1 <= count <= 17)%nat -> Z.abs (E + Z.of_nat count - 1) < 1000 ->
  (1 <= length buffer)%nat -> let l := minus neg ++ number_text max count E D in room (length buffer) l ->
  exists k rest, convert_parsed_to_buffer (mkBase10 neg false false (Z.of_nat count) E D) buffer (Z.of_nat (length buffer)) max
    = Ok (firstn k l ++ rest, Z.of_nat k) /\
    (k <= length l)%nat /\ (k + length rest)%nat = length buffer /\ (length (minus neg) + length l <= length buffer -> k = length l)%nat.
Proof.
  intros Hc He H1 l Hr.
  destruct (print_minus neg buffer H1) as (m & Hm & Lm). rewrite (convert_unfold neg count E D buffer max m H1 ltac:(lia) Hm Lm).
  unfold number_text in l. unfold l in *. clear l. destruct (complete_of count E <? max).
  - destruct (expanded_shape neg count E D ltac:(lia)) as (Ne & p & r & Ep & Lp).
    assert (Hroom : (length (minus neg ++ p) < length buffer)%nat) by (apply (Hr Ne _ r); rewrite Ep, <- app_assoc; reflexivity).
    rewrite app_length in Hroom.
    destruct (print_expanded_cut (mkBase10 neg false false (Z.of_nat count) E D) count E D (minus neg) m (Z.of_nat (length m)) eq_refl eq_refl
      ltac:(lia) ltac:(lia) ltac:(lia)) as (k & K1 & K2 & K3 & ->).
    exists (length (minus neg) + k)%nat, (skipn k m). rewrite (firstn_app _ (minus neg)), (firstn_all2 (minus neg)) by lia.
    replace (length (minus neg) + k - length (minus neg))%nat with k by lia. rewrite <- app_assoc. split; [reflexivity|].
    rewrite app_length, skipn_length. split; [lia|]. split; [lia|]. intros Hf. rewrite K3; [reflexivity|].
    rewrite <- expanded_length_eq with (D := D) by lia. lia.
  - rewrite (print_scientific_cut _ count E D (minus neg) m (Z.of_nat (length m))) by (auto; lia).
    unfold cut. set (t := scientific_text count E D) in *. clearbody t. set (R := Z.to_nat _).
    exists (length (minus neg) + length (firstn R t))%nat, (skipn (length (firstn R t)) m).
    assert (LR : (length (firstn R t) <= length t)%nat) by (rewrite firstn_length; lia).
    assert (LM : (length (firstn R t) <= length m)%nat) by (rewrite firstn_length; unfold R; lia).
    rewrite (firstn_app _ (minus neg)), (firstn_all2 (minus neg)) by lia.
    replace (length (minus neg) + length (firstn R t) - length (minus neg))%nat with (length (firstn R t)) by lia. rewrite <- app_assoc.
    replace (firstn (length (firstn R t)) t) with (firstn R t).
    2:{ rewrite <- (firstn_skipn R t) at 3. rewrite firstn_app_exact by reflexivity. reflexivity. }
    split; [reflexivity|]. rewrite app_length, skipn_length. split; [lia|]. split; [lia|]. intros Hf. rewrite firstn_all2; [reflexivity|].
    unfold R. lia.
Qed.
