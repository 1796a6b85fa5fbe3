(** The text that convert_parsed_to_buffer writes when the buffer is large enough. *)
From Coq Require Import Lia QArith Qpower.
From Verif Require Import Base JsonSpec NumSpec DoubleSpec ScanModel IntModel IntProofs NumParse DoubleModel RyuModel RyuShort.
Local Open Scope Z_scope.

(** The last n digits of x. *)
Fixpoint digits_of (n : nat) (x : N) : bytes :=
  match n with O => [] | S n' => digits_of n' (x / 10)%N ++ [digit x] end.

Lemma digits_of_length n : forall x, length (digits_of n x) = n.
Proof. induction n as [|n IH]; intros x; [reflexivity|]. cbn [digits_of]. rewrite app_length, IH. cbn. lia. Qed.

Lemma digit_spec x : is_digit (digit x) /\ (byte_val (digit x) - 48 = x mod 10)%N.
Proof.
  unfold digit. assert (H := N.mod_lt x 10 ltac:(discriminate)).
  destruct (digit_char_spec (Z.of_N (x mod 10)) ltac:(lia)) as [H1 H2]. split; [exact H1|]. apply N2Z.inj. exact H2.
Qed.

Lemma digits_of_digits n : forall x, Forall is_digit (digits_of n x).
Proof.
  induction n as [|n IH]; intros x; [constructor|]. cbn [digits_of]. apply Forall_app. split; [apply IH|].
  constructor; [apply digit_spec|constructor].
Qed.

Lemma digits_of_value n : forall x, dec_value (digits_of n x) = (x mod 10 ^ N.of_nat n)%N.
Proof.
  induction n as [|n IH]; intros x; [cbn; rewrite N.mod_1_r; reflexivity|]. cbn [digits_of]. rewrite dec_value_snoc, IH.
  replace (N.of_nat (S n)) with (N.of_nat n + 1)%N by lia. rewrite pow10_succ, N.mod_mul_r by (try discriminate; apply N.pow_nonzero; discriminate).
  rewrite (proj2 (digit_spec x)). lia.
Qed.

Lemma digits_of_split n : forall k x, digits_of (n + k) x = digits_of n (x / 10 ^ N.of_nat k)%N ++ digits_of k x.
Proof.
  intros k. induction k as [|k IH]; intros x.
  - rewrite Nat.add_0_r. change (10 ^ N.of_nat 0)%N with 1%N. rewrite N.div_1_r, app_nil_r. reflexivity.
  - rewrite Nat.add_succ_r. cbn [digits_of]. rewrite IH, <- app_assoc. do 2 f_equal.
    rewrite N.div_div by (try discriminate; apply N.pow_nonzero; discriminate). f_equal.
    replace (N.of_nat (S k)) with (N.of_nat k + 1)%N by lia. rewrite pow10_succ. reflexivity.
Qed.

(** ** Writing *)
Lemma store_at a x r i c : Z.of_nat (length a) = i -> store (a ++ x :: r) i c = Ok (a ++ c :: r).
Proof.
  intros <-. unfold store. rewrite Nat2Z.id.
  replace ((0 <=? Z.of_nat (length a)) && (Z.of_nat (length a) <? Z.of_nat (length (a ++ x :: r)))) with true.
  2:{ symmetry. apply andb_true_intro. rewrite app_length. cbn [length]. split; [apply Z.leb_le|apply Z.ltb_lt]; lia. }
  rewrite firstn_app, firstn_all, Nat.sub_diag, firstn_O, app_nil_r. do 2 f_equal.
  rewrite skipn_app, skipn_all2 by lia. replace (S (length a) - length a)%nat with 1%nat by lia. reflexivity.
Qed.

Lemma snoc_split (l : bytes) n : length l = S n -> exists m x, l = m ++ [x] /\ length m = n.
Proof.
  intros H. destruct (exists_last (l := l)) as (m & x & E); [destruct l; discriminate|]. exists m, x. split; [exact E|].
  rewrite E, app_length in H. cbn in H. lia.
Qed.

Lemma put_digits_spec : forall n a m r offset idx sig, length m = n -> Z.of_nat (length a) + Z.of_nat n = offset + idx + 1 ->
  Z.of_nat n <= idx + 1 ->
  put_digits n (a ++ m ++ r) offset idx sig = Ok (a ++ digits_of n sig ++ r, idx - Z.of_nat n, (sig / 10 ^ N.of_nat n)%N).
Proof.
  induction n as [|n IH]; intros a m r offset idx sig Hm Ho Hi.
  - destruct m; [|discriminate Hm]. cbn. change (10 ^ 0)%N with 1%N. rewrite N.div_1_r, Z.sub_0_r. reflexivity.
  - destruct (snoc_split m n Hm) as (m' & x & -> & Hm'). cbn [put_digits]. replace (0 <=? idx) with true by (symmetry; apply Z.leb_le; lia).
    replace (a ++ (m' ++ [x]) ++ r) with ((a ++ m') ++ x :: r) by (rewrite <- !app_assoc; reflexivity).
    rewrite store_at by (rewrite app_length; lia). cbn [obind].
    replace ((a ++ m') ++ digit sig :: r) with (a ++ m' ++ digit sig :: r) by (rewrite <- app_assoc; reflexivity).
    rewrite (IH a m' (digit sig :: r)) by (auto; lia). cbn [digits_of]. rewrite <- app_assoc. cbn [app].
    rewrite N.div_div by (try discriminate; apply N.pow_nonzero; discriminate).
    replace (10 ^ N.of_nat (S n))%N with (10 * 10 ^ N.of_nat n)%N by (replace (N.of_nat (S n)) with (N.of_nat n + 1)%N by lia; rewrite pow10_succ; reflexivity).
    do 3 f_equal. lia.
Qed.

Lemma put_zeros_spec : forall n a m r offset idx before, length m = n -> Z.of_nat (length a) + Z.of_nat n = offset + idx + 1 ->
  Z.of_nat n <= idx + 1 ->
  put_zeros n (a ++ m ++ r) offset idx before = Ok (a ++ repeat x30 n ++ r, idx - Z.of_nat n, before - Z.of_nat n).
Proof.
  induction n as [|n IH]; intros a m r offset idx before Hm Ho Hi.
  - destruct m; [|discriminate Hm]. cbn. rewrite !Z.sub_0_r. reflexivity.
  - destruct (snoc_split m n Hm) as (m' & x & -> & Hm'). cbn [put_zeros]. replace (0 <=? idx) with true by (symmetry; apply Z.leb_le; lia).
    replace (a ++ (m' ++ [x]) ++ r) with ((a ++ m') ++ x :: r) by (rewrite <- !app_assoc; reflexivity).
    rewrite store_at by (rewrite app_length; lia). cbn [obind].
    replace ((a ++ m') ++ x30 :: r) with (a ++ m' ++ x30 :: r) by (rewrite <- app_assoc; reflexivity).
    rewrite (IH a m' (x30 :: r)) by (auto; lia).
    replace (a ++ repeat x30 n ++ x30 :: r) with (a ++ repeat x30 (S n) ++ r).
    2:{ f_equal. replace (S n) with (n + 1)%nat by lia. rewrite repeat_app, <- app_assoc. reflexivity. }
    replace (idx - 1 - Z.of_nat n) with (idx - Z.of_nat (S n)) by lia. replace (before - 1 - Z.of_nat n) with (before - Z.of_nat (S n)) by lia. reflexivity.
Qed.

Lemma copy_to_spec : forall l a m r, length m = length l ->
  copy_to l (a ++ m ++ r) (Z.of_nat (length a)) = Ok (a ++ l ++ r, Z.of_nat (length a + length l)).
Proof.
  induction l as [|c l IH]; intros a m r Hm.
  - destruct m; [|discriminate Hm]. cbn. rewrite Nat.add_0_r. reflexivity.
  - destruct m as [|x m]; [discriminate Hm|]. cbn [copy_to app]. rewrite store_at by reflexivity. cbn [obind].
    replace (a ++ c :: m ++ r) with ((a ++ [c]) ++ m ++ r) by (rewrite <- app_assoc; reflexivity).
    replace (Z.of_nat (length a) + 1) with (Z.of_nat (length (a ++ [c]))) by (rewrite app_length; cbn; lia).
    rewrite IH by (cbn in Hm; lia). rewrite <- app_assoc, app_length. cbn [app length]. do 3 f_equal. lia.
Qed.

Lemma take_n (l : bytes) n : (n <= length l)%nat -> exists m r, l = m ++ r /\ length m = n.
Proof. intros H. exists (firstn n l), (skipn n l). rewrite firstn_skipn, firstn_length. split; [reflexivity|lia]. Qed.

(** ** The texts *)
Definition expanded_text (count : nat) (E : Z) (D : N) : bytes :=
  if 0 <=? E then digits_of count D ++ repeat x30 (Z.to_nat E) ++ [x2e; x30]
  else if 0 <? Z.of_nat count + E
  then digits_of (Z.to_nat (Z.of_nat count + E)) (D / 10 ^ Z.to_N (- E))%N ++ x2e :: digits_of (Z.to_nat (- E)) D
  else x30 :: x2e :: digits_of (Z.to_nat (- E)) D.

Definition complete_of (count : nat) (E : Z) : Z :=
  Z.max 1 (Z.of_nat count + E) + Z.max 1 (if E <? 0 then - E else 0) + 1.

Lemma expanded_length_eq count E D : (1 <= count)%nat -> Z.of_nat (length (expanded_text count E D)) = complete_of count E.
Proof.
  intros Hc. unfold expanded_text, complete_of. destruct (Z.leb_spec 0 E); destruct (Z.ltb_spec E 0); try lia.
  - rewrite !app_length, digits_of_length, repeat_length. cbn [length]. lia.
  - destruct (Z.ltb_spec 0 (Z.of_nat count + E)); [rewrite app_length|]; cbn [length]; rewrite ?digits_of_length; lia.
Qed.

Lemma print_expanded_spec r count E D a m rest buffer_size : d_exp r = E -> d_significand r = D -> (1 <= count)%nat ->
  Z.of_nat (length m) = complete_of count E -> complete_of count E <= buffer_size ->
  print_expanded r (a ++ m ++ rest) (Z.of_nat (length a)) buffer_size (complete_of count E) (Z.of_nat count + E) (if E <? 0 then - E else 0)
  = Ok (a ++ expanded_text count E D ++ rest, Z.of_nat (length a + length (expanded_text count E D))).
Proof.
  intros HE HD Hc Hm Hb. rewrite Nat2Z.inj_add, expanded_length_eq by exact Hc. unfold print_expanded, truncate. rewrite HE, HD.
  replace (buffer_size <? complete_of count E) with false by (symmetry; apply Z.ltb_ge; exact Hb).
  assert (Hpos : 2 < complete_of count E + 1) by (unfold complete_of; lia). rewrite Z.max_l by lia.
  unfold expanded_text. set (C := complete_of count E) in *. assert (EC : C = complete_of count E) by reflexivity. clearbody C. unfold complete_of in EC.
  destruct (Z.leb_spec 0 E) as [H0|H0]; destruct (Z.ltb_spec E 0) as [H1|H1]; try lia; clear H1.
  - (* E >= 0 *)
    destruct (take_n m count ltac:(lia)) as (m1 & m2 & -> & L1). rewrite app_length in Hm.
    destruct (take_n m2 (Z.to_nat E) ltac:(lia)) as (m3 & m4 & -> & L3). rewrite app_length in Hm.
    destruct m4 as [|y1 [|y2 [|? ?]]]; cbn [length] in Hm; try lia.
    cbn [Z.to_nat put_digits obind]. change (0 =? 0) with true. cbn [andb].
    replace (0 <=? C - 1) with true by (symmetry; apply Z.leb_le; lia).
    replace (a ++ (m1 ++ m3 ++ [y1; y2]) ++ rest) with ((a ++ m1 ++ m3 ++ [y1]) ++ y2 :: rest) by (rewrite <- !app_assoc; reflexivity).
    rewrite store_at by (rewrite !app_length; cbn [length]; lia). cbn [obind].
    replace (0 <=? C - 1 - 1) with true by (symmetry; apply Z.leb_le; lia).
    replace ((a ++ m1 ++ m3 ++ [y1]) ++ x30 :: rest) with ((a ++ m1 ++ m3) ++ y1 :: x30 :: rest) by (rewrite <- !app_assoc; reflexivity).
    rewrite store_at by (rewrite !app_length; lia). cbn [obind].
    replace ((a ++ m1 ++ m3) ++ x2e :: x30 :: rest) with ((a ++ m1) ++ m3 ++ x2e :: x30 :: rest) by (rewrite <- !app_assoc; reflexivity).
    rewrite put_zeros_spec by (rewrite ?app_length; lia). cbn [obind].
    replace (Z.to_nat (Z.of_nat count + E - Z.of_nat (Z.to_nat E))) with count by lia.
    rewrite <- app_assoc. rewrite put_digits_spec by (auto; lia). cbn [obind].
    replace (Z.of_nat count + E - Z.of_nat (Z.to_nat E) <=? 0) with false by (symmetry; apply Z.leb_gt; lia). cbn [andb obind].
    rewrite <- !app_assoc. do 2 f_equal. lia.
  - destruct (Z.ltb_spec 0 (Z.of_nat count + E)) as [H2|H2].
    + (* digits on both sides *)
      set (before := Z.of_nat count + E) in *. set (after := - E) in *.
      destruct (take_n m (Z.to_nat before) ltac:(lia)) as (m1 & m2 & -> & L1). rewrite app_length in Hm.
      destruct m2 as [|y m2]; [cbn [length] in Hm; lia|]. cbn [length] in Hm.
      replace (a ++ (m1 ++ y :: m2) ++ rest) with ((a ++ m1 ++ [y]) ++ m2 ++ rest) by (rewrite <- !app_assoc; reflexivity).
      rewrite put_digits_spec by (rewrite ?app_length; cbn [length]; lia). cbn [obind].
      replace (after =? 0) with false by (symmetry; apply Z.eqb_neq; lia). cbn [andb obind].
      replace (0 <=? C - 1 - Z.of_nat (Z.to_nat after)) with true by (symmetry; apply Z.leb_le; lia).
      replace ((a ++ m1 ++ [y]) ++ digits_of (Z.to_nat after) D ++ rest) with ((a ++ m1) ++ y :: digits_of (Z.to_nat after) D ++ rest) by (rewrite <- !app_assoc; reflexivity).
      rewrite store_at by (rewrite app_length; lia). cbn [obind].
      replace (Z.to_nat E) with 0%nat by lia. cbn [put_zeros obind].
      rewrite <- app_assoc. rewrite put_digits_spec by (auto; lia). cbn [obind].
      replace (before <=? 0) with false by (symmetry; apply Z.leb_gt; lia). cbn [andb obind].
      rewrite <- !app_assoc. cbn [app].
      replace (10 ^ N.of_nat (Z.to_nat after))%N with (10 ^ Z.to_N after)%N by (f_equal; lia).
      do 2 f_equal. lia.
    + (* a leading zero *)
      destruct m as [|y1 [|y2 m2]]; cbn [length] in Hm; try lia.
      replace (a ++ (y1 :: y2 :: m2) ++ rest) with ((a ++ [y1; y2]) ++ m2 ++ rest) by (rewrite <- !app_assoc; reflexivity).
      rewrite put_digits_spec by (rewrite ?app_length; cbn [length]; lia). cbn [obind].
      replace (- E =? 0) with false by (symmetry; apply Z.eqb_neq; lia). cbn [andb obind].
      replace (0 <=? C - 1 - Z.of_nat (Z.to_nat (- E))) with true by (symmetry; apply Z.leb_le; lia).
      replace ((a ++ [y1; y2]) ++ digits_of (Z.to_nat (- E)) D ++ rest) with ((a ++ [y1]) ++ y2 :: digits_of (Z.to_nat (- E)) D ++ rest) by (rewrite <- !app_assoc; reflexivity).
      rewrite store_at by (rewrite app_length; cbn [length]; lia). cbn [obind].
      replace (Z.to_nat E) with 0%nat by lia. cbn [put_zeros obind].
      replace (Z.to_nat (Z.of_nat count + E)) with 0%nat by lia. cbn [put_digits obind].
      replace (Z.of_nat count + E <=? 0) with true by (symmetry; apply Z.leb_le; lia).
      replace (0 <=? C - 1 - Z.of_nat (Z.to_nat (- E)) - 1) with true by (symmetry; apply Z.leb_le; lia). cbn [andb].
      rewrite <- app_assoc. cbn [app]. rewrite store_at by lia. cbn [obind]. do 2 f_equal. lia.
Qed.

Definition exp_text (e : Z) : bytes :=
  (if e <? 0 then [x2d] else []) ++ digits_of (count_chars T_int e) (Z.to_N (Z.abs e)).

Definition scientific_text (count : nat) (E : Z) (D : N) : bytes :=
  digits_of 1 (D / 10 ^ N.of_nat (count - 1))%N ++
  (if (1 <? Z.of_nat count) then x2e :: digits_of (count - 1) D else []) ++ x65 :: exp_text (E + Z.of_nat count - 1).

Lemma small_buffer_spec size offset count n : (offset + count <= size)%nat ->
  small_buffer (Z.of_nat size) (Z.of_nat offset) (Z.of_nat count) n =
  Ok (repeat x00 offset ++ digits_of count n ++ repeat x00 (size - offset - count)).
Proof.
  intros H. unfold small_buffer. rewrite !Nat2Z.id.
  replace size with (offset + (count + (size - offset - count)))%nat at 1 by lia. rewrite !repeat_app.
  rewrite put_digits_spec by (rewrite ?repeat_length; lia). reflexivity.
Qed.

Lemma exp_buffer e k : count_chars T_int e = k -> (k <= 3)%nat ->
  (let* b := small_buffer 4 (if e <? 0 then 1 else 0) (Z.of_nat k) (Z.to_N (Z.abs e)) in
   if e <? 0 then store b 0 x2d else Ok b) = Ok (exp_text e ++ repeat x00 (4 - length (exp_text e))).
Proof.
  intros Hk H3. unfold exp_text. rewrite Hk. destruct (e <? 0).
  - change 4 with (Z.of_nat 4) at 1. change 1 with (Z.of_nat 1) at 1. rewrite small_buffer_spec by lia. cbn [obind repeat app].
    match goal with |- store (x00 :: ?l) 0 x2d = _ => change (x00 :: l) with ([] ++ x00 :: l); rewrite (store_at [] x00 l 0 x2d eq_refl) end. cbn [app length]. rewrite digits_of_length.
    replace (4 - 1 - k)%nat with (4 - S k)%nat by lia. reflexivity.
  - change 4 with (Z.of_nat 4) at 1. change 0 with (Z.of_nat 0) at 1. rewrite small_buffer_spec by lia. cbn [obind repeat app].
    rewrite digits_of_length. replace (4 - 0 - k)%nat with (4 - k)%nat by lia. reflexivity.
Qed.

Lemma exp_text_length e : Z.of_nat (length (exp_text e)) = Z.of_nat (count_chars T_int e) + (if e <? 0 then 1 else 0).
Proof. unfold exp_text. rewrite app_length, digits_of_length. destruct (e <? 0); cbn [length]; lia. Qed.

Lemma firstn_app_exact (l r : bytes) n : length l = n -> firstn n (l ++ r) = l.
Proof. intros <-. rewrite firstn_app, firstn_all, Nat.sub_diag, firstn_O, app_nil_r. reflexivity. Qed.

Lemma obind_assoc {A B C} (x : outcome A) (f : A -> outcome B) (g : B -> outcome C) :
  obind (obind x f) g = obind x (fun a => obind (f a) g).
Proof. destruct x; reflexivity. Qed.

Lemma count_exp e : Z.abs e < 1000 -> (1 <= count_chars T_int e <= 3)%nat /\ Z.abs e < 10 ^ Z.of_nat (count_chars T_int e) /\
  (Z.abs e < 100 -> (count_chars T_int e <= 2)%nat).
Proof.
  intros H. destruct (count_chars_spec T_int e) as (H1 & H2 & H3); [cbv; auto|cbv [i_min i_max T_int i_bits i_signed]; cbn; lia|].
  set (n := count_chars T_int e) in *. clearbody n.
  assert (Hk : forall k : nat, Z.abs e < 10 ^ Z.of_nat k -> (1 <= k)%nat -> (n <= k)%nat).
  { intros k Hk K1. destruct (Nat.le_gt_cases n k) as [L|L]; [exact L|]. specialize (H3 ltac:(lia)). exfalso.
    assert (10 ^ Z.of_nat k <= 10 ^ (Z.of_nat n - 1)) by (apply Z.pow_le_mono_r; lia). lia. }
  split; [|split; [exact H2|]].
  - split; [lia|]. apply Hk; [exact H|lia].
  - intros H4. apply Hk; [exact H4|lia].
Qed.

Lemma print_scientific_spec r count E D a m rest buffer_size : d_exp r = E -> d_significand r = D -> d_count r = Z.of_nat count ->
  (1 <= count <= 17)%nat -> Z.abs (E + Z.of_nat count - 1) < 1000 ->
  length m = length (scientific_text count E D) -> Z.of_nat (length a + length m) <= buffer_size ->
  print_scientific r (a ++ m ++ rest) (Z.of_nat (length a)) buffer_size
  = Ok (a ++ scientific_text count E D ++ rest, Z.of_nat (length a + length (scientific_text count E D))).
Proof.
  intros HE HD HC Hc He Hm Hb. unfold print_scientific. rewrite HE, HD, HC.
  change 17 with (Z.of_nat 17). change 0 with (Z.of_nat 0) at 1. rewrite small_buffer_spec by lia. cbn [obind repeat app].
  set (e := E + Z.of_nat count - 1) in *. destruct (count_exp e He) as ((PX & He3) & _). pose proof (exp_buffer e _ eq_refl He3) as HX.
  rewrite <- obind_assoc. rewrite HX. cbn [obind]. clear HX.
  pose proof (exp_text_length e) as LX. rewrite <- LX.
  unfold scientific_text in *. fold e in Hm |- *.
  assert (ED : digits_of count D = digits_of 1 (D / 10 ^ N.of_nat (count - 1))%N ++ digits_of (count - 1) D).
  { rewrite <- digits_of_split. f_equal. lia. }
  rewrite ED. set (X := exp_text e) in *. set (d1 := digits_of 1 _) in *. set (ds := digits_of (count - 1) D) in *.
  assert (L1 : length d1 = 1%nat) by apply digits_of_length. assert (Ls : length ds = (count - 1)%nat) by apply digits_of_length.
  assert (L0 : (1 <= length X)%nat) by (revert LX PX; clear; destruct (e <? 0); lia).
  clearbody X d1 ds e. clear ED LX He He3 PX HE HD HC.
  rewrite !app_length in Hm. cbn [length] in Hm. rewrite L1 in Hm.
  rewrite <- !app_assoc. rewrite firstn_app_exact by exact L1.
  replace (Z.of_nat (length a) <? buffer_size) with true by (symmetry; apply Z.ltb_lt; lia). cbn [negb].
  destruct m as [|y m]; [cbn in Hm; lia|]. cbn [length] in Hm, Hb.
  change (y :: m) with ([y] ++ m). rewrite <- app_assoc. rewrite (copy_to_spec d1 a [y]) by (rewrite L1; reflexivity). cbn [obind].
  replace (skipn 1 (d1 ++ ds ++ repeat x00 (17 - 0 - count))) with (ds ++ repeat x00 (17 - 0 - count)).
  2:{ destruct d1 as [|? [|? ?]]; try discriminate L1. reflexivity. }
  destruct (Z.ltb_spec 1 (Z.of_nat count)) as [H1|H1].
  - replace (Z.of_nat (length a + length d1) <? buffer_size) with true by (symmetry; apply Z.ltb_lt; lia). cbn [andb negb].
    destruct m as [|y2 m]; [cbn in Hm; lia|]. cbn [length] in Hm, Hb.
    rewrite app_assoc. rewrite <- app_length. change ((y2 :: m) ++ rest) with ([y2] ++ m ++ rest).
    rewrite (copy_to_spec [x2e] (a ++ d1) [y2]) by reflexivity. cbn [obind].
    rewrite (app_assoc (a ++ d1)). rewrite <- app_length.
    assert (LA : length ((a ++ d1) ++ [x2e]) = (length a + 2)%nat) by (rewrite !app_length, L1; cbn; lia).
    rewrite Z.min_r by lia. replace (Z.to_nat (Z.of_nat count - 1)) with (count - 1)%nat by lia. rewrite firstn_app_exact by exact Ls.
    destruct (take_n m (count - 1) ltac:(cbn [length] in Hm; lia)) as (m1 & m2 & -> & M1). rewrite app_length in Hm, Hb. rewrite <- (app_assoc m1).
    rewrite (copy_to_spec ds _ m1) by lia. cbn [obind].
    replace (buffer_size <=? _) with false by (symmetry; apply Z.leb_gt; lia).
    destruct m2 as [|y3 m2]; [cbn in Hm; lia|]. cbn [length] in Hm, Hb.
    rewrite (app_assoc _ ds). rewrite <- app_length. change ((y3 :: m2) ++ rest) with ([y3] ++ m2 ++ rest).
    rewrite (copy_to_spec [x65] _ [y3]) by reflexivity. cbn [obind].
    rewrite (app_assoc _ [x65]). rewrite <- app_length.
    assert (LB : length ((((a ++ d1) ++ [x2e]) ++ ds) ++ [x65]) = (length a + count + 2)%nat) by (rewrite !app_length, L1; cbn; lia).
    rewrite Z.min_r by lia. rewrite Nat2Z.id, firstn_app_exact by reflexivity.
    rewrite (copy_to_spec X _ m2) by lia. rewrite LB. f_equal. f_equal.
    + rewrite <- !app_assoc. reflexivity.
    + rewrite !app_length. cbn [length]. lia.
  - cbn [andb]. assert (count = 1)%nat by lia. subst count. destruct ds; [|discriminate Ls]. cbn [app] in *.
    rewrite app_assoc. rewrite <- app_length.
    assert (LA : length (a ++ d1) = (length a + 1)%nat) by (rewrite !app_length, L1; cbn; lia).
    change (Z.of_nat 1 - 1) with 0. cbn [length] in Hm. cbn [obind]. rewrite Z.min_r by lia. cbn [Z.to_nat firstn].
    match goal with |- context [copy_to [] ?b ?o] => change (copy_to [] b o) with (Ok (b, o)) end. cbn [obind].
    replace (buffer_size <=? _) with false by (symmetry; apply Z.leb_gt; lia).
    destruct m as [|y3 m2]; [cbn in Hm; lia|]. cbn [length] in Hm, Hb.
    change ((y3 :: m2) ++ rest) with ([y3] ++ m2 ++ rest).
    rewrite (copy_to_spec [x65] _ [y3]) by reflexivity. cbn [obind].
    rewrite (app_assoc _ [x65]). rewrite <- app_length.
    assert (LB : length ((a ++ d1) ++ [x65]) = (length a + 2)%nat) by (rewrite !app_length, L1; cbn; lia).
    rewrite Z.min_r by lia. rewrite Nat2Z.id, firstn_app_exact by reflexivity.
    rewrite (copy_to_spec X _ m2) by lia. rewrite LB. f_equal. f_equal.
    + rewrite <- !app_assoc. reflexivity.
    + rewrite !app_length. cbn [length]. lia.
Qed.

(** ** The whole text *)
Definition number_text (max_expanded : Z) (count : nat) (E : Z) (D : N) : bytes :=
  if complete_of count E <? max_expanded then expanded_text count E D else scientific_text count E D.

Definition minus (neg : bool) : bytes := if neg then [x2d] else [].

Lemma convert_spec neg count E D buffer max_expanded :
  (1 <= count <= 17)%nat -> Z.abs (E + Z.of_nat count - 1) < 1000 ->
  (2 * length (minus neg) + length (number_text max_expanded count E D) <= length buffer)%nat ->
  exists rest, convert_parsed_to_buffer (mkBase10 neg false false (Z.of_nat count) E D) buffer (Z.of_nat (length buffer)) max_expanded
  = Ok ((minus neg ++ number_text max_expanded count E D) ++ rest, Z.of_nat (length (minus neg ++ number_text max_expanded count E D))).
Proof.
  intros Hc He Hl. unfold convert_parsed_to_buffer. cbn [d_negative d_inf d_nan d_count d_exp d_significand].
  assert (Hp : (0 < length (number_text max_expanded count E D))%nat).
  { unfold number_text. destruct (_ <? _).
    - pose proof (expanded_length_eq count E D ltac:(lia)) as H. unfold complete_of in H. lia.
    - unfold scientific_text. rewrite app_length, digits_of_length. lia. }
  replace (Z.of_nat (length buffer) <? 1) with false by (symmetry; apply Z.ltb_ge; lia).
  replace (17 <? Z.of_nat count) with false by (symmetry; apply Z.ltb_ge; lia).
  destruct (take_n buffer (length (minus neg) + length (number_text max_expanded count E D)) ltac:(lia)) as (m & rest & -> & Lm).
  exists rest. rewrite app_length in *.
  destruct (take_n m (length (minus neg)) ltac:(lia)) as (s & t & -> & Ls). rewrite app_length in *.
  match goal with |- obind ?X _ = _ => replace X with (Ok (minus neg ++ t ++ rest, Z.of_nat (length (minus neg)))) end.
  2:{ destruct neg; cbn [minus length] in *.
      - symmetry. rewrite <- app_assoc. exact (copy_to_spec [x2d] [] s (t ++ rest) Ls).
      - destruct s; [|discriminate Ls]. reflexivity. }
  cbn [obind]. fold (complete_of count E). unfold number_text in *. destruct (complete_of count E <? max_expanded) eqn:B.
  - rewrite print_expanded_spec with (count := count) (E := E) (D := D); try reflexivity; try lia.
    + rewrite <- app_assoc, app_length. reflexivity.
    + rewrite <- expanded_length_eq with (D := D) by lia. lia.
    + rewrite <- expanded_length_eq with (D := D) by lia. destruct neg; cbn [minus length] in *; lia.
  - rewrite print_scientific_spec with (count := count) (E := E) (D := D); try reflexivity; try lia.
    + rewrite <- app_assoc, app_length. reflexivity.
    + destruct neg; cbn [minus length] in *; lia.
Qed.
