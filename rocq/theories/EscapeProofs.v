(** Proofs about the escape functions. *)
From Verif Require Import Base Tactics ScanModel ScanProofs JsonSpec StrSpec EscapeModel.
From Coq Require Import Lia.

(** ** Reading escapes: one item at a time *)

Lemma loop_raw f c l : c <> c_backslash ->
  escapes_in_loop (S f) (c :: l) = c :: escapes_in_loop (S f) l.
Proof.
  intros Hc. cbn [escapes_in_loop find_index].
  assert (Byte.eqb c_backslash c = false) as ->.
  { destruct (Byte.eqb c_backslash c) eqn:E; [|reflexivity]. apply Byte.byte_dec_bl in E. congruence. }
  destruct (find_index (Byte.eqb c_backslash) l) as [k|]; reflexivity.
Qed.

Lemma loop_simple f c l : c <> x75 ->
  escapes_in_loop (S f) (c_backslash :: c :: l) = push_back_escape c ++ escapes_in_loop f l.
Proof.
  intros Hc. cbn [escapes_in_loop find_index]. change (Byte.eqb c_backslash c_backslash) with true. cbn iota.
  cbn [firstn skipn app]. destruct (Byte.eqb c x75) eqn:E; [|reflexivity].
  apply Byte.byte_dec_bl in E. congruence.
Qed.

Lemma loop_unicode f tl cp cp' n :
  hex4 tl = Some cp -> combine_surrogates cp (skipn 4 tl) = (cp', n) ->
  escapes_in_loop (S f) (c_backslash :: x75 :: tl) = push_code_point cp' ++ escapes_in_loop f (skipn (4 + n) tl).
Proof.
  intros H1 H2. cbn [escapes_in_loop find_index]. change (Byte.eqb c_backslash c_backslash) with true. cbn iota.
  change (skipn 1 (c_backslash :: x75 :: tl)) with (x75 :: tl). cbn iota.
  change (Byte.eqb x75 x75) with true. cbn iota. rewrite H1, H2. reflexivity.
Qed.

Lemma loop_nil f : escapes_in_loop f [] = [].
Proof. destruct f; reflexivity. Qed.

(** More fuel than bytes changes nothing. *)
Lemma find_index_eqb_split k : forall l c, find_index (Byte.eqb c) l = Some k -> k < length l.
Proof.
  induction k as [|k IH]; intros [|x l] c; cbn [find_index length]; try discriminate; [lia|].
  destruct (Byte.eqb c x); [discriminate|].
  destruct (find_index (Byte.eqb c) l) as [j|] eqn:E; [|discriminate].
  intros H; injection H as ->. apply IH in E. lia.
Qed.

Lemma loop_fuel_eq : forall f f' l, length l < f -> length l < f' -> escapes_in_loop f l = escapes_in_loop f' l.
Proof.
  induction f as [|f IH]; intros f' l Hf Hf'; [lia|]. destruct f' as [|f']; [lia|].
  cbn [escapes_in_loop]. destruct (find_index (Byte.eqb c_backslash) l) as [k|] eqn:E; [|reflexivity].
  apply find_index_eqb_split in E.
  f_equal. assert (Hl := skipn_length (S k) l).
  destruct (skipn (S k) l) as [|c tl] eqn:Es; [reflexivity|]. cbn [length] in Hl.
  destruct (Byte.eqb c x75).
  - destruct (hex4 tl) as [cp|]; [|do 2 f_equal; apply IH; lia].
    destruct (combine_surrogates cp (skipn 4 tl)) as [cp' n]. f_equal.
    apply IH; rewrite skipn_length; lia.
  - f_equal. apply IH; lia.
Qed.

Lemma in_fuel f l : length l < f -> escapes_in_loop f l = escapes_in l.
Proof. intros H. unfold escapes_in. apply loop_fuel_eq; lia. Qed.

Lemma in_raw c l : c <> c_backslash -> escapes_in (c :: l) = c :: escapes_in l.
Proof.
  intros Hc. unfold escapes_in. rewrite loop_raw by exact Hc. f_equal.
  apply loop_fuel_eq; cbn [length]; lia.
Qed.

Lemma in_simple c l : c <> x75 -> escapes_in (c_backslash :: c :: l) = push_back_escape c ++ escapes_in l.
Proof.
  intros Hc. unfold escapes_in. rewrite loop_simple by exact Hc. f_equal.
  apply loop_fuel_eq; cbn [length]; lia.
Qed.

Lemma in_unicode tl cp cp' n :
  hex4 tl = Some cp -> combine_surrogates cp (skipn 4 tl) = (cp', n) ->
  escapes_in (c_backslash :: x75 :: tl) = push_code_point cp' ++ escapes_in (skipn (4 + n) tl).
Proof.
  intros H1 H2. unfold escapes_in. erewrite loop_unicode by eassumption. f_equal.
  apply loop_fuel_eq; rewrite skipn_length; cbn [length]; lia.
Qed.

(** ** Writing escapes *)

Lemma findFirst_scalar i l : findFirstEscapeOut i l = scalar_count escape_stop l.
Proof. destruct i; cbn [findFirstEscapeOut]; try reflexivity; apply simd_count_eq; lia. Qed.

Lemma out_char_id c : escape_stop c = false -> escape_out_char c = [c].
Proof. destruct c; try discriminate; reflexivity. Qed.

Lemma out_prefix l : flat_map escape_out_char (firstn (scalar_count escape_stop l) l) =
  firstn (scalar_count escape_stop l) l.
Proof.
  induction l as [|c l IH]; [reflexivity|]. cbn [scalar_count].
  destruct (escape_stop c) eqn:E; [reflexivity|]. cbn [firstn flat_map].
  rewrite out_char_id, IH by exact E. reflexivity.
Qed.

Lemma out_loop i : forall f l buffer, length l < f ->
  exists b r, escapes_out_loop f i l buffer = (buffer ++ b, r) /\ b ++ r = flat_map escape_out_char l /\
              (b = [] -> r = l).
Proof.
  induction f as [|f IH]; intros l buffer Hf; [lia|]. cbn [escapes_out_loop]. rewrite findFirst_scalar.
  set (k := scalar_count escape_stop l).
  assert (Hl := skipn_length k l). assert (Hp := out_prefix l). fold k in Hp.
  assert (Hfs := firstn_skipn k l).
  destruct (skipn k l) as [|c tl] eqn:Es; cbn [length] in Hl.
  - exists [], l. rewrite !app_nil_r in *. split; [reflexivity|]. split; [|auto].
    rewrite <- Hfs, Hp. reflexivity.
  - destruct (IH tl (buffer ++ firstn k l ++ escape_out_char c)) as (b & r & E & Eb & _); [lia|].
    rewrite E. exists (firstn k l ++ escape_out_char c ++ b), r. split; [rewrite !app_assoc; reflexivity|].
    split.
    + rewrite <- !app_assoc, Eb. rewrite <- Hfs at 2. rewrite flat_map_app, Hp. reflexivity.
    + intros H. exfalso. apply app_eq_nil in H. destruct H as [_ H]. apply app_eq_nil in H. destruct H as [H _].
      destruct c; discriminate H.
Qed.

(** handle_json_escapes_out replaces each byte, whatever the build. *)
Lemma escapes_out_map i l : escapes_out i l = flat_map escape_out_char l.
Proof.
  unfold escapes_out. destruct (out_loop i (S (length l)) l [] (Nat.lt_succ_diag_r _)) as (b & r & -> & E & Hr).
  cbn [app]. destruct b as [|x b]; [|exact E].
  rewrite (Hr eq_refl) in E. exact E.
Qed.

Lemma in_out_char c l : escapes_in (escape_out_char c ++ l) = c :: escapes_in l.
Proof.
  destruct (Byte.eqb c x08 || Byte.eqb c x09 || Byte.eqb c x0a || Byte.eqb c x0c || Byte.eqb c x0d ||
            Byte.eqb c c_quote || Byte.eqb c c_backslash) eqn:E.
  - destruct c; try discriminate E; cbn [escape_out_char app];
      (unfold escape_out_char; cbn -[escapes_in]; rewrite in_simple by discriminate; reflexivity).
  - assert (escape_out_char c = [c]) as -> by (destruct c; try discriminate E; reflexivity).
    cbn [app]. apply in_raw. intros ->. discriminate E.
Qed.

Lemma escape_round_trip i s : escapes_in (escapes_out i s) = s.
Proof.
  rewrite escapes_out_map. induction s as [|c s IH]; [reflexivity|].
  cbn [flat_map]. rewrite in_out_char, IH. reflexivity.
Qed.

(** ** Escaped text as a string body *)

Lemma escaped_body i s : str_body (escapes_out i s).
Proof.
  rewrite escapes_out_map. induction s as [|c s IH]; [constructor|]. cbn [flat_map].
  destruct (Byte.eqb c x08 || Byte.eqb c x09 || Byte.eqb c x0a || Byte.eqb c x0c || Byte.eqb c x0d ||
            Byte.eqb c c_quote || Byte.eqb c c_backslash) eqn:E.
  - destruct c; try discriminate E; apply (SB_esc _ _ IH).
  - assert (escape_out_char c = [c]) as -> by (destruct c; try discriminate E; reflexivity).
    cbn [app]. apply SB_char; [| |exact IH]; intros ->; discriminate E.
Qed.

(** ** Control characters *)

Definition escaped_control (c : byte) : Prop := In c [x08; x09; x0a; x0c; x0d].

Lemma escaped_no_control i s :
  (forall c, In c s -> is_control c -> escaped_control c) -> forall c, In c (escapes_out i s) -> ~ is_control c.
Proof.
  intros H c Hc. rewrite escapes_out_map in Hc. apply in_flat_map in Hc.
  destruct Hc as (x & Hx & Hc). specialize (H x Hx). unfold is_control in *. intros Hcc.
  destruct x; cbn in Hc;
    repeat match goal with H : _ \/ _ |- _ => destruct H as [H|H] | H : False |- _ => destruct H end;
    subst; try (cbn in Hcc; lia);
    (assert (Hq := H ltac:(cbn; lia)); cbn in Hq; intuition discriminate).
Qed.

Lemma control_stays i s c :
  In c s -> is_control c -> ~ escaped_control c -> In c (escapes_out i s).
Proof.
  intros Hs Hc He. rewrite escapes_out_map. apply in_flat_map. exists c. split; [exact Hs|].
  unfold is_control in Hc. destruct c; cbn in Hc; try (exfalso; lia); try (left; reflexivity);
    exfalso; apply He; cbn; auto 10.
Qed.

(** ** UTF-8 *)

Lemma small_lor a n : (forall x, (x < N.of_nat n)%N -> In x (map N.of_nat (seq 0 n))) /\
  (forallb (fun x => N.lor a x =? a + x)%N (map N.of_nat (seq 0 n)) = true ->
   forall x, (x < N.of_nat n)%N -> N.lor a x = (a + x)%N).
Proof.
  assert (H : forall x, (x < N.of_nat n)%N -> In x (map N.of_nat (seq 0 n))).
  { intros x Hx. apply in_map_iff. exists (N.to_nat x). split; [apply N2Nat.id|].
    apply in_seq. lia. }
  split; [exact H|]. intros E x Hx. rewrite forallb_forall in E. apply N.eqb_eq, E, H, Hx.
Qed.

Lemma lor80 x : (x < 64)%N -> N.lor 0x80 x = (0x80 + x)%N.
Proof. apply (proj2 (small_lor 0x80 64)). reflexivity. Qed.
Lemma lorc0 x : (x < 32)%N -> N.lor 0xc0 x = (0xc0 + x)%N.
Proof. apply (proj2 (small_lor 0xc0 32)). reflexivity. Qed.
Lemma lore0 x : (x < 16)%N -> N.lor 0xe0 x = (0xe0 + x)%N.
Proof. apply (proj2 (small_lor 0xe0 16)). reflexivity. Qed.
Lemma lorf0 x : (x < 8)%N -> N.lor 0xf0 x = (0xf0 + x)%N.
Proof. apply (proj2 (small_lor 0xf0 8)). reflexivity. Qed.

Lemma land3f x : N.land x 0x3f = (x mod 64)%N.
Proof. change 0x3f%N with (N.ones 6). rewrite N.land_ones. reflexivity. Qed.

Lemma push_utf8 cp : (cp < 0x110000)%N -> push_code_point cp = utf8 cp.
Proof.
  intros H. unfold push_code_point, utf8. change char_of with octet.
  rewrite !land3f, !N.shiftr_div_pow2. change (2 ^ 6)%N with 64%N. change (2 ^ 12)%N with 4096%N.
  change (2 ^ 18)%N with 262144%N.
  assert (M : forall x, (x mod 64 < 64)%N) by (intros; apply N.mod_lt; discriminate).
  destruct (N.leb_spec 0x10000 cp).
  { destruct (N.ltb_spec cp 0x80); [lia|]. destruct (N.ltb_spec cp 0x800); [lia|].
    destruct (N.ltb_spec cp 0x10000); [lia|].
    rewrite !lor80 by apply M. rewrite lorf0; [reflexivity|]. apply N.div_lt_upper_bound; lia. }
  destruct (N.leb_spec 0x800 cp).
  { destruct (N.ltb_spec cp 0x80); [lia|]. destruct (N.ltb_spec cp 0x800); [lia|].
    destruct (N.ltb_spec cp 0x10000); [|lia].
    rewrite !lor80 by apply M. rewrite lore0; [reflexivity|]. apply N.div_lt_upper_bound; lia. }
  destruct (N.leb_spec 0x80 cp).
  { destruct (N.ltb_spec cp 0x80); [lia|]. destruct (N.ltb_spec cp 0x800); [|lia].
    rewrite !lor80 by apply M. rewrite lorc0; [reflexivity|]. apply N.div_lt_upper_bound; lia. }
  destruct (N.ltb_spec cp 0x80); [reflexivity|lia].
Qed.

Lemma octet_val n : (n < 256)%N -> byte_val (octet n) = n.
Proof.
  intros H. unfold octet. rewrite N.mod_small by exact H.
  destruct (Byte.of_N n) as [b|] eqn:E; [apply Byte.to_of_N, E|].
  apply Byte.of_N_None_iff in E. lia.
Qed.

(** The encoding can be read back: it denotes [cp]. *)
Lemma utf8_reads cp : (cp < 0x110000)%N -> utf8_read (utf8 cp) = Some cp.
Proof.
  intros H. unfold utf8, utf8_read.
  assert (M : forall x, (x mod 64 < 64)%N) by (intros; apply N.mod_lt; discriminate).
  assert (V : forall x, byte_val (octet (0x80 + x mod 64)) = (0x80 + x mod 64)%N)
    by (intros x; apply octet_val; specialize (M x); lia).
  assert (D : forall x, ((0x80 + x mod 64) / 64 =? 2)%N = true).
  { intros x. apply N.eqb_eq. symmetry. apply (N.div_unique _ _ _ (x mod 64)); [apply M|lia]. }
  assert (R : forall x, ((0x80 + x mod 64) mod 64)%N = (x mod 64)%N).
  { intros x. symmetry. apply (N.mod_unique _ _ 2); [apply M|lia]. }
  destruct (N.ltb_spec cp 0x80) as [H1|H1].
  { cbn [map]. rewrite octet_val by lia. destruct (N.ltb_spec cp 128); [reflexivity|lia]. }
  destruct (N.ltb_spec cp 0x800) as [H2|H2].
  { assert (Q : (cp / 64 < 32)%N) by (apply N.div_lt_upper_bound; lia).
    cbn [map]. rewrite V, octet_val by lia. rewrite D, R.
    destruct (N.leb_spec 0xc0 (0xc0 + cp / 64)); [|lia]. destruct (N.ltb_spec (0xc0 + cp / 64) 0xe0); [|lia].
    cbn [andb]. f_equal. rewrite (N.div_mod cp 64) at 3 by discriminate. lia. }
  destruct (N.ltb_spec cp 0x10000) as [H3|H3].
  { assert (Q : (cp / 4096 < 16)%N) by (apply N.div_lt_upper_bound; lia).
    cbn [map]. rewrite !V, octet_val by lia. rewrite !D, !R.
    destruct (N.leb_spec 0xe0 (0xe0 + cp / 4096)); [|lia]. destruct (N.ltb_spec (0xe0 + cp / 4096) 0xf0); [|lia].
    cbn [andb]. f_equal. assert (A := N.div_mod cp 64 ltac:(discriminate)).
    assert (B := N.div_mod (cp / 64) 64 ltac:(discriminate)). rewrite N.div_div in B by discriminate.
    change (64 * 64)%N with 4096%N in B. lia. }
  { assert (Q : (cp / 262144 < 8)%N) by (apply N.div_lt_upper_bound; lia).
    cbn [map]. rewrite !V, octet_val by lia. rewrite !D, !R.
    destruct (N.leb_spec 0xf0 (0xf0 + cp / 262144)); [|lia]. destruct (N.ltb_spec (0xf0 + cp / 262144) 0xf8); [|lia].
    cbn [andb]. f_equal. assert (A := N.div_mod cp 64 ltac:(discriminate)).
    assert (B := N.div_mod (cp / 64) 64 ltac:(discriminate)). rewrite N.div_div in B by discriminate.
    assert (C := N.div_mod (cp / 4096) 64 ltac:(discriminate)). rewrite N.div_div in C by discriminate.
    change (64 * 64)%N with 4096%N in B. change (4096 * 64)%N with 262144%N in C. lia. }
Qed.

(** ** Hexadecimal digits *)

Lemma hex_digit_value c : is_hex c -> hex_digit c = Some (hex_value c) /\ (hex_value c < 16)%N.
Proof.
  unfold is_hex, is_digit. intros H. destruct c; cbn in H; try (exfalso; lia); split; reflexivity.
Qed.

Lemma lor_shift a b n : (b < 2 ^ n)%N -> N.lor (N.shiftl a n) b = (a * 2 ^ n + b)%N.
Proof.
  intros H. rewrite N.shiftl_mul_pow2, <- N.lxor_lor, <- N.add_nocarry_lxor; auto.
  all: apply N.bits_inj_0; intros m; rewrite N.land_spec; destruct (N.lt_ge_cases m n) as [Hm|Hm];
    [rewrite N.mul_pow2_bits_low by exact Hm; reflexivity|].
  all: assert (b = 0 \/ 0 < b)%N as [->|Hb] by lia; [rewrite N.bits_0, andb_false_r; reflexivity|].
  all: rewrite (N.bits_above_log2 b m), andb_false_r; [reflexivity|].
  all: apply N.lt_le_trans with n; [apply N.log2_lt_pow2; assumption|exact Hm].
Qed.

Lemma hex4_number a b c d tl :
  is_hex a -> is_hex b -> is_hex c -> is_hex d ->
  hex4 (a :: b :: c :: d :: tl) = Some (hex_number a b c d) /\ (hex_number a b c d < 0x10000)%N.
Proof.
  intros Ha Hb Hc Hd. apply hex_digit_value in Ha, Hb, Hc, Hd.
  destruct Ha as [Ea Ha], Hb as [Eb Hb], Hc as [Ec Hc], Hd as [Ed Hd].
  cbn [hex4]. rewrite Ea, Eb, Ec, Ed. unfold hex_number.
  rewrite (lor_shift (hex_value c) _ 4) by exact Hd. change (2 ^ 4)%N with 16%N.
  rewrite (lor_shift (hex_value b) _ 8) by (change (2 ^ 8)%N with 256%N; lia). change (2 ^ 8)%N with 256%N.
  rewrite (lor_shift (hex_value a) _ 12) by (change (2 ^ 12)%N with 4096%N; lia). change (2 ^ 12)%N with 4096%N.
  split; [f_equal; lia|lia].
Qed.

Lemma in_item i m tl : item_denotes i m -> escapes_in (item_text i ++ tl) = m ++ escapes_in tl.
Proof.
  destruct i as [c|c|a b c d|a b c d e f g h]; cbn [item_denotes item_text app].
  - intros [Hc ->]. apply in_raw, Hc.
  - intros (v & Hv & ->). cbn in Hv.
    repeat (destruct Hv as [Hv|Hv]; [injection Hv as <- <-; change backslash with c_backslash;
      rewrite in_simple by discriminate; reflexivity|]). destruct Hv.
  - intros (Ha & Hb & Hc & Hd & Hs & ->).
    destruct (hex4_number a b c d tl Ha Hb Hc Hd) as [E Hlt].
    change backslash with c_backslash. rewrite (in_unicode _ _ (hex_number a b c d) 0 E).
    + rewrite push_utf8 by lia. reflexivity.
    + unfold combine_surrogates. destruct (N.leb_spec 0xD800 (hex_number a b c d)); [|reflexivity].
      destruct (N.leb_spec (hex_number a b c d) 0xDBFF); [lia|reflexivity].
  - intros (Ha & Hb & Hc & Hd & He & Hf & Hg & Hh & H1 & H2 & ->).
    destruct (hex4_number a b c d ([backslash; x75; e; f; g; h] ++ tl) Ha Hb Hc Hd) as [E Hlt].
    destruct (hex4_number e f g h tl He Hf Hg Hh) as [E2 Hlt2].
    change backslash with c_backslash in *. cbn [app] in E.
    erewrite (in_unicode _ _ _ 6 E).
    + rewrite push_utf8; [reflexivity|]. lia.
    + cbn [skipn app]. unfold combine_surrogates.
      destruct (N.leb_spec 0xD800 (hex_number a b c d)); [|lia].
      destruct (N.leb_spec (hex_number a b c d) 0xDBFF); [|lia]. cbn [andb length].
      change (Byte.eqb c_backslash c_backslash) with true. change (Byte.eqb x75 x75) with true.
      cbn [Nat.leb andb]. rewrite E2.
      destruct (N.leb_spec 0xDC00 (hex_number e f g h)); [|lia].
      destruct (N.leb_spec (hex_number e f g h) 0xDFFF); [|lia]. cbn [andb].
      rewrite N.shiftl_mul_pow2. reflexivity.
Qed.

Lemma escapes_in_denotes l m : denotes l m -> escapes_in (string_text l) = m.
Proof.
  induction 1 as [|i l m ms Hi Hl IH]; [reflexivity|]. unfold string_text in *. cbn [flat_map].
  rewrite (in_item _ _ _ Hi), IH. reflexivity.
Qed.

(** ** Documents of escaped strings *)

Lemma escaped_array_text i s ss :
  exists t, doc_text plain (JArr (map (fun s => JScalar (SStr (escapes_out i s))) (s :: ss))) t.
Proof.
  assert (G : forall ss s, exists t, elems_text plain (map (fun s => JScalar (SStr (escapes_out i s))) (s :: ss)) t).
  { clear. induction ss as [|s2 ss IH]; intros s.
    - eexists. cbn [map]. eapply (ET_one plain _ _ [] []); [constructor|constructor|].
      apply VT_scalar. apply escaped_body.
    - destruct (IH s2) as (t & Ht). eexists. cbn [map]. eapply (ET_cons plain _ _ [] []); [constructor|constructor| |exact Ht].
      apply VT_scalar. apply escaped_body. }
  destruct (G ss s) as (t & Ht). eexists. split; [exact I|]. exists [], (lbrack :: t ++ [rbrack]), [].
  split; [constructor|]. split; [constructor|]. split; [|reflexivity].
  apply VT_arr. exact Ht.
Qed.
