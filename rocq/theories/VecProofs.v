(** Lemmas about the instruction level scanners of VecModel.v: every mask is all ones exactly
    in the lanes of the bytes looked for, the ways of finding the first lane find it, and so
    the loops compute what the lane by lane scanners of ScanModel.v compute. *)
From Verif Require Import Base ScanModel ScanProofs VecModel.
From Coq Require Import Lia.

(** ** Lanes *)

Definition lane (b : bool) : N := if b then 255%N else 0%N.
Definition lanes (l : list bool) : reg := map lane l.

Fixpoint first_true (l : list bool) : option nat :=
  match l with
  | [] => None
  | b :: tl => if b then Some 0
               else match first_true tl with Some k => Some (S k) | None => None end
  end.

Lemma find_first_true p cs : find_index p cs = first_true (map p cs).
Proof. induction cs as [|c cs IH]; [reflexivity|]. cbn. rewrite IH. reflexivity. Qed.

Lemma vmap2_map f (g h : byte -> N) cs :
  vmap2 f (map g cs) (map h cs) = map (fun c => f (g c) (h c)) cs.
Proof. induction cs as [|c cs IH]; [reflexivity|]. cbn. rewrite IH. reflexivity. Qed.

Lemma vset1_map (cs : bytes) a : vset1 (length cs) a = map (fun _ => byte_val a) cs.
Proof. unfold vset1. induction cs as [|c cs IH]; [reflexivity|]. cbn. rewrite IH. reflexivity. Qed.

Definition on (p : byte -> bool) (cs : bytes) : reg := map (fun c => lane (p c)) cs.

Lemma on_lanes p cs : on p cs = lanes (map p cs).
Proof. unfold on, lanes. rewrite map_map. reflexivity. Qed.

Lemma on_ext p q cs : (forall c, p c = q c) -> on p cs = on q cs.
Proof. intros H. unfold on. apply map_ext. intros c. rewrite H. reflexivity. Qed.

Lemma byte_val_eqb (a b : byte) : (byte_val a =? byte_val b)%N = Byte.eqb a b.
Proof.
  destruct (Byte.eqb a b) eqn:E.
  - apply byte_eqb_eq in E. subst. apply N.eqb_refl.
  - apply N.eqb_neq. intros H. apply byte_eqb_neq in E. apply E.
    assert (A : Byte.of_N (Byte.to_N a) = Byte.of_N (Byte.to_N b))
      by (unfold byte_val in H; rewrite H; reflexivity).
    rewrite !Byte.of_to_N in A. congruence.
Qed.

Lemma cmpeq_on w cs a : length cs = w ->
  vcmpeq (map byte_val cs) (vset1 w a) = on (fun c => Byte.eqb c a) cs.
Proof.
  intros <-. unfold vcmpeq. rewrite vset1_map, vmap2_map. unfold on. apply map_ext. intros c.
  rewrite byte_val_eqb. reflexivity.
Qed.

Lemma or_on p q cs : vor (on p cs) (on q cs) = on (fun c => p c || q c) cs.
Proof.
  unfold vor, on. rewrite vmap2_map. apply map_ext. intros c.
  destruct (p c), (q c); reflexivity.
Qed.

Lemma and_on p q cs : vand (on p cs) (on q cs) = on (fun c => p c && q c) cs.
Proof.
  unfold vand, on. rewrite vmap2_map. apply map_ext. intros c.
  destruct (p c), (q c); reflexivity.
Qed.

Lemma mvn_on p cs : vmvn (on p cs) = on (fun c => negb (p c)) cs.
Proof.
  unfold vmvn, on. rewrite map_map. apply map_ext. intros c. destruct (p c); reflexivity.
Qed.

Lemma range_x86_on w lo hi cs : length cs = w ->
  range_x86 w lo hi (map byte_val cs) = on (in_range (byte_val lo) (byte_val hi)) cs.
Proof.
  intros <-. unfold range_x86, vcmpeq, vmax, vmin, vand.
  rewrite !vset1_map, !vmap2_map. unfold on. apply map_ext. intros c.
  unfold in_range.
  assert (A : (N.max (byte_val c) (byte_val lo) =? byte_val c)%N = (byte_val lo <=? byte_val c)%N).
  { destruct (N.leb_spec (byte_val lo) (byte_val c)).
    - rewrite N.max_l by lia. apply N.eqb_refl.
    - rewrite N.max_r by lia. apply N.eqb_neq. lia. }
  assert (B : (N.min (byte_val c) (byte_val hi) =? byte_val c)%N = (byte_val c <=? byte_val hi)%N).
  { destruct (N.leb_spec (byte_val c) (byte_val hi)).
    - rewrite N.min_l by lia. apply N.eqb_refl.
    - rewrite N.min_r by lia. apply N.eqb_neq. lia. }
  rewrite A, B. destruct (_ <=? _)%N, (_ <=? _)%N; reflexivity.
Qed.

Lemma range_neon_on lo hi cs : length cs = 16 ->
  range_neon lo hi (map byte_val cs) = on (in_range (byte_val lo) (byte_val hi)) cs.
Proof.
  intros H. unfold range_neon, vcge, vcle, vand. rewrite <- H.
  rewrite !vset1_map, !vmap2_map. unfold on. apply map_ext. intros c.
  unfold in_range. destruct (_ <=? _)%N, (_ <=? _)%N; reflexivity.
Qed.

Ltac on_ext := apply on_ext; let c := fresh in intros c;
  repeat match goal with |- context [Byte.eqb ?a ?b] => destruct (Byte.eqb a b) end;
  repeat match goal with |- context [in_range ?a ?b ?c] => destruct (in_range a b c) end;
  reflexivity.

Lemma string_mask_on w cs : length cs = w ->
  string_mask w (map byte_val cs) = on is_str_special cs.
Proof.
  intros H. unfold string_mask. rewrite !cmpeq_on, or_on by assumption. reflexivity.
Qed.

Lemma newline_mask_on w cs : length cs = w ->
  newline_mask w (map byte_val cs) = on (fun c => Byte.eqb c c_nl) cs.
Proof. intros H. unfold newline_mask. rewrite cmpeq_on by assumption. reflexivity. Qed.

Lemma whitespace_mask_on w cs : length cs = w ->
  whitespace_mask w (map byte_val cs) = on vec_ws_char cs.
Proof.
  intros H. unfold whitespace_mask. cbv zeta. rewrite !cmpeq_on, !or_on by assumption. reflexivity.
Qed.

Lemma ascii_mask_on w range cs : length cs = w ->
  (forall lo hi, range lo hi (map byte_val cs) = on (in_range (byte_val lo) (byte_val hi)) cs) ->
  ascii_mask w range (map byte_val cs) = on vec_ascii_char cs.
Proof.
  intros H R. unfold ascii_mask. cbv zeta. rewrite !cmpeq_on, !R, !or_on by assumption. reflexivity.
Qed.

Lemma number_mask_on cs : length cs = 16 ->
  number_mask_neon (map byte_val cs) = on vec_number_char cs.
Proof.
  intros H. unfold number_mask_neon. cbv zeta.
  rewrite !cmpeq_on, !range_neon_on, !or_on by assumption. unfold vec_number_char.
  change (byte_val x30) with 48%N. change (byte_val x39) with 57%N. on_ext.
Qed.

(** ** Finding the first lane: x86 *)

Lemma mask_lanes_testbit x : N.b2n (N.testbit (lane x) 7) = N.b2n x.
Proof. destruct x; reflexivity. Qed.

Lemma mask_bound l : (mask_bits (lanes l) < 2 ^ N.of_nat (length l))%N.
Proof.
  induction l as [|b l IH]; [cbn; lia|].
  cbn [lanes map mask_bits length] in *. rewrite mask_lanes_testbit.
  rewrite Nat2N.inj_succ, N.pow_succ_r by lia. fold (lanes l).
  generalize dependent (2 ^ N.of_nat (length l))%N. intros P IH. destruct b; cbn [N.b2n]; lia.
Qed.

Lemma mask_compl l :
  (mask_bits (lanes l) + mask_bits (lanes (map negb l)) + 1 = 2 ^ N.of_nat (length l))%N.
Proof.
  induction l as [|b l IH]; [reflexivity|].
  cbn [lanes map mask_bits length] in *. rewrite !mask_lanes_testbit.
  rewrite Nat2N.inj_succ, N.pow_succ_r by lia. fold (lanes l). fold (lanes (map negb l)).
  fold (lanes l) in IH. fold (lanes (map negb l)) in IH.
  generalize dependent (2 ^ N.of_nat (length l))%N. intros P IH. destruct b; cbn [N.b2n negb]; lia.
Qed.

Lemma mask_first l :
  match first_true l with
  | None => mask_bits (lanes l) = 0%N
  | Some k => bit_scan_forward (mask_bits (lanes l)) = Ok k
  end.
Proof.
  induction l as [|b l IH]; [reflexivity|].
  cbn [lanes map mask_bits first_true]. rewrite mask_lanes_testbit. fold (lanes l).
  destruct b; cbn [N.b2n].
  - destruct (mask_bits (lanes l)) as [|p]; reflexivity.
  - destruct (first_true l) as [k|].
    + destruct (mask_bits (lanes l)) as [|p]; [discriminate|].
      cbn in IH |- *. congruence.
    + rewrite IH. reflexivity.
Qed.

Lemma pow32 : (2 ^ 32 = 4294967296)%N. Proof. reflexivity. Qed.

Lemma int32_id n : (n < 4294967296)%N ->
  to_int32 n = (if Z.of_N n <? 2147483648 then Z.of_N n else Z.of_N n - 4294967296)%Z.
Proof.
  intros H. unfold to_int32. rewrite pow32, N.mod_small by assumption. reflexivity.
Qed.

Lemma int32_back n : (n < 4294967296)%N -> to_uint32 (to_int32 n) = n.
Proof.
  intros H. rewrite int32_id by assumption. unfold to_uint32.
  change (2 ^ 32)%Z with 4294967296%Z.
  destruct (Z.ltb_spec (Z.of_N n) 2147483648).
  - rewrite Z.mod_small by lia. apply N2Z.id.
  - replace (Z.of_N n - 4294967296)%Z with (Z.of_N n + (-1) * 4294967296)%Z by lia.
    rewrite Z.mod_add by lia. rewrite Z.mod_small by lia. apply N2Z.id.
Qed.

Lemma int32_lnot n : (n < 4294967296)%N ->
  to_uint32 (Z.lnot (to_int32 n)) = (4294967295 - n)%N.
Proof.
  intros H. rewrite int32_id by assumption. unfold to_uint32, Z.lnot, Z.pred.
  change (2 ^ 32)%Z with 4294967296%Z.
  destruct (Z.ltb_spec (Z.of_N n) 2147483648).
  - replace (- Z.of_N n + -1)%Z with ((4294967295 - Z.of_N n) + (-1) * 4294967296)%Z by lia.
    rewrite Z.mod_add by lia. rewrite Z.mod_small by lia. lia.
  - rewrite Z.mod_small by lia. lia.
Qed.

Lemma stop_set l : length l <= 32 -> stop_at_set (lanes l) = Ok (first_true l).
Proof.
  intros H. unfold stop_at_set, movemask.
  pose proof (mask_bound l) as B. pose proof (mask_first l) as F.
  assert (B' : (mask_bits (lanes l) < 4294967296)%N).
  { eapply N.lt_le_trans; [exact B|]. rewrite <- pow32. apply N.pow_le_mono_r; lia. }
  clear B. generalize dependent (mask_bits (lanes l)). intros m F B.
  rewrite int32_back by assumption.
  assert (Z0 : (to_int32 m =? 0)%Z = (m =? 0)%N).
  { rewrite int32_id by assumption.
    destruct (N.eqb_spec m 0), (Z.ltb_spec (Z.of_N m) 2147483648);
      first [apply Z.eqb_eq; lia | apply Z.eqb_neq; lia]. }
  rewrite Z0. destruct (first_true l) as [k|].
  - destruct m; [discriminate|]. cbn [N.eqb negb]. rewrite F. reflexivity.
  - subst m. reflexivity.
Qed.

Lemma stop_clear16 l : length l = 16 ->
  stop_at_clear16 (lanes l) = Ok (first_true (map negb l)).
Proof.
  intros H. unfold stop_at_clear16, movemask.
  pose proof (mask_compl l) as C. pose proof (mask_first (map negb l)) as F.
  rewrite H in C. change (2 ^ N.of_nat 16)%N with 65536%N in C.
  generalize dependent (mask_bits (lanes l)). intros m C.
  generalize dependent (mask_bits (lanes (map negb l))). intros m' F C.
  rewrite int32_id by lia.
  destruct (Z.ltb_spec (Z.of_N m) 2147483648); [|lia].
  assert (A : to_uint32 (Z.land (Z.lnot (Z.of_N m)) 65535) = m').
  { change 65535%Z with (Z.ones 16). rewrite Z.land_ones by lia.
    change (2 ^ 16)%Z with 65536%Z. unfold Z.lnot, Z.pred.
    replace (- Z.of_N m + -1)%Z with (Z.of_N m' + (-1) * 65536)%Z by lia.
    rewrite Z.mod_add by lia. rewrite Z.mod_small by lia. unfold to_uint32.
    change (2 ^ 32)%Z with 4294967296%Z. rewrite Z.mod_small by lia. apply N2Z.id. }
  rewrite A.
  destruct (first_true (map negb l)) as [k|].
  - destruct (Z.eqb_spec (Z.of_N m) 65535).
    + replace m' with 0%N in F by lia. discriminate.
    + cbn [negb]. rewrite F. reflexivity.
  - destruct (Z.eqb_spec (Z.of_N m) 65535); [reflexivity|lia].
Qed.

Lemma stop_clear32 l : length l = 32 ->
  stop_at_clear32 (lanes l) = Ok (first_true (map negb l)).
Proof.
  intros H. unfold stop_at_clear32, movemask.
  pose proof (mask_compl l) as C. pose proof (mask_first (map negb l)) as F.
  rewrite H in C. change (2 ^ N.of_nat 32)%N with 4294967296%N in C.
  generalize dependent (mask_bits (lanes l)). intros m C.
  generalize dependent (mask_bits (lanes (map negb l))). intros m' F C.
  rewrite int32_lnot by lia. replace (4294967295 - m)%N with m' by lia.
  assert (E : (to_int32 m =? to_int32 4294967295)%Z = (m' =? 0)%N).
  { change (to_int32 4294967295) with (-1)%Z. rewrite int32_id by lia.
    destruct (N.eqb_spec m' 0), (Z.ltb_spec (Z.of_N m) 2147483648);
      first [apply Z.eqb_eq; lia | apply Z.eqb_neq; lia]. }
  rewrite E. destruct (first_true (map negb l)) as [k|].
  - destruct m'; [discriminate|]. cbn [N.eqb negb]. rewrite F. reflexivity.
  - subst m'. reflexivity.
Qed.

(** ** Finding the first lane: NEON *)

Lemma le_word_zero l : (le_word (lanes l) =? 0)%N = negb (existsb (fun b => b) l).
Proof.
  induction l as [|b l IH]; [reflexivity|].
  cbn [lanes map le_word existsb]. fold (lanes l).
  destruct b; cbn [lane orb negb].
  - apply N.eqb_neq. lia.
  - rewrite <- IH.
    destruct (N.eqb_spec (le_word (lanes l)) 0) as [->|N]; [reflexivity|]. apply N.eqb_neq. lia.
Qed.

Lemma neon_word4 b0 b1 b2 b3 i tl :
  neon_words (le_word (lanes [b0; b1; b2; b3]) :: tl) i =
  match first_true [b0; b1; b2; b3] with
  | Some j => Some (i * 4 + j)
  | None => neon_words tl (S i)
  end.
Proof. destruct b0, b1, b2, b3; reflexivity. Qed.

Lemma first_true_app l1 l2 :
  first_true (l1 ++ l2) =
  match first_true l1 with
  | Some k => Some k
  | None => match first_true l2 with Some k => Some (length l1 + k) | None => None end
  end.
Proof.
  induction l1 as [|b l1 IH]; cbn [app first_true length].
  - destruct (first_true l2); reflexivity.
  - destruct b; [reflexivity|]. rewrite IH.
    destruct (first_true l1); [reflexivity|]. destruct (first_true l2); reflexivity.
Qed.

Lemma first_true_none l : existsb (fun b => b) l = false -> first_true l = None.
Proof.
  induction l as [|b l IH]; [reflexivity|]. cbn. destruct b; [discriminate|].
  intros H. rewrite (IH H). reflexivity.
Qed.

Lemma neon_stop_lanes l : length l = 16 -> neon_stop (lanes l) = Ok (first_true l).
Proof.
  intros H.
  do 16 (destruct l as [|? l]; [discriminate H|]). destruct l; [|discriminate H]. clear H.
  unfold neon_stop.
  match goal with |- context [as_u64 (lanes [?a;?b;?c;?d;?e;?f;?g;?h;?i;?j;?k;?l;?m;?n;?o;?p])] =>
    change (as_u64 (lanes [a;b;c;d;e;f;g;h;i;j;k;l;m;n;o;p]))
      with [le_word (lanes [a;b;c;d;e;f;g;h]); le_word (lanes [i;j;k;l;m;n;o;p])];
    change (as_u32 (lanes [a;b;c;d;e;f;g;h;i;j;k;l;m;n;o;p]))
      with [le_word (lanes [a;b;c;d]); le_word (lanes [e;f;g;h]);
            le_word (lanes [i;j;k;l]); le_word (lanes [m;n;o;p])];
    change [a;b;c;d;e;f;g;h;i;j;k;l;m;n;o;p]
      with ([a;b;c;d] ++ [e;f;g;h] ++ [i;j;k;l] ++ [m;n;o;p]);
    assert (E : (N.lor (le_word (lanes [a;b;c;d;e;f;g;h])) (le_word (lanes [i;j;k;l;m;n;o;p])) =? 0)%N
                = negb (existsb (fun x => x) ([a;b;c;d] ++ [e;f;g;h] ++ [i;j;k;l] ++ [m;n;o;p])))
  end.
  { rewrite app_assoc, existsb_app, negb_orb. cbn [app].
    rewrite <- !le_word_zero.
    match goal with |- (N.lor ?x ?y =? 0)%N = _ => generalize x y end. intros x y.
    destruct (N.eqb_spec (N.lor x y) 0) as [L|L].
    - apply N.lor_eq_0_iff in L. destruct L as [-> ->]. reflexivity.
    - destruct (N.eqb_spec x 0) as [->|]; [|reflexivity].
      destruct (N.eqb_spec y 0) as [->|]; [|reflexivity]. exfalso. apply L. reflexivity. }
  cbn [nth]. rewrite E, negb_involutive.
  destruct (existsb _ _) eqn:X.
  - rewrite !neon_word4, !first_true_app. cbn [length].
    repeat match goal with |- context [match first_true ?l with _ => _ end] =>
      destruct (first_true l); [reflexivity|] end.
    reflexivity.
  - rewrite (first_true_none _ X). reflexivity.
Qed.

(** ** cmpistri *)

Definition stop42 (c : byte) : bool := negb (vec_number_char c) || Byte.eqb c c_nul.

Lemma number_set (c : byte) :
  existsb (N.eqb (byte_val c)) (valid_lanes number_chars) = vec_number_char c.
Proof. destruct c; reflexivity. Qed.

Lemma byte_val_nul (c : byte) : (byte_val c =? 0)%N = Byte.eqb c c_nul.
Proof. exact (byte_val_eqb c x00). Qed.

Lemma cmpistri_first cs :
  lowest_set (map negb (res1 number_chars (map byte_val cs) false)) =
  match find_index stop42 cs with Some k => k | None => length cs end.
Proof.
  induction cs as [|c cs IH]; [reflexivity|].
  cbn [map res1 lowest_set find_index length].
  rewrite byte_val_nul, number_set. cbn [orb].
  replace (negb (negb (Byte.eqb c c_nul) && vec_number_char c)) with (stop42 c)
    by (unfold stop42; destruct (Byte.eqb c c_nul), (vec_number_char c); reflexivity).
  destruct (stop42 c) eqn:S; [reflexivity|].
  unfold stop42 in S. apply orb_false_iff in S. destruct S as [_ ->].
  rewrite IH. destruct (find_index stop42 cs); reflexivity.
Qed.

(** ** The loops *)

Definition round_ok (w : nat) (round : reg -> outcome (option nat)) (p : byte -> bool) : Prop :=
  forall cs, length cs = w -> round (map byte_val cs) = Ok (find_index p cs).

Lemma vloop_lane w round p : 0 < w -> round_ok w round p ->
  forall fuel rest, length rest < fuel -> vloop fuel w round rest = Ok (lane_scan fuel w p rest).
Proof.
  intros W R. induction fuel as [|f IH]; intros rest L; [lia|].
  cbn [vloop lane_scan]. unfold vload.
  destruct (Nat.leb_spec w (length rest)) as [Le|Gt]; [|reflexivity].
  cbn [obind]. rewrite R by (apply firstn_length_le; assumption). cbn [obind].
  destruct (find_index p (firstn w rest)) as [k|]; [reflexivity|].
  rewrite IH by (rewrite skipn_length; lia). cbn [obind].
  destruct (lane_scan f w p (skipn w rest)) as [n b]. reflexivity.
Qed.

Lemma tail_loop_count p rest : tail_loop p rest = scalar_count p rest.
Proof. induction rest as [|c tl IH]; [reflexivity|]. cbn. rewrite IH. reflexivity. Qed.

Lemma number_tail sgn c : tail_number sgn c = negb (vec_number_char c).
Proof. destruct sgn, c; reflexivity. Qed.
Lemma space_tail sgn c : tail_space sgn c = negb (vec_ws_char c).
Proof. destruct sgn, c; reflexivity. Qed.
Lemma ascii_tail sgn c : tail_ascii sgn c = negb (vec_ascii_char c).
Proof. destruct sgn, c; reflexivity. Qed.
Lemma is_nl_tail sgn c : ch_is sgn x0a c = Byte.eqb c c_nl.
Proof. destruct sgn, c; reflexivity. Qed.
Lemma is_bs_tail sgn c : ch_is sgn x5c c = Byte.eqb c c_backslash.
Proof. destruct sgn, c; reflexivity. Qed.
Lemma is_quote_tail sgn c : ch_is sgn x22 c = Byte.eqb c c_quote.
Proof. destruct sgn, c; reflexivity. Qed.

Lemma scan_return_ok w round p q data : 0 < w -> round_ok w round p ->
  (forall c, q c = p c) -> scan_return w round q data = Ok (simd_count w p data).
Proof.
  intros W R Q. unfold scan_return, simd_count.
  rewrite (vloop_lane w round p W R) by lia. cbn [obind].
  destruct (lane_scan (S (length data)) w p data) as [n hit].
  rewrite tail_loop_count, (scalar_count_ext q p) by assumption. reflexivity.
Qed.

Lemma tail_comment_count sgn rest : forall n,
  tail_comment sgn rest n =
  let m := scalar_count (fun c => Byte.eqb c c_nl) rest in
  if m <? length rest then S (n + m) else n + m.
Proof.
  induction rest as [|c tl IH]; intros n; cbn [tail_comment scalar_count length].
  - cbn. lia.
  - rewrite is_nl_tail. destruct (Byte.eqb c c_nl).
    + cbn. lia.
    + rewrite IH. cbv zeta. change (S ?a <? S ?b) with (a <? b).
      destruct (_ <? _); lia.
Qed.

Lemma scan_comment16 round sgn data : round_ok 16 round (fun c => Byte.eqb c c_nl) ->
  scan_comment 16 round sgn data = Ok (comment_vec data).
Proof.
  intros R. unfold scan_comment, comment_vec.
  rewrite (vloop_lane 16 round _ ltac:(lia) R) by lia. cbn [obind].
  destruct (lane_scan (S (length data)) 16 (fun c => Byte.eqb c c_nl) data) as [n hit].
  rewrite tail_comment_count. reflexivity.
Qed.

Lemma scan_comment_eq w round sgn data : 0 < w -> round_ok w round (fun c => Byte.eqb c c_nl) ->
  scan_comment w round sgn data = Ok (comment_vec data).
Proof.
  intros W R. rewrite comment_vec_eq. unfold scan_comment.
  rewrite (vloop_lane w round _ W R) by lia. cbn [obind].
  destruct (lane_scan (S (length data)) w (fun c => Byte.eqb c c_nl) data) as [n hit] eqn:E.
  destruct (lane_scan_spec _ w W _ _ _ _ (Nat.lt_succ_diag_r _) E) as (H1 & H2 & H3 & _).
  rewrite tail_comment_count.
  pose proof (firstn_forall_scalar _ _ _ H1 H2) as Hs.
  pose proof (scalar_count_le (fun c => Byte.eqb c c_nl) (skipn n data)) as Hle.
  rewrite skipn_length in *. cbv zeta. f_equal.
  destruct hit.
  - specialize (H3 eq_refl). destruct (find_index_Some _ _ _ H3) as (H4 & H5 & _).
    rewrite H5. destruct (Nat.ltb_spec n (length data)); [reflexivity|lia].
  - rewrite <- Hs.
    destruct (Nat.ltb_spec (scalar_count (fun c => Byte.eqb c c_nl) (skipn n data))
                (length data - n)) as [Hl|Hl];
    destruct (Nat.ltb_spec (n + scalar_count (fun c => Byte.eqb c c_nl) (skipn n data))
                (length data)) as [Hl'|Hl']; lia.
Qed.

Lemma tail_string_bytes sgn rest : forall esc n,
  tail_string sgn esc rest n = str_bytes esc rest n.
Proof.
  induction rest as [|c tl IH]; intros esc n; cbn [tail_string str_bytes]; [reflexivity|].
  rewrite is_bs_tail, is_quote_tail. destruct esc; [apply IH|].
  destruct (Byte.eqb c c_backslash); [apply IH|].
  destruct (Byte.eqb c c_quote); [reflexivity|apply IH].
Qed.

Lemma scan_string_ok w round sgn esc data : 0 < w -> round_ok w round is_str_special ->
  scan_string w round sgn esc data = Ok (findStringEnd_vec w esc data).
Proof.
  intros W R. unfold scan_string, findStringEnd_vec.
  rewrite (vloop_lane w round _ W R) by lia. cbn [obind].
  destruct (lane_scan (S (length data)) w is_str_special data) as [n hit].
  rewrite tail_string_bytes. reflexivity.
Qed.

(** ** The rounds *)

Lemma map_negb_on (p : byte -> bool) cs : map negb (map p cs) = map (fun c => negb (p c)) cs.
Proof. apply map_map. Qed.

Lemma round_set w mask p : w <= 32 ->
  (forall cs, length cs = w -> mask (map byte_val cs) = on p cs) ->
  round_ok w (fun chunk => stop_at_set (mask chunk)) p.
Proof.
  intros W M cs L. rewrite M, on_lanes by assumption.
  rewrite stop_set by (rewrite map_length; lia). rewrite find_first_true. reflexivity.
Qed.

Lemma round_clear16 mask p :
  (forall cs, length cs = 16 -> mask (map byte_val cs) = on p cs) ->
  round_ok 16 (fun chunk => stop_at_clear16 (mask chunk)) (fun c => negb (p c)).
Proof.
  intros M cs L. rewrite M, on_lanes by assumption.
  rewrite stop_clear16 by (rewrite map_length; lia).
  rewrite map_negb_on, find_first_true. reflexivity.
Qed.

Lemma round_clear32 mask p :
  (forall cs, length cs = 32 -> mask (map byte_val cs) = on p cs) ->
  round_ok 32 (fun chunk => stop_at_clear32 (mask chunk)) (fun c => negb (p c)).
Proof.
  intros M cs L. rewrite M, on_lanes by assumption.
  rewrite stop_clear32 by (rewrite map_length; lia).
  rewrite map_negb_on, find_first_true. reflexivity.
Qed.

Lemma round_neon mask p :
  (forall cs, length cs = 16 -> mask (map byte_val cs) = on p cs) ->
  round_ok 16 (fun chunk => neon_stop (mask chunk)) p.
Proof.
  intros M cs L. rewrite M, on_lanes by assumption.
  rewrite neon_stop_lanes by (rewrite map_length; lia).
  rewrite find_first_true. reflexivity.
Qed.

Lemma round_neon_not mask p :
  (forall cs, length cs = 16 -> mask (map byte_val cs) = on p cs) ->
  round_ok 16 (fun chunk => neon_stop (vmvn (mask chunk))) (fun c => negb (p c)).
Proof.
  intros M. apply (round_neon (fun chunk => vmvn (mask chunk))). intros cs L.
  rewrite M, mvn_on by assumption. reflexivity.
Qed.

Lemma round_42 :
  round_ok 16 (fun chunk => let result := cmpistri_any_neg number_chars chunk in
                            Ok (if (result =? 16)%nat then None else Some result)) stop42.
Proof.
  intros cs L. cbv zeta. unfold cmpistri_any_neg. rewrite cmpistri_first, L.
  destruct (find_index stop42 cs) as [k|] eqn:E; [|reflexivity].
  destruct (find_index_Some _ _ _ E) as (H & _).
  destruct (Nat.eqb_spec k 16); [lia|reflexivity].
Qed.

(** ** The scanners *)

Lemma string_simd sgn data esc :
  findStringEndSIMD sgn data esc = Ok (findStringEnd_vec 16 esc data).
Proof.
  apply scan_string_ok; [lia|]. apply round_set; [lia|]. intros; apply string_mask_on; assumption.
Qed.
Lemma string_neon sgn data esc :
  findStringEndNEON sgn data esc = Ok (findStringEnd_vec 16 esc data).
Proof.
  apply scan_string_ok; [lia|]. apply round_neon. intros; apply string_mask_on; assumption.
Qed.
Lemma string_avx2 sgn data esc :
  findStringEndAVX2 sgn data esc = Ok (findStringEnd_vec 32 esc data).
Proof.
  apply scan_string_ok; [lia|]. apply round_set; [lia|]. intros; apply string_mask_on; assumption.
Qed.

Lemma number_sse2 sgn data : findNumberEndSIMD_sse2 sgn data = Ok (number_vec Sse2 data).
Proof.
  unfold findNumberEndSIMD_sse2. rewrite tail_loop_count.
  rewrite (scalar_count_ext _ _ _ (number_tail sgn)). reflexivity.
Qed.
Lemma number_sse42 sgn data : findNumberEndSIMD_sse42 sgn data = Ok (number_vec Sse42 data).
Proof.
  unfold findNumberEndSIMD_sse42. cbn [number_vec]. unfold simd_count_break.
  rewrite (vloop_lane 16 _ stop42 ltac:(lia) round_42) by lia. cbn [obind].
  change (fun c => negb (vec_number_char c) || Byte.eqb c c_nul) with stop42.
  destruct (lane_scan (S (length data)) 16 stop42 data) as [n hit].
  rewrite tail_loop_count, (scalar_count_ext _ _ _ (number_tail sgn)). reflexivity.
Qed.
Lemma number_neon sgn data : findNumberEndNEON sgn data = Ok (number_vec Neon data).
Proof.
  apply scan_return_ok; [lia| |apply number_tail].
  apply round_neon_not. apply number_mask_on.
Qed.

Lemma ws_neon sgn data :
  skipWhitespaceNEON sgn data = Ok (simd_count 16 (fun c => negb (vec_ws_char c)) data).
Proof.
  apply scan_return_ok; [lia| |apply space_tail].
  apply round_neon_not. intros; apply whitespace_mask_on; assumption.
Qed.
Lemma ws_simd sgn data :
  skipWhitespaceSIMD sgn data = Ok (simd_count 16 (fun c => negb (vec_ws_char c)) data).
Proof.
  apply scan_return_ok; [lia| |apply space_tail].
  apply round_clear16. intros; apply whitespace_mask_on; assumption.
Qed.
Lemma ws_avx2 sgn data :
  skipWhitespaceAVX2 sgn data = Ok (simd_count 32 (fun c => negb (vec_ws_char c)) data).
Proof.
  apply scan_return_ok; [lia| |apply space_tail].
  apply round_clear32. intros; apply whitespace_mask_on; assumption.
Qed.

Lemma ascii_neon sgn data :
  findAsciiEndNEON sgn data = Ok (simd_count 16 (fun c => negb (vec_ascii_char c)) data).
Proof.
  apply scan_return_ok; [lia| |apply ascii_tail].
  apply round_neon_not. intros; apply ascii_mask_on; [assumption|].
  intros; apply range_neon_on; assumption.
Qed.
Lemma ascii_simd sgn data :
  findAsciiEndSIMD sgn data = Ok (simd_count 16 (fun c => negb (vec_ascii_char c)) data).
Proof.
  apply scan_return_ok; [lia| |apply ascii_tail].
  apply round_clear16. intros; apply ascii_mask_on; [assumption|].
  intros; apply range_x86_on; assumption.
Qed.
Lemma ascii_avx2 sgn data :
  findAsciiEndAVX2 sgn data = Ok (simd_count 32 (fun c => negb (vec_ascii_char c)) data).
Proof.
  apply scan_return_ok; [lia| |apply ascii_tail].
  apply round_clear32. intros; apply ascii_mask_on; [assumption|].
  intros; apply range_x86_on; assumption.
Qed.

Lemma comment_neon sgn data : skipCommentNEON sgn data = Ok (comment_vec data).
Proof.
  apply scan_comment_eq; [lia|]. apply round_neon. intros; apply newline_mask_on; assumption.
Qed.
Lemma comment_simd sgn data : skipCommentSIMD sgn data = Ok (comment_vec data).
Proof.
  apply scan_comment_eq; [lia|]. apply round_set; [lia|]. intros; apply newline_mask_on; assumption.
Qed.
Lemma comment_avx2 sgn data : skipCommentAVX2 sgn data = Ok (comment_vec data).
Proof.
  apply scan_comment_eq; [lia|]. apply round_set; [lia|]. intros; apply newline_mask_on; assumption.
Qed.

(** ** The tokenizer's functions *)

Lemma vfindStringEnd_ok i sgn esc rest :
  vfindStringEnd i sgn esc rest = Ok (findStringEnd i esc rest).
Proof.
  destruct i; unfold vfindStringEnd, findStringEnd; cbn [str_width]; cbv zeta;
    try reflexivity;
    rewrite ?string_simd, ?string_neon, ?string_avx2; cbn [obind];
    destruct (_ <=? _); try reflexivity;
    destruct (findStringEnd_vec _ esc rest) as [n e]; destruct (_ <? _); reflexivity.
Qed.

Lemma vfindAsciiEnd_ok i sgn rest : vfindAsciiEnd i sgn rest = Ok (findAsciiEnd i rest).
Proof.
  destruct i; unfold vfindAsciiEnd, findAsciiEnd; cbv zeta; try reflexivity;
    rewrite ?ascii_simd, ?ascii_neon; cbn [obind];
    destruct (_ <=? _); try reflexivity;
    set (n := simd_count _ _ _); destruct (Nat.ltb_spec n (length rest)); try reflexivity;
    destruct (nth_error rest n) eqn:E; try reflexivity; apply nth_error_None in E; lia.
Qed.

Lemma vfindNumberEnd_ok i sgn rest : vfindNumberEnd i sgn rest = Ok (findNumberEnd i rest).
Proof.
  destruct i; unfold vfindNumberEnd, findNumberEnd; cbv zeta; try reflexivity;
    rewrite ?number_sse2, ?number_sse42, ?number_neon; cbn [obind];
    destruct (_ <=? _); try reflexivity;
    change (number_vec Avx2 rest) with (number_vec Sse42 rest);
    destruct ((_ <? _) && (_ <? _)); reflexivity.
Qed.

Lemma vws_skip_ok i sgn rest : vws_skip i sgn rest = Ok (ws_skip i rest).
Proof.
  destruct i; unfold vws_skip, ws_skip; cbn [str_width]; cbv zeta; try reflexivity;
    rewrite ?ws_simd, ?ws_neon, ?ws_avx2; destruct (_ <=? _); reflexivity.
Qed.

Lemma vskipComment_ok i sgn nl rest : vskipComment i sgn nl rest = Ok (skipComment i nl rest).
Proof.
  destruct i; unfold vskipComment, skipComment; cbv zeta; try reflexivity;
    rewrite ?comment_simd, ?comment_neon; cbn [obind];
    destruct ((16 <=? length rest) && negb nl); try reflexivity;
    set (n := comment_vec rest);
    destruct (Nat.ltb_spec 0 n); destruct (Nat.leb_spec n (length rest)); cbn [andb];
    try reflexivity;
    destruct (nth_error rest (n - 1)) eqn:E;
    [ destruct (Byte.eqb _ _); reflexivity | apply nth_error_None in E; lia
    | destruct (Byte.eqb _ _); reflexivity | apply nth_error_None in E; lia
    | destruct (Byte.eqb _ _); reflexivity | apply nth_error_None in E; lia
    | destruct (Byte.eqb _ _); reflexivity | apply nth_error_None in E; lia ].
Qed.
