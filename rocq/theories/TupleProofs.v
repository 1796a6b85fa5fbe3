(** JS::Tuple: the sequence of indices, get, and the handler of JS::Tuple. *)
From Coq Require Import Lia.
From Verif Require Import Base ScanModel TokModel HandlerModel TupleModel.

Local Open Scope nat_scope.

Definition upto (n : nat) : list N := map N.of_nat (seq 0 n).
Definition small (n : nat) : Prop := (N.of_nat n <= 2 ^ 64)%N.

Lemma merge_upto a b : small (a + b) -> merge (upto a) (upto b) = upto (a + b).
Proof.
  unfold merge, upto, small. intros H. rewrite map_length, seq_length, seq_app, map_app. f_equal.
  cbn [Nat.add]. rewrite map_map.
  assert (E : forall k, seq (a + k) b = map (fun i => a + i) (seq k b)).
  { clear. induction b as [|b IH]; intros k; [reflexivity|]. cbn. f_equal. rewrite <- IH. f_equal. lia. }
  specialize (E 0). rewrite Nat.add_0_r in E. rewrite E, map_map. apply map_ext_in. intros i Hi. apply in_seq in Hi.
  rewrite N.mod_small; lia.
Qed.

Lemma div2_lt n : 2 <= n -> 1 <= Nat.div2 n < n.
Proof. intros H. split; [destruct n as [|[|n]]; cbn; lia|apply Nat.lt_div2; lia]. Qed.

Lemma gen_ok d : forall n, small n -> n < d -> genSequence d n = Some (upto n).
Proof.
  induction d as [|d IH]; intros n Hs Hn; [lia|]. cbn [genSequence].
  destruct n as [|[|n]]; [reflexivity|reflexivity|].
  pose proof (div2_lt (S (S n)) ltac:(lia)) as [Hl Hu]. set (h := Nat.div2 (S (S n))) in *.
  rewrite IH, IH; [|unfold small in *; lia|lia|unfold small in *; lia|lia].
  rewrite merge_upto by (unfold small in *; lia). do 2 f_equal. lia.
Qed.
Lemma indices_ok n : small n -> indices n = Some (upto n).
Proof. intros H. apply gen_ok; [exact H|lia]. Qed.

(** Depth [d] is enough for sizes up to 2^(d-1). *)
Lemma gen_depth d : forall n, n <= 2 ^ d -> small n -> genSequence (S d) n = Some (upto n).
Proof.
  induction d as [|d IH]; intros n Hn Hs.
  - cbn in Hn. destruct n as [|[|n]]; [reflexivity|reflexivity|lia].
  - destruct n as [|[|n]]; [reflexivity|reflexivity|].
    remember (S d) as k. cbn [genSequence]. subst k. cbn [Nat.pow] in Hn.
    pose proof (div2_lt (S (S n)) ltac:(lia)) as [Hl Hu].
    pose proof (Nat.div2_odd (S (S n))) as Ho. set (h := Nat.div2 (S (S n))) in *.
    assert (Hb : Nat.b2n (Nat.odd (S (S n))) <= 1) by (destruct (Nat.odd _); cbn; lia).
    rewrite IH, IH; [|unfold small in *; lia|unfold small in *; lia|unfold small in *; lia|unfold small in *; lia].
    rewrite merge_upto by (unfold small in *; lia). do 2 f_equal. lia.
Qed.

Section Tuples.
Context {T D : Type}.
Fixpoint elems (k : nat) (ts : list T) (args : list D) : list (element T D) :=
  match ts, args with
  | t :: ts, a :: args => mkElement (N.of_nat k) t a :: elems (S k) ts args
  | _, _ => []
  end.

Lemma impl_ok ts : forall args k, length args = length ts ->
  tupleImpl (map N.of_nat (seq k (length ts))) ts args = Some (elems k ts args).
Proof.
  induction ts as [|t ts IH]; intros [|a args] k H; try discriminate H; [reflexivity|].
  injection H as H. cbn. rewrite (IH args (S k) H). reflexivity.
Qed.
Lemma impl_length is : forall ts (args : list D) r, tupleImpl is ts args = Some r -> length args = length (A:=T) ts.
Proof.
  induction is as [|i is IH]; intros [|t ts] [|a args] r H; try discriminate H; [reflexivity|].
  cbn in H. destruct (tupleImpl is ts args) eqn:E; [|discriminate]. cbn. f_equal. eapply IH, E.
Qed.
Lemma make_ok ts (args : list D) : small (length ts) -> length args = length ts -> makeTuple ts args = Some (elems 0 ts args).
Proof. intros Hs H. unfold makeTuple. rewrite (indices_ok _ Hs). unfold upto. apply impl_ok, H. Qed.

Lemma filter_elems i ts : forall (args : list D) k,
  filter (fun e => N.eqb (el_index e) i) (elems k ts args) =
  match (if (N.of_nat k <=? i)%N then nth_error (combine ts args) (N.to_nat i - k) else None) with
  | Some (t, a) => [mkElement i t a]
  | None => []
  end.
Proof.
  induction ts as [|t ts IH]; intros args k; cbn [elems combine].
  - destruct (N.of_nat k <=? i)%N; [|reflexivity]. destruct (N.to_nat i - k); reflexivity.
  - destruct args as [|a args].
    { destruct (N.of_nat k <=? i)%N; [|reflexivity]. destruct (N.to_nat i - k); reflexivity. }
    cbn [filter el_index]. rewrite (IH args (S k)).
    destruct (N.eqb_spec (N.of_nat k) i) as [<-|Hne].
    + rewrite N.leb_refl, Nat2N.id, Nat.sub_diag. cbn [nth_error].
      destruct (N.leb_spec (N.of_nat (S k)) (N.of_nat k)); [lia|]. reflexivity.
    + destruct (N.leb_spec (N.of_nat k) i); destruct (N.leb_spec (N.of_nat (S k)) i); try lia; [|reflexivity].
      replace (N.to_nat i - k) with (S (N.to_nat i - S k)) by lia. reflexivity.
Qed.

Lemma deduce_elems i ts (args : list D) :
  deduce i (elems 0 ts args) =
  match nth_error (combine ts args) (N.to_nat i) with Some (t, a) => Some (mkElement i t a) | None => None end.
Proof.
  unfold deduce. rewrite (filter_elems i ts args 0).
  destruct (N.leb_spec (N.of_nat 0) i); [|lia]. rewrite Nat.sub_0_r.
  destruct (nth_error _ _) as [[t a]|]; reflexivity.
Qed.

Lemma nth_combine ts : forall (args : list D) i, length args = length (A:=T) ts ->
  nth_error (combine ts args) i =
  match nth_error ts i, nth_error args i with Some t, Some a => Some (t, a) | _, _ => None end.
Proof.
  induction ts as [|t ts IH]; intros [|a args] [|i] H; try discriminate H; try reflexivity.
  injection H as H. apply (IH args i H).
Qed.

Lemma nth_both ts (args : list D) i : length args = length (A:=T) ts ->
  (exists t a, nth_error ts i = Some t /\ nth_error args i = Some a) \/ (nth_error ts i = None /\ nth_error args i = None).
Proof.
  intros H. destruct (nth_error ts i) as [t|] eqn:E; destruct (nth_error args i) as [a|] eqn:E'; eauto.
  - apply nth_error_None in E'. pose proof (nth_error_Some ts i) as X. rewrite E in X. destruct X as [X _].
    specialize (X ltac:(discriminate)). lia.
  - apply nth_error_None in E. pose proof (nth_error_Some args i) as X. rewrite E' in X. destruct X as [X _].
    specialize (X ltac:(discriminate)). lia.
Qed.

Lemma get_elems i ts (args : list D) : length args = length ts -> get i (elems 0 ts args) = nth_error args (N.to_nat i).
Proof.
  intros H. unfold get. rewrite deduce_elems, (nth_combine ts args _ H).
  destruct (nth_both ts args (N.to_nat i) H) as [(t & a & E1 & E2)|[E1 E2]]; rewrite ?E1, ?E2; reflexivity.
Qed.
Lemma typeAt_elems i ts (args : list D) : length args = length ts -> typeAt i (elems 0 ts args) = nth_error ts (N.to_nat i).
Proof.
  intros H. unfold typeAt. rewrite deduce_elems, (nth_combine ts args _ H).
  destruct (nth_both ts args (N.to_nat i) H) as [(t & a & E1 & E2)|[E1 E2]]; rewrite ?E1, ?E2; reflexivity.
Qed.

Lemma put_length (x : D) l : forall i, length (put i x l) = length l.
Proof. induction l as [|y l IH]; intros [|i]; cbn; auto. Qed.
Lemma map_put_elems i (x : D) ts : forall args k, length args = length ts ->
  map (fun e => if N.eqb (el_index e) i then mkElement (el_index e) (el_type e) x else e) (elems k ts args) =
  elems k ts (if (N.of_nat k <=? i)%N then put (N.to_nat i - k) x args else args).
Proof.
  induction ts as [|t ts IH]; intros [|a args] k H; try discriminate H; [reflexivity|]. injection H as H.
  cbn [elems map el_index el_type]. rewrite (IH args (S k) H).
  destruct (N.eqb_spec (N.of_nat k) i) as [<-|Hne].
  - rewrite N.leb_refl, Nat2N.id, Nat.sub_diag. cbn [put elems].
    destruct (N.leb_spec (N.of_nat (S k)) (N.of_nat k)); [lia|]. reflexivity.
  - destruct (N.leb_spec (N.of_nat k) i); destruct (N.leb_spec (N.of_nat (S k)) i); try lia; [|reflexivity].
    replace (N.to_nat i - k) with (S (N.to_nat i - S k)) by lia. reflexivity.
Qed.
Lemma assign_elems i (x : D) ts args : length args = length ts ->
  assign i x (elems 0 ts args) = if N.to_nat i <? length args then Some (elems 0 ts (put (N.to_nat i) x args)) else None.
Proof.
  intros H. unfold assign. rewrite deduce_elems, (nth_combine ts args _ H), (map_put_elems i x ts args 0 H).
  destruct (N.leb_spec (N.of_nat 0) i); [|lia]. rewrite Nat.sub_0_r.
  destruct (Nat.ltb_spec (N.to_nat i) (length args)) as [Hl|Hl].
  - destruct (nth_both ts args (N.to_nat i) H) as [(t & a & E1 & E2)|[_ E]]; [rewrite ?E1, ?E2; reflexivity|].
    apply nth_error_None in E. lia.
  - destruct (nth_both ts args (N.to_nat i) H) as [(t & a & _ & E)|[E1 E2]]; [|rewrite ?E1, ?E2; reflexivity].
    assert (nth_error args (N.to_nat i) <> None) by congruence. apply nth_error_Some in H1. lia.
Qed.
End Tuples.

Lemma tuple_of_ok {D} (args : list D) : small (length args) -> tuple_of args = Some (elems 0 (repeat tt (length args)) args).
Proof. intros H. apply make_ok; rewrite repeat_length; [exact H|reflexivity]. Qed.
Lemma get_of_ok {D} (args : list D) i : small (length args) -> get_of i args = nth_error args (N.to_nat i).
Proof. intros H. unfold get_of. rewrite tuple_of_ok by exact H. apply get_elems. rewrite repeat_length. reflexivity. Qed.

Lemma size_sub_ok a b : (b <= a < 2 ^ 64)%N -> size_sub a b = (a - b)%N.
Proof.
  intros H. unfold size_sub. replace (a + 2 ^ 64 - b)%N with (a - b + 1 * 2 ^ 64)%N by lia.
  rewrite N.mod_add by discriminate. apply N.mod_small. lia.
Qed.

(** ** The handler *)
Lemma data_elems {D} ts (args : list D) k : length args = length (A:=unit) ts -> map el_data (elems k ts args) = args.
Proof.
  revert args k. induction ts as [|t ts IH]; intros [|a args] k H; try discriminate H; [reflexivity|].
  injection H as H. cbn. f_equal. apply IH, H.
Qed.

Section Handler.
Context {S : Type} (next : token -> S -> outcome (S * error * token)).

Definition data_of (r : outcome (error * list (element unit val) * ctx S)) : outcome (error * list val * ctx S) :=
  let* (e, vt, c) := r in Ok (e, map el_data vt, c).

Lemma put_app_at {A} (x y : A) l r : put (length l) x (l ++ y :: r) = l ++ x :: r.
Proof. induction l as [|z l IH]; cbn; [reflexivity|]. rewrite IH. reflexivity. Qed.

(** The loop of HandlerModel, with what follows the template's recursion. *)
Lemma template_loop hs0 hs1 : forall (vs0 vs1 : list val) c, (N.of_nat (length (hs0 ++ hs1)) < 2 ^ 64)%N ->
  length vs0 = length hs0 -> length vs1 = length hs1 ->
  (let* (e, vt, c) := tuple_template next (length hs1) (elems 0 (repeat tt (length (hs0 ++ hs1))) (hs0 ++ hs1)) (length (hs0 ++ hs1))
                        (elems 0 (repeat tt (length (vs0 ++ vs1))) (vs0 ++ vs1)) c in
   if is_ok e then Ok (if type_eqb (c_type c) TArrayEnd then NoError else ExpectedArrayEnd, map el_data vt, c)
   else Ok (e, map el_data vt, c)) = tuple_loop next hs1 vs0 vs1 c.
Proof.
  revert hs0. induction hs1 as [|h hs1 IH]; intros hs0 vs0 vs1 c Hs H0 H1.
  - destruct vs1; [|discriminate]. cbn [tuple_template tuple_loop length obind is_ok].
    rewrite data_elems by (rewrite repeat_length; reflexivity). rewrite app_nil_r. reflexivity.
  - destruct vs1 as [|v vs1]; [discriminate|]. injection H1 as H1.
    cbn [tuple_template tuple_loop length].
    replace (size_sub (N.of_nat (length (hs0 ++ h :: hs1))) (N.of_nat (Datatypes.S (length hs1)))) with (N.of_nat (length hs0)).
    2:{ rewrite app_length in *. cbn [length] in *. rewrite size_sub_ok by lia. lia. }
    rewrite !get_elems by (rewrite repeat_length; reflexivity). rewrite Nat2N.id.
    rewrite nth_error_app2, Nat.sub_diag by lia. cbn [nth_error].
    rewrite nth_error_app2 by lia. replace (length hs0 - length vs0) with 0 by lia. cbn [nth_error].
    destruct (h v c) as [[[e v'] c']| |]; cbn [obind]; try reflexivity.
    rewrite assign_elems by (rewrite repeat_length; reflexivity). rewrite Nat2N.id.
    destruct (Nat.ltb_spec (length hs0) (length (vs0 ++ v :: vs1))) as [_|Hf]; [|rewrite app_length in Hf; cbn in Hf; lia].
    replace (length hs0) with (length vs0) by exact H0. rewrite put_app_at.
    replace (length (vs0 ++ v :: vs1)) with (length (vs0 ++ v' :: vs1)) by (rewrite !app_length; reflexivity).
    destruct (is_ok e) eqn:Ee; cbn [obind]; [|rewrite Ee, data_elems by (rewrite repeat_length; reflexivity); reflexivity].
    destruct (ctx_next next c') as [[e2 c2]| |]; cbn [obind]; try reflexivity.
    destruct (is_ok e2) eqn:Ee2; cbn [obind]; [|rewrite Ee2, data_elems by (rewrite repeat_length; reflexivity); reflexivity].
    specialize (IH (hs0 ++ [h]) (vs0 ++ [v']) vs1 c2).
    rewrite <- !app_assoc in IH. cbn [app] in IH. rewrite <- IH; [reflexivity|exact Hs| |exact H1].
    rewrite !app_length. cbn. lia.
Qed.

Lemma js_tuple_ok hs vs c : (N.of_nat (length hs) < 2 ^ 64)%N -> length vs = length hs ->
  (let* (e, l, c) := js_tuple_to next hs vs c in Ok (e, VList l, c)) = tuple_to next hs (VList vs) c.
Proof.
  intros Hs Hl. unfold js_tuple_to, tuple_to.
  rewrite !tuple_of_ok by (unfold small; lia).
  destruct (type_eqb (c_type c) TArrayStart); cbn [obind]; [|reflexivity].
  destruct (ctx_next next c) as [[e c']| |]; cbn [obind]; try reflexivity.
  destruct (is_ok e); cbn [obind]; [|reflexivity].
  rewrite <- (template_loop [] hs [] vs c' Hs eq_refl Hl). cbn [app].
  destruct (tuple_template _ _ _ _ _ _) as [[[e2 vt] c2]| |]; cbn [obind]; try reflexivity.
Qed.
End Handler.

Lemma template_from (ws0 ws1 : list (wname -> list token * wname)) : forall n, (N.of_nat (length (ws0 ++ ws1)) < 2 ^ 64)%N ->
  tuple_template_from (length ws1) (elems 0 (repeat tt (length (ws0 ++ ws1))) (ws0 ++ ws1)) (length (ws0 ++ ws1)) n = Some (from_list ws1 n).
Proof.
  revert ws0. induction ws1 as [|w ws1 IH]; intros ws0 n Hs; [reflexivity|].
  cbn [tuple_template_from from_list length].
  replace (size_sub (N.of_nat (length (ws0 ++ w :: ws1))) (N.of_nat (S (length ws1)))) with (N.of_nat (length ws0)).
  2:{ rewrite app_length in *. cbn [length] in *. rewrite size_sub_ok by lia. lia. }
  rewrite get_elems by (rewrite repeat_length; reflexivity). rewrite Nat2N.id.
  rewrite nth_error_app2, Nat.sub_diag by lia. cbn [nth_error].
  destruct (w n) as [l1 n1]. specialize (IH (ws0 ++ [w]) n1). rewrite <- !app_assoc in IH. cbn [app] in IH.
  rewrite (IH Hs). destruct (from_list ws1 n1). reflexivity.
Qed.
Lemma js_tuple_from_ok ws n : (N.of_nat (length ws) < 2 ^ 64)%N -> js_tuple_from ws n = Some (from_array ws n).
Proof.
  intros Hs. unfold js_tuple_from, from_array. rewrite tuple_of_ok by (unfold small; lia).
  pose proof (template_from [] ws (noname n) Hs) as H. cbn [app] in H. rewrite H.
  destruct (from_list ws (noname n)). reflexivity.
Qed.
