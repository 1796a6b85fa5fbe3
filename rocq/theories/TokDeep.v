(** The scope counter has 16 bits; nested scopes of the same type do not nest. *)
From Verif Require Import Tactics Base ScanModel TokModel TokSafe JsonSpec TokSpec TokSlice TokScope TokGap TokJsonDoc.
From Coq Require Import Lia.

Lemma drain_reads o : forall f nt s ts e s1,
  drain f o nt s = Ok (ts, e, s1) -> exists nt2 s2, reads o nt s ts nt2 s2.
Proof.
  induction f as [|f IH]; intros nt s ts e s1 E; [discriminate|]. cbn [drain] in E.
  destruct (nextToken o nt s) as [[[s2 e2] nt2]| |] eqn:En; try discriminate E. cbn [obind] in E.
  destruct e2; try (injection E as <- _ _; do 2 eexists; constructor).
  destruct (drain f o nt2 s2) as [[[ts' e'] s']| |] eqn:Ed; try discriminate E. injection E as <- _ _.
  destruct (IH _ _ _ _ _ Ed) as (nt3 & s3 & H). do 2 eexists. econstructor; eassumption.
Qed.

Lemma scoped_prefix o sc0 : forall p q nt s c nt1 s1,
  t_scope s = [] -> reads o nt (set_scope (c :: sc0) s) (p ++ q) nt1 s1 -> q <> [] ->
  snd (fold_left handleType (map tk_value_type p) c) <> 0%N.
Proof.
  induction p as [|tk p IH]; intros q nt s c nt1 s1 Hs H Hq.
  - destruct q as [|tk q]; [congruence|]. inversion H; subst. cbn.
    match goal with E : nextToken _ _ _ = _ |- _ => rename E into En end.
    intros Hz. unfold nextToken in En. cbn [t_scope set_scope] in En. destruct c as [t d]. cbn in Hz. subst d.
    discriminate En.
  - cbn [app] in H. inversion H; subst.
    match goal with E : nextToken _ _ _ = _, R : reads _ _ _ _ _ _ |- _ => rename E into En; rename R into Rn end.
    assert (Ho : open_scope (c :: sc0)).
    { cbn. destruct c as [t d]. intros ->. unfold nextToken in En. discriminate En. }
    rewrite next_scope in En by assumption.
    destruct (nextToken o nt s) as [[[s3 e3] nt3]| |] eqn:En0; try discriminate En.
    assert (Hs3 := next_no_scope _ _ _ _ _ _ Hs En0).
    destruct e3; try discriminate En. injection En as <- <-. cbn [scope_upd] in Rn.
    cbn [map fold_left]. eapply IH; [exact Hs3|exact Rn|exact Hq].
Qed.

Lemma fold_opens : forall k d, (d < 65536)%N ->
  fold_left handleType (repeat TArrayStart k) (TArrayStart, d) = (TArrayStart, ((d + N.of_nat k) mod 65536)%N).
Proof.
  induction k as [|k IH]; intros d Hd; cbn [repeat fold_left].
  - rewrite N.add_0_r, N.mod_small by exact Hd. reflexivity.
  - cbn [handleType type_eqb]. cbn. rewrite IH by (apply N.mod_lt; discriminate).
    rewrite N.add_mod_idemp_l by discriminate. do 2 f_equal. lia.
Qed.

(** [n] nested arrays around an empty one. *)
Fixpoint deep (n : nat) : json := match n with O => JArr [] | S n => JArr [deep n] end.
Fixpoint deep_text (n : nat) : bytes := match n with O => [lbrack; rbrack] | S n => lbrack :: deep_text n ++ [rbrack] end.

Lemma ws_nil : ws [].
Proof. constructor. Qed.

Lemma deep_value n : value_text plain (deep n) (deep_text n).
Proof.
  induction n as [|n IH]; cbn [deep deep_text].
  - apply (VT_arr_empty plain []). apply ws_nil.
  - apply (VT_arr plain [deep n]). replace (deep_text n) with ([] ++ deep_text n ++ []) by (cbn; apply app_nil_r).
    constructor; [apply ws_nil|apply ws_nil|exact IH].
Qed.

Lemma deep_doc n : doc_text plain (deep n) (deep_text n).
Proof.
  split; [destruct n; exact I|]. exists [], (deep_text n), []. split; [apply ws_nil|]. split; [apply ws_nil|].
  split; [apply deep_value|]. rewrite app_nil_r. reflexivity.
Qed.

Lemma deep_types n name : map st_value_type (doc_tokens name (deep n)) =
  repeat TArrayStart (S n) ++ repeat TArrayEnd (S n).
Proof.
  revert name. induction n as [|n IH]; intros name; [destruct name; reflexivity|].
  cbn [deep doc_tokens map flat_map]. rewrite app_nil_r, map_app, IH. cbn [map st_make st_value_type].
  assert (Hr : forall (x : type) k, repeat x k ++ [x] = repeat x (S k)).
  { intros x k. induction k as [|k IHk]; [reflexivity|]. cbn [repeat app]. rewrite IHk. reflexivity. }
  rewrite <- app_assoc, Hr. destruct name; reflexivity.
Qed.

Lemma deep_balanced n : balanced (repeat TArrayStart n ++ repeat TArrayEnd n).
Proof.
  induction n as [|n IH]; [constructor|].
  assert (Hr : repeat TArrayEnd (S n) = repeat TArrayEnd n ++ [TArrayEnd]).
  { clear. induction n as [|n IH]; [reflexivity|]. cbn [repeat app] in *. rewrite <- IH. reflexivity. }
  rewrite Hr. cbn [repeat app]. rewrite app_assoc.
  apply (Bal_array (repeat TArrayStart n ++ repeat TArrayEnd n) []); [exact IH|constructor].
Qed.

(** A document, its tokens after the first bracket, and a scope that ends too early. *)
Lemma deep_scope_refuted o : o_nl o = false ->
  exists nt s ts close nt1 s1,
    reachable o s /\ balanced (map tk_value_type ts) /\ tk_value_type close = TArrayEnd /\
    reads o nt (set_scope [] s) (ts ++ [close]) nt1 s1 /\
    ~ exists s2, reads o nt (pushScope TArrayStart s) (ts ++ [close]) nt1 s2.
Proof.
  intros Hnl. remember (N.to_nat 65535) as n eqn:Hn.
  destruct (doc_tokens_correct o plain (deep n) (deep_text n) (S (length (doc_tokens None (deep n)))) tok_default
              (crosses_plain o Hnl) (deep_doc n) (Nat.lt_succ_diag_r _)) as (ts0 & s0 & E & Hv & _).
  destruct (drain_reads _ _ _ _ _ _ _ E) as (nt2 & s2 & R).
  assert (Hty : map tk_value_type ts0 = repeat TArrayStart (S n) ++ repeat TArrayEnd (S n)).
  { rewrite <- deep_types with (name := None), <- Hv, map_map. reflexivity. }
  destruct ts0 as [|tk0 ts0]; [discriminate Hty|].
  injection Hty as Hty0 Hty. inversion R; subst.
  match goal with E0 : nextToken _ _ _ = Ok (?x, _, _), R0 : reads _ _ _ _ _ _ |- _ =>
    rename E0 into En; rename R0 into Rn; set (sa := x) in * end.
  remember (N.to_nat 65535) as n eqn:Hn.
  assert (Hr : forall k, repeat TArrayEnd k ++ [TArrayEnd] = repeat TArrayEnd (S k)).
  { intros k. induction k as [|k IHk]; [reflexivity|]. cbn [repeat app]. rewrite IHk. reflexivity. }
  assert (Hne : ts0 <> []) by (intros ->; destruct n; discriminate Hty).
  destruct (exists_last Hne) as (ts & close & ->).
  rewrite map_app in Hty. cbn [map] in Hty.
  assert (Hsplit : map tk_value_type ts = repeat TArrayStart n ++ repeat TArrayEnd n /\ tk_value_type close = TArrayEnd).
  { apply app_inj_tail. rewrite Hty. rewrite <- app_assoc, Hr. reflexivity. }
  destruct Hsplit as [Hts Hcl].
  assert (Hsa : t_scope sa = []) by (eapply next_no_scope; [|exact En]; reflexivity).
  exists tk0, sa, ts, close, nt2, s2. split.
  { eapply R_next; [|exact En]. apply R_add; [apply R_init|reflexivity]. }
  split; [rewrite Hts; apply deep_balanced|]. split; [exact Hcl|]. split.
  { replace (set_scope [] sa) with sa by (destruct sa; cbn in Hsa; subst; reflexivity). exact Rn. }
  intros (s3 & Rs).
  assert (Hp : exists p q, ts = p ++ q /\ map tk_value_type p = repeat TArrayStart n).
  { exists (firstn n ts), (skipn n ts). split; [symmetry; apply firstn_skipn|].
    rewrite <- firstn_map, Hts, firstn_app, repeat_length, Nat.sub_diag. cbn [firstn]. rewrite app_nil_r.
    apply firstn_all2. rewrite repeat_length. lia. }
  destruct Hp as (p & q & -> & Hp). rewrite <- app_assoc in Rs.
  apply (scoped_prefix o [] p (q ++ [close]) tk0 sa (TArrayStart, 1%N) nt2 s3 Hsa).
  - unfold pushScope in Rs. rewrite Hsa in Rs. exact Rs.
  - destruct q; discriminate.
  - rewrite Hp, fold_opens by reflexivity. cbn [snd]. rewrite Hn, N2Nat.id. reflexivity.
Qed.
