(** Recursive types: whole texts, and writing. *)
From Verif Require Import Base Tactics ScanModel TokModel JsonSpec StrSpec TokSpec ScanProofs TokLoops TokProofs TokSafe TokSpecProofs IntModel SerModel SerSpec SerDoc HandlerModel HandlerSpec HandlerTree HandlerTerm DocTerm WriteModel RoundSpec RoundProofs RecModel RecSpec RecProofs.
From Coq Require Import Lia.

(** ** The tokenizer as a source *)
Definition tinv (s : tstate) : Prop := tok_inv s /\ t_parsed s = None.

Lemma nextToken_left o nt s s' e nt' : tinv s -> nextToken o nt s = Ok (s', e, nt') -> bytes_left s' <= bytes_left s.
Proof.
  intros [[Hinv Hcont] Hp]. unfold nextToken. destruct (match t_scope s with (_, d) :: _ => (d =? 0)%N | [] => false end).
  { intros E. injection E as <- _ _. lia. }
  rewrite Hp in *. destruct Hinv as [Hcur Hcopy]. cbv zeta.
  set (s0 := match t_bufs s with [] => requestMoreData s | _ :: _ => s end).
  assert (H0 : t_parsed s0 = None /\ bytes_left s0 = bytes_left s /\ cur_ok s0 /\ copies_ok s0 /\ cont_ok s0).
  { unfold s0, cur_ok, copies_ok, cont_ok in *. destruct (t_bufs s) as [|b bs] eqn:Hb.
    - destruct (requestMore_left s) as [_ R]. rewrite R. unfold requestMoreData.
      destruct (t_supply s) as [|l ls]; cbn; rewrite Hb; repeat split; auto.
      cbn. destruct l as [|x l]; cbn; lia.
    - repeat split; auto. rewrite Hb. exact Hcur. }
  destruct H0 as (Z1 & Z4 & Z5 & Z6 & Z7).
  destruct (t_bufs s0) as [|b0 bs0] eqn:Hb0; [intros E; injection E as <- _ _; lia|].
  set (s1 := if t_cont s0 then s0 else resetForNewToken s0).
  assert (H1 : t_parsed s1 = None /\ bytes_left s1 = bytes_left s /\ cur_ok s1 /\ copies_ok s1 /\ entry_ok s1).
  { unfold s1. destruct (t_cont s0) eqn:Hc0.
    - repeat split; auto. unfold entry_ok. destruct (Z7 Hc0) as [H|(H1 & H2 & H3 & H4)]; auto 10.
    - repeat split; auto. left. reflexivity. }
  destruct H1 as (W1 & W3 & W4 & W5 & W6).
  destruct (buffer_loop_ok o (S (buffers_left s1)) nt s1 W1 W6 W4 W5 (Nat.lt_succ_diag_r _))
    as (s2 & e2 & nt1 & E & _ & _ & Y3 & _ & _ & _ & Y6 & _). rewrite E. cbn [obind].
  assert (Hb : forall st, bytes_left (scope_handle (tk_value_type nt1) (set_stack st (set_cont (is_need_more e2) s2))) = bytes_left s2).
  { intros st. unfold scope_handle. destruct (t_scope _); reflexivity. }
  assert (Hb' : bytes_left (scope_handle (tk_value_type nt1) (set_cont (is_need_more e2) s2)) = bytes_left s2).
  { unfold scope_handle. destruct (t_scope _); reflexivity. }
  assert (Hb'' : bytes_left (set_cont (is_need_more e2) s2) = bytes_left s2) by reflexivity.
  intros K. assert (Hs : bytes_left s' = bytes_left s2); [|lia].
  destruct e2; try (injection K as <- _ _; exact Hb''); destruct (tk_value_type nt1); cbn [is_need_more] in *;
    try (injection K as <- _ _; first [exact Hb'|exact Hb''|apply Hb]).
  - destruct (t_stack _) as [|[] st]; injection K as <- _ _; first [exact Hb''|apply Hb].
  - destruct (t_stack _) as [|[] st]; injection K as <- _ _; first [exact Hb''|apply Hb].
Qed.
Lemma tok_source o nt s s' e nt' : tinv s -> nextToken o nt s = Ok (s', e, nt') ->
  tinv s' /\ (e = NoError -> weight s' < weight s) /\ bytes_left s' <= bytes_left s.
Proof.
  intros Hi E. destruct (nextToken_ok o nt s (proj1 Hi)) as (s1 & e1 & nt1 & E1 & I1 & _ & _ & _ & W). rewrite E1 in E. injection E as <- <- <-.
  split; [split; [exact I1|exact (nextToken_parsed_None _ _ _ _ _ _ (proj1 Hi) (proj2 Hi) E1)]|]. split; [exact W|]. exact (nextToken_left _ _ _ _ _ _ Hi E1).
Qed.
Lemma tok_weight s : tinv s -> bytes_left s <= weight s <= bytes_left s + 1.
Proof. intros [_ Hp]. unfold weight, parsed_left. rewrite Hp. destruct (t_cont s); [lia|]. destruct (t_tok s); lia. Qed.

Lemma start_left g text : bytes_left (c_src (context_of g text)) = length text.
Proof. unfold context_of, bytes_left. cbn. rewrite app_nil_r. lia. Qed.
Lemma start_inv (o : opts) g text : tinv (c_src (context_of g text)).
Proof. split; [|reflexivity]. apply (reachable_inv o). apply R_add; [apply R_init|reflexivity]. Qed.

(** ** Whole texts *)
Lemma env_struct env k : env_ok env -> exists b fs, struct_of env k = RStruct b fs.
Proof.
  intros H. unfold env_ok in H. unfold struct_of. destruct (nth_in_or_default k env (RStruct [] [])) as [K|K]; [|rewrite K; eauto].
  rewrite Forall_forall in H. specialize (H _ K). destruct (nth k env (RStruct [] [])); try discriminate H. eauto.
Qed.
Lemma env_inline env : env_ok env -> Forall (fun r => no_inline r = true) env.
Proof. unfold env_ok. apply Forall_impl. intros r H. apply andb_prop in H. apply H. Qed.

Lemma after_first o g text e c : ctx_next (nextToken o) (context_of g text) = Ok (e, c) -> e = NoError -> tinv (c_src c) /\ weight (c_src c) <= length text.
Proof.
  unfold ctx_next, ctx_read. destruct (nextToken o _ _) as [[[s e'] tk]| |] eqn:E; try discriminate. intros K. injection K as <- <-. intros ->.
  destruct (tok_source _ _ _ _ _ _ (start_inv o g text) E) as (I & W & _). cbn. split; [exact I|]. specialize (W eq_refl).
  pose proof (tok_weight _ (start_inv o g text)) as K. rewrite start_left in K. lia.
Qed.

Theorem rparse_unroll o g env fuel depth r v text : env_ok env -> length text < depth ->
  rparse o g env fuel depth r v text = parse_text o g fuel (inst (unroll env depth) r) v text.
Proof.
  intros He Hd. unfold rparse, rparseTo, parse_text, parseTo. destruct (ctx_next (nextToken o) (context_of g text)) as [[e c]| |] eqn:E; cbn [obind]; try reflexivity.
  destruct (is_ok e) eqn:Eo; [|reflexivity]. apply ok_iff in Eo. destruct (after_first _ _ _ _ _ E Eo) as [I W].
  destruct (rto_unroll (nextToken o) tinv weight bytes_left (tok_source o) tok_weight fuel env (fun k => env_struct env k He) depth r v c I ltac:(lia)) as [-> _]. reflexivity.
Qed.
Theorem rparse_depth o g env fuel d d' r v text : env_ok env -> length text < d -> length text < d' ->
  rparse o g env fuel d r v text = rparse o g env fuel d' r v text.
Proof.
  intros He Hd Hd'. unfold rparse, rparseTo. destruct (ctx_next (nextToken o) (context_of g text)) as [[e c]| |] eqn:E; cbn [obind]; try reflexivity.
  destruct (is_ok e) eqn:Eo; [|reflexivity]. apply ok_iff in Eo. destruct (after_first _ _ _ _ _ E Eo) as [I W].
  destruct (rto_depth (nextToken o) tinv weight bytes_left (tok_source o) tok_weight fuel env (fun k => env_struct env k He) (env_inline env He) d d' r v c I ltac:(lia)) as [-> _]. reflexivity.
Qed.

(** ** The unrolled types *)

Lemma inst_ok sigma r : (forall k, ty_ok (sigma k)) -> r_ok r = true -> ty_ok (inst sigma r).
Proof.
  intros Hs. rind r; cbn [inst ty_ok r_ok]; auto.
  - induction IH as [|r rs Hr _ IHrs]; cbn; [auto|]. intros H. apply andb_prop in H. destruct H as [A B]. split; [exact (Hr A)|exact (IHrs B)].
  - intros H. apply andb_prop in H. destruct H as [H1 H2]. apply Nat.eqb_eq in H1. rewrite map_length. split; [exact H1|]. clear H1.
    induction IH as [|f fs Hr _ IHfs]; cbn in *; [auto|]. apply andb_prop in H2. destruct H2 as [A B]. split; [exact (Hr A)|exact (IHfs B)].
Qed.
Lemma env_r_ok env k : env_ok env -> r_ok (struct_of env k) = true.
Proof.
  intros H. unfold env_ok in H. unfold struct_of. destruct (nth_in_or_default k env (RStruct [] [])) as [K|K]; [|rewrite K; reflexivity].
  rewrite Forall_forall in H. specialize (H _ K). apply andb_prop in H. destruct H as [H _]. apply andb_prop in H. apply H.
Qed.
Lemma unroll_ok env d k : env_ok env -> ty_ok (unroll env d k).
Proof. intros He. revert k. induction d as [|d IH]; intros k; cbn [unroll]; [exact I|]. apply inst_ok; [exact IH|apply env_r_ok, He]. Qed.
Lemma inst_plain sigma r : (forall k, map_free (sigma k) = true /\ fp_free (sigma k) = true) -> r_plain r = true ->
  map_free (inst sigma r) = true /\ fp_free (inst sigma r) = true.
Proof.
  intros Hs. rind r; cbn [inst map_free fp_free r_plain]; auto; try discriminate.
  - induction IH as [|r rs Hr _ IHrs]; cbn; auto. intros H. apply andb_prop in H. destruct H as [A B]. destruct (Hr A) as [-> ->]. cbn. auto.
  - induction IH as [|f fs Hr _ IHfs]; cbn; auto. intros H. apply andb_prop in H. destruct H as [A B]. destruct (Hr A) as [-> ->]. cbn. auto.
Qed.
Lemma unroll_plain env d k : Forall (fun r => r_plain r = true) env -> map_free (unroll env d k) = true /\ fp_free (unroll env d k) = true.
Proof.
  intros He. revert k. induction d as [|d IH]; intros k; cbn [unroll]; [auto|]. apply inst_plain; [exact IH|]. unfold struct_of.
  destruct (nth_in_or_default k env (RStruct [] [])) as [K|K]; [rewrite Forall_forall in He; auto|rewrite K; reflexivity].
Qed.

Theorem rparse_ends o g env r v text d0 : env_ok env -> Forall (fun r => r_plain r = true) env -> r_ok r = true -> r_plain r = true ->
  length text < d0 -> shaped (inst (unroll env d0) r) v ->
  exists e v' rp n, forall fuel depth, n <= fuel -> length text < depth -> rparse o g env fuel depth r v text = Ok (e, v', rp).
Proof.
  intros He Hp Hr Hrp Hd Hv.
  destruct (text_ends o g (inst (unroll env d0) r) v text) as (e & v' & rp & n & H).
  - apply inst_ok; [intros k; apply unroll_ok, He|exact Hr].
  - apply inst_plain; [intros k; apply unroll_plain, Hp|exact Hrp].
  - apply inst_plain; [intros k; apply unroll_plain, Hp|exact Hrp].
  - exact Hv.
  - exists e, v', rp, n. intros fuel depth Hf Hdep. rewrite (rparse_depth _ _ _ _ depth d0) by assumption. rewrite rparse_unroll by assumption. apply H, Hf.
Qed.

Lemma inst_fp_free sigma r : (forall k, fp_free (sigma k) = true) -> r_fp_free r = true -> fp_free (inst sigma r) = true.
Proof.
  intros Hs. rind r; cbn [inst fp_free r_fp_free]; auto; try discriminate.
  - induction IH as [|r rs Hr _ IHrs]; cbn; auto. intros H. apply andb_prop in H. destruct H as [A B]. rewrite (Hr A). cbn. auto.
  - induction IH as [|f fs Hr _ IHfs]; cbn; auto. intros H. apply andb_prop in H. destruct H as [A B]. rewrite (Hr A). cbn. auto.
Qed.
Lemma unroll_fp_free env d k : Forall (fun r => r_fp_free r = true) env -> fp_free (unroll env d k) = true.
Proof.
  intros He. revert k. induction d as [|d IH]; intros k; cbn [unroll]; [auto|]. apply inst_fp_free; [exact IH|]. unfold struct_of.
  destruct (nth_in_or_default k env (RStruct [] [])) as [K|K]; [rewrite Forall_forall in He; auto|rewrite K; reflexivity].
Qed.
Theorem rparse_doc_ends o g env r v j text d0 : env_ok env -> Forall (fun r => r_fp_free r = true) env -> r_ok r = true -> r_fp_free r = true ->
  o_nl o = false -> doc_text plain j text -> length text < d0 -> shaped (inst (unroll env d0) r) v ->
  exists e v' rp n, forall fuel depth, n <= fuel -> length text < depth -> rparse o g env fuel depth r v text = Ok (e, v', rp).
Proof.
  intros He Hp Hr Hrp Ho Hdoc Hd Hv.
  destruct (doc_ends o g (inst (unroll env d0) r) v j text false Ho Hdoc) as [(e & v' & rp & n & H)|[H _]]; [| | |  |discriminate H].
  - apply inst_ok; [intros k; apply unroll_ok, He|exact Hr].
  - right. apply inst_fp_free; [intros k; apply unroll_fp_free, Hp|exact Hrp].
  - exact Hv.
  - exists e, v', rp, n. intros fuel depth Hf Hdep. rewrite (rparse_depth _ _ _ _ depth d0) by assumption. rewrite rparse_unroll by assumption. apply H, Hf.
Qed.

Lemma fresh_init env d r : env_ok env -> 0 < d -> init (inst (unroll env d) r) = fresh env r.
Proof.
  intros He Hd. rewrite inst_init. unfold fresh. assert (H : forall k, init (unroll env d k) = init_of env 1 k).
  { intros k. rewrite unroll_init. apply init_of_same; [intros ?; apply env_struct, He|apply env_inline, He|lia|lia]. }
  rind r; cbn [rinit]; try congruence; try reflexivity; f_equal; apply map_Forall_eq; assumption.
Qed.

(** ** Writing *)
Section Write.
Context (i : isa).

Lemma from_list_step (w w' : wname -> list token * wname) r r' n : w n = w' n -> (forall m, from_list r m = from_list r' m) -> from_list (w :: r) n = from_list (w' :: r') n.
Proof. intros H K. cbn [from_list]. rewrite H. destruct (w' n) as [l1 m]. rewrite K. reflexivity. Qed.

Lemma inst_write sigma r v n : from i (inst sigma r) v n = rwrite i (fun k => from i (sigma k)) r v n.
Proof.
  assert (Hm : forall (f g : val -> wname -> list token * wname) l, (forall v n, f v n = g v n) -> forall n, from_list (map f l) n = from_list (map g l) n).
  { intros f g l H. induction l as [|x l IH]; intros m; cbn; [reflexivity|]. rewrite H. destruct (g x m) as [? ?]. rewrite IH. reflexivity. }
  revert v n. rind r; intros v m; cbn [inst from rwrite]; try reflexivity; rewrite ?IH; try reflexivity.
  - destruct v as [| | | |[] v| | | |]; auto.
  - destruct v as [| | | |[] v| | | |]; auto.
  - destruct v as [| | | | |[v|]| | |]; auto.
  - destruct v as [| | | | |[v|]| | |]; auto.
  - unfold from_array. rewrite (Hm _ _ _ IH). reflexivity.
  - destruct (vals_of v) as [|x [|y l]]; auto. unfold from_array. rewrite (Hm _ _ _ IH). reflexivity.
  - unfold from_array. rewrite (Hm _ _ _ IH). reflexivity.
  - destruct v; auto. unfold from_array. rewrite (Hm _ _ _ IH). reflexivity.
  - unfold from_array. rewrite (Hm _ _ _ IH). reflexivity.
  - unfold from_array.
    assert (E : forall vs n, from_list ((fix go ts vs := match ts, vs with t :: ts, v :: vs => from i t v :: go ts vs | _, _ => [] end) (map (inst sigma) rs) vs) n =
      from_list ((fix go rs vs := match rs, vs with r :: rs, v :: vs => rwrite i (fun k => from i (sigma k)) r v :: go rs vs | _, _ => [] end) rs vs) n).
    { induction IH as [|r rs Hr _ IHrs]; intros [|v0 vs] n; cbn; auto. rewrite Hr. destruct (rwrite _ _ _ _ _). rewrite IHrs. reflexivity. }
    rewrite E. reflexivity.
  - destruct v as [| | | | | | | |l]; auto. unfold from_object.
    assert (E : forall l n, from_list (map (fun kv : bytes * val => named (fst kv) TString (from i (inst sigma r) (snd kv))) l) n =
      from_list (map (fun kv => named (fst kv) TString (rwrite i (fun k => from i (sigma k)) r (snd kv))) l) n).
    { clear l. induction l as [|kv l IHl]; intros n; [reflexivity|]. apply from_list_step; [apply IH|exact IHl]. }
    rewrite E. reflexivity.
  - unfold from_object.
    assert (E : forall vs n, from_list ((fix go fs vs := match fs, vs with f :: fs, v :: vs => named (hd [] (snd (fst f))) TAscii (from i (snd f) v) :: go fs vs | _, _ => [] end) (map (fun f => (fst f, inst sigma (snd f))) fs) vs) n =
      from_list ((fix go fs vs := match fs, vs with f :: fs, v :: vs => named (hd [] (snd (fst f))) TAscii (rwrite i (fun k => from i (sigma k)) (snd f) v) :: go fs vs | _, _ => [] end) fs vs) n).
    { induction IH as [|f fs Hr _ IHfs]; intros [|v0 vs] n; try reflexivity. apply from_list_step; [apply Hr|intros m'; apply IHfs]. }
    rewrite E. reflexivity.
Qed.

Definition wagree (m : nat) (w w' : writer) : Prop := forall v n, height v < m -> w v n = w' v n.

Lemma heights l : Forall (fun v => height v < height (VList l)) l.
Proof.
  cbn [height]. assert (H := list_max_le (map height l) (list_max (map height l))). destruct H as [H _]. specialize (H (le_n _)).
  rewrite Forall_map in H. eapply Forall_impl; [|exact H]. intros v Hv. cbn in Hv. lia.
Qed.
Lemma map_heights l : Forall (fun kv => height (snd kv) < height (VMap l)) l.
Proof.
  cbn [height]. assert (H := list_max_le (map (fun kv : bytes * val => height (snd kv)) l) (list_max (map (fun kv => height (snd kv)) l))). destruct H as [H _]. specialize (H (le_n _)).
  rewrite Forall_map in H. eapply Forall_impl; [|exact H]. intros v Hv. cbn in Hv. lia.
Qed.
Lemma Forall_firstn {A} (P : A -> Prop) n l : Forall P l -> Forall P (firstn n l).
Proof. intros H. revert n. induction H; intros [|n]; cbn; auto. Qed.
Lemma vals_heights v : Forall (fun x => height x < height v) (vals_of v).
Proof. destruct v; try constructor. apply heights. Qed.

Lemma list_agree m w w' l n : wagree m w w' -> Forall (fun v => height v < m) l -> from_list (map w l) n = from_list (map w' l) n.
Proof. intros H K. revert n. induction K as [|v l Hv _ IH]; intros n; cbn; [reflexivity|]. rewrite H by exact Hv. destruct (w' v n). rewrite IH. reflexivity. Qed.
Lemma below {A} (f : A -> nat) l m h : h < m -> Forall (fun v => f v < h) l -> Forall (fun v => f v < m) l.
Proof. intros Hm. apply Forall_impl. intros a Ha. lia. Qed.

Lemma struct_agree m wref wref' fs : Forall (fun f => wagree m (rwrite i wref (snd f)) (rwrite i wref' (snd f))) fs -> forall vs n, Forall (fun v => height v < m) vs ->
  from_list ((fix go (fs : list (bytes * list bytes * rty)) vs := match fs, vs with f :: fs, v :: vs => named (hd [] (snd (fst f))) TAscii (rwrite i wref (snd f) v) :: go fs vs | _, _ => [] end) fs vs) n =
  from_list ((fix go fs vs := match fs, vs with f :: fs, v :: vs => named (hd [] (snd (fst f))) TAscii (rwrite i wref' (snd f) v) :: go fs vs | _, _ => [] end) fs vs) n.
Proof.
  induction 1 as [|f fs Hf _ IH]; intros [|v vs] n Hv; try reflexivity. inversion Hv as [|? ? H1 H2]; subst. apply from_list_step; [apply Hf, H1|intros m'; apply IH, H2].
Qed.

Lemma rwrite_agree m wref wref' r : (forall k, wagree m (wref k) (wref' k)) -> wagree m (rwrite i wref r) (rwrite i wref' r).
Proof.
  intros Hr. rind r; intros v nm Hv; cbn [rwrite]; try reflexivity; try (apply IH; exact Hv); assert (Hl := below height _ _ _ Hv (vals_heights v)).
  - apply Hr, Hv.
  - destruct v as [| | | |[] v| | | |]; auto. apply IH. cbn in Hv. lia.
  - destruct v as [| | | |[] v| | | |]; auto. apply IH. cbn in Hv. lia.
  - destruct v as [| | | | |[v|]| | |]; auto. apply IH. cbn in Hv. lia.
  - destruct v as [| | | | |[v|]| | |]; auto. apply IH. cbn in Hv. lia.
  - destruct (is_silent v); auto.
  - unfold from_array. rewrite (list_agree m _ _ _ _ IH Hl). reflexivity.
  - destruct (vals_of v) as [|x [|y l]]; auto; [apply IH; inversion Hl; assumption|]. unfold from_array. rewrite (list_agree m _ _ _ _ IH Hl). reflexivity.
  - unfold from_array. rewrite (list_agree m _ _ _ _ IH Hl). reflexivity.
  - destruct v as [| | | | | | |size l|]; auto. unfold from_array. rewrite (list_agree m _ _ _ _ IH); [reflexivity|].
    apply Forall_firstn. apply (below height _ _ _ Hv). exact (heights l).
  - unfold from_array. rewrite (list_agree m _ _ _ _ IH Hl). reflexivity.
  - unfold from_array.
    assert (E : forall n, from_list ((fix go rs vs := match rs, vs with r :: rs, v :: vs => rwrite i wref r v :: go rs vs | _, _ => [] end) rs (vals_of v)) n =
      from_list ((fix go rs vs := match rs, vs with r :: rs, v :: vs => rwrite i wref' r v :: go rs vs | _, _ => [] end) rs (vals_of v)) n).
    { revert Hl. generalize (vals_of v). clear Hv v. induction IH as [|r rs Hr' _ IHrs]; intros [|v vs] Hl n; cbn; auto. inversion Hl as [|? ? H1 H2]; subst. rewrite Hr' by exact H1. destruct (rwrite _ _ _ _ _). rewrite IHrs by exact H2. reflexivity. }
    rewrite E. reflexivity.
  - destruct v as [| | | | | | | |l]; auto. unfold from_object.
    assert (E : forall n, from_list (map (fun kv : bytes * val => named (fst kv) TString (rwrite i wref r (snd kv))) l) n =
      from_list (map (fun kv => named (fst kv) TString (rwrite i wref' r (snd kv))) l) n).
    { assert (Hk := below (fun kv => height (snd kv)) _ _ _ Hv (map_heights l)). clear Hv Hl. induction Hk as [|kv l Hkv _ IHl]; intros n; [reflexivity|]. apply from_list_step; [apply IH, Hkv|exact IHl]. }
    rewrite E. reflexivity.
  - unfold from_object. rewrite (struct_agree m wref wref' fs IH _ _ Hl). reflexivity.
Qed.
Lemma struct_write_agree m wref wref' b fs : (forall k, wagree m (wref k) (wref' k)) -> wagree (S m) (rwrite i wref (RStruct b fs)) (rwrite i wref' (RStruct b fs)).
Proof.
  intros Hr v n Hv. cbn [rwrite]. unfold from_object. rewrite (struct_agree m wref wref' fs); [reflexivity| |].
  - apply Forall_forall. intros f _. apply rwrite_agree, Hr.
  - eapply Forall_impl; [|apply vals_heights]. intros x Hx. cbn in Hx. lia.
Qed.

Lemma writer_unroll env d k : env_ok env -> wagree d (writer_of i env d k) (from i (unroll env d k)).
Proof.
  intros He. revert k. induction d as [|d IH]; intros k; [intros v n H; lia|]. intros v n Hv. cbn [writer_of unroll]. rewrite inst_write.
  destruct (env_struct env k He) as (b & fs & ->). exact (struct_write_agree d _ _ b fs IH v n Hv).
Qed.
Lemma rwrite_unroll env d r : env_ok env -> wagree d (rwrite i (writer_of i env d) r) (from i (inst (unroll env d) r)).
Proof. intros He v n Hv. rewrite inst_write. exact (rwrite_agree d _ _ r (fun k => writer_unroll env d k He) v n Hv). Qed.
Theorem rserialize_unroll so env d r v : env_ok env -> height v < d -> rserialize i so env d r v = serializeStruct i so (inst (unroll env d) r) v.
Proof. intros He Hv. unfold rserialize, serializeStruct. rewrite (rwrite_unroll env d r He v _ Hv). reflexivity. Qed.

Lemma writer_depth env d d' m k : env_ok env -> m <= d -> m <= d' -> wagree m (writer_of i env d k) (writer_of i env d' k).
Proof.
  intros He. revert d' m k. induction d as [|d IH]; intros d' m k H H'; [intros v n K; lia|]. destruct d' as [|d']; [intros v n K; lia|].
  destruct m as [|m]; [intros v n K; lia|]. cbn [writer_of]. destruct (env_struct env k He) as (b & fs & ->). apply struct_write_agree. intros j. apply IH; lia.
Qed.
Theorem rserialize_depth so env d d' r v : env_ok env -> height v < d -> height v < d' -> rserialize i so env d r v = rserialize i so env d' r v.
Proof.
  intros He Hv Hv'. unfold rserialize. rewrite (rwrite_agree (min d d') (writer_of i env d) (writer_of i env d')); [reflexivity| |lia].
  intros k. apply writer_depth; [exact He|lia|lia].
Qed.

(** ** What the JSON value determines *)
Definition like (m : nat) (t t' : ty) : Prop := forall v, height v < m ->
  init t = init t' /\ is_optional t = is_optional t' /\ render i t v = render i t' v /\ (storable i t v <-> storable i t' v).

Lemma maps_like m t t' l : like m t t' -> Forall (fun v => height v < m) l -> map (render i t) l = map (render i t') l.
Proof. intros H K. induction K as [|v l Hv _ IH]; cbn; [reflexivity|]. rewrite IH. f_equal. apply (H v Hv). Qed.
Lemma Foralls_like m t t' l : like m t t' -> Forall (fun v => height v < m) l ->
  (Forall (fun x => storable i t x /\ render i t x <> None) l <-> Forall (fun x => storable i t' x /\ render i t' x <> None) l).
Proof.
  intros H K. induction K as [|v l Hv _ IH]; [split; constructor|]. destruct (H v Hv) as (_ & _ & E & S).
  rewrite !Forall_cons_iff, IH, E, S. tauto.
Qed.

Lemma struct_like m (fs fs' : list (bytes * list bytes * ty)) : Forall2 (fun f f' => fst f = fst f' /\ like m (snd f) (snd f')) fs fs' -> forall vs, Forall (fun v => height v < m) vs ->
  (fix go (fs : list (bytes * list bytes * ty)) vs := match fs, vs with f :: fs, v :: vs => option_map (pair (hd [] (snd (fst f)))) (render i (snd f) v) :: go fs vs | _, _ => [] end) fs vs =
  (fix go (fs : list (bytes * list bytes * ty)) vs := match fs, vs with f :: fs, v :: vs => option_map (pair (hd [] (snd (fst f)))) (render i (snd f) v) :: go fs vs | _, _ => [] end) fs' vs /\
  ((fix go (fs : list (bytes * list bytes * ty)) vs := match fs, vs with
        | [], [] => True
        | f :: fs, v :: vs =>
            ((hd [] (snd (fst f)) <> [] /\ str_body (hd [] (snd (fst f)))) /\ storable i (snd f) v /\
             (render i (snd f) v = None -> v = init (snd f) /\ is_optional (snd f) = true)) /\ go fs vs
        | _, _ => False end) fs vs <->
   (fix go (fs : list (bytes * list bytes * ty)) vs := match fs, vs with
        | [], [] => True
        | f :: fs, v :: vs =>
            ((hd [] (snd (fst f)) <> [] /\ str_body (hd [] (snd (fst f)))) /\ storable i (snd f) v /\
             (render i (snd f) v = None -> v = init (snd f) /\ is_optional (snd f) = true)) /\ go fs vs
        | _, _ => False end) fs' vs).
Proof.
  induction 1 as [|f f' fs fs' [E L] _ IH]; intros [|v vs] Hv; cbn; try (split; [reflexivity|tauto]).
  inversion Hv as [|? ? H1 H2]; subst. destruct (IH vs H2) as [-> S2]. destruct (L v H1) as (-> & -> & -> & S1). rewrite E. split; [reflexivity|]. rewrite S2, S1. tauto.
Qed.

Lemma inst_like m sigma sigma' r : (forall k, like m (sigma k) (sigma' k)) -> (forall k, is_optional (sigma k) = is_optional (sigma' k)) -> like m (inst sigma r) (inst sigma' r).
Proof.
  intros Hs Ho. rind r; intros v Hv; assert (Hl := below height _ _ _ Hv (vals_heights v)); cbn [inst].
  1-6: split; [reflexivity|split; [reflexivity|split; [reflexivity|tauto]]].
  - exact (Hs k v Hv).
  - destruct (IH v Hv) as (E1 & E2 & E3 & E4). cbn [init is_optional render storable]. rewrite E1, E3, E4. split; [reflexivity|]. split; [reflexivity|]. split; [reflexivity|tauto].
  - destruct v as [| | | |b v| | | |]; cbn [init is_optional render storable];
      try (destruct (IH (VBool true)) as (-> & _); [cbn in *; lia|]; repeat split; tauto).
    destruct (IH v) as (E1 & E2 & E3 & E4); [cbn in Hv; lia|]. rewrite E1, E3. split; [reflexivity|]. split; [reflexivity|]. split; [reflexivity|]. destruct b; [tauto|rewrite E4; tauto].
  - destruct (IH v Hv) as (E1 & E2 & E3 & E4). cbn [init is_optional render storable]. rewrite E1, E3, E4. split; [reflexivity|]. split; [reflexivity|]. split; [reflexivity|tauto].
  - destruct v as [| | | |b v| | | |]; cbn [init is_optional render storable];
      try (destruct (IH (VBool true)) as (-> & _); [cbn in *; lia|]; repeat split; tauto).
    destruct (IH v) as (E1 & E2 & E3 & E4); [cbn in Hv; lia|]. rewrite E1, E3. split; [reflexivity|]. split; [reflexivity|]. split; [reflexivity|]. destruct b; [rewrite E4; tauto|tauto].
  - destruct v as [| | | | |[v|]| | |]; cbn [init is_optional render storable]; try (repeat split; tauto).
    destruct (IH v) as (E1 & E2 & E3 & E4); [cbn in Hv; lia|]. rewrite E3, E4. split; [reflexivity|]. split; [reflexivity|]. split; [reflexivity|tauto].
  - assert (Eo : is_optional (YPtr u (inst sigma r)) = is_optional (YPtr u (inst sigma' r))) by (destruct u; reflexivity). rewrite Eo.
    destruct v as [| | | | |[v|]| | |]; cbn [init render storable]; try (repeat split; tauto).
    destruct (IH v) as (E1 & E2 & E3 & E4); [cbn in Hv; lia|]. rewrite E3, E4. split; [reflexivity|]. split; [reflexivity|]. split; [reflexivity|tauto].
  - destruct (IH v Hv) as (E1 & E2 & E3 & E4). cbn [init is_optional render storable]. rewrite E1, E3, E4. split; [reflexivity|]. split; [reflexivity|]. split; [reflexivity|tauto].
  - destruct v as [| | | | | |l| |]; cbn [init is_optional render storable]; try (repeat split; tauto). cbn [vals_of] in Hl.
    rewrite (maps_like m _ _ _ IH Hl), (Foralls_like m _ _ _ IH Hl). repeat split; tauto.
  - destruct v as [| | | | | |l| |]; cbn [init is_optional render storable]; try (repeat split; tauto). cbn [vals_of] in Hl.
    rewrite (maps_like m _ _ _ IH Hl), (Foralls_like m _ _ _ IH Hl).
    destruct l as [|x [|y l]]; [repeat split; tauto| |repeat split; tauto]. destruct (IH x) as (_ & _ & -> & _); [inversion Hl; assumption|]. repeat split; tauto.
  - assert (E : init (inst sigma r) = init (inst sigma' r)) by (destruct (IH (VBool true)) as (-> & _); [cbn in *; lia|reflexivity]).
    destruct v as [| | | | | |l| |]; cbn [init is_optional render storable]; rewrite ?E; try (repeat split; tauto). cbn [vals_of] in Hl.
    rewrite (maps_like m _ _ _ IH Hl), (Foralls_like m _ _ _ IH Hl). repeat split; tauto.
  - assert (E : init (inst sigma r) = init (inst sigma' r)) by (destruct (IH (VBool true)) as (-> & _); [cbn in *; lia|reflexivity]).
    destruct v as [| | | | | | |size l|]; cbn [init is_optional render storable]; rewrite ?E; try (repeat split; tauto).
    assert (Hl' : Forall (fun v => height v < m) (firstn size l)) by (apply Forall_firstn, (below height _ _ _ Hv), (heights l)).
    rewrite (maps_like m _ _ _ IH Hl'), (Foralls_like m _ _ _ IH Hl'). repeat split; tauto.
  - destruct v as [| | | | | |l| |]; cbn [init is_optional render storable]; try (repeat split; tauto). cbn [vals_of] in Hl.
    rewrite (maps_like m _ _ _ IH Hl), (Foralls_like m _ _ _ IH Hl). repeat split; tauto.
  - assert (E : map init (map (inst sigma) rs) = map init (map (inst sigma') rs)).
    { rewrite !map_map. apply map_Forall_eq. eapply Forall_impl; [|exact IH]. intros r Hr. cbn in Hr. destruct (Hr (VBool true)) as (-> & _); [cbn in *; lia|reflexivity]. }
    destruct v as [| | | | | |l| |]; cbn [init is_optional render storable]; rewrite ?E; try (repeat split; tauto). cbn [vals_of] in Hl. clear E.
    split; [reflexivity|]. split; [reflexivity|].
    assert (G : (fix go ts vs := match ts, vs with t :: ts, v :: vs => render i t v :: go ts vs | _, _ => [] end) (map (inst sigma) rs) l =
                (fix go ts vs := match ts, vs with t :: ts, v :: vs => render i t v :: go ts vs | _, _ => [] end) (map (inst sigma') rs) l /\
                ((fix go ts vs := match ts, vs with [], [] => True | t :: ts, v :: vs => (storable i t v /\ render i t v <> None) /\ go ts vs | _, _ => False end) (map (inst sigma) rs) l <->
                 (fix go ts vs := match ts, vs with [], [] => True | t :: ts, v :: vs => (storable i t v /\ render i t v <> None) /\ go ts vs | _, _ => False end) (map (inst sigma') rs) l)).
    { clear Hv. revert l Hl. induction IH as [|r rs Hr _ IHrs]; intros [|v vs] Hl; cbn; try (split; [reflexivity|tauto]).
      inversion Hl as [|? ? H1 H2]; subst. destruct (IHrs vs H2) as [-> S2]. destruct (Hr v H1) as (_ & _ & -> & S1). split; [reflexivity|]. rewrite S2, S1. tauto. }
    destruct G as [-> G]. split; [reflexivity|exact G].
  - destruct v as [| | | | | | | |l]; cbn [init is_optional render storable]; try (repeat split; tauto).
    assert (Hk := below (fun kv => height (snd kv)) _ _ _ Hv (map_heights l)). clear Hv Hl. split; [reflexivity|]. split; [reflexivity|].
    assert (G : map (fun kv : bytes * val => option_map (pair (fst kv)) (render i (inst sigma r) (snd kv))) l = map (fun kv => option_map (pair (fst kv)) (render i (inst sigma' r) (snd kv))) l /\
      (Forall (fun kv : bytes * val => (fst kv <> [] /\ str_body (fst kv) /\ EscapeModel.escapes_in (fst kv) = fst kv) /\ storable i (inst sigma r) (snd kv) /\ render i (inst sigma r) (snd kv) <> None) l <->
       Forall (fun kv : bytes * val => (fst kv <> [] /\ str_body (fst kv) /\ EscapeModel.escapes_in (fst kv) = fst kv) /\ storable i (inst sigma' r) (snd kv) /\ render i (inst sigma' r) (snd kv) <> None) l)).
    { induction Hk as [|kv l Hkv _ IHl]; cbn; [split; [reflexivity|split; constructor]|]. destruct IHl as [-> S2]. destruct (IH _ Hkv) as (_ & _ & E3 & S1).
      rewrite E3. split; [reflexivity|]. rewrite !Forall_cons_iff, S2, S1, E3. tauto. }
    destruct G as [-> G]. split; [reflexivity|]. rewrite G. tauto.
  - assert (E : map (fun f => init (snd f)) (map (fun f => (fst f, inst sigma (snd f))) fs) = map (fun f => init (snd f)) (map (fun f => (fst f, inst sigma' (snd f))) fs)).
    { rewrite !map_map. apply map_Forall_eq. eapply Forall_impl; [|exact IH]. intros f Hf. cbn in *. destruct (Hf (VBool true)) as (-> & _); [cbn in *; lia|reflexivity]. }
    destruct v as [| | | | | |l| |]; cbn [init is_optional render storable]; rewrite ?E; try (repeat split; tauto). cbn [vals_of] in Hl. clear E.
    split; [reflexivity|]. split; [reflexivity|].
    destruct (struct_like m (map (fun f => (fst f, inst sigma (snd f))) fs) (map (fun f => (fst f, inst sigma' (snd f))) fs)) with (vs := l) as [-> G].
    { clear -IH. induction IH; cbn; constructor; auto. }
    { exact Hl. }
    split; [reflexivity|]. rewrite G, !map_length. unfold names_distinct. rewrite !flat_map_concat_map, !map_map. cbn. tauto.
Qed.

Lemma unroll_like env d d' m k : env_ok env -> m <= d -> m <= d' -> like m (unroll env d k) (unroll env d' k).
Proof.
  intros He. revert d' m k. induction d as [|d IH]; intros d' m k H H' v Hv; [lia|]. destruct d' as [|d']; [lia|]. destruct m as [|m]; [lia|].
  split; [rewrite !unroll_init; apply init_of_same; [intros ?; apply env_struct, He|apply env_inline, He|lia|lia]|].
  split; [rewrite !unroll_optional by (intros j; apply env_struct, He); reflexivity|].
  cbn [unroll]. destruct (env_struct env k He) as (b & fs & ->). cbn [inst render storable].
  destruct v as [| | | | | |l| |]; try (split; [reflexivity|tauto]).
  destruct (struct_like m (map (fun f => (fst f, inst (unroll env d) (snd f))) fs) (map (fun f => (fst f, inst (unroll env d') (snd f))) fs)) with (vs := l) as [-> G].
  - clear -IH H H' He. induction fs as [|f fs IHf]; cbn; constructor; [|exact IHf]. split; [reflexivity|]. cbn [snd].
    apply inst_like; [intros j; apply IH; lia|]. intros j. rewrite !unroll_optional by (intros j'; apply env_struct, He). reflexivity.
  - eapply Forall_impl; [|exact (heights l)]. cbn. cbn in Hv. intros x Hx. lia.
  - split; [reflexivity|]. rewrite G, !map_length. unfold names_distinct. rewrite !flat_map_concat_map, !map_map. cbn. tauto.
Qed.
Theorem storable_depth env d d' r v : env_ok env -> height v < d -> height v < d' ->
  render i (inst (unroll env d) r) v = render i (inst (unroll env d') r) v /\ (storable i (inst (unroll env d) r) v <-> storable i (inst (unroll env d') r) v).
Proof.
  intros He H H'. assert (L : like (min d d') (inst (unroll env d) r) (inst (unroll env d') r)).
  { apply inst_like; [intros k; apply unroll_like; [exact He|lia|lia]|]. intros k. rewrite !unroll_optional by (intros j'; apply env_struct, He). reflexivity. }
  apply (L v). lia.
Qed.
End Write.

Theorem rround_trip i so o g env r v j d0 : env_ok env -> r_ok r = true -> height v < d0 ->
  storable i (inst (unroll env d0) r) v -> render i (inst (unroll env d0) r) v = Some j -> is_container j ->
  options_made so -> so_ascii so = true -> (so_depth so + N.of_nat (nesting j) <= 255)%N -> o_nl o = false ->
  exists text n, doc_text plain j text /\
    (forall depth, height v < depth -> rserialize i so env depth r v = Ok text) /\
    (forall fuel depth, n <= fuel -> length text < depth -> rparse o g env fuel depth r (fresh env r) text = Ok (NoError, v, ([], []))).
Proof.
  intros He Hr Hd Hs Hj Hc Ho Ha Hn Hnl.
  assert (Hok : forall d, ty_ok (inst (unroll env d) r)) by (intros d; apply inst_ok; [intros k; apply unroll_ok, He|exact Hr]).
  destruct (round_trip i so o g _ v j (Hok d0) Hs Hj Hc Ho Ha Hn Hnl) as (text & T1 & T2 & _).
  set (d1 := S (max (length text) (height v))).
  destruct (storable_depth i env d0 d1 r v He Hd ltac:(lia)) as [E1 E2].
  destruct (round_trip i so o g _ v j (Hok d1) (proj1 E2 Hs) ltac:(congruence) Hc Ho Ha Hn Hnl) as (text' & U1 & _ & n & U3).
  assert (text' = text) as ->.
  { rewrite <- rserialize_unroll in T1, U1 by (exact He || lia). rewrite (rserialize_depth i so env d1 d0) in U1 by (exact He || lia). congruence. }
  exists text, n. split; [exact T2|]. split.
  - intros depth H. rewrite (rserialize_depth i so env depth d0) by assumption. rewrite rserialize_unroll by assumption. exact T1.
  - intros fuel depth Hf H. rewrite (rparse_depth _ _ _ _ depth d1) by (exact He || lia). rewrite rparse_unroll by (exact He || lia).
    rewrite <- (fresh_init env d1 r He) by lia. apply U3, Hf.
Qed.
