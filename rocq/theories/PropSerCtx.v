(** Property C74: SerializerContext, the string that is written into. *)
From Verif Require Import Base ScanModel TokModel SerModel SerSpec SerProofs HandlerModel WriteModel SerCtxModel SerCtxProofs.
From Coq Require Import Lia.

(** The size of the first buffer: that of the string, 4096 for an empty one. *)
Definition first_size (s : bytes) : nat := match s with [] => 4096 | _ => length s end.
(** Texts that fill all buffers exactly. *)
Definition fills (s : bytes) (written : bytes) : Prop := exists k, length written = first_size s * 2 ^ k.

(** One call, on any string: the string then holds exactly what was written, whatever it held before and however
    the text was cut into writes, and the flush of the destructor changes nothing. *)
Theorem C74_one_call : forall s ds, exists c, ctx_serialize ds (ctx_make s) = Ok c /\
  cx_out c = concat ds /\ cx_out (ctx_flush c) = concat ds.
Proof.
  intros s ds. destruct (inv_writes _ ds [] _ (inv_make s)) as (c & E & H & _). exists (ctx_flush c). unfold ctx_serialize. rewrite E.
  apply inv_flush in H. assert (H' := inv_flush _ _ _ _ H). split; [reflexivity|]. split; [apply H|apply H'].
Qed.
Print Assumptions C74_one_call.

(** So what the model of the Serializer says was written is what the string holds: for any tokens and options ... *)
Theorem C74_tokens : forall s so tks bs se,
  ser_writes tks (ser_make so (first_size s) (reformat_supply (first_size s))) = Ok (bs, se) ->
  exists ds c, ctx_serialize ds (ctx_make s) = Ok c /\ cx_out c = ser_output se.
Proof.
  intros s so tks bs se E. destruct (mirrors_tokens tks _ _ _ _ _ (cx_make _ so s eq_refl) E) as (ds & c & W & _ & I & _).
  exists ds, (ctx_flush c). unfold ctx_serialize. rewrite W. split; [reflexivity|]. apply inv_flush in I. apply I.
Qed.
Print Assumptions C74_tokens.
(** ... and for serializeStruct with any value. *)
Theorem C74_serializeStruct : forall i so t v text, serializeStruct i so t v = Ok text ->
  exists ds c, ctx_serialize ds (ctx_make []) = Ok c /\ cx_out c = text.
Proof.
  intros i so t v text. unfold serializeStruct. destruct (ser_writes _ _) as [[bs se]| |] eqn:E; cbn [obind]; [|discriminate..]. intros [= <-].
  exact (C74_tokens [] so _ bs se E).
Qed.
Print Assumptions C74_serializeStruct.

(** Any number of calls on one context: [good_calls] says that after the first call nothing is written unless the text
    so far has filled the buffers exactly. *)
Fixpoint good_calls (s written : bytes) (calls : list (list bytes)) : Prop :=
  match calls with
  | [] => True
  | ds :: r => (concat ds = [] \/ fills s written) /\ good_calls s (written ++ concat ds) r
  end.

(** Then the string holds the texts of all calls one after the other; otherwise a call writes outside of the string. *)
Theorem C74_calls_partial : forall s ds calls,
  (good_calls s (concat ds) calls -> exists c, ctx_calls (ds :: calls) (ctx_make s) = Ok c /\ cx_out c = concat ds ++ concat (map (@concat byte) calls)) /\
  (~ good_calls s (concat ds) calls -> ctx_calls (ds :: calls) (ctx_make s) = UB).
Proof.
  intros s ds calls. destruct (inv_writes _ ds [] _ (inv_make s)) as (c & E & H & St). apply inv_flush in H.
  assert (St' : settled (ctx_flush c)) by (apply St; left; reflexivity).
  assert (E' : ctx_calls (ds :: calls) (ctx_make s) = ctx_calls calls (ctx_flush c)) by (cbn [ctx_calls]; unfold ctx_serialize; rewrite E; reflexivity).
  rewrite E'. clear E'. cbn [app] in H. revert H St'. generalize (ctx_flush c), (concat ds). clear E St c. fold (first_size s).
  induction calls as [|d r IH]; intros c w H St; cbn [good_calls ctx_calls map concat].
  - split; [|tauto]. intros _. exists c. rewrite app_nil_r. split; [reflexivity|apply H].
  - destruct (closed_serialize _ d w c H St) as (A & B). fold (fills s w) in A, B.
    assert (D : concat d = [] \/ concat d <> []) by (destruct (concat d); [left; reflexivity|right; discriminate]).
    split.
    + intros (G1 & G2). destruct (A G1) as (c' & -> & H' & S'). cbn [obind]. destruct (IH c' _ H' S') as (I1 & _).
      destruct (I1 G2) as (c2 & E2 & O2). exists c2. split; [exact E2|]. rewrite O2, app_assoc. reflexivity.
    + intros G. assert (F := full_iff _ _ _ _ H St). fold (fills s w) in F.
      assert (K : (concat d = [] \/ fills s w) \/ concat d <> [] /\ ~ fills s w).
      { destruct D as [D|D]; [auto|]. destruct (Nat.eq_dec (cx_cap c) (cx_used c)) as [Q|Q]; [left; right; apply F, Q|].
        right. split; [exact D|]. intros X. apply Q, F, X. }
      destruct K as [K|(K1 & K2)]; [|rewrite (B K1 K2); reflexivity].
      destruct (A K) as (c' & -> & H' & S'). cbn [obind]. apply (proj2 (IH c' _ H' S')). intros G2. apply G. auto.
Qed.
Print Assumptions C74_calls_partial.

Example C74_nonvacuous :
  (exists c, ctx_calls [[s2b "{"; s2b """a"""]; [s2b ":1}"]; []] (ctx_make (s2b "1234")) = Ok c /\ cx_out c = s2b "{""a"":1}") /\
  good_calls (s2b "1234") (s2b "{""a""") [[s2b ":1}"]; []] /\
  ~ good_calls (s2b "12345") (s2b "{""a""") [[s2b ":1}"]; []].
Proof.
  split; [eexists; split; vm_compute; reflexivity|]. split.
  - cbn [good_calls]. split; [right; exists 0; reflexivity|]. split; [left; reflexivity|exact I].
  - cbn [good_calls]. intros ([X|(k & X)] & _); [discriminate X|]. cbn [length s2b first_size] in X.
    assert (P : 1 <= 2 ^ k) by (apply Nat.neq_0_lt_0, Nat.pow_nonzero; lia). cbv [length first_size s2b String.list_byte_of_string map] in X. cbn in X. lia.
Qed.

(** The claim for several calls on one context is false: the second one writes behind the end of the string. *)
Definition C74_claim : Prop := forall s calls, exists c, ctx_calls calls (ctx_make s) = Ok c /\ cx_out (ctx_flush c) = concat (map (@concat byte) calls).
Theorem C74_second_call_refuted : ~ C74_claim /\ ctx_calls [[s2b "1"]; [s2b "2"]] (ctx_make (s2b "old")) = UB.
Proof.
  assert (E : ctx_calls [[s2b "1"]; [s2b "2"]] (ctx_make (s2b "old")) = UB) by (vm_compute; reflexivity).
  split; [|exact E]. intros H. destruct (H (s2b "old") [[s2b "1"]; [s2b "2"]]) as (c & X & _). rewrite E in X. discriminate X.
Qed.
Print Assumptions C74_second_call_refuted.
