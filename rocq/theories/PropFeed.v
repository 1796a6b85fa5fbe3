(** Property C72: a tokenizer that is given a vector of tokens (addData and resetData with parsed tokens). *)
From Coq Require Import Lia.
From Verif Require Import Base Tactics ScanModel TokModel TokSpec JsonSpec IntModel MapSpec MapProofs MapProofs2 SerDoc HandlerModel HandlerSpec HandlerTree HandlerLaws HandlerProps HandlerStruct HandlerText PropTok PropTokVec.

(** The state when the vector is used up: that of before, but at the start of the first buffer. *)
Definition at_start (s : tstate) : tstate := set_parsed None (set_cur 0 s).

(** All tokens of the vector are returned unchanged and in order, whatever text is there, and reading goes on behind them. *)
Theorem C72_tokens_in_order : forall o ts s nt f, ts <> [] -> t_scope s = [] ->
  drain (length ts + f) o nt (addParsed ts s) =
    let* (ts2, e, s2) := drain f o (last ts nt) (at_start s) in Ok (ts ++ ts2, e, s2).
Proof.
  intros o ts s nt f Hne Hsc.
  assert (G : forall r p nt s1, ts = p ++ r -> r <> [] -> t_scope s1 = [] -> t_parsed s1 = Some ts -> t_cur s1 = length p ->
    drain (length r + f) o nt s1 = let* (ts2, e, s2) := drain f o (last r nt) (at_start s1) in Ok (r ++ ts2, e, s2)).
  { induction r as [|tk r IH]; intros p nt1 s1 E Hr H1 H2 H3; [congruence|]. cbn [length Nat.add drain].
    assert (N : nth_error ts (length p) = Some tk) by (rewrite E, nth_error_app2, Nat.sub_diag by lia; reflexivity).
    assert (L : length ts = length p + S (length r)) by (rewrite E, app_length; reflexivity).
    destruct r as [|tk2 r].
    - assert (K : nextToken o nt1 s1 = Ok (at_start s1, NoError, tk)).
      { unfold nextToken. rewrite H1, H2, H3, N. cbn [length] in L. destruct (Nat.eqb_spec (S (length p)) (length ts)); [|lia].
        unfold scope_handle. cbn. rewrite H1. reflexivity. }
      rewrite K. cbn [obind last length Nat.add app]. destruct (drain f o tk (at_start s1)) as [[[a b] c]| |]; reflexivity.
    - assert (K : nextToken o nt1 s1 = Ok (set_cur (S (length p)) s1, NoError, tk)).
      { unfold nextToken. rewrite H1, H2, H3, N. cbn [length] in L. destruct (Nat.eqb_spec (S (length p)) (length ts)); [lia|].
        unfold scope_handle. cbn. rewrite H1. reflexivity. }
      rewrite K. cbn [obind]. rewrite (IH (p ++ [tk])); [|rewrite <- app_assoc; exact E|discriminate|exact H1|exact H2|rewrite app_length; cbn; lia].
      change (at_start (set_cur (S (length p)) s1)) with (at_start s1). change (last (tk :: tk2 :: r) nt1) with (last (tk2 :: r) nt1).
      replace (last (tk2 :: r) tk) with (last (tk2 :: r) nt1).
      2:{ clear. revert tk2. induction r as [|x r IH]; intros tk2; [reflexivity|]. exact (IH x). }
      destruct (drain f o (last (tk2 :: r) nt1) (at_start s1)) as [[[a b] c]| |]; reflexivity. }
  rewrite (G ts [] nt (addParsed ts s) eq_refl Hne Hsc eq_refl eq_refl). reflexivity.
Qed.
Print Assumptions C72_tokens_in_order.

(** A tokenizer whose text has not been begun reads that text afterwards as if there had been no vector. *)
Theorem C72_text_afterwards_partial : forall o ts s nt f, ts <> [] -> t_scope s = [] -> t_parsed s = None -> t_cur s = 0 ->
  drain (length ts + f) o nt (addParsed ts s) = let* (ts2, e, s2) := drain f o (last ts nt) s in Ok (ts ++ ts2, e, s2).
Proof.
  intros o ts s nt f Hne Hsc Hp Hc. rewrite C72_tokens_in_order by assumption.
  replace (at_start s) with s by (destruct s; cbn in *; subst; reflexivity). reflexivity.
Qed.
Print Assumptions C72_text_afterwards_partial.

(** resetData with an index begins in the middle. *)
Theorem C72_reset : forall o ts i s nt, t_scope s = [] ->
  nextToken o nt (resetParsed ts i s) =
    match nth_error ts i with
    | Some tk => Ok ((if S i =? length ts then at_start (resetParsed ts i s) else resetParsed ts (S i) s), NoError, tk)
    | None => UB
    end.
Proof.
  intros o ts i s nt Hsc. unfold nextToken. change (t_scope (resetParsed ts i s)) with (t_scope s). rewrite Hsc.
  change (t_parsed (resetParsed ts i s)) with (Some ts). change (t_cur (resetParsed ts i s)) with i. cbn iota.
  destruct (nth_error ts i) as [tk|]; [|reflexivity]. unfold scope_handle. destruct (S i =? length ts); cbn; rewrite Hsc; reflexivity.
Qed.
Print Assumptions C72_reset.

(** An object is read from the tokens of its document as from the text of the document, also if some text is left. *)
Theorem C72_parse_partial : forall o g t v j text ts s e v' r, ty_ok t -> shaped t v -> fits t (Some j) -> o_nl o = false -> doc_text plain j text ->
  map tok_view ts = doc_tokens None j -> t_scope s = [] -> parses o g t v text e v' r ->
  forall fuel, ntok j <= fuel -> exists c',
    parseTo (nextToken o) fuel t v (mkCtx (addParsed ts s) tok_default NoError [] [] g) = Ok (e, v', c') /\ rep c' = r.
Proof.
  intros o g t v j text ts s e v' r Ht Hv Hf Ho Hd Hts Hsc Hp fuel Hl.
  apply (parses_read o g t v j text e v' r Ht Hv Hf Ho Hd) in Hp.
  assert (Lt : length ts = ntok j) by (rewrite <- (map_length tok_view), Hts; reflexivity). assert (Lj := ntok_pos j).
  destruct (parsed_feeds o ts 0 tok_default (addParsed ts s) Hsc eq_refl eq_refl ltac:(lia)) as (s' & nt' & F & _). cbn [skipn] in F. rewrite Hts in F.
  unfold parseTo, ctx_next, ctx_read. cbn [c_tok c_src]. destruct (doc_tokens None j) as [|v0 vs] eqn:Ed; [unfold ntok in Lj; rewrite Ed in Lj; cbn in Lj; lia|].
  inversion F as [|? ? s1 nt1 ? ? ? ? Hn Hv0 Hfd]; subst. rewrite Hn. cbn [obind is_ok]. set (c := set_err _ _).
  assert (St : stands (nextToken o) c (doc_tokens None j) s' nt').
  { split; [reflexivity|]. rewrite Ed. eexists. split; [reflexivity|exact Hfd]. }
  destruct (to_read (nextToken o) fuel t v c None j s' nt' Ht Hv Hf St) as (e1 & v1 & m & u & c' & A & B & C & D & _); [exact Hl|].
  change (c_cfg c) with g in A. rewrite Hp in A. injection A as <- <- ->. rewrite B. cbn [obind]. eexists. split; [reflexivity|].
  unfold rep. cbn. cbn in C, D. rewrite C, D. reflexivity.
Qed.
Print Assumptions C72_parse_partial.

(** Text that was begun is read again from its start: in [1,2] read up to the 1. *)
Theorem C72_text_afterwards_refuted : exists s tk nt, reachable default_opts s /\ t_scope s = [] /\
  (exists ts e s2, drain 5 default_opts nt s = Ok (ts, e, s2) /\ map (fun t => dr_bytes (tk_value t)) ts = [s2b "2"; s2b "]"]) /\
  (exists ts e s2, drain 9 default_opts nt (addParsed [tk] s) = Ok (tk :: ts, e, s2) /\
     map (fun t => dr_bytes (tk_value t)) ts = [s2b "["; s2b "1"; s2b "2"; s2b "]"]).
Proof.
  pose (s0 := addData (s2b "[1,2]") t_init).
  destruct (nextToken default_opts tok_default s0) as [[[s1 e1] nt1]| |] eqn:E1; [|exfalso; vm_compute in E1; discriminate E1..].
  destruct (nextToken default_opts nt1 s1) as [[[s2 e2] nt2]| |] eqn:E2.
  2,3: exfalso; vm_compute in E1; injection E1 as <- <- <-; vm_compute in E2; discriminate E2.
  exists s2, tok_default, nt2. split; [|split; [|split]].
  - eapply R_next; [|exact E2]. eapply R_next; [|exact E1]. apply R_add; [apply R_init|reflexivity].
  - vm_compute in E1. injection E1 as <- <- <-. vm_compute in E2. injection E2 as <- <- <-. reflexivity.
  - vm_compute in E1. injection E1 as <- <- <-. vm_compute in E2. injection E2 as <- <- <-. do 3 eexists. split; vm_compute; reflexivity.
  - vm_compute in E1. injection E1 as <- <- <-. vm_compute in E2. injection E2 as <- <- <-. do 3 eexists. split; vm_compute; reflexivity.
Qed.
Print Assumptions C72_text_afterwards_refuted.

(** An empty vector is undefined behaviour at the next token. *)
Theorem C72_empty_refuted : forall o s nt, t_scope s = [] -> nextToken o nt (addParsed [] s) = UB.
Proof. intros o s nt Hsc. unfold nextToken. cbn [addParsed t_scope set_cur set_parsed t_parsed t_cur nth_error]. rewrite Hsc. reflexivity. Qed.
Print Assumptions C72_empty_refuted.

Definition some_tokens : list token :=
  [mkTok dref_empty (mkRef Elsewhere [x5b]) TAscii TArrayStart; mkTok dref_empty (mkRef Elsewhere (s2b "7")) TAscii TNumber;
   mkTok dref_empty (mkRef Elsewhere [x5d]) TAscii TArrayEnd].
Example C72_nonvacuous :
  map tok_view some_tokens = doc_tokens None (JArr [JScalar (SNum (s2b "7"))]) /\
  (exists c', parseTo (nextToken default_opts) 9 (YVec (YInt (mkIty 32 true))) (VList []) (mkCtx (addParsed some_tokens (addData (s2b "[1,2]") t_init)) tok_default NoError [] [] cfg_default)
     = Ok (NoError, VList [VInt 7], c')) /\
  (exists ts e s2, drain 20 default_opts tok_default (addParsed some_tokens (addData (s2b "[1,2]") t_init)) = Ok (some_tokens ++ ts, e, s2) /\
     map (fun t => dr_bytes (tk_value t)) ts = [s2b "["; s2b "1"; s2b "2"; s2b "]"]).
Proof. split; [reflexivity|]. split; [eexists; vm_compute; reflexivity|]. do 3 eexists. split; vm_compute; reflexivity. Qed.
Print Assumptions C72_nonvacuous.
