(** Property C45: error positions. *)
From Verif Require Import Base ScanModel TokModel TokSpec TokSafe TokSpecProofs PropTok ErrCtxModel ErrCtxSpec ErrCtxProofs ErrCtxTok.
From Coq Require Import Lia ZArith.
Local Open Scope Z_scope.

(** The full claim: after every error the context shows lines of the front buffer around the
    position of the tokenizer, and names the line and the column of that position. *)
Definition C45_claim : Prop := forall o g s nt s1 e nt1 c0,
  reachable o s -> 0 <= eg_line_range g -> 0 <= eg_range g ->
  nextToken o nt s = Ok (s1, e, nt1) -> e <> NoError -> e <> NeedMoreData -> e <> ScopeHasEnded ->
  exists data rest c start,
    t_bufs s1 = data :: rest /\ context_after g s1 e c0 = Ok c /\ ec_error c = e /\
    0 <= ec_line c /\ 0 <= ec_char c /\
    shows data (t_cur s1) (ec_lines c) (Z.to_nat (ec_line c)) start /\
    (start + Z.to_nat (ec_char c) = t_cur s1)%nat.

(** Everything but the column.  The column is right when a single line is shown; it is one too
    large when several lines are shown and the start of the line was seen; it is 0 when several
    lines are shown and no line break was seen before the position. *)
Theorem C45_context_partial : forall o g s nt s1 e nt1 c0,
  reachable o s -> 0 <= eg_line_range g -> 0 <= eg_range g ->
  nextToken o nt s = Ok (s1, e, nt1) -> e <> NoError -> e <> NeedMoreData -> e <> ScopeHasEnded ->
  exists data rest c start,
    t_bufs s1 = data :: rest /\ context_after g s1 e c0 = Ok c /\ ec_error c = e /\ ec_message c = [] /\
    0 <= ec_line c /\ 0 <= ec_char c /\
    shows data (t_cur s1) (ec_lines c) (Z.to_nat (ec_line c)) start /\
    ((length (ec_lines c) = 1%nat /\ start + Z.to_nat (ec_char c) = t_cur s1)%nat \/
     ((1 < length (ec_lines c))%nat /\ nl_at data (Z.of_nat start - 1) /\
      start + Z.to_nat (ec_char c) = t_cur s1 + 1)%nat \/
     ((1 < length (ec_lines c))%nat /\ ec_line c = 0 /\ ec_char c = 0)).
Proof.
  intros o g s nt s1 e nt1 c0 Hr Hl Hg E N1 N2 N3.
  destruct (nextToken_error_bufs _ _ _ _ _ _ E N1 N2 N3) as [Hp Hb].
  destruct (C01_every_call_returns o s nt Hr) as (s1' & e' & nt1' & E' & B).
  rewrite E in E'. injection E' as <- <- <-.
  specialize (B (nextToken_parsed_None _ _ _ _ _ _ (proj1 (reachable_inv _ _ Hr)) Hp E)).
  destruct (t_bufs s1) as [|data rest] eqn:Eb; [contradiction|].
  destruct (update_sound g data rest (t_cur s1) e [] (ec_clear c0) B Hl Hg)
    as (c & U & new & start & A1 & A2 & A3 & A4 & A5 & A6).
  cbn [ec_clear ec_lines ec_char app] in A3, A6. subst new.
  assert (Hs : (start <= t_cur s1)%nat) by (destruct A5 as (? & ? & ? & ? & ? & _ & _ & _ & _ & ? & _); assumption).
  exists data, rest, c, start. split; [reflexivity|].
  split; [destruct e; try congruence; unfold context_after; rewrite Eb; exact U|].
  split; [exact A1|]. split; [exact A2|]. split; [exact A4|].
  destruct A6 as [(_ & B1 & B2)|[(B1 & B2 & B3)|(B1 & B2 & B3)]].
  - split; [lia|]. split; [exact A5|]. left. split; [exact B1|lia].
  - split; [lia|]. split; [exact A5|]. right; left. split; [exact B2|]. split; [exact B1|lia].
  - split; [lia|]. split; [exact A5|]. right; right. auto.
Qed.
Print Assumptions C45_context_partial.

(** updateErrorContext called directly, on any buffer, position and settings, never reads outside
    the buffer and adds consecutive lines of it, one of them with the position. *)
Theorem C45_lines : forall g data rest cur e message c0,
  (cur <= length data)%nat -> 0 <= eg_line_range g -> 0 <= eg_range g ->
  exists c new start, updateErrorContext g (data :: rest) cur e message c0 = Ok c /\
    ec_lines c = ec_lines c0 ++ new /\ shows data cur new (Z.to_nat (ec_line c)) start.
Proof.
  intros g data rest cur e message c0 Hc Hl Hg.
  destruct (update_sound g data rest cur e message c0 Hc Hl Hg) as (c & U & new & start & _ & _ & A & _ & B & _).
  exists c, new, start. auto.
Qed.
Print Assumptions C45_lines.

(** The two ways the column is wrong. *)
Definition bad_state (text : bytes) : tstate :=
  match nextToken default_opts tok_default (addData text t_init) with Ok (s, _, _) => s | _ => t_init end.
Theorem C45_column_refuted :
  ~ C45_claim /\
  (** the line is one character long, the position is just past it, the column is 2 *)
  (exists s nt, nextToken default_opts tok_default (bad_state (s2b "[" ++ [x0a] ++ s2b "}")) = Ok (s, UnexpectedObjectEnd, nt) /\
     t_cur s = 3%nat /\
     context_after eg_default s UnexpectedObjectEnd ec_init = Ok (mkEctx 1 2 UnexpectedObjectEnd [] [s2b "["; s2b "}"])) /\
  (** the position is 2, the column 0; the last character of the last line is missing *)
  (exists s nt, nextToken default_opts tok_default (bad_state (s2b "[}" ++ [x0a] ++ s2b "1]")) = Ok (s, UnexpectedObjectEnd, nt) /\
     t_cur s = 2%nat /\ t_bufs s = [s2b "[}" ++ [x0a] ++ s2b "1]"] /\
     context_after eg_default s UnexpectedObjectEnd ec_init = Ok (mkEctx 0 0 UnexpectedObjectEnd [] [s2b "[}"; s2b "1"])).
Proof.
  assert (A : exists s nt, nextToken default_opts tok_default (bad_state (s2b "[}" ++ [x0a] ++ s2b "1]")) = Ok (s, UnexpectedObjectEnd, nt) /\
     t_cur s = 2%nat /\ t_bufs s = [s2b "[}" ++ [x0a] ++ s2b "1]"] /\
     context_after eg_default s UnexpectedObjectEnd ec_init = Ok (mkEctx 0 0 UnexpectedObjectEnd [] [s2b "[}"; s2b "1"])).
  { do 2 eexists. split; [vm_compute; reflexivity|]. split; [|split]; vm_compute; reflexivity. }
  split; [|split; [|exact A]].
  - intros H. set (st := bad_state (s2b "[}" ++ [x0a] ++ s2b "1]")) in *.
    assert (R : reachable default_opts st).
    { assert (E : exists e nt1, nextToken default_opts tok_default (addData (s2b "[}" ++ [x0a] ++ s2b "1]") t_init) = Ok (st, e, nt1))
        by (do 2 eexists; vm_compute; reflexivity).
      destruct E as (e & nt1 & E). eapply R_next; [|exact E]. apply R_add; [apply R_init|reflexivity]. }
    destruct A as (s1 & nt1 & E & C & D & K).
    destruct (H default_opts eg_default st tok_default s1 UnexpectedObjectEnd nt1 ec_init R) as (data & rest & c & start & DD & U & _ & _ & _ & S & P);
      try discriminate; [exact E|].
    rewrite K in U. injection U as <-. cbn [ec_char ec_line ec_lines] in *.
    change (Z.to_nat 0) with 0%nat in *.
    destruct S as (before & l & after & pre & post & S1 & S2 & S3 & S4 & S5). rewrite C in *.
    destruct before; [|discriminate S2]. injection S1 as <- _.
    rewrite D in DD. injection DD as <- _. apply (f_equal (@length byte)) in S3. rewrite !app_length in S3. cbn in S3, S4, P. lia.
  - do 2 eexists. split; [vm_compute; reflexivity|]. split; vm_compute; reflexivity.
Qed.
Print Assumptions C45_column_refuted.

(** An error in the third of several lines. *)
Example C45_nonvacuous :
  let text := s2b "{" ++ [x0a] ++ s2b " ""a"": 1," ++ [x0a] ++ s2b " ]" ++ [x0a] ++ s2b "}" in
  let s := addData text t_init in
  reachable default_opts s /\
  exists s1 nt1 s2 nt2 s3 nt3 c,
    nextToken default_opts tok_default s = Ok (s1, NoError, nt1) /\
    nextToken default_opts nt1 s1 = Ok (s2, NoError, nt2) /\
    nextToken default_opts nt2 s2 = Ok (s3, ExpectedDataToken, nt3) /\
    context_after eg_default s3 ExpectedDataToken ec_init = Ok c /\
    ec_line c = 2 /\ ec_lines c = [s2b "{"; s2b " ""a"": 1,"; s2b " ]"; s2b ""].
Proof.
  split; [apply R_add; [apply R_init|reflexivity]|].
  do 7 eexists. split; [vm_compute; reflexivity|]. split; [vm_compute; reflexivity|]. split; [vm_compute; reflexivity|].
  split; [vm_compute; reflexivity|]. split; reflexivity.
Qed.

(** The message printed for it. *)
Example C45_message :
  makeErrorString (s2b "ExpectedDataToken") (mkEctx 1 3 ExpectedDataToken [] [s2b "{"; s2b " ]"]) =
  s2b "Error ExpectedDataToken:" ++ [x0a] ++ s2b "{" ++ [x0a] ++ s2b " ]" ++ [x0a] ++ s2b "   ^" ++ [x0a].
Proof. reflexivity. Qed.
