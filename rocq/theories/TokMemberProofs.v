(** Proofs about reading structs of token vectors. *)
From Coq Require Import Lia.
From Verif Require Import Base Tactics ScanModel TokModel JsonSpec TokSpec MapSpec HandlerModel MapProofs2 HandlerSpec HandlerTree HandlerLaws HandlerProps HandlerStruct TokVecModel TokMemberModel PropTokVec.
From Verif Require CallProofs.

Lemma find_member k ns : NoDup ns -> forall i,
  search_both k (map (fun k => [k]) ns) (search_order 0 [length ns]) = Some i -> nth_error ns i = Some k.
Proof.
  intros Hn i. unfold search_both. destruct (search true k _ _) as [i0|] eqn:E.
  - intros [= <-]. unfold search in E. apply find_some in E. destruct E as [_ E].
    destruct (nth_error ns i0) as [p|] eqn:Ep.
    + erewrite nth_error_nth in E; [|rewrite nth_error_map, Ep; reflexivity]. cbn [has_name] in E.
      destruct (bytes_eqb_spec p k) as [->|]; [reflexivity|discriminate E].
    + rewrite nth_overflow in E; [discriminate E|]. rewrite map_length. apply nth_error_None. exact Ep.
  - unfold search. intros H. apply find_some in H. destruct H as [_ H]. exfalso.
    destruct (nth_error ns i) as [p|] eqn:Ep.
    + erewrite nth_error_nth in H; [|rewrite nth_error_map, Ep; reflexivity]. discriminate H.
    + rewrite nth_overflow in H; [discriminate H|]. rewrite map_length. apply nth_error_None. exact Ep.
Qed.

Lemma no_member k ns : search_both k (map (fun k => [k]) ns) (search_order 0 [length ns]) = None -> ~ In k ns.
Proof.
  unfold search_both. destruct (search true k _ _) as [i0|] eqn:E; [discriminate|]. intros _ Hin.
  apply In_nth_error in Hin. destruct Hin as [i Hi].
  assert (Hlt : i < length ns) by (apply nth_error_Some; congruence).
  unfold search in E. assert (F := find_none _ _ E i). cbn beta in F.
  erewrite nth_error_nth in F; [|rewrite nth_error_map, Hi; reflexivity]. cbn [has_name] in F.
  destruct (bytes_eqb_spec k k) as [_|N]; [|congruence]. discriminate F.
  cbn [search_order]. rewrite app_nil_r, <- in_rev. apply in_seq. lia.
Qed.

Section Read.
Context {S : Type} (next : token -> S -> outcome (S * error * token)).

Lemma member_kept all c k j s1 nt1 : stands next c (item_tokens (Some k) (Some j)) s1 nt1 -> ntok j <= all ->
  exists ts c', tokvec_to next all [] c = Ok (NoError, ts, c') /\ map tok_view ts = doc_tokens (Some k) j /\
    at_end c' s1 nt1 /\ rep c' = rep c /\ c_cfg c' = c_cfg c.
Proof.
  intros Hst Hl. assert (L : length (doc_tokens (Some k) j) <= all) by (rewrite <- CallProofs.ntok_named; exact Hl).
  destruct j as [s|els|ms].
  - destruct (C57_scalar_partial S next all [] c (Some k) s s1 nt1 Hst) as [A B]. exists [c_tok c], c. rewrite A.
    split; [reflexivity|]. split; [exact B|]. split; [|split; reflexivity]. exact (scalar_one next _ _ _ _ _ Hst).
  - destruct (C57_keeps_the_tokens S next all [] c (Some k) (JArr els) s1 nt1 I Hst L) as (ts & c' & A & B & C & D & E & F & G & H).
    exists ts, c'. unfold rep. rewrite F, G. repeat split; auto.
  - destruct (C57_keeps_the_tokens S next all [] c (Some k) (JObj ms) s1 nt1 I Hst L) as (ts & c' & A & B & C & D & E & F & G & H).
    exists ts, c'. unfold rep. rewrite F, G. repeat split; auto.
Qed.

(** The members that are named in [ms] get its values, the others stay. *)
Lemma members_read all ns : NoDup ns -> forall ms, NoDup (map fst ms) -> forall f vs a c s' nt',
  length vs = length ns -> length a = length ns ->
  (forall i k, nth_error ns i = Some k -> In k (map fst ms) -> nth_error vs i = Some []) ->
  (pc_allow_missing (c_cfg c) = true \/ incl (map fst ms) ns) ->
  length ms < f -> Forall (fun kv => ntok (snd kv) <= all) ms ->
  stands next c (flat_map (fun kv => doc_tokens (Some (fst kv)) (snd kv)) ms ++ [st_make None [rbrace] TObjectEnd]) s' nt' ->
  exists vs' a' c', tokstruct_loop next all f ns vs a c = Ok (NoError, vs', a', c') /\ at_end c' s' nt' /\
    length vs' = length ns /\ length a' = length ns /\ c_cfg c' = c_cfg c /\ c_unassigned c' = c_unassigned c /\
    c_missing c' = c_missing c ++ (if pc_track (c_cfg c) then filter (fun k => negb (existsb (bytes_eqb k) ns)) (map fst ms) else []) /\
    forall i k, nth_error ns i = Some k ->
      (forall j, In (k, j) ms -> nth_error a' i = Some true /\ exists ts, nth_error vs' i = Some ts /\ map tok_view ts = doc_tokens (Some k) j) /\
      (~ In k (map fst ms) -> nth_error a' i = nth_error a i /\ nth_error vs' i = nth_error vs i).
Proof.
  intros Hns. induction ms as [|[k j] ms IH]; intros Hms f vs a c s' nt' Hv Ha He Hmiss Hf Hall Hst; (destruct f as [|f]; [cbn in Hf; lia|]); cbn [tokstruct_loop].
  - destruct (on_members next c [] s' nt' Hst) as [Ht Hs]. rewrite Ht. cbn [type_eqb].
    exists vs, a, c. split; [reflexivity|]. split; [exact Hs|]. split; [exact Hv|]. split; [exact Ha|]. split; [reflexivity|]. split; [reflexivity|].
    split; [cbn [map filter]; destruct (pc_track (c_cfg c)); now rewrite app_nil_r|]. intros i k _. split; [intros j []|auto].
  - destruct (on_members next c ((k, j) :: ms) s' nt' Hst) as (Ht & Hk & s1 & nt1 & A & B). rewrite Ht, (proj2 (first_not_end j)), Hk.
    inversion Hms as [|? ? Hk1 Hms']; subst x l. inversion Hall as [|? ? Hj Hall']; subst x l. cbn [length] in Hf. cbn [snd] in Hj.
    cbn [map fst filter].
    destruct (search_both k _ _) as [i|] eqn:Es.
    + assert (Hi := find_member k ns Hns i Es). rewrite (He i k Hi (or_introl eq_refl)).
      destruct (member_kept all c k j s1 nt1 A Hj) as (ts & c1 & E1 & E2 & E3 & E4 & E5). rewrite E1. cbn [obind matchedMemberResult is_ok].
      destruct (next_member next c1 ms s1 nt1 s' nt' E3 B) as (c2 & En & Hr & Hg & Hst2). rewrite En. cbn [obind is_ok].
      assert (Hlt : i < length ns) by (apply nth_error_Some; congruence).
      assert (Hcfg : c_cfg c2 = c_cfg c) by congruence.
      destruct (IH Hms' f (put i ts vs) (put i true a) c2 s' nt') as (vs' & a' & c' & R1 & R2 & R3 & R4 & R5 & R6 & R7 & R8).
      * rewrite put_length. exact Hv.
      * rewrite put_length. exact Ha.
      * intros i' k' Hi' Hin. destruct (Nat.eq_dec i i') as [->|Hne]; [rewrite Hi in Hi'; injection Hi' as ->; contradiction|].
        rewrite nth_put_other by exact Hne. apply (He i' k' Hi'). right. exact Hin.
      * rewrite Hcfg. destruct Hmiss as [H|H]; [left; exact H|right]. intros x Hx. apply H. right. exact Hx.
      * lia.
      * exact Hall'.
      * exact Hst2.
      * exists vs', a', c'. split; [exact R1|]. split; [exact R2|]. split; [exact R3|]. split; [exact R4|].
        split; [congruence|]. assert (Hrep : rep c2 = rep c) by congruence. unfold rep in Hrep. injection Hrep as Hm Hu.
        split; [congruence|]. split.
        { rewrite R7, Hm, Hcfg. replace (existsb (bytes_eqb k) ns) with true; [reflexivity|]. symmetry. apply existsb_exists. exists k.
          split; [exact (nth_error_In _ _ Hi)|]. destruct (bytes_eqb_spec k k); congruence. }
        intros i' k' Hi'. destruct (R8 i' k' Hi') as [Q1 Q2]. split.
        -- intros j' [E|Hin]; [|apply Q1; exact Hin]. injection E as -> ->.
           assert (i' = i). { apply (proj1 (NoDup_nth_error ns) Hns); [apply nth_error_Some; congruence|congruence]. } subst i'.
           destruct (Q2 Hk1) as [W1 W2]. rewrite W1, W2, nth_put_same, nth_put_same by lia. split; [reflexivity|]. exists ts. auto.
        -- intros Hnin. destruct (Q2 ltac:(intros H; apply Hnin; right; exact H)) as [W1 W2]. rewrite W1, W2.
           assert (i <> i') by (intros ->; apply Hnin; left; congruence). rewrite !nth_put_other by assumption. auto.
    + assert (Hnot := no_member k ns Es).
      assert (Ec : c_cfg (add_missing k c) = c_cfg c) by (unfold add_missing; destruct (pc_track (c_cfg c)); reflexivity).
      assert (A' : stands next (add_missing k c) (item_tokens (Some k) (Some j)) s1 nt1).
      { unfold add_missing. destruct (pc_track (c_cfg c)); exact A. }
      destruct Hmiss as [Hm|Hm]; [|exfalso; apply Hnot, Hm; left; reflexivity].
      rewrite Ec, Hm. rewrite (skip_value_ok next _ _ _ _ _ _ A') by exact Hj. cbn [obind moved c_err is_ok].
      destruct (next_member next (moved (add_missing k c) s1 nt1) ms s1 nt1 s' nt') as (c2 & En & Hr & Hg & Hst2); [repeat split|exact B|].
      rewrite En. cbn [obind is_ok]. assert (Hcfg : c_cfg c2 = c_cfg c) by (rewrite Hg; exact Ec).
      destruct (IH Hms' f vs a c2 s' nt') as (vs' & a' & c' & R1 & R2 & R3 & R4 & R5 & R6 & R7 & R8); auto.
      * intros i' k' Hi' Hin. apply (He i' k' Hi'). right. exact Hin.
      * rewrite Hcfg. auto.
      * lia.
      * exists vs', a', c'. split; [exact R1|]. split; [exact R2|]. split; [exact R3|]. split; [exact R4|]. split; [congruence|].
        assert (Hmu : c_missing c2 = c_missing c ++ (if pc_track (c_cfg c) then [k] else []) /\ c_unassigned c2 = c_unassigned c).
        { unfold rep in Hr. injection Hr as -> ->. cbn [moved c_missing c_unassigned]. unfold add_missing. destruct (pc_track (c_cfg c)); cbn; rewrite ?app_nil_r; auto. }
        destruct Hmu as [Hmu1 Hmu2]. split; [congruence|]. split.
        { rewrite R7, Hmu1, Hcfg, <- app_assoc. f_equal. replace (existsb (bytes_eqb k) ns) with false; [destruct (pc_track (c_cfg c)); reflexivity|].
          symmetry. apply not_true_is_false. intros Hx. apply existsb_exists in Hx. destruct Hx as (y & Hy & Hxy). destruct (bytes_eqb_spec k y); [subst; contradiction|discriminate]. }
        intros i' k' Hi'. destruct (R8 i' k' Hi') as [Q1 Q2]. split.
        -- intros j' [E|Hin]; [|apply Q1; exact Hin]. injection E as -> ->. exfalso. apply Hnot. exact (nth_error_In _ _ Hi').
        -- intros Hnin. apply Q2. intros H. apply Hnin. right. exact H.
Qed.
End Read.
