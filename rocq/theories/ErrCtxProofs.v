(** The error context. *)
From Verif Require Import Base Tactics ScanModel ScanProofs TokModel TokSticky ErrCtxModel ErrCtxSpec.
From Coq Require Import Lia ZArith.
Local Open Scope Z_scope.

Section Data.
Variable data : bytes.
Notation size := (Z.of_nat (length data)).

Definition nl_at (i : Z) : Prop := byte_at data i = Ok c_nl.

Lemma byte_at_ok i : 0 <= i < size -> exists b, byte_at data i = Ok b.
Proof.
  intros H. unfold byte_at. replace (i <? 0) with false by lia.
  destruct (nth_error data (Z.to_nat i)) eqn:E; [eauto|]. apply nth_error_None in E. lia.
Qed.
Lemma nl_at_bound i : nl_at i -> 0 <= i < size.
Proof.
  unfold nl_at, byte_at. destruct (Z.ltb_spec i 0); [discriminate|].
  destruct (nth_error data (Z.to_nat i)) eqn:E; [|discriminate].
  assert (Z.to_nat i < length data)%nat by (apply nth_error_Some; congruence). lia.
Qed.

(** Complete lines from [lo] up to the start [s] of the next line. *)
Fixpoint lines_from (lo : Z) (ls : list (Z * Z)) (s : Z) : Prop :=
  match ls with
  | [] => s = lo
  | (a, e) :: r => a = lo /\ lo <= e /\ nl_at e /\ lines_from (e + 1) r s
  end.
Lemma lines_from_app ls1 ls2 : forall lo s,
  lines_from lo (ls1 ++ ls2) s <-> exists m, lines_from lo ls1 m /\ lines_from m ls2 s.
Proof.
  induction ls1 as [|[a e] r IH]; intros lo s; cbn.
  - split; [intros H; exists lo; auto|intros (m & -> & H); exact H].
  - rewrite IH. split.
    + intros (A & B & C & m & D & E). exists m. auto.
    + intros (m & (A & B & C & D) & E). eauto 10.
Qed.
Lemma lines_from_le ls : forall lo s, lines_from lo ls s -> lo <= s.
Proof. induction ls as [|[a e] r IH]; cbn; intros lo s; [lia|]. intros (_ & A & _ & B). apply IH in B. lia. Qed.

Definition part (s e : Z) : bytes := firstn (Z.to_nat (e - s)) (skipn (Z.to_nat s) data).
Lemma piece_ok s e : 0 <= s <= e -> e <= size -> piece data s e = Ok (part s e).
Proof. intros A B. unfold piece. replace ((0 <=? s) && (s <=? e) && (e <=? size)) with true by lia. reflexivity. Qed.
Lemma part_length s e : 0 <= s <= e -> e <= size -> length (part s e) = Z.to_nat (e - s).
Proof. intros A B. unfold part. rewrite firstn_length, skipn_length. lia. Qed.
Lemma part_app s m e : 0 <= s <= m -> m <= e -> part s e = part s m ++ part m e.
Proof.
  intros A B. unfold part.
  replace (Z.to_nat (e - s)) with (Z.to_nat (m - s) + Z.to_nat (e - m))%nat by lia.
  replace (Z.to_nat m) with (Z.to_nat (m - s) + Z.to_nat s)%nat by lia.
  rewrite <- skipn_skipn. generalize (skipn (Z.to_nat s) data) (Z.to_nat (m - s)) (Z.to_nat (e - m)). clear.
  intros l n k. revert l. induction n; intros l; [reflexivity|]. destruct l; cbn; [rewrite firstn_nil; reflexivity|]. f_equal. apply IHn.
Qed.
Lemma part_one i : nl_at i -> part i (i + 1) = [x0a].
Proof.
  intros H. pose proof (nl_at_bound i H) as B. unfold nl_at, byte_at in H. unfold part.
  replace (i <? 0) with false in H by lia. replace (Z.to_nat (i + 1 - i)) with 1%nat by lia.
  destruct (nth_error data (Z.to_nat i)) as [b|] eqn:E; [|discriminate]. injection H as ->.
  apply nth_error_split in E. destruct E as (l1 & l2 & E & L). rewrite E at 1. rewrite <- L.
  rewrite skipn_app, skipn_all, Nat.sub_diag. reflexivity.
Qed.

Lemma pieces_from ls : forall lo s, lines_from lo ls s -> 0 <= lo -> s <= size ->
  exists ps, pieces data ls = Ok ps /\ length ps = length ls /\
    concat (map (fun x => x ++ [x0a]) ps) = part lo s.
Proof.
  induction ls as [|[a e] r IH]; cbn; intros lo s.
  - intros -> _ _. exists []. unfold part. rewrite Z.sub_diag. auto.
  - intros (-> & A & N & H) Hlo Hs. pose proof (nl_at_bound e N). pose proof (lines_from_le _ _ _ H).
    destruct (IH _ _ H) as (ps & E & L & C); [lia|lia|].
    rewrite piece_ok by lia. cbn [obind]. rewrite E. cbn [obind]. exists (part lo e :: ps). split; [reflexivity|].
    split; [cbn; congruence|]. cbn. rewrite C, <- app_assoc, <- (part_one e N).
    rewrite <- (part_app e (e + 1) s) by lia. symmetry. apply part_app; lia.
Qed.
Lemma pieces_app a b : pieces data (a ++ b) = let* x := pieces data a in let* y := pieces data b in Ok (x ++ y).
Proof.
  induction a as [|[s e] r IH]; cbn.
  - destruct (pieces data b); reflexivity.
  - destruct (piece data s e); cbn; [|reflexivity|reflexivity]. rewrite IH.
    destruct (pieces data r); cbn; [|reflexivity|reflexivity]. destruct (pieces data b); reflexivity.
Qed.
Lemma join_snoc ps l : join_lines (ps ++ [l]) = concat (map (fun x => x ++ [x0a]) ps) ++ l.
Proof.
  induction ps as [|p r IH]; [reflexivity|]. cbn [map concat app]. rewrite <- !app_assoc. cbn [app].
  rewrite <- IH. destruct (r ++ [l]) eqn:E; [destruct r; discriminate|]. rewrite <- E. cbn [join_lines app].
  rewrite E. reflexivity.
Qed.
Lemma data_part lo e : 0 <= lo <= e -> e <= size ->
  data = firstn (Z.to_nat lo) data ++ part lo e ++ skipn (Z.to_nat e) data.
Proof.
  intros A B. unfold part.
  rewrite <- (firstn_skipn (Z.to_nat lo) data) at 1. f_equal.
  rewrite <- (firstn_skipn (Z.to_nat (e - lo)) (skipn (Z.to_nat lo) data)) at 1. f_equal.
  rewrite skipn_skipn. f_equal. lia.
Qed.

(** ** Going back *)

(** What is known after the loop: the lines before the cursor's, the start of the cursor's, and how
    the column was set. *)
Definition back_ok (real stop old cb : Z) (fr : Z * Z) (ls : list (Z * Z)) (lb ch : Z) : Prop :=
  exists lo init sl, fr :: ls = init ++ [(sl, real)] /\ lines_from lo init sl /\ 0 <= lo /\ sl <= real /\
    Z.of_nat (length init) = lb /\
    ((init = [] /\ ch = old /\ forall i, stop < i < real -> ~ nl_at i) \/
     (stop < sl - 1 /\ nl_at (sl - 1) /\ ch = real - sl + 1 /\ forall i, sl <= i < real -> ~ nl_at i)).

Definition back_inv (real stop old cb : Z) (fr : Z * Z) (ls : list (Z * Z)) (lb ch : Z) : Prop :=
  fst fr = 0 /\ snd fr >= cb + 1 /\ Z.of_nat (length ls) = lb /\
  ((fr = (0, real) /\ ls = [] /\ ch = old /\ forall i, cb < i < real -> ~ nl_at i) \/
   (exists mid sl, ls = mid ++ [(sl, real)] /\ lines_from (snd fr + 1) mid sl /\ sl <= real /\
      nl_at (snd fr) /\ stop < sl - 1 /\ nl_at (sl - 1) /\ ch = real - sl + 1 /\
      forall i, sl <= i < real -> ~ nl_at i)).

Lemma back_front real stop old cb fr ls lb ch : back_inv real stop old cb fr ls lb ch -> 0 <= stop -> 
  forall s, 0 <= s -> s <= snd fr -> (ls = [] -> cb <= stop) ->
  back_ok real stop old cb (s, snd fr) ls lb ch.
Proof.
  intros (A & B & C & D) Hst s Hs Hs' Hcb. destruct D as [(E & -> & F & G)|(mid & sl & -> & F & G & H & I & J & K & M)].
  - exists s, [], s. subst fr. cbn [snd] in *. repeat split; auto. left. repeat split; auto.
    intros i Hi. apply G. specialize (Hcb eq_refl). lia.
  - pose proof (lines_from_le _ _ _ F).
    exists s, ((s, snd fr) :: mid), sl. split; [reflexivity|]. split.
    { cbn. split; [reflexivity|]. split; [lia|]. split; [exact H|exact F]. }
    split; [exact Hs|]. split; [exact G|]. split; [cbn; rewrite app_length in C; cbn in C; lia|].
    right. auto.
Qed.

Lemma go_back_ok real stop limit old : forall fuel cb fr ls lb ch,
  0 <= stop -> cb < real <= size -> -1 <= cb -> (Z.to_nat (cb + 1) < fuel)%nat ->
  back_inv real stop old cb fr ls lb ch ->
  exists cb' fr' ls' lb' ch',
    go_back fuel data real stop limit cb fr ls lb ch = Ok (cb', fr', ls', lb', ch') /\
    (fst fr' = 0 -> cb' <= stop \/ lb' = limit) /\
    back_ok real stop old cb' (if (fst fr' =? 0) && (0 <? cb') then (cb', snd fr') else fr') ls' lb' ch'.
Proof.
  induction fuel as [|f IH]; intros cb fr ls lb ch Hst Hcb Hm Hf Hi; [lia|].
  cbn [go_back]. destruct (Z.ltb_spec stop cb) as [L|L].
  - destruct (byte_at_ok cb) as [b Eb]; [lia|]. rewrite Eb. cbn [obind].
    destruct (Byte.eqb b c_nl) eqn:En.
    + apply byte_eqb_eq in En. subst b. fold (nl_at cb) in Eb.
      assert (Hch : (if lb + 1 =? 1 then real - cb else ch) = match ls with [] => real - cb | _ => ch end).
      { destruct Hi as (_ & _ & C & _). destruct ls; cbn in C.
        - subst lb. reflexivity.
        - replace (lb + 1 =? 1) with false by lia. reflexivity. }
      assert (Hn : forall c', (c' = match ls with [] => real - cb | _ => ch end) ->
                   back_inv real stop old (cb - 1) (0, cb) ((cb + 1, snd fr) :: ls) (lb + 1) c').
      { intros c' ->. destruct Hi as (A & B & C & D). split; [reflexivity|]. split; [cbn; lia|].
        split; [cbn [length]; lia|]. right.
        destruct D as [(E & -> & F & G)|(mid & sl & -> & F & G & H & I & J & K & M)].
        - exists [], (cb + 1). subst fr. cbn [snd app lines_from]. split; [reflexivity|].
          split; [lia|]. split; [lia|]. split; [exact Eb|].
          replace (cb + 1 - 1) with cb by lia. split; [lia|]. split; [exact Eb|]. split; [lia|].
          intros i Hi'. apply G. lia.
        - exists ((cb + 1, snd fr) :: mid), sl. split; [reflexivity|].
          split; [cbn; split; [reflexivity|]; split; [lia|]; split; [exact H|exact F]|].
          split; [exact G|]. split; [exact Eb|]. split; [exact I|]. split; [exact J|]. split; [|exact M].
          destruct mid; exact K. }
      rewrite Hch. destruct (lb + 1 =? limit) eqn:El.
      * eexists _, _, _, _, _. split; [reflexivity|]. cbn [fst snd]. split; [intros; lia|].
        replace (cb + 1 =? 0) with false by lia. cbn [andb].
        specialize (Hn _ eq_refl). destruct Hn as (_ & _ & C & D). cbn [length] in C.
        destruct D as [(_ & E & _)|(mid & sl & E & F & G & H & I & J & K & M)]; [discriminate|].
        destruct mid as [|[a e] mid]; cbn [app] in E.
        -- injection E as E1 E2 E3. subst ls. exists (cb + 1), [], sl. cbn [snd] in F. cbn in F. subst sl.
           cbn [app]. rewrite E2. split; [reflexivity|]. split; [reflexivity|]. split; [lia|]. split; [lia|].
           split; [cbn in *; lia|]. right. auto.
        -- injection E as E1 E2 E3. cbn [snd] in F. exists (cb + 1), ((cb + 1, snd fr) :: mid), sl.
           split; [rewrite E3; reflexivity|]. destruct F as (F1 & F2 & F3 & F4). subst a e.
           split; [cbn; auto|]. split; [lia|]. split; [lia|].
           split; [rewrite E3 in C; rewrite app_length in C; cbn in *; lia|]. right. auto.
      * destruct (IH (cb - 1) (0, cb) ((cb + 1, snd fr) :: ls) (lb + 1) (match ls with [] => real - cb | _ => ch end))
          as (cb' & fr' & ls' & lb' & ch' & E & R); try lia; [apply Hn; reflexivity|].
        exists cb', fr', ls', lb', ch'. auto.
    + destruct (IH (cb - 1) fr ls lb ch) as (cb' & fr' & ls' & lb' & ch' & E & R); try lia.
      { destruct Hi as (A & B & C & D). split; [exact A|]. split; [lia|]. split; [exact C|].
        destruct D as [(E & F & G & H)|D]; [left|right; exact D]. repeat split; auto.
        intros i Hi' N. destruct (Z.eq_dec i cb) as [->|]; [|apply (H i); [lia|exact N]].
        unfold nl_at in N. rewrite Eb in N. injection N as ->. discriminate En. }
      exists cb', fr', ls', lb', ch'. auto.
  - exists cb, fr, ls, lb, ch. split; [reflexivity|]. split; [intros _; left; lia|].
    destruct fr as [a e]. cbn [fst snd] in *. destruct Hi as (A & B & C). cbn [fst snd] in A, B. subst a.
    destruct (Z.ltb_spec 0 cb) as [P|P]; rewrite Z.eqb_refl; cbn [andb].
    + apply (back_front real stop old cb (0, e)); cbn [snd]; try lia. split; auto.
    + apply (back_front real stop old cb (0, e)); cbn [snd]; try lia. split; auto.
Qed.

(** ** Going forward *)

(** The state of the loop: [ls] are complete lines up to [bk]. *)
Definition fwd_inv (lo : Z) (init : list (Z * Z)) (sl real cf : Z) (ls : list (Z * Z)) (bk : Z * Z) (add : bool) : Prop :=
  real <= cf /\ lines_from lo ls (fst bk) /\
  (if add then snd bk = cf - 1 /\ fst bk <= snd bk /\ nl_at (snd bk) else fst bk <= cf) /\
  ((ls = init /\ fst bk = sl /\ (if add then real <= snd bk else snd bk = real)) \/
   (exists e more, ls = init ++ (sl, e) :: more /\ real <= e /\ (if add then True else snd bk = 0 /\ fst bk < cf))).

(** Afterwards, if there is more than one line. *)
Definition fwd_ok (lo : Z) (init : list (Z * Z)) (sl real : Z) (ls : list (Z * Z)) (bk : Z * Z) : Prop :=
  ls <> [] ->
  lines_from lo ls (fst bk) /\ fst bk <= snd bk <= size /\
  ((ls = init /\ fst bk = sl /\ real <= snd bk) \/
   (exists e more, ls = init ++ (sl, e) :: more /\ real <= e)).

Lemma nonempty_lines lo ls s : 0 <= lo -> ls <> [] -> lines_from lo ls s -> 1 <= s.
Proof.
  intros H N L. destruct ls as [|[a e] r]; [contradiction|]. cbn in L. destruct L as (_ & A & _ & B).
  apply lines_from_le in B. lia.
Qed.

Lemma go_forward_ok lo init sl real stop limit : 0 <= lo -> 0 <= real -> sl <= real -> forall fuel cf ls bk lf add,
  stop <= size -> cf <= Z.max real stop -> real <= size -> (Z.to_nat (stop - cf) < fuel)%nat ->
  fwd_inv lo init sl real cf ls bk add ->
  exists cf' ls' bk',
    go_forward fuel data stop limit cf ls bk lf add = Ok (cf', ls', bk') /\
    fwd_ok lo init sl real ls' (if snd bk' =? 0 then (fst bk', cf' - 1) else bk').
Proof.
  intros Hlo Hr Hsl. induction fuel as [|f IH]; intros cf ls bk lf add Hst Hcf Hrs Hf Hi; [lia|].
  cbn [go_forward]. destruct (Z.ltb_spec cf stop) as [L|L].
  - set (ls1 := if add then ls ++ [bk] else ls). set (bk1 := if add then (cf, 0) else bk).
    replace (if add then (ls ++ [bk], (cf, 0)) else (ls, bk)) with (ls1, bk1) by (destruct add; reflexivity).
    assert (Hi1 : real <= cf /\ lines_from lo ls1 (fst bk1) /\ fst bk1 <= cf /\
      ((ls1 = init /\ fst bk1 = sl /\ snd bk1 = real) \/
       (exists e more, ls1 = init ++ (sl, e) :: more /\ real <= e /\ snd bk1 = 0))).
    { destruct Hi as (A & B & C & D). unfold ls1, bk1. destruct add.
      - destruct C as (C1 & C2 & C3). cbn [fst snd]. split; [exact A|]. split.
        { apply lines_from_app. exists (fst bk). split; [exact B|]. destruct bk as [s e]. cbn in *.
          split; [reflexivity|]. split; [lia|]. split; [exact C3|]. lia. }
        split; [lia|]. right. destruct D as [(D1 & D2 & D3)|(e & more & D1 & D2 & _)].
        + exists (snd bk), []. subst ls. destruct bk as [s e]. cbn in *. subst s. auto.
        + exists e, (more ++ [bk]). subst ls. rewrite <- app_assoc. auto.
      - split; [exact A|]. split; [exact B|]. split; [lia|]. destruct D as [D|(e & more & D1 & D2 & D3 & D4)]; [left; exact D|].
        right. exists e, more. auto. }
    clearbody ls1 bk1. clear Hi. destruct Hi1 as (A & B & C & D).
    destruct (byte_at_ok cf) as [b Eb]; [lia|]. rewrite Eb. cbn [obind].
    assert (Hfst : 0 <= fst bk1) by (apply lines_from_le in B; lia).
    destruct (Byte.eqb b c_nl) eqn:En.
    + apply byte_eqb_eq in En. subst b. fold (nl_at cf) in Eb.
      assert (D' : (ls1 = init /\ fst bk1 = sl /\ real <= cf) \/
                   (exists e more, ls1 = init ++ (sl, e) :: more /\ real <= e)).
      { destruct D as [(D1 & D2 & _)|(e & more & D1 & D2 & _)]; [left; auto|right; eauto]. }
      destruct (lf + 1 =? limit) eqn:El.
      * eexists _, _, _. split; [reflexivity|]. cbn [fst snd]. intros N.
        pose proof (nonempty_lines _ _ _ Hlo N B). replace (cf =? 0) with false by lia. cbn [fst snd].
        split; [exact B|]. split; [lia|]. exact D'.
      * apply IH; try lia. split; [lia|]. cbn [fst snd]. split; [exact B|].
        split; [split; [lia|]; split; [lia|exact Eb]|].
        destruct D' as [D'|(e & more & D1 & D2)]; [left; exact D'|right; exists e, more; auto].
    + apply IH; try lia. split; [lia|]. split; [exact B|]. split; [lia|].
      destruct D as [D|(e & more & D1 & D2 & D3)]; [left; exact D|right; exists e, more].
      split; [exact D1|]. split; [exact D2|]. split; [exact D3|lia].
  - exists cf, ls, bk. split; [reflexivity|]. intros N. destruct Hi as (A & B & C & D).
    pose proof (nonempty_lines _ _ _ Hlo N B).
    destruct add.
    + destruct C as (C1 & C2 & C3). replace (snd bk =? 0) with false by lia.
      pose proof (nl_at_bound _ C3). split; [exact B|]. split; [lia|].
      destruct D as [D|(e & more & D1 & D2 & _)]; [left; exact D|right; eauto].
    + destruct D as [(D1 & D2 & D3)|(e & more & D1 & D2 & D3 & D4)].
      * replace (snd bk =? 0) with false by lia. split; [exact B|]. split; [lia|]. left. repeat split; auto. lia.
      * rewrite D3, Z.eqb_refl. cbn [fst snd]. split; [exact B|]. split; [lia|]. right. eauto.
Qed.
End Data.

(** ** The whole function *)

Definition context_sound (g : ecfg) (data : bytes) (cur : nat) (e : error) (message : bytes) (c0 c : ectx) : Prop :=
  exists new start,
    ec_error c = e /\ ec_message c = message /\ ec_lines c = ec_lines c0 ++ new /\ 0 <= ec_line c /\
    shows data cur new (Z.to_nat (ec_line c)) start /\
    ((ec_line c = 0 /\ length new = 1%nat /\ ec_char c = Z.of_nat cur - Z.of_nat start) \/
     (nl_at data (Z.of_nat start - 1) /\ (1 < length new)%nat /\ ec_char c = Z.of_nat cur - Z.of_nat start + 1) \/
     (ec_line c = 0 /\ (1 < length new)%nat /\ ec_char c = ec_char c0)).

Lemma update_sound g data rest cur e message c0 :
  (cur <= length data)%nat -> 0 <= eg_line_range g -> 0 <= eg_range g ->
  exists c, updateErrorContext g (data :: rest) cur e message c0 = Ok c /\
            context_sound g data cur e message c0 c.
Proof.
  intros Hc Hl Hg. unfold updateErrorContext. cbv zeta.
  set (real := Z.of_nat cur). set (stop := real - Z.min real (eg_line_range g)).
  set (stopf := Z.min (real + eg_line_range g) (Z.of_nat (length data))).
  destruct (go_back_ok data real stop (eg_lines g) (ec_char c0) (S cur) (real - 1) (0, real) [] 0 (ec_char c0))
    as (cb & fr & ls & lb & ch & E & _ & B); try (unfold stop, real; lia).
  { split; [reflexivity|]. split; [cbn; lia|]. split; [reflexivity|]. left. repeat split; auto. intros i Hi. lia. }
  rewrite E. cbn [obind]. clear E.
  set (fr1 := if (fst fr =? 0) && (0 <? cb) then (cb, snd fr) else fr) in *. clearbody fr1. clear fr.
  destruct B as (lo & init & sl & E & F & Hlo & Hsl & Elb & K). rewrite E.
  rewrite removelast_last, last_last.
  destruct (go_forward_ok data lo init sl real stopf (eg_lines g) Hlo ltac:(unfold real; lia) Hsl (S (length data)) real init (sl, real) 0 false)
    as (cf & ls' & bk & E2 & G); try (unfold stopf, real; lia).
  { split; [lia|]. cbn [fst snd]. split; [exact F|]. split; [lia|]. left. auto. }
  rewrite E2. cbn [obind]. clear E2.
  set (bk1 := if snd bk =? 0 then (fst bk, cf - 1) else bk) in *. clearbody bk1. clear bk cf.
  rewrite app_length. cbn [length]. destruct ls' as [|l0 ls'].
  - cbn [length Nat.add Nat.ltb Nat.leb].
    set (left := if eg_range g <? real then real - eg_range g else 0).
    set (right := if Z.of_nat (length data) <? real + eg_range g then Z.of_nat (length data) else real + eg_range g).
    assert (Hle : 0 <= left <= real) by (unfold left; destruct (Z.ltb_spec (eg_range g) real); lia).
    assert (Hri : real <= right <= Z.of_nat (length data)) by
      (unfold right, real; destruct (Z.ltb_spec (Z.of_nat (length data)) (Z.of_nat cur + eg_range g)); lia).
    rewrite piece_ok by lia. cbn [obind]. eexists. split; [reflexivity|].
    exists [part data left right], (Z.to_nat left). cbn [ec_error ec_message ec_lines ec_line ec_char].
    do 4 (split; [reflexivity|]). split.
    + exists [], (part data left right), [], (firstn (Z.to_nat left) data), (skipn (Z.to_nat right) data).
      split; [reflexivity|]. split; [reflexivity|]. split; [cbn; apply data_part; lia|].
      rewrite part_length by lia. cbn [map concat length]. rewrite firstn_length. unfold real in *. lia.
    + left. split; [reflexivity|]. split; [reflexivity|]. lia.
  - replace (Nat.ltb 1 (length (l0 :: ls') + 1)) with true by (cbn [length]; symmetry; apply Nat.ltb_lt; lia).
    destruct G as (A & Bd & C); [discriminate|]. set (ls1 := l0 :: ls') in *.
    assert (Ll : (1 <= length ls1)%nat) by (unfold ls1; cbn; lia). clearbody ls1. clear l0 ls'.
    pose proof (lines_from_le _ _ _ _ A) as Hle.
    destruct (pieces_from data ls1 lo (fst bk1) A Hlo ltac:(lia)) as (ps & Ep & Lp & Cp).
    assert (El : pieces data [bk1] = Ok [part data (fst bk1) (snd bk1)]).
    { destruct bk1 as [s0 e0]. cbn [fst snd] in *. cbn [pieces]. rewrite piece_ok by lia. reflexivity. }
    rewrite pieces_app, Ep. cbn [obind]. rewrite El. cbn [obind].
    eexists. split; [reflexivity|].
    set (new := ps ++ [part data (fst bk1) (snd bk1)]).
    assert (Hj : join_lines new = part data lo (snd bk1)).
    { unfold new. rewrite join_snoc, Cp. symmetry. apply part_app; lia. }
    assert (Hd : data = firstn (Z.to_nat lo) data ++ join_lines new ++ skipn (Z.to_nat (snd bk1)) data).
    { rewrite Hj. apply data_part; lia. }
    assert (Hnew : (1 < length new)%nat) by (unfold new; rewrite app_length; cbn [length]; lia).
    exists new, (Z.to_nat sl). cbn [ec_error ec_message ec_lines ec_line ec_char].
    split; [reflexivity|]. split; [reflexivity|]. split; [reflexivity|]. split; [lia|].
    pose proof (lines_from_le _ _ _ _ F) as Hlo2.
    split.
    + destruct (pieces_from data init lo sl F Hlo ltac:(unfold real in *; lia)) as (ps0 & Ep0 & Lp0 & Cp0).
      destruct C as [(-> & C2 & C3)|(e1 & more & -> & C2)].
      * rewrite Ep in Ep0. injection Ep0 as <-. exists ps, (part data (fst bk1) (snd bk1)), [], (firstn (Z.to_nat lo) data), (skipn (Z.to_nat (snd bk1)) data).
        split; [reflexivity|]. split; [lia|]. split; [exact Hd|]. rewrite Cp0, !part_length, firstn_length by (unfold real in *; lia).
        unfold real in *. lia.
      * rewrite pieces_app, Ep0 in Ep. cbn [obind pieces] in Ep.
        apply lines_from_app in A. destruct A as (m & A1 & A2). cbn in A2. destruct A2 as (-> & A3 & A4 & A5).
        pose proof (nl_at_bound data _ A4).
        rewrite piece_ok in Ep by lia. cbn [obind] in Ep.
        destruct (pieces data more) as [pm| |] eqn:Em; try discriminate. cbn [obind] in Ep. injection Ep as Ep.
        exists ps0, (part data m e1), (pm ++ [part data (fst bk1) (snd bk1)]), (firstn (Z.to_nat lo) data), (skipn (Z.to_nat (snd bk1)) data).
        split; [unfold new; rewrite <- Ep, <- app_assoc; reflexivity|]. split; [lia|]. split; [exact Hd|].
        rewrite Cp0, !part_length, firstn_length by (unfold real in *; lia). unfold real in *. lia.
    + right. destruct K as [(K1 & K2 & _)|(K1 & K2 & K3 & _)].
      * right. subst init. cbn in Elb. auto.
      * left. replace (Z.of_nat (Z.to_nat sl) - 1) with (sl - 1) by lia. split; [exact K2|]. split; [exact Hnew|]. lia.
Qed.
