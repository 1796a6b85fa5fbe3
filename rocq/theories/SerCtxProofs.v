(** Proofs about SerializerContext. *)
From Verif Require Import Base ScanModel TokModel SerModel SerSpec SerProofs SerCtxModel.
From Coq Require Import Lia.

Lemma resize_same s : resize (length s) s = s.
Proof. unfold resize. rewrite firstn_all, Nat.sub_diag. apply app_nil_r. Qed.
Lemma resize_less n s : n <= length s -> resize n s = firstn n s.
Proof. intros H. unfold resize. replace (n - length s) with 0 by lia. apply app_nil_r. Qed.

(** A context with sizes [n], 2n, 4n, ... into which [t] was written.  [closed]: flushed since. *)
Definition ctx_inv (n : nat) (closed : bool) (t : bytes) (c : sctx) : Prop :=
  cx_base c = cx_last c /\ cx_used c <= cx_cap c /\ length t = cx_base c + cx_used c /\ 1 <= n /\
  (cx_base c = 0 /\ cx_cap c = n \/ exists k, cx_base c = n * 2 ^ k /\ cx_cap c = cx_base c) /\
  (if closed then cx_out c = t
   else length (cx_out c) = cx_base c + cx_cap c /\ firstn (cx_base c + cx_used c) (cx_out c) = t).

Lemma inv_make s : ctx_inv (match s with [] => 4096 | _ => length s end) false [] (ctx_make s).
Proof.
  unfold ctx_inv, ctx_make. cbv zeta. cbn [cx_base cx_cap cx_used cx_last cx_out].
  split; [reflexivity|]. split; [lia|]. split; [reflexivity|]. split; [destruct s; cbn [length]; lia|].
  split; [|split; reflexivity]. left. split; [reflexivity|]. destruct s as [|c s]; [|reflexivity].
  unfold resize. rewrite app_length, firstn_nil, repeat_length. reflexivity.
Qed.

(** Between the writes a new buffer is not empty. *)
Definition settled (c : sctx) : Prop := cx_base c = 0 \/ 1 <= cx_used c.

(** A full context can be asked for more, flushed or not. *)
Lemma inv_full n b t c : ctx_inv n b t c -> cx_cap c = cx_used c -> length (cx_out c) = length t.
Proof.
  intros (H1 & H2 & H3 & H4 & H5 & H7) F. destruct b; [rewrite H7; reflexivity|]. destruct H7 as (H7 & _). lia.
Qed.
Lemma inv_full_out n b t c : ctx_inv n b t c -> cx_cap c = cx_used c -> cx_out c = t.
Proof.
  intros (H1 & H2 & H3 & H4 & H5 & H7) F. destruct b; [exact H7|]. destruct H7 as (H7 & <-). rewrite <- F, <- H7, firstn_all. reflexivity.
Qed.
Lemma inv_request n b t c : ctx_inv n b t c -> cx_cap c = cx_used c -> ctx_inv n false t (ctx_request c) /\ 1 <= cx_cap (ctx_request c) /\ cx_used (ctx_request c) = 0.
Proof.
  intros H F. assert (L := inv_full n b t c H F). assert (O := inv_full_out n b t c H F).
  destruct H as (H1 & H2 & H3 & H4 & H5 & H7). unfold ctx_request. cbv zeta. cbn [cx_base cx_cap cx_used cx_last cx_out].
  assert (exists k, length t = n * 2 ^ k) as (k & K).
  { destruct H5 as [(B & C)|(k & B & C)]; [exists 0; rewrite Nat.pow_0_r; lia|exists (S k); rewrite Nat.pow_succ_r'; lia]. }
  assert (P : 1 <= 2 ^ k) by (apply Nat.neq_0_lt_0, Nat.pow_nonzero; lia).
  assert (P2 : 1 <= n * 2 ^ k) by (apply Nat.neq_0_lt_0, Nat.neq_mul_0; lia).
  split; [|split; [lia|reflexivity]]. unfold ctx_inv. cbn [cx_base cx_cap cx_used cx_last cx_out].
  split; [reflexivity|]. split; [lia|]. split; [lia|]. split; [lia|]. split; [right; exists k; lia|].
  rewrite O. unfold resize. split.
  - rewrite app_length, firstn_length, repeat_length. lia.
  - rewrite firstn_all2 with (n := length t * 2) by lia. rewrite Nat.add_0_r, firstn_app, firstn_all, Nat.sub_diag. apply app_nil_r.
Qed.
Lemma inv_append n t c d : ctx_inv n false t c -> length d <= cx_cap c - cx_used c ->
  exists c', ctx_append d c = Ok c' /\ ctx_inv n false (t ++ d) c' /\ cx_base c' = cx_base c /\ cx_cap c' = cx_cap c /\ cx_used c' = cx_used c + length d.
Proof.
  intros (H1 & H2 & H3 & H4 & H5 & H7 & H8) Hd. unfold ctx_append. cbv zeta.
  destruct (Nat.leb_spec (cx_used c + length d) (cx_cap c)); [|lia].
  destruct (Nat.leb_spec (cx_base c + cx_used c + length d) (length (cx_out c))); [|lia]. cbn [andb].
  eexists. split; [reflexivity|]. unfold ctx_inv. cbn [cx_base cx_cap cx_used cx_last cx_out].
  split; [|auto]. split; [exact H1|]. split; [lia|]. split; [rewrite app_length; lia|]. split; [exact H4|]. split; [exact H5|].
  rewrite H8. split; [rewrite !app_length, skipn_length; lia|].
  rewrite app_assoc, firstn_app. rewrite firstn_all2 by (rewrite app_length; lia).
  replace (cx_base c + (cx_used c + length d) - length (t ++ d)) with 0 by (rewrite app_length; lia). apply app_nil_r.
Qed.

Lemma inv_write_loop n : forall f d t c, ctx_inv n false t c ->
  2 * length d <= f + (if Nat.eqb (cx_cap c - cx_used c) 0 then 0 else 1) ->
  exists c', ctx_write_loop f d c = Ok (true, c') /\ ctx_inv n false (t ++ d) c' /\ (d <> [] \/ settled c -> settled c').
Proof.
  induction f as [|f IH]; intros d t c Hi Hf; destruct d as [|x d]; cbn [ctx_write_loop].
  - exists c. rewrite app_nil_r. intuition congruence.
  - exfalso. cbn [length] in Hf. destruct (Nat.eqb _ 0); lia.
  - exists c. rewrite app_nil_r. intuition congruence.
  - set (dd := x :: d) in *. destruct (Nat.eqb_spec (cx_cap c - cx_used c) 0) as [E|E].
    + assert (Fc : cx_cap c = cx_used c) by (destruct Hi as (_ & Hu & _); lia).
      destruct (inv_request n false t c Hi Fc) as (Hi' & R1 & R2). cbv zeta. rewrite R2, Nat.sub_0_r.
      destruct (Nat.eqb_spec (cx_cap (ctx_request c)) 0); [lia|].
      destruct (IH dd t (ctx_request c) Hi') as (c' & E1 & E2 & E3).
      { rewrite R2, Nat.sub_0_r. destruct (Nat.eqb_spec (cx_cap (ctx_request c)) 0); lia. }
      exists c'. split; [exact E1|]. split; [exact E2|]. intros _. apply E3. left. discriminate.
    + cbv zeta. set (m := Nat.min (length dd) (cx_cap c - cx_used c)).
      assert (Hm : 1 <= m <= length dd) by (unfold m, dd; cbn [length]; lia).
      destruct (inv_append n t c (firstn m dd) Hi) as (c1 & A1 & A2 & A3 & A4 & A5); [rewrite firstn_length; unfold m; lia|].
      rewrite A1. cbn [obind]. destruct (IH (skipn m dd) _ c1 A2) as (c' & E1 & E2 & E3).
      { rewrite skipn_length. destruct (Nat.eqb (cx_cap c1 - cx_used c1) 0); lia. }
      exists c'. split; [exact E1|]. rewrite <- app_assoc, firstn_skipn in E2. split; [exact E2|]. intros _. apply E3. right. right.
      rewrite A5, firstn_length. lia.
Qed.
Lemma inv_write n d t c : ctx_inv n false t c -> exists c', ctx_write d c = Ok (true, c') /\ ctx_inv n false (t ++ d) c' /\ (settled c -> settled c').
Proof. intros H. destruct (inv_write_loop n (2 * length d) d t c H) as (c' & A & B & C); [lia|]. exists c'. auto. Qed.
Lemma inv_writes n : forall ds t c, ctx_inv n false t c -> exists c', ctx_writes ds c = Ok c' /\ ctx_inv n false (t ++ concat ds) c' /\ (settled c -> settled c').
Proof.
  induction ds as [|d ds IH]; intros t c H; cbn [ctx_writes concat].
  - exists c. rewrite app_nil_r. auto.
  - destruct (inv_write n d t c H) as (c1 & -> & H1 & S1). cbn [obind]. destruct (IH _ _ H1) as (c2 & E & H2 & S2). exists c2. rewrite app_assoc. auto.
Qed.
Lemma inv_flush n b t c : ctx_inv n b t c -> ctx_inv n true t (ctx_flush c).
Proof.
  intros (H1 & H2 & H3 & H4 & H5 & H7). unfold ctx_flush, ctx_inv. cbn [cx_base cx_cap cx_used cx_last cx_out].
  do 5 (split; [assumption|]). rewrite <- H1, <- H3. destruct b.
  - rewrite H7. apply resize_same.
  - destruct H7 as (H7 & H8). rewrite resize_less by lia. rewrite H3. exact H8.
Qed.

Lemma write_nil c : ctx_write [] c = Ok (true, c).
Proof. reflexivity. Qed.
Lemma writes_nil : forall ds c, concat ds = [] -> ctx_writes ds c = Ok c.
Proof.
  induction ds as [|d ds IH]; intros c H; [reflexivity|]. cbn [concat] in H. apply app_eq_nil in H. destruct H as (-> & H).
  cbn [ctx_writes]. rewrite write_nil. cbn [obind]. apply IH, H.
Qed.

(** Writing after a flush. *)
Lemma closed_write n t c d : ctx_inv n true t c -> d <> [] ->
  if Nat.eqb (cx_cap c) (cx_used c) then exists c', ctx_write d c = Ok (true, c') /\ ctx_inv n false (t ++ d) c' /\ settled c'
  else ctx_write d c = UB.
Proof.
  intros H Hd. destruct d as [|x d]; [congruence|]. set (dd := x :: d) in *. unfold ctx_write.
  assert (Hu : cx_used c <= cx_cap c) by apply H.
  replace (2 * length dd) with (S (S (2 * length d))) by (unfold dd; cbn [length]; lia).
  destruct (Nat.eqb_spec (cx_cap c) (cx_used c)) as [F|F].
  - assert (Q := inv_request n true t c H F). destruct Q as (Hi' & R1 & R2).
    assert (E : ctx_write_loop (S (S (2 * length d))) dd c = ctx_write_loop (S (2 * length d)) dd (ctx_request c)).
    { unfold dd. cbn [ctx_write_loop]. rewrite F, Nat.sub_diag. cbn [Nat.eqb]. cbv zeta. rewrite R2, Nat.sub_0_r.
      destruct (Nat.eqb_spec (cx_cap (ctx_request c)) 0); [lia|reflexivity]. }
    rewrite E. destruct (inv_write_loop n (S (2 * length d)) dd t _ Hi') as (c' & E1 & E2 & E3).
    { rewrite R2, Nat.sub_0_r. unfold dd. cbn [length]. destruct (Nat.eqb_spec (cx_cap (ctx_request c)) 0); lia. }
    exists c'. split; [exact E1|]. split; [exact E2|]. apply E3. left. discriminate.
  - unfold dd at 1. cbn [ctx_write_loop]. fold dd. destruct (Nat.eqb_spec (cx_cap c - cx_used c) 0); [lia|]. cbv zeta.
    set (m := Nat.min (length dd) (cx_cap c - cx_used c)).
    assert (Hm : 1 <= m <= length dd) by (unfold m, dd; cbn [length]; lia).
    destruct H as (H1 & H2 & H3 & H4 & H5 & H7). unfold ctx_append. cbv zeta.
    destruct (Nat.leb_spec (cx_base c + cx_used c + length (firstn m dd)) (length (cx_out c))) as [L|L].
    + rewrite firstn_length, H7 in L. lia.
    + rewrite Bool.andb_false_r. reflexivity.
Qed.
Lemma closed_writes n : forall ds t c, ctx_inv n true t c -> concat ds <> [] ->
  if Nat.eqb (cx_cap c) (cx_used c) then exists c', ctx_writes ds c = Ok c' /\ ctx_inv n false (t ++ concat ds) c' /\ settled c'
  else ctx_writes ds c = UB.
Proof.
  induction ds as [|d ds IH]; intros t c H Hd; [destruct Hd; reflexivity|]. cbn [ctx_writes concat] in *.
  destruct d as [|x d].
  - rewrite write_nil. cbn [obind]. cbn [app] in *. apply IH; assumption.
  - assert (K := closed_write n t c (x :: d) H ltac:(discriminate)). destruct (Nat.eqb (cx_cap c) (cx_used c)).
    + destruct K as (c1 & -> & H1 & S1). cbn [obind]. destruct (inv_writes n ds _ c1 H1) as (c2 & E & H2 & S2). exists c2. rewrite app_assoc. auto.
    + rewrite K. reflexivity.
Qed.

(** The buffer is full exactly if the length is n, 2n, 4n, ... *)
Lemma full_iff n b t c : ctx_inv n b t c -> settled c -> (cx_cap c = cx_used c <-> exists k, length t = n * 2 ^ k).
Proof.
  intros (H1 & H2 & H3 & H4 & H5 & H7) St. split.
  - intros F. destruct H5 as [(B & C)|(k & B & C)]; [exists 0; rewrite Nat.pow_0_r; lia|exists (S k); rewrite Nat.pow_succ_r'; lia].
  - intros (j & E). destruct H5 as [(B & C)|(k & B & C)].
    + assert (P : 1 <= 2 ^ j) by (apply Nat.neq_0_lt_0, Nat.pow_nonzero; lia).
      assert (n * 1 <= n * 2 ^ j) by (apply Nat.mul_le_mono_l; exact P). lia.
    + assert (P : 1 <= 2 ^ k) by (apply Nat.neq_0_lt_0, Nat.pow_nonzero; lia).
      assert (P2 : 1 <= n * 2 ^ k) by (apply Nat.neq_0_lt_0, Nat.neq_mul_0; lia).
      destruct St as [St|St]; [lia|]. destruct (Nat.le_gt_cases j k) as [L|L].
      * assert (n * 2 ^ j <= n * 2 ^ k) by (apply Nat.mul_le_mono_l, Nat.pow_le_mono_r; lia). lia.
      * assert (n * 2 ^ S k <= n * 2 ^ j) by (apply Nat.mul_le_mono_l, Nat.pow_le_mono_r; lia).
        rewrite Nat.pow_succ_r' in *. lia.
Qed.

(** One more call on a flushed context. *)
Lemma closed_serialize n ds t c : ctx_inv n true t c -> settled c ->
  (concat ds = [] \/ (exists k, length t = n * 2 ^ k) -> exists c', ctx_serialize ds c = Ok c' /\ ctx_inv n true (t ++ concat ds) c' /\ settled c') /\
  (concat ds <> [] -> ~ (exists k, length t = n * 2 ^ k) -> ctx_serialize ds c = UB).
Proof.
  intros H St. assert (F := full_iff n true t c H St). unfold ctx_serialize.
  assert (E : concat ds = [] \/ concat ds <> []) by (destruct (concat ds); [left; reflexivity|right; discriminate]).
  destruct E as [E|E].
  - rewrite (writes_nil ds c E). cbn [obind]. split; [|intros X; congruence]. intros _. exists (ctx_flush c).
    rewrite E, app_nil_r. split; [reflexivity|]. split; [exact (inv_flush n true t c H)|exact St].
  - assert (K := closed_writes n ds t c H E). destruct (Nat.eqb_spec (cx_cap c) (cx_used c)) as [Q|Q].
    + destruct K as (c1 & -> & H1 & S1). cbn [obind]. split; [|intros _ X; exfalso; apply X, F, Q]. intros _. exists (ctx_flush c1).
      split; [reflexivity|]. split; [exact (inv_flush n false _ c1 H1)|exact S1].
    + rewrite K. split; [|reflexivity]. intros [X|X]; [congruence|]. exfalso. apply Q, F, X.
Qed.

(** ** The Serializer of SerModel writes this way *)
Definition cx_of (n : nat) (s : ser) (c : sctx) : Prop :=
  inb s /\ ctx_inv n false (ser_output s) c /\ se_size s = cx_cap c /\ length (se_buf s) = cx_used c /\
  se_supply s = reformat_supply n /\ n * 2 ^ se_calls s = cx_base c + cx_cap c.

Lemma cx_make n so s : n = (match s with [] => 4096 | _ => length s end) -> cx_of n (ser_make so n (reformat_supply n)) (ctx_make s).
Proof.
  intros ->. assert (I := inv_make s). set (n := match s with [] => 4096 | _ => length s end) in *. unfold cx_of, ser_make. cbn [se_size se_buf se_supply se_calls].
  assert (C : cx_cap (ctx_make s) = n).
  { unfold n, ctx_make. cbn [cx_cap]. destruct s as [|x s]; [|reflexivity]. unfold resize. rewrite app_length, firstn_nil, repeat_length. reflexivity. }
  split; [split; cbn; [lia|constructor]|]. split; [exact I|]. split; [symmetry; exact C|]. split; [reflexivity|]. split; [reflexivity|].
  rewrite Nat.pow_0_r, C. cbn [ctx_make cx_base]. lia.
Qed.
Lemma cx_mark n s c : cx_of n s c -> ser_free s = 0 -> cx_of n (markFull s) (ctx_request c) /\ ser_free (markFull s) <> 0.
Proof.
  intros (B & I & Z1 & Z2 & Z3 & Z4) F. unfold ser_free in F.
  assert (Fc : cx_cap c = cx_used c) by (destruct I as (_ & Hu & _); lia).
  destruct (inv_request n false _ c I Fc) as (I' & R1 & R2). assert (L := inv_full n false _ c I Fc).
  assert (Lb : length (cx_out c) = cx_base c + cx_cap c) by apply I.
  assert (Sz : se_size (markFull s) = cx_cap (ctx_request c)).
  { unfold markFull, ctx_request. cbn [se_size cx_cap]. rewrite Z3. unfold reformat_supply. lia. }
  split; [|unfold ser_free; rewrite Sz; cbn [markFull se_buf length]; lia].
  split; [apply inb_mark, B|]. split; [rewrite output_mark; exact I'|]. split; [exact Sz|]. split; [cbn [markFull se_buf]; rewrite R2; reflexivity|].
  split; [exact Z3|]. unfold markFull, ctx_request. cbn [se_calls cx_base cx_cap]. rewrite Nat.pow_succ_r'. lia.
Qed.
Lemma cx_append n s c d s' : cx_of n s c -> length d <= ser_free s -> append d s = Ok s' -> exists c', ctx_append d c = Ok c' /\ cx_of n s' c'.
Proof.
  intros (B & I & Z1 & Z2 & Z3 & Z4) L E. destruct (append_spec d s B L) as (s1 & E1 & B1 & _ & _ & O1 & _). rewrite E in E1. injection E1 as <-.
  destruct (inv_append n _ c d I) as (c' & A1 & A2 & A3 & A4 & A5); [unfold ser_free in L; lia|]. exists c'. split; [exact A1|].
  unfold append in E. destruct (Nat.leb _ _); [|discriminate E]. injection E as <-. cbn [se_size se_buf se_supply se_calls].
  split; [exact B1|]. split; [rewrite O1; exact A2|]. cbn [se_size se_buf se_supply se_calls]. rewrite A3, A4, A5, app_length. repeat split; auto.
Qed.
Lemma cx_write_loop n : forall f d s c b s', cx_of n s c -> write_loop f d s = Ok (b, s') ->
  exists c', ctx_write_loop f d c = Ok (b, c') /\ cx_of n s' c'.
Proof.
  induction f as [|f IH]; intros d s c b s' H; destruct d as [|x d]; cbn [write_loop ctx_write_loop]; try (intros [= <- <-]; eauto; fail).
  assert (Fr : cx_cap c - cx_used c = ser_free s) by (destruct H as (_ & _ & Z1 & Z2 & _); unfold ser_free; lia).
  rewrite Fr. destruct (Nat.eqb_spec (ser_free s) 0) as [F|F].
  - destruct (cx_mark n s c H F) as (H' & N). cbv zeta.
    assert (Fr' : cx_cap (ctx_request c) - cx_used (ctx_request c) = ser_free (markFull s)) by (destruct H' as (_ & _ & Z1 & Z2 & _); unfold ser_free; lia).
    rewrite Fr'. destruct (Nat.eqb_spec (ser_free (markFull s)) 0); [contradiction|]. apply IH, H'.
  - cbv zeta. destruct (append _ s) as [s1| |] eqn:A; cbn [obind]; [|discriminate|discriminate]. intros E.
    assert (L : length (firstn (Nat.min (length (x :: d)) (ser_free s)) (x :: d)) <= ser_free s) by (rewrite firstn_length; lia).
    destruct (cx_append n s c _ s1 H L A) as (c1 & A1 & H1). rewrite A1. cbn [obind]. exact (IH _ _ _ _ _ H1 E).
Qed.

(** Programs of the Serializer: what they do is done by some writes. *)
Definition mirrors (m : ser -> outcome (bool * ser)) : Prop := forall n s c b s', cx_of n s c -> m s = Ok (b, s') ->
  exists ds c', ctx_writes ds c = Ok c' /\ cx_of n s' c'.
Lemma ctx_writes_app : forall a b c, ctx_writes (a ++ b) c = let* c := ctx_writes a c in ctx_writes b c.
Proof.
  induction a as [|d a IH]; intros b c; [reflexivity|]. cbn [app ctx_writes]. destruct (ctx_write d c) as [[x c1]| |]; cbn [obind]; [apply IH|reflexivity..].
Qed.
Lemma mirrors_data d : mirrors (write_data d).
Proof.
  intros n s c b s' H E. destruct (cx_write_loop n _ d s c b s' H E) as (c' & E' & H'). exists [d], c'. cbn [ctx_writes]. unfold ctx_write. rewrite E'. auto.
Qed.
Lemma mirrors_lit d : mirrors (write_lit d).
Proof.
  intros n s c b s' H. unfold write_lit. destruct (Nat.ltb_spec (ser_free s) (length d)) as [L|L]; [apply mirrors_data, H|].
  destruct (append d s) as [s1| |] eqn:A; cbn [obind]; [|discriminate..]. intros [= <- <-].
  destruct (cx_append n s c d s1 H L A) as (c1 & A1 & H1). destruct d as [|x d].
  - exists [], c1. split; [|exact H1]. unfold ctx_append in A1. cbn [length] in A1. rewrite !Nat.add_0_r in A1. destruct (_ && _); [|discriminate A1].
    injection A1 as <-. cbn [app]. rewrite firstn_skipn. destruct c; reflexivity.
  - exists [x :: d], c1. split; [|exact H1]. cbn [ctx_writes]. unfold ctx_write.
    replace (2 * length (x :: d)) with (S (S (2 * length d))) by (cbn [length]; lia).
    assert (Fr : cx_cap c - cx_used c = ser_free s) by (destruct H as (_ & _ & Z1 & Z2 & _); unfold ser_free; lia).
    cbn [ctx_write_loop]. rewrite Fr. destruct (Nat.eqb_spec (ser_free s) 0); [cbn [length] in L; lia|]. cbv zeta.
    rewrite Nat.min_l by exact L. rewrite firstn_all, A1, skipn_all. reflexivity.
Qed.
Lemma mirrors_same f : (forall n s c, cx_of n s c -> cx_of n (f s) c) -> forall b, mirrors (fun s => Ok (b, f s)).
Proof. intros Hf b n s c b' s' H [= <- <-]. exists [], c. split; [reflexivity|apply Hf, H]. Qed.
Lemma mirrors_and m1 m2 : mirrors m1 -> mirrors m2 -> mirrors (and_then m1 m2).
Proof.
  intros M1 M2 n s c b s' H. unfold and_then. destruct (m1 s) as [[b1 s1]| |] eqn:E1; cbn [obind]; [|discriminate..].
  destruct (M1 n s c b1 s1 H E1) as (ds1 & c1 & W1 & H1). destruct b1.
  - intros E2. destruct (M2 n s1 c1 b s' H1 E2) as (ds2 & c2 & W2 & H2). exists (ds1 ++ ds2), c2. rewrite ctx_writes_app, W1. auto.
  - intros [= <- <-]. eauto.
Qed.
Lemma mirrors_by (m : ser -> ser -> outcome (bool * ser)) : (forall s0, mirrors (m s0)) -> mirrors (fun s => m s s).
Proof. intros M n s c b s' H E. exact (M s n s c b s' H E). Qed.
Lemma mirrors_done : mirrors done_true.
Proof. apply (mirrors_same (fun s => s)). auto. Qed.
Lemma mirrors_when x m : mirrors m -> mirrors (when x m).
Proof. destruct x; [auto|intros _; apply mirrors_done]. Qed.
Lemma mirrors_value t d : mirrors (write_value t d).
Proof.
  assert (S : mirrors (writeAsString d)) by (apply mirrors_and; [apply mirrors_lit|apply mirrors_and; [apply mirrors_data|apply mirrors_lit]]).
  unfold write_value. destruct t; try apply mirrors_data; try exact S.
  apply (mirrors_by (fun s0 s => if so_ascii (se_opt s0) then writeAsString d s else write_data d s)). intros s0. destruct (so_ascii _); [exact S|apply mirrors_data].
Qed.
Lemma mirrors_name tk : mirrors (write_name tk).
Proof.
  apply mirrors_when, mirrors_and; [apply mirrors_value|].
  apply (mirrors_by (fun s0 => write_lit (if so_pretty (se_opt s0) then [x3a; x20] else [x3a]))). intros s0. apply mirrors_lit.
Qed.
Lemma mirrors_generic e : mirrors (front_generic e).
Proof.
  unfold front_generic.
  apply (mirrors_by (fun s0 => and_then (when (negb (se_start s0) && negb e && nonempty (so_delim (se_opt s0))) (write_lit [x2c])) _)).
  intros s0. apply mirrors_and; [apply mirrors_when, mirrors_lit|]. apply mirrors_and.
  - apply (mirrors_by (fun s0 s => if se_first s0 then Ok (true, set_first false s) else when (nonempty (so_postfix (se_opt s0))) (write_data (so_postfix (se_opt s0))) s)).
    intros s1. destruct (se_first s1); [|apply mirrors_when, mirrors_data]. apply (mirrors_same (set_first false)). intros n s c H. exact H.
  - apply (mirrors_by (fun s0 => when (nonempty (so_prefix (se_opt s0))) (write_data (so_prefix (se_opt s0))))). intros s1. apply mirrors_when, mirrors_data.
Qed.
Lemma mirrors_shortcut e : mirrors (front_shortcut e).
Proof.
  unfold front_shortcut.
  apply (mirrors_by (fun s0 s => if ((so_shift (se_opt s0) =? 2)%N && negb (se_first s0)) then
    match prepared (negb (se_start s0) && negb e && negb (Nat.eqb (length (so_delim (se_opt s0))) 0)) (so_depth (se_opt s0)) with
    | Some l => write_lit l s | None => Ok (false, s) end else Ok (false, s))).
  intros s0. destruct (_ && _); [|apply (mirrors_same (fun s => s)); auto].
  destruct (prepared _ _); [apply mirrors_lit|apply (mirrors_same (fun s => s)); auto].
Qed.
Lemma mirrors_token tk : mirrors (ser_write tk).
Proof.
  intros n s c b s' H. unfold ser_write. cbv zeta. destruct (is_end (tk_value_type tk) && (so_depth (se_opt s) =? 0)%N).
  { intros [= <- <-]. exists [], c. auto. }
  assert (H0 : cx_of n (if is_end (tk_value_type tk) then set_opt (setDepth (so_depth (se_opt s) - 1) (se_opt s)) s else s) c) by (destruct (is_end _); exact H).
  revert H0. generalize (if is_end (tk_value_type tk) then set_opt (setDepth (so_depth (se_opt s) - 1) (se_opt s)) s else s). clear s H. intros s H.
  destruct (front_shortcut _ s) as [[sc s1]| |] eqn:E1; cbn [obind]; [|discriminate..].
  destruct (mirrors_shortcut _ n s c sc s1 H E1) as (ds1 & c1 & W1 & H1). intros E2.
  assert (M : mirrors (and_then (fun s => if sc then Ok (true, s) else front_generic (is_end (tk_value_type tk)) s)
    (and_then (write_name tk) (and_then (write_value (tk_value_type tk) (dr_bytes (tk_value tk)))
      (fun s => Ok (true, if is_start (tk_value_type tk) then set_opt (setDepth (so_depth (se_opt (set_start (is_start (tk_value_type tk)) s)) + 1) (se_opt (set_start (is_start (tk_value_type tk)) s))) (set_start (is_start (tk_value_type tk)) s)
                          else set_start (is_start (tk_value_type tk)) s)))))).
  { apply mirrors_and; [destruct sc; [apply (mirrors_same (fun s => s)); auto|apply mirrors_generic]|].
    apply mirrors_and; [apply mirrors_name|]. apply mirrors_and; [apply mirrors_value|].
    apply (mirrors_same (fun s => if is_start (tk_value_type tk) then set_opt _ (set_start _ s) else set_start _ s)).
    intros n0 s0 c0 H0. destruct (is_start _); exact H0. }
  destruct (M n s1 c1 b s' H1 E2) as (ds2 & c2 & W2 & H2). exists (ds1 ++ ds2), c2. rewrite ctx_writes_app, W1. auto.
Qed.
Lemma mirrors_tokens : forall tks n s c bs s', cx_of n s c -> ser_writes tks s = Ok (bs, s') ->
  exists ds c', ctx_writes ds c = Ok c' /\ cx_of n s' c'.
Proof.
  induction tks as [|tk tks IH]; intros n s c bs s' H; cbn [ser_writes].
  - intros [= <- <-]. exists [], c. auto.
  - destruct (ser_write tk s) as [[b s1]| |] eqn:E1; cbn [obind]; [|discriminate..].
    destruct (ser_writes tks s1) as [[bs2 s2]| |] eqn:E2; cbn [obind]; [|discriminate..]. intros [= <- <-].
    destruct (mirrors_token tk n s c b s1 H E1) as (ds1 & c1 & W1 & H1). destruct (IH n s1 c1 bs2 s2 H1 E2) as (ds2 & c2 & W2 & H2).
    exists (ds1 ++ ds2), c2. rewrite ctx_writes_app, W1. auto.
Qed.
