(** Proofs for C71. *)
From Verif Require Import Tactics Base JsonSpec StrSpec ScanModel EscapeModel EscapeProofs UtfSpec.
From Coq Require Import Lia.

(** ** UTF-8 *)

Definition flen (n : N) : nat := if (n <? 0x80)%N then 1 else if (n <? 0xe0)%N then 2 else if (n <? 0xf0)%N then 3 else 4.
Definition cont (b : byte) : Prop := (0x80 <= byte_val b < 0xc0)%N.

Lemma utf8_shape cp : (cp < 0x110000)%N ->
  exists h tl, utf8 cp = h :: tl /\ S (length tl) = flen (byte_val h) /\
    ((cp < 0x80)%N /\ byte_val h = cp /\ tl = [] \/ (0x80 <= cp)%N /\ (0xc0 <= byte_val h)%N /\ Forall cont tl).
Proof.
  intros H. unfold utf8.
  assert (M : forall x, (x mod 64 < 64)%N) by (intros; apply N.mod_lt; discriminate).
  assert (V : forall x, cont (octet (0x80 + x mod 64))).
  { intros x. specialize (M x). unfold cont. rewrite octet_val by lia. lia. }
  destruct (N.ltb_spec cp 0x80) as [H1|H1].
  { do 2 eexists. split; [reflexivity|]. rewrite octet_val by lia. unfold flen. destruct (N.ltb_spec cp 0x80); [|lia]. auto. }
  destruct (N.ltb_spec cp 0x800) as [H2|H2].
  { assert (Q : (cp / 64 < 32)%N) by (apply N.div_lt_upper_bound; lia). do 2 eexists. split; [reflexivity|].
    rewrite octet_val by lia. unfold flen. destruct (N.ltb_spec (0xc0 + cp / 64) 0x80); [lia|]. destruct (N.ltb_spec (0xc0 + cp / 64) 0xe0); [|lia].
    split; [reflexivity|]. right. repeat (split; [lia|]). auto. }
  destruct (N.ltb_spec cp 0x10000) as [H3|H3].
  { assert (Q : (cp / 4096 < 16)%N) by (apply N.div_lt_upper_bound; lia). do 2 eexists. split; [reflexivity|].
    rewrite octet_val by lia. unfold flen. destruct (N.ltb_spec (0xe0 + cp / 4096) 0x80); [lia|]. destruct (N.ltb_spec (0xe0 + cp / 4096) 0xe0); [lia|].
    destruct (N.ltb_spec (0xe0 + cp / 4096) 0xf0); [|lia]. split; [reflexivity|]. right. repeat (split; [lia|]). auto. }
  { assert (Q : (cp / 262144 < 8)%N) by (apply N.div_lt_upper_bound; lia). do 2 eexists. split; [reflexivity|].
    rewrite octet_val by lia. unfold flen. destruct (N.ltb_spec (0xf0 + cp / 262144) 0x80); [lia|]. destruct (N.ltb_spec (0xf0 + cp / 262144) 0xe0); [lia|].
    destruct (N.ltb_spec (0xf0 + cp / 262144) 0xf0); [lia|]. split; [reflexivity|]. right. repeat (split; [lia|]). auto. }
Qed.

Lemma app_inj_len {A} (a : list A) : forall b x y, a ++ x = b ++ y -> length a = length b -> a = b /\ x = y.
Proof.
  induction a as [|h a IH]; intros [|h' b] x y E L; try discriminate L; [auto|]. cbn in E, L. injection E as -> E. injection L as L.
  destruct (IH _ _ _ E L) as [-> ->]. auto.
Qed.
Lemma utf8_prefix a b x y : (a < 0x110000)%N -> (b < 0x110000)%N -> utf8 a ++ x = utf8 b ++ y -> a = b /\ x = y.
Proof.
  intros Ha Hb E. destruct (utf8_shape a Ha) as (h & tl & Ea & La & _). destruct (utf8_shape b Hb) as (h' & tl' & Eb & Lb & _).
  assert (Eh : h = h') by (rewrite Ea, Eb in E; cbn in E; congruence). subst h'.
  assert (L : length (utf8 a) = length (utf8 b)) by (rewrite Ea, Eb; cbn [length]; congruence).
  apply app_inj_len in E; [|exact L]. destruct E as [E ->]. split; [|reflexivity].
  assert (R := utf8_reads a Ha). rewrite E, (utf8_reads b Hb) in R. congruence.
Qed.
Lemma scalar_small cp : unicode_scalar cp -> (cp < 0x110000)%N.
Proof. unfold unicode_scalar. lia. Qed.

Lemma text_nil : utf8_text [].
Proof. exists []. split; [constructor|reflexivity]. Qed.
Lemma text_cons cp l : unicode_scalar cp -> (utf8_text (utf8 cp ++ l) <-> utf8_text l).
Proof.
  intros Hc. split.
  - intros (cps & F & E). destruct F as [|cp' cps Hc' F].
    + exfalso. destruct (utf8_shape cp (scalar_small _ Hc)) as (h & tl & Eu & _). rewrite Eu in E. discriminate E.
    + cbn [flat_map] in E. apply utf8_prefix in E; [|apply scalar_small; assumption..]. destruct E as [_ ->]. exists cps. auto.
  - intros (cps & F & ->). exists (cp :: cps). split; [constructor; assumption|reflexivity].
Qed.
Lemma text_lone n l : (0xD800 <= n <= 0xDFFF)%N -> ~ utf8_text (utf8 n ++ l).
Proof.
  intros Hn (cps & F & E). destruct F as [|cp cps Hc F].
  - destruct (utf8_shape n ltac:(lia)) as (h & tl & Eu & _). rewrite Eu in E. discriminate E.
  - cbn [flat_map] in E. apply utf8_prefix in E; [|lia|apply scalar_small, Hc]. destruct E as [<- _]. unfold unicode_scalar in Hc. lia.
Qed.
Lemma ascii_utf8 c : (byte_val c < 0x80)%N -> utf8 (byte_val c) = [c] /\ unicode_scalar (byte_val c).
Proof. intros H. split; [|unfold unicode_scalar; lia]. destruct c; try reflexivity; exfalso; cbv in H; discriminate H. Qed.
Lemma text_ascii c l : (byte_val c < 0x80)%N -> (utf8_text (c :: l) <-> utf8_text l).
Proof. intros H. destruct (ascii_utf8 c H) as [E S]. rewrite <- (text_cons _ l S), E. reflexivity. Qed.
Lemma text_asciis w l : Forall (fun c => (byte_val c < 0x80)%N) w -> (utf8_text (w ++ l) <-> utf8_text l).
Proof. induction 1 as [|c w Hc _ IH]; [reflexivity|]. cbn [app]. rewrite text_ascii by exact Hc. exact IH. Qed.
(** A character outside of ASCII. *)
Lemma text_wide c l : (0x80 <= byte_val c)%N ->
  (utf8_text (c :: l) <-> exists cp tl r, unicode_scalar cp /\ utf8 cp = c :: tl /\ Forall cont tl /\ l = tl ++ r /\ utf8_text r).
Proof.
  intros Hc. split.
  - intros (cps & F & E). destruct F as [|cp cps Hs F]; [discriminate E|]. cbn [flat_map] in E.
    destruct (utf8_shape cp (scalar_small _ Hs)) as (h & tl & Eu & _ & K). rewrite Eu in E. cbn [app] in E. injection E as <- ->.
    destruct K as [(K1 & K2 & _)|(_ & _ & K)]; [lia|]. exists cp, tl, (flat_map utf8 cps). repeat (split; [assumption||reflexivity|]). exists cps. auto.
  - intros (cp & tl & r & Hs & Eu & _ & -> & Hr). change (c :: tl ++ r) with ((c :: tl) ++ r). rewrite <- Eu. apply text_cons; assumption.
Qed.

(** Cutting a text at an ASCII character. *)
Lemma app_at {A} (a b : list A) : forall x y, a ++ b = x ++ y ->
  (exists m, x = a ++ m /\ b = m ++ y) \/ (exists m, a = x ++ m /\ m <> [] /\ y = m ++ b).
Proof.
  induction a as [|h a IH]; intros x y E; [left; exists x; auto|].
  destruct x as [|h' x]; [right; exists (h :: a); repeat split; [discriminate|]; symmetry; exact E|].
  cbn in E. injection E as -> E. destruct (IH _ _ E) as [(m & -> & ->)|(m & -> & Hm & ->)]; [left|right]; exists m; auto.
Qed.
Lemma text_app a b : utf8_text a -> (utf8_text (a ++ b) <-> utf8_text b).
Proof.
  intros (cps & F & ->). induction F as [|cp cps Hc F IH]; [reflexivity|]. cbn [flat_map]. rewrite <- app_assoc, text_cons by exact Hc. exact IH.
Qed.
Lemma text_cut a c b : (byte_val c < 0x80)%N -> (utf8_text (a ++ c :: b) <-> utf8_text a /\ utf8_text b).
Proof.
  intros Hc. split.
  - intros (cps & F & E). revert a E. induction F as [|cp cps Hs F IH]; intros a E; [destruct a; discriminate E|]. cbn [flat_map] in E.
    destruct (app_at _ _ _ _ E) as [(m & Em & E2)|(m & -> & Hm & E2)].
    + destruct m as [|h m].
      * rewrite app_nil_r in Em. cbn in E2. destruct (IH [] (E2 : [] ++ c :: b = _)) as [_ Hb]. split; [|exact Hb].
        rewrite <- Em. rewrite <- (app_nil_r (utf8 cp)). apply text_cons; [exact Hs|apply text_nil].
      * cbn in E2. injection E2 as <- ->. destruct (utf8_shape cp (scalar_small _ Hs)) as (h & tl & Eu & _ & K). rewrite Eu in Em.
        destruct a as [|h' a].
        -- cbn in Em. injection Em as <- ->. destruct K as [(_ & _ & ->)|(_ & K & _)]; [|lia]. split; [apply text_nil|]. cbn. exists cps. auto.
        -- cbn in Em. injection Em as <- ->. exfalso. destruct K as [(_ & _ & K)|(_ & _ & K)]; [destruct a; discriminate K|].
           rewrite Forall_app in K. destruct K as [_ K]. inversion K as [|? ? K2 _]; subst. unfold cont in K2. lia.
    + symmetry in E2. destruct (IH _ E2) as [Hx Hb]. split; [|exact Hb]. rewrite text_cons; assumption.
  - intros [Ha Hb]. rewrite (text_app _ _ Ha), text_ascii by exact Hc. exact Hb.
Qed.

(** ** Pieces *)

Lemma hex_digit_hex c n : hex_digit c = Some n -> is_hex c.
Proof.
  unfold hex_digit, is_hex, is_digit, in_range. destruct ((48 <=? byte_val c) && (byte_val c <=? 57))%N eqn:E1;
    [intros _; left; apply andb_prop in E1; destruct E1 as [A B]; apply N.leb_le in A, B; lia|].
  destruct ((65 <=? byte_val c) && (byte_val c <=? 70))%N eqn:E2;
    [intros _; right; left; apply andb_prop in E2; destruct E2 as [A B]; apply N.leb_le in A, B; lia|].
  destruct ((97 <=? byte_val c) && (byte_val c <=? 102))%N eqn:E3; [intros _; right; right; apply andb_prop in E3; destruct E3 as [A B]; apply N.leb_le in A, B; lia|discriminate].
Qed.
Lemma hex4_some l n : hex4 l = Some n -> exists r, four_hex l n r.
Proof.
  destruct l as [|a [|b [|c [|d r]]]]; try discriminate. intros E.
  assert (H : is_hex a /\ is_hex b /\ is_hex c /\ is_hex d).
  { cbn [hex4] in E. destruct (hex_digit a) eqn:Ea; [|discriminate E]. destruct (hex_digit b) eqn:Eb; [|discriminate E].
    destruct (hex_digit c) eqn:Ec; [|discriminate E]. destruct (hex_digit d) eqn:Ed; [|discriminate E].
    apply hex_digit_hex in Ea, Eb, Ec, Ed. auto. }
  exists r, a, b, c, d. split; [reflexivity|]. split; [exact H|]. destruct H as (Ha & Hb & Hc & Hd).
  destruct (hex4_number a b c d r Ha Hb Hc Hd) as [E2 _]. congruence.
Qed.
Lemma four_hex4 l n r : four_hex l n r -> hex4 l = Some n /\ (n < 0x10000)%N /\ skipn 4 l = r /\ length l = 4 + length r.
Proof.
  intros (a & b & c & d & -> & (Ha & Hb & Hc & Hd) & ->). destruct (hex4_number a b c d r Ha Hb Hc Hd) as [E2 L]. cbn [skipn length]. auto.
Qed.
Lemma four_hex_fun l n r n' r' : four_hex l n r -> four_hex l n' r' -> n = n' /\ r = r'.
Proof.
  intros H H'. destruct (four_hex4 _ _ _ H) as (A & _ & B & _). destruct (four_hex4 _ _ _ H') as (A' & _ & B' & _). split; congruence.
Qed.
Lemma hex4_none l : hex4 l = None -> forall n r, ~ four_hex l n r.
Proof. intros E n r H. destruct (four_hex4 _ _ _ H) as [A _]. congruence. Qed.

(** Whether a low surrogate follows. *)
Lemma low_dec l : (exists lo r, low_follows l lo r) \/ (forall lo r, ~ low_follows l lo r).
Proof.
  destruct l as [|x [|y l2]]; try (right; intros lo r (l3 & E & _); discriminate E).
  destruct (byte_eq_dec x backslash) as [->|Hx]; [|right; intros lo r (l3 & E & _); injection E as -> _ _; congruence].
  destruct (byte_eq_dec y x75) as [->|Hy]; [|right; intros lo r (l3 & E & _); injection E as -> _; congruence].
  destruct (hex4 l2) as [n|] eqn:En.
  - destruct (hex4_some _ _ En) as (r & Hr). destruct (N.le_gt_cases 0xDC00 n) as [H1|H1]; [destruct (N.le_gt_cases n 0xDFFF) as [H2|H2]|].
    + left. exists n, r, l2. auto.
    + right. intros lo r' (l3 & E & F & B). injection E as <-. destruct (four_hex_fun _ _ _ _ _ F Hr) as [-> _]. lia.
    + right. intros lo r' (l3 & E & F & B). injection E as <-. destruct (four_hex_fun _ _ _ _ _ F Hr) as [-> _]. lia.
  - right. intros lo r' (l3 & E & F & _). injection E as <-. exact (hex4_none _ En _ _ F).
Qed.
Lemma low_fun l lo r lo' r' : low_follows l lo r -> low_follows l lo' r' -> lo = lo' /\ r = r'.
Proof. intros (l2 & -> & F & _) (l3 & E & F' & _). injection E as <-. exact (four_hex_fun _ _ _ _ _ F F'). Qed.
Lemma low_length l lo r : low_follows l lo r -> length l = 6 + length r.
Proof. intros (l2 & -> & F & _). destruct (four_hex4 _ _ _ F) as (_ & _ & _ & L). cbn [length]. lia. Qed.

Lemma simple_dec c : (exists v, In (c, v) simple_escapes) \/ (forall v, ~ In (c, v) simple_escapes).
Proof.
  destruct (in_dec byte_eq_dec c (map fst simple_escapes)) as [H|H].
  - left. apply in_map_iff in H. destruct H as ([c' v] & <- & H). exists v. exact H.
  - right. intros v Hv. apply H. apply (in_map fst) in Hv. exact Hv.
Qed.
Lemma simple_fun c v v' : In (c, v) simple_escapes -> In (c, v') simple_escapes -> v = v'.
Proof.
  unfold simple_escapes. cbn. intros H H'. repeat (destruct H as [H|H]; [injection H as <- <-; repeat (destruct H' as [H'|H']; [try discriminate H'; injection H' as <-; reflexivity|]); destruct H'|]). destruct H.
Qed.
Lemma simple_not_u v : ~ In (x75, v) simple_escapes.
Proof. cbn. intuition discriminate. Qed.

Lemma pieces_exist : forall n l, length l < n -> exists ps, pieces l ps.
Proof.
  induction n as [|n IH]; intros l Hl; [lia|]. destruct l as [|c l]; [exists []; constructor|]. cbn [length] in Hl.
  destruct (byte_eq_dec c backslash) as [->|Hc].
  2:{ destruct (IH l ltac:(lia)) as (ps & H). exists (PRaw c :: ps). constructor; assumption. }
  destruct l as [|c l]; [exists [PCut]; constructor|]. cbn [length] in Hl.
  destruct (simple_dec c) as [(v & Hv)|Hs].
  { destruct (IH l ltac:(lia)) as (ps & H). exists (PSimple v :: ps). econstructor; eassumption. }
  destruct (byte_eq_dec c x75) as [->|Hu].
  2:{ destruct (IH l ltac:(lia)) as (ps & H). exists (POther c :: ps). constructor; [exact Hs|congruence|exact H]. }
  destruct (hex4 l) as [m|] eqn:Em.
  2:{ destruct (IH l ltac:(lia)) as (ps & H). exists (POther x75 :: ps). constructor; [exact Hs|intros _; exact (hex4_none _ Em)|exact H]. }
  destruct (hex4_some _ _ Em) as (r & Hr). destruct (four_hex4 _ _ _ Hr) as (_ & _ & _ & Lr).
  assert (D : high m \/ ~ high m) by (unfold high; lia). destruct D as [D|D].
  - destruct (low_dec r) as [(lo & r2 & H2)|H2].
    + assert (L2 := low_length _ _ _ H2). destruct (IH r2 ltac:(lia)) as (ps & H). exists (PPair m lo :: ps). eapply Pc_pair; eassumption.
    + destruct (IH r ltac:(lia)) as (ps & H). exists (PUni m :: ps). eapply Pc_uni; [exact Hr| |exact H]. intros (_ & lo & r2 & H3). exact (H2 _ _ H3).
  - destruct (IH r ltac:(lia)) as (ps & H). exists (PUni m :: ps). eapply Pc_uni; [exact Hr| |exact H]. intros (H3 & _). exact (D H3).
Qed.

Lemma pieces_unique l ps : pieces l ps -> forall ps', pieces l ps' -> ps' = ps.
Proof.
  induction 1 as [| |c l ps Hc _ IH|c v l ps Hv _ IH|c l ps Hs Hu _ IH|l n r ps Hf Hn _ IH|l hi r lo r2 ps Hf Hh Hl _ IH]; intros ps' H'; inversion H'; subst; try congruence; try (f_equal; auto; fail).
  all: try match goal with K : pieces [] _ |- _ => inversion K; subst; reflexivity end.
  - f_equal; [f_equal; eapply simple_fun; eassumption|auto].
  - exfalso. match goal with K : forall v, ~ In (c, v) _ |- _ => exact (K _ Hv) end.
  - exfalso. exact (simple_not_u _ Hv).
  - exfalso. exact (simple_not_u _ Hv).
  - exfalso. eapply Hs. eassumption.
  - exfalso. eapply Hu; [reflexivity|eassumption].
  - exfalso. eapply Hu; [reflexivity|eassumption].
  - exfalso. eapply simple_not_u. eassumption.
  - exfalso. match goal with K : x75 = x75 -> _ |- _ => exact (K eq_refl _ _ Hf) end.
  - match goal with K : four_hex _ _ _ |- _ => destruct (four_hex_fun _ _ _ _ _ Hf K) as [-> ->] end. f_equal. auto.
  - exfalso. match goal with K : four_hex _ _ _ |- _ => destruct (four_hex_fun _ _ _ _ _ Hf K) as [-> ->] end. apply Hn. eauto.
  - exfalso. eapply simple_not_u. eassumption.
  - exfalso. match goal with K : x75 = x75 -> _ |- _ => exact (K eq_refl _ _ Hf) end.
  - exfalso. match goal with K : four_hex _ _ _ |- _ => destruct (four_hex_fun _ _ _ _ _ Hf K) as [-> ->] end.
    match goal with K : ~ (high _ /\ _) |- _ => apply K; eauto end.
  - match goal with K : four_hex _ _ _ |- _ => destruct (four_hex_fun _ _ _ _ _ Hf K) as [-> ->] end.
    match goal with K : low_follows _ _ _ |- _ => destruct (low_fun _ _ _ _ _ Hl K) as [-> ->] end. f_equal. auto.
Qed.

(** ** Reading a text piece by piece *)

Lemma in_cut : escapes_in [c_backslash] = [].
Proof. reflexivity. Qed.
Lemma in_bad tl : hex4 tl = None -> escapes_in (c_backslash :: x75 :: tl) = c_backslash :: x75 :: escapes_in tl.
Proof.
  intros E. assert (L : forall f, escapes_in_loop (S f) (c_backslash :: x75 :: tl) = c_backslash :: x75 :: escapes_in_loop f tl).
  { intros f. cbn [escapes_in_loop find_index]. change (Byte.eqb c_backslash c_backslash) with true. cbn iota.
    change (skipn 1 (c_backslash :: x75 :: tl)) with (x75 :: tl). cbn iota. change (Byte.eqb x75 x75) with true. cbn iota. rewrite E. reflexivity. }
  unfold escapes_in at 1. rewrite L. do 2 f_equal. apply in_fuel. cbn [length]. lia.
Qed.
Lemma other_back c : (forall v, ~ In (c, v) simple_escapes) -> push_back_escape c = [c_backslash; c].
Proof.
  intros H. unfold push_back_escape.
  destruct (find_index (Byte.eqb c) _) as [k|] eqn:E; [|reflexivity]. exfalso. cbn [find_index] in E.
  repeat match type of E with context [Byte.eqb c ?x] =>
    destruct (Byte.eqb c x) eqn:?; [match goal with K : Byte.eqb c x = true |- _ => apply Byte.byte_dec_bl in K; subst c end; eapply H; unfold simple_escapes; cbn; eauto 10; fail|] end.
  discriminate E.
Qed.
Lemma combine_high n l : ~ high n -> combine_surrogates n l = (n, 0).
Proof.
  intros H. unfold combine_surrogates, high in *. destruct (N.leb_spec 0xD800 n); [|reflexivity].
  destruct (N.leb_spec n 0xDBFF); [lia|reflexivity].
Qed.
Lemma combine_alone n l : (forall lo r, ~ low_follows l lo r) -> combine_surrogates n l = (n, 0).
Proof.
  intros H. unfold combine_surrogates. destruct (_ && _)%N; [|reflexivity]. destruct l as [|x [|y lo]]; try reflexivity.
  destruct (_ && _ && _) eqn:E; [|reflexivity]. apply andb_prop in E. destruct E as [E Ey]. apply andb_prop in E. destruct E as [_ Ex].
  apply Byte.byte_dec_bl in Ex, Ey. subst x y. destruct (hex4 lo) as [m|] eqn:Em; [|reflexivity].
  destruct (N.leb_spec 0xDC00 m); [|reflexivity]. destruct (N.leb_spec m 0xDFFF); [|reflexivity]. exfalso.
  destruct (hex4_some _ _ Em) as (r & Hr). apply (H m r). exists lo. auto.
Qed.
Lemma combine_pair hi l lo r : high hi -> low_follows l lo r ->
  combine_surrogates hi l = ((0x10000 + (hi - 0xD800) * 1024 + (lo - 0xDC00))%N, 6) /\ skipn 6 l = r.
Proof.
  intros Hh (l2 & -> & F & B). destruct (four_hex4 _ _ _ F) as (E & _ & Es & L). unfold high in Hh. split; [|exact Es].
  unfold combine_surrogates. destruct (N.leb_spec 0xD800 hi); [|lia]. destruct (N.leb_spec hi 0xDBFF); [|lia]. cbn [andb].
  change (Byte.eqb backslash c_backslash) with true. change (Byte.eqb x75 x75) with true. cbn [length].
  destruct (Nat.leb_spec 6 (S (S (length l2)))); [|lia]. cbn [andb]. rewrite E.
  destruct (N.leb_spec 0xDC00 lo); [|lia]. destruct (N.leb_spec lo 0xDFFF); [|lia]. cbn [andb].
  rewrite N.shiftl_mul_pow2. reflexivity.
Qed.

Lemma pieces_read l ps : pieces l ps -> escapes_in l = flat_map meaning ps.
Proof.
  induction 1 as [| |c l ps Hc _ IH|c v l ps Hv _ IH|c l ps Hs Hu _ IH|l n r ps Hf Hn _ IH|l hi r lo r2 ps Hf Hh Hl _ IH]; cbn [flat_map meaning app].
  - reflexivity.
  - exact in_cut.
  - rewrite in_raw by exact Hc. rewrite IH. reflexivity.
  - rewrite <- IH. cbn in Hv. repeat (destruct Hv as [Hv|Hv]; [injection Hv as <- <-; change backslash with c_backslash; rewrite in_simple by discriminate; reflexivity|]). destruct Hv.
  - rewrite <- IH. destruct (byte_eq_dec c x75) as [->|Hc].
    + apply in_bad. destruct (hex4 l) as [n|] eqn:E; [|reflexivity]. exfalso. destruct (hex4_some _ _ E) as (r & Hr). exact (Hu eq_refl _ _ Hr).
    + change backslash with c_backslash. rewrite in_simple by exact Hc. rewrite (other_back _ Hs). reflexivity.
  - rewrite <- IH. destruct (four_hex4 _ _ _ Hf) as (E & Ln & Es & _). change backslash with c_backslash.
    rewrite (in_unicode _ _ n 0 E).
    + rewrite push_utf8 by lia. cbn [Nat.add]. rewrite Es. reflexivity.
    + rewrite Es. assert (D : high n \/ ~ high n) by (unfold high; lia). destruct D as [D|D]; [|apply combine_high, D].
      apply combine_alone. intros lo r' H. apply Hn. eauto.
  - rewrite <- IH. destruct (four_hex4 _ _ _ Hf) as (E & Ln & Es & _). destruct (combine_pair _ _ _ _ Hh Hl) as [Ec E6].
    change backslash with c_backslash. rewrite (in_unicode _ _ _ 6 E (eq_trans (f_equal _ Es) Ec)).
    destruct Hl as (? & _ & _ & B). unfold high in Hh. rewrite push_utf8 by lia. do 2 f_equal. rewrite <- E6, <- Es. destruct Hf as (a & b & c & d & -> & _). reflexivity.
Qed.

(** ** Reading keeps UTF-8 exactly if no surrogate stands alone *)

Lemma backslash_ascii : (byte_val backslash < 0x80)%N.
Proof. reflexivity. Qed.
Lemma cont_raw c : cont c -> c <> backslash.
Proof. intros H ->. unfold cont in H. cbv in H. destruct H as [H _]. apply H. reflexivity. Qed.
Lemma wide_raw c : (0x80 <= byte_val c)%N -> c <> backslash.
Proof. intros H ->. cbv in H. apply H. reflexivity. Qed.
Lemma conts_read tl r : Forall cont tl -> escapes_in (tl ++ r) = tl ++ escapes_in r.
Proof. induction 1 as [|c tl Hc _ IH]; [reflexivity|]. cbn [app]. rewrite in_raw by (apply cont_raw, Hc). rewrite IH. reflexivity. Qed.
Lemma conts_pieces tl r ps : Forall cont tl -> pieces (tl ++ r) ps -> exists ps', ps = map PRaw tl ++ ps' /\ pieces r ps'.
Proof.
  intros F. revert ps. induction F as [|c tl Hc _ IH]; intros ps H; [exists ps; auto|]. cbn [app] in H.
  assert (Hb := cont_raw _ Hc). inversion H; subst; try congruence.
  match goal with K : pieces (tl ++ r) _ |- _ => destruct (IH _ K) as (ps' & -> & Hp) end. exists ps'. auto.
Qed.
Lemma head_not_cont n c l r : (n < 0x110000)%N -> utf8 n ++ l = c :: r -> ~ cont c.
Proof.
  intros Hn E Hc. destruct (utf8_shape n Hn) as (h & tl & Eu & _ & K). rewrite Eu in E. cbn in E. injection E as -> _. unfold cont in Hc. lia.
Qed.
Lemma simple_ascii c v : In (c, v) simple_escapes -> (byte_val c < 0x80)%N /\ (byte_val v < 0x80)%N.
Proof. cbn. intros H. repeat (destruct H as [H|H]; [injection H as <- <-; split; reflexivity|]). destruct H. Qed.
Lemma hex_ascii c : is_hex c -> (byte_val c < 0x80)%N.
Proof. unfold is_hex, is_digit. lia. Qed.
Lemma cont_read l ps c r : pieces l ps -> cont c -> escapes_in l = c :: r -> exists l', l = c :: l' /\ escapes_in l' = r.
Proof.
  intros H Hc E. assert (E0 := E). rewrite (pieces_read _ _ H) in E.
  inversion H; subst; cbn [flat_map meaning app] in E.
  - discriminate E.
  - discriminate E.
  - injection E as -> _. rewrite in_raw in E0 by assumption. injection E0 as E0. eauto.
  - exfalso. injection E as -> _. match goal with K : In _ _ |- _ => apply simple_ascii in K; unfold cont in Hc; lia end.
  - exfalso. injection E as <- _. exact (cont_raw _ Hc eq_refl).
  - exfalso. match goal with K : four_hex _ _ _ |- _ => destruct (four_hex4 _ _ _ K) as (_ & Ln & _) end. refine (head_not_cont _ _ _ _ _ E Hc). lia.
  - exfalso. match goal with K : high _, K2 : low_follows _ _ _ |- _ => destruct K2 as (? & _ & _ & B); unfold high in K end.
    refine (head_not_cont _ _ _ _ _ E Hc). lia.
Qed.
Lemma conts_back tl : Forall cont tl -> forall l r, escapes_in l = tl ++ r -> exists l', l = tl ++ l' /\ escapes_in l' = r.
Proof.
  induction 1 as [|c tl Hc _ IH]; intros l r E; [exists l; auto|]. destruct (pieces_exist (S (length l)) l (Nat.lt_succ_diag_r _)) as (ps & H).
  cbn [app] in E. destruct (cont_read _ _ _ _ H Hc E) as (l1 & -> & E1). destruct (IH _ _ E1) as (l' & -> & E2). exists l'. auto.
Qed.

Definition lone_free (ps : list piece) : Prop := Forall (fun p => ~ lone p) ps.
Lemma lone_free_raws tl ps : lone_free (map PRaw tl ++ ps) <-> lone_free ps.
Proof.
  unfold lone_free. rewrite Forall_app. split; [tauto|]. intros H. split; [|exact H]. apply Forall_forall. intros p Hp. apply in_map_iff in Hp.
  destruct Hp as (c & <- & _). intros [].
Qed.
Lemma lone_free_cons p ps : ~ lone p -> (lone_free (p :: ps) <-> lone_free ps).
Proof. intros H. unfold lone_free. split; [intros K; inversion K; assumption|intros K; constructor; assumption]. Qed.

Lemma four_hex_text l n r : four_hex l n r -> (utf8_text l <-> utf8_text r).
Proof.
  intros (a & b & c & d & -> & (Ha & Hb & Hc & Hd) & _). rewrite !text_ascii by (apply hex_ascii; assumption). reflexivity.
Qed.

Lemma wide_reads c l ps : (0x80 <= byte_val c)%N -> pieces l ps ->
  (forall l' ps', length l' <= length l -> pieces l' ps' -> (utf8_text (escapes_in l') <-> utf8_text l' /\ lone_free ps')) ->
  (utf8_text (c :: escapes_in l) <-> utf8_text (c :: l) /\ lone_free ps).
Proof.
  intros Hc H IH. rewrite !text_wide by exact Hc. split.
  - intros (cp & tl & r & Hs & Eu & F & E & Hr). destruct (conts_back _ F _ _ E) as (l' & -> & <-).
    destruct (conts_pieces _ _ _ F H) as (ps' & -> & H'). rewrite (IH l' ps') in Hr by (try exact H'; rewrite app_length; lia).
    rewrite lone_free_raws. destruct Hr as [H1 H2]. split; [|exact H2]. exists cp, tl, l'. auto.
  - intros ((cp & tl & r & Hs & Eu & F & -> & Hr) & Hn). destruct (conts_pieces _ _ _ F H) as (ps' & -> & H').
    rewrite lone_free_raws in Hn. exists cp, tl, (escapes_in r). rewrite (conts_read _ _ F). repeat (split; [assumption||reflexivity|]).
    rewrite (IH r ps') by (try exact H'; rewrite app_length; lia). auto.
Qed.

Lemma reads_utf8 : forall n l ps, length l < n -> pieces l ps -> (utf8_text (escapes_in l) <-> utf8_text l /\ lone_free ps).
Proof.
  induction n as [|n IH]; intros l ps Hl H; [lia|].
  assert (IHc : forall l0 ps0, length l0 < length l -> pieces l0 ps0 -> (utf8_text (escapes_in l0) <-> utf8_text l0 /\ lone_free ps0)) by (intros; apply IH; [lia|assumption]).
  assert (RC : forall c l0 ps0, length l0 < length l -> pieces l0 ps0 -> (utf8_text (c :: escapes_in l0) <-> utf8_text (c :: l0) /\ lone_free ps0)).
  { intros c l0 ps0 L0 H0. destruct (N.lt_ge_cases (byte_val c) 0x80) as [A|A].
    - rewrite !text_ascii by exact A. apply IHc; assumption.
    - apply wide_reads; [exact A|exact H0|]. intros. apply IHc; [lia|assumption]. }
  assert (R := pieces_read _ _ H). rewrite R. clear IH.
  inversion H as [| |c l0 ps0 Hc H0|c v l0 ps0 Hv H0|c l0 ps0 Hs Hu H0|l0 m r ps0 Hf Hn H0|l0 hi r lo r2 ps0 Hf Hh Hlo H0]; subst; cbn [flat_map meaning app length] in *.
  - split; [intros _; split; [apply text_nil|constructor]|intros _; apply text_nil].
  - rewrite text_ascii by exact backslash_ascii. split; [intros _; split; [apply text_nil|constructor; [intros []|constructor]]|intros _; apply text_nil].
  - rewrite <- (pieces_read _ _ H0), lone_free_cons by (intros []). apply RC; [lia|exact H0].
  - rewrite <- (pieces_read _ _ H0), lone_free_cons by (intros []). destruct (simple_ascii _ _ Hv) as [A B].
    rewrite (text_ascii v) by exact B. rewrite text_ascii by exact backslash_ascii. rewrite text_ascii by exact A. apply IHc; [lia|exact H0].
  - rewrite <- (pieces_read _ _ H0), lone_free_cons by (intros []). rewrite !(text_ascii backslash) by exact backslash_ascii. apply RC; [lia|exact H0].
  - rewrite <- (pieces_read _ _ H0). destruct (four_hex4 _ _ _ Hf) as (_ & Lm & _ & Lr).
    rewrite text_ascii by exact backslash_ascii. rewrite text_ascii by reflexivity. rewrite (four_hex_text _ _ _ Hf).
    assert (D : (0xD800 <= m <= 0xDFFF)%N \/ unicode_scalar m) by (unfold unicode_scalar; lia). destruct D as [D|D].
    + split; [intros K; exfalso; exact (text_lone _ _ D K)|]. intros [_ K]. exfalso. inversion K as [|? ? K1 _]; subst. exact (K1 D).
    + rewrite text_cons by exact D. rewrite lone_free_cons by (cbn [lone]; unfold unicode_scalar in D; lia). apply IHc; [lia|exact H0].
  - rewrite <- (pieces_read _ _ H0). destruct (four_hex4 _ _ _ Hf) as (_ & Lm & _ & Lr). assert (L2 := low_length _ _ _ Hlo).
    rewrite text_ascii by exact backslash_ascii. rewrite text_ascii by reflexivity. rewrite (four_hex_text _ _ _ Hf).
    destruct Hlo as (l2 & -> & F2 & B). rewrite text_ascii by exact backslash_ascii. rewrite text_ascii by reflexivity. rewrite (four_hex_text _ _ _ F2).
    unfold high in Hh. rewrite text_cons by (unfold unicode_scalar; lia). rewrite lone_free_cons by (intros []). apply IHc; [lia|exact H0].
Qed.

(** ** Writing *)

Lemma out_pieces c l ps : pieces l ps -> exists p, pieces (escape_out_char c ++ l) (p :: ps) /\ ~ lone p.
Proof.
  intros H. unfold escape_out_char.
  repeat match goal with |- context [if Byte.eqb c ?x then _ else _] => destruct (Byte.eqb c x) eqn:?;
    [eexists (PSimple _); split; [eapply Pc_simple; [unfold simple_escapes; cbn; eauto 10|exact H]|intros []]|] end.
  exists (PRaw c). split; [|intros []]. apply Pc_raw; [|exact H]. intros ->. discriminate.
Qed.
Lemma writes_utf8 i s : utf8_text (escapes_out i s) <-> utf8_text s.
Proof.
  assert (P : exists ps, pieces (escapes_out i s) ps /\ lone_free ps).
  { rewrite escapes_out_map. induction s as [|c s (ps & H & N)]; [exists []; split; constructor|]. cbn [flat_map].
    destruct (out_pieces c _ _ H) as (p & Hp & Np). exists (p :: ps). split; [exact Hp|]. apply lone_free_cons; assumption. }
  destruct P as (ps & H & N). assert (K := reads_utf8 _ _ _ (Nat.lt_succ_diag_r _) H). rewrite escape_round_trip in K. tauto.
Qed.
