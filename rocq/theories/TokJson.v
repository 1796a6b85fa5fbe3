(** The tokenizer on JSON texts: it emits exactly the tokens of the document. *)
From Verif Require Import Tactics Base ScanModel ScanProofs TokModel TokLoops TokProofs TokSafe JsonSpec TokGap TokStep.
From Coq Require Import Lia.

(** ** Fuel of populateNext *)

Lemma populateNext_mono o buf : forall f tmp nt s r,
  populateNext f o buf tmp nt s = Ok r -> populateNext (S f) o buf tmp nt s = Ok r.
Proof.
  induction f as [|f IH]; intros tmp nt s r; [discriminate|].
  remember (S f) as g eqn:Hg. intros H. cbn [populateNext].
  rewrite Hg in H. cbn [populateNext] in H.
  destruct (t_cur s <? length buf); [|exact H].
  destruct (t_tok s).
  - destruct (populateFromDataRef o buf (im_name_type (t_im s)) s) as [[[[s1 e] [off size]] ty]| |];
      cbn [obind] in *; try exact H.
    destruct e; try exact H.
    destruct (slice buf off size) as [raw| |]; cbn [obind] in *; try exact H.
    destruct (if im_active (t_im s1) then _ else _) as [[s2 d] ty2].
    destruct ty2; try exact H; apply IH; exact H.
  - destruct (findDelimiter o (t_stack s) buf (t_cur s)) as [e c|n a c|]; try exact H.
    destruct n; try exact H;
    (destruct (negb (type_eqb (tk_name_type tmp) TString) && _); [exact H|]; apply IH; exact H).
  - exact H.
  - destruct (findTokenEnd o (t_stack s) buf (t_cur s)) as [e c|a c comma0|]; try exact H.
    apply IH; exact H.
Qed.

(** ** Configurations *)

Record cfg : Set := mkC { k_tok : tokst; k_e : bool; k_stk : list type; k_cur : nat }.

Definition st_of (c : cfg) (buf : bytes) : tstate := canon (k_tok c) (k_e c) (k_stk c) (k_cur c) buf.

(** A state that behaves like the configuration at the next call. *)
Definition at_cfg (c : cfg) (buf : bytes) (s : tstate) : Prop :=
  exists p pt ds, s = S0 (k_tok c) p pt (k_e c) (k_cur c) ds buf (k_stk c).

Definition emits (o : opts) (buf : bytes) (c : cfg) (v : stoken) (c' : cfg) : Prop :=
  forall nt, exists s nt1, nextToken o nt (st_of c buf) = Ok (s, NoError, nt1) /\
                           tok_view nt1 = v /\ at_cfg c' buf s.

Definition silent (o : opts) (buf : bytes) (c c' : cfg) : Prop :=
  forall nt, nextToken o nt (st_of c buf) = nextToken o nt (st_of c' buf).

Inductive reach (o : opts) (buf : bytes) : cfg -> list stoken -> cfg -> Prop :=
| Re_nil c : reach o buf c [] c
| Re_emit c v c1 vs c2 : emits o buf c v c1 -> reach o buf c1 vs c2 -> reach o buf c (v :: vs) c2
| Re_silent c c1 vs c2 : silent o buf c c1 -> reach o buf c1 vs c2 -> reach o buf c vs c2.

Lemma reach_app o buf c vs c1 vs' c2 :
  reach o buf c vs c1 -> reach o buf c1 vs' c2 -> reach o buf c (vs ++ vs') c2.
Proof.
  induction 1; intros H1; cbn [app]; [exact H1|eapply Re_emit; eauto|eapply Re_silent; eauto].
Qed.

Lemma reach_one o buf c v c' : emits o buf c v c' -> reach o buf c [v] c'.
Proof. intros H. eapply Re_emit; [exact H|apply Re_nil]. Qed.

Lemma reach_silent o buf c c' : silent o buf c c' -> reach o buf c [] c'.
Proof. intros H. eapply Re_silent; [exact H|apply Re_nil]. Qed.

Lemma at_cfg_next o nt c buf s :
  at_cfg c buf s -> nextToken o nt s = nextToken o nt (st_of c buf).
Proof.
  intros (p & pt & ds & ->). destruct c as [tok e stk cur]. unfold nextToken, st_of, canon.
  cbn [t_scope t_parsed t_bufs t_cont S0 k_tok k_e k_stk k_cur].
  change (resetForNewToken (S0 tok p pt e cur ds buf stk)) with (S0 tok NoStartFound TError e cur 0 buf stk).
  change (resetForNewToken (S0 tok NoStartFound TError e cur 0 buf stk)) with (S0 tok NoStartFound TError e cur 0 buf stk).
  reflexivity.
Qed.

(** nextToken in terms of populateNext on the only buffer. *)
Lemma next_populate o nt c buf s1 nt1 :
  populateNext loop_fuel o buf tok_default nt (st_of c buf) = Ok (s1, NoError, nt1) ->
  nextToken o nt (st_of c buf) =
  let s3 := set_cont false s1 in
  let vt := tk_value_type nt1 in
  match vt with
  | TArrayStart | TObjectStart =>
    Ok (scope_handle vt (set_stack (vt :: t_stack s3) s3), NoError, nt1)
  | TArrayEnd =>
    match t_stack s3 with
    | TArrayStart :: st => Ok (scope_handle vt (set_stack st s3), NoError, nt1)
    | _ => Ok (s3, UnexpectedArrayEnd, nt1)
    end
  | TObjectEnd =>
    match t_stack s3 with
    | TObjectStart :: st => Ok (scope_handle vt (set_stack st s3), NoError, nt1)
    | _ => Ok (s3, UnexpectedObjectEnd, nt1)
    end
  | _ => Ok (scope_handle vt s3, NoError, nt1)
  end.
Proof.
  intros H. unfold nextToken, st_of, canon in *. cbn [t_scope t_parsed t_bufs t_cont S0] in *.
  change (resetForNewToken (S0 (k_tok c) NoStartFound TError (k_e c) (k_cur c) 0 buf (k_stk c)))
    with (S0 (k_tok c) NoStartFound TError (k_e c) (k_cur c) 0 buf (k_stk c)).
  change (buffers_left _) with 1.
  cbn [buffer_loop t_bufs S0]. rewrite H. cbn [obind]. reflexivity.
Qed.

Lemma populate_eq_next o nt c1 c2 buf :
  populateNext loop_fuel o buf tok_default nt (st_of c1 buf) =
  populateNext loop_fuel o buf tok_default nt (st_of c2 buf) ->
  nextToken o nt (st_of c1 buf) = nextToken o nt (st_of c2 buf).
Proof.
  intros H. unfold nextToken, st_of, canon in *. cbn [t_scope t_parsed t_bufs t_cont S0] in *.
  change (resetForNewToken (S0 (k_tok c1) NoStartFound TError (k_e c1) (k_cur c1) 0 buf (k_stk c1)))
    with (S0 (k_tok c1) NoStartFound TError (k_e c1) (k_cur c1) 0 buf (k_stk c1)).
  change (resetForNewToken (S0 (k_tok c2) NoStartFound TError (k_e c2) (k_cur c2) 0 buf (k_stk c2)))
    with (S0 (k_tok c2) NoStartFound TError (k_e c2) (k_cur c2) 0 buf (k_stk c2)).
  change (buffers_left _) with 1. change (buffers_left _) with 1.
  cbn [buffer_loop t_bufs S0]. rewrite H. reflexivity.
Qed.

(** ** Steps *)

Lemma populateNext_S f o buf tmp nt s :
  t_cur s < length buf ->
  populateNext (S f) o buf tmp nt s =
      match t_tok s with
      | FindingName =>
        let* (s1, e, (off, size), ty) := populateFromDataRef o buf (im_name_type (t_im s)) s in
        match e with
        | NeedMoreData =>
          if prop_gt_nostart (t_prop s1) then
            let* raw := slice buf off (length buf - t_ds s1) in
            let m := t_im s1 in
            let m' := mkIm true true (im_data_set m)
                        (if im_name_set m then im_name_type m else ty) (im_data_type m)
                        (im_name m ++ upto_nul raw) (im_data m) in
            Ok (set_im m' s1, NeedMoreData, nt)
          else Ok (s1, NeedMoreData, nt)
        | NoError =>
          let* raw := slice buf off size in
          let m := t_im s1 in
          let '(s2, d, ty2) :=
            if im_active m then
              let nm := im_name m ++ raw in
              (set_im (mkIm true (im_name_set m) (im_data_set m) (im_name_type m)
                         (im_data_type m) nm (im_data m)) s1,
               mkRef InIntermediate nm, im_name_type m)
            else (s1, mkRef (InBuffer off) raw, ty) in
          match ty2 with
          | TObjectEnd | TArrayEnd =>
            if t_expect s2 && negb (o_comma o) then Ok (s2, ExpectedDataToken, nt)
            else Ok (set_tok FindingTokenEnd s2, NoError, anonymous_token d ty2)
          | TObjectStart | TArrayStart =>
            Ok (set_tok FindingName (set_expect false s2), NoError, anonymous_token d ty2)
          | _ =>
            let tmp' := mkTok d (tk_value tmp) (getType ty2 (dr_bytes d)) (tk_value_type tmp) in
            populateNext f o buf tmp' nt (resetForNewValue (set_tok FindingDelimiter s2))
          end
        | _ => Ok (s1, e, nt)
        end
      | FindingDelimiter =>
        match findDelimiter o (t_stack s) buf (t_cur s) with
        | FD_fuel => OutOfFuel
        | FD_err e cur =>
          let s1 := set_cur cur s in
          let m := t_im s1 in
          let s2 := if im_active m then s1
                    else set_im (mkIm true (im_name_set m) (im_data_set m) (tk_name_type tmp)
                                   (im_data_type m) (im_name m ++ dr_bytes (tk_name tmp))
                                   (im_data m)) s1 in
          Ok (s2, e, nt)
        | FD_ok next ahead cur =>
          let s1 := set_expect false
                      (resetForNewValue (set_tok next (set_cur (cur + ahead) s))) in
          match next with
          | FindingName =>
            Ok (s1, NoError, anonymous_token (tk_name tmp) (tk_name_type tmp))
          | _ =>
            if negb (type_eqb (tk_name_type tmp) TString)
               && (negb (o_ascii o) || negb (type_eqb (tk_name_type tmp) TAscii))
            then Ok (s1, IllegalPropertyName, nt)
            else populateNext f o buf tmp nt s1
          end
        end
      | FindingData =>
        let* (s1, e, (off, size), ty) := populateFromDataRef o buf (im_data_type (t_im s)) s in
        match e with
        | NeedMoreData =>
          let m := t_im s1 in
          let m1 := if im_active m then m
                    else mkIm true (im_name_set m) (im_data_set m) (tk_name_type tmp)
                           (im_data_type m) (im_name m ++ dr_bytes (tk_name tmp)) (im_data m) in
          if prop_gt_nostart (t_prop s1) then
            let* raw := slice buf off (length buf - t_ds s1) in
            let m2 := mkIm (im_active m1) (im_name_set m1) true (im_name_type m1)
                        (if im_data_set m1 then im_data_type m1 else ty)
                        (im_name m1) (im_data m1 ++ upto_nul raw) in
            Ok (set_im m2 s1, NeedMoreData, nt)
          else Ok (set_im m1 s1, NeedMoreData, nt)
        | NoError =>
          let* raw := slice buf off size in
          let m := t_im s1 in
          let '(s2, name, name_ty, d, ty2) :=
            if im_active m then
              let dt := im_data m ++ raw in
              let dty := if im_data_set m then im_data_type m else ty in
              (set_im (mkIm true (im_name_set m) true (im_name_type m) dty (im_name m) dt) s1,
               mkRef InIntermediate (im_name m), im_name_type m,
               mkRef InIntermediate dt, dty)
            else (s1, tk_name tmp, tk_name_type tmp, mkRef (InBuffer off) raw, ty) in
          let vt := getType ty2 (dr_bytes d) in
          if type_eqb vt TAscii && negb (o_ascii o) then Ok (s2, IllegalDataValue, nt)
          else
            let next := match ty2 with
                        | TObjectStart | TArrayStart => FindingName
                        | _ => FindingTokenEnd
                        end in
            Ok (set_tok next s2, NoError, mkTok name d name_ty vt)
        | _ => Ok (s1, e, nt)
        end
      | FindingTokenEnd =>
        match findTokenEnd o (t_stack s) buf (t_cur s) with
        | FE_fuel => OutOfFuel
        | FE_err e cur => Ok (set_cur cur s, e, nt)
        | FE_ok ahead cur comma =>
          let s1 := if comma then set_expect true s else s in
          populateNext f o buf tmp nt (set_tok FindingName (set_cur (cur + ahead) s1))
        end
      end.
Proof. intros H. cbn [populateNext]. apply Nat.ltb_lt in H. rewrite H. reflexivity. Qed.

Definition open_char (t : type) : byte := match t with TArrayStart => lbrack | _ => lbrace end.
Definition close_char (t : type) : byte := match t with TArrayStart => rbrack | _ => rbrace end.
Definition end_type (t : type) : type := match t with TArrayStart => TArrayEnd | _ => TObjectEnd end.
Definition is_open (t : type) : Prop := t = TArrayStart \/ t = TObjectStart.

(** An opening bracket where a name or element is expected. *)
Lemma step_open o buf e stk cur w t rest :
  skips (scalar_opts o) w -> is_open t -> skipn cur buf = w ++ open_char t :: rest ->
  emits o buf (mkC FindingName e stk cur) (st_make None [open_char t] t)
              (mkC FindingName false (t :: stk) (cur + length w + 1)).
Proof.
  intros Hw Ht E nt. pose proof (skipn_app_lt _ _ _ _ _ E) as Hlt.
  set (c := mkC FindingName e stk cur).
  assert (Hp : populateNext loop_fuel o buf tok_default nt (st_of c buf) =
    Ok (S0 FindingName FoundEnd t false (cur + length w + 1) (cur + length w) buf stk, NoError,
        anonymous_token (mkRef (InBuffer (cur + length w)) [open_char t]) t)).
  { unfold loop_fuel. rewrite populateNext_S by exact Hlt. unfold st_of, c. cbn [k_tok k_e k_stk k_cur].
    change (t_tok (canon FindingName e stk cur buf)) with FindingName. cbn iota.
    rewrite (pf_bracket _ _ _ _ _ _ _ w (open_char t) rest t Hw E)
      by (destruct Ht as [->| ->]; reflexivity).
    cbn [obind]. change 1 with (length [open_char t]) at 2.
    rewrite (slice_at _ _ _ [open_char t] rest) by (try exact E; lia). cbn [obind].
    destruct Ht as [->| ->]; reflexivity. }
  rewrite (next_populate _ _ _ _ _ _ Hp). cbv zeta.
  destruct Ht as [->| ->]; do 2 eexists; (split; [reflexivity|]); (split; [reflexivity|]);
    do 3 eexists; reflexivity.
Qed.

(** A closing bracket. *)
Lemma step_close o buf e stk cur w t rest :
  skips (scalar_opts o) w -> is_open t -> skipn cur buf = w ++ close_char t :: rest ->
  e = false \/ o_comma o = true ->
  emits o buf (mkC FindingName e (t :: stk) cur) (st_make None [close_char t] (end_type t))
              (mkC FindingTokenEnd e stk (cur + length w + 1)).
Proof.
  intros Hw Ht E He nt. pose proof (skipn_app_lt _ _ _ _ _ E) as Hlt.
  set (c := mkC FindingName e (t :: stk) cur).
  assert (Hp : populateNext loop_fuel o buf tok_default nt (st_of c buf) =
    Ok (S0 FindingTokenEnd FoundEnd (end_type t) e (cur + length w + 1) (cur + length w) buf (t :: stk), NoError,
        anonymous_token (mkRef (InBuffer (cur + length w)) [close_char t]) (end_type t))).
  { unfold loop_fuel. rewrite populateNext_S by exact Hlt. unfold st_of, c. cbn [k_tok k_e k_stk k_cur].
    change (t_tok (canon FindingName e (t :: stk) cur buf)) with FindingName. cbn iota.
    rewrite (pf_bracket _ _ _ _ _ _ _ w (close_char t) rest (end_type t) Hw E)
      by (destruct Ht as [->| ->]; reflexivity).
    cbn [obind]. change 1 with (length [close_char t]) at 2.
    rewrite (slice_at _ _ _ [close_char t] rest) by (try exact E; lia). cbn [obind].
    assert (Hx : e && negb (o_comma o) = false) by (destruct He as [->| ->]; [|rewrite andb_false_r]; reflexivity).
    destruct Ht as [->| ->]; cbn [S0 t_im im_init im_active end_type t_expect]; rewrite Hx; reflexivity. }
  rewrite (next_populate _ _ _ _ _ _ Hp). cbv zeta.
  destruct Ht as [->| ->]; do 2 eexists; (split; [reflexivity|]); (split; [reflexivity|]);
    do 3 eexists; reflexivity.
Qed.

Lemma raw_type_cases {A} s (a b : A) :
  match raw_type s with
  | TObjectEnd | TArrayEnd | TObjectStart | TArrayStart => a
  | _ => b
  end = b.
Proof. destruct s; reflexivity. Qed.

(** A scalar array element with its delimiter. *)
Lemma step_elem_scalar o buf e stk cur w1 s w2 d rest :
  skips (scalar_opts o) w1 -> skips (scalar_opts o) w2 -> scalar_ok s ->
  stops s (w2 ++ d :: rest) -> d = comma \/ d = rbrack ->
  skipn cur buf = w1 ++ scalar_text s ++ w2 ++ d :: rest ->
  emits o buf (mkC FindingName e (TArrayStart :: stk) cur)
              (st_make None (scalar_value s) (scalar_type s))
              (mkC FindingName false (TArrayStart :: stk)
                 (cur + length w1 + length (scalar_text s) + length w2 +
                  (if Byte.eqb d comma then 1 else 0))).
Proof.
  intros Hw1 Hw2 Hs Hst Hd E nt.
  assert (Hlt : cur < length buf).
  { apply (skipn_app_lt _ _ (w1 ++ scalar_text s ++ w2) d rest). rewrite E, <- !app_assoc. reflexivity. }
  set (c := mkC FindingName e (TArrayStart :: stk) cur).
  destruct (pf_scalar o buf (im_name_type im_init) FindingName e cur (TArrayStart :: stk) w1 s _ Hw1 Hs E Hst)
    as (ds & off & Epf & Esl).
  set (cur1 := cur + length w1 + length (scalar_text s)) in *.
  assert (E1 : skipn cur1 buf = w2 ++ d :: rest).
  { unfold cur1. rewrite <- Nat.add_assoc, <- app_length. apply skipn_step. rewrite E, <- app_assoc. reflexivity. }
  pose proof (skipn_app_lt _ _ _ _ _ E1) as Hlt1.
  destruct (fd_elem o stk buf cur1 w2 d rest Hw2 E1 Hd) as (ahead & cur' & Efd & Hcur').
  set (cur2 := cur1 + length w2 + (if Byte.eqb d comma then 1 else 0)) in *.
  assert (Hp : populateNext loop_fuel o buf tok_default nt (st_of c buf) =
    Ok (S0 FindingName NoStartFound TError false cur2 0 buf (TArrayStart :: stk), NoError,
        anonymous_token (mkRef (InBuffer off) (scalar_value s)) (scalar_type s))).
  { unfold loop_fuel. rewrite populateNext_S by exact Hlt. unfold st_of, c. cbn [k_tok k_e k_stk k_cur].
    change (t_tok (canon FindingName e (TArrayStart :: stk) cur buf)) with FindingName. cbn iota.
    change (t_im (canon FindingName e (TArrayStart :: stk) cur buf)) with im_init.
    rewrite Epf. cbn [obind]. rewrite Esl. cbn [obind S0 t_im im_init im_active].
    transitivity (populateNext 4 o buf
       (mkTok (mkRef (InBuffer off) (scalar_value s)) dref_empty (scalar_type s) TString) nt
       (S0 FindingDelimiter NoStartFound TError e cur1 0 buf (TArrayStart :: stk))).
    { rewrite <- (getType_scalar s Hs). destruct s; reflexivity. }
    rewrite populateNext_S by exact Hlt1. cbn [S0 t_tok t_stack t_cur]. rewrite Efd, Hcur'. reflexivity. }
  rewrite (next_populate _ _ _ _ _ _ Hp). cbv zeta.
  do 2 eexists; split; [destruct s; reflexivity|]; (split; [reflexivity|]); do 3 eexists; reflexivity.
Qed.

(** The name of a member up to and including the colon. *)
Lemma populate_name o buf nt e stk cur w1 k w2 rest f :
  skips (scalar_opts o) w1 -> skips (scalar_opts o) w2 -> str_body k ->
  skipn cur buf = w1 ++ quote :: k ++ quote :: w2 ++ colon :: rest ->
  exists off,
  populateNext (S (S f)) o buf tok_default nt (canon FindingName e (TObjectStart :: stk) cur buf) =
  populateNext f o buf (mkTok (mkRef (InBuffer off) k) dref_empty TString TString) nt
    (canon FindingData false (TObjectStart :: stk)
       (cur + length w1 + length k + 2 + length w2 + 1) buf).
Proof.
  intros Hw1 Hw2 Hk E.
  pose proof (skipn_app_lt _ _ _ _ _ E) as Hlt.
  set (cur1 := cur + length w1 + length k + 2).
  assert (E1 : skipn cur1 buf = w2 ++ colon :: rest).
  { unfold cur1. replace (cur + length w1 + length k + 2) with (cur + length (w1 ++ quote :: k ++ [quote])).
    - apply skipn_step. rewrite E, <- app_assoc. cbn [app]. rewrite <- app_assoc. reflexivity.
    - rewrite app_length. cbn [length]. rewrite app_length. cbn [length]. lia. }
  pose proof (skipn_app_lt _ _ _ _ _ E1) as Hlt1.
  destruct (fd_colon o stk buf cur1 w2 rest Hw2 E1) as (ahead & cur' & Efd & Hcur').
  exists (cur + length w1 + 1).
  rewrite populateNext_S by exact Hlt.
  change (t_tok (canon FindingName e (TObjectStart :: stk) cur buf)) with FindingName. cbn iota.
  change (t_im (canon FindingName e (TObjectStart :: stk) cur buf)) with im_init.
  rewrite (pf_string o buf _ FindingName e cur (TObjectStart :: stk) w1 k _ Hw1 E Hk). cbn [obind].
  replace (cur + length w1 + 1) with (cur + length (w1 ++ [quote])) by (rewrite app_length; cbn; lia).
  rewrite (slice_at buf cur (w1 ++ [quote]) k (quote :: w2 ++ colon :: rest))
    by (try lia; rewrite E, <- app_assoc; reflexivity).
  cbn [obind S0 t_im im_init im_active].
  change (resetForNewValue _) with (canon FindingDelimiter e (TObjectStart :: stk) cur1 buf).
  rewrite populateNext_S by exact Hlt1.
  unfold canon at 1. cbn [S0 t_tok t_stack t_cur]. change (t_cur (canon FindingDelimiter e (TObjectStart :: stk) cur1 buf)) with cur1.
  change (t_stack (canon FindingDelimiter e (TObjectStart :: stk) cur1 buf)) with (TObjectStart :: stk).
  rewrite Efd, Hcur'. cbn iota. reflexivity.
Qed.

(** A member with a scalar value. *)
Lemma step_member_scalar o buf e stk cur w1 k w2 w3 s rest :
  skips (scalar_opts o) w1 -> skips (scalar_opts o) w2 -> skips (scalar_opts o) w3 ->
  str_body k -> scalar_ok s -> stops s rest ->
  skipn cur buf = w1 ++ quote :: k ++ quote :: w2 ++ colon :: w3 ++ scalar_text s ++ rest ->
  emits o buf (mkC FindingName e (TObjectStart :: stk) cur)
              (st_make (Some k) (scalar_value s) (scalar_type s))
              (mkC FindingTokenEnd false (TObjectStart :: stk)
                 (cur + length w1 + length k + 2 + length w2 + 1 + length w3 + length (scalar_text s))).
Proof.
  intros Hw1 Hw2 Hw3 Hk Hs Hst E nt.
  set (c := mkC FindingName e (TObjectStart :: stk) cur).
  set (cur1 := cur + length w1 + length k + 2 + length w2 + 1).
  assert (E1 : skipn cur1 buf = w3 ++ scalar_text s ++ rest).
  { unfold cur1. replace (cur + length w1 + length k + 2 + length w2 + 1)
      with (cur + length (w1 ++ quote :: k ++ quote :: w2 ++ [colon])).
    - apply skipn_step. rewrite E, <- app_assoc. cbn [app]. rewrite <- app_assoc. cbn [app]. rewrite <- app_assoc. reflexivity.
    - rewrite app_length. cbn [length]. rewrite app_length. cbn [length]. rewrite app_length. cbn [length]. lia. }
  assert (Hlt1 : cur1 < length buf).
  { destruct (scalar_text s) as [|x l] eqn:Ex; [|apply (skipn_app_lt _ _ w3 x (l ++ rest)); exact E1].
    exfalso. destruct s; try discriminate Ex. cbn [scalar_ok scalar_text] in *. subst.
    destruct Hs as (? & ? & H & _). discriminate H. }
  destruct (pf_scalar o buf (im_data_type im_init) FindingData false cur1 (TObjectStart :: stk) w3 s _ Hw3 Hs E1 Hst)
    as (ds & off & Epf & Esl).
  set (cur2 := cur1 + length w3 + length (scalar_text s)) in *.
  destruct (populate_name o buf nt e stk cur w1 k w2 _ 3 Hw1 Hw2 Hk E) as (off1 & En).
  fold cur1 in En.
  assert (Hp : populateNext loop_fuel o buf tok_default nt (st_of c buf) =
    Ok (S0 FindingTokenEnd FoundEnd (raw_type s) false cur2 ds buf (TObjectStart :: stk), NoError,
        mkTok (mkRef (InBuffer off1) k) (mkRef (InBuffer off) (scalar_value s)) TString (scalar_type s))).
  { unfold loop_fuel, st_of, c. cbn [k_tok k_e k_stk k_cur]. rewrite En.
    rewrite populateNext_S by exact Hlt1.
    change (t_tok (canon FindingData false (TObjectStart :: stk) cur1 buf)) with FindingData. cbn iota.
    change (t_im (canon FindingData false (TObjectStart :: stk) cur1 buf)) with im_init.
    rewrite Epf. cbn [obind]. rewrite Esl. cbn [obind S0 t_im im_init im_active dr_bytes].
    cbv zeta. rewrite getType_scalar by exact Hs. destruct s; reflexivity. }
  rewrite (next_populate _ _ _ _ _ _ Hp). cbv zeta.
  do 2 eexists; split; [destruct s; reflexivity|]; (split; [reflexivity|]); do 3 eexists; reflexivity.
Qed.

(** A member whose value opens a container. *)
Lemma step_member_open o buf e stk cur w1 k w2 w3 t rest :
  skips (scalar_opts o) w1 -> skips (scalar_opts o) w2 -> skips (scalar_opts o) w3 ->
  str_body k -> is_open t ->
  skipn cur buf = w1 ++ quote :: k ++ quote :: w2 ++ colon :: w3 ++ open_char t :: rest ->
  emits o buf (mkC FindingName e (TObjectStart :: stk) cur)
              (st_make (Some k) [open_char t] t)
              (mkC FindingName false (t :: TObjectStart :: stk)
                 (cur + length w1 + length k + 2 + length w2 + 1 + length w3 + 1)).
Proof.
  intros Hw1 Hw2 Hw3 Hk Ht E nt.
  set (c := mkC FindingName e (TObjectStart :: stk) cur).
  set (cur1 := cur + length w1 + length k + 2 + length w2 + 1).
  assert (E1 : skipn cur1 buf = w3 ++ open_char t :: rest).
  { unfold cur1. replace (cur + length w1 + length k + 2 + length w2 + 1)
      with (cur + length (w1 ++ quote :: k ++ quote :: w2 ++ [colon])).
    - apply skipn_step. rewrite E, <- app_assoc. cbn [app]. rewrite <- app_assoc. cbn [app]. rewrite <- app_assoc. reflexivity.
    - rewrite app_length. cbn [length]. rewrite app_length. cbn [length]. rewrite app_length. cbn [length]. lia. }
  pose proof (skipn_app_lt _ _ _ _ _ E1) as Hlt1.
  set (cur2 := cur1 + length w3 + 1) in *.
  destruct (populate_name o buf nt e stk cur w1 k w2 _ 3 Hw1 Hw2 Hk E) as (off1 & En).
  fold cur1 in En.
  assert (Hp : populateNext loop_fuel o buf tok_default nt (st_of c buf) =
    Ok (S0 FindingName FoundEnd t false cur2 (cur1 + length w3) buf (TObjectStart :: stk), NoError,
        mkTok (mkRef (InBuffer off1) k) (mkRef (InBuffer (cur1 + length w3)) [open_char t]) TString t)).
  { unfold loop_fuel, st_of, c. cbn [k_tok k_e k_stk k_cur]. rewrite En.
    rewrite populateNext_S by exact Hlt1.
    change (t_tok (canon FindingData false (TObjectStart :: stk) cur1 buf)) with FindingData. cbn iota.
    change (t_im (canon FindingData false (TObjectStart :: stk) cur1 buf)) with im_init.
    rewrite (pf_bracket _ _ _ _ _ _ _ w3 (open_char t) rest t Hw3 E1)
      by (destruct Ht as [->| ->]; reflexivity).
    cbn [obind]. change 1 with (length [open_char t]) at 2.
    rewrite (slice_at _ _ _ [open_char t] rest) by (try exact E1; lia). cbn [obind].
    destruct Ht as [->| ->]; reflexivity. }
  rewrite (next_populate _ _ _ _ _ _ Hp). cbv zeta.
  destruct Ht as [->| ->]; do 2 eexists; (split; [reflexivity|]); (split; [reflexivity|]); do 3 eexists; reflexivity.
Qed.

(** Between the end of a value and the next comma or closing bracket. *)
Lemma step_tokend o buf e t stk cur w d rest :
  skips (scalar_opts o) w -> d = comma \/ d = rbrack \/ d = rbrace ->
  skipn cur buf = w ++ d :: rest ->
  silent o buf (mkC FindingTokenEnd e (t :: stk) cur)
               (mkC FindingName (Byte.eqb d comma || e) (t :: stk)
                  (cur + length w + (if Byte.eqb d comma then 1 else 0))).
Proof.
  intros Hw Hd E nt. apply populate_eq_next.
  pose proof (skipn_app_lt _ _ _ _ _ E) as Hlt.
  destruct (fe_end o t stk buf cur w d rest Hw E Hd) as (ahead & cur' & Efe & Hcur').
  set (cur2 := cur + length w + (if Byte.eqb d comma then 1 else 0)) in *.
  unfold loop_fuel at 1. rewrite populateNext_S by exact Hlt.
  unfold st_of. cbn [k_tok k_e k_stk k_cur].
  change (t_tok (canon FindingTokenEnd e (t :: stk) cur buf)) with FindingTokenEnd. cbn iota.
  change (t_cur (canon FindingTokenEnd e (t :: stk) cur buf)) with cur.
  change (t_stack (canon FindingTokenEnd e (t :: stk) cur buf)) with (t :: stk).
  rewrite Efe, Hcur'. cbv zeta.
  replace (set_tok FindingName (set_cur cur2 _))
    with (canon FindingName (Byte.eqb d comma || e) (t :: stk) cur2 buf)
    by (destruct (Byte.eqb d comma); reflexivity).
  assert (Hle2 : cur2 <= length buf).
  { unfold cur2. assert (Hl : length (skipn cur buf) = length (w ++ d :: rest)) by (rewrite E; reflexivity).
    rewrite skipn_length, app_length in Hl. cbn [length] in Hl. destruct (Byte.eqb d comma); lia. }
  destruct (populateNext_ok o buf 4 tok_default nt (canon FindingName (Byte.eqb d comma || e) (t :: stk) cur2 buf))
    as (s1 & e1 & nt1 & E4 & _).
  - cbn. lia.
  - left. reflexivity.
  - exact Hle2.
  - rewrite E4. symmetry. apply populateNext_mono. exact E4.
Qed.
