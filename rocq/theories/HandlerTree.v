(** What the type handlers do on the tokens of a JSON value, as a function of the value, and the
    proof that the model of the handlers computes it. *)
From Verif Require Import Base Tactics ScanModel TokModel JsonSpec EscapeModel IntModel MapSpec MapProofs MapProofs2 DiffProofs SerDoc HandlerModel HandlerSpec.
From Coq Require Import Lia.

(** [Some j]: the value [j]; [None]: the closing bracket of an array. *)
Definition first_value (oj : option json) : bytes :=
  match oj with
  | Some (JScalar s) => scalar_value s
  | Some (JArr _) => [lbrack]
  | Some (JObj _) => [lbrace]
  | None => [rbrack]
  end.
Definition first_type (oj : option json) : type :=
  match oj with
  | Some (JScalar s) => scalar_type s
  | Some (JArr _) => TArrayStart
  | Some (JObj _) => TObjectStart
  | None => TArrayEnd
  end.
Definition item_tokens (name : option bytes) (oj : option json) : list stoken :=
  match oj with Some j => doc_tokens name j | None => [st_make None [rbrack] TArrayEnd] end.
Definition item_size (oj : option json) : nat := match oj with Some j => ntok j | None => 1 end.

Definition sres (A : Type) : Type := outcome (error * A * report).
Definition shandler : Type := val -> option json -> report -> sres val.

Section Sem.
Context (g : pcfg).

Definition note_missing (k : bytes) (r : report) : report := if pc_track g then (fst r ++ [k], snd r) else r.
Definition note_unassigned (l : list bytes) (r : report) : report := if pc_track g then (fst r, snd r ++ l) else r.

Fixpoint s_vec (d : val) (s : shandler) (els : list json) (acc : list val) (r : report) : sres (list val) :=
  match els with
  | [] => Ok (NoError, acc, r)
  | j :: els =>
      let* (e, v, r) := s d (Some j) r in
      if is_ok e then s_vec d s els (acc ++ [v]) r else Ok (e, acc ++ [v], r)
  end.
Fixpoint s_set (d : val) (s : shandler) (els : list json) (acc : list val) (r : report) : sres (list val) :=
  match els with
  | [] => Ok (NoError, acc, r)
  | j :: els =>
      let* (e, v, r) := s d (Some j) r in
      if is_ok e then
        if existsb (val_eqb v) acc then Ok (DuplicateInSet, acc, r) else s_set d s els (acc ++ [v]) r
      else Ok (e, acc, r)
  end.
Fixpoint s_fixed (s : shandler) (els : list json) (acc slots : list val) (r : report) : sres (list val) :=
  match slots with
  | [] => Ok (match els with [] => NoError | _ => ExpectedArrayEnd end, acc, r)
  | v :: rest =>
      let* (e, v, r) := s v (hd_error els) r in
      if is_ok e then s_fixed s (tl els) (acc ++ [v]) rest r else Ok (e, acc ++ v :: rest, r)
  end.
Fixpoint s_var (s : shandler) (els : list json) (size : nat) (acc slots : list val) (r : report) {struct slots} : sres (nat * list val) :=
  match slots with
  | [] => Ok (match els with [] => NoError | _ => ExpectedArrayEnd end, (size, acc), r)
  | v :: rest =>
      match els with
      | [] => Ok (NoError, (length acc, acc ++ v :: rest), r)
      | j :: els =>
          let* (e, v, r) := s v (Some j) r in
          if is_ok e then s_var s els size (acc ++ [v]) rest r else Ok (e, (size, acc ++ v :: rest), r)
      end
  end.
Fixpoint s_tuple (ss : list shandler) (els : list json) (acc vs : list val) (r : report) : sres (list val) :=
  match ss, vs with
  | [], [] => Ok (match els with [] => NoError | _ => ExpectedArrayEnd end, acc, r)
  | s :: ss, v :: rest =>
      let* (e, v, r) := s v (hd_error els) r in
      if is_ok e then s_tuple ss (tl els) (acc ++ [v]) rest r else Ok (e, acc ++ v :: rest, r)
  | _, _ => UB
  end.
Fixpoint s_map (d : val) (s : shandler) (ms : list (bytes * json)) (m : list (bytes * val)) (r : report) : sres (list (bytes * val)) :=
  match ms with
  | [] => Ok (NoError, m, r)
  | (k, j) :: ms =>
      let* (e, v, r) := s d (Some j) r in
      let m := map_put (escapes_in k) v m in
      if is_ok e then s_map d s ms m r else Ok (e, m, r)
  end.
Fixpoint s_members (order : list nat) (names : list (list bytes)) (ss : list shandler) (ms : list (bytes * json))
  (vs : list val) (assigned : list bool) (r : report) : sres (list val * list bool) :=
  match ms with
  | [] => Ok (NoError, (vs, assigned), r)
  | (k, j) :: ms =>
      match search_both k names order with
      | Some i =>
          match nth_error ss i, nth_error vs i with
          | Some s, Some v =>
              let* (e, v, r) := s v (Some j) r in
              let vs := put i v vs in
              let assigned := put i true assigned in
              let e := matchedMemberResult e in
              if is_ok e then s_members order names ss ms vs assigned r else Ok (e, (vs, assigned), r)
          | _, _ => UB
          end
      | None =>
          let r := note_missing k r in
          if pc_allow_missing g then s_members order names ss ms vs assigned r
          else Ok (MissingPropertyMember, (vs, assigned), r)
      end
  end.

Definition field_info (f : bytes * list bytes * ty) : bytes * list bytes * bool := (fst (fst f), snd (fst f), is_optional (snd f)).

Definition s_array {A} (oj : option json) (v : A) (r : report) (k : list json -> sres A) : sres A :=
  match oj with Some (JArr els) => k els | _ => Ok (ExpectedArrayStart, v, r) end.
Definition s_object {A} (oj : option json) (v : A) (r : report) (k : list (bytes * json) -> sres A) : sres A :=
  match oj with Some (JObj ms) => k ms | _ => Ok (ExpectedObjectStart, v, r) end.
Definition lift {A B} (f : A -> B) (x : sres A) : sres B := let* (e, a, r) := x in Ok (e, f a, r).

Fixpoint sem (t : ty) (v : val) (oj : option json) (r : report) {struct t} : sres val :=
  match t with
  | YBool =>
      if bytes_eqb (first_value oj) [x74; x72; x75; x65] then Ok (NoError, VBool true, r)
      else if bytes_eqb (first_value oj) [x66; x61; x6c; x73; x65] then Ok (NoError, VBool false, r)
      else Ok (FailedToParseBoolean, v, r)
  | YInt i => let* (e, z) := int_to i (first_value oj) in Ok (e, VInt z, r)
  | YFp single => let* (e, b) := fp_read single (first_value oj) in Ok (e, VFp single b, r)
  | YTime hr ticks => match v with VInt old => let* (e, n) := TimeModel.time_to hr ticks (first_value oj) old in Ok (e, VInt n, r) | _ => UB end
  | YString => Ok (NoError, VStr (escapes_in (first_value oj)), r)
  | YEnum names under =>
      match first_type oj with
      | TString =>
          match index_of (first_value oj) names with
          | Some i => Ok (NoError, VInt (Z.of_nat i), r)
          | None => Ok (IllegalDataValue, v, r)
          end
      | TNumber =>
          let* (e, z) := int_to under (first_value oj) in Ok (e, if is_ok e then VInt z else v, r)
      | _ => Ok (IllegalDataValue, v, r)
      end
  | YNullable t => if type_eqb (first_type oj) TNull then Ok (NoError, v, r) else sem t v oj r
  | YNullableChecked t =>
      match v with
      | VFlag _ d =>
          if type_eqb (first_type oj) TNull then Ok (NoError, VFlag true d, r)
          else lift (VFlag false) (sem t d oj r)
      | _ => UB
      end
  | YOptional t | YSilent t => sem t v oj r
  | YOptionalChecked t => match v with VFlag _ d => lift (VFlag true) (sem t d oj r) | _ => UB end
  | YStdOptional t => lift (fun d => VOpt (Some d)) (sem t (init t) oj r)
  | YPtr _ t =>
      match v with
      | VOpt o =>
          if type_eqb (first_type oj) TNull then Ok (NoError, VOpt None, r)
          else lift (fun d => VOpt (Some d)) (sem t (match o with Some x => x | None => init t end) oj r)
      | _ => UB
      end
  | YVec t => s_array oj v r (fun els => lift VList (s_vec (init t) (sem t) els [] r))
  | YOneOrMany t =>
      match oj with
      | Some (JArr els) => lift VList (s_vec (init t) (sem t) els [] r)
      | _ => match v with VList l => lift (fun x => VList (l ++ [x])) (sem t (init t) oj r) | _ => UB end
      end
  | YFixed _ t => match v with VList slots => s_array oj v r (fun els => lift VList (s_fixed (sem t) els [] slots r)) | _ => UB end
  | YVar _ t =>
      match v with
      | VVar size slots => s_array oj v r (fun els => lift (fun x => VVar (fst x) (snd x)) (s_var (sem t) els size [] slots r))
      | _ => UB
      end
  | YSet t => s_array oj v r (fun els => lift VList (s_set (init t) (sem t) els [] r))
  | YTuple ts =>
      match v with VList vs => s_array oj v r (fun els => lift VList (s_tuple (map sem ts) els [] vs r)) | _ => UB end
  | YMap t => match v with VMap m => s_object oj v r (fun ms => lift VMap (s_map (init t) (sem t) ms m r)) | _ => UB end
  | YStruct blocks fs =>
      match v with
      | VList vs =>
          s_object oj v r (fun ms =>
            let order := search_order 0 blocks in
            let* (e, x, r) := s_members order (map (fun f => snd (fst f)) fs) (map (fun f => sem (snd f)) fs) ms vs
                                (repeat false (length fs)) r in
            if is_ok e then
              match unassigned_of order (map field_info fs) (snd x) with
              | [] => Ok (NoError, VList (fst x), r)
              | l => Ok (if pc_allow_unassigned g then NoError else UnassignedRequiredMember, VList (fst x), note_unassigned l r)
              end
            else Ok (e, VList (fst x), r))
      | _ => UB
      end
  end.
End Sem.

(** Induction over types. *)
Lemma ty_rect_nested (P : ty -> Prop) :
  P YBool -> (forall i, P (YInt i)) -> (forall s, P (YFp s)) -> (forall h p, P (YTime h p)) -> P YString -> (forall n u, P (YEnum n u)) ->
  (forall t, P t -> P (YNullable t)) -> (forall t, P t -> P (YNullableChecked t)) -> (forall t, P t -> P (YOptional t)) ->
  (forall t, P t -> P (YOptionalChecked t)) -> (forall t, P t -> P (YStdOptional t)) -> (forall u t, P t -> P (YPtr u t)) ->
  (forall t, P t -> P (YSilent t)) -> (forall t, P t -> P (YVec t)) -> (forall t, P t -> P (YOneOrMany t)) ->
  (forall n t, P t -> P (YFixed n t)) -> (forall n t, P t -> P (YVar n t)) -> (forall t, P t -> P (YSet t)) ->
  (forall ts, Forall P ts -> P (YTuple ts)) -> (forall t, P t -> P (YMap t)) ->
  (forall b fs, Forall (fun f => P (snd f)) fs -> P (YStruct b fs)) -> forall t, P t.
Proof.
  intros H1 H2 H2' H2'' H3 H4 H5 H6 H7 H8 H9 H10 H11 H12 H13 H14 H15 H16 H17 H18 H19.
  fix F 1. intros t. destruct t as [|i|s|h p| |n u|t|t|t|t|t|u t|t|t|t|n t|n t|t|ts|t|b fs].
  - exact H1.
  - exact (H2 i).
  - exact (H2' s).
  - exact (H2'' h p).
  - exact H3.
  - exact (H4 n u).
  - exact (H5 t (F t)).
  - exact (H6 t (F t)).
  - exact (H7 t (F t)).
  - exact (H8 t (F t)).
  - exact (H9 t (F t)).
  - exact (H10 u t (F t)).
  - exact (H11 t (F t)).
  - exact (H12 t (F t)).
  - exact (H13 t (F t)).
  - exact (H14 n t (F t)).
  - exact (H15 n t (F t)).
  - exact (H16 t (F t)).
  - apply H17. induction ts as [|t ts IH]; constructor; [exact (F t)|exact IH].
  - exact (H18 t (F t)).
  - apply H19. induction fs as [|[f t] fs IH]; constructor; [exact (F t)|exact IH].
Qed.

(** Integers never meet undefined behaviour: the division of H 7959 is only in the count for doubles. *)
Lemma parse_digits_ok w : forall l pos sig count dec inc, exists x, parse_digits w true l pos sig count dec inc = Ok x.
Proof.
  induction l as [|c l IH]; intros; cbn [parse_digits]; [eauto|].
  destruct (negb (is_digit_char c) && negb (Byte.eqb c x2e)); [eauto|].
  destruct (Byte.eqb c x2e); [destruct (0 <=? dec)%Z; eauto|]. apply IH.
Qed.
Lemma parseNumber_ok w v : exists x, parseNumber w true v = Ok x.
Proof.
  unfold parseNumber. destruct (skipn _ v) as [|c l]; [eauto|].
  destruct (parse_digits_ok w (if Byte.eqb c x2d then l else c :: l)
    (if Byte.eqb c x2d then Datatypes.S (scalar_count (fun c0 => negb (is_space c0)) v) else scalar_count (fun c0 => negb (is_space c0)) v)
    0%N 0%N (-1)%Z true) as ([[[[[e sig] count] dec] rest] pos] & E).
  rewrite E. cbn [obind]. destruct e; eauto. destruct rest as [|c1 l1]; [eauto|].
  destruct (Byte.eqb c1 x65 || Byte.eqb c1 x45); [|eauto]. destruct l1 as [|c2 l2]; [eauto|].
  destruct (if Byte.eqb c2 x2d || Byte.eqb c2 x2b then l2 else c2 :: l2) as [|c3 l3]; [eauto|].
  destruct (parse_exponent _ _ _ _) as [[ex as'] po]. destruct as'; eauto.
Qed.
Lemma int_to_ok i v : exists e z, int_to i v = Ok (e, z).
Proof.
  unfold int_to, to_integer. destruct (parseNumber_ok (i_bits (sig_type i)) v) as ([e p] & ->). cbn [obind].
  destruct e; cbn [obind]; try (do 2 eexists; reflexivity). destruct (p_end p =? length v); do 2 eexists; reflexivity.
Qed.
Lemma int_to_fuel i v : int_to i v <> OutOfFuel.
Proof. destruct (int_to_ok i v) as (e & z & ->). discriminate. Qed.


(** Reading floating point numbers returns: the loop of H 8085 shifts a number below 2^64 to the right. *)
Lemma drop_mask_fuel : forall k f a be, (snd a < 2 ^ N.of_nat k)%N -> k < f -> DoubleModel.drop_mask f a be <> OutOfFuel.
Proof.
  induction k as [|k IH]; intros [|f] [a0 a1] be Ha Hf; try lia; cbn [snd] in Ha; cbn [DoubleModel.drop_mask].
  - change (2 ^ N.of_nat 0)%N with 1%N in Ha. replace a1 with 0%N by lia. discriminate.
  - destruct (DoubleModel.has_mask (a0, a1)); [|discriminate]. apply IH; [|lia]. unfold DoubleModel.right_shift. cbn [snd].
    unfold DoubleModel.shr. rewrite N.shiftr_div_pow2. apply N.div_lt_upper_bound; [discriminate|].
    rewrite Nat2N.inj_succ, N.pow_succ_r' in Ha. exact Ha.
Qed.
Lemma lor_lt k a b : (a < 2 ^ k)%N -> (b < 2 ^ k)%N -> (N.lor a b < 2 ^ k)%N.
Proof.
  intros Ha Hb. assert (G : forall x, (x < 2 ^ k)%N <-> (x / 2 ^ k = 0)%N).
  { intros x. rewrite N.div_small_iff by (apply N.pow_nonzero; discriminate). reflexivity. }
  apply G. rewrite <- N.shiftr_div_pow2, N.shiftr_lor, !N.shiftr_div_pow2. apply G in Ha, Hb. rewrite Ha, Hb. reflexivity.
Qed.
Lemma add128_lt a b : (snd (DoubleModel.add128 a b) < 2 ^ N.of_nat 64)%N.
Proof.
  destruct a as [a0 a1], b as [b0 b1]. unfold DoubleModel.add128. cbv zeta. cbn [snd]. apply lor_lt.
  - unfold DoubleModel.mask32. change (2 ^ 32 - 1)%N with (N.ones 32). rewrite N.land_ones.
    eapply N.lt_trans; [apply N.mod_lt; discriminate|reflexivity].
  - apply N.mod_lt. discriminate.
Qed.
Lemma mul_loop_fuel : forall n a be, DoubleModel.mul_loop n a be <> OutOfFuel.
Proof.
  induction n as [|n IH]; intros a be; cbn [DoubleModel.mul_loop]; [discriminate|]. cbv zeta.
  assert (K := drop_mask_fuel 64 128 _ be (add128_lt (DoubleModel.left_shift_by 2 (DoubleModel.left_shift_by 1 a)) (DoubleModel.left_shift_by 1 a)) ltac:(lia)).
  destruct (DoubleModel.drop_mask _ _ _) as [[a' be']| |]; cbn [obind]; [apply IH|discriminate|contradiction].
Qed.
Lemma convert_fuel p : DoubleModel.convertToNumber p <> OutOfFuel.
Proof.
  unfold DoubleModel.convertToNumber. cbv zeta. repeat (match goal with |- (if ?c then _ else _) <> _ => destruct c; [discriminate|] end).
  unfold DoubleModel.slow_path. assert (K := mul_loop_fuel (Z.to_nat (p_exp p)) (p_sig p, 0%N) 124%Z).
  destruct (DoubleModel.mul_loop _ _ _) as [[a be]| |]; cbn [obind]; [|discriminate|contradiction].
  destruct (DoubleModel.div_loop _ _ _) as [a' be']. destruct (DoubleModel.shift_left_msb a') as [a2 s]. cbv zeta.
  unfold DoubleModel.copy_denormal. repeat (match goal with |- context [if ?c then _ else _] => destruct c end); discriminate.
Qed.
Lemma parse_digits_fuel w nc : forall l pos sig count dec inc, parse_digits w nc l pos sig count dec inc <> OutOfFuel.
Proof.
  induction l as [|c l IH]; intros; cbn [parse_digits]; [discriminate|].
  repeat (match goal with |- context [if ?c then _ else _] => destruct c end; try discriminate; try apply IH).
Qed.
Lemma parseNumber_fuel w nc v : parseNumber w nc v <> OutOfFuel.
Proof.
  unfold parseNumber. destruct (skipn _ v) as [|c l]; [discriminate|].
  match goal with |- context [parse_digits w nc ?l ?p 0%N 0%N ?d true] => assert (K := parse_digits_fuel w nc l p 0%N 0%N d true); destruct (parse_digits w nc l p 0%N 0%N d true) as [[[[[[e sig] count] dec] rest] pos]| |] end;
    cbn [obind]; [|discriminate|contradiction].
  destruct e; try discriminate. destruct rest as [|c1 l1]; [discriminate|].
  destruct (Byte.eqb c1 x65 || Byte.eqb c1 x45); [|discriminate]. destruct l1 as [|c2 l2]; [discriminate|].
  destruct (if Byte.eqb c2 x2d || Byte.eqb c2 x2b then l2 else c2 :: l2) as [|c3 l3]; [discriminate|].
  destruct (parse_exponent _ _ _ _) as [[ex as'] po]. destruct as'; discriminate.
Qed.
Lemma fp_read_fuel single v : fp_read single v <> OutOfFuel.
Proof.
  unfold fp_read, FloatModel.float_to, FloatModel.to_float, DoubleModel.double_to, DoubleModel.to_double.
  assert (K := parseNumber_fuel 64 false v). destruct (parseNumber 64 false v) as [[e p]| |]; cbn [obind]; [|destruct single; discriminate|contradiction].
  assert (C := convert_fuel p).
  destruct single, e; cbn [obind]; try discriminate;
    (destruct (DoubleModel.convertToNumber p); cbn [obind]; [destruct (_ =? _); discriminate|discriminate|contradiction]).
Qed.

(** Reading a time point: whether it is undefined, and the error, do not depend on the old value. *)
Lemma time_to_total hr p v : TimeModel.time_to hr p v 0 <> UB -> forall old, exists e n, TimeModel.time_to hr p v old = Ok (e, n).
Proof.
  unfold TimeModel.time_to. destruct (int_to_ok T_uint64 v) as (e & t & ->). cbn [obind]. intros H old.
  destruct e; try (do 2 eexists; reflexivity). cbv zeta in *. unfold TimeModel.from_unit in *.
  repeat (match goal with |- context [if ?c then _ else _] => destruct c; cbn [obind] in * end; try (do 2 eexists; reflexivity); try contradiction).
Qed.
Lemma time_to_fuel hr p v old : TimeModel.time_to hr p v old <> OutOfFuel.
Proof.
  unfold TimeModel.time_to. destruct (int_to_ok T_uint64 v) as (e & t & ->). cbn [obind].
  destruct e; try discriminate. cbv zeta. unfold TimeModel.from_unit.
  repeat (match goal with |- context [if ?c then _ else _] => destruct c; cbn [obind] end; try discriminate).
Qed.
Lemma time_to_int_error hr p v old e z : int_to T_uint64 v = Ok (e, z) -> e <> NoError -> TimeModel.time_to hr p v old = Ok (e, old).
Proof. intros E He. unfold TimeModel.time_to. rewrite E. cbn [obind]. destruct e; congruence. Qed.

(** ** Sources that deliver given tokens *)
Section Run.
Context {S : Type} (next : token -> S -> outcome (S * error * token)).
Notation ctx := (ctx S).

Notation feeds := (feeds next).
Notation stands := (stands next).

Lemma cons_tail {A} (a b : A) l r : a :: l = b :: r -> r = l.
Proof. intros E. injection E as _ E. symmetry. exact E. Qed.

Lemma feeds_app l1 : forall nt s l2 s' nt', feeds nt s (l1 ++ l2) s' nt' ->
  exists s1 nt1, feeds nt s l1 s1 nt1 /\ feeds nt1 s1 l2 s' nt'.
Proof.
  induction l1 as [|v l1 IH]; intros nt s l2 s' nt' H.
  - exists s, nt. split; [constructor|exact H].
  - cbn [app] in H. inversion H as [|? ? s1 nt1 ? ? ? ? H1 H2 H3]; subst.
    destruct (IH _ _ _ _ _ H3) as (s2 & nt2 & A & B). exists s2, nt2. split; [econstructor; eauto|exact B].
Qed.

Lemma stands_app c l1 l2 s' nt' : l1 <> [] -> stands c (l1 ++ l2) s' nt' ->
  exists s1 nt1, stands c l1 s1 nt1 /\ feeds nt1 s1 l2 s' nt'.
Proof.
  intros Hne (He & r & E & F). destruct l1 as [|v l1]; [congruence|]. cbn [app] in E. injection E as -> E. rewrite <- E in F.
  destruct (feeds_app _ _ _ _ _ _ F) as (s1 & nt1 & A & B). exists s1, nt1. split; [|exact B].
  split; [exact He|]. exists l1. auto.
Qed.

Definition moved (c : ctx) (s : S) (nt : token) : ctx := mkCtx s nt NoError (c_missing c) (c_unassigned c) (c_cfg c).

Lemma ctx_next_feeds c v l s' nt' : feeds (c_tok c) (c_src c) (v :: l) s' nt' ->
  exists c', ctx_next next c = Ok (NoError, c') /\ stands c' (v :: l) s' nt' /\ rep c' = rep c /\ c_cfg c' = c_cfg c.
Proof.
  intros H. inversion H as [|? ? s1 nt1 ? ? ? ? H1 H2 H3]; subst. unfold ctx_next, ctx_read. rewrite H1. cbn [obind].
  eexists. split; [reflexivity|]. split; [|split; reflexivity]. split; [reflexivity|]. cbn. exists l. split; [reflexivity|exact H3].
Qed.
Lemma ctx_read_feeds c v l s' nt' : c_err c = NoError -> feeds (c_tok c) (c_src c) (v :: l) s' nt' ->
  exists c', ctx_read next c = Ok (NoError, c') /\ stands c' (v :: l) s' nt' /\ rep c' = rep c /\ c_cfg c' = c_cfg c.
Proof.
  intros He H. inversion H as [|? ? s1 nt1 ? ? ? ? H1 H2 H3]; subst. unfold ctx_read. rewrite H1. cbn [obind].
  eexists. split; [reflexivity|]. split; [|split; reflexivity]. split; [exact He|]. cbn. exists l. split; [reflexivity|exact H3].
Qed.

(** [at_end c s' nt']: the context has consumed its value. *)
Definition at_end (c : ctx) (s' : S) (nt' : token) : Prop := c_err c = NoError /\ c_src c = s' /\ c_tok c = nt'.

Definition agrees {A} (g : pcfg) (s' : S) (nt' : token) (x : outcome (error * A * ctx)) (y : sres A) : Prop :=
  match y with
  | Ok (e, a, r) => exists c', x = Ok (e, a, c') /\ rep c' = r /\ c_cfg c' = g /\ (e = NoError -> at_end c' s' nt')
  | UB => x = UB
  | OutOfFuel => False
  end.

Lemma agrees_here {A} g c e (a : A) s' nt' : c_cfg c = g -> (e = NoError -> at_end c s' nt') ->
  agrees g s' nt' (Ok (e, a, c)) (Ok (e, a, rep c)).
Proof. intros Hg H. exists c. auto. Qed.
Lemma agrees_fail {A} g c e (a : A) s' nt' : c_cfg c = g -> e <> NoError -> agrees g s' nt' (Ok (e, a, c)) (Ok (e, a, rep c)).
Proof. intros Hg H. exists c. repeat split; try assumption; contradiction. Qed.

Lemma is_ok_spec e : is_ok e = true <-> e = NoError.
Proof. destruct e; cbn; split; congruence. Qed.

(** Runs of a handler followed by something. *)
Lemma agrees_bind {A B} g s1 nt1 s' nt' x y (kx : error -> A -> ctx -> outcome (error * B * ctx)) (ky : error -> A -> report -> sres B) :
  agrees g s1 nt1 x y ->
  (forall e a c, c_cfg c = g -> (e = NoError -> at_end c s1 nt1) -> agrees g s' nt' (kx e a c) (ky e a (rep c))) ->
  agrees g s' nt' (let* (e, a, c) := x in kx e a c) (let* (e, a, r) := y in ky e a r).
Proof.
  intros H K. destruct y as [[[e a] r]| |]; cbn [agrees] in H.
  - destruct H as (c' & -> & Hr & Hg & He). cbn [obind]. subst r. apply K; assumption.
  - rewrite H. reflexivity.
  - contradiction.
Qed.

Lemma agrees_lift {A B} (f : A -> B) g s' nt' x y : agrees g s' nt' x y ->
  agrees g s' nt' (let* (e, a, c) := x in Ok (e, f a, c)) (lift f y).
Proof. intros H. unfold lift. eapply agrees_bind; [exact H|]. intros e a c Hg He. apply agrees_here; assumption. Qed.

(** What a handler sees. *)
Lemma item_head name oj : exists r, item_tokens name oj = st_make (match oj with Some _ => name | None => None end) (first_value oj) (first_type oj) :: r.
Proof. destruct oj as [[s|els|ms]|]; eexists; reflexivity. Qed.
Lemma item_nonempty name oj : item_tokens name oj <> [].
Proof. destruct (item_head name oj) as (r & ->). discriminate. Qed.
Lemma stands_view c name oj s' nt' : stands c (item_tokens name oj) s' nt' -> c_value c = first_value oj /\ c_type c = first_type oj.
Proof.
  intros (_ & r & E & _). destruct (item_head name oj) as (r0 & E0). rewrite E0 in E. injection E as E _.
  unfold c_value, c_type. destruct (match oj with Some _ => name | None => None end); unfold tok_view in E; injection E as _ _ <- <-; split; reflexivity.
Qed.
Lemma stands_name c k j s' nt' : stands c (item_tokens (Some k) (Some j)) s' nt' -> c_name c = k.
Proof.
  intros (_ & r & E & _). destruct (item_head (Some k) (Some j)) as (r0 & E0). rewrite E0 in E. injection E as E _.
  symmetry. exact E.
Qed.
Lemma stands_one c v s' nt' : stands c [v] s' nt' -> at_end c s' nt'.
Proof. intros (He & r & E & F). injection E as _ <-. inversion F; subst. split; [exact He|]. split; reflexivity. Qed.
Lemma scalar_one c name s s' nt' : stands c (item_tokens name (Some (JScalar s))) s' nt' -> at_end c s' nt'.
Proof. apply stands_one. Qed.

Lemma elements_head els : exists v r, flat_map (doc_tokens None) els ++ [st_make None [rbrack] TArrayEnd] = v :: r /\
  st_value_type v = first_type (hd_error els).
Proof. destruct els as [|[s|l|l] els]; do 2 eexists; (split; [reflexivity|]); reflexivity. Qed.

(** Into an array. *)
Lemma enter_array c els name s' nt' : stands c (item_tokens name (Some (JArr els))) s' nt' ->
  exists c', ctx_next next c = Ok (NoError, c') /\ rep c' = rep c /\ c_cfg c' = c_cfg c /\
    stands c' (flat_map (doc_tokens None) els ++ [st_make None [rbrack] TArrayEnd]) s' nt'.
Proof.
  intros (He & r & E & F). cbn [item_tokens doc_tokens] in E. apply cons_tail in E. rewrite E in F.
  destruct (elements_head els) as (v & r0 & E0 & _). rewrite E0 in F |- *.
  destruct (ctx_next_feeds _ _ _ _ _ F) as (c' & A & B & C & D). exists c'. auto.
Qed.
Lemma enter_object c ms name s' nt' : stands c (item_tokens name (Some (JObj ms))) s' nt' ->
  forall rd, (rd = ctx_next next c \/ rd = ctx_read next c) ->
  exists c', rd = Ok (NoError, c') /\ rep c' = rep c /\ c_cfg c' = c_cfg c /\
    stands c' (flat_map (fun kv => doc_tokens (Some (fst kv)) (snd kv)) ms ++ [st_make None [rbrace] TObjectEnd]) s' nt'.
Proof.
  intros (He & r & E & F) rd Hrd. cbn [item_tokens doc_tokens] in E. apply cons_tail in E. rewrite E in F.
  assert (H : exists v r0, flat_map (fun kv => doc_tokens (Some (fst kv)) (snd kv)) ms ++ [st_make None [rbrace] TObjectEnd] = v :: r0).
  { destruct ms as [|[k [x|x|x]] ms]; do 2 eexists; reflexivity. }
  destruct H as (v & r0 & E0). rewrite E0 in F |- *. destruct Hrd as [->| ->].
  - destruct (ctx_next_feeds _ _ _ _ _ F) as (c' & A & B & C & D). exists c'. auto.
  - destruct (ctx_read_feeds _ _ _ _ _ He F) as (c' & A & B & C & D). exists c'. auto.
Qed.

Lemma type_eqb_true a b : type_eqb a b = true <-> a = b.
Proof. destruct a, b; cbn; split; congruence. Qed.

(** At the element list [els]: on the closing bracket, or on the first element. *)
Lemma on_elements c els s' nt' : stands c (flat_map (doc_tokens None) els ++ [st_make None [rbrack] TArrayEnd]) s' nt' ->
  match els with
  | [] => c_type c = TArrayEnd /\ stands c (item_tokens None None) s' nt'
  | j :: els' =>
      c_type c = first_type (Some j) /\
      exists s1 nt1, stands c (item_tokens None (Some j)) s1 nt1 /\
        feeds nt1 s1 (flat_map (doc_tokens None) els' ++ [st_make None [rbrack] TArrayEnd]) s' nt'
  end.
Proof.
  destruct els as [|j els]; intros H.
  - split; [|exact H]. apply (stands_view c None None s' nt'). exact H.
  - cbn [flat_map] in H. rewrite <- app_assoc in H.
    destruct (stands_app c (item_tokens None (Some j)) _ s' nt' (item_nonempty _ _) H) as (s1 & nt1 & A & B).
    split; [exact (proj2 (stands_view _ _ _ _ _ A))|]. exists s1, nt1. auto.
Qed.
Lemma next_element c els s1 nt1 s' nt' : at_end c s1 nt1 ->
  feeds nt1 s1 (flat_map (doc_tokens None) els ++ [st_make None [rbrack] TArrayEnd]) s' nt' ->
  exists c', ctx_next next c = Ok (NoError, c') /\ rep c' = rep c /\ c_cfg c' = c_cfg c /\
    stands c' (flat_map (doc_tokens None) els ++ [st_make None [rbrack] TArrayEnd]) s' nt'.
Proof.
  intros (He & <- & <-) F. destruct (elements_head els) as (v & r0 & E0 & _). rewrite E0 in F |- *.
  destruct (ctx_next_feeds _ _ _ _ _ F) as (c' & A & B & C & D). exists c'. auto.
Qed.

Lemma first_not_end j : type_eqb (first_type (Some j)) TArrayEnd = false /\ type_eqb (first_type (Some j)) TObjectEnd = false.
Proof. destruct j as [[]| |]; split; reflexivity. Qed.

(** ** The loops *)
Context (g : pcfg).

Definition ok_on (fuel : nat) (P : val -> Prop) (h : handler S) (s : shandler) (oj : option json) : Prop :=
  forall name v c s' nt', P v -> c_cfg c = g -> stands c (item_tokens name oj) s' nt' -> item_size oj <= fuel ->
    agrees g s' nt' (h v c) (s v oj (rep c)).

Lemma vec_loop_ok fuel (P : val -> Prop) d h s : P d -> forall els, Forall (fun j => ok_on fuel P h s (Some j)) els -> list_sum (map ntok els) <= fuel ->
  forall f acc c s' nt', c_cfg c = g -> length els < f ->
  stands c (flat_map (doc_tokens None) els ++ [st_make None [rbrack] TArrayEnd]) s' nt' ->
  agrees g s' nt' (vec_loop next f d h acc c) (s_vec d s els acc (rep c)).
Proof.
  intros Hd. induction els as [|j els IH]; intros Hok Hf f acc c s' nt' Hg Hlen Hst; (destruct f as [|f]; [cbn in Hlen; lia|]); cbn [vec_loop s_vec].
  - destruct (on_elements c [] s' nt' Hst) as [Ht Hs]. rewrite Ht. cbn [type_eqb].
    apply agrees_here; [exact Hg|]. intros _. exact (stands_one _ _ _ _ Hs).
  - destruct (on_elements c (j :: els) s' nt' Hst) as (Ht & s1 & nt1 & A & B). rewrite Ht, (proj1 (first_not_end j)).
    inversion Hok as [|? ? Hj Hels]; subst. cbn [map] in Hf. change (list_sum (ntok j :: map ntok els)) with (ntok j + list_sum (map ntok els)) in Hf.
    eapply agrees_bind; [apply (Hj None d c s1 nt1 Hd Hg A); cbn; lia|]. clear c Hst Ht A Hg.
    intros e a c Hg He. destruct (is_ok e) eqn:Eo.
    + apply is_ok_spec in Eo. destruct (next_element c els s1 nt1 s' nt' (He Eo) B) as (c' & E & Hr & Hg' & Hst).
      rewrite E. cbn [obind is_ok]. rewrite <- Hr. apply IH; [exact Hels|lia|congruence|cbn in Hlen; lia|exact Hst].
    + apply agrees_fail; [exact Hg|]. intros ->. discriminate Eo.
Qed.

Lemma set_loop_ok fuel (P : val -> Prop) d h s : P d -> forall els, Forall (fun j => ok_on fuel P h s (Some j)) els -> list_sum (map ntok els) <= fuel ->
  forall f acc c s' nt', c_cfg c = g -> length els < f ->
  stands c (flat_map (doc_tokens None) els ++ [st_make None [rbrack] TArrayEnd]) s' nt' ->
  agrees g s' nt' (set_loop next f d h acc c) (s_set d s els acc (rep c)).
Proof.
  intros Hd. induction els as [|j els IH]; intros Hok Hf f acc c s' nt' Hg Hlen Hst; (destruct f as [|f]; [cbn in Hlen; lia|]); cbn [set_loop s_set].
  - destruct (on_elements c [] s' nt' Hst) as [Ht Hs]. rewrite Ht. cbn [type_eqb].
    apply agrees_here; [exact Hg|]. intros _. exact (stands_one _ _ _ _ Hs).
  - destruct (on_elements c (j :: els) s' nt' Hst) as (Ht & s1 & nt1 & A & B). rewrite Ht, (proj1 (first_not_end j)).
    inversion Hok as [|? ? Hj Hels]; subst. cbn [map] in Hf. change (list_sum (ntok j :: map ntok els)) with (ntok j + list_sum (map ntok els)) in Hf.
    eapply agrees_bind; [apply (Hj None d c s1 nt1 Hd Hg A); cbn; lia|]. clear c Hst Ht A Hg.
    intros e a c Hg He. destruct (is_ok e) eqn:Eo.
    + apply is_ok_spec in Eo. destruct (existsb (val_eqb a) acc); [apply agrees_fail; [exact Hg|discriminate]|].
      destruct (next_element c els s1 nt1 s' nt' (He Eo) B) as (c' & E & Hr & Hg' & Hst).
      rewrite E. cbn [obind is_ok]. rewrite <- Hr. apply IH; [exact Hels|lia|congruence|cbn in Hlen; lia|exact Hst].
    + apply agrees_fail; [exact Hg|]. intros ->. discriminate Eo.
Qed.

Lemma set_err_ok e (c : ctx) : c_err c = e -> set_err e c = c.
Proof. intros <-. destruct c. reflexivity. Qed.

(** A handler that fails at the closing bracket. *)
Definition rejects (s : shandler) : Prop := forall v r e v' r', s v None r = Ok (e, v', r') -> e <> NoError.

Lemma fixed_loop_ok fuel (P : val -> Prop) h s : forall slots els, Forall P slots ->
  Forall (fun j => ok_on fuel P h s (Some j)) (firstn (length slots) els) ->
  (length els < length slots -> ok_on fuel P h s None /\ rejects s /\ 1 <= fuel) -> list_sum (map ntok els) <= fuel ->
  forall acc c s' nt', c_cfg c = g ->
  stands c (flat_map (doc_tokens None) els ++ [st_make None [rbrack] TArrayEnd]) s' nt' ->
  agrees g s' nt' (fixed_loop next h acc slots c) (s_fixed s els acc slots (rep c)).
Proof.
  induction slots as [|v slots IH]; intros els HP Hok Hend Hf acc c s' nt' Hg Hst; cbn [fixed_loop s_fixed].
  - assert (He : c_err c = NoError) by apply Hst. destruct els as [|j els].
    + destruct (on_elements c [] s' nt' Hst) as [Ht Hs]. rewrite Ht, He. apply agrees_here; [exact Hg|]. intros _. exact (stands_one _ _ _ _ Hs).
    + destruct (on_elements c (j :: els) s' nt' Hst) as (Ht & _). rewrite Ht, (proj1 (first_not_end j)). apply agrees_fail; [exact Hg|discriminate].
  - inversion HP as [|? ? Pv Pslots]; subst. assert (He : c_err c = NoError) by apply Hst. rewrite He. cbn [is_ok]. destruct els as [|j els]; cbn [hd_error tl].
    + destruct (on_elements c [] s' nt' Hst) as [_ Hs]. destruct Hend as (Hn & Hrej & Hf1); [cbn; lia|].
      assert (Hag := Hn None v c s' nt' Pv Hg Hs Hf1). specialize (Hrej v (rep c)).
      destruct (s v None (rep c)) as [[[e v'] r']| |]; cbn [agrees] in Hag.
      * destruct Hag as (c' & -> & Hr & Hg' & _). cbn [obind]. specialize (Hrej e v' r' eq_refl).
        destruct (is_ok e) eqn:Eo; [apply is_ok_spec in Eo; contradiction|]. subst r'.
        change (rep c') with (rep (set_err e c')). apply agrees_fail; [exact Hg'|exact Hrej].
      * rewrite Hag. reflexivity.
      * contradiction.
    + destruct (on_elements c (j :: els) s' nt' Hst) as (Ht & s1 & nt1 & A & B).
      cbn [firstn length] in Hok. inversion Hok as [|? ? Hj Hels]; subst. change (list_sum (map ntok (j :: els))) with (ntok j + list_sum (map ntok els)) in Hf.
      eapply agrees_bind; [apply (Hj None v c s1 nt1 Pv Hg A); cbn; lia|]. clear c Hst Ht A He Hok Hg.
      intros e a c Hg He. destruct (is_ok e) eqn:Eo.
      * apply is_ok_spec in Eo. subst e. rewrite (set_err_ok NoError c) by apply (He eq_refl).
        destruct (next_element c els s1 nt1 s' nt' (He eq_refl) B) as (c' & E & Hr & Hg' & Hst).
        rewrite E. cbn [obind]. rewrite <- Hr. apply IH; [exact Pslots|exact Hels|intros Hl; apply Hend; cbn; lia|lia|congruence|exact Hst].
      * change (rep c) with (rep (set_err e c)). apply agrees_fail; [exact Hg|]. intros ->. discriminate Eo.
Qed.

Lemma var_loop_ok fuel (P : val -> Prop) h s size : forall slots els, Forall P slots ->
  Forall (fun j => ok_on fuel P h s (Some j)) (firstn (length slots) els) -> list_sum (map ntok els) <= fuel ->
  forall acc c s' nt', c_cfg c = g ->
  stands c (flat_map (doc_tokens None) els ++ [st_make None [rbrack] TArrayEnd]) s' nt' ->
  agrees g s' nt' (var_loop next h size acc slots c) (s_var s els size acc slots (rep c)).
Proof.
  induction slots as [|v slots IH]; intros els HP Hok Hf acc c s' nt' Hg Hst; cbn [var_loop s_var].
  - assert (He : c_err c = NoError) by apply Hst. destruct els as [|j els].
    + destruct (on_elements c [] s' nt' Hst) as [Ht Hs]. rewrite Ht, He. apply agrees_here; [exact Hg|]. intros _. exact (stands_one _ _ _ _ Hs).
    + destruct (on_elements c (j :: els) s' nt' Hst) as (Ht & _). rewrite Ht, (proj1 (first_not_end j)). apply agrees_fail; [exact Hg|discriminate].
  - inversion HP as [|? ? Pv Pslots]; subst. assert (He : c_err c = NoError) by apply Hst. rewrite He. cbn [is_ok]. destruct els as [|j els]; cbn [hd_error tl].
    + destruct (on_elements c [] s' nt' Hst) as [Ht Hs]. rewrite Ht. cbn [type_eqb].
      apply agrees_here; [exact Hg|]. intros _. exact (stands_one _ _ _ _ Hs).
    + destruct (on_elements c (j :: els) s' nt' Hst) as (Ht & s1 & nt1 & A & B). rewrite Ht, (proj1 (first_not_end j)).
      cbn [firstn length] in Hok. inversion Hok as [|? ? Hj Hels]; subst. change (list_sum (map ntok (j :: els))) with (ntok j + list_sum (map ntok els)) in Hf.
      eapply agrees_bind; [apply (Hj None v c s1 nt1 Pv Hg A); cbn; lia|]. clear c Hst Ht A He Hok Hg.
      intros e a c Hg He. destruct (is_ok e) eqn:Eo.
      * apply is_ok_spec in Eo. subst e. rewrite (set_err_ok NoError c) by apply (He eq_refl).
        destruct (next_element c els s1 nt1 s' nt' (He eq_refl) B) as (c' & E & Hr & Hg' & Hst).
        rewrite E. cbn [obind]. rewrite <- Hr. apply IH; [exact Pslots|exact Hels|lia|congruence|exact Hst].
      * change (rep c) with (rep (set_err e c)). apply agrees_fail; [exact Hg|]. intros ->. discriminate Eo.
Qed.

Fixpoint tuple_fits (fuel : nat) (ps : list (val -> Prop)) (hs : list (handler S)) (ss : list shandler) (els : list json) : Prop :=
  match ps, hs, ss with
  | [], [], [] => True
  | P :: ps, h :: hs, s :: ss =>
      ok_on fuel P h s (hd_error els) /\ (els = [] -> rejects s /\ 1 <= fuel) /\ (els <> [] -> tuple_fits fuel ps hs ss (tl els))
  | _, _, _ => False
  end.
Lemma tuple_loop_ok fuel : forall ps hs ss els, tuple_fits fuel ps hs ss els -> list_sum (map ntok els) <= fuel ->
  forall vs acc c s' nt', all2 ps vs -> c_cfg c = g ->
  stands c (flat_map (doc_tokens None) els ++ [st_make None [rbrack] TArrayEnd]) s' nt' ->
  agrees g s' nt' (tuple_loop next hs acc vs c) (s_tuple ss els acc vs (rep c)).
Proof.
  induction ps as [|P ps IH]; intros [|h hs] [|s ss] els Hfit Hf vs acc c s' nt' HP Hg Hst; try destruct Hfit; destruct vs as [|v vs]; cbn [tuple_loop s_tuple]; try (destruct HP; fail).
  - assert (He : c_err c = NoError) by apply Hst. destruct els as [|j els].
    + destruct (on_elements c [] s' nt' Hst) as [Ht Hs]. rewrite Ht. apply agrees_here; [exact Hg|]. intros _. exact (stands_one _ _ _ _ Hs).
    + destruct (on_elements c (j :: els) s' nt' Hst) as (Ht & _). rewrite Ht, (proj1 (first_not_end j)). apply agrees_fail; [exact Hg|discriminate].
  - destruct HP as [Pv Pvs]. rename H into Hj, H0 into Hrest. destruct els as [|j els]; cbn [hd_error tl] in *.
    + destruct (on_elements c [] s' nt' Hst) as [_ Hs]. destruct Hrest as ((Hrej & Hf1) & _); [reflexivity|].
      assert (Hag := Hj None v c s' nt' Pv Hg Hs Hf1). specialize (Hrej v (rep c)).
      destruct (s v None (rep c)) as [[[e v'] r']| |]; cbn [agrees] in Hag.
      * destruct Hag as (c' & -> & Hr & Hg' & _). cbn [obind]. specialize (Hrej e v' r' eq_refl).
        destruct (is_ok e) eqn:Eo; [apply is_ok_spec in Eo; contradiction|]. subst r'. apply agrees_fail; [exact Hg'|exact Hrej].
      * rewrite Hag. reflexivity.
      * contradiction.
    + destruct (on_elements c (j :: els) s' nt' Hst) as (Ht & s1 & nt1 & A & B).
      change (list_sum (map ntok (j :: els))) with (ntok j + list_sum (map ntok els)) in Hf.
      eapply agrees_bind; [apply (Hj None v c s1 nt1 Pv Hg A); cbn; lia|]. clear c Hst Ht A Hg.
      intros e a c Hg He. destruct (is_ok e) eqn:Eo.
      * apply is_ok_spec in Eo. subst e.
        destruct (next_element c els s1 nt1 s' nt' (He eq_refl) B) as (c' & E & Hr & Hg' & Hst).
        rewrite E. cbn [obind is_ok]. rewrite <- Hr. apply IH; [apply Hrest; discriminate|lia|exact Pvs|congruence|exact Hst].
      * apply agrees_fail; [exact Hg|]. intros ->. discriminate Eo.
Qed.

(** Members. *)
Lemma on_members c ms s' nt' :
  stands c (flat_map (fun kv => doc_tokens (Some (fst kv)) (snd kv)) ms ++ [st_make None [rbrace] TObjectEnd]) s' nt' ->
  match ms with
  | [] => c_type c = TObjectEnd /\ at_end c s' nt'
  | (k, j) :: ms' =>
      c_type c = first_type (Some j) /\ c_name c = k /\
      exists s1 nt1, stands c (item_tokens (Some k) (Some j)) s1 nt1 /\
        feeds nt1 s1 (flat_map (fun kv => doc_tokens (Some (fst kv)) (snd kv)) ms' ++ [st_make None [rbrace] TObjectEnd]) s' nt'
  end.
Proof.
  destruct ms as [|[k j] ms]; intros H.
  - split; [|apply stands_one in H; exact H]. destruct H as (_ & r & E & _). cbn [flat_map app st_make] in E.
    unfold tok_view in E. injection E as _ _ _ E _. symmetry. exact E.
  - cbn [flat_map fst snd] in H. rewrite <- app_assoc in H.
    destruct (stands_app c (item_tokens (Some k) (Some j)) _ s' nt' (item_nonempty _ _) H) as (s1 & nt1 & A & B).
    split; [exact (proj2 (stands_view _ _ _ _ _ A))|]. split; [exact (stands_name _ _ _ _ _ A)|]. exists s1, nt1. auto.
Qed.
Lemma next_member c ms s1 nt1 s' nt' : at_end c s1 nt1 ->
  feeds nt1 s1 (flat_map (fun kv => doc_tokens (Some (fst kv)) (snd kv)) ms ++ [st_make None [rbrace] TObjectEnd]) s' nt' ->
  exists c', ctx_next next c = Ok (NoError, c') /\ rep c' = rep c /\ c_cfg c' = c_cfg c /\
    stands c' (flat_map (fun kv => doc_tokens (Some (fst kv)) (snd kv)) ms ++ [st_make None [rbrace] TObjectEnd]) s' nt'.
Proof.
  intros (He & <- & <-) F.
  assert (H : exists v r0, flat_map (fun kv => doc_tokens (Some (fst kv)) (snd kv)) ms ++ [st_make None [rbrace] TObjectEnd] = v :: r0).
  { destruct ms as [|[k [x|x|x]] ms]; do 2 eexists; reflexivity. }
  destruct H as (v & r0 & E0). rewrite E0 in F |- *.
  destruct (ctx_next_feeds _ _ _ _ _ F) as (c' & A & B & C & D). exists c'. auto.
Qed.

Lemma map_loop_ok fuel (P : val -> Prop) d h s : P d -> forall ms, Forall (fun kv => ok_on fuel P h s (Some (snd kv))) ms ->
  msum ntok ms <= fuel ->
  forall f m c s' nt', c_cfg c = g -> length ms < f ->
  stands c (flat_map (fun kv => doc_tokens (Some (fst kv)) (snd kv)) ms ++ [st_make None [rbrace] TObjectEnd]) s' nt' ->
  agrees g s' nt' (map_loop next f d h NoError m c) (s_map d s ms m (rep c)).
Proof.
  intros Hd. induction ms as [|[k j] ms IH]; intros Hok Hf f m c s' nt' Hg Hlen Hst; (destruct f as [|f]; [cbn in Hlen; lia|]); cbn [map_loop s_map].
  - destruct (on_members c [] s' nt' Hst) as [Ht Hs]. rewrite Ht. cbn [type_eqb].
    apply agrees_here; [exact Hg|]. intros _. exact Hs.
  - destruct (on_members c ((k, j) :: ms) s' nt' Hst) as (Ht & Hk & s1 & nt1 & A & B). rewrite Ht, (proj2 (first_not_end j)), Hk.
    inversion Hok as [|? ? Hj Hels]; subst. rewrite msum_cons in Hf. cbn [snd] in Hf.
    eapply agrees_bind; [apply (Hj (Some (c_name c)) d c s1 nt1 Hd Hg A); cbn [item_size snd]; lia|]. cbn [length] in Hlen. generalize (c_name c) as k. clear Hj; clear c Hst Ht A Hg Hok.
    intros k e a c Hg He. destruct (is_ok e) eqn:Eo.
    + apply is_ok_spec in Eo. subst e. destruct (next_member c ms s1 nt1 s' nt' (He eq_refl) B) as (c' & E & Hr & Hg' & Hst).
      rewrite E. cbn [obind]. rewrite <- Hr. apply IH; [exact Hels|lia|congruence|cbn in Hlen; lia|exact Hst].
    + apply agrees_fail; [exact Hg|]. intros ->. discriminate Eo.
Qed.

(** Skipping a value. *)
Definition bracket_pair (start stop : type) : Prop := (start = TObjectStart /\ stop = TObjectEnd) \/ (start = TArrayStart /\ stop = TArrayEnd).

Lemma skip_one start stop f d c v s1 nt1 : bracket_pair start stop -> feeds (c_tok c) (c_src c) [v] s1 nt1 ->
  skip_loop next (Datatypes.S f) start stop (Datatypes.S d) c =
  skip_loop next f start stop
    (if type_eqb (st_value_type v) start then Datatypes.S (Datatypes.S d) else if type_eqb (st_value_type v) stop then d else Datatypes.S d)
    (moved c s1 nt1).
Proof.
  intros Hp H. inversion H as [|? ? s2 nt2 ? ? ? ? H1 H2 H3]; subst. inversion H3; subst.
  cbn [skip_loop]. unfold ctx_next, ctx_read. rewrite H1. cbn [obind is_ok]. reflexivity.
Qed.

Lemma skip_doc start stop : bracket_pair start stop -> forall j name f d c s1 nt1,
  feeds (c_tok c) (c_src c) (doc_tokens name j) s1 nt1 ->
  skip_loop next (ntok j + f) start stop (Datatypes.S d) c = skip_loop next f start stop (Datatypes.S d) (moved c s1 nt1).
Proof.
  intros Hp.
  assert (FE : forall els, Forall (fun j => forall name f d c s1 nt1, feeds (c_tok c) (c_src c) (doc_tokens name j) s1 nt1 ->
      skip_loop next (ntok j + f) start stop (Datatypes.S d) c = skip_loop next f start stop (Datatypes.S d) (moved c s1 nt1)) els ->
    forall names f d c s1 nt1, length names = length els ->
    feeds (c_tok c) (c_src c) (concat (map (fun nj => doc_tokens (fst nj) (snd nj)) (combine names els))) s1 nt1 ->
    skip_loop next (list_sum (map ntok els) + f) start stop (Datatypes.S d) c = skip_loop next f start stop (Datatypes.S d) (moved c s1 nt1) \/ els = []).
  { intros els Hels. induction Hels as [|j els Hj Hels IH]; intros names f d c s1 nt1 Hl F; [right; reflexivity|left].
    destruct names as [|name names]; [discriminate Hl|]. cbn [combine map concat fst snd] in F.
    destruct (feeds_app _ _ _ _ _ _ F) as (s2 & nt2 & A & B).
    change (list_sum (map ntok (j :: els))) with (ntok j + list_sum (map ntok els)). rewrite <- Nat.add_assoc.
    rewrite (Hj name _ d c s2 nt2 A).
    destruct (IH names f d (moved c s2 nt2) s1 nt1 ltac:(cbn in Hl; lia) B) as [E| ->].
    - rewrite E. reflexivity.
    - destruct names; [|cbn in Hl; lia]. cbn in B. inversion B; subst. reflexivity. }
  assert (GE : forall els, Forall (fun j => forall name f d c s1 nt1, feeds (c_tok c) (c_src c) (doc_tokens name j) s1 nt1 ->
      skip_loop next (ntok j + f) start stop (Datatypes.S d) c = skip_loop next f start stop (Datatypes.S d) (moved c s1 nt1)) els ->
    forall names f d c v v' s1 nt1, length names = length els ->
    (type_eqb (st_value_type v) start = type_eqb (st_value_type v') stop) -> type_eqb (st_value_type v) stop = false -> type_eqb (st_value_type v') start = false ->
    feeds (c_tok c) (c_src c) (v :: concat (map (fun nj => doc_tokens (fst nj) (snd nj)) (combine names els)) ++ [v']) s1 nt1 ->
    skip_loop next (2 + list_sum (map ntok els) + f) start stop (Datatypes.S d) c = skip_loop next f start stop (Datatypes.S d) (moved c s1 nt1)).
  { intros els Hels names f d c v v' s1 nt1 Hl E1 E2 E3 F.
    change (v :: concat (map (fun nj => doc_tokens (fst nj) (snd nj)) (combine names els)) ++ [v'])
      with ([v] ++ (concat (map (fun nj => doc_tokens (fst nj) (snd nj)) (combine names els)) ++ [v'])) in F.
    destruct (feeds_app _ _ _ _ _ _ F) as (s2 & nt2 & A & B).
    destruct (feeds_app _ _ _ _ _ _ B) as (s3 & nt3 & B1 & B2).
    replace (2 + list_sum (map ntok els) + f) with (Datatypes.S (list_sum (map ntok els) + (Datatypes.S f))) by lia.
    rewrite (skip_one start stop _ d c v s2 nt2 Hp A). rewrite E2.
    assert (E : forall d', skip_loop next (list_sum (map ntok els) + Datatypes.S f) start stop (Datatypes.S d') (moved c s2 nt2) =
                 skip_loop next (Datatypes.S f) start stop (Datatypes.S d') (moved c s3 nt3)).
    { intros d'. destruct (FE els Hels names (Datatypes.S f) d' (moved c s2 nt2) s3 nt3 Hl B1) as [E| ->]; [exact E|].
      destruct names; [|discriminate Hl]. cbn in B1. inversion B1; subst. reflexivity. }
    destruct (type_eqb (st_value_type v) start); rewrite E; rewrite (skip_one start stop f _ (moved c s3 nt3) v' s1 nt1 Hp B2), E3, <- E1; reflexivity. }
  assert (CN : forall els, flat_map (doc_tokens None) els = concat (map (fun nj => doc_tokens (fst nj) (snd nj)) (combine (repeat None (length els)) els))).
  { induction els as [|j els IH]; [reflexivity|]. cbn. rewrite IH. reflexivity. }
  assert (CM : forall ms : list (bytes * json), flat_map (fun kv => doc_tokens (Some (fst kv)) (snd kv)) ms =
     concat (map (fun nj => doc_tokens (fst nj) (snd nj)) (combine (map (fun kv => Some (fst kv)) ms) (map snd ms)))).
  { induction ms as [|[k j] ms IH]; [reflexivity|]. cbn. rewrite IH. reflexivity. }
  induction j as [s|els IH|ms IH] using json_rect_nested; intros name f d c s1 nt1 F.
  - cbn [doc_tokens] in F. change (ntok (JScalar s) + f) with (Datatypes.S f). rewrite (skip_one start stop f d c _ s1 nt1 Hp F).
    destruct Hp as [[-> ->]|[-> ->]], name, s; reflexivity.
  - cbn [doc_tokens] in F. rewrite CN in F.
    assert (N : ntok (JArr els) + f = 2 + list_sum (map ntok els) + f) by (rewrite ntok_JArr; unfold esum; lia). rewrite N.
    apply (GE els IH _ f d c _ _ s1 nt1) with (5 := F); [apply repeat_length|..];
      destruct Hp as [[-> ->]|[-> ->]], name; reflexivity.
  - cbn [doc_tokens] in F. rewrite CM in F.
    assert (N : ntok (JObj ms) + f = 2 + list_sum (map ntok (map snd ms)) + f) by (rewrite ntok_JObj, map_map; unfold msum; lia). rewrite N.
    assert (IH' : Forall (fun j => forall name f d c s1 nt1, feeds (c_tok c) (c_src c) (doc_tokens name j) s1 nt1 ->
      skip_loop next (ntok j + f) start stop (Datatypes.S d) c = skip_loop next f start stop (Datatypes.S d) (moved c s1 nt1)) (map snd ms)).
    { clear -IH. induction IH as [|kv ms H _ IH]; constructor; assumption. }
    apply (GE (map snd ms) IH' _ f d c _ _ s1 nt1) with (5 := F); [rewrite !map_length; reflexivity|..];
      destruct Hp as [[-> ->]|[-> ->]], name; reflexivity.
Qed.

Lemma skip_value_ok fuel c k j s1 nt1 : stands c (item_tokens (Some k) (Some j)) s1 nt1 -> ntok j <= fuel ->
  skipArrayOrObject next fuel c = Ok (moved c s1 nt1).
Proof.
  intros Hst Hf. destruct (stands_view _ _ _ _ _ Hst) as [_ Ht]. unfold skipArrayOrObject. rewrite Ht.
  destruct j as [s|els|ms].
  - assert (E : moved c s1 nt1 = c).
    { destruct (scalar_one _ _ _ _ _ Hst) as (A & B & C). destruct c. cbn in *. subst. reflexivity. }
    rewrite E. destruct s; reflexivity.
  - cbn [first_type]. destruct Hst as (_ & r & E & F). cbn [item_tokens doc_tokens] in E. apply cons_tail in E. rewrite E in F.
    destruct (feeds_app _ _ _ _ _ _ F) as (s2 & nt2 & A & B).
    rewrite ntok_JArr in Hf. unfold esum in Hf.
    assert (W : forall l f c s2 nt2, feeds (c_tok c) (c_src c) (flat_map (doc_tokens None) l) s2 nt2 -> 
        skip_loop next (list_sum (map ntok l) + f) TArrayStart TArrayEnd 1 c = skip_loop next f TArrayStart TArrayEnd 1 (moved c s2 nt2) \/ l = []).
    { clear. induction l as [|j l IH]; intros f c s2 nt2 F; [right; reflexivity|left]. cbn [flat_map] in F.
      destruct (feeds_app _ _ _ _ _ _ F) as (s3 & nt3 & A & B). change (list_sum (map ntok (j :: l))) with (ntok j + list_sum (map ntok l)).
      rewrite <- Nat.add_assoc, (skip_doc TArrayStart TArrayEnd (or_intror (conj eq_refl eq_refl)) j None _ 0 c s3 nt3 A).
      destruct (IH f (moved c s3 nt3) s2 nt2 B) as [E| ->]; [exact E|]. inversion B; subst. reflexivity. }
    replace fuel with (list_sum (map ntok els) + (fuel - list_sum (map ntok els))) by lia.
    assert (E2 : skip_loop next (list_sum (map ntok els) + (fuel - list_sum (map ntok els))) TArrayStart TArrayEnd 1 c =
                 skip_loop next (fuel - list_sum (map ntok els)) TArrayStart TArrayEnd 1 (moved c s2 nt2)
              \/ (els = [] /\ s2 = c_src c /\ nt2 = c_tok c)).
    { destruct (W els (fuel - list_sum (map ntok els)) c s2 nt2 A) as [E2| ->]; [left; exact E2|right]. inversion A; subst. auto. }
    destruct (fuel - list_sum (map ntok els)) as [|f] eqn:Ef; [lia|].
    destruct E2 as [E2|(-> & -> & ->)].
    + rewrite E2, (skip_one _ _ f 0 (moved c s2 nt2) _ s1 nt1 (or_intror (conj eq_refl eq_refl)) B). cbn [st_make st_value_type type_eqb].
      destruct f; reflexivity.
    + cbn [map list_sum fold_right Nat.add].
      rewrite (skip_one _ _ f 0 c _ s1 nt1 (or_intror (conj eq_refl eq_refl)) B). destruct f; reflexivity.
  - cbn [first_type]. destruct Hst as (_ & r & E & F). cbn [item_tokens doc_tokens] in E. apply cons_tail in E. rewrite E in F.
    destruct (feeds_app _ _ _ _ _ _ F) as (s2 & nt2 & A & B).
    rewrite ntok_JObj in Hf.
    assert (W : forall (l : list (bytes * json)) f c s2 nt2, feeds (c_tok c) (c_src c) (flat_map (fun kv => doc_tokens (Some (fst kv)) (snd kv)) l) s2 nt2 -> 
        skip_loop next (msum ntok l + f) TObjectStart TObjectEnd 1 c = skip_loop next f TObjectStart TObjectEnd 1 (moved c s2 nt2) \/ l = []).
    { clear. induction l as [|[k j] l IH]; intros f c s2 nt2 F; [right; reflexivity|left]. cbn [flat_map fst snd] in F.
      destruct (feeds_app _ _ _ _ _ _ F) as (s3 & nt3 & A & B).
      rewrite msum_cons. cbn [snd]. rewrite <- Nat.add_assoc, (skip_doc TObjectStart TObjectEnd (or_introl (conj eq_refl eq_refl)) j (Some k) _ 0 c s3 nt3 A).
      destruct (IH f (moved c s3 nt3) s2 nt2 B) as [E| ->]; [exact E|]. inversion B; subst. reflexivity. }
    set (n := msum ntok ms) in *.
    replace fuel with (n + (fuel - n)) by lia.
    assert (E2 : skip_loop next (n + (fuel - n)) TObjectStart TObjectEnd 1 c =
                 skip_loop next (fuel - n) TObjectStart TObjectEnd 1 (moved c s2 nt2)
              \/ (n = 0 /\ s2 = c_src c /\ nt2 = c_tok c)).
    { destruct (W ms (fuel - n) c s2 nt2 A) as [E2| ->]; [left; exact E2|right]. inversion A; subst. auto. }
    destruct (fuel - n) as [|f] eqn:Ef; [lia|].
    destruct E2 as [E2|(E0 & -> & ->)].
    + rewrite E2, (skip_one _ _ f 0 (moved c s2 nt2) _ s1 nt1 (or_introl (conj eq_refl eq_refl)) B). cbn [st_make st_value_type type_eqb].
      destruct f; reflexivity.
    + rewrite E0. cbn [Nat.add].
      rewrite (skip_one _ _ f 0 c _ s1 nt1 (or_introl (conj eq_refl eq_refl)) B). destruct f; reflexivity.
Qed.

Lemma nth_error_two {A B C} (p : A -> B) (q : A -> C) l i :
  match nth_error (map p l) i, nth_error (map q l) i with
  | Some b, Some c => exists a, nth_error l i = Some a /\ b = p a /\ c = q a
  | None, None => nth_error l i = None
  | _, _ => False
  end.
Proof. rewrite !nth_error_map. destruct (nth_error l i) as [a|]; cbn; eauto. Qed.

Definition keeps (P : val -> Prop) (s : shandler) : Prop :=
  forall v oj r e v' r', P v -> s v oj r = Ok (e, v', r') -> P v'.

Lemma all2_nth ps : forall vs i P v, all2 ps vs -> nth_error ps i = Some P -> nth_error vs i = Some v -> P v.
Proof.
  induction ps as [|P ps IH]; intros [|v vs] [|i] Q w H HP Hv; try destruct H; try discriminate HP; cbn in HP, Hv.
  - congruence.
  - exact (IH vs i Q w H0 HP Hv).
Qed.
Lemma all2_put ps : forall vs i P v, all2 ps vs -> nth_error ps i = Some P -> P v -> all2 ps (put i v vs).
Proof.
  induction ps as [|P ps IH]; intros [|v vs] [|i] Q w H HP Hv; try destruct H; try discriminate HP; cbn in HP |- *.
  - injection HP as ->. auto.
  - split; [assumption|]. exact (IH vs i Q w H0 HP Hv).
Qed.
Lemma all2_length ps : forall vs, all2 ps vs -> length ps = length vs.
Proof. induction ps as [|P ps IH]; intros [|v vs] H; try destruct H; cbn; auto. Qed.

Lemma struct_loop_ok fuel order (ps : list (val -> Prop)) (fs : list (field S)) (ss : list shandler) :
  length fs = length ss -> length ps = length ss ->
  (forall i P s, nth_error ps i = Some P -> nth_error ss i = Some s -> keeps P s) -> forall ms,
  Forall (fun kv => forall i fd s P, search_both (fst kv) (map f_names fs) order = Some i ->
                      nth_error fs i = Some fd -> nth_error ss i = Some s -> nth_error ps i = Some P ->
                      ok_on fuel P (f_to fd) s (Some (snd kv))) ms ->
  msum ntok ms <= fuel ->
  forall f vs assigned c s' nt', all2 ps vs -> c_cfg c = g -> msum ntok ms < f ->
  stands c (flat_map (fun kv => doc_tokens (Some (fst kv)) (snd kv)) ms ++ [st_make None [rbrace] TObjectEnd]) s' nt' ->
  agrees g s' nt' (let* (e, vs, assigned, c) := struct_loop next f order fs vs assigned c in Ok (e, (vs, assigned), c))
    (s_members g order (map f_names fs) ss ms vs assigned (rep c)).
Proof.
  intros Hlen Hlp Hkeep. induction ms as [|[k j] ms IH]; intros Hok Hf f vs assigned c s' nt' HP Hg Hfl Hst; (destruct f as [|f]; [lia|]); cbn [struct_loop s_members].
  - destruct (on_members c [] s' nt' Hst) as [Ht Hs]. rewrite Ht. cbn [type_eqb obind].
    apply agrees_here; [exact Hg|]. intros _. exact Hs.
  - destruct (on_members c ((k, j) :: ms) s' nt' Hst) as (Ht & Hk & s1 & nt1 & A & B). rewrite Ht, (proj2 (first_not_end j)), Hk.
    inversion Hok as [|? ? Hj Hels]; subst. cbn [fst snd] in Hj. rewrite msum_cons in Hf. rewrite msum_cons in Hfl. cbn [snd] in Hf, Hfl.
    assert (Hpos := ntok_pos j).
    destruct (search_both (c_name c) (map f_names fs) order) as [i|] eqn:Es.
    + specialize (Hj i). destruct (nth_error fs i) as [fd|] eqn:Ef.
      * assert (Hi : i < length ss) by (rewrite <- Hlen; apply nth_error_Some; congruence).
        destruct (nth_error ss i) as [s|] eqn:Ess; [|apply nth_error_None in Ess; lia].
        destruct (nth_error ps i) as [P|] eqn:Ep; [|apply nth_error_None in Ep; lia].
        destruct (nth_error vs i) as [v|] eqn:Ev; [|reflexivity].
        assert (Pv : P v) by exact (all2_nth _ _ _ _ _ HP Ep Ev).
        specialize (Hj fd s P eq_refl eq_refl eq_refl eq_refl (Some (c_name c)) v c s1 nt1 Pv Hg A ltac:(cbn [item_size snd]; lia)).
        cbn [snd] in Hj.
        destruct (s v (Some j) (rep c)) as [[[e v'] r']| |] eqn:Esv; cbn [agrees] in Hj; [|rewrite Hj; reflexivity|contradiction].
        destruct Hj as (c1 & -> & Hr & Hg1 & He). cbn [obind]. subst r'.
        destruct (is_ok (matchedMemberResult e)) eqn:Eo.
        -- assert (e = NoError) by (destruct e; cbn in Eo; congruence). subst e. cbn [matchedMemberResult].
           destruct (next_member c1 ms s1 nt1 s' nt' (He eq_refl) B) as (c' & E & Hr & Hg' & Hst').
           rewrite E. cbn [obind is_ok]. rewrite <- Hr. apply IH; [exact Hels|lia| |congruence|lia|exact Hst'].
           apply (all2_put _ _ _ P); [exact HP|exact Ep|]. exact (Hkeep i P s Ep Ess _ _ _ _ _ _ Pv Esv).
        -- cbn [obind]. apply agrees_fail; [exact Hg1|]. intros E. rewrite E in Eo. discriminate Eo.
      * assert (Ess : nth_error ss i = None) by (apply nth_error_None; rewrite <- Hlen; apply nth_error_None; exact Ef).
        rewrite Ess. reflexivity.
    + assert (Er : note_missing (c_cfg c) (c_name c) (rep c) = rep (add_missing (c_name c) c)).
      { unfold note_missing, add_missing. destruct (pc_track (c_cfg c)); reflexivity. }
      assert (Ec : c_cfg (add_missing (c_name c) c) = c_cfg c) by (unfold add_missing; destruct (pc_track (c_cfg c)); reflexivity).
      rewrite <- Hg, Er, Ec.
      assert (A' : stands (add_missing (c_name c) c) (item_tokens (Some (c_name c)) (Some j)) s1 nt1).
      { unfold add_missing. destruct (pc_track (c_cfg c)); exact A. }
      destruct (pc_allow_missing (c_cfg c)); rewrite Hg in *.
      * rewrite (skip_value_ok _ _ _ _ _ _ A') by lia. cbn [obind]. cbn [moved c_err is_ok].
        destruct (next_member (moved (add_missing (c_name c) c) s1 nt1) ms s1 nt1 s' nt') as (c' & E & Hr & Hg' & Hst'); [repeat split|exact B|].
        rewrite E. cbn [obind is_ok].
        replace (rep (add_missing (c_name c) c)) with (rep c') by (rewrite Hr; reflexivity).
        apply IH; [exact Hels|lia|exact HP|rewrite Hg'; exact Ec|lia|exact Hst'].
      * cbn [obind]. apply agrees_fail; [exact Ec|discriminate].
Qed.

(** ** All handlers *)

Lemma fits_rejects t : fits t None -> rejects (sem g t).
Proof.
  induction t as [|i|sg|hr tp| |ns u|t IH|t IH|t IH|t IH|t IH|u t IH|t IH|t IH|t IH|n t IH|n t IH|t IH|ts IH|t IH|b fs IH] using ty_rect_nested;
    intros Hfit v r e v' r' H; cbn [sem] in H; cbn [fits] in Hfit.
  - injection H as <- _ _. discriminate.
  - assert (E : exists z, int_to i (first_value None) = Ok (FailedToParseInt, z)) by (eexists; reflexivity).
    destruct E as (z & E). rewrite E in H. cbn [obind] in H. injection H as <- _ _. discriminate.
  - destruct sg; injection H as <- _ _; discriminate.
  - destruct v as [|old| | | | | | |]; try discriminate H.
    assert (E : exists z, int_to T_uint64 (first_value None) = Ok (FailedToParseInt, z)) by (eexists; reflexivity).
    destruct E as (z & E). rewrite (time_to_int_error hr tp _ old _ _ E) in H by discriminate. cbn [obind] in H. injection H as <- _ _. discriminate.
  - contradiction.
  - cbn [first_type] in H. injection H as <- _ _. discriminate.
  - cbn [first_type type_eqb] in H. exact (IH Hfit _ _ _ _ _ H).
  - destruct v as [| | | |f d| | | |]; try discriminate H. cbn [first_type] in H. change (type_eqb TArrayEnd TNull) with false in H. cbn iota in H.
    unfold lift in H. destruct (sem g t d None r) as [[[e0 a] r0]| |] eqn:E; try discriminate H. injection H as <- _ _. exact (IH Hfit _ _ _ _ _ E).
  - exact (IH Hfit _ _ _ _ _ H).
  - destruct v as [| | | |f d| | | |]; try discriminate H.
    unfold lift in H. destruct (sem g t d None r) as [[[e0 a] r0]| |] eqn:E; try discriminate H. injection H as <- _ _. exact (IH Hfit _ _ _ _ _ E).
  - unfold lift in H. destruct (sem g t (init t) None r) as [[[e0 a] r0]| |] eqn:E; try discriminate H. injection H as <- _ _. exact (IH Hfit _ _ _ _ _ E).
  - destruct v as [| | | | |o| | |]; try discriminate H. cbn [first_type] in H. change (type_eqb TArrayEnd TNull) with false in H. cbn iota in H.
    unfold lift in H. destruct (sem g t _ None r) as [[[e0 a] r0]| |] eqn:E; try discriminate H. injection H as <- _ _. exact (IH Hfit _ _ _ _ _ E).
  - exact (IH Hfit _ _ _ _ _ H).
  - injection H as <- _ _. discriminate.
  - destruct v as [| | | | | |l| |]; try discriminate H. unfold lift in H.
    destruct (sem g t (init t) None r) as [[[e0 a] r0]| |] eqn:E; try discriminate H. injection H as <- _ _. exact (IH Hfit _ _ _ _ _ E).
  - destruct v; try discriminate H. injection H as <- _ _. discriminate.
  - destruct v; try discriminate H. injection H as <- _ _. discriminate.
  - injection H as <- _ _. discriminate.
  - destruct v; try discriminate H. injection H as <- _ _. discriminate.
  - destruct v; try discriminate H. injection H as <- _ _. discriminate.
  - destruct v; try discriminate H. injection H as <- _ _. discriminate.
Qed.

Lemma els_fuel els fuel : ntok (JArr els) <= fuel -> list_sum (map ntok els) <= fuel /\ length els < fuel.
Proof.
  rewrite ntok_JArr. unfold esum. intros H. split; [lia|].
  assert (length els <= list_sum (map ntok els)); [|lia]. clear. induction els as [|j els IH]; [cbn; lia|].
  change (list_sum (map ntok (j :: els))) with (ntok j + list_sum (map ntok els)). assert (Hp := ntok_pos j). cbn [length]. lia.
Qed.
Lemma ms_fuel ms fuel : ntok (JObj ms) <= fuel ->
  msum ntok ms < fuel /\ length ms < fuel.
Proof.
  rewrite ntok_JObj. intros H. split; [lia|].
  assert (length ms <= msum ntok ms); [|lia]. clear. induction ms as [|[k j] ms IH]; [cbn; lia|].
  rewrite msum_cons. cbn [snd].
  assert (Hp := ntok_pos j). cbn [length]. lia.
Qed.

Definition ok_fields (fuel : nat) (fs : list (bytes * list bytes * ty)) : list (field S) :=
  map (fun f => mkField (fst (fst f)) (snd (fst f)) (is_optional (snd f)) (to next fuel (snd f))) fs.

Lemma all2_map {A} (f : A -> val -> Prop) l vs : all2 (map f l) vs <-> Forall2 f l vs.
Proof.
  revert vs. induction l as [|a l IH]; intros [|v vs]; cbn; split; intros H; try contradiction; try (inversion H; fail); try constructor.
  - apply H.
  - apply IH, H.
  - inversion H; assumption.
  - inversion H; apply IH; assumption.
Qed.

Lemma init_shaped t : shaped t (init t).
Proof.
  induction t as [|i|sg|hr tp| |ns u|t IH|t IH|t IH|t IH|t IH|u t IH|t IH|t IH|t IH|n t IH|n t IH|t IH|ts IH|t IH|b fs IH] using ty_rect_nested;
    cbn [init shaped]; auto.
  - split; [apply repeat_length|]. apply Forall_forall. intros x Hx. apply repeat_spec in Hx. subst x. exact IH.
  - split; [apply repeat_length|]. apply Forall_forall. intros x Hx. apply repeat_spec in Hx. subst x. exact IH.
  - apply all2_map. induction IH as [|t ts Ht _ IH]; constructor; assumption.
  - rewrite all2_map. induction IH as [|f fs Hf _ IH]; constructor; assumption.
Qed.

Lemma lift_ok {A B} (f : A -> B) y e b r : lift f y = Ok (e, b, r) -> exists a, y = Ok (e, a, r) /\ b = f a.
Proof. unfold lift. destruct y as [[[e0 a] r0]| |]; cbn; intros H; try discriminate H. injection H as <- <- <-. eauto. Qed.

(** The loops keep the shape. *)
Lemma s_vec_keeps (P : val -> Prop) d s : P d -> keeps P s -> forall els acc r e l r', Forall P acc -> s_vec d s els acc r = Ok (e, l, r') -> Forall P l.
Proof.
  intros Hd Hs. induction els as [|j els IH]; intros acc r e l r' Ha H; cbn [s_vec] in H; [injection H as <- <- <-; exact Ha|].
  destruct (s d (Some j) r) as [[[e0 v] r0]| |] eqn:E; cbn [obind] in H; try discriminate H.
  assert (Pv := Hs _ _ _ _ _ _ Hd E).
  assert (Ha' : Forall P (acc ++ [v])) by (apply Forall_app; auto).
  destruct (is_ok e0); [exact (IH _ _ _ _ _ Ha' H)|]. injection H as <- <- <-. exact Ha'.
Qed.
Lemma s_set_keeps (P : val -> Prop) d s : P d -> keeps P s -> forall els acc r e l r', Forall P acc -> s_set d s els acc r = Ok (e, l, r') -> Forall P l.
Proof.
  intros Hd Hs. induction els as [|j els IH]; intros acc r e l r' Ha H; cbn [s_set] in H; [injection H as <- <- <-; exact Ha|].
  destruct (s d (Some j) r) as [[[e0 v] r0]| |] eqn:E; cbn [obind] in H; try discriminate H.
  assert (Pv := Hs _ _ _ _ _ _ Hd E).
  assert (Ha' : Forall P (acc ++ [v])) by (apply Forall_app; auto).
  destruct (is_ok e0); [|injection H as <- <- <-; exact Ha].
  destruct (existsb (val_eqb v) acc); [injection H as <- <- <-; exact Ha|exact (IH _ _ _ _ _ Ha' H)].
Qed.
Lemma s_fixed_keeps (P : val -> Prop) s : keeps P s -> forall slots els acc r e l r', Forall P acc -> Forall P slots ->
  s_fixed s els acc slots r = Ok (e, l, r') -> Forall P l /\ length l = length acc + length slots.
Proof.
  intros Hs. induction slots as [|v slots IH]; intros els acc r e l r' Ha Hsl H; cbn [s_fixed] in H.
  - injection H as <- <- <-. split; [exact Ha|cbn; lia].
  - inversion Hsl as [|? ? Pv Psl]; subst.
    destruct (s v (hd_error els) r) as [[[e0 v0] r0]| |] eqn:E; cbn [obind] in H; try discriminate H.
    assert (Pv0 := Hs _ _ _ _ _ _ Pv E). destruct (is_ok e0).
    + destruct (IH _ (acc ++ [v0]) _ _ _ _ ltac:(apply Forall_app; auto) Psl H) as [A B]. split; [exact A|].
      rewrite app_length in B. cbn in B |- *. lia.
    + injection H as <- <- <-. split; [apply Forall_app; auto|]. rewrite app_length. reflexivity.
Qed.
Lemma s_var_keeps (P : val -> Prop) s size : keeps P s -> forall slots els acc r e l r', Forall P acc -> Forall P slots ->
  s_var s els size acc slots r = Ok (e, l, r') -> Forall P (snd l) /\ length (snd l) = length acc + length slots.
Proof.
  intros Hs. induction slots as [|v slots IH]; intros els acc r e l r' Ha Hsl H; cbn [s_var] in H.
  - injection H as <- <- <-. split; [exact Ha|cbn; lia].
  - inversion Hsl as [|? ? Pv Psl]; subst. destruct els as [|j els].
    { injection H as <- <- <-. cbn [snd]. split; [apply Forall_app; auto|]. rewrite app_length. reflexivity. }
    destruct (s v (Some j) r) as [[[e0 v0] r0]| |] eqn:E; cbn [obind] in H; try discriminate H.
    assert (Pv0 := Hs _ _ _ _ _ _ Pv E). destruct (is_ok e0).
    + destruct (IH _ (acc ++ [v0]) _ _ _ _ ltac:(apply Forall_app; auto) Psl H) as [A B]. split; [exact A|].
      rewrite app_length in B. cbn in B |- *. lia.
    + injection H as <- <- <-. cbn [snd]. split; [apply Forall_app; auto|]. rewrite app_length. reflexivity.
Qed.
Lemma all2_app ps : forall qs vs ws, all2 ps vs -> all2 qs ws -> all2 (ps ++ qs) (vs ++ ws).
Proof. induction ps as [|P ps IH]; intros qs [|v vs] ws H H'; try destruct H; cbn; auto. Qed.
Lemma s_tuple_keeps : forall ss ps qs vs els acc r e l r', Forall2 keeps ps ss -> all2 qs acc -> all2 ps vs ->
  s_tuple ss els acc vs r = Ok (e, l, r') -> all2 (qs ++ ps) l.
Proof.
  induction ss as [|s ss IH]; intros ps qs vs els acc r e l r' Hk Ha Hv H; inversion Hk as [|P ? ps' ? HP Hk']; subst; destruct vs as [|v vs]; try destruct Hv; cbn [s_tuple] in H; try discriminate H.
  - injection H as <- <- <-. rewrite app_nil_r. exact Ha.
  - destruct (s v (hd_error els) r) as [[[e0 v0] r0]| |] eqn:E; cbn [obind] in H; try discriminate H.
    assert (Pv0 := HP _ _ _ _ _ _ H0 E). destruct (is_ok e0).
    + replace (qs ++ P :: ps') with ((qs ++ [P]) ++ ps') by (rewrite <- app_assoc; reflexivity).
      refine (IH ps' (qs ++ [P]) vs _ (acc ++ [v0]) _ _ _ _ Hk' _ H1 H). apply all2_app; cbn; auto.
    + injection H as <- <- <-. apply all2_app; [exact Ha|]. cbn. auto.
Qed.
Lemma map_put_keeps (P : val -> Prop) k v : forall m, P v -> Forall (fun kv => P (snd kv)) m -> Forall (fun kv => P (snd kv)) (map_put k v m).
Proof.
  intros m Pv H. induction H as [|[k' v'] m H Hm IH]; cbn [map_put]; [constructor; auto|].
  destruct (bytes_eqb k k'); constructor; auto.
Qed.
Lemma s_map_keeps (P : val -> Prop) d s : P d -> keeps P s -> forall ms m r e l r', Forall (fun kv => P (snd kv)) m ->
  s_map d s ms m r = Ok (e, l, r') -> Forall (fun kv => P (snd kv)) l.
Proof.
  intros Hd Hs. induction ms as [|[k j] ms IH]; intros m r e l r' Ha H; cbn [s_map] in H; [injection H as <- <- <-; exact Ha|].
  destruct (s d (Some j) r) as [[[e0 v] r0]| |] eqn:E; cbn [obind] in H; try discriminate H.
  assert (Pv := Hs _ _ _ _ _ _ Hd E).
  assert (Ha' := map_put_keeps P (escapes_in k) v m Pv Ha).
  destruct (is_ok e0); [exact (IH _ _ _ _ _ Ha' H)|]. injection H as <- <- <-. exact Ha'.
Qed.
Lemma s_members_keeps order names ps ss : Forall2 keeps ps ss -> forall ms vs a r e x r', all2 ps vs ->
  s_members g order names ss ms vs a r = Ok (e, x, r') -> all2 ps (fst x).
Proof.
  intros Hk. induction ms as [|[k j] ms IH]; intros vs a r e x r' Ha H; cbn [s_members] in H; [injection H as <- <- <-; exact Ha|].
  destruct (search_both k names order) as [i|].
  - destruct (nth_error ss i) as [s|] eqn:Es; [|discriminate H]. destruct (nth_error vs i) as [v|] eqn:Ev; [|discriminate H].
    destruct (s v (Some j) r) as [[[e0 v0] r0]| |] eqn:E; cbn [obind] in H; try discriminate H.
    assert (Hi : exists P, nth_error ps i = Some P /\ keeps P s).
    { clear -Hk Es. revert i Es. induction Hk as [|P s0 ps ss H _ IH]; intros [|i] Es; try discriminate Es; cbn in Es |- *.
      - injection Es as ->. eauto.
      - exact (IH i Es). }
    destruct Hi as (P & Ep & HP). assert (Pv := all2_nth _ _ _ _ _ Ha Ep Ev). assert (Pv0 := HP _ _ _ _ _ _ Pv E).
    assert (Ha' := all2_put _ _ _ _ v0 Ha Ep Pv0).
    destruct (is_ok (matchedMemberResult e0)); [exact (IH _ _ _ _ _ _ Ha' H)|]. injection H as <- <- <-. exact Ha'.
  - destruct (pc_allow_missing g); [exact (IH _ _ _ _ _ _ Ha H)|]. injection H as <- <- <-. exact Ha.
Qed.

Lemma sem_keeps t : keeps (shaped t) (sem g t).
Proof.
  induction t as [|i|sg|hr tp| |ns u|t IH|t IH|t IH|t IH|t IH|u t IH|t IH|t IH|t IH|n t IH|n t IH|t IH|ts IH|t IH|b fs IH] using ty_rect_nested;
    intros v oj r e v' r' Hv H; cbn [sem] in H; cbn [shaped] in *.
  - destruct (bytes_eqb _ _); [injection H as <- <- <-; exact I|]. destruct (bytes_eqb _ _); injection H as <- <- <-; [exact I|exact Hv].
  - destruct (int_to _ _) as [[e0 z]| |]; cbn [obind] in H; try discriminate H. injection H as <- <- <-. exact I.
  - destruct (fp_read _ _) as [[e0 z]| |]; cbn [obind] in H; try discriminate H. injection H as <- <- <-. reflexivity.
  - destruct v as [|old| | | | | | |]; try discriminate H. destruct (TimeModel.time_to _ _ _ _) as [[e0 z]| |]; cbn [obind] in H; try discriminate H. injection H as <- <- <-. exact I.
  - injection H as <- <- <-. exact I.
  - destruct (first_type oj); try (injection H as <- <- <-; exact Hv).
    + destruct (index_of _ _); injection H as <- <- <-; [exact I|exact Hv].
    + destruct (int_to _ _) as [[e0 z]| |]; cbn [obind] in H; try discriminate H. injection H as <- <- <-. destruct (is_ok e0); [exact I|exact Hv].
  - destruct (type_eqb _ _); [injection H as <- <- <-; exact Hv|]. exact (IH _ _ _ _ _ _ Hv H).
  - destruct v as [| | | |f d| | | |]; try contradiction. destruct (type_eqb _ _); [injection H as <- <- <-; exact Hv|].
    apply lift_ok in H. destruct H as (a & H & ->). exact (IH _ _ _ _ _ _ Hv H).
  - exact (IH _ _ _ _ _ _ Hv H).
  - destruct v as [| | | |f d| | | |]; try contradiction. apply lift_ok in H. destruct H as (a & H & ->). exact (IH _ _ _ _ _ _ Hv H).
  - apply lift_ok in H. destruct H as (a & H & ->). exact (IH _ _ _ _ _ _ (init_shaped t) H).
  - destruct v as [| | | | |o| | |]; try contradiction. destruct (type_eqb _ _); [injection H as <- <- <-; exact I|].
    apply lift_ok in H. destruct H as (a & H & ->). refine (IH _ _ _ _ _ _ _ H). destruct o; [exact Hv|apply init_shaped].
  - exact (IH _ _ _ _ _ _ Hv H).
  - unfold s_array in H. destruct oj as [[s|els|ms]|]; try (injection H as <- <- <-; exact Hv).
    apply lift_ok in H. destruct H as (a & H & ->). exact (s_vec_keeps _ _ _ (init_shaped t) IH _ _ _ _ _ _ (Forall_nil _) H).
  - destruct oj as [[s|els|ms]|].
    2: { apply lift_ok in H. destruct H as (a & H & ->). exact (s_vec_keeps _ _ _ (init_shaped t) IH _ _ _ _ _ _ (Forall_nil _) H). }
    all: destruct v as [| | | | | |l| |]; try contradiction; apply lift_ok in H; destruct H as (a & H & ->);
      apply Forall_app; split; [exact Hv|]; constructor; [exact (IH _ _ _ _ _ _ (init_shaped t) H)|constructor].
  - destruct v as [| | | | | |l| |]; try contradiction. unfold s_array in H. destruct oj as [[s|els|ms]|]; try (injection H as <- <- <-; exact Hv).
    apply lift_ok in H. destruct H as (a & H & ->). destruct Hv as [Hl Hv].
    destruct (s_fixed_keeps _ _ IH _ _ _ _ _ _ _ (Forall_nil _) Hv H) as [A B]. split; [cbn in B; congruence|exact A].
  - destruct v as [| | | | | | |n0 l|]; try contradiction. unfold s_array in H. destruct oj as [[s|els|ms]|]; try (injection H as <- <- <-; exact Hv).
    apply lift_ok in H. destruct H as (a & H & ->). destruct Hv as [Hl Hv].
    destruct (s_var_keeps _ _ _ IH _ _ _ _ _ _ _ (Forall_nil _) Hv H) as [A B]. split; [cbn in B; congruence|exact A].
  - unfold s_array in H. destruct oj as [[s|els|ms]|]; try (injection H as <- <- <-; exact Hv).
    apply lift_ok in H. destruct H as (a & H & ->). exact (s_set_keeps _ _ _ (init_shaped t) IH _ _ _ _ _ _ (Forall_nil _) H).
  - destruct v as [| | | | | |l| |]; try contradiction. unfold s_array in H. destruct oj as [[s|els|ms]|]; try (injection H as <- <- <-; exact Hv).
    apply lift_ok in H. destruct H as (a & H & ->).
    refine (s_tuple_keeps (map (sem g) ts) (map shaped ts) [] l els [] r e a r' _ I Hv H).
    clear -IH. induction IH as [|t ts Ht _ IH]; constructor; assumption.
  - destruct v as [| | | | | | | |m]; try contradiction. unfold s_object in H. destruct oj as [[s|els|ms]|]; try (injection H as <- <- <-; exact Hv).
    apply lift_ok in H. destruct H as (a & H & ->). exact (s_map_keeps _ _ _ (init_shaped t) IH _ _ _ _ _ _ Hv H).
  - destruct v as [| | | | | |l| |]; try contradiction. unfold s_object in H. destruct oj as [[s|els|ms]|]; try (injection H as <- <- <-; exact Hv).
    destruct (s_members _ _ _ _ _ _ _ _) as [[[e0 x] r0]| |] eqn:E; cbn [obind] in H; try discriminate H.
    assert (A : all2 (map (fun f => shaped (snd f)) fs) (fst x)).
    { refine (s_members_keeps _ _ _ _ _ _ _ _ _ _ _ _ Hv E). clear -IH. induction IH as [|t ts Ht _ IH]; constructor; assumption. }
    destruct (is_ok e0); [|injection H as <- <- <-; exact A].
    destruct (unassigned_of _ _ _); injection H as <- <- <-; exact A.
Qed.

Lemma struct_case fuel order (fs : list (bytes * list bytes * ty)) ms c s' nt' vs :
  let fields := map (fun f => mkField (fst (fst f)) (snd (fst f)) (is_optional (snd f)) (to next fuel (snd f))) fs in
  agrees g s' nt' (let* (e, vs, assigned, c) := struct_loop next fuel order fields vs (repeat false (length fields)) c in Ok (e, (vs, assigned), c))
    (s_members g order (map f_names fields) (map (fun f => sem g (snd f)) fs) ms vs (repeat false (length fields)) (rep c)) ->
  agrees g s' nt'
    (let* (e, vs, assigned, c) := struct_loop next fuel order fields vs (repeat false (length fields)) c in
      if is_ok e then
        match unassigned_of order (map (fun f => (f_super f, f_names f, f_optional f)) fields) assigned with
        | [] => Ok (NoError, VList vs, c)
        | l => Ok (if pc_allow_unassigned (c_cfg c) then NoError else UnassignedRequiredMember, VList vs, add_unassigned l c)
        end
      else Ok (e, VList vs, c))
    (let* (e, x, r) := s_members g order (map (fun f => snd (fst f)) fs) (map (fun f => sem g (snd f)) fs) ms vs
                                (repeat false (length fs)) (rep c) in
            if is_ok e then
              match unassigned_of order (map field_info fs) (snd x) with
              | [] => Ok (NoError, VList (fst x), r)
              | l => Ok (if pc_allow_unassigned g then NoError else UnassignedRequiredMember, VList (fst x), note_unassigned g l r)
              end
            else Ok (e, VList (fst x), r)).
Proof.
  intros fields H.
  assert (En : map f_names fields = map (fun f => snd (fst f)) fs) by (unfold fields; rewrite map_map; reflexivity).
  assert (Ei : map (fun f => (f_super f, f_names f, f_optional f)) fields = map field_info fs) by (unfold fields; rewrite map_map; reflexivity).
  assert (El : length fields = length fs) by apply map_length.
  rewrite En, El in H. rewrite Ei, El.
  destruct (s_members _ _ _ _ _ _ _ _) as [[[e x] r]| |]; cbn [agrees] in H.
  - destruct H as (c1 & E & Hr & Hg & He).
    destruct (struct_loop _ _ _ _ _ _ _) as [[[[e0 vs0] a0] c0]| |]; cbn [obind] in E |- *; try discriminate E.
    injection E as -> <- ->. cbn [fst snd]. destruct (is_ok e) eqn:Eo.
    + apply is_ok_spec in Eo. destruct (unassigned_of order (map field_info fs) a0) as [|u l].
      * subst r. apply agrees_here; auto.
      * rewrite Hg. exists (add_unassigned (u :: l) c1). split; [reflexivity|].
        subst r. unfold add_unassigned, note_unassigned. rewrite Hg.
        destruct (pc_track g); (split; [reflexivity|]); (split; [exact Hg || reflexivity|]); intros _; exact (He Eo).
    + subst r. apply agrees_fail; [exact Hg|]. intros ->. discriminate Eo.
  - destruct (struct_loop _ _ _ _ _ _ _) as [[[[e0 vs0] a0] c0]| |]; cbn [obind] in H |- *; congruence.
  - contradiction.
Qed.

Lemma to_sem fuel t : forall oj, fits t oj -> ok_on fuel (shaped t) (to next fuel t) (sem g t) oj.
Proof.
  induction t as [|i|sg|hr tp| |ns u|t IH|t IH|t IH|t IH|t IH|u t IH|t IH|t IH|t IH|n t IH|n t IH|t IH|ts IH|t IH|b fs IH] using ty_rect_nested;
    intros oj Hfit name v c s' nt' Hsh Hg Hst Hf; destruct (stands_view _ _ _ _ _ Hst) as [Hv Ht]; cbn [to sem]; cbn [fits] in Hfit; cbn [shaped] in Hsh.
  - (* bool *) unfold bool_to. rewrite Hv. destruct oj as [[s|els|ms]|].
    2-4: apply agrees_fail; [exact Hg|discriminate].
    assert (A := scalar_one _ _ _ _ _ Hst).
    destruct (bytes_eqb (first_value (Some (JScalar s))) [x74; x72; x75; x65]); [apply agrees_here; auto|].
    destruct (bytes_eqb (first_value (Some (JScalar s))) [x66; x61; x6c; x73; x65]); [apply agrees_here; auto|].
    apply agrees_fail; [exact Hg|discriminate].
  - (* integers *) unfold integer_to. rewrite Hv. destruct oj as [[s|els|ms]|];
      [|match goal with |- context [int_to i ?x] => assert (E : exists z, int_to i x = Ok (FailedToParseInt, z)) by (eexists; reflexivity) end;
         destruct E as (z & E); rewrite E; apply agrees_fail; [exact Hg|discriminate] ..].
    assert (A := scalar_one _ _ _ _ _ Hst).
    destruct (int_to i (first_value (Some (JScalar s)))) as [[e z]| |] eqn:Ei; cbn [obind]; [apply agrees_here; auto|reflexivity|].
    exact (int_to_fuel _ _ Ei).
  - (* floating point *) unfold fp_to. rewrite Hv. destruct oj as [[s|els|ms]|];
      [|destruct sg; apply agrees_fail; [exact Hg|discriminate|exact Hg|discriminate] ..].
    assert (A := scalar_one _ _ _ _ _ Hst).
    destruct (fp_read sg (first_value (Some (JScalar s)))) as [[e z]| |] eqn:Ei; cbn [obind]; [apply agrees_here; auto|reflexivity|].
    exact (fp_read_fuel _ _ Ei).
  - (* time points *) unfold time_point_to. destruct v as [|old| | | | | | |]; try contradiction. rewrite Hv. destruct oj as [[s|els|ms]|];
      [|match goal with |- context [TimeModel.time_to hr tp ?x old] => assert (E : exists z, int_to T_uint64 x = Ok (FailedToParseInt, z)) by (eexists; reflexivity) end;
         destruct E as (z & E); rewrite (time_to_int_error hr tp _ old _ _ E) by discriminate; apply agrees_fail; [exact Hg|discriminate] ..].
    assert (A := scalar_one _ _ _ _ _ Hst).
    destruct (TimeModel.time_to hr tp (first_value (Some (JScalar s))) old) as [[e z]| |] eqn:Ei; cbn [obind]; [apply agrees_here; auto|reflexivity|].
    exact (time_to_fuel _ _ _ _ Ei).
  - (* strings *) unfold string_to. rewrite Hv. destruct oj as [[s|els|ms]|]; try contradiction.
    apply agrees_here; [exact Hg|]. intros _. exact (scalar_one _ _ _ _ _ Hst).
  - (* enums *) unfold enum_to. rewrite Hv, Ht. destruct oj as [[s|els|ms]|].
    2-4: apply agrees_fail; [exact Hg|discriminate].
    assert (A := scalar_one _ _ _ _ _ Hst).
    destruct (first_type (Some (JScalar s))); try (apply agrees_fail; [exact Hg|discriminate]).
    + destruct (index_of _ ns); [apply agrees_here; auto|apply agrees_fail; [exact Hg|discriminate]].
    + destruct (int_to u (first_value (Some (JScalar s)))) as [[e z]| |] eqn:Ei; cbn [obind]; [apply agrees_here; auto|reflexivity|].
      exact (int_to_fuel _ _ Ei).
  - (* Nullable *) unfold nullable_to. rewrite Ht. destruct (type_eqb (first_type oj) TNull) eqn:En.
    + apply agrees_here; [exact Hg|]. intros _. destruct oj as [[s|els|ms]|]; try discriminate En. exact (scalar_one _ _ _ _ _ Hst).
    + exact (IH oj Hfit name v c s' nt' Hsh Hg Hst Hf).
  - (* NullableChecked *) unfold nullable_checked_to. destruct v as [| | | |f d| | | |]; try reflexivity.
    rewrite Ht. destruct (type_eqb (first_type oj) TNull) eqn:En.
    + apply agrees_here; [exact Hg|]. intros _. destruct oj as [[s|els|ms]|]; try discriminate En. exact (scalar_one _ _ _ _ _ Hst).
    + apply agrees_lift. exact (IH oj Hfit name d c s' nt' Hsh Hg Hst Hf).
  - exact (IH oj Hfit name v c s' nt' Hsh Hg Hst Hf).
  - (* OptionalChecked *) unfold optional_checked_to. destruct v as [| | | |f d| | | |]; try reflexivity.
    apply agrees_lift. exact (IH oj Hfit name d c s' nt' Hsh Hg Hst Hf).
  - unfold std_optional_to. apply (agrees_lift (fun d => VOpt (Some d))). exact (IH oj Hfit name (init t) c s' nt' (init_shaped t) Hg Hst Hf).
  - (* pointers *) unfold ptr_to. destruct v as [| | | | |o| | |]; try reflexivity.
    rewrite Ht. destruct (type_eqb (first_type oj) TNull) eqn:En.
    + apply agrees_here; [exact Hg|]. intros _. destruct oj as [[s|els|ms]|]; try discriminate En. exact (scalar_one _ _ _ _ _ Hst).
    + apply (agrees_lift (fun d => VOpt (Some d))). refine (IH oj Hfit name _ c s' nt' _ Hg Hst Hf). destruct o; [exact Hsh|apply init_shaped].
  - exact (IH oj Hfit name v c s' nt' Hsh Hg Hst Hf).
  - (* vectors *) unfold vec_to, s_array. rewrite Ht. destruct oj as [[s|els|ms]|]; [destruct s; (apply agrees_fail; [exact Hg|discriminate])| |..].
    2-3: apply agrees_fail; [exact Hg|discriminate].
    cbn [first_type type_eqb]. destruct (enter_array c els name s' nt' Hst) as (c' & E & Hr & Hg' & Hst').
    rewrite E. cbn [obind is_ok]. rewrite <- Hr. apply agrees_lift. destruct (els_fuel els fuel Hf) as [F1 F2].
    apply (vec_loop_ok fuel (shaped t)); [apply init_shaped| |exact F1|congruence|exact F2|exact Hst'].
    eapply Forall_impl; [|exact Hfit]. intros j Hj. exact (IH (Some j) Hj).
  - (* OneOrMany *) unfold one_or_many_to. rewrite Ht.
    assert (K : forall o, (match o with Some (JArr _) => False | _ => True end) -> oj = o -> agrees g s' nt'
      (match v with VList l => let* (e, x, c0) := to next fuel t (init t) c in Ok (e, VList (l ++ [x]), set_err e c0) | _ => UB end)
      (match v with VList l => lift (fun x => VList (l ++ [x])) (sem g t (init t) o (rep c)) | _ => UB end)).
    { intros o Ho ->. destruct v as [| | | | | |l| |]; try contradiction.
      assert (Hfit' : fits t o) by (destruct o as [[s|els|ms]|]; try exact Hfit; contradiction).
      unfold lift. eapply agrees_bind; [exact (IH o Hfit' name (init t) c s' nt' (init_shaped t) Hg Hst Hf)|].
      intros e a c0 Hg0 He. change (rep c0) with (rep (set_err e c0)). apply agrees_here; [exact Hg0|].
      intros ->. rewrite set_err_ok; [|apply (He eq_refl)]. exact (He eq_refl). }
    destruct oj as [[s|els|ms]|].
    + assert (W : type_eqb (first_type (Some (JScalar s))) TArrayStart = false) by (destruct s; reflexivity). rewrite W. apply (K (Some (JScalar s))); [exact I|reflexivity].
    + clear K. cbn [first_type]. change (type_eqb TArrayStart TArrayStart) with true. cbn iota.
      destruct (enter_array c els name s' nt' Hst) as (c' & E & Hr & Hg' & Hst'). destruct (els_fuel els fuel Hf) as [F1 F2].
      assert (L : agrees g s' nt' (vec_loop next fuel (init t) (to next fuel t) [] c') (s_vec (init t) (sem g t) els [] (rep c'))).
      { apply (vec_loop_ok fuel (shaped t)); [apply init_shaped| |exact F1|congruence|exact F2|exact Hst']. eapply Forall_impl; [|exact Hfit]. intros j Hj. exact (IH (Some j) Hj). }
      unfold vec_to. rewrite Ht. cbn [first_type type_eqb]. rewrite E. cbn [obind is_ok]. rewrite <- Hr. unfold lift.
      destruct (s_vec (init t) (sem g t) els [] (rep c')) as [[[e a] r]| |]; cbn [agrees] in L; [|rewrite L; reflexivity|contradiction].
      destruct L as (c1 & -> & Hr1 & Hg1 & He). cbn [obind]. subst r. change (rep c1) with (rep (set_err e c1)).
      apply agrees_here; [exact Hg1|]. intros ->. rewrite set_err_ok; [|apply (He eq_refl)]. exact (He eq_refl).
    + apply (K (Some (JObj ms))); [exact I|reflexivity].
    + apply (K None); [exact I|reflexivity].
  - (* T[N] *) unfold fixed_to, s_array. destruct v as [| | | | | |slots| |]; try reflexivity. rewrite Ht.
    destruct oj as [[s|els|ms]|]; [destruct s; (apply agrees_fail; [exact Hg|discriminate])| |..].
    2-3: apply agrees_fail; [exact Hg|discriminate].
    cbn [first_type type_eqb]. destruct (enter_array c els name s' nt' Hst) as (c' & E & Hr & Hg' & Hst').
    rewrite E. cbn [obind is_ok]. rewrite <- Hr. apply agrees_lift. destruct (els_fuel els fuel Hf) as [F1 F2].
    destruct Hfit as [Hfit Hend]. destruct Hsh as [Hl Hsh]. subst n.
    apply (fixed_loop_ok fuel (shaped t)); [exact Hsh| | |exact F1|congruence|exact Hst'].
    + eapply Forall_impl; [|exact Hfit]. intros j Hj. exact (IH (Some j) Hj).
    + intros Hlt. specialize (Hend Hlt). split; [exact (IH None Hend)|]. split; [exact (fits_rejects t Hend)|lia].
  - (* ArrayVariableContent *) unfold var_to, s_array. destruct v as [| | | | | | |size slots|]; try contradiction. rewrite Ht.
    destruct oj as [[s|els|ms]|]; [destruct s; (apply agrees_fail; [exact Hg|discriminate])| |..].
    2-3: apply agrees_fail; [exact Hg|discriminate].
    cbn [first_type type_eqb]. destruct (enter_array c els name s' nt' Hst) as (c' & E & Hr & Hg' & Hst').
    rewrite E. cbn [obind is_ok]. rewrite <- Hr. apply (agrees_lift (fun x => VVar (fst x) (snd x))). destruct (els_fuel els fuel Hf) as [F1 F2].
    destruct Hsh as [Hl Hsh]. subst n.
    apply (var_loop_ok fuel (shaped t)); [exact Hsh| |exact F1|congruence|exact Hst'].
    eapply Forall_impl; [|exact Hfit]. intros j Hj. exact (IH (Some j) Hj).
  - (* sets *) unfold set_to, s_array. rewrite Ht. destruct oj as [[s|els|ms]|]; [destruct s; (apply agrees_fail; [exact Hg|discriminate])| |..].
    2-3: apply agrees_fail; [exact Hg|discriminate].
    cbn [first_type type_eqb]. destruct (enter_array c els name s' nt' Hst) as (c' & E & Hr & Hg' & Hst').
    rewrite E. cbn [obind is_ok]. rewrite <- Hr. apply agrees_lift. destruct (els_fuel els fuel Hf) as [F1 F2].
    apply (set_loop_ok fuel (shaped t)); [apply init_shaped| |exact F1|congruence|exact F2|exact Hst'].
    eapply Forall_impl; [|exact Hfit]. intros j Hj. exact (IH (Some j) Hj).
  - (* tuples *) unfold tuple_to, s_array. destruct v as [| | | | | |vs| |]; try contradiction. rewrite Ht.
    destruct oj as [[s|els|ms]|]; [destruct s; (apply agrees_fail; [exact Hg|discriminate])| |..].
    2-3: apply agrees_fail; [exact Hg|discriminate].
    cbn [first_type type_eqb]. destruct (enter_array c els name s' nt' Hst) as (c' & E & Hr & Hg' & Hst').
    rewrite E. cbn [obind is_ok]. rewrite <- Hr. apply agrees_lift. destruct (els_fuel els fuel Hf) as [F1 F2].
    apply (tuple_loop_ok fuel (map shaped ts)); [|exact F1|exact Hsh|congruence|exact Hst'].
    clear -IH Hfit F2. assert (F : 1 <= fuel) by lia. clear F2. revert els Hfit. induction IH as [|t ts Ht _ IH]; intros els Hfit; cbn [map tuple_fits]; [exact I|].
    destruct Hfit as [H1 H2]. split; [exact (Ht _ H1)|]. split.
    + intros ->. split; [exact (fits_rejects t H1)|exact F].
    + intros Hne. exact (IH _ (H2 Hne)).
  - (* maps *) unfold map_to, s_object. destruct v as [| | | | | | | |m]; try contradiction. rewrite Ht.
    destruct oj as [[s|els|ms]|]; [destruct s; (apply agrees_fail; [exact Hg|discriminate])|..].
    1,3: apply agrees_fail; [exact Hg|discriminate].
    cbn [first_type type_eqb]. destruct (enter_object c ms name s' nt' Hst _ (or_introl eq_refl)) as (c' & E & Hr & Hg' & Hst').
    rewrite E. cbn [obind is_ok]. rewrite <- Hr. apply agrees_lift. destruct (ms_fuel ms fuel Hf) as [F1 F2].
    apply (map_loop_ok fuel (shaped t)); [apply init_shaped| |lia|congruence|exact F2|exact Hst'].
    eapply Forall_impl; [|exact Hfit]. intros kv Hj. exact (IH (Some (snd kv)) Hj).
  - (* structs *) unfold struct_to, s_object. destruct v as [| | | | | |vs| |]; try contradiction. rewrite Ht.
    destruct oj as [[s|els|ms]|]; [destruct s; (apply agrees_fail; [exact Hg|discriminate])|..].
    1,3: apply agrees_fail; [exact Hg|discriminate].
    cbn [first_type type_eqb]. destruct (enter_object c ms name s' nt' Hst _ (or_intror eq_refl)) as (c' & E & Hr & Hg' & Hst').
    rewrite E. cbn [obind is_ok]. rewrite <- Hr. destruct (ms_fuel ms fuel Hf) as [F1 F2].
    apply struct_case. set (fields := map _ fs).
    apply (struct_loop_ok fuel _ (map (fun f => shaped (snd f)) fs)); [unfold fields; rewrite !map_length; reflexivity|rewrite !map_length; reflexivity| | |lia|exact Hsh|congruence|exact F1|exact Hst'].
    + intros i P s HP Hs. rewrite nth_error_map in HP, Hs. destruct (nth_error fs i) as [f|]; [|discriminate HP].
      injection HP as <-. injection Hs as <-. apply sem_keeps.
    + assert (En : map f_names fields = map (fun f => snd (fst f)) fs) by (unfold fields; rewrite map_map; reflexivity).
      eapply Forall_impl; [|exact Hfit]. intros kv Hj i fd s P Hs Hfd Hss HP. rewrite En in Hs. cbn beta in Hj. rewrite Hs in Hj.
      unfold fields in Hfd. rewrite nth_error_map in Hfd, HP, Hss. destruct (nth_error fs i) as [f|] eqn:Ef; [|discriminate Hfd].
      injection Hfd as <-. injection HP as <-. injection Hss as <-. cbn [f_to].
      rewrite Forall_forall in IH. apply (IH f (nth_error_In _ _ Ef)).
      erewrite nth_error_nth in Hj; [exact Hj|]. rewrite nth_error_map, Ef. reflexivity.
Qed.
End Run.
