(** C24 from text to object: arrays of decimal literals read into std::vector<double> and
    std::vector<float>. *)
From Coq Require Import String QArith Lia.
From Verif Require Import Base ScanModel TokModel JsonSpec TokSpec NumSpec DoubleSpec IntModel DoubleModel FloatModel HandlerModel HandlerSpec HandlerTree HandlerLaws HandlerProps HandlerStruct HandlerText HandlerTerm HandlerText2 ShowJson PropTok PropStruct PropDouble PropFloat.
Local Open Scope nat_scope.

(** [l] is a literal with at most [d] digits for the number [x], negative or not as [neg] says. *)
Definition literal_of (d : nat) (l : bytes) (neg : bool) (x : Q) : Prop :=
  exists l' m p, l = (if neg then [x2d] else []) ++ l' /\ dec_literal l' m p /\ (exists c r, l' = c :: r /\ is_digit c) /\
    mantissa_digits l' <= d /\ readable l' m p /\ x = scaled m 10 p.

(** The elements [bs] are the floating point numbers nearest to the literals [ls]. *)
Definition nearest_each (p w : N) (d : nat) (ls : list bytes) (bs : list N) : Prop :=
  Forall2 (fun l b => exists neg x m, literal_of d l neg x /\ b = with_sign p w neg m /\ nearest p w x m) ls bs.

Lemma vector_of_fp (single : bool) (p w : N) (d : nat)
  (H : forall (neg : bool) l m e, dec_literal l m e -> (exists c r, l = c :: r /\ is_digit c) -> mantissa_digits l <= d -> readable l m e ->
    exists b, fp_read single ((if neg then [x2d] else []) ++ l) = Ok (NoError, with_sign p w neg b) /\ nearest p w (scaled m 10 e) b)
  o g v ls text :
  o_nl o = false -> shaped (YVec (YFp single)) v -> doc_text plain (JArr (map num ls)) text ->
  Forall (fun l => exists neg x, literal_of d l neg x) ls ->
  exists bs, parses o g (YVec (YFp single)) v text NoError (VList (map (VFp single) bs)) ([], []) /\ nearest_each p w d ls bs.
Proof.
  intros Ho Hv Hd Hl.
  assert (K : exists bs, Forall (fun j => fits (YFp single) (Some j)) (map num ls) /\
    reads_each g (YFp single) (repeat (init (YFp single)) (length (map num ls))) (map num ls) (map (VFp single) bs) ([], []) /\
    nearest_each p w d ls bs).
  { clear Hd. induction Hl as [|l ls (neg & x & l' & m & e & -> & H1 & H2 & H3 & H4 & ->) _ (bs & F & R & A)].
    - exists []. repeat constructor.
    - destruct (H neg l' m e H1 H2 H3 H4) as (b & E & N).
      exists (with_sign p w neg b :: bs). split; [|split].
      + constructor; [|exact F]. cbn [fits num scalar_value]. rewrite E. discriminate.
      + cbn [map length repeat].
        apply (Re_cons g (YFp single) _ _ _ ([], []) _ _ _ ([], [])); [|exact R].
        unfold read_value. cbn. unfold fp_to, c_value. cbn. rewrite E. reflexivity.
      + constructor; [|exact A]. exists neg, (scaled m 10 e), b. split; [|auto]. exists l', m, e. auto 10. }
  destruct K as (bs & F & R & A). exists bs. split; [|exact A].
  apply vec_text with (els := map num ls); auto; [exact I|]. eauto.
Qed.

(** Literals with at most 16 digits in the text of an array: every element is the nearest double. *)
Theorem C24_vector_of_doubles_partial : forall o g v ls text,
  o_nl o = false -> shaped (YVec (YFp false)) v -> doc_text plain (JArr (map num ls)) text ->
  Forall (fun l => exists neg x, literal_of 16 l neg x) ls ->
  exists bs, parses o g (YVec (YFp false)) v text NoError (VList (map (VFp false) bs)) ([], []) /\ nearest_each 52 11 16 ls bs.
Proof. apply vector_of_fp. exact C24_nearest_up_to_16_digits_partial. Qed.
Print Assumptions C24_vector_of_doubles_partial.

(** With at most 15 digits every element is the nearest float. *)
Theorem C24_vector_of_floats_partial : forall o g v ls text,
  o_nl o = false -> shaped (YVec (YFp true)) v -> doc_text plain (JArr (map num ls)) text ->
  Forall (fun l => exists neg x, literal_of 15 l neg x) ls ->
  exists bs, parses o g (YVec (YFp true)) v text NoError (VList (map (VFp true) bs)) ([], []) /\ nearest_each 23 8 15 ls bs.
Proof. apply vector_of_fp. exact C24_float_nearest_up_to_15_digits_partial. Qed.
Print Assumptions C24_vector_of_floats_partial.

Example C24_vector_nonvacuous :
  let ls := [s2b "0.1"; s2b "-25e-1"] in
  Forall (fun l => exists neg x, literal_of 15 l neg x) ls /\ doc_text plain (JArr (map num ls)) (show (JArr (map num ls))) /\
  parses default_opts cfg_default (YVec (YFp false)) (VList []) (s2b "[0.1,-25e-1]") NoError
    (VList [VFp false 4591870180066957722; VFp false 13836183955189006336]) ([], []) /\
  parses default_opts cfg_default (YVec (YFp true)) (VList []) (s2b "[0.1,-25e-1]") NoError
    (VList [VFp true 1036831949; VFp true 3223322624]) ([], []).
Proof.
  split; [|split; [apply show_doc; [reflexivity|exact I]|split; apply parses_iff; exists 100; vm_compute; reflexivity]].
  constructor; [|constructor; [|constructor]].
  - exists false, (scaled 1 10 (-1)), (s2b "0.1"), 1%Z, (-1)%Z. split; [reflexivity|].
    split; [exact (DL_plain (s2b "0") (s2b "1") (x2e :: s2b "1") ltac:(repeat constructor; unfold is_digit; cbn; lia)
      ltac:(repeat constructor; unfold is_digit; cbn; lia) (or_intror eq_refl))|].
    split; [eexists _, _; split; [reflexivity|unfold is_digit; cbn; lia]|]. split; [cbn; lia|]. split; [|reflexivity].
    right. split; [cbn; lia|right; vm_compute; discriminate].
  - exists true, (scaled 25 10 (-1)), (s2b "25e-1"), 25%Z, (-1)%Z. split; [reflexivity|].
    split; [literal_exp "25"%string ""%string x65 "-"%string "1"%string|].
    split; [eexists _, _; split; [reflexivity|unfold is_digit; cbn; lia]|]. split; [cbn; lia|]. split; [|reflexivity].
    left. eexists _, _. split; [reflexivity|discriminate].
Qed.
