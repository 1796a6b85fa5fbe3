(** Property C73: which texts are read as numbers. *)
From Verif Require Import Base ScanModel TokModel JsonSpec NumSpec NumAccSpec IntModel IntProofs NumParse NumAccProofs HandlerModel HandlerSpec HandlerTree HandlerLaws ContainSpec PropTok PropNum PropContain HandlerTerm.
From Coq Require Import Lia ZArith.

(** The integer handlers take exactly the texts of the grammar, whatever the width and sign of the type. *)
Theorem C73_integers : forall t text, exists e z, int_to t text = Ok (e, z) /\ (e = NoError <-> taken_for_number text).
Proof. intros t text. destruct (int_to_ok t text) as (e & z & E). exists e, z. split; [exact E|exact (int_to_taken t text e z E)]. Qed.
Print Assumptions C73_integers.

(** So do the handlers for float and double, where they are defined. *)
Theorem C73_floats : forall single text e b, fp_read single text = Ok (e, b) -> (e = NoError <-> taken_for_number text).
Proof.
  intros single text e b. unfold fp_read, FloatModel.float_to, FloatModel.to_float, DoubleModel.double_to, DoubleModel.to_double.
  destruct (parseNumber 64 false text) as [[pe p]| |] eqn:PN; cbn [obind]; [|destruct single; discriminate..].
  apply parseNumber_taken in PN. rewrite <- PN.
  destruct single, pe; cbn [obind];
    try (intros [= <- _]; split; [discriminate|intros (X & _); discriminate X]);
    (destruct (DoubleModel.convertToNumber p); cbn [obind]; [|discriminate..];
     destruct (p_end p =? length text) eqn:Q; intros [= <- _];
     [apply Nat.eqb_eq in Q; tauto|apply Nat.eqb_neq in Q; split; [discriminate|tauto]]).
Qed.
Print Assumptions C73_floats.

(** A value of a document is read into an integer exactly if it is a scalar with such a text. *)
Theorem C73_documents : forall g i v j, shaped (YInt i) v ->
  exists e z, read_value g (YInt i) v j = Ok (e, VInt z, ([], [])) /\ (e = NoError <-> number_like j).
Proof.
  intros g i v j Hv. rewrite (read_value_sem g (YInt i) v j I Hv I). cbn [sem].
  destruct (C73_integers i (first_value (Some j))) as (e & z & -> & K). exists e, z. split; [reflexivity|]. rewrite K.
  assert (B : forall c, ~ In c [x20; x09; x0a; x0b; x0c; x0d; x2d; x2e; x45; x65] -> ~ is_digit c -> ~ taken_for_number [c]).
  { intros c Nc Nd (w & m & l & nu & po & E & Hw & Hm & Hl & Hne). destruct w as [|c0 w]; cbn [app] in E.
    2:{ injection E as <- _. apply Nc. apply Forall_inv in Hw. unfold white in Hw. cbn [In] in *. tauto. }
    destruct Hm as [->| ->]; cbn [app] in E; [|injection E as -> _; apply Nc; cbn; tauto].
    assert (P : exists a b, dec_literal l a b) by eauto. apply dec_literal_parts in P.
    destruct P as (d & fl & ex & -> & Hd & Hfl & n & x & Hex). destruct d as [|c0 d]; cbn [app] in E.
    2:{ injection E as <- _. exact (Nd (Forall_inv Hd)). }
    destruct Hfl as [->|(f & -> & _)]; cbn [app] in E; [|injection E as -> _; apply Nc; cbn; tauto].
    destruct Hex as [(-> & _)|(y & s & k & -> & Hy & _)]; [discriminate E|]. injection E as -> _. apply Nc.
    destruct Hy as [->| ->]; cbn; tauto. }
  destruct j as [s|els|ms]; cbn [first_value].
  - split; [intros H; exists s; auto|]. intros (s' & [= <-] & H). exact H.
  - split; [intros H; exfalso; apply (B lbrack); [cbn; intuition discriminate|intros (X & Y); vm_compute in Y; apply Y; reflexivity|exact H]|].
    intros (s & E & _). discriminate E.
  - split; [intros H; exfalso; apply (B lbrace); [cbn; intuition discriminate|intros (X & Y); vm_compute in Y; apply Y; reflexivity|exact H]|].
    intros (s & E & _). discriminate E.
Qed.
Print Assumptions C73_documents.

(** Every number of RFC 8259 is taken. *)
Theorem C73_json_numbers : forall t text, rfc_number text -> exists z, int_to t text = Ok (NoError, z).
Proof.
  intros t text H. destruct (C73_integers t text) as (e & z & E & K). exists z. rewrite E. do 2 f_equal.
  apply K, rfc_taken, H.
Qed.
Print Assumptions C73_json_numbers.

Example C73_nonvacuous :
  taken_for_number (s2b "-12.5e+3") /\ rfc_number (s2b "-12.5e+3") /\ ~ taken_for_number (s2b "12a") /\ ~ taken_for_number (s2b "1.2.3") /\
  ~ taken_for_number (s2b "+1") /\ ~ taken_for_number [] /\ number_like (JScalar (SStr (s2b " 12"))) /\
  (exists b, fp_read false (s2b "-12.5e+3") = Ok (NoError, b)).
Proof.
  assert (R : rfc_number (s2b "-12.5e+3")).
  { exists [x2d], (s2b "12"), (s2b ".5"), (s2b "e+3"). split; [reflexivity|]. split; [auto|]. split; [|split].
    - right. exists x31, (s2b "2"). split; [reflexivity|]. split; [split; discriminate|]. split; [discriminate|]. repeat constructor; discriminate.
    - right. exists (s2b "5"). split; [reflexivity|]. split; [discriminate|]. repeat constructor; discriminate.
    - right. exists x65, [x2b], (s2b "3"). split; [reflexivity|]. split; [auto|]. split; [auto|]. split; [discriminate|]. repeat constructor; discriminate. }
  assert (N : forall text e z, int_to (mkIty 32 true) text = Ok (e, z) -> (match e with NoError => false | _ => true end = true) -> ~ taken_for_number text).
  { intros text e z E X Tk. apply (int_to_taken _ _ _ _ E) in Tk. subst e. discriminate X. }
  split; [apply rfc_taken, R|]. split; [exact R|].
  split; [eapply N; [vm_compute; reflexivity|reflexivity]|]. split; [eapply N; [vm_compute; reflexivity|reflexivity]|].
  split; [eapply N; [vm_compute; reflexivity|reflexivity]|]. split; [eapply N; [vm_compute; reflexivity|reflexivity]|].
  split; [|eexists; vm_compute; reflexivity].
  exists (SStr (s2b " 12")). split; [reflexivity|]. eapply int_to_taken with (t := mkIty 32 true); [vm_compute; reflexivity|reflexivity].
Qed.

(** The claim: only numbers of RFC 8259 are read into integers. *)
Definition C73_claim : Prop := forall t text z, int_to t text = Ok (NoError, z) -> rfc_number text.

(** It is false: a minus sign, a dot and an exponent are read as 0, on their own or in a string, also in a text. *)
Theorem C73_refuted : ~ C73_claim /\
  int_to (mkIty 32 true) (s2b "-") = Ok (NoError, 0%Z) /\ int_to (mkIty 32 true) (s2b ".") = Ok (NoError, 0%Z) /\
  int_to (mkIty 32 true) (s2b "-.e-7") = Ok (NoError, 0%Z) /\
  parses default_opts cfg_default (YVec (YInt (mkIty 32 true))) (VList []) (s2b "[-, 1., 007, ""."", "" 5""]") NoError
    (VList [VInt 0; VInt 1; VInt 7; VInt 0; VInt 5]) ([], []).
Proof.
  split; [|split; [vm_compute; reflexivity|split; [vm_compute; reflexivity|split; [vm_compute; reflexivity|]]]].
  - intros H. specialize (H (mkIty 32 true) (s2b "-") 0%Z eq_refl). destruct H as (m & i & f & e & E & Hm & Hi & _).
    assert (Hd : exists c tl, i = c :: tl /\ is_digit c).
    { destruct Hi as [->|(c & tl & -> & Hc & _)]; [exists x30, []; split; [reflexivity|split; discriminate]|eauto]. }
    destruct Hd as (c & tl & -> & Hc). destruct Hm as [->| ->]; cbn [app] in E.
    + injection E as <- _. destruct Hc as (Hc & _). apply Hc. reflexivity.
    + discriminate E.
  - apply parses_iff. exists 200. vm_compute. reflexivity.
Qed.
Print Assumptions C73_refuted.

(** The number of digits is counted in eight bits: 10^-255, with 254 zeros and a 1 behind the dot, is read as 10. *)
Theorem C73_long_fraction_refuted :
  let f := repeat x30 254 ++ [x31] in
  rfc_number (s2b "0." ++ f) /\ int_to (mkIty 32 true) (s2b "0." ++ f) = Ok (NoError, 10%Z) /\ dec_literal (s2b "0." ++ f) 1 (-255).
Proof.
  intros f. assert (Z0 : digits1 f).
  { split; [discriminate|]. apply Forall_forall. intros c H. apply in_app_or in H. destruct H as [H|[<-|[]]]; [apply repeat_spec in H; subst c|]; split; discriminate. }
  split; [|split; [vm_compute; reflexivity|]].
  - exists [], (s2b "0"), (x2e :: f), []. split; [rewrite app_nil_r; reflexivity|]. split; [auto|]. split; [left; reflexivity|]. split; [|left; reflexivity].
    right. exists f. split; [reflexivity|exact Z0].
  - assert (K := DL_plain (s2b "0") f (x2e :: f)).
    replace 1%Z with (Z.of_N (dec_value (s2b "0" ++ f))) by (vm_compute; reflexivity).
    replace (-255)%Z with (- Z.of_nat (length f))%Z by (vm_compute; reflexivity).
    apply K; [repeat constructor; discriminate|apply Z0|right; reflexivity].
Qed.
Print Assumptions C73_long_fraction_refuted.
