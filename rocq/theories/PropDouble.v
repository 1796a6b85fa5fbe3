(** C24: decimal literals read as doubles. *)
From Coq Require Import String QArith Qabs Qpower ZArith Lia.
From Verif Require Import Base JsonSpec NumSpec DoubleSpec IntModel DoubleModel DoubleFinish DoubleProofs DoubleRead.
Local Open Scope Z_scope.

(** Literals with at most 16 digits: the nearest double, ties to even.  Missing for C24: 17 and more
    digits, and literals with leading zeros outside of [readable]; both are wrong in the code, see the
    refutations below. *)
Theorem C24_nearest_up_to_16_digits_partial : forall (neg : bool) l m p,
  dec_literal l m p -> (exists c r, l = c :: r /\ is_digit c) -> (mantissa_digits l <= 16)%nat -> readable l m p ->
  exists b, double_to ((if neg then [x2d] else []) ++ l) = Ok (NoError, with_sign 52 11 neg b) /\
    nearest 52 11 (scaled m 10 p) b.
Proof.
  intros neg l m p Hl Hd Hn Hr. destruct (double_to_decimal neg l m p Hl Hd ltac:(lia) Hr) as (b & H & _ & _ & N).
  exists b. auto.
Qed.

(** Literals with at most 19 digits: one of the two doubles next to the value; the nearest one unless
    the value lies above a halfway point by less than 2^-110 of it. *)
Theorem C24_adjacent_up_to_19_digits_partial : forall (neg : bool) l m p,
  dec_literal l m p -> (exists c r, l = c :: r /\ is_digit c) -> (mantissa_digits l <= 19)%nat -> readable l m p ->
  exists b, double_to ((if neg then [x2d] else []) ++ l) = Ok (NoError, with_sign 52 11 neg b) /\
    adjacent 52 11 (scaled m 10 p) b /\
    (clear_of_halfway 52 11 (1 # 1298074214633706907132624082305024) (scaled m 10 p) -> nearest 52 11 (scaled m 10 p) b).
Proof.
  intros neg l m p Hl Hd Hn Hr. destruct (double_to_decimal neg l m p Hl Hd Hn Hr) as (b & H & A & N & _).
  exists b. auto.
Qed.

(** ** Literals for which it fails *)
Ltac literal_exp i0 f0 e0 s0 d0 :=
  exact (DL_exp (s2b i0) (s2b f0) (match s2b f0 with [] => [] | f => x2e :: f end) e0 (s2b s0) (s2b d0)
    ltac:(repeat constructor; unfold is_digit; cbn; lia) ltac:(repeat constructor; unfold is_digit; cbn; lia)
    ltac:(cbn; auto) ltac:(cbn; auto) ltac:(cbn; auto) ltac:(split; [discriminate|repeat constructor; unfold is_digit; cbn; lia])).

Lemma not_nearest b' x b : (b' <= infinity 52 11)%N -> b' <> b ->
  (Qabs (x - fp_value 52 11 b') < Qabs (x - fp_value 52 11 b))%Q -> ~ nearest 52 11 x b.
Proof. intros Hb Hne Hlt [_ H]. destruct (H b' Hb Hne) as [H1 _]. apply (Qlt_not_le _ _ Hlt). exact H1. Qed.

(** 17 digits, as many as a double needs: the next smaller double is stored. *)
Theorem C24_17_digits_refuted : exists l m p b, dec_literal l m p /\ mantissa_digits l = 17%nat /\ readable l m p /\
  double_to l = Ok (NoError, with_sign 52 11 false b) /\ ~ nearest 52 11 (scaled m 10 p) b.
Proof.
  exists (s2b "94080055902682397e-242"), 94080055902682397, (-242), 1240259569605568201%N.
  split; [literal_exp "94080055902682397"%string ""%string x65 "-"%string "242"%string|].
  split; [reflexivity|]. split; [left; eexists _, _; split; [reflexivity|discriminate]|]. split; [vm_compute; reflexivity|].
  apply (not_nearest 1240259569605568202%N); [discriminate|discriminate|vm_compute; reflexivity].
Qed.

(** More than 19 digits: 100000000000000000000 is read as ten times less. *)
Theorem C24_long_literals_refuted : exists l m p b, dec_literal l m p /\
  double_to l = Ok (NoError, with_sign 52 11 false b) /\ (fp_value 52 11 b * 10 == scaled m 10 p)%Q.
Proof.
  exists (s2b "100000000000000000000"), 100000000000000000000, 0, 4891288408196988160%N. split.
  - exact (DL_plain (s2b "100000000000000000000") [] [] ltac:(repeat constructor; unfold is_digit; cbn; lia) (Forall_nil _) (or_introl (conj eq_refl eq_refl))).
  - split; vm_compute; reflexivity.
Qed.

(** Leading zeros count as digits: 0e309 is read as infinity. *)
Theorem C24_zero_refuted : exists l p b, dec_literal l 0 p /\ (mantissa_digits l <= 15)%nat /\
  double_to l = Ok (NoError, with_sign 52 11 false b) /\ b = infinity 52 11.
Proof.
  exists (s2b "0e309"), 309, (infinity 52 11). split; [literal_exp "0"%string ""%string x65 ""%string "309"%string|].
  split; [cbn; lia|]. split; [vm_compute|]; reflexivity.
Qed.

(** A shift by 64 bits or more, and a division by zero. *)
Theorem C24_undefined_refuted :
  dec_literal (s2b "0.0000000000000001e-320") 1 (-336) /\ double_to (s2b "0.0000000000000001e-320") = UB /\
  dec_literal (s2b "0.00000000000000000001") 1 (-20) /\ double_to (s2b "0.00000000000000000001") = UB.
Proof.
  split; [literal_exp "0"%string "0000000000000001"%string x65 "-"%string "320"%string|]. split; [vm_compute; reflexivity|].
  split; [|vm_compute; reflexivity].
  exact (DL_plain (s2b "0") (s2b "00000000000000000001") (x2e :: s2b "00000000000000000001")
    ltac:(repeat constructor; unfold is_digit; cbn; lia) ltac:(repeat constructor; unfold is_digit; cbn; lia) (or_intror eq_refl)).
Qed.

(** ** The hypotheses can be met *)
Example C24_nonvacuous_nearest : exists l m p, dec_literal l m p /\ mantissa_digits l = 16%nat /\ readable l m p /\
  double_to l = Ok (NoError, 4624877118030952386%N).
Proof.
  exists (s2b "1.543210000000170E+1"), 1543210000000170, (-14).
  split; [literal_exp "1"%string "543210000000170"%string x45 "+"%string "1"%string|].
  split; [reflexivity|]. split; [left; eexists _, _; split; [reflexivity|discriminate]|vm_compute; reflexivity].
Qed.

(** 16 digits, directly above a halfway point: only the computation in DoubleClear.v covers it. *)
Example C24_nonvacuous_close : exists b, double_to (s2b "3743626360493413e-165") = Ok (NoError, b) /\
  (halfway 52 11 (b - 1) < scaled 3743626360493413 10 (-165))%Q /\
  (scaled 3743626360493413 10 (-165) < halfway 52 11 (b - 1) * (1 + inject_Z 2 ^ (-114)))%Q.
Proof. eexists. split; [vm_compute; reflexivity|]. split; vm_compute; reflexivity. Qed.

(** The smallest positive double, with a leading zero. *)
Example C24_nonvacuous_readable : dec_literal (s2b "0.5e-323") 5 (-324) /\ readable (s2b "0.5e-323") 5 (-324) /\
  double_to (s2b "0.5e-323") = Ok (NoError, 1%N).
Proof.
  split; [literal_exp "0"%string "5"%string x65 "-"%string "323"%string|]. split; [|vm_compute; reflexivity].
  right. split; [cbn; lia|right; vm_compute; discriminate].
Qed.

(** The value 2^53 + 1 lies halfway between two doubles; the even one is stored. *)
Example C24_nonvacuous_tie : double_to (s2b "9007199254740993") = Ok (NoError, 4845873199050653696%N) /\
  double_to (s2b "9007199254740995") = Ok (NoError, 4845873199050653698%N) /\
  N.even 4845873199050653696 = true /\ (fp_value 52 11 4845873199050653696 == 9007199254740992)%Q.
Proof. repeat split; vm_compute; reflexivity. Qed.

(** 2^-110 *)
Example C24_nonvacuous_eps : (1 # 1298074214633706907132624082305024 == inject_Z 2 ^ (-110))%Q.
Proof. reflexivity. Qed.

Print Assumptions C24_nearest_up_to_16_digits_partial.
Print Assumptions C24_adjacent_up_to_19_digits_partial.
Print Assumptions C24_17_digits_refuted.
Print Assumptions C24_long_literals_refuted.
Print Assumptions C24_zero_refuted.
Print Assumptions C24_undefined_refuted.
