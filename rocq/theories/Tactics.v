(** Small tactics. *)
From Coq Require Import NArith ZArith Lia ZifyBool ZifyNat ZifyN.

(** Drop hypotheses that are no use to [lia] and make it slow. *)
Ltac keep_arith :=
  repeat match goal with
  | H : @eq ?T _ _ |- _ =>
      lazymatch T with nat => fail | N => fail | Z => fail | _ => clear H end
  | H : forall _, _ |- _ => clear H
  | H : ex _ |- _ => clear H
  end.

Ltac alia := keep_arith; lia.
