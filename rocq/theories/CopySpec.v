(** Specification for raw capture.  No proofs here. *)
From Verif Require Import Base ScanModel TokModel TokSpec CopyModel.

(** Everything the tokenizer holds or will be given, and the part of it behind the cursor. *)
Definition pending (s : tstate) : bytes := concat (t_bufs s) ++ concat (concat (t_supply s)).
Definition unread (s : tstate) : bytes := skipn (t_cur s) (pending s).

(** The two kinds of container a capture can be about. *)
Definition opening (t : type) : byte := match t with TObjectStart => x7b | _ => x5b end.
Definition closing (t : type) : byte := match t with TObjectStart => x7d | _ => x5d end.

(** States of a tokenizer that reads text (no parsed tokens), with raw captures: [capturing o s].
    The string of a new capture is not the target of one that is still open. *)
Inductive capturing (o : opts) : tstate -> Prop :=
| Ca_init : capturing o t_init
| Ca_callback s l : capturing o s -> capturing o (set_supply l s)
| Ca_add s d : capturing o s -> capturing o (addData d s)
| Ca_next s nt s1 e nt1 :
    capturing o s -> nextToken o nt s = Ok (s1, e, nt1) -> capturing o s1
| Ca_push s t : capturing o s -> capturing o (pushScope t s)
| Ca_pop s s1 : capturing o s -> popScope s = Ok s1 -> capturing o s1
| Ca_raw s nt s0 tk f k id txt s1 e tk1 out :
    capturing o s -> nextToken o nt s = Ok (s0, NoError, tk) -> ~ In id (map fst (t_copy s0)) ->
    raw_to f o k id txt tk s0 = Ok (s1, e, tk1, out) -> capturing o s1
| Ca_ref s tk f k s1 e tk1 out :
    capturing o s -> raw_ref_to f o k tk s = Ok (s1, e, tk1, out) -> capturing o s1.
