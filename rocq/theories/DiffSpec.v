(** Specification of differences between JSON values.  No proofs, no reference to the comparison
    code of the model. *)
From Verif Require Import Base TokModel JsonSpec MapModel MapSpec DiffModel.
From Coq Require Import Permutation.

(** No object has two members of the same name. *)
Inductive unique_names : json -> Prop :=
| Un_scalar s : unique_names (JScalar s)
| Un_arr els : Forall unique_names els -> unique_names (JArr els)
| Un_obj ms : NoDup (map fst ms) -> Forall (fun kv => unique_names (snd kv)) ms -> unique_names (JObj ms).

(** The texts of the numbers of a value. *)
Fixpoint numbers (j : json) : list bytes :=
  match j with
  | JScalar (SNum t) => [t]
  | JScalar _ => []
  | JArr els => flat_map numbers els
  | JObj ms => flat_map (fun kv => numbers (snd kv)) ms
  end.

(** The comparison of numbers answers for all numbers of the two values. *)
Definition comparable (o : dopts) (a b : json) : Prop :=
  forall x y, In x (numbers a) -> In y (numbers b) -> exists r, do_same o x y = Ok r.
(** It finds every number of the value equal to itself. *)
Definition reflexive_on (o : dopts) (a : json) : Prop :=
  forall x, In x (numbers a) -> do_same o x x = Ok true.

(** Equal up to the order of members and the comparison of numbers. *)
Inductive same_scalar (o : dopts) : scalar -> scalar -> Prop :=
| Ss_str t : same_scalar o (SStr t) (SStr t)
| Ss_num x y : do_same o x y = Ok true -> same_scalar o (SNum x) (SNum y)
| Ss_true : same_scalar o STrue STrue
| Ss_false : same_scalar o SFalse SFalse
| Ss_null : same_scalar o SNull SNull.
Inductive same_json (o : dopts) : json -> json -> Prop :=
| Sj_scalar a b : same_scalar o a b -> same_json o (JScalar a) (JScalar b)
| Sj_arr l l' : Forall2 (same_json o) l l' -> same_json o (JArr l) (JArr l')
| Sj_obj l l' l2 : Forall2 (fun a b => fst a = fst b /\ same_json o (snd a) (snd b)) l l' ->
    Permutation l' l2 -> same_json o (JObj l) (JObj l2).

(** The tokens and metadata of a document. *)
Definition src_of (j : json) (d : dsrc) : Prop :=
  map tok_view (ds_tokens d) = doc_tokens None j /\ metaForTokens (ds_tokens d) = Ok (ds_meta d).

(** The diff reports nothing. *)
Definition no_difference (s : dstate) : Prop :=
  dt_count s = 0 /\ Forall (fun t => t = NoDiff) (dt_diffs s) /\ dt_members s = [] /\ dt_items s = [].

(** No NUL in names and strings (JSON does not allow it there). *)
Inductive no_nul : json -> Prop :=
| Nz_scalar s : (forall t, s = SStr t -> ~ In x00 t) -> no_nul (JScalar s)
| Nz_arr els : Forall no_nul els -> no_nul (JArr els)
| Nz_obj ms : Forall (fun kv => ~ In x00 (fst kv) /\ no_nul (snd kv)) ms -> no_nul (JObj ms).

(** [compared jb jd q eb ed]: inside the values [jb] and [jd], the latter starting at token [q0],
    the array [ed] that starts at token [q] corresponds to the array [eb]: it is reached by the
    same member names and element numbers. *)
Inductive compared : json -> nat -> json -> list json -> nat -> list json -> Prop :=
| Co_here eb q ed : compared (JArr eb) q (JArr ed) eb q ed
| Co_element pb v sb pd w sd q0 eb q ed :
    length pb = length pd ->
    compared v (S q0 + list_sum (map ntok pd)) w eb q ed ->
    compared (JArr (pb ++ v :: sb)) q0 (JArr (pd ++ w :: sd)) eb q ed
| Co_member k pb v sb pd w sd q0 eb q ed :
    compared v (S q0 + list_sum (map (fun kv => ntok (snd kv)) pd)) w eb q ed ->
    compared (JObj (pb ++ (k, v) :: sb)) q0 (JObj (pd ++ (k, w) :: sd)) eb q ed.
