(** The specification for C69: the type with integers for the enums and strings for the Errors, and
    when two objects are the same but for the Errors in them. *)
From Verif Require Import Base ScanModel TokModel JsonSpec TokSpec IntModel HandlerModel HandlerSpec EnumValModel.
From Coq Require Import String List.
Import ListNotations.
Local Open Scope list_scope.

Fixpoint as_ty (m : mty) : ty :=
  match m with
  | MTy t => t
  | MEnum u _ => YInt u
  | MError => YString
  | MVec m => YVec (as_ty m)
  | MMap m => YMap (as_ty m)
  | MStdOptional m => YStdOptional (as_ty m)
  | MStruct blocks fs => YStruct blocks (map (fun f => (fst f, as_ty (snd f))) fs)
  end.

(** All enums have a fixed underlying type. *)
Fixpoint all_fixed (m : mty) : Prop :=
  match m with
  | MTy _ | MError => True
  | MEnum _ legal => forall z, legal z = true
  | MVec m | MMap m | MStdOptional m => all_fixed m
  | MStruct _ fs => (fix go fs := match fs with [] => True | f :: fs => all_fixed (snd f) /\ go fs end) fs
  end.

Definition opt_rel (R : val -> val -> Prop) (x y : option val) : Prop :=
  match x, y with Some a, Some b => R a b | None, None => True | _, _ => False end.
Definition members_rel (Rs : list (val -> val -> Prop)) (l l' : list val) : Prop :=
  forall k, opt_rel (nth k Rs eq) (nth_error l k) (nth_error l' k).

(** The same object but for the Errors; the Errors of the first one satisfy [E]. *)
Fixpoint alike_in (E : val -> Prop) (m : mty) (v v' : val) {struct m} : Prop :=
  match m with
  | MTy _ | MEnum _ _ => v = v'
  | MError => E v
  | MVec m => match v, v' with VList l, VList l' => Forall2 (alike_in E m) l l' | _, _ => v = v' end
  | MMap m => match v, v' with
              | VMap l, VMap l' => Forall2 (fun kv kv' => fst kv = fst kv' /\ alike_in E m (snd kv) (snd kv')) l l'
              | _, _ => v = v' end
  | MStdOptional m => match v, v' with VOpt (Some x), VOpt (Some x') => alike_in E m x x' | _, _ => v = v' end
  | MStruct _ fs => match v, v' with
                    | VList l, VList l' => members_rel (map (fun f => alike_in E (snd f)) fs) l l'
                    | _, _ => v = v' end
  end.

Definition alike : mty -> val -> val -> Prop := alike_in (fun _ => True).

(** The object with NoError in all Errors. *)
Fixpoint cleared (m : mty) (v : val) {struct m} : val :=
  match m with
  | MTy _ | MEnum _ _ => v
  | MError => VInt 0
  | MVec m => match v with VList l => VList (map (cleared m) l) | _ => v end
  | MMap m => match v with VMap l => VMap (map (fun kv => (fst kv, cleared m (snd kv))) l) | _ => v end
  | MStdOptional m => match v with VOpt (Some x) => VOpt (Some (cleared m x)) | _ => v end
  | MStruct _ fs => match v with
                    | VList l => VList ((fix go fs l := match fs, l with
                                         | f :: fs, x :: l => cleared (snd f) x :: go fs l | _, _ => l end) fs l)
                    | _ => v end
  end.

(** The object with the names of the Errors in place of them. *)
Fixpoint with_names (m : mty) (v : val) {struct m} : val :=
  match m with
  | MTy _ | MEnum _ _ => v
  | MError => match v with VInt z => VStr (error_text z) | _ => v end
  | MVec m => match v with VList l => VList (map (with_names m) l) | _ => v end
  | MMap m => match v with VMap l => VMap (map (fun kv => (fst kv, with_names m (snd kv))) l) | _ => v end
  | MStdOptional m => match v with VOpt (Some x) => VOpt (Some (with_names m x)) | _ => v end
  | MStruct _ fs => match v with
                    | VList l => VList ((fix go fs l := match fs, l with
                                         | f :: fs, x :: l => with_names (snd f) x :: go fs l | _, _ => l end) fs l)
                    | _ => v end
  end.

(** Every Error is one of the 256 numbers of the type. *)
Fixpoint errors_ok (m : mty) (v : val) {struct m} : Prop :=
  match m with
  | MTy _ | MEnum _ _ => True
  | MError => match v with VInt z => (0 <= z < 256)%Z | _ => False end
  | MVec m => match v with VList l => Forall (errors_ok m) l | _ => False end
  | MMap m => match v with VMap l => Forall (fun kv => errors_ok m (snd kv)) l | _ => False end
  | MStdOptional m => match v with VOpt (Some x) => errors_ok m x | VOpt None => True | _ => False end
  | MStruct _ fs => match v with
                    | VList l => (fix go fs l := match fs, l with
                                  | [], [] => True | f :: fs, x :: l => errors_ok (snd f) x /\ go fs l | _, _ => False end) fs l
                    | _ => False end
  end.

(** parseTo on a ParseContext made for one text. *)
Definition mparse_text (o : opts) (g : pcfg) (fuel : nat) (m : mty) (v : val) (text : bytes) : outcome (error * val * report) :=
  let* (e, v, c) := mparseTo (nextToken o) fuel m v (context_of g text) in Ok (e, v, rep c).
Definition mparses (o : opts) (g : pcfg) (m : mty) (v : val) (text : bytes) (e : error) (v' : val) (r : report) : Prop :=
  exists n, forall fuel, n <= fuel -> mparse_text o g fuel m v text = Ok (e, v', r).

(** Two runs with the same error and reports, and the same object on success. *)
Definition same_run {A} (P : A -> A -> Prop) {C} (x y : outcome (error * A * C)) : Prop :=
  match x, y with
  | Ok (e, a, c), Ok (e', a', c') => e = e' /\ c = c' /\ (e = NoError -> P a a')
  | UB, UB | OutOfFuel, OutOfFuel => True
  | _, _ => False
  end.

(** No Errors in it. *)
Fixpoint no_errors (m : mty) : bool :=
  match m with
  | MTy _ | MEnum _ _ => true
  | MError => false
  | MVec m | MMap m | MStdOptional m => no_errors m
  | MStruct _ fs => forallb (fun f => no_errors (snd f)) fs
  end.
