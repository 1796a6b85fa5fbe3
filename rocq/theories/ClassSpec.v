(** What C68 is stated with: the members of a class and of all its super classes in one list. *)
From Verif Require Import Base ScanModel TokModel SerModel HandlerModel HandlerSpec WriteModel TupleModel ClassModel.

Section Spec.
Context {S : Type}.

(** The members of the class, then those of its super classes from the last to the first, each followed
    by its own super classes.  A member carries the name by which its class was listed as super class. *)
Fixpoint all_members (super : bytes) (k : cls S) : list (bytes * minfo S) :=
  match k with
  | Cls ms ss => map (pair super) ms ++ concat (rev (map (fun s => all_members (fst s) (snd s)) ss))
  end.
(** How many members each of these classes has. *)
Fixpoint all_sizes (k : cls S) : list nat :=
  match k with
  | Cls ms ss => length ms :: concat (rev (map (fun s => all_sizes (snd s)) ss))
  end.
(** The values of an object in the same order. *)
Fixpoint all_values (o : obj) : list val :=
  match o with
  | Obj own bases => own ++ concat (rev (map all_values bases))
  end.

(** The object has a value for each member and an object for each super class. *)
Inductive is_object : cls S -> obj -> Prop :=
| Is_object ms ss own bases : length own = length ms -> Forall2 (fun s b => is_object (snd s) b) ss bases ->
    is_object (Cls ms ss) (Obj own bases).

(** Every class has a member, every member a name, and the lists are shorter than 2^64. *)
Definition good_length (n : nat) : Prop := (1 <= N.of_nat n < 2 ^ 64)%N.
Inductive good_class : cls S -> Prop :=
| Good_class ms ss : good_length (length ms) -> Forall (fun m => good_length (length (mi_names m))) ms ->
    (N.of_nat (length ss) < 2 ^ 64)%N -> Forall (fun s => good_class (snd s)) ss -> good_class (Cls ms ss).

Definition field_of (sm : bytes * minfo S) : field S :=
  mkField (fst sm) (mi_names (snd sm)) (mi_optional (snd sm)) (mi_to (snd sm)).
End Spec.

(** ** Classes given by the types of their members *)
Inductive tcls : Type := TCls (members : list (list bytes * ty)) (supers : list (bytes * tcls)).

Section Typed.
Context {S : Type} (next : token -> S -> outcome (S * error * token)) (fuel : nat) (i : isa).
Definition minfo_of (m : list bytes * ty) : minfo S := mkMi (fst m) (is_optional (snd m)) (to next fuel (snd m)) (from i (snd m)).
Fixpoint cls_of (k : tcls) : cls S :=
  match k with TCls ms ss => Cls (map minfo_of ms) (map (fun s => (fst s, cls_of (snd s))) ss) end.
End Typed.

Fixpoint members_of (super : bytes) (k : tcls) : list (bytes * list bytes * ty) :=
  match k with
  | TCls ms ss => map (fun m => (super, fst m, snd m)) ms ++ concat (rev (map (fun s => members_of (fst s) (snd s)) ss))
  end.
Fixpoint sizes_of (k : tcls) : list nat :=
  match k with
  | TCls ms ss => length ms :: concat (rev (map (fun s => sizes_of (snd s)) ss))
  end.
(** The class as one struct with all members. *)
Definition struct_type (k : tcls) : ty := YStruct (sizes_of k) (members_of [] k).

Inductive object_of : tcls -> obj -> Prop :=
| Object_of ms ss own bases : length own = length ms -> Forall2 (fun s b => object_of (snd s) b) ss bases ->
    object_of (TCls ms ss) (Obj own bases).
Inductive good_tcls : tcls -> Prop :=
| Good_tcls ms ss : good_length (length ms) -> Forall (fun m => good_length (length (fst m))) ms ->
    (N.of_nat (length ss) < 2 ^ 64)%N -> Forall (fun s => good_tcls (snd s)) ss -> good_tcls (TCls ms ss).

(** A default constructed object. *)
Fixpoint init_object (k : tcls) : obj :=
  match k with TCls ms ss => Obj (map (fun m => init (snd m)) ms) (map (fun s => init_object (snd s)) ss) end.

(** A member of the class or inherited, with the name under which its class was listed. *)
Inductive has_member : bytes -> tcls -> bytes * list bytes * ty -> Prop :=
| Own super ms ss m : In m ms -> has_member super (TCls ms ss) (super, fst m, snd m)
| Inherited super ms ss name k f : In (name, k) ss -> has_member name k f -> has_member super (TCls ms ss) f.

(** parseTo on a ParseContext made for one text; it returns with this error, object and these reports. *)
Definition class_text (o : opts) (g : pcfg) (fuel : nat) (i : isa) (k : tcls) (ob : obj) (text : bytes) : outcome (error * obj * report) :=
  let* (e, ob, c) := class_parseTo (nextToken o) fuel (cls_of (nextToken o) fuel i k) ob (context_of g text) in Ok (e, ob, rep c).
Definition class_parses (o : opts) (g : pcfg) (i : isa) (k : tcls) (ob : obj) (text : bytes) (e : error) (ob' : obj) (r : report) : Prop :=
  exists n, forall fuel, n <= fuel -> class_text o g fuel i k ob text = Ok (e, ob', r).
