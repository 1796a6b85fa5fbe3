(** Model of the templates that walk through a class and its super classes: NameChecker, unpackMember,
    verifyMember, serializeMember, StartSuperRecursion, memberCount, MemberChecker, SuperClassHandler
    (H 4231-4566) and TypeHandler<T>::to and from for JS_OBJECT classes (H 5704-5788), template by
    template.  No proofs here.

    HandlerModel reads a struct as one flat list of members; C68 connects the two.  An object is a tree
    here: the members of the class itself, and one object for each super class.  Template arguments are
    arguments, a recursion of templates is a recursion of functions.  UB also stands for a program that
    is not well formed, so that a compiler would reject it (a class without members, H 4400:
    MemberChecker<T, Tuple<>, PAGE, size_t(-1)> asks for get<size_t(-1)>).  Virtual base classes are not
    modelled. *)
From Verif Require Import Base ScanModel TokModel SerModel HandlerModel WriteModel TupleModel.

Definition lift {A} (x : option A) : outcome A := match x with Some a => Ok a | None => UB end.

Section Class.
Context {S : Type} (next : token -> S -> outcome (S * error * token)) (fuel : nat).

(** H 4174-4180: MI, a member: its names, IsOptionalType, TypeHandler<type>::to and ::from. *)
Record minfo : Type := mkMi { mi_names : list bytes; mi_optional : bool; mi_to : handler S; mi_from : writer }.

(** js_static_meta_data_info and js_static_meta_super_info. *)
Inductive cls : Type := Cls (members : list minfo) (supers : list (bytes * cls)).
Inductive obj : Type := Obj (own : list val) (bases : list obj).

(** H 4231-4255: NameChecker<NameTuple, index>::compare.  [size]: NameTuple::size. *)
Fixpoint nameChecker (size index : nat) (names : list bytes) (n : bytes) : outcome bool :=
  match index with
  | O => Ok false
  | Datatypes.S d =>
      if negb (Nat.eqb index size) then
        let* literal := lift (get_of (size_sub (N.of_nat size) (N.of_nat index)) names) in
        if bytes_eqb literal n then Ok true else nameChecker size d names n
      else nameChecker size d names n
  end.

(** assigned_members[index] = true *)
Definition mark (index : nat) (assigned : list bool) : outcome (list bool) :=
  if index <? length assigned then Ok (put index true assigned) else UB.

(** H 4269-4290: unpackMember. *)
Definition unpackMember (m : minfo) (v : val) (c : ctx S) (index : nat) (primary : bool) (assigned : list bool)
  : outcome (error * val * list bool * ctx S) :=
  let* same :=
    if primary then let* literal := lift (get_of 0 (mi_names m)) in Ok (bytes_eqb literal (c_name c))
    else nameChecker (length (mi_names m)) (length (mi_names m)) (mi_names m) (c_name c) in
  if (same : bool) then
    let* assigned := mark index assigned in
    let* (e, v, c) := mi_to m v c in
    Ok (matchedMemberResult e, v, assigned, c)
  else Ok (MissingPropertyMember, v, assigned, c).

(** H 4400-4413, 4437-4447: MemberChecker<T, Members, PAGE, INDEX>::unpackMembers; [supers]: what the
    specialisation for INDEX = 0 goes on with. *)
Fixpoint unpackFrom (primary : bool) (ms : list minfo) (page index : nat)
    (supers : list bool -> ctx S -> outcome (error * list obj * list bool * ctx S))
    (own : list val) (bases : list obj) (assigned : list bool) (c : ctx S)
  : outcome (error * obj * list bool * ctx S) :=
  let* m := lift (get_of (N.of_nat index) ms) in
  let* v := lift (nth_error own index) in
  let* (e, v, assigned, c) := unpackMember m v c (page + index) primary assigned in
  let own := put index v own in
  match e with
  | MissingPropertyMember =>
      match index with
      | O => let* (e, bases, assigned, c) := supers assigned c in Ok (e, Obj own bases, assigned, c)
      | Datatypes.S i => unpackFrom primary ms page i supers own bases assigned c
      end
  | _ => Ok (e, Obj own bases, assigned, c)
  end.

(** H 4507-4514 and 4551-4556: SuperClassHandler<T, PAGE, INDEX>::membersInSuperClasses. *)
Fixpoint superCount (index : nat) (counts : list (outcome nat)) : outcome nat :=
  let* n := lift (get_of (N.of_nat index) counts) in
  let* n := n in
  match index with
  | O => Ok n
  | Datatypes.S i => let* r := superCount i counts in Ok (n + r)
  end.
(** H 4358-4364; 4387-4390 for SIZE = 0. *)
Fixpoint memberCount (k : cls) : outcome nat :=
  match k with
  | Cls ms ss =>
      let* r := match length ss with
                | O => Ok 0
                | Datatypes.S i => superCount i (map (fun s => memberCount (snd s)) ss)
                end in
      Ok (length ms + r)
  end.

(** H 4472-4486 and 4530-4538: SuperClassHandler<T, PAGE, INDEX>::handleSuperClasses; [unpack]: the
    MemberCheckers of the super classes. *)
Definition unpacker : Type := nat -> obj -> list bool -> ctx S -> outcome (error * obj * list bool * ctx S).
Fixpoint handleSuperClasses (index page : nat) (unpack : list unpacker) (counts : list (outcome nat))
    (bases : list obj) (assigned : list bool) (c : ctx S) : outcome (error * list obj * list bool * ctx S) :=
  let* u := lift (get_of (N.of_nat index) unpack) in
  let* base := lift (nth_error bases index) in
  let* (e, base, assigned, c) := u page base assigned c in
  let bases := put index base bases in
  match index with
  | O => Ok (e, bases, assigned, c)
  | Datatypes.S i =>
      match e with
      | MissingPropertyMember =>
          let* n := lift (get_of (N.of_nat index) counts) in
          let* n := n in
          handleSuperClasses i (page + n) unpack counts bases assigned c
      | _ => Ok (e, bases, assigned, c)
      end
  end.

(** MemberChecker<T, Members, PAGE, Members::size - 1>::unpackMembers, with StartSuperRecursion::start
    (H 4335-4338, 4369-4376). *)
Fixpoint unpackMembers (primary : bool) (k : cls) : unpacker :=
  match k with
  | Cls ms ss => fun page o assigned c =>
      match o with
      | Obj own bases =>
          match length ms with
          | O => UB
          | Datatypes.S last =>
              unpackFrom primary ms page last
                (fun assigned c =>
                   match length ss with
                   | O => Ok (MissingPropertyMember, bases, assigned, c)
                   | Datatypes.S i =>
                       handleSuperClasses i (page + length ms) (map (fun s => unpackMembers primary (snd s)) ss)
                         (map (fun s => memberCount (snd s)) ss) bases assigned c
                   end) own bases assigned c
          end
      end
  end.

(** H 4292-4308: verifyMember; the names are those pushed to missing_members. *)
Definition verifyMember (m : minfo) (index : nat) (assigned : list bool) (track : bool) (super_name : bytes)
  : outcome (error * list bytes) :=
  let* a := lift (nth_error assigned index) in
  if (a : bool) then Ok (NoError, [])
  else if mi_optional m then Ok (NoError, [])
  else
    let* primary := lift (get_of 0 (mi_names m)) in
    Ok (UnassignedRequiredMember, if track then [(match super_name with [] => [] | _ => super_name ++ [x3a; x3a] end) ++ primary] else []).

(** The first error. *)
Definition first_error (a b : error) : error := if is_ok a then b else a.

(** H 4415-4425, 4449-4462: verifyMembers of MemberChecker. *)
Fixpoint verifyFrom (ms : list minfo) (page index : nat) (supers : outcome (error * list bytes)) (assigned : list bool)
    (track : bool) (super_name : bytes) : outcome (error * list bytes) :=
  let* m := lift (get_of (N.of_nat index) ms) in
  let* (e, names) := verifyMember m (page + index) assigned track super_name in
  let* (e', names') := match index with
                       | O => supers
                       | Datatypes.S i => verifyFrom ms page i supers assigned track super_name
                       end in
  Ok (first_error e e', names ++ names').

(** H 4488-4505, 4539-4550: verifyMembers of SuperClassHandler; [verify]: the MemberCheckers of the super
    classes. *)
Definition verifier : Type := nat -> list bool -> bool -> bytes -> outcome (error * list bytes).
Fixpoint verifySuperClasses (index page : nat) (verify : list verifier) (names : list bytes) (counts : list (outcome nat))
    (assigned : list bool) (track : bool) : outcome (error * list bytes) :=
  let* u := lift (get_of (N.of_nat index) verify) in
  let* super_name := lift (get_of (N.of_nat index) names) in
  let* (e, l) := u page assigned track super_name in
  match index with
  | O => Ok (e, l)
  | Datatypes.S i =>
      let* n := lift (get_of (N.of_nat index) counts) in
      let* n := n in
      let* (e', l') := verifySuperClasses i (page + n) verify names counts assigned track in
      Ok (first_error e e', l ++ l')
  end.
Fixpoint verifyMembers (k : cls) : verifier :=
  match k with
  | Cls ms ss => fun page assigned track super_name =>
      match length ms with
      | O => UB
      | Datatypes.S last =>
          verifyFrom ms page last
            (match length ss with
             | O => Ok (NoError, [])
             | Datatypes.S i =>
                 verifySuperClasses i (page + length ms) (map (fun s => verifyMembers (snd s)) ss) (map fst ss)
                   (map (fun s => memberCount (snd s)) ss) assigned track
             end) assigned track super_name
      end
  end.

(** H 5716-5752: the loop over the members of the JSON object. *)
Fixpoint class_loop (n : nat) (k : cls) (o : obj) (assigned : list bool) (c : ctx S)
  : outcome (error * obj * list bool * ctx S) :=
  match n with
  | O => OutOfFuel
  | Datatypes.S f =>
    if type_eqb (c_type c) TObjectEnd then Ok (NoError, o, assigned, c)
    else
      let name := c_name c in
      let* (e, o, assigned, c) := unpackMembers true k 0 o assigned c in
      let* (e, o, assigned, c) :=
        match e with MissingPropertyMember => unpackMembers false k 0 o assigned c | _ => Ok (e, o, assigned, c) end in
      let next_member (c : ctx S) :=
        let* (e, c) := ctx_next next c in
        if is_ok e then class_loop f k o assigned c else Ok (e, o, assigned, c) in
      match e with
      | MissingPropertyMember =>
          let c := add_missing name c in
          if pc_allow_missing (c_cfg c) then
            let* c := skipArrayOrObject next n c in
            if is_ok (c_err c) then next_member c else Ok (c_err c, o, assigned, c)
          else Ok (MissingPropertyMember, o, assigned, c)
      | NoError => next_member c
      | _ => Ok (e, o, assigned, c)
      end
  end.

(** H 5704-5767: TypeHandler<T>::to. *)
Definition class_to (k : cls) (o : obj) (c : ctx S) : outcome (error * obj * ctx S) :=
  if type_eqb (c_type c) TObjectStart then
    let* (e, c) := ctx_read next c in
    if is_ok e then
      let* n := memberCount k in
      let* (e, o, assigned, c) := class_loop fuel k o (repeat false n) c in
      if is_ok e then
        let* (e, names) := verifyMembers k 0 assigned (pc_track (c_cfg c)) [] in
        match e with
        | UnassignedRequiredMember =>
            Ok (if pc_allow_unassigned (c_cfg c) then NoError else e, o, add_unassigned names c)
        | _ => Ok (e, o, c)
        end
      else Ok (e, o, c)
    else Ok (e, o, c)
  else Ok (ExpectedObjectStart, o, c).

(** As parseTo of HandlerModel. *)
Definition class_parseTo (k : cls) (o : obj) (c : ctx S) : outcome (error * obj * ctx S) :=
  let* (e, c) := ctx_next next c in
  if is_ok e then
    let* (e, o, c) := class_to k o c in Ok (e, o, set_err e c)
  else Ok (e, o, c).

(** ** Writing *)

(** H 4310-4320: serializeMember. *)
Definition serializeMember (m : minfo) (v : val) : outcome (list token * wname) :=
  let* primary := lift (get_of 0 (mi_names m)) in Ok (mi_from m v (mkWn primary TAscii)).

(** H 4426-4431, 4463-4469: serializeMembers of MemberChecker. *)
Fixpoint serializeFrom (ms : list minfo) (index : nat) (supers : wname -> outcome (list token * wname)) (own : list val)
  : outcome (list token * wname) :=
  let i := size_sub (size_sub (N.of_nat (length ms)) (N.of_nat index)) 1 in
  let* m := lift (get_of i ms) in
  let* v := lift (nth_error own (N.to_nat i)) in
  let* (l, n) := serializeMember m v in
  let* (l', n) := match index with
                  | O => supers n
                  | Datatypes.S d => serializeFrom ms d supers own
                  end in
  Ok (l ++ l', n).

(** H 4516-4525, 4557-4564: serializeMembers of SuperClassHandler. *)
Definition serializer : Type := obj -> wname -> outcome (list token * wname).
Fixpoint serializeSuperClasses (index : nat) (ser : list serializer) (bases : list obj) (n : wname) : outcome (list token * wname) :=
  let* s := lift (get_of (N.of_nat index) ser) in
  let* base := lift (nth_error bases index) in
  let* (l, n) := s base n in
  match index with
  | O => Ok (l, n)
  | Datatypes.S i => let* (l', n) := serializeSuperClasses i ser bases n in Ok (l ++ l', n)
  end.
Fixpoint serializeMembers (k : cls) : serializer :=
  match k with
  | Cls ms ss => fun o n =>
      match o with
      | Obj own bases =>
          match length ms with
          | O => UB
          | Datatypes.S last =>
              serializeFrom ms last
                (fun n => match length ss with
                          | O => Ok ([], n)
                          | Datatypes.S i => serializeSuperClasses i (map (fun s => serializeMembers (snd s)) ss) bases n
                          end) own
          end
      end
  end.

(** H 5769-5788: TypeHandler<T>::from. *)
Definition class_from (k : cls) (o : obj) (n : wname) : outcome (list token * wname) :=
  let* (l, _) := serializeMembers k o n in
  Ok (wtok n [x7b] TObjectStart :: l ++ [wtok (mkWn [] TString) [x7d] TObjectEnd], mkWn [] TString).

(** As serializeStruct of WriteModel. *)
Definition class_serialize (so : sopts) (k : cls) (o : obj) : outcome bytes :=
  let* (l, _) := class_from k o wname_default in
  let* (_, s) := ser_writes l (ser_make so 4096 (reformat_supply 4096)) in
  Ok (ser_output s).
End Class.
Arguments minfo : clear implicits.
Arguments cls : clear implicits.
