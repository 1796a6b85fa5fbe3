(** Model of json_struct_diff.h ("D" below).  The functions that compare only write to the
    compared DiffTokens and never read back what they wrote (diffs, missingMembers,
    missingArrayItems, diff_count), so they are modelled as producing the list of writes in
    order; [apply_events] performs them. *)
From Verif Require Import Base ScanModel TokModel TokSpec MapModel.

(** D 44-55: enum DiffType. *)
Inductive dtype : Set :=
| NoDiff | ValueDiff | TypeDiff | NewMember | NewArrayItem | MissingMembers | MissingArrayItems
| RootItemDiff | ErroneousRootItem.
Definition is_nodiff (t : dtype) : bool := match t with NoDiff => true | _ => false end.

(** D 57-62: enum DiffError. *)
Inductive derror : Set := DNoError | DNoTokens | DEmptyString.

(** D 64-74: struct DiffOptions.  The comparison of two numbers (D 452-471: std::stod on both
    texts, then fuzzyEquals or ==) is a parameter; an outcome other than [Ok] stands for an
    exception thrown by std::stod. *)
Record dopts : Type := mkDOpts { do_same : bytes -> bytes -> outcome bool }.

(** The immutable part of DiffTokens: tokens and meta (D 391, 395). *)
Record dsrc : Type := mkSrc { ds_tokens : list token; ds_meta : list jmeta }.

(** One write: [Mark pos t] is set(pos, t) (D 193-199), [LostMember pos tk] is
    addMissingToken(pos, tk) (D 279-309) and [LostItem pos tk] is addMissingArrayToken(pos, tk)
    (D 343-373). *)
Inductive event (A : Type) : Type :=
| Mark (pos : nat) (t : dtype)
| LostMember (pos : nat) (tk : A)
| LostItem (pos : nat) (tk : A).
Arguments Mark {A} pos t.
Arguments LostMember {A} pos tk.
Arguments LostItem {A} pos tk.

(** D 80-83. *)
Definition isComplexValue (t : type) : bool :=
  match t with TObjectStart | TArrayStart => true | _ => false end.
Definition isEnd (t : type) : bool :=
  match t with TObjectEnd | TArrayEnd => true | _ => false end.

(** D 161-179: skip.  Without an entry for the position it does not move. *)
Definition d_skip (d : dsrc) (pos : nat) : outcome nat :=
  match nth_error (ds_tokens d) pos with
  | None => UB
  | Some t =>
    if isComplexValue (tk_value_type t) then
      match find (fun m => Nat.eqb (m_pos m) pos) (ds_meta d) with
      | Some m => Ok (pos + m_size m)
      | None => Ok pos
      end
    else Ok (S pos)
  end.

(** D 181-190 and 232-245: childCount, getMetaPos. *)
Definition childCount (d : dsrc) (pos : nat) : outcome nat :=
  match nth_error (ds_tokens d) pos with
  | None => UB
  | Some _ => match find (fun m => Nat.eqb (m_pos m) pos) (ds_meta d) with
              | Some m => Ok (m_children m)
              | None => Ok 0
              end
  end.

(** D 201-230 and 522-551: setStateForEntireToken (two copies of the same code); also
    addMissingMembers (D 247-277) and addMissingArrayItems (D 311-341), which walk over the base
    in the same way.  [w pos tk] is the write done for the token. *)
Fixpoint walk (f : nat) (d : dsrc) (w : nat -> token -> event token) (pos : nat) : outcome (list (event token)) :=
  match f with
  | O => OutOfFuel
  | S f =>
    match nth_error (ds_tokens d) pos with
    | None => UB
    | Some t => if isComplexValue (tk_value_type t) then
                  let* r := walk_loop f d w (S pos) in Ok (w pos t :: r)
                else Ok [w pos t]
    end
  end
with walk_loop (f : nat) (d : dsrc) (w : nat -> token -> event token) (pos : nat) : outcome (list (event token)) :=
  match f with
  | O => OutOfFuel
  | S f =>
    match nth_error (ds_tokens d) pos with
    | None => UB
    | Some t =>
      if isComplexValue (tk_value_type t) then
        let* a := walk f d w pos in
        let* p := d_skip d pos in
        let* r := walk_loop f d w p in Ok (a ++ r)
      else if isEnd (tk_value_type t) then Ok [w pos t]
      else let* p := d_skip d pos in
           let* r := walk_loop f d w p in Ok (w pos t :: r)
    end
  end.
Definition walk_fuel (d : dsrc) : nat := 2 * length (ds_tokens d) + 1.
Definition setStateForEntireToken (d : dsrc) (pos : nat) (t : dtype) : outcome (list (event token)) :=
  walk (walk_fuel d) d (fun p _ => Mark p t) pos.
Definition addMissingMembers (start : nat) (b : dsrc) (pos : nat) : outcome (list (event token)) :=
  walk (walk_fuel b) b (fun _ tk => LostMember start tk) pos.
Definition addMissingArrayItems (start : nat) (b : dsrc) (pos : nat) : outcome (list (event token)) :=
  walk (walk_fuel b) b (fun _ tk => LostItem start tk) pos.

(** strncmp of the C library on two texts of the same size: a NUL in both ends the comparison. *)
Fixpoint strncmp_same (a b : bytes) : bool :=
  match a, b with
  | [], [] => true
  | x :: a', y :: b' => Byte.eqb x y && (Byte.eqb x x00 || strncmp_same a' b')
  | _, _ => false
  end.
(** D 433-436: stringValuesEqual. *)
Definition stringValuesEqual (a b : dref) : bool :=
  Nat.eqb (length (dr_bytes a)) (length (dr_bytes b)) && strncmp_same (dr_bytes a) (dr_bytes b).
(** D 421-426: isSameMember. *)
Definition isSameMember (b d : token) : bool :=
  type_eqb (tk_name_type b) (tk_name_type d) && stringValuesEqual (tk_name b) (tk_name d).

Definition verdict (same : bool) : dtype := if same then NoDiff else ValueDiff.
(** H 8918-8930: TypeHandler<bool>::to leaves false for any other text. *)
Definition bool_value (t : token) : bool := bytes_eqb (dr_bytes (tk_value t)) [x74; x72; x75; x65].

(** D 444-499: diffStringValues, diffNumberValues, diffBooleanValues, diffNullValues. *)
Definition diffScalar (o : dopts) (bt dt : token) (dPos : nat) : outcome (list (event token)) :=
  match tk_value_type bt with
  | TString => Ok [Mark dPos (verdict (stringValuesEqual (tk_value bt) (tk_value dt)))]
  | TNumber => let* s := do_same o (dr_bytes (tk_value bt)) (dr_bytes (tk_value dt)) in
               Ok [Mark dPos (verdict s)]
  | TBool => Ok [Mark dPos (verdict (Bool.eqb (bool_value bt) (bool_value dt)))]
  | TNull => Ok [Mark dPos match tk_value_type dt with TNull => NoDiff | _ => TypeDiff end]
  | _ => Ok []
  end.

(** D 602-631: the second loop of diffObjects: members of diff that are not in base. *)
Fixpoint in_base (f : nat) (b : dsrc) (dt : token) (bPos : nat) : outcome bool :=
  match f with
  | O => OutOfFuel
  | S f =>
    match nth_error (ds_tokens b) bPos with
    | None => UB
    | Some bt =>
      if type_eqb (tk_value_type bt) TObjectEnd then Ok false
      else if isSameMember dt bt then Ok true
      else let* p := d_skip b bPos in in_base f b dt p
    end
  end.
Fixpoint new_members (f : nat) (b : dsrc) (basePos : nat) (d : dsrc) (dPos : nat) : outcome (list (event token)) :=
  match f with
  | O => OutOfFuel
  | S f =>
    match nth_error (ds_tokens d) dPos with
    | None => UB
    | Some dt =>
      if type_eqb (tk_value_type dt) TObjectEnd then Ok []
      else let* found := in_base (S (length (ds_tokens b))) b dt (S basePos) in
           let* e := if found then Ok [] else setStateForEntireToken d dPos NewMember in
           let* p := d_skip d dPos in
           let* r := new_members f b basePos d p in Ok (e ++ r)
    end
  end.

(** D 687-701: the loop over new array items; [count] is arrayEndCount. *)
Fixpoint new_items (f : nat) (d : dsrc) (dPos count : nat) : outcome (list (event token)) :=
  match f with
  | O => OutOfFuel
  | S f =>
    match nth_error (ds_tokens d) dPos, nth_error (ds_tokens d) (S dPos) with
    | Some _, Some t =>
      match tk_value_type t with
      | TArrayStart => let* r := new_items f d (S dPos) (S count) in Ok (Mark dPos NewArrayItem :: r)
      | TArrayEnd => match count with
                     | O => Ok [Mark dPos NewArrayItem]
                     | S c => let* r := new_items f d (S dPos) c in Ok (Mark dPos NewArrayItem :: r)
                     end
      | _ => let* r := new_items f d (S dPos) count in Ok (Mark dPos NewArrayItem :: r)
      end
    | _, _ => UB
    end
  end.

(** D 702-714: the loop over missing array items. *)
Fixpoint missing_items (f : nat) (b : dsrc) (bPos diffPos : nat) : outcome (list (event token)) :=
  match f with
  | O => OutOfFuel
  | S f =>
    match nth_error (ds_tokens b) bPos with
    | None => UB
    | Some bt =>
      if type_eqb (tk_value_type bt) TArrayEnd then Ok []
      else let* e := addMissingArrayItems diffPos b bPos in
           let* p := d_skip b bPos in
           let* r := missing_items f b p diffPos in Ok (e ++ r)
    end
  end.

(** D 553-632: diffObjects, with its first loop [obj_loop] and the search inside it [obj_find];
    D 501-520: diffObjectMember; D 634-723: diffArrays with its loop. *)
Fixpoint diffObjects (f : nat) (o : dopts) (b : dsrc) (basePos : nat) (d : dsrc) (diffPos : nat)
  : outcome (list (event token)) :=
  match f with
  | O => OutOfFuel
  | S f =>
    let* bc := childCount b basePos in
    let* dc := childCount d diffPos in
    if Nat.eqb bc 0 && Nat.eqb dc 0 then Ok []
    else let* e1 := obj_loop f o b (S basePos) d diffPos in
         let* e2 := new_members (S (length (ds_tokens d))) b basePos d (S diffPos) in
         Ok (e1 ++ e2)
  end
with obj_loop (f : nat) (o : dopts) (b : dsrc) (bPos : nat) (d : dsrc) (diffPos : nat)
  : outcome (list (event token)) :=
  match f with
  | O => OutOfFuel
  | S f =>
    match nth_error (ds_tokens b) bPos with
    | None => UB
    | Some bt =>
      if type_eqb (tk_value_type bt) TObjectEnd then Ok []
      else let* e := obj_find f o b bPos bt d diffPos (S diffPos) in
           let* p := d_skip b bPos in
           let* r := obj_loop f o b p d diffPos in Ok (e ++ r)
    end
  end
with obj_find (f : nat) (o : dopts) (b : dsrc) (bPos : nat) (bt : token) (d : dsrc) (diffPos dPos : nat)
  : outcome (list (event token)) :=
  match f with
  | O => OutOfFuel
  | S f =>
    match nth_error (ds_tokens d) dPos with
    | None => UB
    | Some dt =>
      if type_eqb (tk_value_type dt) TObjectEnd then addMissingMembers diffPos b bPos
      else if isSameMember bt dt then
        if type_eqb (tk_value_type bt) (tk_value_type dt) then diffValue f o b bPos bt d dPos dt
        else setStateForEntireToken d dPos TypeDiff
      else let* p := d_skip d dPos in obj_find f o b bPos bt d diffPos p
    end
  end
with diffValue (f : nat) (o : dopts) (b : dsrc) (bPos : nat) (bt : token) (d : dsrc) (dPos : nat) (dt : token)
  : outcome (list (event token)) :=
  match f with
  | O => OutOfFuel
  | S f =>
    match tk_value_type bt with
    | TObjectStart => diffObjects f o b bPos d dPos
    | TArrayStart => diffArrays f o b bPos d dPos
    | _ => diffScalar o bt dt dPos
    end
  end
with diffArrays (f : nat) (o : dopts) (b : dsrc) (basePos : nat) (d : dsrc) (diffPos : nat)
  : outcome (list (event token)) :=
  match f with
  | O => OutOfFuel
  | S f =>
    let* bc := childCount b basePos in
    let* dc := childCount d diffPos in
    if Nat.eqb bc 0 && Nat.eqb dc 0 then Ok []
    else arr_loop f o b (S basePos) d diffPos (S diffPos)
  end
with arr_loop (f : nat) (o : dopts) (b : dsrc) (bPos : nat) (d : dsrc) (diffPos dPos : nat)
  : outcome (list (event token)) :=
  match f with
  | O => OutOfFuel
  | S f =>
    match nth_error (ds_tokens b) bPos, nth_error (ds_tokens d) dPos with
    | Some bt, Some dt =>
      if type_eqb (tk_value_type bt) (tk_value_type dt) then
        match tk_value_type bt with
        | TArrayEnd => Ok []
        | TObjectStart | TArrayStart | TString | TNumber | TBool | TNull =>
          let* e := diffValue f o b bPos bt d dPos dt in
          let* p := d_skip b bPos in
          let* q := d_skip d dPos in
          let* r := arr_loop f o b p d diffPos q in Ok (e ++ r)
        | _ => UB (* D 678: assert(false) *)
        end
      else if type_eqb (tk_value_type bt) TArrayEnd then new_items (S (length (ds_tokens d))) d dPos 0
      else if type_eqb (tk_value_type dt) TArrayEnd then missing_items (S (length (ds_tokens b))) b bPos diffPos
      else let* p := d_skip b bPos in
           let* q := d_skip d dPos in
           let* r := arr_loop f o b p d diffPos q in Ok (Mark dPos TypeDiff :: r)
    | _, _ => UB
    end
  end.

(** D 726-769: diff.  The second component says whether diff_count is set to 0 first. *)
Definition diff_fuel (b d : dsrc) : nat := 4 * (length (ds_tokens b) + length (ds_tokens d)) + 4.
Definition diff_events (o : dopts) (b d : dsrc) : outcome (list (event token) * bool) :=
  match ds_tokens b, ds_tokens d with
  | [], [] => Ok ([], false)
  | [], dt :: _ =>
      let* e := setStateForEntireToken d 0
                  match tk_value_type dt with
                  | TObjectStart => NewMember | TArrayStart => NewArrayItem | _ => ErroneousRootItem
                  end in Ok (e, false)
  | _ :: _, [] => UB (* every branch uses token 0 of diff *)
  | bt :: _, dt :: _ =>
      let* e := if type_eqb (tk_value_type bt) (tk_value_type dt) then
                  match tk_value_type bt with
                  | TObjectStart => diffObjects (diff_fuel b d) o b 0 d 0
                  | TArrayStart => diffArrays (diff_fuel b d) o b 0 d 0
                  | _ => setStateForEntireToken d 0 ErroneousRootItem
                  end
                else setStateForEntireToken d 0 RootItemDiff in
      Ok (e, true)
  end.

(** ** What is written *)

(** D 405-411: the mutable part of DiffTokens.  Missing tokens are found by the data pointers of
    the token they belong to (D 85-94); here by its position, since two tokens of one text have
    different pointers. *)
Record dstate : Type := mkDst {
  dt_src : dsrc;
  dt_diffs : list dtype;
  dt_count : nat;
  dt_members : list (nat * list token);
  dt_items : list (nat * list token);
  dt_error : derror }.

(** D 193-199: set. *)
Definition d_set (pos : nat) (t : dtype) (s : dstate) : outcome dstate :=
  if Nat.ltb pos (length (dt_diffs s)) then
    Ok (mkDst (dt_src s) (upd pos (fun _ => t) (dt_diffs s))
          (if is_nodiff t then dt_count s else S (dt_count s)) (dt_members s) (dt_items s) (dt_error s))
  else UB.

(** D 279-309 and 343-373. *)
Fixpoint add_lost (pos : nat) (tk : token) (l : list (nat * list token)) : list (nat * list token) :=
  match l with
  | [] => [(pos, [tk])]
  | (p, ts) :: r => if Nat.eqb p pos then (p, ts ++ [tk]) :: r else (p, ts) :: add_lost pos tk r
  end.

Definition apply_event (e : event token) (s : dstate) : outcome dstate :=
  match e with
  | Mark pos t => d_set pos t s
  | LostMember pos tk =>
      d_set pos MissingMembers
        (mkDst (dt_src s) (dt_diffs s) (dt_count s) (add_lost pos tk (dt_members s)) (dt_items s) (dt_error s))
  | LostItem pos tk =>
      d_set pos MissingArrayItems
        (mkDst (dt_src s) (dt_diffs s) (dt_count s) (dt_members s) (add_lost pos tk (dt_items s)) (dt_error s))
  end.
Fixpoint apply_events (l : list (event token)) (s : dstate) : outcome dstate :=
  match l with [] => Ok s | e :: r => let* s := apply_event e s in apply_events r s end.

(** D 726-769. *)
Definition run_diff (o : dopts) (b : dsrc) (s : dstate) : outcome dstate :=
  let* (es, zero) := diff_events o b (dt_src s) in
  apply_events es (if zero then mkDst (dt_src s) (dt_diffs s) 0 (dt_members s) (dt_items s) (dt_error s) else s).

(** D 104-116 and 137-159: DiffTokens(json, size), reset, generateTokens.  The default options of
    Tokenizer; [i] is the instruction-set variant. *)
Definition src_of_text (f : nat) (o : opts) (t : bytes) : outcome (dsrc * derror) :=
  match t with
  | [] => Ok (mkSrc [] [], DEmptyString)
  | _ =>
    let* (ts, e, s) := drain f o (mkTok dref_empty dref_empty TString TString) (tok_with [t] []) in
    let* meta := metaForTokens ts in
    Ok (mkSrc ts meta, match ts with [] => DNoTokens | _ => DNoError end)
  end.
Definition fresh (d : dsrc) (e : derror) : dstate :=
  mkDst d (repeat NoDiff (length (ds_tokens d))) 0 [] [] e.

(** D 118-125: DiffTokens::invalidate; missingArrayItems is not cleared. *)
Definition invalidate (s : dstate) : dstate :=
  mkDst (dt_src s) (repeat NoDiff (length (ds_tokens (dt_src s)))) 0 [] (dt_items s) DNoError.

(** D 773-880: DiffContext. *)
Record dctx : Type := mkDctx { dc_base : dstate; dc_diffs : list dstate; dc_opts : dopts; dc_error : derror }.

Fixpoint run_all (o : dopts) (b : dsrc) (l : list dstate) : outcome (list dstate) :=
  match l with
  | [] => Ok []
  | s :: r => let* s := run_diff o b s in let* r := run_all o b r in Ok (s :: r)
  end.
(** D 833-842. *)
Definition ctx_invalidate (c : dctx) : outcome dctx :=
  let base := invalidate (dc_base c) in
  let* l := run_all (dc_opts c) (dt_src base) (map invalidate (dc_diffs c)) in
  Ok (mkDctx base l (dc_opts c) (dc_error c)).
(** D 849-858: diff(json, size), for already tokenized json. *)
Definition ctx_diff (d : dsrc) (e : derror) (c : dctx) : outcome dctx :=
  match e with
  | DNoError =>
      let* s := run_diff (dc_opts c) (dt_src (dc_base c)) (fresh d e) in
      Ok (mkDctx (dc_base c) (dc_diffs c ++ [s]) (dc_opts c) DNoError)
  | _ => Ok (mkDctx (dc_base c) (dc_diffs c) (dc_opts c) e)
  end.
