(** Model of the error context (H 1310-1327), updateErrorContext (H 2819-2903), makeErrorString
    (H 1879-1902) and of the places in nextToken and parseTo that call it.  No proofs here.

    Simplifications: only tokenizers reading text are modelled (with a vector of parsed tokens the
    code subtracts pointers of different tokens); positions are unbounded integers, so sizes and
    context settings must stay below 2^62. *)
From Verif Require Import Base ScanModel TokModel.
Local Open Scope Z_scope.

(** H 1310-1318: class ErrorContext. *)
Record ectx : Set := mkEctx {
  ec_line : Z; ec_char : Z; ec_error : error; ec_message : bytes; ec_lines : list bytes }.
Definition ec_init : ectx := mkEctx 0 0 NoError [] [].
(** H 1320-1326: clear() keeps the custom message. *)
Definition ec_clear (c : ectx) : ectx := mkEctx 0 0 NoError (ec_message c) [].

(** H 1434-1436: line_context, line_range_context, range_context. *)
Record ecfg : Set := mkEcfg { eg_lines : Z; eg_line_range : Z; eg_range : Z }.
(** H 1594-1596. *)
Definition eg_default : ecfg := mkEcfg 4 256 38.
(** H 1904-1908: setErrorContextConfig. *)
Definition setErrorContextConfig (l r : Z) (g : ecfg) : ecfg := mkEcfg l (eg_line_range g) r.

Definition byte_at (data : bytes) (i : Z) : outcome byte :=
  if i <? 0 then UB else match nth_error data (Z.to_nat i) with Some b => Ok b | None => UB end.

(** H 2845-2861: the loop going back.  The vector of lines is its front [fr] and the others [ls];
    a line is its start and end; [lb] is lines_back, [ch] is error_context.character. *)
Fixpoint go_back (fuel : nat) (data : bytes) (real stop limit cb : Z) (fr : Z * Z) (ls : list (Z * Z)) (lb ch : Z)
  : outcome (Z * (Z * Z) * list (Z * Z) * Z * Z) :=
  if stop <? cb then
    match fuel with
    | O => OutOfFuel
    | S f =>
      let* b := byte_at data cb in
      if Byte.eqb b c_nl then
        let fr := (cb + 1, snd fr) in
        let lb := lb + 1 in
        let ch := if lb =? 1 then real - cb else ch in
        if lb =? limit then Ok (cb, fr, ls, lb - 1, ch)
        else go_back f data real stop limit (cb - 1) (0, cb) (fr :: ls) lb ch
      else go_back f data real stop limit (cb - 1) fr ls lb ch
    end
  else Ok (cb, fr, ls, lb, ch).

(** H 2865-2880: the loop going forward.  The vector is the lines [ls] and its back [bk]. *)
Fixpoint go_forward (fuel : nat) (data : bytes) (stop limit cf : Z) (ls : list (Z * Z)) (bk : Z * Z) (lf : Z) (add : bool)
  : outcome (Z * list (Z * Z) * (Z * Z)) :=
  if cf <? stop then
    match fuel with
    | O => OutOfFuel
    | S f =>
      let '(ls, bk) := if add then (ls ++ [bk], (cf, 0)) else (ls, bk) in
      let* b := byte_at data cf in
      if Byte.eqb b c_nl then
        let bk := (fst bk, cf) in
        if lf + 1 =? limit then Ok (cf, ls, bk)
        else go_forward f data stop limit (cf + 1) ls bk (lf + 1) true
      else go_forward f data stop limit (cf + 1) ls bk lf false
    end
  else Ok (cf, ls, bk).

(** [std::string(data + start, end - start)]. *)
Definition piece (data : bytes) (start stop : Z) : outcome bytes :=
  if (0 <=? start) && (start <=? stop) && (stop <=? Z.of_nat (length data))
  then Ok (firstn (Z.to_nat (stop - start)) (skipn (Z.to_nat start) data))
  else UB.
Fixpoint pieces (data : bytes) (ls : list (Z * Z)) : outcome (list bytes) :=
  match ls with
  | [] => Ok []
  | (s, e) :: r => let* p := piece data s e in let* t := pieces data r in Ok (p :: t)
  end.

(** H 2819-2903: updateErrorContext; [bufs] is data_list, [cur] cursor_index. *)
Definition updateErrorContext (g : ecfg) (bufs : list bytes) (cur : nat) (e : error) (message : bytes) (c : ectx)
  : outcome ectx :=
  match bufs with
  | [] => Ok (mkEctx (ec_line c) (ec_char c) e message (ec_lines c))
  | data :: _ =>
    let size := Z.of_nat (length data) in
    let real := Z.of_nat cur in
    let stop_back := real - Z.min real (eg_line_range g) in
    let stop_forward := Z.min (real + eg_line_range g) size in
    let* (cb, fr, ls, lb, ch) :=
      go_back (S cur) data real stop_back (eg_lines g) (real - 1) (0, real) [] 0 (ec_char c) in
    let fr := if (fst fr =? 0) && (0 <? cb) then (cb, snd fr) else fr in
    let all := fr :: ls in
    let* (cf, ls, bk) :=
      go_forward (S (length data)) data stop_forward (eg_lines g) real (removelast all) (last all fr) 0 false in
    let bk := if snd bk =? 0 then (fst bk, cf - 1) else bk in
    if Nat.ltb 1 (length (ls ++ [bk])) then
      let* ps := pieces data (ls ++ [bk]) in
      Ok (mkEctx lb ch e message (ec_lines c ++ ps))
    else
      let left := if eg_range g <? real then real - eg_range g else 0 in
      let right := if size <? real + eg_range g then size else real + eg_range g in
      let* p := piece data left right in
      Ok (mkEctx 0 (real - left) e message (ec_lines c ++ [p]))
  end.

(** The error context after a call of nextToken that returned [e] and left the state [s]
    (H 1713, 1729-1730, 1745-1760): it is cleared first and filled if there is an error. *)
Definition context_after (g : ecfg) (s : tstate) (e : error) (c : ectx) : outcome ectx :=
  match e with
  | NoError | NeedMoreData => Ok (ec_clear c)
  | ScopeHasEnded => Ok c
  | _ => updateErrorContext g (t_bufs s) (t_cur s) e [] (ec_clear c)
  end.

(** H 1879-1902: makeErrorString; [name] is the entry of error_strings. *)
Fixpoint error_lines (i : Z) (c : ectx) (ls : list bytes) : bytes :=
  match ls with
  | [] => []
  | l :: r => l ++ [x0a] ++
              (if i =? ec_line c then repeat x20 (Z.to_nat (ec_char c)) ++ [x5e; x0a] else []) ++
              error_lines (i + 1) c r
  end.
Definition makeErrorString (name : bytes) (c : ectx) : bytes :=
  s2b "Error " ++ name ++ (match ec_message c with [] => [] | m => x20 :: m end) ++ [x3a; x0a] ++
  error_lines 0 c (ec_lines c).
