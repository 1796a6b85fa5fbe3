(** Model of class Tokenizer (H 1356-1463, 1584-1846, 1910-2800).  No proofs here.

    Simplifications:
    - assert()s are not modelled as failures (release build), except where the code after
      them would be undefined, which yields [UB];
    - the error context (H 1310-1330, updateErrorContext) does not influence tokens and is
      modelled separately in ErrCtxModel.v;
    - release_callback only informs the user and is omitted;
    - need_more_data_callback is represented by [t_supply]: the n-th invocation appends the
      n-th list of buffers; when the list is exhausted the callback adds nothing. *)
From Verif Require Import Base ScanModel.

(** H 1360-1364, 1420-1425: options set through allow*. *)
Record opts : Set := mkOpts {
  o_isa : isa;
  o_ascii : bool;      (* allow_ascii_properties *)
  o_nl : bool;         (* allow_new_lines *)
  o_comma : bool;      (* allow_superfluous_comma *)
  o_comments : bool    (* allow_comments *) }.

(** H 1393-1406. *)
Inductive tokst : Set := FindingName | FindingDelimiter | FindingData | FindingTokenEnd.
Inductive propst : Set := NoStartFound | FindingEnd | FoundEnd.

Definition prop_gt_nostart (p : propst) : bool :=
  match p with NoStartFound => false | _ => true end.

(** H 346-377: struct IntermediateToken. *)
Record interm : Set := mkIm {
  im_active : bool;
  im_name_set : bool;
  im_data_set : bool;
  im_name_type : type;
  im_data_type : type;
  im_name : bytes;
  im_data : bytes }.

Definition im_init : interm := mkIm false false false TError TError [] [].

(** H 355-366: clear() does nothing unless active. *)
Definition im_clear (m : interm) : interm :=
  if im_active m then im_init else m.

(** H 1424-1446: data members of Tokenizer. *)
Record tstate : Set := mkT {
  t_tok : tokst;
  t_prop : propst;
  t_ptype : type;
  t_esc : bool;
  t_expect : bool;                     (* expecting_prop_or_anonymous_data *)
  t_cont : bool;                       (* continue_after_need_more_data *)
  t_cur : nat;                         (* cursor_index *)
  t_ds : nat;                          (* current_data_start *)
  t_im : interm;
  t_bufs : list bytes;                 (* data_list *)
  t_supply : list (list bytes);        (* future need_more_data_callback deliveries *)
  t_scope : list (type * N);           (* scope_counter, innermost first *)
  t_stack : list type;                 (* container_stack, innermost first *)
  t_copy : list (nat * (nat * bytes)); (* copy_buffers: id, start index, text so far *)
  t_parsed : option (list token)       (* parsed_data_vector *) }.

(** H 1584-1604: Tokenizer::Tokenizer(); is_escaped(false), everything else empty. *)
Definition t_init : tstate :=
  mkT FindingName NoStartFound TError false false false 0 0 im_init [] [] [] [] [] None.

Definition set_tok (v : tokst) (s : tstate) : tstate :=
  mkT v (t_prop s) (t_ptype s) (t_esc s) (t_expect s) (t_cont s) (t_cur s) (t_ds s) (t_im s)
      (t_bufs s) (t_supply s) (t_scope s) (t_stack s) (t_copy s) (t_parsed s).
Definition set_prop (v : propst) (s : tstate) : tstate :=
  mkT (t_tok s) v (t_ptype s) (t_esc s) (t_expect s) (t_cont s) (t_cur s) (t_ds s) (t_im s)
      (t_bufs s) (t_supply s) (t_scope s) (t_stack s) (t_copy s) (t_parsed s).
Definition set_ptype (v : type) (s : tstate) : tstate :=
  mkT (t_tok s) (t_prop s) v (t_esc s) (t_expect s) (t_cont s) (t_cur s) (t_ds s) (t_im s)
      (t_bufs s) (t_supply s) (t_scope s) (t_stack s) (t_copy s) (t_parsed s).
Definition set_esc (v : bool) (s : tstate) : tstate :=
  mkT (t_tok s) (t_prop s) (t_ptype s) v (t_expect s) (t_cont s) (t_cur s) (t_ds s) (t_im s)
      (t_bufs s) (t_supply s) (t_scope s) (t_stack s) (t_copy s) (t_parsed s).
Definition set_expect (v : bool) (s : tstate) : tstate :=
  mkT (t_tok s) (t_prop s) (t_ptype s) (t_esc s) v (t_cont s) (t_cur s) (t_ds s) (t_im s)
      (t_bufs s) (t_supply s) (t_scope s) (t_stack s) (t_copy s) (t_parsed s).
Definition set_cont (v : bool) (s : tstate) : tstate :=
  mkT (t_tok s) (t_prop s) (t_ptype s) (t_esc s) (t_expect s) v (t_cur s) (t_ds s) (t_im s)
      (t_bufs s) (t_supply s) (t_scope s) (t_stack s) (t_copy s) (t_parsed s).
Definition set_cur (v : nat) (s : tstate) : tstate :=
  mkT (t_tok s) (t_prop s) (t_ptype s) (t_esc s) (t_expect s) (t_cont s) v (t_ds s) (t_im s)
      (t_bufs s) (t_supply s) (t_scope s) (t_stack s) (t_copy s) (t_parsed s).
Definition set_ds (v : nat) (s : tstate) : tstate :=
  mkT (t_tok s) (t_prop s) (t_ptype s) (t_esc s) (t_expect s) (t_cont s) (t_cur s) v (t_im s)
      (t_bufs s) (t_supply s) (t_scope s) (t_stack s) (t_copy s) (t_parsed s).
Definition set_im (v : interm) (s : tstate) : tstate :=
  mkT (t_tok s) (t_prop s) (t_ptype s) (t_esc s) (t_expect s) (t_cont s) (t_cur s) (t_ds s) v
      (t_bufs s) (t_supply s) (t_scope s) (t_stack s) (t_copy s) (t_parsed s).
Definition set_bufs (v : list bytes) (s : tstate) : tstate :=
  mkT (t_tok s) (t_prop s) (t_ptype s) (t_esc s) (t_expect s) (t_cont s) (t_cur s) (t_ds s)
      (t_im s) v (t_supply s) (t_scope s) (t_stack s) (t_copy s) (t_parsed s).
Definition set_supply (v : list (list bytes)) (s : tstate) : tstate :=
  mkT (t_tok s) (t_prop s) (t_ptype s) (t_esc s) (t_expect s) (t_cont s) (t_cur s) (t_ds s)
      (t_im s) (t_bufs s) v (t_scope s) (t_stack s) (t_copy s) (t_parsed s).
Definition set_scope (v : list (type * N)) (s : tstate) : tstate :=
  mkT (t_tok s) (t_prop s) (t_ptype s) (t_esc s) (t_expect s) (t_cont s) (t_cur s) (t_ds s)
      (t_im s) (t_bufs s) (t_supply s) v (t_stack s) (t_copy s) (t_parsed s).
Definition set_stack (v : list type) (s : tstate) : tstate :=
  mkT (t_tok s) (t_prop s) (t_ptype s) (t_esc s) (t_expect s) (t_cont s) (t_cur s) (t_ds s)
      (t_im s) (t_bufs s) (t_supply s) (t_scope s) v (t_copy s) (t_parsed s).
Definition set_copy (v : list (nat * (nat * bytes))) (s : tstate) : tstate :=
  mkT (t_tok s) (t_prop s) (t_ptype s) (t_esc s) (t_expect s) (t_cont s) (t_cur s) (t_ds s)
      (t_im s) (t_bufs s) (t_supply s) (t_scope s) (t_stack s) v (t_parsed s).
Definition set_parsed (v : option (list token)) (s : tstate) : tstate :=
  mkT (t_tok s) (t_prop s) (t_ptype s) (t_esc s) (t_expect s) (t_cont s) (t_cur s) (t_ds s)
      (t_im s) (t_bufs s) (t_supply s) (t_scope s) (t_stack s) (t_copy s) v.

(** H 1628-1631: addData(data, size). *)
Definition addData (d : bytes) (s : tstate) : tstate := set_bufs (t_bufs s ++ [d]) s.

(** H 1916-1921: resetForNewValue. *)
Definition resetForNewValue (s : tstate) : tstate :=
  set_prop NoStartFound (set_ptype TError (set_ds 0 s)).

(** H 1910-1914: resetForNewToken. *)
Definition resetForNewToken (s : tstate) : tstate :=
  resetForNewValue (set_im (im_clear (t_im s)) s).

(** H 1644-1657: resetData(data, size, index). *)
Definition resetData (d : bytes) (index : nat) (s : tstate) : tstate :=
  resetForNewToken (addData d (set_cur index (set_parsed None (set_bufs [] s)))).

(** H 1637-1642 and 1659-1670: addData(parsedData) / resetData(parsedData, index). *)
Definition addParsed (ts : list token) (s : tstate) : tstate :=
  set_cur 0 (set_parsed (Some ts) s).
Definition resetParsed (ts : list token) (index : nat) (s : tstate) : tstate :=
  resetForNewToken (set_cur index (set_parsed (Some ts) (set_bufs [] s))).

(** ** Finding the start of a value *)

(** Result of the find* functions that may move cursor_index while skipping comments:
    the resulting cursor_index, and either an error or what was found. *)
Inductive fs_res : Set :=
| FS_err (e : error) (cur : nat)
| FS_ok (t : type) (ahead cur : nat)
| FS_fuel.

(** H 2166-2197 and 2219-2248: the tests for single-character tokens. *)
Definition single_char_type (c : byte) : option type :=
  if Byte.eqb c c_quote then Some TString
  else if Byte.eqb c c_lbrace then Some TObjectStart
  else if Byte.eqb c c_rbrace then Some TObjectEnd
  else if Byte.eqb c c_lbracket then Some TArrayStart
  else if Byte.eqb c c_rbracket then Some TArrayEnd
  else None.

Definition starts_slash (l : bytes) : bool :=
  match l with c :: _ => Byte.eqb c c_slash | [] => false end.

(** H 2199-2262: the loop of findStartOfNextValue; [pos] is current_pos, [rest] the bytes
    from there, [cur] is cursor_index. *)
Fixpoint fsnv_loop (fuel : nat) (o : opts) (rest : bytes) (pos cur : nat) : fs_res :=
  match fuel with
  | O => FS_fuel
  | S f =>
    match rest with
    | [] => FS_err NeedMoreData cur
    | c :: tl =>
      if o_comments o && Byte.eqb c c_slash && starts_slash tl then
        let cur1 := pos + 2 in
        let rest1 := skipn 1 tl in
        match skipComment (o_isa o) (o_nl o) rest1 with
        | None => FS_err NeedMoreData cur1
        | Some k => fsnv_loop f o (skipn k rest1) (cur1 + k) (cur1 + k)
        end
      else
        match single_char_type c with
        | Some t => FS_ok t (pos - cur) cur
        | None =>
          if has c (N.lor L_PlusOrMinus L_Digits) then FS_ok TNumber (pos - cur) cur
          else if has c L_AsciiLetters then FS_ok TAscii (pos - cur) cur
          else if (lookup c =? 0)%N then FS_err EncounteredIllegalChar cur
          else fsnv_loop f o tl (S pos) cur
        end
    end
  end.

(** H 2130-2264: findStartOfNextValue. *)
Definition findStartOfNextValue (o : opts) (buf : bytes) (cur : nat) : fs_res :=
  let rest0 := skipn cur buf in
  let skipped := ws_skip (o_isa o) rest0 in
  let pos := cur + skipped in
  let rest := skipn skipped rest0 in
  let slow := fsnv_loop (S (length rest)) o rest pos cur in
  match rest with
  | c :: _ =>
    match single_char_type c with
    | Some t => FS_ok t (pos - cur) cur
    | None => slow
    end
  | [] => slow
  end.

(** ** Finding the delimiter after a name or array element *)

Inductive fd_res : Set :=
| FD_err (e : error) (cur : nat)
| FD_ok (next : tokst) (ahead cur : nat)
| FD_fuel.

(** H 2298-2344: the loop of findDelimiter; [ct] is container_stack.back(). *)
Fixpoint fdelim_loop (fuel : nat) (o : opts) (ct : type) (rest : bytes) (pos cur : nat) : fd_res :=
  match fuel with
  | O => FD_fuel
  | S f =>
    match rest with
    | [] => FD_err NeedMoreData cur
    | c :: tl =>
      if o_comments o && Byte.eqb c c_slash && starts_slash tl then
        let cur1 := pos + 2 in
        let rest1 := skipn 1 tl in
        match skipComment (o_isa o) (o_nl o) rest1 with
        | None => FD_err NeedMoreData cur1
        | Some k => fdelim_loop f o ct (skipn k rest1) (cur1 + k) (cur1 + k)
        end
      else if Byte.eqb c c_colon then
        if negb (type_eqb ct TObjectStart) then FD_err ExpectedDelimiter cur
        else FD_ok FindingData (pos + 1 - cur) cur
      else if Byte.eqb c c_comma || (o_nl o && Byte.eqb c c_nl) then
        if negb (type_eqb ct TArrayStart) then FD_err ExpectedDelimiter cur
        else FD_ok FindingName (pos + 1 - cur) cur
      else if Byte.eqb c c_rbracket then
        if negb (type_eqb ct TArrayStart) then FD_err ExpectedDelimiter cur
        else FD_ok FindingName (pos - cur) cur
      else if negb (has c L_WhiteSpaceOrNull) then FD_err ExpectedDelimiter cur
      else fdelim_loop f o ct tl (S pos) cur
    end
  end.

(** H 2266-2346: findDelimiter. *)
Definition findDelimiter (o : opts) (stack : list type) (buf : bytes) (cur : nat) : fd_res :=
  match stack with
  | [] => FD_err IllegalPropertyType cur
  | ct :: _ =>
    let rest0 := skipn cur buf in
    let skipped := if negb (o_nl o) then ws_skip (o_isa o) rest0 else 0 in
    let rest := skipn skipped rest0 in
    fdelim_loop (S (length rest)) o ct rest (cur + skipped) cur
  end.

(** ** Finding the end of a token *)

(** Result: error, or (chars ahead, a comma was seen). *)
Inductive fe_res : Set :=
| FE_err (e : error) (cur : nat)
| FE_ok (ahead cur : nat) (comma : bool)
| FE_fuel.

(** H 2380-2424: the loop of findTokenEnd. *)
Fixpoint ftend_loop (fuel : nat) (o : opts) (rest : bytes) (pos cur : nat) : fe_res :=
  match fuel with
  | O => FE_fuel
  | S f =>
    match rest with
    | [] => FE_err NeedMoreData cur
    | c :: tl =>
      if o_comments o && Byte.eqb c c_slash && starts_slash tl then
        let cur1 := pos + 2 in
        let rest1 := skipn 1 tl in
        match skipComment (o_isa o) (o_nl o) rest1 with
        | None => FE_err NeedMoreData cur1
        | Some k => ftend_loop f o (skipn k rest1) (cur1 + k) (cur1 + k)
        end
      else if Byte.eqb c c_comma then FE_ok (pos + 1 - cur) cur true
      else if Byte.eqb c c_rbracket || Byte.eqb c c_rbrace then FE_ok (pos - cur) cur false
      else if Byte.eqb c c_nl then
        if o_nl o then FE_ok (pos + 1 - cur) cur false
        else ftend_loop f o tl (S pos) cur
      else if has c L_WhiteSpaceOrNull then ftend_loop f o tl (S pos) cur
      else FE_err InvalidToken cur
    end
  end.

(** H 2348-2425: findTokenEnd. *)
Definition findTokenEnd (o : opts) (stack : list type) (buf : bytes) (cur : nat) : fe_res :=
  match stack with
  | [] => FE_ok 0 cur false
  | _ =>
    let rest0 := skipn cur buf in
    let skipped := if negb (o_nl o) && negb (o_ascii o) then ws_skip (o_isa o) rest0 else 0 in
    let rest := skipn skipped rest0 in
    ftend_loop (S (length rest)) o rest (cur + skipped) cur
  end.

(** ** populateFromDataRef *)

Definition is_bracket (t : type) : bool :=
  match t with
  | TObjectStart | TObjectEnd | TArrayStart | TArrayEnd => true
  | _ => false
  end.

(** H 2526-2569: the part of populateFromDataRef after the start is known.  The
    resulting data pointer is [off], the size is returned. *)
Definition finish_value (o : opts) (buf : bytes) (off size0 : nat) (ty : type) (s : tstate)
  : outcome (tstate * error * (nat * nat) * type) :=
  match t_prop s with
  | FindingEnd =>
    let rest := skipn (t_cur s) buf in
    let done (neg ahead : nat) (s1 : tstate) :=
      let cur' := t_cur s1 + ahead in
      if cur' <? t_ds s1 + neg then UB
      else Ok (set_prop FoundEnd (set_cur cur' s1), NoError,
               (off, cur' - t_ds s1 - neg), ty) in
    match ty with
    | TString =>
      match findStringEnd (o_isa o) (t_esc s) rest with
      | (Some k, e) => done 1 k (set_esc e s)
      | (None, e) => Ok (set_esc e s, NeedMoreData, (off, size0), ty)
      end
    | TNumber =>
      match findNumberEnd (o_isa o) rest with
      | Some k => done 0 k s
      | None => Ok (s, NeedMoreData, (off, size0), ty)
      end
    | TAscii =>
      match findAsciiEnd (o_isa o) rest with
      | AsciiFound k => done 0 k s
      | AsciiNeedMore => Ok (s, NeedMoreData, (off, size0), ty)
      end
    | _ => Ok (s, InvalidToken, (off, size0), ty)
    end
  | _ => Ok (s, NoError, (off, size0), ty)
  end.

(** H 2504-2573: populateFromDataRef.  Returns the new state, the error, the data reference
    as (offset into the buffer, size), and the type. *)
Definition populateFromDataRef (o : opts) (buf : bytes) (ty : type) (s : tstate)
  : outcome (tstate * error * (nat * nat) * type) :=
  match t_prop s with
  | NoStartFound =>
    match findStartOfNextValue o buf (t_cur s) with
    | FS_fuel => OutOfFuel
    | FS_err e cur => Ok (set_cur cur s, e, (t_cur s, 0), TError)
    | FS_ok t ahead cur =>
      let start := cur + ahead + (if type_eqb t TString then 1 else 0) in
      let s1 := set_ptype t (set_cur (cur + ahead + 1) (set_ds start s)) in
      if is_bracket t then
        finish_value o buf start 1 t (set_prop FoundEnd s1)
      else
        finish_value o buf start 0 t (set_prop FindingEnd s1)
    end
  | _ => finish_value o buf (t_cur s) 0 ty s
  end.

(** H 2575-2581: populate_anonymous_token. *)
Definition anonymous_token (d : dref) (t : type) : token :=
  mkTok dref_empty d TAscii t.

(** H 2586-2621: Internal::getType. *)
Definition bool_or_null (d : bytes) : type :=
  if bytes_eqb d [x6e; x75; x6c; x6c] then TNull
  else if bytes_eqb d [x74; x72; x75; x65] then TBool
  else if bytes_eqb d [x66; x61; x6c; x73; x65] then TBool
  else TAscii.
Definition getType (t : type) (d : bytes) : type :=
  match t with TAscii => bool_or_null d | _ => t end.

(** H 2623-2627: strnlen. *)
Definition upto_nul (d : bytes) : bytes := firstn (scalar_count (fun c => Byte.eqb c c_nul) d) d.

(** Reading [n] bytes at offset [off] of the buffer. *)
Definition slice (buf : bytes) (off n : nat) : outcome bytes :=
  if off + n <=? length buf then Ok (firstn n (skipn off buf)) else UB.

(** H 1575-1582: Token tmp_token. *)
Definition tok_default : token := mkTok dref_empty dref_empty TString TString.

(** H 2631-2806: populateNextTokenFromDataRef.  [fuel] bounds the iterations of the while
    loop, [tmp] is tmp_token, [nt] the caller's next_token. *)
Fixpoint populateNext (fuel : nat) (o : opts) (buf : bytes) (tmp nt : token) (s : tstate)
  : outcome (tstate * error * token) :=
  match fuel with
  | O => OutOfFuel
  | S f =>
    if t_cur s <? length buf then
      match t_tok s with
      | FindingName =>
        let* (s1, e, (off, size), ty) := populateFromDataRef o buf (im_name_type (t_im s)) s in
        match e with
        | NeedMoreData =>
          if prop_gt_nostart (t_prop s1) then
            let* raw := slice buf off (length buf - t_ds s1) in
            let m := t_im s1 in
            let m' := mkIm true true (im_data_set m)
                        (if im_name_set m then im_name_type m else ty) (im_data_type m)
                        (im_name m ++ upto_nul raw) (im_data m) in
            Ok (set_im m' s1, NeedMoreData, nt)
          else Ok (s1, NeedMoreData, nt)
        | NoError =>
          let* raw := slice buf off size in
          let m := t_im s1 in
          let '(s2, d, ty2) :=
            if im_active m then
              let nm := im_name m ++ raw in
              (set_im (mkIm true (im_name_set m) (im_data_set m) (im_name_type m)
                         (im_data_type m) nm (im_data m)) s1,
               mkRef InIntermediate nm, im_name_type m)
            else (s1, mkRef (InBuffer off) raw, ty) in
          match ty2 with
          | TObjectEnd | TArrayEnd =>
            if t_expect s2 && negb (o_comma o) then Ok (s2, ExpectedDataToken, nt)
            else Ok (set_tok FindingTokenEnd s2, NoError, anonymous_token d ty2)
          | TObjectStart | TArrayStart =>
            Ok (set_tok FindingName (set_expect false s2), NoError, anonymous_token d ty2)
          | _ =>
            let tmp' := mkTok d (tk_value tmp) (getType ty2 (dr_bytes d)) (tk_value_type tmp) in
            populateNext f o buf tmp' nt (resetForNewValue (set_tok FindingDelimiter s2))
          end
        | _ => Ok (s1, e, nt)
        end
      | FindingDelimiter =>
        match findDelimiter o (t_stack s) buf (t_cur s) with
        | FD_fuel => OutOfFuel
        | FD_err e cur =>
          let s1 := set_cur cur s in
          let m := t_im s1 in
          let s2 := if im_active m then s1
                    else set_im (mkIm true (im_name_set m) (im_data_set m) (tk_name_type tmp)
                                   (im_data_type m) (im_name m ++ dr_bytes (tk_name tmp))
                                   (im_data m)) s1 in
          Ok (s2, e, nt)
        | FD_ok next ahead cur =>
          let s1 := set_expect false
                      (resetForNewValue (set_tok next (set_cur (cur + ahead) s))) in
          match next with
          | FindingName =>
            Ok (s1, NoError, anonymous_token (tk_name tmp) (tk_name_type tmp))
          | _ =>
            if negb (type_eqb (tk_name_type tmp) TString)
               && (negb (o_ascii o) || negb (type_eqb (tk_name_type tmp) TAscii))
            then Ok (s1, IllegalPropertyName, nt)
            else populateNext f o buf tmp nt s1
          end
        end
      | FindingData =>
        let* (s1, e, (off, size), ty) := populateFromDataRef o buf (im_data_type (t_im s)) s in
        match e with
        | NeedMoreData =>
          let m := t_im s1 in
          let m1 := if im_active m then m
                    else mkIm true (im_name_set m) (im_data_set m) (tk_name_type tmp)
                           (im_data_type m) (im_name m ++ dr_bytes (tk_name tmp)) (im_data m) in
          if prop_gt_nostart (t_prop s1) then
            let* raw := slice buf off (length buf - t_ds s1) in
            let m2 := mkIm (im_active m1) (im_name_set m1) true (im_name_type m1)
                        (if im_data_set m1 then im_data_type m1 else ty)
                        (im_name m1) (im_data m1 ++ upto_nul raw) in
            Ok (set_im m2 s1, NeedMoreData, nt)
          else Ok (set_im m1 s1, NeedMoreData, nt)
        | NoError =>
          let* raw := slice buf off size in
          let m := t_im s1 in
          let '(s2, name, name_ty, d, ty2) :=
            if im_active m then
              let dt := im_data m ++ raw in
              let dty := if im_data_set m then im_data_type m else ty in
              (set_im (mkIm true (im_name_set m) true (im_name_type m) dty (im_name m) dt) s1,
               mkRef InIntermediate (im_name m), im_name_type m,
               mkRef InIntermediate dt, dty)
            else (s1, tk_name tmp, tk_name_type tmp, mkRef (InBuffer off) raw, ty) in
          let vt := getType ty2 (dr_bytes d) in
          if type_eqb vt TAscii && negb (o_ascii o) then Ok (s2, IllegalDataValue, nt)
          else
            let next := match ty2 with
                        | TObjectStart | TArrayStart => FindingName
                        | _ => FindingTokenEnd
                        end in
            Ok (set_tok next s2, NoError, mkTok name d name_ty vt)
        | _ => Ok (s1, e, nt)
        end
      | FindingTokenEnd =>
        match findTokenEnd o (t_stack s) buf (t_cur s) with
        | FE_fuel => OutOfFuel
        | FE_err e cur => Ok (set_cur cur s, e, nt)
        | FE_ok ahead cur comma =>
          let s1 := if comma then set_expect true s else s in
          populateNext f o buf tmp nt (set_tok FindingName (set_cur (cur + ahead) s1))
        end
      end
    else Ok (s, NeedMoreData, nt)
  end.

(** ** Scopes *)

(** H 1336-1353: ScopeCounter::handleType; depth is a uint16_t. *)
Definition handleType (sc : type * N) (t : type) : type * N :=
  let '(ty, d) := sc in
  let dec := ((d + 65535) mod 65536)%N in
  match ty with
  | TArrayStart | TObjectStart =>
    if type_eqb t ty then (ty, ((d + 1) mod 65536)%N)
    else if (type_num t =? type_num ty + 1)%N then (ty, dec)
    else (ty, d)
  | _ => (ty, dec)
  end.

Definition scope_handle (t : type) (s : tstate) : tstate :=
  match t_scope s with
  | [] => s
  | sc :: rest => set_scope (handleType sc t :: rest) s
  end.

(** H 1818-1823: pushScope. *)
Definition pushScope (t : type) (s : tstate) : tstate :=
  set_scope ((t, match t with TArrayStart | TObjectStart => 1%N | _ => 0%N end) :: t_scope s) s.

(** H 1825-1829: popScope (the assert that depth is 0 is not enforced). *)
Definition popScope (s : tstate) : outcome tstate :=
  match t_scope s with
  | [] => UB
  | _ :: rest => Ok (set_scope rest s)
  end.

(** ** Buffers *)

(** H 2474-2478: requestMoreData. *)
Definition requestMoreData (s : tstate) : tstate :=
  match t_supply s with
  | [] => s
  | bs :: rest => set_supply rest (set_bufs (t_bufs s ++ bs) s)
  end.

(** H 2480-2502: releaseFirstDataRef.  The copy size [json_data.size - copy_pair.first] is
    unsigned; a start beyond the end would be undefined. *)
Fixpoint flush_copies (buf : bytes) (cs : list (nat * (nat * bytes)))
  : outcome (list (nat * (nat * bytes))) :=
  match cs with
  | [] => Ok []
  | (id, (start, txt)) :: tl =>
    if length buf <? start then UB
    else let* tl' := flush_copies buf tl in Ok ((id, (0, txt ++ skipn start buf)) :: tl')
  end.

Definition releaseFirstDataRef (s : tstate) : outcome tstate :=
  match t_bufs s with
  | [] => Ok s
  | b :: bs =>
    let* cs := flush_copies b (t_copy s) in
    Ok (set_bufs bs (set_ds 0 (set_cur 0 (set_copy cs s))))
  end.

(** Iterations of the while loop in populateNextTokenFromDataRef that can ever be needed
    (the states only move forward; see TokProofs.v). *)
Definition loop_fuel : nat := 5.

(** H 1721-1736: the loop over buffers in nextToken. *)
Fixpoint buffer_loop (fuel : nat) (o : opts) (nt : token) (s : tstate)
  : outcome (tstate * error * token) :=
  match t_bufs s with
  | [] => Ok (s, NeedMoreData, nt)
  | buf :: _ =>
    match fuel with
    | O => OutOfFuel
    | S f =>
      let* (s1, e, nt1) := populateNext loop_fuel o buf tok_default nt s in
      match e with
      | NeedMoreData =>
        let* s2 := releaseFirstDataRef s1 in
        buffer_loop f o nt1 (requestMoreData s2)
      | _ => Ok (s1, e, nt1)
      end
    end
  end.

Definition buffers_left (s : tstate) : nat :=
  length (t_bufs s) + length (concat (t_supply s)).

(** H 1687-1765: nextToken.  [nt] is the caller's token object. *)
Definition nextToken (o : opts) (nt : token) (s : tstate) : outcome (tstate * error * token) :=
  let ended := match t_scope s with (_, d) :: _ => (d =? 0)%N | [] => false end in
  if ended then Ok (s, ScopeHasEnded, nt)
  else
    match t_parsed s with
    | Some ts =>
      match nth_error ts (t_cur s) with
      | None => UB
      | Some tk =>
        let s1 := if S (t_cur s) =? length ts
                  then set_parsed None (set_cur 0 s)
                  else set_cur (S (t_cur s)) s in
        Ok (scope_handle (tk_value_type tk) s1, NoError, tk)
      end
    | None =>
      let s0 := match t_bufs s with [] => requestMoreData s | _ => s end in
      match t_bufs s0 with
      | [] => Ok (s0, NeedMoreData, nt)
      | _ =>
        let s1 := if t_cont s0 then s0 else resetForNewToken s0 in
        let* (s2, e, nt1) := buffer_loop (S (buffers_left s1)) o nt s1 in
        let s3 := set_cont (is_need_more e) s2 in
        match e with
        | NoError =>
          let vt := tk_value_type nt1 in
          match vt with
          | TArrayStart | TObjectStart =>
            Ok (scope_handle vt (set_stack (vt :: t_stack s3) s3), NoError, nt1)
          | TArrayEnd =>
            match t_stack s3 with
            | TArrayStart :: st => Ok (scope_handle vt (set_stack st s3), NoError, nt1)
            | _ => Ok (s3, UnexpectedArrayEnd, nt1)
            end
          | TObjectEnd =>
            match t_stack s3 with
            | TObjectStart :: st => Ok (scope_handle vt (set_stack st s3), NoError, nt1)
            | _ => Ok (s3, UnexpectedObjectEnd, nt1)
            end
          | _ => Ok (scope_handle vt s3, NoError, nt1)
          end
        | _ => Ok (s3, e, nt1)
        end
      end
    end.

(** H 1831-1839: goToEndOfScope: while the innermost scope's depth is not 0 and there is no
    error, read a token.  scope_counter.back() on an empty vector is undefined. *)
Fixpoint goToEndOfScope (fuel : nat) (o : opts) (nt : token) (s : tstate)
  : outcome (tstate * error * token) :=
  match t_scope s with
  | [] => UB
  | (_, d) :: _ =>
    if (d =? 0)%N then Ok (s, NoError, nt)
    else
      match fuel with
      | O => OutOfFuel
      | S f =>
        let* (s1, e, nt1) := nextToken o nt s in
        match e with
        | NoError => goToEndOfScope f o nt1 s1
        | _ => Ok (s1, e, nt1)
        end
      end
  end.

(** ** Raw copies *)

(** H 1781-1804: isValueInIntermediateToken and copyFromValue for copy buffer [id], whose
    string currently holds [txt].  An empty value inside the intermediate buffer has no
    address in it; the pointer comparison then goes to the second branch. *)
Definition copyFromValue (id : nat) (txt : bytes) (tk : token) (s : tstate) : outcome tstate :=
  match dr_loc (tk_value tk) with
  | InIntermediate =>
    match dr_bytes (tk_value tk) with
    | [] => UB
    | _ => Ok (set_copy (t_copy s ++ [(id, (t_cur s, txt ++ dr_bytes (tk_value tk)))]) s)
    end
  | InBuffer off => Ok (set_copy (t_copy s ++ [(id, (off, txt))]) s)
  | Elsewhere => UB
  end.

Fixpoint take_copy (id : nat) (cs : list (nat * (nat * bytes)))
  : option ((nat * bytes) * list (nat * (nat * bytes))) :=
  match cs with
  | [] => None
  | (i, p) :: tl =>
    if i =? id then Some (p, tl)
    else match take_copy id tl with
         | Some (q, tl') => Some (q, (i, p) :: tl')
         | None => None
         end
  end.

(** H 1806-1816: copyIncludingValue; returns the completed text. *)
Definition copyIncludingValue (id : nat) (s : tstate) : outcome (tstate * bytes) :=
  match take_copy id (t_copy s) with
  | None => UB
  | Some ((start, txt), cs) =>
    if t_cur s =? start then Ok (set_copy cs s, txt)
    else
      match t_bufs s with
      | [] => UB
      | buf :: _ =>
        if t_cur s <? start then UB
        else let* raw := slice buf start (t_cur s - start) in
             Ok (set_copy cs s, txt ++ raw)
      end
  end.

(** ** Draining *)

(** The loop every user writes: call nextToken until it returns something else than NoError.
    Returns the tokens, the final error and the final state. *)
Fixpoint drain (fuel : nat) (o : opts) (nt : token) (s : tstate)
  : outcome (list token * error * tstate) :=
  match fuel with
  | O => OutOfFuel
  | S f =>
    let* (s1, e, nt1) := nextToken o nt s in
    match e with
    | NoError =>
      let* (ts, e', s') := drain f o nt1 s1 in
      Ok (nt1 :: ts, e', s')
    | _ => Ok ([], e, s1)
    end
  end.
