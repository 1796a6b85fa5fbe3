(** The tokenizer as a machine that reads one byte at a time (without comments and with newlines
    as whitespace), used to compare the reading of different buffers.  No proofs here.

    This is an intermediate description for the proofs in TokStreamProofs.v and TokChunk.v; the
    model of the code is TokModel.v. *)
From Verif Require Import Base ScanModel TokModel JsonSpec.

(** What is being read: the start of a name or array element; inside one; a delimiter after it;
    the start of a member's value; inside one; the end after a value. *)
Inductive phase : Set :=
| PName
| PNameIn (ty : type) (esc : bool) (acc : bytes)
| PDelim (nm : bytes) (nty : type)
| PData (nm : bytes) (nty : type)
| PDataIn (nm : bytes) (nty ty : type) (esc : bool) (acc : bytes)
| PEnd.

(** One step: go on with a new phase and expect flag, fail, or deliver a token; the last [bool]
    says that the byte has not been consumed. *)
Inductive sres : Set :=
| Go (ph : phase) (ex : bool)
| Fail (e : error)
| Out (tk : stoken) (ph : phase) (ex keep : bool).

Definition start_class (c : byte) : option type :=
  match single_char_type c with
  | Some t => Some t
  | None => if has c (N.lor L_PlusOrMinus L_Digits) then Some TNumber
            else if has c L_AsciiLetters then Some TAscii
            else None
  end.

Definition word_cont (ty : type) (c : byte) : bool :=
  match ty with
  | TNumber => has c L_NumberEnd
  | _ => has c (N.lor L_AsciiLetters (N.lor L_Digits L_HatUnderscoreAprostoph))
         || (in_range 65 90 c || in_range 94 122 c || in_range 48 57 c)
  end.

Definition name_step (o : opts) (ex : bool) (c : byte) : sres :=
  match start_class c with
  | Some t =>
    match t with
    | TObjectEnd | TArrayEnd =>
      if ex && negb (o_comma o) then Fail ExpectedDataToken
      else Out (mkSt [] TAscii [c] t) PEnd ex false
    | TObjectStart | TArrayStart => Out (mkSt [] TAscii [c] t) PName false false
    | TString => Go (PNameIn TString false []) ex
    | _ => Go (PNameIn t false [c]) ex
    end
  | None => if (lookup c =? 0)%N then Fail EncounteredIllegalChar else Go PName ex
  end.

Definition name_ok (o : opts) (nty : type) : bool :=
  negb (negb (type_eqb nty TString) && (negb (o_ascii o) || negb (type_eqb nty TAscii))).

Definition delim_step (o : opts) (stk : list type) (ex : bool) (nm : bytes) (nty : type) (c : byte)
  : sres :=
  match stk with
  | [] => Fail IllegalPropertyType
  | ct :: _ =>
    if Byte.eqb c c_colon then
      if negb (type_eqb ct TObjectStart) then Fail ExpectedDelimiter
      else if name_ok o nty then Go (PData nm nty) false
      else Fail IllegalPropertyName
    else if Byte.eqb c c_comma then
      if negb (type_eqb ct TArrayStart) then Fail ExpectedDelimiter
      else Out (mkSt [] TAscii nm nty) PName false false
    else if Byte.eqb c c_rbracket then
      if negb (type_eqb ct TArrayStart) then Fail ExpectedDelimiter
      else Out (mkSt [] TAscii nm nty) PName false true
    else if negb (has c L_WhiteSpaceOrNull) then Fail ExpectedDelimiter
    else Go (PDelim nm nty) ex
  end.

Definition data_step (o : opts) (ex : bool) (nm : bytes) (nty : type) (c : byte) : sres :=
  match start_class c with
  | Some t =>
    match t with
    | TObjectEnd | TArrayEnd => Out (mkSt nm nty [c] t) PEnd ex false
    | TObjectStart | TArrayStart => Out (mkSt nm nty [c] t) PName ex false
    | TString => Go (PDataIn nm nty TString false []) ex
    | _ => Go (PDataIn nm nty t false [c]) ex
    end
  | None => if (lookup c =? 0)%N then Fail EncounteredIllegalChar else Go (PData nm nty) ex
  end.

Definition value_done (o : opts) (ex : bool) (nm : bytes) (nty ty : type) (acc : bytes)
  (keep : bool) : sres :=
  let vt := getType ty acc in
  if type_eqb vt TAscii && negb (o_ascii o) then Fail IllegalDataValue
  else Out (mkSt nm nty acc vt) PEnd ex keep.

Definition end_step (o : opts) (stk : list type) (ex : bool) (c : byte) : sres :=
  match stk with
  | [] => name_step o ex c
  | _ =>
    if Byte.eqb c c_comma then Go PName true
    else if Byte.eqb c c_rbracket || Byte.eqb c c_rbrace then name_step o ex c
    else if Byte.eqb c c_nl || has c L_WhiteSpaceOrNull then Go PEnd ex
    else Fail InvalidToken
  end.

Definition step (o : opts) (stk : list type) (ex : bool) (ph : phase) (c : byte) : sres :=
  match ph with
  | PName => name_step o ex c
  | PNameIn TString esc acc =>
    if esc then Go (PNameIn TString false (acc ++ [c])) ex
    else if Byte.eqb c c_backslash then Go (PNameIn TString true (acc ++ [c])) ex
    else if Byte.eqb c c_quote then Go (PDelim acc TString) ex
    else Go (PNameIn TString false (acc ++ [c])) ex
  | PNameIn ty _ acc =>
    if word_cont ty c then Go (PNameIn ty false (acc ++ [c])) ex
    else delim_step o stk ex acc (getType ty acc) c
  | PDelim nm nty => delim_step o stk ex nm nty c
  | PData nm nty => data_step o ex nm nty c
  | PDataIn nm nty TString esc acc =>
    if esc then Go (PDataIn nm nty TString false (acc ++ [c])) ex
    else if Byte.eqb c c_backslash then Go (PDataIn nm nty TString true (acc ++ [c])) ex
    else if Byte.eqb c c_quote then value_done o ex nm nty TString acc false
    else Go (PDataIn nm nty TString false (acc ++ [c])) ex
  | PDataIn nm nty ty _ acc =>
    if word_cont ty c then Go (PDataIn nm nty ty false (acc ++ [c])) ex
    else value_done o ex nm nty ty acc true
  | PEnd => end_step o stk ex c
  end.

(** Reading until a token, an error or the end of the bytes. *)
Inductive rres : Set :=
| RNeed (ph : phase) (ex : bool)
| RErr (e : error)
| ROut (tk : stoken) (ph : phase) (ex : bool) (rest : bytes).

Fixpoint run (o : opts) (stk : list type) (ex : bool) (ph : phase) (l : bytes) : rres :=
  match l with
  | [] => RNeed ph ex
  | c :: tl =>
    match step o stk ex ph c with
    | Go ph' ex' => run o stk ex' ph' tl
    | Fail e => RErr e
    | Out tk ph' ex' keep => ROut tk ph' ex' (if keep then l else tl)
    end
  end.

(** The bracket stack after a token, or the error for an unexpected bracket. *)
Definition next_stack (t : type) (stk : list type) : list type + error :=
  match t with
  | TArrayStart | TObjectStart => inl (t :: stk)
  | TArrayEnd => match stk with TArrayStart :: r => inl r | _ => inr UnexpectedArrayEnd end
  | TObjectEnd => match stk with TObjectStart :: r => inl r | _ => inr UnexpectedObjectEnd end
  | _ => inl stk
  end.

(** All tokens of a text, at most [fuel] of them, and the final error. *)
Fixpoint sdrain (fuel : nat) (o : opts) (stk : list type) (ex : bool) (ph : phase) (l : bytes)
  : option (list stoken * error) :=
  match fuel with
  | O => None
  | S f =>
    match run o stk ex ph l with
    | RNeed _ _ => Some ([], NeedMoreData)
    | RErr e => Some ([], e)
    | ROut tk ph' ex' r =>
      match next_stack (st_value_type tk) stk with
      | inl stk' =>
        match sdrain f o stk' ex' ph' r with
        | Some (ts, e) => Some (tk :: ts, e)
        | None => None
        end
      | inr e => Some ([], e)
      end
    end
  end.
