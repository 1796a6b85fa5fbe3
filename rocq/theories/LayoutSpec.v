(** The layout of serialized documents, as one would print them.  No reference to the serializer. *)
From Verif Require Import Base ScanModel TokModel JsonSpec.

(** Some k: pretty, k blanks per level.  None: compact. *)
Definition new_line (style : option N) (depth : N) : bytes :=
  match style with Some k => x0a :: repeat x20 (N.to_nat (depth * k)) | None => [] end.
Definition after_colon (style : option N) : bytes :=
  match style with Some _ => [x20] | None => [] end.

Fixpoint commas (l : list bytes) : bytes :=
  match l with
  | [] => []
  | [a] => a
  | a :: r => a ++ comma :: commas r
  end.

Fixpoint layout (style : option N) (depth : N) (j : json) : bytes :=
  match j with
  | JScalar s => scalar_text s
  | JArr els =>
      lbrack :: commas (map (fun e => new_line style (depth + 1) ++ layout style (depth + 1) e) els)
        ++ new_line style depth ++ [rbrack]
  | JObj ms =>
      lbrace :: commas (map (fun kv => new_line style (depth + 1) ++
                               quote :: fst kv ++ quote :: colon :: after_colon style ++
                               layout style (depth + 1) (snd kv)) ms)
        ++ new_line style depth ++ [rbrace]
  end.
