(** What an error context should say.  No reference to the model. *)
From Verif Require Import Base.

(** Lines put together with newlines between them. *)
Fixpoint join_lines (ls : list bytes) : bytes :=
  match ls with
  | [] => []
  | [l] => l
  | l :: r => l ++ x0a :: join_lines r
  end.

(** [lines] are consecutive lines of [data] (the first may lack its beginning and the last its end)
    and line number [n] is the one with position [pos]; it starts at position [start]. *)
Definition shows (data : bytes) (pos : nat) (lines : list bytes) (n start : nat) : Prop :=
  exists before l after pre post,
    lines = before ++ l :: after /\ length before = n /\
    data = pre ++ join_lines lines ++ post /\
    start = length pre + length (concat (map (fun x => x ++ [x0a]) before)) /\
    start <= pos <= start + length l.
