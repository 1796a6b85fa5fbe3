(** The names of enumerators: Internal::populateEnumNames (H 5560-5598), called by JS_ENUM (H 5602-5621)
    with the text of its arguments.  The assert on = (H 5575) is not modelled: a release build. *)
From Verif Require Import Base.

(** H 5560-5565: ParseEnumStringState. *)
Inductive enum_state : Set := FindingNameStart | FindingNameEnd | FindingSeparator.

(** H 5579: (c >= 'A' && c <= 'Z') || (c >= 'a' && c <= 'z'); as a signed char a byte from 128 on is
    negative, as an unsigned one it is greater than z. *)
Definition is_enum_letter (c : byte) : bool :=
  ((65 <=? byte_val c) && (byte_val c <=? 90) || (97 <=? byte_val c) && (byte_val c <=? 122))%N.

(** H 5586: the characters that end a name. *)
Definition ends_enum_name (c : byte) : bool :=
  Byte.eqb c x00 || Byte.eqb c x09 || Byte.eqb c x0a || Byte.eqb c x0d || Byte.eqb c x20 || Byte.eqb c x2c.

(** H 5571-5597: the loop at index [i]; [rest] is the array from there.  A name is its start and length. *)
Fixpoint enum_names_loop (i : nat) (rest : bytes) (state : enum_state) (name_starts_at : nat) : list (nat * nat) :=
  match rest with
  | [] => []
  | c :: rest =>
      match state with
      | FindingNameStart =>
          if is_enum_letter c then enum_names_loop (S i) rest FindingNameEnd i
          else enum_names_loop (S i) rest FindingNameStart name_starts_at
      | FindingNameEnd =>
          if ends_enum_name c then
            (name_starts_at, i - name_starts_at) ::
            enum_names_loop (S i) rest (if Byte.eqb c x2c then FindingNameStart else FindingSeparator) name_starts_at
          else enum_names_loop (S i) rest FindingNameEnd name_starts_at
      | FindingSeparator =>
          enum_names_loop (S i) rest (if Byte.eqb c x2c then FindingNameStart else FindingSeparator) name_starts_at
      end
  end.

(** H 5566-5598.  [text] is the string literal without its terminating NUL, which N counts. *)
Definition populateEnumNames (text : bytes) : list bytes :=
  let data := text ++ [x00] in
  map (fun r => firstn (snd r) (skipn (fst r) data)) (enum_names_loop 0 data FindingNameStart 0).
