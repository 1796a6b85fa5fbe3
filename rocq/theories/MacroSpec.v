(** What the macros that list members, super classes and functions should stand for; uses only the
    tokens of MacroModel.v. *)
From Verif Require Import Base MacroModel.
From Coq Require Import String List.
Import ListNotations.
Local Open Scope list_scope.

Definition word (s : string) : ptok := Id (s2b s) false.
Definition sym (s : string) : ptok := Sym (s2b s).
Definition name (x : bytes) : ptok := Id x false.
Arguments word s%string_scope.
Arguments sym s%string_scope.

(** The three kinds of lists that are written as bare names. *)
Inductive kind : Set := Members | Supers | Functions.

Definition member_info (x : bytes) : list ptok :=
  [word "JS"; sym "::"; word "makeMemberInfo"; sym "("; Str x; sym ",";
   sym "&"; word "JS_OBJECT_T"; sym "::"; name x; sym ")"].
Definition super_info (x : bytes) : list ptok :=
  [word "JS"; sym "::"; word "makeSuperInfo"; sym "<"; name x; sym ">"; sym "("; Str x; sym ")"].
Definition function_info (x : bytes) : list ptok :=
  [word "JS"; sym "::"; word "makeFunctionInfo"; sym "("; Str x; sym ",";
   sym "&"; word "JS_CONTAINER_STRUCT_T"; sym "::"; name x; sym ")"].

Definition info (k : kind) : bytes -> list ptok :=
  match k with Members => member_info | Supers => super_info | Functions => function_info end.

(** Texts separated by commas. *)
Fixpoint commas (l : list (list ptok)) : list ptok :=
  match l with
  | [] => []
  | a :: r => match r with [] => a | _ => a ++ sym "," :: commas r end
  end.

(** name ( a, b, ... ) *)
Definition call (n : bytes) (args : list (list ptok)) : list ptok := name n :: sym "(" :: commas args ++ [sym ")"].

Definition tuple (l : list (list ptok)) : list ptok :=
  word "JS" :: sym "::" :: call (s2b "makeTuple") l.

(** The struct that JS_OBJ and the like leave in the class. *)
Definition struct_base (supers members : list ptok) : list ptok :=
  [word "template"; sym "<"; word "typename"; word "JS_OBJECT_T"; sym ">"; word "struct"; word "JsonStructBase"; sym "{";
   word "using"; word "TT"; sym "="; word "decltype"; sym "("] ++ members ++ [sym ")"; sym ";";
   word "static"; word "inline"; word "constexpr"; word "const"; word "TT"; word "js_static_meta_data_info"; sym "("; sym ")";
   sym "{"; word "return"] ++ members ++ [sym ";"; sym "}";
   word "static"; word "inline"; word "constexpr"; word "const"; word "decltype"; sym "("] ++ supers ++ [sym ")";
   word "js_static_meta_super_info"; sym "("; sym ")"; sym "{"; word "return"] ++ supers ++ [sym ";"; sym "}"; sym "}"].

(** The same for a class that is described from the outside. *)
Definition struct_dummy (type supers members : list ptok) : list ptok :=
  [word "namespace"; word "JS"; sym "{"; word "namespace"; word "Internal"; sym "{";
   word "template"; sym "<"; word "typename"; word "JS_OBJECT_T"; sym ">"; word "struct"; word "JsonStructBaseDummy"; sym "<"]
   ++ type ++ [sym ","; word "JS_OBJECT_T"; sym ">"; sym "{";
   word "using"; word "TT"; sym "="; word "decltype"; sym "("] ++ members ++ [sym ")"; sym ";";
   word "static"; word "constexpr"; word "const"; word "TT"; word "js_static_meta_data_info"; sym "("; sym ")";
   sym "{"; word "return"] ++ members ++ [sym ";"; sym "}";
   word "static"; word "constexpr"; word "const"; word "decltype"; sym "("] ++ supers ++ [sym ")";
   word "js_static_meta_super_info"; sym "("; sym ")"; sym "{"; word "return"] ++ supers ++ [sym ";"; sym "}"; sym "}"; sym ";";
   sym "}"; sym "}"].

(** The struct that JS_FUNC_OBJ leaves in the class. *)
Definition struct_functions (supers functions : list ptok) : list ptok :=
  [word "template"; sym "<"; word "typename"; word "JS_CONTAINER_STRUCT_T"; sym ">"; word "struct";
   word "JsonStructFunctionContainer"; sym "{";
   word "using"; word "TT"; sym "="; word "decltype"; sym "("] ++ functions ++ [sym ")"; sym ";";
   word "static"; word "const"; word "TT"; sym "&"; word "js_static_meta_functions_info"; sym "("; sym ")";
   sym "{"; word "static"; word "auto"; word "ret"; sym "="] ++ functions ++ [sym ";"; word "return"; word "ret"; sym ";"; sym "}";
   word "static"; word "const"; word "decltype"; sym "("] ++ supers ++ [sym ")";
   word "js_static_meta_super_info"; sym "("; sym ")"; sym "{"; word "return"] ++ supers ++ [sym ";"; sym "}"; sym "}"].

(** An identifier that is not the name of a macro of the header. *)
Definition identifier (x : bytes) : bool :=
  match x with
  | [] => false
  | c :: r => is_letter c && forallb (fun c => is_letter c || is_digit_c c) r
  end.
Definition macro_name (x : bytes) : bool := existsb (fun m => bytes_eqb x (fst m)) table.
Definition usable (x : bytes) : Prop := identifier x = true /\ macro_name x = false.

(** Members described one by one: JS_MEMBER(x), JS_MEMBER_ALIASES(x, "a", ...),
    JS_MEMBER_WITH_NAME(x, "n"), JS_MEMBER_WITH_NAME_AND_ALIASES(x, "n", "a", ...). *)
Inductive member : Set :=
| Plain (x : bytes)
| Aliases (x a : bytes) (more : list bytes)
| Named (x n : bytes)
| NamedAliases (x n a : bytes) (more : list bytes).

Definition member_var (m : member) : bytes :=
  match m with Plain x => x | Aliases x _ _ => x | Named x _ => x | NamedAliases x _ _ _ => x end.
Definition member_names (m : member) : list bytes :=
  match m with
  | Plain x => [x]
  | Aliases x a more => x :: a :: more
  | Named _ n => [n]
  | NamedAliases _ n a more => n :: a :: more
  end.

Definition member_source (m : member) : list ptok :=
  match m with
  | Plain x => call (s2b "JS_MEMBER") [[name x]]
  | Aliases x a more => call (s2b "JS_MEMBER_ALIASES") ([name x] :: map (fun s => [Str s]) (a :: more))
  | Named x n => call (s2b "JS_MEMBER_WITH_NAME") [[name x]; [Str n]]
  | NamedAliases x n a more =>
    call (s2b "JS_MEMBER_WITH_NAME_AND_ALIASES") ([name x] :: [Str n] :: map (fun s => [Str s]) (a :: more))
  end.

(** JS::makeMemberInfo("name", &JS_OBJECT_T::x, "alias", ...) *)
Definition member_target (m : member) : list ptok :=
  match member_names m with
  | [] => []
  | n :: aliases =>
    word "JS" :: sym "::" :: call (s2b "makeMemberInfo")
      ([Str n] :: [sym "&"; word "JS_OBJECT_T"; sym "::"; name (member_var m)] :: map (fun s => [Str s]) aliases)
  end.

(** With enough fuel the preprocessor makes [b] of [a]. *)
Definition expands (a b : list ptok) : Prop := exists F, forall f, (F <= f)%nat -> preprocess f a = Ok b.

(** The macros that turn a list of names into a list of infos. *)
Definition list_macro (k : kind) : bytes :=
  match k with
  | Members => s2b "JS_INTERNAL_MAKE_MEMBERS"
  | Supers => s2b "JS_INTERNAL_MAKE_SUPER_CLASSES"
  | Functions => s2b "JS_INTERNAL_MAKE_FUNCTIONS"
  end.

(** A list of bare names, as it is written between the parentheses of a macro. *)
Definition names_of (xs : list bytes) : list (list ptok) := map (fun x => [name x]) xs.

(** Between 1 and 2050 identifiers that are not macros. *)
Definition listable (xs : list bytes) : Prop := Forall usable xs /\ (1 <= List.length xs <= 2050)%nat.
