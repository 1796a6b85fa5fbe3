(** Model of the macros that build member lists (H 4034-4173, 4962-5042), together with the part
    of the C++ preprocessor they use.  No proofs here.

    The preprocessor follows [cpp.rescan] and [cpp.subst]: the arguments of a function-like macro are
    collected up to the matching parenthesis, expanded completely (only those that the replacement
    list uses outside of # and ##), put in the place of the parameters, and the result is scanned
    again together with the rest of the source.  While the replacement list of a macro is being
    scanned the name of the macro is not replaced, and such a name is never replaced later.  The end
    of a replacement list is kept as a mark among the tokens that are still to be scanned; a macro
    is being replaced exactly as long as its mark lies ahead.

    Simplified: white space is dropped, so # gives the spelling of the tokens of the argument without
    blanks (the arguments used with # here are single names); there are no comments, no string
    literals in replacement lists, no directives. *)
From Verif Require Import Base.
From Coq Require Import String List.
Local Open Scope list_scope.

(** ** Tokens *)

(** [Id n painted]: an identifier; a painted one is no longer available for replacement. *)
Inductive ptok : Set :=
| Id (n : bytes) (painted : bool)
| Num (n : bytes)
| Str (s : bytes)
| Sym (s : bytes).

(** What is still to be scanned: tokens, and the ends of replacement lists. *)
Inductive item : Set :=
| T (t : ptok)
| E (n : bytes).

Definition lp : ptok := Sym [x28].
Definition rp : ptok := Sym [x29].
Definition cm : ptok := Sym [x2c].

Definition is_sym (s : bytes) (t : ptok) : bool :=
  match t with Sym s' => bytes_eqb s s' | _ => false end.

Fixpoint name_in (n : bytes) (l : list bytes) : bool :=
  match l with [] => false | m :: r => bytes_eqb n m || name_in n r end.

Fixpoint marks (its : list item) : list bytes :=
  match its with
  | [] => []
  | T _ :: r => marks r
  | E n :: r => n :: marks r
  end.

(** ** Reading a replacement list *)

Definition is_letter (c : byte) : bool :=
  let n := Byte.to_N c in
  ((65 <=? n) && (n <=? 90) || (97 <=? n) && (n <=? 122) || (n =? 95))%N.
Definition is_digit_c (c : byte) : bool := let n := Byte.to_N c in ((48 <=? n) && (n <=? 57))%N.
Definition is_blank_c (c : byte) : bool := let n := Byte.to_N c in ((n =? 32) || (n =? 10))%N.

(** Tokens of a text, from the right: a character joins the token that begins right after it. *)
Fixpoint lex (s : bytes) : list ptok :=
  match s with
  | [] => []
  | c :: r =>
    let ts := lex r in
    let next (p : byte -> bool) := match r with d :: _ => p d | [] => false end in
    if is_blank_c c then ts
    else if is_letter c then
      match ts with
      | Id n p :: ts' => if next is_letter then Id (c :: n) p :: ts' else Id [c] false :: ts
      | Num n :: ts' => if next is_digit_c then Id (c :: n) false :: ts' else Id [c] false :: ts
      | _ => Id [c] false :: ts
      end
    else if is_digit_c c then
      match ts with
      | Num n :: ts' => if next is_digit_c then Num (c :: n) :: ts' else Num [c] :: ts
      | Id n p :: ts' => if next is_letter then Num (c :: n) :: ts' else Num [c] :: ts
      | _ => Num [c] :: ts
      end
    else
      match ts with
      | Sym s :: ts' =>
        if next (Byte.eqb c) && bytes_eqb s [c] && (Byte.eqb c x3a || Byte.eqb c x23)
        then Sym [c; c] :: ts' else Sym [c] :: ts
      | _ => Sym [c] :: ts
      end
  end.

(** Elements of a replacement list: a token, a parameter, #parameter, parameter##parameter.
    They are counted from 0; __VA_ARGS__ comes after the named ones. *)
Inductive elem : Set :=
| Lit (t : ptok)
| Par (i : nat)
| Hash (i : nat)
| Glue (i j : nat).

Fixpoint index_of (n : bytes) (l : list bytes) : option nat :=
  match l with
  | [] => None
  | m :: r => if bytes_eqb n m then Some O else option_map S (index_of n r)
  end.

Fixpoint elems (ps : list bytes) (ts : list ptok) : list elem :=
  match ts with
  | [] => []
  | t :: r =>
    let e := match t with
             | Id n _ => match index_of n ps with Some i => Par i | None => Lit t end
             | _ => Lit t
             end in
    match t, elems ps r with
    | Sym s, Par i :: es => if bytes_eqb s [x23] then Hash i :: es else e :: Par i :: es
    | _, Lit (Sym s) :: Par j :: es =>
      match e with
      | Par i => if bytes_eqb s [x23; x23] then Glue i j :: es else e :: Lit (Sym s) :: Par j :: es
      | _ => e :: Lit (Sym s) :: Par j :: es
      end
    | _, es => e :: es
    end
  end.

(** A macro: object-like, or function-like with a number of named parameters, possibly followed by
    an ellipsis. *)
Inductive macro : Set :=
| Obj (body : list elem)
| Fun (named : nat) (variadic : bool) (body : list elem).

Definition va : bytes := s2b "__VA_ARGS__".
Definition obj (n body : string) : bytes * macro := (s2b n, Obj (elems [] (lex (s2b body)))).
Definition fn (n : string) (ps : list string) (body : string) : bytes * macro :=
  (s2b n, Fun (List.length ps) false (elems (map s2b ps) (lex (s2b body)))).
Definition fnv (n : string) (ps : list string) (body : string) : bytes * macro :=
  (s2b n, Fun (List.length ps) true (elems (map s2b ps ++ [va]) (lex (s2b body)))).

(** ** Calls *)

(** Arguments up to the matching parenthesis; [d] parentheses are open inside an argument. *)
Fixpoint collect (d : nat) (its : list item) : option (list (list ptok) * list item) :=
  match its with
  | [] => None
  | E _ :: r => collect d r
  | T t :: r =>
    let more (d : nat) :=
      match collect d r with
      | Some (a :: args, r') => Some ((t :: a) :: args, r')
      | _ => None
      end in
    if is_sym [x28] t then more (S d)
    else if is_sym [x29] t then match d with O => Some ([[]], r) | S d' => more d' end
    else if is_sym [x2c] t then
      match d with
      | O => match collect O r with Some (args, r') => Some ([] :: args, r') | None => None end
      | _ => more d
      end
    else more d
  end.

(** Marks before the next token are passed when a parenthesis is looked for. *)
Fixpoint skip_marks (its : list item) : list item :=
  match its with E _ :: r => skip_marks r | _ => its end.

Fixpoint join (args : list (list ptok)) : list ptok :=
  match args with
  | [] => []
  | [a] => a
  | a :: r => a ++ cm :: join r
  end.

Definition bind (named : nat) (variadic : bool) (args : list (list ptok)) : option (list (list ptok)) :=
  if variadic then
    if Nat.leb named (List.length args) then Some (firstn named args ++ [join (skipn named args)]) else None
  else
    match named with
    | O => match args with [[]] => Some [] | _ => None end
    | _ => if Nat.eqb (List.length args) named then Some args else None
    end.

Definition spell (t : ptok) : bytes := match t with Id n _ => n | Num n => n | Str s => s | Sym s => s end.

(** a##b: the last token of the one and the first token of the other. *)
Definition glue (a b : list ptok) : option (list ptok) :=
  match rev a, b with
  | [], _ => Some b
  | _, [] => Some a
  | Id n _ :: a', Id m _ :: b' => Some (rev a' ++ Id (n ++ m) false :: b')
  | Id n _ :: a', Num m :: b' => Some (rev a' ++ Id (n ++ m) false :: b')
  | _, _ => None
  end.

Fixpoint used (i : nat) (body : list elem) : bool :=
  match body with
  | [] => false
  | Par j :: r => Nat.eqb i j || used i r
  | _ :: r => used i r
  end.

Fixpoint subst (body : list elem) (raws exps : list (list ptok)) : option (list ptok) :=
  match body with
  | [] => Some []
  | e :: r =>
    match subst r raws exps with
    | None => None
    | Some ts =>
      match e with
      | Lit t => Some (t :: ts)
      | Par i => Some (nth i exps [] ++ ts)
      | Hash i => Some (Str (List.concat (map spell (nth i raws []))) :: ts)
      | Glue i j => match glue (nth i raws []) (nth j raws []) with Some g => Some (g ++ ts) | None => None end
      end
    end
  end.

(** ** Scanning *)

Section Scan.
Variable lookup : bytes -> option macro.

(** The arguments that the replacement list uses, expanded; the others are left empty. *)
Fixpoint expand_args (expand : list ptok -> outcome (list ptok)) (i : nat) (body : list elem)
  (raws : list (list ptok)) : outcome (list (list ptok)) :=
  match raws with
  | [] => Ok []
  | a :: r =>
    let* a' := (if used i body then expand a else Ok []) in
    let* r' := expand_args expand (S i) body r in
    Ok (a' :: r')
  end.

(** [act]: names that are being replaced around the text scanned here (an argument is scanned inside of
    what is being replaced at its place).  UB stands for a text that is not well-formed. *)
Fixpoint run (fuel : nat) (act : list bytes) (its : list item) : outcome (list ptok) :=
  match fuel with
  | O => OutOfFuel
  | S f =>
    let keep t r := let* ts := run f act r in Ok (t :: ts) in
    match its with
    | [] => Ok []
    | E _ :: r => run f act r
    | T (Id n false) :: r =>
      match lookup n with
      | None => keep (Id n false) r
      | Some m =>
        if name_in n (act ++ marks r) then keep (Id n true) r
        else
          match m with
          | Obj body =>
            match subst body [] [] with
            | None => UB
            | Some ts => run f act (map T ts ++ E n :: r)
            end
          | Fun named variadic body =>
            match skip_marks r with
            | T t :: r1 =>
              if is_sym [x28] t then
                match collect O r1 with
                | None => UB
                | Some (args, r2) =>
                  match bind named variadic args with
                  | None => UB
                  | Some raws =>
                    let* exps := expand_args (fun a => run f (act ++ marks r2) (map T a)) O body raws in
                    match subst body raws exps with
                    | None => UB
                    | Some ts => run f act (map T ts ++ E n :: r2)
                    end
                  end
                end
              else keep (Id n false) r
            | _ => keep (Id n false) r
            end
          end
      end
    | T t :: r => keep t r
    end
  end.
End Scan.

(** ** The macros of the header *)

Local Open Scope string_scope.

Definition table : list (bytes * macro) := Eval vm_compute in [
  (* H 4034 *)
  fn "JS_INTERNAL_EXPAND" ["x"] "x";
  (* H 4035 *)
  fnv "JS_INTERNAL_FIRST_" ["a"] "a";
  (* H 4036 *)
  fnv "JS_INTERNAL_SECOND_" ["a"; "b"] "b";
  (* H 4037 *)
  fnv "JS_INTERNAL_FIRST" [] "JS_INTERNAL_EXPAND(JS_INTERNAL_FIRST_(__VA_ARGS__))";
  (* H 4038 *)
  fnv "JS_INTERNAL_SECOND" [] "JS_INTERNAL_EXPAND(JS_INTERNAL_SECOND_(__VA_ARGS__))";
  (* H 4039 *)
  fn "JS_INTERNAL_EMPTY" [] "";
  (* H 4040 *)
  fnv "JS_INTERNAL_EVAL" [] "JS_INTERNAL_EVAL1024(__VA_ARGS__)";
  (* H 4041 *)
  fnv "JS_INTERNAL_EVAL1024" [] "JS_INTERNAL_EVAL512(JS_INTERNAL_EVAL512(__VA_ARGS__))";
  (* H 4042 *)
  fnv "JS_INTERNAL_EVAL512" [] "JS_INTERNAL_EVAL256(JS_INTERNAL_EVAL256(__VA_ARGS__))";
  (* H 4043 *)
  fnv "JS_INTERNAL_EVAL256" [] "JS_INTERNAL_EVAL128(JS_INTERNAL_EVAL128(__VA_ARGS__))";
  (* H 4044 *)
  fnv "JS_INTERNAL_EVAL128" [] "JS_INTERNAL_EVAL64(JS_INTERNAL_EVAL64(__VA_ARGS__))";
  (* H 4045 *)
  fnv "JS_INTERNAL_EVAL64" [] "JS_INTERNAL_EVAL32(JS_INTERNAL_EVAL32(__VA_ARGS__))";
  (* H 4046 *)
  fnv "JS_INTERNAL_EVAL32" [] "JS_INTERNAL_EVAL16(JS_INTERNAL_EVAL16(__VA_ARGS__))";
  (* H 4047 *)
  fnv "JS_INTERNAL_EVAL16" [] "JS_INTERNAL_EVAL8(JS_INTERNAL_EVAL8(__VA_ARGS__))";
  (* H 4048 *)
  fnv "JS_INTERNAL_EVAL8" [] "JS_INTERNAL_EVAL4(JS_INTERNAL_EVAL4(__VA_ARGS__))";
  (* H 4049 *)
  fnv "JS_INTERNAL_EVAL4" [] "JS_INTERNAL_EVAL2(JS_INTERNAL_EVAL2(__VA_ARGS__))";
  (* H 4050 *)
  fnv "JS_INTERNAL_EVAL2" [] "JS_INTERNAL_EVAL1(JS_INTERNAL_EVAL1(__VA_ARGS__))";
  (* H 4051 *)
  fnv "JS_INTERNAL_EVAL1" [] "__VA_ARGS__";
  (* H 4053 *)
  fn "JS_INTERNAL_DEFER1" ["m"] "m JS_INTERNAL_EMPTY()";
  (* H 4054 *)
  fn "JS_INTERNAL_DEFER2" ["m"] "m JS_INTERNAL_EMPTY JS_INTERNAL_EMPTY()()";
  (* H 4056 *)
  fnv "JS_INTERNAL_IS_PROBE" [] "JS_INTERNAL_SECOND(__VA_ARGS__, 0, 0)";
  (* H 4057 *)
  fn "JS_INTERNAL_PROBE" [] "~, 1";
  (* H 4059 *)
  fn "JS_INTERNAL_CAT" ["a"; "b"] "a##b";
  (* H 4061 *)
  fn "JS_INTERNAL_NOT" ["x"] "JS_INTERNAL_IS_PROBE(JS_INTERNAL_CAT(JS_INTERNAL__NOT_, x))";
  (* H 4062 *)
  obj "JS_INTERNAL__NOT_0" "JS_INTERNAL_PROBE()";
  (* H 4064 *)
  fn "JS_INTERNAL_BOOL" ["x"] "JS_INTERNAL_NOT(JS_INTERNAL_NOT(x))";
  (* H 4066 *)
  fn "JS_INTERNAL_IF_ELSE" ["condition"] "JS_INTERNAL__IF_ELSE(JS_INTERNAL_BOOL(condition))";
  (* H 4067 *)
  fn "JS_INTERNAL__IF_ELSE" ["condition"] "JS_INTERNAL_CAT(JS_INTERNAL__IF_, condition)";
  (* H 4069 *)
  fnv "JS_INTERNAL__IF_1" [] "__VA_ARGS__ JS_INTERNAL__IF_1_ELSE";
  (* H 4070 *)
  fnv "JS_INTERNAL__IF_0" [] "JS_INTERNAL__IF_0_ELSE";
  (* H 4072 *)
  fnv "JS_INTERNAL__IF_1_ELSE" [] "";
  (* H 4073 *)
  fnv "JS_INTERNAL__IF_0_ELSE" [] "__VA_ARGS__";
  (* H 4075-4076 *)
  fnv "JS_INTERNAL_HAS_MORE_THAN_ONE_ARGS" [] "JS_INTERNAL_BOOL(JS_INTERNAL_SECOND(JS_INTERNAL__END_OF_ARGUMENTS_ __VA_ARGS__, 0, 0)())";
  (* H 4077 *)
  fn "JS_INTERNAL__END_OF_ARGUMENTS_" [] "0";
  (* H 4079 *)
  fn "JS_MEMBER" ["member"] "JS::makeMemberInfo(#member, &JS_OBJECT_T::member)";
  (* H 4080-4081 *)
  fnv "JS_MEMBER_ALIASES" ["member"] "JS_INTERNAL_EXPAND(JS::makeMemberInfo(#member, &JS_OBJECT_T::member, __VA_ARGS__))";
  (* H 4082 *)
  fn "JS_MEMBER_WITH_NAME" ["member"; "name"] "JS::makeMemberInfo(name, &JS_OBJECT_T::member)";
  (* H 4083 *)
  fnv "JS_MEMBER_WITH_NAME_AND_ALIASES" ["member"; "name"] "JS::makeMemberInfo(name, &JS_OBJECT_T::member, __VA_ARGS__)";
  (* H 4085 *)
  fn "JS_SUPER_CLASS" ["super"] "JS::makeSuperInfo<super>(#super)";
  (* H 4087 *)
  fnv "JS_SUPER_CLASSES" [] "JS::makeTuple(__VA_ARGS__)";
  (* H 4088 *)
  fn "JS_INTERNAL__MAP_MEMBER" [] "JS_INTERNAL_MAP_MEMBER";
  (* H 4090-4093 *)
  fnv "JS_INTERNAL_MAKE_MEMBERS" [] "JS_INTERNAL_IF_ELSE(JS_INTERNAL_HAS_MORE_THAN_ONE_ARGS(__VA_ARGS__))
     (JS_INTERNAL_EXPAND(JS_INTERNAL_EVAL(JS_INTERNAL_MAP_MEMBER(JS::makeMemberInfo, __VA_ARGS__))))(
       JS_INTERNAL_MAP_APPLY_MEMBER(JS::makeMemberInfo, __VA_ARGS__))";
  (* H 4095 *)
  fn "JS_INTERNAL_MAP_APPLY_MEMBER" ["m"; "first"] "m(#first, &JS_OBJECT_T::first)";
  (* H 4097-4100 *)
  fnv "JS_INTERNAL_MAP_MEMBER" ["m"; "first"] "JS_INTERNAL_MAP_APPLY_MEMBER(m, first)
     JS_INTERNAL_IF_ELSE(JS_INTERNAL_HAS_MORE_THAN_ONE_ARGS(__VA_ARGS__))
     (, JS_INTERNAL_DEFER2(JS_INTERNAL__MAP_MEMBER)()(m, __VA_ARGS__))(, JS_INTERNAL_MAP_APPLY_MEMBER(m, __VA_ARGS__))";
  (* H 4102 *)
  fn "JS_INTERNAL_MAP_APPLY_SUPER" ["m"; "first"] "m<first>(#first)";
  (* H 4104-4107 *)
  fnv "JS_INTERNAL_MAP_SUPER" ["m"; "first"] "JS_INTERNAL_MAP_APPLY_SUPER(m, first)
     JS_INTERNAL_IF_ELSE(JS_INTERNAL_HAS_MORE_THAN_ONE_ARGS(__VA_ARGS__))
     (, JS_INTERNAL_DEFER2(JS_INTERNAL__MAP_SUPER)()(m, __VA_ARGS__))(, JS_INTERNAL_MAP_APPLY_SUPER(m, __VA_ARGS__))";
  (* H 4109 *)
  fn "JS_INTERNAL__MAP_SUPER" [] "JS_INTERNAL_MAP_SUPER";
  (* H 4111-4114 *)
  fnv "JS_INTERNAL_MAKE_SUPER_CLASSES" [] "JS_INTERNAL_IF_ELSE(JS_INTERNAL_HAS_MORE_THAN_ONE_ARGS(__VA_ARGS__))
     (JS_INTERNAL_EXPAND(JS_INTERNAL_EVAL(JS_INTERNAL_MAP_SUPER(JS::makeSuperInfo, __VA_ARGS__))))(
       JS_INTERNAL_MAP_APPLY_SUPER(JS::makeSuperInfo, __VA_ARGS__))";
  (* H 4116 *)
  fnv "JS_SUPER" [] "JS::makeTuple(JS_INTERNAL_EXPAND(JS_INTERNAL_MAKE_SUPER_CLASSES(__VA_ARGS__)))";
  (* H 4118-4131 *)
  fn "JS_OBJECT_INTERNAL_IMPL" ["super_list"; "member_list"] "template <typename JS_OBJECT_T>
     struct JsonStructBase
     {
       using TT = decltype(member_list);
       static inline constexpr const TT js_static_meta_data_info()
       {
         return member_list;
       }
       static inline constexpr const decltype(super_list) js_static_meta_super_info()
       {
         return super_list;
       }
     }";
  (* H 4133-4152 *)
  fn "JS_OBJECT_EXTERNAL_INTERNAL_IMPL" ["Type"; "super_list"; "member_list"] "namespace JS
     {
     namespace Internal
     {
     template <typename JS_OBJECT_T>
     struct JsonStructBaseDummy<Type, JS_OBJECT_T>
     {
       using TT = decltype(member_list);
       static constexpr const TT js_static_meta_data_info()
       {
         return member_list;
       }
       static constexpr const decltype(super_list) js_static_meta_super_info()
       {
         return super_list;
       }
     };
     }
     }";
  (* H 4154 *)
  fnv "JS_OBJECT" [] "JS_OBJECT_INTERNAL_IMPL(JS::makeTuple(), JS::makeTuple(__VA_ARGS__))";
  (* H 4155 *)
  fnv "JS_OBJECT_WITH_SUPER" ["super_list"] "JS_OBJECT_INTERNAL_IMPL(super_list, JS::makeTuple(__VA_ARGS__))";
  (* H 4157-4158 *)
  fnv "JS_OBJECT_EXTERNAL" ["Type"] "JS_OBJECT_EXTERNAL_INTERNAL_IMPL(Type, JS::makeTuple(), JS::makeTuple(__VA_ARGS__))";
  (* H 4159-4160 *)
  fnv "JS_OBJECT_EXTERNAL_WITH_SUPER" ["Type"; "super_list"] "JS_OBJECT_EXTERNAL_INTERNAL_IMPL(Type, super_list, JS::makeTuple(__VA_ARGS__))";
  (* H 4162 *)
  fnv "JS_OBJ" [] "JS_OBJECT_INTERNAL_IMPL(JS::makeTuple(), JS::makeTuple(JS_INTERNAL_MAKE_MEMBERS(__VA_ARGS__)))";
  (* H 4163-4164 *)
  fnv "JS_OBJ_SUPER" ["super_list"] "JS_OBJECT_INTERNAL_IMPL(super_list, JS::makeTuple(JS_INTERNAL_MAKE_MEMBERS(__VA_ARGS__)))";
  (* H 4166-4167 *)
  fnv "JS_OBJ_EXT" ["Type"] "JS_OBJECT_EXTERNAL_INTERNAL_IMPL(Type, JS::makeTuple(), JS::makeTuple(JS_INTERNAL_MAKE_MEMBERS(__VA_ARGS__)))";
  (* H 4168-4169 *)
  fnv "JS_OBJ_EXT_SUPER" ["Type"; "super_list"] "JS_OBJECT_EXTERNAL_INTERNAL_IMPL(Type, super_list, JS::makeTuple(JS_INTERNAL_MAKE_MEMBERS(__VA_ARGS__)))";
  (* H 4962 *)
  fn "JS_FUNCTION" ["name"] "JS::makeFunctionInfo(#name, &JS_CONTAINER_STRUCT_T::name)";
  (* H 4963 *)
  fnv "JS_FUNCTION_ALIASES" ["name"] "JS::makeFunctionInfo(#name, &JS_CONTAINER_STRUCT_T::name, __VA_ARGS__)";
  (* H 4964 *)
  fn "JS_FUNCTION_WITH_NAME" ["member"; "name"] "JS::makeFunctionInfo(name, &JS_CONTAINER_STRUCT_T::member)";
  (* H 4965-4966 *)
  fnv "JS_FUNCTION_WITH_NAME_ALIASES" ["member"; "name"] "JS::makeFunctionInfo(name, &JS_CONTAINER_STRUCT_T::member, __VA_ARGS__)";
  (* H 4968 *)
  fn "JS_INTERNAL_MAP_APPLY_FUNCTION" ["m"; "first"] "m(#first, &JS_CONTAINER_STRUCT_T::first)";
  (* H 4970-4973 *)
  fnv "JS_INTERNAL_MAP_FUNCTION" ["m"; "first"] "JS_INTERNAL_MAP_APPLY_FUNCTION(m, first)
     JS_INTERNAL_IF_ELSE(JS_INTERNAL_HAS_MORE_THAN_ONE_ARGS(__VA_ARGS__))
     (, JS_INTERNAL_DEFER2(JS_INTERNAL__MAP_FUNCTION)()(m, __VA_ARGS__))(, JS_INTERNAL_MAP_APPLY_FUNCTION(m, __VA_ARGS__))";
  (* H 4975 *)
  fn "JS_INTERNAL__MAP_FUNCTION" [] "JS_INTERNAL_MAP_FUNCTION";
  (* H 4977-4980 *)
  fnv "JS_INTERNAL_MAKE_FUNCTIONS" [] "JS_INTERNAL_IF_ELSE(JS_INTERNAL_HAS_MORE_THAN_ONE_ARGS(__VA_ARGS__))
     (JS_INTERNAL_EXPAND(JS_INTERNAL_EVAL(JS_INTERNAL_MAP_FUNCTION(JS::makeFunctionInfo, __VA_ARGS__))))(
       JS_INTERNAL_MAP_APPLY_FUNCTION(JS::makeFunctionInfo, __VA_ARGS__))";
  (* H 4982-4996 *)
  fn "JS_FUNCTION_CONTAINER_INTERNAL_IMPL" ["super_list"; "function_list"] "template <typename JS_CONTAINER_STRUCT_T>
     struct JsonStructFunctionContainer
     {
       using TT = decltype(function_list);
       static const TT &js_static_meta_functions_info()
       {
         static auto ret = function_list;
         return ret;
       }
       static const decltype(super_list) js_static_meta_super_info()
       {
         return super_list;
       }
     }";
  (* H 4998-5018 *)
  fn "JS_FUNCTION_CONTAINER_EXTERNAL_INTERNAL_IMPL" ["Type"; "super_list"; "function_list"] "namespace JS
     {
     namespace Internal
     {
     template <typename JS_CONTAINER_STRUCT_T>
     struct JsonStructFunctionContainerDummy<Type, JS_CONTAINER_STRUCT_T>
     {
       using TT = decltype(function_list);
       static const TT &js_static_meta_functions_info()
       {
         static auto ret = function_list;
         return ret;
       }
       static const decltype(super_list) js_static_meta_super_info()
       {
         return super_list;
       }
     };
     }
     }";
  (* H 5020-5021 *)
  fnv "JS_FUNC_OBJ" [] "JS_FUNCTION_CONTAINER_INTERNAL_IMPL(JS::makeTuple(), JS::makeTuple(JS_INTERNAL_MAKE_FUNCTIONS(__VA_ARGS__)))";
  (* H 5022 *)
  fnv "JS_FUNCTION_CONTAINER" [] "JS_FUNCTION_CONTAINER_INTERNAL_IMPL(JS::makeTuple(), JS::makeTuple(__VA_ARGS__))";
  (* H 5023-5024 *)
  fnv "JS_FUNC_OBJ_SUPER" ["super_list"] "JS_FUNCTION_CONTAINER_INTERNAL_IMPL(super_list, JS::makeTuple(JS_INTERNAL_MAKE_FUNCTIONS(__VA_ARGS__)))";
  (* H 5025-5026 *)
  fnv "JS_FUNCTION_CONTAINER_WITH_SUPER" ["super_list"] "JS_FUNCTION_CONTAINER_INTERNAL_IMPL(super_list, JS::makeTuple(__VA_ARGS__))";
  (* H 5027-5028 *)
  fn "JS_FUNCTION_CONTAINER_WITH_SUPER_WITHOUT_MEMBERS" ["super_list"] "JS_FUNCTION_CONTAINER_INTERNAL_IMPL(super_list, JS::makeTuple())";
  (* H 5030-5032 *)
  fnv "JS_FUNC_OBJ_EXTERNAL" ["Type"] "JS_FUNCTION_CONTAINER_EXTERNAL_INTERNAL_IMPL(Type, JS::makeTuple(),
                                                  JS::makeTuple(JS_INTERNAL_MAKE_FUNCTIONS(__VA_ARGS__)))";
  (* H 5033-5034 *)
  fnv "JS_FUNCTION_CONTAINER_EXTERNAL" ["Type"] "JS_FUNCTION_CONTAINER_EXTERNAL_INTERNAL_IMPL(Type, JS::makeTuple(), JS::makeTuple(__VA_ARGS__))";
  (* H 5035-5036 *)
  fnv "JS_FUNC_OBJ_EXTERNAL_SUPER" ["Type"; "super_list"] "JS_FUNCTION_CONTAINER_EXTERNAL_INTERNAL_IMPL(Type, super_list, JS::makeTuple(JS_INTERNAL_MAKE_FUNCTIONS(__VA_ARGS__)))";
  (* H 5037-5038 *)
  fnv "JS_FUNCTION_CONTAINER_EXTERNAL_WITH_SUPER" ["Type"; "super_list"] "JS_FUNCTION_CONTAINER_EXTERNAL_INTERNAL_IMPL(Type, super_list, JS::makeTuple(__VA_ARGS__))";
  (* H 5040-5041 *)
  fn "JS_FUNCTION_CONTAINER_EXTERNAL_WITH_SUPER_WITHOUT_MEMBERS" ["Type"; "super_list"] "JS_FUNCTION_CONTAINER_EXTERNAL_INTERNAL_IMPL(Type, super_list, JS::makeTuple())"
].

Fixpoint find_macro (n : bytes) (l : list (bytes * macro)) : option macro :=
  match l with
  | [] => None
  | (m, d) :: r => if bytes_eqb n m then Some d else find_macro n r
  end.

Definition macro_of (n : bytes) : option macro := find_macro n table.

(** What the preprocessor makes of a text with the macros of the header. *)
Definition preprocess (fuel : nat) (ts : list ptok) : outcome (list ptok) := run macro_of fuel [] (map T ts).
