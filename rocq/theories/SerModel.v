(** Serialization of AST nodes to text: base/components/code_serialization.cpp, the inline serializers of
    base/components/inlines.hpp:7-314 and code_to_strbuilder of base/components/ast.cpp:379-608.
    A function that appends to a StrBuilder is modelled by the text it appends (that appending concatenates is
    C17-C19). Logging is dropped. The configuration is the default one (GEN_USE_NEW_TYPENAME_PARSING and
    GEN_DONT_ALLOW_INVALID_CODE not defined). [fuel] bounds the recursion depth and the length of the Next
    chains that are walked; a call that needs more gives [NoFuel]. *)
From Coq Require Import String ZArith List Bool.
From Verif Require Import Common Text ArrayModel StrOpsModel EnumModel AstModel.
Import ListNotations.
Close Scope string_scope.
Open Scope Z_scope.

Notation text := (list Z) (only parsing).

(** ** strbuilder_append_fmt (strings.hpp:372-385), for the conversions that serialization uses *)
(** the parts of a format: literal text, or the value of a %S, %SB, %.*s or %*s conversion. [V] is a value
    whose pointer is not null. [N] is the Name or Content of a node: the empty one is the null Str that
    make_code leaves there (interface.cpp:454-472), which prints as "(null)" (printing.cpp _print_string). *)
Inductive part := L (s : string) | V (t : text) | N (t : text).
(** count_of(buf) - 1 with GEN_PRINTF_MAXLEN = kilobytes(128) (printing.hpp:10-13) *)
Definition FMT_ROOM : Z := 128 * 1024 - 1.
Definition part_text (p : part) : text := match p with L s => txt s | V t => t | N [] => txt "(null)" | N t => t end.
(** c_str_fmt_va (printing.cpp:286-577): a value longer than what remains is left out (printing.cpp
    _print_string); literal text is not counted *)
Fixpoint fmt_out (remaining : Z) (ps : list part) : text :=
  match ps with
  | [] => []
  | L s :: r => txt s ++ fmt_out remaining r
  | p :: r => let t := part_text p in
              if Z.of_nat (List.length t) >? remaining then fmt_out remaining r else t ++ fmt_out (remaining - Z.of_nat (List.length t)) r
  end.
(** when the text and its NUL fill the buffer, -1 is returned and strbuilder_append_c_str_len is given the
    length -2; before that the literal loop may not end or may write past the buffer *)
Definition append_fmt (ps : list part) : run text :=
  let out := fmt_out FMT_ROOM ps in
  if Z.of_nat (List.length out) + 1 >=? FMT_ROOM then Undefined else Done out.
Definition lit (s : string) : run text := Done (txt s).
Definition nothing : run text := Done [].
(** one append after the other *)
Fixpoint cat (rs : list (run text)) : run text :=
  match rs with [] => Done [] | r :: rs => do a <- r; do b <- cat rs; Done (a ++ b) end.

(** [! self->Name.Len] *)
Definition unnamed (n : node) : bool := match n_name n with [] => true | _ => false end.
(** macros.hpp:46-47 bitfield_is_set, for ModuleFlags *)
Definition flag_set (n : node) (f : Z) : bool := Z.land (n_flags n) f =? f.
Definition export_kw (n : node) : run text := if flag_set n ModuleFlag_Export then lit "export " else nothing.
(** inlines.hpp:7-14 attributes_to_strbuilder *)
Definition content_of (h : heap) (c : Z) : run text := do n <- get h c; Done (n_content n).
Definition name_of (h : heap) (c : Z) : run text := do n <- get h c; Done (n_name n).
(** [self->Specs && specifiers_has(self->Specs, spec)] *)
Definition has_spec (h : heap) (specs spec : Z) : run bool := do s <- get h specs; specifiers_has s spec.
(** "self->Parent == nullptr || ( Parent->Type != CT_Typedef && Parent->Type != CT_Variable )" *)
Definition ends_statement (h : heap) (n : node) : run bool :=
  if n_parent n =? 0 then Done true else
  do p <- get h (n_parent n); Done (negb (ct_eqb (n_type p) CT_Typedef) && negb (ct_eqb (n_type p) CT_Variable)).

(** for ( c ; c ; c = c->Next ) append f(c) *)
Fixpoint next_loop (lf : nat) (h : heap) (f : Z -> run text) (c : Z) : run text :=
  match lf with O => NoFuel | S lf =>
    if c =? 0 then Done [] else
    do a <- f c; do n <- get h c; do b <- next_loop lf h f (n_next n); Done (a ++ b)
  end.
(** the entries of a specifier list from index [idx], [left] of them (begin/end/next_CodeSpecifiers,
    inlines.hpp:669-690) *)
Fixpoint spec_loop (left : nat) (s : node) (f : Z -> run text) (idx : Z) : run text :=
  match left with
  | O => Done []
  | S k => do sp <- arr_at s idx; do a <- f sp; do b <- spec_loop k s f (idx + 1); Done (a ++ b)
  end.
Definition for_specs (h : heap) (specs : Z) (f : Z -> run text) : run text :=
  do s <- get h specs; spec_loop (Z.to_nat (n_num s)) s f 0.
(** the loop that is repeated in the function, operator and cast serializers: " %.*s" for each specifier that
    [sel] selects *)
Definition spaced_specs (h : heap) (specs : Z) (sel : Z -> bool) : run text :=
  if specs =? 0 then nothing else
  for_specs h specs (fun sp => if sel sp then do t <- spec_to_str sp; append_fmt [L " "; V t] else nothing).
(** some specifier of the list is selected (the variable prefix_specs) *)
Fixpoint any_spec (left : nat) (s : node) (sel : Z -> bool) (idx : Z) : run bool :=
  match left with
  | O => Done false
  | S k => do sp <- arr_at s idx; do b <- any_spec k s sel (idx + 1); Done (sel sp || b)
  end.
Definition some_spec (h : heap) (specs : Z) (sel : Z -> bool) : run bool :=
  if specs =? 0 then Done false else do s <- get h specs; any_spec (Z.to_nat (n_num s)) s sel 0.
Definition not_trailing (sp : Z) : bool := negb (spec_is_trailing sp).
(** ModuleFlags, attributes and inline comment tails that many serializers share *)
Definition attrs_sp (h : heap) (n : node) : run text :=
  if n_attrs n =? 0 then nothing else do a <- content_of h (n_attrs n); append_fmt [V a; L " "].
Definition nl : string := String (Ascii.ascii_of_nat 10) EmptyString.
Definition line (s : string) : string := (s ++ nl)%string.
(** [";  %S"] with the inline comment, or [";\n"] *)
Definition semi_or_comment (h : heap) (n : node) : run text :=
  if n_inline n =? 0 then lit (line ";") else do c <- content_of h (n_inline n); append_fmt [L ";  "; N c].

(** which C function is called *)
Inductive fn := F_code | F_body | F_typename | F_params | F_define_params | F_specifiers | F_var.

Section Step.
(** the recursive calls: [rec F_typename c] is typename_to_strbuilder(c), and so on *)
Variable rec : fn -> Z -> run text.
Variable lf : nat.
Variable h : heap.

(** "\n{\n%SB\n}" around the text of the body *)
Definition braces_open : string := (nl ++ "{" ++ nl)%string.
Definition braces_close : string := (nl ++ "}")%string.
Definition in_braces (body : run text) : run text := do t <- body; append_fmt [L braces_open; V t; L braces_close].
Definition in_braces_nl (body : run text) : run text := do t <- body; append_fmt [L braces_open; V t; L (line braces_close)].

(** inlines.hpp:30-44; a negative count is not modelled *)
Fixpoint body_loop (left : nat) (curr : Z) : run text :=
  match left with
  | O => Done []
  | S k => do a <- rec F_code curr; do n <- get h curr; do b <- body_loop k (n_next n); Done (a ++ b)
  end.
Definition body_ref (b : node) : run text :=
  if n_num b <? 0 then Undefined else body_loop (Z.to_nat (n_num b)) (n_front b).
(** code_serialization.cpp:35-51: the loop starts at the body itself *)
Definition body_export (self : Z) (b : node) : run text :=
  if n_num b <? 0 then Undefined else
  cat [lit ("export" ++ braces_open); body_loop (Z.to_nat (n_num b)) self; lit (line "};")].
(** code_serialization.cpp:6-33 body_to_strbuilder *)
Definition is_plain_body (t : codetype) : bool :=
  match t with
  | CT_Enum_Body | CT_Class_Body | CT_Extern_Linkage_Body | CT_Function_Body | CT_Global_Body | CT_Namespace_Body
  | CT_Struct_Body | CT_Union_Body => true
  | _ => false
  end.
Definition body_to (self : Z) : run text :=
  do b <- get h self;
  match n_type b with
  | CT_Untyped | CT_Execution => Done (n_content b)
  | CT_Export_Body => body_export self b
  | t => if is_plain_body t then body_ref b else nothing
  end.

(** code_serialization.cpp:69-122 *)
Definition ctor_head (n : node) : run text :=
  do p <- get h (n_parent n);
  cat [ (if n_parent p =? 0 then Done (n_name n) else name_of h (n_parent p));
        (if n_params n =? 0 then lit "()" else do t <- rec F_params (n_params n); append_fmt [L "( "; V t; L " )"]) ].
Definition ctor_def (n : node) : run text :=
  cat [ ctor_head n;
        (if n_ret n =? 0 then nothing else do t <- rec F_code (n_ret n); append_fmt [L " : "; V t]);
        (if n_inline n =? 0 then nothing else do c <- content_of h (n_inline n); append_fmt [L " // "; N c]);
        in_braces_nl (rec F_code (n_body n)) ].
Definition ctor_fwd (n : node) : run text :=
  cat [ ctor_head n;
        (if n_body n =? 0 then nothing else do t <- rec F_code (n_body n); append_fmt [L " = "; V t]);
        (if n_inline n =? 0 then lit (line ";") else do c <- content_of h (n_inline n); append_fmt [L "; // "; N c; L nl]) ].

(** the end of struct, class, union and enum definitions *)
Definition end_def (n : node) : run text := do e <- ends_statement h n; if e then lit (line ";") else nothing.

(** code_serialization.cpp:140-195. With a ParentType the format " : %S %SB" gets three arguments: the second
    conversion takes the pointer of the access level's string literal for a StrBuilder, whose header is then
    read from in front of that literal *)
Definition class_def (n : node) : run text :=
  cat [ export_kw n; lit "class "; attrs_sp h n; Done (n_name n);
        (if n_specs n =? 0 then nothing else do f <- has_spec h (n_specs n) Spec_Final; if f then lit " final" else nothing);
        (if n_ret n =? 0 then nothing else Undefined);
        (if n_inline n =? 0 then nothing else do c <- content_of h (n_inline n); append_fmt [L " // "; N c]);
        in_braces (rec F_body (n_body n)); end_def n ].
(** code_serialization.cpp:197-219 *)
Definition class_fwd (n : node) : run text :=
  cat [ export_kw n;
        (if n_attrs n =? 0 then append_fmt [L "class "; N (n_name n)]
         else do a <- content_of h (n_attrs n); append_fmt [L "class "; V a; L " "; N (n_name n)]);
        (do e <- ends_statement h n;
         if e then (if n_inline n =? 0 then lit (line ";") else do c <- content_of h (n_inline n); append_fmt [L "; // "; N c; L nl])
         else nothing) ].

(** code_serialization.cpp:221-233 *)
Definition define_ref (n : node) : run text :=
  do b <- get h (n_body n);
  if n_params n =? 0 then append_fmt [L "#define "; N (n_name n); L " "; N (n_content b)]
  else do p <- rec F_define_params (n_params n); append_fmt [L "#define "; N (n_name n); L "("; V p; L ") "; N (n_content b)].
(** code_serialization.cpp:235-250 *)
Definition define_params_ref (n : node) : run text :=
  cat [ (if unnamed n then nothing else append_fmt [L " "; N (n_name n)]);
        (if n_num n - 1 >? 0 then next_loop lf h (fun p => do t <- rec F_define_params p; append_fmt [L ", "; V t]) (n_next n) else nothing) ].

(** code_serialization.cpp:268-312 *)
Definition dtor_def (n : node) : run text :=
  cat [ (if unnamed n then
           do v <- (if n_specs n =? 0 then Done false else has_spec h (n_specs n) Spec_Virtual);
           do p <- name_of h (n_parent n);
           if v then append_fmt [L "virtual ~"; N p; L "()"] else append_fmt [L "~"; N p; L "()"]
         else append_fmt [N (n_name n); L "()"]);
        in_braces_nl (rec F_code (n_body n)) ].
Definition dtor_fwd (n : node) : run text :=
  cat [ (if n_specs n =? 0 then do p <- name_of h (n_parent n); append_fmt [L "~"; N p; L "();"]
         else
           cat [ (do v <- has_spec h (n_specs n) Spec_Virtual; do p <- name_of h (n_parent n);
                  if v then append_fmt [L "virtual ~"; N p; L (line "();")] else append_fmt [L "~"; N p; L "()"]);
                 (do pure <- has_spec h (n_specs n) Spec_Pure;
                  if pure then lit " = 0;"
                  else if n_body n =? 0 then nothing else do t <- rec F_code (n_body n); append_fmt [L " = "; V t; L ";"]) ]);
        (if n_inline n =? 0 then lit nl else do c <- content_of h (n_inline n); append_fmt [L "  "; N c]) ].

(** code_serialization.cpp:334-361, 363-391, 393-425, 427-451 *)
Definition enum_def (n : node) : run text :=
  cat [ export_kw n;
        (if negb (n_attrs n =? 0) || negb (n_ret n =? 0) || negb (n_params n =? 0) then
           cat [ lit "enum "; attrs_sp h n;
                 (if negb (n_ret n =? 0) then
                    do t <- rec F_typename (n_ret n); do b <- rec F_body (n_body n);
                    append_fmt [N (n_name n); L " : "; V t; L braces_open; V b; L braces_close]
                  else if negb (n_params n =? 0) then
                    do t <- rec F_code (n_params n); do b <- rec F_body (n_body n);
                    append_fmt [N (n_name n); L " "; V t; L braces_open; V b; L braces_close]
                  else do b <- rec F_body (n_body n); append_fmt [N (n_name n); L braces_open; V b; L braces_close]) ]
         else do b <- rec F_body (n_body n); append_fmt [L "enum "; N (n_name n); L braces_open; V b; L braces_close]);
        end_def n ].
Definition enum_fwd (n : node) : run text :=
  cat [ export_kw n; attrs_sp h n;
        (if negb (n_ret n =? 0) then do t <- rec F_typename (n_ret n); append_fmt [L "enum "; N (n_name n); L " : "; V t]
         else if negb (n_params n =? 0) then do t <- rec F_code (n_params n); append_fmt [L "enum "; N (n_name n); L " "; V t]
         else append_fmt [L "enum "; N (n_name n)]);
        (do e <- ends_statement h n; if e then semi_or_comment h n else nothing) ].
Definition enum_class_def (n : node) : run text :=
  cat [ export_kw n;
        (if negb (n_attrs n =? 0) || negb (n_ret n =? 0) then
           cat [ lit "enum class "; attrs_sp h n;
                 (if negb (n_ret n =? 0) then
                    do t <- rec F_typename (n_ret n); do b <- rec F_body (n_body n);
                    append_fmt [N (n_name n); L " : "; V t; L braces_open; V b; L braces_close]
                  else do b <- rec F_body (n_body n); append_fmt [N (n_name n); L braces_open; V b; L braces_close]) ]
         else do b <- rec F_body (n_body n); append_fmt [L "enum "; N (n_name n); L braces_open; V b; L braces_close]);
        end_def n ].
Definition enum_class_fwd (n : node) : run text :=
  cat [ export_kw n; lit "enum class "; attrs_sp h n;
        (do t <- rec F_typename (n_ret n); append_fmt [N (n_name n); L " : "; V t]);
        (do e <- ends_statement h n; if e then semi_or_comment h n else nothing) ].

(** inlines.hpp:86-95 *)
Definition extern_to (n : node) : run text :=
  if n_body n =? 0 then append_fmt [L "extern """; N (n_name n); L ("""" ++ nl ++ "{}" ++ nl)]
  else do b <- rec F_body (n_body n);
       append_fmt [L "extern """; N (n_name n); L ("""" ++ braces_open); V b; L (line braces_close)].

(** inlines.hpp:106-123; the last character tested is that of "friend ..." *)
Definition friend_ref (n : node) : run text :=
  do t <- (do d <- rec F_code (n_body n); append_fmt [L "friend "; V d]);
  do d <- get h (n_body n);
  cat [ Done t;
        (if negb (ct_eqb (n_type d) CT_Function) && negb (ct_eqb (n_type d) CT_Operator) && negb (last t 0 =? 59) then lit ";" else nothing);
        (if n_inline n =? 0 then lit nl else do c <- content_of h (n_inline n); append_fmt [L "  "; N c]) ].

(** "ret name(" params ")" of a function; [sp] is what stands between the name and the parenthesis *)
Definition params_close (n : node) : run text :=
  if n_params n =? 0 then lit ")" else do t <- rec F_params (n_params n); append_fmt [V t; L ")"].
Definition fn_sig (n : node) : run text :=
  cat [ (if n_ret n =? 0 then append_fmt [N (n_name n); L "("]
         else do t <- rec F_typename (n_ret n); append_fmt [V t; L " "; N (n_name n); L "("]);
        params_close n ].
Definition suffix_specs (n : node) : run text :=
  if n_suffix n =? 0 then nothing else do t <- rec F_code (n_suffix n); append_fmt [L " "; V t].
(** code_serialization.cpp:469-525 *)
Definition fn_def (n : node) : run text :=
  cat [ (if flag_set n ModuleFlag_Export then lit "export" else nothing);
        (if n_attrs n =? 0 then nothing else do a <- content_of h (n_attrs n); append_fmt [L " "; V a; L " "]);
        spaced_specs h (n_specs n) not_trailing;
        (do p <- some_spec h (n_specs n) not_trailing; if negb (n_attrs n =? 0) || p then lit nl else nothing);
        fn_sig n;
        spaced_specs h (n_specs n) spec_is_trailing;
        suffix_specs n;
        in_braces_nl (rec F_body (n_body n)) ].
(** code_serialization.cpp:527-597 *)
Definition fwd_prefix (sp : Z) : bool := negb (spec_is_trailing sp) || (sp =? Spec_Pure).
Definition fn_fwd (n : node) : run text :=
  cat [ export_kw n; attrs_sp h n;
        spaced_specs h (n_specs n) fwd_prefix;
        (do p <- some_spec h (n_specs n) fwd_prefix; if negb (n_attrs n =? 0) || p then lit nl else nothing);
        fn_sig n;
        spaced_specs h (n_specs n) spec_is_trailing;
        (if n_specs n =? 0 then nothing else
           do pure <- has_spec h (n_specs n) Spec_Pure; if pure then lit " = 0" else
           do del <- has_spec h (n_specs n) Spec_Delete; if del then lit " = delete" else nothing);
        suffix_specs n;
        (if n_body n =? 0 then nothing else do b <- rec F_body (n_body n); append_fmt [L " = "; V b; L ";"]);
        semi_or_comment h n ].

(** code_serialization.cpp:599-611 *)
Definition module_ref (n : node) : run text :=
  cat [ export_kw n; (if flag_set n ModuleFlag_Import then lit "import " else nothing); append_fmt [N (n_name n); L (line ";")] ].
(** inlines.hpp:157-166 *)
Definition namespace_ref (n : node) : run text :=
  cat [ export_kw n; (do b <- rec F_body (n_body n); append_fmt [L "namespace "; N (n_name n); L braces_open; V b; L (line braces_close)]) ].

(** code_serialization.cpp:632-690: the attributes are appended twice *)
Definition op_def (n : node) : run text :=
  cat [ export_kw n; attrs_sp h n; attrs_sp h n;
        spaced_specs h (n_specs n) not_trailing;
        (if negb (n_attrs n =? 0) || negb (n_specs n =? 0) then lit nl else nothing);
        (if n_ret n =? 0 then nothing else do t <- rec F_typename (n_ret n); append_fmt [V t; L " "; N (n_name n); L " ("]);
        params_close n;
        spaced_specs h (n_specs n) spec_is_trailing;
        in_braces_nl (rec F_body (n_body n)) ].
(** code_serialization.cpp:692-741 *)
Definition op_fwd (n : node) : run text :=
  cat [ export_kw n;
        (if n_attrs n =? 0 then nothing else do a <- content_of h (n_attrs n); append_fmt [V a; L nl]);
        spaced_specs h (n_specs n) not_trailing;
        (if negb (n_attrs n =? 0) || negb (n_specs n =? 0) then lit nl else nothing);
        (do t <- rec F_typename (n_ret n); append_fmt [V t; L " "; N (n_name n); L " ("]);
        params_close n;
        spaced_specs h (n_specs n) spec_is_trailing;
        semi_or_comment h n ].

(** code_serialization.cpp:757-784. "%*s" with the specifier's own length as width prints the specifier *)
Definition opcast_specs (n : node) : run text :=
  if n_specs n =? 0 then nothing else
  for_specs h (n_specs n) (fun sp => if not_trailing sp then do t <- spec_to_str sp; append_fmt [V t; L " "] else nothing).
Definition opcast_def (n : node) : run text :=
  cat [ opcast_specs n;
        (do t <- rec F_typename (n_ret n);
         if unnamed n then append_fmt [L "operator "; V t; L "()"] else append_fmt [N (n_name n); L " operator "; V t; L "()"]);
        spaced_specs h (n_specs n) spec_is_trailing;
        in_braces_nl (rec F_body (n_body n)) ].
(** code_serialization.cpp:786-828: without specifiers and with an inline comment the second "%SB" has no
    argument *)
Definition opcast_fwd (n : node) : run text :=
  if n_specs n =? 0 then
    if n_inline n =? 0 then do t <- rec F_typename (n_ret n); append_fmt [L "operator "; V t; L (line "();")] else Undefined
  else
  cat [ opcast_specs n;
        (do t <- rec F_typename (n_ret n); append_fmt [L "operator "; V t; L "()"]);
        spaced_specs h (n_specs n) spec_is_trailing;
        semi_or_comment h n ].

(** code_serialization.cpp:830-870 *)
Definition params_ref (n : node) : run text :=
  cat [ (if n_params n =? 0 then nothing else content_of h (n_params n));
        (match n_name n with
         | [] => if n_ret n =? 0 then nothing else do t <- rec F_typename (n_ret n); append_fmt [L " "; V t]
         | _ => if n_ret n =? 0 then append_fmt [L " "; N (n_name n)]
                else do t <- rec F_typename (n_ret n); append_fmt [L " "; V t; L " "; N (n_name n)]
         end);
        (if n_suffix n =? 0 then nothing else do t <- rec F_code (n_suffix n); append_fmt [L " "; V t]);
        (if n_body n =? 0 then nothing else do t <- rec F_code (n_body n); append_fmt [L " = "; V t]);
        (if n_num n - 1 >? 0 then next_loop lf h (fun p => do t <- rec F_params p; append_fmt [L ", "; V t]) (n_next n) else nothing) ].

(** code_serialization.cpp:900-925 *)
Definition glued (sp : Z) : bool := (sp =? Spec_Ptr) || (sp =? Spec_Ref) || (sp =? Spec_RValue).
Fixpoint specifiers_loop (left : nat) (s : node) (idx : Z) : run text :=
  match left with
  | O => lit " "
  | S k =>
      do sp <- arr_at s idx; do t <- spec_to_str sp;
      do a <- append_fmt [V t]; do b <- specifiers_loop k s (idx + 1);
      Done ((if (idx >? 0) && negb (glued sp) then txt " " else []) ++ a ++ b)
  end.
Definition specifiers_ref (s : node) : run text := specifiers_loop (Z.to_nat (n_num s)) s 0.

(** code_serialization.cpp:944-989 *)
Definition struct_def (n : node) : run text :=
  cat [ export_kw n; lit "struct "; attrs_sp h n; Done (n_name n);
        (if n_specs n =? 0 then nothing else do f <- has_spec h (n_specs n) Spec_Final; if f then lit " final" else nothing);
        (if n_ret n =? 0 then nothing else
           cat [ (do a <- access_spec_to_str (n_num n); do t <- rec F_typename (n_ret n); append_fmt [L " : "; V a; L " "; V t]);
                 (do p <- get h (n_ret n);
                  cat [ (if n_next p =? 0 then nothing else lit nl);
                        next_loop lf h (fun i => do t <- rec F_typename i; append_fmt [L ", "; V t]) (n_next p) ]) ]);
        (if n_inline n =? 0 then nothing else do c <- content_of h (n_inline n); append_fmt [L " // "; N c]);
        in_braces (rec F_body (n_body n)); end_def n ].
(** code_serialization.cpp:991-1010 *)
Definition struct_fwd (n : node) : run text :=
  cat [ export_kw n;
        (if n_attrs n =? 0 then append_fmt [L "struct "; N (n_name n)]
         else do a <- content_of h (n_attrs n); append_fmt [L "struct "; V a; L " "; N (n_name n)]);
        (do e <- ends_statement h n; if e then semi_or_comment h n else nothing) ].

(** code_serialization.cpp:1012-1023 *)
Definition template_ref (n : node) : run text :=
  cat [ export_kw n;
        (if n_params n =? 0 then do d <- rec F_code (n_body n); append_fmt [L (line "template<>"); V d]
         else do p <- rec F_params (n_params n); do d <- rec F_code (n_body n); append_fmt [L "template< "; V p; L (line " >"); V d]) ].

(** "[ %SB ]" and [tail] for the array expression and the ones chained to it *)
Definition array_exprs (e : Z) (tail : string) : run text :=
  next_loop lf h (fun a => do t <- rec F_code a; append_fmt [L "[ "; V t; L (" ]" ++ tail)]) e.
(** code_serialization.cpp:1025-1060 *)
Definition typedef_ref (n : node) : run text :=
  do u <- get h (n_ret n);
  cat [ export_kw n; lit "typedef ";
        (if n_ret u =? 0 then do t <- rec F_code (n_ret n); append_fmt [V t; L " "; N (n_name n)] else rec F_code (n_ret n));
        (if ct_eqb (n_type u) CT_Typename && negb (n_body u =? 0) then array_exprs (n_body u) ";" else lit ";");
        (if n_inline n =? 0 then lit nl else do c <- content_of h (n_inline n); append_fmt [L "  "; N c]) ].

(** ast.hpp:432-435, types.hpp:128-138: IsParamPack and TypeTag are the two halves of the node's number *)
Definition is_pack (n : node) : bool := negb (n_num n mod 2 ^ 16 =? 0).
Definition tag_text (n : node) : run text :=
  match n_num n / 2 ^ 16 with
  | 1 => lit "class " | 2 => lit "enum " | 3 => lit "struct " | 4 => lit "union " | _ => nothing
  end.
(** code_serialization.cpp:1062-1120 *)
Definition typename_ref (n : node) : run text :=
  if negb (n_ret n =? 0) && negb (n_params n =? 0) then
    if negb (n_attrs n =? 0) then do a <- content_of h (n_attrs n); append_fmt [V a; L " "]
    else
      do r <- rec F_typename (n_ret n); do p <- rec F_params (n_params n);
      if n_specs n =? 0 then append_fmt [V r; L " "; N (n_name n); L " ( "; V p; L " )"]
      else do s <- rec F_specifiers (n_specs n); append_fmt [V r; L " "; N (n_name n); L " ( "; V p; L " ) "; V s]
  else
  cat [ attrs_sp h n; tag_text n;
        (if n_specs n =? 0 then append_fmt [N (n_name n)] else do s <- rec F_specifiers (n_specs n); append_fmt [N (n_name n); L " "; V s]);
        (if is_pack n then lit "..." else nothing) ].

(** code_serialization.cpp:1138-1168, 1170-1190 *)
Definition union_def (n : node) : run text :=
  cat [ export_kw n; lit "union "; attrs_sp h n;
        (do b <- rec F_body (n_body n);
         append_fmt ((if unnamed n then [] else [N (n_name n)]) ++ [L braces_open; V b; L braces_close]));
        end_def n ].
Definition union_fwd (n : node) : run text :=
  cat [ export_kw n; lit "union "; attrs_sp h n; (if unnamed n then nothing else append_fmt [N (n_name n)]); end_def n ].

(** code_serialization.cpp:1192-1228 *)
Definition using_ref (n : node) : run text :=
  cat [ export_kw n; attrs_sp h n;
        (if n_ret n =? 0 then append_fmt [L "using "; N (n_name n); L ";"]
         else
           do u <- get h (n_ret n);
           cat [ (do t <- rec F_typename (n_ret n); append_fmt [L "using "; N (n_name n); L " = "; V t]);
                 array_exprs (n_body u) ""; lit ";" ]);
        (if n_inline n =? 0 then lit nl else do c <- content_of h (n_inline n); append_fmt [L "  "; N c; L nl]) ].
(** inlines.hpp:295-304: the format says "$S" *)
Definition using_ns (n : node) : run text :=
  if n_inline n =? 0 then append_fmt [L "using namespace "; N (n_name n); L (line ";")]
  else append_fmt [L "using namespace $S;  "; N (n_name n)].

(** code_serialization.cpp:1230-1349 *)
Definition var_arrays (n : node) : run text :=
  if n_ret n =? 0 then nothing else do t <- get h (n_ret n); array_exprs (n_body t) "".
Definition var_init (n : node) : run text :=
  cat [ (if n_body n =? 0 then nothing else
           do t <- rec F_code (n_body n);
           if n_num n =? 0 then append_fmt [L " = "; V t] else append_fmt [L "( "; V t; L " "]);
        (if n_suffix n =? 0 then nothing else do t <- rec F_var (n_suffix n); append_fmt [L ", "; V t]);
        (if n_num n =? 0 then nothing else lit " )") ].
Definition var_ref (n : node) : run text :=
  do nextvar <- (if n_parent n =? 0 then Done false else do p <- get h (n_parent n); Done (ct_eqb (n_type p) CT_Variable));
  if nextvar then
    cat [ (if n_specs n =? 0 then nothing else do s <- rec F_specifiers (n_specs n); append_fmt [V s; L " "]);
          Done (n_name n); var_arrays n; var_init n ]
  else
  cat [ export_kw n;
        (if negb (n_attrs n =? 0) || negb (n_specs n =? 0) then
           cat [ attrs_sp h n;
                 (if n_specs n =? 0 then nothing else do s <- rec F_specifiers (n_specs n); append_fmt [V s]);
                 (do t <- rec F_typename (n_ret n); append_fmt [V t; L " "; N (n_name n)]);
                 var_arrays n;
                 (if n_params n =? 0 then nothing else do b <- rec F_code (n_params n); append_fmt [L " : "; V b]);
                 var_init n; semi_or_comment h n ]
         else
           cat [ (if negb (n_params n =? 0) then
                    do t <- rec F_typename (n_ret n); do b <- rec F_code (n_params n); append_fmt [V t; L " "; N (n_name n); L " : "; V b]
                  else
                    do ty <- get h (n_ret n);
                    do t <- rec F_typename (n_ret n);
                    if negb (n_body ty =? 0) then
                      do e <- rec F_code (n_body ty); do a <- get h (n_body ty);
                      cat [ append_fmt [V t; L " "; N (n_name n); L "[ "; V e; L " ]"]; array_exprs (n_next a) "" ]
                    else append_fmt [V t; L " "; N (n_name n)]);
                 var_init n; lit ";";
                 (if n_inline n =? 0 then lit nl else do c <- content_of h (n_inline n); append_fmt [L "  "; N c]) ]) ].

(** ast.cpp:386-608 code_to_strbuilder_ref, with the one-line serializers of inlines.hpp:124-241. A kind
    without a case appends nothing. *)
Definition code_ref (self : Z) : run text :=
  do n <- get h self;
  match n_type n with
  | CT_Invalid => append_fmt [L "Invalid Code!"]
  | CT_NewLine => lit nl
  | CT_Untyped | CT_Execution | CT_Comment | CT_PlatformAttributes => Done (n_content n)
  | CT_Access_Private | CT_Access_Protected | CT_Access_Public => Done (n_name n)
  | CT_Class => class_def n | CT_Class_Fwd => class_fwd n
  | CT_Constructor => ctor_def n | CT_Constructor_Fwd => ctor_fwd n
  | CT_Destructor => dtor_def n | CT_Destructor_Fwd => dtor_fwd n
  | CT_Enum => enum_def n | CT_Enum_Fwd => enum_fwd n
  | CT_Enum_Class => enum_class_def n | CT_Enum_Class_Fwd => enum_class_fwd n
  | CT_Export_Body => body_export self n
  | CT_Extern_Linkage => extern_to n
  | CT_Friend => friend_ref n
  | CT_Function => fn_def n | CT_Function_Fwd => fn_fwd n
  | CT_Module => module_ref n
  | CT_Namespace => namespace_ref n
  | CT_Operator | CT_Operator_Member => op_def n
  | CT_Operator_Fwd | CT_Operator_Member_Fwd => op_fwd n
  | CT_Operator_Cast => opcast_def n | CT_Operator_Cast_Fwd => opcast_fwd n
  | CT_Parameters => params_ref n
  | CT_Parameters_Define => define_params_ref n
  | CT_Preprocess_Define => define_ref n
  | CT_Preprocess_If => append_fmt [L "#if "; N (n_content n)]
  | CT_Preprocess_IfDef => append_fmt [L "#ifdef "; N (n_content n); L nl]
  | CT_Preprocess_IfNotDef => append_fmt [L "#ifndef "; N (n_content n)]
  | CT_Preprocess_Include => append_fmt [L "#include "; N (n_content n); L nl]
  | CT_Preprocess_ElIf => append_fmt [L "#elif "; N (n_content n); L nl]
  | CT_Preprocess_Else => lit (line "#else")
  | CT_Preprocess_EndIf => lit (line "#endif")
  | CT_Preprocess_Pragma => append_fmt [L "#pragma "; N (n_content n); L nl]
  | CT_Specifiers => specifiers_ref n
  | CT_Struct => struct_def n | CT_Struct_Fwd => struct_fwd n
  | CT_Template => template_ref n
  | CT_Typedef => typedef_ref n
  | CT_Typename => typename_ref n
  | CT_Union => union_def n | CT_Union_Fwd => union_fwd n
  | CT_Using => using_ref n | CT_Using_Namespace => using_ns n
  | CT_Variable => var_ref n
  | t => if is_plain_body t then body_ref n else nothing
  end.

Definition ser_step (f : fn) (self : Z) : run text :=
  match f with
  | F_code => code_ref self
  | F_body => body_to self
  | F_typename => do n <- get h self; typename_ref n
  | F_params => do n <- get h self; params_ref n
  | F_define_params => do n <- get h self; define_params_ref n
  | F_specifiers => do n <- get h self; specifiers_ref n
  | F_var => do n <- get h self; var_ref n
  end.
End Step.

Fixpoint serialize (fuel : nat) (h : heap) (f : fn) (self : Z) : run text :=
  match fuel with O => NoFuel | S k => ser_step (serialize k h) k h f self end.
(** ast.cpp:379-384 code_to_strbuilder, code_serialization.cpp:6-33 body_to_strbuilder *)
Definition code_to_strbuilder (fuel : nat) (h : heap) (self : Z) : run text := serialize fuel h F_code self.
Definition body_to_strbuilder (fuel : nat) (h : heap) (self : Z) : run text := serialize fuel h F_body self.
