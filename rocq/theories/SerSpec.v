(** The C++ text of a piece of code, as a function of its content alone ([render]), and when a node of the
    heap holds that content ([holds]). *)
From Coq Require Import String ZArith List Bool.
From Verif Require Import Common Text EnumModel EnumSpec AstModel AstSpec.
Import ListNotations.
Close Scope string_scope.
Open Scope Z_scope.

Notation text := (list Z) (only parsing).
Definition NL : text := [10].

(** ** content *)
(** specifiers are given by their enumerators *)
Inductive tag := NoTag | TagClass | TagEnum | TagStruct | TagUnion.
Record typ := Type_ { ty_attrs : option text; ty_tag : tag; ty_name : text; ty_specs : option (list Z); ty_pack : bool }.
Record param := Param { p_type : option typ; p_name : text; p_value : option text }.
Inductive init := NoInit | InitEq (v : text) | InitParen (v : text).

Inductive tree :=
| Raw (t : text)                                            (* untyped, execution, comment, attributes, access label *)
| NewLine
| Block (entries : list tree)                               (* a body *)
| Namespace (export : bool) (name : text) (entries : list tree)
| Linkage (name : text) (entries : list tree)               (* extern "name" { ... } *)
| Struct (export : bool) (attrs : option text) (name : text) (final : bool)
         (parent : option (Z * typ * list typ)) (comment : option text) (entries : list tree)
| Class (export : bool) (attrs : option text) (name : text) (final : bool) (comment : option text) (entries : list tree)
| Union (export : bool) (attrs : option text) (name : text) (entries : list tree)
| Enum (export : bool) (attrs : option text) (name : text) (underlying : option typ) (entries : list tree)
| EnumClass (export : bool) (attrs : option text) (name : text) (underlying : typ) (entries : list tree)
| StructFwd (export : bool) (attrs : option text) (name : text) (comment : option text)
| ClassFwd (export : bool) (attrs : option text) (name : text) (comment : option text)
| UnionFwd (export : bool) (attrs : option text) (name : text)
| EnumFwd (export : bool) (attrs : option text) (name : text) (underlying : option typ) (comment : option text)
| EnumClassFwd (export : bool) (attrs : option text) (name : text) (underlying : typ) (comment : option text)
| Function (attrs : option text) (specs : option (list Z)) (ret : option typ) (name : text) (params : list param) (entries : list tree)
| FunctionFwd (export : bool) (attrs : option text) (specs : option (list Z)) (ret : option typ) (name : text) (params : list param)
              (comment : option text)
| Operator (export : bool) (specs : option (list Z)) (ret : typ) (name : text) (params : list param) (entries : list tree)
| OperatorFwd (export : bool) (attrs : option text) (specs : option (list Z)) (ret : typ) (name : text) (params : list param)
              (comment : option text)
| Cast (specs : option (list Z)) (ty : typ) (entries : list tree)
| CastFwd (specs : option (list Z)) (ty : typ)
| Constructor (class : text) (params : list param) (inits : option text) (comment : option text) (body : tree)
| ConstructorFwd (class : text) (params : list param) (value : option text) (comment : option text)
| Destructor (virtual : bool) (class : text) (body : tree)
| DestructorFwd (class : text)
| Typedef (export : bool) (ty : typ) (name : text) (comment : option text)
| Using (export : bool) (attrs : option text) (name : text) (ty : option (typ * list text)) (comment : option text)
| UsingNamespace (name : text)
| Var (export : bool) (attrs : option text) (specs : option (list Z)) (ty : typ) (name : text) (sizes : list text)
           (bits : option text) (value : init) (comment : option text)
| Template (export : bool) (params : list param) (decl : tree)
| Friend (decl : tree)
| Module (export import : bool) (name : text)
| Define (name body : text)
| IfDef (cond : text) | ElIf (cond : text) | Else | EndIf | Include (path : text) | Pragma (t : text).

(** ** its text *)
Definition when (b : bool) (s : string) : text := if b then txt s else [].
Definition with_ {A} (o : option A) (f : A -> text) : text := match o with Some a => f a | None => [] end.
Definition sp (t : text) : text := t ++ txt " ".
Definition braces (t : text) : text := NL ++ txt "{" ++ NL ++ t ++ NL ++ txt "}".
(** [;] and the end of the line, or [;] and a comment (which brings its own end of line) *)
Definition semi (comment : option text) : text :=
  txt ";" ++ match comment with None => NL | Some c => txt "  " ++ c end.
Definition spec_text (s : Z) : text :=
  match find (fun p => fst p =? s) specifier_spelling with Some (_, t) => txt t | None => [] end.
Definition trails (s : Z) : bool :=
  existsb (Z.eqb s) [Spec_Const; Spec_Final; Spec_NoExceptions; Spec_Override; Spec_Pure; Spec_Delete; Spec_Volatile].
Definition symbol (s : Z) : bool := existsb (Z.eqb s) [Spec_Ptr; Spec_Ref; Spec_RValue].
(** "const*& " : separated by spaces, but not before a symbol, and followed by one *)
Fixpoint more_specs (l : list Z) : text :=
  match l with [] => txt " " | s :: r => when (negb (symbol s)) " " ++ spec_text s ++ more_specs r end.
Definition specs_text (l : list Z) : text := match l with [] => txt " " | s :: r => spec_text s ++ more_specs r end.
(** " static inline" *)
Definition spec_words (sel : Z -> bool) (o : option (list Z)) : text :=
  with_ o (fun l => concat (map (fun s => txt " " ++ spec_text s) (filter sel l))).
Definition leading (s : Z) : bool := negb (trails s).
Definition selects (sel : Z -> bool) (o : option (list Z)) : bool := match o with Some l => existsb sel l | None => false end.
Definition present {A} (o : option A) : bool := match o with Some _ => true | None => false end.

Definition typ_text (t : typ) : text :=
  with_ (ty_attrs t) sp ++
  txt (match ty_tag t with NoTag => "" | TagClass => "class " | TagEnum => "enum " | TagStruct => "struct " | TagUnion => "union " end) ++
  ty_name t ++ with_ (ty_specs t) (fun l => txt " " ++ specs_text l) ++ when (ty_pack t) "...".
Definition param_text (p : param) : text :=
  with_ (p_type p) (fun t => txt " " ++ typ_text t) ++ match p_name p with [] => [] | n => txt " " ++ n end ++
  with_ (p_value p) (fun v => txt " = " ++ v).
Definition params_text (l : list param) : text :=
  match l with [] => [] | p :: r => param_text p ++ concat (map (fun q => txt ", " ++ param_text q) r) end.
Definition init_text (i : init) : text :=
  match i with NoInit => [] | InitEq v => txt " = " ++ v | InitParen v => txt "( " ++ v ++ txt "  )" end.
Definition sizes_text (l : list text) : text := concat (map (fun s => txt "[ " ++ s ++ txt " ]") l).
Definition access_text (a : Z) : text :=
  match find (fun p => fst p =? a) access_spelling with Some (_, t) => txt t | None => [] end.

(** a function or operator with its body: no [;] follows it *)
Definition is_def (t : tree) : bool := match t with Function _ _ _ _ _ _ | Operator _ _ _ _ _ _ => true | _ => false end.
Fixpoint render (t : tree) : text :=
  let entries l := concat (map render l) in
  match t with
  | Raw t => t
  | NewLine => NL
  | Block l => entries l
  | Namespace x name l => when x "export " ++ txt "namespace " ++ name ++ braces (entries l) ++ NL
  | Linkage name l => txt "extern """ ++ name ++ txt """" ++ braces (entries l) ++ NL
  | Struct x at_ name final parent cmt l =>
      when x "export " ++ txt "struct " ++ with_ at_ sp ++ name ++ when final " final" ++
      with_ parent (fun '(acc, p, is) => txt " : " ++ access_text acc ++ txt " " ++ typ_text p ++
                      (match is with [] => [] | _ => NL end) ++ concat (map (fun i => txt ", " ++ typ_text i) is)) ++
      with_ cmt (fun c => txt " // " ++ c) ++ braces (entries l) ++ txt ";" ++ NL
  | Class x at_ name final cmt l =>
      when x "export " ++ txt "class " ++ with_ at_ sp ++ name ++ when final " final" ++
      with_ cmt (fun c => txt " // " ++ c) ++ braces (entries l) ++ txt ";" ++ NL
  | Union x at_ name l => when x "export " ++ txt "union " ++ with_ at_ sp ++ name ++ braces (entries l) ++ txt ";" ++ NL
  | Enum x at_ name ty l =>
      when x "export " ++ txt "enum " ++ with_ at_ sp ++ name ++ with_ ty (fun t => txt " : " ++ typ_text t) ++
      braces (entries l) ++ txt ";" ++ NL
  | EnumClass x at_ name ty l =>
      when x "export " ++ txt "enum class " ++ with_ at_ sp ++ name ++ txt " : " ++ typ_text ty ++ braces (entries l) ++ txt ";" ++ NL
  | StructFwd x at_ name cmt => when x "export " ++ txt "struct " ++ with_ at_ sp ++ name ++ semi cmt
  | ClassFwd x at_ name cmt =>
      when x "export " ++ txt "class " ++ with_ at_ sp ++ name ++ txt ";" ++ with_ cmt (fun c => txt " // " ++ c) ++ NL
  | UnionFwd x at_ name => when x "export " ++ txt "union " ++ with_ at_ sp ++ name ++ txt ";" ++ NL
  | EnumFwd x at_ name ty cmt =>
      when x "export " ++ with_ at_ sp ++ txt "enum " ++ name ++ with_ ty (fun t => txt " : " ++ typ_text t) ++ semi cmt
  | EnumClassFwd x at_ name ty cmt =>
      when x "export " ++ txt "enum class " ++ with_ at_ sp ++ name ++ txt " : " ++ typ_text ty ++ semi cmt
  | Function at_ specs ret name ps l =>
      with_ at_ (fun a => txt " " ++ a ++ txt " ") ++ spec_words leading specs ++
      (if present at_ || selects leading specs then NL else []) ++
      with_ ret (fun t => sp (typ_text t)) ++ name ++ txt "(" ++ params_text ps ++ txt ")" ++
      spec_words trails specs ++ braces (entries l) ++ NL
  | FunctionFwd x at_ specs ret name ps cmt =>
      when x "export " ++ with_ at_ sp ++ spec_words leading specs ++
      (if present at_ || selects leading specs then NL else []) ++
      with_ ret (fun t => sp (typ_text t)) ++ name ++ txt "(" ++ params_text ps ++ txt ")" ++
      spec_words trails specs ++ semi cmt
  | Operator x specs ret name ps l =>
      when x "export " ++ spec_words leading specs ++ (if present specs then NL else []) ++
      sp (typ_text ret) ++ name ++ txt " (" ++ params_text ps ++ txt ")" ++ spec_words trails specs ++ braces (entries l) ++ NL
  | OperatorFwd x at_ specs ret name ps cmt =>
      when x "export " ++ with_ at_ (fun a => a ++ NL) ++ spec_words leading specs ++
      (if present at_ || present specs then NL else []) ++
      sp (typ_text ret) ++ name ++ txt " (" ++ params_text ps ++ txt ")" ++ spec_words trails specs ++ semi cmt
  | Cast specs ty l =>
      with_ specs (fun s => concat (map (fun s => sp (spec_text s)) (filter leading s))) ++
      txt "operator " ++ typ_text ty ++ txt "()" ++ spec_words trails specs ++ braces (entries l) ++ NL
  | CastFwd specs ty =>
      with_ specs (fun s => concat (map (fun s => sp (spec_text s)) (filter leading s))) ++
      txt "operator " ++ typ_text ty ++ txt "()" ++ spec_words trails specs ++ txt ";" ++ NL
  | Constructor class ps inits cmt b =>
      class ++ (match ps with [] => txt "()" | _ => txt "( " ++ params_text ps ++ txt " )" end) ++
      with_ inits (fun t => txt " : " ++ t) ++ with_ cmt (fun c => txt " // " ++ c) ++ braces (render b) ++ NL
  | ConstructorFwd class ps value cmt =>
      class ++ (match ps with [] => txt "()" | _ => txt "( " ++ params_text ps ++ txt " )" end) ++
      with_ value (fun t => txt " = " ++ t) ++ txt ";" ++ with_ cmt (fun c => txt " // " ++ c) ++ NL
  | Destructor v class b => when v "virtual " ++ txt "~" ++ class ++ txt "()" ++ braces (render b) ++ NL
  | DestructorFwd class => txt "~" ++ class ++ txt "();" ++ NL
  | Typedef x ty name cmt => when x "export " ++ txt "typedef " ++ typ_text ty ++ txt " " ++ name ++ semi cmt
  | Using x at_ name ty cmt =>
      when x "export " ++ with_ at_ sp ++ txt "using " ++ name ++
      with_ ty (fun '(t, ss) => txt " = " ++ typ_text t ++ sizes_text ss) ++ txt ";" ++ with_ cmt (fun c => txt "  " ++ c) ++ NL
  | UsingNamespace name => txt "using namespace " ++ name ++ txt ";" ++ NL
  | Var x at_ specs ty name sizes bits value cmt =>
      when x "export " ++ with_ at_ sp ++ with_ specs specs_text ++ typ_text ty ++ txt " " ++ name ++ sizes_text sizes ++
      with_ bits (fun b => txt " : " ++ b) ++ init_text value ++ semi cmt
  | Template x ps d =>
      when x "export " ++ (match ps with [] => txt "template<>" | _ => txt "template< " ++ params_text ps ++ txt " >" end) ++
      NL ++ render d
  | Friend d => txt "friend " ++ render d ++ (if is_def d then [] else txt ";") ++ NL
  | Module x i name => when x "export " ++ when i "import " ++ name ++ txt ";" ++ NL
  | Define name body => txt "#define " ++ name ++ txt " " ++ body
  | IfDef c => txt "#ifdef " ++ c ++ NL
  | ElIf c => txt "#elif " ++ c ++ NL
  | Else => txt "#else" ++ NL
  | EndIf => txt "#endif" ++ NL
  | Include p => txt "#include " ++ p ++ NL
  | Pragma t => txt "#pragma " ++ t ++ NL
  end.

(** ** when a node holds this content *)
Section Holds.
Variable h : heap.

Definition kind_is (c : Z) (ks : list codetype) : Prop := valid h c /\ In (n_type (h_node h c)) ks.
Definition text_kinds := [CT_Untyped; CT_Execution; CT_Comment; CT_PlatformAttributes].
(** an untyped (or similar) node with this text *)
Definition raw_at (c : Z) (t : text) : Prop := kind_is c text_kinds /\ n_content (h_node h c) = t.
(** no node, or a node with this content *)
Definition maybe {A} (at_ : Z -> A -> Prop) (c : Z) (o : option A) : Prop := match o with None => c = 0 | Some a => at_ c a end.
Definition content_at (c : Z) (t : text) : Prop := valid h c /\ n_content (h_node h c) = t.
Definition comment_at (c : Z) (t : text) : Prop := content_at c t /\ t <> [].
Definition known_spec (s : Z) : Prop := In s (map fst specifier_spelling).
Definition specs_at (c : Z) (l : list Z) : Prop :=
  valid h c /\ specs_ok (h_node h c) /\ specs_of (h_node h c) = l /\ Forall known_spec l.
Definition tag_number (t : tag) : Z := match t with NoTag => 0 | TagClass => 1 | TagEnum => 2 | TagStruct => 3 | TagUnion => 4 end.
(** an ordinary type name (not a function signature): TypeTag and IsParamPack are the halves of its number *)
Definition typ_at (c : Z) (t : typ) : Prop :=
  valid h c /\ let n := h_node h c in
  (n_ret n = 0 \/ n_params n = 0) /\ n_name n = ty_name t /\ ty_name t <> [] /\ maybe content_at (n_attrs n) (ty_attrs t) /\
  maybe specs_at (n_specs n) (ty_specs t) /\ n_num n / 2 ^ 16 = tag_number (ty_tag t) /\ (n_num n mod 2 ^ 16 <> 0 <-> ty_pack t = true).
(** the types, or texts, reached over Next *)
Fixpoint typs_from (c : Z) (l : list typ) : Prop :=
  match l with [] => c = 0 | t :: r => typ_at c t /\ typs_from (n_next (h_node h c)) r end.
Fixpoint raws_from (c : Z) (l : list text) : Prop :=
  match l with [] => c = 0 | t :: r => raw_at c t /\ raws_from (n_next (h_node h c)) r end.
(** a parameter list: the first node counts its parameters, the others follow over Next *)
Definition param_at (c : Z) (p : param) : Prop :=
  valid h c /\ let n := h_node h c in
  n_params n = 0 /\ n_suffix n = 0 /\ n_name n = p_name p /\ maybe typ_at (n_ret n) (p_type p) /\ maybe raw_at (n_body n) (p_value p).
Fixpoint params_from (c : Z) (l : list param) : Prop :=
  match l with [] => c = 0 | p :: r => param_at c p /\ n_num (h_node h c) <= 1 /\ params_from (n_next (h_node h c)) r end.
Definition params_at (c : Z) (l : list param) : Prop :=
  match l with
  | [] => c = 0
  | p :: r => param_at c p /\ n_num (h_node h c) = Z.of_nat (List.length l) /\ (r <> [] -> params_from (n_next (h_node h c)) r)
  end.
Definition exports (n : node) (x : bool) : Prop := Z.testbit (n_flags n) 0 = x.
Definition imports (n : node) (x : bool) : Prop := Z.testbit (n_flags n) 1 = x.
(** a statement of its own, not part of a typedef or a variable *)
Definition statement (n : node) : Prop :=
  n_parent n = 0 \/ (valid h (n_parent n) /\ n_type (h_node h (n_parent n)) <> CT_Typedef /\ n_type (h_node h (n_parent n)) <> CT_Variable).
Definition body_kinds := [CT_Enum_Body; CT_Class_Body; CT_Extern_Linkage_Body; CT_Function_Body; CT_Global_Body; CT_Namespace_Body;
                          CT_Struct_Body; CT_Union_Body].
Definition is_final (c : Z) (final : bool) : Prop :=
  if final then exists l, specs_at c l /\ In Spec_Final l else c = 0 \/ exists l, specs_at c l /\ ~ In Spec_Final l.
(** access levels whose name the library spells correctly (C23) *)
Definition sound_access (a : Z) : Prop := In a [AccessSpec_Default; AccessSpec_Private; AccessSpec_Public].

Fixpoint holds (c : Z) (t : tree) {struct t} : Prop :=
  let n := h_node h c in
  let entries := fix entries (c : Z) (l : list tree) {struct l} : Prop :=
    match l with [] => True | t :: r => holds c t /\ entries (n_next (h_node h c)) r end in
  (* a body: its first entry is Front, the others follow over Next, NumEntries of them *)
  let block (c : Z) (l : list tree) := kind_is c body_kinds /\ n_num (h_node h c) = Z.of_nat (List.length l) /\ entries (n_front (h_node h c)) l in
  (* the body of a definition: such a block, or one piece of text *)
  let body (c : Z) (l : list tree) := block c l \/ exists t, l = [Raw t] /\ kind_is c [CT_Untyped; CT_Execution] /\ n_content (h_node h c) = t in
  let named (name : text) := n_name n = name /\ name <> [] in
  let class_name (class : text) := class <> [] /\ valid h (n_parent n) /\
      ((n_parent (h_node h (n_parent n)) = 0 /\ n_name n = class) \/
       (valid h (n_parent (h_node h (n_parent n))) /\ n_name (h_node h (n_parent (h_node h (n_parent n)))) = class)) in
  match t with
  | Raw t => raw_at c t \/ (kind_is c [CT_Access_Private; CT_Access_Protected; CT_Access_Public] /\ n_name n = t)
  | NewLine => kind_is c [CT_NewLine]
  | Block l => block c l
  | Namespace x name l => kind_is c [CT_Namespace] /\ exports n x /\ named name /\ body (n_body n) l
  | Linkage name l => kind_is c [CT_Extern_Linkage] /\ named name /\ body (n_body n) l
  | Struct x at_ name final parent cmt l =>
      kind_is c [CT_Struct] /\ exports n x /\ maybe content_at (n_attrs n) at_ /\ n_name n = name /\ is_final (n_specs n) final /\
      maybe (fun p '(acc, ty, is) => n_num n = acc /\ sound_access acc /\ typ_at p ty /\ typs_from (n_next (h_node h p)) is) (n_ret n) parent /\
      maybe comment_at (n_inline n) cmt /\ body (n_body n) l /\ statement n
  | Class x at_ name final cmt l =>
      kind_is c [CT_Class] /\ exports n x /\ maybe content_at (n_attrs n) at_ /\ n_name n = name /\ is_final (n_specs n) final /\
      n_ret n = 0 /\ maybe comment_at (n_inline n) cmt /\ body (n_body n) l /\ statement n
  | Union x at_ name l =>
      kind_is c [CT_Union] /\ exports n x /\ maybe content_at (n_attrs n) at_ /\ n_name n = name /\ body (n_body n) l /\ statement n
  | Enum x at_ name ty l =>
      kind_is c [CT_Enum] /\ exports n x /\ maybe content_at (n_attrs n) at_ /\ named name /\ maybe typ_at (n_ret n) ty /\ n_params n = 0 /\
      body (n_body n) l /\ statement n
  | EnumClass x at_ name ty l =>
      kind_is c [CT_Enum_Class] /\ exports n x /\ maybe content_at (n_attrs n) at_ /\ named name /\ typ_at (n_ret n) ty /\
      body (n_body n) l /\ statement n
  | StructFwd x at_ name cmt =>
      kind_is c [CT_Struct_Fwd] /\ exports n x /\ maybe content_at (n_attrs n) at_ /\ named name /\ maybe comment_at (n_inline n) cmt /\ statement n
  | ClassFwd x at_ name cmt =>
      kind_is c [CT_Class_Fwd] /\ exports n x /\ maybe content_at (n_attrs n) at_ /\ named name /\ maybe comment_at (n_inline n) cmt /\ statement n
  | UnionFwd x at_ name => kind_is c [CT_Union_Fwd] /\ exports n x /\ maybe content_at (n_attrs n) at_ /\ n_name n = name /\ statement n
  | EnumFwd x at_ name ty cmt =>
      kind_is c [CT_Enum_Fwd] /\ exports n x /\ maybe content_at (n_attrs n) at_ /\ named name /\ maybe typ_at (n_ret n) ty /\ n_params n = 0 /\
      maybe comment_at (n_inline n) cmt /\ statement n
  | EnumClassFwd x at_ name ty cmt =>
      kind_is c [CT_Enum_Class_Fwd] /\ exports n x /\ maybe content_at (n_attrs n) at_ /\ named name /\ typ_at (n_ret n) ty /\
      maybe comment_at (n_inline n) cmt /\ statement n
  | Function at_ specs ret name ps l =>
      kind_is c [CT_Function] /\ exports n false /\ maybe content_at (n_attrs n) at_ /\ maybe specs_at (n_specs n) specs /\
      maybe typ_at (n_ret n) ret /\ named name /\ params_at (n_params n) ps /\ n_suffix n = 0 /\ body (n_body n) l
  | FunctionFwd x at_ specs ret name ps cmt =>
      kind_is c [CT_Function_Fwd] /\ exports n x /\ maybe content_at (n_attrs n) at_ /\ maybe specs_at (n_specs n) specs /\
      (forall l, specs = Some l -> ~ In Spec_Pure l /\ ~ In Spec_Delete l) /\
      maybe typ_at (n_ret n) ret /\ named name /\ params_at (n_params n) ps /\ n_suffix n = 0 /\ n_body n = 0 /\ maybe comment_at (n_inline n) cmt
  | Operator x specs ret name ps l =>
      kind_is c [CT_Operator; CT_Operator_Member] /\ exports n x /\ n_attrs n = 0 /\ maybe specs_at (n_specs n) specs /\
      typ_at (n_ret n) ret /\ named name /\ params_at (n_params n) ps /\ body (n_body n) l
  | OperatorFwd x at_ specs ret name ps cmt =>
      kind_is c [CT_Operator_Fwd; CT_Operator_Member_Fwd] /\ exports n x /\ maybe content_at (n_attrs n) at_ /\ maybe specs_at (n_specs n) specs /\
      typ_at (n_ret n) ret /\ named name /\ params_at (n_params n) ps /\ maybe comment_at (n_inline n) cmt
  | Cast specs ty l =>
      kind_is c [CT_Operator_Cast] /\ maybe specs_at (n_specs n) specs /\ typ_at (n_ret n) ty /\ n_name n = [] /\ body (n_body n) l
  | CastFwd specs ty =>
      kind_is c [CT_Operator_Cast_Fwd] /\ maybe specs_at (n_specs n) specs /\ typ_at (n_ret n) ty /\ n_inline n = 0
  | Constructor class ps inits cmt b =>
      kind_is c [CT_Constructor] /\ class_name class /\ params_at (n_params n) ps /\ maybe raw_at (n_ret n) inits /\
      maybe comment_at (n_inline n) cmt /\ holds (n_body n) b
  | ConstructorFwd class ps value cmt =>
      kind_is c [CT_Constructor_Fwd] /\ class_name class /\ params_at (n_params n) ps /\ maybe raw_at (n_body n) value /\
      maybe comment_at (n_inline n) cmt
  | Destructor v class b =>
      kind_is c [CT_Destructor] /\ n_name n = [] /\ valid h (n_parent n) /\ n_name (h_node h (n_parent n)) = class /\ class <> [] /\
      (if v then exists l, specs_at (n_specs n) l /\ In Spec_Virtual l else n_specs n = 0 \/ exists l, specs_at (n_specs n) l /\ ~ In Spec_Virtual l) /\
      holds (n_body n) b
  | DestructorFwd class =>
      kind_is c [CT_Destructor_Fwd] /\ n_specs n = 0 /\ valid h (n_parent n) /\ n_name (h_node h (n_parent n)) = class /\ class <> [] /\ n_inline n = 0
  | Typedef x ty name cmt =>
      kind_is c [CT_Typedef] /\ exports n x /\ typ_at (n_ret n) ty /\ kind_is (n_ret n) [CT_Typename] /\ n_ret (h_node h (n_ret n)) = 0 /\
      n_body (h_node h (n_ret n)) = 0 /\ named name /\ maybe comment_at (n_inline n) cmt
  | Using x at_ name ty cmt =>
      kind_is c [CT_Using] /\ exports n x /\ maybe content_at (n_attrs n) at_ /\ named name /\
      maybe (fun p '(ty, ss) => typ_at p ty /\ raws_from (n_body (h_node h p)) ss) (n_ret n) ty /\ maybe comment_at (n_inline n) cmt
  | UsingNamespace name => kind_is c [CT_Using_Namespace] /\ named name /\ n_inline n = 0
  | Var x at_ specs ty name sizes bits value cmt =>
      kind_is c [CT_Variable] /\ (n_parent n = 0 \/ valid h (n_parent n) /\ n_type (h_node h (n_parent n)) <> CT_Variable) /\
      exports n x /\ maybe content_at (n_attrs n) at_ /\ maybe specs_at (n_specs n) specs /\ typ_at (n_ret n) ty /\ named name /\
      raws_from (n_body (h_node h (n_ret n))) sizes /\ maybe raw_at (n_params n) bits /\ (sizes = [] \/ bits = None) /\
      match value with
      | NoInit => n_body n = 0 /\ n_num n = 0
      | InitEq v => raw_at (n_body n) v /\ n_num n = 0
      | InitParen v => raw_at (n_body n) v /\ n_num n <> 0
      end /\ n_suffix n = 0 /\ maybe comment_at (n_inline n) cmt
  | Template x ps d => kind_is c [CT_Template] /\ exports n x /\ params_at (n_params n) ps /\ holds (n_body n) d
  | Friend d => kind_is c [CT_Friend] /\ holds (n_body n) d /\ n_inline n = 0 /\
      match d with
      | Function _ _ _ _ _ _ => True
      | Operator _ _ _ _ _ _ => n_type (h_node h (n_body n)) = CT_Operator
      | StructFwd _ _ _ None | ClassFwd _ _ _ _ | FunctionFwd _ _ _ _ _ _ None | OperatorFwd _ _ _ _ _ _ None => True
      | _ => False
      end
  | Module x i name => kind_is c [CT_Module] /\ exports n x /\ imports n i /\ named name
  | Define name b => kind_is c [CT_Preprocess_Define] /\ named name /\ n_params n = 0 /\ content_at (n_body n) b /\ b <> []
  | IfDef t => kind_is c [CT_Preprocess_IfDef] /\ n_content n = t /\ t <> []
  | ElIf t => kind_is c [CT_Preprocess_ElIf] /\ n_content n = t /\ t <> []
  | Else => kind_is c [CT_Preprocess_Else]
  | EndIf => kind_is c [CT_Preprocess_EndIf]
  | Include t => kind_is c [CT_Preprocess_Include] /\ n_content n = t /\ t <> []
  | Pragma t => kind_is c [CT_Preprocess_Pragma] /\ n_content n = t /\ t <> []
  end.
End Holds.
