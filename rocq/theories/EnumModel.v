(** Enumerations and their text tables (base/components/gen/*.hpp, types.hpp). Enumerators are their C values.
    Generated from the sources: every table below is the literal table of the code, in its order. *)
From Coq Require Import String ZArith List Bool.
From Verif Require Import Common Text HashModel.
Import ListNotations.
Open Scope Z_scope.

(** gen/especifier.hpp:8-40 *)
Definition Spec_Invalid : Z := 0.
Definition Spec_Consteval : Z := 1.
Definition Spec_Constexpr : Z := 2.
Definition Spec_Constinit : Z := 3.
Definition Spec_Explicit : Z := 4.
Definition Spec_External_Linkage : Z := 5.
Definition Spec_ForceInline : Z := 6.
Definition Spec_Global : Z := 7.
Definition Spec_Inline : Z := 8.
Definition Spec_Internal_Linkage : Z := 9.
Definition Spec_Local_Persist : Z := 10.
Definition Spec_Mutable : Z := 11.
Definition Spec_NeverInline : Z := 12.
Definition Spec_Ptr : Z := 13.
Definition Spec_Ref : Z := 14.
Definition Spec_Register : Z := 15.
Definition Spec_Restrict : Z := 16.
Definition Spec_RValue : Z := 17.
Definition Spec_Static : Z := 18.
Definition Spec_Thread_Local : Z := 19.
Definition Spec_Virtual : Z := 20.
Definition Spec_Const : Z := 21.
Definition Spec_Final : Z := 22.
Definition Spec_NoExceptions : Z := 23.
Definition Spec_Override : Z := 24.
Definition Spec_Pure : Z := 25.
Definition Spec_Delete : Z := 26.
Definition Spec_Volatile : Z := 27.
Definition Spec_NumSpecifiers : Z := 28.

(** gen/especifier.hpp:42-73 [spec_to_str] *)
Definition spec_table : list (list Z) := map txt [
  "INVALID";
  "consteval";
  "constexpr";
  "constinit";
  "explicit";
  "extern";
  "forceinline";
  "global";
  "inline";
  "internal";
  "local_persist";
  "mutable";
  "neverinline";
  "*";
  "&";
  "register";
  "restrict";
  "&&";
  "static";
  "thread_local";
  "virtual";
  "const";
  "final";
  "noexcept";
  "override";
  "= 0";
  "= delete";
  "volatile"]%string.

(** gen/etoktype.hpp:10-113 *)
Definition Tok_Invalid : Z := 0.
Definition Tok_Access_Private : Z := 1.
Definition Tok_Access_Protected : Z := 2.
Definition Tok_Access_Public : Z := 3.
Definition Tok_Access_MemberSymbol : Z := 4.
Definition Tok_Access_StaticSymbol : Z := 5.
Definition Tok_Ampersand : Z := 6.
Definition Tok_Ampersand_DBL : Z := 7.
Definition Tok_Assign_Classifer : Z := 8.
Definition Tok_Attribute_Open : Z := 9.
Definition Tok_Attribute_Close : Z := 10.
Definition Tok_BraceCurly_Open : Z := 11.
Definition Tok_BraceCurly_Close : Z := 12.
Definition Tok_BraceSquare_Open : Z := 13.
Definition Tok_BraceSquare_Close : Z := 14.
Definition Tok_Paren_Open : Z := 15.
Definition Tok_Paren_Close : Z := 16.
Definition Tok_Comment : Z := 17.
Definition Tok_Comment_End : Z := 18.
Definition Tok_Comment_Start : Z := 19.
Definition Tok_Char : Z := 20.
Definition Tok_Comma : Z := 21.
Definition Tok_Decl_Class : Z := 22.
Definition Tok_Decl_GNU_Attribute : Z := 23.
Definition Tok_Decl_MSVC_Attribute : Z := 24.
Definition Tok_Decl_Enum : Z := 25.
Definition Tok_Decl_Extern_Linkage : Z := 26.
Definition Tok_Decl_Friend : Z := 27.
Definition Tok_Decl_Module : Z := 28.
Definition Tok_Decl_Namespace : Z := 29.
Definition Tok_Decl_Operator : Z := 30.
Definition Tok_Decl_Struct : Z := 31.
Definition Tok_Decl_Template : Z := 32.
Definition Tok_Decl_Typedef : Z := 33.
Definition Tok_Decl_Using : Z := 34.
Definition Tok_Decl_Union : Z := 35.
Definition Tok_Identifier : Z := 36.
Definition Tok_Module_Import : Z := 37.
Definition Tok_Module_Export : Z := 38.
Definition Tok_NewLine : Z := 39.
Definition Tok_Number : Z := 40.
Definition Tok_Operator : Z := 41.
Definition Tok_Preprocess_Hash : Z := 42.
Definition Tok_Preprocess_Define : Z := 43.
Definition Tok_Preprocess_Define_Param : Z := 44.
Definition Tok_Preprocess_If : Z := 45.
Definition Tok_Preprocess_IfDef : Z := 46.
Definition Tok_Preprocess_IfNotDef : Z := 47.
Definition Tok_Preprocess_ElIf : Z := 48.
Definition Tok_Preprocess_Else : Z := 49.
Definition Tok_Preprocess_EndIf : Z := 50.
Definition Tok_Preprocess_Include : Z := 51.
Definition Tok_Preprocess_Pragma : Z := 52.
Definition Tok_Preprocess_Content : Z := 53.
Definition Tok_Preprocess_Macro_Expr : Z := 54.
Definition Tok_Preprocess_Macro_Stmt : Z := 55.
Definition Tok_Preprocess_Macro_Typename : Z := 56.
Definition Tok_Preprocess_Unsupported : Z := 57.
Definition Tok_Spec_Alignas : Z := 58.
Definition Tok_Spec_Const : Z := 59.
Definition Tok_Spec_Consteval : Z := 60.
Definition Tok_Spec_Constexpr : Z := 61.
Definition Tok_Spec_Constinit : Z := 62.
Definition Tok_Spec_Explicit : Z := 63.
Definition Tok_Spec_Extern : Z := 64.
Definition Tok_Spec_Final : Z := 65.
Definition Tok_Spec_ForceInline : Z := 66.
Definition Tok_Spec_Global : Z := 67.
Definition Tok_Spec_Inline : Z := 68.
Definition Tok_Spec_Internal_Linkage : Z := 69.
Definition Tok_Spec_LocalPersist : Z := 70.
Definition Tok_Spec_Mutable : Z := 71.
Definition Tok_Spec_NeverInline : Z := 72.
Definition Tok_Spec_Override : Z := 73.
Definition Tok_Spec_Restrict : Z := 74.
Definition Tok_Spec_Static : Z := 75.
Definition Tok_Spec_ThreadLocal : Z := 76.
Definition Tok_Spec_Volatile : Z := 77.
Definition Tok_Spec_Virtual : Z := 78.
Definition Tok_Star : Z := 79.
Definition Tok_Statement_End : Z := 80.
Definition Tok_StaticAssert : Z := 81.
Definition Tok_String : Z := 82.
Definition Tok_Type_Typename : Z := 83.
Definition Tok_Type_Unsigned : Z := 84.
Definition Tok_Type_Signed : Z := 85.
Definition Tok_Type_Short : Z := 86.
Definition Tok_Type_Long : Z := 87.
Definition Tok_Type_bool : Z := 88.
Definition Tok_Type_char : Z := 89.
Definition Tok_Type_int : Z := 90.
Definition Tok_Type_double : Z := 91.
Definition Tok_Type_MS_int8 : Z := 92.
Definition Tok_Type_MS_int16 : Z := 93.
Definition Tok_Type_MS_int32 : Z := 94.
Definition Tok_Type_MS_int64 : Z := 95.
Definition Tok_Type_MS_W64 : Z := 96.
Definition Tok_Varadic_Argument : Z := 97.
Definition Tok___Attributes_Start : Z := 98.
Definition Tok_Attribute_GEN_API : Z := 99.
Definition Tok_NumTokens : Z := 100.

(** gen/etoktype.hpp:115-218 [toktype_to_str] *)
Definition toktype_table : list (list Z) := map txt [
  "__invalid__";
  "private";
  "protected";
  "public";
  ".";
  "::";
  "&";
  "&&";
  ":";
  "[[";
  "]]";
  "{";
  "}";
  "[";
  "]";
  "(";
  ")";
  "__comment__";
  "__comment_end__";
  "__comment_start__";
  "__character__";
  ",";
  "class";
  "__attribute__";
  "__declspec";
  "enum";
  "extern";
  "friend";
  "module";
  "namespace";
  "operator";
  "struct";
  "template";
  "typedef";
  "using";
  "union";
  "__identifier__";
  "import";
  "export";
  "__new_line__";
  "__number__";
  "__operator__";
  "#";
  "define";
  "__define_param__";
  "if";
  "ifdef";
  "ifndef";
  "elif";
  "else";
  "endif";
  "include";
  "pragma";
  "__macro_content__";
  "__macro_expression__";
  "__macro_statment__";
  "__macro_typename__";
  "__unsupported__";
  "alignas";
  "const";
  "consteval";
  "constexpr";
  "constinit";
  "explicit";
  "extern";
  "final";
  "forceinline";
  "global";
  "inline";
  "internal";
  "local_persist";
  "mutable";
  "neverinline";
  "override";
  "restrict";
  "static";
  "thread_local";
  "volatile";
  "virtual";
  "*";
  ";";
  "static_assert";
  "__string__";
  "typename";
  "unsigned";
  "signed";
  "short";
  "long";
  "bool";
  "char";
  "int";
  "double";
  "__int8";
  "__int16";
  "__int32";
  "__int64";
  "_W64";
  "...";
  "__attrib_start__";
  "GEN_API"]%string.

(** gen/eoperator.hpp:8-59 *)
Definition Op_Invalid : Z := 0.
Definition Op_Assign : Z := 1.
Definition Op_Assign_Add : Z := 2.
Definition Op_Assign_Subtract : Z := 3.
Definition Op_Assign_Multiply : Z := 4.
Definition Op_Assign_Divide : Z := 5.
Definition Op_Assign_Modulo : Z := 6.
Definition Op_Assign_BAnd : Z := 7.
Definition Op_Assign_BOr : Z := 8.
Definition Op_Assign_BXOr : Z := 9.
Definition Op_Assign_LShift : Z := 10.
Definition Op_Assign_RShift : Z := 11.
Definition Op_Increment : Z := 12.
Definition Op_Decrement : Z := 13.
Definition Op_Unary_Plus : Z := 14.
Definition Op_Unary_Minus : Z := 15.
Definition Op_UnaryNot : Z := 16.
Definition Op_Add : Z := 17.
Definition Op_Subtract : Z := 18.
Definition Op_Multiply : Z := 19.
Definition Op_Divide : Z := 20.
Definition Op_Modulo : Z := 21.
Definition Op_BNot : Z := 22.
Definition Op_BAnd : Z := 23.
Definition Op_BOr : Z := 24.
Definition Op_BXOr : Z := 25.
Definition Op_LShift : Z := 26.
Definition Op_RShift : Z := 27.
Definition Op_LAnd : Z := 28.
Definition Op_LOr : Z := 29.
Definition Op_LEqual : Z := 30.
Definition Op_LNot : Z := 31.
Definition Op_Lesser : Z := 32.
Definition Op_Greater : Z := 33.
Definition Op_LesserEqual : Z := 34.
Definition Op_GreaterEqual : Z := 35.
Definition Op_Subscript : Z := 36.
Definition Op_Indirection : Z := 37.
Definition Op_AddressOf : Z := 38.
Definition Op_MemberOfPointer : Z := 39.
Definition Op_PtrToMemOfPtr : Z := 40.
Definition Op_FunctionCall : Z := 41.
Definition Op_Comma : Z := 42.
Definition Op_New : Z := 43.
Definition Op_NewArray : Z := 44.
Definition Op_Delete : Z := 45.
Definition Op_DeleteArray : Z := 46.
Definition Op_NumOps : Z := 47.

(** gen/eoperator.hpp:61-111 [operator_to_str] *)
Definition operator_table : list (list Z) := map txt [
  "INVALID";
  "=";
  "+=";
  "-=";
  "*=";
  "/=";
  "%=";
  "&=";
  "|=";
  "^=";
  "<<=";
  ">>=";
  "++";
  "--";
  "+";
  "-";
  "!";
  "+";
  "-";
  "*";
  "/";
  "%";
  "~";
  "&";
  "|";
  "^";
  "<<";
  ">>";
  "&&";
  "||";
  "==";
  "!=";
  "<";
  ">";
  "<=";
  ">=";
  "[]";
  "*";
  "&";
  "->";
  "->*";
  "()";
  ",";
  "new";
  "new[]";
  "delete";
  "delete[]"]%string.

(** gen/ecodetypes.hpp:76-141 [codetype_to_str] *)
Definition codetype_table : list (list Z) := map txt [
  "Invalid";
  "Untyped";
  "NewLine";
  "Comment";
  "Access_Private";
  "Access_Protected";
  "Access_Public";
  "PlatformAttributes";
  "Class";
  "Class_Fwd";
  "Class_Body";
  "Constructor";
  "Constructor_Fwd";
  "Destructor";
  "Destructor_Fwd";
  "Enum";
  "Enum_Fwd";
  "Enum_Body";
  "Enum_Class";
  "Enum_Class_Fwd";
  "Execution";
  "Export_Body";
  "Extern_Linkage";
  "Extern_Linkage_Body";
  "Friend";
  "Function";
  "Function_Fwd";
  "Function_Body";
  "Global_Body";
  "Module";
  "Namespace";
  "Namespace_Body";
  "Operator";
  "Operator_Fwd";
  "Operator_Member";
  "Operator_Member_Fwd";
  "Operator_Cast";
  "Operator_Cast_Fwd";
  "Parameters";
  "Parameters_Define";
  "Preprocess_Define";
  "Preprocess_Include";
  "Preprocess_If";
  "Preprocess_IfDef";
  "Preprocess_IfNotDef";
  "Preprocess_ElIf";
  "Preprocess_Else";
  "Preprocess_EndIf";
  "Preprocess_Pragma";
  "Specifiers";
  "Struct";
  "Struct_Fwd";
  "Struct_Body";
  "Template";
  "Typedef";
  "Typename";
  "Union";
  "Union_Fwd";
  "Union_Body";
  "Using";
  "Using_Namespace";
  "Variable"]%string.

(** gen/ecodetypes.hpp:145-210 [codetype_to_keyword_str] *)
Definition codetype_keyword_table : list (list Z) := map txt [
  "__NA__";
  "__NA__";
  "__NA__";
  "//";
  "private";
  "protected";
  "public";
  "__NA__";
  "class";
  "clsss";
  "__NA__";
  "__NA__";
  "__NA__";
  "__NA__";
  "__NA__";
  "enum";
  "enum";
  "__NA__";
  "enum class";
  "enum class";
  "__NA__";
  "__NA__";
  "extern";
  "extern";
  "friend";
  "__NA__";
  "__NA__";
  "__NA__";
  "__NA__";
  "module";
  "namespace";
  "__NA__";
  "operator";
  "operator";
  "operator";
  "operator";
  "operator";
  "operator";
  "__NA__";
  "__NA__";
  "define";
  "include";
  "if";
  "ifdef";
  "ifndef";
  "elif";
  "else";
  "endif";
  "pragma";
  "__NA__";
  "struct";
  "struct";
  "__NA__";
  "template";
  "typedef";
  "__NA__";
  "union";
  "union";
  "__NA__";
  "using";
  "using namespace";
  "__NA__"]%string.

(** [lookup[type]]: undefined outside the table *)
Definition table_at (t : list (list Z)) (i : Z) : run (list Z) :=
  if (0 <=? i) && (i <? Z.of_nat (length t)) then Done (nth (Z.to_nat i) t []) else Undefined.
Definition spec_to_str : Z -> run (list Z) := table_at spec_table.
Definition toktype_to_str : Z -> run (list Z) := table_at toktype_table.
Definition operator_to_str : Z -> run (list Z) := table_at operator_table.

(** gen/especifier.hpp:92-107 [str_to_specifier], gen/etoktype.hpp:220-237 [str_to_toktype]: the first entry
    whose text has the same crc32; otherwise the enumerator 0 *)
Fixpoint hash_find (t : list (list Z)) (i h : Z) : Z :=
  match t with
  | [] => 0
  | x :: r => if crc32 x =? h then i else hash_find r (i + 1) h
  end.
Definition str_to_specifier (str : list Z) : Z := hash_find spec_table 0 (crc32 str).
Definition str_to_toktype (str : list Z) : Z := hash_find toktype_table 0 (crc32 str).

(** gen/especifier.hpp:75-90 [spec_is_trailing] *)
Definition spec_is_trailing (s : Z) : bool :=
  (s =? Spec_Const) || (s =? Spec_Final) || (s =? Spec_NoExceptions) || (s =? Spec_Override) || (s =? Spec_Pure) || (s =? Spec_Delete) || (s =? Spec_Volatile).

(** types.hpp:33-43 *)
Definition AccessSpec_Default : Z := 0.
Definition AccessSpec_Private : Z := 1.
Definition AccessSpec_Protected : Z := 2.
Definition AccessSpec_Public : Z := 3.
(** types.hpp:86-96 *)
Definition ModuleFlag_None : Z := 0.
Definition ModuleFlag_Export : Z := 1.
Definition ModuleFlag_Import : Z := 2.

(** a [Str] { literal, len }: the bytes a reader of the slice sees; reading past the literal's NUL is undefined *)
Definition str_of_literal (lit : string) (len : Z) : run (list Z) :=
  let b := txt lit ++ [0] in
  if len <=? Z.of_nat (length b) then Done (firstn (Z.to_nat len) b) else Undefined.
Definition sizeof (lit : string) : Z := Z.of_nat (length (txt lit)) + 1.

(** types.hpp:46-62 [access_spec_to_str]: lookup of { literal, sizeof(..) - 1 } *)
Definition access_spec_to_str (t : Z) : run (list Z) :=
  if t >? AccessSpec_Public then str_of_literal "Invalid" (sizeof "Invalid" - 1)
  else if t =? 0 then str_of_literal "" (sizeof "" - 1)
  else if t =? 1 then str_of_literal "private" (sizeof "prviate" - 1)
  else if t =? 2 then str_of_literal "private" (sizeof "protected" - 1)
  else if t =? 3 then str_of_literal "public" (sizeof "public" - 1)
  else Undefined.

(** types.hpp:99-115 [module_flag_to_str] *)
Definition module_flag_to_str (f : Z) : run (list Z) :=
  if f >? ModuleFlag_Import then str_of_literal "invalid" (sizeof "invalid")
  else if f =? 0 then str_of_literal "__none__" (sizeof "__none__" - 1)
  else if f =? 1 then str_of_literal "export" (sizeof "export" - 1)
  else if f =? 2 then str_of_literal "import" (sizeof "import" - 1)
  else Undefined.
