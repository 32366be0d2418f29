(** The C++ spelling of every enumerator, written down from its name (not from the code's tables). *)
From Coq Require Import String ZArith List.
From Verif Require Import Text EnumModel.
Import ListNotations.
Open Scope Z_scope. Open Scope string_scope.

Definition specifier_spelling : list (Z * string) := [
  (Spec_Consteval, "consteval"); (Spec_Constexpr, "constexpr"); (Spec_Constinit, "constinit"); (Spec_Explicit, "explicit");
  (Spec_External_Linkage, "extern"); (Spec_ForceInline, "forceinline"); (Spec_Global, "global"); (Spec_Inline, "inline");
  (Spec_Internal_Linkage, "internal"); (Spec_Local_Persist, "local_persist"); (Spec_Mutable, "mutable");
  (Spec_NeverInline, "neverinline"); (Spec_Ptr, "*"); (Spec_Ref, "&"); (Spec_Register, "register"); (Spec_Restrict, "restrict");
  (Spec_RValue, "&&"); (Spec_Static, "static"); (Spec_Thread_Local, "thread_local"); (Spec_Virtual, "virtual");
  (Spec_Const, "const"); (Spec_Final, "final"); (Spec_NoExceptions, "noexcept"); (Spec_Override, "override");
  (Spec_Pure, "= 0"); (Spec_Delete, "= delete"); (Spec_Volatile, "volatile")].

Definition token_spelling : list (Z * string) := [
  (Tok_Access_Private, "private"); (Tok_Access_Protected, "protected"); (Tok_Access_Public, "public");
  (Tok_Access_MemberSymbol, "."); (Tok_Access_StaticSymbol, "::"); (Tok_Ampersand, "&"); (Tok_Ampersand_DBL, "&&");
  (Tok_Assign_Classifer, ":"); (Tok_Attribute_Open, "[["); (Tok_Attribute_Close, "]]"); (Tok_BraceCurly_Open, "{");
  (Tok_BraceCurly_Close, "}"); (Tok_BraceSquare_Open, "["); (Tok_BraceSquare_Close, "]"); (Tok_Paren_Open, "(");
  (Tok_Paren_Close, ")"); (Tok_Comma, ","); (Tok_Decl_Class, "class"); (Tok_Decl_GNU_Attribute, "__attribute__");
  (Tok_Decl_MSVC_Attribute, "__declspec"); (Tok_Decl_Enum, "enum"); (Tok_Decl_Extern_Linkage, "extern");
  (Tok_Decl_Friend, "friend"); (Tok_Decl_Module, "module"); (Tok_Decl_Namespace, "namespace"); (Tok_Decl_Operator, "operator");
  (Tok_Decl_Struct, "struct"); (Tok_Decl_Template, "template"); (Tok_Decl_Typedef, "typedef"); (Tok_Decl_Using, "using");
  (Tok_Decl_Union, "union"); (Tok_Module_Import, "import"); (Tok_Module_Export, "export"); (Tok_Preprocess_Hash, "#");
  (Tok_Preprocess_Define, "define"); (Tok_Preprocess_If, "if"); (Tok_Preprocess_IfDef, "ifdef"); (Tok_Preprocess_IfNotDef, "ifndef");
  (Tok_Preprocess_ElIf, "elif"); (Tok_Preprocess_Else, "else"); (Tok_Preprocess_EndIf, "endif"); (Tok_Preprocess_Include, "include");
  (Tok_Preprocess_Pragma, "pragma"); (Tok_Spec_Alignas, "alignas"); (Tok_Spec_Const, "const"); (Tok_Spec_Consteval, "consteval");
  (Tok_Spec_Constexpr, "constexpr"); (Tok_Spec_Constinit, "constinit"); (Tok_Spec_Explicit, "explicit"); (Tok_Spec_Extern, "extern");
  (Tok_Spec_Final, "final"); (Tok_Spec_ForceInline, "forceinline"); (Tok_Spec_Global, "global"); (Tok_Spec_Inline, "inline");
  (Tok_Spec_Internal_Linkage, "internal"); (Tok_Spec_LocalPersist, "local_persist"); (Tok_Spec_Mutable, "mutable");
  (Tok_Spec_NeverInline, "neverinline"); (Tok_Spec_Override, "override"); (Tok_Spec_Restrict, "restrict"); (Tok_Spec_Static, "static");
  (Tok_Spec_ThreadLocal, "thread_local"); (Tok_Spec_Volatile, "volatile"); (Tok_Spec_Virtual, "virtual"); (Tok_Star, "*");
  (Tok_Statement_End, ";"); (Tok_StaticAssert, "static_assert"); (Tok_Type_Typename, "typename"); (Tok_Type_Unsigned, "unsigned");
  (Tok_Type_Signed, "signed"); (Tok_Type_Short, "short"); (Tok_Type_Long, "long"); (Tok_Type_bool, "bool"); (Tok_Type_char, "char");
  (Tok_Type_int, "int"); (Tok_Type_double, "double"); (Tok_Type_MS_int8, "__int8"); (Tok_Type_MS_int16, "__int16");
  (Tok_Type_MS_int32, "__int32"); (Tok_Type_MS_int64, "__int64"); (Tok_Type_MS_W64, "_W64"); (Tok_Varadic_Argument, "...");
  (Tok_Attribute_GEN_API, "GEN_API")].

Definition operator_spelling : list (Z * string) := [
  (Op_Assign, "="); (Op_Assign_Add, "+="); (Op_Assign_Subtract, "-="); (Op_Assign_Multiply, "*="); (Op_Assign_Divide, "/=");
  (Op_Assign_Modulo, "%="); (Op_Assign_BAnd, "&="); (Op_Assign_BOr, "|="); (Op_Assign_BXOr, "^="); (Op_Assign_LShift, "<<=");
  (Op_Assign_RShift, ">>="); (Op_Increment, "++"); (Op_Decrement, "--"); (Op_Unary_Plus, "+"); (Op_Unary_Minus, "-");
  (Op_UnaryNot, "!"); (Op_Add, "+"); (Op_Subtract, "-"); (Op_Multiply, "*"); (Op_Divide, "/"); (Op_Modulo, "%"); (Op_BNot, "~");
  (Op_BAnd, "&"); (Op_BOr, "|"); (Op_BXOr, "^"); (Op_LShift, "<<"); (Op_RShift, ">>"); (Op_LAnd, "&&"); (Op_LOr, "||");
  (Op_LEqual, "=="); (Op_LNot, "!="); (Op_Lesser, "<"); (Op_Greater, ">"); (Op_LesserEqual, "<="); (Op_GreaterEqual, ">=");
  (Op_Subscript, "[]"); (Op_Indirection, "*"); (Op_AddressOf, "&"); (Op_MemberOfPointer, "->"); (Op_PtrToMemOfPtr, "->*");
  (Op_FunctionCall, "()"); (Op_Comma, ","); (Op_New, "new"); (Op_NewArray, "new[]"); (Op_Delete, "delete"); (Op_DeleteArray, "delete[]")].

Definition access_spelling : list (Z * string) := [
  (AccessSpec_Default, ""); (AccessSpec_Private, "private"); (AccessSpec_Protected, "protected"); (AccessSpec_Public, "public")].
