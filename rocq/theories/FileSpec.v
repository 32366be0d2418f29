(** Files that can be read back: their members, each written as C41 says, and how they may follow each other. *)
From Coq Require Import String ZArith List Bool.
From Verif Require Import Common HashModel Text EnumModel EnumSpec LexModel LexSpec AstModel AstSpec SerSpec RelexSpec ParseSpec RoundSpec.
Import ListNotations.
Close Scope string_scope.
Open Scope Z_scope.

Section File.
Variable ms : macros.

(** enums: no opening brace inside an entry; without a body they need the form [enum name;] or [enum class name : word;] *)
Definition entries_flat (es : list tree) : Prop := forall x, In (Raw x) es -> ~ In 123 x.
Definition one_word (y : typ) : Prop := ty_tag y = NoTag /\ ty_specs y = None /\ exists e, writes ms (ty_name y) [e].
Definition shaped (t : tree) : Prop :=
  match t with
  | Enum _ _ _ _ es | EnumClass _ _ _ _ es => entries_flat es
  | EnumFwd _ _ _ y _ => y = None
  | EnumClassFwd _ _ _ y _ => one_word y
  | _ => True
  end.

(** variables: how they may begin *)
Definition first_specifiers : list Z := [Spec_Constexpr; Spec_Constinit; Spec_External_Linkage; Spec_Global; Spec_Inline; Spec_Static].
Definition file_specifiers : list Z := first_specifiers ++ [Spec_Mutable; Spec_Volatile].
Definition first_types : list Z :=
  [Tok_Identifier; Tok_Type_Long; Tok_Type_Short; Tok_Type_Signed; Tok_Type_Unsigned; Tok_Type_bool; Tok_Type_char; Tok_Type_double; Tok_Type_int].
Definition begins (specs : option (list Z)) (y : typ) : Prop :=
  ty_tag y = NoTag /\
  match specs with
  | Some l => Forall (fun s => In s file_specifiers) l /\ exists s r, l = s :: r /\ In s first_specifiers
  | None => forall e l, writes ms (ty_name y) (e :: l) -> In (snd e) first_types
  end.

(** functions: their specifiers, parameters and bodies.  The value of a parameter has no angle bracket, and a comma only in parentheses *)
Definition lead_specs (specs : option (list Z)) : Prop :=
  oall (fun l => l <> [] /\ Forall (fun s => In s first_specifiers) l /\ Z.of_nat (length l) <= SPECS_CAP) specs.
Definition default_text (v : list Z) : Prop :=
  exists l, phrase ms v l /\ tidy v /\ ~ In 60 v /\ ~ In 62 v /\
    brackets (Z.eqb Tok_Paren_Open) (Z.eqb Tok_Paren_Close) (fun d k => match d with O => k =? Tok_Comma | _ => false end) 0 (map snd l).
Definition param_written (p : param) : Prop :=
  exists ty, p_type p = Some ty /\ plain_typ ms ty /\ (p_name p = [] \/ is_name ms (p_name p)) /\ oall default_text (p_value p).
(** not [f(A, B)], which is read as a variable *)
Definition no_early_comma (ps : list param) : Prop := forall l, writes ms (params_text ps) l -> Forall (fun e => snd e <> Tok_Comma) (firstn 2 l).
Definition body_text (b : list Z) : Prop :=
  exists l, writes ms b l /\ l <> [] /\ Forall (fun e => fst e <> txt "extern") l /\ (exists c u, b = c :: u /\ c <> 32 /\ c <> 10) /\ (exists u c, b = u ++ [c] /\ In c [59; 125]) /\
    snd (last l ([], 0)) <> Tok_String /\ brackets (Z.eqb Tok_BraceCurly_Open) (Z.eqb Tok_BraceCurly_Close) (fun _ _ => false) 0 (map snd l).

(** the members of a file.  Not exported (C57).  A using declaration has no comment: it would gain a line end each time; nor has
    the forward declaration of a class: it would gain slashes *)
Inductive member : tree -> Prop :=
| fm_line : member NewLine
| fm_comment c : line_comment_text c -> member (Raw c)
| fm_namespace name : plain ms (UsingNamespace name) -> member (UsingNamespace name)
| fm_using name y : plain ms (Using false None name y None) -> member (Using false None name y None)
| fm_typedef y name cmt : plain ms (Typedef false y name cmt) -> member (Typedef false y name cmt)
| fm_variable specs y name sizes bits value cmt : plain ms (Var false None specs y name sizes bits value cmt) -> begins specs y ->
    (forall v, value <> InitParen v) -> member (Var false None specs y name sizes bits value cmt)
| fm_enum t : plain ms t -> shaped t -> (match t with Enum _ _ _ _ _ | EnumClass _ _ _ _ _ | EnumFwd _ _ _ _ _ | EnumClassFwd _ _ _ _ _ => True | _ => False end) -> member t
| fm_class name : is_name ms name -> member (ClassFwd false None name None)
| fm_struct name cmt : is_name ms name -> oall line_comment_text cmt -> member (StructFwd false None name cmt)
| fm_function specs ret name ps cmt : lead_specs specs -> plain_typ ms ret -> begins specs ret -> is_name ms name -> Forall param_written ps -> no_early_comma ps ->
    oall line_comment_text cmt -> member (FunctionFwd false None specs (Some ret) name ps cmt)
| fm_definition specs ret name ps b : lead_specs specs -> plain_typ ms ret -> begins specs ret -> is_name ms name -> Forall param_written ps -> no_early_comma ps ->
    body_text b -> member (Function None specs (Some ret) name ps [Raw b]).

(** empty lines in front of the first member are not kept, and an empty file is no file *)
Definition begun (l : list tree) : Prop := exists t r, l = t :: r /\ t <> NewLine.

(** nothing that looks like the declaration of a constructor or destructor outside its class, C::C( or C::~C( *)
Definition no_outside (l : list lexeme) : Prop := forall a q n o b, l = a ++ q :: n :: o :: b -> snd n = Tok_Identifier -> snd o = Tok_Paren_Open ->
  snd q <> Tok_Access_StaticSymbol /\ ~ (snd q = Tok_Operator /\ hd 0 (fst q) = 126).
End File.
(** the text of a file *)
Definition file_text (l : list tree) : list Z := concat (map render l).
(** what an earlier text has left behind the tokens of this one: neither a comment nor a macro call *)
Definition quiet (beyond : list token) : Prop :=
  exists a b r, beyond = a :: b :: r /\ t_type a <> Tok_Comment /\ t_type a <> Tok_Preprocess_Macro_Expr.
