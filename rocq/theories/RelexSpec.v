(** The lexical grammar, on the side of the writer: [writes ms t l] says that the text [t] is written as the words,
    numbers, strings, symbols and comments [l] (text and kind), separated by spaces and line ends. *)
From Coq Require Import String ZArith List Bool.
From Verif Require Import Common HashModel Text EnumModel EnumSpec LexModel LexSpec SerSpec.
Import ListNotations.
Close Scope string_scope.
Open Scope Z_scope.

Definition lexeme := (list Z * Z)%type.

Definition byte_ok (c : Z) : Prop := 0 < c < 256.
(** an identifier or keyword *)
Definition is_word (w : list Z) : Prop := Forall word_char w /\ w <> [] /\ ~ digit (hd 0 w).
(** a name: not a keyword, not a registered macro (and its hash is not a keyword's) *)
Definition is_name (ms : macros) (w : list Z) : Prop :=
  is_word w /\ (forall kw, In kw toktype_table -> crc32 kw <> crc32 w) /\ lookup_macro ms w = None.
(** after blanks, a string follows *)
Definition quoted (t : list Z) : Prop := exists a b, t = a ++ 34 :: b /\ Forall spacep a.
(** the kind of the word [w] followed by [t] *)
Definition word_kind (ms : macros) (w t : list Z) (k : Z) : Prop :=
  (exists s, In (k, s) token_spelling /\ w = txt s /\ s <> "extern"%string) \/
  (w = txt "extern" /\ k = Tok_Spec_Extern /\ ~ quoted t) \/ (w = txt "extern" /\ k = Tok_Decl_Extern_Linkage /\ quoted t) \/
  (is_name ms w /\ k = Tok_Identifier).

(** the symbols, their kinds, and the characters that may not follow *)
Definition symbols : list (string * Z * string) := [
  ("(", Tok_Paren_Open, ""); (")", Tok_Paren_Close, ""); (",", Tok_Comma, ""); (";", Tok_Statement_End, "");
  ("{", Tok_BraceCurly_Open, ""); ("}", Tok_BraceCurly_Close, ""); ("[", Tok_BraceSquare_Open, "]"); ("]", Tok_BraceSquare_Close, "");
  ("*", Tok_Star, "="); ("&", Tok_Ampersand, "&"); ("&&", Tok_Ampersand_DBL, ""); ("...", Tok_Varadic_Argument, "");
  (":", Tok_Assign_Classifer, ":"); ("::", Tok_Access_StaticSymbol, ""); ("=", Tok_Operator, "=");
  ("<", Tok_Operator, "<="); (">", Tok_Operator, ">="); ("~", Tok_Operator, "~="); ("?", Tok_Operator, "");
  (".", Tok_Access_MemberSymbol, "."); ("+", Tok_Operator, "+="); ("-", Tok_Operator, "-=>"); ("%", Tok_Operator, "%="); ("^", Tok_Operator, "^=");
  ("!", Tok_Operator, "!="); ("|", Tok_Operator, "|="); ("/", Tok_Operator, "=/*"); ("==", Tok_Operator, ""); ("->", Tok_Operator, "*");
  ("->*", Tok_Operator, ""); ("[]", Tok_Operator, ""); ("+=", Tok_Operator, ""); ("-=", Tok_Operator, ""); ("*=", Tok_Star, ""); ("/=", Tok_Operator, "");
  ("%=", Tok_Operator, ""); ("^=", Tok_Operator, ""); ("|=", Tok_Operator, ""); ("!=", Tok_Operator, ""); ("<=", Tok_Operator, ""); (">=", Tok_Operator, "");
  ("++", Tok_Operator, "+"); ("--", Tok_Operator, "-"); ("<<", Tok_Operator, "<"); (">>", Tok_Operator, ">"); ("||", Tok_Operator, "|")]%string.

(** [writes ms t l]: the text [t] is written as [l], with spaces and line ends between *)
Inductive writes (ms : macros) : list Z -> list lexeme -> Prop :=
| w_end : writes ms [] []
| w_blank c t l : c = 32 \/ c = 10 -> writes ms t l -> writes ms (c :: t) l
| w_word w k t l : is_word w -> word_kind ms w t k -> ~ word_char (hd 0 t) -> writes ms t l -> writes ms (w ++ t) ((w, k) :: l)
| w_symbol s k no t l : In (s, k, no) symbols -> ~ In (hd 0 t) (txt no) -> writes ms t l -> writes ms (txt s ++ t) ((txt s, k) :: l)
| w_comment u t l : Forall byte_ok u -> ~ In 10 u -> ~ In 13 u -> writes ms t l ->
    writes ms (txt "//" ++ u ++ 10 :: t) ((txt "//" ++ u ++ [10], Tok_Comment) :: l)
| w_number d t l : d <> [] -> Forall digit d -> ~ digit (hd 0 t) -> ~ In (hd 0 t) (txt "xXbBoO.") -> writes ms t l -> writes ms (d ++ t) ((d, Tok_Number) :: l)
(** the text of a string's token lacks the closing quote *)
| w_string u t l : Forall byte_ok u -> ~ In 34 u -> ~ In 92 u -> writes ms t l -> writes ms (34 :: u ++ 34 :: t) ((34 :: u, Tok_String) :: l)
| w_char u t l : Forall byte_ok u -> ~ In 39 u -> ~ In 92 u -> writes ms t l -> writes ms (39 :: u ++ 39 :: t) ((39 :: u ++ [39], Tok_Char) :: l).

Definition lexemes_of (src : list Z) (toks : list token) : list lexeme := map (fun k => (text_of src k, t_type k)) toks.

(** the tokens without those of empty lines *)
Definition visible (l : list lexeme) : list lexeme := filter (fun x => negb (snd x =? Tok_NewLine)) l.

(** ** the tokens of a piece of code, given the tokens [lx x] of each of its texts [x] *)
(** a keyword or symbol *)
Definition tk (s : string) : lexeme :=
  (txt s, match find (fun p => String.eqb (snd p) s) token_spelling with
          | Some (k, _) => k
          | None => match find (fun '(x, _, _) => String.eqb x s) symbols with Some (_, k, _) => k | None => Tok_Identifier end
          end).
Definition tks (b : bool) (s : string) : list lexeme := if b then [tk s] else [].
Definition tko {A} (o : option A) (f : A -> list lexeme) : list lexeme := match o with Some a => f a | None => [] end.
(** a specifier; "register", "noexcept" and "delete" have no token kind of their own *)
Definition spec_tokens (s : Z) : list lexeme :=
  if s =? Spec_External_Linkage then [(txt "extern", Tok_Spec_Extern)]
  else if s =? Spec_Pure then [tk "="; (txt "0", Tok_Number)]
  else if s =? Spec_Delete then [tk "="; (txt "delete", Tok_Identifier)]
  else match find (fun p => fst p =? s) specifier_spelling with Some (_, t) => [tk t] | None => [] end.
Definition line_comment (c : list Z) : list lexeme := [(txt "// " ++ c ++ NL, Tok_Comment)].

Section Tokens.
Variable lx : list Z -> list lexeme.
Definition typ_tokens (t : typ) : list lexeme :=
  tko (ty_attrs t) lx ++ (match ty_tag t with NoTag => [] | TagClass => [tk "class"] | TagEnum => [tk "enum"] | TagStruct => [tk "struct"] | TagUnion => [tk "union"] end) ++
  lx (ty_name t) ++ tko (ty_specs t) (flat_map spec_tokens) ++ tks (ty_pack t) "...".
Definition param_tokens (p : param) : list lexeme :=
  tko (p_type p) typ_tokens ++ lx (p_name p) ++ tko (p_value p) (fun v => tk "=" :: lx v).
Definition params_tokens (l : list param) : list lexeme :=
  match l with [] => [] | p :: r => param_tokens p ++ flat_map (fun q => tk "," :: param_tokens q) r end.
Definition some_specs (sel : Z -> bool) (o : option (list Z)) : list lexeme := tko o (fun l => flat_map spec_tokens (filter sel l)).
Definition sizes_tokens (l : list (list Z)) : list lexeme := flat_map (fun s => [tk "["] ++ lx s ++ [tk "]"]) l.
Definition access_tokens (a : Z) : list lexeme :=
  match find (fun p => fst p =? a) access_spelling with Some (_, ""%string) | None => [] | Some (_, t) => [tk t] end.
Definition init_tokens (i : init) : list lexeme :=
  match i with NoInit => [] | InitEq v => tk "=" :: lx v | InitParen v => [tk "("] ++ lx v ++ [tk ")"] end.
Definition parens (l : list lexeme) : list lexeme := [tk "("] ++ l ++ [tk ")"].
Definition curly (l : list lexeme) : list lexeme := [tk "{"] ++ l ++ [tk "}"].
Definition end_tokens (cmt : option (list Z)) : list lexeme := tk ";" :: tko cmt lx.

Fixpoint tokens (t : tree) : list lexeme :=
  let entries := flat_map tokens in
  match t with
  | Raw x => lx x
  | NewLine => []
  | Block l => entries l
  | Namespace x name l => tks x "export" ++ [tk "namespace"] ++ lx name ++ curly (entries l)
  | Linkage name l => [(txt "extern", Tok_Decl_Extern_Linkage); (txt """" ++ name, Tok_String)] ++ curly (entries l)
  | Struct x at_ name final parent cmt l =>
      tks x "export" ++ [tk "struct"] ++ tko at_ lx ++ lx name ++ tks final "final" ++
      tko parent (fun '(acc, p, is) => [tk ":"] ++ access_tokens acc ++ typ_tokens p ++ flat_map (fun i => tk "," :: typ_tokens i) is) ++
      tko cmt line_comment ++ curly (entries l) ++ [tk ";"]
  | Class x at_ name final cmt l =>
      tks x "export" ++ [tk "class"] ++ tko at_ lx ++ lx name ++ tks final "final" ++ tko cmt line_comment ++ curly (entries l) ++ [tk ";"]
  | Union x at_ name l => tks x "export" ++ [tk "union"] ++ tko at_ lx ++ lx name ++ curly (entries l) ++ [tk ";"]
  | Enum x at_ name ty l =>
      tks x "export" ++ [tk "enum"] ++ tko at_ lx ++ lx name ++ tko ty (fun t => tk ":" :: typ_tokens t) ++ curly (entries l) ++ [tk ";"]
  | EnumClass x at_ name ty l =>
      tks x "export" ++ [tk "enum"; tk "class"] ++ tko at_ lx ++ lx name ++ [tk ":"] ++ typ_tokens ty ++ curly (entries l) ++ [tk ";"]
  | StructFwd x at_ name cmt => tks x "export" ++ [tk "struct"] ++ tko at_ lx ++ lx name ++ end_tokens cmt
  | ClassFwd x at_ name cmt => tks x "export" ++ [tk "class"] ++ tko at_ lx ++ lx name ++ [tk ";"] ++ tko cmt line_comment
  | UnionFwd x at_ name => tks x "export" ++ [tk "union"] ++ tko at_ lx ++ lx name ++ [tk ";"]
  | EnumFwd x at_ name ty cmt =>
      tks x "export" ++ tko at_ lx ++ [tk "enum"] ++ lx name ++ tko ty (fun t => tk ":" :: typ_tokens t) ++ end_tokens cmt
  | EnumClassFwd x at_ name ty cmt =>
      tks x "export" ++ [tk "enum"; tk "class"] ++ tko at_ lx ++ lx name ++ [tk ":"] ++ typ_tokens ty ++ end_tokens cmt
  | Function at_ specs ret name ps l =>
      tko at_ lx ++ some_specs leading specs ++ tko ret typ_tokens ++ lx name ++ parens (params_tokens ps) ++ some_specs trails specs ++ curly (entries l)
  | FunctionFwd x at_ specs ret name ps cmt =>
      tks x "export" ++ tko at_ lx ++ some_specs leading specs ++ tko ret typ_tokens ++ lx name ++ parens (params_tokens ps) ++ some_specs trails specs ++ end_tokens cmt
  | Operator x specs ret name ps l =>
      tks x "export" ++ some_specs leading specs ++ typ_tokens ret ++ lx name ++ parens (params_tokens ps) ++ some_specs trails specs ++ curly (entries l)
  | OperatorFwd x at_ specs ret name ps cmt =>
      tks x "export" ++ tko at_ lx ++ some_specs leading specs ++ typ_tokens ret ++ lx name ++ parens (params_tokens ps) ++ some_specs trails specs ++ end_tokens cmt
  | Cast specs ty l => some_specs leading specs ++ [tk "operator"] ++ typ_tokens ty ++ parens [] ++ some_specs trails specs ++ curly (entries l)
  | CastFwd specs ty => some_specs leading specs ++ [tk "operator"] ++ typ_tokens ty ++ parens [] ++ some_specs trails specs ++ [tk ";"]
  | Constructor class ps inits cmt b => lx class ++ parens (params_tokens ps) ++ tko inits (fun t => tk ":" :: lx t) ++ tko cmt line_comment ++ curly (tokens b)
  | ConstructorFwd class ps value cmt => lx class ++ parens (params_tokens ps) ++ tko value (fun t => tk "=" :: lx t) ++ [tk ";"] ++ tko cmt line_comment
  | Destructor v class b => tks v "virtual" ++ [tk "~"] ++ lx class ++ parens [] ++ curly (tokens b)
  | DestructorFwd class => [tk "~"] ++ lx class ++ parens [] ++ [tk ";"]
  | Typedef x ty name cmt => tks x "export" ++ [tk "typedef"] ++ typ_tokens ty ++ lx name ++ end_tokens cmt
  | Using x at_ name ty cmt =>
      tks x "export" ++ tko at_ lx ++ [tk "using"] ++ lx name ++ tko ty (fun '(t, ss) => [tk "="] ++ typ_tokens t ++ sizes_tokens ss) ++ end_tokens cmt
  | UsingNamespace name => [tk "using"; tk "namespace"] ++ lx name ++ [tk ";"]
  | Var x at_ specs ty name sizes bits value cmt =>
      tks x "export" ++ tko at_ lx ++ tko specs (flat_map spec_tokens) ++ typ_tokens ty ++ lx name ++ sizes_tokens sizes ++
      tko bits (fun b => tk ":" :: lx b) ++ init_tokens value ++ end_tokens cmt
  | Template x ps d => tks x "export" ++ [tk "template"; tk "<"] ++ params_tokens ps ++ [tk ">"] ++ tokens d
  | Friend d => [tk "friend"] ++ tokens d ++ tks (negb (is_def d)) ";"
  | Module x i name => tks x "export" ++ tks i "import" ++ lx name ++ [tk ";"]
  | Define _ _ | IfDef _ | ElIf _ | Else | EndIf | Include _ | Pragma _ => []
  end.

(** ** when the texts are written so that this is what they say *)
Variable ms : macros.
(** a text with the tokens [lx x], in which [extern] does not occur *)
Definition leaf (x : list Z) : Prop := writes ms x (lx x) /\ Forall (fun l => fst l <> txt "extern") (lx x).
(** one that begins with neither a blank nor a quote *)
Definition opens (x : list Z) : Prop := exists c u, x = c :: u /\ c <> 34 /\ ~ spacep c.
Definition item (x : list Z) : Prop := leaf x /\ opens x.
(** one that is finished by its last character *)
Definition sealed (x : list Z) : Prop := exists y c, x = y ++ [c] /\ In c [10; 32; 59; 125; 41; 44].
Definition oall {A} (P : A -> Prop) (o : option A) : Prop := match o with Some a => P a | None => True end.
Definition clean_comment (c : list Z) : Prop := Forall byte_ok c /\ ~ In 10 c /\ ~ In 13 c.
Definition end_ok (cmt : option (list Z)) : Prop := oall (fun c => leaf c /\ sealed c) cmt.
(** "&" must not be followed by "&" or "&&" *)
Fixpoint no_ref_ref (l : list Z) : Prop :=
  match l with s :: ((r :: _) as q) => ~ (s = Spec_Ref /\ (r = Spec_Ref \/ r = Spec_RValue)) /\ no_ref_ref q | _ => True end.
Definition specs_fine (l : list Z) : Prop := Forall (fun s => In s (map fst specifier_spelling)) l.
Definition typ_ok (t : typ) : Prop :=
  oall item (ty_attrs t) /\ item (ty_name t) /\
  oall (fun l => specs_fine l /\ no_ref_ref l /\ ~ In Spec_External_Linkage l) (ty_specs t) /\ (ty_pack t = true -> ty_specs t <> None).
Definition param_ok (p : param) : Prop := oall typ_ok (p_type p) /\ leaf (p_name p) /\ oall leaf (p_value p).
Definition begins_word (x : list Z) : Prop := leaf x /\ word_char (hd 0 x).

Fixpoint lexable (t : tree) : Prop :=
  let entries := fix entries (l : list tree) := match l with [] => True | t :: r => lexable t /\ entries r end in
  match t with
  | Raw x => leaf x /\ sealed x
  | NewLine => True
  | Block l => entries l
  | Namespace _ name l => leaf name /\ entries l
  | Linkage name l => Forall byte_ok name /\ ~ In 34 name /\ ~ In 92 name /\ entries l
  | Struct _ at_ name _ parent cmt l =>
      oall leaf at_ /\ leaf name /\ oall (fun '(acc, p, is) => typ_ok p /\ Forall typ_ok is) parent /\ oall clean_comment cmt /\ entries l
  | Class _ at_ name _ cmt l => oall leaf at_ /\ leaf name /\ oall clean_comment cmt /\ entries l
  | Union _ at_ name l => oall leaf at_ /\ leaf name /\ entries l
  | Enum _ at_ name ty l => oall leaf at_ /\ leaf name /\ oall typ_ok ty /\ entries l
  | EnumClass _ at_ name ty l => oall leaf at_ /\ leaf name /\ typ_ok ty /\ entries l
  | StructFwd _ at_ name cmt => oall leaf at_ /\ leaf name /\ end_ok cmt
  | ClassFwd _ at_ name cmt => oall leaf at_ /\ leaf name /\ oall clean_comment cmt
  | UnionFwd _ at_ name => oall leaf at_ /\ leaf name
  | EnumFwd _ at_ name ty cmt => oall leaf at_ /\ leaf name /\ oall typ_ok ty /\ end_ok cmt
  | EnumClassFwd _ at_ name ty cmt => oall leaf at_ /\ leaf name /\ typ_ok ty /\ end_ok cmt
  | Function at_ specs ret name ps l =>
      oall leaf at_ /\ oall specs_fine specs /\ oall typ_ok ret /\ item name /\ Forall param_ok ps /\ entries l
  | FunctionFwd _ at_ specs ret name ps cmt =>
      oall leaf at_ /\ oall specs_fine specs /\ oall typ_ok ret /\ item name /\ Forall param_ok ps /\ end_ok cmt
  | Operator _ specs ret name ps l => oall specs_fine specs /\ typ_ok ret /\ item name /\ Forall param_ok ps /\ entries l
  | OperatorFwd _ at_ specs ret name ps cmt => oall leaf at_ /\ oall specs_fine specs /\ typ_ok ret /\ item name /\ Forall param_ok ps /\ end_ok cmt
  | Cast specs ty l => oall specs_fine specs /\ typ_ok ty /\ entries l
  | CastFwd specs ty => oall specs_fine specs /\ typ_ok ty
  | Constructor class ps inits cmt b => leaf class /\ Forall param_ok ps /\ oall leaf inits /\ oall clean_comment cmt /\ lexable b
  | ConstructorFwd class ps value cmt => leaf class /\ Forall param_ok ps /\ oall leaf value /\ oall clean_comment cmt
  | Destructor _ class b => begins_word class /\ lexable b
  | DestructorFwd class => begins_word class
  | Typedef _ ty name cmt => typ_ok ty /\ leaf name /\ end_ok cmt
  | Using _ at_ name ty cmt => oall leaf at_ /\ leaf name /\ oall (fun '(t, ss) => typ_ok t /\ Forall leaf ss) ty /\ oall leaf cmt
  | UsingNamespace name => leaf name
  | Var _ at_ specs ty name sizes bits value cmt =>
      oall leaf at_ /\ oall (fun l => specs_fine l /\ no_ref_ref l) specs /\ typ_ok ty /\ leaf name /\ Forall leaf sizes /\ oall leaf bits /\
      match value with NoInit => True | InitEq v | InitParen v => leaf v end /\ end_ok cmt
  | Template _ ps d => Forall param_ok ps /\ lexable d
  | Friend d => lexable d
  | Module _ _ name => leaf name
  | Define _ _ | IfDef _ | ElIf _ | Else | EndIf | Include _ | Pragma _ => False
  end.
End Tokens.
