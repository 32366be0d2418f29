(** The declarations as sequences of tokens, and the content they declare.  [raw] lists are the tokens as they stand
    in the token array; line ends and comments may stand between the tokens where [gap] says so. *)
From Coq Require Import String ZArith List Bool.
From Verif Require Import Common Text HashModel EnumModel EnumSpec LexModel LexSpec StripSpec AstModel AstSpec SerSpec.
Import ListNotations.
Close Scope string_scope.
Open Scope Z_scope.

Definition fmt (k : token) : Prop := t_type k = Tok_NewLine \/ t_type k = Tok_Comment.
Definition gap (g : list token) : Prop := Forall fmt g.
Definition flagged (k : token) (f : Z) : Prop := Z.land f (t_flags k) = f.

Section Grammar.
Variable src : list Z.

(** the text from the beginning of [a] to the end of [b] *)
Definition upto (a b : token) : list Z := firstn (Z.to_nat (t_end b - t_start a)) (skipn (Z.to_nat (t_start a)) src).
Definition word (k : token) : list Z := upto k k.
Definition kind (t : Z) (k : token) : Prop := t_type k = t.
(** the next token that is no line end or comment satisfies [P] *)
Definition next_is (rest : list token) (P : token -> Prop) : Prop :=
  exists g k r, rest = g ++ k :: r /\ gap g /\ ~ fmt k /\ P k.
Definition first_char (k : token) : Z := byte_at src (t_start k).
Definition char_behind (k : token) : Z := byte_at src (t_start k + 1).

(** what follows a name: no [<], no [::] *)
Definition ends_name (k : token) : Prop := t_type k <> Tok_Access_StaticSymbol /\ ~ (t_type k = Tok_Operator /\ first_char k = 60 /\ t_len k = 1).

(** template arguments behind their [<], with [d] more [<] open, up to the last [>]; [>>] closes two *)
Inductive args : nat -> list token -> Prop :=
| a_end k : kind Tok_Operator k -> word k = txt ">" -> args 0 [k]
| a_end2 k : kind Tok_Operator k -> word k = txt ">>" -> args 1 [k]
| a_format d k r : fmt k -> args d r -> args d (k :: r)
| a_open d k r : kind Tok_Operator k -> word k = txt "<" -> char_behind k <> 62 -> args (S d) r -> args d (k :: r)
| a_close d k r : kind Tok_Operator k -> word k = txt ">" -> char_behind k <> 62 -> args d r -> args (S d) (k :: r)
| a_other d k r : ~ fmt k -> first_char k <> 60 -> first_char k <> 62 -> (t_type k = Tok_Operator -> char_behind k <> 62) -> args d r -> args d (k :: r).
Definition template_args (raw : list token) : Prop :=
  raw = [] \/ exists g k r, raw = g ++ k :: r /\ gap g /\ kind Tok_Operator k /\ word k = txt "<" /\ args 0 r.
(** :: name<args> :: name ... *)
Inductive qualifiers : list token -> Prop :=
| q_end : qualifiers []
| q_more g1 c g2 i a r : gap g1 -> kind Tok_Access_StaticSymbol c -> gap g2 -> kind Tok_Identifier i -> template_args a -> qualifiers r ->
    qualifiers (g1 ++ c :: g2 ++ i :: a ++ r).
(** a name, of which [first] is the first token, and its text *)
Inductive named : list token -> list Z -> Prop :=
| nm first a q : kind Tok_Identifier first -> template_args a -> qualifiers q -> named (first :: a ++ q) (upto first (last (a ++ q) first)).

(** specifiers with their tokens *)
Definition spec_kind (t : Z) : Prop := Tok_Spec_Alignas <= t <= Tok_Star \/ t = Tok_Ampersand \/ t = Tok_Ampersand_DBL.
Definition spelled (k : token) (s : Z) : Prop := spec_kind (t_type k) /\ exists t, In (s, t) specifier_spelling /\ word k = txt t.
Inductive spec_tokens : list token -> list Z -> Prop :=
| s_end : spec_tokens [] []
| s_more g k s r l : gap g -> spelled k s -> spec_tokens r l -> spec_tokens (g ++ k :: r) (s :: l).

(** the name of a type, followed by [rest] *)
Definition native (k : token) : Prop := Tok_Type_Unsigned <= t_type k <= Tok_Type_MS_W64.
Definition tag_kind (t : tag) : Z :=
  match t with TagClass => Tok_Decl_Class | TagEnum => Tok_Decl_Enum | TagStruct => Tok_Decl_Struct | _ => Tok_Decl_Union end.
Inductive type_name : list token -> list token -> tag -> list Z -> Prop :=
| tn_name raw t rest : named raw t -> next_is rest ends_name -> type_name raw rest NoTag t
| tn_tag k tg g raw t rest : tg <> NoTag -> kind (tag_kind tg) k -> gap g -> named raw t -> next_is rest ends_name ->
    type_name (k :: g ++ raw) rest tg t
| tn_typename k g raw t rest : kind Tok_Type_Typename k -> gap g -> named raw t -> next_is rest ends_name -> type_name (k :: g ++ raw) rest NoTag t
(** unsigned long ...; directly followed by the next token *)
| tn_native first more k r : native first -> Forall (fun k => native k \/ fmt k) more -> (more = [] \/ native (last more first)) ->
    ~ fmt k -> ~ native k -> type_name (first :: more) (k :: r) NoTag (upto first (last more first)).

(** the text does not begin with a blank, no two blanks follow each other, and there are no other white space, quotes,
    comments or backslashes *)
Definition tidy (t : list Z) : Prop :=
  Forall (fun c => ~ In c [9; 10; 11; 12; 13; 34; 39; 47; 92]) t /\ (forall b, t <> 32 :: b) /\ forall a b, t <> a ++ [32; 32] ++ b.
(** [n] is the text [t] but for its white space *)
Definition respaced (t n : list Z) : Prop := words n = words t /\ (tidy t -> n = t).
Definition typ_respaced (a b : typ) : Prop :=
  respaced (ty_name a) (ty_name b) /\ ty_attrs b = ty_attrs a /\ ty_tag b = ty_tag a /\ ty_specs b = ty_specs a /\ ty_pack b = ty_pack a.

(** an attribute of one word, as GEN_API; the next token follows directly *)
Definition attribute_word (raw rest : list token) (o : option (list Z)) : Prop :=
  match o with
  | None => raw = []
  | Some t => exists g k k' r, raw = g ++ [k] /\ gap g /\ flagged k TF_Attribute /\
      ~ In (t_type k) [Tok_Attribute_Open; Tok_Decl_GNU_Attribute; Tok_Decl_MSVC_Attribute; Tok_NewLine; Tok_Comment] /\
      t = word k /\ tidy t /\ t <> [] /\ rest = k' :: r /\ ~ fmt k' /\ t_type k' <> Tok_Paren_Open
  end.

(** GEN_API const N::T<X>* const ... *)
Definition some_specs (l : list Z) : option (list Z) := match l with [] => None | _ => Some l end.
Inductive type_tokens : list token -> list token -> typ -> Prop :=
| ty att pre raw suf pk rest g at_ tg t sp sp' pack :
    attribute_word att (pre ++ g ++ raw ++ suf ++ pk ++ rest) at_ ->
    spec_tokens pre sp -> Forall (eq Spec_Const) sp -> gap g ->
    type_name raw (suf ++ pk ++ rest) tg t -> ~ In 92 t -> closed t -> words t <> [] ->
    spec_tokens suf sp' -> Forall (fun s => In s [Spec_Const; Spec_Ptr; Spec_Restrict; Spec_Ref; Spec_RValue]) sp' ->
    Z.of_nat (length (sp ++ sp')) <= SPECS_CAP ->
    (pack = false /\ pk = [] \/ pack = true /\ exists g k, pk = g ++ [k] /\ gap g /\ kind Tok_Varadic_Argument k) ->
    type_tokens (att ++ pre ++ g ++ raw ++ suf ++ pk) rest (Type_ at_ tg t (some_specs (sp ++ sp')) pack).
(** what ends a type *)
Definition ends_type (k : token) : Prop :=
  ~ flagged k TF_Specifier /\ t_type k <> Tok_Paren_Open /\ t_type k <> Tok_Varadic_Argument.

(** [3] [n + 1] : the text of a size runs to the token before its bracket *)
Inductive array_sizes : list token -> list (list Z) -> Prop :=
| as_end : array_sizes [] []
| as_more g o g' first more c r ss : gap g -> kind Tok_BraceSquare_Open o -> gap g' -> ~ fmt first ->
    Forall (fun k => t_type k <> Tok_BraceSquare_Close) (first :: more) -> kind Tok_BraceSquare_Close c ->
    upto first (last more first) <> [] -> array_sizes r ss ->
    array_sizes (g ++ o :: g' ++ first :: more ++ c :: r) (upto first (last more first) :: ss).
(** what ends them *)
Definition no_size (k : token) : Prop := t_type k <> Tok_BraceSquare_Open /\ ~ (t_type k = Tok_Operator /\ first_char k = 91).

(** export? and a keyword; nothing may stand between them *)
Definition keyword (t : Z) (x : bool) (raw : list token) : Prop :=
  exists g k, gap g /\ kind t k /\ (x = false /\ raw = g ++ [k] \/ x = true /\ exists ex, kind Tok_Module_Export ex /\ raw = g ++ [ex; k]).
(** [;] and a comment on its line *)
Inductive statement_end : list token -> list token -> option (list Z) -> Prop :=
| se_plain g k n r : gap g -> kind Tok_Statement_End k -> ~ (t_type n = Tok_Comment /\ t_line n = t_line k) ->
    statement_end (g ++ [k]) (n :: r) None
| se_comment g k c r : gap g -> kind Tok_Statement_End k -> kind Tok_Comment c -> t_line c = t_line k -> word c <> [] ->
    statement_end (g ++ [k; c]) r (Some (word c)).

(** export? using namespace N; and export? using N = type[sizes]; *)
Definition assigns (k : token) : Prop := kind Tok_Operator k /\ flagged k TF_Assign.
Inductive using_tokens : list token -> list token -> tree -> Prop :=
| u_namespace x kw g1 ns g2 k fin rest cmt : keyword Tok_Decl_Using x kw -> gap g1 -> kind Tok_Decl_Namespace ns -> gap g2 ->
    kind Tok_Identifier k -> word k <> [] -> statement_end fin rest cmt ->
    using_tokens (kw ++ g1 ++ ns :: g2 ++ k :: fin) rest (UsingNamespace (word k))
| u_name x kw g1 k att at_ fin rest cmt : keyword Tok_Decl_Using x kw -> gap g1 -> kind Tok_Identifier k -> word k <> [] ->
    attribute_word att fin at_ -> statement_end fin rest cmt ->
    using_tokens (kw ++ g1 ++ k :: att ++ fin) rest (Using x at_ (word k) None cmt)
| u_type x kw g1 k g2 eq ty_ ty sizes ss fin rest cmt : keyword Tok_Decl_Using x kw -> gap g1 -> kind Tok_Identifier k -> word k <> [] ->
    gap g2 -> assigns eq -> type_tokens ty_ (sizes ++ fin) ty -> array_sizes sizes ss -> statement_end fin rest cmt ->
    using_tokens (kw ++ g1 ++ k :: g2 ++ eq :: ty_ ++ sizes ++ fin) rest (Using x None (word k) (Some (ty, ss)) cmt).

(** export? typedef type name[sizes]; the type does not begin with class, struct, union, enum or a macro *)
Definition plain_type (k : token) : Prop :=
  ~ In (t_type k) [Tok_Decl_Class; Tok_Decl_Enum; Tok_Decl_Struct; Tok_Decl_Union; Tok_Preprocess_Macro_Typename; Tok_Preprocess_Macro_Stmt].
Inductive typedef_tokens : list token -> list token -> bool -> typ -> list Z -> list (list Z) -> option (list Z) -> Prop :=
| td x kw ty_ ty g2 k sizes ss fin rest cmt : keyword Tok_Decl_Typedef x kw ->
    type_tokens ty_ (g2 ++ k :: sizes ++ fin) ty -> next_is ty_ plain_type -> gap g2 -> kind Tok_Identifier k -> word k <> [] ->
    array_sizes sizes ss -> statement_end fin rest cmt ->
    typedef_tokens (kw ++ ty_ ++ g2 ++ k :: sizes ++ fin) rest x ty (word k) ss cmt.

(** a text in brackets: tokens of which those of the kinds [o] open a bracket, those of the kinds [c] close one, and
    [bad d] are not allowed inside [d] brackets *)
Inductive nested (o c : Z -> Prop) (bad : nat -> Z -> Prop) : nat -> list token -> Prop :=
| n_end : nested o c bad 0 []
| n_open d k r : o (t_type k) -> nested o c bad (S d) r -> nested o c bad d (k :: r)
| n_close d k r : c (t_type k) -> nested o c bad d r -> nested o c bad (S d) (k :: r)
| n_other d k r : ~ o (t_type k) -> ~ c (t_type k) -> ~ bad d (t_type k) -> nested o c bad d r -> nested o c bad d (k :: r).
Definition in_braces := nested (eq Tok_BraceCurly_Open) (eq Tok_BraceCurly_Close) (fun _ _ => False) 0.
Definition in_parens := nested (eq Tok_Paren_Open) (eq Tok_Paren_Close) (fun _ _ => False) 0.
(** an expression: no [;], and a comma only inside brackets *)
Definition expression := nested (fun t => t = Tok_BraceCurly_Open \/ t = Tok_Paren_Open) (fun t => t = Tok_BraceCurly_Close \/ t = Tok_Paren_Close)
  (fun d t => t = Tok_Statement_End \/ d = O /\ t = Tok_Comma) 0.
(** the text from the beginning of [a] to the beginning of [b] *)
Definition until (a b : token) : list Z := firstn (Z.to_nat (t_start b - t_start a)) (skipn (Z.to_nat (t_start a)) src).
(** = value, {values}, (values), or : bits, followed by the [;] in [rest]; a value reaches to the [;] *)
Inductive initial : list token -> list token -> init -> option (list Z) -> Prop :=
| i_none rest : initial [] rest NoInit None
| i_assign g eq g' first more semi r : gap g -> assigns eq -> gap g' -> ~ fmt first -> expression (first :: more) ->
    kind Tok_Statement_End semi -> t_len semi = 1 -> until first semi <> [] ->
    initial (g ++ eq :: g' ++ first :: more) (semi :: r) (InitEq (until first semi)) None
| i_braces g o body c rest : gap g -> kind Tok_BraceCurly_Open o -> in_braces body -> kind Tok_BraceCurly_Close c -> upto o c <> [] ->
    initial (g ++ o :: body ++ [c]) rest (InitEq (upto o c)) None
| i_parens g o g' first more c rest : gap g -> kind Tok_Paren_Open o -> gap g' -> ~ fmt first -> in_parens (first :: more) -> kind Tok_Paren_Close c ->
    upto first (last more first) <> [] ->
    initial (g ++ o :: g' ++ first :: more ++ [c]) rest (InitParen (upto first (last more first))) None
| i_bits g o g' first more semi r : gap g -> kind Tok_Assign_Classifer o -> gap g' -> ~ fmt first ->
    Forall (fun k => t_type k <> Tok_Statement_End) (first :: more) -> kind Tok_Statement_End semi -> upto first (last more first) <> [] ->
    initial (g ++ o :: g' ++ first :: more) (semi :: r) NoInit (Some (upto first (last more first))).
(** [;] and a comment on its line, or [;] as the last token *)
Definition variable_end (raw rest : list token) (cmt : option (list Z)) : Prop :=
  statement_end raw rest cmt \/ rest = [] /\ cmt = None /\ exists g k, raw = g ++ [k] /\ gap g /\ kind Tok_Statement_End k.
Definition exported (x : bool) (raw : list token) : Prop := x = false /\ raw = [] \/ x = true /\ exists g k, raw = g ++ [k] /\ gap g /\ kind Tok_Module_Export k.
Definition variable_specifiers : list Z :=
  [Spec_Constexpr; Spec_Constinit; Spec_External_Linkage; Spec_Global; Spec_Inline; Spec_Local_Persist; Spec_Mutable; Spec_Restrict; Spec_Static;
   Spec_Thread_Local; Spec_Volatile].
(** export? attribute? specifiers type name[sizes] initializer; *)
Inductive variable_tokens : list token -> list token -> tree -> Prop :=
| vt x ex att at_ pre sp ty_ ty g nm name sizes ss ini value bits fin rest cmt :
    exported x ex -> attribute_word att (pre ++ ty_ ++ g ++ nm ++ sizes ++ ini ++ fin) at_ ->
    spec_tokens pre sp -> Forall (fun s => In s variable_specifiers) sp -> Z.of_nat (length sp) <= SPECS_CAP ->
    type_tokens ty_ (g ++ nm ++ sizes ++ ini ++ fin) ty -> ty_attrs ty = None -> gap g -> named nm name -> name <> [] ->
    next_is (sizes ++ ini ++ fin) ends_name -> next_is (ini ++ fin) no_size -> array_sizes sizes ss -> initial ini fin value bits -> (ss = [] \/ bits = None) -> variable_end fin rest cmt ->
    variable_tokens (ex ++ att ++ pre ++ ty_ ++ g ++ nm ++ sizes ++ ini ++ fin) rest (Var x at_ (some_specs sp) ty name ss bits value cmt).

(** an entry of an enum: name = value, with its comma; the text of the last one reaches to the closing brace *)
Definition entry_value (raw : list token) : Prop :=
  raw = [] \/ exists g eq more, raw = g ++ eq :: more /\ gap g /\ kind Tok_Operator eq /\ first_char eq = 61 /\
    Forall (fun k => t_type k <> Tok_Comma /\ t_type k <> Tok_BraceCurly_Close) more.
Inductive entry : list token -> list token -> list Z -> Prop :=
| en_comma k v g c rest : kind Tok_Identifier k -> entry_value v -> gap g -> kind Tok_Comma c -> entry (k :: v ++ g ++ [c]) rest (upto k c)
| en_last k v g c r : kind Tok_Identifier k -> entry_value v -> gap g -> kind Tok_BraceCurly_Close c -> entry (k :: v ++ g) (c :: r) (upto k (last (v ++ g) k)).
(** the entries, and the empty lines and comments between them *)
Inductive enum_body : list token -> list token -> list (list Z) -> Prop :=
| eb_end rest : enum_body [] rest []
| eb_format k r rest l : fmt k -> word k <> [] -> enum_body r rest l -> enum_body (k :: r) rest (word k :: l)
| eb_entry en t r rest l : entry en (r ++ rest) t -> t <> [] -> enum_body r rest l -> enum_body (en ++ r) rest (t :: l).
Definition enum_block (raw : list token) (o : option (list (list Z))) : Prop :=
  match o with
  | None => raw = []
  | Some l => exists g o body c, raw = g ++ o :: body ++ [c] /\ gap g /\ kind Tok_BraceCurly_Open o /\ enum_body body [c] l /\ kind Tok_BraceCurly_Close c
  end.
Definition underlying (raw rest : list token) (o : option typ) : Prop :=
  match o with
  | None => raw = []
  | Some y => exists g colon ty_, raw = g ++ colon :: ty_ /\ gap g /\ kind Tok_Assign_Classifer colon /\ type_tokens ty_ rest y
  end.
(** the comment behind the closing brace is not part of the tree *)
Definition enum_tree (class : bool) (at_ : option (list Z)) (name : list Z) (ty : option typ) (body : option (list (list Z))) (cmt : option (list Z)) : option tree :=
  match class, body, ty with
  | false, Some l, _ => Some (Enum false at_ name ty (map Raw l))
  | true, Some l, Some y => Some (EnumClass false at_ name y (map Raw l))
  | false, None, _ => Some (EnumFwd false at_ name ty cmt)
  | true, None, Some y => Some (EnumClassFwd false at_ name y cmt)
  | true, _, None => None
  end.
(** enum class? attribute? name : type { entries }; *)
Inductive enum_tokens : list token -> list token -> tree -> Prop :=
| et k class cl att at_ g nm und ty blk body fin rest cmt t :
    kind Tok_Decl_Enum k -> (class = false /\ cl = [] \/ class = true /\ exists g c, cl = g ++ [c] /\ gap g /\ kind Tok_Decl_Class c) ->
    attribute_word att (g ++ nm :: und ++ blk ++ fin) at_ -> gap g -> kind Tok_Identifier nm -> word nm <> [] ->
    underlying und (blk ++ fin) ty -> enum_block blk body -> statement_end fin rest cmt -> enum_tree class at_ (word nm) ty body cmt = Some t ->
    enum_tokens (k :: cl ++ att ++ g ++ nm :: und ++ blk ++ fin) rest t.
End Grammar.

(** the same but for the spacing of type names *)
Inductive tree_respaced : tree -> tree -> Prop :=
| tr_same t : tree_respaced t t
| tr_using x at_ name ty ty' ss cmt : typ_respaced ty ty' -> tree_respaced (Using x at_ name (Some (ty, ss)) cmt) (Using x at_ name (Some (ty', ss)) cmt)
| tr_var x at_ sp ty ty' name ss bits v cmt : typ_respaced ty ty' -> tree_respaced (Var x at_ sp ty name ss bits v cmt) (Var x at_ sp ty' name ss bits v cmt)
| tr_enum x at_ name ty ty' l : typ_respaced ty ty' -> tree_respaced (Enum x at_ name (Some ty) l) (Enum x at_ name (Some ty') l)
| tr_enum_class x at_ name ty ty' l : typ_respaced ty ty' -> tree_respaced (EnumClass x at_ name ty l) (EnumClass x at_ name ty' l)
| tr_enum_fwd x at_ name ty ty' c : typ_respaced ty ty' -> tree_respaced (EnumFwd x at_ name (Some ty) c) (EnumFwd x at_ name (Some ty') c)
| tr_enum_class_fwd x at_ name ty ty' c : typ_respaced ty ty' -> tree_respaced (EnumClassFwd x at_ name ty c) (EnumClassFwd x at_ name ty' c).

(** a typedef node; with no sizes it holds the tree Typedef of SerSpec *)
Definition typedef_at (h : heap) (c : Z) (x : bool) (ty : typ) (name : list Z) (ss : list (list Z)) (cmt : option (list Z)) : Prop :=
  let n := h_node h c in
  kind_is h c [CT_Typedef] /\ exports n x /\ typ_at h (n_ret n) ty /\ kind_is h (n_ret n) [CT_Typename] /\ n_ret (h_node h (n_ret n)) = 0 /\
  n_parent (h_node h (n_ret n)) = c /\ raws_from h (n_body (h_node h (n_ret n))) ss /\ n_name n = name /\ name <> [] /\ maybe (comment_at h) (n_inline n) cmt.


(** the flags of a token are those of its kind *)
Definition macro_kind (t : Z) : Prop := In t [Tok_Preprocess_Macro_Expr; Tok_Preprocess_Macro_Stmt; Tok_Preprocess_Macro_Typename].
Definition flags_fit (k : token) : Prop :=
  macro_kind (t_type k) \/
  ((flagged k TF_Specifier <-> spec_kind (t_type k)) /\ (flagged k TF_Attribute -> t_type k = Tok_Attribute_GEN_API) /\
   (flagged k TF_Assign -> t_type k = Tok_Operator \/ t_type k = Tok_Star) /\
   (flagged k TF_Identifier -> t_type k = Tok_Preprocess_Define \/ t_type k = Tok_Preprocess_Include) /\
   (flagged k TF_AccessSpecifier <-> Tok_Access_Private <= t_type k <= Tok_Access_Public)).
(** a registered macro is of one of the three kinds *)
Definition macro_fits (m : Z * macro) : Prop := 0 <= mac_type (snd m) <= 2.
