(** Global bodies and namespaces as sequences of tokens, and the content they declare: continues ParseSpec.v and FnSpec.v. *)
From Coq Require Import String ZArith List Bool.
From Verif Require Import Common Text HashModel StrOpsModel EnumModel EnumSpec LexModel LexSpec StripSpec AstModel AstSpec SerSpec ParseSpec FnSpec.
Import ListNotations.
Close Scope string_scope.
Open Scope Z_scope.

Section Grammar.
Variable src : list Z.
(** what the token buffer still holds behind the tokens of the text *)
Variable beyond : list token.
Local Notation word := (word src).
Local Notation first_char := (first_char src).
Local Notation char_behind := (char_behind src).

(** ** what the library looks at before it decides what a declaration is *)
(** whether a token opens or closes an angle bracket *)
Definition angle (k : token) : Z :=
  (if first_char k =? 60 then 1 else 0) - (if first_char k =? 62 then 1 else 0) - (if (t_type k =? Tok_Operator) && (char_behind k =? 62) then 1 else 0).
(** the tokens in front of the first parenthesis that is not inside angle brackets (all, if there is none) *)
Fixpoint to_paren (seen : bool) (d : Z) (l : list token) : list token :=
  match l with
  | [] => []
  | k :: r =>
    let seen := seen || (first_char k =? 60) in
    let d := if seen then d + angle k else d in
    if (t_type k =? Tok_Paren_Open) && (d =? 0) then [] else k :: to_paren seen d r
  end.
(** these do not end as the name of a constructor or destructor outside its class does: C::C, C::~C *)
Inductive no_class_name : list token -> Prop :=
| nc_other p k : t_type k <> Tok_Identifier -> no_class_name (p ++ [k])
| nc_plain p s n : t_type s <> Tok_Access_StaticSymbol -> ~ (t_type s = Tok_Operator /\ first_char s = 126) -> no_class_name (p ++ [s; n])
| nc_member p q s n : kind Tok_Identifier q -> first_char q <> 60 -> first_char q <> 62 -> kind Tok_Access_StaticSymbol s ->
    word n <> firstn (Z.to_nat (t_len n)) (skipn (Z.to_nat (t_start q)) src) -> no_class_name (p ++ [q; s; n]).
Definition calm (l : list token) : Prop :=
  no_class_name (to_paren false 0 l) /\
  (to_paren false 0 l = l -> exists p k, l = p ++ [k] /\ t_type k <> Tok_Access_StaticSymbol /\ t_type k <> Tok_Operator).
(** inside a class: the second token is no parenthesis *)
Definition not_called (l : list token) : Prop := exists k k' r, l = k :: k' :: r /\ t_type k' <> Tok_Paren_Open.
Definition unambiguous (inside : bool) (l : list token) : Prop := if inside then not_called l else calm l.
Definition no_operator (l : list token) : Prop := Forall (fun k => t_type k <> Tok_Decl_Operator) l.
(** the first token that is no comment or line end, and the two behind it *)
Definition next_three (l : list token) (P : token -> token -> token -> Prop) : Prop :=
  exists g o a b r, l = g ++ o :: a :: b :: r /\ gap g /\ ~ fmt o /\ P o a b.
Definition decides_function (o a b : token) : Prop := t_type b <> Tok_Comma /\ t_type a <> Tok_Preprocess_Macro_Expr.
Definition decides_variable (o a b : token) : Prop :=
  t_type o <> Tok_Paren_Open /\ t_type a <> Tok_Preprocess_Macro_Expr \/ t_type b = Tok_Comma /\ t_type a <> Tok_Varadic_Argument.

(** ** variables and functions *)
Definition global_specifiers : list Z :=
  [Spec_Constexpr; Spec_Constinit; Spec_ForceInline; Spec_Global; Spec_External_Linkage; Spec_Internal_Linkage; Spec_Inline; Spec_Mutable; Spec_NeverInline;
   Spec_Static; Spec_Volatile].
Definition class_specifiers : list Z :=
  [Spec_Constexpr; Spec_Constinit; Spec_Explicit; Spec_ForceInline; Spec_Inline; Spec_Mutable; Spec_NeverInline; Spec_Static; Spec_Virtual; Spec_Volatile].
Definition specifiers_in (inside : bool) : list Z := if inside then class_specifiers else global_specifiers.
(** how they may begin *)
Definition starts (inside : bool) (at_ : option (list Z)) (sp : list Z) (k : token) : Prop :=
  match at_, sp with
  | Some _, _ => t_type k = Tok_Attribute_GEN_API
  | None, _ :: _ =>
    if inside then In (t_type k) [Tok_Spec_Consteval; Tok_Spec_Constexpr; Tok_Spec_Constinit; Tok_Spec_Explicit; Tok_Spec_ForceInline; Tok_Spec_Inline;
                                  Tok_Spec_Mutable; Tok_Spec_NeverInline; Tok_Spec_Static; Tok_Spec_Virtual; Tok_Spec_Volatile]
    else In (t_type k) [Tok_Spec_Consteval; Tok_Spec_Constexpr; Tok_Spec_Constinit; Tok_Spec_Extern; Tok_Spec_ForceInline; Tok_Spec_Global;
                                   Tok_Spec_Inline; Tok_Spec_Internal_Linkage; Tok_Spec_NeverInline; Tok_Spec_Static]
  | None, [] => In (t_type k) [Tok_Identifier; Tok_Spec_Const; Tok_Type_Long; Tok_Type_Short; Tok_Type_Signed; Tok_Type_Unsigned; Tok_Type_bool;
                               Tok_Type_char; Tok_Type_double; Tok_Type_int]
  end.
(** attribute? specifiers type name ...; [inside] a class or not *)
Inductive declared (inside : bool) : list token -> list token -> tree -> Prop :=
| dc_variable att at_ pre sp g0 ty_ ty g nm name sizes ss ini value bits fin rest cmt k raw :
    attribute_word src att (pre ++ g0 ++ ty_ ++ g ++ nm ++ sizes ++ ini ++ fin) at_ ->
    spec_tokens src pre sp -> Forall (fun s => In s (specifiers_in inside)) sp -> Z.of_nat (length sp) <= SPECS_CAP ->
    gap g0 -> (forall k r, ty_ = k :: r -> ~ fmt k) -> type_tokens src ty_ (g ++ nm ++ sizes ++ ini ++ fin) ty -> ty_attrs ty = None -> gap g -> named src nm name -> name <> [] ->
    next_is (sizes ++ ini ++ fin) (ends_name src) -> next_is (ini ++ fin) (no_size src) -> array_sizes src sizes ss -> initial src ini fin value bits ->
    (ss = [] \/ bits = None) -> variable_end src fin rest cmt ->
    att ++ pre ++ g0 ++ ty_ ++ g ++ nm ++ sizes ++ ini ++ fin = k :: raw -> starts inside at_ sp k ->
    unambiguous inside (ty_ ++ g ++ nm ++ sizes ++ ini ++ fin ++ rest) -> no_operator (ty_ ++ nm) -> next_three (sizes ++ ini ++ fin ++ rest ++ beyond) decides_variable ->
    declared inside (k :: raw) rest (Var false at_ (some_specs sp) ty name ss bits value cmt)
| dc_function att at_ pre sp g0 ty_ ty g nm name ps params suf sp' fin extra body rest cmt k raw t :
    attribute_word src att (pre ++ g0 ++ ty_ ++ g ++ nm ++ ps ++ suf ++ fin) at_ ->
    spec_tokens src pre sp -> Forall (fun s => s = Spec_Consteval \/ In s (specifiers_in inside)) sp ->
    gap g0 -> (forall k r, ty_ = k :: r -> ~ fmt k) -> type_tokens src ty_ (g ++ nm ++ ps ++ suf ++ fin) ty -> ty_attrs ty = None -> gap g -> named src nm name -> name <> [] -> solid name ->
    params_tokens src ps (suf ++ fin) params -> spec_tokens src suf sp' -> function_end src fin (rest ++ beyond) extra body cmt ->
    Z.of_nat (length (sp ++ sp' ++ extra)) <= SPECS_CAP -> func_tree (Func false at_ (sp ++ sp' ++ extra) ty name params body cmt) = Some t ->
    att ++ pre ++ g0 ++ ty_ ++ g ++ nm ++ ps ++ suf ++ fin = k :: raw -> starts inside at_ sp k ->
    unambiguous inside (ty_ ++ g ++ nm ++ ps ++ suf ++ fin ++ rest) -> no_operator (ty_ ++ nm) -> next_three (ps ++ suf ++ fin ++ rest ++ beyond) decides_function ->
    declared inside (k :: raw) rest t.

(** ** enums: [{ ... };] without a comment in front of the [;], [enum name;] and [enum class name : type;] *)
Definition plain_tokens (l : list token) : Prop :=
  Forall (fun k => t_type k <> Tok_BraceCurly_Open /\ t_type k <> Tok_BraceCurly_Close /\ t_type k <> Tok_Statement_End) l.
Definition enum_shape (raw : list token) : Prop :=
  exists front semi back, raw = front ++ semi :: back /\ kind Tok_Statement_End semi /\
  ((exists hd o inner c, front = hd ++ o :: inner ++ [c] /\ plain_tokens hd /\ kind Tok_BraceCurly_Open o /\ in_braces inner /\ kind Tok_BraceCurly_Close c) \/
   (exists k n, front = [k; n] /\ plain_tokens front) \/
   (exists k c n colon t, front = [k; c; n; colon; t] /\ plain_tokens front /\ kind Tok_Decl_Enum k /\ kind Tok_Decl_Class c /\ kind Tok_Assign_Classifer colon /\
      (kind Tok_Identifier t \/ native t))).

(** ** directives, with their [#] *)
Inductive directive : list token -> tree -> Prop :=
| d_include k s : kind Tok_Preprocess_Include k -> kind Tok_String s -> word s <> [] -> directive [k; s] (Include (word s))
| d_ifdef k s : kind Tok_Preprocess_IfDef k -> kind Tok_Preprocess_Content s -> word s <> [] -> directive [k; s] (IfDef (word s))
| d_elif k s : kind Tok_Preprocess_ElIf k -> kind Tok_Preprocess_Content s -> word s <> [] -> directive [k; s] (ElIf (word s))
| d_pragma k s : kind Tok_Preprocess_Pragma k -> kind Tok_Preprocess_Content s -> word s <> [] -> directive [k; s] (Pragma (word s))
| d_else k : kind Tok_Preprocess_Else k -> directive [k] Else
| d_endif k : kind Tok_Preprocess_EndIf k -> directive [k] EndIf.

(** ** members that contain no others *)
Inductive simple (inside : bool) : list token -> list token -> tree -> Prop :=
| m_line k rest : kind Tok_NewLine k -> simple inside [k] rest NewLine
| m_comment k rest : kind Tok_Comment k -> simple inside [k] rest (Raw (word k))
| m_using k r rest t : kind Tok_Decl_Using k -> using_tokens src (k :: r) (rest ++ beyond) t -> simple inside (k :: r) rest t
| m_typedef k r rest ty name cmt : kind Tok_Decl_Typedef k -> typedef_tokens src (k :: r) (rest ++ beyond) false ty name [] cmt ->
    simple inside (k :: r) rest (Typedef false ty name cmt)
| m_enum raw rest t : enum_tokens src raw (rest ++ beyond) t -> enum_shape raw -> simple inside raw rest t
| m_declared raw rest t : declared inside raw rest t -> simple inside raw rest t
| m_directive h raw rest t : kind Tok_Preprocess_Hash h -> directive raw t -> simple inside (h :: raw) rest t.

(** ** classes and structs *)
(** how the label of an access level is written *)
Definition label_text (t : Z) : text :=
  (if t =? Tok_Access_Public then txt "public" else if t =? Tok_Access_Protected then txt "protected" else txt "private") ++ txt ":" ++ NL.
(** : Base, without interfaces *)
Definition base_tokens (raw : list token) (base : option (Z * typ * list typ)) : Prop :=
  match base with
  | None => raw = []
  | Some (access, parent, more) => exists g colon g1 acc g2 nm name, raw = g ++ colon :: g1 ++ acc ++ g2 ++ nm /\ gap g /\ kind Tok_Assign_Classifer colon /\ gap g1 /\ gap g2 /\
      named src nm name /\ name <> [] /\ more = [] /\ parent = {| ty_tag := NoTag; ty_attrs := None; ty_specs := None; ty_name := name; ty_pack := false |} /\
      (acc = [] /\ g2 = [] /\ access = AccessSpec_Default \/ exists k, acc = [k] /\ access = t_type k /\ (kind Tok_Access_Public k \/ kind Tok_Access_Private k))
  end.
(** class attribute? name final? base? *)
Record head := { hd_struct : bool; hd_attrs : option (list Z); hd_name : list Z; hd_final : bool; hd_base : option (Z * typ * list typ) }.
Inductive class_head : list token -> list token -> head -> Prop :=
| ch st k att at_ g nm name fin final base_ base rest : kind (if (st : bool) then Tok_Decl_Struct else Tok_Decl_Class) k ->
    attribute_word src att (g ++ nm ++ fin ++ base_ ++ rest) at_ -> gap g -> named src nm name -> name <> [] ->
    (final = false /\ fin = [] \/ final = true /\ exists gf f, fin = gf ++ [f] /\ gap gf /\ kind Tok_Spec_Final f) -> base_tokens base_ base ->
    class_head (k :: att ++ g ++ nm ++ fin ++ base_) rest {| hd_struct := st; hd_attrs := at_; hd_name := name; hd_final := final; hd_base := base |}.
(** what is declared; a class with a base is not written (C41) *)
Definition class_tree (x : bool) (hd : head) (cmt : option (list Z)) (l : list tree) : option tree :=
  if hd_struct hd then Some (Struct x (hd_attrs hd) (hd_name hd) (hd_final hd) (hd_base hd) cmt l)
  else match hd_base hd with None => Some (Class x (hd_attrs hd) (hd_name hd) (hd_final hd) cmt l) | Some _ => None end.
Definition forward_tree (x : bool) (hd : head) (cmt : option (list Z)) : option tree :=
  match hd_final hd, hd_base hd with
  | false, None => Some (if hd_struct hd then StructFwd x (hd_attrs hd) (hd_name hd) cmt else ClassFwd x (hd_attrs hd) (hd_name hd) cmt)
  | _, _ => None
  end.

(** ** unions *)
(** union attribute? name?; without a name: the empty one *)
Inductive union_head : list token -> list token -> option (list Z) -> list Z -> Prop :=
| uh_named k att at_ g n rest : kind Tok_Decl_Union k -> attribute_word src att (g ++ n :: rest) at_ -> gap g -> kind Tok_Identifier n ->
    union_head (k :: att ++ g ++ [n]) rest at_ (word n)
| uh_unnamed k att at_ g rest : kind Tok_Decl_Union k -> attribute_word src att (g ++ rest) at_ -> gap g -> union_head (k :: att ++ g) rest at_ [].
(** what may begin a variable in a union *)
Definition begins_variable (k : token) : Prop :=
  ~ In (t_type k) [Tok_Preprocess_Hash; Tok_BraceCurly_Close; Tok_NewLine; Tok_Comment; Tok_Decl_Class; Tok_Decl_Enum; Tok_Decl_Struct; Tok_Decl_Union;
                   Tok_Preprocess_Define; Tok_Preprocess_If; Tok_Preprocess_IfDef; Tok_Preprocess_IfNotDef; Tok_Preprocess_ElIf; Tok_Preprocess_Else;
                   Tok_Preprocess_EndIf; Tok_Preprocess_Pragma; Tok_Preprocess_Macro_Stmt; Tok_Preprocess_Unsupported].
(** members without members; they may not be includes *)
Inductive union_simple : list token -> list token -> tree -> Prop :=
| us_line k rest : kind Tok_NewLine k -> union_simple [k] rest NewLine
| us_comment k rest : kind Tok_Comment k -> union_simple [k] rest (Raw (word k))
| us_enum raw rest t : enum_tokens src raw (rest ++ beyond) t -> enum_shape raw -> union_simple raw rest t
| us_variable k r rest t : begins_variable k -> variable_tokens src (k :: r) rest t -> union_simple (k :: r) rest t
| us_directive h k r rest t : kind Tok_Preprocess_Hash h -> t_type k <> Tok_Preprocess_Include -> directive (k :: r) t -> union_simple (h :: k :: r) rest t.
Inductive union_members : list token -> list token -> list tree -> Prop :=
| um_end rest : union_members [] rest []
| um_simple m r rest t l : union_simple m (r ++ rest) t -> union_members r rest l -> union_members (m ++ r) rest (t :: l)
| um_union h at_ name o body c semi r rest inner l : union_head h [o] at_ name -> plain_tokens h -> kind Tok_BraceCurly_Open o ->
    union_members body (c :: semi :: r ++ rest) inner -> in_braces body -> kind Tok_BraceCurly_Close c -> kind Tok_Statement_End semi -> union_members r rest l ->
    union_members (h ++ o :: body ++ c :: semi :: r) rest (Union false at_ name inner :: l).
(** a union on its own: export? ... ; *)
Inductive union_tokens : list token -> list token -> tree -> Prop :=
| un x ex h at_ name o body c semi rest inner : exported x ex -> union_head h [o] at_ name -> kind Tok_BraceCurly_Open o ->
    union_members body (c :: semi :: rest) inner -> kind Tok_BraceCurly_Close c -> kind Tok_Statement_End semi ->
    union_tokens (ex ++ h ++ o :: body ++ [c; semi]) rest (Union x at_ name inner).

(** ** bodies: [rest] are the tokens of the text behind them *)
Inductive scope := InNamespace | InLinkage | InClass.
Definition in_class (s : scope) : bool := match s with InClass => true | _ => false end.
Inductive members : scope -> list token -> list token -> list tree -> Prop :=
| mb_end s rest : members s [] rest []
| mb_semi s k r rest l : kind Tok_Statement_End k -> members s r rest l -> members s (k :: r) rest l
| mb_simple s m r rest t l : simple (in_class s) m (r ++ rest) t -> members s r rest l -> members s (m ++ r) rest (t :: l)
| mb_label k colon r rest l : kind Tok_Access_Public k \/ kind Tok_Access_Protected k \/ kind Tok_Access_Private k -> kind Tok_Assign_Classifer colon ->
    members InClass r rest l -> members InClass (k :: colon :: r) rest (Raw (label_text (t_type k)) :: l)
| mb_namespace s k g nm name g' o body c r rest inner l : in_class s = false -> kind Tok_Decl_Namespace k -> gap g -> named src nm name -> name <> [] -> gap g' ->
    kind Tok_BraceCurly_Open o -> members InNamespace body (c :: r ++ rest) inner -> kind Tok_BraceCurly_Close c -> members s r rest l ->
    members s (k :: g ++ nm ++ g' ++ o :: body ++ c :: r) rest (Namespace false name inner :: l)
| mb_linkage k g str o body c r rest name inner l : kind Tok_Decl_Extern_Linkage k -> gap g -> kind Tok_String str -> tl (word str) = name -> name <> [] ->
    kind Tok_BraceCurly_Open o -> members InLinkage body (c :: r ++ rest) inner -> kind Tok_BraceCurly_Close c -> members InNamespace r rest l ->
    members InNamespace (k :: g ++ str :: o :: body ++ c :: r) rest (Linkage name inner :: l)
| mb_class s h hd g o body c semi fin r rest inner cmt t l : class_head h (g ++ [o]) hd -> plain_tokens h -> gap g -> kind Tok_BraceCurly_Open o ->
    members InClass body (c :: semi :: fin ++ r ++ rest) inner -> in_braces body -> kind Tok_BraceCurly_Close c -> kind Tok_Statement_End semi ->
    statement_end src (semi :: fin) (r ++ rest ++ beyond) cmt -> class_tree false hd cmt inner = Some t -> members s r rest l ->
    members s (h ++ g ++ o :: body ++ c :: semi :: fin ++ r) rest (t :: l)
| mb_forward s k nm semi fin r rest cmt t hd l : class_head [k; nm] [semi] hd -> kind Tok_Statement_End semi ->
    statement_end src (semi :: fin) (r ++ rest ++ beyond) cmt -> forward_tree false hd cmt = Some t -> members s r rest l ->
    members s (k :: nm :: semi :: fin ++ r) rest (t :: l).
(** a namespace on its own *)
Inductive namespace_tokens : list token -> list token -> tree -> Prop :=
| ns k g nm name g' o body c rest inner : kind Tok_Decl_Namespace k -> gap g -> named src nm name -> name <> [] -> gap g' ->
    kind Tok_BraceCurly_Open o -> members InNamespace body (c :: rest) inner -> kind Tok_BraceCurly_Close c ->
    namespace_tokens (k :: g ++ nm ++ g' ++ o :: body ++ [c]) rest (Namespace false name inner).
(** a class or struct on its own: export? ... *)
Inductive class_tokens : bool -> list token -> list token -> tree -> Prop :=
| cl_body (x : bool) ex h hd g o body c fin rest inner cmt t : (x = false /\ ex = [] \/ x = true /\ exists k, ex = [k] /\ kind Tok_Module_Export k) ->
    class_head h (g ++ [o]) hd -> gap g -> kind Tok_BraceCurly_Open o -> members InClass body (c :: fin ++ rest) inner -> kind Tok_BraceCurly_Close c ->
    statement_end src fin (rest ++ beyond) cmt -> class_tree x hd cmt inner = Some t -> class_tokens (hd_struct hd) (ex ++ h ++ g ++ o :: body ++ c :: fin) rest t
| cl_forward (x : bool) ex h hd fin rest cmt t : (x = false /\ ex = [] \/ x = true /\ exists k, ex = [k] /\ kind Tok_Module_Export k) ->
    class_head h fin hd -> statement_end src fin (rest ++ beyond) cmt -> forward_tree x hd cmt = Some t -> class_tokens (hd_struct hd) (ex ++ h ++ fin) rest t.
End Grammar.

(** the same but for the spacing of type names and values *)
Inductive tree_like : tree -> tree -> Prop :=
| tl_respaced a b : tree_respaced a b -> tree_like a b
| tl_typedef x ty ty' name cmt : typ_respaced ty ty' -> tree_like (Typedef x ty name cmt) (Typedef x ty' name cmt)
| tl_function f f' a b : func_respaced f f' -> func_tree f = Some a -> func_tree f' = Some b -> tree_like a b
| tl_namespace x name l l' : Forall2 tree_like l l' -> tree_like (Namespace x name l) (Namespace x name l')
| tl_linkage name l l' : Forall2 tree_like l l' -> tree_like (Linkage name l) (Linkage name l')
| tl_class x at_ name final cmt l l' : Forall2 tree_like l l' -> tree_like (Class x at_ name final cmt l) (Class x at_ name final cmt l')
| tl_struct x at_ name final base cmt l l' : Forall2 tree_like l l' -> tree_like (Struct x at_ name final base cmt l) (Struct x at_ name final base cmt l')
| tl_union x at_ name l l' : Forall2 tree_like l l' -> tree_like (Union x at_ name l) (Union x at_ name l').
