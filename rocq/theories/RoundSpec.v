(** Declarations whose text can be read back: what their parts have to be, as texts.  [writes] is the lexical
    grammar (RelexSpec.v), [render] the text of a declaration (SerSpec.v). *)
From Coq Require Import String ZArith List Bool.
From Verif Require Import Common HashModel Text EnumModel EnumSpec LexModel LexSpec AstModel AstSpec SerSpec RelexSpec ParseSpec.
Import ListNotations.
Close Scope string_scope.
Open Scope Z_scope.

Section Plain.
Variable ms : macros.

(** a text on one line, written as [l], without the word extern *)
Definition line_text (x : list Z) (l : list lexeme) : Prop :=
  writes ms x l /\ l <> [] /\ ~ In 10 x /\ Forall (fun e => fst e <> txt "extern") l /\ exists c u, x = c :: u /\ c <> 32.
(** and it ends with the end of its last token: with no blank, and no string, the closing quote of which is in no token *)
Definition phrase (x : list Z) (l : list lexeme) : Prop :=
  line_text x l /\ (exists u c, x = u ++ [c] /\ c <> 32) /\ snd (last l ([], 0)) <> Tok_String.

(** template arguments behind their [<], with [d] more open *)
Definition arg_kinds : list Z := [Tok_Identifier; Tok_Number; Tok_Comma; Tok_Access_StaticSymbol; Tok_Star; Tok_Ampersand; Tok_Ampersand_DBL; Tok_Spec_Const;
  Tok_Type_Unsigned; Tok_Type_Signed; Tok_Type_Short; Tok_Type_Long; Tok_Type_bool; Tok_Type_char; Tok_Type_int; Tok_Type_double].
Definition is_sym (s : string) (e : lexeme) : Prop := e = (txt s, Tok_Operator).
Inductive args_written : nat -> list lexeme -> Prop :=
| aw_end e : is_sym ">" e -> args_written 0 [e]
| aw_end2 e : is_sym ">>" e -> args_written 1 [e]
| aw_open d e f r : is_sym "<" e -> hd 0 (fst f) <> 62 -> args_written (S d) (f :: r) -> args_written d (e :: f :: r)
| aw_close d e r : is_sym ">" e -> args_written d r -> args_written (S d) (e :: r)
| aw_other d e r : In (snd e) arg_kinds -> args_written d r -> args_written d (e :: r).
Definition template_written (l : list lexeme) : Prop := l = [] \/ exists e r, l = e :: r /\ is_sym "<" e /\ args_written 0 r.
(** a name: A<args>::B<args> *)
Inductive name_written : list lexeme -> Prop :=
| nw_one w a : template_written a -> name_written ((w, Tok_Identifier) :: a)
| nw_more w a c r : template_written a -> c = (txt "::", Tok_Access_StaticSymbol) -> name_written r -> name_written ((w, Tok_Identifier) :: a ++ c :: r).
(** a type: a name, or words like unsigned long *)
Definition native_word (e : lexeme) : Prop := Tok_Type_Unsigned <= snd e <= Tok_Type_MS_W64.
Definition type_text (tg : tag) (x : list Z) : Prop :=
  exists l, phrase x l /\ tidy x /\ (name_written l \/ tg = NoTag /\ Forall native_word l).
Definition specs_in (all l : list Z) : Prop := l <> [] /\ Forall (fun s => In s all) l /\ Z.of_nat (length l) <= SPECS_CAP /\ no_ref_ref l.
Definition type_specs : list Z := [Spec_Const; Spec_Ptr; Spec_Restrict; Spec_Ref; Spec_RValue].
Definition plain_typ (t : typ) : Prop :=
  ty_attrs t = None /\ ty_pack t = false /\ type_text (ty_tag t) (ty_name t) /\ oall (specs_in type_specs) (ty_specs t).

(** the size of an array *)
Definition size_text (x : list Z) : Prop := exists l, phrase x l /\ Forall (fun e => snd e <> Tok_BraceSquare_Close) l.
(** a line comment, with the end of its line *)
Definition line_comment_text (c : list Z) : Prop := exists u, c = txt "//" ++ u ++ [10] /\ Forall byte_ok u /\ ~ In 10 u /\ ~ In 13 u.

(** tokens of which the kinds [o] open and the kinds [c] close a bracket, with [d] open; [bad d] is not allowed with [d] open *)
Fixpoint brackets (o c : Z -> bool) (bad : nat -> Z -> bool) (d : nat) (l : list Z) : Prop :=
  match l with
  | [] => d = O
  | k :: r => if o k then brackets o c bad (S d) r
              else if c k then match d with O => False | S d' => brackets o c bad d' r end
              else bad d k = false /\ brackets o c bad d r
  end.
Definition value_kinds (l : list Z) : Prop :=
  brackets (fun k => (k =? Tok_BraceCurly_Open) || (k =? Tok_Paren_Open)) (fun k => (k =? Tok_BraceCurly_Close) || (k =? Tok_Paren_Close))
    (fun d k => (k =? Tok_Statement_End) || match d with O => k =? Tok_Comma | _ => false end) 0 l.
Definition paren_kinds (l : list Z) : Prop := brackets (Z.eqb Tok_Paren_Open) (Z.eqb Tok_Paren_Close) (fun _ _ => false) 0 l.
Definition value_text (i : init) : Prop :=
  match i with
  | NoInit => True
  | InitEq v => exists l, line_text v l /\ value_kinds (map snd l)
  | InitParen v => exists l, phrase v l /\ paren_kinds (map snd l)
  end.
Definition bits_text (x : list Z) : Prop := exists l, phrase x l /\ Forall (fun e => snd e <> Tok_Statement_End) l.

(** an entry of an enum: A = value, with its comma unless it is the last one *)
Definition entry_written (l : list lexeme) : Prop :=
  exists w v, l = (w, Tok_Identifier) :: v /\
    (v = [] \/ exists e r, v = e :: r /\ is_sym "=" e /\ Forall (fun e => snd e <> Tok_Comma /\ snd e <> Tok_BraceCurly_Close) r).
Inductive entries_written : list tree -> Prop :=
| ew_last x l : phrase x l -> entry_written l -> entries_written [Raw x]
| ew_comma x l r : phrase (x ++ txt ",") (l ++ [(txt ",", Tok_Comma)]) -> entry_written l -> entries_written r -> entries_written (Raw (x ++ txt ",") :: r)
| ew_comma_last x l : phrase (x ++ txt ",") (l ++ [(txt ",", Tok_Comma)]) -> entry_written l -> entries_written [Raw (x ++ txt ",")].

Inductive plain : tree -> Prop :=
| pl_namespace name : is_name ms name -> plain (UsingNamespace name)
| pl_using_name x name cmt : is_name ms name -> oall line_comment_text cmt -> plain (Using x None name None cmt)
| pl_using x name ty sizes cmt : is_name ms name -> plain_typ ty -> Forall size_text sizes -> oall line_comment_text cmt ->
    plain (Using x None name (Some (ty, sizes)) cmt)
| pl_typedef x ty name cmt : plain_typ ty -> ty_tag ty = NoTag -> is_name ms name -> oall line_comment_text cmt -> plain (Typedef x ty name cmt)
| pl_var x specs ty name sizes bits value cmt : oall (specs_in variable_specifiers) specs -> plain_typ ty -> is_name ms name -> Forall size_text sizes ->
    oall bits_text bits -> value_text value -> (sizes = [] \/ bits = None) -> (bits = None \/ value = NoInit) -> oall line_comment_text cmt ->
    plain (Var x None specs ty name sizes bits value cmt)
| pl_enum name ty entries : is_name ms name -> oall plain_typ ty -> entries_written entries -> plain (Enum false None name ty entries)
| pl_enum_class name ty entries : is_name ms name -> plain_typ ty -> entries_written entries -> plain (EnumClass false None name ty entries)
| pl_enum_fwd name ty cmt : is_name ms name -> oall plain_typ ty -> oall line_comment_text cmt -> plain (EnumFwd false None name ty cmt)
| pl_enum_class_fwd name ty cmt : is_name ms name -> plain_typ ty -> oall line_comment_text cmt -> plain (EnumClassFwd false None name ty cmt).
End Plain.
