(** Functions as sequences of tokens, and the content they declare: continues ParseSpec.v. *)
From Coq Require Import String ZArith List Bool.
From Verif Require Import Common Text HashModel StrOpsModel EnumModel EnumSpec LexModel LexSpec StripSpec AstModel AstSpec SerSpec ParseSpec.
Import ListNotations.
Close Scope string_scope.
Open Scope Z_scope.

(** what a function declares; [f_body] is None for a declaration, else the texts in its body *)
Record func := Func { f_export : bool; f_attrs : option (list Z); f_specs : list Z; f_ret : typ; f_name : list Z; f_params : list param;
                      f_body : option (list (list Z)); f_comment : option (list Z) }.

Section Grammar.
Variable src : list Z.
Local Notation word := (word src).
Local Notation upto := (upto src).
Local Notation first_char := (first_char src).
Local Notation char_behind := (char_behind src).

(** the value of a parameter inside [p] parentheses and [a] angle brackets: a comma only inside brackets *)
Inductive value : nat -> nat -> list token -> Prop :=
| v_end : value 0 0 []
| v_format p a k r : fmt k -> value p a r -> value p a (k :: r)
| v_open p a k r : kind Tok_Paren_Open k -> word k = txt "(" -> value (S p) a r -> value p a (k :: r)
| v_close p a k r : kind Tok_Paren_Close k -> word k = txt ")" -> value p a r -> value (S p) a (k :: r)
| v_less p a k r : kind Tok_Operator k -> word k = txt "<" -> char_behind k <> 62 -> value p (S a) r -> value p a (k :: r)
| v_more p a k r : kind Tok_Operator k -> word k = txt ">" -> char_behind k <> 62 -> value p a r -> value p (S a) (k :: r)
| v_more2 p a k r : kind Tok_Operator k -> word k = txt ">>" -> value p a r -> value p (S (S a)) (k :: r)
| v_other p a k r : ~ fmt k -> t_type k <> Tok_Paren_Open -> t_type k <> Tok_Paren_Close -> (p = O -> a = O -> t_type k <> Tok_Comma) ->
    first_char k <> 60 -> first_char k <> 62 -> (t_type k = Tok_Operator -> char_behind k <> 62) -> value p a r -> value p a (k :: r).
(** = value *)
Definition default (raw : list token) (o : option (list Z)) : Prop :=
  match o with
  | None => raw = []
  | Some t => exists g eq g' first more, raw = g ++ eq :: g' ++ first :: more /\ gap g /\ assigns eq /\ gap g' /\ ~ fmt first /\
      value 0 0 (first :: more) /\ ~ fmt (last more first) /\ t = upto first (last more first) /\ ~ In 92 t /\ closed t /\ words t <> []
  end.
(** type name? = value? *)
Inductive param_tokens : list token -> list token -> param -> Prop :=
| pm ty_ ty nm name dv v rest : type_tokens src ty_ (nm ++ dv ++ rest) ty -> ty_attrs ty = None ->
    (nm = [] /\ name = [] \/ exists g k, nm = g ++ [k] /\ gap g /\ kind Tok_Identifier k /\ name = word k) -> default dv v ->
    param_tokens (ty_ ++ nm ++ dv) rest (Param (Some ty) name v).
(** ( p , p ... ) *)
Inductive more_params : list token -> list token -> list param -> Prop :=
| mp_end g c rest : gap g -> kind Tok_Paren_Close c -> more_params (g ++ [c]) rest []
| mp_more g c p_ p r rest l : gap g -> kind Tok_Comma c -> param_tokens p_ (r ++ rest) p -> more_params r rest l ->
    more_params (g ++ c :: p_ ++ r) rest (p :: l).
Inductive params_tokens : list token -> list token -> list param -> Prop :=
| ps_none g o g' c rest : gap g -> kind Tok_Paren_Open o -> gap g' -> kind Tok_Paren_Close c -> params_tokens (g ++ o :: g' ++ [c]) rest []
| ps_some g o p_ p r rest l : gap g -> kind Tok_Paren_Open o -> param_tokens p_ (r ++ rest) p -> more_params r rest l ->
    params_tokens (g ++ o :: p_ ++ r) rest (p :: l).

(** { ... }: the text between the braces, from the first token to the last *)
Inductive body_tokens : list token -> list (list Z) -> Prop :=
| bt_empty g o c : gap g -> kind Tok_BraceCurly_Open o -> kind Tok_BraceCurly_Close c -> t_end o <= t_start c -> body_tokens (g ++ [o; c]) []
| bt_text g o first more c : gap g -> kind Tok_BraceCurly_Open o -> in_braces (first :: more) -> kind Tok_BraceCurly_Close c ->
    upto first (last more first) <> [] -> body_tokens (g ++ o :: first :: more ++ [c]) [upto first (last more first)].
(** what follows the signature: a body, [;], or [= 0;] *)
Inductive function_end : list token -> list token -> list Z -> option (list (list Z)) -> option (list Z) -> Prop :=
| fe_body raw rest l : body_tokens raw l -> function_end raw rest [] (Some l) None
| fe_semi raw rest cmt : statement_end src raw rest cmt -> function_end raw rest [] None cmt
| fe_pure g eq z raw rest cmt k r : gap g -> kind Tok_Operator eq -> first_char eq = 61 -> kind Tok_Number z -> raw = k :: r -> word k <> txt "delete" ->
    statement_end src raw rest cmt -> function_end (g ++ eq :: z :: raw) rest [Spec_Pure] None cmt.

(** the specifiers that may stand in front of the return type; [const] may not *)
Definition function_specifiers : list Z :=
  [Spec_Consteval; Spec_Constexpr; Spec_External_Linkage; Spec_Internal_Linkage; Spec_ForceInline; Spec_Inline; Spec_NeverInline; Spec_Static].
Definition solid (t : list Z) : Prop := Forall (fun c => ~ In c [9; 10; 11; 12; 13; 32]) t.
(** export? attribute? specifiers type name(parameters) specifiers and one of the ends *)
Inductive function_tokens : list token -> list token -> func -> Prop :=
| ft x ex att at_ pre sp ty_ ty g nm name ps params suf sp' fin extra body rest cmt :
    exported x ex -> attribute_word src att (pre ++ ty_ ++ g ++ nm ++ ps ++ suf ++ fin) at_ ->
    spec_tokens src pre sp -> Forall (fun s => In s function_specifiers) sp ->
    type_tokens src ty_ (g ++ nm ++ ps ++ suf ++ fin) ty -> ty_attrs ty = None -> next_is ty_ (fun k => ~ spec_kind (t_type k)) ->
    gap g -> named src nm name -> name <> [] -> solid name -> params_tokens ps (suf ++ fin) params ->
    spec_tokens src suf sp' -> function_end fin rest extra body cmt -> Z.of_nat (length (sp ++ sp' ++ extra)) <= SPECS_CAP ->
    function_tokens (ex ++ att ++ pre ++ ty_ ++ g ++ nm ++ ps ++ suf ++ fin) rest (Func x at_ (sp ++ sp' ++ extra) ty name params body cmt).
End Grammar.

(** the same but for the spacing of type names and values *)
Definition both {A} (P : A -> A -> Prop) (a b : option A) : Prop :=
  match a, b with Some a, Some b => P a b | None, None => True | _, _ => False end.
Definition param_respaced (a b : param) : Prop :=
  p_name b = p_name a /\ both typ_respaced (p_type a) (p_type b) /\ both respaced (p_value a) (p_value b).
Definition func_respaced (a b : func) : Prop :=
  f_export b = f_export a /\ f_attrs b = f_attrs a /\ f_specs b = f_specs a /\ typ_respaced (f_ret a) (f_ret b) /\ f_name b = f_name a /\
  Forall2 param_respaced (f_params a) (f_params b) /\ f_body b = f_body a /\ f_comment b = f_comment a.

(** a node that holds this content *)
Definition func_at (h : heap) (c : Z) (f : func) : Prop :=
  let n := h_node h c in
  kind_is h c [match f_body f with Some _ => CT_Function | None => CT_Function_Fwd end] /\ exports n (f_export f) /\
  maybe (content_at h) (n_attrs n) (f_attrs f) /\ maybe (specs_at h) (n_specs n) (some_specs (f_specs f)) /\ typ_at h (n_ret n) (f_ret f) /\
  n_name n = f_name f /\ f_name f <> [] /\ params_at h (n_params n) (f_params f) /\ n_suffix n = 0 /\
  match f_body f with Some l => holds h (n_body n) (Block (map Raw l)) | None => n_body n = 0 end /\ maybe (comment_at h) (n_inline n) (f_comment f).
(** the content as the tree of SerSpec, where that can be written (C41) *)
Definition func_tree (f : func) : option tree :=
  match f_body f with
  | Some l => if f_export f then None else Some (Function (f_attrs f) (some_specs (f_specs f)) (Some (f_ret f)) (f_name f) (f_params f) (map Raw l))
  | None => if existsb (fun s => (s =? Spec_Pure) || (s =? Spec_Delete)) (f_specs f) then None
            else Some (FunctionFwd (f_export f) (f_attrs f) (some_specs (f_specs f)) (Some (f_ret f)) (f_name f) (f_params f) (f_comment f))
  end.
