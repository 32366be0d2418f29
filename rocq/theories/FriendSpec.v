(** Friend declarations as sequences of tokens, and the content they declare: continues ParseSpec.v and FnSpec.v. *)
From Coq Require Import String ZArith List Bool.
From Verif Require Import Common Text HashModel EnumModel EnumSpec LexModel LexSpec AstModel AstSpec SerSpec ParseSpec FnSpec.
Import ListNotations.
Close Scope string_scope.
Open Scope Z_scope.

(** what a friend declaration names *)
Inductive friend_ := FriendType (t : typ) | FriendFn (f : func).

Section Grammar.
Variable src : list Z.
(** the specifiers that may stand in front of a return type *)
Definition friend_specifiers : list Z := [Spec_Inline; Spec_ForceInline].

(** friend specifiers type name(parameters) specifiers and one of the ends of FnSpec.v *)
Inductive friend_function : list token -> list token -> func -> Prop :=
| ff kf pre sp ty_ ty g nm name ps params suf sp' fin extra body rest cmt :
    kind Tok_Decl_Friend kf -> spec_tokens src pre sp -> Forall (fun s => In s friend_specifiers) sp ->
    type_tokens src ty_ (g ++ nm ++ ps ++ suf ++ fin) ty -> ty_attrs ty = None ->
    gap g -> named src nm name -> name <> [] -> solid name -> params_tokens src ps (suf ++ fin) params ->
    spec_tokens src suf sp' -> function_end src fin rest extra body cmt -> Z.of_nat (length (sp ++ sp' ++ extra)) <= SPECS_CAP ->
    friend_function (kf :: pre ++ ty_ ++ g ++ nm ++ ps ++ suf ++ fin) rest (Func false None (sp ++ sp' ++ extra) ty name params body cmt).
(** friend type, in front of a token that is no name; the [;] is not a part of it *)
Inductive friend_type : list token -> list token -> typ -> Prop :=
| ft_ kf ty_ ty rest : kind Tok_Decl_Friend kf -> type_tokens src ty_ rest ty -> ty_attrs ty = None ->
    next_is rest (fun k => ends_type k /\ ~ In (t_type k) [Tok_Identifier; Tok_Decl_Operator]) -> friend_type (kf :: ty_) rest ty.
End Grammar.

Definition friend_respaced (a b : friend_) : Prop :=
  match a, b with FriendType a, FriendType b => typ_respaced a b | FriendFn a, FriendFn b => func_respaced a b | _, _ => False end.
(** a node that holds this content *)
Definition friend_at (h : heap) (c : Z) (f : friend_) : Prop :=
  let n := h_node h c in
  kind_is h c [CT_Friend] /\ match f with FriendType t => kind_is h (n_body n) [CT_Typename] /\ typ_at h (n_body n) t | FriendFn f => func_at h (n_body n) f end /\ n_inline n = 0.
(** the content as the tree of SerSpec, where that can be written (C41): functions without a comment *)
Definition friend_tree (f : friend_) : option tree :=
  match f with FriendFn f => match f_comment f with None => option_map Friend (func_tree f) | Some _ => None end | FriendType _ => None end.
