(** Files with namespaces, linkage blocks, classes and structs in them, to any depth: what they consist of, and what is
    read back.  A block that is read has one empty line more at its end than the one that was written. *)
From Coq Require Import String ZArith List Bool.
From Verif Require Import Common HashModel Text EnumModel EnumSpec LexModel LexSpec AstModel AstSpec SerSpec RelexSpec ParseSpec GlobalSpec RoundSpec FileSpec.
Import ListNotations.
Close Scope string_scope.
Open Scope Z_scope.

(** the content that is read back *)
Fixpoint grown (t : tree) : tree :=
  match t with
  | Namespace x name l => Namespace x name (map grown l ++ [NewLine])
  | Linkage name l => Linkage name (map grown l ++ [NewLine])
  | Class x at_ name final cmt l => Class x at_ name final cmt (map grown l ++ [NewLine])
  | Struct x at_ name final base cmt l => Struct x at_ name final base cmt (map grown l ++ [NewLine])
  | _ => t
  end.

(** the content without empty lines, and the number of blocks *)
Definition is_line (t : tree) : bool := match t with NewLine => true | _ => false end.
Fixpoint bare (t : tree) : tree :=
  match t with
  | Namespace x name l => Namespace x name (filter (fun t => negb (is_line t)) (map bare l))
  | Linkage name l => Linkage name (filter (fun t => negb (is_line t)) (map bare l))
  | Class x at_ name final cmt l => Class x at_ name final cmt (filter (fun t => negb (is_line t)) (map bare l))
  | Struct x at_ name final base cmt l => Struct x at_ name final base cmt (filter (fun t => negb (is_line t)) (map bare l))
  | _ => t
  end.
Definition bare_file (l : list tree) : list tree := filter (fun t => negb (is_line t)) (map bare l).
Fixpoint blocks (t : tree) : nat :=
  match t with
  | Namespace _ _ l | Linkage _ l | Class _ _ _ _ _ l | Struct _ _ _ _ _ _ l => S (list_sum (map blocks l))
  | _ => O
  end.
(** what [n] times writing and reading makes of it *)
Definition grown_file (n : nat) (l : list tree) : list tree := Nat.iter n (map grown) l.

(** a class does not allow [extern] and [global] *)
Definition class_specs (inside : bool) (specs : option (list Z)) : Prop := inside = true -> oall (Forall (fun s => In s class_specifiers)) specs.
Definition class_kept (inside : bool) (t : tree) : Prop :=
  match t with Var _ _ specs _ _ _ _ _ _ | FunctionFwd _ _ specs _ _ _ _ | Function _ specs _ _ _ _ => class_specs inside specs | _ => True end.
Definition linkage_name (name : list Z) : Prop := name <> [] /\ Forall byte_ok name /\ ~ In 34 name /\ ~ In 92 name /\ ~ In 10 name.

Section Nest.
Variable ms : macros.
(** the braces of the text are in pairs *)
Definition paired (l : list tree) : Prop :=
  forall ls, writes ms (file_text l) ls -> brackets (Z.eqb Tok_BraceCurly_Open) (Z.eqb Tok_BraceCurly_Close) (fun _ _ => false) 0 (map snd ls).
(** a member of a block of each kind, and the members of one: a block is not empty and begins with no empty line; a label
    ([public:] ...) is not followed by one *)
Inductive item : scope -> tree -> Prop :=
| it_member s t : member ms t -> class_kept (in_class s) t -> item s t
| it_namespace s name l : in_class s = false -> is_name ms name -> begun l -> body InNamespace l -> item s (Namespace false name l)
| it_linkage name l : linkage_name name -> begun l -> body InLinkage l -> item InNamespace (Linkage name l)
| it_class s name l : is_name ms name -> begun l -> body InClass l -> paired l -> item s (Class false None name false None l)
| it_struct s name l : is_name ms name -> begun l -> body InClass l -> paired l -> item s (Struct false None name false None None l)
with body : scope -> list tree -> Prop :=
| bd_end s : body s []
| bd_item s t l : item s t -> body s l -> body s (t :: l)
| bd_label k l : In k [Tok_Access_Public; Tok_Access_Protected; Tok_Access_Private] -> begun l -> body InClass l -> body InClass (Raw (label_text k) :: l).
End Nest.
