(** What a line comment of a text is. *)
From Coq Require Import String ZArith List Bool.
From Verif Require Import Common Text ArrayModel StrOpsModel StrModel StrOpsSpec FmtModel FmtSpec.
Import ListNotations.
Open Scope Z_scope.

(** [ls] are the lines of [t] *)
Definition lines_of (t : list Z) (ls : list (list Z)) : Prop :=
  t ++ [10] = concat (map (fun l => l ++ [10]) ls) /\ Forall (fun l => ~ In 10 l) ls.
(** [out] consists of the lines of [t], each preceded by "//" *)
Definition comments (t out : list Z) : Prop :=
  exists ls, lines_of t ls /\ out = concat (map (fun l => txt "//" ++ l ++ [10]) ls).
(** every line of [t] has fewer than [n] characters *)
Definition short_lines (n : Z) (t : list Z) : Prop :=
  forall a l b, t = a ++ l ++ b -> ~ In 10 l -> zlen l < n.
(** the bytes of [t] before the first NUL or newline *)
Fixpoint to_eol (t : list Z) : list Z :=
  match t with [] => [] | b :: r => if (b =? 0) || (b =? 10) then [] else b :: to_eol r end.
