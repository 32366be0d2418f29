(** What C47 and C50 speak about: positions in a token stream. *)
From Coq Require Import String ZArith List Bool.
From Verif Require Import Common Text EnumModel LexModel NavModel.
Import ListNotations.
Close Scope string_scope.
Open Scope Z_scope.

Definition token_at (toks : list token) (i : Z) (k : token) : Prop := 0 <= i /\ nth_error toks (Z.to_nat i) = Some k.
Definition formatting (k : token) : Prop := t_type k = Tok_NewLine \/ t_type k = Tok_Comment.
Definition newline (k : token) : Prop := t_type k = Tok_NewLine.
(** [j] is the first index from [i] on whose token [k] is not one of the [skipped] *)
Definition first_other (toks : list token) (skipped : token -> Prop) (i j : Z) (k : token) : Prop :=
  i <= j /\ token_at toks j k /\ ~ skipped k /\ forall m x, i <= m < j -> token_at toks m x -> skipped x.
(** there is none: only [skipped] tokens from [i] on *)
Definition only (toks : list token) (skipped : token -> Prop) (i : Z) : Prop :=
  forall m x, i <= m -> token_at toks m x -> skipped x.

(** the operations of the parser on the token stream *)
Inductive op := Current (skip : bool) | Peek (skip : bool) | Next_ (skip : bool) | Previous (skip : bool) | Eat (type : Z) | Check (type : Z) | Check_noskip (type : Z) | Push | Pop.
Definition perform (src : list Z) (toks : list token) (ms : macros) (o : op) (s : nav) : run nav :=
  match o with
  | Current b => rbind (lex_current toks b s) (fun '(_, s) => Done s)
  | Peek b => rbind (lex_peek toks b s) (fun _ => Done s)
  | Next_ b => rbind (lex_next toks b s) (fun _ => Done s)
  | Previous b => rbind (lex_previous toks b s) (fun _ => Done s)
  | Eat t => rbind (lex_eat src toks ms t s) (fun '(_, s) => Done s)
  | Check t => rbind (check toks t s) (fun '(_, s) => Done s)
  | Check_noskip t => rbind (check_noskip toks t s) (fun '(_, s) => Done s)
  | Push => Done (push_scope s)
  | Pop => Done (parser_pop s)
  end.
Fixpoint performs (src : list Z) (toks : list token) (ms : macros) (os : list op) (s : nav) : run nav :=
  match os with [] => Done s | o :: r => rbind (perform src toks ms o s) (performs src toks ms r) end.

(** the message about a failure can be composed: there is a scope, starting at a token, and from the token [k]
    the error is at, there are as many bytes left in the source (with its NUL) as lie between the scope's start
    and [k], and two more *)
Definition reportable (src : list Z) (toks : list token) (scopes : list Z) (k : token) : Prop :=
  exists st rest b, scopes = st :: rest /\ token_at toks st b /\ 2 * t_start k - t_start b + 2 <= zlen src + 1.
