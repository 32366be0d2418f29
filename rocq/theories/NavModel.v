(** Token stream navigation: base/components/lexer.cpp:20-69 and base/components/parser.cpp:10-187.
    The token array is the list of the tokens the lexer made (LexModel.token; a token's text is a slice of the
    source); reading outside of it is [Undefined].  The release build is modelled: GEN_DEBUG_TRAP
    (dependencies/debug.hpp:27) is empty.  Messages are not modelled, but the memory that is read to compose
    them is. *)
From Coq Require Import String ZArith List Bool.
From Verif Require Import Common HashModel Text EnumModel LexModel.
Import ListNotations.
Close Scope string_scope.
Open Scope Z_scope.

(** parser_types.hpp:94-98 [TokArray] and 118-122 [ParseContext]: the index, and the start tokens (indices
    into the array) of the scopes that are open, innermost first *)
Record nav := Nav { n_idx : Z; n_scopes : list Z }.
Definition set_idx (i : Z) (s : nav) := Nav i (n_scopes s).

Definition MF_Allow_As_Identifier := 2 ^ 2.  (* parser_types.hpp:176 *)

Section Nav.
Variable src : list Z.
Variable toks : list token.
Variable ms : macros.

Definition num : Z := zlen toks.
(** Arr[i] *)
Definition tok_at (i : Z) : run token :=
  if 0 <=? i then match nth_error toks (Z.to_nat i) with Some k => Done k | None => Undefined end else Undefined.

(** while ( p( Arr[idx].Type ) ) idx += step; [fuel] is the number of tokens: an index that has moved that often
    is out of the array *)
Fixpoint skip_tokens (fuel : nat) (p : Z -> bool) (step : Z) (i : Z) : run Z :=
  rbind (tok_at i) (fun k =>
  if p (t_type k) then match fuel with O => Undefined | S n => skip_tokens n p step (i + step) end else Done i).
Definition is_formatting (t : Z) : bool := (t =? Tok_NewLine) || (t =? Tok_Comment).
Definition is_newline (t : Z) : bool := t =? Tok_NewLine.

(** lexer.cpp:22-30 *)
Definition lex_current (skip : bool) (s : nav) : run (token * nav) :=
  rbind (if skip then skip_tokens (length toks) is_formatting 1 (n_idx s) else Done (n_idx s)) (fun i =>
  rbind (tok_at i) (fun k => Done (k, set_idx i s))).
(** lexer.cpp:32-43 *)
Definition lex_peek (skip : bool) (s : nav) : run token :=
  rbind (if skip then skip_tokens (length toks) is_newline 1 (n_idx s) else Done (n_idx s)) tok_at.
(** lexer.cpp:45-56 *)
Definition lex_previous (skip : bool) (s : nav) : run token :=
  if skip then rbind (skip_tokens (length toks) is_newline (-1) (n_idx s)) tok_at else tok_at (n_idx s - 1).
(** lexer.cpp:58-69 *)
Definition lex_next (skip : bool) (s : nav) : run token :=
  if skip then rbind (skip_tokens (length toks) is_newline 1 (n_idx s)) (fun i => tok_at (i + 1)) else tok_at (n_idx s + 1).

(** parser.cpp:13-29 and 184-187 (push_scope); the scope starts at the current token, whose address is taken
    without reading it *)
Definition push_scope (s : nav) : nav := Nav (n_idx s) (n_idx s :: n_scopes s).
Definition parser_pop (s : nav) : nav := Nav (n_idx s) (tl (n_scopes s)).

(** parser.cpp:32-79 [parser_to_strbuilder], for what it reads: the start token of the scope, the token the error
    is at, and [dist] bytes of the source from that token on (copied by strbuilder_make_str at line 55).  The
    loop of lines 40-44 reads no further than the start of the last token.  The source is followed by a NUL. *)
Definition report (s : nav) : run unit :=
  match n_scopes s with
  | [] => Undefined  (* ctx.Scope is null *)
  | start :: _ =>
  rbind (tok_at start) (fun scope_start =>
  rbind (if n_idx s >=? num then tok_at (num - 1) else rbind (lex_current true s) (fun '(k, _) => Done k)) (fun last_valid =>
  let dist := t_start last_valid - t_start scope_start + 2 in
  if t_start last_valid + dist <=? zlen src + 1 then Done tt else Undefined))
  end.

(** dependencies/macros.hpp:47 *)
Definition bitfield_is_set (flags mask : Z) : bool := Z.land mask flags =? mask.

(** parser.cpp:81-121.  The index never passes the number of tokens (c47_session), so the signedness of
    [array_num - Idx] does not matter. *)
Definition lex_eat (type : Z) (s : nav) : run (bool * nav) :=
  if num - n_idx s <=? 0 then rbind (report s) (fun _ => Done (false, s)) else
  rbind (tok_at (n_idx s)) (fun at_idx =>
  let s1 :=
    if ((t_type at_idx =? Tok_NewLine) && negb (type =? Tok_NewLine)) || ((t_type at_idx =? Tok_Comment) && negb (type =? Tok_Comment))
    then set_idx (n_idx s + 1) s else s in
  let not_accepted :=
    if negb (t_type at_idx =? type) then
      let accept_as_identifier :=
        match lookup_macro ms (slice src (t_start at_idx) (t_len at_idx)) with
        | Some m => bitfield_is_set (mac_flags m) MF_Allow_As_Identifier
        | None => false
        end in
      negb ((type =? Tok_Identifier) && accept_as_identifier)
    else false in
  if not_accepted then
    rbind (lex_current true s1) (fun '(_, s2) =>
    rbind (report s2) (fun _ => Done (false, s2)))
  else Done (true, set_idx (n_idx s1 + 1) s1)).

(** parser.cpp:166, 181-182: left, check, check_noskip *)
Definition left_ (s : nav) : Z := num - n_idx s.
Definition check (type : Z) (s : nav) : run (bool * nav) :=
  if left_ s =? 0 then Done (false, s) else rbind (lex_current true s) (fun '(k, s) => Done (t_type k =? type, s)).
Definition check_noskip (type : Z) (s : nav) : run (bool * nav) :=
  if left_ s =? 0 then Done (false, s) else rbind (lex_current false s) (fun '(k, s) => Done (t_type k =? type, s)).
End Nav.
