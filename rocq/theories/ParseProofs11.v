(** From a text to its declaration: the lexer and the parsers together. *)
From Coq Require Import String ZArith List Bool Lia ZifyBool ZifyNat.
From Verif Require Import Common Text HashModel EnumModel LexModel LexSpec LexProofs LexProofs8 AstModel AstSpec UpfrontModel UpfrontSpec SerModel SerSpec ParseModel ParseSpec
  ParseProofs2 ParseProofs3 ParseProofs5 ParseProofs6 ParseProofs8 ParseProofs9 ParseProofs10.
Import ListNotations.
Close Scope string_scope.
Open Scope Z_scope.

Section Text_.
Variables (text : list Z) (toks beyond : list token) (ms ms' : macros) (e : env) (fuel : nat) (h : heap).
Hypothesis B : Forall (fun c => 0 <= c < 256) text.
Hypothesis NR : ~ runs_off text.
Hypothesis MF : Forall macro_fits ms.
Hypothesis L : lex text fuel ms = Done (Some (toks, ms')).
Hypothesis F : Z.of_nat (length text) + 2 <= Z.of_nat fuel.
Hypothesis FT : (length toks < fuel)%nat.
Hypothesis W : world e h.

Lemma text_facts : Forall (in_source text) toks /\ Forall flags_fit toks /\ toks <> [] /\ text <> [].
Proof.
  destruct (p38 text ms fuel B NR F) as (r & E & P). rewrite L in E. injection E as <-. destruct P as (P1 & P2 & _). destruct (lex_fits _ _ _ _ _ MF L) as (FF & _).
  split; [exact P2|]. split; [exact FF|]. split; [exact P1|]. intros ->. clear - L P1. destruct fuel as [|n]; vm_compute in L; congruence.
Qed.

Lemma run_text : forall p c s, p text toks beyond ms' e fuel (Pst 0 [] h) = Done (c, s) -> parse_text p text beyond ms e fuel h = Done (p_heap s, c).
Proof.
  intros p c s E. destruct text_facts as (_ & _ & _ & NE). unfold parse_text. destruct text as [|a r] eqn:T; [congruence|]. rewrite L. cbn [rbind]. rewrite E. reflexivity.
Qed.

Ltac start E := destruct text_facts as (T1 & T2 & _ & _); assert (FS : (length text < fuel)%nat) by lia.

Lemma using_text : forall raw R tr, toks = raw ++ R -> using_tokens text raw (R ++ beyond) tr ->
  exists h' c tr', parse_text parse_using text beyond ms e fuel h = Done (h', c) /\ tree_respaced tr tr' /\ holds h' c tr' /\ h_top h <= c /\ grow h h'.
Proof.
  intros raw R tr E T. start E. pose proof (ahead_self toks [] (raw ++ R) E) as A.
  destruct (using_ok text toks beyond ms' e fuel T1 T2 B FT FS raw R tr [] [] h T A W) as (Q' & c & h' & tr' & _ & K & K1 & K2 & K3 & K4 & _).
  exists h', c, tr'. split; [exact (run_text parse_using _ _ K)|]. auto.
Qed.

Lemma typedef_text : forall raw R x ty name ss cmt, toks = raw ++ R -> typedef_tokens text raw (R ++ beyond) x ty name ss cmt ->
  exists h' c ty', parse_text parse_typedef text beyond ms e fuel h = Done (h', c) /\ typ_respaced ty ty' /\ typedef_at h' c x ty' name ss cmt /\ h_top h <= c /\ grow h h'.
Proof.
  intros raw R x ty name ss cmt E T. start E. pose proof (ahead_self toks [] (raw ++ R) E) as A.
  destruct (typedef_ok text toks beyond ms' e fuel T1 T2 B FT FS raw R x ty name ss cmt [] [] h T A W) as (Q' & c & h' & tr' & _ & K & K1 & K2 & K3 & K4 & _).
  exists h', c, tr'. split; [exact (run_text parse_typedef _ _ K)|]. auto.
Qed.

Lemma variable_text : forall raw R tr, toks = raw ++ R -> variable_tokens text raw R tr ->
  exists h' c tr', parse_text parse_variable text beyond ms e fuel h = Done (h', c) /\ tree_respaced tr tr' /\ holds h' c tr' /\ h_top h <= c /\ grow h h'.
Proof.
  intros raw R tr E T. start E. pose proof (ahead_self toks [] (raw ++ R) E) as A.
  destruct (variable_ok text toks beyond ms' e fuel T1 T2 B FT FS raw R tr [] [] h T A W) as (Q' & c & h' & tr' & _ & K & K1 & K2 & K3 & K4).
  exists h', c, tr'. split; [exact (run_text parse_variable _ _ K)|]. auto.
Qed.

Lemma enum_text : forall raw R tr, toks = raw ++ R -> enum_tokens text raw (R ++ beyond) tr ->
  exists h' c tr', parse_text parse_enum text beyond ms e fuel h = Done (h', c) /\ tree_respaced tr tr' /\ holds h' c tr' /\ h_top h <= c /\ grow h h'.
Proof.
  intros raw R tr E T. start E.
  destruct (enum_ok text toks beyond ms' e fuel T1 T2 B FT FS raw R tr [] [] h T E W) as (Q' & c & h' & tr' & _ & K & K1 & K2 & K3 & K4 & _).
  exists h', c, tr'. split; [exact (run_text parse_enum _ _ K)|]. auto.
Qed.
End Text_.
