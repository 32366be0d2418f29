(** C54, continued: what may not stand in front of a variable. *)
From Coq Require Import String ZArith List Bool Lia.
From Verif Require Import Common Text HashModel EnumModel EnumSpec LexModel LexSpec LexProps StripSpec AstModel AstSpec UpfrontModel UpfrontSpec SerModel SerSpec SerProps
  ParseModel ParseSpec ParseProofs10 ParseProps FnModel FnSpec FnProps VarProofs.
Import ListNotations.
Close Scope string_scope.
Open Scope Z_scope.

(** A text that begins like a variable - export, attribute, specifiers - and goes on with a specifier that a variable cannot have
    gives the invalid code and changes no node there was, if the parser returns at all: its report of the error may read past the
    text (C47). *)
Theorem c54_specifier_refused : forall text beyond ms ms' e fuel h x ex att at_ pre sp g b s r h' c,
  text_with text ms fuel (ex ++ att ++ pre ++ g ++ b :: r) [] -> lex text fuel ms = Done (Some (ex ++ att ++ pre ++ g ++ b :: r, ms')) -> world e h ->
  exported x ex -> attribute_word text att (pre ++ g ++ b :: r) at_ ->
  spec_tokens text pre sp -> Forall (fun s => In s variable_specifiers) sp -> Z.of_nat (length sp) <= 14 ->
  gap g -> spelled text b s -> ~ In s (Spec_Const :: variable_specifiers) ->
  parse_text parse_variable text beyond ms e fuel h = Done (h', c) -> c = e_invalid e /\ unchanged h h'.
Proof.
  intros text beyond ms ms' e fuel h x ex att at_ pre sp g b s r h' c (B & NR & MF & F & FT & _) L W XP AT SP VS CAP G SB NI X. rewrite app_nil_r in FT.
  destruct (variable_refused_text text _ beyond ms ms' e fuel h B NR MF L F FT W x ex att at_ pre sp g b s r h' c eq_refl XP AT SP VS CAP G SB) as (K1 & _ & K2); [|exact X|exact (conj K1 K2)].
  unfold variable_specifier. destruct (existsb (Z.eqb s) _) eqn:EX; [|reflexivity]. apply existsb_exists in EX. destruct EX as (y & IN & EQ). apply Z.eqb_eq in EQ. subst y. exfalso. apply NI. cbn [In variable_specifiers] in *. tauto.
Qed.
Print Assumptions c54_specifier_refused.
(** ... and it does return: a virtual variable *)
Definition refused_example := txt "static virtual int x; int y; int z; int zz;".
Definition refused_toks : list token := Eval vm_compute in toks_of refused_example.
Definition rk (i : nat) := nth i refused_toks (Tok 0 0 0 0 0 0).
Example c54_refused_met : text_with refused_example [] 300 refused_toks [] /\ lex refused_example 300 [] = Done (Some (refused_toks, [])) /\
  refused_toks = [] ++ [] ++ [rk 0] ++ [] ++ rk 1 :: skipn 2 refused_toks /\ spec_tokens refused_example [rk 0] [Spec_Static] /\ spelled refused_example (rk 1) Spec_Virtual /\
  ~ In Spec_Virtual (Spec_Const :: variable_specifiers) /\
  match parse_text parse_variable refused_example [] [] e0 300 h0 with Done (_, c) => c = e_invalid e0 | _ => False end.
Proof.
  split; [text_is|]. split; [vm_compute; reflexivity|]. split; [vm_compute; reflexivity|]. split; [apply (s_more refused_example [] (rk 0) Spec_Static [] []); [no_gap| |constructor]; split; [dec|]; exists "static"%string; split; [vm_compute; tauto|reflexivity]|].
  split; [split; [dec|]; exists "virtual"%string; split; [vm_compute; tauto|reflexivity]|]. split; [vm_compute; intuition discriminate|]. vm_compute. reflexivity.
Qed.
