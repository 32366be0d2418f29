(** C66: a file with namespaces, linkage blocks, classes and structs, nested to any depth, is written and parsed: the result has
    the same members at the same places, except that every block has one more empty line at its end; so its text grows by one line
    end per block each time, for ever.  Which members and blocks is said by [body] (FileNestSpec.v), the content that is
    read back by [grown], the one without empty lines by [bare_file]. *)
From Coq Require Import String ZArith List Bool Lia ZifyBool ZifyNat Arith.
From Verif Require Import Common Text HashModel EnumModel EnumSpec LexModel LexSpec AstModel AstSpec UpfrontModel UpfrontSpec SerModel SerSpec SerProps
  RelexSpec RelexProofs5 RelexProofs7 RelexProps ParseModel ParseSpec ParseProps FnSpec FnProps GlobalModel GlobalSpec GlobalProps RoundSpec RoundProofs3 RoundProps FileSpec FileNestSpec FileProofs FileProofs5 FileProps FileNestProofs FileNestProofs2.
Import ListNotations.
Close Scope string_scope.
Open Scope Z_scope.

(** the conditions on a file *)
Definition nested_file (ms : macros) (l : list tree) : Prop := begun l /\ body ms InNamespace l /\ (forall ls, writes ms (file_text l) ls -> no_outside ls).

(** (partial: members as in C65; namespaces and classes not exported, classes without attributes, [final], base and
    comment, linkage blocks not inside linkage blocks or classes; the first member of a block is not an empty line) *)
Theorem c66_file_partial : forall l beyond ms e gl fuel h, nested_file ms l -> ~ runs_off (file_text l) -> set_up (file_text l) beyond ms e gl fuel h ->
  exists h' c, parse_text (parse_body gl) (file_text l) beyond ms e fuel h = Done (h', c) /\ holds h' c (Block (map grown l)) /\ h_top h <= c /\ unchanged h h'.
Proof.
  intros l beyond ms e gl fuel h (BG & F & NO) NR (OM & PS & MF & Q & FU & W & G). eapply nest_round; eauto. apply NO. destruct (nest_writes ms OM) as (_ & NW). specialize (NW _ _ F [] [] ltac:(constructor)). rewrite !app_nil_r in NW. exact NW.
Qed.
Print Assumptions c66_file_partial.

Theorem c66_text_partial : forall l beyond ms e gl fuel h, nested_file ms l -> ~ runs_off (file_text l) -> set_up (file_text l) beyond ms e gl fuel h -> Z.of_nat (List.length (file_text (map grown l))) < 131070 ->
  exists h' c k, parse_text (parse_body gl) (file_text l) beyond ms e fuel h = Done (h', c) /\ forall n, (k <= n)%nat -> code_to_strbuilder n h' c = Done (file_text (map grown l)).
Proof.
  intros l beyond ms e gl fuel h NF NR SU FT. destruct (c66_file_partial l beyond ms e gl fuel h NF NR SU) as (h' & c & K1 & K2 & _). destruct (c41_text_partial h' c (Block (map grown l)) K2 FT) as (k & T). exists h', c, k. split; [exact K1|]. exact T.
Qed.
Print Assumptions c66_text_partial.

(** What was read can be written and read again, any number of times. *)
Theorem c66_read_again_partial : forall n l ms, no_odd_macros ms -> nested_file ms l -> nested_file ms (grown_file n l).
Proof.
  intros n l ms OM NF. induction n as [|n (BG & F & NO)]; [exact NF|]. unfold grown_file in *. cbn [Nat.iter nat_rect]. set (l' := Nat.iter n (map grown) l) in *. change (nested_file ms (map grown l')).
  destruct (nest_grown ms OM) as (_ & NG). destruct (nest_grown_tokens ms) as (_ & GT). split; [apply grown_begun; exact BG|]. split; [apply NG; exact F|].
  intros ls W. destruct ls as [|x ls]; [intros [|? ?] ? ? ? ? E; discriminate E|]. rewrite (file_written ms OM InNamespace (map grown l') (x :: ls)); [|apply NG; exact F|apply grown_begun; exact BG|exact W|discriminate].
  rewrite (GT _ _ F). apply NO. destruct (nest_writes ms OM) as (_ & NW). specialize (NW _ _ F [] [] ltac:(constructor)). rewrite !app_nil_r in NW. exact NW.
Qed.
Print Assumptions c66_read_again_partial.
Theorem c66_cycles_partial : forall n l beyond ms e gl fuel h, nested_file ms l -> ~ runs_off (file_text (grown_file n l)) -> set_up (file_text (grown_file n l)) beyond ms e gl fuel h ->
  Z.of_nat (List.length (file_text (grown_file (S n) l))) < 131070 ->
  exists h' c k, parse_text (parse_body gl) (file_text (grown_file n l)) beyond ms e fuel h = Done (h', c) /\ holds h' c (Block (grown_file (S n) l)) /\
    forall m, (k <= m)%nat -> code_to_strbuilder m h' c = Done (file_text (grown_file (S n) l)).
Proof.
  intros n l beyond ms e gl fuel h NF NR SU FT. assert (OM : no_odd_macros ms) by apply SU. destruct (c66_file_partial _ beyond ms e gl fuel h (c66_read_again_partial n l ms OM NF) NR SU) as (h' & c & K1 & K2 & _).
  destruct (c41_text_partial h' c _ K2 FT) as (k & T). exists h', c, k. auto.
Qed.
Print Assumptions c66_cycles_partial.

(** Apart from empty lines nothing is lost, added or moved, however often. *)
Theorem c66_content_kept_partial : forall n l ms, no_odd_macros ms -> nested_file ms l -> bare_file (grown_file n l) = bare_file l.
Proof.
  intros n l ms OM NF. induction n as [|n IH]; [reflexivity|]. destruct (c66_read_again_partial n l ms OM NF) as (_ & F & _). destruct (nest_bare ms) as (_ & NB). rewrite <- IH. exact (NB _ _ F).
Qed.
Print Assumptions c66_content_kept_partial.

(** The text grows by one character - a line end - per block and cycle: it never becomes stable if there is a block. *)
Theorem c66_growth_partial : forall n l ms, no_odd_macros ms -> nested_file ms l ->
  List.length (file_text (grown_file n l)) = (List.length (file_text l) + n * list_sum (map blocks l))%nat.
Proof.
  intros n l ms OM NF. assert (G : List.length (file_text (grown_file n l)) = (List.length (file_text l) + n * list_sum (map blocks l))%nat /\ list_sum (map blocks (grown_file n l)) = list_sum (map blocks l)); [|apply G].
  induction n as [|n (E1 & E2)]; [split; [rewrite Nat.mul_0_l, Nat.add_0_r; reflexivity|reflexivity]|]. destruct (c66_read_again_partial n l ms OM NF) as (_ & F & _). destruct (nest_length ms) as (_ & NL). destruct (NL _ _ F) as (K1 & K2).
  change (grown_file (S n) l) with (map grown (grown_file n l)). rewrite K1, K2, E1, E2, Nat.mul_succ_l. split; [lia|reflexivity].
Qed.
Print Assumptions c66_growth_partial.

(** ** Where more than that is changed *)
(** the empty line behind a label, or at the beginning of a block, is lost *)
Theorem c66_lines_lost_refuted :
  gagain ("class C" ++ nl ++ "{" ++ nl ++ "public:" ++ nl ++ nl ++ "int x;" ++ nl ++ nl ++ "};" ++ nl) = out ("class C" ++ nl ++ "{" ++ nl ++ "public:" ++ nl ++ "int x;" ++ nl ++ nl ++ nl ++ "};") /\
  gagain ("namespace N" ++ nl ++ "{" ++ nl ++ nl ++ "int x;" ++ nl ++ "}" ++ nl) = out ("namespace N" ++ nl ++ "{" ++ nl ++ "int x;" ++ nl ++ nl ++ "}").
Proof. vm_compute. auto. Qed.
Print Assumptions c66_lines_lost_refuted.

(** ** The hypotheses are met *)
Definition t_name := UsingNamespace (txt "N").
Definition t_comment := Raw comment_1.
Definition t_static := Var false None (Some [Spec_Static]) int_t (txt "x") [txt "n + 1"] None (InitEq (txt "{ f(1, 2), 3 }")) None.
Definition t_plain := Var false None None int_t (txt "y") [] None NoInit (Some comment_1).
Definition t_function := Function None None (Some int_t) (txt "h") [Param (Some int_t) (txt "n") None] [Raw body_1].
Definition t_forward := FunctionFwd false None None (Some int_t) (txt "g") [] None.
Definition inner_members : list tree := [t_static; Raw (label_text Tok_Access_Private); t_forward; NewLine; t_function].
Definition class_members : list tree := [Raw (label_text Tok_Access_Public); t_plain; Struct false None (txt "D") false None None inner_members; NewLine; Raw (label_text Tok_Access_Protected); t_forward].
Definition namespace_members : list tree := [t_comment; Class false None (txt "C") false None class_members; Namespace false (txt "B") [t_plain; NewLine]; Linkage (txt "C") [t_forward; t_static]; t_function].
Definition nested_example : list tree := [t_name; NewLine; Namespace false (txt "A") namespace_members; NewLine; Class false None (txt "E") false None [t_plain]; t_forward].
Lemma pick t : In t file_example -> member [] t.
Proof. pose proof example_members as F. rewrite Forall_forall in F. apply F. Qed.
Lemma pick_in s t : member [] t -> class_kept (in_class s) t -> item [] s t. Proof. apply it_member. Qed.
Lemma kept_none inside t : match t with Var _ _ (Some _) _ _ _ _ _ _ | FunctionFwd _ _ (Some _) _ _ _ _ | Function _ (Some _) _ _ _ _ => False | _ => True end -> class_kept inside t.
Proof. destruct t; cbn; auto; destruct specs; cbn; try contradiction; intros _ _; exact I. Qed.
Lemma pairs l : brackets (Z.eqb Tok_BraceCurly_Open) (Z.eqb Tok_BraceCurly_Close) (fun _ _ => false) 0 (map snd (lexed_as [] (file_text l))) -> paired [] l.
Proof. intros B ls W. destruct ls as [|x ls]; [reflexivity|]. rewrite <- (lx_ok [] _ _ W) by discriminate. exact B. Qed.
Example c66_hypotheses_met : nested_file [] nested_example /\ ~ runs_off (file_text nested_example) /\ set_up (file_text nested_example) earlier [] e0 gg 600 hg /\ list_sum (map blocks nested_example) = 6%nat.
Proof.
  assert (M1 : forall s, item [] s t_plain) by (intros s; apply it_member; [apply pick; unfold file_example; cbn; tauto|apply kept_none; exact I]).
  assert (M2 : forall s, item [] s t_static) by (intros s; apply it_member; [apply pick; unfold file_example; cbn; tauto|intros _; repeat constructor; vm_compute; tauto]).
  assert (M3 : forall s, item [] s t_forward) by (intros s; apply it_member; [apply pick; unfold file_example; cbn; tauto|apply kept_none; exact I]).
  assert (M4 : forall s, item [] s t_function) by (intros s; apply it_member; [apply pick; unfold file_example; cbn; tauto|apply kept_none; exact I]).
  assert (M5 : forall s, item [] s t_comment) by (intros s; apply it_member; [apply pick; unfold file_example; cbn; tauto|exact I]).
  assert (M6 : forall s, item [] s t_name) by (intros s; apply it_member; [apply pick; unfold file_example; cbn; tauto|exact I]).
  assert (M7 : forall s, item [] s NewLine) by (intros s; apply it_member; [apply fm_line|exact I]).
  assert (BG : forall t r, t <> NewLine -> begun (t :: r)) by (intros t r H; exists t, r; auto).
  assert (B1 : body [] InClass inner_members). { apply bd_item; [apply M2|]. apply bd_label; [cbn; tauto|apply BG; discriminate|]. apply bd_item; [apply M3|]. apply bd_item; [apply M7|]. apply bd_item; [apply M4|constructor]. }
  assert (S1 : item [] InClass (Struct false None (txt "D") false None None inner_members)). { apply it_struct; [apply name_ok; reflexivity|apply BG; discriminate|exact B1|apply pairs; vm_compute; intuition discriminate]. }
  assert (B2 : body [] InClass class_members). { apply bd_label; [cbn; tauto|apply BG; discriminate|]. apply bd_item; [apply M1|]. apply bd_item; [exact S1|]. apply bd_item; [apply M7|]. apply bd_label; [cbn; tauto|apply BG; discriminate|]. apply bd_item; [apply M3|constructor]. }
  assert (C1 : item [] InNamespace (Class false None (txt "C") false None class_members)). { apply it_class; [apply name_ok; reflexivity|apply BG; discriminate|exact B2|apply pairs; vm_compute; intuition discriminate]. }
  assert (N1 : item [] InNamespace (Namespace false (txt "B") [t_plain; NewLine])). { apply it_namespace; [reflexivity|apply name_ok; reflexivity|apply BG; discriminate|]. apply bd_item; [apply M1|]. apply bd_item; [apply M7|constructor]. }
  assert (L1 : item [] InNamespace (Linkage (txt "C") [t_forward; t_static])). { apply it_linkage; [|apply BG; discriminate|]; [split; [discriminate|]; split; [repeat constructor; unfold byte_ok; vm_compute; congruence|vm_compute; intuition discriminate]|]. apply bd_item; [apply M3|]. apply bd_item; [apply M2|constructor]. }
  assert (B3 : body [] InNamespace namespace_members). { apply bd_item; [apply M5|]. apply bd_item; [exact C1|]. apply bd_item; [exact N1|]. apply bd_item; [exact L1|]. apply bd_item; [apply M4|constructor]. }
  assert (B4 : body [] InNamespace nested_example).
  { apply bd_item; [apply M6|]. apply bd_item; [apply M7|]. apply bd_item; [apply it_namespace; [reflexivity|apply name_ok; reflexivity|apply BG; discriminate|exact B3]|]. apply bd_item; [apply M7|].
    apply bd_item; [|apply bd_item; [apply M3|constructor]]. apply it_class; [apply name_ok; reflexivity|apply BG; discriminate|apply bd_item; [apply M1|constructor]|apply pairs; vm_compute; intuition discriminate]. }
  split; [split; [apply BG; discriminate|split; [exact B4|]]|split; [apply text_ok; vm_compute; reflexivity|split; [|reflexivity]]].
  - intros ls W. destruct ls as [|x ls]; [intros [|? ?] ? ? ? ? E; discriminate E|]. rewrite <- (lx_ok [] _ _ W) by discriminate. apply outsideb_ok. vm_compute. reflexivity.
  - split; [repeat constructor|]. split; [intros s t _; reflexivity|]. split; [constructor|]. split; [|split; [vm_compute; discriminate|split; [exact hg_ok|exact gg_ok]]]. eexists _, _, _. split; [reflexivity|]. split; discriminate.
Qed.
