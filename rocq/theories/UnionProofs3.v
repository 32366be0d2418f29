(** A union that is never read to its end: nothing behind an access label in it is ever reached. *)
From Coq Require Import String ZArith List Bool Lia ZifyBool ZifyNat.
From Verif Require Import Common Text HashModel EnumModel EnumSpec LexModel LexSpec LexProps StripSpec AstModel AstSpec UpfrontModel UpfrontSpec SerModel SerSpec SerProps
  ParseModel ParseSpec ParseProofs ParseProofs3 ParseProofs10 ParseProofs11 ParseProps FnModel FnSpec FnProps GlobalModel GlobalSpec GlobalProps ClassProofs4 ClassProps UnionProofs2.
Import ListNotations.
Close Scope string_scope.
Open Scope Z_scope.
Definition label_text := txt "union U { public: };".
Definition label_toks : list token := Eval vm_compute in toks_of label_text.
Definition label : token := Eval vm_compute in nth 3 label_toks (Tok 0 0 0 0 0 0).
(** at the label, and not moved from it *)
Definition stays {A} (m : M A) : Prop := forall sc h r st, m (Pst 3 sc h) = Done (r, st) -> p_idx st = 3.
Lemma st_bind : forall A B (m : M A) (k : A -> M B), stays m -> (forall a, stays (k a)) -> stays (bind m k).
Proof. intros A B m k S1 S2 sc h r st X. unfold bind in X. destruct (m (Pst 3 sc h)) as [[a [i s' h']]| |] eqn:E; cbn [rbind] in X; [|discriminate|discriminate]. apply S1 in E. cbn [p_idx] in E. subst i. eapply S2; exact X. Qed.
Lemma st_val : forall A B (m : M A) (k : A -> M B) v, (forall sc h, m (Pst 3 sc h) = Done (v, Pst 3 sc h)) -> stays (k v) -> stays (bind m k).
Proof. intros A B m k v E S1 sc h r st X. unfold bind in X. rewrite E in X. exact (S1 _ _ _ _ X). Qed.
Lemma st_ret : forall A (a : A), stays (ret a). Proof. intros A a sc h r st X. injection X as _ <-. reflexivity. Qed.
Lemma st_heap : forall (f : heap -> run (heap * Z)), stays (on_heap f).
Proof. intros f sc h r st X. unfold on_heap in X. cbn [p_heap] in X. destruct (f h) as [[a b]| |]; cbn [rbind] in X; [|discriminate|discriminate]. injection X as _ <-. reflexivity. Qed.
Lemma st_edit : forall f, stays (edit f).
Proof. intros f sc h r st X. unfold edit in X. cbn [p_heap] in X. destruct (f h) as [a| |]; cbn [rbind] in X; [|discriminate|discriminate]. injection X as _ <-. reflexivity. Qed.
Lemma st_push : forall p, stays (push_scope p). Proof. intros p sc h r st X. injection X as _ <-. reflexivity. Qed.
Lemma st_pop : stays parser_pop. Proof. intros sc h r st X. unfold parser_pop in X. cbn [p_scopes] in X. destruct sc; [discriminate|]. injection X as _ <-. reflexivity. Qed.
Lemma st_report : stays (report label_text label_toks earlier).
Proof.
  intros sc h r st X. unfold report in X. cbn [p_scopes p_idx] in X. destruct sc as [|[start p] sc]; [discriminate|]. destruct (tok_at label_toks earlier start) as [k0| |]; cbn [rbind] in X; [|discriminate|discriminate].
  change (3 >=? num label_toks) with false in X. cbv iota in X. assert (C : currtok label_toks earlier (Pst 3 ((start, p) :: sc) h) = Done (label, Pst 3 ((start, p) :: sc) h)) by reflexivity. rewrite C in X. cbn [rbind] in X.
  destruct (_ <=? _) in X; [|discriminate]. injection X as _ <-. reflexivity.
Qed.
Lemma st_eat : forall t, (t_type label =? t) = false -> stays (eat label_text label_toks earlier [] t).
Proof.
  intros t N sc h r st X. unfold eat in X. cbn [p_idx] in X. change (num label_toks - 3 =? 0) with false in X. cbv iota in X. change (tok_at label_toks earlier 3) with (Done label) in X. cbn [rbind] in X. cbv zeta in X.
  rewrite N in X. change (t_type label =? Tok_NewLine) with false in X. change (t_type label =? Tok_Comment) with false in X. cbn [andb orb negb lookup_macro] in X. rewrite andb_false_r in X. cbn [negb] in X.
  revert X. apply (st_val _ _ (currtok label_toks earlier) _ label); [reflexivity|]. apply st_bind; [exact st_report|intros; apply st_ret].
Qed.
(** one step at the label *)
Ltac st_turn :=
  lazymatch goal with
  | |- stays (if ?c then _ else _) =>
      let v := eval vm_compute in c in match v with true => change c with true; cbv iota | false => change c with false; cbv iota | _ => destruct c end
  | |- stays (bind (currtok _ _) _) => apply st_val with (v := label); [reflexivity|]
  | |- stays (bind (currtok_noskip _ _) _) => apply st_val with (v := label); [reflexivity|]
  | |- stays (bind (check _ _ _) _) => apply st_val with (v := false); [reflexivity|]
  | |- stays (bind (left _) _) => apply st_val with (v := 4); [reflexivity|]
  | |- stays (bind (specs_loop _ _ _ _ _ _ _ _) _) => apply st_val with (v := Some []); [reflexivity|]
  | |- stays (bind (parse_attributes _ _ _ _ _) _) => apply st_val with (v := 0); [reflexivity|]
  | |- stays (bind (parse_identifier _ _ _ _ _) _) => apply st_val with (v := Some label); [reflexivity|]
  | |- stays (bind (parse_array_decl _ _ _ _ _ _ _) _) => apply st_val with (v := 0); [reflexivity|]
  | |- stays (bind (initializer _ _ _ _ _ _) _) => apply st_val with (v := (0, false, Some 0)); [reflexivity|]
  | |- stays (bind (export_flag _ _ _ _) _) => apply st_val with (v := 0); [reflexivity|]
  | |- stays (bind (specifiers_of _ []) _) => apply st_val with (v := 0); [reflexivity|]
  | |- stays (bind (ret ?w) _) => apply (fun H => st_val _ _ (ret w) _ w (fun _ _ => eq_refl) H)
  | |- stays (bind _ _) => apply st_bind; [|intros ?]
  | |- stays (ret _) => apply st_ret
  | |- stays unmodelled => let X := fresh in intros ? ? ? ? X; discriminate X
  | |- stays (fail _ _ _ _) => unfold fail
  | |- stays (match ?x with _ => _ end) => destruct x
  | |- stays (push_scope _) => apply st_push
  | |- stays parser_pop => exact st_pop
  | |- stays (report _ _ _) => exact st_report
  | |- stays (edit _) => apply st_edit
  | |- stays (on_heap _) => apply st_heap
  | |- stays (eat _ _ _ _ _) => apply st_eat; reflexivity
  end.
Ltac st_all := repeat (cbn beta iota; st_turn).
Lemma st_type : forall m, stays (parse_type label_text label_toks earlier [] e0 (S m) false).
Proof. intros m. unfold parse_type. st_all. Qed.
Lemma st_after : forall m a b c d f, stays (parse_variable_after_name label_text label_toks earlier [] e0 (S m) a b c d f).
Proof. intros m a b c d f. unfold parse_variable_after_name, after_name. st_all. Qed.
Lemma st_variable : forall m, stays (parse_variable label_text label_toks earlier [] e0 (S m)).
Proof.
  intros m. unfold parse_variable. do 5 (cbn beta iota; st_turn); st_all; [apply st_type|apply st_after].
Qed.
Lemma at_brace : forall sc h, check_noskip label_toks earlier Tok_BraceCurly_Close (Pst 3 sc h) = Done (false, Pst 3 sc h).
Proof. reflexivity. Qed.
Lemma at_noskip : forall sc h, currtok_noskip label_toks earlier (Pst 3 sc h) = Done (label, Pst 3 sc h).
Proof. reflexivity. Qed.
Lemma other : forall src toks beyond ms e gl fuel cls t, t = Tok_Access_Public -> union_member src toks beyond ms e gl fuel cls t = parse_variable src toks beyond ms e fuel.
Proof. intros src toks beyond ms e gl fuel cls t ->. unfold union_member. reflexivity. Qed.
Lemma is_public : t_type label = Tok_Access_Public. Proof. reflexivity. Qed.
Lemma at_end : forall src toks beyond ms e gl fuel cls b s, check_noskip toks beyond Tok_BraceCurly_Close s = Done (false, s) -> union_loop src toks beyond ms e gl fuel O cls b s = NoFuel.
Proof. intros until s. intros C. cbn [union_loop]. rewrite (bind_ok _ _ _ _ _ _ _ C). reflexivity. Qed.
Lemma at_other : forall src toks beyond ms e gl fuel n cls b k s, check_noskip toks beyond Tok_BraceCurly_Close s = Done (false, s) -> currtok_noskip toks beyond s = Done (k, s) -> t_type k = Tok_Access_Public ->
  union_loop src toks beyond ms e gl fuel (S n) cls b s = rbind (parse_variable src toks beyond ms e fuel s) (fun '(m, s) => rbind (body_append fuel (p_heap s) b m) (fun h => union_loop src toks beyond ms e gl fuel n cls b (with_heap h s))).
Proof.
  intros until s. intros C K P. cbn [union_loop]. rewrite (bind_ok _ _ _ _ _ _ _ C). rewrite (bind_ok _ _ _ _ _ _ _ K), P. change (Tok_Access_Public =? Tok_Preprocess_Hash) with false. cbv iota.
  rewrite (bind_ok _ _ _ _ _ true s eq_refl), (bind_ok _ _ _ _ _ _ _ K), (other _ _ _ _ _ _ _ _ _ P). unfold bind at 1. destruct (parse_variable _ _ _ _ _ _ s) as [[m s']| |]; cbn [rbind]; [|reflexivity|reflexivity].
  unfold bind, edit. destruct (body_append _ _ _ _); reflexivity.
Qed.
Lemma forever : forall m cls b x n sc h, union_loop label_text label_toks earlier [] e0 gg (S m) n cls b (Pst 3 sc h) <> Done x.
Proof.
  intros m cls b x n. induction n as [|n IH]; intros sc h X; [rewrite (at_end _ _ _ _ _ _ _ _ _ _ (at_brace sc h)) in X; discriminate X|].
  rewrite (at_other _ _ _ _ _ _ _ _ _ _ _ _ (at_brace sc h) (at_noskip sc h) is_public) in X.
  destruct (parse_variable label_text label_toks earlier [] e0 (S m) (Pst 3 sc h)) as [[s st]| |] eqn:V; cbn [rbind] in X; [|discriminate|discriminate].
  apply st_variable in V. destruct st as [i s' h']. cbn [p_idx] in V. subst i. cbn [p_heap] in X. destruct (body_append (S m) h' b s) as [h2| |]; cbn [rbind] in X; [|discriminate|discriminate].
  exact (IH _ _ X).
Qed.
Lemma ret_bind : forall A B (a : A) (k : A -> M B) s, bind (ret a) k s = k a s. Proof. reflexivity. Qed.
Lemma never_at : forall src toks beyond ms e gl fuel cls s0 fl s1 s2 s3 s4 t1 t2 t3 at_ k,
  let s := Pst (p_idx s0) ((p_idx s0, "parser_parse_union"%string) :: p_scopes s0) (p_heap s0) in
  export_flag src toks beyond ms s = Done (fl, s) -> eat src toks beyond ms Tok_Decl_Union s = Done (t1, s1) -> parse_attributes src toks beyond ms fuel s1 = Done (at_, s2) ->
  check toks beyond Tok_Identifier s2 = Done (true, s2) -> currtok toks beyond s2 = Done (k, s2) -> eat src toks beyond ms Tok_Identifier s2 = Done (t2, s3) -> eat src toks beyond ms Tok_BraceCurly_Open s3 = Done (t3, s4) ->
  (forall b h x, union_loop src toks beyond ms e gl fuel fuel cls b (with_heap h s4) <> Done x) -> forall x, parse_union_with src toks beyond ms e gl fuel cls s0 <> Done x.
Proof.
  intros src toks beyond ms e gl fuel cls s0 fl s1 s2 s3 s4 t1 t2 t3 at_ k s H1 H2 H3 H4 H5 H6 H7 N x X. unfold parse_union_with in X. rewrite (bind_ok _ _ _ _ _ tt s eq_refl), (bind_ok _ _ _ _ _ _ _ H1), (bind_ok _ _ _ _ _ _ _ H2), (bind_ok _ _ _ _ _ _ _ H3), (bind_ok _ _ _ _ _ _ _ H4) in X.
  cbv iota in X. rewrite ParseProofs5.bind_assoc, (bind_ok _ _ _ _ _ _ _ H5), ParseProofs5.bind_assoc, (bind_ok _ _ _ _ _ _ _ H6), ret_bind, (bind_ok _ _ _ _ _ _ _ H7) in X.
  unfold bind at 1 in X. unfold on_heap at 1 in X. destruct (Done (make (p_heap s4) _)) as [[h1 b]| |]; cbn [rbind] in X; [|discriminate|discriminate]. unfold bind at 1 in X.
  destruct (union_loop _ _ _ _ _ _ _ _ _ _ _) as [y| |] eqn:U; cbn [rbind] in X; [|discriminate|discriminate]. exact (N _ _ _ U).
Qed.
Lemma h1_ : forall h, let s := Pst 0 [(0, "parser_parse_union"%string)] h in export_flag label_text label_toks earlier [] s = Done (0, s). Proof. reflexivity. Qed.
Lemma h2_ : forall h sc, eat label_text label_toks earlier [] Tok_Decl_Union (Pst 0 sc h) = Done (true, Pst 1 sc h). Proof. reflexivity. Qed.
Lemma h3_ : forall m h sc, parse_attributes label_text label_toks earlier [] (S m) (Pst 1 sc h) = Done (0, Pst 1 sc h). Proof. reflexivity. Qed.
Lemma h4_ : forall h sc, check label_toks earlier Tok_Identifier (Pst 1 sc h) = Done (true, Pst 1 sc h). Proof. reflexivity. Qed.
Lemma h5_ : forall h sc, currtok label_toks earlier (Pst 1 sc h) = Done (nth 1 label_toks label, Pst 1 sc h). Proof. reflexivity. Qed.
Lemma h6_ : forall h sc, eat label_text label_toks earlier [] Tok_Identifier (Pst 1 sc h) = Done (true, Pst 2 sc h). Proof. reflexivity. Qed.
Lemma h7_ : forall h sc, eat label_text label_toks earlier [] Tok_BraceCurly_Open (Pst 2 sc h) = Done (true, Pst 3 sc h). Proof. reflexivity. Qed.
Lemma never_parsed : forall m h x, parse_union_of gg label_text label_toks earlier [] e0 (S m) (Pst 0 [] h) <> Done x.
Proof.
  intros m h. unfold parse_union_of, parse_union. generalize (class_struct label_text label_toks earlier [] e0 gg (S m) (S m)). intros cls.
  eapply never_at; cbn [p_idx p_scopes p_heap]; [apply h1_|apply h2_|apply h3_|apply h4_|apply h5_|apply h6_|apply h7_|]. intros b h' y. unfold with_heap. cbn [p_idx p_scopes p_heap]. apply forever.
Qed.
Lemma lexed_enough : forall m, lex label_text (50 + m) [] = Done (Some (label_toks, [])). Proof. intros m. vm_compute. reflexivity. Qed.
Lemma text_of_lex : forall p text beyond ms e fuel h toks ms' x, parse_text p text beyond ms e fuel h = Done x -> lex text fuel ms = Done (Some (toks, ms')) -> exists y, p text toks beyond ms' e fuel (Pst 0 [] h) = Done y.
Proof.
  intros p text beyond ms e fuel h toks ms' x X L. unfold parse_text in X. destruct text as [|a t] eqn:T; [discriminate X|]. rewrite <- T in *. rewrite L in X. cbn [rbind] in X.
  destruct (p text toks beyond ms' e fuel (Pst 0 [] h)) as [y| |]; [eauto|discriminate X|discriminate X].
Qed.
Lemma lexed_or_not : forall n, (n < 50)%nat -> lex label_text n [] = Done (Some (label_toks, [])) \/ lex label_text n [] = NoFuel.
Proof. do 50 (intros [|n]; [intros _; vm_compute; auto|]; revert n). intros n H. lia. Qed.
Lemma never_returns : forall fuel h x, parse_text (parse_union_of gg) label_text earlier [] e0 fuel h <> Done x.
Proof.
  assert (A : forall m h x, lex label_text (S m) [] = Done (Some (label_toks, [])) -> parse_text (parse_union_of gg) label_text earlier [] e0 (S m) h <> Done x).
  { intros m h x L X. destruct (text_of_lex _ _ _ _ _ _ _ _ _ _ X L) as (y & Y). exact (never_parsed m h y Y). }
  intros fuel h x X. destruct (Nat.le_gt_cases 50 fuel) as [H|H].
  - destruct (Nat.le_exists_sub 50 fuel H) as (m & E & _). rewrite Nat.add_comm in E. subst fuel. exact (A (49 + m)%nat h x (lexed_enough m) X).
  - destruct (lexed_or_not fuel H) as [L|L]; [destruct fuel as [|m]; [vm_compute in L; discriminate L|exact (A m h x L X)]|].
    unfold parse_text in X. destruct label_text; [discriminate X|]. rewrite L in X. discriminate X.
Qed.
