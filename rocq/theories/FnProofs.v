From Coq Require Import String ZArith List Bool Lia ZifyBool ZifyNat.
From Verif Require Import Common Text HashModel StrOpsModel EnumModel EnumSpec EnumProofs LexModel LexSpec NavModel StripModel StripSpec StripProofs AstModel AstSpec AstProofs AstProofs4 UpfrontModel UpfrontSpec SerSpec SerProofs ParseModel ParseSpec
  ParseProofs ParseProofs2 ParseProofs3 ParseProofs4 ParseProofs5 ParseProofs7 ParseProofs8 ParseProofs9 FnModel FnSpec.
Import ListNotations.
Close Scope string_scope.
Open Scope Z_scope.
Open Scope parse_scope.

Section P.
Variable src : list Z.
Variable toks beyond : list token.
Variable ms : macros.
Variable e : env.
Variable varadic : Z.
Variable fuel : nat.
Hypothesis SRC : Forall (in_source src) toks.
Hypothesis FIT : Forall flags_fit toks.
Hypothesis BYTES : Forall (fun c => 0 <= c < 256) src.
Hypothesis FT : (length toks < fuel)%nat.
Hypothesis FS : (length src < fuel)%nat.
Notation ahead := (ahead toks).
Notation a_currtok := (a_currtok toks beyond).
Notation a_check := (a_check toks beyond).
Notation a_left := (a_left toks).
Notation a_eat := (a_eat src toks beyond ms).

Definition vgo (k : token) (p a : Z) : bool :=
  (negb (t_type k =? Tok_Comma) && (a >=? 0) && negb (t_type k =? Tok_Paren_Close)) || (p >? 0) || (a >? 0).
Definition vangle (k : token) (a : Z) : Z :=
  let a := if char_of src k 0 =? 60 then a + 1 else a in
  let a := if char_of src k 0 =? 62 then a - 1 else a in
  if (t_type k =? Tok_Operator) && (char_of src k 1 =? 62) then a - 1 else a.
Definition vparen (k : token) (p : Z) : Z :=
  let p := if t_type k =? Tok_Paren_Open then p + 1 else p in
  if t_type k =? Tok_Paren_Close then p - 1 else p.
Lemma value_step : forall n start len p a Q g k r sc h, ahead Q (g ++ k :: r) -> gap g -> ~ fmt k -> vgo k p a = true ->
  exists Q', ahead (Q' ++ [k]) r /\ toks = Q' ++ k :: r /\
    value_loop src toks beyond ms (S n) start len p a (Pst (zlen Q) sc h) =
    value_loop src toks beyond ms n start (end_of k - t_start start) (vparen k p) (vangle k a) (Pst (zlen (Q' ++ [k])) sc h).
Proof.
  intros n start len p a Q g k r sc h A G K GO. cbn [value_loop].
  destruct (a_left Q g k r sc h A G K) as (l & L1 & L2). erewrite bind_ok by exact L1. rewrite L2. cbn [negb].
  destruct (a_currtok Q g k r sc h A G K) as (Q1 & E1 & C1). rewrite bind_assoc. erewrite bind_ok by exact C1. unfold bind at 1. cbn [ret rbind].
  unfold vgo in GO. rewrite GO. cbn [negb].
  assert (C2 : currtok toks beyond (Pst (zlen Q1) sc h) = Done (k, Pst (zlen Q1) sc h)) by (eapply cur_here; eauto).
  erewrite bind_ok by exact C2. destruct (a_eat Q1 k r _ sc h E1 eq_refl) as (A2 & C3). exists Q1. split; [exact A2|]. split; [exact E1|]. erewrite bind_ok by exact C3. reflexivity.
Qed.
Lemma value_stop : forall n start len Q g k r sc h, ahead Q (g ++ k :: r) -> gap g -> ~ fmt k -> t_type k = Tok_Comma \/ t_type k = Tok_Paren_Close ->
  exists Q', toks = Q' ++ k :: r /\ value_loop src toks beyond ms n start len 0 0 (Pst (zlen Q) sc h) = Done (len, Pst (zlen Q') sc h).
Proof.
  intros n start len Q g k r sc h A G K ST. destruct (a_left Q g k r sc h A G K) as (l & L1 & L2). destruct (a_currtok Q g k r sc h A G K) as (Q1 & E1 & C1). exists Q1. split; [exact E1|].
  assert (GO : vgo k 0 0 = false) by (unfold vgo; destruct ST as [-> | ->]; reflexivity). unfold vgo in GO.
  destruct n; cbn [value_loop]; erewrite bind_ok by exact L1; rewrite L2; cbn [negb]; rewrite bind_assoc; erewrite bind_ok by exact C1; unfold bind at 1; cbn [ret rbind]; rewrite GO; reflexivity.
Qed.
Ltac cases := cbv beta iota zeta; repeat match goal with |- context [?a =? ?b] => destruct (Z.eqb_spec a b); [try (exfalso; unfold Tok_Operator, Tok_Paren_Open, Tok_Paren_Close, Tok_Comma in *; lia)|try (exfalso; unfold Tok_Operator, Tok_Paren_Open, Tok_Paren_Close, Tok_Comma in *; lia)] end; cbn [negb andb orb]; try reflexivity; try lia.
Lemma value_go : forall p a k r, value src p a (k :: r) -> ~ fmt k -> in_source src k ->
  vgo k (Z.of_nat p) (Z.of_nat a) = true /\ exists p' a', vparen k (Z.of_nat p) = Z.of_nat p' /\ vangle k (Z.of_nat a) = Z.of_nat a' /\ value src p' a' r.
Proof.
  intros p a k r V K SK. unfold vgo, vparen, vangle. rewrite !char0, !char1.
  inversion V as [|p0 a0 k0 r0 F V'|p0 a0 k0 r0 KK W V'|p0 a0 k0 r0 KK W V'|p0 a0 k0 r0 KK W N V'|p0 a0 k0 r0 KK W N V'|p0 a0 k0 r0 KK W V'|p0 a0 k0 r0 KF N1 N2 N3 N4 N5 N6 V']; subst.
  - contradiction.
  - assert (FC : first_char src k = 40) by exact (word_first src k _ _ SK W). unfold kind in KK. split; [cases|]. exists (S p), a. split; [cases|]. split; [cases|exact V'].
  - assert (FC : first_char src k = 41) by exact (word_first src k _ _ SK W). unfold kind in KK. split; [cases|]. exists p0, a. split; [cases|]. split; [cases|exact V'].
  - assert (FC : first_char src k = 60) by exact (word_first src k _ _ SK W). unfold kind in KK. split; [cases|]. exists p, (S a). split; [cases|]. split; [cases|exact V'].
  - assert (FC : first_char src k = 62) by exact (word_first src k _ _ SK W). unfold kind in KK. split; [cases|]. exists p, a0. split; [cases|]. split; [cases|exact V'].
  - assert (FC : first_char src k = 62) by exact (word_first src k _ _ SK W). assert (FD : char_behind src k = 62) by exact (word_second src k _ _ _ SK W). unfold kind in KK. split; [cases|]. exists p, a0. split; [cases|]. split; [cases|exact V'].
  - split; [destruct p as [|p]; [destruct a as [|a]; [specialize (N3 eq_refl eq_refl)|]|]; cases|]. exists p, a. split; [cases|]. split; [|exact V'].
    destruct (Z.eqb_spec (t_type k) Tok_Operator) as [X|X]; [specialize (N6 X)|]; cases.
Qed.
Lemma value_gap : forall g p a r, gap g -> value src p a (g ++ r) -> value src p a r.
Proof.
  induction g as [|k g IH]; intros p a r G V; [exact V|]. apply IH; [apply (Forall_inv_tail G)|]. pose proof (Forall_inv G) as F. cbn [app] in V.
  inversion V as [|p0 a0 k0 r0 F' V'|p0 a0 k0 r0 KK W V'|p0 a0 k0 r0 KK W V'|p0 a0 k0 r0 KK W N V'|p0 a0 k0 r0 KK W N V'|p0 a0 k0 r0 KK W V'|p0 a0 k0 r0 KF N1 N2 N3 N4 N5 N6 V']; subst; auto; exfalso; try contradiction; destruct F as [F|F]; rewrite KK in F; discriminate F.
Qed.
(** the loop from inside a value, of which [last] is the token last eaten *)
Lemma value_loop_ok : forall n raw p a start prev Q g c R sc h, (length raw <= n)%nat -> value src p a raw -> (raw = [] \/ ~ fmt (last raw prev)) -> ahead Q (raw ++ g ++ c :: R) -> gap g -> t_type c = Tok_Comma \/ t_type c = Tok_Paren_Close ->
  exists Q', toks = Q' ++ c :: R /\ value_loop src toks beyond ms n start (end_of prev - t_start start) (Z.of_nat p) (Z.of_nat a) (Pst (zlen Q) sc h) =
    Done (end_of (last raw prev) - t_start start, Pst (zlen Q') sc h).
Proof.
  induction n as [|n IH]; intros raw p a start prev Q g c R sc h L V LA A G ST; assert (CF : ~ fmt c) by (unfold fmt; destruct ST as [-> | ->]; intros [X|X]; discriminate X).
  - destruct raw; [|cbn in L; lia]. inversion V; subst. cbn [app last] in *. destruct (value_stop 0 start (end_of prev - t_start start) Q g c R sc h A G CF ST) as (Q' & E & C). eauto.
  - destruct (raw_split raw) as [GR|(g1 & k & r & -> & G1 & K)].
    + assert (raw = []). { destruct LA as [->|LA]; [reflexivity|]. destruct raw as [|x raw]; [reflexivity|]. exfalso. apply LA. unfold gap in GR. rewrite Forall_forall in GR. apply GR. destruct (exists_last (l := x :: raw)) as (u & v & ->); [discriminate|]. rewrite last_last. apply in_or_app. right. left. reflexivity. }
      subst raw. inversion V; subst. cbn [app last] in *. destruct (value_stop (S n) start (end_of prev - t_start start) Q g c R sc h A G CF ST) as (Q' & E & C). eauto.
    + apply value_gap in V; [|exact G1]. rewrite <- app_assoc in A. cbn [app] in A.
      assert (SK : in_source src k). { rewrite Forall_forall in SRC. apply SRC. eapply ahead_in; [exact A|apply in_or_app; right; left; reflexivity|exact K]. }
      destruct (value_go p a k r V K SK) as (GO & p' & a' & P1 & P2 & V').
      destruct (value_step n start (end_of prev - t_start start) (Z.of_nat p) (Z.of_nat a) Q g1 k _ sc h A G1 K GO) as (Q1 & A1 & E1 & C1). rewrite C1, P1, P2.
      rewrite app_length in L. cbn [length] in L.
      assert (LL : last (g1 ++ k :: r) prev = last r k). { rewrite last_app_ne by discriminate. destruct r as [|y r]; [reflexivity|]. change (last (k :: y :: r) prev) with (last (y :: r) prev). apply last_dflt. discriminate. }
      destruct (IH r p' a' start k (Q1 ++ [k]) g c R sc h ltac:(lia) V') as (Q' & E & C); auto.
      { destruct r as [|y r]; [left; reflexivity|]. right. rewrite <- LL. destruct LA as [LA|LA]; [destruct g1; discriminate LA|exact LA]. }
      exists Q'. split; [exact E|]. rewrite C, LL. reflexivity.
Qed.

Lemma no_ident : forall k, flags_fit k -> ~ macro_kind (t_type k) -> t_type k <> Tok_Preprocess_Define -> t_type k <> Tok_Preprocess_Include -> bitfield_is_set (t_flags k) TF_Identifier = false.
Proof. intros k [M|(_ & _ & _ & F & _)] N1 N2 N3; [contradiction|]. apply Z.eqb_neq. intros X. destruct (F X); contradiction. Qed.
(** what may follow a parameter *)
Definition param_end (R : list token) : Prop := exists g c r, R = g ++ c :: r /\ gap g /\ (t_type c = Tok_Comma \/ t_type c = Tok_Paren_Close).
Lemma end_sig : forall c, t_type c = Tok_Comma \/ t_type c = Tok_Paren_Close -> ~ fmt c.
Proof. intros c ST. unfold fmt. destruct ST as [-> | ->]; intros [X|X]; discriminate X. Qed.
(** the part of a parameter behind its name *)
Definition value_part (type : Z) (name : list Z) : M (option (Z * list Z * Z)) :=
  b <- check toks beyond Tok_Preprocess_Macro_Expr ;; if b then unmodelled else
  k <- currtok toks beyond ;;
  if bitfield_is_set (t_flags k) TF_Assign then
    eat src toks beyond ms Tok_Operator ;;;
    value_tok <- currtok toks beyond ;;
    if t_type value_tok =? Tok_Comma then report src toks beyond ;;; parser_pop ;;; ret None else
    len <- value_loop src toks beyond ms fuel value_tok (t_len value_tok) 0 0 ;;
    value <- on_heap (fun h => rbind (strip_formatting (text_of src (set_len len value_tok)) false fuel) (fun t => untyped_str e h t)) ;;
    ret (Some (type, name, value))
  else ret (Some (type, name, 0)).
Lemma stripped_new : forall t n i sc h, strip_formatting t false fuel = Done n -> n <> [] -> 0 < h_top h ->
  exists h', on_heap (fun h => rbind (strip_formatting t false fuel) (fun t => untyped_str e h t)) (Pst i sc h) = Done (h_top h, Pst i sc h') /\ grow h h' /\ raw_at h' (h_top h) n.
Proof.
  intros t n i sc h E NE T. destruct (untyped_raw src toks e fuel FT FS n i sc h NE T) as (h' & E1 & G & R). exists h'. split; [|auto]. rewrite <- E1. unfold on_heap. rewrite E. reflexivity.
Qed.
Lemma value_part_ok : forall dv o type name R Q sc h, default src dv o -> ahead Q (dv ++ R) -> param_end R -> 0 < h_top h ->
  exists Q' v h' o', ahead Q' R /\ value_part type name (Pst (zlen Q) sc h) = Done (Some (type, name, v), Pst (zlen Q') sc h') /\ grow h h' /\
    maybe (raw_at h') v o' /\ both respaced o o' /\ (o <> None -> h_top h <= v).
Proof.
  intros dv o type name R Q sc h D A (g0 & c & r0 & -> & G0 & ST) TP. pose proof (end_sig c ST) as CF. unfold value_part. destruct o as [t|].
  - destruct D as (g & eq & g' & first & more & -> & G & (KO & FA) & G' & FF & V & FL & ET & N92 & CL & WT).
    repeat rewrite <- app_assoc in A. cbn [app] in A. assert (EF : ~ fmt eq) by (tk; lia).
    destruct (a_check Q g eq _ Tok_Preprocess_Macro_Expr sc h A G EF) as (Q1 & E1 & C1). erewrite bind_ok by exact C1. rewrite KO. change (Tok_Operator =? Tok_Preprocess_Macro_Expr) with false. cbv iota.
    erewrite bind_ok by (eapply cur_here; eauto). rewrite (is_assign eq FA).
    destruct (a_eat Q1 eq _ Tok_Operator sc h E1 KO) as (A2 & C2). erewrite bind_ok by exact C2.
    repeat rewrite <- app_assoc in A2. cbn [app] in A2.
    destruct (a_currtok (Q1 ++ [eq]) g' first _ sc h A2 G' FF) as (Q3 & E3 & C3). erewrite bind_ok by exact C3.
    assert (NC : t_type first <> Tok_Comma). { inversion V as [|p0 a0 k0 r1 F' V'|p0 a0 k0 r1 KK W V'|p0 a0 k0 r1 KK W V'|p0 a0 k0 r1 KK W N V'|p0 a0 k0 r1 KK W N V'|p0 a0 k0 r1 KK W V'|p0 a0 k0 r1 KF N1 N2 N3 N4 N5 N6 V']; subst; auto; try contradiction; rewrite KK; discriminate. }
    replace (t_type first =? Tok_Comma) with false by lia.
    assert (LEN : (length (first :: more) <= fuel)%nat). { pose proof (f_equal (@length _) E3) as LL. rewrite !app_length in LL. cbn [length] in LL. rewrite app_length in LL. cbn [length]. lia. }
    pose proof (ahead_self toks _ _ E3) as A3. change (first :: more ++ g0 ++ c :: r0) with ((first :: more) ++ g0 ++ c :: r0) in A3.
    assert (LF : last (first :: more) first = last more first) by (destruct more as [|m more]; [reflexivity|]; change (last (first :: m :: more) first) with (last (m :: more) first); reflexivity).
    destruct (value_loop_ok fuel (first :: more) 0 0 first first Q3 g0 c r0 sc h LEN V) as (Q4 & E4 & C4); auto; [right; rewrite LF; exact FL|].
    replace (t_len first) with (end_of first - t_start first) by (unfold end_of; lia). change (Z.of_nat 0) with 0 in C4. erewrite bind_ok by exact C4. rewrite LF.
    assert (TX : text_of src (set_len (end_of (last more first) - t_start first) first) = t) by (rewrite ET; symmetry; rewrite upto_slice; reflexivity). rewrite TX.
    destruct (strip_ok t fuel N92 CL WT) as (n & SE & RS & NE).
    { rewrite <- TX. apply slice_bytes. exact BYTES. } { rewrite <- TX. pose proof (slice_len src (t_start (set_len (end_of (last more first) - t_start first) first)) (t_len (set_len (end_of (last more first) - t_start first) first))) as SL. unfold text_of. lia. }
    destruct (stripped_new t n (zlen Q4) sc h SE NE TP) as (h' & C5 & G5 & R5). erewrite bind_ok by exact C5. exists Q4, (h_top h), h', (Some n).
    split; [apply stands_ahead; rewrite trim_gap, trim_sig by auto; exact E4|]. split; [reflexivity|]. split; [exact G5|]. split; [exact R5|]. split; [exact RS|]. intros _. lia.
  - cbn in D. subst dv. cbn [app] in A. destruct (a_check Q g0 c r0 Tok_Preprocess_Macro_Expr sc h A G0 CF) as (Q1 & E1 & C1). erewrite bind_ok by exact C1.
    replace (t_type c =? Tok_Preprocess_Macro_Expr) with false by (destruct ST as [-> | ->]; reflexivity). erewrite bind_ok by (eapply cur_here; eauto).
    rewrite no_assign; [|eapply ahead_fit; [exact FIT|exact A|apply in_or_app; right; left; reflexivity|exact CF]|unfold macro_kind; cbn [In]; destruct ST as [-> | ->]; intros [X|[X|[X|[]]]]; discriminate X|destruct ST as [-> | ->]; discriminate|destruct ST as [-> | ->]; discriminate].
    exists Q1, 0, h, None. split; [apply stands_ahead; rewrite trim_gap, trim_sig by auto; exact E1|]. split; [reflexivity|]. split; [apply grow_refl|]. split; [reflexivity|]. split; [exact I|]. intros X. exfalso. apply X. reflexivity.
Qed.
End P.
(** attributes are attributes *)
Lemma attributes_kind : forall src toks beyond ms fuel s c s', parse_attributes src toks beyond ms fuel s = Done (c, s') -> c <> 0 -> n_type (h_node (p_heap s') c) = CT_PlatformAttributes.
Proof.
  intros src toks beyond ms fuel s c s' E N. unfold parse_attributes in E. unfold bind at 1 in E. destruct (push_scope _ s) as [(u & s1)| | ]; try discriminate E. cbn [rbind] in E.
  unfold bind at 1 in E. destruct (currtok toks beyond s1) as [(k & s2)| | ]; try discriminate E. cbn [rbind] in E.
  unfold bind at 1 in E. destruct (attributes_loop _ _ _ _ _ _ _ _ s2) as [(len & s3)| | ]; try discriminate E. cbn [rbind] in E.
  destruct (len >? 0).
  - unfold bind at 1 in E. destruct (parser_pop s3) as [(u2 & s4)| | ]; try discriminate E. cbn [rbind] in E. destruct (strip_formatting _ _ _) as [name| | ]; try discriminate E. cbn [rbind] in E. unfold on_heap, make in E. cbn [rbind] in E. injection E as <- <-. cbn [p_heap h_node]. unfold upd. cbn. rewrite Z.eqb_refl. reflexivity.
  - unfold bind at 1 in E. destruct (parser_pop s3) as [(u2 & s4)| | ]; try discriminate E. cbn [rbind] in E. unfold ret in E. injection E as <- _. contradiction.
Qed.
