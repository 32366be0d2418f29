From Coq Require Import String ZArith List Bool Lia ZifyBool ZifyNat.
From Verif Require Import Common HashModel Text ArrayModel StrOpsModel EnumModel EnumSpec EnumProofs LexModel LexSpec LexProofs LexProofs2 LexProofs3 LexProofs4 LexProofs5 LexProofs6 LexProofs7 RelexSpec.
Import ListNotations.
Close Scope string_scope. Open Scope Z_scope.

Lemma zlen_app {A} (a b : list A) : zlen (a ++ b) = zlen a + zlen b.
Proof. unfold zlen. rewrite app_length. lia. Qed.
Lemma zlen_cons {A} (x : A) l : zlen (x :: l) = 1 + zlen l.
Proof. unfold zlen. cbn [length]. lia. Qed.
Lemma zlen_pos {A} (l : list A) : 0 <= zlen l.
Proof. unfold zlen. lia. Qed.
Lemma zlen_nil {A} : zlen (@nil A) = 0. Proof. reflexivity. Qed.
Ltac zl := repeat rewrite ?zlen_app, ?zlen_cons, ?zlen_nil in *.
Ltac zp := repeat match goal with |- context [zlen ?l] => lazymatch goal with H : 0 <= zlen l |- _ => fail | _ => pose proof (zlen_pos l) end end.

(** ** the grammar *)
Lemma is_word_head w : is_word w -> exists c u, w = c :: u /\ word_first c /\ Forall word_char u.
Proof.
  intros (F & NE & D). destruct w as [|c u]; [contradiction|]. exists c, u. split; auto. cbn in D. split; [split; [apply (Forall_inv F)|auto]|apply (Forall_inv_tail F)].
Qed.
(** the same with the empty lines: [reads ms fresh t l]; [fresh]: a line has just ended behind a ';', a '}' or a comment,
    so that an empty line counts as a token *)
Definition stops : list (string * Z) := [(";", Tok_Statement_End); ("}", Tok_BraceCurly_Close)]%string.
Definition no_stop (s : string) : Prop := ~ In s (map fst stops).
Inductive reads (ms : macros) : bool -> list Z -> list lexeme -> Prop :=
| reads_end f : reads ms f [] []
| reads_space f t l : reads ms false t l -> reads ms f (32 :: t) l
| reads_newline t l : reads ms false t l -> reads ms false (10 :: t) l
| reads_empty_line t l : reads ms true t l -> reads ms true (10 :: t) (([10], Tok_NewLine) :: l)
| reads_word f w k t l : is_word w -> word_kind ms w t k -> ~ word_char (hd 0 t) -> reads ms false t l -> reads ms f (w ++ t) ((w, k) :: l)
| reads_symbol f s k no t l : In (s, k, no) symbols -> no_stop s -> ~ In (hd 0 t) (txt no) ->
    reads ms false t l -> reads ms f (txt s ++ t) ((txt s, k) :: l)
| reads_stop f s k g t l : In (s, k) stops -> Forall (eq 32) g -> ~ In (hd 0 t) [32; 10] ->
    reads ms false t l -> reads ms f (txt s ++ g ++ t) ((txt s, k) :: l)
| reads_stop_line f s k g t l : In (s, k) stops -> Forall (eq 32) g ->
    reads ms true t l -> reads ms f (txt s ++ g ++ 10 :: t) ((txt s, k) :: l)
| reads_comment f u t l : Forall byte_ok u -> ~ In 10 u -> ~ In 13 u ->
    reads ms true t l -> reads ms f (txt "//" ++ u ++ 10 :: t) ((txt "//" ++ u ++ [10], Tok_Comment) :: l)
| reads_number f d t l : d <> [] -> Forall digit d -> ~ digit (hd 0 t) -> ~ In (hd 0 t) (txt "xXbBoO.") ->
    reads ms false t l -> reads ms f (d ++ t) ((d, Tok_Number) :: l)
| reads_string f u t l : Forall byte_ok u -> ~ In 34 u -> ~ In 92 u -> reads ms false t l -> reads ms f (34 :: u ++ 34 :: t) ((34 :: u, Tok_String) :: l)
| reads_char f u t l : Forall byte_ok u -> ~ In 39 u -> ~ In 92 u -> reads ms false t l -> reads ms f (39 :: u ++ 39 :: t) ((39 :: u ++ [39], Tok_Char) :: l).

Definition SYMS : list Z := txt "(),;{}[]*&.:=<>~?+-%^!|/".
Lemma sym_head s k no : In (s, k, no) symbols -> exists c u, txt s = c :: u /\ In c SYMS /\ Forall (fun c => In c SYMS) u.
Proof.
  intros H. assert (G : forallb (fun '(s, k, no) => match txt s with c :: u => forallb (fun c => existsb (Z.eqb c) SYMS) (c :: u) | [] => false end) symbols = true) by (vm_compute; reflexivity).
  rewrite forallb_forall in G. specialize (G _ H). cbn beta iota in G. destruct (txt s) as [|c u]; [discriminate|]. exists c, u. split; auto. cbn [forallb] in G. apply andb_true_iff in G. destruct G as [G1 G2].
  assert (E : forall x, existsb (Z.eqb x) SYMS = true -> In x SYMS). { intros x Hx. apply existsb_exists in Hx. destruct Hx as (y & Hy & E). apply Z.eqb_eq in E. subst. auto. }
  split; auto. apply Forall_forall. intros x Hx. rewrite forallb_forall in G2. auto.
Qed.
Definition blank (c : Z) : Prop := c = 32 \/ c = 10.
Definition solid (c : Z) : Prop := word_char c \/ In c SYMS \/ c = 34 \/ c = 39.
Lemma solid_facts c : solid c -> 0 < c < 256 /\ c <> 32 /\ c <> 10 /\ c <> 13 /\ c <> 35 /\ ~ spacep c.
Proof. unfold solid, word_char, SYMS, spacep. cbn. lia. Qed.

Lemma stop_symbol s k : In (s, k) stops -> In (s, k, ""%string) symbols.
Proof. intros H. cbn in H. destruct H as [H|[H|[]]]; injection H as <- <-; cbn; tauto. Qed.

Section R.
Variable ms : macros.
Lemma reads_head f t l : reads ms f t l -> t = [] \/ blank (hd 0 t) \/ solid (hd 0 t).
Proof.
  intros H. destruct H; auto; cbn [hd].
  - right. left. left. auto.
  - right. left. right. auto.
  - right. left. right. auto.
  - right. right. left. apply is_word_head in H. destruct H as (c & u & -> & H & _). apply H.
  - right. right. right. left. apply sym_head in H. destruct H as (c & u & -> & H & _). auto.
  - right. right. right. left. apply stop_symbol, sym_head in H. destruct H as (c & u & -> & H & _). auto.
  - right. right. right. left. apply stop_symbol, sym_head in H. destruct H as (c & u & -> & H & _). auto.
  - right. right. right. left. cbn. tauto.
  - right. right. left. destruct d as [|c d]; [contradiction|]. cbn. pose proof (Forall_inv H0) as HD. unfold digit in HD. unfold word_char. lia.
  - right. right. right. auto.
  - right. right. right. auto.
Qed.
Lemma sym_bytes s k no : In (s, k, no) symbols -> Forall byte (txt s).
Proof. intros H. apply sym_head in H. destruct H as (c & u & -> & HC & HU). apply (Forall_impl byte (P := fun c => In c SYMS)); [|constructor; auto]. intros a Ha. cbn in Ha. unfold byte. lia. Qed.
Lemma reads_bytes f t l : reads ms f t l -> Forall byte t.
Proof.
  assert (SP : forall g, Forall (eq 32) g -> Forall byte g) by (intros g H; eapply Forall_impl; [|exact H]; intros a <-; unfold byte; lia).
  induction 1; rewrite ?Forall_app.
  - constructor.
  - constructor; auto. unfold byte. lia.
  - constructor; auto. unfold byte. lia.
  - constructor; auto. unfold byte. lia.
  - split; auto. destruct H as (F & _). eapply Forall_impl; [|exact F]. intros a Ha. unfold word_char in Ha. unfold byte. lia.
  - split; auto. eapply sym_bytes; eauto.
  - split; [eapply sym_bytes, stop_symbol; eauto|]. split; auto.
  - split; [eapply sym_bytes, stop_symbol; eauto|]. split; auto. constructor; auto. unfold byte. lia.
  - split; [repeat constructor; unfold byte; cbn; lia|]. split; [eapply Forall_impl; [|exact H]; intros a Ha; unfold byte_ok in Ha; unfold byte; lia|]. constructor; auto. unfold byte. lia.
  - split; auto. eapply Forall_impl; [|exact H0]. intros a Ha. unfold digit in Ha. unfold byte. lia.
  - constructor; [unfold byte; lia|]. rewrite Forall_app. split; [eapply Forall_impl; [|exact H]; intros a Ha; unfold byte_ok in Ha; unfold byte; lia|]. constructor; auto. unfold byte. lia.
  - constructor; [unfold byte; lia|]. rewrite Forall_app. split; [eapply Forall_impl; [|exact H]; intros a Ha; unfold byte_ok in Ha; unfold byte; lia|]. constructor; auto. unfold byte. lia.
Qed.

Lemma word_not_blank w t c u : is_word w -> w ++ t = c :: u -> ~ blank c.
Proof. intros H E. apply is_word_head in H. destruct H as (x & y & -> & (W & _) & _). injection E as -> _. unfold word_char, blank in *. lia. Qed.
Lemma sym_not_blank s k no t c u : In (s, k, no) symbols -> txt s ++ t = c :: u -> ~ blank c.
Proof. intros H E. apply sym_head in H. destruct H as (x & y & EQ & W & _). rewrite EQ in E. injection E as -> _. unfold blank. unfold SYMS in W. cbn in W. lia. Qed.
Lemma num_not_blank d t c u : d <> [] -> Forall digit d -> d ++ t = c :: u -> ~ blank c.
Proof. intros NE F E. destruct d as [|x y]; [contradiction|]. injection E as -> _. pose proof (Forall_inv F) as HD. unfold digit, blank in *. lia. Qed.
Lemma reads_blank_inv c t l : blank c -> reads ms false (c :: t) l -> reads ms false t l.
Proof.
  intros B H. remember (c :: t) as e eqn:E. remember false as f eqn:EF. destruct H; try discriminate.
  - subst f. injection E as _ <-. auto.
  - injection E as _ <-. auto.
  - exfalso. eapply word_not_blank; eauto.
  - exfalso. eapply sym_not_blank; eauto.
  - exfalso. eapply sym_not_blank; [apply stop_symbol|..]; eauto.
  - exfalso. eapply sym_not_blank; [apply stop_symbol|..]; eauto.
  - injection E as <- _. unfold blank in B. lia.
  - exfalso. eapply num_not_blank; eauto.
  - injection E as <- _. unfold blank in B. lia.
  - injection E as <- _. unfold blank in B. lia.
Qed.
Lemma reads_strip_false : forall t l, reads ms false t l -> exists g u, t = g ++ u /\ Forall blank g /\ reads ms false u l /\ (u = [] \/ solid (hd 0 u)).
Proof.
  induction t as [|c t IH]; intros l H.
  - exists [], []. auto.
  - destruct (reads_head _ _ _ H) as [|[B|S]]; [discriminate| |].
    + cbn in B. destruct (IH l (reads_blank_inv c t l B H)) as (g & u & -> & F & R & S). exists (c :: g), u. auto.
    + exists [], (c :: t). auto.
Qed.
(** only an empty line makes a difference *)
Lemma reads_mode t l : reads ms true t l -> hd 0 t <> 10 -> reads ms false t l.
Proof.
  intros H N. remember true as f eqn:EF. destruct H; try discriminate.
  - apply reads_end.
  - apply reads_space; auto.
  - cbn in N. lia.
  - eapply reads_word; eauto.
  - eapply reads_symbol; eauto.
  - eapply reads_stop; eauto.
  - eapply reads_stop_line; eauto.
  - eapply reads_comment; eauto.
  - eapply reads_number; eauto.
  - eapply reads_string; eauto.
  - eapply reads_char; eauto.
Qed.
(** the mode makes no other difference *)
Lemma reads_fresh : forall t l, reads ms false t l -> exists l', reads ms true t l' /\ visible l' = visible l.
Proof.
  induction t as [|c t IH]; intros l H.
  - exists l. split; auto. remember [] as e eqn:E. remember false as f eqn:EF. destruct H; try discriminate; try (apply reads_end).
    + exfalso. apply is_word_head in H. destruct H as (c & u & -> & _). discriminate.
    + exfalso. apply sym_head in H. destruct H as (c & u & EQ & _). rewrite EQ in E. discriminate.
    + exfalso. apply stop_symbol, sym_head in H. destruct H as (c & u & EQ & _). rewrite EQ in E. discriminate.
    + exfalso. apply stop_symbol, sym_head in H. destruct H as (c & u & EQ & _). rewrite EQ in E. discriminate.
    + exfalso. destruct d; [contradiction|discriminate].
  - destruct (Z.eq_dec c 10) as [->|N].
    + apply reads_blank_inv in H; [|right; auto]. destruct (IH l H) as (l' & R & E). exists (([10], Tok_NewLine) :: l'). split; [apply reads_empty_line; auto|]. exact E.
    + exists l. split; auto. remember (c :: t) as e eqn:E. remember false as f eqn:EF. destruct H; try discriminate.
      * apply reads_space; auto.
      * injection E as <- _. lia.
      * eapply reads_word; eauto.
      * eapply reads_symbol; eauto.
      * eapply reads_stop; eauto.
      * eapply reads_stop_line; eauto.
      * eapply reads_comment; eauto.
      * eapply reads_number; eauto.
      * eapply reads_string; eauto.
      * eapply reads_char; eauto.
Qed.
Lemma reads_stops s k : In (s, k) stops -> forall t l, reads ms false t l -> exists l', reads ms false (txt s ++ t) ((txt s, k) :: l') /\ visible l' = visible l.
Proof.
  intros HS. assert (G : forall t g l, Forall (eq 32) g -> reads ms false t l -> exists l', reads ms false (txt s ++ g ++ t) ((txt s, k) :: l') /\ visible l' = visible l).
  { induction t as [|c t IH]; intros g l F H.
    - exists l. split; auto. eapply reads_stop; eauto. cbn. lia.
    - destruct (Z.eq_dec c 32) as [->|N1].
      + apply reads_blank_inv in H; [|left; auto]. destruct (IH (g ++ [32]) l) as (l' & R & E); auto; [apply Forall_app; auto|]. exists l'. split; auto. rewrite <- app_assoc in R. exact R.
      + destruct (Z.eq_dec c 10) as [->|N2].
        * apply reads_blank_inv in H; [|right; auto]. destruct (reads_fresh t l H) as (l' & R & E). exists l'. split; auto. eapply reads_stop_line; eauto.
        * exists l. split; auto. eapply reads_stop; eauto. cbn. lia. }
  intros t l H. apply (G t [] l); auto.
Qed.
Lemma writes_reads t l : writes ms t l -> exists l', reads ms false t l' /\ visible l' = visible l.
Proof.
  induction 1 as [|c t l HC H (l' & R & E)|w k t l HW HK NW H (l' & R & E)|s k no t l HS NB H (l' & R & E)|u t l FU N1 N2 H (l' & R & E)|d t l ND FD NX1 NX2 H (l' & R & E)|u t l FU N1 N2 H (l' & R & E)|u t l FU N1 N2 H (l' & R & E)].
  - exists []. split; auto. apply reads_end.
  - exists l'. split; auto. destruct HC as [-> | ->]; [apply reads_space|apply reads_newline]; auto.
  - exists ((w, k) :: l'). split; [apply reads_word; auto|]. unfold visible in *. cbn [filter]. rewrite E. auto.
  - destruct (in_dec string_dec s (map fst stops)) as [I|I].
    + assert (In (s, k) stops).
      { assert (G : forallb (fun '(s, k, no) => implb (existsb (String.eqb s) (map fst stops)) (existsb (fun p => String.eqb (fst p) s && (snd p =? k)) stops)) symbols = true) by (vm_compute; reflexivity).
        rewrite forallb_forall in G. specialize (G _ HS). cbn beta iota in G. replace (existsb (String.eqb s) (map fst stops)) with true in G.
        2:{ symmetry. apply existsb_exists. exists s. split; auto. apply String.eqb_refl. }
        cbn [implb] in G. apply existsb_exists in G. destruct G as ((s0 & k0) & HI & G). apply andb_true_iff in G. cbn [fst snd] in G. destruct G as [G1 G2]. apply String.eqb_eq in G1. apply Z.eqb_eq in G2. subst. auto. }
      destruct (reads_stops s k H0 t l' R) as (l'' & R' & E'). exists ((txt s, k) :: l''). split; auto. unfold visible in *. cbn [filter]. rewrite E', E. auto.
    + exists ((txt s, k) :: l'). split; [eapply reads_symbol; eauto|]. unfold visible in *. cbn [filter]. rewrite E. auto.
  - destruct (reads_fresh t l' R) as (l'' & R' & E'). eexists. split; [apply reads_comment; eauto|]. unfold visible in *. cbn [filter]. rewrite E', E. auto.
  - eexists. split; [apply reads_number; eauto|]. unfold visible in *. cbn [filter]. rewrite E. auto.
  - eexists. split; [apply reads_string; eauto|]. unfold visible in *. cbn [filter]. rewrite E. auto.
  - eexists. split; [apply reads_char; eauto|]. unfold visible in *. cbn [filter]. rewrite E. auto.
Qed.
Lemma reads_empty_inv t l : reads ms true (10 :: t) l -> exists l', l = ([10], Tok_NewLine) :: l' /\ reads ms true t l'.
Proof.
  intros H. remember (10 :: t) as e eqn:E. remember true as f eqn:EF. destruct H; try discriminate.
  - injection E as <-. eauto.
  - exfalso. eapply word_not_blank; eauto. right. auto.
  - exfalso. eapply sym_not_blank; eauto. right. auto.
  - exfalso. eapply sym_not_blank; [apply stop_symbol|..]; eauto. right. auto.
  - exfalso. eapply sym_not_blank; [apply stop_symbol|..]; eauto. right. auto.
  - exfalso. eapply num_not_blank; eauto. right. auto.
Qed.
Lemma reads_nil f l : reads ms f [] l -> l = [].
Proof.
  intros H. remember [] as e eqn:E. destruct H; try discriminate; auto.
  - apply is_word_head in H. destruct H as (c & u & -> & _). discriminate.
  - apply sym_head in H. destruct H as (c & u & EQ & _). rewrite EQ in E. discriminate.
  - apply stop_symbol, sym_head in H. destruct H as (c & u & EQ & _). rewrite EQ in E. discriminate.
  - apply stop_symbol, sym_head in H. destruct H as (c & u & EQ & _). rewrite EQ in E. discriminate.
  - destruct d; [contradiction|discriminate].
Qed.
End R.
