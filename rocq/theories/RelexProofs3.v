From Coq Require Import String ZArith List Bool Lia ZifyBool ZifyNat.
From Verif Require Import Common HashModel Text ArrayModel StrOpsModel EnumModel EnumSpec EnumProofs LexModel LexSpec LexProofs LexProofs2 LexProofs3 LexProofs4 LexProofs5 LexProofs6 LexProofs7 RelexSpec RelexProofs RelexProofs2.
Import ListNotations.
Close Scope string_scope. Open Scope Z_scope.

Lemma spelled_plain t s : In (t, s) token_spelling -> t <> Tok_Preprocess_Macro_Stmt /\ t <> Tok_Preprocess_Macro_Expr.
Proof.
  assert (H : forallb (fun p => negb ((fst p =? Tok_Preprocess_Macro_Stmt) || (fst p =? Tok_Preprocess_Macro_Expr))) token_spelling = true) by (vm_compute; reflexivity).
  intros Hi. rewrite forallb_forall in H. specialize (H (t, s) Hi). cbn [fst snd] in H. split; intros ->; discriminate H.
Qed.
Lemma spelled_not_string t s : In (t, s) token_spelling -> t <> Tok_String.
Proof.
  assert (H : forallb (fun p => negb (fst p =? Tok_String)) token_spelling = true) by (vm_compute; reflexivity).
  intros Hi. rewrite forallb_forall in H. specialize (H (t, s) Hi). cbn [fst snd] in H. intros ->. discriminate H.
Qed.
Lemma symbol_plain s k no : In (s, k, no) symbols -> k <> Tok_Invalid /\ k <> Tok_Preprocess_Macro_Stmt /\ k <> Tok_Preprocess_Macro_Expr.
Proof.
  assert (H : forallb (fun '(s, k, no) => negb ((k =? Tok_Invalid) || (k =? Tok_Preprocess_Macro_Stmt) || (k =? Tok_Preprocess_Macro_Expr))) symbols = true) by (vm_compute; reflexivity).
  intros Hi. rewrite forallb_forall in H. specialize (H _ Hi). cbn beta iota in H. split; [|split]; intros ->; discriminate H.
Qed.

Lemma reads_none ms f t : reads ms f t [] -> Forall blank t.
Proof. intros R. remember [] as l eqn:E. induction R; try discriminate; try constructor; unfold blank; auto. Qed.
Lemma split_nth (t : list Z) : forall m, (m < length t)%nat -> t = firstn m t ++ nth m t 0 :: skipn (S m) t.
Proof. induction t as [|c t IH]; intros m HM; [cbn in HM; lia|]. destruct m as [|m]; [reflexivity|]. cbn [firstn nth app]. change (skipn (S (S m)) (c :: t)) with (skipn (S m) t). f_equal. apply IH. cbn in HM. lia. Qed.
Lemma nth_first (t : list Z) : forall i m, (i < m)%nat -> nth i (firstn m t) 0 = nth i t 0.
Proof. induction t as [|c t IH]; intros i m Hm; destruct m as [|m]; try lia; [reflexivity|]. cbn [firstn]. destruct i; auto. cbn. apply IH. lia. Qed.

Section P.
Variable src : list Z.
Hypothesis bytes : Forall byte src.
Variable ms : macros.
Variable fuel : nat.
Hypothesis enough : zlen src + 2 <= Z.of_nat fuel.
Notation len := (zlen src).
Notation ch := (byte_at src).
Notation St := (St src).
Notation T := (T src).

(** where a step leads: one more token, and the rest of the text *)
Definition at_place (p s : list Z) (k : Z) (tk : token) (p' : list Z) : Prop := t_start tk = zlen p /\ t_len tk = zlen s /\ goes_on k p s p' /\ marked s tk.
Definition leads (p s t : list Z) (k : Z) (l : list lexeme) (ts : list token) (r : run lx) : Prop :=
  exists tk tk' p' t' f, r = Done (St (zlen p') tk' (ts ++ [tk]) ms) /\ text_of src tk = s /\ t_type tk = k /\
    src = p' ++ t' /\ reads ms f t' l /\ (length t' <= length t)%nat /\ fresh_line src f p' t' /\ at_place p s k tk p'.

Lemma last_snoc (ts : list token) k d : last (ts ++ [k]) d = k.
Proof. apply last_last. Qed.

(** a finished token that is no macro *)
Lemma found_exact tk q ts : t_type tk <> Tok_Invalid -> t_type tk <> Tok_Preprocess_Macro_Stmt -> t_type tk <> Tok_Preprocess_Macro_Expr ->
  found_token src fuel (St q tk ts ms) = Done (St q tk (ts ++ [tk]) ms).
Proof.
  intros N1 N2 N3. unfold found_token, lex_found_token. change (l_tok (St q tk ts ms)) with tk. replace (t_type tk =? Tok_Invalid) with false by lia. cbn [negb rbind].
  rewrite append_tok_St. change (l_toks (St q tk (ts ++ [tk]) ms)) with (ts ++ [tk]). rewrite last_snoc.
  replace (t_type tk =? Tok_Preprocess_Macro_Stmt) with false by lia. replace (t_type tk =? Tok_Preprocess_Macro_Expr) with false by lia. reflexivity.
Qed.
Lemma lexed_leads p0 p s t k l ts r : src = p ++ s ++ t -> k <> Tok_Invalid -> k <> Tok_Preprocess_Macro_Stmt -> k <> Tok_Preprocess_Macro_Expr ->
  lexed src ms p0 p s t k l ts r -> leads p s t k l ts (rbind r (fun '(s, n) => match n with Next => Done s | Found => found_token src fuel s end)).
Proof.
  intros E N1 N2 N3 (tk & p' & t' & f & -> & H1 & H2 & H3 & H4 & H5 & H6 & H7 & H8 & H9). cbn [rbind]. rewrite found_exact by congruence.
  exists tk, tk, p', t', f. split; auto. split; [eapply text_at; eauto|]. split; auto. split; auto. split; auto. split; auto. split; auto. split; auto.
Qed.

(** words *)
Lemma quote_after p t : src = p ++ t -> followed_by_quote src (zlen p) <-> quoted t.
Proof.
  intros E. pose proof (pos_le src p t E) as (B0 & EL). split.
  - intros (r & L & B & Q).
    assert (r < len). { destruct (Z_lt_ge_dec r len); auto. unfold byte_at in Q. rewrite nth_overflow in Q by (unfold zlen in *; lia). discriminate. }
    set (m := Z.to_nat (r - zlen p)).
    assert (ET : t = firstn m t ++ 34 :: skipn (S m) t).
    { assert (HM : (m < length t)%nat) by (unfold m, zlen in *; lia). assert (Hn : nth m t 0 = 34).
      { rewrite <- Q. unfold byte_at. rewrite E at 1. unfold zlen in *. rewrite app_nth2 by lia. unfold m. f_equal. lia. }
      rewrite <- Hn. apply split_nth. auto. }
    exists (firstn m t), (skipn (S m) t). split; [exact ET|]. apply Forall_forall. intros x Hx. apply (In_nth _ _ 0) in Hx. destruct Hx as (i & Hi & <-). rewrite firstn_length in Hi.
    assert (Hi' : (i < m)%nat) by lia. replace (nth i (firstn m t) 0) with (ch (zlen p + Z.of_nat i)).
    + apply B. unfold m in Hi'. lia.
    + rewrite (ch_plus src p t) by (auto; lia). rewrite Nat2Z.id. symmetry. apply nth_first. auto.
  - intros (a & b & -> & F). exists (zlen (p ++ a)). assert (E2 : src = (p ++ a) ++ 34 :: b) by (rewrite <- app_assoc; auto). split; [zl; pose proof (zlen_pos a); lia|]. split; [|apply (ch_at src _ _ E2)].
    intros i Hi. replace i with (zlen p + (i - zlen p)) by lia. rewrite (ch_plus src p _ _ E) by lia. rewrite zlen_app in Hi. rewrite app_nth1 by (unfold zlen in *; lia).
    rewrite Forall_forall in F. apply F. apply nth_In. unfold zlen in *. lia.
Qed.
Lemma kind_word p w t k ty : src = p ++ t -> word_kind ms w t k -> kind src ms w (zlen p) ty -> ty = k.
Proof.
  intros E [(s & H1 & H2 & H3)|[(H1 & H2 & H3)|[(H1 & H2 & H3)|((H1 & H2 & H3) & ->)]]] (K1 & K2 & K3).
  - apply (K1 k s); auto.
  - destruct (K2 H1) as [(Q & _)|(_ & Q)]; [apply (quote_after p t E) in Q; contradiction|congruence].
  - destruct (K2 H1) as [(_ & Q)|(Q & _)]; [congruence|]. rewrite (quote_after p t E) in Q. contradiction.
  - specialize (K3 H2). rewrite H3 in K3. auto.
Qed.
Lemma kind_plain w t k : word_kind ms w t k -> k <> Tok_Preprocess_Macro_Stmt /\ k <> Tok_Preprocess_Macro_Expr.
Proof. intros [(s & H & _)|[(_ & -> & _)|[(_ & -> & _)|(_ & ->)]]]; [eapply spelled_plain; eauto| | |]; split; discriminate. Qed.

Lemma kind_not_string w t k : word_kind ms w t k -> k <> Tok_String.
Proof. intros [(s & H & _)|[(_ & -> & _)|[(_ & -> & _)|(_ & ->)]]]; [eapply spelled_not_string; eauto| | |]; discriminate. Qed.

Lemma word_exact p0 p w t k l ts : src = p ++ w ++ t -> is_word w -> word_kind ms w t k -> ~ word_char (hd 0 t) -> reads ms false t l ->
  leads p w t k l ts (rbind (lex_word src fuel (hd 0 w) (St (zlen p) (t_fresh src p0) ts ms)) (found_token src fuel)).
Proof.
  intros E HW HK NW R. pose proof HW as HW0. apply is_word_head in HW0. destruct HW0 as (c & u & -> & HC & HU). cbn [hd]. cbn [app] in E.
  pose proof (pos_lt src _ _ _ E) as B. destruct (step_eq src _ _ _ E) as [E2 Z2].
  unfold lex_word. assert (BC : byte c). { pose proof (ch_byte src bytes (zlen p)) as X. rewrite (ch_at src _ _ E) in X. exact X. }
  rewrite (proj2 (word_start_iff c BC) HC). rewrite with_tok_St, move_ok by lia. cbn [rbind]. change (l_pos (St (zlen p) (t_fresh src p0) ts ms)) with (zlen p).
  destruct (while_take src is_word_char fuel (zlen p + 1) (set_text (zlen p) 1 (t_fresh src p0)) ts ms) as (q & S & W); [lia|lia|]. rewrite W. cbn [rbind]. clear W.
  assert (BT : byte (hd 0 t)). { assert (E3 : src = ((p ++ [c]) ++ u) ++ t) by (rewrite E2, <- !app_assoc; auto). pose proof (ch_byte src bytes (zlen ((p ++ [c]) ++ u))) as X. rewrite (ch_at src _ _ E3) in X. exact X. }
  assert (q = zlen ((p ++ [c]) ++ u)) as ->.
  { eapply spans_fun; [exact S|]. rewrite <- Z2. eapply spans_exact; eauto.
    - assert (F : Forall byte u). { rewrite E in bytes. apply Forall_app in bytes. destruct bytes as [_ F]. apply Forall_inv_tail in F. apply Forall_app in F. tauto. }
      rewrite Forall_forall in *. intros x Hx. apply word_char_iff; auto.
    - right. destruct (is_word_char (hd 0 t)) eqn:Q; auto. apply (word_char_iff _ BT) in Q. contradiction. }
  set (tk := set_len _ _). assert (E3 : src = ((p ++ [c]) ++ u) ++ t) by (rewrite E2, <- !app_assoc; auto). pose proof (pos_le src _ _ E3) as (B3 & _).
  assert (TX : text_of src tk = c :: u). { eapply text_at; [|reflexivity|]; [exact E|]. cbn [tk set_len t_len set_text]. zl. lia. }
  unfold found_token. destruct (found_word src bytes fuel enough tk (zlen ((p ++ [c]) ++ u)) ts ms) as (r & ty & fl & F & Rq & K & _); [lia|reflexivity|reflexivity|]. rewrite F. cbn [rbind]. clear F.
  rewrite TX in K. apply (kind_word _ (c :: u) t k _ E3 HK) in K. subst ty.
  change (l_toks (St r (wd tk k fl) (ts ++ [wd tk k fl]) ms)) with (ts ++ [wd tk k fl]). rewrite last_snoc. cbn [t_type wd]. destruct (kind_plain (c :: u) t k HK) as [P1 P2].
  replace (k =? Tok_Preprocess_Macro_Stmt) with false by lia. replace (k =? Tok_Preprocess_Macro_Expr) with false by lia. cbn [orb].
  exists (wd tk k fl), (wd tk k fl). destruct Rq as [->|S2].
  - exists ((p ++ [c]) ++ u), t, false. split; auto. split; [exact TX|]. split; auto. split; auto. split; auto. split; auto. split.
    { intros _. rewrite <- app_assoc. apply (col_after_app src p (c :: u) t); auto; [discriminate|]. intros HI. destruct HW as (FW & _). rewrite Forall_forall in FW. specialize (FW 10 HI). unfold word_char in FW. lia. }
    split; [reflexivity|]. split; [cbn [tk set_len t_len set_text wd]; zl; lia|]. split; [|intros Q; injection Q as -> _; unfold word_first, word_char in HC; lia]. exists []. rewrite app_nil_r, <- app_assoc. split; [reflexivity|]. left. split; [eapply kind_not_string; exact HK|constructor].
  - destruct (reads_strip_false ms t l R) as (g & v & -> & FG & RV & HV). exists (((p ++ [c]) ++ u) ++ g), v, false.
    assert (r = zlen (((p ++ [c]) ++ u) ++ g)) as ->.
    { eapply spans_fun; [exact S2|]. eapply spans_exact; eauto.
      - eapply Forall_impl; [|exact FG]. intros a H. apply space_iff; unfold blank, byte, spacep in *; cbn; lia.
      - destruct HV as [->|H]; auto. right. apply solid_facts in H. destruct (char_is_space (hd 0 v)) eqn:Q; auto. apply space_iff in Q; [tauto|unfold byte; lia]. }
    split; auto. split; [exact TX|]. split; auto. split; [rewrite E3 at 1; rewrite <- !app_assoc; auto|]. split; auto. split; [rewrite app_length; lia|].
    split; [intros H10; destruct HV as [->|HV]; [discriminate H10|]; apply solid_facts in HV; lia|].
    split; [reflexivity|]. split; [cbn [tk set_len t_len set_text wd]; zl; lia|]. split; [|intros Q; injection Q as -> _; unfold word_first, word_char in HC; lia]. exists g. rewrite <- !app_assoc. split; [reflexivity|]. left. split; [eapply kind_not_string; exact HK|exact FG].
Qed.

(** numbers *)
Lemma number_exact p0 p d t l ts : src = p ++ d ++ t -> d <> [] -> Forall digit d -> ~ digit (hd 0 t) -> ~ In (hd 0 t) (txt "xXbBoO.") -> reads ms false t l ->
  leads p d t Tok_Number l ts (rbind (lex_word src fuel (hd 0 d) (St (zlen p) (t_fresh src p0) ts ms)) (found_token src fuel)).
Proof.
  intros E NE FD ND NX R. destruct d as [|c u]; [contradiction|]. cbn [hd]. cbn [app] in E. pose proof (Forall_inv FD) as HC. pose proof (Forall_inv_tail FD) as HU.
  pose proof (pos_lt src _ _ _ E) as B. destruct (step_eq src _ _ _ E) as [E2 Z2]. pose proof (pos_le src _ _ E2) as (B2 & EL2).
  assert (BC : byte c) by (unfold digit, byte in *; lia).
  unfold lex_word. assert (is_word_start c = false) as ->. { destruct (is_word_start c) eqn:Q; auto. apply (word_start_iff _ BC) in Q. destruct Q as [_ Q]. contradiction. }
  rewrite (proj2 (digit_iff c BC) HC). unfold lex_number. rewrite begin_St, move_ok by lia. cbn [rbind]. cbv zeta.
  assert (SEES : forall q w tk ts, 0 <= q <= len -> (if left src (St q tk ts ms) =? 0 then Done false else rbind (cur src (St q tk ts ms)) (fun c => Done (existsb (Z.eqb c) w))) = Done (negb (len - q =? 0) && existsb (Z.eqb (ch q)) w)).
  { intros q w tk ts0 Hq. rewrite left_St. destruct (len - q =? 0); auto. rewrite cur_ok by lia. reflexivity. }
  rewrite SEES by lia. cbn [rbind].
  assert (E3 : src = ((p ++ [c]) ++ u) ++ t) by (rewrite E2, <- !app_assoc; auto). pose proof (pos_le src _ _ E3) as (B3 & EL3).
  assert (NX1 : existsb (Z.eqb (ch (zlen p + 1))) (txt "xXbBoO") = false).
  { rewrite <- Z2, (ch_at src _ _ E2). apply not_true_is_false. intros Q. apply existsb_exists in Q. destruct Q as (y & Hy & Q). apply Z.eqb_eq in Q. subst y. destruct u as [|x u]; cbn [app hd] in Hy.
    - apply NX. cbn in Hy |- *. tauto.
    - pose proof (Forall_inv HU) as HX. unfold digit in HX. cbn in Hy. lia. }
  rewrite NX1, andb_false_r. cbn [rbind].
  destruct (while_take src char_is_digit fuel (zlen p + 1) (T p0 (zlen p) 1 Tok_Number TF_Literal) ts ms) as (q & S & W); [lia|lia|]. rewrite W. cbn [rbind]. clear W.
  assert (BT : byte (hd 0 t)). { pose proof (ch_byte src bytes (zlen ((p ++ [c]) ++ u))) as X. rewrite (ch_at src _ _ E3) in X. exact X. }
  assert (q = zlen ((p ++ [c]) ++ u)) as ->.
  { eapply spans_fun; [exact S|]. rewrite <- Z2. eapply spans_exact; eauto.
    - eapply Forall_impl; [|exact HU]. intros x Hx. apply digit_iff; auto. unfold digit, byte in *. lia.
    - right. destruct (char_is_digit (hd 0 t)) eqn:Q; auto. apply (digit_iff _ BT) in Q. contradiction. }
  rewrite SEES by lia. cbn [rbind]. rewrite (ch_at src _ _ E3).
  assert (NX2 : existsb (Z.eqb (hd 0 t)) (txt ".") = false).
  { apply not_true_is_false. intros Q. apply existsb_exists in Q. destruct Q as (y & Hy & Q). apply Z.eqb_eq in Q. subst y. apply NX. cbn in Hy |- *. tauto. }
  rewrite NX2, andb_false_r. cbn [rbind]. set (tk := set_len _ _). rewrite found_exact by (cbn; discriminate).
  exists tk, tk, ((p ++ [c]) ++ u), t, false. split; auto. split.
  { eapply text_at; [|reflexivity|]; [exact E|]. cbn [tk set_len t_len LexProofs5.T]. zl. lia. }
  split; auto. split; auto. split; auto. split; auto. split.
  { intros _. rewrite <- app_assoc. apply (col_after_app src p (c :: u) t); auto. intros HI. rewrite Forall_forall in FD. specialize (FD 10 HI). unfold digit in FD. lia. }
  split; [reflexivity|]. split; [cbn [tk set_len t_len LexProofs5.T]; zl; lia|]. split; [|intros Q; injection Q as -> _; unfold digit in HC; lia]. exists []. rewrite app_nil_r, <- app_assoc. split; [reflexivity|]. left. split; [discriminate|constructor].
Qed.
(** ** one iteration, and the loop *)
Lemma sym_start c : In c SYMS -> is_word_start c = false /\ char_is_digit c = false /\ c <> 35.
Proof. intros H. cbn in H. repeat (destruct H as [<-|H]; [split; [reflexivity|split; [reflexivity|discriminate]]|]). contradiction. Qed.
Lemma word_no_symbol c s : word_char c -> lex_symbol src fuel c s = None.
Proof.
  intros H. unfold lex_symbol. unfold word_char in H. cbv zeta.
  repeat match goal with |- context [c =? ?n] => replace (c =? n) with false by lia end.
  replace (existsb (Z.eqb c) (txt "+%^~!<>|")) with false; auto. symmetry. apply not_true_is_false. intros Q. apply existsb_exists in Q. destruct Q as (y & Hy & Q). apply Z.eqb_eq in Q. subst y. cbn in Hy. lia.
Qed.

Definition placed (p s : list Z) (k : Z) (tk : token) (p' : list Z) : Prop := exists g, Forall blank g /\ at_place (p ++ g) s k tk p' /\
  (s = [10] -> g = [] /\ snd (lc src (zlen p)) = 1) /\ (k = Tok_Comment -> t_line tk = fst (lc src (zlen p))) /\
  (k = Tok_Statement_End -> forall t', src = p' ++ t' -> p' = (p ++ g) ++ s -> hd 0 t' <> 10).
Lemma word_other w t k : word_kind ms w t k -> is_word w -> k <> Tok_Comment /\ k <> Tok_Statement_End.
Proof.
  intros [(s & H & -> & _)|[(_ & -> & _)|[(_ & -> & _)|(_ & ->)]]] IW; try (split; discriminate). apply is_word_head in IW. destruct IW as (c & u & EW & (WC & _) & _).
  assert (G : forallb (fun p => negb ((fst p =? Tok_Comment) || (fst p =? Tok_Statement_End)) || match txt (snd p) with c :: _ => existsb (Z.eqb c) (txt ";/") | [] => true end) token_spelling = true) by (vm_compute; reflexivity).
  rewrite forallb_forall in G. specialize (G _ H). cbn [fst snd] in G. rewrite EW in G. apply orb_prop in G. destruct G as [G|G]; [lia|]. exfalso. apply existsb_exists in G. destruct G as (y & Y & E). apply Z.eqb_eq in E. subst y. change (txt ";/") with [59; 47] in Y. unfold word_char in WC. destruct Y as [Y|[Y|[]]]; rewrite <- Y in WC; lia.
Qed.
Lemma symbol_other s k no : In (s, k, no) symbols -> k <> Tok_Comment /\ (no_stop s -> k <> Tok_Statement_End).
Proof.
  intros H. assert (G : forallb (fun '(s, k, no) => negb (k =? Tok_Comment) && (negb (k =? Tok_Statement_End) || existsb (String.eqb s) (map fst stops))) symbols = true) by (vm_compute; reflexivity). rewrite forallb_forall in G. specialize (G _ H). cbn beta iota in G.
  apply andb_prop in G. destruct G as (G1 & G2). split; [lia|]. intros N K. apply orb_prop in G2. destruct G2 as [G2|G2]; [lia|]. apply N. apply existsb_exists in G2. destruct G2 as (y & Y & E). apply String.eqb_eq in E. subst y. exact Y.
Qed.
Lemma iteration_exact p t l f tk ts : src = p ++ t -> reads ms f t l -> t <> [] -> fresh_line src f p t ->
  match l with
  | [] => exists tk' q, lex_iteration src fuel (St (zlen p) tk ts ms) = Done (Stops (St q tk' ts ms))
  | (s, k) :: l => exists tok tk' p' t' f', lex_iteration src fuel (St (zlen p) tk ts ms) = Done (Goes (St (zlen p') tk' (ts ++ [tok]) ms)) /\
      text_of src tok = s /\ t_type tok = k /\ src = p' ++ t' /\ reads ms f' t' l /\ (length t' < length t)%nat /\ fresh_line src f' p' t' /\ placed p s k tok p'
  end.
Proof.
  intros E R NE FL. pose proof (pos_le src p t E) as (B & EL).
  unfold lex_iteration, fresh_token. rewrite with_tok_St. change (l_pos (St (zlen p) tk ts ms)) with (zlen p). change (l_line (St (zlen p) tk ts ms)) with (fst (lc src (zlen p))). change (l_col (St (zlen p) tk ts ms)) with (snd (lc src (zlen p))). cbv zeta.
  fold (t_fresh src (zlen p)). change (l_col (St (zlen p) (t_fresh src (zlen p)) ts ms)) with (snd (lc src (zlen p))).
  assert (N13 : hd 0 t <> 13). { destruct (reads_head ms f t l R) as [|[[-> | ->]|S]]; [contradiction|lia|lia|]. apply solid_facts in S. lia. }
  (* an empty line *)
  destruct (Bool.bool_dec (f && (hd 0 t =? 10)) true) as [EMPTY|EMPTY].
  { apply andb_true_iff in EMPTY. destruct EMPTY as [-> H10]. apply Z.eqb_eq in H10. destruct t as [|c t]; [contradiction|]. cbn in H10. subst c.
    destruct (reads_empty_inv ms t l R) as (l' & -> & R'). cbn [fresh_line] in FL. rewrite FL. cbn [Z.eqb Pos.eqb].
    rewrite if_cur_no by (try lia; rewrite (ch_at src _ _ E); auto). cbn [rbind]. rewrite cur_ok by lia. cbn [rbind]. rewrite (ch_at src _ _ E). cbn [hd Z.eqb Pos.eqb].
    pose proof (pos_lt src _ _ _ E). destruct (step_eq src _ _ _ E) as [E2 Z2]. rewrite move_ok by lia. cbn [rbind]. rewrite with_tok_St, append_tok_St, <- Z2.
    eexists _, _, (p ++ [10]), t, true. split; [reflexivity|]. split; [eapply (text_at src p [10] t); auto|]. split; [reflexivity|]. split; auto. split; auto. split; [cbn; lia|].
    split; [cbn [fresh_line]; rewrite Z2, lc_next by lia; rewrite (ch_at src _ _ E); reflexivity|].
    exists []. split; [constructor|]. rewrite app_nil_r. split; [|split; [auto|split; discriminate]]. split; [reflexivity|]. split; [reflexivity|]. split; [apply goes_here; discriminate|intros Q; discriminate Q]. }
  match goal with |- context [rbind ?x _] => assert (X : x = Done (St (zlen p) (t_fresh src (zlen p)) ts ms, false)) end.
  { destruct (Z.eqb_spec (snd (lc src (zlen p))) 1) as [C1|C1]; auto. rewrite if_cur_no by (try lia; rewrite (ch_at src _ _ E); auto). cbn [rbind]. rewrite cur_ok by lia. cbn [rbind]. rewrite (ch_at src _ _ E).
    replace (hd 0 t =? 10) with false; auto. symmetry. apply Z.eqb_neq. intros H10. destruct f; [apply EMPTY; lia|]. apply (FL H10). auto. }
  rewrite X. clear X. cbn [rbind]. rewrite with_tok_St. change (set_len 0 (t_fresh src (zlen p))) with (t_fresh src (zlen p)).
  assert (R0 : reads ms false t l). { destruct f; auto. apply reads_mode; auto. intros H10. apply EMPTY. rewrite H10. auto. }
  clear R FL EMPTY f. rename R0 into R.
  destruct (reads_strip_false ms t l R) as (g & u & -> & FG & RU & HU). rewrite (skip_exact src ms fuel enough p g u _ ts E FG HU). cbn [rbind]. rewrite left_St.
  assert (E2 : src = (p ++ g) ++ u) by (rewrite <- app_assoc; auto). pose proof (pos_le src _ _ E2) as (B2 & EL2).
  destruct HU as [->|HU].
  { apply reads_nil in RU. subst l. zl. replace (len - _ <=? 0) with true by lia. eauto. }
  destruct u as [|c u]; [cbn in HU; apply solid_facts in HU; lia|]. replace (len - zlen (p ++ g) <=? 0) with false by (pose proof (pos_lt src _ _ _ E2); lia). rewrite cur_ok by lia. cbn [rbind]. rewrite (ch_at src _ _ E2). cbn [hd] in *.
  assert (N35 : c <> 35) by (apply solid_facts in HU; lia). replace (c =? 35) with false by lia.
  assert (LL : forall s t l k r, k <> Tok_Comment -> k <> Tok_Statement_End -> c :: u = s ++ t -> s <> [] -> leads (p ++ g) s t k l ts r ->
    exists tok tk' p' t' f, rbind r (fun s => Done (Goes s)) = Done (Goes (St (zlen p') tk' (ts ++ [tok]) ms)) /\
      text_of src tok = s /\ t_type tok = k /\ src = p' ++ t' /\ reads ms f t' l /\ (length t' < length (g ++ c :: u))%nat /\ fresh_line src f p' t' /\ placed p s k tok p').
  { intros s t l0 k r NK1 NK2 ES NS (tok & tk' & p' & t' & f & -> & H1 & H2 & H3 & H4 & H5 & H6 & H7). exists tok, tk', p', t', f. split; auto. split; auto. split; auto. split; auto. split; auto.
    split; [rewrite ES, !app_length; destruct s; [contradiction|]; cbn; lia|]. split; [exact H6|]. exists g. split; [exact FG|]. split; [exact H7|]. split; [intros ->; injection ES as -> _; apply solid_facts in HU; lia|]. split; intros Q; contradiction. }
  (* what a symbol leads to *)
  assert (SY : forall s k t0 l, k <> Tok_Comment -> k <> Tok_Invalid -> k <> Tok_Preprocess_Macro_Stmt -> k <> Tok_Preprocess_Macro_Expr -> hd 0 s = c -> s <> [] -> src = (p ++ g) ++ s ++ t0 -> (length t0 < length (c :: u))%nat ->
    (exists r t1, lex_symbol src fuel (hd 0 s) (St (zlen (p ++ g)) (t_fresh src (zlen p)) ts ms) = Some r /\ (length t1 <= length t0)%nat /\ lexed src ms (zlen p) (p ++ g) s t1 k l ts r /\ (k = Tok_Statement_End -> forall q tk, r = Done (St q tk ts ms, Found) -> q = zlen ((p ++ g) ++ s) -> hd 0 t0 <> 10)) ->
    exists tok tk' p' t' f, match lex_symbol src fuel c (St (zlen (p ++ g)) (t_fresh src (zlen p)) ts ms) with
        | Some r => rbind r (fun '(s, n) => match n with Next => Done (Goes s) | Found => rbind (found_token src fuel s) (fun s => Done (Goes s)) end)
        | None => rbind (lex_word src fuel c (St (zlen (p ++ g)) (t_fresh src (zlen p)) ts ms)) (fun s => rbind (found_token src fuel s) (fun s => Done (Goes s)))
        end = Done (Goes (St (zlen p') tk' (ts ++ [tok]) ms)) /\
      text_of src tok = s /\ t_type tok = k /\ src = p' ++ t' /\ reads ms f t' l /\ (length t' < length (g ++ c :: u))%nat /\ fresh_line src f p' t' /\ placed p s k tok p').
  { intros s k t0 l0 K0 K1 K2 K3 HC NS ES LT (r & t1 & HR & LT1 & (tok & p' & t' & f & -> & H1 & H2 & H3 & H4 & H5 & H6 & H7 & H8 & H9) & PAST). rewrite HC in HR. rewrite HR. cbn [rbind]. rewrite found_exact by congruence. cbn [rbind].
    exists tok, tok, p', t', f. split; auto. split; [eapply text_at; eauto|]. split; auto. split; auto. split; auto. split; [rewrite app_length; lia|]. split; [exact H7|]. exists g. split; [exact FG|]. split; [split; auto|]. split; [intros ->; cbn in HC; subst c; apply solid_facts in HU; lia|]. split; [intros Q; contradiction|]. intros Q t2 E3 EP. subst p'. specialize (PAST Q _ _ eq_refl eq_refl). rewrite ES in E3. rewrite app_assoc in E3. apply app_inv_head in E3. subst t2. exact PAST. }
  assert (SY2 : forall s k no t0 l, In (s, k, no) symbols -> c :: u = txt s ++ t0 ->
    (exists r, lex_symbol src fuel (hd 0 (txt s)) (St (zlen (p ++ g)) (t_fresh src (zlen p)) ts ms) = Some r /\ lexed src ms (zlen p) (p ++ g) (txt s) t0 k l ts r /\ (k = Tok_Statement_End -> forall q tk, r = Done (St q tk ts ms, Found) -> q = zlen ((p ++ g) ++ txt s) -> hd 0 t0 <> 10)) ->
    exists tok tk' p' t' f, match lex_symbol src fuel c (St (zlen (p ++ g)) (t_fresh src (zlen p)) ts ms) with
        | Some r => rbind r (fun '(s, n) => match n with Next => Done (Goes s) | Found => rbind (found_token src fuel s) (fun s => Done (Goes s)) end)
        | None => rbind (lex_word src fuel c (St (zlen (p ++ g)) (t_fresh src (zlen p)) ts ms)) (fun s => rbind (found_token src fuel s) (fun s => Done (Goes s)))
        end = Done (Goes (St (zlen p') tk' (ts ++ [tok]) ms)) /\
      text_of src tok = txt s /\ t_type tok = k /\ src = p' ++ t' /\ reads ms f t' l /\ (length t' < length (g ++ c :: u))%nat /\ fresh_line src f p' t' /\ placed p (txt s) k tok p').
  { intros s k no t0 l0 HS EQ (r & HR & HL & PAST). pose proof (proj1 (symbol_other s k no HS)) as K0. destruct (symbol_plain s k no HS) as (K1 & K2 & K3).
    assert (HC : hd 0 (txt s) = c /\ txt s <> []). { apply sym_head in HS. destruct HS as (x & y & EY & _). rewrite EY in EQ |- *. cbn in EQ |- *. injection EQ as -> _. split; auto. discriminate. }
    destruct HC as [HC NS]. apply (SY (txt s) k t0 l0 K0 K1 K2 K3 HC NS).
    - rewrite <- EQ. auto.
    - rewrite EQ, app_length. destruct (txt s); [contradiction|]. cbn. lia.
    - exists r, t0. auto. }
  remember (c :: u) as e eqn:EE. remember false as f eqn:EF.
  destruct RU as [|f t l RU|t l RU|t l RU|f w k t l HW HK NW RU|f s k no t l HS NS NB RU|f s k sp t l HS FS NB RU|f s k sp t l HS FS RU|f w t l FU N1 N2 RU|f d t l ND FD NX1 NX2 RU|f w t l FU N1 N2 RU|f w t l FU N1 N2 RU].
  - discriminate.
  - injection EE as <- _. apply solid_facts in HU. lia.
  - injection EE as <- _. apply solid_facts in HU. lia.
  - discriminate.
  - assert (HC : hd 0 w = c). { apply is_word_head in HW. destruct HW as (x & y & -> & _). cbn in EE |- *. injection EE as -> _. auto. }
    assert (WC : word_char c). { rewrite <- HC. apply is_word_head in HW. destruct HW as (x & y & -> & HW & _). apply HW. }
    rewrite (word_no_symbol c _ WC). pose proof (word_exact (zlen p) (p ++ g) w t k l ts E2 HW HK NW RU) as L. rewrite HC in L.
    assert (NS : w <> []) by (intros ->; destruct HW as (_ & HW & _); auto). destruct (word_other w t k HK HW) as (NK1 & NK2). destruct (LL w t l k _ NK1 NK2 eq_refl NS L) as (tok & tk' & p' & t' & f' & HL & HR). exists tok, tk', p', t', f'. split; [|exact HR]. rewrite <- HL.
    destruct (lex_word src fuel c (St (zlen (p ++ g)) (t_fresh src (zlen p)) ts ms)); reflexivity.
  - apply (SY2 s k no t l HS eq_refl). destruct (symbol_exact src ms fuel enough (zlen p) (p ++ g) t l ts RU s k no HS NS E2 NB) as (r & HR & HL). exists r. split; [exact HR|]. split; [exact HL|]. intros Q. exfalso. revert Q. apply (symbol_other s k no HS). exact NS.
  - pose proof (stop_symbol s k HS) as HS'. apply (SY2 s k _ (sp ++ t) l HS' eq_refl). assert (SP : exists g, Forall (eq 32) g /\ (false = false /\ sp ++ t = g ++ t /\ ~ In (hd 0 t) [32; 10; 13] \/ false = true /\ sp ++ t = g ++ 10 :: t));
    [|destruct (stop_exact src ms fuel enough (zlen p) (p ++ g) s k (sp ++ t) t l false ts HS E2 SP RU) as (r & HR & HL); exists r; split; [exact HR|]; split; [exact HL|]; intros _ q tk1 ->; apply (stop_past src ms fuel enough (zlen p) (p ++ g) s k (sp ++ t) t l false ts HS E2 SP RU q tk1 HR)].
    exists sp. split; auto. left. split; auto. split; auto.
    cbn in NB |- *. intros [H|[H|[H|[]]]]; try tauto. destruct (reads_head ms _ t l RU) as [->|[[HB|HB]|HB]]; [cbn in H|..]; try lia. apply solid_facts in HB. lia.
  - pose proof (stop_symbol s k HS) as HS'. apply (SY2 s k _ (sp ++ 10 :: t) l HS' eq_refl). assert (SP : exists g, Forall (eq 32) g /\ (true = false /\ sp ++ 10 :: t = g ++ t /\ ~ In (hd 0 t) [32; 10; 13] \/ true = true /\ sp ++ 10 :: t = g ++ 10 :: t)) by (exists sp; auto).
    destruct (stop_exact src ms fuel enough (zlen p) (p ++ g) s k (sp ++ 10 :: t) t l true ts HS E2 SP RU) as (r & HR & HL); exists r; split; [exact HR|]; split; [exact HL|]; intros _ q tk1 ->; apply (stop_past src ms fuel enough (zlen p) (p ++ g) s k (sp ++ 10 :: t) t l true ts HS E2 SP RU q tk1 HR).
  - assert (HC : c = 47) by (injection EE as <- _; auto). rewrite HC. destruct (comment_exact src ms fuel enough (zlen p) (p ++ g) w t l ts E2 FU N1 N2 RU) as (tk' & p' & HL & H1 & H2 & H3 & H4 & H5 & H6 & H7). rewrite HL. cbn [rbind].
    exists tk', tk', p', t, true. split; auto. split; [eapply (text_at src (p ++ g) (txt "//" ++ w ++ [10]) t); auto; rewrite E2 at 1; rewrite <- !app_assoc; auto|]. split; auto. split; auto. split; auto. split; [rewrite app_length; cbn; rewrite app_length; cbn; lia|]. split; [exact H5|].
    exists g. split; [exact FG|]. split; [|split; [intros Q; discriminate Q|split; [intros _; exact H7|discriminate]]]. split; [exact H1|]. split; [exact H2|]. split; [rewrite H6; apply goes_here; discriminate|intros Q; discriminate Q].
  - assert (HC : hd 0 d = c) by (destruct d; [contradiction|]; injection EE as -> _; auto).
    assert (WC : word_char c). { rewrite <- HC. destruct d; [contradiction|]. apply Forall_inv in FD. unfold digit in FD. unfold word_char. cbn. lia. }
    rewrite (word_no_symbol c _ WC). pose proof (number_exact (zlen p) (p ++ g) d t l ts E2 ND FD NX1 NX2 RU) as L. rewrite HC in L.
    destruct (LL d t l Tok_Number _ ltac:(discriminate) ltac:(discriminate) eq_refl ND L) as (tok & tk' & p' & t' & f' & HL & HR). exists tok, tk', p', t', f'. split; [|exact HR]. rewrite <- HL.
    destruct (lex_word src fuel c (St (zlen (p ++ g)) (t_fresh src (zlen p)) ts ms)); reflexivity.
  - assert (HC : c = 34) by (injection EE as <- _; auto). subst c. apply (SY (34 :: w) Tok_String (34 :: t) l); try discriminate; auto.
    + cbn. rewrite !app_length. cbn. lia.
    + cbn [hd]. destruct (string_exact src ms fuel enough (zlen p) (p ++ g) w t l ts E2 N1 N2 RU) as (r & H1 & H2). exists r, t. split; auto. split; [cbn; lia|]. split; [exact H2|discriminate].
  - assert (HC : c = 39) by (injection EE as <- _; auto). subst c. apply (SY (39 :: w ++ [39]) Tok_Char t l); try discriminate; auto.
    + rewrite E2 at 1. f_equal. cbn [app]. rewrite <- app_assoc. auto.
    + cbn. rewrite !app_length. cbn. lia.
    + cbn [hd]. destruct (char_exact src ms fuel enough (zlen p) (p ++ g) w t l ts E2 N1 N2 RU) as (r & H1 & H2). exists r, t. split; auto. split; [lia|]. split; [exact H2|discriminate].
Qed.

(** the shape of the tokens *)
Definition shape (x : lexeme) : Prop := snd x = Tok_NewLine /\ fst x = [10] \/ snd x <> Tok_NewLine /\ exists c u, fst x = c :: u /\ ~ blank c.
(** the tokens lie in the text from [p] on *)
Inductive laid : list Z -> list token -> Prop :=
| laid_end p t : src = p ++ t -> Forall blank t -> laid p []
| laid_token p tk p' toks s t' : src = p' ++ t' -> text_of src tk = s -> placed p s (t_type tk) tk p' -> laid p' toks -> laid p (tk :: toks).
Lemma loop_exact : forall n p t l f tk ts, src = p ++ t -> reads ms f t l -> fresh_line src f p t -> (length t < n)%nat ->
  exists s toks, lex_loop src fuel n (St (zlen p) tk ts ms) = Done (Some s) /\ l_toks s = ts ++ toks /\ l_macros s = ms /\ lexemes_of src toks = l /\ laid p toks.
Proof.
  induction n as [|n IH]; intros p t l f tk ts E R FL L; [lia|]. cbn [lex_loop]. rewrite left_St. pose proof (pos_le src p t E) as (B & EL). destruct t as [|c t].
  - replace (len - zlen p =? 0) with true by (zl; lia). apply reads_nil in R. subst l. exists (St (zlen p) tk ts ms), []. rewrite app_nil_r. split; auto. split; auto. split; auto. split; [reflexivity|]. apply (laid_end p []); auto.
  - replace (len - zlen p =? 0) with false by (pose proof (pos_lt src _ _ _ E); lia). pose proof (iteration_exact p (c :: t) l f tk ts E R ltac:(discriminate) FL) as X. destruct l as [|[s k] l].
    + destruct X as (tk' & q & ->). cbn [rbind]. eexists _, []. split; [reflexivity|]. rewrite app_nil_r. split; auto. split; auto. split; [reflexivity|]. apply (laid_end p (c :: t) E). exact (reads_none ms f (c :: t) R).
    + destruct X as (tok & tk' & p' & t' & f' & -> & H1 & H2 & H3 & H4 & H5 & H6 & H7). cbn [rbind]. destruct (IH p' t' l f' tk' (ts ++ [tok]) H3 H4 H6) as (s0 & toks & HL & HT & HM & HX & HP); [lia|].
      exists s0, (tok :: toks). rewrite HL, HT, <- app_assoc. split; auto. split; auto. split; auto. split; [cbn [lexemes_of map]; unfold lexemes_of in HX; rewrite HX, H1, H2; auto|]. econstructor; [exact H3|exact H1|rewrite H2; exact H7|exact HP].
Qed.
Lemma lex_exact l : reads ms false src l -> l <> [] -> exists toks g u, lex src fuel ms = Done (Some (toks, ms)) /\ lexemes_of src toks = l /\ src = g ++ u /\ Forall blank g /\ laid g toks.
Proof.
  intros R NE. unfold lex. change (Lx 0 1 1 (Tok 0 0 0 0 0 0) [] ms) with (St (zlen (@nil Z)) (Tok 0 0 0 0 0 0) [] ms).
  destruct (reads_strip_false ms src l R) as (g & u & E & FG & RU & HU). rewrite (skip_exact src ms fuel enough [] g u _ [] E FG HU). cbn [rbind app]. rewrite left_St.
  pose proof (pos_le src g u E) as (B & EL). destruct HU as [->|HU]; [apply reads_nil in RU; contradiction|]. destruct u as [|c u]; [cbn in HU; apply solid_facts in HU; lia|].
  replace (len - zlen g <=? 0) with false by (pose proof (pos_lt src _ _ _ E); lia).
  destruct (loop_exact fuel g (c :: u) l false (Tok 0 0 0 0 0 0) [] E RU) as (s & toks & HL & HT & HM & HX & HP).
  - intros H10. cbn in H10. cbn in HU. apply solid_facts in HU. lia.
  - pose proof (zlen_pos g). unfold zlen in *. lia.
  - rewrite HL. cbn [rbind]. rewrite HT, HM. cbn [app]. destruct toks as [|k toks]; [cbn in HX; exfalso; apply NE; auto|]. exists (k :: toks), g, (c :: u). auto.
Qed.
Lemma word_visible w t k : word_kind ms w t k -> k <> Tok_NewLine.
Proof.
  intros [(s & H & _)|[(_ & -> & _)|[(_ & -> & _)|(_ & ->)]]]; try discriminate.
  assert (G : forallb (fun p => negb (fst p =? Tok_NewLine)) token_spelling = true) by (vm_compute; reflexivity). rewrite forallb_forall in G. specialize (G _ H). cbn [fst] in G. intros ->. discriminate G.
Qed.
Lemma writes_visible t l : writes ms t l -> visible l = l.
Proof.
  induction 1; auto; unfold visible in *; cbn [filter snd]; rewrite ?IHwrites; auto.
  - apply word_visible in H0. replace (k =? Tok_NewLine) with false by lia. auto.
  - assert (G : forallb (fun '(s, k, no) => negb (k =? Tok_NewLine)) symbols = true) by (vm_compute; reflexivity). rewrite forallb_forall in G. specialize (G _ H). cbn beta iota in G. rewrite G. auto.
Qed.
Lemma reads_shape f t l : reads ms f t l -> Forall shape l.
Proof.
  induction 1; auto; constructor; auto; unfold shape; cbn [fst snd]; auto; right.
  - split; [eapply word_visible; eauto|]. apply is_word_head in H. destruct H as (c & u & -> & (W & _) & _). exists c, u. split; auto. unfold word_char, blank in *. lia.
  - assert (G : forallb (fun '(s, k, no) => negb (k =? Tok_NewLine)) symbols = true) by (vm_compute; reflexivity). rewrite forallb_forall in G. specialize (G _ H). cbn beta iota in G. split; [lia|].
    apply sym_head in H. destruct H as (c & u & -> & W & _). exists c, u. split; auto. unfold blank, SYMS in *. cbn in W. lia.
  - cbn in H. destruct H as [H|[H|[]]]; injection H as <- <-; (split; [discriminate|]); eexists _, _; (split; [reflexivity|]); cbn; unfold blank; lia.
  - cbn in H. destruct H as [H|[H|[]]]; injection H as <- <-; (split; [discriminate|]); eexists _, _; (split; [reflexivity|]); cbn; unfold blank; lia.
  - split; [discriminate|]. eexists _, _. split; [reflexivity|]. cbn. unfold blank. lia.
  - split; [discriminate|]. destruct d as [|c u]; [contradiction|]. exists c, u. split; auto. apply Forall_inv in H0. unfold digit, blank in *. lia.
  - split; [discriminate|]. eexists _, _. split; [reflexivity|]. cbn. unfold blank. lia.
  - split; [discriminate|]. eexists _, _. split; [reflexivity|]. cbn. unfold blank. lia.
Qed.
Lemma lex_writes l : writes ms src l -> l <> [] -> exists toks, lex src fuel ms = Done (Some (toks, ms)) /\ visible (lexemes_of src toks) = l.
Proof.
  intros W NE. pose proof (writes_visible _ _ W) as V. destruct (writes_reads ms src l W) as (l' & R & E). rewrite V in E. destruct (lex_exact l' R) as (toks & g & u & H1 & H2 & _).
  - intros ->. apply NE. auto.
  - exists toks. split; auto. rewrite H2. auto.
Qed.
Lemma lex_lays l : writes ms src l -> l <> [] ->
  exists toks g u, lex src fuel ms = Done (Some (toks, ms)) /\ visible (lexemes_of src toks) = l /\ Forall shape (lexemes_of src toks) /\ src = g ++ u /\ Forall blank g /\ laid g toks.
Proof.
  intros W NE. pose proof (writes_visible _ _ W) as V. destruct (writes_reads ms src l W) as (l' & R & E). rewrite V in E. destruct (lex_exact l' R) as (toks & g & u & H1 & H2 & H3).
  - intros ->. apply NE. auto.
  - exists toks, g, u. split; auto. rewrite H2. split; auto. split; auto. eapply reads_shape; eauto.
Qed.
End P.
