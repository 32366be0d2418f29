From Coq Require Import String ZArith List Bool Lia ZifyBool ZifyNat.
From Verif Require Import Common HashModel Text ArrayModel StrOpsModel EnumModel EnumSpec EnumProofs LexModel LexSpec LexProofs LexProofs2 LexProofs3 LexProofs4 LexProofs5 LexProofs6 LexProofs7 RelexSpec RelexProofs.
Import ListNotations.
Close Scope string_scope. Open Scope Z_scope.

Section P.
Variable src : list Z.
Notation len := (zlen src).
Notation ch := (byte_at src).
Notation St := (St src).

Lemma ch_at p t : src = p ++ t -> ch (zlen p) = hd 0 t.
Proof.
  intros ->. unfold byte_at, zlen. rewrite Nat2Z.id. destruct t as [|c t]; cbn [hd].
  - rewrite app_nil_r. apply nth_overflow. lia.
  - rewrite app_nth2, Nat.sub_diag by lia. reflexivity.
Qed.
Lemma pos_le p t : src = p ++ t -> 0 <= zlen p <= len /\ len = zlen p + zlen t.
Proof. intros ->. zl. pose proof (zlen_pos p). pose proof (zlen_pos t). lia. Qed.
Lemma pos_lt p c t : src = p ++ c :: t -> 0 <= zlen p < len.
Proof. intros ->. zl. pose proof (zlen_pos p). pose proof (zlen_pos t). lia. Qed.
Lemma step_eq p c t : src = p ++ c :: t -> src = (p ++ [c]) ++ t /\ zlen (p ++ [c]) = zlen p + 1.
Proof. intros E. rewrite <- app_assoc. split; auto. zl. lia. Qed.

Lemma col_pos p : 1 <= snd (lc src p).
Proof.
  unfold lc. generalize (firstn (Z.to_nat p) src). intros l. induction l as [|c l IH] using rev_ind; cbn; [lia|].
  rewrite fold_left_app. cbn [fold_left]. unfold advance at 1. destruct (c =? 10); cbn [snd]; lia.
Qed.
Lemma col_after p c t : src = p ++ c :: t -> c <> 10 -> snd (lc src (zlen (p ++ [c]))) <> 1.
Proof.
  intros E N. pose proof (pos_lt p c t E). destruct (step_eq p c t E) as [_ ->]. rewrite lc_next by auto. rewrite (ch_at p (c :: t) E). cbn [hd]. unfold advance.
  replace (c =? 10) with false by lia. cbn [snd]. pose proof (col_pos (zlen p)). lia.
Qed.
Lemma col_after_app p u t : src = p ++ u ++ t -> u <> [] -> ~ In 10 u -> snd (lc src (zlen (p ++ u))) <> 1.
Proof.
  intros E NE N. destruct (exists_last NE) as (v & c & ->). rewrite app_assoc. apply (col_after (p ++ v) c t).
  - rewrite E, <- !app_assoc. auto.
  - intros ->. apply N. apply in_or_app. right. left. auto.
Qed.

(** runs of characters *)
Lemma spans_exact f p u t : src = p ++ u ++ t -> Forall (fun c => f c = true) u -> (t = [] \/ f (hd 0 t) = false) -> spans src f (zlen p) (zlen (p ++ u)).
Proof.
  intros E F HT. pose proof (pos_le _ _ E) as (B & EL). assert (E2 : src = (p ++ u) ++ t) by (rewrite <- app_assoc; auto). pose proof (pos_le _ _ E2) as (B2 & EL2). split; [zl; zp; lia|]. split.
  - intros i Hi. replace (ch i) with (nth (Z.to_nat (i - zlen p)) u 0).
    + rewrite Forall_forall in F. apply F. apply nth_In. zl. unfold zlen in *. lia.
    + unfold byte_at. rewrite E. zl. unfold zlen in *. rewrite app_nth2 by lia. rewrite app_nth1 by lia. f_equal. lia.
  - intros L. rewrite (ch_at _ _ E2). destruct HT as [->|H]; auto. rewrite zlen_nil in EL2. lia.
Qed.
Lemma ch_plus p t i : src = p ++ t -> 0 <= i -> ch (zlen p + i) = nth (Z.to_nat i) t 0.
Proof. intros -> H. unfold byte_at, zlen. rewrite app_nth2 by lia. f_equal. lia. Qed.
Lemma text_at p s t k : src = p ++ s ++ t -> t_start k = zlen p -> t_len k = zlen s -> text_of src k = s.
Proof.
  intros E H1 H2. unfold text_of, slice. rewrite H1, H2, E. unfold zlen. rewrite !Nat2Z.id, skipn_app, skipn_all, Nat.sub_diag. cbn [app skipn]. rewrite firstn_app, firstn_all, Nat.sub_diag. cbn [firstn]. apply app_nil_r.
Qed.

Hypothesis bytes : Forall byte src.
Variable ms : macros.
Variable fuel : nat.
Hypothesis enough : zlen src + 2 <= Z.of_nat fuel.
Lemma skip_exact p g t tk ts : src = p ++ g ++ t -> Forall blank g -> (t = [] \/ solid (hd 0 t)) ->
  skip_whitespace src fuel (St (zlen p) tk ts ms) = Done (St (zlen (p ++ g)) tk ts ms).
Proof.
  intros E F HT. pose proof (pos_le _ _ E) as (B & _). destruct (skip_ok src fuel (zlen p) tk ts ms) as (q & S & R); [lia|lia|].
  rewrite R. do 2 f_equal. eapply spans_fun; [exact S|]. eapply spans_exact; eauto.
  - eapply Forall_impl; [|exact F]. intros a H. apply space_iff; [|]; unfold blank, byte, spacep in *; cbn; lia.
  - destruct HT as [->|H]; auto. right. apply solid_facts in H. destruct (char_is_space (hd 0 t)) eqn:Q; auto. apply space_iff in Q; [tauto|unfold byte; lia].
Qed.

(** end_line *)
Definition fresh_line (f : bool) (p t : list Z) : Prop := if f then snd (lc src (zlen p)) = 1 else hd 0 t = 10 -> snd (lc src (zlen p)) <> 1.
Lemma end_line_spaces p g t tk ts : src = p ++ g ++ t -> Forall (eq 32) g -> hd 0 t <> 32 ->
  end_line src fuel (St (zlen p) tk ts ms) = rbind (Done (St (zlen (p ++ g)) tk ts ms)) (fun s => if left src s =? 0 then Done s else rbind (cur src s) (fun c =>
    if c =? 13 then rbind (move_forward src s) (move_forward src) else if c =? 10 then move_forward src s else Done s)).
Proof.
  intros E F HT. unfold end_line. pose proof (pos_le _ _ E) as (B & _).
  destruct (while_move src (fun c => c =? 32) fuel (zlen p) tk ts ms) as (q & S & W); [lia|lia|]. rewrite W. cbn [rbind].
  assert (q = zlen (p ++ g)) as ->; auto.
  eapply spans_fun; [exact S|]. eapply spans_exact; eauto.
  - eapply Forall_impl; [|exact F]. intros a <-. auto.
  - right. lia.
Qed.
Lemma end_line_stays p g t tk ts : src = p ++ g ++ t -> Forall (eq 32) g -> ~ In (hd 0 t) [32; 10; 13] ->
  end_line src fuel (St (zlen p) tk ts ms) = Done (St (zlen (p ++ g)) tk ts ms).
Proof.
  intros E F HT. cbn in HT. rewrite (end_line_spaces p g t) by (auto; lia). cbn [rbind].
  assert (E2 : src = (p ++ g) ++ t) by (rewrite <- app_assoc; auto). pose proof (pos_le _ _ E2) as (B2 & EL). rewrite left_St.
  destruct (len - zlen (p ++ g) =? 0); auto. rewrite cur_ok by lia. cbn [rbind]. rewrite (ch_at _ _ E2).
  replace (hd 0 t =? 13) with false by lia. replace (hd 0 t =? 10) with false by lia. auto.
Qed.
Lemma end_line_goes p g t tk ts : src = p ++ g ++ 10 :: t -> Forall (eq 32) g ->
  end_line src fuel (St (zlen p) tk ts ms) = Done (St (zlen (p ++ g ++ [10])) tk ts ms) /\ snd (lc src (zlen (p ++ g ++ [10]))) = 1.
Proof.
  intros E F. rewrite (end_line_spaces p g (10 :: t)) by (auto; cbn; lia). cbn [rbind].
  assert (E2 : src = (p ++ g) ++ 10 :: t) by (rewrite <- app_assoc; auto). pose proof (pos_lt _ _ _ E2) as B2. destruct (step_eq _ _ _ E2) as [E3 Z3]. rewrite left_St.
  replace (len - zlen (p ++ g) =? 0) with false by lia. rewrite cur_ok by lia. cbn [rbind]. rewrite (ch_at _ _ E2). cbn [hd Z.eqb Pos.eqb]. rewrite move_ok by lia. rewrite <- Z3, <- app_assoc. split; auto.
  rewrite app_assoc, Z3, lc_next by auto. rewrite (ch_at _ _ E2). reflexivity.
Qed.

(** ** symbols *)
Notation T := (T src).
(** behind the text [s] of a token of the kind [k] at [p], the lexer goes on at [p'] *)
Definition goes_on (k : Z) (p s p' : list Z) : Prop := exists x, p' = p ++ s ++ x /\ (k <> Tok_String /\ Forall blank x \/ k = Tok_String /\ x = [34]).
(** "=" is marked as an assignment *)
Definition marked (s : list Z) (tk : token) : Prop := s = [61] -> Z.land TF_Assign (t_flags tk) = TF_Assign.
Lemma goes_here k p s : k <> Tok_String -> goes_on k p s (p ++ s).
Proof. intros N. exists []. rewrite app_nil_r. auto. Qed.
Local Hint Extern 1 (_ <> Tok_String) => discriminate : core.
Definition lexed (p0 : Z) (p s t : list Z) (k : Z) (l : list lexeme) (ts : list token) (r : run (lx * next)) : Prop :=
  exists tk p' t' f, r = Done (St (zlen p') tk ts ms, Found) /\ t_start tk = zlen p /\ t_len tk = zlen s /\ t_type tk = k /\
    src = p' ++ t' /\ reads ms f t' l /\ (length t' <= length t)%nat /\ fresh_line f p' t' /\ goes_on k p s p' /\ marked s tk.

Lemma found_here p0 p s t k l ts tk : marked s tk -> src = p ++ s ++ t -> reads ms false t l -> s <> [] -> ~ In 10 s -> t_start tk = zlen p -> t_len tk = zlen s -> t_type tk = k -> k <> Tok_String ->
  lexed p0 p s t k l ts (Done (St (zlen (p ++ s)) tk ts ms, Found)).
Proof.
  intros M E R NE N H1 H2 H3 H4. exists tk, (p ++ s), t, false. split; auto. split; auto. split; auto. split; auto. split; [rewrite <- app_assoc; auto|]. split; auto. split; auto. split; [|split; [apply goes_here; exact H4|exact M]]. intros _. apply (col_after_app p s t); auto.
Qed.
Lemma repeats_stop n q tk ts : 1 <= q <= len -> ch q <> ch (q - 1) -> repeats src n (St q tk ts ms) = Done (St q tk ts ms).
Proof.
  intros B N. destruct n; cbn [repeats]; rewrite left_St; destruct (len - q =? 0); auto; rewrite cur_ok by lia; cbn [rbind]; change (l_pos (St q tk ts ms)) with q; rewrite at_ok by lia; cbn [rbind];
  replace (ch q =? ch (q - 1)) with false by lia; auto.
Qed.

Section Sym.
Variables (p0 : Z) (p : list Z) (t : list Z) (l : list lexeme) (ts : list token).
Hypothesis R : reads ms false t l.
Notation S0 := (St (zlen p) (t_fresh src p0) ts ms).
Definition result (c : Z) (s : list Z) (k : Z) : Prop := exists r, lex_symbol src fuel c S0 = Some r /\ lexed p0 p s t k l ts r.

Ltac not_eq := intros Q; first [discriminate Q | injection Q as Q; exfalso; cbn in *; lia].
Lemma one_char c k fl : src = p ++ [c] ++ t -> c <> 10 /\ c <> 61 /\ k <> Tok_String ->
  lex_symbol src fuel c S0 = Some (rbind (move_if_left src (begin k fl S0)) (fun s => Done (s, Found))) -> result c [c] k.
Proof.
  intros E (N & N61 & NS) H. pose proof (pos_lt _ _ _ E). exists (Done (St (zlen (p ++ [c])) (T p0 (zlen p) 1 k fl) ts ms, Found)). split.
  - rewrite H, begin_St, move_if_ok by lia. cbn [rbind]. do 3 f_equal. f_equal. zl. lia.
  - apply found_here; auto; [not_eq|discriminate|cbn; lia].
Qed.
Ltac start E := unfold result, lex_symbol; cbv zeta; cbn [Z.eqb Pos.eqb].
Ltac fin := eexists; split; [reflexivity|]; cbn [rbind].
Ltac here s := match goal with |- lexed _ _ _ _ _ _ _ (Done (St ?q _ _ _, Found)) => replace q with (zlen (p ++ s)) by (zl; unfold zlen; cbn [length]; lia) end; apply found_here; auto; [not_eq|discriminate|cbn; lia].

Lemma sym_dot : src = p ++ [46] ++ t -> hd 0 t <> 46 -> result 46 [46] Tok_Access_MemberSymbol.
Proof.
  intros E N. pose proof (pos_lt _ _ _ E). start E. fin. rewrite begin_St, move_if_ok by lia. cbn [rbind].
  destruct (step_eq _ _ _ E) as [E2 Z2]. rewrite if_cur_no; [|lia|rewrite <- Z2, (ch_at _ _ E2); auto]. cbn [rbind]. here [46].
Qed.
Lemma sym_dots : src = p ++ [46; 46; 46] ++ t -> result 46 [46; 46; 46] Tok_Varadic_Argument.
Proof.
  intros E. pose proof (pos_le _ _ E) as (B & EL). zl. pose proof (zlen_pos t). pose proof (ch_plus _ _ 1 E ltac:(lia)). pose proof (ch_plus _ _ 2 E ltac:(lia)). cbn in H0, H1. start E. fin. rewrite begin_St, move_if_ok by lia. cbn [rbind].
  rewrite if_cur_yes by (auto; lia). rewrite move_ok by lia. cbn [rbind]. replace (zlen p + 1 + 1) with (zlen p + 2) by lia. rewrite if_cur_yes by (auto; lia). rewrite with_tok_St, move_ok by lia. cbn [rbind]. here [46; 46; 46].
Qed.
Lemma sym_amp : src = p ++ [38] ++ t -> hd 0 t <> 38 -> result 38 [38] Tok_Ampersand.
Proof.
  intros E N. pose proof (pos_lt _ _ _ E). start E. fin. rewrite begin_St, move_if_ok by lia. cbn [rbind].
  destruct (step_eq _ _ _ E) as [E2 Z2]. rewrite if_cur_no; [|lia|rewrite <- Z2, (ch_at _ _ E2); auto]. cbn [rbind]. here [38].
Qed.
Lemma sym_amps : src = p ++ [38; 38] ++ t -> result 38 [38; 38] Tok_Ampersand_DBL.
Proof.
  intros E. pose proof (pos_le _ _ E) as (B & EL). zl. pose proof (zlen_pos t). pose proof (ch_plus _ _ 1 E ltac:(lia)). cbn in H0. start E. fin. rewrite begin_St, move_if_ok by lia. cbn [rbind].
  rewrite if_cur_yes by (auto; lia). rewrite with_tok_St, move_if_ok by lia. cbn [rbind]. here [38; 38].
Qed.
Lemma sym_colon : src = p ++ [58] ++ t -> hd 0 t <> 58 -> result 58 [58] Tok_Assign_Classifer.
Proof.
  intros E N. pose proof (pos_lt _ _ _ E). start E. fin. rewrite begin_St, move_if_ok by lia. cbn [rbind].
  destruct (step_eq _ _ _ E) as [E2 Z2]. rewrite if_cur_no; [|lia|rewrite <- Z2, (ch_at _ _ E2); auto]. cbn [rbind]. here [58].
Qed.
Lemma sym_colons : src = p ++ [58; 58] ++ t -> result 58 [58; 58] Tok_Access_StaticSymbol.
Proof.
  intros E. pose proof (pos_le _ _ E) as (B & EL). zl. pose proof (zlen_pos t). pose proof (ch_plus _ _ 1 E ltac:(lia)). cbn in H0. start E. fin. rewrite begin_St, move_if_ok by lia. cbn [rbind].
  rewrite if_cur_yes by (auto; lia). rewrite take_ok by lia. cbn [rbind]. rewrite with_tok_St. here [58; 58].
Qed.
Lemma sym_square : src = p ++ [91] ++ t -> hd 0 t <> 93 -> result 91 [91] Tok_BraceSquare_Open.
Proof.
  intros E N. pose proof (pos_lt _ _ _ E). start E. fin. rewrite begin_St, left_St. replace (len - zlen p =? 0) with false by lia. rewrite move_ok by lia. cbn [rbind].
  destruct (step_eq _ _ _ E) as [E2 Z2]. rewrite if_cur_no; [|lia|rewrite <- Z2, (ch_at _ _ E2); auto]. cbn [rbind]. here [91].
Qed.
Lemma sym_star : src = p ++ [42] ++ t -> hd 0 t <> 61 -> result 42 [42] Tok_Star.
Proof.
  intros E N. pose proof (pos_lt _ _ _ E). start E. fin. rewrite begin_St, move_if_ok by lia. cbn [rbind].
  destruct (step_eq _ _ _ E) as [E2 Z2]. rewrite if_cur_no; [|lia|rewrite <- Z2, (ch_at _ _ E2); auto]. cbn [rbind]. here [42].
Qed.
Lemma sym_eq : src = p ++ [61] ++ t -> hd 0 t <> 61 -> result 61 [61] Tok_Operator.
Proof.
  intros E N. pose proof (pos_lt _ _ _ E). start E. fin. rewrite begin_St, move_if_ok by lia. cbn [rbind].
  destruct (step_eq _ _ _ E) as [E2 Z2]. rewrite if_cur_no; [|lia|rewrite <- Z2, (ch_at _ _ E2); auto]. cbn [rbind]. rewrite <- Z2. apply found_here; auto; [intros _; reflexivity|discriminate|cbn; lia].
Qed.
Lemma sym_eqs : src = p ++ [61; 61] ++ t -> result 61 [61; 61] Tok_Operator.
Proof.
  intros E. pose proof (pos_le _ _ E) as (B & EL). zl. pose proof (zlen_pos t). pose proof (ch_plus _ _ 1 E ltac:(lia)). cbn in H0. start E. fin. rewrite begin_St, move_if_ok by lia. cbn [rbind].
  rewrite if_cur_yes by (auto; lia). rewrite with_tok_St, move_if_ok by lia. cbn [rbind]. here [61; 61].
Qed.
Lemma sym_op c : src = p ++ [c] ++ t -> In c (txt "+%^~!<>|") -> hd 0 t <> 61 -> hd 0 t <> c -> result c [c] Tok_Operator.
Proof.
  intros E HC N1 N2. pose proof (pos_lt _ _ _ E). destruct (step_eq _ _ _ E) as [E2 Z2]. pose proof (pos_le _ _ E2) as (B2 & _).
  assert (X : lex_symbol src fuel c S0 = Some (rbind (rbind (move_if_left src (begin Tok_Operator TF_Operator S0)) (fun s => rbind (cur src s) (fun c =>
      if c =? 61 then move_if_left src (with_tok (fun k => or_flags TF_Assign (set_len (t_len k + 1) k)) s)
      else repeats src fuel s))) (fun s => Done (s, Found)))).
  { cbn in HC. repeat (destruct HC as [<-|HC]; [reflexivity|]). contradiction. }
  unfold result. rewrite X. fin. rewrite begin_St, move_if_ok by lia. cbn [rbind]. rewrite cur_ok by lia. cbn [rbind]. rewrite <- Z2, (ch_at _ _ E2). replace (hd 0 t =? 61) with false by lia.
  rewrite repeats_stop; [|lia|]. 2:{ rewrite (ch_at _ _ E2). replace (zlen (p ++ [c]) - 1) with (zlen p) by lia. rewrite (ch_at _ _ E). cbn. auto. }
  cbn [rbind]. apply found_here; auto; [not_eq|discriminate|cbn in HC |- *; lia].
Qed.
Lemma sym_minus : src = p ++ [45] ++ t -> hd 0 t <> 61 -> hd 0 t <> 45 -> hd 0 t <> 62 -> result 45 [45] Tok_Operator.
Proof.
  intros E N1 N2 N3. pose proof (pos_lt _ _ _ E). destruct (step_eq _ _ _ E) as [E2 Z2]. pose proof (pos_le _ _ E2) as (B2 & _).
  start E. change (existsb (Z.eqb 45) (txt "+%^~!<>|")) with false. cbv iota. fin. rewrite begin_St, left_St. replace (len - zlen p =? 0) with false by lia. rewrite move_ok by lia. cbn [rbind]. rewrite cur_ok by lia. cbn [rbind]. rewrite <- Z2, (ch_at _ _ E2).
  replace (hd 0 t =? 62) with false by lia. replace (hd 0 t =? 61) with false by lia.
  rewrite repeats_stop; [|lia|]. 2:{ rewrite (ch_at _ _ E2). replace (zlen (p ++ [45]) - 1) with (zlen p) by lia. rewrite (ch_at _ _ E). cbn. auto. }
  cbn [rbind]. apply found_here; auto; [not_eq|discriminate|cbn; lia].
Qed.
Lemma sym_arrow : src = p ++ [45; 62] ++ t -> hd 0 t <> 42 -> result 45 [45; 62] Tok_Operator.
Proof.
  intros E N. pose proof (pos_le _ _ E) as (B & EL). zl. pose proof (zlen_pos t). assert (H0 : ch (zlen p + 1) = 62) by (rewrite (ch_plus _ _ 1 E) by lia; reflexivity).
  assert (E2 : src = (p ++ [45; 62]) ++ t) by (rewrite <- app_assoc; auto). pose proof (ch_at _ _ E2) as C2. zl. change (1 + (1 + 0)) with 2 in *.
  start E. change (existsb (Z.eqb 45) (txt "+%^~!<>|")) with false. cbv iota. fin. rewrite begin_St, left_St. replace (len - zlen p =? 0) with false by lia. rewrite move_ok by lia. cbn [rbind]. rewrite cur_ok by lia. cbn [rbind].
  rewrite H0. cbn [Z.eqb Pos.eqb]. rewrite with_tok_St, take_ok by lia. cbn [rbind]. replace (zlen p + 1 + 1) with (zlen p + 2) by lia. rewrite if_cur_no; [|lia|rewrite C2; auto]. cbn [rbind]. here [45; 62].
Qed.
Lemma sym_slash : src = p ++ [47] ++ t -> hd 0 t <> 61 -> hd 0 t <> 47 -> hd 0 t <> 42 -> result 47 [47] Tok_Operator.
Proof.
  intros E N1 N2 N3. pose proof (pos_lt _ _ _ E). destruct (step_eq _ _ _ E) as [E2 Z2]. pose proof (pos_le _ _ E2) as (B2 & _).
  start E. change (existsb (Z.eqb 47) (txt "+%^~!<>|")) with false. cbv iota. fin. rewrite begin_St, move_ok by lia. cbn [rbind]. rewrite left_St.
  destruct (len - (zlen p + 1) =? 0); [here [47]|]. rewrite cur_ok by lia. cbn [rbind]. rewrite <- Z2, (ch_at _ _ E2).
  replace (hd 0 t =? 61) with false by lia. replace (hd 0 t =? 47) with false by lia. replace (hd 0 t =? 42) with false by lia. apply found_here; auto; [not_eq|discriminate|cbn; lia].
Qed.
Lemma sym_brackets : src = p ++ [91; 93] ++ t -> result 91 [91; 93] Tok_Operator.
Proof.
  intros E. pose proof (pos_le _ _ E) as (B & EL). zl. pose proof (zlen_pos t). assert (H0 : ch (zlen p + 1) = 93) by (rewrite (ch_plus _ _ 1 E) by lia; reflexivity).
  start E. fin. rewrite begin_St, left_St. replace (len - zlen p =? 0) with false by lia. rewrite move_ok by lia. cbn [rbind]. rewrite if_cur_yes by (auto; lia). rewrite with_tok_St, move_ok by lia. cbn [rbind]. here [91; 93].
Qed.
Lemma sym_stareq : src = p ++ [42; 61] ++ t -> result 42 [42; 61] Tok_Star.
Proof.
  intros E. pose proof (pos_le _ _ E) as (B & EL). zl. pose proof (zlen_pos t). assert (H0 : ch (zlen p + 1) = 61) by (rewrite (ch_plus _ _ 1 E) by lia; reflexivity).
  start E. fin. rewrite begin_St, move_if_ok by lia. cbn [rbind]. rewrite if_cur_yes by (auto; lia). rewrite with_tok_St, move_if_ok by lia. cbn [rbind]. here [42; 61].
Qed.
Lemma sym_slasheq : src = p ++ [47; 61] ++ t -> result 47 [47; 61] Tok_Operator.
Proof.
  intros E. pose proof (pos_le _ _ E) as (B & EL). zl. pose proof (zlen_pos t). assert (H0 : ch (zlen p + 1) = 61) by (rewrite (ch_plus _ _ 1 E) by lia; reflexivity).
  start E. change (existsb (Z.eqb 47) (txt "+%^~!<>|")) with false. cbv iota. fin. rewrite begin_St, move_ok by lia. cbn [rbind]. rewrite left_St. replace (len - (zlen p + 1) =? 0) with false by lia. rewrite cur_ok by lia. cbn [rbind]. rewrite H0. cbn [Z.eqb Pos.eqb].
  rewrite take_ok by lia. cbn [rbind]. rewrite with_tok_St. here [47; 61].
Qed.
Lemma op_shape c : In c (txt "+%^~!<>|") -> lex_symbol src fuel c S0 = Some (rbind (rbind (move_if_left src (begin Tok_Operator TF_Operator S0)) (fun s => rbind (cur src s) (fun c =>
      if c =? 61 then move_if_left src (with_tok (fun k => or_flags TF_Assign (set_len (t_len k + 1) k)) s)
      else repeats src fuel s))) (fun s => Done (s, Found))).
Proof. intros HC. cbn in HC. repeat (destruct HC as [<-|HC]; [reflexivity|]). contradiction. Qed.
Lemma sym_opeq c : src = p ++ [c; 61] ++ t -> In c (txt "+%^~!<>|") -> result c [c; 61] Tok_Operator.
Proof.
  intros E HC. pose proof (pos_le _ _ E) as (B & EL). zl. pose proof (zlen_pos t). assert (H0 : ch (zlen p + 1) = 61) by (rewrite (ch_plus _ _ 1 E) by lia; reflexivity).
  unfold result. rewrite (op_shape c HC). fin. rewrite begin_St, move_if_ok by lia. cbn [rbind]. rewrite cur_ok by lia. cbn [rbind]. rewrite H0. cbn [Z.eqb Pos.eqb]. rewrite with_tok_St, move_if_ok by lia. cbn [rbind].
  match goal with |- lexed _ _ _ _ _ _ _ (Done (St ?q _ _ _, Found)) => replace q with (zlen (p ++ [c; 61])) by (zl; unfold zlen; cbn [length]; lia) end. apply found_here; auto; [not_eq|discriminate|cbn in HC |- *; lia].
Qed.
Lemma repeats_two c k fl : src = p ++ [c; c] ++ t -> hd 0 t <> c -> repeats src fuel (St (zlen p + 1) (T p0 (zlen p) 1 k fl) ts ms) = Done (St (zlen (p ++ [c; c])) (T p0 (zlen p) 2 k fl) ts ms).
Proof.
  intros E N. pose proof (pos_le _ _ E) as (B & EL). zl. pose proof (zlen_pos t). assert (H0 : ch (zlen p + 1) = c) by (rewrite (ch_plus _ _ 1 E) by lia; reflexivity). assert (H1 : ch (zlen p) = c) by (rewrite (ch_at _ _ E); reflexivity).
  assert (E2 : src = (p ++ [c; c]) ++ t) by (rewrite <- app_assoc; auto). pose proof (ch_at _ _ E2) as C2. pose proof (pos_le _ _ E2) as (B2 & _). zl. change (1 + (1 + 0)) with 2 in *.
  destruct fuel as [|n]; [lia|]. cbn [repeats]. rewrite left_St. replace (len - (zlen p + 1) =? 0) with false by lia. rewrite cur_ok by lia. cbn [rbind]. change (l_pos (St (zlen p + 1) (T p0 (zlen p) 1 k fl) ts ms)) with (zlen p + 1).
  rewrite at_ok by lia. cbn [rbind]. replace (zlen p + 1 - 1) with (zlen p) by lia. rewrite H0, H1, Z.eqb_refl. change (t_len (l_tok (St (zlen p + 1) (T p0 (zlen p) 1 k fl) ts ms))) with 1. cbn [andb Z.ltb Z.compare Pos.compare Pos.compare_cont].
  rewrite with_tok_St, move_if_ok by lia. cbn [rbind]. change (set_len (t_len (T p0 (zlen p) 1 k fl) + 1) (T p0 (zlen p) 1 k fl)) with (T p0 (zlen p) 2 k fl). replace (zlen p + 1 + 1) with (zlen p + 2) by lia.
  apply repeats_stop; [lia|]. rewrite C2. replace (zlen p + 2 - 1) with (zlen p + 1) by lia. rewrite H0. auto.
Qed.
Lemma sym_opop c : src = p ++ [c; c] ++ t -> In c (txt "+<>|") -> hd 0 t <> c -> result c [c; c] Tok_Operator.
Proof.
  intros E HC N. pose proof (pos_le _ _ E) as (B & EL). zl. pose proof (zlen_pos t). assert (H0 : ch (zlen p + 1) = c) by (rewrite (ch_plus _ _ 1 E) by lia; reflexivity).
  assert (HC' : In c (txt "+%^~!<>|")) by (cbn in HC |- *; lia). unfold result. rewrite (op_shape c HC'). fin. rewrite begin_St, move_if_ok by lia. cbn [rbind]. rewrite cur_ok by lia. cbn [rbind]. rewrite H0. replace (c =? 61) with false by (cbn in HC; lia).
  rewrite (repeats_two c) by auto. cbn [rbind]. apply found_here; auto; [not_eq|discriminate|cbn in HC |- *; lia].
Qed.
Lemma sym_minuseq : src = p ++ [45; 61] ++ t -> result 45 [45; 61] Tok_Operator.
Proof.
  intros E. pose proof (pos_le _ _ E) as (B & EL). zl. pose proof (zlen_pos t). assert (H0 : ch (zlen p + 1) = 61) by (rewrite (ch_plus _ _ 1 E) by lia; reflexivity).
  start E. change (existsb (Z.eqb 45) (txt "+%^~!<>|")) with false. cbv iota. fin. rewrite begin_St, left_St. replace (len - zlen p =? 0) with false by lia. rewrite move_ok by lia. cbn [rbind]. rewrite cur_ok by lia. cbn [rbind].
  rewrite H0. cbn [Z.eqb Pos.eqb]. rewrite with_tok_St, move_if_ok by lia. cbn [rbind]. here [45; 61].
Qed.
Lemma sym_minuses : src = p ++ [45; 45] ++ t -> hd 0 t <> 45 -> result 45 [45; 45] Tok_Operator.
Proof.
  intros E N. pose proof (pos_le _ _ E) as (B & EL). zl. pose proof (zlen_pos t). assert (H0 : ch (zlen p + 1) = 45) by (rewrite (ch_plus _ _ 1 E) by lia; reflexivity).
  start E. change (existsb (Z.eqb 45) (txt "+%^~!<>|")) with false. cbv iota. fin. rewrite begin_St, left_St. replace (len - zlen p =? 0) with false by lia. rewrite move_ok by lia. cbn [rbind]. rewrite cur_ok by lia. cbn [rbind].
  rewrite H0. cbn [Z.eqb Pos.eqb]. rewrite (repeats_two 45) by auto. cbn [rbind]. here [45; 45].
Qed.
Lemma sym_arrowstar : src = p ++ [45; 62; 42] ++ t -> result 45 [45; 62; 42] Tok_Operator.
Proof.
  intros E. pose proof (pos_le _ _ E) as (B & EL). zl. pose proof (zlen_pos t). assert (H0 : ch (zlen p + 1) = 62) by (rewrite (ch_plus _ _ 1 E) by lia; reflexivity). assert (H1 : ch (zlen p + 2) = 42) by (rewrite (ch_plus _ _ 2 E) by lia; reflexivity).
  start E. change (existsb (Z.eqb 45) (txt "+%^~!<>|")) with false. cbv iota. fin. rewrite begin_St, left_St. replace (len - zlen p =? 0) with false by lia. rewrite move_ok by lia. cbn [rbind]. rewrite cur_ok by lia. cbn [rbind].
  rewrite H0. cbn [Z.eqb Pos.eqb]. rewrite with_tok_St, take_ok by lia. cbn [rbind]. replace (zlen p + 1 + 1) with (zlen p + 2) by lia. rewrite if_cur_yes by (auto; lia). rewrite take_ok by lia. cbn [rbind]. here [45; 62; 42].
Qed.

Lemma symbol_exact s k no : In (s, k, no) symbols -> no_stop s -> src = p ++ txt s ++ t -> ~ In (hd 0 t) (txt no) -> result (hd 0 (txt s)) (txt s) k.
Proof.
  intros HI NS E N. unfold symbols in HI. cbn [In] in HI.
  repeat match type of HI with _ \/ _ => destruct HI as [HI|HI]; [injection HI as <- <- <-; cbn in N; cbn in E |- *|] end; try contradiction.
  - eapply one_char; [exact E|split; [lia|split; [lia|discriminate]]|reflexivity].
  - eapply one_char; [exact E|split; [lia|split; [lia|discriminate]]|reflexivity].
  - eapply one_char; [exact E|split; [lia|split; [lia|discriminate]]|reflexivity].
  - exfalso. apply NS. cbn. auto.
  - eapply one_char; [exact E|split; [lia|split; [lia|discriminate]]|reflexivity].
  - exfalso. apply NS. cbn. auto.
  - apply sym_square; auto.
  - eapply one_char; [exact E|split; [lia|split; [lia|discriminate]]|reflexivity].
  - apply sym_star; auto.
  - apply sym_amp; auto.
  - apply sym_amps; auto.
  - apply sym_dots; auto.
  - apply sym_colon; auto.
  - apply sym_colons; auto.
  - apply sym_eq; auto.
  - apply sym_op; auto; cbn; lia.
  - apply sym_op; auto; cbn; lia.
  - apply sym_op; auto; cbn; lia.
  - eapply one_char; [exact E|split; [lia|split; [lia|discriminate]]|reflexivity].
  - apply sym_dot; auto.
  - apply sym_op; auto; cbn; lia.
  - apply sym_minus; auto; lia.
  - apply sym_op; auto; cbn; lia.
  - apply sym_op; auto; cbn; lia.
  - apply sym_op; auto; cbn; lia.
  - apply sym_op; auto; cbn; lia.
  - apply sym_slash; auto; lia.
  - apply sym_eqs; auto.
  - apply sym_arrow; auto; lia.
  - apply sym_arrowstar; auto.
  - apply sym_brackets; auto.
  - apply sym_opeq; auto; cbn; lia.
  - apply sym_minuseq; auto.
  - apply sym_stareq; auto.
  - apply sym_slasheq; auto.
  - apply sym_opeq; auto; cbn; lia.
  - apply sym_opeq; auto; cbn; lia.
  - apply sym_opeq; auto; cbn; lia.
  - apply sym_opeq; auto; cbn; lia.
  - apply sym_opeq; auto; cbn; lia.
  - apply sym_opeq; auto; cbn; lia.
  - apply sym_opop; auto; cbn; lia.
  - apply sym_minuses; auto.
  - apply sym_opop; auto; cbn; lia.
  - apply sym_opop; auto; cbn; lia.
  - apply sym_opop; auto; cbn; lia.
Qed.
End Sym.

(** ** stops *)
Lemma stop_exact p0 p s k t0 t l f ts : In (s, k) stops -> src = p ++ txt s ++ t0 ->
  (exists g, Forall (eq 32) g /\ (f = false /\ t0 = g ++ t /\ ~ In (hd 0 t) [32; 10; 13] \/ f = true /\ t0 = g ++ 10 :: t)) -> reads ms f t l ->
  exists r, lex_symbol src fuel (hd 0 (txt s)) (St (zlen p) (t_fresh src p0) ts ms) = Some r /\ lexed p0 p (txt s) t0 k l ts r.
Proof.
  intros HI E (g & F & HT) R. assert (KS : k <> Tok_String) by (cbn in HI; destruct HI as [HI|[HI|[]]]; injection HI as _ <-; discriminate). assert (X : exists c fl, txt s = [c] /\ lex_symbol src fuel c (St (zlen p) (t_fresh src p0) ts ms) =
    Some (rbind (rbind (move_if_left src (begin k fl (St (zlen p) (t_fresh src p0) ts ms))) (end_line src fuel)) (fun s => Done (s, Found)))).
  { cbn in HI. destruct HI as [HI|[HI|[]]]; injection HI as <- <-; eexists _, _; split; reflexivity. }
  destruct X as (c & fl & EC & X). rewrite EC in *. cbn [hd app] in *. rewrite X. eexists; split; [reflexivity|]. pose proof (pos_lt _ _ _ E). destruct (step_eq _ _ _ E) as [E2 Z2].
  rewrite begin_St, move_if_ok by lia. cbn [rbind]. rewrite <- Z2. set (tk := LexProofs5.T src p0 (zlen p) 1 k fl). destruct HT as [(-> & -> & N)|(-> & ->)].
  - rewrite (end_line_stays (p ++ [c]) g t) by auto. exists tk, ((p ++ [c]) ++ g), t, false. split; auto. split; auto. split; auto. split; auto. split; [rewrite E2 at 1; rewrite <- !app_assoc; auto|]. split; auto.
    split; [rewrite app_length; lia|]. split; [intros H10; cbn in N; lia|]. split; [|intros Q; injection Q as Q; subst c; destruct HI as [HI|[HI|[]]]; injection HI as <- _; discriminate EC].
    exists g. rewrite <- app_assoc. split; [reflexivity|]. left. split; [exact KS|]. eapply Forall_impl; [|exact F]. intros a <-. left. reflexivity.
  - destruct (end_line_goes (p ++ [c]) g t tk ts E2 F) as [-> C1]. exists tk, ((p ++ [c]) ++ g ++ [10]), t, true. split; auto. split; auto. split; auto. split; auto. split; [rewrite E2 at 1; rewrite <- !app_assoc; auto|]. split; auto.
    split; [rewrite app_length; cbn; lia|]. split; [exact C1|]. split; [|intros Q; injection Q as Q; subst c; destruct HI as [HI|[HI|[]]]; injection HI as <- _; discriminate EC].
    exists (g ++ [10]). rewrite <- app_assoc. split; [reflexivity|]. left. split; [exact KS|]. apply Forall_app. split; [|repeat constructor; right; reflexivity]. eapply Forall_impl; [|exact F]. intros a <-. left. reflexivity.
Qed.

(** the end of its line is taken *)
Lemma stop_past p0 p s k t0 t l f ts : In (s, k) stops -> src = p ++ txt s ++ t0 ->
  (exists g, Forall (eq 32) g /\ (f = false /\ t0 = g ++ t /\ ~ In (hd 0 t) [32; 10; 13] \/ f = true /\ t0 = g ++ 10 :: t)) -> reads ms f t l ->
  forall q tk, lex_symbol src fuel (hd 0 (txt s)) (St (zlen p) (t_fresh src p0) ts ms) = Some (Done (St q tk ts ms, Found)) -> q = zlen (p ++ txt s) -> hd 0 t0 <> 10.
Proof.
  intros HI E (g & F & HT) R q tk1. assert (X : exists c fl, txt s = [c] /\ lex_symbol src fuel c (St (zlen p) (t_fresh src p0) ts ms) =
    Some (rbind (rbind (move_if_left src (begin k fl (St (zlen p) (t_fresh src p0) ts ms))) (end_line src fuel)) (fun s => Done (s, Found)))).
  { cbn in HI. destruct HI as [HI|[HI|[]]]; injection HI as <- <-; eexists _, _; split; reflexivity. }
  destruct X as (c & fl & EC & X). rewrite EC in *. cbn [hd app] in *. rewrite X. pose proof (pos_lt _ _ _ E). destruct (step_eq _ _ _ E) as [E2 Z2].
  rewrite begin_St, move_if_ok by lia. cbn [rbind]. rewrite <- Z2. set (tk := LexProofs5.T src p0 (zlen p) 1 k fl). destruct HT as [(-> & -> & N)|(-> & ->)].
  - intros _ _. destruct g as [|x g]; cbn [app hd]; [intros Q; apply N; rewrite Q; cbn; auto|]. pose proof (Forall_inv F). subst x. discriminate.
  - destruct (end_line_goes (p ++ [c]) g t tk ts E2 F) as [-> C1]. cbn [rbind]. intros Q ->. exfalso. injection Q as Q _. zl. pose proof (zlen_pos g). change (zlen [10]) with 1 in *. lia.
Qed.

(** ** literals *)
Lemma col_past p c u t : src = p ++ u ++ c :: t -> c <> 10 -> snd (lc src (zlen (p ++ u ++ [c]))) <> 1.
Proof. intros E N. rewrite app_assoc. apply (col_after (p ++ u) c t); auto. rewrite <- app_assoc. auto. Qed.
Lemma string_rest_exact : forall u n p t p0 s0 l0 ts, src = p ++ u ++ 34 :: t -> ~ In 34 u -> ~ In 92 u -> (length u <= n)%nat ->
  string_rest src n (St (zlen p) (T p0 s0 l0 Tok_String TF_Literal) ts ms) = Done (St (zlen (p ++ u ++ [34])) (T p0 s0 (l0 + zlen u) Tok_String TF_Literal) ts ms).
Proof.
  induction u as [|c u IH]; intros n p t p0 s0 l0 ts E N1 N2 L.
  - cbn [app] in E. pose proof (pos_lt _ _ _ E). destruct n; cbn [string_rest]; rewrite left_St; replace (len - zlen p =? 0) with false by lia; rewrite cur_ok by lia; cbn [rbind]; rewrite (ch_at _ _ E); cbn [hd Z.eqb Pos.eqb]; rewrite move_ok by lia; cbn [app]; zl; repeat f_equal; unfold zlen; cbn; try lia; rewrite Z.add_0_r; auto.
  - cbn [app] in E. pose proof (pos_lt _ _ _ E). destruct n as [|n]; [cbn in L; lia|]. cbn [string_rest]. rewrite left_St. replace (len - zlen p =? 0) with false by lia. rewrite cur_ok by lia. cbn [rbind]. rewrite (ch_at _ _ E). cbn [hd].
    replace (c =? 34) with false by (cbn in N1; lia). replace (c =? 92) with false by (cbn in N2; lia). rewrite take_ok by lia. cbn [rbind]. destruct (step_eq _ _ _ E) as [E2 Z2]. rewrite <- Z2.
    change (set_len (t_len (T p0 s0 l0 Tok_String TF_Literal) + 1) (T p0 s0 l0 Tok_String TF_Literal)) with (T p0 s0 (l0 + 1) Tok_String TF_Literal).
    rewrite (IH n (p ++ [c]) t); auto; [|cbn in N1; tauto|cbn in N2; tauto|cbn in L; lia]. rewrite <- app_assoc. cbn [app]. rewrite zlen_cons, Z.add_assoc. auto.
Qed.
Lemma string_exact p0 p u t l ts : src = p ++ 34 :: u ++ 34 :: t -> ~ In 34 u -> ~ In 92 u -> reads ms false t l ->
  exists r, lex_symbol src fuel 34 (St (zlen p) (t_fresh src p0) ts ms) = Some r /\ lexed p0 p (34 :: u) t Tok_String l ts r.
Proof.
  intros E N1 N2 R. pose proof (pos_lt _ _ _ E). destruct (step_eq _ _ _ E) as [E2 Z2]. eexists. split; [reflexivity|]. rewrite begin_St, move_ok by lia. cbn [rbind]. rewrite <- Z2.
  rewrite (string_rest_exact u fuel (p ++ [34]) t) by (auto; pose proof (pos_le _ _ E) as (B & EL); rewrite zlen_cons in EL; rewrite zlen_app in EL; unfold zlen in *; lia). cbn [rbind].
  eexists _, _, t, false. split; [reflexivity|]. split; [reflexivity|]. split; [cbn [LexProofs5.T t_len]; zl; lia|]. split; [reflexivity|]. split; [rewrite E2 at 1; rewrite <- !app_assoc; auto|]. split; auto. split; auto.
  split; [intros _; apply (col_past (p ++ [34]) 34 u t); auto; lia|]. split; [|intros Q; discriminate Q]. exists [34]. rewrite <- !app_assoc. split; [reflexivity|]. right. auto.
Qed.
Lemma char_exact p0 p u t l ts : src = p ++ 39 :: u ++ 39 :: t -> ~ In 39 u -> ~ In 92 u -> reads ms false t l ->
  exists r, lex_symbol src fuel 39 (St (zlen p) (t_fresh src p0) ts ms) = Some r /\ lexed p0 p (39 :: u ++ [39]) t Tok_Char l ts r.
Proof.
  intros E N1 N2 R. pose proof (pos_lt _ _ _ E). destruct (step_eq _ _ _ E) as [E2 Z2]. pose proof (pos_le _ _ E2) as (B2 & EL2). eexists. split; [reflexivity|]. rewrite begin_St, move_ok by lia. cbn [rbind]. rewrite <- Z2.
  assert (HU : hd 0 (u ++ 39 :: t) <> 92) by (destruct u as [|c u]; cbn; [lia|cbn in N2; tauto]).
  assert (X : (if left src (St (zlen (p ++ [39])) (T p0 (zlen p) 1 Tok_Char TF_Literal) ts ms) =? 0 then Done (St (zlen (p ++ [39])) (T p0 (zlen p) 1 Tok_Char TF_Literal) ts ms)
    else if_cur src 92 (fun s => rbind (take src s) (if_cur src 39 (take src))) (St (zlen (p ++ [39])) (T p0 (zlen p) 1 Tok_Char TF_Literal) ts ms)) = Done (St (zlen (p ++ [39])) (T p0 (zlen p) 1 Tok_Char TF_Literal) ts ms)).
  { rewrite if_cur_no; [destruct (left src _ =? 0); auto|lia|]. rewrite (ch_at _ _ E2). auto. }
  rewrite X. clear X. cbn [rbind].
  destruct (while_take src (fun c => negb (c =? 39)) fuel (zlen (p ++ [39])) (T p0 (zlen p) 1 Tok_Char TF_Literal) ts ms) as (q & S & W); [lia|lia|]. rewrite W. cbn [rbind]. clear W.
  assert (E3 : src = ((p ++ [39]) ++ u) ++ 39 :: t) by (rewrite <- app_assoc; auto). pose proof (pos_lt _ _ _ E3) as B3.
  assert (q = zlen ((p ++ [39]) ++ u)) as ->.
  { eapply spans_fun; [exact S|]. eapply spans_exact; eauto. apply Forall_forall. intros x Hx. destruct (Z.eqb_spec x 39) as [->|]; [contradiction|]. auto. }
  rewrite left_St. replace (len - zlen ((p ++ [39]) ++ u) =? 0) with false by lia. rewrite take_ok by lia. cbn [rbind]. destruct (step_eq _ _ _ E3) as [E4 Z4]. rewrite <- Z4.
  eexists _, _, t, false. split; [reflexivity|]. split; [reflexivity|]. split; [cbn [LexProofs5.T t_len set_len]; zl; change (zlen (@nil Z)) with 0; lia|]. split; [reflexivity|]. split; [exact E4|]. split; auto. split; auto.
  split; [intros _; apply (col_after ((p ++ [39]) ++ u) 39 t); auto; lia|]. split; [|intros Q; discriminate Q]. exists []. rewrite app_nil_r, <- !app_assoc. split; [reflexivity|]. left. split; [discriminate|constructor].
Qed.

(** ** comments *)
Lemma comment_exact p0 p u t l ts : src = p ++ txt "//" ++ u ++ 10 :: t -> Forall byte_ok u -> ~ In 10 u -> ~ In 13 u -> reads ms true t l ->
  exists tk p', lex_symbol src fuel 47 (St (zlen p) (t_fresh src p0) ts ms) = Some (Done (St (zlen p') tk (ts ++ [tk]) ms, Next)) /\
    t_start tk = zlen p /\ t_len tk = zlen (txt "//" ++ u ++ [10]) /\ t_type tk = Tok_Comment /\ src = p' ++ t /\ fresh_line true p' t /\ p' = p ++ txt "//" ++ u ++ [10] /\ t_line tk = fst (lc src p0).
Proof.
  intros E FU N10 N13 R. change (txt "//") with [47; 47] in *. pose proof (pos_le _ _ E) as (B & EL). zl. pose proof (zlen_pos t). pose proof (zlen_pos u). assert (C1 : ch (zlen p + 1) = 47) by (rewrite (ch_plus _ _ 1 E) by lia; reflexivity).
  unfold lex_symbol. cbv zeta. change (existsb (Z.eqb 47) (txt "+%^~!<>|")) with false. cbn [Z.eqb Pos.eqb]. rewrite begin_St, move_ok by lia. cbn [rbind]. rewrite left_St. replace (len - (zlen p + 1) =? 0) with false by lia.
  rewrite cur_ok by lia. cbn [rbind]. rewrite C1. cbn [Z.eqb Pos.eqb]. rewrite with_tok_St, move_ok by lia. cbn [rbind].
  set (tk0 := set_flags _ _).
  destruct (while_take src (fun c => negb (c =? 10) && negb (c =? 13)) fuel (zlen p + 1 + 1) tk0 ts ms) as (q & S & W); [lia|lia|]. rewrite W. cbn [rbind]. clear W.
  assert (E2 : src = (p ++ [47; 47]) ++ u ++ 10 :: t) by (rewrite <- app_assoc; auto). assert (Z2 : zlen (p ++ [47; 47]) = zlen p + 1 + 1) by (zl; lia).
  assert (E3 : src = ((p ++ [47; 47]) ++ u) ++ 10 :: t) by (rewrite <- app_assoc; auto). destruct (step_eq _ _ _ E3) as [E4 Z4]. pose proof (pos_lt _ _ _ E3) as B3.
  assert (q = zlen ((p ++ [47; 47]) ++ u)) as ->.
  { eapply spans_fun; [exact S|]. rewrite <- Z2. eapply spans_exact; eauto. apply Forall_forall. intros x Hx. destruct (Z.eqb_spec x 10) as [->|]; [contradiction|]. destruct (Z.eqb_spec x 13) as [->|]; [contradiction|]. auto. }
  rewrite if_cur_no; [|lia|rewrite (ch_at _ _ E3); cbn; lia]. cbn [rbind]. rewrite if_cur_yes; [|lia|rewrite (ch_at _ _ E3); auto]. rewrite take_ok by lia. cbn [rbind]. rewrite append_tok_St, <- Z4.
  eexists _, _. split; [reflexivity|]. split; [reflexivity|]. split; [|split; [reflexivity|split; [exact E4|]]].
  - cbn [set_len t_len tk0 set_flags set_type LexProofs5.T]. zl. lia.
  - split; [|split; [rewrite <- !app_assoc; reflexivity|reflexivity]]. cbn [fresh_line]. rewrite Z4, lc_next by auto. rewrite (ch_at _ _ E3). reflexivity.
Qed.
End P.
