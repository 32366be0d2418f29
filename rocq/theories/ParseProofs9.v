(** Enums. *)
From Coq Require Import String ZArith List Bool Lia ZifyBool ZifyNat.
From Verif Require Import Common Text HashModel StrOpsModel EnumModel EnumSpec EnumProofs LexModel LexSpec NavModel StripModel StripSpec AstModel AstSpec AstProofs UpfrontModel UpfrontSpec UpfrontProofs4 SerSpec SerProofs2 ParseModel ParseSpec ParseProofs ParseProofs2 ParseProofs3 ParseProofs4 ParseProofs5 ParseProofs6 ParseProofs7 ParseProofs8.
Import ListNotations.
Close Scope string_scope.
Open Scope Z_scope.


Lemma f2_impl : forall A B (P P' : A -> B -> Prop) l l', (forall a b, P a b -> P' a b) -> Forall2 P l l' -> Forall2 P' l l'.
Proof. intros A B P P' l l' I F. induction F; constructor; auto. Qed.
(** ** the body *)
Definition body_state (h : heap) (b : Z) (l : list Z) (ts : list (list Z)) : Prop :=
  entries h b l /\ Forall2 (raw_at h) l ts /\ n_type (h_node h b) = CT_Enum_Body.
(** a body all of whose nodes are not older than [B] *)
Definition young (B : Z) (h : heap) (b : Z) : Prop := B <= b /\ fresh B h (n_front (h_node h b)) (Z.to_nat (n_num (h_node h b))).
Lemma fresh_linked : forall B h l, (forall y, In y l -> B <= y) -> linked h l -> fresh B h (hd 0 l) (length l).
Proof.
  intros B h. induction l as [|x l IH]; intros Y L; [exact I|]. cbn [length fresh hd]. split; [apply Y; left; reflexivity|]. destruct l as [|y l]; [exact I|]. destruct L as (E & L). rewrite E. apply IH; [intros w W; apply Y; right; exact W|exact L].
Qed.
Lemma entries_young : forall B h b l, entries h b l -> B <= b -> (forall y, In y l -> B <= y) -> young B h b.
Proof. intros B h b l (_ & N & _ & _ & _ & F & _ & L) BB Y. split; [exact BB|]. rewrite N, F, Nat2Z.id. apply fresh_linked; assumption. Qed.
Lemma append_content : forall h b x l y, n_type (append_node h b x l y) = n_type (h_node h y) /\ n_content (append_node h b x l y) = n_content (h_node h y).
Proof. intros. unfold append_node. destruct (y =? b); [destruct l; split; reflexivity|]. destruct (y =? x); [destruct l; split; reflexivity|]. destruct l; [split; reflexivity|]. destruct (y =? last (z :: l) 0); split; reflexivity. Qed.
Lemma raw_grow : forall h h' c t, grow h h' -> raw_at h c t -> raw_at h' c t.
Proof. intros h h' c t G ((V & K) & C). destruct G as (T & N). unfold raw_at, kind_is. rewrite (N c V). split; [split; [destruct V; split; lia|exact K]|exact C]. Qed.
Lemma linked_grow : forall h h' l, grow h h' -> (forall c, In c l -> valid h c) -> linked h l -> linked h' l.
Proof.
  intros h h' l (T & N). induction l as [|x l IH]; intros V L; [exact L|]. destruct l as [|y l]; [exact I|]. destruct L as (L1 & L2). split; [rewrite N by (apply V; left; reflexivity); exact L1|]. apply IH; [intros c I; apply V; right; exact I|exact L2].
Qed.
Lemma body_grow : forall h h' b l ts, body_state h b l ts -> grow h h' -> body_state h' b l ts.
Proof.
  intros h h' b l ts ((V & NU & IN & ND & NB & FR & NX & LI) & F & K) G. pose proof G as (T & N). split; [|split; [|rewrite N by exact V; exact K]].
  - split; [destruct V; split; lia|]. rewrite N by exact V. split; [exact NU|]. split; [intros c I; destruct (IN c I) as (VC & PC); split; [destruct VC; split; lia|rewrite N by exact VC; exact PC]|]. split; [exact ND|]. split; [exact NB|]. split; [exact FR|]. split; [exact NX|].
    eapply linked_grow; [exact G| |exact LI]. intros c I. apply IN. exact I.
  - revert F. apply f2_impl. intros c t R. eapply raw_grow; eauto.
Qed.
Lemma body_step : forall fuel h b l ts x t, (0 < fuel)%nat -> body_state h b l ts -> raw_at h x t -> n_parent (h_node h x) = 0 -> x <> b ->
  exists h', body_append fuel h b x = Done h' /\ body_state h' b (l ++ [x]) (ts ++ [t]) /\ h_top h' = h_top h /\
    (forall y, y <> b -> y <> x -> ~ In y l -> h_node h' y = h_node h y).
Proof.
  intros fuel h b l ts x t FU (E & F & K) RW P NB. destruct (append_fresh_spec h b x l E) as (h' & A & T & N & E'); auto; [apply RW|]. exists h'.
  assert (R' : forall y u, raw_at h y u -> raw_at h' y u). { intros y u ((V & KY) & C). unfold raw_at, kind_is. rewrite N. destruct (append_content h b x l y) as (-> & ->). split; [split; [destruct V; split; lia|exact KY]|exact C]. }
  split; [|split; [split; [exact E'|split]|split; [exact T|]]].
  - rewrite body_append_plain; auto; [apply RW|]. destruct RW as ((_ & KX) & _). cbn in KX. destruct KX as [<-|[<-|[<-|[<-|[]]]]]; reflexivity.
  - apply Forall2_app; [|constructor; [apply R'; exact RW|constructor]]. revert F. apply f2_impl. exact R'.
  - rewrite N. destruct (append_content h b x l b) as (-> & _). exact K.
  - intros y Y1 Y2 Y3. rewrite N. unfold append_node. replace (y =? b) with false by lia. replace (y =? x) with false by lia. destruct l as [|a l]; [reflexivity|]. destruct (y =? last (a :: l) 0) eqn:YL; [|reflexivity]. exfalso. apply Y3.
    apply Z.eqb_eq in YL. rewrite YL. destruct (exists_last (l := a :: l)) as (u & v & ->); [discriminate|]. rewrite last_last. apply in_or_app. right. left. reflexivity.
Qed.
Lemma body_block : forall h b l ts, body_state h b l ts -> block_at h b (map Raw ts).
Proof.
  intros h b l ts ((V & NU & IN & ND & NB & FR & NX & LI) & F & K). split; [split; [exact V|rewrite K; left; reflexivity]|]. split; [rewrite NU, map_length; f_equal; clear - F; induction F; cbn; congruence|]. rewrite FR. clear - F LI.
  induction F as [|c t l ts R F IH]; [exact I|]. cbn [map entries_at hd]. split; [left; exact R|]. destruct l as [|d l]; [inversion F; exact I|]. destruct LI as (L1 & L2). rewrite L1. apply IH. exact L2.
Qed.
Section P.
Variable src : list Z.
Variable toks beyond : list token.
Variable ms : macros.
Variable e : env.
Variable fuel : nat.
Hypothesis SRC : Forall (in_source src) toks.
Hypothesis FIT : Forall flags_fit toks.
Hypothesis BYTES : Forall (fun c => 0 <= c < 256) src.
Hypothesis FT : (length toks < fuel)%nat.
Hypothesis FS : (length src < fuel)%nat.
Notation ahead := (ahead toks).
Notation a_currtok := (a_currtok toks beyond).
Notation a_left := (a_left toks).
Notation a_eat := (a_eat src toks beyond ms).
Notation a_check := (a_check toks beyond).

Lemma untyped_new : forall t i sc h, t <> [] -> 0 < h_top h ->
  exists h', on_heap (fun h => untyped_str e h t) (Pst i sc h) = Done (h_top h, Pst i sc h') /\ grow h h' /\ raw_at h' (h_top h) t /\ n_parent (h_node h' (h_top h)) = 0.
Proof.
  intros t i sc h NE TP. set (f := fun n => set_content t (AstModel.set_type CT_Untyped (set_name t n))). exists (fst (make h f)). split; [apply untyped_ok; exact NE|]. split; [apply grow_make|]. rewrite make_node.
  split; [|reflexivity]. split; [split; [split; [lia|rewrite make_top; lia]|rewrite make_node; left; reflexivity]|rewrite make_node; reflexivity].
Qed.
Lemma value_ok : forall n raw P k R sc h, toks = P ++ raw ++ k :: R -> Forall (fun k => t_type k <> Tok_Comma /\ t_type k <> Tok_BraceCurly_Close) raw ->
  t_type k = Tok_Comma \/ t_type k = Tok_BraceCurly_Close -> (length raw <= n)%nat ->
  enum_value src toks beyond ms n (Pst (zlen P) sc h) = Done (tt, Pst (zlen (P ++ raw)) sc h).
Proof.
  induction n as [|n IH]; intros raw P k R sc h E F K L; assert (FK : ~ fmt k) by (tk; lia).
  - destruct raw; [|cbn in L; lia]. cbn [app] in E. cbn [enum_value]. erewrite bind_ok by (eapply cur_here; [exact E|exact FK]). replace ((t_type k =? Tok_Comma) || (t_type k =? Tok_BraceCurly_Close)) with true by lia. rewrite app_nil_r. reflexivity.
  - destruct (raw_split raw) as [G|(g & x & r & -> & G & X)]; cbn [enum_value].
    + erewrite bind_ok by (apply (currtok_ok toks beyond raw P k R); auto). replace ((t_type k =? Tok_Comma) || (t_type k =? Tok_BraceCurly_Close)) with true by lia. reflexivity.
    + rewrite <- app_assoc in E. cbn [app] in E. erewrite bind_ok by (apply (currtok_ok toks beyond g P x (r ++ k :: R)); auto). apply Forall_app in F. destruct F as (_ & F). pose proof (Forall_inv F) as X1. cbv beta in X1. apply Forall_inv_tail in F.
      replace ((t_type x =? Tok_Comma) || (t_type x =? Tok_BraceCurly_Close)) with false by lia. apply at_gap in E. erewrite bind_ok by (eapply eat_ok; [exact E|reflexivity]). apply at_eat in E.
      rewrite (IH r _ k R sc h E F K) by (rewrite app_length in L; cbn in L; lia). rewrite <- !app_assoc. reflexivity.
Qed.
(** the parts of an entry *)
Definition entry_head : M unit :=
  eat src toks beyond ms Tok_Identifier ;;; k <- currtok toks beyond ;;
  (if (t_type k =? Tok_Operator) && (char_of src k 0 =? 61) then eat src toks beyond ms Tok_Operator ;;; enum_value src toks beyond ms fuel else ret tt).
Lemma entry_head_ok : forall k v g c R P sc h, kind Tok_Identifier k -> entry_value src v -> gap g -> t_type c = Tok_Comma \/ t_type c = Tok_BraceCurly_Close ->
  toks = P ++ (k :: v ++ g) ++ c :: R ->
  entry_head (Pst (zlen P) sc h) = Done (tt, Pst (zlen (P ++ k :: v ++ g)) sc h).
Proof.
  intros k v g c R P sc h K V G C E. assert (FC : ~ fmt c) by (tk; lia). unfold entry_head. cbn [app] in E. destruct (a_eat P k _ _ sc h E K) as (_ & C1). erewrite bind_ok by exact C1. apply at_eat in E.
  destruct V as [->|(g0 & eq & more & -> & G0 & KE & CE & F)].
  - cbn [app] in *. erewrite bind_ok by (apply (currtok_ok toks beyond g _ c R); auto). replace ((t_type c =? Tok_Operator) && (char_of src c 0 =? 61)) with false by (tk; lia). rewrite <- app_assoc. reflexivity.
  - rewrite <- !app_assoc in E. cbn [app] in E. unfold kind in KE. assert (FE : ~ fmt eq) by (tk; lia). rewrite !app_assoc in E. rewrite <- !app_assoc in E.
    erewrite bind_ok by (eapply (currtok_ok toks beyond g0 (P ++ [k]) eq); [rewrite E, <- !app_assoc; reflexivity|exact G0|exact FE]). rewrite KE, char0, CE, !Z.eqb_refl. cbn [andb].
    assert (E' : toks = ((P ++ [k]) ++ g0) ++ eq :: (more ++ g) ++ c :: R) by (rewrite E, <- !app_assoc; reflexivity). destruct (a_eat _ eq _ _ sc h E' KE) as (_ & C2). erewrite bind_ok by exact C2. apply at_eat in E'.
    erewrite value_ok; [|exact E'| |exact C|rewrite E' in FT; rewrite !app_length in FT; rewrite !app_length; lia]; [rewrite <- !app_assoc; cbn [app]; rewrite <- ?app_assoc; reflexivity|]. apply Forall_app. split; [exact F|].
    revert G. apply Forall_impl. intros x X. unfold fmt in X. tk. lia.
Qed.
Lemma entry_ok : forall en rest t R P sc h, entry src en rest t -> t <> [] -> toks = P ++ en ++ rest ++ R -> 0 < h_top h ->
  exists h', enum_entry src toks beyond ms e fuel (Pst (zlen P) sc h) = Done (h_top h, Pst (zlen (P ++ en)) sc h') /\ grow h h' /\ raw_at h' (h_top h) t /\ n_parent (h_node h' (h_top h)) = 0.
Proof.
  intros en rest t R P sc h T NE E TP. unfold enum_entry.
  assert (HEAD : forall k v g c R', kind Tok_Identifier k -> entry_value src v -> gap g -> t_type c = Tok_Comma \/ t_type c = Tok_BraceCurly_Close -> toks = P ++ (k :: v ++ g) ++ c :: R' ->
    forall kont : M Z, (eat src toks beyond ms Tok_Identifier ;;; k <- currtok toks beyond ;;
      (if (t_type k =? Tok_Operator) && (char_of src k 0 =? 61) then eat src toks beyond ms Tok_Operator ;;; enum_value src toks beyond ms fuel else ret tt) ;;; kont) (Pst (zlen P) sc h) = kont (Pst (zlen (P ++ k :: v ++ g)) sc h)).
  { intros k v g c R' K V G C E' kont. pose proof (entry_head_ok k v g c R' P sc h K V G C E') as H. unfold entry_head in H.
    transitivity (bind (entry_head) (fun _ => kont) (Pst (zlen P) sc h)); [unfold entry_head; rewrite bind_assoc; unfold bind at 1; unfold bind at 4; destruct (eat _ _ _ _ _ _) as [[a s]| |]; cbn [rbind]; auto; rewrite bind_assoc; reflexivity|]. erewrite bind_ok by exact H. reflexivity. }
  destruct T as [k v g c rest K V G C|k v g c r K V G C]; unfold kind in C, K; assert (FK : ~ fmt k) by (tk; lia); assert (FC : ~ fmt c) by (tk; lia).
  - assert (E1 : toks = P ++ (k :: v ++ g) ++ c :: rest ++ R) by (rewrite E; cbn [app]; rewrite <- !app_assoc; reflexivity). cbn [app] in E1. erewrite bind_ok by (eapply cur_here; [exact E1|exact FK]).
    rewrite (HEAD k v g c (rest ++ R)) by (auto; tk; lia). change (P ++ k :: (v ++ g) ++ c :: rest ++ R) with (P ++ (k :: v ++ g) ++ c :: rest ++ R) in E1. apply at_app in E1. erewrite bind_ok by (eapply cur_here; [exact E1|exact FC]). rewrite C.
    change (Tok_Comma =? Tok_Preprocess_Macro_Expr) with false. rewrite Z.eqb_refl. cbv iota. destruct (a_eat _ c _ _ sc h E1 C) as (_ & C2). erewrite bind_ok by exact C2. apply at_eat in E1. erewrite bind_ok by (eapply prevtok_ok; exact E1).
    change (slice src (t_start k) (end_of c - t_start k)) with (upto src k c). destruct (untyped_new (upto src k c) (zlen ((P ++ k :: v ++ g) ++ [c])) sc h NE TP) as (h1 & U & X). exists h1. split; [rewrite U; do 3 f_equal; cbn [app]; rewrite <- !app_assoc; cbn [app]; rewrite <- ?app_assoc; reflexivity|exact X].
  - assert (E1 : toks = P ++ (k :: v ++ g) ++ c :: r ++ R) by exact E. pose proof E1 as E0. cbn [app] in E1. erewrite bind_ok by (eapply cur_here; [exact E1|exact FK]).
    rewrite (HEAD k v g c (r ++ R)) by (auto; tk; lia). apply at_app in E0. erewrite bind_ok by (eapply cur_here; [exact E0|exact FC]). rewrite C.
    change (Tok_BraceCurly_Close =? Tok_Preprocess_Macro_Expr) with false. change (Tok_BraceCurly_Close =? Tok_Comma) with false. cbv iota. unfold bind at 1. cbn [ret rbind]. erewrite bind_ok by (eapply prevtok_last with (d := k); [exact E0|discriminate]).
    assert (LM : last (k :: v ++ g) k = last (v ++ g) k) by (destruct (v ++ g); reflexivity). rewrite LM. change (slice src (t_start k) (end_of (last (v ++ g) k) - t_start k)) with (upto src k (last (v ++ g) k)).
    destruct (untyped_new (upto src k (last (v ++ g) k)) (zlen (P ++ k :: v ++ g)) sc h NE TP) as (h1 & U & X). exists h1. split; [exact U|exact X].
Qed.
Lemma entry_first : forall en rest t, entry src en rest t -> exists k r, en = k :: r /\ kind Tok_Identifier k.
Proof. intros en rest t [k v g c r K V G C|k v g c r K V G C]; eauto. Qed.
Lemma entries_ok : forall raw rest ts, enum_body src raw rest ts -> forall c R, kind Tok_BraceCurly_Close c -> rest = [c] -> forall n h0 h b l ts0 P sc, toks = P ++ raw ++ rest ++ R -> (length raw <= n)%nat ->
  body_state h b l ts0 -> grow h0 h -> h_top h0 <= b -> (forall y, In y l -> h_top h0 <= y) -> e_invalid e < h_top h0 ->
  exists h' l', enum_entries src toks beyond ms e fuel n b (Pst (zlen P) sc h) = Done (Some tt, Pst (zlen (P ++ raw)) sc h') /\ body_state h' b l' (ts0 ++ ts) /\ grow h0 h' /\ (forall y, In y l' -> h_top h0 <= y).
Proof.
  intros raw rest ts T. induction T as [rest|k r rest ts F NE T IH|en t r rest ts EN NE T IH]; intros c R C ER n h0 h b l ts0 P sc E L B G HB HL HI; pose proof C as C'; unfold kind in C'.
  - subst rest. cbn [app] in E. exists h, l. split; [|rewrite app_nil_r; auto]. destruct n; cbn [enum_entries]; destruct (left_ok toks P c R sc h E) as (lf & L1 & L2); (erewrite bind_ok by exact L1); rewrite L2; (erewrite bind_ok by (eapply noskip_ok; exact E)); rewrite C', Z.eqb_refl, app_nil_r; reflexivity.
  - destruct n as [|n]; [cbn in L; lia|]. cbn [app] in E. cbn [enum_entries]. destruct (left_ok toks P k _ sc h E) as (lf & L1 & L2). erewrite bind_ok by exact L1. rewrite L2. erewrite bind_ok by (eapply noskip_ok; exact E).
    replace (t_type k =? Tok_BraceCurly_Close) with false by (tk; lia). replace (t_type k =? Tok_Preprocess_Hash) with false by (unfold Tok_Preprocess_Hash; tk; lia). unfold bind at 1. cbn [ret rbind]. erewrite bind_ok by (eapply noskip_ok; exact E).
    assert (TP : 0 < h_top h) by (destruct B as (((V & V') & _) & _); lia).
    assert (MEM : exists h1, (if t_type k =? Tok_NewLine then m <- on_heap (fun h => untyped_str e h (text_of src k)) ;; eat src toks beyond ms Tok_NewLine ;;; ret m
             else if t_type k =? Tok_Comment then parse_comment src toks beyond ms
             else if preprocess_kind (t_type k) then unmodelled else enum_entry src toks beyond ms e fuel) (Pst (zlen P) sc h) = Done (h_top h, Pst (zlen (P ++ [k])) sc h1) /\
             grow h h1 /\ raw_at h1 (h_top h) (word src k) /\ n_parent (h_node h1 (h_top h)) = 0).
    { destruct F as [F|F]; rewrite F.
      - change (Tok_NewLine =? Tok_NewLine) with true. cbv iota. rewrite <- word_text. destruct (untyped_new (word src k) (zlen P) sc h NE TP) as (h1 & U & X). exists h1. split; [|exact X]. erewrite bind_ok by exact U. destruct (a_eat P k _ _ sc h1 E F) as (_ & C1). erewrite bind_ok by exact C1. reflexivity.
      - change (Tok_Comment =? Tok_NewLine) with false. change (Tok_Comment =? Tok_Comment) with true. cbv iota. unfold parse_comment, push_scope. unfold bind at 1. cbn [rbind p_idx p_scopes p_heap]. erewrite bind_ok by (eapply noskip_ok; exact E). rewrite <- word_text.
        destruct (any_make (fun n => set_content (word src k) (AstModel.set_type CT_Comment n)) h (zlen P) ((zlen P, "parse_comment"%string) :: sc)) as (h2 & M2 & T2 & N2 & G2). erewrite bind_ok by exact M2. destruct (a_eat _ k _ _ ((zlen P, "parse_comment"%string) :: sc) h2 E F) as (_ & C4). erewrite bind_ok by exact C4.
        exists h2. split; [reflexivity|]. split; [exact G2|]. rewrite N2. split; [|reflexivity]. split; [split; [split; lia|rewrite N2; cbn; auto]|rewrite N2; reflexivity]. }
    destruct MEM as (h1 & M1 & G1 & RW & PA). erewrite bind_ok by exact M1. replace (h_top h =? e_invalid e) with false by (destruct G; lia).
    pose proof (body_grow _ _ _ _ _ B G1) as B1. assert (XB : h_top h <> b) by (destruct B as (((V & V') & _) & _); lia).
    destruct (body_step fuel h1 b l ts0 (h_top h) (word src k) ltac:(lia) B1 RW PA XB) as (h2 & BA & B2 & T2 & N2). unfold bind at 1. unfold edit. cbn [p_heap]. rewrite BA. cbn [rbind with_heap p_idx p_scopes].
    assert (G2 : grow h0 h2). { destruct (grow_trans _ _ _ G G1) as (GT & GN). split; [lia|]. intros y Y. pose proof Y as (Y1 & Y2). rewrite N2; [apply GN; exact Y|lia|destruct G; lia|intros I; specialize (HL _ I); lia]. }
    apply at_eat in E. destruct (IH c R C ER n h0 h2 b (l ++ [h_top h]) (ts0 ++ [word src k]) (P ++ [k]) sc E ltac:(cbn in L; lia) B2 G2 HB) as (h3 & l3 & C3 & B3 & G3 & L3); [|exact HI|].
    { intros y I. apply in_app_or in I. destruct I as [I|[<-|[]]]; auto. destruct G; lia. }
    exists h3, l3. cbn [with_heap p_idx p_scopes]. unfold with_heap. cbn [p_idx p_scopes]. rewrite C3. rewrite <- !app_assoc in *. cbn [app] in *. auto.
  - destruct (entry_first _ _ _ EN) as (k & r0 & EK & K). unfold kind in K. pose proof E as E0. rewrite EK in E0. cbn [app] in E0. rewrite <- app_assoc in E0.
    destruct n as [|n]; [rewrite EK in L; cbn in L; lia|]. cbn [enum_entries]. destruct (left_ok toks P k _ sc h E0) as (lf & L1 & L2). erewrite bind_ok by exact L1. rewrite L2. erewrite bind_ok by (eapply noskip_ok; exact E0).
    replace (t_type k =? Tok_BraceCurly_Close) with false by (tk; lia). replace (t_type k =? Tok_Preprocess_Hash) with false by (unfold Tok_Preprocess_Hash; tk; lia). unfold bind at 1. cbn [ret rbind]. erewrite bind_ok by (eapply noskip_ok; exact E0). rewrite K.
    change (Tok_Identifier =? Tok_NewLine) with false. change (Tok_Identifier =? Tok_Comment) with false. change (preprocess_kind Tok_Identifier) with false. cbv iota.
    assert (TP : 0 < h_top h) by (destruct B as (((V & V') & _) & _); lia). assert (E1 : toks = P ++ en ++ (r ++ rest) ++ R) by (rewrite E, <- !app_assoc; reflexivity).
    destruct (entry_ok en (r ++ rest) t R P sc h EN NE E1 TP) as (h1 & M1 & G1 & RW & PA). erewrite bind_ok by exact M1. replace (h_top h =? e_invalid e) with false by (destruct G; lia).
    pose proof (body_grow _ _ _ _ _ B G1) as B1. assert (XB : h_top h <> b) by (destruct B as (((V & V') & _) & _); lia).
    destruct (body_step fuel h1 b l ts0 (h_top h) t ltac:(lia) B1 RW PA XB) as (h2 & BA & B2 & T2 & N2). unfold bind at 1. unfold edit. cbn [p_heap]. rewrite BA. cbn [rbind with_heap p_idx p_scopes].
    assert (G2 : grow h0 h2). { destruct (grow_trans _ _ _ G G1) as (GT & GN). split; [lia|]. intros y Y. pose proof Y as (Y1 & Y2). rewrite N2; [apply GN; exact Y|lia|destruct G; lia|intros I; specialize (HL _ I); lia]. }
    assert (E2 : toks = (P ++ en) ++ r ++ rest ++ R) by (rewrite E, <- !app_assoc; reflexivity). destruct (IH c R C ER n h0 h2 b (l ++ [h_top h]) (ts0 ++ [t]) (P ++ en) sc E2) as (h3 & l3 & C3 & B3 & G3 & L3); [rewrite EK in L; cbn [app length] in L; rewrite app_length in L; lia|exact B2|exact G2|exact HB| |exact HI|].
    { intros y I. apply in_app_or in I. destruct I as [I|[<-|[]]]; auto. destruct G; lia. }
    exists h3, l3. unfold with_heap. cbn [p_idx p_scopes]. rewrite C3. rewrite <- !app_assoc in *. cbn [app] in *. auto.
Qed.
Definition enum_kind (class : bool) (body : Z) : codetype :=
  if body =? 0 then (if class then CT_Enum_Class_Fwd else CT_Enum_Fwd) else (if class then CT_Enum_Class else CT_Enum).
Definition enum_node (class : bool) (body : Z) (name : list Z) (attributes type cc : Z) : node :=
  set_inline cc (set_ret type (set_params 0 (set_attrs attributes (set_name name (set_body body (AstModel.set_type (enum_kind class body) zero_node)))))).
Lemma grow_new : forall h0 h1 h2 c f, grow h0 h1 -> stepped h1 h2 c f -> h_top h0 <= c -> grow h0 h2.
Proof. intros h0 h1 h2 c f G X L. eapply stepped_grow; eauto. Qed.
Lemma enum_tail : forall (class : bool) body name attributes type fin R cmt Q top sc h, statement_end src fin (R ++ beyond) cmt -> ahead Q (fin ++ R) -> 0 < h_top h ->
  exists Q' c h' cc, toks = Q' ++ R /\
  (inline_cmt <- end_statement src toks beyond ms ;;
   result <- on_heap (fun h => Done (make h (fun n => n))) ;;
   (if body =? 0 then edit (fun h => put h result (AstModel.set_type (if class then CT_Enum_Class_Fwd else CT_Enum_Fwd)))
    else edit (fun h => put h result (fun n => set_body body (AstModel.set_type (if class then CT_Enum_Class else CT_Enum) n)))) ;;;
   edit (fun h => put h result (set_name name)) ;;;
   (if attributes =? 0 then ret tt else edit (fun h => put h result (set_attrs attributes))) ;;;
   edit (fun h => put h result (fun n => set_ret type (set_params 0 n))) ;;;
   (if inline_cmt =? 0 then ret tt else edit (fun h => put h result (set_inline inline_cmt))) ;;;
   parser_pop ;;; ret result) (Pst (zlen Q) (top :: sc) h) = Done (c, Pst (zlen Q') sc h') /\
  grow h h' /\ h_top h <= c /\ valid h' c /\ h_node h' c = enum_node class body name attributes type cc /\ maybe (comment_at h') cc cmt.
Proof.
  intros class body name attributes type fin R cmt Q top sc h SE A TP.
  destruct (end_ok src toks beyond ms fuel FT FS fin R cmt Q (top :: sc) h SE A TP) as (Q1 & cc & h1 & E1 & C1 & G1 & MC & _). erewrite bind_ok by exact C1.
  destruct (any_make (fun n => n) h1 (zlen Q1) (top :: sc)) as (h2 & M2 & T2 & N2 & G2). erewrite bind_ok by exact M2. set (c := h_top h1) in *. assert (V2 : valid h2 c) by (destruct G1; split; unfold c; lia).
  assert (S3 : exists h3, (if body =? 0 then edit (fun h => put h c (AstModel.set_type (if class then CT_Enum_Class_Fwd else CT_Enum_Fwd)))
    else edit (fun h => put h c (fun n => set_body body (AstModel.set_type (if class then CT_Enum_Class else CT_Enum) n)))) (Pst (zlen Q1) (top :: sc) h2) = Done (tt, Pst (zlen Q1) (top :: sc) h3) /\
    h_top h3 = h_top h2 /\ h_node h3 c = set_body body (AstModel.set_type (enum_kind class body) zero_node) /\ forall y, y <> c -> h_node h3 y = h_node h2 y).
  { unfold enum_kind. destruct (body =? 0) eqn:B; [apply Z.eqb_eq in B; subst body; destruct (any_edit c (AstModel.set_type (if class then CT_Enum_Class_Fwd else CT_Enum_Fwd)) h2 (zlen Q1) (top :: sc) V2) as (h3 & M3 & T3 & N3 & O3)
      |destruct (any_edit c (fun n => set_body body (AstModel.set_type (if class then CT_Enum_Class else CT_Enum) n)) h2 (zlen Q1) (top :: sc) V2) as (h3 & M3 & T3 & N3 & O3)];
      exists h3; (split; [exact M3|]); (split; [exact T3|]); (split; [rewrite N3, N2; reflexivity|exact O3]). }
  destruct S3 as (h3 & M3 & T3 & N3 & O3). erewrite bind_ok by exact M3. assert (V3 : valid h3 c) by (destruct V2; split; lia).
  destruct (any_edit c (set_name name) h3 (zlen Q1) (top :: sc) V3) as (h4 & M4 & S4). erewrite bind_ok by exact M4. pose proof (stepped_valid _ _ _ _ _ S4 V3) as V4. pose proof S4 as (T4 & N4 & O4). rewrite N3 in N4.
  destruct (opt_edit c attributes set_attrs h4 (zlen Q1) (top :: sc) V4) as (h5 & M5 & S5); [rewrite N4; reflexivity|]. erewrite bind_ok by exact M5. pose proof (stepped_valid _ _ _ _ _ S5 V4) as V5. pose proof S5 as (T5 & N5 & O5). rewrite N4 in N5.
  destruct (any_edit c (fun n => set_ret type (set_params 0 n)) h5 (zlen Q1) (top :: sc) V5) as (h6 & M6 & S6). erewrite bind_ok by exact M6. pose proof (stepped_valid _ _ _ _ _ S6 V5) as V6. pose proof S6 as (T6 & N6 & O6). rewrite N5 in N6.
  destruct (opt_edit c cc set_inline h6 (zlen Q1) (top :: sc) V6) as (h7 & M7 & S7); [rewrite N6; reflexivity|]. erewrite bind_ok by exact M7. pose proof (stepped_valid _ _ _ _ _ S7 V6) as V7. pose proof S7 as (T7 & N7 & O7). rewrite N6 in N7.
  assert (G17 : grow h1 h7). { split; [lia|]. intros y Y. pose proof Y as (Y1 & Y2). rewrite O7, O6, O5, O4, O3 by (unfold c; lia). apply G2. exact Y. }
  exists Q1, c, h7, cc. split; [exact E1|]. split; [reflexivity|]. split; [eapply grow_trans; eauto|]. split; [destruct G1; unfold c; lia|]. split; [exact V7|]. split; [exact N7|]. revert MC. apply like_maybe. apply like_comment. apply grow_like. exact G17.
Qed.
(** the body *)
Lemma block_ok : forall blk l fin RB cmt R Q sc h, enum_block src blk l -> statement_end src fin RB cmt -> ahead Q (blk ++ fin ++ R) -> world e h ->
  exists Q' b h', ahead Q' (fin ++ R) /\
  (k <- currtok toks beyond ;;
   (if t_type k =? Tok_BraceCurly_Open then
      body <- on_heap (fun h => Done (make h (AstModel.set_type CT_Enum_Body))) ;;
      eat src toks beyond ms Tok_BraceCurly_Open ;;;
      r <- enum_entries src toks beyond ms e fuel fuel body ;;
      match r with None => ret None | Some _ => eat src toks beyond ms Tok_BraceCurly_Close ;;; ret (Some body) end
    else ret (Some 0))) (Pst (zlen Q) sc h) = Done (Some b, Pst (zlen Q') sc h') /\ grow h h' /\
  match l with None => b = 0 | Some ts => h_top h <= b /\ exists nodes, body_state h' b nodes ts /\ (forall y, In y nodes -> h_top h <= y) end.
Proof.
  intros blk l fin RB cmt R Q sc h B SE A W. pose proof (world_top src toks e fuel FT FS h W) as TP. destruct l as [ts|].
  - destruct B as (g & o & body & c & -> & G & O & B & C). rewrite <- app_assoc in A. cbn [app] in A. rewrite <- app_assoc in A. cbn [app] in A. unfold kind in O. assert (FO : ~ fmt o) by (tk; lia).
    destruct (a_currtok _ _ _ _ sc h A G FO) as (Q1 & E1 & C1). erewrite bind_ok by exact C1. rewrite O, Z.eqb_refl. destruct (any_make (AstModel.set_type CT_Enum_Body) h (zlen Q1) sc) as (h2 & M2 & T2 & N2 & G2). erewrite bind_ok by exact M2.
    destruct (a_eat _ o _ _ sc h2 E1 O) as (_ & C2). erewrite bind_ok by exact C2. apply at_eat in E1. change (c :: fin ++ R) with ([c] ++ fin ++ R) in E1.
    assert (BS : body_state h2 (h_top h) [] []). { split; [|split; [constructor|rewrite N2; reflexivity]]. split; [split; lia|]. rewrite N2. split; [reflexivity|]. split; [intros x []|]. split; [constructor|]. split; [intros []|]. split; [reflexivity|]. split; [reflexivity|exact I]. }
    assert (WI : e_invalid e < h_top h) by (destruct W as ((_ & W) & _); lia).
    assert (LB : (length body <= fuel)%nat) by (rewrite E1 in FT; rewrite !app_length in FT; cbn [length] in FT; lia).
    destruct (entries_ok body [c] ts B c (fin ++ R) C eq_refl fuel h h2 (h_top h) [] [] (Q1 ++ [o]) sc E1 LB BS G2 (Z.le_refl _)) as (h3 & l3 & C3 & B3 & G3 & L3); [intros y []|exact WI|]. erewrite bind_ok by exact C3.
    apply at_app in E1. cbn [app] in E1. destruct (a_eat _ c _ _ sc h3 E1 C) as (A4 & C4). erewrite bind_ok by exact C4. exists (((Q1 ++ [o]) ++ body) ++ [c]), (h_top h), h3. split; [exact A4|]. split; [reflexivity|]. split; [exact G3|]. split; [lia|]. exists l3. split; [exact B3|exact L3].
  - cbn in B. subst blk. cbn [app] in A. destruct (stmt_first _ _ _ _ SE) as (g & k & r & EF & G & K). pose proof A as A'. rewrite EF, <- app_assoc in A'. cbn [app] in A'. assert (FK : ~ fmt k) by (tk; lia). destruct (a_currtok _ _ _ _ sc h A' G FK) as (Q1 & E1 & C1). erewrite bind_ok by exact C1. rewrite K.
    change (Tok_Statement_End =? Tok_BraceCurly_Open) with false. exists Q1, 0, h. split; [|split; [reflexivity|split; [apply grow_refl|reflexivity]]]. exists (k :: r ++ R). split; [exact E1|]. rewrite EF, <- app_assoc. symmetry. apply trim_gap. exact G.
Qed.
(** [block_at] for later heaps, and the types *)
Lemma body_later : forall h h' b nodes ts, body_state h b nodes ts -> grow h h' -> body_at h' b (map Raw ts).
Proof. intros h h' b nodes ts B G. left. eapply body_block. eapply body_grow; eauto. Qed.

Lemma underlying_ok : forall und blk l fin RB cmt ty R Q sc h, underlying src und (blk ++ fin) ty -> enum_block src blk l -> statement_end src fin RB cmt -> ahead Q (und ++ blk ++ fin ++ R) -> world e h ->
  exists Q' tyc h' ty', ahead Q' (blk ++ fin ++ R) /\
  (k <- currtok toks beyond ;;
   (if t_type k =? Tok_Assign_Classifer then eat src toks beyond ms Tok_Assign_Classifer ;;; parse_type src toks beyond ms e fuel false
    else if t_type k =? Tok_Preprocess_Macro_Expr then unmodelled else ret 0)) (Pst (zlen Q) sc h) = Done (tyc, Pst (zlen Q') sc h') /\ grow h h' /\ maybe (typ_at h') tyc ty' /\ tyc <> e_invalid e /\
    match ty, ty' with Some y, Some y' => typ_respaced y y' | None, None => True | _, _ => False end.
Proof.
  intros und blk l fin RB cmt ty R Q sc h U B SE A W.
  assert (NX : exists g k r, blk ++ fin ++ R = g ++ k :: r /\ gap g /\ (t_type k = Tok_BraceCurly_Open \/ t_type k = Tok_Statement_End)).
  { destruct l as [ts|].
    - destruct B as (g & o & body & c & -> & G & O & _). exists g, o, (body ++ c :: fin ++ R). split; [rewrite <- !app_assoc; cbn [app]; rewrite <- app_assoc; reflexivity|]. auto.
    - cbn in B. subst blk. destruct (stmt_first _ _ _ _ SE) as (g & k & r & -> & G & K). exists g, k, (r ++ R). split; [rewrite <- app_assoc; reflexivity|]. auto. }
  destruct NX as (g & k & r & EN & G & K). assert (FK : ~ fmt k) by (tk; lia).
  assert (FIK : flags_fit k) by (eapply ahead_fit; [exact FIT|exact A|rewrite EN; apply in_or_app; right; apply in_or_app; right; left; reflexivity|exact FK]).
  destruct ty as [y|].
  - destruct U as (gu & colon & ty_ & -> & GU & KC & TY). rewrite <- app_assoc in A. cbn [app] in A. unfold kind in KC. assert (FC : ~ fmt colon) by (unfold fmt; rewrite KC; intros [X|X]; discriminate X).
    destruct (a_currtok _ _ _ _ sc h A GU FC) as (Q1 & E1 & C1). erewrite bind_ok by exact C1. rewrite KC, Z.eqb_refl. destruct (a_eat _ colon _ _ sc h E1 KC) as (A2 & C2). erewrite bind_ok by exact C2.
    apply (type_more _ _ _ R) in TY. rewrite <- app_assoc in TY.
    assert (NT : next_is (blk ++ fin ++ R) ends_type). { rewrite EN. apply next_app; auto. split; [apply not_spec_flag; auto; tk; lia|]. tk. lia. }
    destruct (type_ok src toks beyond ms e fuel SRC FIT BYTES FT FS false ty_ _ y _ sc h TY A2 NT ltac:(discriminate) W) as (Q3 & tyc & h3 & ty' & A3 & C3 & RS & G3 & TT & TA & _).
    exists Q3, tyc, h3, (Some ty'). split; [exact A3|]. split; [exact C3|]. split; [exact G3|]. split; [exact TA|]. split; [destruct W as ((_ & W) & _); lia|exact RS].
  - cbn in U. subst und. cbn [app] in A. rewrite EN in A. destruct (a_currtok _ _ _ _ sc h A G FK) as (Q1 & E1 & C1). erewrite bind_ok by exact C1.
    replace (t_type k =? Tok_Assign_Classifer) with false by (unfold Tok_Assign_Classifer; tk; lia). replace (t_type k =? Tok_Preprocess_Macro_Expr) with false by (tk; lia).
    exists Q1, 0, h, None. split; [rewrite EN; exists (k :: r); split; [exact E1|symmetry; apply trim_gap; exact G]|]. split; [reflexivity|]. split; [apply grow_refl|]. split; [reflexivity|]. split; [destruct W as ((W & _) & _); lia|exact I].
Qed.

Definition enum_rest (is_class : bool) : M Z :=
  attributes <- parse_attributes src toks beyond ms fuel ;;
  b <- check toks beyond Tok_Identifier ;;
  name <- (if b then k <- currtok toks beyond ;; eat src toks beyond ms Tok_Identifier ;;; ret (text_of src k) else ret []) ;;
  k <- currtok toks beyond ;;
  type <- (if t_type k =? Tok_Assign_Classifer then eat src toks beyond ms Tok_Assign_Classifer ;;; parse_type src toks beyond ms e fuel false
           else if t_type k =? Tok_Preprocess_Macro_Expr then unmodelled else ret 0) ;;
  if type =? e_invalid e then fail src toks beyond e else
  k <- currtok toks beyond ;;
  body <- (if t_type k =? Tok_BraceCurly_Open then
             body <- on_heap (fun h => Done (make h (AstModel.set_type CT_Enum_Body))) ;;
             eat src toks beyond ms Tok_BraceCurly_Open ;;;
             r <- enum_entries src toks beyond ms e fuel fuel body ;;
             match r with None => ret None | Some _ => eat src toks beyond ms Tok_BraceCurly_Close ;;; ret (Some body) end
           else ret (Some 0)) ;;
  match body with None => ret (e_invalid e) | Some body =>
  inline_cmt <- end_statement src toks beyond ms ;;
  result <- on_heap (fun h => Done (make h (fun n => n))) ;;
  (if body =? 0 then edit (fun h => put h result (AstModel.set_type (if is_class then CT_Enum_Class_Fwd else CT_Enum_Fwd)))
   else edit (fun h => put h result (fun n => set_body body (AstModel.set_type (if is_class then CT_Enum_Class else CT_Enum) n)))) ;;;
  edit (fun h => put h result (set_name name)) ;;;
  (if attributes =? 0 then ret tt else edit (fun h => put h result (set_attrs attributes))) ;;;
  edit (fun h => put h result (fun n => set_ret type (set_params 0 n))) ;;;
  (if inline_cmt =? 0 then ret tt else edit (fun h => put h result (set_inline inline_cmt))) ;;;
  parser_pop ;;; ret result
  end.

Lemma enum_ok : forall raw R tr Q sc h, enum_tokens src raw (R ++ beyond) tr -> toks = Q ++ raw ++ R -> world e h ->
  exists Q' c h' tr', toks = Q' ++ R /\ parse_enum src toks beyond ms e fuel (Pst (zlen Q) sc h) = Done (c, Pst (zlen Q') sc h') /\
    tree_respaced tr tr' /\ holds h' c tr' /\ grow h h' /\ h_top h <= c /\ (n_body (h_node h' c) <> 0 -> young (h_top h) h' (n_body (h_node h' c))) /\ n_parent (h_node h' c) = 0.
Proof.
  intros raw R tr Q sc h T E W. pose proof (world_top src toks e fuel FT FS h W) as TP.
  remember (R ++ beyond) as RB eqn:ERB. destruct T as [k class cl att at_ g nm und ty_ blk body fin rest cmt t K CL AT G KN NE U B SE ET]. subst rest.
  set (top := (zlen Q, "parser_parse_enum"%string)).
  cbn [app] in E. rewrite <- !app_assoc in E. cbn [app] in E. rewrite <- !app_assoc in E. set (B1 := und ++ blk ++ fin ++ R) in *. set (B2 := g ++ nm :: B1) in *.
  destruct (a_eat _ k _ _ (top :: sc) h E K) as (A1 & C1). unfold kind in KN. assert (FN : ~ fmt nm) by (tk; lia).
  assert (FITN : flags_fit nm). { eapply ahead_fit; [exact FIT|exact A1| |exact FN]. unfold B2. rewrite !in_app_iff. right. right. right. left. reflexivity. }
  assert (NATT : next_is (att ++ B2) (fun x => t_type x <> Tok_Decl_Class)).
  { destruct at_ as [a|].
    - destruct AT as (ga & ka & k' & r & -> & GA & FA & NIN & _). rewrite <- app_assoc. cbn [app]. apply next_app; [exact GA|intros [Y|Y]; apply NIN; rewrite Y; cbn; auto 10|]. intros X.
      assert (FK : flags_fit ka). { eapply ahead_fit; [exact FIT|exact A1|rewrite !in_app_iff; right; left; right; left; reflexivity|unfold fmt; rewrite X; intros [Y|Y]; discriminate Y]. } destruct FK as [FK|(_ & FK & _)]; [tk; lia|]. specialize (FK FA). rewrite FK in X. discriminate X.
    - cbn in AT. subst att. cbn [app]. unfold B2. apply next_app; auto. tk. lia. }
  assert (CLS : exists Q2, ahead Q2 (att ++ B2) /\ forall (kont : bool -> M Z), (k <- currtok toks beyond ;; (if t_type k =? Tok_Decl_Class then eat src toks beyond ms Tok_Decl_Class else ret true) ;;; kont (t_type k =? Tok_Decl_Class)) (Pst (zlen (Q ++ [k])) (top :: sc) h) = kont class (Pst (zlen Q2) (top :: sc) h)).
  { destruct CL as [(-> & ->)|(-> & gc & c & -> & GC & KC)].
    - cbn [app] in A1. destruct NATT as (ga & x & r & EX & GA & FX & NX). pose proof A1 as A1'. rewrite EX in A1'. destruct (a_currtok _ _ _ _ (top :: sc) h A1' GA FX) as (Q2 & E2 & C2). exists Q2. split; [rewrite EX; exists (x :: r); split; [exact E2|symmetry; apply trim_gap; exact GA]|].
      intros kont. erewrite bind_ok by exact C2. replace (t_type x =? Tok_Decl_Class) with false by lia. reflexivity.
    - rewrite <- app_assoc in A1. cbn [app] in A1. unfold kind in KC. assert (FC : ~ fmt c) by (tk; lia). destruct (a_currtok _ _ _ _ (top :: sc) h A1 GC FC) as (Q2 & E2 & C2). destruct (a_eat _ c _ _ (top :: sc) h E2 KC) as (A3 & C3). exists (Q2 ++ [c]). split; [exact A3|].
      intros kont. erewrite bind_ok by exact C2. rewrite KC, Z.eqb_refl. erewrite bind_ok by exact C3. reflexivity. }
  destruct CLS as (Q2 & A2 & C2). assert (HEAD : parse_enum src toks beyond ms e fuel (Pst (zlen Q) sc h) = enum_rest class (Pst (zlen Q2) (top :: sc) h)).
  { unfold parse_enum, push_scope. unfold bind at 1. cbn [rbind p_idx p_scopes p_heap]. fold top. erewrite bind_ok by exact C1. exact (C2 enum_rest). }
  rewrite HEAD. clear C2 HEAD. unfold enum_rest.
  assert (AT' : attribute_word src att B2 at_). { apply (attribute_more _ _ _ R) in AT. rewrite <- !app_assoc in AT. cbn [app] in AT. rewrite <- !app_assoc in AT. exact AT. }
  destruct (attributes_ok src toks beyond ms fuel SRC BYTES att B2 at_ Q2 (top :: sc) h AT' A2) as (Q3 & ca & h1 & E3 & C3 & G1 & MA & _); [unfold B2; apply next_app; auto; apply not_attr_flag; auto; tk; lia|exact FT|exact FS|exact TP|].
  erewrite bind_ok by exact C3. apply stands_ahead in E3. unfold B2 in E3. destruct (a_check _ _ _ _ Tok_Identifier (top :: sc) h1 E3 G FN) as (Q4 & E4 & C4). erewrite bind_ok by exact C4. rewrite KN, Z.eqb_refl.
  rewrite bind_assoc. erewrite bind_ok by (eapply cur_here; [exact E4|exact FN]). rewrite bind_assoc. destruct (a_eat _ nm _ _ (top :: sc) h1 E4 KN) as (A5 & C5). erewrite bind_ok by exact C5. unfold bind at 1. cbn [ret rbind]. rewrite <- word_text.
  assert (W1 : world e h1) by (eapply world_grow; eauto). unfold B1 in A5.
  destruct (underlying_ok und blk body fin _ cmt ty_ R _ (top :: sc) h1 U B SE A5 W1) as (Q6 & tyc & h2 & ty' & A6 & C6 & G2 & MT & NI & RS). rewrite <- bind_assoc. erewrite bind_ok by exact C6. replace (tyc =? e_invalid e) with false by lia.
  assert (W2 : world e h2) by (eapply world_grow; eauto). destruct (block_ok blk body fin _ cmt R Q6 (top :: sc) h2 B SE A6 W2) as (Q7 & b & h3 & A7 & C7 & G3 & BS). rewrite <- bind_assoc. erewrite bind_ok by exact C7.
  assert (TP3 : 0 < h_top h3) by (destruct G1, G2, G3; lia). destruct (enum_tail class b (word src nm) ca tyc fin R cmt Q7 top sc h3 SE A7 TP3) as (Q8 & c & h4 & cc & E8 & C8 & G4 & TC & VC & NC & MC).
  assert (G14 : grow h1 h4) by (eapply grow_trans; [exact G2|eapply grow_trans; eauto]). assert (G24 : grow h2 h4) by (eapply grow_trans; eauto).
  assert (MA4 : maybe (content_at h4) ca at_) by (revert MA; apply like_maybe; apply like_content; apply grow_like; exact G14).
  assert (MT4 : maybe (typ_at h4) tyc ty') by (revert MT; apply like_maybe; apply like_typ; apply grow_like; exact G24).
  assert (BA : match body with None => b = 0 | Some ts => h_top h2 <= b /\ body_at h4 b (map Raw ts) end). { destruct body as [ts|]; [|exact BS]. destruct BS as (NB & nodes & BS & _). split; [exact NB|]. eapply body_later; eauto. }
  assert (FIN : exists tr', tree_respaced t tr' /\ holds h4 c tr').
  { assert (HOLD : forall tr', enum_tree class at_ (word src nm) ty' body cmt = Some tr' -> holds h4 c tr').
    { intros tr' H. destruct class, body as [ts|]; cbn [enum_tree] in H; try (destruct ty' as [y'|]; [|discriminate H]); injection H as <-; cbn [holds]; rewrite NC; unfold enum_node, enum_kind, kind_is; rewrite NC; unfold enum_node, enum_kind; cbn [n_type n_attrs n_name n_ret n_params n_body n_inline n_parent set_inline set_ret set_params set_attrs set_name set_body AstModel.set_type zero_node].
      all: try (destruct BA as (NB & BA); replace (b =? 0) with false by (destruct G1, G2; lia)). all: try (subst b; cbn [Z.eqb]).
      all: split; [split; [exact VC|left; reflexivity]|]; split; [reflexivity|]; split; [exact MA4|]; split; [split; [reflexivity|exact NE]|]; split; [exact MT4|].
      all: try (split; [reflexivity|]). all: split; [first [exact BA|exact MC]|]; left; reflexivity. }
    destruct ty_ as [y|], ty' as [y'|]; try contradiction.
    - destruct class, body as [ts|]; cbn [enum_tree] in ET; injection ET as <-; eexists; (split; [|apply HOLD; reflexivity]); constructor; exact RS.
    - exists t. split; [apply tr_same|]. apply HOLD. exact ET. }
  destruct FIN as (tr' & TR & H). exists Q8, c, h4, tr'. split; [exact E8|]. split; [exact C8|]. split; [exact TR|]. split; [exact H|]. split; [eapply grow_trans; eauto|]. split; [destruct G1, G2, G3; lia|]. rewrite NC. unfold enum_node. cbn. split; [|reflexivity]. destruct body as [ts|]; [|congruence]. intros _. destruct BS as (NB & nodes & BS & LN). destruct (body_grow _ _ _ _ _ BS G4) as (EN & _). eapply entries_young; [exact EN|destruct G1, G2; lia|]. intros y I. specialize (LN y I). destruct G1, G2. lia.
Qed.
End P.
