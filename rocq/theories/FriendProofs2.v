(** Specifiers that may not stand in front of a friend. *)
From Coq Require Import String ZArith List Bool Lia ZifyBool ZifyNat.
From Verif Require Import Common Text HashModel StrOpsModel EnumModel EnumSpec EnumProofs LexModel LexSpec NavModel StripModel StripSpec StripProofs AstModel AstSpec AstProofs AstProofs4 UpfrontModel UpfrontSpec SerModel SerSpec SerProofs SerProofs2 ParseModel ParseSpec
  ParseProofs ParseProofs2 ParseProofs3 ParseProofs4 ParseProofs5 ParseProofs7 ParseProofs8 ParseProofs9 ParseProofs10 ParseProofs11 FnModel FnSpec FnProofs FnProofs2 FnProofs3 FnProofs4 FriendModel FriendSpec FriendProofs.
Import ListNotations.
Close Scope string_scope.
Open Scope Z_scope.
Open Scope parse_scope.


Section P.
Variable src : list Z.
Variable toks beyond : list token.
Variable ms : macros.
Variable e : env.
Variable varadic : Z.
Variable fuel : nat.
Hypothesis FIT : Forall flags_fit toks.
Hypothesis FT : (length toks < fuel)%nat.
Notation ahead := (ahead toks).
Lemma specs_refused : forall raw sp n Q g b s R allowed stop found sc h, spec_tokens src raw sp -> ahead Q (raw ++ g ++ b :: R) -> gap g -> spelled src b s -> allowed s = false ->
  Forall (fun s => allowed s = true /\ stop s = false) sp -> zlen (found ++ sp) <= 16 -> (length sp <= n)%nat ->
  exists Q', toks = Q' ++ b :: R /\ specs_loop src toks beyond ms n allowed stop found (Pst (zlen Q) sc h) = Done (None, Pst (zlen Q') sc h).
Proof.
  intros raw sp n Q g b s R allowed stop found sc h T. revert n Q found. induction T as [|g1 k s1 r l G1 K1 T IH]; intros n Q found A G K NA AL C L.
  - cbn [app] in A. destruct K as (SK & t & I & W). pose proof (spec_sig b SK) as KF. destruct n; cbn [specs_loop];
    destruct (a_left toks Q g b _ sc h A G KF) as (lf & E1 & E2); erewrite bind_ok by exact E1; rewrite E2;
    destruct (a_currtok toks beyond Q g b _ sc h A G KF) as (Q' & E3 & E4); erewrite bind_ok by exact E4; pose proof (spec_flagged toks FIT _ _ _ E3 SK) as FL; apply spec_flag in FL; rewrite FL; cbn [negb];
    rewrite <- word_text, W; destruct (p22_spec _ _ I) as (_ & ->); rewrite NA; exists Q'; split; [exact E3|reflexivity|exact E3|reflexivity].
  - destruct n as [|n]; [cbn in L; lia|]. destruct K1 as (SK & t & I & W). rewrite <- app_assoc in A. cbn [app] in A. pose proof (spec_sig k SK) as KF.
    cbn [specs_loop]. destruct (a_left toks Q g1 k _ sc h A G1 KF) as (lf & E1 & E2). erewrite bind_ok by exact E1. rewrite E2.
    destruct (a_currtok toks beyond Q g1 k _ sc h A G1 KF) as (Q' & E3 & E4). erewrite bind_ok by exact E4. pose proof (spec_flagged toks FIT _ _ _ E3 SK) as FL. apply spec_flag in FL. rewrite FL. cbn [negb].
    rewrite <- word_text, W. destruct (p22_spec _ _ I) as (_ & ->). destruct (Forall_inv AL) as (-> & ->). cbn [negb].
    assert (C' : zlen found + 1 + zlen l <= 16) by (revert C; unfold zlen; rewrite app_length; cbn [length]; lia). assert (0 <= zlen l) by (unfold zlen; lia). destruct (zlen found >=? 16) eqn:Z16; [lia|].
    destruct (a_eat src toks beyond ms Q' k _ (t_type k) sc h E3 eq_refl) as (A' & E5). erewrite bind_ok by exact E5.
    apply IH; auto; [exact (Forall_inv_tail AL)|unfold zlen in *; rewrite !app_length; cbn [length]; lia|cbn in L; lia].
Qed.
Lemma friend_refused : forall kf pre sp g b s r h c st, toks = kf :: pre ++ g ++ b :: r -> kind Tok_Decl_Friend kf -> spec_tokens src pre sp -> Forall (fun s => In s friend_specifiers) sp ->
  Z.of_nat (length sp) <= SPECS_CAP -> gap g -> spelled src b s -> friend_specifier s = false ->
  parse_friend src toks beyond ms e varadic fuel (Pst 0 [] h) = Done (c, st) -> c = e_invalid e /\ p_heap st = h.
Proof.
  intros kf pre sp g b s r h c st E KF SP VS CAP G SB NS X. unfold kind in KF. unfold parse_friend, push_scope in X. unfold bind at 1 in X. cbn [rbind p_idx p_scopes p_heap] in X.
  set (sc' := [(0, "parser_parse_friend"%string)]) in *. assert (E0 : toks = [] ++ kf :: pre ++ g ++ b :: r) by exact E.
  destruct (a_eat src toks beyond ms [] kf _ Tok_Decl_Friend sc' h E0 KF) as (A & C1). change (zlen (@nil token)) with 0 in C1. erewrite bind_ok in X by exact C1.
  assert (LP : (length sp <= fuel)%nat) by (pose proof (spec_sig_len src _ _ SP); pose proof (ahead_sig_len _ _ _ _ A); lia).
  destruct (specs_refused pre sp fuel _ g b s r friend_specifier (fun s => s =? Spec_Const) [] sc' h SP A G SB NS) as (Q' & E1 & C2); [apply friend_specs; exact VS|cbn [app]; change SPECS_CAP with 14 in CAP; unfold zlen; lia|exact LP|].
  erewrite bind_ok in X by exact C2. assert (KB : ~ fmt b) by (apply spec_sig; destruct SB; assumption).
  unfold fail in X. unfold bind at 1 in X. assert (R : report src toks beyond (Pst (zlen Q') sc' h) = Done (tt, Pst (zlen Q') sc' h) \/ report src toks beyond (Pst (zlen Q') sc' h) = Undefined).
  { unfold report, sc'. cbn [p_scopes p_idx]. set (TA := tok_at toks beyond 0). destruct TA as [k0| |] eqn:T0; cbn [rbind]; [|auto|unfold TA, tok_at in T0; repeat match type of T0 with (if ?c then _ else _) = _ => destruct c | match ?c with _ => _ end = _ => destruct c end; discriminate].
    assert (N : (zlen Q' >=? num toks) = false) by (change (num toks) with (zlen toks); unfold zlen; rewrite E1, app_length; cbn [length]; lia). rewrite N. fold sc'.
    rewrite (currtok_ok toks beyond [] Q' b r sc' h E1 (Forall_nil _) KB), app_nil_r. cbn [rbind]. destruct (_ <=? _); auto. }
  destruct R as [R|R]; rewrite R in X; [|discriminate]. cbn [rbind] in X. unfold parser_pop, bind, ret, sc' in X. cbn [p_scopes rbind p_idx p_heap] in X. injection X as <- <-. split; reflexivity.
Qed.
End P.
Section Text_.
Variables (text : list Z) (toks beyond : list token) (ms ms' : macros) (e : env) (varadic : Z) (fuel : nat) (h : heap).
Hypothesis B : Forall (fun c => 0 <= c < 256) text.
Hypothesis NR : ~ runs_off text.
Hypothesis MF : Forall macro_fits ms.
Hypothesis L : lex text fuel ms = Done (Some (toks, ms')).
Hypothesis F : Z.of_nat (length text) + 2 <= Z.of_nat fuel.
Hypothesis FT : (length toks < fuel)%nat.
Lemma refused_text : forall kf pre sp g b s r h' c, toks = kf :: pre ++ g ++ b :: r -> kind Tok_Decl_Friend kf -> spec_tokens text pre sp -> Forall (fun s => In s friend_specifiers) sp ->
  Z.of_nat (length sp) <= SPECS_CAP -> gap g -> spelled text b s -> friend_specifier s = false ->
  parse_text (fun src toks beyond ms e fuel => parse_friend src toks beyond ms e varadic fuel) text beyond ms e fuel h = Done (h', c) -> c = e_invalid e /\ h' = h.
Proof.
  intros kf pre sp g b s r h' c E KF SP VS CAP G SB NS X. destruct (text_facts text toks ms ms' fuel B NR MF L F) as (T1 & T2 & _ & NE). unfold parse_text in X. destruct text as [|a t] eqn:T; [congruence|]. rewrite L in X. cbn [rbind] in X. rewrite <- T in *.
  destruct (parse_friend text toks beyond ms' e varadic fuel (Pst 0 [] h)) as [[c0 s0]| |] eqn:Y; cbn [rbind] in X; [|discriminate|discriminate]. injection X as <- <-.
  exact (friend_refused text toks beyond ms' e varadic fuel T2 FT kf pre sp g b s r h c0 s0 E KF SP VS CAP G SB NS Y).
Qed.
End Text_.
