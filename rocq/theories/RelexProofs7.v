(** A checker for [writes] on closed texts of words, numbers and symbols, used for the witnesses of C48. *)
From Coq Require Import String ZArith List Bool Lia ZifyBool ZifyNat.
From Verif Require Import Common HashModel Text EnumModel EnumSpec LexModel LexSpec SerSpec RelexSpec RelexProofs RelexProofs4.
Import ListNotations.
Close Scope string_scope. Open Scope Z_scope.

Fixpoint leq (a b : list Z) : bool := match a, b with [], [] => true | x :: a, y :: b => (x =? y) && leq a b | _, _ => false end.
Lemma leq_ok : forall a b, leq a b = true -> a = b.
Proof. induction a as [|x a IH]; intros [|y b] H; cbn in H; try discriminate; auto. apply andb_true_iff in H. destruct H as [H1 H2]. f_equal; [lia|auto]. Qed.
Fixpoint after (x t : list Z) : option (list Z) := match x, t with [], _ => Some t | c :: x, d :: t => if c =? d then after x t else None | _ :: _, [] => None end.
Lemma after_ok : forall x t r, after x t = Some r -> t = x ++ r.
Proof. induction x as [|c x IH]; intros t r H; cbn in H; [injection H as <-; auto|]. destruct t as [|d t]; [discriminate|]. destruct (c =? d) eqn:E; [|discriminate]. cbn. f_equal; [lia|auto]. Qed.
Definition name_ok (ms : macros) (w : list Z) : bool := forallb (fun kw => negb (crc32 kw =? crc32 w)) toktype_table && match lookup_macro ms w with None => true | _ => false end.
Definition lexeme_ok (ms : macros) (w : list Z) (k : Z) (c : Z) : bool :=
  (wordb w && negb (wcb c) && (existsb (fun p => (fst p =? k) && leq w (txt (snd p)) && negb (String.eqb (snd p) "extern")) token_spelling || ((k =? Tok_Identifier) && name_ok ms w)))
  || existsb (fun '(s, k', no) => leq w (txt s) && (k =? k') && negb (existsb (Z.eqb c) (txt no))) symbols
  || ((k =? Tok_Number) && negb (leq w []) && forallb (fun c => (48 <=? c) && (c <=? 57)) w && negb ((48 <=? c) && (c <=? 57)) && negb (existsb (Z.eqb c) (txt "xXbBoO."))).
Fixpoint check (n : nat) (ms : macros) (t : list Z) (l : list lexeme) : bool :=
  match n with O => false | S n =>
  match t with
  | [] => match l with [] => true | _ => false end
  | c :: r => if (c =? 32) || (c =? 10) then check n ms r l else
      match l with [] => false | (w, k) :: l => match after w t with None => false | Some r => lexeme_ok ms w k (hd 0 r) && check n ms r l end end
  end end.
Lemma lexeme_ok_writes ms w k r l : lexeme_ok ms w k (hd 0 r) = true -> writes ms r l -> writes ms (w ++ r) ((w, k) :: l).
Proof.
  unfold lexeme_ok. intros H R. apply orb_true_iff in H. destruct H as [H|H]; [apply orb_true_iff in H; destruct H as [H|H]|].
  - apply andb_true_iff in H. destruct H as [H H2]. apply andb_true_iff in H. destruct H as [H H1]. apply w_word; auto; [apply wordb_ok; auto| |].
    + apply orb_true_iff in H2. destruct H2 as [H2|H2].
      * left. apply existsb_exists in H2. destruct H2 as ((k', s) & I & E). cbn [fst snd] in E. apply andb_true_iff in E. destruct E as [E E3]. apply andb_true_iff in E. destruct E as [E1 E2].
        exists s. apply leq_ok in E2. assert (k' = k) by lia. subst k'. split; auto. split; auto. intros ->. discriminate E3.
      * right. right. right. apply andb_true_iff in H2. destruct H2 as [H2 H3]. unfold name_ok in H3. apply andb_true_iff in H3. destruct H3 as [H3 H4]. split; [|lia]. split; [apply wordb_ok; auto|]. split.
        -- intros kw I. rewrite forallb_forall in H3. specialize (H3 kw I). lia.
        -- destruct (lookup_macro ms w); [discriminate|auto].
    + unfold wcb in H1. unfold word_char. lia.
  - apply existsb_exists in H. destruct H as (((s, k'), no) & I & E). apply andb_true_iff in E. destruct E as [E E3]. apply andb_true_iff in E. destruct E as [E1 E2]. apply leq_ok in E1. subst w. assert (k' = k) by lia. subst k'.
    eapply w_symbol; eauto. intros IN. assert (X : existsb (Z.eqb (hd 0 r)) (txt no) = true) by (apply existsb_exists; exists (hd 0 r); split; auto; apply Z.eqb_refl). rewrite X in E3. discriminate.
  - apply andb_true_iff in H. destruct H as [H H5]. apply andb_true_iff in H. destruct H as [H H4]. apply andb_true_iff in H. destruct H as [H H3]. apply andb_true_iff in H. destruct H as [H1 H2].
    assert (k = Tok_Number) by lia. subst k. apply w_number; auto.
    + intros ->. discriminate.
    + apply Forall_forall. intros c I. rewrite forallb_forall in H3. specialize (H3 c I). unfold digit. lia.
    + unfold digit. lia.
    + intros IN. assert (X : existsb (Z.eqb (hd 0 r)) (txt "xXbBoO.") = true) by (apply existsb_exists; exists (hd 0 r); split; auto; apply Z.eqb_refl). rewrite X in H5. discriminate.
Qed.
Lemma check_ok ms : forall n t l, check n ms t l = true -> writes ms t l.
Proof.
  induction n as [|n IH]; intros t l H; [discriminate|]. cbn [check] in H. destruct t as [|c r].
  - destruct l; [constructor|discriminate].
  - destruct ((c =? 32) || (c =? 10)) eqn:E; [apply w_blank; auto; lia|]. destruct l as [|[w k] l]; [discriminate|]. destruct (after w (c :: r)) as [u|] eqn:A; [|discriminate]. apply after_ok in A. rewrite A.
    apply andb_true_iff in H. destruct H as [H1 H2]. apply lexeme_ok_writes; auto.
Qed.
