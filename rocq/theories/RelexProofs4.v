From Coq Require Import String ZArith List Bool Lia ZifyBool ZifyNat.
From Verif Require Import Common HashModel Text EnumModel EnumSpec EnumProofs LexModel LexSpec AstModel AstSpec SerSpec RelexSpec RelexProofs.
Import ListNotations.
Close Scope string_scope. Open Scope Z_scope.

(** characters before which anything is finished *)
Definition calm (c : Z) : Prop := In c [0; 10; 32; 59; 40; 41; 44; 91; 123; 125].
Lemma calm_facts c : calm c -> ~ word_char c /\ ~ digit c /\ ~ In c (txt "xXbBoO.").
Proof. unfold calm, word_char, digit. cbn. lia. Qed.
Definition seals : list Z := [10; 32; 59; 125; 41; 44].

Lemma sealed_app a b : b <> [] -> sealed (a ++ b) -> sealed b.
Proof.
  intros NB (y & c & E & H). destruct (exists_last NB) as (b' & d & ->). rewrite app_assoc in E. apply app_inj_tail in E. destruct E as [_ ->]. exists b', c. auto.
Qed.
Lemma sealed_self a : sealed a -> In (last a 0) seals.
Proof. intros (y & c & -> & H). rewrite last_last. auto. Qed.
Lemma sym_calm s k no c : In (s, k, no) symbols -> calm c -> ~ In c (txt no).
Proof.
  intros H HC HI. assert (G : forallb (fun '(s, k, no) => negb (existsb (fun c => existsb (Z.eqb c) [0; 10; 32; 59; 40; 41; 44; 91; 123; 125]) (txt no))) symbols = true) by (vm_compute; reflexivity).
  rewrite forallb_forall in G. specialize (G _ H). cbn beta iota in G. apply negb_true_iff in G. rewrite <- not_true_iff_false in G. apply G. apply existsb_exists. exists c. split; auto. apply existsb_exists. exists c. split; auto. apply Z.eqb_refl.
Qed.
Lemma sym_seal s k no : In (s, k, no) symbols -> In (last (txt s) 0) seals -> txt no = [].
Proof.
  intros H HC. assert (G : forallb (fun '(s, k, no) => implb (existsb (Z.eqb (last (txt s) 0)) seals) (match txt no with [] => true | _ => false end)) symbols = true) by (vm_compute; reflexivity).
  rewrite forallb_forall in G. specialize (G _ H). cbn beta iota in G. replace (existsb (Z.eqb (last (txt s) 0)) seals) with true in G.
  - cbn [implb] in G. destruct (txt no); auto. discriminate.
  - symmetry. apply existsb_exists. eexists. split; [exact HC|]. apply Z.eqb_refl.
Qed.
Lemma last_in (a : list Z) : a <> [] -> In (last a 0) a.
Proof. intros N. destruct (exists_last N) as (y & c & ->). rewrite last_last. apply in_or_app. right. left. auto. Qed.

Section W.
Variable ms : macros.
Notation writes := (writes ms).

Lemma hd_app (t r : list Z) : hd 0 (t ++ r) = hd 0 t \/ t = [].
Proof. destruct t; auto. Qed.
Lemma word_kind_app w t t' k : w <> txt "extern" -> word_kind ms w t k -> word_kind ms w t' k.
Proof. intros N [H|[(H & _)|[(H & _)|H]]]; [left; auto|contradiction|contradiction|]. right. right. right. auto. Qed.

Lemma writes_app x l : writes x l -> Forall (fun e => fst e <> txt "extern") l -> forall rest lr,
  calm (hd 0 rest) \/ x = [] \/ sealed x -> writes rest lr -> writes (x ++ rest) (l ++ lr).
Proof.
  intros W. induction W as [|c t l HC H IH|w k t l HW HK NW H IH|s k no t l HS NB H IH|u t l FU N1 N2 H IH|d t l ND FD NX1 NX2 H IH|u t l FU N1 N2 H IH|u t l FU N1 N2 H IH]; intros F rest lr C R.
  - auto.
  - cbn [app]. apply w_blank; auto. apply IH; auto. destruct C as [C|[C|C]]; [auto|discriminate|]. destruct t as [|d t]; auto. right. right. apply (sealed_app [c]); [discriminate|exact C].
  - rewrite <- app_assoc. cbn [app].
    assert (NX : w <> txt "extern") by (apply Forall_inv in F; exact F).
    assert (HX : ~ word_char (hd 0 (t ++ rest))).
    { destruct t as [|d t]; [|exact NW]. cbn [app]. destruct C as [C|[C|C]]; [apply calm_facts in C; tauto|destruct HW as (_ & HW & _); rewrite app_nil_r in C; contradiction|].
      rewrite app_nil_r in C. apply sealed_self in C. destruct HW as (HW & HN & _). rewrite Forall_forall in HW. specialize (HW _ (last_in _ HN)). unfold word_char, seals in *. cbn in C. lia. }
    apply w_word; auto; [eapply word_kind_app; eauto|]. apply IH; auto; [apply Forall_inv_tail in F; auto|]. destruct C as [C|[C|C]]; auto; [right; left; destruct t; auto; destruct w; discriminate|]. destruct t as [|d t]; auto. right. right. eapply sealed_app; [|exact C]. discriminate.
  - rewrite <- app_assoc. cbn [app].
    assert (NS : txt s <> []) by (apply sym_head in HS; destruct HS as (x & y & -> & _); discriminate).
    assert (HX : ~ In (hd 0 (t ++ rest)) (txt no)).
    { destruct t as [|d t]; [|exact NB]. cbn [app]. destruct C as [C|[C|C]]; [eapply sym_calm; eauto|rewrite app_nil_r in C; contradiction|].
      rewrite app_nil_r in C. apply sealed_self in C. rewrite (sym_seal _ _ _ HS C). auto. }
    eapply w_symbol; eauto. apply IH; auto; [apply Forall_inv_tail in F; auto|]. destruct C as [C|[C|C]]; auto; [right; left; destruct t; auto; destruct (txt s); [contradiction|discriminate]|]. destruct t as [|d t]; auto. right. right. eapply sealed_app; [|exact C]. discriminate.
  - rewrite <- !app_assoc. cbn [app]. apply w_comment; auto. apply IH; auto; [apply Forall_inv_tail in F; auto|]. destruct C as [C|[C|C]]; auto; [discriminate|]. destruct t as [|d t]; auto. right. right.
    apply (sealed_app (txt "//" ++ u ++ [10])); [discriminate|]. rewrite <- !app_assoc. exact C.
  - rewrite <- app_assoc. cbn [app].
    assert (HX : ~ digit (hd 0 (t ++ rest)) /\ ~ In (hd 0 (t ++ rest)) (txt "xXbBoO.")).
    { destruct t as [|e t]; [|split; auto]. cbn [app]. destruct C as [C|[C|C]]; [apply calm_facts in C; tauto|rewrite app_nil_r in C; contradiction|].
      rewrite app_nil_r in C. apply sealed_self in C. rewrite Forall_forall in FD. specialize (FD _ (last_in _ ND)). unfold digit, seals in *. cbn in C. lia. }
    apply w_number; try tauto. apply IH; auto; [apply Forall_inv_tail in F; auto|]. destruct C as [C|[C|C]]; auto; [right; left; destruct t; auto; destruct d; [contradiction|discriminate]|]. destruct t as [|e t]; auto. right. right. eapply sealed_app; [|exact C]. discriminate.
  - cbn [app]. rewrite <- app_assoc. cbn [app]. apply w_string; auto. apply IH; auto; [apply Forall_inv_tail in F; auto|]. destruct C as [C|[C|C]]; auto; [discriminate|]. destruct t as [|d t]; auto. right. right.
    apply (sealed_app (34 :: u ++ [34])); [discriminate|]. cbn [app]. rewrite <- app_assoc. exact C.
  - cbn [app]. rewrite <- app_assoc. cbn [app]. apply w_char; auto. apply IH; auto; [apply Forall_inv_tail in F; auto|]. destruct C as [C|[C|C]]; auto; [discriminate|]. destruct t as [|d t]; auto. right. right.
    apply (sealed_app (39 :: u ++ [39])); [discriminate|]. cbn [app]. rewrite <- app_assoc. exact C.
Qed.

(** ** fixed texts *)
Definition wcb (c : Z) : bool := ((97 <=? c) && (c <=? 122)) || ((65 <=? c) && (c <=? 90)) || ((48 <=? c) && (c <=? 57)) || (c =? 95).
Lemma wcb_ok c : wcb c = true <-> word_char c.
Proof. unfold wcb, word_char. lia. Qed.
Definition wordb (w : list Z) : bool := forallb wcb w && (match w with [] => false | c :: _ => negb ((48 <=? c) && (c <=? 57)) end).
Lemma wordb_ok w : wordb w = true -> is_word w.
Proof.
  unfold wordb. intros H. apply andb_true_iff in H. destruct H as [H1 H2]. split; [|split].
  - apply Forall_forall. intros x Hx. rewrite forallb_forall in H1. apply wcb_ok. auto.
  - intros ->. discriminate.
  - destruct w as [|c w]; [discriminate|]. cbn. unfold digit. lia.
Qed.
Definition kwb (s : string) : bool := wordb (txt s) && negb (String.eqb s "extern") && existsb (fun p => String.eqb (snd p) s && (fst p =? snd (tk s))) token_spelling.
Lemma kwb_ok s : kwb s = true -> is_word (txt s) /\ forall t, word_kind ms (txt s) t (snd (tk s)).
Proof.
  unfold kwb. intros H. apply andb_true_iff in H. destruct H as [H H3]. apply andb_true_iff in H. destruct H as [H1 H2]. split; [apply wordb_ok; auto|]. intros t. left.
  apply existsb_exists in H3. destruct H3 as ((k & s') & HI & H3). apply andb_true_iff in H3. cbn [fst snd] in H3. destruct H3 as [H3 H4]. apply String.eqb_eq in H3. apply Z.eqb_eq in H4. subst. exists s. split; auto. split; auto. intros ->. discriminate.
Qed.
Lemma kw_app s rest lr : kwb s = true -> ~ word_char (hd 0 rest) -> writes rest lr -> writes (txt s ++ rest) (tk s :: lr).
Proof. intros K N R. destruct (kwb_ok s K) as [HW HK]. replace (tk s) with (txt s, snd (tk s)) by reflexivity. apply w_word; auto. Qed.
Lemma kw_sp s rest lr : kwb s = true -> writes rest lr -> writes ((txt s ++ [32]) ++ rest) (tk s :: lr).
Proof. intros K R. rewrite <- app_assoc. apply kw_app; auto; [cbn; unfold word_char; lia|]. apply w_blank; auto. Qed.
Definition symb (s : string) (c : Z) : bool := existsb (fun '(x, k, no) => String.eqb x s && (k =? snd (tk s)) && negb (existsb (Z.eqb c) (txt no))) symbols.
Lemma sym_app s rest lr : symb s (hd 0 rest) = true -> writes rest lr -> writes (txt s ++ rest) (tk s :: lr).
Proof.
  intros H R. apply existsb_exists in H. destruct H as (((x & k) & no) & HI & H). apply andb_true_iff in H. destruct H as [H H3]. apply andb_true_iff in H. destruct H as [H1 H2]. apply String.eqb_eq in H1. apply Z.eqb_eq in H2. subst.
  replace (tk s) with (txt s, snd (tk s)) by reflexivity. eapply w_symbol; eauto. intros Q. apply negb_true_iff in H3. rewrite <- not_true_iff_false in H3. apply H3. apply existsb_exists. eexists. split; [exact Q|apply Z.eqb_refl].
Qed.
(** a symbol that nothing continues *)
Definition symf (s : string) : bool := existsb (fun '(x, k, no) => String.eqb x s && (k =? snd (tk s)) && String.eqb no "") symbols.
Lemma sym_any s rest lr : symf s = true -> writes rest lr -> writes (txt s ++ rest) (tk s :: lr).
Proof.
  intros H R. apply existsb_exists in H. destruct H as (((x & k) & no) & HI & H). apply andb_true_iff in H. destruct H as [H H3]. apply andb_true_iff in H. destruct H as [H1 H2]. apply String.eqb_eq in H1. apply Z.eqb_eq in H2. apply String.eqb_eq in H3. subst.
  replace (tk s) with (txt s, snd (tk s)) by reflexivity. eapply w_symbol; eauto.
Qed.
Lemma sym_pre s rest lr : symf s = true -> writes rest lr -> writes (([32] ++ txt s) ++ rest) (tk s :: lr).
Proof. intros H R. cbn [app]. apply w_blank; auto. apply sym_any; auto. Qed.
Lemma sym_sp s rest lr : symb s 32 = true -> writes rest lr -> writes ((txt s ++ [32]) ++ rest) (tk s :: lr).
Proof. intros H R. rewrite <- app_assoc. apply sym_app; auto. apply w_blank; auto. Qed.
Lemma sp_sym_sp s rest lr : symb s 32 = true -> writes rest lr -> writes (([32] ++ txt s ++ [32]) ++ rest) (tk s :: lr).
Proof. intros H R. rewrite <- !app_assoc. apply w_blank; auto. apply sym_app; auto. apply w_blank; auto. Qed.
Lemma nl_app rest lr : writes rest lr -> writes (NL ++ rest) lr.
Proof. apply w_blank. auto. Qed.
Lemma sp_app rest lr : writes rest lr -> writes (txt " " ++ rest) lr.
Proof. apply w_blank. auto. Qed.
Lemma spsp_app rest lr : writes rest lr -> writes (txt "  " ++ rest) lr.
Proof. intros H. apply (w_blank ms 32); auto. apply (w_blank ms 32); auto. Qed.
Lemma writes_nil l : writes [] l -> l = [].
Proof.
  intros H. remember [] as e eqn:E. destruct H; try discriminate; auto.
  - destruct H as (_ & H & _). destruct w; [contradiction|discriminate].
  - apply sym_head in H. destruct H as (c & u & EQ & _). rewrite EQ in E. discriminate.
  - destruct d; [contradiction|discriminate].
Qed.
End W.
