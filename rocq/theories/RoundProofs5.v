(** The end of a declaration, using, typedef and variables. *)
From Coq Require Import String ZArith List Bool Lia ZifyBool ZifyNat.
From Verif Require Import Common HashModel Text EnumModel EnumSpec LexModel LexSpec StripSpec AstModel AstSpec SerSpec RelexSpec RelexProofs RelexProofs2 RelexProofs3 RelexProofs4 RelexProofs5
  ParseSpec RoundSpec RoundProofs RoundProofs2 RoundProofs3 RoundProofs4.
Import ListNotations.
Close Scope string_scope.
Open Scope Z_scope.

(** ** texts on one line *)
Definition flat (x : list Z) : Prop := ~ In 10 x.
Lemma flat_nil : flat []. Proof. exact (fun h => h). Qed.
Lemma flat_app a b : flat a -> flat b -> flat (a ++ b).
Proof. unfold flat. rewrite in_app_iff. tauto. Qed.
Lemma flat_txt s : existsb (Z.eqb 10) (txt s) = false -> flat (txt s).
Proof. intros E HI. assert (existsb (Z.eqb 10) (txt s) = true) by (apply existsb_exists; exists 10; auto). congruence. Qed.
Lemma flat_last p x : flat p -> x <> [] -> last (x ++ p) 10 = 10 -> p = [] .
Proof. intros F NX E. destruct p as [|c p] using rev_ind; auto. rewrite app_assoc, last_last in E. subst c. exfalso. apply F. rewrite in_app_iff. right. left. auto. Qed.
Lemma last_last_app (a b : list Z) d : b <> [] -> last (a ++ b) d = last b d.
Proof. intros NE. destruct b as [|c b] using rev_ind; [contradiction|]. rewrite app_assoc, !last_last. auto. Qed.
Lemma flat_solid p : flat p -> p <> [] -> last p 10 <> 10.
Proof. intros F NE E. destruct p as [|c p] using rev_ind; [contradiction|]. rewrite last_last in E. subst c. apply F. rewrite in_app_iff. right. left. auto. Qed.
Ltac flats := repeat first [assumption | apply flat_nil | apply flat_app | (apply flat_txt; reflexivity)].

Section P.
Variable src : list Z.
Variable ms : macros.
Notation spells := (spells src).
Notation lx := (lexed_as ms).
Notation at_ := (at_ src).
Notation at_m := (at_m src).
Definition behind (cmt : option (list Z)) : mode := match cmt with Some _ => Fresh | None => Behind end.

Lemma flat_name w : is_name ms w -> flat w.
Proof. intros N HI. apply (name_flat ms w 10 N) in HI. unfold word_char in HI. lia. Qed.
Lemma flat_spec s : In s all_specs -> flat (spec_text s).
Proof. intros HI HT. assert (G : forallb (fun s => negb (existsb (Z.eqb 10) (spec_text s))) all_specs = true) by (vm_compute; reflexivity). rewrite forallb_forall in G. specialize (G s HI). assert (existsb (Z.eqb 10) (spec_text s) = true) by (apply existsb_exists; exists 10; auto). rewrite H in G. discriminate. Qed.
Lemma flat_more l : Forall (fun s => In s all_specs) l -> flat (more_specs l).
Proof. induction 1 as [|s l HI _ IH]; cbn [more_specs]; flats. - destruct (symbol s); cbn [negb when]; flats. - apply flat_spec; auto. Qed.
Lemma flat_specs l : Forall (fun s => In s all_specs) l -> flat (specs_text l).
Proof. intros F. destruct F as [|s l HI F]; cbn [specs_text]; flats; [apply flat_spec; auto|apply flat_more; auto]. Qed.
Lemma all_in (all l : list Z) : (forall s, In s all -> In s all_specs) -> specs_in all l -> Forall (fun s => In s all_specs) l.
Proof. intros S (_ & F & _). eapply Forall_impl; [|exact F]. auto. Qed.
Lemma type_specs_in s : In s type_specs -> In s all_specs. Proof. unfold all_specs. rewrite in_app_iff. auto. Qed.
Lemma var_specs_in s : In s variable_specifiers -> In s all_specs. Proof. unfold all_specs. rewrite in_app_iff. auto. Qed.
Lemma flat_typ ty : plain_typ ms ty -> flat (typ_text ty).
Proof.
  intros (EA & EP & (l & ((_ & _ & N10 & _) & _) & _) & SP). unfold typ_text. rewrite EA, EP. cbn [with_ when app]. flats.
  - destruct (ty_tag ty); flats.
  - destruct (ty_specs ty) as [sl|]; cbn [with_]; flats. apply flat_specs. eapply all_in; [exact type_specs_in|exact SP].
Qed.
Lemma flat_sizes ss : Forall (size_text ms) ss -> flat (sizes_text ss).
Proof. unfold sizes_text. induction 1 as [|x ss (l & ((_ & _ & N10 & _) & _) & _) _ IH]; cbn [map concat]; flats. Qed.

(** ** the end *)
Definition first_ok (l : list lexeme) : Prop := exists e r, l = e :: r /\ snd e <> Tok_Comment.
Lemma lined_front p t toks l : lined p t toks l -> first_ok l -> exists n r, toks = n :: r /\ t_type n <> Tok_Comment.
Proof.
  induction 1 as [p|p c t toks l B _ IH|p t tk toks l E K _ _|p w k q t tk toks l SW K T C _ _]; intros (e & r & EL & NC).
  - discriminate.
  - apply IH. exists e, r. auto.
  - exists tk, toks. split; auto. rewrite K. discriminate.
  - exists tk, toks. split; auto. injection EL as <- _. destruct T as (_ & _ & T & _). cbn [snd] in NC. congruence.
Qed.
(** [p] has reached a mark on its last line *)
Definition online (p : list Z) : Prop := exists a c y, p = a ++ c :: y /\ ~ spacep c /\ c <> 35 /\ flat y.
Lemma online_app p x : online p -> flat x -> online (p ++ x).
Proof. intros (a & c & y & -> & N1 & N2 & F) FX. exists a, c, (y ++ x). split; [rewrite <- app_assoc; auto|]. split; auto. split; auto. apply flat_app; auto. Qed.
Lemma online_name p w : is_name ms w -> online (p ++ w).
Proof.
  intros N. destruct (name_head ms w N) as (c & u & E & W). pose proof (flat_name w N) as F. rewrite E in *. exists p, c, u. split; auto. unfold word_char in W. split; [unfold spacep; cbn; lia|]. split; [lia|]. intros HI. apply F. right. auto.
Qed.
Lemma online_solid p : online p -> last p 10 <> 10.
Proof.
  intros (a & c & y & -> & N1 & _ & F). rewrite last_last_app by discriminate. destruct y as [|d y] using rev_ind; [cbn; intros ->; apply N1; cbn; auto|]. rewrite app_comm_cons, last_last. intros ->. apply F. rewrite in_app_iff. right. left. auto.
Qed.
Lemma line_count q line col : at_line_col src q line col -> line = 1 + Z.of_nat (count_occ Z.eq_dec (firstn (Z.to_nat q) src) 10).
Proof.
  intros (b & c & E & _ & N & L & _). rewrite E, count_occ_app. rewrite (proj1 (count_occ_not_In Z.eq_dec c 10) N). lia.
Qed.
Lemma one_line k k' p x t : online p -> src = p ++ x ++ t -> flat x -> positioned src k -> positioned src k' ->
  zlen p <= t_start k <= zlen (p ++ x) -> zlen p <= t_start k' <= zlen (p ++ x) -> t_line k = t_line k'.
Proof.
  intros (a & c & y & -> & N1 & N2 & F) E FX P1 P2.
  assert (G : forall k, positioned src k -> zlen (a ++ c :: y) <= t_start k <= zlen ((a ++ c :: y) ++ x) -> t_line k = 1 + Z.of_nat (count_occ Z.eq_dec (a ++ [c]) 10)).
  { clear k k' P1 P2. intros k (q & Q & AL & BW & _) B. rewrite (line_count _ _ _ AL). f_equal. f_equal. unfold zlen in *. rewrite !app_length in *. cbn [List.length] in *.
    assert (GT : Z.of_nat (List.length a) < q).
    { destruct (Z_lt_le_dec (Z.of_nat (List.length a)) q) as [|LE]; auto. exfalso. destruct (BW (Z.of_nat (List.length a))) as [X|X]; [lia| |].
      - unfold byte_at in X. rewrite E in X. rewrite <- !app_assoc in X. rewrite app_nth2 in X by lia. replace (Z.to_nat (Z.of_nat (List.length a)) - List.length a)%nat with 0%nat in X by lia. cbn in X. apply N1. exact X.
      - unfold byte_at in X. rewrite E in X. rewrite <- !app_assoc in X. rewrite app_nth2 in X by lia. replace (Z.to_nat (Z.of_nat (List.length a)) - List.length a)%nat with 0%nat in X by lia. cbn in X. auto. }
    replace (firstn (Z.to_nat q) src) with ((a ++ [c]) ++ firstn (Z.to_nat q - List.length (a ++ [c])) (y ++ x ++ t)).
    - rewrite count_occ_app. rewrite (proj1 (count_occ_not_In Z.eq_dec (firstn _ (y ++ x ++ t)) 10)); [lia|]. intros HI.
      assert (LE : (Z.to_nat q - List.length (a ++ [c]) <= List.length (y ++ x))%nat) by (rewrite !app_length; cbn [List.length]; lia).
      rewrite app_assoc, firstn_app in HI. replace (_ - List.length (y ++ x))%nat with 0%nat in HI by lia. cbn [firstn] in HI. rewrite app_nil_r in HI. assert (HI2 : In 10 (y ++ x)) by (rewrite <- (firstn_skipn (Z.to_nat q - List.length (a ++ [c])) (y ++ x)), in_app_iff; auto). revert HI2. apply flat_app; auto.
    - rewrite E. replace ((a ++ c :: y) ++ x ++ t) with ((a ++ [c]) ++ y ++ x ++ t) by (rewrite <- !app_assoc; reflexivity). rewrite (firstn_app (Z.to_nat q) (a ++ [c])). rewrite (firstn_all2 (n := Z.to_nat q) (a ++ [c])) by (rewrite app_length; cbn [List.length]; lia). reflexivity. }
  intros B1 B2. rewrite (G k P1 B1), (G k' P2 B2). auto.
Qed.
Lemma comment_writes c : line_comment_text c -> writes ms c [(c, Tok_Comment)].
Proof. intros (u & -> & F & N1 & N2). apply (w_comment ms u [] []); auto. constructor. Qed.
Lemma comment_lx c : line_comment_text c -> lx c = [(c, Tok_Comment)].
Proof. intros H. apply lx_ok; [apply comment_writes; auto|discriminate]. Qed.
Definition semicolon (k : token) (p : list Z) : Prop := kind Tok_Statement_End k /\ t_len k = 1 /\ t_start k = zlen p.
(** what follows: no comment on the line of the [;], unless the declaration has one *)
Definition ended (cmt : option (list Z)) (raw l : list token) : Prop := match cmt with Some _ => True | None => exists n r, l = n :: r /\ (t_type n = Tok_Comment -> t_line n <> t_line (last raw n)) end.
Lemma last_default (l : list token) : forall k d d', last (k :: l) d = last (k :: l) d'.
Proof. induction l as [|x l IH]; intros k d d'; [reflexivity|]. exact (IH x d d'). Qed.
Lemma last_of (a : list token) k more d d' : last (a ++ k :: more) d = last (k :: more) d'.
Proof. induction a as [|x a IH]; cbn [app]; [apply last_default|]. destruct a as [|y a]; [exact (last_default more k d d')|exact IH]. Qed.
Lemma ended_last cmt a k more l : ended cmt (a ++ k :: more) l -> ended cmt (k :: more) l.
Proof. destruct cmt; auto. intros (n & r & E & H). exists n, r. split; auto. intros K. rewrite <- (last_of a k more n n). auto. Qed.
(** the last token of [raw] is the [;] at the end of [p], in front of a line end *)
Definition closed (raw : list token) (p : list Z) : Prop := exists pre k q, raw = pre ++ [k] /\ semicolon k q /\ p = q ++ txt ";" ++ NL.
Lemma at_end cmt p t toks l : oall line_comment_text cmt -> at_ p (txt ";" ++ with_ cmt (fun c => txt "  " ++ c) ++ t) toks (tk ";" :: tko cmt lx ++ l) ->
  Forall (positioned src) toks -> online p ->
  exists k more R, toks = (k :: more) ++ R /\ semicolon k p /\ (forall b, ended cmt (k :: more) (R ++ b) -> statement_end src (k :: more) (R ++ b) cmt) /\ (cmt = None -> more = []) /\ at_m (behind cmt) (p ++ txt ";" ++ with_ cmt (fun c => txt "  " ++ c)) t R l.
Proof.
  intros OC (m & A) PO FP. pose proof A as (SRC & _). destruct (m_lexeme src (tk ";") m p _ toks _ eq_refl A) as (k & toks1 & -> & (_ & KK & KL & _) & KS & A1). destruct cmt as [c|]; cbn [with_ tko oall app] in *.
  - rewrite (comment_lx c OC) in A1. change (txt "  " ++ c) with (txt " " ++ txt " " ++ c) in A1. rewrite <- !app_assoc in A1. apply m_sp, m_sp in A1.
    assert (TB : tokb (c, Tok_Comment) = true) by (destruct OC as (u & -> & _); reflexivity).
    destruct (m_lexeme src (c, Tok_Comment) _ _ _ _ _ TB A1) as (cm & R & -> & (S1 & S2 & _) & SS & A2).
    exists k, [cm], R. split; auto. split; [split; [exact KK|split; [exact KL|exact KS]]|].
    assert (L1 : t_line cm = t_line k).
    { eapply (one_line cm k p (txt ";  ")); [exact FP| | | | | |].
      - rewrite SRC. change (txt ";  ") with (txt ";" ++ txt "  "). repeat rewrite <- app_assoc. reflexivity.
      - flats.
      - apply (Forall_inv (Forall_inv_tail PO)).
      - apply (Forall_inv PO).
      - rewrite SS. unfold zlen. rewrite !app_length. cbn [List.length txt]. cbn. lia.
      - rewrite KS. unfold zlen. rewrite !app_length. lia. }
    split.
    + intros b _. cbn [fst] in S1. rewrite <- S1 at 1. change (k :: [cm]) with ([] ++ [k; cm]). apply se_comment; auto; [constructor|]. rewrite S1. destruct OC as (u & -> & _). discriminate.
    + split; [discriminate|]. cbn [fst] in A2. rewrite <- !app_assoc in *. exact A2.
  - exists k, [], toks1. split; auto. split; [split; [exact KK|split; [exact KL|exact KS]]|]. split.
    + intros b (n & r & -> & NC). apply (se_plain src [] k n r); auto; [constructor|]. cbn [last] in NC. tauto.
    + split; [auto|exact A1].
Qed.
(** with the end of the line *)
Lemma at_line p t toks l : online p -> at_ p (NL ++ t) toks l -> at_ (p ++ NL) t toks l.
Proof. intros O. apply at_nl, online_solid, O. Qed.
Lemma at_semi cmt p rest toks l : oall line_comment_text cmt -> at_ p (semi cmt ++ rest) toks (end_tokens lx cmt ++ l) ->
  Forall (positioned src) toks -> online p ->
  exists k more R, toks = (k :: more) ++ R /\ semicolon k p /\ (forall b, ended cmt (k :: more) (R ++ b) -> statement_end src (k :: more) (R ++ b) cmt) /\ (cmt = None -> more = []) /\ at_m Fresh (p ++ semi cmt) rest R l.
Proof.
  intros OC A PO FP. destruct (at_end cmt p (match cmt with None => NL ++ rest | Some _ => rest end) toks l OC) as (k & more & R & K1 & K2 & K3 & K5 & K4); auto.
  - unfold semi, end_tokens in A. destruct cmt; cbn [with_ tko app] in *; rewrite <- !app_assoc in *; exact A.
  - exists k, more, R. split; auto. split; auto. split; auto. split; auto. unfold semi. destruct cmt; cbn [with_ app] in *; rewrite <- ?app_assoc in *; [exact K4|]. apply m_end in K4. rewrite <- !app_assoc in K4. exact K4.
Qed.

(** ** what stands behind a type *)
Definition simple (kd : Z) : bool := negb (existsb (Z.eqb kd) [Tok_NewLine; Tok_Comment; Tok_Access_StaticSymbol; Tok_Operator]) && negb ((Tok_Type_Unsigned <=? kd) && (kd <=? Tok_Type_MS_W64)).
Lemma simple_follows k r kd : simple kd = true -> t_type k = kd -> follows src (k :: r).
Proof.
  intros B E. exists k, r. split; auto. unfold simple in B. cbn [existsb] in B. unfold fmt, native, ends_name. rewrite E. split; [lia|]. split; [lia|]. split; [lia|]. intros (X & _). lia.
Qed.

(** ** using *)
Lemma export_keyword x s kd p t toks l : tokb (tk s) = true -> snd (tk s) = kd -> at_ p (when x "export " ++ txt s ++ txt " " ++ t) toks (tks x "export" ++ tk s :: l) ->
  exists kw b, toks = kw ++ b /\ keyword kd x kw /\ at_ (p ++ when x "export " ++ txt s ++ txt " ") t b l.
Proof.
  intros B K A. destruct x; cbn [when tks app] in *.
  - change (txt "export ") with (txt "export" ++ txt " ") in *. rewrite <- !app_assoc in A. destruct (at_tok src "export" p _ toks _ eq_refl A) as (ex & toks1 & -> & (_ & KE & _) & _ & A1). apply at_sp in A1.
    destruct (at_tok src s _ _ _ _ B A1) as (k & toks2 & -> & (_ & KK & _) & _ & A2). apply at_sp in A2. exists [ex; k], toks2. split; auto. split; [|repeat rewrite <- app_assoc in A2; repeat rewrite <- app_assoc; exact A2].
    exists [], k. split; [constructor|]. split; [unfold kind; congruence|]. right. split; auto. exists ex. split; auto. 
  - destruct (at_tok src s _ _ _ _ B A) as (k & toks2 & -> & (_ & KK & _) & _ & A2). apply at_sp in A2. exists [k], toks2. split; auto. split; [|repeat rewrite <- app_assoc in A2; repeat rewrite <- app_assoc; exact A2].
    exists [], k. split; [constructor|]. split; [unfold kind; congruence|]. left. auto.
Qed.
Definition comment_of (t : tree) : option (list Z) :=
  match t with Using _ _ _ _ c | Typedef _ _ _ c | Var _ _ _ _ _ _ _ _ c | EnumFwd _ _ _ _ c | EnumClassFwd _ _ _ _ c | ClassFwd _ _ _ c | StructFwd _ _ _ c => c | _ => None end.
(** a using declaration with a comment is written with a further line end *)
Definition one_end (t : tree) : Prop := match t with Using _ _ _ _ (Some _) => False | _ => True end.
Definition parsed_as (P : list token -> list token -> tree -> Prop) (t : tree) (rest : list Z) (lr : list lexeme) : Prop :=
  forall p toks, at_ p (render t ++ rest) toks (tokens lx t ++ lr) -> Forall (positioned src) toks ->
  exists raw R, toks = raw ++ R /\ (one_end t -> at_m Fresh (p ++ render t) rest R lr) /\ (comment_of t = None -> closed raw (p ++ render t)) /\ forall b, ended (comment_of t) raw (R ++ b) -> P raw (R ++ b) t.
Lemma positioned_app a b : Forall (positioned src) (a ++ b) -> Forall (positioned src) b.
Proof. rewrite Forall_app. tauto. Qed.
Lemma namespace_ok name rest lr : is_name ms name -> parsed_as (using_tokens src) (UsingNamespace name) rest lr.
Proof.
  intros N p toks A PO. cbn [render tokens] in *. change (txt "using namespace ") with (txt "using" ++ txt " " ++ txt "namespace" ++ txt " ") in *. rewrite <- !app_assoc in A. cbn [app] in A.
  destruct (at_tok src "using" _ _ toks _ eq_refl A) as (kw & t1 & -> & (_ & K1 & _) & _ & A1). apply at_sp in A1.
  destruct (at_tok src "namespace" _ _ _ _ eq_refl A1) as (ns & t2 & -> & (_ & K2 & _) & _ & A2). apply at_sp in A2.
  destruct (at_name src ms name _ _ _ _ N A2) as (k & t3 & -> & K3 & KW & KN & A3). pose proof (online_name ((((p ++ txt "using") ++ txt " ") ++ txt "namespace") ++ txt " ") name N) as ON.
  destruct (at_end None _ (NL ++ rest) t3 lr I A3) as (semi_ & more & R & -> & SK & SE & MO & A4); [apply positioned_app with (a := [kw; ns; k]); exact PO|exact ON|].
  exists (kw :: ns :: k :: semi_ :: more), R. split; auto. split; [|split; [|]].
  - intros _. apply m_end in A4. cbn [with_ app] in A4. rewrite ?app_nil_r in A4. repeat rewrite <- app_assoc in A4. repeat rewrite <- app_assoc. exact A4.
  - intros _. rewrite MO by auto. exists [kw; ns; k], semi_. eexists. split; [reflexivity|]. split; [exact SK|]. repeat rewrite <- app_assoc. reflexivity.
  - intros b EN. apply (ended_last None [kw; ns; k] semi_ more) in EN. rewrite <- KW. apply (u_namespace src false [kw] [] ns [] k (semi_ :: more) (R ++ b) None); auto; try exact (Forall_nil _); [|rewrite KW; exact KN].
    exists [], kw. split; [constructor|]. split; [exact K1|]. left. auto.
Qed.
End P.
