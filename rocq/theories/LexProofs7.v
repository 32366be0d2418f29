(** Identifiers, and the whole lexer. *)
From Coq Require Import String ZArith List Bool Lia ZifyBool ZifyNat.
From Verif Require Import Common HashModel Text ArrayModel StrOpsModel EnumModel EnumSpec EnumProofs LexModel LexSpec LexProofs LexProofs2 LexProofs3 LexProofs4 LexProofs5 LexProofs6.
Import ListNotations.
Close Scope string_scope.
Open Scope Z_scope.

(** spellings *)
Lemma spelled_once : forall t s, In (t, s) token_spelling -> s <> "extern"%string -> t <> Tok_Spec_Extern /\ t <> Tok_Decl_Extern_Linkage /\ t <> Tok_Invalid.
Proof.
  assert (H : forallb (fun p => String.eqb (snd p) "extern" || negb ((fst p =? Tok_Spec_Extern) || (fst p =? Tok_Decl_Extern_Linkage) || (fst p =? Tok_Invalid))) token_spelling = true) by (vm_compute; reflexivity).
  intros t s Hi N. rewrite forallb_forall in H. specialize (H (t, s) Hi). cbn [fst snd] in H. destruct (String.eqb_spec s "extern") as [E|E]; [contradiction|]. cbn [orb] in H.
  split; [|split]; intros ->; discriminate H.
Qed.
Lemma extern_type : str_to_toktype (txt "extern") = Tok_Decl_Extern_Linkage.
Proof. vm_compute. reflexivity. Qed.
Lemma empty_type : str_to_toktype [] = Tok_Invalid.
Proof. vm_compute. reflexivity. Qed.

Section Loop.
Variable src : list Z.
Hypothesis bytes : Forall byte src.
Variable ms0 : macros.
Notation len := (zlen src).
Notation ch := (byte_at src).
Notation St := (St src).
Notation core := (core src ms0).
Notation acc := (acc src).
Notation T := (T src).
Notation nolast := (Tok 0 0 0 0 0 0).

Definition ok (p : Z) (ts : list token) (ms : macros) : Prop :=
  core p ts /\ ms = table src ms0 ts /\ edge src ts p.

Lemma core_ready : forall p0 p q k ts, core p ts -> ready src p0 p q k ts -> 0 <= p0 <= p -> between src p0 p spacep -> core q (ts ++ [k]).
Proof.
  intros p0 p q k ts C (R1 & R2 & R3 & R4 & R5 & R6 & R7 & R8 & R9 & R10 & R11) P0 B. apply (core_tok src ms0 p); try assumption; try lia.
  - exists p0. rewrite R1, R5, R6. split; [lia|]. split; [apply lc_spec|]. split; [intros i Hi; left; apply B, Hi|]. rewrite R7. discriminate.
  - apply sym_wordok. rewrite R1. exact R11.
Qed.
Lemma ok_ready : forall p0 p q k ts ms, core p ts -> ms = table src ms0 ts -> ready src p0 p q k ts -> 0 <= p0 <= p -> between src p0 p spacep -> ok q (ts ++ [k]) ms.
Proof.
  intros p0 p q k ts ms C M R P0 B. pose proof R as (R1 & R2 & R3 & R4 & R5 & R6 & R7 & R8 & R9 & R10 & R11). split; [apply (core_ready p0 p); assumption|].
  split; [rewrite table_snoc, learn_other; [exact M|]; intros E; apply R8; right; left; symmetry; exact E|]. exact R10.
Qed.

Lemma tail_ok : forall q tk ts ms, ok q ts ms -> exists q' tk' new,
  (let last_type := t_type (last (l_toks (St q tk ts ms)) nolast) in if (last_type =? Tok_Preprocess_Macro_Stmt) || (last_type =? Tok_Preprocess_Macro_Expr) then newline_after src (St q tk ts ms) else Done (St q tk ts ms)) = Done (St q' tk' (ts ++ new) ms) /\
  ok q' (ts ++ new) ms /\ q <= q'.
Proof.
  intros q tk ts ms (C & M & E). cbv zeta. destruct (_ || _).
  - destruct (newline_ok src ms0 q tk ts ms C M E) as (q' & tk' & new & R & C' & L & M' & E'). exists q', tk', new. split; [exact R|]. split; [|exact L]. split; [exact C'|]. split; [exact M'|exact E'].
  - exists q, tk, []. rewrite app_nil_r. split; [reflexivity|]. split; [|lia]. split; [exact C|]. split; [exact M|exact E].
Qed.

Lemma found_ready : forall p0 p q k ts ms, core p ts -> ms = table src ms0 ts -> ready src p0 p q k ts -> 0 <= p0 <= p -> between src p0 p spacep ->
  forall fuel, exists q' tk' new, found_token src fuel (St q k ts ms) = Done (St q' tk' (ts ++ new) ms) /\ ok q' (ts ++ new) ms /\ q <= q' /\ new <> [].
Proof.
  intros p0 p q k ts ms C M R P0 B fuel. unfold found_token, lex_found_token. change (l_tok (St q k ts ms)) with k. pose proof R as (_ & _ & _ & _ & _ & _ & _ & R8 & _).
  replace (negb (t_type k =? Tok_Invalid)) with true. 2: { destruct (Z.eqb_spec (t_type k) Tok_Invalid) as [E|E]; [|reflexivity]. destruct R8. left. symmetry. exact E. }
  cbn [rbind]. rewrite append_tok_St. destruct (tail_ok q k (ts ++ [k]) ms (ok_ready p0 p q k ts ms C M R P0 B)) as (q' & tk' & new & Rt & K & L). exists q', tk', (k :: new).
  replace (ts ++ k :: new) with ((ts ++ [k]) ++ new) by (rewrite <- app_assoc; reflexivity). split; [exact Rt|]. split; [exact K|]. split; [exact L|discriminate].
Qed.

Variable fuel : nat.
Hypothesis enough : len + 2 <= Z.of_nat fuel.

Lemma quote_after : forall q r, 0 <= q <= len -> spans src char_is_space q r -> (followed_by_quote src q <-> ch r = 34).
Proof.
  intros q r Q S. pose proof S as (L & A & B). pose proof (spans_between src bytes q r S) as BS. split.
  - intros (r' & L' & B' & E). assert (r' = r); [|congruence]. destruct (Z.lt_trichotomy r' r) as [H|[H|H]]; [|exact H|].
    + specialize (BS r' ltac:(lia)). rewrite E in BS. unfold spacep in BS. cbn in BS. lia.
    + specialize (B' r ltac:(lia)). destruct (Z.eq_dec r len) as [El|El]; [rewrite El, ch_end in B'; unfold spacep in B'; cbn in B'; lia|].
      specialize (B ltac:(lia)). apply space_iff in B'; [|apply ch_byte, bytes]. congruence.
  - intros E. exists r. split; [lia|]. split; assumption.
Qed.

Definition wd (k : token) (ty fl : Z) : token := Tok (t_start k) (t_len k) ty (t_line k) (t_col k) fl.
Lemma or_flags_St : forall (b : bool) (f fl : Z) q k ts ms, has_bit f TF_Preprocess = false -> has_bit fl TF_Preprocess = false ->
  exists fl', (if b then with_tok (or_flags f) (St q (wd k Tok_Invalid fl) ts ms) else St q (wd k Tok_Invalid fl) ts ms) = St q (wd k Tok_Invalid fl') ts ms /\ has_bit fl' TF_Preprocess = false.
Proof.
  intros b f fl q k ts ms Hf Hl. destruct b; [exists (Z.lor fl f); split; [reflexivity|rewrite hb_lor, Hf, Hl; reflexivity]|exists fl; split; [reflexivity|exact Hl]].
Qed.

(** FoundToken for an identifier: its text ends at [q], where the scanner is *)
Lemma found_word : forall k q ts ms, 0 <= q <= len -> t_type k = Tok_Invalid -> t_flags k = TF_Null ->
  exists r ty fl, lex_found_token src fuel (St q k ts ms) = Done (St r (wd k ty fl) (ts ++ [wd k ty fl]) ms) /\ (r = q \/ spans src char_is_space q r) /\
    kind src ms (text_of src k) q ty /\ has_bit fl TF_Preprocess = false.
Proof.
  intros k q ts ms Q Tk Fk. unfold lex_found_token. change (l_tok (St q k ts ms)) with k. rewrite Tk. change (negb (Tok_Invalid =? Tok_Invalid)) with false. cbv iota zeta.
  change (slice src (t_start k) (t_len k)) with (text_of src k). set (text := text_of src k). set (type := str_to_toktype text).
  replace (St q k ts ms) with (St q (wd k Tok_Invalid TF_Null) ts ms). 2: { f_equal. unfold wd. rewrite <- Tk, <- Fk. destruct k; reflexivity. }
  destruct (or_flags_St ((type =? Tok_Preprocess_Define) || (type =? Tok_Preprocess_Include)) TF_Identifier TF_Null q k ts ms eq_refl eq_refl) as (f1 & -> & H1).
  destruct (or_flags_St ((type <=? Tok_Access_Public) && (type >=? Tok_Access_Private)) TF_AccessSpecifier f1 q k ts ms eq_refl H1) as (f2 & -> & H2).
  destruct (or_flags_St (type >? Tok___Attributes_Start) TF_Attribute f2 q k ts ms eq_refl H2) as (f3 & -> & H3).
  (* a keyword other than extern *)
  assert (KW : forall ty, type <> Tok_Decl_Extern_Linkage -> type <> Tok_Invalid -> ty = type -> kind src ms text q ty).
  { intros ty N1 N2 ->. split; [|split].
    - intros t s Hi Et Ns. destruct (spelled_once t s Hi Ns) as (S1 & S2 & S3). unfold type. rewrite Et. apply (p22_tok t s Hi S1).
    - intros Et. destruct N1. unfold type. rewrite Et. apply extern_type.
    - intros Hn. destruct N2. apply (find_none toktype_table). exact Hn. }
  destruct (Z.eqb_spec type Tok_Decl_Extern_Linkage) as [Ee|Ee].
  { destruct (skip_ok src fuel q (wd k Tok_Invalid f3) ts ms) as (r & S & R); [lia|lia|]. rewrite R. cbn [rbind]. pose proof S as (L & _). rewrite cur_ok by lia. cbn [rbind].
    assert (KE : forall ty, (ch r = 34 /\ ty = Tok_Decl_Extern_Linkage \/ ch r <> 34 /\ ty = Tok_Spec_Extern) -> kind src ms text q ty).
    { intros ty D. split; [|split].
      - intros t s Hi Et Ns. destruct (spelled_once t s Hi Ns) as (S1 & S2 & S3). destruct S2. rewrite <- Ee. unfold type. rewrite Et. symmetry. apply (p22_tok t s Hi S1).
      - intros _. pose proof (quote_after q r Q S) as QA. destruct D as [(D1 & D2)|(D1 & D2)]; [left|right]; (split; [|exact D2]); tauto.
      - intros Hn. exfalso. apply (find_none toktype_table) in Hn. fold type in Hn. unfold str_to_toktype in Hn. assert (E0 : type = 0) by exact Hn. rewrite E0 in Ee. discriminate Ee. }
    destruct (Z.eqb_spec (ch r) 34) as [E34|E34]; cbn [negb].
    - rewrite with_tok_St, append_tok_St. exists r, type, f3. split; [reflexivity|]. split; [right; exact S|]. split; [apply KE; left; split; assumption|exact H3].
    - rewrite with_tok_St, append_tok_St. exists r, Tok_Spec_Extern, (Z.lor f3 TF_Specifier). split; [reflexivity|]. split; [right; exact S|]. split; [apply KE; right; split; [exact E34|reflexivity]|rewrite hb_lor, H3; reflexivity]. }
  destruct (((type <=? Tok_Star) && (type >=? Tok_Spec_Alignas)) || (type =? Tok_Ampersand) || (type =? Tok_Ampersand_DBL)) eqn:D.
  { rewrite with_tok_St, append_tok_St. exists q, type, (Z.lor f3 TF_Specifier). split; [reflexivity|]. split; [left; reflexivity|]. split; [apply KW; [exact Ee| |reflexivity]|rewrite hb_lor, H3; reflexivity]. intros E0. rewrite E0 in D. discriminate D. }
  destruct (Z.eqb_spec type Tok_Invalid) as [Ei|Ei]; cbn [negb].
  2: { rewrite with_tok_St, append_tok_St. exists q, type, f3. split; [reflexivity|]. split; [left; reflexivity|]. split; [apply KW; [exact Ee|exact Ei|reflexivity]|exact H3]. }
  rewrite left_St. assert (HA : (if len - q =? 0 then Done false else rbind (cur src (St q (wd k Tok_Invalid f3) ts ms)) (fun c => Done (c =? 40))) = Done (ch q =? 40)).
  { destruct (Z.eqb_spec (len - q) 0) as [E|E]; [|rewrite cur_ok by lia; reflexivity]. rewrite ch_past by lia. reflexivity. }
  rewrite HA. cbn [rbind]. change (l_macros (St q (wd k Tok_Invalid f3) ts ms)) with ms. clear HA KW.
  assert (KM : forall ty, match lookup_macro ms text with
   | Some m => if Bool.eqb (has_bit (mac_flags m) MF_Functional) (ch q =? 40) then ty = macrotype_to_toktype (mac_type m) else ty = Tok_Identifier
   | None => ty = Tok_Identifier end -> kind src ms text q ty).
  { intros ty H. split; [|split; [|intros _; exact H]].
    - intros t s Hi Et Ns. destruct (spelled_once t s Hi Ns) as (S1 & S2 & S3). destruct S3. rewrite <- Ei. unfold type. rewrite Et. symmetry. apply (p22_tok t s Hi S1).
    - intros Et. exfalso. unfold type in Ei. rewrite Et, extern_type in Ei. discriminate Ei. }
  destruct (lookup_macro ms text) as [m|] eqn:Lm.
  2: { rewrite with_tok_St, append_tok_St. exists q, Tok_Identifier, f3. split; [reflexivity|]. split; [left; reflexivity|]. split; [apply KM; reflexivity|exact H3]. }
  destruct (Bool.eqb (ch q =? 40) (has_bit (mac_flags m) MF_Functional)) eqn:Fn.
  2: { rewrite with_tok_St, append_tok_St. exists q, Tok_Identifier, f3. split; [reflexivity|]. split; [left; reflexivity|]. split; [apply KM|exact H3].
       replace (Bool.eqb (has_bit (mac_flags m) MF_Functional) (ch q =? 40)) with false; [reflexivity|]. symmetry. destruct (ch q =? 40), (has_bit (mac_flags m) MF_Functional); try reflexivity; discriminate Fn. }
  assert (KK : kind src ms text q (macrotype_to_toktype (mac_type m))).
  { apply KM. replace (Bool.eqb (has_bit (mac_flags m) MF_Functional) (ch q =? 40)) with true; [reflexivity|]. symmetry. destruct (ch q =? 40), (has_bit (mac_flags m) MF_Functional); try reflexivity; discriminate Fn. }
  rewrite with_tok_St. change (set_type (macrotype_to_toktype (mac_type m)) (wd k Tok_Invalid f3)) with (wd k (macrotype_to_toktype (mac_type m)) f3).
  assert (OF : forall (b : bool) f fl, has_bit f TF_Preprocess = false -> has_bit fl TF_Preprocess = false -> exists fl', (if b then with_tok (or_flags f) (St q (wd k (macrotype_to_toktype (mac_type m)) fl) ts ms) else St q (wd k (macrotype_to_toktype (mac_type m)) fl) ts ms) = St q (wd k (macrotype_to_toktype (mac_type m)) fl') ts ms /\ has_bit fl' TF_Preprocess = false).
  { intros b f fl A B. destruct b; [exists (Z.lor fl f); split; [reflexivity|rewrite hb_lor, A, B; reflexivity]|exists fl; split; [reflexivity|exact B]]. }
  destruct (OF (ch q =? 40) TF_Macro_Functional f3 eq_refl H3) as (f4 & -> & H4). destruct (OF (has_bit (mac_flags m) MF_Allow_As_Attribute) TF_Attribute f4 eq_refl H4) as (f5 & -> & H5).
  destruct (OF (has_bit (mac_flags m) MF_Allow_As_Specifier) TF_Specifier f5 eq_refl H5) as (f6 & -> & H6). rewrite append_tok_St.
  exists q, (macrotype_to_toktype (mac_type m)), f6. split; [reflexivity|]. split; [left; reflexivity|]. split; [exact KK|exact H6].
Qed.

Lemma learn_ord : forall ms k, has_bit (t_flags k) TF_Preprocess = false -> learn src ms k = ms.
Proof. intros ms k H. apply learn_plain. intros E. rewrite E in H. discriminate H. Qed.

Lemma word_ok : forall p0 p ts ms, ok p ts ms -> 0 <= p0 <= p -> between src p0 p spacep -> p < len -> word_first (ch p) ->
  exists q' tk' new, rbind (lex_word src fuel (ch p) (St p (t_fresh src p0) ts ms)) (found_token src fuel) = Done (St q' tk' (ts ++ new) ms) /\ ok q' (ts ++ new) ms /\ p < q' /\ new <> [].
Proof.
  intros p0 p ts ms (C & M & E) P0 B Lp W. pose proof C as (P & _). unfold lex_word. rewrite (proj2 (word_start_iff (ch p) (ch_byte src bytes p)) W). rewrite with_tok_St, move_ok by lia. cbn [rbind].
  change (l_pos (St p (t_fresh src p0) ts ms)) with p. destruct (while_take src is_word_char fuel (p + 1) (set_text p 1 (t_fresh src p0)) ts ms) as (q & (L & A & Z) & R); [lia|lia|]. rewrite R. cbn [rbind]. clear R.
  set (k := set_len _ _). unfold found_token. destruct (found_word k q ts ms) as (r & ty & fl & R & Rq & K & F); [lia|reflexivity|reflexivity|]. rewrite R. cbn [rbind]. clear R. set (k' := wd k ty fl) in *.
  assert (Sk : t_start k' = p) by reflexivity. assert (Lk : t_len k' = q - p) by (change (1 + (q - (p + 1)) = q - p); lia). assert (Ek : t_end k' = q) by (unfold t_end; lia).
  assert (NW : ~ word_char (ch q)). { destruct (Z.eq_dec q len) as [->|N]; [rewrite ch_end; unfold word_char; lia|]. intros Wq. apply word_char_iff in Wq; [|apply ch_byte, bytes]. rewrite Z in Wq by lia. discriminate Wq. }
  assert (Cq : core q (ts ++ [k'])).
  { apply (core_tok src ms0 p); try assumption; try lia.
    - exists p0. rewrite Sk. split; [lia|]. split; [apply lc_spec|]. split; [intros i Hi; left; apply B; lia|]. change (t_flags k') with fl. rewrite F. discriminate.
    - apply acc_tok; lia.
    - intros _ _. split; [lia|]. rewrite Sk, Ek. split; [|split; [exact NW|split; [exact E|rewrite <- M; exact K]]].
      intros i Hi. destruct (Z.eq_dec i p) as [->|]; [apply W|]. apply word_char_iff; [apply ch_byte, bytes|apply A; lia]. }
  assert (Mq : ms = table src ms0 (ts ++ [k'])) by (rewrite table_snoc, learn_ord by exact F; exact M).
  assert (Or : ok r (ts ++ [k']) ms /\ q <= r).
  { destruct Rq as [->|S]; [split; [|lia]; split; [exact Cq|]; split; [exact Mq|apply edge_before, NW]|]. pose proof S as (Lr & _). split; [|lia].
    split; [apply (spans_space_acc src bytes ms0 fuel _ q); assumption|]. split; [exact Mq|]. destruct (Z.eq_dec r q) as [->|]; [apply edge_before, NW|].
    apply edge_after. apply space_no_word. apply (spans_between src bytes q r S). lia. }
  destruct Or as (Or & Lr). destruct (tail_ok r k' (ts ++ [k']) ms Or) as (q' & tk' & new & Rt & K' & L'). exists q', tk', (k' :: new).
  replace (ts ++ k' :: new) with ((ts ++ [k']) ++ new) by (rewrite <- app_assoc; reflexivity). split; [exact Rt|]. split; [exact K'|]. split; [lia|discriminate].
Qed.

(** a character that begins no token *)
Lemma junk_ok : forall p0 p ts ms, core p0 ts -> ms = table src ms0 ts -> 0 <= p0 <= p -> between src p0 p spacep -> p < len -> ~ spacep (ch p) -> ~ lexable (ch p) ->
  exists q' tk' new, rbind (lex_word src fuel (ch p) (St p (t_fresh src p0) ts ms)) (found_token src fuel) = Done (St q' tk' (ts ++ new) ms) /\ ok q' (ts ++ new) ms /\ p < q' /\ new <> [].
Proof.
  intros p0 p ts ms C M P0 B Lp Ns Nl. unfold lex_word.
  assert (Nw : ~ word_char (ch p)) by (intros H; apply Nl; left; exact H).
  destruct (is_word_start (ch p)) eqn:E1; [destruct Nw; apply (word_start_iff _ (ch_byte src bytes p)) in E1; apply E1|].
  destruct (char_is_digit (ch p)) eqn:E2; [destruct Nw; apply (digit_iff _ (ch_byte src bytes p)) in E2; unfold digit in E2; unfold word_char; lia|].
  destruct (while_move src (fun c => negb (char_is_space c)) fuel p (t_fresh src p0) ts ms) as (q & S & R); [lia|lia|]. rewrite R. cbn [rbind]. clear R. pose proof S as (L & A & Zs).
  assert (Lq : p < q). { destruct (Z_le_gt_dec q p); [|lia]. assert (q = p) by lia. subst q. specialize (Zs Lp). cbv beta in Zs. destruct Ns. apply space_iff; [apply ch_byte, bytes|]. destruct (char_is_space (ch p)); [reflexivity|discriminate Zs]. }
  unfold found_token. destruct (found_word (t_fresh src p0) q ts ms) as (r & ty & fl & R & Rq & K & F); [lia|reflexivity|reflexivity|]. rewrite R. cbn [rbind]. clear R. set (k' := wd _ ty fl) in *.
  assert (Cq : core q (ts ++ [k'])).
  { apply (core_tok src ms0 p0); try assumption; unfold t_end; cbn [k' wd t_fresh t_start t_len]; try lia.
    - exists p0. cbn [k' wd t_fresh t_start t_len t_line t_col]. split; [lia|]. split; [apply lc_spec|]. split; [intros i Hi; lia|]. auto.
    - apply (acc_app src _ _ p).
      + intros i Hi. right; left. apply B, Hi.
      + intros i Hi. right; right; right; right; right; right. exists p. split; [lia|]. split; [exact Nl|]. intros j Hj Sj. apply space_iff in Sj; [|apply ch_byte, bytes]. specialize (A j ltac:(lia)). cbv beta in A. rewrite Sj in A. discriminate A.
    - apply sym_wordok. cbn [k' wd t_fresh t_start]. destruct (Z.eq_dec p0 p) as [->|]; [intros (H & _); exact (Nw H)|]. intros (H & _). exact (space_no_word _ (B p0 ltac:(lia)) H). }
  assert (Mq : ms = table src ms0 (ts ++ [k'])) by (rewrite table_snoc, learn_ord by exact F; exact M).
  assert (Or : ok r (ts ++ [k']) ms /\ q <= r).
  { destruct Rq as [->|Sr]; [split; [|lia]; split; [exact Cq|]; split; [exact Mq|apply (nonspace_stop src bytes p); exact S]|]. pose proof Sr as (Lr & _). split; [|lia].
    split; [apply (spans_space_acc src bytes ms0 fuel _ q); assumption|]. split; [exact Mq|]. destruct (Z.eq_dec r q) as [->|]; [apply (nonspace_stop src bytes p); exact S|].
    apply edge_after. apply space_no_word. apply (spans_between src bytes q r Sr). lia. }
  destruct Or as (Or & Lr). destruct (tail_ok r k' (ts ++ [k']) ms Or) as (q' & tk' & new & Rt & K' & L'). exists q', tk', (k' :: new).
  replace (ts ++ k' :: new) with ((ts ++ [k']) ++ new) by (rewrite <- app_assoc; reflexivity). split; [exact Rt|]. split; [exact K'|]. split; [lia|discriminate].
Qed.

(** one iteration *)
Lemma iteration_ok : forall p tk ts ms, ok p ts ms -> p < len -> runs_off src \/ exists r, lex_iteration src fuel (St p tk ts ms) = Done r /\
  match r with
  | Goes s => exists q tk' new ms', s = St q tk' (ts ++ new) ms' /\ ok q (ts ++ new) ms' /\ p < q /\ new <> []
  | Stops s => exists tk', s = St len tk' ts ms /\ ok len ts ms /\ between src p len spacep
  | Fails => In 35 src
  end.
Proof.
  intros p tk ts ms K Lp. pose proof K as (C & M & E). pose proof C as (P & _). unfold lex_iteration, fresh_token. rewrite with_tok_St. change (l_pos (St p tk ts ms)) with p. change (l_line (St p tk ts ms)) with (fst (lc src p)). change (l_col (St p tk ts ms)) with (snd (lc src p)). cbv zeta.
  fold (t_fresh src p).
  (* the newline at the beginning of a line *)
  assert (G : (exists q k, rbind (Done tt) (fun _ => if l_col (St p (t_fresh src p) ts ms) =? 1 then
           rbind (if_cur src 13 (fun s => rbind (move_forward src s) (fun s => Done (with_tok (set_len 1) s))) (St p (t_fresh src p) ts ms)) (fun s =>
           rbind (cur src s) (fun c =>
           if c =? 10 then
             rbind (move_forward src s) (fun s => Done (append_tok (with_tok (fun k => set_len (t_len k + 1) (set_type Tok_NewLine k)) s), true))
           else Done (s, false)))
         else Done (St p (t_fresh src p) ts ms, false)) = Done (St q k (ts ++ [k]) ms, true) /\ ok q (ts ++ [k]) ms /\ p < q) \/
       (exists q l, rbind (Done tt) (fun _ => if l_col (St p (t_fresh src p) ts ms) =? 1 then
           rbind (if_cur src 13 (fun s => rbind (move_forward src s) (fun s => Done (with_tok (set_len 1) s))) (St p (t_fresh src p) ts ms)) (fun s =>
           rbind (cur src s) (fun c =>
           if c =? 10 then
             rbind (move_forward src s) (fun s => Done (append_tok (with_tok (fun k => set_len (t_len k + 1) (set_type Tok_NewLine k)) s), true))
           else Done (s, false)))
         else Done (St p (t_fresh src p) ts ms, false)) = Done (St q (set_len l (t_fresh src p)) ts ms, false) /\ p <= q <= len /\ between src p q spacep)).
  { cbn [rbind]. assert (Same : St p (t_fresh src p) ts ms = St p (set_len 0 (t_fresh src p)) ts ms) by reflexivity.
    destruct (l_col (St p (t_fresh src p) ts ms) =? 1). 2: { right. exists p, 0. split; [rewrite Same; reflexivity|]. split; [lia|intros i Hi; lia]. }
    assert (NLk : forall q, p <= q <= p + 1 -> q < len -> ch q = 10 -> (forall i, p <= i < q -> ch i = 13) -> forall k, t_start k = p -> t_len k = q + 1 - p -> t_line k = fst (lc src p) -> t_col k = snd (lc src p) -> t_type k = Tok_NewLine -> ok (q + 1) (ts ++ [k]) ms).
    { intros q L Lq Eq Ei k K1 K2 K3 K4 K5. split; [|split; [rewrite table_snoc, learn_other by (rewrite K5; discriminate); exact M|apply (edge_char _ _ _ 10); [exact Eq|unfold word_char; lia]]].
      apply (core_here src ms0 p); [exact C|lia|split; [exact K1|split; [exact K2|split; assumption]]|]. apply sym_wordok. rewrite K1. destruct (Z.eq_dec p q) as [->|]; [rewrite Eq|rewrite Ei by lia]; unfold word_first, word_char; lia. }
    destruct (Z.eq_dec (ch p) 13) as [E1|E1].
    - rewrite if_cur_yes by (try lia; exact E1). rewrite move_ok by lia. cbn [rbind]. rewrite with_tok_St, cur_ok by lia. cbn [rbind]. destruct (Z.eqb_spec (ch (p + 1)) 10) as [E2|E2].
      + pose proof (inside src (p + 1) 10 ltac:(lia) E2 ltac:(lia)). rewrite move_ok by lia. cbn [rbind]. rewrite with_tok_St, append_tok_St. left. eexists _, _. split; [reflexivity|]. split; [|lia].
        apply NLk; try reflexivity; try lia; [intros i Hi; replace i with p by lia; exact E1|cbn; lia].
      + right. exists (p + 1), 1. split; [reflexivity|]. split; [lia|]. intros i Hi. replace i with p by lia. rewrite E1. unfold spacep. cbn. tauto.
    - rewrite if_cur_no by (try lia; exact E1). cbn [rbind]. rewrite cur_ok by lia. cbn [rbind]. destruct (Z.eqb_spec (ch p) 10) as [E2|E2].
      + rewrite move_ok by lia. cbn [rbind]. rewrite with_tok_St, append_tok_St. left. eexists _, _. split; [reflexivity|]. split; [|lia]. apply NLk; try reflexivity; try lia; cbn; lia.
      + right. exists p, 0. split; [rewrite Same; reflexivity|]. split; [lia|intros i Hi; lia]. }
  cbn [rbind] in G. destruct G as [(q & k & R & Kq & Lq)|(q & l & R & Lq & Bq)]; rewrite R; clear R; cbn [rbind].
  { right. exists (Goes (St q k (ts ++ [k]) ms)). split; [reflexivity|]. exists q, k, [k], ms. split; [reflexivity|]. split; [exact Kq|]. split; [exact Lq|discriminate]. }
  rewrite with_tok_St, set_len_set_len. change (set_len 0 (t_fresh src p)) with (t_fresh src p).
  destruct (skip_ok src fuel q (t_fresh src p) ts ms) as (q1 & S1 & R); [lia|lia|]. rewrite R. clear R. cbn [rbind]. pose proof S1 as (L1 & A1 & Z1). rewrite left_St.
  assert (B1 : between src p q1 spacep). { intros i Hi. destruct (Z.lt_ge_cases i q); [apply Bq; lia|apply (spans_between src bytes q q1 S1); lia]. }
  assert (C1 : core q1 ts) by (apply (core_skip src ms0 p); [exact C|lia|intros i Hi; right; left; apply B1, Hi]).
  assert (E1 : edge src ts q1). { destruct (Z.eq_dec p q1) as [<-|]; [exact E|]. apply edge_after, space_no_word, B1. lia. }
  assert (K1 : ok q1 ts ms) by (split; [exact C1|split; assumption]).
  destruct (len - q1 <=? 0) eqn:D.
  { right. exists (Stops (St q1 (t_fresh src p) ts ms)). split; [reflexivity|]. assert (q1 = len) by lia. subst q1. exists (t_fresh src p). split; [reflexivity|]. split; [exact K1|exact B1]. }
  rewrite cur_ok by lia. cbn [rbind]. destruct (Z.eqb_spec (ch q1) 35) as [E35|E35].
  { destruct (directive_ok src bytes ms0 fuel enough p q1 ts ms C1 ltac:(lia) B1 E35 M) as [H|(q2 & tk2 & new & ms' & r & R & KD)]; [left; exact H|]. rewrite R. cbn [rbind]. clear R. destruct r.
    2: { right. exists Fails. split; [reflexivity|]. rewrite <- E35. apply nth_In. unfold zlen in *. lia. }
    destruct (KD eq_refl) as (D1 & D2 & D3 & D4 & D5). destruct (newline_ok src ms0 q2 tk2 (ts ++ new) ms' D1 D3 D4) as (q3 & tk3 & new' & R & D1' & L' & D3' & D4'). rewrite R. cbn [rbind]. right.
    exists (Goes (St q3 tk3 ((ts ++ new) ++ new') ms')). split; [reflexivity|]. exists q3, tk3, (new ++ new'), ms'. rewrite app_assoc. split; [reflexivity|]. split; [split; [exact D1'|split; assumption]|]. split; [lia|]. intros X. apply D5. destruct new; [reflexivity|discriminate X]. }
  pose proof (symbol_ok src fuel enough p q1 ts ms ltac:(lia)) as SY. destruct (lex_symbol src fuel (ch q1) (St q1 (t_fresh src p) ts ms)) as [r|].
  - destruct SY as [H|(q2 & k & n & L2 & RD & R)]; [left; exact H|right]. rewrite R. cbn [rbind]. destruct n.
    + destruct (found_ready p q1 q2 k ts ms C1 M RD ltac:(lia) B1 fuel) as (q3 & tk3 & new & R3 & K3 & L3 & N3). rewrite R3. cbn [rbind]. exists (Goes (St q3 tk3 (ts ++ new) ms)). split; [reflexivity|].
      exists q3, tk3, new, ms. split; [reflexivity|]. split; [exact K3|]. split; [lia|exact N3].
    + exists (Goes (St q2 k (ts ++ [k]) ms)). split; [reflexivity|]. exists q2, k, [k], ms. split; [reflexivity|]. split; [apply (ok_ready p q1); try assumption; lia|]. split; [lia|discriminate].
  - right. assert (Ns : ~ spacep (ch q1)). { intros Sp. apply space_iff in Sp; [|apply ch_byte, bytes]. rewrite Z1 in Sp by lia. discriminate Sp. }
    assert (F : exists q' tk' new, rbind (lex_word src fuel (ch q1) (St q1 (t_fresh src p) ts ms)) (found_token src fuel) = Done (St q' tk' (ts ++ new) ms) /\ ok q' (ts ++ new) ms /\ q1 < q' /\ new <> []).
    { destruct (is_word_start (ch q1)) eqn:W.
      - apply word_ok; [exact K1|lia|exact B1|lia|]. apply (word_start_iff _ (ch_byte src bytes q1)). exact W.
      - destruct (char_is_digit (ch q1)) eqn:Dg.
        + destruct (number_ok src fuel enough p q1 ts ms ltac:(lia)) as (q2 & L2 & R & RD); [apply (digit_iff _ (ch_byte src bytes q1)); exact Dg|].
          unfold lex_word. rewrite W, Dg, R. cbn [rbind]. destruct (found_ready p q1 q2 _ ts ms C1 M RD ltac:(lia) B1 fuel) as (q3 & tk3 & new & R3 & K3 & L3 & N3). exists q3, tk3, new. split; [exact R3|]. split; [exact K3|]. split; [lia|exact N3].
        + apply junk_ok; try assumption; try lia. intros [H|H].
          * destruct (Z.lt_ge_cases (ch q1) 48); [unfold word_char in H; lia|]. destruct (Z.le_gt_cases (ch q1) 57).
            -- assert (X : digit (ch q1)) by (unfold digit; lia). apply (digit_iff _ (ch_byte src bytes q1)) in X. congruence.
            -- assert (X : word_first (ch q1)) by (split; [exact H|unfold digit; lia]). apply (word_start_iff _ (ch_byte src bytes q1)) in X. congruence.
          * apply SY. unfold sym_char. apply in_app_or in H. destruct H as [H|H]; [|apply in_or_app; right; exact H]. cbn [txt list_ascii_of_string map In Ascii.N_of_ascii] in H.
            destruct H as [H|H]; [destruct E35; rewrite <- H; reflexivity|]. apply in_or_app; left. exact H. }
    destruct F as (q' & tk' & new & R & K' & L' & N'). exists (Goes (St q' tk' (ts ++ new) ms)). split; [|exists q', tk', new, ms; split; [reflexivity|]; split; [exact K'|]; split; [lia|exact N']].
    destruct (lex_word src fuel (ch q1) (St q1 (t_fresh src p) ts ms)); [|discriminate R|discriminate R]. cbn [rbind] in *. rewrite R. reflexivity.
Qed.

Lemma loop_ok : forall n p tk ts ms, ok p ts ms -> len - p + 1 <= Z.of_nat n -> runs_off src \/ exists r, lex_loop src fuel n (St p tk ts ms) = Done r /\
  match r with Some s => ok len (l_toks s) (l_macros s) /\ (l_toks s = [] -> ts = [] /\ between src p len spacep) | None => In 35 src end.
Proof.
  induction n as [|n IH]; intros p tk ts ms K Hn; pose proof K as ((P & _) & _); [lia|]. cbn [lex_loop]. rewrite left_St. destruct (Z.eqb_spec (len - p) 0) as [E|E].
  { right. eexists. split; [reflexivity|]. assert (Ep : p = len) by lia. rewrite Ep in K. split; [exact K|]. intros Et. split; [exact Et|]. intros i Hi. lia. }
  destruct (iteration_ok p tk ts ms K ltac:(lia)) as [H|(r & R & D)]; [left; exact H|]. rewrite R. cbn [rbind]. destruct r as [s|s|].
  - destruct D as (q & tk' & new & ms' & -> & K' & L' & N'). destruct (IH q tk' (ts ++ new) ms' K' ltac:(lia)) as [H|(r & R' & D)]; [left; exact H|right]. exists r. split; [exact R'|]. destruct r as [s|]; [|exact D]. destruct D as (D1 & D2).
    split; [exact D1|]. intros Et. destruct (D2 Et) as (X & _). apply app_eq_nil in X. destruct N'. apply X.
  - right. destruct D as (tk' & -> & K' & B'). eexists. split; [reflexivity|]. split; [exact K'|]. intros Et. split; [exact Et|exact B'].
  - right. exists None. split; [reflexivity|exact D].
Qed.

Lemma lex_ok : runs_off src \/ exists r, lex src fuel ms0 = Done r /\
  match r with Some (toks, ms) => toks <> [] /\ ok len toks ms | None => In 35 src \/ Forall spacep src end.
Proof.
  unfold lex. pose proof (len_pos src) as Lp. change (Lx 0 1 1 (Tok 0 0 0 0 0 0) [] ms0) with (St 0 (Tok 0 0 0 0 0 0) [] ms0). destruct (skip_ok src fuel 0 (Tok 0 0 0 0 0 0) [] ms0) as (q & S & R); [lia|lia|]. rewrite R. cbn [rbind]. rewrite left_St. pose proof S as (L & A & Zs).
  destruct (len - q <=? 0) eqn:D.
  { right. exists None. split; [reflexivity|]. right. assert (q = len) by lia. subst q. rewrite <- (slice_full src). rewrite <- (slice_all src 0 len) by lia. change (firstn (Z.to_nat 0) src) with (@nil Z). cbn [app]. apply slice_Forall; [lia|lia|apply spans_between; assumption]. }
  assert (K : ok q [] ms0).
  { split; [|split; [reflexivity|]].
    - split; [lia|]. split; [apply laid_nil; lia|]. split; [apply acc_space; assumption|]. split; [constructor|]. intros a k b Ek. destruct a; discriminate Ek.
    - destruct (Z.eq_dec q 0) as [->|]; [left; reflexivity|]. apply edge_after, space_no_word. apply (spans_between src bytes 0 q S). lia. }
  destruct (loop_ok fuel q (Tok 0 0 0 0 0 0) [] ms0 K ltac:(lia)) as [H|(r & R2 & KK)]; [left; exact H|right]. rewrite R2. cbn [rbind]. destruct r as [s|].
  - destruct (l_toks s) as [|k ts] eqn:Et.
    + exfalso. destruct KK as (_ & KK). destruct (KK eq_refl) as (_ & B'). specialize (B' q ltac:(lia)). apply space_iff in B'; [|apply ch_byte, bytes]. rewrite Zs in B' by lia. discriminate B'.
    + exists (Some (k :: ts, l_macros s)). split; [reflexivity|]. split; [discriminate|]. apply KK.
  - exists None. split; [reflexivity|left; exact KK].
Qed.
End Loop.
