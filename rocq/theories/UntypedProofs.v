(** Proofs for UntypedModel.v. *)
From Coq Require Import String ZArith List Bool Lia ZifyBool ZifyNat.
From Verif Require Import Common Text ArrayModel HashModel HashtableModel HashtableSpec StrOpsSpec StrOpsProps AstModel AstSpec UpfrontModel UpfrontSpec UpfrontProofs FmtModel TokFmtModel TokFmtSpec TokFmtProps UntypedModel.
Import ListNotations.
Close Scope string_scope.
Open Scope Z_scope.

Lemma zeroed_out m p n a : ~ (p <= a < p + n) -> zeroed m p n a = m a.
Proof. intros H. unfold zeroed. destruct ((p <=? a) && (a <? p + n)) eqn:E; auto. lia. Qed.
Lemma zeroed_bytes m p n : byte_mem m -> byte_mem (zeroed m p n).
Proof. intros H x. unfold zeroed. destruct ((p <=? x) && (x <? p + n)); [lia|apply H]. Qed.
Lemma zeroed_load m p n a : forall k, disjoint a (Z.of_nat k) p n -> load_bytes (zeroed m p n) a k = load_bytes m a k.
Proof.
  intros k D. unfold load_bytes. apply map_ext_in. intros i I. apply in_seq in I. apply zeroed_out. apply D. lia.
Qed.
Lemma zeroed_cstr m p n s t : cstr m s t -> disjoint s (zlen t + 1) p n -> cstr (zeroed m p n) s t.
Proof.
  intros (H1 & H2 & H3) D. split; [|split; auto].
  - rewrite zeroed_load; auto. intros x L. apply D. change (zlen t) with (Z.of_nat (length t)). lia.
  - rewrite zeroed_out; auto. apply D. change (zlen t) with (Z.of_nat (length t)). lia.
Qed.

Lemma str_at_text m p t : load_bytes m p (length t) = t -> str_at m (p, zlen t) = Done t.
Proof. intros H. unfold str_at. cbn [fst snd]. unfold zlen. destruct (Z.of_nat (length t) <? 0) eqn:E; [lia|]. rewrite Nat2Z.id, H. reflexivity. Qed.

Lemma untyped_str_ok e h content : world e h -> content <> [] -> creates h (untyped_str e h content) (set_content content (node_of CT_Untyped content)).
Proof.
  intros W NE. destruct content as [|c t]; [contradiction|]. unfold untyped_str.
  assert (P : 0 < h_top h) by (destruct W as (V & _); unfold valid in V; lia).
  destruct (make_new h (fun n => set_content (c :: t) (AstModel.set_type CT_Untyped (set_name (c :: t) n))) P) as (h1 & -> & I).
  refine (new_creates _ _ _ _ P I _). reflexivity.
Qed.

Lemma code_fmt_ok e fuel m t0 ops buf toks fmt T out h :
  world e h -> byte_mem m -> Forall ht_op_wf ops -> ht_run (Z * Z) (0, 0) (ht_init (Z * Z)) ops = Some t0 -> (forall k, map_run (fun _ => None) ops k = None) ->
  Forall (fun t => tok_ok m buf GEN_PRINTF_MAXLEN t /\ disjoint (t_ptr t) (zlen (t_name t) + 1) buf GEN_PRINTF_MAXLEN) toks ->
  cstr m fmt T -> disjoint fmt (zlen T + 1) buf GEN_PRINTF_MAXLEN ->
  (forall t name, In t toks -> occurs name T -> crc32 (t_name t) = crc32 name -> t_name t = name) ->
  substituted (binding (map tok_pair toks)) T out -> out <> [] -> zlen out <= GEN_PRINTF_MAXLEN ->
  (length T < fuel)%nat -> (length out <= fuel)%nat -> Forall (fun t => (length (t_name t) <= fuel)%nat) toks ->
  exists m1 t1 r, code_fmt e fuel m t0 buf (map tok_arg toks) fmt h = Done (m1, t1, r) /\ creates h (Done r) (set_content out (node_of CT_Untyped out)).
Proof.
  intros W B OW OR OE TK CF DF CO SU NE SZ F1 F2 F3.
  assert (TK' : Forall (tok_ok (zeroed m buf GEN_PRINTF_MAXLEN) buf GEN_PRINTF_MAXLEN) toks).
  { eapply Forall_impl; [|exact TK]. intros t ((A1 & A2 & A3 & A4) & A5). split; auto. split; [apply zeroed_cstr; auto|]. split; auto. rewrite zeroed_load; auto. }
  destruct (c36_token_fmt_partial fuel _ t0 ops buf GEN_PRINTF_MAXLEN toks fmt T out (zeroed_bytes m buf GEN_PRINTF_MAXLEN B) OW OR OE TK' (zeroed_cstr _ _ _ _ _ CF DF) DF CO SU SZ F1 F2 F3) as (m1 & t1 & R & L & _).
  unfold code_fmt, token_fmt_impl. rewrite R. cbn [rbind]. rewrite (str_at_text _ _ _ L). cbn [rbind].
  destruct (untyped_str_ok e h out W NE) as (h' & c & U & C). rewrite U. cbn [rbind]. exists m1, t1, (h', c). split; auto. exists h', c. split; auto.
Qed.

Lemma fmt_code_invalid e h content : snd (fmt_code e h content) = e_invalid e.
Proof. unfold fmt_code, make, new_code, upd. cbn. rewrite !Z.eqb_refl. reflexivity. Qed.
Lemma untyped_fmt_invalid e fuel m num buf fmt args h m' h' c : untyped_fmt e fuel m num buf fmt args h = Done (m', (h', c)) -> c = e_invalid e.
Proof.
  unfold untyped_fmt. destruct (fmt =? 0); [congruence|]. destruct (c_str_fmt_va _ _ _ _ _ _ _) as [[m1 l]| | ]; cbn [rbind]; try discriminate.
  destruct (str_at _ _) as [x| | ]; cbn [rbind]; try discriminate. intros E. injection E as _ E. rewrite <- (fmt_code_invalid e h x), E. reflexivity.
Qed.
Lemma untyped_token_fmt_invalid e fuel m t n buf fmt pairs next h m' t' h' c : untyped_token_fmt e fuel m t n buf fmt pairs next h = Done (m', t', (h', c)) -> c = e_invalid e.
Proof.
  unfold untyped_token_fmt. destruct (n =? 0); [congruence|]. destruct (token_fmt_va _ _ _ _ _ _ _) as [[[m1 t1] l]| | ]; cbn [rbind]; try discriminate.
  destruct (str_at _ _) as [x| | ]; cbn [rbind]; try discriminate. intros E. injection E as _ _ E. rewrite <- (fmt_code_invalid e h x), E. reflexivity.
Qed.
