(** C35: def_comment. *)
From Coq Require Import String ZArith List Bool Lia.
From Verif Require Import Common Text ArrayModel StrOpsModel StrOpsSpec StrOpsProps StrModel FmtModel FmtSpec CommentModel CommentSpec CommentProofs CommentProofs2 CommentProofs3.
Import ListNotations.
Open Scope Z_scope.

(** where the call's memory lies: the literal "//%.*s" at [fmt]; the formatter's 128 KB local buffer at
    [buf] does not overlap it, nor the content at [s] and the two bytes behind it *)
Definition call_memory (m : mem) (num buf fmt s len : Z) : Prop :=
  byte_mem m /\ num <> 0 /\ cstr m fmt (txt "//%.*s") /\ 0 < s /\
  (forall x, fmt <= x <= fmt + 6 \/ s <= x <= s + len + 2 -> ~ (buf <= x < buf + PRINTF_MAXLEN)).

(** For every non-empty NUL-free content followed in memory by a NUL or a newline (so every C string, and
    every slice ending at a line's end), all of whose lines are shorter than 131066 bytes: the text of the
    comment is "//" followed by a line, for each line of the content, in order. *)
Theorem c35_every_line_commented_partial : forall fuel m num buf fmt s t,
  call_memory m num buf fmt s (zlen t) -> t <> [] -> chars t -> load_bytes m s (length t) = t ->
  m (s + zlen t) = 0 \/ m (s + zlen t) = 10 ->
  short_lines (PRINTF_MAXLEN - 6) t -> (length t + 2 <= fuel)%nat ->
  exists out, def_comment fuel m num buf fmt s (zlen t) = Done (Some out) /\ comments t out.
Proof.
  intros fuel m num buf fmt s t (A & B & C & D & E) N H1 H2 H3 H4 H5.
  destruct (p35_comment fuel m num buf fmt s t) as (out & R & G); auto.
  { split; auto. }
  exists out. split; auto. unfold load_bytes in G. destruct (last t 0 =? 10); cbn [seq map to_eol] in G; change (Z.of_nat 0) with 0 in G;
    rewrite Z.add_0_r in G; destruct H3 as [Q|Q]; rewrite Q in G; cbn [Z.eqb Pos.eqb orb] in G; rewrite app_nil_r in G; auto.
Qed.
Print Assumptions c35_every_line_commented_partial.

(** Whatever follows the content in memory, the text is still entirely commented out, but the comment also
    shows the following bytes: one if the content ends with a newline, else two, up to the line's end. *)
Theorem c35_never_escapes : forall fuel m num buf fmt s t,
  call_memory m num buf fmt s (zlen t) -> t <> [] -> chars t -> load_bytes m s (length t) = t ->
  short_lines (PRINTF_MAXLEN - 6) t -> (length t + 2 <= fuel)%nat ->
  exists out, def_comment fuel m num buf fmt s (zlen t) = Done (Some out) /\
    comments (t ++ to_eol (load_bytes m (s + zlen t) (if last t 0 =? 10 then 1 else 2))) out.
Proof. intros fuel m num buf fmt s t (A & B & C & D & E) N H1 H2 H4 H5. apply p35_comment; auto. split; auto. Qed.
Print Assumptions c35_never_escapes.

(** So for a slice that ends in the middle of a line the result is never the comment of that slice. *)
Theorem c35_slice_leaks_refuted : forall fuel m num buf fmt s t,
  call_memory m num buf fmt s (zlen t) -> t <> [] -> chars t -> load_bytes m s (length t) = t ->
  m (s + zlen t) <> 0 -> m (s + zlen t) <> 10 ->
  short_lines (PRINTF_MAXLEN - 6) t -> (length t + 2 <= fuel)%nat ->
  exists out, def_comment fuel m num buf fmt s (zlen t) = Done (Some out) /\ ~ comments t out.
Proof.
  intros fuel m num buf fmt s t M N H1 H2 Z1 Z2 H4 H5. destruct (c35_never_escapes fuel m num buf fmt s t M N H1 H2 H4 H5) as (out & R & G).
  exists out. split; auto. intros G'. pose proof (comments_inj _ _ _ G G') as E.
  assert (L : to_eol (load_bytes m (s + zlen t) (if last t 0 =? 10 then 1 else 2)) = []).
  { apply (app_inv_head t). rewrite app_nil_r. exact E. }
  unfold load_bytes in L. destruct (last t 0 =? 10); cbn [seq map to_eol] in L; change (Z.of_nat 0) with 0 in L; rewrite Z.add_0_r in L;
    rewrite (proj2 (Z.eqb_neq _ _) Z1), (proj2 (Z.eqb_neq _ _) Z2) in L; cbn [orb] in L; discriminate.
Qed.
Print Assumptions c35_slice_leaks_refuted.

(** A comment determines the text it comments. *)
Theorem c35_comment_determines_text : forall t t' out, comments t out -> comments t' out -> t = t'.
Proof. exact comments_inj. Qed.
Print Assumptions c35_comment_determines_text.

(** The text of a line of 128 KB or more is lost. *)
Theorem c35_long_line_refuted : forall fuel m num buf fmt s t,
  call_memory m num buf fmt s (zlen t) -> load_bytes m s (length t) = t -> ~ In 10 t -> PRINTF_MAXLEN <= zlen t < 2 ^ 30 ->
  (length t + 2 <= fuel)%nat -> def_comment fuel m num buf fmt s (zlen t) = Done (Some (txt "//" ++ [10])).
Proof. intros fuel m num buf fmt s t (A & B & C & D & E) H1 H2 H3 H4. apply p35_long; auto. split; auto. Qed.
Print Assumptions c35_long_line_refuted.

(** Nothing to comment: the invalid code. *)
Theorem c35_empty : forall fuel m num buf fmt s len, len <= 0 \/ s = 0 -> def_comment fuel m num buf fmt s len = Done None.
Proof. intros fuel m num buf fmt s len [H| ->]; unfold def_comment; [replace (len <=? 0) with true by lia; reflexivity|rewrite orb_comm; reflexivity]. Qed.
Print Assumptions c35_empty.

Definition demo_m (t : list Z) : mem := store_bytes (text_at 1000 (txt "//%.*s")) 2000 t.
(** Text between a NUL and the line's end, and the newline, are lost: "a\0b\nc" gives one line. *)
Theorem c35_embedded_nul_refuted :
  def_comment 100 (demo_m [97; 0; 98; 10; 99; 0]) 9000 1000000 1000 2000 5 = Done (Some (txt "//a//c" ++ [10])).
Proof. vm_compute. reflexivity. Qed.
Print Assumptions c35_embedded_nul_refuted.

(** *** the hypotheses are met by "a\n\nbc\n", which gives "//a\n//\n//bc\n//\n" *)
Example c35_hypotheses_met : let t := [97; 10; 10; 98; 99; 10] in
  call_memory (demo_m (t ++ [0])) 9000 1000000 1000 2000 (zlen t) /\ load_bytes (demo_m (t ++ [0])) 2000 (length t) = t /\ chars t /\
  short_lines (PRINTF_MAXLEN - 6) t /\ demo_m (t ++ [0]) (2000 + zlen t) = 0 /\
  def_comment 100 (demo_m (t ++ [0])) 9000 1000000 1000 2000 (zlen t) = Done (Some (txt "//a" ++ [10] ++ txt "//" ++ [10] ++ txt "//bc" ++ [10] ++ txt "//" ++ [10])).
Proof.
  cbv zeta. split; [|split; [vm_compute; reflexivity|split; [|split; [|split; vm_compute; reflexivity]]]].
  - split; [|split; [lia|split; [|split; [lia|]]]].
    + unfold demo_m, text_at. apply ArrayProofs.store_bytes_byte; [repeat (constructor; [lia|]); constructor|].
      apply ArrayProofs.store_bytes_byte; [|intros x; lia]. change (txt "//%.*s") with [47; 47; 37; 46; 42; 115]. repeat (constructor; [lia|]). constructor.
    + split; [vm_compute; reflexivity|split; [|vm_compute; reflexivity]]. change (txt "//%.*s") with [47; 47; 37; 46; 42; 115]. repeat (constructor; [lia|]). constructor.
    + assert (zlen [97; 10; 10; 98; 99; 10] = 6) by reflexivity. assert (PRINTF_MAXLEN = 131072) by reflexivity. lia.
  - repeat (constructor; [lia|]). constructor.
  - intros a l b E _. apply (f_equal (@length Z)) in E. rewrite !app_length in E. cbn [length] in E. assert (PRINTF_MAXLEN = 131072) by reflexivity. unfold zlen. lia.
Qed.
