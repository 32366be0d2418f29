(** Properties C17 (StrBuilder appends), C18 (StrBuilder edits), C19 (string predicates). *)
From Coq Require Import String ZArith List Bool Lia.
From Verif Require Import Common MemModel Text ArrayModel ArrayProofs StrOpsModel StrOpsSpec StrModel StrSpec StrProofs StrProofs2.
Import ListNotations.
Open Scope Z_scope.

(** *** C17 *)
(** One append: always terminates; on success the text is the concatenation, NUL-terminated, within
    capacity; on failure (allocator out of memory) the text is unchanged.  When the text fits, the append
    succeeds in place and writes only the builder's own bytes. *)
Theorem c17_append : forall m s t cap src t2 rs, is_builder m s t cap -> zlen t < 2 ^ 57 -> source_ok m s cap src t2 ->
  resize_respects m s cap src (zlen t2) rs ->
  exists m1 s1 ok, strbuilder_append_c_str_len rs m s src (zlen t2) = Done (m1, s1, ok) /\
    (exists cap1, is_builder m1 s1 (if ok then t ++ t2 else t) cap1) /\
    (ok = true -> terminated m1 s1 (t ++ t2)) /\ (ok = false -> terminated m s t -> terminated m1 s1 t) /\
    (zlen t2 <= cap - zlen t -> ok = true /\ s1 = s /\ forall x, ~ sb_owned s cap x -> m1 x = m x).
Proof. exact append_spec. Qed.
Print Assumptions c17_append.
(** Any sequence of appends concatenates. *)
Theorem c17_appends_concat : forall m s ts m2 s2, sb_appends m s ts m2 s2 ->
  forall t cap, is_builder m s t cap -> zlen t + zlen (concat ts) < 2 ^ 57 -> terminated m s t ->
  (exists cap2, is_builder m2 s2 (t ++ concat ts) cap2) /\ terminated m2 s2 (t ++ concat ts).
Proof. exact appends_concat. Qed.
Print Assumptions c17_appends_concat.
(** Any history of appends (Str, C string, other builder), clears, trims and strips keeps the builder
    well formed with the text the operations describe. *)
Theorem c17_history : forall m s t ops m2 s2 t2, sb_history m s t ops m2 s2 t2 -> forall cap, is_builder m s t cap -> zlen t < 2 ^ 57 ->
  (exists cap2, is_builder m2 s2 t2 cap2) /\ (~ In SClear ops -> terminated m s t -> terminated m2 s2 t2).
Proof. exact history_builder. Qed.
Print Assumptions c17_history.
(** Creation. *)
Theorem c17_make_length : forall m src t al, byte_mem m -> 0 < src -> load_bytes m src (length t) = t -> zlen t < 2 ^ 31 - 33 -> alloc_ok m src (zlen t) al ->
  exists m1 s, strbuilder_make_length al m src (zlen t) = Done (m1, s) /\ (s = 0 \/ (is_builder m1 s t (zlen t) /\ terminated m1 s t)).
Proof. exact make_length_spec. Qed.
Print Assumptions c17_make_length.
Theorem c17_make_reserve : forall m cap al, byte_mem m -> 0 <= cap < 2 ^ 31 - 33 -> alloc_ok m 0 0 al ->
  exists m1 s, strbuilder_make_reserve al m cap = Done (m1, s) /\ (s = 0 \/ (is_builder m1 s [] cap /\ terminated m1 s [])).
Proof. exact make_reserve_spec. Qed.
Print Assumptions c17_make_reserve.

(** a memory with one builder, for the examples *)
Definition builder_mem (s : Z) (t : list Z) (cap : Z) (m : mem) : mem :=
  sb_set_length (sb_set_capacity (store_bytes m s t) s cap) s (zlen t).
Definition zeroes : mem := fun _ => 0.
(** an allocator that moves the block to 5000 and scribbles over the old one, as free() may; it has 2^20 bytes *)
Definition moving_rs (m : mem) (p old new : Z) : mem * Z :=
  if 2 ^ 20 <? new then (m, 0) else
  ((fun x => if (5000 <=? x) && (x <? 5000 + old) then m (p + (x - 5000)) else if (p <=? x) && (x <? p + old) then 221 else m x), 5000).
(** Appending a builder to itself reads freed memory once it must grow: "ab" + "ab" is not "abab". *)
Theorem c17_self_append_refuted :
  let m := builder_mem 1032 (txt "ab") 3 zeroes in
  sb_length m 1032 = 2 /\ load_bytes m 1032 3 = txt "ab" ++ [0] /\
  match strbuilder_append_string moving_rs m 1032 1032 with
  | Done (m1, s1, ok) => ok = true /\ sb_length m1 s1 = 4 /\ load_bytes m1 s1 4 = txt "ab" ++ [221; 221] /\ load_bytes m1 s1 4 <> txt "abab"
  | _ => False end.
Proof. vm_compute. repeat split; auto. discriminate. Qed.
(** The allocation size is computed in 32 bits: a length of 2^31 requests a negative size. *)
Theorem c17_make_length_overflow_refuted : to_s32 (SB_HEADER + 2 ^ 31 + 1) < 0 /\
  forall al m str, strbuilder_make_length al m str (2 ^ 31) =
    strbuilder_make_length (fun m _ => al m (33 - 2 ^ 31)) m str (2 ^ 31).
Proof. split; [vm_compute; reflexivity|]. intros. reflexivity. Qed.
Print Assumptions c17_self_append_refuted. Print Assumptions c17_make_length_overflow_refuted.
(** The hypotheses are met: an append that grows, then one that fits. *)
Example c17_nontrivial :
  let m := store_bytes (builder_mem 1032 (txt "int ") 4 zeroes) 3000 (txt "main") in
  is_builder m 1032 (txt "int ") 4 /\ terminated m 1032 (txt "int ") /\ source_ok m 1032 4 3000 (txt "main") /\
  resize_respects m 1032 4 3000 4 moving_rs /\
  match strbuilder_append_str moving_rs m 1032 3000 4 with
  | Done (m1, s1, ok) => ok = true /\ sb_length m1 s1 = 8 /\ sb_capacity m1 s1 = 40 /\ load_bytes m1 s1 9 = txt "int main" ++ [0]
  | _ => False end.
Proof.
  intros m. assert (BM : byte_mem m).
  { intros x. unfold m, builder_mem, sb_set_length, sb_set_capacity. repeat (apply store_bytes_byte || apply st64_byte); try (intros y; unfold zeroes; lia); vm_compute; repeat constructor; discriminate. }
  split; [|split; [vm_compute; reflexivity|split; [|split]]].
  - split; auto. split; [lia|]. split; [lia|]. repeat split; vm_compute; try reflexivity. discriminate.
  - split; [lia|]. split; [vm_compute; reflexivity|]. split; [vm_compute; reflexivity|]. intros x Hx. unfold sb_owned. change (zlen (txt "main")) with 4 in Hx. lia.
  - intros old new H1 H2. unfold moving_rs. destruct (2 ^ 20 <? new) eqn:E.
    + cbn [Z.eqb]. auto.
    + split; [|split].
      * intros x. destruct (_ && _); [apply BM|]. destruct (_ && _); [lia|apply BM].
      * intros x Hx. replace ((5000 <=? x) && (x <? 5000 + old)) with false by lia. replace ((1032 - 32 <=? x) && (x <? 1032 - 32 + old)) with false by lia. auto.
      * change (5000 =? 0) with false. cbn beta iota. split; [lia|]. split; [lia|]. split.
        -- intros i Hi. replace ((5000 <=? 5000 + i) && (5000 + i <? 5000 + old)) with true by lia. f_equal. lia.
        -- intros x Hx. lia.
  - vm_compute. auto.
Qed.

(** *** C18 *)
(** trim removes exactly the maximal leading and trailing runs of cut-set characters (NUL counts as one,
    because the cut set is searched as a C string with its terminator) and touches nothing else. *)
Theorem c18_trim : forall m s t cap cut cs fuel, is_builder m s t cap -> cstr m cut cs -> (length cs <= fuel)%nat ->
  let t' := trimmed (fun b => (b =? 0) || existsb (Z.eqb b) cs) t in
  exists m1, strbuilder_trim fuel m s cut = Done m1 /\ is_builder m1 s t' cap /\ terminated m1 s t' /\
    (forall x, ~ sb_owned s cap x -> m1 x = m x).
Proof. exact trim_spec. Qed.
Theorem c18_strip_space : forall m s t cap fuel, is_builder m s t cap -> terminated m s t -> Forall (fun b => b <> 0) t -> (length t <= fuel)%nat ->
  let t' := filter (fun b => negb (char_is_space b)) t in
  exists m1, strbuilder_strip_space fuel m s = Done m1 /\ is_builder m1 s t' cap /\ terminated m1 s t' /\ (forall x, ~ sb_owned s cap x -> m1 x = m x).
Proof. exact strip_spec. Qed.
Theorem c18_clear : forall m s t cap, is_builder m s t cap ->
  is_builder (strbuilder_clear m s) s [] cap /\ (forall x, ~ (s - 8 <= x < s) -> strbuilder_clear m s x = m x).
Proof. exact clear_spec'. Qed.
(** trimming twice is trimming once; nothing of the cut set is left at either end *)
Theorem c18_trim_ends : forall f t, match trimmed f t with [] => forallb f t = true | b :: _ => f b = false /\ f (last (trimmed f t) b) = false end.
Proof. exact trimmed_ends. Qed.
Theorem c18_trim_middle : forall f t, exists a b, t = a ++ trimmed f t ++ b /\ forallb f a = true /\ forallb f b = true.
Proof. exact trimmed_middle. Qed.
(** skip_line is meant to drop the first line; "ab\ncd" becomes the two bytes at the line break. *)
Theorem c18_skip_line_refuted :
  let t := txt "ab" ++ [10] ++ txt "cd" in
  let m := builder_mem 1032 t 8 zeroes in
  after_line t = txt "cd" /\
  match strbuilder_skip_line 10 m 1032 with
  | Done m1 => sb_length m1 1032 = 2 /\ load_bytes m1 1032 2 = [10; 99] /\ m1 1034 <> 0
  | _ => False end.
Proof. vm_compute. repeat split; auto; discriminate. Qed.
(** clear leaves the old bytes without a terminator: as a C string the builder still reads "abc", and
    strip_space (which stops at a NUL, not at the length) brings the old text back. *)
Theorem c18_clear_not_terminated_refuted :
  let m := builder_mem 1032 (txt "abc") 8 zeroes in
  let m1 := strbuilder_clear m 1032 in
  sb_length m1 1032 = 0 /\ m1 1032 <> 0 /\ cstr m1 1032 (txt "abc") /\
  match strbuilder_strip_space 10 m1 1032 with
  | Done m2 => sb_length m2 1032 = 3 /\ load_bytes m2 1032 3 = txt "abc"
  | _ => False end.
Proof. vm_compute. repeat split; auto; try discriminate. repeat constructor; discriminate. Qed.
Example c18_nontrivial :
  let m := store_bytes (builder_mem 1032 (txt "  a b ") 8 zeroes) 3000 (txt " x") in
  cstr m 3000 (txt " x") /\ trimmed (fun b => (b =? 0) || existsb (Z.eqb b) (txt " x")) (txt "  a b ") = txt "a b" /\
  match strbuilder_trim 10 m 1032 3000 with Done m1 => sb_length m1 1032 = 3 /\ load_bytes m1 1032 4 = txt "a b" ++ [0] | _ => False end /\
  match strbuilder_strip_space 10 m 1032 with Done m1 => sb_length m1 1032 = 2 /\ load_bytes m1 1032 3 = txt "ab" ++ [0] | _ => False end.
Proof. vm_compute. repeat split; auto; try discriminate. repeat constructor; discriminate. Qed.
Print Assumptions c18_trim. Print Assumptions c18_strip_space. Print Assumptions c18_clear. Print Assumptions c18_trim_ends. Print Assumptions c18_trim_middle.
Print Assumptions c18_skip_line_refuted. Print Assumptions c18_clear_not_terminated_refuted.

(** *** C19 *)
Theorem c19_str_are_equal : forall m lp ll lt rp rl rt, str_is m lp ll lt -> str_is m rp rl rt ->
  (str_are_equal m lp ll rp rl = true <-> lt = rt).
Proof. exact p19_equal. Qed.
Theorem c19_str_contains : forall m p l t sub subl st, str_is m p l t -> str_is m sub subl st -> Forall (fun b => b <> 0) st ->
  exists r, str_contains m p l sub subl = Some r /\ (r = true <-> is_substring st t).
Proof. exact p19_contains. Qed.
Theorem c19_str_starts_with : forall m p l t sub subl st, str_is m p l t -> str_is m sub subl st -> Forall (fun b => b <> 0) st ->
  exists r, str_starts_with m p l sub subl = Some r /\ (r = true <-> is_prefix st t).
Proof. exact p19_starts. Qed.
(** the same for builders *)
Theorem c19_builders : forall m a ta ca b tb cb, is_builder m a ta ca -> is_builder m b tb cb ->
  (strbuilder_are_equal_string m a b = true <-> ta = tb) /\
  (Forall (fun b => b <> 0) tb -> exists r, strbuilder_contains_string m a b = Some r /\ (r = true <-> is_substring tb ta)).
Proof. exact p19_builders. Qed.
Theorem c19_builder_str : forall m a ta ca p l t, is_builder m a ta ca -> str_is m p l t ->
  (strbuilder_are_equal_str m a p l = true <-> ta = t) /\
  (Forall (fun b => b <> 0) t -> (exists r, strbuilder_contains_StrC m a p l = Some r /\ (r = true <-> is_substring t ta)) /\
     (exists r, strbuilder_starts_with_str m a p l = Some r /\ (r = true <-> is_prefix t ta))).
Proof. exact p19_builder_str. Qed.
(** with an embedded NUL the comparison stops early: "a\0x" "contains" and "starts with" "a\0y" *)
Theorem c19_embedded_nul_refuted :
  let m := store_bytes (store_bytes zeroes 1000 [97; 0; 120]) 2000 [97; 0; 121] in
  str_starts_with m 1000 3 2000 3 = Some true /\ str_contains m 1000 3 2000 3 = Some true /\ [97; 0; 120] <> [97; 0; 121].
Proof. vm_compute. repeat split; auto. discriminate. Qed.
(** strbuilder_starts_with_string compares one byte too few: every builder "starts with" any text that
    agrees with it except in the last byte, and any non-empty builder with any one-byte text. *)
Theorem c19_builder_starts_with_refuted :
  let m := builder_mem 2032 (txt "abY") 3 (builder_mem 1032 (txt "abX") 3 zeroes) in
  sb_length m 1032 = 3 /\ load_bytes m 1032 3 = txt "abX" /\ sb_length m 2032 = 3 /\ load_bytes m 2032 3 = txt "abY" /\
  strbuilder_starts_with_string m 1032 2032 = Some true.
Proof. vm_compute. auto. Qed.
Theorem c19_builder_starts_with_partial : forall m a ta ca b tb cb, is_builder m a ta ca -> is_builder m b tb cb -> tb <> [] -> Forall (fun b => b <> 0) tb ->
  exists r, strbuilder_starts_with_string m a b = Some r /\ (r = true <-> zlen tb <= zlen ta /\ is_prefix (removelast tb) ta).
Proof. exact p19_builder_starts_partial. Qed.
Example c19_nontrivial :
  let m := store_bytes (store_bytes zeroes 1000 (txt "template")) 2000 (txt "plat") in
  str_is m 1000 8 (txt "template") /\ str_is m 2000 4 (txt "plat") /\ str_contains m 1000 8 2000 4 = Some true /\
  str_starts_with m 1000 8 2000 4 = Some false /\ str_starts_with m 1000 8 1000 4 = Some true.
Proof. vm_compute. repeat split; auto. Qed.
Print Assumptions c19_str_are_equal. Print Assumptions c19_str_contains. Print Assumptions c19_str_starts_with. Print Assumptions c19_builders.
Print Assumptions c19_builder_str. Print Assumptions c19_embedded_nul_refuted. Print Assumptions c19_builder_starts_with_refuted. Print Assumptions c19_builder_starts_with_partial.
