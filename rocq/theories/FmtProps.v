(** C37: the printf-style formatter. *)
From Coq Require Import String ZArith List Bool Lia.
From Verif Require Import Common Text ArrayModel StrOpsModel StrOpsSpec StrOpsProps StrModel FmtModel FmtSpec FmtProofs.
Import ListNotations.
Open Scope Z_scope.

(** For every format built from literal text and %% %c %s %.*s %S %SB %d %u %ld %lu, with valid
    arguments that do not overlap the buffer: if the rendered text and its NUL fit, the buffer holds
    exactly the rendered text, NUL-terminated, nothing outside it is written (the callee's own local
    array apart), and the return value is the number of bytes written including the NUL - except that
    an exact fit is reported as -1.
    (partial: width, flags, hexadecimal and floating-point conversions are not covered) *)
Theorem c37_format_partial : forall m num text size fmt segs last out fuel,
  byte_mem m -> num <> 0 -> (forall x, text <= x < text + size -> ~ (num <= x < num + 130)) -> size < 2 ^ 31 ->
  literal last -> Forall (fun s => literal (fst s) /\ arg_ok m text size num (snd s)) segs -> unambiguous segs last ->
  cstr m fmt (format_text segs last) -> apart fmt (zlen (format_text segs last) + 1) text size num ->
  renders segs last out -> zlen out + 1 <= size ->
  (66 <= fuel)%nat -> (length segs < fuel)%nat -> (length out <= fuel)%nat ->
  exists m1, c_str_fmt_va fuel m num text size fmt (format_args segs) = Done (m1, if zlen out + 1 =? size then -1 else zlen out + 1) /\
    cstr m1 text out /\ forall x, ~ (text <= x < text + zlen out + 1) -> ~ (num <= x < num + 130) -> m1 x = m x.
Proof. exact p37_format. Qed.
Print Assumptions c37_format_partial.

(** The decimal text of a number, as used above, is unique. *)
Theorem c37_numeral_unique : forall v t1 t2, signed_numeral 10 v t1 -> signed_numeral 10 v t2 -> t1 = t2.
Proof. exact (fun v t1 t2 => signed_numeral_unique 10 v t1 t2 ltac:(lia)). Qed.
Print Assumptions c37_numeral_unique.

(** Literal text is never checked against the size: any literal at least as long as the buffer is
    copied in full past its end. *)
Theorem c37_literal_overflow_refuted : forall m num text n fmt t fuel, byte_mem m -> 1 <= n <= zlen t -> literal t -> cstr m fmt t ->
  (forall x, fmt <= x <= fmt + zlen t -> ~ (text <= x < text + zlen t)) -> (length t <= fuel)%nat -> (1 <= fuel)%nat ->
  exists m1, c_str_fmt_va fuel m num text n fmt [] = Done (m1, -1) /\ load_bytes m1 text (length t) = t /\ m1 (text + zlen t) = 0.
Proof. exact p37_literal_overflow. Qed.
Print Assumptions c37_literal_overflow_refuted.

(** With a zero-sized buffer and a format that starts with an ordinary character the call never returns. *)
Theorem c37_zero_size_hangs_refuted : forall m num text fmt c, byte_mem m -> m fmt = c -> c <> 0 ->
  ~ In c (txt "%0123456789-*.hlztudioxXpfFgGaAcsSr") -> forall fuel args, c_str_fmt_va fuel m num text 0 fmt args = NoFuel.
Proof. exact p37_zero_size_hangs. Qed.
Print Assumptions c37_zero_size_hangs_refuted.

Definition shown (r : run (mem * Z)) (a : Z) (n : nat) : option (list Z * Z) :=
  match r with Done (m, v) => Some (load_bytes m a n, v) | _ => None end.
(** An argument that does not fit is dropped silently: the call reports success. *)
Theorem c37_argument_dropped_refuted :
  shown (c_str_fmt_va 100 (store_bytes (text_at 1000 (txt "%s!")) 2000 (txt "hello")) 9000 5000 4 1000 [APtr 2000]) 5000 2 = Some (txt "!" ++ [0], 2) /\
  shown (c_str_fmt_va 100 (store_bytes (text_at 1000 (txt "%s!")) 2000 (txt "hello")) 9000 5000 8 1000 [APtr 2000]) 5000 7 = Some (txt "hello!" ++ [0], 7).
Proof. split; vm_compute; reflexivity. Qed.
(** A Str with a null pointer prints as "(null)". *)
Theorem c37_null_str_refuted :
  shown (c_str_fmt_va 100 (text_at 1000 (txt "<%S>")) 9000 5000 64 1000 [ASlice 0 0]) 5000 9 = Some (txt "<(null)>" ++ [0], 9).
Proof. vm_compute. reflexivity. Qed.
(** "%S" directly followed by the literal letter B is read as "%SB". *)
Theorem c37_slice_then_B_refuted :
  c_str_fmt_va 100 (store_bytes (text_at 1000 (txt "%SBar")) 2000 (txt "x")) 9000 5000 64 1000 [ASlice 2000 1] = Undefined.
Proof. vm_compute. reflexivity. Qed.
(** "%0d" prints nothing. *)
Theorem c37_zero_flag_refuted :
  shown (c_str_fmt_va 100 (text_at 1000 (txt "%0d")) 9000 5000 64 1000 [AInt 7]) 5000 1 = Some ([0], 1).
Proof. vm_compute. reflexivity. Qed.
(** "%x" lower-cases memory up to the next NUL, also beyond the buffer: here buf is [5000,5004) and the
    bytes after it change from "XYZ" to "xyz". *)
Theorem c37_hex_clobbers_refuted :
  shown (c_str_fmt_va 100 (store_bytes (text_at 1000 (txt "%x")) 5000 (txt "....XYZ")) 9000 5000 4 1000 [AInt 171]) 5000 7 =
  Some (txt "ab" ++ [0] ++ txt ".xyz", 3).
Proof. vm_compute. reflexivity. Qed.
Print Assumptions c37_argument_dropped_refuted. Print Assumptions c37_null_str_refuted. Print Assumptions c37_slice_then_B_refuted.
Print Assumptions c37_zero_flag_refuted. Print Assumptions c37_hex_clobbers_refuted.

(** *** the hypotheses are met: "f(%d,%S)%%" *)
Definition demo_m : mem := store_bytes (text_at 1000 (txt "f(%d,%S)%%")) 2000 (txt "xyz").
Definition demo_segs := [(txt "f(", Int (-5)); (txt ",", Slice 2000 (txt "xy")); (txt ")", Percent)].
Example c37_hypotheses_met :
  Forall (fun s => literal (fst s) /\ arg_ok demo_m 5000 64 9000 (snd s)) demo_segs /\ unambiguous demo_segs [] /\
  cstr demo_m 1000 (format_text demo_segs []) /\ apart 1000 (zlen (format_text demo_segs []) + 1) 5000 64 9000 /\
  renders demo_segs [] (txt "f(-5,xy)%").
Proof.
  assert (L : forall t, forallb (fun b => (1 <=? b) && (b <? 256) && negb (b =? 37)) t = true -> literal t).
  { intros t H. rewrite forallb_forall in H. split; [apply Forall_forall; intros b Hb; apply H in Hb; lia|intros Hb; apply H in Hb; discriminate]. }
  split; [|split; [|split; [|split]]].
  - repeat (apply Forall_cons || apply Forall_nil); split; try (apply L; reflexivity); cbn [snd arg_ok]; try lia; auto.
    split; [lia|]. split; [vm_compute; reflexivity|]. split; [apply (L (txt "xy")); reflexivity|]. intros x. change (zlen (txt "xy")) with 2. lia.
  - cbn [unambiguous demo_segs]. split; auto. split; auto. vm_compute. discriminate.
  - split; [vm_compute; reflexivity|]. split; [|vm_compute; reflexivity].
    change (format_text demo_segs []) with (txt "f(%d,%S)%%"). apply Forall_forall. intros b Hb. 
    assert (H : forallb (fun b => (1 <=? b) && (b <? 256)) (txt "f(%d,%S)%%") = true) by reflexivity. rewrite forallb_forall in H. apply H in Hb. lia.
  - intros x. change (zlen (format_text demo_segs [])) with 10. lia.
  - change (txt "f(-5,xy)%") with (txt "f(" ++ txt "-5" ++ txt "," ++ txt "xy" ++ txt ")" ++ txt "%" ++ []).
    repeat (apply renders_seg || apply renders_last); try reflexivity.
    exists (txt "5"). split; [reflexivity|]. exists [5]. repeat split; auto; try discriminate. constructor; [lia|constructor].
Qed.
