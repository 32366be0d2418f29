(** Properties C20 (integer/text conversion), C21 (character classes), C46 (C string helpers). *)
From Coq Require Import String ZArith List Bool Lia.
From Verif Require Import Common Text ArrayModel StrOpsModel StrOpsSpec StrOpsProofs StrOpsProofs2 StrOpsProofs3.
Import ListNotations.
Open Scope Z_scope.

(** *** C20: the text written is the canonical numeral, written at [s] only, NUL-terminated. *)
Theorem c20_i64_to_str : forall m v s base fuel, byte_mem m -> s <> 0 -> 2 <= base <= 64 -> - 2 ^ 63 < v < 2 ^ 63 -> (66 <= fuel)%nat ->
  exists m1 t, i64_to_str fuel m v s base = Done m1 /\ cstr m1 s t /\ signed_numeral base v t /\ same_outside m m1 s (zlen t + 1).
Proof. exact p20_i64. Qed.
Print Assumptions c20_i64_to_str.
Theorem c20_u64_to_str : forall m v s base fuel, byte_mem m -> s <> 0 -> 2 <= base <= 64 -> 0 <= v < 2 ^ 64 -> (66 <= fuel)%nat ->
  exists m1 t, u64_to_str fuel m v s base = Done m1 /\ cstr m1 s t /\ numeral base v t /\ same_outside m m1 s (zlen t + 1).
Proof. exact p20_u64. Qed.
Print Assumptions c20_u64_to_str.
(** Reading back what i64_to_str wrote, for the bases the parser supports. *)
Theorem c20_roundtrip : forall m v s base fuel m1, byte_mem m -> s <> 0 -> base = 16 \/ 2 <= base <= 10 ->
  - 2 ^ 63 < v < 2 ^ 63 -> (66 <= fuel)%nat ->
  i64_to_str fuel m v s base = Done m1 -> exists t, cstr m1 s t /\
  forall fuel', (length t <= fuel')%nat -> c_str_to_i64 fuel' m1 s base = Done (v, s + zlen t).
Proof. exact p20_roundtrip. Qed.
Print Assumptions c20_roundtrip.
(** Parsing any literal: optional minus, optional 0x in base 16, digits of either case (leading zeros
    allowed), up to the first byte that is no digit; value and end pointer. *)
Theorem c20_parse_literal : forall m str base (neg hexp : bool) cs ds fuel, byte_mem m -> base = 16 \/ 2 <= base <= 10 ->
  cs <> [] -> Forall2 (denotes base) cs ds -> digits_value base ds < 2 ^ 63 ->
  let t := literal_text base neg hexp cs in
  load_bytes m str (length t) = t -> ~ In (m (str + zlen t)) DIGITS ->
  (base = 16 -> ~ In (m (str + zlen t)) (120 :: HEX_LOWER ++ HEX_UPPER)) -> (length cs <= fuel)%nat ->
  c_str_to_i64 fuel m str base = Done (if neg then - digits_value base ds else digits_value base ds, str + zlen t).
Proof. exact p20_parse_lit. Qed.
Print Assumptions c20_parse_literal.
(** base 0 means: 16 for texts longer than two bytes that start with 0x, 10 otherwise *)
Theorem c20_base_detection : forall m str t fuel, str <> 0 -> cstr m str t -> (length t <= fuel)%nat ->
  c_str_to_i64 fuel m str 0 =
  c_str_to_i64 fuel m str (if (2 <? zlen t) && (nth 0 t 0 =? 48) && (nth 1 t 0 =? 120) then 16 else 10).
Proof. exact p20_auto_base. Qed.
Print Assumptions c20_base_detection.
(** INT64_MIN cannot be printed: negating it overflows. *)
Theorem c20_int64_min_refuted : forall m s base fuel, i64_to_str fuel m (- 2 ^ 63) s base = Undefined.
Proof. exact p20_int64_min. Qed.
Print Assumptions c20_int64_min_refuted.
Definition text_at (a : Z) (t : list Z) : mem := store_bytes (fun _ => 0) a t.
(** The printer accepts bases the parser does not: 35 in base 36 is "Z", which parses as 0. *)
Theorem c20_base36_refuted :
  match i64_to_str 66 (fun _ => 0) 35 1000 36 with
  | Done m1 => load_bytes m1 1000 2 = txt "Z" ++ [0] /\ c_str_to_i64 66 m1 1000 36 = Done (0, 1000)
  | _ => False end.
Proof. vm_compute. auto. Qed.
(** In a base below ten the parser also accepts digits that are none: "19" in base 8 gives 17. *)
Theorem c20_octal_nine_refuted : c_str_to_i64 66 (text_at 1000 (txt "19")) 1000 8 = Done (17, 1002).
Proof. vm_compute. reflexivity. Qed.
Print Assumptions c20_octal_nine_refuted.
Example c20_nontrivial :
  match i64_to_str 66 (fun _ => 0) (-1234) 1000 10 with
  | Done m1 => load_bytes m1 1000 6 = txt "-1234" ++ [0] /\ c_str_to_i64 66 m1 1000 10 = Done (-1234, 1005)
  | _ => False end.
Proof. vm_compute. auto. Qed.
Example c20_parse_nontrivial : c_str_to_i64 66 (text_at 1000 (txt "-0xfF;")) 1000 16 = Done (-255, 1005) /\
  Forall2 (denotes 16) (txt "fF") [15; 15].
Proof. split; [vm_compute; reflexivity|]. repeat constructor; cbn; try lia; right; split; auto. Qed.

(** *** C21 *)
Theorem c21_is_alpha : forall b, 0 <= b < 256 -> (char_is_alpha b = true <-> In b (UPPER ++ LOWER)).
Proof. exact p21_alpha. Qed.
Theorem c21_is_digit : forall b, 0 <= b < 256 -> (char_is_digit b = true <-> In b DIGITS).
Proof. exact p21_digit. Qed.
Theorem c21_is_alphanumeric : forall b, 0 <= b < 256 -> (char_is_alphanumeric b = true <-> In b (UPPER ++ LOWER ++ DIGITS)).
Proof. exact p21_alnum. Qed.
Theorem c21_is_hex_digit : forall b, 0 <= b < 256 -> (char_is_hex_digit b = true <-> In b (HEX_LOWER ++ HEX_UPPER)).
Proof. exact p21_hex. Qed.
Theorem c21_is_space : forall b, 0 <= b < 256 -> (char_is_space b = true <-> In b BLANKS).
Proof. exact p21_space. Qed.
Theorem c21_case_letters : length UPPER = 26%nat /\ length LOWER = 26%nat /\
  forall i, (i < 26)%nat -> char_to_lower (nth i UPPER 0) = nth i LOWER 0 /\ char_to_upper (nth i LOWER 0) = nth i UPPER 0.
Proof. exact p21_case. Qed.
Theorem c21_case_others : forall b, 0 <= b < 256 -> (~ In b UPPER -> char_to_lower b = b) /\ (~ In b LOWER -> char_to_upper b = b).
Proof. exact p21_case_other. Qed.
Theorem c21_digit_values : forall i, (i < 16)%nat -> hex_digit_to_int (nth i HEX_LOWER 0) = Z.of_nat i /\
  hex_digit_to_int (nth i HEX_UPPER 0) = Z.of_nat i /\ digit_to_int (nth i HEX_LOWER 0) = Z.of_nat i.
Proof. exact p21_hexval. Qed.
Theorem c21_not_hex : forall b, 0 <= b < 256 -> ~ In b (HEX_LOWER ++ HEX_UPPER) -> hex_digit_to_int b = -1.
Proof. exact p21_hexnone. Qed.
(** digit_to_int does not understand upper-case hex letters *)
Theorem c21_digit_to_int_upper_refuted : digit_to_int (nth 10 HEX_UPPER 0) <> 10.
Proof. exact p21_digit_upper_refuted. Qed.
Print Assumptions c21_is_alpha. Print Assumptions c21_is_digit. Print Assumptions c21_is_alphanumeric. Print Assumptions c21_is_hex_digit.
Print Assumptions c21_is_space. Print Assumptions c21_case_letters. Print Assumptions c21_case_others. Print Assumptions c21_digit_values.
Print Assumptions c21_not_hex. Print Assumptions c21_digit_to_int_upper_refuted.

(** *** C46 *)
Theorem c46_len : forall m s t fuel, s <> 0 -> cstr m s t -> (length t <= fuel)%nat -> c_str_len fuel m s = Some (zlen t).
Proof. exact p46_len. Qed.
Theorem c46_len_null : forall m fuel, c_str_len fuel m 0 = Some 0.
Proof. exact p46_len_null. Qed.
Theorem c46_compare : forall m t1 t2 s1 s2 fuel, cstr m s1 t1 -> cstr m s2 t2 -> (length t1 <= fuel)%nat ->
  exists c, c_str_compare fuel m s1 s2 = Some c /\ (c < 0 <-> lex_lt t1 t2) /\ (c = 0 <-> t1 = t2) /\ (c > 0 <-> lex_lt t2 t1).
Proof. exact compare_loop. Qed.
(** equality of at most n bytes up to the first NUL is decided; but the sign of an inequality is the
    order of the two *addresses* *)
Theorem c46_compare_len_partial : forall m s1 s2 n, 0 <= n -> exists c, c_str_compare_len m s1 s2 n = Some c /\
  (c = 0 <-> until_nul (load_bytes m s1 (Z.to_nat n)) = until_nul (load_bytes m s2 (Z.to_nat n))) /\
  (c <> 0 -> c = if s1 <? s2 then -1 else 1).
Proof. exact p46_compare_len. Qed.
Theorem c46_compare_len_order_refuted :
  let m := store_bytes (text_at 1000 (txt "b")) 2000 (txt "a") in
  lex_lt (load_bytes m 2000 1) (load_bytes m 1000 1) /\ c_str_compare_len m 1000 2000 1 = Some (-1).
Proof. split; vm_compute; [apply lex_head; reflexivity|reflexivity]. Qed.
Theorem c46_copy : forall m d s l t, s <> 0 -> load_bytes m s (length t) = t -> Forall (fun b => 1 <= b < 256) t -> zlen t <= l ->
  (zlen t < l -> m (s + zlen t) = 0) -> (forall x, d <= x < d + l -> ~ (s <= x <= s + zlen t)) ->
  exists m1, c_str_copy m d s l = Some (m1, d) /\ c_str_copy_nulpad m d s l = Some (m1, zlen t) /\
    load_bytes m1 d (Z.to_nat l) = t ++ repeat 0 (Z.to_nat (l - zlen t)) /\ same_outside m m1 d l.
Proof. exact p46_copy. Qed.
Theorem c46_reverse : forall m s t fuel, byte_mem m -> s <> 0 -> cstr m s t -> (length t <= fuel)%nat ->
  exists m1, c_str_reverse fuel m s = Some m1 /\ cstr m1 s (rev t) /\ same_outside m m1 s (zlen t).
Proof. exact p46_reverse. Qed.
Theorem c46_skip : forall m s t c fuel, cstr m s t -> (length t <= fuel)%nat ->
  c_str_skip fuel m s c = Some (s + run_length (fun b => negb (b =? c)) t).
Proof. exact p46_skip. Qed.
Theorem c46_skip_any : forall m s t lst cs fuel, s <> 0 -> lst <> 0 -> cstr m s t -> cstr m lst cs ->
  (length t <= fuel)%nat -> (length cs <= fuel)%nat ->
  c_str_skip_any fuel m s lst = Some (s + run_length (fun b => negb (existsb (Z.eqb b) cs)) t).
Proof. exact p46_skip_any. Qed.
Theorem c46_trim : forall m s t nl fuel, cstr m s t -> (length t <= fuel)%nat ->
  c_str_trim fuel m s nl = Some (s + run_length (fun b => char_is_space b && negb (nl && (b =? 10))) t).
Proof. exact p46_trim. Qed.
Theorem c46_first_occurrence : forall m s t c fuel, cstr m s t -> (length t <= fuel)%nat ->
  char_first_occurence fuel m s c =
  Some (if (c =? 0) || existsb (Z.eqb c) t then Some (s + run_length (fun b => negb (b =? c)) t) else None).
Proof. exact p46_first. Qed.
Theorem c46_case : forall f s t m fuel, f = char_to_lower \/ f = char_to_upper -> s <> 0 -> cstr m s t -> (length t <= fuel)%nat ->
  exists m1, c_str_map f fuel m s = Some m1 /\ cstr m1 s (map f t) /\ same_outside m m1 s (zlen t).
Proof. exact p46_case. Qed.
Print Assumptions c46_len. Print Assumptions c46_compare. Print Assumptions c46_compare_len_partial. Print Assumptions c46_copy.
Print Assumptions c46_reverse. Print Assumptions c46_skip. Print Assumptions c46_skip_any. Print Assumptions c46_trim. Print Assumptions c46_first_occurrence.
Print Assumptions c46_case. Print Assumptions c46_len_null. Print Assumptions c46_compare_len_order_refuted. Print Assumptions c20_base36_refuted.
Example c46_hypotheses_met : cstr (text_at 1000 (txt "gencpp rocks")) 1000 (txt "gencpp rocks").
Proof. split; [vm_compute; reflexivity|]. split; [cbn; repeat (apply Forall_cons; [lia|]); apply Forall_nil|vm_compute; reflexivity]. Qed.
Example c46_skip_any_value : c_str_skip_any 20 (store_bytes (text_at 1000 (txt "gencpp rocks")) 2000 (txt "k ")) 1000 2000 = Some 1006.
Proof. vm_compute. reflexivity. Qed.
