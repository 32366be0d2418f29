(** Proofs for C41: the serializers compute [render]. *)
From Coq Require Import String ZArith List Bool Lia ZifyBool ZifyNat.
From Verif Require Import Common Text ArrayModel StrOpsModel EnumModel EnumSpec AstModel AstSpec SerModel SerSpec.
Import ListNotations.
Close Scope string_scope.
Open Scope Z_scope.

Notation len := (fun t : list Z => Z.of_nat (List.length t)).
Definition fits (t : list Z) : Prop := Z.of_nat (List.length t) + 1 < FMT_ROOM.
Lemma fits_le a b : (List.length a <= List.length b)%nat -> fits b -> fits a.
Proof. unfold fits. lia. Qed.

Ltac lens := repeat rewrite app_length in *; cbn [List.length] in *.
Ltac fit := match goal with H : fits ?b |- fits ?a => apply (fits_le a b); [lens; lia|exact H] end.

Definition parts_text (ps : list part) : list Z := concat (map part_text ps).
Lemma fmt_out_all : forall ps r, Z.of_nat (List.length (parts_text ps)) <= r -> fmt_out r ps = parts_text ps.
Proof.
  induction ps as [|p ps IH]; intros r H; [reflexivity|]. unfold parts_text in *. cbn [map concat] in *. rewrite app_length in H.
  assert (G : (let t := part_text p in if Z.of_nat (List.length t) >? r then fmt_out r ps else t ++ fmt_out (r - Z.of_nat (List.length t)) ps) = part_text p ++ concat (map part_text ps)).
  { cbn zeta. replace (Z.of_nat (List.length (part_text p)) >? r) with false by lia. rewrite IH by lia. reflexivity. }
  destruct p; [|exact G|exact G]. cbn [fmt_out part_text] in *. rewrite IH by lia. reflexivity.
Qed.
Lemma append_fmt_ok ps : fits (parts_text ps) -> append_fmt ps = Done (parts_text ps).
Proof.
  unfold fits, append_fmt. intros H. rewrite fmt_out_all by lia. replace (Z.of_nat (List.length (parts_text ps)) + 1 >=? FMT_ROOM) with false by lia. reflexivity.
Qed.
Lemma named_part t : t <> [] -> part_text (N t) = t.
Proof. destruct t; [contradiction|reflexivity]. Qed.
Lemma append_fmt_is ps t : parts_text ps = t -> fits t -> append_fmt ps = Done t.
Proof. intros <-. apply append_fmt_ok. Qed.

Ltac norm := repeat rewrite <- app_assoc; rewrite ?app_nil_r; cbn [app].
Ltac parts := unfold parts_text; cbn [map concat]; rewrite ?named_part by assumption; cbn [part_text]; norm; reflexivity.

Lemma get_valid h c : valid h c -> get h c = Done (h_node h c).
Proof. unfold valid, get. intros H. replace ((0 <? c) && (c <? h_top h)) with true by lia. reflexivity. Qed.
Lemma valid_nz h c : valid h c -> (c =? 0) = false.
Proof. unfold valid. lia. Qed.

Lemma export_ok n x : exports n x -> export_kw n = Done (when x "export ").
Proof.
  unfold exports, export_kw, flag_set, ModuleFlag_Export, lit, nothing. intros E.
  replace (Z.land (n_flags n) 1 =? 1) with x; [destruct x; reflexivity|]. rewrite <- E. change 1 with (Z.ones 1) at 1. rewrite Z.land_ones by lia.
  change (2 ^ 1) with 2. rewrite Z.bit0_odd, Zodd_mod. unfold Zeq_bool. destruct (n_flags n mod 2 =? 1) eqn:K; destruct (Z.compare_spec (n_flags n mod 2) 1); lia.
Qed.
Lemma import_ok n x : imports n x -> flag_set n ModuleFlag_Import = x.
Proof.
  unfold imports, flag_set, ModuleFlag_Import. intros <-.
  assert (E : Z.land (n_flags n) 2 = if Z.testbit (n_flags n) 1 then 2 else 0).
  { apply Z.bits_inj'. intros i Hi. rewrite Z.land_spec. destruct (Z.eq_dec i 1) as [->|Ne].
    - change (Z.testbit 2 1) with true. destruct (Z.testbit (n_flags n) 1); reflexivity.
    - assert (Z.testbit 2 i = false) as K. { change 2 with (2 ^ 1). apply Z.pow2_bits_false. lia. }
      rewrite K, andb_false_r. destruct (Z.testbit (n_flags n) 1); [symmetry; exact K|symmetry; apply Z.bits_0]. }
  rewrite E. destruct (Z.testbit (n_flags n) 1); reflexivity.
Qed.

Lemma content_ok h c t : content_at h c t -> content_of h c = Done t.
Proof. intros (Vc & <-). unfold content_of. rewrite get_valid by assumption. reflexivity. Qed.

Lemma attrs_ok h n o : maybe (content_at h) (n_attrs n) o -> fits (with_ o sp) -> attrs_sp h n = Done (with_ o sp).
Proof.
  unfold attrs_sp. destruct o as [a|]; cbn [maybe with_].
  - intros C F. rewrite (valid_nz h) by apply C. rewrite (content_ok _ _ _ C). cbn [rbind]. apply append_fmt_is; [parts|exact F].
  - intros -> _. reflexivity.
Qed.
Lemma semi_ok h n o : maybe (comment_at h) (n_inline n) o -> fits (semi o) -> semi_or_comment h n = Done (semi o).
Proof.
  unfold semi_or_comment, semi. destruct o as [c|]; cbn [maybe].
  - intros (C & Ne) F. rewrite (valid_nz h) by apply C. rewrite (content_ok _ _ _ C). cbn [rbind]. apply append_fmt_is; [parts|exact F].
  - intros -> _. reflexivity.
Qed.
Lemma ends_ok h n : statement h n -> ends_statement h n = Done true.
Proof.
  unfold statement, ends_statement, ct_eqb. intros [->|(Vc & A & B)]; [reflexivity|]. rewrite (valid_nz h) by assumption. rewrite get_valid by assumption. cbn [rbind].
  destruct (ct_eq_dec _ CT_Typedef); [contradiction|]. destruct (ct_eq_dec _ CT_Variable); [contradiction|]. reflexivity.
Qed.
Lemma end_def_ok h n : statement h n -> end_def h n = Done (txt ";" ++ NL).
Proof. intros S. unfold end_def. rewrite ends_ok by assumption. reflexivity. Qed.

(** ** specifiers *)
Lemma spec_to_str_ok s : known_spec s -> spec_to_str s = Done (spec_text s) /\ (List.length (spec_text s) <= 20)%nat /\
  spec_is_trailing s = trails s /\ glued s = symbol s.
Proof.
  unfold known_spec. intros H. cbn [map fst specifier_spelling In] in H.
  repeat (destruct H as [<-|H]; [vm_compute; repeat split; lia|]). destruct H.
Qed.
Lemma specs_arr n i : specs_ok n -> 0 <= i < n_num n -> arr_at n i = Done (nth (Z.to_nat i) (specs_of n) 0).
Proof.
  intros (A & B) H. unfold arr_at. change SPECS_CAP with 14. replace ((0 <=? i) && (i <? 14)) with true by lia.
  unfold specs_of. f_equal. symmetry.
  rewrite <- (firstn_skipn (Z.to_nat (n_num n)) (n_arr n)) at 2. rewrite app_nth1; [reflexivity|]. rewrite firstn_length. lia.
Qed.
Lemma specs_length n : specs_ok n -> List.length (specs_of n) = Z.to_nat (n_num n).
Proof. intros (A & B). unfold specs_of. rewrite firstn_length. lia. Qed.

(** one more specifier of the list *)
Lemma skipn_nth (l : list Z) i : (i < List.length l)%nat -> skipn i l = nth i l 0 :: skipn (S i) l.
Proof. revert i. induction l as [|x l IH]; intros [|i] H; cbn [List.length] in *; try lia; [reflexivity|]. cbn [skipn nth]. apply IH. lia. Qed.

Lemma spec_loop_ok n (f : Z -> run text) (g : Z -> text) : specs_ok n -> (forall s, In s (specs_of n) -> f s = Done (g s)) ->
  forall k i, Z.of_nat k = n_num n - i -> 0 <= i -> spec_loop k n f i = Done (concat (map g (skipn (Z.to_nat i) (specs_of n)))).
Proof.
  intros S F. pose proof (specs_length n S) as L. induction k as [|k IH]; intros i E Hi.
  - cbn [spec_loop]. rewrite skipn_all2 by lia. reflexivity.
  - cbn [spec_loop]. rewrite specs_arr by (auto; lia). cbn [rbind]. rewrite F by (apply nth_In; lia). cbn [rbind].
    rewrite IH by lia. cbn [rbind]. rewrite (skipn_nth _ (Z.to_nat i)) by lia. cbn [map concat]. replace (Z.to_nat (i + 1)) with (Datatypes.S (Z.to_nat i)) by lia. reflexivity.
Qed.
Lemma for_specs_ok h c l (f : Z -> run text) (g : Z -> text) : specs_at h c l -> (forall s, In s l -> known_spec s -> f s = Done (g s)) ->
  for_specs h c f = Done (concat (map g l)).
Proof.
  intros (Vc & S & <- & K) F. unfold for_specs. rewrite get_valid by assumption. cbn [rbind]. rewrite (spec_loop_ok _ f g); auto; try lia.
  - intros s I. apply F; [exact I|]. rewrite Forall_forall in K. auto.
  - destruct S. lia.
Qed.
Lemma filter_concat (sel : Z -> bool) (g : Z -> text) l : concat (map (fun s => if sel s then g s else []) l) = concat (map g (filter sel l)).
Proof. induction l as [|x l IH]; [reflexivity|]. cbn [map concat filter]. rewrite IH. destruct (sel x); reflexivity. Qed.
Lemma short_fits t : (List.length t <= 40)%nat -> fits t.
Proof. unfold fits, FMT_ROOM. lia. Qed.
Lemma spaced_ok h c o sel sel' : maybe (specs_at h) c o -> (forall s, known_spec s -> (forall l, o = Some l -> In s l) -> sel s = sel' s) ->
  spaced_specs h c sel = Done (spec_words sel' o).
Proof.
  unfold spaced_specs, spec_words. destruct o as [l|]; cbn [maybe with_].
  - intros S E. rewrite (valid_nz h) by apply S.
    rewrite (for_specs_ok _ _ _ _ (fun s => if sel' s then txt " " ++ spec_text s else []) S).
    + f_equal. apply (filter_concat sel' (fun s => txt " " ++ spec_text s)).
    + intros s I K. rewrite E by (auto; intros l' El; injection El as <-; auto). destruct (spec_to_str_ok s K) as (T & B & _). destruct (sel' s); [|reflexivity]. rewrite T. cbn [rbind].
      apply append_fmt_is; [parts|]. apply short_fits. rewrite app_length. change (List.length (txt " ")) with 1%nat. lia.
  - intros -> _. reflexivity.
Qed.
Lemma any_ok n (sel sel' : Z -> bool) : specs_ok n -> (forall s, In s (specs_of n) -> sel s = sel' s) ->
  forall k i, Z.of_nat k = n_num n - i -> 0 <= i -> any_spec k n sel i = Done (existsb sel' (skipn (Z.to_nat i) (specs_of n))).
Proof.
  intros S F. pose proof (specs_length n S) as L. induction k as [|k IH]; intros i E Hi.
  - cbn [any_spec]. rewrite skipn_all2 by lia. reflexivity.
  - cbn [any_spec]. rewrite specs_arr by (auto; lia). cbn [rbind]. rewrite IH by lia. cbn [rbind].
    rewrite (skipn_nth _ (Z.to_nat i)) by lia. cbn [existsb]. rewrite F by (apply nth_In; lia). replace (Z.to_nat (i + 1)) with (Datatypes.S (Z.to_nat i)) by lia. reflexivity.
Qed.
Lemma some_ok h c o sel sel' : maybe (specs_at h) c o -> (forall s, known_spec s -> (forall l, o = Some l -> In s l) -> sel s = sel' s) ->
  some_spec h c sel = Done (selects sel' o).
Proof.
  unfold some_spec, selects. destruct o as [l|]; cbn [maybe].
  - intros (Vc & S & <- & K) E. rewrite (valid_nz h) by assumption. rewrite get_valid by assumption. cbn [rbind].
    rewrite (any_ok _ sel sel'); auto; try lia.
    + intros s I. apply E; [rewrite Forall_forall in K; auto|]. intros l El. injection El as <-. auto.
    + destruct S. lia.
  - intros -> _. reflexivity.
Qed.
Lemma has_loop_ok n spec : specs_ok n -> forall k i, Z.of_nat k = n_num n - i -> 0 <= i ->
  has_loop k n i spec = Done (existsb (Z.eqb spec) (skipn (Z.to_nat i) (specs_of n))).
Proof.
  intros S. pose proof (specs_length n S) as L. induction k as [|k IH]; intros i E Hi.
  - cbn [has_loop]. rewrite skipn_all2 by lia. reflexivity.
  - cbn [has_loop]. rewrite specs_arr by (auto; lia). cbn [rbind]. rewrite (skipn_nth _ (Z.to_nat i)) by lia. cbn [existsb]. rewrite (Z.eqb_sym spec).
    destruct (_ =? spec); [reflexivity|]. rewrite IH by lia. replace (Z.to_nat (i + 1)) with (Datatypes.S (Z.to_nat i)) by lia. reflexivity.
Qed.
Lemma has_spec_ok h c l s : specs_at h c l -> has_spec h c s = Done (existsb (Z.eqb s) l).
Proof.
  intros (Vc & S & <- & K). unfold has_spec, specifiers_has. rewrite get_valid by assumption. cbn [rbind]. rewrite has_loop_ok by (auto; try destruct S; lia). reflexivity.
Qed.
Lemma existsb_in s l : In s l -> existsb (Z.eqb s) l = true.
Proof. intros H. apply existsb_exists. exists s. split; [auto|apply Z.eqb_refl]. Qed.
Lemma existsb_not_in s l : ~ In s l -> existsb (Z.eqb s) l = false.
Proof. intros H. destruct (existsb (Z.eqb s) l) eqn:E; [|reflexivity]. apply existsb_exists in E. destruct E as (x & I & J). apply Z.eqb_eq in J. subst x. contradiction. Qed.
Lemma final_ok h c b : is_final h c b ->
  (if c =? 0 then nothing else do f <- has_spec h c Spec_Final; if f then lit " final" else nothing) = Done (when b " final").
Proof.
  unfold is_final. destruct b.
  - intros (l & S & I). rewrite (valid_nz h) by apply S. rewrite (has_spec_ok _ _ _ _ S). cbn [rbind]. rewrite existsb_in by assumption. reflexivity.
  - intros [->|(l & S & I)]; [reflexivity|]. rewrite (valid_nz h) by apply S. rewrite (has_spec_ok _ _ _ _ S). cbn [rbind]. rewrite existsb_not_in by assumption. reflexivity.
Qed.

Lemma specifiers_loop_ok n : specs_ok n -> Forall known_spec (specs_of n) -> forall k i, Z.of_nat k = n_num n - i -> 0 <= i ->
  specifiers_loop k n i = Done (if i =? 0 then specs_text (specs_of n) else more_specs (skipn (Z.to_nat i) (specs_of n))).
Proof.
  intros S K. pose proof (specs_length n S) as L. induction k as [|k IH]; intros i E Hi.
  - cbn [specifiers_loop]. destruct (Z.eqb_spec i 0) as [->|Ne].
    + destruct (specs_of n); [reflexivity|cbn [List.length] in L; lia].
    + rewrite skipn_all2 by lia. reflexivity.
  - cbn [specifiers_loop]. rewrite specs_arr by (auto; lia). cbn [rbind]. set (s := nth (Z.to_nat i) (specs_of n) 0).
    assert (Ks : known_spec s). { rewrite Forall_forall in K. apply K, nth_In. lia. }
    destruct (spec_to_str_ok s Ks) as (T & B & _ & G). rewrite T. cbn [rbind].
    rewrite (append_fmt_is [V (spec_text s)] (spec_text s)); [|parts|apply short_fits; lia]. cbn [rbind]. rewrite IH by lia. cbn [rbind]. rewrite G.
    replace (i + 1 =? 0) with false by lia. f_equal. replace (Z.to_nat (i + 1)) with (Datatypes.S (Z.to_nat i)) by lia.
    destruct (Z.eqb_spec i 0) as [->|Ne].
    + cbn [Z.gtb Z.compare andb app]. subst s. destruct (specs_of n) as [|x r]; [cbn [List.length] in L; lia|]. reflexivity.
    + replace (i >? 0) with true by lia. cbn [andb]. rewrite (skipn_nth _ (Z.to_nat i)) by lia. fold s. cbn [more_specs]. destruct (symbol s); reflexivity.
Qed.
Lemma specifiers_ok h c l m : specs_at h c l -> serialize (S m) h F_specifiers c = Done (specs_text l).
Proof.
  intros (Vc & S & <- & K). cbn [serialize ser_step]. rewrite get_valid by assumption. cbn [rbind]. unfold specifiers_ref.
  rewrite specifiers_loop_ok by (auto; try destruct S; lia). reflexivity.
Qed.

(** ** type names and parameters *)
Lemma typename_ok h c t m : typ_at h c t -> fits (typ_text t) -> (2 <= m)%nat -> serialize m h F_typename c = Done (typ_text t).
Proof.
  intros (Vc & A & Nm & Ne & At & Sp & Tg & Pk) F Hm. destruct m as [|m]; [lia|]. cbn [serialize ser_step]. rewrite get_valid by assumption. cbn [rbind].
  set (n := h_node h c) in *. unfold typename_ref. replace (negb (n_ret n =? 0) && negb (n_params n =? 0)) with false by lia.
  unfold typ_text in *. rewrite (attrs_ok _ _ _ At) by fit.
  assert (T : tag_text n = Done (txt (match ty_tag t with NoTag => "" | TagClass => "class " | TagEnum => "enum " | TagStruct => "struct " | TagUnion => "union " end))).
  { unfold tag_text. rewrite Tg. destruct (ty_tag t); reflexivity. }
  rewrite T. rewrite Nm.
  assert (S : (if n_specs n =? 0 then append_fmt [N (ty_name t)] else do s <- serialize m h F_specifiers (n_specs n); append_fmt [N (ty_name t); L " "; V s]) =
    Done (ty_name t ++ with_ (ty_specs t) (fun l => txt " " ++ specs_text l))).
  { destruct (ty_specs t) as [l|]; cbn [maybe with_] in *.
    - rewrite (valid_nz h) by apply Sp. destruct m as [|m]; [lia|]. rewrite (specifiers_ok _ _ _ _ Sp). cbn [rbind]. apply append_fmt_is; [parts|fit].
    - rewrite Sp. cbn [Z.eqb]. apply append_fmt_is; [parts|]. fit. }
  rewrite S.
  assert (P : (if is_pack n then lit "..." else nothing) = Done (when (ty_pack t) "...")).
  { unfold is_pack. destruct (ty_pack t) eqn:E.
    - assert (n_num n mod 2 ^ 16 <> 0) as H by (apply Pk; reflexivity). apply Z.eqb_neq in H. rewrite H. reflexivity.
    - destruct (n_num n mod 2 ^ 16 =? 0) eqn:K; [reflexivity|]. apply Z.eqb_neq, Pk in K. discriminate. }
  rewrite P. cbn [cat rbind]. norm. reflexivity.
Qed.
Lemma raw_ok h c t m : raw_at h c t -> serialize (S m) h F_code c = Done t.
Proof.
  intros ((Vc & K) & <-). cbn [serialize ser_step]. unfold code_ref. rewrite get_valid by assumption. cbn [rbind].
  cbn [text_kinds In] in K. destruct K as [E|[E|[E|[E|[]]]]]; rewrite <- E; reflexivity.
Qed.
Lemma raw_nz h c t : raw_at h c t -> (c =? 0) = false.
Proof. intros ((Vc & _) & _). apply (valid_nz h). exact Vc. Qed.
Lemma typ_nz h c t : typ_at h c t -> (c =? 0) = false.
Proof. intros (Vc & _). apply (valid_nz h). exact Vc. Qed.

Lemma param_head_ok h c p m : param_at h c p -> fits (param_text p) -> (2 <= m)%nat ->
  forall tail t, (if n_num (h_node h c) - 1 >? 0 then next_loop m h (fun p => do t <- serialize m h F_params p; append_fmt [L ", "; V t]) (n_next (h_node h c)) else nothing) = Done tail ->
  t = param_text p ++ tail -> serialize (S m) h F_params c = Done t.
Proof.
  intros (Vc & A & B & C & D & E) F Hm tail t R ->. cbn [serialize ser_step]. rewrite get_valid by assumption. cbn [rbind]. set (n := h_node h c) in *. unfold params_ref.
  rewrite R, A, B. cbn [Z.eqb]. unfold nothing. unfold param_text in *. rewrite C.
  assert (X : (match p_name p with [] => if n_ret n =? 0 then Done [] else do t <- serialize m h F_typename (n_ret n); append_fmt [L " "; V t]
               | _ => if n_ret n =? 0 then append_fmt [L " "; N (p_name p)] else do t <- serialize m h F_typename (n_ret n); append_fmt [L " "; V t; L " "; N (p_name p)] end) =
    Done (with_ (p_type p) (fun t => txt " " ++ typ_text t) ++ match p_name p with [] => [] | n => txt " " ++ n end)).
  { destruct (p_type p) as [ty|]; cbn [maybe with_] in *.
    - rewrite (typ_nz _ _ _ D). rewrite (typename_ok _ _ _ m D) by (first [fit|lia]). cbn [rbind].
      destruct (p_name p) as [|x nm]; apply append_fmt_is; try fit; parts.
    - rewrite D. cbn [Z.eqb]. destruct (p_name p) as [|x nm]; [reflexivity|]. apply append_fmt_is; [parts|fit]. }
  unfold nothing in X. rewrite X.
  assert (Y : (if n_body n =? 0 then Done [] else do t <- serialize m h F_code (n_body n); append_fmt [L " = "; V t]) = Done (with_ (p_value p) (fun v => txt " = " ++ v))).
  { destruct (p_value p) as [v|]; cbn [maybe with_] in *.
    - rewrite (raw_nz _ _ _ E). destruct m as [|m]; [lia|]. rewrite (raw_ok _ _ _ _ E). cbn [rbind]. apply append_fmt_is; [parts|fit].
    - rewrite E. reflexivity. }
  rewrite Y. cbn [cat rbind]. norm. reflexivity.
Qed.
Lemma params_from_ok h m : (2 <= m)%nat -> forall l c k, params_from h c l -> fits (concat (map (fun q => txt ", " ++ param_text q) l)) -> (List.length l < k)%nat ->
  next_loop k h (fun p => do t <- serialize (S m) h F_params p; append_fmt [L ", "; V t]) c = Done (concat (map (fun q => txt ", " ++ param_text q) l)).
Proof.
  intros Hm. induction l as [|p l IH]; intros c k H F Hk; (destruct k as [|k]; [cbn [List.length] in Hk; lia|]); cbn [next_loop params_from List.length map concat] in *.
  - subst c. reflexivity.
  - destruct H as (P & Nm & R). pose proof P as (Vc & _). rewrite (valid_nz h) by assumption.
    rewrite (param_head_ok _ _ _ m P) with (tail := []) (t := param_text p); try lia; try fit; [|replace (n_num (h_node h c) - 1 >? 0) with false by lia; reflexivity|norm; reflexivity].
    cbn [rbind]. rewrite (append_fmt_is _ (txt ", " ++ param_text p)); [|parts|fit]. cbn [rbind]. rewrite get_valid by assumption. cbn [rbind].
    rewrite IH by (auto; first [fit|lia]). cbn [rbind]. norm. reflexivity.
Qed.
(** a parameter list of one or more parameters *)
Lemma params_ok h c l m : params_at h c l -> l <> [] -> fits (params_text l) -> (List.length l + 3 <= m)%nat ->
  serialize m h F_params c = Done (params_text l).
Proof.
  destruct l as [|p r]; [contradiction|]. intros (P & Nm & R) _ F Hm. cbn [List.length] in *. destruct m as [|[|m]]; [lia|lia|].
  apply (param_head_ok _ _ _ (S m) P) with (tail := concat (map (fun q => txt ", " ++ param_text q) r)).
  - unfold params_text in F. fit.
  - lia.
  - destruct r as [|q r].
    + cbn [List.length] in Nm. replace (n_num (h_node h c) - 1 >? 0) with false by lia. reflexivity.
    + cbn [List.length] in *. replace (n_num (h_node h c) - 1 >? 0) with true by lia. apply params_from_ok; [lia|apply R; discriminate|unfold params_text in F; fit|cbn [List.length]; lia].
  - reflexivity.
Qed.
Lemma params_nz h c l : params_at h c l -> l <> [] -> (c =? 0) = false.
Proof. destruct l as [|p r]; [contradiction|]. intros ((Vc & _) & _) _. apply (valid_nz h). exact Vc. Qed.

(** chains of types and of texts *)
Lemma typs_ok h m (sep : string) : (2 <= m)%nat -> forall l c k, typs_from h c l -> fits (concat (map (fun t => txt sep ++ typ_text t) l)) -> (List.length l < k)%nat ->
  next_loop k h (fun i => do t <- serialize m h F_typename i; append_fmt [L sep; V t]) c = Done (concat (map (fun t => txt sep ++ typ_text t) l)).
Proof.
  intros Hm. induction l as [|p l IH]; intros c k H F Hk; (destruct k as [|k]; [cbn [List.length] in Hk; lia|]); cbn [next_loop typs_from List.length map concat] in *.
  - subst c. reflexivity.
  - destruct H as (P & R). rewrite (typ_nz _ _ _ P). rewrite (typename_ok _ _ _ m P) by (first [fit|lia]). cbn [rbind].
    rewrite (append_fmt_is _ (txt sep ++ typ_text p)); [|parts|fit]. cbn [rbind]. rewrite get_valid by apply P. cbn [rbind]. rewrite IH by (auto; first [fit|lia]). reflexivity.
Qed.
Lemma raws_ok h m : forall l c k, raws_from h c l -> fits (sizes_text l) -> (List.length l < k)%nat ->
  next_loop k h (fun a => do t <- serialize (S m) h F_code a; append_fmt [L "[ "; V t; L (" ]" ++ "")]) c = Done (sizes_text l).
Proof.
  unfold sizes_text. induction l as [|p l IH]; intros c k H F Hk; (destruct k as [|k]; [cbn [List.length] in Hk; lia|]); cbn [next_loop raws_from List.length map concat] in *.
  - subst c. reflexivity.
  - destruct H as (P & R). rewrite (raw_nz _ _ _ P). rewrite (raw_ok _ _ _ m P). cbn [rbind].
    rewrite (append_fmt_is _ (txt "[ " ++ p ++ txt " ]")); [|parts|fit]. cbn [rbind]. rewrite get_valid by apply P. cbn [rbind]. rewrite IH by (auto; first [fit|lia]). reflexivity.
Qed.
