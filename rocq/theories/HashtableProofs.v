From Coq Require Import ZArith List Bool Lia ZifyBool ZifyNat FinFun.
From Verif Require Import HashtableModel HashtableSpec.
Import ListNotations.
Open Scope Z_scope.

Lemma at_nat {A} (l : list A) i : 0 <= i -> at_ l i = nth_error l (Z.to_nat i).
Proof. intros. unfold at_. replace (i <? 0) with false by lia. auto. Qed.
Lemma at_of_nat {A} (l : list A) n : at_ l (Z.of_nat n) = nth_error l n.
Proof. rewrite at_nat by lia. f_equal. lia. Qed.
Lemma at_some {A} (l : list A) i x : at_ l i = Some x -> 0 <= i < Z.of_nat (length l).
Proof.
  unfold at_. destruct (i <? 0) eqn:E; [discriminate|]. intros H.
  assert (nth_error l (Z.to_nat i) <> None) as H1 by congruence. apply nth_error_Some in H1. lia.
Qed.
Lemma at_in {A} (l : list A) i : 0 <= i < Z.of_nat (length l) -> exists x, at_ l i = Some x.
Proof.
  intros H. rewrite at_nat by lia. destruct (nth_error l (Z.to_nat i)) eqn:E; eauto.
  apply nth_error_None in E. lia.
Qed.
Lemma upd_nat_len {A} (l : list A) : forall i x, length (upd_nat l i x) = length l.
Proof. induction l as [|a l IH]; intros [|i] x; cbn; auto. Qed.
Lemma upd_nat_nth {A} (l : list A) : forall i x j, (i < length l)%nat ->
  nth_error (upd_nat l i x) j = if Nat.eqb j i then Some x else nth_error l j.
Proof.
  induction l as [|a l IH]; intros [|i] x [|j] H; cbn in *; try lia; auto.
  apply IH. lia.
Qed.
Lemma upd_ok {A} (l : list A) i x : 0 <= i < Z.of_nat (length l) ->
  exists l', upd l i x = Some l' /\ length l' = length l /\ forall j, at_ l' j = if j =? i then Some x else at_ l j.
Proof.
  intros H. unfold upd. replace ((0 <=? i) && (i <? Z.of_nat (length l))) with true by lia.
  eexists. split; [reflexivity|]. split; [apply upd_nat_len|]. intros j. unfold at_.
  destruct (j <? 0) eqn:E.
  - replace (j =? i) with false by lia. auto.
  - rewrite upd_nat_nth by lia. destruct (Nat.eqb (Z.to_nat j) (Z.to_nat i)) eqn:E2.
    + apply Nat.eqb_eq in E2. replace (j =? i) with true by lia. auto.
    + apply Nat.eqb_neq in E2. replace (j =? i) with false by lia. auto.
Qed.
Lemma at_app {A} (l : list A) x j : at_ (l ++ [x]) j = if j =? Z.of_nat (length l) then Some x else at_ l j.
Proof.
  unfold at_. destruct (j <? 0) eqn:E.
  - replace (j =? _) with false by lia. auto.
  - destruct (j =? Z.of_nat (length l)) eqn:E2.
    + replace (Z.to_nat j) with (length l) by lia. rewrite nth_error_app2, Nat.sub_diag; auto.
    + destruct (Z_lt_ge_dec j (Z.of_nat (length l))).
      * apply nth_error_app1. lia.
      * rewrite (proj2 (nth_error_None _ _)) by (rewrite app_length; cbn; lia).
        symmetry. apply nth_error_None. lia.
Qed.
Lemma at_map {A B} (f : A -> B) l j : at_ (map f l) j = option_map f (at_ l j).
Proof. unfold at_. destruct (j <? 0); auto. revert l. generalize (Z.to_nat j) as n. clear. induction n; intros [|a l]; cbn; auto. Qed.
Lemma at_repeat {A} (x : A) n j : 0 <= j < Z.of_nat n -> at_ (repeat x n) j = Some x.
Proof. intros H. rewrite at_nat by lia. apply nth_error_repeat. lia. Qed.

Lemma last_cons {A} (l : list A) : forall i d, last (i :: l) d = last l i.
Proof. induction l as [|a l IH]; intros i d; auto. change (last (i :: a :: l) d) with (last (a :: l) d). rewrite !IH. auto. Qed.

Lemma NoDup_app_one {A} (l : list A) x : NoDup l -> ~ In x l -> NoDup (l ++ [x]).
Proof.
  intros H Hx. induction l as [|a l IH]; cbn; [constructor; auto|].
  inversion H; subst. constructor.
  - rewrite in_app_iff. intros [?|[->|[]]]; auto. apply Hx. left. auto.
  - apply IH; auto. intros ?. apply Hx. right. auto.
Qed.

Section HT.
Context {V : Type}.
Variable dflt : V.
Notation entry := (entry V). Notation table := (table V).

(** indices (in order) of entries among the first n whose key falls into bucket b *)
Definition bucket (nh : Z) (ks : list Z) (n : nat) (b : Z) : list Z :=
  map Z.of_nat (filter (fun i => nth i ks 0 mod nh =? b) (seq 0 n)).
Definition keys (t : table) : list Z := map e_key (entries t).
Definition nh (t : table) : Z := Z.of_nat (length (hashes t)).

(** all entries with index < n are linked *)
Definition linked (t : table) (n : nat) : Prop :=
  0 < nh t /\ (n <= length (entries t))%nat /\
  forall b h, at_ (hashes t) b = Some h -> chain (entries t) h (bucket (nh t) (keys t) n b).
Definition WF (t : table) : Prop := linked t (length (entries t)) /\ NoDup (keys t).

(** the map denoted by a table *)
Definition lookup (es : list entry) (k : Z) : option V :=
  option_map e_val (find (fun e => e_key e =? k) es).

Lemma chain_app (es : list entry) i l : chain es i l -> forall j, In j l -> 0 <= j < Z.of_nat (length es).
Proof. induction 1; cbn; [easy|]. intros j [<-|Hj]; auto. eapply at_some; eauto. Qed.
Lemma keys_at (t : table) i e : at_ (entries t) i = Some e -> nth (Z.to_nat i) (keys t) 0 = e_key e.
Proof.
  intros H. pose proof (at_some _ _ _ H). rewrite at_nat in H by lia.
  unfold keys. apply nth_error_nth. rewrite nth_error_map, H. reflexivity.
Qed.

(** the walk finds the first index of the chain holding the key *)
Lemma find_loop_spec (es : list entry) key hi l : forall start prev fuel, chain es start l -> (length l <= fuel)%nat ->
  (exists l1 i l2 e, l = l1 ++ i :: l2 /\ at_ es i = Some e /\ e_key e = key /\
     find_loop fuel es key hi prev start = Some {| HashIndex := hi; PrevIndex := last l1 prev; EntryIndex := i |}) \/
  ((forall i e, In i l -> at_ es i = Some e -> e_key e <> key) /\ exists neg, neg < 0 /\
     find_loop fuel es key hi prev start = Some {| HashIndex := hi; PrevIndex := last l prev; EntryIndex := neg |}).
Proof.
  induction l as [|i l IH]; intros start prev fuel HC Hf.
  - inversion HC; subst. right. split; [easy|]. exists start. split; auto.
    destruct fuel; cbn; replace (start <? 0) with true by lia; auto.
  - inversion HC as [|i' e l' He Hn]; subst. destruct fuel as [|fuel]; [cbn in Hf; lia|].
    pose proof (at_some _ _ _ He). cbn [find_loop]. replace (i <? 0) with false by lia. rewrite He.
    destruct (e_key e =? key) eqn:E.
    + left. exists [], i, l, e. repeat split; auto. lia.
    + destruct (IH (e_next e) i fuel Hn ltac:(cbn in Hf; lia)) as [(l1 & j & l2 & e' & -> & Ha & Hk & ->)|(Hno & neg & Hneg & ->)].
      * left. exists (i :: l1), j, l2, e'. repeat split; auto. rewrite last_cons. reflexivity.
      * right. split.
        { intros j e' [<-|Hj] Hj'; [|eauto]. rewrite He in Hj'. injection Hj' as <-. lia. }
        exists neg. split; auto. rewrite last_cons. reflexivity.
Qed.

Lemma filter_length {A} f (l : list A) : (length (filter f l) <= length l)%nat.
Proof. induction l; cbn; auto. destruct (f a); cbn; lia. Qed.
Lemma bucket_len n0 ks n b : (length (bucket n0 ks n b) <= n)%nat.
Proof. unfold bucket. rewrite map_length. etransitivity; [apply filter_length|]. rewrite seq_length. auto. Qed.
Lemma bucket_in n0 ks n b i : In i (bucket n0 ks n b) <-> 0 <= i < Z.of_nat n /\ nth (Z.to_nat i) ks 0 mod n0 = b.
Proof.
  unfold bucket. rewrite in_map_iff. split.
  - intros (j & <- & Hj). apply filter_In in Hj as [Hj Hb]. apply in_seq in Hj. rewrite Nat2Z.id. lia.
  - intros [Hi Hb]. exists (Z.to_nat i). split; [lia|]. apply filter_In. split; [apply in_seq; lia|lia].
Qed.
Lemma bucket_S n0 ks n b : bucket n0 ks (S n) b = bucket n0 ks n b ++ (if nth n ks 0 mod n0 =? b then [Z.of_nat n] else []).
Proof.
  unfold bucket. rewrite seq_S, filter_app, map_app. cbn [Nat.add filter]. destruct (_ =? b); auto.
Qed.
Lemma bucket_ext n0 ks ks' n b : (forall i, (i < n)%nat -> nth i ks 0 = nth i ks' 0) -> bucket n0 ks n b = bucket n0 ks' n b.
Proof.
  intros H. unfold bucket. f_equal. apply filter_ext_in. intros i Hi. apply in_seq in Hi. rewrite H by lia. auto.
Qed.

(** find on a table with n linked entries *)
Lemma ht_find_spec t n key : linked t n ->
  let b := key mod nh t in
  (exists i e, 0 <= i < Z.of_nat n /\ at_ (entries t) i = Some e /\ e_key e = key /\
     exists p, ht_find t key = Some {| HashIndex := b; PrevIndex := p; EntryIndex := i |}) \/
  ((forall i e, 0 <= i < Z.of_nat n -> at_ (entries t) i = Some e -> e_key e <> key) /\ exists neg, neg < 0 /\
     ht_find t key = Some {| HashIndex := b; PrevIndex := last (bucket (nh t) (keys t) n b) (-1); EntryIndex := neg |}).
Proof.
  intros (Hnh & Hn & HC) b. unfold ht_find. fold (nh t). replace (nh t >? 0) with true by lia.
  assert (Hb : 0 <= b < nh t) by (apply Z.mod_pos_bound; lia). fold b.
  destruct (at_in (hashes t) b Hb) as [h Hh]. rewrite Hh. cbn [bindo].
  destruct (find_loop_spec (entries t) key b _ h (-1) (S (length (entries t))) (HC b h Hh))
    as [(l1 & i & l2 & e & El & Ha & Hk & ->)|(Hno & neg & Hneg & ->)].
  - pose proof (bucket_len (nh t) (keys t) n b). lia.
  - left. exists i, e. split; [|eauto]. 
    assert (In i (bucket (nh t) (keys t) n b)) as Hin by (rewrite El; apply in_or_app; right; left; auto).
    apply bucket_in in Hin. lia.
  - right. split; [|eauto]. intros i e Hi Ha Hk. apply (Hno i e); auto.
    apply bucket_in. split; auto. rewrite (keys_at t i e Ha), Hk. auto.
Qed.

Lemma WF_key_unique t i j e e' : NoDup (keys t) -> at_ (entries t) i = Some e -> at_ (entries t) j = Some e' -> e_key e = e_key e' -> i = j.
Proof.
  intros Hnd Hi Hj Hk. pose proof (at_some _ _ _ Hi). pose proof (at_some _ _ _ Hj).
  rewrite at_nat in Hi, Hj by lia.
  assert (Z.to_nat i = Z.to_nat j); [|lia].
  apply (proj1 (NoDup_nth_error (keys t)) Hnd). { unfold keys. rewrite map_length. lia. }
  unfold keys. rewrite !nth_error_map, Hi, Hj. cbn. congruence.
Qed.
Lemma lookup_at es i e : NoDup (map e_key es) -> at_ es i = Some e -> lookup es (e_key e) = Some (e_val e).
Proof.
  intros Hnd H. pose proof (at_some _ _ _ H). rewrite at_nat in H by lia.
  revert Hnd H. generalize (Z.to_nat i) as n. clear. unfold lookup. induction es as [|a es IH]; intros [|n] Hnd H; cbn in H |- *; try discriminate.
  - injection H as ->. rewrite Z.eqb_refl. auto.
  - inversion Hnd as [|? ? Hni Hnd']; subst. destruct (e_key a =? e_key e) eqn:E; [|eauto].
    exfalso. apply Hni. apply Z.eqb_eq in E. rewrite E. apply in_map. eapply nth_error_In; eauto.
Qed.
Lemma lookup_none es k : (forall i e, at_ es i = Some e -> e_key e <> k) -> lookup es k = None.
Proof.
  intros H. unfold lookup. destruct (find _ es) as [e|] eqn:E; auto. apply find_some in E as [Hin Hk].
  apply In_nth_error in Hin as [n Hn]. rewrite <- at_of_nat in Hn. apply H in Hn. lia.
Qed.

Lemma ht_get_spec t key : WF t -> ht_get t key = Some (lookup (entries t) key).
Proof.
  intros [HL Hnd]. unfold ht_get. destruct (ht_find_spec t _ key HL) as [(i & e & Hi & Ha & Hk & p & ->)|(Hno & neg & Hneg & ->)]; cbn [bindo EntryIndex].
  - replace (i >=? 0) with true by lia. rewrite Ha. cbn. f_equal. rewrite <- Hk. symmetry. eapply lookup_at; eauto.
  - replace (neg >=? 0) with false by lia. f_equal. symmetry. apply lookup_none. intros i e Ha. apply (Hno i e); auto. apply (at_some _ _ _ Ha).
Qed.

(** ** linking entry n at the end of its chain *)
Lemma chain_ext (es es' : list entry) i l : chain es i l -> (forall j, In j l -> option_map e_next (at_ es' j) = option_map e_next (at_ es j)) -> chain es' i l.
Proof.
  induction 1 as [i Hi|i e l He HC IH]; intros H.
  - constructor; auto.
  - pose proof (H i (or_introl eq_refl)) as Hi. rewrite He in Hi. destruct (at_ es' i) as [e'|] eqn:E; [|discriminate].
    injection Hi as Hi. econstructor; eauto. rewrite Hi. apply IH. intros j Hj. apply H. right. auto.
Qed.
(** replacing the end of a non-empty chain by an entry [x] that ends it *)
Lemma chain_extend (es es' : list entry) x i l ex : chain es i l -> l <> [] -> NoDup l -> ~ In x l ->
  at_ es' x = Some ex -> e_next ex < 0 ->
  (forall j e, In j l -> at_ es j = Some e -> exists e', at_ es' j = Some e' /\ e_next e' = if j =? last l (-1) then x else e_next e) ->
  chain es' i (l ++ [x]).
Proof.
  intros HC. induction HC as [i Hi|i e l He HC IH]; intros Hne Hnd Hnx Hx Hneg H; [congruence|].
  destruct (H i e (or_introl eq_refl) He) as (e' & He' & Hn').
  cbn [app]. econstructor; [exact He'|].
  inversion Hnd as [|? ? Hni Hnd']; subst.
  destruct l as [|j l'].
  - cbn [last] in Hn'. rewrite Z.eqb_refl in Hn'. rewrite Hn'. cbn. econstructor; eauto. constructor. auto.
  - assert (Hl : last (i :: j :: l') (-1) = last (j :: l') (-1)) by reflexivity. rewrite Hl in *.
    assert (i <> last (j :: l') (-1)).
    { intros ->. apply Hni. rewrite (app_removelast_last (-1) (l := j :: l')) at 2 by discriminate. apply in_or_app. right. left. auto. }
    replace (i =? last (j :: l') (-1)) with false in Hn' by lia. rewrite Hn'. apply IH; auto.
    + discriminate.
    + intros Hin. apply Hnx. right. auto.
    + intros k ek Hk Hek. apply H; auto. right. auto.
Qed.
Lemma bucket_nodup n0 ks n b : NoDup (bucket n0 ks n b).
Proof. unfold bucket. apply Injective_map_NoDup; [intros x y; lia|]. apply NoDup_filter, seq_NoDup. Qed.

Definition same_keys (t t' : table) : Prop := keys t' = keys t.

(** t has n linked entries, entry n exists with key k and ends a chain; linking it at find's result links n+1 *)
Lemma link_spec t n key en : linked t n -> at_ (entries t) (Z.of_nat n) = Some en -> e_key en = key -> e_next en < 0 ->
  let b := key mod nh t in let p := last (bucket (nh t) (keys t) n b) (-1) in
  exists t', (if p <? 0 then set_hash t b (Z.of_nat n) else set_entry t p (with_next (Z.of_nat n))) = Some t' /\
    linked t' (S n) /\ nh t' = nh t /\ length (entries t') = length (entries t) /\
    (forall j e, at_ (entries t) j = Some e -> exists e', at_ (entries t') j = Some e' /\ e_key e' = e_key e /\ e_val e' = e_val e /\
        (Z.of_nat n <= j -> e_next e' = e_next e)).
Proof.
  intros HL Hen Hk Hneg b p. destruct HL as (Hnh & Hn & HC).
  assert (Hb : 0 <= b < nh t) by (apply Z.mod_pos_bound; lia).
  pose proof (at_some _ _ _ Hen) as Hlt.
  assert (Hkn : nth n (keys t) 0 = key). { rewrite <- Hk. rewrite <- (keys_at t (Z.of_nat n) en Hen). f_equal. lia. }
  assert (Hpin : bucket (nh t) (keys t) n b <> [] -> In p (bucket (nh t) (keys t) n b)).
  { intros Hne. unfold p. rewrite (app_removelast_last (-1) Hne) at 2. apply in_or_app. right. left. auto. }
  assert (Hp0 : bucket (nh t) (keys t) n b = [] \/ 0 <= p < Z.of_nat n).
  { destruct (bucket (nh t) (keys t) n b) eqn:E; [left; auto|right]. rewrite <- E in *. apply bucket_in in Hpin; [lia|]. rewrite E. discriminate. }
  assert (Hkeys : forall t', length (entries t') = length (entries t) ->
     (forall j e, at_ (entries t) j = Some e -> exists e', at_ (entries t') j = Some e' /\ e_key e' = e_key e) -> keys t' = keys t).
  { intros t' Hl H. unfold keys. apply nth_ext with (d := 0) (d' := 0); [rewrite !map_length; auto|].
    rewrite map_length. intros i Hi. destruct (at_in (entries t) (Z.of_nat i)) as [e He]; [lia|].
    destruct (H _ _ He) as (e' & He' & Hk'). apply keys_at in He. apply keys_at in He'.
    rewrite Nat2Z.id in He, He'. unfold keys in He, He'. congruence. }
  destruct (p <? 0) eqn:Ep.
  - destruct Hp0 as [Hemp|?]; [|lia].
    destruct (upd_ok (hashes t) b (Z.of_nat n) Hb) as (hs & Eh & Hlen & Hat).
    unfold set_hash. rewrite Eh. cbn [option_map]. eexists. split; [reflexivity|].
    set (t' := {| hashes := hs; entries := entries t |}).
    assert (Hn' : nh t' = nh t) by (unfold nh; cbn; lia).
    split; [|split; [auto|split; [auto|]]].
    + split; [lia|]. split; [cbn; lia|]. intros b' h' Hh'. cbn [hashes entries t'] in *. rewrite Hn'.
      change (keys t') with (keys t). rewrite bucket_S, Hkn. fold b. rewrite Hat in Hh'.
      destruct (Z.eq_dec b' b) as [->|Hne].
      * rewrite Z.eqb_refl in *. injection Hh' as <-. rewrite Hemp. cbn [app]. econstructor; eauto. constructor. auto.
      * replace (b' =? b) with false in Hh' by lia. replace (b =? b') with false by lia. rewrite app_nil_r. auto.
    + intros j e He. exists e. cbn. auto.
  - destruct Hp0 as [Hemp|Hp]. { unfold p in Ep. rewrite Hemp in Ep. cbn in Ep. lia. }
    assert (Hne : bucket (nh t) (keys t) n b <> []). { intros Hemp. unfold p in Ep. rewrite Hemp in Ep. cbn in Ep. lia. }
    destruct (at_in (entries t) p) as [ep Hep]; [lia|].
    unfold set_entry. rewrite Hep. cbn [bindo].
    destruct (upd_ok (entries t) p (with_next (Z.of_nat n) ep)) as (es & Ee & Hlen & Hat); [lia|].
    rewrite Ee. cbn [option_map]. eexists. split; [reflexivity|].
    set (t' := {| hashes := hashes t; entries := es |}).
    assert (Hfr : forall j e, at_ (entries t) j = Some e -> exists e', at_ (entries t') j = Some e' /\ e_key e' = e_key e /\ e_val e' = e_val e /\
        (Z.of_nat n <= j -> e_next e' = e_next e)).
    { intros j e He. cbn [entries t']. rewrite Hat. destruct (j =? p) eqn:E; [|eauto].
      apply Z.eqb_eq in E. subst j. rewrite Hep in He. injection He as <-. eexists. split; [reflexivity|]. cbn. repeat split; auto. lia. }
    assert (Hks : keys t' = keys t). { apply Hkeys; auto. intros j e He. destruct (Hfr j e He) as (e' & ? & ? & _). eauto. }
    split; [|split; [auto|split; [auto|auto]]].
    split; [auto|]. split; [cbn; lia|]. intros b' h' Hh'. change (nh t') with (nh t). rewrite Hks. cbn [hashes t'] in Hh'.
    rewrite bucket_S, Hkn. fold b. cbn [entries t'].
    destruct (Z.eq_dec b' b) as [->|Hneb].
    + rewrite Z.eqb_refl. eapply chain_extend; [apply HC; eauto|auto|apply bucket_nodup| | |exact Hneg|].
      * rewrite bucket_in. lia.
      * rewrite Hat. replace (Z.of_nat n =? p) with false by lia. auto.
      * intros j e Hj He. rewrite Hat. fold p. destruct (j =? p) eqn:E; [|eauto].
        eexists. split; [reflexivity|]. reflexivity.
    + replace (b =? b') with false by lia. rewrite app_nil_r. eapply chain_ext; [apply HC; eauto|].
      intros j Hj. rewrite Hat. destruct (j =? p) eqn:E; auto. exfalso.
      apply Z.eqb_eq in E. subst j. apply bucket_in in Hj. specialize (Hpin Hne). apply bucket_in in Hpin. lia.
Qed.

(** ** contents as a list of (key, value) *)
Definition kv (t : table) : list (Z * V) := map (fun e => (e_key e, e_val e)) (entries t).
Definition alookup (l : list (Z * V)) (k : Z) : option V := option_map snd (find (fun x => fst x =? k) l).
Lemma lookup_kv es k : lookup es k = alookup (map (fun e => (e_key e, e_val e)) es) k.
Proof.
  unfold lookup, alookup. induction es as [|e es IH]; cbn; auto. destruct (e_key e =? k); auto.
Qed.
Lemma kv_keys t : map fst (kv t) = keys t.
Proof. unfold kv, keys. rewrite map_map. reflexivity. Qed.
Lemma kv_len t : length (kv t) = length (entries t).
Proof. unfold kv. apply map_length. Qed.
Lemma kv_at t i e : at_ (entries t) i = Some e -> nth_error (kv t) (Z.to_nat i) = Some (e_key e, e_val e).
Proof. intros H. pose proof (at_some _ _ _ H). rewrite at_nat in H by lia. unfold kv. rewrite nth_error_map, H. auto. Qed.
Lemma nth_error_ext {A} (l l' : list A) : (forall i, nth_error l i = nth_error l' i) -> l = l'.
Proof.
  revert l'; induction l as [|a l IH]; intros [|b l'] H; auto; pose proof (H O) as H0; try discriminate.
  injection H0 as ->. f_equal. apply IH. intros i. apply (H (S i)).
Qed.
Lemma kv_same t t' : length (entries t') = length (entries t) ->
  (forall j e, at_ (entries t) j = Some e -> exists e', at_ (entries t') j = Some e' /\ e_key e' = e_key e /\ e_val e' = e_val e) ->
  kv t' = kv t.
Proof.
  intros Hl H. apply nth_error_ext. intros i. destruct (Nat.lt_ge_cases i (length (entries t))) as [Hi|Hi].
  - destruct (at_in (entries t) (Z.of_nat i)) as [e He]; [lia|]. destruct (H _ _ He) as (e' & He' & Hk & Hv).
    apply kv_at in He. apply kv_at in He'. rewrite Nat2Z.id in *. congruence.
  - rewrite !(proj2 (nth_error_None _ _)); auto; unfold kv; rewrite map_length; lia.
Qed.

Lemma linked_frame t t' n : linked t n -> hashes t' = hashes t -> (n <= length (entries t'))%nat ->
  (forall j, (j < n)%nat -> nth j (keys t') 0 = nth j (keys t) 0) ->
  (forall j e, 0 <= j < Z.of_nat n -> at_ (entries t) j = Some e -> exists e', at_ (entries t') j = Some e' /\ e_next e' = e_next e) ->
  linked t' n.
Proof.
  intros (Hnh & Hn & HC) Hh Hn' Hk He. unfold linked, nh in *. rewrite Hh. split; auto. split; auto.
  intros b h Hb. rewrite (bucket_ext _ _ (keys t)) by auto. eapply chain_ext; [apply HC; auto|].
  intros j Hj. apply bucket_in in Hj. destruct (at_in (entries t) j) as [e Hej]; [lia|].
  destruct (He j e) as (e' & He' & Hn''); [lia|auto|]. rewrite Hej, He'. cbn. congruence.
Qed.

(** appending a fresh key: find, add_entry, link, set value *)
Lemma set_entry_val (t : table) i v e : at_ (entries t) i = Some e -> exists t', set_entry t i (with_val v) = Some t' /\
  hashes t' = hashes t /\ length (entries t') = length (entries t) /\
  forall j, at_ (entries t') j = if j =? i then Some (with_val v e) else at_ (entries t) j.
Proof.
  intros He. unfold set_entry. rewrite He. cbn [bindo]. destruct (upd_ok (entries t) i (with_val v e)) as (es & -> & Hl & Hat).
  { apply (at_some _ _ _ He). } cbn. eexists. split; [reflexivity|]. auto.
Qed.
Lemma set_entry_next (t : table) i n e : at_ (entries t) i = Some e -> exists t', set_entry t i (with_next n) = Some t' /\
  hashes t' = hashes t /\ length (entries t') = length (entries t) /\
  forall j, at_ (entries t') j = if j =? i then Some (with_next n e) else at_ (entries t) j.
Proof.
  intros He. unfold set_entry. rewrite He. cbn [bindo]. destruct (upd_ok (entries t) i (with_next n e)) as (es & -> & Hl & Hat).
  { apply (at_some _ _ _ He). } cbn. eexists. split; [reflexivity|]. auto.
Qed.

Lemma find_absent t key : WF t -> ~ In key (keys t) -> exists neg, neg < 0 /\ ht_find t key =
  Some {| HashIndex := key mod nh t; PrevIndex := last (bucket (nh t) (keys t) (length (entries t)) (key mod nh t)) (-1); EntryIndex := neg |}.
Proof.
  intros [HL _] Hni. destruct (ht_find_spec t _ key HL) as [(i & e & Hi & Ha & Hk & _)|(_ & neg & Hneg & E)]; [|eauto].
  exfalso. apply Hni. rewrite <- Hk. rewrite <- (keys_at t i e Ha). apply nth_In. unfold keys. rewrite map_length. lia.
Qed.

Lemma add_linked t key : WF t -> ~ In key (keys t) ->
  let n := length (entries t) in let t1 := fst (ht_add_entry V dflt t key) in
  let p := last (bucket (nh t) (keys t) n (key mod nh t)) (-1) in
  exists t2, (if p <? 0 then set_hash t1 (key mod nh t) (Z.of_nat n) else set_entry t1 p (with_next (Z.of_nat n))) = Some t2 /\
   linked t2 (S n) /\ nh t2 = nh t /\ length (entries t2) = S n /\ NoDup (keys t2) /\ kv t2 = kv t ++ [(key, dflt)] /\
   exists e, at_ (entries t2) (Z.of_nat n) = Some e /\ e_next e = -1 /\ e_key e = key.
Proof.
  intros [HL Hnd] Hni n t1 p. unfold ht_add_entry in t1. cbn [fst] in t1.
  set (en := {| e_key := key; e_next := -1; e_val := dflt |}) in t1.
  assert (Hat : forall j, at_ (entries t1) j = if j =? Z.of_nat n then Some en else at_ (entries t) j) by (intros; apply at_app).
  assert (Hk1 : keys t1 = keys t ++ [key]) by (unfold keys; cbn; rewrite map_app; auto).
  assert (Hkl : length (keys t) = n) by (unfold keys; apply map_length).
  assert (Hnthk : forall j, (j < n)%nat -> nth j (keys t1) 0 = nth j (keys t) 0).
  { intros j Hj. rewrite Hk1. apply app_nth1. lia. }
  assert (HL1 : linked t1 n).
  { eapply linked_frame; eauto.
    - cbn. rewrite app_length. cbn. lia.
    - intros j e Hj He. exists e. rewrite Hat. replace (j =? Z.of_nat n) with false by lia. auto. }
  assert (Hnh1 : nh t1 = nh t) by reflexivity.
  assert (Hb1 : bucket (nh t1) (keys t1) n (key mod nh t1) = bucket (nh t) (keys t) n (key mod nh t)) by (rewrite Hnh1; apply bucket_ext; auto).
  assert (Hen : at_ (entries t1) (Z.of_nat n) = Some en) by (rewrite Hat, Z.eqb_refl; auto).
  destruct (link_spec t1 n key en HL1 Hen eq_refl ltac:(cbn; lia)) as (t2 & E & HL2 & Hnh2 & Hlen2 & Hfr).
  rewrite Hb1, Hnh1 in E. fold p in E.
  assert (Hl1 : length (entries t1) = S n) by (cbn; rewrite app_length; cbn; lia).
  assert (Hkv : kv t2 = kv t1). { apply kv_same; auto. intros j e He. destruct (Hfr j e He) as (e' & ? & ? & ? & _). eauto. }
  exists t2. split; auto. split; auto. split; [lia|]. split; [lia|].
  split. { rewrite <- kv_keys, Hkv, kv_keys, Hk1. apply NoDup_app_one; auto. }
  split. { rewrite Hkv. unfold kv. cbn. rewrite map_app. reflexivity. }
  destruct (Hfr _ _ Hen) as (e' & He' & Hk' & _ & Hn'). exists e'. split; auto. split; auto. rewrite Hn' by lia. auto.
Qed.

Lemma set_val_WF t i v e n : linked t n -> NoDup (keys t) -> at_ (entries t) i = Some e ->
  exists t', set_entry t i (with_val v) = Some t' /\ linked t' n /\ nh t' = nh t /\ length (entries t') = length (entries t) /\
    keys t' = keys t /\ kv t' = upd_nat (kv t) (Z.to_nat i) (e_key e, v).
Proof.
  intros HL Hnd He. destruct (set_entry_val t i v e He) as (t' & E & Hh & Hl & Hat).
  pose proof (at_some _ _ _ He) as Hi.
  assert (Hkv : kv t' = upd_nat (kv t) (Z.to_nat i) (e_key e, v)).
  { apply nth_error_ext. intros j. rewrite upd_nat_nth by (rewrite kv_len; lia).
    destruct (Nat.lt_ge_cases j (length (entries t))) as [Hj|Hj].
    - destruct (at_in (entries t) (Z.of_nat j)) as [ej Hej]; [lia|].
      destruct (Nat.eqb j (Z.to_nat i)) eqn:Ej.
      + apply Nat.eqb_eq in Ej. assert (A : at_ (entries t') (Z.of_nat j) = Some (with_val v e)). { rewrite Hat. replace (Z.of_nat j =? i) with true by lia. auto. }
        apply kv_at in A. rewrite Nat2Z.id in A. rewrite A. reflexivity.
      + apply Nat.eqb_neq in Ej. assert (A : at_ (entries t') (Z.of_nat j) = Some ej). { rewrite Hat. replace (Z.of_nat j =? i) with false by lia. auto. }
        apply kv_at in A. apply kv_at in Hej. rewrite Nat2Z.id in *. congruence.
    - replace (Nat.eqb j (Z.to_nat i)) with false by (symmetry; apply Nat.eqb_neq; lia).
      rewrite !(proj2 (nth_error_None _ _)); auto; rewrite kv_len; lia. }
  assert (Hk : keys t' = keys t).
  { rewrite <- !kv_keys, Hkv. apply nth_error_ext. intros j. rewrite !nth_error_map, upd_nat_nth by (rewrite kv_len; lia).
    destruct (Nat.eqb j (Z.to_nat i)) eqn:Ej; auto. apply Nat.eqb_eq in Ej. subst j. rewrite (kv_at t i e He). reflexivity. }
  exists t'. split; auto. split.
  { eapply linked_frame; eauto.
    - destruct HL as (_ & ? & _). lia.
    - intros j _. rewrite Hk. auto.
    - intros j ej Hj Hej. rewrite Hat. destruct (j =? i) eqn:E2; [|eauto].
      apply Z.eqb_eq in E2. subst j. rewrite He in Hej. injection Hej as <-. eexists. split; [reflexivity|]. reflexivity. }
  split; [unfold nh; rewrite Hh; auto|]. auto.
Qed.

Lemma upd_nat_last {A} (l : list A) x y : upd_nat (l ++ [x]) (length l) y = l ++ [y].
Proof. induction l; cbn; congruence. Qed.

Lemma rehash_step_spec nt e : WF nt -> ~ In (e_key e) (keys nt) ->
  exists nt', rehash_step V dflt (Some nt) e = Some nt' /\ WF nt' /\ nh nt' = nh nt /\ kv nt' = kv nt ++ [(e_key e, e_val e)].
Proof.
  intros HW Hni. unfold rehash_step. cbn [bindo].
  destruct (find_absent nt _ HW Hni) as (neg & Hneg & ->). cbn [bindo PrevIndex HashIndex EntryIndex].
  destruct (add_linked nt (e_key e) HW Hni) as (t2 & E & HL2 & Hnh2 & Hlen2 & Hnd2 & Hkv2 & en & Hen & Hnx & Hke).
  unfold ht_add_entry in E |- *. cbn [fst] in E. rewrite E. cbn [bindo].
  set (n := length (entries nt)) in *.
  destruct (set_entry_next t2 (Z.of_nat n) neg en Hen) as (t3 & -> & Hh3 & Hl3 & Hat3). cbn [bindo].
  (* the entry keeps ending its chain *)
  assert (Hk3 : kv t3 = kv t2).
  { apply kv_same; auto. intros j ej Hej. rewrite Hat3. destruct (j =? Z.of_nat n) eqn:Ej; [|eauto].
    apply Z.eqb_eq in Ej. subst j. rewrite Hen in Hej. injection Hej as <-. eexists. split; [reflexivity|]. auto. }
  assert (Hks3 : keys t3 = keys t2) by (rewrite <- !kv_keys; congruence).
  assert (HL3 : linked t3 (S n)).
  { destruct HL2 as (H0 & H1 & HC). unfold linked, nh in *. rewrite Hh3, Hks3. split; auto. split; [lia|].
    intros b h Hb. specialize (HC b h Hb). clear - HC Hat3 Hneg Hen Hnx.
    induction HC as [i Hi|i ei l He HC IH]; [constructor; auto|].
    destruct (i =? Z.of_nat n) eqn:Ei.
    - apply Z.eqb_eq in Ei. subst i. rewrite Hen in He. injection He as <-. rewrite Hnx in HC. inversion HC; subst.
      2:{ match goal with H : at_ _ (-1) = Some _ |- _ => apply at_some in H; lia end. }
      econstructor; [rewrite Hat3, Z.eqb_refl; reflexivity|]. constructor. auto.
    - econstructor; [rewrite Hat3, Ei; exact He|]. auto. }
  assert (A3 : at_ (entries t3) (Z.of_nat n) = Some (with_next neg en)) by (rewrite Hat3, Z.eqb_refl; auto).
  destruct (set_val_WF t3 (Z.of_nat n) (e_val e) _ (S n) HL3 ltac:(congruence) A3) as (t4 & E4 & HL4 & Hnh4 & Hl4 & Hk4 & Hkv4).
  exists t4. split; auto. split.
  { split; [|congruence]. rewrite Hl4, Hl3, Hlen2. auto. }
  split; [unfold nh in *; congruence|].
  rewrite Hkv4, Hk3, Hkv2. rewrite Nat2Z.id. rewrite <- (kv_len nt : _ = n). rewrite upd_nat_last. cbn. rewrite Hke. auto.
Qed.

Lemma init_WF n : 0 < n -> WF (ht_init_reserve V n).
Proof.
  intros Hn. split; [|constructor]. split.
  - unfold nh. cbn. rewrite repeat_length. lia.
  - split; [cbn; lia|]. intros b h Hb. cbn in *. pose proof (at_some _ _ _ Hb) as Hr. rewrite repeat_length in Hr.
    rewrite at_repeat in Hb by lia. injection Hb as <-. constructor. lia.
Qed.

Lemma rehash_fold es : forall nt, WF nt -> NoDup (keys nt ++ map e_key es) ->
  exists nt', fold_left (rehash_step V dflt) es (Some nt) = Some nt' /\ WF nt' /\ nh nt' = nh nt /\
    kv nt' = kv nt ++ map (fun e => (e_key e, e_val e)) es.
Proof.
  induction es as [|e es IH]; intros nt HW Hnd.
  - exists nt. cbn. rewrite app_nil_r. auto.
  - cbn [fold_left map] in *.
    assert (Hni : ~ In (e_key e) (keys nt)). { apply NoDup_remove_2 in Hnd. intros H. apply Hnd. apply in_or_app. auto. }
    destruct (rehash_step_spec nt e HW Hni) as (nt1 & -> & HW1 & Hnh1 & Hkv1).
    destruct (IH nt1 HW1) as (nt' & -> & HW' & Hnh' & Hkv').
    + rewrite <- kv_keys, Hkv1, map_app, kv_keys. cbn [map fst]. rewrite <- app_assoc. exact Hnd.
    + exists nt'. split; auto. split; auto. split; [lia|]. rewrite Hkv', Hkv1, <- app_assoc. reflexivity.
Qed.
Lemma rehash_spec t n : WF t -> 0 < n -> exists t', ht_rehash V dflt t n = Some t' /\ WF t' /\ nh t' = n /\ kv t' = kv t.
Proof.
  intros [HL Hnd] Hn. destruct (rehash_fold (entries t) (ht_init_reserve V n) (init_WF n Hn)) as (t' & E & HW & Hnh & Hkv).
  - exact Hnd.
  - exists t'. split; auto. split; auto. split; [|exact Hkv]. rewrite Hnh. unfold nh. cbn. rewrite repeat_length. lia.
Qed.

(** list view of set *)
Fixpoint aset (l : list (Z * V)) (k : Z) (v : V) : list (Z * V) :=
  match l with [] => [(k, v)] | (k', v') :: r => if k' =? k then (k, v) :: r else (k', v') :: aset r k v end.
Lemma aset_lookup l k v x : alookup (aset l k v) x = if x =? k then Some v else alookup l x.
Proof.
  unfold alookup. induction l as [|[k' v'] r IH]; cbn.
  - destruct (k =? x) eqn:E; [replace (x =? k) with true by lia|replace (x =? k) with false by lia]; auto.
  - destruct (k' =? k) eqn:E; cbn.
    + apply Z.eqb_eq in E. subst. destruct (k =? x) eqn:E2; [replace (x =? k) with true by lia|replace (x =? k) with false by lia]; auto.
    + destruct (k' =? x) eqn:E2; [replace (x =? k) with false by lia; auto|auto].
Qed.
Lemma aset_absent l k v : ~ In k (map fst l) -> aset l k v = l ++ [(k, v)].
Proof.
  induction l as [|[k' v'] r IH]; cbn; auto. intros H. replace (k' =? k) with false by (destruct (k' =? k) eqn:E; auto; exfalso; apply H; left; lia).
  rewrite IH; auto.
Qed.
Lemma aset_present l i k v0 v : NoDup (map fst l) -> nth_error l i = Some (k, v0) -> aset l k v = upd_nat l i (k, v).
Proof.
  revert i. induction l as [|[k' v'] r IH]; intros [|i] Hnd H; cbn in *; try discriminate.
  - injection H as -> ->. rewrite Z.eqb_refl. auto.
  - inversion Hnd as [|? ? Hni Hnd']; subst. replace (k' =? k) with false.
    + f_equal. auto.
    + destruct (k' =? k) eqn:E; auto. exfalso. apply Hni. apply Z.eqb_eq in E. subst. apply nth_error_In in H. apply (in_map fst) in H. auto.
Qed.

Lemma WF_keys_kv t t' : WF t -> keys t' = keys t -> linked t' (length (entries t')) -> WF t'.
Proof. intros [_ H] Hk HL. split; auto. congruence. Qed.

Lemma set_core t key v : WF t ->
  exists t3, bindo (ht_find t key) (fun r =>
    bindo (if EntryIndex r >=? 0 then Some (t, EntryIndex r) else
         let '(t1, idx) := ht_add_entry V dflt t key in
         option_map (fun t2 => (t2, idx))
           (if PrevIndex r >=? 0 then set_entry t1 (PrevIndex r) (with_next idx) else set_hash t1 (HashIndex r) idx))
        (fun '(t2, idx) => set_entry t2 idx (with_val v))) = Some t3 /\ WF t3 /\ nh t3 = nh t /\ kv t3 = aset (kv t) key v.
Proof.
  intros HW. pose proof HW as [HL Hnd].
  destruct (ht_find_spec t _ key HL) as [(i & e & Hi & Ha & Hk & p & ->)|(Hno & _)].
  - cbn [bindo EntryIndex]. replace (i >=? 0) with true by lia. cbn [bindo].
    destruct (set_val_WF t i v e _ HL Hnd Ha) as (t' & E & HL' & Hnh & Hl & Hks & Hkv).
    exists t'. split; auto. split; [split; [rewrite Hl; auto|congruence]|]. split; auto.
    rewrite Hkv. rewrite Hk. symmetry. eapply aset_present; [rewrite kv_keys; auto|]. rewrite (kv_at t i e Ha), Hk. reflexivity.
  - assert (Hni : ~ In key (keys t)).
    { intros Hin. unfold keys in Hin. apply in_map_iff in Hin as (e & Hk & Hin). apply In_nth_error in Hin as [j Hj].
      rewrite <- at_of_nat in Hj. apply (Hno (Z.of_nat j) e); auto. apply (at_some _ _ _ Hj). }
    destruct (find_absent t key HW Hni) as (neg & Hneg & ->). cbn [bindo EntryIndex PrevIndex HashIndex].
    replace (neg >=? 0) with false by lia.
    destruct (add_linked t key HW Hni) as (t2 & E & HL2 & Hnh2 & Hlen2 & Hnd2 & Hkv2 & en & Hen & Hnx & Hke).
    unfold ht_add_entry in E |- *. cbn [fst] in E.
    set (p := last _ _) in *. rewrite Z.geb_leb. destruct (p <? 0) eqn:Ep; [replace (0 <=? p) with false by lia|replace (0 <=? p) with true by lia];
    rewrite E; cbn [option_map bindo];
    (destruct (set_val_WF t2 (Z.of_nat (length (entries t))) v en _ HL2 Hnd2 Hen) as (t' & E' & HL' & Hnh & Hl & Hks & Hkv);
     exists t'; split; [exact E'|]; split; [split; [rewrite Hl, Hlen2; auto|congruence]|]; split; [lia|];
     rewrite Hkv, Hkv2, Nat2Z.id, <- (kv_len t), upd_nat_last, Hke; symmetry; apply aset_absent; rewrite kv_keys; auto).
Qed.

Lemma clear_WF t : WF t -> WF (ht_clear t) /\ kv (ht_clear t) = [] /\ nh (ht_clear t) = nh t.
Proof.
  intros [(Hnh & _) _]. split; [|split; [reflexivity|unfold nh; cbn; rewrite map_length; auto]].
  split; [|constructor]. split; [unfold nh in *; cbn; rewrite map_length; auto|]. split; [cbn; lia|].
  intros b h Hb. cbn in *. rewrite at_map in Hb. destruct (at_ (hashes t) b); [|discriminate]. injection Hb as <-. constructor. lia.
Qed.

(** rehash_fast *)
Lemma rehash_fast_loop_spec ks : forall n t, linked t n -> NoDup (keys t) ->
  keys t = firstn n (keys t) ++ ks -> length (firstn n (keys t)) = n ->
  (forall j e, Z.of_nat n <= j -> at_ (entries t) j = Some e -> e_next e = -1) ->
  exists t', rehash_fast_loop (Z.of_nat n) ks t = Some t' /\ linked t' (length (entries t')) /\ kv t' = kv t /\ nh t' = nh t.
Proof.
  induction ks as [|k ks IH]; intros n t HL Hnd Hk Hn Hnx; cbn [rehash_fast_loop].
  - exists t. split; auto. split; auto.
    assert (length (entries t) = n) as ->; auto. rewrite app_nil_r in Hk. rewrite <- Hn, <- Hk. unfold keys. rewrite map_length. auto.
  - assert (Hlen : length (keys t) = length (entries t)) by (unfold keys; apply map_length).
    assert (Hkn : nth n (keys t) 0 = k). { rewrite Hk, app_nth2, Hn, Nat.sub_diag; auto. lia. }
    assert (Hlt : (n < length (entries t))%nat). { rewrite <- Hlen, Hk, app_length, Hn. cbn. lia. }
    destruct (at_in (entries t) (Z.of_nat n)) as [en Hen]; [lia|].
    assert (Hek : e_key en = k). { rewrite <- (keys_at t _ _ Hen), Nat2Z.id. auto. }
    destruct (ht_find_spec t n k HL) as [(i & e & Hi & Ha & Hke & _)|(_ & neg & Hneg & ->)].
    + exfalso. assert (i = Z.of_nat n); [|lia]. eapply WF_key_unique; eauto. congruence.
    + cbn [bindo PrevIndex HashIndex].
      destruct (link_spec t n k en HL Hen Hek ltac:(rewrite (Hnx _ _ (Z.le_refl _) Hen); lia)) as (t1 & E & HL1 & Hnh1 & Hl1 & Hfr).
      rewrite E. cbn [bindo]. replace (Z.of_nat n + 1) with (Z.of_nat (S n)) by lia.
      assert (Hkv1 : kv t1 = kv t). { apply kv_same; auto. intros j ej Hj. destruct (Hfr j ej Hj) as (e' & ? & ? & ? & _). eauto. }
      assert (Hks1 : keys t1 = keys t) by (rewrite <- !kv_keys; congruence).
      assert (Hfs : firstn (S n) (keys t) = firstn n (keys t) ++ [k]).
      { rewrite Hk at 1. rewrite firstn_app, Hn. replace (S n - n)%nat with 1%nat by lia. rewrite firstn_all2 by lia. reflexivity. }
      destruct (IH (S n) t1 HL1) as (t' & E' & HL' & Hkv' & Hnh').
      * congruence.
      * rewrite Hks1, Hfs, <- app_assoc. exact Hk.
      * rewrite Hks1, Hfs, app_length, Hn. cbn. lia.
      * intros j e' Hj He'. destruct (at_in (entries t) j) as [ej Hej]. { pose proof (at_some _ _ _ He'). lia. }
        destruct (Hfr j ej Hej) as (e'' & He'' & _ & _ & Hnn). rewrite He' in He''. injection He'' as <-.
        rewrite Hnn by lia. apply (Hnx j ej); auto. lia.
      * exists t'. split; auto. split; auto. split; [congruence|lia].
Qed.
Lemma rehash_fast_spec t : 0 < nh t -> NoDup (keys t) ->
  exists t', ht_rehash_fast t = Some t' /\ WF t' /\ kv t' = kv t /\ nh t' = nh t.
Proof.
  intros Hnh Hnd. unfold ht_rehash_fast.
  set (t0 := {| hashes := map (fun _ => -1) (hashes t); entries := map (with_next (-1)) (entries t) |}).
  assert (Hkv0 : kv t0 = kv t). { unfold kv, t0. cbn. rewrite map_map. reflexivity. }
  assert (Hk0 : keys t0 = keys t) by (rewrite <- !kv_keys; congruence).
  assert (Hnh0 : nh t0 = nh t) by (unfold nh; cbn; rewrite map_length; auto).
  destruct (rehash_fast_loop_spec (map e_key (entries t)) 0 t0) as (t' & E & HL & Hkv & Hn).
  - split; [lia|]. split; [lia|]. intros b h Hb. cbn in *. rewrite at_map in Hb. destruct (at_ (hashes t) b); [|discriminate].
    injection Hb as <-. constructor. lia.
  - congruence.
  - rewrite Hk0. reflexivity.
  - reflexivity.
  - intros j e _ He. unfold t0 in He. cbn in He. rewrite at_map in He. destruct (at_ (entries t) j); [|discriminate]. injection He as <-. reflexivity.
  - exists t'. split; [exact E|]. split; [|split; [congruence|lia]]. split; auto. rewrite <- kv_keys, Hkv, Hkv0, kv_keys. auto.
Qed.
Lemma map_remove_nth {A B} (f : A -> B) i l : map f (remove_nth i l) = remove_nth i (map f l).
Proof. unfold remove_nth. rewrite map_app, firstn_map, skipn_map. auto. Qed.
Lemma remove_nth_nodup {A} (l : list A) : forall i, NoDup l -> NoDup (remove_nth i l).
Proof.
  unfold remove_nth. intros i H. destruct (Nat.lt_ge_cases i (length l)) as [Hi|Hi].
  - destruct (nth_error l i) as [x|] eqn:E; [|apply nth_error_None in E; lia].
    apply nth_error_split in E as (l1 & l2 & -> & <-).
    rewrite firstn_app, Nat.sub_diag, firstn_all2, skipn_app, skipn_all2 by lia. cbn [firstn]. rewrite app_nil_r.
    replace (length l1 + 1 - length l1)%nat with 1%nat by lia. cbn [skipn app]. eapply NoDup_remove_1; eauto.
  - rewrite firstn_all2, skipn_all2 by lia. rewrite app_nil_r. auto.
Qed.
Lemma remove_nth_lookup l i k v : NoDup (map fst l) -> nth_error l i = Some (k, v) ->
  forall x, alookup (remove_nth i l) x = if x =? k then None else alookup l x.
Proof.
  intros Hnd H x. apply nth_error_split in H as (l1 & l2 & -> & <-). unfold remove_nth.
  rewrite firstn_app, Nat.sub_diag, firstn_all2, skipn_app, skipn_all2 by lia. cbn [firstn]. rewrite app_nil_r.
  replace (length l1 + 1 - length l1)%nat with 1%nat by lia. cbn [skipn app].
  rewrite map_app in Hnd. cbn [map fst] in Hnd. apply NoDup_remove_2 in Hnd. rewrite <- map_app in Hnd.
  unfold alookup. destruct (x =? k) eqn:E.
  - apply Z.eqb_eq in E. subst x. destruct (find _ (l1 ++ l2)) as [[k' v']|] eqn:F; auto. exfalso. apply find_some in F as [Hin Hk].
    cbn in Hk. apply Hnd. apply (in_map fst) in Hin. cbn in Hin. replace k with k' by lia. auto.
  - f_equal. clear Hnd. induction l1 as [|[a b] l1 IH]; cbn.
    + replace (k =? x) with false by lia. auto.
    + destruct (a =? x); auto.
Qed.
Lemma remove_spec t key : WF t -> exists t', ht_remove t key = Some t' /\ WF t' /\ nh t' = nh t /\
  (length (entries t') <= length (entries t))%nat /\
  forall x, alookup (kv t') x = if x =? key then None else alookup (kv t) x.
Proof.
  intros HW. pose proof HW as [HL Hnd]. unfold ht_remove.
  destruct (ht_find_spec t _ key HL) as [(i & e & Hi & Ha & Hk & p & ->)|(Hno & neg & Hneg & ->)]; cbn [bindo EntryIndex].
  - replace (i >=? 0) with true by lia. unfold ht_remove_entry. replace ((0 <=? i) && (i <? Z.of_nat (length (entries t)))) with true by lia.
    cbn [bindo]. set (t1 := {| hashes := hashes t; entries := remove_nth (Z.to_nat i) (entries t) |}).
    assert (Hkv1 : kv t1 = remove_nth (Z.to_nat i) (kv t)) by (unfold kv; cbn; apply map_remove_nth).
    destruct (rehash_fast_spec t1) as (t' & E & HW' & Hkv & Hn).
    + apply HL.
    + unfold keys. cbn. rewrite map_remove_nth. apply remove_nth_nodup. auto.
    + exists t'. split; auto. split; auto. split; [exact Hn|]. split.
      { rewrite <- !kv_len, Hkv, Hkv1. unfold remove_nth. rewrite app_length, firstn_length, skipn_length. lia. }
      rewrite Hkv, Hkv1. eapply remove_nth_lookup; [rewrite kv_keys; auto|]. rewrite (kv_at t i e Ha), Hk. reflexivity.
  - replace (neg >=? 0) with false by lia. exists t. split; auto. split; auto. split; auto. split; auto.
    intros x. destruct (x =? key) eqn:E; auto. apply Z.eqb_eq in E. subst x.
    unfold kv; rewrite <- lookup_kv. apply lookup_none. intros i e He. apply (Hno i e); auto. apply (at_some _ _ _ He).
Qed.
End HT.
