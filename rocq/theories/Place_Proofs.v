(** Specifications and lemmas for constraints and placement. *)
From Coq Require Import Ascii String List NArith ZArith Bool Lia ZifyBool Permutation.
From Verif Require Import Base_Model Base_Proofs Grid_Model Grid_Proofs Place_Model.
Import ListNotations.
Open Scope Z_scope.

(** ** Constraints: specification *)
Definition int_relation (r : relation) (modulus attr v : Z) : Prop :=
  match r with
  | REqual => attr = v
  | RNotEqual => attr <> v
  | RModEqual => Z.rem attr modulus = v
  | RModNotEqual => Z.rem attr modulus <> v
  | RUnknown => False
  end.
Definition string_relation (r : relation) (attr v : str) : Prop :=
  match r with REqual => attr = v | RNotEqual => attr <> v | _ => False end.

(** The attribute [a] satisfies the constraint [c]. *)
Definition attribute_satisfies (c : constraint) (a : attribute) : Prop :=
  at_name a = cn_attr c /\
  ((exists v, In v (cn_strings c) /\ string_relation (cn_rel c) (at_value a) v) \/
   (exists v n, In v (cn_ints c) /\ simple_atoi (at_value a) = Some n /\
                int_relation (cn_rel c) (cn_modulus c) n v)).
Definition satisfies (cl : constraint_list) (attrs : list attribute) : Prop :=
  forall cs, In cs cl -> exists c, In c cs /\ exists a, In a attrs /\ attribute_satisfies c a.

(** Moduli for which % is defined on every int64. *)
Definition modulus_ok (c : constraint) : Prop :=
  match cn_rel c with RModEqual | RModNotEqual => cn_modulus c <> 0 /\ cn_modulus c <> -1 | _ => True end.
Definition moduli_ok (cl : constraint_list) : Prop := forall cs c, In cs cl -> In c cs -> modulus_ok c.

Lemma any_of_defined {A} (f : A -> option bool) (P : A -> Prop) l :
  (forall a, In a l -> exists b, f a = Some b /\ (b = true <-> P a)) ->
  exists b, any_of f l = Some b /\ (b = true <-> exists a, In a l /\ P a).
Proof.
  induction l as [|a l IH]; intros H; cbn [any_of].
  - exists false. split; [reflexivity|]. split; [discriminate|intros (a & [] & _)].
  - destruct (H a (or_introl eq_refl)) as (b & -> & Hb).
    destruct b.
    + exists true. split; [reflexivity|]. split; [|reflexivity]. intros _. exists a.
      split; [left; reflexivity|apply Hb; reflexivity].
    + destruct IH as (b & E & Hb'); [intros; apply H; right; assumption|].
      exists b. split; [exact E|]. rewrite Hb'. split.
      * intros (x & Hx & Px). exists x. split; [right; exact Hx|exact Px].
      * intros (x & [<-|Hx] & Px); [apply Hb in Px; discriminate|]. exists x. auto.
Qed.
Lemma all_of_defined {A} (f : A -> option bool) (P : A -> Prop) l :
  (forall a, In a l -> exists b, f a = Some b /\ (b = true <-> P a)) ->
  exists b, all_of f l = Some b /\ (b = true <-> forall a, In a l -> P a).
Proof.
  induction l as [|a l IH]; intros H; cbn [all_of].
  - exists true. split; [reflexivity|]. split; [intros _ a []|reflexivity].
  - destruct (H a (or_introl eq_refl)) as (b & -> & Hb).
    destruct b.
    + destruct IH as (b & E & Hb'); [intros; apply H; right; assumption|].
      exists b. split; [exact E|]. rewrite Hb'. split.
      * intros K x [<-|Hx]; [apply Hb; reflexivity|auto].
      * intros K x Hx. apply K. right. exact Hx.
    + exists false. split; [reflexivity|]. split; [discriminate|].
      intros K. apply Hb. apply K. left. reflexivity.
Qed.

Lemma rem_defined a m : m <> 0 -> m <> -1 -> rem_int64 a m = Some (Z.rem a m).
Proof.
  intros H0 H1. unfold rem_int64. destruct (Z.eqb_spec m 0); [contradiction|].
  destruct (Z.eqb_spec m (-1)); [contradiction|]. rewrite andb_false_r. reflexivity.
Qed.

Lemma check_int_defined v a c : modulus_ok c ->
  exists b, check_int v a c = Some b /\
    (b = true <-> exists n, simple_atoi (at_value a) = Some n /\ int_relation (cn_rel c) (cn_modulus c) n v).
Proof.
  intros Hm. unfold check_int. destruct (simple_atoi (at_value a)) as [n|].
  2:{ exists false. split; [reflexivity|]. split; [discriminate|intros (n & K & _); discriminate]. }
  assert (E : forall P : Prop, (exists m, Some n = Some m /\ P) -> P) by (intros P (m & _ & p); exact p).
  unfold modulus_ok in Hm. destruct (cn_rel c); cbn [int_relation].
  - exists false. split; [reflexivity|]. split; [discriminate|intros (m & _ & [])].
  - eexists. split; [reflexivity|]. rewrite Z.eqb_eq. split; [intros ->; eauto|intros (m & [= <-] & K); exact K].
  - eexists. split; [reflexivity|]. rewrite negb_true_iff, Z.eqb_neq. split; [eauto|intros (m & [= <-] & K); exact K].
  - destruct Hm as [M0 M1]. rewrite rem_defined by assumption. eexists. split; [reflexivity|].
    rewrite Z.eqb_eq. split; [eauto|intros (m & [= <-] & K); exact K].
  - destruct Hm as [M0 M1]. rewrite rem_defined by assumption. eexists. split; [reflexivity|].
    rewrite negb_true_iff, Z.eqb_neq. split; [eauto|intros (m & [= <-] & K); exact K].
Qed.

Lemma check_string_spec v a c : check_string v a c = true <-> string_relation (cn_rel c) (at_value a) v.
Proof.
  unfold check_string. destruct (cn_rel c); cbn [string_relation]; try (split; [discriminate|intros []]).
  - destruct (str_eqb_spec (at_value a) v); split; auto; try discriminate; contradiction.
  - destruct (str_eqb_spec (at_value a) v); cbn [negb]; split; auto; try discriminate; contradiction.
Qed.

Lemma check_attribute_defined c a : modulus_ok c ->
  exists b, check_attribute c a = Some b /\ (b = true <-> attribute_satisfies c a).
Proof.
  intros Hm. unfold check_attribute, attribute_satisfies.
  destruct (str_eqb_spec (at_name a) (cn_attr c)) as [E|E]; cbn [negb].
  2:{ exists false. split; [reflexivity|]. split; [discriminate|intros [K _]; contradiction]. }
  destruct (existsb (fun v => check_string v a c) (cn_strings c)) eqn:X.
  - exists true. split; [reflexivity|]. split; [|reflexivity]. intros _. split; [exact E|]. left.
    apply existsb_exists in X as (v & Hv & K). exists v. split; [exact Hv|]. apply check_string_spec, K.
  - destruct (any_of_defined (fun v => check_int v a c)
      (fun v => exists n, simple_atoi (at_value a) = Some n /\ int_relation (cn_rel c) (cn_modulus c) n v)
      (cn_ints c)) as (b & Eb & Hb).
    { intros v _. apply check_int_defined, Hm. }
    exists b. split; [exact Eb|]. rewrite Hb. split.
    + intros (v & Hv & n & K). split; [exact E|]. right. exists v, n. tauto.
    + intros [_ [(v & Hv & K)|(v & n & Hv & K)]]; [|exists v; split; [exact Hv|exists n; exact K]].
      exfalso. apply check_string_spec in K.
      assert (existsb (fun v => check_string v a c) (cn_strings c) = true) by (apply existsb_exists; eauto).
      congruence.
Qed.

Lemma check_list_spec cl attrs : moduli_ok cl ->
  exists b, check_list cl attrs = Some b /\ (b = true <-> satisfies cl attrs).
Proof.
  intros Hm. unfold check_list, satisfies.
  apply (all_of_defined _ (fun cs => exists c, In c cs /\ exists a, In a attrs /\ attribute_satisfies c a)).
  intros cs Hcs. unfold check_set.
  apply (any_of_defined _ (fun c => exists a, In a attrs /\ attribute_satisfies c a)).
  intros c Hc. unfold check_constraint. apply any_of_defined. intros a _.
  apply check_attribute_defined. eapply Hm; eauto.
Qed.

(** Soundness without any assumption on moduli: an answer is correct. *)
Lemma any_of_sound {A} (f : A -> option bool) (P : A -> Prop) l b :
  (forall a c, In a l -> f a = Some c -> (c = true <-> P a)) ->
  any_of f l = Some b -> (b = true <-> exists a, In a l /\ P a).
Proof.
  induction l as [|a l IH]; cbn [any_of]; intros H E.
  - injection E as <-. split; [discriminate|intros (a & [] & _)].
  - destruct (f a) as [[|]|] eqn:Ea; [| |discriminate].
    + injection E as <-. split; [|reflexivity]. intros _. exists a. split; [left; reflexivity|].
      apply (H a true (or_introl eq_refl) Ea). reflexivity.
    + rewrite IH; [|intros; apply H; [right; assumption|assumption]|exact E]. split.
      * intros (x & Hx & Px). exists x. split; [right; exact Hx|exact Px].
      * intros (x & [<-|Hx] & Px); [apply (H _ _ (or_introl eq_refl) Ea) in Px; discriminate|]. exists x. auto.
Qed.
Lemma all_of_sound {A} (f : A -> option bool) (P : A -> Prop) l b :
  (forall a c, In a l -> f a = Some c -> (c = true <-> P a)) ->
  all_of f l = Some b -> (b = true <-> forall a, In a l -> P a).
Proof.
  induction l as [|a l IH]; cbn [all_of]; intros H E.
  - injection E as <-. split; [intros _ a []|reflexivity].
  - destruct (f a) as [[|]|] eqn:Ea; [| |discriminate].
    + rewrite IH; [|intros; apply H; [right; assumption|assumption]|exact E]. split.
      * intros K x [<-|Hx]; [apply (H _ _ (or_introl eq_refl) Ea); reflexivity|auto].
      * intros K x Hx. apply K. right. exact Hx.
    + injection E as <-. split; [discriminate|]. intros K.
      apply (H _ _ (or_introl eq_refl) Ea). apply K. left. reflexivity.
Qed.

Lemma check_int_sound v a c b : check_int v a c = Some b ->
  (b = true <-> exists n, simple_atoi (at_value a) = Some n /\ int_relation (cn_rel c) (cn_modulus c) n v).
Proof.
  unfold check_int. destruct (simple_atoi (at_value a)) as [n|].
  2:{ intros [= <-]. split; [discriminate|intros (n & K & _); discriminate]. }
  assert (R : forall r, rem_int64 n (cn_modulus c) = Some r -> r = Z.rem n (cn_modulus c)).
  { intros r. unfold rem_int64. destruct (_ =? 0); [discriminate|]. destruct (_ && _); [discriminate|]. congruence. }
  destruct (cn_rel c); cbn [int_relation].
  - intros [= <-]. split; [discriminate|intros (m & _ & [])].
  - intros [= <-]. rewrite Z.eqb_eq. split; [intros ->; eauto|intros (m & [= <-] & K); exact K].
  - intros [= <-]. rewrite negb_true_iff, Z.eqb_neq. split; [eauto|intros (m & [= <-] & K); exact K].
  - destruct (rem_int64 n (cn_modulus c)) as [r|] eqn:E; [|discriminate]. rewrite (R r eq_refl).
    intros [= <-]. rewrite Z.eqb_eq. split; [eauto|intros (m & [= <-] & K); exact K].
  - destruct (rem_int64 n (cn_modulus c)) as [r|] eqn:E; [|discriminate]. rewrite (R r eq_refl).
    intros [= <-]. rewrite negb_true_iff, Z.eqb_neq. split; [eauto|intros (m & [= <-] & K); exact K].
Qed.

Lemma check_list_sound cl attrs b : check_list cl attrs = Some b -> (b = true <-> satisfies cl attrs).
Proof.
  unfold check_list, satisfies.
  apply (all_of_sound _ (fun cs => exists c, In c cs /\ exists a, In a attrs /\ attribute_satisfies c a)).
  intros cs b1 _. unfold check_set.
  apply (any_of_sound _ (fun c => exists a, In a attrs /\ attribute_satisfies c a)).
  intros c b2 _. unfold check_constraint. apply any_of_sound. intros a b3 _.
  unfold check_attribute, attribute_satisfies.
  destruct (str_eqb_spec (at_name a) (cn_attr c)) as [E|E]; cbn [negb].
  2:{ intros [= <-]. split; [discriminate|intros [K _]; contradiction]. }
  destruct (existsb (fun v => check_string v a c) (cn_strings c)) eqn:X.
  - intros [= <-]. split; [|reflexivity]. intros _. split; [exact E|]. left.
    apply existsb_exists in X as (v & Hv & K). exists v. split; [exact Hv|]. apply check_string_spec, K.
  - intros Eb. rewrite (any_of_sound _
      (fun v => exists n, simple_atoi (at_value a) = Some n /\ int_relation (cn_rel c) (cn_modulus c) n v)
      _ _ (fun v b _ => check_int_sound v a c b) Eb).
    split.
    + intros (v & Hv & n & K). split; [exact E|]. right. exists v, n. tauto.
    + intros [_ [(v & Hv & K)|(v & n & Hv & K)]]; [|exists v; split; [exact Hv|exists n; exact K]].
      exfalso. apply check_string_spec in K.
      assert (existsb (fun v => check_string v a c) (cn_strings c) = true) by (apply existsb_exists; eauto).
      congruence.
Qed.

(** ** Sets and maps *)
Lemma set_mem_spec x l : set_mem x l = true <-> In x l.
Proof.
  unfold set_mem. rewrite existsb_exists. split.
  - intros (y & Hy & E). destruct (str_eqb_spec x y); [subst; exact Hy|discriminate].
  - intros H. exists x. split; [exact H|apply str_eqb_refl].
Qed.
Lemma set_add_In x y l : In y (set_add x l) <-> y = x \/ In y l.
Proof.
  unfold set_add. destruct (set_mem x l) eqn:E.
  - apply set_mem_spec in E. split; [auto|intros [->|H]; auto].
  - rewrite in_app_iff. cbn [In]. intuition.
Qed.
Lemma set_add_NoDup x l : NoDup l -> NoDup (set_add x l).
Proof.
  intros H. unfold set_add. destruct (set_mem x l) eqn:E; [exact H|].
  apply NoDup_snoc; [exact H|]. intros K. apply set_mem_spec in K. congruence.
Qed.
Lemma set_del_In x y l : In y (set_del x l) <-> y <> x /\ In y l.
Proof.
  unfold set_del. rewrite filter_In. destruct (str_eqb_spec x y) as [->|N]; cbn [negb].
  - split; [intros [_ K]; discriminate|intros [K _]; contradiction].
  - split; [intros [K _]; auto|intros [_ K]; auto].
Qed.
Lemma set_del_NoDup x l : NoDup l -> NoDup (set_del x l).
Proof. intros H. unfold set_del. apply NoDup_filter, H. Qed.

Lemma map_set_In {V} k (v : V) m : NoDup (map fst m) -> forall k' v',
  In (k', v') (map_set k v m) <-> (k' = k /\ v' = v) \/ (k' <> k /\ In (k', v') m).
Proof.
  induction m as [|[k0 v0] m IH]; cbn [map_set map fst]; intros ND k' v'.
  - cbn [In]. split; [intros [E|[]]; injection E as -> ->; auto|intros [[-> ->]|[_ []]]; auto].
  - apply NoDup_cons_iff in ND as [Hn ND]. destruct (str_eqb_spec k k0) as [->|N]; cbn [In].
    + split.
      * intros [E|H]; [injection E as <- <-; auto|]. right. split; [|auto]. intros ->.
        apply Hn. apply in_map_iff. exists (k0, v'). auto.
      * intros [[-> ->]|[Hk [E|H]]]; auto. injection E as -> ->. contradiction.
    + rewrite (IH ND). split.
      * intros [E|[?|[? ?]]]; auto. injection E as <- <-. auto.
      * intros [[-> ->]|[Hk [E|H]]]; auto.
Qed.

Lemma map_find_iff {V} k (v : V) m : NoDup (map fst m) -> (map_find k m = Some v <-> In (k, v) m).
Proof.
  intros ND. split; [apply map_find_In|].
  induction m as [|[k0 v0] m IH]; cbn [In map fst map_find] in *; [intros []|].
  apply NoDup_cons_iff in ND as [Hn ND]. intros [E|H].
  - injection E as -> ->. rewrite str_eqb_refl. reflexivity.
  - destruct (str_eqb_spec k k0) as [->|N]; [|auto].
    exfalso. apply Hn. apply in_map_iff. exists (k0, v). auto.
Qed.

(** ** Placement *)
Definition placed (m : list (str * list str)) (svc node : str) : Prop :=
  exists l, map_find node m = Some l /\ In svc l.

Record inv (names nodes : list str) (done : list (str * list str)) (st : solver) : Prop := mkInv {
  i_idle_nd : NoDup (sv_idle st);
  i_idle : forall n, In n (sv_idle st) -> In n nodes /\ map_find n (sv_map st) = None /\ ~ In n (map fst done);
  i_nodes : forall n l, map_find n (sv_map st) = Some l -> In n nodes /\ NoDup l /\ forall s, In s l -> In s names;
  i_bundle : forall n l, In (n, l) done -> map_list n (sv_map st) = l /\ In n nodes;
  i_single : forall n l, map_find n (sv_map st) = Some l -> ~ In n (map fst done) -> exists s, l = [s];
  i_unplaced : forall s, In s names -> (In s (sv_unplaced st) <-> ~ exists n, placed (sv_map st) s n);
  i_either : forall s, In s names -> In s (sv_unplaced st) \/ exists n, placed (sv_map st) s n;
  i_bundle_unique : forall s n1 l1 n2 l2, In (n1, l1) done -> In (n2, l2) done -> In s l1 -> In s l2 -> n1 = n2 }.

Lemma map_list_set_same {V} k (v : list V) m : map_list k (map_set k v m) = v.
Proof. unfold map_list. rewrite map_find_set_same. reflexivity. Qed.
Lemma map_list_set_other {V} k k2 (v : list V) m : k <> k2 -> map_list k (map_set k2 v m) = map_list k m.
Proof. intros H. unfold map_list. rewrite map_find_set_other by exact H. reflexivity. Qed.

(** One service put on a fresh idle node. *)
Lemma put_inv names nodes done st svc n :
  inv names nodes done st -> In svc names -> In n (sv_idle st) ->
  inv names nodes done (put svc n st) /\
  (forall s m, placed (sv_map (put svc n st)) s m <-> placed (sv_map st) s m \/ (s = svc /\ m = n)).
Proof.
  intros [I1 I2 I3 I4 I5 I6 I8 I7] Hs Hn. destruct (I2 n Hn) as (Hnode & Hfree & Hnb).
  assert (P : forall s m, placed (sv_map (put svc n st)) s m <-> placed (sv_map st) s m \/ (s = svc /\ m = n)).
  { intros s m. unfold placed, put; cbn [sv_map]. unfold map_insert, map_list. rewrite Hfree.
    cbn [set_add set_mem existsb app]. destruct (str_eqb_spec m n) as [->|N].
    - rewrite map_find_set_same. split.
      + intros (l & [= <-] & [<-|[]]). auto.
      + intros [(l & K & _)|[-> _]]; [congruence|]. exists [svc]. split; [reflexivity|left; reflexivity].
    - rewrite map_find_set_other by exact N. split; [auto|intros [K|[_ K]]; [exact K|contradiction]]. }
  split; [|exact P]. unfold put in *. constructor; cbn [sv_idle sv_map sv_unplaced] in *.
  - apply set_del_NoDup, I1.
  - intros m Hm. apply set_del_In in Hm as [N Hm]. destruct (I2 m Hm) as (A & B & C).
    split; [exact A|]. split; [|exact C]. unfold map_insert. rewrite map_find_set_other; [exact B|exact N].
  - intros m l. unfold map_insert, map_list. rewrite Hfree. cbn [set_add set_mem existsb app].
    destruct (str_eqb_spec m n) as [->|N].
    + rewrite map_find_set_same. intros [= <-]. split; [exact Hnode|]. split; [repeat constructor; intros []|].
      intros s [<-|[]]. exact Hs.
    + rewrite map_find_set_other by exact N. apply I3.
  - intros m l Hm. destruct (I4 m l Hm) as [A B]. split; [|exact B].
    unfold map_insert. rewrite map_list_set_other; [exact A|]. intros ->. apply Hnb.
    apply in_map_iff. exists (n, l). auto.
  - intros m l. unfold map_insert, map_list. rewrite Hfree. cbn [set_add set_mem existsb app].
    destruct (str_eqb_spec m n) as [->|N].
    + rewrite map_find_set_same. intros [= <-] _. exists svc. reflexivity.
    + rewrite map_find_set_other by exact N. apply I5.
  - intros s Hs'. rewrite set_del_In. rewrite (I6 s Hs'). split.
    + intros [N K] [m Pm]. apply P in Pm as [Pm|[-> _]]; [apply K; eauto|contradiction].
    + intros K. split.
      * intros ->. apply K. exists n. apply P. auto.
      * intros [m Pm]. apply K. exists m. apply P. auto.
  - intros s Hs'. rewrite set_del_In. destruct (list_eq_dec Ascii.ascii_dec s svc) as [->|N].
    + right. exists n. apply P. auto.
    + destruct (I8 s Hs') as [K|[m K]]; [auto|]. right. exists m. apply P. auto.
  - exact I7.
Qed.

(** The services of one bundle, on a node without entry. *)
Lemma bundle_services_spec node svcs : forall st st' got,
  bundle_services node svcs st = PlaceOk st' -> map_list node (sv_map st) = got ->
  NoDup (got ++ svcs) ->
  sv_idle st' = sv_idle st /\
  map_list node (sv_map st') = got ++ svcs /\
  (svcs <> [] -> map_find node (sv_map st') = Some (got ++ svcs)) /\
  (svcs = [] -> sv_map st' = sv_map st) /\
  (forall n, n <> node -> map_find n (sv_map st') = map_find n (sv_map st)) /\
  (forall s, In s (sv_unplaced st') <-> In s (sv_unplaced st) /\ ~ In s svcs).
Proof.
  induction svcs as [|s r IH]; intros st st' got E Hg ND; cbn [bundle_services] in E.
  - injection E as <-. rewrite app_nil_r. repeat split; auto; try contradiction. intros [K _]; exact K.
  - destruct (set_mem s (sv_unplaced st)) eqn:M; [|discriminate].
    apply set_mem_spec in M.
    assert (Hfresh : ~ In s got).
    { intros K. apply NoDup_remove_2 in ND. apply ND. apply in_or_app. auto. }
    assert (Hadd : set_add s got = got ++ [s]).
    { unfold set_add. destruct (set_mem s got) eqn:K; [|reflexivity]. apply set_mem_spec in K. contradiction. }
    specialize (IH _ _ (got ++ [s]) E). cbn [sv_idle sv_map sv_unplaced] in IH.
    rewrite <- app_assoc in IH. cbn [app] in IH.
    destruct IH as (A & B & C & D & F & G); [|exact ND|].
    { unfold map_insert. rewrite map_list_set_same, Hg. exact Hadd. }
    split; [exact A|]. split; [exact B|]. split.
    { intros _. destruct r as [|s2 r].
      - rewrite D by reflexivity. unfold map_insert. rewrite map_find_set_same, Hg, Hadd. reflexivity.
      - apply C. discriminate. }
    split; [discriminate|]. split.
    { intros n N. rewrite F by exact N. unfold map_insert. apply map_find_set_other, N. }
    intros x. rewrite G, set_del_In. cbn [In]. split; [intros [[K1 K2] K3]; split; [exact K2|intros [K|K]; auto]|].
    intros [K1 K2]. split; [split; [intros ->; apply K2; auto|exact K1]|]. intros K. apply K2. auto.
Qed.

Lemma bundle_services_fresh node svcs : forall st st',
  bundle_services node svcs st = PlaceOk st' ->
  NoDup svcs /\ forall s, In s svcs -> In s (sv_unplaced st).
Proof.
  induction svcs as [|s r IH]; intros st st' E; cbn [bundle_services] in E.
  - split; [constructor|intros s []].
  - destruct (set_mem s (sv_unplaced st)) eqn:M; [|discriminate]. apply set_mem_spec in M.
    destruct (IH _ _ E) as [ND K]. cbn [sv_unplaced] in K. split.
    + constructor; [|exact ND]. intros H. apply K in H. apply set_del_In in H. tauto.
    + intros x [<-|H]; [exact M|]. apply K in H. apply set_del_In in H. tauto.
Qed.

Lemma place_bundles_inv names nodes bundles : forall done st st',
  NoDup (map fst (done ++ bundles)) ->
  (forall s, In s (sv_unplaced st) -> In s names) ->
  (forall n, map_find n (sv_map st) <> None -> In n (map fst done)) ->
  inv names nodes done st -> place_bundles bundles st = PlaceOk st' ->
  inv names nodes (done ++ bundles) st' /\ (forall s, In s (sv_unplaced st') -> In s names) /\
  (forall n, map_find n (sv_map st') <> None -> In n (map fst (done ++ bundles))).
Proof.
  induction bundles as [|[node svcs] r IH]; intros done st st' NDk Hun Hm HI E; cbn [place_bundles] in E.
  - injection E as <-. rewrite app_nil_r. auto.
  - destruct (bundle_services node svcs st) as [| | |st1] eqn:Eb; try discriminate.
    destruct (set_mem node (sv_idle st1)) eqn:M; [|discriminate]. apply set_mem_spec in M.
    destruct (bundle_services_fresh _ _ _ _ Eb) as [NDs Hfr].
    assert (Hgot : map_list node (sv_map st) = []).
    { unfold map_list. destruct (map_find node (sv_map st)) as [l|] eqn:K; [|reflexivity]. exfalso.
      assert (D : In node (map fst done)) by (apply Hm; congruence).
      rewrite map_app in NDk. cbn [map fst] in NDk. apply NoDup_remove_2 in NDk. apply NDk.
      apply in_or_app. auto. }
    destruct (bundle_services_spec node svcs st st1 [] Eb Hgot NDs) as (A & B & C & D & F & G).
    cbn [app] in *.
    destruct HI as [I1 I2 I3 I4 I5 I6 I8 I7].
    rewrite A in M. destruct (I2 node M) as (Hnode & Hfree & Hnd).
    assert (P : forall s m, placed (sv_map st1) s m <-> placed (sv_map st) s m \/ (In s svcs /\ m = node)).
    { intros s m. unfold placed. destruct (str_eqb_spec m node) as [->|N].
      - destruct svcs as [|s0 svcs].
        + rewrite D by reflexivity. split; [auto|intros [K|[[] _]]; exact K].
        + rewrite C by discriminate. rewrite Hfree. split.
          * intros (l & [= <-] & K). auto.
          * intros [(l & K & _)|[K _]]; [discriminate|]. eauto.
      - rewrite F by exact N. split; [auto|intros [K|[_ K]]; [exact K|contradiction]]. }
    replace (done ++ (node, svcs) :: r) with ((done ++ [(node, svcs)]) ++ r) in * by (rewrite <- app_assoc; reflexivity).
    eapply IH; [exact NDk| | | |exact E]; cbn [sv_unplaced sv_idle sv_map].
    + intros s K. apply G in K. apply Hun. tauto.
    + intros n K. rewrite map_app, in_app_iff. cbn [map fst In]. destruct (str_eqb_spec n node) as [->|N]; [auto|].
      left. apply Hm. rewrite <- F by exact N. exact K.
    + constructor; cbn [sv_unplaced sv_idle sv_map].
      * apply set_del_NoDup. rewrite A. exact I1.
      * intros n K. apply set_del_In in K as [N K]. rewrite A in K. destruct (I2 n K) as (A1 & A2 & A3).
        split; [exact A1|]. split; [rewrite F by exact N; exact A2|].
        rewrite map_app, in_app_iff. cbn [map fst In]. intuition.
      * intros n l K. destruct (str_eqb_spec n node) as [->|N].
        -- destruct svcs as [|s0 svcs].
           ++ rewrite D in K by reflexivity. congruence.
           ++ rewrite C in K by discriminate. injection K as <-. split; [exact Hnode|]. split; [exact NDs|].
              intros s Hs. apply Hun, Hfr, Hs.
        -- rewrite F in K by exact N. eapply I3, K.
      * intros n l K. apply in_app_iff in K as [K|[K|[]]].
        -- assert (N : n <> node) by (intros ->; apply Hnd; apply in_map_iff; exists (node, l); auto).
           destruct (I4 n l K) as [K1 K2]. split; [|exact K2]. unfold map_list in *. rewrite F by exact N. exact K1.
        -- injection K as <- <-. auto.
      * intros n l K N. rewrite map_app, in_app_iff in N. cbn [map fst In] in N.
        assert (N1 : n <> node) by intuition. rewrite F in K by exact N1. eapply I5; [exact K|intuition].
      * intros s Hs. rewrite G, (I6 s Hs). split.
        -- intros [K1 K2] [m Pm]. apply P in Pm as [Pm|[Pm _]]; [apply K1; eauto|contradiction].
        -- intros K. split; [intros [m Pm]; apply K; exists m; apply P; auto|].
           intros Hin. apply K. exists node. apply P. auto.
      * intros s Hs. rewrite G. destruct (in_dec (list_eq_dec Ascii.ascii_dec) s svcs) as [K|K].
        -- right. exists node. apply P. auto.
        -- destruct (I8 s Hs) as [Q|[m Q]]; [auto|]. right. exists m. apply P. auto.
      * intros s n1 l1 n2 l2 H1 H2 S1 S2. apply in_app_iff in H1, H2.
        assert (X : forall n l, In (n, l) done -> In s l -> ~ In s svcs).
        { intros n l Hnl Hsl Hsv. apply Hfr in Hsv.
          destruct (I4 n l Hnl) as [K1 _]. assert (In s names) by (apply Hun; exact Hsv).
          apply (I6 s) in Hsv; [|assumption]. apply Hsv. exists n. unfold placed.
          unfold map_list in K1. destruct (map_find n (sv_map st)) as [l'|] eqn:Q; [subst; eauto|subst; destruct Hsl]. }
        destruct H1 as [H1|[H1|[]]], H2 as [H2|[H2|[]]].
        -- eapply I7; eauto.
        -- injection H2 as <- <-. exfalso. eapply X; eauto.
        -- injection H1 as <- <-. exfalso. eapply X; eauto.
        -- injection H1 as <- <-. injection H2 as <- <-. reflexivity.
Qed.

Lemma first_match_spec cl attrs idle n : first_match cl attrs idle = Some (Some n) ->
  In n idle /\ check_list cl (map_list n attrs) = Some true.
Proof.
  induction idle as [|m r IH]; cbn [first_match]; [discriminate|].
  destruct (check_list cl (map_list m attrs)) as [[|]|] eqn:E; [| |discriminate].
  - intros [= <-]. split; [left; reflexivity|exact E].
  - intros H. destruct (IH H). split; [right; assumption|assumption].
Qed.
Lemma first_match_none cl attrs idle : first_match cl attrs idle = Some None ->
  forall n, In n idle -> check_list cl (map_list n attrs) = Some false.
Proof.
  induction idle as [|m r IH]; cbn [first_match]; [intros _ n []|].
  destruct (check_list cl (map_list m attrs)) as [[|]|] eqn:E; try discriminate.
  intros H n [<-|Hn]; auto.
Qed.

(** The constrained phase. [ns] are the names still to be treated. *)
Lemma place_constrained_inv names nodes done eff attrs ns : forall st st',
  inv names nodes done st -> (forall s, In s ns -> In s names) -> NoDup ns ->
  place_constrained eff attrs ns st = PlaceOk st' ->
  inv names nodes done st' /\
  (forall s n, placed (sv_map st) s n -> placed (sv_map st') s n) /\
  (forall s n, placed (sv_map st') s n -> placed (sv_map st) s n \/
      (In s ns /\ ~ In n (map fst done) /\ map_find n (sv_map st) = None /\
       exists cl, map_find s eff = Some cl /\ check_list cl (map_list n attrs) = Some true)) /\
  (forall s cl, In s ns -> map_find s eff = Some cl ->
      exists n, placed (sv_map st') s n /\ ~ placed (sv_map st) s n /\ ~ In n (map fst done)) /\
  (forall s n1 n2, placed (sv_map st') s n1 -> placed (sv_map st') s n2 ->
      ~ placed (sv_map st) s n1 -> ~ placed (sv_map st) s n2 -> n1 = n2).
Proof.
  induction ns as [|s r IH]; intros st st' HI Hin ND E; cbn [place_constrained] in E.
  - injection E as <-. split; [exact HI|]. repeat split; auto; try (intros ? ? []); try contradiction.
  - apply NoDup_cons_iff in ND as [Hs ND].
    destruct (map_find s eff) as [cl|] eqn:Ee.
    2:{ destruct (IH st st' HI) as (A & B & C & D & F); auto.
        { intros x Hx. apply Hin. right. exact Hx. }
        split; [exact A|]. split; [exact B|]. split.
        { intros x n Hx. destruct (C x n Hx) as [K|(K1 & K2)]; [auto|]. right. split; [right; exact K1|exact K2]. }
        split; [|exact F]. intros x c [<-|Hx] Hc; [congruence|]. eapply D; eauto. }
    destruct (first_match cl attrs (sv_idle st)) as [[n|]|] eqn:Ef; try discriminate.
    destruct (first_match_spec _ _ _ _ Ef) as [Hn Hc].
    destruct (put_inv names nodes done st s n HI (Hin s (or_introl eq_refl)) Hn) as [HI1 HP].
    destruct (IH (put s n st) st' HI1) as (A & B & C & D & F); auto.
    { intros x Hx. apply Hin. right. exact Hx. }
    destruct (i_idle _ _ _ _ HI n Hn) as (_ & Hfree & Hnb).
    assert (Hnp : forall x, ~ placed (sv_map st) x n).
    { intros x (l & K & _). congruence. }
    split; [exact A|]. split.
    { intros x m Hx. apply B. apply HP. auto. }
    split.
    { intros x m Hx. destruct (C x m Hx) as [K|(K1 & K2 & K3 & K4)].
      - apply HP in K as [K|[-> ->]]; [auto|]. right. split; [left; reflexivity|]. split; [exact Hnb|].
        split; [exact Hfree|]. exists cl. auto.
      - right. split; [right; exact K1|]. split; [exact K2|]. split; [|exact K4].
        destruct (map_find m (sv_map st)) as [l|] eqn:Q; [|reflexivity]. exfalso.
        unfold put, map_insert in K3. cbn [sv_map] in K3.
        destruct (str_eqb_spec m n) as [->|N]; [congruence|]. rewrite map_find_set_other in K3 by exact N. congruence. }
    assert (Honly : forall x m, placed (sv_map st') x m -> x = s -> placed (sv_map (put s n st)) x m).
    { intros x m Hx ->. destruct (C s m Hx) as [K|(K1 & _)]; [exact K|contradiction]. }
    split.
    { intros x c [<-|Hx] Hc'.
      - exists n. split; [apply B, HP; auto|]. split; [apply Hnp|exact Hnb].
      - destruct (D x c Hx Hc') as (m & M1 & M2 & M3). exists m. split; [exact M1|]. split; [|exact M3].
        intros K. apply M2. apply HP. auto. }
    intros x n1 n2 P1 P2 N1 N2.
    destruct (list_eq_dec Ascii.ascii_dec x s) as [->|Nx].
    + apply Honly in P1, P2; auto. apply HP in P1 as [P1|[_ ->]]; [contradiction|].
      apply HP in P2 as [P2|[_ ->]]; [contradiction|]. reflexivity.
    + apply (F x n1 n2); auto; intros K; apply HP in K as [K|[K _]]; contradiction.
Qed.

(** The remaining phase. *)
Lemma place_rest_inv names nodes done ns : forall st st' fl,
  inv names nodes done st -> (forall s, In s ns -> In s names) -> NoDup ns ->
  (forall s, In s ns -> ~ exists n, placed (sv_map st) s n) ->
  place_rest ns st fl = (st', []) ->
  fl = [] /\
  (forall s n, placed (sv_map st) s n -> placed (sv_map st') s n) /\
  (forall s n, placed (sv_map st') s n -> placed (sv_map st) s n \/ (In s ns /\ map_find n (sv_map st) = None /\ ~ In n (map fst done))) /\
  (forall s, In s ns -> exists n, placed (sv_map st') s n) /\
  (forall s n1 n2, In s ns -> placed (sv_map st') s n1 -> placed (sv_map st') s n2 -> n1 = n2) /\
  (forall n l, map_find n (sv_map st') = Some l -> In n nodes /\ NoDup l /\ forall s, In s l -> In s names) /\
  (forall n l, In (n, l) done -> map_list n (sv_map st') = l) /\
  (forall n l, map_find n (sv_map st') = Some l -> ~ In n (map fst done) -> exists s, l = [s]).
Proof.
  induction ns as [|s r IH]; intros st st' fl HI Hin ND Hnp E; cbn [place_rest] in E.
  - injection E as <- ->. destruct HI as [I1 I2 I3 I4 I5 I6 I8 I7].
    split; [reflexivity|]. split; [auto|]. split; [auto|]. split; [intros s []|]. split; [intros s n1 n2 []|].
    split; [exact I3|]. split; [|exact I5]. intros n l H. apply (I4 n l H).
  - apply NoDup_cons_iff in ND as [Hs ND].
    destruct (sv_idle st) as [|n idle] eqn:Ei.
    + destruct (IH _ _ _ HI (fun x Hx => Hin x (or_intror Hx)) ND (fun x Hx => Hnp x (or_intror Hx)) E) as [K _].
      destruct fl; discriminate.
    + assert (Hn : In n (sv_idle st)) by (rewrite Ei; left; reflexivity).
      destruct (put_inv names nodes done st s n HI (Hin s (or_introl eq_refl)) Hn) as [HI1 HP].
      destruct (i_idle _ _ _ _ HI n Hn) as (_ & Hfree & Hnb).
      (* the code does not erase from unplaced_services here *)
      set (st1 := mkSolver (sv_unplaced st) (set_del n (n :: idle)) (map_insert n s (sv_map st))) in *.
      assert (Em : sv_map (put s n st) = sv_map st1) by reflexivity.
      assert (Eidle : sv_idle (put s n st) = sv_idle st1) by (unfold put, st1; cbn [sv_idle]; rewrite Ei; reflexivity).
      assert (G : forall ns st2 st2' fl, place_rest ns st2 fl = (st2', []) ->
          forall u, place_rest ns (mkSolver u (sv_idle st2) (sv_map st2)) fl =
            (mkSolver u (sv_idle st2') (sv_map st2'), [])).
      { clear. induction ns as [|x ns IHn]; intros st2 st2' fl; cbn [place_rest].
        - intros [= <- ->] u. reflexivity.
        - intros K u. cbn [sv_idle sv_map]. destruct (sv_idle st2) as [|m idle2] eqn:Ei2.
          + specialize (IHn _ _ _ K u). rewrite Ei2 in IHn. exact IHn.
          + specialize (IHn _ _ _ K u). cbn [sv_idle sv_map] in IHn. exact IHn. }
      specialize (G _ _ _ _ E (sv_unplaced (put s n st))).
      rewrite <- Eidle, <- Em in G.
      assert (Ep : mkSolver (sv_unplaced (put s n st)) (sv_idle (put s n st)) (sv_map (put s n st)) = put s n st) by reflexivity.
      rewrite Ep in G.
      assert (Hnp' : forall x, In x r -> ~ exists m, placed (sv_map (put s n st)) x m).
      { intros x Hx [m Hm]. apply HP in Hm as [Hm|[-> _]]; [|contradiction]. eapply Hnp; [right; exact Hx|eauto]. }
      destruct (IH _ _ _ HI1 (fun x Hx => Hin x (or_intror Hx)) ND Hnp' G) as (A & B & C & D & F & H1 & H2 & H3).
      cbn [sv_map] in *.
      split; [exact A|]. split; [intros x m Hx; apply B, HP; auto|]. split.
      { intros x m Hx. destruct (C x m Hx) as [K|(K1 & K2 & K3)].
        - apply HP in K as [K|[-> ->]]; [auto|]. right. split; [left; reflexivity|]. auto.
        - right. split; [right; exact K1|]. split; [|exact K3].
          unfold put, map_insert in K2. cbn [sv_map] in K2.
          destruct (str_eqb_spec m n) as [->|N]; [rewrite map_find_set_same in K2; discriminate|].
          rewrite map_find_set_other in K2 by exact N. exact K2. }
      split.
      { intros x [<-|Hx]; [exists n; apply B, HP; auto|apply D, Hx]. }
      split.
      { intros x n1 n2 [<-|Hx] P1 P2; [|eapply F; eauto].
        assert (O : forall m, placed (sv_map st') s m -> m = n).
        { intros m Pm. destruct (C s m Pm) as [K|(K1 & _)]; [|contradiction].
          apply HP in K as [K|[_ K]]; [|exact K]. exfalso. eapply Hnp; [left; reflexivity|eauto]. }
        rewrite (O n1 P1), (O n2 P2). reflexivity. }
      split; [exact H1|]. split; [exact H2|exact H3].
Qed.

(** ** Effective constraints *)
Lemma effective_inner (fnm : str -> str -> bool) (all : list (str * constraint_list)) key (value : constraint_list) names : forall acc s,
  map_find s (fold_left (fun m svc => if fnm key svc
                            then match map_find svc all with Some _ => m | None => map_set svc value m end
                            else m) names acc) =
  (if set_mem s names && fnm key s && (match map_find s all with Some _ => false | None => true end)
   then Some value else map_find s acc).
Proof.
  induction names as [|x names IH]; intros acc s; cbn [fold_left].
  - reflexivity.
  - rewrite IH. unfold set_mem; cbn [existsb]. fold (set_mem s names).
    destruct (str_eqb_spec s x) as [->|N]; cbn [orb].
    + destruct (fnm key x) eqn:Ef; cbn [andb].
      * destruct (map_find x all); cbn [andb].
        -- rewrite andb_false_r. reflexivity.
        -- rewrite map_find_set_same, !andb_true_r. destruct (set_mem x names); reflexivity.
      * rewrite andb_false_r. reflexivity.
    + destruct (set_mem s names && fnm key s && _); [reflexivity|].
      destruct (fnm key x); [|reflexivity]. destruct (map_find x all); [reflexivity|].
      apply map_find_set_other, N.
Qed.

(** Explicit constraints win; otherwise some matching wildcard applies. *)
Lemma effective_fold fnm all names : forall todo acc s,
  NoDup (map fst todo) ->
  let r := map_find s (fold_left (add_constraints fnm all names) todo acc) in
  (has_star s = false -> forall c, In (s, c) todo -> map_find s all = Some c -> r = Some c) /\
  (forall c, r = Some c -> map_find s acc = Some c \/ (In (s, c) todo /\ has_star s = false) \/
      (map_find s all = None /\ exists k, In (k, c) todo /\ has_star k = true /\ fnm k s = true)) /\
  (In s names -> map_find s all = None ->
     (map_find s acc <> None \/ exists k c, In (k, c) todo /\ has_star k = true /\ fnm k s = true) -> r <> None) /\
  (map_find s acc <> None -> r <> None) /\
  (forall c, map_find s acc = Some c -> map_find s all = Some c -> (forall c', In (s, c') todo -> c' = c) -> r = Some c).
Proof.
  induction todo as [|[k v] todo IH]; intros acc s ND; cbn [fold_left].
  - cbn zeta. repeat split.
    + intros _ c [].
    + auto.
    + intros _ _ [H|(k & c & [] & _)]. exact H.
    + auto.
    + auto.
  - cbn [map fst] in ND. apply NoDup_cons_iff in ND as [Hk ND].
    specialize (IH (add_constraints fnm all names acc (k, v)) s ND). cbv zeta in *.
    destruct IH as (A & B & C & D & E).
    assert (Step : map_find s (add_constraints fnm all names acc (k, v)) =
      if has_star k then (if set_mem s names && fnm k s && (match map_find s all with Some _ => false | None => true end)
                          then Some v else map_find s acc)
      else if str_eqb s k then Some v else map_find s acc).
    { unfold add_constraints. destruct (has_star k); [apply effective_inner|].
      destruct (str_eqb_spec s k) as [->|N]; [apply map_find_set_same|apply map_find_set_other, N]. }
    assert (Dstep : map_find s acc <> None -> map_find s (add_constraints fnm all names acc (k, v)) <> None).
    { intros K. rewrite Step. destruct (has_star k); [destruct (_ && _ && _)|destruct (str_eqb s k)]; congruence. }
    split; [|split; [|split; [|split]]].
    + intros Hs c [Hin|Hin] Ha; [|eauto]. injection Hin as -> ->.
      apply E; [|exact Ha|].
      * rewrite Step, Hs, str_eqb_refl. reflexivity.
      * intros c' K. exfalso. apply Hk. apply in_map_iff. exists (s, c'). auto.
    + intros c Hr. destruct (B c Hr) as [K|[K|K]].
      * rewrite Step in K. destruct (has_star k) eqn:Hst.
        -- destruct (set_mem s names && fnm k s && _) eqn:M; [|auto]. injection K as <-.
           apply andb_true_iff in M as [M M3]. apply andb_true_iff in M as [M1 M2].
           right. right. split; [destruct (map_find s all); [discriminate|reflexivity]|].
           exists k. split; [left; reflexivity|auto].
        -- destruct (str_eqb_spec s k) as [->|N]; [|auto]. injection K as <-. right. left. split; [left; reflexivity|exact Hst].
      * right. left. split; [right; apply K|apply K].
      * right. right. destruct K as (K1 & k' & K2 & K3). split; [exact K1|]. exists k'. split; [right; exact K2|exact K3].
    + intros Hs Ha [K|(k' & c' & [K1|K1] & K2 & K3)].
      * apply C; auto.
      * injection K1 as -> ->. apply C; auto. left. rewrite Step, K2, K3, Ha.
        apply set_mem_spec in Hs. rewrite Hs. cbn [andb]. discriminate.
      * apply C; auto. right. eauto.
    + intros K. apply D, Dstep, K.
    + intros c Hc Ha Hall. apply E; [|exact Ha|intros; apply Hall; right; assumption].
      rewrite Step, Ha. destruct (has_star k).
      * rewrite andb_false_r. exact Hc.
      * destruct (str_eqb_spec s k) as [->|N]; [|exact Hc]. f_equal. apply Hall. left. reflexivity.
Qed.

(** The constraint list that governs an instance, as a user would say it. *)
Definition governed_by (fnm : str -> str -> bool) (all : list (str * constraint_list)) (s : str) (c : constraint_list) : Prop :=
  (~ In "*"%char s /\ In (s, c) all) \/
  (~ In s (map fst all) /\ exists k, In (k, c) all /\ In "*"%char k /\ fnm k s = true).
Lemma has_star_In k : has_star k = true <-> In "*"%char k.
Proof.
  unfold has_star. rewrite existsb_exists. split; [intros (x & Hx & E); apply Ascii.eqb_eq in E; subst x; exact Hx|]. intros H. exists "*"%char. split; [exact H|reflexivity].
Qed.
Lemma has_star_not k : has_star k = false <-> ~ In "*"%char k.
Proof. rewrite <- has_star_In. destruct (has_star k); split; intros H; try reflexivity; try discriminate; [contradiction (H eq_refl)]. Qed.

Lemma effective_spec fnm all names s : NoDup (map fst all) -> In s names ->
  (forall c, map_find s (effective fnm all names) = Some c -> governed_by fnm all s c) /\
  ((exists c, governed_by fnm all s c) -> exists c, map_find s (effective fnm all names) = Some c /\ governed_by fnm all s c).
Proof.
  intros ND Hs. destruct (effective_fold fnm all names all [] s ND) as (A & B & C & _ & _). cbv zeta in *.
  fold (effective fnm all names) in *.
  assert (S1 : forall c, map_find s (effective fnm all names) = Some c -> governed_by fnm all s c).
  { intros c Hc. destruct (B c Hc) as [K|[K|(K1 & K2)]]; [discriminate|left; rewrite <- has_star_not; tauto|].
    right. split; [apply map_find_None; exact K1|]. destruct K2 as (k & K3 & K4 & K5). exists k. rewrite <- has_star_In. auto. }
  split; [exact S1|]. intros (c & [[Hst Hin]|[Hnin (k & Hk)]]).
  - exists c. split; [|left; auto]. apply A; [apply has_star_not, Hst|exact Hin|apply map_find_iff; assumption].
  - rewrite <- has_star_In in Hk. assert (N : map_find s (effective fnm all names) <> None).
    { apply C; auto; [apply map_find_None; exact Hnin|]. right. exists k, c. exact Hk. }
    destruct (map_find s (effective fnm all names)) as [c'|] eqn:E; [|contradiction]. exists c'. auto.
Qed.

(** ** The whole solver *)
Lemma fold_set_add names : forall acc s, In s (fold_left (fun l x => set_add x l) names acc) <-> In s names \/ In s acc.
Proof.
  induction names as [|x names IH]; intros acc s; cbn [fold_left In]; [tauto|].
  rewrite IH, set_add_In. intuition.
Qed.

Definition in_bundle (d : place_desc) (s : str) : Prop := exists n l, In (n, l) (pd_bundles d) /\ In s l.
Definition is_bundle_node (d : place_desc) (n : str) : Prop := In n (map fst (pd_bundles d)).
Definition instances (d : place_desc) : option (list str) := strip_names (all_instance_names (pd_services d)).

Record placement_ok (fnm : str -> str -> bool) (d : place_desc) (attrs : list (str * list attribute))
    (names : list str) (m : list (str * list str)) : Prop := mkPlacement {
  po_nodes : forall n l, map_find n m = Some l -> In n (map fst attrs) /\ NoDup l /\ forall s, In s l -> In s names;
  po_all : forall s, In s names -> exists n, placed m s n;
  po_bundles : forall n l, In (n, l) (pd_bundles d) -> map_list n m = l /\ In n (map fst attrs);
  po_single : forall n l, map_find n m = Some l -> ~ is_bundle_node d n -> exists s, l = [s];
  po_unique : forall s n1 n2, placed m s n1 -> placed m s n2 -> (is_bundle_node d n1 <-> is_bundle_node d n2) -> n1 = n2;
  po_twice : forall s n, placed m s n -> ~ is_bundle_node d n -> in_bundle d s ->
     exists c, map_find s (effective fnm (pd_constraints d) names) = Some c;
  po_constraints : forall s c, In s names -> map_find s (effective fnm (pd_constraints d) names) = Some c ->
     (exists n, placed m s n /\ ~ is_bundle_node d n) /\
     forall n, placed m s n -> ~ is_bundle_node d n -> satisfies c (map_list n attrs) }.

Lemma solver_sound fnm d attrs names m :
  instances d = Some names -> NoDup names -> NoDup (map fst attrs) -> NoDup (map fst (pd_bundles d)) ->
  constraint_solver fnm d attrs = PlaceOk m -> placement_ok fnm d attrs names m.
Proof.
  intros Hn NDn NDa NDb E. unfold instances in Hn. unfold constraint_solver in E. rewrite Hn in E.
  destruct (total_count 0 (pd_services d)) as [total|]; [|discriminate].
  destruct (total <? 0); [discriminate|].
  set (st0 := mkSolver _ _ _) in E.
  destruct (place_bundles (pd_bundles d) st0) as [| | |st1] eqn:E1; try discriminate.
  destruct (place_constrained _ attrs names st1) as [| | |st2] eqn:E2; try discriminate.
  set (remaining := filter (fun s => set_mem s (sv_unplaced st2)) names) in E.
  destruct (place_rest remaining st2 []) as [st3 failures] eqn:E3.
  destruct failures; [|discriminate]. injection E as <-.
  assert (H0 : inv names (map fst attrs) [] st0).
  { unfold st0. constructor; cbn [sv_idle sv_map sv_unplaced map fst]; try discriminate.
    - exact NDa.
    - intros n K. split; [exact K|]. split; [reflexivity|intros []].
    - intros n l [].
    - intros s Hs. split; [|intros _; apply fold_set_add; auto].
      intros _ (n & l & K & _). discriminate.
    - intros s Hs. left. apply fold_set_add. auto.
    - intros s n1 l1 n2 l2 []. }
  destruct (place_bundles_inv names (map fst attrs) (pd_bundles d) [] st0 st1) as (H1 & Hun & Hmb); auto.
  { intros s K. unfold st0 in K; cbn [sv_unplaced] in K. apply fold_set_add in K as [K|[]]. exact K. }
  { intros n K. exfalso. apply K. reflexivity. }
  cbn [app] in H1, Hmb.
  destruct (place_constrained_inv names (map fst attrs) (pd_bundles d) _ attrs names st1 st2 H1 (fun s K => K) NDn E2)
    as (H2 & Mono2 & Orig2 & Con2 & Uni2).
  assert (Rem : forall s, In s remaining <-> In s names /\ In s (sv_unplaced st2)).
  { intros s. unfold remaining. rewrite filter_In, set_mem_spec. tauto. }
  destruct (place_rest_inv names (map fst attrs) (pd_bundles d) remaining st2 st3 [] H2) as
    (_ & Mono3 & Orig3 & All3 & Uni3 & N3 & B3 & S3); auto.
  { intros s K. apply Rem in K. tauto. }
  { unfold remaining. apply NoDup_filter, NDn. }
  { intros s K. apply Rem in K as [K1 K2]. apply (i_unplaced _ _ _ _ H2 s K1). exact K2. }
  assert (P1 : forall s n, placed (sv_map st1) s n -> is_bundle_node d n).
  { intros s n (l & K & _). apply Hmb. congruence. }
  assert (Un : forall s n1 n2, placed (sv_map st3) s n1 -> placed (sv_map st3) s n2 ->
     ~ is_bundle_node d n1 -> ~ is_bundle_node d n2 -> n1 = n2).
  { intros s n1 n2 A B N1 N2. destruct (in_dec (list_eq_dec Ascii.ascii_dec) s remaining) as [R|R].
    - eapply Uni3; eauto.
    - destruct (Orig3 s n1 A) as [A'|(A' & _)]; [|contradiction].
      destruct (Orig3 s n2 B) as [B'|(B' & _)]; [|contradiction].
      eapply Uni2; eauto; intros K; apply P1 in K; contradiction. }
  assert (BN : forall s n l, placed (sv_map st3) s n -> In (n, l) (pd_bundles d) -> In s l).
  { intros s n l (l' & K1 & K2) K. specialize (B3 n l K). unfold map_list in B3. rewrite K1 in B3. subst. exact K2. }
  constructor.
  - exact N3.
  - intros s Hs. destruct (in_dec (list_eq_dec Ascii.ascii_dec) s remaining) as [R|R]; [auto|].
    destruct (i_either _ _ _ _ H2 s Hs) as [K|[n K]]; [exfalso; apply R, Rem; auto|eauto].
  - intros n l K. split; [apply B3, K|]. apply (i_bundle _ _ _ _ H1 n l K).
  - exact S3.
  - intros s n1 n2 A B [I1 I2].
    destruct (in_dec (list_eq_dec Ascii.ascii_dec) n1 (map fst (pd_bundles d))) as [K1|K1].
    + specialize (I1 K1). apply in_map_iff in K1 as ([x1 l1] & <- & K1). unfold is_bundle_node in I1.
      apply in_map_iff in I1 as ([x2 l2] & <- & K2). cbn [fst] in *.
      eapply (i_bundle_unique _ _ _ _ H1 s x1 l1 x2 l2); eauto.
    + apply (Un s n1 n2); auto. intros K. apply K1. apply (I2 K).
  - intros s n A N (n0 & l0 & K1 & K2). destruct (Orig3 s n A) as [A'|(A' & _)].
    + destruct (Orig2 s n A') as [A''|(_ & _ & _ & cl & Hcl & _)]; [apply P1 in A''; contradiction|eauto].
    + exfalso. apply Rem in A' as [A1 A2]. apply (i_unplaced _ _ _ _ H2 s A1) in A2. apply A2.
      exists n0. apply Mono2. destruct (i_bundle _ _ _ _ H1 n0 l0 K1) as [K3 _]. unfold map_list in K3.
      unfold placed. destruct (map_find n0 (sv_map st1)); [subst; eauto|subst; destruct K2].
  - intros s c Hs Hc. destruct (Con2 s c Hs Hc) as (n & A1 & A2 & A3).
    split; [exists n; split; [apply Mono3, A1|exact A3]|].
    intros n' B1 B2. assert (n' = n) as -> by (apply (Un s n' n); auto).
    destruct (Orig2 s n A1) as [K|(_ & _ & _ & cl & K1 & K2)]; [contradiction|].
    rewrite Hc in K1. injection K1 as <-. apply check_list_sound in K2. apply K2. reflexivity.
Qed.

(** ** When placement succeeds (no constraints) *)
Lemma set_del_length x l : NoDup l -> In x l -> (length (set_del x l) + 1 = length l)%nat.
Proof.
  induction l as [|y l IH]; intros ND H; [destruct H|]. apply NoDup_cons_iff in ND as [Hy ND].
  unfold set_del in *; cbn [filter]. destruct (str_eqb_spec x y) as [->|N]; cbn [negb length].
  - assert (E : filter (fun z => negb (str_eqb y z)) l = l).
    { clear IH ND H. induction l as [|z l IH]; [reflexivity|]. cbn [filter].
      destruct (str_eqb_spec y z) as [->|N]; [exfalso; apply Hy; left; reflexivity|]. cbn [negb].
      rewrite IH; [reflexivity|]. intros K. apply Hy. right. exact K. }
    rewrite E. lia.
  - destruct H as [->|H]; [contradiction|]. specialize (IH ND H). cbn [length]. lia.
Qed.

Lemma bundle_services_total node svcs : forall st,
  NoDup svcs -> (forall s, In s svcs -> In s (sv_unplaced st)) -> NoDup (sv_unplaced st) ->
  exists st', bundle_services node svcs st = PlaceOk st' /\ sv_idle st' = sv_idle st /\
    (forall s, In s (sv_unplaced st') <-> In s (sv_unplaced st) /\ ~ In s svcs) /\ NoDup (sv_unplaced st') /\
    (length (sv_unplaced st') + length svcs = length (sv_unplaced st))%nat.
Proof.
  induction svcs as [|s r IH]; intros st ND H NDu; cbn [bundle_services].
  - exists st. cbn [length In]. repeat split; auto; try tauto; lia.
  - apply NoDup_cons_iff in ND as [Hs ND].
    assert (M : set_mem s (sv_unplaced st) = true) by (apply set_mem_spec, H; left; reflexivity).
    rewrite M.
    destruct (IH (mkSolver (set_del s (sv_unplaced st)) (sv_idle st) (map_insert node s (sv_map st)))) as (st' & E & A & B & C & D).
    + exact ND.
    + intros x Hx. cbn [sv_unplaced]. apply set_del_In. split; [intros ->; contradiction|]. apply H. right. exact Hx.
    + cbn [sv_unplaced]. apply set_del_NoDup, NDu.
    + exists st'. split; [exact E|]. split; [exact A|]. cbn [sv_unplaced] in *. split; [|split; [exact C|]].
      * intros x. rewrite B, set_del_In. cbn [In]. intuition.
      * pose proof (set_del_length s (sv_unplaced st) NDu (H s (or_introl eq_refl))). cbn [length]. lia.
Qed.

Lemma place_bundles_total bundles : forall st,
  NoDup (map fst bundles) -> NoDup (flat_map snd bundles) ->
  (forall n, In n (map fst bundles) -> In n (sv_idle st)) ->
  (forall s, In s (flat_map snd bundles) -> In s (sv_unplaced st)) ->
  NoDup (sv_unplaced st) -> NoDup (sv_idle st) ->
  exists st', place_bundles bundles st = PlaceOk st' /\ NoDup (sv_unplaced st') /\ NoDup (sv_idle st') /\
    (forall s, In s (sv_unplaced st') -> In s (sv_unplaced st)) /\
    (length (sv_unplaced st') + length (flat_map snd bundles) = length (sv_unplaced st))%nat /\
    (length (sv_idle st') + length bundles = length (sv_idle st))%nat.
Proof.
  induction bundles as [|[n l] r IH]; intros st N1 N2 H1 H2 NDu NDi; cbn [place_bundles].
  - exists st. cbn [flat_map length]. repeat split; auto; lia.
  - cbn [map fst flat_map snd] in *. apply NoDup_cons_iff in N1 as [Hn N1].
    destruct (bundle_services_total n l st) as (st1 & E & A & B & C & D); auto.
    { clear -N2. induction l as [|x l IH]; [constructor|]. cbn [app] in N2. apply NoDup_cons_iff in N2 as [K N2].
      constructor; [intros Q; apply K; apply in_or_app; auto|auto]. }
    { intros s Hs. apply H2, in_or_app. auto. }
    rewrite E, A. assert (M : set_mem n (sv_idle st) = true) by (apply set_mem_spec, H1; left; reflexivity). rewrite M.
    assert (N2' : NoDup (flat_map snd r)).
    { clear -N2. induction l as [|x l IH]; [exact N2|]. apply IH. cbn [app] in N2. apply NoDup_cons_iff in N2. tauto. }
    assert (Dj : forall s, In s l -> ~ In s (flat_map snd r)).
    { intros s Hs K. clear -N2 Hs K. induction l as [|x l IH]; [destruct Hs|]. cbn [app] in N2.
      apply NoDup_cons_iff in N2 as [Q N2]. destruct Hs as [->|Hs]; [apply Q, in_or_app; auto|auto]. }
    destruct (IH (mkSolver (sv_unplaced st1) (set_del n (sv_idle st)) (sv_map st1))) as (st' & E' & A1 & A2 & A3 & A4 & A5);
      cbn [sv_unplaced sv_idle]; auto.
    + intros m Hm. apply set_del_In. split; [intros ->; contradiction|]. apply H1. right. exact Hm.
    + intros s Hs. apply B. split; [apply H2, in_or_app; auto|]. intros K. eapply Dj; eauto.
    + apply set_del_NoDup, NDi.
    + exists st'. cbn [sv_unplaced sv_idle] in *. split; [exact E'|]. split; [exact A1|]. split; [exact A2|]. split.
      * intros s K. apply A3 in K. apply B in K. tauto.
      * pose proof (set_del_length n (sv_idle st) NDi (H1 n (or_introl eq_refl))).
        rewrite app_length. cbn [length]. lia.
Qed.

Lemma place_constrained_nil attrs names : forall st, place_constrained [] attrs names st = PlaceOk st.
Proof. induction names as [|s r IH]; intros st; cbn [place_constrained map_find]; auto. Qed.

Lemma place_rest_total ns : forall st fl, NoDup (sv_idle st) ->
  snd (place_rest ns st fl) = fl ++ skipn (length (sv_idle st)) ns.
Proof.
  induction ns as [|s r IH]; intros st fl ND; cbn [place_rest].
  - rewrite skipn_nil, app_nil_r. reflexivity.
  - destruct (sv_idle st) as [|n idle] eqn:E.
    + rewrite IH by (rewrite E; constructor). rewrite E. cbn [length skipn].
      rewrite <- app_assoc. reflexivity.
    + rewrite IH by (cbn [sv_idle]; apply set_del_NoDup, ND). cbn [sv_idle].
      assert (L : length (set_del n (n :: idle)) = length idle).
      { pose proof (set_del_length n (n :: idle) ND (or_introl eq_refl)). cbn [length] in *. lia. }
      rewrite L. reflexivity.
Qed.

Lemma fold_set_add_NoDup names : forall acc, NoDup acc -> NoDup (fold_left (fun l x => set_add x l) names acc).
Proof. induction names as [|x r IH]; intros acc H; cbn [fold_left]; auto using set_add_NoDup. Qed.

Lemma NoDup_same_length (a b : list str) : NoDup a -> NoDup b -> (forall x, In x a <-> In x b) -> length a = length b.
Proof.
  intros A B H. apply Nat.le_antisymm; apply NoDup_incl_length; auto; intros x K; apply H, K.
Qed.

(** Without constraints: valid bundles and enough nodes guarantee success, and
    with valid bundles too few nodes guarantee failure. *)
Definition bundles_valid (d : place_desc) (names nodes : list str) : Prop :=
  NoDup (map fst (pd_bundles d)) /\ NoDup (flat_map snd (pd_bundles d)) /\
  (forall n, In n (map fst (pd_bundles d)) -> In n nodes) /\
  (forall s, In s (flat_map snd (pd_bundles d)) -> In s names).

Lemma solver_complete fnm d attrs names total :
  pd_constraints d = [] -> instances d = Some names -> NoDup names -> NoDup (map fst attrs) ->
  total_count 0 (pd_services d) = Some total -> 0 <= total ->
  bundles_valid d names (map fst attrs) ->
  ((length names - length (flat_map snd (pd_bundles d)) <= length attrs - length (pd_bundles d))%nat <->
   exists m, constraint_solver fnm d attrs = PlaceOk m).
Proof.
  intros Hc Hn NDn NDa Ht Hp (B1 & B2 & B3 & B4).
  unfold instances in Hn. unfold constraint_solver. rewrite Hn, Ht, Hc.
  destruct (Z.ltb_spec total 0); [lia|].
  set (st0 := mkSolver _ _ _).
  assert (U0 : forall s, In s (sv_unplaced st0) <-> In s names).
  { intros s. unfold st0; cbn [sv_unplaced]. rewrite fold_set_add. cbn [In]. tauto. }
  assert (ND0 : NoDup (sv_unplaced st0)) by (apply fold_set_add_NoDup; constructor).
  destruct (place_bundles_total (pd_bundles d) st0) as (st1 & E1 & A1 & A2 & A3 & A4 & A5); auto.
  { intros s Hs. apply U0, B4, Hs. }
  rewrite E1. unfold effective; cbn [fold_left]. rewrite place_constrained_nil.
  set (remaining := filter (fun s => set_mem s (sv_unplaced st1)) names).
  assert (L0 : length (sv_unplaced st0) = length names) by (apply NoDup_same_length; auto).
  assert (Lr : length remaining = length (sv_unplaced st1)).
  { apply NoDup_same_length; auto; [apply NoDup_filter, NDn|].
    intros s. unfold remaining. rewrite filter_In, set_mem_spec. split; [tauto|]. intros K. split; [|exact K].
    apply U0, A3, K. }
  pose proof (place_rest_total remaining st1 [] A2) as R. cbn [app] in R.
  destruct (place_rest remaining st1 []) as [st3 failures] eqn:E3. cbn [snd] in R.
  assert (Li : length (sv_idle st0) = length attrs) by (unfold st0; cbn [sv_idle]; apply map_length).
  split.
  - intros Hle. assert (failures = []) as ->; [|eauto]. rewrite R. apply skipn_all2. lia.
  - intros (m & K). destruct failures as [|f fs]; [|discriminate]. symmetry in R.
    assert (length (skipn (length (sv_idle st1)) remaining) = 0)%nat as L by (rewrite R; reflexivity).
    rewrite skipn_length in L. lia.
Qed.

(** ** PlaceServices: every registered node has an entry, hosts unchanged *)
Lemma place_entries nodes : forall (m : list (str * list str)) n,
  let m' := fold_left (fun m x => map_set (fst x) (map_list (fst x) m) m) nodes m in
  map_list n m' = map_list n m /\
  (map_find n m' <> None <-> map_find n m <> None \/ In n (map (@fst str (list attribute)) nodes)).
Proof.
  induction nodes as [|[x a] nodes IH]; intros m n; cbn [fold_left fst map In].
  - split; [reflexivity|tauto].
  - destruct (IH (map_set x (map_list x m) m) n) as [A B]. cbv zeta in *. rewrite A, B. split.
    + destruct (str_eqb_spec n x) as [->|N]; [apply map_list_set_same|apply map_list_set_other, N].
    + destruct (str_eqb_spec n x) as [->|N].
      * rewrite map_find_set_same. split; [auto|]. intros _. left. discriminate.
      * rewrite map_find_set_other by exact N. split; intros [K|K]; auto. destruct K as [K|K]; [congruence|auto].
Qed.

Lemma place_services_spec fnm d nodes r : place_services fnm d nodes = PlaceOk r ->
  exists m, constraint_solver fnm d nodes = PlaceOk m /\
    (forall n, map_list n r = map_list n m) /\
    (forall n, In n (map fst nodes) -> map_find n r <> None) /\
    (forall n, map_find n r <> None -> map_find n m <> None \/ In n (map fst nodes)).
Proof.
  unfold place_services. destruct (constraint_solver fnm d nodes) as [| | |m]; try discriminate.
  intros [= <-]. exists m. split; [reflexivity|].
  split; [intros n; apply (place_entries nodes m n)|].
  split; intros n K; apply (proj2 (place_entries nodes m n)); [right|]; exact K.
Qed.

(** ** The user-level statement *)
Definition hosts (m : list (str * list str)) (node svc : str) : Prop := In svc (map_list node m).

Lemma hosts_placed m n s : hosts m n s <-> placed m s n.
Proof.
  unfold hosts, placed, map_list. destruct (map_find n m) as [l|]; split.
  - intros H. eauto.
  - intros (l' & [= <-] & K). exact K.
  - intros [].
  - intros (l' & K & _). discriminate.
Qed.

Lemma placement_spec fnm d nodes names r :
  instances d = Some names -> NoDup names -> NoDup (map fst nodes) -> NoDup (map fst (pd_bundles d)) ->
  NoDup (map fst (pd_constraints d)) ->
  place_services fnm d nodes = PlaceOk r ->
  (* only registered nodes, only instances of the test *)
  (forall n s, hosts r n s -> In n (map fst nodes) /\ In s names) /\
  (* every instance is hosted; by exactly one node unless it is both bundled and constrained *)
  (forall s, In s names -> exists n, hosts r n s) /\
  (forall s n1 n2, hosts r n1 s -> hosts r n2 s ->
     ~ (in_bundle d s /\ exists c, governed_by fnm (pd_constraints d) s c) -> n1 = n2) /\
  (* a bundle node hosts exactly its bundle, any other node at most one instance *)
  (forall n l, In (n, l) (pd_bundles d) -> map_list n r = l) /\
  (forall n, ~ is_bundle_node d n -> (length (map_list n r) <= 1)%nat) /\
  (* constraints *)
  (forall s c0, In s names -> governed_by fnm (pd_constraints d) s c0 ->
     exists c, governed_by fnm (pd_constraints d) s c /\
     (exists n, hosts r n s /\ ~ is_bundle_node d n) /\
     forall n, hosts r n s -> ~ is_bundle_node d n -> satisfies c (map_list n nodes)) /\
  (forall n, In n (map fst nodes) -> map_find n r <> None).
Proof.
  intros Hn NDn NDa NDb NDc E.
  destruct (place_services_spec fnm d nodes r E) as (m & Em & L & En & _).
  destruct (solver_sound fnm d nodes names m Hn NDn NDa NDb Em) as [P1 P2 P3 P4 P5 P6 P7].
  assert (Hh : forall n s, hosts r n s <-> placed m s n).
  { intros n s. rewrite <- hosts_placed. unfold hosts. rewrite L. tauto. }
  assert (Hin : forall s n, placed m s n -> In n (map fst nodes) /\ In s names).
  { intros s n (l & K1 & K2). destruct (P1 n l K1) as (A & _ & B). auto. }
  split; [intros n s K; apply Hh in K; apply Hin in K; tauto|].
  split; [intros s Hs; destruct (P2 s Hs) as [n K]; exists n; apply Hh, K|].
  split.
  { intros s n1 n2 H1 H2 Hnb. apply Hh in H1, H2. destruct (Hin s n1 H1) as [_ Hs].
    assert (Db : forall n, is_bundle_node d n \/ ~ is_bundle_node d n).
    { intros n. unfold is_bundle_node. destruct (in_dec (list_eq_dec Ascii.ascii_dec) n (map fst (pd_bundles d))); auto. }
    assert (Hb : forall n, placed m s n -> is_bundle_node d n -> in_bundle d s).
    { intros n (l & K1 & K2) K. unfold is_bundle_node in K. apply in_map_iff in K as ([n' l'] & <- & K).
      cbn [fst] in *. exists n', l'. split; [exact K|]. destruct (P3 n' l' K) as [Q _].
      unfold map_list in Q. rewrite K1 in Q. subst. exact K2. }
    assert (Hx : forall n n', placed m s n -> placed m s n' -> is_bundle_node d n -> ~ is_bundle_node d n' -> False).
    { intros n n' K1 K2 Q1 Q2. apply Hnb. pose proof (Hb n K1 Q1) as HB. split; [exact HB|].
      destruct (P6 s n' K2 Q2 HB) as [c Hc]. exists c.
      apply (proj1 (effective_spec fnm (pd_constraints d) names s NDc Hs)), Hc. }
    apply (P5 s); auto. destruct (Db n1), (Db n2); try tauto; exfalso; eauto. }
  split; [intros n l K; rewrite L; apply (P3 n l K)|].
  split.
  { intros n K. rewrite L. unfold map_list. destruct (map_find n m) as [l|] eqn:Q; [|cbn; lia].
    destruct (P4 n l Q K) as [s ->]. cbn; lia. }
  split; [|exact En].
  intros s c0 Hs Hg.
  destruct (proj2 (effective_spec fnm (pd_constraints d) names s NDc Hs) (ex_intro _ c0 Hg)) as (c & Hc & Hg').
  exists c. split; [exact Hg'|]. destruct (P7 s c Hs Hc) as [(n & K1 & K2) K3].
  split; [exists n; split; [apply Hh, K1|exact K2]|]. intros n' K. apply Hh in K. auto.
Qed.
