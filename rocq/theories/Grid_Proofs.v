(** Specifications and lemmas for service shapes, coordinates and names. *)
From Coq Require Import Ascii String List NArith ZArith Bool Lia ZifyBool ZifyNat ZifyN.
From Verif Require Import Base_Model Base_Proofs Grid_Model.
Import ListNotations.
Open Scope Z_scope.
Ltac Zify.zify_post_hook ::= Z.div_mod_to_equations.

(** A completed service description: dimensions are given in order, are
    positive, and the count is their product. *)
Record canonical (s : service_spec) : Prop := mkCanonical {
  can_x : exists x, sp_x s = Some x /\ 0 < x;
  can_y : forall y, sp_y s = Some y -> 0 < y;
  can_z : forall z, sp_z s = Some z -> 0 < z /\ sp_y s <> None;
  can_n : sp_count s = Some (x_size s * y_size s * z_size s);
  can_max : x_size s * y_size s * z_size s <= int32_max }.

Definition in_grid (s : service_spec) (g : grid_index) : Prop :=
  0 <= gx g < x_size s /\ 0 <= gy g < y_size s /\ 0 <= gz g < z_size s.

Lemma canonical_pos s : canonical s -> 0 < x_size s /\ 0 < y_size s /\ 0 < z_size s.
Proof.
  intros [[x [Ex Hx]] Hy Hz _ _]. unfold x_size, y_size, z_size, dim. rewrite Ex.
  split; [exact Hx|]. split.
  - destruct (sp_y s) as [y|]; [apply Hy; reflexivity|lia].
  - destruct (sp_z s) as [z|]; [apply Hz; reflexivity|lia].
Qed.

Lemma canonical_count s : canonical s -> get_count s = x_size s * y_size s * z_size s.
Proof. intros H. unfold get_count. rewrite (can_n s H). reflexivity. Qed.

(** Division facts used for both directions. *)
Lemma grid_decomp x y z i : 0 < x -> 0 < y -> 0 < z -> 0 <= i < x * y * z ->
  0 <= i mod x < x /\ 0 <= (i / x) mod y < y /\ 0 <= i / x / y < z /\
  i mod x + (i / x) mod y * x + i / x / y * x * y = i.
Proof.
  intros Hx Hy Hz Hi.
  assert (A : i = x * (i / x) + i mod x) by (apply Z.div_mod; lia).
  assert (B : i / x = y * (i / x / y) + (i / x) mod y) by (apply Z.div_mod; lia).
  split; [apply Z.mod_pos_bound; lia|]. split; [apply Z.mod_pos_bound; lia|]. split.
  - split; [apply Z.div_pos; [apply Z.div_pos; lia|lia]|].
    rewrite Z.div_div by lia. apply Z.div_lt_upper_bound; [lia|]. lia.
  - rewrite A at 4. rewrite B at 3. ring.
Qed.

Lemma grid_compose x y a b c : 0 < x -> 0 < y -> 0 <= a < x -> 0 <= b < y ->
  (a + b * x + c * x * y) mod x = a /\ (a + b * x + c * x * y) / x = b + c * y /\
  ((a + b * x + c * x * y) / x) mod y = b /\ (a + b * x + c * x * y) / x / y = c.
Proof.
  intros Hx Hy Ha Hb.
  assert (E : a + b * x + c * x * y = a + (b + c * y) * x) by ring.
  assert (D : (a + b * x + c * x * y) / x = b + c * y).
  { rewrite E, Z.div_add by lia. rewrite Z.div_small by lia. lia. }
  split; [rewrite E, Z.mod_add by lia; apply Z.mod_small; lia|].
  split; [exact D|]. rewrite D. split.
  - rewrite Z.mod_add by lia. apply Z.mod_small. lia.
  - rewrite Z.div_add by lia. rewrite Z.div_small by lia. lia.
Qed.

Lemma grid_bound x y z a b c : 0 <= a < x -> 0 <= b < y -> 0 <= c < z ->
  0 <= a + b * x + c * x * y < x * y * z.
Proof.
  intros Ha Hb Hc.
  assert (A : 0 <= b * x <= (y - 1) * x) by (split; [nia|apply Z.mul_le_mono_nonneg_r; lia]).
  assert (B : 0 <= c * (x * y) <= (z - 1) * (x * y)) by (split; [nia|apply Z.mul_le_mono_nonneg_r; nia]).
  assert (c * x * y = c * (x * y)) by ring.
  assert ((z - 1) * (x * y) = x * y * z - x * y) by ring. assert ((y - 1) * x = x * y - x) by ring. lia.
Qed.

(** GetServiceIndex in terms of Euclidean division, for non-negative instances. *)
Lemma service_index_eq s i :
  canonical s -> 0 <= i < get_count s ->
  service_index s i = Some (mkGI (i mod x_size s) ((i / x_size s) mod y_size s) (i / x_size s / y_size s)).
Proof.
  intros Hc Hi. pose proof (canonical_pos s Hc) as (Px & Py & Pz).
  rewrite (canonical_count s Hc) in Hi.
  pose proof (grid_decomp _ _ _ i Px Py Pz Hi) as (Rx & Ry & Rz & _).
  destruct Hc as [[x [Ex Hx]] Hy Hz Hn Hm].
  unfold service_index, x_size, y_size, z_size, dim, cmod, cdiv in *. rewrite Ex in *.
  destruct (Z.eqb_spec x 0); [lia|].
  rewrite Z.rem_mod_nonneg, Z.quot_div_nonneg by lia.
  destruct (sp_y s) as [y|] eqn:Ey.
  - destruct (Z.eqb_spec y 0); [lia|].
    assert (0 <= i / x) by (apply Z.div_pos; lia).
    rewrite Z.rem_mod_nonneg by lia.
    destruct (sp_z s) as [z|] eqn:Ez.
    + rewrite Z.quot_div_nonneg by lia. reflexivity.
    + do 2 f_equal. lia.
  - destruct (sp_z s) as [z|] eqn:Ez.
    + destruct (Hz z eq_refl) as [_ K]. congruence.
    + rewrite Z.mod_1_r in *. do 2 f_equal. lia.
Qed.

Lemma grid_bijection s : canonical s ->
  (forall i, 0 <= i < get_count s ->
     exists g, service_index s i = Some g /\ in_grid s g /\ instance_from_grid s g = i) /\
  (forall g, in_grid s g ->
     0 <= instance_from_grid s g < get_count s /\ service_index s (instance_from_grid s g) = Some g).
Proof.
  intros Hc. pose proof (canonical_pos s Hc) as (Px & Py & Pz).
  split.
  - intros i Hi. eexists. split; [apply service_index_eq; assumption|].
    rewrite (canonical_count s Hc) in Hi.
    pose proof (grid_decomp _ _ _ i Px Py Pz Hi) as (Rx & Ry & Rz & E).
    split; [repeat split; apply Rx || apply Ry || apply Rz|].
    unfold instance_from_grid. cbn [gx gy gz]. exact E.
  - intros [a b c] (Ha & Hb & Hcc); cbn [gx gy gz] in *.
    unfold instance_from_grid; cbn [gx gy gz].
    assert (R : 0 <= a + b * x_size s + c * x_size s * y_size s < get_count s).
    { rewrite (canonical_count s Hc). apply grid_bound; assumption. }
    split; [exact R|]. rewrite service_index_eq by assumption.
    pose proof (grid_compose (x_size s) (y_size s) a b c Px Py Ha Hb) as (E1 & E2 & E3 & E4).
    rewrite E1, E3, E4. reflexivity.
Qed.

(** ** Names *)
Definition no_slash (n : str) : Prop := ~ In slash n.

Lemma after_first_slash_spec n r : no_slash n -> after_first_slash (n ++ slash :: r) = Some r.
Proof.
  intros H. induction n as [|c n IH]; cbn [app after_first_slash].
  - rewrite Ascii.eqb_refl. reflexivity.
  - destruct (Ascii.eqb_spec c slash) as [->|N]; [exfalso; apply H; left; reflexivity|].
    apply IH. intros K. apply H. right. exact K.
Qed.

Lemma split_first_slash n1 r1 n2 r2 : no_slash n1 -> no_slash n2 ->
  n1 ++ slash :: r1 = n2 ++ slash :: r2 -> n1 = n2 /\ r1 = r2.
Proof.
  intros H1. revert n2. induction n1 as [|c n1 IH]; intros n2 H2 E; destruct n2 as [|d n2]; cbn [app] in E.
  - split; congruence.
  - injection E as E1 E2. exfalso. apply H2. left. congruence.
  - injection E as E1 E2. exfalso. apply H1. left. congruence.
  - injection E as -> E2. destruct (IH) with (n2 := n2) as [-> ->]; auto.
    + intros K. apply H1. right. exact K.
    + intros K. apply H2. right. exact K.
Qed.

Definition dims_positive (s : service_spec) : Prop :=
  (forall x, sp_x s = Some x -> 0 < x) /\ (forall y, sp_y s = Some y -> 0 < y).

Lemma service_index_defined s i : dims_positive s -> exists g, service_index s i = Some g /\
  (sp_y s = None -> gy g = 0 /\ gz g = 0) /\ (sp_z s = None -> gz g = 0) /\ (sp_x s = None -> g = mkGI i 0 0).
Proof.
  intros [Hx Hy]. unfold service_index, cmod, cdiv.
  destruct (sp_x s) as [x|]; [|eexists; split; [reflexivity|]; cbn; auto].
  destruct (Z.eqb_spec x 0) as [->|]; [specialize (Hx 0 eq_refl); lia|].
  destruct (sp_y s) as [y|].
  - destruct (Z.eqb_spec y 0) as [->|]; [specialize (Hy 0 eq_refl); lia|].
    destruct (sp_z s) as [z|]; eexists; (split; [reflexivity|]); cbn; repeat split; congruence.
  - eexists; split; [reflexivity|]. cbn. repeat split; congruence.
Qed.

Lemma slash_not_digit r : no_digit_first (slash :: r).
Proof. reflexivity. Qed.

Lemma name_parses s i : dims_positive s -> no_slash (sp_name s) ->
  exists n g, instance_name s i = Some n /\ service_index s i = Some g /\ grid_index_from_name n = Some g.
Proof.
  intros Hd Hn. destruct (service_index_defined s i Hd) as (g & Eg & Gy & Gz & Gx).
  unfold instance_name.
  assert (P1 : forall a, grid_index_from_name (sp_name s ++ slash :: dec_of_Z a) = Some (mkGI a 0 0)).
  { intros a. unfold grid_index_from_name. rewrite after_first_slash_spec by exact Hn.
    unfold sscanf_ddd. rewrite <- (app_nil_r (dec_of_Z a)), scan_d_dec by exact I. reflexivity. }
  assert (P2 : forall a b, grid_index_from_name (sp_name s ++ slash :: dec_of_Z a ++ slash :: dec_of_Z b) = Some (mkGI a b 0)).
  { intros a b. unfold grid_index_from_name. rewrite after_first_slash_spec by exact Hn.
    unfold sscanf_ddd. rewrite scan_d_dec by apply slash_not_digit. cbn [scan_slash]. rewrite Ascii.eqb_refl.
    rewrite <- (app_nil_r (dec_of_Z b)), scan_d_dec by exact I. reflexivity. }
  assert (P3 : forall a b c, grid_index_from_name (sp_name s ++ slash :: dec_of_Z a ++ slash :: dec_of_Z b ++ slash :: dec_of_Z c)
                       = Some (mkGI a b c)).
  { intros a b c. unfold grid_index_from_name. rewrite after_first_slash_spec by exact Hn.
    unfold sscanf_ddd. rewrite scan_d_dec by apply slash_not_digit. cbn [scan_slash]. rewrite Ascii.eqb_refl.
    rewrite scan_d_dec by apply slash_not_digit. cbn [scan_slash]. rewrite Ascii.eqb_refl.
    rewrite <- (app_nil_r (dec_of_Z c)), scan_d_dec by exact I. reflexivity. }
  destruct (sp_x s) as [x|] eqn:Ex.
  2:{ do 2 eexists. split; [reflexivity|]. split; [exact Eg|]. rewrite P1. rewrite Gx; reflexivity. }
  rewrite Eg. destruct g as [a b c]; cbn [gx gy gz] in *.
  destruct (sp_z s) as [z|].
  - do 2 eexists. split; [reflexivity|]. split; [reflexivity|]. apply P3.
  - rewrite (Gz eq_refl). destruct (sp_y s) as [y|].
    + do 2 eexists. split; [reflexivity|]. split; [reflexivity|]. apply P2.
    + destruct (Gy eq_refl) as [-> _]. do 2 eexists. split; [reflexivity|]. split; [reflexivity|]. apply P1.
Qed.

Lemma canonical_dims s : canonical s -> dims_positive s.
Proof.
  intros [[x [Ex Hx]] Hy Hz _ _]. split; [|exact Hy]. intros x' E. congruence.
Qed.

(** Every instance name starts with the service name and a slash. *)
Lemma instance_name_prefix s i n : instance_name s i = Some n -> exists r, n = sp_name s ++ slash :: r.
Proof.
  unfold instance_name. destruct (sp_x s); [|intros [= <-]; eexists; reflexivity].
  destruct (service_index s i); [|discriminate].
  destruct (sp_z s); [intros [= <-]; eexists; reflexivity|].
  destruct (sp_y s); intros [= <-]; eexists; reflexivity.
Qed.

Lemma instance_names_distinct s1 i1 s2 i2 n :
  canonical s1 -> canonical s2 -> no_slash (sp_name s1) -> no_slash (sp_name s2) ->
  (sp_name s1 = sp_name s2 -> s1 = s2) ->
  0 <= i1 < get_count s1 -> 0 <= i2 < get_count s2 ->
  instance_name s1 i1 = Some n -> instance_name s2 i2 = Some n -> s1 = s2 /\ i1 = i2.
Proof.
  intros C1 C2 N1 N2 Hu H1 H2 E1 E2.
  destruct (instance_name_prefix _ _ _ E1) as [r1 R1].
  destruct (instance_name_prefix _ _ _ E2) as [r2 R2].
  assert (s1 = s2) as <-.
  { apply Hu. rewrite R1 in R2. apply split_first_slash in R2; auto. apply R2. }
  split; [reflexivity|].
  destruct (name_parses s1 i1 (canonical_dims _ C1) N1) as (m1 & g1 & A1 & B1 & D1).
  destruct (name_parses s1 i2 (canonical_dims _ C1) N1) as (m2 & g2 & A2 & B2 & D2).
  assert (m1 = n) as -> by congruence. assert (m2 = n) as -> by congruence.
  assert (g2 = g1) as -> by congruence.
  destruct (proj1 (grid_bijection s1 C1) i1 H1) as (g & K1 & _ & K2).
  destruct (proj1 (grid_bijection s1 C1) i2 H2) as (g' & K3 & _ & K4).
  congruence.
Qed.

Lemma zseq_In n i : In i (zseq n) <-> 0 <= i < n.
Proof.
  unfold zseq. rewrite in_map_iff. split.
  - intros (k & <- & H). apply in_seq in H. lia.
  - intros H. exists (Z.to_nat i). split; [lia|]. apply in_seq. lia.
Qed.
Lemma NoDup_map_inj {A B} (f : A -> B) l :
  (forall a b, In a l -> In b l -> f a = f b -> a = b) -> NoDup l -> NoDup (map f l).
Proof.
  intros Hf H. induction H as [|a l Ha H IH]; cbn [map]; [constructor|].
  constructor.
  - rewrite in_map_iff. intros (b & E & Hb). apply Hf in E; [subst; auto|right; auto|left; auto].
  - apply IH. intros x y Hx Hy. apply Hf; right; assumption.
Qed.
Lemma zseq_NoDup n : NoDup (zseq n).
Proof. unfold zseq. apply NoDup_map_inj; [intros; lia|apply seq_NoDup]. Qed.
Lemma zseq_length n : length (zseq n) = Z.to_nat n.
Proof. unfold zseq. rewrite map_length, seq_length. reflexivity. Qed.

Lemma NoDup_app_intro {A} (l1 l2 : list A) :
  NoDup l1 -> NoDup l2 -> (forall x, In x l1 -> ~ In x l2) -> NoDup (l1 ++ l2).
Proof.
  intros H1 H2 Hd. induction H1 as [|x l1 Hx H1 IH]; cbn [app]; [exact H2|].
  constructor.
  - rewrite in_app_iff. intros [E|E]; [auto|]. apply (Hd x); [left; reflexivity|exact E].
  - apply IH. intros y Hy. apply Hd. right. exact Hy.
Qed.

Lemma all_names_unique services :
  Forall canonical services -> Forall (fun s => no_slash (sp_name s)) services ->
  NoDup (map sp_name services) ->
  NoDup (all_instance_names services) /\ ~ In None (all_instance_names services).
Proof.
  intros HC HN HD.
  assert (Huniq : forall s1 s2, In s1 services -> In s2 services -> sp_name s1 = sp_name s2 -> s1 = s2).
  { clear HC HN. induction services as [|s l IH]; intros s1 s2 I1 I2 E; [destruct I1|].
    cbn [map] in HD. apply NoDup_cons_iff in HD as [Hn HD].
    destruct I1 as [<-|I1], I2 as [<-|I2]; auto.
    - exfalso. apply Hn. rewrite E. apply in_map. exact I2.
    - exfalso. apply Hn. rewrite <- E. apply in_map. exact I1. }
  assert (Hsome : forall s i, In s services -> exists n, instance_name s i = Some n).
  { intros s i Hs. rewrite Forall_forall in HC, HN.
    destruct (name_parses s i (canonical_dims _ (HC s Hs)) (HN s Hs)) as (n & _ & E & _). eauto. }
  assert (Hgen : forall l, (forall s, In s l -> In s services) -> NoDup (map sp_name l) ->
            NoDup (all_instance_names l)).
  { induction l as [|s l IH]; intros Hsub Hl; cbn [all_instance_names flat_map]; [constructor|].
    cbn [map] in Hl. apply NoDup_cons_iff in Hl as [Hn Hl].
    apply NoDup_app_intro.
    - unfold service_names. apply NoDup_map_inj; [|apply zseq_NoDup].
      intros a b Ia Ib E. rewrite zseq_In in Ia, Ib.
      assert (Hs : In s services) by (apply Hsub; left; reflexivity).
      destruct (Hsome s a Hs) as [n En]. rewrite Forall_forall in HC, HN.
      eapply instance_names_distinct with (s1 := s) (s2 := s) (n := n); eauto. congruence.
    - apply IH; [intros; apply Hsub; right; assumption|exact Hl].
    - intros o I1 I2. unfold service_names in I1. apply in_map_iff in I1 as (a & Ea & Ia).
      apply in_flat_map in I2 as (s2 & Hs2 & I2). unfold service_names in I2.
      apply in_map_iff in I2 as (b & Eb & Ib). rewrite zseq_In in Ia, Ib.
      assert (Hs : In s services) by (apply Hsub; left; reflexivity).
      assert (Hs2' : In s2 services) by (apply Hsub; right; assumption).
      destruct (Hsome s a Hs) as [n En]. rewrite Forall_forall in HC, HN.
      assert (s = s2) as <-.
      { eapply (instance_names_distinct s a s2 b n); eauto. congruence. }
      apply Hn. apply in_map. exact Hs2. }
  split; [apply Hgen; auto|].
  unfold all_instance_names. rewrite in_flat_map. intros (s & Hs & I). unfold service_names in I.
  apply in_map_iff in I as (a & Ea & _). destruct (Hsome s a Hs) as [n En]. congruence.
Qed.

(** ** Canonicalisation *)
(** What the documentation of ServiceSpec asks of a description. *)
Definition acceptable (s : service_spec) : Prop :=
  (sp_y s <> None -> sp_x s <> None) /\ (sp_z s <> None -> sp_y s <> None) /\
  (forall v, sp_x s = Some v \/ sp_y s = Some v \/ sp_z s = Some v -> 0 < v) /\
  (sp_x s <> None -> forall c, sp_count s = Some c -> c = x_size s * y_size s * z_size s).

(** The completion: nothing the user gave changes. *)
Definition completes (s s' : service_spec) : Prop :=
  sp_name s' = sp_name s /\ sp_opts s' = sp_opts s /\
  sp_y s' = sp_y s /\ sp_z s' = sp_z s /\
  (sp_x s <> None -> sp_x s' = sp_x s) /\
  (sp_x s = None -> sp_x s' = Some (get_count s)) /\
  (sp_count s <> None -> sp_count s' = sp_count s) /\
  (sp_x s <> None -> sp_count s' = Some (x_size s * y_size s * z_size s)) /\
  (sp_x s = None -> sp_count s' = sp_count s).

(** Partial products stay within int. *)
Definition fits (s : service_spec) : Prop :=
  x_size s * y_size s <= int32_max /\ x_size s * y_size s * z_size s <= int32_max.

Ltac canon_cases s :=
  unfold canonical_spec, canon_count, mul_int, acceptable, fits, completes, x_size, y_size, z_size, dim, in_int32, get_count, int32_max;
  destruct s as [nm c o x y z]; cbn [sp_name sp_count sp_opts sp_x sp_y sp_z].

Ltac canon_close :=
  intros [= <-]; cbn [sp_name sp_count sp_opts sp_x sp_y sp_z];
  repeat split; try congruence; intros v [K|[K|K]]; try discriminate; injection K as <-; assumption.

Lemma canonical_spec_sound s s' :
  canonical_spec s = CanonOk s' -> acceptable s /\ completes s s'.
Proof.
  canon_cases s.
  destruct x as [x|].
  2:{ destruct y; [discriminate|]. destruct z; [discriminate|]. intros [= <-]; cbn [sp_name sp_count sp_opts sp_x sp_y sp_z].
      repeat split; try congruence. intros v [K|[K|K]]; discriminate. }
  destruct (Z.leb_spec x 0) as [Hx|Hx]; [discriminate|]. rewrite !Z.mul_1_l.
  match goal with |- context [if ?b then Some _ else None] => destruct b eqn:E1; [|discriminate] end.
  destruct y as [y|].
  - destruct (Z.leb_spec y 0) as [Hy|Hy]; [discriminate|].
    match goal with |- context [if ?b then Some _ else None] => destruct b eqn:E2; [|discriminate] end.
    destruct z as [z|].
    + destruct (Z.leb_spec z 0) as [Hz|Hz]; [discriminate|].
      match goal with |- context [if ?b then Some _ else None] => destruct b eqn:E3; [|discriminate] end.
      destruct c as [c|]; [destruct (Z.eqb_spec c (x * y * z)) as [->|]; [|discriminate]|]; canon_close.
    + rewrite !Z.mul_1_r.
      destruct c as [c|]; [destruct (Z.eqb_spec c (x * y)) as [->|]; [|discriminate]|]; canon_close.
  - destruct z as [z|]; [discriminate|]. rewrite !Z.mul_1_r.
    destruct c as [c|]; [destruct (Z.eqb_spec c x) as [->|]; [|discriminate]|]; canon_close.
Qed.

Lemma canonical_spec_complete s :
  acceptable s -> fits s -> exists s', canonical_spec s = CanonOk s'.
Proof.
  canon_cases s. intros (A1 & A2 & A3 & A4) (F1 & F2).
  destruct x as [x|].
  2:{ destruct y; [exfalso; apply A1; [discriminate|reflexivity]|].
      destruct z; [exfalso; apply A2; [discriminate|reflexivity]|]. eauto. }
  assert (Hx : 0 < x) by (apply A3; auto).
  destruct (Z.leb_spec x 0); [lia|].
  destruct y as [y|].
  - assert (Hy : 0 < y) by (apply A3; auto).
    match goal with |- context [if ?b then Some _ else None] => destruct b eqn:E1; [|nia] end.
    destruct (Z.leb_spec y 0); [lia|].
    match goal with |- context [if ?b then Some _ else None] => destruct b eqn:E2; [|nia] end.
    destruct z as [z|].
    + assert (Hz : 0 < z) by (apply A3; auto).
      destruct (Z.leb_spec z 0); [lia|].
      match goal with |- context [if ?b then Some _ else None] => destruct b eqn:E3; [|nia] end.
      destruct c as [c|]; [|eauto]. rewrite (A4 ltac:(discriminate) c eq_refl).
      destruct (Z.eqb_spec (x * y * z) (1 * x * y * z)); [eauto|nia].
    + destruct c as [c|]; [|eauto]. rewrite (A4 ltac:(discriminate) c eq_refl).
      destruct (Z.eqb_spec (x * y * 1) (1 * x * y)); [eauto|nia].
  - destruct z as [z|]; [exfalso; apply A2; [discriminate|reflexivity]|].
    match goal with |- context [if ?b then Some _ else None] => destruct b eqn:E1; [|nia] end.
    destruct c as [c|]; [|eauto]. rewrite (A4 ltac:(discriminate) c eq_refl).
    destruct (Z.eqb_spec (x * 1 * 1) (1 * x)); [eauto|nia].
Qed.

(** The accepted result, when the service has instances, is a canonical shape. *)
Lemma canonical_spec_canonical s s' :
  canonical_spec s = CanonOk s' -> 0 < get_count s' <= int32_max -> canonical s'.
Proof.
  intros E Hp. pose proof (canonical_spec_sound _ _ E) as [(A1 & A2 & A3 & A4) (C1 & C2 & C3 & C4 & C5 & C6 & C7 & C8 & C9)].
  clear E. destruct (sp_x s) as [x|] eqn:Ex.
  - specialize (C5 ltac:(discriminate)). specialize (C8 ltac:(discriminate)).
    assert (S : x_size s' * y_size s' * z_size s' = x_size s * y_size s * z_size s)
      by (unfold x_size, y_size, z_size; rewrite C3, C4, C5, Ex; reflexivity).
    constructor.
    + exists x. split; [congruence|apply A3; auto].
    + intros y Ey. apply A3. rewrite C3 in Ey. auto.
    + intros z Ez. rewrite C3. rewrite C4 in Ez. split; [apply A3; auto|]. apply A2. congruence.
    + rewrite S. exact C8.
    + rewrite S. unfold get_count in Hp. rewrite C8 in Hp. lia.
  - specialize (C6 eq_refl). specialize (C9 eq_refl).
    assert (Ey : sp_y s = None) by (destruct (sp_y s); [exfalso; apply A1; [discriminate|reflexivity]|reflexivity]).
    assert (Ez : sp_z s = None) by (destruct (sp_z s); [exfalso; apply A2; [discriminate|exact Ey]|reflexivity]).
    rewrite Ey in C3. rewrite Ez in C4.
    assert (G : get_count s' = get_count s) by (unfold get_count; rewrite C9; reflexivity).
    unfold get_count in Hp. destruct (sp_count s') as [c|] eqn:Ec; [|lia].
    assert (get_count s = c) by (unfold get_count; rewrite <- C9; reflexivity).
    constructor.
    + exists c. split; [congruence|lia].
    + intros y K. congruence.
    + intros z K. congruence.
    + unfold x_size, y_size, z_size. rewrite C3, C4, C6. cbn [dim]. rewrite Ec. f_equal. lia.
    + unfold x_size, y_size, z_size. rewrite C3, C4, C6. cbn [dim]. lia.
Qed.

Lemma canonical_fixpoint s : canonical s -> canonical_spec s = CanonOk s.
Proof.
  intros H. pose proof (canonical_pos s H) as (Px & Py & Pz). destruct H as [[x [Ex Hx]] Hy Hz Hn Hm].
  destruct (canonical_spec_complete s) as [s' E].
  - unfold acceptable. rewrite Ex. repeat split; try discriminate.
    + intros K. destruct (sp_z s) as [z|] eqn:Ez; [|congruence]. apply (Hz z eq_refl).
    + intros v [K|[K|K]]; [congruence|apply Hy; exact K|apply (Hz v K)].
    + intros _ c Hc. congruence.
  - unfold fits. split; [nia|exact Hm].
  - rewrite E. f_equal. pose proof (canonical_spec_sound _ _ E) as [_ (C1 & C2 & C3 & C4 & C5 & C6 & C7 & C8 & C9)].
    assert (K7 : sp_count s' = sp_count s) by (apply C7; rewrite Hn; discriminate).
    assert (K5 : sp_x s' = sp_x s) by (apply C5; rewrite Ex; discriminate).
    destruct s, s'; cbn in *. congruence.
Qed.

Lemma canonical_spec_idempotent s s' :
  canonical_spec s = CanonOk s' -> 0 < get_count s' <= int32_max -> canonical_spec s' = CanonOk s'.
Proof. intros E H. apply canonical_fixpoint. eapply canonical_spec_canonical; eauto. Qed.

(** The overflow outcome really needs sizes whose product leaves int. *)
Lemma canonical_spec_ub s :
  canonical_spec s = CanonUB -> (forall v, sp_x s = Some v -> v <= int32_max) -> ~ fits s.
Proof.
  canon_cases s. intros E Hv [F1 F2].
  destruct x as [x|]; [|destruct y; [discriminate|]; destruct z; discriminate].
  specialize (Hv x eq_refl).
  destruct (Z.leb_spec x 0) as [Hx|Hx]; [discriminate|].
  match goal with H : context [if ?b then Some _ else None] |- _ => destruct b eqn:E1; [|lia] end.
  destruct y as [y|].
  - destruct (Z.leb_spec y 0) as [Hy|Hy]; [discriminate|].
    match goal with H : context [if ?b then Some _ else None] |- _ => destruct b eqn:E2; [|nia] end.
    destruct z as [z|].
    + destruct (Z.leb_spec z 0) as [Hz|Hz]; [discriminate|].
      match goal with H : context [if ?b then Some _ else None] |- _ => destruct b eqn:E3; [|nia] end.
      destruct c as [c|]; [|discriminate]. destruct (_ =? _); discriminate.
    + destruct c as [c|]; [|discriminate]. destruct (_ =? _); discriminate.
  - destruct z; [discriminate|]. destruct c as [c|]; [|discriminate]. destruct (_ =? _); discriminate.
Qed.
