(** Lemmas about connecting to peers. *)
From Coq Require Import Ascii String List NArith ZArith QArith Bool Arith Lia Permutation.
From Verif Require Import Base_Model Base_Proofs Grid_Model Grid_Proofs Place_Model Place_Proofs Util_Model Table_Model Table_Proofs Table_Proofs2 Peer_Model.
Import ListNotations.
Open Scope Z_scope.
Ltac Zify.zify_post_hook ::= idtac.

(** ** Vectors *)
Lemma vec_at_nat {A} (l : list A) (i : nat) : vec_at l (Z.of_nat i) = nth_error l i.
Proof. unfold vec_at. destruct (Z.ltb_spec (Z.of_nat i) 0); [lia|]. rewrite Nat2Z.id. reflexivity. Qed.
Lemma vec_at_range {A} (l : list A) z a : vec_at l z = Some a -> 0 <= z < Z.of_nat (length l).
Proof.
  unfold vec_at. destruct (Z.ltb_spec z 0); [discriminate|]. intro Q. assert (Z.to_nat z < length l)%nat by (apply nth_error_Some; congruence). lia.
Qed.
Lemma vec_set_length {A} (l : list A) i a : (i < length l)%nat -> length (vec_set l (Z.of_nat i) a) = length l.
Proof. intro H. unfold vec_set. rewrite Nat2Z.id, app_length, firstn_length. cbn [length]. rewrite skipn_length. lia. Qed.
Lemma vec_set_nth {A} (l : list A) i a j : (i < length l)%nat ->
  nth_error (vec_set l (Z.of_nat i) a) j = if (j =? i)%nat then Some a else nth_error l j.
Proof.
  intro H. unfold vec_set. rewrite Nat2Z.id. destruct (Nat.eqb_spec j i) as [->|Ne].
  - rewrite nth_error_app2, firstn_length, Nat.min_l, Nat.sub_diag by (rewrite ?firstn_length; lia). reflexivity.
  - destruct (Nat.lt_ge_cases j i) as [L|G].
    + rewrite nth_error_app1 by (rewrite firstn_length; lia). revert i H L Ne. revert j. induction l as [|x l IH]; intros j i H L Ne; [cbn in H; lia|].
      destruct i as [|i]; [lia|]. destruct j as [|j]; [reflexivity|]. cbn [firstn nth_error]. apply IH; cbn [length] in H; lia.
    + rewrite nth_error_app2 by (rewrite firstn_length; lia). rewrite firstn_length, Nat.min_l by lia.
      destruct (j - i)%nat as [|k] eqn:K; [lia|]. cbn [nth_error]. rewrite <- (firstn_skipn (S i) l) at 2.
      rewrite nth_error_app2 by (rewrite firstn_length; lia). rewrite firstn_length, Nat.min_l by lia. f_equal. lia.
Qed.
Lemma nth_ext {A} (l1 l2 : list A) : (forall i, nth_error l1 i = nth_error l2 i) -> l1 = l2.
Proof.
  revert l2. induction l1 as [|x l1 IH]; intros [|y l2] H; [reflexivity|specialize (H 0%nat); discriminate|specialize (H 0%nat); discriminate|].
  f_equal; [specialize (H 0%nat); cbn in H; congruence|]. apply IH. intro i. exact (H (S i)).
Qed.

(** ** The setting: what canonical configurations and endpoint maps look like *)
Definition specs (c : config) : list service_spec := map sv_spec (cf_services c).
Record sane (c : config) : Prop := mkSane {
  sa_canonical : Forall canonical (specs c);
  sa_no_slash : Forall (fun s => no_slash (sp_name s)) (specs c);
  sa_distinct : NoDup (map svc_name (cf_services c)) }.
(** Instance [i] of service number [k] is called [n]. *)
Definition located (c : config) (n : str) (k i : nat) : Prop :=
  exists s, nth_error (cf_services c) k = Some s /\ Z.of_nat i < svc_count s /\ instance_name (sv_spec s) (Z.of_nat i) = Some n.
(** The name of every endpoint is the name of an instance; no name twice. *)
Record endpoints_ok (c : config) (eps : endpoints) : Prop := mkEpsOk {
  eo_keys : NoDup (map fst eps);
  eo_known : forall n, In n (map fst eps) -> exists k i, located c n k i }.
Definition is_dep (dependent : list str) (n : str) : bool := match before_slash n with Some ty => set_mem ty dependent | None => false end.

Lemma sane_nth c k s : sane c -> nth_error (cf_services c) k = Some s -> canonical (sv_spec s) /\ no_slash (svc_name s).
Proof.
  intros [C N _] E. apply nth_error_In in E. rewrite Forall_forall in C, N. split; [apply C|apply (N (sv_spec s))]; apply in_map; exact E.
Qed.
Lemma before_slash_spec n r : no_slash n -> before_slash (n ++ slash :: r) = Some n.
Proof.
  intros H. induction n as [|c n IH]; cbn [app before_slash].
  - rewrite Ascii.eqb_refl. reflexivity.
  - destruct (Ascii.eqb_spec c slash) as [->|N]; [exfalso; apply H; left; reflexivity|]. rewrite IH; [reflexivity|]. intros K. apply H. right. exact K.
Qed.
Lemma located_facts c n k i : sane c -> located c n k i -> exists s g, nth_error (cf_services c) k = Some s /\
  before_slash n = Some (svc_name s) /\ map_find (svc_name s) (enumerate_types c) = Some (Z.of_nat k) /\
  grid_index_from_name n = Some g /\ instance_from_grid (sv_spec s) g = Z.of_nat i /\ (i < Z.to_nat (svc_count s))%nat /\ instance_name (sv_spec s) (Z.of_nat i) = Some n.
Proof.
  intros S (s & E & L & Nm). destruct (sane_nth c k s S E) as (C & Ns). exists s.
  destruct (name_parses (sv_spec s) (Z.of_nat i) (canonical_dims _ C) Ns) as (n' & g & A & B & D). assert (n' = n) by congruence. subst n'.
  exists g. destruct (proj1 (grid_bijection _ C) (Z.of_nat i) (conj (Nat2Z.is_nonneg i) L)) as (g' & K1 & _ & K2). assert (g' = g) by congruence. subst g'.
  split; [exact E|]. split; [destruct (instance_name_prefix _ _ _ Nm) as (r & ->); apply before_slash_spec; exact Ns|].
  split; [apply enumerate_index; [exact (sa_distinct _ S)|rewrite nth_error_map, E; reflexivity]|]. repeat split; auto. lia.
Qed.
Lemma located_fun c n k i k' i' : sane c -> located c n k i -> located c n k' i' -> k = k' /\ i = i'.
Proof.
  intros S L L'. destruct (located_facts _ _ _ _ S L) as (s & g & E1 & E2 & E3 & E4 & E5 & _). destruct (located_facts _ _ _ _ S L') as (s' & g' & F1 & F2 & F3 & F4 & F5 & _).
  assert (svc_name s = svc_name s') by congruence. assert (k = k') by (rewrite H in E3; apply Nat2Z.inj; congruence). subst k'. assert (s = s') by congruence. subst s'.
  split; [reflexivity|]. apply Nat2Z.inj. congruence.
Qed.
Lemma located_inj c n n' k i : located c n k i -> located c n' k i -> n = n'.
Proof. intros (s & E & _ & N) (s' & E' & _ & N'). congruence. Qed.

(** ** Names in the order of the configuration *)
Fixpoint somes {A} (l : list (option A)) : list A := match l with [] => [] | Some a :: r => a :: somes r | None :: r => somes r end.
Definition names (c : config) : list str := somes (all_instance_names (specs c)).
Lemma somes_map {A} (l : list (option A)) : ~ In None l -> l = map Some (somes l).
Proof. induction l as [|[a|] l IH]; intro H; cbn [somes map]; [reflexivity|f_equal; apply IH; intro Q; apply H; right; exact Q|exfalso; apply H; left; reflexivity]. Qed.
Lemma sane_unique c : sane c -> NoDup (all_instance_names (specs c)) /\ ~ In None (all_instance_names (specs c)).
Proof. intros [C N D]. apply all_names_unique; auto. unfold specs. rewrite map_map. exact D. Qed.
Lemma names_NoDup c : sane c -> NoDup (names c).
Proof.
  intro S. destruct (sane_unique c S) as (D & N). unfold names. rewrite (somes_map _ N) in D. eapply NoDup_map_inv; eauto.
Qed.
Lemma add_names_enumerate l : forall m, add_names (map Some l) m = Some (fold_left (fun m n => map_set n (Z.of_nat (length m)) m) l m).
Proof. induction l as [|n l IH]; intro m; cbn [map add_names fold_left]; [reflexivity|apply IH]. Qed.
Lemma ids_spec c : sane c -> instance_ids c = Some (enumerate (names c)).
Proof.
  intro S. destruct (sane_unique c S) as (_ & N). unfold instance_ids. change (map sv_spec (cf_services c)) with (specs c). rewrite (somes_map _ N). apply add_names_enumerate.
Qed.
Lemma In_names c n : sane c -> (In n (names c) <-> exists k i, located c n k i).
Proof.
  intro S. destruct (sane_unique c S) as (_ & N).
  assert (Q : In n (names c) <-> In (Some n) (all_instance_names (specs c))).
  { rewrite (somes_map _ N). unfold names. split; [apply in_map|]. intro H. apply in_map_iff in H as (x & E & I). congruence. }
  rewrite Q. unfold all_instance_names. rewrite in_flat_map. unfold specs. split.
  - intros (sp & I & J). apply in_map_iff in I as (s & <- & I). apply In_nth_error in I as (k & E). unfold service_names in J. apply in_map_iff in J as (z & Ez & J).
    apply zseq_In in J. exists k, (Z.to_nat z), s. rewrite Z2Nat.id by lia. unfold svc_count. repeat split; auto. lia.
  - intros (k & i & s & E & L & Nm). exists (sv_spec s). split; [apply in_map; eapply nth_error_In; eauto|]. unfold service_names. rewrite <- Nm. apply in_map.
    apply zseq_In. unfold svc_count in L. lia.
Qed.
Definition id_of (c : config) (n : str) : Z := match map_find n (enumerate (names c)) with Some z => z | None => -1 end.
Lemma id_of_spec c n z : sane c -> In n (names c) -> (id_of c n = z <-> at_index (names c) z n).
Proof.
  intros S I. pose proof (names_NoDup c S) as D. unfold id_of. pose proof I as J. apply In_nth_error in J as (j & J). rewrite (enumerate_index _ _ _ D J). unfold at_index. split.
  - intros <-. split; [lia|]. rewrite Nat2Z.id. exact J.
  - intros (P & Q). assert (j = Z.to_nat z); [|lia]. eapply NoDup_nth_error; [exact D|apply nth_error_Some; congruence|congruence].
Qed.

(** ** The first loop *)
Definition peer_at (peers : list (list peer)) (k i : nat) : option peer := match nth_error peers k with Some row => nth_error row i | None => None end.
Definition shape (c : config) (peers : list (list peer)) : Prop := map (@length peer) peers = map (fun s => Z.to_nat (svc_count s)) (cf_services c).
(** What the loop makes of the peer called [n]: the endpoints before it in [l]
    that belong to dependent services give its number. *)
Fixpoint expected (c : config) (dep : list str) (num : Z) (l : endpoints) (n : str) (old : peer) : peer :=
  match l with
  | [] => old
  | (m, ep) :: r =>
      if str_eqb m n then (if is_dep dep m then mkPeer n (Some (id_of c n)) (ep_address ep) num else mkPeer n (Some (id_of c n)) (pe_address old) (pe_pd old))
      else expected c dep (if is_dep dep m then num + 1 else num) r n old
  end.
Definition deps (dep : list str) (l : endpoints) : endpoints := filter (fun x => is_dep dep (fst x)) l.
Lemma shape_at c peers k i s : shape c peers -> nth_error (cf_services c) k = Some s -> (i < Z.to_nat (svc_count s))%nat ->
  exists row p, nth_error peers k = Some row /\ nth_error row i = Some p.
Proof.
  intros Sh E L. assert (Q : nth_error (map (@length peer) peers) k = Some (Z.to_nat (svc_count s))) by (rewrite Sh, nth_error_map, E; reflexivity).
  rewrite nth_error_map in Q. destruct (nth_error peers k) as [row|]; [|discriminate]. injection Q as Q.
  destruct (nth_error row i) as [p|] eqn:R; [eauto|]. apply nth_error_None in R. lia.
Qed.
Lemma map_vec_set {A B} (f : A -> B) l i a b : nth_error l i = Some a -> f b = f a -> map f (vec_set l (Z.of_nat i) b) = map f l.
Proof.
  intros E F. assert (L : (i < length l)%nat) by (apply nth_error_Some; congruence). apply nth_ext. intro j. rewrite !nth_error_map, vec_set_nth by exact L.
  destruct (Nat.eqb_spec j i) as [->|]; [rewrite E; cbn; congruence|reflexivity].
Qed.
Lemma peer_at_set peers k row i p k' i' : nth_error peers k = Some row -> (i < length row)%nat ->
  peer_at (vec_set peers (Z.of_nat k) (vec_set row (Z.of_nat i) p)) k' i' = if (k' =? k)%nat && (i' =? i)%nat then Some p else peer_at peers k' i'.
Proof.
  intros E L. assert (Lk : (k < length peers)%nat) by (apply nth_error_Some; congruence). unfold peer_at. rewrite vec_set_nth by exact Lk.
  destruct (Nat.eqb_spec k' k) as [->|]; cbn [andb]; [|reflexivity]. rewrite vec_set_nth by exact L. destruct (Nat.eqb_spec i' i); [reflexivity|]. rewrite E. reflexivity.
Qed.
Lemma scan_endpoint_spec c my dep s n ep k i : sane c -> located c n k i -> sc_types s = enumerate_types c -> shape c (sc_peers s) ->
  exists s' old, scan_endpoint c (enumerate (names c)) my dep s (n, ep) = POk s' /\ peer_at (sc_peers s) k i = Some old /\
    sc_types s' = enumerate_types c /\ shape c (sc_peers s') /\ sc_trace s' = (if str_eqb n my then id_of c n else sc_trace s) /\
    sc_targets s' = (if is_dep dep n then sc_targets s + 1 else sc_targets s) /\
    forall k' i', peer_at (sc_peers s') k' i' = if (k' =? k)%nat && (i' =? i)%nat
      then Some (if is_dep dep n then mkPeer n (Some (id_of c n)) (ep_address ep) (sc_targets s) else mkPeer n (Some (id_of c n)) (pe_address old) (pe_pd old))
      else peer_at (sc_peers s) k' i'.
Proof.
  intros S L T Sh. destruct (located_facts c n k i S L) as (sv & g & E1 & E2 & E3 & E4 & E5 & E6 & E7).
  destruct (shape_at _ _ _ _ _ Sh E1 E6) as (row & old & R1 & R2).
  assert (In n (names c)) as I by (apply In_names; eauto). apply In_nth_error in I as (j & J).
  assert (Fi : map_find n (enumerate (names c)) = Some (id_of c n)) by (unfold id_of; rewrite (enumerate_index _ _ _ (names_NoDup c S) J); reflexivity).
  unfold scan_endpoint. rewrite Fi, E2. cbn [must pbind]. unfold index_or_insert. rewrite T, E3. rewrite vec_at_nat, E1. cbn [must pbind]. rewrite E4. cbn [must pbind].
  rewrite E5. rewrite vec_at_nat, R1. cbn [must pbind]. rewrite vec_at_nat, R2. cbn [must pbind]. cbv zeta.
  unfold is_dep. rewrite E2. assert (Li : (i < length row)%nat) by (apply nth_error_Some; congruence).
  destruct (set_mem (svc_name sv) dep); eexists; exists old; (split; [reflexivity|]); cbn [sc_types sc_peers sc_trace sc_targets];
    (split; [unfold peer_at; rewrite R1; exact R2|]); (split; [reflexivity|]);
    (split; [unfold shape; rewrite (map_vec_set _ _ _ _ _ R1); [exact Sh|apply vec_set_length; exact Li]|]); (split; [reflexivity|]); (split; [reflexivity|]);
    intros k' i'; rewrite (peer_at_set _ _ _ _ _ _ _ R1 Li); reflexivity.
Qed.
Lemma expected_absent c dep l n old : ~ In n (map fst l) -> forall num, expected c dep num l n old = old.
Proof.
  induction l as [|[m ep] l IH]; intros N num; [reflexivity|]. cbn [expected]. cbn [map fst] in N. destruct (str_eqb_spec m n) as [->|]; [exfalso; apply N; left; reflexivity|].
  apply IH. intro Q. apply N. right. exact Q.
Qed.
Lemma scan_all_spec c my dep l : sane c -> forall s, NoDup (map fst l) -> (forall n, In n (map fst l) -> exists k i, located c n k i) ->
  sc_types s = enumerate_types c -> shape c (sc_peers s) ->
  exists s', scan_all c (enumerate (names c)) my dep s l = POk s' /\ sc_types s' = enumerate_types c /\ shape c (sc_peers s') /\
    sc_trace s' = (if set_mem my (map fst l) then id_of c my else sc_trace s) /\
    sc_targets s' = sc_targets s + Z.of_nat (length (deps dep l)) /\
    forall n k i old, located c n k i -> peer_at (sc_peers s) k i = Some old -> peer_at (sc_peers s') k i = Some (expected c dep (sc_targets s) l n old).
Proof.
  intro S. induction l as [|[n ep] l IH]; intros s D K T Sh.
  - exists s. cbn [scan_all map expected deps filter length set_mem existsb]. rewrite Z.add_0_r. repeat split; auto.
  - cbn [map fst] in D, K. apply NoDup_cons_iff in D as [Nn D]. destruct (K n (or_introl eq_refl)) as (k & i & L).
    destruct (scan_endpoint_spec c my dep s n ep k i S L T Sh) as (s1 & old & E1 & Old & T1 & Sh1 & Tr1 & Tg1 & P1).
    destruct (IH s1 D (fun m M => K m (or_intror M)) T1 Sh1) as (s' & E' & T' & Sh' & Tr' & Tg' & P').
    exists s'. cbn [scan_all]. rewrite E1. cbn [pbind]. split; [exact E'|]. split; [exact T'|]. split; [exact Sh'|].
    split. { rewrite Tr', Tr1. cbn [set_mem existsb map fst]. destruct (str_eqb_spec n my) as [->|Ne].
             - destruct (str_eqb_spec my my); [|congruence]. cbn [orb]. destruct (set_mem my (map fst l)); reflexivity.
             - destruct (str_eqb_spec my n); [congruence|]. reflexivity. }
    split. { rewrite Tg', Tg1. cbn [deps filter fst]. destruct (is_dep dep n); cbn [length]; unfold deps; lia. }
    intros m k' i' o Lm Hm. cbn [expected]. destruct (str_eqb_spec n m) as [<-|Ne].
    + destruct (located_fun _ _ _ _ _ _ S L Lm) as [<- <-]. assert (o = old) by congruence. subst o.
      rewrite (P' n k i _ L (eq_trans (P1 k i) ltac:(rewrite !Nat.eqb_refl; reflexivity))). rewrite expected_absent by exact Nn. reflexivity.
    + rewrite <- Tg1. apply P'; [exact Lm|]. rewrite P1. destruct ((k' =? k)%nat && (i' =? i)%nat) eqn:B; [|exact Hm].
      apply andb_true_iff in B as [B1 B2]. apply Nat.eqb_eq in B1, B2. subst. exfalso. apply Ne. exact (located_inj _ _ _ _ _ L Lm).
Qed.

(** ** From names to slots *)
Lemma blank_spec c : sane c -> exists peers, blank_peers c = Some peers /\ shape c peers /\ forall n k i, located c n k i -> peer_at peers k i = Some blank_peer.
Proof.
  intro S. unfold blank_peers. rewrite (proj2 (forallb_forall _ _)).
  2: { intros s I. apply Z.leb_le. destruct S as [C _ _]. rewrite Forall_forall in C. pose proof (C (sv_spec s) (in_map _ _ _ I)) as Q.
       unfold svc_count. rewrite (canonical_count _ Q). destruct (canonical_pos _ Q) as (? & ? & ?). apply Z.mul_nonneg_nonneg; [apply Z.mul_nonneg_nonneg|]; lia. }
  eexists. split; [reflexivity|]. split; [unfold shape; rewrite map_map; apply map_ext; intro s; apply repeat_length|].
  intros n k i L. destruct (located_facts c n k i S L) as (s & g & E & _ & _ & _ & _ & Li & _). unfold peer_at. rewrite nth_error_map, E. cbn [option_map].
  apply nth_error_repeat. exact Li.
Qed.
Lemma concat_names c peers (f : str -> peer) : sane c -> shape c peers -> (forall n k i, located c n k i -> peer_at peers k i = Some (f n)) ->
  concat peers = map f (names c).
Proof.
  intros S Sh P. destruct (sane_unique c S) as (_ & NN).
  assert (R : forall k s row, nth_error (cf_services c) k = Some s -> nth_error peers k = Some row -> map Some row = map (option_map f) (service_names (sv_spec s))).
  { intros k s row E Er. apply nth_ext. intro i. rewrite !nth_error_map.
    assert (Lr : length row = Z.to_nat (svc_count s)).
    { assert (Q : nth_error (map (@length peer) peers) k = Some (Z.to_nat (svc_count s))) by (rewrite Sh, nth_error_map, E; reflexivity).
      rewrite nth_error_map, Er in Q. injection Q as Q. exact Q. }
    unfold service_names. rewrite nth_error_map. unfold zseq. rewrite nth_error_map.
    destruct (Nat.lt_ge_cases i (Z.to_nat (svc_count s))) as [L|G].
    - rewrite nth_error_nth' with (d := 0%nat) by (rewrite seq_length; exact L). rewrite seq_nth by exact L. cbn [Nat.add option_map].
      destruct (sane_nth c k s S E) as (C & Ns). destruct (name_parses (sv_spec s) (Z.of_nat i) (canonical_dims _ C) Ns) as (n & g & Nm & _). rewrite Nm. cbn [option_map].
      assert (Loc : located c n k i) by (exists s; repeat split; auto; lia). pose proof (P n k i Loc) as Q. unfold peer_at in Q. rewrite Er in Q. rewrite Q. reflexivity.
    - rewrite (proj2 (nth_error_None row i)) by lia. rewrite (proj2 (nth_error_None (seq 0 (Z.to_nat (get_count (sv_spec s)))) i)) by (rewrite seq_length; exact G). reflexivity. }
  assert (Q : map Some (concat peers) = map (option_map f) (all_instance_names (specs c))).
  { unfold all_instance_names, specs. rewrite flat_map_concat_map, map_map.
    rewrite !concat_map, !map_map. f_equal. apply nth_ext. intro k. rewrite !nth_error_map.
    assert (Ls : length peers = length (cf_services c)) by (apply (f_equal (@length nat)) in Sh; rewrite !map_length in Sh; exact Sh).
    destruct (nth_error (cf_services c) k) as [s|] eqn:E; destruct (nth_error peers k) as [row|] eqn:Er; cbn [option_map].
    - rewrite (R k s row E Er). reflexivity.
    - apply nth_error_None in Er. assert (k < length (cf_services c))%nat by (apply nth_error_Some; congruence). lia.
    - apply nth_error_None in E. assert (k < length peers)%nat by (apply nth_error_Some; congruence). lia.
    - reflexivity. }
  rewrite (somes_map _ NN) in Q. rewrite map_map in Q. cbn [option_map] in Q. change (somes (all_instance_names (specs c))) with (names c) in Q.
  rewrite <- (map_map f Some) in Q. clear - Q. revert Q. generalize (map f (names c)). induction (concat peers) as [|x l IH]; intros [|y l'] Q; cbn [map] in Q; try discriminate; [reflexivity|].
  injection Q as -> Q. f_equal. auto.
Qed.

(** The number of the endpoint called [n] among those of dependent services. *)
Lemma expected_dep c dep l n : NoDup (map fst l) -> is_dep dep n = true -> forall num j ep, nth_error (deps dep l) j = Some (n, ep) ->
  forall old, expected c dep num l n old = mkPeer n (Some (id_of c n)) (ep_address ep) (num + Z.of_nat j).
Proof.
  intros D Dn. induction l as [|[m e] l IH]; intros num j ep E old; cbn [deps filter fst expected] in *; [destruct j; discriminate|].
  cbn [map fst] in D. apply NoDup_cons_iff in D as [Nm D]. destruct (str_eqb_spec m n) as [->|Ne].
  - rewrite Dn in *. destruct j as [|j]; cbn [nth_error] in E; [injection E as <-; rewrite Z.add_0_r; reflexivity|].
    exfalso. apply Nm. apply nth_error_In in E. apply filter_In in E as [E _]. exact (in_map fst _ _ E).
  - destruct (is_dep dep m).
    + destruct j as [|j]; cbn [nth_error] in E; [congruence|]. rewrite (IH D (num + 1) j ep E). f_equal. lia.
    + apply IH; assumption.
Qed.
Lemma expected_other c dep l n : is_dep dep n = false -> In n (map fst l) -> forall num,
  expected c dep num l n blank_peer = mkPeer n (Some (id_of c n)) [] (-1).
Proof.
  intros Dn. induction l as [|[m e] l IH]; intros I num; [destruct I|]. cbn [expected]. cbn [map fst] in I. destruct (str_eqb_spec m n) as [->|Ne]; [rewrite Dn; reflexivity|].
  apply IH. destruct I as [I|I]; [congruence|exact I].
Qed.
Lemma deps_named dep l n : is_dep dep n = true -> In n (map fst l) -> exists j ep, nth_error (deps dep l) j = Some (n, ep).
Proof.
  intros Dn I. apply in_map_iff in I as ([m ep] & E & I). cbn in E. subst m.
  assert (Q : In (n, ep) (deps dep l)) by (apply filter_In; auto). apply In_nth_error in Q as (j & Q). eauto.
Qed.
Lemma deps_keys dep l : NoDup (map fst l) -> NoDup (map fst (deps dep l)).
Proof.
  induction l as [|[m e] l IH]; intro D; [constructor|]. cbn [map fst] in D. apply NoDup_cons_iff in D as [N D]. cbn [deps filter fst].
  destruct (is_dep dep m); [|apply IH; exact D]. cbn [map fst]. constructor; [|apply IH; exact D]. intro Q. apply N. apply in_map_iff in Q as (x & <- & Q). apply filter_In in Q as [Q _]. apply in_map. exact Q.
Qed.
Lemma deps_is_dep dep l j n ep : nth_error (deps dep l) j = Some (n, ep) -> is_dep dep n = true /\ In (n, ep) l.
Proof. intro E. apply nth_error_In in E. apply filter_In in E as [I Q]. auto. Qed.

(** ** Slots of the connection requests *)
Definition request_of (p : peer) : list (Z * str) := match pe_address p with [] => [] | _ => [(pe_pd p, pe_address p)] end.
Section Requests.
  Variables (c : config) (dep : list str) (eps : endpoints).
  Hypothesis S : sane c.
  Hypothesis D : NoDup (map fst eps).
  Hypothesis K : forall n, In n (map fst eps) -> In n (names c).
  Hypothesis A : forall n ep, In (n, ep) (deps dep eps) -> ep_address ep <> [].
  Let f n := expected c dep 0 eps n blank_peer.
  Let reqs := flat_map (fun n => request_of (f n)) (names c).
  Lemma f_cases n : (exists j ep, nth_error (deps dep eps) j = Some (n, ep) /\ f n = mkPeer n (Some (id_of c n)) (ep_address ep) (Z.of_nat j)) \/
    ((~ In n (map fst eps) \/ is_dep dep n = false) /\ pe_address (f n) = [] /\ pe_pd (f n) = -1).
  Proof.
    destruct (set_mem n (map fst eps)) eqn:M.
    - apply set_mem_spec in M. destruct (is_dep dep n) eqn:Dn.
      + left. destruct (deps_named dep eps n Dn M) as (j & ep & E). exists j, ep. split; [exact E|]. exact (expected_dep c dep eps n D Dn 0 j ep E blank_peer).
      + right. split; [auto|]. unfold f. rewrite expected_other by assumption. auto.
    - assert (N : ~ In n (map fst eps)) by (intro Q; apply set_mem_spec in Q; congruence). right. split; [auto|]. unfold f. rewrite expected_absent by exact N. auto.
  Qed.
  Lemma reqs_In z a : In (z, a) reqs <-> exists j n ep, nth_error (deps dep eps) j = Some (n, ep) /\ z = Z.of_nat j /\ a = ep_address ep.
  Proof.
    unfold reqs. rewrite in_flat_map. split.
    - intros (n & I & Q). destruct (f_cases n) as [(j & ep & E & F)|(_ & F & _)].
      + unfold request_of in Q. rewrite F in Q. cbn [pe_address pe_pd] in Q. destruct (ep_address ep) eqn:Ea; [destruct Q|]. rewrite <- Ea in Q. destruct Q as [Q|[]].
        exists j, n, ep. injection Q as <- <-. auto.
      + unfold request_of in Q. rewrite F in Q. destruct Q.
    - intros (j & n & ep & E & -> & ->). exists n. destruct (deps_is_dep _ _ _ _ _ E) as (Dn & I). split; [apply K; exact (in_map fst _ _ I)|].
      unfold request_of, f. rewrite (expected_dep c dep eps n D Dn 0 j ep E). cbn [pe_address pe_pd]. pose proof (A n ep (nth_error_In _ _ E)) as Q.
      destruct (ep_address ep); [congruence|left; reflexivity].
  Qed.
  Lemma reqs_NoDup : NoDup (map fst reqs).
  Proof.
    assert (G : forall l, NoDup l -> NoDup (map fst (flat_map (fun n => request_of (f n)) l))); [|apply G; exact (names_NoDup c S)].
    induction l as [|n l IH]; intro DN; [constructor|]. apply NoDup_cons_iff in DN as [N DN]. cbn [flat_map]. rewrite map_app.
    apply NoDup_app_intro; [|apply IH; exact DN|].
    - unfold request_of. destruct (pe_address (f n)); cbn [map]; [constructor|constructor; [intros []|constructor]].
    - intros z Q1 Q2. apply in_map_iff in Q1 as ([z1 a1] & E1 & Q1). apply in_map_iff in Q2 as ([z2 a2] & E2 & Q2). cbn [fst] in E1, E2. subst z1 z2.
      apply in_flat_map in Q2 as (m & Im & Q2). unfold request_of in Q1, Q2.
      destruct (f_cases n) as [(j & ep & E & F)|(_ & F & _)]; [|rewrite F in Q1; destruct Q1]. destruct (f_cases m) as [(j' & ep' & E' & F')|(_ & F' & _)]; [|rewrite F' in Q2; destruct Q2].
      rewrite F in Q1. rewrite F' in Q2. cbn [pe_address pe_pd] in Q1, Q2. destruct (ep_address ep); [destruct Q1|]. destruct (ep_address ep'); [destruct Q2|].
      destruct Q1 as [Q1|[]]. destruct Q2 as [Q2|[]]. injection Q1 as Z1 _. injection Q2 as Z2 _. assert (j = j') by lia. subst j'. assert (n = m) by congruence. subst m. contradiction.
  Qed.
  Lemma reqs_length : length reqs = length (deps dep eps).
  Proof.
    rewrite <- (map_length fst reqs). rewrite <- (seq_length (length (deps dep eps)) 0), <- (map_length Z.of_nat). apply Permutation_length.
    apply NoDup_Permutation; [exact reqs_NoDup|apply NoDup_map_inj; [intros; lia|apply seq_NoDup]|]. intro z. rewrite !in_map_iff. split.
    - intros ([z1 a] & <- & I). apply reqs_In in I as (j & n & ep & E & -> & _). exists j. split; [reflexivity|]. apply in_seq. split; [lia|]. apply nth_error_Some. congruence.
    - intros (j & <- & I). apply in_seq in I. destruct (nth_error (deps dep eps) j) as [[n ep]|] eqn:E; [|apply nth_error_None in E; lia].
      exists (Z.of_nat j, ep_address ep). split; [reflexivity|]. apply reqs_In. eauto 6.
  Qed.
  Lemma fill_spec l : forall slots, NoDup (map fst l) -> (forall z a, In (z, a) l -> 0 <= z < Z.of_nat (length slots)) ->
    exists slots', fill_slots slots l = Some slots' /\ length slots' = length slots /\
      forall j, nth_error slots' j = match find (fun x => fst x =? Z.of_nat j) l with Some (_, a) => Some a | None => nth_error slots j end.
  Proof.
    clear. induction l as [|[z a] l IH]; intros slots N R; cbn [fill_slots find]; [exists slots; auto|]. cbn [map fst] in N. apply NoDup_cons_iff in N as [Nz N].
    pose proof (R z a (or_introl eq_refl)) as Rz. replace z with (Z.of_nat (Z.to_nat z)) by lia. set (i := Z.to_nat z) in *. rewrite vec_at_nat.
    assert (L : (i < length slots)%nat) by lia. destruct (nth_error slots i) as [o|] eqn:E; [|apply nth_error_None in E; lia].
    destruct (IH (vec_set slots (Z.of_nat i) a) N) as (s' & E' & L' & P'); [intros y b I; rewrite vec_set_length by exact L; apply R with b; right; exact I|].
    exists s'. rewrite vec_set_length in L' by exact L. split; [exact E'|]. split; [exact L'|]. intro j. rewrite P', vec_set_nth by exact L. cbn [fst].
    destruct (Z.eqb_spec (Z.of_nat i) (Z.of_nat j)) as [Q|Q].
    - assert (i = j) by lia. subst j. rewrite Nat.eqb_refl. destruct (find _ l) as [[y b]|] eqn:F; [|reflexivity]. exfalso. apply find_some in F as [I B]. cbn in B. apply Z.eqb_eq in B.
      apply Nz. replace z with y by lia. exact (in_map fst _ _ I).
    - destruct (Nat.eqb_spec j i) as [->|]; [congruence|]. reflexivity.
  Qed.
  Lemma slots_spec : fill_slots (repeat [] (length (deps dep eps))) reqs = Some (map (fun x => ep_address (snd x)) (deps dep eps)).
  Proof.
    destruct (fill_spec reqs (repeat [] (length (deps dep eps))) reqs_NoDup) as (s & E & L & P).
    { intros z a I. apply reqs_In in I as (j & n & ep & E & -> & _). rewrite repeat_length. assert (j < length (deps dep eps))%nat by (apply nth_error_Some; congruence). lia. }
    rewrite E. f_equal. apply nth_ext. intro j. rewrite P, nth_error_map. destruct (nth_error (deps dep eps) j) as [[n ep]|] eqn:Ej; cbn [option_map snd].
    - destruct (find (fun x => fst x =? Z.of_nat j) reqs) as [[z a]|] eqn:F.
      + apply find_some in F as [I B]. cbn in B. apply Z.eqb_eq in B. apply reqs_In in I as (j' & n' & ep' & E' & -> & ->). assert (j' = j) by lia. subst j'. congruence.
      + exfalso. assert (I : In (Z.of_nat j, ep_address ep) reqs) by (apply reqs_In; eauto 6). apply (find_none _ _ F) in I. cbn in I. rewrite Z.eqb_refl in I. discriminate.
    - destruct (find (fun x => fst x =? Z.of_nat j) reqs) as [[z a]|] eqn:F.
      + apply find_some in F as [I B]. cbn in B. apply Z.eqb_eq in B. apply reqs_In in I as (j' & n' & ep' & E' & -> & ->). assert (j' = j) by lia. subst j'. congruence.
      + apply nth_error_None. rewrite repeat_length. apply nth_error_None in Ej. exact Ej.
  Qed.
End Requests.
Lemma requests_flat c (f : str -> peer) peers : concat peers = map f (names c) -> requests peers = flat_map (fun n => request_of (f n)) (names c).
Proof.
  intro E. unfold requests. rewrite E. clear E. induction (names c) as [|n l IH]; [reflexivity|]. cbn [map flat_map]. rewrite IH. reflexivity.
Qed.

(** ** Connections *)
Lemma handle_ok answer accept slots : forall i calls ok, handle_connects answer accept i slots = (calls, ok) ->
  (ok = true <-> forall j a, nth_error slots j = Some a -> exists info, answer (i + j)%nat a = Some info /\ accept (i + j)%nat info = true) /\
  (forall d, In d calls <-> exists j a info, nth_error slots j = Some a /\ answer (i + j)%nat a = Some info /\ d = CHandleConnect info (i + j)) /\
  (ok = true -> exists infos, length infos = length slots /\ (forall j info, nth_error infos j = Some info -> exists a, nth_error slots j = Some a /\ answer (i + j)%nat a = Some info) /\
     calls = map (fun x => CHandleConnect (snd x) (fst x)) (combine (seq i (length infos)) infos)).
Proof.
  induction slots as [|a r IH]; intros i calls ok H; cbn [handle_connects] in H.
  - injection H as <- <-. split; [split; [intros _ [|j] ? ?; discriminate|reflexivity]|].
    split; [intro d; split; [intros []|intros ([|j] & ? & ? & ? & _); discriminate]|].
    intros _. exists []. split; [reflexivity|]. split; [intros [|j] ? ?; discriminate|reflexivity].
  - destruct (handle_connects answer accept (S i) r) as [calls1 ok1] eqn:E. destruct (IH (S i) calls1 ok1 E) as (A & B & C).
    destruct (answer i a) as [info|] eqn:An; injection H as <- <-.
    + split; [|split].
      * rewrite andb_true_iff, A. split.
        -- intros [Q1 Q2] [|j] b Ej; cbn [nth_error] in Ej; [injection Ej as <-; rewrite Nat.add_0_r; eauto|]. rewrite Nat.add_succ_r. apply (Q2 j b Ej).
        -- intro Q. split.
           ++ destruct (Q 0%nat a eq_refl) as (x & Q1 & Q2). rewrite Nat.add_0_r in *. congruence.
           ++ intros j b Ej. specialize (Q (S j) b Ej). rewrite Nat.add_succ_r in Q. exact Q.
      * intro d. cbn [In]. rewrite B. split.
        -- intros [<-|(j & b & x & Ej & Q & ->)]; [exists 0%nat, a, info; rewrite Nat.add_0_r; auto|]. exists (S j), b, x. rewrite Nat.add_succ_r. auto.
        -- intros ([|j] & b & x & Ej & Q & ->); cbn [nth_error] in Ej; rewrite ?Nat.add_0_r, ?Nat.add_succ_r in *; [left; congruence|right; exists j, b, x; auto].
      * intro O. apply andb_true_iff in O as [O1 O2]. destruct (C O2) as (infos & L & P & ->). exists (info :: infos). cbn [length]. split; [congruence|]. split; [|reflexivity].
        intros [|j] x Ej; cbn [nth_error] in Ej; [injection Ej as <-; exists a; rewrite Nat.add_0_r; auto|]. destruct (P j x Ej) as (b & Eb & Q). exists b. rewrite Nat.add_succ_r. auto.
    + split; [|split; [|discriminate]].
      * split; [discriminate|]. intro Q. destruct (Q 0%nat a eq_refl) as (x & Q1 & _). rewrite Nat.add_0_r in *. congruence.
      * intro d. rewrite B. split.
        -- intros (j & b & x & Ej & Q & ->). exists (S j), b, x. rewrite Nat.add_succ_r. auto.
        -- intros ([|j] & b & x & Ej & Q & ->); cbn [nth_error] in Ej; rewrite ?Nat.add_0_r, ?Nat.add_succ_r in *; [congruence|exists j, b, x; auto].
Qed.

(** ** Members of channels *)
Lemma insert_id_In z l x : In x (insert_id z l) <-> x = z \/ In x l.
Proof.
  induction l as [|y l IH]; cbn [insert_id In]; [split; intros [H|H]; auto; right; auto; destruct H|]. destruct (Z.ltb_spec z y); [cbn [In]; split; intros [H'|H']; auto|].
  destruct (Z.eqb_spec z y) as [->|Ne]; cbn [In]; [split; [auto|intros [->|H']; auto]|]. rewrite IH. tauto.
Qed.
Fixpoint increasing_ids (l : list Z) : Prop := match l with [] => True | x :: r => (forall y, In y r -> x < y) /\ increasing_ids r end.
Lemma insert_id_sorted z l : increasing_ids l -> increasing_ids (insert_id z l).
Proof.
  induction l as [|y l IH]; intro H; cbn [insert_id]; [cbn; tauto|]. destruct H as (H1 & H2). destruct (Z.ltb_spec z y) as [L|G].
  - cbn [increasing_ids]. split; [|split; assumption]. intros x [<-|I]; [exact L|specialize (H1 x I); lia].
  - destruct (Z.eqb_spec z y) as [->|Ne]; [split; assumption|]. cbn [increasing_ids]. split; [|apply IH; exact H2]. intros x I. apply insert_id_In in I as [->|I]; [lia|apply H1; exact I].
Qed.
Lemma sorted_unique_In l x : In x (sorted_unique l) <-> In x l.
Proof. unfold sorted_unique. induction l as [|y l IH]; cbn [fold_right In]; [reflexivity|]. rewrite insert_id_In, IH. split; intros [H|H]; auto. Qed.
Lemma sorted_unique_sorted l : increasing_ids (sorted_unique l).
Proof. unfold sorted_unique. induction l as [|y l IH]; cbn [fold_right]; [exact Logic.I|]. apply insert_id_sorted. exact IH. Qed.
Lemma pbind_ok {A B} (r : pres A) (f : A -> pres B) b : pbind r f = POk b -> exists a, r = POk a /\ f a = POk b.
Proof. destruct r; cbn [pbind]; intro H; try discriminate. eauto. Qed.
Lemma must_ok {A} (o : option A) a : must o = POk a -> o = Some a.
Proof. destruct o; cbn; congruence. Qed.
Lemma selected_spec s row l : forall ps, selected_members s row l = POk ps ->
  forall z, In z ps <-> exists i p, In i l /\ vec_at row i = Some p /\ pe_pd p = z.
Proof.
  induction l as [|i r IH]; intros ps H z; cbn [selected_members] in H.
  - injection H as <-. split; [intros []|intros (? & ? & [] & _)].
  - destruct (svc_count s <=? i); [discriminate|]. apply pbind_ok in H as (p & Hp & H). apply must_ok in Hp. apply pbind_ok in H as (ps1 & H1 & H). injection H as <-.
    cbn [In]. rewrite (IH _ H1 z). split.
    + intros [<-|(j & q & I & Q)]; [exists i, p; auto|exists j, q; tauto].
    + intros (j & q & [<-|I] & Q & E); [left; congruence|right; exists j, q; auto].
Qed.
Lemma selected_range s row l : forall ps, selected_members s row l = POk ps -> forall i, In i l -> 0 <= i < svc_count s.
Proof.
  induction l as [|i r IH]; intros ps H z I; [destruct I|]. cbn [selected_members] in H. destruct (Z.leb_spec (svc_count s) i); [discriminate|].
  apply pbind_ok in H as (p & Hp & H). apply must_ok, vec_at_range in Hp. apply pbind_ok in H as (ps1 & H1 & _). destruct I as [<-|I]; [lia|eapply IH; eauto].
Qed.
Lemma constraint_spec s cl eps row l : forall ps, constraint_members s cl eps row l = POk ps ->
  forall z, In z ps <-> exists i n ep p, In i l /\ instance_name (sv_spec s) i = Some n /\ map_find n eps = Some ep /\ satisfies cl (ep_attributes ep) /\ vec_at row i = Some p /\ pe_pd p = z.
Proof.
  induction l as [|i r IH]; intros ps H z; cbn [constraint_members] in H.
  - injection H as <-. split; [intros []|intros (? & ? & ? & ? & [] & _)].
  - apply pbind_ok in H as (n & Hn & H). apply must_ok in Hn. apply pbind_ok in H as (ep & He & H). apply must_ok in He. apply pbind_ok in H as (b & Hb & H). apply must_ok in Hb.
    apply pbind_ok in H as (p & Hp & H). apply must_ok in Hp. apply pbind_ok in H as (ps1 & H1 & H). injection H as <-. pose proof (check_list_sound _ _ _ Hb) as Q.
    assert (X : (exists i0 n0 ep0 p0, (i = i0 \/ In i0 r) /\ instance_name (sv_spec s) i0 = Some n0 /\ map_find n0 eps = Some ep0 /\ satisfies cl (ep_attributes ep0) /\ vec_at row i0 = Some p0 /\ pe_pd p0 = z)
                <-> (b = true /\ pe_pd p = z) \/ In z ps1).
    { rewrite (IH _ H1 z). split.
      - intros (j & m & e & q & [<-|I] & E1 & E2 & E3 & E4 & E5); [left|right; exists j, m, e, q; auto 6].
        assert (m = n) by congruence. subst m. assert (e = ep) by congruence. subst e. assert (q = p) by congruence. subst q. split; [apply Q; exact E3|exact E5].
      - intros [[Eb Ez]|(j & m & e & q & I & R)]; [exists i, n, ep, p; repeat split; auto; apply Q; exact Eb|exists j, m, e, q; tauto]. }
    cbn [In]. rewrite X. clear. destruct b; cbn [In]; [tauto|]. split; [tauto|]. intros [[H _]|H]; [discriminate|exact H].
Qed.

(** ** The whole of ConnectToPeers *)
(** What the theorems assume: an engine of an existing instance, the tables of
    its service, known endpoints with an address where one is needed. *)
Record situation (c : config) (t : tables) (me : str) (inst : Z) (my_name : str) (eps : endpoints) : Prop := mkSit {
  si_sane : sane c;
  si_types : tb_types t = enumerate_types c;
  si_me : exists k i s, located c my_name k i /\ nth_error (cf_services c) k = Some s /\ svc_name s = me /\ inst = Z.of_nat i;
  si_eps : endpoints_ok c eps;
  si_some : eps <> [];
  si_addresses : forall n k i s ep, located c n k i -> nth_error (cf_services c) k = Some s -> In (svc_name s) (tb_dependent t) -> In (n, ep) eps -> ep_address ep <> [] }.
Lemma is_dep_iff c dep n k i s : sane c -> located c n k i -> nth_error (cf_services c) k = Some s -> (is_dep dep n = true <-> In (svc_name s) dep).
Proof.
  intros S L E. destruct (located_facts c n k i S L) as (s' & g & E' & B & _). assert (s' = s) by congruence. subst s'. unfold is_dep. rewrite B. apply set_mem_spec.
Qed.
Section Connect.
  Variables (answer : nat -> str -> option str) (accept : nat -> str -> bool) (setup : list Z -> bool).
  Variables (c : config) (t : tables) (me : str) (inst : Z) (my : str) (eps : endpoints).
  Hypothesis H : situation c t me inst my eps.
  Let dep := tb_dependent t.
  Let slots := map (fun x => ep_address (snd x)) (deps dep eps).
  Lemma si_known n : In n (map fst eps) -> In n (names c).
  Proof. intro I. apply (In_names c n (si_sane _ _ _ _ _ _ H)). exact (eo_known _ _ (si_eps _ _ _ _ _ _ H) n I). Qed.
  Lemma si_dep_addresses n ep : In (n, ep) (deps dep eps) -> ep_address ep <> [].
  Proof.
    intro I. apply filter_In in I as [I D]. cbn [fst] in D. destruct (eo_known _ _ (si_eps _ _ _ _ _ _ H) n (in_map fst _ _ I)) as (k & i & L).
    pose proof L as L'. destruct L' as (s & E & _). apply (si_addresses _ _ _ _ _ _ H n k i s ep L E); [|exact I]. apply (is_dep_iff c dep n k i s (si_sane _ _ _ _ _ _ H) L E). exact D.
  Qed.
  Lemma connect_spec : exists s, sc_types s = enumerate_types c /\ shape c (sc_peers s) /\ sc_trace s = (if set_mem my (map fst eps) then id_of c my else -1) /\
    sc_targets s = Z.of_nat (length (deps dep eps)) /\
    (forall n k i, located c n k i -> peer_at (sc_peers s) k i = Some (expected c dep 0 eps n blank_peer)) /\
    connect_to_peers answer accept setup c t me inst eps =
      let (calls, ok) := handle_connects answer accept 0 slots in
      if ok then
        let (calls', e) := all_channels setup (enumerate_types c) (sc_peers s) dep eps 0 (cf_services c) in
        ((CSetNumPeers (Z.of_nat (length slots)) :: calls) ++ CSetNumChannels (channel_count dep (cf_services c)) :: calls', pdo _ <- e; POk s)
      else (CSetNumPeers (Z.of_nat (length slots)) :: calls, PErr PConnect).
  Proof.
    pose proof (si_sane _ _ _ _ _ _ H) as S. destruct (blank_spec c S) as (peers & Ep & Sh & Pb). destruct (si_me _ _ _ _ _ _ H) as (k & i & sv & L & Ek & Em & Ei).
    destruct (located_facts c my k i S L) as (sv' & g & Ek' & _ & Et & _ & _ & _ & Nm). assert (sv' = sv) by congruence. subst sv'.
    destruct (scan_all_spec c my dep eps S (mkScan (enumerate_types c) (-1) peers 0) (eo_keys _ _ (si_eps _ _ _ _ _ _ H)) (eo_known _ _ (si_eps _ _ _ _ _ _ H)) eq_refl Sh)
      as (s & Es & Ety & Sh' & Tr & Tg & Pa). cbn [sc_types sc_trace sc_peers sc_targets] in *.
    exists s. split; [exact Ety|]. split; [exact Sh'|]. split; [exact Tr|]. split; [rewrite Tg; lia|]. split; [intros n k' i' L'; apply Pa; [exact L'|eapply Pb; exact L']|].
    assert (Fl : concat (sc_peers s) = map (fun n => expected c dep 0 eps n blank_peer) (names c))
      by (apply concat_names; [exact S|exact Sh'|intros n k' i' L'; apply Pa; [exact L'|eapply Pb; exact L']]).
    assert (Rq : requests (sc_peers s) = flat_map (fun n => request_of (expected c dep 0 eps n blank_peer)) (names c)) by (apply requests_flat; exact Fl).
    assert (W : forall X : list driver_call * pres scan, match eps with [] => ([], PErr PNoPeers) | _ => X end = X)
      by (pose proof (si_some _ _ _ _ _ _ H) as Ne; intro X; destruct eps; [congruence|reflexivity]).
    unfold connect_to_peers. rewrite W. clear W. rewrite (ids_spec c S), Ep, (si_types _ _ _ _ _ _ H). cbn [must pbind]. unfold index_or_insert. rewrite Em in Et. rewrite Et, vec_at_nat, Ek. cbn [must pbind].
    rewrite Ei, Nm. cbn [must pbind]. fold dep. rewrite Es. cbn [pbind]. rewrite Tg, Z.add_0_l, Nat2Z.id, Rq.
    rewrite (slots_spec c dep eps S (eo_keys _ _ (si_eps _ _ _ _ _ _ H)) si_known si_dep_addresses).
    rewrite (reqs_length c dep eps S (eo_keys _ _ (si_eps _ _ _ _ _ _ H)) si_known si_dep_addresses), Z.eqb_refl. cbn [negb]. unfold slots. rewrite map_length, Ety. reflexivity.
  Qed.
End Connect.

(** ** The channels *)
Definition channel_list (dep : list str) (l : list service_desc) : list (service_desc * channel_desc) :=
  flat_map (fun s => if set_mem (svc_name s) dep then map (pair s) (sv_channels s) else []) l.
Lemma channel_count_spec dep l : channel_count dep l = Z.of_nat (length (channel_list dep l)).
Proof.
  unfold channel_count. assert (G : forall n, fold_left (fun n s => if set_mem (svc_name s) dep then n + Z.of_nat (length (sv_channels s)) else n) l n = n + Z.of_nat (length (channel_list dep l))).
  { induction l as [|s l IH]; intro n; cbn [fold_left]; [cbn; lia|]. rewrite IH. unfold channel_list. cbn [flat_map]. rewrite app_length. destruct (set_mem (svc_name s) dep); [rewrite map_length; lia|cbn [length]; lia]. }
  rewrite G. lia.
Qed.
Definition call_for (eps : endpoints) (row : service_desc -> option (list peer)) (setup : list Z -> bool) (x : Z * (service_desc * channel_desc)) (d : driver_call) : Prop :=
  exists r members, row (fst (snd x)) = Some r /\ channel_members (fst (snd x)) eps r (snd (snd x)) = POk members /\ setup members = true /\
    d = CSetupChannel (ch_settings (snd (snd x))) members (fst x).
Fixpoint number (z : Z) {A} (l : list A) : list (Z * A) := match l with [] => [] | a :: r => (z, a) :: number (z + 1) r end.
Lemma number_app {A} (l1 l2 : list A) : forall z, number z (l1 ++ l2) = number z l1 ++ number (z + Z.of_nat (length l1)) l2.
Proof. induction l1 as [|a l1 IH]; intro z; cbn [number app length]; [f_equal; lia|]. rewrite IH. do 2 f_equal. f_equal. lia. Qed.
Lemma number_nth {A} (l : list A) : forall z k, nth_error (number z l) k = option_map (fun a => (z + Z.of_nat k, a)) (nth_error l k).
Proof.
  induction l as [|a l IH]; intros z [|k]; cbn [number nth_error option_map]; [reflexivity|reflexivity|do 2 f_equal; lia|]. rewrite IH. destruct (nth_error l k); cbn [option_map]; [do 2 f_equal; lia|reflexivity].
Qed.
Lemma number_length {A} (l : list A) : forall z, length (number z l) = length l.
Proof. induction l; intro z; cbn; [|rewrite IHl]; reflexivity. Qed.
Lemma Forall2_left {A B} (R : A -> B -> Prop) a b : Forall2 R a b -> forall j x, nth_error a j = Some x -> exists y, nth_error b j = Some y /\ R x y.
Proof. intro F. induction F; intros [|j] z E; cbn [nth_error] in *; try discriminate; [injection E as <-; eauto|apply IHF; exact E]. Qed.
Lemma Forall2_right {A B} (R : A -> B -> Prop) a b : Forall2 R a b -> forall j y, nth_error b j = Some y -> exists x, nth_error a j = Some x /\ R x y.
Proof. intro F. induction F; intros [|j] z E; cbn [nth_error] in *; try discriminate; [injection E as <-; eauto|apply IHF; exact E]. Qed.
Lemma Forall2_len {A B} (R : A -> B -> Prop) a b : Forall2 R a b -> length a = length b.
Proof. intro F. induction F; cbn [length]; congruence. Qed.
Lemma channels_of_spec setup s eps r l : forall msc calls e, channels_of setup s eps r msc l = (calls, e) -> forall z, e = POk z ->
  z = msc + Z.of_nat (length l) /\ Forall2 (call_for eps (fun _ => Some r) setup) (number msc (map (pair s) l)) calls.
Proof.
  induction l as [|ch l IH]; intros msc calls e Q z ->; cbn [channels_of] in Q.
  - injection Q as <- <-. cbn [length map number]. split; [lia|constructor].
  - destruct (channel_members s eps r ch) as [ms| |] eqn:Em; [|discriminate|discriminate]. destruct (setup ms) eqn:Se; [|discriminate].
    destruct (channels_of setup s eps r (msc + 1) l) as [calls' e'] eqn:E. injection Q as <- ->. destruct (IH _ _ _ E z eq_refl) as (-> & F).
    cbn [length map number]. split; [lia|]. constructor; [|exact F]. exists r, ms. auto.
Qed.
Lemma Forall2_app_intro {A B} (R : A -> B -> Prop) a b c d : Forall2 R a b -> Forall2 R c d -> Forall2 R (a ++ c) (b ++ d).
Proof. intros F G. induction F; cbn [app]; [exact G|constructor; assumption]. Qed.
Lemma Forall2_imp {A B} (R R' : A -> B -> Prop) a b : (forall x y, In x a -> R x y -> R' x y) -> Forall2 R a b -> Forall2 R' a b.
Proof. intros Q F. induction F; constructor; [apply Q; [left; reflexivity|assumption]|apply IHF; intros; apply Q; [right|]; assumption]. Qed.
Lemma all_channels_spec setup types peers dep eps l : forall msc calls e, all_channels setup types peers dep eps msc l = (calls, e) -> forall z, e = POk z ->
  z = msc + Z.of_nat (length (channel_list dep l)) /\
  Forall2 (call_for eps (fun s => vec_at peers (fst (index_or_insert (svc_name s) types))) setup) (number msc (channel_list dep l)) calls.
Proof.
  induction l as [|s l IH]; intros msc calls e Q z ->; cbn [all_channels] in Q.
  - injection Q as <- <-. cbn. split; [lia|constructor].
  - unfold channel_list. cbn [flat_map]. fold (channel_list dep l). destruct (set_mem (svc_name s) dep).
    2: { cbn [app]. apply (IH _ _ _ Q z eq_refl). }
    destruct (sv_channels s) as [|ch0 chr] eqn:Es; [cbn [map app]; apply (IH _ _ _ Q z eq_refl)|]. rewrite <- Es in *.
    destruct (vec_at peers _) as [row|] eqn:Er; [|discriminate]. destruct (channels_of setup s eps row msc (sv_channels s)) as [calls1 [m1|e1|]] eqn:E1; [|discriminate|discriminate].
    destruct (all_channels setup types peers dep eps m1 l) as [calls2 e2] eqn:E2. injection Q as <- ->.
    destruct (channels_of_spec _ _ _ _ _ _ _ _ E1 m1 eq_refl) as (-> & F1). destruct (IH _ _ _ E2 z eq_refl) as (-> & F2).
    rewrite app_length, map_length. split; [lia|]. rewrite number_app, map_length. apply Forall2_app_intro; [|exact F2].
    eapply Forall2_imp; [|exact F1]. intros [k [s' ch]] d I (r & ms & Q1 & Q2 & Q3 & Q4). cbn [fst snd] in *. injection Q1 as <-.
    assert (s' = s). { apply In_nth_error in I as (j & I). rewrite number_nth, nth_error_map in I. destruct (nth_error (sv_channels s) j); cbn in I; congruence. }
    subst s'. exists row, ms. cbn [fst snd]. auto.
Qed.

(** ** The driver *)
Lemma drive_app address l1 : forall l2 g, drive address g (l1 ++ l2) = match drive address g l1 with Some g' => drive address g' l2 | None => None end.
Proof. induction l1 as [|d l1 IH]; intros l2 g; cbn [drive app]; [reflexivity|]. destruct (driver_step address g d); [apply IH|reflexivity]. Qed.
Lemma resize_length {A} (l : list A) n d : length (resize l n d) = n.
Proof. unfold resize. rewrite app_length, firstn_length, repeat_length. lia. Qed.
Lemma firstn_vec_set {A} (l : list A) i a : (i < length l)%nat -> firstn (S i) (vec_set l (Z.of_nat i) a) = firstn i l ++ [a].
Proof.
  intro L. unfold vec_set. rewrite Nat2Z.id. rewrite firstn_app, firstn_length, Nat.min_l by lia. rewrite firstn_firstn, Nat.min_r by lia.
  replace (S i - i)%nat with 1%nat by lia. reflexivity.
Qed.
Lemma drive_connects address infos : forall i g, length (gs_stubs g) = (i + length infos)%nat -> length (gs_info g) = (i + length infos)%nat ->
  drive address g (map (fun x => CHandleConnect (snd x) (fst x)) (combine (seq i (length infos)) infos)) =
    Some (mkStubs (firstn i (gs_stubs g) ++ map (fun x => Some (add_protocol (address x))) infos) (firstn i (gs_info g) ++ infos) (gs_channels g)).
Proof.
  induction infos as [|x r IH]; intros i g L1 L2; cbn [length seq combine map drive].
  - rewrite !app_nil_r. cbn [length] in *. rewrite !firstn_all2 by lia. destruct g; reflexivity.
  - cbn [length] in *. cbn [fst snd]. unfold driver_step at 1. destruct (Nat.leb_spec (length (gs_stubs g)) i); [lia|]. rewrite IH; cbn [gs_stubs gs_info gs_channels]; [|rewrite vec_set_length; lia|rewrite vec_set_length; lia].
    rewrite !firstn_vec_set by lia. rewrite <- !app_assoc. reflexivity.
Qed.
Definition members_of (d : driver_call) : list Z := match d with CSetupChannel _ m _ => m | _ => [] end.
Definition info_at (infos : list str) (p : Z) : str := match vec_at infos p with Some x => x | None => [] end.
Lemma drive_channels address calls : forall i g, length (gs_channels g) = (i + length calls)%nat ->
  (forall k d, nth_error calls k = Some d -> exists st, d = CSetupChannel st (members_of d) (Z.of_nat (i + k)) /\ forall p, In p (members_of d) -> 0 <= p < Z.of_nat (length (gs_info g))) ->
  drive address g calls = Some (mkStubs (gs_stubs g) (gs_info g) (firstn i (gs_channels g) ++
    map (fun d => Some (add_protocol (join_addresses (map (fun p => address (info_at (gs_info g) p)) (members_of d))))) calls)).
Proof.
  induction calls as [|d r IH]; intros i g L Q; cbn [length drive map].
  - rewrite app_nil_r. cbn [length] in L. rewrite firstn_all2 by lia. destruct g; reflexivity.
  - destruct (Q 0%nat d eq_refl) as (st & Ed & Rg). rewrite Nat.add_0_r in Ed. rewrite Ed. cbn [driver_step]. cbn [length] in L.
    rewrite vec_at_nat. destruct (nth_error (gs_channels g) i) as [o|] eqn:Ei; [|apply nth_error_None in Ei; lia].
    rewrite (proj2 (forallb_forall _ _)).
    2: { intros p I. specialize (Rg p I). destruct (vec_at (gs_info g) p) eqn:Ev; [reflexivity|]. unfold vec_at in Ev. destruct (Z.ltb_spec p 0); [lia|]. apply nth_error_None in Ev. lia. }
    assert (L' : (i < length (gs_channels g))%nat) by lia.
    rewrite (IH (S i)); cbn [gs_stubs gs_info gs_channels].
    + rewrite firstn_vec_set by exact L'. rewrite <- app_assoc. cbn [app members_of]. do 2 f_equal. do 2 f_equal. do 3 f_equal. apply map_ext_in. intros p I. unfold info_at.
      specialize (Rg p I). destruct (vec_at (gs_info g) p) eqn:Ev; [reflexivity|]. unfold vec_at in Ev. destruct (Z.ltb_spec p 0); [lia|]. apply nth_error_None in Ev. lia.
    + rewrite vec_set_length by exact L'. lia.
    + intros k d' Ek. destruct (Q (S k) d' Ek) as (st' & E' & R'). exists st'. rewrite Nat.add_succ_r in E'. split; [exact E'|exact R'].
Qed.

(** ** A successful ConnectToPeers *)
(** Every instance of the services in [dep] has an endpoint. *)
Definition complete (c : config) (dep : list str) (eps : endpoints) : Prop :=
  forall n k i s, located c n k i -> nth_error (cf_services c) k = Some s -> In (svc_name s) dep -> In n (map fst eps).
Section Ok.
  Variables (answer : nat -> str -> option str) (accept : nat -> str -> bool) (setup : list Z -> bool).
  Variables (c : config) (t : tables) (me : str) (inst : Z) (my : str) (eps : endpoints).
  Hypothesis H : situation c t me inst my eps.
  Variables (calls : list driver_call) (s : scan).
  Hypothesis C : connect_to_peers answer accept setup c t me inst eps = (calls, POk s).
  Let dep := tb_dependent t.
  Lemma connect_ok : sc_types s = enumerate_types c /\ shape c (sc_peers s) /\ sc_trace s = (if set_mem my (map fst eps) then id_of c my else -1) /\
    sc_targets s = Z.of_nat (length (deps dep eps)) /\
    (forall n k i, located c n k i -> peer_at (sc_peers s) k i = Some (expected c dep 0 eps n blank_peer)) /\
    exists infos setups, length infos = length (deps dep eps) /\
      (forall j n ep, nth_error (deps dep eps) j = Some (n, ep) -> exists info, nth_error infos j = Some info /\ answer j (ep_address ep) = Some info /\ accept j info = true) /\
      calls = (CSetNumPeers (Z.of_nat (length infos)) :: map (fun x => CHandleConnect (snd x) (fst x)) (combine (seq 0 (length infos)) infos)) ++
              CSetNumChannels (Z.of_nat (length (channel_list dep (cf_services c)))) :: setups /\
      Forall2 (call_for eps (fun sv => vec_at (sc_peers s) (fst (index_or_insert (svc_name sv) (enumerate_types c)))) setup) (number 0 (channel_list dep (cf_services c))) setups.
  Proof.
    destruct (connect_spec answer accept setup c t me inst my eps H) as (s' & Ety & Sh & Tr & Tg & Pa & E). rewrite E in C. clear E. fold dep in C, Tg, Pa.
    destruct (handle_connects answer accept 0 (map (fun x => ep_address (snd x)) (deps dep eps))) as [hc ok] eqn:Eh. destruct ok; [|discriminate].
    destruct (all_channels setup (enumerate_types c) (sc_peers s') dep eps 0 (cf_services c)) as [ac e] eqn:Ea.
    destruct e as [z| |]; cbn [pbind] in C; [|discriminate|discriminate]. injection C as <- <-.
    destruct (all_channels_spec _ _ _ _ _ _ _ _ _ Ea z eq_refl) as (-> & F).
    repeat (split; [assumption|]). destruct (handle_ok _ _ _ _ _ _ Eh) as (Ok & _ & Ic). destruct (Ic eq_refl) as (infos & L & Q & ->). rewrite map_length in L.
    exists infos, ac. split; [exact L|]. split; [|split; [|exact F]].
    - intros j n ep Ej. assert (En : nth_error (map (fun x => ep_address (snd x)) (deps dep eps)) j = Some (ep_address ep)) by (rewrite nth_error_map, Ej; reflexivity).
      destruct (proj1 Ok eq_refl j _ En) as (info & A1 & A2). cbn [plus] in *. exists info. split; [|auto].
      destruct (nth_error infos j) as [info'|] eqn:Ei; [|apply nth_error_None in Ei; assert (j < length (deps dep eps))%nat by (apply nth_error_Some; congruence); lia].
      destruct (Q j info' Ei) as (a & Ea' & A3). cbn [plus] in A3. congruence.
    - rewrite map_length, channel_count_spec, L. reflexivity.
  Qed.
  Lemma row_of k sv : nth_error (cf_services c) k = Some sv -> vec_at (sc_peers s) (fst (index_or_insert (svc_name sv) (enumerate_types c))) = nth_error (sc_peers s) k.
  Proof.
    intro E. pose proof (sa_distinct _ (si_sane _ _ _ _ _ _ H)) as D. unfold index_or_insert, enumerate_types.
    rewrite (enumerate_index (map svc_name (cf_services c)) k (svc_name sv) D) by (rewrite nth_error_map, E; reflexivity). cbn [fst]. apply vec_at_nat.
  Qed.
  Lemma channel_list_In dep' l sv ch : In (sv, ch) (channel_list dep' l) -> In sv l /\ In (svc_name sv) dep' /\ In ch (sv_channels sv).
  Proof.
    unfold channel_list. rewrite in_flat_map. intros (x & I & Q). destruct (set_mem (svc_name x) dep') eqn:M; [|destruct Q]. apply in_map_iff in Q as (y & Q & J).
    injection Q as -> ->. apply set_mem_spec in M. auto.
  Qed.
  (** Instance [i] of the service belongs to the channel. *)
  Definition member (sv : service_desc) (ch : channel_desc) (i : Z) (n : str) : Prop :=
    0 <= i < svc_count sv /\ instance_name (sv_spec sv) i = Some n /\
    (In i (ch_selected ch) \/ exists cl ep, ch_constraints ch = Some cl /\ map_find n eps = Some ep /\ satisfies cl (ep_attributes ep)).
  Lemma instance_name_total k sv i : nth_error (cf_services c) k = Some sv -> 0 <= i < svc_count sv -> exists n, instance_name (sv_spec sv) i = Some n /\ located c n k (Z.to_nat i).
  Proof.
    intros E R. destruct (sane_nth c k sv (si_sane _ _ _ _ _ _ H) E) as (Cn & Ns).
    destruct (name_parses (sv_spec sv) i (canonical_dims _ Cn) Ns) as (n & g & A & _). exists n. split; [exact A|]. exists sv. rewrite Z2Nat.id by lia. split; [exact E|]. split; [lia|exact A].
  Qed.
  Lemma members_spec k sv row ch ms : nth_error (cf_services c) k = Some sv -> nth_error (sc_peers s) k = Some row -> channel_members sv eps row ch = POk ms ->
    increasing_ids ms /\ ms <> [] /\ forall z, In z ms <-> exists i n p, member sv ch i n /\ nth_error row (Z.to_nat i) = Some p /\ pe_pd p = z.
  Proof.
    intros E Er Q. unfold channel_members in Q. apply pbind_ok in Q as (a & Qa & Q). apply pbind_ok in Q as (b & Qb & Q).
    assert (Em : ms = sorted_unique (a ++ b) /\ ms <> []) by (destruct (sorted_unique (a ++ b)); [discriminate|]; injection Q as <-; split; [reflexivity|discriminate]).
    destruct Em as [-> Ne]. split; [apply sorted_unique_sorted|]. split; [exact Ne|]. intro z. rewrite sorted_unique_In, in_app_iff, (selected_spec _ _ _ _ Qa z). split.
    - intros [(i & p & I & V & Z)|Ib].
      + pose proof (selected_range _ _ _ _ Qa i I) as R. destruct (instance_name_total k sv i E R) as (n & Nm & _). exists i, n, p. split; [split; [exact R|split; [exact Nm|left; exact I]]|].
        split; [|exact Z]. unfold vec_at in V. destruct (Z.ltb_spec i 0); [lia|exact V].
      + destruct (ch_constraints ch) as [cl|] eqn:Ec; [|injection Qb as <-; destruct Ib]. apply (constraint_spec _ _ _ _ _ _ Qb z) in Ib as (i & n & ep & p & I & Nm & Me & Sa & V & Z).
        apply zseq_In in I. exists i, n, p. split; [split; [lia|split; [exact Nm|right; exists cl, ep; auto]]|]. split; [|exact Z]. unfold vec_at in V. destruct (Z.ltb_spec i 0); [lia|exact V].
    - intros (i & n & p & (R & Nm & W) & V & Z). assert (V' : vec_at row i = Some p) by (unfold vec_at; destruct (Z.ltb_spec i 0); [lia|exact V]).
      destruct W as [I|(cl & ep & Ec & Me & Sa)]; [left; exists i, p; auto|right]. rewrite Ec in Qb. apply (constraint_spec _ _ _ _ _ _ Qb z). exists i, n, ep, p. split; [apply zseq_In; lia|auto].
  Qed.
  Lemma pd_range n k i sv : complete c dep eps -> located c n k i -> nth_error (cf_services c) k = Some sv -> In (svc_name sv) dep ->
    exists j ep, nth_error (deps dep eps) j = Some (n, ep) /\ map_find n eps = Some ep /\ peer_at (sc_peers s) k i = Some (mkPeer n (Some (id_of c n)) (ep_address ep) (Z.of_nat j)).
  Proof.
    intros Co L E D. destruct connect_ok as (_ & _ & _ & _ & Pa & _). pose proof (proj2 (is_dep_iff c dep n k i sv (si_sane _ _ _ _ _ _ H) L E) D) as Dn.
    destruct (deps_named dep eps n Dn (Co n k i sv L E D)) as (j & ep & Ej). exists j, ep. split; [exact Ej|]. pose proof (eo_keys _ _ (si_eps _ _ _ _ _ _ H)) as K.
    split; [apply (map_find_iff n ep _ K); exact (proj2 (deps_is_dep _ _ _ _ _ Ej))|].
    rewrite (Pa n k i L). f_equal. rewrite (expected_dep c dep eps n K Dn 0 j ep Ej). rewrite Z.add_0_l. reflexivity.
  Qed.
  Lemma drive_ok address g : complete c dep eps -> exists infos setups g', drive address g calls = Some g' /\
      gs_stubs g' = map (fun x => Some (add_protocol (address x))) infos /\ length infos = length (deps dep eps) /\
      (forall j n ep, nth_error (deps dep eps) j = Some (n, ep) -> exists info, nth_error infos j = Some info /\ answer j (ep_address ep) = Some info /\ accept j info = true) /\
      Forall2 (call_for eps (fun sv => vec_at (sc_peers s) (fst (index_or_insert (svc_name sv) (enumerate_types c)))) setup) (number 0 (channel_list dep (cf_services c))) setups /\
      gs_channels g' = map (fun d => Some (add_protocol (join_addresses (map (fun p => address (info_at infos p)) (members_of d))))) setups.
  Proof.
    intro Co. destruct connect_ok as (Ety & Sh & Tr & Tg & Pa & infos & setups & L & Q & Ec & F). exists infos, setups. rewrite Ec, drive_app. cbn [drive driver_step].
    destruct (Z.ltb_spec (Z.of_nat (length infos)) 0); [lia|]. rewrite Nat2Z.id.
    rewrite drive_connects by (cbn [gs_stubs gs_info]; rewrite resize_length; reflexivity). cbn [gs_stubs gs_info gs_channels firstn app drive driver_step].
    destruct (Z.ltb_spec (Z.of_nat (length (channel_list dep (cf_services c)))) 0); [lia|]. rewrite Nat2Z.id. cbn [gs_stubs gs_info gs_channels].
    assert (Ls : length setups = length (channel_list dep (cf_services c))).
    { rewrite <- (Forall2_len _ _ _ F). apply number_length. }
    rewrite (drive_channels address setups 0); cbn [gs_stubs gs_info gs_channels].
    - eexists. split; [reflexivity|]. cbn [gs_stubs gs_channels firstn app]. auto.
    - rewrite resize_length. exact (eq_sym Ls).
    - intros k d Ek. assert (Kx : exists x, nth_error (number 0 (channel_list dep (cf_services c))) k = Some x /\ call_for eps (fun sv => vec_at (sc_peers s) (fst (index_or_insert (svc_name sv) (enumerate_types c)))) setup x d).
      { exact (Forall2_right _ _ _ F k d Ek). }
      destruct Kx as (x & Ex & r & ms & R1 & R2 & R3 & ->). rewrite number_nth in Ex. destruct (nth_error (channel_list dep (cf_services c)) k) as [[sv ch]|] eqn:En; [|discriminate].
      cbn [option_map] in Ex. injection Ex as <-. cbn [fst snd members_of] in *. exists (ch_settings ch). split; [f_equal; lia|].
      intros p I. apply nth_error_In, channel_list_In in En as (Isv & Idep & _). apply In_nth_error in Isv as (ks & Eks). rewrite (row_of ks sv Eks) in R1.
      destruct (members_spec ks sv r ch ms Eks R1 R2) as (_ & _ & M). apply M in I as (i & n & pe & (Ri & Nm & _) & V & <-).
      destruct (instance_name_total ks sv i Eks Ri) as (n' & Nm' & Lo). assert (n' = n) by congruence. subst n'.
      destruct (pd_range n ks (Z.to_nat i) sv Co Lo Eks Idep) as (j & ep & Ej & _ & Pe). unfold peer_at in Pe. rewrite R1, V in Pe. injection Pe as ->. cbn [pe_pd].
      assert (j < length (deps dep eps))%nat by (apply nth_error_Some; congruence). lia.
  Qed.
End Ok.

(** ** When the channels are accepted *)
Lemma selected_total sv row l : Z.of_nat (length row) = svc_count sv -> (forall i, In i l -> 0 <= i < svc_count sv) -> exists ps, selected_members sv row l = POk ps.
Proof.
  intros L. induction l as [|i l IH]; intro R; cbn [selected_members]; [eauto|]. pose proof (R i (or_introl eq_refl)) as Ri. destruct (Z.leb_spec (svc_count sv) i); [lia|].
  unfold vec_at. destruct (Z.ltb_spec i 0); [lia|]. destruct (nth_error row (Z.to_nat i)) as [p|] eqn:E; [|apply nth_error_None in E; lia].
  cbn [must pbind]. destruct IH as (ps & ->); [intros j J; apply R; right; exact J|]. cbn [pbind]. eauto.
Qed.
Lemma constraint_total sv cl eps row l : moduli_ok cl -> Z.of_nat (length row) = svc_count sv ->
  (forall i, In i l -> 0 <= i < svc_count sv /\ exists n ep, instance_name (sv_spec sv) i = Some n /\ map_find n eps = Some ep) -> exists ps, constraint_members sv cl eps row l = POk ps.
Proof.
  intros M L. induction l as [|i l IH]; intro R; cbn [constraint_members]; [eauto|]. destruct (R i (or_introl eq_refl)) as (Ri & n & ep & Nm & Me). rewrite Nm. cbn [must pbind]. rewrite Me. cbn [must pbind].
  destruct (check_list_spec cl (ep_attributes ep) M) as (b & -> & _). cbn [must pbind]. unfold vec_at. destruct (Z.ltb_spec i 0); [lia|].
  destruct (nth_error row (Z.to_nat i)) as [p|] eqn:E; [|apply nth_error_None in E; lia]. cbn [must pbind]. destruct IH as (ps & ->); [intros j J; apply R; right; exact J|]. cbn [pbind]. eauto.
Qed.
Lemma channels_of_total setup sv eps row l : (forall ch, In ch l -> exists ms, channel_members sv eps row ch = POk ms /\ setup ms = true) ->
  forall msc, exists calls z, channels_of setup sv eps row msc l = (calls, POk z).
Proof.
  induction l as [|ch l IH]; intros Q msc; cbn [channels_of]; [eauto|]. destruct (Q ch (or_introl eq_refl)) as (ms & -> & ->).
  destruct (IH (fun c I => Q c (or_intror I)) (msc + 1)) as (calls & z & ->). eauto.
Qed.
Lemma all_channels_total setup types peers dep eps l :
  (forall sv ch, In (sv, ch) (channel_list dep l) -> exists row ms, vec_at peers (fst (index_or_insert (svc_name sv) types)) = Some row /\ channel_members sv eps row ch = POk ms /\ setup ms = true) ->
  forall msc, exists calls z, all_channels setup types peers dep eps msc l = (calls, POk z).
Proof.
  induction l as [|sv l IH]; intros Q msc; cbn [all_channels]; [eauto|]. unfold channel_list in Q. cbn [flat_map] in Q. fold (channel_list dep l) in Q.
  assert (Q' : forall sv' ch, In (sv', ch) (channel_list dep l) -> exists row ms, vec_at peers (fst (index_or_insert (svc_name sv') types)) = Some row /\ channel_members sv' eps row ch = POk ms /\ setup ms = true)
    by (intros; apply Q; apply in_or_app; right; assumption).
  destruct (set_mem (svc_name sv) dep); [|apply IH; exact Q']. destruct (sv_channels sv) as [|ch0 chr] eqn:Es; [apply IH; exact Q'|]. rewrite <- Es in *.
  destruct (Q sv ch0) as (row & _ & Er & _); [apply in_or_app; left; rewrite Es; left; reflexivity|]. rewrite Er.
  destruct (channels_of_total setup sv eps row (sv_channels sv)) with (msc := msc) as (calls & z & ->).
  { intros ch I. destruct (Q sv ch) as (row' & ms & Er' & R); [apply in_or_app; left; apply in_map; exact I|]. assert (row' = row) by congruence. subst row'. eauto. }
  destruct (IH Q' z) as (calls' & z' & ->). eauto.
Qed.
Lemma channel_list_split dep l1 sv l2 j ch : In (svc_name sv) dep -> (forall s, In s l1 -> In (svc_name s) dep -> sv_channels s = []) -> nth_error (sv_channels sv) j = Some ch ->
  nth_error (channel_list dep (l1 ++ sv :: l2)) j = Some (sv, ch).
Proof.
  intros D E N. unfold channel_list. rewrite flat_map_app. assert (Z0 : flat_map (fun s => if set_mem (svc_name s) dep then map (pair s) (sv_channels s) else []) l1 = []).
  { induction l1 as [|s l1 IH]; [reflexivity|]. cbn [flat_map]. rewrite IH by (intros; apply E; [right|]; assumption). destruct (set_mem (svc_name s) dep) eqn:M; [|reflexivity].
    apply set_mem_spec in M. rewrite (E s (or_introl eq_refl) M). reflexivity. }
  rewrite Z0. cbn [app flat_map]. rewrite (proj2 (set_mem_spec _ _) D). rewrite nth_error_app1 by (rewrite map_length; apply nth_error_Some; congruence). rewrite nth_error_map, N. reflexivity.
Qed.
