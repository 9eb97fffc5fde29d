(** What the configuration prescribes for the order, the iterations and the
    clients of the actions of a list. *)
From Coq Require Import Ascii String List NArith ZArith QArith Bool Arith Lia Permutation.
From Verif Require Import Base_Model Base_Proofs Grid_Model Grid_Proofs Place_Model Util_Model Net_Model Fanout_Model Table_Model Table_Proofs Table_Proofs2 Table_Props Cli_Model.
From Verif Require Seq_Model Sync_Model Rpc_Model Rpc_Proofs.
From Verif Require Import Seq_Proofs Node_Model Node_Proofs Node_Props Cluster_Model Cluster_Proofs Cluster_Props.
From Verif Require Import Iter_Model Iter_Proofs Iter_Proofs2 Iter_Props AList_Model AList_Proofs AList_Proofs2 AList_Props.
From Verif Require Import Peer_Model Peer_Proofs Peer_Props Deliver_Model Deliver_Proofs Deliver_Props.
From Verif Require Import Work_Model Work_Proofs Work_Proofs2 Work_Proofs4.
Import ListNotations.
Open Scope Z_scope.

(** ** The spec *)
(** The [i]-th action of the list; of several actions of one name, the last. *)
Definition action_at (c : config) (d : list_d) (i : nat) (a : action_d) : Prop :=
  exists l1 l2, nth_error (li_actions d) i = Some (an_name a) /\ cf_actions c = l1 ++ a :: l2 /\ ~ In (an_name a) (map an_name l2).
(** The last position of the list with that action. *)
Definition position (d : list_d) (m : str) (j : nat) : Prop := nth_error (li_actions d) j = Some m /\ forall j', nth_error (li_actions d) j' = Some m -> (j' <= j)%nat.
Definition waits_for (d : list_d) (a : action_d) (j : nat) : Prop := exists m, In m (an_deps a) /\ position d m j.
(** An action that does nothing else overrides a payload. *)
Definition none_idle (c : config) : Prop := forall a, In a (cf_actions c) -> an_kind a = KNop -> an_response a <> None.
Definition open_loop (x : run_options) : option Z := if ro_iterations x then ro_interval x else None.
(** The instance [n] may call the RPC. *)
Definition client_of (c : config) (n : str) (rp : rpc_desc) : Prop := exists k i sv, located c n k i /\ nth_error (cf_services c) k = Some sv /\ In (svc_name sv) (rp_clients rp).

Lemma action_at_fun c d i a a' : action_at c d i a -> action_at c d i a' -> a = a'.
Proof.
  intros (l1 & l2 & N & E & L) (l1' & l2' & N' & E' & L'). assert (Q : an_name a' = an_name a) by congruence. rewrite Q in L'.
  assert (F : forall u v b, cf_actions c = u ++ b :: v -> an_name b = an_name a -> ~ In (an_name a) (map an_name v) -> find (fun x => str_eqb (an_name x) (an_name a)) (rev (cf_actions c)) = Some b).
  { intros u v b Eb Nb Lb. rewrite Eb, rev_app_distr. cbn [rev]. rewrite <- app_assoc. assert (G : forall y z, (forall x, In x y -> an_name x <> an_name a) -> find (fun x => str_eqb (an_name x) (an_name a)) (y ++ z) = find (fun x => str_eqb (an_name x) (an_name a)) z).
    { intros y z H. induction y as [|x y IH]; [reflexivity|]. cbn [app find]. destruct (str_eqb_spec (an_name x) (an_name a)) as [K|]; [destruct (H x (or_introl eq_refl) K)|]. apply IH. intros; apply H; right; assumption. }
    rewrite G; [|intros x I K; apply Lb; rewrite <- K; apply in_map, in_rev; exact I]. cbn [app find]. destruct (str_eqb_spec (an_name b) (an_name a)); [reflexivity|congruence]. }
  pose proof (F _ _ _ E eq_refl L) as A. pose proof (F _ _ _ E' Q L') as B. congruence.
Qed.
Lemma position_fun d m j j' : position d m j -> position d m j' -> j = j'.
Proof. intros (A & B) (A' & B'). pose proof (B _ A'). pose proof (B' _ A). lia. Qed.
Lemma position_last d m z y : last_named (fun x => x) (li_actions d) m z y -> position d m (Z.to_nat z).
Proof.
  intros ((P & E) & N & L). subst y. split; [exact E|]. intros j' E'. destruct (le_lt_dec j' (Z.to_nat z)) as [H|H]; [exact H|]. exfalso.
  exact (L j' m H E' eq_refl).
Qed.

Section Test.
  Variables (fnm : str -> str -> bool) (r : Seq_Model.registry) (nes : Z -> node_env) (ev : environment) (t : whole) (w : world) (active : list Z) (res : test_result) (ws : worlds).
  Variables (o : outside) (opts : str -> run_options).
  Notation c := (config_of t).
  Hypothesis Rn : ran fnm r nes ev t w active res ws.
  Hypothesis Dr : NoDup (map rp_name (cf_rpcs c)).
  Variables (id : Z) (n : str) (e : engine) (rd : ready) (k : Z) (tl : table_list) (d : list_d).
  Hypothesis Ra : ready_at o r t res ws id n e rd.
  Hypothesis V : vec_at (tb_lists (rd_tables rd)) k = Some tl.
  Hypothesis Ed : nth_error (cf_lists c) (Z.to_nat k) = Some d.
  Notation acts := (map (fun a => list_action rd (opts (an_name (en_action a))) a) (tl_entries tl)).

  Lemma entries i a : nth_error (tl_entries tl) i = Some a -> exists nm, nth_error (li_actions d) i = Some nm /\ entry_ok c (tb_activities (rd_tables rd)) d i nm a.
  Proof.
    destruct (situation_of_test _ _ _ _ _ _ _ _ _ _ _ _ _ _ Rn Dr Ra) as (eps & k0 & i0 & s0 & _ & H & P & _).
    destruct (prepared _ _ _ _ _ _ _ _ _ _ _ _ _ _ H P) as (cs & T & _). pose proof (es_sane _ _ _ _ _ _ _ _ _ H) as Sn.
    pose proof (C52_actions _ _ _ _ T (sa_distinct _ Sn) Dr) as F. unfold vec_at in V. destruct (k <? 0) eqn:Ng; [discriminate|].
    destruct (Forall2_right _ _ _ F _ _ V) as (d' & Ed' & _ & Le & En & _). assert (d' = d) by congruence. subst d'. intro Ej.
    destruct (nth_error (li_actions d) i) as [nm|] eqn:Q; [|apply nth_error_None in Q; assert (nth_error (tl_entries tl) i <> None) as B by congruence; apply nth_error_Some in B; lia].
    destruct (En i nm Q) as (a' & E' & Eo). assert (a' = a) by congruence. subst a'. eauto.
  Qed.
  Lemma entry_of i nm : nth_error (li_actions d) i = Some nm -> exists a, nth_error (tl_entries tl) i = Some a.
  Proof.
    destruct (situation_of_test _ _ _ _ _ _ _ _ _ _ _ _ _ _ Rn Dr Ra) as (eps & k0 & i0 & s0 & _ & H & P & _).
    destruct (prepared _ _ _ _ _ _ _ _ _ _ _ _ _ _ H P) as (cs & T & _). pose proof (es_sane _ _ _ _ _ _ _ _ _ H) as Sn.
    pose proof (C52_actions _ _ _ _ T (sa_distinct _ Sn) Dr) as F. unfold vec_at in V. destruct (k <? 0) eqn:Ng; [discriminate|].
    destruct (Forall2_right _ _ _ F _ _ V) as (d' & Ed' & _ & Le & En & _). assert (d' = d) by congruence. subst d'. intro Ej. destruct (En i nm Ej) as (a' & E' & Eo). eauto.
  Qed.
  Lemma at_entry i a nm : nth_error (tl_entries tl) i = Some a -> nth_error (li_actions d) i = Some nm -> entry_ok c (tb_activities (rd_tables rd)) d i nm a -> action_at c d i (en_action a).
  Proof. intros Ea En Eo. destruct (eo_action _ _ _ _ _ _ Eo) as (l1 & l2 & El & N & L). exists l1, l2. rewrite N. auto. Qed.
  (** The action list as RunActionList reads it, by the configuration. *)
  Lemma list_at i b : nth_error acts i = Some b -> exists a, nth_error (tl_entries tl) i = Some a /\ action_at c d i (en_action a) /\ b = list_action rd (opts (an_name (en_action a))) a /\
    entry_ok c (tb_activities (rd_tables rd)) d i (an_name (en_action a)) a.
  Proof.
    intro Eb. rewrite nth_error_map in Eb. destruct (nth_error (tl_entries tl) i) as [a|] eqn:Ea; [|discriminate]. injection Eb as <-. destruct (entries i a Ea) as (nm & En & Eo).
    exists a. split; [reflexivity|]. split; [exact (at_entry _ _ _ Ea En Eo)|]. split; [reflexivity|]. destruct (eo_action _ _ _ _ _ _ Eo) as (l1 & l2 & El & N & L). rewrite N. exact Eo.
  Qed.
  Lemma at_list i a : action_at c d i a -> exists b, nth_error (tl_entries tl) i = Some b /\ en_action b = a /\ nth_error acts i = Some (list_action rd (opts (an_name a)) b) /\
    entry_ok c (tb_activities (rd_tables rd)) d i (an_name a) b.
  Proof.
    intro A. pose proof A as (l1 & l2 & N & El & L). destruct (entry_of i _ N) as (b & Eb). destruct (entries i b Eb) as (nm & En & Eo). pose proof (at_entry _ _ _ Eb En Eo) as A'.
    pose proof (action_at_fun _ _ _ _ _ A A') as Q. exists b. split; [exact Eb|]. split; [congruence|]. split; [rewrite nth_error_map, Eb; cbn [option_map]; rewrite <- Q; reflexivity|]. assert (nm = an_name a) by congruence. subst nm. exact Eo.
  Qed.
  Lemma deps_at i a : nth_error (tl_entries tl) i = Some a -> action_at c d i (en_action a) -> entry_ok c (tb_activities (rd_tables rd)) d i (an_name (en_action a)) a ->
    (forall j, In j (map Z.to_nat (en_deps a)) <-> waits_for d (en_action a) j) /\ forall m, In m (an_deps (en_action a)) -> exists j, (j < i)%nat /\ position d m j.
  Proof.
    intros Ea At Eo. pose proof (eo_deps _ _ _ _ _ _ Eo) as F.
    assert (G : forall m, In m (an_deps (en_action a)) -> exists z, In z (en_deps a) /\ position d m (Z.to_nat z) /\ (Z.to_nat z < i)%nat).
    { intros m I. apply In_nth_error in I as (p & Ep). destruct (Forall2_left _ _ _ F p m Ep) as (z & Ez & La & Lt). exists z. split; [exact (nth_error_In _ _ Ez)|]. split; [exact (position_last _ _ _ _ La)|]. destruct La as ((P & _) & _). lia. }
    split.
    - intro j. split.
      + intro I. apply in_map_iff in I as (z & <- & I). apply In_nth_error in I as (p & Ep). destruct (Forall2_right _ _ _ F p z Ep) as (m & Em & La & _). exists m. split; [exact (nth_error_In _ _ Em)|exact (position_last _ _ _ _ La)].
      + intros (m & I & P). destruct (G m I) as (z & Iz & Pz & _). rewrite (position_fun _ _ _ _ P Pz). apply in_map, Iz.
    - intros m I. destruct (G m I) as (z & _ & Pz & Lt). eauto.
  Qed.
  Lemma delay_at i nm a : entry_ok c (tb_activities (rd_tables rd)) d i nm a -> negb (en_delay a =? -1) = true <-> an_delay (en_action a) <> None.
  Proof.
    intro Eo. pose proof (eo_delay _ _ _ _ _ _ Eo) as H. destruct (an_delay (en_action a)) as [m|].
    - destruct H as (x & (P & _) & _). split; [discriminate|]. intros _. destruct (Z.eqb_spec (en_delay a) (-1)); [lia|reflexivity].
    - rewrite H. cbn. split; [discriminate|congruence].
  Qed.
  Lemma override_at i nm a : entry_ok c (tb_activities (rd_tables rd)) d i nm a -> an_kind (en_action a) = KNop -> an_response (en_action a) <> None -> 0 <= en_response a.
  Proof.
    intros Eo K R. pose proof (eo_response _ _ _ _ _ _ Eo) as Er. destruct (an_response (en_action a)) as [m|]; [|congruence].
    destruct Er as ([(p & y & _ & _ & _ & (z & (Pz & _) & _))|(Q & _)] & Ne); [exact Pz|congruence].
  Qed.
  Lemma lists_ok : none_idle c -> list_ok acts.
  Proof.
    intros Ni i b Eb. destruct (list_at i b Eb) as (a & Ea & At & -> & Eo). split.
    - intros j J. cbn [list_action aa_deps] in J. apply (proj1 (deps_at i a Ea At Eo)) in J as (m & I & P). destruct (proj2 (deps_at i a Ea At Eo) m I) as (j' & Lt & P'). rewrite (position_fun _ _ _ _ P P'), map_length.
      assert (i < length (tl_entries tl))%nat by (apply nth_error_Some; congruence). lia.
    - cbn [list_action aa_fatal]. destruct (an_kind (en_action a)) eqn:Kk; try reflexivity. cbn [is_nop andb]. apply Z.ltb_ge. apply (override_at i _ a Eo Kk). destruct At as (l1 & l2 & _ & El & _). apply Ni; [rewrite El; apply in_elt|exact Kk].
  Qed.
  (** An action is given up exactly if the instance is no client of the RPC. *)
  Lemma given_up_at i a : nth_error (tl_entries tl) i = Some a ->
    given_up rd a = true <-> exists m rp, an_kind (en_action a) = KRpc m /\ In rp (cf_rpcs c) /\ rp_name rp = m /\ ~ client_of c n rp.
  Proof.
    intro Ea. destruct (situation_of_test _ _ _ _ _ _ _ _ _ _ _ _ _ _ Rn Dr Ra) as (eps & k0 & i0 & s0 & _ & H & P & _).
    assert (Il : In tl (tb_lists (rd_tables rd))) by (unfold vec_at in V; destruct (k <? 0); [discriminate|exact (nth_error_In _ _ V)]).
    unfold given_up. destruct (an_kind (en_action a)) as [m|l|q|l|] eqn:Kk.
    all: try (split; [discriminate|intros (? & ? & Q & _); discriminate]).
    destruct (entry_row _ _ _ _ _ _ _ _ _ _ _ _ _ _ H P tl a m Il (nth_error_In _ _ Ea) Kk) as (rp & b & k' & sv' & (_ & At) & Nm & Eb & Ek & Sn & Es & Ds & Al & _).
    rewrite Eb, Es. destruct (row_at _ _ _ _ _ _ _ _ _ _ _ _ _ _ H P k' sv' Ek) as (row & Er & Lr).
    assert (Vr : vec_at (sc_peers (rd_scan rd)) (Z.of_nat k') = Some row) by (unfold vec_at; destruct (Z.ltb_spec (Z.of_nat k') 0); [lia|]; rewrite Nat2Z.id; exact Er).
    rewrite Vr. assert (Ne : row <> []).
    { destruct (sane_nth c k' sv' (es_sane _ _ _ _ _ _ _ _ _ H) Ek) as (Cn & _). pose proof (count_pos _ Cn) as Cp. intros ->. unfold svc_count in Lr. cbn in Lr. lia. }
    replace (match row with [] => true | _ => false end) with false by (destruct row; [congruence|reflexivity]). rewrite orb_false_r, negb_true_iff.
    assert (Cl : client_of c n rp <-> In (en_type e) (rp_clients rp)).
    { split.
      - intros (k1 & i1 & sv1 & L1 & E1 & I1). destruct (located_fun _ _ _ _ _ _ (es_sane _ _ _ _ _ _ _ _ _ H) L1 (es_located _ _ _ _ _ _ _ _ _ H)) as (-> & ->).
        pose proof (es_service _ _ _ _ _ _ _ _ _ H). pose proof (es_type _ _ _ _ _ _ _ _ _ H). congruence.
      - intro I. exists k0, i0, s0. split; [exact (es_located _ _ _ _ _ _ _ _ _ H)|]. split; [exact (es_service _ _ _ _ _ _ _ _ _ H)|]. rewrite (es_type _ _ _ _ _ _ _ _ _ H). exact I. }
    split.
    - intro F. exists m, rp. split; [reflexivity|]. split; [exact (nth_error_In _ _ At)|]. split; [exact Nm|]. intro Q. apply Cl, Al in Q. congruence.
    - intros (m' & rp' & Q & Ir & Nr & Nc). injection Q as <-. assert (rp' = rp) by (apply (named_once rp_name (cf_rpcs c)); [exact Dr|exact Ir|exact (nth_error_In _ _ At)|congruence]). subst rp'.
      destruct (de_allowed (cr_def b)); [destruct Nc; apply Cl, Al; reflexivity|reflexivity].
  Qed.
End Test.
