(** The RPCs and the lists of one action. *)
From Coq Require Import Ascii String List NArith ZArith QArith Bool Arith Lia Permutation.
From Verif Require Import Base_Model Base_Proofs Grid_Model Grid_Proofs Place_Model Util_Model Net_Model Fanout_Model Table_Model Table_Proofs Table_Proofs2 Table_Props Cli_Model.
From Verif Require Seq_Model Sync_Model Rpc_Model Rpc_Proofs.
From Verif Require Import Seq_Proofs Node_Model Node_Proofs Node_Props Cluster_Model Cluster_Proofs Cluster_Props.
From Verif Require Import Iter_Model Iter_Proofs Iter_Props AList_Model AList_Proofs.
From Verif Require Import Peer_Model Peer_Proofs Peer_Props Deliver_Model Deliver_Proofs Deliver_Props.
From Verif Require Import Log_Model Sum_Model Sum_Proofs Sum_Proofs2 Report_Model Report_Proofs Report_Proofs2 Report_Props.
From Verif Require Import Work_Model Work_Proofs Work_Proofs2 Work_Proofs3.
Import ListNotations.
Open Scope Z_scope.

(** Options under which iterations are counted at all (C26). *)
Definition options_ok (x : run_options) : Prop :=
  1 <= times x /\ (ic_period (iterations_of x 0 false) = None -> 1 <= Z.min (ro_parallel x) (times x) <= int32_max).
(** The fan-outs that C75 covers. *)
Definition fanouts_ok (o : outside) (r : Seq_Model.registry) (t : whole) (ws : worlds) : Prop :=
  forall rp, In rp (cf_rpcs (config_of t)) -> rp_channel rp = None /\
    exists f, parse_filter (ou_stochastic o) (match rp_fanout rp with Some x => x | None => s_ "all" end) = Some f /\
      forall id n e sv, occupied r id -> engine_at (wo_introduced ws) id n e -> In (en_type e) (rp_clients rp) -> In sv (cf_services (config_of t)) -> svc_name sv = rp_server rp ->
        fits f (en_index e) (sv_spec sv).
(** An RPC without a fan-out filter, or with one that is called "all". *)
Definition to_all (rp : rpc_desc) : Prop := match rp_fanout rp with Some x => x = s_ "all" | None => True end.

Lemma count_nth {A B} (p : A -> bool) (q : B -> bool) : forall l l', length l = length l' ->
  (forall i a b, nth_error l i = Some a -> nth_error l' i = Some b -> p a = q b) -> count p l = count q l'.
Proof.
  intros l l' L H. rewrite !count_sum. assert (G : at_most True (zsum (map (fun x => Work_Proofs3.b2z (p x)) l)) (zsum (map (fun x => Work_Proofs3.b2z (q x)) l'))).
  { apply am_sum_nth; [exact L|]. intros i a b E E'. rewrite (H i a b E E'). apply am_refl. }
  exact (proj2 G Logic.I).
Qed.
Lemma count_one v l : NoDup l -> count (fun x => x =? v) l <= 1 /\ (In v l -> count (fun x => x =? v) l = 1).
Proof.
  induction l as [|x l IH]; intro D; [split; [unfold count, len; cbn; lia|intros []]|]. apply NoDup_cons_iff in D as (N & D). destruct (IH D) as (A & B).
  change (x :: l) with ([x] ++ l). rewrite count_app. unfold count at 1 3. cbn [filter]. destruct (Z.eqb_spec x v) as [->|M].
  - assert (Q : count (fun x => x =? v) l = 0) by (apply count_false; intros y I; apply Z.eqb_neq; congruence). rewrite Q. unfold len. cbn [length]. split; [lia|lia].
  - unfold len at 1 2. cbn [length]. split; [lia|]. intros [E|I]; [congruence|]. rewrite B by exact I. lia.
Qed.

Section Test.
  Variables (fnm : str -> str -> bool) (r : Seq_Model.registry) (nes : Z -> node_env) (ev : environment) (t : whole) (w : world) (active : list Z) (res : test_result) (ws : worlds).
  Variables (o : outside) (info : Z -> str -> engine -> str) (opts : str -> run_options).
  Notation c := (config_of t).
  Hypothesis Rn : ran fnm r nes ev t w active res ws.
  Hypothesis Dr : NoDup (map rp_name (cf_rpcs c)).
  Hypothesis Sz : Z.of_nat (length (cf_rpcs c)) <= int32_max.
  Hypothesis Nw : network o r nes ws info.
  Hypothesis Ap : apart o r ws info.
  Hypothesis Fa : fanouts_ok o r t ws.

  Lemma Sa : sane c.
  Proof. destruct Rn as (St & _). exact (pl_sane t (se_test _ _ _ _ _ St)). Qed.
  Lemma In_instances s n : In s (cf_services c) -> (In n (instances s) <-> exists v, 0 <= v < svc_count s /\ instance_name (sv_spec s) v = Some n).
  Proof.
    intro I. unfold instances, service_names.
    assert (So : forall (l : list (option str)), In n (somes l) <-> In (Some n) l).
    { induction l as [|[a|] l IH]; cbn [somes In]; [tauto| |]; rewrite IH; split; intros [H|H] || intro H; auto; try (left; congruence); try (right; assumption); try congruence. }
    rewrite So, in_map_iff. unfold zseq. split.
    - intros (v & E & J). apply in_map_iff in J as (q & <- & J). apply in_seq in J. exists (Z.of_nat q). split; [|exact E]. change (svc_count s) with (get_count (sv_spec s)). lia.
    - intros (v & V & E). exists v. split; [exact E|]. apply in_map_iff. exists (Z.to_nat v). rewrite Z2Nat.id by lia. split; [reflexivity|]. apply in_seq. change (svc_count s) with (get_count (sv_spec s)) in V. lia.
  Qed.
  Lemma serves_spec n z rp sv : nth_error (cf_rpcs c) z = Some rp -> In sv (cf_services c) -> svc_name sv = rp_server rp ->
    (serves c n z = true <-> exists v, 0 <= v < svc_count sv /\ instance_name (sv_spec sv) v = Some n).
  Proof.
    intros E I N. unfold serves. rewrite E, existsb_exists. rewrite <- (In_instances sv n I). split.
    - intros (s & J & Q). apply andb_prop in Q as (Q1 & Q2). destruct (str_eqb_spec (svc_name s) (rp_server rp)) as [M|]; [|discriminate].
      assert (s = sv) by (apply (service_fun c); [exact (sa_distinct _ Sa)|assumption|assumption|congruence]). subst s. apply existsb_exists in Q2 as (x & J2 & Q2). destruct (str_eqb_spec n x); [congruence|discriminate].
    - intro J. exists sv. split; [exact I|]. rewrite N. destruct (str_eqb_spec (rp_server rp) (rp_server rp)); [|congruence]. cbn [andb]. apply existsb_exists. exists n. split; [exact J|]. destruct (str_eqb_spec n n); congruence.
  Qed.

  (** *** One entry of a list *)
  Variables (id : Z) (n : str) (e : engine) (rd : ready) (tl : table_list) (d : list_d) (q : nat) (nm : str) (a : Table_Model.entry).
  Hypothesis Ra : ready_at o r t res ws id n e rd.
  Hypothesis Il : In tl (tb_lists (rd_tables rd)).
  Hypothesis Ia : In a (tl_entries tl).
  Hypothesis Eo : entry_ok c (tb_activities (rd_tables rd)) d q nm a.

  Definition calls_rpc (z : nat) : bool := match an_kind (en_action a), nth_error (cf_rpcs c) z with KRpc m, Some rp => str_eqb m (rp_name rp) | _, _ => false end.
  Definition nests_list (h : nat) : bool := match an_kind (en_action a) with KList m => match find_last li_name (cf_lists c) m with Some (i, _) => Nat.eqb i h | None => false end | _ => false end.
  Lemma action_found : exists i, find_last an_name (cf_actions c) nm = Some (i, en_action a).
  Proof. destruct (eo_action _ _ _ _ _ _ Eo) as (l1 & l2 & E & N & M). exists (length l1). rewrite E. apply find_last_split; assumption. Qed.
  Lemma action_name : an_name (en_action a) = nm.
  Proof. destruct (eo_action _ _ _ _ _ _ Eo) as (l1 & l2 & _ & N & _). exact N. Qed.
  Lemma calls_spec z : action_calls c opts z nm = times (opts nm) * Work_Proofs3.b2z (calls_rpc z).
  Proof.
    destruct action_found as (i & E). unfold action_calls, calls_rpc. rewrite E. destruct (an_kind (en_action a)), (nth_error (cf_rpcs c) z); cbn [Work_Proofs3.b2z]; try lia.
    destruct (str_eqb n0 (rp_name r0)); cbn [Work_Proofs3.b2z]; lia.
  Qed.
  Lemma nests_spec h : action_nests c opts h nm = times (opts nm) * Work_Proofs3.b2z (nests_list h).
  Proof.
    destruct action_found as (i & E). unfold action_nests, nests_list. rewrite E. destruct (an_kind (en_action a)); cbn [Work_Proofs3.b2z]; try lia.
    destruct (find_last li_name (cf_lists c) n0) as [[j y]|]; cbn [Work_Proofs3.b2z]; [|lia]. destruct (Nat.eqb j h); cbn [Work_Proofs3.b2z]; lia.
  Qed.

  (** The RPC of an action. *)
  Record rpc_action (m : str) (rp : rpc_desc) (sv : service_desc) (k : nat) : Prop := mkRpcAction {
    ra_at : at_index (cf_rpcs c) (Table_Model.en_rpc a) rp;
    ra_name : rp_name rp = m;
    ra_service : nth_error (cf_services c) k = Some sv /\ en_rpc_service a = Z.of_nat k /\ svc_name sv = rp_server rp;
    ra_calls : Deliver_Props.calls t rd a rp sv }.
  Lemma rpc_of_action m : an_kind (en_action a) = KRpc m -> exists rp sv k, rpc_action m rp sv k.
  Proof.
    intro K. pose proof (eo_rpc _ _ _ _ _ _ Eo) as R. rewrite K in R. destruct R as (rp & At & Nm & sv & (P & Es) & Sn). exists rp, sv, (Z.to_nat (en_rpc_service a)). constructor; auto.
    - split; [exact Es|]. split; [lia|exact Sn].
    - constructor; [exists tl; auto|congruence|destruct At as (_ & At); exact (nth_error_In _ _ At)|]. split; [exact (nth_error_In _ _ Es)|exact Sn].
  Qed.
  Lemma sends_as_client m rp sv k dw sent : rpc_action m rp sv k -> send_rpcs rd a dw = ToPeers sent -> In (en_type e) (rp_clients rp).
  Proof.
    intros [_ _ _ Ca] S. destruct (in_dec (list_eq_dec ascii_dec) (en_type e) (rp_clients rp)) as [I|N]; [exact I|].
    rewrite (C75_wrong_client _ _ _ _ _ _ _ _ _ _ _ _ _ _ _ dw _ _ Rn Dr Ra Ca N) in S. discriminate.
  Qed.
  (** What an iteration of it does. *)
  Lemma iteration_sends m rp sv k i : rpc_action m rp sv k -> an_kind (en_action a) = KRpc m -> iteration_ok o r t res ws info rd a i ->
    exists sent l, length (ir_rpcs i) = length sent /\ length l = length sent /\ NoDup (map fst sent) /\
      (to_all rp -> forall v, 0 <= v < svc_count sv -> instance_name (sv_spec sv) v <> Some n -> In v (map fst sent)) /\
      forall p x, nth_error (ir_rpcs i) p = Some x -> exists v y rq size n', nth_error sent p = Some (v, add_protocol y) /\ nth_error l p = Some (v, rq, size) /\
        rpc_ok o r t res ws info a (v, add_protocol y) (v, rq, size) x /\ 0 <= v < svc_count sv /\ instance_name (sv_spec sv) v = Some n' /\ n' <> n /\ reaches o r ws info sv v y /\
        Rpc_Model.rq_index rq = Some (Table_Model.en_rpc a).
  Proof.
    intros R K H. unfold iteration_ok in H. rewrite K in H. destruct H as (_ & sent & l & wu & Dw & S & Rq & Le & Ok). pose proof (sends_as_client _ _ _ _ _ _ R S) as Cl.
    destruct R as [At _ _ Ca]. pose proof (ca_rpc _ _ _ _ _ Ca) as Ir. pose proof (ca_server _ _ _ _ _ Ca) as (Is & Sn). destruct (Fa rp Ir) as (Ch & f & Pf & Fi). specialize (Fi id n e sv (ra_node _ _ _ _ _ _ _ _ _ Ra) (ra_engine _ _ _ _ _ _ _ _ _ Ra) Cl Is Sn).
    destruct (C75_delivered _ _ _ _ _ _ _ _ _ _ _ _ _ _ _ _ _ _ _ _ Rn Dr Ra Nw Ca Cl Ch Dw Pf Fi) as (sent' & S' & Nd & Ds & Da). assert (sent' = sent) by congruence. subst sent'.
    destruct (C75_requests _ _ _ _ _ _ _ _ _ _ _ _ _ _ _ _ _ (ir_scalar i) (ir_joint i) (ir_incoming i) wu (ir_hop i) (map fst sent) Rn Dr Ra Ca) as (_ & Rl). destruct (Rl l Rq) as (M & Rl'). clear Rl.
    assert (Ll : length l = length sent) by (rewrite <- (map_length (fun x => fst (fst x)) l), M; apply map_length).
    exists sent, l. split; [exact Le|]. split; [exact Ll|]. split; [exact Nd|]. split.
    - intro Ta. apply Da. unfold to_all in Ta. destruct (rp_fanout rp) as [x|]; [rewrite Ta in Pf|]; vm_compute in Pf; congruence.
    - intros p x Ex. assert (Lp : (p < length sent)%nat) by (rewrite <- Le; apply nth_error_Some; congruence).
      destruct (nth_error sent p) as [[v ad]|] eqn:E1; [|apply nth_error_None in E1; lia]. destruct (nth_error l p) as [[[v' rq] size]|] eqn:E2; [|apply nth_error_None in E2; lia].
      assert (v' = v). { apply (f_equal (fun z => nth_error z p)) in M. rewrite !nth_error_map, E1, E2 in M. cbn in M. congruence. } subst v'.
      destruct (Ds v ad (nth_error_In _ _ E1)) as (V & Ne & y & -> & Re). pose proof Re as (id' & n' & e' & _ & _ & Nn & _). destruct (Rl' p v rq size E2) as (_ & Ri & _).
      exists v, y, rq, size, n'. split; [reflexivity|]. split; [reflexivity|]. split; [exact (Ok p _ _ _ E1 E2 Ex)|]. split; [exact V|]. split; [exact Nn|]. split; [congruence|]. split; [exact Re|exact Ri].
  Qed.
  Lemma rpc_target m rp sv k v y rq size x n' : rpc_action m rp sv k -> rpc_ok o r t res ws info a (v, add_protocol y) (v, rq, size) x -> 0 <= v -> instance_name (sv_spec sv) v = Some n' ->
    target c (rr_entry x) = n' /\ en_rpc (rr_entry x) = Z.to_nat (Table_Model.en_rpc a).
  Proof.
    intros [_ _ (Es & Ek & _) _] [K1 K2 K3 _] V Nn. split; [|exact K3]. unfold target. rewrite K1, K2, Ek, Nat2Z.id, Es. cbn [fst]. rewrite Z2Nat.id by exact V. rewrite Nn. reflexivity.
  Qed.

  (** An iteration calls [z] of [n'] at most once, and once if it calls all. *)
  Definition goes (n' : str) (z : nat) (y : entry) : bool := str_eqb (target c y) n' && Nat.eqb (en_rpc y) z.
  Lemma iteration_calls (X : Prop) i n' z : (X -> forall rp, In rp (cf_rpcs c) -> to_all rp) -> iteration_ok o r t res ws info rd a i ->
    at_most X (count (goes n' z) (map rr_entry (ir_rpcs i))) (Work_Proofs3.b2z (calls_rpc z && reached_by c n n' z)).
  Proof.
    intros Xa Ok. destruct (an_kind (en_action a)) as [m|m|m|m|] eqn:K.
    2,3,4,5: apply am_eq; unfold calls_rpc; rewrite K; unfold iteration_ok in Ok; rewrite K in Ok; destruct Ok as (_ & ->); reflexivity.
    destruct (rpc_of_action m K) as (rp & sv & k & R). destruct (iteration_sends _ _ _ _ _ R K Ok) as (sent & l & L1 & L2 & Nd & Al & Ea). rewrite count_map.
    pose proof R as [(Pz & At) Nm (Es & _ & Sn) Ca]. destruct (Nat.eq_dec (Z.to_nat (Table_Model.en_rpc a)) z) as [Ez|Nz].
    - assert (Cz : calls_rpc z = true). { unfold calls_rpc. rewrite K, <- Ez, At, Nm. destruct (str_eqb_spec m m); congruence. } rewrite Cz. cbn [andb].
      assert (Q : count (fun x => goes n' z (rr_entry x)) (ir_rpcs i) = count (fun v => match instance_name (sv_spec sv) v with Some y => str_eqb y n' | None => false end) (map fst sent)).
      { apply count_nth; [rewrite map_length; exact L1|]. intros p x v Ex Ev. destruct (Ea p x Ex) as (v' & y & rq & size & n2 & E1 & _ & Rk & V & Nn & _). rewrite nth_error_map, E1 in Ev. injection Ev as <-.
        destruct (rpc_target _ _ _ _ _ _ _ _ _ _ R Rk (proj1 V) Nn) as (T1 & T2). cbn [fst]. unfold goes. rewrite T1, T2, Ez, Nat.eqb_refl, andb_true_r, Nn. reflexivity. }
      rewrite Q. clear Q.
      assert (Rg : forall v, In v (map fst sent) -> 0 <= v < svc_count sv /\ instance_name (sv_spec sv) v <> Some n).
      { intros v I. apply In_nth_error in I as (p & E). rewrite nth_error_map in E. destruct (nth_error sent p) as [[v' ad]|] eqn:E1; [|discriminate]. injection E as <-.
        destruct (nth_error (ir_rpcs i) p) as [x|] eqn:Ex; [|apply nth_error_None in Ex; assert (nth_error sent p <> None) as B by congruence; apply nth_error_Some in B; lia].
        destruct (Ea p x Ex) as (v2 & y & rq & size & n2 & E2 & _ & _ & V & Nn & Ne & _). rewrite E1 in E2. injection E2 as -> _. cbn [fst]. split; [exact V|congruence]. }
      assert (Atz : nth_error (cf_rpcs c) z = Some rp) by (rewrite <- Ez; exact At). pose proof (serves_spec n' z rp sv Atz (nth_error_In _ _ Es) Sn) as Sv. unfold reached_by.
      destruct (serves c n' z); cbn [andb].
      + destruct (proj1 Sv eq_refl) as (v0 & V0 & N0).
        assert (Inj : forall v, 0 <= v < svc_count sv -> instance_name (sv_spec sv) v = Some n' -> v = v0).
        { intros v V Nv. assert (L : located c n' k (Z.to_nat v0)) by (exists sv; rewrite Z2Nat.id by lia; repeat split; auto; lia). destruct (located_self _ _ _ _ _ _ _ Sa L Es V Nv) as (_ & Q). lia. }
        destruct (str_eqb_spec n n') as [<-|Nn]; cbn [negb Work_Proofs3.b2z].
        * apply am_eq. apply count_false. intros v I. destruct (Rg v I) as (_ & B). destruct (instance_name (sv_spec sv) v) as [y|]; [|reflexivity]. destruct (str_eqb_spec y n); [congruence|reflexivity].
        * assert (Q : count (fun v => match instance_name (sv_spec sv) v with Some y => str_eqb y n' | None => false end) (map fst sent) = count (fun v => v =? v0) (map fst sent)).
          { apply count_ext. intros v I. destruct (Rg v I) as (V & _). destruct (Z.eqb_spec v v0) as [->|B]; [rewrite N0; destruct (str_eqb_spec n' n'); congruence|].
            destruct (instance_name (sv_spec sv) v) as [y|] eqn:Ey; [|reflexivity]. destruct (str_eqb_spec y n') as [->|]; [|reflexivity]. destruct (B (Inj v V Ey)). }
          rewrite Q. destruct (count_one v0 _ Nd) as (A1 & A2). split; [exact A1|]. intro x. apply A2. apply Al; [exact (Xa x rp (ca_rpc _ _ _ _ _ Ca))|exact V0|congruence].
      + cbn [Work_Proofs3.b2z]. apply am_eq, count_false. intros v I. destruct (Rg v I) as (V & _). destruct (instance_name (sv_spec sv) v) as [y|] eqn:Ey; [|reflexivity].
        destruct (str_eqb_spec y n') as [->|]; [|reflexivity]. enough (false = true) by discriminate. apply Sv. exists v. auto.
    - assert (Cz : calls_rpc z = false).
      { unfold calls_rpc. rewrite K. destruct (nth_error (cf_rpcs c) z) as [rp'|] eqn:E; [|reflexivity]. destruct (str_eqb_spec m (rp_name rp')) as [->|]; [|reflexivity]. destruct Nz.
        assert (rp = rp') by (apply (named_once rp_name (cf_rpcs c)); [exact Dr|exact (nth_error_In _ _ At)|exact (nth_error_In _ _ E)|exact Nm]). subst rp'.
        apply (proj1 (NoDup_nth_error (map rp_name (cf_rpcs c))) Dr); [rewrite map_length; apply nth_error_Some; congruence|]. rewrite !nth_error_map, At, E. reflexivity. }
      rewrite Cz. cbn [andb Work_Proofs3.b2z]. apply am_eq, count_false. intros x I. apply In_nth_error in I as (p & Ex). destruct (Ea p x Ex) as (v' & y & rq & size & n2 & E1 & _ & Rk & V & Nn & _).
      destruct (rpc_target _ _ _ _ _ _ _ _ _ _ R Rk (proj1 V) Nn) as (T1 & T2). unfold goes. rewrite T2. destruct (Nat.eqb_spec (Z.to_nat (Table_Model.en_rpc a)) z); [contradiction|apply andb_false_r].
  Qed.

  (** The lists that an iteration starts: its own, and those of its RPCs. *)
  Definition serves_run (m : str) (h : nat) (y : entry) : bool := str_eqb (target c y) m && runs_list c (en_rpc y) h.
  Lemma iteration_starts (X : Prop) i m h : (X -> forall x, In x (ir_rpcs i) -> en_ok (rr_entry x) = true) -> iteration_ok o r t res ws info rd a i ->
    at_most X (count (key_is m h) (starts_by_iteration n i)) (Work_Proofs3.b2z (nests_list h && str_eqb n m) + count (serves_run m h) (map rr_entry (ir_rpcs i))).
  Proof.
    intros Xk Ok. unfold starts_by_iteration. rewrite count_app, count_map. destruct (an_kind (en_action a)) as [m0|m0|m0|m0|] eqn:K.
    3,4,5: apply am_eq; unfold nests_list; rewrite K; unfold iteration_ok in Ok; rewrite K in Ok; destruct Ok as (-> & ->); reflexivity.
    - destruct (rpc_of_action m0 K) as (rp & sv & k & R). destruct (iteration_sends _ _ _ _ _ R K Ok) as (sent & l & _ & _ & _ & _ & Ea).
      assert (Li : ir_lists i = []) by (unfold iteration_ok in Ok; rewrite K in Ok; exact (proj1 Ok)). rewrite Li. unfold nests_list. rewrite K. apply am_add; [apply am_refl|].
      rewrite count_flat, count_map, count_sum. apply am_sum. intros x I. pose proof I as I'. apply In_nth_error in I as (p & Ex). destruct (Ea p x Ex) as (v & y & rq & size & n' & E1 & E2 & Rk & V & Nn & Ne & Re & Ri).
      destruct (rpc_target _ _ _ _ _ _ _ _ _ _ R Rk (proj1 V) Nn) as (T1 & T2). pose proof (rk_handled _ _ _ _ _ _ _ _ _ _ Rk) as [Hd|(Ek & ->)].
      + apply am_eq. destruct Hd as (id2 & n2 & e2 & rd2 & sc & ded & out & Ra2 & Ad & Tot & Rc & ->). cbn [fst snd] in Ad, Rc.
        assert (n2 = n'). { destruct Re as (id' & n'' & e' & O' & A' & Nn' & ->). apply Logic.eq_sym. transitivity n''; [congruence|]. symmetry. exact (Ap _ _ _ _ _ _ (ra_node _ _ _ _ _ _ _ _ _ Ra2) O' (ra_engine _ _ _ _ _ _ _ _ _ Ra2) A' (eq_sym Ad)). } subst n2.
        pose proof (ra_calls _ _ _ _ R) as Ca. destruct (C75_received _ _ _ _ _ _ _ _ _ _ _ _ _ _ _ _ _ _ _ sc ded a rp sv rq v Rn Dr Sz Ra Ra2 Ca V Nn Ri) as (_ & _ & hd & dl & Ln & L1 & L2).
        rewrite count_map. unfold serves_run. rewrite T1, T2. unfold runs_list. destruct (ra_at _ _ _ _ R) as (Pz & At). rewrite At, (find_last_named _ _ _ _ _ Ln). destruct Ln as ((Ph & _) & _).
        destruct (li_actions dl) as [|z1 zs] eqn:Q.
        * destruct (L2 eq_refl Tot) as (out' & sz & Rc' & (H1 & H2 & _) & _). assert (out' = out) by congruence. subst out'. unfold lists_started. rewrite H1, H2. cbn [length Nat.eqb negb]. rewrite !andb_false_r. reflexivity.
        * destruct (L1 ltac:(discriminate)) as (out' & Rc' & Sl). assert (out' = out) by congruence. subst out'. assert (Q2 : lists_started out = [hd]) by (unfold starts_list in Sl; destruct ded; rewrite Sl; reflexivity).
          rewrite Q2. cbn [length Nat.eqb negb]. rewrite andb_true_r. unfold count. cbn [filter]. unfold key_is. cbn [fst snd].
          replace (hd =? Z.of_nat h) with (Nat.eqb (Z.to_nat hd) h) by (destruct (Nat.eqb_spec (Z.to_nat hd) h), (Z.eqb_spec hd (Z.of_nat h)); auto; lia).
          destruct (str_eqb n' m && Nat.eqb (Z.to_nat hd) h); reflexivity.
      + split; [unfold count, len; cbn [filter length]; destruct (serves_run m h (rr_entry x)); cbn [Work_Proofs3.b2z]; lia|]. intro x0. rewrite (Xk x0 x I') in Ek. discriminate.
    - apply am_eq. pose proof (eo_list _ _ _ _ _ _ Eo) as L. rewrite K in L. destruct L as (ld & L). unfold nests_list. rewrite K, (find_last_named _ _ _ _ _ L). destruct L as ((P & _) & _).
      unfold iteration_ok in Ok. rewrite K in Ok. destruct Ok as (-> & ->). cbn [flat_map map]. unfold count. cbn [filter]. unfold key_is. cbn [fst snd].
      replace (en_list a =? Z.of_nat h) with (Nat.eqb (Z.to_nat (en_list a)) h) by (destruct (Nat.eqb_spec (Z.to_nat (en_list a)) h), (Z.eqb_spec (en_list a) (Z.of_nat h)); auto; lia).
      rewrite andb_comm. destruct (Nat.eqb (Z.to_nat (en_list a)) h && str_eqb n m); reflexivity.
  Qed.

  (** The number of iterations. *)
  Lemma action_iterations (X : Prop) s ar i : options_ok (opts nm) -> is_activity (an_kind (en_action a)) = false ->
    (X -> ro_duration (opts nm) = None /\ (exists now, In (LStart i false now) (al_log s)) /\ In (LCall i) (al_log s) /\ ~ In LCancel (al_log s) /\ given_up rd a = false) ->
    action_ok o r t res ws info rd (opts nm) a i s ar -> at_most X (len (ar_iterations ar)) (times (opts nm)).
  Proof.
    intros (O1 & O2) Na Xc [A1 A2 _]. assert (Le : forall its, iterated (opts nm) ar its -> length (ar_iterations ar) = length (starts (it_log its)) -> len (ar_iterations ar) <= times (opts nm)).
    { intros its It L. unfold len. rewrite L. destruct It as [Cr|(per & Or)].
      - assert (Ok : iter_ok (iterations_of (opts nm) (ar_now ar) (ar_warmup ar))). { apply O2. destruct Cr as (P & _). exact P. }
        destruct (C26_numbers _ _ _ _ Ok Cr) as (m & M1 & M2 & _). rewrite <- rev_length, M2, length_upto. change (ic_limit _) with (times (opts nm)) in M1. lia.
      - destruct (C27_numbers _ _ _ _ _ Or) as (m & M1 & M2 & _). rewrite <- rev_length, M2, length_upto. change (ic_limit _) with (times (opts nm)) in M1. lia. }
    assert (Dec : (exists now, In (LStart i false now) (al_log s)) \/ forall now, ~ In (LStart i false now) (al_log s)).
    { destruct (existsb (fun x => match x with LStart j false _ => Nat.eqb j i | _ => false end) (al_log s)) eqn:Q.
      - left. apply existsb_exists in Q as (x & I & Q). destruct x as [| j [|] now | | | | | |]; try discriminate. apply Nat.eqb_eq in Q. subst j. eauto.
      - right. intros now I. assert (existsb (fun x => match x with LStart j false _ => Nat.eqb j i | _ => false end) (al_log s) = true); [|congruence]. apply existsb_exists. exists (LStart i false now). rewrite Nat.eqb_refl. auto. }
    split.
    - destruct Dec as [(now & I)|N]; [|rewrite (A1 (or_introl N)); unfold len; cbn [length]; lia]. destruct (given_up rd a) eqn:G; [rewrite (A1 (or_intror eq_refl)); unfold len; cbn [length]; lia|].
      destruct (A2 Na eq_refl now I) as (its & It & L & _). exact (Le its It L).
    - intro x. destruct (Xc x) as (Du & (now & I) & Ic & Nc & G). destruct (A2 Na G now I) as (its & It & L & C1 & C2). specialize (C1 Ic). assert (Ni : ~ In ICancel (it_log its)) by auto.
      assert (Tl : ic_time_limit (iterations_of (opts nm) (ar_now ar) (ar_warmup ar)) = None) by (unfold iterations_of; cbn [ic_time_limit]; rewrite Du; destruct (ro_iterations (opts nm)); reflexivity).
      assert (Q : rev (starts (it_log its)) = upto (times (opts nm))).
      { destruct It as [Cr|(per & Or)].
        - assert (Ok : iter_ok (iterations_of (opts nm) (ar_now ar) (ar_warmup ar))). { apply O2. destruct Cr as (P & _). exact P. } exact (C26_exact_count _ _ _ _ Ok Cr Tl Ni C1).
        - exact (open_exact _ _ _ _ _ Or Tl Ni C1). }
      unfold len. rewrite L, <- rev_length, Q, length_upto. lia.
  Qed.
End Test.
