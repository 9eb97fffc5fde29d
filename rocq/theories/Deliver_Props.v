(** C75: in a running test the RPCs of an engine reach the engines they are
    meant for, which handle them. *)
From Coq Require Import Ascii String List NArith ZArith QArith Bool Arith Lia Permutation.
From Verif Require Import Base_Model Base_Proofs Grid_Model Grid_Proofs Place_Model Place_Proofs Fanout_Model Fanout_Proofs Fanout_Props Util_Model Net_Model Table_Model Table_Proofs Table_Proofs2 Table_Props Cli_Model.
From Verif Require Seq_Model Rpc_Model Rpc_Proofs.
From Verif Require Import Seq_Proofs Node_Model Node_Proofs Node_Props Cluster_Model Cluster_Proofs Cluster_Props.
From Verif Require Import Peer_Model Peer_Proofs Peer_Props Deliver_Model Deliver_Proofs.
Import ListNotations.
Open Scope Z_scope.

(** A test that ran, and what the driver's HandleConnect and HandleResponse do. *)
Record outside := mkOutside {
  ou_stochastic : str -> option (list (Q * Z)); ou_net : str -> option str; ou_accept : nat -> str -> bool; ou_setup : list Z -> bool; ou_address : str -> str }.
Definition ran fnm r nes ev t w active res ws : Prop :=
  setting r nes ev t w /\ exists w' active', do_run_test fnm r nes ev t w active = (TestOk res ws, w', active').
(** The engine [e] of the instance [n] on the node [id], once connected; it
    visits its peers in any order. *)
Record ready_at (o : outside) (r : Seq_Model.registry) (t : whole) (res : test_result) (ws : worlds) (id : Z) (n : str) (e : engine) (rd : ready) : Prop := mkReadyAt {
  ra_node : occupied r id;
  ra_engine : engine_at (wo_introduced ws) id n e;
  ra_prepared : exists eps, Permutation eps (map peer_endpoint (tr_placement res)) /\
    prepare (ou_stochastic o) (fun _ => ou_net o) (ou_accept o) (ou_setup o) (ou_address o) (config_of t) (en_type e) (en_index e) eps = Some rd }.
(** The network: a SetupConnection answered at an address was answered by an
    engine that listens there, and no two engines listen at the same address.
    [info id n e] is the answer of the engine. *)
Definition listens (nes : Z -> node_env) (id : Z) (e : engine) (a : str) : Prop :=
  socket_for_device (ne_ifs (nes id)) (ne_flag (nes id)) (ne_control (nes id)) (en_port e) = Some a.
Record network (o : outside) (r : Seq_Model.registry) (nes : Z -> node_env) (ws : worlds) (info : Z -> str -> engine -> str) : Prop := mkNetwork {
  nw_answer : forall a i, ou_net o a = Some i -> exists id n e, occupied r id /\ engine_at (wo_introduced ws) id n e /\ listens nes id e a /\ i = info id n e;
  nw_distinct : forall id n e id' n' e' a, occupied r id -> occupied r id' -> engine_at (wo_introduced ws) id n e -> engine_at (wo_introduced ws) id' n' e' ->
    listens nes id e a -> listens nes id' e' a -> id = id' /\ n = n' /\ e = e' }.

Lemma socket_some tbl flag dev port a : socket_for_device tbl flag dev port = Some a -> a <> [].
Proof.
  unfold socket_for_device. destruct (best_address tbl dev flag) as [x|]; [|discriminate]. intros [= <-]. unfold socket_address. destruct (ad_v4 x); [|discriminate].
  intro K. apply app_eq_nil in K as [_ K]. discriminate.
Qed.
Lemma engine_index fnm r nes ev t w active res ws w' active' id n e : setting r nes ev t w ->
  do_run_test fnm r nes ev t w active = (TestOk res ws, w', active') -> occupied r id -> engine_at (wo_introduced ws) id n e -> grid_index_from_name n = Some (en_index e).
Proof.
  intros St E O A. destruct (node_story _ _ _ _ _ _ _ _ _ _ _ St E) as (m & eps & rep & _ & _ & _ & _ & _ & H & _).
  destruct (H id O) as (s0 & s1 & s2 & s3 & Sd & _ & _ & _ & _ & _ & _ & F & Q1 & _). apply (at_introduced _ _ _ _ _ _ _ _ _ _ _ _ _ n Sd Q1) in A as (e0 & -> & I).
  destruct (F _ _ I) as (_ & _ & G & _). exact G.
Qed.
Lemma peer_keys l : map fst (map peer_endpoint l) = map fst l.
Proof. rewrite map_map. reflexivity. Qed.

(** The facts about a connected engine of a test. *)
Lemma situation_of_test fnm r nes ev t w active res ws o id n e rd : ran fnm r nes ev t w active res ws -> NoDup (map rp_name (cf_rpcs (config_of t))) ->
  ready_at o r t res ws id n e rd ->
  exists eps k i s, Permutation eps (map peer_endpoint (tr_placement res)) /\ engine_situation (ou_stochastic o) (config_of t) (en_type e) (en_index e) n k i s eps /\
    prepare (ou_stochastic o) (fun _ => ou_net o) (ou_accept o) (ou_setup o) (ou_address o) (config_of t) (en_type e) (en_index e) eps = Some rd /\
    forall x ep, map_find x eps = Some ep -> exists id' e', occupied r id' /\ engine_at (wo_introduced ws) id' x e' /\ listens nes id' e' (Peer_Model.ep_address ep).
Proof.
  intros (St & w' & active' & E) Dr [O A (eps & Pm & Pp)]. pose proof (pl_sane t (se_test _ _ _ _ _ St)) as Sa.
  destruct (C74_engines _ _ _ _ _ _ _ _ _ _ _ St E) as (m & _ & _ & H). destruct (H id n O) as (_ & _ & Hk). destruct (Hk e A) as (k & i & s & Es & Li & Nm & Ty & _ & _).
  destruct (C74_placement _ _ _ _ _ _ _ _ _ _ _ St E) as (D & K & F).
  assert (Ke : Permutation (map fst eps) (map fst (tr_placement res))) by (rewrite <- peer_keys; apply Permutation_map, Pm).
  assert (De : NoDup (map fst eps)) by (apply (Permutation_NoDup (Permutation_sym Ke)), D).
  assert (G : forall x ep, In (x, ep) eps -> exists id' e', occupied r id' /\ engine_at (wo_introduced ws) id' x e' /\ listens nes id' e' (Peer_Model.ep_address ep)).
  { intros x ep I. apply (Permutation_in _ Pm) in I. apply in_map_iff in I as ([y ep'] & Q & I). unfold peer_endpoint in Q. cbn [fst snd] in Q. injection Q as <- <-.
    apply (Place_Proofs.map_find_iff _ _ _ D) in I. destruct (F _ _ I) as (id' & e' & a & O' & A' & L & ->). exists id', e'. auto. }
  assert (Lo : located (config_of t) n k i) by (exists s; split; [exact Es|split; [lia|exact Nm]]).
  exists eps, k, i, s. split; [exact Pm|]. split; [|split; [exact Pp|intros x ep Q; apply G, (map_find_In _ _ _ Q)]]. constructor; auto.
  - exact (engine_index _ _ _ _ _ _ _ _ _ _ _ _ _ _ St E O A).
  - constructor; [exact De|]. intros x I. apply (Permutation_in _ Ke), K in I. exact (located_of _ _ Sa I).
  - intros x k' i' L. apply (Permutation_in _ (Permutation_sym Ke)), K, (In_names _ _ Sa). eauto.
  - intros x ep I. destruct (G _ _ I) as (id' & e' & _ & _ & L). exact (socket_some _ _ _ _ _ L).
Qed.

(** ** RPCs to individual instances *)
(** Which fan-outs work: not the stochastic ones, and a filter on a coordinate
    only if the servers have such a coordinate. *)
Definition fits (f : fanout) (g : grid_index) (s : service_spec) : Prop :=
  match f with
  | FGrid fx fy fz => (fx = true -> gx g < x_size s) /\ (fy = true -> gy g < y_size s) /\ (fz = true -> gz g < z_size s)
  | FStochastic _ => False
  | _ => True
  end.
(** An RPC of the test as seen by an engine. *)
Record calls (t : whole) (rd : ready) (a : entry) (rp : rpc_desc) (sv : service_desc) : Prop := mkCalls {
  ca_entry : exists l, In l (tb_lists (rd_tables rd)) /\ In a (tl_entries l);
  ca_kind : an_kind (en_action a) = KRpc (rp_name rp);
  ca_rpc : In rp (cf_rpcs (config_of t));
  ca_server : In sv (cf_services (config_of t)) /\ svc_name sv = rp_server rp }.
(** The RPC [x] is sent to where the engine of the instance [v] of [sv] listens. *)
Definition reaches (o : outside) (r : Seq_Model.registry) (ws : worlds) (info : Z -> str -> engine -> str) (sv : service_desc) (v : Z) (x : str) : Prop :=
  exists id' n' e', occupied r id' /\ engine_at (wo_introduced ws) id' n' e' /\ instance_name (sv_spec sv) v = Some n' /\ x = ou_address o (info id' n' e').

Lemma reached o r nes ws info sv v n' id' e' a i : network o r nes ws info -> instance_name (sv_spec sv) v = Some n' -> occupied r id' -> engine_at (wo_introduced ws) id' n' e' ->
  listens nes id' e' a -> ou_net o a = Some i -> reaches o r ws info sv v (ou_address o i).
Proof.
  intros [Na Nd] Nm O A L An. destruct (Na _ _ An) as (id2 & n2 & e2 & O2 & A2 & L2 & ->). destruct (Nd _ _ _ _ _ _ _ O O2 A A2 L L2) as (-> & -> & ->). exists id2, n2, e2. auto.
Qed.
Lemma located_self c n k i k' v sv : sane c -> located c n k i -> nth_error (cf_services c) k' = Some sv -> 0 <= v < svc_count sv -> instance_name (sv_spec sv) v = Some n -> k' = k /\ v = Z.of_nat i.
Proof.
  intros S L E V Nm. assert (L' : located c n k' (Z.to_nat v)) by (exists sv; rewrite Z2Nat.id by lia; repeat split; auto; lia).
  destruct (located_fun _ _ _ _ _ _ S L L') as (-> & Q). split; [reflexivity|lia].
Qed.

Theorem C75_delivered fnm r nes ev t w active res ws o info id n e rd a d rp sv f :
  ran fnm r nes ev t w active res ws -> NoDup (map rp_name (cf_rpcs (config_of t))) -> ready_at o r t res ws id n e rd -> network o r nes ws info ->
  calls t rd a rp sv -> In (en_type e) (rp_clients rp) -> rp_channel rp = None -> draws_ok d ->
  parse_filter (ou_stochastic o) (match rp_fanout rp with Some x => x | None => s_ "all" end) = Some f -> fits f (en_index e) (sv_spec sv) ->
  exists sent, send_rpcs rd a d = ToPeers sent /\ NoDup (map fst sent) /\
    (forall v x, In (v, x) sent -> 0 <= v < svc_count sv /\ instance_name (sv_spec sv) v <> Some n /\ exists y, x = add_protocol y /\ reaches o r ws info sv v y) /\
    (f = FGrid false false false -> forall v, 0 <= v < svc_count sv -> instance_name (sv_spec sv) v <> Some n -> In v (map fst sent)).
Proof.
  intros Rn Dr Ra Nw [(l & Il & Ia) Ka Ir (Is & Sn)] Cl Ch Dw Pf Fi.
  destruct (situation_of_test _ _ _ _ _ _ _ _ _ _ _ _ _ _ Rn Dr Ra) as (eps & k & i & s & _ & H & P & L).
  destruct (send_rpcs_ok _ _ _ _ _ _ _ _ _ _ _ _ _ _ H P l a _ d rp Il Ia Ka Ir eq_refl Cl Ch Dw) as (k' & sv' & f' & Ek & Sn' & Pf' & Eo & Ok & _).
  pose proof (es_sane _ _ _ _ _ _ _ _ _ H) as Sa. assert (sv' = sv) by (apply (service_fun (config_of t)); [exact (sa_distinct _ Sa)|exact (nth_error_In _ _ Ek)|exact Is|congruence]). subst sv'.
  assert (f' = f) by congruence. subst f'. pose proof (my_place _ _ _ _ _ _ _ _ _ H) as (_ & _ & Si & _).
  assert (Su : supported (env_for (en_index e) k i k' sv d) f) by (destruct f; exact Fi || exact Logic.I).
  destruct (targets_valid _ _ Eo Su) as (targets & Pt & Nd & V). cbn [env_for fe_n fe_exclude_self fe_self] in V.
  assert (V' : forall v, In v targets -> 0 <= v < svc_count sv) by (intros v I; apply (V v I)).
  destruct (Ok targets Pt V') as (sent & Es & Ms & Fs). exists sent. split; [exact Es|]. split; [rewrite Ms; exact Nd|].
  assert (Self : forall v, 0 <= v < svc_count sv -> instance_name (sv_spec sv) v = Some n -> k' = k /\ v = Z.of_nat i)
    by (intros v R Q; exact (located_self _ _ _ _ _ _ _ Sa (es_located _ _ _ _ _ _ _ _ _ H) Ek R Q)).
  split.
  - intros v x I. assert (It : In v targets) by (rewrite <- Ms; exact (in_map fst _ _ I)). destruct (V v It) as (R & Ne). split; [exact R|]. split.
    + intro Q. destruct (Self v R Q) as (-> & ->). rewrite Z.eqb_refl in Ne. exact (Ne eq_refl eq_refl).
    + destruct (Fs v x I) as (n' & ep & j & inf & Nm & Me & An & ->). exists (ou_address o inf). split; [reflexivity|]. destruct (L _ _ Me) as (id' & e' & O' & A' & L').
      exact (reached _ _ _ _ _ _ _ _ _ _ _ _ Nw Nm O' A' L' An).
  - intros -> v R Ne. rewrite Ms. destruct (grid_targets _ false false false Eo Fi) as (l' & Pl & _ & W). assert (l' = targets) by congruence. subst l'. apply W.
    destruct (sane_nth _ k' sv Sa Ek) as (Cn & Ns). destruct (proj1 (grid_bijection _ Cn) v R) as (g1 & K1 & K2 & K3). exists g1. cbn [env_for fe_peer fe_me fe_exclude_self fe_self].
    split; [exact K2|]. do 3 (split; [discriminate|]). split; [congruence|]. intros X ->. apply Z.eqb_eq in X. apply Ne.
    pose proof (es_located _ _ _ _ _ _ _ _ _ H) as (s' & E1 & _ & E3). assert (k' = k) by lia. subst k'. congruence.
Qed.
Print Assumptions C75_delivered.

(** ** RPCs over a multi-server channel *)
(** The instances of a channel: those selected, and those on nodes whose
    attributes meet its constraints. *)
Definition in_channel (res : test_result) (sv : service_desc) (ch : channel_desc) (v : Z) : Prop :=
  0 <= v < svc_count sv /\
  (In v (ch_selected ch) \/ exists cl n ep, ch_constraints ch = Some cl /\ instance_name (sv_spec sv) v = Some n /\ map_find n (tr_placement res) = Some ep /\
     satisfies cl (map (fun a => mkAttr (fst a) (snd a)) (Node_Model.ep_attributes ep))).
Lemma member_iff res eps sv ch v n : NoDup (map fst (tr_placement res)) -> Permutation eps (map peer_endpoint (tr_placement res)) -> instance_name (sv_spec sv) v = Some n ->
  (member eps sv ch v n <-> in_channel res sv ch v).
Proof.
  intros D Pm Nm. assert (De : NoDup (map fst eps)) by (apply (Permutation_NoDup (Permutation_sym (Permutation_map fst Pm))); rewrite peer_keys; exact D).
  unfold member, in_channel. split.
  - intros (R & _ & M). split; [exact R|]. destruct M as [M|(cl & ep & Ec & Me & Sat)]; [left; exact M|right]. exists cl, n.
    apply map_find_In in Me. apply (Permutation_in _ Pm) in Me. apply in_map_iff in Me as ([y ep'] & Q & I). unfold peer_endpoint in Q. cbn [fst snd] in Q. injection Q as <- <-.
    exists ep'. split; [exact Ec|]. split; [exact Nm|]. split; [apply (Place_Proofs.map_find_iff _ _ _ D), I|exact Sat].
  - intros (R & M). split; [exact R|]. split; [exact Nm|]. destruct M as [M|(cl & n2 & ep & Ec & Nm2 & Me & Sat)]; [left; exact M|right].
    assert (n2 = n) by congruence. subst n2. exists cl, (snd (peer_endpoint (n, ep))). split; [exact Ec|]. split; [|exact Sat].
    apply (Place_Proofs.map_find_iff _ _ _ De). apply (Permutation_in _ (Permutation_sym Pm)). apply in_map_iff. exists (n, ep). split; [reflexivity|]. exact (map_find_In _ _ _ Me).
Qed.

Theorem C75_channel fnm r nes ev t w active res ws o info id n e rd a d rp sv mc :
  ran fnm r nes ev t w active res ws -> NoDup (map rp_name (cf_rpcs (config_of t))) -> ready_at o r t res ws id n e rd -> network o r nes ws info ->
  calls t rd a rp sv -> In (en_type e) (rp_clients rp) -> rp_channel rp = Some mc -> (forall i, ou_address o i <> []) ->
  (forall l1 l2 s, cf_services (config_of t) = l1 ++ sv :: l2 -> In s l1 -> In (svc_name s) (tb_dependent (rd_tables rd)) -> sv_channels s = []) ->
  exists ch members addresses, In ch (sv_channels sv) /\ ch_name ch = mc /\ send_rpcs rd a d = ToChannel (add_protocol (comma_separated addresses)) /\ NoDup members /\ members <> [] /\
    (forall v, In v members <-> in_channel res sv ch v) /\ Forall2 (reaches o r ws info sv) members addresses.
Proof.
  intros Rn Dr Ra Nw [(l & Il & Ia) Ka Ir (Is & Sn)] Cl Ch Ad Ea.
  destruct (situation_of_test _ _ _ _ _ _ _ _ _ _ _ _ _ _ Rn Dr Ra) as (eps & k & i & s & Pm & H & P & L).
  destruct (in_split _ _ Is) as (l1 & l2 & Es).
  destruct (send_channel _ _ _ _ _ _ _ _ _ _ _ _ _ _ H P l a _ d rp l1 sv l2 mc Il Ia Ka Ir eq_refl Cl Ch Ad Es Sn (fun s0 => Ea l1 l2 s0 Es)) as (ch & ms & ads & C1 & C2 & C3 & C4 & C5 & C6 & C7).
  exists ch, ms, ads. do 5 (split; [assumption|]). destruct Rn as (St & w' & active' & E). destruct (C74_placement _ _ _ _ _ _ _ _ _ _ _ St E) as (D & _).
  pose proof (es_sane _ _ _ _ _ _ _ _ _ H) as Sa. apply In_nth_error in Is as (k' & Ek).
  destruct (sane_nth _ k' sv Sa Ek) as (Cn & Ns).
  split.
  - intro v. rewrite C6. destruct (name_parses (sv_spec sv) v (canonical_dims _ Cn) Ns) as (n' & g & Nm & _). split.
    + intros (x & M). pose proof M as (_ & Nx & _). exact (proj1 (member_iff res eps sv ch v x D Pm Nx) M).
    + intro M. exists n'. exact (proj2 (member_iff res eps sv ch v n' D Pm Nm) M).
  - clear -C7 L Nw. induction C7 as [|v x ms ads (n' & ep & j & inf & (_ & Nm & _) & Me & An & ->) C7 IH]; constructor; [|exact IH].
    destruct (L _ _ Me) as (id' & e' & O' & A' & L'). exact (reached _ _ _ _ _ _ _ _ _ _ _ _ Nw Nm O' A' L' An).
Qed.
Print Assumptions C75_channel.

(** ** The requests *)
Lemma entry_index fnm r nes ev t w active res ws o id n e rd a rp sv :
  ran fnm r nes ev t w active res ws -> NoDup (map rp_name (cf_rpcs (config_of t))) -> ready_at o r t res ws id n e rd -> calls t rd a rp sv ->
  at_index (cf_rpcs (config_of t)) (en_rpc a) rp.
Proof.
  intros Rn Dr Ra [(l & Il & Ia) Ka Ir _]. destruct (situation_of_test _ _ _ _ _ _ _ _ _ _ _ _ _ _ Rn Dr Ra) as (eps & k & i & s & _ & H & P & _).
  destruct (entry_row _ _ _ _ _ _ _ _ _ _ _ _ _ _ H P l a _ Il Ia Ka) as (r' & b & k2 & sv2 & At & Nr & _).
  assert (r' = rp). { destruct At as (_ & At). apply (named_once rp_name (cf_rpcs (config_of t))); [exact Dr|exact (nth_error_In _ _ At)|exact Ir|exact Nr]. } subst r'. exact At.
Qed.
(** One request for each target, with the index of the RPC and the sizes that
    the traffic configuration gives it. *)
Theorem C75_requests fnm r nes ev t w active res ws o id n e rd a rp sv scalar joint incoming warmup h targets :
  ran fnm r nes ev t w active res ws -> NoDup (map rp_name (cf_rpcs (config_of t))) -> ready_at o r t res ws id n e rd -> calls t rd a rp sv ->
  ((forall x, scalar x <> None) -> (forall x, joint x <> None /\ joint x <> Some []) -> requests_of scalar joint incoming warmup h rd a targets <> None) /\
  forall l, requests_of scalar joint incoming warmup h rd a targets = Some l ->
    map (fun x => fst (fst x)) l = targets /\
    forall q v rq size, nth_error l q = Some (v, rq, size) ->
      at_index (cf_rpcs (config_of t)) (en_rpc a) rp /\ Rpc_Model.rq_index rq = Some (en_rpc a) /\ Rpc_Model.rq_warmup rq = Some warmup /\
      Rpc_Model.rq_trace rq = Rpc_Model.add_fanout (Z.of_nat q) (Rpc_Model.common_trace incoming h) /\
      request_size (config_of t) rp (en_request a) scalar joint size (Rpc_Model.rq_resp_size rq).
Proof.
  intros Rn Dr Ra Ca. pose proof (entry_index _ _ _ _ _ _ _ _ _ _ _ _ _ _ _ _ _ Rn Dr Ra Ca) as At.
  destruct (situation_of_test _ _ _ _ _ _ _ _ _ _ _ _ _ _ Rn Dr Ra) as (eps & k & i & s & _ & H & P & _). split.
  - intros Sc Jo. exact (requests_made _ _ _ _ _ _ _ _ _ _ _ _ _ _ H P _ _ _ _ _ a rp _ At Sc Jo).
  - intros l E. destruct (sends_requests _ _ _ _ _ _ _ _ _ _ _ _ _ _ H P _ _ _ _ _ a rp _ _ At E) as (M & R). split; [exact M|].
    intros q v rq size K. split; [exact At|exact (R q v rq size K)].
Qed.
Print Assumptions C75_requests.

(** ** At the receiving engine *)
Theorem C75_received fnm r nes ev t w active res ws o o' id n e rd id' n' e' rd' scalar dedicated a rp sv rq v :
  ran fnm r nes ev t w active res ws -> NoDup (map rp_name (cf_rpcs (config_of t))) -> Z.of_nat (length (cf_rpcs (config_of t))) <= int32_max ->
  ready_at o r t res ws id n e rd -> ready_at o' r t res ws id' n' e' rd' -> calls t rd a rp sv ->
  0 <= v < svc_count sv -> instance_name (sv_spec sv) v = Some n' -> Rpc_Model.rq_index rq = Some (en_rpc a) ->
  rd_type rd' = svc_name sv /\ rd_instance rd' = v /\
  exists h d, last_named li_name (cf_lists (config_of t)) (rp_name rp) h d /\
    (li_actions d <> [] -> exists out, receive scalar rd' dedicated rq = Some out /\ starts_list out dedicated h (answer_instance rp v)) /\
    (li_actions d = [] -> (forall x, scalar x <> None) -> exists out size, receive scalar rd' dedicated rq = Some out /\
       Rpc_Proofs.answered out (Rpc_Model.mkResp [] (answer_instance rp v) size) /\ response_size (config_of t) rp scalar rq size).
Proof.
  intros Rn Dr Sz Ra Ra' Ca V Nm Rq. pose proof (entry_index _ _ _ _ _ _ _ _ _ _ _ _ _ _ _ _ _ Rn Dr Ra Ca) as At. destruct Ca as [_ _ Ir (Is & Sn)].
  destruct (situation_of_test _ _ _ _ _ _ _ _ _ _ _ _ _ _ Rn Dr Ra') as (eps' & k' & i' & s' & _ & H' & P' & _).
  pose proof (es_sane _ _ _ _ _ _ _ _ _ H') as Sa. apply In_nth_error in Is as (q & Eq).
  destruct (located_self _ _ _ _ _ _ _ Sa (es_located _ _ _ _ _ _ _ _ _ H') Eq V Nm) as (-> & Ev).
  assert (s' = sv) by (pose proof (es_service _ _ _ _ _ _ _ _ _ H'); congruence). subst s'. pose proof (es_type _ _ _ _ _ _ _ _ _ H') as Ty.
  destruct (prepared _ _ _ _ _ _ _ _ _ _ _ _ _ _ H' P') as (cs & _ & P1 & P2 & _). split; [congruence|]. assert (Iv : rd_instance rd' = v) by congruence. split; [exact Iv|].
  rewrite <- Iv. exact (receives _ _ _ _ _ _ _ _ _ _ _ _ _ _ H' P' scalar _ rp dedicated rq At (eq_trans (eq_sym Sn) Ty) Rq Sz).
Qed.
Print Assumptions C75_received.

(** Any other engine refuses it. *)
Theorem C75_refused fnm r nes ev t w active res ws o id n e rd scalar dedicated z rp rq :
  ran fnm r nes ev t w active res ws -> NoDup (map rp_name (cf_rpcs (config_of t))) -> Z.of_nat (length (cf_rpcs (config_of t))) <= int32_max ->
  ready_at o r t res ws id n e rd -> at_index (cf_rpcs (config_of t)) z rp -> rp_server rp <> rd_type rd -> Rpc_Model.rq_index rq = Some z ->
  exists out, receive scalar rd dedicated rq = Some out /\
    Rpc_Proofs.answered out (Rpc_Model.mkResp (s_ "rpc_index should never be sent to this service: " ++ dec_of_Z z) None 0).
Proof.
  intros Rn Dr Sz Ra At Ne Rq. destruct (situation_of_test _ _ _ _ _ _ _ _ _ _ _ _ _ _ Rn Dr Ra) as (eps & k & i & s & _ & H & P & _).
  destruct (prepared _ _ _ _ _ _ _ _ _ _ _ _ _ _ H P) as (cs & _ & P1 & _).
  apply (refuses _ _ _ _ _ _ _ _ _ _ _ _ _ _ H P scalar z rp dedicated rq At); [congruence|exact Rq|exact Sz].
Qed.
Print Assumptions C75_refused.

(** From the action to the handler: each request of an iteration is sent to the
    address of the engine of its target, and that engine answers it or runs the
    action list of the RPC. *)
Theorem C75_call fnm r nes ev t w active res ws o o' info id n e rd a d rp sv f scalar joint incoming warmup h sent l :
  ran fnm r nes ev t w active res ws -> NoDup (map rp_name (cf_rpcs (config_of t))) -> Z.of_nat (length (cf_rpcs (config_of t))) <= int32_max ->
  ready_at o r t res ws id n e rd -> network o r nes ws info ->
  calls t rd a rp sv -> In (en_type e) (rp_clients rp) -> rp_channel rp = None -> draws_ok d ->
  parse_filter (ou_stochastic o) (match rp_fanout rp with Some x => x | None => s_ "all" end) = Some f -> fits f (en_index e) (sv_spec sv) ->
  send_rpcs rd a d = ToPeers sent -> requests_of scalar joint incoming warmup h rd a (map fst sent) = Some l ->
  length l = length sent /\
  forall q v rq size, nth_error l q = Some (v, rq, size) ->
    exists y n', nth_error sent q = Some (v, add_protocol y) /\ instance_name (sv_spec sv) v = Some n' /\ n' <> n /\ reaches o r ws info sv v y /\
      request_size (config_of t) rp (en_request a) scalar joint size (Rpc_Model.rq_resp_size rq) /\
      forall id' e' rd' dedicated, ready_at o' r t res ws id' n' e' rd' -> (forall x, scalar x <> None) ->
        exists hd dl out, last_named li_name (cf_lists (config_of t)) (rp_name rp) hd dl /\ receive scalar rd' dedicated rq = Some out /\
          (li_actions dl <> [] -> starts_list out dedicated hd None) /\
          (li_actions dl = [] -> exists size', Rpc_Proofs.answered out (Rpc_Model.mkResp [] None size') /\ response_size (config_of t) rp scalar rq size').
Proof.
  intros Rn Dr Sz Ra Nw Ca Cl Ch Dw Pf Fi Es El.
  destruct (C75_delivered _ _ _ _ _ _ _ _ _ _ _ _ _ _ _ _ _ _ _ _ Rn Dr Ra Nw Ca Cl Ch Dw Pf Fi) as (sent' & Es' & _ & Ds & _). assert (sent' = sent) by congruence. subst sent'.
  destruct (C75_requests _ _ _ _ _ _ _ _ _ _ _ _ _ _ _ _ _ scalar joint incoming warmup h (map fst sent) Rn Dr Ra Ca) as (_ & R). destruct (R l El) as (M & Rl).
  split; [rewrite <- (map_length (fun x => fst (fst x)) l), M; apply map_length|]. intros q v rq size K. destruct (Rl q v rq size K) as (_ & Ri & _ & _ & Rs).
  assert (Nv : nth_error (map fst sent) q = Some v) by (rewrite <- M, (map_nth_error _ _ _ K); reflexivity).
  rewrite nth_error_map in Nv. destruct (nth_error sent q) as [[v' x]|] eqn:Q; [|discriminate]. cbn in Nv. injection Nv as ->.
  destruct (Ds v x (nth_error_In _ _ Q)) as (V & Ne & y & -> & Re). pose proof Re as (id0 & n' & e0 & _ & _ & Nm & _).
  exists y, n'. split; [reflexivity|]. split; [exact Nm|]. split; [congruence|]. split; [exact Re|]. split; [exact Rs|].
  intros id' e' rd' ded Ra' Sc. destruct (C75_received _ _ _ _ _ _ _ _ _ _ _ _ _ _ _ _ _ _ _ scalar ded a rp sv rq v Rn Dr Sz Ra Ra' Ca V Nm Ri) as (_ & _ & hd & dl & Ln & L1 & L2).
  assert (An : answer_instance rp v = None) by (unfold answer_instance; rewrite Ch; reflexivity). rewrite An in L1, L2.
  destruct (li_actions dl) as [|z zs] eqn:Q0.
  - destruct (L2 eq_refl Sc) as (out & size' & A1 & A2 & A3). exists hd, dl, out. split; [exact Ln|]. split; [exact A1|]. split; [congruence|eauto].
  - destruct (L1 ltac:(discriminate)) as (out & A1 & A2). exists hd, dl, out. split; [exact Ln|]. split; [exact A1|]. split; [auto|congruence].
Qed.
Print Assumptions C75_call.

(** An action whose RPC is not for this client sends nothing. *)
Theorem C75_wrong_client fnm r nes ev t w active res ws o id n e rd a d rp sv :
  ran fnm r nes ev t w active res ws -> NoDup (map rp_name (cf_rpcs (config_of t))) -> ready_at o r t res ws id n e rd ->
  calls t rd a rp sv -> ~ In (en_type e) (rp_clients rp) -> send_rpcs rd a d = NotInitiated.
Proof.
  intros Rn Dr Ra [(l & Il & Ia) Ka Ir _] Cl. destruct (situation_of_test _ _ _ _ _ _ _ _ _ _ _ _ _ _ Rn Dr Ra) as (eps & k & i & s & _ & H & P & _).
  exact (not_sent _ _ _ _ _ _ _ _ _ _ _ _ _ _ H P l a _ d rp Il Ia Ka Ir eq_refl Cl).
Qed.
Print Assumptions C75_wrong_client.

(** ** Examples: the two clients and three servers of C74; the clients call all
    servers and the channel "last", the servers call each other *)
Definition ex_conf : config :=
  mkConf ex_services [] [ex_rpc "echo" None; mkRpcD (s_ "fetch") [s_ "client"] (s_ "server") None None None None (Some (s_ "last"));
                         mkRpcD (s_ "ring") [s_ "server"] (s_ "server") None None None None None] []
    [ex_action "a" [] (KRpc (s_ "echo")); ex_action "b" [] (KRpc (s_ "fetch")); ex_action "c" [] (KRpc (s_ "ring"))]
    [mkListD (s_ "client") [s_ "a"; s_ "b"; s_ "c"]; mkListD (s_ "server") [s_ "c"]; mkListD (s_ "echo") []; mkListD (s_ "fetch") [s_ "c"]; mkListD (s_ "ring") []] [] [] [] [].
Definition ex_test : whole := mkWhole (mkTest ex_conf [] [] [] (te_constraints (wt_test ex_t)) (te_bundles (wt_test ex_t)) []) 16 (wt_drivers ex_t) [] (s_ "grpc").
Definition result_of (t : whole) (o : test_outcome) : test_result := match o with TestOk r _ => r | _ => mkTR t [] [] end.
Lemma ran_of t x : x = do_run_test (fun _ _ => true) ex_r ex_nes ex_ev t ex_w [0; 1; 2; 3; 9] -> placeable t ->
  match fst (fst x) with TestOk _ _ => true | _ => false end = true ->
  ran (fun _ _ => true) ex_r ex_nes ex_ev t ex_w [0; 1; 2; 3; 9] (result_of t (fst (fst x))) (worlds_of (fst (fst x))).
Proof.
  intros Ex P Q. split.
  - destruct C74_ex_setting as [A _ C D]. constructor; assumption.
  - rewrite <- Ex. clear Ex. destruct x as [[out w1] act]. cbn [fst] in *. destruct out; try discriminate. cbn [result_of worlds_of]. eauto.
Qed.
Definition ex_run_of (t : whole) : test_outcome := fst (fst (do_run_test (fun _ _ => true) ex_r ex_nes ex_ev t ex_w [0; 1; 2; 3; 9])).
Definition ex_result : test_result := result_of ex_test (ex_run_of ex_test).
Definition ex_worlds : worlds := worlds_of (ex_run_of ex_test).
Example C75_ex_ran : ran (fun _ _ => true) ex_r ex_nes ex_ev ex_test ex_w [0; 1; 2; 3; 9] ex_result ex_worlds /\ NoDup (map rp_name (cf_rpcs (config_of ex_test))).
Proof.
  split; [|repeat constructor; cbn; intuition discriminate]. apply (ran_of ex_test _ eq_refl); [|vm_compute; reflexivity].
  destruct (se_test _ _ _ _ _ C74_ex_setting) as [_ B C]. constructor; [|exact B|exact C].
  destruct Peer_Props.ex_sane as [S1 S2 S3]. constructor; [exact S1|exact S2|exact S3].
Qed.
(** Drivers are started on the control address and port. *)
Definition ex_socket (x : Z * str * engine) : str :=
  let '(id, _, e) := x in match socket_for_device (ne_ifs (ex_nes id)) (ne_flag (ex_nes id)) (ne_control (ex_nes id)) (en_port e) with Some a => a | None => [] end.
Definition engines_of (w : world) : list (Z * str * engine) :=
  flat_map (fun id => match w id with Some s => map (fun ne => (id, fst ne, snd ne)) (nd_engines s) | None => [] end) [0; 1; 2; 3].
Lemma engines_of_In w id n e : In (id, n, e) (engines_of w) <-> occupied ex_r id /\ engine_at w id n e.
Proof.
  unfold engines_of. rewrite in_flat_map. rewrite <- node_numbers_In. change (node_numbers ex_r) with [0; 1; 2; 3]. split.
  - intros (i & O & I). destruct (w i) as [s|] eqn:E; [|destruct I]. apply in_map_iff in I as ([n' e'] & Q & I). cbn [fst snd] in Q. injection Q as -> -> ->. split; [exact O|exists s; auto].
  - intros (O & s & E & I). exists id. split; [exact O|]. rewrite E. apply in_map_iff. exists (n, e). auto.
Qed.
Definition outside_of (l : list (Z * str * engine)) : outside :=
  mkOutside no_st (fun a => if existsb (str_eqb a) (map ex_socket l) then Some (s_ "driver of " ++ a) else None) (fun _ _ => true) (fun _ => true) (skipn 10).
Definition ex_info (id : Z) (n : str) (e : engine) : str := s_ "driver of " ++ ex_socket (id, n, e).
Lemma network_of ws : NoDup (map ex_socket (engines_of (wo_introduced ws))) -> ~ In [] (map ex_socket (engines_of (wo_introduced ws))) ->
  network (outside_of (engines_of (wo_introduced ws))) ex_r ex_nes ws ex_info.
Proof.
  intros D N.
  assert (L : forall id n e, In (id, n, e) (engines_of (wo_introduced ws)) -> listens ex_nes id e (ex_socket (id, n, e))).
  { intros id n e I. apply (in_map ex_socket) in I. unfold listens. unfold ex_socket in *. destruct (socket_for_device _ _ _ _); [reflexivity|destruct (N I)]. }
  constructor.
  - intros a i. cbn [ou_net outside_of]. destruct (existsb _ _) eqn:Q; [|discriminate]. intros [= <-]. apply existsb_exists in Q as (a' & I & Q). destruct (str_eqb_spec a a'); [subst a'|discriminate].
    apply in_map_iff in I as ([[id n] e] & <- & I). destruct (proj1 (engines_of_In _ _ _ _) I) as (O & A). exists id, n, e. split; [exact O|]. split; [exact A|]. split; [exact (L _ _ _ I)|reflexivity].
  - intros id n e id' n' e' a O O' A A' Ls Ls'. pose proof (proj2 (engines_of_In _ _ _ _) (conj O A)) as I. pose proof (proj2 (engines_of_In _ _ _ _) (conj O' A')) as I'.
    assert (Q : (id, n, e) = (id', n', e')).
    { apply (named_once ex_socket (engines_of (wo_introduced ws))); [exact D|exact I|exact I'|]. unfold listens in *. unfold ex_socket. rewrite Ls, Ls'. reflexivity. }
    injection Q as -> -> ->. auto.
Qed.
Definition ex_out : outside := outside_of (engines_of (wo_introduced ex_worlds)).
Lemma ex_sockets : map ex_socket (engines_of (wo_introduced ex_worlds)) = map s_ ["10.0.0.0:5000"; "10.0.0.1:5000"; "10.0.0.2:5000"; "10.0.0.3:5000"; "10.0.0.3:5001"]%string.
Proof. vm_compute. reflexivity. Qed.
Example C75_ex_network : network ex_out ex_r ex_nes ex_worlds ex_info.
Proof.
  apply network_of; rewrite ex_sockets; [repeat constructor|]; cbn [map In]; intuition discriminate.
Qed.
(** What two of the engines send, one action after the other. *)
Definition engine_of (w : world) (id : Z) (n : str) : option engine := match w id with Some s => map_find n (nd_engines s) | None => None end.
Definition ready_of (o : outside) (res : test_result) (w : world) (t : whole) (id : Z) (n : str) : option (engine * ready) :=
  match engine_of w id n with
  | Some e =>
      option_map (pair e) (prepare (ou_stochastic o) (fun _ => ou_net o) (ou_accept o) (ou_setup o) (ou_address o) (config_of t) (en_type e) (en_index e)
                             (map peer_endpoint (tr_placement res)))
  | None => None
  end.
Lemma ready_of_at o res ws t id n e rd : occupied ex_r id -> ready_of o res (wo_introduced ws) t id n = Some (e, rd) -> ready_at o ex_r t res ws id n e rd.
Proof.
  unfold ready_of, engine_of. intros O E. destruct (wo_introduced ws id) as [s|] eqn:W; [|discriminate]. destruct (map_find n (nd_engines s)) as [e'|] eqn:F; [|discriminate].
  destruct (prepare _ _ _ _ _ _ _ _ _) as [rd'|] eqn:P; [|discriminate]. injection E as -> ->. constructor; [exact O|exists s; split; [exact W|exact (map_find_In _ _ _ F)]|eauto].
Qed.
Definition ex_draws : draws := mkDraws 0 (fun lo _ => lo) 0 (fun l => l).
Definition sends (x : option (engine * ready)) (j : nat) : list sending :=
  match x with Some (_, rd) => match nth_error (tb_lists (rd_tables rd)) j with Some l => map (fun a => send_rpcs rd a ex_draws) (tl_entries l) | None => [] end | None => [] end.
Definition gets (x : option (engine * ready)) (z : Z) : option (list Z) :=
  match x with Some (_, rd) => option_map Rpc_Proofs.lists_of (receive (fun _ => Some 8) rd false (Rpc_Model.mkReq (Some z) None None None None)) | None => None end.
Example C75_ex_sends :
  sends (ready_of ex_out ex_result (wo_introduced ex_worlds) ex_test 3 (s_ "client/1/0/0")) 0 =
    [ToPeers [(0, s_ "ipv4:10.0.0.1:5000"); (1, s_ "ipv4:10.0.0.0:5000"); (2, s_ "ipv4:10.0.0.2:5000")]; ToChannel (s_ "ipv4:10.0.0.2:5000"); NotInitiated] /\
  sends (ready_of ex_out ex_result (wo_introduced ex_worlds) ex_test 1 (s_ "server/0/0/0")) 1 = [ToPeers [(1, s_ "ipv4:10.0.0.0:5000"); (2, s_ "ipv4:10.0.0.2:5000")]] /\
  map (gets (ready_of ex_out ex_result (wo_introduced ex_worlds) ex_test 1 (s_ "server/0/0/0"))) [0; 1; 2] = [Some []; Some [3]; Some []].
Proof. vm_compute. auto. Qed.
(** The requests of the first two actions of the client, and what engines answer. *)
Definition asks (x : option (engine * ready)) (targets : list Z) : list (option (list (Z * option Z * Z))) :=
  match x with
  | Some (_, rd) => map (fun a => option_map (map (fun y => (fst (fst y), Rpc_Model.rq_index (snd (fst y)), snd y)))
      (requests_of (fun _ => Some 8) (fun _ => None) Rpc_Model.fake_request false (Rpc_Model.mkHop 0 0 0 0 0 0 0 0 0 0 (Rpc_Model.mkDef 0 0 0 0 0 false)) rd a targets))
      match tb_lists (rd_tables rd) with l :: _ => firstn 2 (tl_entries l) | [] => [] end
  | None => []
  end.
Definition replies (x : option (engine * ready)) (z : Z) : option (list Rpc_Model.h_event) :=
  match x with Some (_, rd) => option_map Rpc_Model.hr_events (receive (fun _ => Some 8) rd true (Rpc_Model.mkReq (Some z) None None None None)) | None => None end.
Example C75_ex_requests :
  asks (ready_of ex_out ex_result (wo_introduced ex_worlds) ex_test 3 (s_ "client/1/0/0")) [0; 1; 2] =
    [Some [(0, Some 0, 16); (1, Some 0, 16); (2, Some 0, 16)]; Some [(0, Some 1, 16); (1, Some 1, 16); (2, Some 1, 16)]] /\
  map (replies (ready_of ex_out ex_result (wo_introduced ex_worlds) ex_test 0 (s_ "server/1/0/0"))) [0; 1] =
    [Some [Rpc_Model.HSend (Rpc_Model.mkResp [] None 32); Rpc_Model.HFree]; Some [Rpc_Model.HList 3 (Some 1)]] /\
  replies (ready_of ex_out ex_result (wo_introduced ex_worlds) ex_test 3 (s_ "client/1/0/0")) 0 =
    Some [Rpc_Model.HSend (Rpc_Model.mkResp (s_ "rpc_index should never be sent to this service: 0") None 0); Rpc_Model.HFree].
Proof. vm_compute. auto. Qed.
Example C75_ex_ready : forall id n, In (id, n) [(3, s_ "client/1/0/0"); (1, s_ "server/0/0/0")] ->
  exists e rd, ready_of ex_out ex_result (wo_introduced ex_worlds) ex_test id n = Some (e, rd) /\ ready_at ex_out ex_r ex_test ex_result ex_worlds id n e rd.
Proof.
  assert (G : forall id n, occupied ex_r id -> match ready_of ex_out ex_result (wo_introduced ex_worlds) ex_test id n with Some _ => true | None => false end = true ->
    exists e rd, ready_of ex_out ex_result (wo_introduced ex_worlds) ex_test id n = Some (e, rd) /\ ready_at ex_out ex_r ex_test ex_result ex_worlds id n e rd).
  { intros id n O Q. destruct (ready_of ex_out ex_result (wo_introduced ex_worlds) ex_test id n) as [[e rd]|] eqn:E; [|discriminate]. exists e, rd. split; [reflexivity|exact (ready_of_at _ _ _ _ _ _ _ _ O E)]. }
  intros id n [Q|[Q|[]]]; injection Q as <- <-; (apply G; [apply node_numbers_In; vm_compute; tauto|vm_compute; reflexivity]).
Qed.
(** The hypotheses of the theorems about the first action of the client. *)
Example C75_ex_calls : exists e rd a rp sv, ready_at ex_out ex_r ex_test ex_result ex_worlds 3 (s_ "client/1/0/0") e rd /\ calls ex_test rd a rp sv /\
  In (en_type e) (rp_clients rp) /\ rp_channel rp = None /\ fits (FGrid false false false) (en_index e) (sv_spec sv) /\ draws_ok ex_draws /\
  parse_filter no_st (match rp_fanout rp with Some x => x | None => s_ "all" end) = Some (FGrid false false false).
Proof.
  destruct (C75_ex_ready 3 (s_ "client/1/0/0") (or_introl eq_refl)) as (e & rd & E & R).
  assert (T : match ready_of ex_out ex_result (wo_introduced ex_worlds) ex_test 3 (s_ "client/1/0/0") with
    | Some (e, rd) => en_type e = s_ "client" /\ match tb_lists (rd_tables rd) with l :: _ => match tl_entries l with a :: _ => an_kind (en_action a) = KRpc (s_ "echo") | [] => False end | [] => False end
    | None => False end) by (vm_compute; auto).
  rewrite E in T. clear E. destruct T as (Ty & T). destruct (tb_lists (rd_tables rd)) as [|l ls] eqn:Ls; [destruct T|]. destruct (tl_entries l) as [|a es] eqn:Le; [destruct T|].
  exists e, rd, a, (ex_rpc "echo" None), (nth 1 ex_services (mkSvc (mkSpec [] None None None None None) [])). split; [exact R|]. split.
  - constructor; [exists l; rewrite Ls, Le; split; left; reflexivity|exact T|left; reflexivity|split; [right; left; reflexivity|reflexivity]].
  - rewrite Ty. split; [left; reflexivity|]. split; [reflexivity|]. split; [repeat split; discriminate|]. split; [|reflexivity].
    constructor; [cbn; lia|intros; cbn; lia|intro; apply Permutation_refl].
Qed.

(** A filter on a coordinate the servers do not have: the engine of the second
    client reads beyond the peers of the only server. *)
Definition narrow_conf : config :=
  mkConf [nth 0 ex_services (mkSvc (mkSpec [] None None None None None) []); mkSvc (mkSpec (s_ "server") (Some 1) None (Some 1) (Some 1) (Some 1)) []] []
    [mkRpcD (s_ "echo") [s_ "client"] (s_ "server") None None (Some (s_ "same_x")) None None] []
    [ex_action "a" [] (KRpc (s_ "echo"))] [mkListD (s_ "client") [s_ "a"]; mkListD (s_ "echo") []] [] [] [] [].
Lemma narrow_sane : sane narrow_conf.
Proof.
  constructor.
  - assert (G : forall n k, 0 < k <= int32_max -> canonical (mkSpec n (Some k) None (Some k) (Some 1) (Some 1))).
    { intros n k R. constructor; cbn; [exists k; split; [reflexivity|lia]|intros y E; injection E as <-; lia|intros z E; injection E as <-; split; [lia|discriminate]|f_equal; lia|lia]. }
    constructor; [apply G; vm_compute; auto; split; [reflexivity|discriminate]|]. constructor; [apply G; vm_compute; split; [reflexivity|discriminate]|constructor].
  - repeat constructor; cbn; intros H; repeat destruct H as [H|H]; try discriminate; exact H.
  - vm_compute. repeat constructor; cbn; intuition discriminate.
Qed.
Definition narrow_test : whole := mkWhole (mkTest narrow_conf [] [] [] [] [] []) 16 (wt_drivers ex_t) [] (s_ "grpc").
Definition narrow_worlds : worlds := worlds_of (ex_run_of narrow_test).
Definition narrow_out : outside := outside_of (engines_of (wo_introduced narrow_worlds)).
Theorem C75_foreign_filter_refuted : exists fnm r nes ev t w active res ws o info id n e rd a d rp sv f,
  ran fnm r nes ev t w active res ws /\ NoDup (map rp_name (cf_rpcs (config_of t))) /\ ready_at o r t res ws id n e rd /\ network o r nes ws info /\
  calls t rd a rp sv /\ In (en_type e) (rp_clients rp) /\ rp_channel rp = None /\ draws_ok d /\ 0 < svc_count sv /\
  parse_filter (ou_stochastic o) (match rp_fanout rp with Some x => x | None => s_ "all" end) = Some f /\ (forall l, f <> FStochastic l) /\
  send_rpcs rd a d = Broken.
Proof.
  assert (T : match ready_of narrow_out (result_of narrow_test (ex_run_of narrow_test)) (wo_introduced narrow_worlds) narrow_test 1 (s_ "client/1/0/0") with
    | Some (e, rd) => en_type e = s_ "client" /\ match tb_lists (rd_tables rd) with
        | l :: _ => match tl_entries l with a :: _ => an_kind (en_action a) = KRpc (s_ "echo") /\ send_rpcs rd a ex_draws = Broken | [] => False end | [] => False end
    | None => False end) by (vm_compute; auto).
  destruct (ready_of _ _ _ _ _ _) as [[e rd]|] eqn:E; [|destruct T]. destruct T as (Ty & T). destruct (tb_lists (rd_tables rd)) as [|l ls] eqn:Ls; [destruct T|]. destruct (tl_entries l) as [|a es] eqn:Le; [destruct T|].
  destruct T as (Ka & Br). apply ready_of_at in E; [|apply node_numbers_In; vm_compute; tauto].
  exists (fun _ _ => true), ex_r, ex_nes, ex_ev, narrow_test, ex_w, [0; 1; 2; 3; 9], (result_of narrow_test (ex_run_of narrow_test)), narrow_worlds, narrow_out, ex_info, 1, (s_ "client/1/0/0"), e, rd, a, ex_draws.
  exists (mkRpcD (s_ "echo") [s_ "client"] (s_ "server") None None (Some (s_ "same_x")) None None), (mkSvc (mkSpec (s_ "server") (Some 1) None (Some 1) (Some 1) (Some 1)) []), (FGrid true false false).
  split. { apply (ran_of narrow_test _ eq_refl); [|vm_compute; reflexivity]. constructor; [|constructor|constructor]. exact narrow_sane. }
  split; [repeat constructor; intros []|]. split; [exact E|]. split.
  { assert (Sk : map ex_socket (engines_of (wo_introduced narrow_worlds)) = map s_ ["10.0.0.0:5000"; "10.0.0.1:5000"; "10.0.0.2:5000"]%string) by (vm_compute; reflexivity).
    apply network_of; rewrite Sk; [repeat constructor|]; cbn [map In]; intuition discriminate. }
  split. { constructor; [exists l; rewrite Ls, Le; split; left; reflexivity|exact Ka|left; reflexivity|split; [right; left; reflexivity|reflexivity]]. }
  rewrite Ty. split; [left; reflexivity|]. split; [reflexivity|]. split; [constructor; [cbn; lia|intros; cbn; lia|intro; apply Permutation_refl]|].
  split; [vm_compute; reflexivity|]. split; [reflexivity|]. split; [discriminate|exact Br].
Qed.
Print Assumptions C75_foreign_filter_refuted.
