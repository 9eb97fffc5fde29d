(** C77: the protocol drivers that the options ask for are initialised, or the
    error says why not; a driver connects to the address that another one
    announces, where its server listens. *)
From Coq Require Import Ascii String List NArith ZArith QArith Bool Arith Lia Permutation.
From Verif Require Import Base_Model Base_Proofs Grid_Model Grid_Proofs Place_Model Place_Proofs Fanout_Model Fanout_Proofs Util_Model Net_Model Pool_Model Driver_Model Table_Model Table_Props.
From Verif Require Seq_Model Wire_Model.
From Verif Require Import Seq_Proofs Node_Model Node_Proofs Node_Props Cluster_Model Cluster_Proofs Cluster_Props.
From Verif Require Import Peer_Model Peer_Proofs Peer_Props Deliver_Model Deliver_Proofs Deliver_Props Conn_Model Conn_Proofs Conn_Proofs2.
Import ListNotations.
Open Scope Z_scope.

(** ** Initialisation *)
Theorem C77_grpc le o port g : grpc_init le o port = InitOk g <-> grpc_ready le o port g.
Proof.
  split; [|apply grpc_ready_init]. intro E. pose proof (grpc_init_spec le o port) as S. rewrite E in S. exact S.
Qed.
Print Assumptions C77_grpc.
Theorem C77_grpc_refused le o port : (forall g, ~ grpc_ready le o port g) <-> exists c m, grpc_init le o port = InitError c m /\ grpc_refused le o port c m.
Proof.
  pose proof (grpc_init_spec le o port) as S. split.
  - intro N. destruct (grpc_init le o port) as [g|c m|]; [elim (N g S)|eauto|destruct S].
  - intros (c & m & E & _) g R. rewrite (grpc_ready_init _ _ _ _ R) in E. discriminate.
Qed.
Print Assumptions C77_grpc_refused.
Theorem C77_homa le o port h : homa_init le o port = InitOk h <-> homa_ready le o port h.
Proof.
  split; [|apply homa_ready_init]. intro E. pose proof (homa_init_spec le o port) as S. rewrite E in S. exact S.
Qed.
Print Assumptions C77_homa.
Theorem C77_homa_throws le o port : homa_init le o port = InitThrows ->
  narrow (server_int o (s_ "client_threads") 2) < 0 \/ narrow (server_int o (s_ "server_threads") 3) < 0.
Proof. intro E. pose proof (homa_init_spec le o port) as S. rewrite E in S. exact S. Qed.
Print Assumptions C77_homa_throws.
Theorem C77_mercury le o port m : mercury_init le o port = InitOk m <-> mercury_ready le o port m.
Proof.
  split; [|apply mercury_ready_init]. intro E. pose proof (mercury_init_spec le o port) as S. rewrite E in S. exact S.
Qed.
Print Assumptions C77_mercury.
Theorem C77_mercury_never_throws le o port : mercury_init le o port <> InitThrows.
Proof. intro E. pose proof (mercury_init_spec le o port) as S. rewrite E in S. exact S. Qed.
Print Assumptions C77_mercury_never_throws.
(** The info string of Mercury: the device's name and then the address take the
    places of their markers. *)
Theorem C77_mercury_info o ip port : exists s1 s2,
  replaced (s_ "__DEVICE__") (opt_str (po_netdev o)) (server_string o (s_ "hg_init_info_string") (s_ "ofi+tcp://__SERVER_IP__")) s1 /\
  replaced (s_ "__SERVER_IP__") (socket_address ip port) s1 s2 /\ info_string o ip port = s2.
Proof.
  eexists. eexists. split; [apply replace_all_spec; discriminate|]. split; [apply replace_all_spec; discriminate|]. reflexivity.
Qed.
Print Assumptions C77_mercury_info.

(** ** Trees *)
(** The allocator succeeds only if all leaves are initialised; the tree then
    consists of initialised drivers. *)
Theorem C77_tree homa mercury res les o d :
  allocate 5 (mkEnv homa mercury res (fun path o => leaf_failure (les path) o)) o 0 [] = DrvOk d -> exists l, boot les [] d = Some l /\ made les [] d l.
Proof. intro E. destruct (allocate_boots _ _ _ _ _ _ _ _ _ E) as (l & B). exists l. split; [exact B|apply boot_made, B]. Qed.
Print Assumptions C77_tree.

(** ** The handshake *)
(** A message of any fields, in any order and repeated: each of the three has
    the last value given to it, other fields do not matter. *)
Definition given_ip (f : Wire_Model.wfield) : list str := match f with (1%N, Wire_Model.WLen b) => [text_of b] | _ => [] end.
Definition given_port (f : Wire_Model.wfield) : list Z := match f with (2%N, Wire_Model.WVarint v) => [Wire_Model.to_int32 v] | _ => [] end.
Definition given_socket (f : Wire_Model.wfield) : list str := match f with (3%N, Wire_Model.WLen b) => [text_of b] | _ => [] end.
Definition last_of {A} (l : list A) : option A := hd_error (rev l).
Theorem C77_fields fs : Forall Wire_Proofs2.wfield_ok fs -> Forall (fun f => Wire_Proofs4.wval_bytes (snd f)) fs ->
  sa_parse (text_of (Wire_Model.enc_fields fs)) =
  Some (mkSA (last_of (flat_map given_ip fs)) (last_of (flat_map given_port fs)) (last_of (flat_map given_socket fs))).
Proof.
  intros W B. unfold sa_parse. rewrite bytes_of_text by (apply Wire_Proofs4.enc_fields_bytes, B).
  rewrite Wire_Proofs2.parse_enc_fields; [|exact W|pose proof (Wire_Proofs2.enc_fields_length fs); lia].
  assert (G : forall m, sa_add_all m fs = Some (mkSA (match last_of (flat_map given_ip fs) with Some x => Some x | None => sa_ip m end)
    (match last_of (flat_map given_port fs) with Some x => Some x | None => sa_port m end) (match last_of (flat_map given_socket fs) with Some x => Some x | None => sa_socket m end))).
  { clear B. assert (L : forall A (x : A) l d, match last_of (x :: l) with Some y => Some y | None => d end = match last_of l with Some y => Some y | None => Some x end).
    { intros A x l d. unfold last_of. cbn [rev]. destruct (rev l); reflexivity. }
    induction W as [|f fs Hf W IH]; intro m; cbn [sa_add_all flat_map]; [destruct m; reflexivity|]. destruct f as [num w]. destruct Hf as [Hn _]. cbn [fst] in Hn.
    assert (C : num = 1%N \/ num = 2%N \/ num = 3%N \/ (3 < num)%N) by lia.
    destruct C as [->|[->|[->|C]]].
    1,2,3: destruct w; cbn [sa_add given_ip given_port given_socket app]; rewrite ?IH; cbn [sa_ip sa_port sa_socket]; rewrite ?L; try reflexivity.
    replace (sa_add m (num, w)) with (Some m) by (destruct num as [|[[?|?|]|[?|?|]|]]; try lia; reflexivity).
    replace (given_ip (num, w)) with (@nil str) by (destruct num as [|[[?|?|]|[?|?|]|]]; try lia; reflexivity).
    replace (given_port (num, w)) with (@nil Z) by (destruct num as [|[[?|?|]|[?|?|]|]]; try lia; reflexivity).
    replace (given_socket (num, w)) with (@nil str) by (destruct num as [|[[?|?|]|[?|?|]|]]; try lia; reflexivity). cbn [app]. apply IH. }
  rewrite G. cbn [sa_ip sa_port sa_socket empty_sa]. destruct (last_of _), (last_of _), (last_of _); reflexivity.
Qed.
Print Assumptions C77_fields.
Example C77_ex_fields : sa_parse (text_of (Wire_Model.enc_fields [(3, Wire_Model.WLen [97]); (7, Wire_Model.WVarint 1); (2, Wire_Model.WVarint 5); (3, Wire_Model.WLen [98]); (2, Wire_Model.WVarint 6)]%N)) = Some (mkSA None (Some 6) (Some (s_ "b"))).
Proof. vm_compute. reflexivity. Qed.
Theorem C77_announced l ip port socket : announces l ip port socket -> short ip -> short socket -> int32 port ->
  sa_parse (announce l) = Some (mkSA (Some ip) (Some port) (Some socket)).
Proof. exact (announced_parses l ip port socket). Qed.
Print Assumptions C77_announced.
Theorem C77_connects homa_grpc ce l l' ip port socket : announces l' ip port socket -> short ip -> short socket -> int32 port ->
  forall ts, connect homa_grpc ce (announce l') l = InitOk ts <-> Forall2 (connects homa_grpc ce (announce l') ip port socket) (leaves l) ts.
Proof. intros A S1 S2 S3. apply connect_leaves, announced_parses; assumption. Qed.
Print Assumptions C77_connects.

(** Between trees of gRPC drivers: nothing is refused, and every leaf sends to
    the server of the first leaf of the other side. *)
Definition grpc_target (socket : str) (leaf : live) (t : target) : Prop :=
  exists g, leaf = LGrpc g /\ t = ToGrpc (gd_transport g) (if str_eqb (gd_transport g) (s_ "homa") then socket else add_protocol socket).
Definition modest (g : grpc_driver) : Prop := short (ad_ip (gd_ip g)) /\ short (gd_socket g) /\ int32 (gd_port g).
Theorem C77_grpc_connects homa_grpc ce les path d l l' g' :
  (forall p, le_homa_grpc (les p) = homa_grpc) -> made les path d l -> Forall is_grpc (leaves l) -> front l' = LGrpc g' -> modest g' ->
  exists ts, connect homa_grpc ce (announce l') l = InitOk ts /\ Forall2 (grpc_target (gd_socket g')) (leaves l) ts.
Proof.
  intros Hg M F Fr (S1 & S2 & S3).
  assert (A : announces l' (ad_ip (gd_ip g')) (gd_port g') (gd_socket g')) by (unfold announces; rewrite Fr; auto).
  assert (U : forall x, In x (leaves l) -> exists g, x = LGrpc g /\ usable homa_grpc (gd_transport g)).
  { intros x I. rewrite Forall_forall in F. destruct (F x I) as (g & ->). exists g. split; [reflexivity|].
    destruct (made_leaf _ _ _ _ _ M I) as (p & o & [(g2 & E & R)|[(h & E & _)|(m & E & _)]]); [|discriminate|discriminate]. injection E as <-. rewrite <- (Hg p). apply (gr_transport _ _ _ _ R). }
  assert (X : exists ts, Forall2 (connects homa_grpc ce (announce l') (ad_ip (gd_ip g')) (gd_port g') (gd_socket g')) (leaves l) ts /\ Forall2 (grpc_target (gd_socket g')) (leaves l) ts).
  { clear -U. induction (leaves l) as [|x xs IH]; [exists []; split; constructor|]. destruct IH as (ts & A & B); [intros y I; apply U; right; exact I|].
    destruct (U x (or_introl eq_refl)) as (g & -> & [E|(E & Hh)]).
    - exists (ToGrpc (s_ "tcp") (add_protocol (gd_socket g')) :: ts). split; constructor; auto. + left. auto. + exists g. rewrite E. auto.
    - exists (ToGrpc (s_ "homa") (gd_socket g') :: ts). split; constructor; auto. + right. auto. + exists g. rewrite E. auto. }
  destruct X as (ts & X1 & X2). exists ts. split; [|exact X2]. apply (C77_connects homa_grpc ce l l' _ _ _ A S1 S2 S3). exact X1.
Qed.
Print Assumptions C77_grpc_connects.

(** ** In a test *)
(** All nodes are built without Homa and Mercury and their engines' drivers are
    initialised in the surroundings [les]. *)
Record build (r : Seq_Model.registry) (nes : Z -> node_env) (ev : environment) (homa_grpc : bool) (les : Z -> nat -> list nat -> leaf_env) : Prop := mkBuild {
  bu_switches : forall id, occupied r id -> ne_homa (nes id) = false /\ ne_mercury (nes id) = false;
  bu_inits : forall id, occupied r id -> inits (ph_ext (ev_configure ev) id) (les id);
  bu_leaves : forall id k p, occupied r id -> le_homa_grpc (les id k p) = homa_grpc /\ le_ifs (les id k p) = ne_ifs (nes id) /\ le_flag (les id k p) = ne_flag (nes id) }.
(** The server of the engine's driver: at an address of the node, on the port
    that the system gave it. *)
Definition serves (nes : Z -> node_env) (t : whole) (les : Z -> nat -> list nat -> leaf_env) (id : Z) (e : engine) (g : grpc_driver) : Prop :=
  exists l, engine_driver (nes id) (traffic_of t) (les id (en_id e)) (en_type e) = Some l /\ front l = LGrpc g.
Definition tell (nes : Z -> node_env) (t : whole) (les : Z -> nat -> list nat -> leaf_env) (id : Z) (n : str) (e : engine) : str :=
  match engine_driver (nes id) (traffic_of t) (les id (en_id e)) (en_type e) with Some l => announce l | None => [] end.

Theorem C77_serves fnm r nes ev t w active res ws hg les id n e : ran fnm r nes ev t w active res ws -> build r nes ev hg les ->
  occupied r id -> engine_at (wo_introduced ws) id n e ->
  exists g, serves nes t les id e g /\ gd_socket g = socket_address (gd_ip g) (gd_port g) /\
    (exists dev v, ip_for_device (ne_ifs (nes id)) (ne_flag (nes id)) dev v = Some (gd_ip g)) /\
    (exists p, le_start (les id (en_id e) p) (gd_transport g) (socket_address (gd_ip g) 0) = Some (gd_port g)) /\
    tell nes t les id n e = sa_serialize (mkSA (Some (ad_ip (gd_ip g))) (Some (gd_port g)) (Some (gd_socket g))).
Proof.
  intros (St & w' & active' & E) [B1 B2 B3] O A. destruct (test_drivers _ _ _ _ _ _ _ _ _ _ _ _ _ _ _ St E (B2 id O) O A) as (l & D).
  destruct (B1 id O) as (N1 & N2). pose proof (driver_grpc _ _ _ _ _ N1 N2 D) as F. destruct (driver_made _ _ _ _ _ D) as (o & d & _ & _ & M).
  rewrite Forall_forall in F. destruct (F _ (front_leaf l)) as (g & Fr). exists g. split; [exists l; auto|].
  destruct (made_leaf _ _ _ _ _ M (front_leaf l)) as (p & o' & [(g2 & E2 & R)|[(h & E2 & _)|(m & E2 & _)]]); [|congruence|congruence].
  assert (g2 = g) by congruence. subst g2. destruct (B3 id (en_id e) p O) as (_ & I1 & I2). split; [exact (gr_socket _ _ _ _ R)|]. split; [|split].
  - rewrite <- I1, <- I2. pose proof (gr_ip _ _ _ _ R). eauto.
  - exists p. exact (gr_port _ _ _ _ R).
  - unfold tell. rewrite D, announce_front, Fr. reflexivity.
Qed.
Print Assumptions C77_serves.

(** No driver of the test refuses to connect to another one. *)
Theorem C77_accepted fnm r nes ev t w active res ws hg les ce id n e id' n' e' g' : ran fnm r nes ev t w active res ws -> build r nes ev hg les ->
  occupied r id -> engine_at (wo_introduced ws) id n e -> occupied r id' -> engine_at (wo_introduced ws) id' n' e' -> serves nes t les id' e' g' -> modest g' ->
  exists l ts, engine_driver (nes id) (traffic_of t) (les id (en_id e)) (en_type e) = Some l /\
    connect hg ce (tell nes t les id' n' e') l = InitOk ts /\ Forall2 (grpc_target (gd_socket g')) (leaves l) ts.
Proof.
  intros (St & w' & active' & E) [B1 B2 B3] O A O' A' (l' & D' & Fr) Mo. destruct (test_drivers _ _ _ _ _ _ _ _ _ _ _ _ _ _ _ St E (B2 id O) O A) as (l & D).
  destruct (B1 id O) as (N1 & N2). pose proof (driver_grpc _ _ _ _ _ N1 N2 D) as F. destruct (driver_made _ _ _ _ _ D) as (o & d & _ & _ & M).
  destruct (C77_grpc_connects hg ce _ _ _ _ l' g' (fun p => proj1 (B3 id (en_id e) p O)) M F Fr Mo) as (ts & C & T).
  exists l, ts. split; [exact D|]. split; [|exact T]. unfold tell. rewrite D'. exact C.
Qed.
Print Assumptions C77_accepted.

(** The RPCs of C75 go to the sockets of the drivers of their targets. *)
Theorem C77_delivered fnm r nes ev t w active res ws o id n e rd a d rp sv f hg les ce :
  ran fnm r nes ev t w active res ws -> NoDup (map rp_name (cf_rpcs (config_of t))) -> ready_at o r t res ws id n e rd -> build r nes ev hg les ->
  network o r nes ws (tell nes t les) -> (forall i, ou_address o i = address_in ce i) ->
  (forall id' n' e' g', occupied r id' -> engine_at (wo_introduced ws) id' n' e' -> serves nes t les id' e' g' -> modest g') ->
  calls t rd a rp sv -> In (en_type e) (rp_clients rp) -> rp_channel rp = None -> draws_ok d ->
  parse_filter (ou_stochastic o) (match rp_fanout rp with Some x => x | None => s_ "all" end) = Some f -> fits f (en_index e) (sv_spec sv) ->
  exists sent, send_rpcs rd a d = ToPeers sent /\ NoDup (map fst sent) /\
    forall v x, In (v, x) sent -> exists id' n' e' g', occupied r id' /\ engine_at (wo_introduced ws) id' n' e' /\ instance_name (sv_spec sv) v = Some n' /\ n' <> n /\
      serves nes t les id' e' g' /\ x = add_protocol (socket_address (gd_ip g') (gd_port g')).
Proof.
  intros Rn Dr Ra Bu Nw Ad Mo Ca Cl Ch Dw Pf Fi.
  destruct (C75_delivered _ _ _ _ _ _ _ _ _ _ _ _ _ _ _ _ _ _ _ _ Rn Dr Ra Nw Ca Cl Ch Dw Pf Fi) as (sent & Es & Nd & Ds & _). exists sent. split; [exact Es|]. split; [exact Nd|].
  intros v x I. destruct (Ds v x I) as (_ & Ne & y & -> & (id' & n' & e' & O' & A' & Nm & ->)).
  destruct (C77_serves _ _ _ _ _ _ _ _ _ _ _ _ _ _ Rn Bu O' A') as (g & Sv & So & _ & _ & Te). exists id', n', e', g. do 3 (split; [assumption|]). split; [congruence|]. split; [exact Sv|].
  f_equal. rewrite Ad, <- So. unfold address_in. rewrite Te. destruct (Mo _ _ _ _ O' A' Sv) as (S1 & S2 & S3). rewrite sa_roundtrip by assumption. reflexivity.
Qed.
Print Assumptions C77_delivered.

(** ** Examples *)
Definition no_homa : homa_sys := mkHomaSys (Some (s_ "No such protocol")) None (fun _ _ => None) (inl []).
Definition good_homa : homa_sys := mkHomaSys None None (fun _ _ => None) (inr (2, 4321)).
Definition good_hg : hg_sys := mkHgSys (fun _ _ => true) (fun s => s ++ s_ "!").
Definition ex_le : leaf_env := mkLeafEnv (ne_ifs (ex_nes 3)) true 8 false (fun _ _ => Some 40000) good_homa good_hg.
Definition ex_opts (name protocol : string) (server client : list (string * string)) : driver_opts :=
  let sets := map (fun p => mkSet (Some (s_ (fst p))) (Some (s_ (snd p))) None) in
  mkOpts (Some (s_ name)) (Some (s_ protocol)) (Some (s_ "eth0")) (sets server) (sets client) 0.
Definition ex_int (n : string) (z : Z) : Util_Model.setting := mkSet (Some (s_ n)) None (Some z).
Definition ex_ip : addr := mkAddr (s_ "10.0.0.3") (s_ "eth0") true.
Example C77_ex_grpc :
  grpc_init ex_le (ex_opts "mine" "grpc" [("server_type", "polling"); ("threadpool_type", "simple")]%string [("client_type", "callback")]%string) 0 =
    InitOk (mkGrpc ClientCallback (ServerPolling (PoolSimple 8)) (s_ "tcp") ex_ip 40000 (s_ "10.0.0.3:40000")) /\
  grpc_init ex_le (ex_opts "grpc_async" "grpc" [] []) 0 =
    InitOk (mkGrpc ClientCallback (ServerHandoff (PoolElastic 8)) (s_ "tcp") ex_ip 40000 (s_ "10.0.0.3:40000")) /\
  grpc_init ex_le (ex_opts "mine" "grpc" [("transport", "homa")]%string []) 0 = InitError 12 (s_ "Homa transport not compiled in") /\
  grpc_init ex_le (ex_opts "mine" "grpc" [] [("client_type", "async")]%string) 0 = InitError 3 (s_ "Invalid GRPC client_type (async)").
Proof. vm_compute. auto. Qed.
Example C77_ex_homa :
  homa_init ex_le (mkOpts None (Some (s_ "homa")) (Some (s_ "eth0")) [ex_int "client_threads" 5; ex_int "nocopy" 0] [] 4) 0 =
    InitOk (mkHoma (PoolElastic 8) false false 5 5 ex_ip 4321 (s_ "10.0.0.3:4321")).
Proof. vm_compute. auto. Qed.
Example C77_ex_mercury :
  mercury_init ex_le (ex_opts "m" "mercury" [] []) 0 = InitOk (mkMercury (PoolElastic 8) ex_ip (s_ "ofi+tcp://10.0.0.3:0") (s_ "ofi+tcp://10.0.0.3:0!")) /\
  mercury_init ex_le (ex_opts "m" "mercury" [("hg_init_info_string", "na+__DEVICE__://__DEVICE__")]%string []) 0 =
    InitOk (mkMercury (PoolElastic 8) ex_ip (s_ "na+eth0://eth0") (s_ "na+eth0://eth0!")).
Proof. vm_compute. auto. Qed.
(** Findings.  The number of Homa server threads is not what the setting says. *)
Theorem C77_homa_server_threads_refuted : exists le o port h, homa_init le o port = InitOk h /\
  In (ex_int "server_threads" 7) (po_server o) /\ hd_servers h = 2%nat.
Proof.
  exists ex_le, (mkOpts None None (Some (s_ "eth0")) [ex_int "server_threads" 7] [] 0), 0. eexists. split; [vm_compute; reflexivity|]. split; [left; reflexivity|reflexivity].
Qed.
Print Assumptions C77_homa_server_threads_refuted.
(** A negative number of threads ends the node manager. *)
Theorem C77_homa_initialises_refuted : exists le o port, homa_init le o port = InitThrows /\ po_server o = [ex_int "client_threads" (-1)].
Proof. exists ex_le, (mkOpts None None (Some (s_ "eth0")) [ex_int "client_threads" (-1)] [] 0), 0. split; vm_compute; reflexivity. Qed.
Print Assumptions C77_homa_initialises_refuted.
(** The protocol "grpc_async_callback" alone does not give the asynchronous
    client and server: only options called "grpc_async" do. *)
Theorem C77_async_callback_refuted : exists le o port g, po_protocol o = Some (s_ "grpc_async_callback") /\ grpc_init le o port = InitOk g /\
  gd_client g = ClientPolling /\ gd_server g = ServerInline.
Proof.
  exists ex_le, (ex_opts "mine" "grpc_async_callback" [] []), 0. eexists. split; [reflexivity|]. split; [vm_compute; reflexivity|]. split; reflexivity.
Qed.
Print Assumptions C77_async_callback_refuted.
(** The transport of the client is a *server* setting. *)
Theorem C77_client_transport_refuted : exists le o port g, client_string o (s_ "transport") (s_ "tcp") = s_ "homa" /\ grpc_init le o port = InitOk g /\ gd_transport g = s_ "tcp".
Proof.
  exists ex_le, (ex_opts "mine" "grpc" [] [("transport", "homa")]%string), 0. eexists. split; [vm_compute; reflexivity|]. split; [vm_compute; reflexivity|reflexivity].
Qed.
Print Assumptions C77_client_transport_refuted.
(** A gRPC client accepts what a Mercury server announces, which is not a
    ServerAddress, and would send to an empty address; a Homa client connects to
    a gRPC server. *)
Definition ex_ce : conn_env := mkConn (fun _ => empty_sa) (fun _ s => Some s) (fun _ => None).
Definition ex_grpc : live := LGrpc (mkGrpc ClientPolling ServerInline (s_ "tcp") ex_ip 40000 (s_ "10.0.0.3:40000")).
Definition ex_homa : live := LHoma (mkHoma (PoolElastic 8) false false 5 5 ex_ip 4321 (s_ "10.0.0.3:4321")).
Definition ex_mercury : live := LMercury (mkMercury (PoolElastic 8) ex_ip (s_ "ofi+tcp://10.0.0.3:0") (s_ "ofi+tcp://10.0.0.3:0!")).
Theorem C77_kinds_match_refuted : exists ce l1 l2 l3 t, sa_parse (announce l2) = None /\
  connect false ce (announce l2) l1 = InitOk [t] /\ t = ToGrpc (s_ "tcp") [] /\
  connect false ce (announce l1) l3 = InitOk [ToHoma true 40000 (s_ "10.0.0.3")] /\
  (exists g, l1 = LGrpc g) /\ (exists m, l2 = LMercury m) /\ (exists h, l3 = LHoma h).
Proof.
  exists ex_ce, ex_grpc, ex_mercury, ex_homa. eexists. split; [vm_compute; reflexivity|]. split; [vm_compute; reflexivity|]. split; [reflexivity|]. split; [vm_compute; reflexivity|].
  split; [eexists; reflexivity|]. split; eexists; reflexivity.
Qed.
Print Assumptions C77_kinds_match_refuted.
Example C77_ex_trees :
  connect false ex_ce (announce (LCounter ex_grpc)) (LDouble ex_grpc (LCounter ex_homa)) = InitOk [ToGrpc (s_ "tcp") (s_ "ipv4:10.0.0.3:40000"); ToHoma true 40000 (s_ "10.0.0.3")] /\
  connect false ex_ce (announce ex_homa) (LDouble ex_grpc ex_mercury) = InitError 2 (s_ "HG_Addr_lookup: failed").
Proof. vm_compute. auto. Qed.

(** The test of C75 with drivers: the clients use two gRPC drivers in turn
    under an RPC counter, the servers the asynchronous one. *)
Definition ex_tree : driver_opts :=
  mkOpts (Some (s_ "two")) (Some (s_ "composable_rpc_counter")) None
    (map (fun p => mkSet (Some (s_ (fst p))) (Some (s_ (snd p))) None) [("driver_under_test", "double_barrel"); ("next_protocol_driver", "grpc")]%string) [] 0.
Definition conn_test : whole :=
  mkWhole (wt_test ex_test) 16 [mkSD (s_ "client") (Some (s_ "two")); mkSD (s_ "server") (Some (s_ "grpc_async"))]
    [ex_tree; ex_opts "grpc_async" "grpc" [] []] (s_ "grpc").
Definition conn_les (id : Z) (k : nat) (path : list nat) : leaf_env :=
  mkLeafEnv (ne_ifs (ex_nes id)) (ne_flag (ex_nes id)) 8 false (fun _ _ => Some (40000 + 100 * Z.of_nat k + Z.of_nat (last path 0%nat))) no_homa good_hg.
Definition conn_ev : environment :=
  mkEnvironment (mkPhase (fun _ => Served) (fun id => mkExt (fun k path o => leaf_failure (conn_les id k path) o) (Node_Model.ex_engine ex_good) (Node_Model.ex_connect ex_good) (Node_Model.ex_logs ex_good)) (ph_events (ev_configure ex_ev)))
    (ev_introduce ex_ev) (ev_run ex_ev) (ev_get ex_ev).
Definition conn_run : test_outcome := fst (fst (do_run_test (fun _ _ => true) ex_r ex_nes conn_ev conn_test ex_w [0; 1; 2; 3; 9])).
Definition conn_result : test_result := result_of conn_test conn_run.
Definition conn_worlds : worlds := worlds_of conn_run.
Lemma conn_placeable : placeable conn_test.
Proof.
  destruct (se_test _ _ _ _ _ C74_ex_setting) as [_ B C]. constructor; [|exact B|exact C].
  destruct Peer_Props.ex_sane as [S1 S2 S3]. constructor; [exact S1|exact S2|exact S3].
Qed.
Example C77_ex_ran : ran (fun _ _ => true) ex_r ex_nes conn_ev conn_test ex_w [0; 1; 2; 3; 9] conn_result conn_worlds /\ NoDup (map rp_name (cf_rpcs (config_of conn_test))).
Proof.
  split; [|repeat constructor; cbn; intuition discriminate]. split.
  - destruct C74_ex_setting as [A _ [C1 C2 C3 C4] D]. constructor; [exact A|exact conn_placeable|constructor; assumption|exact D].
  - assert (Q : match conn_run with TestOk _ _ => true | _ => false end = true) by (vm_compute; reflexivity).
    unfold conn_result, conn_worlds. revert Q. unfold conn_run. destruct (do_run_test _ _ _ _ _ _ _) as [[out w1] act]. cbn [fst]. destruct out; try discriminate. cbn [result_of worlds_of]. eauto.
Qed.
Example C77_ex_build : build ex_r ex_nes conn_ev false conn_les.
Proof. constructor; intros; try (intros k path o); cbn; auto. Qed.
Definition conn_out (told : Z -> str -> engine -> str) (w : world) : outside :=
  mkOutside no_st (fun a => option_map (fun x : Z * str * engine => let '(id, n, e) := x in told id n e) (find (fun x => str_eqb a (ex_socket x)) (engines_of w)))
    (fun _ i => match connect false ex_ce i ex_grpc with InitOk _ => true | _ => false end) (fun _ => true) (address_in ex_ce).
Lemma conn_network_of told ws : NoDup (map ex_socket (engines_of (wo_introduced ws))) -> ~ In [] (map ex_socket (engines_of (wo_introduced ws))) ->
  network (conn_out told (wo_introduced ws)) ex_r ex_nes ws told.
Proof.
  intros D N.
  assert (L : forall id n e, In (id, n, e) (engines_of (wo_introduced ws)) -> listens ex_nes id e (ex_socket (id, n, e))).
  { intros id n e I. apply (in_map ex_socket) in I. unfold listens. unfold ex_socket in *. destruct (socket_for_device _ _ _ _); [reflexivity|destruct (N I)]. }
  constructor.
  - intros a i. cbn [ou_net conn_out]. destruct (find _ _) as [[[id n] e]|] eqn:Q; cbn [option_map]; [|discriminate]. intros [= <-]. apply find_some in Q as (I & Q).
    destruct (str_eqb_spec a (ex_socket (id, n, e))); [subst a|discriminate]. destruct (proj1 (engines_of_In _ _ _ _) I) as (O & A). exists id, n, e. split; [exact O|]. split; [exact A|]. split; [exact (L _ _ _ I)|reflexivity].
  - intros id n e id' n' e' a O O' A A' Ls Ls'. pose proof (proj2 (engines_of_In _ _ _ _) (conj O A)) as I. pose proof (proj2 (engines_of_In _ _ _ _) (conj O' A')) as I'.
    assert (Q : (id, n, e) = (id', n', e')).
    { apply (named_once ex_socket (engines_of (wo_introduced ws))); [exact D|exact I|exact I'|]. unfold listens in *. unfold ex_socket. rewrite Ls, Ls'. reflexivity. }
    injection Q as -> -> ->. auto.
Qed.
Lemma conn_sockets : map ex_socket (engines_of (wo_introduced conn_worlds)) = map s_ ["10.0.0.0:5000"; "10.0.0.1:5000"; "10.0.0.2:5000"; "10.0.0.3:5000"; "10.0.0.3:5001"]%string.
Proof. vm_compute. reflexivity. Qed.
Definition conn_told : Z -> str -> engine -> str := tell ex_nes conn_test conn_les.
Example C77_ex_network : network (conn_out conn_told (wo_introduced conn_worlds)) ex_r ex_nes conn_worlds conn_told.
Proof. apply conn_network_of; rewrite conn_sockets; [repeat constructor|]; cbn [map In]; intuition discriminate. Qed.
Definition conn_grpc (x : Z * str * engine) : option grpc_driver :=
  let '(id, _, e) := x in
  match engine_driver (ex_nes id) (traffic_of conn_test) (conn_les id (en_id e)) (en_type e) with Some l => match front l with LGrpc g => Some g | _ => None end | None => None end.
Example C77_ex_drivers :
  map (fun x => option_map (fun g => (gd_client g, gd_server g, gd_socket g)) (conn_grpc x)) (engines_of (wo_introduced conn_worlds)) =
    map (fun a => Some (ClientCallback, ServerHandoff (PoolElastic 8), s_ a)) ["10.0.0.0:40000"; "10.0.0.1:40000"; "10.0.0.2:40000"]%string ++
    map (fun a => Some (ClientPolling, ServerInline, s_ a)) ["10.0.0.3:40001"; "10.0.0.3:40101"]%string.
Proof. vm_compute. reflexivity. Qed.
Definition modestb (g : grpc_driver) : bool :=
  (Z.of_nat (length (ad_ip (gd_ip g))) <? 2147483648) && (Z.of_nat (length (gd_socket g)) <? 2147483648) && (-2147483648 <=? gd_port g) && (gd_port g <? 2147483648).
Example C77_ex_modest : forall id n e g, occupied ex_r id -> engine_at (wo_introduced conn_worlds) id n e -> serves ex_nes conn_test conn_les id e g -> modest g.
Proof.
  assert (F : forallb (fun x => match conn_grpc x with Some g => modestb g | None => false end) (engines_of (wo_introduced conn_worlds)) = true) by (vm_compute; reflexivity).
  rewrite forallb_forall in F. generalize conn_worlds, F. clear F. intros ws F id n e g O A (l & D & Fr). specialize (F _ (proj2 (engines_of_In _ _ _ _) (conj O A))).
  unfold conn_grpc in F. rewrite D, Fr in F. unfold modestb in F. rewrite !andb_true_iff in F. unfold modest, short, int32. destruct F as (((F1 & F2) & F3) & F4). lia.
Qed.
Definition conn_ready (id : Z) (n : string) : option (engine * ready) :=
  ready_of (conn_out conn_told (wo_introduced conn_worlds)) conn_result (wo_introduced conn_worlds) conn_test id (s_ n).
Example C77_ex_sends :
  sends (conn_ready 3 "client/1/0/0") 0 =
    [ToPeers [(0, s_ "ipv4:10.0.0.1:40000"); (1, s_ "ipv4:10.0.0.0:40000"); (2, s_ "ipv4:10.0.0.2:40000")]; ToChannel (s_ "ipv4:10.0.0.2:40000"); NotInitiated].
Proof. vm_compute. auto. Qed.
(** The other hypotheses of C77_delivered. *)
Lemma first_call o res ws t id n : occupied ex_r id -> config_of t = config_of ex_test ->
  match ready_of o res (wo_introduced ws) t id n with
  | Some (e, rd) => en_type e = s_ "client" /\ match tb_lists (rd_tables rd) with l :: _ => match tl_entries l with a :: _ => an_kind (en_action a) = KRpc (s_ "echo") | [] => False end | [] => False end
  | None => False end ->
  exists e rd a rp sv, ready_at o ex_r t res ws id n e rd /\ calls t rd a rp sv /\
    In (en_type e) (rp_clients rp) /\ rp_channel rp = None /\ fits (FGrid false false false) (en_index e) (sv_spec sv) /\
    parse_filter no_st (match rp_fanout rp with Some x => x | None => s_ "all" end) = Some (FGrid false false false).
Proof.
  intros O Ec T. destruct (ready_of o res (wo_introduced ws) t id n) as [[e rd]|] eqn:E; [|destruct T]. pose proof (ready_of_at _ _ _ _ _ _ _ _ O E) as R.
  destruct T as (Ty & T). destruct (tb_lists (rd_tables rd)) as [|l ls] eqn:Ls; [destruct T|]. destruct (tl_entries l) as [|a es] eqn:Le; [destruct T|].
  exists e, rd, a, (ex_rpc "echo" None), (nth 1 ex_services (mkSvc (mkSpec [] None None None None None) [])). split; [exact R|]. split.
  - constructor; [exists l; rewrite Ls, Le; split; left; reflexivity|exact T|rewrite Ec; left; reflexivity|rewrite Ec; split; [right; left; reflexivity|reflexivity]].
  - rewrite Ty. split; [left; reflexivity|]. split; [reflexivity|]. split; [repeat split; discriminate|reflexivity].
Qed.
Example C77_ex_calls : exists e rd a rp sv, ready_at (conn_out conn_told (wo_introduced conn_worlds)) ex_r conn_test conn_result conn_worlds 3 (s_ "client/1/0/0") e rd /\ calls conn_test rd a rp sv /\
  In (en_type e) (rp_clients rp) /\ rp_channel rp = None /\ fits (FGrid false false false) (en_index e) (sv_spec sv) /\
  parse_filter no_st (match rp_fanout rp with Some x => x | None => s_ "all" end) = Some (FGrid false false false).
Proof. apply first_call; [apply node_numbers_In; vm_compute; tauto|reflexivity|vm_compute; auto]. Qed.
