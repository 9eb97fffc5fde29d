(** C93: what the Homa and Mercury drivers acquire they release, once, in an
    order in which nothing is used after it is gone; and where that fails.
    The specification is [replay] with [homa_needs] (Res_Proofs.v) and
    [mercury_needs] (Res_Proofs2.v): which lists of events are in order, and
    what is held after one. *)
From Coq Require Import Ascii String List NArith ZArith Bool Arith Lia.
From Verif Require Import Base_Model Util_Model Net_Model Pool_Model Driver_Model Grpc_Model Conn_Model Res_Model Res_Proofs Res_Proofs2 Res_Proofs3.
Import ListNotations.
Open Scope nat_scope.

(** ** Examples *)
Definition ex_le (bind : option str) (works : hg_call -> bool) : leaf_env :=
  mkLeafEnv [mkIf AfInet (Some (s_ "10.0.0.3")) (s_ "eth0")] true 8 false (fun _ _ => Some 40000%Z)
    (mkHomaSys None None (fun _ _ => bind) (inr (2, 4321)%Z)) (mkHgSys (fun c _ => works c) (fun s => s)).
Definition ex_opts (threads : Z) : driver_opts := mkOpts None (Some (s_ "homa")) (Some (s_ "eth0")) [mkSet (Some (s_ "client_threads")) None (Some threads)] [] 4.
Definition all_work (c : hg_call) : bool := true.
Definition m_opts : driver_opts := mkOpts None (Some (s_ "mercury")) (Some (s_ "eth0")) [] [] 4.

(** ** Homa *)
(** Whatever Initialize does and whatever is called before the destructor:
    everything made is unmade once, threads before the sockets and the pool
    they use, except the server's buffer if there is no server thread. *)
Theorem C93_homa_released : forall le o port l, exists held, replay (homa_needs false) [] (homa_life le o port l) = Some held /\
  forall x, In x held <-> x = ServerBuf /\ In (Made ServerBuf) (homa_life le o port l) /\ ~ In (Made (ServerThread 0)) (homa_life le o port l).
Proof.
  intros le o port l. destruct (replay_plays _ _ (fun _ => False) _ [] ltac:(intros x; cbn [In]; reflexivity) (homa_life_plays false le o port l ltac:(discriminate))) as (h & R & E).
  exists h. split; [exact R|]. intros x. rewrite E, !homa_made. cbn [hholds]. rewrite homa_make_fresh.
  split; intros (A & B & C); (split; [exact A|]; split; [exact B|]); [intros [_ K]; lia|]. destruct (m_sthreads (snd (homa_make le o))) as [|n]; [reflexivity|]. exfalso. apply C. split; [reflexivity|lia].
Qed.
Print Assumptions C93_homa_released.
Example C93_homa_released_ex :
  homa_life (ex_le None all_work) (ex_opts 2) 0 [CallServer; CallClient; CallServer] =
    [Made Pool; Made ClientSock; Made ClientBuf; Made ServerSock; Made ServerBuf;
     Made (ClientThread 0); Made (ClientThread 1); Made (ServerThread 0); Made (ServerThread 1);
     Unmade (ServerThread 0); Unmade ServerBuf; Unmade (ServerThread 1); Unmade ServerSock;
     Unmade (ClientThread 0); Unmade (ClientThread 1); Unmade ClientBuf; Unmade ClientSock; Unmade Pool] /\
  (exists h, homa_init (ex_le None all_work) (ex_opts 2) 0 = InitOk h).
Proof. split; [vm_compute; reflexivity|eexists; vm_compute; reflexivity]. Qed.

(** With one thread of each kind also no thread outlives a buffer it reads, and
    nothing is left. *)
Theorem C93_homa_one_thread : forall le o port l, clients_set o = 1%Z -> (0 <= servers_set o)%Z -> replay (homa_needs true) [] (homa_life le o port l) = Some [].
Proof.
  intros le o port l C S0. apply replay_nil. eapply plays_post; [|apply homa_life_plays; auto]. intros x. cbn beta. split; [|tauto]. intros (_ & B & T).
  destruct (homa_make_plays true le o ltac:(auto)) as (_ & _ & K). rewrite (K eq_refl B) in T. discriminate.
Qed.
Print Assumptions C93_homa_one_thread.
Example C93_homa_one_thread_ex : clients_set (ex_opts 1) = 1%Z /\ (0 <= servers_set (ex_opts 1))%Z /\ length (homa_life (ex_le None all_work) (ex_opts 1) 0 []) = 14.
Proof. repeat split; vm_compute; congruence. Qed.

(** Finding: with two server threads or more (the default is two) the buffer is
    unmapped after the first of them has ended, while others may still read
    from it. *)
Theorem C93_homa_buffer_refuted : forall le o port l, In (Made (ServerThread 1)) (homa_life le o port l) -> replay (homa_needs true) [] (homa_life le o port l) = None.
Proof. exact homa_buffer_early. Qed.
Print Assumptions C93_homa_buffer_refuted.
Example C93_homa_buffer_ex : let o := mkOpts None (Some (s_ "homa")) (Some (s_ "eth0")) [] [] 4 in
  In (Made (ServerThread 1)) (homa_life (ex_le None all_work) o 0 []) /\ exists h, homa_init (ex_le None all_work) o 0 = InitOk h.
Proof. split; [vm_compute; tauto|eexists; vm_compute; reflexivity]. Qed.

(** Finding: with client_threads 0 the server's buffer is never unmapped. *)
Theorem C93_homa_leak_refuted : exists le o port h, homa_init le o port = InitOk h /\ replay (homa_needs true) [] (homa_life le o port []) = Some [ServerBuf].
Proof. exists (ex_le None all_work), (ex_opts 0), 0%Z. eexists. split; vm_compute; reflexivity. Qed.
Print Assumptions C93_homa_leak_refuted.

(** The threads that are started are as many as Initialize says it has. *)
Theorem C93_homa_threads : forall le o port h l i, homa_init le o port = InitOk h ->
  (In (Made (ClientThread i)) (homa_life le o port l) <-> i < hd_clients h) /\ (In (Made (ServerThread i)) (homa_life le o port l) <-> i < hd_servers h).
Proof.
  intros le o port h l i E. destruct (homa_ok_threads _ _ _ _ E) as (A & B & C & D & _). rewrite !homa_made. cbn [hholds]. rewrite A, B, C, D. split; split; tauto.
Qed.
Print Assumptions C93_homa_threads.
Example C93_homa_threads_ex : exists h, homa_init (ex_le None all_work) (ex_opts 3) 0 = InitOk h /\ hd_clients h = 3 /\ hd_servers h = 3.
Proof. eexists. split; [vm_compute; reflexivity|]. split; reflexivity. Qed.

(** Finding: threads are started before bind() is tried: a driver that never
    came to be has served (and ended) threads. *)
Theorem C93_homa_threads_after_success_refuted : exists le o port c m, homa_init le o port = InitError c m /\ In (Made (ServerThread 0)) (homa_life le o port []).
Proof. exists (ex_le (Some (s_ "Address already in use")) all_work), (ex_opts 2), 0%Z. do 2 eexists. split; [vm_compute; reflexivity|vm_compute; tauto]. Qed.
Print Assumptions C93_homa_threads_after_success_refuted.

(** ** Mercury *)
(** As the node manager uses it - the number of peers is set once, first, and
    each peer connected to once - everything made is unmade once: threads
    before contexts and the pool, addresses and contexts before classes.  An
    Initialize that fails also leaves nothing, as long as an address that
    HG_Addr_self gave can be printed and freed. *)
Theorem C93_mercury_released : forall le o port n r life, mercury_life le o port (SetPeers n :: r) = Some life ->
  ~ resizes r -> NoDup (connected r) ->
  (forall info, hg_works (le_hg le) HgSelf info = true -> hg_works (le_hg le) HgToString info = true /\ hg_works (le_hg le) HgFree info = true) ->
  replay (mercury_needs true) [] life = Some [].
Proof.
  intros le o port n r life E R D W. destruct (mercury_life_plays true _ _ _ _ _ E) as (L & P & _ & N).
  - intros _. split; [|split; [exact D|exists n, r; auto]]. intros x (_ & I & T). revert I T. unfold mercury_make.
    destruct (_ && _); [intros []|]. destruct (get_pool le o []); [|intros []..]. destruct (get_ip le _ 4); [|cbn; intuition discriminate..].
    specialize (W (info_string o a0 port)). unfold mercury_steps. cbv zeta.
    destruct (hg_works (le_hg le) HgInitServer _); [|cbn; intuition discriminate]. destruct (hg_works (le_hg le) HgInitClient _); [|cbn; intuition discriminate]. destruct (hg_works (le_hg le) HgContextClient _); [|cbn; intuition discriminate].
    destruct (hg_works (le_hg le) HgContextServer _); [|cbn; intuition discriminate]. destruct (hg_works (le_hg le) HgRegister _); [|cbn; intuition discriminate]. destruct (hg_works (le_hg le) HgSelf _); [|cbn; intuition discriminate].
    destruct (W eq_refl) as [-> ->]. discriminate.
  - apply replay_nil. eapply plays_post; [|exact P]. intros x. split; [apply N; reflexivity|tauto].
Qed.
Print Assumptions C93_mercury_released.
Example C93_mercury_released_ex :
  mercury_life (ex_le None all_work) m_opts 0 [SetPeers 3; Connect 2 true; Connect 0 false; Connect 1 true; Connect 0 true; MServer; MClient; MServer] =
    Some [Made Pool; Made ServerClass; Made ClientClass; Made ClientContext; Made ServerContext; Made SelfAddr; Unmade SelfAddr;
          Made (ClientThread 0); Made (ServerThread 0); Made (Addr 1); Made (Addr 3); Made (Addr 4);
          Unmade (ServerThread 0); Unmade Pool; Unmade (ClientThread 0);
          Unmade (Addr 4); Unmade (Addr 3); Unmade (Addr 1); Deregister true true;
          Unmade ServerContext; Unmade ServerClass; Unmade ClientContext; Unmade ClientClass] /\
  ~ resizes [Connect 2 true; Connect 0 false; Connect 1 true; Connect 0 true; MServer; MClient; MServer] /\
  NoDup (connected [Connect 2 true; Connect 0 false; Connect 1 true; Connect 0 true; MServer; MClient; MServer]).
Proof.
  split; [vm_compute; reflexivity|]. split; [intros (k & H); cbn in H; intuition discriminate|]. cbn. repeat constructor; cbn; intuition discriminate.
Qed.
(** A failure on the way: the client's class cannot be made. *)
Example C93_mercury_released_ex2 : mercury_life (ex_le None (fun c => match c with HgInitClient => false | _ => true end)) m_opts 0 [SetPeers 3] =
    Some [Made Pool; Made ServerClass; Unmade Pool; Deregister true false; Unmade ServerClass].
Proof. vm_compute. reflexivity. Qed.

(** Whatever is called and whatever fails: pool, threads, contexts and classes
    are released once and in order; only addresses can be left. *)
Theorem C93_mercury_ordered : forall le o port l life, mercury_life le o port l = Some life ->
  exists held, replay (mercury_needs false) [] life = Some held /\ forall x, In x held -> x = SelfAddr \/ exists a, x = Addr a.
Proof.
  intros le o port l life E. destruct (mercury_life_plays false _ _ _ _ _ E ltac:(discriminate)) as (L & P & K & _).
  destruct (replay_plays _ _ (fun _ => False) _ [] ltac:(intros x; cbn [In]; reflexivity) P) as (h & R & Q). exists h. split; [exact R|]. intros x X. apply K, Q, X.
Qed.
Print Assumptions C93_mercury_ordered.
Example C93_mercury_ordered_ex : exists life, mercury_life (ex_le None all_work) m_opts 0 [SetPeers 2; Connect 0 true; MClient; Connect 0 true; SetPeers 0] = Some life /\
  replay (mercury_needs false) [] life = Some [Addr 3; Addr 1].
Proof. eexists. split; vm_compute; reflexivity. Qed.

(** Threads are started by an Initialize that succeeds and by nothing else. *)
Theorem C93_mercury_threads : forall le o port l life i, mercury_life le o port l = Some life ->
  In (Made (ClientThread i)) life \/ In (Made (ServerThread i)) life -> exists d, mercury_init le o port = InitOk d.
Proof. exact mercury_life_threads. Qed.
Print Assumptions C93_mercury_threads.
Example C93_mercury_threads_ex : exists life, mercury_life (ex_le None all_work) m_opts 0 [] = Some life /\ In (Made (ServerThread 0)) life.
Proof. eexists. split; [vm_compute; reflexivity|cbn; tauto]. Qed.

(** The destructor deregisters the RPC once: after an Initialize that succeeded,
    in a class that is there and with an id that was set. *)
Theorem C93_mercury_deregisters : forall le o port l life d, mercury_life le o port l = Some life -> mercury_init le o port = InitOk d -> dereg life = [(true, true)].
Proof.
  intros le o port l life d E I. rewrite (mercury_life_dereg _ _ _ _ _ E).
  destruct (mercury_ok_members le o port) as (_ & A & B); [apply mercury_ok; eauto|]. rewrite A, B. reflexivity.
Qed.
Print Assumptions C93_mercury_deregisters.
Example C93_mercury_deregisters_ex : exists life d, mercury_life (ex_le None all_work) m_opts 0 [SetPeers 1] = Some life /\ mercury_init (ex_le None all_work) m_opts 0 = InitOk d.
Proof. do 2 eexists. split; vm_compute; reflexivity. Qed.
(** Finding: after an Initialize that failed early the destructor reads an id
    that was never set, and passes a class that is null. *)
Theorem C93_mercury_deregister_refuted : exists le o port life c m, mercury_life le o port [] = Some life /\ mercury_init le o port = InitError c m /\ dereg life = [(false, false)].
Proof. exists (ex_le None (fun c => match c with HgInitServer => false | _ => true end)), m_opts, 0%Z. do 3 eexists. split; [|split]; vm_compute; reflexivity. Qed.
Print Assumptions C93_mercury_deregister_refuted.
(** Finding: when HG_Addr_to_string fails the driver's own address is not freed,
    and the class is finalised while the address is there. *)
Theorem C93_mercury_self_refuted : exists le o port life c m, mercury_life le o port [] = Some life /\ mercury_init le o port = InitError c m /\
  replay (mercury_needs true) [] life = None /\ replay (mercury_needs false) [] life = Some [SelfAddr].
Proof. exists (ex_le None (fun c => match c with HgToString => false | _ => true end)), m_opts, 0%Z. do 3 eexists. split; [|split; [|split]]; vm_compute; reflexivity. Qed.
Print Assumptions C93_mercury_self_refuted.
(** Finding: connecting to the same peer again loses the first address. *)
Theorem C93_mercury_reconnect_refuted : exists le o port life, mercury_life le o port [SetPeers 1; Connect 0 true; Connect 0 true] = Some life /\
  replay (mercury_needs true) [] life = None /\ replay (mercury_needs false) [] life = Some [Addr 1].
Proof. exists (ex_le None all_work), m_opts, 0%Z. eexists. split; [|split]; vm_compute; reflexivity. Qed.
Print Assumptions C93_mercury_reconnect_refuted.
