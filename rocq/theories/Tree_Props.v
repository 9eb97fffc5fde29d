(** C94: what gRPC drivers acquire they release, once and in order; below
    composite drivers each leaf goes through a life of its own, of the calls it
    is given, and is released whether or not the rest could be allocated.
    The specification is [replay] (Res_Proofs.v) with [grpc_needs]
    (Tree_Proofs.v), [homa_needs] and [mercury_needs]. *)
From Coq Require Import Ascii String List NArith ZArith Bool Arith Lia.
From Verif Require Import Base_Model Base_Proofs Util_Model Net_Model Pool_Model Driver_Model Grpc_Model Conn_Model Res_Model Res_Proofs Res_Proofs2 Res_Proofs3 Res_Props
  Tree_Model Tree_Proofs Tree_Proofs2 Tree_Proofs3.
Import ListNotations.
Open Scope nat_scope.

(** ** Examples *)
Definition as_str (key value : string) : setting := mkSet (Some (s_ key)) (Some (s_ value)) None.
Definition polling_opts : driver_opts := mkOpts None (Some (s_ "grpc")) (Some (s_ "eth0")) [as_str "server_type" "polling"] [] 4.
Definition no_start : leaf_env := mkLeafEnv [mkIf AfInet (Some (s_ "10.0.0.3")) (s_ "eth0")] true 8 false (fun _ _ => None)
    (mkHomaSys None None (fun _ _ => None) (inr (2, 4321)%Z)) (mkHgSys (fun c _ => true) (fun s => s)).

(** ** gRPC *)
(** Whatever the options ask for, wherever Initialize stops, whatever is called
    after it, in any order and any number of times (unless a CHECK ends the
    process): everything made is unmade once, queues after the threads that
    poll them, services after the servers that use them. *)
Theorem C94_grpc_released : forall t le o port l life, chosen o t -> grpc_life le o port l = Some life -> replay (grpc_needs t) [] life = Some [].
Proof. intros t le o port l life C E. apply replay_nil. exact (grpc_life_plays t le o port l life C E). Qed.
Print Assumptions C94_grpc_released.
Example C94_grpc_released_ex : chosen polling_opts TPolling /\
  grpc_life (ex_le None all_work) polling_opts 0 [GPeers 2; GConnect 1 true; GConnect 0 false; GConnect 1 true; GChannels 1; GSetup 0 [0; 1] true; GServer; GClient; GPeers 1; GConnect 0 true] =
    Some [Made ClientCq; Made (ClientThread 0); Made Pool; Made Service; Made ServerCq; Made Listening; Made (ServerThread 0);
          Made (Stub 1); Made (Stub 3); Unmade (Stub 1); Made (Stub 5);
          Unmade Listening; Unmade (ServerThread 0); Unmade (ClientThread 0); Unmade (Stub 3); Made (Stub 9);
          Unmade (Stub 9); Unmade Pool; Unmade Service; Unmade ServerCq; Unmade ClientCq; Unmade (Stub 5)] /\
  (exists d, grpc_init (ex_le None all_work) polling_opts 0 = InitOk d).
Proof. split; [left; vm_compute; reflexivity|]. split; [vm_compute; reflexivity|]. eexists. vm_compute. reflexivity. Qed.
Example C94_grpc_released_ex2 : grpc_life no_start polling_opts 0 [GPeers 2] =
    Some [Made ClientCq; Made (ClientThread 0); Made Pool; Made Service; Made ServerCq; Unmade (ClientThread 0); Unmade Pool; Unmade Service; Unmade ServerCq; Unmade ClientCq] /\
  (forall d, grpc_init no_start polling_opts 0 <> InitOk d).
Proof. split; [vm_compute; reflexivity|]. intros d. vm_compute. discriminate. Qed.
Example C94_grpc_released_ex3 : let o := mkOpts (Some (s_ "grpc_async")) (Some (s_ "grpc")) (Some (s_ "eth0")) [] [] 4 in chosen o THandoff /\
  grpc_life (ex_le None all_work) o 0 [GPeers 1; GConnect 0 true] =
    Some [Made Pool; Made Service; Made Listening; Made (Stub 1); Unmade (Stub 1); Unmade Listening; Unmade Pool; Unmade Service].
Proof. split; [left; vm_compute; reflexivity|vm_compute; reflexivity]. Qed.
(** The specification rejects wrong orders, leaks and double releases. *)
Example C94_needs_ex : replay (grpc_needs TPolling) [] [Made ClientCq; Made (ClientThread 0); Unmade ClientCq; Unmade (ClientThread 0)] = None /\
  replay (grpc_needs TInline) [] [Made Service; Unmade Service; Unmade Service] = None /\
  replay (grpc_needs THandoff) [] [Made Service; Made Listening] = None /\
  replay (grpc_needs TInline) [] [Made Service; Made Listening; Unmade Listening] = Some [Service].
Proof. repeat split; vm_compute; reflexivity. Qed.

(** ** Trees *)
(** A driver is made exactly where the allocator returns one; then what happens
    at each leaf is its own life with the calls that reached it, and nothing
    happens elsewhere. *)
Theorem C94_tree_lives : forall homa mercury res les o l life d, tree_life homa mercury res les o l = Some life ->
  allocate 5 (tree_env homa mercury res les) o 0 [] = DrvOk d ->
  (forall p L, In (p, L) (leaves [] d) -> lived les p L l (proj p life)) /\
  (forall p, (forall L, ~ In (p, L) (leaves [] d)) -> proj p life = []).
Proof. intros homa mercury res les o l life d. apply life_ok. Qed.
Print Assumptions C94_tree_lives.
(** If the allocator fails, every leaf that was begun is the life of a driver on
    which nothing was called. *)
Theorem C94_tree_failed : forall homa mercury res les o l life, tree_life homa mercury res les o l = Some life ->
  (forall d, allocate 5 (tree_env homa mercury res les) o 0 [] <> DrvOk d) ->
  forall p, proj p life = [] \/ exists L, lived les p L [] (proj p life).
Proof. intros homa mercury res les o l life. apply life_failed. Qed.
Print Assumptions C94_tree_failed.

(** What is in order for a leaf by itself. *)
Definition orderly (L : driver) (ev : list event) : Prop :=
  match L with
  | DGrpc o => forall t, chosen o t -> replay (grpc_needs t) [] ev = Some []
  | DHoma o => exists held, replay (homa_needs false) [] ev = Some held /\ forall x, In x held <-> x = ServerBuf /\ In (Made ServerBuf) ev /\ ~ In (Made (ServerThread 0)) ev
  | DMercury o => replay (mercury_needs true) [] ev = Some []
  | _ => False
  end.
Definition frees_own (le : leaf_env) : Prop :=
  forall info, hg_works (le_hg le) HgSelf info = true -> hg_works (le_hg le) HgToString info = true /\ hg_works (le_hg le) HgFree info = true.
Lemma lived_orderly les p L l ev : frees_own (les p) -> l = [] \/ engine_use l -> lived les p L l ev -> orderly L ev.
Proof.
  intros W U H. destruct L as [o|o|o| |]; cbn [lived orderly] in *; try exact H.
  - destruct H as (cs & _ & E). intros t C. exact (C94_grpc_released t _ _ _ _ _ C E).
  - destruct H as (cs & _ & <-). apply C93_homa_released.
  - destruct H as (cs & H & E).
    assert (K : exists n r, cs = SetPeers n :: r /\ ~ resizes r /\ NoDup (connected r) \/ cs = []).
    { destruct U as [->|(n & r & -> & N & D)].
      - exists 0, []. right. inversion H as [|l0 ? ? ? ? ? K|l0 ? ? ? ? K]; [reflexivity|destruct l0; discriminate K|destruct l0; discriminate K].
      - destruct (seen_cons _ _ _ H _ _ eq_refl) as [(x & cs' & A & -> & B)|[[P|P] _]]; [|destruct P|discriminate P].
        injection A as <-. exists n, cs'. left. split; [reflexivity|]. split; [exact (seen_resizes _ _ _ B N)|exact (seen_nodup _ _ _ B D)]. }
    destruct K as (n & r & [(-> & R & D)| ->]).
    + exact (C93_mercury_released _ _ _ _ _ _ E R D W).
    + rewrite mercury_life_peers in E. refine (C93_mercury_released _ _ _ _ _ _ E _ _ W); [intros [k []]|apply NoDup_nil].
Qed.
(** Used as the engine does, every leaf of every tree is released in order ... *)
Theorem C94_tree_released : forall homa mercury res les o l life d, tree_life homa mercury res les o l = Some life ->
  allocate 5 (tree_env homa mercury res les) o 0 [] = DrvOk d -> engine_use l -> (forall p, frees_own (les p)) ->
  forall p L, In (p, L) (leaves [] d) -> orderly L (proj p life).
Proof. intros homa mercury res les o l life d E A U W p L H. apply (lived_orderly les p L l); auto. exact (proj1 (C94_tree_lives _ _ _ _ _ _ _ _ E A) _ _ H). Qed.
Print Assumptions C94_tree_released.
(** ... and so is every leaf that was begun when the allocation fails. *)
Theorem C94_failed_released : forall homa mercury res les o l life, tree_life homa mercury res les o l = Some life ->
  (forall d, allocate 5 (tree_env homa mercury res les) o 0 [] <> DrvOk d) -> (forall p, frees_own (les p)) ->
  forall p, proj p life = [] \/ exists L, orderly L (proj p life).
Proof.
  intros homa mercury res les o l life E A W p. destruct (C94_tree_failed _ _ _ _ _ _ _ E A p) as [H|[L H]]; [left; exact H|right]. exists L. apply (lived_orderly les p L []); auto.
Qed.
Print Assumptions C94_failed_released.
Definition double_opts (below : string) : driver_opts := mkOpts None (Some (s_ "double_barrel")) (Some (s_ "eth0")) [as_str "next_protocol_driver" below] [] 4.
Definition ex_calls : list tcall := [TPeers 2; TConnect 0 (fun _ => true); TConnect 1 (fun p => match p with [1] => true | _ => false end); TServer; TClient].
Example C94_tree_ex : exists d, allocate 5 (tree_env true true None (fun _ => ex_le None all_work)) (double_opts "grpc") 0 [] = DrvOk d /\
  map fst (leaves [] d) = [[1]; [2]] /\ engine_use ex_calls /\ (forall p : list nat, frees_own (ex_le None all_work)) /\
  tree_life true true None (fun _ => ex_le None all_work) (double_opts "grpc") ex_calls =
    Some (map (pair [1]) [Made ClientCq; Made (ClientThread 0); Made Service; Made Listening] ++ map (pair [2]) [Made ClientCq; Made (ClientThread 0); Made Service; Made Listening] ++
          [([1], Made (Stub 1)); ([2], Made (Stub 1)); ([1], Made (Stub 2)); ([1], Unmade Listening); ([2], Unmade Listening)] ++
          map (pair [1]) [Unmade (ClientThread 0); Unmade (Stub 1); Unmade (Stub 2)] ++ map (pair [2]) [Unmade (ClientThread 0); Unmade (Stub 1)] ++
          map (pair [2]) [Unmade Service; Unmade ClientCq] ++ map (pair [1]) [Unmade Service; Unmade ClientCq]).
Proof.
  eexists. split; [vm_compute; reflexivity|]. split; [vm_compute; reflexivity|]. split; [|split; [|vm_compute; reflexivity]].
  - exists 2. eexists. split; [reflexivity|]. split; [intros k; cbn; intuition discriminate|]. cbn. repeat constructor; cbn; intuition discriminate.
  - intros _ info _. split; reflexivity.
Qed.
(** The second instance cannot start: the first is taken down. *)
Example C94_failed_ex : let les := fun p => match p with [2] => no_start | _ => ex_le None all_work end in
  (forall d, allocate 5 (tree_env true true None les) (double_opts "grpc") 0 [] <> DrvOk d) /\
  tree_life true true None les (double_opts "grpc") [] =
    Some (map (pair [1]) [Made ClientCq; Made (ClientThread 0); Made Service; Made Listening] ++
          map (pair [2]) [Made ClientCq; Made (ClientThread 0); Made Service; Unmade (ClientThread 0); Unmade Service; Unmade ClientCq] ++
          map (pair [1]) [Unmade (ClientThread 0); Unmade Listening; Unmade Service; Unmade ClientCq]).
Proof. split; [intros d; vm_compute; discriminate|vm_compute; reflexivity]. Qed.


(** ** Connecting through composites *)
(** HandleConnect succeeds where it does so at every leaf; each leaf is asked
    only when those before it have succeeded, and then stores one stub (or
    address), the one it replaces being deleted. *)
Theorem C94_connect : forall peer works t e t' ok, tree_call (TConnect peer works) [] t = Some (e, t', ok) ->
  (ok = true <-> forall q L, In (q, L) (mleaves [] t) -> works q = true) /\
  forall l1 q L l2, mleaves [] t = l1 ++ (q, L) :: l2 ->
    ((exists q' L', In (q', L') l1 /\ works q' = false) -> proj q e = []) /\
    ((forall q' L', In (q', L') l1 -> works q' = true) -> proj q e = connecting peer (works q) L).
Proof.
  intros peer works t e t' ok H. destruct (connect_spec _ _ _ _ _ _ _ H) as [A B]. split.
  - rewrite A, forallb_forall. split; [intros K q L I; exact (K _ I)|intros K [q L] I; exact (K _ _ I)].
  - intros l1 q L l2 E. rewrite (B _ _ _ _ E). split.
    + intros (q' & L' & I & F). destruct (forallb _ l1) eqn:Q; [|reflexivity]. rewrite forallb_forall in Q. specialize (Q _ I). cbn [fst] in Q. congruence.
    + intros K. replace (forallb _ l1) with true; [reflexivity|]. symmetry. apply forallb_forall. intros [q' L'] I. exact (K _ _ I).
Qed.
Print Assumptions C94_connect.
Definition ex_tree : mtree :=
  match grow 5 true true None (fun _ => ex_le None all_work) (double_opts "grpc") 0 [] with
  | (_, Some t) => match tree_call (TPeers 1) [] t with Some (_, t', _) => t' | None => t end
  | _ => MHoma 0 (snd (homa_make (ex_le None all_work) (ex_opts 1)))
  end.
Example C94_connect_ex : map fst (mleaves [] ex_tree) = [[1]; [2]] /\
  option_map (fun r => (fst (fst r), snd r)) (tree_call (TConnect 0 (fun _ => true)) [] ex_tree) = Some ([([1], Made (Stub 1)); ([2], Made (Stub 1))], true).
Proof. split; vm_compute; reflexivity. Qed.
(** Finding: a connection that fails is not undone: one instance is left
    connected to the peer and the other is not. *)
Theorem C94_connect_atomic_refuted : exists peer works t e t', tree_call (TConnect peer works) [] t = Some (e, t', false) /\ e <> [].
Proof. exists 0, (fun p => match p with [1] => true | _ => false end), ex_tree. do 2 eexists. split; [vm_compute; reflexivity|discriminate]. Qed.
Print Assumptions C94_connect_atomic_refuted.

(** ShutdownServer and ShutdownClient reach every leaf, succeed, and end all the
    threads of this side that run there, and none of the other side. *)
Theorem C94_shutdown : forall (server : bool) t e t' ok, tree_call (if server then TServer else TClient) [] t = Some (e, t', ok) -> ok = true /\
  forall q L, In (q, L) (mleaves [] t) -> exists L', In (q, L') (mleaves [] t') /\
    threads server L' = [] /\ threads (negb server) L' = threads (negb server) L /\
    forall i, (In (Unmade (if server then ServerThread i else ClientThread i)) (proj q e) <-> In i (threads server L)) /\
              ~ In (Unmade (if server then ClientThread i else ServerThread i)) (proj q e).
Proof.
  intros server t e t' ok H. destruct (shut_spec server t [] e t' ok H) as [A B]. split; [exact A|]. intros q L I. destruct (B _ _ I) as (L' & I' & T1 & T2 & T3 & T4).
  exists L'. split; [exact I'|]. split; [exact T1|]. split; [exact T2|]. intros i. split; [exact (T3 i)|]. destruct server; exact (T4 i).
Qed.
Print Assumptions C94_shutdown.
Example C94_shutdown_ex : forall below : string, (below = "grpc" \/ below = "homa" \/ below = "mercury")%string -> exists t, snd (grow 5 true true None (fun _ => ex_le None all_work) (double_opts below) 0 []) = Some t /\
  map fst (mleaves [] t) = [[1]; [2]] /\ map (fun x => threads false (snd x)) (mleaves [] t) = (if String.eqb below "homa" then [[0; 1]; [0; 1]] else [[0]; [0]]) /\
  option_map (fun r => proj [2] (fst (fst r))) (tree_call TClient [] t) = Some (if String.eqb below "homa" then [Unmade (ClientThread 0); Unmade (ClientThread 1); Unmade ClientBuf; Unmade ClientSock] else [Unmade (ClientThread 0)]).
Proof. intros below [-> | [-> | ->]]; eexists; (split; [vm_compute; reflexivity|]); repeat split; vm_compute; reflexivity. Qed.
(** A multi-server channel is set up by a driver that is gRPC itself, with a
    transport that can, and by no other; then there is one stub more. *)
Theorem C94_channels : forall channel peers works t e t' ok, tree_call (TSetup channel peers works) [] t = Some (e, t', ok) ->
  (ok = true <-> works = true /\ exists k s, t = MGrpc k s) /\
  ((exists q r, In (q, Made r) e) -> ok = true) /\ (ok = true -> exists k, In ([], Made (Stub k)) e).
Proof.
  intros channel peers works [k s|n m|k m|t1 t2|t1] e t' ok H; cbn [tree_call gcall_of mcall_of homa_call says] in H;
    try (injection H as <- <- <-; split; [split; [discriminate|intros (_ & k0 & s & E); discriminate E]|split; [intros (q & r & [])|discriminate]]).
  destruct (grpc_call k _ s) as [[e0 s']|] eqn:G; [|discriminate H]. injection H as <- <- <-. cbn [andb]. unfold grpc_call in G.
  destruct (channel <? length (g_mstubs (gs_members s))); [|discriminate G]. destruct works.
  - destruct (forallb _ peers); [|discriminate G]. injection G as <- <-. split; [split; [intros _; split; [reflexivity|do 2 eexists; reflexivity]|reflexivity]|]. split; [reflexivity|].
    intros _. exists k. left. reflexivity.
  - injection G as <- <-. split; [split; [discriminate|intros [E _]; discriminate E]|]. split; [intros (q & r & [])|discriminate].
Qed.
Print Assumptions C94_channels.
Example C94_channels_ex : exists t s e t', snd (grow 5 true true None (fun _ => ex_le None all_work) polling_opts 0 []) = Some t /\
  option_map (fun r => snd (fst r)) (tree_calls [TPeers 1; TChannels 1] t) = Some s /\ tree_call (TSetup 0 [0] true) [] s = Some (e, t', true).
Proof. do 4 eexists. split; [vm_compute; reflexivity|]. split; vm_compute; reflexivity. Qed.
(** Finding: multi-server channels cannot be set up through composites, though
    every leaf could set them up. *)
Theorem C94_channels_refuted : exists d t e t2,
  allocate 5 (tree_env true true None (fun _ => ex_le None all_work)) (double_opts "grpc") 0 [] = DrvOk d /\
  (forall p L, In (p, L) (leaves [] d) -> exists o, L = DGrpc o /\ grpc_life (ex_le None all_work) o 0 [GPeers 1; GConnect 0 true; GChannels 1; GSetup 0 [0] true] <> None) /\
  snd (grow 5 true true None (fun _ => ex_le None all_work) (double_opts "grpc") 0 []) = Some t /\
  tree_calls [TPeers 1; TConnect 0 (fun _ => true); TChannels 1; TSetup 0 [0] true] t = Some (e, t2, [true; true; true; false]).
Proof.
  do 4 eexists. split; [vm_compute; reflexivity|]. split; [|split; vm_compute; reflexivity].
  intros p L H. vm_compute in H. destruct H as [H|[H|[]]]; injection H as <- <-; eexists; (split; [reflexivity|vm_compute; discriminate]).
Qed.
Print Assumptions C94_channels_refuted.
