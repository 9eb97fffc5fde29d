(** Property C92: double barrels and RPC counters with gRPC clients below. *)
From Coq Require Import Ascii String List NArith ZArith Bool Arith Lia.
From Verif Require Import Base_Model Driver_Model Driver_Proofs Driver_Props Grpc_Model Grpc_Proofs Grpc_Props Comp_Model Comp_Proofs Comp_Proofs2.
Import ListNotations.
Open Scope nat_scope.

(** Whatever the interleaving: a call of InitiateRpc becomes at most one RPC of
    one client, with the peer and the request it was given, and its
    done_callback is called at most once, with what that RPC ended with; no two
    calls share an RPC, and no client has an RPC that is not one of the calls. *)
Theorem C92_once : forall d kinds stubs l x, krun l (kstart d kinds stubs) = KNext x ->
  (forall j ci p i, nth_error (p_info x) j = Some ci -> ci_rpc ci = Some (p, i) -> exists r, rpc_at x p i = Some r /\
     r_peer r = ci_peer ci /\ r_given r = ci_request ci /\ length (r_calls r) <= 1 /\
     forall c, In c (r_calls r) -> match r_wire r with
                                   | Some (None, response) => c = mkCs (Some (ci_request ci)) response None (Some true)
                                   | Some (Some message, _) => c = mkCs None [] (Some message) (Some false)
                                   | None => False
                                   end) /\
  (forall j j' ci ci' e, nth_error (p_info x) j = Some ci -> nth_error (p_info x) j' = Some ci' -> ci_rpc ci = Some e -> ci_rpc ci' = Some e -> j = j') /\
  (forall p i r, rpc_at x p i = Some r -> exists j ci, nth_error (p_info x) j = Some ci /\ ci_rpc ci = Some (p, i)).
Proof.
  intros d kinds stubs l x R. pose proof (kinv_run d kinds stubs l _ _ (kinv_start d kinds stubs) R) as V. split; [|split; apply V].
  intros j ci p i Ei Er. destruct (nth_error (sy_calls (p_sys x)) j) as [c|] eqn:Ec.
  - assert (B : became x ci (fun _ _ => True)).
    { pose proof (ki_call _ _ _ _ V _ _ _ Ec Ei) as F. destruct c as [q|q|]; cbn [call_fine] in F; [congruence| |];
        destruct F as (p' & i' & r & A1 & A2 & A3 & A4 & A5 & _); exists p', i', r; auto 10. }
    destruct B as (p' & i' & r & A1 & A2 & A3 & A4 & A5 & _). assert (W : (p', i') = (p, i)) by congruence. injection W as -> ->.
    exists r. split; [exact A2|]. split; [exact A3|]. split; [exact A4|]. unfold rpc_at in A2. destruct (p_leaf x p) as [[k s]|] eqn:L; [|discriminate].
    destruct (ki_client _ _ _ _ V _ _ _ L) as (_ & l2 & R2). split; [apply (C47_once _ _ _ _ _ _ R2 A2)|]. intros c2 H2.
    pose proof (C47_result _ _ _ _ _ _ _ R2 A2 H2) as K. rewrite A4 in K. exact K.
  - apply nth_error_None in Ec. rewrite <- (ki_len _ _ _ _ V) in Ec. assert (j < length (p_info x)) by (apply nth_error_Some; congruence). lia.
Qed.
(** Used as documented ([kdisciplined]: the peers addressed are connected in all
    clients; ShutdownClient is called when no call is in progress and no RPC is
    initiated afterwards) nothing crashes; *)
Theorem C92_no_crash : forall d kinds stubs l, kdisciplined d stubs l (kstart d kinds stubs) -> exists x, krun l (kstart d kinds stubs) = KNext x.
Proof.
  intros d kinds stubs l D. destruct (kdisc_run d kinds stubs l _ (kinv_start _ _ _) (kdisc_start _ _ _) D) as (x & R & _). eauto.
Qed.
(** every RPC has been called back exactly once when ShutdownClient returns, and
    all its clients have been shut down; *)
Theorem C92_shutdown_waits : forall d kinds stubs l x, kdisciplined d stubs l (kstart d kinds stubs) -> krun l (kstart d kinds stubs) = KNext x -> p_shut x = KDone ->
  (forall j ci, nth_error (p_info x) j = Some ci -> exists p i r, ci_rpc ci = Some (p, i) /\ rpc_at x p i = Some r /\ r_phase r = Released /\ length (r_calls r) = 1) /\
  (forall p k s, p_leaf x p = Some (k, s) -> c_shut s = ShDone).
Proof.
  intros d kinds stubs l x Di R Sh. destruct (kdisc_run d kinds stubs l _ (kinv_start _ _ _) (kdisc_start _ _ _) Di) as (x1 & R1 & V & D).
  assert (x1 = x) by congruence. subst x1. split; [|exact (kd_end _ _ _ D Sh)].
  intros j ci Ei. assert (F : Forall (eq CDone) (sy_calls (p_sys x))) by (apply (kd_done _ _ _ D); congruence).
  destruct (nth_error (sy_calls (p_sys x)) j) as [c|] eqn:Ec; [|apply nth_error_None in Ec; rewrite <- (ki_len _ _ _ _ V) in Ec; assert (j < length (p_info x)) by (apply nth_error_Some; congruence); lia].
  rewrite Forall_forall in F. rewrite <- (F _ (nth_error_In _ _ Ec)) in Ec. destruct (ki_call _ _ _ _ V _ _ _ Ec Ei) as (p & i & r & A & B & _). exists p, i, r.
  split; [exact A|]. split; [exact B|]. unfold rpc_at in B. destruct (p_leaf x p) as [[k s]|] eqn:L; [|discriminate].
  destruct (kd_disc _ _ _ D _ _ _ L) as [_ Ds]. destruct (ki_client _ _ _ _ V _ _ _ L) as (_ & l2 & R2).
  assert (P : r_phase r = Released). { eapply (d_quiet _ _ Ds); [|exact B]. left. rewrite (kd_end _ _ _ D Sh _ _ _ L). split; discriminate. }
  split; [exact P|]. apply (C47_once _ _ _ _ _ _ R2 B). auto.
Qed.
(** when nothing is left to do every call has returned and was called back, and
    ShutdownClient has returned if it was called; *)
Theorem C92_completes : forall d kinds stubs l x, kdisciplined d stubs l (kstart d kinds stubs) -> krun l (kstart d kinds stubs) = KNext x ->
  (forall a, kinternal a x -> kstep a x = KStuck) ->
  Forall (eq CDone) (sy_calls (p_sys x)) /\ (p_shut x = KNot \/ p_shut x = KDone) /\
  forall j ci, nth_error (p_info x) j = Some ci -> exists p i r, ci_rpc ci = Some (p, i) /\ rpc_at x p i = Some r /\ r_phase r = Released /\ length (r_calls r) = 1.
Proof.
  intros d kinds stubs l x Di R St. destruct (kdisc_run d kinds stubs l _ (kinv_start _ _ _) (kdisc_start _ _ _) Di) as (x1 & R1 & V & D).
  assert (x1 = x) by congruence. subst x1. pose proof (at_rest_calls _ _ _ _ V D St) as F. destruct (at_rest_clients _ _ _ _ V D St) as [Rl Sh].
  split; [exact F|]. split; [exact Sh|]. intros j ci Ei.
  destruct (nth_error (sy_calls (p_sys x)) j) as [c|] eqn:Ec; [|apply nth_error_None in Ec; rewrite <- (ki_len _ _ _ _ V) in Ec; assert (j < length (p_info x)) by (apply nth_error_Some; congruence); lia].
  rewrite Forall_forall in F. rewrite <- (F _ (nth_error_In _ _ Ec)) in Ec. destruct (ki_call _ _ _ _ V _ _ _ Ec Ei) as (p & i & r & A & B & _). exists p, i, r.
  split; [exact A|]. split; [exact B|]. split; [exact (Rl _ _ _ B)|]. pose proof (Rl _ _ _ B) as P. unfold rpc_at in B. destruct (p_leaf x p) as [[k s]|] eqn:L; [|discriminate].
  destruct (ki_client _ _ _ _ V _ _ _ L) as (_ & l2 & R2). apply (C47_once _ _ _ _ _ _ R2 B). auto.
Qed.
(** which must happen. *)
Fixpoint all_keffective (l : list kaction) (x : comp) : Prop :=
  match l with
  | [] => True
  | a :: r => kinternal a x /\ exists x', kstep a x = KNext x' /\ all_keffective r x'
  end.
Theorem C92_terminates : forall d kinds stubs l x, krun l (kstart d kinds stubs) = KNext x ->
  exists bound, forall l2, all_keffective l2 x -> length l2 <= bound.
Proof.
  intros d kinds stubs l x R. pose proof (kinv_run d kinds stubs l _ _ (kinv_start d kinds stubs) R) as V. exists (kwork d x). clear l R.
  intros l2. revert x V. induction l2 as [|a l2 IH]; intros x V H; cbn [length]; [lia|]. destruct H as (Ia & x' & E & H).
  pose proof (kstep_move _ _ _ E) as M. pose proof (kwork_decreases _ _ _ _ _ _ V Ia M). specialize (IH x' (kinv_move _ _ _ _ _ _ V M) H). lia.
Qed.
(** The RPCs are spread evenly: for any tree that can be allocated, when all
    calls have returned the numbers of RPCs of two clients differ by at most one. *)
Theorem C92_even : forall fuel ev o path d kinds stubs l x, allocate fuel ev o 0 path = DrvOk d -> krun l (kstart d kinds stubs) = KNext x ->
  Forall (eq CDone) (sy_calls (p_sys x)) -> forall p k s p' k' s', p_leaf x p = Some (k, s) -> p_leaf x p' = Some (k', s') ->
  length (c_rpcs s) <= S (length (c_rpcs s')).
Proof.
  intros fuel ev o path d kinds stubs l x A R F p k s p' k' s' L L'. pose proof (kinv_run d kinds stubs l _ _ (kinv_start d kinds stubs) R) as V.
  destruct (ki_sys _ _ _ _ V) as [acts Rs].
  assert (G : forall t q n, leafval q t = Some n -> In n (leaf_counts t)).
  { clear. induction t as [n|c a IHa b IHb|n m a IH]; intros [|i q] k E; unfold leafval in E; cbn [node_at] in E; try discriminate; cbn [leaf_counts].
    - injection E as ->. left. reflexivity.
    - rewrite in_app_iff. destruct (i =? 1); [left; eapply IHa; exact E|]. destruct (i =? 2); [right; eapply IHb; exact E|discriminate].
    - destruct (i =? 1); [eapply IH; exact E|discriminate]. }
  apply (C45_differ_by_one _ _ _ _ _ _ _ A Rs F); eapply G; eapply (ki_count _ _ _ _ V); eassumption.
Qed.

(** What a client by itself allows (C47_no_crash) its composite does not: below
    a double barrel ShutdownClient waits for instance 1 and then for instance 2,
    and an RPC initiated from a callback of instance 2 meanwhile is given to
    instance 1, which has been shut down; the process ends. *)
Definition late_calls : list kaction :=
  [KInitiate 0 (s_ "a") None; KInitiate 0 (s_ "b") None; KThread 0; KThread 0; KThread 0; KThread 0; KThread 0; KThread 0; KThread 0;
   KThread 1; KThread 1; KThread 1; KThread 1; KThread 1; KThread 1; KThread 1; KClient [1] (Wire 0 None (s_ "ra"))].
Definition finish_rpc (k : kind) (p : list nat) (i n : nat) : list kaction :=
  match k with
  | Polling => KClient p (Poll None) :: KClient p (Poll (Some i)) :: repeat (KClient p (Poll None)) n
  | Callback => repeat (KClient p (Advance i)) n
  end.
Theorem C92_callback_initiate_refuted : forall k q o o', exists l x j,
  let start := kstart (DDouble (DGrpc o) (DGrpc o')) (fun _ => k) (fun _ => [true]) in
  krun l start = KNext x /\ in_done x j = true /\ calls_below x j = false /\ krun (l ++ [KInitiate 0 q (Some j); KThread 2; KThread 2]) start = KCrash IndexCheck.
Proof.
  intros k q o o'.
  exists (late_calls ++ finish_rpc k [1] 0 4 ++ repeat KShutdown 5 ++ repeat (KClient [1] (Poll None)) 3 ++ repeat KShutdown 3 ++ [KClient [2] (Wire 0 None (s_ "rb"))] ++ finish_rpc k [2] 0 1).
  destruct k.
  - eexists _, 1. cbn zeta. split; [vm_compute; reflexivity|]. split; [vm_compute; reflexivity|]. split; vm_compute; reflexivity.
  - eexists _, 1. cbn zeta. split; [vm_compute; reflexivity|]. split; [vm_compute; reflexivity|]. split; vm_compute; reflexivity.
Qed.

(** A counter over a double barrel: three RPCs, the third from a callback of the
    second, one failing; then shutdown. *)
Definition comp_ex_driver (o : Util_Model.driver_opts) : driver := DCounter (DDouble (DGrpc o) (DGrpc o)).
Definition comp_ex_kinds (p : list nat) : kind := if path_eqb p [1; 1] then Polling else Callback.
Definition comp_ex : list kaction :=
  [KInitiate 1 (s_ "a") None; KInitiate 0 (s_ "b") None; KThread 1; KThread 0; KThread 1; KThread 1; KThread 0; KThread 0; KThread 1; KThread 1;
   KThread 0; KThread 0; KClient [1; 1] (Wire 0 None (s_ "rb"));
   KClient [1; 1] (Poll None); KClient [1; 1] (Poll (Some 0)); KClient [1; 1] (Poll None);
   KInitiate 1 (s_ "c") (Some 1); KThread 2; KThread 2; KClient [1; 1] (Poll None)] ++
  repeat (KThread 0) 5 ++ repeat (KThread 1) 5 ++ repeat (KThread 2) 9 ++ repeat (KClient [1; 1] (Poll None)) 3 ++
  [KShutdown; KShutdown; KShutdown; KClient [1; 1] (Wire 1 None (s_ "rc")); KClient [1; 2] (Wire 0 (Some (s_ "gone")) [])] ++
  [KClient [1; 1] (Poll None); KClient [1; 1] (Poll (Some 1))] ++ repeat (KClient [1; 1] (Poll None)) 4 ++ repeat KShutdown 4 ++ repeat (KClient [1; 1] (Poll None)) 3 ++
  repeat KShutdown 6 ++ repeat (KClient [1; 2] (Advance 0)) 4 ++ repeat KShutdown 3.
Definition comp_ex_start (o : Util_Model.driver_opts) : comp := kstart (comp_ex_driver o) comp_ex_kinds (fun _ => [true; true]).
Example C92_ex : forall o, exists x, krun comp_ex (comp_ex_start o) = KNext x /\ p_shut x = KDone /\ sy_calls (p_sys x) = [CDone; CDone; CDone] /\
  map (fun ci => match ci_rpc ci with Some (p, i) => option_map (fun r => (p, r_given r, map cs_response (r_calls r), map cs_success (r_calls r))) (rpc_at x p i) | None => None end) (p_info x)
    = [Some ([1; 2], s_ "a", [[]], [Some false]); Some ([1; 1], s_ "b", [s_ "rb"], [Some true]); Some ([1; 1], s_ "c", [s_ "rc"], [Some true])] /\
  match sy_tree (p_sys x) with TCounter 3 0 (TDouble 4 (TLeaf 2) (TLeaf 1)) => True | _ => False end.
Proof.
  intros o. eexists. split; [vm_compute; reflexivity|]. vm_compute. auto.
Qed.
Definition kallowed_b (d : driver) (stubs : list nat -> list bool) (a : kaction) (x : comp) : bool :=
  match a with
  | KInitiate peer _ _ => match p_shut x with
                          | KNot => forallb (fun p => match nth_error (stubs p) peer with Some b => b | None => false end) (leaf_paths [] (fresh d))
                          | _ => false
                          end
  | KShutdown => match p_shut x with KNot => forallb (fun c => match c with CDone => true | _ => false end) (sy_calls (p_sys x)) | _ => true end
  | _ => true
  end.
Fixpoint kdisciplined_b (d : driver) (stubs : list nat -> list bool) (l : list kaction) (x : comp) : bool :=
  match l with
  | [] => true
  | a :: r => kallowed_b d stubs a x && match kstep a x with KNext x' => kdisciplined_b d stubs r x' | KCrash _ => true | KStuck => kdisciplined_b d stubs r x end
  end.
Lemma kdisciplined_b_sound d stubs l : forall x, kdisciplined_b d stubs l x = true -> kdisciplined d stubs l x.
Proof.
  induction l as [|a l IH]; intros x H; cbn [kdisciplined kdisciplined_b] in *; [exact Logic.I|]. apply andb_prop in H. destruct H as [A H]. split.
  - destruct a as [peer q o| | |]; cbn [kallowed kallowed_b] in *; auto.
    + destruct (p_shut x); try discriminate. split; [reflexivity|]. intros p Ip. rewrite forallb_forall in A. specialize (A p Ip). destruct (nth_error (stubs p) peer) as [[|]|]; congruence.
    + intros K. rewrite K in A. apply Forall_forall. intros c Ic. rewrite forallb_forall in A. specialize (A c Ic). destruct c; congruence.
  - destruct (kstep a x); auto.
Qed.
Example C92_ex_disciplined : forall o, kdisciplined (comp_ex_driver o) (fun _ => [true; true]) comp_ex (comp_ex_start o).
Proof. intros o. apply kdisciplined_b_sound. vm_compute. reflexivity. Qed.
(** A run after which nothing is left to do. *)
Definition comp_rest : list kaction :=
  late_calls ++ [KClient [2] (Wire 0 (Some (s_ "x")) [])] ++ finish_rpc Polling [1] 0 4 ++ finish_rpc Polling [2] 0 4 ++
  repeat KShutdown 5 ++ repeat (KClient [1] (Poll None)) 4 ++ repeat KShutdown 9 ++ repeat (KClient [2] (Poll None)) 4 ++ repeat KShutdown 3.
Example C92_ex_rest : forall o, let d := DDouble (DGrpc o) (DGrpc o) in let start := kstart d (fun _ => Polling) (fun _ => [true]) in
  exists x, kdisciplined d (fun _ => [true]) comp_rest start /\ krun comp_rest start = KNext x /\ p_shut x = KDone /\ forall a, kinternal a x -> kstep a x = KStuck.
Proof.
  intros o d start.
  assert (Di : kdisciplined d (fun _ => [true]) comp_rest start) by (apply kdisciplined_b_sound; vm_compute; reflexivity).
  destruct (kdisc_run d (fun _ => Polling) (fun _ => [true]) comp_rest _ (kinv_start _ _ _) (kdisc_start _ _ _) Di) as (x & R & V & D). fold start in R.
  assert (W : match krun comp_rest start with KNext x => kwork d x = 0 /\ p_shut x = KDone | _ => False end) by (vm_compute; auto). rewrite R in W. destruct W as [W Sh].
  exists x. split; [exact Di|]. split; [exact R|]. split; [exact Sh|]. intros a Ia. destruct (kstep a x) as [x'|c|] eqn:E; [exfalso|exfalso|reflexivity].
  - pose proof (kwork_decreases _ _ _ _ _ _ V Ia (kstep_move _ _ _ E)). lia.
  - apply (kno_crash _ _ _ a x c V D); [|exact E]. destruct a; try exact Logic.I; [destruct Ia|]. destruct Ia as [_ N]. congruence.
Qed.

Print Assumptions C92_once.
Print Assumptions C92_no_crash.
Print Assumptions C92_shutdown_waits.
Print Assumptions C92_completes.
Print Assumptions C92_terminates.
Print Assumptions C92_even.
Print Assumptions C92_callback_initiate_refuted.
