(** Properties C11-C14: node registration, test sequences, result collection. *)
From Coq Require Import Ascii String List NArith ZArith Bool Lia Permutation.
From Verif Require Import Base_Model Base_Proofs Place_Model Seq_Model Seq_Proofs Seq_Proofs2.
Import ListNotations.
Open Scope Z_scope.

Definition req (text : string) (pre : Z) : reg_request := mkReg (s_ text) (s_ "host") 10000 pre [].
(** Out of order preassigned ids, a conflict, a repetition and an invalid port. *)
Definition history : list (bool * reg_request) :=
  [(true, req "a" (-1)); (true, req "b" 4); (true, req "c" (-1)); (true, req "d" 4); (true, req "a" (-1));
   (true, req "e" 2); (true, mkReg (s_ "f") (s_ "host") 65536 (-1) [])].
Example C11_example : fst (register_all history empty_registry) =
  [RegOk 0 (s_ "node0"); RegOk 4 (s_ "node4"); RegOk 5 (s_ "node5"); RegInvalid; RegOk 0 (s_ "node0");
   RegOk 2 (s_ "node2"); RegInvalid].
Proof. vm_compute. reflexivity. Qed.

(** C11.  Over any history, identities are equal exactly when the
    registrations are. *)
Theorem C11_unique_identities : forall l out r, register_all l empty_registry = (out, r) ->
  forall i j oki rqi okj rqj idi ai idj aj,
  nth_error l i = Some (oki, rqi) -> nth_error out i = Some (RegOk idi ai) ->
  nth_error l j = Some (okj, rqj) -> nth_error out j = Some (RegOk idj aj) ->
  (rq_text rqi = rq_text rqj <-> idi = idj) /\ (idi = idj <-> ai = aj).
Proof. exact history_unique. Qed.
Print Assumptions C11_unique_identities.

(** A granted request gets a fresh preassigned id as asked, and is recorded. *)
Theorem C11_granted : forall r ok rq id a r', reachable_registry r -> register_node ok rq r = (RegOk id a, r') ->
  request_valid rq /\ a = node_alias id /\
  (map_find (rq_text rq) (rg_ids r) = None -> 0 <= rq_preassigned rq -> id = rq_preassigned rq) /\
  (map_find (rq_text rq) (rg_ids r) = None -> ~ occupied r id) /\
  slot_get id (rg_nodes r') = Some (mkSlot (Some rq) true a false).
Proof. exact register_granted. Qed.
Print Assumptions C11_granted.

(** No request disturbs the node of another registration. *)
Theorem C11_undisturbed : forall r ok rq res r' t id, reachable_registry r -> register_node ok rq r = (res, r') ->
  t <> rq_text rq -> map_find t (rg_ids r) = Some id ->
  map_find t (rg_ids r') = Some id /\ slot_get id (rg_nodes r') = slot_get id (rg_nodes r).
Proof.
  exact (fun r ok rq res r' t id R E N F =>
    let S := step_stable _ _ _ _ _ (reachable_inv r R) (register_step _ _ _ _ _ (reachable_inv r R) E) in
    conj (proj1 S t id F) (proj2 S t id N F)).
Qed.
Print Assumptions C11_undisturbed.

(** A request is only refused when malformed or when it asks for a taken id. *)
Theorem C11_refused : forall r ok rq r', reachable_registry r -> register_node ok rq r = (RegInvalid, r') ->
  ~ request_valid rq \/
  (map_find (rq_text rq) (rg_ids r) = None /\ 0 <= rq_preassigned rq /\ occupied r (rq_preassigned rq)).
Proof. exact register_refused. Qed.
Print Assumptions C11_refused.

(** Every node offered for placement can be looked up by alias and called, so
    the CHECKs of the sequencer never fire. *)
Theorem C11_placed_nodes_callable : forall l out r, all_stubs l -> register_all l empty_registry = (out, r) ->
  NoDup (map fst (node_attributes r)) /\
  forall a, In a (map fst (node_attributes r)) -> exists id, lookup_node r a = LookupOk id /\ a = node_alias id.
Proof.
  exact (fun l out r A E => conj
    (NoDup_aliases r (proj1 (register_all_spec l _ _ _ empty_inv E))) (placed_nodes_callable l out r A E)).
Qed.
Print Assumptions C11_placed_nodes_callable.
Example C11_callable_example :
  all_stubs history /\ map fst (node_attributes (snd (register_all history empty_registry))) =
    [s_ "node0"; s_ "node2"; s_ "node4"; s_ "node5"].
Proof. split; [intros ok rq H; cbn in H; intuition congruence|vm_compute; reflexivity]. Qed.

(** Undefined behaviour needs the id 2^31-1, and does happen there. *)
Theorem C11_defined : forall r ok rq r', reachable_registry r -> register_node ok rq r = (RegUB, r') ->
  int32_max <= rq_preassigned rq \/ (rq_preassigned rq < 0 /\ nb_slots r = int32_max).
Proof. exact register_undefined. Qed.
Print Assumptions C11_defined.
Theorem C11_defined_refuted : exists rq, request_valid rq /\ in_int32 (rq_preassigned rq) = true /\
  fst (register_node true rq empty_registry) = RegUB.
Proof. exists (req "a" int32_max). repeat split; discriminate. Qed.
Print Assumptions C11_defined_refuted.

(** C12.  [seq_run] covers every number of callers and every interleaving. *)
Theorem C12_never_crashes : forall l, seq_run l seq_init <> None.
Proof. exact never_crashes. Qed.
Print Assumptions C12_never_crashes.

Theorem C12_mutual_exclusion : forall s t1 t2, reachable s ->
  executing (q_pc s t1) -> executing (q_pc s t2) -> t1 = t2.
Proof. exact mutual_exclusion. Qed.
Print Assumptions C12_mutual_exclusion.

(** The log of starts, tests and ends is a sequence of whole test sequences,
    none of which starts before the previous one has ended. *)
Theorem C12_serial : forall s, reachable s -> exists cur, serial (q_log s) = Some cur.
Proof. exact (fun s R => ex_intro _ _ (si_log s (reachable_seq_inv s R))). Qed.
Print Assumptions C12_serial.

Theorem C12_started_once : forall s l1 l2 t, reachable s -> q_log s = l1 ++ EStart t :: l2 -> ~ In (EStart t) l1.
Proof. exact (fun s l1 l2 t R => si_once s (reachable_seq_inv s R) l1 l2 t). Qed.
Print Assumptions C12_started_once.

(** Once a newcomer has cancelled a running sequence, it starts no further test. *)
Theorem C12_cancelled_runs_no_test : forall s l1 l2 b c, reachable s ->
  q_log s = l1 ++ ECancel b c :: l2 -> ~ In (ETest c) l1.
Proof. exact (fun s l1 l2 b c R => si_quiet s (reachable_seq_inv s R) l1 l2 b c). Qed.
Print Assumptions C12_cancelled_runs_no_test.

(** No deadlock: from any state any caller that entered can still return. *)
Theorem C12_everyone_can_finish : forall s t, reachable s -> q_pc s t <> PIdle ->
  exists l s', seq_run l s = Some s' /\ q_pc s' t = PDone.
Proof. exact (fun s t R => can_finish s t (reachable_seq_inv s R)). Qed.
Print Assumptions C12_everyone_can_finish.

(** Caller 1 takes over from caller 0. *)
Definition takeover : list action :=
  [AArrive 0; AEnter 0; AWake 0; ARelock 0; ACheck 0; AArrive 1; AEnter 1; AWake 1; ACheck 0; ACheck 0;
   ANotify 0; AWake 1; ARelock 1; AClear 0; AWake 1; ARelock 1; ACheck 1]%nat.
Example C12_example : match seq_run takeover seq_init with
  | Some s => (q_pc s 0%nat, q_pc s 1%nat, rev (q_log s)) =
      (PDone, PRun, [EStart 0; ETest 0; ECancel 1 0; EEnd 0; ECancel 1 0; EStart 1; ETest 1]%nat)
  | None => False
  end.
Proof. vm_compute. reflexivity. Qed.

(** Not guaranteed: that the most recent request wins.  A caller that arrived
    earlier and is still waiting cancels one that arrived later. *)
Theorem C12_newest_wins_refuted : exists l1 l2 s, seq_run (l1 ++ AArrive 1%nat :: l2) seq_init = Some s /\
  In (AArrive 0%nat) l1 /\ In (ECancel 0%nat 1%nat) (q_log s) /\ ~ In (ECancel 1%nat 0%nat) (q_log s).
Proof.
  exists [AArrive 0; AEnter 0]%nat, [AEnter 1; AWake 1; ARelock 1; AWake 0; ARelock 0]%nat. eexists.
  split; [vm_compute; reflexivity|]. cbn. intuition discriminate.
Qed.
Print Assumptions C12_newest_wins_refuted.

(** C13. *)
Theorem C13_results_in_order : forall (Test Result : Type) (cancelled : nat -> bool)
    (run : nat -> Test -> option Result) summary strip big set tests st res shut,
  run_test_sequence cancelled run summary strip big set tests = (st, res, shut) ->
  let post := fun r => if ss_keep_logs set then summary r else strip (summary r) in
  exists k rs, (k <= length tests)%nat /\ length rs = k /\
    (forall j t r, nth_error tests j = Some t -> nth_error rs j = Some r -> cancelled j = false /\ run j t = Some r) /\
    match st with
    | SeqOk => k = length tests /\ res = map post rs /\ big res = false /\ shut = ss_shutdown set
    | SeqTooBig => k = length tests /\ res = [] /\ big (map post rs) = true /\ shut = ss_shutdown set
    | SeqCancelled => (k < length tests)%nat /\ cancelled k = true /\ res = map post rs /\ shut = false
    | SeqTestFailed => cancelled k = false /\ (exists t, nth_error tests k = Some t /\ run k t = None) /\
                       res = map post rs /\ shut = false
    end.
Proof. exact (@sequence_spec). Qed.
Print Assumptions C13_results_in_order.
Example C13_example :
  let run := fun (_ : nat) (t : Z) => if t =? 0 then None else Some (10 * t) in
  let go c l := run_test_sequence c run (fun r => r + 1) (fun r => - r) (fun l => Nat.ltb 3 (length l)) (mkSet false true) l in
  go (fun _ => false) [1; 2; 3] = (SeqOk, [-11; -21; -31], true) /\
  go (fun _ => false) [1; 0; 3] = (SeqTestFailed, [-11], false) /\
  go (fun i => Nat.eqb i 2) [1; 2; 3] = (SeqCancelled, [-11; -21], false) /\
  go (fun _ => false) [1; 2; 3; 4] = (SeqTooBig, [], true).
Proof. vm_compute. repeat split. Qed.

(** A failing phase stops a test: traffic is only run after placement,
    configuration, introductions and the timeout have all succeeded. *)
Theorem C13_phases : forall sv p c i t tr phases ok, run_one_test sv p c i t tr = (phases, ok) ->
  (ok = true <-> sv = true /\ p = true /\ c = true /\ i = true /\ t = true /\ tr = true) /\
  (In PhTraffic phases <-> sv = true /\ p = true /\ c = true /\ i = true /\ t = true) /\
  (In PhIntroduce phases <-> sv = true /\ p = true /\ c = true) /\
  (In PhConfigure phases <-> sv = true /\ p = true) /\ (In PhPlace phases <-> sv = true).
Proof.
  intros [] [] [] [] [] [] phases ok H; cbv in H; injection H as <- <-; cbn; intuition congruence.
Qed.
Print Assumptions C13_phases.

(** C14.  [ev1] and [ev2] are the orders in which the nodes answer. *)
Theorem C14_collection : forall (Log : Type) ids run_reply (get_reply : Z -> reply Log) ev1 ev2 active res active',
  completes ids ev1 -> completes ids ev2 ->
  run_traffic ids run_reply get_reply ev1 ev2 active = (res, active') ->
  ((exists logs, res = TOk logs) <-> forall i, In i ids -> run_reply i = true /\ rp_ok (get_reply i) = true) /\
  (forall who, res = TFailed who -> In who ids /\ (run_reply who = false \/ rp_ok (get_reply who) = false)) /\
  res <> TStuck /\
  ((forall i, In i ids -> run_reply i = true) -> forall j, In j active' <-> In j active /\ ~ In j ids) /\
  (~ (forall i, In i ids -> run_reply i = true) -> forall j, In j active' <-> In j ids \/ In j active).
Proof. exact (@run_traffic_spec). Qed.
Print Assumptions C14_collection.

(** The collected logs are exactly the union of the nodes' logs. *)
Theorem C14_logs_complete : forall (Log : Type) ids run_reply (get_reply : Z -> reply Log) ev1 ev2 active logs active',
  completes ids ev1 -> completes ids ev2 -> NoDup ids ->
  (forall i, In i ids -> NoDup (map fst (rp_logs (get_reply i)))) ->
  (forall i j x, In i ids -> In j ids -> In x (map fst (rp_logs (get_reply i))) ->
     In x (map fst (rp_logs (get_reply j))) -> i = j) ->
  run_traffic ids run_reply get_reply ev1 ev2 active = (TOk logs, active') ->
  forall k v, map_find k logs = Some v <-> exists i, In i ids /\ In (k, v) (rp_logs (get_reply i)).
Proof. exact (@run_traffic_logs). Qed.
Print Assumptions C14_logs_complete.

(** Cancelling asks every active node and clears the active set. *)
Theorem C14_cancel_clears : forall slots ev active, 0 <= slots -> NoDup active ->
  (forall i, In i active -> 0 <= i < slots) -> completes active ev ->
  cancel_traffic slots ev active = Some (active, []).
Proof. exact cancel_spec. Qed.
Print Assumptions C14_cancel_clears.

Definition log_of (i : Z) : reply Z := mkReply true [(node_alias i, 100 + i)].
Example C14_example :
  completes [0; 1; 2] [(2, true); (0, true); (1, true)] /\ completes [0; 1; 2] [(1, true); (2, true); (0, true)] /\
  run_traffic [0; 1; 2] (fun _ => true) log_of [(2, true); (0, true); (1, true)] [(1, true); (2, true); (0, true)] [] =
    (TOk [(s_ "node1", 101); (s_ "node2", 102); (s_ "node0", 100)], []) /\
  run_traffic [0; 1; 2] (fun i => negb (i =? 1)) log_of [(2, true); (0, true); (1, true)] [] [] =
    (TFailed 1, [0; 1; 2]) /\
  cancel_traffic 3 [(1, true); (2, true); (0, true)] [0; 1; 2] = Some ([0; 1; 2], []).
Proof.
  assert (completes [0; 1; 2] [(1, true); (2, true); (0, true)]).
  { unfold completes. cbn. apply Permutation_sym. apply (Permutation_cons_append [1; 2] 0). }
  split; [unfold completes; cbn; apply (Permutation_sym (Permutation_sym (Permutation_cons_append [0; 1] 2)))|].
  split; [assumption|]. vm_compute. repeat split.
Qed.
