(** Model of distbench_test_sequencer.cc: node registration, concurrent test
    sequences, result collection.  Definitions only. *)
From Coq Require Import Ascii String List NArith ZArith Bool.
From Verif Require Import Base_Model Place_Model.
Import ListNotations.
Open Scope Z_scope.

(** * RegisterNode *)

(** distbench.proto NodeRegistration.  [rq_text] is ProtoToString of the request,
    the key of node_registration_id_map_. *)
Record reg_request := mkReg {
  rq_text : str; rq_host : str; rq_port : Z; rq_preassigned : Z; rq_attrs : list attribute }.

(** distbench_test_sequencer.h:27-32 RegisteredNode; the stub is only present
    or absent. *)
Record node_slot := mkSlot { ns_reg : option reg_request; ns_stub : bool; ns_alias : str; ns_pending : bool }.
Definition empty_slot : node_slot := mkSlot None false [] true.

Record registry := mkRegistry {
  rg_nodes : list node_slot;                (* registered_nodes_ *)
  rg_alias : list (str * Z);                (* node_alias_id_map_ *)
  rg_ids : list (str * Z) }.                (* node_registration_id_map_ *)
Definition empty_registry : registry := mkRegistry [] [] [].

Inductive reg_result := RegUB | RegInvalid | RegUnknown | RegOk (id : Z) (alias : str).

(** absl::StrCat("node", node_id). *)
Definition node_alias (id : Z) : str := s_ "node" ++ dec_of_Z id.

Fixpoint slot_set (i : nat) (n : node_slot) (l : list node_slot) : list node_slot :=
  match l, i with
  | [], _ => []
  | _ :: r, O => n :: r
  | x :: r, S j => x :: slot_set j n r
  end.
Definition slot_get (id : Z) (l : list node_slot) : option node_slot :=
  if id <? 0 then None else nth_error l (Z.to_nat id).
Definition slot_put (id : Z) (n : node_slot) (l : list node_slot) : list node_slot := slot_set (Z.to_nat id) n l.
Definition nb_slots (r : registry) : Z := Z.of_nat (length (rg_nodes r)).
(** std::vector::resize to a larger size (allocation failure is not modelled). *)
Definition grow (n : Z) (l : list node_slot) : list node_slot :=
  l ++ repeat empty_slot (Z.to_nat n - length l).

(** distbench_test_sequencer.cc:79-94; [stub_ok] is whether NewStub returned a
    stub. *)
Definition finish_register (stub_ok : bool) (rq : reg_request) (id : Z) (alias : str) (r : registry)
    : reg_result * registry :=
  match slot_get id (rg_nodes r) with
  | None => (RegUB, r)
  | Some n =>
      if stub_ok
      then (RegOk id alias,
            mkRegistry (slot_put id (mkSlot (Some rq) true (ns_alias n) (ns_pending n)) (rg_nodes r))
                       (rg_alias r) (rg_ids r))
      else (RegUnknown, r)
  end.

(** distbench_test_sequencer.cc:41-95 RegisterNode (runs under mutex_). *)
Definition register_node (stub_ok : bool) (rq : reg_request) (r : registry) : reg_result * registry :=
  if str_eqb (rq_host rq) [] || (rq_port rq <=? 0) || (rq_port rq >? 65535) then (RegInvalid, r)
  else
    match map_find (rq_text rq) (rg_ids r) with
    | Some id =>
        match slot_get id (rg_nodes r) with
        | None => (RegUB, r)
        | Some n => finish_register stub_ok rq id (ns_alias n) r
        end
    | None =>
        let id := if rq_preassigned rq >=? 0 then rq_preassigned rq else nb_slots r in
        if (id >=? nb_slots r) && negb (in_int32 (id + 1)) then (RegUB, r)
        else
          let nodes := if id >=? nb_slots r then grow (id + 1) (rg_nodes r) else rg_nodes r in
          match slot_get id nodes with
          | None => (RegUB, r)
          | Some n =>
              if negb (ns_pending n) then (RegInvalid, mkRegistry nodes (rg_alias r) (rg_ids r))
              else
                let alias := node_alias id in
                finish_register stub_ok rq id alias
                  (mkRegistry (slot_put id (mkSlot (ns_reg n) (ns_stub n) alias false) nodes)
                              (map_set alias id (rg_alias r)) (map_set (rq_text rq) id (rg_ids r)))
          end
    end.

(** A history of registrations from the start of the sequencer. *)
Fixpoint register_all (l : list (bool * reg_request)) (r : registry) : list reg_result * registry :=
  match l with
  | [] => ([], r)
  | (ok, rq) :: rest =>
      let '(res, r1) := register_node ok rq r in
      let '(out, r2) := register_all rest r1 in
      (res :: out, r2)
  end.

(** distbench_test_sequencer.cc:229-233: the nodes offered to the solver. *)
Definition node_attributes (r : registry) : list (str * list attribute) :=
  flat_map (fun n => if ns_pending n then []
                     else [(ns_alias n, match ns_reg n with Some q => rq_attrs q | None => [] end)]) (rg_nodes r).

(** The lookup done for each placed node in ConfigureNodes (443-447),
    IntroducePeers (497-500), RunTraffic (547-550, 591-593): CHECK the alias is
    known, then call through the stub. *)
Inductive lookup_result := LookupCheckFails | LookupNullStub | LookupOk (id : Z).
Definition lookup_node (r : registry) (alias : str) : lookup_result :=
  match map_find alias (rg_alias r) with
  | None => LookupCheckFails
  | Some id => match slot_get id (rg_nodes r) with
               | Some n => if ns_stub n then LookupOk id else LookupNullStub
               | None => LookupNullStub
               end
  end.

(** * RunTraffic and CancelTraffic *)

(** std::set<int> active_node_indices_. *)
Definition mark_active (i : Z) (s : list Z) : list Z := if existsb (Z.eqb i) s then s else s ++ [i].
Definition mark_inactive (i : Z) (s : list Z) : list Z := filter (fun j => negb (j =? i)) s.

(** A reply: a status (true is OK) and a map from instance or node names to
    logs (service_logs and node_usages behave alike: MergeFrom on a protobuf
    map overwrites per key). *)
Section Traffic.
  Context {Log : Type}.
  Record reply := mkReply { rp_ok : bool; rp_logs : list (str * Log) }.
  Definition merge (acc logs : list (str * Log)) : list (str * Log) :=
    fold_left (fun m e => map_set (fst e) (snd e) m) logs acc.

  Inductive traffic_result := TStuck | TFailed (who : Z) | TOk (logs : list (str * Log)).

  (** distbench_test_sequencer.cc:557-572: the completion loop of the first
      phase.  Events are completion queue tags (node ids) with their ok flag.
      The last failure in completion order is the one reported. *)
  Fixpoint await_run (count : nat) (events : list (Z * bool)) (reply_of : Z -> bool) (status : option Z)
      : option (option Z) :=
    match count with
    | O => Some status
    | S c =>
        match events with
        | [] => None
        | (_, false) :: rest => await_run count rest reply_of status
        | (id, true) :: rest =>
            await_run c rest reply_of (if reply_of id then status else Some id)
        end
    end.

  (** distbench_test_sequencer.cc:604-623: the collection loop. *)
  Fixpoint await_results (count : nat) (events : list (Z * bool)) (reply_of : Z -> reply)
      (status : option Z) (acc : list (str * Log)) (active : list Z)
      : option (option Z * list (str * Log) * list Z) :=
    match count with
    | O => Some (status, acc, active)
    | S c =>
        match events with
        | [] => None
        | (_, false) :: rest => await_results count rest reply_of status acc active
        | (id, true) :: rest =>
            await_results c rest reply_of (if rp_ok (reply_of id) then status else Some id)
              (merge acc (rp_logs (reply_of id))) (mark_inactive id active)
        end
    end.

  (** distbench_test_sequencer.cc:524-634 RunTraffic on the nodes [ids]
      (node_alias_id_map_ of the keys of node_service_map).  [run_reply] and
      [get_reply] are the nodes' answers, [ev1] and [ev2] the events of the
      completion queue in each phase; running out of events is TStuck (the
      thread waits for ever).  A response that arrives with an error status is
      merged too (line 618). *)
  Definition run_traffic (ids : list Z) (run_reply : Z -> bool) (get_reply : Z -> reply)
      (ev1 ev2 : list (Z * bool)) (active : list Z) : traffic_result * list Z :=
    let active1 := fold_left (fun s i => mark_active i s) ids active in
    match await_run (length ids) ev1 run_reply None with
    | None => (TStuck, active1)
    | Some (Some who) => (TFailed who, active1)
    | Some None =>
        match await_results (length ids) ev2 get_reply None [] active1 with
        | None => (TStuck, active1)
        | Some (Some who, _, active2) => (TFailed who, active2)
        | Some (None, logs, active2) => (TOk logs, active2)
        end
    end.
End Traffic.
Arguments reply : clear implicits.
Arguments traffic_result : clear implicits.

(** distbench_test_sequencer.cc:139-178 CancelTraffic: returns the node ids
    that were asked to cancel and the remaining active set; None when the
    pending_rpcs vector (one element per registered node) is overrun or the
    queue runs dry.  Replies are only logged. *)
Fixpoint await_cancel (count : nat) (events : list (Z * bool)) (active : list Z) : option (list Z) :=
  match count with
  | O => Some active
  | S c =>
      match events with
      | [] => None
      | (_, false) :: rest => await_cancel count rest active
      | (id, true) :: rest => await_cancel c rest (mark_inactive id active)
      end
  end.
Definition cancel_traffic (slots : Z) (events : list (Z * bool)) (active : list Z) : option (list Z * list Z) :=
  if Z.of_nat (length active) >? slots then None
  else match await_cancel (length active) events active with
       | None => None
       | Some a => Some (active, a)
       end.

(** * DoRunTestSequence *)
Section Sequence.
  Context {Test Result : Type}.
  Inductive seq_status := SeqOk | SeqCancelled | SeqTestFailed | SeqTooBig.
  Record seq_settings := mkSet { ss_keep_logs : bool; ss_shutdown : bool }.

  (** distbench_test_sequencer.cc:180-223.  [cancelled i] is IsCancelled() read
      before test number i, [run i t] the outcome of DoRunTest, [summary] the
      effect of SummarizeTestResult and add_log_summary, [strip] that of
      clear_instance_logs, [big] whether the reply exceeds kMaxReponseSize.
      Returns the status, the results in the reply and whether shutdown was
      requested. *)
  Fixpoint run_tests (cancelled : nat -> bool) (run : nat -> Test -> option Result)
      (post : Result -> Result) (i : nat) (tests : list Test) (acc : list Result) : seq_status * list Result :=
    match tests with
    | [] => (SeqOk, acc)
    | t :: rest =>
        if cancelled i then (SeqCancelled, acc)
        else match run i t with
             | None => (SeqTestFailed, acc)
             | Some r => run_tests cancelled run post (S i) rest (acc ++ [post r])
             end
    end.
  Definition run_test_sequence (cancelled : nat -> bool) (run : nat -> Test -> option Result)
      (summary strip : Result -> Result) (big : list Result -> bool) (set : seq_settings) (tests : list Test)
      : seq_status * list Result * bool :=
    let post := fun r => let r1 := summary r in if ss_keep_logs set then r1 else strip r1 in
    match run_tests cancelled run post 0 tests [] with
    | (SeqOk, res) =>
        if big res then (SeqTooBig, [], ss_shutdown set) else (SeqOk, res, ss_shutdown set)
    | (st, res) => (st, res, false)
    end.

  (** distbench_test_sequencer.cc:373-413 DoRunTest: the phases in order, each
      of which may fail; a failure stops the pipeline. *)
  Inductive test_phase := PhServices | PhPlace | PhConfigure | PhIntroduce | PhTimeout | PhTraffic.
  Definition run_one_test (has_services : bool) (place configure introduce timeout traffic : bool)
      : list test_phase * bool :=
    if negb has_services then ([], false)
    else if negb place then ([PhPlace], false)
    else if negb configure then ([PhPlace; PhConfigure], false)
    else if negb introduce then ([PhPlace; PhConfigure; PhIntroduce], false)
    else if negb timeout then ([PhPlace; PhConfigure; PhIntroduce; PhTimeout], false)
    else ([PhPlace; PhConfigure; PhIntroduce; PhTimeout; PhTraffic], traffic).
End Sequence.

(** * RunTestSequence under concurrency

    distbench_test_sequencer.cc:97-137.  Callers are numbered; every caller
    runs RunTestSequence once in its own thread.  A step is either a critical
    section of mutex_ or an operation outside it; critical sections are atomic
    because the mutex is held exclusively.  Blocking inside DoRunTest and the
    network are not modelled: a caller in [PRun] may take as many steps as it
    likes. *)
Inductive pc :=
| PIdle                       (* before the call *)
| PLoop                       (* after CancelTraffic(), before the first lock *)
| PWait (n : option nat)      (* waiting for prior_notification *)
| PRelock                     (* about to lock again *)
| PRun                        (* inside DoRunTestSequence *)
| PRan                        (* DoRunTestSequence returned *)
| PNotified                   (* after notification->Notify() *)
| PDone.                      (* returned: the ServerContext is gone *)

Inductive event := EStart (t : nat) | ETest (t : nat) | EEnd (t : nat) | ECancel (by_ t : nat).

Record seq_state := mkSeq {
  q_pc : nat -> pc;
  q_ctx : option nat;          (* running_test_sequence_context_, by owner *)
  q_notif : option nat;        (* running_test_notification_, by creator *)
  q_notified : nat -> bool;
  q_cancelled : nat -> bool;   (* ServerContext::IsCancelled() *)
  q_log : list event }.        (* newest first; ghost *)
Definition seq_init : seq_state :=
  mkSeq (fun _ => PIdle) None None (fun _ => false) (fun _ => false) [].

Inductive action :=
| AArrive (t : nat)            (* valid request; CancelTraffic() returned *)
| AReject (t : nat)            (* GetCanonicalTestSequence failed *)
| AEnter (t : nat) | AWake (t : nat) | ARelock (t : nat)
| ACheck (t : nat)             (* lines 184-190, then a test runs *)
| AReturn (t : nat)            (* all tests done, or a test failed *)
| ANotify (t : nat) | AClear (t : nat)
| AClientCancel (t : nat).     (* the client abandons its RPC *)

Inductive step_result := Disabled | Crash | Next (s : seq_state).

Definition upd {A} (f : nat -> A) (t : nat) (a : A) : nat -> A := fun x => if Nat.eqb x t then a else f x.
Definition set_pc (t : nat) (p : pc) (s : seq_state) : seq_state :=
  mkSeq (upd (q_pc s) t p) (q_ctx s) (q_notif s) (q_notified s) (q_cancelled s) (q_log s).

(** Lines 110-116: the loop body between two unlocks: TryCancel on the running
    context (a crash if that context no longer exists), remember the
    notification. *)
Definition loop_body (t : nat) (s : seq_state) : step_result :=
  match q_ctx s with
  | None => Next (set_pc t (PWait (q_notif s)) s)
  | Some c =>
      match q_pc s c with
      | PDone | PIdle => Crash
      | _ => Next (set_pc t (PWait (q_notif s))
               (mkSeq (q_pc s) (q_ctx s) (q_notif s) (q_notified s) (upd (q_cancelled s) c true)
                      (ECancel t c :: q_log s)))
      end
  end.

Definition seq_step (a : action) (s : seq_state) : step_result :=
  match a with
  | AArrive t => match q_pc s t with PIdle => Next (set_pc t PLoop s) | _ => Disabled end
  | AReject t => match q_pc s t with PIdle => Next (set_pc t PDone s) | _ => Disabled end
  | AEnter t => match q_pc s t with PLoop => loop_body t s | _ => Disabled end
  | AWake t =>
      match q_pc s t with
      | PWait None => Next (set_pc t PRelock s)
      | PWait (Some n) => if q_notified s n then Next (set_pc t PRelock s) else Disabled
      | _ => Disabled
      end
  | ARelock t =>
      match q_pc s t with
      | PRelock =>
          match q_ctx s with
          | Some _ => loop_body t s
          | None => Next (mkSeq (upd (q_pc s) t PRun) (Some t) (Some t) (q_notified s) (q_cancelled s)
                            (EStart t :: q_log s))
          end
      | _ => Disabled
      end
  | ACheck t =>
      match q_pc s t with
      | PRun =>
          match q_ctx s with
          | None => Crash          (* null dereference *)
          | Some c =>
              match q_pc s c with
              | PDone | PIdle => Crash
              | _ => if q_cancelled s c then Next (set_pc t PRan
                         (mkSeq (q_pc s) (q_ctx s) (q_notif s) (q_notified s) (q_cancelled s) (EEnd t :: q_log s)))
                     else Next (mkSeq (q_pc s) (q_ctx s) (q_notif s) (q_notified s) (q_cancelled s) (ETest t :: q_log s))
              end
          end
      | _ => Disabled
      end
  | AReturn t =>
      match q_pc s t with
      | PRun => Next (set_pc t PRan
                  (mkSeq (q_pc s) (q_ctx s) (q_notif s) (q_notified s) (q_cancelled s) (EEnd t :: q_log s)))
      | _ => Disabled
      end
  | ANotify t =>
      match q_pc s t with
      | PRan => if q_notified s t then Crash    (* Notify() twice is fatal *)
                else Next (set_pc t PNotified
                       (mkSeq (q_pc s) (q_ctx s) (q_notif s) (upd (q_notified s) t true) (q_cancelled s) (q_log s)))
      | _ => Disabled
      end
  | AClear t =>
      match q_pc s t with
      | PNotified => Next (set_pc t PDone
                       (mkSeq (q_pc s) None (q_notif s) (q_notified s) (q_cancelled s) (q_log s)))
      | _ => Disabled
      end
  | AClientCancel t =>
      match q_pc s t with
      | PDone | PIdle => Disabled
      | _ => Next (mkSeq (q_pc s) (q_ctx s) (q_notif s) (q_notified s) (upd (q_cancelled s) t true) (q_log s))
      end
  end.

(** Runs a schedule; actions that are not possible are skipped. *)
Fixpoint seq_run (l : list action) (s : seq_state) : option seq_state :=
  match l with
  | [] => Some s
  | a :: r => match seq_step a s with
              | Crash => None
              | Disabled => seq_run r s
              | Next s' => seq_run r s'
              end
  end.
