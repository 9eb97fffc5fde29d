(** A test sequence on the whole cluster: RunTestSequence
    (distbench_test_sequencer.cc) with the node managers it calls, while no other
    sequence is running.  Definitions only. *)
From Coq Require Import Ascii String List NArith ZArith Bool Arith.
From Verif Require Import Base_Model Grid_Model Canon_Model Table_Model Cli_Model.
From Verif Require Seq_Model.
From Verif Require Import Node_Model Cluster_Model.
Import ListNotations.
Open Scope Z_scope.

(** distbench.proto 28-31, 20-26: TestSequence with the settings the sequencer
    reads. *)
Record session := mkSession { ss_settings : Seq_Model.seq_settings; ss_tests : list whole }.
(** distbench_utils.cc 795-814: GetCanonicalTestSequence changes the services of
    the tests only. *)
Definition with_test (t : whole) (x : test) : whole := mkWhole x (wt_threads t) (wt_drivers t) (wt_options t) (wt_protocol t).
Definition canonical_session (s : session) : vres (list whole) :=
  match canonical_tests_of (mkSequence None (map wt_test (ss_tests s))) with
  | VUB => VUB
  | VErr e => VErr e
  | VOk c => VOk (map (fun p => with_test (fst p) (snd p)) (combine (ss_tests s) (sq_tests c)))
  end.

(** distbench_test_sequencer.cc 139-178: CancelTraffic: every active node is asked
    to cancel its engines, and marked inactive whatever it answers.  [PhCrash]:
    registered_nodes_ or pending_rpcs overrun, or a null stub called. *)
Definition cancel_active (r : Seq_Model.registry) (ph : phase) (w : world) (active : list Z) : world * phase_result (list Z) :=
  if (Z.of_nat (length active) <=? Seq_Model.nb_slots r) &&
     forallb (fun id => match Seq_Model.slot_get id (Seq_Model.rg_nodes r) with Some n => Seq_Model.ns_stub n | None => false end) active
  then
    let (w', _) := call_all (ph_fate ph)
      (map (fun id => (id, fun s => Replied (Node_Model.cancel_traffic (s_ "cancelled by test_sequencer") s) ROk tt)) active) w in
    (w', match Seq_Model.cancel_traffic (Seq_Model.nb_slots r) (ph_events ph) active with
         | None => PhStuck
         | Some (_, active') => PhOk active'
         end)
  else (w, PhCrash).

(** distbench.proto TestResult in the reply: with the summary (an oracle, see
    Sum_Model.v) and possibly without the logs. *)
Record reported := mkReported { re_test : whole; re_placement : list (str * endpoint); re_logs : list (str * Z); re_summary : list str }.
Inductive session_outcome :=
  | Undefined                          (* overflow while the request is completed *)
  | Refused (e : verr)          (* 100-104 *)
  | Died | Waits                       (* the sequencer crashed, or waits for ever *)
  | Returned (st : Seq_Model.seq_status) (results : list reported) (shutdown : bool).

Section Session.
  Variables (fnm : str -> str -> bool) (r : Seq_Model.registry) (nes : Z -> node_env).
  (** [summary]: SummarizeTestResult; [big]: the reply exceeds kMaxReponseSize. *)
  Variables (summary : test_result -> list str) (big : list reported -> bool).
  (** 196-205: what becomes of a result. *)
  Definition report (keep : bool) (x : test_result) : reported :=
    mkReported (tr_test x) (tr_placement x) (if keep then tr_logs x else []) (summary x).
  (** 180-206: the tests one after the other; [cancelled i]: IsCancelled() before
      test number i; [env i]: the outside world during it. *)
  Fixpoint run_each (cancelled : nat -> bool) (env : nat -> environment) (keep : bool) (i : nat) (tests : list whole) (w : world) (active : list Z)
      (acc : list reported) : option (Seq_Model.seq_status * list reported) * bool * world * list Z :=
    match tests with
    | [] => (Some (Seq_Model.SeqOk, acc), true, w, active)
    | t :: rest =>
        if cancelled i then (Some (Seq_Model.SeqCancelled, acc), true, w, active)
        else
          match do_run_test fnm r nes (env i) t w active with
          | (TestCrashed, w', active') => (None, false, w', active')
          | (TestStuck, w', active') => (None, true, w', active')
          | (TestFailed _, w', active') => (Some (Seq_Model.SeqTestFailed, acc), true, w', active')
          | (TestOk x _, w', active') => run_each cancelled env keep (S i) rest w' active' (acc ++ [report keep x])
          end
    end.
  (** 97-137, 180-223. *)
  Definition run_session (cancelled : nat -> bool) (cancel : phase) (env : nat -> environment) (s : session) (w : world) (active : list Z)
      : session_outcome * world * list Z :=
    match canonical_session s with
    | VUB => (Undefined, w, active)
    | VErr e => (Refused e, w, active)
    | VOk tests =>
        match cancel_active r cancel w active with
        | (w1, PhCrash) | (w1, PhFailed _) => (Died, w1, active)
        | (w1, PhStuck) => (Waits, w1, active)
        | (w1, PhOk active1) =>
            match run_each cancelled env (Seq_Model.ss_keep_logs (ss_settings s)) 0 tests w1 active1 [] with
            | (None, alive, w2, active2) => (if alive then Waits else Died, w2, active2)
            | (Some (Seq_Model.SeqOk, res), _, w2, active2) =>
                if big res then (Returned Seq_Model.SeqTooBig [] (Seq_Model.ss_shutdown (ss_settings s)), w2, active2)
                else (Returned Seq_Model.SeqOk res (Seq_Model.ss_shutdown (ss_settings s)), w2, active2)
            | (Some (st, res), _, w2, active2) => (Returned st res false, w2, active2)
            end
        end
    end.
End Session.
