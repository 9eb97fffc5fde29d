(** Model of the iterations of one action (distbench_engine.cc).
    Definitions only. *)
From Coq Require Import List ZArith Bool.
From Verif Require Import Base_Model.
Import ListNotations.
Open Scope Z_scope.

(** traffic_config.proto:128-137 Iterations as read by InitiateAction.  Times
    are integers (absl::Time never saturates here); None is InfiniteFuture. *)
Record iter_cfg := mkIter {
  ic_limit : Z;               (* iteration_limit *)
  ic_parallel : Z;            (* max_parallel_iterations *)
  ic_time_limit : option Z;
  ic_period : option Z;       (* open_loop_interval_ns, when present *)
  ic_warmup : Z;              (* warmup_iterations *)
  ic_list_warmup : bool }.    (* actionlist_state->warmup_ *)

(** distbench_engine.cc:1896-1911: limits from the proto ([count] is the
    optional int32 max_iteration_count, [has] has_iterations()). *)
Definition iteration_limit (has : bool) (count : option Z) : Z :=
  if has then match count with Some c => c | None => int64_max end else 1.

(** absl::Time comparison a > b. *)
Definition time_gt (a b : option Z) : bool :=
  match a, b with
  | _, None => false
  | None, Some _ => true
  | Some x, Some y => x >? y
  end.

Inductive it_event :=
| IStart (k : Z) (warmup : bool) (now : Z)  (* iteration_function called *)
| IEnd (k : Z)                              (* it called FinishIteration *)
| ICall                                     (* all_done_callback *)
| ICancel.                                  (* canceled_ notified *)

(** A live iteration: its number, and after it entered FinishIteration the
    value of canceled_.HasBeenNotified() it read (line 2050). *)
Record it_state := mkIt {
  it_next : Z;                              (* next_iteration, an int *)
  it_finished : Z;                          (* finished_iterations, an int *)
  it_nit : option Z;                        (* next_iteration_time *)
  it_live : list (Z * option bool);
  it_canceled : bool;
  it_calls : nat;                           (* calls of all_done_callback *)
  it_log : list it_event }.                 (* newest first; ghost *)

Inductive it_result := ItUB | ItThrow | ItDisabled | ItNext (s : it_state).

(** Conversion of an int64 to int. *)
Definition to_int32 (z : Z) : Z := (z + 2147483648) mod 4294967296 - 2147483648.

(** distbench_engine.cc:2093-2101 StartIteration. *)
Definition is_warmup (c : iter_cfg) (k : Z) : bool := ic_list_warmup c || (k <? ic_warmup c).
Definition start_event (c : iter_cfg) (now k : Z) : it_event := IStart k (is_warmup c k) now.

Fixpoint numbers (from : Z) (count : nat) : list Z :=
  match count with O => [] | S n => from :: numbers (from + 1) n end.

(** distbench_engine.cc:1912-1967: the end of InitiateAction.  For an open loop
    the first start time is [first] (lines 1926-1951); otherwise
    parallel_copies iterations start at once; a negative count makes
    states.reserve() throw (line 2004).  Iterations are live from the moment
    they are numbered. *)
Definition initiate (c : iter_cfg) (now first : Z) : it_result :=
  match ic_period c with
  | Some _ => ItNext (mkIt 0 0 (Some first) [] false 0 [])
  | None =>
      let copies := to_int32 (Z.min (ic_parallel c) (ic_limit c)) in
      if copies <? 0 then ItThrow
      else
        let ks := numbers 0 (Z.to_nat copies) in
        ItNext (mkIt copies 0 None (map (fun k => (k, None)) ks) false 0 (rev (map (start_event c now) ks)))
  end.

Inductive it_action :=
| AEnd (k : Z)                    (* iteration k calls FinishIteration *)
| AFinish (k now : Z)             (* its critical section and what follows *)
| ATick (now gap : Z)             (* StartOpenLoopIteration from RunActionList *)
| ACancel                         (* canceled_ is notified *)
| AHandled.                       (* HandleFinishedActions sees the callback *)

Fixpoint live_set (k : Z) (o : option bool) (l : list (Z * option bool)) : list (Z * option bool) :=
  match l with
  | [] => []
  | (j, x) :: r => if j =? k then (j, o) :: r else (j, x) :: live_set k o r
  end.
Fixpoint live_del (k : Z) (l : list (Z * option bool)) : list (Z * option bool) :=
  match l with
  | [] => []
  | (j, x) :: r => if j =? k then r else (j, x) :: live_del k r
  end.
Fixpoint live_get (k : Z) (l : list (Z * option bool)) : option (option bool) :=
  match l with
  | [] => None
  | (j, x) :: r => if j =? k then Some x else live_get k r
  end.

(** distbench_engine.cc:2045-2091 FinishIteration after the read of canceled_,
    for actions that are not activities. *)
Definition finish_iteration (c : iter_cfg) (obs : bool) (k now : Z) (s : it_state) : it_result :=
  let finished := it_finished s + 1 in
  let open_loop := match ic_period c with Some _ => true | None => false end in
  let done :=
    if it_next s =? ic_limit c then true
    else if negb open_loop
         then obs || match ic_time_limit c with Some t => now >? t | None => false end
         else obs || time_gt (it_nit s) (ic_time_limit c) in
  let another := negb done && negb open_loop in
  if negb (in_int32 finished) || (another && negb (in_int32 (it_next s + 1))) then ItUB
  else
    let next := if another then it_next s + 1 else it_next s in
    let pending := next - finished in
    let rest := live_del k (it_live s) in
    if done && (pending =? 0)
    then ItNext (mkIt next finished (it_nit s) rest (it_canceled s) (S (it_calls s)) (ICall :: it_log s))
    else if another
    then ItNext (mkIt next finished (it_nit s) (rest ++ [(it_next s, None)]) (it_canceled s) (it_calls s)
                  (start_event c now (it_next s) :: it_log s))
    else ItNext (mkIt next finished (it_nit s) rest (it_canceled s) (it_calls s) (it_log s)).

(** distbench_engine.cc:1970-1994 StartOpenLoopIteration, called when
    next_iteration_time < now (1361-1367).  [gap] is the distance to the next
    start: the period, or the period times an exponential sample. *)
Definition open_loop_tick (c : iter_cfg) (now gap : Z) (s : it_state) : it_result :=
  match it_nit s with
  | None => ItDisabled
  | Some t =>
      if negb (t <? now) then ItDisabled
      else
        let nit := if time_gt (Some (t + gap)) (ic_time_limit c) then None else Some (t + gap) in
        if it_next s >=? ic_limit c
        then ItNext (mkIt (it_next s) (it_finished s) nit (it_live s) (it_canceled s) (it_calls s) (it_log s))
        else if negb (in_int32 (it_next s + 1)) then ItUB
        else ItNext (mkIt (it_next s + 1) (it_finished s) nit (it_live s ++ [(it_next s, None)]) (it_canceled s)
                       (it_calls s) (start_event c now (it_next s) :: it_log s))
  end.

Definition it_step (c : iter_cfg) (a : it_action) (s : it_state) : it_result :=
  match a with
  | AEnd k =>
      match live_get k (it_live s) with
      | Some None =>
          ItNext (mkIt (it_next s) (it_finished s) (it_nit s) (live_set k (Some (it_canceled s)) (it_live s))
                    (it_canceled s) (it_calls s) (IEnd k :: it_log s))
      | _ => ItDisabled
      end
  | AFinish k now =>
      match live_get k (it_live s) with
      | Some (Some obs) => finish_iteration c obs k now s
      | _ => ItDisabled
      end
  | ATick now gap => match ic_period c with Some _ => open_loop_tick c now gap s | None => ItDisabled end
  | ACancel =>       (* distbench_engine.cc:904-912, only the first call notifies *)
      if it_canceled s then ItDisabled
      else ItNext (mkIt (it_next s) (it_finished s) (it_nit s) (it_live s) true (it_calls s) (ICancel :: it_log s))
  | AHandled =>      (* distbench_engine.cc:1560-1570 *)
      if Nat.eqb (it_calls s) 0 then ItDisabled
      else ItNext (mkIt (it_next s) (it_finished s) None (it_live s) (it_canceled s) (it_calls s) (it_log s))
  end.

(** Runs a schedule; impossible actions are skipped. *)
Fixpoint it_run (c : iter_cfg) (l : list it_action) (s : it_state) : it_result :=
  match l with
  | [] => ItNext s
  | a :: r => match it_step c a s with
              | ItDisabled => it_run c r s
              | ItNext s' => it_run c r s'
              | bad => bad
              end
  end.

(** * Activities

    An activity action runs in the thread of RunActionList only: first
    parallel_copies times from InitiateAction, then once per pass of the main
    loop until it is finished (1363-1364, 1996-1998); FinishIteration numbers
    but does not start another iteration (2076).  [now n] is the time read by
    the n-th execution, [obs n] the value of canceled_ it read. *)
Record act_state := mkAct { ac_next : Z; ac_finished : Z; ac_runs : nat; ac_done : bool }.
Definition activity_iteration (c : iter_cfg) (now : nat -> Z) (obs : nat -> bool) (s : act_state) : act_state :=
  let finished := ac_finished s + 1 in
  let done := if ac_next s =? ic_limit c then true
              else obs (ac_runs s) || match ic_time_limit c with Some t => now (ac_runs s) >? t | None => false end in
  let next := if negb done then ac_next s + 1 else ac_next s in
  mkAct next finished (S (ac_runs s)) (done && (next - finished =? 0)).
Fixpoint activity_runs (c : iter_cfg) now obs (n : nat) (s : act_state) : act_state :=
  match n with
  | O => s
  | S m => activity_runs c now obs m (activity_iteration c now obs s)
  end.
(** Main loop passes until the callback; [fuel] bounds the number of passes. *)
Fixpoint activity_loop (c : iter_cfg) now obs (fuel : nat) (s : act_state) : act_state :=
  if ac_done s then s
  else match fuel with
       | O => s
       | S f => activity_loop c now obs f (activity_iteration c now obs s)
       end.
