(** Model of DistBenchEngine::RunActionList (distbench_engine.cc:1311-1516).
    Definitions only. *)
From Coq Require Import Ascii String List ZArith Bool.
From Verif Require Import Base_Model.
Import ListNotations.
Open Scope Z_scope.

(** distbench_engine.h:162-175 ActionTableEntry, as far as RunActionList looks
    at it.  [aa_silent]: InitiateAction returns without ever completing the
    action (lines 1863-1866, 1872); [aa_fatal]: LOG(FATAL) (line 1909);
    [aa_timed]: an activity or open loop, whose next_iteration_time can end a
    wait. *)
Record al_action := mkAA {
  aa_deps : list nat;
  aa_delay : bool;             (* delay_distribution_index != -1 *)
  aa_send : bool;              (* send_response_when_done *)
  aa_cancel : bool;            (* cancel_traffic_when_done *)
  aa_preds : list str;
  aa_override : Z;             (* effective response override: set only by override actions, 1902-1909 *)
  aa_activity : bool;
  aa_timed : bool;
  aa_silent : bool;
  aa_fatal : bool }.

(** distbench_engine.cc:1327-1338: [draw] is random_float(local_bitgen) <= probability. *)
Definition draw_predicates (draws : list (str * bool)) : list str :=
  map (fun nb : str * bool => if snd nb then fst nb else (s_ "!"%string ++ fst nb)%list) draws.

(** How far all_done_callback of an action got: not called, called (response
    sent and traffic cancelled where configured), FinishAction performed. *)
Inductive cb_phase := CbNone | CbEntered | CbFinished.

(** distbench_engine.h:195-227 ActionState. *)
Record a_entry := mkEntry {
  e_started : bool; e_finished : bool; e_waiting : bool; e_skipped : bool;
  e_time : option Z;           (* next_iteration_time while waiting *)
  e_override : Z;
  e_sends : bool;              (* which all_done_callback was chosen *)
  e_cb : cb_phase }.
Definition entry0 : a_entry := mkEntry false false false false None (-1) false CbNone.

Inductive al_event :=
| LDelay (i : nat) (now d : Z)
| LStart (i : nat) (skip : bool) (now : Z)
| LCall (i : nat)                     (* all_done_callback called *)
| LSend (by_action : option nat) (override : Z)
| LFinish (i : nat)                   (* FinishAction *)
| LDone (i : nat)                     (* finished flag set *)
| LCancel
| LFree.                              (* FreeStateIfSet; RunActionList returns *)

Inductive al_pc :=
| PTop | PScan (i : nat) (now : Z) | PWait | PCheck | PCancel (i : nat) (some : bool) | PDrain | PEnd | PDone.

Record al_state := mkAL {
  al_pc_ : al_pc;
  al_tbl : nat -> a_entry;            (* state_table *)
  al_fin : list nat;                  (* finished_action_indices *)
  al_pending : Z;                     (* pending_action_count_ *)
  al_override : Z;                    (* response_payload_override_index *)
  al_early : bool;                    (* sent_response_early *)
  al_canceled : bool;
  al_log : list al_event }.           (* newest first; ghost *)

Inductive al_result := AlDisabled | AlCrash | AlNext (s : al_state).

Section WithList.
(** The action list, and predicates_ (drawn once per invocation). *)
Variable acts : list al_action.
Variable preds : list str.

Definition size : nat := length acts.
Definition al_init : al_state := mkAL PTop (fun _ => entry0) [] 0 (-1) false false [].

Definition tset (t : nat -> a_entry) (i : nat) (e : a_entry) : nat -> a_entry :=
  fun j => if Nat.eqb j i then e else t j.
Definition set_pc (p : al_pc) (s : al_state) : al_state :=
  mkAL p (al_tbl s) (al_fin s) (al_pending s) (al_override s) (al_early s) (al_canceled s) (al_log s).

(** distbench_engine.cc:1374-1383: None when an index is out of range. *)
Fixpoint deps_status (t : nat -> a_entry) (deps : list nat) (skip : bool) : option (bool * bool) :=
  match deps with
  | [] => Some (true, skip)
  | d :: r => if Nat.ltb d size
              then if e_finished (t d) then deps_status t r (skip || e_skipped (t d)) else Some (false, skip)
              else None
  end.

(** DidSomeActionsFinish, distbench_engine.cc:1554-1558. *)
Definition some_finished (s : al_state) : bool :=
  (al_pending s =? 0) || negb (match al_fin s with [] => true | _ => false end).
(** HandleFinishedActions, distbench_engine.cc:1560-1570. *)
Definition mark_finished (t : nat -> a_entry) (i : nat) : nat -> a_entry :=
  let e := t i in
  tset t i (mkEntry (e_started e) true (e_waiting e) (e_skipped e) None (e_override e) (e_sends e) (e_cb e)).
Definition handle_finished (p : al_pc) (s : al_state) : al_result :=
  if some_finished s
  then AlNext (mkAL p (fold_left mark_finished (al_fin s) (al_tbl s)) [] (al_pending s) (al_override s)
                 (al_early s) (al_canceled s) (rev (map LDone (al_fin s)) ++ al_log s))
  else AlCrash.

(** The all_done_callback chosen at lines 1403-1435, up to FinishAction:
    response (with the action's own override, or the list's), cancellation. *)
Definition enter_callback (i : nat) (a : al_action) (s : al_state) : al_state :=
  let e := al_tbl s i in
  let ov := if e_override e =? -1 then al_override s else e_override e in
  let l1 := LCall i :: al_log s in
  let l2 := if e_sends e then LSend (Some i) ov :: l1 else l1 in
  let l3 := if aa_cancel a && negb (al_canceled s) then LCancel :: l2 else l2 in
  mkAL (al_pc_ s)
    (tset (al_tbl s) i (mkEntry (e_started e) (e_finished e) (e_waiting e) (e_skipped e) (e_time e) (e_override e)
       (e_sends e) CbEntered))
    (al_fin s) (al_pending s) (al_override s) (al_early s) (al_canceled s || aa_cancel a) l3.
(** FinishAction, distbench_engine.cc:1518-1528. *)
Definition finish_action (i : nat) (s : al_state) : al_state :=
  let e := al_tbl s i in
  mkAL (al_pc_ s)
    (tset (al_tbl s) i (mkEntry (e_started e) (e_finished e) (e_waiting e) (e_skipped e) (e_time e) (e_override e)
       (e_sends e) CbFinished))
    (al_fin s ++ [i]) (al_pending s - 1)
    (if e_override e =? -1 then al_override s else e_override e)
    (al_early s) (al_canceled s) (LFinish i :: al_log s).

Definition subset_of (ps qs : list str) : bool := forallb (fun p => existsb (str_eqb p) qs) ps.

(** One iteration of the scan, distbench_engine.cc:1359-1459.  Open loop and
    activity iterations of started actions (1361-1367) only act through the
    callback.  [d] is the sampled delay. *)
Definition scan_action (i : nat) (now d : Z) (s : al_state) : al_result :=
  match nth_error acts i with
  | None => AlCrash
  | Some a =>
      let e := al_tbl s i in
      if e_started e then AlNext (set_pc (PScan (S i) now) s)
      else if e_waiting e && match e_time e with Some t => t >? now | None => true end
      then AlNext (set_pc (PScan (S i) now) s)
      else match deps_status (al_tbl s) (aa_deps a) false with
           | None => AlCrash
           | Some (false, _) => AlNext (set_pc (PScan (S i) now) s)
           | Some (true, dep_skip) =>
               if negb (e_waiting e) && aa_delay a
               then AlNext (mkAL (PScan (S i) now)
                      (tset (al_tbl s) i (mkEntry false (e_finished e) true (e_skipped e) (Some (now + d))
                         (e_override e) (e_sends e) (e_cb e)))
                      (al_fin s) (al_pending s) (al_override s) (al_early s) (al_canceled s)
                      (LDelay i now d :: al_log s))
               else
                 let sends := negb (al_early s) && (Nat.eqb size 1 || aa_send a) in
                 let skip := dep_skip || negb (subset_of (aa_preds a) preds) in
                 if negb skip && aa_fatal a then AlCrash
                 else
                   let s1 := mkAL (PScan (S i) now)
                     (tset (al_tbl s) i (mkEntry true (e_finished e) false skip None
                        (if skip then -1 else aa_override a) sends (e_cb e)))
                     (al_fin s) (al_pending s + 1) (al_override s) (al_early s || sends) (al_canceled s)
                     (LStart i skip now :: al_log s) in
                   if skip then AlNext (finish_action i (enter_callback i a s1))   (* line 1453 *)
                   else AlNext s1
           end
  end.

Definition all_finished (s : al_state) : bool := forallb (fun i => e_finished (al_tbl s i)) (seq 0 size).
Definition none_running (s : al_state) : bool :=
  forallb (fun i => negb (e_started (al_tbl s i)) || e_finished (al_tbl s i)) (seq 0 size).
(** A finite deadline at lines 1460-1470. *)
Definition timed_wait (s : al_state) : bool :=
  existsb (fun i => negb (e_finished (al_tbl s i)) &&
                    (e_waiting (al_tbl s i) || match nth_error acts i with Some a => aa_timed a | None => false end))
          (seq 0 size).

Inductive al_action_ :=
| MStep (now d : Z)            (* RunActionList's thread *)
| ECall (i : nat)              (* an iteration calls all_done_callback *)
| EFinish (i : nat)            (* ... and reaches FinishAction *)
| ECancel.                     (* CancelTraffic from elsewhere *)

Definition main_step (now d : Z) (s : al_state) : al_result :=
  match al_pc_ s with
  | PTop => AlNext (set_pc (PScan 0 now) s)                       (* 1357 *)
  | PScan i t =>
      if Nat.ltb i size then scan_action i t d s
      else if all_finished s then AlNext (set_pc PEnd s)          (* 1471 *)
      else AlNext (set_pc PWait s)
  | PWait =>                                                      (* 1475-1482 *)
      if some_finished s then handle_finished PCheck s
      else if timed_wait s then AlNext (set_pc PCheck s)
      else AlDisabled
  | PCheck => AlNext (set_pc (if al_canceled s then PCancel 0 false else PTop) s)   (* 1483 *)
  | PCancel i some =>                                             (* 1572-1596 CancelActivities *)
      if Nat.ltb i size then
        match nth_error acts i with
        | None => AlCrash
        | Some a =>
            let e := al_tbl s i in
            if e_finished e || negb (e_started e) || negb (aa_activity a)
            then AlNext (set_pc (PCancel (S i) some) s)
            else match e_cb e with
                 | CbNone => AlNext (set_pc (PCancel (S i) true) (finish_action i (enter_callback i a s)))
                 | _ => AlCrash                                   (* all_done_callback already called *)
                 end
        end
      else if some then handle_finished PDrain s else AlNext (set_pc PDrain s)
  | PDrain =>                                                     (* 1627-1643 WaitForAllPendingActions *)
      if some_finished s
      then match handle_finished PDrain s with
           | AlNext s' => AlNext (set_pc (if none_running s' then PEnd else PDrain) s')
           | r => r
           end
      else AlDisabled
  | PEnd =>                                                       (* 1492-1502 *)
      AlNext (mkAL PDone (al_tbl s) (al_fin s) (al_pending s) (al_override s) (al_early s) (al_canceled s)
                (LFree :: (if al_early s then [] else [LSend None (al_override s)]) ++ al_log s))
  | PDone => AlDisabled
  end.

Definition scanning (p : al_pc) : bool := match p with PScan _ _ => true | _ => false end.

(** Each started action calls its callback at most once (C26), activities only
    from the scan; a callback that comes after the return would use freed
    memory. *)
Definition al_step (a : al_action_) (s : al_state) : al_result :=
  match a with
  | MStep now d => main_step now d s
  | ECall i =>
      match nth_error acts i with
      | None => AlDisabled
      | Some aa =>
          let e := al_tbl s i in
          if e_started e && negb (aa_silent aa) then
            match e_cb e, al_pc_ s with
            | CbNone, PDone => AlCrash
            | CbNone, p =>
                if aa_activity aa
                then if scanning p then AlNext (finish_action i (enter_callback i aa s)) else AlDisabled
                else AlNext (enter_callback i aa s)
            | _, _ => AlDisabled
            end
          else AlDisabled
      end
  | EFinish i =>
      match e_cb (al_tbl s i), al_pc_ s with
      | CbEntered, PDone => AlCrash
      | CbEntered, _ => AlNext (finish_action i s)
      | _, _ => AlDisabled
      end
  | ECancel =>
      if al_canceled s then AlDisabled
      else AlNext (mkAL (al_pc_ s) (al_tbl s) (al_fin s) (al_pending s) (al_override s) (al_early s) true
                     (LCancel :: al_log s))
  end.

Fixpoint al_run (l : list al_action_) (s : al_state) : al_result :=
  match l with
  | [] => AlNext s
  | a :: r => match al_step a s with
              | AlDisabled => al_run r s
              | AlNext s' => al_run r s'
              | AlCrash => AlCrash
              end
  end.
End WithList.
