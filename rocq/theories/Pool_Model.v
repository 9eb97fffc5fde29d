(** Model of distbench_threadpool.cc: the null, simple and elastic pools.
    Each section under a pool's mutex is one step, since the pools touch their
    shared data nowhere else; tasks start and end in steps of their own.
    Waiting on a condition is a step that is possible only when the condition
    holds (absl::Mutex::Await).  Definitions only. *)
From Coq Require Import Ascii String List ZArith Bool.
From Verif Require Import Base_Model Sync_Model.
Import ListNotations.

(** A pool thread. *)
Inductive th_phase :=
| ThNone                  (* not created *)
| ThHas (k : nat)         (* owns task k, not yet started *)
| ThRun (k : nat)         (* inside task k *)
| ThLock (did : bool)     (* about to take the mutex; [did]: did_work *)
| ThWait (timed : bool)   (* waiting for a task; [timed]: with the one second limit *)
| ThGone.                 (* left the pool *)
Inductive p_event :=
| PAdd (k : nat)          (* AddTask took the task in *)
| PTake (k : nat)         (* popped from the queue *)
| PStart (k : nat) | PEnd (k : nat)
| PDestroyed.             (* the destructor returned *)
Record pool := mkPool {
  po_queue : list nat;    (* task_queue_, front first *)
  po_next : nat;          (* tasks are numbered in the order of AddTask *)
  po_active : Z;          (* active_threads_ *)
  po_idle : Z;            (* idle_threads_ *)
  po_count : Z;           (* task_count_ *)
  po_th : nat -> th_phase;
  po_nth : nat;           (* threads created; threads_launched_ *)
  po_shutdown : bool;     (* shutdown_ notified, or destructor entered *)
  po_gone : bool;         (* destructor returned *)
  po_log : list p_event }.  (* newest first; ghost *)
Inductive p_action :=
| QAdd (who : option nat) (* AddTask by the task that thread t is running, or by somebody outside *)
| QThread (t : nat)       (* thread t makes a step *)
| QTimeout (t : nat)      (* the wait of thread t times out *)
| QShutdown               (* the destructor begins *)
| QDestroyed.             (* ... and returns *)

(** AddTask may be called from outside until the destructor begins (later the
    caller uses a pool under destruction, which is not modelled), and from a
    running task at any time. *)
Definition may_add (who : option nat) (s : pool) : bool :=
  match who with
  | None => negb (po_shutdown s)
  | Some t => match po_th s t with ThRun _ => true | _ => false end
  end.

(** Starting and ending the task in hand, in all pools. *)
Definition p_start (t k : nat) (s : pool) : pool :=
  mkPool (po_queue s) (po_next s) (po_active s) (po_idle s) (po_count s) (upd (po_th s) t (ThRun k)) (po_nth s)
         (po_shutdown s) (po_gone s) (PStart k :: po_log s).
Definition p_end (t k : nat) (next : th_phase) (s : pool) : pool :=
  mkPool (po_queue s) (po_next s) (po_active s) (po_idle s) (po_count s) (upd (po_th s) t next) (po_nth s)
         (po_shutdown s) (po_gone s) (PEnd k :: po_log s).
Definition p_shutdown (s : pool) : option pool :=
  if po_shutdown s then None
  else Some (mkPool (po_queue s) (po_next s) (po_active s) (po_idle s) (po_count s) (po_th s) (po_nth s) true (po_gone s) (po_log s)).
(** ~NullThreadpool 51-55, ~SimpleThreadpool 112-117, ~ElasticThreadpool
    253-262: Await(active_threads_ == 0). *)
Definition p_destroyed (s : pool) : option pool :=
  if po_shutdown s && negb (po_gone s) && (po_active s =? 0)%Z
  then Some (mkPool (po_queue s) (po_next s) (po_active s) (po_idle s) (po_count s) (po_th s) (po_nth s) true true (PDestroyed :: po_log s))
  else None.

(** ** NullThreadpool, 36-69 *)
Definition null0 : pool := mkPool [] 0 0 0 0 (fun _ => ThNone) 0 false false [].
Definition null_step (a : p_action) (s : pool) : option pool :=
  match a with
  | QAdd who =>
      if negb (may_add who s) then None
      else Some (mkPool [] (S (po_next s)) (po_active s + 1) 0 0 (upd (po_th s) (po_nth s) (ThHas (po_next s))) (S (po_nth s))
                   (po_shutdown s) (po_gone s) (PAdd (po_next s) :: po_log s))
  | QThread t =>
      match po_th s t with
      | ThHas k => Some (p_start t k s)
      | ThRun k => Some (p_end t k (ThLock true) s)
      | ThLock _ => Some (mkPool [] (po_next s) (po_active s - 1) 0 0 (upd (po_th s) t ThGone) (po_nth s) (po_shutdown s) (po_gone s) (po_log s))
      | _ => None
      end
  | QTimeout _ => None
  | QShutdown => p_shutdown s
  | QDestroyed => p_destroyed s
  end.

(** ** SimpleThreadpool, 71-124 *)
(** 86-110: [n] threads, all about to wait. *)
Definition simple0 (n : nat) : pool :=
  mkPool [] 0 (Z.of_nat n) 0 0 (fun t => if Nat.ltb t n then ThWait false else ThNone) n false false [].
Definition simple_step (a : p_action) (s : pool) : option pool :=
  match a with
  | QAdd who =>                                    (* 121-124 *)
      if negb (may_add who s) then None
      else Some (mkPool (po_queue s ++ [po_next s]) (S (po_next s)) (po_active s) 0 0 (po_th s) (po_nth s)
                   (po_shutdown s) (po_gone s) (PAdd (po_next s) :: po_log s))
  | QThread t =>
      match po_th s t with
      | ThWait _ =>                                (* 95-104 *)
          match po_queue s with
          | k :: r => Some (mkPool r (po_next s) (po_active s) 0 0 (upd (po_th s) t (ThHas k)) (po_nth s) (po_shutdown s) (po_gone s)
                              (PTake k :: po_log s))
          | [] => if po_shutdown s
                  then Some (mkPool [] (po_next s) (po_active s - 1) 0 0 (upd (po_th s) t ThGone) (po_nth s) (po_shutdown s) (po_gone s) (po_log s))
                  else None
          end
      | ThHas k => Some (p_start t k s)
      | ThRun k => Some (p_end t k (ThWait false) s)
      | _ => None
      end
  | QTimeout _ => None
  | QShutdown => p_shutdown s
  | QDestroyed => p_destroyed s
  end.

(** ** ElasticThreadpool, 126-262 *)
Definition elastic0 : pool := mkPool [] 0 0 0 0 (fun _ => ThNone) 0 false false [].
(** A task or shutdown is there, 180-182. *)
Definition available (s : pool) : bool := match po_queue s with [] => po_shutdown s | _ => true end.
(** 206-233: what thread [t] does when WaitForTask returned true; [idle] is
    idle_threads_ then. *)
Definition elastic_take (t : nat) (idle : Z) (count : Z) (s : pool) : pool :=
  match po_queue s with
  | [] => mkPool [] (po_next s) (po_active s - 1) idle count (upd (po_th s) t ThGone) (po_nth s) (po_shutdown s) (po_gone s) (po_log s)
  | k :: r =>
      let th := upd (po_th s) t (ThHas k) in
      match r with
      | j :: r' =>
          if (idle =? 0)%Z                         (* 216: grow, steal a second task *)
          then mkPool r' (po_next s) (po_active s + 1) idle count (upd th (po_nth s) (ThHas j)) (S (po_nth s)) (po_shutdown s) (po_gone s)
                 (PTake j :: PTake k :: po_log s)
          else mkPool r (po_next s) (po_active s) idle count th (po_nth s) (po_shutdown s) (po_gone s) (PTake k :: po_log s)
      | [] => mkPool [] (po_next s) (po_active s) idle count th (po_nth s) (po_shutdown s) (po_gone s) (PTake k :: po_log s)
      end
  end.
Definition elastic_step (max : nat) (a : p_action) (s : pool) : option pool :=
  match a with
  | QAdd who =>                                    (* 149-176 *)
      if negb (may_add who s) then None
      else if Nat.leb (length (po_queue s) + 1) max then
        let q := po_queue s ++ [po_next s] in
        let grow := (po_idle s =? 0)%Z || ((po_active s <? Z.of_nat max)%Z && (Z.of_nat (length q) >? po_idle s)%Z) in
        match grow, q with
        | true, k :: r =>
            Some (mkPool r (S (po_next s)) (po_active s + 1) (po_idle s) (po_count s) (upd (po_th s) (po_nth s) (ThHas k)) (S (po_nth s))
                    (po_shutdown s) (po_gone s) (PTake k :: PAdd (po_next s) :: po_log s))
        | _, _ =>
            Some (mkPool q (S (po_next s)) (po_active s) (po_idle s) (po_count s) (po_th s) (po_nth s)
                    (po_shutdown s) (po_gone s) (PAdd (po_next s) :: po_log s))
        end
      else None                                    (* 154: waits *)
  | QThread t =>
      match po_th s t with
      | ThHas k => Some (p_start t k s)            (* 197-201 *)
      | ThRun k => Some (p_end t k (ThLock true) s)
      | ThLock did =>                              (* 202-206 and 178-191 *)
          let count := if did then (po_count s + 1)%Z else po_count s in
          if available s then Some (elastic_take t (po_idle s) count s)   (* Await returns at once: idle + 1 - 1 *)
          else Some (mkPool (po_queue s) (po_next s) (po_active s) (po_idle s + 1) count
                       (upd (po_th s) t (ThWait (po_idle s + 1 >? Z.of_nat max)%Z)) (po_nth s) (po_shutdown s) (po_gone s) (po_log s))
      | ThWait _ => if available s then Some (elastic_take t (po_idle s - 1) (po_count s) s) else None
      | _ => None
      end
  | QTimeout t =>                                  (* 234-243 *)
      match po_th s t with
      | ThWait true =>
          if available s then None
          else let idle := (po_idle s - 1)%Z in
               if (idle >=? Z.of_nat max)%Z
               then Some (mkPool (po_queue s) (po_next s) (po_active s - 1) idle (po_count s) (upd (po_th s) t ThGone) (po_nth s)
                            (po_shutdown s) (po_gone s) (po_log s))
               else Some (mkPool (po_queue s) (po_next s) (po_active s) idle (po_count s) (upd (po_th s) t (ThLock false)) (po_nth s)
                            (po_shutdown s) (po_gone s) (po_log s))
      | _ => None
      end
  | QShutdown => p_shutdown s
  | QDestroyed => p_destroyed s
  end.

(** Runs; an action that is not possible is skipped. *)
Fixpoint p_run (step : p_action -> pool -> option pool) (l : list p_action) (s : pool) : pool :=
  match l with
  | [] => s
  | a :: r => p_run step r (match step a s with Some s' => s' | None => s end)
  end.

(** ** CreateThreadpool, 323-342, without the optional mercury pool *)
Inductive pool_kind := PoolSimple (n : nat) | PoolElastic (n : nat) | PoolNull.
Inductive create_result := PoolOk (k : pool_kind) | PoolError (message : str).
Definition create_threadpool (type : str) (size : Z) : create_result :=
  if (size <? 1)%Z then PoolError (s_ "Threadpool size must be positive")
  else if str_eqb type (s_ "simple") then PoolOk (PoolSimple (Z.to_nat size))
  else if str_eqb type [] || str_eqb type (s_ "elastic") then PoolOk (PoolElastic (Z.to_nat size))
  else if str_eqb type (s_ "null") then PoolOk PoolNull
  else PoolError (s_ "Threadpool type unknown: " ++ type)%list.
(** The pool behind the interface. *)
Definition pool_init (k : pool_kind) : pool :=
  match k with PoolSimple n => simple0 n | PoolElastic _ => elastic0 | PoolNull => null0 end.
Definition pool_step (k : pool_kind) : p_action -> pool -> option pool :=
  match k with PoolSimple _ => simple_step | PoolElastic n => elastic_step n | PoolNull => null_step end.
