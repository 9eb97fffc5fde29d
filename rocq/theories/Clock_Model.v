(** The timed waits of RealClock (protocol_driver.cc).  Definitions only.

    Outside: absl::Mutex, absl::Now, the CPU time clock of the thread.  What
    they return is an argument.  clock_gettime cannot fail in the waits (it is
    checked in SpinFor only).
    Times are unbounded integers (nanoseconds); absl::InfiniteFuture is [None]
    and stays so under subtraction and addition, as in absl. *)
From Coq Require Import List ZArith Bool Arith.
Import ListNotations.
Open Scope Z_scope.

(** One turn of a spinning loop: what LockWhenWithDeadline or
    AwaitWithDeadline with a deadline in the past returned, the time at which
    it did, the CPU time read after it. *)
Record try := mkTry { ty_true : bool; ty_wall : Z; ty_cpu : Z }.
(** The readings of a wait: absl::Now (90, 111) and the CPU clock (93, 114)
    before the loop, the turns, the blocking wait at the end. *)
Record readings := mkReadings { rd_start : Z; rd_cpu : Z; rd_tries : list try; rd_last : bool; rd_last_wall : Z }.
(** What the thread does with the mutex. *)
Inductive mop := MLock | MUnlock | MAwait.
(** A wait that returned: its result, what it did with the mutex, when it
    returned, the turns it took; or one whose turns are not over. *)
Inductive waited := Returned (r : bool) (ops : list mop) (wall : Z) (turns : nat) | Spinning.

(** protocol_driver.cc:91-94, 112-115: the CPU time up to which to spin. *)
Definition spin_until (deadline : option Z) (rd : readings) : option Z :=
  match deadline with
  | None => None
  | Some d => Some (rd_cpu rd + (d - rd_start rd))
  end.
Definition before (x : Z) (timeout : option Z) : bool :=
  match timeout with None => true | Some t => x <? t end.

(** protocol_driver.cc:96-103: the loop of MutexLockWhenWithDeadline; [inl]: the condition was
    true; [inr]: the time is over. *)
Fixpoint spin_lock (timeout : option Z) (l : list try) (ops : list mop) (n : nat) : option ((list mop * Z * nat) + (list mop * nat)) :=
  match l with
  | [] => None
  | y :: r =>
      if ty_true y then Some (inl (ops ++ [MLock], ty_wall y, S n))
      else if before (ty_cpu y) timeout then spin_lock timeout r (ops ++ [MLock; MUnlock]) (S n)
      else Some (inr (ops ++ [MLock; MUnlock], S n))
  end.
(** protocol_driver.cc:85-106. *)
Definition lock_when_with_deadline (deadline : option Z) (spin : bool) (rd : readings) : waited :=
  if spin then
    match spin_lock (spin_until deadline rd) (rd_tries rd) [] 0 with
    | None => Spinning
    | Some (inl (ops, w, n)) => Returned true ops w n
    | Some (inr (ops, n)) => Returned (rd_last rd) (ops ++ [MLock]) (rd_last_wall rd) n
    end
  else Returned (rd_last rd) [MLock] (rd_last_wall rd) 0.

(** protocol_driver.cc:117-123: the loop of MutexAwaitWithDeadline. *)
Fixpoint spin_await (timeout : option Z) (l : list try) (ops : list mop) (n : nat) : option ((list mop * Z * nat) + (list mop * nat)) :=
  match l with
  | [] => None
  | y :: r =>
      if ty_true y then Some (inl (ops ++ [MAwait], ty_wall y, S n))
      else if before (ty_cpu y) timeout then spin_await timeout r (ops ++ [MAwait]) (S n)
      else Some (inr (ops ++ [MAwait], S n))
  end.
(** protocol_driver.cc:108-126. *)
Definition await_with_deadline (deadline : option Z) (spin : bool) (rd : readings) : waited :=
  if spin then
    match spin_await (spin_until deadline rd) (rd_tries rd) [] 0 with
    | None => Spinning
    | Some (inl (ops, w, n)) => Returned true ops w n
    | Some (inr (ops, n)) => Returned (rd_last rd) (ops ++ [MAwait]) (rd_last_wall rd) n
    end
  else Returned (rd_last rd) [MAwait] (rd_last_wall rd) 0.

(** protocol_driver.cc:74-83: SpinFor, with the readings of the CPU clock ([None]: clock_gettime
    failed, the CHECK aborts); the result is the number of readings in the loop. *)
Inductive spun := SpunFor (n : nat) | SpunCrash | SpunOn.
Fixpoint spin_loop (start duration : Z) (l : list (option Z)) (n : nat) : spun :=
  match l with
  | [] => SpunOn
  | None :: _ => SpunCrash
  | Some now :: r => if now - start <? duration then spin_loop start duration r (S n) else SpunFor (S n)
  end.
Definition spin_for (duration : Z) (l : list (option Z)) : spun :=
  match l with
  | [] => SpunOn
  | None :: _ => SpunCrash
  | Some start :: r => spin_loop start duration r 0
  end.
