(** The thread pool over Mercury's (distbench_threadpool.cc:264-322).  Definitions
    only. *)
From Coq Require Import List Bool Arith.
Import ListNotations.
Open Scope nat_scope.

(** A HeapObject (278-281) is known by its address, and has a task. *)
Record object := mkObj { b_addr : nat; b_task : nat }.
(** What a worker of hg_thread_pool does: it is about to call the task of an
    object, or in the task, or about to delete the object (309-316: Trampoline).  *)
Inductive phase := ToCall | Calling | ToDelete.
(** The pool: thread_pool_ (None: not set by hg_thread_pool_init, 286-293), the
    objects allocated, the queue of hg_thread_pool (addresses), what each worker
    does, whether it was destroyed.  [p_started], [p_finished]: the tasks in the
    order in which they were called and returned. *)
Record mpool := mkMp {
  p_valid : bool; p_heap : list object; p_queue : list nat; p_workers : list (option (nat * phase)); p_destroyed : bool;
  p_started : list nat; p_finished : list nat }.
(** hg_thread_pool_init sets the pointer only if it succeeds. *)
Definition mp_make (works : bool) (threads : nat) : mpool := mkMp works [] [] (repeat None threads) false [] [].

(** A step ends well, has to wait, or is undefined behaviour: use of the pointer
    that was not set, of the destroyed pool, of an object that is not allocated,
    or an allocation at an address in use (excluded by new). *)
Inductive outcome := Done (p : mpool) | Waits | Undefined.
Definition find_obj (a : nat) (h : list object) : option object := find (fun o => b_addr o =? a) h.
Definition remove_obj (a : nat) (h : list object) : list object := filter (fun o => negb (b_addr o =? a)) h.
Fixpoint set_worker (w : nat) (x : option (nat * phase)) (l : list (option (nat * phase))) : list (option (nat * phase)) :=
  match l, w with
  | [], _ => []
  | _ :: r, 0 => x :: r
  | y :: r, S k => y :: set_worker k x r
  end.
Definition idle (x : option (nat * phase)) : bool := match x with None => true | Some _ => false end.

(** AddTask of a task with the new object at an address (299-307); a worker takes
    the head of the queue; Trampoline calls the task, the task returns, the
    object is deleted; the destructor (295-297). *)
Inductive mev := MAdd (task addr : nat) | MTake (w : nat) | MCall (w : nat) | MReturn (w : nat) | MDelete (w : nat) | MDestroy.
Definition mp_step (p : mpool) (e : mev) : outcome :=
  let with_worker w x heap queue started finished := mkMp (p_valid p) heap queue (set_worker w x (p_workers p)) (p_destroyed p) started finished in
  match e with
  | MAdd task addr =>
      if p_valid p && negb (p_destroyed p)
      then match find_obj addr (p_heap p) with
           | Some _ => Waits
           | None => Done (mkMp (p_valid p) (mkObj addr task :: p_heap p) (p_queue p ++ [addr]) (p_workers p) (p_destroyed p) (p_started p) (p_finished p))
           end
      else Undefined
  | MTake w =>
      match nth_error (p_workers p) w, p_queue p with
      | Some None, a :: q => Done (with_worker w (Some (a, ToCall)) (p_heap p) q (p_started p) (p_finished p))
      | _, _ => Waits
      end
  | MCall w =>
      match nth_error (p_workers p) w with
      | Some (Some (a, ToCall)) =>
          match find_obj a (p_heap p) with
          | Some o => Done (with_worker w (Some (a, Calling)) (p_heap p) (p_queue p) (p_started p ++ [b_task o]) (p_finished p))
          | None => Undefined
          end
      | _ => Waits
      end
  | MReturn w =>
      match nth_error (p_workers p) w with
      | Some (Some (a, Calling)) =>
          match find_obj a (p_heap p) with
          | Some o => Done (with_worker w (Some (a, ToDelete)) (p_heap p) (p_queue p) (p_started p) (p_finished p ++ [b_task o]))
          | None => Undefined
          end
      | _ => Waits
      end
  | MDelete w =>
      match nth_error (p_workers p) w with
      | Some (Some (a, ToDelete)) =>
          match find_obj a (p_heap p) with
          | Some _ => Done (with_worker w None (remove_obj a (p_heap p)) (p_queue p) (p_started p) (p_finished p))
          | None => Undefined
          end
      | _ => Waits
      end
  | MDestroy =>   (* hg_thread_pool_destroy: the workers empty the queue, then are joined *)
      if p_valid p && negb (p_destroyed p)
      then if forallb idle (p_workers p) && match p_queue p with [] => true | _ :: _ => false end
           then Done (mkMp (p_valid p) (p_heap p) (p_queue p) (p_workers p) true (p_started p) (p_finished p))
           else Waits
      else Undefined
  end.
Fixpoint mp_run (l : list mev) (p : mpool) : outcome :=
  match l with
  | [] => Done p
  | e :: r => match mp_step p e with Done p' => mp_run r p' | o => o end
  end.
