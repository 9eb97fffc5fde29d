(** Model of the small shared-memory objects: SafeNotification, CancelTraffic
    with its readers, ThreadSafeDictionary, the thread overload monitor and the
    iteration state cache.  Threads interleave at every access to shared data;
    a mutex is modelled by its owner.  Weak memory is not modelled: all these
    accesses are atomics, absl::Notification or made under a mutex, except
    where a comment says so.  Definitions only. *)
From Coq Require Import List ZArith Bool.
From Verif Require Import Base_Model Iter_Model.
Import ListNotations.
Open Scope Z_scope.

Definition upd {A : Type} (f : nat -> A) (i : nat) (x : A) : nat -> A := fun j => if Nat.eqb j i then x else f j.

(** ** distbench_utils.h:38-57 SafeNotification *)
(** One attempt of TryToNotify. *)
Inductive sn_pc :=
| SnIdle
| SnFirst                 (* about to evaluate the outer HasBeenNotified *)
| SnLock                  (* about to take the mutex *)
| SnSecond                (* mutex held, about to evaluate the inner one *)
| SnNotify                (* mutex held, about to call Notify *)
| SnUnlock (won : bool)   (* mutex held, leaving the scope *)
| SnRet (won : bool).
Record sn := mkSn { sn_flag : bool; sn_owner : option nat; sn_th : nat -> sn_pc }.
Definition sn0 : sn := mkSn false None (fun _ => SnIdle).
(** SnCrash: absl::Notification::Notify called twice (fatal in absl). *)
Inductive sn_out := SnNext (s : sn) | SnCrash | SnStuck.
(** Thread [t] makes its next step; every attempt has its own number. *)
Definition sn_step (t : nat) (s : sn) : sn_out :=
  let go p := SnNext (mkSn (sn_flag s) (sn_owner s) (upd (sn_th s) t p)) in
  match sn_th s t with
  | SnIdle => go SnFirst
  | SnFirst => if sn_flag s then go (SnRet false) else go SnLock
  | SnLock => match sn_owner s with
              | None => SnNext (mkSn (sn_flag s) (Some t) (upd (sn_th s) t SnSecond))
              | Some _ => SnStuck
              end
  | SnSecond => if sn_flag s then go (SnUnlock false) else go SnNotify
  | SnNotify => if sn_flag s then SnCrash
                else SnNext (mkSn true (sn_owner s) (upd (sn_th s) t (SnUnlock true)))
  | SnUnlock w => SnNext (mkSn (sn_flag s) None (upd (sn_th s) t (SnRet w)))
  | SnRet _ => SnStuck
  end.
Fixpoint sn_run (l : list nat) (s : sn) : sn_out :=
  match l with
  | [] => SnNext s
  | t :: r => match sn_step t s with SnNext s' => sn_run r s' | SnCrash => SnCrash | SnStuck => sn_run r s end
  end.

(** ** distbench_engine.cc:904-912 CancelTraffic, 977-988 RpcHandler (reading
    the cancellation) and 940-944 GetLogs *)
Inductive cx_pc :=
| CxIdle
| CxLock (reason : str) (grace : Z)      (* CancelTraffic: about to take cancelation_mutex_ *)
| CxTry (reason : str) (grace : Z)       (* inside TryToNotify *)
| CxWrite1 (reason : str) (grace : Z)    (* about to store cancelation_reason_ *)
| CxWrite2 (grace : Z)                   (* about to store cancelation_time_ *)
| CxUnlock
| CxDone
| HxCheck                                (* RpcHandler: about to evaluate HasBeenNotified *)
| HxLock                                 (* about to take cancelation_mutex_ *)
| HxDecide                               (* mutex held: clock_->Now() > cancelation_time_ *)
| HxUnlock
| HxDone.
Inductive cx_event :=
| CvCall (t : nat) (reason : str) (grace : Z)
| CvReason (t : nat) (reason : str)      (* cancelation_reason_ stored *)
| CvDeadline (t : nat) (deadline : Z)    (* cancelation_time_ stored *)
| CvReturn (t : nat)                     (* CancelTraffic returned *)
| CvEnter (t : nat)                      (* a request reached RpcHandler *)
| CvRefuse (t : nat) (reason : str) (now : Z)  (* answered "Traffic cancelled: reason" *)
| CvPass (t : nat) (now : option Z)      (* not refused; None: not seen as cancelled *)
| CvLogs (reason : option str).          (* engine_error_message of GetLogs *)
Record cx := mkCx {
  cx_sn : sn; cx_mu : option nat; cx_reason : str; cx_time : Z;
  cx_th : nat -> cx_pc;
  cx_log : list cx_event }.              (* newest first; ghost *)
Definition cx0 : cx := mkCx sn0 None [] 0 (fun _ => CxIdle) [].
Inductive cx_action :=
| CaCancel (t : nat) (reason : str) (grace : Z)
| CaRequest (t : nat)
| CaLogs                                 (* reads cancelation_reason_ without the mutex *)
| CaStep (t : nat) (now : Z).            (* [now]: what clock_->Now() returns *)
(** [reason] is status.ToString(). *)
Inductive cx_out := CxNext (s : cx) | CxCrash | CxStuck.
Definition cx_step (a : cx_action) (s : cx) : cx_out :=
  match a with
  | CaCancel t r g =>
      match cx_th s t with
      | CxIdle => CxNext (mkCx (cx_sn s) (cx_mu s) (cx_reason s) (cx_time s) (upd (cx_th s) t (CxLock r g)) (CvCall t r g :: cx_log s))
      | _ => CxStuck
      end
  | CaRequest t =>
      match cx_th s t with
      | CxIdle => CxNext (mkCx (cx_sn s) (cx_mu s) (cx_reason s) (cx_time s) (upd (cx_th s) t HxCheck) (CvEnter t :: cx_log s))
      | _ => CxStuck
      end
  | CaLogs => CxNext (mkCx (cx_sn s) (cx_mu s) (cx_reason s) (cx_time s) (cx_th s)
                        (CvLogs (match cx_reason s with [] => None | _ => Some (cx_reason s) end) :: cx_log s))
  | CaStep t now =>
      let go p e := CxNext (mkCx (cx_sn s) (cx_mu s) (cx_reason s) (cx_time s) (upd (cx_th s) t p) (e ++ cx_log s)) in
      let lock p := match cx_mu s with
                    | None => CxNext (mkCx (cx_sn s) (Some t) (cx_reason s) (cx_time s) (upd (cx_th s) t p) (cx_log s))
                    | Some _ => CxStuck
                    end in
      match cx_th s t with
      | CxIdle => CxStuck
      | CxLock r g => lock (CxTry r g)
      | CxTry r g =>
          match sn_step t (cx_sn s) with
          | SnCrash => CxCrash
          | SnStuck => CxStuck
          | SnNext n =>
              let p := match sn_th n t with
                       | SnRet true => CxWrite1 r g
                       | SnRet false => CxUnlock
                       | _ => CxTry r g
                       end in
              CxNext (mkCx n (cx_mu s) (cx_reason s) (cx_time s) (upd (cx_th s) t p) (cx_log s))
          end
      | CxWrite1 r g => CxNext (mkCx (cx_sn s) (cx_mu s) r (cx_time s) (upd (cx_th s) t (CxWrite2 g)) (CvReason t r :: cx_log s))
      | CxWrite2 g => CxNext (mkCx (cx_sn s) (cx_mu s) (cx_reason s) (now + g) (upd (cx_th s) t CxUnlock) (CvDeadline t (now + g) :: cx_log s))
      | CxUnlock => CxNext (mkCx (cx_sn s) None (cx_reason s) (cx_time s) (upd (cx_th s) t CxDone) (CvReturn t :: cx_log s))
      | CxDone => CxStuck
      | HxCheck => if sn_flag (cx_sn s) then go HxLock [] else go HxDone [CvPass t None]
      | HxLock => lock HxDecide
      | HxDecide =>
          if now >? cx_time s then go HxUnlock [CvRefuse t (cx_reason s) now] else go HxUnlock [CvPass t (Some now)]
      | HxUnlock => CxNext (mkCx (cx_sn s) None (cx_reason s) (cx_time s) (upd (cx_th s) t HxDone) (cx_log s))
      | HxDone => CxStuck
      end
  end.
Fixpoint cx_run (l : list cx_action) (s : cx) : cx_out :=
  match l with
  | [] => CxNext s
  | a :: r => match cx_step a s with CxNext s' => cx_run r s' | CxCrash => CxCrash | CxStuck => cx_run r s end
  end.

(** ** distbench_engine.cc:66-92 ThreadSafeDictionary.  Each method runs under
    the mutex, so calls are atomic. *)
Record dict := mkDict { dc_contents : list str; dc_map : list (str * Z) }.
(** 66-71; index 0 is the empty string. *)
Definition dict0 : dict := mkDict [[]] [([], 0)].
(** 73-82; contents_.size() - 1 is a size_t returned as int. *)
Definition dict_index (text : str) (d : dict) : Z * dict :=
  match map_find text (dc_map d) with
  | Some i => (to_int32 i, d)
  | None =>
      let c := dc_contents d ++ [text] in
      let i := Z.of_nat (length c) - 1 in
      (to_int32 i, mkDict c (map_set text i (dc_map d)))
  end.
(** 84-87 *)
Definition dict_contents (d : dict) : list str := dc_contents d.
(** 89-92; the index is converted to size_t.  None: out of bounds, undefined behaviour. *)
Definition dict_value (i : Z) (d : dict) : option str :=
  if i <? 0 then None else nth_error (dc_contents d) (Z.to_nat i).
(** A sequence of GetIndex calls, with their results. *)
Fixpoint dict_run (l : list str) (d : dict) : list Z * dict :=
  match l with
  | [] => ([], d)
  | t :: r => let '(i, d1) := dict_index t d in let '(is_, d2) := dict_run r d1 in (i :: is_, d2)
  end.

(** ** distbench_thread_support.cc:29-88 *)
Inductive ov_phase :=
| OvNone
| OvStarted (notify : bool)     (* thread created, notification pointer set or not *)
| OvCheck                       (* about to evaluate if (abort_callback), no mutex *)
| OvCalling                     (* about to call abort_callback(), no mutex *)
| OvBody                        (* running f() *)
| OvGone.
Inductive ov_event :=
| VArm (n : Z)                  (* SetOverloadAbortThreshhold *)
| VCallback (c : option nat)    (* SetOverloadAbortCallback *)
| VStart (t : nat)              (* RunRegisteredThread *)
| VTrigger (t : nat)            (* ... decided that thread t must call the callback *)
| VCall (t c : nat)             (* callback c called *)
| VExit (t : nat).
Record ov := mkOv {
  ov_max : Z; ov_cur : Z; ov_cb : option nat; ov_th : nat -> ov_phase;
  ov_log : list ov_event }.     (* newest first; ghost *)
Definition ov0 : ov := mkOv 0 0 None (fun _ => OvNone) [].
Inductive ov_action :=
| OaArm (n : Z) | OaCallback (c : option nat)
| OaRun (t : nat)               (* RunRegisteredThread creates thread t *)
| OaThread (t : nat).           (* thread t makes a step *)
(** OvCrash: an empty std::function is called; std::bad_function_call leaves
    the thread function and the process terminates. *)
Inductive ov_out := OvNext (s : ov) | OvCrash | OvStuck.
(** The waits of the creating thread (lines 77-85) and the overflow of the
    int counter are left out. *)
Definition ov_step (a : ov_action) (s : ov) : ov_out :=
  match a with
  | OaArm n => OvNext (mkOv n (ov_cur s) (if n =? 0 then None else ov_cb s) (ov_th s) (VArm n :: ov_log s))
  | OaCallback c => OvNext (mkOv (ov_max s) (ov_cur s) c (ov_th s) (VCallback c :: ov_log s))
  | OaRun t =>
      match ov_th s t with
      | OvNone =>
          let cur := ov_cur s + 1 in
          let fire := (cur >? ov_max s) && negb (ov_max s =? 0) && match ov_cb s with Some _ => true | None => false end in
          OvNext (mkOv (if fire then 0 else ov_max s) cur (ov_cb s) (upd (ov_th s) t (OvStarted fire))
                    (if fire then VTrigger t :: VStart t :: ov_log s else VStart t :: ov_log s))
      | _ => OvStuck
      end
  | OaThread t =>
      let go p := OvNext (mkOv (ov_max s) (ov_cur s) (ov_cb s) (upd (ov_th s) t p) (ov_log s)) in
      match ov_th s t with
      | OvNone | OvGone => OvStuck
      | OvStarted b => go (if b then OvCheck else OvBody)
      | OvCheck => go (match ov_cb s with Some _ => OvCalling | None => OvBody end)
      | OvCalling =>
          match ov_cb s with
          | None => OvCrash
          | Some c => OvNext (mkOv (ov_max s) (ov_cur s) (ov_cb s) (upd (ov_th s) t OvBody) (VCall t c :: ov_log s))
          end
      | OvBody => OvNext (mkOv (ov_max s) (ov_cur s - 1) (ov_cb s) (upd (ov_th s) t OvGone) (VExit t :: ov_log s))
      end
  end.
Fixpoint ov_run (l : list ov_action) (s : ov) : ov_out :=
  match l with
  | [] => OvNext s
  | a :: r => match ov_step a s with OvNext s' => ov_run r s' | OvCrash => OvCrash | OvStuck => ov_run r s end
  end.

(** ** distbench_engine.cc:2020-2043 AllocIterationState, FreeIterationState *)
(** distbench_engine.h:186-193 ActionIterationState without the random
    generator, whose state does survive; rpc_states as a list of opaque values. *)
Record it_fields := mkIt { it_action : option nat; it_number : Z; it_warmup : bool; it_rpcs : list Z; it_remaining : Z }.
Definition it_fresh : it_fields := mkIt None 0 false [] 0.
Inductive ic_event :=
| IvAlloc (o : nat) (f : it_fields)      (* object handed out, with its fields *)
| IvFree (o : nat).                      (* FreeIterationState entered *)
Record ic := mkIc {
  ic_cache : list nat;                   (* iteration_state_cache_, last element first *)
  ic_used : list nat;                    (* held by an iteration *)
  ic_freeing : list nat;                 (* rpc_states cleared, mutex not yet taken *)
  ic_heap : nat -> it_fields; ic_next : nat;
  ic_log : list ic_event }.              (* newest first; ghost *)
Definition ic0 : ic := mkIc [] [] [] (fun _ => it_fresh) 0 [].
Inductive ic_action :=
| IaAlloc
| IaWrite (o : nat) (f : it_fields)      (* the iteration holding o works with it *)
| IaFree (o : nat)                       (* FreeIterationState: rpc_states.clear() *)
| IaCache (o : nat).                     (* ... the part under the mutex *)
Definition rm (o : nat) (l : list nat) : list nat := filter (fun x => negb (Nat.eqb x o)) l.
Definition mem (o : nat) (l : list nat) : bool := existsb (Nat.eqb o) l.
(** [cap]: iteration_state_cache_.capacity(), at least 1000 (line 109).
    Only the holder of an object writes to or frees it (2045-2091). *)
Definition ic_step (cap : nat) (a : ic_action) (s : ic) : option ic :=
  match a with
  | IaAlloc =>
      match ic_cache s with
      | o :: r => Some (mkIc r (o :: ic_used s) (ic_freeing s) (ic_heap s) (ic_next s) (IvAlloc o (ic_heap s o) :: ic_log s))
      | [] => let o := ic_next s in
              Some (mkIc [] (o :: ic_used s) (ic_freeing s) (upd (ic_heap s) o it_fresh) (S o) (IvAlloc o it_fresh :: ic_log s))
      end
  | IaWrite o f =>
      if mem o (ic_used s)
      then Some (mkIc (ic_cache s) (ic_used s) (ic_freeing s) (upd (ic_heap s) o f) (ic_next s) (ic_log s))
      else None
  | IaFree o =>
      if mem o (ic_used s)
      then let f := ic_heap s o in
           Some (mkIc (ic_cache s) (rm o (ic_used s)) (o :: ic_freeing s)
                   (upd (ic_heap s) o (mkIt (it_action f) (it_number f) (it_warmup f) [] (it_remaining f))) (ic_next s)
                   (IvFree o :: ic_log s))
      else None
  | IaCache o =>
      if mem o (ic_freeing s)
      then if Nat.ltb (length (ic_cache s)) cap
           then Some (mkIc (o :: ic_cache s) (ic_used s) (rm o (ic_freeing s))
                        (upd (ic_heap s) o (mkIt None 0 false (it_rpcs (ic_heap s o)) 0)) (ic_next s) (ic_log s))
           else Some (mkIc (ic_cache s) (ic_used s) (rm o (ic_freeing s)) (ic_heap s) (ic_next s) (ic_log s))  (* destroyed *)
      else None
  end.
Fixpoint ic_run (cap : nat) (l : list ic_action) (s : ic) : ic :=
  match l with
  | [] => s
  | a :: r => ic_run cap r (match ic_step cap a s with Some s' => s' | None => s end)
  end.
