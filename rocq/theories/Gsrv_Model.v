(** The inline and the handoff server of the gRPC driver, with all their calls,
    the wait for the handler, and shutdown.  Definitions only.

    gRPC is outside.  Assumed: it calls GenericRpc once for each call it accepts,
    on threads of its own; it accepts none once Shutdown was called; Shutdown
    returns when it is through with every call it accepted; it is through with a
    call of the callback service when Finish was called and GenericRpc has
    returned, and from Finish on the request may be gone. *)
From Coq Require Import Ascii String List NArith ZArith Bool Arith.
From Verif Require Import Base_Model Grpc_Model.
Import ListNotations.
Open Scope nat_scope.

(** GrpcInlineServerDriver (TrafficService, protocol_driver_grpc.cc:296-329) or
    GrpcHandoffServerDriver (TrafficServiceAsyncCallback, 580-619). *)
Inductive skind := Inline | Handoff.
(** One call of GenericRpc.  [k_ops]: what the handler, with the work it left,
    has still to do; [None] while handler_set_ is waited for (314, 605).
    [k_inside]: GenericRpc has not returned.  [k_sent], [k_freed]: how often the
    response was sent and the ServerRpcState deleted.  [k_unset]: handler_ was
    found empty.  [k_reply]: status and response that gRPC was given, as in
    Grpc_Model.v.  [k_closed]: gRPC is through with the call. *)
Record gcall := mkGc {
  k_request : str; k_ops : option (list hop); k_inside : bool; k_sent : nat; k_freed : nat;
  k_unset : bool; k_reply : option (option str * str); k_closed : bool }.
(** The thread in ShutdownServer (386-388, 674-678), then in the destructor of
    the driver, which destroys the service (298, 585). *)
Inductive gshut := GsNot | GsShutting | GsReturned | GsGone.
(** [g_set]: handler_set_ is notified; [g_handler]: handler_ is not empty. *)
Record gsrv := mkGs { g_calls : list gcall; g_set : bool; g_handler : bool; g_shut : gshut }.
Inductive gaction :=
  | GSetHandler
  | GArrive (request : str)
  | GCall (i : nat)       (* handler_set_ has been notified; the handler is called *)
  | GOp (i : nat)         (* its next move, there or on a thread of the pool *)
  | GReturn (i : nat)
  | GClose (i : nat)
  | GShutdown.
Inductive gresult := GNext (s : gsrv) | GCrash | GStuck.

Definition set_calls (l : list gcall) (s : gsrv) : gsrv := mkGs l (g_set s) (g_handler s) (g_shut s).
(** A move of the handler.  Inline: *response is assigned (312-313), and no
    function that frees is set, so freeing does nothing (protocol_driver.cc:55-65).
    Handoff: Finish (600-603) and delete (604).  [None]: the process ends, or
    memory that was freed is used; sending twice is FATAL in a debug build
    (protocol_driver.cc:41-44) and a second Finish in gRPC. *)
Definition gmove (k : skind) (response : str) (o : hop) (rest : list hop) (c : gcall) : option gcall :=
  match k with
  | Inline =>
      match o with
      | HRead | HFree => Some (mkGc (k_request c) (Some rest) (k_inside c) (k_sent c) (k_freed c) (k_unset c) (k_reply c) (k_closed c))
      | HSend => if 0 <? k_sent c then None
                 else Some (mkGc (k_request c) (Some rest) (k_inside c) 1 (k_freed c) (k_unset c) (k_reply c) (k_closed c))
      end
  | Handoff =>
      if 0 <? k_freed c then None
      else match o with
           | HRead => if 0 <? k_sent c then None
                      else Some (mkGc (k_request c) (Some rest) (k_inside c) (k_sent c) (k_freed c) (k_unset c) (k_reply c) (k_closed c))
           | HSend => if 0 <? k_sent c then None
                      else Some (mkGc (k_request c) (Some rest) (k_inside c) 1 (k_freed c) (k_unset c) (Some (None, response)) (k_closed c))
           | HFree => Some (mkGc (k_request c) (Some rest) (k_inside c) (k_sent c) 1 (k_unset c) (k_reply c) (k_closed c))
           end
  end.
(** What GenericRpc of the inline server returns (315-323). *)
Definition inline_reply (response : str) (c : gcall) : option str * str :=
  if k_unset c then (Some (s_ "No rpc handler set."), []) else (None, if 0 <? k_sent c then response else []).
(** [h i request]: what the handler does with call [i], and the response it
    sends. *)
Definition gstep (k : skind) (h : nat -> str -> list hop * str) (a : gaction) (s : gsrv) : gresult :=
  match a with
  | GSetHandler =>                        (* 300-304, 587-591 *)
      match g_shut s with
      | GsGone => GStuck
      | _ => GNext (mkGs (g_calls s) true true (g_shut s))
      end
  | GArrive q =>                          (* 306-313, 593-604 *)
      match g_shut s with
      | GsNot => GNext (set_calls (g_calls s ++ [mkGc q None true 0 0 false None false]) s)
      | _ => GStuck
      end
  | GCall i =>                            (* 314-316, 605-607 *)
      match nth_error (g_calls s) i with
      | None => GStuck
      | Some c =>
          match k_ops c with
          | Some _ => GStuck
          | None =>
              if negb (g_set s) then GStuck
              else if g_handler s
                   then GNext (set_calls (lset i (mkGc (k_request c) (Some (fst (h i (k_request c)))) (k_inside c) (k_sent c) (k_freed c)
                                                     false (k_reply c) (k_closed c)) (g_calls s)) s)
                   else GNext (set_calls (lset i (mkGc (k_request c) (Some []) (k_inside c) (k_sent c) (k_freed c)
                                                     true (k_reply c) (k_closed c)) (g_calls s)) s)
          end
      end
  | GOp i =>                              (* 316-319, 607-610 *)
      match nth_error (g_calls s) i with
      | None => GStuck
      | Some c =>
          match k_ops c with
          | Some (o :: rest) =>
              match gmove k (snd (h i (k_request c))) o rest c with
              | Some c' => GNext (set_calls (lset i c' (g_calls s)) s)
              | None => GCrash
              end
          | _ => GStuck
          end
      end
  | GReturn i =>                          (* 320-322, 612 *)
      match nth_error (g_calls s) i with
      | None => GStuck
      | Some c =>
          if negb (k_inside c) then GStuck
          else match k, k_ops c with
               | _, None | Inline, Some (_ :: _) => GStuck
               | Inline, Some [] =>
                   GNext (set_calls (lset i (mkGc (k_request c) (k_ops c) false (k_sent c) (k_freed c) (k_unset c)
                                                  (Some (inline_reply (snd (h i (k_request c))) c)) (k_closed c)) (g_calls s)) s)
               | Handoff, Some _ =>
                   GNext (set_calls (lset i (mkGc (k_request c) (k_ops c) false (k_sent c) (k_freed c) (k_unset c)
                                                  (k_reply c) (k_closed c)) (g_calls s)) s)
               end
      end
  | GClose i =>
      match nth_error (g_calls s) i with
      | None => GStuck
      | Some c =>
          match k_inside c, k_reply c, k_closed c with
          | false, Some _, false =>
              GNext (set_calls (lset i (mkGc (k_request c) (k_ops c) (k_inside c) (k_sent c) (k_freed c) (k_unset c)
                                             (k_reply c) true) (g_calls s)) s)
          | _, _, _ => GStuck
          end
      end
  | GShutdown =>
      match g_shut s with
      | GsNot => GNext (mkGs (g_calls s) (g_set s) (g_handler s) GsShutting)
      | GsShutting => if forallb k_closed (g_calls s) then GNext (mkGs (g_calls s) (g_set s) (g_handler s) GsReturned) else GStuck
      | GsReturned =>                     (* the pool ends its tasks: thread_pool_, 618, before handler_ goes *)
          if forallb (fun c => match k_ops c with Some [] => true | _ => false end) (g_calls s)
          then GNext (mkGs (g_calls s) true (g_handler s) GsGone) else GStuck
      | GsGone => GStuck
      end
  end.
(** Runs a schedule; impossible actions are skipped. *)
Fixpoint grun (k : skind) (h : nat -> str -> list hop * str) (l : list gaction) (s : gsrv) : gresult :=
  match l with
  | [] => GNext s
  | a :: r => match gstep k h a s with GNext s' => grun k h r s' | GCrash => GCrash | GStuck => grun k h r s end
  end.
(** After Initialize (335-365, 625-666). *)
Definition gstart : gsrv := mkGs [] false false GsNot.
