(** CopyRequestFields (distbench_utils.cc:945-962).  Definitions only. *)
From Coq Require Import List NArith ZArith Bool.
From Verif Require Import Wire_Model.
Import ListNotations.

(** `if (src->has_f()) dest->set_f(v)`: the field of dest afterwards. *)
Definition copy_if {A B : Type} (has : option A) (v : B) (dest : option B) : option B :=
  match has with Some _ => Some v | None => dest end.
(** The accessor of an absent field returns its default: 0, false. *)
Definition int_of (o : option Z) : Z := match o with Some v => v | None => 0%Z end.
Definition bool_of (o : option bool) : bool := match o with Some v => v | None => false end.
(** distbench_utils.cc:945-962.  Lines 953-955 set response_payload_size from
    rpc_index().  set_rpc_index of an int32 and set_response_payload_size of an
    int64 do not change an int32. *)
Definition copy_request_fields (src dest : grr) : grr :=
  mkGrr (copy_if (rpc_index src) (int_of (rpc_index src)) (rpc_index dest))
        (match trace_ctx src with Some t => Some t | None => trace_ctx dest end)
        (copy_if (warmup src) (bool_of (warmup src)) (warmup dest))
        (copy_if (response_payload_size src) (int_of (rpc_index src)) (response_payload_size dest))
        (copy_if (server_processing_time_ns src) (int_of (server_processing_time_ns src)) (server_processing_time_ns dest))
        (error_message dest) (server_instance dest) (before_payload32 dest) (before_payload64 dest)
        (trim dest) (payload dest) (after_payload32 dest) (after_payload64 dest).
