(** C99: CopyRequestFields. *)
From Coq Require Import List NArith ZArith Bool Lia.
From Verif Require Import Wire_Model Wire_Proofs Wire_Proofs2 Wire_Proofs3 Wire_Proofs4 Copy_Model.
Import ListNotations.

(** What one expects of a field: the source's if it is there, else what was
    there. *)
Definition over {A : Type} (s d : option A) : option A := match s with Some v => Some v | None => d end.
(** Four of the five fields are copied; response_payload_size becomes rpc_index,
    or 0 if there is none. *)
Theorem C99_copied : forall src dest, let r := copy_request_fields src dest in
  rpc_index r = over (rpc_index src) (rpc_index dest) /\
  trace_ctx r = over (trace_ctx src) (trace_ctx dest) /\
  warmup r = over (warmup src) (warmup dest) /\
  server_processing_time_ns r = over (server_processing_time_ns src) (server_processing_time_ns dest) /\
  response_payload_size r = match response_payload_size src, rpc_index src with None, _ => response_payload_size dest | Some _, Some i => Some i | Some _, None => Some 0%Z end.
Proof.
  intros [i t w s n e si b32 b64 tr p a32 a64] dest. cbn. destruct i, t, w, n, s; repeat split.
Qed.
(** Nothing of the response, the payload, or the padding of dest changes. *)
Theorem C99_untouched : forall src dest, let r := copy_request_fields src dest in
  error_message r = error_message dest /\ server_instance r = server_instance dest /\ payload r = payload dest /\ trim r = trim dest /\
  before_payload32 r = before_payload32 dest /\ before_payload64 r = before_payload64 dest /\ after_payload32 r = after_payload32 dest /\ after_payload64 r = after_payload64 dest.
Proof. intros src dest. repeat split. Qed.
(** The response size is copied exactly if it is absent or happens to be the RPC
    index. *)
Theorem C99_size : forall src dest,
  response_payload_size (copy_request_fields src dest) = over (response_payload_size src) (response_payload_size dest) <->
  (response_payload_size src = None \/ response_payload_size src = Some match rpc_index src with Some i => i | None => 0%Z end).
Proof.
  intros [i t w s n e si b32 b64 tr p a32 a64] dest. cbn. destruct s as [s|]; cbn; [|split; auto]. split.
  - intros H. right. destruct i; cbn in *; congruence.
  - intros [H|H]; [discriminate H|]. destruct i; cbn in *; congruence.
Qed.
(** What was copied onto an empty message arrives as such: a message that can be
    serialised stays one. *)
Theorem C99_sent : forall src dest avoid_copy, grr_ok src -> grr_ok dest -> parse (serialize_to_cord (copy_request_fields src dest) avoid_copy) = Some (copy_request_fields src dest).
Proof.
  intros src dest avoid Sk Dk. apply parse_serialize_to_cord. destruct Sk as [s1 s2 s4 s5 _ _ _ _ _ _ _], Dk as [d1 d2 d4 d5 d9 d10 d12 d13 d15 d16 d17].
  destruct src as [i t w s n e si b32 b64 tr p a32 a64]. constructor; cbn in *; try assumption.
  - destruct i; assumption.
  - destruct t; assumption.
  - destruct s; [|assumption]. destruct i as [i|]; cbn in *; unfold int32_ok, int64_ok, two63z in *; lia.
  - destruct n; assumption.
Qed.
(** A replayed request over a message that has some fields already. *)
Definition old_message : grr := mkGrr (Some 9%Z) None (Some true) (Some 77%Z) None (Some [72%N]) None None None None (Some [1%N; 2%N]) None None.
Definition a_request : grr := mkGrr (Some 3%Z) (Some (mkTC [5%Z] [] [] [] [] [] [])) None (Some 1000%Z) (Some 250%Z) None None None None None (Some [8%N]) None None.
Example C99_ex : copy_request_fields a_request old_message =
  mkGrr (Some 3%Z) (Some (mkTC [5%Z] [] [] [] [] [] [])) (Some true) (Some 3%Z) (Some 250%Z) (Some [72%N]) None None None None (Some [1%N; 2%N]) None None /\
  copy_request_fields old_message empty_grr = mkGrr (Some 9%Z) None (Some true) (Some 9%Z) None None None None None None None None None.
Proof. split; reflexivity. Qed.
Example C99_sent_ex : parse (serialize_to_cord (copy_request_fields a_request old_message) true) = Some (copy_request_fields a_request old_message).
Proof. vm_compute. reflexivity. Qed.
(** Finding: the response size asked for is not what is copied. *)
Theorem C99_size_refuted : exists src dest, grr_ok src /\ response_payload_size src = Some 1000%Z /\ response_payload_size (copy_request_fields src dest) = Some 3%Z.
Proof.
  exists (mkGrr (Some 3%Z) None None (Some 1000%Z) None None None None None None None None None), empty_grr. split; [|split; reflexivity]. constructor; cbn; try exact I; unfold int32_ok, int64_ok, two63z; lia.
Qed.
Print Assumptions C99_copied.
Print Assumptions C99_untouched.
Print Assumptions C99_size.
Print Assumptions C99_sent.
Print Assumptions C99_size_refuted.
