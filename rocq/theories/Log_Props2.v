(** C29: the kept samples come in the order in which the RPCs ended. *)
From Coq Require Import List ZArith Bool Arith Lia Sorted.
From Verif Require Import Log_Model Log_Proofs Log_Proofs2 Log_Props.
Import ListNotations.

(** [state t]: the state that RPC t was recorded with; the samples are sorted by
    the sum of the packed start and latency. *)
Theorem C29_end_order : forall size draw l (state : nat -> rpc_state), let s := recorded size draw l in at_rest s -> size < rv_number s ->
  exists ts, unpack_order size (fun t => pk_end (pack (state t))) s = Some ts /\ length ts = size /\ NoDup ts
    /\ StronglySorted (fun a b => (st_end (state a) <= st_end (state b))%Z) ts.
Proof.
  intros size draw l state s R L. destruct (C29_sampled size draw l (fun t => pk_end (pack (state t))) R L) as (ts & U & Len & Nd & So & _). exists ts. split; [exact U|]. split; [exact Len|]. split; [exact Nd|].
  clear - So. induction So as [|x t So IH F]; constructor; [exact IH|]. eapply Forall_impl; [|exact F]. intros y K. unfold by_key, pk_end, pack in K. cbn [pk_start pk_latency] in K. lia.
Qed.
Print Assumptions C29_end_order.
(** RPC 3 started last and ended first. *)
Definition ended_at (t : nat) : rpc_state := mkState true (Z.of_nat t) (10 - Z.of_nat t) None 1 1 false None None.
Example C29_ex_end_order : unpack_order 2 (fun t => pk_end (pack (ended_at t))) (recorded 2 draw5 overtaking) = Some [3; 0].
Proof. vm_compute. reflexivity. Qed.
