(** C22: when AddTask is accepted. *)
From Coq Require Import List ZArith Bool Arith Lia.
From Verif Require Import Pool_Model Pool_Proofs Pool_Props.
Import ListNotations.
Open Scope nat_scope.

(** AddTask succeeds when it is called from outside before the destructor
    begins, and from a running task even after that; only an elastic pool with a
    full queue makes the caller wait. *)
Theorem C22_add : forall k l who, kind_ok k -> let s := pool_after k l in
  match who with None => po_shutdown s = false | Some t => exists i, po_th s t = ThRun i end ->
  (exists s' new, pool_step k (QAdd who) s = Some s' /\ po_log s' = new ++ po_log s /\ In (PAdd (po_next s)) new) <->
  match k with PoolElastic n => length (po_queue s) < n | _ => True end.
Proof.
  intros k l who K s W. assert (M : may_add who s = true) by (unfold may_add; destruct who as [t|]; [destruct W as (i & W); rewrite W; reflexivity|rewrite W; reflexivity]).
  destruct k as [n|n|]; cbn [pool_step]; unfold null_step, simple_step, elastic_step; rewrite M; cbn [negb].
  - split; [auto|]. intros _. eexists. exists [PAdd (po_next s)]. split; [reflexivity|]. split; [reflexivity|left; reflexivity].
  - destruct (Nat.leb_spec (length (po_queue s) + 1) n) as [L|L].
    + split; [intros _; lia|]. intros _. destruct ((po_idle s =? 0)%Z || _); [destruct (po_queue s ++ [po_next s]) as [|q r] eqn:Q; [destruct (po_queue s); discriminate Q|]|].
      * eexists. exists [PTake q; PAdd (po_next s)]. split; [reflexivity|]. split; [reflexivity|right; left; reflexivity].
      * eexists. exists [PAdd (po_next s)]. split; [reflexivity|]. split; [reflexivity|left; reflexivity].
    + split; [intros (s' & new & E & _); discriminate E|intros; lia].
  - split; [auto|]. intros _. eexists. exists [PAdd (po_next s)]. split; [reflexivity|]. split; [reflexivity|left; reflexivity].
Qed.
Print Assumptions C22_add.
(** A task that runs, and so may add another, while the destructor waits; an elastic pool with room. *)
Example C22_ex_add : (exists i, po_th (pool_after (PoolSimple 1) [QAdd None; QThread 0; QThread 0; QShutdown]) 0 = ThRun i)
  /\ po_shutdown (pool_after (PoolSimple 1) [QAdd None; QThread 0; QThread 0; QShutdown]) = true
  /\ length (po_queue (pool_after (PoolElastic 1) [QAdd None; QAdd None; QThread 0; QThread 0])) < 1.
Proof. vm_compute. split; [eauto|]. split; [reflexivity|auto]. Qed.
