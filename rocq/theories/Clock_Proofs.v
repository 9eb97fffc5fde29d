(** Lemmas on the spinning loops. *)
From Coq Require Import List ZArith Bool Arith Lia.
From Verif Require Import Clock_Model.
Import ListNotations.
Open Scope Z_scope.

(** The mutex as the waiting thread uses it: [None] when it locks a mutex it
    holds or releases one it does not hold. *)
Fixpoint holds (held : bool) (ops : list mop) : option bool :=
  match ops with
  | [] => Some held
  | MLock :: r => if held then None else holds true r
  | MUnlock :: r => if held then holds false r else None
  | MAwait :: r => if held then holds true r else None
  end.
Lemma holds_app h a : forall held, holds held a = Some h -> forall b, holds held (a ++ b) = holds h b.
Proof.
  induction a as [|o a IH]; intros held E b; cbn [holds app] in *; [injection E as ->; reflexivity|].
  destruct o, held; try discriminate; apply IH; exact E.
Qed.

(** Both loops, in one: what a turn does with the mutex is a parameter. *)
Fixpoint loop (one again : list mop) (timeout : option Z) (l : list try) (ops : list mop) (n : nat) : option ((list mop * Z * nat) + (list mop * nat)) :=
  match l with
  | [] => None
  | y :: r =>
      if ty_true y then Some (inl (ops ++ one, ty_wall y, S n))
      else if before (ty_cpu y) timeout then loop one again timeout r (ops ++ again) (S n)
      else Some (inr (ops ++ again, S n))
  end.
Lemma lock_loop timeout l : forall ops n, spin_lock timeout l ops n = loop [MLock] [MLock; MUnlock] timeout l ops n.
Proof.
  induction l as [|y l IH]; intros ops n; [reflexivity|]. cbn [spin_lock loop]. destruct (ty_true y); [reflexivity|].
  destruct (before (ty_cpu y) timeout); [apply IH|reflexivity].
Qed.
Lemma await_loop timeout l : forall ops n, spin_await timeout l ops n = loop [MAwait] [MAwait] timeout l ops n.
Proof.
  induction l as [|y l IH]; intros ops n; [reflexivity|]. cbn [spin_await loop]. destruct (ty_true y); [reflexivity|].
  destruct (before (ty_cpu y) timeout); [apply IH|reflexivity].
Qed.

Section Loop.
Variables one again : list mop.
Variable rest : bool.
Hypothesis one_ok : holds rest one = Some true.
Hypothesis again_ok : holds rest again = Some rest.

Lemma loop_ops timeout l : forall ops n held, holds held ops = Some rest ->
  match loop one again timeout l ops n with
  | Some (inl (ops', _, _)) => holds held ops' = Some true
  | Some (inr (ops', _)) => holds held ops' = Some rest
  | None => True
  end.
Proof.
  induction l as [|y l IH]; intros ops n held H; cbn [loop]; [exact I|].
  destruct (ty_true y); [rewrite (holds_app _ _ _ H); exact one_ok|].
  assert (H2 : holds held (ops ++ again) = Some rest) by (rewrite (holds_app _ _ _ H); exact again_ok).
  destruct (before (ty_cpu y) timeout); [|exact H2]. apply IH, H2.
Qed.
End Loop.

(** What the loop saw. *)
Lemma loop_saw one again timeout l : forall ops n,
  match loop one again timeout l ops n with
  | Some (inl (_, w, m)) => exists l1 y l2, l = l1 ++ y :: l2 /\ ty_true y = true /\ w = ty_wall y /\ m = (n + S (length l1))%nat /\
      Forall (fun z => ty_true z = false /\ before (ty_cpu z) timeout = true) l1
  | Some (inr (_, m)) => exists l1 y l2, l = l1 ++ y :: l2 /\ ty_true y = false /\ before (ty_cpu y) timeout = false /\ m = (n + S (length l1))%nat /\
      Forall (fun z => ty_true z = false /\ before (ty_cpu z) timeout = true) l1
  | None => Forall (fun z => ty_true z = false /\ before (ty_cpu z) timeout = true) l
  end.
Proof.
  induction l as [|y l IH]; intros ops n; cbn [loop]; [constructor|].
  destruct (ty_true y) eqn:T.
  - exists [], y, l. repeat split; auto. cbn [length]. lia.
  - destruct (before (ty_cpu y) timeout) eqn:B.
    + specialize (IH (ops ++ again) (S n)). destruct (loop one again timeout l (ops ++ again) (S n)) as [[[[ops' w] m]|[ops' m]]|].
      * destruct IH as (l1 & z & l2 & -> & A & C & D & F). exists (y :: l1), z, l2. repeat split; auto. cbn [length]. lia.
      * destruct IH as (l1 & z & l2 & -> & A & C & D & F). exists (y :: l1), z, l2. repeat split; auto. cbn [length]. lia.
      * constructor; auto.
    + exists [], y, l. repeat split; auto. cbn [length]. lia.
Qed.

Lemma spin_loop_saw start d l : forall n,
  match spin_loop start d l n with
  | SpunFor m => exists l1 now l2, l = map Some l1 ++ Some now :: l2 /\ m = (n + S (length l1))%nat /\ d <= now - start /\ Forall (fun x => x - start < d) l1
  | SpunCrash => exists l1 l2, l = map Some l1 ++ None :: l2 /\ Forall (fun x => x - start < d) l1
  | SpunOn => exists l1, l = map Some l1 /\ Forall (fun x => x - start < d) l1
  end.
Proof.
  induction l as [|[now|] l IH]; intros n; cbn [spin_loop].
  - exists []. auto.
  - destruct (Z.ltb_spec (now - start) d) as [L|L].
    + specialize (IH (S n)). destruct (spin_loop start d l (S n)).
      * destruct IH as (l1 & x & l2 & -> & A & B & C). exists (now :: l1), x, l2. cbn [map app length]. repeat split; auto. lia.
      * destruct IH as (l1 & l2 & -> & A). exists (now :: l1), l2. auto.
      * destruct IH as (l1 & -> & A). exists (now :: l1). auto.
    + exists [], now, l. cbn [map app length]. repeat split; auto. lia.
  - exists [], l. auto.
Qed.
