(** C67: a Homa server serves once its handler is set, and not before. *)
From Coq Require Import List NArith ZArith Bool Arith Lia.
From Verif Require Import Wire_Model Wire_Props Grpc_Model Grpc_Proofs Homa_Model Homa_Proofs Homa_Proofs2.
Import ListNotations.
Open Scope nat_scope.

Definition at_work (h : vthread) : Prop := match h with VtWait | VtReceive | VtGot _ _ => True | _ => False end.
Definition up (s : vserver) : Prop := vs_down s = false -> vs_mapped s = true /\ vs_join s = None /\ forall t h z, nth_error (vs_threads s) t = Some (h, z) -> at_work h.
Lemma up_set s t h z : (forall t' h' z', nth_error (vs_threads s) t' = Some (h', z') -> at_work h') -> at_work h ->
  forall t' h' z', nth_error (lset t (h, z) (vs_threads s)) t' = Some (h', z') -> at_work h'.
Proof.
  intros A H t' h' z' E. destruct (Nat.eq_dec t' t) as [->|N].
  - destruct (nth_error (vs_threads s) t) as [x|] eqn:F.
    + rewrite (lset_eq _ _ _ _ F) in E. injection E as <- <-. exact H.
    + apply nth_error_None in F. assert (L : t < length (lset t (h, z) (vs_threads s))) by (apply nth_error_Some; rewrite E; discriminate). rewrite lset_length in L. lia.
  - rewrite lset_neq in E by congruence. exact (A _ _ _ E).
Qed.
Lemma up_step nocopy a s s' : up s -> vstep nocopy a s = VNext s' -> up s'.
Proof.
  intros U E. destruct a as [|t m|i|]; cbn [vstep] in E.
  - injection E as <-. exact U.
  - unfold vthread_step in E. destruct (nth_error (vs_threads s) t) as [[[| |msg c| |] z]|] eqn:T; try discriminate E.
    + destruct (vs_set s); [|discriminate E]. injection E as <-. intros D. destruct (U D) as (M & J & A). split; [exact M|]. split; [exact J|]. exact (up_set s t VtReceive z A Logic.I).
    + destruct (vs_down s) eqn:Dn.
      * injection E as <-. intros D. cbn in D. congruence.
      * destruct m as [[msg c]|]; [|injection E as <-; exact U]. destruct (Nat.eqb (length msg) 0); injection E as <-; [exact U|].
        intros D. destruct (U Dn) as (M & J & A). split; [exact M|]. split; [exact J|]. exact (up_set s t (VtGot msg c) z A Logic.I).
    + destruct (vs_mapped s) eqn:Mp; [|discriminate E]. destruct (homa_parse nocopy msg c); [discriminate E|]. injection E as <-.
      intros D. destruct (U D) as (M & J & A). split; [reflexivity|]. split; [exact J|]. exact (up_set s t VtReceive (z + 1)%Z A Logic.I).
    + destruct (Z.eqb z 0); [|discriminate E]. injection E as <-. intros D. destruct (U D) as (M & J & A). destruct (A _ _ _ T).
  - unfold vanswer in E. destruct (nth_error (vs_reqs s) i) as [q|]; [|discriminate E]. destruct (q_phase q); [|discriminate E].
    destruct (nth_error (vs_threads s) (q_thread q)) as [[h z]|] eqn:T; [|discriminate E].
    intros D. assert (Ds : vs_down s = false) by (destruct h; try discriminate E; injection E as <-; exact D). destruct (U Ds) as (M & J & A). pose proof (A _ _ _ T) as W.
    destruct h; try destruct W; injection E as <-; (split; [exact M|]; split; [exact J|]).
    + exact (up_set s _ VtWait _ A Logic.I).
    + exact (up_set s _ VtReceive _ A Logic.I).
    + exact (up_set s _ (VtGot msg contiguous) _ A Logic.I).
  - unfold vshutdown in E. destruct (vs_join s) as [k|] eqn:J.
    + assert (Dn : vs_down s <> false) by (intros D; destruct (U D) as (_ & K & _); congruence).
      destruct (nth_error (vs_threads s) k) as [[[| | | |] z]|]; try discriminate E; injection E as <-; intros D; destruct (Dn D).
    + destruct (vs_down s); [discriminate E|]. injection E as <-. intros D. discriminate D.
Qed.
Lemma up_run nocopy l : forall s s', up s -> vrun nocopy l s = VNext s' -> up s'.
Proof.
  induction l as [|a l IH]; intros s s' U R; cbn [vrun] in R; [injection R as <-; exact U|].
  destruct (vstep nocopy a s) as [s1|c|] eqn:E; [exact (IH _ _ (up_step _ _ _ _ U E) R)|discriminate R|exact (IH _ _ U R)].
Qed.
Lemma up_start n : up (vstart n).
Proof. intros _. split; [reflexivity|]. split; [reflexivity|]. intros t h z E. apply nth_error_In, repeat_spec in E. injection E as -> _. exact Logic.I. Qed.

(** Until the handler is set or the server is shut down nothing is received,
    whatever arrives. *)
Theorem C67_before : forall nocopy n l, Forall (fun a => a <> VSetHandler /\ a <> VShutdown) l -> vrun nocopy l (vstart n) = VNext (vstart n).
Proof.
  intros nocopy n l F. induction F as [|a l [N1 N2] F IH]; [reflexivity|]. cbn [vrun].
  assert (E : vstep nocopy a (vstart n) = VStuck); [|rewrite E; exact IH].
  destruct a as [|t m|i|]; try contradiction; cbn [vstep].
  - unfold vthread_step, vstart. cbn [vs_threads vs_set]. destruct (nth_error (repeat (VtWait, 0%Z) n) t) as [[h z]|] eqn:E; [|reflexivity].
    apply nth_error_In, repeat_spec in E. injection E as -> _. reflexivity.
  - unfold vanswer, vstart. cbn [vs_reqs]. destruct i; reflexivity.
Qed.
(** As long as the server is not shut down: set the handler, and any thread that
    has no message yet passes the next one to the handler, which can answer. *)
Theorem C67_serves : forall nocopy n l s t m k ok g, vrun nocopy l (vstart n) = VNext s -> vs_down s = false -> t < n ->
  (forall m' k' z, nth_error (vs_threads s) t <> Some (VtGot m' k', z)) -> m <> [] -> homa_parse nocopy m k = HpRet ok g ->
  exists s2 s3, vrun nocopy [VSetHandler; VThread t None; VThread t (Some (m, k)); VThread t None] s = VNext s2 /\
    vs_reqs s2 = vs_reqs s ++ [mkHreq t (ok, g) QHandling (m, k)] /\ vs_down s2 = false /\
    vstep nocopy (VAnswer (length (vs_reqs s))) s2 = VNext s3 /\ vs_reqs s3 = vs_reqs s ++ [mkHreq t (ok, g) QAnswered (m, k)].
Proof.
  intros nocopy n l s t m k ok g R D L G Nm P. pose proof (up_run nocopy l _ _ (up_start n) R D) as (M & J & A).
  assert (Ln : length (vs_threads s) = n) by (rewrite (v_threads nocopy l _ _ R); apply repeat_length).
  destruct (nth_error (vs_threads s) t) as [[h z]|] eqn:T; [|apply nth_error_None in T; lia].
  assert (Lm : Nat.eqb (length m) 0 = false) by (destruct m; [contradiction|reflexivity]).
  destruct s as [th rq st dn mp jn]. cbn in D, M, J, T, A, G |- *. subst dn mp jn.
  assert (K : exists th1, nth_error th1 t = Some (VtReceive, z) /\ vthread_step nocopy t None (mkVserver th rq true false true None) = VNext (mkVserver th1 rq true false true None)).
  { unfold vthread_step. cbn [vs_threads vs_set vs_down]. rewrite T. pose proof (A _ _ _ T) as W. destruct h; try destruct W.
    - eexists. split; [|reflexivity]. exact (lset_eq _ _ _ _ T).
    - exists th. split; [exact T|reflexivity].
    - destruct (G _ _ _ eq_refl). }
  destruct K as (th1 & T1 & K). rewrite K. unfold vthread_step at 1. cbn [vs_threads vs_set vs_down]. rewrite T1, Lm.
  pose proof (lset_eq _ _ (VtGot m k, z) _ T1) as T2. unfold vset_thread. cbn [vs_threads vs_reqs vs_set vs_down vs_mapped vs_join].
  unfold vthread_step. cbn [vs_threads vs_reqs vs_set vs_down vs_mapped vs_join]. rewrite T2, P. do 2 eexists. split; [reflexivity|]. cbn [vs_reqs vs_down]. split; [reflexivity|]. split; [reflexivity|].
  unfold vanswer. cbn [vs_reqs vs_threads]. rewrite nth_error_app2 by lia. rewrite Nat.sub_diag. cbn [nth_error q_phase q_thread q_parsed q_msg].
  rewrite (lset_eq _ _ _ _ T2). split; [reflexivity|]. cbn [vs_reqs]. clear. induction rq as [|x rq IH]; [reflexivity|]. cbn [length app lset]. f_equal. exact IH.
Qed.

Example C67_before_ex : vrun true [VThread 1 (Some ([7%N], fun _ => 1)); VAnswer 0; VThread 0 None] (vstart 2) = VNext (vstart 2).
Proof. reflexivity. Qed.
Example C67_serves_ex : exists s, vrun true [VSetHandler; VThread 0 None; VThread 0 (Some ([7%N], fun _ => 1)); VThread 0 None] (vstart 2) = VNext s /\ vs_down s = false /\
  (forall m' k' z, nth_error (vs_threads s) 1 <> Some (VtGot m' k', z)) /\ serialize sample <> [] /\ homa_parse true (serialize sample) (fun o => 57 - o) = HpRet true sample /\ length (vs_reqs s) = 1.
Proof. eexists. split; [vm_compute; reflexivity|]. split; [reflexivity|]. split; [intros; discriminate|]. split; [vm_compute; discriminate|]. split; [vm_compute; reflexivity|reflexivity]. Qed.

Print Assumptions C67_before.
Print Assumptions C67_serves.
