(** Property C90, continued: what handlers do. *)
From Coq Require Import Ascii String List NArith ZArith Bool Arith Lia Permutation.
From Verif Require Import Base_Model Grpc_Model Grpc_Proofs Grpc_Proofs2 Grpc_Props Gsrv_Model Gsrv_Proofs Gsrv_Props Gnet_Model Gnet_Proofs Gnet_Proofs2 Gnet_Props Gnet_Props2.
Import ListNotations.
Open Scope nat_scope.

(** What the handler of call [k] has yet to do, once it was called. *)
Definition todo (v : gserver) (k : nat) : option (list hop) :=
  match v with
  | GDirect _ s => match nth_error (g_calls s) k with Some c => k_ops c | None => None end
  | GPolled s _ => match nth_error (v_fsms s) k with Some f => f_ops f | None => None end
  end.
Definition sops (s : server) (k : nat) : option (list hop) := match nth_error (v_fsms s) k with Some f => f_ops f | None => None end.
Definition gops (s : gsrv) (k : nat) : option (list hop) := match nth_error (g_calls s) k with Some c => k_ops c | None => None end.

Definition from_before (o : option (list hop)) (ops : list hop) : Prop := exists done, o = Some (done ++ ops).
Lemma before_same o ops : o = Some ops -> from_before o ops.
Proof. intros H. exists []. exact H. Qed.
Lemma sstep_ops prog a s s' k ops : sstep prog a s = SNext s' -> sops s' k = Some ops ->
  from_before (sops s k) ops \/ ops = [] \/ (ops = prog k /\ forall n, a <> Accept n).
Proof.
  intros E H.
  assert (Set_ : forall i f g, nth_error (v_fsms s) i = Some f -> v_fsms s' = lset i g (v_fsms s) ->
            (forall o, f_ops g = Some o -> from_before (f_ops f) o \/ o = [] \/ (o = prog i /\ forall n, a <> Accept n)) ->
            from_before (sops s k) ops \/ ops = [] \/ (ops = prog k /\ forall n, a <> Accept n)).
  { intros i f g N Q G. unfold sops in *. rewrite Q in H. destruct (Nat.eq_dec k i) as [->|D].
    - rewrite (lset_eq _ _ _ _ N) in H. rewrite N. apply G, H.
    - rewrite lset_neq in H by exact D. left. apply before_same, H. }
  assert (Same : v_fsms s' = v_fsms s -> from_before (sops s k) ops \/ ops = [] \/ (ops = prog k /\ forall n, a <> Accept n)).
  { intros Q. left. apply before_same. unfold sops in *. rewrite Q in H. exact H. }
  assert (Op : forall want n ok, complete_op want n ok s = SNext s' -> from_before (sops s k) ops \/ ops = [] \/ (ops = prog k /\ forall n, a <> Accept n)).
  { intros want n ok C. unfold complete_op in C. destruct (nth_error (v_ops s) n) as [[i o]|]; [|discriminate].
    destruct o, want; try discriminate; destruct (nth_error (v_fsms s) i) as [f|] eqn:N; try discriminate; injection C as C;
      (eapply Set_; [exact N|subst s'; reflexivity|]; cbn [f_ops]; intros o Q; left; apply before_same, Q). }
  destruct a as [|n|n|n ok|n|i|]; cbn [sstep] in E.
  - injection E as <-. apply Same. reflexivity.
  - destruct (shutting s); [discriminate|]. eapply Op, E.
  - destruct (shutting s); [|discriminate]. eapply Op, E.
  - eapply Op, E.
  - unfold poll_server in E. destruct (v_poller s) as [| |i|]; [| | |discriminate].
    + destruct (v_handler_set s); [|discriminate]. injection E as <-. apply Same. reflexivity.
    + destruct (nth_error (v_events s) n) as [[i ok]|].
      * unfold access in E. cbn [set_queue v_fsms] in E. destruct (nth_error (v_fsms s) i) as [f|] eqn:N; [|discriminate]. destruct (f_deleted f); [|discriminate].
        destruct ok; [destruct (f_state f)|].
        -- destruct (queue_shut s); [discriminate|]. injection E as E. eapply Set_; [exact N|subst s'; reflexivity|]. cbn [f_ops]. intros o Q. left. apply before_same, Q.
        -- assert (G : forall o, Some (if v_handler s then prog i else []) = Some o -> o = [] \/ o = prog i /\ forall m, PollServer n <> Accept m).
           { intros o Q. injection Q as <-. destruct (v_handler s); [right; split; [reflexivity|discriminate]|auto]. }
           destruct (v_post_new s).
           ++ unfold new_fsm in E. destruct (queue_shut _); [discriminate|]. injection E as <-. unfold sops in *. cbn [call_handler set_spoller set_fsm v_fsms set_queue v_handler] in H.
              destruct (Nat.eq_dec k i) as [->|D].
              ** rewrite (lset_eq _ _ _ f) in H by (apply snoc_old, N). right. apply G. exact H.
              ** rewrite lset_neq in H by exact D. destruct (nth_error (v_fsms s ++ _) k) as [g|] eqn:K; [|discriminate].
                 destruct (snoc_inv _ _ _ _ K) as [K1|[-> ->]]; [|discriminate]. rewrite K1. left. apply before_same, H.
           ++ injection E as E. eapply Set_; [exact N|subst s'; reflexivity|]. cbn [f_ops set_queue v_handler]. intros o Q. right. apply G, Q.
        -- injection E as E. eapply Set_; [exact N|subst s'; reflexivity|]. cbn [dec_ref f_ops]. intros o Q. left. apply before_same, Q.
        -- injection E as E. eapply Set_; [exact N|subst s'; reflexivity|]. cbn [dec_ref f_ops]. intros o Q. left. apply before_same, Q.
      * destruct (v_events s), (v_ops s); try discriminate. destruct (queue_shut s); [|discriminate]. injection E as <-. apply Same. reflexivity.
    + unfold access in E. destruct (nth_error (v_fsms s) i) as [f|] eqn:N; [|discriminate]. destruct (f_deleted f); [|discriminate]. injection E as E.
      eapply Set_; [exact N|subst s'; reflexivity|]. cbn [f_ops]. intros o Q. left. apply before_same, Q.
  - unfold handle_op in E. destruct (nth_error (v_fsms s) i) as [f|] eqn:N; [|discriminate]. destruct (f_ops f) as [[|o rest]|] eqn:Fo; try discriminate.
    unfold access in E. rewrite N in E. destruct (f_deleted f); [|discriminate].
    assert (G : forall o', Some rest = Some o' -> from_before (f_ops f) o') by (intros o' Q; injection Q as <-; exists [o]; exact Fo).
    destruct o; [|destruct (queue_shut s); [discriminate|]|]; injection E as E; (eapply Set_; [exact N|subst s'; reflexivity|]; cbn [dec_ref f_ops]; intros o Q; left; apply G, Q).
  - unfold shutdown_server in E. destruct (v_shut s); try discriminate; try (injection E as <-; apply Same; reflexivity).
    + destruct (forallb _ _); [|discriminate]. injection E as <-. apply Same. reflexivity.
    + destruct (v_detected s); [|discriminate]. injection E as <-. apply Same. reflexivity.
    + destruct (v_poller s); try discriminate. injection E as <-. apply Same. reflexivity.
Qed.
Lemma gstep_ops kd h a s s' k ops c : gstep kd h a s = GNext s' -> nth_error (g_calls s') k = Some c -> k_ops c = Some ops ->
  (from_before (gops s k) ops /\ exists b, nth_error (g_calls s) k = Some b /\ k_request b = k_request c) \/ ops = [] \/ ops = fst (h k (k_request c)).
Proof.
  intros E N H.
  assert (Set_ : forall i b g, nth_error (g_calls s) i = Some b -> g_calls s' = lset i g (g_calls s) -> k_request g = k_request b ->
            (forall o, k_ops g = Some o -> from_before (k_ops b) o \/ o = [] \/ o = fst (h i (k_request b))) ->
            (from_before (gops s k) ops /\ exists b, nth_error (g_calls s) k = Some b /\ k_request b = k_request c) \/ ops = [] \/ ops = fst (h k (k_request c))).
  { intros i b g M Q R G. rewrite Q in N. unfold gops. destruct (lset_inv _ _ _ _ _ N) as [[-> ->]|[D K]].
    - rewrite M. rewrite R. destruct (G _ H) as [X|X]; [left; split; [exact X|eauto]|auto].
    - rewrite K. left. split; [apply before_same, H|eauto]. }
  assert (Same : g_calls s' = g_calls s -> (from_before (gops s k) ops /\ exists b, nth_error (g_calls s) k = Some b /\ k_request b = k_request c) \/ ops = [] \/ ops = fst (h k (k_request c))).
  { intros Q. rewrite Q in N. left. unfold gops. rewrite N. split; [apply before_same, H|eauto]. }
  destruct a as [|q|i|i|i|i|]; cbn [gstep] in E.
  - destruct (g_shut s); try discriminate; injection E as <-; apply Same; reflexivity.
  - destruct (g_shut s); try discriminate. injection E as <-. cbn [set_calls g_calls] in N. destruct (snoc_inv _ _ _ _ N) as [K1|[-> ->]]; [|discriminate].
    left. unfold gops. rewrite K1. split; [apply before_same, H|eauto].
  - destruct (nth_error (g_calls s) i) as [b|] eqn:M; [|discriminate]. destruct (k_ops b); [discriminate|]. destruct (negb _); [discriminate|].
    destruct (g_handler s); injection E as E; (eapply Set_; [exact M|subst s'; reflexivity|reflexivity|]; cbn [k_ops]; intros o Q; injection Q as <-; auto).
  - destruct (nth_error (g_calls s) i) as [b|] eqn:M; [|discriminate]. destruct (k_ops b) as [[|o rest]|] eqn:Bo; try discriminate.
    destruct (gmove _ _ _ _ _) as [b'|] eqn:Gm; [|discriminate]. injection E as E.
    assert (M' : k_request b' = k_request b /\ k_ops b' = Some rest).
    { unfold gmove in Gm. destruct kd; [destruct o|destruct (0 <? k_freed b); [discriminate|]; destruct o]; try (destruct (0 <? k_sent b); [discriminate|]); injection Gm as <-; auto. }
    destruct M' as [M1 M2]. eapply Set_; [exact M|subst s'; reflexivity|exact M1|]. rewrite M2. intros o' Q. injection Q as <-. left. exists [o]. exact Bo.
  - destruct (nth_error (g_calls s) i) as [b|] eqn:M; [|discriminate]. destruct (negb _); [discriminate|].
    destruct kd; [destruct (k_ops b) as [[|]|] eqn:Bo; try discriminate|destruct (k_ops b) as [lo|] eqn:Bo; [|discriminate]];
      injection E as E; (eapply Set_; [exact M|subst s'; reflexivity|reflexivity|]; cbn [k_ops]; intros o Q; left; apply before_same; congruence).
  - destruct (nth_error (g_calls s) i) as [b|] eqn:M; [|discriminate]. destruct (k_inside b); [discriminate|]. destruct (k_reply b); [|discriminate].
    destruct (k_closed b); [discriminate|]. injection E as E. eapply Set_; [exact M|subst s'; reflexivity|reflexivity|]. cbn [k_ops]. intros o Q. left. apply before_same; exact Q.
  - destruct (g_shut s); [| | |discriminate]; try (destruct (forallb _ _); [|discriminate]); injection E as <-; apply Same; reflexivity.
Qed.

Definition obeys (w : gworld) (j : nat) (v : gserver) : Prop := forall k ops q, todo v k = Some ops -> call_req v k = Some q ->
  exists done, fst (gw_h w j k q) = done ++ ops.
Lemma nil_before {A} (l : list A) : exists done, l = done ++ [].
Proof. exists l. symmetry. apply app_nil_r. Qed.
Lemma called_taken s k ops : sinv true s -> sops s k = Some ops -> exists f, nth_error (v_fsms s) k = Some f /\ f_accepted f = true.
Proof.
  intros V H. unfold sops in H. destruct (nth_error (v_fsms s) k) as [f|] eqn:N; [|discriminate]. exists f. split; [reflexivity|].
  pose proof (i_fsm _ _ V _ _ N) as O. destruct O; cbn [f_ops] in H; try discriminate; reflexivity.
Qed.
Lemma obeys_step w j kd v o v' : vok w j kd v -> vok w j kd v' -> vstep w j v o v' -> obeys w j v -> obeys w j v'.
Proof.
  intros Ok Ok' M B k ops q T C. destruct M as [kk a s s' o M Eo|a s s' reqs o M Eo].
  - cbn [todo call_req] in T, C. destruct (nth_error (g_calls s') k) as [c|] eqn:N; [|discriminate]. cbn [option_map] in C. injection C as <-.
    destruct (gstep_ops _ _ _ _ _ _ _ _ M N T) as [( (done & D) & b & Nb & Rb)|[->| ->]]; [|apply nil_before|exists []; reflexivity].
    rewrite <- Rb. destruct (B k (done ++ ops) (k_request b)) as [d Q]; [exact D|cbn [call_req]; rewrite Nb; reflexivity|]. exists (d ++ done). rewrite Q, app_assoc. reflexivity.
  - destruct kd; [destruct Ok|]. destruct Ok as (V & _ & Tk). destruct Ok' as (V' & _ & Tk').
    change (sops s' k = Some ops) in T. cbn [call_req] in C. rewrite lookup_app in C.
    destruct (sstep_ops _ _ _ _ _ _ M T) as [[done D]|[->|[-> Na]]]; [|apply nil_before|].
    + destruct (called_taken _ _ _ V D) as (f & Nf & Af). assert (L : lookup k reqs <> None) by (apply Tk; exists f; auto).
      destruct (lookup k reqs) as [q'|] eqn:Lk; [|congruence]. injection C as <-.
      destruct (B k (done ++ ops) q' D Lk) as [d Q]. exists (d ++ done). rewrite Q, app_assoc. reflexivity.
    + assert (o = []) by (destruct a; try exact Eo; destruct (Na n eq_refl)). subst o. cbn [lookup] in C.
      destruct (lookup k reqs) as [q'|] eqn:Lk; [|discriminate]. injection C as <-. exists []. unfold polled_prog. rewrite Lk. reflexivity.
Qed.
Lemma obeys_run w clients kinds l : handlers_ok w kinds -> forall failed x x', xinv w clients kinds failed x -> (forall j v, nth_error (x_servers x) j = Some v -> obeys w j v) ->
  xrun w l x = XNext x' -> forall j v, nth_error (x_servers x') j = Some v -> obeys w j v.
Proof.
  intros Hk. induction l as [|a l IH]; intros failed x x' V B R; cbn [xrun] in R; [injection R as <-; exact B|].
  destruct (xstep w a x) as [x1| |] eqn:S; [|discriminate|eauto].
  pose proof (xinv_step w clients kinds Hk failed (fun c i m => failed c i m \/ a = XFail c i m) a x x1 V ltac:(auto) S) as V1.
  apply (IH _ _ _ V1); [|exact R]. intros j v E. pose proof (xstep_moved w clients kinds Hk _ _ _ _ V S) as M.
  destruct M as [c k ca s s' A C D F|j' v0 v' f o A C D F G H]; cbn [x_servers] in *; [exact (B _ _ E)|].
  destruct (lset_inv _ _ _ _ _ E) as [[-> ->]|[Ne K]]; [|exact (B _ _ K)].
  destruct (xv_s _ _ _ _ _ V _ _ A) as (kd & Ek & Ok). destruct (xv_s _ _ _ _ _ V1 j' v') as (kd1 & Ek1 & Ok1); [apply (lset_eq _ _ _ _ A)|].
  assert (kd1 = kd) by congruence. subst kd1. exact (obeys_step w j' kd v0 _ v' Ok Ok1 D (B _ _ A)).
Qed.

(** A handler does with a call what it does with the request of that call: what
    it has left is the end of it. *)
Theorem C90_acts : forall w clients kinds l x j v k ops q,
  handlers_ok w kinds -> xrun w l (xstart clients kinds) = XNext x -> nth_error (x_servers x) j = Some v ->
  todo v k = Some ops -> call_req v k = Some q -> exists done, fst (gw_h w j k q) = done ++ ops.
Proof.
  intros w clients kinds l x j v k ops q H R E T C.
  refine (obeys_run w clients kinds l H _ _ _ (xinv_start w clients kinds) _ R j v E k ops q T C).
  clear. intros j v E k ops q T C. cbn [xstart x_servers] in E. rewrite nth_error_map in E. destruct (nth_error kinds j) as [[kd|]|]; [| |discriminate]; cbn [option_map gserving] in E; injection E as <-.
  - exfalso. destruct k; discriminate.
  - cbn [call_req lookup] in C. discriminate.
Qed.
(** It is not called before the request is there. *)
Theorem C90_called_with_request : forall w clients kinds l x j v k ops,
  handlers_ok w kinds -> xrun w l (xstart clients kinds) = XNext x -> nth_error (x_servers x) j = Some v ->
  todo v k = Some ops -> call_req v k <> None.
Proof.
  intros w clients kinds l x j v k ops H R E T. pose proof (run_inv _ _ _ _ _ H R) as V. destruct (xv_s _ _ _ _ _ V _ _ E) as (kd & Ek & Ok).
  destruct v as [kk s|s reqs]; cbn [todo call_req] in *.
  - destruct (nth_error (g_calls s) k); discriminate.
  - destruct kd; [destruct Ok|]. destruct Ok as (Vs & _ & Tk). apply Tk. exact (called_taken _ _ _ Vs T).
Qed.

(** The handler of a polling server reads requests that are not empty. *)
Definition ex_w3 : gworld := mkGw (fun _ _ => 0) (fun _ _ q => (match q with [] => [HSend; HFree] | _ => [HRead; HSend; HFree] end, q)).
Example C90_acts_ex : handlers_ok ex_w3 [None] /\
  exists x v, xrun ex_w3 (ask 0 0 0 (s_ "a") ++ [XDeliver 0 0 0; XPolled 0 (PollServer 0); XPolled 0 (PollServer 0)])%list (xstart [(Callback, [true])] [None]) = XNext x /\
    nth_error (x_servers x) 0 = Some v /\ todo v 0 = Some [HRead; HSend; HFree] /\ call_req v 0 = Some (s_ "a").
Proof.
  split.
  - intros [|j] kd E; [|destruct j; discriminate]. injection E as <-. intros i [|c q]; reflexivity.
  - eexists _, _. split; [vm_compute; reflexivity|]. repeat split.
Qed.

Print Assumptions C90_acts.
Print Assumptions C90_called_with_request.
