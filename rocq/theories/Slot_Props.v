(** C100: what is recorded about the RPCs of a closed loop. *)
From Coq Require Import Ascii String List NArith ZArith Bool Lia.
From Verif Require Import Wire_Model Slot_Model.
Import ListNotations.

(** The last answer before, the empty message if there was none. *)
Definition last_answer (l : list round) : grr :=
  fold_left (fun a r => match ro_outcome r with Answer m => m | Failure _ => a end) l empty_grr.
(** Only gRPC has multi-server channels. *)
Definition supported (d : pdriver) (r : round) : Prop := ro_multi r = true -> d = DGrpc.
(** What is recorded about [r] when [before] went through the slot before it and
    [after] goes through it later, and whether it cancels the traffic. *)
Definition recorded (d : pdriver) (before : list round) (r : round) (after : list round) (garbage : bool) (rc : rpc_record) (cancels : bool) : Prop :=
  nth_error (snd (through d (before ++ r :: after) (new_slot garbage))) (length before) = Some (rc, cancels).

Lemma through_at d r after : forall before s, nth_error (snd (through d (before ++ r :: after) s)) (length before) =
  Some (snd (fst (one_rpc d r (fst (through d before s)))), snd (one_rpc d r (fst (through d before s)))).
Proof.
  induction before as [|x before IH]; intros s; cbn [app through length].
  - destruct (one_rpc d r s) as [[s1 rec] c] eqn:E. destruct (through d after s1) as [s2 recs]. cbn [snd fst nth_error]. rewrite E. reflexivity.
  - destruct (one_rpc d x s) as [[s1 rec] c] eqn:E. specialize (IH s1). destruct (through d (before ++ r :: after) s1) as [s2 recs]. destruct (through d before s1) as [s3 recs']. cbn [snd fst nth_error] in *. exact IH.
Qed.
Lemma through_last d r : forall before s, fst (through d (before ++ [r]) s) = fst (fst (one_rpc d r (fst (through d before s)))).
Proof.
  induction before as [|x before IH]; intros s; cbn [app through].
  - cbn [fst]. destruct (one_rpc d r s) as [[s1 rec] c]. reflexivity.
  - destruct (one_rpc d x s) as [[s1 rec] c]. specialize (IH s1). destruct (through d (before ++ [r]) s1). destruct (through d before s1). exact IH.
Qed.
Lemma last_answer_snoc l r : last_answer (l ++ [r]) = match ro_outcome r with Answer m => m | Failure _ => last_answer l end.
Proof. unfold last_answer. rewrite fold_left_app. reflexivity. Qed.
Lemma response_grpc before g e : set_error (sl_response (fst (through DGrpc before (new_slot g)))) e = set_error (last_answer before) e.
Proof.
  induction before as [|r before IH] using rev_ind; [reflexivity|]. rewrite through_last, last_answer_snoc. unfold one_rpc, finished. cbn [fst sl_response].
  unfold complete. destruct (ro_multi r), (ro_outcome r) as [m|st]; cbn [sl_response]; try reflexivity; rewrite <- IH; reflexivity.
Qed.
Lemma response_other d before g : d <> DGrpc -> Forall (supported d) before -> sl_response (fst (through d before (new_slot g))) = last_answer before.
Proof.
  intros D. induction before as [|r before IH] using rev_ind; [reflexivity|]. intros F. apply Forall_app in F. destruct F as [F R]. apply Forall_inv in R. specialize (IH F).
  rewrite through_last, last_answer_snoc. unfold one_rpc, finished. cbn [fst sl_response]. unfold complete, supported in *.
  destruct d; [congruence| |]; (destruct (ro_multi r); [specialize (R eq_refl); discriminate R|]); destruct (ro_outcome r); cbn [sl_response]; auto.
Qed.

(** An answered RPC is recorded with the sizes of its own request and answer, with
    its own warmup mark and trace, as a success exactly if the answer has no
    error message, whatever went before. *)
Theorem C100_answered : forall d before r after g m, supported d r -> ro_outcome r = Answer m -> exists rc c, recorded d before r after g rc c /\
  rc_instance rc = (if ro_multi r then match server_instance m with Some i => i | None => 0%Z end else ro_peer r) /\
  (rc_success rc = true <-> error_message m = None \/ error_message m = Some []) /\
  rc_request_size rc = byte_size (ro_request r) /\ rc_response_size rc = byte_size m /\
  (rc_warmup rc = true <-> warmup (ro_request r) = Some true) /\ rc_trace rc = trace_ctx (ro_request r) /\
  (forall e, rc_error rc = Some e <-> error_message m = Some e /\ e <> []).
Proof.
  intros d before r after g m U A. unfold recorded. rewrite through_at. eexists. eexists. split; [reflexivity|].
  set (s := fst (through d before (new_slot g))). clearbody s.
  assert (C : complete d (ro_multi r) (ro_outcome r) (mkSlot (ro_request r) (sl_response s) (sl_success s)) = mkSlot (ro_request r) m true).
  { unfold complete, supported in *. rewrite A. destruct d; [destruct (ro_multi r); reflexivity| |]; (destruct (ro_multi r); [discriminate (U eq_refl)|reflexivity]). }
  unfold one_rpc. rewrite C. unfold finished, instance_of, warmup_of, error_of. cbn [fst snd rc_instance rc_success rc_request_size rc_response_size rc_warmup rc_trace rc_error sl_request sl_response sl_success].
  split; [reflexivity|]. split; [destruct (error_message m) as [[|x e]|]; intuition (try discriminate; congruence)|]. split; [reflexivity|]. split; [reflexivity|].
  split; [destruct (warmup (ro_request r)) as [[|]|]; intuition discriminate|]. split; [reflexivity|].
  intros e. destruct (error_message m) as [[|x e']|]; (split; [intros X|intros [X Y]]); try discriminate X.
  - injection X as <-. destruct (Y eq_refl).
  - injection X as <-. split; [reflexivity|discriminate].
  - exact X.
Qed.
(** An RPC that failed is never recorded as a success. *)
Theorem C100_failed : forall d before r after g st, ro_outcome r = Failure st -> exists rc c, recorded d before r after g rc c /\ rc_success rc = false.
Proof.
  intros d before r after g st A. unfold recorded. rewrite through_at. eexists. eexists. split; [reflexivity|].
  unfold one_rpc, finished, complete. rewrite A. cbn [fst snd rc_success]. destruct d, (ro_multi r); cbn [sl_response sl_success sl_request]; destruct (error_of _); reflexivity.
Qed.
(** Finding: with gRPC the request of an RPC that failed is not looked at any
    more: it is recorded with size 0, without its warmup mark and its trace.  Its
    answer is taken to be the last answer that came before with the message of
    the status; on a multi-server channel it counts for the instance that gave
    this last answer, and not for instance 0 (2218-2219), unless there was none. *)
Theorem C100_grpc_failed_refuted : forall before r after g st, ro_outcome r = Failure st -> exists rc c, recorded DGrpc before r after g rc c /\
  rc_request_size rc = 0%Z /\ rc_warmup rc = false /\ rc_trace rc = None /\
  rc_response_size rc = byte_size (set_error (last_answer before) st) /\
  rc_instance rc = (if ro_multi r then match server_instance (last_answer before) with Some i => i | None => 0%Z end else ro_peer r) /\
  (forall e, rc_error rc = Some e <-> e = st /\ st <> []).
Proof.
  intros before r after g st A. unfold recorded. rewrite through_at. eexists. eexists. split; [reflexivity|].
  pose proof (response_grpc before g st) as R. set (s := fst (through DGrpc before (new_slot g))) in *. clearbody s.
  replace (one_rpc DGrpc r s) with (finished (ro_multi r) (ro_peer r) (mkSlot empty_grr (set_error (last_answer before) st) false)) by (rewrite <- R; unfold one_rpc, complete; rewrite A; destruct (ro_multi r); reflexivity). unfold finished. cbn [fst snd rc_instance rc_success rc_request_size rc_response_size rc_warmup rc_trace rc_error sl_request sl_response sl_success].
  split; [reflexivity|]. split; [reflexivity|]. split; [reflexivity|]. split; [reflexivity|]. split; [reflexivity|].
  intros e. unfold error_of, set_error. cbn [error_message]. destruct st as [|x st]; (split; [intros X|intros [-> Y]]); [discriminate X|congruence|injection X as <-; split; [reflexivity|discriminate]|reflexivity].
Qed.
(** Finding: with Homa and Mercury the answer of an RPC that failed is taken to be
    the last one that came before, with its error message if it had one; Homa
    keeps the request, Mercury does not. *)
Theorem C100_other_failed_refuted : forall d before r after g st, d <> DGrpc -> Forall (supported d) before -> ro_multi r = false -> ro_outcome r = Failure st ->
  exists rc c, recorded d before r after g rc c /\
  rc_response_size rc = byte_size (last_answer before) /\ (forall e, rc_error rc = Some e <-> error_message (last_answer before) = Some e /\ e <> []) /\
  rc_instance rc = ro_peer r /\
  rc_request_size rc = (match d with DHoma => byte_size (ro_request r) | _ => 0%Z end) /\
  (rc_warmup rc = true <-> d = DHoma /\ warmup (ro_request r) = Some true) /\
  rc_trace rc = (match d with DHoma => trace_ctx (ro_request r) | _ => None end).
Proof.
  intros d before r after g st D F M A. unfold recorded. rewrite through_at. eexists. eexists. split; [reflexivity|].
  pose proof (response_other d before g D F) as R. set (s := fst (through d before (new_slot g))) in *. clearbody s.
  unfold one_rpc, complete. rewrite A, M, R. unfold finished, warmup_of, error_of.
  destruct d; [congruence| |]; cbn [fst snd rc_instance rc_success rc_request_size rc_response_size rc_warmup rc_trace rc_error sl_request sl_response sl_success].
  all: split; [reflexivity|]; split.
  1,3: intros e; destruct (error_message (last_answer before)) as [[|x e']|]; (split; [intros X|intros [X Y]]); try discriminate X; [injection X as <-; destruct (Y eq_refl)|injection X as <-; split; [reflexivity|discriminate]|exact X].
  all: split; [reflexivity|]; split; [reflexivity|]; split; [|reflexivity].
  - cbn. intuition discriminate.
  - destruct (warmup (ro_request r)) as [[|]|]; intuition discriminate.
Qed.
(** A driver without multi-server channels fails every RPC to one, and says so. *)
Theorem C100_unsupported : forall d before r after g, d <> DGrpc -> ro_multi r = true -> exists rc c, recorded d before r after g rc c /\
  rc_success rc = false /\ rc_error rc = Some (text "This protocol driver does not support multi-server channels.") /\ c = false /\
  rc_request_size rc = byte_size (ro_request r).
Proof.
  intros d before r after g D M. unfold recorded. rewrite through_at. eexists. eexists. split; [reflexivity|].
  unfold one_rpc, complete. rewrite M. destruct d; [congruence| |]; repeat split; reflexivity.
Qed.
(** The traffic is cancelled exactly when the message recorded starts as that of
    an overloaded peer does. *)
Theorem C100_cancels : forall d before r after g, exists rc c, recorded d before r after g rc c /\
  (c = true <-> exists rest, rc_error rc = Some (text "Traffic cancelled: RESOURCE_EXHAUSTED:" ++ rest)%list).
Proof.
  intros d before r after g. unfold recorded. rewrite through_at. eexists. eexists. split; [reflexivity|].
  unfold one_rpc, finished. cbn [fst snd rc_error]. set (e := error_of _). clearbody e.
  assert (S : forall p b, starts p b = true <-> exists rest, b = (p ++ rest)%list).
  { induction p as [|x p IH]; intros b; cbn [starts app]; [split; [intros _; exists b; reflexivity|reflexivity]|].
    destruct b as [|y b]; [split; [discriminate|intros (q & Q); discriminate Q]|]. rewrite andb_true_iff, N.eqb_eq, IH. split.
    - intros [-> (q & ->)]. exists q. reflexivity.
    - intros (q & Q). injection Q as -> ->. split; [reflexivity|]. exists q. reflexivity. }
  unfold exhausted_prefix. rewrite S. destruct e as [|x e]; split; intros (q & Q).
  - apply (f_equal (@length _)) in Q. rewrite app_length in Q. cbn [length] in Q. change (length (text "Traffic cancelled: RESOURCE_EXHAUSTED:")) with 38%nat in Q. lia.
  - discriminate Q.
  - exists q. rewrite Q. reflexivity.
  - exists q. congruence.
Qed.

(** The first RPC has no weight, each other one the time since the one before it
    in the same state started; together they weigh the time from the first start
    to the last. *)
Definition total (l : list (option Z)) : Z := fold_right (fun w a => match w with Some x => x + a | None => a end)%Z 0%Z l.
Theorem C100_weights : forall first starts, exists l, weights (first :: starts) (None, None) = None :: l /\ length l = length starts /\
  (forall i a b, nth_error (first :: starts) i = Some a -> nth_error starts i = Some b -> nth_error l i = Some (Some (b - a)%Z)) /\
  total l = (last starts first - first)%Z.
Proof.
  intros first starts. cbn [weights start_at snd weight_of]. exists (weights starts (None, Some first)). split; [reflexivity|].
  generalize (@None Z). revert first. induction starts as [|s starts IH]; intros first p.
  - cbn. split; [reflexivity|]. split; [intros [|i] a b _ H; discriminate H|lia].
  - cbn [weights]. change (start_at s (p, Some first)) with (Some first, Some s). cbn [weight_of length]. destruct (IH s (Some first)) as (L & N & T). split; [rewrite L; reflexivity|]. split.
    + intros [|i] a b A B; cbn [nth_error] in A, B |- *; [congruence|]. apply N; assumption.
    + cbn [total fold_right]. unfold total in T. rewrite T. destruct starts as [|y starts]; [cbn [last]; lia|].
      assert (E : forall d, last (y :: starts) d = last (y :: starts) s) by (clear; revert y; induction starts as [|z starts IH]; intros y d; [reflexivity|exact (IH z d)]).
      change (last (s :: y :: starts) first) with (last (y :: starts) first). rewrite (E first). lia.
Qed.
Print Assumptions C100_weights.
Example C100_ex_weights : weights [100; 130; 170]%Z (None, None) = [None; Some 30; Some 40]%Z.
Proof. reflexivity. Qed.

Print Assumptions C100_answered.
Print Assumptions C100_failed.
Print Assumptions C100_grpc_failed_refuted.
Print Assumptions C100_other_failed_refuted.
Print Assumptions C100_unsupported.
Print Assumptions C100_cancels.

(** Instance 2 answers, then a marked RPC fails: with gRPC on a multi-server
    channel it counts for instance 2, unmarked; with Homa the error that the
    first answer reported is recorded for the second RPC as well. *)
Definition ex_answer : grr := mkGrr None None None None None (Some (text "unknown RPC")) (Some 2%Z) None None None None None None.
Definition ex_request : grr := mkGrr (Some 0%Z) None (Some true) None None None None None None None (Some (text "payload")) None None.
Definition ex_rounds (multi : bool) : list round := [mkRound ex_request multi 5%Z (Answer ex_answer); mkRound ex_request multi 5%Z (Failure (text "lost"))].
Example C100_ex : map fst (snd (through DGrpc (ex_rounds true) (new_slot true))) =
    [mkRc 2 false 13 15 true None (Some (text "unknown RPC")); mkRc 2 false 0 8 false None (Some (text "lost"))]
  /\ map fst (snd (through DHoma (ex_rounds false) (new_slot true))) =
    [mkRc 5 false 13 15 true None (Some (text "unknown RPC")); mkRc 5 false 13 15 true None (Some (text "unknown RPC"))].
Proof. vm_compute. auto. Qed.
Example C100_ex_hyp : Forall (supported DHoma) (ex_rounds false) /\ supported DGrpc (mkRound ex_request true 0%Z (Answer ex_answer)).
Proof. split; [repeat constructor; discriminate|intros _; reflexivity]. Qed.
