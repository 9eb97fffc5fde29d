(** C82, continued: which actions of a test send the response of their list and
    which cancel the traffic. *)
From Coq Require Import Ascii String List NArith ZArith QArith Bool Arith Lia Permutation.
From Verif Require Import Base_Model Base_Proofs Grid_Model Grid_Proofs Place_Model Util_Model Net_Model Fanout_Model Table_Model Table_Proofs Table_Proofs2 Table_Props Cli_Model.
From Verif Require Seq_Model Sync_Model Rpc_Model Rpc_Proofs.
From Verif Require Import Seq_Proofs Node_Model Node_Proofs Node_Props Cluster_Model Cluster_Proofs Cluster_Props.
From Verif Require Import Iter_Model Iter_Proofs Iter_Proofs2 Iter_Props AList_Model AList_Proofs AList_Proofs2 AList_Props.
From Verif Require Import Peer_Model Peer_Proofs Peer_Props Deliver_Model Deliver_Proofs Deliver_Props.
From Verif Require Import Log_Model Sum_Model Sum_Proofs Sum_Proofs2 Report_Model Report_Proofs Report_Proofs2 Report_Props.
From Verif Require Import Work_Model Work_Proofs Work_Proofs2 Work_Proofs3 Work_Proofs4 Work_Proofs5 Work_Proofs6 Work_Props Work_Props2 Work_Props3.
Import ListNotations.
Open Scope Z_scope.

(** Traffic is cancelled from elsewhere or by an action that does so when done. *)
Definition cancel_why (outside : Prop) (acts : list al_action) (l : list al_event) : Prop :=
  In LCancel l -> outside \/ exists i a, nth_error acts i = Some a /\ aa_cancel a = true /\ In (LCall i) l.
Lemma why_app X acts l l' : cancel_why X acts l -> ~ In LCancel l' -> cancel_why X acts (l' ++ l).
Proof. intros H N I. apply in_app_iff in I as [I|I]; [contradiction|]. destruct (H I) as [K|(i & a & A & B & J)]; [left; exact K|]. right. exists i, a. split; [exact A|]. split; [exact B|]. apply in_app_iff. right. exact J. Qed.
Lemma why_enter (X : Prop) acts i a s : cancel_why X acts (al_log s) -> nth_error acts i = Some a -> cancel_why X acts (al_log (enter_callback i a s)).
Proof.
  intros H Na. unfold enter_callback. cbv zeta. cbn [al_log].
  assert (H1 : cancel_why X acts (LCall i :: al_log s)) by (apply (why_app X acts _ [_] H); intros [Q|[]]; discriminate).
  assert (H2 : forall o, cancel_why X acts (LSend (Some i) o :: LCall i :: al_log s)) by (intro o; apply (why_app X acts _ [_] H1); intros [Q|[]]; discriminate).
  destruct (aa_cancel a) eqn:Ca; cbn [andb].
  - intros _. right. exists i, a. split; [exact Na|]. split; [exact Ca|]. destruct (e_sends (al_tbl s i)), (negb (al_canceled s)); cbn [In]; auto.
  - destruct (e_sends (al_tbl s i)); [apply H2|exact H1].
Qed.
Lemma why_step (X : Prop) acts preds x s s' : (x = AList_Model.ECancel -> X) -> cancel_why X acts (al_log s) -> al_step acts preds x s = AlNext s' -> cancel_why X acts (al_log s').
Proof.
  intros HX H E. assert (Hf : forall p s0, handle_finished p s = AlNext s0 -> cancel_why X acts (al_log s0)).
  { intros p s0 Q. unfold handle_finished in Q. destruct (some_finished s); [|discriminate]. injection Q as <-. cbn [al_log]. apply why_app; [exact H|].
    intro I. apply in_rev in I. apply in_map_iff in I as (j & Q & _). discriminate. }
  assert (Fin : forall i a s0, cancel_why X acts (al_log s0) -> nth_error acts i = Some a -> cancel_why X acts (al_log (finish_action i (enter_callback i a s0)))).
  { intros i a s0 K Na. rewrite finish_log. apply (why_app X acts _ [LFinish i]); [exact (why_enter X acts i a s0 K Na)|]. intros [Q|[]]. discriminate. }
  assert (One : forall v, v <> LCancel -> cancel_why X acts (v :: al_log s)) by (intros v N; apply (why_app X acts _ [v] H); intros [Q|[]]; congruence).
  destruct x as [now d|i|i|]; cbn [al_step] in E.
  - unfold main_step in E. destruct (al_pc_ s) as [|i t| | |i some| | |] eqn:Pc.
    + injection E as <-. exact H.
    + destruct (Nat.ltb i (size acts)); [|destruct (all_finished acts s); injection E as <-; exact H].
      unfold scan_action in E. destruct (nth_error acts i) as [a|] eqn:Na; [|discriminate]. cbv zeta in E.
      destruct (e_started (al_tbl s i)); [injection E as <-; exact H|]. destruct (e_waiting (al_tbl s i) && _); [injection E as <-; exact H|].
      destruct (deps_status acts (al_tbl s) (aa_deps a) false) as [[[|] ds]|]; [|injection E as <-; exact H|discriminate].
      destruct (negb (e_waiting (al_tbl s i)) && aa_delay a).
      { injection E as <-. cbn [al_log]. apply One. discriminate. }
      destruct (ds || negb (subset_of (aa_preds a) preds)) eqn:Sk; cbn [negb andb] in E.
      * injection E as <-. apply Fin; [|exact Na]. cbn [al_log]. apply One. discriminate.
      * destruct (aa_fatal a); [discriminate|]. injection E as <-. cbn [al_log]. apply One. discriminate.
    + destruct (some_finished s) eqn:Sf; [exact (Hf _ _ E)|]. destruct (timed_wait acts s); [|discriminate]. injection E as <-. exact H.
    + injection E as <-. exact H.
    + destruct (Nat.ltb i (size acts)).
      * destruct (nth_error acts i) as [a|] eqn:Na; [|discriminate]. cbv zeta in E.
        destruct (e_finished (al_tbl s i) || negb (e_started (al_tbl s i)) || negb (aa_activity a)); [injection E as <-; exact H|]. destruct (e_cb (al_tbl s i)); try discriminate. injection E as <-.
        cbn [set_pc al_log]. apply (Fin i a s H Na).
      * destruct some; [exact (Hf _ _ E)|injection E as <-; exact H].
    + destruct (some_finished s); [|discriminate]. destruct (handle_finished PDrain s) as [| |s1] eqn:Q; [discriminate|discriminate|]. injection E as <-. cbn [set_pc al_log]. exact (Hf _ _ Q).
    + injection E as <-. cbn [al_log]. destruct (al_early s); [apply (why_app X acts _ [_])|apply (why_app X acts _ [_; _])]; try exact H; cbn [In]; intuition discriminate.
    + discriminate.
  - destruct (nth_error acts i) as [a|] eqn:Na; [|discriminate]. cbv zeta in E. destruct (e_started (al_tbl s i) && negb (aa_silent a)) eqn:Q; [|discriminate].
    destruct (e_cb (al_tbl s i)); [|discriminate|discriminate].
    destruct (al_pc_ s) eqn:Pc; try discriminate; (destruct (aa_activity a); [cbn [scanning] in E; try discriminate; injection E as <-; apply Fin; auto|injection E as <-; apply why_enter; auto]).
  - destruct (e_cb (al_tbl s i)); try discriminate. destruct (al_pc_ s); try discriminate; injection E as <-; rewrite finish_log; apply One; discriminate.
  - destruct (al_canceled s); [discriminate|]. injection E as <-. intros _. left. apply HX. reflexivity.
Qed.
Lemma why_run acts preds sch s : al_run acts preds sch al_init = AlNext s -> cancel_why (In AList_Model.ECancel sch) acts (al_log s).
Proof.
  assert (G : forall (X : Prop) l s0, (In AList_Model.ECancel l -> X) -> cancel_why X acts (al_log s0) -> al_run acts preds l s0 = AlNext s -> cancel_why X acts (al_log s)).
  { intro X. induction l as [|x l IH]; intros s0 HX H R; cbn [al_run] in R; [injection R as <-; exact H|].
    destruct (al_step acts preds x s0) as [| |s1] eqn:E; [apply (IH _ (fun I => HX (or_intror I)) H R)|discriminate|].
    apply (IH _ (fun I => HX (or_intror I)) (why_step X _ _ _ _ _ (fun Q => HX (or_introl Q)) H E) R). }
  intro R. apply (G _ sch al_init (fun I => I)); [intros []|exact R].
Qed.
Theorem C24_cancelled_by acts preds sch s : al_run acts preds sch al_init = AlNext s -> In LCancel (al_log s) ->
  In AList_Model.ECancel sch \/ exists i a, nth_error acts i = Some a /\ aa_cancel a = true /\ In (LCall i) (al_log s).
Proof. exact (why_run acts preds sch s). Qed.
Print Assumptions C24_cancelled_by.

(** The response of a list is sent by an action only if the list consists of it
    or the action says send_response_when_done, when it completes; and by the
    return of the list only if no such action was started. *)
Theorem C82_sender fnm r nes ev t w active res ws o info opts x s d : benchmark fnm r nes ev t w active res ws o info opts -> none_idle (config_of t) ->
  list_run_ok o r t res ws info opts x s -> nth_error (cf_lists (config_of t)) (Z.to_nat (lr_list x)) = Some d ->
  forall l1 by_ ov l2, al_log s = l1 ++ LSend by_ ov :: l2 ->
  let sends a := length (li_actions d) = 1%nat \/ ro_send (opts (an_name a)) = true in
  match by_ with
  | Some i => (exists u, l2 = LCall i :: u) /\ exists a, action_at (config_of t) d i a /\ sends a
  | None => forall i skip u a, In (LStart i skip u) l2 -> action_at (config_of t) d i a -> ~ sends a
  end.
Proof.
  intros B Ni (id & e & rd & tl & Ra & V & R & L & A) Ed l1 by_ ov l2 El sends. pose proof (be_ran _ _ _ _ _ _ _ _ _ _ _ _ B) as Rn. pose proof (be_rpcs _ _ _ _ _ _ _ _ _ _ _ _ B) as Dr.
  pose proof (lists_ok _ _ _ _ _ _ _ _ _ _ opts Rn Dr _ _ _ _ _ _ _ Ra V Ed Ni) as Ok. pose proof (list_at _ _ _ _ _ _ _ _ _ _ opts Rn Dr _ _ _ _ _ _ _ Ra V Ed) as La. pose proof (at_list _ _ _ _ _ _ _ _ _ _ opts Rn Dr _ _ _ _ _ _ _ Ra V Ed) as Al.
  assert (Len : length (tl_entries tl) = length (li_actions d)).
  { pose proof (entries _ _ _ _ _ _ _ _ _ _ opts Rn Dr _ _ _ _ _ _ _ Ra V Ed) as E1. pose proof (entry_of _ _ _ _ _ _ _ _ _ _ Rn Dr _ _ _ _ _ _ _ Ra V Ed) as E2.
    apply Nat.le_antisymm; apply Nat.nlt_ge; intro Lt.
    - destruct (nth_error (tl_entries tl) (length (li_actions d))) as [y|] eqn:Q; [|apply nth_error_None in Q; lia]. destruct (E1 _ _ Q) as (nm & P & _). assert (nth_error (li_actions d) (length (li_actions d)) = None) by (apply nth_error_None; lia). congruence.
    - destruct (nth_error (li_actions d) (length (tl_entries tl))) as [y|] eqn:Q; [|apply nth_error_None in Q; lia]. destruct (E2 _ _ Q) as (b & P). assert (nth_error (tl_entries tl) (length (tl_entries tl)) = None) by (apply nth_error_None; lia). congruence. }
  pose proof (C25_sender _ _ s Ok (ex_intro _ _ R) _ _ _ _ El) as H. rewrite map_length, Len in H. destruct by_ as [i|].
  - destruct H as (H1 & b & Eb & H2). split; [exact H1|]. destruct (La i b Eb) as (a & Ea & At & -> & Eo). exists (en_action a). split; [exact At|]. exact H2.
  - intros i skip u a I At Sn. destruct (Al i a At) as (b & _ & _ & Eb & _). destruct (H i skip u _ I Eb) as (H1 & H2). cbn [list_action aa_send] in H2. destruct Sn as [Sn|Sn]; [contradiction|congruence].
Qed.
Print Assumptions C82_sender.
(** Traffic is cancelled when an action completes that says
    cancel_traffic_when_done, and by no other. *)
Theorem C82_cancel fnm r nes ev t w active res ws o info opts x s d : benchmark fnm r nes ev t w active res ws o info opts ->
  list_run_ok o r t res ws info opts x s -> nth_error (cf_lists (config_of t)) (Z.to_nat (lr_list x)) = Some d ->
  (forall i a, action_at (config_of t) d i a -> ro_cancel (opts (an_name a)) = true -> In (LCall i) (al_log s) -> In LCancel (al_log s)) /\
  (In LCancel (al_log s) -> In AList_Model.ECancel (lr_schedule x) \/ exists i a, action_at (config_of t) d i a /\ ro_cancel (opts (an_name a)) = true /\ In (LCall i) (al_log s)).
Proof.
  intros B (id & e & rd & tl & Ra & V & R & L & A) Ed. pose proof (be_ran _ _ _ _ _ _ _ _ _ _ _ _ B) as Rn. pose proof (be_rpcs _ _ _ _ _ _ _ _ _ _ _ _ B) as Dr.
  pose proof (list_at _ _ _ _ _ _ _ _ _ _ opts Rn Dr _ _ _ _ _ _ _ Ra V Ed) as La. pose proof (at_list _ _ _ _ _ _ _ _ _ _ opts Rn Dr _ _ _ _ _ _ _ Ra V Ed) as Al. split.
  - intros i a At Ca I. destruct (Al i a At) as (b & _ & _ & Eb & _). exact (C24_cancel_when_done _ _ s (ex_intro _ _ R) i _ Eb Ca I).
  - intro I. destruct (C24_cancelled_by _ _ _ s R I) as [K|(i & b & Eb & Ca & J)]; [left; exact K|]. right. destruct (La i b Eb) as (a & Ea & At & -> & Eo). exists i, (en_action a). auto.
Qed.
Print Assumptions C82_cancel.
(** The list of C82_ex_log, whose return sends the response; then the first
    action sends it, then the second cancels the traffic as well. *)
Definition flagged (send cancel : bool) (n : str) : run_options :=
  let x := order_opts n in
  mkOptions (ro_iterations x) (ro_count x) (ro_duration x) (ro_parallel x) (ro_interval x) (ro_warmup x)
    (send && str_eqb n (s_ "choose")) (cancel && str_eqb n (s_ "call")) (ro_predicates x).
Definition flagged_log (send cancel : bool) : option (list al_event) :=
  match nth_error (ones order_out order_test order_result order_worlds) 0, nth_error order_runs 0 with
  | Some y, Some x =>
      match vec_at (tb_lists (rd_tables (on_ready y))) (lr_list x) with
      | Some tl => match al_run (map (fun a => list_action (on_ready y) (flagged send cancel (an_name (en_action a))) a) (tl_entries tl)) [] (lr_schedule x) al_init with
                   | AlNext s => Some (rev (al_log s)) | _ => None end
      | None => None
      end
  | _, _ => None
  end.
Example C82_ex_sender : map (option_map (filter (fun v => match v with LCall _ | LSend _ _ | LCancel | LFree => true | _ => false end))) [flagged_log false false; flagged_log true false; flagged_log true true] =
  [Some [LCall 0; LCall 1; LSend None 0; LFree]; Some [LCall 0; LSend (Some 0%nat) 0; LCall 1; LFree]; Some [LCall 0; LSend (Some 0%nat) 0; LCall 1; LCancel; LFree]].
Proof. vm_compute. reflexivity. Qed.
