(** C49 trace replay sends every RPC once, never early; C50 prior-RPC timing;
    C51 what makes a replay abort. *)
From Coq Require Import Ascii String List NArith ZArith Bool Arith Lia.
From Verif Require Import Base_Model Base_Proofs Grid_Model Canon_Model Replay_Model Replay_Proofs Replay_Proofs2 Replay_Proofs3 Replay_Proofs4.
Import ListNotations.
Open Scope Z_scope.

(** ** What the trace says, read off the configuration *)
(** A field of record [k]: its own value, or else the default's. *)
Definition field {A} (f : record -> option A) (t : trace) (k : nat) : option A :=
  match nth_error (t_records t) k with
  | Some r => match f r with Some x => Some x | None => f (t_defaults t) end
  | None => None
  end.
Definition number (o : option Z) : Z := match o with Some z => z | None => 0 end.
(** Record [k] is for client instance [me]. *)
Definition for_me (t : trace) (me : Z) (k : nat) : Prop :=
  (k < length (t_records t))%nat /\ forall c, field rc_client t k = Some c -> c = me.
Definition distances (t : trace) (k : nat) : list Z :=
  match nth_error (t_records t) k with Some r => rc_distances (t_defaults t) ++ rc_distances r | None => [] end.
(** Record [k] waits for record [j]. *)
Definition waits (t : trace) (me : Z) (k j : nat) : Prop :=
  for_me t me k /\ for_me t me j /\ exists d, In d (distances t k) /\ Z.of_nat j = Z.of_nat k - 1 - d.
Definition mode_is (t : trace) (k : nat) (m : tmode) : Prop := field rc_mode t k = Some m.
Definition delay (t : trace) (k : nat) : Z := number (field rc_timing t k).
(** The distances of this client's records point at earlier records. *)
Definition distances_ok (t : trace) (me : Z) : Prop :=
  forall k d, for_me t me k -> In d (distances t k) -> 0 <= d < Z.of_nat k.

Lemma override_field {A} (f : record -> option A) t k r r0 : nth_error (t_records t) k = Some r0 ->
  f r = override (f (t_defaults t)) (f r0) -> f r = field f t k.
Proof. intros E H. unfold field. rewrite E, H. unfold override. destruct (f r0); reflexivity. Qed.
Lemma record_fields t k r : record_at t k = Some r ->
  rc_client r = field rc_client t k /\ rc_mode r = field rc_mode t k /\ rc_timing r = field rc_timing t k /\ rc_distances r = distances t k /\
  rc_server r = field rc_server t k /\ rc_channel r = field rc_channel t k /\ rc_request_size r = field rc_request_size t k /\ rc_response_size r = field rc_response_size t k.
Proof.
  unfold record_at. destruct (nth_error (t_records t) k) as [r0|] eqn:E; [|discriminate]. cbn [option_map]. intro H. injection H as <-.
  repeat split; try (eapply override_field; [exact E|reflexivity]). unfold distances. rewrite E. reflexivity.
Qed.
Lemma addressed_iff t me k r : record_at t k = Some r -> (addressed me r = true <-> for_me t me k).
Proof.
  intro E. destruct (record_fields t k r E) as [C _]. unfold addressed, for_me. rewrite C. split.
  - intro H. split; [exact (record_lt _ _ _ E)|]. intros c Hc. rewrite Hc in H. apply Z.eqb_eq, H.
  - intros [_ H]. destruct (field rc_client t k) as [c|]; [|reflexivity]. apply Z.eqb_eq, H. reflexivity.
Qed.
Lemma mine_iff t me k : mine t me k = true <-> for_me t me k.
Proof.
  unfold mine. destruct (record_at t k) as [r|] eqn:E; [exact (addressed_iff t me k r E)|]. split; [discriminate|].
  intros [L _]. destruct (record_some t k L) as [r Er]. congruence.
Qed.
Lemma distances_iff t me : good_distances t me <-> distances_ok t me.
Proof.
  unfold good_distances, distances_ok. split.
  - intros G k d Hk Hd. destruct (record_some t k (proj1 Hk)) as [r Er]. destruct (record_fields t k r Er) as (_ & _ & _ & D & _).
    apply (G k r d Er); [apply (addressed_iff t me k r Er); exact Hk|rewrite D; exact Hd].
  - intros G k r d Er Ar Hd. destruct (record_fields t k r Er) as (_ & _ & _ & D & _). apply G; [apply (addressed_iff t me k r Er); exact Ar|rewrite <- D; exact Hd].
Qed.
Lemma waits_iff t me k j : distances_ok t me -> (In j (waits_for t me k) <-> waits t me k j).
Proof.
  intro G. unfold waits_for, waits. destruct (record_at t k) as [r|] eqn:E.
  - destruct (record_fields t k r E) as (_ & _ & _ & D & _). pose proof (addressed_iff t me k r E) as A. destruct (addressed me r).
    + rewrite in_flat_map, D. split.
      * intros (d & Hd & H). pose proof (G k d (proj1 A eq_refl) Hd) as Rg. pose proof (named_mine _ _ _ _ _ H) as M.
        split; [apply A; reflexivity|]. split; [apply mine_iff; exact M|]. exists d. split; [exact Hd|].
        unfold named in H. destruct (record_at t (Z.to_nat (Z.of_nat k - 1 - d))) as [r'|]; [|destruct H]. destruct (addressed me r'); [|destruct H]. destruct H as [<-|[]]. lia.
      * intros (_ & Hj & d & Hd & Ej). exists d. split; [exact Hd|]. unfold named. replace (Z.to_nat (Z.of_nat k - 1 - d)) with j by lia.
        destruct (record_some t j (proj1 Hj)) as [r' Er]. rewrite Er. rewrite (proj2 (addressed_iff t me j r' Er) Hj). left. reflexivity.
    + split; [intros []|]. intros (H & _). apply A in H. discriminate.
  - split; [intros []|]. intros ([L _] & _). destruct (record_some t k L). congruence.
Qed.
Lemma no_waits_iff t me k : distances_ok t me -> (waits_for t me k = [] <-> forall j, ~ waits t me k j).
Proof.
  intro G. split.
  - intros E j H. apply (waits_iff t me k j G) in H. rewrite E in H. destruct H.
  - intro H. destruct (waits_for t me k) as [|j r] eqn:E; [reflexivity|]. exfalso. apply (H j), (waits_iff t me k j G). rewrite E. left. reflexivity.
Qed.
Lemma mode_eq t k m : (k < length (t_records t))%nat -> m <> MUnknown -> (mode_of t k = m <-> mode_is t k m).
Proof.
  intros L N. destruct (record_some t k L) as [r Er]. destruct (record_fields t k r Er) as (_ & M & _). unfold mode_of, mode_is, mode. rewrite Er, M.
  destruct (field rc_mode t k) as [x|]; split; intro H; congruence.
Qed.
Lemma timing_eq t k : timing_of t k = delay t k.
Proof.
  unfold timing_of, delay, timing, number. destruct (record_at t k) as [r|] eqn:E.
  - destruct (record_fields t k r E) as (_ & _ & -> & _). reflexivity.
  - unfold record_at, field in *. destruct (nth_error (t_records t) k); [discriminate|reflexivity].
Qed.
(** A replay in state [s], started at [began] while traffic started at [traffic]. *)
Definition replaying (t : trace) (me traffic began : Z) (pd_ids channels : list Z) (s : runner) : Prop :=
  exists s0 l, setup t me traffic began = Some s0 /\ rrun t pd_ids channels l s0 = RNext s.
Lemma replaying_good t me T0 T1 pd ch s : replaying t me T0 T1 pd ch s -> good t me T0 s /\ distances_ok t me /\ n_trace_start s = T1 /\ sent_right t pd ch s.
Proof.
  intros (s0 & l & E & R). pose proof (setup_good _ _ _ _ _ E) as G0. pose proof (run_good _ _ _ _ _ _ _ _ G0 R) as G.
  split; [exact G|]. split; [apply distances_iff, (setup_inv _ _ _ _ _ E)|]. destruct (setup_parts _ _ _ _ _ E) as (_ & B & _ & _ & _ & _ & Sn & _). split.
  - assert (K : forall l s0 s, rrun t pd ch l s0 = RNext s -> n_trace_start s = n_trace_start s0).
    { clear. induction l as [|a r IH]; intros s0 s H; cbn [rrun] in H; [injection H as <-; reflexivity|].
      destruct (rstep t pd ch a s0) as [s1|c|] eqn:E; [|discriminate|exact (IH s0 s H)]. rewrite (IH s1 s H). clear IH H.
      destruct a as [d|n|k|k]; cbn [rstep] in E.
      - destruct (d <? 0); [discriminate|]. injection E as <-. reflexivity.
      - unfold main_step in E. destruct (n_pc s0) as [|deadline|i|i st|]; try discriminate.
        + injection E as <-. reflexivity.
        + destruct (n_finished s0); [injection E as <-; reflexivity|]. destruct deadline as [d|]; [|discriminate]. destruct (d <=? n_now s0); [|discriminate].
          destruct (earliest (n_ready s0)); [|discriminate]. destruct (nth_error (n_ready s0) n) as [[x i]|]; [|discriminate]. destruct (x =? z); [|discriminate]. injection E as <-. reflexivity.
        + destruct (record_at t i); [|discriminate]. destruct (destination r0 pd ch); [|discriminate]. injection E as <-. reflexivity.
        + destruct (nth_error (n_deps s0) i); [|discriminate]. destruct (release _ _ _ _ _). injection E as <-. reflexivity.
      - unfold finish_step in E. destruct (nth_error (n_flight s0) k) as [[i st [e|]]|]; try discriminate. injection E as <-. reflexivity.
      - unfold activate_step in E. destruct (nth_error (n_flight s0) k) as [[i st [e|]]|]; try discriminate. destruct (nth_error (n_deps s0) i); [|discriminate].
        destruct (release _ _ _ _ _). injection E as <-. reflexivity. }
    rewrite (K _ _ _ R). exact B.
  - eapply run_right; [|exact R]. intros e He. rewrite Sn in He. destruct He.
Qed.
(** Record [k] was sent at [at_] to [dest]. *)
Definition sent_at (s : runner) (k : nat) (at_ : Z) (dest : target) : Prop := In (k, at_, dest) (n_sent s).
(** Record [k]'s RPC ended at [at_], says its sample. *)
Definition ended_at (s : runner) (k : nat) (at_ : Z) : Prop := exists offset latency, In (k, (offset, latency)) (n_samples s) /\ at_ = n_trace_start s + offset + latency.

(** ** C49 *)
(** Each RPC is sent at most once, and only those of this client. *)
Theorem C49_once : forall t me traffic began pd_ids channels s, replaying t me traffic began pd_ids channels s ->
  NoDup (map (fun e => fst (fst e)) (n_sent s)) /\ forall k at_ dest, sent_at s k at_ dest -> for_me t me k.
Proof.
  intros t me T0 T1 pd ch s H. destruct (replaying_good _ _ _ _ _ _ _ H) as ([V Q O] & _). split; [exact (sent_nodup _ _ _ V)|].
  intros k a d Hs. apply mine_iff, (sent_mine _ _ _ _ V). unfold sent_ids. apply in_map_iff. exists (k, a, d). split; [reflexivity|exact Hs].
Qed.
(** When the replay returns, each RPC of this client was sent once, has one
    sample, and no call is left. *)
Theorem C49_complete : forall t me traffic began pd_ids channels s, replaying t me traffic began pd_ids channels s -> n_pc s = RDone ->
  n_flight s = [] /\ NoDup (map fst (n_samples s)) /\
  forall k, for_me t me k <-> (exists at_ dest, sent_at s k at_ dest) /\ (exists e, ended_at s k e).
Proof.
  intros t me T0 T1 pd ch s H D. destruct (replaying_good _ _ _ _ _ _ _ H) as ([V Q O] & _).
  pose proof (none_left _ _ _ V (i_done _ _ _ V D)) as N. split; [|split; [exact (sample_nodup _ _ _ V)|]].
  - destruct (n_flight s) as [|c r] eqn:F; [reflexivity|]. exfalso. pose proof (i_flight _ _ _ V (cl_index c)) as C. unfold flight_ids in C. rewrite F in C. cbn [map] in C. rewrite occ_cons in C.
    destruct (Nat.eq_dec (cl_index c) (cl_index c)); [|congruence]. pose proof (counted_once _ _ _ (cl_index c) V) as C1.
    assert (M : mine t me (cl_index c) = true) by (apply (sent_mine _ _ _ _ V), occ_In; lia). apply N, occ_In in M. lia.
  - intro k. split.
    + intro Hk. apply mine_iff, N in Hk. split.
      * destruct (sent_entry _ _ (sample_sent _ _ _ _ V Hk)) as ([[k' a] d] & A & B). cbn [sidx fst] in B. subst k'. exists a, d. exact A.
      * unfold sample_ids in Hk. apply in_map_iff in Hk. destruct Hk as ([k' [o l]] & A & B). cbn [fst] in A. subst k'. eexists. exists o, l. split; [exact B|reflexivity].
    + intros [(a & d & A) _]. apply mine_iff, (sent_mine _ _ _ _ V). unfold sent_ids. apply in_map_iff. exists (k, a, d). split; [reflexivity|exact A].
Qed.
(** An RPC that waits for none is not sent before its time. *)
Theorem C49_not_early : forall t me traffic began pd_ids channels s k at_ dest, replaying t me traffic began pd_ids channels s -> sent_at s k at_ dest ->
  (forall j, ~ waits t me k j) ->
  (mode_is t k MTraceStart -> began + delay t k <= at_) /\ (~ mode_is t k MTraceStart -> traffic + delay t k <= at_).
Proof.
  intros t me T0 T1 pd ch s k a d H Hs Nw. destruct (replaying_good _ _ _ _ _ _ _ H) as ([V Q O] & G & B & _).
  pose proof (proj2 (no_waits_iff t me k G) Nw) as W. destruct (q_sched _ _ _ _ Q _ Hs) as (x & Lx & Sx). cbn [sidx sstart fst snd] in Lx, Sx.
  destruct Sx as [[_ Ex]|[(_ & _ & e & _ & Y & _)|(_ & _ & j & o & l & _ & Y & _)]]; [|rewrite W in Y; destruct Y|rewrite W in Y; destruct Y].
  rewrite timing_eq in Ex. unfold base in Ex. rewrite B in Ex. destruct (C49_once _ _ _ _ _ _ _ H) as [_ Fm]. specialize (Fm k a d Hs). pose proof (mode_eq t k MTraceStart (proj1 Fm) ltac:(discriminate)) as Me.
  split; intro Md.
  - apply Me in Md. rewrite Md in Ex. lia.
  - assert (mode_of t k <> MTraceStart) by tauto. destruct (mode_of t k); try congruence; lia.
Qed.
(** Nor before the trace or traffic began; and of two RPCs that wait for none,
    the one with the earlier time is sent first. *)
Theorem C49_after_start : forall t me traffic began pd_ids channels s k at_ dest, replaying t me traffic began pd_ids channels s -> sent_at s k at_ dest -> began <= at_.
Proof.
  intros t me T0 T1 pd ch s k a d H Hs. destruct (replaying_good _ _ _ _ _ _ _ H) as ([V Q O] & _ & B & _).
  pose proof (q_sent _ _ _ _ Q _ Hs) as L. cbn [sstart fst snd] in L. lia.
Qed.
Definition due (t : trace) (traffic began : Z) (k : nat) : Z :=
  (match field rc_mode t k with Some MTraceStart => began | _ => traffic end) + delay t k.
Theorem C49_order : forall t me traffic began pd_ids channels s newer older a b at_ dest, replaying t me traffic began pd_ids channels s ->
  n_sent s = newer ++ (b, at_, dest) :: older -> (forall j, ~ waits t me b j) -> for_me t me a -> (forall j, ~ waits t me a j) ->
  due t traffic began a < due t traffic began b -> In a (map (fun e => fst (fst e)) older).
Proof.
  intros t me T0 T1 pd ch s l1 l2 a b st d H E Nb Ma Na Lt. destruct (replaying_good _ _ _ _ _ _ _ H) as ([V Q [_ O]] & G & B & _).
  assert (Due : forall k, (k < length (t_records t))%nat -> base t T0 s k + timing_of t k = due t T0 T1 k).
  { intros k L. unfold due, base. rewrite timing_eq, B. f_equal. destruct (record_some t k L) as [r Er]. destruct (record_fields t k r Er) as (_ & M & _). unfold mode_of, mode. rewrite Er, M.
    destruct (field rc_mode t k) as [[]|]; reflexivity. }
  assert (Mb : for_me t me b). { destruct (C49_once _ _ _ _ _ _ _ H) as [_ F]. apply (F b st d). unfold sent_at. rewrite E. apply in_app_iff. right. left. reflexivity. }
  refine (O (sending (n_pc s) ++ map sidx l1) b (map sidx l2) _ (proj2 (no_waits_iff t me b G) Nb) a (proj2 (mine_iff t me a) Ma) (proj2 (no_waits_iff t me a G) Na) _).
  - unfold started_order, sent_ids. rewrite E, map_app, <- app_assoc. reflexivity.
  - rewrite (Due a (proj1 Ma)), (Due b (proj1 Mb)). exact Lt.
Qed.
(** Of the RPCs that are ready the one with the earliest time is taken, and not
    before that time. *)
Theorem C49_greedy : forall t me traffic began pd_ids channels s s' n k, replaying t me traffic began pd_ids channels s ->
  rstep t pd_ids channels (Main n) s = RNext s' -> n_pc s' = RSend k ->
  exists x, In (x, k) (n_ready s) /\ x <= n_now s /\ (forall y j, In (y, j) (n_ready s) -> x <= y) /\ length (n_ready s) = S (length (n_ready s')).
Proof.
  intros t me T0 T1 pd ch s s' n k H St P. destruct (replaying_good _ _ _ _ _ _ _ H) as ([V Q O] & _). cbn [rstep] in St. unfold main_step in St.
  destruct (n_pc s) as [|deadline|i|i st|] eqn:P0; try discriminate.
  - injection St as <-. cbn [set_pc n_pc] in P. destruct (n_remaining s =? 0); discriminate.
  - destruct (n_finished s) eqn:F; [injection St as <-; discriminate|]. destruct deadline as [d|]; [|discriminate]. destruct (Z.leb_spec d (n_now s)); [|discriminate].
    destruct (earliest (n_ready s)) as [z|] eqn:Ez; [|discriminate]. destruct (nth_error (n_ready s) n) as [[x i]|] eqn:E; [|discriminate]. destruct (Z.eqb_spec x z) as [->|]; [|discriminate].
    injection St as <-. cbn [n_pc] in P. injection P as <-. destruct (i_wait _ _ _ V _ P0 F) as [W _]. exists z. split; [eapply nth_error_In; exact E|].
    split; [rewrite Ez in W; injection W as <-; assumption|]. split; [intros y j Hj; exact (earliest_le _ _ _ _ Ez Hj)|]. cbn [n_ready]. exact (without_length _ _ _ E).
  - destruct (record_at t i); [|discriminate]. destruct (destination r pd ch); [|discriminate]. injection St as <-. discriminate.
  - destruct (nth_error (n_deps s) i); [|discriminate]. destruct (release _ _ _ _ _). injection St as <-. discriminate.
Qed.
(** It goes where the record says, with the payload sizes of the record. *)
Theorem C49_target : forall t me traffic began pd_ids channels s k at_ dest, replaying t me traffic began pd_ids channels s -> sent_at s k at_ dest ->
  match field rc_channel t k with
  | Some c => 0 <= c /\ exists n, nth_error channels (Z.to_nat c) = Some n /\ dest = ToChannel n
  | None => 0 <= number (field rc_server t k) /\
      exists p, nth_error pd_ids (Z.to_nat (number (field rc_server t k))) = Some p /\ 0 <= p /\
        dest = ToServer p (number (field rc_request_size t k)) (number (field rc_response_size t k))
  end.
Proof.
  intros t me T0 T1 pd ch s k a d H Hs. destruct (replaying_good _ _ _ _ _ _ _ H) as (_ & _ & _ & R).
  destruct (R _ Hs) as (r & Er & D). cbn [sidx fst snd] in Er, D. destruct (record_fields t k r Er) as (_ & _ & _ & _ & F1 & F2 & F3 & F4).
  unfold destination in D. rewrite F1, F2, F3, F4 in D. unfold number. destruct (field rc_channel t k) as [c|].
  - destruct (Z.ltb_spec c 0); [discriminate|]. split; [assumption|]. destruct (nth_error ch (Z.to_nat c)) as [n|]; [|discriminate]. injection D as <-. exists n. auto.
  - destruct (Z.ltb_spec (match field rc_server t k with Some i => i | None => 0 end) 0); [discriminate|]. split; [assumption|].
    destruct (nth_error pd _) as [p|]; [|discriminate]. destruct (Z.ltb_spec p 0); [discriminate|]. injection D as <-. exists p. auto.
Qed.
(** A sample tells when its RPC was sent and how long it took. *)
Theorem C49_samples : forall t me traffic began pd_ids channels s k offset latency, replaying t me traffic began pd_ids channels s ->
  In (k, (offset, latency)) (n_samples s) ->
  (exists dest, sent_at s k (began + offset) dest) /\ 0 <= offset /\ 0 <= latency /\ began + offset + latency <= n_now s.
Proof.
  intros t me T0 T1 pd ch s k o l H Hin. destruct (replaying_good _ _ _ _ _ _ _ H) as ([V Q O] & _ & B & _).
  destruct (q_samples _ _ _ _ Q k o l Hin) as ([d A] & L1 & L2). rewrite B in *. split; [exists d; exact A|].
  pose proof (q_sent _ _ _ _ Q _ A) as L. cbn [sstart fst snd] in L. rewrite B in L. lia.
Qed.
(** If each record that waits is timed by prior RPCs, the replay can always go
    on until it returns or aborts, and it gets there in so many steps. *)
Definition waits_have_mode (t : trace) (me : Z) : Prop := forall k j, waits t me k j -> mode_is t k MPriorStart \/ mode_is t k MPriorEnd.
Theorem C49_never_stuck : forall t me traffic began pd_ids channels s, replaying t me traffic began pd_ids channels s -> waits_have_mode t me ->
  n_pc s <> RDone -> exists d s1 a, 0 <= d /\ rstep t pd_ids channels (Tick d) s = RNext s1 /\ (forall x, a <> Tick x) /\ rstep t pd_ids channels a s1 <> RStuck.
Proof.
  intros t me T0 T1 pd ch s H M N. destruct (replaying_good _ _ _ _ _ _ _ H) as (G & D & _).
  refine (progress t me T0 pd ch s G (proj2 (distances_iff t me) D) _ N).
  intros k Hk. destruct (waits_for t me k) as [|j r] eqn:E; [congruence|].
  assert (W : waits t me k j) by (apply (waits_iff t me k j D); rewrite E; left; reflexivity).
  destruct (M k j W) as [X|X]; [left|right]; apply mode_eq; try discriminate; try exact X; destruct W as [[L _] _]; exact L.
Qed.
Theorem C49_terminates : forall t me traffic began pd_ids channels s l, replaying t me traffic began pd_ids channels s ->
  moves t pd_ids channels l s <= 10 * Z.of_nat (length (t_records t)) + 2.
Proof.
  intros t me T0 T1 pd ch s l (s0 & l0 & E & R). pose proof (setup_good _ _ _ _ _ E) as G0.
  assert (K : forall l0 s0, good t me T0 s0 -> rrun t pd ch l0 s0 = RNext s -> measure t me s <= measure t me s0).
  { clear. induction l0 as [|a r IH]; intros s0 G H; cbn [rrun] in H; [injection H as <-; lia|].
    destruct (rstep t pd ch a s0) as [s1|c|] eqn:E; [|discriminate|exact (IH s0 G H)].
    pose proof (IH s1 (step_good _ _ _ _ _ _ _ _ G E) H). destruct a as [d|n|k|k].
    - rewrite (measure_tick _ me _ _ _ _ _ E) in *. lia.
    - assert (NT : forall x, Main n <> Tick x) by (intro x; discriminate). pose proof (measure_step t me pd ch _ s0 s1 NT E). lia.
    - assert (NT : forall x, Finish k <> Tick x) by (intro x; discriminate). pose proof (measure_step t me pd ch _ s0 s1 NT E). lia.
    - assert (NT : forall x, Activate k <> Tick x) by (intro x; discriminate). pose proof (measure_step t me pd ch _ s0 s1 NT E). lia. }
  pose proof (moves_bound t me T0 pd ch l s (run_good _ _ _ _ _ _ _ _ G0 R)) as B. specialize (K l0 s0 G0 R).
  destruct (setup_parts _ _ _ _ _ E) as (_ & _ & P1 & _ & P2 & P3 & P4 & _).
  assert (M0 : measure t me s0 <= 10 * Z.of_nat (length (t_records t)) + 2).
  { unfold measure, started_order, sent_ids, unended. rewrite P1, P2, P3, P4. cbn [sending map app length filter pc_rank].
    assert ((length (all_mine t me) <= length (t_records t))%nat).
    { unfold all_mine. rewrite <- (seq_length (length (t_records t)) 0) at 2. generalize (seq 0 (length (t_records t))). intro sq. induction sq as [|x r IHs]; cbn [filter]; [lia|]. destruct (mine t me x); cbn [length]; lia. }
    lia. }
  lia.
Qed.
(** ** C50 *)
(** A record timed by the start of prior RPCs: all of them were sent before, and
    it is not sent earlier than the delay after each. *)
Theorem C50_prior_start : forall t me traffic began pd_ids channels s k at_ dest j, replaying t me traffic began pd_ids channels s -> sent_at s k at_ dest ->
  mode_is t k MPriorStart -> waits t me k j -> exists at_j dest_j, sent_at s j at_j dest_j /\ at_j <= at_ /\ at_j + delay t k <= at_.
Proof.
  intros t me T0 T1 pd ch s k a d j H Hs M W. destruct (replaying_good _ _ _ _ _ _ _ H) as ([V Q O] & G & B & _).
  assert (Lk : (k < length (t_records t))%nat) by (destruct W as [[L _] _]; exact L). apply (mode_eq t k MPriorStart Lk ltac:(discriminate)) in M. pose proof (proj2 (waits_iff t me k j G) W) as Wj.
  destruct (q_sched _ _ _ _ Q _ Hs) as (x & Lx & Sx). cbn [sidx sstart fst snd] in Lx, Sx.
  destruct (proj1 (q_after _ _ _ _ Q _ Hs) M j Wj) as (e1 & A1 & A2 & A3). cbn [sidx sstart fst snd] in A1, A3.
  destruct Sx as [[Y _]|[(_ & Y & _)|(Y & _)]]; [cbn [sidx fst] in Y; rewrite Y in Wj; destruct Wj| |congruence].
  destruct (Y j Wj) as (e2 & B1 & B2 & B3).
  assert (e1 = e2).
  { pose proof (sent_nodup _ _ _ V) as ND. unfold sent_ids in ND. clear - ND A1 B1 A2 B2. induction (n_sent s) as [|z r IH]; [destruct A1|]. cbn [map] in ND. inversion_clear ND as [|? ? N1 N2].
    destruct A1 as [->|A1], B1 as [->|B1]; [reflexivity| | |exact (IH A1 B1 N2)]; exfalso; apply N1; apply in_map_iff; eexists; (split; [|eassumption]); congruence. }
  subst e2. destruct e1 as [[j' aj] dj]. cbn [sidx fst] in B2. subst j'. exists aj, dj. cbn [sstart fst snd] in A3, B3. rewrite timing_eq in B3. split; [exact A1|]. lia.
Qed.
(** A record timed by the end of prior RPCs: all of them had ended when it was
    sent, and it is sent no earlier than the delay after one of them. *)
Theorem C50_prior_end : forall t me traffic began pd_ids channels s k at_ dest j, replaying t me traffic began pd_ids channels s -> sent_at s k at_ dest ->
  mode_is t k MPriorEnd -> waits t me k j ->
  (exists e, ended_at s j e /\ e <= at_) /\ (exists j' e, waits t me k j' /\ ended_at s j' e /\ e + delay t k <= at_).
Proof.
  intros t me T0 T1 pd ch s k a d j H Hs M W. destruct (replaying_good _ _ _ _ _ _ _ H) as ([V Q O] & G & B & _).
  assert (Lk : (k < length (t_records t))%nat) by (destruct W as [[L _] _]; exact L). apply (mode_eq t k MPriorEnd Lk ltac:(discriminate)) in M. pose proof (proj2 (waits_iff t me k j G) W) as Wj.
  destruct (q_sched _ _ _ _ Q _ Hs) as (x & Lx & Sx). cbn [sidx sstart fst snd] in Lx, Sx.
  destruct (proj2 (q_after _ _ _ _ Q _ Hs) M j Wj) as (o1 & l1 & A1 & A2). cbn [sidx sstart fst snd] in A2.
  split; [exists (n_trace_start s + o1 + l1); split; [exists o1, l1; auto|exact A2]|].
  destruct Sx as [[Y _]|[(Y & _)|(_ & _ & j' & o & l & Y1 & Y2 & Y3)]]; [cbn [sidx fst] in Y; rewrite Y in Wj; destruct Wj|congruence|].
  exists j', (n_trace_start s + o + l). split; [apply (waits_iff t me k j' G); exact Y2|]. split; [exists o, l; auto|]. rewrite timing_eq in Y3. lia.
Qed.
(** With a single prior RPC the delay after its end is kept. *)
Theorem C50_single_prior_end : forall t me traffic began pd_ids channels s k at_ dest j, replaying t me traffic began pd_ids channels s -> sent_at s k at_ dest ->
  mode_is t k MPriorEnd -> waits t me k j -> (forall i, waits t me k i -> i = j) -> exists e, ended_at s j e /\ e + delay t k <= at_.
Proof.
  intros t me T0 T1 pd ch s k a d j H Hs M W U. destruct (C50_prior_end _ _ _ _ _ _ _ _ _ _ _ H Hs M W) as [_ (j' & e & W' & E & L)]. rewrite (U j' W') in E. exists e. auto.
Qed.

(** ** C51 *)
(** The trace runner gets past its setup exactly if no distance is negative or
    points before the trace. *)
Theorem C51_setup : forall t me traffic began, (exists s, setup t me traffic began = Some s) <-> distances_ok t me.
Proof.
  intros t me T0 T1. split.
  - intros [s H]. apply distances_iff, (setup_inv _ _ _ _ _ H).
  - intro D. destruct (setup_loop_ok t me T0 T1 (proj2 (distances_iff t me) D) (length (t_records t)) 0 (map (fun _ => mkDep 0 [] []) (t_records t)) [] 0 eq_refl) as [[[deps ready] remaining] E].
    unfold setup. rewrite E. eexists. reflexivity.
Qed.
(** A record that cannot be sent: its channel, or else its server, does not
    exist or has no connection. *)
Definition bad_target (t : trace) (pd_ids channels : list Z) (k : nat) : Prop :=
  match field rc_channel t k with
  | Some c => c < 0 \/ Z.of_nat (length channels) <= c
  | None => let i := number (field rc_server t k) in i < 0 \/ Z.of_nat (length pd_ids) <= i \/ exists p, nth_error pd_ids (Z.to_nat i) = Some p /\ p < 0
  end.
Lemma nth_error_Some_lt {A} (l : list A) n x : nth_error l n = Some x -> (n < length l)%nat.
Proof. intro H. apply nth_error_Some. congruence. Qed.
Lemma bad_destination t k r pd ch : record_at t k = Some r -> ((exists c, destination r pd ch = inr c) <-> bad_target t pd ch k).
Proof.
  intro Er. destruct (record_fields t k r Er) as (_ & _ & _ & _ & F1 & F2 & F3 & F4). unfold destination, bad_target, number. rewrite F1, F2.
  destruct (field rc_channel t k) as [c|].
  - destruct (Z.ltb_spec c 0) as [L|L]; [split; [auto|intros _; eexists; reflexivity]|]. destruct (nth_error ch (Z.to_nat c)) as [n|] eqn:N.
    + apply nth_error_Some_lt in N. split; [intros [c' X]; discriminate|lia].
    + apply nth_error_None in N. split; [lia|intros _; eexists; reflexivity].
  - cbn zeta. set (i := match field rc_server t k with Some i => i | None => 0 end). destruct (Z.ltb_spec i 0) as [L|L]; [split; [auto|intros _; eexists; reflexivity]|].
    destruct (nth_error pd (Z.to_nat i)) as [p|] eqn:N.
    + pose proof (nth_error_Some_lt _ _ _ N). destruct (Z.ltb_spec p 0).
      * split; [intros _; right; right; exists p; auto|intros _; eexists; reflexivity].
      * split; [intros [c' X]; discriminate|]. intros [?|[?|(q & Q1 & Q2)]]; [lia|lia|]. injection Q1 as <-. lia.
    + apply nth_error_None in N. split; [lia|intros _; eexists; reflexivity].
Qed.
(** A replay aborts only at a record of this client that cannot be sent. *)
Theorem C51_abort_only : forall t me traffic began pd_ids channels s0 l c, setup t me traffic began = Some s0 -> rrun t pd_ids channels l s0 = RCrash c ->
  exists k, for_me t me k /\ bad_target t pd_ids channels k.
Proof.
  intros t me T0 T1 pd ch s0 l c E R. destruct (run_crash _ _ _ _ _ _ _ _ (setup_good _ _ _ _ _ E) R) as (k & r & M & Er & D).
  exists k. split; [apply mine_iff, M|]. apply (bad_destination t k r pd ch Er). exists c. exact D.
Qed.
(** And it does abort when it comes to such a record. *)
Theorem C51_bad_aborts : forall t me traffic began pd_ids channels s k n, replaying t me traffic began pd_ids channels s -> n_pc s = RSend k ->
  ((exists c, rstep t pd_ids channels (Main n) s = RCrash c) <-> bad_target t pd_ids channels k).
Proof.
  intros t me T0 T1 pd ch s k n H P. destruct (replaying_good _ _ _ _ _ _ _ H) as ([V Q O] & _).
  assert (M : mine t me k = true).
  { pose proof (i_count _ _ _ V k) as C. rewrite P in C. cbn [sending] in C. rewrite occ_single in C. destruct (Nat.eq_dec k k); [|congruence]. destruct (mine t me k); [reflexivity|]. cbn [andb] in C. lia. }
  unfold mine in M. destruct (record_at t k) as [r|] eqn:Er; [|discriminate]. rewrite <- (bad_destination t k r pd ch Er). cbn [rstep]. unfold main_step. rewrite P, Er.
  destruct (destination r pd ch) as [d|c]; split; intros [x X]; try discriminate; eexists; reflexivity.
Qed.
(** A trace accepted by the validation does not abort if, besides, distances
    are in range, no channel is used, and no server index is negative or equal
    to the number of servers. *)
Lemma check_records_ok dflt cs ss : forall l r, check_records dflt cs ss l = None -> In r l -> merged (tr_server_instance dflt) (tr_server_instance r) <= ss.
Proof.
  induction l as [|x l IH]; intros r H Hin; [destruct Hin|]. cbn [check_records] in H. destruct (Z.ltb_spec ss (merged (tr_server_instance dflt) (tr_server_instance x))); [discriminate|].
  destruct (cs <? merged (tr_client_instance dflt) (tr_client_instance x)); [discriminate|]. destruct Hin as [<-|Hin]; [assumption|exact (IH r H Hin)].
Qed.
Theorem C51_accepted_safe : forall sizes t me traffic began pd_ids channels server l,
  validate_trace sizes (validated_part t) = None -> t_server t = Some server -> map_find server sizes = Some (Z.of_nat (length pd_ids)) ->
  (forall p, In p pd_ids -> 0 <= p) -> distances_ok t me -> (forall k, field rc_channel t k = None) ->
  (forall k, 0 <= number (field rc_server t k)) -> (forall k, number (field rc_server t k) <> Z.of_nat (length pd_ids)) ->
  exists s0 s, setup t me traffic began = Some s0 /\ rrun t pd_ids channels l s0 = RNext s.
Proof.
  intros sizes t me T0 T1 pd ch sv l Va Es Ms Hp D Nc N0 Ne.
  destruct (proj2 (C51_setup t me T0 T1) D) as [s0 E]. exists s0. destruct (rrun t pd ch l s0) as [s|c|] eqn:R.
  - exists s. auto.
  - exfalso. destruct (C51_abort_only _ _ _ _ _ _ _ _ _ E R) as (k & Mk & B). unfold bad_target in B. rewrite Nc in B. cbn zeta in B.
    specialize (N0 k). specialize (Ne k). destruct B as [B|[B|(p & P1 & P2)]].
    + lia.
    + unfold validate_trace, validated_part in Va. cbn [rt_client rt_server rt_defaults rt_records] in Va. destruct (t_client t) as [cl|]; [|discriminate]. rewrite Es in Va.
      destruct (map_find cl sizes) as [cs|]; [|discriminate]. rewrite Ms in Va. unfold number, field in B, Ne.
      destruct (nth_error (t_records t) k) as [r|] eqn:Er; [|pose proof (proj1 (nth_error_None _ _) Er); destruct Mk; lia].
      pose proof (check_records_ok _ _ _ _ (mkTrRec (rc_client r) (rc_server r)) Va) as C. cbn [tr_server_instance] in C.
      assert (In (mkTrRec (rc_client r) (rc_server r)) (map (fun r => mkTrRec (rc_client r) (rc_server r)) (t_records t))) as Hin by (apply in_map_iff; exists r; split; [reflexivity|eapply nth_error_In; exact Er]).
      specialize (C Hin). unfold merged in C. destruct (rc_server r) as [x|]; lia.
    + apply nth_error_In, Hp in P1. lia.
  - destruct (run_not_stuck _ _ _ _ _ R).
Qed.
(** Without them it does: a server index equal to the number of servers, a
    negative one, a channel that is not there, a distance past the start, a
    negative distance. *)
Definition plain : record := mkRec None None [] None None None None None.
Definition one_record (r : record) : trace := mkReplay (Some (s_ "c")) (Some (s_ "s")) [] plain [r].
Definition two_services : list (str * Z) := [(s_ "c", 1); (s_ "s", 2)].
Definition sends_one (t : trace) (pd ch : list Z) : option rresult :=
  option_map (rrun t pd ch [Main 0; Main 0; Main 0]) (setup t 0 0 0).
Theorem C51_accepted_aborts_refuted :
  (let t := one_record (mkRec None None [] None (Some 2) None None None) in validate_trace two_services (validated_part t) = None /\ sends_one t [0; 1] [] = Some (RCrash TooBig)) /\
  (let t := one_record (mkRec None None [] None (Some (-1)) None None None) in validate_trace two_services (validated_part t) = None /\ sends_one t [0; 1] [] = Some (RCrash TooBig)) /\
  (let t := one_record (mkRec None None [] None None (Some 0) None None) in validate_trace two_services (validated_part t) = None /\ sends_one t [0; 1] [] = Some (RCrash TooBig)) /\
  (let t := one_record (mkRec None None [0] None None None None None) in validate_trace two_services (validated_part t) = None /\ setup t 0 0 0 = None) /\
  (let t := one_record (mkRec None None [-1] None None None None None) in validate_trace two_services (validated_part t) = None /\ setup t 0 0 0 = None).
Proof. vm_compute. repeat split. Qed.
(** The names of the channels: if the target service has them all, index [i]
    means the channel with the [i]-th name. *)
Lemma channel_index_spec name : forall l i n, channel_index name l i = Some n -> i <= n /\ nth_error l (Z.to_nat (n - i)) = Some name.
Proof.
  induction l as [|x r IH]; intros i n H; cbn [channel_index] in H; [discriminate|]. destruct (str_eqb_spec x name) as [->|N].
  - injection H as <-. split; [lia|]. rewrite Z.sub_diag. reflexivity.
  - destruct (IH _ _ H) as [A B]. split; [lia|]. replace (Z.to_nat (n - i)) with (S (Z.to_nat (n - (i + 1)))) by lia. exact B.
Qed.
Lemma channel_index_known name : forall l i, In name l -> exists n, channel_index name l i = Some n.
Proof.
  induction l as [|x r IH]; intros i H; [destruct H|]. cbn [channel_index]. destruct (str_eqb_spec x name) as [->|N]; [eexists; reflexivity|].
  destruct H as [H|H]; [congruence|apply IH, H].
Qed.
Theorem C51_channels : forall names service_channels, (forall n, In n names -> In n service_channels) ->
  length (logical_channels names service_channels) = length names /\
  forall i c, nth_error (logical_channels names service_channels) i = Some c -> 0 <= c /\ nth_error service_channels (Z.to_nat c) = nth_error names i.
Proof.
  intros names sc. induction names as [|n r IH]; intro H; cbn [logical_channels].
  - split; [reflexivity|]. intros [|i] c E; discriminate.
  - destruct (channel_index_known n sc 0 (H n (or_introl eq_refl))) as [x E]. rewrite E. destruct (IH (fun m Hm => H m (or_intror Hm))) as [L N]. split; [cbn [length]; lia|].
    intros [|i] c Ec; cbn [nth_error] in *; [|exact (N i c Ec)]. injection Ec as <-. destruct (channel_index_spec _ _ _ _ E) as [A B]. rewrite Z.sub_0_r in B. auto.
Qed.
(** An unknown name shifts the ones after it: record channel 0 is named "x" but
    goes to channel "a", and channel 1 aborts. *)
Theorem C51_unknown_channel_refuted :
  let names := [s_ "x"; s_ "a"] in logical_channels names [s_ "a"] = [0] /\
  let t c := one_record (mkRec None None [] None None (Some c) None None) in
  sends_one (t 1) [0] (logical_channels names [s_ "a"]) = Some (RCrash TooBig).
Proof. vm_compute. repeat split. Qed.
Theorem C51_peers : forall peers, (logical_peers peers = Some peers <-> ~ In (-1) peers) /\ (logical_peers peers = None <-> In (-1) peers).
Proof.
  induction peers as [|p r [IH1 IH2]]; cbn [logical_peers]; [split; split; [intros _ []|reflexivity|discriminate|intros []]|].
  destruct (Z.eqb_spec p (-1)) as [->|N].
  - split; split; try discriminate; auto; [intro H; exfalso; apply H; left; reflexivity|left; reflexivity].
  - destruct (in_dec Z.eq_dec (-1) r) as [I|I].
    + rewrite (proj2 IH2 I). cbn [option_map]. split; split; auto; try discriminate; intro H; [exfalso; apply H; right; exact I|right; exact I].
    + rewrite (proj2 IH1 I). cbn [option_map]. split; split; auto; try discriminate; intros H; [intros [K|K]; [congruence|exact (I K)]|destruct H as [H|H]; [congruence|destruct (I H)]].
Qed.

(** ** What does not hold *)
Definition rec (m : tmode) (delay : Z) (ds : list Z) : record := mkRec (Some delay) (Some m) ds None None None None None.
(** A record with distances and a mode that is not a PRIOR one is never sent:
    the replay never returns. *)
Theorem C49_ignored_distances_refuted : exists t s, replaying t 0 0 0 [0] [] s /\ n_pc s <> RDone /\
  forall d a s1, rstep t [0] [] (Tick d) s = RNext s1 -> (forall x, a <> Tick x) -> rstep t [0] [] a s1 = RStuck.
Proof.
  set (t := mkReplay None None [] plain [plain; rec MTrafficStart 0 [0]]).
  destruct (setup t 0 0 0) as [s0|] eqn:E; [|vm_compute in E; discriminate].
  set (l := [Main 0; Main 0; Main 0; Main 0; Finish 0; Activate 0; Main 0; Main 0; Main 0; Main 0]).
  destruct (rrun t [0] [] l s0) as [s|c|] eqn:R; [|vm_compute in E; injection E as <-; vm_compute in R; discriminate|vm_compute in E; injection E as <-; vm_compute in R; discriminate].
  exists t, s. split; [exists s0, l; auto|]. vm_compute in E. injection E as <-. vm_compute in R. injection R as <-. split; [discriminate|].
  intros d a s1 H N. cbn [rstep] in H. destruct (d <? 0); [discriminate|]. injection H as <-. destruct a as [x|n|k|k]; [exfalso; exact (N x eq_refl)| | |]; cbn [rstep].
  - reflexivity.
  - unfold finish_step. cbn [n_flight]. destruct k; reflexivity.
  - unfold activate_step. cbn [n_flight]. destruct k; reflexivity.
Qed.
(** traffic_config.proto 155-158 says that without distances the immediately
    preceding RPC is meant; it is not waited for. *)
Theorem C50_default_distance_refuted : exists t s at_ dest, replaying t 0 0 0 [0] [] s /\ mode_is t 1 MPriorEnd /\ distances t 1 = [] /\
  sent_at s 1 at_ dest /\ n_samples s = [].
Proof.
  set (t := mkReplay None None [] plain [plain; rec MPriorEnd 0 []]).
  destruct (setup t 0 0 0) as [s0|] eqn:E; [|vm_compute in E; discriminate].
  set (l := [Main 0; Main 0; Main 0; Main 0; Main 0; Main 0; Main 0]).
  destruct (rrun t [0] [] l s0) as [s|c|] eqn:R; [|vm_compute in E; injection E as <-; vm_compute in R; discriminate|vm_compute in E; injection E as <-; vm_compute in R; discriminate].
  exists t, s, 0, (ToServer 0 0 0). split; [exists s0, l; auto|]. vm_compute in E. injection E as <-. vm_compute in R. injection R as <-. vm_compute. auto.
Qed.
(** With two prior RPCs the delay after the later end need not be kept: the
    callback that read the clock first may take the mutex last. *)
Theorem C50_last_end_refuted : exists t s at_ dest e, replaying t 0 0 0 [0] [] s /\ mode_is t 2 MPriorEnd /\ waits t 0 2 1 /\
  sent_at s 2 at_ dest /\ ended_at s 1 e /\ at_ < e + delay t 2.
Proof.
  set (t := mkReplay None None [] plain [plain; plain; rec MPriorEnd 100 [0; 1]]).
  destruct (setup t 0 0 0) as [s0|] eqn:E; [|vm_compute in E; discriminate].
  set (l := [Main 0; Main 0; Main 0; Main 0; Main 0; Main 0; Main 0; Main 0; Main 0; Tick 5; Finish 0; Tick 5; Finish 1; Activate 1; Activate 0; Tick 95; Main 0; Main 0; Main 0; Main 0]).
  destruct (rrun t [0] [] l s0) as [s|c|] eqn:R; [|vm_compute in E; injection E as <-; vm_compute in R; discriminate|vm_compute in E; injection E as <-; vm_compute in R; discriminate].
  exists t, s, 105, (ToServer 0 0 0), 10. split; [exists s0, l; auto|]. vm_compute in E. injection E as <-. vm_compute in R. injection R as <-.
  split; [reflexivity|]. split.
  - split; [split; [cbn; lia|intros c H; discriminate]|]. split; [split; [cbn; lia|intros c H; discriminate]|]. exists 0. split; [left; reflexivity|reflexivity].
  - split; [left; reflexivity|]. split; [exists 0, 10; split; [left; reflexivity|reflexivity]|reflexivity].
Qed.

(** ** Examples *)
(** Two servers; four records, the third for another client: the second waits
    100 after the start of the first, the last 7 after the ends of both. *)
Definition ex_trace : trace :=
  mkReplay (Some (s_ "c")) (Some (s_ "s")) [] (mkRec None (Some MTraceStart) [] None None None (Some 64) None)
    [mkRec (Some 10) None [] None (Some 1) None None (Some 32); mkRec (Some 100) (Some MPriorStart) [0] None None None None None;
     mkRec None None [] (Some 1) None None None None; mkRec (Some 7) (Some MPriorEnd) [1; 2; 0] None None None (Some 8) None].
Definition ex_run : list raction :=
  [Main 0; Tick 10; Main 0; Main 0; Main 0; Main 0; Finish 0; Activate 0; Tick 100; Main 0; Main 0; Main 0; Main 0; Main 0; Main 0;
   Tick 40; Finish 0; Activate 0; Main 0; Main 0; Tick 7; Main 0; Main 0; Main 0; Tick 3; Finish 0; Activate 0; Main 0; Main 0; Main 0].
Example C49_ex : exists s0 s, setup ex_trace 0 900 1000 = Some s0 /\ rrun ex_trace [0; 3] [] ex_run s0 = RNext s /\ n_pc s = RDone /\
  n_sent s = [(3%nat, 1157, ToServer 0 8 0); (1%nat, 1110, ToServer 0 64 0); (0%nat, 1010, ToServer 3 64 32)] /\
  n_samples s = [(0%nat, (10, 0)); (1%nat, (110, 40)); (3%nat, (157, 3))].
Proof. eexists. eexists. split; [vm_compute; reflexivity|]. split; [vm_compute; reflexivity|]. vm_compute. auto. Qed.
Example C49_ex_replaying : exists s, replaying ex_trace 0 900 1000 [0; 3] [] s /\ sent_at s 3 1157 (ToServer 0 8 0) /\ mode_is ex_trace 3 MPriorEnd /\
  waits ex_trace 0 3 1 /\ waits ex_trace 0 3 0 /\ ~ waits ex_trace 0 3 2 /\ mode_is ex_trace 1 MPriorStart /\ waits ex_trace 0 1 0 /\ (forall j, ~ waits ex_trace 0 0 j).
Proof.
  destruct C49_ex as (s0 & s & A & B & _ & C & _). exists s. split; [exists s0, ex_run; auto|].
  assert (F : forall k, (k < 4)%nat -> k <> 2%nat -> for_me ex_trace 0 k).
  { intros k L N. split; [exact L|]. intros c H. destruct k as [|[|[|[|k]]]]; try discriminate; [congruence|lia]. }
  split; [unfold sent_at; rewrite C; left; reflexivity|]. split; [reflexivity|].
  split; [split; [apply F; lia|split; [apply F; lia|]]; exists 1; split; [cbn; tauto|reflexivity]|].
  split; [split; [apply F; lia|split; [apply F; lia|]]; exists 2; split; [cbn; tauto|reflexivity]|].
  split; [intros (_ & [_ K] & _); specialize (K 1 eq_refl); discriminate|]. split; [reflexivity|].
  split; [split; [apply F; lia|split; [apply F; lia|]]; exists 0; split; [cbn; tauto|reflexivity]|].
  intros j (_ & _ & d & [] & _).
Qed.
Example C51_ex : distances_ok ex_trace 0 /\ (forall k, number (field rc_server ex_trace k) <> 2) /\ validate_trace two_services (validated_part ex_trace) = None /\
  bad_target (one_record (mkRec None None [] None (Some 2) None None None)) [0; 1] [] 0.
Proof.
  split.
  - intros k d [L _] H. destruct k as [|[|[|[|k]]]]; cbn in H, L; repeat (destruct H as [<-|H]; [lia|]); try destruct H; lia.
  - split; [|split; [reflexivity|right; left; cbn; lia]].
    intro k. destruct k as [|[|[|[|k]]]]; cbn; try discriminate. unfold field. cbn. destruct k; discriminate.
Qed.

Print Assumptions C49_once.
Print Assumptions C49_complete.
Print Assumptions C49_not_early.
Print Assumptions C49_after_start.
Print Assumptions C49_order.
Print Assumptions C49_target.
Print Assumptions C49_samples.
Print Assumptions C49_never_stuck.
Print Assumptions C49_terminates.
Print Assumptions C50_prior_start.
Print Assumptions C50_prior_end.
Print Assumptions C50_single_prior_end.
Print Assumptions C51_setup.
Print Assumptions C51_abort_only.
Print Assumptions C51_bad_aborts.
Print Assumptions C51_accepted_safe.
Print Assumptions C51_accepted_aborts_refuted.
Print Assumptions C51_channels.
Print Assumptions C51_unknown_channel_refuted.
Print Assumptions C51_peers.
Print Assumptions C49_ignored_distances_refuted.
Print Assumptions C50_default_distance_refuted.
Print Assumptions C50_last_end_refuted.
Print Assumptions C49_greedy.
