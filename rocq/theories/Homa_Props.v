(** Properties C65-C67: the Homa driver. *)
From Coq Require Import List NArith ZArith Bool Arith Lia.
From Verif Require Import Wire_Model Wire_Proofs2 Wire_Proofs3 Wire_Proofs4 Wire_Props Grpc_Model Grpc_Proofs Homa_Model Homa_Proofs Homa_Proofs2.
Import ListNotations.
Open Scope nat_scope.

(** C65. What is sent is never empty, for requests (whose size check cannot
    fail) and responses alike: the serialized message, or one byte that no
    message serializes to. *)
Theorem C65_sent : forall nocopy m,
  request_on_wire nocopy m = Some (response_on_wire nocopy m) /\ response_on_wire nocopy m <> [] /\
  (grr_ok m -> m <> empty_grr -> response_on_wire nocopy m = serialize_to_cord m nocopy /\ response_on_wire nocopy m <> response_on_wire nocopy empty_grr).
Proof.
  intros nocopy m. split; [apply request_wire|]. unfold response_on_wire. split; [destruct (serialize_to_cord m nocopy); discriminate|].
  intros G Ne. destruct (serialize_to_cord m nocopy) as [|b r] eqn:E; [exfalso; apply Ne; exact (cord_empty m nocopy G E)|].
  split; [reflexivity|]. replace (serialize_to_cord empty_grr nocopy) with (@nil N) by (destruct nocopy; reflexivity).
  rewrite <- E. apply not_placeholder. exact G.
Qed.
(** The receiver gets the message back: copying, when it fits the buffer; *)
Theorem C65_copied : forall nocopy m contiguous, grr_ok m -> (byte_size m <= 1048576)%Z ->
  homa_parse false (response_on_wire nocopy m) contiguous = HpRet true m.
Proof. intros nocopy m contiguous G L. apply slow_ok; [exact G|]. unfold rx_buf_size. lia. Qed.
(** without copying, when it is short and in one piece, *)
Theorem C65_one_piece : forall nocopy m contiguous, grr_ok m -> (byte_size m <= 4096)%Z ->
  0 < contiguous 0 -> (byte_size m <= Z.of_nat (contiguous O))%Z -> homa_parse true (response_on_wire nocopy m) contiguous = HpRet true m.
Proof. intros nocopy m contiguous G L C0 C. unfold homa_parse. rewrite fast_small; auto; lia. Qed.
(** or when the payload comes last and what precedes it is in the first piece. *)
Theorem C65_in_pieces : forall nocopy m meta hdr p contiguous, grr_ok m -> payload_last m meta hdr p ->
  hdr <= contiguous 0 -> delivered contiguous homa_max_bpages hdr (length (serialize m)) ->
  homa_parse true (response_on_wire nocopy m) contiguous = HpRet true m.
Proof.
  intros nocopy m meta hdr p contiguous G P H D. unfold homa_parse. rewrite (wire_same m meta hdr p nocopy G P), (C04_fast_parse_reconstructs m meta hdr p); auto.
Qed.
(** When what precedes the payload does not end in the first piece, the message
    is copied after all (the comment in the code says that this is not possible); *)
Theorem C65_fall_back : forall nocopy m contiguous, grr_ok m -> (byte_size m <= 1048576)%Z ->
  fast_parse (response_on_wire nocopy m) contiguous = FpSlow -> homa_parse true (response_on_wire nocopy m) contiguous = HpRet true m.
Proof. intros nocopy m contiguous G L F. rewrite <- (C65_copied nocopy m contiguous G L). cbn [homa_parse]. rewrite F. reflexivity. Qed.
Example C65_fall_back_ex : fast_parse (response_on_wire true sample) (fun o => if Nat.eqb o 0 then 5 else 57 - o) = FpSlow.
Proof. vm_compute. reflexivity. Qed.
(** but other cuts crash the receiver: *)
Theorem C65_any_cut_refuted : exists m contiguous, grr_ok m /\ (forall o, o < length (response_on_wire true m) -> 0 < contiguous o /\ o + contiguous o <= length (response_on_wire true m)) /\
  homa_parse true (response_on_wire true m) contiguous = HpCrash.
Proof.
  exists sample, (fun o => if Nat.eqb o 0 then 11 else 57 - o). split; [apply C03_example|]. split; [|vm_compute; reflexivity].
  change (length (response_on_wire true sample)) with 57. intros o L. destruct (Nat.eqb_spec o 0); lia.
Qed.
(** A longer message overruns the copying receiver's buffer. *)
Theorem C65_copied_refuted : forall nocopy m contiguous, (1048576 < byte_size m)%Z -> homa_parse false (response_on_wire nocopy m) contiguous = HpCrash.
Proof.
  intros nocopy m contiguous L. cbn [homa_parse]. pose proof (cord_size m nocopy) as S. unfold response_on_wire.
  destruct (serialize_to_cord m nocopy) as [|b r] eqn:E; [cbn in S; lia|]. rewrite slow_other.
  - replace (rx_buf_size <? N.of_nat (length (b :: r)))%N with true; [reflexivity|]. symmetry. apply N.ltb_lt. unfold rx_buf_size. lia.
  - intro Q. rewrite Q in S. cbn in S. lia.
Qed.
Example C65_copied_ex : (1048576 < byte_size (set_payload empty_grr (Some (repeat 0%N (N.to_nat 1048576)))))%Z.
Proof. vm_compute. reflexivity. Qed.
(** A ping-pong server answers with the bytes of the request, or dies when they
    lie in more pieces than it has room for. *)
Theorem C65_ping_pong : forall msg contiguous,
  (delivered contiguous homa_max_bpages 0 (length msg) -> ping_pong msg contiguous = PpReply msg) /\
  ((forall o, o <= length msg -> o + contiguous o <= length msg) -> ~ delivered contiguous homa_max_bpages 0 (length msg) -> ping_pong msg contiguous = PpFatal).
Proof.
  intros msg contiguous. unfold ping_pong. split.
  - intro D. rewrite collect_chunks_spec by exact D. reflexivity.
  - intros H D. rewrite collect_none; auto. lia.
Qed.
Example C65_ex : (* three pieces, the header in the first *)
  homa_parse true (response_on_wire true sample) (fun o => if Nat.eqb o 0 then 54 else if Nat.eqb o 53 then 2 else 57 - o) = HpRet true sample /\
  response_on_wire true empty_grr = [7%N] /\ homa_parse true [7%N] (fun _ => 1) = HpRet true empty_grr /\ homa_parse false [7%N] (fun _ => 1) = HpRet true empty_grr.
Proof. vm_compute. repeat split. Qed.

(** C66. done_callback is called at most once: not before the kernel has
    answered or refused the RPC, and it has been called when the RPC is over. *)
Theorem C66_once : forall nocopy n l s i r, hrun nocopy l (hstart n) = HNext s -> nth_error (hc_rpcs s) i = Some r ->
  length (h_calls r) <= 1 /\ (h_phase r = HCounted \/ h_phase r = HFlying -> h_calls r = []) /\ (h_phase r = HOver -> length (h_calls r) = 1).
Proof.
  intros nocopy n l s i r R E. pose proof (hinv_run nocopy l _ _ (hinv_start nocopy n) R) as I. pose proof (hi_rpc _ _ I i r E) as O. unfold hrpc_ok in O.
  destruct (h_phase r); try (destruct O as (o & _ & -> & _); cbn [length]; repeat split; auto; try discriminate; intros [H|H]; discriminate);
    repeat match goal with H : _ /\ _ |- _ => destruct H end; repeat match goal with H : h_calls r = _ |- _ => rewrite H end;
    cbn [length]; repeat split; auto; try discriminate; intros [?|?]; discriminate.
Qed.
(** What it then finds: no success when the RPC was not sent, or the answer is
    empty or comes with an error; otherwise success and the parsed response. *)
Theorem C66_result : forall nocopy n l s i r c, hrun nocopy l (hstart n) = HNext s -> nth_error (hc_rpcs s) i = Some r -> In c (h_calls r) ->
  match h_wire r with
  | None => c = mkHs None (Some false)
  | Some (OReply msg contiguous errno) =>
      (errno = true \/ msg = [] -> c = mkHs None (Some false)) /\
      (errno = false -> msg <> [] -> exists ok m, homa_parse nocopy msg contiguous = HpRet ok m /\ c = mkHs (Some (ok, m)) (Some true))
  | Some OError => False
  end.
Proof.
  intros nocopy n l s i r c R E Ic. pose proof (hinv_run nocopy l _ _ (hinv_start nocopy n) R) as I. pose proof (hi_rpc _ _ I i r E) as O. unfold hrpc_ok in O.
  assert (A : forall o, hanswer nocopy o (h_state r) -> match o with
      | OReply msg contiguous errno =>
          (errno = true \/ msg = [] -> h_state r = mkHs None (Some false)) /\
          (errno = false -> msg <> [] -> exists ok m, homa_parse nocopy msg contiguous = HpRet ok m /\ h_state r = mkHs (Some (ok, m)) (Some true))
      | OError => False end).
  { intros [msg contiguous errno|] H; cbn [hanswer] in H; [|exact H]. destruct errno; cbn [orb] in H.
    - split; [auto|discriminate].
    - destruct msg as [|b q]; cbn [length Nat.eqb] in H; split; auto; try contradiction. intros [?|?]; discriminate. }
  destruct (h_phase r);
    try (exfalso; repeat match goal with H : _ /\ _ |- _ => destruct H end; repeat match goal with H : h_calls r = _ |- _ => rewrite H in Ic end; exact Ic).
  - destruct O as (o & W & C & H). rewrite C in Ic. destruct Ic as [<-|[]]. rewrite W. exact (A o H).
  - destruct O as (C & H). rewrite C in Ic. destruct Ic as [<-|[]]. destruct H as [[W H]|(o & W & H)]; rewrite W; [exact H|exact (A o H)].
Qed.
(** pending_rpcs_ counts the RPCs that are not over (nor refused). *)
Theorem C66_pending : forall nocopy n l s, hrun nocopy l (hstart n) = HNext s ->
  hc_pending s = Z.of_nat (length (filter (fun r => match h_phase r with HSendFailed | HOver => false | _ => true end) (hc_rpcs s))).
Proof.
  intros nocopy n l s R. rewrite (hi_pending _ _ (hinv_run nocopy l _ _ (hinv_start nocopy n) R)). reflexivity.
Qed.
(** An RPC is worked on by one completion thread at a time. *)
Theorem C66_one_thread : forall nocopy n l s i t u, hrun nocopy l (hstart n) = HNext s ->
  nth_error (hc_threads s) t = Some (HtServe i) -> nth_error (hc_threads s) u = Some (HtServe i) -> t = u.
Proof. intros nocopy n l s i t u R. exact (hi_one _ _ (hinv_run nocopy l _ _ (hinv_start nocopy n) R) t u i). Qed.
(** ShutdownClient unmaps the buffer and closes the socket only when every
    thread has ended and every RPC started before is over. *)
Theorem C66_shutdown_waits : forall nocopy n l s, hrun nocopy l (hstart n) = HNext s -> hc_shut s = HsClosed ->
  (forall t h, nth_error (hc_threads s) t = Some h -> h = HtExited) /\
  forall i r, nth_error (hc_rpcs s) i = Some r -> h_late r = false -> h_phase r = HOver \/ h_phase r = HSendFailed.
Proof.
  intros nocopy n l s R C. pose proof (hinv_run nocopy l _ _ (hinv_start nocopy n) R) as I. split.
  - intros t h H. apply (hi_join _ _ I t); [rewrite C; exact Logic.I|exact H].
  - intros i r E L. pose proof (hi_quiet _ _ I C i r E L) as H. unfold hheld in H. destruct (h_phase r); auto; discriminate.
Qed.
(** Once ShutdownClient was called, only the first thread receives again. *)
Theorem C66_leaving : forall nocopy l s s' t, hc_notified s = true -> 0 < t -> hrun nocopy l s = HNext s' ->
  nth_error (hc_threads s) t = Some HtTest \/ nth_error (hc_threads s) t = Some HtExited ->
  nth_error (hc_threads s') t = Some HtTest \/ nth_error (hc_threads s') t = Some HtExited.
Proof.
  intros nocopy l. induction l as [|a l IH]; intros s s' t N P R E; cbn [hrun] in R; [injection R as <-; exact E|].
  destruct (hstep nocopy a s) as [s1| |] eqn:S1; [|discriminate|eapply IH; eauto].
  assert (Q : hc_notified s1 = true /\ (nth_error (hc_threads s1) t = Some HtTest \/ nth_error (hc_threads s1) t = Some HtExited)); [|destruct Q; eapply IH; eauto].
  clear IH R. destruct a as [|i ok|i|i o|u c|]; cbn [hstep] in S1.
  - injection S1 as <-. auto.
  - unfold hsend in S1. destruct (nth_error _ i) as [r|]; [|discriminate]. destruct (h_phase r); try discriminate. injection S1 as <-. destruct ok; auto.
  - unfold hfail in S1. destruct (nth_error _ i) as [r|]; [|discriminate]. destruct (h_phase r); try discriminate. injection S1 as <-. auto.
  - unfold hkernel in S1. destruct (nth_error _ i) as [r|]; [|discriminate]. destruct (h_phase r); try discriminate. injection S1 as <-. auto.
  - unfold hthread_step in S1. destruct (nth_error (hc_threads s) u) as [h|] eqn:Eu; [|discriminate].
    destruct (Nat.eq_dec t u) as [<-|Ne].
    + destruct E as [E|E]; rewrite E in Eu; injection Eu as <-; [|discriminate]. injection S1 as <-. rewrite N. replace (Nat.eqb t 0) with false by (symmetry; apply Nat.eqb_neq; lia).
      rewrite andb_false_r. cbn [negb orb hset_thread hc_notified hc_threads]. split; [exact N|]. right. eapply lset_eq. exact E.
    + assert (K : forall h' x, nth_error (lset u h' (hc_threads s)) t = Some x <-> nth_error (hc_threads s) t = Some x) by (intros; rewrite lset_neq by auto; reflexivity).
      destruct h as [| |j|]; [| | |discriminate].
      * injection S1 as <-. cbn [hset_thread hc_notified hc_threads]. rewrite !K. auto.
      * destruct c as [j|].
        -- destruct (nth_error (hc_rpcs s) j) as [r|]; [|discriminate]. destruct (h_phase r) as [| |o| | | |]; try discriminate. unfold hreceived in S1. destruct o as [msg cg er|].
           ++ destruct (er || Nat.eqb (length msg) 0); [injection S1 as <-; cbn [hset_thread hset_rpc hc_notified hc_threads]; rewrite !K; auto|].
              destruct (homa_parse nocopy msg cg); [discriminate|]. injection S1 as <-; cbn [hset_thread hset_rpc hc_notified hc_threads]; rewrite !K; auto.
           ++ injection S1 as <-; cbn [hset_thread hset_rpc hc_notified hc_threads]; rewrite !K; auto.
        -- destruct (hc_wake s); [discriminate|]. injection S1 as <-; cbn [hset_thread hset_wake hc_notified hc_threads]; rewrite !K; auto.
      * destruct (nth_error (hc_rpcs s) j) as [r|]; [|discriminate]. injection S1 as <-; cbn [hset_thread hset_rpc hset_pending hc_notified hc_threads]; rewrite !K; auto.
  - unfold hshutdown in S1. destruct (hc_shut s) as [|[|n]|k| |].
    + injection S1 as <-. auto.
    + injection S1 as <-. auto.
    + injection S1 as <-. auto.
    + destruct (nth_error (hc_threads s) k) as [[]|]; try discriminate; injection S1 as <-; auto.
    + destruct (Z.eqb _ _); [injection S1 as <-; auto|discriminate].
    + discriminate.
Qed.
(** The shutdown of a client without pending RPCs, in any interleaving with its
    threads, is never stuck and ends after a bounded number of steps. *)
Theorem C66_idle_shutdown : forall nocopy n l s, hrun nocopy l (hstart n) = HNext s -> hc_shut s = HsNot -> hc_pending s = 0%Z ->
  exists s1, hstep nocopy HShutdown s = HNext s1 /\
    (forall l2 s2, Forall shutting_action l2 -> hrun nocopy l2 s1 = HNext s2 ->
       hc_shut s2 = HsClosed \/ exists a s3, shutting_action a /\ hstep nocopy a s2 = HNext s3) /\
    exists bound, forall l2, Forall shutting_action l2 -> heffective nocopy l2 s1 -> length l2 <= bound.
Proof.
  intros nocopy n l s R Sh P. pose proof (hinv_run nocopy l _ _ (hinv_start nocopy n) R) as I.
  destruct (hstep nocopy HShutdown s) as [s1| |] eqn:E; cbn [hstep] in E; pose proof E as E0; unfold hshutdown in E0; rewrite Sh in E0; try discriminate.
  exists s1. split; [reflexivity|]. pose proof (idle_start nocopy s s1 I Sh P E) as D. split.
  - intros l2 s2 A R2. pose proof (idle_run nocopy l2 s1 s2 D A R2) as D2. destruct (hc_shut s2) eqn:S2; auto; right; apply idle_progress; auto; rewrite S2; discriminate.
  - exists (idle_work s1). intros l2 A H. exact (idle_bound nocopy l2 s1 D A H).
Qed.
(** With RPCs pending it can hang although all of them complete: the first
    thread takes the other's wake-up, or ends up waiting with nothing pending. *)
Definition reply_ex : outcome := OReply [7%N] (fun _ => 1) false.
Theorem C66_shutdown_hangs_refuted : forall nocopy, exists l s, hrun nocopy l (hstart 2) = HNext s /\ hc_pending s = 0%Z /\
  (forall i r, nth_error (hc_rpcs s) i = Some r -> h_phase r = HOver) /\
  forall a, a <> HInitiate -> hstep nocopy a s = HStuck.
Proof.
  intro nocopy.
  exists [HInitiate; HSend 0 true; HThread 0 None; HThread 1 None; HShutdown; HShutdown; HShutdown; HShutdown;
          HThread 0 None; HThread 0 None; HThread 0 None; HThread 0 None; HKernel 0 reply_ex; HThread 0 (Some 0); HThread 0 None; HThread 0 None; HShutdown].
  eexists. split; [destruct nocopy; vm_compute; reflexivity|]. split; [reflexivity|]. split.
  - intros [|[|i]] r E; cbn in E; try discriminate. injection E as <-. reflexivity.
  - intros a N. destruct a as [|[|[|i]] ok|[|[|i]]|[|[|i]] o|[|[|[|t]]] [[|[|i]]|]|]; try reflexivity. contradiction.
Qed.
(** An RPC that fails in the network is never reported to its caller and keeps
    ShutdownClient from returning, for ever. *)
Theorem C66_failure_reported_refuted : forall nocopy n, 0 < n -> exists l s r,
  hrun nocopy l (hstart n) = HNext s /\ nth_error (hc_rpcs s) 0 = Some r /\ h_wire r = Some OError /\
  forall l2 s2, hrun nocopy l2 s = HNext s2 -> nth_error (hc_rpcs s2) 0 = Some r /\ h_calls r = [] /\ hc_shut s2 <> HsClosed.
Proof.
  intros nocopy n Hn. destruct n as [|n]; [lia|]. exists [HInitiate; HSend 0 true; HKernel 0 OError; HThread 0 None; HThread 0 (Some 0)]. eexists _, _.
  match goal with |- ?A /\ _ => assert (R : A) by reflexivity end. split; [exact R|]. split; [reflexivity|]. split; [reflexivity|].
  intros l2 s2 R2. pose proof (hinv_run nocopy _ _ _ (hinv_start nocopy (S n)) R) as I.
  pose proof (forgotten_run nocopy l2 _ s2 0 _ I eq_refl eq_refl R2) as F. split; [exact F|]. split; [reflexivity|].
  intro C. pose proof (hi_quiet _ _ (hinv_run nocopy l2 _ s2 I R2) C 0 _ F eq_refl). discriminate.
Qed.
(** A response that cannot be parsed counts as success. *)
Theorem C66_unparsable_refuted : forall nocopy, exists l s r c, hrun nocopy l (hstart 1) = HNext s /\ nth_error (hc_rpcs s) 0 = Some r /\
  h_calls r = [c] /\ hs_success c = Some true /\ hs_response c = Some (false, empty_grr).
Proof.
  intro nocopy. exists [HInitiate; HSend 0 true; HKernel 0 (OReply [9%N; 9%N] (fun o => 2 - o) false); HThread 0 None; HThread 0 (Some 0)].
  eexists _, _, _. split; [destruct nocopy; vm_compute; reflexivity|]. repeat split.
Qed.
(** Two threads, three RPCs, one refused, and an orderly shutdown. *)
Definition homa_ex : list haction :=
  [HInitiate; HInitiate; HSend 1 false; HSend 0 true; HFail 1; HThread 0 None; HThread 1 None; HKernel 0 (OReply (serialize sample) (fun o => 57 - o) false);
   HThread 1 (Some 0); HInitiate; HSend 2 true; HThread 1 None; HKernel 2 (OReply [7%N] (fun _ => 1) true); HThread 0 (Some 2); HThread 0 None;
   HThread 0 None; HShutdown; HShutdown; HShutdown; HThread 1 None; HShutdown; HThread 0 None; HThread 0 None; HShutdown; HShutdown; HShutdown; HShutdown].
Example C66_ex : exists s, hrun true homa_ex (hstart 2) = HNext s /\ hc_shut s = HsClosed /\
  map h_calls (hc_rpcs s) = [[mkHs (Some (true, sample)) (Some true)]; [mkHs None (Some false)]; [mkHs None (Some false)]] /\
  map h_late (hc_rpcs s) = [false; false; false].
Proof. eexists. split; [vm_compute; reflexivity|]. vm_compute. repeat split. Qed.
Example C66_idle_ex : exists s, hrun true [HInitiate; HSend 0 false; HFail 0; HThread 0 None] (hstart 2) = HNext s /\ hc_shut s = HsNot /\ hc_pending s = 0%Z.
Proof. eexists. split; [vm_compute; reflexivity|]. split; reflexivity. Qed.

(** C67. Each request is handed to the handler with what its message parses to;
    the counter of a server thread is the number of its requests without
    response. *)
Theorem C67_requests : forall nocopy n l s, vrun nocopy l (vstart n) = VNext s ->
  (forall i q, nth_error (vs_reqs s) i = Some q -> fst (q_msg q) <> [] /\
     homa_parse nocopy (fst (q_msg q)) (snd (q_msg q)) = HpRet (fst (q_parsed q)) (snd (q_parsed q))) /\
  (forall t h z, nth_error (vs_threads s) t = Some (h, z) ->
     z = Z.of_nat (length (filter (fun q => Nat.eqb (q_thread q) t && match q_phase q with QHandling => true | QAnswered => false end) (vs_reqs s)))).
Proof.
  intros nocopy n l s R. pose proof (vinv_run nocopy l _ _ (vinv_start nocopy n) R) as V. split.
  - intros i q E. destruct (vi_parsed _ _ V i q E). auto.
  - exact (vi_count _ _ V).
Qed.
(** No response ever touches the counter of a thread that has ended. *)
Theorem C67_no_dangling : forall nocopy n l, vrun nocopy l (vstart n) <> VCrash VDangling.
Proof.
  intros nocopy n l E. destruct (vcrash_step nocopy l _ _ E) as (l1 & a & s1 & R & S1).
  exact (v_not_dangling nocopy a s1 (vinv_run nocopy l1 _ _ (vinv_start nocopy n) R) S1).
Qed.
(** When ShutdownServer has returned, every thread has ended and every request
    that was handed to the handler has been answered. *)
Theorem C67_shutdown_waits : forall nocopy n l s, vrun nocopy l (vstart n) = VNext s -> vs_down s = true -> vs_join s = None ->
  (forall t h z, nth_error (vs_threads s) t = Some (h, z) -> h = VtGone) /\
  forall i q, nth_error (vs_reqs s) i = Some q -> q_phase q = QAnswered.
Proof.
  intros nocopy n l s R D J. pose proof (vinv_run nocopy l _ _ (vinv_start nocopy n) R) as V. pose proof (vi_done _ _ V D J) as G. split; [exact G|].
  intros i q E. destruct (q_phase q) eqn:P; [|reflexivity]. exfalso. pose proof (vi_thread _ _ V i q E) as L. apply nth_error_Some in L.
  destruct (nth_error (vs_threads s) (q_thread q)) as [[h z]|] eqn:T; [|contradiction]. pose proof (G _ _ _ T) as ->.
  pose proof (vi_gone _ _ V _ _ T) as Z0. pose proof (vi_count _ _ V _ _ _ T) as C.
  pose proof (cnt_pos (handled_by (q_thread q)) _ i q E) as Po. unfold handled_by in Po at 1. rewrite Nat.eqb_refl, P in Po. specialize (Po eq_refl). lia.
Qed.
(** A server with one thread never reads the unmapped buffer, *)
Theorem C67_one_thread_mapped : forall nocopy l, vrun nocopy l (vstart 1) <> VCrash VUnmapped.
Proof.
  intros nocopy l E. destruct (vcrash_step nocopy l _ _ E) as (l1 & a & s1 & R & S1).
  pose proof (v_unmapped nocopy a s1 (vinv_run nocopy l1 _ _ (vinv_start nocopy 1) R) S1) as L.
  rewrite (v_threads nocopy l1 _ _ R) in L. cbn in L. lia.
Qed.
(** with more it can: the buffer goes when the first thread has ended. *)
Theorem C67_mapped_refuted : forall nocopy n, 2 <= n -> exists l, vrun nocopy l (vstart n) = VCrash VUnmapped.
Proof.
  intros nocopy n L. destruct n as [|[|n]]; try lia.
  exists [VSetHandler; VThread 0 None; VThread 1 None; VThread 1 (Some ([7%N], fun _ => 1)); VShutdown; VThread 0 None; VThread 0 None; VShutdown; VThread 1 None].
  reflexivity.
Qed.
(** A handler that never answers keeps ShutdownServer from returning. *)
Theorem C67_unanswered_refuted : forall nocopy n, 0 < n -> exists l s, vrun nocopy l (vstart n) = VNext s /\ vs_down s = true /\
  forall l2 s2, Forall (fun a => match a with VAnswer _ => False | _ => True end) l2 -> vrun nocopy l2 s = VNext s2 ->
    vs_join s2 = Some 0 /\ exists z, nth_error (vs_threads s2) 0 = Some (VtDrain, z).
Proof.
  intros nocopy n L. destruct n as [|n]; [lia|].
  exists [VSetHandler; VThread 0 None; VThread 0 (Some ([7%N], fun _ => 1)); VThread 0 None; VShutdown; VThread 0 None]. eexists.
  split; [destruct nocopy; reflexivity|]. split; [reflexivity|]. intros l2 s2 A R.
  assert (G : forall s, vs_join s = Some 0 -> vs_down s = true -> nth_error (vs_threads s) 0 = Some (VtDrain, 1%Z) ->
    forall l2 s2, Forall (fun a => match a with VAnswer _ => False | _ => True end) l2 -> vrun nocopy l2 s = VNext s2 ->
    vs_join s2 = Some 0 /\ nth_error (vs_threads s2) 0 = Some (VtDrain, 1%Z)).
  { clear. intros s J D T l2. revert s J D T. induction l2 as [|a l2 IH]; intros s J D T s2 A R; cbn [vrun] in R; [injection R as <-; auto|].
    inversion_clear A as [|x y A1 A2]. destruct (vstep nocopy a s) as [s1|c|] eqn:E; [|discriminate|eauto].
    assert (K : vs_join s1 = Some 0 /\ vs_down s1 = true /\ nth_error (vs_threads s1) 0 = Some (VtDrain, 1%Z)); [|destruct K as (K1 & K2 & K3); eauto].
    destruct a as [|t m|i|]; cbn [vstep] in E; [injection E as <-; auto| |contradiction|].
    - destruct t as [|t].
      + unfold vthread_step in E. rewrite T in E. discriminate.
      + unfold vthread_step in E. destruct (nth_error (vs_threads s) (S t)) as [[[| |msg c| |] z]|] eqn:Ht; try discriminate.
        * destruct (vs_set s); [|discriminate]. injection E as <-. cbn [vset_thread vs_join vs_down vs_threads]. rewrite lset_neq by discriminate. auto.
        * rewrite D in E. injection E as <-. cbn [vset_thread vs_join vs_down vs_threads]. rewrite lset_neq by discriminate. auto.
        * destruct (vs_mapped s); [|discriminate]. destruct (homa_parse _ _ _); [discriminate|]. injection E as <-.
          cbn [vs_join vs_down vs_threads]. destruct (vs_threads s); auto.
        * destruct (Z.eqb _ _); [|discriminate]. injection E as <-. cbn [vset_thread vs_join vs_down vs_threads]. rewrite lset_neq by discriminate. auto.
    - unfold vshutdown in E. rewrite J, T in E. discriminate. }
  match type of R with vrun _ _ ?s0 = _ => destruct (G s0 eq_refl eq_refl eq_refl l2 s2 A R) as [K1 K2] end. split; [exact K1|]. eauto.
Qed.
(** Two threads, two requests, one answered while the server shuts down. *)
Definition vserver_ex : list vaction :=
  [VSetHandler; VThread 0 None; VThread 1 None; VThread 0 (Some (serialize sample, fun o => 57 - o)); VThread 0 None; VThread 1 (Some ([7%N], fun _ => 1));
   VAnswer 0; VThread 1 None; VShutdown; VThread 0 None; VThread 1 None; VThread 1 None; VThread 0 None; VShutdown; VAnswer 1; VThread 1 None; VShutdown; VShutdown].
Example C67_ex : exists s, vrun true vserver_ex (vstart 2) = VNext s /\ vs_down s = true /\ vs_join s = None /\
  map q_parsed (vs_reqs s) = [(true, sample); (true, empty_grr)].
Proof. eexists. split; [vm_compute; reflexivity|]. vm_compute. repeat split. Qed.
Print Assumptions C65_sent.
Print Assumptions C65_copied.
Print Assumptions C65_one_piece.
Print Assumptions C65_in_pieces.
Print Assumptions C65_copied_refuted.
Print Assumptions C65_ping_pong.
Print Assumptions C66_once.
Print Assumptions C66_result.
Print Assumptions C66_pending.
Print Assumptions C66_one_thread.
Print Assumptions C66_shutdown_waits.
Print Assumptions C66_idle_shutdown.
Print Assumptions C66_shutdown_hangs_refuted.
Print Assumptions C66_failure_reported_refuted.
Print Assumptions C66_unparsable_refuted.
Print Assumptions C67_requests.
Print Assumptions C67_no_dangling.
Print Assumptions C67_shutdown_waits.
Print Assumptions C67_one_thread_mapped.
Print Assumptions C67_mapped_refuted.
Print Assumptions C67_unanswered_refuted.
Print Assumptions C65_fall_back.
Print Assumptions C65_any_cut_refuted.
Print Assumptions C66_leaving.
