(** Properties C48 and C64: the Mercury driver. *)
From Coq Require Import List NArith ZArith Bool Arith Lia.
From Verif Require Import Wire_Model Wire_Proofs2 Wire_Proofs3 Wire_Props Grpc_Model Grpc_Proofs Merc_Model Merc_Proofs.
Import ListNotations.
Open Scope nat_scope.

(** C48. What the serializer writes for a string, it reads back: the same
    string, and exactly the bytes that were written, whatever follows them and
    whatever the string held before. *)
Theorem C48_round_trip : forall mem buf room s,
  (N.of_nat (length s) <= mem)%N -> (mem < 2 ^ 63)%N -> (N.of_nat (length s) + 16 <= room)%N ->
  exists written room', generic_rpc_serializer mem (mkProc HgEncode buf room) s = SerRet true s (mkProc HgEncode (buf ++ written) room') /\
    length written = 16 + length s /\
    forall rest any before,
      generic_rpc_serializer mem (mkProc HgDecode (written ++ rest) any) before = SerRet true s (mkProc HgDecode rest any).
Proof.
  intros mem buf room s M P R. change (2 ^ 63)%N with p63 in P. exists (framed s). eexists. split; [apply encode_ok; auto; lia|].
  split; [apply framed_length|]. intros rest any before. apply decode_framed; auto.
Qed.
(** Releasing the decoded string changes nothing. *)
Theorem C48_free : forall mem buf room s, (N.of_nat (length s) <= mem)%N -> (mem < 2 ^ 63)%N ->
  generic_rpc_serializer mem (mkProc HgFree buf room) s = SerRet true s (mkProc HgFree buf room).
Proof. exact free_nothing. Qed.
(** A message: the server's handler gets the request, and the client the
    response, that the other side put on the wire. *)
Theorem C48_message : forall mem room m,
  grr_ok m -> (Z.to_N (byte_size m) <= mem)%N -> (mem < 2 ^ 63)%N -> (Z.to_N (byte_size m) + 16 <= room)%N ->
  exists w, put_on_wire mem room m = Some w /\ Z.of_nat (length w) = (byte_size m + 16)%Z /\
    server_request mem w = SrvRequest (Some m) /\
    exists str, get_output mem w = Some str /\ parse str = Some m.
Proof.
  intros mem room m G M P R. unfold byte_size in *. change (2 ^ 63)%N with p63 in P. exists (framed (serialize m)).
  assert (D : generic_rpc_serializer mem (mkProc HgDecode (framed (serialize m)) 0) [] = SerRet true (serialize m) (mkProc HgDecode [] 0))
    by (rewrite <- (app_nil_r (framed (serialize m))); apply decode_framed; lia).
  assert (Pa : parse (serialize m) = Some m) by exact (C03_cord_round_trip m false G).
  unfold put_on_wire, server_request, get_output. rewrite encode_ok by lia. cbn [p_buf app]. rewrite D.
  repeat split; [rewrite framed_length; lia|rewrite Pa; reflexivity|eauto].
Qed.
(** What is decoded from any bytes, 16 of them at least: the second length
    decides, the first is never looked at; *)
Theorem C48_decode_any : forall mem b1 b2 body room before, length b1 = 8 -> length b2 = 8 ->
  let n := le_value b2 in
  generic_rpc_serializer mem (mkProc HgDecode (b1 ++ b2 ++ body) room) before =
  (if (mem <? n)%N then SerThrow
   else if (n <=? N.of_nat (length body))%N
        then SerRet true (firstn (N.to_nat n) body) (mkProc HgDecode (skipn (N.to_nat n) body) room)
        else SerRet false (resize (N.to_nat n) before) (mkProc HgDecode body room)).
Proof. intros. apply decode_16; assumption. Qed.
(** The client only takes a response whose bytes are all there; the server takes
    any request, with zeros instead of the bytes that are missing; *)
Theorem C48_received : forall mem b1 b2 body, length b1 = 8 -> length b2 = 8 ->
  let n := le_value b2 in
  (forall str, get_output mem (b1 ++ b2 ++ body) = Some str <->
     (n <= mem)%N /\ (n <= N.of_nat (length body))%N /\ str = firstn (N.to_nat n) body) /\
  ((n <= mem)%N -> server_request mem (b1 ++ b2 ++ body) =
     SrvRequest (parse (if (n <=? N.of_nat (length body))%N then firstn (N.to_nat n) body else repeat 0%N (N.to_nat n)))).
Proof.
  intros mem b1 b2 body L1 L2 n. unfold get_output, server_request. rewrite decode_16 by assumption. fold n. split.
  - intro str. destruct (N.ltb_spec mem n); [split; [discriminate|intros (A & _); lia]|]. destruct (N.leb_spec n (N.of_nat (length body))).
    + split; [intro E; injection E as <-; auto|]. intros (_ & _ & ->). reflexivity.
    + split; [discriminate|]. intros (_ & B & _). lia.
  - intro M. destruct (N.ltb_spec mem n); [lia|]. destruct (n <=? N.of_nat (length body))%N; [reflexivity|].
    unfold resize. rewrite firstn_nil. cbn [app length]. rewrite Nat.sub_0_r. reflexivity.
Qed.
(** What is put on the wire fits the buffer and ends with the whole message. *)
Theorem C48_sent : forall mem room m w, (Z.to_N (byte_size m) <= mem)%N -> (mem < 2 ^ 63)%N -> put_on_wire mem room m = Some w ->
  (N.of_nat (length w) <= room)%N /\ exists head, w = head ++ serialize m /\ (length head = 0 \/ length head = 8 \/ length head = 16).
Proof.
  intros mem room m w M P E. unfold byte_size in M. change (2 ^ 63)%N with p63 in P. unfold put_on_wire in E. set (s := serialize m) in *.
  assert (Ls : (N.of_nat (length s) < p63)%N) by lia. unfold generic_rpc_serializer in E.
  destruct (encode_int64 [] room _ Ls) as (ok1 & h1 & E1 & R1 & L1). rewrite E1 in E. cbv iota beta in E. cbn [app] in E.
  destruct (encode_int64 h1 (room - N.of_nat (length h1)) _ Ls) as (ok2 & h2 & E2 & R2 & L2). rewrite E2 in E. cbv iota beta in E.
  destruct (N.ltb_spec mem (N.of_nat (length s))); [lia|]. rewrite Nat2N.id, resize_same in E. unfold hg_proc_bytes in E. cbn [p_op p_buf p_room] in E.
  destruct (N.leb_spec (N.of_nat (length s)) (room - N.of_nat (length h1) - N.of_nat (length h2))); [|discriminate]. injection E as <-.
  split; [rewrite !app_length; lia|]. exists (h1 ++ h2). split; [reflexivity|]. rewrite app_length. lia.
Qed.
Example C48_sent_ex : (exists w, put_on_wire 100 73 sample = Some w /\ length w = 73) /\ put_on_wire 100 72 sample = None.
Proof. split; [eexists; split|]; vm_compute; reflexivity. Qed.
(** Two different lengths are accepted, *)
Theorem C48_lengths_checked_refuted : exists mem b1 b2 body s p, le_value b1 <> le_value b2 /\ length b1 = 8 /\ length b2 = 8 /\
  generic_rpc_serializer mem (mkProc HgDecode (b1 ++ b2 ++ body) 0) [] = SerRet true s p.
Proof.
  exists 100%N, (le_bytes 8 5), (le_bytes 8 2), [1%N; 2%N; 3%N]. eexists _, _. vm_compute. repeat split; try reflexivity. discriminate.
Qed.
(** a request cut off inside its first length is taken for an empty message, *)
Theorem C48_truncation_detected_refuted : forall mem w, length w < 8 -> server_request mem w = SrvRequest (Some empty_grr).
Proof.
  intros mem w L. unfold server_request, generic_rpc_serializer, hg_proc_int64, hg_proc_bytes. cbn [p_op p_buf p_room length].
  change (N.of_nat 0) with 0%N. rewrite le_bytes_length. replace (8 <=? length w) with false by (symmetry; apply Nat.leb_gt; lia).
  cbn [p_op p_buf p_room]. rewrite le8 by reflexivity. rewrite !le_bytes_length.
  replace (8 <=? length w) with false by (symmetry; apply Nat.leb_gt; lia). rewrite le8 by reflexivity.
  replace (mem <? 0)%N with false by (symmetry; apply N.ltb_ge; lia). cbn. reflexivity.
Qed.
(** and a length from the network beyond what can be allocated is an uncaught
    exception. *)
Theorem C48_length_bounded_refuted : forall mem, (mem < 2 ^ 63)%N -> exists w, length w = 16 /\ server_request mem w = SrvThrow.
Proof.
  intros mem P. exists (le_bytes 8 0 ++ le_bytes 8 p63 ++ []). split; [reflexivity|]. unfold server_request.
  rewrite decode_16 by apply le_bytes_length. assert (L : le_value (le_bytes 8 p63) = p63) by (vm_compute; reflexivity). rewrite L.
  change (2 ^ 63)%N with p63 in P. replace (mem <? p63)%N with true by (symmetry; apply N.ltb_lt; exact P). reflexivity.
Qed.
(** A failure to write the lengths is not reported either. *)
Theorem C48_encode_errors_reported_refuted : exists mem room m w, grr_ok m /\ put_on_wire mem room m = Some w /\ server_request mem w <> SrvRequest (Some m).
Proof.
  exists 100%N, 7%N, (set_payload empty_grr (Some [1%N; 2%N; 3%N])), (serialize (set_payload empty_grr (Some [1%N; 2%N; 3%N]))).
  split; [|split; [vm_compute; reflexivity|vm_compute; discriminate]].
  constructor; cbn; try exact Logic.I. unfold bytes_ok. split; [repeat constructor|reflexivity].
Qed.
Example C48_ex : grr_ok sample /\
  put_on_wire 1000 1000 sample = Some (framed (serialize sample)) /\ length (framed (serialize sample)) = 73 /\
  server_request 1000 (framed (serialize sample)) = SrvRequest (Some sample).
Proof. split; [apply C03_example|]. vm_compute. repeat split. Qed.

(** C64. done_callback is called at most once, and only when Mercury completed
    the RPC; *)
Theorem C64_once : forall n l s i r, mrun l (mstart n) = MNext s -> nth_error (m_rpcs s) i = Some r ->
  length (m_calls r) <= 1 /\ (m_wire r = None -> m_calls r = []) /\ (m_phase r = MReleased -> length (m_calls r) = 1).
Proof.
  intros n l s i r R E. pose proof (minv_run l _ _ (minv_start n) R) as I. pose proof (mi_rpc _ I i r E) as O. unfold mrpc_ok in O.
  destruct (m_phase r); try (destruct O as (ret & str & O1 & O2 & ->); cbn [length]; repeat split; auto; congruence);
    repeat match goal with H : _ /\ _ |- _ => destruct H end; repeat match goal with H : m_calls r = [] |- _ => rewrite H end;
    cbn [length]; repeat split; auto; discriminate.
Qed.
(** it then finds the response of the server and the request it gave, and
    success exactly when the response could be decoded. *)
Theorem C64_result : forall n l s i r c, mrun l (mstart n) = MNext s -> nth_error (m_rpcs s) i = Some r -> In c (m_calls r) ->
  exists ret str, m_wire r = Some (ret, Some str) /\
    match parse str with
    | Some response => c = mkMs (m_given r) response (Some true)
    | None => c = mkMs empty_grr empty_grr (Some false)
    end.
Proof.
  intros n l s i r c R E Ic. pose proof (minv_run l _ _ (minv_start n) R) as I. pose proof (mi_rpc _ I i r E) as O. unfold mrpc_ok in O.
  destruct (m_phase r);
    try (destruct O as (ret & str & O1 & O2 & O3); rewrite O3 in Ic; destruct Ic as [<-|[]]; exists ret, str; split; [exact O1|];
         rewrite O2; unfold mdelivered; destruct (parse str); reflexivity);
    exfalso; repeat match goal with H : _ /\ _ |- _ => destruct H end; repeat match goal with H : m_calls r = [] |- _ => rewrite H in Ic end; exact Ic.
Qed.
(** pending_rpcs_ counts the RPCs that are not over; *)
Theorem C64_pending : forall n l s, mrun l (mstart n) = MNext s ->
  m_pending s = Z.of_nat (length (filter (fun r => match m_phase r with MReleased | MLost => false | _ => true end) (m_rpcs s))).
Proof. intros n l s R. exact (mi_pending _ (minv_run l _ _ (minv_start n) R)). Qed.
(** RPCs go to peers that exist: a step aborts exactly when the index is out of
    range. *)
Theorem C64_peers : forall n l s, mrun l (mstart n) = MNext s ->
  (forall i r, nth_error (m_rpcs s) i = Some r -> m_peer r < m_peers s) /\
  (forall p q, mstep (MInitiate p q None) s = MAbort <-> (p < 0 \/ Z.of_nat (m_peers s) <= p)%Z) /\
  (forall a, mstep a s = MAbort -> exists p q o, a = MInitiate p q o).
Proof.
  intros n l s R. split; [exact (mi_peer _ (minv_run l _ _ (minv_start n) R))|]. split.
  - intros p q. cbn [mstep]. unfold minitiate. cbn [negb]. destruct (Z.ltb_spec p 0); [intuition|].
    destruct (Z.leb_spec (Z.of_nat (m_peers s)) p); [intuition|]. split; [discriminate|lia].
  - intros a E. destruct a as [p q o | i ok | i ok | c |]; cbn [mstep] in E; [eauto| | | |]; exfalso.
    + unfold mcreate in E. destruct (nth_error _ _) as [r|]; [|discriminate]. destruct (m_phase r); discriminate.
    + unfold mforward in E. destruct (nth_error _ _) as [r|]; [|discriminate]. destruct (m_phase r); discriminate.
    + unfold mpoll in E. destruct (m_poller s); try discriminate.
      * destruct c as [[[i ret] out]|]; [|discriminate]. destruct (nth_error _ _) as [r|]; [|discriminate]. destruct (m_phase r); discriminate.
      * destruct (nth_error _ _) as [r|]; [|discriminate]. destruct (mbusy _ _); discriminate.
    + unfold mshutdown in E. destruct (m_shut s); try discriminate; [destruct (Z.eqb _ _)|destruct (m_poller s)]; discriminate.
Qed.
(** An RPC keeps the peer and the request it was started with. *)
Theorem C64_identity : forall s,
  (forall p q o s', mstep (MInitiate p q o) s = MNext s' -> exists r, m_rpcs s' = m_rpcs s ++ [r] /\ Z.of_nat (m_peer r) = p /\ m_given r = q /\ m_parent r = o) /\
  (forall a s' i r, mstep a s = MNext s' -> nth_error (m_rpcs s) i = Some r ->
     exists r', nth_error (m_rpcs s') i = Some r' /\ m_peer r' = m_peer r /\ m_given r' = m_given r /\ m_parent r' = m_parent r).
Proof.
  intro s. split.
  - intros p q o s' E. cbn [mstep] in E. unfold minitiate in E. match type of E with (if negb ?b then _ else _) = _ => destruct b end; cbn [negb] in E; [|discriminate].
    destruct (Z.ltb_spec p 0); [discriminate|]. destruct (Z.leb_spec (Z.of_nat (m_peers s)) p); [discriminate|]. injection E as <-. eexists. cbn [m_rpcs]. split; [reflexivity|].
    cbn [m_peer m_given m_parent]. split; [lia|auto].
  - assert (G : forall i j r r' r2, nth_error (m_rpcs s) j = Some r -> m_peer r' = m_peer r -> m_given r' = m_given r -> m_parent r' = m_parent r ->
      nth_error (m_rpcs s) i = Some r2 -> exists r3, nth_error (lset j r' (m_rpcs s)) i = Some r3 /\ m_peer r3 = m_peer r2 /\ m_given r3 = m_given r2 /\ m_parent r3 = m_parent r2).
    { intros i j r r' r2 Ej E1 E2 E3 Ei. destruct (Nat.eq_dec i j) as [->|N]; [exists r'; rewrite (lset_eq _ _ _ _ Ej); assert (r2 = r) by congruence; subst; auto|].
      exists r2. rewrite lset_neq by auto. auto. }
    intros a s' i r E Ei. destruct a as [p q o | j ok | j ok | c |]; cbn [mstep] in E.
    + unfold minitiate in E. match type of E with (if negb ?b then _ else _) = _ => destruct b end; cbn [negb] in E; [|discriminate].
      destruct (p <? 0)%Z; [discriminate|]. destruct (Z.of_nat (m_peers s) <=? p)%Z; [discriminate|]. injection E as <-. exists r. cbn [m_rpcs]. rewrite nth_error_app1 by (apply nth_error_Some; congruence). auto.
    + unfold mcreate in E. destruct (nth_error (m_rpcs s) j) as [rj|] eqn:Ej; [|discriminate]. destruct (m_phase rj); try discriminate. injection E as <-. destruct ok; eapply G; eauto.
    + unfold mforward in E. destruct (nth_error (m_rpcs s) j) as [rj|] eqn:Ej; [|discriminate]. destruct (m_phase rj); try discriminate. injection E as <-. destruct ok; eapply G; eauto.
    + unfold mpoll in E. destruct (m_poller s); [injection E as <-; eauto| | |discriminate].
      * destruct c as [[[j ret] out]|]; [|injection E as <-; eauto]. destruct (nth_error (m_rpcs s) j) as [rj|] eqn:Ej; [|discriminate]. destruct (m_phase rj); try discriminate. injection E as <-.
        unfold mcallback. destruct out; eapply G; eauto.
      * destruct (nth_error (m_rpcs s) i0) as [rj|] eqn:Ej; [|discriminate]. destruct (mbusy _ _); [discriminate|]. injection E as <-. eapply G; eauto.
    + unfold mshutdown in E. destruct (m_shut s); try (injection E as <-; eauto; fail).
      * destruct (Z.eqb _ _); [injection E as <-; eauto|discriminate].
      * destruct (m_poller s); try discriminate. injection E as <-. eauto.
Qed.
(** ShutdownClient returns only when every RPC is over that was started before
    it saw none pending ([m_late r = false]), in particular every RPC started by
    the callback of such an RPC; the polling thread has then ended. *)
Theorem C64_shutdown_waits : forall n l s, mrun l (mstart n) = MNext s -> m_shut s = MsDone ->
  m_poller s = MpExited /\
  forall i r, nth_error (m_rpcs s) i = Some r -> m_late r = false -> m_phase r = MReleased \/ m_phase r = MLost.
Proof.
  intros n l s R D. pose proof (minv_run l _ _ (minv_start n) R) as I. pose proof (mi_done _ I (or_intror D)) as N. split.
  - destruct (mi_join _ I N); congruence.
  - intros i r E L. assert (H : mheld r = false) by (apply (mi_quiet _ I) with i; auto; unfold passed; rewrite N; reflexivity).
    unfold mheld in H. destruct (m_phase r); auto; discriminate.
Qed.
Theorem C64_nested : forall n l s i r j p, mrun l (mstart n) = MNext s ->
  nth_error (m_rpcs s) i = Some r -> m_parent r = Some j -> nth_error (m_rpcs s) j = Some p -> m_late p = false -> m_late r = false.
Proof.
  intros n l s i r j p R E P F L. pose proof (minv_run l _ _ (minv_start n) R) as I. exact (proj2 (mi_late _ I i r j E P) p F L).
Qed.
(** Shutting down is always possible: from every state of a shutdown in which no
    RPC was started too late, the threads and Mercury can go on until it returns,
    with every RPC over. *)
Theorem C64_shutdown_possible : forall n l s, mrun l (mstart n) = MNext s -> m_shut s <> MsNot ->
  (forall i r, nth_error (m_rpcs s) i = Some r -> m_late r = false) ->
  exists l2 s2, mrun l2 s = MNext s2 /\ m_shut s2 = MsDone /\
    forall i r, nth_error (m_rpcs s2) i = Some r -> m_phase r = MReleased \/ m_phase r = MLost.
Proof.
  intros n l s R Ns L. destruct (can_shutdown s (minv_run l _ _ (minv_start n) R) L Ns) as (l2 & s2 & R2 & D & A).
  exists l2, s2. repeat split; auto. intros i r E. pose proof (A i r E) as H. unfold mheld in H. destruct (m_phase r); auto; discriminate.
Qed.
(** Not every RPC is answered: when HG_Create, HG_Forward or HG_Get_output fails
    the caller is never told, whatever happens afterwards. *)
Theorem C64_always_called_refuted : forall n req ret, 0 < n ->
  (exists s r, mrun [MInitiate 0 req None; MCreate 0 false] (mstart n) = MNext s /\ nth_error (m_rpcs s) 0 = Some r /\ m_phase r = MLost) /\
  (exists s r, mrun [MInitiate 0 req None; MCreate 0 true; MForward 0 false] (mstart n) = MNext s /\ nth_error (m_rpcs s) 0 = Some r /\ m_phase r = MLost) /\
  (exists s r, mrun [MInitiate 0 req None; MCreate 0 true; MForward 0 true; MPoll None; MPoll (Some (0, ret, None))] (mstart n) = MNext s /\
     nth_error (m_rpcs s) 0 = Some r /\ m_phase r = MLost) /\
  (forall l s l2 s2 i r, mrun l (mstart n) = MNext s -> nth_error (m_rpcs s) i = Some r -> m_phase r = MLost -> mrun l2 s = MNext s2 ->
     exists r2, nth_error (m_rpcs s2) i = Some r2 /\ m_phase r2 = MLost /\ m_calls r2 = []).
Proof.
  intros n req ret Hn. destruct n as [|n]; [lia|].
  split; [eexists _, _; split; [reflexivity|split; reflexivity]|].
  split; [eexists _, _; split; [reflexivity|split; reflexivity]|].
  split; [eexists _, _; split; [reflexivity|split; reflexivity]|].
  intros l s l2 s2 i r R E P R2. pose proof (minv_run l _ _ (minv_start (S n)) R) as I. clear R. revert s r I E P R2.
  induction l2 as [|a l2 IH]; intros s r I E P R2; cbn [mrun] in R2.
  - injection R2 as <-. exists r. split; [exact E|]. split; [exact P|]. pose proof (mi_rpc _ I i r E) as O. unfold mrpc_ok in O. rewrite P in O. tauto.
  - destruct (mstep a s) as [s1| |] eqn:S1; [|discriminate|eauto].
    assert (E1 : nth_error (m_rpcs s1) i = Some r); [|exact (IH s1 r (minv_step a s s1 I S1) E1 P R2)].
    destruct a as [p q o | j ok | j ok | c |]; cbn [mstep] in S1.
    + unfold minitiate in S1. destruct (negb _); [discriminate|]. destruct (_ <? _)%Z; [discriminate|]. destruct (_ <=? _)%Z; [discriminate|].
      injection S1 as <-. apply snoc_old. exact E.
    + unfold mcreate in S1. destruct (nth_error (m_rpcs s) j) as [q|] eqn:F; [|discriminate]. destruct (m_phase q) eqn:Q; try discriminate.
      assert (j <> i) by congruence. destruct ok; injection S1 as <-; cbn [mset_rpc mset_pending m_rpcs]; rewrite lset_neq; auto.
    + unfold mforward in S1. destruct (nth_error (m_rpcs s) j) as [q|] eqn:F; [|discriminate]. destruct (m_phase q) eqn:Q; try discriminate.
      assert (j <> i) by congruence. destruct ok; injection S1 as <-; cbn [mset_rpc mset_pending m_rpcs]; rewrite lset_neq; auto.
    + unfold mpoll in S1. destruct (m_poller s) eqn:Po; [injection S1 as <-; exact E| | |discriminate].
      * destruct c as [[[j rt] out]|]; [|injection S1 as <-; exact E]. destruct (nth_error (m_rpcs s) j) as [q|] eqn:F; [|discriminate].
        destruct (m_phase q) eqn:Q; try discriminate. assert (j <> i) by congruence. injection S1 as <-. unfold mcallback.
        destruct out; cbn [mset_rpc mset_pending mset_poller m_rpcs]; rewrite lset_neq; auto.
      * destruct (nth_error (m_rpcs s) i0) as [q|] eqn:F; [|discriminate]. destruct (mbusy _ _); [discriminate|]. injection S1 as <-.
        destruct (mi_in _ I i0 Po) as (q1 & F1 & Q). assert (i0 <> i) by congruence.
        cbn [mset_rpc mset_pending mset_poller m_rpcs]. rewrite lset_neq; auto.
    + unfold mshutdown in S1. destruct (m_shut s); try (injection S1 as <-; exact E); [destruct (Z.eqb _ _)|destruct (m_poller s)];
        try discriminate; injection S1 as <-; exact E.
Qed.
(** An RPC that Mercury reports as failed is a success for the caller when an
    output can be decoded. *)
Theorem C64_failure_reported_refuted : exists l s r ret out c,
  mrun l (mstart 1) = MNext s /\ nth_error (m_rpcs s) 0 = Some r /\ m_wire r = Some (ret, out) /\ ret <> 0%Z /\
  m_calls r = [c] /\ ms_success c = Some true.
Proof.
  exists [MInitiate 0 sample None; MCreate 0 true; MForward 0 true; MPoll None; MPoll (Some (0, 9%Z, Some []))].
  eexists _, _, 9%Z, (Some []), _. split; [vm_compute; reflexivity|]. split; [reflexivity|]. cbn. repeat split. discriminate.
Qed.
(** An RPC started after the polling thread was told to stop is never completed,
    and a second ShutdownClient (the destructor) waits for ever. *)
Theorem C64_late_refuted : exists l s, mrun l (mstart 1) = MNext s /\ m_shut s = MsSpin /\
  forall l2 s2, (forall a, In a l2 -> exists c, a = MShutdown \/ a = MPoll c) -> mrun l2 s = MNext s2 -> m_shut s2 = MsSpin /\ m_pending s2 = 1%Z.
Proof.
  exists [MShutdown; MShutdown; MShutdown; MPoll None; MShutdown; MInitiate 0 sample None; MCreate 0 true; MForward 0 true; MShutdown].
  eexists. split; [vm_compute; reflexivity|]. split; [reflexivity|]. intro l2. induction l2 as [|a l2 IH]; intros s2 A R; cbn [mrun] in R.
  - injection R as <-. split; reflexivity.
  - destruct (A a (or_introl eq_refl)) as (c & [-> | ->]); cbn in R; apply IH; auto; intros b Hb; apply A; right; exact Hb.
Qed.
(** A callback that starts another RPC while shutdown waits. *)
Definition merc_ex : list maction :=
  [MInitiate 1 sample None; MCreate 0 true; MShutdown; MForward 0 true; MShutdown; MPoll None; MPoll (Some (0, 0%Z, Some (serialize sample)));
   MInitiate 0 empty_grr (Some 0); MCreate 1 true; MPoll None; MForward 1 true; MPoll None; MShutdown; MPoll None; MPoll (Some (1, 0%Z, Some [9%N; 9%N]));
   MPoll None; MShutdown; MShutdown; MPoll None; MShutdown].
Example C64_ex : exists s r0 r1, mrun merc_ex (mstart 2) = MNext s /\ m_rpcs s = [r0; r1] /\ m_shut s = MsDone /\ m_pending s = 0%Z /\
  m_calls r0 = [mkMs sample sample (Some true)] /\ m_calls r1 = [mkMs empty_grr empty_grr (Some false)] /\
  m_parent r1 = Some 0 /\ m_late r0 = false /\ m_late r1 = false.
Proof. eexists _, _, _. split; [vm_compute; reflexivity|]. repeat split. Qed.
Print Assumptions C48_round_trip.
Print Assumptions C48_free.
Print Assumptions C48_message.
Print Assumptions C48_decode_any.
Print Assumptions C48_lengths_checked_refuted.
Print Assumptions C48_truncation_detected_refuted.
Print Assumptions C48_length_bounded_refuted.
Print Assumptions C48_encode_errors_reported_refuted.
Print Assumptions C64_once.
Print Assumptions C64_result.
Print Assumptions C64_pending.
Print Assumptions C64_peers.
Print Assumptions C64_shutdown_waits.
Print Assumptions C64_nested.
Print Assumptions C64_shutdown_possible.
Print Assumptions C64_always_called_refuted.
Print Assumptions C64_failure_reported_refuted.
Print Assumptions C64_late_refuted.
Print Assumptions C48_received.
Print Assumptions C48_sent.
Print Assumptions C64_identity.
