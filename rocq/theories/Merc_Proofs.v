(** Lemmas about the Mercury driver. *)
From Coq Require Import List NArith ZArith Bool Arith Lia.
From Verif Require Import Wire_Model Wire_Proofs2 Wire_Proofs3 Grpc_Model Grpc_Proofs Merc_Model.
Import ListNotations.
Open Scope nat_scope.

(** ** The serializer *)
Definition p63 : N := 9223372036854775808%N.
Lemma le8 v : (v < p63)%N -> le_value (le_bytes 8 v) = v.
Proof. intro H. apply le_value_bytes. change (256 ^ N.of_nat 8)%N with 18446744073709551616%N. unfold p63 in H. lia. Qed.
Lemma resize_same s : resize (length s) s = s.
Proof. unfold resize. rewrite firstn_all, Nat.sub_diag, app_nil_r. reflexivity. Qed.
Lemma resize_length n s : length (resize n s) = n.
Proof. unfold resize. rewrite app_length, firstn_length, repeat_length. lia. Qed.
(** The bytes an encoded string takes. *)
Definition framed (s : bytes) : bytes := le_bytes 8 (N.of_nat (length s)) ++ le_bytes 8 (N.of_nat (length s)) ++ s.
Lemma framed_length s : length (framed s) = 16 + length s.
Proof. unfold framed. rewrite !app_length, !le_bytes_length. lia. Qed.
Lemma encode_int64 buf room v : (v < p63)%N -> exists ok h,
  hg_proc_int64 (mkProc HgEncode buf room) v = (ok, v, mkProc HgEncode (buf ++ h) (room - N.of_nat (length h))) /\
  (N.of_nat (length h) <= room)%N /\ (length h = 0 \/ length h = 8).
Proof.
  intro H. unfold hg_proc_int64, hg_proc_bytes. cbn [p_op p_buf p_room]. rewrite le_bytes_length. destruct (N.leb_spec (N.of_nat 8) room).
  - exists true, (le_bytes 8 v). rewrite le8 by exact H. rewrite le_bytes_length. auto.
  - exists false, []. rewrite le8 by exact H. cbn [length]. rewrite app_nil_r. change (N.of_nat 0) with 0%N. rewrite N.sub_0_r. split; [reflexivity|]. split; [lia|auto].
Qed.
Lemma encode_ok mem buf room s : (N.of_nat (length s) <= mem)%N -> (mem < p63)%N -> (16 + N.of_nat (length s) <= room)%N ->
  generic_rpc_serializer mem (mkProc HgEncode buf room) s
  = SerRet true s (mkProc HgEncode (buf ++ framed s) (room - (16 + N.of_nat (length s)))).
Proof.
  intros M P R. unfold generic_rpc_serializer, hg_proc_int64, hg_proc_bytes. cbn [p_op p_buf p_room]. rewrite !le_bytes_length.
  change (N.of_nat 8) with 8%N.
  replace (8 <=? room)%N with true by (symmetry; apply N.leb_le; lia). cbn [p_op p_buf p_room]. rewrite le8 by lia.
  rewrite !le_bytes_length. change (N.of_nat 8) with 8%N.
  replace (8 <=? room - 8)%N with true by (symmetry; apply N.leb_le; lia). cbn [p_op p_buf p_room]. rewrite le8 by lia.
  replace (mem <? N.of_nat (length s))%N with false by (symmetry; apply N.ltb_ge; lia).
  rewrite Nat2N.id, resize_same. replace (N.of_nat (length s) <=? room - 8 - 8)%N with true by (symmetry; apply N.leb_le; lia).
  unfold framed. rewrite <- !app_assoc. f_equal. f_equal. lia.
Qed.
Lemma firstn_app_exact {A} (a b : list A) : firstn (length a) (a ++ b) = a.
Proof. rewrite firstn_app, firstn_all, Nat.sub_diag. cbn. apply app_nil_r. Qed.
Lemma skipn_app_exact {A} (a b : list A) : skipn (length a) (a ++ b) = b.
Proof. rewrite skipn_app, skipn_all, Nat.sub_diag. reflexivity. Qed.
Lemma read_int64 b rest room w : length b = 8 -> hg_proc_int64 (mkProc HgDecode (b ++ rest) room) w = (true, le_value b, mkProc HgDecode rest room).
Proof.
  intro L. unfold hg_proc_int64, hg_proc_bytes. cbn [p_op p_buf p_room]. rewrite le_bytes_length, app_length, L.
  cbn [Nat.leb Nat.add]. rewrite <- L. rewrite firstn_app_exact, skipn_app_exact. reflexivity.
Qed.
(** Any buffer of at least 16 bytes: only the second length counts. *)
Lemma decode_16 mem b1 b2 body room s0 : length b1 = 8 -> length b2 = 8 ->
  generic_rpc_serializer mem (mkProc HgDecode (b1 ++ b2 ++ body) room) s0
  = (if (mem <? le_value b2)%N then SerThrow
     else if (le_value b2 <=? N.of_nat (length body))%N
          then SerRet true (firstn (N.to_nat (le_value b2)) body) (mkProc HgDecode (skipn (N.to_nat (le_value b2)) body) room)
          else SerRet false (resize (N.to_nat (le_value b2)) s0) (mkProc HgDecode body room)).
Proof.
  intros L1 L2. unfold generic_rpc_serializer. rewrite (read_int64 b1) by exact L1. rewrite (read_int64 b2) by exact L2.
  destruct (mem <? le_value b2)%N; [reflexivity|]. unfold hg_proc_bytes. cbn [p_op p_buf p_room]. rewrite resize_length.
  destruct (N.leb_spec (le_value b2) (N.of_nat (length body))) as [H|H].
  - replace (N.to_nat (le_value b2) <=? length body) with true by (symmetry; apply Nat.leb_le; lia). reflexivity.
  - replace (N.to_nat (le_value b2) <=? length body) with false by (symmetry; apply Nat.leb_gt; lia). reflexivity.
Qed.
Lemma decode_framed mem s rest room s0 : (N.of_nat (length s) <= mem)%N -> (mem < p63)%N ->
  generic_rpc_serializer mem (mkProc HgDecode (framed s ++ rest) room) s0 = SerRet true s (mkProc HgDecode rest room).
Proof.
  intros M P. unfold framed. rewrite <- !app_assoc. rewrite decode_16 by apply le_bytes_length. rewrite le8 by lia.
  replace (mem <? N.of_nat (length s))%N with false by (symmetry; apply N.ltb_ge; lia).
  rewrite app_length. replace (N.of_nat (length s) <=? N.of_nat (length s + length rest))%N with true by (symmetry; apply N.leb_le; lia).
  rewrite Nat2N.id, firstn_app_exact, skipn_app_exact. reflexivity.
Qed.
Lemma free_nothing mem buf room s : (N.of_nat (length s) <= mem)%N -> (mem < p63)%N ->
  generic_rpc_serializer mem (mkProc HgFree buf room) s = SerRet true s (mkProc HgFree buf room).
Proof.
  intros M P. unfold generic_rpc_serializer, hg_proc_int64, hg_proc_bytes. cbn [p_op p_buf p_room].
  assert (L : le_value (le_bytes 8 (N.of_nat (length s))) = N.of_nat (length s)) by (apply le8; lia). rewrite !L. replace (mem <? N.of_nat (length s))%N with false by (symmetry; apply N.ltb_ge; lia).
  rewrite Nat2N.id, resize_same. reflexivity.
Qed.

(** ** The client *)
Definition mheld (r : mrpc) : bool := match m_phase r with MReleased | MLost => false | _ => true end.
Definition mdelivered (given : grr) (str : bytes) : mstate :=
  match parse str with None => mkMs empty_grr empty_grr (Some false) | Some m => mkMs given m (Some true) end.
Definition mrpc_ok (r : mrpc) : Prop :=
  match m_phase r with
  | MStarted => m_state r = mkMs (m_given r) empty_grr None /\ m_calls r = [] /\ m_wire r = None
  | MCreated | MFlying => m_inner r = m_given r /\ m_state r = mkMs empty_grr empty_grr None /\ m_calls r = [] /\ m_wire r = None
  | MCalling | MReleased =>
      exists ret str, m_wire r = Some (ret, Some str) /\ m_state r = mdelivered (m_given r) str /\ m_calls r = [m_state r]
  | MLost => m_calls r = [] /\ (m_wire r = None \/ exists ret, m_wire r = Some (ret, None))
  end.
Record minv (s : mclient) : Prop := {
  mi_pending : m_pending s = Z.of_nat (cnt mheld (m_rpcs s));
  mi_rpc : forall i r, nth_error (m_rpcs s) i = Some r -> mrpc_ok r;
  mi_peer : forall i r, nth_error (m_rpcs s) i = Some r -> m_peer r < m_peers s;
  mi_calling : forall i r, nth_error (m_rpcs s) i = Some r -> m_phase r = MCalling -> m_poller s = MpIn i;
  mi_in : forall i, m_poller s = MpIn i -> exists r, nth_error (m_rpcs s) i = Some r /\ m_phase r = MCalling;
  mi_quiet : passed s = true -> forall i r, nth_error (m_rpcs s) i = Some r -> m_late r = false -> mheld r = false;
  mi_exit : m_poller s = MpExited -> m_notified s = true;
  mi_join : m_notified s = true -> m_shut s = MsJoin \/ m_poller s = MpExited;
  mi_done : m_shut s = MsJoin \/ m_shut s = MsDone -> m_notified s = true;
  mi_late : forall i r j, nth_error (m_rpcs s) i = Some r -> m_parent r = Some j ->
              j < i /\ (forall p, nth_error (m_rpcs s) j = Some p -> m_late p = false -> m_late r = false) }.
Lemma minv_start n : minv (mstart n).
Proof. constructor; cbn; try discriminate; try reflexivity; try (intros [|i]; cbn; discriminate); intuition discriminate. Qed.
Lemma nth_lt {A} (l : list A) i x : nth_error l i = Some x -> i < length l.
Proof. intro E. apply nth_error_Some. congruence. Qed.
Lemma minv_initiate p q o s s' : minv s -> minitiate p q o s = MNext s' -> minv s'.
Proof.
  intros I E. unfold minitiate in E.
  match type of E with (if negb ?b then _ else _) = _ => destruct b eqn:Ok end; cbn [negb] in E; [|discriminate].
  destruct (Z.ltb_spec p 0); [discriminate|]. destruct (Z.leb_spec (Z.of_nat (m_peers s)) p); [discriminate|].
  injection E as <-. destruct I as [Ip Ir Ipe Ic Ii Iq Ie Ij Id Il].
  constructor; cbn [m_pending m_rpcs m_poller m_notified m_shut m_peers]; auto.
  - rewrite cnt_snoc, Ip. cbn [mheld m_phase b2n]. lia.
  - intros i r H1. apply snoc_inv in H1. destruct H1 as [H1|[-> ->]]; [eauto|]. cbn. auto.
  - intros i r H1. apply snoc_inv in H1. destruct H1 as [H1|[-> ->]]; [eauto|]. cbn [m_peer]. lia.
  - intros i r H1 H2. apply snoc_inv in H1. destruct H1 as [H1|[-> ->]]; [eauto|]. discriminate.
  - intros i H1. destruct (Ii i H1) as (r & H2 & H3). exists r. split; [apply snoc_old; exact H2|exact H3].
  - intros H1 i r H2 H3. apply snoc_inv in H2. destruct H2 as [H2|[-> ->]]; [eapply Iq; eassumption|].
    cbn [m_late] in H3. unfold passed in H1, H3. cbn [m_notified m_shut] in H1. congruence.
  - intros i r j H1 H2. apply snoc_inv in H1. destruct H1 as [H1|[-> ->]].
    + destruct (Il i r j H1 H2) as [L H3]. split; [exact L|]. intros p0 H4. apply H3. pose proof (nth_lt _ _ _ H1).
      rewrite nth_error_app1 in H4 by lia. exact H4.
    + cbn [m_parent] in H2. subst o. destruct (nth_error (m_rpcs s) j) as [p1|] eqn:F; [|discriminate].
      split; [apply nth_lt in F; exact F|]. intros p0 H3 L. cbn [m_late]. rewrite (snoc_old _ _ _ _ F) in H3. injection H3 as ->.
      destruct (passed s) eqn:Pa; [|reflexivity]. pose proof (Iq eq_refl j p0 F L) as Hh. unfold mheld in Hh.
      destruct (m_phase p0); discriminate.
Qed.
(** One RPC changes; the counter, the polling thread and the RPC's phase move together. *)
Lemma minv_set s i r r' pend po : minv s -> nth_error (m_rpcs s) i = Some r -> mheld r = true ->
  (forall j, m_poller s = MpIn j -> j = i) -> m_poller s <> MpExited ->
  m_peer r' = m_peer r -> m_parent r' = m_parent r -> m_late r' = m_late r -> mrpc_ok r' ->
  (pend = m_pending s - 1 + Z.of_nat (b2n (mheld r')))%Z ->
  (m_phase r' = MCalling <-> po = MpIn i) -> po <> MpExited -> (forall j, po = MpIn j -> j = i) ->
  minv (mset_poller po (mset_pending pend (mset_rpc i r' s))).
Proof.
  intros I E Hh Hpo Hpe E1 E2 E3 Ok Ep Hc Hx Hj. destruct I as [Ip Ir Ipe Ic Ii Iq Ie Ij Id Il].
  assert (Np : m_notified s = true -> m_shut s = MsJoin) by (intro H; destruct (Ij H); [assumption|contradiction]).
  constructor; cbn [m_pending m_rpcs m_poller m_notified m_shut m_peers mset_poller mset_pending mset_rpc]; auto.
  - pose proof (cnt_lset mheld _ i r r' E) as C. rewrite Hh in C. cbn [b2n] in C. rewrite Ep, Ip. lia.
  - intros j q H. apply lset_inv in H. destruct H as [[-> ->]|[N H]]; [exact Ok|eauto].
  - intros j q H. apply lset_inv in H. destruct H as [[-> ->]|[N H]]; [rewrite E1|]; eauto.
  - intros j q H P. apply lset_inv in H. destruct H as [[-> ->]|[N H]]; [tauto|]. exfalso. apply N. apply Hpo. eapply Ic; eassumption.
  - intros j H. specialize (Hj j H). subst j. exists r'. split; [eapply lset_eq; eassumption|]. tauto.
  - intros H j q H1 H2. apply lset_inv in H1. destruct H1 as [[-> ->]|[N H1]]; [|eapply Iq; eassumption].
    rewrite E3 in H2. pose proof (Iq H i r E H2). congruence.
  - intros j q k H1 H2. apply lset_inv in H1. destruct H1 as [[-> ->]|[N H1]].
    + rewrite E2 in H2. destruct (Il i r k E H2) as [L H3]. split; [exact L|]. intros p H4. rewrite E3. apply lset_inv in H4.
      destruct H4 as [[-> ->]|[N2 H4]]; [lia|]. eauto.
    + destruct (Il j q k H1 H2) as [L H3]. split; [exact L|]. intros p H4. apply lset_inv in H4.
      destruct H4 as [[-> ->]|[N2 H4]]; [rewrite E3; eauto|eauto].
Qed.
Lemma minv_set_same s i r r' pend : minv s -> nth_error (m_rpcs s) i = Some r -> mheld r = true ->
  m_phase r <> MCalling -> m_phase r' <> MCalling ->
  m_peer r' = m_peer r -> m_parent r' = m_parent r -> m_late r' = m_late r -> mrpc_ok r' ->
  (pend = m_pending s - 1 + Z.of_nat (b2n (mheld r')))%Z ->
  minv (mset_pending pend (mset_rpc i r' s)).
Proof.
  intros I E Hh Nc Nc' E1 E2 E3 Ok Ep. destruct I as [Ip Ir Ipe Ic Ii Iq Ie Ij Id Il].
  constructor; cbn [m_pending m_rpcs m_poller m_notified m_shut m_peers mset_poller mset_pending mset_rpc]; auto.
  - pose proof (cnt_lset mheld _ i r r' E) as C. rewrite Hh in C. cbn [b2n] in C. rewrite Ep, Ip. lia.
  - intros j q H. apply lset_inv in H. destruct H as [[-> ->]|[N H]]; [exact Ok|eauto].
  - intros j q H. apply lset_inv in H. destruct H as [[-> ->]|[N H]]; [rewrite E1|]; eauto.
  - intros j q H P. apply lset_inv in H. destruct H as [[-> ->]|[N H]]; [contradiction|]. eapply Ic; eassumption.
  - intros j H. destruct (Ii j H) as (q & H1 & H2). exists q. split; [|exact H2]. rewrite lset_neq; [exact H1|congruence].
  - intros H j q H1 H2. apply lset_inv in H1. destruct H1 as [[-> ->]|[N H1]]; [|eapply Iq; eassumption].
    rewrite E3 in H2. pose proof (Iq H i r E H2). congruence.
  - intros j q k H1 H2. apply lset_inv in H1. destruct H1 as [[-> ->]|[N H1]].
    + rewrite E2 in H2. destruct (Il i r k E H2) as [L H3]. split; [exact L|]. intros p H4. rewrite E3. apply lset_inv in H4.
      destruct H4 as [[-> ->]|[N2 H4]]; [lia|]. eauto.
    + destruct (Il j q k H1 H2) as [L H3]. split; [exact L|]. intros p H4. apply lset_inv in H4.
      destruct H4 as [[-> ->]|[N2 H4]]; [rewrite E3; eauto|eauto].
Qed.
Lemma mset_rpc_same i r s : mset_rpc i r s = mset_pending (m_pending s) (mset_rpc i r s).
Proof. reflexivity. Qed.
Lemma minv_create i ok s s' : minv s -> mcreate i ok s = MNext s' -> minv s'.
Proof.
  intros I E. unfold mcreate in E. destruct (nth_error (m_rpcs s) i) as [r|] eqn:F; [|discriminate].
  destruct (m_phase r) eqn:P; try discriminate. pose proof (mi_rpc _ I i r F) as O. unfold mrpc_ok in O. rewrite P in O.
  destruct O as (O1 & O2 & O3). assert (Hh : mheld r = true) by (unfold mheld; rewrite P; reflexivity).
  assert (Nc : m_phase r <> MCalling) by congruence.
  destruct ok; injection E as <-.
  - rewrite mset_rpc_same. apply (minv_set_same s i r); auto; try discriminate; try reflexivity.
    + cbn. rewrite O1. cbn. auto.
    + cbn. lia.
  - apply (minv_set_same s i r); auto; try discriminate; try reflexivity.
    + cbn. auto.
    + cbn. lia.
Qed.
Lemma minv_forward i ok s s' : minv s -> mforward i ok s = MNext s' -> minv s'.
Proof.
  intros I E. unfold mforward in E. destruct (nth_error (m_rpcs s) i) as [r|] eqn:F; [|discriminate].
  destruct (m_phase r) eqn:P; try discriminate. pose proof (mi_rpc _ I i r F) as O. unfold mrpc_ok in O. rewrite P in O.
  destruct O as (O1 & O2 & O3 & O4). assert (Hh : mheld r = true) by (unfold mheld; rewrite P; reflexivity).
  assert (Nc : m_phase r <> MCalling) by congruence.
  destruct ok; injection E as <-.
  - rewrite mset_rpc_same. apply (minv_set_same s i r); auto; try discriminate; try reflexivity.
    + cbn. auto.
    + cbn. lia.
  - apply (minv_set_same s i r); auto; try discriminate; try reflexivity.
    + cbn. auto.
    + cbn. lia.
Qed.
Lemma minv_poller s po : minv s -> (m_poller s = MpTest \/ m_poller s = MpTrigger) ->
  (forall i, po <> MpIn i) -> (po = MpExited -> m_notified s = true) -> minv (mset_poller po s).
Proof.
  intros I H N X. destruct I as [Ip Ir Ipe Ic Ii Iq Ie Ij Id Il].
  constructor; cbn [m_pending m_rpcs m_poller m_notified m_shut m_peers mset_poller]; auto.
  - intros i r H1 H2. pose proof (Ic i r H1 H2). destruct H; congruence.
  - intros i H1. destruct (N i H1).
  - intro H1. destruct (Ij H1) as [H2|H2]; [auto|]. destruct H; congruence.
Qed.
Lemma minv_poll c s s' : minv s -> mpoll c s = MNext s' -> minv s'.
Proof.
  intros I E. unfold mpoll in E. destruct (m_poller s) eqn:P.
  - injection E as <-. apply minv_poller; auto; destruct (m_notified s); try discriminate; auto.
  - destruct c as [[[i ret] out]|].
    + destruct (nth_error (m_rpcs s) i) as [r|] eqn:F; [|discriminate]. destruct (m_phase r) eqn:Ph; try discriminate.
      pose proof (mi_rpc _ I i r F) as O. unfold mrpc_ok in O. rewrite Ph in O. destruct O as (O1 & O2 & O3 & O4).
      assert (Hh : mheld r = true) by (unfold mheld; rewrite Ph; reflexivity).
      assert (Hp : forall j, m_poller s = MpIn j -> j = i) by congruence. assert (Hx : m_poller s <> MpExited) by congruence.
      injection E as <-. unfold mcallback. destruct out as [str|].
      * match goal with |- minv (mset_poller _ (mset_rpc _ ?r' _)) =>
          change (minv (mset_poller (MpIn i) (mset_pending (m_pending s) (mset_rpc i r' s)))); apply (minv_set s i r) end; auto; try reflexivity; try discriminate.
        -- cbn. exists ret, str. rewrite O2, O1, O3. unfold mdelivered. destruct (parse str); auto.
        -- cbn. lia.
        -- cbn. tauto.
        -- intros j Hj. injection Hj as ->. reflexivity.
      * match goal with |- minv (mset_pending _ (mset_rpc _ ?r' _)) =>
          change (minv (mset_poller MpTest (mset_pending (m_pending s - 1) (mset_rpc i r' s)))); apply (minv_set s i r) end; auto; try reflexivity; try discriminate.
        -- cbn. split; [exact O3|]. right. eauto.
        -- cbn. lia.
        -- cbn. split; discriminate.
    + injection E as <-. apply minv_poller; auto; discriminate.
  - destruct (nth_error (m_rpcs s) i) as [r|] eqn:F; [|discriminate]. destruct (mbusy i (m_rpcs s)); [discriminate|]. injection E as <-.
    destruct (mi_in _ I i P) as (r1 & F1 & Ph). assert (r1 = r) by congruence. subst r1.
    pose proof (mi_rpc _ I i r F) as O. unfold mrpc_ok in O. rewrite Ph in O.
    apply (minv_set s i r); auto; try reflexivity; try discriminate; try congruence.
    + unfold mheld. rewrite Ph. reflexivity.
    + cbn. lia.
    + cbn. split; discriminate.
  - discriminate.
Qed.
Lemma held_none s : minv s -> m_pending s = 0%Z -> forall i r, nth_error (m_rpcs s) i = Some r -> mheld r = false.
Proof. intros I E. pose proof (mi_pending _ I) as P. apply cnt_zero. lia. Qed.
Lemma minv_shutdown s s' : minv s -> mshutdown s = MNext s' -> minv s'.
Proof.
  intros I E. unfold mshutdown in E. pose proof (held_none s I) as Hn. destruct I as [Ip Ir Ipe Ic Ii Iq Ie Ij Id Il].
  destruct (m_shut s) eqn:Sh.
  - injection E as <-. constructor; cbn [m_pending m_rpcs m_poller m_notified m_shut m_peers mset_shut]; auto.
    + unfold passed in *. cbn [m_notified m_shut mset_shut]. rewrite Sh in Iq. exact Iq.
    + intro H. destruct (Ij H) as [H1|H1]; [discriminate|auto].
    + intros [H|H]; discriminate.
  - destruct (Z.eqb_spec (m_pending s) 0) as [Z0|]; [|discriminate]. injection E as <-.
    constructor; cbn [m_pending m_rpcs m_poller m_notified m_shut m_peers mset_shut]; auto.
    + intros _ i r H _. exact (Hn Z0 i r H).
    + intro H. destruct (Ij H) as [H1|H1]; [discriminate|auto].
    + destruct (m_notified s); [auto|]. intros [H|H]; discriminate.
  - injection E as <-. constructor; cbn [m_pending m_rpcs m_poller m_notified m_shut m_peers]; auto.
    unfold passed in *. cbn [m_notified m_shut]. rewrite Sh, orb_true_r in Iq. auto.
  - destruct (m_poller s) eqn:Po; try discriminate. injection E as <-.
    constructor; cbn [m_pending m_rpcs m_poller m_notified m_shut m_peers mset_shut]; auto.
    + rewrite Po. exact Ic.
    + rewrite Po. exact Ii.
    + unfold passed in *. cbn [m_notified m_shut mset_shut]. rewrite Sh in Iq. exact Iq.
  - injection E as <-. constructor; cbn [m_pending m_rpcs m_poller m_notified m_shut m_peers mset_shut]; auto.
    + unfold passed in *. cbn [m_notified m_shut mset_shut]. rewrite Sh in Iq. exact Iq.
    + intro H. destruct (Ij H) as [H1|H1]; [discriminate|auto].
Qed.
Lemma minv_step a s s' : minv s -> mstep a s = MNext s' -> minv s'.
Proof.
  intros I E. destruct a; cbn [mstep] in E; eauto using minv_initiate, minv_create, minv_forward, minv_poll, minv_shutdown.
Qed.
Lemma minv_run l : forall s s', minv s -> mrun l s = MNext s' -> minv s'.
Proof.
  induction l as [|a l IH]; intros s s' I E; cbn [mrun] in E; [congruence|].
  destruct (mstep a s) as [s1| |] eqn:Es; [|discriminate|eauto]. eapply IH; [|exact E]. eapply minv_step; eassumption.
Qed.

(** ** Progress *)
Definition mweight (r : mrpc) : nat :=
  match m_phase r with MStarted => 4 | MCreated => 3 | MFlying => 2 | MCalling => 1 | MReleased | MLost => 0 end.
Definition mwork (s : mclient) : nat :=
  3 * total mweight (m_rpcs s) + match m_poller s with MpTest => 1 | _ => 0 end.
Definition mown (a : maction) : Prop := match a with MCreate _ _ | MForward _ _ | MPoll _ => True | _ => False end.
Lemma own_keeps a s s' : mown a -> mstep a s = MNext s' -> m_notified s' = m_notified s /\ m_shut s' = m_shut s.
Proof.
  intros O E. destruct a as [| i ok | i ok | c |]; try contradiction; cbn [mstep] in E.
  - unfold mcreate in E. destruct (nth_error _ _) as [r|]; [|discriminate]. destruct (m_phase r); try discriminate.
    destruct ok; injection E as <-; auto.
  - unfold mforward in E. destruct (nth_error _ _) as [r|]; [|discriminate]. destruct (m_phase r); try discriminate.
    destruct ok; injection E as <-; auto.
  - unfold mpoll in E. destruct (m_poller s); [injection E as <-; auto| | |discriminate].
    + destruct c as [[[i ret] out]|]; [|injection E as <-; auto]. destruct (nth_error _ _) as [r|]; [|discriminate].
      destruct (m_phase r); try discriminate. injection E as <-. unfold mcallback. destruct out; auto.
    + destruct (nth_error _ _) as [r|]; [|discriminate]. destruct (mbusy _ _); [discriminate|]. injection E as <-. auto.
Qed.
Lemma find_phase (f : mrpc -> bool) l : existsb f l = true -> exists i r, nth_error l i = Some r /\ f r = true.
Proof.
  intro E. apply existsb_exists in E. destruct E as (r & I & F). apply In_nth_error in I. destruct I as (i & I). eauto.
Qed.
Lemma existsb_none {A} (f : A -> bool) l : existsb f l = false -> forall i r, nth_error l i = Some r -> f r = false.
Proof.
  intros E i r H. destruct (f r) eqn:F; [|reflexivity]. assert (existsb f l = true); [|congruence].
  apply existsb_exists. exists r. split; [eapply nth_error_In; exact H|exact F].
Qed.
Definition in_phase (p : mphase) (r : mrpc) : bool :=
  match p, m_phase r with MStarted, MStarted | MCreated, MCreated | MFlying, MFlying | MCalling, MCalling => true | _, _ => false end.
Lemma one_step s : minv s -> m_notified s = false -> existsb mheld (m_rpcs s) = true ->
  exists a s', mown a /\ mstep a s = MNext s' /\ mwork s' < mwork s.
Proof.
  intros I Nn H. destruct (existsb (in_phase MStarted) (m_rpcs s)) eqn:E1.
  { apply find_phase in E1. destruct E1 as (i & r & F & P). unfold in_phase in P. destruct (m_phase r) eqn:Ph; try discriminate.
    eexists (MCreate i true), _. split; [exact Logic.I|]. cbn [mstep]. unfold mcreate. rewrite F, Ph. split; [reflexivity|].
    unfold mwork. cbn [mset_rpc m_rpcs m_poller].
    match goal with |- context [lset i ?r' _] => pose proof (total_lset mweight _ i r r' F) as T end.
    unfold mweight at 2 4 in T. rewrite Ph in T. cbn [m_phase] in T. lia. }
  destruct (existsb (in_phase MCreated) (m_rpcs s)) eqn:E2.
  { apply find_phase in E2. destruct E2 as (i & r & F & P). unfold in_phase in P. destruct (m_phase r) eqn:Ph; try discriminate.
    eexists (MForward i true), _. split; [exact Logic.I|]. cbn [mstep]. unfold mforward. rewrite F, Ph. split; [reflexivity|].
    unfold mwork. cbn [mset_rpc m_rpcs m_poller].
    match goal with |- context [lset i ?r' _] => pose proof (total_lset mweight _ i r r' F) as T end.
    unfold mweight at 2 4 in T. rewrite Ph in T. cbn [m_phase mset_phase] in T. lia. }
  assert (Nb : forall i, mbusy i (m_rpcs s) = false).
  { intro i. destruct (mbusy i (m_rpcs s)) eqn:E; [|reflexivity]. unfold mbusy in E. apply find_phase in E. destruct E as (j & r & F & P).
    apply andb_true_iff in P. destruct P as [_ P].
    pose proof (existsb_none _ _ E1 j r F) as N1. pose proof (existsb_none _ _ E2 j r F) as N2. unfold in_phase in *.
    destruct (m_phase r); discriminate. }
  destruct (m_poller s) eqn:Po.
  - eexists (MPoll None), _. split; [exact Logic.I|]. cbn [mstep]. unfold mpoll. rewrite Po, Nn. split; [reflexivity|].
    unfold mwork. rewrite Po. cbn [mset_poller m_rpcs m_poller]. lia.
  - apply find_phase in H. destruct H as (i & r & F & P). unfold mheld in P.
    pose proof (existsb_none _ _ E1 i r F) as N1. pose proof (existsb_none _ _ E2 i r F) as N2. unfold in_phase in N1, N2.
    destruct (m_phase r) eqn:Ph; try discriminate.
    + eexists (MPoll (Some (i, 0%Z, None))), _. split; [exact Logic.I|]. cbn [mstep]. unfold mpoll. rewrite Po, F, Ph. split; [reflexivity|].
      unfold mwork, mcallback. rewrite Po. cbn [mset_rpc mset_poller mset_pending m_rpcs m_poller].
      match goal with |- context [lset i ?r' _] => pose proof (total_lset mweight _ i r r' F) as T end.
      unfold mweight at 2 4 in T. rewrite Ph in T. cbn [m_phase] in T. lia.
    + pose proof (mi_calling _ I i r F Ph). congruence.
  - destruct (mi_in _ I i Po) as (r & F & Ph).
    eexists (MPoll None), _. split; [exact Logic.I|]. cbn [mstep]. unfold mpoll. rewrite Po, F, Nb. split; [reflexivity|].
    unfold mwork. rewrite Po. cbn [mset_rpc mset_poller mset_pending m_rpcs m_poller].
    match goal with |- context [lset i ?r' _] => pose proof (total_lset mweight _ i r r' F) as T end.
    unfold mweight at 2 4 in T. rewrite Ph in T. cbn [m_phase mset_phase] in T. lia.
  - pose proof (mi_exit _ I Po). congruence.
Qed.
Lemma mrun_app l1 : forall l2 s s1, mrun l1 s = MNext s1 -> mrun (l1 ++ l2) s = mrun l2 s1.
Proof.
  induction l1 as [|a l IH]; intros l2 s s1 E; cbn [mrun app] in *; [congruence|].
  destruct (mstep a s); [eauto|discriminate|eauto].
Qed.
Lemma can_complete n : forall s, mwork s < n -> minv s -> m_notified s = false ->
  exists l s', Forall mown l /\ mrun l s = MNext s' /\ m_notified s' = false /\ m_shut s' = m_shut s /\
    forall i r, nth_error (m_rpcs s') i = Some r -> mheld r = false.
Proof.
  induction n as [|n IH]; intros s L I N; [lia|]. destruct (existsb mheld (m_rpcs s)) eqn:E.
  - destruct (one_step s I N E) as (a & s1 & O & S1 & W). destruct (own_keeps a s s1 O S1) as [K1 K2].
    destruct (IH s1) as (l & s2 & Fl & R & Nn & Sh & A); [lia|eapply minv_step; eassumption|congruence|].
    exists (a :: l), s2. split; [constructor; assumption|]. cbn [mrun]. rewrite S1. repeat split; auto. congruence.
  - exists [], s. repeat split; auto. exact (existsb_none _ _ E).
Qed.
Lemma no_pending_z s : minv s -> (forall i r, nth_error (m_rpcs s) i = Some r -> mheld r = false) -> m_pending s = 0%Z.
Proof.
  intros I A. rewrite (mi_pending _ I). destruct (cnt mheld (m_rpcs s)) eqn:C; [reflexivity|]. exfalso.
  unfold cnt in C. destruct (filter mheld (m_rpcs s)) as [|r q] eqn:F; [discriminate|].
  assert (In r (filter mheld (m_rpcs s))) as In1 by (rewrite F; left; reflexivity). apply filter_In in In1. destruct In1 as [In1 In2].
  apply In_nth_error in In1. destruct In1 as (i & In1). rewrite (A i r In1) in In2. discriminate.
Qed.
(** The polling thread is not inside a callback and is told to stop. *)
Lemma can_join s : minv s -> m_shut s = MsJoin -> (forall i r, nth_error (m_rpcs s) i = Some r -> mheld r = false) ->
  exists l s', mrun l s = MNext s' /\ m_shut s' = MsDone /\ m_rpcs s' = m_rpcs s.
Proof.
  intros I Sh A. pose proof (mi_done _ I (or_introl Sh)) as N. destruct (m_poller s) eqn:Po.
  - exists [MPoll None; MShutdown]. eexists. cbn [mrun mstep]. unfold mpoll. rewrite Po, N. cbn [mrun mstep]. unfold mshutdown.
    cbn [m_shut mset_poller]. rewrite Sh. cbn [m_poller]. split; [reflexivity|]. auto.
  - exists [MPoll None; MPoll None; MShutdown]. eexists. cbn [mrun mstep]. unfold mpoll at 1. rewrite Po. cbn [mrun mstep].
    unfold mpoll. cbn [m_poller mset_poller m_notified]. rewrite N. unfold mshutdown.
    cbn [m_shut mset_poller]. rewrite Sh. cbn [m_poller]. split; [reflexivity|]. auto.
  - destruct (mi_in _ I i Po) as (r & F & Ph). pose proof (A i r F) as H. unfold mheld in H. rewrite Ph in H. discriminate.
  - exists [MShutdown]. eexists. cbn [mrun mstep]. unfold mshutdown. rewrite Sh, Po. split; [reflexivity|]. auto.
Qed.
Lemma can_notify s : minv s -> m_shut s = MsNotify -> (forall i r, nth_error (m_rpcs s) i = Some r -> mheld r = false) ->
  exists l s', mrun l s = MNext s' /\ m_shut s' = MsDone /\ m_rpcs s' = m_rpcs s.
Proof.
  intros I Sh A. assert (Q : mshutdown s = MNext (mkMclient (m_peers s) (m_pending s) (m_rpcs s) (m_poller s) true MsJoin))
    by (unfold mshutdown; rewrite Sh; reflexivity).
  destruct (can_join _ (minv_shutdown s _ I Q) eq_refl A) as (l & s' & R & S1 & S2). exists (MShutdown :: l), s'.
  cbn [mrun mstep]. rewrite Q. auto.
Qed.
Lemma can_spin s : minv s -> m_shut s = MsSpin -> (forall i r, nth_error (m_rpcs s) i = Some r -> mheld r = false) ->
  exists l s', mrun l s = MNext s' /\ m_shut s' = MsDone /\ m_rpcs s' = m_rpcs s.
Proof.
  intros I Sh A. assert (Q : mshutdown s = MNext (mset_shut (if m_notified s then MsDone else MsNotify) s))
    by (unfold mshutdown; rewrite Sh, (no_pending_z s I A); reflexivity).
  destruct (m_notified s) eqn:N.
  - exists [MShutdown]. eexists. cbn [mrun mstep]. rewrite Q. auto.
  - destruct (can_notify _ (minv_shutdown s _ I Q) eq_refl A) as (l & s' & R & S1 & S2). exists (MShutdown :: l), s'.
    cbn [mrun mstep]. rewrite Q. auto.
Qed.
Lemma can_shutdown s : minv s -> (forall i r, nth_error (m_rpcs s) i = Some r -> m_late r = false) -> m_shut s <> MsNot ->
  exists l s', mrun l s = MNext s' /\ m_shut s' = MsDone /\ forall i r, nth_error (m_rpcs s') i = Some r -> mheld r = false.
Proof.
  intros I L Ns. destruct (m_shut s) eqn:Sh; [contradiction| | | |].
  - destruct (m_notified s) eqn:N.
    + assert (A : forall i r, nth_error (m_rpcs s) i = Some r -> mheld r = false)
        by (intros i r H; apply (mi_quiet _ I) with i; [unfold passed; rewrite N; reflexivity|exact H|eapply L; exact H]).
      destruct (can_spin s I Sh A) as (l & s' & R & S1 & S2). exists l, s'. rewrite S2. auto.
    + destruct (can_complete (S (mwork s)) s (Nat.lt_succ_diag_r _) I N) as (l1 & s1 & _ & R1 & N1 & Sh1 & A1).
      pose proof (minv_run l1 s s1 I R1) as I1. destruct (can_spin s1 I1 (eq_trans Sh1 Sh) A1) as (l & s' & R & S1 & S2).
      exists (l1 ++ l), s'. rewrite (mrun_app l1 l s s1 R1). rewrite S2. auto.
  - assert (A : forall i r, nth_error (m_rpcs s) i = Some r -> mheld r = false)
      by (intros i r H; apply (mi_quiet _ I) with i; [unfold passed; rewrite Sh; apply orb_true_r|exact H|eapply L; exact H]).
    destruct (can_notify s I Sh A) as (l & s' & R & S1 & S2). exists l, s'. rewrite S2. auto.
  - pose proof (mi_done _ I (or_introl Sh)) as N.
    assert (A : forall i r, nth_error (m_rpcs s) i = Some r -> mheld r = false)
      by (intros i r H; apply (mi_quiet _ I) with i; [unfold passed; rewrite N; reflexivity|exact H|eapply L; exact H]).
    destruct (can_join s I Sh A) as (l & s' & R & S1 & S2). exists l, s'. rewrite S2. auto.
  - pose proof (mi_done _ I (or_intror Sh)) as N. exists [], s. repeat split; auto.
    intros i r H. apply (mi_quiet _ I) with i; [unfold passed; rewrite N; reflexivity|exact H|eapply L; exact H].
Qed.
