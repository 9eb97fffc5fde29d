(** Lemmas about the Homa driver: messages and the client. *)
From Coq Require Import List NArith ZArith Bool Arith Lia.
From Verif Require Import Wire_Model Wire_Proofs2 Wire_Proofs3 Wire_Proofs4 Grpc_Model Grpc_Proofs Homa_Model.
Import ListNotations.
Open Scope nat_scope.

(** ** Messages *)
Lemma placeholder_not_a_message : parse placeholder = None.
Proof. reflexivity. Qed.
Lemma not_placeholder m c : grr_ok m -> serialize_to_cord m c <> placeholder.
Proof. intros G E. pose proof (parse_serialize_to_cord m c G) as P. rewrite E in P. discriminate. Qed.
Lemma cord_size m c : Z.of_nat (length (serialize_to_cord m c)) = byte_size m.
Proof. unfold byte_size. rewrite serialize_to_cord_length. reflexivity. Qed.
Lemma request_wire m c : request_on_wire c m = Some (response_on_wire c m).
Proof.
  unfold request_on_wire, response_on_wire. rewrite cord_size, Z.eqb_refl. destruct (serialize_to_cord m c); reflexivity.
Qed.
Lemma cord_empty m c : grr_ok m -> serialize_to_cord m c = [] -> m = empty_grr.
Proof. intros G E. pose proof (parse_serialize_to_cord m c G) as P. rewrite E in P. cbn in P. congruence. Qed.
Lemma slow_other x : x <> placeholder -> slow_parse x =
  (if (rx_buf_size <? N.of_nat (length x))%N then HpCrash
   else match parse x with Some g => HpRet true g | None => HpRet false empty_grr end).
Proof.
  intro N. unfold slow_parse. destruct x as [|b [|b2 r]]; [reflexivity| |].
  - destruct b as [|p]; [reflexivity|]. do 3 (destruct p as [p|p|]; try reflexivity). exfalso. apply N. reflexivity.
  - destruct b as [|p]; [reflexivity|]. do 3 (destruct p as [p|p|]; try reflexivity).
Qed.
Lemma slow_ok m c : grr_ok m -> (Z.to_N (byte_size m) <= rx_buf_size)%N -> slow_parse (response_on_wire c m) = HpRet true m.
Proof.
  intros G L. unfold response_on_wire. destruct (serialize_to_cord m c) as [|b r] eqn:E.
  - rewrite (cord_empty m c G E). reflexivity.
  - rewrite slow_other by (rewrite <- E; apply not_placeholder; exact G).
    assert (Le : (N.of_nat (length (b :: r)) <= rx_buf_size)%N) by (rewrite <- E; pose proof (cord_size m c); lia).
    replace (rx_buf_size <? N.of_nat (length (b :: r)))%N with false by (symmetry; apply N.ltb_ge; exact Le).
    rewrite <- E, parse_serialize_to_cord by exact G. reflexivity.
Qed.
Lemma fast_empty contiguous : 0 < contiguous 0 -> fast_parse placeholder contiguous = FpRet true empty_grr.
Proof. intro H. unfold fast_parse. destruct (contiguous 0) as [|k]; [lia|]. cbn [firstn placeholder]. destruct k; reflexivity. Qed.
(** A message of at most 4096 bytes that lies in one piece. *)
Lemma fast_small m contiguous c : grr_ok m -> (Z.to_N (byte_size m) <= 4096)%N -> (Z.to_nat (byte_size m) <= contiguous 0) -> 0 < contiguous 0 ->
  fast_parse (response_on_wire c m) contiguous = FpRet true m.
Proof.
  intros G L C C0. unfold response_on_wire. destruct (serialize_to_cord m c) as [|b r] eqn:E.
  - rewrite (cord_empty m c G E). apply fast_empty. exact C0.
  - pose proof (cord_size m c) as S. rewrite E in S. pose proof (not_placeholder m c G) as N. rewrite E in N.
    unfold fast_parse. rewrite firstn_all2 by lia. cbv zeta.
    assert (Np : Nat.eqb (length (b :: r)) 1 && match b :: r with [7%N] => true | _ => false end = false).
    { destruct r as [|b2 r]; [|reflexivity]. cbn [length Nat.eqb andb]. destruct b as [|p]; [reflexivity|].
      do 3 (destruct p as [p|p|]; try reflexivity). exfalso. apply N. reflexivity. }
    rewrite Np. replace (length (b :: r) <=? N.to_nat 4096) with true by (symmetry; apply Nat.leb_le; lia).
    rewrite Nat.eqb_refl. cbn [andb]. rewrite <- E, parse_serialize_to_cord by exact G. reflexivity.
Qed.
Lemma wire_same m meta hdr p c : grr_ok m -> payload_last m meta hdr p -> response_on_wire c m = serialize m.
Proof.
  intros G (Hp & H1 & H2 & Hm & Hh). unfold response_on_wire. rewrite serialize_to_cord_same by auto.
  destruct (serialize m) eqn:E; [|reflexivity]. exfalso.
  pose proof (parse_serialize_to_cord m false G) as P. unfold serialize_to_cord in P. rewrite E in P. cbn in P. injection P as <-. discriminate.
Qed.
(** The pieces of a message. *)
Lemma collect_none n msg contiguous : (forall o, o <= length msg -> o + contiguous o <= length msg) ->
  forall o acc, o <= length msg -> ~ delivered contiguous n o (length msg) -> collect_chunks n msg contiguous o acc = None.
Proof.
  intro H. induction n as [|k IH]; intros o acc L N; cbn [collect_chunks delivered] in *; [reflexivity|].
  pose proof (H o L). destruct (Nat.eqb_spec (o + contiguous o) (length msg)) as [E|E]; [exfalso; apply N; left; exact E|].
  apply IH; [lia|]. intro D. apply N. right. split; [lia|exact D].
Qed.

(** ** The client *)
Definition hheld (r : hrpc) : bool :=
  match h_phase r with HCounted | HFlying | HArrived _ | HServing | HForgotten => true | HSendFailed | HOver => false end.
Definition hanswer (nocopy : bool) (o : outcome) (st : hstate) : Prop :=
  match o with
  | OReply msg contiguous errno =>
      if errno || Nat.eqb (length msg) 0 then st = mkHs None (Some false)
      else exists ok m, homa_parse nocopy msg contiguous = HpRet ok m /\ st = mkHs (Some (ok, m)) (Some true)
  | OError => False
  end.
Definition hrpc_ok (nocopy : bool) (r : hrpc) : Prop :=
  match h_phase r with
  | HCounted | HFlying | HSendFailed => h_state r = mkHs None None /\ h_calls r = [] /\ h_wire r = None
  | HArrived o => h_state r = mkHs None None /\ h_calls r = [] /\ h_wire r = Some o
  | HServing => exists o, h_wire r = Some o /\ h_calls r = [h_state r] /\ hanswer nocopy o (h_state r)
  | HOver => h_calls r = [h_state r] /\
             ((h_wire r = None /\ h_state r = mkHs None (Some false)) \/ exists o, h_wire r = Some o /\ hanswer nocopy o (h_state r))
  | HForgotten => h_calls r = [] /\ h_wire r = Some OError
  end.
Record hinv (nocopy : bool) (s : hclient) : Prop := {
  hi_pending : hc_pending s = Z.of_nat (cnt hheld (hc_rpcs s));
  hi_rpc : forall i r, nth_error (hc_rpcs s) i = Some r -> hrpc_ok nocopy r;
  hi_serve : forall t i, nth_error (hc_threads s) t = Some (HtServe i) ->
     exists r, nth_error (hc_rpcs s) i = Some r /\ h_phase r = HServing;
  hi_served : forall i r, nth_error (hc_rpcs s) i = Some r -> h_phase r = HServing -> exists t, nth_error (hc_threads s) t = Some (HtServe i);
  hi_one : forall t u i, nth_error (hc_threads s) t = Some (HtServe i) -> nth_error (hc_threads s) u = Some (HtServe i) -> t = u;
  hi_quiet : hc_shut s = HsClosed -> forall i r, nth_error (hc_rpcs s) i = Some r -> h_late r = false -> hheld r = false;
  hi_notified : hc_notified s = true <-> hc_shut s <> HsNot;
  hi_exit : forall t, nth_error (hc_threads s) t = Some HtExited -> hc_notified s = true;
  hi_join : forall t, match hc_shut s with HsJoin k => t < k | HsSpin | HsClosed => True | _ => False end ->
     forall h, nth_error (hc_threads s) t = Some h -> h = HtExited }.
Lemma hinv_start nocopy n : hinv nocopy (hstart n).
Proof.
  assert (R : forall t h, nth_error (repeat HtTest n) t = Some h -> h = HtTest)
    by (intros t h E; apply nth_error_In in E; apply repeat_spec in E; exact E).
  constructor; cbn [hstart hc_pending hc_rpcs hc_threads hc_shut hc_notified]; auto; try discriminate; try (intros [|i]; discriminate).
  - intros t i E. apply R in E. discriminate.
  - intros t u i E. apply R in E. discriminate.
  - split; [discriminate|intro H; destruct H; reflexivity].
  - intros t E. apply R in E. discriminate.
  - contradiction.
Qed.
Lemma hinv_initiate nocopy s s' : hinv nocopy s -> hinitiate s = HNext s' -> hinv nocopy s'.
Proof.
  intros [Ip Ir Is Iv I1 Iq In Ie Ij] E. injection E as <-.
  constructor; cbn [hc_pending hc_rpcs hc_threads hc_shut hc_notified]; auto.
  - rewrite cnt_snoc, Ip. cbn [hheld h_phase b2n]. lia.
  - intros i r H. apply snoc_inv in H. destruct H as [H|[-> ->]]; [eauto|]. cbn. auto.
  - intros t i H. destruct (Is t i H) as (r & H1 & H2). exists r. split; [apply snoc_old; exact H1|exact H2].
  - intros i r H P. apply snoc_inv in H. destruct H as [H|[-> ->]]; [eauto|discriminate].
  - intros H i r H1 H2. apply snoc_inv in H1. destruct H1 as [H1|[-> ->]]; [eauto|].
    cbn [h_late] in H2. unfold hpassed in H2. rewrite H in H2. discriminate.
Qed.
(** One RPC and one thread move; [ths] are the threads afterwards. *)
Lemma hinv_move nocopy s i r r' pend ths wake : hinv nocopy s -> nth_error (hc_rpcs s) i = Some r ->
  hrpc_ok nocopy r' -> h_late r' = h_late r ->
  (pend = hc_pending s - Z.of_nat (b2n (hheld r)) + Z.of_nat (b2n (hheld r')))%Z -> (hheld r = false -> hheld r' = false) ->
  (forall t j, nth_error ths t = Some (HtServe j) -> (j = i /\ h_phase r' = HServing) \/ (j <> i /\ nth_error (hc_threads s) t = Some (HtServe j))) ->
  (h_phase r' = HServing -> exists t, nth_error ths t = Some (HtServe i)) ->
  (forall t j, j <> i -> nth_error (hc_threads s) t = Some (HtServe j) -> nth_error ths t = Some (HtServe j)) ->
  (forall t u, nth_error ths t = Some (HtServe i) -> nth_error ths u = Some (HtServe i) -> t = u) ->
  (forall t, nth_error ths t = Some HtExited <-> nth_error (hc_threads s) t = Some HtExited) -> length ths = length (hc_threads s) ->
  hinv nocopy (mkHclient pend (lset i r' (hc_rpcs s)) ths wake (hc_notified s) (hc_shut s)).
Proof.
  intros [Ip Ir Is Iv I1 Iq In Ie Ij] E Ok El Ep Hh T1 T2 T3 T4 T5 T6.
  constructor; cbn [hc_pending hc_rpcs hc_threads hc_shut hc_notified]; auto.
  - pose proof (cnt_lset hheld _ i r r' E). lia.
  - intros j q H. apply lset_inv in H. destruct H as [[-> ->]|[N H]]; eauto.
  - intros t j H. destruct (T1 t j H) as [[-> P]|[N H1]]; [exists r'; split; [eapply lset_eq; exact E|exact P]|].
    destruct (Is t j H1) as (q & Q & P). exists q. rewrite lset_neq by exact N. auto.
  - intros j q H P. apply lset_inv in H. destruct H as [[-> ->]|[N H]]; [auto|]. destruct (Iv j q H P) as (t & Ht). exists t. auto.
  - intros t u j Ht Hu. destruct (Nat.eq_dec j i) as [->|N]; [auto|].
    destruct (T1 t j Ht) as [[]|[_ Ht1]]; [contradiction|]. destruct (T1 u j Hu) as [[]|[_ Hu1]]; [contradiction|]. eauto.
  - intros H j q H1 H2. apply lset_inv in H1. destruct H1 as [[-> ->]|[N H1]]; [|eauto]. apply Hh. rewrite El in H2. eauto.
  - intros t H. apply (Ie t). apply T5. exact H.
  - intros t H h Hh1. destruct (nth_error (hc_threads s) t) as [h0|] eqn:Ft.
    + pose proof (Ij t H h0 Ft) as ->. apply T5 in Ft. congruence.
    + apply nth_error_None in Ft. assert (t < length ths) by (apply nth_error_Some; congruence). lia.
Qed.
Lemma hinv_rpc nocopy s i r r' pend : hinv nocopy s -> nth_error (hc_rpcs s) i = Some r ->
  hrpc_ok nocopy r' -> h_late r' = h_late r -> h_phase r <> HServing -> h_phase r' <> HServing ->
  (pend = hc_pending s - Z.of_nat (b2n (hheld r)) + Z.of_nat (b2n (hheld r')))%Z -> (hheld r = false -> hheld r' = false) ->
  hinv nocopy (hset_pending pend (hset_rpc i r' s)).
Proof.
  intros I E Ok El N1 N2 Ep Hh. unfold hset_pending, hset_rpc. cbn [hc_rpcs hc_threads hc_wake hc_notified hc_shut].
  assert (NS : forall t, nth_error (hc_threads s) t <> Some (HtServe i)).
  { intros t Ht. destruct (hi_serve _ _ I t i Ht) as (q & Q & P). congruence. }
  apply (hinv_move nocopy s i r); auto.
  - intros t j H. right. split; [|exact H]. intros ->. exact (NS t H).
  - intro H. contradiction.
  - intros t u Ht. destruct (NS t Ht).
  - tauto.
Qed.
Lemma hset_rpc_p i r s : hset_rpc i r s = hset_pending (hc_pending s) (hset_rpc i r s).
Proof. reflexivity. Qed.
Lemma hinv_send nocopy i ok s s' : hinv nocopy s -> hsend i ok s = HNext s' -> hinv nocopy s'.
Proof.
  intros I E. unfold hsend in E. destruct (nth_error (hc_rpcs s) i) as [r|] eqn:F; [|discriminate].
  destruct (h_phase r) eqn:P; try discriminate. pose proof (hi_rpc _ _ I i r F) as O. unfold hrpc_ok in O. rewrite P in O.
  assert (Hh : hheld r = true) by (unfold hheld; rewrite P; reflexivity). assert (Ns : h_phase r <> HServing) by congruence.
  destruct ok; injection E as <-; [rewrite hset_rpc_p|]; apply (hinv_rpc nocopy s i r); auto; try discriminate; rewrite Hh; cbn; lia.
Qed.
Lemma hinv_fail nocopy i s s' : hinv nocopy s -> hfail i s = HNext s' -> hinv nocopy s'.
Proof.
  intros I E. unfold hfail in E. destruct (nth_error (hc_rpcs s) i) as [r|] eqn:F; [|discriminate].
  destruct (h_phase r) eqn:P; try discriminate. pose proof (hi_rpc _ _ I i r F) as O. unfold hrpc_ok in O. rewrite P in O. destruct O as (O1 & O2 & O3).
  assert (Hh : hheld r = false) by (unfold hheld; rewrite P; reflexivity). assert (Ns : h_phase r <> HServing) by congruence.
  injection E as <-. rewrite hset_rpc_p. apply (hinv_rpc nocopy s i r); auto; try discriminate.
  - cbn. rewrite O1, O2. cbn. auto.
  - rewrite Hh. cbn. lia.
Qed.
Lemma hinv_kernel nocopy i o s s' : hinv nocopy s -> hkernel i o s = HNext s' -> hinv nocopy s'.
Proof.
  intros I E. unfold hkernel in E. destruct (nth_error (hc_rpcs s) i) as [r|] eqn:F; [|discriminate].
  destruct (h_phase r) eqn:P; try discriminate. pose proof (hi_rpc _ _ I i r F) as O. unfold hrpc_ok in O. rewrite P in O. destruct O as (O1 & O2 & O3).
  assert (Hh : hheld r = true) by (unfold hheld; rewrite P; reflexivity). assert (Ns : h_phase r <> HServing) by congruence.
  injection E as <-. rewrite hset_rpc_p. apply (hinv_rpc nocopy s i r); auto; try discriminate.
  - cbn. auto.
  - rewrite Hh. cbn. lia.
  - rewrite Hh. discriminate.
Qed.
(** Thread [t], not serving and still running, becomes [h]. *)
Lemma exited_lset ths t h0 h u : nth_error ths t = Some h0 -> h0 <> HtExited -> h <> HtExited ->
  nth_error (lset t h ths) u = Some HtExited <-> nth_error ths u = Some HtExited.
Proof.
  intros E N1 N2. destruct (Nat.eq_dec u t) as [->|N]; [|rewrite lset_neq by exact N; tauto].
  rewrite (lset_eq ths t h h0 E), E. split; congruence.
Qed.
Lemma hinv_thread nocopy s t h0 h wake : hinv nocopy s -> nth_error (hc_threads s) t = Some h0 ->
  (forall i, h0 <> HtServe i) -> h0 <> HtExited -> (forall i, h <> HtServe i) -> (h = HtExited -> hc_notified s = true) ->
  hinv nocopy (mkHclient (hc_pending s) (hc_rpcs s) (lset t h (hc_threads s)) wake (hc_notified s) (hc_shut s)).
Proof.
  intros [Ip Ir Is Iv I1 Iq In Ie Ij] E N0 N1 N2 X. constructor; cbn [hc_pending hc_rpcs hc_threads hc_shut hc_notified]; auto.
  - intros u i H. apply lset_inv in H. destruct H as [[-> H]|[N H]]; [destruct (N2 i); auto|eauto].
  - intros i r H P. destruct (Iv i r H P) as (u & U). exists u. rewrite lset_neq; [exact U|]. intros ->. rewrite E in U. injection U as U. exact (N0 i U).
  - intros u v i U V. apply lset_inv in U. destruct U as [[-> U]|[_ U]]; [destruct (N2 i); auto|].
    apply lset_inv in V. destruct V as [[-> V]|[_ V]]; [destruct (N2 i); auto|eauto].
  - intros u U. apply lset_inv in U. destruct U as [[-> U]|[_ U]]; eauto.
  - intros u H g G. apply lset_inv in G. destruct G as [[-> G]|[_ G]]; [|eauto]. pose proof (Ij t H h0 E). contradiction.
Qed.
Lemma hinv_thread_step nocopy t c s s' : hinv nocopy s -> hthread_step nocopy t c s = HNext s' -> hinv nocopy s'.
Proof.
  intros I E. unfold hthread_step in E. destruct (nth_error (hc_threads s) t) as [h0|] eqn:Ht; [|discriminate]. destruct h0 as [| |i|]; [| | |discriminate].
  - injection E as <-. unfold hset_thread. apply (hinv_thread nocopy s t HtTest); auto; try discriminate.
    + intro i. destruct (_ || _); discriminate.
    + intro H. destruct (hc_notified s); [reflexivity|discriminate].
  - destruct c as [i|].
    + destruct (nth_error (hc_rpcs s) i) as [r|] eqn:F; [|discriminate]. destruct (h_phase r) as [| |o| | | |] eqn:P; try discriminate.
      pose proof (hi_rpc _ _ I i r F) as O. unfold hrpc_ok in O. rewrite P in O. destruct O as (O1 & O2 & O3).
      assert (Hh : hheld r = true) by (unfold hheld; rewrite P; reflexivity).
      assert (NS : forall u, nth_error (hc_threads s) u <> Some (HtServe i)).
      { intros u Hu. destruct (hi_serve _ _ I u i Hu) as (q & Q & P2). congruence. }
      assert (Serve : forall st, hanswer nocopy o st ->
        hinv nocopy (hset_thread t (HtServe i) (hset_rpc i (mkHrpc HServing st (st :: h_calls r) (h_wire r) (h_late r)) s))).
      { intros st A. unfold hset_thread, hset_rpc. cbn [hc_pending hc_rpcs hc_threads hc_wake hc_notified hc_shut].
        apply (hinv_move nocopy s i r); auto.
        - cbn. exists o. rewrite O2. auto.
        - rewrite Hh. cbn. lia.
        - rewrite Hh. discriminate.
        - intros u j U. apply lset_inv in U. destruct U as [[-> U]|[N U]]; [injection U as ->; auto|].
          right. split; [|exact U]. intros ->. exact (NS u U).
        - intros _. exists t. eapply lset_eq. exact Ht.
        - intros u j N U. rewrite lset_neq; [exact U|]. intros ->. congruence.
        - intros u v U V. apply lset_inv in U. destruct U as [[-> _]|[_ U]]; [|destruct (NS u U)].
          apply lset_inv in V. destruct V as [[-> _]|[_ V]]; [reflexivity|destruct (NS v V)].
        - intro u. apply (exited_lset _ _ HtReceive); [exact Ht|discriminate|discriminate].
        - apply lset_length. }
      unfold hreceived in E. rewrite O1 in E. cbn [hs_response] in E. destruct o as [msg contiguous errno|].
      * destruct (errno || Nat.eqb (length msg) 0) eqn:Z.
        -- injection E as <-. apply Serve. unfold hanswer. rewrite Z. reflexivity.
        -- destruct (homa_parse nocopy msg contiguous) as [|ok m] eqn:Pa; [discriminate|]. injection E as <-. apply Serve. unfold hanswer. rewrite Z. eauto.
      * injection E as <-. unfold hset_thread, hset_rpc. cbn [hc_pending hc_rpcs hc_threads hc_wake hc_notified hc_shut].
        apply (hinv_move nocopy s i r); auto.
        -- cbn. auto.
        -- rewrite Hh. cbn. lia.
        -- rewrite Hh. discriminate.
        -- intros u j U. apply lset_inv in U. destruct U as [[-> U]|[N U]]; [discriminate|]. right. split; [|exact U]. intros ->. exact (NS u U).
        -- discriminate.
        -- intros u j N U. rewrite lset_neq; [exact U|]. intros ->. congruence.
        -- intros u v U V. apply lset_inv in U. destruct U as [[-> U]|[_ U]]; [discriminate|destruct (NS u U)].
        -- intro u. apply (exited_lset _ _ HtReceive); [exact Ht|discriminate|discriminate].
        -- apply lset_length.
    + destruct (hc_wake s); [discriminate|]. injection E as <-. unfold hset_thread, hset_wake. cbn [hc_pending hc_rpcs hc_threads hc_wake hc_notified hc_shut].
      apply (hinv_thread nocopy s t HtReceive); auto; discriminate.
  - destruct (nth_error (hc_rpcs s) i) as [r|] eqn:F; [|discriminate]. injection E as <-.
    destruct (hi_serve _ _ I t i Ht) as (q & Q & P). assert (q = r) by congruence. subst q.
    pose proof (hi_rpc _ _ I i r F) as O. unfold hrpc_ok in O. rewrite P in O. destruct O as (o & O1 & O2 & O3).
    assert (Hh : hheld r = true) by (unfold hheld; rewrite P; reflexivity).
    unfold hset_thread, hset_pending, hset_rpc. cbn [hc_pending hc_rpcs hc_threads hc_wake hc_notified hc_shut].
    apply (hinv_move nocopy s i r); auto.
    + cbn. split; [exact O2|]. right. eauto.
    + rewrite Hh. cbn. lia.
    + intros u j U. apply lset_inv in U. destruct U as [[-> U]|[N U]]; [discriminate|]. right. split; [|exact U].
      intros ->. apply N. exact (hi_one _ _ I u t i U Ht).
    + discriminate.
    + intros u j N U. rewrite lset_neq; [exact U|]. intros ->. congruence.
    + intros u v U V. apply lset_inv in U. destruct U as [[-> U]|[N U]]; [discriminate|]. exfalso. apply N. exact (hi_one _ _ I u t i U Ht).
    + intro u. apply (exited_lset _ _ (HtServe i)); [exact Ht|discriminate|discriminate].
    + apply lset_length.
Qed.
Lemma hinv_shutdown nocopy s s' : hinv nocopy s -> hshutdown s = HNext s' -> hinv nocopy s'.
Proof.
  intros [Ip Ir Is Iv I1 Iq In Ie Ij] E. unfold hshutdown in E. destruct (hc_shut s) as [|[|n]|k| |] eqn:Sh; try discriminate.
  - injection E as <-. constructor; cbn [hc_pending hc_rpcs hc_threads hc_shut hc_notified]; auto; try discriminate.
    split; [discriminate|reflexivity].
  - injection E as <-. constructor; cbn [hc_pending hc_rpcs hc_threads hc_shut hc_notified hset_shut]; auto; try discriminate.
    + split; [discriminate|]. intros _. apply In. discriminate.
    + intros t L. lia.
  - injection E as <-. constructor; cbn [hc_pending hc_rpcs hc_threads hc_shut hc_notified hset_shut hset_wake]; auto; try discriminate.
    split; [discriminate|]. intros _. apply In. discriminate.
  - destruct (nth_error (hc_threads s) k) as [h|] eqn:F.
    + destruct h; try discriminate. injection E as <-. constructor; cbn [hc_pending hc_rpcs hc_threads hc_shut hc_notified hset_shut]; auto; try discriminate.
      * split; [discriminate|]. intros _. apply In. discriminate.
      * intros t L h H. destruct (Nat.eq_dec t k) as [->|N]; [congruence|]. apply (Ij t); [lia|exact H].
    + injection E as <-. constructor; cbn [hc_pending hc_rpcs hc_threads hc_shut hc_notified hset_shut]; auto; try discriminate.
      * split; [discriminate|]. intros _. apply In. discriminate.
      * intros t _ h H. apply (Ij t); [|exact H]. apply nth_error_None in F. assert (t < length (hc_threads s)) by (apply nth_error_Some; congruence). lia.
  - destruct (Z.eqb_spec (hc_pending s) 0) as [Z0|]; [|discriminate]. injection E as <-.
    constructor; cbn [hc_pending hc_rpcs hc_threads hc_shut hc_notified hset_shut]; auto; try discriminate.
    + intros _ i r H _. apply (cnt_zero hheld (hc_rpcs s)) with i; [lia|exact H].
    + split; [discriminate|]. intros _. apply In. discriminate.
Qed.
Lemma hinv_step nocopy a s s' : hinv nocopy s -> hstep nocopy a s = HNext s' -> hinv nocopy s'.
Proof.
  intros I E. destruct a; cbn [hstep] in E;
    eauto using hinv_initiate, hinv_send, hinv_fail, hinv_kernel, hinv_thread_step, hinv_shutdown.
Qed.
Lemma hinv_run nocopy l : forall s s', hinv nocopy s -> hrun nocopy l s = HNext s' -> hinv nocopy s'.
Proof.
  induction l as [|a l IH]; intros s s' I E; cbn [hrun] in E; [congruence|].
  destruct (hstep nocopy a s) as [s1| |] eqn:Es; [|discriminate|eauto]. eapply IH; [|exact E]. eapply hinv_step; eassumption.
Qed.
