(** Lemmas for Hnet_Props.v: what a step of a client or a server leaves as it was. *)
From Coq Require Import List NArith ZArith Bool Arith Lia.
From Verif Require Import Wire_Model Grpc_Model Grpc_Proofs Homa_Model Homa_Proofs Homa_Proofs2 Hnet_Model.
Import ListNotations.
Open Scope nat_scope.

(** ** Clients *)
(** The send failed. *)
Definition unsent (r : hrpc) : Prop := h_phase r = HSendFailed \/ (h_phase r = HOver /\ h_wire r = None).
Record hkept (a : haction) (s s' : hclient) : Prop := {
  hk_len : length (hc_rpcs s') = length (hc_rpcs s) + match a with HInitiate => 1 | _ => 0 end;
  hk_threads : length (hc_threads s') = length (hc_threads s);
  hk_old : forall i r, nth_error (hc_rpcs s) i = Some r -> exists r', nth_error (hc_rpcs s') i = Some r' /\
     (h_wire r' = h_wire r \/ exists o, a = HKernel i o /\ h_phase r = HFlying /\ h_wire r' = Some o) /\
     (unsent r' -> unsent r \/ a = HSend i false);
  hk_new : forall i r', nth_error (hc_rpcs s') i = Some r' -> nth_error (hc_rpcs s) i = None -> h_wire r' = None /\ ~ unsent r' }.
Lemma hkept_one nc a s s' i r r' : hinv nc s -> nth_error (hc_rpcs s) i = Some r -> hc_rpcs s' = lset i r' (hc_rpcs s) ->
  length (hc_threads s') = length (hc_threads s) -> a <> HInitiate ->
  (h_wire r' = h_wire r \/ exists o, a = HKernel i o /\ h_phase r = HFlying /\ h_wire r' = Some o) ->
  (unsent r' -> unsent r \/ a = HSend i false) -> hkept a s s'.
Proof.
  intros I N E T A W U. constructor.
  - rewrite E, lset_length. destruct a; try lia. congruence.
  - exact T.
  - intros j x H. rewrite E. destruct (Nat.eq_dec j i) as [->|Ne].
    + exists r'. rewrite H in N. injection N as ->. split; [eapply lset_eq; exact H|]. auto.
    + exists x. rewrite lset_neq by exact Ne. auto.
  - intros j x H1 H2. exfalso. rewrite E in H1. apply nth_error_None in H2. assert (j < length (lset i r' (hc_rpcs s))) by (apply nth_error_Some; congruence).
    rewrite lset_length in *. lia.
Qed.
Lemma hkept_same a s s' : hc_rpcs s' = hc_rpcs s -> length (hc_threads s') = length (hc_threads s) -> a <> HInitiate -> hkept a s s'.
Proof.
  intros E T A. constructor; rewrite ?E; auto.
  - destruct a; try lia. congruence.
  - intros i r H. exists r. auto.
  - intros i r H1 H2. congruence.
Qed.
Lemma hstep_kept nc a s s' : hinv nc s -> hstep nc a s = HNext s' -> hkept a s s'.
Proof.
  intros I E. destruct a as [|i ok|i|i o|t ch|]; cbn [hstep] in E.
  - unfold hinitiate in E. injection E as <-. constructor; cbn [hc_rpcs hc_threads].
    + rewrite app_length. reflexivity.
    + reflexivity.
    + intros i r H. exists r. rewrite nth_error_app1 by (apply nth_error_Some; congruence). auto.
    + intros i r H1 H2. apply nth_error_None in H2. rewrite nth_error_app2 in H1 by exact H2.
      destruct (i - length (hc_rpcs s)) as [|k]; [|destruct k; discriminate]. injection H1 as <-. split; [reflexivity|]. intros [H|[H _]]; discriminate.
  - unfold hsend in E. destruct (nth_error (hc_rpcs s) i) as [r|] eqn:N; [|discriminate]. destruct (h_phase r) eqn:P; try discriminate.
    injection E as <-. destruct ok.
    + eapply hkept_one; try exact I; try exact N; try reflexivity; [discriminate|auto|]. intros [H|[H _]]; discriminate.
    + eapply hkept_one; try exact I; try exact N; try reflexivity; [discriminate|auto|auto].
  - unfold hfail in E. destruct (nth_error (hc_rpcs s) i) as [r|] eqn:N; [|discriminate]. destruct (h_phase r) eqn:P; try discriminate.
    injection E as <-. eapply hkept_one; try exact I; try exact N; try reflexivity; [discriminate|auto|]. intros _. left. left. exact P.
  - unfold hkernel in E. destruct (nth_error (hc_rpcs s) i) as [r|] eqn:N; [|discriminate]. destruct (h_phase r) eqn:P; try discriminate.
    injection E as <-. eapply hkept_one; try exact I; try exact N; try reflexivity; [discriminate|right; eauto|]. intros [H|[H _]]; discriminate.
  - unfold hthread_step in E. destruct (nth_error (hc_threads s) t) as [[| |i|]|] eqn:T; try discriminate.
    + injection E as <-. apply hkept_same; [reflexivity|apply lset_length|discriminate].
    + destruct ch as [i|].
      * destruct (nth_error (hc_rpcs s) i) as [r|] eqn:N; [|discriminate]. destruct (h_phase r) as [| |o| | | |] eqn:P; try discriminate.
        unfold hreceived in E. destruct o as [msg ct er|].
        -- destruct (er || Nat.eqb (length msg) 0).
           ++ injection E as <-. eapply hkept_one; try exact I; try exact N; try reflexivity; [apply lset_length|discriminate|auto|]. intros [H|[H _]]; discriminate.
           ++ destruct (homa_parse nc msg ct); [discriminate|]. injection E as <-.
              eapply hkept_one; try exact I; try exact N; try reflexivity; [apply lset_length|discriminate|auto|]. intros [H|[H _]]; discriminate.
        -- injection E as <-. eapply hkept_one; try exact I; try exact N; try reflexivity; [apply lset_length|discriminate|auto|]. intros [H|[H _]]; discriminate.
      * destruct (hc_wake s); [discriminate|]. injection E as <-. apply hkept_same; [reflexivity|apply lset_length|discriminate].
    + destruct (nth_error (hc_rpcs s) i) as [r|] eqn:N; [|discriminate]. injection E as <-.
      eapply hkept_one; try exact I; try exact N; try reflexivity; [apply lset_length|discriminate|auto|].
      intros [H|[_ H]]; [discriminate|]. cbn in H. exfalso. destruct (hi_serve _ _ I _ _ T) as (r0 & N0 & P). assert (r0 = r) by congruence. subst r0.
      pose proof (hi_rpc _ _ I _ _ N) as O. unfold hrpc_ok in O. rewrite P in O. destruct O as (o & O & _). congruence.
  - unfold hshutdown in E. destruct (hc_shut s) as [|[|n]|k| |]; try discriminate; try (injection E as <-; apply hkept_same; [reflexivity|reflexivity|discriminate]).
    + destruct (nth_error (hc_threads s) k) as [[| | |]|]; try discriminate; injection E as <-; apply hkept_same; try reflexivity; discriminate.
    + destruct (Z.eqb (hc_pending s) 0); [|discriminate]. injection E as <-. apply hkept_same; try reflexivity; discriminate.
Qed.

(** ** Servers *)
Definition got (s : vserver) (t : nat) (msg : bytes) (ct : nat -> nat) : Prop := exists n, nth_error (vs_threads s) t = Some (VtGot msg ct, n).
Definition receives (s : vserver) (t : nat) : Prop := exists n, nth_error (vs_threads s) t = Some (VtReceive, n).
Record vkept (a : vaction) (s s' : vserver) : Prop := {
  vk_threads : length (vs_threads s') = length (vs_threads s);
  vk_set : vs_set s = true -> vs_set s' = true;
  vk_old : forall k q, nth_error (vs_reqs s) k = Some q -> exists q', nth_error (vs_reqs s') k = Some q' /\
     q_parsed q' = q_parsed q /\ q_msg q' = q_msg q /\ (q_phase q = QAnswered -> q_phase q' = QAnswered);
  vk_got : forall u msg ct, got s' u msg ct -> got s u msg ct \/ (a = VThread u (Some (msg, ct)) /\ receives s u);
  vk_keep : forall u msg ct, got s u msg ct -> got s' u msg ct \/ exists m, a = VThread u m;
  vk_reqs : (length (vs_reqs s') = length (vs_reqs s) /\ (forall t m, a = VThread t m -> ~ exists msg ct, got s t msg ct)) \/
     exists t m msg ct q, a = VThread t m /\ got s t msg ct /\ ~ (exists msg ct, got s' t msg ct) /\
       length (vs_reqs s') = S (length (vs_reqs s)) /\ nth_error (vs_reqs s') (length (vs_reqs s)) = Some q /\ q_msg q = (msg, ct) /\ q_phase q = QHandling }.
Lemma vkept_thread s t h h' n n' a s' : nth_error (vs_threads s) t = Some (h, n) -> vs_threads s' = lset t (h', n') (vs_threads s) ->
  vs_reqs s' = vs_reqs s -> (vs_set s = true -> vs_set s' = true) -> (forall msg ct, h <> VtGot msg ct) ->
  (forall msg ct, h' = VtGot msg ct -> a = VThread t (Some (msg, ct)) /\ h = VtReceive) -> (forall u m, a = VThread u m -> u = t) -> vkept a s s'.
Proof.
  intros N T R Se Hg Hn Ha. constructor.
  - rewrite T. apply lset_length.
  - exact Se.
  - intros k q H. exists q. rewrite R. auto.
  - intros u msg ct (z & H). rewrite T in H. apply lset_inv in H. destruct H as [[-> H]|[_ H]].
    + injection H as H _. symmetry in H. destruct (Hn _ _ H) as [-> ->]. right. split; [reflexivity|]. exists n. exact N.
    + left. exists z. exact H.
  - intros u msg ct (z & H). left. exists z. rewrite T. destruct (Nat.eq_dec u t) as [->|Ne]; [|rewrite lset_neq by exact Ne; exact H].
    rewrite N in H. injection H as H _. destruct (Hg _ _ H).
  - left. rewrite R. split; [reflexivity|]. intros u m A (msg & ct & z & H). rewrite (Ha _ _ A) in H. rewrite N in H. injection H as H _. exact (Hg _ _ H).
Qed.
Lemma vkept_idle a s s' : vs_threads s' = vs_threads s -> vs_reqs s' = vs_reqs s -> (vs_set s = true -> vs_set s' = true) ->
  (forall t m, a = VThread t m -> ~ exists msg ct, got s t msg ct) -> vkept a s s'.
Proof.
  intros T R Se G. constructor; rewrite ?T, ?R; auto.
  - intros k q H. exists q. auto.
  - intros u msg ct (z & H). rewrite T in H. left. exists z. exact H.
  - intros u msg ct (z & H). left. exists z. rewrite T. exact H.
Qed.
Lemma vstep_kept nc a s s' : vstep nc a s = VNext s' -> vkept a s s'.
Proof.
  destruct a as [|t m|i|]; cbn [vstep]; intros E.
  - injection E as <-. apply vkept_idle; auto. discriminate.
  - unfold vthread_step in E. destruct (nth_error (vs_threads s) t) as [[h n]|] eqn:T; [|discriminate]. destruct h as [| |msg ct| |]; try discriminate.
    + destruct (vs_set s) eqn:Se; [|discriminate]. injection E as <-. eapply vkept_thread; try exact T; try reflexivity; try discriminate; [auto|congruence].
    + assert (Skip : forall m0, vkept (VThread t m0) s s).
      { intros m0. apply vkept_idle; auto. intros u m1 A (msg & ct & z & H). injection A as <- _. congruence. }
      destruct (vs_down s).
      * injection E as <-. eapply vkept_thread; try exact T; try reflexivity; try discriminate; [auto|congruence].
      * destruct m as [[msg ct]|]; [|injection E as <-; apply Skip].
        destruct (Nat.eqb (length msg) 0); injection E as <-; [apply Skip|].
        eapply vkept_thread; try exact T; try reflexivity; try discriminate; [auto|intros ? ? H; injection H as <- <-; auto|congruence].
    + destruct (vs_mapped s); [|discriminate]. destruct (homa_parse nc msg ct) as [|ok g]; [discriminate|]. injection E as <-. constructor; cbn [vs_threads vs_reqs vs_set].
      * apply lset_length.
      * auto.
      * intros k q H. exists q. rewrite nth_error_app1 by (apply nth_error_Some; congruence). auto.
      * intros u msg' ct' (z & H). cbn [vs_threads] in H. apply lset_inv in H. destruct H as [[-> H]|[_ H]]; [discriminate|]. left. exists z. exact H.
      * intros u msg' ct' (z & H). destruct (Nat.eq_dec u t) as [->|Ne]; [right; eauto|]. left. exists z. cbn [vs_threads]. rewrite lset_neq by exact Ne. exact H.
      * right. exists t, m, msg, ct, (mkHreq t (ok, g) QHandling (msg, ct)). split; [reflexivity|]. split; [exists n; exact T|].
        split. { intros (m1 & c1 & z & H). cbn [vs_threads] in H. erewrite lset_eq in H by exact T. discriminate. }
        rewrite app_length, nth_error_app2, Nat.sub_diag by lia. cbn [length]. repeat split; auto. lia.
    + destruct (Z.eqb n 0); [|discriminate]. injection E as <-. eapply vkept_thread; try exact T; try reflexivity; try discriminate; [auto|congruence].
  - unfold vanswer in E. destruct (nth_error (vs_reqs s) i) as [q|] eqn:N; [|discriminate]. destruct (q_phase q) eqn:P; [|discriminate].
    destruct (nth_error (vs_threads s) (q_thread q)) as [[h n]|] eqn:T; [|discriminate].
    assert (E' : VNext s' = VNext (mkVserver (lset (q_thread q) (h, n - 1)%Z (vs_threads s)) (lset i (mkHreq (q_thread q) (q_parsed q) QAnswered (q_msg q)) (vs_reqs s)) (vs_set s) (vs_down s) (vs_mapped s) (vs_join s)))
      by (destruct h; try discriminate; rewrite E; reflexivity). injection E' as ->. clear E. constructor; cbn [vs_threads vs_reqs vs_set].
    + apply lset_length.
    + auto.
    + intros k x H. destruct (Nat.eq_dec k i) as [->|Ne].
      * rewrite N in H. injection H as <-. eexists. split; [eapply lset_eq; exact N|]. auto.
      * exists x. rewrite lset_neq by exact Ne. auto.
    + intros u msg ct (z & H). cbn [vs_threads] in H. apply lset_inv in H. destruct H as [[-> H]|[_ H]]; [|left; exists z; exact H].
      injection H as <- _. left. exists n. exact T.
    + intros u msg ct (z & H). left. destruct (Nat.eq_dec u (q_thread q)) as [->|Ne].
      * rewrite T in H. injection H as -> _. exists (n - 1)%Z. cbn [vs_threads]. eapply lset_eq. exact T.
      * exists z. cbn [vs_threads]. rewrite lset_neq by exact Ne. exact H.
    + left. rewrite lset_length. split; [reflexivity|discriminate].
  - unfold vshutdown in E. destruct (vs_join s) as [k|].
    + destruct (nth_error (vs_threads s) k) as [[[| | | |] n]|]; try discriminate; injection E as <-; apply vkept_idle; auto; discriminate.
    + destruct (vs_down s); [discriminate|]. injection E as <-. apply vkept_idle; auto; discriminate.
Qed.

(** ** The last arrival of a thread *)
Lemma last_of_app t l u p : forall n, last_of t n (l ++ [(u, p)]) = if Nat.eqb u t then [n + length l] else last_of t n l.
Proof.
  induction l as [|[v x] l IH]; intros n; cbn [last_of app length].
  - rewrite Nat.add_0_r. destruct (Nat.eqb u t); reflexivity.
  - rewrite IH. destruct (Nat.eqb u t); [f_equal; lia|]. reflexivity.
Qed.
