(** Lemmas about the Homa driver: shutting an idle client down, the server. *)
From Coq Require Import List NArith ZArith Bool Arith Lia.
From Verif Require Import Wire_Model Grpc_Model Grpc_Proofs Homa_Model Homa_Proofs.
Import ListNotations.
Open Scope nat_scope.

(** ** Shutting down an idle client *)
Definition receiving (h : hthread) : bool := match h with HtReceive => true | _ => false end.
Definition wakes_left (s : hclient) : nat := match hc_shut s with HsWake n => n | _ => 0 end.
(** After the start of a shutdown that found nothing pending. *)
Record idle (s : hclient) : Prop := {
  id_shut : hc_shut s <> HsNot;
  id_notified : hc_notified s = true;
  id_pending : hc_pending s = 0%Z;
  id_wakes : cnt receiving (hc_threads s) <= hc_wake s + wakes_left s;
  id_rpc : forall i r, nth_error (hc_rpcs s) i = Some r -> hheld r = false;
  id_thread : forall t i, nth_error (hc_threads s) t <> Some (HtServe i) }.
Definition shutting_action (a : haction) : Prop := match a with HThread _ _ | HShutdown => True | _ => False end.
Lemma cnt_le {A} (f : A -> bool) l : cnt f l <= length l.
Proof. unfold cnt. induction l as [|x r IH]; cbn [filter length]; [lia|]. destruct (f x); cbn [length]; lia. Qed.
Lemma idle_start nocopy s s' : hinv nocopy s -> hc_shut s = HsNot -> hc_pending s = 0%Z -> hshutdown s = HNext s' -> idle s'.
Proof.
  intros I Sh P E. unfold hshutdown in E. rewrite Sh in E. injection E as <-.
  assert (A : forall i r, nth_error (hc_rpcs s) i = Some r -> hheld r = false) by (apply cnt_zero; pose proof (hi_pending _ _ I); lia).
  constructor; cbn [hc_shut hc_notified hc_pending hc_threads hc_wake hc_rpcs wakes_left]; auto; try discriminate.
  - pose proof (cnt_le receiving (hc_threads s)). lia.
  - intros t i H. destruct (hi_serve _ _ I t i H) as (r & F & Ph). pose proof (A i r F) as H1. unfold hheld in H1. rewrite Ph in H1. discriminate.
Qed.
Lemma idle_step nocopy a s s' : idle s -> shutting_action a -> hstep nocopy a s = HNext s' -> idle s'.
Proof.
  intros [Ds Dn Dp Dw Dr Dt] A E. destruct a as [| | | | t c |]; try contradiction; cbn [hstep] in E.
  - unfold hthread_step in E. destruct (nth_error (hc_threads s) t) as [[| |i|]|] eqn:Ht; try discriminate.
    + rewrite Dn, Dp in E. cbn in E. injection E as <-. constructor; cbn [hset_thread hc_shut hc_notified hc_pending hc_threads hc_wake hc_rpcs]; auto.
      * pose proof (cnt_lset receiving _ t _ HtExited Ht) as C. cbn [receiving b2n] in C. unfold wakes_left in *. cbn [hset_thread hc_shut]. lia.
      * intros u i U. apply lset_inv in U. destruct U as [[_ U]|[_ U]]; [discriminate|]. exact (Dt u i U).
    + destruct c as [i|].
      * destruct (nth_error (hc_rpcs s) i) as [r|] eqn:F; [|discriminate]. pose proof (Dr i r F) as H. unfold hheld in H.
        destruct (h_phase r); discriminate.
      * destruct (hc_wake s) eqn:W; [discriminate|]. injection E as <-.
        constructor; cbn [hset_thread hset_wake hc_shut hc_notified hc_pending hc_threads hc_wake hc_rpcs]; auto.
        -- pose proof (cnt_lset receiving _ t _ HtTest Ht) as C. cbn [receiving b2n] in C. unfold wakes_left in *. cbn [hset_thread hset_wake hc_shut]. lia.
        -- intros u i U. apply lset_inv in U. destruct U as [[_ U]|[_ U]]; [discriminate|]. exact (Dt u i U).
    + exfalso. exact (Dt t i Ht).
  - unfold hshutdown in E. unfold wakes_left in Dw. destruct (hc_shut s) as [|[|n]|k| |] eqn:Sh; try discriminate; [contradiction| | | |].
    + injection E as <-. constructor; cbn [hset_shut hset_wake hc_shut hc_notified hc_pending hc_threads hc_wake hc_rpcs wakes_left]; auto; discriminate.
    + injection E as <-. constructor; cbn [hset_shut hset_wake hc_shut hc_notified hc_pending hc_threads hc_wake hc_rpcs wakes_left]; auto; [discriminate|lia].
    + destruct (nth_error (hc_threads s) k) as [[]|]; try discriminate; injection E as <-;
        constructor; cbn [hset_shut hset_wake hc_shut hc_notified hc_pending hc_threads hc_wake hc_rpcs wakes_left]; auto; discriminate.
    + destruct (Z.eqb _ _); [|discriminate]. injection E as <-.
      constructor; cbn [hset_shut hset_wake hc_shut hc_notified hc_pending hc_threads hc_wake hc_rpcs wakes_left]; auto; discriminate.
Qed.
Definition thread_work (h : hthread) : nat := match h with HtReceive => 2 | HtTest => 1 | _ => 0 end.
Definition shut_work (s : hclient) : nat :=
  let n := length (hc_threads s) in
  match hc_shut s with HsNot => 0 | HsWake k => k + n + 4 | HsJoin k => (n - k) + 3 | HsSpin => 1 | HsClosed => 0 end.
Definition idle_work (s : hclient) : nat := total thread_work (hc_threads s) + shut_work s.
Lemma idle_decreases nocopy a s s' : idle s -> shutting_action a -> hstep nocopy a s = HNext s' -> idle_work s' < idle_work s.
Proof.
  intros [Ds Dn Dp Dw Dr Dt] A E. unfold idle_work, shut_work. destruct a as [| | | | t c |]; try contradiction; cbn [hstep] in E.
  - unfold hthread_step in E. destruct (nth_error (hc_threads s) t) as [[| |i|]|] eqn:Ht; try discriminate.
    + rewrite Dn, Dp in E. cbn in E. injection E as <-. cbn [hset_thread hc_threads hc_shut]. rewrite lset_length.
      pose proof (total_lset thread_work _ t _ HtExited Ht) as C. cbn [thread_work] in C. lia.
    + destruct c as [i|].
      * destruct (nth_error (hc_rpcs s) i) as [r|] eqn:F; [|discriminate]. pose proof (Dr i r F) as H. unfold hheld in H.
        destruct (h_phase r); discriminate.
      * destruct (hc_wake s); [discriminate|]. injection E as <-. cbn [hset_thread hset_wake hc_threads hc_shut]. rewrite lset_length.
        pose proof (total_lset thread_work _ t _ HtTest Ht) as C. cbn [thread_work] in C. lia.
    + exfalso. exact (Dt t i Ht).
  - unfold hshutdown in E. destruct (hc_shut s) as [|[|n]|k| |] eqn:Sh; try discriminate; [contradiction| | | |].
    + injection E as <-. cbn [hset_shut hc_threads hc_shut]. lia.
    + injection E as <-. cbn [hset_shut hset_wake hc_threads hc_shut]. lia.
    + destruct (nth_error (hc_threads s) k) as [[]|] eqn:F; try discriminate; injection E as <-; cbn [hset_shut hc_threads hc_shut]; [|lia].
      assert (k < length (hc_threads s)) by (apply nth_error_Some; congruence). lia.
    + destruct (Z.eqb _ _); [|discriminate]. injection E as <-. cbn [hset_shut hc_threads hc_shut]. lia.
Qed.
Lemma idle_progress nocopy s : idle s -> hc_shut s <> HsClosed -> exists a s', shutting_action a /\ hstep nocopy a s = HNext s'.
Proof.
  intros [Ds Dn Dp Dw Dr Dt] Nc. destruct (hc_shut s) as [|[|n]|k| |] eqn:Sh; try contradiction.
  - exists HShutdown. eexists. split; [exact I|]. cbn [hstep]. unfold hshutdown. rewrite Sh. reflexivity.
  - exists HShutdown. eexists. split; [exact I|]. cbn [hstep]. unfold hshutdown. rewrite Sh. reflexivity.
  - destruct (nth_error (hc_threads s) k) as [[| |i|]|] eqn:F.
    + exists (HThread k None). eexists. split; [exact I|]. cbn [hstep]. unfold hthread_step. rewrite F. reflexivity.
    + pose proof (cnt_pos receiving _ k _ F eq_refl) as C. unfold wakes_left in Dw. rewrite Sh in Dw. destruct (hc_wake s) eqn:W; [lia|].
      exists (HThread k None). eexists. split; [exact I|]. cbn [hstep]. unfold hthread_step. rewrite F, W. reflexivity.
    + exfalso. exact (Dt k i F).
    + exists HShutdown. eexists. split; [exact I|]. cbn [hstep]. unfold hshutdown. rewrite Sh, F. reflexivity.
    + exists HShutdown. eexists. split; [exact I|]. cbn [hstep]. unfold hshutdown. rewrite Sh, F. reflexivity.
  - exists HShutdown. eexists. split; [exact I|]. cbn [hstep]. unfold hshutdown. rewrite Sh, Dp. reflexivity.
Qed.
(** Runs of which every step has an effect. *)
Fixpoint heffective (nocopy : bool) (l : list haction) (s : hclient) : Prop :=
  match l with
  | [] => True
  | a :: r => exists s', hstep nocopy a s = HNext s' /\ heffective nocopy r s'
  end.
Lemma idle_bound nocopy l : forall s, idle s -> Forall shutting_action l -> heffective nocopy l s -> length l <= idle_work s.
Proof.
  induction l as [|a l IH]; intros s D A H; cbn [length heffective] in *; [lia|]. inversion_clear A as [|x y A1 A2]. destruct H as (s' & E & H).
  pose proof (idle_decreases nocopy a s s' D A1 E). specialize (IH s' (idle_step nocopy a s s' D A1 E) A2 H). lia.
Qed.
Lemma idle_run nocopy l : forall s s', idle s -> Forall shutting_action l -> hrun nocopy l s = HNext s' -> idle s'.
Proof.
  induction l as [|a l IH]; intros s s' D A E; cbn [hrun] in E; [congruence|]. inversion_clear A as [|x y A1 A2].
  destruct (hstep nocopy a s) as [s1| |] eqn:Es; [|discriminate|eauto]. eapply IH; [|exact A2|exact E]. eapply idle_step; eassumption.
Qed.
(** An RPC that receive reported as failed stays as it is. *)
Lemma forgotten_step nocopy a s s' i r : hinv nocopy s -> nth_error (hc_rpcs s) i = Some r -> h_phase r = HForgotten ->
  hstep nocopy a s = HNext s' -> nth_error (hc_rpcs s') i = Some r.
Proof.
  intros I E P S1. destruct a as [|j ok|j|j o|t c|]; cbn [hstep] in S1.
  - injection S1 as <-. apply snoc_old. exact E.
  - unfold hsend in S1. destruct (nth_error (hc_rpcs s) j) as [q|] eqn:F; [|discriminate]. destruct (h_phase q) eqn:Q; try discriminate.
    assert (j <> i) by congruence. destruct ok; injection S1 as <-; cbn [hset_rpc hset_pending hc_rpcs]; rewrite lset_neq; auto.
  - unfold hfail in S1. destruct (nth_error (hc_rpcs s) j) as [q|] eqn:F; [|discriminate]. destruct (h_phase q) eqn:Q; try discriminate.
    assert (j <> i) by congruence. injection S1 as <-; cbn [hset_rpc hc_rpcs]; rewrite lset_neq; auto.
  - unfold hkernel in S1. destruct (nth_error (hc_rpcs s) j) as [q|] eqn:F; [|discriminate]. destruct (h_phase q) eqn:Q; try discriminate.
    assert (j <> i) by congruence. injection S1 as <-; cbn [hset_rpc hc_rpcs]; rewrite lset_neq; auto.
  - unfold hthread_step in S1. destruct (nth_error (hc_threads s) t) as [[| |j|]|] eqn:Ht; try discriminate.
    + injection S1 as <-. exact E.
    + destruct c as [j|]; [|destruct (hc_wake s); [discriminate|]; injection S1 as <-; exact E].
      destruct (nth_error (hc_rpcs s) j) as [q|] eqn:F; [|discriminate]. destruct (h_phase q) as [| |o| | | |] eqn:Q; try discriminate.
      assert (j <> i) by congruence. unfold hreceived in S1. destruct o as [msg cont errno|].
      * destruct (_ || _); [|destruct (homa_parse _ _ _); [discriminate|]];
          injection S1 as <-; cbn [hset_rpc hset_thread hc_rpcs]; rewrite lset_neq; auto.
      * injection S1 as <-; cbn [hset_rpc hset_thread hc_rpcs]; rewrite lset_neq; auto.
    + destruct (hi_serve _ _ I t j Ht) as (q & F & Q). rewrite F in S1. injection S1 as <-. assert (j <> i) by congruence.
      cbn [hset_rpc hset_thread hset_pending hc_rpcs]. rewrite lset_neq; auto.
  - unfold hshutdown in S1. destruct (hc_shut s) as [|[|n]|k| |]; try discriminate; try (injection S1 as <-; exact E).
    + destruct (nth_error (hc_threads s) k) as [[]|]; try discriminate; injection S1 as <-; exact E.
    + destruct (Z.eqb _ _); [|discriminate]. injection S1 as <-. exact E.
Qed.
Lemma forgotten_run nocopy l : forall s s' i r, hinv nocopy s -> nth_error (hc_rpcs s) i = Some r -> h_phase r = HForgotten ->
  hrun nocopy l s = HNext s' -> nth_error (hc_rpcs s') i = Some r.
Proof.
  induction l as [|a l IH]; intros s s' i r I E P R; cbn [hrun] in R; [congruence|].
  destruct (hstep nocopy a s) as [s1| |] eqn:Es; [|discriminate|eauto].
  eapply IH; [eapply hinv_step; eassumption| |exact P|exact R]. eapply forgotten_step; eassumption.
Qed.

(** ** The server *)
Definition handled_by (t : nat) (q : hreq) : bool := Nat.eqb (q_thread q) t && match q_phase q with QHandling => true | QAnswered => false end.
Record vinv (nocopy : bool) (s : vserver) : Prop := {
  vi_count : forall t h n, nth_error (vs_threads s) t = Some (h, n) -> n = Z.of_nat (cnt (handled_by t) (vs_reqs s));
  vi_thread : forall i q, nth_error (vs_reqs s) i = Some q -> q_thread q < length (vs_threads s);
  vi_gone : forall t n, nth_error (vs_threads s) t = Some (VtGone, n) -> n = 0%Z;
  vi_parsed : forall i q, nth_error (vs_reqs s) i = Some q ->
     homa_parse nocopy (fst (q_msg q)) (snd (q_msg q)) = HpRet (fst (q_parsed q)) (snd (q_parsed q)) /\ fst (q_msg q) <> [];
  vi_got : forall t n msg c, nth_error (vs_threads s) t = Some (VtGot msg c, n) -> msg <> [];
  vi_join : forall k t h n, vs_join s = Some k -> t < k -> nth_error (vs_threads s) t = Some (h, n) -> h = VtGone;
  vi_down : vs_join s <> None -> vs_down s = true;
  vi_done : vs_down s = true -> vs_join s = None -> forall t h n, nth_error (vs_threads s) t = Some (h, n) -> h = VtGone;
  vi_mapped : vs_mapped s = false -> forall h n, nth_error (vs_threads s) 0 = Some (h, n) -> h = VtGone;
  vi_drain : forall t h n, nth_error (vs_threads s) t = Some (h, n) -> h = VtDrain \/ h = VtGone -> vs_down s = true }.
Lemma vinv_start nocopy n : vinv nocopy (vstart n).
Proof.
  assert (R : forall t h z, nth_error (repeat (VtWait, 0%Z) n) t = Some (h, z) -> h = VtWait /\ z = 0%Z)
    by (intros t h z E; apply nth_error_In in E; apply repeat_spec in E; injection E as -> ->; auto).
  constructor; cbn [vstart vs_threads vs_reqs vs_join vs_down vs_mapped]; try discriminate; try (intros [|i]; discriminate).
  - intros t h z E. apply R in E. destruct E as [_ ->]. reflexivity.
  - intros t z E. apply R in E. tauto.
  - intros t z m c E. apply R in E. destruct E. discriminate.
  - intro H. contradiction.
  - intros t h z E H. apply R in E. destruct E as [-> _]. destruct H; discriminate.
Qed.
(** A thread changes, not its counter. *)
Lemma vinv_thread nocopy s t h0 h n : vinv nocopy s -> nth_error (vs_threads s) t = Some (h0, n) -> h0 <> VtGone ->
  (h = VtGone -> n = 0%Z) -> (forall msg c, h = VtGot msg c -> msg <> []) -> (h = VtDrain \/ h = VtGone -> vs_down s = true) ->
  vinv nocopy (vset_thread t h n s).
Proof.
  intros [V1 V2 V3 V4 V5 V6 V7 V8 V9 V10] E N0 N1 N2 N3.
  constructor; cbn [vset_thread vs_threads vs_reqs vs_join vs_down vs_mapped]; auto.
  - intros u g z U. apply lset_inv in U. destruct U as [[-> U]|[_ U]]; [injection U as -> ->; eauto|eauto].
  - intros i q H. rewrite lset_length. eauto.
  - intros u z U. apply lset_inv in U. destruct U as [[-> U]|[_ U]]; [injection U as <- ->; auto|eauto].
  - intros u z m c U. apply lset_inv in U. destruct U as [[-> U]|[_ U]]; [injection U as <- ->; eapply N2; reflexivity|eauto].
  - intros k u g z K L U. apply lset_inv in U. destruct U as [[-> U]|[_ U]]; [|eauto]. pose proof (V6 k t h0 n K L E). contradiction.
  - intros D J u g z U. apply lset_inv in U. destruct U as [[-> U]|[_ U]]; [|eauto]. pose proof (V8 D J t h0 n E). contradiction.
  - intros M g z U. apply lset_inv in U. destruct U as [[<- U]|[_ U]]; [|eauto]. pose proof (V9 M h0 n E). contradiction.
  - intros u g z U H. apply lset_inv in U. destruct U as [[-> U]|[_ U]]; [injection U as -> ->; auto|eauto].
Qed.
Lemma vinv_thread_step nocopy t m s s' : vinv nocopy s -> vthread_step nocopy t m s = VNext s' -> vinv nocopy s'.
Proof.
  intros V E. unfold vthread_step in E. destruct (nth_error (vs_threads s) t) as [[[| |msg c| |] n]|] eqn:Ht; try discriminate.
  - destruct (vs_set s); [|discriminate]. injection E as <-. apply (vinv_thread nocopy s t VtWait); auto; try discriminate. intros [H|H]; discriminate.
  - destruct (vs_down s) eqn:D.
    + injection E as <-. apply (vinv_thread nocopy s t VtReceive); auto; discriminate.
    + destruct m as [[msg c]|]; [|injection E as <-; exact V]. destruct msg as [|b r]; cbn [length Nat.eqb] in E; injection E as <-; [exact V|].
      apply (vinv_thread nocopy s t VtReceive); auto; try discriminate; [|intros [H|H]; discriminate]. intros ? ? H. injection H as <- _. discriminate.
  - destruct (vs_mapped s) eqn:Ma; [|discriminate]. destruct (homa_parse nocopy msg c) as [|ok g] eqn:P; [discriminate|]. injection E as <-.
    pose proof (vi_got _ _ V t n msg c Ht) as Ne. destruct V as [V1 V2 V3 V4 V5 V6 V7 V8 V9 V10].
    constructor; cbn [vs_threads vs_reqs vs_join vs_down vs_mapped]; auto; try discriminate.
    + intros u h z U. rewrite cnt_snoc. unfold handled_by at 2. cbn [q_thread q_phase]. rewrite andb_true_r. apply lset_inv in U. destruct U as [[-> U]|[N U]].
      * injection U as -> ->. rewrite Nat.eqb_refl. cbn [b2n]. rewrite (V1 t _ n Ht). lia.
      * replace (Nat.eqb t u) with false by (symmetry; apply Nat.eqb_neq; congruence). cbn [b2n]. rewrite (V1 u h z U). lia.
    + intros i q H. rewrite lset_length. apply snoc_inv in H. destruct H as [H|[-> ->]]; [eauto|]. cbn [q_thread]. apply nth_error_Some. congruence.
    + intros u z U. apply lset_inv in U. destruct U as [[-> U]|[_ U]]; [discriminate|eauto].
    + intros i q H. apply snoc_inv in H. destruct H as [H|[-> ->]]; [eauto|]. cbn [q_msg q_parsed fst snd]. auto.
    + intros u z m1 c1 U. apply lset_inv in U. destruct U as [[-> U]|[_ U]]; [discriminate|eauto].
    + intros k u h z K L U. apply lset_inv in U. destruct U as [[-> U]|[_ U]]; [|eauto]. pose proof (V6 k t _ n K L Ht). discriminate.
    + intros D J u h z U. apply lset_inv in U. destruct U as [[-> U]|[_ U]]; [|eauto]. pose proof (V8 D J t _ n Ht). discriminate.
    + intros u h z U H. apply lset_inv in U. destruct U as [[-> U]|[_ U]]; [|eauto]. injection U as -> ->. destruct H; discriminate.
  - destruct (Z.eqb_spec n 0) as [Z0|]; [|discriminate]. injection E as <-.
    pose proof (vi_drain _ _ V t _ n Ht (or_introl eq_refl)) as D. apply (vinv_thread nocopy s t VtDrain); auto; discriminate.
Qed.
Lemma vinv_answer nocopy i s s' : vinv nocopy s -> vanswer i s = VNext s' -> vinv nocopy s'.
Proof.
  intros V E. unfold vanswer in E. destruct (nth_error (vs_reqs s) i) as [q|] eqn:F; [|discriminate]. destruct (q_phase q) eqn:P; [|discriminate].
  destruct (nth_error (vs_threads s) (q_thread q)) as [[h n]|] eqn:Ht; [|discriminate].
  assert (Ng : h <> VtGone) by (intros ->; discriminate).
  assert (E' : VNext (mkVserver (lset (q_thread q) (h, n - 1)%Z (vs_threads s)) (lset i (mkHreq (q_thread q) (q_parsed q) QAnswered (q_msg q)) (vs_reqs s))
                       (vs_set s) (vs_down s) (vs_mapped s) (vs_join s)) = VNext s') by (destruct h; auto; contradiction).
  injection E' as <-. clear E. destruct V as [V1 V2 V3 V4 V5 V6 V7 V8 V9 V10].
  constructor; cbn [vs_threads vs_reqs vs_join vs_down vs_mapped]; auto.
  - intros u g z U. pose proof (cnt_lset (handled_by u) _ i q (mkHreq (q_thread q) (q_parsed q) QAnswered (q_msg q)) F) as C.
    unfold handled_by at 2 4 in C. cbn [q_thread q_phase] in C. rewrite P, andb_true_r, andb_false_r in C. cbn [b2n] in C.
    apply lset_inv in U. destruct U as [[-> U]|[N U]].
    + injection U as -> ->. rewrite Nat.eqb_refl in C. cbn [b2n] in C. rewrite (V1 _ _ n Ht). lia.
    + replace (Nat.eqb (q_thread q) u) with false in C by (symmetry; apply Nat.eqb_neq; congruence). cbn [b2n] in C. rewrite (V1 u g z U). lia.
  - intros j p H. rewrite lset_length. apply lset_inv in H. destruct H as [[-> ->]|[_ H]]; [cbn [q_thread]|]; eauto.
  - intros u z U. apply lset_inv in U. destruct U as [[-> U]|[_ U]]; [|eauto]. injection U as U _. congruence.
  - intros j p H. apply lset_inv in H. destruct H as [[-> ->]|[_ H]]; [cbn [q_msg q_parsed]|]; eauto.
  - intros u z m1 c1 U. apply lset_inv in U. destruct U as [[-> U]|[_ U]]; [|eauto]. injection U as <- _. eauto.
  - intros k u g z K L U. apply lset_inv in U. destruct U as [[-> U]|[_ U]]; [|eauto]. injection U as -> _. eauto.
  - intros D J u g z U. apply lset_inv in U. destruct U as [[-> U]|[_ U]]; [|eauto]. injection U as -> _. eauto.
  - intros M g z U. apply lset_inv in U. destruct U as [[N U]|[_ U]]; [|eauto]. injection U as -> _. rewrite <- N in Ht. eauto.
  - intros u g z U H. apply lset_inv in U. destruct U as [[-> U]|[_ U]]; [|eauto]. injection U as -> _. eauto.
Qed.
Lemma vinv_shutdown nocopy s s' : vinv nocopy s -> vshutdown s = VNext s' -> vinv nocopy s'.
Proof.
  intros [V1 V2 V3 V4 V5 V6 V7 V8 V9 V10] E. unfold vshutdown in E. destruct (vs_join s) as [k|] eqn:J.
  - destruct (nth_error (vs_threads s) k) as [[h n]|] eqn:Ht.
    + destruct h; try discriminate. injection E as <-. constructor; cbn [vs_threads vs_reqs vs_join vs_down vs_mapped]; auto; try discriminate.
      * intros k' t g z K L U. injection K as <-. destruct (Nat.eq_dec t k) as [->|N]; [congruence|]. apply (V6 k t g z); auto. lia.
      * intros _. apply V7. discriminate.
      * intros _ g z U. destruct k as [|k]; [congruence|]. apply (V6 (S k) 0 g z); auto. lia.
    + injection E as <-. constructor; cbn [vs_threads vs_reqs vs_join vs_down vs_mapped]; auto; try discriminate.
      * intros D _ t g z U. apply (V6 k t g z); auto. apply nth_error_None in Ht. assert (t < length (vs_threads s)) by (apply nth_error_Some; congruence). lia.
  - destruct (vs_down s) eqn:D; [discriminate|]. injection E as <-. constructor; cbn [vs_threads vs_reqs vs_join vs_down vs_mapped]; auto; try discriminate.
    intros k t g z K L. injection K as <-. lia.
Qed.
Lemma vinv_step nocopy a s s' : vinv nocopy s -> vstep nocopy a s = VNext s' -> vinv nocopy s'.
Proof.
  intros V E. destruct a as [|t m|i|]; cbn [vstep] in E.
  - injection E as <-. destruct V. constructor; auto.
  - eapply vinv_thread_step; eassumption.
  - eapply vinv_answer; eassumption.
  - eapply vinv_shutdown; eassumption.
Qed.
Lemma vinv_run nocopy l : forall s s', vinv nocopy s -> vrun nocopy l s = VNext s' -> vinv nocopy s'.
Proof.
  induction l as [|a l IH]; intros s s' I E; cbn [vrun] in E; [congruence|].
  destruct (vstep nocopy a s) as [s1|c|] eqn:Es; [|discriminate|eauto]. eapply IH; [|exact E]. eapply vinv_step; eassumption.
Qed.
Lemma v_not_dangling nocopy a s : vinv nocopy s -> vstep nocopy a s <> VCrash VDangling.
Proof.
  intros V E. destruct a as [|t m|i|]; cbn [vstep] in E; [discriminate| | |].
  - unfold vthread_step in E. destruct (nth_error (vs_threads s) t) as [[[| |msg c| |] n]|]; try discriminate.
    + destruct (vs_set s); discriminate.
    + destruct (vs_down s); [discriminate|]. destruct m as [[msg c]|]; [|discriminate]. destruct (Nat.eqb _ _); discriminate.
    + destruct (vs_mapped s); [|discriminate]. destruct (homa_parse _ _ _); discriminate.
    + destruct (Z.eqb _ _); discriminate.
  - unfold vanswer in E. destruct (nth_error (vs_reqs s) i) as [q|] eqn:F; [|discriminate]. destruct (q_phase q) eqn:P; [|discriminate].
    destruct (nth_error (vs_threads s) (q_thread q)) as [[h n]|] eqn:Ht; [|discriminate]. destruct h; try discriminate.
    pose proof (vi_gone _ _ V _ _ Ht) as Z0. pose proof (vi_count _ _ V _ _ _ Ht) as C. pose proof (cnt_pos (handled_by (q_thread q)) _ i q F) as Po.
    unfold handled_by in Po at 1. rewrite Nat.eqb_refl, P in Po. specialize (Po eq_refl). lia.
  - unfold vshutdown in E. destruct (vs_join s); [destruct (nth_error _ _) as [[[] ?]|]|destruct (vs_down s)]; discriminate.
Qed.
Lemma v_unmapped nocopy a s : vinv nocopy s -> vstep nocopy a s = VCrash VUnmapped -> 2 <= length (vs_threads s).
Proof.
  intros V E. destruct a as [|t m|i|]; cbn [vstep] in E; [discriminate| | |].
  - unfold vthread_step in E. destruct (nth_error (vs_threads s) t) as [[[| |msg c| |] n]|] eqn:Ht; try discriminate.
    + destruct (vs_set s); discriminate.
    + destruct (vs_down s); [discriminate|]. destruct m as [[msg c]|]; [|discriminate]. destruct (Nat.eqb _ _); discriminate.
    + destruct (vs_mapped s) eqn:M; [destruct (homa_parse _ _ _); discriminate|].
      assert (L : t < length (vs_threads s)) by (apply nth_error_Some; congruence). destruct t as [|t]; [|lia].
      pose proof (vi_mapped _ _ V M _ _ Ht). discriminate.
    + destruct (Z.eqb _ _); discriminate.
  - unfold vanswer in E. destruct (nth_error (vs_reqs s) i) as [q|]; [|discriminate]. destruct (q_phase q); [|discriminate].
    destruct (nth_error (vs_threads s) (q_thread q)) as [[h n]|]; [|discriminate]. destruct h; discriminate.
  - unfold vshutdown in E. destruct (vs_join s); [destruct (nth_error _ _) as [[[] ?]|]|destruct (vs_down s)]; discriminate.
Qed.
Lemma v_threads nocopy l : forall s s', vrun nocopy l s = VNext s' -> length (vs_threads s') = length (vs_threads s).
Proof.
  induction l as [|a l IH]; intros s s' E; cbn [vrun] in E; [injection E as <-; reflexivity|].
  destruct (vstep nocopy a s) as [s1|c|] eqn:Es; [|discriminate|eauto]. rewrite (IH s1 s' E). clear E IH.
  destruct a as [|t m|i|]; cbn [vstep] in Es.
  - injection Es as <-. reflexivity.
  - unfold vthread_step in Es. destruct (nth_error (vs_threads s) t) as [[[| |msg c| |] n]|]; try discriminate.
    + destruct (vs_set s); [|discriminate]. injection Es as <-. apply lset_length.
    + destruct (vs_down s); [injection Es as <-; apply lset_length|]. destruct m as [[msg c]|]; [|injection Es as <-; reflexivity].
      destruct (Nat.eqb _ _); injection Es as <-; [reflexivity|apply lset_length].
    + destruct (vs_mapped s); [|discriminate]. destruct (homa_parse _ _ _); [discriminate|]. injection Es as <-. apply lset_length.
    + destruct (Z.eqb _ _); [|discriminate]. injection Es as <-. apply lset_length.
  - unfold vanswer in Es. destruct (nth_error (vs_reqs s) i) as [q|]; [|discriminate]. destruct (q_phase q); [|discriminate].
    destruct (nth_error (vs_threads s) (q_thread q)) as [[h n]|]; [|discriminate]. destruct h; try discriminate; injection Es as <-; apply lset_length.
  - unfold vshutdown in Es. destruct (vs_join s); [destruct (nth_error _ _) as [[[] ?]|]|destruct (vs_down s)]; try discriminate; injection Es as <-; reflexivity.
Qed.
(** A crash comes from the step that follows some run. *)
Lemma vcrash_step nocopy l c : forall s, vrun nocopy l s = VCrash c -> exists l1 a s1, vrun nocopy l1 s = VNext s1 /\ vstep nocopy a s1 = VCrash c.
Proof.
  induction l as [|a l IH]; intros s E; cbn [vrun] in E; [discriminate|]. destruct (vstep nocopy a s) as [s1|c1|] eqn:Es.
  - destruct (IH s1 E) as (l1 & b & s2 & R & S2). exists (a :: l1), b, s2. cbn [vrun]. rewrite Es. auto.
  - exists [], a, s. split; [reflexivity|]. congruence.
  - destruct (IH s E) as (l1 & b & s2 & R & S2). exists l1, b, s2. auto.
Qed.
