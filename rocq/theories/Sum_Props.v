(** C40 and C41: the summary of a test result. *)
From Coq Require Import Ascii String List ZArith Bool Lia SpecFloat Permutation Sorted.
From Verif Require Import Base_Model Base_Proofs Float_Model Float_Proofs Log_Model Log_Proofs2 Sum_Model Sum_Proofs Sum_Proofs2.
Import ListNotations.
Open Scope Z_scope.

(** The logs are protobuf maps, so keys do not repeat. *)
Definition unique_keys (l : result_log) : Prop := NoDup (map fst l) /\ Forall (fun ip => NoDup (map fst (snd ip))) l.
Lemma unique_pairs : forall l, unique_keys l -> NoDup (map fst (peers l)).
Proof.
  intros l [A B]. induction l as [|[i ps] l IH]; [constructor|]. cbn [map fst] in A. inversion A as [|? ? A1 A2]; subst. inversion B as [|? ? B1 B2]; subst.
  unfold peers. cbn [flat_map fst snd]. rewrite map_app, map_map. cbn [fst snd] in *.
  assert (X : forall ys : list (str * str), NoDup ys -> (forall d, ~ In (i, d) ys) -> NoDup (map (fun p : str * peer_log => (i, fst p)) ps ++ ys)).
  { intros ys Y N. clear - B1 Y N. induction ps as [|[d pl] ps IH]; cbn [map app]; [assumption|]. inversion B1; subst. constructor; [|auto].
    rewrite in_app_iff. intros [X|X]; [|exact (N _ X)]. apply in_map_iff in X. destruct X as [[e q] [X Y2]]. injection X as <-. apply H1. apply in_map_iff. exists (e, q). auto. }
  apply X; [apply IH; assumption|]. intros d I. apply in_map_iff in I. destruct I as [[[i' d'] pl] [E I]]. cbn [fst] in E. injection E as -> ->.
  apply in_flat_map in I. destruct I as [[j qs] [J I]]. apply in_map_iff in I. destruct I as [q [I _]]. cbn [fst snd] in I. injection I as -> _ _. apply A1.
  apply in_map_iff. exists (i, qs). auto.
Qed.

(** The samples that are counted: successful, not warmup; all of them, and
    those with a given initiator or target. *)
Definition counted (l : result_log) : list (nat * sample) := flat_map (fun p => timed (oks (snd p))) (peers l).
Definition counted_from (k : str) (l : result_log) : list (nat * sample) :=
  flat_map (fun p => if str_eqb (fst (fst p)) k then timed (oks (snd p)) else []) (peers l).
Definition counted_to (k : str) (l : result_log) : list (nat * sample) :=
  flat_map (fun p => if str_eqb (snd (fst p)) k then timed (oks (snd p)) else []) (peers l).
Lemma flat_sum : forall (f : nat * sample -> Z) (g : ((str * str) * peer_log) -> list (nat * sample)) ps,
  zsum (map f (flat_map g ps)) = zsum (map (fun p => zsum (map f (g p))) ps).
Proof. intros f g. induction ps as [|p ps IH]; cbn [flat_map map zsum]; [reflexivity|]. rewrite map_app, zsum_app, IH. reflexivity. Qed.
Lemma summarize_inv : forall names l s, summarize names l = Some (Summary s) ->
  exists t la it, sum_instances names l totals0 = Some t /\ to_time t <> 0 /\ lat_all (to_lat t) = Some la /\ inst_all (to_perf t) (mkIT [] 0 0) = Some it
  /\ s = mkSummary la (to_perf t) (if it_rpcs it =? 0 then None else Some (it_map it, it_rpcs it, it_tx it)) (to_time t) (to_samples t) (to_warm t) (to_failed t).
Proof.
  intros names l s H. unfold summarize in H. apply bind_inv in H. destruct H as [t [E H]]. destruct (Z.eqb_spec (to_time t) 0) as [T|T]; [discriminate|].
  apply bind_inv in H. destruct H as [la [L H]]. apply bind_inv in H. destruct H as [it [I H]]. injection H as <-. exists t, la, it. auto.
Qed.
Lemma perf_list : forall names l t, unique_keys l -> sum_instances names l totals0 = Some t -> to_perf t = map (fun p => (fst p, perf_of (snd p))) (peers l).
Proof. intros names l t U E. destruct (sum_instances_rel names l totals0 t E) as [A _ _ _ _ _ _ _ _ _ _]. cbn [to_perf totals0 map app] in A. apply A. now apply unique_pairs. Qed.

Lemma find_of_In : forall V (m : list (str * V)) n v, NoDup (map fst m) -> In (n, v) m -> map_find n m = Some v.
Proof.
  intros V m n v ND I. induction m as [|[k u] m IH]; [destruct I|]. cbn [map fst] in ND. inversion ND; subst. cbn [map_find].
  destruct I as [I|I]; [injection I as -> ->; rewrite str_eqb_refl; reflexivity|]. destruct (str_eqb_spec n k) as [->|X]; [|auto].
  exfalso. apply H1. apply in_map_iff. exists (k, v). auto.
Qed.

(** ** C40 *)
(** Bytes sent by all instances = bytes received by all instances = the total
    = the sizes of all successful RPCs that are not warmup. *)
Theorem C40_conserved : forall names l s m n x, unique_keys l -> summarize names l = Some (Summary s) -> sm_inst s = Some (m, n, x) ->
  x = zsum (map (fun y => req y + resp y) (counted l))
  /\ zsum (map (fun e => is_tx (snd e)) m) = x /\ zsum (map (fun e => is_rx (snd e)) m) = x.
Proof.
  intros names l s m n x U H E. destruct (summarize_inv _ _ _ H) as [t [la [it [A [B [C [D ->]]]]]]]. cbn [sm_inst] in E.
  destruct (it_rpcs it =? 0); [discriminate|]. injection E as <- <- <-.
  destruct (inst_all_spec _ _ _ D ltac:(constructor)) as [_ [_ [_ [_ [T [X Y]]]]]]. cbn [it_map it_rpcs it_tx map zsum] in *.
  split; [|split; lia]. rewrite T, (perf_list names l t U A), map_map. unfold counted. rewrite flat_sum. cbn [snd]. unfold perf_of. cbn [pf_request pf_response].
  rewrite Z.add_0_l. f_equal. apply map_ext. intros p. symmetry. apply bytes_split.
Qed.
Print Assumptions C40_conserved.
(** Each instance: it sent the requests of its own RPCs and the responses of
    those sent to it, and received the others.  Exactly the instances that
    occur are listed, once. *)
Theorem C40_instances : forall names l s m n x, unique_keys l -> summarize names l = Some (Summary s) -> sm_inst s = Some (m, n, x) ->
  NoDup (map fst m)
  /\ (forall k, In k (map fst m) <-> exists p, In p (peers l) /\ (k = fst (fst p) \/ k = snd (fst p)))
  /\ forall k v, In (k, v) m ->
       is_tx v = zsum (map req (counted_from k l)) + zsum (map resp (counted_to k l))
       /\ is_rx v = zsum (map resp (counted_from k l)) + zsum (map req (counted_to k l)).
Proof.
  intros names l s m n x U H E. destruct (summarize_inv _ _ _ H) as [t [la [it [A [B [C [D ->]]]]]]]. cbn [sm_inst] in E.
  destruct (it_rpcs it =? 0); [discriminate|]. injection E as <- <- <-.
  destruct (inst_all_spec _ _ _ D ltac:(constructor)) as [ND [G [K _]]]. cbn [it_map map In] in *. rewrite (perf_list names l t U A) in *.
  split; [exact ND|]. split.
  - intros k. rewrite K. split.
    + intros [[]|[e [I X]]]. apply in_map_iff in I. destruct I as [p [<- I]]. exists p. auto.
    + intros [p [I X]]. right. exists (fst p, perf_of (snd p)). split; [apply in_map_iff; exists p; auto|exact X].
  - intros k v I. assert (F : inst_get k (it_map it) = v).
    { unfold inst_get. rewrite (find_of_In _ _ k v ND I). reflexivity. }
    specialize (G k). rewrite F in G. cbn [inst_get map_find is_tx is_rx] in G. destruct G as [-> ->].
    unfold tx_of, rx_of, counted_from, counted_to. rewrite !map_map, !flat_sum. cbn [fst snd]. unfold perf_of. cbn [pf_request pf_response].
    clear. split; (induction (peers l) as [|p ps IH]; cbn [map zsum]; [reflexivity|]); destruct (str_eqb (fst (fst p)) k), (str_eqb (snd (fst p)) k); cbn [sel map zsum inst_get map_find is_tx is_rx] in *; lia.
Qed.
Print Assumptions C40_instances.
(** The communication summary has one line for each pair of instances, with the
    number of its successful RPCs and the bytes of those that are not warmup. *)
Theorem C40_pairs : forall names l s, unique_keys l -> summarize names l = Some (Summary s) ->
  sm_comm s = map (fun p => (fst p, mkPerf (len (oks (snd p))) (zsum (map req (timed (oks (snd p))))) (zsum (map resp (timed (oks (snd p))))))) (peers l)
  /\ NoDup (map fst (sm_comm s)).
Proof.
  intros names l s U H. destruct (summarize_inv _ _ _ H) as [t [la [it [A [B [C [D ->]]]]]]]. cbn [sm_comm].
  rewrite (perf_list names l t U A). split; [reflexivity|]. rewrite map_map. cbn [fst]. now apply unique_pairs.
Qed.
Print Assumptions C40_pairs.
(** The counters. *)
Theorem C40_counters : forall names l s, summarize names l = Some (Summary s) ->
  sm_samples s = zsum (map (fun p => len (oks (snd p)) + len (fails (snd p))) (peers l))
  /\ sm_failed s = zsum (map (fun p => len (fails (snd p))) (peers l))
  /\ sm_samples s = sm_failed s + sm_warm s + len (counted l)
  /\ (unique_keys l -> forall m n x, sm_inst s = Some (m, n, x) -> n = sm_samples s - sm_failed s).
Proof.
  intros names l s H. destruct (summarize_inv _ _ _ H) as [t [la [it [A [B [C [D ->]]]]]]]. cbn [sm_samples sm_failed sm_warm sm_inst].
  destruct (sum_instances_rel names l totals0 t A) as [_ A2 A3 A4 _ _ _ _ _ _ _]. cbn [to_samples to_failed to_warm totals0] in *. rewrite Z.add_0_l in *.
  split; [assumption|]. split; [assumption|]. split.
  - rewrite A2, A3, A4. unfold counted. clear. induction (peers l) as [|p ps IH]; cbn [map zsum flat_map]; [reflexivity|]. rewrite len_app.
    pose proof (len_timed_warm (oks (snd p))). lia.
  - intros U m n x E. destruct (it_rpcs it =? 0); [discriminate|]. injection E as <- <- <-.
    destruct (inst_all_spec _ _ _ D ltac:(constructor)) as [_ [_ [_ [R _]]]]. cbn [it_rpcs] in R. rewrite R, (perf_list names l t U A), map_map, A2, A3.
    unfold perf_of. cbn [snd pf_rpcs]. clear. induction (peers l) as [|p ps IH]; cbn [map zsum]; lia.
Qed.
Print Assumptions C40_counters.
(** The total time is the longest time from the start of one RPC to the end of
    another on the same pair of instances; there is no summary exactly if no
    such time is positive. *)
Definition elapsed (l : result_log) (d : Z) : Prop :=
  exists p a b, In p (peers l) /\ In a (timed (oks (snd p))) /\ In b (timed (oks (snd p))) /\ d = t1 b - t0 a.
Theorem C40_time : forall names l, (forall p x, In p (peers l) -> In x (timed (oks (snd p))) -> in_int64 (t0 x) = true) ->
  (forall s, summarize names l = Some (Summary s) -> 0 < sm_time s /\ elapsed l (sm_time s) /\ forall d, elapsed l d -> d <= sm_time s)
  /\ (summarize names l = Some NoSummary -> forall d, elapsed l d -> d <= 0).
Proof.
  intros names l I64.
  assert (K : forall t, sum_instances names l totals0 = Some t ->
     (forall d, elapsed l d -> d <= Z.max (to_time t) 0) /\ 0 <= to_time t /\ (to_time t <> 0 -> elapsed l (to_time t))).
  { intros t A. destruct (sum_instances_rel names l totals0 t A) as [_ _ _ _ _ _ _ [T1 T2] T3 TF _]. cbn [to_time totals0] in *. split; [|split; [assumption|]].
    - intros d [p [a [b [I [Ia [Ib ->]]]]]]. assert (NE : timed (oks (snd p)) <> []) by (intros X; rewrite X in Ia; destruct Ia).
      specialize (T2 p I NE). unfold span in T2. pose proof (proj2 (fold_max_ge (map t1 (timed (oks (snd p)))) int64_min) (t1 b) (in_map t1 _ _ Ib)).
      pose proof (proj2 (fold_min_le (map t0 (timed (oks (snd p)))) int64_max) (t0 a) (in_map t0 _ _ Ia)). lia.
    - intros NZ. destruct T3 as [T3|[p [I [NE T3]]]]; [congruence|]. destruct (timed (oks (snd p))) as [|z r] eqn:TT; [congruence|].
      assert (Z1 : exists b, In b (timed (oks (snd p))) /\ fold_left Z.max (map t1 (timed (oks (snd p)))) int64_min = t1 b).
      { destruct (fold_max_in (map t1 (timed (oks (snd p)))) int64_min) as [X|X].
        - exists z. split; [rewrite TT; left; reflexivity|]. pose proof (proj2 (fold_max_ge (map t1 (timed (oks (snd p)))) int64_min) (t1 z)) as G.
          rewrite TT in *. specialize (G (or_introl eq_refl)). specialize (TF p I). rewrite TT, Forall_forall in TF. specialize (TF z (or_introl eq_refl)).
          rewrite X in *. unfold in_int64, int64_min in *. lia.
        - apply in_map_iff in X. destruct X as [b [X Ib]]. exists b. auto. }
      assert (Z2 : exists a, In a (timed (oks (snd p))) /\ fold_left Z.min (map t0 (timed (oks (snd p)))) int64_max = t0 a).
      { destruct (fold_min_in (map t0 (timed (oks (snd p)))) int64_max) as [X|X].
        - exists z. split; [rewrite TT; left; reflexivity|]. pose proof (proj2 (fold_min_le (map t0 (timed (oks (snd p)))) int64_max) (t0 z)) as G.
          rewrite TT in *. specialize (G (or_introl eq_refl)). assert (Q := I64 p z I). rewrite TT in Q. specialize (Q (or_introl eq_refl)).
          rewrite X in *. unfold in_int64, int64_max in *. lia.
        - apply in_map_iff in X. destruct X as [b [X Ib]]. exists b. auto. }
      destruct Z1 as [b [Ib Eb]], Z2 as [a [Ia Ea]]. exists p, a, b. repeat (split; [assumption|]). rewrite T3. unfold span. rewrite Eb, Ea. reflexivity. }
  split.
  - intros s H. destruct (summarize_inv _ _ _ H) as [t [la [it [A [B [C [D ->]]]]]]]. cbn [sm_time]. destruct (K t A) as [K1 [K2 K3]].
    split; [lia|]. split; [auto|]. intros d X. specialize (K1 d X). lia.
  - intros H d X. unfold summarize in H. apply bind_inv in H. destruct H as [t [A H]]. destruct (K t A) as [K1 [K2 K3]].
    destruct (Z.eqb_spec (to_time t) 0) as [T|T].
    + specialize (K1 d X). lia.
    + apply bind_inv in H. destruct H as [la [_ H]]. apply bind_inv in H. destruct H as [it [_ H]]. discriminate.
Qed.
Print Assumptions C40_time.
(** The summary exists: no overflow and no access outside an array, if every
    RPC index has a description, times and sizes are sensible and the totals
    fit in 64 bits. *)
Theorem C40_defined : forall names l, unique_keys l -> Forall (peer_fits names) (peers l) ->
  zsum (map (fun y => req y + resp y) (counted l)) <= int64_max ->
  zsum (map (fun p => len (oks (snd p)) + len (fails (snd p))) (peers l)) <= int64_max -> len (counted l) <= 2 ^ 42 ->
  exists r, summarize names l = Some r.
Proof.
  intros names l U F B S N. assert (AB : all_bytes (peers l) <= int64_max) by (unfold counted in B; rewrite flat_sum in B; exact B).
  destruct (sum_instances_ok names l totals0) as [t A]; [assumption|repeat split; cbn; lia|assumption|exact S|].
  unfold summarize. rewrite A. cbn [bind]. destruct (to_time t =? 0); [eauto|].
  destruct (sum_instances_rel names l totals0 t A) as [_ _ _ _ A5 A6 _ _ _ _ _]. cbn [to_lat totals0 lget map_find app map] in A5.
  destruct (lat_all_spec (to_lat t)) as [la [L _]].
  { intros n v I. assert (V : lget n (to_lat t) = v).
    { unfold lget. rewrite (find_of_In _ _ n v (A6 ltac:(constructor)) I). reflexivity. }
    rewrite <- V, A5. apply Z.le_trans with (2 := N). unfold counted, len. rewrite map_length.
    assert (X : forall A (f : A -> bool) q, (length (filter f q) <= length q)%nat) by (intros A0 f; induction q as [|y q IH]; cbn [filter length]; [lia|destruct (f y); cbn [length]; lia]).
    specialize (X _ (named names n) (flat_map (fun p => timed (oks (snd p))) (peers l))). lia. }
  rewrite L. cbn [bind]. destruct (inst_all_ok (to_perf t) (mkIT [] 0 0)) as [it I].
  - rewrite (perf_list names l t U A). rewrite Forall_forall. intros e I. apply in_map_iff in I. destruct I as [p [<- I]]. cbn [snd]. unfold perf_of. cbn [pf_rpcs pf_request pf_response].
    rewrite Forall_forall in F. destruct (F p I) as [_ F2 _]. destruct (bytes_nonneg _ F2). pose proof (len_nonneg _ (oks (snd p))). auto.
  - cbn; lia.
  - cbn; lia.
  - intros k. cbn. lia.
  - cbn [it_rpcs]. rewrite (perf_list names l t U A), map_map. unfold perf_of. cbn [snd pf_rpcs].
    assert (zsum (map (fun p => len (oks (snd p))) (peers l)) <= zsum (map (fun p => len (oks (snd p)) + len (fails (snd p))) (peers l))); [|lia].
    clear. induction (peers l) as [|p ps IH]; cbn [map zsum]; [lia|]. pose proof (len_nonneg _ (fails (snd p))). lia.
  - cbn [it_tx]. rewrite (perf_list names l t U A), map_map. unfold perf_of. cbn [snd pf_request pf_response]. unfold all_bytes in AB.
    rewrite (map_ext _ (fun p => bytes (timed (oks (snd p))))) by (intros p; symmetry; apply bytes_split). lia.
  - rewrite I. cbn [bind]. eauto.
Qed.
Print Assumptions C40_defined.

(** One client; a warmup RPC, two counted ones and a failure. *)
Definition sm1 (start lt : Z) (w : bool) : sample := mkSample start lt None 100 40 w None None.
Definition log1 : result_log :=
  [(s_ "client/0", [(s_ "server/0", [(0%nat, ([sm1 1000 50 true; sm1 2000 30 false; sm1 2010 90 false], [sm1 5 5 false]))]); (s_ "client/0", [])]);
   (s_ "server/0", [(s_ "client/0", [(1%nat, ([sm1 7000 10 false], []))])])].
Definition names1 : list str := [s_ "query"; s_ "reply"].
Example C40_example_fits : unique_keys log1 /\ Forall (peer_fits names1) (peers log1)
  /\ zsum (map (fun y => req y + resp y) (counted log1)) = 420 /\ len (counted log1) = 3.
Proof.
  split.
  { split; [|repeat constructor]; cbn; repeat constructor; cbn; intros X; repeat destruct X as [X|X]; try discriminate; try contradiction. }
  split; [|split; reflexivity].
  repeat constructor; try (intros rl X; repeat destruct X as [<-|X]; cbn; try congruence; contradiction); try (cbn; unfold req, resp, sm1; cbn; lia); try (intros X; vm_compute; reflexivity); try (intros X; exfalso; apply X; reflexivity).
Qed.
Example C40_example : exists la, summarize names1 log1 = Some (Summary (mkSummary la
    [((s_ "client/0", s_ "server/0"), mkPerf 3 200 80); ((s_ "client/0", s_ "client/0"), mkPerf 0 0 0); ((s_ "server/0", s_ "client/0"), mkPerf 1 100 40)]
    (Some ([(s_ "client/0", mkInst 240 180); (s_ "server/0", mkInst 180 240)], 4, 420)) 100 5 1 1)).
Proof. eexists. vm_compute. reflexivity. Qed.
Example C40_example_time : elapsed log1 100 /\ summarize names1 [(s_ "client/0", [(s_ "server/0", [(0%nat, ([sm1 1000 50 true], []))])])] = Some NoSummary.
Proof.
  split; [|vm_compute; reflexivity]. exists ((s_ "client/0", s_ "server/0"), [(0%nat, ([sm1 1000 50 true; sm1 2000 30 false; sm1 2010 90 false], [sm1 5 5 false]))]), (0%nat, sm1 2000 30 false), (0%nat, sm1 2010 90 false).
  split; [left; reflexivity|]. split; [left; reflexivity|]. split; [right; left; reflexivity|]. reflexivity.
Qed.
(** FINDING: the number of RPCs of a pair, and so the reported rate, counts the
    warmup RPCs, although their bytes, latencies and time are left out. *)
Theorem C40_rate_without_warmup_refuted : exists names l s k p, unique_keys l /\ summarize names l = Some (Summary s)
  /\ In (k, p) (sm_comm s) /\ exists pl, In (k, pl) (peers l) /\ pf_rpcs p <> len (timed (oks pl)).
Proof.
  exists names1, log1. eexists. exists (s_ "client/0", s_ "server/0"). eexists. split; [apply C40_example_fits|].
  split; [vm_compute; reflexivity|]. cbn [sm_comm]. split; [left; reflexivity|]. eexists. split; [left; reflexivity|]. vm_compute. discriminate.
Qed.
Print Assumptions C40_rate_without_warmup_refuted.

(** ** C41 *)
(** The values LatencySummary prints for the sorted latencies: no access is
    outside the list, all are real latencies in non-decreasing order, and each
    percentile a/b has at least the fraction a/b of the latencies at or below
    it and at least 1 - a/b at or above it.  The index is computed in double. *)
Theorem C41_percentiles : forall l, 0 < len l <= 2 ^ 42 -> exists mn md p90 p99 p999 mx,
  latency_summary (sort_end (fun z => z) l) = Some (mkLat (length l) (Some (mn, md, p90, p99, p999, mx)))
  /\ Forall (fun x => In x l) [mn; md; p90; p99; p999; mx]
  /\ (forall x, In x l -> mn <= x <= mx) /\ mn <= md <= p90 /\ p90 <= p99 <= p999 /\ p999 <= mx
  /\ quantile 1 2 md l /\ quantile 9 10 p90 l /\ quantile 99 100 p99 l /\ quantile 999 1000 p999 l.
Proof.
  intros l L. pose proof (sort_end_perm Z (fun z => z) l) as P.
  destruct (latency_summary_good (sort_end (fun z => z) l) (sort_ordered l)) as [s [E G]]; [rewrite (len_perm _ _ _ P); lia|].
  apply (good_perm _ _ _ P) in G. destruct s as [n v]. destruct G as [G1 G2]. cbn [la_n la_values] in *. subst n.
  destruct v as [[[[[[mn md] p90] p99] p999] mx]|]; [|subst l; cbn in L; lia]. exists mn, md, p90, p99, p999, mx. auto.
Qed.
Print Assumptions C41_percentiles.
(** In the whole summary: one line for each RPC name that has a log, whose
    values are those of the latencies of all counted RPCs of that name. *)
Theorem C41_reported : forall names l s, summarize names l = Some (Summary s) -> len (counted l) <= 2 ^ 42 ->
  NoDup (map fst (sm_lat s))
  /\ (forall n, In n (map fst (sm_lat s)) <-> exists p rl, In p (peers l) /\ In rl (snd p) /\ nth_error names (fst rl) = Some n)
  /\ forall n v, In (n, v) (sm_lat s) -> good_summary (map lat (filter (named names n) (counted l))) v.
Proof.
  intros names l s H N. destruct (summarize_inv _ _ _ H) as [t [la [it [A [B [C [D ->]]]]]]]. cbn [sm_lat].
  destruct (sum_instances_rel names l totals0 t A) as [_ _ _ _ A5 A6 A7 _ _ _ _]. cbn [to_lat totals0 map app] in *. specialize (A6 ltac:(constructor)).
  assert (LG : forall n v, In (n, v) (to_lat t) -> v = map lat (filter (named names n) (counted l))).
  { intros n v I. assert (V : lget n (to_lat t) = v).
    { unfold lget. rewrite (find_of_In _ _ n v A6 I). reflexivity. }
    rewrite <- V. apply A5. }
  destruct (lat_all_spec (to_lat t)) as [la' [L [K G]]].
  { intros n v I. rewrite (LG n v I). apply Z.le_trans with (2 := N). unfold len. rewrite map_length.
    assert (X : forall A (f : A -> bool) q, (length (filter f q) <= length q)%nat) by (intros A0 f; induction q as [|y q IH]; cbn [filter length]; [lia|destruct (f y); cbn [length]; lia]).
    specialize (X _ (named names n) (counted l)). lia. }
  rewrite C in L. injection L as <-. rewrite K. split; [assumption|]. split.
  - intros n. rewrite A7. cbn [In]. tauto.
  - intros n v I. destruct (G n v I) as [w [W1 W2]]. rewrite <- (LG n w W1). assumption.
Qed.
Print Assumptions C41_reported.

Example C41_example_lines : exists s, summarize names1 log1 = Some (Summary s)
  /\ sm_lat s = [(s_ "query", mkLat 2 (Some (30, 90, 90, 90, 90, 90))); (s_ "reply", mkLat 1 (Some (10, 10, 10, 10, 10, 10)))].
Proof. eexists. split; vm_compute; reflexivity. Qed.
(** A thousand latencies 1..1000 (given in falling order). *)
Example C41_example : let l := rev (map Z.of_nat (seq 1 1000)) in
  0 < len l <= 2 ^ 42 /\ latency_summary (sort_end (fun z => z) l) = Some (mkLat 1000 (Some (1, 501, 901, 991, 1000, 1000))).
Proof. cbv zeta. split; [split; vm_compute; congruence|]. vm_compute. reflexivity. Qed.
(** The literals are the nearest doubles. *)
Example C41_example_literals : SFdiv 53 1024 (f64_of_Z 9) (f64_of_Z 10) = f64_0_9 /\ SFdiv 53 1024 (f64_of_Z 99) (f64_of_Z 100) = f64_0_99
  /\ SFdiv 53 1024 (f64_of_Z 999) (f64_of_Z 1000) = f64_0_999 /\ SFdiv 53 1024 (f64_of_Z 1) (f64_of_Z 2) = f64_0_5.
Proof. repeat split; vm_compute; reflexivity. Qed.
