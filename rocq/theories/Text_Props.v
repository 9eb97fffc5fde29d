(** C79: what the text of a summary says. *)
From Coq Require Import Ascii String List NArith ZArith Bool Lia Lqa QArith Qabs SpecFloat Permutation Sorted.
From Verif Require Import Base_Model Base_Proofs Grid_Model Place_Model Place_Proofs Util_Model Net_Model Table_Model Cli_Model.
From Verif Require Seq_Model.
From Verif Require Import Node_Model Cluster_Model Cluster_Props Peer_Model Deliver_Model Deliver_Props Log_Model Log_Proofs2 Sum_Model Sum_Proofs Sum_Proofs2 Sum_Props Report_Model Report_Proofs Report_Proofs2 Report_Props.
From Verif Require Import Float_Model Text_Model Float_Proofs3 Text_Proofs Text_Proofs2.
Import ListNotations.
Open Scope Z_scope.

(** ** What a line says *)
(** [shows p s q] (Text_Proofs): the text [s] is a decimal fraction with [p]
    decimals that differs from [q] by at most half a unit of the last decimal
    and one part in 2^50. *)
Definition per_second (n : Z) (ns : Z) : Q := (inject_Z n / (inject_Z ns / 1000000000))%Q.
(** The RPCs called [name] had the latencies [ls]. *)
Definition latency_says (name : str) (ls : list Z) (line : str) : Prop :=
  (ls = [] /\ line = s_ "  " ++ name ++ s_ ": N: 0") \/
  exists mn md p90 p99 p999 mx,
    line = s_ "  " ++ name ++ s_ ": N: " ++ dec_of_Z (len ls) ++ s_ " min: " ++ dec_of_Z mn ++ s_ "ns median: " ++ dec_of_Z md ++ s_ "ns 90%: " ++ dec_of_Z p90 ++
           s_ "ns 99%: " ++ dec_of_Z p99 ++ s_ "ns 99.9%: " ++ dec_of_Z p999 ++ s_ "ns max: " ++ dec_of_Z mx ++ s_ "ns" /\
    Forall (fun x => In x ls) [mn; md; p90; p99; p999; mx] /\ (forall x, In x ls -> mn <= x <= mx) /\
    quantile 1 2 md ls /\ quantile 9 10 p90 ls /\ quantile 99 100 p99 ls /\ quantile 999 1000 p999 ls.
(** [n] RPCs from [fst k] to [snd k] succeeded, their requests had [rx] and
    the responses [ry] bytes; the test took [ns]. *)
Definition pair_says (ns : Z) (k : str * str) (n rx ry : Z) (line : str) : Prop :=
  exists rate x y,
    line = s_ "  " ++ fst k ++ s_ " -> " ++ snd k ++ s_ ": RPCs: " ++ dec_of_Z n ++ s_ " (" ++ rate ++ s_ " kQPS) Request: " ++ x ++ s_ " MiB/s Response: " ++ y ++ s_ " MiB/s" /\
    shows 2 rate (per_second n ns / 1000) /\ shows 1 x (per_second rx ns / 1048576) /\ shows 1 y (per_second ry ns / 1048576).
(** The instance [k] sent [out] bytes and received [inc]. *)
Definition instance_says (ns : Z) (k : str) (out inc : Z) (line : str) : Prop :=
  exists tx rx, line = s_ "  " ++ k ++ s_ ": Tx: " ++ tx ++ s_ " MiB/s, Rx:" ++ rx ++ s_ " MiB/s" /\
    shows 1 tx (per_second out ns / 1048576) /\ shows 1 rx (per_second inc ns / 1048576).
(** There were [ok] successful and [failed] other RPCs; [warm] of them belonged
    to the warm-up, the rest transferred [bytes]. *)
Definition totals_say (ns ok failed warm bytes : Z) (lines : list str) : Prop :=
  exists time rate kqps,
    lines = [s_ "Global summary:"; s_ "  Total samples: " ++ dec_of_Z (ok + failed); s_ "  Failed samples: " ++ dec_of_Z failed;
             s_ "  Warmup samples: " ++ dec_of_Z warm; s_ "  Total time: " ++ time ++ s_ "s";
             s_ "  Total Tx: " ++ dec_of_Z (bytes / 1048576) ++ s_ " MiB (" ++ rate ++ s_ " MiB/s), Total Nb RPCs: " ++ dec_of_Z ok ++ s_ " (" ++ kqps ++ s_ " kQPS)"] /\
    shows 3 time (inject_Z ns / 1000000000) /\ shows 1 rate (per_second bytes ns / 1048576) /\ shows 2 kqps (per_second ok ns / 1000).

(** ** What was recorded *)
Definition bytes_out (l : result_log) (k : str) : Z := zsum (map req (counted_from k l)) + zsum (map resp (counted_to k l)).
Definition bytes_in (l : result_log) (k : str) : Z := zsum (map resp (counted_from k l)) + zsum (map req (counted_to k l)).
Definition all_oks (l : result_log) : Z := zsum (map (fun p => len (oks (snd p))) (peers l)).
Definition all_fails (l : result_log) : Z := zsum (map (fun p => len (fails (snd p))) (peers l)).
Definition total_bytes (l : result_log) : Z := zsum (map (fun y => req y + resp y) (counted l)).
(** The logs of a test that the summary can handle. *)
Record sane_log (names : list str) (l : result_log) : Prop := mkSaneLog {
  sl_keys : unique_keys l;
  sl_fits : Forall (peer_fits names) (peers l);
  sl_start : forall p x, In p (peers l) -> In x (timed (oks (snd p))) -> in_int64 (t0 x) = true;
  sl_bytes : total_bytes l <= int64_max;
  sl_many : all_oks l + all_fails l <= int64_max;
  sl_counted : len (counted l) <= 2 ^ 42 }.

(** ** Helpers *)
Lemma shows_eq p s q q' : (q == q')%Q -> shows p s q -> shows p s q'.
Proof. intros E (d & R & A). exists d. split; [exact R|]. rewrite <- E. exact A. Qed.
Lemma mib_per_second p n ns : 0 <= n <= int64_max -> time_ok ns -> shows p (fixed p (mib_rate n (seconds ns))) (per_second n ns / 1048576).
Proof.
  intros H T. apply (shows_eq _ _ (inject_Z n / 1048576 / (inject_Z ns / 1000000000))%Q); [|apply mib_shows; [unfold int64_max in H; lia|exact T]].
  unfold per_second. pose proof (inj_pos ns (proj1 T)). field. lra.
Qed.
Lemma kqps_per_second p n ns : 0 <= n <= int64_max -> time_ok ns -> shows p (fixed p (f64_div (f64_div (f64_of_Z n) (seconds ns)) f64_1000)) (per_second n ns / 1000).
Proof. intros H T. unfold per_second. apply kqps_shows; [unfold int64_max in H; lia|exact T]. Qed.
Lemma total_kqps_per_second p n ns : 0 <= n <= int64_max -> time_ok ns -> shows p (fixed p (f64_div (f64_div (f64_of_Z n) f64_1000) (seconds ns))) (per_second n ns / 1000).
Proof.
  intros H T. apply (shows_eq _ _ (inject_Z n / 1000 / (inject_Z ns / 1000000000))%Q); [|apply total_kqps_shows; [unfold int64_max in H; lia|exact T]].
  unfold per_second. pose proof (inj_pos ns (proj1 T)). field. lra.
Qed.
Lemma Forall2_map_right {A B} (P : A -> B -> Prop) (f : A -> B) l : (forall x, In x l -> P x (f x)) -> Forall2 P l (map f l).
Proof. induction l as [|x l IH]; intros H; cbn [map]; constructor; [apply H; left; reflexivity|apply IH; intros y I; apply H; right; exact I]. Qed.
Lemma Forall2_map_both {A B C} (P : B -> C -> Prop) (f : A -> B) (g : A -> C) l : (forall x, In x l -> P (f x) (g x)) -> Forall2 P (map f l) (map g l).
Proof. induction l as [|x l IH]; intros H; cbn [map]; constructor; [apply H; left; reflexivity|apply IH; intros y I; apply H; right; exact I]. Qed.
Lemma zsum_le_one {A} (f : A -> Z) l x : (forall y, In y l -> 0 <= f y) -> In x l -> f x <= zsum (map f l).
Proof.
  induction l as [|y l IH]; intros H I; [destruct I|]. destruct I as [->|I]; cbn [map zsum].
  - assert (0 <= zsum (map f l)); [|lia]. clear IH. assert (G : forall y, In y l -> 0 <= f y) by (intros; apply H; right; assumption). clear H.
    induction l as [|z l IH]; cbn [map zsum]; [lia|]. pose proof (G z (or_introl eq_refl)). assert (0 <= zsum (map f l)) by (apply IH; intros; apply G; right; assumption). lia.
  - pose proof (H y (or_introl eq_refl)). assert (f x <= zsum (map f l)) by (apply IH; [intros; apply H; right; assumption|assumption]). lia.
Qed.
Lemma zsum_nonneg {A} (f : A -> Z) l : (forall y, In y l -> 0 <= f y) -> 0 <= zsum (map f l).
Proof. induction l as [|y l IH]; intros H; cbn [map zsum]; [lia|]. pose proof (H y (or_introl eq_refl)). assert (0 <= zsum (map f l)) by (apply IH; intros; apply H; right; assumption). lia. Qed.

Section Sane.
Variables (names : list str) (l : result_log).
Hypothesis Sa : sane_log names l.
Lemma sane_bytes p : In p (peers l) -> 0 <= zsum (map req (timed (oks (snd p)))) /\ 0 <= zsum (map resp (timed (oks (snd p)))).
Proof. intros I. pose proof (sl_fits _ _ Sa) as F. rewrite Forall_forall in F. exact (bytes_nonneg _ (pt_samples _ _ (F p I))). Qed.
Lemma total_split : total_bytes l = zsum (map (fun p => zsum (map req (timed (oks (snd p)))) + zsum (map resp (timed (oks (snd p))))) (peers l)).
Proof. unfold total_bytes, counted. rewrite flat_sum. f_equal. apply map_ext. intros p. apply bytes_split. Qed.
Lemma pair_bytes p : In p (peers l) -> 0 <= zsum (map req (timed (oks (snd p)))) <= int64_max /\ 0 <= zsum (map resp (timed (oks (snd p)))) <= int64_max.
Proof.
  intros I. destruct (sane_bytes p I) as [A B]. pose proof (sl_bytes _ _ Sa) as T. rewrite total_split in T.
  pose proof (zsum_le_one (fun p => zsum (map req (timed (oks (snd p)))) + zsum (map resp (timed (oks (snd p))))) (peers l) p (fun q J => Z.add_nonneg_nonneg _ _ (proj1 (sane_bytes q J)) (proj2 (sane_bytes q J))) I). cbv beta in H. lia.
Qed.
Lemma oks_all : 0 <= all_oks l <= int64_max /\ 0 <= all_fails l.
Proof.
  pose proof (sl_many _ _ Sa). assert (0 <= all_oks l) by (apply zsum_nonneg; intros; apply len_nonneg). assert (0 <= all_fails l) by (apply zsum_nonneg; intros; apply len_nonneg). lia.
Qed.
Lemma pair_oks p : In p (peers l) -> 0 <= len (oks (snd p)) <= int64_max.
Proof. intros I. pose proof oks_all. pose proof (len_nonneg _ (oks (snd p))). pose proof (zsum_le_one (fun p => len (oks (snd p))) (peers l) p (fun q _ => len_nonneg _ _) I). unfold all_oks in *. cbv beta in *. lia. Qed.
Lemma elapsed_fits d : elapsed l d -> d <= int64_max.
Proof.
  intros (p & a & b & I & Ia & Ib & ->). pose proof (sl_fits _ _ Sa) as F. rewrite Forall_forall in F. destruct (F p I) as [_ _ S].
  specialize (S ltac:(intros X; rewrite X in Ia; destruct Ia)). unfold span in S.
  pose proof (proj2 (fold_max_ge (map t1 (timed (oks (snd p)))) int64_min) (t1 b) (in_map t1 _ _ Ib)).
  pose proof (proj2 (fold_min_le (map t0 (timed (oks (snd p)))) int64_max) (t0 a) (in_map t0 _ _ Ia)). unfold in_int64, int64_max in *. lia.
Qed.
Lemma some_oks d : elapsed l d -> all_oks l <> 0.
Proof.
  intros (p & a & b & I & Ia & Ib & _). apply filter_In in Ia as (Ia & _). assert (0 < len (oks (snd p))) by (unfold len; destruct (oks (snd p)); [destruct Ia|cbn [length]; lia]).
  pose proof (zsum_le_one (fun p => len (oks (snd p))) (peers l) p (fun q _ => len_nonneg _ _) I). unfold all_oks. cbv beta in *. lia.
Qed.
End Sane.

(** ** C79 *)
(** The lines, for any log: none if no successful RPC outside the warm-up took
    time; otherwise, under four headings, one line for each name of an RPC, for
    each pair of instances and for each instance, in alphabetical order, and the
    totals; each line says what was recorded. *)
Theorem C79_text names l : sane_log names l -> exists lines, summary_text names l = Some lines /\
  (((forall d, elapsed l d -> d <= 0) /\ lines = []) \/
   exists ns kinds pairs insts latency_lines pair_lines instance_lines total_lines,
     0 < ns /\ elapsed l ns /\ (forall d, elapsed l d -> d <= ns) /\
     lines = [s_ "RPC latency summary:"] ++ latency_lines ++ [s_ "Communication summary:"] ++ pair_lines ++ [s_ "Instance summary:"] ++ instance_lines ++ total_lines /\
     (StronglySorted before kinds /\ (forall n, In n kinds <-> exists p rl, In p (peers l) /\ In rl (snd p) /\ nth_error names (fst rl) = Some n) /\
      Forall2 (fun n line => latency_says n (map lat (filter (named names n) (counted l))) line) kinds latency_lines) /\
     (StronglySorted pair_before (map fst pairs) /\ Permutation pairs (peers l) /\ 
      Forall2 (fun p line => pair_says ns (fst p) (len (oks (snd p))) (zsum (map req (timed (oks (snd p))))) (zsum (map resp (timed (oks (snd p))))) line) pairs pair_lines) /\
     (StronglySorted before insts /\ (forall k, In k insts <-> exists p, In p (peers l) /\ (k = fst (fst p) \/ k = snd (fst p))) /\
      Forall2 (fun k line => instance_says ns k (bytes_out l k) (bytes_in l k) line) insts instance_lines) /\
     totals_say ns (all_oks l) (all_fails l) (all_oks l - len (counted l)) (total_bytes l) total_lines).
Proof.
  intros Sa. pose proof Sa as [U F I64 Hb Hm Hc].
  assert (Hm' : zsum (map (fun p => len (oks (snd p)) + len (fails (snd p))) (peers l)) <= int64_max).
  { unfold all_oks, all_fails in Hm. enough (E : zsum (map (fun p => len (oks (snd p)) + len (fails (snd p))) (peers l)) = zsum (map (fun p => len (oks (snd p))) (peers l)) + zsum (map (fun p => len (fails (snd p))) (peers l))) by lia.
    clear. induction (peers l) as [|p ps IH]; cbn [map zsum]; lia. }
  destruct (C40_defined names l U F Hb Hm' Hc) as (r & R). unfold summary_text. rewrite R. cbn [option_map]. exists (summary_lines r). split; [reflexivity|].
  destruct (C40_time names l I64) as (T1 & T2). destruct r as [|s]; [left; split; [exact (T2 R)|reflexivity]|right].
  destruct (T1 s R) as (Tp & Te & Tm). pose proof (elapsed_fits _ _ Sa _ Te) as Tu. assert (Tk : time_ok (sm_time s)) by (unfold time_ok, int64_max in *; lia).
  destruct (C40_counters names l s R) as (N1 & N2 & N3 & N4).
  assert (NS : sm_samples s = all_oks l + all_fails l).
  { rewrite N1. unfold all_oks, all_fails. clear. induction (peers l) as [|p ps IH]; cbn [map zsum]; lia. }
  assert (NF : sm_failed s = all_fails l) by exact N2.
  destruct (C40_pairs names l s U R) as (P1 & P2). destruct (C41_reported names l s R Hc) as (L1 & L2 & L3).
  assert (ND : NoDup (map fst (peers l))) by (now apply unique_pairs).
  (* the instance part is there *)
  assert (Ex : exists m n b, sm_inst s = Some (m, n, b)).
  { destruct (sm_inst s) as [[[m n] b]|] eqn:E; [eauto|exfalso]. destruct (summarize_inv _ _ _ R) as (t & la & it & A & _ & _ & D & Es). rewrite Es in E. cbn [sm_inst] in E.
    destruct (Z.eqb_spec (it_rpcs it) 0) as [Z0|]; [|discriminate]. destruct (inst_all_spec _ _ _ D ltac:(constructor)) as (_ & _ & _ & X & _). cbn [it_rpcs] in X.
    rewrite (perf_list names l t U A), map_map in X. unfold perf_of in X. cbn [snd pf_rpcs] in X. apply (some_oks _ _ Te). unfold all_oks. lia. }
  destruct Ex as (m & n & b & E). destruct (C40_conserved names l s m n b U R E) as (B1 & B2 & B3). destruct (C40_instances names l s m n b U R E) as (I1 & I2 & I3). specialize (N4 U m n b E).
  assert (En : n = all_oks l) by lia. assert (Eb : b = total_bytes l) by exact B1. clear B1 N4.
  unfold summary_lines. rewrite E. set (t := seconds (sm_time s)).
  exists (sm_time s), (map fst (in_order str_ltb (sm_lat s))), (in_order pair_ltb (peers l)), (map fst (in_order str_ltb m)).
  exists (map latency_line (in_order str_ltb (sm_lat s))), (map (comm_line t) (in_order pair_ltb (sm_comm s))), (map (inst_line t) (in_order str_ltb m)), (global_lines t s n b).
  split; [exact Tp|]. split; [exact Te|]. split; [exact Tm|]. split; [reflexivity|].
  pose proof (in_order_perm str_ltb (sm_lat s)) as PL. pose proof (in_order_perm str_ltb m) as PM. pose proof (in_order_perm pair_ltb (peers l)) as PP.
  split; [|split; [|split]].
  - split; [|split].
    + apply (sorted_impl (fun a b => str_ltb a b = true)); [intros; now apply str_ltb_before|]. apply in_order_sorted; [exact str_ltb_trans|exact str_ltb_total|exact L1].
    + intros k. rewrite <- L2. split; apply Permutation_in; [|symmetry]; apply Permutation_map, PL.
    + apply Forall2_map_both. intros [k v] I. apply (Permutation_in _ PL) in I. specialize (L3 k v I). set (ls := map lat _) in *. cbn [fst]. destruct L3 as (G1 & G2). unfold latency_line, latency_text. cbn [fst snd].
      destruct v as [c vs]. cbn [la_n la_values] in *. subst c. destruct vs as [[[[[[mn md] p90] p99] p999] mx]|].
      * right. exists mn, md, p90, p99, p999, mx. destruct G2 as (Q1 & Q2 & _ & _ & _ & Q3). split; [|split; [exact Q1|split; [exact Q2|exact Q3]]].
        fold (len ls). cbn [s_ list_ascii_of_string]. rewrite <- ?app_assoc. cbn [app]. reflexivity.
      * left. split; [exact G2|]. rewrite G2. reflexivity.
  - split; [|split].
    + apply (sorted_impl (fun a b => pair_ltb a b = true)); [intros; now apply pair_ltb_before|]. apply in_order_sorted; [exact pair_ltb_trans|exact pair_ltb_total|exact ND].
    + exact PP.
    + rewrite P1.
      assert (OM : forall q, in_order pair_ltb (map (fun p => (fst p, perf_of (snd p))) q) = map (fun p => (fst p, perf_of (snd p))) (in_order pair_ltb (q : list ((str * str) * peer_log)))).
      { induction q as [|[k v] q IH]; cbn [map in_order fst snd]; [reflexivity|]. rewrite IH. generalize (in_order pair_ltb q) as z. induction z as [|[k' v'] z IHz]; cbn [map place fst snd]; [reflexivity|].
        destruct (pair_ltb k' k); cbn [map fst snd]; [now rewrite IHz|reflexivity]. }
      change (fun p => (fst p, mkPerf (len (oks (snd p))) (zsum (map req (timed (oks (snd p))))) (zsum (map resp (timed (oks (snd p))))))) with (fun p : (str * str) * peer_log => (fst p, perf_of (snd p))).
      rewrite OM, map_map. apply Forall2_map_right. intros p I. apply (Permutation_in _ PP) in I. destruct (pair_bytes _ _ Sa p I) as (Q1 & Q2). pose proof (pair_oks _ _ Sa p I) as Q3.
      unfold comm_line. cbn [fst snd]. unfold perf_of. cbn [pf_rpcs pf_request pf_response]. unfold pair_says. cbn [fst snd].
      eexists. eexists. eexists. split; [|split; [apply kqps_per_second; [exact Q3|exact Tk]|split; apply mib_per_second; assumption]].
      fold t. cbn [s_ list_ascii_of_string]. rewrite <- ?app_assoc. cbn [app]. reflexivity.
  - split; [|split].
    + apply (sorted_impl (fun a b => str_ltb a b = true)); [intros; now apply str_ltb_before|]. apply in_order_sorted; [exact str_ltb_trans|exact str_ltb_total|exact I1].
    + intros k. rewrite <- I2. split; apply Permutation_in; [|symmetry]; apply Permutation_map, PM.
    + apply Forall2_map_both. intros [k v] I. apply (Permutation_in _ PM) in I. destruct (I3 k v I) as (V1 & V2). cbn [fst].
      assert (Nn : forall k v, In (k, v) m -> 0 <= is_tx v /\ 0 <= is_rx v).
      { intros k' v' J. destruct (I3 k' v' J) as (W1 & W2). 
        assert (G : forall (g : ((str * str) * peer_log) -> bool) (f : nat * sample -> Z), (forall p, In p (peers l) -> 0 <= zsum (map f (timed (oks (snd p))))) -> 0 <= zsum (map f (flat_map (fun p => if g p then timed (oks (snd p)) else []) (peers l)))).
        { intros g f H. rewrite flat_sum. apply zsum_nonneg. intros p J'. destruct (g p); [exact (H p J')|cbn; lia]. }
        pose proof (G (fun p => str_eqb (fst (fst p)) k') req (fun p J' => proj1 (sane_bytes _ _ Sa p J'))). pose proof (G (fun p => str_eqb (snd (fst p)) k') req (fun p J' => proj1 (sane_bytes _ _ Sa p J'))).
        pose proof (G (fun p => str_eqb (fst (fst p)) k') resp (fun p J' => proj2 (sane_bytes _ _ Sa p J'))). pose proof (G (fun p => str_eqb (snd (fst p)) k') resp (fun p J' => proj2 (sane_bytes _ _ Sa p J'))).
        unfold counted_from, counted_to in *. lia. }
      assert (Bt : 0 <= bytes_out l k <= int64_max /\ 0 <= bytes_in l k <= int64_max).
      { unfold bytes_out, bytes_in. rewrite <- V1, <- V2. destruct (Nn k v I).
        pose proof (zsum_le_one (fun e => is_tx (snd e)) m (k, v) (fun e J => proj1 (Nn (fst e) (snd e) ltac:(now destruct e))) I).
        pose proof (zsum_le_one (fun e => is_rx (snd e)) m (k, v) (fun e J => proj2 (Nn (fst e) (snd e) ltac:(now destruct e))) I). cbn [snd] in *. lia. }
      destruct Bt as (Bo & Bi). unfold inst_line. cbn [fst snd]. rewrite V1, V2. fold (bytes_out l k) (bytes_in l k). unfold instance_says. eexists. eexists.
      split; [|split; apply mib_per_second; assumption]. fold t. cbn [s_ list_ascii_of_string]. rewrite <- ?app_assoc. cbn [app]. reflexivity.
  - destruct (oks_all _ _ Sa) as (O1 & O2).
    assert (Bp : 0 <= total_bytes l) by (rewrite total_split; apply zsum_nonneg; intros p I; destruct (sane_bytes _ _ Sa p I); lia).
    unfold totals_say, global_lines. rewrite NS, NF. replace (sm_warm s) with (all_oks l - len (counted l)) by lia. rewrite En, Eb.
    eexists. eexists. eexists. split; [|split; [apply time_shows; exact Tk|split; [apply mib_per_second; [lia|exact Tk]|apply total_kqps_per_second; [lia|exact Tk]]]].
    fold t. rewrite Z.quot_div_nonneg by lia. cbn [s_ list_ascii_of_string]. rewrite <- ?app_assoc. cbn [app]. reflexivity.
Qed.
Print Assumptions C79_text.

(** ** The text of a test *)
Lemma latency_says_perm n ls ls' line : Permutation ls ls' -> latency_says n ls line -> latency_says n ls' line.
Proof.
  intros P [(-> & ->)|(mn & md & p90 & p99 & p999 & mx & -> & A & B & Q)]; [left; split; [apply Permutation_nil; exact P|reflexivity]|right].
  exists mn, md, p90, p99, p999, mx. split; [rewrite (len_perm _ _ _ P); reflexivity|]. split; [apply Forall_forall; intros x I; rewrite Forall_forall in A; exact (Permutation_in _ P (A x I))|].
  split; [intros x I; apply B; exact (Permutation_in _ (Permutation_sym P) I)|]. repeat split; try apply (quantile_perm _ _ _ _ _ P); apply Q.
Qed.
Lemma Forall2_in {A B} (P Q : A -> B -> Prop) a b : (forall x y, In x a -> P x y -> Q x y) -> Forall2 P a b -> Forall2 Q a b.
Proof. intros H F. induction F as [|x y a b p F IH]; constructor; [apply H; [left; reflexivity|exact p]|apply IH; intros u v I; apply H; right; exact I]. Qed.
Lemma Forall2_keys {A B C} (f : A -> B) (P : B -> C -> Prop) a b : Forall2 (fun x => P (f x)) a b -> Forall2 P (map f a) b.
Proof. intro F. induction F; cbn [map]; constructor; assumption. Qed.

(** The text that is returned with the result of a test that was run, in terms
    of the RPCs [R] that its engines recorded. *)
Theorem C79_reported fnm t res content runs : reported fnm t res content runs -> let c := config_of t in let R := all_recorded c runs in
  (forall x, In x R -> (en_rpc (snd x) < length (cf_rpcs c))%nat) ->
  (forall x, In x R -> measured x = true -> 0 <= rq x /\ 0 <= rs x /\ 0 <= began x /\ 0 <= took x /\ began x + took x <= int64_max) ->
  zsum (map (fun x => rq x + rs x) (filter measured R)) <= int64_max -> len R <= 2 ^ 42 ->
  exists lines, test_text content res = Some lines /\
  (((forall d, lasted c R d -> d <= 0) /\ lines = []) \/
   exists ns kinds pairs insts latency_lines pair_lines instance_lines total_lines,
     0 < ns /\ lasted c R ns /\ (forall d, lasted c R d -> d <= ns) /\
     lines = [s_ "RPC latency summary:"] ++ latency_lines ++ [s_ "Communication summary:"] ++ pair_lines ++ [s_ "Instance summary:"] ++ instance_lines ++ total_lines /\
     (StronglySorted before kinds /\ (forall n, In n kinds <-> exists x, In x R /\ kind c n x = true) /\
      Forall2 (fun n line => latency_says n (map took (filter (fun x => measured x && kind c n x) R)) line) kinds latency_lines) /\
     (StronglySorted pair_before pairs /\ (forall k, In k pairs <-> exists x, In x R /\ (fst x, target c (snd x)) = k) /\
      Forall2 (fun k line => let mine := filter (fun x => sent c k x && measured x) R in
        pair_says ns k (len (filter (fun x => sent c k x && good x) R)) (zsum (map rq mine)) (zsum (map rs mine)) line) pairs pair_lines) /\
     (StronglySorted before insts /\ (forall k, In k insts <-> exists x, In x R /\ (k = fst x \/ k = target c (snd x))) /\
      Forall2 (fun k line => let out := filter (fun x => str_eqb (fst x) k && measured x) R in let inc := filter (fun x => str_eqb (target c (snd x)) k && measured x) R in
        instance_says ns k (zsum (map rq out) + zsum (map rs inc)) (zsum (map rs out) + zsum (map rq inc)) line) insts instance_lines) /\
     totals_say ns (len (filter good R)) (len (filter (fun x => negb (good x)) R)) (len (filter (fun x => good x && warming x) R))
       (zsum (map (fun x => rq x + rs x) (filter measured R))) total_lines).
Proof.
  intros Rp c R Hr Hs Hb Hn. destruct (reported_fits _ _ _ _ _ Rp Hr Hs Hb Hn) as (U & F & B & M & C). cbv zeta in U, F, B, M, C.
  destruct (reported_result _ _ _ _ _ Rp) as (_ & P & Ne & Nl & Tt). cbv zeta in P, Ne, Nl. fold c in P. fold R in P.
  set (l := result_logs content res) in *. set (nm := map rp_name (cf_rpcs c)).
  assert (Ex : forall d, elapsed l d <-> lasted c R d) by exact (reported_elapsed _ _ _ _ _ Rp).
  assert (Z2 : forall A (f g : A -> Z) l, zsum (map (fun p => f p + g p) l) = zsum (map f l) + zsum (map g l)) by (intros T f g q; induction q as [|x q IH]; cbn [map zsum]; lia).
  assert (Sa : sane_log nm l).
  { constructor; [exact U|exact F| |exact B| |exact C].
    - intros [k pl] y I J. cbn [snd] in J. apply (Permutation_in _ (pair_timed _ _ _ U P _ _ I)), in_map_iff in J as (x & <- & J). apply filter_In in J as (J & G). apply andb_prop in G as (_ & G).
      destruct (Hs x J G) as (_ & _ & A3 & A4 & A5). change (t0 (strip (filed_as (snd x)))) with (began x). unfold in_int64, int64_max in *. apply andb_true_intro. split; apply Z.leb_le; lia.
    - unfold all_oks, all_fails. rewrite <- Z2. exact M. }
  assert (Oa : all_oks l = len (filter good R)) by (unfold all_oks; rewrite <- len_flat; exact (sizes _ _ _ (Report_Proofs2.oks_all _ _ _ P))).
  assert (Fa : all_fails l = len (filter (fun x => negb (good x)) R)) by (unfold all_fails; rewrite <- len_flat; exact (sizes _ _ _ (fails_all _ _ _ P))).
  assert (Ba : total_bytes l = zsum (map (fun x => rq x + rs x) (filter measured R))) by exact (sums _ _ _ _ (counted_all _ _ _ P)).
  assert (Wa : all_oks l - len (counted l) = len (filter (fun x => good x && warming x) R)).
  { rewrite Oa, (sizes _ _ _ (counted_all _ _ _ P)). unfold len, measured. clear. induction R as [|x q IH]; cbn [filter length]; [reflexivity|]. destruct (good x), (warming x); cbn [andb negb length]; lia. }
  destruct (C79_text nm l Sa) as (lines & E & G). exists lines. split; [unfold test_text; rewrite Tt; exact E|].
  destruct G as [(G & ->)|(ns & kinds & pairs & insts & ll & pl & il & tl & T1 & T2 & T3 & -> & (K1 & K2 & K3) & (P1 & P2 & P3) & (I1 & I2 & I3) & G)].
  { left. split; [intros d L; apply G, Ex, L|reflexivity]. }
  right. exists ns, kinds, (map fst pairs), insts, ll, pl, il, tl. split; [exact T1|]. split; [apply Ex, T2|]. split; [intros d L; apply T3, Ex, L|]. split; [reflexivity|]. split; [|split; [|split]].
  - split; [exact K1|]. split.
    + intro n. rewrite K2. unfold kind. fold nm. split.
      * intros (p & rl & I & J & Nn). destruct (proj1 (rpcs_listed _ _ _ P (fst rl)) (ex_intro _ p (ex_intro _ rl (conj I (conj J (conj eq_refl (Nl p rl I J))))))) as (x & X & Q).
        exists x. split; [exact X|]. rewrite Q, Nn. apply str_eqb_refl.
      * intros (x & I & Nn). destruct (proj2 (rpcs_listed _ _ _ P (en_rpc (snd x))) (ex_intro _ x (conj I eq_refl))) as (p & rl & X & J & Q & _). exists p, rl. split; [exact X|]. split; [exact J|]. rewrite Q.
        destruct (nth_error nm (en_rpc (snd x))) as [m|]; [|discriminate]. destruct (str_eqb_spec m n); [subst; reflexivity|discriminate].
    + refine (Forall2_in _ _ _ _ _ K3). intros n line _. apply latency_says_perm.
      rewrite (filter_perm _ (named nm n) _ _ (counted_all _ _ _ P)), filter_map, filter_and, map_map. reflexivity.
  - split; [exact P1|]. split.
    + intro k. rewrite <- (pairs_listed _ _ _ Ne P k). split.
      * intro I. apply (Permutation_in _ (Permutation_map fst P2)), in_map_iff in I as ([k' q] & <- & I). exists q. exact I.
      * intros (q & I). apply (in_map fst) in I. exact (Permutation_in _ (Permutation_sym (Permutation_map fst P2)) I).
    + apply Forall2_keys. refine (Forall2_in _ _ _ _ _ P3). intros [k q] line I. cbn [fst snd]. apply (Permutation_in _ P2) in I. fold l in I. cbv zeta.
      rewrite (sizes _ _ _ (Report_Proofs2.pair_oks _ _ _ U P _ _ I)), !(sums _ _ _ _ (pair_timed _ _ _ U P _ _ I)). exact (fun h => h).
  - split; [exact I1|]. split.
    + intro k. rewrite I2. split.
      * intros ([k' q] & I & H). destruct (proj1 (pairs_listed _ _ _ Ne P k') (ex_intro _ q I)) as (x & J & <-). cbn [fst snd] in H. eauto.
      * intros (x & I & H). destruct (proj2 (pairs_listed _ _ _ Ne P (fst x, target c (snd x))) (ex_intro _ x (conj I eq_refl))) as (q & J). exists ((fst x, target c (snd x)), q). auto.
    + refine (Forall2_in _ _ _ _ _ I3). intros k line _. cbv zeta. unfold bytes_out, bytes_in.
      assert (Of : forall f, zsum (map f (counted_from k l)) = zsum (map (fun x => f (strip (filed_as (snd x)))) (filter (fun x => str_eqb (fst x) k && measured x) R))).
      { intro f. exact (sums f _ _ _ (counted_some _ _ _ P (fun q => str_eqb (fst q) k))). }
      assert (Ot : forall f, zsum (map f (counted_to k l)) = zsum (map (fun x => f (strip (filed_as (snd x)))) (filter (fun x => str_eqb (target c (snd x)) k && measured x) R))).
      { intro f. exact (sums f _ _ _ (counted_some _ _ _ P (fun q => str_eqb (snd q) k))). }
      rewrite !Of, !Ot. exact (fun h => h).
  - rewrite <- Wa, <- Oa, <- Fa, <- Ba. exact G.
Qed.
Print Assumptions C79_reported.

(** ** Examples *)
(** One client; a warm-up RPC, two counted ones and a failure; one RPC back. *)
Example C79_example_sane : sane_log names1 log1.
Proof.
  destruct C40_example_fits as (A & B & C & D). constructor; [exact A|exact B| |unfold total_bytes; rewrite C; unfold int64_max; lia|vm_compute; discriminate|rewrite D; lia].
  intros p x I J. cbn in I. destruct I as [<-|[<-|[<-|[]]]]; cbn in J; repeat destruct J as [<-|J]; try contradiction; reflexivity.
Qed.
Example C79_example : summary_text names1 log1 = Some (map s_ [
  "RPC latency summary:"; "  query: N: 2 min: 30ns median: 90ns 90%: 90ns 99%: 90ns 99.9%: 90ns max: 90ns"; "  reply: N: 1 min: 10ns median: 10ns 90%: 10ns 99%: 10ns 99.9%: 10ns max: 10ns";
  "Communication summary:"; "  client/0 -> client/0: RPCs: 0 (0.00 kQPS) Request: 0.0 MiB/s Response: 0.0 MiB/s";
  "  client/0 -> server/0: RPCs: 3 (30000.00 kQPS) Request: 1907.3 MiB/s Response: 762.9 MiB/s"; "  server/0 -> client/0: RPCs: 1 (10000.00 kQPS) Request: 953.7 MiB/s Response: 381.5 MiB/s";
  "Instance summary:"; "  client/0: Tx: 2288.8 MiB/s, Rx:1716.6 MiB/s"; "  server/0: Tx: 1716.6 MiB/s, Rx:2288.8 MiB/s";
  "Global summary:"; "  Total samples: 5"; "  Failed samples: 1"; "  Warmup samples: 1"; "  Total time: 0.000s"; "  Total Tx: 0 MiB (4005.4 MiB/s), Total Nb RPCs: 4 (40000.00 kQPS)"]%string).
Proof. vm_compute. reflexivity. Qed.

(** The text of the test of C78's example. *)
Example C79_ex_reported : exists lines, test_text rep_content rep_result = Some lines /\ length lines = 22%nat /\
  nth_error lines 6 = Some (s_ "  client/0/0/0 -> server/1/0/0: RPCs: 2 (14285.71 kQPS) Request: 218.0 MiB/s Response: 436.0 MiB/s").
Proof. eexists. split; [vm_compute; reflexivity|]. split; reflexivity. Qed.
(** A decimal that is not the nearest one does not show a number. *)
Example C79_ex_shows : shows 1 (s_ "1907.3") (per_second 200 100 / 1048576) /\ ~ shows 1 (s_ "1907.4") (per_second 200 100 / 1048576).
Proof.
  split.
  - exists (19073 # 10)%Q. split; [|apply Qabs_Qle_condition; split; vm_compute; discriminate].
    exists (s_ "1907"), (s_ "3"). split; [reflexivity|]. split; [repeat constructor|]. split; [discriminate|]. split; [repeat constructor|]. split; vm_compute; reflexivity.
  - intros (d & (w & f & E & _ & _ & _ & L & V) & H).
    assert (W : w = s_ "1907" /\ f = s_ "4").
    { destruct f as [|y [|z f]]; try discriminate L. change (s_ "1907.4") with (s_ "1907" ++ s_ "." ++ s_ "4") in E. rewrite !app_assoc in E. apply app_inj_tail in E as (E & <-). apply app_inj_tail in E as (<- & _). split; reflexivity. }
    destruct W as (-> & ->). rewrite V in H. revert H. vm_compute. intro H. apply H. reflexivity.
Qed.
(** The totals do not say what was achieved in the whole test: the time is the
    longest one between two instances, so RPCs of different pairs that were
    made one after the other are counted as if they were simultaneous. *)
Theorem C79_total_rate_refuted : exists names l lines text kqps a b,
  sane_log names l /\ summary_text names l = Some lines /\ last lines [] = text ++ s_ "Total Nb RPCs: 4 (" ++ kqps ++ s_ " kQPS)" /\ all_oks l = 4 /\
  In a (counted l) /\ In b (counted l) /\ (forall x, In x (counted l) -> t0 a <= t0 x /\ t1 x <= t1 b) /\
  exists q, reads 2 kqps q /\ (50 * (per_second 4 (t1 b - t0 a) / 1000) < q)%Q.
Proof.
  exists names1, log1. eexists. exists (s_ "  Total Tx: 0 MiB (4005.4 MiB/s), "), (s_ "40000.00"), (0%nat, sm1 2000 30 false), (1%nat, sm1 7000 10 false).
  split; [exact C79_example_sane|]. split; [exact C79_example|]. split; [vm_compute; reflexivity|]. split; [reflexivity|]. split; [left; reflexivity|]. split; [do 2 right; left; reflexivity|]. split.
  - intros x I. cbn in I. destruct I as [<-|[<-|[<-|[]]]]; vm_compute; split; discriminate.
  - exists 40000%Q. split; [|vm_compute; reflexivity]. exists (s_ "40000"), (s_ "00"). split; [reflexivity|]. split; [repeat constructor|]. split; [discriminate|]. split; [repeat constructor|]. split; vm_compute; reflexivity.
Qed.
Print Assumptions C79_total_rate_refuted.
