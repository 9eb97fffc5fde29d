(** C80: the RPCs of a test are those its configuration prescribes: never more,
    and all of them when every action list comes to its end. *)
From Coq Require Import Ascii String List NArith ZArith QArith Bool Arith Lia Permutation.
From Verif Require Import Base_Model Base_Proofs Grid_Model Grid_Proofs Place_Model Util_Model Net_Model Fanout_Model Table_Model Table_Proofs Table_Proofs2 Table_Props Cli_Model.
From Verif Require Seq_Model Sync_Model Rpc_Model Rpc_Proofs.
From Verif Require Import Seq_Proofs Node_Model Node_Proofs Node_Props Cluster_Model Cluster_Proofs Cluster_Props.
From Verif Require Import Iter_Model Iter_Proofs Iter_Props AList_Model AList_Proofs.
From Verif Require Import Peer_Model Peer_Proofs Peer_Props Deliver_Model Deliver_Proofs Deliver_Props.
From Verif Require Import Log_Model Sum_Model Sum_Proofs Sum_Proofs2 Report_Model Report_Proofs Report_Proofs2 Report_Props.
From Verif Require Import Work_Model Work_Proofs Work_Proofs2 Work_Proofs3 Work_Proofs4 Work_Proofs5.
Import ListNotations.
Open Scope Z_scope.

(** A test that was set up (C74), on a network (C75), with fan-outs that C75
    covers and iteration counts that C26 covers. *)
Record benchmark fnm r nes ev t w active res ws o info (opts : str -> run_options) : Prop := mkBenchmark {
  be_ran : ran fnm r nes ev t w active res ws;
  be_rpcs : NoDup (map rp_name (cf_rpcs (config_of t)));
  be_size : Z.of_nat (length (cf_rpcs (config_of t))) <= int32_max;
  be_network : network o r nes ws info;
  be_apart : apart o r ws info;
  be_fanouts : fanouts_ok o r t ws;
  be_options : forall n, options_ok (opts n) }.
(** The RPCs go to everyone, no action has a predicate or a time limit, and
    none does nothing at all. *)
Definition plain (c : config) (opts : str -> run_options) : Prop :=
  (forall rp, In rp (cf_rpcs c) -> to_all rp) /\
  forall a, In a (cf_actions c) -> ro_predicates (opts (an_name a)) = [] /\ ro_duration (opts (an_name a)) = None /\ (an_kind a = KNop -> an_response a <> None).
(** The list came to its end, and was not canceled. *)
Definition complete (s : al_state) : Prop := In LFree (al_log s) /\ ~ In LCancel (al_log s).
Definition succeeded (l : list (str * entry)) : Prop := forall y, In y l -> en_ok (snd y) = true.
(** The RPCs number [z] made by [n] to [n'], and the runs of the list [h] on [n]. *)
Definition rpcs_between (c : config) (n n' : str) (z : nat) (l : list (str * entry)) : Z :=
  len (filter (fun y => str_eqb (fst y) n && (str_eqb (target c (snd y)) n' && Nat.eqb (en_rpc (snd y)) z)) l).
Definition list_runs (n : str) (h : nat) (l : list list_run) : Z := len (filter (fun x => str_eqb (lr_instance x) n && (lr_list x =? Z.of_nat h)) l).
(** All RPCs of the test. *)
Definition expected_total (c : config) (opts : str -> run_options) (k : nat) : Z :=
  zsum (map (fun n => zsum (map (fun n' => zsum (map (expected_rpcs c opts k n n') (seq 0 (length (cf_rpcs c))))) (names c))) (names c)).

(** In any execution, finished or not, with failures, cancellations, time
    limits and predicates: no instance calls an RPC of another more often than
    prescribed, and runs no list more often. *)
Theorem C80_bound fnm r nes ev t w active res ws o info opts W k : benchmark fnm r nes ev t w active res ws o info opts ->
  execution o r t res ws info opts (fun _ => True) W -> layered (config_of t) opts k ->
  (forall n n' z, In n (names (config_of t)) -> rpcs_between (config_of t) n n' z (made W) <= expected_rpcs (config_of t) opts k n n' z) /\
  (forall n h, In n (names (config_of t)) -> (h < length (cf_lists (config_of t)))%nat -> list_runs n h W <= expected_runs (config_of t) opts k n h).
Proof.
  intros [Rn Dr Sz Nw Ap Fa Op] Ex L. assert (F : forall Q : Prop, False -> Q) by (intros Q []). split.
  - intros n n' z I. destruct (rpcs_expected _ _ _ _ _ _ _ _ _ _ _ _ Rn Dr Sz Nw Ap Fa Op False (F _) (F _) _ _ Ex (F _) (F _) k n n' z L I) as (A & _). exact A.
  - intros n h I H. destruct L as (depth & D1 & D2). destruct (runs_expected _ _ _ _ _ _ _ _ _ _ _ _ Rn Dr Sz Nw Ap Fa Op False (F _) (F _) _ _ Ex (F _) (F _) k depth D2 h n (D1 h H) I) as (A & _). exact A.
Qed.
Print Assumptions C80_bound.

(** When every list comes to its end, no RPC fails and the configuration is
    plain: exactly the prescribed ones. *)
Theorem C80_exact fnm r nes ev t w active res ws o info opts W k : benchmark fnm r nes ev t w active res ws o info opts -> plain (config_of t) opts ->
  execution o r t res ws info opts complete W -> succeeded (made W) -> layered (config_of t) opts k ->
  (forall n n' z, In n (names (config_of t)) -> rpcs_between (config_of t) n n' z (made W) = expected_rpcs (config_of t) opts k n n' z) /\
  (forall n h, In n (names (config_of t)) -> (h < length (cf_lists (config_of t)))%nat -> list_runs n h W = expected_runs (config_of t) opts k n h).
Proof.
  intros [Rn Dr Sz Nw Ap Fa Op] (Ta & Po) Ex Su L. assert (C : True -> forall s, complete s -> In LFree (al_log s) /\ ~ In LCancel (al_log s)) by (intros _ s H; exact H). split.
  - intros n n' z I. exact (proj2 (rpcs_expected _ _ _ _ _ _ _ _ _ _ _ _ Rn Dr Sz Nw Ap Fa Op True (fun _ => Ta) (fun _ => Po) _ _ Ex C (fun _ => Su) k n n' z L I) Logic.I).
  - intros n h I H. destruct L as (depth & D1 & D2). exact (proj2 (runs_expected _ _ _ _ _ _ _ _ _ _ _ _ Rn Dr Sz Nw Ap Fa Op True (fun _ => Ta) (fun _ => Po) _ _ Ex C (fun _ => Su) k depth D2 h n (D1 h H) I) Logic.I).
Qed.
Print Assumptions C80_exact.

(** Two complete executions of a configuration make the same RPCs: the nodes,
    the placement, the addresses, the scheduling of the threads, the random
    draws and the order of the answers do not matter. *)
Theorem C80_same fnm r nes ev t w active res ws o info W fnm' r' nes' ev' t' w' active' res' ws' o' info' W' opts k :
  benchmark fnm r nes ev t w active res ws o info opts -> benchmark fnm' r' nes' ev' t' w' active' res' ws' o' info' opts -> config_of t' = config_of t ->
  plain (config_of t) opts -> layered (config_of t) opts k ->
  execution o r t res ws info opts complete W -> succeeded (made W) -> execution o' r' t' res' ws' info' opts complete W' -> succeeded (made W') ->
  forall n n' z, In n (names (config_of t)) -> rpcs_between (config_of t) n n' z (made W) = rpcs_between (config_of t) n n' z (made W').
Proof.
  intros B B' Et Pl L E S E' S' n n' z I. rewrite (proj1 (C80_exact _ _ _ _ _ _ _ _ _ _ _ _ _ _ B Pl E S L) n n' z I). symmetry. rewrite <- Et in *.
  exact (proj1 (C80_exact _ _ _ _ _ _ _ _ _ _ _ _ _ _ B' Pl E' S' L) n n' z I).
Qed.
Print Assumptions C80_same.

(** ** The whole *)
Lemma made_between fnm r nes ev t w active res ws o info opts P W : benchmark fnm r nes ev t w active res ws o info opts -> execution o r t res ws info opts P W ->
  forall y, In y (made W) -> In (fst y) (names (config_of t)) /\ In (target (config_of t) (snd y)) (names (config_of t)) /\ (en_rpc (snd y) < length (cf_rpcs (config_of t)))%nat.
Proof.
  intros [Rn Dr Sz Nw Ap Fa Op] Ex y I. assert (F : forall Q : Prop, False -> Q) by (intros Q []). pose proof (Sa _ _ _ _ _ _ _ _ _ Rn) as Sn.
  assert (In_ : In (fst y) (names (config_of t))).
  { unfold made in I. apply in_flat_map in I as (x & Ix & J). apply in_map_iff in J as (z & <- & _). cbn [fst]. exact (proj1 (in_place _ _ _ _ _ _ _ _ _ _ _ _ Rn Dr False _ _ Ex (F _) x Ix)). }
  split; [exact In_|]. destruct (rpcs_law _ _ _ _ _ _ _ _ _ _ _ _ Rn Dr Nw Fa Op False (F _) (F _) _ _ Ex (F _) (fst y) (target (config_of t) (snd y)) (en_rpc (snd y)) In_) as (A & _).
  assert (G : 1 <= count (between t (fst y) (target (config_of t) (snd y)) (en_rpc (snd y))) (made W)).
  { apply in_split in I as (l1 & l2 & Q). rewrite Q. change (y :: l2) with ([y] ++ l2). rewrite !count_app.
    pose proof (count_nonneg (between t (fst y) (target (config_of t) (snd y)) (en_rpc (snd y))) l1). pose proof (count_nonneg (between t (fst y) (target (config_of t) (snd y)) (en_rpc (snd y))) l2).
    assert (count (between t (fst y) (target (config_of t) (snd y)) (en_rpc (snd y))) [y] = 1); [|lia]. unfold count. cbn [filter]. unfold between, goes. destruct (str_eqb_spec (fst y) (fst y)); [|congruence].
    destruct (str_eqb_spec (target (config_of t) (snd y)) (target (config_of t) (snd y))); [|congruence]. rewrite Nat.eqb_refl. reflexivity. }
  destruct (reached_by (config_of t) (fst y) (target (config_of t) (snd y)) (en_rpc (snd y))) eqn:R; [|lia]. unfold reached_by, serves in R.
  destruct (nth_error (cf_rpcs (config_of t)) (en_rpc (snd y))) as [rp|] eqn:E; [|discriminate]. split; [|apply nth_error_Some; congruence].
  apply andb_prop in R as (R & _). apply existsb_exists in R as (s & Is & R). apply andb_prop in R as (_ & R). apply existsb_exists in R as (m & Im & R).
  destruct (str_eqb_spec (target (config_of t) (snd y)) m) as [->|]; [|discriminate]. pose proof (proj1 (In_instances t opts s m Is) Im) as (v & V & Nm).
  apply In_nth_error in Is as (j & Ej). apply (In_names _ _ Sn). exists j, (Z.to_nat v), s. rewrite Z2Nat.id by lia. split; [exact Ej|]. split; [lia|exact Nm].
Qed.
(** The RPCs of an execution by client, server and kind. *)
Lemma all_between c l : NoDup (names c) ->
  (forall y, In y l -> In (fst y) (names c) /\ In (target c (snd y)) (names c) /\ (en_rpc (snd y) < length (cf_rpcs c))%nat) ->
  len l = zsum (map (fun n => zsum (map (fun n' => zsum (map (fun z => rpcs_between c n n' z l) (seq 0 (length (cf_rpcs c))))) (names c))) (names c)).
Proof.
  intros D H. set (f := fun n n' z (y : str * entry) => str_eqb (fst y) n && (str_eqb (target c (snd y)) n' && Nat.eqb (en_rpc (snd y)) z)).
  transitivity (zsum (map (fun y => zsum (map (fun n => zsum (map (fun n' => zsum (map (fun z => Work_Proofs3.b2z (f n n' z y)) (seq 0 (length (cf_rpcs c))))) (names c))) (names c))) l)).
  - assert (O : forall l', (forall y, In y l' -> In y l) -> len l' = zsum (map (fun y => zsum (map (fun n => zsum (map (fun n' => zsum (map (fun z => Work_Proofs3.b2z (f n n' z y)) (seq 0 (length (cf_rpcs c))))) (names c))) (names c))) l')).
    { induction l' as [|y l' IH]; intro Sub; [reflexivity|]. cbn [map zsum]. rewrite <- IH by (intros; apply Sub; right; assumption). unfold len. cbn [length]. destruct (H y (Sub y (or_introl eq_refl))) as (I1 & I2 & I3).
      rewrite (zsum_one _ (names c) (fst y) D I1).
      2:{ intros n _ N. apply zsum_zero. intros n' _. apply zsum_zero. intros z _. unfold f. destruct (str_eqb_spec (fst y) n); [congruence|reflexivity]. }
      rewrite (zsum_one _ (names c) (target c (snd y)) D I2).
      2:{ intros n _ N. apply zsum_zero. intros z _. unfold f. destruct (str_eqb_spec (target c (snd y)) n); [congruence|]. rewrite andb_false_r. reflexivity. }
      rewrite (zsum_one _ _ (en_rpc (snd y)) (seq_NoDup _ _)).
      - unfold f. destruct (str_eqb_spec (fst y) (fst y)); [|congruence]. destruct (str_eqb_spec (target c (snd y)) (target c (snd y))); [|congruence]. rewrite Nat.eqb_refl. cbn [andb Work_Proofs3.b2z]. lia.
      - apply in_seq. lia.
      - intros z _ N. unfold f. destruct (Nat.eqb_spec (en_rpc (snd y)) z); [congruence|]. rewrite !andb_false_r. reflexivity. }
    apply O. auto.
  - rewrite (zsum_swap (fun y n => zsum (map (fun n' => zsum (map (fun z => Work_Proofs3.b2z (f n n' z y)) (seq 0 (length (cf_rpcs c))))) (names c)))). f_equal. apply map_ext. intro n.
    rewrite (zsum_swap (fun y n' => zsum (map (fun z => Work_Proofs3.b2z (f n n' z y)) (seq 0 (length (cf_rpcs c)))))). f_equal. apply map_ext. intro n'.
    rewrite (zsum_swap (fun y z => Work_Proofs3.b2z (f n n' z y))). f_equal. apply map_ext. intro z. symmetry. exact (count_sum (f n n' z) l).
Qed.
Theorem C80_total fnm r nes ev t w active res ws o info opts k : benchmark fnm r nes ev t w active res ws o info opts -> layered (config_of t) opts k ->
  (forall W, execution o r t res ws info opts (fun _ => True) W -> len (made W) <= expected_total (config_of t) opts k) /\
  (forall W, plain (config_of t) opts -> execution o r t res ws info opts complete W -> succeeded (made W) -> len (made W) = expected_total (config_of t) opts k).
Proof.
  intros B L. pose proof (names_NoDup _ (Sa _ _ _ _ _ _ _ _ _ (be_ran _ _ _ _ _ _ _ _ _ _ _ _ B))) as D. split.
  - intros W Ex. rewrite (all_between _ _ D (made_between _ _ _ _ _ _ _ _ _ _ _ _ _ _ B Ex)). unfold expected_total.
    assert (G : at_most False (zsum (map (fun n => zsum (map (fun n' => zsum (map (fun z => rpcs_between (config_of t) n n' z (made W)) (seq 0 (length (cf_rpcs (config_of t)))))) (names (config_of t)))) (names (config_of t))))
      (zsum (map (fun n => zsum (map (fun n' => zsum (map (expected_rpcs (config_of t) opts k n n') (seq 0 (length (cf_rpcs (config_of t)))))) (names (config_of t)))) (names (config_of t))))).
    { apply am_sum. intros n I. apply am_sum. intros n' _. apply am_sum. intros z _. split; [|intros []]. exact (proj1 (C80_bound _ _ _ _ _ _ _ _ _ _ _ _ _ _ B Ex L) n n' z I). }
    exact (proj1 G).
  - intros W Pl Ex Su. rewrite (all_between _ _ D (made_between _ _ _ _ _ _ _ _ _ _ _ _ _ _ B Ex)). unfold expected_total. f_equal. apply map_ext_in. intros n I. f_equal. apply map_ext. intro n'. f_equal. apply map_ext. intro z.
    exact (proj1 (C80_exact _ _ _ _ _ _ _ _ _ _ _ _ _ _ B Pl Ex Su L) n n' z I).
Qed.
Print Assumptions C80_total.

(** ** The summary of the test *)
(** The engines record the RPCs they make, each once (C39); what they record is
    what is reported (C78). *)
Theorem C80_reported fnm r nes ev t w active res ws o info opts W k content runs s : benchmark fnm r nes ev t w active res ws o info opts -> plain (config_of t) opts ->
  execution o r t res ws info opts complete W -> succeeded (made W) -> layered (config_of t) opts k ->
  reported fnm t res content runs -> Permutation (all_recorded (config_of t) runs) (made W) -> test_summary content res = Some (Summary s) ->
  sm_samples s = expected_total (config_of t) opts k /\ sm_failed s = 0 /\
  (forall n n' p, In (n, n', p) (sm_comm s) -> pf_rpcs p = zsum (map (expected_rpcs (config_of t) opts k n n') (seq 0 (length (cf_rpcs (config_of t)))))) /\
  (forall n n', In n (names (config_of t)) -> (In (n, n') (map fst (sm_comm s)) <-> exists z, 0 < expected_rpcs (config_of t) opts k n n' z)).
Proof.
  intros B Pl Ex Su L Rp Pm Sm. pose proof (made_between _ _ _ _ _ _ _ _ _ _ _ _ _ _ B Ex) as Rg.
  destruct (C78_counts _ _ _ _ _ _ Rp Sm) as (C1 & C2 & _). destruct (C78_pairs _ _ _ _ _ _ Rp Sm) as (_ & P1 & P2). cbv zeta in *.
  assert (Go : forall y, In y (all_recorded (config_of t) runs) -> good y = true) by (intros y I; apply Su; exact (Permutation_in _ Pm I)).
  assert (Rb : forall n n', len (filter (fun x => str_eqb (fst x) n && str_eqb (target (config_of t) (snd x)) n') (made W)) = zsum (map (fun z => rpcs_between (config_of t) n n' z (made W)) (seq 0 (length (cf_rpcs (config_of t)))))).
  { intros n n'. transitivity (zsum (map (fun y => zsum (map (fun z => Work_Proofs3.b2z (str_eqb (fst y) n && (str_eqb (target (config_of t) (snd y)) n' && Nat.eqb (en_rpc (snd y)) z))) (seq 0 (length (cf_rpcs (config_of t)))))) (made W))).
    - change (count (fun x => str_eqb (fst x) n && str_eqb (target (config_of t) (snd x)) n') (made W) = zsum (map (fun y => zsum (map (fun z => Work_Proofs3.b2z (str_eqb (fst y) n && (str_eqb (target (config_of t) (snd y)) n' && Nat.eqb (en_rpc (snd y)) z))) (seq 0 (length (cf_rpcs (config_of t)))))) (made W))).
      rewrite count_sum. f_equal. apply map_ext_in. intros y I. destruct (Rg y I) as (_ & _ & Lt). rewrite (zsum_one _ _ (en_rpc (snd y)) (seq_NoDup _ _)).
      + rewrite Nat.eqb_refl, andb_true_r. reflexivity.
      + apply in_seq. lia.
      + intros z _ N. destruct (Nat.eqb_spec (en_rpc (snd y)) z); [congruence|]. rewrite !andb_false_r. reflexivity.
    - rewrite (zsum_swap (fun y z => Work_Proofs3.b2z (str_eqb (fst y) n && (str_eqb (target (config_of t) (snd y)) n' && Nat.eqb (en_rpc (snd y)) z)))). f_equal. apply map_ext. intro z. symmetry. exact (count_sum _ _). }
  split; [rewrite C1, (len_perm _ _ _ Pm); exact (proj2 (C80_total _ _ _ _ _ _ _ _ _ _ _ _ _ B L) W Pl Ex Su)|].
  split. { rewrite C2. change (count (fun x => negb (good x)) (all_recorded (config_of t) runs) = 0). apply count_false. intros y I. rewrite (Go y I). reflexivity. }
  split.
  - intros n n' p I. destruct (P2 _ _ I) as (Q & _). rewrite Q.
    assert (E : len (filter (fun x => sent (config_of t) (n, n') x && good x) (all_recorded (config_of t) runs)) = len (filter (fun x => str_eqb (fst x) n && str_eqb (target (config_of t) (snd x)) n') (made W))).
    { change (count (fun x => sent (config_of t) (n, n') x && good x) (all_recorded (config_of t) runs) = count (fun x => str_eqb (fst x) n && str_eqb (target (config_of t) (snd x)) n') (made W)).
      rewrite <- (count_perm _ _ _ Pm). apply count_ext. intros y J. rewrite (Go y J), andb_true_r. reflexivity. }
    rewrite E, Rb. f_equal. apply map_ext. intro z. assert (Nn : In n (names (config_of t))).
    { assert (K : In (n, n') (map fst (sm_comm s))) by (apply in_map_iff; exists (n, n', p); auto). apply P1 in K as (y & Iy & Ey). apply (f_equal fst) in Ey. cbn in Ey. rewrite <- Ey. apply (Rg y). exact (Permutation_in _ Pm Iy). }
    exact (proj1 (C80_exact _ _ _ _ _ _ _ _ _ _ _ _ _ _ B Pl Ex Su L) n n' z Nn).
  - intros n n' Nn. rewrite P1. split.
    + intros (y & Iy & Ey). assert (E1 : fst y = n) by (apply (f_equal fst) in Ey; exact Ey). assert (E2 : target (config_of t) (snd y) = n') by (apply (f_equal snd) in Ey; exact Ey).
      exists (en_rpc (snd y)). rewrite <- (proj1 (C80_exact _ _ _ _ _ _ _ _ _ _ _ _ _ _ B Pl Ex Su L) n n' (en_rpc (snd y)) Nn). pose proof (Permutation_in _ Pm Iy) as Iw. unfold rpcs_between.
      assert (J : In y (filter (fun y0 => str_eqb (fst y0) n && (str_eqb (target (config_of t) (snd y0)) n' && Nat.eqb (en_rpc (snd y0)) (en_rpc (snd y)))) (made W))).
      { apply filter_In. split; [exact Iw|]. rewrite E1, E2, Nat.eqb_refl. destruct (str_eqb_spec n n); [|congruence]. destruct (str_eqb_spec n' n'); [reflexivity|congruence]. }
      unfold len. match goal with |- context [length ?v] => destruct v end; [destruct J|cbn [length]; lia].
    + intros (z & Gz). rewrite <- (proj1 (C80_exact _ _ _ _ _ _ _ _ _ _ _ _ _ _ B Pl Ex Su L) n n' z Nn) in Gz. unfold rpcs_between, len in Gz.
      destruct (filter (fun y0 => str_eqb (fst y0) n && (str_eqb (target (config_of t) (snd y0)) n' && Nat.eqb (en_rpc (snd y0)) z)) (made W)) as [|y l] eqn:E; [cbn in Gz; lia|].
      assert (J : In y (filter (fun y0 => str_eqb (fst y0) n && (str_eqb (target (config_of t) (snd y0)) n' && Nat.eqb (en_rpc (snd y0)) z)) (made W))) by (rewrite E; left; reflexivity).
      apply filter_In in J as (Iw & J). apply andb_prop in J as (J1 & J). apply andb_prop in J as (J2 & _). exists y. split; [exact (Permutation_in _ (Permutation_sym Pm) Iw)|].
      destruct (str_eqb_spec (fst y) n) as [->|]; [|discriminate]. destruct (str_eqb_spec (target (config_of t) (snd y)) n') as [->|]; [reflexivity|discriminate].
Qed.
Print Assumptions C80_reported.
