(** The RPCs of a whole test. *)
From Coq Require Import Ascii String List NArith ZArith QArith Bool Arith Lia Permutation.
From Verif Require Import Base_Model Base_Proofs Grid_Model Grid_Proofs Place_Model Util_Model Net_Model Fanout_Model Table_Model Table_Proofs Table_Proofs2 Table_Props Cli_Model.
From Verif Require Seq_Model Sync_Model Rpc_Model Rpc_Proofs.
From Verif Require Import Seq_Proofs Node_Model Node_Proofs Node_Props Cluster_Model Cluster_Proofs Cluster_Props.
From Verif Require Import Iter_Model Iter_Proofs Iter_Props AList_Model AList_Proofs.
From Verif Require Import Peer_Model Peer_Proofs Peer_Props Deliver_Model Deliver_Proofs Deliver_Props.
From Verif Require Import Log_Model Sum_Model Sum_Proofs Sum_Proofs2 Report_Model Report_Proofs Report_Proofs2 Report_Props.
From Verif Require Import Work_Model Work_Proofs Work_Proofs2 Work_Proofs3 Work_Proofs4.
Import ListNotations.
Open Scope Z_scope.

Section Test.
  Variables (fnm : str -> str -> bool) (r : Seq_Model.registry) (nes : Z -> node_env) (ev : environment) (t : whole) (w : world) (active : list Z) (res : test_result) (ws : worlds).
  Variables (o : outside) (info : Z -> str -> engine -> str) (opts : str -> run_options).
  Notation c := (config_of t).
  Hypothesis Rn : ran fnm r nes ev t w active res ws.
  Hypothesis Dr : NoDup (map rp_name (cf_rpcs c)).
  Hypothesis Sz : Z.of_nat (length (cf_rpcs c)) <= int32_max.
  Hypothesis Nw : network o r nes ws info.
  Hypothesis Ap : apart o r ws info.
  Hypothesis Fa : fanouts_ok o r t ws.
  Hypothesis Op : forall n, options_ok (opts n).
  (** The conditions for an exact count. *)
  Variable X : Prop.
  Hypothesis Xa : X -> forall rp, In rp (cf_rpcs c) -> to_all rp.
  Hypothesis Xo : X -> forall a, In a (cf_actions c) -> ro_predicates (opts (an_name a)) = [] /\ ro_duration (opts (an_name a)) = None /\ (an_kind a = KNop -> an_response a <> None).

  (** *** One list *)
  Record compiled (x : list_run) (s : al_state) (n : str) (rd : ready) (tl : table_list) (d : list_d) : Prop := mkCompiled {
    cp_ready : exists id e, ready_at o r t res ws id n e rd;
    cp_in : In tl (tb_lists (rd_tables rd));
    cp_list : 0 <= lr_list x /\ nth_error (cf_lists c) (Z.to_nat (lr_list x)) = Some d;
    cp_length : length (lr_actions x) = length (li_actions d) /\ length (tl_entries tl) = length (li_actions d);
    cp_each : forall i nm ar, nth_error (li_actions d) i = Some nm -> nth_error (lr_actions x) i = Some ar ->
      exists a, nth_error (tl_entries tl) i = Some a /\ entry_ok c (tb_activities (rd_tables rd)) d i nm a /\ action_ok o r t res ws info rd (opts nm) a i s ar;
    cp_run : reachable (map (fun a => list_action rd (opts (an_name (en_action a))) a) (tl_entries tl)) (lr_predicates x) s;
    cp_entries : forall i a, nth_error (tl_entries tl) i = Some a -> exists nm, nth_error (li_actions d) i = Some nm /\ entry_ok c (tb_activities (rd_tables rd)) d i nm a }.
  Lemma run_compiled x s : list_run_ok o r t res ws info opts x s -> exists rd tl d, compiled x s (lr_instance x) rd tl d /\ In (lr_instance x) (names c).
  Proof.
    intros (id & e & rd & tl & Ra & V & R & L & A). destruct (situation_of_test _ _ _ _ _ _ _ _ _ _ _ _ _ _ Rn Dr Ra) as (eps & k & i & s0 & _ & H & P & _).
    destruct (prepared _ _ _ _ _ _ _ _ _ _ _ _ _ _ H P) as (cs & T & _). pose proof (es_sane _ _ _ _ _ _ _ _ _ H) as Sn.
    pose proof (C52_actions _ _ _ _ T (sa_distinct _ Sn) Dr) as F. unfold vec_at in V. destruct (lr_list x <? 0) eqn:Ng; [discriminate|].
    destruct (Forall2_right _ _ _ F _ _ V) as (d & Ed & _ & Le & En & _).
    assert (Ent : forall j a, nth_error (tl_entries tl) j = Some a -> exists nm, nth_error (li_actions d) j = Some nm /\ entry_ok c (tb_activities (rd_tables rd)) d j nm a).
    { intros j a Ej. destruct (nth_error (li_actions d) j) as [nm|] eqn:Q; [|apply nth_error_None in Q; assert (nth_error (tl_entries tl) j <> None) as B by congruence; apply nth_error_Some in B; lia].
      destruct (En j nm Q) as (a' & E' & Eo). assert (a' = a) by congruence. subst a'. eauto. }
    exists rd, tl, d. split; [|apply (In_names c _ Sn); exists k, i; exact (es_located _ _ _ _ _ _ _ _ _ H)]. constructor.
    - eauto.
    - exact (nth_error_In _ _ V).
    - split; [lia|exact Ed].
    - split; congruence.
    - intros j nm ar Ej Er. destruct (En j nm Ej) as (a & Ea & Eo). exists a. split; [exact Ea|]. split; [exact Eo|]. pose proof (A j a ar Ea Er) as K.
      rewrite (action_name _ _ _ _ _ _ Eo) in K. exact K.
    - exists (lr_schedule x). exact R.
    - exact Ent.
  Qed.

  Lemma compiled_ok x s n rd tl d : X -> compiled x s n rd tl d ->
    list_ok (map (fun a => list_action rd (opts (an_name (en_action a))) a) (tl_entries tl)) /\ no_predicates (map (fun a => list_action rd (opts (an_name (en_action a))) a) (tl_entries tl)).
  Proof.
    intros Hx K. split.
    - intros i b Eb. rewrite nth_error_map in Eb. destruct (nth_error (tl_entries tl) i) as [a|] eqn:Ea; [|discriminate]. injection Eb as <-. destruct (cp_entries _ _ _ _ _ _ K i a Ea) as (nm & En & Eo). split.
      + intros j J. unfold list_action in J. cbn [aa_deps] in J. apply in_map_iff in J as (z & <- & J). apply In_nth_error in J as (p & Ep).
        destruct (Forall2_right _ _ _ (eo_deps _ _ _ _ _ _ Eo) p z Ep) as (m & _ & ((Pz & _) & _) & Lt). rewrite map_length. assert (i < length (tl_entries tl))%nat by (apply nth_error_Some; congruence). lia.
      + unfold list_action. cbn [aa_fatal]. destruct (an_kind (en_action a)) eqn:Kk; try reflexivity. cbn [is_nop andb]. apply Z.ltb_ge. destruct (eo_action _ _ _ _ _ _ Eo) as (l1 & l2 & El & _ & _).
        assert (Ic : In (en_action a) (cf_actions c)) by (rewrite El; apply in_elt). destruct (Xo Hx _ Ic) as (_ & _ & Nr). pose proof (eo_response _ _ _ _ _ _ Eo) as Er.
        destruct (an_response (en_action a)) as [m|]; [|destruct (Nr Kk eq_refl)]. destruct Er as ([(p & y & _ & _ & _ & (z & (Pz & _) & _))|(Q & _)] & Ne); [exact Pz|congruence].
    - intros b I. apply in_map_iff in I as (a & <- & I). apply In_nth_error in I as (i & Ea). destruct (cp_entries _ _ _ _ _ _ K i a Ea) as (nm & En & Eo). destruct (eo_action _ _ _ _ _ _ Eo) as (l1 & l2 & El & _ & _).
      assert (Ic : In (en_action a) (cf_actions c)) by (rewrite El; apply in_elt). exact (proj1 (Xo Hx _ Ic)).
  Qed.
  (** The iterations of each action of a list. *)
  Lemma list_iterations x s n rd tl d i nm ar a : (X -> In LFree (al_log s) /\ ~ In LCancel (al_log s)) -> compiled x s n rd tl d ->
    nth_error (tl_entries tl) i = Some a -> entry_ok c (tb_activities (rd_tables rd)) d i nm a -> action_ok o r t res ws info rd (opts nm) a i s ar ->
    is_activity (an_kind (en_action a)) = false -> at_most X (len (ar_iterations ar)) (times (opts nm)).
  Proof.
    intros Xs K Ea Eo Ak Na. refine (action_iterations r t res ws o info opts rd nm a X s ar i (Op nm) Na _ Ak). intro Hx. destruct (Xs Hx) as (Fr & Nc). destruct (compiled_ok _ _ _ _ _ _ Hx K) as (Lo & Np).
    destruct (all_run _ _ _ Lo Np (cp_run _ _ _ _ _ _ K) Fr Nc i (list_action rd (opts (an_name (en_action a))) a)) as (St & Ca & Si); [rewrite nth_error_map, Ea; reflexivity|].
    destruct (eo_action _ _ _ _ _ _ Eo) as (l1 & l2 & El & Nm & _). assert (Ic : In (en_action a) (cf_actions c)) by (rewrite El; apply in_elt). destruct (Xo Hx _ Ic) as (_ & Du & _). rewrite Nm in Du.
    split; [exact Du|]. split; [exact St|]. split; [exact Ca|]. split; [exact Nc|]. apply Si. exact Na.
  Qed.
  Lemma list_made x s n' z : (X -> In LFree (al_log s) /\ ~ In LCancel (al_log s)) -> list_run_ok o r t res ws info opts x s ->
    at_most X (count (goes t n' z) (made_by_list x)) (if reached_by c (lr_instance x) n' z then list_calls c opts (Z.to_nat (lr_list x)) z else 0).
  Proof.
    intros Xs Ok. destruct (run_compiled x s Ok) as (rd & tl & d & K & _). unfold made_by_list. rewrite count_flat. unfold list_calls. rewrite (proj2 (cp_list _ _ _ _ _ _ K)).
    replace (if reached_by c (lr_instance x) n' z then zsum (map (action_calls c opts z) (li_actions d)) else 0)
      with (zsum (map (fun nm => action_calls c opts z nm * Work_Proofs3.b2z (reached_by c (lr_instance x) n' z)) (li_actions d)))
      by (rewrite zsum_scale; destruct (reached_by c (lr_instance x) n' z); cbn [Work_Proofs3.b2z]; lia).
    apply am_sum_nth; [exact (proj1 (cp_length _ _ _ _ _ _ K))|]. intros i ar nm Er En. destruct (cp_each _ _ _ _ _ _ K i nm ar En Er) as (a & Ea & Eo & Ak).
    unfold made_by_action. rewrite count_flat, (calls_spec t opts rd d i nm a Eo z). destruct (cp_ready _ _ _ _ _ _ K) as (id & e & Ra).
    replace (times (opts nm) * Work_Proofs3.b2z (calls_rpc t a z) * Work_Proofs3.b2z (reached_by c (lr_instance x) n' z)) with (times (opts nm) * Work_Proofs3.b2z (calls_rpc t a z && reached_by c (lr_instance x) n' z))
      by (destruct (calls_rpc t a z), (reached_by c (lr_instance x) n' z); cbn [andb Work_Proofs3.b2z]; lia).
    apply am_const.
    - destruct (calls_rpc t a z && _); cbn [Work_Proofs3.b2z]; lia.
    - intro Nz. apply (list_iterations _ _ _ _ _ _ i nm ar a Xs K Ea Eo Ak). unfold calls_rpc in Nz. destruct (an_kind (en_action a)); try reflexivity; destruct Nz; reflexivity.
    - intros y I. eapply iteration_calls; try eassumption; [exact (cp_in _ _ _ _ _ _ K)|exact (nth_error_In _ _ Ea)|exact (ak_each _ _ _ _ _ _ _ _ _ _ _ _ Ak y I)].
  Qed.
  Lemma list_starts x s m h : (X -> In LFree (al_log s) /\ ~ In LCancel (al_log s)) -> (X -> forall y, In y (made_by_list x) -> en_ok y = true) -> list_run_ok o r t res ws info opts x s ->
    at_most X (count (key_is m h) (starts_by_list x)) ((if str_eqb (lr_instance x) m then list_nests c opts (Z.to_nat (lr_list x)) h else 0) + count (serves_run t m h) (made_by_list x)).
  Proof.
    intros Xs Xk Ok. destruct (run_compiled x s Ok) as (rd & tl & d & K & _). unfold starts_by_list. rewrite count_flat. unfold list_nests. rewrite (proj2 (cp_list _ _ _ _ _ _ K)).
    set (B := Work_Proofs3.b2z (str_eqb (lr_instance x) m)).
    replace (if str_eqb (lr_instance x) m then zsum (map (action_nests c opts h) (li_actions d)) else 0) with (zsum (map (fun nm => action_nests c opts h nm * B) (li_actions d)))
      by (rewrite zsum_scale; unfold B; destruct (str_eqb (lr_instance x) m); cbn [Work_Proofs3.b2z]; lia).
    apply (am_trans X _ (zsum (map (fun ar => zsum (map (fun i => Work_Proofs3.b2z false) (ar_iterations ar))) (@nil action_run)) + zsum (map (fun p => action_nests c opts h (fst p) * B + count (serves_run t m h) (made_by_action (snd p))) (combine (li_actions d) (lr_actions x))))).
    - cbn [map zsum]. rewrite Z.add_0_l. assert (Lc : length (combine (li_actions d) (lr_actions x)) = length (lr_actions x)) by (rewrite combine_length, (proj1 (cp_length _ _ _ _ _ _ K)); lia).
      apply am_sum_nth; [symmetry; exact Lc|]. intros i ar p Er Ep.
      assert (exists nm, nth_error (li_actions d) i = Some nm /\ p = (nm, ar)) as (nm & En & ->).
      { clear -Er Ep. revert i Er Ep. generalize (li_actions d) as l. induction (lr_actions x) as [|b l' IH]; intros l i Er Ep; [destruct i; discriminate|]. destruct l as [|u l]; [destruct i; discriminate|].
        destruct i as [|i]; cbn [nth_error combine] in *; [injection Er as ->; injection Ep as <-; eauto|exact (IH l i Er Ep)]. }
      cbn [fst snd]. destruct (cp_each _ _ _ _ _ _ K i nm ar En Er) as (a & Ea & Eo & Ak). destruct (cp_ready _ _ _ _ _ _ K) as (id & e & Ra).
      unfold starts_by_action, made_by_action. rewrite !count_flat, (nests_spec t opts rd d i nm a Eo h).
      apply (am_trans X _ (zsum (map (fun y => Work_Proofs3.b2z (nests_list t a h && str_eqb (lr_instance x) m) + count (serves_run t m h) (map rr_entry (ir_rpcs y))) (ar_iterations ar)))).
      + apply am_sum. intros y I. eapply iteration_starts; try eassumption; [exact (cp_in _ _ _ _ _ _ K)|exact (nth_error_In _ _ Ea)| |exact (ak_each _ _ _ _ _ _ _ _ _ _ _ _ Ak y I)].
        intros Hx v Iv. apply (Xk Hx). unfold made_by_list. apply in_flat_map. exists ar. split; [exact (nth_error_In _ _ Er)|]. apply in_flat_map. exists y. split; [exact I|]. apply in_map, Iv.
      + rewrite zsum_add. apply am_add; [|apply am_refl].
        replace (times (opts nm) * Work_Proofs3.b2z (nests_list t a h) * B) with (times (opts nm) * Work_Proofs3.b2z (nests_list t a h && str_eqb (lr_instance x) m))
          by (unfold B; destruct (nests_list t a h), (str_eqb (lr_instance x) m); cbn [andb Work_Proofs3.b2z]; lia).
        apply am_const; [destruct (nests_list t a h && _); cbn [Work_Proofs3.b2z]; lia| |intros; apply am_refl].
        intro Nz. apply (list_iterations _ _ _ _ _ _ i nm ar a Xs K Ea Eo Ak). unfold nests_list in Nz. destruct (an_kind (en_action a)); try reflexivity; destruct Nz; reflexivity.
    - cbn [map zsum]. rewrite Z.add_0_l, zsum_add. apply am_eq. f_equal.
      + f_equal. pose proof (proj1 (cp_length _ _ _ _ _ _ K)) as L. revert L. generalize (lr_actions x). induction (li_actions d) as [|u l IH]; intros [|b l'] L; cbn [length] in L; try discriminate; cbn [combine map fst]; [reflexivity|]. f_equal. apply IH. congruence.
      + unfold made_by_list. rewrite count_flat. f_equal. pose proof (proj1 (cp_length _ _ _ _ _ _ K)) as L. revert L. generalize (li_actions d). induction (lr_actions x) as [|b l' IH]; intros [|u l] L; cbn [length] in L; try discriminate; cbn [combine map snd]; [reflexivity|]. f_equal. apply IH. congruence.
  Qed.

  (** *** All lists *)
  Variables (P : al_state -> Prop) (W : list list_run).
  Hypothesis Ex : execution o r t res ws info opts P W.
  Hypothesis Xp : X -> forall s, P s -> In LFree (al_log s) /\ ~ In LCancel (al_log s).
  Hypothesis Xk : X -> forall y, In y (made W) -> en_ok (snd y) = true.
  Notation runs_of n j := (count (visit n j) W).
  Lemma in_place x : In x W -> In (lr_instance x) (names c) /\ 0 <= lr_list x < Z.of_nat (length (cf_lists c)).
  Proof.
    intro I. destruct (xe_each _ _ _ _ _ _ _ _ _ Ex x I) as (s & Ok & _). destruct (run_compiled x s Ok) as (rd & tl & d & K & N). split; [exact N|]. destruct (cp_list _ _ _ _ _ _ K) as (A & B).
    assert (Z.to_nat (lr_list x) < length (cf_lists c))%nat by (apply nth_error_Some; congruence). lia.
  Qed.
  Lemma all_names : NoDup (names c).
  Proof. apply names_NoDup. exact (Sa _ _ _ _ _ _ _ _ _ Rn). Qed.
  Lemma calls_nonneg j z : 0 <= list_calls c opts j z.
  Proof.
    unfold list_calls. destruct (nth_error (cf_lists c) j) as [d|]; [|lia]. induction (li_actions d) as [|nm l IH]; cbn [map zsum]; [lia|]. assert (0 <= action_calls c opts z nm); [|lia].
    unfold action_calls. destruct (Op nm) as (T & _). destruct (find_last an_name (cf_actions c) nm) as [[q a]|]; [|lia]. destruct (nth_error (cf_rpcs c) z) as [rp|]; [|lia]. destruct (an_kind a) as [m| | | |]; try lia. destruct (str_eqb m (rp_name rp)); lia.
  Qed.
  Lemma nests_nonneg j h : 0 <= list_nests c opts j h.
  Proof.
    unfold list_nests. destruct (nth_error (cf_lists c) j) as [d|]; [|lia]. induction (li_actions d) as [|nm l IH]; cbn [map zsum]; [lia|]. assert (0 <= action_nests c opts h nm); [|lia].
    unfold action_nests. destruct (Op nm) as (T & _). destruct (find_last an_name (cf_actions c) nm) as [[q a]|]; [|lia]. destruct (an_kind a) as [|m| | |]; try lia. destruct (find_last li_name (cf_lists c) m) as [[i y]|]; [|lia]. destruct (Nat.eqb i h); lia.
  Qed.
  Lemma made_ok x y : In x W -> In y (made_by_list x) -> In (lr_instance x, y) (made W).
  Proof. intros I J. unfold made. apply in_flat_map. exists x. split; [exact I|]. apply in_map, J. Qed.
  Lemma served_by m h l : count (serves_run t m h) l = zsum (map (fun z => if runs_list c z h then count (goes t m z) l else 0) (seq 0 (length (cf_rpcs c)))).
  Proof.
    transitivity (zsum (map (fun y => Work_Proofs3.b2z (runs_list c (en_rpc y) h)) (filter (fun y => str_eqb (target c y) m) l))).
    - rewrite count_sum. induction l as [|y l IH]; cbn [map zsum filter]; [reflexivity|]. rewrite IH. unfold serves_run at 1. destruct (str_eqb (target c y) m); cbn [andb map zsum]; [reflexivity|]. cbn [Work_Proofs3.b2z]. lia.
    - rewrite (zsum_keys en_rpc (fun z => Work_Proofs3.b2z (runs_list c z h)) (length (cf_rpcs c))).
      + f_equal. apply map_ext. intro z. assert (Q : count (fun y => Nat.eqb (en_rpc y) z) (filter (fun y => str_eqb (target c y) m) l) = count (goes t m z) l).
        { unfold count. f_equal. induction l as [|y l IH]; cbn [filter]; [reflexivity|]. unfold goes at 1. destruct (str_eqb (target c y) m); cbn [filter andb]; rewrite IH; reflexivity. }
        rewrite Q. destruct (runs_list c z h); cbn [Work_Proofs3.b2z]; lia.
      + intros y _ L. unfold runs_list. assert (N : nth_error (cf_rpcs c) (en_rpc y) = None) by (apply nth_error_None; exact L). rewrite N. reflexivity.
  Qed.
  (** How often [n] calls [z] of [n']. *)
  Definition between (n n' : str) (z : nat) (y : str * entry) : bool := str_eqb (fst y) n && goes t n' z (snd y).
  Lemma rpcs_law n n' z : In n (names c) ->
    at_most X (count (between n n' z) (made W)) (if reached_by c n n' z then zsum (map (fun j => runs_of n j * list_calls c opts j z) (list_numbers c)) else 0).
  Proof.
    intro In_. unfold made. rewrite count_flat.
    apply (am_trans X _ (zsum (map (fun x => (fun m j => if str_eqb m n && reached_by c n n' z then list_calls c opts j z else 0) (lr_instance x) (Z.to_nat (lr_list x))) W))).
    - apply am_sum. intros x I. destruct (xe_each _ _ _ _ _ _ _ _ _ Ex x I) as (s & Ok & Ps). rewrite count_map. unfold between. cbn [fst snd]. destruct (str_eqb_spec (lr_instance x) n) as [En|En]; cbn [andb].
      + rewrite <- En. change (count (fun x0 => goes t n' z x0) (made_by_list x)) with (count (goes t n' z) (made_by_list x)). apply (list_made x s); [intro Hx; exact (Xp Hx s Ps)|exact Ok].
      + apply am_eq, count_false. reflexivity.
    - apply am_eq. rewrite (zsum_visits (fun m j => if str_eqb m n && reached_by c n n' z then list_calls c opts j z else 0) (names c) (length (cf_lists c)) W all_names in_place). rewrite (zsum_one _ (names c) n all_names In_).
      + destruct (str_eqb_spec n n); [|congruence]. cbn [andb]. destruct (reached_by c n n' z); [reflexivity|]. apply zsum_zero. intros. lia.
      + intros y _ Ny. apply zsum_zero. intros j _. destruct (str_eqb_spec y n); [contradiction|]. cbn [andb]. lia.
  Qed.
  Lemma received_law m z : In m (names c) ->
    at_most X (zsum (map (fun x => count (goes t m z) (made_by_list x)) W))
      (zsum (map (fun m' => if reached_by c m' m z then zsum (map (fun j => runs_of m' j * list_calls c opts j z) (list_numbers c)) else 0) (names c))).
  Proof.
    intro Im. apply (am_trans X _ (zsum (map (fun x => (fun m' j => if reached_by c m' m z then list_calls c opts j z else 0) (lr_instance x) (Z.to_nat (lr_list x))) W))).
    - apply am_sum. intros x I. destruct (xe_each _ _ _ _ _ _ _ _ _ Ex x I) as (s & Ok & Ps). apply (list_made x s); [intro Hx; exact (Xp Hx s Ps)|exact Ok].
    - apply am_eq. rewrite (zsum_visits (fun m' j => if reached_by c m' m z then list_calls c opts j z else 0) (names c) (length (cf_lists c)) W all_names in_place). f_equal. apply map_ext. intro m'. destruct (reached_by c m' m z); [reflexivity|]. apply zsum_zero. intros. lia.
  Qed.
  Lemma runs_law m h : In m (names c) ->
    at_most X (runs_of m h) (count (key_is m h) (main_lists c) + zsum (map (fun j => runs_of m j * list_nests c opts j h) (list_numbers c)) +
      zsum (map (fun z => if runs_list c z h
                          then zsum (map (fun m' => if reached_by c m' m z then zsum (map (fun j => runs_of m' j * list_calls c opts j z) (list_numbers c)) else 0) (names c))
                          else 0) (seq 0 (length (cf_rpcs c))))).
  Proof.
    intro Im. assert (Q : runs_of m h = count (key_is m h) (main_lists c) + zsum (map (fun x => count (key_is m h) (starts_by_list x)) W)).
    { rewrite <- count_flat, <- count_app, <- (count_perm _ _ _ (xe_all _ _ _ _ _ _ _ _ _ Ex)), count_map. reflexivity. }
    rewrite Q, <- Z.add_assoc. apply am_add; [apply am_refl|].
    apply (am_trans X _ (zsum (map (fun x => (if str_eqb (lr_instance x) m then list_nests c opts (Z.to_nat (lr_list x)) h else 0) + count (serves_run t m h) (made_by_list x)) W))).
    - apply am_sum. intros x I. destruct (xe_each _ _ _ _ _ _ _ _ _ Ex x I) as (s & Ok & Ps). apply (list_starts x s); [intro Hx; exact (Xp Hx s Ps)| |exact Ok].
      intros Hx y J. exact (Xk Hx _ (made_ok x y I J)).
    - rewrite zsum_add. apply am_add.
      + apply am_eq. rewrite (zsum_visits (fun m' j => if str_eqb m' m then list_nests c opts j h else 0) (names c) (length (cf_lists c)) W all_names in_place). rewrite (zsum_one _ (names c) m all_names Im).
        * destruct (str_eqb_spec m m); [reflexivity|congruence].
        * intros y _ Ny. apply zsum_zero. intros j _. destruct (str_eqb_spec y m); [contradiction|]. lia.
      + apply (am_trans X _ (zsum (map (fun z => if runs_list c z h then zsum (map (fun x => count (goes t m z) (made_by_list x)) W) else 0) (seq 0 (length (cf_rpcs c)))))).
        * apply am_eq. transitivity (zsum (map (fun x => zsum (map (fun z => if runs_list c z h then count (goes t m z) (made_by_list x) else 0) (seq 0 (length (cf_rpcs c))))) W)).
          -- f_equal. apply map_ext. intro x. apply served_by.
          -- rewrite (zsum_swap (fun x z => if runs_list c z h then count (goes t m z) (made_by_list x) else 0)). f_equal. apply map_ext. intro z. destruct (runs_list c z h); [reflexivity|]. apply zsum_zero. reflexivity.
        * apply am_sum. intros z _. destruct (runs_list c z h); [|apply am_refl]. apply received_law. exact Im.
  Qed.

  (** *** The numbers prescribed *)
  Lemma runs_expected k : forall depth : nat -> nat,
    (forall j h, (list_nests c opts j h <> 0 \/ exists z, runs_list c z h = true /\ list_calls c opts j z <> 0) -> (depth j < depth h)%nat) ->
    forall h m, (depth h < k)%nat -> In m (names c) -> at_most X (runs_of m h) (expected_runs c opts k m h).
  Proof.
    intros depth Dp. induction k as [|k IH]; intros h m L Im; [lia|]. apply (am_trans X _ _ _ (runs_law m h Im)). cbn [expected_runs]. apply am_add; [apply am_add; [apply am_refl|]|].
    - apply am_sum. intros j _. destruct (Z.eq_dec (list_nests c opts j h) 0) as [->|Nz]; [rewrite !Z.mul_0_r; apply am_refl|]. apply am_mul; [apply nests_nonneg|]. apply IH; [|exact Im].
      specialize (Dp j h (or_introl Nz)). lia.
    - apply am_sum. intros z _. destruct (runs_list c z h) eqn:Rz; [|apply am_refl]. apply am_sum. intros m' Im'. destruct (reached_by c m' m z); [|apply am_refl]. apply am_sum. intros j _.
      destruct (Z.eq_dec (list_calls c opts j z) 0) as [->|Nz]; [rewrite !Z.mul_0_r; apply am_refl|]. apply am_mul; [apply calls_nonneg|]. apply IH; [|exact Im'].
      assert ((depth j < depth h)%nat) by (apply Dp; right; exists z; auto). lia.
  Qed.
  Lemma rpcs_expected k n n' z : layered c opts k -> In n (names c) -> at_most X (count (between n n' z) (made W)) (expected_rpcs c opts k n n' z).
  Proof.
    intros (depth & D1 & D2) In_. apply (am_trans X _ _ _ (rpcs_law n n' z In_)). unfold expected_rpcs. destruct (reached_by c n n' z); [|apply am_refl]. apply am_sum. intros j J.
    apply am_mul; [apply calls_nonneg|]. apply (runs_expected k depth D2); [|exact In_]. apply D1. unfold list_numbers in J. apply in_seq in J. lia.
  Qed.
End Test.
