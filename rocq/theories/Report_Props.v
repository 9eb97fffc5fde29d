(** C78: the result and the summary of a test are made of the RPCs its engines
    have recorded, all of them and nothing else. *)
From Coq Require Import Ascii String List NArith ZArith QArith Bool Arith Lia Permutation.
From Verif Require Import Base_Model Base_Proofs Grid_Model Grid_Proofs Place_Model Place_Proofs Util_Model Net_Model Table_Model Table_Props Cli_Model.
From Verif Require Seq_Model Sync_Model Sync_Props.
From Verif Require Import Seq_Proofs Node_Model Node_Proofs Node_Props Cluster_Model Cluster_Proofs Cluster_Props.
From Verif Require Import Peer_Model Peer_Proofs Peer_Props Deliver_Model Deliver_Proofs Deliver_Props.
From Verif Require Import Log_Model Log_Proofs Log_Proofs2 Log_Props Sum_Model Sum_Proofs Sum_Proofs2 Sum_Props Report_Model Report_Proofs Report_Proofs2.
Import ListNotations.
Open Scope Z_scope.

(** An engine at the end of the traffic: its peers are those it connected to,
    and the action lists it has run (each with the RPCs [runs] it recorded, in
    order) have merged their logs into them, in any order. *)
Record finished (o : outside) (r : Seq_Model.registry) (t : whole) (res : test_result) (ws : worlds) (id : Z) (n : str) (e : engine)
    (runs : list (list entry)) (st : engine_state) : Prop := mkFinished {
  fi_peers : exists rd, ready_at o r t res ws id n e rd /\ map (map fst) (es_peers st) = map (map pe_name) (sc_peers (rd_scan rd));
  fi_logs : exists lists, Forall2 (fun es l => record_all es (logs0 (map (@length _) (es_peers st))) = Some l) runs lists /\ merged lists (es_peers st) }.
(** What the node managers fetched from the engines of the test. *)
Definition collected (o : outside) (r : Seq_Model.registry) (ev : environment) (t : whole) (res : test_result) (ws : worlds)
    (content : Z -> engine_log) (runs : str -> list (list entry)) : Prop :=
  forall id n e, occupied r id -> engine_at (wo_ran ws) id n e ->
    exists st, finished o r t res ws id n e (runs n) st /\ option_map content (ex_logs (ph_ext (ev_get ev) id) (en_id e)) = kept_log (fst (get_logs st)).
(** The instance an RPC was sent to. *)
Definition target (c : config) (e : entry) : str :=
  match nth_error (cf_services c) (en_service e) with
  | Some s => match instance_name (sv_spec s) (Z.of_nat (en_instance e)) with Some n => n | None => [] end
  | None => []
  end.
(** All RPCs recorded in the test, with the instance that made them. *)
Definition all_recorded (c : config) (runs : str -> list (list entry)) : list (str * entry) := flat_map (fun n => map (pair n) (concat (runs n))) (names c).

Lemma ran_introduced fnm r nes ev t w active res ws id n e : ran fnm r nes ev t w active res ws -> occupied r id ->
  (engine_at (wo_ran ws) id n e <-> engine_at (wo_introduced ws) id n e).
Proof.
  intros (St & w' & active' & E) O. destruct (C74_traffic _ _ _ _ _ _ _ _ _ _ _ _ St E O) as (s2 & s3 & evs & W2 & W3 & Q & _). unfold engine_at. split; intros (s & W & I).
  - exists s2. split; [exact W2|]. rewrite <- Q. congruence.
  - exists s3. split; [exact W3|]. rewrite Q. congruence.
Qed.
Lemma names_table {A B} (f : A -> str) (g : B -> str) (a : list (list A)) (b : list (list B)) : map (map f) a = map (map g) b ->
  map (@length A) a = map (@length B) b /\
  forall k i, match nth_error a k with Some row => option_map f (nth_error row i) | None => None end = match nth_error b k with Some row => option_map g (nth_error row i) | None => None end.
Proof.
  intro E. split.
  - assert (G : forall C D (h : C -> D) (x : list (list C)), map (@length C) x = map (@length D) (map (map h) x)) by (intros; rewrite map_map; apply map_ext; intro; rewrite map_length; reflexivity).
    rewrite (G _ _ f), (G _ _ g), E. reflexivity.
  - intros k i. apply (f_equal (fun x => nth_error x k)) in E. rewrite !nth_error_map in E. destruct (nth_error a k) as [x|], (nth_error b k) as [y|]; cbn in E; try discriminate; [|reflexivity].
    injection E as E. rewrite <- !nth_error_map, E. reflexivity.
Qed.
(** The table of an engine has the instances of the test in their places. *)
Lemma engine_table fnm r nes ev t w active res ws o id n e runs st : ran fnm r nes ev t w active res ws -> NoDup (map rp_name (cf_rpcs (config_of t))) ->
  finished o r t res ws id n e runs st -> forall x, Log_Proofs2.fits (map (@length _) (es_peers st)) x ->
  located (config_of t) (target (config_of t) x) (en_service x) (en_instance x) /\ name_in (es_peers st) x = target (config_of t) x.
Proof.
  intros Rn Dr [(rd & Ra & Nm) _] x (m & F1 & F2). destruct (situation_of_test _ _ _ _ _ _ _ _ _ _ _ _ _ _ Rn Dr Ra) as (eps & k & i & s & _ & H & Pp & _).
  destruct (prepared _ _ _ _ _ _ _ _ _ _ _ _ _ _ H Pp) as (cs & _ & _ & _ & _ & _ & Si & _ & C & _). destruct (connect_ok _ _ _ _ _ _ _ _ _ Si _ _ C) as (_ & Sh & _).
  destruct (names_table _ _ _ _ Nm) as (Le & Na). rewrite Le, Sh, nth_error_map in F1. destruct (nth_error (cf_services (config_of t)) (en_service x)) as [sv|] eqn:Ev; [|discriminate].
  cbn in F1. injection F1 as <-. pose proof (es_sane _ _ _ _ _ _ _ _ _ H) as Sa.
  assert (V : 0 <= Z.of_nat (en_instance x) < svc_count sv) by lia. destruct (instance_name_total _ _ _ _ _ _ Si _ _ _ Ev V) as (n' & Nn & L). rewrite Nat2Z.id in L.
  assert (Tg : target (config_of t) x = n') by (unfold target; rewrite Ev, Nn; reflexivity). rewrite Tg. split; [exact L|].
  pose proof (C53_peers _ _ _ _ _ _ _ _ _ _ _ Si C n' _ _ _ L Ev) as Pe. rewrite (proj2 (set_mem_spec _ _) (es_complete _ _ _ _ _ _ _ _ _ H _ _ _ L)) in Pe.
  destruct Pe as (p & z & P1 & P2 & _). specialize (Na (en_service x) (en_instance x)). unfold peer_at in P1. unfold name_in. destruct (nth_error (sc_peers (rd_scan rd)) (en_service x)) as [row'|]; [|discriminate].
  rewrite P1 in Na. cbn [option_map] in Na. destruct (nth_error (es_peers st) (en_service x)) as [row|]; [|discriminate]. destruct (nth_error row (en_instance x)) as [q|]; [|discriminate]. cbn in Na. congruence.
Qed.
(** GetLogs of an engine. *)
Lemma engine_filed fnm r nes ev t w active res ws o id n e runs st : ran fnm r nes ev t w active res ws -> NoDup (map rp_name (cf_rpcs (config_of t))) ->
  finished o r t res ws id n e runs st ->
  Forall (fun x => located (config_of t) (target (config_of t) x) (en_service x) (en_instance x)) (concat runs) /\
  Permutation (of_out (lo_peers (fst (get_logs st)))) (map (fun x => (target (config_of t) x, filed_as x)) (concat runs)).
Proof.
  intros Rn Dr Fi. pose proof Fi as [_ (lists & F & M)]. destruct (all_filed _ _ _ F M) as (Ft & P). cbn [get_logs fst lo_peers]. rewrite Forall_forall in Ft. split.
  - apply Forall_forall. intros x I. exact (proj1 (engine_table _ _ _ _ _ _ _ _ _ _ _ _ _ _ _ Rn Dr Fi x (Ft x I))).
  - rewrite P. match goal with |- Permutation ?a ?b => enough (Q : a = b) by (rewrite Q; reflexivity) end. apply map_ext_in. intros x I.
    rewrite (proj2 (engine_table _ _ _ _ _ _ _ _ _ _ _ _ _ _ _ Rn Dr Fi x (Ft x I))). reflexivity.
Qed.
Lemma kept_spec l : (kept_log l = None /\ lo_peers l = []) \/ kept_log l = Some l.
Proof. unfold kept_log. destruct (lo_peers l), (lo_activities l), (lo_replays l); auto. Qed.
Lemma map_find_keys {V} k (m : list (str * V)) : In k (map fst m) -> exists v, map_find k m = Some v.
Proof. intro I. destruct (map_find k m) as [v|] eqn:F; [eauto|]. exfalso. exact (proj1 (map_find_None k m) F I). Qed.
Lemma flat_keys {A B} (f : A -> list B) a b : NoDup a -> NoDup b -> incl a b -> (forall x, In x b -> ~ In x a -> f x = []) -> Permutation (flat_map f a) (flat_map f b).
Proof.
  revert b. induction a as [|x a IH]; intros b Na Nb I H; cbn [flat_map].
  - assert (Q : flat_map f b = []); [|rewrite Q; constructor]. clear Nb I. induction b as [|y b IHb]; cbn [flat_map]; [reflexivity|]. rewrite (H y (or_introl eq_refl) (fun X => X)). apply IHb. intros z J. apply H. right. exact J.
  - inversion Na; subst. destruct (in_split x b (I x (or_introl eq_refl))) as (b1 & b2 & ->). rewrite (IH (b1 ++ b2)).
    + rewrite !flat_map_app. cbn [flat_map]. rewrite !app_assoc. apply Permutation_app_tail, Permutation_app_comm.
    + assumption.
    + exact (NoDup_remove_1 _ _ _ Nb).
    + intros y J. specialize (I y (or_intror J)). rewrite in_app_iff in I |- *. cbn [In] in I. destruct I as [I|[<-|I]]; auto. contradiction.
    + intros y J K. apply H.
      * rewrite in_app_iff in J |- *. cbn [In]. tauto.
      * intros [<-|L]; [exact (NoDup_remove_2 _ _ _ Nb J)|exact (K L)].
Qed.

(** The log of each instance of the test is filed under its name, holds what
    its engine recorded, under the names of the instances the RPCs were sent
    to; and there is nothing else. *)
Theorem C78_result fnm r nes ev t w active res ws o content runs : ran fnm r nes ev t w active res ws -> NoDup (map rp_name (cf_rpcs (config_of t))) ->
  (forall n, ~ bundled_and_constrained fnm t n) -> collected o r ev t res ws content runs ->
  unique_keys (result_logs content res) /\
  Permutation (samples_of (result_logs content res)) (map (fun x => ((fst x, target (config_of t) (snd x)), filed_as (snd x))) (all_recorded (config_of t) runs)) /\
  (forall n x, In (n, x) (all_recorded (config_of t) runs) -> located (config_of t) (target (config_of t) x) (en_service x) (en_instance x)) /\
  (forall p, In p (peers (result_logs content res)) -> of_peer (snd p) <> [] /\ forall rl, In rl (snd p) -> snd rl <> ([], [])).
Proof.
  intros Rn Dr Nb Co. pose proof Rn as (St & w' & active' & E). destruct (C74_logs _ _ _ _ _ _ _ _ _ _ _ St E) as (D & L1 & L2). specialize (L2 Nb). pose proof (pl_sane t (se_test _ _ _ _ _ St)) as Sa.
  (* every instance has one engine, whose log is kept or empty *)
  assert (Eng : forall n, In n (names (config_of t)) -> exists id e st, occupied r id /\ engine_at (wo_ran ws) id n e /\ finished o r t res ws id n e (runs n) st /\
    ((map_find n (tr_logs res) = None /\ lo_peers (fst (get_logs st)) = []) \/ exists v, map_find n (tr_logs res) = Some v /\ content v = fst (get_logs st))).
  { intros n I. destruct (C74_once _ _ _ _ _ _ _ _ _ _ _ n St E I (Nb n)) as (id & e & O & A & Un). apply (ran_introduced _ _ _ _ _ _ _ _ _ _ _ _ Rn O) in A.
    destruct (Co id n e O A) as (st & Fi & K). exists id, e, st. do 3 (split; [assumption|]). destruct (ex_logs (ph_ext (ev_get ev) id) (en_id e)) as [v|] eqn:X; cbn [option_map] in K.
    - right. exists v. split; [exact (L2 _ _ _ _ O A X)|]. destruct (kept_spec (fst (get_logs st))) as [(Q & _)|Q]; congruence.
    - left. destruct (kept_spec (fst (get_logs st))) as [(_ & Q)|Q]; [|congruence]. split; [|exact Q]. destruct (map_find n (tr_logs res)) as [v|] eqn:F; [|reflexivity].
      destruct (L1 _ _ F) as (id' & e' & O' & A' & X'). destruct (Un id' e' O') as (-> & ->); [apply (ran_introduced _ _ _ _ _ _ _ _ _ _ _ _ Rn O'), A'|congruence]. }
  assert (Kn : incl (map fst (tr_logs res)) (names (config_of t))).
  { intros n I. destruct (map_find_keys _ _ I) as (v & F). destruct (L1 _ _ F) as (id & e & O & A & _). apply (ran_introduced _ _ _ _ _ _ _ _ _ _ _ _ Rn O) in A.
    destruct (C74_engines _ _ _ _ _ _ _ _ _ _ _ St E) as (m & Pm & _ & H). destruct (H id n O) as (H1 & _). exact (proj1 (hosted_named _ _ _ _ _ _ _ _ _ St Pm (proj1 H1 (ex_intro _ e A)))). }
  assert (Val : forall n v, In (n, v) (tr_logs res) -> exists id e st, finished o r t res ws id n e (runs n) st /\ content v = fst (get_logs st)).
  { intros n v I. destruct (Eng n (Kn n (in_map fst _ _ I))) as (id & e & st & _ & _ & Fi & [(Q & _)|(v' & Q & Cv)]); apply (Place_Proofs.map_find_iff n v _ D) in I; [congruence|].
    exists id, e, st. split; [exact Fi|congruence]. }
  split; [|split; [|split]].
  - split; [unfold result_logs; rewrite map_map; exact D|]. unfold result_logs. apply Forall_forall. intros x I. apply in_map_iff in I as ([n v] & <- & I). cbn [fst snd].
    destruct (Val n v I) as (id & e & st & _ & ->). apply merge_keys_NoDup.
  - transitivity (flat_map (fun n => map (fun x => ((n, target (config_of t) x), filed_as x)) (concat (runs n))) (map fst (tr_logs res))).
    + unfold samples_of, result_logs. rewrite !flat_map_concat_map, !map_map, <- !flat_map_concat_map. apply perm_flat. intros [n v] I. cbn [fst snd]. destruct (Val n v I) as (id & e & st & Fi & ->).
      destruct (engine_filed _ _ _ _ _ _ _ _ _ _ _ _ _ _ _ Rn Dr Fi) as (_ & P). apply (Permutation_map (fun y => ((n, fst y), snd y))) in P. rewrite map_map in P. cbn [fst snd] in P. rewrite <- P.
      unfold of_out. generalize (lo_peers (fst (get_logs st))). intro l. induction l as [|[d pl] l IH]; cbn [flat_map map fst snd]; [constructor|].
      rewrite map_app, map_map. cbn [fst snd]. apply Permutation_app_head, IH.
    + unfold all_recorded. rewrite (flat_keys _ _ (names (config_of t)) D (names_NoDup _ Sa) Kn).
      * rewrite !flat_map_concat_map, concat_map, map_map. match goal with |- Permutation ?a ?b => enough (Q : a = b) by (rewrite Q; reflexivity) end. f_equal. apply map_ext. intro n. rewrite map_map. reflexivity.
      * intros n I N. destruct (Eng n I) as (id & e & st & _ & _ & Fi & [(_ & Q)|(v & Q & _)]); [|exfalso; apply N; exact (in_map fst _ _ (map_find_In _ _ _ Q))].
        destruct (engine_filed _ _ _ _ _ _ _ _ _ _ _ _ _ _ _ Rn Dr Fi) as (_ & P). rewrite Q in P. cbn in P. apply Permutation_nil, map_eq_nil in P. rewrite P. reflexivity.
  - intros n x I. unfold all_recorded in I. apply in_flat_map in I as (n' & I & J). apply in_map_iff in J as (y & Q & J). injection Q as -> ->.
    destruct (Eng n I) as (id & e & st & _ & _ & Fi & _). destruct (engine_filed _ _ _ _ _ _ _ _ _ _ _ _ _ _ _ Rn Dr Fi) as (F & _). rewrite Forall_forall in F. exact (F x J).
  - intros p I. unfold peers, result_logs in I. apply in_flat_map in I as ([n l] & I & J). apply in_map_iff in I as ([n' v] & Q & I). injection Q as <- <-. cbn [fst snd] in J. apply in_map_iff in J as ([d pl] & <- & J). cbn [fst snd].
    destruct (Val n' v I) as (id & e & st & _ & Q). rewrite Q in J. split; [exact (full_peer _ _ _ (get_full _) J)|exact (proj2 (get_full _ _ _ J))].
Qed.
Print Assumptions C78_result.

(** ** The summary *)
(** A test that has been run, whose logs were collected. *)
Definition reported (fnm : str -> str -> bool) (t : whole) (res : test_result) (content : Z -> engine_log) (runs : str -> list (list entry)) : Prop :=
  exists r nes ev w active ws o, ran fnm r nes ev t w active res ws /\ NoDup (map rp_name (cf_rpcs (config_of t))) /\ (forall n, ~ bundled_and_constrained fnm t n) /\
    collected o r ev t res ws content runs.
(** The RPC [x] (with the instance that made it) went from [fst k] to [snd k]. *)
Definition sent (c : config) (k : str * str) (x : str * entry) : bool := str_eqb (fst x) (fst k) && str_eqb (target c (snd x)) (snd k).
(** ... is of the kind called [n]. *)
Definition kind (c : config) (n : str) (x : str * entry) : bool :=
  match nth_error (map rp_name (cf_rpcs c)) (en_rpc (snd x)) with Some m => str_eqb m n | None => false end.

Lemma reported_result fnm t res content runs : reported fnm t res content runs -> let l := result_logs content res in let R := all_recorded (config_of t) runs in
  unique_keys l /\ Permutation (samples_of l) (map (seen (target (config_of t))) R) /\ (forall p, In p (peers l) -> of_peer (snd p) <> []) /\
  (forall p rl, In p (peers l) -> In rl (snd p) -> snd rl <> ([], [])) /\ tr_test res = t.
Proof.
  intros (r & nes & ev & w & active & ws & o & Rn & Dr & Nb & Co). cbv zeta. destruct (C78_result _ _ _ _ _ _ _ _ _ _ _ _ Rn Dr Nb Co) as (U & P & _ & F).
  split; [exact U|]. split; [exact P|]. split; [intros p I; exact (proj1 (F p I))|]. split; [intros p rl I J; exact (proj2 (F p I) rl J)|].
  destruct Rn as (St & w' & active' & E). destruct (C74_engines _ _ _ _ _ _ _ _ _ _ _ St E) as (m & _ & Q & _). exact Q.
Qed.
Lemma sums {A B} (f : B -> Z) (g : A -> B) (xs : list B) (ys : list A) : Permutation xs (map g ys) -> zsum (map f xs) = zsum (map (fun y => f (g y)) ys).
Proof. intro P. rewrite (zsum_perm _ _ _ P), map_map. reflexivity. Qed.
Lemma sizes {A B} (g : A -> B) (xs : list B) (ys : list A) : Permutation xs (map g ys) -> len xs = len ys.
Proof. intro P. rewrite (len_perm _ _ _ P). apply len_map. Qed.

(** Numbers of RPCs. *)
Theorem C78_counts fnm t res content runs s : reported fnm t res content runs -> test_summary content res = Some (Summary s) -> let R := all_recorded (config_of t) runs in
  sm_samples s = len R /\ sm_failed s = len (filter (fun x => negb (good x)) R) /\ sm_warm s = len (filter (fun x => good x && warming x) R).
Proof.
  intros Rp S R. destruct (reported_result _ _ _ _ _ Rp) as (U & P & _ & _ & _). cbv zeta in *. fold R in P. destruct (C40_counters _ _ _ S) as (A & B & C & _).
  pose proof (sizes _ _ _ (fails_all _ _ _ P)) as F. rewrite len_flat in F. pose proof (sizes _ _ _ (oks_all _ _ _ P)) as O. rewrite len_flat in O. pose proof (sizes _ _ _ (counted_all _ _ _ P)) as M.
  assert (L : forall A (p : A -> bool) l, len l = len (filter p l) + len (filter (fun x => negb (p x)) l)).
  { intros T p l. unfold len. induction l as [|x l IH]; cbn [filter length]; [reflexivity|]. destruct (p x); cbn [negb length]; lia. }
  assert (Z2 : forall A (f g : A -> Z) l, zsum (map (fun p => f p + g p) l) = zsum (map f l) + zsum (map g l)) by (intros T f g l; induction l as [|x l IH]; cbn [map zsum]; lia).
  rewrite Z2 in A. pose proof (L _ good R) as L1. pose proof (L _ warming (filter good R)) as L2. rewrite !filter_and in L2. change (fun x => good x && negb (warming x)) with measured in L2. lia.
Qed.
Print Assumptions C78_counts.
(** One line per pair of instances with an RPC between them, with the RPCs
    that succeeded and the bytes of those outside the warm-up. *)
Theorem C78_pairs fnm t res content runs s : reported fnm t res content runs -> test_summary content res = Some (Summary s) -> let c := config_of t in let R := all_recorded c runs in
  NoDup (map fst (sm_comm s)) /\ (forall k, In k (map fst (sm_comm s)) <-> exists x, In x R /\ (fst x, target c (snd x)) = k) /\
  forall k p, In (k, p) (sm_comm s) ->
    pf_rpcs p = len (filter (fun x => sent c k x && good x) R) /\
    pf_request p = zsum (map rq (filter (fun x => sent c k x && measured x) R)) /\ pf_response p = zsum (map rs (filter (fun x => sent c k x && measured x) R)).
Proof.
  intros Rp S c R. destruct (reported_result _ _ _ _ _ Rp) as (U & P & Ne & _ & _). cbv zeta in *. fold c in P. fold R in P. destruct (C40_pairs _ _ _ U S) as (Q & D). split; [exact D|].
  rewrite Q. split.
  - intro k. rewrite map_map. cbn [fst]. rewrite <- (pairs_listed _ _ _ Ne P). rewrite in_map_iff. split; [intros ([k' pl] & <- & I); eauto|intros (pl & I); exists (k, pl); auto].
  - intros k p I. apply in_map_iff in I as ([k' pl] & E & I). cbn [fst snd] in E. injection E as -> <-. cbn [pf_rpcs pf_request pf_response].
    split; [exact (sizes _ _ _ (pair_oks _ _ _ U P _ _ I))|]. split; exact (sums _ _ _ _ (pair_timed _ _ _ U P _ _ I)).
Qed.
Print Assumptions C78_pairs.
(** Per instance: bytes sent and received. *)
Theorem C78_instances fnm t res content runs s : reported fnm t res content runs -> test_summary content res = Some (Summary s) -> let c := config_of t in let R := all_recorded c runs in
  (sm_inst s = None <-> forall x, In x R -> good x = false) /\
  forall m n b, sm_inst s = Some (m, n, b) ->
    n = len (filter good R) /\ b = zsum (map (fun x => rq x + rs x) (filter measured R)) /\
    NoDup (map fst m) /\ (forall k, In k (map fst m) <-> exists x, In x R /\ (k = fst x \/ k = target c (snd x))) /\
    forall k v, In (k, v) m ->
      let out := filter (fun x => str_eqb (fst x) k && measured x) R in let inc := filter (fun x => str_eqb (target c (snd x)) k && measured x) R in
      is_tx v = zsum (map rq out) + zsum (map rs inc) /\ is_rx v = zsum (map rs out) + zsum (map rq inc).
Proof.
  intros Rp S c R. destruct (reported_result _ _ _ _ _ Rp) as (U & P & Ne & _ & _). cbv zeta in *. fold c in P. fold R in P. split.
  - destruct (summarize_inv _ _ _ S) as [tt [la [it [A [B [C [D ->]]]]]]]. cbn [sm_inst].
    destruct (inst_all_spec _ _ _ D ltac:(constructor)) as [_ [_ [_ [Ri _]]]]. cbn [it_rpcs] in Ri. rewrite (perf_list _ _ _ U A), map_map in Ri. unfold perf_of in Ri. cbn [snd pf_rpcs] in Ri.
    pose proof (sizes _ _ _ (oks_all _ _ _ P)) as O. rewrite len_flat in O.
    assert (Q : it_rpcs it = len (filter good R)) by (rewrite Ri, <- O; reflexivity). rewrite Q. destruct (Z.eqb_spec (len (filter good R)) 0) as [Z0|Z0].
    + split; [|reflexivity]. intros _ x I. destruct (good x) eqn:G; [|reflexivity]. assert (J : In x (filter good R)) by (apply filter_In; auto). unfold len in Z0. destruct (filter good R); [destruct J|discriminate Z0].
    + split; [discriminate|]. intro H. exfalso. apply Z0. rewrite (filter_none good R H). reflexivity.
  - intros m n b E. destruct (C40_conserved _ _ _ _ _ _ U S E) as (X & _). destruct (C40_counters _ _ _ S) as (_ & _ & _ & N). specialize (N U _ _ _ E). destruct (C78_counts _ _ _ _ _ _ Rp S) as (N1 & N2 & _). fold c in N1, N2. fold R in N1, N2.
    destruct (C40_instances _ _ _ _ _ _ U S E) as (D & K & V).
    assert (L : len R = len (filter good R) + len (filter (fun x => negb (good x)) R)).
    { unfold len. clear. induction R as [|x l IH]; cbn [filter length]; [reflexivity|]. destruct (good x); cbn [negb length]; lia. }
    split; [lia|]. split; [rewrite X; exact (sums _ _ _ _ (counted_all _ _ _ P))|]. split; [exact D|]. split.
    + intro k. rewrite K. split.
      * intros ([k' pl] & I & H). destruct (proj1 (pairs_listed _ _ _ Ne P k') (ex_intro _ pl I)) as (x & J & <-). cbn [fst snd] in H. eauto.
      * intros (x & I & H). destruct (proj2 (pairs_listed _ _ _ Ne P (fst x, target c (snd x))) (ex_intro _ x (conj I eq_refl))) as (pl & J). exists ((fst x, target c (snd x)), pl). auto.
    + intros k v I. set (out := filter (fun x => str_eqb (fst x) k && measured x) R). set (inc := filter (fun x => str_eqb (target c (snd x)) k && measured x) R). destruct (V k v I) as (T1 & T2).
      assert (Of : forall f, zsum (map f (counted_from k (result_logs content res))) = zsum (map (fun x => f (strip (filed_as (snd x)))) out)).
      { intro f. exact (sums f _ _ _ (counted_some _ _ _ P (fun q => str_eqb (fst q) k))). }
      assert (Ot : forall f, zsum (map f (counted_to k (result_logs content res))) = zsum (map (fun x => f (strip (filed_as (snd x)))) inc)).
      { intro f. exact (sums f _ _ _ (counted_some _ _ _ P (fun q => str_eqb (snd q) k))). }
      rewrite T1, T2, !Of, !Ot. split; reflexivity.
Qed.
Print Assumptions C78_instances.
(** One line per kind of RPC of which one was recorded, made of the latencies
    of those that succeeded outside the warm-up. *)
Theorem C78_latencies fnm t res content runs s : reported fnm t res content runs -> test_summary content res = Some (Summary s) -> let c := config_of t in let R := all_recorded c runs in
  len (filter measured R) <= 2 ^ 42 ->
  NoDup (map fst (sm_lat s)) /\ (forall n, In n (map fst (sm_lat s)) <-> exists x, In x R /\ kind c n x = true) /\
  forall n v, In (n, v) (sm_lat s) -> good_summary (map took (filter (fun x => measured x && kind c n x) R)) v.
Proof.
  intros Rp S c R B. destruct (reported_result _ _ _ _ _ Rp) as (U & P & _ & Nl & Tt). cbv zeta in *. fold c in P. fold R in P. unfold test_summary in S. rewrite Tt in S. fold c in S.
  assert (B' : len (counted (result_logs content res)) <= 2 ^ 42) by (rewrite (sizes _ _ _ (counted_all _ _ _ P)); exact B).
  destruct (C41_reported _ _ _ S B') as (D & K & V). split; [exact D|]. split.
  - intro n. rewrite K. unfold kind. split.
    + intros (p & rl & I & J & N). destruct (proj1 (rpcs_listed _ _ _ P (fst rl)) (ex_intro _ p (ex_intro _ rl (conj I (conj J (conj eq_refl (Nl p rl I J))))))) as (x & X & Q).
      exists x. split; [exact X|]. rewrite Q, N. apply str_eqb_refl.
    + intros (x & I & N). destruct (proj2 (rpcs_listed _ _ _ P (en_rpc (snd x))) (ex_intro _ x (conj I eq_refl))) as (p & rl & X & J & Q & _). exists p, rl. split; [exact X|]. split; [exact J|]. rewrite Q.
      destruct (nth_error (map rp_name (cf_rpcs c)) (en_rpc (snd x))) as [m|]; [|discriminate]. destruct (str_eqb_spec m n); [subst; reflexivity|discriminate].
  - intros n v I. specialize (V n v I). refine (good_perm _ _ _ _ V).
    rewrite (filter_perm _ (named (map rp_name (cf_rpcs c)) n) _ _ (counted_all _ _ _ P)), filter_map, filter_and, map_map. reflexivity.
Qed.
Print Assumptions C78_latencies.
(** The duration: from the start of one RPC to the end of another one (outside
    the warm-up, successful) of the same pair of instances. *)
Definition lasted (c : config) (R : list (str * entry)) (d : Z) : Prop :=
  exists x y, In x R /\ In y R /\ measured x = true /\ measured y = true /\ fst x = fst y /\ target c (snd x) = target c (snd y) /\ d = began y + took y - began x.
Lemma reported_timed fnm t res content runs : reported fnm t res content runs -> let c := config_of t in let R := all_recorded c runs in
  forall k pl y, In (k, pl) (peers (result_logs content res)) -> (In y (timed (oks pl)) <-> exists x, In x R /\ measured x = true /\ (fst x, target c (snd x)) = k /\ strip (filed_as (snd x)) = y).
Proof.
  intros Rp c R. destruct (reported_result _ _ _ _ _ Rp) as (U & P & _ & _ & _). cbv zeta in *. fold c in P. fold R in P.
intros k pl y I. pose proof (pair_timed _ _ _ U P _ _ I) as Q. split.
    - intro J. apply (Permutation_in _ Q), in_map_iff in J as (x & <- & J). apply filter_In in J as (J & G). apply andb_prop in G as (G1 & G2). exists x. split; [exact J|]. split; [exact G2|]. split; [|reflexivity].
      unfold between in G1. destruct (pair_eqb_spec (fst x, target c (snd x)) k); [assumption|discriminate].
    - intros (x & J & M & Kx & <-). apply (Permutation_in _ (Permutation_sym Q)). apply in_map_iff. exists x. split; [reflexivity|]. apply filter_In. split; [exact J|]. rewrite M, andb_true_r. unfold between.
      destruct (pair_eqb_spec (fst x, target c (snd x)) k); [reflexivity|contradiction].
Qed.
Lemma reported_elapsed fnm t res content runs : reported fnm t res content runs -> let c := config_of t in let R := all_recorded c runs in
  forall d, elapsed (result_logs content res) d <-> lasted c R d.
Proof.
  intros Rp c R. pose proof (reported_timed _ _ _ _ _ Rp) as W. destruct (reported_result _ _ _ _ _ Rp) as (_ & P & Ne & _ & _). cbv zeta in *. fold c in P, W. fold R in P, W.
  intro d. split.
    - intros ([k pl] & a & b & I & Ia & Ib & ->). cbn [snd] in Ia, Ib. apply (W _ _ _ I) in Ia as (x & X1 & X2 & X3 & <-), Ib as (y & Y1 & Y2 & Y3 & <-). exists x, y.
      rewrite <- Y3 in X3. injection X3 as E1 E2. do 6 (split; [assumption|]). reflexivity.
    - intros (x & y & X1 & Y1 & X2 & Y2 & E1 & E2 & ->). destruct (proj2 (pairs_listed _ _ _ Ne P (fst x, target c (snd x))) (ex_intro _ x (conj X1 eq_refl))) as (pl & I).
      exists ((fst x, target c (snd x)), pl), (strip (filed_as (snd x))), (strip (filed_as (snd y))). split; [exact I|]. cbn [snd]. split; [apply (W _ _ _ I); eauto|]. split; [|reflexivity].
      apply (W _ _ _ I). exists y. rewrite E1, E2. auto.
Qed.
Theorem C78_time fnm t res content runs : reported fnm t res content runs -> let c := config_of t in let R := all_recorded c runs in
  (forall x, In x R -> measured x = true -> in_int64 (began x) = true) ->
  (forall s, test_summary content res = Some (Summary s) -> 0 < sm_time s /\ lasted c R (sm_time s) /\ forall d, lasted c R d -> d <= sm_time s) /\
  (test_summary content res = Some NoSummary -> forall d, lasted c R d -> d <= 0).
Proof.
  intros Rp c R B. pose proof (reported_timed _ _ _ _ _ Rp) as W. pose proof (reported_elapsed _ _ _ _ _ Rp) as Q. cbv zeta in *. fold c in W, Q. fold R in W, Q.
  destruct (C40_time (map rp_name (cf_rpcs (config_of (tr_test res)))) (result_logs content res)) as (T1 & T2).
  { intros [k pl] y I J. cbn [snd] in J. apply (W _ _ _ I) in J as (x & X1 & X2 & _ & <-). exact (B x X1 X2). }
  split.
  - intros s S. destruct (T1 s S) as (A & Bq & Cq). split; [exact A|]. split; [apply Q, Bq|]. intros d L. apply Cq, Q, L.
  - intros S d L. apply (T2 S), Q, L.
Qed.
Print Assumptions C78_time.
Lemma reported_fits fnm t res content runs : reported fnm t res content runs -> let c := config_of t in let R := all_recorded c runs in let l := result_logs content res in
  (forall x, In x R -> (en_rpc (snd x) < length (cf_rpcs c))%nat) ->
  (forall x, In x R -> measured x = true -> 0 <= rq x /\ 0 <= rs x /\ 0 <= began x /\ 0 <= took x /\ began x + took x <= int64_max) ->
  zsum (map (fun x => rq x + rs x) (filter measured R)) <= int64_max -> len R <= 2 ^ 42 ->
  unique_keys l /\ Forall (peer_fits (map rp_name (cf_rpcs c))) (peers l) /\ zsum (map (fun y => req y + resp y) (counted l)) <= int64_max /\
  zsum (map (fun p => len (oks (snd p)) + len (fails (snd p))) (peers l)) <= int64_max /\ len (counted l) <= 2 ^ 42.
Proof.
  intros Rp c R l Hr Hs Hb Hn. destruct (reported_result _ _ _ _ _ Rp) as (U & P & Ne & Nl & Tt). cbv zeta in *. fold c in P. fold R in P. unfold l in *. clear l.
  assert (Lf : forall A (p : A -> bool) l, len (filter p l) <= len l).
  { intros T p q. unfold len. induction q as [|x q IH]; cbn [filter length]; [lia|]. destruct (p x); cbn [length]; lia. }
  split; [exact U|]. split; [|split; [|split]].
  - apply Forall_forall. intros [k pl] I.
    assert (W : forall y, In y (timed (oks pl)) -> exists x, In x R /\ measured x = true /\ strip (filed_as (snd x)) = y).
    { intros y J. apply (Permutation_in _ (pair_timed _ _ _ U P _ _ I)), in_map_iff in J as (x & <- & J). apply filter_In in J as (J & G). apply andb_prop in G as (_ & G). eauto. }
    constructor; cbn [snd].
    + intros rl J. destruct (proj1 (rpcs_listed _ _ _ P (fst rl)) (ex_intro _ (k, pl) (ex_intro _ rl (conj I (conj J (conj eq_refl (Nl _ _ I J))))))) as (x & X & Q).
      rewrite <- Q. apply nth_error_Some. rewrite map_length. exact (Hr x X).
    + apply Forall_forall. intros y J. destruct (W y J) as (x & X & M & <-). destruct (Hs x X M) as (A1 & A2 & A3 & A4 & A5). constructor; [exact A1|exact A2|].
      change (t1 (strip (filed_as (snd x)))) with (began x + took x). unfold in_int64, int64_max in *. lia.
    + intro N. unfold span. assert (X1 : forall y, In y (timed (oks pl)) -> 0 <= t0 y /\ t0 y <= t1 y /\ t1 y <= int64_max).
      { intros y J. destruct (W y J) as (x & X & M & <-). destruct (Hs x X M) as (A1 & A2 & A3 & A4 & A5). change (t1 (strip (filed_as (snd x)))) with (began x + took x). change (t0 (strip (filed_as (snd x)))) with (began x). lia. }
      clear W. assert (Mx : forall l a, (forall z, In z l -> z <= int64_max) -> a <= int64_max -> fold_left Z.max l a <= int64_max).
      { induction l as [|z l IH]; intros a H1 H2; cbn [fold_left]; [exact H2|]. apply IH; [intros z' J; apply H1; right; exact J|]. pose proof (H1 z (or_introl eq_refl)). lia. }
      assert (Mn : forall l a, (forall z, In z l -> 0 <= z) -> 0 <= a -> 0 <= fold_left Z.min l a).
      { induction l as [|z l IH]; intros a H1 H2; cbn [fold_left]; [exact H2|]. apply IH; [intros z' J; apply H1; right; exact J|]. pose proof (H1 z (or_introl eq_refl)). lia. }
      specialize (Mx (map t1 (timed (oks pl))) int64_min). specialize (Mn (map t0 (timed (oks pl))) int64_max).
      assert (Mx' : fold_left Z.max (map t1 (timed (oks pl))) int64_min <= int64_max).
      { apply Mx; [|unfold int64_min, int64_max; lia]. intros z J. apply in_map_iff in J as (y & <- & J). apply X1, J. }
      assert (Mn' : 0 <= fold_left Z.min (map t0 (timed (oks pl))) int64_max).
      { apply Mn; [|unfold int64_max; lia]. intros z J. apply in_map_iff in J as (y & <- & J). apply X1, J. }
      destruct (timed (oks pl)) as [|y ys] eqn:Ty; [congruence|]. destruct (X1 y (or_introl eq_refl)) as (Y1 & Y2 & Y3).
      pose proof (proj2 (fold_max_ge (map t1 (y :: ys)) int64_min) (t1 y) (or_introl eq_refl)). pose proof (proj2 (fold_min_le (map t0 (y :: ys)) int64_max) (t0 y) (or_introl eq_refl)).
      unfold in_int64, int64_max in *. apply andb_true_intro. split; apply Z.leb_le; lia.
  - rewrite (sums (fun y => req y + resp y) _ _ _ (counted_all _ _ _ P)). exact Hb.
  - assert (Z2 : forall A (f g : A -> Z) l, zsum (map (fun p => f p + g p) l) = zsum (map f l) + zsum (map g l)) by (intros T f g l; induction l as [|x l IH]; cbn [map zsum]; lia).
    rewrite Z2, <- !len_flat, (sizes _ _ _ (oks_all _ _ _ P)), (sizes _ _ _ (fails_all _ _ _ P)).
    assert (L : len R = len (filter good R) + len (filter (fun x => negb (good x)) R)).
    { unfold len. clear. induction R as [|x l IH]; cbn [filter length]; [reflexivity|]. destruct (good x); cbn [negb length]; lia. }
    unfold int64_max. lia.
  - rewrite (sizes _ _ _ (counted_all _ _ _ P)). pose proof (Lf _ measured R). lia.
Qed.
(** The summary is defined: no overflow and no access outside an array. *)
Theorem C78_defined fnm t res content runs : reported fnm t res content runs -> let c := config_of t in let R := all_recorded c runs in
  (forall x, In x R -> (en_rpc (snd x) < length (cf_rpcs c))%nat) ->
  (forall x, In x R -> measured x = true -> 0 <= rq x /\ 0 <= rs x /\ 0 <= began x /\ 0 <= took x /\ began x + took x <= int64_max) ->
  zsum (map (fun x => rq x + rs x) (filter measured R)) <= int64_max -> len R <= 2 ^ 42 ->
  exists r, test_summary content res = Some r.
Proof.
  intros Rp c R Hr Hs Hb Hn. destruct (reported_fits _ _ _ _ _ Rp Hr Hs Hb Hn) as (U & F & B & M & C). cbv zeta in *.
  destruct (reported_result _ _ _ _ _ Rp) as (_ & _ & _ & _ & Tt). unfold test_summary. rewrite Tt. apply C40_defined; assumption.
Qed.
Print Assumptions C78_defined.

(** ** The logs of one engine *)
(** An engine that recorded something is in the answer of the node, with its
    whole log; the second GetLogs returns the same, if no trace was replayed. *)
Theorem C78_kept st : (exists p rl, In p (concat (es_peers st)) /\ In rl (snd p) /\ rl <> [] /\ Forall (fun x => snd x <> ([], [])) rl) -> kept_log (fst (get_logs st)) = Some (fst (get_logs st)).
Proof.
  intros (p & rl & I & J & N & F). destruct (kept_spec (fst (get_logs st))) as [(_ & Q)|Q]; [|exact Q]. exfalso. cbn [get_logs fst lo_peers] in Q.
  assert (X : of_out (get_peer_logs (es_peers st)) = []) by (rewrite Q; reflexivity). pose proof (of_get (es_peers st)) as P. rewrite X in P. apply Permutation_nil in P.
  destruct rl as [|[r v] rl]; [congruence|]. inversion F as [|? ? Nv _]; subst. cbn [snd] in Nv. assert (Y : exists f, In f (tagged r v)) by (destruct v as [[|a ?] [|b ?]]; [congruence| | |]; eexists; left; reflexivity).
  destruct Y as (f & Y).
  assert (W : In (fst p, f) (flat_map (fun p => map (pair (fst p)) (flat_map of_peer (snd p))) (concat (es_peers st)))).
  { apply in_flat_map. exists p. split; [exact I|]. apply in_map, in_flat_map. exists ((r, v) :: rl). split; [exact J|]. unfold of_peer. cbn [flat_map fst snd]. apply in_or_app. left. exact Y. }
  rewrite P in W. exact W.
Qed.
Print Assumptions C78_kept.
(** An engine with activities or a replayed trace is in the answer too; the log
    has those as they are, the errors that occurred, and the reason why the
    engine was cancelled if and only if there is one. *)
Theorem C78_log st : (es_activities st <> [] \/ es_replays st <> [] -> kept_log (fst (get_logs st)) <> None) /\
  forall l, kept_log (fst (get_logs st)) = Some l ->
    lo_errors l = es_errors st /\ lo_activities l = es_activities st /\ lo_replays l = es_replays st /\ (forall x, lo_error l = Some x <-> x = es_reason st /\ x <> []) /\
    lo_peers l = get_peer_logs (es_peers st).
Proof.
  split.
  - unfold kept_log. cbn [get_logs fst lo_peers lo_activities lo_replays]. intros [N|N]; destruct (get_peer_logs (es_peers st)), (es_activities st), (es_replays st); congruence.
  - intros l E. destruct (kept_spec (fst (get_logs st))) as [(Q & _)|Q]; rewrite Q in E; [discriminate|]. injection E as <-. cbn [get_logs fst lo_errors lo_activities lo_replays lo_error lo_peers].
    repeat (split; [reflexivity|]). split; [|reflexivity]. intro x. destruct (es_reason st) as [|a r]; split; intro H; [discriminate|destruct H; congruence|injection H as <-; split; [reflexivity|discriminate]|destruct H as (-> & _); reflexivity].
Qed.
Print Assumptions C78_log.
Example C78_ex_log : let st := mkES (s_ "too slow") [[(s_ "server/0", [])]] [s_ "ABORTED: "] [(s_ "waste", [(s_ "iterations", 3)])] [] in
  es_activities st <> [] /\ option_map lo_error (kept_log (fst (get_logs st))) = Some (Some (s_ "too slow")).
Proof. split; [discriminate|reflexivity]. Qed.
Theorem C78_again st : es_replays st = [] -> get_logs (snd (get_logs st)) = get_logs st.
Proof. intro E. destruct st as [a b c d e]. cbn in E. subst e. reflexivity. Qed.
Print Assumptions C78_again.
(** The reason an engine was cancelled for is lost if it had nothing to report. *)
Theorem C78_reason_lost_refuted : exists st, lo_error (fst (get_logs st)) = Some (s_ "Unknown peer name") /\ kept_log (fst (get_logs st)) = None.
Proof. exists (mkES (s_ "Unknown peer name") [[(s_ "server/0", [])]] [s_ "UNKNOWN: "] [] []). split; reflexivity. Qed.
Print Assumptions C78_reason_lost_refuted.
(** A result fetched without clearing the services empties the logs of the
    replayed traces. *)
Theorem C78_replayed_once_refuted : exists st, lo_replays (fst (get_logs st)) = [Some 7] /\ lo_replays (fst (get_logs (snd (get_logs st)))) = [None].
Proof. exists (mkES [] [] [] [] [Some 7]). split; reflexivity. Qed.
Print Assumptions C78_replayed_once_refuted.

(** ** Example: the test of C75.  A client runs two action lists, the other
    one, of which an RPC fails; a server calls another one; the other two
    servers record nothing. *)
Definition rec1 (k i r : nat) (ok : bool) (start lt rqs rsp : Z) (w : bool) : entry := mkEntry k i r ok (mkSample start lt None rqs rsp w None (if ok then None else Some 0)).
Definition rep_runs (n : str) : list (list entry) :=
  if str_eqb n (s_ "client/0/0/0") then [[rec1 1 0 0 true 1000 50 16 32 true; rec1 1 1 0 true 1100 60 16 32 false; rec1 1 2 1 true 1200 70 100 8 false]; [rec1 1 1 0 true 1150 90 16 32 false]]
  else if str_eqb n (s_ "client/1/0/0") then [[rec1 1 1 0 true 1010 40 16 32 false; rec1 1 1 0 false 1060 5 16 0 false]]
  else if str_eqb n (s_ "server/0/0/0") then [[rec1 1 1 2 true 1300 20 1 1 false]; []]
  else [].
Definition rep_table : list (list str) := map (map s_) [["client/0/0/0"; "client/1/0/0"]; ["server/0/0/0"; "server/1/0/0"; "server/2/0/0"]]%string.
Definition shares (lists : list logs) (i j : nat) : list peer_log := fold_left (fun acc l => merge_peer (peer_of l i j) acc) lists [].
Definition table_with (tbl : list (list str)) (lists : list logs) : list (list (str * list peer_log)) :=
  map (fun i => map (fun j => (nth j (nth i tbl []) [], shares lists i j)) (seq 0 (length (nth i tbl [])))) (seq 0 (length tbl)).
Fixpoint lists_of (shape : list nat) (runs : list (list entry)) : option (list logs) :=
  match runs with [] => Some [] | es :: r => match record_all es (logs0 shape), lists_of shape r with Some l, Some ls => Some (l :: ls) | _, _ => None end end.
Lemma table_names tbl lists : map (map fst) (table_with tbl lists) = tbl.
Proof.
  assert (G : forall A (d : A) l, map (fun i => nth i l d) (seq 0 (length l)) = l).
  { intros A d l. apply List.nth_ext with (d := d) (d' := d); [rewrite map_length, seq_length; reflexivity|]. intros k K. rewrite map_length, seq_length in K.
    rewrite (nth_indep _ d (nth 0 l d)) by (rewrite map_length, seq_length; exact K). rewrite (map_nth (fun i => nth i l d)), seq_nth by exact K. reflexivity. }
  unfold table_with. rewrite map_map. transitivity (map (fun i => nth i tbl []) (seq 0 (length tbl))); [|apply G]. apply map_ext. intro i. rewrite map_map. cbn [fst]. apply G.
Qed.
Lemma table_merged tbl lists : merged lists (table_with tbl lists).
Proof.
  intros i j p (sv & E1 & E2). exists lists. split; [reflexivity|]. unfold table_with in E1. rewrite nth_error_map in E1. destruct (nth_error (seq 0 (length tbl)) i) as [i'|] eqn:F; [|discriminate]. cbn in E1. injection E1 as <-.
  assert (Sq : forall n k x, nth_error (seq 0 n) k = Some x -> x = k).
  { intros n k x H. assert (L : (k < n)%nat) by (rewrite <- (seq_length n 0); apply nth_error_Some; congruence). apply nth_error_nth with (d := 0%nat) in H. rewrite seq_nth in H by exact L. cbn in H. congruence. }
  rewrite nth_error_map in E2. destruct (nth_error (seq 0 (length (nth i' tbl []))) j) as [j'|] eqn:F2; [|discriminate]. cbn in E2. injection E2 as <-. cbn [snd]. rewrite (Sq _ _ _ F), (Sq _ _ _ F2). reflexivity.
Qed.
Lemma lists_of_spec shape runs lists : lists_of shape runs = Some lists -> Forall2 (fun es l => record_all es (logs0 shape) = Some l) runs lists.
Proof.
  revert lists. induction runs as [|es runs IH]; intros lists E; cbn [lists_of] in E; [injection E as <-; constructor|].
  destruct (record_all es (logs0 shape)) as [l|] eqn:R; [|discriminate]. destruct (lists_of shape runs) as [ls|]; [|discriminate]. injection E as <-. constructor; [exact R|apply IH; reflexivity].
Qed.
Definition rep_state (n : str) : engine_state :=
  mkES [] (table_with rep_table (match lists_of (map (@length _) rep_table) (rep_runs n) with Some l => l | None => [] end)) [s_ "ABORTED: "] [] [].
(** The log of engine [k] of node [id] is number 10 id + k. *)
Definition rep_name (z : Z) : str :=
  match find (fun x => Z.eqb (fst x) z) [(0, s_ "server/1/0/0"); (10, s_ "server/0/0/0"); (20, s_ "server/2/0/0"); (30, s_ "client/0/0/0"); (31, s_ "client/1/0/0")] with Some x => snd x | None => [] end.
Definition rep_content (z : Z) : engine_log := fst (get_logs (rep_state (rep_name z))).
Definition rep_ev : environment :=
  mkEnvironment (ev_configure ex_ev) (ev_introduce ex_ev) (ev_run ex_ev)
    (mkPhase (fun _ => Served) (fun id => mkExt (Node_Model.ex_driver ex_good) (Node_Model.ex_engine ex_good) (Node_Model.ex_connect ex_good)
        (fun k => let z := 10 * id + Z.of_nat k in option_map (fun _ => z) (kept_log (rep_content z)))) (ph_events (ev_get ex_ev))).
Definition rep_run : test_outcome := fst (fst (do_run_test (fun _ _ => true) ex_r ex_nes rep_ev ex_test ex_w [0; 1; 2; 3; 9])).
Definition rep_result : test_result := result_of ex_test rep_run.
Definition rep_worlds : worlds := worlds_of rep_run.
Lemma rep_ran : ran (fun _ _ => true) ex_r ex_nes rep_ev ex_test ex_w [0; 1; 2; 3; 9] rep_result rep_worlds /\ NoDup (map rp_name (cf_rpcs (config_of ex_test))).
Proof.
  destruct C75_ex_ran as ((St & _) & Dr). split; [|exact Dr]. split.
  - destruct St as [A B [C1 C2 C3 C4] D]. constructor; [exact A|exact B|constructor; assumption|exact D].
  - assert (Q : match rep_run with TestOk _ _ => true | _ => false end = true) by (vm_compute; reflexivity).
    unfold rep_result, rep_worlds. revert Q. unfold rep_run. destruct (do_run_test _ _ _ _ _ _ _) as [[out w1] act]. cbn [fst]. destruct out; try discriminate. cbn [result_of worlds_of]. eauto.
Qed.
Definition rep_out : outside := outside_of (engines_of (wo_introduced rep_worlds)).
Definition names_eqb (a b : list (list str)) : bool := if list_eq_dec (list_eq_dec (list_eq_dec Ascii.ascii_dec)) a b then true else false.
Definition rep_check (o : outside) (ws : worlds) (res : test_result) (x : Z * str * engine) : bool :=
  let '(id, n, e) := x in
  str_eqb (rep_name (10 * id + Z.of_nat (en_id e))) n &&
  match lists_of (map (@length _) rep_table) (rep_runs n) with Some _ => true | None => false end &&
  match ready_of o res (wo_introduced ws) ex_test id n with Some (_, rd) => names_eqb (map (map pe_name) (sc_peers (rd_scan rd))) rep_table | None => false end.
Lemma rep_collected_of o ws res w active : ran (fun _ _ => true) ex_r ex_nes rep_ev ex_test w active res ws -> forallb (rep_check o ws res) (engines_of (wo_ran ws)) = true ->
  collected o ex_r rep_ev ex_test res ws rep_content rep_runs.
Proof.
  intros Rn F id n e O A. rewrite forallb_forall in F. pose proof (F _ (proj2 (engines_of_In _ _ _ _) (conj O A))) as C. unfold rep_check in C. apply andb_prop in C as (C & C3). apply andb_prop in C as (C1 & C2).
  destruct (str_eqb_spec (rep_name (10 * id + Z.of_nat (en_id e))) n) as [Nm|]; [|discriminate]. exists (rep_state n). split.
  - destruct (ready_of _ _ _ _ _ _) as [[e' rd]|] eqn:Rd; [|discriminate]. pose proof (ready_of_at _ _ _ _ _ _ _ _ O Rd) as Ra.
    assert (e' = e).
    { destruct Rn as (St & w' & active' & E). destruct (C74_engines _ _ _ _ _ _ _ _ _ _ _ St E) as (m & _ & _ & H). destruct (H id n O) as (_ & Un & _). apply Un.
      - unfold ready_of, engine_of in Rd. destruct (wo_introduced ws id) as [s|] eqn:W; [|discriminate]. destruct (map_find n (nd_engines s)) as [e1|] eqn:M; [|discriminate].
        destruct (prepare _ _ _ _ _ _ _ _ _); [|discriminate]. cbn in Rd. injection Rd as -> _. exists s. split; [exact W|exact (map_find_In _ _ _ M)].
      - apply (ran_introduced _ _ _ _ _ _ _ _ _ _ _ _ (conj St (ex_intro _ w' (ex_intro _ active' E))) O), A. }
    subst e'. assert (Tn : map (map fst) (es_peers (rep_state n)) = rep_table) by (unfold rep_state; cbn [es_peers]; apply table_names).
    assert (Ln : map (@length _) (es_peers (rep_state n)) = map (@length _) rep_table).
    { rewrite <- Tn, map_map. apply map_ext. intro. rewrite map_length. reflexivity. }
    constructor.
    + exists rd. split; [exact Ra|]. rewrite Tn. unfold names_eqb in C3. destruct (list_eq_dec _ _ _); [congruence|discriminate].
    + rewrite Ln. unfold rep_state. cbn [es_peers]. destruct (lists_of _ (rep_runs n)) as [ls|] eqn:Ls; [|discriminate]. exists ls. split; [apply lists_of_spec, Ls|apply table_merged].
  - unfold rep_ev. cbn [ev_get ph_ext Node_Model.ex_logs]. unfold rep_content. rewrite Nm. destruct (kept_spec (fst (get_logs (rep_state n)))) as [(Q & _)|Q]; rewrite Q; cbn [option_map]; [reflexivity|]. rewrite Nm. reflexivity.
Qed.
Example C78_ex_reported : reported (fun _ _ => true) ex_test rep_result rep_content rep_runs.
Proof.
  destruct rep_ran as (Rn & Dr). exists ex_r, ex_nes, rep_ev, ex_w, [0; 1; 2; 3; 9], rep_worlds, rep_out. split; [exact Rn|]. split; [exact Dr|]. split.
  - intros n ((b & l & [K|[]] & I) & c & [(_ & [J|[]])|(_ & k & [J|[]] & S & _)]).
    + apply (f_equal fst) in J. cbn [fst] in J. subst n. injection K as <- <-. destruct I as [I|[I|[]]]; discriminate.
    + apply (f_equal fst) in J. cbn [fst] in J. subst k. vm_compute in S. repeat destruct S as [S|S]; try discriminate S. exact S.
  - apply (rep_collected_of _ _ _ _ _ Rn). vm_compute. reflexivity.
Qed.
Example C78_ex_recorded : length (all_recorded (config_of ex_test) rep_runs) = 7%nat /\
  (forall x, In x (all_recorded (config_of ex_test) rep_runs) -> (en_rpc (snd x) < length (cf_rpcs (config_of ex_test)))%nat) /\
  (forall x, In x (all_recorded (config_of ex_test) rep_runs) -> measured x = true -> 0 <= rq x /\ 0 <= rs x /\ 0 <= began x /\ 0 <= took x /\ began x + took x <= int64_max) /\
  zsum (map (fun x => rq x + rs x) (filter measured (all_recorded (config_of ex_test) rep_runs))) = 254.
Proof.
  assert (F : forallb (fun x => Nat.ltb (en_rpc (snd x)) 3 && (0 <=? rq x) && (0 <=? rs x) && (0 <=? began x) && (0 <=? took x) && (began x + took x <=? int64_max)) (all_recorded (config_of ex_test) rep_runs) = true) by (vm_compute; reflexivity).
  rewrite forallb_forall in F. split; [vm_compute; reflexivity|]. split; [|split; [|vm_compute; reflexivity]].
  - intros x I. specialize (F x I). rewrite !andb_true_iff in F. destruct F as (((((F & _) & _) & _) & _) & _). apply Nat.ltb_lt in F. exact F.
  - intros x I _. specialize (F x I). rewrite !andb_true_iff, !Z.leb_le in F. tauto.
Qed.
Example C78_ex_summary : exists s, test_summary rep_content rep_result = Some (Summary s) /\
  map fst (tr_logs rep_result) = map s_ ["client/0/0/0"; "client/1/0/0"; "server/0/0/0"]%string /\
  (sm_samples s, sm_failed s, sm_warm s, sm_time s) = (7, 1, 1, 140) /\
  sm_comm s = map (fun x => let '(a, b, p) := x in ((s_ a, s_ b), p))
    [("client/0/0/0", "server/0/0/0", mkPerf 1 0 0); ("client/0/0/0", "server/1/0/0", mkPerf 2 32 64); ("client/0/0/0", "server/2/0/0", mkPerf 1 100 8);
     ("client/1/0/0", "server/1/0/0", mkPerf 1 16 32); ("server/0/0/0", "server/1/0/0", mkPerf 1 1 1)]%string /\
  sm_lat s = map (fun x => (s_ (fst x), snd x)) [("echo", mkLat 3 (Some (40, 60, 90, 90, 90, 90))); ("fetch", mkLat 1 (Some (70, 70, 70, 70, 70, 70))); ("ring", mkLat 1 (Some (20, 20, 20, 20, 20, 20)))]%string /\
  match sm_inst s with Some (m, n, b) => (n, b) = (6, 254) /\ map_find (s_ "server/1/0/0") m = Some (mkInst 97 49) | None => False end.
Proof. eexists. split; [vm_compute; reflexivity|]. repeat split; vm_compute; reflexivity. Qed.
(** A lone failed RPC is enough for the log to be kept. *)
Example C78_ex_kept : exists p rl, In p (concat (es_peers (rep_state (s_ "client/1/0/0")))) /\ In rl (snd p) /\ rl <> [] /\ Forall (fun x => snd x <> ([], [])) rl.
Proof.
  exists (nth 1 (nth 1 (es_peers (rep_state (s_ "client/1/0/0"))) []) ([], [])). eexists. split; [vm_compute; tauto|]. split; [left; reflexivity|]. split; [vm_compute; discriminate|]. vm_compute. repeat constructor; discriminate.
Qed.
