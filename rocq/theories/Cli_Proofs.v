(** Lemmas about check_test: an engine that starts with the services as written
    starts with the services completed. *)
From Coq Require Import Ascii String List NArith ZArith QArith Bool Arith Lia.
From Verif Require Import Base_Model Base_Proofs Grid_Model Grid_Proofs Canon_Model Canon_Proofs Place_Model Fanout_Model Dist_Model Util_Model Replay_Model
  Table_Model Table_Proofs Table_Proofs2 Net_Model Seq_Model Cli_Model.
Import ListNotations.
Open Scope Z_scope.
Notation TOk := Table_Model.TOk.

(** ** Completing services *)
Definition grown (s s' : service_desc) : Prop :=
  svc_name s' = svc_name s /\ sv_channels s' = sv_channels s /\ svc_count s <= svc_count s'.
Lemma completes_grown s s' ch : acceptable s -> completes s s' -> grown (mkSvc s ch) (mkSvc s' ch).
Proof.
  intros (A1 & A2 & A3 & A4) (N & _ & _ & _ & _ & _ & C1 & C2 & C3). unfold grown, svc_name, svc_count. cbn [sv_spec sv_channels].
  split; [exact N|]. split; [reflexivity|]. destruct (sp_count s) as [c|] eqn:E.
  - unfold get_count. rewrite (C1 ltac:(discriminate)), E. lia.
  - unfold get_count at 1. rewrite E. destruct (sp_x s) as [x|] eqn:X.
    + unfold get_count. rewrite C2 by discriminate. unfold x_size, y_size, z_size, dim. rewrite X.
      pose proof (A3 x (or_introl eq_refl)).
      assert (0 < match sp_y s with Some v => v | None => 1 end) by (destruct (sp_y s) eqn:Y; [apply A3; auto|lia]).
      assert (0 < match sp_z s with Some v => v | None => 1 end) by (destruct (sp_z s) eqn:Y; [apply A3; auto|lia]).
      apply Z.mul_nonneg_nonneg; [apply Z.mul_nonneg_nonneg|]; lia.
    + unfold get_count. rewrite C3 by reflexivity. lia.
Qed.

Lemma grown_names l l' : Forall2 grown l l' -> map svc_name l' = map svc_name l.
Proof. induction 1 as [|s s' l l' (N & _) _ IH]; [reflexivity|]. cbn [map]. congruence. Qed.
Lemma Forall2_nth {A B} (R : A -> B -> Prop) l l' : Forall2 R l l' -> forall i a, nth_error l i = Some a -> exists b, nth_error l' i = Some b /\ R a b.
Proof. induction 1 as [|x y l l' H _ IH]; intros [|i] a E; try discriminate; cbn [nth_error] in *; [injection E as <-; eauto|eauto]. Qed.

Lemma size_grown l l' n k : Forall2 grown l l' -> size_of (map sv_spec l) n k -> exists k', size_of (map sv_spec l') n k' /\ k <= k'.
Proof.
  intros F (b & s & a & E & En & Ec & Na). apply map_eq_app in E as (b0 & r & -> & <- & E). destruct r as [|s0 a0]; [discriminate|].
  injection E as <- <-. apply Forall2_app_inv_l in F as (b1 & r1 & F1 & F2 & ->). inversion F2 as [|? s1 ? a1 G F3]; subst.
  exists (svc_count s1). split; [|apply G]. exists (map sv_spec b1), (sv_spec s1), (map sv_spec a1).
  rewrite map_app. split; [reflexivity|]. split; [apply G|]. split; [reflexivity|]. intro K. apply Na.
  pose proof (grown_names _ _ F3) as Q. unfold svc_name in Q. rewrite map_map in K |- *. rewrite Q in K. exact K.
Qed.
Lemma trace_grown l l' t : Forall2 grown l l' -> trace_accepted (map sv_spec l) t -> trace_accepted (map sv_spec l') t.
Proof.
  intros F (c & s & cs & ss & E1 & E2 & S1 & S2 & R). destruct (size_grown _ _ _ _ F S1) as (cs' & S1' & L1). destruct (size_grown _ _ _ _ F S2) as (ss' & S2' & L2).
  exists c, s, cs', ss'. do 4 (split; [assumption|]). intros r I. destruct (R r I) as (R1 & R2).
  split; intros v Hv; [specialize (R1 v Hv)|specialize (R2 v Hv)]; lia.
Qed.

(** ** Compiling them *)
Definition same_services (c c' : config) : Prop :=
  Forall2 grown (cf_services c) (cf_services c') /\ cf_payloads c' = cf_payloads c /\ cf_rpcs c' = cf_rpcs c /\ cf_activities c' = cf_activities c /\
  cf_actions c' = cf_actions c /\ cf_lists c' = cf_lists c /\ cf_rpc_dists c' = cf_rpc_dists c /\ cf_delay_dists c' = cf_delay_dists c /\
  cf_size_dists c' = cf_size_dists c /\ cf_traces c' = cf_traces c.
Lemma trace_map_grown l l' : Forall2 grown l l' -> forall ts i m r, trace_map (enumerate_sizes (map sv_spec l)) i ts m = TOk r ->
  trace_map (enumerate_sizes (map sv_spec l')) i ts m = TOk r.
Proof.
  intros F ts. induction ts as [|[n t] ts IH]; intros i m r H; cbn [trace_map] in *; [exact H|].
  destruct (map_find n m); [discriminate|]. destruct (validate_trace _ _) eqn:V; [discriminate|].
  apply validate_trace_spec in V. apply (trace_grown _ _ _ F) in V. apply validate_trace_spec in V. rewrite V. apply IH. exact H.
Qed.
Definition same_dom {A} (m m' : list (str * A)) : Prop := forall n, map_find n m <> None -> map_find n m' <> None.
Lemma rpc_definition_grown st c c' me types ix pm i r d : Forall2 grown (cf_services c) (cf_services c') ->
  rpc_definition_of st c me types ix pm i r = TOk d -> exists d', rpc_definition_of st c' me types ix pm i r = TOk d'.
Proof.
  intros F H. unfold rpc_definition_of in *. destruct (map_find (rp_server r) types) as [k|]; [|discriminate].
  destruct (nth_error (cf_services c) (Z.to_nat k)) as [s|] eqn:E; [|discriminate]. destruct (Forall2_nth _ _ _ F _ _ E) as (s' & E' & G).
  rewrite E'. apply tbind_ok in H as (ch & H1 & H). apply tbind_ok in H as (u & H2 & H).
  assert (H1' : rpc_channel i r s' = TOk ch) by (destruct G as (_ & Gc & _); unfold rpc_channel in *; rewrite Gc; exact H1).
  rewrite H1'. cbn [tbind]. rewrite H2. cbn [tbind]. cbv zeta in H |- *. destruct (parse_filter _ _); [|discriminate]. eauto.
Qed.
Lemma definitions_grown st c c' me types ix pm l : Forall2 grown (cf_services c) (cf_services c') -> forall i m m' r, same_dom m m' ->
  definitions_map st c me types ix pm i l m = TOk r -> exists r', definitions_map st c' me types ix pm i l m' = TOk r' /\ same_dom r r'.
Proof.
  intro F. induction l as [|x l IH]; intros i m m' r D H; cbn [definitions_map] in *; [injection H as <-; eauto|].
  apply tbind_ok in H as (d & H1 & H). destruct (rpc_definition_grown _ _ _ _ _ _ _ _ _ _ F H1) as (d' & E). rewrite E. cbn [tbind].
  apply (IH _ _ (map_set (rp_name x) d' m') _) in H; [exact H|]. intros n. destruct (str_eqb_spec n (rp_name x)) as [->|Ne].
  - rewrite !map_find_set_same. discriminate.
  - rewrite !map_find_set_other by exact Ne. apply D.
Qed.
Lemma tmap_imp {A B C} (f : A -> tres B) (g : A -> tres C) l : (forall a b, f a = TOk b -> exists b', g a = TOk b') ->
  forall r, tmap f l = TOk r -> exists r', tmap g l = TOk r'.
Proof.
  intro H. induction l as [|a l IH]; intros r E; cbn [tmap] in *; [eauto|]. apply tbind_ok in E as (b & E1 & E). apply tbind_ok in E as (bs & E2 & E).
  destruct (H _ _ E1) as (b' & ->). destruct (IH _ E2) as (bs' & ->). cbn [tbind]. eauto.
Qed.
Lemma rpc_row_grown c c' cx cx' me r x : Forall2 grown (cf_services c) (cf_services c') -> cf_lists c' = cf_lists c -> cx_types cx' = cx_types cx ->
  cx_lists cx' = cx_lists cx -> same_dom (cx_defs cx) (cx_defs cx') -> rpc_row c cx me r = TOk x -> exists x', rpc_row c' cx' me r = TOk x'.
Proof.
  intros F El Et Ex D H. unfold rpc_row in *. destruct (rp_clients r) as [|cl cls]; [discriminate|]. destruct (rp_server r) as [|a0 sv]; [discriminate|].
  apply tbind_ok in H as (u & H1 & H). rewrite Et, H1. cbn [tbind]. rewrite Ex. destruct (map_find (rp_name r) (cx_lists cx)) as [k|]; [|discriminate].
  rewrite El. destruct (nth_error (cf_lists c) (Z.to_nat k)) as [d|]; [|discriminate].
  destruct (map_find (rp_name r) (cx_defs cx)) as [def|] eqn:Ed; [|discriminate].
  destruct (map_find (rp_name r) (cx_defs cx')) as [def'|] eqn:Ed'; [|exfalso; apply (D (rp_name r)); congruence].
  destruct (map_find (a0 :: sv) (cx_types cx)) as [s|]; [|discriminate]. destruct (nth_error (cf_services c) (Z.to_nat s)) as [svc|] eqn:Es; [|discriminate].
  destruct (Forall2_nth _ _ _ F _ _ Es) as (svc' & -> & (_ & _ & G)). destruct (Z.ltb_spec (svc_count svc) 0); [discriminate|].
  destruct (Z.ltb_spec (svc_count svc') 0); [lia|]. eauto.
Qed.
Lemma compile_list_same c c' cx cx' d : cf_rpcs c' = cf_rpcs c -> cx_types cx' = cx_types cx -> cx_indices cx' = cx_indices cx ->
  cx_payloads cx' = cx_payloads cx -> cx_activities cx' = cx_activities cx -> cx_traces cx' = cx_traces cx -> cx_actions cx' = cx_actions cx ->
  cx_rpcs cx' = cx_rpcs cx -> cx_lists cx' = cx_lists cx -> compile_list c' cx' d = compile_list c cx d.
Proof.
  intros. unfold compile_list. destruct cx as [a1 a2 a3 a4 a5 a6 a7 a8 a9], cx' as [b1 b2 b3 b4 b5 b6 b7 b8 b9]. cbn [cx_types cx_indices cx_payloads cx_activities cx_traces cx_actions cx_rpcs cx_lists] in *. subst.
  match goal with |- tbind (tmap (first_pass ?a) _) _ = tbind (tmap (first_pass ?b) _) _ => change (first_pass a) with (first_pass b); set (x := b); set (x' := a) end.
  assert (E2 : forall pos j y, second_pass c' x' pos j y = second_pass c x pos j y).
  { intros pos j [[a q] p]. unfold second_pass, resolve_target. rewrite H. reflexivity. }
  assert (E3 : forall pos l j, tmapi (second_pass c' x' pos) j l = tmapi (second_pass c x pos) j l).
  { intros pos. induction l as [|y l IH]; intro j; cbn [tmapi]; [reflexivity|]. rewrite E2. destruct (second_pass c x pos j y); cbn [tbind]; [|reflexivity|reflexivity].
    rewrite IH. reflexivity. }
  destruct (tmap (first_pass x) (li_actions d)) as [xs| |]; cbn [tbind]; [|reflexivity|reflexivity]. rewrite E3. reflexivity.
Qed.
Lemma tables_grown st c c' me t : same_services c c' -> initialize_tables st c me = TOk t -> exists t', initialize_tables st c' me = TOk t'.
Proof.
  intros (F & Ep & Er & Ea & Eac & El & D1 & D2 & D3 & Et) H. destruct (tables_parts _ _ _ _ H) as (p & _).
  destruct p as [ix pm defs acts am tm rows e1 e2 e3 e4 e5 cx e6 e7 et]. unfold initialize_tables.
  assert (Ety : enumerate_types c' = enumerate_types c) by (unfold enumerate_types; rewrite (grown_names _ _ F); reflexivity).
  assert (e1' : sample_generators c' = TOk ix) by (unfold sample_generators in *; rewrite D1, D2, D3; exact e1).
  rewrite e1'. cbn [tbind]. rewrite Ep, e2. cbn [tbind]. rewrite Ety, Er.
  destruct (definitions_grown st c c' me _ _ _ _ F 0%nat [] [] _ ltac:(intros n K; exact K) e3) as (defs' & -> & D). cbn [tbind].
  rewrite Ea, e4. cbn [tbind]. rewrite Et, (trace_map_grown _ _ F _ _ _ _ e5). cbn [tbind fst snd]. rewrite El, Eac.
  assert (Eer : enumerate_rpcs c' = enumerate_rpcs c) by (unfold enumerate_rpcs; rewrite Er; reflexivity). rewrite Eer.
  set (cx' := mkCtx _ _ _ _ _ _ _ _ _).
  assert (E6 : tmap (compile_list c' cx') (cf_lists c) = tmap (compile_list c cx) (cf_lists c)).
  { generalize (cf_lists c). induction l as [|d l IH]; cbn [tmap]; [reflexivity|]. rewrite IH. f_equal. apply compile_list_same; auto. }
  rewrite E6, e6. cbn [tbind].
  destruct (tmap_imp (rpc_row c cx me) (rpc_row c' cx' me) (cf_rpcs c)) with (r := rows) as (rows' & ->); [|exact e7|cbn [tbind]; eauto].
  intros a b. apply rpc_row_grown; auto.
Qed.

(** ** Canonical sequences *)
Lemma set_specs_same c l : Forall acceptable (map sv_spec (cf_services c)) -> Forall2 completes (map sv_spec (cf_services c)) l ->
  same_services c (set_specs l c) /\ map sv_spec (cf_services (set_specs l c)) = l.
Proof.
  intros A F. assert (Q : Forall2 grown (cf_services c) (cf_services (set_specs l c)) /\ map sv_spec (cf_services (set_specs l c)) = l).
  { unfold set_specs. cbn [cf_services]. revert l A F. induction (cf_services c) as [|[s ch] r IH]; intros l A F; inversion F as [|? s' ? l' C F' E1 E2]; subst;
      cbn [combine map]; [split; [constructor|reflexivity]|]. cbn [map sv_spec] in A. inversion A as [|? ? A1 A2]; subst. destruct (IH _ A2 F') as (I1 & I2).
    split; [constructor; [|exact I1]|cbn [fst snd sv_spec]; congruence]. cbn [fst snd sv_channels]. apply completes_grown; assumption. }
  destruct Q as (Q1 & Q2). split; [|exact Q2]. split; [exact Q1|]. repeat split.
Qed.
Definition completed (t t' : test) : Prop :=
  same_services (te_config t) (te_config t') /\ Forall2 completes (map sv_spec (cf_services (te_config t))) (map sv_spec (cf_services (te_config t'))) /\
  te_attributes t' = te_attributes t /\ te_iterations t' = te_iterations t /\ te_predicates t' = te_predicates t /\
  te_constraints t' = te_constraints t /\ te_bundles t' = te_bundles t /\ te_rest t' = te_rest t.
Lemma canonical_tests_completed s s' : canonical_tests_of s = VOk s' ->
  Forall (fun t => test_valid (dsd_of t)) (sq_tests s) /\ Forall2 completed (sq_tests s) (sq_tests s') /\
  sq_settings s' = Some (match sq_settings s with Some x => x | None => [] end).
Proof.
  unfold canonical_tests_of, canonical_sequence. cbn [ts_tests ts_settings]. destruct (canonical_tests _) as [|e|l] eqn:E; try discriminate.
  intros [= <-]. cbn [sq_tests sq_settings ts_tests ts_settings]. apply canonical_tests_spec in E.
  enough (Q : Forall (fun t => test_valid (dsd_of t)) (sq_tests s) /\ Forall2 completed (sq_tests s) (put_back l (sq_tests s))) by tauto.
  revert l E. induction (sq_tests s) as [|t ts IH]; intros l E; cbn [map] in E; inversion E as [|? d ? l' H E']; subst; cbn [put_back].
  - split; constructor.
  - destruct (IH _ E') as (I1 & I2). destruct (proj1 (canonical_dsd_spec _) _ H) as (A & B & (C & _)).
    split; constructor; auto; [split; assumption|]. unfold dsd_of in B, C. cbn [d_services] in B, C.
    destruct (set_specs_same (te_config t) (d_services d)) as (S1 & S2); [exact B|exact C|].
    unfold completed, set_config. cbn [te_config te_attributes te_iterations te_predicates te_constraints te_bundles te_rest].
    split; [exact S1|]. split; [rewrite S2; exact C|]. auto 8.
Qed.

(** ** check_test *)
Lemma check_traffic_ok st l : check_traffic st l = XExit 0 <-> forall t, In t l -> exists u, validate_traffic_config st (te_config t) = TOk u.
Proof.
  induction l as [|t l IH]; cbn [check_traffic]; [split; [intros _ t []|reflexivity]|].
  destruct (validate_traffic_config st (te_config t)) as [u|e|] eqn:E.
  - rewrite IH. split; [intros H t' [<-|I]; eauto|intros H t' I; apply H; right; exact I].
  - split; [discriminate|]. intro H. destruct (H t (or_introl eq_refl)) as (u & K). congruence.
  - split; [discriminate|]. intro H. destruct (H t (or_introl eq_refl)) as (u & K). congruence.
Qed.
Lemma validate_services_ok st c l : (exists u, validate_services st c l = TOk u) <->
  forall s, In s l -> exists t, initialize_config st c (svc_name s) (mkGI 1 1 1) = TOk t.
Proof.
  induction l as [|s l IH]; cbn [validate_services]; [split; [intros _ s []|eauto]|]. split.
  - intros (u & H) s' I. apply tbind_ok in H as (t & H1 & H). destruct I as [<-|I]; [eauto|]. apply (proj1 IH (ex_intro _ _ H)). exact I.
  - intro H. destruct (H s (or_introl eq_refl)) as (t & E). rewrite E. cbn [tbind]. apply IH. intros s' I. apply H. right. exact I.
Qed.
Lemma initialize_config_tables st c me g t : initialize_config st c me g = TOk t -> me <> [] /\ initialize_tables st c me = TOk t.
Proof.
  unfold initialize_config. destruct me as [|a me]; [discriminate|]. destruct (find _ _); [|discriminate]. destruct (instance_name _ _); [|discriminate].
  intro H. split; [discriminate|exact H].
Qed.
Lemma instance_name_total s i : (forall v, sp_x s = Some v \/ sp_y s = Some v \/ sp_z s = Some v -> v <> 0) -> instance_name s i <> None.
Proof.
  intro H. unfold instance_name. destruct (sp_x s) as [x|] eqn:X; [|discriminate]. unfold service_index, cmod, cdiv. rewrite X.
  pose proof (H x (or_introl eq_refl)) as Hx. destruct (Z.eqb_spec x 0); [contradiction|]. destruct (sp_y s) as [y|] eqn:Y.
  - pose proof (H y (or_intror (or_introl eq_refl))) as Hy. destruct (Z.eqb_spec y 0); [contradiction|].
    destruct (sp_z s) as [z|] eqn:Zz; [|discriminate]. pose proof (H z (or_intror (or_intror eq_refl))) as Hz. destruct (Z.eqb_spec z 0); [contradiction|]. discriminate.
  - destruct (sp_z s) as [z|] eqn:Zz; discriminate.
Qed.
