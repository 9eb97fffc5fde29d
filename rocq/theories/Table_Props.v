(** C52: compiling a configuration into the tables of an engine. *)
From Coq Require Import Ascii String List NArith ZArith QArith Bool Arith Lia.
From Verif Require Import Base_Model Base_Proofs Grid_Model Canon_Model Place_Model Place_Proofs Fanout_Model Dist_Model Dist_Proofs2 Util_Model Replay_Model Table_Model Table_Proofs Table_Proofs2.
Import ListNotations.
Open Scope Z_scope.

(** Every action of every list is compiled: what it refers to is the entry of
    that name, and its dependencies are earlier actions of the same list. *)
Theorem C52_actions : forall st c me t, initialize_tables st c me = TOk t ->
  NoDup (map svc_name (cf_services c)) -> NoDup (map rp_name (cf_rpcs c)) ->
  Forall2 (fun d tl => tl_proto tl = d /\ length (tl_entries tl) = length (li_actions d) /\
             (forall j n, nth_error (li_actions d) j = Some n -> exists e, nth_error (tl_entries tl) j = Some e /\ entry_ok c (tb_activities t) d j n e) /\
             (tl_has_rpcs tl = true <-> exists e m, In e (tl_entries tl) /\ an_kind (en_action e) = KRpc m))
          (cf_lists c) (tb_lists t).
Proof.
  intros st c me t H Ds Dr. destruct (tables_parts _ _ _ _ H) as (p & _). pose proof (pt_t _ _ _ _ p) as Et.
  assert (Ea : tb_activities t = pt_acts _ _ _ _ p) by (exact (f_equal tb_activities Et)). rewrite Ea. pose proof (tmap_forall2 _ _ _ (pt_e6 _ _ _ _ p)) as F.
  clear Et. induction F as [|d tl ds tls E _ IH]; [constructor|constructor; [|exact IH]]. unfold compile_list in E. apply tbind_ok in E as (xs & X & E). apply tbind_ok in E as (es & Y & E).
  injection E as <-. cbn [tl_proto tl_entries tl_has_rpcs]. destruct (tmap_ok _ _ _ X) as (Lx & Nx). destruct (tmapi_ok _ _ _ _ Y) as (Ly & Ny).
  split; [reflexivity|]. split; [congruence|]. split.
  - intros j n En. destruct (Nx j n En) as (x & Ex & Fx). destruct (Ny j x Ex) as (e & Ee & Fe). exists e. split; [exact Ee|].
    eapply entry_spec; eauto.
  - rewrite existsb_exists. split.
    + intros (e & I & K). destruct (an_kind (en_action e)) as [m| | | |] eqn:Q; try discriminate. exists e, m. auto.
    + intros (e & m & I & K). exists e. rewrite K. auto.
Qed.

(** Row [i] of the RPC tables describes RPC [i]. *)
Theorem C52_rpcs : forall st c me t, initialize_tables st c me = TOk t ->
  NoDup (map svc_name (cf_services c)) -> NoDup (map rp_name (cf_rpcs c)) ->
  Forall2 (fun r ab => let (a, b) := (ab : server_rpc * client_rpc) in
     rp_clients r <> [] /\ (forall n, In n (rp_clients r) -> In n (map svc_name (cf_services c))) /\
     (exists k d, last_named li_name (cf_lists c) (rp_name r) k d /\ sr_handler a = if (length (li_actions d) =? 0)%nat then -1 else k) /\
     (sr_allowed a = true <-> rp_server r = me) /\ sr_def a = cr_def b /\
     (de_allowed (cr_def b) = true <-> In me (rp_clients r)) /\
     de_spec (cr_def b) = r /\
     (exists s, at_index (cf_services c) (cr_service b) s /\ svc_name s = rp_server r /\ s = de_server (cr_def b) /\ cr_pending b = svc_count s /\ 0 <= svc_count s) /\
     match rp_channel r with
     | Some m => at_index (map ch_name (sv_channels (de_server (cr_def b)))) (de_channel (cr_def b)) m /\
                 forall k, (k < Z.to_nat (de_channel (cr_def b)))%nat -> nth_error (map ch_name (sv_channels (de_server (cr_def b)))) k <> Some m
     | None => de_channel (cr_def b) = -1
     end /\
     parse_filter st (match rp_fanout r with Some f => f | None => s_ "all" end) = Some (de_fanout (cr_def b)))
    (cf_rpcs c) (combine (tb_servers t) (tb_clients t)).
Proof.
  intros st c me t H Ds Dr. destruct (tables_parts _ _ _ _ H) as (p & _). pose proof (pt_t _ _ _ _ p) as Et. rewrite (f_equal tb_servers Et), (f_equal tb_clients Et). cbn [tb_servers tb_clients].
  assert (Ec : forall l : list (server_rpc * client_rpc), combine (map fst l) (map snd l) = l)
    by (induction l as [|[? ?] l IH]; cbn [map fst snd combine]; [|rewrite IH]; reflexivity).
  rewrite Ec. pose proof (tmap_forall2 _ _ _ (pt_e7 _ _ _ _ p)) as F.
  assert (Sub : forall r, In r (cf_rpcs c) -> In r (cf_rpcs c)) by auto. revert F Sub. generalize (cf_rpcs c) at 1 2 4 as l. intros l F Sub.
  clear Et. induction F as [|r [a b] rs rows E _ IH]; [constructor|constructor; [|apply IH; intros; apply Sub; right; assumption]].
  destruct (rpc_row_parts c (pt_cx _ _ _ _ p) me r a b Ds eq_refl eq_refl E) as (P1 & P2 & P3 & P4 & P5 & P6 & s & S1 & S2 & S3 & S4).
  destruct (definitions_map_spec _ _ _ _ _ _ (cf_rpcs c) [] [] _ (pt_e3 _ _ _ _ p)) with (r := r) as (d & i & Q1 & _ & Q3);
    [exact Dr|discriminate|intros ? []|cbn [app]; apply Sub; left; reflexivity|].
  change (cx_defs (pt_cx st c me t p)) with (pt_defs st c me t p) in P5. assert (d = sr_def a) by congruence. subst d.
  destruct (rpc_definition_parts _ _ _ _ _ _ _ _ Q3 Ds) as (R1 & R2 & R3 & R4 & R5 & R6 & _ & _ & _ & R10). rewrite P6.
  assert (Ss : s = de_server (sr_def a)).
  { destruct S1 as [_ S1]. apply (service_fun c); [exact Ds|eapply nth_error_In; eauto|exact R2|congruence]. }
  repeat match goal with |- _ /\ _ => split end; auto. exists s. rewrite S3 in S4. auto.
Qed.

(** Sizes: a joint distribution decides alone; otherwise a payload with a
    distribution or with a size that fits in 32 bits is used as it is, and the
    defaults are 16 and 32. *)
Definition direction_ok (c : config) (n : option str) (dflt size index : Z) : Prop :=
  (forall m p d, n = Some m -> In p (cf_payloads c) -> py_name p = m -> py_dist p = Some d ->
     size_dist_named c d index /\ size = match py_size p with Some z => to_int32 z | None => -1 end) /\
  (forall m p z, n = Some m -> In p (cf_payloads c) -> py_name p = m -> py_dist p = None -> py_size p = Some z -> 0 <= z < 2 ^ 31 -> size = z /\ index = -1) /\
  (forall m p, n = Some m -> In p (cf_payloads c) -> py_name p = m -> py_dist p = None -> py_size p = None -> size = dflt /\ index = -1) /\
  (forall m, n = Some m -> ~ In m (map py_name (cf_payloads c)) -> size = dflt /\ index = -1) /\
  (n = None -> size = dflt /\ index = -1).
Lemma direction_lemma c ix pm n dflt size index : gens canonical_sizes (cf_size_dists c) = TOk (ix_size ix) -> payloads_map (ix_size ix) (cf_payloads c) [] = TOk pm ->
  (size, index) = rpc_payload (ix_size ix) pm n dflt -> direction_ok c n dflt size index.
Proof.
  intros G P E. unfold direction_ok. destruct n as [n|].
  2: { unfold rpc_payload in E. cbn in E. injection E as -> ->. repeat split; intros; discriminate || reflexivity. }
  unfold rpc_payload in E. repeat split; intros; try discriminate; repeat match goal with H : Some _ = Some _ |- _ => injection H as <- end;
  try match goal with I : In ?p (cf_payloads c), N : py_name ?p = ?m |- _ =>
         pose proof (payload_find _ _ _ _ _ P I N) as F; unfold payload_size, payload_index in E; rewrite F in E;
         try match goal with Q : py_dist p = _ |- _ => rewrite Q in E end; try match goal with Q : py_size p = _ |- _ => rewrite Q in E end end;
  try match goal with N : ~ In _ (map py_name _) |- _ => pose proof (payload_find_none _ _ _ _ P N) as F; unfold payload_size, payload_index in E; rewrite F in E end;
  try rewrite Z.eqb_refl in E.
  - injection E as _ ->. destruct (gens_spec _ _ _ G d) as [[W _]|Q]; [|exact Q]. exfalso.
    destruct (payloads_map_spec _ _ _ _ P) as (_ & _ & _ & V). eapply V; eauto.
  - assert (Hi : generator_index d (ix_size ix) <> -1). { destruct (payloads_map_spec _ _ _ _ P) as (_ & _ & _ & V). eapply V; eauto. }
    apply Z.eqb_neq in Hi. rewrite Hi, andb_false_r in E. injection E as -> _. reflexivity.
  - rewrite andb_true_r in E. unfold to_int32 in E. injection E as E _. rewrite E.
    assert (Q : (z + 2147483648) mod 4294967296 = z + 2147483648) by (apply Z.mod_small; lia). rewrite Q.
    destruct (Z.eqb_spec (z + 2147483648 - 2147483648) (-1)); lia.
  - injection E as _ ->. reflexivity.
  - injection E as -> _. reflexivity.
  - injection E as _ ->. reflexivity.
  - injection E as -> _. reflexivity.
  - injection E as _ ->. reflexivity.
Qed.
Theorem C52_sizes : forall st c me t, initialize_tables st c me = TOk t ->
  NoDup (map svc_name (cf_services c)) -> NoDup (map rp_name (cf_rpcs c)) ->
  Forall2 (fun r b => let d := cr_def b in match rp_dist r with
     | Some n => de_request_size d = -1 /\ de_response_size d = -1 /\ de_request_index d = -1 /\ de_response_index d = -1 /\
                 ((exists x, at_index (cf_rpc_dists c) (de_joint d) x /\ dc_name x = n) \/ (de_joint d = -1 /\ ~ In n (map dc_name (cf_rpc_dists c))))
     | None => de_joint d = -1 /\ direction_ok c (rp_request r) 16 (de_request_size d) (de_request_index d) /\
               direction_ok c (rp_response r) 32 (de_response_size d) (de_response_index d)
     end) (cf_rpcs c) (tb_clients t).
Proof.
  intros st c me t H Ds Dr. destruct (tables_parts _ _ _ _ H) as (p & _). pose proof (pt_t _ _ _ _ p) as Et. rewrite (f_equal tb_clients Et). cbn [tb_clients].
  destruct (sample_parts _ _ (pt_e1 _ _ _ _ p)) as (g1 & g2 & g3).
  pose proof (tmap_forall2 _ _ _ (pt_e7 _ _ _ _ p)) as F.
  assert (Sub : forall r, In r (cf_rpcs c) -> In r (cf_rpcs c)) by auto. revert F Sub. generalize (cf_rpcs c) at 1 2 4 as l. intros l F Sub.
  clear Et. induction F as [|r [a b] rs rows E _ IH]; cbn [map snd]; [constructor|constructor; [|apply IH; intros; apply Sub; right; assumption]].
  destruct (rpc_row_parts c (pt_cx _ _ _ _ p) me r a b Ds eq_refl eq_refl E) as (_ & _ & _ & _ & P5 & P6 & _).
  destruct (definitions_map_spec _ _ _ _ _ _ (cf_rpcs c) [] [] _ (pt_e3 _ _ _ _ p)) with (r := r) as (d & i & Q1 & _ & Q3);
    [exact Dr|discriminate|intros ? []|cbn [app]; apply Sub; left; reflexivity|].
  change (cx_defs (pt_cx st c me t p)) with (pt_defs st c me t p) in P5. assert (d = sr_def a) by congruence. subst d.
  destruct (rpc_definition_parts _ _ _ _ _ _ _ _ Q3 Ds) as (_ & _ & _ & _ & _ & _ & R7 & R8 & R9 & _). cbv zeta. rewrite P6.
  destruct (rp_dist r) as [n|].
  - injection R8 as -> ->. injection R9 as -> ->. do 4 (split; [reflexivity|]). rewrite R7. destruct (gens_spec _ _ _ g1 n) as [Q|Q]; [right; exact Q|left; exact Q].
  - split; [exact R7|]. split; eapply direction_lemma; eauto; exact (pt_e2 _ _ _ _ p).
Qed.

(** All engines of a configuration get the same tables, apart from what they may
    call and serve: whether it is accepted, the numbering and the lists do not
    depend on the service. *)
Theorem C52_agree : forall st c me1 me2, tres_rel same_tables (initialize_tables st c me1) (initialize_tables st c me2).
Proof. exact tables_rel. Qed.

(** The services an engine connects to: the servers of the RPCs it may call and
    of the traces it replays. *)
Theorem C52_dependent : forall st c me t, initialize_tables st c me = TOk t -> NoDup (tb_dependent t) /\
  forall s, In s (tb_dependent t) <->
    (exists r, In r (cf_rpcs c) /\ In me (rp_clients r) /\ rp_server r = s) \/
    (exists tr, In tr (cf_traces c) /\ match t_client (snd tr) with Some n => n | None => [] end = me /\ match t_server (snd tr) with Some n => n | None => [] end = s).
Proof.
  intros st c me t H. destruct (tables_parts _ _ _ _ H) as (p & _). rewrite (f_equal tb_dependent (pt_t _ _ _ _ p)). cbn [tb_dependent]. unfold dependent. split.
  - apply fold_add_NoDup. apply fold_add_NoDup. constructor.
  - intro s. rewrite fold_add_In. rewrite fold_add_In. split.
    + intros [[[]|(tr & I & E & S)]|(r & I & E & S)]; [right; exists tr; repeat split; auto; destruct (str_eqb_spec (match t_client (snd tr) with Some n => n | None => [] end) me); congruence|].
      left. exists r. repeat split; auto. apply set_mem_spec. exact E.
    + intros [(r & I & E & S)|(tr & I & E & S)]; [right; exists r; repeat split; auto; apply set_mem_spec; exact E|].
      left. right. exists tr. repeat split; auto. destruct (str_eqb_spec (match t_client (snd tr) with Some n => n | None => [] end) me); congruence.
Qed.

(** A configuration that passed validation is accepted by every engine, whatever
    its service and instance. *)
Theorem C52_validated : forall st c, validate_traffic_config st c = TOk tt ->
  forall s g, In s (cf_services c) -> exists t, initialize_config st c (svc_name s) g = TOk t.
Proof.
  intros st c V s g I. unfold validate_traffic_config in V.
  assert (G : forall l, validate_services st c l = TOk tt -> In s l -> exists t, initialize_config st c (svc_name s) (mkGI 1 1 1) = TOk t).
  { clear. induction l as [|x l IH]; intros V I; [destruct I|]. cbn [validate_services] in V. apply tbind_ok in V as (t & E & V). destruct I as [<-|I]; eauto. }
  destruct (G _ V I) as (t & E). exists t. unfold initialize_config in *. destruct (svc_name s); [discriminate|].
  destruct (find _ (cf_services c)) as [x|]; [|discriminate].
  destruct (instance_name (sv_spec x) (instance_from_grid (sv_spec x) g)) eqn:N; [|rewrite (instance_name_None _ _ _ N) in E; discriminate].
  destruct (instance_name (sv_spec x) (instance_from_grid (sv_spec x) (mkGI 1 1 1))); [exact E|discriminate].
Qed.

(** Nothing else is required: a configuration all of whose references are
    defined passes validation. *)
Theorem C52_accepts : forall st c, well_formed st c ->
  (forall s, In s (cf_services c) -> svc_name s <> [] /\ sp_x (sv_spec s) <> Some 0 /\ sp_y (sv_spec s) <> Some 0) ->
  validate_traffic_config st c = TOk tt.
Proof.
  intros st c W N. unfold validate_traffic_config.
  assert (G : forall l, (forall s, In s l -> In s (cf_services c)) -> validate_services st c l = TOk tt).
  { induction l as [|s l IH]; intro I; [reflexivity|]. cbn [validate_services]. unfold initialize_config.
    destruct (N s (I s (or_introl eq_refl))) as (N1 & _). destruct (svc_name s) eqn:Es; [congruence|]. rewrite <- Es.
    destruct (find (fun x => str_eqb (svc_name x) (svc_name s)) (cf_services c)) as [x|] eqn:F.
    - apply find_some in F as (Ix & _). destruct (N x Ix) as (_ & Nx & Ny).
      assert (exists n, instance_name (sv_spec x) (instance_from_grid (sv_spec x) (mkGI 1 1 1)) = Some n) as (n & ->).
      { unfold instance_name, service_index, cmod, cdiv. destruct (sp_x (sv_spec x)) as [zx|]; [|eauto]. destruct (Z.eqb_spec zx 0); [congruence|].
        destruct (sp_y (sv_spec x)) as [zy|]; [destruct (Z.eqb_spec zy 0); [congruence|]|]; destruct (sp_z (sv_spec x)); eauto. }
      destruct (tables_accept st c (svc_name s) W) as (t & ->). cbn [tbind]. apply IH. intros y Y. apply I. right. exact Y.
    - exfalso. apply (find_none _ _ F s) in I; [|left; reflexivity]. destruct (str_eqb_spec (svc_name s) (svc_name s)); congruence. }
  apply G. auto.
Qed.

(** RunTraffic starts the first list that has the name of the service. *)
Theorem C52_main_list : forall me l i, main_list me 0 l = Some i <->
  (exists d, nth_error l i = Some d /\ li_name d = me) /\ forall k d, (k < i)%nat -> nth_error l k = Some d -> li_name d <> me.
Proof.
  intros me l i. assert (G : forall l o i, main_list me o l = Some i <-> (o <= i)%nat /\ (exists d, nth_error l (i - o) = Some d /\ li_name d = me) /\
    forall k d, (k < i - o)%nat -> nth_error l k = Some d -> li_name d <> me).
  { clear. induction l as [|d l IH]; intros o i; cbn [main_list].
    - split; [discriminate|]. intros (_ & (d & E & _) & _). destruct (i - o)%nat; discriminate.
    - destruct (str_eqb_spec me (li_name d)) as [E|Ne].
      + split.
        * intro H. injection H as <-. rewrite Nat.sub_diag. split; [lia|]. split; [exists d; auto|]. intros; lia.
        * intros (Hi & (d' & Ed & En) & H). destruct (i - o)%nat as [|k] eqn:K; [f_equal; lia|]. exfalso. apply (H 0%nat d); [lia|reflexivity|congruence].
      + rewrite IH. split.
        * intros (Hi & (d' & Ed & En) & H). replace (i - o)%nat with (S (i - S o)) by lia. split; [lia|]. split; [exists d'; auto|].
          intros [|k] y Hk Ey; cbn [nth_error] in Ey; [congruence|]. apply (H k y); [lia|exact Ey].
        * intros (Hi & (d' & Ed & En) & H). destruct (i - o)%nat as [|k] eqn:K; [cbn [nth_error] in Ed; congruence|].
          assert (i - S o = k)%nat as -> by lia. split; [lia|]. split; [exists d'; auto|]. intros j y Hj Ey. apply (H (S j) y); [lia|exact Ey]. }
  rewrite G, Nat.sub_0_r. split; [intros (_ & Q); exact Q|]. intro Q. split; [lia|exact Q].
Qed.

(** ** A configuration *)
Definition no_st : str -> option (list (Q * Z)) := fun _ => None.
Definition ex_dist (n field : string) (v : Z) : dist_config := mkDist (s_ n) [mkPmf f32_one [dp_exactly v]] [] [s_ field].
Definition ex_services : list service_desc :=
  [ mkSvc (mkSpec (s_ "client") (Some 2) None (Some 2) (Some 1) (Some 1)) [];
    mkSvc (mkSpec (s_ "server") (Some 3) None (Some 3) (Some 1) (Some 1)) [mkChan (s_ "two") [] [0; 1] None; mkChan (s_ "last") [] [2] None] ].
Definition ex_rpc (n : string) (request : option str) : rpc_desc :=
  mkRpcD (s_ n) [s_ "client"] (s_ "server") request None None None None.
Definition ex_action (n : string) (deps : list string) (k : action_kind) : action_d := mkActD (s_ n) (map s_ deps) None k None None.
Definition ex_config : config :=
  mkConf ex_services [mkPay (s_ "big") None (Some 4096); mkPay (s_ "spread") (Some (s_ "sizes")) None]
    [ex_rpc "echo" (Some (s_ "big")); mkRpcD (s_ "fetch") [s_ "client"; s_ "server"] (s_ "server") (Some (s_ "spread")) None (Some (s_ "round_robin")) None (Some (s_ "last"))]
    [mkAC (s_ "burn") [mkSet (Some (s_ "activity_func")) (Some (s_ "ConsumeCpu")) None]]
    [ex_action "a" [] (KRpc (s_ "echo")); ex_action "b" ["a"%string] (KList (s_ "echo"));
     mkActD (s_ "c") [s_ "a"; s_ "b"] (Some (s_ "delays")) (KActivity (s_ "burn")) (Some (s_ "spread")) None;
     ex_action "d" [] (KActivity (s_ "burn"))]
    [mkListD (s_ "client") [s_ "a"; s_ "b"; s_ "c"]; mkListD (s_ "echo") []; mkListD (s_ "fetch") [s_ "d"]]
    [] [ex_dist "delays" "action_delay_ns" 5] [ex_dist "other" "payload_size" 1; ex_dist "sizes" "payload_size" 64] [].
Definition ok_of {A} (r : tres A) : option A := match r with TOk a => Some a | _ => None end.
Definition row_of (e : entry) := (en_rpc_service e, en_rpc e, en_list e, en_activity e, en_delay e, en_deps e, en_request e, en_response e).
Definition view (t : tables) :=
  (map (fun l => (map row_of (tl_entries l), tl_has_rpcs l)) (tb_lists t),
   map (fun a => (sr_handler a, sr_allowed a)) (tb_servers t),
   map (fun b => (cr_service b, cr_pending b, de_allowed (cr_def b), de_request_size (cr_def b), de_request_index (cr_def b), de_channel (cr_def b))) (tb_clients t),
   tb_dependent t, length (tb_activities t)).
(** The client runs three actions; RPC 0 has an empty handler, RPC 1 runs list 2
    and goes to the second channel of the server. *)
Example C52_ex : validate_traffic_config no_st ex_config = TOk tt /\
  option_map view (ok_of (initialize_tables no_st ex_config (s_ "client"))) =
    Some ([ ([(1, 0, -1, -1, -1, [], -1, -1); (-1, -1, 1, -1, -1, [0], -1, -1); (-1, -1, -1, 0, 0, [0; 1], 1, -1)], true); ([], false);
            ([(-1, -1, -1, 0, -1, [], -1, -1)], false) ],
          [(-1, false); (2, false)], [(1, 3, true, 4096, -1, -1); (1, 3, true, -1, 1, 1)], [s_ "server"], 1%nat) /\
  NoDup (map svc_name (cf_services ex_config)) /\ NoDup (map rp_name (cf_rpcs ex_config)).
Proof.
  split; [vm_compute; reflexivity|]. split; [vm_compute; reflexivity|].
  split; vm_compute; repeat constructor; cbn; intuition discriminate.
Qed.
Ltac in_list := repeat match goal with
  | H : In _ _ |- _ => progress cbn in H
  | H : _ \/ _ |- _ => destruct H
  | H : False |- _ => destruct H
  end.
(** The configuration meets the hypothesis of C52_accepts. *)
Example C52_ex_accepts : well_formed no_st ex_config.
Proof.
  constructor.
  - eexists. vm_compute. reflexivity.
  - eexists. vm_compute. reflexivity.
  - eexists. vm_compute. reflexivity.
  - vm_compute. repeat constructor; cbn; intuition discriminate.
  - vm_compute. repeat constructor; cbn; intuition discriminate.
  - vm_compute. repeat constructor; cbn; intuition discriminate.
  - intros p d I E. in_list; subst p; vm_compute in E; try discriminate; injection E as <-; vm_compute; auto.
  - repeat constructor. cbn. tauto.
  - intros a I. in_list; subst a; eexists; vm_compute; reflexivity.
  - constructor.
  - intros t [].
  - intros r I. in_list; subst r; (split; [discriminate|]); intros n N; in_list; subst n; vm_compute; auto.
  - intros r I. in_list; subst r; (split; [discriminate|]); exists (nth 1 ex_services (mkSvc (mkSpec [] None None None None None) []));
      (split; [right; left; reflexivity|]); (split; [reflexivity|]); (split; [vm_compute; discriminate|]); vm_compute; auto.
  - intros r I. in_list; subst r; vm_compute; discriminate.
  - intros r I. in_list; subst r; vm_compute; auto.
  - intros d n I J. in_list; subst d; in_list; subst n; vm_compute; auto 6.
  - intros a I. in_list; subst a; (split; [vm_compute; auto|]); (split; [vm_compute; auto|]); (split; [|exact Logic.I]); try exact Logic.I.
    exists (mkPay (s_ "spread") (Some (s_ "sizes")) None). split; [vm_compute; auto|]. split; [reflexivity|discriminate].
  - intros d j n a m I J K L M. in_list; subst a; in_list; subst m d n; destruct j as [|[|[|j]]]; vm_compute in J; try discriminate; try (destruct j; discriminate);
      (split; [vm_compute; auto|]); intros [|[|[|k]]] Q; vm_compute in Q; try discriminate; try lia; destruct k; discriminate.
Qed.

(** ** What the checks let through *)
Definition ex_lists : list list_d := [mkListD (s_ "client") [s_ "a"]; mkListD (s_ "echo") []; mkListD (s_ "fetch") []].
(** Two RPCs of one name: an action can call another RPC than the one it names. *)
Theorem C52_duplicate_rpcs_refuted : exists c t l e r, validate_traffic_config no_st c = TOk tt /\
  initialize_tables no_st c (s_ "client") = TOk t /\ NoDup (map svc_name (cf_services c)) /\
  nth_error (tb_lists t) 0 = Some l /\ nth_error (tl_entries l) 0 = Some e /\ an_kind (en_action e) = KRpc (s_ "fetch") /\
  at_index (cf_rpcs c) (en_rpc e) r /\ rp_name r = s_ "echo".
Proof.
  pose (c := mkConf ex_services [] [ex_rpc "echo" None; ex_rpc "echo" None; ex_rpc "fetch" None] [] [ex_action "a" [] (KRpc (s_ "fetch"))] ex_lists [] [] [] []).
  exists c. destruct (initialize_tables no_st c (s_ "client")) as [t| |] eqn:E; [|vm_compute in E; discriminate..].
  exists t. vm_compute in E. injection E as <-. do 2 eexists. exists (ex_rpc "echo" None).
  split; [vm_compute; reflexivity|]. split; [reflexivity|]. split; [vm_compute; repeat constructor; cbn; intuition discriminate|].
  do 3 (split; [reflexivity|]). split; [split; [discriminate|reflexivity]|reflexivity].
Qed.
(** Two services of one name: an RPC can go to another service than its server. *)
Theorem C52_duplicate_services_refuted : exists c t b s, validate_traffic_config no_st c = TOk tt /\
  initialize_tables no_st c (s_ "client") = TOk t /\ NoDup (map rp_name (cf_rpcs c)) /\
  nth_error (tb_clients t) 0 = Some b /\ rp_server (de_spec (cr_def b)) = s_ "server" /\ at_index (cf_services c) (cr_service b) s /\ svc_name s = s_ "client".
Proof.
  pose (one := mkSvc (mkSpec (s_ "client") (Some 1) None (Some 1) (Some 1) (Some 1)) []).
  pose (c := mkConf [one; one; mkSvc (mkSpec (s_ "server") (Some 3) None (Some 3) (Some 1) (Some 1)) []] [] [ex_rpc "echo" None] [] [] [mkListD (s_ "echo") []] [] [] [] []).
  exists c. destruct (initialize_tables no_st c (s_ "client")) as [t| |] eqn:E; [|vm_compute in E; discriminate..].
  exists t. vm_compute in E. injection E as <-. eexists. exists one.
  split; [vm_compute; reflexivity|]. split; [reflexivity|]. split; [vm_compute; repeat constructor; cbn; intuition discriminate|].
  do 2 (split; [reflexivity|]). split; [split; [discriminate|reflexivity]|reflexivity].
Qed.
(** Two lists of one name: the one that is started is not the one that is
    referred to. *)
Theorem C52_duplicate_lists_refuted : exists c t l e, validate_traffic_config no_st c = TOk tt /\
  initialize_tables no_st c (s_ "client") = TOk t /\ main_list (s_ "client") 0 (cf_lists c) = Some 0%nat /\
  nth_error (tb_lists t) 0 = Some l /\ nth_error (tl_entries l) 0 = Some e /\ an_kind (en_action e) = KList (s_ "client") /\ en_list e = 1.
Proof.
  pose (c := mkConf ex_services [] [] [] [ex_action "a" [] (KList (s_ "client"))] [mkListD (s_ "client") [s_ "a"]; mkListD (s_ "client") []] [] [] [] []).
  exists c. destruct (initialize_tables no_st c (s_ "client")) as [t| |] eqn:E; [|vm_compute in E; discriminate..].
  exists t. vm_compute in E. injection E as <-. do 2 eexists. repeat match goal with |- _ /\ _ => split end; try (vm_compute; reflexivity).
Qed.
(** A payload without a name overrides the payload of every action that names
    none. *)
Theorem C52_override_refuted : exists c t l e, validate_traffic_config no_st c = TOk tt /\
  initialize_tables no_st c (s_ "client") = TOk t /\
  nth_error (tb_lists t) 0 = Some l /\ nth_error (tl_entries l) 0 = Some e /\ an_request (en_action e) = None /\ en_request e = 0.
Proof.
  pose (c := mkConf ex_services [mkPay [] (Some (s_ "sizes")) None] [ex_rpc "echo" None] [] [ex_action "a" [] (KRpc (s_ "echo"))] ex_lists [] [] [ex_dist "sizes" "payload_size" 64] []).
  exists c. destruct (initialize_tables no_st c (s_ "client")) as [t| |] eqn:E; [|vm_compute in E; discriminate..].
  exists t. vm_compute in E. injection E as <-. do 2 eexists. repeat match goal with |- _ /\ _ => split end; try (vm_compute; reflexivity).
Qed.
(** Sizes beyond 31 bits are replaced by others: 2^32-1 by the default. *)
Theorem C52_size_refuted : exists c t b1 b2, validate_traffic_config no_st c = TOk tt /\
  initialize_tables no_st c (s_ "client") = TOk t /\ nth_error (tb_clients t) 0 = Some b1 /\ nth_error (tb_clients t) 1 = Some b2 /\
  map py_size (cf_payloads c) = [Some (2 ^ 32 - 1); Some (2 ^ 32 + 5)] /\
  rp_request (de_spec (cr_def b1)) = Some (s_ "p") /\ de_request_size (cr_def b1) = 16 /\
  rp_request (de_spec (cr_def b2)) = Some (s_ "q") /\ de_request_size (cr_def b2) = 5.
Proof.
  pose (c := mkConf ex_services [mkPay (s_ "p") None (Some (2 ^ 32 - 1)); mkPay (s_ "q") None (Some (2 ^ 32 + 5))] [ex_rpc "echo" (Some (s_ "p")); ex_rpc "fetch" (Some (s_ "q"))] []
               [ex_action "a" [] (KRpc (s_ "echo"))] ex_lists [] [] [] []).
  exists c. destruct (initialize_tables no_st c (s_ "client")) as [t| |] eqn:E; [|vm_compute in E; discriminate..].
  exists t. vm_compute in E. injection E as <-. do 2 eexists. repeat match goal with |- _ /\ _ => split end; try (vm_compute; reflexivity).
Qed.
(** A joint distribution that does not exist is accepted; the sizes are -1. *)
Theorem C52_unknown_distribution_refuted : exists c t b n, validate_traffic_config no_st c = TOk tt /\
  initialize_tables no_st c (s_ "client") = TOk t /\ nth_error (tb_clients t) 0 = Some b /\ rp_dist (de_spec (cr_def b)) = Some n /\
  ~ In n (map dc_name (cf_rpc_dists c)) /\ de_joint (cr_def b) = -1 /\ de_request_size (cr_def b) = -1 /\ de_response_size (cr_def b) = -1.
Proof.
  pose (c := mkConf ex_services [] [mkRpcD (s_ "echo") [s_ "client"] (s_ "server") None None None (Some (s_ "none")) None] [] [ex_action "a" [] (KRpc (s_ "echo"))] ex_lists [] [] [] []).
  exists c. destruct (initialize_tables no_st c (s_ "client")) as [t| |] eqn:E; [|vm_compute in E; discriminate..].
  exists t. vm_compute in E. injection E as <-. eexists. exists (s_ "none"). repeat match goal with |- _ /\ _ => split end; try (vm_compute; reflexivity). intros [].
Qed.
(** Where validation reads past an array, aborts or divides by zero instead of
    reporting an error: an unknown channel, a service without a name, a service
    without instances. *)
Theorem C52_validation_undefined_refuted :
  (exists c, length (cf_rpcs c) = 3%nat /\ rp_channel (nth 2 (cf_rpcs c) (ex_rpc "" None)) = Some (s_ "none") /\ validate_traffic_config no_st c = TUndefined) /\
  (exists c, map svc_name (cf_services c) = [[]] /\ cf_rpcs c = [] /\ validate_traffic_config no_st c = TUndefined) /\
  (exists c s, canonical_spec (mkSpec (s_ "idle") (Some 0) None None None None) = Grid_Model.CanonOk s /\ map sv_spec (cf_services c) = [s] /\ cf_rpcs c = [] /\ validate_traffic_config no_st c = TUndefined).
Proof.
  split; [|split].
  - exists (mkConf ex_services [] [ex_rpc "echo" None; ex_rpc "fetch" None; mkRpcD (s_ "get") [s_ "client"] (s_ "server") None None None None (Some (s_ "none"))] [] [] ex_lists [] [] [] []).
    repeat match goal with |- _ /\ _ => split end; vm_compute; reflexivity.
  - exists (mkConf [mkSvc (mkSpec [] (Some 1) None (Some 1) (Some 1) (Some 1)) []] [] [] [] [] [] [] [] [] []).
    repeat match goal with |- _ /\ _ => split end; vm_compute; reflexivity.
  - eexists (mkConf [mkSvc _ []] [] [] [] [] [] [] [] [] []). eexists. split; [vm_compute; reflexivity|].
    repeat match goal with |- _ /\ _ => split end; vm_compute; reflexivity.
Qed.

Print Assumptions C52_actions.
Print Assumptions C52_rpcs.
Print Assumptions C52_sizes.
Print Assumptions C52_agree.
Print Assumptions C52_dependent.
Print Assumptions C52_validated.
Print Assumptions C52_accepts.
Print Assumptions C52_main_list.
Print Assumptions C52_duplicate_rpcs_refuted.
Print Assumptions C52_duplicate_services_refuted.
Print Assumptions C52_duplicate_lists_refuted.
Print Assumptions C52_override_refuted.
Print Assumptions C52_size_refuted.
Print Assumptions C52_unknown_distribution_refuted.
Print Assumptions C52_validation_undefined_refuted.

(** What each kind of mistake in [ex_config] is reported as. *)
Definition with_rpcs (l : list rpc_desc) : config :=
  mkConf ex_services (cf_payloads ex_config) l (cf_activities ex_config) (cf_actions ex_config) (cf_lists ex_config) [] (cf_delay_dists ex_config) (cf_size_dists ex_config) [].
Definition with_actions (l : list action_d) : config :=
  mkConf ex_services (cf_payloads ex_config) (cf_rpcs ex_config) (cf_activities ex_config) l [mkListD (s_ "client") (map an_name l); mkListD (s_ "echo") []; mkListD (s_ "fetch") []] []
    (cf_delay_dists ex_config) (cf_size_dists ex_config) [].
Definition with_lists (l : list list_d) : config :=
  mkConf ex_services (cf_payloads ex_config) (cf_rpcs ex_config) (cf_activities ex_config) (cf_actions ex_config) l [] (cf_delay_dists ex_config) (cf_size_dists ex_config) [].
Example C52_ex_errors :
  map (fun c => validate_traffic_config no_st c)
    [ with_lists [mkListD (s_ "client") []; mkListD (s_ "echo") []];
      with_lists [mkListD (s_ "client") [s_ "z"]; mkListD (s_ "echo") []; mkListD (s_ "fetch") []];
      with_rpcs [mkRpcD (s_ "echo") [] (s_ "server") None None None None None];
      with_rpcs [mkRpcD (s_ "echo") [s_ "client"] (s_ "nobody") None None None None None];
      with_rpcs [mkRpcD (s_ "echo") [s_ "nobody"] (s_ "server") None None None None None];
      with_actions [ex_action "a" [] (KRpc (s_ "none"))]; with_actions [ex_action "a" [] (KList (s_ "none"))];
      with_actions [ex_action "a" [] (KActivity (s_ "none"))]; with_actions [ex_action "a" [] (KReplay (s_ "none"))];
      with_actions [ex_action "a" ["none"%string] (KRpc (s_ "echo"))];
      with_actions [ex_action "a" ["b"%string] (KRpc (s_ "echo")); ex_action "b" [] (KRpc (s_ "echo"))];
      with_actions [mkActD (s_ "a") [] (Some (s_ "none")) (KRpc (s_ "echo")) None None];
      with_actions [mkActD (s_ "a") [] None (KRpc (s_ "echo")) (Some (s_ "none")) None] ]
  = map TErr
    [ TNoHandler (s_ "fetch"); TActionUnknown (s_ "z"); TNoClient (s_ "echo"); TServerUnknown (s_ "nobody"); TClientUnknown (s_ "nobody"); TRpcUnknown (s_ "none"); TListUnknown (s_ "none");
      TActivityUnknown (s_ "none"); TReplayUnknown (s_ "none"); TDepUnknown (s_ "none"); TDepLater; TDelay (s_ "none"); TOverride (s_ "a") ].
Proof. vm_compute. reflexivity. Qed.
