(** Proofs about several node managers in one process. *)
From Coq Require Import Ascii String List NArith ZArith Bool Arith Lia.
From Verif Require Import Base_Model Base_Proofs Grid_Model Place_Model Util_Model Net_Model Driver_Model Node_Model Host_Model.
Import ListNotations.
Open Scope nat_scope.

Lemma replace_same A k (x : A) l : k < length l -> nth_error (replace_at k x l) k = Some x.
Proof. revert k. induction l as [|y l IH]; intros [|k] L; cbn in *; try lia; [reflexivity|]. apply IH. lia. Qed.
Lemma replace_other A k j (x : A) l : k <> j -> nth_error (replace_at k x l) j = nth_error l j.
Proof. revert k j. induction l as [|y l IH]; intros [|k] [|j] N; cbn; try reflexivity; try congruence. apply IH. congruence. Qed.
Lemma replace_length A k (x : A) l : length (replace_at k x l) = length l.
Proof. revert k. induction l as [|y l IH]; intros [|k]; cbn; try reflexivity. now rewrite IH. Qed.
Lemma manager_range s k m : manager_at s k = Some m -> k < length (ho_managers s).
Proof. unfold manager_at. destruct (nth_error (ho_managers s) k) eqn:E; [|discriminate]. intros _. apply nth_error_Some. congruence. Qed.
Lemma set_same s k x : k < length (ho_managers s) -> manager_at (set_manager k x s) k = x.
Proof. intro L. unfold manager_at, set_manager. cbn [ho_managers]. rewrite (replace_same _ _ _ _ L). destruct x; reflexivity. Qed.
Lemma set_other s k j x : k <> j -> manager_at (set_manager k x s) j = manager_at s j.
Proof. intro N. unfold manager_at, set_manager. cbn [ho_managers]. now rewrite (replace_other _ _ _ _ _ N). Qed.

(** ** Independence of the resolver *)
Lemma allocate_ext homa merc ini f g : (forall p, f p = g p) -> forall fuel o depth path,
  allocate fuel (mkEnv homa merc (Some f) ini) o depth path = allocate fuel (mkEnv homa merc (Some g) ini) o depth path.
Proof.
  intro E. induction fuel as [|fuel IH]; intros o depth path; [reflexivity|]. cbn [allocate ev_homa ev_mercury ev_resolver ev_init].
  destruct (depth =? max_depth); [reflexivity|]. destruct (_ || _); [reflexivity|]. destruct (str_eqb _ _); [rewrite !IH; reflexivity|]. destruct (str_eqb _ _); [rewrite !IH; reflexivity|].
  destruct (homa && _); [reflexivity|]. destruct (merc && _); [reflexivity|]. rewrite E. destruct (g (protocol_name o)); [apply IH|reflexivity].
Qed.
Lemma alloc_in_own ne ex name ty g s f : (forall p, f p = resolve_alias (tc_options (nd_traffic s)) p) -> alloc_in (Some f) ne ex name ty g s = alloc_service ne ex name ty g s.
Proof.
  intro E. unfold alloc_in, alloc_service. destruct (options_for _ _ _ _ _) as [o|]; [|reflexivity]. cbv zeta. rewrite (allocate_ext _ _ _ _ _ E). reflexivity.
Qed.
(** Options that name no alias. *)
Inductive plain (homa merc : bool) : driver_opts -> Prop :=
  | pl_grpc o : protocol_name o = s_ "grpc" \/ protocol_name o = s_ "grpc_async_callback" -> plain homa merc o
  | pl_homa o : homa = true -> protocol_name o = s_ "homa" -> plain homa merc o
  | pl_mercury o : merc = true -> protocol_name o = s_ "mercury" -> plain homa merc o
  | pl_double o : protocol_name o = s_ "double_barrel" -> plain homa merc (next_opts (s_ "next_protocol_driver") o) -> plain homa merc o
  | pl_counter o : protocol_name o = s_ "composable_rpc_counter" -> plain homa merc (next_opts (s_ "driver_under_test") o) -> plain homa merc o.
Lemma allocate_plain homa merc o : plain homa merc o -> forall r1 r2 ini fuel depth path,
  allocate fuel (mkEnv homa merc r1 ini) o depth path = allocate fuel (mkEnv homa merc r2 ini) o depth path.
Proof.
  intros P r1 r2 ini. induction P as [o [E|E]|o H E|o H E|o E P IH|o E P IH]; intros [|fuel] depth path; try reflexivity; cbn [allocate ev_homa ev_mercury ev_resolver ev_init]; (destruct (depth =? max_depth); [reflexivity|]);
    cbv zeta; rewrite E; cbn; rewrite ?H; cbn; try reflexivity.
  - rewrite !(IH fuel). reflexivity.
  - rewrite !(IH fuel). reflexivity.
Qed.

(** ** Steps and one node manager *)
Definition of_manager (k : nat) (e : hevent) : bool := match e with HDelete j | HBegin j _ _ => j =? k | _ => false end.
Lemma other_steps e s s' k m : host_step e s = Some s' -> manager_at s k = Some m -> of_manager k e = false -> e <> HNext k -> manager_at s' k = Some m.
Proof.
  intros E M O N. pose proof (manager_range _ _ _ M) as L. unfold host_step in E. destruct (ho_crashed s); [discriminate|].
  destruct e as [ne ex nd|j|j t names|j]; cbn [of_manager] in O.
  - injection E as <-. unfold manager_at in *. cbn [ho_managers]. rewrite nth_error_app1 by exact L. exact M.
  - apply Nat.eqb_neq in O. destruct (manager_at s j) as [mj|]; [|discriminate]. destruct (hm_job mj); [discriminate|]. injection E as <-. exact (eq_trans (set_other s j k None O) M).
  - apply Nat.eqb_neq in O. destruct (manager_at s j) as [mj|]; [|discriminate]. destruct (hm_job mj); [discriminate|]. destruct (_ <=? _)%Z; injection E as <-; exact (eq_trans (set_other s j k _ O) M).
  - assert (O' : j <> k) by congruence. destruct (manager_at s j) as [mj|]; [|discriminate]. destruct (hm_job mj) as [[names eps]|]; [|discriminate].
    destruct names as [|name r]; [injection E as <-; exact (eq_trans (set_other s j k _ O') M)|]. destruct (_ <? 2); [injection E as <-; exact M|]. destruct (grid_index_from_name name); [|injection E as <-; exact M].
    destruct (alloc_in _ _ _ _ _ _ _) as [nd port|nd msg|]; [|injection E as <-; exact (eq_trans (set_other s j k _ O') M)|injection E as <-; exact M].
    destruct (socket_for_device _ _ _ _); injection E as <-; exact (eq_trans (set_other s j k _ O') M).
Qed.
(** What is set of the alias resolver as far as node manager k can tell. *)
Definition served (s : host) (k : nat) : Prop :=
  exists m f, manager_at s k = Some m /\ resolver_of s = Some f /\ forall p, f p = resolve_alias (tc_options (nd_traffic (hm_node m))) p.
Lemma alloc_traffic ne ex name ty g s : match alloc_service ne ex name ty g s with AllocDone s' _ => nd_traffic s' = nd_traffic s | _ => True end.
Proof.
  unfold alloc_service. destruct (options_for _ _ _ _ _); [|exact I]. cbv zeta. destruct (allocate _ _ _ _ _); try exact I. destruct (ex_engine _ _); [|exact I]. destruct (map_find _ _); reflexivity.
Qed.
(** One step of the loop of ConfigureNode is one step of configure_loop. *)
Definition result_of (m : manager) (j : job) : outcome (list (str * endpoint)) := configure_loop (hm_env m) (hm_ext m) (jb_names j) (hm_node m) (jb_eps j).
Definition alone (m : manager) (name ty : str) (g : grid_index) (res : option (str -> option driver_opts)) : Prop :=
  alloc_in res (hm_env m) (hm_ext m) name ty g (hm_node m) = alloc_service (hm_env m) (hm_ext m) name ty g (hm_node m).
Lemma next_step s s' k m j : host_step (HNext k) s = Some s' -> manager_at s k = Some m -> hm_job m = Some j ->
  (forall name r g, jb_names j = name :: r -> alone m name (nth 0 (split_slash name) []) g (resolver_of s)) ->
  ho_crashed s' = true \/
  exists m', manager_at s' k = Some m' /\ hm_env m' = hm_env m /\ hm_ext m' = hm_ext m /\
    ((exists j', hm_job m' = Some j' /\ result_of m' j' = result_of m j /\ hm_replies m' = hm_replies m /\ nd_traffic (hm_node m') = nd_traffic (hm_node m) /\ exists x, jb_names j = x :: jb_names j') \/
     (hm_job m' = None /\ exists r eps, hm_replies m' = hm_replies m ++ [(r, eps)] /\ result_of m j = Replied (hm_node m') r eps)).
Proof.
  intros E M J A. pose proof (manager_range _ _ _ M) as L. unfold host_step in E. destruct (ho_crashed s); [discriminate|]. rewrite M, J in E. destruct j as [names eps]. cbn [jb_names] in A.
  assert (F : forall r e nd, result_of m (mkJob names eps) = Replied nd r e -> exists m', manager_at (set_manager k (Some (finish r e nd m)) s) k = Some m' /\ hm_env m' = hm_env m /\ hm_ext m' = hm_ext m /\
    ((exists j', hm_job m' = Some j' /\ result_of m' j' = result_of m (mkJob names eps) /\ hm_replies m' = hm_replies m /\ nd_traffic (hm_node m') = nd_traffic (hm_node m) /\ exists x, names = x :: jb_names j') \/
     (hm_job m' = None /\ exists r eps', hm_replies m' = hm_replies m ++ [(r, eps')] /\ result_of m (mkJob names eps) = Replied (hm_node m') r eps'))).
  { intros r e nd R. exists (finish r e nd m). rewrite set_same by exact L. split; [reflexivity|]. split; [reflexivity|]. split; [reflexivity|]. right. split; [reflexivity|]. exists r, e. split; [reflexivity|exact R]. }
  destruct names as [|name r]; [injection E as <-; right; apply F; reflexivity|]. unfold result_of in *. cbn [jb_names jb_eps configure_loop] in *.
  destruct (length (split_slash name) <? 2) eqn:L2; [injection E as <-; left; reflexivity|]. destruct (grid_index_from_name name) as [g|] eqn:G; [|injection E as <-; left; reflexivity].
  pose proof (A name r g eq_refl) as A'. unfold alone in A'. rewrite A' in E. pose proof (alloc_traffic (hm_env m) (hm_ext m) name (nth 0 (split_slash name) []) g (hm_node m)) as Tr.
  destruct (alloc_service _ _ _ _ _ _) as [nd port|nd msg|] eqn:Al.
  - destruct (socket_for_device _ _ _ _) as [a|] eqn:So; injection E as <-; right; [|apply F; reflexivity]. eexists. rewrite set_same by exact L. split; [reflexivity|]. split; [reflexivity|]. split; [reflexivity|].
    left. eexists. split; [reflexivity|]. cbn [jb_names jb_eps hm_env hm_ext hm_node hm_replies]. split; [reflexivity|]. split; [reflexivity|]. split; [exact Tr|]. exists name. reflexivity.
  - injection E as <-. right. apply F. reflexivity.
  - injection E as <-. left. reflexivity.
Qed.
Lemma crashed_stays l s s' : ho_crashed s = true -> host_run l s = Some s' -> l = [] /\ s' = s.
Proof. intros C. destruct l as [|e l]; cbn [host_run]; [intros [= <-]; auto|]. unfold host_step. rewrite C. discriminate. Qed.
Lemma run_app l1 l2 s : host_run (l1 ++ l2) s = match host_run l1 s with Some s1 => host_run l2 s1 | None => None end.
Proof. revert s. induction l1 as [|e l1 IH]; intro s; cbn [app host_run]; [reflexivity|]. destruct (host_step e s); [apply IH|reflexivity]. Qed.

(** The rest of a ConfigureNode of node manager k, among steps of others. *)
Lemma rest_of_job k P : (forall s m name r eps, P s -> manager_at s k = Some m -> hm_job m = Some (mkJob (name :: r) eps) -> forall g, alone m name (nth 0 (split_slash name) []) g (resolver_of s)) ->
  forall l s s' m j m', manager_at s k = Some m -> hm_job m = Some j -> host_run l s = Some s' -> (forall e, In e l -> of_manager k e = false) ->
  (forall l1 l2 s1, l = l1 ++ HNext k :: l2 -> host_run l1 s = Some s1 -> P s1) ->
  manager_at s' k = Some m' -> hm_job m' = None ->
  exists r eps, hm_replies m' = hm_replies m ++ [(r, eps)] /\ result_of m j = Replied (hm_node m') r eps.
Proof.
  intro Al. assert (Idle : forall l s s' m m', manager_at s k = Some m -> hm_job m = None -> host_run l s = Some s' -> (forall e, In e l -> of_manager k e = false) -> manager_at s' k = Some m' -> m' = m).
  { induction l as [|e l IH]; intros s s' m m' M J R O M'; cbn [host_run] in R; [injection R as <-; congruence|]. destruct (host_step e s) as [s1|] eqn:E; [|discriminate].
    apply (IH s1 s' m m'); auto using in_cons. apply (other_steps e s s1 k m E M (O e (or_introl eq_refl))). intros ->. unfold host_step in E. destruct (ho_crashed s); [discriminate|]. rewrite M, J in E. discriminate. }
  induction l as [|e l IH]; intros s s' m j m' M J R O D M' J'; cbn [host_run] in R; [injection R as <-; congruence|]. destruct (host_step e s) as [s1|] eqn:E; [|discriminate].
  assert (Dec : e = HNext k \/ e <> HNext k). { destruct e as [| | |i]; try (right; discriminate). destruct (Nat.eq_dec i k) as [->|N]; [left; reflexivity|right; congruence]. }
  destruct Dec as [->|N].
  - destruct (next_step s s1 k m j E M J) as [C|(m1 & M1 & E1 & E2 & [(j1 & J1 & R1 & Q & _)|(J1 & r & eps & Q & R1)])].
    + intros name r g Q. destruct j as [names eps]. cbn [jb_names] in Q. subst names. apply (Al s m name r eps); auto. apply (D [] l); reflexivity.
    + exfalso. destruct (crashed_stays l s1 s' C R) as (_ & ->). clear -E M J M' J' C. unfold host_step in E. destruct (ho_crashed s) eqn:C0; [discriminate|]. rewrite M, J in E. destruct j as [[|name r] eps].
      * injection E as <-. cbn [set_manager ho_crashed] in C. congruence.
      * destruct (_ <? 2); [injection E as <-; assert (m' = m) by (unfold manager_at in *; cbn [ho_managers] in M'; congruence); congruence|].
        destruct (grid_index_from_name name); [|injection E as <-; assert (m' = m) by (unfold manager_at in *; cbn [ho_managers] in M'; congruence); congruence].
        destruct (alloc_in _ _ _ _ _ _ _) as [nd port|nd msg|]; [|injection E as <-; cbn [set_manager ho_crashed] in C; congruence|injection E as <-; assert (m' = m) by (unfold manager_at in *; cbn [ho_managers] in M'; congruence); congruence].
        destruct (socket_for_device _ _ _ _); injection E as <-; cbn [set_manager ho_crashed] in C; congruence.
    + destruct (IH s1 s' m1 j1 m' M1 J1 R (fun e I => O e (or_intror I))) as (r & eps & Q1 & Q2); auto.
      { intros l1 l2 s2 -> R2. apply (D (HNext k :: l1) l2); [reflexivity|]. cbn [host_run]. rewrite E. exact R2. }
      exists r, eps. split; [congruence|congruence].
    + exists r, eps. assert (m' = m1) as ->. { apply (Idle l s1 s'); auto. intros e I. apply O. right. exact I. } auto.
  - destruct (IH s1 s' m j m') as (r & eps & Q1 & Q2); auto.
    + exact (other_steps e s s1 k m E M (O e (or_introl eq_refl)) N).
    + intros e' I. apply O. right. exact I.
    + intros l1 l2 s2 -> R2. apply (D (e :: l1) l2); [reflexivity|]. cbn [host_run]. rewrite E. exact R2.
    + exists r, eps. auto.
Qed.
(** With its start. *)
Lemma begin_step s s' k t names m : host_step (HBegin k t names) s = Some s' -> manager_at s k = Some m ->
  hm_job m = None /\ exists m1, manager_at s' k = Some m1 /\ hm_env m1 = hm_env m /\ hm_ext m1 = hm_ext m /\ nd_traffic (hm_node m1) = t /\ ho_resolver s' = ho_resolver s /\
  ((hm_job m1 = None /\ hm_replies m1 = hm_replies m ++ [(RInvalid, [])] /\ configure (hm_env m) (hm_ext m) t names (hm_node m) = Replied (hm_node m1) RInvalid []) \/
   (hm_job m1 = Some (mkJob names []) /\ hm_replies m1 = hm_replies m /\ configure (hm_env m) (hm_ext m) t names (hm_node m) = result_of m1 (mkJob names []))).
Proof.
  intros E M. pose proof (manager_range _ _ _ M) as L. unfold host_step in E. destruct (ho_crashed s); [discriminate|]. rewrite M in E. destruct (hm_job m); [discriminate|]. split; [reflexivity|].
  unfold configure. destruct (_ <=? _)%Z; injection E as <-.
  - eexists. rewrite set_same by exact L. split; [reflexivity|]. do 4 (split; [reflexivity|]). left. repeat split.
  - eexists. split; [refine (set_same s k _ L)|]; cbv beta; do 4 (split; [reflexivity|]); right; repeat split.
Qed.
Lemma whole_job k P t : (forall s m name r eps, P s -> manager_at s k = Some m -> hm_job m = Some (mkJob (name :: r) eps) -> forall g, alone m name (nth 0 (split_slash name) []) g (resolver_of s)) ->
  forall names l s s' m m', manager_at s k = Some m -> host_run (HBegin k t names :: l) s = Some s' -> (forall e, In e l -> of_manager k e = false) ->
  (forall l1 l2 s1, l = l1 ++ HNext k :: l2 -> host_run (HBegin k t names :: l1) s = Some s1 -> P s1) ->
  manager_at s' k = Some m' -> hm_job m' = None ->
  exists r eps, hm_replies m' = hm_replies m ++ [(r, eps)] /\ configure (hm_env m) (hm_ext m) t names (hm_node m) = Replied (hm_node m') r eps.
Proof.
  intros Al names l s s' m m' M R O D M' J'. cbn [host_run] in R. destruct (host_step (HBegin k t names) s) as [s1|] eqn:E; [|discriminate].
  destruct (begin_step s s1 k t names m E M) as (J & m1 & M1 & E1 & E2 & T1 & _ & [(J1 & Q & C)|(J1 & Q & C)]).
  - exists RInvalid, []. assert (m' = m1) as ->; [|auto]. clear -M1 J1 R O M' J'. revert s1 M1 R. induction l as [|e l IH]; intros s1 M1 R; cbn [host_run] in R; [injection R as <-; congruence|]. destruct (host_step e s1) as [s2|] eqn:E; [|discriminate].
    apply (IH (fun e I => O e (or_intror I)) s2); [|exact R]. apply (other_steps e s1 s2 k m1 E M1 (O e (or_introl eq_refl))). intros ->. unfold host_step in E. destruct (ho_crashed s1); [discriminate|]. rewrite M1, J1 in E. discriminate.
  - destruct (rest_of_job k P Al l s1 s' m1 _ m' M1 J1 R O) as (r & eps & Q1 & Q2); auto.
    + intros l1 l2 s2 -> R2. apply (D l1 l2); [reflexivity|]. cbn [host_run]. rewrite E. exact R2.
    + exists r, eps. split; congruence.
Qed.
