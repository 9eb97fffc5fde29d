(** C84: node managers that share a process. *)
From Coq Require Import Ascii String List NArith ZArith Bool Arith Lia.
From Verif Require Import Base_Model Base_Proofs Grid_Model Place_Model Util_Model Net_Model Driver_Model Node_Model Host_Model Host_Proofs.
Import ListNotations.
Open Scope nat_scope.

(** ** What is said *)
Definition is_new (e : hevent) : bool := match e with HNew _ _ _ => true | _ => false end.
(** Events that set or reset the resolver. *)
Definition sets_resolver (e : hevent) : bool := match e with HNew _ _ _ | HDelete _ => true | _ => false end.
Definition built (l : list hevent) : nat := length (filter is_new l).
(** A ConfigureNode of node manager k that starts in s and returned by s'. *)
Definition one_configure (s : host) (k : nat) (t : traffic) (names : list str) (l : list hevent) (s' : host) (m m' : manager) : Prop :=
  manager_at s k = Some m /\ host_run (HBegin k t names :: l) s = Some s' /\ (forall e, In e l -> of_manager k e = false) /\ manager_at s' k = Some m' /\ hm_job m' = None.
(** It ends as if the node manager had a process of its own: same reply, same
    state (Node_Model.v; C56 and following). *)
Definition as_alone (t : traffic) (names : list str) (m m' : manager) : Prop :=
  exists r eps, hm_replies m' = hm_replies m ++ [(r, eps)] /\ configure (hm_env m) (hm_ext m) t names (hm_node m) = Replied (hm_node m') r eps.

(** ** Who resolves aliases *)
(** Always the node manager constructed last, and none after a destructor. *)
Theorem C84_resolver l s k : host_run l host0 = Some s ->
  ho_resolver s = Some k <-> exists l1 ne ex nd l2, l = l1 ++ HNew ne ex nd :: l2 /\ built l1 = k /\ forall e, In e l2 -> sets_resolver e = false.
Proof.
  intro R. assert (G : forall l s, host_run l host0 = Some s -> length (ho_managers s) = built l /\
    (ho_resolver s = Some k <-> exists l1 ne ex nd l2, l = l1 ++ HNew ne ex nd :: l2 /\ built l1 = k /\ forall e, In e l2 -> sets_resolver e = false)).
  { clear l s R. intro l. induction l as [|e l IH] using rev_ind; intros s R.
    - injection R as <-. split; [reflexivity|]. split; [discriminate|]. intros (l1 & ne & ex & nd & l2 & Q & _). destruct l1; discriminate.
    - rewrite run_app in R. destruct (host_run l host0) as [s0|] eqn:R0; [|discriminate]. destruct (IH s0 eq_refl) as (Le & Re). cbn [host_run] in R. destruct (host_step e s0) as [s1|] eqn:E; [|discriminate]. injection R as <-.
      assert (Bu : built (l ++ [e]) = built l + (if is_new e then 1 else 0)) by (unfold built; rewrite filter_app, app_length; cbn [filter]; destruct (is_new e); reflexivity).
      assert (Same : is_new e = false -> sets_resolver e = false -> length (ho_managers s1) = length (ho_managers s0) -> ho_resolver s1 = ho_resolver s0 ->
        length (ho_managers s1) = built (l ++ [e]) /\ (ho_resolver s1 = Some k <-> exists l1 ne ex nd l2, l ++ [e] = l1 ++ HNew ne ex nd :: l2 /\ built l1 = k /\ forall x, In x l2 -> sets_resolver x = false)).
      { intros N1 N2 Q1 Q2. split; [rewrite Bu, N1; lia|]. rewrite Q2, Re. split.
        - intros (l1 & ne & ex & nd & l2 & -> & B & F). exists l1, ne, ex, nd, (l2 ++ [e]). split; [rewrite <- app_assoc; reflexivity|]. split; [exact B|]. intros x I. apply in_app_iff in I as [I|[<-|[]]]; [auto|exact N2].
        - intros (l1 & ne & ex & nd & l2 & Q & B & F). destruct l2 as [|y l2 _] using rev_ind; [apply app_inj_tail in Q as (_ & ->); discriminate N1|].
          replace (l1 ++ HNew ne ex nd :: l2 ++ [y]) with ((l1 ++ HNew ne ex nd :: l2) ++ [y]) in Q by (rewrite <- app_assoc; reflexivity). apply app_inj_tail in Q as (-> & ->). exists l1, ne, ex, nd, l2. split; [reflexivity|]. split; [exact B|]. intros x I. apply F, in_app_iff. left. exact I. }
      unfold host_step in E. destruct (ho_crashed s0); [discriminate|]. destruct e as [ne ex nd|j|j t names|j].
      + injection E as <-. cbn [ho_managers ho_resolver]. split; [rewrite app_length, Bu, Le; reflexivity|]. rewrite Le. split.
        * intros [= <-]. exists l, ne, ex, nd, []. split; [reflexivity|]. split; [reflexivity|]. intros x [].
        * intros (l1 & ne' & ex' & nd' & l2 & Q & B & F). destruct l2 as [|y l2 _] using rev_ind; [apply app_inj_tail in Q as (-> & _); congruence|].
          replace (l1 ++ HNew ne' ex' nd' :: l2 ++ [y]) with ((l1 ++ HNew ne' ex' nd' :: l2) ++ [y]) in Q by (rewrite <- app_assoc; reflexivity). apply app_inj_tail in Q as (_ & <-). assert (X : sets_resolver (HNew ne ex nd) = false) by (apply F, in_app_iff; right; left; reflexivity). discriminate X.
      + destruct (manager_at s0 j) as [mj|]; [|discriminate]. destruct (hm_job mj); [discriminate|]. injection E as <-. cbn [ho_managers ho_resolver set_manager]. split; [rewrite replace_length, Bu, Le; cbn [is_new]; lia|].
        split; [discriminate|]. intros (l1 & ne' & ex' & nd' & l2 & Q & B & F). destruct l2 as [|y l2 _] using rev_ind; [apply app_inj_tail in Q as (_ & Q); discriminate Q|].
        replace (l1 ++ HNew ne' ex' nd' :: l2 ++ [y]) with ((l1 ++ HNew ne' ex' nd' :: l2) ++ [y]) in Q by (rewrite <- app_assoc; reflexivity). apply app_inj_tail in Q as (_ & <-). assert (X : sets_resolver (HDelete j) = false) by (apply F, in_app_iff; right; left; reflexivity). discriminate X.
      + destruct (manager_at s0 j) as [mj|]; [|discriminate]. destruct (hm_job mj); [discriminate|]. destruct (_ <=? _)%Z; injection E as <-; apply Same; try reflexivity; cbn [ho_managers set_manager]; apply replace_length.
      + destruct (manager_at s0 j) as [mj|]; [|discriminate]. destruct (hm_job mj) as [[names eps]|]; [|discriminate]. destruct names as [|name r]; [injection E as <-; apply Same; try reflexivity; apply replace_length|].
        destruct (_ <? 2); [injection E as <-; apply Same; reflexivity|]. destruct (grid_index_from_name name); [|injection E as <-; apply Same; reflexivity].
        destruct (alloc_in _ _ _ _ _ _ _) as [nd port|nd msg|]; [|injection E as <-; apply Same; try reflexivity; apply replace_length|injection E as <-; apply Same; reflexivity].
        destruct (socket_for_device _ _ _ _); injection E as <-; apply Same; try reflexivity; apply replace_length. }
  exact (proj2 (G l s R)).
Qed.
(** The resolver never refers to a node manager that was destroyed. *)
Theorem C84_no_dangling l s k : host_run l host0 = Some s -> ho_resolver s = Some k -> exists m, manager_at s k = Some m.
Proof.
  revert s. induction l as [|e l IH] using rev_ind; intros s R Q; [injection R as <-; discriminate|]. rewrite run_app in R. destruct (host_run l host0) as [s0|]; [|discriminate]. specialize (IH s0 eq_refl).
  cbn [host_run] in R. destruct (host_step e s0) as [s1|] eqn:E; [|discriminate]. injection R as <-.
  assert (S0 : ho_resolver s0 = Some k -> (forall j x, s1 = set_manager j (Some x) s0 -> exists m, manager_at s1 k = Some m)).
  { intros Q0 j x ->. destruct (IH Q0) as (m & M). destruct (Nat.eq_dec j k) as [->|N]; [exists x; apply set_same, (manager_range _ _ _ M)|exists m; now rewrite set_other]. }
  assert (S1 : ho_resolver s0 = Some k -> ho_managers s1 = ho_managers s0 -> exists m, manager_at s1 k = Some m) by (intros Q0 H; unfold manager_at in *; rewrite H; auto).
  unfold host_step in E. destruct (ho_crashed s0); [discriminate|]. destruct e as [ne ex nd|j|j t names|j].
  - injection E as <-. injection Q as <-. eexists. unfold manager_at. cbn [ho_managers]. rewrite nth_error_app2, Nat.sub_diag by lia. reflexivity.
  - destruct (manager_at s0 j) as [mj|]; [|discriminate]. destruct (hm_job mj); [discriminate|]. injection E as <-. discriminate.
  - destruct (manager_at s0 j) as [mj|] eqn:Mj; [|discriminate]. destruct (hm_job mj); [discriminate|]. destruct (_ <=? _)%Z; injection E as <-; [eauto|]. cbn [ho_resolver set_manager] in Q. destruct (IH Q) as (m & M).
    destruct (Nat.eq_dec j k) as [->|N]; [eexists; exact (set_same s0 k _ (manager_range _ _ _ M))|exists m; exact (eq_trans (set_other s0 j k _ N) M)].
  - destruct (manager_at s0 j) as [mj|]; [|discriminate]. destruct (hm_job mj) as [[names eps]|]; [|discriminate]. destruct names as [|name r]; [injection E as <-; eauto|].
    destruct (_ <? 2); [injection E as <-; auto|]. destruct (grid_index_from_name name); [|injection E as <-; auto]. destruct (alloc_in _ _ _ _ _ _ _) as [nd port|nd msg|]; [|injection E as <-; eauto|injection E as <-; auto].
    destruct (socket_for_device _ _ _ _); injection E as <-; eauto.
Qed.
Print Assumptions C84_resolver. Print Assumptions C84_no_dangling.

(** ** When node managers do not disturb each other *)
(** If at each of its allocations the resolver that is set answers from a table
    that answers as its own does, *)
Theorem C84_same_table s k t names l s' m m' : one_configure s k t names l s' m m' ->
  (forall l1 l2 s1, l = l1 ++ HNext k :: l2 -> host_run (HBegin k t names :: l1) s = Some s1 -> served s1 k) -> as_alone t names m m'.
Proof.
  intros (M & R & O & M' & J') D. refine (whole_job k (fun x => served x k) t _ names l s s' m m' M R O D M' J').
  intros x mx name r eps (m2 & f & M2 & Rf & F) Mx _ g. unfold alone. rewrite Rf. assert (m2 = mx) as -> by congruence. apply alloc_in_own, F.
Qed.
(** for instance if it is the one constructed last, whatever the others do
    meanwhile short of being constructed or destroyed, *)
Theorem C84_latest s k t names l s' m m' : one_configure s k t names l s' m m' -> ho_resolver s = Some k -> (forall e, In e l -> sets_resolver e = false) -> as_alone t names m m'.
Proof.
  intros H Q N. apply (C84_same_table s k t names l s' m m' H). intros l1 l2 s1 -> R1. destruct H as (M & _ & O & _).
  assert (Keep : forall l s s' m, manager_at s k = Some m -> ho_resolver s = Some k -> host_run l s = Some s' -> (forall e, In e l -> sets_resolver e = false) -> (exists m', manager_at s' k = Some m') /\ ho_resolver s' = Some k).
  { clear. induction l as [|e l IH]; intros s s' m M Q R N; cbn [host_run] in R; [injection R as <-; eauto|]. destruct (host_step e s) as [s1|] eqn:E; [|discriminate].
    assert (K : (exists m1, manager_at s1 k = Some m1) /\ ho_resolver s1 = Some k).
    { pose proof (N e (or_introl eq_refl)) as Ne. unfold host_step in E. destruct (ho_crashed s); [discriminate|].
      assert (S0 : forall j x, (exists m1, manager_at (set_manager j (Some x) s) k = Some m1) /\ ho_resolver (set_manager j (Some x) s) = Some k).
      { intros j x. split; [|exact Q]. destruct (Nat.eq_dec j k) as [->|Nj]; [exists x; apply set_same, (manager_range _ _ _ M)|exists m; now rewrite set_other]. }
      destruct e as [ne ex nd|j|j t names|j]; try discriminate Ne; (destruct (manager_at s j) as [mj|]; [|discriminate]).
      - destruct (hm_job mj); [discriminate|]. destruct (_ <=? _)%Z; injection E as <-; [apply S0|]. split; [|exact Q]. destruct (S0 j (mkManager (hm_env mj) (hm_ext mj) (clear_services (mkNode t (tc_max_threads t) (nd_peers (hm_node mj)) (nd_engines (hm_node mj)) (nd_next (hm_node mj)) (nd_log (hm_node mj)))) (Some (mkJob names [])) (hm_replies mj))) as ((m1 & K) & _). exists m1. exact K.
      - destruct (hm_job mj) as [[names eps]|]; [|discriminate]. assert (S1 : forall c, (exists m1, manager_at (mkHost (ho_managers s) (ho_resolver s) (ho_threads s) c) k = Some m1) /\ ho_resolver (mkHost (ho_managers s) (ho_resolver s) (ho_threads s) c) = Some k) by (intro c; split; [exists m; exact M|exact Q]).
        destruct names as [|name r]; [injection E as <-; apply S0|]. destruct (_ <? 2); [injection E as <-; apply S1|]. destruct (grid_index_from_name name); [|injection E as <-; apply S1].
        destruct (alloc_in _ _ _ _ _ _ _) as [nd port|nd msg|]; [|injection E as <-; apply S0|injection E as <-; apply S1]. destruct (socket_for_device _ _ _ _); injection E as <-; apply S0. }
    destruct K as ((m1 & M1) & Q1). apply (IH s1 s' m1 M1 Q1 R). intros x I. apply N. right. exact I. }
  destruct (Keep (HBegin k t names :: l1) s s1 m M Q R1) as ((m1 & M1) & Q1). { intros e [<-|I]; [reflexivity|]. apply N, in_app_iff. left. exact I. }
  exists m1, (resolve_alias (tc_options (nd_traffic (hm_node m1)))). split; [exact M1|]. split; [|reflexivity]. unfold resolver_of. rewrite Q1, M1. reflexivity.
Qed.
(** or if no service of it uses an alias, its ConfigureNode ends as if it had a
    process of its own. *)
Theorem C84_plain s k t names l s' m m' : one_configure s k t names l s' m m' ->
  (forall ty o, options_for (tc_services t) (tc_options t) ty (tc_protocol t) (ne_data (hm_env m)) = Some o -> plain (ne_homa (hm_env m)) (ne_mercury (hm_env m)) o) -> as_alone t names m m'.
Proof.
  intros (M & R & O & M' & J') Pl. set (P := fun x => forall mx, manager_at x k = Some mx -> hm_env mx = hm_env m /\ nd_traffic (hm_node mx) = t).
  assert (Al : forall x mx, P x -> manager_at x k = Some mx -> forall name ty g, alone mx name ty g (resolver_of x)).
  { intros x mx Px Mx name ty g. destruct (Px mx Mx) as (E & T). unfold alone, alloc_in, alloc_service. rewrite T, E. destruct (options_for _ _ _ _ _) as [o|] eqn:Of; [|reflexivity]. cbv zeta.
    rewrite (allocate_plain _ _ _ (Pl ty o Of) (resolver_of x) (Some (resolve_alias (tc_options t)))). reflexivity. }
  refine (whole_job k P t _ names l s s' m m' M R O _ M' J'); [intros x mx name r eps Px Mx _ g; exact (Al x mx Px Mx name _ g)|].
  assert (Inv : forall l1 s0 s1, (forall e, In e l1 -> of_manager k e = false) -> P s0 -> (exists m0, manager_at s0 k = Some m0) -> host_run l1 s0 = Some s1 -> P s1).
  { clear -Al. induction l1 as [|e l1 IH]; intros s0 s1 O P0 (m0 & M0) R; cbn [host_run] in R; [injection R as <-; exact P0|]. destruct (host_step e s0) as [s2|] eqn:E; [|discriminate].
    assert (Dec : e = HNext k \/ e <> HNext k). { destruct e as [| | |i]; try (right; discriminate). destruct (Nat.eq_dec i k) as [->|N]; [left; reflexivity|right; congruence]. }
    assert (K : P s2 /\ exists m2, manager_at s2 k = Some m2).
    { destruct Dec as [->|N].
      - destruct (hm_job m0) as [j|] eqn:J0; [|unfold host_step in E; destruct (ho_crashed s0); [discriminate|]; rewrite M0, J0 in E; discriminate].
        destruct (P0 m0 M0) as (Q1 & Q2). pose proof (fun name ty g => Al s0 m0 P0 M0 name ty g) as A0. clear -E M0 J0 Q1 Q2 A0. unfold host_step in E. destruct (ho_crashed s0); [discriminate|]. rewrite M0, J0 in E. destruct j as [names eps].
        pose proof (manager_range _ _ _ M0) as L. assert (F : forall x, hm_env x = hm_env m0 -> nd_traffic (hm_node x) = t -> P (set_manager k (Some x) s0) /\ exists m2, manager_at (set_manager k (Some x) s0) k = Some m2).
        { intros x E1 E2. split; [|exists x; apply set_same, L]. intros mx Mx. rewrite set_same in Mx by exact L. injection Mx as <-. split; congruence. }
        assert (C : forall c, P (mkHost (ho_managers s0) (ho_resolver s0) (ho_threads s0) c) /\ exists m2, manager_at (mkHost (ho_managers s0) (ho_resolver s0) (ho_threads s0) c) k = Some m2).
        { intro c. split; [|exists m0; exact M0]. intros mx Mx. change (manager_at s0 k = Some mx) in Mx. assert (mx = m0) as -> by congruence. auto. }
        destruct names as [|name r]; [injection E as <-; apply F; auto|]. destruct (_ <? 2); [injection E as <-; apply C|]. destruct (grid_index_from_name name) as [g|]; [|injection E as <-; apply C].
        pose proof (A0 name (nth 0 (split_slash name) []) g) as A1. unfold alone in A1. rewrite A1 in E. clear A1. assert (Tr : match alloc_service (hm_env m0) (hm_ext m0) name (nth 0 (split_slash name) []) g (hm_node m0) with AllocDone x _ | AllocFailed x _ => nd_traffic x = nd_traffic (hm_node m0) | AllocCrash => True end).
        { unfold alloc_service. destruct (options_for _ _ _ _ _); [|reflexivity]. cbv zeta. destruct (allocate _ _ _ _ _); try reflexivity; try exact Logic.I. destruct (ex_engine _ _); [|reflexivity]. destruct (map_find _ _); reflexivity. }
        destruct (alloc_service _ _ _ _ _ _) as [nd port|nd msg|]; [|injection E as <-; apply F; cbn; congruence|injection E as <-; apply C]. destruct (socket_for_device _ _ _ _); injection E as <-; apply F; cbn; congruence.
      - pose proof (other_steps e s0 s2 k m0 E M0 (O e (or_introl eq_refl)) N) as M2. split; [|eauto]. intros mx Mx. assert (mx = m0) as -> by congruence. exact (P0 m0 M0). }
    destruct K as (P2 & M2). apply (IH s2 s1 (fun x I => O x (or_intror I)) P2 M2 R). }
  intros l1 l2 s1 -> R1. cbn [host_run] in R1. destruct (host_step (HBegin k t names) s) as [s0|] eqn:E; [|discriminate]. destruct (begin_step s s0 k t names m E M) as (_ & m1 & M1 & E1 & _ & T1 & _).
  apply (Inv l1 s0 s1); [intros e I; apply O, in_app_iff; left; exact I| |eauto|exact R1]. intros mx Mx. assert (mx = m1) as -> by congruence. auto.
Qed.
Print Assumptions C84_same_table. Print Assumptions C84_latest. Print Assumptions C84_plain.

(** ** The thread limit *)
(** is that of the last ConfigureNode that was not refused for it, of any node
    manager of the process. *)
Definition limits (e : hevent) : option Z := match e with HBegin _ t _ => if (tc_max_threads t <=? 0)%Z then None else Some (tc_max_threads t) | _ => None end.
Theorem C84_threads l s : host_run l host0 = Some s ->
  (ho_threads s = 0%Z /\ forall e, In e l -> limits e = None) \/ exists l1 e l2, l = l1 ++ e :: l2 /\ limits e = Some (ho_threads s) /\ forall x, In x l2 -> limits x = None.
Proof.
  revert s. induction l as [|e l IH] using rev_ind; intros s R; [injection R as <-; left; split; [reflexivity|intros x []]|]. rewrite run_app in R. destruct (host_run l host0) as [s0|]; [|discriminate]. specialize (IH s0 eq_refl).
  cbn [host_run] in R. destruct (host_step e s0) as [s1|] eqn:E; [|discriminate]. injection R as <-.
  assert (D : limits e = Some (ho_threads s1) \/ limits e = None /\ ho_threads s1 = ho_threads s0).
  { unfold host_step in E. destruct (ho_crashed s0); [discriminate|]. destruct e as [ne ex nd|j|j t names|j]; cbn [limits].
    - injection E as <-. auto.
    - destruct (manager_at s0 j) as [mj|]; [|discriminate]. destruct (hm_job mj); [discriminate|]. injection E as <-. auto.
    - destruct (manager_at s0 j) as [mj|]; [|discriminate]. destruct (hm_job mj); [discriminate|]. destruct (_ <=? _)%Z; injection E as <-; auto.
    - destruct (manager_at s0 j) as [mj|]; [|discriminate]. destruct (hm_job mj) as [[[|name r] eps]|]; [injection E as <-; auto| |discriminate]. destruct (_ <? 2); [injection E as <-; auto|]. destruct (grid_index_from_name name); [|injection E as <-; auto].
      destruct (alloc_in _ _ _ _ _ _ _) as [nd port|nd msg|]; [|injection E as <-; auto|injection E as <-; auto]. destruct (socket_for_device _ _ _ _); injection E as <-; auto. }
  destruct D as [D|(D & Q)].
  - right. exists l, e, []. split; [reflexivity|]. split; [exact D|]. intros x [].
  - rewrite Q. destruct IH as [(Z0 & N)|(l1 & y & l2 & -> & Y & N)].
    + left. split; [exact Z0|]. intros x I. apply in_app_iff in I as [I|[<-|[]]]; auto.
    + right. exists l1, y, (l2 ++ [e]). split; [rewrite <- app_assoc; reflexivity|]. split; [exact Y|]. intros x I. apply in_app_iff in I as [I|[<-|[]]]; auto.
Qed.
Print Assumptions C84_threads.

(** ** Examples and findings *)
Definition ex_env : node_env := mkNE [mkIf AfInet (Some (s_ "10.0.0.1")) (s_ "eth0")] true (s_ "eth0") (s_ "eth0") (s_ "host") [] false false.
Definition ex_calls : externals := mkExt (fun _ _ _ => None) (fun i => inl (Z.of_nat (5000 + i))) (fun _ => None) (fun _ => None).
Definition ex_node : node := mkNode (mkTraffic 0 [] [] [] []) 0 [] [] 0 [].
(** The service a uses the options "fast", whose protocol is the alias "mine". *)
Definition ex_aliased : traffic :=
  mkTraffic 16 [mkSD (s_ "a") (Some (s_ "fast"))] [mkOpts (Some (s_ "fast")) (Some (s_ "mine")) None [] [] 0; mkOpts (Some (s_ "mine")) (Some (s_ "grpc")) None [] [] 0] (s_ "grpc") [].
(** The same without the alias. *)
Definition ex_unknown : traffic := mkTraffic 16 [mkSD (s_ "a") (Some (s_ "fast"))] [mkOpts (Some (s_ "fast")) (Some (s_ "mine")) None [] [] 0] (s_ "grpc") [].
Definition ex_plain : traffic := mkTraffic 16 [mkSD (s_ "a") (Some (s_ "fast"))] [mkOpts (Some (s_ "fast")) (Some (s_ "grpc")) None [] [] 0] (s_ "grpc") [].
Definition ex_two : list hevent := [HNew ex_env ex_calls ex_node; HNew ex_env ex_calls ex_node].
Definition ex_configure (k : nat) (t : traffic) : list hevent := [HBegin k t [s_ "a/0"]; HNext k; HNext k].
Definition ex_fails (k : nat) (t : traffic) : list hevent := [HBegin k t [s_ "a/0"]; HNext k].
Definition replies (l : list hevent) (k : nat) : option (list reply) :=
  match host_run l host0 with Some s => option_map (fun m => map fst (hm_replies m)) (manager_at s k) | None => None end.
(** What each would reply in a process of its own. *)
Definition reply_alone (t : traffic) : option reply := match configure ex_env ex_calls t [s_ "a/0"] ex_node with Replied _ r _ => Some r | Crashed => None end.
(** The last constructed, configured while the other is: as alone. *)
Example C84_ex_latest : replies (ex_two ++ [HBegin 1 ex_aliased [s_ "a/0"]; HBegin 0 ex_plain [s_ "a/1"]; HNext 1; HNext 0; HNext 1; HNext 0]) 1 = Some [ROk] /\ reply_alone ex_aliased = Some ROk /\
  (forall s, host_run ex_two host0 = Some s -> ho_resolver s = Some 1 /\ ho_threads s = 0%Z).
Proof. split; [vm_compute; reflexivity|]. split; [vm_compute; reflexivity|]. intros s [= <-]. split; reflexivity. Qed.
(** Without aliases: as alone, wherever the resolver leads. *)
Example C84_ex_plain : replies (ex_two ++ ex_configure 0 ex_plain ++ [HDelete 1] ++ ex_configure 0 ex_plain) 0 = Some [ROk; ROk] /\ reply_alone ex_plain = Some ROk /\
  forall ty o, options_for (tc_services ex_plain) (tc_options ex_plain) ty (tc_protocol ex_plain) (ne_data ex_env) = Some o -> plain false false o.
Proof.
  split; [vm_compute; reflexivity|]. split; [vm_compute; reflexivity|]. intros ty o. unfold options_for, ex_plain, options_name. cbn [tc_services sd_name sd_options tc_options tc_protocol].
  destruct (str_eqb (s_ "a") ty); cbn [negb]; vm_compute; intros [= <-]; apply pl_grpc; left; reflexivity.
Qed.
(** Both orders of the ConfigureNode of a test to two node managers: the first
    fails if the one constructed last is not configured yet.  The sequencer sends
    them at the same time, and the two read and write traffic_config_ of the
    latter without a common lock. *)
Theorem C84_order_refuted : exists t, reply_alone t = Some ROk /\
  replies (ex_two ++ ex_configure 1 t ++ ex_configure 0 t) 0 = Some [ROk] /\ replies (ex_two ++ ex_fails 0 t ++ ex_configure 1 t) 0 = Some [RUnknown (s_ "driver")].
Proof. exists ex_aliased. vm_compute. auto. Qed.
(** An alias of an earlier test is used, though the test does not define it. *)
Theorem C84_stale_refuted : exists t0 t, reply_alone t <> Some ROk /\ replies (ex_two ++ ex_configure 1 t0 ++ ex_configure 0 t) 0 = Some [ROk].
Proof. exists ex_aliased, ex_unknown. split; [vm_compute; discriminate|]. vm_compute. reflexivity. Qed.
(** After one node manager is destroyed the others know no aliases, even those
    constructed later than it. *)
Theorem C84_destroyed_refuted : exists t, reply_alone t = Some ROk /\ replies (ex_two ++ [HDelete 0] ++ ex_fails 1 t) 1 = Some [RUnknown (s_ "driver")].
Proof. exists ex_aliased. vm_compute. auto. Qed.
(** The thread limit of one test replaces that of another node manager's. *)
Example C84_ex_threads :
  option_map (fun s => (ho_threads s, option_map (fun m => nd_threshold (hm_node m)) (manager_at s 1)))
    (host_run (ex_two ++ ex_configure 1 ex_plain ++ [HBegin 0 (mkTraffic 3 [] [] (s_ "grpc") []) []; HNext 0] ++ [HBegin 1 (mkTraffic 0 [] [] (s_ "grpc") []) []]) host0) = Some (3%Z, Some 16%Z).
Proof. vm_compute. reflexivity. Qed.
Print Assumptions C84_order_refuted. Print Assumptions C84_stale_refuted. Print Assumptions C84_destroyed_refuted.
