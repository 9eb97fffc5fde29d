(** C44: a driver allocation always terminates and yields a tree of bounded
    size, whatever the aliases are.  C45: double barrels divide RPCs evenly.
    C63: the composable RPC counter counts exactly. *)
From Coq Require Import Ascii String List NArith ZArith Bool Arith Lia.
From Verif Require Import Base_Model Base_Proofs Util_Model Driver_Model Driver_Proofs.
Import ListNotations.
Open Scope nat_scope.

(** ** C44 *)
(** For every option record, resolver (cyclic ones included) and outcome of the
    leaves' Initialize: five levels of recursion always suffice. *)
Theorem C44_terminates ev o path fuel : 5 <= fuel ->
  allocate fuel ev o 0 path <> DrvDiverges /\ allocate fuel ev o 0 path = allocate 5 ev o 0 path.
Proof.
  intro L. assert (N : allocate 5 ev o 0 path <> DrvDiverges) by (apply allocate_terminates; unfold max_depth; lia).
  rewrite (allocate_fuel ev 5 fuel) by assumption. auto.
Qed.
(** The number of nested drivers and of transport drivers is bounded. *)
Theorem C44_size ev o d fuel path : allocate fuel ev o 0 path = DrvOk d -> height d <= 4 /\ leaf_count d <= 8.
Proof.
  intro H. pose proof (allocate_height _ _ _ _ _ _ H (Nat.le_0_l _)) as B. unfold max_depth in B. split; [lia|].
  pose proof (leaf_count_pow d). assert (2 ^ height d <= 2 ^ 4) by (apply Nat.pow_le_mono_r; lia). cbn in *. lia.
Qed.
(** Names that are resolved to each other for ever are reported as an error. *)
Theorem C44_cycle ev res o (S : str -> Prop) path fuel : ev_resolver ev = Some res ->
  (forall p, S p -> builtin ev p = false /\ exists o', res p = Some o' /\ S (protocol_name o')) ->
  S (protocol_name o) -> 5 <= fuel -> allocate fuel ev o 0 path = DrvError EDepth.
Proof.
  intros R C H L.
  assert (K : forall n o depth, S (protocol_name o) -> depth + n = max_depth -> n < fuel ->
              allocate fuel ev o depth path = DrvError EDepth \/ allocate (1 + n) ev o depth path = DrvError EDepth).
  { induction n as [|n IH]; intros o' depth So E F.
    - right. cbn [allocate Nat.add]. replace (depth =? max_depth) with true; [reflexivity|]. symmetry. apply Nat.eqb_eq. lia.
    - right. destruct (C _ So) as (B & o2 & R2 & S2). change (1 + Datatypes.S n) with (Datatypes.S (1 + n)).
      rewrite (allocate_alias ev (1 + n) res o' depth path) by (try assumption; lia). rewrite R2.
      destruct (IH o2 (depth + 1) S2 ltac:(lia) ltac:(lia)) as [A|A]; [|exact A].
      destruct (C44_terminates ev o path fuel L) as [_ _].
      pose proof (allocate_terminates ev (1 + n) o2 (depth + 1) path ltac:(lia) ltac:(lia)) as T.
      rewrite <- (allocate_fuel ev (1 + n) fuel o2 (depth + 1) path); [exact A|lia|exact T]. }
  destruct (K 4 o 0 H eq_refl ltac:(lia)) as [A|A]; [exact A|].
  destruct (C44_terminates ev o path fuel L) as [_ ->]. exact A.
Qed.
(** [aliases ev res n o o']: [n] alias lookups lead from [o] to [o']. *)
Inductive aliases (ev : alloc_env) (res : str -> option driver_opts) : nat -> driver_opts -> driver_opts -> Prop :=
  | aliases_0 o : aliases ev res 0 o o
  | aliases_S n o o1 o2 : builtin ev (protocol_name o) = false -> res (protocol_name o) = Some o1 ->
      aliases ev res n o1 o2 -> aliases ev res (S n) o o2.
(** Up to three lookups reach the last options, which replace the others
    entirely; four are too many. *)
Theorem C44_alias_chain ev res n o o' path fuel : ev_resolver ev = Some res -> aliases ev res n o o' ->
  protocol_name o' = s_ "grpc" -> 5 <= fuel ->
  allocate fuel ev o 0 path =
  if n <? 4 then match ev_init ev path o' with None => DrvOk (DGrpc o') | Some m => DrvError (EInit m) end
  else DrvError EDepth.
Proof.
  intros R A P L. destruct (C44_terminates ev o path fuel L) as [_ ->].
  assert (K : forall n o k, aliases ev res n o o' -> k <= 4 ->
    allocate (S k) ev o (4 - k) path =
    if n <? k then match ev_init ev path o' with None => DrvOk (DGrpc o') | Some m => DrvError (EInit m) end else DrvError EDepth).
  { clear -R P. intros n o k A. revert k. induction A as [o|n o o1 o2 B E A IH]; intros k Lk.
    - destruct k as [|k]; [reflexivity|]. cbn [allocate]. destruct (Nat.eqb_spec (4 - S k) max_depth) as [K|_]; [unfold max_depth in K; lia|].
      cbv zeta. rewrite P. cbn [orb]. rewrite str_eqb_refl. reflexivity.
    - destruct k as [|k]; [reflexivity|].
      rewrite (allocate_alias ev (S k) res o _ path) by (try assumption; unfold max_depth; lia). rewrite E.
      replace (4 - S k + 1) with (4 - k) by lia. rewrite (IH P) by lia. reflexivity. }
  exact (K n o 4 A (le_n 4)).
Qed.
Theorem C44_unresolved ev o path fuel : builtin ev (protocol_name o) = false -> 1 <= fuel ->
  (forall res, ev_resolver ev = Some res -> res (protocol_name o) = None) ->
  allocate fuel ev o 0 path =
  DrvError (match ev_resolver ev with None => ENoResolver | Some _ => EUnresolved (protocol_name o) end).
Proof.
  intros B L N. destruct fuel as [|f]; [lia|]. destruct (ev_resolver ev) as [res|] eqn:R.
  - rewrite (allocate_alias ev f res o 0 path) by (try assumption; discriminate). rewrite N by reflexivity. reflexivity.
  - cbn [allocate]. change (0 =? max_depth) with false. cbv zeta.
    unfold builtin in B. repeat (apply orb_false_elim in B; destruct B as [B ?K]).
    rewrite B, K3, K2, K1, K0, K, R. reflexivity.
Qed.
(** A composite driver that names no inner driver contains itself: reported. *)
Theorem C44_no_inner ev o path fuel : 5 <= fuel ->
  (protocol_name o = s_ "double_barrel" /\ Forall (fun s => opt_str (st_name s) <> s_ "next_protocol_driver") (po_server o)
   \/ protocol_name o = s_ "composable_rpc_counter" /\ Forall (fun s => opt_str (st_name s) <> s_ "driver_under_test") (po_server o)) ->
  allocate fuel ev o 0 path = DrvError EDepth.
Proof.
  intros L H. destruct (C44_terminates ev o path fuel L) as [_ ->].
  assert (N : forall k, Forall (fun s => opt_str (st_name s) <> k) (po_server o) -> next_opts k o = o).
  { intros k F. unfold next_opts. pose proof (last_with_spec k (po_server o)) as K.
    destruct (last_with k (po_server o)) as [[[a x] b]|]; [|reflexivity]. destruct K as (E & K & _).
    rewrite Forall_forall in F. exfalso. apply (F x); [|exact K]. rewrite E. apply in_elt. }
  assert (K : forall k path, k <= 4 -> allocate (S k) ev o (4 - k) path = DrvError EDepth).
  { induction k as [|k IH]; intros q Lk; [reflexivity|].
    remember (S k) as k1. cbn [allocate]. destruct (Nat.eqb_spec (4 - k1) max_depth) as [K|_]; [unfold max_depth in K; lia|].
    cbv zeta. destruct H as [[P F]|[P F]]; rewrite P, (N _ F); subst k1; replace (4 - S k + 1) with (4 - k) by lia; rewrite !IH by lia; reflexivity. }
  exact (K 4 path (le_n 4)).
Qed.
(** A double barrel allocates the inner driver twice, with the same options:
    those of the double barrel, with the inner protocol and without the setting
    that named it. *)
Theorem C44_inner ev o x a b path fuel : 5 <= fuel ->
  protocol_name o = s_ "double_barrel" -> po_server o = a ++ x :: b ->
  st_name x = Some (s_ "next_protocol_driver") -> st_str x = Some (s_ "grpc") ->
  Forall (fun s => opt_str (st_name s) <> s_ "next_protocol_driver") b ->
  (forall q o', ev_init ev q o' = None) ->
  allocate fuel ev o 0 path =
  let o' := mkOpts (po_name o) (Some (s_ "grpc")) (po_netdev o) (a ++ b) (po_client o) (po_ip_version o) in
  DrvOk (DDouble (DGrpc o') (DGrpc o')).
Proof.
  intros L P S N V F I. destruct (C44_terminates ev o path fuel L) as [_ ->].
  assert (E : next_opts (s_ "next_protocol_driver") o =
              mkOpts (po_name o) (Some (s_ "grpc")) (po_netdev o) (a ++ b) (po_client o) (po_ip_version o)).
  { unfold next_opts. assert (Lw : last_with (s_ "next_protocol_driver") (po_server o) = Some (a, x, b)).
    { rewrite S. clear -N F. assert (Nb : last_with (s_ "next_protocol_driver") b = None).
      { pose proof (last_with_spec (s_ "next_protocol_driver") b) as K.
        destruct (last_with _ b) as [[[c y] d]|]; [|reflexivity]. destruct K as (E & K & _).
        rewrite Forall_forall in F. exfalso. apply (F y); [rewrite E; apply in_elt|exact K]. }
      induction a as [|y a IH]; cbn [app last_with]; [|rewrite IH; reflexivity].
      rewrite Nb, N. cbn [opt_str]. rewrite str_eqb_refl. reflexivity. }
    rewrite Lw, V. reflexivity. }
  rewrite (allocate_double ev 4 o 0 path) by (discriminate || exact P). rewrite E.
  rewrite !(allocate_grpc ev 3) by (discriminate || reflexivity). unfold leaf. rewrite !I. reflexivity.
Qed.
(** The options of a service: the first table entry of the configured name, with
    only the unset protocol and device filled in. *)
Theorem C44_service_options services table ty dp dev s pre post o : services = pre ++ s :: post ->
  sd_name s = ty -> Forall (fun x => sd_name x <> ty) (pre ++ post) ->
  forall n, sd_options s = Some n -> n <> [] ->
  forall t1 t2, table = t1 ++ o :: t2 -> po_name o = Some n -> Forall (fun x => opt_str (po_name x) <> n) t1 ->
  exists o', options_for services table ty dp dev = Some o' /\
    po_name o' = Some n /\ po_server o' = po_server o /\ po_client o' = po_client o /\ po_ip_version o' = po_ip_version o /\
    po_protocol o' = Some (match po_protocol o with Some p => p | None => dp end) /\
    po_netdev o' = Some (match po_netdev o with Some p => p | None => dev end).
Proof.
  intros -> E F n O N t1 t2 -> P T.
  assert (A : forall l cur, Forall (fun x => sd_name x <> ty) l -> options_name l ty cur = Some cur).
  { induction l as [|x l IH]; intros cur K; [reflexivity|]. inversion K; subst. cbn [options_name].
    destruct (str_eqb_spec (sd_name x) (sd_name s)); [congruence|]. apply IH; assumption. }
  apply Forall_app in F. destruct F as [F1 F2].
  assert (B : options_name (pre ++ s :: post) ty [] = Some n).
  { clear -A F1 F2 E O N. induction pre as [|x l IH]; cbn [app options_name].
    - rewrite E, str_eqb_refl, O. cbn [negb]. destruct n; [congruence|]. apply A, F2.
    - inversion F1; subst. destruct (str_eqb_spec (sd_name x) (sd_name s)); [congruence|]. apply IH; assumption. }
  assert (C : resolve_alias (t1 ++ o :: t2) n = Some o).
  { clear -P T N. induction T as [|x l Hx _ IH]; cbn [app resolve_alias].
    - rewrite P. cbn [opt_str]. rewrite str_eqb_refl. reflexivity.
    - destruct (str_eqb_spec (opt_str (po_name x)) n); [congruence|]. cbn [orb]. destruct n; [congruence|]. exact IH. }
  unfold options_for. rewrite B, C. destruct n as [|n0 n1]; [congruence|].
  destruct o as [nm pr nd sv cl ip]. cbn [po_name] in P. subst nm. cbn [po_protocol po_server po_client po_ip_version po_netdev].
  destruct pr, nd; eexists; (split; [reflexivity|]); cbn; auto 10.
Qed.
(** Without configured options the table entry called
    default_protocol_driver_options (or the one without a name) is used, and
    otherwise the default protocol. *)
Theorem C44_default_options services table ty dp dev :
  Forall (fun x => sd_name x = ty -> sd_options x = None) services ->
  Forall (fun x => opt_str (po_name x) <> [] /\ opt_str (po_name x) <> s_ "default_protocol_driver_options") table ->
  options_for services table ty dp dev = Some (mkOpts (Some (s_ "generated_default")) (Some dp) (Some dev) [] [] 0%Z).
Proof.
  intros F T. unfold options_for.
  assert (A : options_name services ty [] = Some []).
  { induction F as [|x l Hx _ IH]; [reflexivity|]. cbn [options_name]. destruct (str_eqb_spec (sd_name x) ty) as [E|]; [|exact IH].
    rewrite (Hx E). exact IH. }
  assert (B : resolve_alias table [] = None).
  { clear -T. induction T as [|x l (H1 & H2) _ IH]; [reflexivity|]. cbn [resolve_alias].
    destruct (str_eqb_spec (opt_str (po_name x)) []); [congruence|].
    destruct (str_eqb_spec (opt_str (po_name x)) (s_ "default_protocol_driver_options")); [congruence|]. exact IH. }
  rewrite A, B. reflexivity.
Qed.
Theorem C44_empty_name_rejected services table ty dp dev s pre post : services = pre ++ s :: post ->
  sd_name s = ty -> sd_options s = Some [] -> options_for services table ty dp dev = None.
Proof.
  intros -> E O. unfold options_for. enough (A : forall cur, options_name (pre ++ s :: post) ty cur = None) by (rewrite A; reflexivity).
  induction pre as [|x l IH]; intro cur; cbn [app options_name].
  - rewrite E, str_eqb_refl, O. reflexivity.
  - destruct (negb _); [apply IH|]. destruct (sd_options x) as [[|]|]; auto.
Qed.
(** Findings: naming options that do not exist is accepted silently, and
    resolving an alias loses the device chosen for the service. *)
Theorem C44_unknown_options_rejected_refuted :
  exists services table ty dp dev, Forall (fun s => sd_options s = Some (s_ "no_such_options")) services /\
    Forall (fun o => po_name o <> Some (s_ "no_such_options")) table /\
    options_for services table ty dp dev = Some (mkOpts None (Some (s_ "grpc")) (Some (s_ "eth0")) [] [] 0%Z).
Proof.
  exists [mkSD (s_ "client") (Some (s_ "no_such_options"))], [mkOpts (Some (s_ "homa_opts")) (Some (s_ "homa")) None [] [] 4%Z],
    (s_ "client"), (s_ "grpc"), (s_ "eth0").
  split; [repeat constructor|]. split; [|reflexivity]. constructor; [discriminate|constructor].
Qed.
Theorem C44_alias_keeps_device_refuted :
  exists services table ev o o', ev_resolver ev = Some (resolve_alias table) /\
    options_for services table (s_ "client") (s_ "grpc") (s_ "eth0") = Some o /\ po_netdev o = Some (s_ "eth0") /\
    allocate 5 ev o 0 [] = DrvOk (DGrpc o') /\ po_netdev o' = None.
Proof.
  pose (table := [mkOpts (Some (s_ "a")) (Some (s_ "b")) None [] [] 0%Z; mkOpts (Some (s_ "b")) (Some (s_ "grpc")) None [] [] 0%Z]).
  exists [mkSD (s_ "client") (Some (s_ "a"))], table, (mkEnv false false (Some (resolve_alias table)) (fun _ _ => None)).
  eexists. eexists. split; [reflexivity|]. split; [reflexivity|]. split; [reflexivity|]. split; reflexivity.
Qed.

(** ** C45 *)
(** At any point of any interleaving of concurrent calls: the RPCs sent to
    instance 1 of a double barrel (received by its transports or still inside)
    exceed those sent to instance 2 by zero or one. *)
Theorem C45_alternates d1 d2 acts s c t1 t2 : sys_run (mkSys (fresh (DDouble d1 d2)) []) acts = Some s ->
  sy_tree s = TDouble c t1 t2 ->
  let sent i t := leaves t + count (fun x => match x with CDown (j :: _) => j =? i | _ => false end) (sy_calls s) in
  sent 1 t1 = sent 2 t2 \/ sent 1 t1 = S (sent 2 t2).
Proof.
  intros R E sent. pose proof (good_inv _ (good_run _ _ _ (good_start _) R)) as I. rewrite E in I. cbn [inv app] in I.
  destruct I as (B & _).
  assert (K : forall i, count (is_down [i]) (sy_calls s)
                        = count (fun x => match x with CDown (j :: _) => j =? i | _ => false end) (sy_calls s)).
  { intro i. unfold count. f_equal. apply filter_ext. intros [[|j q]|q|]; try reflexivity.
    cbn [is_down prefix]. rewrite andb_true_r. apply Nat.eqb_sym. }
  rewrite !K in B. unfold balanced in B. destruct (Z.odd c); auto.
Qed.
(** Once all calls have returned, every double barrel of the tree has passed
    half of what it was given to each instance (instance 1 gets the odd one),
    every counter has counted what passed through it, and every transport
    driver has received its share. *)
Theorem C45_shares d acts s : sys_run (mkSys (fresh d) []) acts = Some s -> Forall (eq CDone) (sy_calls s) ->
  shares (length (sy_calls s)) (sy_tree s).
Proof. intros R F. apply good_done; [exact (good_run _ _ _ (good_start _) R)|exact F]. Qed.
(** For any driver tree that can be allocated: after [n] RPCs each of the [2^h]
    transport drivers has received [n / 2^h], rounded up or down. *)
Theorem C45_even fuel ev o path d acts s : allocate fuel ev o 0 path = DrvOk d ->
  sys_run (mkSys (fresh d) []) acts = Some s -> Forall (eq CDone) (sy_calls s) ->
  exists h, forall k, In k (leaf_counts (sy_tree s)) ->
    length (sy_calls s) < (k + 1) * 2 ^ h /\ k * 2 ^ h < length (sy_calls s) + 2 ^ h.
Proof.
  intros A R F. destruct (allocate_even _ _ _ _ _ _ A) as (h & E). exists h.
  pose proof (C45_shares _ _ _ R F) as S. apply Forall_forall. apply shares_even; [|exact S].
  eapply even_same; [exact (run_shape _ _ _ R)|]. apply even_fresh, E.
Qed.
Theorem C45_differ_by_one fuel ev o path d acts s : allocate fuel ev o 0 path = DrvOk d ->
  sys_run (mkSys (fresh d) []) acts = Some s -> Forall (eq CDone) (sy_calls s) ->
  forall k k', In k (leaf_counts (sy_tree s)) -> In k' (leaf_counts (sy_tree s)) -> k <= S k'.
Proof.
  intros A R F k k' I I'. destruct (C45_even _ _ _ _ _ _ _ A R F) as (h & K).
  destruct (K _ I) as [_ U], (K _ I') as [Lo _]. remember (2 ^ h) as P. nia.
Qed.
(** No call ever gets stuck, and each is finished after at most twice the
    height of the tree in steps. *)
Theorem C45_never_stuck d acts s i c : sys_run (mkSys (fresh d) []) acts = Some s ->
  nth_error (sy_calls s) i = Some c -> c <> CDone -> exists s', sys_step s (AStep i) = Some s'.
Proof.
  intros R N Nd. pose proof (good_run _ _ _ (good_start _) R) as G. pose proof (nth_Forall _ _ _ _ (good_valid _ G) N) as V.
  destruct (call_progress _ _ V Nd) as (t' & c' & C & _). cbn [sys_step]. rewrite N, C. eauto.
Qed.
Lemma theight_fresh d : theight (fresh d) = height d.
Proof. induction d; cbn [fresh theight height]; congruence. Qed.
Theorem C45_finishes d acts s : sys_run (mkSys (fresh d) []) acts = Some s ->
  count is_step acts <= 2 * height d * count is_new acts.
Proof.
  intro R. destruct (run_bounded _ _ _ (height d) (good_start d) (eq_sym (theight_fresh d)) R) as (B & _).
  cbn [sy_calls total fold_right] in B. lia.
Qed.
(** The server a double barrel announces is a transport reached through first
    instances only. *)
Theorem C45_server t : (exists n, node_at (server_leaf t) t = Some (TLeaf n)) /\ Forall (eq 1) (server_leaf t).
Proof. split; [apply server_leaf_node|apply server_leaf_ones]. Qed.

(** ** C63 *)
(** The client counter: exactly the RPCs whose InitiateRpc has returned. *)
Theorem C63_client d acts s a b t : sys_run (mkSys (fresh (DCounter d)) []) acts = Some s -> sy_tree s = TCounter a b t ->
  (a + Z.of_nat (count (fun x => match x with CDown _ | CUp (_ :: _) => true | _ => false end) (sy_calls s))
   = Z.of_nat (length (sy_calls s)))%Z.
Proof.
  intros R E. pose proof (good_run _ _ _ (good_start _) R) as G. destruct G as [I T V]. rewrite E in I, T, V.
  cbn [inv app leaves] in I, T. destruct I as [I _].
  enough (K : count (fun x => match x with CDown _ | CUp (_ :: _) => true | _ => false end) (sy_calls s)
              = count (is_up [1]) (sy_calls s) + count (is_down []) (sy_calls s)) by lia.
  clear -V. induction V as [|x l Hx _ IH]; [reflexivity|]. unfold count in *. cbn [filter].
  destruct x as [q|[|j q]|]; cbn [is_up is_down prefix length]; try lia.
  cbn [valid_call node_at] in Hx. destruct (Nat.eqb_spec j 1) as [->|]; [|congruence]. cbn [Nat.eqb andb length]. lia.
Qed.
(** The server counter: exactly the RPCs that arrived at a transport below. *)
Theorem C63_server arrivals t t' q a b c : arrive_all arrivals t = Some t' -> node_at q t = Some (TCounter a b c) ->
  exists c', node_at q t' = Some (TCounter a (b + Z.of_nat (count (prefix q) arrivals)) c').
Proof. apply arrive_all_node. Qed.
(** Both appear in the transport statistics, after those of the driver under
    test, which are passed on; a double barrel passes everything on under its
    instance's name. *)
Theorem C63_statistics ls path t :
  match t with
  | TCounter a b t1 => stats ls path t = stats ls (path ++ [1]) t1 ++ [(s_ "client_rpc_cnt", a); (s_ "server_rpc_cnt", b)]
  | TDouble _ t1 t2 =>
      (forall n v, In (n, v) (stats ls path t) <->
        (exists m, n = s_ "instance_1/" ++ m /\ In (m, v) (stats ls (path ++ [1]) t1))
        \/ (exists m, n = s_ "instance_2/" ++ m /\ In (m, v) (stats ls (path ++ [2]) t2)))
      /\ length (stats ls path t) = length (stats ls (path ++ [1]) t1) + length (stats ls (path ++ [2]) t2)
  | TLeaf _ => stats ls path t = ls path
  end.
Proof.
  destruct t as [n|c t1 t2|a b t1]; cbn [stats]; [reflexivity| |reflexivity]. split.
  - intros n v. rewrite in_app_iff, !in_map_iff. split.
    + intros [([m w] & E & I)|([m w] & E & I)]; cbn [fst snd] in E;
        pose proof (f_equal fst E) as E1; pose proof (f_equal snd E) as E2; cbn [fst snd] in E1, E2; subst w;
        [left|right]; exists m; auto.
    + intros [(m & -> & I)|(m & -> & I)]; [left|right]; exists (m, v); auto.
  - rewrite app_length, !map_length. reflexivity.
Qed.

(** ** Examples *)
Definition ex_str (a : str) (b : str) : setting := mkSet (Some a) (Some b) None.
Definition ex_table : list driver_opts :=
  [mkOpts (Some (s_ "loop")) (Some (s_ "loop2")) None [] [] 0%Z; mkOpts (Some (s_ "loop2")) (Some (s_ "loop")) None [] [] 0%Z;
   mkOpts (Some (s_ "fast")) (Some (s_ "double_barrel")) None
     [ex_str (s_ "next_protocol_driver") (s_ "faster")] [] 0%Z;
   mkOpts (Some (s_ "faster")) (Some (s_ "composable_rpc_counter")) None
     [ex_str (s_ "driver_under_test") (s_ "grpc"); ex_str (s_ "x") (s_ "y")] [] 0%Z].
Definition ex_env : alloc_env := mkEnv false false (Some (resolve_alias ex_table)) (fun _ _ => None).
Definition ex_opts (p : str) : driver_opts := mkOpts None (Some p) None [] [] 0%Z.
Example C44_cycle_example : allocate 9 ex_env (ex_opts (s_ "loop")) 0 [] = DrvError EDepth.
Proof.
  apply (C44_cycle _ (resolve_alias ex_table) _ (fun p => p = s_ "loop" \/ p = s_ "loop2")); [reflexivity| |left; reflexivity|lia].
  intros p [-> | ->]; (split; [reflexivity|]); eexists; split; try reflexivity; cbv; auto.
Qed.
(** Names given after [next_protocol_driver] are aliases too; here the tree
    needs five levels and is rejected. *)
Example C44_terminates_example : allocate 5 ex_env (ex_opts (s_ "fast")) 0 [] = DrvError EDepth
  /\ exists d, allocate 5 ex_env (ex_opts (s_ "faster")) 0 [] = DrvOk d /\ height d = 2.
Proof. split; [vm_compute; reflexivity|]. eexists. split; vm_compute; reflexivity. Qed.
Definition ex_double : driver_opts :=
  mkOpts None (Some (s_ "double_barrel")) (Some (s_ "eth1"))
    [ex_str (s_ "next_protocol_driver") (s_ "double_barrel"); ex_str (s_ "x") (s_ "y"); ex_str (s_ "next_protocol_driver") (s_ "grpc")] [] 0%Z.
Example C44_inner_example : exists d, allocate 5 ex_env ex_double 0 [] = DrvOk d /\ leaf_count d = 2 /\
  d = DDouble (DGrpc (mkOpts None (Some (s_ "grpc")) (Some (s_ "eth1"))
                [ex_str (s_ "next_protocol_driver") (s_ "double_barrel"); ex_str (s_ "x") (s_ "y")] [] 0%Z))
              (DGrpc (mkOpts None (Some (s_ "grpc")) (Some (s_ "eth1"))
                [ex_str (s_ "next_protocol_driver") (s_ "double_barrel"); ex_str (s_ "x") (s_ "y")] [] 0%Z)).
Proof. eexists. split; [|split; [|reflexivity]]; vm_compute; reflexivity. Qed.
(** Repeated names make nested double barrels. *)
Definition ex_nested : driver_opts :=
  mkOpts None (Some (s_ "double_barrel")) None
    [ex_str (s_ "next_protocol_driver") (s_ "grpc"); ex_str (s_ "next_protocol_driver") (s_ "double_barrel")] [] 0%Z.
Example C44_size_example : exists d, allocate 5 ex_env ex_nested 0 [] = DrvOk d /\ height d = 3 /\ leaf_count d = 4.
Proof. eexists. split; [|split]; vm_compute; reflexivity. Qed.
Example C44_alias_chain_example : allocate 7 (mkEnv false false
    (Some (resolve_alias [mkOpts (Some (s_ "a")) (Some (s_ "b")) (Some (s_ "e")) [] [] 4%Z;
                          mkOpts (Some (s_ "b")) (Some (s_ "grpc")) None [] [] 6%Z])) (fun _ _ => None)) (ex_opts (s_ "a")) 0 []
  = DrvOk (DGrpc (mkOpts (Some (s_ "b")) (Some (s_ "grpc")) None [] [] 6%Z)).
Proof. vm_compute. reflexivity. Qed.
Example C44_unresolved_example : allocate 5 ex_env (ex_opts (s_ "grpcc")) 0 [] = DrvError (EUnresolved (s_ "grpcc"))
  /\ allocate 5 (mkEnv true true None (fun _ _ => None)) (ex_opts (s_ "grpcc")) 0 [] = DrvError ENoResolver.
Proof. split; vm_compute; reflexivity. Qed.
Example C44_no_inner_example : allocate 5 ex_env (ex_opts (s_ "double_barrel")) 0 [] = DrvError EDepth.
Proof. vm_compute. reflexivity. Qed.
Example C44_service_options_example :
  options_for [mkSD (s_ "server") None; mkSD (s_ "client") (Some (s_ "o"))]
    [mkOpts (Some (s_ "o")) None (Some (s_ "eth7")) [ex_str (s_ "x") (s_ "y")] [] 6%Z; mkOpts (Some (s_ "o")) (Some (s_ "homa")) None [] [] 4%Z]
    (s_ "client") (s_ "grpc") (s_ "eth0")
  = Some (mkOpts (Some (s_ "o")) (Some (s_ "grpc")) (Some (s_ "eth7")) [ex_str (s_ "x") (s_ "y")] [] 6%Z).
Proof. vm_compute. reflexivity. Qed.
Example C44_default_options_example :
  options_for [mkSD (s_ "server") (Some (s_ "o")); mkSD (s_ "client") None] [mkOpts (Some (s_ "o")) (Some (s_ "homa")) None [] [] 4%Z]
    (s_ "client") (s_ "grpc") (s_ "eth0") = Some (mkOpts (Some (s_ "generated_default")) (Some (s_ "grpc")) (Some (s_ "eth0")) [] [] 0%Z)
  /\ options_for [] [mkOpts (Some (s_ "default_protocol_driver_options")) (Some (s_ "homa")) None [] [] 4%Z]
    (s_ "client") (s_ "grpc") (s_ "eth0") = Some (mkOpts (Some (s_ "generated_default")) (Some (s_ "homa")) (Some (s_ "eth0")) [] [] 4%Z).
Proof. split; vm_compute; reflexivity. Qed.
Example C44_empty_name_rejected_example :
  options_for [mkSD (s_ "client") (Some (s_ "o")); mkSD (s_ "client") (Some [])] [] (s_ "client") (s_ "grpc") (s_ "eth0") = None.
Proof. reflexivity. Qed.
(** Three overlapping calls on a counter over two double barrels. *)
Definition ex_tree : driver := DCounter (DDouble (DDouble (DGrpc empty_opts) (DGrpc empty_opts)) (DDouble (DGrpc empty_opts) (DGrpc empty_opts))).
Definition ex_acts : list action :=
  [ANew; ANew; AStep 0; AStep 1; AStep 1; ANew; AStep 0; AStep 2; AStep 2; AStep 2; AStep 2].
Definition ex_rest : list action :=
  [AStep 2; AStep 2; AStep 2; AStep 2] ++ concat (repeat [AStep 0; AStep 1] 6).
Example C45_alternates_example : exists s, sys_run (mkSys (fresh (DDouble (DGrpc empty_opts) (DGrpc empty_opts))) [])
    [ANew; ANew; ANew; AStep 2; AStep 0; AStep 1; AStep 1; AStep 1] = Some s /\
  exists c t1 t2, sy_tree s = TDouble c t1 t2 /\ (leaves t1, leaves t2) = (1, 0) /\ nth_error (sy_calls s) 0 = Some (CDown [2]).
Proof. eexists. split; [vm_compute; reflexivity|]. do 3 eexists. split; [reflexivity|]. split; reflexivity. Qed.
Example C45_shares_example : exists s, sys_run (mkSys (fresh ex_tree) []) (ex_acts ++ ex_rest) = Some s /\
  Forall (eq CDone) (sy_calls s) /\ leaf_counts (sy_tree s) = [1; 1; 1; 0] /\ length (sy_calls s) = 3.
Proof. eexists. split; [vm_compute; reflexivity|]. split; [repeat constructor|]. split; reflexivity. Qed.
Example C45_even_example : exists d s, allocate 5 ex_env ex_nested 0 [] = DrvOk d /\
  sys_run (mkSys (fresh d) []) (concat (map (fun i => ANew :: repeat (AStep i) 6) (seq 0 5))) = Some s /\
  Forall (eq CDone) (sy_calls s) /\ leaf_counts (sy_tree s) = [2; 1; 1; 1].
Proof. do 2 eexists. split; [vm_compute; reflexivity|]. split; [vm_compute; reflexivity|]. split; [repeat constructor|reflexivity]. Qed.
Example C63_client_example : exists s b t, sys_run (mkSys (fresh ex_tree) []) (ex_acts ++ [AStep 2; AStep 2; AStep 2]) = Some s /\
  sy_tree s = TCounter 1 b t /\ length (sy_calls s) = 3.
Proof. do 3 eexists. split; [vm_compute; reflexivity|]. split; reflexivity. Qed.
Example C63_server_example : exists t, arrive_all [[1; 1; 2]; [1; 2; 1]] (fresh ex_tree) = Some t /\
  exists c, node_at [] t = Some (TCounter 0 2 c).
Proof. eexists. split; [vm_compute; reflexivity|]. eexists. reflexivity. Qed.
Example C63_statistics_example :
  stats (fun p => [(s_ "sent", Z.of_nat (length p))]) [] (TDouble 1 (TCounter 3 4 (TLeaf 3)) (TLeaf 2))
  = [(s_ "instance_1/sent", 2%Z); (s_ "instance_1/client_rpc_cnt", 3%Z); (s_ "instance_1/server_rpc_cnt", 4%Z); (s_ "instance_2/sent", 1%Z)].
Proof. reflexivity. Qed.

Print Assumptions C44_terminates.
Print Assumptions C44_size.
Print Assumptions C44_cycle.
Print Assumptions C44_alias_chain.
Print Assumptions C44_unresolved.
Print Assumptions C44_no_inner.
Print Assumptions C44_inner.
Print Assumptions C44_service_options.
Print Assumptions C44_default_options.
Print Assumptions C44_empty_name_rejected.
Print Assumptions C44_unknown_options_rejected_refuted.
Print Assumptions C44_alias_keeps_device_refuted.
Print Assumptions C45_alternates.
Print Assumptions C45_shares.
Print Assumptions C45_even.
Print Assumptions C45_differ_by_one.
Print Assumptions C45_never_stuck.
Print Assumptions C45_finishes.
Print Assumptions C45_server.
Print Assumptions C63_client.
Print Assumptions C63_server.
Print Assumptions C63_statistics.
