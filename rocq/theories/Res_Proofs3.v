(** Lemmas for Res_Props.v: whole lives. *)
From Coq Require Import Ascii String List NArith ZArith Bool Arith Lia.
From Verif Require Import Base_Model Util_Model Net_Model Pool_Model Driver_Model Grpc_Model Conn_Model Res_Model Res_Proofs Res_Proofs2.
Import ListNotations.
Open Scope nat_scope.

(** ** Homa *)
(** [m_sbuf] and [m_sthreads] after a call. *)
Lemma hshut_server_buf m : m_sthreads (snd (hshut_server m)) = m_sthreads m /\ (m_sthreads m = 0 -> m_sbuf (snd (hshut_server m)) = m_sbuf m).
Proof. unfold hshut_server. destruct (m_sdown m); cbn [snd m_sthreads m_sbuf]; [auto|]. split; [reflexivity|]. intros ->. reflexivity. Qed.
Lemma hcalls_buf l : forall m, m_sthreads (snd (homa_calls l m)) = m_sthreads m /\ (m_sthreads m = 0 -> m_sbuf (snd (homa_calls l m)) = m_sbuf m).
Proof.
  induction l as [|c l IH]; intros m; cbn [homa_calls]; [auto|].
  assert (K : let r := match c with CallServer => hshut_server m | CallClient => hshut_client m end in m_sthreads (snd r) = m_sthreads m /\ (m_sthreads m = 0 -> m_sbuf (snd r) = m_sbuf m)).
  { cbv zeta. destruct c; [apply hshut_server_buf|]. unfold hshut_client. destruct (m_cdown m); auto. }
  destruct (match c with CallServer => hshut_server m | CallClient => hshut_client m end) as [e1 m1]. cbv zeta in K. cbn [snd] in K. destruct K as [K1 K2]. specialize (IH m1). destruct (homa_calls l m1) as [e2 m2]. cbn [snd] in *.
  destruct IH as [I1 I2]. split; [congruence|]. intros Z. rewrite I2 by congruence. auto.
Qed.
Lemma homa_life_plays strict le o port l : (strict = true -> clients_set o = 1%Z /\ (0 <= servers_set o)%Z) ->
  plays (homa_needs strict) (fun _ => False) (homa_life le o port l)
    (fun x => x = ServerBuf /\ m_sbuf (snd (homa_make le o)) = true /\ m_sthreads (snd (homa_make le o)) = 0).
Proof.
  intros One. destruct (homa_make_plays strict le o One) as (A & G & _). unfold homa_life. destruct (homa_make le o) as [e1 m1]. cbn [fst snd] in *.
  assert (D : plays (homa_needs strict) (fun _ => False) (e1 ++ homa_destroy m1) (fun x => x = ServerBuf /\ m_sbuf m1 = true /\ m_sthreads m1 = 0)) by (eapply plays_app; [exact A|apply hdestroy_plays, G]).
  destruct (homa_init le o port); [|exact D..]. destruct (hcalls_plays strict l m1 G) as [B G2]. pose proof (hcalls_buf l m1) as [T Bf]. destruct (homa_calls l m1) as [e2 m2]. cbn [fst snd] in *.
  eapply plays_app; [exact A|]. eapply plays_app; [exact B|]. eapply plays_post; [|apply hdestroy_plays, G2].
  intros x. cbn beta. rewrite T. split; intros (Q & X & Y); (split; [exact Q|split; [|exact Y]]); [rewrite <- Bf; assumption|rewrite Bf; assumption].
Qed.
Definition no_made (l : list event) : Prop := forall x, ~ In (Made x) l.
Definition no_unmade (l : list event) : Prop := forall x, ~ In (Unmade x) l.
Lemma no_made_app l m : no_made l -> no_made m -> no_made (l ++ m).
Proof. intros A B x I. apply in_app_or in I. destruct I as [I|I]; [exact (A x I)|exact (B x I)]. Qed.
Lemma no_made_if b x : no_made (unmade_if b x).
Proof. intros y. destruct b; cbn; intuition discriminate. Qed.
Lemma no_made_cons e l : (forall x, e <> Made x) -> no_made l -> no_made (e :: l).
Proof. intros A B x [I|I]; [exact (A x I)|exact (B x I)]. Qed.
Lemma no_made_map {A} (f : A -> thing) l : no_made (map (fun a => Unmade (f a)) l).
Proof. intros x I. apply in_map_iff in I. destruct I as (a & Q & _). discriminate. Qed.
Lemma no_made_join l : forall b, no_made (join_servers l b).
Proof. induction l as [|i l IH]; intros b; cbn [join_servers]; [intros x []|]. apply no_made_cons; [discriminate|]. apply no_made_app; [apply no_made_if|apply IH]. Qed.
Lemma hshut_server_made m : no_made (fst (hshut_server m)).
Proof. unfold hshut_server. destruct (m_sdown m); cbn [fst]; [intros x []|]. apply no_made_app; [apply no_made_join|apply no_made_if]. Qed.
Lemma hshut_client_made m : no_made (fst (hshut_client m)).
Proof. unfold hshut_client. destruct (m_cdown m); cbn [fst]; [intros x []|]. apply no_made_app; [apply (no_made_map ClientThread)|]. apply no_made_app; apply no_made_if. Qed.
Definition hcall_of (c : hcall) (m : hmembers) := match c with CallServer => hshut_server m | CallClient => hshut_client m end.
Lemma homa_calls_cons c l m : homa_calls (c :: l) m = (fst (hcall_of c m) ++ fst (homa_calls l (snd (hcall_of c m))), snd (homa_calls l (snd (hcall_of c m)))).
Proof. cbn [homa_calls]. unfold hcall_of. destruct (match c with CallServer => hshut_server m | CallClient => hshut_client m end) as [e1 m1]. cbn [fst snd]. destruct (homa_calls l m1). reflexivity. Qed.
Lemma homa_destroy_eq m : homa_destroy m = fst (hshut_server m) ++ fst (hshut_client (snd (hshut_server m))) ++ unmade_if (m_pool (snd (hshut_client (snd (hshut_server m))))) Pool.
Proof. unfold homa_destroy. destruct (hshut_server m) as [e1 m1]. cbn [fst snd]. destruct (hshut_client m1). reflexivity. Qed.
Lemma hcalls_made l : forall m, no_made (fst (homa_calls l m)).
Proof.
  induction l as [|c l IH]; intros m; [intros x []|]. rewrite homa_calls_cons. cbn [fst]. apply no_made_app; [|apply IH].
  destruct c; [apply hshut_server_made|apply hshut_client_made].
Qed.
Lemma hdestroy_made m : no_made (homa_destroy m).
Proof. rewrite homa_destroy_eq. apply no_made_app; [apply hshut_server_made|]. apply no_made_app; [apply hshut_client_made|apply no_made_if]. Qed.
(** From Initialize on: what was called, then the destructor. *)
Definition homa_rest (le : leaf_env) (o : driver_opts) (port : Z) (l : list hcall) : list event :=
  let m := snd (homa_make le o) in let l' := match homa_init le o port with InitOk _ => l | _ => [] end in
  fst (homa_calls l' m) ++ homa_destroy (snd (homa_calls l' m)).
Lemma homa_life_eq le o port l : homa_life le o port l = fst (homa_make le o) ++ homa_rest le o port l.
Proof.
  unfold homa_life, homa_rest. destruct (homa_make le o) as [e m]. cbn [fst snd]. destruct (homa_init le o port); cbn [homa_calls fst snd app]; [|reflexivity..].
  destruct (homa_calls l m). reflexivity.
Qed.
Lemma homa_rest_made le o port l : no_made (homa_rest le o port l).
Proof. unfold homa_rest. cbv zeta. apply no_made_app; [apply hcalls_made|apply hdestroy_made]. Qed.
Lemma plays_made needs l : forall P Q, no_unmade l -> plays needs P l Q -> forall x, Q x <-> P x \/ In (Made x) l.
Proof.
  induction l as [|[x|x|c i] r IH]; intros P Q U H y; cbn [plays In] in *.
  - rewrite (H y). tauto.
  - destruct H as (_ & _ & H). rewrite (IH _ _ ltac:(intros z I; apply (U z); right; exact I) H y). split; [intros [[?|?]|?]; auto; subst; auto|intros [?|[Q'|?]]; auto]. injection Q' as ->. auto.
  - destruct (U x). left. reflexivity.
  - rewrite (IH _ _ ltac:(intros z I; apply (U z); right; exact I) H y). split; [intros [?|?]; auto|intros [?|[?|?]]; auto; discriminate].
Qed.
Lemma homa_make_unmade le o : no_unmade (fst (homa_make le o)).
Proof.
  intros x. unfold homa_make. destruct (unknown_setting _); [intros []|]. destruct (get_pool _ _ _); [|intros []..]. destruct (get_ip _ _ _); [|cbn; intuition discriminate..].
  destruct (hs_client _); [cbn; intuition discriminate|]. destruct (hs_server _); [cbn; intuition discriminate|]. destruct (_ || _); [cbn; intuition discriminate|].
  cbn [fst]. intros I. apply in_app_or in I. destruct I as [I|I]; [cbn in I; intuition discriminate|]. apply in_app_or in I. destruct I as [I|I]; apply in_map_iff in I; destruct I as (j & Q & _); discriminate.
Qed.
Lemma homa_made le o port l x : In (Made x) (homa_life le o port l) <-> hholds (snd (homa_make le o)) x.
Proof.
  destruct (homa_make_plays false le o ltac:(discriminate)) as (A & _ & _). rewrite (plays_made _ _ _ _ (homa_make_unmade le o) A x). rewrite homa_life_eq, in_app_iff. pose proof (homa_rest_made le o port l x). tauto.
Qed.
(** With a second server thread the buffer goes before that thread. *)
Lemma hrest_buffer l : forall m, m_sdown m = false -> m_sbuf m = true -> 2 <= m_sthreads m ->
  exists pre post, fst (homa_calls l m) ++ homa_destroy (snd (homa_calls l m)) = pre ++ Unmade ServerBuf :: post /\ ~ In (Unmade (ServerThread 1)) pre.
Proof.
  assert (K : forall m, m_sdown m = false -> m_sbuf m = true -> 2 <= m_sthreads m -> exists post, fst (hshut_server m) = [Unmade (ServerThread 0)] ++ Unmade ServerBuf :: post).
  { intros m D B T. unfold hshut_server. rewrite D, B. cbn [fst]. destruct (m_sthreads m) as [|n]; [lia|]. cbn [seq join_servers unmade_if app]. eexists. reflexivity. }
  induction l as [|c l IH]; intros m D B T.
  - cbn [homa_calls fst snd app]. rewrite homa_destroy_eq. destruct (K m D B T) as (post & E). rewrite E. exists [Unmade (ServerThread 0)]. eexists. rewrite <- app_assoc. cbn [app]. split; [reflexivity|].
    intros [Q|[]]. discriminate.
  - rewrite homa_calls_cons. cbn [fst snd]. destruct c; cbn [hcall_of].
    + destruct (K m D B T) as (post & E). rewrite E. exists [Unmade (ServerThread 0)]. eexists. rewrite <- !app_assoc. cbn [app]. split; [reflexivity|]. intros [Q|[]]. discriminate.
    + destruct (IH (snd (hshut_client m))) as (pre & post & E & N); try (unfold hshut_client; destruct (m_cdown m); assumption).
      exists (fst (hshut_client m) ++ pre), post. rewrite <- !app_assoc, E. split; [reflexivity|]. intros I. apply in_app_or in I. destruct I as [I|I]; [|exact (N I)].
      unfold hshut_client in I. destruct (m_cdown m); [destruct I|]. cbn [fst] in I. apply in_app_or in I. destruct I as [I|I].
      * apply in_map_iff in I. destruct I as (j & Q & _). discriminate.
      * apply in_app_or in I. destruct (m_cbuf m), (m_csock m); cbn in I; intuition discriminate.
Qed.
Lemma homa_make_fresh le o : m_sdown (snd (homa_make le o)) = false.
Proof.
  unfold homa_make. destruct (unknown_setting _); [reflexivity|]. destruct (get_pool _ _ _); [|reflexivity..]. destruct (get_ip _ _ _); [|reflexivity..].
  destruct (hs_client _); [reflexivity|]. destruct (hs_server _); [reflexivity|]. destruct (_ || _); reflexivity.
Qed.
Lemma homa_buffer_early le o port l : In (Made (ServerThread 1)) (homa_life le o port l) -> replay (homa_needs true) [] (homa_life le o port l) = None.
Proof.
  intros H. pose proof (proj1 (homa_made le o port l _) H) as [D T]. cbn in T. destruct (homa_make_plays false le o ltac:(discriminate)) as (_ & G & _).
  destruct (hg_server _ _ G D ltac:(lia)) as [_ Bf]. rewrite homa_life_eq in *. unfold homa_rest in *. cbv zeta in *.
  set (l' := match homa_init le o port with InitOk _ => l | _ => [] end) in *.
  destruct (hrest_buffer l' _ D Bf ltac:(lia)) as (pre & post & E & N). rewrite E, app_assoc. apply replay_needed with (y := ServerThread 1).
  - apply in_or_app. left. apply in_app_or in H. destruct H as [H|H]; [exact H|]. destruct (no_made_app _ _ (hcalls_made l' _) (hdestroy_made _) _ H).
  - intros I. apply in_app_or in I. destruct I as [I|I]; [exact (homa_make_unmade le o _ I)|exact (N I)].
  - cbn. auto.
Qed.
(** The threads that Initialize reports are those it started. *)
Lemma homa_ok_threads le o port h : homa_init le o port = InitOk h ->
  m_cthreads (snd (homa_make le o)) = hd_clients h /\ m_sthreads (snd (homa_make le o)) = hd_servers h /\ m_cdown (snd (homa_make le o)) = false /\ m_sdown (snd (homa_make le o)) = false /\ m_sbuf (snd (homa_make le o)) = true.
Proof.
  unfold homa_init, homa_make. destruct (unknown_setting _); [discriminate|]. cbv zeta. destruct (get_pool _ _ _); [|discriminate..]. cbn [ibind]. destruct (get_ip _ _ _); [|discriminate..]. cbn [ibind].
  destruct (hs_client _); [discriminate|]. destruct (hs_server _); [discriminate|]. destruct (_ || _); [discriminate|]. destruct (hs_bind _ _ _); [discriminate|].
  destruct (hs_name _) as [?|[fam p]]; [discriminate|]. destruct (_ =? _)%Z; [intros E; injection E as <-; cbn; auto|]. destruct (_ =? _)%Z; [intros E; injection E as <-; cbn; auto|discriminate].
Qed.

(** ** Mercury *)
Definition selfleft (le : leaf_env) (o : driver_opts) (port : Z) (x : thing) : Prop :=
  x = SelfAddr /\ In (Made SelfAddr) (fst (mercury_make le o port)) /\ n_threads (snd (mercury_make le o port)) = false.
Lemma mercury_make_plays strict le o port :
  plays (mercury_needs strict) (fun _ => False) (fst (mercury_make le o port)) (with_lost (snd (mercury_make le o port)) (selfleft le o port)) /\
  mgood 0 (snd (mercury_make le o port)) /\ n_addrs (snd (mercury_make le o port)) = [] /\ n_sdown (snd (mercury_make le o port)) = false /\ n_cdown (snd (mercury_make le o port)) = false.
Proof.
  unfold selfleft, mercury_make.
  assert (E0 : forall P : Prop, ~ P -> plays (mercury_needs strict) (fun _ => False) [] (with_lost mempty (fun x => x = SelfAddr /\ P))).
  { intros P H x. unfold with_lost. destruct x; cbn; intuition discriminate. }
  assert (G0 : mgood 0 mempty) by (constructor; cbn; try discriminate; try apply NoDup_nil; try tauto).
  destruct (_ && _); [split; [apply E0; cbn; tauto|split; [exact G0|auto]]|].
  destruct (get_pool le o []); [|split; [apply E0; cbn; tauto|split; [exact G0|auto]]..].
  assert (E1 : plays (mercury_needs strict) (fun _ => False) [Made Pool] (with_lost (mkMm true false false false false false false [] false false) (fun x => x = SelfAddr /\ In (Made SelfAddr) [Made Pool] /\ false = false))).
  { cbn [plays]. split; [tauto|]. split; [intros y []|]. intros x. unfold with_lost. destruct x; cbn; intuition discriminate. }
  assert (G1 : mgood 0 (mkMm true false false false false false false [] false false)) by (constructor; cbn; try discriminate; try apply NoDup_nil; try tauto).
  destruct (get_ip le _ 4); [|split; [exact E1|split; [exact G1|auto]]..].
  match goal with |- context[mercury_steps ?w] => pose proof (mercury_steps_plays strict w) as A; pose proof (mercury_steps_good w) as G; pose proof (mercury_steps_rest w) as R; destruct (mercury_steps w) as [e m] end.
  cbv zeta in *. cbn [fst snd] in *. destruct R as (R1 & R2 & R3 & R4 & R5). split; [|auto].
  change (Made Pool :: e) with ([Made Pool] ++ e). eapply (plays_app _ _ _ _ (fun x => x = Pool)).
  - cbn [plays]. split; [tauto|]. split; [intros y []|]. intros x. tauto.
  - eapply plays_post; [|exact A]. intros x. unfold with_lost. cbn [app In]. split; (intros [H|(Q & H & T)]; [auto|right; split; [exact Q|split; [|exact T]]]); [auto|destruct H as [H|H]; [discriminate|exact H]].
Qed.
Lemma find_forallb {A} (f : A -> bool) l : (exists x, find (fun x => negb (f x)) l = Some x) \/ (find (fun x => negb (f x)) l = None /\ forallb f l = true).
Proof. induction l as [|x l IH]; cbn [find forallb]; [auto|]. destruct (f x); cbn [negb andb]; [exact IH|left; eauto]. Qed.
Lemma find_all {A} (f : A -> bool) l x : find (fun x => negb (f x)) l = Some x -> forallb f l = false.
Proof. induction l as [|y l IH]; cbn [find forallb]; [discriminate|]. destruct (f y); cbn [negb andb]; [exact IH|reflexivity]. Qed.
Lemma mercury_ok le o port : n_threads (snd (mercury_make le o port)) = true <-> exists d, mercury_init le o port = InitOk d.
Proof.
  unfold mercury_make, mercury_init. destruct (_ && _); [cbn; split; [discriminate|intros [d D]; discriminate]|].
  destruct (get_pool le o []); cbn [ibind]; [|cbn; split; [discriminate|intros [d D]; discriminate]..]. destruct (get_ip le _ 4); cbn [ibind]; [|cbn; split; [discriminate|intros [d D]; discriminate]..].
  cbv zeta. set (w := fun c => hg_works (le_hg le) c (info_string o a0 port)). pose proof (mercury_steps_ok w) as K. destruct (mercury_steps w) as [e m]. cbn [snd] in *. rewrite K.
  change (fun c : hg_call * str => negb (hg_works (le_hg le) (fst c) (info_string o a0 port))) with (fun c : hg_call * str => negb (w (fst c))).
  destruct (find_forallb (fun c : hg_call * str => w (fst c)) hg_calls) as [[[c t] F]|[F Al]].
  - rewrite F, (find_all _ _ _ F). split; [discriminate|intros [d D]; discriminate].
  - rewrite F, Al. split; [intros _; eexists; reflexivity|reflexivity].
Qed.
Lemma mercury_ok_members le o port : n_threads (snd (mercury_make le o port)) = true ->
  let m := snd (mercury_make le o port) in n_cclass m = true /\ n_sclass m = true /\ n_id m = true.
Proof.
  unfold mercury_make. destruct (_ && _); [discriminate|]. destruct (get_pool le o []); [|discriminate..]. destruct (get_ip le _ 4); [|discriminate..].
  match goal with |- context[mercury_steps ?w] => pose proof (mercury_steps_rest w) as R; destruct (mercury_steps w) as [e m] end. cbn [snd] in *. cbv zeta in *. apply R.
Qed.
Lemma mercury_life_plays strict le o port l life : mercury_life le o port l = Some life ->
  (strict = true -> (forall x, ~ selfleft le o port x) /\ NoDup (connected l) /\ exists n r, l = SetPeers n :: r /\ ~ resizes r) ->
  exists L, plays (mercury_needs strict) (fun _ => False) life L /\ (forall x, L x -> x = SelfAddr \/ exists a, x = Addr a) /\ (strict = true -> forall x, ~ L x).
Proof.
  intros E St. unfold mercury_life in E. destruct (mercury_make_plays strict le o port) as (A & G & R1 & R2 & R3). pose proof (mercury_ok le o port) as Ok. pose proof (mercury_ok_members le o port) as Mem.
  assert (Lo : lost 0 (snd (mercury_make le o port)) (selfleft le o port)) by (constructor; [intros x (Q & _); auto|intros a (Q & _); discriminate]).
  assert (Fail : mercury_make le o port = mercury_make le o port -> life = fst (mercury_make le o port) ++ mercury_destroy (snd (mercury_make le o port)) ->
     exists L, plays (mercury_needs strict) (fun _ => False) life L /\ (forall x, L x -> x = SelfAddr \/ exists a, x = Addr a) /\ (strict = true -> forall x, ~ L x)).
  { intros _ ->. exists (selfleft le o port). split; [|split; [intros x (Q & _); auto|intros S1; apply (St S1)]].
    eapply plays_app; [exact A|]. eapply mdestroy_plays; [exact G|exact Lo|]. intros S1. apply (St S1). }
  destruct (mercury_make le o port) as [e1 m1] eqn:Mk. cbn [fst snd] in *.
  destruct (mercury_init le o port) as [d|?|]; [|injection E as E; apply Fail; auto..].
  destruct (mercury_calls 0 l m1) as [[e2 m2]|] eqn:C; [|discriminate]. injection E as <-.
  assert (T : n_threads m1 = true) by (apply Ok; eauto). destruct (Mem T) as (Cc & _ & _).
  destruct strict.
  - destruct (St eq_refl) as (N1 & N2 & n & r & -> & N3). cbn [mercury_calls mercury_call] in C.
    destruct (mercury_calls 1 r (with_addrs (resize n None (n_addrs m1)) m1)) as [[e3 m3]|] eqn:C3; [|discriminate]. injection C as <- <-. cbn [app connected flat_map] in *. fold (connected r) in *. rewrite R1 in C3.
    assert (No : forall a : nat, ~ In (Some a) (resize n None [])) by (intros a I; apply resize_In in I; destruct I as [[]|I]; discriminate).
    assert (No' : forall a, ~ In a (somes (resize n None []))) by (intros a I; apply In_somes in I; exact (No a I)).
    assert (G' : mgood 1 (with_addrs (resize n None []) m1)).
    { destruct G. constructor; proj; auto; [apply resize_nodup, NoDup_nil|]. intros a I. destruct (No' a I). }
    assert (Lo' : lost 1 (with_addrs (resize n None []) m1) (fun _ => False)) by (constructor; tauto).
    destruct (mercury_calls_plays true _ _ _ _ _ _ G' Lo' Cc C3) as (k' & L' & B1 & B2 & B3 & B4).
    assert (N : forall x, ~ L' x).
    { refine (B4 _ N2 N3). intros p a I. apply nth_error_In in I. destruct (No a I). }
    exists L'. split; [|split; [intros x X; destruct (N x X)|auto]]. eapply plays_app; [exact A|]. eapply plays_app; [|eapply mdestroy_plays; [exact B2|exact B3|auto]].
    eapply plays_ext; [|reflexivity|exact B1]. intros x. unfold with_lost. split.
    + intros [X|[]]. left. destruct x; cbn [mholds] in *; proj; auto. destruct (No' _ X).
    + intros [X|X]; [|destruct (N1 x X)]. left. destruct x; cbn [mholds] in *; proj; auto. rewrite R1 in X. destruct X.
  - destruct (mercury_calls_plays false _ _ _ _ _ _ G Lo Cc C) as (k' & L' & B1 & B2 & B3 & _).
    exists L'. split; [|split; [|discriminate]].
    + eapply plays_app; [exact A|]. eapply plays_app; [exact B1|]. eapply mdestroy_plays; [exact B2|exact B3|discriminate].
    + intros x X. destruct (l_what _ _ _ B3 x X) as [?|(a & ? & _)]; eauto.
Qed.
(** HG_Deregister *)
Definition dereg (l : list event) : list (bool * bool) := flat_map (fun e => match e with Deregister c i => [(c, i)] | _ => [] end) l.
Lemma dereg_app l m : dereg (l ++ m) = dereg l ++ dereg m.
Proof. apply flat_map_app. Qed.
Lemma mshut_server_dereg m : dereg (fst (mshut_server m)) = [] /\ n_sclass (snd (mshut_server m)) = n_sclass m /\ n_id (snd (mshut_server m)) = n_id m.
Proof. unfold mshut_server. cbn [fst snd]. proj. split; [|auto]. destruct (n_sdown m), (n_threads m), (n_pool m); reflexivity. Qed.
Lemma mshut_client_dereg m : dereg (fst (mshut_client m)) = [] /\ n_sclass (snd (mshut_client m)) = n_sclass m /\ n_id (snd (mshut_client m)) = n_id m.
Proof. unfold mshut_client. cbn [fst snd]. proj. split; [|auto]. destruct (n_cdown m), (n_threads m); reflexivity. Qed.
Lemma mercury_calls_dereg l : forall k m e m', mercury_calls k l m = Some (e, m') -> dereg e = [] /\ n_sclass m' = n_sclass m /\ n_id m' = n_id m.
Proof.
  induction l as [|c l IH]; intros k m e m' E; cbn [mercury_calls] in E; [injection E as <- <-; auto|].
  destruct (mercury_call k c m) as [[e1 m1]|] eqn:E1; [|discriminate]. destruct (mercury_calls (S k) l m1) as [[e2 m2]|] eqn:E2; [|discriminate]. injection E as <- <-.
  destruct (IH _ _ _ _ E2) as (A & B & C). rewrite dereg_app, A, B, C, app_nil_r.
  destruct c as [n|p works| |]; cbn [mercury_call] in E1.
  - injection E1 as <- <-. auto.
  - destruct (p <? length (n_addrs m)); [|discriminate]. destruct works; injection E1 as <- <-; auto.
  - injection E1 as <- <-. apply (mshut_server_dereg m).
  - injection E1 as <- <-. apply (mshut_client_dereg m).
Qed.
Lemma mdestroy_dereg m : dereg (mercury_destroy m) = [(n_sclass m, n_id m)].
Proof.
  unfold mercury_destroy. destruct (mshut_server_dereg m) as (A1 & A2 & A3). destruct (mshut_server m) as [e1 m1]. cbn [fst snd] in *.
  destruct (mshut_client_dereg m1) as (B1 & B2 & B3). destruct (mshut_client m1) as [e2 m2]. cbn [fst snd] in *.
  rewrite !dereg_app, A1, B1, free_somes. replace (dereg (map (fun a => Unmade (Addr a)) (somes (n_addrs m2)))) with (@nil (bool * bool)).
  - cbn [app dereg flat_map]. fold dereg. rewrite B2, B3, A2, A3. f_equal. destruct (n_scontext m2), (n_sclass m), (n_ccontext m2), (n_cclass m2); reflexivity.
  - generalize (somes (n_addrs m2)). intros l. induction l as [|a l IH]; [reflexivity|exact IH].
Qed.
Lemma mercury_make_dereg le o port : dereg (fst (mercury_make le o port)) = [].
Proof.
  unfold mercury_make. destruct (_ && _); [reflexivity|]. destruct (get_pool le o []); [|reflexivity..]. destruct (get_ip le _ 4); [|reflexivity..].
  match goal with |- context[mercury_steps ?w] => set (works := w) end. unfold mercury_steps. cbv zeta. step_cases works; reflexivity.
Qed.
Lemma mercury_life_dereg le o port l life : mercury_life le o port l = Some life -> dereg life = [(n_sclass (snd (mercury_make le o port)), n_id (snd (mercury_make le o port)))].
Proof.
  unfold mercury_life. pose proof (mercury_make_dereg le o port) as M. destruct (mercury_make le o port) as [e1 m1]. cbn [fst snd] in *.
  destruct (mercury_init le o port); [|intros E; injection E as <-; rewrite dereg_app, M, mdestroy_dereg; reflexivity..].
  destruct (mercury_calls 0 l m1) as [[e2 m2]|] eqn:C; [|discriminate]. intros E. injection E as <-. destruct (mercury_calls_dereg _ _ _ _ _ C) as (A & B & D). rewrite !dereg_app, M, A, mdestroy_dereg, B, D. reflexivity.
Qed.
(** Threads are made by Initialize only, when it succeeds. *)
Lemma mercury_calls_made l x : forall k m e m', mercury_calls k l m = Some (e, m') -> In (Made x) e -> exists a, x = Addr a.
Proof.
  induction l as [|c l IH]; intros k m e m' E I; cbn [mercury_calls] in E; [injection E as <- <-; destruct I|].
  destruct (mercury_call k c m) as [[e1 m1]|] eqn:E1; [|discriminate]. destruct (mercury_calls (S k) l m1) as [[e2 m2]|] eqn:E2; [|discriminate]. injection E as <- <-.
  apply in_app_or in I. destruct I as [I|I]; [|eapply IH; eassumption].
  destruct c as [n|p works| |]; cbn [mercury_call] in E1.
  - injection E1 as <- <-. destruct I.
  - destruct (p <? length (n_addrs m)); [|discriminate]. destruct works; injection E1 as <- <-; [|destruct I]. destruct I as [I|[]]. injection I as <-. eauto.
  - injection E1 as <- <-. destruct (n_sdown m), (n_threads m), (n_pool m); cbn in I; intuition discriminate.
  - injection E1 as <- <-. destruct (n_cdown m), (n_threads m); cbn in I; intuition discriminate.
Qed.
Lemma mdestroy_made m : no_made (mercury_destroy m).
Proof.
  unfold mercury_destroy, mshut_server, mshut_client. proj.
  assert (Fr : no_made (free_addrs (n_addrs m))) by (rewrite free_somes; apply (no_made_map Addr)).
  repeat apply no_made_app; try apply no_made_if; try exact Fr.
  - destruct (n_sdown m); [intros x []|apply no_made_if].
  - destruct (n_cdown m); [intros x []|apply no_made_if].
  - intros x [I|[]]. discriminate.
Qed.
Lemma mercury_make_threads le o port i : In (Made (ClientThread i)) (fst (mercury_make le o port)) \/ In (Made (ServerThread i)) (fst (mercury_make le o port)) -> n_threads (snd (mercury_make le o port)) = true.
Proof.
  unfold mercury_make. destruct (_ && _); [intros [[]|[]]|]. destruct (get_pool le o []); [|intros [[]|[]]..]. destruct (get_ip le _ 4); [|cbn; intuition discriminate..].
  match goal with |- context[mercury_steps ?w] => set (works := w) end. unfold mercury_steps. cbv zeta. step_cases works; cbn [In]; intuition discriminate.
Qed.
Lemma mercury_life_threads le o port l life i : mercury_life le o port l = Some life -> In (Made (ClientThread i)) life \/ In (Made (ServerThread i)) life -> exists d, mercury_init le o port = InitOk d.
Proof.
  intros E H. destruct (mercury_init le o port) as [d|?|] eqn:In0; [eauto|..]; exfalso; unfold mercury_life in E; rewrite In0 in E; pose proof (mercury_make_threads le o port i) as T; pose proof (mercury_ok le o port) as Ok;
    destruct (mercury_make le o port) as [e1 m1]; cbn [fst snd] in *; injection E as <-;
    assert (Z : n_threads m1 = true) by (apply T; destruct H as [H|H]; apply in_app_or in H; destruct H as [H|H]; auto; destruct (mdestroy_made m1 _ H));
    apply Ok in Z; destruct Z as [d Z]; congruence.
Qed.
