(** C83: the life of a sequencer and its node managers, for every interleaving
    of their threads, handlers and RPCs. *)
From Coq Require Import Ascii String List NArith ZArith Bool Arith Lia.
From Verif Require Import Base_Model Base_Proofs Place_Model Seq_Model Seq_Proofs Cli_Model Cli_Props2 Life_Model Life_Proofs Life_Proofs2 Life_Proofs3.
Import ListNotations.
Open Scope nat_scope.

(** ** What is said *)
(** Node k was answered OK by RegisterNode and is node id of the sequencer. *)
Definition registered (s : life) (k : nat) (id : Z) : Prop := exists alias, In (k, RegOk id alias) (lf_replies s).
Definition phase_of (s : life) (k : nat) (p : nphase) : Prop := exists n, nth_error (lf_nodes s) k = Some n /\ ln_phase n = p.
(** TestSequencer::Wait has returned. *)
Definition after_wait (s : life) : Prop :=
  match lf_main s with MLocal _ | MSend 2 | MCollect 2 | MClose 2 | MDone => True | _ => False end.
Definition may_run (nlocal : nat) (reqs : list reg_request) (l : list levent) (s : life) : Prop :=
  NoDup (map rq_text reqs) /\ nlocal <= length reqs /\ run nlocal l (life_start reqs) = Some s.

(** ** Examples used below *)
Definition ex_req (t : str) (port id : Z) : reg_request := mkReg t (s_ "host") port id [].
Definition ex_reqs : list reg_request := [ex_req (s_ "a") 1 0; ex_req (s_ "b") 2 (-1); ex_req (s_ "c") 3 (-1)].
(** One local node manager, one that registers before the shutdown is requested
    and one that registers while Wait is collecting answers. *)
Definition ex_begin : list levent :=
  [EStart 0 true; EAccept 0; ERegister 0; EReply 0; EMain; EMain; EStart 1 true; EAccept 1; ERegister 1; EReply 1; EBegin; ECall 1 false; EReturn 1 0].
Definition ex_wait : list levent :=
  [EEnd true; EMain; EMain; EDeliver (1, 0%Z); EReturn 0 0; EComplete (1, 0%Z) true; EStart 2 true; EAccept 2; ERegister 2; EReply 2; EDeliver (1, 1%Z); EOwner 1; EReturn 1 0; EOwner 1;
   EComplete (1, 1%Z) true; EMain; EMain].
Definition ex_rest : list levent :=
  [EMain; EMain; EMain; EMain; EMain; EComplete (2, 0%Z) false; EComplete (2, 1%Z) false; EDeliver (2, 2%Z); EReturn 2 0; EOwner 2; EOwner 2; EComplete (2, 2%Z) true; EMain; EMain].
Definition state_after (l : list levent) : life := match run 1 l (life_start ex_reqs) with Some s => s | None => life_start ex_reqs end.
Lemma ex_distinct : NoDup (map rq_text ex_reqs).
Proof. cbn [map ex_reqs ex_req rq_text]. repeat constructor; cbn [In]; intuition discriminate. Qed.

Section Runs.
Variables (nlocal : nat) (reqs : list reg_request).
Notation run := (Life_Model.run nlocal).
Notation step := (Life_Model.step nlocal).
Notation may_run := (may_run nlocal reqs).

Lemma may_ok l s : may_run l s -> life_ok nlocal reqs s.
Proof. intros (D & _ & R). exact (lk_run nlocal reqs D l s R). Qed.
Lemma after_wait_returned s : after_wait s <-> wait_returned (lf_main s) = true.
Proof. unfold after_wait, wait_returned. destruct (lf_main s) as [| |[|[|[|]]]|[|[|[|]]]|[|[|[|]]]| | |]; cbn; intuition discriminate. Qed.
Lemma after_extend l l' s s' : may_run l s -> run l' s = Some s' -> may_run (l ++ l') s'.
Proof. intros (D & L & R) E. split; [exact D|]. split; [exact L|]. rewrite run_app, R. exact E. Qed.

(** ** Everyone is told *)
(** When the sequencer's process ends, every node that was ever registered has
    been sent ShutdownNode by the destructor, over the connection to that node;
    no one else was, and no one more than twice. *)
Theorem C83_everyone l s : may_run l s -> lf_main s = MDone ->
  (forall k id, registered s k id -> In (2, id) (lf_sent s) /\ reached s id = Some k) /\
  (forall t, In t (lf_sent s) -> (fst t = 1 \/ fst t = 2) /\ exists k, registered s k (snd t)) /\ NoDup (lf_sent s).
Proof.
  intros H Em. destruct (may_ok l s H) as [O M D _]. destruct (M ltac:(congruence)) as [_ (ids1 & ids2 & D1 & D2 & _ & Es & Oc) _ _ _ _]. rewrite Em in Es, Oc. cbn [rounds Nat.eqb] in Es, Oc.
  specialize (Oc eq_refl). destruct H as (Dt & _). split; [|split].
  - intros k id (a & I). split; [|exact (reply_reached reqs Dt s k id a O I)]. rewrite Es. apply in_app_iff. right. apply tagged_in. split; [reflexivity|]. apply Oc, (occupied_reply reqs s id O). eauto.
  - intros t I. split.
    + rewrite Es in I. apply in_app_iff in I as [I|I]; apply tagged_in in I as (E & _); auto.
    + destruct (d_sent nlocal s D t I) as (k & a & K). exists k, a. exact K.
  - rewrite Es. assert (Inj : forall r ids, NoDup ids -> NoDup (tagged r ids)).
    { intros r ids Di. unfold tagged. induction Di as [|x l' Nx Di IH]; cbn [map]; constructor; [|exact IH]. intro I. apply in_map_iff in I as (y & E & I). injection E as ->. contradiction. }
    assert (Dis : forall t, In t (tagged 1 ids1) -> ~ In t (tagged 2 ids2)) by (intros t I1 I2; apply tagged_in in I1 as (E1 & _), I2 as (E2 & _); lia).
    pose proof (Inj 1 ids1 D1) as N1. pose proof (Inj 2 ids2 D2) as N2. clear -N1 N2 Dis. induction (tagged 1 ids1) as [|x l IH]; cbn [app]; [exact N2|].
    inversion_clear N1. constructor; [|apply IH; [intros t I; apply Dis; right; exact I|assumption]]. rewrite in_app_iff. intros [I|I]; [contradiction|]. apply (Dis x); [left; reflexivity|exact I].
Qed.
(** Wait sends ShutdownNode to every node that was registered before the
    shutdown was requested. *)
Theorem C83_in_time l1 s1 l2 s2 k id : may_run l1 s1 -> lf_asked s1 = false -> registered s1 k id -> run l2 s1 = Some s2 -> after_wait s2 -> In (1, id) (lf_sent s2).
Proof.
  intros H Na (a & I) R Aw. pose proof (may_ok l1 s1 H) as K.
  assert (Inv : life_ok nlocal reqs s2 /\ In (k, RegOk id a) (lf_replies s2) /\ (rounds (lf_main s2) <> 0 -> In (1, id) (lf_sent s2))).
  { refine (run_invariant nlocal (fun s => life_ok nlocal reqs s /\ In (k, RegOk id a) (lf_replies s) /\ (rounds (lf_main s) <> 0 -> In (1, id) (lf_sent s))) _ l2 s1 s2 _ R).
    - intros e s s' (Ls & Is & Ss) E. pose proof (lk_step nlocal reqs (proj1 H) e s s' Ls E) as Ls'. split; [exact Ls'|]. apply step_moves in E.
      assert (V : forall r, lf_main s = MSend r -> r = 1 \/ r = 2).
      { intros r Er. assert (Nc : lf_main s <> MCrash) by congruence. pose proof (k_valid s (l_main _ _ s Ls Nc)) as V. rewrite Er in V. exact V. }
      assert (V' : forall r, lf_main s = MCollect r -> r = 1 \/ r = 2).
      { intros r Er. assert (Nc : lf_main s <> MCrash) by congruence. pose proof (k_valid s (l_main _ _ s Ls Nc)) as V'. rewrite Er in V'. exact V'. }
      assert (V'' : forall r, lf_main s = MClose r -> r = 1 \/ r = 2).
      { intros r Er. assert (Nc : lf_main s <> MCrash) by congruence. pose proof (k_valid s (l_main _ _ s Ls Nc)) as V''. rewrite Er in V''. exact V''. }
      destruct E; fields; try (split; [exact Is|exact Ss]); try (split; [exact Is|]; rewrite ?H0 in Ss; cbn [rounds] in *; try (intro Q; contradiction Q; reflexivity); try exact Ss).
      + intros _. apply in_app_iff. destruct (targets_ok reqs s (l_reg _ _ s Ls)) as (ids' & T & _ & Oc). assert (ids' = ids) as -> by congruence.
        destruct (V r H0) as [-> | ->]; [right; apply (tagged_in 1 ids (1, id)); split; [reflexivity|apply Oc, (occupied_reply reqs s id (l_reg _ _ s Ls)); eauto]|left; apply Ss; discriminate].
      + intros _. destruct (V'' r H0) as [-> | ->]; apply Ss; discriminate.
      + split; [apply in_app_iff; left; exact Is|exact Ss].
      + split; [apply in_app_iff; left; exact Is|]. intro Q. contradiction Q. reflexivity.
    - split; [exact K|]. split; [exact I|]. intro Q. exfalso. assert (Nc : lf_main s1 <> MCrash) by (intro C; rewrite C in Q; apply Q; reflexivity).
      pose proof (k_asked s1 (l_main _ _ s1 K Nc)) as A. destruct (before_shutdown (lf_main s1)) eqn:B; [|rewrite (A eq_refl) in Na; discriminate].
      destruct (lf_main s1); cbn [before_shutdown] in B; try discriminate; apply Q; reflexivity. }
  destruct Inv as (Ls & _ & Ss). apply Ss. apply after_wait_returned in Aw. destruct (lf_main s2) as [| |[|[|[|]]]|[|[|[|]]]|[|[|[|]]]| | |]; cbn in *; try discriminate.
Qed.
(** ** What Wait means *)
(** Wait only returns after a test sequence that asked for the shutdown ended. *)
Theorem C83_asked l s : may_run l s -> after_wait s -> In (EEnd true) l.
Proof.
  intros (_ & _ & R) A. apply (asked_history nlocal reqs l s R). right. apply after_wait_returned in A. destruct (lf_main s) as [| |[|[|[|]]]|[|[|[|]]]|[|[|[|]]]| | |]; cbn in *; split; congruence.
Qed.
(** After Wait no test sequence is running, none is started and no node is
    registered any more. *)
Theorem C83_closed l s l' s' : may_run l s -> after_wait s -> run l' s = Some s' ->
  after_wait s' /\ lf_sequences s' = 0 /\ lf_registering s' = [] /\ lf_replies s' = lf_replies s /\ lf_reg s' = lf_reg s.
Proof.
  intros H A R. pose proof (may_ok l s H) as K.
  assert (Inv : life_ok nlocal reqs s' /\ wait_returned (lf_main s') = true /\ lf_replies s' = lf_replies s /\ lf_reg s' = lf_reg s).
  { refine (run_invariant nlocal (fun x => life_ok nlocal reqs x /\ wait_returned (lf_main x) = true /\ lf_replies x = lf_replies s /\ lf_reg x = lf_reg s) _ l' s s' _ R).
    - intros e x x' (Lx & Wx & Rx & Gx) E. pose proof (lk_step nlocal reqs (proj1 H) e x x' Lx E) as Lx'. split; [exact Lx'|].
      assert (Nc : lf_main x <> MCrash) by (intro C; rewrite C in Wx; discriminate). pose proof (k_quiet x (l_main _ _ x Lx Nc) Wx) as (_ & Nr). pose proof (k_valid x (l_main _ _ x Lx Nc)) as V.
      apply step_moves in E. destruct E; fields; auto; try (rewrite H0 in Wx, V; cbn [wait_returned valid_phase] in *; try discriminate; auto; fail).
      all: try (exfalso; destruct (targets_ok reqs x (l_reg _ _ x Lx)) as (ids' & T & _); congruence).
      all: try (rewrite Nr in *; contradiction).
      all: rewrite H0 in Wx, V; cbn [valid_phase] in V; destruct V as [-> | ->]; [discriminate|auto].
    - split; [exact K|]. split; [apply after_wait_returned, A|]. auto. }
  destruct Inv as (Ls & W & Q1 & Q2). assert (Nc : lf_main s' <> MCrash) by (intro C; rewrite C in W; discriminate).
  destruct (k_quiet s' (l_main _ _ s' Ls Nc) W) as (Z1 & Z2). split; [apply after_wait_returned, W|]. auto.
Qed.
(** ** Termination *)
(** The main thread of the sequencer makes at most 4 n + 9 steps, n being the
    number of local node managers, *)
Theorem C83_bounded l s : may_run l s -> how_many is_main l <= 4 * nlocal + 9.
Proof.
  intros (_ & _ & R). pose proof (weight_run nlocal l _ _ R) as W. unfold weight at 2 in W. cbn [life_start lf_main] in W. lia.
Qed.
(** and once the shutdown is requested and the local node managers have been
    started, the next one is only ever delayed by: a ShutdownNode RPC, which has
    a deadline; a test sequence or a registration in progress; a handler of a
    local node manager. *)
Theorem C83_progress l s : may_run l s -> (forall j, lf_main s <> MStart j) -> lf_main s <> MDone -> lf_main s <> MCrash -> (lf_main s = MWait -> lf_asked s = true) ->
  (exists s', step EMain s = Some s') \/ (exists t s', In t (lf_wait s) /\ step (EComplete t false) s = Some s') \/ (exists s', step (EEnd false) s = Some s') \/
  (exists k s', step (ERegister k) s = Some s') \/ (exists k i s', k < nlocal /\ step (EReturn k i) s = Some s').
Proof.
  intros H Ns Nd Nc Nw. destruct (main_progress nlocal reqs s (may_ok l s H) (proj1 (proj2 H)) Nd Nc Ns Nw) as (e & s' & E & P). destruct e; cbn [progress] in P; try contradiction; eauto 8.
  - destruct shutdown; [contradiction|]. eauto 6.
  - destruct ok; [contradiction|]. right. left. exists t, s'. split; [|exact E]. apply step_moves in E. inversion E. assumption.
  - do 4 right. eauto.
Qed.
(** ** Node managers *)
(** A node manager in a process of its own closes its server only if a
    ShutdownNode for it arrived. *)
Theorem C83_why l s k : may_run l s -> nlocal <= k -> phase_of s k NClosing -> exists t, In t (lf_delivered s) /\ registered s k (snd t).
Proof.
  intros H Lk (n & En & P). destruct (may_ok l s H) as [_ _ D _]. pose proof (d_closing nlocal s D k n En P) as T.
  destruct (d_why nlocal s D k n En Lk T ltac:(congruence)) as (t & a & I1 & I2). exists t. split; [exact I1|]. exists a. exact I2.
Qed.
(** Once told it ends, as soon as its handlers have returned, which none of them
    is prevented from. *)
Theorem C83_ends s k n : nlocal <= k -> nth_error (lf_nodes s) k = Some n -> ln_told n = true -> ln_phase n = NServing \/ ln_phase n = NClosing ->
  exists l s', run l s = Some s' /\ length l <= 2 + length (ln_handlers n) /\ Forall (own k) l /\ phase_of s' k NGone.
Proof.
  intros Lk En T P. assert (C : forall x m, nth_error (lf_nodes x) k = Some m -> ln_phase m = NClosing -> ends nlocal x k (S (length (ln_handlers m)))).
  { intros x m Em Pm. apply (drains nlocal k _ x m Em eq_refl); [auto|]. intros h _. unfold config_locked. rewrite Pm. apply andb_false_r. }
  destruct P as [P|P].
  - assert (E1 : step (EOwner k) s = Some (put k (set_phase NClosing n) s)).
    { cbn [Life_Model.step]. rewrite En, (proj2 (Nat.leb_le _ _) Lk). cbn [orb]. unfold owner_step. rewrite P, T. reflexivity. }
    destruct (C (put k (set_phase NClosing n) s) (set_phase NClosing n) (node_set_same _ _ _ _ En) eq_refl) as (l & s' & n' & R & L & F & G1 & G2). cbn [ln_handlers set_phase] in L.
    exists (EOwner k :: l), s'. cbn [Life_Model.run]. rewrite E1. split; [exact R|]. split; [cbn [length]; lia|]. split; [constructor; [reflexivity|exact F]|]. exists n'. auto.
  - destruct (C s n En P) as (l & s' & n' & R & L & F & G1 & G2). exists l, s'. split; [exact R|]. split; [lia|]. split; [exact F|]. exists n'. auto.
Qed.
(** But it waits for them: traffic in progress is neither cancelled nor cut
    short by ShutdownNode. *)
Theorem C83_waits s k n l s' : nth_error (lf_nodes s) k = Some n -> ln_phase n = NClosing -> run l s = Some s' -> phase_of s' k NGone ->
  length (ln_handlers n) <= how_many (returns_of k) l.
Proof.
  intros En P R (n' & En' & P'). destruct (closing_run nlocal l s s' k (length (ln_handlers n))) as (m & (n2 & E2 & C) & L); [exists n; auto|exact R|].
  assert (n2 = n') as -> by congruence. destruct C as [(C & _)|(_ & ->)]; [congruence|lia].
Qed.
(** When everything has come to rest, a node that was registered, did not give
    up its registration and received a ShutdownNode has ended. *)
Theorem C83_all_gone l s k id : may_run l s -> lf_main s = MDone -> registered s k id -> ~ In (EGiveUp k) l -> (exists r, In (r, id) (lf_delivered s)) ->
  step (EReply k) s = None -> step (EOwner k) s = None -> step (EReturn k 0) s = None -> phase_of s k NGone.
Proof.
  intros H Em (a & I) Ng (r & Id) S1 S2 S3. destruct (may_ok l s H) as [O M D L]. destruct (d_told nlocal s D _ Id) as (k' & a' & n & I' & En & T). cbn [snd] in I'.
  assert (k' = k) as -> by (pose proof (reply_reached reqs (proj1 H) s k id a O I); pose proof (reply_reached reqs (proj1 H) s k' id a' O I'); congruence).
  exists n. split; [exact En|]. destruct (Nat.leb_spec nlocal k) as [Lk|Lk].
  2:{ pose proof (L k n Lk En) as Q. rewrite Em in Q. exact Q. }
  cbn [Life_Model.step] in S1, S2, S3. rewrite En in S1, S2, S3. destruct (ln_phase n) eqn:P; try reflexivity; exfalso.
  - rewrite (d_new nlocal s D k n En P) in T. discriminate.
  - destruct (find (fun p => k =? fst p) (lf_replies s)) as [(j & res)|] eqn:F; [destruct res; discriminate S1|].
    apply (find_none _ _ F) in I. cbn [fst] in I. rewrite Nat.eqb_refl in I. discriminate.
  - rewrite (proj2 (Nat.leb_le _ _) Lk) in S2. cbn [orb] in S2. unfold owner_step in S2. rewrite P, T in S2. discriminate.
  - destruct (failing_history nlocal reqs l s (proj2 (proj2 H)) k n En P) as [G|(res & Ir & Nr)]; [contradiction|].
    assert (res = RegOk id a); [|apply (Nr id a); assumption].
    pose proof (o_nodup reqs s O) as Nd. clear -Nd I Ir. induction (lf_replies s) as [|x rs IH]; [destruct I|]. cbn [map] in Nd. inversion_clear Nd as [|? ? Nx Nd'].
    destruct I as [->|I], Ir as [E|Ir]; cbn [fst] in *; [congruence| | |auto].
    + destruct Nx. apply (in_map fst) in Ir. exact Ir.
    + subst x. destruct Nx. apply (in_map fst) in I. exact I.
  - rewrite (proj2 (Nat.leb_le _ _) Lk) in S2. cbn [orb] in S2. unfold owner_step, idle in S2. rewrite P in S2. destruct (ln_handlers n) as [|h hs]; [discriminate|].
    cbn [nth_error] in S3. unfold config_locked in S3. rewrite P, andb_false_r in S3. discriminate.
Qed.
(** A node manager whose registration failed ends if and only if no handler is
    waiting for its name: Initialize holds the mutex of the name while it waits
    for the handlers. *)
Theorem C83_failed_registration s k n : nth_error (lf_nodes s) k = Some n -> ln_phase n = NFailing ->
  (exists l s', run l s = Some s' /\ phase_of s' k NGone) <-> (forall h, In h (ln_handlers n) -> needs_name h = false).
Proof.
  intros En P. split.
  - intros (l & s' & R & (n' & En' & P')) h I. destruct (needs_name h) eqn:E; [|reflexivity]. exfalso.
    assert (Hs : hangs s k) by (exists n; split; [exact En|]; split; [exact P|]; apply existsb_exists; eauto).
    destruct (hangs_run nlocal l s s' k Hs R) as (n2 & E2 & P2 & _). congruence.
  - intro F. destruct (drains nlocal k (length (ln_handlers n)) s n En eq_refl (or_intror P)) as (l & s' & n' & R & _ & _ & G1 & G2).
    + intros h I. rewrite (F h I). reflexivity.
    + exists l, s'. split; [exact R|]. exists n'. auto.
Qed.
(** ShutdownNode reaches the node it was sent for exactly while the server of
    that node is up, which is while it registers and while it serves; the node is
    then told. *)
Theorem C83_delivers l s k id r : may_run l s -> registered s k id -> In (r, id) (lf_sent s) -> ~ In (r, id) (lf_delivered s) ->
  (phase_of s k NRegistering \/ phase_of s k NServing) <-> exists s' n, step (EDeliver (r, id)) s = Some s' /\ In (r, id) (lf_delivered s') /\ nth_error (lf_nodes s') k = Some n /\ ln_told n = true.
Proof.
  intros H (a & I) Sn Nd. destruct (may_ok l s H) as [O _ _ _]. pose proof (reply_reached reqs (proj1 H) s k id a O I) as Re.
  apply has_tag_in in Sn. assert (Nd' : has_tag (r, id) (lf_delivered s) = false) by (destruct (has_tag (r, id) (lf_delivered s)) eqn:E; [apply has_tag_in in E; contradiction|reflexivity]).
  unfold Life_Model.step. rewrite Sn, Nd'. cbn [andb negb snd]. rewrite Re. split.
  - intros P. assert (K : exists n, nth_error (lf_nodes s) k = Some n /\ (ln_phase n = NRegistering \/ ln_phase n = NServing)) by (destruct P as [(n & A & B)|(n & A & B)]; eauto). destruct K as (n & En & Pn). rewrite En. unfold accepting.
    assert (G : match ln_phase n with NRegistering | NServing => true | _ => false end = true) by (destruct Pn as [Pn|Pn]; rewrite Pn; reflexivity). rewrite G.
    eexists. exists (begin_stop (r, id) n). split; [reflexivity|]. cbn [lf_delivered lf_nodes with_delivered with_nodes]. split; [apply in_or_app; right; left; reflexivity|]. split; [exact (node_set_same _ _ _ _ En)|reflexivity].
  - intros (s' & n' & E & _). destruct (nth_error (lf_nodes s) k) as [n|] eqn:En; [|discriminate E]. destruct (accepting n) eqn:A; [|discriminate E]. unfold accepting in A. unfold phase_of. destruct (ln_phase n) eqn:P; try discriminate A; [left|right]; exists n; auto.
Qed.
End Runs.
Print Assumptions C83_everyone. Print Assumptions C83_in_time. Print Assumptions C83_asked. Print Assumptions C83_closed. Print Assumptions C83_bounded. Print Assumptions C83_progress.
Print Assumptions C83_why. Print Assumptions C83_ends. Print Assumptions C83_waits. Print Assumptions C83_all_gone. Print Assumptions C83_failed_registration.

(** ** Examples *)
Lemma ex_runs l : (exists s, run 1 l (life_start ex_reqs) = Some s) -> may_run 1 ex_reqs l (state_after l).
Proof. intros (s & E). split; [exact ex_distinct|]. split; [cbn; lia|]. unfold state_after. rewrite E. reflexivity. Qed.
(** The whole run: the nodes 0 and 1 are told twice, the late one once; the
    local one and the two others end. *)
Example C83_ex : may_run 1 ex_reqs (ex_begin ++ ex_wait ++ ex_rest) (state_after (ex_begin ++ ex_wait ++ ex_rest)) /\
  let s := state_after (ex_begin ++ ex_wait ++ ex_rest) in
  lf_main s = MDone /\ map fst (lf_replies s) = [0; 1; 2] /\ lf_sent s = [(1, 0%Z); (1, 1%Z); (2, 0%Z); (2, 1%Z); (2, 2%Z)] /\ lf_delivered s = [(1, 0%Z); (1, 1%Z); (2, 2%Z)] /\
  map ln_phase (lf_nodes s) = [NGone; NGone; NGone] /\ how_many is_main (ex_begin ++ ex_wait ++ ex_rest) = 13.
Proof. split; [apply ex_runs; eexists; vm_compute; reflexivity|]. vm_compute. repeat split. Qed.
(** Wait waits for the answers of nodes 0 and 1; node 1 has a handler while it
    is closing. *)
Example C83_ex_wait : may_run 1 ex_reqs ex_begin (state_after ex_begin) /\ lf_asked (state_after ex_begin) = false /\ registered (state_after ex_begin) 1 1%Z /\
  lf_sequences (state_after ex_begin) = 1 /\
  (exists s2, run 1 ex_wait (state_after ex_begin) = Some s2 /\ after_wait s2) /\
  let s := state_after (ex_begin ++ firstn 12 ex_wait) in
  exists n, nth_error (lf_nodes s) 1 = Some n /\ ln_phase n = NClosing /\ ln_told n = true /\ length (ln_handlers n) = 1 /\ lf_wait s = [(1, 1%Z)] /\ step 1 EMain s = None.
Proof.
  split; [apply ex_runs; eexists; vm_compute; reflexivity|]. split; [vm_compute; reflexivity|]. split; [exists (s_ "node1"); vm_compute; auto|]. split; [vm_compute; reflexivity|].
  split; [eexists; split; [vm_compute; reflexivity|exact Logic.I]|]. eexists. repeat split; vm_compute; reflexivity.
Qed.

(** At the end nothing is left to do for node 2, which was told and did not give
    up; a node manager that cannot register while nobody calls it ends. *)
Example C83_ex_gone : let l := ex_begin ++ ex_wait ++ ex_rest in let s := state_after l in
  registered s 2 2%Z /\ ~ In (EGiveUp 2) l /\ In (2, 2%Z) (lf_delivered s) /\ step 1 (EReply 2) s = None /\ step 1 (EOwner 2) s = None /\ step 1 (EReturn 2 0) s = None /\ phase_of s 2 NGone.
Proof.
  cbv zeta. split; [exists (s_ "node2"); vm_compute; auto|]. split; [vm_compute; intuition discriminate|]. split; [vm_compute; auto|]. do 3 (split; [vm_compute; reflexivity|]). eexists; split; vm_compute; reflexivity.
Qed.
Example C83_ex_failing : exists s n, run 1 [EStart 1 true; EGiveUp 1] (life_start ex_reqs) = Some s /\ nth_error (lf_nodes s) 1 = Some n /\ ln_phase n = NFailing /\ ln_handlers n = [] /\
  exists s', run 1 [EOwner 1] s = Some s' /\ phase_of s' 1 NGone.
Proof. do 2 eexists. split; [vm_compute; reflexivity|]. split; [reflexivity|]. do 2 (split; [reflexivity|]). eexists. split; [vm_compute; reflexivity|]. eexists. split; reflexivity. Qed.

(** ** Findings *)
(** Wait does not tell every registered node to shut down: one that registers
    while it is collecting the answers is told only by the destructor. *)
Theorem C83_wait_refuted : exists reqs l s k id, may_run 1 reqs l s /\ after_wait s /\ registered s k id /\ phase_of s k NServing /\ forall r, ~ In (r, id) (lf_sent s).
Proof.
  exists ex_reqs, (ex_begin ++ ex_wait), (state_after (ex_begin ++ ex_wait)), 2, 2%Z. split; [apply ex_runs; eexists; vm_compute; reflexivity|].
  split; [exact Logic.I|]. split; [exists (s_ "node2"); vm_compute; auto|]. split; [eexists; split; vm_compute; reflexivity|].
  intros r I. vm_compute in I. destruct I as [I|[I|[]]]; discriminate.
Qed.
(** A node manager hangs for ever if its registration fails (here: the reply is
    late) after the sequencer registered it and told it to shut down. *)
Definition ex_hang : list levent := [EMain; EBegin; EStart 0 true; EAccept 0; ERegister 0; EEnd true; EMain; EMain; EDeliver (1, 0%Z); EGiveUp 0].
Theorem C83_hang_refuted : exists reqs l s k, may_run 0 reqs l s /\ In (EGiveUp k) l /\ forall l' s', run 0 l' s = Some s' -> ~ phase_of s' k NGone.
Proof.
  destruct (run 0 ex_hang (life_start [ex_req (s_ "a") 1 (-1)])) as [s|] eqn:E; [|vm_compute in E; discriminate E].
  exists [ex_req (s_ "a") 1 (-1)], ex_hang, s, 0. split; [split; [repeat constructor; intros []|split; [lia|exact E]]|]. split; [vm_compute; auto 12|].
  intros l' s' R G. vm_compute in E. injection E as <-.
  match type of R with run 0 l' ?x = _ => pose proof (proj1 (C83_failed_registration 0 x 0 _ eq_refl eq_refl) (ex_intro _ l' (ex_intro _ s' (conj R G)))) as F end.
  specialize (F _ (or_introl eq_refl)). discriminate F.
Qed.
(** The sequencer keeps as registered, and offers for placement, a node manager
    that gave up before it was registered and has ended. *)
Theorem C83_zombie_refuted : exists reqs l s k id, may_run 0 reqs l s /\ lf_main s = MWait /\ lf_up s = true /\ registered s k id /\ phase_of s k NGone /\ node_attributes (lf_reg s) <> [].
Proof.
  destruct (run 0 [EMain; EStart 0 true; EAccept 0; EGiveUp 0; EOwner 0; ERegister 0] (life_start [ex_req (s_ "a") 1 (-1)])) as [s|] eqn:E; [|vm_compute in E; discriminate E].
  exists [ex_req (s_ "a") 1 (-1)], [EMain; EStart 0 true; EAccept 0; EGiveUp 0; EOwner 0; ERegister 0], s, 0, 0%Z.
  split; [split; [repeat constructor; intros []|split; [lia|exact E]]|]. vm_compute in E. injection E as <-.
  split; [reflexivity|]. split; [reflexivity|]. split; [exists (s_ "node0"); vm_compute; auto|]. split; [eexists; split; reflexivity|]. vm_compute. discriminate.
Qed.
Print Assumptions C83_delivers.
Print Assumptions C83_wait_refuted. Print Assumptions C83_hang_refuted. Print Assumptions C83_zombie_refuted.
Definition ex_asked : life := state_after (ex_begin ++ [EEnd true; EMain; EMain]).
Example C83_ex_delivers : In (1, 1%Z) (lf_sent ex_asked) /\ lf_delivered ex_asked = [] /\ phase_of ex_asked 1 NServing /\ registered ex_asked 1 1%Z.
Proof. split; [vm_compute; auto|]. split; [vm_compute; reflexivity|]. split; [eexists; split; vm_compute; reflexivity|exists (s_ "node1"); vm_compute; auto]. Qed.
