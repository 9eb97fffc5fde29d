(** C76: a test sequence on the whole cluster. *)
From Coq Require Import Ascii String List NArith ZArith Bool Arith Lia Permutation.
From Verif Require Import Base_Model Base_Proofs Grid_Model Grid_Proofs Canon_Model Canon_Proofs Place_Model Place_Proofs Util_Model Table_Model Peer_Proofs Cli_Model Cli_Proofs.
From Verif Require Seq_Model Table_Props.
From Verif Require Import Seq_Proofs Node_Model Node_Proofs Node_Props Cluster_Model Cluster_Proofs Cluster_Props Session_Model Session_Proofs.
Import ListNotations.
Open Scope Z_scope.

(** The sequencer when a sequence of [n] tests arrives: nodes registered
    themselves and got stubs, every request that will be made completes, the
    nodes have served any earlier requests, and those marked active are
    registered. *)
Record session_setting (r : Seq_Model.registry) (nes : Z -> node_env) (cancel : phase) (env : nat -> environment) (n : nat) (w : world) (active : list Z) : Prop := mkSS {
  st_registry : exists l out, all_stubs l /\ Seq_Model.register_all l Seq_Model.empty_registry = (out, r);
  st_cancel : completes active (ph_events cancel);
  st_events : forall i, (i < n)%nat -> completed_by (node_numbers r) (env i);
  st_nodes : forall id s, w id = Some s -> reachable (nes id) s;
  st_active : marked r active }.
Lemma st_sound r nes cancel env n w active : session_setting r nes cancel env n w active -> sound_registry r.
Proof. intros [(l & out & A & E) _ _ _ _]. exact (sound_history l out r A E). Qed.

Lemma session_cases fnm r nes summary big cancelled cancel env s w active out w' active' :
  run_session fnm r nes summary big cancelled cancel env s w active = (out, w', active') ->
  (out = Undefined /\ canonical_session s = VUB /\ w' = w /\ active' = active) \/
  (exists e, out = Refused e /\ canonical_session s = VErr e /\ w' = w /\ active' = active) \/
  exists tests w1 x, canonical_session s = VOk tests /\ cancel_active r cancel w active = (w1, x) /\
    ((w' = w1 /\ active' = active /\ (forall a, x <> PhOk a) /\ (out = Died \/ out = Waits)) \/
     exists a1 o alive, x = PhOk a1 /\ run_each fnm r nes summary cancelled env (Seq_Model.ss_keep_logs (ss_settings s)) 0 tests w1 a1 [] = (o, alive, w', active') /\
       out = match o with
             | None => if alive then Waits else Died
             | Some (Seq_Model.SeqOk, res) => if big res then Returned Seq_Model.SeqTooBig [] (Seq_Model.ss_shutdown (ss_settings s))
                                              else Returned Seq_Model.SeqOk res (Seq_Model.ss_shutdown (ss_settings s))
             | Some (st, res) => Returned st res false
             end).
Proof.
  intro E. unfold run_session in E. destruct (canonical_session s) as [|e|tests]; [injection E as <- <- <-; auto|injection E as <- <- <-; right; left; eauto|].
  right. right. destruct (cancel_active r cancel w active) as [w1 x] eqn:C. exists tests, w1, x. split; [reflexivity|]. split; [reflexivity|].
  destruct x as [| |who|a1].
  - injection E as <- <- <-. left. repeat split; auto; discriminate.
  - injection E as <- <- <-. left. repeat split; auto; discriminate.
  - injection E as <- <- <-. left. repeat split; auto; discriminate.
  - right. destruct (run_each _ _ _ _ _ _ _ _ _ _ _ _) as [[[o alive] w2] a2] eqn:R. exists a1, o, alive. split; [reflexivity|].
    destruct o as [[st res]|]; [|injection E as <- <- <-; auto]. destruct st; try (injection E as <- <- <-; auto). destruct (big res); injection E as <- <- <-; auto.
Qed.

(** What is reported depends on how many tests have run: all of them, or those
    before the first failure or cancellation; a reply that is too big is emptied.
    The sequencer shuts down only if all have run. *)
Theorem C76_status fnm r nes summary big cancelled cancel env s w active st res sd w' active' :
  run_session fnm r nes summary big cancelled cancel env s w active = (Returned st res sd, w', active') ->
  match st with
  | Seq_Model.SeqOk => length res = length (ss_tests s) /\ big res = false /\ sd = Seq_Model.ss_shutdown (ss_settings s)
  | Seq_Model.SeqTooBig => res = [] /\ (exists res', length res' = length (ss_tests s) /\ big res' = true) /\ sd = Seq_Model.ss_shutdown (ss_settings s)
  | Seq_Model.SeqCancelled => (length res < length (ss_tests s))%nat /\ cancelled (length res) = true /\ (forall i, (i < length res)%nat -> cancelled i = false) /\ sd = false
  | Seq_Model.SeqTestFailed => (length res < length (ss_tests s))%nat /\ (forall i, (i <= length res)%nat -> cancelled i = false) /\ sd = false
  end.
Proof.
  intro E. apply session_cases in E as [(E & _)|[(e & E & _)|(tests & w1 & x & Ct & _ & [(_ & _ & _ & [E|E])|(a1 & o & alive & _ & R & E)])]]; try discriminate.
  apply canonical_session_spec in Ct as (_ & F). assert (L : length tests = length (ss_tests s)) by (clear -F; induction F; cbn [length]; congruence).
  apply run_each_spec in R as (ran & rest & l & wm & am & A & T & N & M). apply in_turn_length in T. rewrite <- L, A, app_length. cbn [plus] in *.
  destruct o as [[st0 res0]|]; [|destruct alive; discriminate]. destruct M as (_ & M1 & M2). cbn [app] in M1.
  assert (Lr : length res0 = length ran) by (rewrite M1, map_length; exact T). destruct st0.
  - destruct M2 as (-> & _ & _). cbn [length]. destruct (big res0) eqn:B; injection E as -> -> ->.
    + split; [reflexivity|]. split; [exists res0; split; [lia|exact B]|reflexivity].
    + split; [lia|auto].
  - injection E as -> -> ->. destruct M2 as (Ne & K & _). rewrite Lr. split; [destruct rest; [congruence|cbn [length]; lia]|auto].
  - injection E as -> -> ->. destruct M2 as (K & t & rest' & ph & -> & _). rewrite Lr. split; [cbn [length]; lia|]. split; [|reflexivity].
    intros i Hi. destruct (Nat.eq_dec i (length ran)) as [->|]; [exact K|apply N; lia].
  - destruct M2.
Qed.
Print Assumptions C76_status.

(** Before the first test the active nodes are asked to stop; the sequence goes on
    as if they had been idle, whatever they answered. *)
Theorem C76_cancels_first fnm r nes summary big cancelled cancel env n s w active : session_setting r nes cancel env n w active ->
  exists w1, (forall id, ~ In id active -> w1 id = w id) /\
    (forall id, In id active -> forall nd, w id = Some nd -> w1 id = Some (match ph_fate cancel id with NotServed => nd | _ => Node_Model.cancel_traffic (s_ "cancelled by test_sequencer") nd end)) /\
    (forall tests, canonical_session s = VOk tests ->
       run_session fnm r nes summary big cancelled cancel env s w active = run_session fnm r nes summary big cancelled cancel env s w1 []).
Proof.
  intros St. destruct (cancel_active_spec r cancel w active (st_sound _ _ _ _ _ _ _ St) (st_active _ _ _ _ _ _ _ St) (st_cancel _ _ _ _ _ _ _ St)) as (w1 & E & H).
  exists w1. split; [|split].
  - intros id N. rewrite H. destruct (w id); [|reflexivity]. assert (X : existsb (Z.eqb id) active = false).
    { destruct (existsb (Z.eqb id) active) eqn:X; [|reflexivity]. apply existsb_exists in X as (j & J & Q). apply Z.eqb_eq in Q. subst j. contradiction. }
    rewrite X. reflexivity.
  - intros id I nd Hn. rewrite H, Hn. assert (X : existsb (Z.eqb id) active = true) by (apply existsb_exists; exists id; split; [exact I|apply Z.eqb_refl]). rewrite X. reflexivity.
  - intros tests Ct. unfold run_session. rewrite Ct, E.
    assert (E0 : cancel_active r cancel w1 [] = (w1, PhOk [])).
    { unfold cancel_active. assert (B : (Z.of_nat (@length Z []) <=? Seq_Model.nb_slots r) = true) by (apply Z.leb_le; unfold Seq_Model.nb_slots; cbn [length]; lia). rewrite B.
      cbn [forallb andb map call_all]. unfold Seq_Model.cancel_traffic. destruct (_ >? _) eqn:G; [exfalso; apply Z.leb_le in B; lia|]. destruct (ph_events cancel); reflexivity. }
    rewrite E0. reflexivity.
Qed.
Print Assumptions C76_cancels_first.

Lemma turn_nth fnm r nes env : forall ts i w a l w' a' k x ws, in_turn fnm r nes env i ts w a l w' a' -> nth_error l k = Some (x, ws) ->
  (forall id s, w id = Some s -> reachable (nes id) s) -> (exists h out, all_stubs h /\ Seq_Model.register_all h Seq_Model.empty_registry = (out, r)) ->
  Forall placeable ts -> (forall j, (j < length ts)%nat -> completed_by (node_numbers r) (env (i + j)%nat)) ->
  exists t w1 a1 w2 a2, nth_error ts k = Some t /\ setting r nes (env (i + k)%nat) t w1 /\ do_run_test fnm r nes (env (i + k)%nat) t w1 a1 = (TestOk x ws, w2, a2) /\
    (k = 0%nat -> w1 = w) /\ (k <> 0%nat -> forall id, occupied r id -> exists s, w1 id = Some s /\ nd_engines s = []).
Proof.
  induction ts as [|t ts IH]; intros i w a l w' a' k x ws T Hk R Rg P C; inversion T as [|? ? ? ? ? x0 ws0 w1 a1 l0 w2 a2 D T']; subst; [destruct k; discriminate|].
  apply Forall_cons_iff in P as (P1 & P). assert (C0 : completed_by (node_numbers r) (env i)) by (rewrite <- (Nat.add_0_r i); apply C; cbn [length]; lia).
  pose proof (mkSetting r nes (env i) t w Rg P1 C0 R) as St. destruct k as [|k]; cbn [nth_error] in *.
  - injection Hk as -> ->. exists t, w, a, w1, a1. rewrite Nat.add_0_r. repeat (split; [auto|]). congruence.
  - destruct (IH _ _ _ _ _ _ _ _ _ T' Hk) as (t' & w3 & a3 & w4 & a4 & N & S' & D' & Z0 & Zn); [exact (C74_any_outcome _ _ _ _ _ _ _ _ _ _ R D)|exact Rg|exact P| |].
    + intros j J. cbn [plus]. rewrite plus_n_Sm. apply C. cbn [length]. lia.
    + exists t', w3, a3, w4, a4. rewrite <- plus_n_Sm. split; [exact N|]. split; [exact S'|]. split; [exact D'|]. split; [discriminate|]. intros _ id O.
      destruct (Nat.eq_dec k 0) as [->|Nk]; [|exact (Zn Nk id O)]. rewrite (Z0 eq_refl). exact (proj1 (C74_cleared _ _ _ _ _ _ _ _ _ _ _ St D) id O).
Qed.
(** Every reported result is that of a whole test (C74, C75) of the test in its
    place of the request with the services completed; except for the first one it
    started on nodes without engines. *)
Theorem C76_results fnm r nes summary big cancelled cancel env s w active st res sd w' active' : session_setting r nes cancel env (length (ss_tests s)) w active ->
  Forall well_formed (ss_tests s) ->
  run_session fnm r nes summary big cancelled cancel env s w active = (Returned st res sd, w', active') ->
  forall i q, nth_error res i = Some q -> exists req t x ws w1 a1 w2 a2, nth_error (ss_tests s) i = Some req /\ completed_test req t /\
    setting r nes (env i) t w1 /\ do_run_test fnm r nes (env i) t w1 a1 = (TestOk x ws, w2, a2) /\
    q = mkReported t (tr_placement x) (if Seq_Model.ss_keep_logs (ss_settings s) then tr_logs x else []) (summary x) /\
    (i <> 0%nat -> forall id, occupied r id -> exists nd, w1 id = Some nd /\ nd_engines nd = []).
Proof.
  intros St Wf E i q Hq. apply session_cases in E as [(E & _)|[(e & E & _)|(tests & w1 & x & Ct & Ca & [(_ & _ & _ & [E|E])|(a1 & o & alive & -> & R & E)])]]; try discriminate.
  apply canonical_session_spec in Ct as (V & F). apply run_each_spec in R as (ran & rest & l & wm & am & A & T & _ & M). cbn [plus] in *.
  pose proof (cancel_active_reachable _ _ _ _ _ _ nes Ca (st_nodes _ _ _ _ _ _ _ St)) as R1.
  assert (L : length tests = length (ss_tests s)) by (clear -F; induction F; cbn [length]; congruence).
  assert (P : Forall placeable tests).
  { clear -V F Wf. induction F as [|t t' ts ts' c F IH]; [constructor|]. apply Forall_cons_iff in V as (V1 & V), Wf as (W1 & Wf). constructor; [exact (completed_placeable _ _ V1 W1 c)|auto]. }
  rewrite A in P. apply Forall_app in P as (P & _).
  assert (Rs : exists l', nth_error (map (fun y => report summary (Seq_Model.ss_keep_logs (ss_settings s)) (fst y)) l) i = Some q /\ l' = l).
  { exists l. split; [|reflexivity]. destruct o as [[st0 res0]|]; [|destruct alive; discriminate]. destruct M as (_ & M1 & M2). cbn [app] in M1.
    destruct st0; [|injection E as _ -> _; rewrite <- M1; exact Hq|injection E as _ -> _; rewrite <- M1; exact Hq|destruct M2].
    destruct (big res0); injection E as _ -> _; [destruct i; discriminate|]. rewrite <- M1. exact Hq. }
  destruct Rs as (_ & Hi & _). rewrite nth_error_map in Hi. destruct (nth_error l i) as [[x ws]|] eqn:Hl; [|discriminate]. cbn [option_map fst] in Hi. injection Hi as <-.
  destruct (turn_nth _ _ _ _ _ _ _ _ _ _ _ _ _ _ T Hl R1 (st_registry _ _ _ _ _ _ _ St) P) as (t & w3 & a3 & w4 & a4 & N & S' & D & _ & Zn).
  { intros j J. cbn [plus]. apply (st_events _ _ _ _ _ _ _ St). rewrite <- L, A, app_length. lia. }
  cbn [plus] in *. assert (Ht : nth_error tests i = Some t). { rewrite A, nth_error_app1; [exact N|]. apply nth_error_Some. congruence. }
  destruct (Forall2_right _ _ _ F i _ Ht) as (req & Hr & C). exists req, t, x, ws, w3, a3, w4, a4. split; [exact Hr|]. split; [exact C|]. split; [exact S'|]. split; [exact D|]. split; [|exact Zn].
  destruct (C74_engines _ _ _ _ _ _ _ _ _ _ _ S' D) as (m & _ & Et & _). unfold report. rewrite Et. reflexivity.
Qed.
Print Assumptions C76_results.

(** What a result shows: the test as it was run, one endpoint for every instance
    of its services, and logs of such instances only, if logs were asked for. *)
Theorem C76_reported fnm r nes summary big cancelled cancel env s w active st res sd w' active' : session_setting r nes cancel env (length (ss_tests s)) w active ->
  Forall well_formed (ss_tests s) ->
  run_session fnm r nes summary big cancelled cancel env s w active = (Returned st res sd, w', active') ->
  forall i q, nth_error res i = Some q -> exists req, nth_error (ss_tests s) i = Some req /\ completed_test req (re_test q) /\
    NoDup (map fst (re_placement q)) /\ (forall n, In n (map fst (re_placement q)) <-> In n (names (config_of (re_test q)))) /\
    NoDup (map fst (re_logs q)) /\ (forall n, In n (map fst (re_logs q)) -> In n (names (config_of (re_test q)))) /\
    (Seq_Model.ss_keep_logs (ss_settings s) = false -> re_logs q = []).
Proof.
  intros St Wf E i q Hq. destruct (C76_results _ _ _ _ _ _ _ _ _ _ _ _ _ _ _ _ St Wf E i q Hq) as (req & t & x & ws & w1 & a1 & w2 & a2 & Hr & C & S' & D & -> & _).
  exists req. cbn [re_test re_placement re_logs]. split; [exact Hr|]. split; [exact C|].
  destruct (C74_placement _ _ _ _ _ _ _ _ _ _ _ S' D) as (P1 & P2 & _). destruct (C74_logs _ _ _ _ _ _ _ _ _ _ _ S' D) as (L1 & L2 & _).
  split; [exact P1|]. split; [exact P2|]. destruct (Seq_Model.ss_keep_logs (ss_settings s)).
  - split; [exact L1|]. split; [|discriminate]. intros n I. apply in_map_iff in I as ([n' v] & <- & I). cbn [fst].
    apply (Place_Proofs.map_find_iff n' v _ L1) in I. destruct (L2 n' v I) as (id & e & O & At & _).
    destruct (C74_engines _ _ _ _ _ _ _ _ _ _ _ S' D) as (m & P & _ & En). destruct (C74_traffic _ _ _ _ _ _ _ _ _ _ _ id S' D O) as (s2 & s3 & evs & H2 & H3 & Hen & _).
    destruct At as (s3' & H3' & I3). rewrite H3 in H3'. injection H3' as <-. rewrite Hen in I3.
    destruct (En id n' O) as (_ & _ & En'). destruct (En' e) as (k & j & sv & Hk & Hj & Hn & _); [exists s2; auto|].
    apply (In_names (config_of t) n' (pl_sane t (se_test _ _ _ _ _ S'))). exists k, j, sv. split; [exact Hk|]. split; [unfold svc_count in *; lia|exact Hn].
  - split; [constructor|]. split; [intros n []|reflexivity].
Qed.
Print Assumptions C76_reported.

(** After any outcome the nodes and the marks of the active ones are as another
    sequence needs them (C76 applies to it); after a success no node is active. *)
Lemma turn_kept fnm r nes env : sound_registry r -> forall ts i w a l w' a', in_turn fnm r nes env i ts w a l w' a' ->
  (forall id s, w id = Some s -> reachable (nes id) s) -> marked r a ->
  (forall id s, w' id = Some s -> reachable (nes id) s) /\ marked r a'.
Proof.
  intros Sr ts i w a l w' a' T. induction T as [|i t ts w a x ws w1 a1 l w2 a2 D T IH]; intros R K; [auto|].
  apply IH; [exact (C74_any_outcome _ _ _ _ _ _ _ _ _ _ R D)|exact (test_marked _ _ _ _ _ _ _ _ _ _ Sr K D)].
Qed.
Theorem C76_again fnm r nes summary big cancelled cancel env n s w active out w' active' : session_setting r nes cancel env n w active ->
  run_session fnm r nes summary big cancelled cancel env s w active = (out, w', active') ->
  forall cancel' env' n', completes active' (ph_events cancel') -> (forall i, (i < n')%nat -> completed_by (node_numbers r) (env' i)) ->
    session_setting r nes cancel' env' n' w' active'.
Proof.
  intros St E cancel' env' n' C' E'. pose proof (st_sound _ _ _ _ _ _ _ St) as Sr. destruct St as [Rg Cc _ Nd Ac].
  enough (H : (forall id nd, w' id = Some nd -> reachable (nes id) nd) /\ marked r active') by (destruct H; constructor; assumption).
  apply session_cases in E as [(_ & _ & -> & ->)|[(e & _ & _ & -> & ->)|(tests & w1 & x & _ & Ca & Q)]]; [auto|auto|].
  pose proof (cancel_active_reachable _ _ _ _ _ _ nes Ca Nd) as R1. destruct Q as [(-> & -> & _)|(a1 & o & alive & -> & R & _)]; [auto|].
  assert (K1 : marked r a1). { destruct (cancel_active_spec r cancel w active Sr Ac Cc) as (w1' & Q & _). rewrite Q in Ca. injection Ca as _ <-. split; [constructor|intros id []]. }
  apply run_each_spec in R as (ran & rest & l & wm & am & _ & T & _ & M). destruct (turn_kept _ _ _ _ Sr _ _ _ _ _ _ _ T R1 K1) as (Rm & Km).
  assert (Z0 : forall e t o0, do_run_test fnm r nes e t wm am = (o0, w', active') -> (forall id nd, w' id = Some nd -> reachable (nes id) nd) /\ marked r active').
  { intros e t o0 D. split; [exact (C74_any_outcome _ _ _ _ _ _ _ _ _ _ Rm D)|exact (test_marked _ _ _ _ _ _ _ _ _ _ Sr Km D)]. }
  destruct o as [[[| | |] res0]|].
  - destruct M as (_ & _ & _ & -> & ->). auto.
  - destruct M as (_ & _ & _ & _ & -> & ->). auto.
  - destruct M as (_ & _ & _ & t & rest' & ph & _ & D). exact (Z0 _ _ _ D).
  - destruct M as (_ & _ & M). destruct M.
  - destruct M as (_ & t & rest' & _ & D). exact (Z0 _ _ _ D).
Qed.
Print Assumptions C76_again.

Lemma turn_quiet fnm r nes env : forall ts i w l w' a', in_turn fnm r nes env i ts w [] l w' a' ->
  (forall id s, w id = Some s -> reachable (nes id) s) -> (exists h out, all_stubs h /\ Seq_Model.register_all h Seq_Model.empty_registry = (out, r)) ->
  Forall placeable ts -> (forall j, (j < length ts)%nat -> completed_by (node_numbers r) (env (i + j)%nat)) ->
  a' = [] /\ (ts <> [] -> forall id, occupied r id -> exists s, w' id = Some s /\ nd_engines s = []) /\ (forall id, ~ occupied r id -> w' id = w id).
Proof.
  induction ts as [|t ts IH]; intros i w l w' a' T R Rg P C; inversion T as [|? ? ? ? ? x0 ws0 w1 a1 l0 w2 a2 D T']; subst; [split; [reflexivity|split; [congruence|auto]]|].
  apply Forall_cons_iff in P as (P1 & P). assert (C0 : completed_by (node_numbers r) (env i)) by (rewrite <- (Nat.add_0_r i); apply C; cbn [length]; lia).
  pose proof (mkSetting r nes (env i) t w Rg P1 C0 R) as St. destruct (C74_cleared _ _ _ _ _ _ _ _ _ _ _ St D) as (K1 & K2 & K3).
  assert (a1 = []) as ->. { destruct a1 as [|j a1]; [reflexivity|]. destruct (proj1 (K3 j) (or_introl eq_refl)) as ([] & _). }
  destruct (IH _ _ _ _ _ T') as (A & B & B'); [exact (C74_any_outcome _ _ _ _ _ _ _ _ _ _ R D)|exact Rg|exact P| |].
  - intros j J. cbn [plus]. rewrite plus_n_Sm. apply C. cbn [length]. lia.
  - split; [exact A|]. split; [|intros id O; rewrite (B' id O); exact (K2 id O)]. intros _ id O. destruct ts as [|t' ts]; [inversion T'; subst; exact (K1 id O)|apply B; [discriminate|exact O]].
Qed.
(** After a sequence that went well no node is active and none has engines. *)
Theorem C76_quiet fnm r nes summary big cancelled cancel env s w active st res sd w' active' : session_setting r nes cancel env (length (ss_tests s)) w active ->
  Forall well_formed (ss_tests s) ->
  run_session fnm r nes summary big cancelled cancel env s w active = (Returned st res sd, w', active') -> st <> Seq_Model.SeqTestFailed ->
  active' = [] /\ ((st = Seq_Model.SeqOk -> res <> [] -> forall id, occupied r id -> exists nd, w' id = Some nd /\ nd_engines nd = [])) /\
  (forall id, ~ occupied r id -> w' id = w id).
Proof.
  intros St Wf E Nf. pose proof (st_sound _ _ _ _ _ _ _ St) as Sr.
  apply session_cases in E as [(E & _)|[(e & E & _)|(tests & w1 & x & Ct & Ca & [(_ & _ & _ & [E|E])|(a1 & o & alive & -> & R & E)])]]; try discriminate.
  apply canonical_session_spec in Ct as (V & F). apply run_each_spec in R as (ran & rest & l & wm & am & A & T & _ & M). cbn [plus] in *.
  destruct (cancel_active_spec r cancel w active Sr (st_active _ _ _ _ _ _ _ St) (st_cancel _ _ _ _ _ _ _ St)) as (w1' & Q & Hw). rewrite Q in Ca. injection Ca as -> <-.
  assert (R1 : forall id nd, w1 id = Some nd -> reachable (nes id) nd) by exact (cancel_active_reachable _ _ _ _ _ _ nes Q (st_nodes _ _ _ _ _ _ _ St)).
  assert (L : length tests = length (ss_tests s)) by (clear -F; induction F; cbn [length]; congruence).
  assert (P : Forall placeable tests).
  { clear -V F Wf. induction F as [|t t' ts ts' c F IH]; [constructor|]. apply Forall_cons_iff in V as (V1 & V), Wf as (W1 & Wf). constructor; [exact (completed_placeable _ _ V1 W1 c)|auto]. }
  rewrite A in P. apply Forall_app in P as (P & _).
  destruct (turn_quiet _ _ _ _ _ _ _ _ _ _ T R1 (st_registry _ _ _ _ _ _ _ St) P) as (Am & Em & Om).
  { intros j J. cbn [plus]. apply (st_events _ _ _ _ _ _ _ St). rewrite <- L, A, app_length. lia. }
  assert (Ow : forall id, ~ occupied r id -> wm id = w id).
  { intros id O. rewrite (Om id O), Hw. destruct (w id); [|reflexivity]. destruct (existsb (Z.eqb id) active) eqn:X; [|reflexivity]. exfalso. apply O.
    apply existsb_exists in X as (j & J & K). apply Z.eqb_eq in K. subst j. exact (proj2 (st_active _ _ _ _ _ _ _ St) id J). }
  destruct o as [[st0 res0]|]; [|destruct alive; discriminate]. destruct M as (_ & M1 & M2). cbn [app] in M1. destruct st0.
  - destruct M2 as (_ & -> & ->). split; [exact Am|]. split; [|exact Ow]. intros So Nr. apply Em. intros ->. apply in_turn_length in T. cbn [length] in T. apply length_zero_iff_nil in T. subst l. cbn [map] in M1.
    destruct (big res0); injection E as Es Er _; congruence.
  - destruct M2 as (_ & _ & -> & ->). injection E as -> -> _. split; [exact Am|]. split; [discriminate|exact Ow].
  - injection E as -> -> _. congruence.
  - destruct M2.
Qed.
Print Assumptions C76_quiet.

(** A request is accepted if its tests obey the documented rules and the products
    of their sizes fit; one that breaks a rule is refused and has no effect. *)
Definition rules (t : whole) : Prop := test_valid (dsd_of (wt_test t)) /\ Forall (fun s => Grid_Proofs.fits (sv_spec s)) (cf_services (config_of t)).
Lemma canonical_session_total s : Forall rules (ss_tests s) -> exists tests, canonical_session s = VOk tests.
Proof.
  intro H. unfold canonical_session, canonical_tests_of. cbn [sq_settings sq_tests].
  destruct (proj2 (canonical_sequence_spec (Canon_Model.mkSeq None (map dsd_of (map wt_test (ss_tests s)))))) as (t' & E).
  - cbn [ts_tests]. rewrite map_map. apply Forall_map. eapply Forall_impl; [|exact H]. intros t (A & _). exact A.
  - cbn [ts_tests]. rewrite map_map. apply Forall_map. eapply Forall_impl; [|exact H]. intros t (_ & A). unfold dsd_of. cbn [d_services]. apply Forall_map. exact A.
  - rewrite E. eauto.
Qed.
Theorem C76_accepted fnm r nes summary big cancelled cancel env s w active out w' active' :
  run_session fnm r nes summary big cancelled cancel env s w active = (out, w', active') ->
  (Forall rules (ss_tests s) -> out <> Undefined /\ forall e, out <> Refused e) /\
  (~ Forall (fun t => test_valid (dsd_of (wt_test t))) (ss_tests s) -> (out = Undefined \/ exists e, out = Refused e) /\ w' = w /\ active' = active).
Proof.
  intro E. apply session_cases in E. split.
  - intro R. destruct (canonical_session_total s R) as (tests & C). destruct E as [(_ & K & _)|[(e & _ & K & _)|(ts & w1 & x & _ & _ & Q)]]; [congruence|congruence|].
    destruct Q as [(_ & _ & _ & [->| ->])|(a1 & o & alive & _ & _ & ->)]; [split; intros; discriminate|split; intros; discriminate|].
    destruct o as [[[| | |] res]|]; try (split; intros; discriminate); [destruct (big res)|destruct alive]; split; intros; discriminate.
  - intro N. destruct E as [(-> & _ & -> & ->)|[(e & -> & _ & -> & ->)|(ts & w1 & x & C & _)]]; [auto|eauto|]. apply canonical_session_spec in C as (V & _). contradiction.
Qed.
Print Assumptions C76_accepted.

(** A request that is accepted and tame is answered: the sequencer neither dies
    nor waits for ever. *)
Theorem C76_ends fnm r nes summary big cancelled cancel env s w active : session_setting r nes cancel env (length (ss_tests s)) w active ->
  Forall rules (ss_tests s) -> Forall well_formed (ss_tests s) -> Forall tame (ss_tests s) ->
  exists st res sd w' active', run_session fnm r nes summary big cancelled cancel env s w active = (Returned st res sd, w', active').
Proof.
  intros St Rl Wf Ta. destruct (run_session fnm r nes summary big cancelled cancel env s w active) as [[out w'] active'] eqn:E.
  destruct (C76_accepted _ _ _ _ _ _ _ _ _ _ _ _ _ _ E) as (Ac & _). destruct (Ac Rl) as (A1 & A2). pose proof (st_sound _ _ _ _ _ _ _ St) as Sr.
  apply session_cases in E as [(-> & _)|[(e & -> & _)|(tests & w1 & x & Ct & Ca & Q)]]; [congruence|exfalso; exact (A2 e eq_refl)|].
  destruct (cancel_active_spec r cancel w active Sr (st_active _ _ _ _ _ _ _ St) (st_cancel _ _ _ _ _ _ _ St)) as (w1' & Qc & _). rewrite Qc in Ca. injection Ca as -> <-.
  destruct Q as [(_ & _ & K & _)|(a1 & o & alive & Ea & R & ->)]; [exfalso; exact (K _ eq_refl)|]. injection Ea as <-.
  destruct o as [[st0 res0]|]; [|exfalso].
  - destruct st0; [destruct (big res0)| | |]; do 5 eexists; reflexivity.
  - assert (R1 : forall id nd, w1 id = Some nd -> reachable (nes id) nd) by exact (cancel_active_reachable _ _ _ _ _ _ nes Qc (st_nodes _ _ _ _ _ _ _ St)).
    apply canonical_session_spec in Ct as (V & F). assert (L : length tests = length (ss_tests s)) by (clear -F; induction F; cbn [length]; congruence).
    apply run_each_spec in R as (ran & rest & l & wm & am & A & T & _ & _ & t & rest' & -> & D). cbn [plus] in *.
    destruct (turn_kept _ _ _ _ Sr _ _ _ _ _ _ _ T R1) as (Rm & Km); [split; [constructor|intros id []]|].
    assert (Ht : nth_error tests (length ran) = Some t) by (rewrite A, nth_error_app2, Nat.sub_diag by lia; reflexivity).
    destruct (Forall2_right _ _ _ F _ _ Ht) as (req & Hr & C). apply nth_error_In in Hr as Ir. rewrite Forall_forall in V, Wf, Ta.
    assert (S' : setting r nes (env (length ran)) t wm).
    { constructor; [apply St|exact (completed_placeable _ _ (V _ Ir) (Wf _ Ir) C)|apply (st_events _ _ _ _ _ _ _ St); rewrite <- L; apply nth_error_Some; congruence|exact Rm]. }
    destruct (completed_defined fnm (Seq_Model.node_attributes r) _ _ (V _ Ir) (Wf _ Ir) (Ta _ Ir) C) as (U1 & U2).
    destruct (C74_ends fnm r nes _ t wm am S') as (o' & w3 & a3 & D' & O); [intros y <-; auto|]. rewrite D' in D. injection D as D _ _.
    destruct alive; destruct O as [(ph & O)|(res & ws & O)]; congruence.
Qed.
Print Assumptions C76_ends.

(** All tests succeed if no new sequence arrives and the outside world does its
    part: every node is up and answers, can create the engines each test puts
    on it, and these can connect. *)
Theorem C76_succeeds fnm r nes summary big cancelled cancel env s w active : session_setting r nes cancel env (length (ss_tests s)) w active ->
  Forall rules (ss_tests s) -> Forall well_formed (ss_tests s) -> (forall i, cancelled i = false) -> (forall res, big res = false) ->
  (forall id, occupied r id -> w id <> None) ->
  (forall i req t, nth_error (ss_tests s) i = Some req -> completed_test req t -> cf_services (config_of t) <> [] /\ 0 < wt_threads t /\
     attribute_int (te_attributes (wt_test t)) timeout_name 3600 <> None /\
     exists m, place_services fnm (desc_of t) (Seq_Model.node_attributes r) = PlaceOk m /\
     forall id, occupied r id ->
       (forall ph, In ph [ev_configure (env i); ev_introduce (env i); ev_run (env i); ev_get (env i)] -> ph_fate ph id = Served) /\
       (forall n, hosts m (Seq_Model.node_alias id) n -> can_host (nes id) (ph_ext (ev_configure (env i)) id) (traffic_of t) n) /\
       (forall j, ex_connect (ph_ext (ev_introduce (env i)) id) j = None)) ->
  exists res w', run_session fnm r nes summary big cancelled cancel env s w active = (Returned Seq_Model.SeqOk res (Seq_Model.ss_shutdown (ss_settings s)), w', []) /\
    length res = length (ss_tests s).
Proof.
  intros St Rl Wf Nc Nb Up Hyp. pose proof (st_sound _ _ _ _ _ _ _ St) as Sr.
  destruct (run_session fnm r nes summary big cancelled cancel env s w active) as [[out w'] active'] eqn:E. pose proof E as E0.
  destruct (C76_accepted _ _ _ _ _ _ _ _ _ _ _ _ _ _ E) as (Ac & _). destruct (Ac Rl) as (A1 & A2).
  apply session_cases in E as [(-> & _)|[(e & -> & _)|(tests & w1 & x & Ct & Ca & Q)]]; [congruence|exfalso; exact (A2 e eq_refl)|].
  destruct (cancel_active_spec r cancel w active Sr (st_active _ _ _ _ _ _ _ St) (st_cancel _ _ _ _ _ _ _ St)) as (w1' & Qc & Hw). rewrite Qc in Ca. injection Ca as -> <-.
  destruct Q as [(_ & _ & K & _)|(a1 & o & alive & Ea & R & Eo)]; [exfalso; exact (K _ eq_refl)|]. injection Ea as <-.
  enough (Ok : exists res, o = Some (Seq_Model.SeqOk, res)).
  { destruct Ok as (res & ->). rewrite Nb in Eo. subst out. exists res, w'. destruct (C76_quiet _ _ _ _ _ _ _ _ _ _ _ _ _ _ _ _ St Wf E0) as (-> & _); [discriminate|]. split; [reflexivity|].
    apply (C76_status _ _ _ _ _ _ _ _ _ _ _ _ _ _ _ _ E0). }
  assert (R1 : forall id nd, w1 id = Some nd -> reachable (nes id) nd) by exact (cancel_active_reachable _ _ _ _ _ _ nes Qc (st_nodes _ _ _ _ _ _ _ St)).
  apply canonical_session_spec in Ct as (V & F). assert (L : length tests = length (ss_tests s)) by (clear -F; induction F; cbn [length]; congruence).
  assert (P : Forall placeable tests).
  { clear -V F Wf. induction F as [|t t' ts ts' c F IH]; [constructor|]. apply Forall_cons_iff in V as (V1 & V), Wf as (W1 & Wf). constructor; [exact (completed_placeable _ _ V1 W1 c)|auto]. }
  apply run_each_spec in R as (ran & rest & l & wm & am & A & T & _ & M). cbn [plus] in *.
  assert (Up1 : forall id, occupied r id -> w1 id <> None). { intros id O. rewrite Hw. specialize (Up id O). destruct (w id); [discriminate|congruence]. }
  assert (Pr : Forall placeable ran) by (rewrite A in P; apply Forall_app in P; apply P).
  assert (Cr : forall j, (j < length ran)%nat -> completed_by (node_numbers r) (env j)) by (intros j J; apply (st_events _ _ _ _ _ _ _ St); rewrite <- L, A, app_length; lia).
  destruct (turn_quiet _ _ _ _ _ _ _ _ _ _ T R1 (st_registry _ _ _ _ _ _ _ St) Pr Cr) as (-> & Em & Om).
  assert (Upm : forall id, occupied r id -> wm id <> None).
  { intros id O. destruct ran as [|t0 ran]; [inversion T; subst; exact (Up1 id O)|]. destruct (Em ltac:(discriminate) id O) as (nd & -> & _). discriminate. }
  destruct (turn_kept _ _ _ _ Sr _ _ _ _ _ _ _ T R1) as (Rm & _); [split; [constructor|intros id []]|].
  assert (Z0 : forall t rest', rest = t :: rest' -> exists x ws w2 a2, do_run_test fnm r nes (env (length ran)) t wm [] = (TestOk x ws, w2, a2)).
  { intros t rest' ->. assert (Ht : nth_error tests (length ran) = Some t) by (rewrite A, nth_error_app2, Nat.sub_diag by lia; reflexivity).
    destruct (Forall2_right _ _ _ F _ _ Ht) as (req & Hr & C). destruct (Hyp _ _ _ Hr C) as (H1 & H2 & H3 & m & H4 & H5). rewrite Forall_forall in P.
    apply (C74_succeeds fnm r nes (env (length ran)) t wm [] m); auto.
    constructor; [apply St|exact (P _ (nth_error_In _ _ Ht))|apply (st_events _ _ _ _ _ _ _ St); rewrite <- L; apply nth_error_Some; congruence|exact Rm]. }
  destruct o as [[[| | |] res0]|].
  - eauto.
  - destruct M as (_ & _ & _ & M & _). rewrite Nc in M. discriminate.
  - destruct M as (_ & _ & _ & t & rest' & ph & Er & D). destruct (Z0 _ _ Er) as (x & ws & w2 & a2 & D'). rewrite D' in D. discriminate.
  - destruct M as (_ & _ & M). destruct M.
  - destruct M as (_ & t & rest' & Er & D). destruct (Z0 _ _ Er) as (x & ws & w2 & a2 & D'). rewrite D' in D. destruct alive; discriminate.
Qed.
Print Assumptions C76_succeeds.

(** ** Examples: a test that fails, then two tests, on four nodes *)
(** The request gives the dimensions of the grids only. *)
Definition bare (t : whole) : whole :=
  with_test t (set_config (set_specs (map (fun s => mkSpec (sp_name s) None (sp_opts s) (sp_x s) (sp_y s) (sp_z s)) (map sv_spec (cf_services (config_of t)))) (config_of t)) (wt_test t)).
Definition ex_other : whole := ex_whole [(s_ "server/1/0/0", [[mkCon (s_ "rack") [] [0] RModEqual 2]])] [(s_ "node0", [s_ "client/0/0/0"; s_ "client/1/0/0"])].
Definition ex_first : session := mkSession (Seq_Model.mkSet true true) [bare ex_t].
Definition ex_second : session := mkSession (Seq_Model.mkSet false true) [bare ex_t; bare ex_other].
(** During the first sequence node 1 runs its traffic, but its answer is lost. *)
Definition ex_env1 (i : nat) : environment :=
  mkEnvironment (ex_phase [0; 1; 2; 3]) (ex_phase [3; 1; 2; 0]) (mkPhase (fun id => if id =? 1 then NotAnswered else Served) (fun _ => ex_good) (map (fun i => (i, true)) [1; 0; 3; 2])) (ex_phase [2; 3; 0; 1]).
Definition ex_env2 (i : nat) : environment := match i with O => ex_ev | _ => ex_double_ev end.
Definition ex_cancel (order : list Z) : phase := mkPhase (fun id => if id =? 2 then NotServed else Served) (fun _ => ex_good) (map (fun i => (i, true)) order).
Definition ex_big (l : list reported) : bool := (5 <? length l)%nat.
Definition ex_summary (x : test_result) : list str := [s_ "logs: " ++ dec_of_Z (Z.of_nat (length (tr_logs x)))].
Notation ex_run1 := (run_session (fun _ _ => true) ex_r ex_nes ex_summary ex_big (fun _ => false) (ex_cancel []) ex_env1 ex_first ex_w []).
Definition ex_w1 : world := snd (fst ex_run1).
Definition ex_run2 := run_session (fun _ _ => true) ex_r ex_nes ex_summary ex_big (fun _ => false) (ex_cancel [1; 3; 0; 2]) ex_env2 ex_second ex_w1 [3; 1; 0; 2].

Lemma ex_orders order : Permutation order [0; 1; 2; 3] -> completes (node_numbers ex_r) (map (fun i => (i, true)) order) /\ completes (node_numbers ex_r) (ph_events (ex_phase order)).
Proof.
  intro P. assert (Q : map fst (filter snd (map (fun i : Z => (i, true)) order)) = order) by (clear P; induction order as [|x o IH]; [reflexivity|]; cbn [map filter snd fst]; f_equal; exact IH).
  split; unfold completes; [rewrite Q; exact P|]. unfold ex_phase. cbn [ph_events filter snd]. rewrite Q. exact P.
Qed.
Ltac orders := apply ex_orders; apply NoDup_Permutation; try (repeat constructor; cbn [In]; intuition discriminate); intro x; cbn [In]; tauto.
Example C76_ex_first : session_setting ex_r ex_nes (ex_cancel []) ex_env1 (length (ss_tests ex_first)) ex_w [].
Proof.
  destruct C74_ex_setting as [Rg _ _ Nd]. constructor; [exact Rg|constructor| |exact Nd|split; [constructor|intros id []]].
  intros i _. constructor; orders.
Qed.
(** The nodes are left with the engines of the failed test; the reply says nothing
    about any node. *)
Example C76_ex_failed : fst (fst ex_run1) = Returned Seq_Model.SeqTestFailed [] false /\ snd ex_run1 = [3; 1; 0; 2] /\
  option_map (fun nd => map (fun ke => (fst ke, en_cancel (snd ke))) (nd_engines nd)) (ex_w1 3) = Some [(s_ "client/0/0/0", None); (s_ "client/1/0/0", None)].
Proof. split; [vm_compute; reflexivity|]. split; vm_compute; reflexivity. Qed.
Lemma ex_run1_eq : ex_run1 = (Returned Seq_Model.SeqTestFailed [] false, ex_w1, [3; 1; 0; 2]).
Proof. destruct C76_ex_failed as (A & B & _). unfold ex_w1. revert A B. generalize ex_run1. intros [[o w] a] A B. cbn [fst snd] in *. subst. reflexivity. Qed.
Lemma ex_again o w' a' : ex_run1 = (o, w', a') -> forall cancel' env' n', completes a' (ph_events cancel') -> (forall i, (i < n')%nat -> completed_by (node_numbers ex_r) (env' i)) ->
  session_setting ex_r ex_nes cancel' env' n' w' a'.
Proof. intro E. exact (C76_again _ _ _ _ _ _ _ _ _ _ _ _ _ _ _ C76_ex_first E). Qed.
Example C76_ex_second : session_setting ex_r ex_nes (ex_cancel [1; 3; 0; 2]) ex_env2 (length (ss_tests ex_second)) ex_w1 [3; 1; 0; 2].
Proof.
  apply (ex_again _ _ _ ex_run1_eq).
  - unfold completes. cbn [ex_cancel ph_events filter map snd fst]. apply perm_swap.
  - intros [|i] _; constructor; orders.
Qed.
Lemma ex_accepted (s : session) : (exists l, canonical_session s = VOk l) -> Forall (fun t => test_valid (dsd_of (wt_test t))) (ss_tests s).
Proof. intros (l & E). apply canonical_session_spec in E. apply E. Qed.
Example C76_ex_request : Forall rules (ss_tests ex_second) /\ Forall well_formed (ss_tests ex_second) /\ Forall tame (ss_tests ex_second).
Proof.
  assert (Fi : Forall (fun t => Forall (fun s => Grid_Proofs.fits (sv_spec s)) (cf_services (config_of t))) (ss_tests ex_second)).
  { repeat constructor; vm_compute; discriminate. }
  split; [|split].
  - assert (V := ex_accepted ex_second ltac:(eexists; vm_compute; reflexivity)). rewrite Forall_forall in *. intros t I. split; [exact (V t I)|exact (Fi t I)].
  - repeat constructor; try (vm_compute; reflexivity); try (vm_compute; discriminate); try (vm_compute; intuition discriminate).
  - constructor; [|constructor; [|constructor]]; constructor; try (vm_compute; discriminate); (constructor; [|constructor]); intros cs c [<-|[]] [<-|[]]; cbn; intuition discriminate.
Qed.
(** The second sequence: every node but number 2, which the request did not reach,
    cancels the old engines; both tests succeed; their logs are dropped. *)
Example C76_ex_run : exists q1 q2, fst (fst ex_run2) = Returned Seq_Model.SeqOk [q1; q2] true /\ snd ex_run2 = [] /\
  map (fun x => (fst x, ep_address (snd x))) (re_placement q2) =
    [(s_ "server/2/0/0", s_ "10.0.0.3:5004"); (s_ "server/1/0/0", s_ "10.0.0.1:5002"); (s_ "server/0/0/0", s_ "10.0.0.2:5002");
     (s_ "client/0/0/0", s_ "10.0.0.0:5002"); (s_ "client/1/0/0", s_ "10.0.0.0:5003")] /\
  re_logs q1 = [] /\ re_summary q1 = [s_ "logs: 5"] /\ map (fun s => (sp_x s, sp_count s)) (map sv_spec (cf_services (config_of (re_test q2)))) = [(Some 2, Some 2); (Some 3, Some 3)].
Proof. eexists. eexists. split; [vm_compute; reflexivity|]. repeat (split; [vm_compute; reflexivity|]). vm_compute. reflexivity. Qed.
Example C76_ex_cancels : option_map (fun nd => filter (fun e => match e with EvCancel _ => true | _ => false end) (nd_log nd)) (snd (fst ex_run2) 3) = Some [EvCancel 4; EvCancel 3; EvCancel 2; EvCancel 1; EvCancel 0].
Proof. vm_compute. reflexivity. Qed.

(** A sequence that failed leaves engines running that nobody has cancelled. *)
Theorem C76_left_running_refuted : exists fnm r nes summary big cancelled cancel env s w active res sd w' active' id nd n e,
  session_setting r nes cancel env (length (ss_tests s)) w active /\ (forall id0 s0, w id0 = Some s0 -> nd_engines s0 = []) /\
  run_session fnm r nes summary big cancelled cancel env s w active = (Returned Seq_Model.SeqTestFailed res sd, w', active') /\
  w' id = Some nd /\ In (n, e) (nd_engines nd) /\ In (EvRun (en_id e)) (nd_log nd) /\ ~ In (EvCancel (en_id e)) (nd_log nd).
Proof.
  exists (fun _ _ => true), ex_r, ex_nes, ex_summary, ex_big, (fun _ => false), (ex_cancel []), ex_env1, ex_first, ex_w, [], [], false, ex_w1, [3; 1; 0; 2], 3.
  assert (Q : exists nd n e, ex_w1 3 = Some nd /\ In (n, e) (nd_engines nd) /\ In (EvRun (en_id e)) (nd_log nd) /\ ~ In (EvCancel (en_id e)) (nd_log nd)).
  { eexists. eexists. eexists. split; [vm_compute; reflexivity|]. split; [left; reflexivity|]. split; [vm_compute; tauto|vm_compute; intuition discriminate]. }
  destruct Q as (nd & n & e & Q). exists nd, n, e. split; [exact C76_ex_first|]. split; [|split; [exact ex_run1_eq|exact Q]].
  intros id0 s0 E. unfold ex_w in E. destruct (_ && _); [injection E as <-; reflexivity|discriminate].
Qed.
Print Assumptions C76_left_running_refuted.
