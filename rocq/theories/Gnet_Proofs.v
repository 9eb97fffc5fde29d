(** Lemmas for Gnet_Props.v. *)
From Coq Require Import Ascii String List NArith ZArith Bool Arith Lia Permutation.
From Verif Require Import Base_Model Grpc_Model Grpc_Proofs Grpc_Proofs2 Grpc_Props Gsrv_Model Gsrv_Proofs Gsrv_Props Gnet_Model.
Import ListNotations.
Open Scope nat_scope.

(** ** What a client keeps *)
Definition launched (r : rpc) : Prop := starting r = false.
Record rgrow (r r' : rpc) : Prop := {
  g_peer : r_peer r' = r_peer r;
  g_given : r_given r' = r_given r;
  g_launched : launched r -> launched r';
  g_wire : r_wire r <> None -> r_wire r' = r_wire r }.
Lemma rgrow_refl r : rgrow r r.
Proof. constructor; auto. Qed.
Definition brings (a : caction) (i : nat) : option (option str * str) :=
  match a with Wire j st resp => if Nat.eqb j i then Some (st, resp) else None | _ => None end.
Record cmove (a : caction) (s s' : client) : Prop := {
  t_grow : forall i r, nth_error (c_rpcs s) i = Some r -> exists r', nth_error (c_rpcs s') i = Some r' /\ rgrow r r';
  t_old : forall i r', nth_error (c_rpcs s') i = Some r' ->
    (exists r, nth_error (c_rpcs s) i = Some r /\ rgrow r r' /\ (r_wire r' = r_wire r \/ r_wire r' = brings a i)) \/ r_wire r' = None }.
Lemma cmove_same a s s' : c_rpcs s' = c_rpcs s -> cmove a s s'.
Proof. intros E. constructor; rewrite E; intros i r H; [|left]; exists r; auto using rgrow_refl. Qed.
Lemma cmove_set a s s' i r r' : nth_error (c_rpcs s) i = Some r -> c_rpcs s' = lset i r' (c_rpcs s) -> rgrow r r' ->
  r_wire r' = r_wire r \/ r_wire r' = brings a i -> cmove a s s'.
Proof.
  intros E S G W. constructor; rewrite S.
  - intros j x H. destruct (Nat.eq_dec j i) as [->|D].
    + rewrite (lset_eq _ _ _ _ E). exists r'. split; [reflexivity|]. congruence.
    + rewrite lset_neq by exact D. eauto using rgrow_refl.
  - intros j x H. left. destruct (lset_inv _ _ _ _ _ H) as [[-> ->]|[D K]]; [eauto|]. exists x. auto using rgrow_refl.
Qed.
Lemma complete_move a i r s s' : nth_error (c_rpcs s) i = Some r -> complete i r s = Some s' -> cmove a s s'.
Proof.
  intros E C. unfold complete in C. destruct (r_phase r) eqn:P; try discriminate.
  - injection C as <-. eapply cmove_set; [exact E|reflexivity| |left; reflexivity]. constructor; auto; intros _; reflexivity.
  - destruct (busy _ _); [discriminate|]. injection C as <-. eapply cmove_set; [exact E|reflexivity| |left; reflexivity]. constructor; auto; intros _; reflexivity.
  - injection C as <-. eapply cmove_set; [exact E|reflexivity| |left; reflexivity]. constructor; auto; intros _; reflexivity.
  - injection C as <-. eapply cmove_set; [exact E|reflexivity| |left; reflexivity]. constructor; auto; intros _; reflexivity.
Qed.
Lemma cmove_poller a s s' po : cmove a s s' -> cmove a s (set_poller po s').
Proof. intros [A B]. constructor; cbn [set_poller c_rpcs]; assumption. Qed.
Lemma cstep_move k a s s' : inv k s -> cstep k a s = Next s' -> cmove a s s'.
Proof.
  intros [V _] E. destruct a as [p q o|i|i st resp|t|]; cbn [cstep] in E.
  - unfold initiate in E. match type of E with (if negb ?b then _ else _) = _ => destruct b end; cbn [negb] in E; [|discriminate].
    destruct (_ <? _); [|discriminate]. injection E as <-. constructor; cbn [c_rpcs].
    + intros i r H. exists r. split; [apply snoc_old; exact H|apply rgrow_refl].
    + intros i r H. destruct (snoc_inv _ _ _ _ H) as [H1|[-> ->]]; [left; exists r; auto using rgrow_refl|right; reflexivity].
  - unfold advance in E. destruct (nth_error (c_rpcs s) i) as [r|] eqn:N; [|discriminate].
    destruct (r_phase r) eqn:P; try (destruct k; [discriminate|]; destruct (complete i r s) as [s1|] eqn:C; [|discriminate]; injection E as <-; eapply complete_move; eassumption).
    + injection E as <-. eapply cmove_set; [exact N|reflexivity| |left; reflexivity]. constructor; cbn; auto. unfold launched, starting. rewrite P. discriminate.
    + unfold post in E. destruct (nth_error (c_stubs s) (r_peer r)) as [[|]|]; try discriminate.
      assert (E2 : Next (set_rpc i (with_phase InFlight r) s) = Next s') by (destruct k; [destruct (c_cq_shut s); [discriminate|]|]; exact E).
      injection E2 as <-. eapply cmove_set; [exact N|reflexivity| |left; reflexivity]. constructor; auto; intros _; reflexivity.
  - unfold wire in E. destruct (nth_error (c_rpcs s) i) as [r|] eqn:N; [|discriminate]. destruct (r_phase r) eqn:P; try discriminate. injection E as <-.
    pose proof (b_rpc _ _ V _ _ N) as O. unfold rpc_ok in O. rewrite P in O. destruct O as (_ & _ & _ & W).
    eapply cmove_set; [exact N|reflexivity| |right; cbn [r_wire brings]; rewrite Nat.eqb_refl; reflexivity]. constructor; auto; [intros _; reflexivity|congruence].
  - unfold poll in E. destruct k; [|discriminate]. destruct (c_poller s) as [| |i|].
    + injection E as <-. apply cmove_same. reflexivity.
    + destruct t as [i|].
      * destruct (nth_error (c_rpcs s) i) as [r|]; [|discriminate]. destruct (r_phase r); try discriminate. injection E as <-. apply cmove_same. reflexivity.
      * destruct (_ && _); [|discriminate]. injection E as <-. apply cmove_same. reflexivity.
    + destruct (nth_error (c_rpcs s) i) as [r|] eqn:N; [|discriminate]. destruct (complete i r s) as [s1|] eqn:C; [|discriminate].
      pose proof (complete_move (Poll t) i r s s1 N C) as M. destruct (r_phase r); injection E as <-; try exact M. apply cmove_poller. exact M.
    + discriminate.
  - unfold shutdown in E. destruct (c_shut s); try (injection E as <-; apply cmove_same; reflexivity).
    + destruct (Z.eqb _ _); [|discriminate]. injection E as <-. apply cmove_same. reflexivity.
    + destruct (c_poller s); try discriminate. injection E as <-. apply cmove_same. reflexivity.
Qed.

(** ** What a server keeps *)
Definition call_req (v : gserver) (k : nat) : option str :=
  match v with
  | GDirect _ s => option_map k_request (nth_error (g_calls s) k)
  | GPolled _ reqs => lookup k reqs
  end.
(** The handler has sent the response of call [k]. *)
Definition answered (v : gserver) (k : nat) : Prop :=
  match v with
  | GDirect _ s => exists c, nth_error (g_calls s) k = Some c /\ k_sent c = 1
  | GPolled s _ => exists f, nth_error (v_fsms s) k = Some f /\ 0 < f_finish f
  end.
(** Call [k] has arrived. *)
Definition taken (v : gserver) (k : nat) : Prop :=
  match v with
  | GDirect _ s => k < length (g_calls s)
  | GPolled s _ => exists f, nth_error (v_fsms s) k = Some f /\ f_accepted f = true
  end.
(** The handler of call [k] has been called. *)
Definition handled (v : gserver) (k : nat) : Prop :=
  match v with
  | GDirect _ s => exists c, nth_error (g_calls s) k = Some c /\ k_ops c <> None
  | GPolled s _ => exists f, nth_error (v_fsms s) k = Some f /\ f_ops f <> None
  end.

Record gkept (a : gaction) (s s' : gsrv) : Prop := {
  gk_old : forall i c, nth_error (g_calls s) i = Some c ->
    exists c', nth_error (g_calls s') i = Some c' /\ k_request c' = k_request c /\ (k_sent c = 1 -> k_sent c' = 1);
  gk_len : length (g_calls s') = length (g_calls s) + match a with GArrive _ => 1 | _ => 0 end;
  gk_new : forall q, a = GArrive q -> exists c, nth_error (g_calls s') (length (g_calls s)) = Some c /\ k_request c = q;
  gk_handler : g_handler s = true -> g_handler s' = true }.
Lemma gkept_set s i c c' a : nth_error (g_calls s) i = Some c -> k_request c' = k_request c -> (k_sent c = 1 -> k_sent c' = 1) ->
  (forall q, a <> GArrive q) -> gkept a s (set_calls (lset i c' (g_calls s)) s).
Proof.
  intros E Q Sn Nb. constructor; cbn [set_calls g_calls g_handler].
  - intros j d F. destruct (Nat.eq_dec j i) as [->|D]; [rewrite (lset_eq _ _ _ _ E); exists c'; assert (d = c) by congruence; subst; auto|].
    rewrite lset_neq by exact D. exists d. auto.
  - rewrite lset_length. destruct a; try lia. destruct (Nb request eq_refl).
  - intros q ->. destruct (Nb q eq_refl).
  - auto.
Qed.
Lemma gkept_same s t a : (forall q, a <> GArrive q) -> g_calls t = g_calls s -> (g_handler s = true -> g_handler t = true) -> gkept a s t.
Proof.
  intros Nb E G. constructor; rewrite ?E; [intros i c F; eauto|destruct a; try lia; destruct (Nb request eq_refl)|intros q ->; destruct (Nb q eq_refl)|exact G].
Qed.
Lemma gstep_kept k h a s s' : gstep k h a s = GNext s' -> gkept a s s'.
Proof.
  intros E. destruct a as [|q|i|i|i|i|]; cbn [gstep] in E.
  - destruct (g_shut s); try discriminate; injection E as <-; apply gkept_same; auto; discriminate.
  - destruct (g_shut s); try discriminate. injection E as <-. constructor; cbn [set_calls g_calls g_handler].
    + intros i c F. exists c. split; [apply snoc_old, F|auto].
    + rewrite app_length. reflexivity.
    + intros q0 E0. injection E0 as ->. eexists. split; [rewrite nth_error_app2, Nat.sub_diag by lia; reflexivity|reflexivity].
    + auto.
  - destruct (nth_error (g_calls s) i) as [c|] eqn:N; [|discriminate]. destruct (k_ops c); [discriminate|]. destruct (negb _); [discriminate|].
    destruct (g_handler s); injection E as <-; (eapply gkept_set; [exact N|reflexivity|auto|discriminate]).
  - destruct (nth_error (g_calls s) i) as [c|] eqn:N; [|discriminate]. destruct (k_ops c) as [[|o rest]|]; try discriminate.
    destruct (gmove _ _ _ _ _) as [c'|] eqn:M; [|discriminate]. injection E as <-.
    assert (M' : k_request c' = k_request c /\ (k_sent c = 1 -> k_sent c' = 1)).
    { unfold gmove in M. destruct k; [destruct o|destruct (0 <? k_freed c); [discriminate|]; destruct o]; try (destruct (0 <? k_sent c); [discriminate|]); injection M as <-; auto. }
    destruct M'. eapply gkept_set; [exact N|assumption|assumption|discriminate].
  - destruct (nth_error (g_calls s) i) as [c|] eqn:N; [|discriminate]. destruct (negb _); [discriminate|].
    destruct k; [destruct (k_ops c) as [[|]|]; try discriminate|destruct (k_ops c) as [lo|]; [|discriminate]];
      injection E as <-; (eapply gkept_set; [exact N|reflexivity|auto|discriminate]).
  - destruct (nth_error (g_calls s) i) as [c|] eqn:N; [|discriminate]. destruct (k_inside c); [discriminate|]. destruct (k_reply c); [|discriminate].
    destruct (k_closed c); [discriminate|]. injection E as <-. eapply gkept_set; [exact N|reflexivity|auto|discriminate].
  - destruct (g_shut s); [| | |discriminate]; try (destruct (forallb _ _); [|discriminate]); injection E as <-; apply gkept_same; auto; discriminate.
Qed.

Definition arrives (a : saction) (s : server) (i : nat) : Prop := exists n, a = Accept n /\ exists o, nth_error (v_ops s) n = Some (i, o).
Record pkept (a : saction) (s s' : server) : Prop := {
  pk_old : forall i f, nth_error (v_fsms s) i = Some f ->
    exists f', nth_error (v_fsms s') i = Some f' /\ f_finish f <= f_finish f' /\ (f_accepted f' = true <-> f_accepted f = true \/ arrives a s i);
  pk_new : forall i f', nth_error (v_fsms s') i = Some f' -> nth_error (v_fsms s) i = None -> f_accepted f' = false;
  pk_arrive : forall i, arrives a s i -> exists f, nth_error (v_fsms s) i = Some f /\ f_accepted f = false;
  pk_handler : v_handler s = true -> v_handler s' = true }.
Lemma pkept_fsms a s s' : (forall n, a <> Accept n) -> (v_handler s = true -> v_handler s' = true) ->
  (forall i f, nth_error (v_fsms s) i = Some f -> exists f', nth_error (v_fsms s') i = Some f' /\ f_finish f <= f_finish f' /\ f_accepted f' = f_accepted f) ->
  (forall i f', nth_error (v_fsms s') i = Some f' -> nth_error (v_fsms s) i = None -> f_accepted f' = false) -> pkept a s s'.
Proof.
  intros Na Gh Old New.
  assert (Nr : forall i, ~ arrives a s i) by (intros i (n & -> & _); exact (Na n eq_refl)).
  constructor; auto.
  - intros i f E. destruct (Old i f E) as (f' & E' & A & B). exists f'. split; [exact E'|]. split; [exact A|]. rewrite B. split; [auto|].
    intros [H|H]; [exact H|destruct (Nr _ H)].
  - intros i H. destruct (Nr _ H).
Qed.
Lemma pkept_same a s s' : (forall n, a <> Accept n) -> (v_handler s = true -> v_handler s' = true) -> v_fsms s' = v_fsms s -> pkept a s s'.
Proof. intros Na Gh E. apply pkept_fsms; auto; rewrite E; [intros i f H; eauto|congruence]. Qed.
Lemma pkept_set a s s' i f f' : (forall n, a <> Accept n) -> (v_handler s = true -> v_handler s' = true) ->
  nth_error (v_fsms s) i = Some f -> v_fsms s' = lset i f' (v_fsms s) -> f_finish f <= f_finish f' -> f_accepted f' = f_accepted f -> pkept a s s'.
Proof.
  intros Na Gh N E A B. apply pkept_fsms; auto; rewrite E.
  - intros j g H. destruct (Nat.eq_dec j i) as [->|D]; [rewrite (lset_eq _ _ _ _ N); exists f'; assert (g = f) by congruence; subst; auto|].
    rewrite lset_neq by exact D. eauto.
  - intros j g H Z. exfalso. destruct (lset_inv _ _ _ _ _ H) as [[-> ->]|[D K]]; congruence.
Qed.
Lemma request_op full s n i : sinv full s -> nth_error (v_ops s) n = Some (i, OpRequest) ->
  nth_error (v_fsms s) i = Some (mkFsm ProcessingRequest 1 0 None 0 false false).
Proof.
  intros V E. pose proof (nth_sel _ _ _ _ E) as I. destruct (nth_error (v_fsms s) i) as [f|] eqn:N.
  - pose proof (i_fsm _ _ V _ _ N) as O. inversion O as [Q Eq Eo Ee|ok Q Eq Eo Ee|Q Eq Eo Ee|l C Eq Eo Ee|l C Eq Eo Ee|l ok C Eq Eo Ee|l C Q Eq Eo Ee|Eq Eo Ee|ok Eq Eo Ee|Q Eq Eo Ee];
      rewrite <- Eo in I; cbn [In] in I; try contradiction; destruct I as [I|[]]; try discriminate. reflexivity.
  - apply nth_error_None in N. destruct (i_dom _ _ V _ N) as (A & _). rewrite A in I. destruct I.
Qed.
Lemma complete_kept full want n ok s s' a : sinv full s -> complete_op want n ok s = SNext s' ->
  (match a with Accept m => want = OpRequest /\ ok = true /\ m = n | _ => want = OpRequest -> ok = false end) -> pkept a s s'.
Proof.
  intros V E W. unfold complete_op in E. destruct (nth_error (v_ops s) n) as [[i o]|] eqn:No; [|discriminate].
  destruct o, want; try discriminate; destruct (nth_error (v_fsms s) i) as [f|] eqn:N; try discriminate; injection E as <-.
  - pose proof (request_op _ _ _ _ V No) as F. assert (f = mkFsm ProcessingRequest 1 0 None 0 false false) by congruence. subst f. destruct a as [|m|m|m b|m|m|].
    2: { destruct W as (_ & -> & ->). constructor; cbn [set_fsm set_queue v_fsms v_handler]; auto.
      - intros j g H. destruct (Nat.eq_dec j i) as [->|D].
        + rewrite (lset_eq _ _ _ _ N). eexists. split; [reflexivity|]. assert (g = mkFsm ProcessingRequest 1 0 None 0 false false) by congruence. subst g. split; [cbn; lia|].
          cbn [f_accepted]. split; [intros _; right; exists n; eauto|reflexivity].
        + rewrite lset_neq by exact D. exists g. split; [exact H|]. split; [lia|]. split; [auto|]. intros [A|(m & Em & o & Eo)]; [exact A|]. injection Em as <-. congruence.
      - intros j g H Z. exfalso. destruct (lset_inv _ _ _ _ _ H) as [[-> ->]|[D K]]; congruence.
      - intros j (m & Em & o & Eo). injection Em as <-. rewrite No in Eo. injection Eo as <- <-. eauto. }
    all: rewrite (W eq_refl); (eapply pkept_set; [discriminate|auto|exact N|reflexivity|cbn; lia|reflexivity]).
  - destruct a as [|m|m|m b|m|m|]; [|destruct W; discriminate|..]; (eapply pkept_set; [discriminate|auto|exact N|reflexivity|cbn; lia|reflexivity]).
Qed.
Lemma sstep_kept full prog a s s' : sinv full s -> sstep prog a s = SNext s' -> pkept a s s'.
Proof.
  intros V E. destruct a as [|n|n|n ok|n|i|]; cbn [sstep] in E.
  - injection E as <-. apply pkept_same; auto; discriminate.
  - destruct (shutting s); [discriminate|]. eapply complete_kept; [exact V|exact E|auto].
  - destruct (shutting s); [|discriminate]. eapply complete_kept; [exact V|exact E|auto].
  - eapply complete_kept; [exact V|exact E|discriminate].
  - unfold poll_server in E. destruct (v_poller s) as [| |i|]; [| | |discriminate].
    + destruct (v_handler_set s); [|discriminate]. injection E as <-. apply pkept_same; auto; discriminate.
    + destruct (nth_error (v_events s) n) as [[i ok]|].
      * unfold access in E. cbn [set_queue v_fsms] in E. destruct (nth_error (v_fsms s) i) as [f|] eqn:N; [|discriminate]. destruct (f_deleted f); [|discriminate].
        destruct ok; [destruct (f_state f)|].
        -- destruct (queue_shut s); [discriminate|]. injection E as <-. eapply pkept_set; [discriminate|auto|exact N|reflexivity|cbn; lia|reflexivity].
        -- destruct (v_post_new s).
           ++ unfold new_fsm in E. destruct (queue_shut _); [discriminate|]. injection E as <-.
              apply pkept_fsms; cbn [call_handler set_spoller set_fsm v_fsms v_handler set_queue]; [discriminate|auto| |].
              ** intros j g H. destruct (Nat.eq_dec j i) as [->|D].
                 --- rewrite (lset_eq _ _ _ f) by (apply snoc_old, N). eexists. split; [reflexivity|]. cbn [f_finish f_accepted]. assert (g = f) by congruence. subst g. auto.
                 --- rewrite lset_neq by exact D. exists g. split; [apply snoc_old, H|auto].
              ** intros j g H Z. destruct (lset_inv _ _ _ _ _ H) as [[-> ->]|[D K]]; [congruence|]. destruct (snoc_inv _ _ _ _ K) as [K1|[-> ->]]; [congruence|reflexivity].
           ++ injection E as <-. eapply pkept_set; [discriminate|auto|exact N|reflexivity|cbn; lia|reflexivity].
        -- injection E as <-. eapply pkept_set; [discriminate|auto|exact N|reflexivity|cbn; lia|reflexivity].
        -- injection E as <-. eapply pkept_set; [discriminate|auto|exact N|reflexivity|cbn; lia|reflexivity].
      * destruct (v_events s), (v_ops s); try discriminate. destruct (queue_shut s); [|discriminate]. injection E as <-. apply pkept_same; auto; discriminate.
    + unfold access in E. destruct (nth_error (v_fsms s) i) as [f|] eqn:N; [|discriminate]. destruct (f_deleted f); [|discriminate]. injection E as <-.
      eapply pkept_set; [discriminate|auto|exact N|reflexivity|cbn; lia|reflexivity].
  - unfold handle_op in E. destruct (nth_error (v_fsms s) i) as [f|] eqn:N; [|discriminate]. destruct (f_ops f) as [[|o rest]|]; try discriminate.
    unfold access in E. rewrite N in E. destruct (f_deleted f); [|discriminate].
    destruct o; [|destruct (queue_shut s); [discriminate|]|]; injection E as <-; (eapply pkept_set; [discriminate|auto|exact N|reflexivity|cbn; lia|reflexivity]).
  - unfold shutdown_server in E. destruct (v_shut s); try discriminate; try (injection E as <-; apply pkept_same; auto; discriminate).
    + destruct (forallb _ _); [|discriminate]. injection E as <-. apply pkept_same; auto; discriminate.
    + destruct (v_detected s); [|discriminate]. injection E as <-. apply pkept_same; auto; discriminate.
    + destruct (v_poller s); try discriminate. injection E as <-. apply pkept_same; auto; discriminate.
Qed.
