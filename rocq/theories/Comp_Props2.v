(** Property C92, continued: callbacks and the calls made inside them nest. *)
From Coq Require Import Ascii String List NArith ZArith Bool Arith Lia.
From Verif Require Import Base_Model Driver_Model Driver_Proofs Driver_Props Grpc_Model Grpc_Proofs Grpc_Props Comp_Model Comp_Proofs Comp_Proofs2 Comp_Props.
Import ListNotations.
Open Scope nat_scope.

Lemma nth_combine {A B} (l : list A) : forall (m : list B) k, nth_error (combine l m) k = match nth_error l k, nth_error m k with Some a, Some b => Some (a, b) | _, _ => None end.
Proof. induction l as [|x l IH]; intros [|y m] [|k]; cbn; auto. destruct (nth_error l k); reflexivity. Qed.
Definition calling_rpc (s : client) (i : nat) : Prop := exists r, nth_error (c_rpcs s) i = Some r /\ r_phase r = Calling.
Lemma set_rpc_other i j r s : i <> j -> nth_error (c_rpcs (set_rpc i r s)) j = nth_error (c_rpcs s) j.
Proof. intros N. unfold set_rpc. cbn [c_rpcs]. apply lset_neq. auto. Qed.
(** Which steps of a client end a callback. *)
Lemma calling_kept k b s s' i : cstep k b s = Next s' -> calling_rpc s i -> calling_rpc s' i \/ b = Advance i \/ exists t, b = Poll t /\ c_poller s = PoServe i.
Proof.
  intros E (r & R & P). unfold calling_rpc.
  assert (Oth : forall n q s1, n <> i -> c_rpcs s1 = c_rpcs (set_rpc n q s) -> exists r, nth_error (c_rpcs s1) i = Some r /\ r_phase r = Calling) by (intros n q s1 N Q; exists r; rewrite Q, set_rpc_other by auto; auto).
  assert (Sm : forall s1, c_rpcs s1 = c_rpcs s -> exists r, nth_error (c_rpcs s1) i = Some r /\ r_phase r = Calling) by (intros s1 Q; exists r; rewrite Q; auto).
  assert (Cm : forall n r1 s1, complete n r1 s = Some s1 -> n <> i -> exists q, c_rpcs s1 = c_rpcs (set_rpc n q s)) by (intros n r1 s1 C _; unfold complete in C; destruct (r_phase r1); try discriminate; try (destruct (busy n (c_rpcs s)); [discriminate|]); injection C as <-; eexists; reflexivity).
  destruct b as [p q o|n|n st rs|t|]; cbn [cstep] in E.
  - unfold initiate in E. destruct (negb _); [discriminate|]. destruct (p <? _); [|discriminate]. injection E as <-. left. exists r. cbn [c_rpcs]. rewrite nth_error_app1 by (apply nth_error_Some; congruence). auto.
  - destruct (Nat.eq_dec n i) as [->|N]; [auto|]. left. unfold advance in E. destruct (nth_error (c_rpcs s) n) as [r1|] eqn:N1; [|discriminate].
    assert (K : k = Callback -> complete n r1 s = Some s' -> exists r, nth_error (c_rpcs s') i = Some r /\ r_phase r = Calling) by (intros _ C; destruct (Cm _ _ _ C N) as [q Q]; eapply Oth; eassumption).
    destruct (r_phase r1); try (destruct k; [discriminate|]; destruct (complete n r1 s) as [s1|] eqn:C; [|discriminate]; injection E as <-; apply K; reflexivity).
    + injection E as <-. eapply (Oth n); [exact N|]. reflexivity.
    + unfold post in E. destruct (nth_error (c_stubs s) (r_peer r1)) as [[]|]; try discriminate. destruct k; [destruct (c_cq_shut s); [discriminate|]|]; injection E as <-; eapply (Oth n); try exact N; reflexivity.
  - left. unfold wire in E. destruct (nth_error (c_rpcs s) n) as [r1|] eqn:N1; [|discriminate]. destruct (r_phase r1) eqn:P1; try discriminate. injection E as <-. assert (N : n <> i) by (intros ->; congruence). eapply (Oth n); [exact N|reflexivity].
  - unfold poll in E. destruct k; [|discriminate]. destruct (c_poller s) as [| |n|] eqn:Po.
    + injection E as <-. left. apply Sm. reflexivity.
    + left. destruct t as [n|]; [destruct (nth_error (c_rpcs s) n) as [r1|]; [|discriminate]; destruct (r_phase r1); try discriminate; injection E as <-; apply Sm; reflexivity|].
      destruct (_ && _); [|discriminate]. injection E as <-. apply Sm. reflexivity.
    + destruct (Nat.eq_dec n i) as [->|N]; [right; right; exists t; auto|]. left. destruct (nth_error (c_rpcs s) n) as [r1|] eqn:N1; [|discriminate]. destruct (complete n r1 s) as [s1|] eqn:C; [|discriminate].
      destruct (Cm _ _ _ C N) as [q Q]. injection E as <-. eapply (Oth n q); [exact N|]. destruct (r_phase r1); exact Q.
    + discriminate.
  - left. apply Sm. unfold shutdown in E. destruct (c_shut s); try (injection E as <-; reflexivity).
    + destruct (Z.eqb _ _); [|discriminate]. injection E as <-. reflexivity.
    + destruct (c_poller s); try discriminate. injection E as <-. reflexivity.
Qed.
Lemma in_done_iff x j : in_done x j = true <-> exists ci p i k s, nth_error (p_info x) j = Some ci /\ ci_rpc ci = Some (p, i) /\ p_leaf x p = Some (k, s) /\ calling_rpc s i.
Proof.
  unfold in_done, rpc_at, calling_rpc. split.
  - destruct (nth_error (p_info x) j) as [[a b c [[p i]|]]|] eqn:N; try discriminate. destruct (p_leaf x p) as [[k s]|] eqn:L; [|discriminate]. destruct (nth_error (c_rpcs s) i) as [r|] eqn:R; [|discriminate].
    destruct (r_phase r) eqn:P; try discriminate. intros _. exists (mkCi a b c (Some (p, i))), p, i, k, s. repeat split; auto. exists r. auto.
  - intros (ci & p & i & k & s & N & C & L & r & R & P). rewrite N. destruct ci as [a b c e]. cbn [ci_rpc] in C. subst e. rewrite L, R, P. reflexivity.
Qed.
Lemma not_below x j : calls_below x j = false -> length (p_info x) = length (sy_calls (p_sys x)) ->
  forall k ci, nth_error (p_info x) k = Some ci -> ci_parent ci = Some j -> nth_error (sy_calls (p_sys x)) k = Some CDone.
Proof.
  unfold calls_below. intros H Len k ci N P. destruct (nth_error (sy_calls (p_sys x)) k) as [c|] eqn:C; [|apply nth_error_None in C; assert (k < length (p_info x)) by (apply nth_error_Some; congruence); lia].
  destruct c; try reflexivity; exfalso;
    match type of H with existsb ?f ?l = false => enough (K : existsb f l = true) by congruence end; apply existsb_exists; eexists (_, ci); (split; [eapply nth_error_In with (n := k); rewrite nth_combine, C, N; reflexivity|]); cbn; rewrite P; apply Nat.eqb_refl.
Qed.
(** The done_callback of a call returns only when every call of InitiateRpc made
    inside it has returned; and it makes one at a time. *)
Theorem C92_nested : forall d kinds stubs l x a x' j, krun l (kstart d kinds stubs) = KNext x -> kstep a x = KNext x' ->
  (in_done x j = true /\ in_done x' j = false) \/ (exists peer q, a = KInitiate peer q (Some j)) ->
  in_done x j = true /\ forall k ci, nth_error (p_info x) k = Some ci -> ci_parent ci = Some j -> nth_error (sy_calls (p_sys x)) k = Some CDone.
Proof.
  intros d kinds stubs l x a x' j R E H. pose proof (kinv_run d kinds stubs l _ _ (kinv_start d kinds stubs) R) as V.
  enough (K : in_done x j = true /\ calls_below x j = false) by (destruct K as [K1 K2]; split; [exact K1|]; apply (not_below _ _ K2 (ki_len _ _ _ _ V))).
  destruct H as [[I O]|(peer & q & ->)].
  2:{ cbn [kstep] in E. destruct (in_done x j && negb (calls_below x j)) eqn:K; [|discriminate]. apply andb_true_iff in K. destruct K as [K1 K2]. apply negb_true_iff in K2. auto. }
  split; [exact I|]. pose proof (proj1 (in_done_iff x j) I) as (ci & p & i & k & s & N & C & L & Ca).
  assert (Keep : forall y ci', nth_error (p_info y) j = Some ci' -> ci_rpc ci' = Some (p, i) -> (exists s', p_leaf y p = Some (k, s') /\ calling_rpc s' i) -> in_done y j = true).
  { intros y ci' N' C' (s' & L' & Ca'). apply in_done_iff. exists ci', p, i, k, s'. auto. }
  assert (Hd : held_up x p i = false -> calls_below x j = false).
  { intros Hu. unfold held_up, rpc_at in Hu. rewrite L in Hu. destruct Ca as (r & Rr & P). rewrite Rr, P in Hu. destruct (calls_below x j) eqn:B; [|reflexivity].
    assert (Z : existsb (fun j => match nth_error (p_info x) j with Some c => is_call p i c && calls_below x j | None => false end) (seq 0 (length (p_info x))) = true); [|congruence].
    apply existsb_exists. exists j. split; [apply in_seq; split; [lia|apply nth_error_Some; congruence]|]. rewrite N, B. unfold is_call. rewrite C. unfold path_eqb. destruct (list_eq_dec Nat.eq_dec p p); [|contradiction]. rewrite Nat.eqb_refl. reflexivity. }
  assert (Cl : forall y q b, client_step q b x = KNext y -> in_done y j = true \/ (q = p /\ (b = Advance i \/ exists t, b = Poll t /\ c_poller s = PoServe i))).
  { intros y q b S. unfold client_step in S. destruct (p_leaf x q) as [[k1 s1]|] eqn:Lq; [|discriminate]. destruct (cstep k1 b s1) as [s2|c|] eqn:Cs; try discriminate. injection S as <-.
    destruct (list_eq_dec Nat.eq_dec p q) as [<-|Nq].
    - rewrite L in Lq. injection Lq as <- <-. destruct (calling_kept _ _ _ _ _ Cs Ca) as [K|K]; [left|auto]. apply (Keep _ ci); [exact N|exact C|]. exists s2. split; [|exact K]. cbn [set_leaf p_leaf]. unfold path_eqb. destruct (list_eq_dec Nat.eq_dec p p); [reflexivity|contradiction].
    - left. apply (Keep _ ci); [exact N|exact C|]. exists s. split; [|exact Ca]. cbn [set_leaf p_leaf]. unfold path_eqb. destruct (list_eq_dec Nat.eq_dec p q); [contradiction|exact L]. }
  destruct a as [peer q o|j'|q b|]; cbn [kstep] in E.
  - exfalso. match type of E with (if ?b then _ else _) = _ => destruct b end; [|discriminate]. cbn [sys_step] in E. injection E as <-.
    rewrite (Keep _ ci) in O; [discriminate|cbn [p_info]; rewrite nth_error_app1 by (apply nth_error_Some; congruence); exact N|exact C|exists s; auto].
  - exfalso. assert (Tr : forall y y', tree_step j' y = KNext y' -> p_info y' = p_info y /\ p_leaf y' = p_leaf y).
    { intros y y' T. unfold tree_step in T. destruct (sys_step (p_sys y) (AStep j')); [|discriminate]. injection T as <-. auto. }
    assert (Sd : forall y y', tree_step j' y = KNext y' -> in_done y j = in_done y' j).
    { intros y y' T. destruct (Tr _ _ T) as [Q1 Q2]. unfold in_done, rpc_at. rewrite Q1, Q2. reflexivity. }
    unfold thread_step in E. destruct (nth_error (sy_calls (p_sys x)) j') as [c|] eqn:Ec; [|discriminate].
    destruct c as [q|q|]; [| |discriminate]; destruct (nth_error (p_info x) j') as [ci'|] eqn:Ei; try discriminate.
    + destruct (p_leaf x q) as [[k1 s1]|] eqn:Lq; [|rewrite <- (Sd _ _ E) in O; congruence].
      assert (Nj : j' <> j). { intros ->. rewrite N in Ei. injection Ei as <-. pose proof (ki_call _ _ _ _ V _ _ _ Ec N) as F. cbn [call_fine] in F. congruence. }
      destruct (client_step q (Initiate (ci_peer ci') (ci_request ci') None) x) as [y|c|] eqn:S; try discriminate. rewrite <- (Sd _ _ E) in O.
      destruct (Cl _ _ _ S) as [K|(_ & [K|(t & K & _)])]; try discriminate. apply in_done_iff in K. destruct K as (ca & pa & ia & ka & sa & Na & Xa & La & Ka).
      assert (Z : in_done (set_info j' (mkCi (ci_peer ci') (ci_request ci') (ci_parent ci') (Some (q, length (c_rpcs s1)))) y) j = true); [|congruence].
      apply in_done_iff. exists ca, pa, ia, ka, sa. split; [|auto]. cbn [set_info p_info]. rewrite lset_neq by auto. exact Na.
    + destruct (ci_rpc ci') as [[p' i']|] eqn:Cr; [|discriminate]. destruct (rpc_at x p' i') as [r'|] eqn:Ra; [|discriminate]. destruct (starting r') eqn:St; [|rewrite <- (Sd _ _ E) in O; congruence].
      destruct (Cl _ _ _ E) as [K|(-> & [K|(t & K & _)])]; try congruence. injection K as ->. unfold rpc_at in Ra. rewrite L in Ra. destruct Ca as (r & Rr & P). rewrite Rr in Ra. injection Ra as ->. unfold starting in St. rewrite P in St. discriminate.
  - destruct (background x q b) eqn:B; [|discriminate]. destruct (Cl _ _ _ E) as [K|(-> & K)]; [congruence|]. unfold background in B. rewrite L in B. apply Hd.
    destruct K as [->|(t & -> & Po)].
    + destruct Ca as (r & Rr & P). rewrite Rr in B. apply andb_true_iff in B. destruct B as [_ B]. apply negb_true_iff, B.
    + rewrite Po in B. apply negb_true_iff, B.
  - exfalso. assert (Sh : forall z, in_done (set_kshut z x) j = in_done x j) by reflexivity. unfold shutdown_step in E. destruct (p_shut x) as [|e q rest|].
    + destruct (leaf_paths [] (sy_tree (p_sys x))); [discriminate|]. injection E as <-. rewrite Sh in O. congruence.
    + destruct (p_leaf x q) as [[k1 s1]|] eqn:Lq; [|discriminate].
      assert (Do : match client_step q Shutdown x with KNext y => KNext (set_kshut (KAt true q rest) y) | e => e end = KNext x' -> False).
      { intros D. destruct (client_step q Shutdown x) as [y|c|] eqn:S; try discriminate. injection D as <-. destruct (Cl _ _ _ S) as [K|(_ & [K|(t & K & _)])]; try discriminate.
        change (in_done (set_kshut (KAt true q rest) y) j) with (in_done y j) in O. congruence. }
      destruct e; [|exact (Do E)]. destruct (c_shut s1); try exact (Do E). injection E as <-. rewrite Sh in O. congruence.
    + destruct (leaf_paths [] (sy_tree (p_sys x))); [discriminate|]. injection E as <-. rewrite Sh in O. congruence.
Qed.
Print Assumptions C92_nested.
(** Two callbacks of one client at the same time: the first, which is making a
    call, cannot return; the second can; after the call the first can too. *)
Definition nest_start (o : Util_Model.driver_opts) : comp := kstart (DCounter (DGrpc o)) (fun _ => Callback) (fun _ => [true]).
Definition nest_ex : list kaction :=
  [KInitiate 0 (s_ "a") None; KInitiate 0 (s_ "b") None] ++ repeat (KThread 0) 6 ++ repeat (KThread 1) 6 ++
  [KClient [1] (Wire 0 None (s_ "ra")); KClient [1] (Wire 1 None (s_ "rb")); KClient [1] (Advance 0); KClient [1] (Advance 1); KInitiate 0 (s_ "c") (Some 0); KThread 2].
Example C92_nested_ex : forall o, exists x y z, krun nest_ex (nest_start o) = KNext x /\ in_done x 0 = true /\ in_done x 1 = true /\
  kstep (KClient [1] (Advance 0)) x = KStuck /\ kstep (KInitiate 0 (s_ "d") (Some 0)) x = KStuck /\
  kstep (KClient [1] (Advance 1)) x = KNext y /\ in_done y 1 = false /\
  krun (repeat (KThread 2) 6 ++ [KClient [1] (Advance 0)]) y = KNext z /\ in_done z 0 = false.
Proof. intros o. do 3 eexists. split; [vm_compute; reflexivity|]. do 2 (split; [vm_compute; reflexivity|]). do 2 (split; [vm_compute; reflexivity|]). split; [vm_compute; reflexivity|]. split; [vm_compute; reflexivity|]. split; vm_compute; reflexivity. Qed.
