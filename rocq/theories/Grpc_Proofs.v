(** Lemmas about the gRPC clients. *)
From Coq Require Import Ascii String List NArith ZArith Bool Arith Lia.
From Verif Require Import Base_Model Grpc_Model.
Import ListNotations.
Open Scope nat_scope.

Lemma lset_length {A} (l : list A) : forall i x, length (lset i x l) = length l.
Proof. induction l as [|y r IH]; intros [|i] x; cbn [lset length]; auto. Qed.
Lemma lset_eq {A} (l : list A) : forall i x y, nth_error l i = Some y -> nth_error (lset i x l) i = Some x.
Proof. induction l as [|z r IH]; intros [|i] x y E; cbn [lset nth_error] in *; try discriminate; eauto. Qed.
Lemma lset_neq {A} (l : list A) : forall i j x, j <> i -> nth_error (lset i x l) j = nth_error l j.
Proof. induction l as [|z r IH]; intros [|i] [|j] x E; cbn [lset nth_error] in *; try congruence; auto. Qed.
(** What is at [j] after an update at [i]. *)
Lemma lset_inv {A} (l : list A) i j x y : nth_error (lset i x l) j = Some y -> (j = i /\ y = x) \/ (j <> i /\ nth_error l j = Some y).
Proof.
  intro E. destruct (Nat.eq_dec j i) as [->|N]; [left|right; split; [exact N|rewrite lset_neq in E by exact N; exact E]].
  split; [reflexivity|]. destruct (nth_error l i) as [z|] eqn:F; [rewrite (lset_eq l i x z F) in E; congruence|].
  apply nth_error_None in F. assert (i < length (lset i x l)) by (apply nth_error_Some; congruence). rewrite lset_length in *. lia.
Qed.
Definition cnt {A} (f : A -> bool) (l : list A) : nat := length (filter f l).
Definition b2n (b : bool) : nat := if b then 1 else 0.
Lemma cnt_lset {A} (f : A -> bool) l : forall i x y, nth_error l i = Some x -> cnt f (lset i y l) + b2n (f x) = cnt f l + b2n (f y).
Proof.
  unfold cnt. induction l as [|z r IH]; intros [|i] x y E; cbn [nth_error lset filter] in *; try discriminate.
  - injection E as ->. destruct (f x), (f y); cbn [b2n length]; lia.
  - specialize (IH i x y E). destruct (f z); cbn [length]; lia.
Qed.
Lemma cnt_snoc {A} (f : A -> bool) l x : cnt f (l ++ [x]) = cnt f l + b2n (f x).
Proof. unfold cnt. rewrite filter_app, app_length. cbn [filter]. destruct (f x); reflexivity. Qed.
Lemma cnt_zero {A} (f : A -> bool) l : cnt f l = 0 -> forall i x, nth_error l i = Some x -> f x = false.
Proof.
  unfold cnt. induction l as [|z r IH]; intros E [|i] x H; cbn [nth_error filter] in *; try discriminate.
  - injection H as ->. destruct (f x); [discriminate|reflexivity].
  - destruct (f z); [discriminate|]. eapply IH; eassumption.
Qed.
Lemma cnt_pos {A} (f : A -> bool) l i x : nth_error l i = Some x -> f x = true -> 0 < cnt f l.
Proof. intros E F. destruct (cnt f l) eqn:C; [|lia]. rewrite (cnt_zero f l C i x E) in F. discriminate. Qed.
Definition total {A} (w : A -> nat) (l : list A) : nat := fold_right (fun x n => w x + n) 0 l.
Lemma total_lset {A} (w : A -> nat) l : forall i x y, nth_error l i = Some x -> total w (lset i y l) + w x = total w l + w y.
Proof.
  unfold total. induction l as [|z r IH]; intros [|i] x y E; cbn [nth_error lset fold_right] in *; try discriminate.
  - injection E as ->. lia.
  - specialize (IH i x y E). lia.
Qed.
Lemma snoc_inv {A} (l : list A) x j y : nth_error (l ++ [x]) j = Some y -> nth_error l j = Some y \/ (j = length l /\ y = x).
Proof.
  intro E. destruct (Nat.lt_ge_cases j (length l)) as [L|L].
  - rewrite nth_error_app1 in E by exact L. auto.
  - rewrite nth_error_app2 in E by exact L. right. destruct (j - length l) as [|k] eqn:F; cbn [nth_error] in E.
    + injection E as ->. split; [lia|reflexivity].
    + destruct k; discriminate.
Qed.
Lemma snoc_old {A} (l : list A) x j y : nth_error l j = Some y -> nth_error (l ++ [x]) j = Some y.
Proof. intro E. rewrite nth_error_app1; [exact E|]. apply nth_error_Some. congruence. Qed.
Lemma busy_false i l : (forall r, In r l -> starting r = false) -> busy i l = false.
Proof.
  intro H. unfold busy. destruct (existsb _ l) eqn:E; [|reflexivity]. apply existsb_exists in E. destruct E as (r & I & E).
  rewrite (H r I), andb_false_r in E. discriminate.
Qed.
Lemma busy_child i l j r : busy i l = false -> nth_error l j = Some r -> r_parent r = Some i -> starting r = false.
Proof.
  intros B E P. destruct (starting r) eqn:F; [|reflexivity]. exfalso. unfold busy in B.
  assert (K : existsb (fun r => child_of i r && starting r) l = true).
  { apply existsb_exists. exists r. split; [eapply nth_error_In; exact E|]. unfold child_of. rewrite P, Nat.eqb_refl, F. reflexivity. }
  congruence.
Qed.

(** ** Invariant of every run *)
Definition held (r : rpc) : bool := match r_phase r with Entered | Released => false | _ => true end.
Definition in_callback (r : rpc) : bool := match r_phase r with Calling | Returned | Deleted => true | _ => false end.
(** What the callback is to find, given the request and the wire's result. *)
Definition expected (given : str) (w : option str * str) : cstate :=
  match w with
  | (None, response) => mkCs (Some given) response None (Some true)
  | (Some m, _) => mkCs None [] (Some m) (Some false)
  end.
Definition rpc_ok (r : rpc) : Prop :=
  match r_phase r with
  | Entered => r_calls r = [] /\ r_state r = mkCs (Some (r_given r)) [] None None /\ r_wire r = None
  | Counted | InFlight => r_calls r = [] /\ r_state r = mkCs None [] None None /\ r_request r = Some (r_given r) /\ r_wire r = None
  | Finished st resp => r_calls r = [] /\ r_state r = mkCs None [] None None /\ r_request r = Some (r_given r) /\ r_wire r = Some (st, resp)
  | _ => exists w, r_wire r = Some w /\ r_calls r = [expected (r_given r) w] /\ r_state r = expected (r_given r) w
  end.
Record base_inv (k : kind) (s : client) : Prop := {
  b_pending : c_pending s = Z.of_nat (cnt held (c_rpcs s));
  b_rpc : forall i r, nth_error (c_rpcs s) i = Some r -> rpc_ok r;
  b_serve : k = Polling -> forall i r, nth_error (c_rpcs s) i = Some r -> in_callback r = true -> c_poller s = PoServe i;
  b_served : forall i, c_poller s = PoServe i -> exists r, nth_error (c_rpcs s) i = Some r
               /\ (in_callback r = true \/ exists st resp, r_phase r = Finished st resp);
  b_parent : forall i r j, nth_error (c_rpcs s) i = Some r -> r_parent r = Some j -> starting r = true ->
               exists rj, nth_error (c_rpcs s) j = Some rj /\ r_phase rj = Calling;
  b_exited : c_poller s = PoExited -> c_notified s = true;
  b_notified : c_notified s = true -> c_cq_shut s = true \/ c_shut s = ShCq;
  b_cq : c_cq_shut s = true -> c_notified s = true;
  b_early : c_shut s = ShNot \/ c_shut s = ShNotify -> c_notified s = false;
  b_shcq : c_shut s = ShCq -> c_notified s = true /\ c_cq_shut s = false;
  b_join : c_shut s = ShJoin -> c_cq_shut s = true;
  b_kind : k = Callback -> c_shut s <> ShNotify /\ c_shut s <> ShCq /\ c_shut s <> ShJoin }.
Lemma base_start k stubs : base_inv k (start_client stubs).
Proof.
  constructor; cbn [start_client c_pending c_rpcs c_poller c_notified c_shut c_cq_shut]; try discriminate; try reflexivity; auto.
  - intros [|i] r E; discriminate.
  - intros _ [|i] r E; discriminate.
  - intros [|i] r j E; discriminate.
  - intro. repeat split; discriminate.
Qed.
Lemma base_initiate k p q o s s' : base_inv k s -> initiate p q o s = Next s' -> base_inv k s'.
Proof.
  intros I. unfold initiate. set (ok := match o with None => true | Some _ => _ end). destruct ok eqn:Ok; cbn [negb]; [|discriminate].
  destruct (_ <? _); [|discriminate]. intro E. injection E as <-.
  constructor; cbn [c_pending c_rpcs c_poller c_notified c_shut c_cq_shut]; try (apply I).
  - rewrite cnt_snoc. cbn [held r_phase b2n]. rewrite Nat.add_0_r. apply I.
  - intros i r E. destruct (snoc_inv _ _ _ _ E) as [F|[_ ->]]; [exact (b_rpc _ _ I i r F)|]. unfold rpc_ok. cbn. auto.
  - intros K i r E C. destruct (snoc_inv _ _ _ _ E) as [F|[_ ->]]; [exact (b_serve _ _ I K i r F C)|]. discriminate.
  - intros i P. destruct (b_served _ _ I i P) as (r & E & F). exists r. split; [apply snoc_old, E|exact F].
  - intros i r j E P S. destruct (snoc_inv _ _ _ _ E) as [F|[_ ->]].
    + destruct (b_parent _ _ I i r j F P S) as (rj & A & B). exists rj. split; [apply snoc_old, A|exact B].
    + cbn [r_parent] in P. subst o. unfold ok in Ok. destruct (nth_error (c_rpcs s) j) as [rj|] eqn:N; [|discriminate].
      exists rj. split; [apply snoc_old, N|]. destruct (r_phase rj); try discriminate. reflexivity.
Qed.
(** An update of one RPC that does not touch the rest; the completion thread may
    be done with it. *)
Lemma base_set k s i r r' pend po : base_inv k s -> nth_error (c_rpcs s) i = Some r ->
  pend = Z.of_nat (cnt held (lset i r' (c_rpcs s))) -> rpc_ok r' -> r_parent r' = r_parent r ->
  po = c_poller s \/ (c_poller s = PoServe i /\ po = PoTest) ->
  (k = Polling -> in_callback r' = true -> po = PoServe i) ->
  (po = PoServe i -> in_callback r' = true \/ exists st resp, r_phase r' = Finished st resp) ->
  (starting r' = true -> starting r = true) ->
  (r_phase r = Calling -> r_phase r' <> Calling -> busy i (c_rpcs s) = false) ->
  base_inv k (set_poller po (set_pending pend (set_rpc i r' s))).
Proof.
  intros I E Pe Ro Pa Hp Sv Sd St Bu. constructor; cbn [set_poller set_pending set_rpc c_pending c_rpcs c_poller c_notified c_shut c_cq_shut]; try (apply I).
  - exact Pe.
  - intros j x F. destruct (lset_inv _ _ _ _ _ F) as [[-> ->]|[N F']]; [exact Ro|exact (b_rpc _ _ I j x F')].
  - intros K j x F C. destruct (lset_inv _ _ _ _ _ F) as [[-> ->]|[N F']]; [exact (Sv K C)|]. pose proof (b_serve _ _ I K j x F' C) as H.
    destruct Hp as [->|[Q _]]; [exact H|]. congruence.
  - intros j P. assert (P' : c_poller s = PoServe j) by (destruct Hp as [<-|[_ ->]]; [exact P|discriminate]).
    destruct (b_served _ _ I j P') as (x & F & C). destruct (Nat.eq_dec j i) as [->|N].
    + exists r'. split; [eapply lset_eq; exact E|exact (Sd P)].
    + exists x. split; [rewrite lset_neq by exact N; exact F|exact C].
  - intros j x p F P S.
    assert (Hx : exists r0, nth_error (c_rpcs s) j = Some r0 /\ r_parent r0 = Some p /\ starting r0 = true).
    { destruct (lset_inv _ _ _ _ _ F) as [[-> ->]|[N F']]; [exists r|exists x; auto]. rewrite <- Pa. auto. }
    destruct Hx as (r0 & H1 & H2 & H3). destruct (b_parent _ _ I j r0 p H1 H2 H3) as (rp & A & B).
    destruct (Nat.eq_dec p i) as [->|N]; [|exists rp; split; [rewrite lset_neq by exact N; exact A|exact B]].
    exists r'. split; [eapply lset_eq; exact E|]. rewrite E in A. injection A as <-.
    destruct (r_phase r') eqn:Q; try reflexivity;
      (assert (Hb : busy i (c_rpcs s) = false) by (apply Bu; [exact B|discriminate]);
       rewrite (busy_child i _ j r0 Hb H1 H2) in H3; discriminate).
  - intro P. apply I. destruct Hp as [<-|[_ ->]]; [exact P|discriminate].
Qed.
Lemma set_rpc_all i r s : set_rpc i r s = set_poller (c_poller s) (set_pending (c_pending s) (set_rpc i r s)).
Proof. reflexivity. Qed.
Lemma set_pending_all z i r s : set_pending z (set_rpc i r s) = set_poller (c_poller s) (set_pending z (set_rpc i r s)).
Proof. reflexivity. Qed.
Lemma same_count i r r' s k : base_inv k s -> nth_error (c_rpcs s) i = Some r -> held r' = held r ->
  c_pending s = Z.of_nat (cnt held (lset i r' (c_rpcs s))).
Proof. intros I E H. rewrite (b_pending _ _ I). pose proof (cnt_lset held _ i r r' E) as K. rewrite H in K. f_equal. lia. Qed.
Lemma base_complete k i r s s' : base_inv k s -> nth_error (c_rpcs s) i = Some r -> (k = Polling -> c_poller s = PoServe i) ->
  (k = Callback -> c_poller s <> PoServe i) -> complete i r s = Some s' ->
  base_inv k (match k, r_phase r with Polling, Deleted => set_poller PoTest s' | _, _ => s' end).
Proof.
  intros I E Po Pc C. unfold complete in C. pose proof (b_rpc _ _ I i r E) as Ro. unfold rpc_ok in Ro.
  assert (Cn : forall r', held r' = held r -> c_pending s = Z.of_nat (cnt held (lset i r' (c_rpcs s)))) by (intros; eapply same_count; eassumption).
  destruct (r_phase r) eqn:Ph; try discriminate.
  - injection C as <-. replace (match k with Polling => _ | Callback => _ end) with (set_rpc i (deliver status response r) s) by (destruct k; reflexivity).
    rewrite set_rpc_all. destruct Ro as (R1 & R2 & R3 & R4).
    eapply base_set; [exact I|exact E|apply Cn; unfold held; cbn [deliver r_phase]; rewrite Ph; reflexivity| |reflexivity|left; reflexivity| | | |].
    + unfold rpc_ok. cbn [deliver r_phase r_wire r_calls r_given r_state]. exists (status, response). split; [exact R4|].
      rewrite R1, R2, R3. unfold expected. cbn [cs_request cs_response cs_error]. destruct status; auto.
    + intros K _. exact (Po K).
    + intros _. left. reflexivity.
    + discriminate.
    + rewrite Ph. discriminate.
  - destruct (busy i (c_rpcs s)) eqn:B; [discriminate|]. injection C as <-.
    replace (match k with Polling => _ | Callback => _ end) with (set_rpc i (with_phase Returned r) s) by (destruct k; reflexivity). rewrite set_rpc_all.
    eapply base_set; [exact I|exact E|apply Cn; unfold held; cbn [with_phase r_phase]; rewrite Ph; reflexivity| |reflexivity|left; reflexivity| | | |].
    + unfold rpc_ok. cbn [with_phase r_phase r_wire r_calls r_given r_state]. exact Ro.
    + intros K _. exact (Po K).
    + intros _. left. reflexivity.
    + discriminate.
    + intros _ _. exact B.
  - injection C as <-.
    replace (match k with Polling => _ | Callback => _ end) with (set_rpc i (with_phase Deleted r) s) by (destruct k; reflexivity). rewrite set_rpc_all.
    eapply base_set; [exact I|exact E|apply Cn; unfold held; cbn [with_phase r_phase]; rewrite Ph; reflexivity| |reflexivity|left; reflexivity| | | |].
    + unfold rpc_ok. cbn [with_phase r_phase r_wire r_calls r_given r_state]. exact Ro.
    + intros K _. exact (Po K).
    + intros _. left. reflexivity.
    + discriminate.
    + rewrite Ph. discriminate.
  - injection C as <-.
    assert (G : forall po, po = c_poller s \/ (c_poller s = PoServe i /\ po = PoTest) -> po <> PoServe i ->
              base_inv k (set_poller po (set_pending (c_pending s - 1) (set_rpc i (with_phase Released r) s)))).
    { intros po Hp Np. eapply base_set; [exact I|exact E| | |reflexivity|exact Hp| | | |].
      + rewrite (b_pending _ _ I). pose proof (cnt_lset held _ i r (with_phase Released r) E) as K.
        unfold held at 2 4 in K. rewrite Ph in K. cbn [with_phase r_phase b2n] in K. lia.
      + unfold rpc_ok. cbn [with_phase r_phase r_wire r_calls r_given r_state]. exact Ro.
      + discriminate.
      + intro P. congruence.
      + discriminate.
      + rewrite Ph. discriminate. }
    destruct k.
    + apply G; [right; split; [exact (Po eq_refl)|reflexivity]|discriminate].
    + rewrite set_pending_all. apply G; [left; reflexivity|exact (Pc eq_refl)].
Qed.
(** The poller of a callback client never serves. *)
Definition no_serve (k : kind) (s : client) : Prop := k = Callback -> c_poller s = PoTest.
Lemma base_advance k i s s' : base_inv k s -> no_serve k s -> advance k i s = Next s' -> base_inv k s'.
Proof.
  intros I Ns. unfold advance. destruct (nth_error (c_rpcs s) i) as [r|] eqn:E; [|discriminate]. pose proof (b_rpc _ _ I i r E) as Ro. unfold rpc_ok in Ro.
  assert (Nc : in_callback r = false -> (forall st resp, r_phase r <> Finished st resp) -> c_poller s <> PoServe i).
  { intros C F P. destruct (b_served _ _ I i P) as (x & Ex & [Cx|(st & resp & Fx)]); rewrite E in Ex; injection Ex as <-; [congruence|exact (F _ _ Fx)]. }
  assert (G : match k with Polling => Stuck | Callback => match complete i r s with Some s1 => Next s1 | None => Stuck end end = Next s' -> base_inv k s').
  { destruct k; [discriminate|]. destruct (complete i r s) as [s1|] eqn:C; [|discriminate]. intro H. injection H as <-.
    apply (base_complete Callback i r s s1 I E); [discriminate|intro; rewrite (Ns eq_refl); discriminate|exact C]. }
  destruct (r_phase r) eqn:Ph; try exact G.
  - intro H. injection H as <-. unfold count. rewrite set_pending_all. destruct Ro as (R1 & R2 & R3).
    eapply base_set; [exact I|exact E| | |reflexivity|left; reflexivity| | | |].
    + rewrite (b_pending _ _ I).
      match goal with |- context [lset i ?x _] => pose proof (cnt_lset held _ i r x E) as K end. unfold held at 2 4 in K. rewrite Ph in K. cbn [r_phase b2n] in K. lia.
    + unfold rpc_ok. cbn [r_phase r_calls r_state r_request r_given r_wire]. rewrite R2. cbn [cs_request cs_response cs_error cs_success]. auto.
    + discriminate.
    + intro P. exfalso. apply Nc in P; [exact P|unfold in_callback; rewrite Ph; reflexivity|intros; congruence].
    + intros _. unfold starting. rewrite Ph. reflexivity.
    + rewrite Ph. discriminate.
  - unfold post. destruct (nth_error (c_stubs s) (r_peer r)) as [[|]|]; try discriminate. intro H.
    assert (H2 : s' = set_rpc i (with_phase InFlight r) s) by (destruct k; [destruct (c_cq_shut s); [discriminate|]|]; injection H as <-; reflexivity). clear H. subst s'.
    rewrite set_rpc_all.
    eapply base_set; [exact I|exact E|eapply same_count; [exact I|exact E|]; unfold held; cbn [with_phase r_phase]; rewrite Ph; reflexivity| |reflexivity|left; reflexivity| | | |].
    + unfold rpc_ok. cbn [with_phase r_phase r_calls r_state r_request r_given r_wire]. exact Ro.
    + discriminate.
    + intro P. exfalso. apply Nc in P; [exact P|unfold in_callback; rewrite Ph; reflexivity|intros; congruence].
    + discriminate.
    + rewrite Ph. discriminate.
Qed.
Lemma base_wire k i st resp s s' : base_inv k s -> wire i st resp s = Next s' -> base_inv k s'.
Proof.
  intros I. unfold wire. destruct (nth_error (c_rpcs s) i) as [r|] eqn:E; [|discriminate]. pose proof (b_rpc _ _ I i r E) as Ro. unfold rpc_ok in Ro.
  destruct (r_phase r) eqn:Ph; try discriminate. intro H. injection H as <-. rewrite set_rpc_all.
  eapply base_set; [exact I|exact E|eapply same_count; [exact I|exact E|]; unfold held; cbn [r_phase]; rewrite Ph; reflexivity| |reflexivity|left; reflexivity| | | |].
  - unfold rpc_ok. cbn [r_phase r_calls r_state r_request r_given r_wire]. intuition.
  - discriminate.
  - intros _. right. cbn [r_phase]. eauto.
  - discriminate.
  - rewrite Ph. discriminate.
Qed.
Lemma base_poller k s po : base_inv k s -> (c_poller s = PoTest \/ c_poller s = PoNext) ->
  (po = PoTest \/ po = PoNext \/ (po = PoExited /\ c_notified s = true) \/
   exists i r st resp, po = PoServe i /\ nth_error (c_rpcs s) i = Some r /\ r_phase r = Finished st resp) -> base_inv k (set_poller po s).
Proof.
  intros I P H. constructor; cbn [set_poller c_pending c_rpcs c_poller c_notified c_shut c_cq_shut]; try (apply I).
  - intros K i r E C. pose proof (b_serve _ _ I K i r E C) as Q. destruct P; congruence.
  - intros i Q. subst po. destruct H as [H|[H|[[H _]|(j & r & st & resp & H & E & F)]]]; try discriminate. injection H as <-. exists r. eauto.
  - intro Q. subst po. destruct H as [H|[H|[[_ H]|(j & r & st & resp & H & E & F)]]]; try discriminate. exact H.
Qed.
Lemma base_poll k t s s' : base_inv k s -> poll k t s = Next s' -> base_inv k s'.
Proof.
  intros I. unfold poll. destruct k; [|discriminate]. destruct (c_poller s) as [| |i|] eqn:P; try discriminate.
  - intro H. injection H as <-. apply base_poller; [exact I|auto|]. destruct (c_notified s); auto.
  - destruct t as [i|].
    + destruct (nth_error (c_rpcs s) i) as [r|] eqn:E; [|discriminate]. destruct (r_phase r) eqn:Ph; try discriminate.
      intro H. injection H as <-. apply base_poller; [exact I|auto|]. do 3 right. exists i, r. eauto 10.
    + destruct (_ && _); [|discriminate]. intro H. injection H as <-. apply base_poller; auto.
  - destruct (nth_error (c_rpcs s) i) as [r|] eqn:E; [|discriminate]. destruct (complete i r s) as [s1|] eqn:C; [|discriminate].
    intro H. injection H as <-. assert (Nk : Polling = Callback -> c_poller s <> PoServe i) by discriminate.
    pose proof (base_complete Polling i r s s1 I E (fun _ => P) Nk C) as K. destruct (r_phase r); exact K.
Qed.
Lemma base_shutdown k s s' : base_inv k s -> shutdown k s = Next s' -> base_inv k s'.
Proof.
  intros I. pose proof I as [I1 I2 I3 I4 I5 I6 I7 I8 I9 I10 I11 I12]. unfold shutdown.
  assert (N7 : c_shut s <> ShCq -> c_notified s = true -> c_cq_shut s = true) by (intros Q N; destruct (I7 N) as [A|A]; [exact A|congruence]).
  destruct (c_shut s) eqn:Sh; try (specialize (N7 ltac:(discriminate))).
  - intro H. injection H as <-. constructor; cbn [set_shut c_pending c_rpcs c_poller c_notified c_shut c_cq_shut]; auto;
      intuition discriminate.
  - destruct (Z.eqb_spec (c_pending s) 0) as [Z0|]; [|discriminate]. intro H. injection H as <-.
    constructor; cbn [set_shut c_pending c_rpcs c_poller c_notified c_shut c_cq_shut]; auto.
    + intros [K|K]; destruct k, (c_notified s); try discriminate; reflexivity.
    + intro K; destruct k, (c_notified s); discriminate.
    + intro K; destruct k, (c_notified s); discriminate.
    + intros ->. repeat split; discriminate.
  - intro H. injection H as <-. constructor; cbn [c_pending c_rpcs c_poller c_notified c_shut c_cq_shut]; auto; try discriminate.
    + intros [K|K]; discriminate.
    + intros _. split; [reflexivity|]. destruct (c_cq_shut s) eqn:Q; [|reflexivity]. rewrite (I9 (or_intror eq_refl)) in I8. discriminate (I8 eq_refl).
    + intros ->. destruct (I12 eq_refl) as (A & _). congruence.
  - destruct (I10 eq_refl) as (N & Q). intro H. injection H as <-. constructor; cbn [c_pending c_rpcs c_poller c_notified c_shut c_cq_shut]; auto; try discriminate.
    + intros [K|K]; discriminate.
    + intros ->. destruct (I12 eq_refl) as (_ & A & _). congruence.
  - destruct (c_poller s) eqn:Po; try discriminate. intro H. injection H as <-.
    constructor; cbn [set_shut c_pending c_rpcs c_poller c_notified c_shut c_cq_shut]; rewrite ?Po; auto; intuition discriminate.
  - intro H. injection H as <-. constructor; cbn [c_pending c_rpcs c_poller c_notified c_shut c_cq_shut]; auto; intuition discriminate.
  - intro H. injection H as <-. constructor; cbn [set_shut c_pending c_rpcs c_poller c_notified c_shut c_cq_shut]; auto; intuition discriminate.
Qed.
Definition inv (k : kind) (s : client) : Prop := base_inv k s /\ no_serve k s.
Lemma complete_poller i r s s' : complete i r s = Some s' -> c_poller s' = c_poller s.
Proof.
  unfold complete. destruct (r_phase r); try discriminate; try (intro H; injection H as <-; reflexivity).
  destruct (busy i (c_rpcs s)); [discriminate|]. intro H; injection H as <-; reflexivity.
Qed.
Lemma inv_step k a s s' : inv k s -> cstep k a s = Next s' -> inv k s'.
Proof.
  intros [I Ns] E. split.
  - destruct a; cbn [cstep] in E; [eapply base_initiate|eapply base_advance|eapply base_wire|eapply base_poll|eapply base_shutdown]; eassumption.
  - intros ->. specialize (Ns eq_refl). rewrite <- Ns. destruct a; cbn [cstep] in E.
    + unfold initiate in E. destruct (negb _); [discriminate|]. destruct (_ <? _); [|discriminate]. injection E as <-. reflexivity.
    + unfold advance in E. destruct (nth_error (c_rpcs s) i) as [r|]; [|discriminate].
      assert (G : match complete i r s with Some s1 => Next s1 | None => Stuck end = Next s' -> c_poller s' = c_poller s).
      { destruct (complete i r s) eqn:C; [|discriminate]. intro H. injection H as <-. eapply complete_poller; exact C. }
      destruct (r_phase r); try exact (G E); [injection E as <-; reflexivity|]. unfold post in E.
      destruct (nth_error _ _) as [[|]|]; try discriminate. injection E as <-. reflexivity.
    + unfold wire in E. destruct (nth_error (c_rpcs s) i) as [r|]; [|discriminate]. destruct (r_phase r); try discriminate. injection E as <-. reflexivity.
    + discriminate.
    + unfold shutdown in E. destruct (c_shut s); try (injection E as <-; reflexivity).
      * destruct (Z.eqb _ _); [|discriminate]. injection E as <-. reflexivity.
      * rewrite Ns in E. discriminate.
Qed.
Lemma inv_start k stubs : inv k (start_client stubs).
Proof. split; [apply base_start|]. intro. reflexivity. Qed.
Lemma inv_run k l : forall s s', inv k s -> crun k l s = Next s' -> inv k s'.
Proof.
  induction l as [|a l IH]; intros s s' I E; cbn [crun] in E; [injection E as <-; exact I|].
  destruct (cstep k a s) as [s1|c|] eqn:C; [|discriminate|]; [eapply IH; [eapply inv_step; eassumption|exact E]|eapply IH; eassumption].
Qed.

(** ** Disciplined use: after shutdown has begun, RPCs are initiated only from
    within callbacks; and only connected peers are addressed. *)
Definition allowed (stubs0 : list bool) (a : caction) (s : client) : Prop :=
  match a with
  | Initiate p _ None => c_shut s = ShNot /\ nth_error stubs0 p = Some true
  | Initiate p _ (Some _) => nth_error stubs0 p = Some true
  | Shutdown => c_shut s = ShNot -> forall i r, nth_error (c_rpcs s) i = Some r -> r_parent r = None -> r_phase r <> Entered
  | _ => True
  end.
Fixpoint disciplined (stubs0 : list bool) (k : kind) (l : list caction) (s : client) : Prop :=
  match l with
  | [] => True
  | a :: r => allowed stubs0 a s /\
      match cstep k a s with Next s' => disciplined stubs0 k r s' | Crash _ => True | Stuck => disciplined stubs0 k r s end
  end.
Definition past (stubs0 : list bool) (s : client) : Prop :=
  (c_shut s <> ShNot /\ c_shut s <> ShSpin) \/ c_notified s = true \/ c_stubs s <> stubs0.
Record disc (stubs0 : list bool) (s : client) : Prop := {
  d_late : c_shut s <> ShNot -> forall i r, nth_error (c_rpcs s) i = Some r -> r_phase r = Entered -> r_parent r <> None;
  d_quiet : past stubs0 s -> forall i r, nth_error (c_rpcs s) i = Some r -> r_phase r = Released;
  d_not : c_shut s = ShNot -> c_notified s = false /\ c_stubs s = stubs0;
  d_peer : forall i r, nth_error (c_rpcs s) i = Some r -> nth_error stubs0 (r_peer r) = Some true }.
Lemma disc_start stubs : disc stubs (start_client stubs).
Proof.
  constructor; cbn [start_client c_shut c_rpcs c_notified c_stubs].
  - congruence.
  - intros _ [|i] r E; discriminate.
  - auto.
  - intros [|i] r E; discriminate.
Qed.
(** Steps that change only RPCs (none of which is finished for good). *)
Lemma disc_rpcs stubs0 s s' i r r' : disc stubs0 s -> nth_error (c_rpcs s) i = Some r -> r_phase r <> Released ->
  c_rpcs s' = lset i r' (c_rpcs s) -> c_shut s' = c_shut s -> c_notified s' = c_notified s -> c_stubs s' = c_stubs s ->
  r_peer r' = r_peer r -> r_phase r' <> Entered -> disc stubs0 s'.
Proof.
  intros D E Ph Er Es En Et Ep Pe.
  assert (Np : ~ past stubs0 s) by (intro P; apply Ph; exact (d_quiet _ _ D P i r E)).
  constructor; rewrite ?Es, ?En, ?Et, ?Er.
  - intros N j x F Q. destruct (lset_inv _ _ _ _ _ F) as [[-> ->]|[_ F']]; [congruence|exact (d_late _ _ D N j x F' Q)].
  - unfold past. rewrite Es, En, Et. intro P. exfalso. exact (Np P).
  - apply D.
  - intros j x F. destruct (lset_inv _ _ _ _ _ F) as [[-> ->]|[_ F']]; [rewrite Ep|]; eapply d_peer; eassumption.
Qed.
Lemma complete_disc stubs0 i r s s' : disc stubs0 s -> nth_error (c_rpcs s) i = Some r -> complete i r s = Some s' -> disc stubs0 s'.
Proof.
  intros D E C. unfold complete in C. destruct (r_phase r) eqn:Ph; try discriminate.
  - injection C as <-. eapply disc_rpcs with (r := r); [exact D|exact E|congruence|reflexivity|reflexivity|reflexivity|reflexivity|reflexivity|discriminate].
  - destruct (busy i (c_rpcs s)); [discriminate|]. injection C as <-.
    eapply disc_rpcs with (r := r); [exact D|exact E|congruence|reflexivity|reflexivity|reflexivity|reflexivity|reflexivity|discriminate].
  - injection C as <-. eapply disc_rpcs with (r := r); [exact D|exact E|congruence|reflexivity|reflexivity|reflexivity|reflexivity|reflexivity|discriminate].
  - injection C as <-. eapply disc_rpcs with (r := r); [exact D|exact E|congruence|reflexivity|reflexivity|reflexivity|reflexivity|reflexivity|discriminate].
Qed.
Lemma disc_poller stubs0 s po : disc stubs0 s -> disc stubs0 (set_poller po s).
Proof. intros [A B C D]. constructor; assumption. Qed.
Lemma no_pending k s stubs0 : inv k s -> disc stubs0 s -> c_shut s <> ShNot -> c_pending s = 0%Z ->
  forall i r, nth_error (c_rpcs s) i = Some r -> r_phase r = Released.
Proof.
  intros [I _] D N P i r E. rewrite (b_pending _ _ I) in P. assert (C : cnt held (c_rpcs s) = 0) by lia.
  pose proof (cnt_zero _ _ C i r E) as H. unfold held in H. destruct (r_phase r) eqn:Ph; try discriminate; [|reflexivity].
  exfalso. pose proof (d_late _ _ D N i r E Ph) as Pa. destruct (r_parent r) as [j|] eqn:Pj; [|congruence].
  assert (Sr : starting r = true) by (unfold starting; rewrite Ph; reflexivity).
  destruct (b_parent _ _ I i r j E Pj Sr) as (rj & Ej & Pc). pose proof (cnt_zero _ _ C j rj Ej) as H2. unfold held in H2. rewrite Pc in H2. discriminate.
Qed.
Lemma disc_step stubs0 k a s s' : inv k s -> disc stubs0 s -> allowed stubs0 a s -> cstep k a s = Next s' -> disc stubs0 s'.
Proof.
  intros I D Al E. destruct a as [p q o|i|i st resp|t|]; cbn [cstep allowed] in *.
  - unfold initiate in E. destruct (negb _) eqn:Ng; [discriminate|]. destruct (_ <? _); [|discriminate]. injection E as <-.
    assert (Np : ~ past stubs0 s).
    { intro P. destruct o as [j|]; cbn [allowed] in Al.
      - destruct (nth_error (c_rpcs s) j) as [rj|] eqn:Ej; [|discriminate]. pose proof (d_quiet _ _ D P j rj Ej) as Q. rewrite Q in Ng. discriminate.
      - destruct Al as [A _]. destruct (d_not _ _ D A) as [B C]. destruct P as [[P _]|[P|P]]; congruence. }
    constructor; cbn [c_shut c_rpcs c_notified c_stubs].
    + intros N j x F Q. destruct (snoc_inv _ _ _ _ F) as [F'|[_ ->]]; [exact (d_late _ _ D N j x F' Q)|]. cbn [r_parent].
      destruct o; [discriminate|]. destruct Al; congruence.
    + intro P. exfalso. exact (Np P).
    + apply D.
    + intros j x F. destruct (snoc_inv _ _ _ _ F) as [F'|[_ ->]]; [exact (d_peer _ _ D j x F')|]. cbn [r_peer]. destruct o; [exact Al|apply Al].
  - unfold advance in E. destruct (nth_error (c_rpcs s) i) as [r|] eqn:Er; [|discriminate].
    assert (G : match k with Polling => Stuck | Callback => match complete i r s with Some s1 => Next s1 | None => Stuck end end = Next s' -> disc stubs0 s').
    { destruct k; [discriminate|]. destruct (complete i r s) as [s1|] eqn:C; [|discriminate]. intro H. injection H as <-. eapply complete_disc; eassumption. }
    destruct (r_phase r) eqn:Ph; try exact (G E).
    + injection E as <-. eapply disc_rpcs with (r := r); [exact D|exact Er|congruence|reflexivity|reflexivity|reflexivity|reflexivity|reflexivity|discriminate].
    + unfold post in E. destruct (nth_error (c_stubs s) (r_peer r)) as [[|]|]; try discriminate.
      assert (H2 : s' = set_rpc i (with_phase InFlight r) s) by (destruct k; [destruct (c_cq_shut s); [discriminate|]|]; injection E as <-; reflexivity). subst s'.
      eapply disc_rpcs with (r := r); [exact D|exact Er|congruence|reflexivity|reflexivity|reflexivity|reflexivity|reflexivity|discriminate].
  - unfold wire in E. destruct (nth_error (c_rpcs s) i) as [r|] eqn:Er; [|discriminate]. destruct (r_phase r) eqn:Ph; try discriminate. injection E as <-.
    eapply disc_rpcs with (r := r); [exact D|exact Er|congruence|reflexivity|reflexivity|reflexivity|reflexivity|reflexivity|discriminate].
  - unfold poll in E. destruct k; [|discriminate]. destruct (c_poller s) as [| |i|] eqn:P; try discriminate.
    + injection E as <-. apply disc_poller, D.
    + destruct t as [i|].
      * destruct (nth_error (c_rpcs s) i) as [r|]; [|discriminate]. destruct (r_phase r); try discriminate. injection E as <-. apply disc_poller, D.
      * destruct (_ && _); [|discriminate]. injection E as <-. apply disc_poller, D.
    + destruct (nth_error (c_rpcs s) i) as [r|] eqn:Er; [|discriminate]. destruct (complete i r s) as [s1|] eqn:C; [|discriminate]. injection E as <-.
      pose proof (complete_disc _ _ _ _ _ D Er C) as K. destruct (r_phase r); try exact K. apply disc_poller, K.
  - pose proof D as [D1 D2 D3 D4]. unfold shutdown in E. destruct (c_shut s) eqn:Sh.
    + injection E as <-. destruct (D3 eq_refl) as [A B]. constructor; cbn [set_shut c_shut c_rpcs c_notified c_stubs]; auto.
      * intros _ j x F Q Pn. exact (Al eq_refl j x F Pn Q).
      * intros [[_ P]|[P|P]]; cbn [set_shut c_shut c_notified c_stubs] in P; congruence.
    + destruct (Z.eqb_spec (c_pending s) 0) as [Z0|]; [|discriminate]. injection E as <-.
      assert (Q : forall i r, nth_error (c_rpcs s) i = Some r -> r_phase r = Released) by (apply (no_pending k s stubs0 I D); [congruence|exact Z0]).
      constructor; cbn [set_shut c_shut c_rpcs c_notified c_stubs]; auto.
      * intros _. apply D1. discriminate.
      * destruct k; [destruct (c_notified s)|]; discriminate.
    + assert (Q : forall i r, nth_error (c_rpcs s) i = Some r -> r_phase r = Released) by (apply D2; left; rewrite Sh; split; discriminate).
      injection E as <-. constructor; cbn [c_shut c_rpcs c_notified c_stubs]; auto; try discriminate; try (intros _; apply D1; discriminate).
    + assert (Q : forall i r, nth_error (c_rpcs s) i = Some r -> r_phase r = Released) by (apply D2; left; rewrite Sh; split; discriminate).
      injection E as <-. constructor; cbn [c_shut c_rpcs c_notified c_stubs]; auto; try discriminate; try (intros _; apply D1; discriminate).
    + assert (Q : forall i r, nth_error (c_rpcs s) i = Some r -> r_phase r = Released) by (apply D2; left; rewrite Sh; split; discriminate).
      destruct (c_poller s); try discriminate. injection E as <-. constructor; cbn [set_shut c_shut c_rpcs c_notified c_stubs]; auto; try discriminate; try (intros _; apply D1; discriminate).
    + assert (Q : forall i r, nth_error (c_rpcs s) i = Some r -> r_phase r = Released) by (apply D2; left; rewrite Sh; split; discriminate).
      injection E as <-. constructor; cbn [c_shut c_rpcs c_notified c_stubs]; auto; try discriminate; try (intros _; apply D1; discriminate).
    + assert (Q : forall i r, nth_error (c_rpcs s) i = Some r -> r_phase r = Released) by (apply D2; left; rewrite Sh; split; discriminate).
      injection E as <-. constructor; cbn [set_shut c_shut c_rpcs c_notified c_stubs]; auto; try discriminate; try (intros _; apply D1; discriminate).
Qed.
(** Disciplined use never crashes. *)
Lemma disc_no_crash stubs0 k a s c : inv k s -> disc stubs0 s -> allowed stubs0 a s -> cstep k a s <> Crash c.
Proof.
  intros I D Al E. destruct a as [p q o|i|i st resp|t|]; cbn [cstep allowed] in *.
  - unfold initiate in E. destruct (negb _) eqn:Ng; [discriminate|].
    assert (St : c_stubs s = stubs0).
    { destruct (list_eq_dec Bool.bool_dec (c_stubs s) stubs0) as [Q|Q]; [exact Q|exfalso]. assert (P : past stubs0 s) by (right; right; exact Q).
      destruct o as [j|].
      - destruct (nth_error (c_rpcs s) j) as [rj|] eqn:Ej; [|discriminate]. pose proof (d_quiet _ _ D P j rj Ej) as W. rewrite W in Ng. discriminate.
      - destruct Al as [A _]. destruct (d_not _ _ D A). congruence. }
    assert (Lp : p < length (c_stubs s)) by (rewrite St; apply nth_error_Some; destruct o; [|destruct Al as [_ Al]]; congruence).
    destruct (Nat.ltb_spec p (length (c_stubs s))); [discriminate|lia].
  - unfold advance in E. destruct (nth_error (c_rpcs s) i) as [r|] eqn:Er; [|discriminate].
    assert (G : match k with Polling => Stuck | Callback => match complete i r s with Some s1 => Next s1 | None => Stuck end end = Crash c -> False)
      by (destruct k; [discriminate|]; destruct (complete i r s); discriminate).
    destruct (r_phase r) eqn:Ph; try exact (G E); [discriminate|]. unfold post in E.
    assert (Np : ~ past stubs0 s) by (intro P; pose proof (d_quiet _ _ D P i r Er); congruence).
    assert (St : c_stubs s = stubs0) by (destruct (list_eq_dec Bool.bool_dec (c_stubs s) stubs0) as [Q|Q]; [exact Q|exfalso; apply Np; right; right; exact Q]).
    rewrite St, (d_peer _ _ D i r Er) in E. destruct k; [|discriminate]. destruct (c_cq_shut s) eqn:Cq; [|discriminate].
    apply Np. right. left. destruct I as [I _]. exact (b_cq _ _ I Cq).
  - unfold wire in E. destruct (nth_error (c_rpcs s) i) as [r|]; [|discriminate]. destruct (r_phase r); discriminate.
  - unfold poll in E. destruct k; [|discriminate]. destruct (c_poller s) as [| |i|]; try discriminate.
    + destruct t as [i|]; [|destruct (_ && _); discriminate]. destruct (nth_error (c_rpcs s) i) as [r|]; [|discriminate]. destruct (r_phase r); discriminate.
    + destruct (nth_error (c_rpcs s) i) as [r|]; [|discriminate]. destruct (complete i r s); discriminate.
  - unfold shutdown in E. destruct (c_shut s); try discriminate; [destruct (Z.eqb _ _)|destruct (c_poller s)]; discriminate.
Qed.
Lemma disc_run stubs0 k l : forall s, inv k s -> disc stubs0 s -> disciplined stubs0 k l s ->
  exists s', crun k l s = Next s' /\ inv k s' /\ disc stubs0 s'.
Proof.
  induction l as [|a l IH]; intros s I D Di; cbn [crun disciplined] in *; [exists s; auto|]. destruct Di as [Al Di].
  destruct (cstep k a s) as [s1|c|] eqn:C.
  - eapply IH; [eapply inv_step; eassumption|eapply disc_step; eassumption|exact Di].
  - exfalso. exact (disc_no_crash _ _ _ _ _ I D Al C).
  - apply IH; assumption.
Qed.

(** ** Progress *)
Definition internal (a : caction) (s : client) : Prop :=
  match a with Initiate _ _ _ => False | Shutdown => c_shut s <> ShNot /\ c_shut s <> ShDone | _ => True end.
Lemma final_state stubs0 k s : inv k s -> disc stubs0 s -> (forall a, internal a s -> cstep k a s = Stuck) ->
  (forall i r, nth_error (c_rpcs s) i = Some r -> r_phase r = Released) /\ (c_shut s = ShNot \/ c_shut s = ShDone).
Proof.
  intros I D St. pose proof I as [B Ns].
  assert (A1 : forall i r, nth_error (c_rpcs s) i = Some r -> starting r = false /\ r_phase r <> InFlight).
  { intros i r E. split.
    - destruct (starting r) eqn:F; [exfalso|reflexivity]. pose proof (St (Advance i) Logic.I) as Q. cbn [cstep] in Q. unfold advance in Q. rewrite E in Q.
      unfold starting in F. destruct (r_phase r) eqn:Ph; try discriminate. pose proof (disc_no_crash stubs0 k (Advance i) s) as Nc.
      cbn [cstep] in Nc. unfold advance in Nc. rewrite E, Ph in Nc. unfold post in *. destruct (nth_error (c_stubs s) (r_peer r)) as [[|]|].
      + destruct k; [destruct (c_cq_shut s); discriminate|discriminate].
      + discriminate.
      + discriminate.
    - intro Ph. pose proof (St (Wire i None []) Logic.I) as Q. cbn [cstep] in Q. unfold wire in Q. rewrite E, Ph in Q. discriminate. }
  assert (Bz : forall i, busy i (c_rpcs s) = false).
  { intro i. apply busy_false. intros r Ir. apply In_nth_error in Ir. destruct Ir as [j Ej]. apply (A1 j r Ej). }
  assert (Cm : forall i r, nth_error (c_rpcs s) i = Some r -> r_phase r <> Released -> exists s', complete i r s = Some s').
  { intros i r E Nr. destruct (A1 i r E) as [Sf Nf]. unfold complete, starting in *. destruct (r_phase r); try congruence; try discriminate; eauto. rewrite Bz. eauto. }
  assert (Rl : forall i r, nth_error (c_rpcs s) i = Some r -> r_phase r = Released).
  { intros i r E. assert (Dc : r_phase r = Released \/ r_phase r <> Released) by (destruct (r_phase r); auto; right; discriminate).
    destruct Dc as [Dc|Nr]; [exact Dc|exfalso]. destruct (A1 i r E) as [Sf Nf]. destruct (Cm i r E Nr) as (s1 & C1).
    destruct k.
    - destruct (c_poller s) as [| |j|] eqn:Po.
      + pose proof (St (Poll None) Logic.I) as Q. cbn [cstep] in Q. unfold poll in Q. rewrite Po in Q. discriminate.
      + destruct (in_callback r) eqn:Ic; [rewrite (b_serve _ _ B eq_refl i r E Ic) in Po; discriminate|].
        pose proof (St (Poll (Some i)) Logic.I) as Q. cbn [cstep] in Q. unfold poll in Q. rewrite Po, E in Q.
        unfold starting, in_callback in *. destruct (r_phase r); try discriminate; congruence.
      + destruct (b_served _ _ B j Po) as (x & Ex & Px).
        assert (Nx : r_phase x <> Released) by (intro W; unfold in_callback in Px; rewrite W in Px; destruct Px as [Px|(? & ? & Px)]; discriminate).
        destruct (Cm j x Ex Nx) as (s2 & C2). pose proof (St (Poll None) Logic.I) as Q. cbn [cstep] in Q. unfold poll in Q. rewrite Po, Ex, C2 in Q. discriminate.
      + apply Nr. apply (d_quiet _ _ D) with (i := i); [right; left; exact (b_exited _ _ B Po)|exact E].
    - pose proof (St (Advance i) Logic.I) as Q. cbn [cstep] in Q. unfold advance in Q. rewrite E, C1 in Q.
      unfold starting in Sf. destruct (r_phase r); discriminate. }
  split; [exact Rl|].
  assert (P0 : c_pending s = 0%Z).
  { rewrite (b_pending _ _ B). destruct (cnt held (c_rpcs s)) eqn:Cz; [reflexivity|]. exfalso. unfold cnt in Cz.
    destruct (filter held (c_rpcs s)) as [|x y] eqn:F; [discriminate|]. assert (Ix : In x (filter held (c_rpcs s))) by (rewrite F; left; reflexivity).
    apply filter_In in Ix. destruct Ix as [Ix Hx]. apply In_nth_error in Ix. destruct Ix as [j Ej]. unfold held in Hx. rewrite (Rl j x Ej) in Hx. discriminate. }
  destruct (c_shut s) eqn:Sh; auto; exfalso;
    assert (Q : cstep k Shutdown s = Stuck) by (apply St; cbn [internal]; rewrite Sh; split; discriminate); cbn [cstep] in Q; unfold shutdown in Q; rewrite Sh in Q; try discriminate.
  - rewrite P0 in Q. discriminate.
  - destruct k; [|destruct (b_kind _ _ B eq_refl) as (_ & _ & W); exact (W Sh)].
    destruct (c_poller s) as [| |j|] eqn:Po.
    + pose proof (St (Poll None) Logic.I) as W. cbn [cstep] in W. unfold poll in W. rewrite Po in W. discriminate.
    + pose proof (St (Poll None) Logic.I) as W. cbn [cstep] in W. unfold poll in W. rewrite Po, (b_join _ _ B Sh) in W. cbn [andb] in W.
      destruct (existsb outstanding (c_rpcs s)) eqn:X; [|discriminate]. apply existsb_exists in X. destruct X as (x & Ix & Ox).
      apply In_nth_error in Ix. destruct Ix as [j Ej]. unfold outstanding in Ox. rewrite (Rl j x Ej) in Ox. discriminate.
    + destruct (b_served _ _ B j Po) as (x & Ex & Px). unfold in_callback in Px. rewrite (Rl j x Ex) in Px. destruct Px as [Px|(? & ? & Px)]; discriminate.
    + discriminate.
Qed.
(** Each internal step uses up some of a bounded amount of work. *)
Definition rank_of (p : phase) : nat :=
  match p with
  | Entered => 10 | Counted => 9 | InFlight => 8 | Finished _ _ => 7 | Calling => 6 | Returned => 5 | Deleted => 4 | Released => 0
  end.
Definition rank (r : rpc) : nat := rank_of (r_phase r).
Definition poller_rank (s : client) : nat :=
  match c_poller s with PoTest => 2 | PoNext => if c_notified s then 3 else 1 | PoServe _ => 0 | PoExited => 0 end.
Definition shut_rank (s : client) : nat :=
  match c_shut s with ShNot => 0 | ShSpin => 8 | ShNotify => 7 | ShCq => 4 | ShJoin => 3 | ShClear => 1 | ShDone => 0 end.
Definition work (s : client) : nat := total rank (c_rpcs s) + poller_rank s + shut_rank s.
Lemma work_rpc i r r' s : nth_error (c_rpcs s) i = Some r ->
  total rank (lset i r' (c_rpcs s)) + rank_of (r_phase r) = total rank (c_rpcs s) + rank_of (r_phase r').
Proof. apply (total_lset rank). Qed.
Lemma complete_work i r s s' : nth_error (c_rpcs s) i = Some r -> complete i r s = Some s' ->
  total rank (c_rpcs s') + (match r_phase r with Deleted => 4 | _ => 1 end) = total rank (c_rpcs s)
  /\ c_notified s' = c_notified s /\ c_shut s' = c_shut s /\ c_poller s' = c_poller s.
Proof.
  intros E C. unfold complete in C. pose proof (fun r' => work_rpc i r r' s E) as W.
  destruct (r_phase r) eqn:Ph; try discriminate.
  - injection C as <-. specialize (W (deliver status response r)). cbn [deliver r_phase rank_of] in W. cbn [set_rpc c_rpcs c_notified c_shut]. split; [lia|auto].
  - destruct (busy i (c_rpcs s)); [discriminate|]. injection C as <-. specialize (W (with_phase Returned r)). cbn [with_phase r_phase rank_of] in W.
    cbn [set_rpc c_rpcs c_notified c_shut]. split; [lia|auto].
  - injection C as <-. specialize (W (with_phase Deleted r)). cbn [with_phase r_phase rank_of] in W. cbn [set_rpc c_rpcs c_notified c_shut]. split; [lia|auto].
  - injection C as <-. specialize (W (with_phase Released r)). cbn [with_phase r_phase rank_of] in W. cbn [set_pending set_rpc c_rpcs c_notified c_shut]. split; [lia|auto].
Qed.
Lemma work_decreases k a s s' : inv k s -> internal a s -> cstep k a s = Next s' -> work s' < work s.
Proof.
  intros I Int E. unfold work. destruct a as [p q o|i|i st resp|t|]; cbn [cstep internal] in *; [destruct Int| | | |].
  - unfold advance in E. destruct (nth_error (c_rpcs s) i) as [r|] eqn:Er; [|discriminate]. pose proof (fun r' => work_rpc i r r' s Er) as W.
    assert (G : match k with Polling => Stuck | Callback => match complete i r s with Some s1 => Next s1 | None => Stuck end end = Next s' ->
              total rank (c_rpcs s') + poller_rank s' + shut_rank s' < total rank (c_rpcs s) + poller_rank s + shut_rank s).
    { destruct k; [discriminate|]. destruct (complete i r s) as [s1|] eqn:C; [|discriminate]. intro H. injection H as <-.
      destruct (complete_work _ _ _ _ Er C) as (A & B1 & B2 & B3). unfold poller_rank, shut_rank. rewrite B1, B2, B3. destruct (r_phase r); lia. }
    destruct (r_phase r) eqn:Ph; try exact (G E).
    + injection E as <-. unfold count, poller_rank, shut_rank. cbn [set_pending set_rpc c_rpcs c_poller c_notified c_shut].
      match goal with |- context [lset i ?x _] => specialize (W x) end. cbn [r_phase rank_of] in W. lia.
    + unfold post in E. destruct (nth_error (c_stubs s) (r_peer r)) as [[|]|]; try discriminate.
      assert (H2 : s' = set_rpc i (with_phase InFlight r) s) by (destruct k; [destruct (c_cq_shut s); [discriminate|]|]; injection E as <-; reflexivity). subst s'.
      unfold poller_rank, shut_rank. cbn [set_rpc c_rpcs c_poller c_notified c_shut]. specialize (W (with_phase InFlight r)). cbn [with_phase r_phase rank_of] in W. lia.
  - unfold wire in E. destruct (nth_error (c_rpcs s) i) as [r|] eqn:Er; [|discriminate]. pose proof (fun r' => work_rpc i r r' s Er) as W.
    destruct (r_phase r) eqn:Ph; try discriminate. injection E as <-.
    unfold poller_rank, shut_rank. cbn [set_rpc c_rpcs c_poller c_notified c_shut].
    match goal with |- context [lset i ?x _] => specialize (W x) end. cbn [r_phase rank_of] in W. lia.
  - unfold poll in E. destruct k; [|discriminate]. unfold poller_rank. destruct (c_poller s) as [| |i|] eqn:P; try discriminate.
    + injection E as <-. unfold shut_rank. cbn [set_poller c_rpcs c_poller c_notified c_shut]. destruct (c_notified s); lia.
    + destruct t as [i|].
      * destruct (nth_error (c_rpcs s) i) as [r|]; [|discriminate]. destruct (r_phase r); try discriminate. injection E as <-.
        unfold shut_rank. cbn [set_poller c_rpcs c_poller c_notified c_shut]. destruct (c_notified s); lia.
      * destruct (c_cq_shut s) eqn:Cq; [|discriminate]. destruct (negb _); [|discriminate]. injection E as <-.
        destruct I as [B _]. rewrite (b_cq _ _ B Cq). unfold shut_rank. cbn [set_poller c_rpcs c_poller c_notified c_shut]. lia.
    + destruct (nth_error (c_rpcs s) i) as [r|] eqn:Er; [|discriminate]. destruct (complete i r s) as [s1|] eqn:C; [|discriminate]. injection E as <-.
      destruct (complete_work _ _ _ _ Er C) as (A & B1 & B2 & B3). rewrite P in B3.
      destruct (r_phase r); cbn [set_poller c_rpcs c_poller c_notified c_shut]; unfold shut_rank; cbn [set_poller c_shut]; rewrite ?B2, ?B3; lia.
  - unfold shutdown in E. unfold shut_rank, poller_rank. destruct (c_shut s) eqn:Sh; try (destruct Int; congruence).
    + destruct (Z.eqb _ _); [|discriminate]. injection E as <-. cbn [set_shut c_rpcs c_poller c_notified c_shut]. destruct k; [destruct (c_notified s)|]; lia.
    + injection E as <-. cbn [c_rpcs c_poller c_notified c_shut]. destruct (c_poller s); try lia. destruct (c_notified s); lia.
    + injection E as <-. cbn [c_rpcs c_poller c_notified c_shut]. lia.
    + destruct (c_poller s) eqn:P; try discriminate. injection E as <-. cbn [set_shut c_rpcs c_poller c_notified c_shut]. rewrite P. lia.
    + injection E as <-. cbn [c_rpcs c_poller c_notified c_shut]. lia.
Qed.
