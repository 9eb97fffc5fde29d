(** Proofs about composite drivers (Comp_Model.v): the tree and the clients. *)
From Coq Require Import Ascii String List NArith ZArith Bool Arith Lia.
From Verif Require Import Base_Model Driver_Model Driver_Proofs Grpc_Model Grpc_Proofs Comp_Model.
Import ListNotations.
Open Scope nat_scope.

Lemma path_eqb_spec p q : reflect (p = q) (path_eqb p q).
Proof. unfold path_eqb. destruct (list_eq_dec Nat.eq_dec p q); constructor; assumption. Qed.
Lemma path_eqb_refl p : path_eqb p p = true.
Proof. destruct (path_eqb_spec p p); congruence. Qed.

(** ** The tree *)
Lemma leaf_paths_shape : forall a b p, same_shape a b -> leaf_paths p a = leaf_paths p b.
Proof.
  induction a as [n|c a1 IH1 a2 IH2|n m a IH]; intros [n'|c' b1 b2|n' m' b] p S; cbn [same_shape] in S; try contradiction; cbn [leaf_paths]; auto.
  - destruct S. f_equal; auto.
Qed.
Lemma leaf_paths_nonempty t : forall p, leaf_paths p t <> [].
Proof.
  induction t as [n|c a IH1 b IH2|n m a IH]; intros p; cbn [leaf_paths]; [discriminate| |apply IH].
  intro E. apply app_eq_nil in E. destruct E as [E _]. exact (IH1 _ E).
Qed.
Definition leafval (q : list nat) (t : tree) : option nat := match node_at q t with Some (TLeaf n) => Some n | _ => None end.
Lemma leaf_paths_spec t : forall p q, In q (leaf_paths p t) <-> exists r n, q = p ++ r /\ leafval r t = Some n.
Proof.
  induction t as [n|c a IHa b IHb|n m a IH]; intros p q; cbn [leaf_paths].
  - split.
    + intros [<-|[]]. exists [], n. rewrite app_nil_r. auto.
    + intros ([|i r] & k & -> & E); [left; rewrite app_nil_r; reflexivity|discriminate].
  - rewrite in_app_iff, IHa, IHb. split.
    + intros [(r & k & -> & E)|(r & k & -> & E)]; rewrite <- app_assoc; cbn [app]; eauto.
    + intros ([|i r] & k & -> & E); [discriminate|]. unfold leafval in E. cbn [node_at] in E.
      destruct (Nat.eqb_spec i 1) as [->|]; [left; exists r, k; rewrite <- app_assoc; auto|].
      destruct (Nat.eqb_spec i 2) as [->|]; [right; exists r, k; rewrite <- app_assoc; auto|discriminate].
  - rewrite IH. split.
    + intros (r & k & -> & E). rewrite <- app_assoc. cbn [app]. eauto.
    + intros ([|i r] & k & -> & E); [discriminate|]. unfold leafval in E. cbn [node_at] in E.
      destruct (Nat.eqb_spec i 1) as [->|]; [exists r, k; rewrite <- app_assoc; auto|discriminate].
Qed.
Lemma leaf_paths_in t q : In q (leaf_paths [] t) <-> leafval q t <> None.
Proof.
  rewrite leaf_paths_spec. split.
  - intros (r & n & -> & E). cbn [app]. congruence.
  - intros N. destruct (leafval q t) as [n|] eqn:E; [|congruence]. exists q, n. auto.
Qed.
Lemma leaf_paths_nodup t : forall p, NoDup (leaf_paths p t).
Proof.
  induction t as [n|c a IHa b IHb|n m a IH]; intros p; cbn [leaf_paths]; [constructor; [intros []|constructor]| |apply IH].
  assert (Dj : forall x, In x (leaf_paths (p ++ [1]) a) -> ~ In x (leaf_paths (p ++ [2]) b)).
  { intros x H1 H2. apply leaf_paths_spec in H1. apply leaf_paths_spec in H2. destruct H1 as (r & _ & -> & _), H2 as (r2 & _ & E & _).
    rewrite <- !app_assoc in E. apply app_inv_head in E. discriminate. }
  specialize (IHa (p ++ [1])). specialize (IHb (p ++ [2])). remember (leaf_paths (p ++ [2]) b) as l2 eqn:Q. clear Q.
  induction IHa as [|x l N _ IH]; cbn [app]; [exact IHb|]. constructor.
  - rewrite in_app_iff. intros [H|H]; [exact (N H)|exact (Dj x (or_introl eq_refl) H)].
  - apply IH. intros y Hy. apply Dj. right. exact Hy.
Qed.
(** What a step of a call does to the counts of the leaves. *)
Definition keeps_leaves (t t' : tree) : Prop := forall q, leafval q t' = leafval q t.
Lemma at_path_keeps f : (forall t, match f t with LGo t' _ => keeps_leaves t t' | LBack t' => keeps_leaves t t' | LBad => True end) ->
  forall q t, match at_path f q t with LGo t' _ => keeps_leaves t t' | LBack t' => keeps_leaves t t' | LBad => True end.
Proof.
  intros Hf. induction q as [|i r IH]; intros t; cbn [at_path]; [apply Hf|].
  destruct t as [n|c a b|n m a]; [exact Logic.I| |].
  - destruct (i =? 1).
    + specialize (IH a). destruct (at_path f r a); try exact Logic.I; intros [|j q]; try reflexivity; unfold leafval; cbn [node_at];
        (destruct (j =? 1); [apply IH|reflexivity]).
    + destruct (i =? 2); [|exact Logic.I]. specialize (IH b). destruct (at_path f r b); try exact Logic.I; intros [|j q]; try reflexivity; unfold leafval; cbn [node_at];
        (destruct (j =? 1); [reflexivity|]; destruct (j =? 2); [apply IH|reflexivity]).
  - destruct (i =? 1); [|exact Logic.I]. specialize (IH a). destruct (at_path f r a); try exact Logic.I; intros [|j q]; try reflexivity; unfold leafval; cbn [node_at];
      (destruct (j =? 1); [apply IH|reflexivity]).
Qed.
Lemma leave_keeps q t : match at_path leave q t with LGo t' _ => keeps_leaves t t' | LBack t' => keeps_leaves t t' | LBad => True end.
Proof.
  apply at_path_keeps. intros [n|c a b|n m a]; cbn [leave]; try exact Logic.I; intros [|i r]; reflexivity.
Qed.
Lemma enter_keeps : forall q t,
  match at_path enter q t with
  | LGo t' _ => keeps_leaves t t' /\ leafval q t = None
  | LBack t' => exists n, leafval q t = Some n /\ forall x, leafval x t' = if path_eqb x q then Some (S n) else leafval x t
  | LBad => True
  end.
Proof.
  induction q as [|i r IH]; intros t; cbn [at_path].
  - destruct t as [n|c a b|n m a]; cbn [enter].
    + exists n. split; [reflexivity|]. intros [|j x]; reflexivity.
    + split; [intros [|i r]; reflexivity|reflexivity].
    + split; [intros [|i r]; reflexivity|reflexivity].
  - assert (Eq : forall x, path_eqb (i :: x) (i :: r) = path_eqb x r).
    { intros x. destruct (path_eqb_spec (i :: x) (i :: r)), (path_eqb_spec x r); congruence. }
    assert (Ne : forall j x, j <> i -> path_eqb (j :: x) (i :: r) = false).
    { intros j x N. destruct (path_eqb_spec (j :: x) (i :: r)); congruence. }
    assert (Ni : path_eqb [] (i :: r) = false) by (destruct (path_eqb_spec [] (i :: r)); congruence).
    destruct t as [n|c a b|n m a]; [exact Logic.I| |].
    + destruct (Nat.eqb_spec i 1) as [->|N1].
      * specialize (IH a). destruct (at_path enter r a) as [t' e|t'|]; [| |exact Logic.I].
        -- destruct IH as [K L]. split; [|exact L]. intros [|j x]; [reflexivity|]. unfold leafval. cbn [node_at]. destruct (j =? 1); [apply K|reflexivity].
        -- destruct IH as (k & L & K). exists k. split; [exact L|]. intros [|j x]; [rewrite Ni; reflexivity|]. unfold leafval at 1 2. cbn [node_at].
           destruct (Nat.eqb_spec j 1) as [->|N]; [rewrite Eq; apply K|rewrite Ne by exact N; reflexivity].
      * destruct (Nat.eqb_spec i 2) as [->|N2]; [|exact Logic.I].
        specialize (IH b). destruct (at_path enter r b) as [t' e|t'|]; [| |exact Logic.I].
        -- destruct IH as [K L]. split; [|exact L]. intros [|j x]; [reflexivity|]. unfold leafval. cbn [node_at].
           destruct (j =? 1); [reflexivity|]. destruct (j =? 2); [apply K|reflexivity].
        -- destruct IH as (k & L & K). exists k. split; [exact L|]. intros [|j x]; [rewrite Ni; reflexivity|]. unfold leafval at 1 2. cbn [node_at].
           destruct (Nat.eqb_spec j 2) as [->|N]; [rewrite Eq; apply K|rewrite Ne by exact N; destruct (j =? 1); reflexivity].
    + destruct (Nat.eqb_spec i 1) as [->|N1]; [|exact Logic.I].
      specialize (IH a). destruct (at_path enter r a) as [t' e|t'|]; [| |exact Logic.I].
      * destruct IH as [K L]. split; [|exact L]. intros [|j x]; [reflexivity|]. unfold leafval. cbn [node_at]. destruct (j =? 1); [apply K|reflexivity].
      * destruct IH as (k & L & K). exists k. split; [exact L|]. intros [|j x]; [rewrite Ni; reflexivity|]. unfold leafval at 1 2. cbn [node_at].
        destruct (Nat.eqb_spec j 1) as [->|N]; [rewrite Eq; apply K|rewrite Ne by exact N; reflexivity].
Qed.

(** ** The clients *)
(** What a step of a client does to an RPC it has. *)
Record rkept (r r' : rpc) : Prop := {
  rk_peer : r_peer r' = r_peer r; rk_given : r_given r' = r_given r; rk_parent : r_parent r' = r_parent r;
  rk_starting : starting r' = true -> starting r = true }.
Lemma rkept_refl r : rkept r r.
Proof. constructor; auto. Qed.
Record ckept (a : caction) (s s' : client) : Prop := {
  ck_old : forall i r, nth_error (c_rpcs s) i = Some r -> exists r', nth_error (c_rpcs s') i = Some r' /\ rkept r r';
  ck_len : length (c_rpcs s') = length (c_rpcs s) + match a with Initiate _ _ _ => 1 | _ => 0 end;
  ck_new : forall p q o, a = Initiate p q o ->
    nth_error (c_rpcs s') (length (c_rpcs s)) = Some (mkRpc p o None (mkCs (Some q) [] None None) Entered [] q None);
  ck_shut : a <> Shutdown -> c_shut s' = c_shut s }.
Lemma ckept_set a s i r r' s' : nth_error (c_rpcs s) i = Some r -> rkept r r' -> c_rpcs s' = lset i r' (c_rpcs s) -> c_shut s' = c_shut s ->
  (forall p q o, a <> Initiate p q o) -> ckept a s s'.
Proof.
  intros E K S Sh N. constructor; rewrite ?S, ?Sh; auto.
  - intros j x F. destruct (Nat.eq_dec j i) as [->|D].
    + exists r'. rewrite (lset_eq _ _ _ _ E). assert (x = r) by congruence. subst x. auto.
    + exists x. rewrite lset_neq by exact D. auto using rkept_refl.
  - rewrite lset_length. destruct a; try lia. destruct (N _ _ _ eq_refl).
  - intros p q o ->. destruct (N _ _ _ eq_refl).
Qed.
Lemma ckept_same a s s' : c_rpcs s' = c_rpcs s -> (a <> Shutdown -> c_shut s' = c_shut s) -> (forall p q o, a <> Initiate p q o) -> ckept a s s'.
Proof.
  intros S Sh N. constructor; rewrite ?S; auto.
  - intros j x F. exists x. auto using rkept_refl.
  - destruct a; try lia. destruct (N _ _ _ eq_refl).
  - intros p q o ->. destruct (N _ _ _ eq_refl).
Qed.
Lemma complete_kept a i r s s' : nth_error (c_rpcs s) i = Some r -> complete i r s = Some s' -> (forall p q o, a <> Initiate p q o) -> ckept a s s'.
Proof.
  intros E C N. unfold complete in C. destruct (r_phase r) eqn:P; try discriminate.
  - injection C as <-. apply (ckept_set a s i r (deliver status response r)); auto; constructor; try reflexivity. discriminate.
  - destruct (busy i (c_rpcs s)); [discriminate|]. injection C as <-. apply (ckept_set a s i r (with_phase Returned r)); auto; constructor; try reflexivity. discriminate.
  - injection C as <-. apply (ckept_set a s i r (with_phase Deleted r)); auto; constructor; try reflexivity. discriminate.
  - injection C as <-. apply (ckept_set a s i r (with_phase Released r)); auto; constructor; try reflexivity. discriminate.
Qed.
Lemma cstep_kept k a s s' : cstep k a s = Next s' -> ckept a s s'.
Proof.
  intros E. destruct a as [p q o|i|i st resp|t|]; cbn [cstep] in E.
  - unfold initiate in E. match type of E with (if negb ?b then _ else _) = _ => destruct b end; cbn [negb] in E; [|discriminate].
    destruct (_ <? _); [|discriminate]. injection E as <-. constructor; cbn [c_rpcs c_shut]; auto.
    + intros i r F. exists r. rewrite nth_error_app1 by (apply nth_error_Some; congruence). auto using rkept_refl.
    + rewrite app_length. reflexivity.
    + intros p' q' o' H. injection H as <- <- <-. rewrite nth_error_app2, Nat.sub_diag by lia. reflexivity.
  - unfold advance in E. destruct (nth_error (c_rpcs s) i) as [r|] eqn:F; [|discriminate].
    assert (G : match k with Polling => Stuck | Callback => match complete i r s with Some s1 => Next s1 | None => Stuck end end = Next s' -> ckept (Advance i) s s').
    { destruct k; [discriminate|]. destruct (complete i r s) as [s1|] eqn:C; [|discriminate]. intros H. injection H as <-. eapply complete_kept; eauto; discriminate. }
    destruct (r_phase r) eqn:P; try exact (G E); clear G.
    + injection E as <-. eapply ckept_set; [exact F| |reflexivity|reflexivity|discriminate]. constructor; try reflexivity. unfold starting. rewrite P. auto.
    + unfold post in E. destruct (nth_error (c_stubs s) (r_peer r)) as [[|]|]; try discriminate.
      assert (H : s' = set_rpc i (with_phase InFlight r) s) by (destruct k; [destruct (c_cq_shut s); [discriminate|]|]; injection E as <-; reflexivity). subst s'.
      eapply ckept_set; [exact F| |reflexivity|reflexivity|discriminate]. constructor; try reflexivity. discriminate.
  - unfold wire in E. destruct (nth_error (c_rpcs s) i) as [r|] eqn:F; [|discriminate]. destruct (r_phase r); try discriminate. injection E as <-.
    eapply ckept_set; [exact F| |reflexivity|reflexivity|discriminate]. constructor; try reflexivity. discriminate.
  - unfold poll in E. destruct k; [|discriminate]. destruct (c_poller s) as [| |i|].
    + injection E as <-. apply ckept_same; auto; discriminate.
    + destruct t as [i|].
      * destruct (nth_error (c_rpcs s) i) as [r|]; [|discriminate]. destruct (r_phase r); try discriminate. injection E as <-. apply ckept_same; auto; discriminate.
      * destruct (_ && _); [|discriminate]. injection E as <-. apply ckept_same; auto; discriminate.
    + destruct (nth_error (c_rpcs s) i) as [r|] eqn:F; [|discriminate]. destruct (complete i r s) as [s1|] eqn:C; [|discriminate]. injection E as <-.
      assert (K : ckept (Poll t) s s1) by (eapply complete_kept; eauto; discriminate). destruct K as [A B Cn D]. destruct (r_phase r); constructor; cbn [set_poller c_rpcs c_shut]; auto.
    + discriminate.
  - unfold shutdown in E. destruct (c_shut s).
    + injection E as <-. apply ckept_same; auto; try discriminate. congruence.
    + destruct (Z.eqb _ _); [|discriminate]. injection E as <-. apply ckept_same; auto; try discriminate. congruence.
    + injection E as <-. apply ckept_same; auto; try discriminate. congruence.
    + injection E as <-. apply ckept_same; auto; try discriminate. congruence.
    + destruct (c_poller s); try discriminate. injection E as <-. apply ckept_same; auto; try discriminate. congruence.
    + injection E as <-. apply ckept_same; auto; try discriminate. congruence.
    + injection E as <-. apply ckept_same; auto; try discriminate. congruence.
Qed.
Lemma shutdown_begun k s s' : cstep k Shutdown s = Next s' -> c_shut s' <> ShNot.
Proof.
  cbn [cstep]. unfold shutdown. intros E. destruct (c_shut s); try (injection E as <-; discriminate).
  - destruct (Z.eqb _ _); [|discriminate]. injection E as <-. destruct k; [destruct (c_notified s)|]; discriminate.
  - destruct (c_poller s); try discriminate. injection E as <-. discriminate.
Qed.

(** ** Steps of the composite *)
Definition leaf_upd (p : list nat) (k : kind) (s : client) (f : list nat -> option (kind * client)) (q : list nat) : option (kind * client) :=
  if path_eqb q p then Some (k, s) else f q.
Inductive kmove (a : kaction) (x : comp) : comp -> Prop :=
  | MNew peer q o : a = KInitiate peer q o ->
      kmove a x (mkComp (mkSys (sy_tree (p_sys x)) (sy_calls (p_sys x) ++ [CDown []])) (p_info x ++ [mkCi peer q o None]) (p_leaf x) (p_shut x))
  | MTree j c t' c' ci : a = KThread j -> nth_error (sy_calls (p_sys x)) j = Some c -> nth_error (p_info x) j = Some ci ->
      call_step (sy_tree (p_sys x)) c = Stepped t' c' ->
      match c with
      | CDown p => p_leaf x p = None
      | CUp _ => exists p i r, ci_rpc ci = Some (p, i) /\ rpc_at x p i = Some r /\ starting r = false
      | CDone => False
      end ->
      kmove a x (mkComp (mkSys t' (set_nth j c' (sy_calls (p_sys x)))) (p_info x) (p_leaf x) (p_shut x))
  | MEnter j p ci k s s' t' c' : a = KThread j -> nth_error (sy_calls (p_sys x)) j = Some (CDown p) -> nth_error (p_info x) j = Some ci ->
      p_leaf x p = Some (k, s) -> cstep k (Initiate (ci_peer ci) (ci_request ci) None) s = Next s' ->
      call_step (sy_tree (p_sys x)) (CDown p) = Stepped t' c' ->
      kmove a x (mkComp (mkSys t' (set_nth j c' (sy_calls (p_sys x))))
                   (lset j (mkCi (ci_peer ci) (ci_request ci) (ci_parent ci) (Some (p, length (c_rpcs s)))) (p_info x))
                   (leaf_upd p k s' (p_leaf x)) (p_shut x))
  | MClient p k s b s' sh : p_leaf x p = Some (k, s) -> cstep k b s = Next s' -> (forall u v w, b <> Initiate u v w) ->
      (b <> Shutdown -> sh = p_shut x /\ a <> KShutdown) ->
      (b = Shutdown -> a = KShutdown /\ exists e rest, p_shut x = KAt e p rest /\ sh = KAt true p rest /\ (e = true -> c_shut s <> ShDone)) ->
      kmove a x (mkComp (p_sys x) (p_info x) (leaf_upd p k s' (p_leaf x)) sh)
  | MBegin p rest : a = KShutdown -> p_shut x = KNot \/ p_shut x = KDone -> leaf_paths [] (sy_tree (p_sys x)) = p :: rest ->
      kmove a x (mkComp (p_sys x) (p_info x) (p_leaf x) (KAt false p rest))
  | MPast p k s rest : a = KShutdown -> p_shut x = KAt true p rest -> p_leaf x p = Some (k, s) -> c_shut s = ShDone ->
      kmove a x (mkComp (p_sys x) (p_info x) (p_leaf x) (match rest with [] => KDone | q :: r => KAt false q r end)).
Lemma kstep_move a x x' : kstep a x = KNext x' -> kmove a x x'.
Proof.
  intros E. destruct a as [peer q o|j|p b|]; cbn [kstep] in E.
  - match type of E with (if ?b then _ else _) = _ => destruct b end; [|discriminate]. cbn [sys_step] in E. injection E as <-. eapply MNew. reflexivity.
  - unfold thread_step in E. destruct (nth_error (sy_calls (p_sys x)) j) as [c|] eqn:Ec; [|discriminate].
    assert (T : forall y y', nth_error (sy_calls (p_sys y)) j = Some c -> tree_step j y = KNext y' ->
      exists t' c', call_step (sy_tree (p_sys y)) c = Stepped t' c' /\ y' = mkComp (mkSys t' (set_nth j c' (sy_calls (p_sys y)))) (p_info y) (p_leaf y) (p_shut y)).
    { intros y y' F G. unfold tree_step in G. cbn [sys_step] in G. rewrite F in G. destruct (call_step (sy_tree (p_sys y)) c) as [t' c'|]; [|discriminate].
      injection G as <-. eauto. }
    destruct c as [p|p|]; [| |discriminate]; destruct (nth_error (p_info x) j) as [ci|] eqn:Ei; try discriminate.
    + destruct (p_leaf x p) as [[k s]|] eqn:L.
      * unfold client_step in E. rewrite L in E. destruct (cstep k (Initiate (ci_peer ci) (ci_request ci) None) s) as [s'|c|] eqn:C; try discriminate.
        apply T in E; [|exact Ec]. destruct E as (t' & c' & St & ->). cbn [set_info set_leaf p_sys p_info p_leaf p_shut] in *.
        eapply (MEnter _ x j p ci k s s'); eauto.
      * apply T in E; [|exact Ec]. destruct E as (t' & c' & St & ->). eapply (MTree _ x j (CDown p)); eauto.
    + destruct (ci_rpc ci) as [[q i]|] eqn:R; [|discriminate]. destruct (rpc_at x q i) as [r|] eqn:Er; [|discriminate]. destruct (starting r) eqn:Sr.
      * unfold client_step in E. destruct (p_leaf x q) as [[k s]|] eqn:L; [|discriminate]. destruct (cstep k (Advance i) s) as [s'|c|] eqn:C; try discriminate.
        injection E as <-. eapply (MClient _ x q k s (Advance i) s' (p_shut x)); eauto; try discriminate. intros _. split; [reflexivity|discriminate].
      * apply T in E; [|exact Ec]. destruct E as (t' & c' & St & ->). eapply (MTree _ x j (CUp p)); eauto 8.
  - destruct (background x p b) eqn:B; [|discriminate]. unfold client_step in E. unfold background in B. destruct (p_leaf x p) as [[k s]|] eqn:L; [|discriminate].
    destruct (cstep k b s) as [s'|c|] eqn:C; try discriminate. injection E as <-. eapply (MClient _ x p k s b s' (p_shut x)); eauto.
    + intros u v w ->. discriminate.
    + intros _. split; [reflexivity|discriminate].
    + intros ->. discriminate.
  - unfold shutdown_step in E. destruct (p_shut x) as [|e p rest|] eqn:Sh.
    + destruct (leaf_paths [] (sy_tree (p_sys x))) as [|p rest] eqn:Lp; [discriminate|]. injection E as <-. eapply MBegin; eauto.
    + destruct (p_leaf x p) as [[k s]|] eqn:L; [|discriminate].
      assert (G : forall (K : e = true -> c_shut s <> ShDone),
        match client_step p Shutdown x with KNext x1 => KNext (set_kshut (KAt true p rest) x1) | e0 => e0 end = KNext x' -> kmove KShutdown x x').
      { intros K F. unfold client_step in F. rewrite L in F. destruct (cstep k Shutdown s) as [s'|c|] eqn:C; try discriminate. injection F as <-.
        eapply (MClient _ x p k s Shutdown s' (KAt true p rest)); eauto; try discriminate; [congruence|]. intros _. split; [reflexivity|]. exists e, rest. auto. }
      destruct e; [|apply G; [discriminate|exact E]].
      destruct (c_shut s) eqn:Cs; try (apply G; [discriminate|exact E]). injection E as <-. eapply MPast; eauto.
    + destruct (leaf_paths [] (sy_tree (p_sys x))) as [|p rest] eqn:Lp; [discriminate|]. injection E as <-. eapply MBegin; eauto.
Qed.

(** ** The invariant *)
Section Inv.
Context (d : driver) (kinds : list nat -> kind) (stubs : list nat -> list bool).
(** A call and the RPC it became. *)
Definition became (x : comp) (ci : cinfo) (P : list nat -> rpc -> Prop) : Prop :=
  exists p i r, ci_rpc ci = Some (p, i) /\ rpc_at x p i = Some r /\ r_peer r = ci_peer ci /\ r_given r = ci_request ci /\ r_parent r = None /\ P p r.
Definition call_fine (x : comp) (c : call_state) (ci : cinfo) : Prop :=
  match c with
  | CDown _ => ci_rpc ci = None
  | CUp q => became x ci (fun p r => starting r = true -> q = p)
  | CDone => became x ci (fun _ r => starting r = false)
  end.
Record kinv (x : comp) : Prop := {
  ki_sys : exists acts, sys_run (mkSys (fresh d) []) acts = Some (p_sys x);
  ki_len : length (p_info x) = length (sy_calls (p_sys x));
  ki_leaf : forall p, p_leaf x p <> None <-> In p (leaf_paths [] (fresh d));
  ki_client : forall p k s, p_leaf x p = Some (k, s) -> k = kinds p /\ exists l, crun k l (start_client (stubs p)) = Next s;
  ki_count : forall p k s, p_leaf x p = Some (k, s) -> leafval p (sy_tree (p_sys x)) = Some (length (c_rpcs s));
  ki_call : forall j c ci, nth_error (sy_calls (p_sys x)) j = Some c -> nth_error (p_info x) j = Some ci -> call_fine x c ci;
  ki_inj : forall j j' ci ci' e, nth_error (p_info x) j = Some ci -> nth_error (p_info x) j' = Some ci' ->
    ci_rpc ci = Some e -> ci_rpc ci' = Some e -> j = j';
  ki_sur : forall p i r, rpc_at x p i = Some r -> exists j ci, nth_error (p_info x) j = Some ci /\ ci_rpc ci = Some (p, i);
  ki_in : forall p rest k s, p_shut x = KAt true p rest -> p_leaf x p = Some (k, s) -> c_shut s <> ShNot }.

Lemma sys_run_app l1 : forall l2 s, sys_run s (l1 ++ l2) = match sys_run s l1 with Some s' => sys_run s' l2 | None => None end.
Proof. induction l1 as [|a l1 IH]; intros l2 s; cbn [app sys_run]; [reflexivity|]. destruct (sys_step s a); auto. Qed.
Lemma crun_snoc k a l : forall s s1 s2, crun k l s = Next s1 -> cstep k a s1 = Next s2 -> crun k (l ++ [a]) s = Next s2.
Proof.
  induction l as [|b l IH]; intros s s1 s2 R C; cbn [app crun] in *; [injection R as ->; rewrite C; reflexivity|].
  destruct (cstep k b s); [eauto|discriminate|eauto].
Qed.
Lemma kinv_start : kinv (kstart d kinds stubs).
Proof.
  constructor; cbn [kstart p_sys p_info p_leaf p_shut sy_calls sy_tree]; auto.
  - exists []. reflexivity.
  - intros p. destruct (existsb (path_eqb p) (leaf_paths [] (fresh d))) eqn:B.
    + split; [intros _|discriminate]. apply existsb_exists in B. destruct B as (q & Hq & Eq). destruct (path_eqb_spec p q); [subst; exact Hq|discriminate].
    + split; [congruence|]. intros H. exfalso. assert (existsb (path_eqb p) (leaf_paths [] (fresh d)) = true) by (apply existsb_exists; exists p; rewrite path_eqb_refl; auto). congruence.
  - intros p k s. destruct (existsb _ _); [|discriminate]. intros E. injection E as <- <-. split; [reflexivity|]. exists []. reflexivity.
  - intros p k s. destruct (existsb (path_eqb p) (leaf_paths [] (fresh d))) eqn:B; [|discriminate]. intros E. injection E as <- <-. cbn [start_client c_rpcs length].
    apply existsb_exists in B. destruct B as (q & Hq & Eq). destruct (path_eqb_spec p q) as [->|]; [|discriminate]. apply leaf_paths_spec in Hq. destruct Hq as (r & n & -> & L).
    cbn [app]. rewrite L. f_equal. clear -L. revert r L. induction d as [o|o|o|d1 IH1 d2 IH2|d1 IH]; intros [|i r] L; unfold leafval in L; cbn [fresh node_at] in L; try discriminate;
      try (injection L as <-; reflexivity).
    + destruct (i =? 1); [eapply IH1; exact L|]. destruct (i =? 2); [eapply IH2; exact L|discriminate].
    + destruct (i =? 1); [eapply IH; exact L|discriminate].
  - intros [|j] c ci H; discriminate.
  - intros [|j] j' ci ci' e H; discriminate.
  - intros p i r H. unfold rpc_at in H. cbn [kstart p_leaf] in H. destruct (existsb _ _); [|discriminate]. destruct i; discriminate.
  - discriminate.
Qed.
Lemma rpc_at_upd x sys info p k s' sh q i : rpc_at (mkComp sys info (leaf_upd p k s' (p_leaf x)) sh) q i = if path_eqb q p then nth_error (c_rpcs s') i else rpc_at x q i.
Proof. unfold rpc_at, leaf_upd. cbn [p_leaf]. destruct (path_eqb q p); reflexivity. Qed.
(** The RPCs that were there are still there after a step of a client. *)
Lemma rpc_at_kept x sys info p k s b s' sh q i r : p_leaf x p = Some (k, s) -> ckept b s s' -> rpc_at x q i = Some r ->
  exists r', rpc_at (mkComp sys info (leaf_upd p k s' (p_leaf x)) sh) q i = Some r' /\ rkept r r'.
Proof.
  intros L K E. rewrite rpc_at_upd. destruct (path_eqb_spec q p) as [->|N]; [|eauto using rkept_refl].
  unfold rpc_at in E. rewrite L in E. exact (ck_old _ _ _ K _ _ E).
Qed.
Lemma became_kept x sys info p k s b s' sh ci (P Q : list nat -> rpc -> Prop) : p_leaf x p = Some (k, s) -> ckept b s s' ->
  (forall q r r', rkept r r' -> P q r -> Q q r') -> became x ci P -> became (mkComp sys info (leaf_upd p k s' (p_leaf x)) sh) ci Q.
Proof.
  intros L K H (q & i & r & A & B & C & D & E & F). destruct (rpc_at_kept x sys info p k s b s' sh q i r L K B) as (r' & B' & G).
  exists q, i, r'. repeat split; auto; try (destruct G; congruence). exact (H _ _ _ G F).
Qed.
Lemma call_fine_kept x sys info p k s b s' sh c ci : p_leaf x p = Some (k, s) -> ckept b s s' ->
  call_fine x c ci -> call_fine (mkComp sys info (leaf_upd p k s' (p_leaf x)) sh) c ci.
Proof.
  intros L K. destruct c as [q|q|]; cbn [call_fine]; auto.
  - eapply became_kept; eauto. intros q' r r' G H S. apply H, (rk_starting _ _ G S).
  - eapply became_kept; eauto. intros q' r r' G H. destruct (starting r') eqn:S; [|reflexivity]. rewrite (rk_starting _ _ G S) in H. discriminate.
Qed.
Lemma call_fine_same x sys info sh c ci : call_fine x c ci -> call_fine (mkComp sys info (p_leaf x) sh) c ci.
Proof. destruct c; exact (fun H => H). Qed.
Lemma set_nth_inv {A} (l : list A) i j x y : nth_error (set_nth i x l) j = Some y -> (j = i /\ y = x) \/ (j <> i /\ nth_error l j = Some y).
Proof.
  assert (Q : forall l i, set_nth i x l = lset i x l) by (clear; induction l as [|z l IH]; intros [|i]; cbn [set_nth lset]; auto; f_equal; auto).
  rewrite Q. apply lset_inv.
Qed.
Lemma call_step_leaves t c t' c' : call_step t c = Stepped t' c' ->
  match c with
  | CDown p => (leafval p t = None /\ keeps_leaves t t' /\ exists q, c' = CDown q) \/
               (exists n, leafval p t = Some n /\ (forall x, leafval x t' = if path_eqb x p then Some (S n) else leafval x t) /\ c' = CUp p)
  | CUp p => keeps_leaves t t' /\ ((exists q, c' = CUp q) \/ c' = CDone)
  | CDone => False
  end.
Proof.
  destruct c as [p|[|i p]|]; cbn [call_step]; [| | |discriminate].
  - pose proof (enter_keeps p t) as K. destruct (at_path enter p t) as [t1 e|t1|]; [| |discriminate]; intros E; injection E as <- <-.
    + left. destruct K. split; [assumption|]. split; [assumption|]. eauto.
    + right. destruct K as (n & A & B). exists n. auto.
  - intros E. injection E as <- <-. split; [intros q; reflexivity|auto].
  - pose proof (leave_keeps (removelast (i :: p)) t) as K. destruct (at_path leave (removelast (i :: p)) t) as [t1 e|t1|]; [discriminate| |discriminate].
    intros E. injection E as <- <-. split; [exact K|]. left. eauto.
Qed.
Lemma kinv_move a x x' : kinv x -> kmove a x x' -> kinv x'.
Proof.
  intros V M. pose proof (ki_sys _ V) as [acts R].
  destruct M as [peer q o Ea|j c t' c' ci Ea Ec Ei St G|j p ci k s s' t' c' Ea Ec Ei L C St|p k s b s' sh L C Ni Nb Sb|p rest Ea Sh Lp|p k s rest Ea Sh L Cs].
  - constructor; cbn [p_sys p_info p_leaf p_shut sy_calls sy_tree]; try apply V.
    + exists (acts ++ [ANew]). rewrite sys_run_app, R. reflexivity.
    + rewrite !app_length, (ki_len _ V). reflexivity.
    + intros j c ci Hc Hi. destruct (Nat.lt_ge_cases j (length (p_info x))) as [Lt|Ge].
      * rewrite nth_error_app1 in Hi by exact Lt. rewrite nth_error_app1 in Hc by (rewrite <- (ki_len _ V); exact Lt). apply call_fine_same. exact (ki_call _ V _ _ _ Hc Hi).
      * rewrite nth_error_app2 in Hi by exact Ge. rewrite nth_error_app2 in Hc by (rewrite <- (ki_len _ V); exact Ge). rewrite <- (ki_len _ V) in Hc.
        destruct (j - length (p_info x)) as [|[|n]]; try discriminate. injection Hi as <-. injection Hc as <-. reflexivity.
    + intros j j' ci ci' e Hj Hj' E E'.
      assert (G : forall n cn, nth_error (p_info x ++ [mkCi peer q o None]) n = Some cn -> ci_rpc cn = Some e -> nth_error (p_info x) n = Some cn).
      { intros n cn H K. destruct (Nat.lt_ge_cases n (length (p_info x))) as [Lt|Ge]; [rewrite nth_error_app1 in H by exact Lt; exact H|].
        rewrite nth_error_app2 in H by exact Ge. destruct (n - length (p_info x)) as [|[|m]]; try discriminate. injection H as <-. discriminate. }
      exact (ki_inj _ V _ _ _ _ _ (G _ _ Hj E) (G _ _ Hj' E') E E').
    + intros p i r H. destruct (ki_sur _ V p i r H) as (j & ci & A & B). exists j, ci. split; [|exact B]. rewrite nth_error_app1; [exact A|apply nth_error_Some; congruence].
  - pose proof (call_step_leaves _ _ _ _ St) as Lv.
    assert (Kl : keeps_leaves (sy_tree (p_sys x)) t').
    { destruct c as [p|p|]; [|exact (proj1 Lv)|destruct G]. destruct Lv as [(_ & K & _)|(n & Ln & _)]; [exact K|]. exfalso.
      apply (ki_leaf _ V p); [|exact G]. pose proof (leaf_paths_shape _ _ [] (run_shape _ _ _ R)) as Q. cbn [sy_tree] in Q. rewrite Q. apply leaf_paths_in. congruence. }
    constructor; cbn [p_sys p_info p_leaf p_shut sy_calls sy_tree]; try apply V.
    + exists (acts ++ [AStep j]). rewrite sys_run_app, R. cbn [sys_run sys_step]. rewrite Ec, St. reflexivity.
    + rewrite set_nth_length. apply V.
    + intros q k s H. rewrite Kl. exact (ki_count _ V _ _ _ H).
    + intros j2 c2 ci2 H2 I2. apply call_fine_same. destruct (set_nth_inv _ _ _ _ _ H2) as [[-> ->]|[N H]]; [|exact (ki_call _ V _ _ _ H I2)].
      assert (ci2 = ci) by congruence. subst ci2. pose proof (ki_call _ V _ _ _ Ec Ei) as F. destruct c as [p|p|]; [| |destruct G].
      * cbn [call_fine] in F. destruct Lv as [(_ & _ & q & ->)|(n & Ln & _)]; [exact F|]. exfalso.
        apply (ki_leaf _ V p); [|exact G]. pose proof (leaf_paths_shape _ _ [] (run_shape _ _ _ R)) as Q. cbn [sy_tree] in Q. rewrite Q. apply leaf_paths_in. congruence.
      * destruct G as (q & i & r & A & B & Sr). destruct F as (q' & i' & r' & A' & B' & C1 & C2 & C3 & C4).
        assert (E : (q', i') = (q, i)) by congruence. injection E as -> ->. assert (r' = r) by congruence. subst r'.
        destruct Lv as [_ [(q2 & ->)| ->]]; exists q, i, r; repeat split; auto. congruence.
  - pose proof (call_step_leaves _ _ _ _ St) as Lv. pose proof (cstep_kept _ _ _ _ C) as K.
    destruct Lv as [(Ln & _)|(n & Ln & Lt & ->)]; [rewrite (ki_count _ V _ _ _ L) in Ln; discriminate|].
    rewrite (ki_count _ V _ _ _ L) in Ln. injection Ln as <-.
    constructor; cbn [p_sys p_info p_leaf p_shut sy_calls sy_tree].
    + exists (acts ++ [AStep j]). rewrite sys_run_app, R. cbn [sys_run sys_step]. rewrite Ec, St. reflexivity.
    + rewrite lset_length, set_nth_length. apply V.
    + intros q. rewrite <- (ki_leaf _ V q). unfold leaf_upd. destruct (path_eqb_spec q p) as [->|]; [|reflexivity]. rewrite L. split; discriminate.
    + intros q k2 s2. unfold leaf_upd. destruct (path_eqb_spec q p) as [->|]; [|apply V]. intros E. injection E as <- <-.
      destruct (ki_client _ V _ _ _ L) as (A & l & B). split; [exact A|]. eexists. eapply crun_snoc; eassumption.
    + intros q k2 s2. rewrite Lt. unfold leaf_upd. destruct (path_eqb_spec q p) as [->|]; [|apply V]. intros E. injection E as <- <-. rewrite (ck_len _ _ _ K). f_equal. lia.
    + intros j2 c2 ci2 H2 I2. destruct (lset_inv _ _ _ _ _ I2) as [[-> ->]|[N I3]].
      * destruct (set_nth_inv _ _ _ _ _ H2) as [[_ ->]|[N _]]; [|congruence]. cbn [call_fine]. do 3 eexists. cbn [ci_rpc ci_peer ci_request]. split; [reflexivity|].
        split; [rewrite rpc_at_upd, path_eqb_refl; exact (ck_new _ _ _ K _ _ _ eq_refl)|]. cbn [r_peer r_given r_parent]. auto.
      * destruct (set_nth_inv _ _ _ _ _ H2) as [[-> _]|[_ H3]]; [congruence|]. eapply call_fine_kept; eauto. exact (ki_call _ V _ _ _ H3 I3).
    + assert (Fresh : forall j2 ci2, nth_error (p_info x) j2 = Some ci2 -> ci_rpc ci2 <> Some (p, length (c_rpcs s))).
      { intros j2 ci2 H E. destruct (nth_error (sy_calls (p_sys x)) j2) as [c2|] eqn:E2.
        - pose proof (ki_call _ V _ _ _ E2 H) as F. assert (B : exists r, rpc_at x p (length (c_rpcs s)) = Some r).
          { destruct c2 as [q|q|]; cbn [call_fine] in F; [congruence| |]; destruct F as (q' & i' & r' & A & B & _); assert (W : (q', i') = (p, length (c_rpcs s))) by congruence; injection W as -> ->; eauto. }
          destruct B as (r & B). unfold rpc_at in B. rewrite L in B. assert (length (c_rpcs s) < length (c_rpcs s)) by (apply nth_error_Some; congruence). lia.
        - apply nth_error_None in E2. rewrite <- (ki_len _ V) in E2. assert (j2 < length (p_info x)) by (apply nth_error_Some; congruence). lia. }
      intros j1 j2 c1 c2 e H1 H2 E1 E2.
      destruct (lset_inv _ _ _ _ _ H1) as [[-> ->]|[N1 I1]], (lset_inv _ _ _ _ _ H2) as [[-> ->]|[N2 I2]]; [reflexivity| | |exact (ki_inj _ V _ _ _ _ _ I1 I2 E1 E2)];
        cbn [ci_rpc] in *.
      * exfalso. apply (Fresh _ _ I2). congruence.
      * exfalso. apply (Fresh _ _ I1). congruence.
    + intros q i r H. rewrite rpc_at_upd in H.
      assert (Old : rpc_at x q i <> None -> exists j2 ci2, nth_error (lset j (mkCi (ci_peer ci) (ci_request ci) (ci_parent ci) (Some (p, length (c_rpcs s)))) (p_info x)) j2 = Some ci2 /\ ci_rpc ci2 = Some (q, i)).
      { intros N. destruct (rpc_at x q i) as [r0|] eqn:E0; [|congruence]. destruct (ki_sur _ V _ _ _ E0) as (j2 & ci2 & A & B).
        destruct (Nat.eq_dec j2 j) as [->|D].
        - exfalso. assert (ci2 = ci) by congruence. subst ci2. pose proof (ki_call _ V _ _ _ Ec Ei) as F. cbn [call_fine] in F. congruence.
        - exists j2, ci2. rewrite lset_neq by exact D. auto. }
      destruct (path_eqb_spec q p) as [->|N]; [|apply Old; congruence].
      destruct (Nat.lt_ge_cases i (length (c_rpcs s))) as [Lt2|Ge].
      * apply Old. unfold rpc_at. rewrite L. apply nth_error_Some, Lt2.
      * assert (i < length (c_rpcs s')) by (apply nth_error_Some; congruence). rewrite (ck_len _ _ _ K) in *. assert (i = length (c_rpcs s)) by lia. subst i.
        exists j. eexists. rewrite (lset_eq _ _ _ _ Ei). split; reflexivity.
    + intros q rest k2 s2 Sh. unfold leaf_upd. destruct (path_eqb_spec q p) as [->|]; [|exact (ki_in _ V _ _ _ _ Sh)]. intros E. injection E as <- <-.
      rewrite (ck_shut _ _ _ K) by discriminate. exact (ki_in _ V _ _ _ _ Sh L).
  - pose proof (cstep_kept _ _ _ _ C) as K. assert (Ln : length (c_rpcs s') = length (c_rpcs s)) by (rewrite (ck_len _ _ _ K); destruct b; try lia; destruct (Ni _ _ _ eq_refl)).
    constructor; cbn [p_sys p_info p_leaf p_shut sy_calls sy_tree]; try apply V.
    + intros q. rewrite <- (ki_leaf _ V q). unfold leaf_upd. destruct (path_eqb_spec q p) as [->|]; [|reflexivity]. rewrite L. split; discriminate.
    + intros q k2 s2. unfold leaf_upd. destruct (path_eqb_spec q p) as [->|]; [|apply V]. intros E. injection E as <- <-.
      destruct (ki_client _ V _ _ _ L) as (A & l & B). split; [exact A|]. eexists. eapply crun_snoc; eassumption.
    + intros q k2 s2. unfold leaf_upd. destruct (path_eqb_spec q p) as [->|]; [|apply V]. intros E. injection E as <- <-. rewrite Ln. exact (ki_count _ V _ _ _ L).
    + intros j2 c2 ci2 H2 I2. eapply call_fine_kept; eauto. exact (ki_call _ V _ _ _ H2 I2).
    + intros q i r H. rewrite rpc_at_upd in H. assert (N : rpc_at x q i <> None).
      { destruct (path_eqb_spec q p) as [->|N]; [|congruence]. unfold rpc_at. rewrite L. apply nth_error_Some. rewrite <- Ln. apply nth_error_Some. congruence. }
      destruct (rpc_at x q i) as [r0|] eqn:E0; [|congruence]. exact (ki_sur _ V _ _ _ E0).
    + intros q rest k2 s2 Sh E. assert (Dec : b = Shutdown \/ b <> Shutdown) by (destruct b; auto; right; discriminate). destruct Dec as [->|N].
      * destruct (Sb eq_refl) as (_ & e & rest2 & _ & -> & _). injection Sh as <- <-. unfold leaf_upd in E. rewrite path_eqb_refl in E. injection E as <- <-.
        exact (shutdown_begun _ _ _ C).
      * destruct (Nb N) as [-> _]. unfold leaf_upd in E. destruct (path_eqb_spec q p) as [->|]; [|exact (ki_in _ V _ _ _ _ Sh E)]. injection E as <- <-.
        rewrite (ck_shut _ _ _ K) by exact N. exact (ki_in _ V _ _ _ _ Sh L).
  - constructor; try apply V. discriminate.
  - constructor; try apply V. cbn [p_shut]. destruct rest; discriminate.
Qed.
Lemma kinv_run l : forall x x', kinv x -> krun l x = KNext x' -> kinv x'.
Proof.
  induction l as [|a l IH]; intros x x' V R; cbn [krun] in R; [injection R as <-; exact V|].
  destruct (kstep a x) as [x1|c|] eqn:E; [|discriminate|eauto]. eapply IH; [eapply kinv_move; [exact V|eapply kstep_move; exact E]|exact R].
Qed.
End Inv.
