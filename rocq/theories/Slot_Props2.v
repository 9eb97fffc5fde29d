(** C100, continued: iterations that send to several targets. *)
From Coq Require Import Ascii String List NArith ZArith Bool Arith Lia.
From Verif Require Import Wire_Model Slot_Model Slot_Props.
Import ListNotations.
Open Scope nat_scope.

(** The RPCs before that used the state number [i]: those at place [i] since the
    last iteration that had targets but fewer than [i] + 1. *)
Definition column (i : nat) (l : list (list round)) : list round :=
  fold_left (fun acc rpcs => match rpcs with
                             | [] => acc
                             | _ => match nth_error rpcs i with Some r => acc ++ [r] | None => [] end
                             end) l [].

Lemma column_snoc i l rpcs : column i (l ++ [rpcs]) = match rpcs with [] => column i l | _ => match nth_error rpcs i with Some r => column i l ++ [r] | None => [] end end.
Proof. unfold column. rewrite fold_left_app. reflexivity. Qed.
Lemma iterations_snoc d g rpcs : forall l s, fst (iterations d g (l ++ [rpcs]) s) = fst (iteration d g rpcs (fst (iterations d g l s))).
Proof.
  induction l as [|x l IH]; intros s; cbn [app iterations].
  - cbn [fst]. destruct (iteration d g rpcs s). reflexivity.
  - destruct (iteration d g x s) as [s1 recs]. specialize (IH s1). destruct (iterations d g (l ++ [rpcs]) s1). destruct (iterations d g l s1). exact IH.
Qed.
Lemma iterations_at d g rpcs after : forall l s, nth_error (snd (iterations d g (l ++ rpcs :: after) s)) (length l) = Some (snd (iteration d g rpcs (fst (iterations d g l s)))).
Proof.
  induction l as [|x l IH]; intros s; cbn [app iterations length].
  - cbn [fst]. destruct (iteration d g rpcs s) as [s1 recs]. destruct (iterations d g after s1). reflexivity.
  - destruct (iteration d g x s) as [s1 recs]. specialize (IH s1). destruct (iterations d g (l ++ rpcs :: after) s1). destruct (iterations d g l s1). exact IH.
Qed.
Lemma resize_length g n s : length (resize g n s) = n.
Proof. unfold resize. rewrite app_length, firstn_length, repeat_length. lia. Qed.
Lemma nth_repeat' {A} (x : A) n i : nth i (repeat x n) x = x.
Proof. revert i. induction n as [|n IH]; intros [|i]; cbn [repeat nth]; auto. Qed.
Lemma nth_firstn' {A} (x : A) n : forall l i, i < n -> nth i (firstn n l) x = nth i l x.
Proof. induction n as [|n IH]; intros l i L; [lia|]. destruct l as [|a l]; [reflexivity|]. destruct i as [|i]; [reflexivity|]. cbn [firstn nth]. apply IH. lia. Qed.
Lemma resize_nth g n s i : i < n -> nth i (resize g n s) (new_slot g) = nth i s (new_slot g).
Proof.
  intros L. unfold resize. destruct (Nat.lt_ge_cases i (length (firstn n s))) as [K|K].
  - rewrite app_nth1 by exact K. apply nth_firstn'. exact L.
  - rewrite app_nth2 by exact K. rewrite nth_repeat'. rewrite firstn_length in K. symmetry. apply nth_overflow. lia.
Qed.
Lemma combine_nth_error {A B} (l : list A) : forall (m : list B) i a b, nth_error l i = Some a -> nth_error m i = Some b -> nth_error (combine l m) i = Some (a, b).
Proof. induction l as [|x l IH]; intros [|y m] [|i] a b H K; cbn [combine nth_error] in *; try discriminate; [congruence|auto]. Qed.
Lemma iteration_out d g rpcs slots i r : nth_error rpcs i = Some r -> let s := nth i slots (new_slot g) in
  nth_error (fst (iteration d g rpcs slots)) i = Some (fst (fst (one_rpc d r s))) /\
  nth_error (snd (iteration d g rpcs slots)) i = Some (snd (fst (one_rpc d r s)), snd (one_rpc d r s)).
Proof.
  intros E s. assert (L : i < length rpcs) by (apply nth_error_Some; congruence). unfold iteration. destruct rpcs as [|x rpcs]; [destruct i; discriminate E|]. remember (x :: rpcs) as l.
  assert (S : nth_error (resize g (length l) slots) i = Some s).
  { unfold s. rewrite <- (resize_nth g (length l) slots i L). apply nth_error_nth'. rewrite resize_length. exact L. }
  pose proof (combine_nth_error _ _ _ _ _ E S) as C. cbn [fst snd]. rewrite !map_map. split; rewrite (map_nth_error _ _ _ C); reflexivity.
Qed.
Lemma iteration_length d g rpcs slots : rpcs <> [] -> length (fst (iteration d g rpcs slots)) = length rpcs.
Proof. intros N. unfold iteration. destruct rpcs as [|x rpcs]; [congruence|]. cbn [fst]. rewrite !map_length, combine_length, resize_length. lia. Qed.
Lemma slots_column d g l : forall i, nth i (fst (iterations d g l [])) (new_slot g) = fst (through d (column i l) (new_slot g)).
Proof.
  induction l as [|rpcs l IH] using rev_ind; intros i; [destruct i; reflexivity|]. rewrite iterations_snoc, column_snoc. destruct rpcs as [|x rpcs].
  - cbn [iteration fst]. apply IH.
  - remember (x :: rpcs) as y. destruct (nth_error y i) as [r|] eqn:E.
    + destruct (iteration_out d g y (fst (iterations d g l [])) i r E) as [F _]. rewrite (nth_error_nth _ _ _ F). rewrite IH, <- through_last. subst y. reflexivity.
    + apply nth_error_None in E. rewrite nth_overflow by (rewrite iteration_length by (subst y; discriminate); exact E). subst y. reflexivity.
Qed.

(** What is recorded about the RPC at place [i] of an iteration is what is
    recorded about it after the RPCs at this place before it, back to the last
    iteration that had targets but none at this place: so the theorems above hold for
    any numbers of targets. *)
Theorem C100_fanout : forall d g before rpcs after i r, nth_error rpcs i = Some r ->
  exists recs rc c, nth_error (snd (iterations d g (before ++ rpcs :: after) [])) (length before) = Some recs /\ length recs = length rpcs /\
    nth_error recs i = Some (rc, c) /\ forall after', recorded d (column i before) r after' g rc c.
Proof.
  intros d g before rpcs after i r E. rewrite iterations_at. set (s := fst (iterations d g before [])).
  destruct (iteration_out d g rpcs s i r E) as [_ F]. eexists. eexists. eexists. split; [reflexivity|]. split; [|split; [exact F|]].
  - unfold iteration. destruct rpcs as [|x rpcs]; [reflexivity|]. cbn [snd]. rewrite !map_length, combine_length, resize_length. lia.
  - intros after'. unfold recorded. rewrite through_at. unfold s. rewrite slots_column. reflexivity.
Qed.
Print Assumptions C100_fanout.
(** After an iteration with one target, the second place starts afresh; an
    iteration without targets changes nothing. *)
Example C100_ex_fanout : column 1 [[mkRound ex_request false 0 (Answer ex_answer); mkRound ex_request false 1 (Answer ex_answer)]; []] = [mkRound ex_request false 1 (Answer ex_answer)]
  /\ column 1 [[mkRound ex_request false 0 (Answer ex_answer); mkRound ex_request false 1 (Answer ex_answer)]; [mkRound ex_request false 0 (Answer ex_answer)]; []] = [].
Proof. split; reflexivity. Qed.

(** A replayed RPC is logged with the error message of its own answer, or of the
    status of gRPC. *)
Theorem C100_replayed : forall d g r, supported d r -> (d = DGrpc \/ exists m, ro_outcome r = Answer m) -> forall e,
  replayed d g r = Some e <-> e <> [] /\ (ro_outcome r = Failure e \/ exists m, ro_outcome r = Answer m /\ error_message m = Some e).
Proof.
  intros d g r U H e. assert (C : sl_response (complete d (ro_multi r) (ro_outcome r) (mkSlot (ro_request r) empty_grr g)) =
    match ro_outcome r with Answer m => m | Failure st => set_error empty_grr st end).
  { unfold complete, supported in *. destruct (ro_outcome r) as [m|st].
    - destruct d; [destruct (ro_multi r); reflexivity| |]; (destruct (ro_multi r); [discriminate (U eq_refl)|reflexivity]).
    - destruct H as [-> |(m & H)]; [destruct (ro_multi r); reflexivity|discriminate H]. }
  unfold replayed. rewrite C. clear C. destruct (ro_outcome r) as [m|st]; unfold error_of, set_error; cbn [error_message].
  - split.
    + intros X. destruct (error_message m) as [[|x e']|] eqn:M; try discriminate X. injection X as <-. split; [discriminate|]. right. exists m. auto.
    + intros (N & [X|(m' & X & M)]); [discriminate X|]. injection X as <-. rewrite M. destruct e; [congruence|reflexivity].
  - split.
    + intros X. destruct st as [|x st]; [discriminate X|]. injection X as <-. split; [discriminate|]. left. reflexivity.
    + intros (N & [X|(m & X & _)]); [injection X as ->|discriminate X]. destruct e; [congruence|reflexivity].
Qed.
(** Finding: a replayed RPC that fails with Homa or Mercury is logged like one that
    succeeded; the log has no other mark. *)
Theorem C100_replay_failed_refuted : forall d g r st, d <> DGrpc -> ro_multi r = false -> ro_outcome r = Failure st -> replayed d g r = None.
Proof. intros d g r st D M O. unfold replayed, complete. rewrite M, O. destruct d; [congruence|reflexivity|reflexivity]. Qed.
Print Assumptions C100_replayed.
Print Assumptions C100_replay_failed_refuted.
Example C100_ex_replay : replayed DGrpc true (mkRound ex_request true 0 (Failure (text "lost"%string))) = Some (text "lost"%string)
  /\ replayed DHoma true (mkRound ex_request false 0 (Failure (text "lost"%string))) = None.
Proof. split; reflexivity. Qed.
