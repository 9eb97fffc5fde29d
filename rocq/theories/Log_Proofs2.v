(** Proofs about unpacking, merging of logs and activity logs. *)
From Coq Require Import Ascii List ZArith Bool Arith Lia Permutation Sorted.
From Verif Require Import Base_Model Base_Proofs Sync_Model Sync_Proofs Log_Model Log_Proofs.
Import ListNotations.
Open Scope nat_scope.

(** ** Sorting *)
Lemma insert_end_perm : forall A (key : A -> Z) x l, Permutation (insert_end key x l) (x :: l).
Proof.
  intros A key x. induction l as [|y t IH]; cbn [insert_end]; [reflexivity|]. destruct (_ <? _)%Z; [reflexivity|].
  rewrite IH. apply perm_swap.
Qed.
Lemma sort_end_perm : forall A (key : A -> Z) l, Permutation (sort_end key l) l.
Proof. intros A key. induction l as [|x t IH]; cbn [sort_end]; [reflexivity|]. rewrite insert_end_perm. now constructor. Qed.
Definition by_key {A} (key : A -> Z) (x y : A) : Prop := (key x <= key y)%Z.
Lemma insert_end_sorted : forall A (key : A -> Z) x l, StronglySorted (by_key key) l -> StronglySorted (by_key key) (insert_end key x l).
Proof.
  intros A key x. induction l as [|y t IH]; intros H; cbn [insert_end]; [repeat constructor|]. inversion H as [|? ? H1 H2]; subst.
  destruct (Z.ltb_spec (key x) (key y)) as [L|L].
  - constructor; [assumption|]. constructor; [unfold by_key; lia|]. eapply Forall_impl; [|exact H2]. unfold by_key. intros; lia.
  - constructor; [auto|]. rewrite Forall_forall in *. intros z Z. apply (Permutation_in _ (insert_end_perm A key x t)) in Z.
    destruct Z as [<-|Z]; [exact L|auto].
Qed.
Lemma sort_end_sorted : forall A (key : A -> Z) l, StronglySorted (by_key key) (sort_end key l).
Proof. intros A key. induction l as [|x t IH]; cbn [sort_end]; [constructor|]. now apply insert_end_sorted. Qed.

(** ** Reading the slots *)
Lemma read_slots_some : forall slot l, (forall i, In i l -> slot i <> None) -> exists ts, read_slots slot l = Some ts.
Proof.
  intros slot. induction l as [|i r IH]; intros H; cbn [read_slots]; [eauto|].
  destruct (slot i) as [[m t]|] eqn:E; [|destruct (H i (or_introl eq_refl) E)].
  destruct IH as [ts ->]; [intros j J; apply H; right; assumption|]. eauto.
Qed.
Lemma read_slots_nth : forall slot l ts, read_slots slot l = Some ts ->
  length ts = length l /\ forall k i, nth_error l k = Some i -> exists m t, slot i = Some (m, t) /\ nth_error ts k = Some t.
Proof.
  intros slot. induction l as [|i r IH]; intros ts E; cbn [read_slots] in E.
  - injection E as <-. split; [reflexivity|]. intros [|k] i Q; discriminate.
  - destruct (slot i) as [[m t]|] eqn:S0; [|discriminate]. destruct (read_slots slot r) as [us|]; [|discriminate]. injection E as <-.
    destruct (IH us eq_refl) as [A B]. split; [cbn; lia|]. intros [|k] j Q; cbn [nth_error] in *; [injection Q as <-; eauto|auto].
Qed.
Lemma seq_nth_error : forall n a k, k < n -> nth_error (seq a n) k = Some (a + k).
Proof.
  induction n; intros a k L; [lia|]. cbn [seq]. destruct k; cbn [nth_error]; [f_equal; lia|]. rewrite IHn by lia. f_equal. lia.
Qed.
(** The RPCs kept are those whose numbers are the last for their slot. *)
Definition kept_number (size : nat) (draw : nat -> nat) (number : nat) (m : nat) : Prop :=
  m < number /\ target size draw m < size /\ forall n, n < number -> target size draw n = target size draw m -> n <= m.
Lemma rest_read : forall size draw s k, RI size draw s -> at_rest s -> k <= size -> k <= rv_number s -> (k = size \/ k = rv_number s) ->
  exists ts, read_slots (rv_slot s) (seq 0 k) = Some ts /\ length ts = k /\ NoDup ts
    /\ forall t, In t ts <-> exists m, kept_number size draw (rv_number s) m /\ rv_own s m = t.
Proof.
  intros size draw s k H R K1 K2 K3.
  destruct (read_slots_some (rv_slot s) (seq 0 k)) as [ts E].
  { intros i I. apply in_seq in I. destruct (rest_slot size draw s i H R) as [m [X _]]; [lia|lia|]. rewrite X. discriminate. }
  exists ts. split; [assumption|]. destruct (read_slots_nth _ _ _ E) as [LN NT]. rewrite seq_length in LN. split; [assumption|].
  assert (G : forall i t, nth_error ts i = Some t -> i < k /\ exists m, rv_slot s i = Some (m, t)).
  { intros i t Q. assert (L : i < k) by (rewrite <- LN; apply nth_error_Some; congruence). split; [assumption|].
    destruct (NT i (0 + i)) as [m [u [A B]]]; [apply seq_nth_error; assumption|]. exists m. cbn in A. rewrite B in Q. injection Q as ->. assumption. }
  split.
  - apply NoDup_nth_error. intros i j Li Q. assert (X : exists t, nth_error ts i = Some t).
    { destruct (nth_error ts i) eqn:Y; [eauto|]. apply nth_error_None in Y. lia. }
    destruct X as [t X]. rewrite X in Q. symmetry in Q. destruct (G i t X) as [_ [m A]]. destruct (G j t Q) as [_ [m' A']].
    destruct (R_slot _ _ _ H _ _ _ A) as [B1 [B2 B3]]. destruct (R_slot _ _ _ H _ _ _ A') as [C1 [C2 C3]].
    assert (m = m') by (destruct B3 as [B3|B3], C3 as [C3|C3]; congruence). congruence.
  - intros t. split.
    + intros I. apply In_nth_error in I. destruct I as [i I]. destruct (G i t I) as [L [m A]].
      destruct (rest_slot size draw s i H R) as [m' [A' [B' [C' D']]]]; [lia|lia|]. rewrite A in A'. injection A' as <- ->.
      exists m. split; [|reflexivity]. unfold kept_number. rewrite C'. split; [assumption|]. split; [lia|assumption].
    + intros [m [[A [B C]] D]]. set (i := target size draw m) in *.
      assert (L : i < rv_number s). { unfold i, target in *. destruct (Nat.ltb_spec m size); [assumption|]. lia. }
      destruct (rest_slot size draw s i H R B L) as [m' [A' [B' [C' D']]]].
      assert (m = m') by (assert (m' <= m) by (apply C; assumption); assert (m <= m') by (apply D'; [assumption|reflexivity]); lia). subst m'.
      destruct (NT i (0 + i)) as [m2 [u [X Y]]]; [apply seq_nth_error; destruct K3; lia|]. cbn in X. rewrite A' in X. injection X as <- <-.
      rewrite D in Y. eapply nth_error_In. exact Y.
Qed.

(** ** Logs *)
Definition sel (ok : bool) (v : rpc_log) : list sample := if ok then fst v else snd v.
(** The samples of RPC [r] with outcome [ok]. *)
Definition plog (r : nat) (ok : bool) (m : peer_log) : list sample := sel ok (log_get r m).
Lemma log_find_set : forall r r' v m, log_find r' (log_set r v m) = if Nat.eqb r r' then Some v else log_find r' m.
Proof.
  intros r r' v. induction m as [|[k w] t IH]; cbn [log_set log_find].
  - reflexivity.
  - destruct (Nat.eqb_spec k r) as [->|N]; cbn [log_find].
    + destruct (Nat.eqb_spec r r'); reflexivity.
    + destruct (Nat.eqb_spec k r') as [->|N']; [|assumption]. destruct (Nat.eqb_spec r r'); [congruence|reflexivity].
Qed.
Lemma log_get_set : forall r r' v m, log_get r' (log_set r v m) = if Nat.eqb r r' then v else log_get r' m.
Proof. intros. unfold log_get. rewrite log_find_set. destruct (Nat.eqb r r'); reflexivity. Qed.
Lemma log_set_keys : forall r v m k, In k (map fst (log_set r v m)) <-> k = r \/ In k (map fst m).
Proof.
  intros r v. induction m as [|[k w] t IH]; intros j; cbn [log_set map fst In]; [intuition|].
  destruct (Nat.eqb_spec k r) as [->|N]; cbn [map fst In]; [|rewrite IH]; intuition.
Qed.
Lemma log_set_NoDup : forall r v m, NoDup (map fst m) -> NoDup (map fst (log_set r v m)).
Proof.
  intros r v. induction m as [|[k w] t IH]; intros H; cbn [log_set map fst]; [repeat constructor; intros []|].
  inversion H as [|? ? H1 H2]; subst. destruct (Nat.eqb_spec k r) as [->|N]; cbn [map fst]; [assumption|]. constructor; [|auto].
  rewrite log_set_keys. intros [X|X]; [congruence|auto].
Qed.
Lemma sel_add : forall ok ok' x v, sel ok' (add_sample ok x v) = sel ok' v ++ (if Bool.eqb ok ok' then [x] else []).
Proof. intros [|] [|] x [a b]; cbn; now rewrite ?app_nil_r. Qed.

(** The log of peer (i, j). *)
Definition peer_of (l : logs) (i j : nat) : peer_log :=
  match nth_error l i with Some sv => match nth_error sv j with Some pl => pl | None => [] end | None => [] end.
Lemma nth_error_set_at : forall A (l : list A) i x k, nth_error (set_at i x l) k = if Nat.eqb i k then (match nth_error l k with Some _ => Some x | None => None end) else nth_error l k.
Proof.
  induction l as [|y t IH]; intros i x k; cbn [set_at].
  - destruct i, k; cbn; try destruct (Nat.eqb _ _); reflexivity.
  - destruct i, k; try reflexivity. cbn [set_at nth_error Nat.eqb]. rewrite IH. reflexivity.
Qed.
Lemma set_at_length : forall A (l : list A) i x, length (set_at i x l) = length l.
Proof. induction l as [|y t IH]; intros [|i] x; cbn [set_at length]; auto. Qed.
(** Which recorded RPCs belong to peer (i, j), RPC [r], outcome [ok]. *)
Definition belongs (i j r : nat) (ok : bool) (e : entry) : bool :=
  Nat.eqb (en_service e) i && Nat.eqb (en_instance e) j && Nat.eqb (en_rpc e) r && Bool.eqb (en_ok e) ok.
Definition mine (i j r : nat) (ok : bool) (es : list entry) : list sample := map en_sample (filter (belongs i j r ok) es).
Lemma record_entry_spec : forall e l l' i j r ok, record_entry e l = Some l' ->
  plog r ok (peer_of l' i j) = plog r ok (peer_of l i j) ++ mine i j r ok [e].
Proof.
  intros e l l' i j r ok E. unfold record_entry in E. destruct (nth_error l (en_service e)) as [sv|] eqn:N1; [|discriminate].
  destruct (nth_error sv (en_instance e)) as [pl|] eqn:N2; [|discriminate]. injection E as <-.
  unfold peer_of, mine. cbn [filter]. unfold belongs. rewrite nth_error_set_at.
  destruct (Nat.eqb_spec (en_service e) i) as [<-|X]; cbn [andb].
  - rewrite N1. rewrite nth_error_set_at. destruct (Nat.eqb_spec (en_instance e) j) as [<-|Y]; cbn [andb].
    + rewrite N2. unfold plog. rewrite log_get_set. destruct (Nat.eqb_spec (en_rpc e) r) as [<-|Z]; cbn [andb].
      * rewrite sel_add. destruct (Bool.eqb (en_ok e) ok); reflexivity.
      * cbn. now rewrite app_nil_r.
    + cbn. now rewrite app_nil_r.
  - cbn. now rewrite app_nil_r.
Qed.
Lemma record_all_spec : forall es l l' i j r ok, record_all es l = Some l' ->
  plog r ok (peer_of l' i j) = plog r ok (peer_of l i j) ++ mine i j r ok es.
Proof.
  induction es as [|e t IH]; intros l l' i j r ok E; cbn [record_all] in E.
  - injection E as <-. unfold mine. cbn. now rewrite app_nil_r.
  - destruct (record_entry e l) as [l1|] eqn:E1; [|discriminate]. rewrite (IH _ _ i j r ok E), (record_entry_spec _ _ _ i j r ok E1).
    rewrite <- app_assoc. f_equal. unfold mine. rewrite <- map_app. f_equal. cbn [filter]. destruct (belongs i j r ok e); reflexivity.
Qed.
Definition keys_ok (l : logs) : Prop := forall i j, NoDup (map fst (peer_of l i j)).
Lemma record_all_keys : forall es l l', keys_ok l -> record_all es l = Some l' -> keys_ok l'.
Proof.
  induction es as [|e t IH]; intros l l' K E; cbn [record_all] in E; [now injection E as <-|].
  destruct (record_entry e l) as [l1|] eqn:E1; [|discriminate]. apply (IH l1 l'); [|assumption]. clear E IH.
  unfold record_entry in E1. destruct (nth_error l (en_service e)) as [sv|] eqn:N1; [|discriminate].
  destruct (nth_error sv (en_instance e)) as [pl|] eqn:N2; [|discriminate]. injection E1 as <-.
  intros i j. specialize (K i j). unfold peer_of in *. rewrite nth_error_set_at. destruct (Nat.eqb_spec (en_service e) i) as [<-|X]; [|assumption].
  rewrite N1 in *. rewrite nth_error_set_at. destruct (Nat.eqb_spec (en_instance e) j) as [<-|Y]; [|assumption].
  rewrite N2 in *. now apply log_set_NoDup.
Qed.
Lemma peer_of_logs0 : forall shape i j, peer_of (logs0 shape) i j = [].
Proof.
  intros shape i j. unfold peer_of, logs0. destruct (nth_error (map _ shape) i) as [sv|] eqn:E; [|reflexivity].
  apply nth_error_In, in_map_iff in E. destruct E as [n [<- _]]. destruct (nth_error (repeat ([] : peer_log) n) j) as [pl|] eqn:E2; [|reflexivity].
  apply nth_error_In, repeat_spec in E2. assumption.
Qed.
(** Entries for existing peers are always recorded. *)
Definition fits (shape : list nat) (e : entry) : Prop :=
  exists n, nth_error shape (en_service e) = Some n /\ en_instance e < n.
Definition shape_of (l : logs) : list nat := map (@length peer_log) l.
Lemma record_entry_fits : forall e l, fits (shape_of l) e -> exists l', record_entry e l = Some l' /\ shape_of l' = shape_of l.
Proof.
  intros e l [n [A B]]. unfold shape_of in A. rewrite nth_error_map in A. unfold record_entry.
  destruct (nth_error l (en_service e)) as [sv|] eqn:N1; [|discriminate]. cbn in A. injection A as <-.
  destruct (nth_error sv (en_instance e)) as [pl|] eqn:N2; [|apply nth_error_None in N2; lia]. eexists. split; [reflexivity|].
  set (x := set_at (en_instance e) _ sv). assert (LX : length x = length sv) by apply set_at_length.
  clearbody x. clear N2 B. unfold shape_of. generalize dependent (en_service e). induction l as [|y t IH]; intros [|i] N1; cbn in *; try discriminate.
  - injection N1 as ->. rewrite LX. reflexivity.
  - f_equal. now apply IH.
Qed.
Lemma record_all_fits : forall es l, Forall (fits (shape_of l)) es -> exists l', record_all es l = Some l'.
Proof.
  induction es as [|e t IH]; intros l H; cbn [record_all]; [eauto|]. inversion H as [|? ? H1 H2]; subst.
  destruct (record_entry_fits e l H1) as [l1 [-> S1]]. apply IH. now rewrite S1.
Qed.
Lemma shape_logs0 : forall shape, shape_of (logs0 shape) = shape.
Proof. intros. unfold shape_of, logs0. rewrite map_map. rewrite <- (map_id shape) at 2. apply map_ext. intros n. apply repeat_length. Qed.

(** ** GetLogs *)
Definition out (nm : str) (r : nat) (ok : bool) (o : out_logs) : list sample :=
  match map_find nm o with Some pl => plog r ok pl | None => [] end.
Lemma out_merge_rpc : forall nm r v o nm' r' ok,
  out nm' r' ok (merge_rpc nm r v o) = out nm' r' ok o ++ (if str_eqb nm nm' && Nat.eqb r r' then sel ok v else []).
Proof.
  intros nm r [a b] o nm' r' ok.
  assert (G : out nm' r' ok (map_set nm (log_set r (fst (log_get r (match map_find nm o with Some pl => pl | None => [] end)) ++ a,
       snd (log_get r (match map_find nm o with Some pl => pl | None => [] end)) ++ b) (match map_find nm o with Some pl => pl | None => [] end)) o)
     = out nm' r' ok o ++ (if str_eqb nm nm' && Nat.eqb r r' then sel ok (a, b) else [])).
  { unfold out. destruct (str_eqb_spec nm nm') as [<-|N]; cbn [andb].
    - rewrite map_find_set_same. unfold plog. rewrite log_get_set. destruct (Nat.eqb_spec r r') as [<-|N2].
      + destruct (map_find nm o) as [pl|]; [destruct ok; reflexivity|]. destruct ok; reflexivity.
      + destruct (map_find nm o); rewrite app_nil_r; [reflexivity|]. destruct ok; reflexivity.
    - rewrite map_find_set_other by congruence. now rewrite app_nil_r. }
  unfold merge_rpc. destruct a as [|x a]; [destruct b as [|y b]|]; [|exact G|exact G].
  destruct (_ && _); destruct ok; cbn; now rewrite app_nil_r.
Qed.
Lemma out_merge_partial : forall nm pl o nm' r ok, NoDup (map fst pl) ->
  out nm' r ok (merge_partial nm pl o) = out nm' r ok o ++ (if str_eqb nm nm' then plog r ok pl else []).
Proof.
  intros nm. unfold merge_partial. induction pl as [|[k v] t IH]; intros o nm' r ok H; cbn [fold_left fst snd].
  - unfold plog, log_get. cbn. destruct (str_eqb nm nm'); [destruct ok|]; cbn; now rewrite app_nil_r.
  - cbn [map fst] in H. inversion H as [|? ? H1 H2]; subst. rewrite (IH _ nm' r ok H2), out_merge_rpc, <- app_assoc. f_equal.
    destruct (str_eqb nm nm'); [cbn [andb]|reflexivity]. unfold plog, log_get. cbn [log_find].
    destruct (Nat.eqb_spec k r) as [->|N]; [|reflexivity].
    assert (X : log_find r t = None).
    { clear IH H H2. induction t as [|[k w] t IH]; [reflexivity|]. cbn [log_find]. destruct (Nat.eqb_spec k r) as [->|N]; [destruct H1; left; reflexivity|].
      apply IH. intros X. apply H1. right. assumption. }
    rewrite X. destruct ok; cbn; now rewrite app_nil_r.
Qed.
Definition partials_ok (p : str * list peer_log) : Prop := Forall (fun pl => NoDup (map fst pl)) (snd p).
Lemma out_merge_peer_logs : forall p o nm r ok, partials_ok p ->
  out nm r ok (merge_peer_logs o p) = out nm r ok o ++ (if str_eqb (fst p) nm then concat (map (plog r ok) (snd p)) else []).
Proof.
  intros [n ps]. unfold merge_peer_logs, partials_ok. cbn [fst snd]. induction ps as [|pl t IH]; intros o nm r ok H; cbn [fold_left map concat].
  - destruct (str_eqb n nm); now rewrite app_nil_r.
  - inversion H as [|? ? H1 H2]; subst. rewrite (IH _ nm r ok H2), out_merge_partial by assumption. rewrite <- app_assoc. f_equal.
    destruct (str_eqb n nm); reflexivity.
Qed.
Lemma out_service : forall sv o nm r ok, Forall partials_ok sv ->
  out nm r ok (fold_left merge_peer_logs sv o)
  = out nm r ok o ++ concat (map (fun p => if str_eqb (fst p) nm then concat (map (plog r ok) (snd p)) else []) sv).
Proof.
  induction sv as [|p t IH]; intros o nm r ok H; cbn [fold_left map concat]; [now rewrite app_nil_r|].
  inversion H as [|? ? H1 H2]; subst. rewrite (IH _ nm r ok H2), out_merge_peer_logs by assumption. now rewrite <- app_assoc.
Qed.
Lemma out_get : forall peers nm r ok, Forall (Forall partials_ok) peers ->
  out nm r ok (get_peer_logs peers)
  = concat (map (fun p => if str_eqb (fst p) nm then concat (map (plog r ok) (snd p)) else []) (concat peers)).
Proof.
  intros peers nm r ok H. unfold get_peer_logs.
  assert (G : forall ps o, Forall (Forall partials_ok) ps -> out nm r ok (fold_left (fun o sv => fold_left merge_peer_logs sv o) ps o)
     = out nm r ok o ++ concat (map (fun p => if str_eqb (fst p) nm then concat (map (plog r ok) (snd p)) else []) (concat ps))).
  { induction ps as [|sv t IH]; intros o F; cbn [fold_left concat map]; [now rewrite app_nil_r|].
    inversion F as [|? ? F1 F2]; subst. rewrite (IH _ F2), out_service by assumption. rewrite <- app_assoc, map_app, concat_app. reflexivity. }
  rewrite (G peers [] H). reflexivity.
Qed.
(** Only entries that hold samples show up. *)
Definition no_empty (o : out_logs) : Prop :=
  forall nm pl, map_find nm o = Some pl -> pl <> [] /\ forall r v, log_find r pl = Some v -> v <> ([], []).
Lemma merge_rpc_no_empty : forall nm r v o, no_empty o -> no_empty (merge_rpc nm r v o).
Proof.
  intros nm r [a b] o H.
  assert (G : (a, b) <> ([], []) -> no_empty (map_set nm (log_set r (fst (log_get r (match map_find nm o with Some pl => pl | None => [] end)) ++ a,
       snd (log_get r (match map_find nm o with Some pl => pl | None => [] end)) ++ b) (match map_find nm o with Some pl => pl | None => [] end)) o)).
  { intros NE nm' pl F. destruct (str_eqb_spec nm nm') as [<-|N].
    - rewrite map_find_set_same in F. injection F as <-. set (old := match map_find nm o with Some pl => pl | None => [] end) in *. split.
      + destruct old as [|[k w] t]; cbn [log_set]; [discriminate|]. destruct (Nat.eqb k r); discriminate.
      + intros r' v F. rewrite log_find_set in F. destruct (Nat.eqb_spec r r') as [<-|N2].
        * injection F as <-. intros Q. injection Q as Q1 Q2. apply app_eq_nil in Q1. apply app_eq_nil in Q2. apply NE. f_equal; [apply Q1|apply Q2].
        * unfold old in F. destruct (map_find nm o) as [pl|] eqn:E; [|discriminate]. eapply (proj2 (H nm pl E)). exact F.
    - rewrite map_find_set_other in F by congruence. apply (H nm' pl F). }
  unfold merge_rpc. destruct a as [|x a]; [destruct b as [|y b]|]; [exact H|apply G; discriminate|apply G; discriminate].
Qed.
Lemma get_no_empty : forall peers, no_empty (get_peer_logs peers).
Proof.
  intros peers. unfold get_peer_logs. assert (Z : no_empty ([] : out_logs)) by (intros nm pl F; discriminate). revert Z. generalize ([] : out_logs).
  induction peers as [|sv t IH]; intros o H; cbn [fold_left]; [assumption|]. apply IH. clear IH. revert o H.
  induction sv as [|p u IH]; intros o H; cbn [fold_left]; [assumption|]. apply IH. clear IH. unfold merge_peer_logs. revert o H.
  induction (snd p) as [|pl v IH]; intros o H; cbn [fold_left]; [assumption|]. apply IH. clear IH. unfold merge_partial. revert o H.
  induction pl as [|kv w IH]; intros o H; cbn [fold_left]; [assumption|]. apply IH. now apply merge_rpc_no_empty.
Qed.

(** ** Activity logs *)
(** The sum of a metric over one run of an action list. *)
Definition metrics_sum (m : str) (ms : list (str * Z)) : Z :=
  fold_right (fun p acc => ((if str_eqb (fst p) m then snd p else 0) + acc)%Z) 0%Z ms.
Definition run_sum (a m : str) (run : act_run) : Z :=
  fold_right (fun p acc => ((if str_eqb (fst p) a then metrics_sum m (snd p) else 0) + acc)%Z) 0%Z run.
Definition runs_sum (a m : str) (runs : list act_run) : Z := fold_right (fun r acc => (run_sum a m r + acc)%Z) 0%Z runs.
Definition reported (a m : str) (ms : list (str * Z)) (a' : str) : Prop := a = a' /\ In m (map fst ms).
Definition act_val (a m : str) (l : act_logs) : Z := match act_get a m l with Some v => v | None => 0 end.
Lemma act_get_add : forall a m v l l' a' m', act_add a m v l = Some l' ->
  act_get a' m' l' = if str_eqb a a' && str_eqb m m' then Some (act_val a m l + v)%Z else act_get a' m' l.
Proof.
  intros a m v l l' a' m' E. unfold act_add in E. set (ms := match map_find a l with Some ms => ms | None => [] end) in *.
  destruct (in_int64 _); [|discriminate]. injection E as <-. unfold act_get, act_val, act_get.
  destruct (str_eqb_spec a a') as [<-|N]; cbn [andb].
  - rewrite map_find_set_same. unfold ms. destruct (map_find a l) as [q|]; (destruct (str_eqb_spec m m') as [<-|N2];
      [rewrite map_find_set_same; reflexivity|rewrite map_find_set_other by congruence; reflexivity]).
  - rewrite map_find_set_other by congruence. reflexivity.
Qed.
Lemma act_val_add : forall a m v l l' a' m', act_add a m v l = Some l' ->
  act_val a' m' l' = (act_val a' m' l + (if str_eqb a a' && str_eqb m m' then v else 0))%Z.
Proof.
  intros a m v l l' a' m' E. unfold act_val. rewrite (act_get_add _ _ _ _ _ a' m' E).
  destruct (str_eqb_spec a a') as [<-|N], (str_eqb_spec m m') as [<-|N2]; cbn [andb]; try lia. reflexivity.
Qed.
Lemma act_metrics_spec : forall a ms l l' a' m', act_metrics a ms l = Some l' ->
  act_val a' m' l' = (act_val a' m' l + (if str_eqb a a' then metrics_sum m' ms else 0))%Z
  /\ (act_get a' m' l' <> None <-> act_get a' m' l <> None \/ (a = a' /\ In m' (map fst ms))).
Proof.
  intros a. induction ms as [|[m v] r IH]; intros l l' a' m' E; cbn [act_metrics] in E.
  - injection E as <-. cbn. split; [destruct (str_eqb a a'); lia|]. intuition.
  - destruct (act_add a m v l) as [l1|] eqn:E1; [|discriminate]. destruct (IH l1 l' a' m' E) as [A B]. split.
    + rewrite A, (act_val_add _ _ _ _ _ a' m' E1). cbn [metrics_sum fold_right fst snd]. fold (metrics_sum m' r). destruct (str_eqb a a'), (str_eqb m m'); cbn [andb]; lia.
    + rewrite B, (act_get_add _ _ _ _ _ a' m' E1). cbn [map fst In].
      destruct (str_eqb_spec a a') as [<-|N], (str_eqb_spec m m') as [<-|N2]; cbn [andb]; clear IH A B E E1.
      * split; [auto|]. intros _. left. discriminate.
      * split; [intros [X|[_ X]]; auto|]. intros [X|[_ [X|X]]]; [auto|congruence|auto].
      * split; [intros [X|[X _]]; [auto|congruence]|]. intros [X|[X _]]; [auto|congruence].
      * split; [intros [X|[X _]]; [auto|congruence]|]. intros [X|[X _]]; [auto|congruence].
Qed.
Lemma act_update_spec : forall run l l' a m, act_update run l = Some l' ->
  act_val a m l' = (act_val a m l + run_sum a m run)%Z
  /\ (act_get a m l' <> None <-> act_get a m l <> None \/ exists ms, In (a, ms) run /\ In m (map fst ms)).
Proof.
  induction run as [|[b ms] r IH]; intros l l' a m E; cbn [act_update] in E.
  - injection E as <-. cbn. split; [lia|]. split; [auto|]. intros [X|[ms [[] _]]]; assumption.
  - destruct (act_metrics b ms l) as [l1|] eqn:E1; [|discriminate]. destruct (IH l1 l' a m E) as [A B].
    destruct (act_metrics_spec _ _ _ _ a m E1) as [C D]. split.
    + rewrite A, C. cbn [run_sum fold_right fst snd]. fold (run_sum a m r). destruct (str_eqb b a); lia.
    + rewrite B, D. cbn [In]. split.
      * intros [[X|[<- X]]|[q [X Y]]]; [auto|right; exists ms; auto|right; exists q; auto].
      * intros [X|[q [[X|X] Y]]]; [auto| |right; eauto]. injection X as -> ->. auto.
Qed.
Lemma act_all_spec : forall runs l l' a m, act_all runs l = Some l' ->
  act_val a m l' = (act_val a m l + runs_sum a m runs)%Z
  /\ (act_get a m l' <> None <-> act_get a m l <> None \/ exists run ms, In run runs /\ In (a, ms) run /\ In m (map fst ms)).
Proof.
  induction runs as [|x r IH]; intros l l' a m E; cbn [act_all] in E.
  - injection E as <-. cbn. split; [lia|]. split; [auto|]. intros [X|[? [? [[] _]]]]; assumption.
  - destruct (act_update x l) as [l1|] eqn:E1; [|discriminate]. destruct (IH l1 l' a m E) as [A B].
    destruct (act_update_spec _ _ _ a m E1) as [C D]. split.
    + rewrite A, C. cbn [runs_sum fold_right]. fold (runs_sum a m r). lia.
    + rewrite B, D. cbn [In]. split.
      * intros [[X|[ms [X Y]]]|[q [ms [X Y]]]]; [auto|right; exists x, ms; auto|right; exists q, ms; split; [right; exact X|exact Y]].
      * intros [X|[q [ms [[<-|X] Y]]]]; [auto|left; right; eauto|right; exists q, ms; split; [exact X|exact Y]].
Qed.
(** No overflow when the values are not negative and the totals fit. *)
Definition run_nonneg (run : act_run) : Prop := Forall (fun p => Forall (fun q => (0 <= snd q)%Z) (snd p)) run.
Lemma metrics_nonneg : forall m ms, Forall (fun q => (0 <= snd q)%Z) ms -> (0 <= metrics_sum m ms)%Z.
Proof.
  intros m. induction ms as [|[k v] r IH]; intros H; cbn [metrics_sum fold_right fst snd]; [lia|]. inversion H as [|? ? H1 H2]; subst.
  specialize (IH H2). unfold metrics_sum in IH. cbn in H1. destruct (str_eqb k m); lia.
Qed.
Lemma run_sum_nonneg : forall a m run, run_nonneg run -> (0 <= run_sum a m run)%Z.
Proof.
  intros a m. induction run as [|[k ms] r IH]; intros H; cbn [run_sum fold_right fst snd]; [lia|]. inversion H as [|? ? H1 H2]; subst.
  specialize (IH H2). unfold run_sum in IH. pose proof (metrics_nonneg m ms H1). destruct (str_eqb k a); lia.
Qed.
Lemma runs_sum_nonneg : forall a m runs, Forall run_nonneg runs -> (0 <= runs_sum a m runs)%Z.
Proof.
  intros a m. induction runs as [|x r IH]; intros H; cbn [runs_sum fold_right]; [lia|]. inversion H as [|? ? H1 H2]; subst.
  specialize (IH H2). unfold runs_sum in IH. pose proof (run_sum_nonneg a m x H1). lia.
Qed.
Definition small (l : act_logs) (rest : str -> str -> Z) : Prop := forall a m, (0 <= act_val a m l /\ act_val a m l + rest a m <= int64_max)%Z.
Lemma act_add_ok : forall a m v l, (0 <= act_val a m l)%Z -> (0 <= v)%Z -> (act_val a m l + v <= int64_max)%Z -> exists l', act_add a m v l = Some l'.
Proof.
  intros a m v l H V L. unfold act_add. assert (X : ((match map_find m (match map_find a l with Some ms => ms | None => [] end) with Some w => w | None => 0 end) = act_val a m l)%Z).
  { unfold act_val, act_get. destruct (map_find a l); reflexivity. }
  rewrite X. assert (Y : in_int64 (act_val a m l + v) = true) by (unfold in_int64; apply andb_true_intro; split; apply Z.leb_le; lia). rewrite Y. eauto.
Qed.
Lemma act_metrics_ok : forall a ms l rest, Forall (fun q => (0 <= snd q)%Z) ms -> (forall a m, (0 <= rest a m)%Z) ->
  small l (fun b m => (if str_eqb a b then metrics_sum m ms else 0) + rest b m)%Z ->
  exists l', act_metrics a ms l = Some l' /\ small l' rest.
Proof.
  intros a. induction ms as [|[m v] r IH]; intros l rest H R S0; cbn [act_metrics].
  - exists l. split; [reflexivity|]. intros b m. specialize (S0 b m). cbn in S0. destruct (str_eqb a b); lia.
  - inversion H as [|? ? H1 H2]; subst. cbn in H1. destruct (act_add_ok a m v l) as [l1 E1]; try assumption.
    + apply S0.
    + specialize (S0 a m). specialize (R a m). cbv beta in S0. rewrite str_eqb_refl in S0. cbn [metrics_sum fold_right fst snd] in S0.
      rewrite str_eqb_refl in S0. pose proof (metrics_nonneg m r H2) as P. unfold metrics_sum in P. lia.
    + rewrite E1. apply IH; auto. intros b k. specialize (S0 b k). cbn [metrics_sum fold_right fst snd] in S0. fold (metrics_sum k r) in S0.
      rewrite (act_val_add _ _ _ _ _ b k E1). destruct (str_eqb_spec a b), (str_eqb_spec m k); cbn [andb]; lia.
Qed.
Lemma act_update_ok : forall run l rest, run_nonneg run -> (forall a m, (0 <= rest a m)%Z) ->
  small l (fun a m => run_sum a m run + rest a m)%Z -> exists l', act_update run l = Some l' /\ small l' rest.
Proof.
  induction run as [|[b ms] r IH]; intros l rest H R S0; cbn [act_update].
  - exists l. split; [reflexivity|]. intros a m. specialize (S0 a m). cbn in S0. lia.
  - inversion H as [|? ? H1 H2]; subst. destruct (act_metrics_ok b ms l (fun a m => run_sum a m r + rest a m)%Z H1) as [l1 [E1 S1]].
    + intros a m. pose proof (run_sum_nonneg a m r H2). specialize (R a m). lia.
    + intros a m. specialize (S0 a m). cbn [run_sum fold_right fst snd] in S0. fold (run_sum a m r) in S0. lia.
    + rewrite E1. apply IH; assumption.
Qed.
Lemma act_all_ok : forall runs l, Forall run_nonneg runs -> small l (fun a m => runs_sum a m runs) -> exists l', act_all runs l = Some l'.
Proof.
  induction runs as [|x r IH]; intros l H S0; cbn [act_all]; [eauto|]. inversion H as [|? ? H1 H2]; subst.
  destruct (act_update_ok x l (fun a m => runs_sum a m r) H1) as [l1 [E1 S1]].
  - intros a m. now apply runs_sum_nonneg.
  - intros a m. specialize (S0 a m). cbn [runs_sum fold_right] in S0. fold (runs_sum a m r) in S0. lia.
  - rewrite E1. apply IH; assumption.
Qed.
