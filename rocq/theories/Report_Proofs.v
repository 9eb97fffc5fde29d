(** Lemmas for C78: the logs as multisets of recorded RPCs. *)
From Coq Require Import Ascii String List ZArith Bool Arith Lia Permutation.
From Verif Require Import Base_Model Base_Proofs Log_Model Log_Proofs Log_Proofs2 Log_Props.
Import ListNotations.
Open Scope nat_scope.

(** A sample with its RPC and its outcome. *)
Definition filed := (nat * bool * sample)%type.
Definition tagged (r : nat) (v : rpc_log) : list filed := map (fun s => (r, true, s)) (fst v) ++ map (fun s => (r, false, s)) (snd v).
Definition of_peer (pl : peer_log) : list filed := flat_map (fun rl => tagged (fst rl) (snd rl)) pl.
Definition of_out (o : out_logs) : list (str * filed) := flat_map (fun p => map (pair (fst p)) (of_peer (snd p))) o.

Lemma perm_flat {A B} (f g : A -> list B) l : (forall x, In x l -> Permutation (f x) (g x)) -> Permutation (flat_map f l) (flat_map g l).
Proof. induction l as [|x l IH]; intro H; cbn [flat_map]; [constructor|]. apply Permutation_app; [apply H; left; reflexivity|apply IH; intros y I; apply H; right; exact I]. Qed.
Lemma of_log_set r x extra pl : Permutation (tagged r x) (tagged r (log_get r pl) ++ extra) -> Permutation (of_peer (log_set r x pl)) (of_peer pl ++ extra).
Proof.
  unfold log_get. induction pl as [|[k w] pl IH]; cbn [log_find log_set]; intro H.
  - unfold of_peer. cbn [flat_map fst snd]. rewrite app_nil_r. exact H.
  - destruct (Nat.eqb_spec k r) as [->|N]; unfold of_peer in *; cbn [flat_map fst snd].
    + rewrite H, <- !app_assoc. apply Permutation_app_head, Permutation_app_comm.
    + rewrite <- app_assoc. apply Permutation_app_head, IH, H.
Qed.
Lemma of_map_set nm pl' extra (o : out_logs) :
  Permutation (of_peer pl') (of_peer (match map_find nm o with Some pl => pl | None => [] end) ++ extra) ->
  Permutation (of_out (map_set nm pl' o)) (of_out o ++ map (pair nm) extra).
Proof.
  induction o as [|[k pl] o IH]; cbn [map_find map_set]; intro H; unfold of_out in *; cbn [flat_map fst snd].
  - rewrite app_nil_r. cbn [app]. apply Permutation_map. exact H.
  - destruct (str_eqb_spec nm k) as [->|N]; cbn [flat_map fst snd].
    + rewrite H, map_app, <- !app_assoc. apply Permutation_app_head, Permutation_app_comm.
    + rewrite <- app_assoc. apply Permutation_app_head, IH, H.
Qed.
Lemma tagged_app r w v : Permutation (tagged r (fst w ++ fst v, snd w ++ snd v)) (tagged r w ++ tagged r v).
Proof.
  unfold tagged. cbn [fst snd]. rewrite !map_app, <- !app_assoc. apply Permutation_app_head. rewrite !app_assoc. apply Permutation_app_tail, Permutation_app_comm.
Qed.
Lemma of_merge_rpc nm r v o : Permutation (of_out (merge_rpc nm r v o)) (of_out o ++ map (pair nm) (tagged r v)).
Proof.
  assert (G : Permutation (of_out (let pl := match map_find nm o with Some pl => pl | None => [] end in
                map_set nm (log_set r (fst (log_get r pl) ++ fst v, snd (log_get r pl) ++ snd v) pl) o)) (of_out o ++ map (pair nm) (tagged r v))).
  { cbv zeta. apply of_map_set, of_log_set, tagged_app. }
  unfold merge_rpc. destruct v as [[|a u] [|b v]]; try exact G. cbn [tagged fst snd map app]. rewrite app_nil_r. reflexivity.
Qed.
Lemma of_merge_partial nm pl : forall o, Permutation (of_out (merge_partial nm pl o)) (of_out o ++ map (pair nm) (of_peer pl)).
Proof.
  unfold merge_partial. induction pl as [|[r v] pl IH]; intro o; cbn [fold_left fst snd].
  - unfold of_peer. cbn [flat_map map]. rewrite app_nil_r. reflexivity.
  - rewrite IH, of_merge_rpc. unfold of_peer. cbn [flat_map fst snd]. rewrite map_app, <- app_assoc. reflexivity.
Qed.
Lemma of_merge_peer_logs p : forall o, Permutation (of_out (merge_peer_logs o p)) (of_out o ++ map (pair (fst p)) (flat_map of_peer (snd p))).
Proof.
  destruct p as [nm ps]. unfold merge_peer_logs. cbn [fst snd]. induction ps as [|pl ps IH]; intro o; cbn [fold_left flat_map map].
  - rewrite app_nil_r. reflexivity.
  - rewrite IH, of_merge_partial, map_app, <- app_assoc. reflexivity.
Qed.
Lemma of_get peers : Permutation (of_out (get_peer_logs peers)) (flat_map (fun p => map (pair (fst p)) (flat_map of_peer (snd p))) (concat peers)).
Proof.
  unfold get_peer_logs. assert (G : forall o, Permutation (of_out (fold_left (fun o sv => fold_left merge_peer_logs sv o) peers o))
    (of_out o ++ flat_map (fun p => map (pair (fst p)) (flat_map of_peer (snd p))) (concat peers))); [|exact (G [])].
  induction peers as [|sv peers IH]; intro o; cbn [fold_left concat flat_map]; [rewrite app_nil_r; reflexivity|]. rewrite IH, flat_map_app, app_assoc. apply Permutation_app_tail.
  clear IH. revert o. induction sv as [|p sv IH]; intro o; cbn [fold_left flat_map]; [rewrite app_nil_r; reflexivity|]. rewrite IH, of_merge_peer_logs, <- app_assoc. reflexivity.
Qed.
Lemma merge_keys_NoDup peers : NoDup (map fst (get_peer_logs peers)).
Proof.
  unfold get_peer_logs. assert (G : forall o : out_logs, NoDup (map fst o) -> NoDup (map fst (fold_left (fun o sv => fold_left merge_peer_logs sv o) peers o))); [|apply G; constructor].
  induction peers as [|sv peers IH]; intros o H; cbn [fold_left]; [exact H|]. apply IH. clear IH. revert o H. induction sv as [|[nm ps] sv IH]; intros o H; cbn [fold_left]; [exact H|]. apply IH. clear IH.
  unfold merge_peer_logs. cbn [fst snd]. revert o H. induction ps as [|pl ps IH]; intros o H; cbn [fold_left]; [exact H|]. apply IH. clear IH. unfold merge_partial.
  revert o H. induction pl as [|[r v] pl IH]; intros o H; cbn [fold_left fst snd]; [exact H|]. apply IH. unfold merge_rpc. destruct v as [[|? ?] [|? ?]]; [exact H| | |]; apply map_set_NoDup, H.
Qed.

(** ** Recording *)
Definition filed_as (e : entry) : filed := (en_rpc e, en_ok e, en_sample e).
Definition at_place (i j : nat) (e : entry) : bool := Nat.eqb (en_service e) i && Nat.eqb (en_instance e) j.
Lemma of_record_entry e l l' i j : record_entry e l = Some l' ->
  Permutation (of_peer (peer_of l' i j)) (of_peer (peer_of l i j) ++ (if at_place i j e then [filed_as e] else [])).
Proof.
  intro E. unfold record_entry in E. destruct (nth_error l (en_service e)) as [sv|] eqn:N1; [|discriminate]. destruct (nth_error sv (en_instance e)) as [pl|] eqn:N2; [|discriminate].
  injection E as <-. unfold peer_of, at_place. rewrite nth_error_set_at. destruct (Nat.eqb_spec (en_service e) i) as [<-|N].
  - rewrite N1. cbn [andb]. rewrite nth_error_set_at. destruct (Nat.eqb_spec (en_instance e) j) as [<-|N'].
    + rewrite N2. apply of_log_set. unfold tagged, add_sample, filed_as. destruct (en_ok e); cbn [fst snd]; rewrite !map_app; cbn [map].
      * rewrite <- !app_assoc. apply Permutation_app_head. apply Permutation_app_comm.
      * rewrite app_assoc. reflexivity.
    + rewrite app_nil_r. reflexivity.
  - cbn [andb]. rewrite app_nil_r. reflexivity.
Qed.
Lemma of_record_all es : forall l l' i j, record_all es l = Some l' ->
  Permutation (of_peer (peer_of l' i j)) (of_peer (peer_of l i j) ++ map filed_as (filter (at_place i j) es)).
Proof.
  induction es as [|e es IH]; intros l l' i j E; cbn [record_all] in E; [injection E as <-; cbn [filter map]; rewrite app_nil_r; reflexivity|].
  destruct (record_entry e l) as [l1|] eqn:E1; [|discriminate]. rewrite (IH _ _ i j E), (of_record_entry _ _ _ i j E1), <- app_assoc. apply Permutation_app_head.
  cbn [filter]. destruct (at_place i j e); reflexivity.
Qed.
Lemma record_entry_shape e l l' : record_entry e l = Some l' -> fits (shape_of l) e /\ shape_of l' = shape_of l.
Proof.
  intro E. assert (F : fits (shape_of l) e).
  { unfold record_entry in E. destruct (nth_error l (en_service e)) as [sv|] eqn:N1; [|discriminate]. destruct (nth_error sv (en_instance e)) as [pl|] eqn:N2; [|discriminate].
    exists (length sv). unfold shape_of. rewrite nth_error_map, N1. split; [reflexivity|]. apply nth_error_Some. congruence. }
  split; [exact F|]. destruct (record_entry_fits e l F) as (l2 & E2 & S2). congruence.
Qed.
Lemma record_all_shape es : forall l l', record_all es l = Some l' -> Forall (fits (shape_of l)) es.
Proof.
  induction es as [|e es IH]; intros l l' E; cbn [record_all] in E; [constructor|]. destruct (record_entry e l) as [l1|] eqn:E1; [|discriminate].
  destruct (record_entry_shape _ _ _ E1) as (F & S1). constructor; [exact F|]. rewrite <- S1. exact (IH _ _ E).
Qed.

(** ** The places of a table *)
Fixpoint row_from {A} (i j : nat) (l : list A) : list (nat * nat * A) := match l with [] => [] | a :: r => (i, j, a) :: row_from i (S j) r end.
Fixpoint places_from {A} (i : nat) (t : list (list A)) : list (nat * nat * A) := match t with [] => [] | l :: r => row_from i 0 l ++ places_from (S i) r end.
Lemma row_snd {A} i (l : list A) : forall j, map snd (row_from i j l) = l.
Proof. induction l as [|a l IH]; intro j; cbn [row_from map snd]; [reflexivity|]. rewrite IH. reflexivity. Qed.
Lemma places_snd {A} (t : list (list A)) : forall i, map snd (places_from i t) = concat t.
Proof. induction t as [|l t IH]; intro i; cbn [places_from concat]; [reflexivity|]. rewrite map_app, row_snd, IH. reflexivity. Qed.
Lemma row_In {A} i (l : list A) i' j' a : forall j, In (i', j', a) (row_from i j l) <-> i' = i /\ j <= j' /\ nth_error l (j' - j) = Some a.
Proof.
  induction l as [|b l IH]; intro j; cbn [row_from In].
  - split; [intros []|]. intros (_ & _ & Q). destruct (j' - j); discriminate.
  - rewrite IH. split.
    + intros [Q|(-> & L & Q)]; [injection Q as <- <- <-; rewrite Nat.sub_diag; auto|]. split; [reflexivity|]. split; [lia|]. replace (j' - j) with (S (j' - S j)) by lia. exact Q.
    + intros (-> & L & Q). destruct (Nat.eq_dec j j') as [<-|N]; [rewrite Nat.sub_diag in Q; cbn in Q; left; congruence|right]. split; [reflexivity|]. split; [lia|].
      replace (j' - j) with (S (j' - S j)) in Q by lia. exact Q.
Qed.
Lemma places_In {A} (t : list (list A)) i' j' a : forall i, In (i', j', a) (places_from i t) <-> i <= i' /\ exists row, nth_error t (i' - i) = Some row /\ nth_error row j' = Some a.
Proof.
  induction t as [|l t IH]; intro i; cbn [places_from].
  - split; [intros []|]. intros (_ & row & Q & _). destruct (i' - i); discriminate.
  - rewrite in_app_iff, row_In, IH, Nat.sub_0_r. split.
    + intros [(-> & _ & Q)|(L & row & Q & R)]; [split; [lia|]; rewrite Nat.sub_diag; exists l; auto|]. split; [lia|]. exists row. replace (i' - i) with (S (i' - S i)) by lia. auto.
    + intros (L & row & Q & R). destruct (Nat.eq_dec i i') as [<-|N]; [rewrite Nat.sub_diag in Q; cbn in Q; injection Q as <-; left; repeat split; [lia|exact R]|right].
      split; [lia|]. exists row. replace (i' - i) with (S (i' - S i)) in Q by lia. auto.
Qed.
Lemma places_NoDup {A} (t : list (list A)) i : NoDup (map fst (places_from i t)).
Proof.
  assert (R : forall (l : list A) i j, NoDup (map fst (row_from i j l))).
  { intros l i0. induction l as [|a l IH]; intro j; cbn [row_from map fst]; constructor; [|apply IH]. intro I. apply in_map_iff in I as ([[i' j'] b] & Q & I). cbn [fst] in Q. injection Q as -> ->.
    apply row_In in I as (_ & L & _). lia. }
  revert i. induction t as [|l t IH]; intro i; cbn [places_from]; [constructor|]. rewrite map_app.
  assert (G : forall a b : list (nat * nat), NoDup a -> NoDup b -> (forall x, In x a -> ~ In x b) -> NoDup (a ++ b)).
  { clear. induction a as [|x a IH]; intros b Na Nb H; cbn [app]; [exact Nb|]. inversion Na; subst. constructor; [|apply IH; [assumption|exact Nb|intros y I; apply H; right; exact I]].
    rewrite in_app_iff. intros [I|I]; [contradiction|]. exact (H x (or_introl eq_refl) I). }
  apply G; [apply R|apply IH|]. intros [i' j'] I J. apply in_map_iff in I as ([[i1 j1] b] & Q & I). apply in_map_iff in J as ([[i2 j2] b2] & Q' & J). cbn [fst] in Q, Q'.
  injection Q as -> ->. injection Q' as -> ->. apply row_In in I as (-> & _). apply places_In in J as (L & _). lia.
Qed.
Lemma partition {A} (key : A -> nat * nat) (ps : list (nat * nat)) (es : list A) : NoDup ps -> (forall e, In e es -> In (key e) ps) ->
  Permutation (flat_map (fun p => filter (fun e => Nat.eqb (fst (key e)) (fst p) && Nat.eqb (snd (key e)) (snd p)) es) ps) es.
Proof.
  intros D H. induction es as [|e es IH].
  - cbn [filter]. induction ps; cbn [flat_map]; [constructor|]. apply IHps; [inversion D; assumption|intros e []].
  - transitivity (e :: flat_map (fun p => filter (fun e => Nat.eqb (fst (key e)) (fst p) && Nat.eqb (snd (key e)) (snd p)) es) ps); [|constructor; apply IH; intros x I; apply H; right; exact I].
    specialize (H e (or_introl eq_refl)). clear IH. revert H. cbn [filter]. induction ps as [|p ps IH]; intros I; [destruct I|]. inversion D as [|? ? N D']; subst. cbn [flat_map].
    destruct I as [->|I].
    + rewrite !Nat.eqb_refl. cbn [andb app]. constructor. apply Permutation_app_head. clear IH D D'. induction ps as [|p ps IH]; cbn [flat_map]; [constructor|].
      assert (Q : Nat.eqb (fst (key e)) (fst p) && Nat.eqb (snd (key e)) (snd p) = false).
      { apply andb_false_iff. destruct (Nat.eqb_spec (fst (key e)) (fst p)); [right|left; reflexivity]. apply Nat.eqb_neq. intro X. apply N. left. destruct p, (key e); cbn in *; congruence. }
      rewrite Q. apply Permutation_app_head, IH. intro I. apply N. right. exact I.
    + assert (Q : Nat.eqb (fst (key e)) (fst p) && Nat.eqb (snd (key e)) (snd p) = false).
      { apply andb_false_iff. destruct (Nat.eqb_spec (fst (key e)) (fst p)); [right|left; reflexivity]. apply Nat.eqb_neq. intro X. apply N. replace p with (key e); [exact I|]. destruct p, (key e); cbn in *; congruence. }
      rewrite Q. rewrite (IH D' I). symmetry. apply Permutation_middle.
Qed.

(** What GetLogs returns is what the action lists have recorded, under the
    names of the table. *)
Definition name_in (table : list (list (str * list peer_log))) (e : entry) : str :=
  match nth_error table (en_service e) with Some row => match nth_error row (en_instance e) with Some p => fst p | None => [] end | None => [] end.
Lemma all_filed table runs lists : Forall2 (fun es l => record_all es (logs0 (map (@length _) table)) = Some l) runs lists -> merged lists table ->
  Forall (fits (map (@length _) table)) (concat runs) /\
  Permutation (of_out (get_peer_logs table)) (map (fun e => (name_in table e, filed_as e)) (concat runs)).
Proof.
  intros F M.
  assert (Ft : Forall (fits (map (@length _) table)) (concat runs)).
  { clear M. induction F as [|es l runs lists E F IH]; cbn [concat]; [constructor|]. apply Forall_app. split; [|exact IH]. pose proof (record_all_shape _ _ _ E) as X. rewrite shape_logs0 in X. exact X. }
  split; [exact Ft|]. rewrite of_get, <- (places_snd table 0), flat_map_concat_map, map_map, <- flat_map_concat_map.
  set (key := fun e : entry => (en_service e, en_instance e)).
  transitivity (flat_map (fun x => map (fun e => (name_in table e, filed_as e)) (filter (fun e => Nat.eqb (fst (key e)) (fst (fst x)) && Nat.eqb (snd (key e)) (snd (fst x))) (concat runs))) (places_from 0 table)).
  - apply perm_flat. intros [[i j] p] I. cbn [fst snd]. apply places_In in I as (_ & row & Nr & Np). rewrite Nat.sub_0_r in Nr.
    transitivity (map (pair (fst p)) (map filed_as (filter (at_place i j) (concat runs)))).
    + apply Permutation_map. destruct (M i j p) as (order & Po & ->); [eauto|].
      assert (G : forall order acc, Permutation (flat_map of_peer (fold_left (fun acc l => merge_peer (peer_of l i j) acc) order acc)) (flat_map of_peer acc ++ flat_map (fun l => of_peer (peer_of l i j)) order)).
      { clear. induction order as [|l order IH]; intro acc; cbn [fold_left flat_map]; [rewrite app_nil_r; reflexivity|]. rewrite IH. unfold merge_peer. destruct (peer_of l i j) as [|kv pl]; [reflexivity|].
        rewrite flat_map_app, <- app_assoc. cbn [flat_map]. rewrite app_nil_r. reflexivity. }
      rewrite G. cbn [flat_map app]. rewrite (Permutation_flat_map _ Po). clear -F. induction F as [|es l runs lists E F IH]; cbn [flat_map concat filter map]; [constructor|].
      rewrite filter_app, map_app. apply Permutation_app; [|exact IH]. rewrite (of_record_all _ _ _ i j E), peer_of_logs0. reflexivity.
    + rewrite map_map. change (fun e => Nat.eqb (fst (key e)) i && Nat.eqb (snd (key e)) j) with (at_place i j). match goal with |- Permutation ?a ?b => enough (Q : a = b) by (rewrite Q; reflexivity) end. apply map_ext_in. intros e Ie.
      apply filter_In in Ie as (_ & Ae). unfold at_place in Ae. apply andb_true_iff in Ae as (A1 & A2). apply Nat.eqb_eq in A1, A2. unfold name_in. rewrite A1, A2, Nr, Np. reflexivity.
  - rewrite flat_map_concat_map, <- (map_map (fun x => filter (fun e => Nat.eqb (fst (key e)) (fst (fst x)) && Nat.eqb (snd (key e)) (snd (fst x))) (concat runs)) (map (fun e => (name_in table e, filed_as e)))),
      <- concat_map. apply Permutation_map. rewrite <- flat_map_concat_map.
    rewrite flat_map_concat_map, <- (map_map fst (fun x => filter (fun e => Nat.eqb (fst (key e)) (fst x) && Nat.eqb (snd (key e)) (snd x)) (concat runs))), <- flat_map_concat_map.
    apply partition; [apply places_NoDup|]. intros e Ie. rewrite Forall_forall in Ft. destruct (Ft e Ie) as (n & N1 & N2). rewrite nth_error_map in N1.
    destruct (nth_error table (en_service e)) as [row|] eqn:Nr; [|discriminate]. cbn in N1. injection N1 as <-. destruct (nth_error row (en_instance e)) as [p|] eqn:Np; [|apply nth_error_None in Np; lia].
    apply in_map_iff. exists (en_service e, en_instance e, p). split; [reflexivity|]. apply places_In. split; [lia|]. exists row. rewrite Nat.sub_0_r. auto.
Qed.
(** No name without a sample. *)
Lemma no_name_alone table nm : In nm (map fst (get_peer_logs table)) <-> In nm (map fst (of_out (get_peer_logs table))).
Proof.
  split; intro I.
  - apply in_map_iff in I as ([n pl] & <- & I). cbn [fst]. assert (F : map_find n (get_peer_logs table) = Some pl).
    { pose proof (merge_keys_NoDup table) as D. clear -D I. induction (get_peer_logs table) as [|[k v] l IH]; [destruct I|]. cbn [map fst] in D. inversion D; subst. cbn [map_find].
      destruct (str_eqb_spec n k) as [->|N]; destruct I as [I|I]; try congruence; [exfalso; apply H1; exact (in_map fst _ _ I)|auto]. }
    destruct (get_no_empty table n pl F) as (Ne & Nv). destruct pl as [|[r v] pl]; [congruence|]. assert (Hv : v <> ([], [])) by (apply (Nv r); cbn [log_find]; rewrite Nat.eqb_refl; reflexivity).
    assert (X : exists x, In x (of_peer ((r, v) :: pl))).
    { destruct v as [[|a u] [|b w]]; [congruence|exists (r, false, b)|exists (r, true, a)|exists (r, true, a)]; unfold of_peer, tagged; cbn; auto. }
    destruct X as (x & X). apply in_map_iff. exists (n, x). split; [reflexivity|]. unfold of_out. apply in_flat_map. exists (n, (r, v) :: pl). split; [exact I|]. cbn [fst snd]. apply in_map, X.
  - apply in_map_iff in I as ([n x] & <- & I). cbn [fst]. unfold of_out in I. apply in_flat_map in I as ([n' pl] & I & J). cbn [fst snd] in J. apply in_map_iff in J as (y & Q & _). injection Q as <- _. exact (in_map fst _ _ I).
Qed.
Definition all_full (o : out_logs) : Prop := forall nm pl, In (nm, pl) o -> pl <> [] /\ forall rl, In rl pl -> snd rl <> ([], []).
Lemma map_set_In {V} k (v : V) m x : In x (map_set k v m) -> x = (k, v) \/ In x m.
Proof.
  induction m as [|[k' w] m IH]; cbn [map_set In]; [intros [<-|[]]; auto|]. destruct (str_eqb_spec k k') as [<-|]; cbn [In]; intros [<-|I]; auto. destruct (IH I); auto.
Qed.
Lemma log_set_In r v m x : In x (log_set r v m) -> x = (r, v) \/ In x m.
Proof.
  induction m as [|[k w] m IH]; cbn [log_set In]; [intros [<-|[]]; auto|]. destruct (Nat.eqb_spec k r) as [<-|]; cbn [In]; intros [<-|I]; auto. destruct (IH I); auto.
Qed.
Lemma get_full peers : all_full (get_peer_logs peers).
Proof.
  unfold get_peer_logs. assert (G : forall o, all_full o -> all_full (fold_left (fun o sv => fold_left merge_peer_logs sv o) peers o)); [|apply G; intros ? ? []].
  induction peers as [|sv peers IH]; intros o H; cbn [fold_left]; [exact H|]. apply IH. clear IH. revert o H. induction sv as [|[nm ps] sv IH]; intros o H; cbn [fold_left]; [exact H|]. apply IH. clear IH.
  unfold merge_peer_logs. cbn [fst snd]. revert o H. induction ps as [|pl ps IH]; intros o H; cbn [fold_left]; [exact H|]. apply IH. clear IH. unfold merge_partial.
  revert o H. induction pl as [|[r v] pl IH]; intros o H; cbn [fold_left fst snd]; [exact H|]. apply IH. clear IH. 
  assert (K : v <> ([], []) -> all_full (let p := match map_find nm o with Some pl => pl | None => [] end in map_set nm (log_set r (fst (log_get r p) ++ fst v, snd (log_get r p) ++ snd v) p) o)).
  { intros Nv nm' pl' I. cbv zeta in I. apply map_set_In in I as [Q|I]; [|exact (H _ _ I)]. injection Q as -> ->.
    split; [match goal with |- log_set _ _ ?m <> [] => destruct m as [|[? ?] ?]; cbn [log_set]; [discriminate|match goal with |- context [if ?b then _ else _] => destruct b; discriminate end] end|].
    intros rl J. apply log_set_In in J as [->|J].
    - cbn [snd]. intro E. injection E as E1 E2. apply app_eq_nil in E1 as (_ & E1). apply app_eq_nil in E2 as (_ & E2). apply Nv. destruct v; cbn in *; congruence.
    - destruct (map_find nm o) as [p|] eqn:F; [|destruct J]. exact (proj2 (H nm p (map_find_In _ _ _ F)) _ J). }
  unfold merge_rpc. destruct v as [[|? ?] [|? ?]]; [exact H| | |]; apply K; discriminate.
Qed.
Lemma full_peer o nm pl : all_full o -> In (nm, pl) o -> of_peer pl <> [].
Proof.
  intros H I. destruct (H _ _ I) as (N & F). destruct pl as [|[r v] pl]; [congruence|]. specialize (F _ (or_introl eq_refl)). cbn [snd] in F. unfold of_peer, tagged. cbn [flat_map fst snd].
  destruct v as [[|? ?] [|? ?]]; cbn; [congruence| | |]; discriminate.
Qed.
