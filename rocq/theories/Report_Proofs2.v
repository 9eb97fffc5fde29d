(** Lemmas for C78: the summary in terms of the recorded RPCs. *)
From Coq Require Import Ascii String List ZArith Bool Arith Lia Permutation.
From Verif Require Import Base_Model Base_Proofs Log_Model Log_Proofs2 Sum_Model Sum_Proofs Sum_Proofs2 Sum_Props Report_Proofs.
Import ListNotations.
Open Scope Z_scope.

(** All samples of a result: initiator, target, RPC, outcome. *)
Definition samples_of (l : result_log) : list ((str * str) * filed) :=
  flat_map (fun ip => flat_map (fun tp => map (pair (fst ip, fst tp)) (of_peer (snd tp))) (snd ip)) l.
Lemma samples_peers l : samples_of l = flat_map (fun p => map (pair (fst p)) (of_peer (snd p))) (peers l).
Proof.
  unfold samples_of, peers. induction l as [|[i ps] l IH]; cbn [flat_map fst snd]; [reflexivity|]. rewrite flat_map_app, <- IH. f_equal.
  induction ps as [|[d pl] ps IHp]; cbn [flat_map map fst snd]; [reflexivity|]. rewrite IHp. reflexivity.
Qed.
Definition strip (f : filed) : nat * sample := (fst (fst f), snd f).
Definition f_ok (f : filed) : bool := snd (fst f).
Lemma filter_map {A B} (f : A -> B) p l : filter p (map f l) = map f (filter (fun x => p (f x)) l).
Proof. induction l as [|x l IH]; cbn [map filter]; [reflexivity|]. destruct (p (f x)); cbn [map]; rewrite IH; reflexivity. Qed.
Lemma filter_all {A} (p : A -> bool) l : (forall x, In x l -> p x = true) -> filter p l = l.
Proof. induction l as [|x l IH]; intro H; cbn [filter]; [reflexivity|]. rewrite (H x (or_introl eq_refl)), IH; [reflexivity|intros y I; apply H; right; exact I]. Qed.
Lemma filter_none {A} (p : A -> bool) l : (forall x, In x l -> p x = false) -> filter p l = [].
Proof. induction l as [|x l IH]; intro H; cbn [filter]; [reflexivity|]. rewrite (H x (or_introl eq_refl)). apply IH. intros y I. apply H. right. exact I. Qed.
Lemma filter_and {A} (p q : A -> bool) l : filter p (filter q l) = filter (fun x => q x && p x) l.
Proof. induction l as [|x l IH]; cbn [filter]; [reflexivity|]. destruct (q x); cbn [filter andb]; [destruct (p x); rewrite IH; reflexivity|exact IH]. Qed.
Lemma oks_of pl : oks pl = map strip (filter f_ok (of_peer pl)).
Proof.
  induction pl as [|[r v] pl IH]; [reflexivity|]. unfold oks, of_peer in *. cbn [flat_map fst snd]. rewrite filter_app, map_app, <- IH. f_equal. unfold tagged.
  rewrite filter_app, !filter_map. rewrite (filter_all (fun x => f_ok (r, true, x))) by reflexivity. rewrite (filter_none (fun x => f_ok (r, false, x))) by reflexivity.
  cbn [map]. rewrite app_nil_r, map_map. reflexivity.
Qed.
Lemma fails_of pl : fails pl = map strip (filter (fun f => negb (f_ok f)) (of_peer pl)).
Proof.
  induction pl as [|[r v] pl IH]; [reflexivity|]. unfold fails, of_peer in *. cbn [flat_map fst snd]. rewrite filter_app, map_app, <- IH. f_equal. unfold tagged.
  rewrite filter_app, !filter_map. rewrite (filter_none (fun x => negb (f_ok (r, true, x)))) by reflexivity. rewrite (filter_all (fun x => negb (f_ok (r, false, x)))) by reflexivity.
  cbn [map app]. rewrite map_map. reflexivity.
Qed.
(** Samples of the pairs that satisfy [g] and with the property [p]. *)
Lemma pick (g : str * str -> bool) (p : filed -> bool) ps :
  flat_map (fun x => if g (fst x) then map strip (filter p (of_peer (snd x))) else []) ps =
  map (fun y => strip (snd y)) (filter (fun y => g (fst y) && p (snd y)) (flat_map (fun x : (str * str) * peer_log => map (pair (fst x)) (of_peer (snd x))) ps)).
Proof.
  induction ps as [|x ps IH]; cbn [flat_map]; [reflexivity|]. rewrite filter_app, map_app, <- IH. f_equal. rewrite filter_map, map_map. cbn [fst snd]. destruct (g (fst x)); cbn [andb]; [reflexivity|].
  rewrite filter_none by reflexivity. reflexivity.
Qed.
Lemma pick_all (p : filed -> bool) ps :
  flat_map (fun x : (str * str) * peer_log => map strip (filter p (of_peer (snd x)))) ps = map (fun y => strip (snd y)) (filter (fun y => p (snd y)) (flat_map (fun x => map (pair (fst x)) (of_peer (snd x))) ps)).
Proof. exact (pick (fun _ => true) p ps). Qed.
Lemma len_flat {A B} (f : A -> list B) l : len (flat_map f l) = zsum (map (fun x => len (f x)) l).
Proof. induction l as [|x l IH]; cbn [flat_map map zsum]; [reflexivity|]. rewrite len_app, IH. reflexivity. Qed.
Lemma zsum_perm {A} (f : A -> Z) a b : Permutation a b -> zsum (map f a) = zsum (map f b).
Proof. intro P. induction P; cbn [map zsum]; lia. Qed.
Lemma len_map {A B} (f : A -> B) l : len (map f l) = len l.
Proof. unfold len. rewrite map_length. reflexivity. Qed.

(** ** The recorded RPCs *)
Definition good (x : str * entry) : bool := en_ok (snd x).
Definition warming (x : str * entry) : bool := sa_warmup (en_sample (snd x)).
Definition measured (x : str * entry) : bool := good x && negb (warming x).
Definition rq (x : str * entry) : Z := sa_request (en_sample (snd x)).
Definition rs (x : str * entry) : Z := sa_response (en_sample (snd x)).
Definition began (x : str * entry) : Z := sa_start (en_sample (snd x)).
Definition took (x : str * entry) : Z := sa_latency (en_sample (snd x)).
Section Report.
  Variables (l : result_log) (tg : entry -> str) (R : list (str * entry)).
  Hypothesis U : unique_keys l.
  Hypothesis Ne : forall p, In p (peers l) -> of_peer (snd p) <> [].
  Definition between (k : str * str) (x : str * entry) : bool := pair_eqb (fst x, tg (snd x)) k.
  Definition seen (x : str * entry) : (str * str) * filed := ((fst x, tg (snd x)), filed_as (snd x)).
  Hypothesis P : Permutation (samples_of l) (map seen R).

  Lemma select (q : (str * str) * filed -> bool) : Permutation (map (fun y => strip (snd y)) (filter q (samples_of l))) (map (fun x => strip (filed_as (snd x))) (filter (fun x => q (seen x)) R)).
  Proof. rewrite (filter_perm _ q _ _ P), filter_map, map_map. reflexivity. Qed.
  Lemma oks_all : Permutation (flat_map (fun p => oks (snd p)) (peers l)) (map (fun x => strip (filed_as (snd x))) (filter good R)).
  Proof. rewrite (flat_map_ext _ (fun p => map strip (filter f_ok (of_peer (snd p))))) by (intro; apply oks_of). rewrite pick_all, <- samples_peers. apply (select (fun y => f_ok (snd y))). Qed.
  Lemma fails_all : Permutation (flat_map (fun p => fails (snd p)) (peers l)) (map (fun x => strip (filed_as (snd x))) (filter (fun x => negb (good x)) R)).
  Proof. rewrite (flat_map_ext _ (fun p => map strip (filter (fun f => negb (f_ok f)) (of_peer (snd p))))) by (intro; apply fails_of). rewrite pick_all, <- samples_peers. apply (select (fun y => negb (f_ok (snd y)))). Qed.
  Definition f_measured (f : filed) : bool := f_ok f && negb (sa_warmup (snd f)).
  Lemma timed_of pl : timed (oks pl) = map strip (filter f_measured (of_peer pl)).
  Proof. unfold timed. rewrite oks_of, filter_map, filter_and. f_equal. Qed.
  Lemma counted_all : Permutation (counted l) (map (fun x => strip (filed_as (snd x))) (filter measured R)).
  Proof. unfold counted. rewrite (flat_map_ext _ (fun p => map strip (filter f_measured (of_peer (snd p))))) by (intro; apply timed_of). rewrite pick_all, <- samples_peers. apply (select (fun y => f_measured (snd y))). Qed.
  Lemma counted_some (g : str * str -> bool) : Permutation (flat_map (fun p => if g (fst p) then timed (oks (snd p)) else []) (peers l))
    (map (fun x => strip (filed_as (snd x))) (filter (fun x => g (fst x, tg (snd x)) && measured x) R)).
  Proof.
    rewrite (flat_map_ext _ (fun p => if g (fst p) then map strip (filter f_measured (of_peer (snd p))) else [])) by (intro; rewrite timed_of; reflexivity).
    rewrite pick, <- samples_peers. apply (select (fun y => g (fst y) && f_measured (snd y))).
  Qed.
  (** One pair. *)
  Lemma pair_samples k pl : In (k, pl) (peers l) -> filter (fun y => pair_eqb (fst y) k) (samples_of l) = map (pair k) (of_peer pl).
  Proof.
    rewrite samples_peers. pose proof (unique_pairs l U) as D. clear Ne. induction (peers l) as [|[k' pl'] ps IH]; intro I; [destruct I|]. cbn [map fst] in D. inversion D as [|? ? N D']; subst.
    cbn [flat_map fst snd]. rewrite filter_app, filter_map. cbn [fst]. destruct I as [I|I].
    - injection I as -> ->. rewrite filter_all by (intros; destruct (pair_eqb_spec k k); congruence). rewrite <- (app_nil_r (map (pair k) (of_peer pl))) at 2. f_equal.
      apply filter_none. intros y J. apply in_flat_map in J as ([k2 p2] & J & J2). cbn [fst snd] in J2. apply in_map_iff in J2 as (f & <- & _). cbn [fst].
      destruct (pair_eqb_spec k2 k) as [->|]; [|reflexivity]. destruct N. exact (in_map fst _ _ J).
    - rewrite IH by assumption. rewrite filter_none; [reflexivity|]. intros f _. destruct (pair_eqb_spec k' k) as [->|]; [|reflexivity]. destruct N. exact (in_map fst _ _ I).
  Qed.
  Lemma pair_oks k pl : In (k, pl) (peers l) -> Permutation (oks pl) (map (fun x => strip (filed_as (snd x))) (filter (fun x => between k x && good x) R)).
  Proof.
    intro I. rewrite oks_of. pose proof (select (fun y => pair_eqb (fst y) k && f_ok (snd y))) as Q. rewrite <- filter_and, (pair_samples k pl I), filter_map, map_map in Q. exact Q.
  Qed.
  Lemma pair_timed k pl : In (k, pl) (peers l) -> Permutation (timed (oks pl)) (map (fun x => strip (filed_as (snd x))) (filter (fun x => between k x && measured x) R)).
  Proof.
    intro I. rewrite timed_of. pose proof (select (fun y => pair_eqb (fst y) k && f_measured (snd y))) as Q. rewrite <- filter_and, (pair_samples k pl I), filter_map, map_map in Q. exact Q.
  Qed.
  Lemma pairs_listed k : (exists pl, In (k, pl) (peers l)) <-> exists x, In x R /\ (fst x, tg (snd x)) = k.
  Proof.
    split.
    - intros (pl & I). pose proof (Ne _ I) as N. cbn [snd] in N. destruct (of_peer pl) as [|f fs] eqn:F; [congruence|].
      assert (J : In (k, f) (samples_of l)) by (rewrite samples_peers; apply in_flat_map; exists (k, pl); split; [exact I|]; cbn [fst snd]; rewrite F; left; reflexivity).
      apply (Permutation_in _ P), in_map_iff in J as (x & Q & J). unfold seen in Q. injection Q as Q _. exists x. auto.
    - intros (x & I & <-). assert (J : In (seen x) (samples_of l)) by (apply (Permutation_in _ (Permutation_sym P)), in_map, I). rewrite samples_peers in J.
      apply in_flat_map in J as ([k pl] & J & J2). cbn [fst snd] in J2. apply in_map_iff in J2 as (f & Q & _). injection Q as -> _. eauto.
  Qed.
  Lemma rpcs_listed r : (exists p rl, In p (peers l) /\ In rl (snd p) /\ fst rl = r /\ snd rl <> ([], [])) <-> exists x, In x R /\ en_rpc (snd x) = r.
  Proof.
    split.
    - intros (p & [r' v] & I & J & <- & N). cbn [fst snd] in *. assert (X : exists ok s, In (r', ok, s) (tagged r' v)).
      { destruct v as [[|a u] [|b w]]; [congruence|exists false, b|exists true, a|exists true, a]; unfold tagged; cbn; auto. }
      destruct X as (ok & s & X). assert (Y : In (fst p, (r', ok, s)) (samples_of l)).
      { rewrite samples_peers. apply in_flat_map. exists p. split; [exact I|]. apply in_map. unfold of_peer. apply in_flat_map. exists (r', v). auto. }
      apply (Permutation_in _ P), in_map_iff in Y as (x & Q & Y). unfold seen, filed_as in Q. apply (f_equal (fun z => fst (fst (snd z)))) in Q. cbn in Q. exists x. auto.
    - intros (x & I & <-). assert (J : In (seen x) (samples_of l)) by (apply (Permutation_in _ (Permutation_sym P)), in_map, I). rewrite samples_peers in J.
      apply in_flat_map in J as (p & J & J2). apply in_map_iff in J2 as (f & Q & J2). unfold of_peer in J2. apply in_flat_map in J2 as (rl & J2 & J3). exists p, rl.
      split; [exact J|]. split; [exact J2|]. unfold seen, filed_as in Q. apply (f_equal snd) in Q. cbn [snd] in Q. subst f. unfold tagged in J3. apply in_app_iff in J3 as [J3|J3]; apply in_map_iff in J3 as (s & Q & J3).
      + apply (f_equal (fun z => fst (fst z))) in Q. cbn in Q. split; [exact Q|]. intro E. rewrite E in J3. destruct J3.
      + apply (f_equal (fun z => fst (fst z))) in Q. cbn in Q. split; [exact Q|]. intro E. rewrite E in J3. destruct J3.
  Qed.
End Report.
