(** Invariants of the life of a sequencer and its node managers. *)
From Coq Require Import Ascii String List NArith ZArith Bool Arith Lia.
From Verif Require Import Base_Model Base_Proofs Place_Model Seq_Model Seq_Proofs Cli_Model Cli_Props2 Life_Model.
Import ListNotations.
Open Scope nat_scope.

(** ** Lists *)
Lemma node_set_length k n l : length (node_set k n l) = length l.
Proof. revert k. induction l as [|x l IH]; intros [|k]; cbn [node_set length]; auto. Qed.
Lemma node_set_same k n l m : nth_error l k = Some m -> nth_error (node_set k n l) k = Some n.
Proof. revert k. induction l as [|x l IH]; intros [|k] H; cbn in *; try discriminate; auto. Qed.
Lemma node_set_other k j n l : k <> j -> nth_error (node_set k n l) j = nth_error l j.
Proof. revert k j. induction l as [|x l IH]; intros [|k] [|j] H; cbn; auto; congruence. Qed.
Lemma node_set_reqs k n l m : nth_error l k = Some m -> ln_req n = ln_req m -> map ln_req (node_set k n l) = map ln_req l.
Proof.
  revert k. induction l as [|x l IH]; intros [|k] H E; cbn in *; try discriminate; [congruence|]. rewrite (IH k H E). reflexivity.
Qed.
Lemma node_set_get k n l j m m' : nth_error l k = Some m' -> nth_error (node_set k n l) j = Some m -> (j = k /\ m = n) \/ (j <> k /\ nth_error l j = Some m).
Proof.
  intros E H. destruct (Nat.eq_dec j k) as [->|N]; [left|right].
  - rewrite (node_set_same _ _ _ _ E) in H. split; congruence.
  - rewrite node_set_other in H by congruence. auto.
Qed.
Lemma tag_eqb_spec a b : reflect (a = b) (tag_eqb a b).
Proof.
  destruct a as [a1 a2], b as [b1 b2]. unfold tag_eqb. cbn [fst snd]. destruct (Nat.eqb_spec a1 b1), (Z.eqb_spec a2 b2); constructor; congruence.
Qed.
Lemma has_tag_in t l : has_tag t l = true <-> In t l.
Proof.
  unfold has_tag. rewrite existsb_exists. split; [intros (x & I & E); destruct (tag_eqb_spec t x); [congruence|discriminate]|].
  intro I. exists t. split; [exact I|]. destruct (tag_eqb_spec t t); congruence.
Qed.
Lemma drop_tag_in t u l : In u (drop_tag t l) <-> In u l /\ u <> t.
Proof. unfold drop_tag. rewrite filter_In. destruct (tag_eqb_spec t u); cbn [negb]; intuition congruence. Qed.
Lemma existsb_nat k l : existsb (Nat.eqb k) l = true <-> In k l.
Proof. rewrite existsb_exists. split; [intros (x & I & E); apply Nat.eqb_eq in E; congruence|]. intro I. exists k. split; [exact I|apply Nat.eqb_refl]. Qed.
Lemma reached_from_spec text l : NoDup (map (fun n => rq_text (ln_req n)) l) -> forall j k n, nth_error l k = Some n -> rq_text (ln_req n) = text ->
  reached_from j text l = Some (j + k).
Proof.
  induction l as [|x l IH]; intros D j k n E T; [destruct k; discriminate|]. inversion_clear D as [|? ? Nx D']. cbn [reached_from].
  destruct k as [|k]; cbn [nth_error] in E.
  - injection E as ->. rewrite T, str_eqb_refl. f_equal. lia.
  - destruct (str_eqb_spec (rq_text (ln_req x)) text) as [Q|Q].
    + destruct Nx. rewrite Q, <- T. apply nth_error_In in E. exact (in_map (fun n => rq_text (ln_req n)) l n E).
    + rewrite (IH D' (S j) k n E T). f_equal. lia.
Qed.

(** Opens a step into its cases. *)
Ltac cases H :=
  repeat match type of H with
         | None = Some _ => discriminate H
         | (match ?x with _ => _ end) = Some _ => destruct x eqn:?; try discriminate H
         end.

Section Runs.
Variable nlocal : nat.
Variable reqs : list reg_request.
Hypothesis distinct : NoDup (map rq_text reqs).
Notation step := (Life_Model.step nlocal).
Notation run := (Life_Model.run nlocal).

Lemma run_app a : forall b s, run (a ++ b) s = match run a s with Some s' => run b s' | None => None end.
Proof. induction a as [|e a IH]; intros b s; cbn [app Life_Model.run]; [reflexivity|]. destruct (step e s); [apply IH|reflexivity]. Qed.
Lemma run_invariant (P : life -> Prop) : (forall e s s', P s -> step e s = Some s' -> P s') -> forall l s s', P s -> run l s = Some s' -> P s'.
Proof.
  intros St. induction l as [|e l IH]; intros s s' H E; cbn [Life_Model.run] in E; [congruence|].
  destruct (step e s) as [s1|] eqn:E1; [|discriminate]. apply (IH s1 s'); [|exact E]. exact (St e s s1 H E1).
Qed.

(** ** The steps as a relation *)
Definition drop_nth {A} (i : nat) (l : list A) : list A := firstn i l ++ skipn (S i) l.
Definition put (k : nat) (n : lnode) (s : life) : life := with_nodes (node_set k n (lf_nodes s)) s.
Notation at_ s k n := (nth_error (lf_nodes s) k = Some n).
Inductive moves (s : life) : levent -> life -> Prop :=
| m_start_last j : lf_main s = MStart j -> nlocal <= j -> moves s EMain (with_main MWait s)
| m_start_next j n : lf_main s = MStart j -> j < nlocal -> at_ s j n -> ln_phase n = NServing \/ ln_phase n = NGone -> moves s EMain (with_main (MStart (S j)) s)
| m_wait : lf_main s = MWait -> lf_asked s = true -> moves s EMain (with_main (MSend 1) s)
| m_send r ids : lf_main s = MSend r -> shutdown_targets 0 (rg_nodes (lf_reg s)) = Some ids ->
    moves s EMain (with_main (MCollect r) (with_sent (map (fun i => (r, i)) ids) s))
| m_crash r : lf_main s = MSend r -> shutdown_targets 0 (rg_nodes (lf_reg s)) = None -> moves s EMain (with_main MCrash s)
| m_collect r : lf_main s = MCollect r -> lf_wait s = [] -> moves s EMain (with_main (MClose r) (with_down (with_asked true s)))
| m_close r : lf_main s = MClose r -> lf_sequences s = 0 -> lf_registering s = [] -> moves s EMain (with_main (if r =? 1 then MLocal 0 else MDone) s)
| m_local_last j : lf_main s = MLocal j -> nlocal <= j -> moves s EMain (with_main (MSend 2) s)
| m_local_next j n : lf_main s = MLocal j -> j < nlocal -> at_ s j n -> ln_phase n = NGone -> moves s EMain (with_main (MLocal (S j)) s)
| m_local j n n' : lf_main s = MLocal j -> j < nlocal -> at_ s j n -> ln_phase n <> NGone -> owner_step (set_told n) = Some n' -> moves s EMain (put j n' s)
| m_start k n : at_ s k n -> ln_phase n = NNew -> nlocal <= k \/ lf_main s = MStart k -> moves s (EStart k true) (put k (set_phase NRegistering n) s)
| m_start_fails k n : at_ s k n -> ln_phase n = NNew -> nlocal <= k \/ lf_main s = MStart k -> moves s (EStart k false) (put k (set_told (set_phase NGone n)) s)
| m_accept k n : at_ s k n -> ln_phase n = NRegistering -> lf_up s = true -> ~ In k (lf_registering s) -> ~ In k (map fst (lf_replies s)) ->
    moves s (EAccept k) (with_registering (lf_registering s ++ [k]) s)
| m_register k n res r : at_ s k n -> In k (lf_registering s) -> register_node true (ln_req n) (lf_reg s) = (res, r) -> res <> RegUB ->
    moves s (ERegister k) (with_registry r k res (with_registering (filter (fun j => negb (j =? k)) (lf_registering s)) s))
| m_register_ub k n r : at_ s k n -> In k (lf_registering s) -> register_node true (ln_req n) (lf_reg s) = (RegUB, r) ->
    moves s (ERegister k) (with_main MCrash (with_registry r k RegUB (with_registering (filter (fun j => negb (j =? k)) (lf_registering s)) s)))
| m_reply k n id a : at_ s k n -> ln_phase n = NRegistering -> find (fun p => Nat.eqb k (fst p)) (lf_replies s) = Some (k, RegOk id a) ->
    moves s (EReply k) (put k (set_phase NServing n) s)
| m_refused k n res : at_ s k n -> ln_phase n = NRegistering -> find (fun p => Nat.eqb k (fst p)) (lf_replies s) = Some (k, res) -> (forall id a, res <> RegOk id a) ->
    moves s (EReply k) (put k (set_phase NFailing n) s)
| m_give_up k n : at_ s k n -> ln_phase n = NRegistering -> moves s (EGiveUp k) (put k (set_phase NFailing n) s)
| m_begin : lf_up s = true -> moves s EBegin (with_sequences (S (lf_sequences s)) s)
| m_end b n : lf_sequences s = S n -> moves s (EEnd b) (with_asked b (with_sequences n s))
| m_deliver t k n : In t (lf_sent s) -> ~ In t (lf_delivered s) -> reached s (snd t) = Some k -> at_ s k n -> accepting n = true ->
    moves s (EDeliver t) (with_delivered t (put k (begin_stop t n) s))
| m_complete t ok : In t (lf_wait s) -> (ok = true -> In t (lf_returned s)) -> moves s (EComplete t ok) (with_wait (drop_tag t (lf_wait s)) s)
| m_call k b n : at_ s k n -> accepting n = true -> moves s (ECall k b) (put k (set_handlers (ln_handlers n ++ [HCall b]) n) s)
| m_return k i b n : at_ s k n -> nth_error (ln_handlers n) i = Some (HCall b) -> b && config_locked n = false ->
    moves s (EReturn k i) (put k (set_handlers (drop_nth i (ln_handlers n)) n) s)
| m_return_stop k i t b n : at_ s k n -> nth_error (ln_handlers n) i = Some (HStop t b) -> b && config_locked n = false ->
    moves s (EReturn k i) (with_returned t (put k (set_handlers (drop_nth i (ln_handlers n)) n) s))
| m_owner k n n' : at_ s k n -> nlocal <= k \/ ln_phase n = NFailing -> owner_step n = Some n' -> moves s (EOwner k) (put k n' s).
Hint Constructors moves : core.

Lemma step_moves e s s' : step e s = Some s' -> moves s e s'.
Proof.
  intro H. destruct e; cbn [Life_Model.step] in H.
  - unfold main_step in H. cases H; injection H as <-; rewrite ?Nat.leb_le, ?Nat.leb_gt in *; eauto.
    + match goal with E : (_ && _) = true |- _ => apply andb_true_iff in E as (E1 & E2) end. apply Nat.eqb_eq in E1. destruct (lf_registering s) eqn:?; [eauto|discriminate].
    + eapply m_local; eauto. congruence.
    + eapply m_local; eauto. congruence.
    + eapply m_local; eauto. congruence.
    + eapply m_local; eauto. congruence.
    + eapply m_local; eauto. congruence.
  - cases H. injection H as <-.
    assert (nlocal <= k \/ lf_main s = MStart k).
    { match goal with E : (_ || _) = true |- _ => apply orb_true_iff in E as [E|E]; [left; apply Nat.leb_le, E|right] end.
      destruct (lf_main s); try discriminate. apply Nat.eqb_eq in Heqb. congruence. }
    destruct ok; [eapply m_start|eapply m_start_fails]; eauto.
  - cases H. injection H as <-. apply andb_true_iff in Heqb as (B & B3). apply andb_true_iff in B as (B1 & B2). apply negb_true_iff in B2, B3.
    eapply m_accept; eauto.
    + intro I. apply existsb_nat in I. congruence.
    + intro I. apply in_map_iff in I as (p & E & I). assert (existsb (fun p => k =? fst p) (lf_replies s) = true); [|congruence].
      apply existsb_exists. exists p. split; [exact I|]. apply Nat.eqb_eq. congruence.
  - cases H; injection H as <-; match goal with E : existsb _ _ = true |- _ => apply existsb_nat in E end. destruct r; eauto; eapply m_register; eauto; discriminate.
  - cases H; injection H as <-; match goal with E : find _ _ = Some _ |- _ => pose proof (find_some _ _ E) as (_ & Q); cbn [fst] in Q; apply Nat.eqb_eq in Q; subst end;
      first [solve [eapply m_reply; eauto] | eapply m_refused; eauto; discriminate].
  - cases H. injection H as <-. eapply m_give_up; eauto.
  - cases H. injection H as <-. eauto.
  - cases H. injection H as <-. eauto.
  - cases H. injection H as <-. apply andb_true_iff in Heqb as (B1 & B2). apply negb_true_iff in B2. apply has_tag_in in B1.
    eapply m_deliver; eauto. intro I. apply has_tag_in in I. congruence.
  - cases H. injection H as <-. apply andb_true_iff in Heqb as (B1 & B2). apply has_tag_in in B1. apply m_complete; [exact B1|]. intros ->. apply has_tag_in, B2.
  - cases H. injection H as <-. eapply m_call; eauto.
  - destruct (nth_error (lf_nodes s) k) as [n|] eqn:En; [|discriminate]. destruct (nth_error (ln_handlers n) i) as [h|] eqn:Eh; [|discriminate].
    destruct (needs_name h && config_locked n) eqn:B; [discriminate|]. injection H as <-. destruct h as [t b|b]; cbn [needs_name] in B.
    + eapply (m_return_stop s k i t b n); eauto.
    + eapply (m_return s k i b n); eauto.
  - cases H. injection H as <-. eapply m_owner; eauto. apply orb_true_iff in Heqb as [B|B]; [left; apply Nat.leb_le, B|right]. destruct (ln_phase l); congruence.
Qed.
Lemma owner_spec n n' : owner_step n = Some n' -> (ln_phase n = NServing /\ ln_told n = true /\ n' = set_phase NClosing n) \/
  (ln_phase n = NClosing /\ ln_handlers n = [] /\ n' = set_phase NGone n) \/ (ln_phase n = NFailing /\ ln_handlers n = [] /\ n' = set_told (set_phase NGone n)).
Proof.
  unfold owner_step, idle. intro H. destruct (ln_phase n); try discriminate.
  - destruct (ln_told n); [|discriminate]. injection H as <-. auto.
  - destruct (ln_handlers n); [|discriminate]. injection H as <-. auto 6.
  - destruct (ln_handlers n); [|discriminate]. injection H as <-. auto 6.
Qed.
Lemma owner_req n n' : owner_step n = Some n' -> ln_req n' = ln_req n.
Proof. intro H. apply owner_spec in H as [(_ & _ & ->)|[(_ & _ & ->)|(_ & _ & ->)]]; reflexivity. Qed.
Lemma run_trace (P : list levent -> life -> Prop) s0 : P [] s0 -> (forall l e s s', P l s -> run l s0 = Some s -> step e s = Some s' -> P (l ++ [e]) s') ->
  forall l s, run l s0 = Some s -> P l s.
Proof.
  intros H0 St l. induction l as [|e l IH] using rev_ind; intros s E; [cbn in E; congruence|].
  rewrite run_app in E. destruct (run l s0) as [s1|] eqn:E1; [|discriminate]. cbn [Life_Model.run] in E. destruct (step e s1) as [s2|] eqn:E2; [|discriminate].
  injection E as <-. exact (St l e s1 s2 (IH s1 eq_refl) E1 E2).
Qed.

(** ** Registrations *)
Ltac fields := cbn [lf_nodes lf_reg lf_asked lf_up lf_sequences lf_registering lf_replies lf_main lf_sent lf_delivered lf_returned lf_wait
  with_nodes with_main with_asked with_sequences with_down with_registering with_registry with_sent with_delivered with_returned with_wait put] in *.
Record registered_ok (s : life) : Prop := mkRO {
  o_reqs : map ln_req (lf_nodes s) = reqs;
  o_reg : reg_inv (lf_reg s);
  o_stubs : stubs_ok (lf_reg s);
  o_nodup : NoDup (map fst (lf_replies s));
  o_regs : NoDup (lf_registering s);
  o_range : forall k, In k (lf_registering s) -> k < length (lf_nodes s);
  o_apart : forall k, In k (lf_registering s) -> ~ In k (map fst (lf_replies s));
  o_ok : forall k id a, In (k, RegOk id a) (lf_replies s) -> a = node_alias id /\ exists q, nth_error reqs k = Some q /\
    slot_get id (rg_nodes (lf_reg s)) = Some (mkSlot (Some q) true (node_alias id) false) /\ map_find (rq_text q) (rg_ids (lf_reg s)) = Some id;
  o_known : forall t id, map_find t (rg_ids (lf_reg s)) = Some id -> exists k q a, nth_error reqs k = Some q /\ rq_text q = t /\ In (k, RegOk id a) (lf_replies s) }.

Lemma ro_same s s' : map ln_req (lf_nodes s') = map ln_req (lf_nodes s) -> lf_reg s' = lf_reg s -> lf_replies s' = lf_replies s -> lf_registering s' = lf_registering s ->
  registered_ok s -> registered_ok s'.
Proof.
  intros E1 E2 E3 E4 []. assert (L : length (lf_nodes s') = length (lf_nodes s)) by (apply (f_equal (@length _)) in E1; rewrite !map_length in E1; exact E1).
  constructor; rewrite ?E1, ?E2, ?E3, ?E4, ?L; auto.
Qed.
Lemma put_reqs s k n n' : nth_error (lf_nodes s) k = Some n -> ln_req n' = ln_req n -> map ln_req (lf_nodes (put k n' s)) = map ln_req (lf_nodes s).
Proof. intros E R. fields. exact (node_set_reqs k n' _ n E R). Qed.
Lemma req_at s k n : registered_ok s -> nth_error (lf_nodes s) k = Some n -> nth_error reqs k = Some (ln_req n).
Proof. intros O E. rewrite <- (o_reqs s O), nth_error_map, E. reflexivity. Qed.
Lemma text_inj i j p q : nth_error reqs i = Some p -> nth_error reqs j = Some q -> rq_text p = rq_text q -> i = j.
Proof.
  intros E1 E2 T. apply (proj1 (NoDup_nth_error (map rq_text reqs)) distinct).
  - rewrite map_length. apply nth_error_Some. congruence.
  - rewrite !nth_error_map, E1, E2. cbn [option_map]. congruence.
Qed.
Lemma ro_register s k n res r : registered_ok s -> nth_error (lf_nodes s) k = Some n -> In k (lf_registering s) -> register_node true (ln_req n) (lf_reg s) = (res, r) ->
  registered_ok (with_registry r k res (with_registering (filter (fun j => negb (j =? k)) (lf_registering s)) s)).
Proof.
  intros O En Ik Er. pose proof (register_step _ _ _ _ _ (o_reg s O) Er) as St. pose proof (req_at s k n O En) as Eq.
  pose proof (step_stable _ _ _ _ _ (o_reg s O) St) as (Keep & Other).
  assert (F : map_find (rq_text (ln_req n)) (rg_ids (lf_reg s)) = None).
  { destruct (map_find (rq_text (ln_req n)) (rg_ids (lf_reg s))) as [id|] eqn:F; [|reflexivity]. destruct (o_known s O _ _ F) as (k' & q & a & Ek & T & I).
    pose proof (text_inj k' k q (ln_req n) Ek Eq T) as ->. destruct (o_apart s O k Ik). apply (in_map fst) in I. exact I. }
  constructor; fields.
  - exact (o_reqs s O).
  - exact (step_inv _ _ _ _ _ (o_reg s O) St).
  - exact (step_stubs _ _ _ _ (o_stubs s O) St).
  - rewrite map_app. cbn [map fst].  pose proof (o_nodup s O) as D. pose proof (o_apart s O k Ik) as A. clear -D A. induction (map fst (lf_replies s)) as [|x l IH]; cbn [app]; [repeat constructor; auto|].
    inversion_clear D as [|? ? Nx D']. constructor; [|apply IH; [exact D'|intro; apply A; right; assumption]].
    rewrite in_app_iff. intros [K|[K|[]]]; [auto|]. apply A. left. congruence.
  - apply NoDup_filter, (o_regs s O).
  - intros j Ij. apply filter_In in Ij as (Ij & _). exact (o_range s O j Ij).
  - intros j Ij. apply filter_In in Ij as (Ij & Nj). rewrite map_app, in_app_iff. cbn [map fst In]. intros [K|[K|[]]]; [exact (o_apart s O j Ij K)|].
    subst j. rewrite Nat.eqb_refl in Nj. discriminate.
  - intros j id a I. apply in_app_iff in I as [I|[I|[]]].
    + destruct (o_ok s O j id a I) as (Ea & q & E1 & E2 & E3). split; [exact Ea|]. exists q. split; [exact E1|]. split; [|exact (Keep _ _ E3)].
      rewrite (Other (rq_text q) id); [exact E2| |exact E3]. intro T. pose proof (text_inj j k q (ln_req n) E1 Eq T) as ->. apply (o_apart s O k Ik). apply (in_map fst) in I. exact I.
    + injection I as -> ->. apply step_granted in St as (_ & A & F1 & _ & G). split; [exact A|]. exists (ln_req n). rewrite <- A. auto.
  - intros t id E. destruct St as [St|id' n' V F' Hn Pn|V F' H1 H2|V F' Hc Hp|id' nodes n' V F' Hid Hocc Hnodes Hn Pn Hlen]; [| congruence| | |].
    1-3: destruct (o_known s O t id E) as (k' & q & a & Q1 & Q2 & Q3); exists k', q, a; (split; [exact Q1|split; [exact Q2|apply in_app_iff; left; exact Q3]]).
    cbn [rg_ids] in E. destruct (str_eqb_spec t (rq_text (ln_req n))) as [->|Nt].
    + rewrite map_find_set_same in E. injection E as ->. exists k, (ln_req n), (node_alias id). split; [exact Eq|]. split; [reflexivity|]. apply in_app_iff. right. left. reflexivity.
    + rewrite map_find_set_other in E by congruence. destruct (o_known s O t id E) as (k' & q & a & Q1 & Q2 & Q3). exists k', q, a. split; [exact Q1|]. split; [exact Q2|]. apply in_app_iff. left. exact Q3.
Qed.
Lemma ro_step e s s' : registered_ok s -> step e s = Some s' -> registered_ok s'.
Proof.
  intros O H. apply step_moves in H.
  assert (Put : forall k n n', nth_error (lf_nodes s) k = Some n -> ln_req n' = ln_req n -> registered_ok (put k n' s)).
  { intros k n n' E R. apply (ro_same s); try reflexivity; [|exact O]. exact (put_reqs s k n n' E R). }
  destruct H; try (apply (ro_same s); [reflexivity..|exact O]); try (eapply Put; [eassumption|reflexivity]).
  - eapply Put; [eassumption|]. match goal with E : owner_step _ = _ |- _ => apply owner_req in E; rewrite E; reflexivity end.
  - destruct O. constructor; fields; auto.
    + match goal with N : ~ In k (lf_registering s) |- _ => rename N into Nk end. clear -o_regs0 Nk. induction (lf_registering s) as [|x l IH]; cbn [app]; [repeat constructor; auto|].
      inversion_clear o_regs0 as [|? ? Nx D']. constructor; [|apply IH; [exact D'|intro; apply Nk; right; assumption]].
      rewrite in_app_iff. intros [K|[K|[]]]; [auto|]. apply Nk. left. congruence.
    + intros j I. apply in_app_iff in I as [I|[<-|[]]]; [auto|]. apply nth_error_Some. congruence.
    + intros j I. apply in_app_iff in I as [I|[<-|[]]]; auto.
  - eapply ro_register; eassumption.
  - apply (ro_same (with_registry r k RegUB (with_registering (filter (fun j => negb (j =? k)) (lf_registering s)) s))); try reflexivity. eapply ro_register; eassumption.
  - apply (ro_same (put k (begin_stop t n) s)); try reflexivity. eapply Put; [eassumption|reflexivity].
  - apply (ro_same (put k (set_handlers (drop_nth i (ln_handlers n)) n) s)); try reflexivity. eapply Put; [eassumption|reflexivity].
  - eapply Put; [eassumption|]. match goal with E : owner_step _ = _ |- _ => exact (owner_req _ _ E) end.
Qed.
Lemma ro_start : registered_ok (life_start reqs).
Proof.
  constructor; cbn [life_start lf_nodes lf_reg lf_replies lf_registering map].
  - rewrite map_map. cbn [ln_req]. apply map_id.
  - exact empty_inv.
  - intros id n E. apply slot_get_range in E. cbn in E. lia.
  - constructor.
  - constructor.
  - intros k [].
  - intros k [].
  - intros k id a [].
  - intros t id E. discriminate E.
Qed.
Lemma ro_run l s : run l (life_start reqs) = Some s -> registered_ok s.
Proof. intro H. exact (run_invariant registered_ok ro_step l _ _ ro_start H). Qed.
Lemma occupied_reply s id : registered_ok s -> occupied (lf_reg s) id <-> exists k a, In (k, RegOk id a) (lf_replies s).
Proof.
  intro O. split.
  - intro H. destruct (ri_owner _ (o_reg s O) id H) as (t & E). destruct (o_known s O t id E) as (k & q & a & _ & _ & I). eauto.
  - intros (k & a & I). destruct (o_ok s O k id a I) as (_ & q & _ & E & _). exists (mkSlot (Some q) true (node_alias id) false). split; [exact E|reflexivity].
Qed.
(** The stub of a slot leads to the node that was given it. *)
Lemma reply_reached s k id a : registered_ok s -> In (k, RegOk id a) (lf_replies s) -> reached s id = Some k.
Proof.
  intros O I. destruct (o_ok s O k id a I) as (_ & q & Ek & E & _). unfold reached. rewrite E. cbn [ns_reg].
  assert (K : exists n, nth_error (lf_nodes s) k = Some n /\ ln_req n = q).
  { rewrite <- (o_reqs s O), nth_error_map in Ek. destruct (nth_error (lf_nodes s) k) as [n|]; [|discriminate]. injection Ek as Ek. eauto. }
  destruct K as (n & En & <-). apply (reached_from_spec _ (lf_nodes s)) with (j := 0) (n := n); [|exact En|reflexivity].
  rewrite <- (map_map ln_req rq_text), (o_reqs s O). exact distinct.
Qed.
Lemma targets_ok s : registered_ok s -> exists ids, shutdown_targets 0 (rg_nodes (lf_reg s)) = Some ids /\ NoDup ids /\ forall id, In id ids <-> occupied (lf_reg s) id.
Proof.
  intro O. destruct (targets_spec (rg_nodes (lf_reg s)) 0%Z ltac:(lia)) as (ids & E1 & D & Q).
  - intros n I P. apply In_nth_error in I as (k & Ek). apply (o_stubs s O (Z.of_nat k) n); [|exact P]. unfold slot_get. destruct (Z.ltb_spec (Z.of_nat k) 0); [lia|].
    rewrite Nat2Z.id. exact Ek.
  - exists ids. split; [exact E1|]. split; [exact D|]. intro id. rewrite Q. unfold occupied, slot_get. rewrite Z.sub_0_r. split.
    + intros (n & En & L & P). exists n. destruct (Z.ltb_spec id 0); [lia|]. auto.
    + intros (n & En & P). destruct (Z.ltb_spec id 0); [discriminate|]. exists n. auto.
Qed.
End Runs.
