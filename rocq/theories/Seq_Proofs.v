(** Lemmas about node registration and result collection. *)
From Coq Require Import Ascii String List NArith ZArith Bool Lia ZifyBool Permutation.
From Verif Require Import Base_Model Base_Proofs Place_Model Seq_Model.
Import ListNotations.
Open Scope Z_scope.

(** ** Slots *)
Lemma slot_set_length i n l : length (slot_set i n l) = length l.
Proof. revert i. induction l as [|x l IH]; intros [|i]; cbn [slot_set length]; auto. Qed.
Lemma slot_set_same i n l : (i < length l)%nat -> nth_error (slot_set i n l) i = Some n.
Proof. revert i. induction l as [|x l IH]; intros [|i] H; cbn in *; try lia; auto. apply IH. lia. Qed.
Lemma slot_set_other i j n l : i <> j -> nth_error (slot_set i n l) j = nth_error l j.
Proof. revert i j. induction l as [|x l IH]; intros [|i] [|j] H; cbn; auto; congruence. Qed.

Lemma slot_get_range id l n : slot_get id l = Some n -> 0 <= id < Z.of_nat (length l).
Proof.
  unfold slot_get. destruct (Z.ltb_spec id 0); [discriminate|]. intros E.
  assert (nth_error l (Z.to_nat id) <> None) as K by congruence. apply nth_error_Some in K. lia.
Qed.
Lemma slot_put_same id m l n : slot_get id l = Some n -> slot_get id (slot_put id m l) = Some m.
Proof.
  intros E. apply slot_get_range in E. unfold slot_get, slot_put.
  destruct (Z.ltb_spec id 0); [lia|]. apply slot_set_same. lia.
Qed.
Lemma slot_put_other id j m l : 0 <= id -> id <> j -> slot_get j (slot_put id m l) = slot_get j l.
Proof.
  intros H N. unfold slot_get, slot_put. destruct (Z.ltb_spec j 0); [reflexivity|]. apply slot_set_other. lia.
Qed.
Lemma slot_put_length id m l : length (slot_put id m l) = length l.
Proof. apply slot_set_length. Qed.
Lemma grow_get n l id m : slot_get id l = Some m -> slot_get id (grow n l) = Some m.
Proof.
  unfold slot_get, grow. destruct (Z.ltb_spec id 0); [discriminate|]. intros E.
  rewrite nth_error_app1; [exact E|]. apply nth_error_Some. congruence.
Qed.
Lemma grow_get_inv n l id m : slot_get id (grow n l) = Some m -> slot_get id l = Some m \/ m = empty_slot.
Proof.
  unfold slot_get, grow. destruct (Z.ltb_spec id 0); [discriminate|]. intros E.
  destruct (Nat.ltb_spec (Z.to_nat id) (length l)).
  - rewrite nth_error_app1 in E by assumption. auto.
  - rewrite nth_error_app2 in E by lia. right. apply nth_error_In in E. apply repeat_spec in E. exact E.
Qed.
Lemma grow_length n l : Z.of_nat (length l) <= n -> Z.of_nat (length (grow n l)) = n.
Proof. intros H. unfold grow. rewrite app_length, repeat_length. lia. Qed.
Lemma slot_get_some id l : 0 <= id < Z.of_nat (length l) -> exists n, slot_get id l = Some n.
Proof.
  intros H. unfold slot_get. destruct (Z.ltb_spec id 0); [lia|].
  destruct (nth_error l (Z.to_nat id)) eqn:E; [eauto|]. apply nth_error_None in E. lia.
Qed.

Lemma node_alias_inj a b : node_alias a = node_alias b -> a = b.
Proof. unfold node_alias. intros H. apply app_inv_head in H. apply dec_of_Z_inj, H. Qed.

(** ** Invariant of the registry *)
Definition occupied (r : registry) (id : Z) : Prop :=
  exists n, slot_get id (rg_nodes r) = Some n /\ ns_pending n = false.

Record reg_inv (r : registry) : Prop := mkRegInv {
  ri_ids : forall t id, map_find t (rg_ids r) = Some id ->
     exists n, slot_get id (rg_nodes r) = Some n /\ ns_pending n = false;
  ri_slot_alias : forall id n, slot_get id (rg_nodes r) = Some n -> ns_pending n = false -> ns_alias n = node_alias id;
  ri_inj : forall t1 t2 id, map_find t1 (rg_ids r) = Some id -> map_find t2 (rg_ids r) = Some id -> t1 = t2;
  ri_owner : forall id, occupied r id -> exists t, map_find t (rg_ids r) = Some id;
  ri_alias : forall a id, map_find a (rg_alias r) = Some id <-> occupied r id /\ a = node_alias id;
  ri_size : nb_slots r <= int32_max }.

Lemma empty_inv : reg_inv empty_registry.
Proof.
  assert (N : forall id, slot_get id [] = None).
  { intros id. unfold slot_get. destruct (id <? 0); [reflexivity|]. apply nth_error_nil || (destruct (Z.to_nat id); reflexivity). }
  constructor; cbn [rg_ids rg_nodes rg_alias empty_registry map_find]; try discriminate.
  - intros id n. rewrite N. discriminate.
  - intros id (n & E & _). cbn [rg_nodes empty_registry] in E. rewrite N in E. discriminate.
  - intros a id. split; [discriminate|]. intros [(n & E & _) _]. cbn [rg_nodes empty_registry] in E. rewrite N in E. discriminate.
Qed.

Definition request_valid (rq : reg_request) : Prop := rq_host rq <> [] /\ 0 < rq_port rq <= 65535.

(** The id a first registration asks for or is given. *)
Definition wanted_id (rq : reg_request) (r : registry) : Z :=
  if rq_preassigned rq >=? 0 then rq_preassigned rq else nb_slots r.

(** What one request does. *)
Inductive reg_step (ok : bool) (rq : reg_request) (r : registry) : reg_result -> registry -> Prop :=
| rs_invalid : ~ request_valid rq -> reg_step ok rq r RegInvalid r
| rs_repeat id n : request_valid rq -> map_find (rq_text rq) (rg_ids r) = Some id ->
    slot_get id (rg_nodes r) = Some n -> ns_pending n = false ->
    reg_step ok rq r (if ok then RegOk id (node_alias id) else RegUnknown)
      (if ok then mkRegistry (slot_put id (mkSlot (Some rq) true (node_alias id) false) (rg_nodes r)) (rg_alias r) (rg_ids r) else r)
| rs_overflow : request_valid rq -> map_find (rq_text rq) (rg_ids r) = None ->
    nb_slots r <= wanted_id rq r -> int32_max <= wanted_id rq r -> reg_step ok rq r RegUB r
| rs_conflict : request_valid rq -> map_find (rq_text rq) (rg_ids r) = None ->
    occupied r (wanted_id rq r) -> 0 <= rq_preassigned rq -> reg_step ok rq r RegInvalid r
| rs_new id nodes n : request_valid rq -> map_find (rq_text rq) (rg_ids r) = None ->
    id = wanted_id rq r -> ~ occupied r id ->
    nodes = (if id >=? nb_slots r then grow (id + 1) (rg_nodes r) else rg_nodes r) ->
    slot_get id nodes = Some n -> ns_pending n = true -> Z.of_nat (length nodes) <= int32_max ->
    reg_step ok rq r (if ok then RegOk id (node_alias id) else RegUnknown)
      (mkRegistry (slot_put id (if ok then mkSlot (Some rq) true (node_alias id) false
                                else mkSlot (ns_reg n) (ns_stub n) (node_alias id) false) nodes)
         (map_set (node_alias id) id (rg_alias r)) (map_set (rq_text rq) id (rg_ids r))).

Lemma slot_put_twice id a b l : slot_put id a (slot_put id b l) = slot_put id a l.
Proof.
  unfold slot_put. generalize (Z.to_nat id). intros i. revert i.
  induction l as [|x l IH]; intros [|i]; cbn [slot_set]; auto. rewrite IH. reflexivity.
Qed.

Lemma register_step ok rq r res r' : reg_inv r -> register_node ok rq r = (res, r') -> reg_step ok rq r res r'.
Proof.
  intros I E. unfold register_node in E.
  destruct (str_eqb_spec (rq_host rq) []) as [H0|H0]; cbn [orb] in E.
  { injection E as <- <-. apply rs_invalid. intros [K _]. contradiction. }
  destruct (Z.leb_spec (rq_port rq) 0); cbn [orb] in E.
  { injection E as <- <-. apply rs_invalid. intros [_ K]. lia. }
  destruct (rq_port rq >? 65535) eqn:Hp.
  { injection E as <- <-. apply rs_invalid. intros [_ K]. lia. }
  assert (V : request_valid rq) by (split; [exact H0|lia]).
  destruct (map_find (rq_text rq) (rg_ids r)) as [id|] eqn:F.
  - destruct (ri_ids r I _ _ F) as (n & Hn & Pn). rewrite Hn in E. unfold finish_register in E. rewrite Hn in E.
    rewrite (ri_slot_alias r I id n Hn Pn), Pn in E.
    pose proof (rs_repeat ok rq r id n V F Hn Pn) as K.
    destruct ok; injection E as <- <-; exact K.
  - fold (wanted_id rq r) in E. set (id := wanted_id rq r) in *.
    assert (Hid : 0 <= id) by (unfold id, wanted_id, nb_slots; destruct (rq_preassigned rq >=? 0) eqn:?; lia).
    destruct ((id >=? nb_slots r) && negb (in_int32 (id + 1))) eqn:O.
    { injection E as <- <-. apply andb_prop in O as [O1 O2]. apply rs_overflow; auto; fold id; [lia|].
      unfold in_int32 in O2. unfold int32_max in *. lia. }
    set (nodes := if id >=? nb_slots r then grow (id + 1) (rg_nodes r) else rg_nodes r) in *.
    assert (Hlen : Z.of_nat (length nodes) <= int32_max /\ id < Z.of_nat (length nodes)).
    { unfold nodes. destruct (id >=? nb_slots r) eqn:G; cbn [andb] in O.
      - unfold nb_slots in G. rewrite grow_length by lia. unfold in_int32 in O. unfold int32_max in *. lia.
      - pose proof (ri_size r I). unfold nb_slots in *. lia. }
    destruct (slot_get_some id nodes) as (n & Hn); [lia|]. rewrite Hn in E.
    assert (Old : forall m, slot_get id (rg_nodes r) = Some m -> nodes = rg_nodes r).
    { intros m K. apply slot_get_range in K. unfold nodes. destruct (id >=? nb_slots r) eqn:G; [|reflexivity].
      unfold nb_slots in G. lia. }
    destruct (ns_pending n) eqn:Pn; cbn [negb] in E.
    + unfold finish_register in E. cbn [rg_nodes rg_alias rg_ids] in E. rewrite (slot_put_same id _ nodes n Hn) in E.
      cbn [ns_alias ns_pending] in E. rewrite slot_put_twice in E.
      assert (~ occupied r id).
      { intros (m & K1 & K2). rewrite (Old m K1) in Hn. rewrite Hn in K1. injection K1 as <-. congruence. }
      pose proof (rs_new ok rq r id nodes n V F eq_refl H1 eq_refl Hn Pn (proj1 Hlen)) as K.
      destruct ok; injection E as <- <-; exact K.
    + assert (Occ : slot_get id (rg_nodes r) = Some n).
      { unfold nodes in Hn. destruct (id >=? nb_slots r); [|exact Hn].
        apply grow_get_inv in Hn as [K| ->]; [exact K|]. discriminate Pn. }
      injection E as <- <-. rewrite (Old n Occ). replace (mkRegistry _ _ _) with r by (destruct r; reflexivity).
      apply rs_conflict; auto; [exists n; auto|].
      apply slot_get_range in Occ. unfold id, wanted_id in Occ. destruct (rq_preassigned rq >=? 0) eqn:G; [lia|].
      unfold nb_slots in Occ. lia.
Qed.

Lemma occupied_range r id : occupied r id -> 0 <= id.
Proof. intros (n & E & _). apply slot_get_range in E. lia. Qed.

Lemma step_inv ok rq r res r' : reg_inv r -> reg_step ok rq r res r' -> reg_inv r'.
Proof.
  intros I H. destruct H as [H|id n V F Hn Pn|V F H1 H2|V F Hc|id nodes n V F Hid Hocc Hnodes Hn Pn Hlen]; auto.
  - destruct ok; [|exact I]. pose proof (slot_get_range _ _ _ Hn) as Rg.
    assert (Occ : forall j, occupied (mkRegistry (slot_put id (mkSlot (Some rq) true (node_alias id) false) (rg_nodes r))
                   (rg_alias r) (rg_ids r)) j <-> occupied r j).
    { intros j. unfold occupied. cbn [rg_nodes]. destruct (Z.eq_dec id j) as [<-|N].
      - rewrite (slot_put_same id _ _ n Hn). split; intros _; eauto.
      - rewrite slot_put_other by lia. tauto. }
    constructor; cbn [rg_ids rg_alias rg_nodes].
    + intros t j K. apply (proj2 (Occ j)). exact (ri_ids r I t j K).
    + intros j m K P. destruct (Z.eq_dec id j) as [<-|N].
      * rewrite (slot_put_same id _ _ n Hn) in K. injection K as <-. reflexivity.
      * rewrite slot_put_other in K by lia. apply (ri_slot_alias r I); assumption.
    + apply (ri_inj r I).
    + intros j K. apply Occ in K. apply (ri_owner r I j K).
    + intros a j. rewrite Occ. apply (ri_alias r I).
    + unfold nb_slots. cbn [rg_nodes]. rewrite slot_put_length. apply (ri_size r I).
  - pose proof (slot_get_range _ _ _ Hn) as Rg.
    set (m := if ok then mkSlot (Some rq) true (node_alias id) false
              else mkSlot (ns_reg n) (ns_stub n) (node_alias id) false).
    assert (Pm : ns_pending m = false) by (unfold m; destruct ok; reflexivity).
    assert (Am : ns_alias m = node_alias id) by (unfold m; destruct ok; reflexivity).
    assert (Oth : forall j x, id <> j -> ns_pending x = false ->
       (slot_get j (slot_put id m nodes) = Some x <-> slot_get j (rg_nodes r) = Some x)).
    { intros j x N Px. rewrite slot_put_other by lia. rewrite Hnodes. destruct (id >=? nb_slots r); [|tauto].
      split; [|apply grow_get]. intros K. apply grow_get_inv in K as [K| ->]; [exact K|discriminate Px]. }
    assert (Occ : forall j ma mi, occupied (mkRegistry (slot_put id m nodes) ma mi) j <-> j = id \/ occupied r j).
    { intros j ma mi. unfold occupied. cbn [rg_nodes]. destruct (Z.eq_dec id j) as [<-|N].
      - rewrite (slot_put_same id _ _ n Hn). split; intros _; eauto.
      - split.
        + intros (x & K & P). apply (Oth j x N P) in K. right. eauto.
        + intros [K|(x & K & P)]; [congruence|]. exists x. split; [apply (Oth j x N P), K|exact P]. }
    constructor; cbn [rg_ids rg_alias].
    + intros t j K. apply (Occ j). destruct (str_eqb_spec t (rq_text rq)) as [->|N].
      * rewrite map_find_set_same in K. injection K as <-. left. reflexivity.
      * rewrite map_find_set_other in K by exact N. right. exact (ri_ids r I t j K).
    + cbn [rg_nodes]. intros j x K P. destruct (Z.eq_dec id j) as [<-|N].
      * rewrite (slot_put_same id _ _ n Hn) in K. injection K as <-. exact Am.
      * apply (Oth j x N P) in K. apply (ri_slot_alias r I); assumption.
    + assert (Fresh : forall t, map_find t (rg_ids r) = Some id -> False).
      { intros t K. apply Hocc. exact (ri_ids r I t id K). }
      intros t1 t2 j. destruct (str_eqb_spec t1 (rq_text rq)) as [->|N1], (str_eqb_spec t2 (rq_text rq)) as [->|N2];
        rewrite ?map_find_set_same, ?map_find_set_other by assumption.
      * auto.
      * intros [= <-] K. destruct (Fresh t2 K).
      * intros K [= <-]. destruct (Fresh t1 K).
      * apply (ri_inj r I).
    + intros j K. apply Occ in K as [->|K].
      * exists (rq_text rq). apply map_find_set_same.
      * destruct (ri_owner r I j K) as [t Ht]. exists t. rewrite map_find_set_other; [exact Ht|]. intros ->. congruence.
    + intros a j. rewrite Occ. destruct (str_eqb_spec a (node_alias id)) as [->|N].
      * rewrite map_find_set_same. split.
        -- intros [= <-]. auto.
        -- intros [_ K]. apply node_alias_inj in K. congruence.
      * rewrite map_find_set_other by exact N. rewrite (ri_alias r I). split; [tauto|].
        intros [[->|K] E]; [contradiction|auto].
    + unfold nb_slots. cbn [rg_nodes]. rewrite slot_put_length. exact Hlen.
Qed.

(** One step keeps every name that was handed out, and leaves the nodes of
    other registrations untouched. *)
Lemma step_stable ok rq r res r' : reg_inv r -> reg_step ok rq r res r' ->
  (forall t id, map_find t (rg_ids r) = Some id -> map_find t (rg_ids r') = Some id) /\
  (forall t id, t <> rq_text rq -> map_find t (rg_ids r) = Some id ->
     slot_get id (rg_nodes r') = slot_get id (rg_nodes r)).
Proof.
  intros I H. destruct H as [H|id n V F Hn Pn|V F H1 H2|V F Hc|id nodes n V F Hid Hocc Hnodes Hn Pn Hlen]; auto.
  - destruct ok; [|auto]. cbn [rg_ids rg_nodes]. split; [auto|]. intros t j N K.
    apply slot_put_other; [apply slot_get_range in Hn; lia|]. intros <-. apply N. apply (ri_inj r I t (rq_text rq) id K F).
  - cbn [rg_ids rg_nodes]. split.
    + intros t j K. rewrite map_find_set_other; [exact K|]. intros ->. congruence.
    + intros t j N K. destruct (ri_ids r I t j K) as (m & K1 & K2).
      rewrite slot_put_other; [|apply slot_get_range in Hn; lia|intros <-; apply Hocc; exists m; auto].
      rewrite K1, Hnodes. destruct (id >=? nb_slots r); [apply grow_get|]; exact K1.
Qed.

Lemma step_granted ok rq r id a r' : reg_step ok rq r (RegOk id a) r' ->
  request_valid rq /\ a = node_alias id /\ map_find (rq_text rq) (rg_ids r') = Some id /\
  (map_find (rq_text rq) (rg_ids r) = None -> 0 <= rq_preassigned rq -> id = rq_preassigned rq) /\
  slot_get id (rg_nodes r') = Some (mkSlot (Some rq) true a false).
Proof.
  remember (RegOk id a) as res eqn:Er. intros H.
  destruct H as [H|j n V F Hn Pn|V F H1 H2|V F Hc|j nodes n V F Hid Hocc Hnodes Hn Pn Hlen]; try discriminate Er;
    destruct ok; try discriminate Er; injection Er as -> <-; cbn [rg_ids rg_nodes].
  - split; [exact V|]. split; [reflexivity|]. split; [exact F|]. split; [intros K; congruence|].
    apply (slot_put_same id _ _ n Hn).
  - split; [exact V|]. split; [reflexivity|]. split; [apply map_find_set_same|].
    split; [|apply (slot_put_same id _ _ n Hn)].
    intros _ K. rewrite Hid. unfold wanted_id. destruct (rq_preassigned rq >=? 0) eqn:?; lia.
Qed.

(** ** Histories *)
Lemma register_all_spec l : forall r out r', reg_inv r -> register_all l r = (out, r') ->
  reg_inv r' /\ length out = length l /\
  (forall t id, map_find t (rg_ids r) = Some id -> map_find t (rg_ids r') = Some id) /\
  (forall i ok rq id a, nth_error l i = Some (ok, rq) -> nth_error out i = Some (RegOk id a) ->
     a = node_alias id /\ map_find (rq_text rq) (rg_ids r') = Some id).
Proof.
  induction l as [|[ok rq] l IH]; intros r out r' I E; cbn [register_all] in E.
  - injection E as <- <-. split; [exact I|]. split; [reflexivity|]. split; [auto|].
    intros [|i]; discriminate.
  - destruct (register_node ok rq r) as [res r1] eqn:E1. destruct (register_all l r1) as [out1 r2] eqn:E2.
    injection E as <- <-. apply register_step in E1; [|exact I].
    pose proof (step_inv _ _ _ _ _ I E1) as I1. pose proof (step_stable _ _ _ _ _ I E1) as [St _].
    destruct (IH r1 out1 r2 I1 E2) as (I2 & L & Mo & G). split; [exact I2|]. split; [cbn [length]; lia|].
    split; [auto|]. intros [|i] ok' rq' id a H1 H2; cbn [nth_error] in *.
    + injection H1 as <- <-. injection H2 as ->. apply step_granted in E1 as (_ & A & B & _). auto.
    + eapply G; eassumption.
Qed.

Definition reachable_registry (r : registry) : Prop := exists l out, register_all l empty_registry = (out, r).
Lemma reachable_inv r : reachable_registry r -> reg_inv r.
Proof. intros (l & out & E). apply (register_all_spec l _ _ _ empty_inv E). Qed.

Lemma history_unique l out r : register_all l empty_registry = (out, r) ->
  forall i j oki rqi okj rqj idi ai idj aj,
  nth_error l i = Some (oki, rqi) -> nth_error out i = Some (RegOk idi ai) ->
  nth_error l j = Some (okj, rqj) -> nth_error out j = Some (RegOk idj aj) ->
  (rq_text rqi = rq_text rqj <-> idi = idj) /\ (idi = idj <-> ai = aj).
Proof.
  intros E i j oki rqi okj rqj idi ai idj aj H1 H2 H3 H4.
  destruct (register_all_spec l _ _ _ empty_inv E) as (I & _ & _ & G).
  destruct (G _ _ _ _ _ H1 H2) as [A1 B1]. destruct (G _ _ _ _ _ H3 H4) as [A2 B2]. split; split.
  - intros K. rewrite K in B1. congruence.
  - intros ->. apply (ri_inj r I _ _ _ B1 B2).
  - congruence.
  - intros ->. apply node_alias_inj. congruence.
Qed.


Lemma register_refused r ok rq r' : reachable_registry r -> register_node ok rq r = (RegInvalid, r') ->
  ~ request_valid rq \/
  (map_find (rq_text rq) (rg_ids r) = None /\ 0 <= rq_preassigned rq /\ occupied r (rq_preassigned rq)).
Proof.
  intros R E. apply register_step in E; [|apply reachable_inv, R]. remember RegInvalid as res eqn:Er.
  destruct E as [H|j n V F Hn Pn|V F H1 H2|V F Hc Hp|j nodes n V F Hid Hocc Hnodes Hn Pn Hlen]; try discriminate Er; auto.
  - destruct ok; discriminate Er.
  - right. split; [exact F|]. split; [exact Hp|]. unfold wanted_id in Hc. destruct (rq_preassigned rq >=? 0) eqn:?; [exact Hc|lia].
  - destruct ok; discriminate Er.
Qed.

Lemma register_undefined r ok rq r' : reachable_registry r -> register_node ok rq r = (RegUB, r') ->
  int32_max <= rq_preassigned rq \/ (rq_preassigned rq < 0 /\ nb_slots r = int32_max).
Proof.
  intros R E. pose proof (ri_size r (reachable_inv r R)) as S.
  apply register_step in E; [|apply reachable_inv, R]. remember RegUB as res eqn:Er.
  destruct E as [H|j n V F Hn Pn|V F H1 H2|V F Hc Hp|j nodes n V F Hid Hocc Hnodes Hn Pn Hlen]; try discriminate Er; auto.
  - destruct ok; discriminate Er.
  - unfold wanted_id in *. destruct (rq_preassigned rq >=? 0) eqn:?; lia.
  - destruct ok; discriminate Er.
Qed.

(** ** Every placed node can be called *)
Definition all_stubs (l : list (bool * reg_request)) : Prop := forall ok rq, In (ok, rq) l -> ok = true.

Definition stubs_ok (r : registry) : Prop :=
  forall id n, slot_get id (rg_nodes r) = Some n -> ns_pending n = false -> ns_stub n = true.

Lemma step_stubs rq r res r' : stubs_ok r -> reg_step true rq r res r' -> stubs_ok r'.
Proof.
  intros S H. destruct H as [H|j n V F Hn Pn|V F H1 H2|V F Hc Hp|j nodes n V F Hid Hocc Hnodes Hn Pn Hlen]; auto;
    intros id m K P; cbn [rg_nodes] in K; destruct (Z.eq_dec j id) as [<-|N].
  - rewrite (slot_put_same _ _ _ n Hn) in K. injection K as <-. reflexivity.
  - rewrite slot_put_other in K; [eauto|apply slot_get_range in Hn; lia|exact N].
  - rewrite (slot_put_same _ _ _ n Hn) in K. injection K as <-. reflexivity.
  - rewrite slot_put_other in K; [|apply slot_get_range in Hn; lia|exact N]. rewrite Hnodes in K.
    destruct (j >=? nb_slots r); [|eauto]. apply grow_get_inv in K as [K| ->]; [eauto|discriminate P].
Qed.

Lemma history_stubs l : all_stubs l -> forall r out r', reg_inv r -> stubs_ok r ->
  register_all l r = (out, r') -> stubs_ok r'.
Proof.
  induction l as [|[ok rq] l IH]; intros A r out r' I S E; cbn [register_all] in E.
  - injection E as <- <-. exact S.
  - destruct (register_node ok rq r) as [res r1] eqn:E1. destruct (register_all l r1) as [out1 r2] eqn:E2.
    injection E as <- <-. assert (ok = true) as -> by (apply (A ok rq); left; reflexivity).
    apply register_step in E1; [|exact I].
    eapply (IH (fun o q H => A o q (or_intror H)) r1); eauto using step_inv, step_stubs.
Qed.

Lemma attributes_in r a l : In (a, l) (node_attributes r) ->
  exists id n, slot_get id (rg_nodes r) = Some n /\ ns_pending n = false /\ a = ns_alias n.
Proof.
  unfold node_attributes. intros H. apply in_flat_map in H as (n & Hn & H).
  destruct (ns_pending n) eqn:P; [destruct H|]. destruct H as [[= <- <-]|[]].
  apply In_nth_error in Hn as (k & Hk). exists (Z.of_nat k), n. unfold slot_get.
  destruct (Z.ltb_spec (Z.of_nat k) 0); [lia|]. rewrite Nat2Z.id. auto.
Qed.

Lemma placed_nodes_callable l out r : all_stubs l -> register_all l empty_registry = (out, r) ->
  forall a, In a (map fst (node_attributes r)) -> exists id, lookup_node r a = LookupOk id /\ a = node_alias id.
Proof.
  intros A E a H. destruct (register_all_spec l _ _ _ empty_inv E) as (I & _).
  apply in_map_iff in H as ([a' at_] & <- & H). cbn [fst]. apply attributes_in in H as (id & n & Hn & Pn & ->).
  assert (S : stubs_ok r).
  { apply (history_stubs l A empty_registry out r empty_inv); [|exact E].
    intros id' m K. apply slot_get_range in K. cbn in K. lia. }
  exists id. rewrite (ri_slot_alias r I id n Hn Pn). split; [|reflexivity]. unfold lookup_node.
  assert (F : map_find (node_alias id) (rg_alias r) = Some id) by (apply (ri_alias r I); split; [exists n; auto|reflexivity]).
  rewrite F, Hn, (S id n Hn Pn). reflexivity.
Qed.

Lemma NoDup_aliases r : reg_inv r -> NoDup (map fst (node_attributes r)).
Proof.
  intros I. unfold node_attributes.
  assert (G : forall l k, (forall i n, nth_error l i = Some n -> ns_pending n = false -> ns_alias n = node_alias (Z.of_nat (k + i))) ->
    NoDup (map fst (flat_map (fun n => if ns_pending n then []
                     else [(ns_alias n, match ns_reg n with Some q => rq_attrs q | None => [] end)]) l)) /\
    (forall a, In a (map fst (flat_map (fun n => if ns_pending n then []
                     else [(ns_alias n, match ns_reg n with Some q => rq_attrs q | None => [] end)]) l)) ->
       exists j, (k <= j)%nat /\ a = node_alias (Z.of_nat j))).
  { induction l as [|n l IH]; intros k H; cbn [flat_map]; [split; [constructor|intros a []]|].
    destruct (IH (S k)) as [A B].
    { intros i m E P. specialize (H (S i) m E P). rewrite H. f_equal. lia. }
    destruct (ns_pending n) eqn:Pn; cbn [app map fst].
    - split; [exact A|]. intros a Ha. destruct (B a Ha) as (j & Hj & ->). exists j. split; [lia|reflexivity].
    - specialize (H 0%nat n eq_refl Pn). rewrite Nat.add_0_r in H. split.
      + constructor; [|exact A]. intros K. apply B in K as (j & Hj & K). rewrite H in K. apply node_alias_inj in K. lia.
      + intros a [<-|Ha]; [exists k; auto|]. destruct (B a Ha) as (j & Hj & ->). exists j. split; [lia|reflexivity]. }
  apply (G (rg_nodes r) 0%nat). intros i n E P. apply (ri_slot_alias r I); [|exact P].
  unfold slot_get. destruct (Z.ltb_spec (Z.of_nat (0 + i)) 0); [lia|]. rewrite Nat2Z.id. exact E.
Qed.

(** ** RunTraffic *)

(** The events of a completion queue that reports each of [ids] once (tags
    reported with ok = false are ignored by the loops). *)
Definition completes (ids : list Z) (ev : list (Z * bool)) : Prop :=
  Permutation (map fst (filter snd ev)) ids.

(** Latest element of a list satisfying a predicate. *)
Definition last_such (p : Z -> bool) (l : list Z) (d : option Z) : option Z :=
  fold_left (fun acc i => if p i then Some i else acc) l d.

Lemma last_such_None p l : forall d, last_such p l d = None <-> d = None /\ forall i, In i l -> p i = false.
Proof.
  induction l as [|i l IH]; intros d; cbn [last_such fold_left In].
  - split; [intros ->; split; [reflexivity|intros i []]|tauto].
  - unfold last_such in *. rewrite IH. destruct (p i) eqn:E; split.
    + intros [K _]. discriminate.
    + intros [-> K]. rewrite K in E by auto. discriminate.
    + intros [-> K]. split; [reflexivity|]. intros j [<-|H]; auto.
    + intros [-> K]. auto.
Qed.
Lemma last_such_In p l : forall d x, last_such p l d = Some x -> d = Some x \/ (In x l /\ p x = true).
Proof.
  induction l as [|i l IH]; intros d x; cbn [last_such fold_left In]; [auto|].
  intros H. apply IH in H as [H|[H1 H2]]; [|auto]. destruct (p i) eqn:E; [injection H as ->|]; auto.
Qed.

Lemma await_run_spec ok ev : forall n st, (length (map fst (filter snd ev)) = n)%nat ->
  await_run n ev ok st = Some (last_such (fun i => negb (ok i)) (map fst (filter snd ev)) st).
Proof.
  induction ev as [|[i [|]] ev IH]; intros n st H; cbn [filter snd map fst length] in H.
  - subst n. reflexivity.
  - subst n. cbn [await_run filter snd map fst last_such fold_left]. rewrite IH by reflexivity.
    unfold last_such. destruct (ok i); reflexivity.
  - destruct n; cbn [await_run filter snd map fst].
    + apply length_zero_iff_nil in H. rewrite H. reflexivity.
    + apply IH, H.
Qed.

Section Results.
  Context {Log : Type}.
  Lemma await_results_spec (rep : Z -> reply Log) ev : forall n st acc active,
    (length (map fst (filter snd ev)) = n)%nat ->
    await_results n ev rep st acc active =
      Some (last_such (fun i => negb (rp_ok (rep i))) (map fst (filter snd ev)) st,
            fold_left (fun m i => merge m (rp_logs (rep i))) (map fst (filter snd ev)) acc,
            fold_left (fun s i => mark_inactive i s) (map fst (filter snd ev)) active).
  Proof.
    induction ev as [|[i [|]] ev IH]; intros n st acc active H; cbn [filter snd map fst length] in H.
    - subst n. reflexivity.
    - subst n. cbn [await_results filter snd map fst last_such fold_left]. rewrite IH by reflexivity.
      unfold last_such. destruct (rp_ok (rep i)); reflexivity.
    - destruct n; cbn [await_results filter snd map fst].
      + apply length_zero_iff_nil in H. rewrite H. reflexivity.
      + apply IH, H.
  Qed.

  Lemma merge_find (logs : list (str * Log)) : forall acc k, NoDup (map fst logs) ->
    map_find k (merge acc logs) = match map_find k logs with Some v => Some v | None => map_find k acc end.
  Proof.
    induction logs as [|[k' v] logs IH]; intros acc k ND; cbn [merge fold_left map_find fst snd]; [reflexivity|].
    cbn [map fst] in ND. apply NoDup_cons_iff in ND as [N ND]. unfold merge in IH. rewrite IH by exact ND.
    destruct (str_eqb_spec k k') as [->|Nk].
    - apply map_find_None in N. rewrite N. apply map_find_set_same.
    - destruct (map_find k logs); [reflexivity|]. apply map_find_set_other, Nk.
  Qed.

  (** Merging replies with disjoint keys: the union. *)
  Lemma merge_all_find (rep : Z -> list (str * Log)) l : forall acc k,
    NoDup l -> (forall i, In i l -> NoDup (map fst (rep i))) ->
    (forall i j x, In i l -> In j l -> In x (map fst (rep i)) -> In x (map fst (rep j)) -> i = j) ->
    (forall i, In i l -> In k (map fst (rep i)) -> map_find k acc = None) ->
    forall v, map_find k (fold_left (fun m i => merge m (rep i)) l acc) = Some v <->
      map_find k acc = Some v \/ exists i, In i l /\ In (k, v) (rep i).
  Proof.
    induction l as [|i l IH]; intros acc k ND Hnd Hdis Hacc v; cbn [fold_left].
    - split; [auto|]. intros [K|(j & [] & _)]. exact K.
    - apply NoDup_cons_iff in ND as [Hi ND]. rewrite IH.
      + rewrite merge_find by (apply Hnd; left; reflexivity).
        assert (Q : forall w, map_find k (rep i) = Some w <-> In (k, w) (rep i)).
        { intros w. split; [apply map_find_In|]. intros K.
          specialize (Hnd i (or_introl eq_refl)). clear -Hnd K. induction (rep i) as [|[a b] r IHr]; [destruct K|].
          cbn [map fst map_find] in *. apply NoDup_cons_iff in Hnd as [Ha Hnd].
          destruct K as [[= -> ->]|K].
          - rewrite str_eqb_refl. reflexivity.
          - destruct (str_eqb_spec k a) as [->|N]; [|auto]. exfalso. apply Ha, in_map_iff. exists (a, w). auto. }
        split.
        * intros [K|(j & Hj & K)]; [|right; exists j; split; [right; exact Hj|exact K]].
          destruct (map_find k (rep i)) as [w|] eqn:F; [|auto]. injection K as ->.
          right. exists i. split; [left; reflexivity|apply map_find_In, F].
        * intros [K|(j & [<-|Hj] & K)].
          -- left. destruct (map_find k (rep i)) as [w|] eqn:F; [|exact K].
             assert (In k (map fst (rep i))) as Kx by (apply in_map_iff; exists (k, w); split; [reflexivity|apply map_find_In, F]).
             rewrite (Hacc i (or_introl eq_refl) Kx) in K. discriminate.
          -- left. apply Q in K. rewrite K. reflexivity.
          -- right. eauto.
      + exact ND.
      + intros j Hj. apply Hnd. right. exact Hj.
      + intros a b x Ha Hb. apply Hdis; right; assumption.
      + intros j Hj Hk. rewrite merge_find by (apply Hnd; left; reflexivity).
        destruct (map_find k (rep i)) as [w|] eqn:F.
        * exfalso. apply Hi. replace i with j; [exact Hj|]. apply (Hdis j i k); auto; [right; exact Hj|left; reflexivity|].
          apply map_find_In in F. apply in_map_iff. exists (k, w). auto.
        * apply (Hacc j); [right; exact Hj|exact Hk].
  Qed.
End Results.

Lemma mark_active_In i s j : In j (mark_active i s) <-> j = i \/ In j s.
Proof.
  unfold mark_active. destruct (existsb (Z.eqb i) s) eqn:E.
  - apply existsb_exists in E as (x & Hx & K). apply Z.eqb_eq in K. subst x. split; [auto|]. intros [->|K]; assumption.
  - rewrite in_app_iff. cbn [In]. intuition.
Qed.
Lemma mark_all_In ids : forall s j, In j (fold_left (fun s i => mark_active i s) ids s) <-> In j ids \/ In j s.
Proof.
  induction ids as [|i ids IH]; intros s j; cbn [fold_left In]; [tauto|]. rewrite IH, mark_active_In. intuition.
Qed.
Lemma unmark_all_In ids : forall s j, In j (fold_left (fun s i => mark_inactive i s) ids s) <-> In j s /\ ~ In j ids.
Proof.
  induction ids as [|i ids IH]; intros s j; cbn [fold_left In]; [tauto|]. rewrite IH. unfold mark_inactive.
  rewrite filter_In, negb_true_iff, Z.eqb_neq. intuition.
Qed.

Lemma run_traffic_spec {Log} ids run_reply (get_reply : Z -> reply Log) ev1 ev2 active res active' :
  completes ids ev1 -> completes ids ev2 ->
  run_traffic ids run_reply get_reply ev1 ev2 active = (res, active') ->
  (* the outcome depends only on the answers *)
  ((exists logs, res = TOk logs) <-> forall i, In i ids -> run_reply i = true /\ rp_ok (get_reply i) = true) /\
  (forall who, res = TFailed who -> In who ids /\ (run_reply who = false \/ rp_ok (get_reply who) = false)) /\
  res <> TStuck /\
  (* the active set *)
  ((forall i, In i ids -> run_reply i = true) -> forall j, In j active' <-> In j active /\ ~ In j ids) /\
  (~ (forall i, In i ids -> run_reply i = true) -> forall j, In j active' <-> In j ids \/ In j active).
Proof.
  intros C1 C2 E. unfold run_traffic in E. unfold completes in *.
  rewrite await_run_spec in E by (apply Permutation_length, C1).
  set (l1 := map fst (filter snd ev1)) in *. set (l2 := map fst (filter snd ev2)) in *.
  assert (P1 : forall i, In i l1 <-> In i ids) by (intros i; split; apply Permutation_in; [|symmetry]; exact C1).
  assert (P2 : forall i, In i l2 <-> In i ids) by (intros i; split; apply Permutation_in; [|symmetry]; exact C2).
  destruct (last_such (fun i => negb (run_reply i)) l1 None) as [who|] eqn:L1.
  - injection E as <- <-. apply last_such_In in L1 as [L1|[L1 L1']]; [discriminate|]. apply negb_true_iff in L1'. apply P1 in L1.
    split. { split; [intros (? & K); discriminate|]. intros K. specialize (K who L1). rewrite L1' in K. destruct K; discriminate. }
    split. { intros w [= <-]. auto. }
    split; [discriminate|]. split.
    + intros K. rewrite K in L1' by exact L1. discriminate.
    + intros _ j. apply mark_all_In.
  - apply last_such_None in L1 as [_ L1].
    assert (R1 : forall i, In i ids -> run_reply i = true).
    { intros i K. apply P1, L1 in K. apply negb_false_iff, K. }
    rewrite await_results_spec in E by (apply Permutation_length, C2). fold l2 in E.
    destruct (last_such (fun i => negb (rp_ok (get_reply i))) l2 None) as [who|] eqn:L2; injection E as <- <-.
    + apply last_such_In in L2 as [L2|[L2 L2']]; [discriminate|]. apply negb_true_iff in L2'. apply P2 in L2.
      split. { split; [intros (? & K); discriminate|]. intros K. specialize (K who L2). rewrite L2' in K. destruct K; discriminate. }
      split. { intros w [= <-]. auto. }
      split; [discriminate|]. split; [|intros K; contradiction].
      intros _ j. rewrite unmark_all_In, mark_all_In, P2. tauto.
    + apply last_such_None in L2 as [_ L2].
      split. { split; [|eauto]. intros _ i K. split; [auto|]. apply P2, L2 in K. apply negb_false_iff, K. }
      split; [discriminate|]. split; [discriminate|]. split; [|intros K; contradiction].
      intros _ j. rewrite unmark_all_In, mark_all_In, P2. tauto.
Qed.

Lemma run_traffic_logs {Log} ids run_reply (get_reply : Z -> reply Log) ev1 ev2 active logs active' :
  completes ids ev1 -> completes ids ev2 -> NoDup ids ->
  (forall i, In i ids -> NoDup (map fst (rp_logs (get_reply i)))) ->
  (forall i j x, In i ids -> In j ids -> In x (map fst (rp_logs (get_reply i))) ->
     In x (map fst (rp_logs (get_reply j))) -> i = j) ->
  run_traffic ids run_reply get_reply ev1 ev2 active = (TOk logs, active') ->
  forall k v, map_find k logs = Some v <-> exists i, In i ids /\ In (k, v) (rp_logs (get_reply i)).
Proof.
  intros C1 C2 ND Hnd Hdis E k v. unfold run_traffic in E. unfold completes in *.
  rewrite await_run_spec in E by (apply Permutation_length, C1).
  destruct (last_such _ _ _); [discriminate|].
  rewrite await_results_spec in E by (apply Permutation_length, C2).
  set (l2 := map fst (filter snd ev2)) in *.
  assert (P2 : forall i, In i l2 <-> In i ids) by (intros i; split; apply Permutation_in; [|symmetry]; exact C2).
  destruct (last_such _ _ _); [discriminate|]. injection E as <- _.
  rewrite (merge_all_find (fun i => rp_logs (get_reply i)) l2).
  - cbn [map_find]. split.
    + intros [K|(i & K)]; [discriminate|]. exists i. rewrite P2 in K. exact K.
    + intros (i & K). right. exists i. rewrite P2. exact K.
  - apply (Permutation_NoDup (Permutation_sym C2) ND).
  - intros i Hi. apply Hnd, P2, Hi.
  - intros i j x Hi Hj. apply Hdis; apply P2; assumption.
  - reflexivity.
Qed.

Lemma cancel_spec slots ev active : 0 <= slots -> NoDup active -> (forall i, In i active -> 0 <= i < slots) ->
  completes active ev -> cancel_traffic slots ev active = Some (active, []).
Proof.
  intros Hs ND Hr C. unfold cancel_traffic.
  assert (L : Z.of_nat (length active) <= slots).
  { assert (Hl : (length active <= length (map Z.of_nat (seq 0 (Z.to_nat slots))))%nat).
    { apply NoDup_incl_length; [exact ND|]. intros i Hi. apply Hr in Hi. apply in_map_iff. exists (Z.to_nat i).
      split; [lia|]. apply in_seq. lia. }
    rewrite map_length, seq_length in Hl. lia. }
  destruct (_ >? _) eqn:G; [lia|].
  assert (A : forall ev n a, (length (map fst (filter snd ev)) = n)%nat ->
     await_cancel n ev a = Some (fold_left (fun s i => mark_inactive i s) (map fst (filter snd ev)) a)).
  { clear. induction ev as [|[i [|]] ev IH]; intros n a H; cbn [filter snd map fst length] in H.
    - subst n. reflexivity.
    - subst n. cbn [await_cancel filter snd map fst fold_left]. apply IH. reflexivity.
    - destruct n; cbn [await_cancel filter snd map fst].
      + apply length_zero_iff_nil in H. rewrite H. reflexivity.
      + apply IH, H. }
  rewrite A by (apply Permutation_length, C).
  set (x := fold_left _ _ active). assert (x = []) as ->; [|reflexivity].
  destruct x as [|y x0] eqn:Ex; [reflexivity|]. exfalso.
  assert (K : In y (fold_left (fun s i => mark_inactive i s) (map fst (filter snd ev)) active)) by (fold x; rewrite Ex; left; reflexivity).
  apply unmark_all_In in K as [K1 K2]. apply K2. apply (Permutation_in y (Permutation_sym C)), K1.
Qed.

(** ** DoRunTestSequence *)
Section Tests.
  Context {Test Result : Type}.
  Context (cancelled : nat -> bool) (run : nat -> Test -> option Result).

  Lemma run_tests_spec post tests : forall i acc st res,
    run_tests cancelled run post i tests acc = (st, res) ->
    exists k rs, (k <= length tests)%nat /\ length rs = k /\ res = acc ++ map post rs /\
      (forall j t r, nth_error tests j = Some t -> nth_error rs j = Some r ->
         cancelled (i + j)%nat = false /\ run (i + j)%nat t = Some r) /\
      (st = SeqOk /\ k = length tests \/
       st = SeqCancelled /\ (k < length tests)%nat /\ cancelled (i + k)%nat = true \/
       st = SeqTestFailed /\ cancelled (i + k)%nat = false /\
         exists t, nth_error tests k = Some t /\ run (i + k)%nat t = None).
  Proof.
    induction tests as [|t tests IH]; intros i acc st res E; cbn [run_tests] in E.
    - injection E as <- <-. exists 0%nat, []. cbn [length map]. rewrite app_nil_r. repeat split; auto;
        destruct j; discriminate.
    - destruct (cancelled i) eqn:C.
      { injection E as <- <-. exists 0%nat, []. cbn [length map]. rewrite app_nil_r, Nat.add_0_r.
        split; [lia|]. split; [reflexivity|]. split; [reflexivity|]. split; [intros [|j]; discriminate|].
        right. left. split; [reflexivity|]. split; [lia|exact C]. }
      destruct (run i t) as [r|] eqn:R.
      + apply IH in E as (k & rs & A & B & D & F & G). exists (S k), (r :: rs). cbn [length map].
        split; [lia|]. split; [lia|]. split; [rewrite D, <- app_assoc; reflexivity|]. split.
        * intros [|j] t' r' H1 H2; cbn [nth_error] in *.
          -- injection H1 as <-. injection H2 as <-. rewrite Nat.add_0_r. auto.
          -- replace (i + S j)%nat with (S i + j)%nat by lia. eapply F; eassumption.
        * replace (i + S k)%nat with (S i + k)%nat by lia. cbn [nth_error].
          destruct G as [[-> ->]|[(-> & G1 & G2)|(-> & G1 & G2)]]; [left; auto|right; left|right; right; auto].
          split; [reflexivity|]. split; [lia|exact G2].
      + injection E as <- <-. exists 0%nat, []. cbn [length map]. rewrite app_nil_r, Nat.add_0_r.
        split; [lia|]. split; [reflexivity|]. split; [reflexivity|]. split; [intros [|j]; discriminate|].
        right. right. split; [reflexivity|]. split; [exact C|]. exists t. auto.
  Qed.

  Lemma sequence_spec summary strip big set tests st res shut :
    run_test_sequence cancelled run summary strip big set tests = (st, res, shut) ->
    let post := fun r => if ss_keep_logs set then summary r else strip (summary r) in
    exists k rs, (k <= length tests)%nat /\ length rs = k /\
      (forall j t r, nth_error tests j = Some t -> nth_error rs j = Some r -> cancelled j = false /\ run j t = Some r) /\
      match st with
      | SeqOk => k = length tests /\ res = map post rs /\ big res = false /\ shut = ss_shutdown set
      | SeqTooBig => k = length tests /\ res = [] /\ big (map post rs) = true /\ shut = ss_shutdown set
      | SeqCancelled => (k < length tests)%nat /\ cancelled k = true /\ res = map post rs /\ shut = false
      | SeqTestFailed => cancelled k = false /\ (exists t, nth_error tests k = Some t /\ run k t = None) /\
                         res = map post rs /\ shut = false
      end.
  Proof.
    unfold run_test_sequence. cbv zeta. intros E.
    destruct (run_tests cancelled run _ 0 tests []) as [st1 res1] eqn:R.
    apply run_tests_spec in R as (k & rs & A & B & D & F & G). cbn [app Nat.add] in *. cbv zeta in D.
    exists k, rs. split; [exact A|]. split; [exact B|]. split; [exact F|].
    destruct G as [[-> G]|[(-> & G1 & G2)|(-> & G1 & G2)]].
    - destruct (big res1) eqn:Bg; injection E as <- <- <-; subst res1; auto.
    - injection E as <- <- <-. auto.
    - injection E as <- <- <-. auto.
  Qed.
End Tests.

Lemma register_granted r ok rq id a r' : reachable_registry r -> register_node ok rq r = (RegOk id a, r') ->
  request_valid rq /\ a = node_alias id /\
  (map_find (rq_text rq) (rg_ids r) = None -> 0 <= rq_preassigned rq -> id = rq_preassigned rq) /\
  (map_find (rq_text rq) (rg_ids r) = None -> ~ occupied r id) /\
  slot_get id (rg_nodes r') = Some (mkSlot (Some rq) true a false).
Proof.
  intros R E. pose proof (reachable_inv r R) as I. apply register_step in E; [|exact I].
  pose proof (step_inv _ _ _ _ _ I E) as I'. destruct (step_stable _ _ _ _ _ I E) as [St _].
  destruct (step_granted ok rq r id a r' E) as (A & B & C & D & F).
  split; [exact A|]. split; [exact B|]. split; [exact D|]. split; [|exact F].
  intros N O. destruct (ri_owner r I id O) as [t Ht]. pose proof (St t id Ht) as K.
  rewrite (ri_inj r' I' _ _ _ C K) in N. congruence.
Qed.
