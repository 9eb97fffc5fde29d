(** C11: which nodes the sequencer can call. *)
From Coq Require Import Ascii String List NArith ZArith Bool Lia.
From Verif Require Import Base_Model Base_Proofs Place_Model Seq_Model Seq_Proofs.
Import ListNotations.
Open Scope Z_scope.

Record called (G : list reg_result) (r : registry) : Prop := mkCalled {
  ca_stub : forall id n, slot_get id (rg_nodes r) = Some n -> (ns_stub n = true <-> In (RegOk id (node_alias id)) G);
  ca_slot : forall id a, In (RegOk id a) G -> a = node_alias id /\ exists n, slot_get id (rg_nodes r) = Some n /\ ns_pending n = false }.
Lemma called_step G ok rq r res r' : called G r -> reg_step ok rq r res r' -> called (G ++ [res]) r'.
Proof.
  intros C H.
  assert (Same : forall res, (forall id a, res <> RegOk id a) -> called (G ++ [res]) r).
  { intros re N. assert (E : forall id a, In (RegOk id a) (G ++ [re]) <-> In (RegOk id a) G).
    { intros id a. rewrite in_app_iff. cbn [In]. split; [intros [K|[K|[]]]; [exact K|contradiction (N id a K)]|auto]. }
    constructor; intros id x; rewrite E; [apply (ca_stub _ _ C)|apply (ca_slot _ _ C)]. }
  destruct H as [H|j n V F Hn Pn|V F H1 H2|V F Hc Hp|j nodes n V F Hid Hocc Hnodes Hn Pn Hlen]; try (apply Same; discriminate).
  - destruct ok; [|apply Same; discriminate]. pose proof (slot_get_range _ _ _ Hn) as Rg. constructor; cbn [rg_nodes].
    + intros id m. rewrite in_app_iff. cbn [In]. destruct (Z.eq_dec j id) as [<-|N].
      * rewrite (slot_put_same _ _ _ n Hn). intros K. injection K as <-. cbn [ns_stub]. tauto.
      * rewrite slot_put_other by lia. intros K. rewrite (ca_stub _ _ C id m K). split; [tauto|intros [Q|[Q|[]]]; [exact Q|injection Q; intros; contradiction]].
    + intros id a. rewrite in_app_iff. cbn [In]. intros [K|[K|[]]].
      * destruct (ca_slot _ _ C id a K) as (-> & m & Hm & Pm). split; [reflexivity|]. destruct (Z.eq_dec j id) as [<-|N]; [eexists; split; [exact (slot_put_same _ _ _ n Hn)|reflexivity]|]. exists m. rewrite slot_put_other by lia. auto.
      * injection K as <- <-. split; [reflexivity|]. eexists. split; [exact (slot_put_same _ _ _ n Hn)|reflexivity].
  - pose proof (slot_get_range _ _ _ Hn) as Rg.
    assert (Old : forall id m, slot_get id nodes = Some m -> (ns_stub m = true <-> In (RegOk id (node_alias id)) G)).
    { intros id m K. subst nodes. destruct (j >=? nb_slots r); [|exact (ca_stub _ _ C id m K)]. destruct (grow_get_inv _ _ _ _ K) as [Q|Q]; [exact (ca_stub _ _ C id m Q)|].
      subst m. split; [discriminate|]. intros Q. destruct (ca_slot _ _ C _ _ Q) as (_ & m & Hm & Pm). rewrite (grow_get _ _ _ _ Hm) in K. injection K as ->. discriminate Pm. }
    assert (Kept : forall id m, slot_get id (rg_nodes r) = Some m -> slot_get id nodes = Some m).
    { intros id m K. subst nodes. destruct (j >=? nb_slots r); [apply grow_get, K|exact K]. }
    set (s := if ok then mkSlot (Some rq) true (node_alias j) false else mkSlot (ns_reg n) (ns_stub n) (node_alias j) false). set (re := if ok then RegOk j (node_alias j) else RegUnknown).
    constructor; cbn [rg_nodes].
    + intros id m. rewrite in_app_iff. cbn [In]. destruct (Z.eq_dec j id) as [<-|N].
      * rewrite (slot_put_same _ _ _ n Hn). intros K. injection K as <-. subst s re. destruct ok; cbn [ns_stub]; [tauto|]. rewrite (Old j n Hn). split; [tauto|intros [Q|[Q|[]]]; [exact Q|discriminate Q]].
      * rewrite slot_put_other by lia. intros K. rewrite (Old id m K). split; [tauto|intros [Q|[Q|[]]]; [exact Q|]]. subst re. destruct ok; [injection Q; intros; contradiction|discriminate Q].
    + intros id a. rewrite in_app_iff. cbn [In]. intros [K|[K|[]]].
      * destruct (ca_slot _ _ C id a K) as (-> & m & Hm & Pm). split; [reflexivity|]. destruct (Z.eq_dec j id) as [<-|N].
        -- eexists. split; [exact (slot_put_same _ _ _ n Hn)|subst s; destruct ok; reflexivity].
        -- exists m. rewrite slot_put_other by lia. auto.
      * subst re. destruct ok; [|discriminate K]. injection K as <- <-. split; [reflexivity|]. eexists. split; [exact (slot_put_same _ _ _ n Hn)|reflexivity].
Qed.
Lemma called_all l : forall G r out r', reg_inv r -> called G r -> register_all l r = (out, r') -> called (G ++ out) r'.
Proof.
  induction l as [|[ok rq] l IH]; intros G r out r' I C E; cbn [register_all] in E; [injection E as <- <-; rewrite app_nil_r; exact C|].
  destruct (register_node ok rq r) as [res r1] eqn:E1. destruct (register_all l r1) as [out2 r2] eqn:E2. injection E as <- <-. apply register_step in E1; [|exact I].
  specialize (IH (G ++ [res]) r1 out2 r2 (step_inv _ _ _ _ _ I E1) (called_step _ _ _ _ _ _ C E1) E2). rewrite <- app_assoc in IH. exact IH.
Qed.
(** The sequencer finds a node under an alias and has a stub to call it with,
    exactly if some registration was answered with that id and alias. *)
Theorem C11_called : forall l out r a id, register_all l empty_registry = (out, r) -> (lookup_node r a = LookupOk id <-> In (RegOk id a) out).
Proof.
  intros l out r a id E.
  assert (C0 : called [] empty_registry).
  { constructor; [|intros ? ? []]. intros i n K. cbn [rg_nodes empty_registry] in K. unfold slot_get in K. destruct (i <? 0); [discriminate K|]. destruct (Z.to_nat i); discriminate K. }
  pose proof (called_all l [] _ _ _ empty_inv C0 E) as C. cbn [app] in C. destruct (register_all_spec l _ _ _ empty_inv E) as (I & _).
  unfold lookup_node. split.
  - destruct (map_find a (rg_alias r)) as [i|] eqn:F; [|discriminate]. destruct (slot_get i (rg_nodes r)) as [n|] eqn:Hn; [|discriminate]. destruct (ns_stub n) eqn:St; [|discriminate]. intros K. injection K as ->.
    apply (ri_alias r I) in F as [_ ->]. apply (ca_stub _ _ C id n Hn), St.
  - intros K. destruct (ca_slot _ _ C id a K) as (-> & n & Hn & Pn). assert (F : map_find (node_alias id) (rg_alias r) = Some id) by (apply (ri_alias r I); split; [exists n; auto|reflexivity]).
    rewrite F, Hn. rewrite (proj2 (ca_stub _ _ C id n Hn) K). reflexivity.
Qed.
Print Assumptions C11_called.
(** A gap below a preassigned id is not called, nor a node whose stub failed. *)
Definition req (text : string) (pre : Z) : reg_request := mkReg (s_ text) (s_ "host") 10000 pre [].
Example C11_called_ex : exists out r, register_all [(true, req "a" 2); (false, req "b" (-1)); (true, req "c" 0)] empty_registry = (out, r) /\
  out = [RegOk 2 (s_ "node2"); RegUnknown; RegOk 0 (s_ "node0")] /\ map (lookup_node r) [s_ "node0"; s_ "node1"; s_ "node2"; s_ "node3"] = [LookupOk 0; LookupCheckFails; LookupOk 2; LookupNullStub].
Proof. eexists. eexists. split; [vm_compute; reflexivity|]. split; [reflexivity|vm_compute; reflexivity]. Qed.
