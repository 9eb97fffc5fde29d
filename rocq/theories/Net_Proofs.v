(** Proofs about address selection. *)
From Coq Require Import Ascii String List NArith ZArith Bool Lia.
From Verif Require Import Base_Model Base_Proofs Net_Model.
Import ListNotations.
Open Scope Z_scope.

(** The machine really has this address: an interface entry with an IPv4 or
    IPv6 family carries it. *)
Definition on_machine (tbl : list if_entry) (a : addr) : Prop :=
  exists e, In e tbl /\ if_host e = Some (ad_ip a) /\ if_name e = ad_dev a /\
            if_family e = if ad_v4 a then AfInet else AfInet6.

Lemma all_addresses_spec tbl netdev a :
  In a (all_addresses tbl netdev) <-> on_machine tbl a /\ (netdev = [] \/ ad_dev a = netdev).
Proof.
  unfold on_machine. induction tbl as [|e r IH]; cbn [all_addresses].
  - split; [intros []|intros ((e & [] & _) & _)].
  - assert (M : (exists e0, In e0 (e :: r) /\ if_host e0 = Some (ad_ip a) /\ if_name e0 = ad_dev a /\
              if_family e0 = if ad_v4 a then AfInet else AfInet6) <->
              (if_host e = Some (ad_ip a) /\ if_name e = ad_dev a /\ if_family e = if ad_v4 a then AfInet else AfInet6)
              \/ exists e0, In e0 r /\ if_host e0 = Some (ad_ip a) /\ if_name e0 = ad_dev a /\
              if_family e0 = if ad_v4 a then AfInet else AfInet6).
    { split.
      - intros (e0 & [<-|I] & K); [left; exact K|right; exists e0; auto].
      - intros [K|(e0 & I & K)]; [exists e; cbn; auto|exists e0; cbn; auto]. }
    rewrite M. clear M.
    assert (Skip : ~ (if_host e = Some (ad_ip a) /\ if_name e = ad_dev a /\ if_family e = (if ad_v4 a then AfInet else AfInet6)
                     /\ (netdev = [] \/ ad_dev a = netdev)) ->
                   (In a (all_addresses r netdev) <->
                   ((if_host e = Some (ad_ip a) /\ if_name e = ad_dev a /\ if_family e = if ad_v4 a then AfInet else AfInet6)
                    \/ exists e0, In e0 r /\ if_host e0 = Some (ad_ip a) /\ if_name e0 = ad_dev a /\
                      if_family e0 = if ad_v4 a then AfInet else AfInet6) /\ (netdev = [] \/ ad_dev a = netdev))).
    { intro N. rewrite IH. split; [intros (K & D); auto|intros ([K|K] & D); [exfalso; apply N; tauto|auto]]. }
    assert (Main : forall f h, if_family e = f -> if_host e = Some h ->
       (f = AfInet \/ f = AfInet6) ->
       (In a (if is_empty netdev || str_eqb netdev (if_name e)
              then mkAddr h (if_name e) (match f with AfInet => true | _ => false end) :: all_addresses r netdev
              else all_addresses r netdev) <->
        ((if_host e = Some (ad_ip a) /\ if_name e = ad_dev a /\ if_family e = if ad_v4 a then AfInet else AfInet6)
                    \/ exists e0, In e0 r /\ if_host e0 = Some (ad_ip a) /\ if_name e0 = ad_dev a /\
                      if_family e0 = if ad_v4 a then AfInet else AfInet6) /\ (netdev = [] \/ ad_dev a = netdev))).
    { intros f h F Hh B.
      assert (Q : is_empty netdev || str_eqb netdev (if_name e) = true <-> netdev = [] \/ if_name e = netdev).
      { destruct netdev; cbn [is_empty orb]; [split; auto|].
        destruct (str_eqb_spec (a0 :: netdev) (if_name e)); split; intro K; try discriminate; auto.
        destruct K; congruence. }
      destruct (is_empty netdev || str_eqb netdev (if_name e)).
      - cbn [In]. rewrite IH. destruct Q as [Q _]. specialize (Q eq_refl). split.
        + intros [<-|(K & D)]; [|split; [right; exact K|exact D]].
          cbn [ad_ip ad_dev ad_v4]. split; [left|exact Q]. destruct B as [B|B]; rewrite ?F, ?B; auto.
        + intros ([(K1 & K2 & K3)|K] & D); [left|right; auto].
          destruct a as [ip dev v4]; cbn [ad_ip ad_dev ad_v4] in *. rewrite Hh in K1. injection K1 as ->.
          rewrite K2. f_equal. rewrite F in K3. rewrite K3; destruct v4; reflexivity.
      - apply Skip. intros (K1 & K2 & K3 & K4). rewrite <- K2 in K4. apply Q in K4. discriminate. }
    destruct (if_family e) eqn:F.
    + apply Skip. intros (_ & _ & K & _). destruct (ad_v4 a); discriminate.
    + destruct (if_host e) as [h|] eqn:Hh; [apply (Main AfInet h); auto|].
      apply Skip. intros (K & _). discriminate.
    + destruct (if_host e) as [h|] eqn:Hh; [apply (Main AfInet6 h); auto|].
      apply Skip. intros (K & _). discriminate.
    + apply Skip. intros (_ & _ & K & _). destruct (ad_v4 a); discriminate.
Qed.

Lemma find_split {A} (f : A -> bool) l a : find f l = Some a ->
  exists l1 l2, l = l1 ++ a :: l2 /\ f a = true /\ Forall (fun x => f x = false) l1.
Proof.
  induction l as [|x l IH]; cbn [find]; [discriminate|]. destruct (f x) eqn:F.
  - intro H; injection H as ->. exists [], l. auto.
  - intro H. destruct (IH H) as (l1 & l2 & -> & G & K). exists (x :: l1), l2. auto.
Qed.

Lemma score_nonneg p a : 0 <= score p a.
Proof. unfold score. destruct (eqb _ _), (is_private a), (is_loopback a); cbn; lia. Qed.

(** The loop keeps the first address of maximal score. *)
Lemma best_loop_spec p l : forall sc best,
  (sc = -1 /\ best = None \/ 0 <= sc) ->
  (best_loop p l sc best = (if sc <? 0 then None else best) /\
   (forall a, In a l -> is_link_local a = false -> score p a <= sc)) \/
  exists l1 a l2, l = l1 ++ a :: l2 /\ best_loop p l sc best = Some a /\ is_link_local a = false /\
    sc < score p a /\
    (forall b, In b l1 -> is_link_local b = false -> score p b < score p a) /\
    (forall b, In b l2 -> is_link_local b = false -> score p b <= score p a).
Proof.
  induction l as [|x l IH]; intros sc best I; cbn [best_loop].
  - left. split; [reflexivity|intros ? []].
  - destruct (is_link_local x) eqn:L.
    + destruct (IH sc best I) as [(E & F)|(l1 & a & l2 & -> & E & N & S & B1 & B2)].
      * left. split; [exact E|]. intros a [<-|J] K; [congruence|apply F; assumption].
      * right. exists (x :: l1), a, l2. repeat split; try assumption.
        intros b [<-|J] K; [congruence|apply B1; assumption].
    + destruct (Z.ltb_spec sc (score p x)) as [S|S].
      * pose proof (score_nonneg p x).
        destruct (IH (score p x) (Some x)) as [(E & F)|(l1 & a & l2 & -> & E & N & S' & B1 & B2)]; [right; lia| |].
        -- right. exists [], x, l. rewrite E. destruct (Z.ltb_spec (score p x) 0); [lia|].
           repeat split; try assumption; [intros ? []].
        -- right. exists (x :: l1), a, l2. repeat split; try assumption; [lia|].
           intros b [<-|J] K; [lia|apply B1; assumption].
      * destruct (IH sc best I) as [(E & F)|(l1 & a & l2 & -> & E & N & S' & B1 & B2)].
        -- left. split; [exact E|]. intros a [<-|J] K; [lia|apply F; assumption].
        -- right. exists (x :: l1), a, l2. repeat split; try assumption.
           intros b [<-|J] K; [lia|apply B1; assumption].
Qed.
Lemma best_any p l :
  (best_loop p l (-1) None = None /\ forall a, In a l -> is_link_local a = true) \/
  exists l1 a l2, l = l1 ++ a :: l2 /\ best_loop p l (-1) None = Some a /\ is_link_local a = false /\
    (forall b, In b l1 -> is_link_local b = false -> score p b < score p a) /\
    (forall b, In b l2 -> is_link_local b = false -> score p b <= score p a).
Proof.
  destruct (best_loop_spec p l (-1) None) as [(E & F)|(l1 & a & l2 & H1 & H2 & H3 & _ & H4 & H5)]; [auto| |].
  - left. split; [exact E|]. intros a I. destruct (is_link_local a) eqn:L; [reflexivity|].
    specialize (F a I L). pose proof (score_nonneg p a). lia.
  - right. exists l1, a, l2. auto.
Qed.

(** Socket addresses. *)
Lemma last_colon l1 : forall l2 d1 d2, ~ In colon d1 -> ~ In colon d2 ->
  l1 ++ colon :: d1 = l2 ++ colon :: d2 -> l1 = l2 /\ d1 = d2.
Proof.
  induction l1 as [|x l1 IH]; intros [|y l2] d1 d2 N1 N2 E; cbn [app] in E.
  - injection E as ->. auto.
  - injection E as <- ->. exfalso. apply N1, in_or_app. right. left. reflexivity.
  - injection E as -> <-. exfalso. apply N2, in_or_app. right. left. reflexivity.
  - injection E as <- E. apply IH in E; try assumption. destruct E as [-> ->]. auto.
Qed.
Lemma dec_no_colon z : ~ In colon (dec_of_Z z).
Proof.
  assert (H : forall n, ~ In colon (dec_of_N n)).
  { intros n I. destruct (dec_of_N_spec n) as (A & _). unfold all_digits in A.
    assert (D : is_digit colon = true); [|discriminate D].
    first [rewrite Forall_forall in A; apply A, I | rewrite forallb_forall in A; apply A, I]. }
  unfold dec_of_Z. destruct (z <? 0); [|apply H]. intros [E|I]; [discriminate E|exact (H _ I)].
Qed.
Lemma app_last_inj {A} (l1 l2 : list A) x : l1 ++ [x] = l2 ++ [x] -> l1 = l2.
Proof. intro E. apply app_inj_tail in E. apply E. Qed.
