(** Lemmas about the compiled tables. *)
From Coq Require Import Ascii String List NArith ZArith QArith Bool Arith Lia.
From Verif Require Import Base_Model Base_Proofs Grid_Model Canon_Model Place_Model Place_Proofs Fanout_Model Dist_Model Dist_Proofs2 Util_Model Replay_Model Table_Model.
Import ListNotations.
Open Scope Z_scope.

(** ** Results *)
Lemma tbind_ok {A B} (r : tres A) (f : A -> tres B) b : tbind r f = TOk b -> exists a, r = TOk a /\ f a = TOk b.
Proof. destruct r as [a|e|]; cbn [tbind]; intro H; try discriminate. eauto. Qed.
Lemma tmap_ok {A B} (f : A -> tres B) l : forall r, tmap f l = TOk r -> length r = length l /\
  forall i a, nth_error l i = Some a -> exists b, nth_error r i = Some b /\ f a = TOk b.
Proof.
  induction l as [|x l IH]; intros r H; cbn [tmap] in H.
  - injection H as <-. split; [reflexivity|]. intros [|i] a E; discriminate.
  - apply tbind_ok in H as (b & H1 & H). apply tbind_ok in H as (bs & H2 & H). injection H as <-.
    destruct (IH bs H2) as [L N]. split; [cbn [length]; congruence|]. intros [|i] a E; cbn [nth_error] in *.
    + injection E as <-. eauto.
    + eauto.
Qed.
Lemma tmapi_ok {A B} (f : nat -> A -> tres B) l : forall k r, tmapi f k l = TOk r -> length r = length l /\
  forall i a, nth_error l i = Some a -> exists b, nth_error r i = Some b /\ f (k + i)%nat a = TOk b.
Proof.
  induction l as [|x l IH]; intros k r H; cbn [tmapi] in H.
  - injection H as <-. split; [reflexivity|]. intros [|i] a E; discriminate.
  - apply tbind_ok in H as (b & H1 & H). apply tbind_ok in H as (bs & H2 & H). injection H as <-.
    destruct (IH (S k) bs H2) as [L N]. split; [cbn [length]; congruence|]. intros [|i] a E; cbn [nth_error] in *.
    + injection E as <-. exists b. rewrite Nat.add_0_r. auto.
    + destruct (N i a E) as (y & H & Q). exists y. split; [exact H|]. rewrite Nat.add_succ_r. exact Q.
Qed.

(** ** Positions of names *)
Definition at_index {A} (l : list A) (z : Z) (x : A) : Prop := 0 <= z /\ nth_error l (Z.to_nat z) = Some x.
(** [x] is the last element of that name, at position [z]. *)
Definition last_named {A} (name : A -> str) (l : list A) (n : str) (z : Z) (x : A) : Prop :=
  at_index l z x /\ name x = n /\ forall i y, (Z.to_nat z < i)%nat -> nth_error l i = Some y -> name y <> n.
Lemma last_named_fun {A} (name : A -> str) l n z x z' x' : last_named name l n z x -> last_named name l n z' x' -> z = z' /\ x = x'.
Proof.
  intros ((P & E) & N & L) ((P' & E') & N' & L'). assert (z = z').
  { destruct (Nat.lt_trichotomy (Z.to_nat z) (Z.to_nat z')) as [H|[H|H]]; [|lia|].
    - exfalso. exact (L _ _ H E' N').
    - exfalso. exact (L' _ _ H E N). }
  subst z'. split; [reflexivity|congruence].
Qed.
(** Maps filled with map_set while the position advances. *)
Fixpoint index_by {A} (name : A -> str) (i : nat) (l : list A) (m : list (str * Z)) : list (str * Z) :=
  match l with [] => m | d :: r => index_by name (S i) r (map_set (name d) (Z.of_nat i) m) end.
Lemma index_by_spec {A} (name : A -> str) l : forall i m n z, map_find n (index_by name i l m) = Some z ->
  (exists j x, z = Z.of_nat (i + j) /\ nth_error l j = Some x /\ name x = n /\ forall k y, (j < k)%nat -> nth_error l k = Some y -> name y <> n) \/
  (map_find n m = Some z /\ ~ In n (map name l)).
Proof.
  induction l as [|d l IH]; intros i m n z H; cbn [index_by map] in *; [right; auto|].
  destruct (IH _ _ _ _ H) as [(j & x & Ez & Ex & En & L)|[Hm N]].
  - left. exists (S j), x. split; [lia|]. split; [exact Ex|]. split; [exact En|]. intros [|k] y Hk Ey; [lia|]. apply (L k y); [lia|exact Ey].
  - destruct (str_eqb_spec n (name d)) as [->|Ne].
    + rewrite map_find_set_same in Hm. injection Hm as <-. left. exists 0%nat, d. rewrite Nat.add_0_r. repeat split; auto.
      intros [|k] y Hk Ey; [lia|]. cbn [nth_error] in Ey. intro Q. apply N. rewrite <- Q. apply in_map. eapply nth_error_In; eauto.
    + rewrite map_find_set_other in Hm by auto. right. split; [exact Hm|]. intros [Q|Q]; [congruence|contradiction].
Qed.
Lemma index_by_last {A} (name : A -> str) l n z : map_find n (index_by name 0 l []) = Some z -> exists x, last_named name l n z x.
Proof.
  intro H. destruct (index_by_spec name l 0 [] n z H) as [(j & x & Ez & Ex & En & L)|[Q _]]; [|discriminate].
  exists x. cbn [Nat.add] in Ez. subst z. unfold last_named, at_index. rewrite Nat2Z.id. repeat split; auto. lia.
Qed.
Lemma index_by_In {A} (name : A -> str) l : forall i m n, In n (map name l) \/ map_find n m <> None -> map_find n (index_by name i l m) <> None.
Proof.
  induction l as [|d l IH]; intros i m n H; cbn [index_by map In] in *; [destruct H as [[]|H]; exact H|].
  apply IH. destruct (str_eqb_spec n (name d)) as [->|Ne].
  - right. rewrite map_find_set_same. discriminate.
  - rewrite map_find_set_other by auto. destruct H as [[H|H]|H]; auto.
Qed.
Lemma index_lists_by l : forall i m, index_lists i l m = index_by li_name i l m.
Proof. induction l; intros; cbn [index_lists index_by]; auto. Qed.
Lemma positions_by l : forall i m, positions i l m = index_by (fun n => n) i l m.
Proof. induction l; intros; cbn [positions index_by]; auto. Qed.
(** action_map *)
Lemma index_actions_spec l : forall m n a, map_find n (fold_left (fun m a => map_set (an_name a) a m) l m) = Some a ->
  (exists l1 l2, l = l1 ++ a :: l2 /\ an_name a = n /\ ~ In n (map an_name l2)) \/ (map_find n m = Some a /\ ~ In n (map an_name l)).
Proof.
  induction l as [|d l IH]; intros m n a H; cbn [fold_left map] in *; [right; auto|].
  destruct (IH _ _ _ H) as [(l1 & l2 & E & En & L)|[Hm N]].
  - left. exists (d :: l1), l2. subst l. auto.
  - destruct (str_eqb_spec n (an_name d)) as [->|Ne].
    + rewrite map_find_set_same in Hm. injection Hm as <-. left. exists [], l. auto.
    + rewrite map_find_set_other in Hm by auto. right. split; [exact Hm|]. intros [Q|Q]; [congruence|contradiction].
Qed.
(** EnumerateServiceTypes, EnumerateRpcs *)
Lemma map_set_fresh {V} k (v : V) m : ~ In k (map fst m) -> map_set k v m = m ++ [(k, v)].
Proof.
  induction m as [|[k' v'] m IH]; intro N; cbn [map_set map fst In app] in *; [reflexivity|].
  destruct (str_eqb_spec k k') as [->|Ne]; [tauto|]. rewrite IH; tauto.
Qed.
Lemma enumerate_by l : NoDup l -> forall m i, NoDup (map fst m ++ l) -> length m = i ->
  fold_left (fun m n => map_set n (Z.of_nat (length m)) m) l m = index_by (fun n => n) i l m.
Proof.
  induction l as [|n l IH]; intros Dl m i D L; cbn [fold_left index_by]; [reflexivity|]. subst i.
  assert (F : ~ In n (map fst m)) by (apply NoDup_remove_2 in D; intro; apply D; apply in_or_app; auto).
  inversion_clear Dl. apply IH; auto.
  - rewrite map_set_fresh by exact F. rewrite map_app. cbn [map fst]. rewrite <- app_assoc. exact D.
  - rewrite map_set_fresh by exact F. rewrite app_length. cbn [length]. lia.
Qed.
Lemma enumerate_spec l n z : NoDup l -> map_find n (enumerate l) = Some z -> at_index l z n.
Proof.
  intros D H. unfold enumerate in H. rewrite (enumerate_by l D [] 0) in H; auto.
  destruct (index_by_last _ _ _ _ H) as (x & A & <- & _). exact A.
Qed.
Lemma enumerate_index l i n : NoDup l -> nth_error l i = Some n -> map_find n (enumerate l) = Some (Z.of_nat i).
Proof.
  intros D E. destruct (map_find n (enumerate l)) as [z|] eqn:F.
  - destruct (enumerate_spec l n z D F) as [P Q]. rewrite NoDup_nth_error in D.
    assert (i = Z.to_nat z). { apply D; [apply nth_error_Some; congruence|congruence]. } f_equal. lia.
  - exfalso. unfold enumerate in F. rewrite (enumerate_by l D [] 0) in F; auto.
    eapply (index_by_In (fun n => n) l 0 [] n); [|exact F]. left. rewrite map_id. eapply nth_error_In; eauto.
Qed.
Lemma enumerate_named {A} (name : A -> str) l n z : NoDup (map name l) -> map_find n (enumerate (map name l)) = Some z ->
  exists x, at_index l z x /\ name x = n.
Proof.
  intros D H. destruct (enumerate_spec _ _ _ D H) as [P E]. rewrite nth_error_map in E.
  destruct (nth_error l (Z.to_nat z)) as [x|] eqn:F; [|discriminate]. injection E as <-. exists x. split; [split|]; auto.
Qed.

(** ** Generators and payloads *)
Lemma gens_spec canon l index : gens canon l = TOk index ->
  forall n, (generator_index n index = -1 /\ ~ In n (map dc_name l)) \/ exists x, at_index l (generator_index n index) x /\ dc_name x = n.
Proof.
  unfold gens. destruct (make_generators canon l [] []) as [g ix|e|] eqn:E; intro H; try discriminate. injection H as <-.
  destruct (make_generators_spec _ _ _ _ _ _ E) as (_ & _ & _ & _ & F & G). intro n.
  destruct (in_dec (list_eq_dec ascii_dec) n (map dc_name l)) as [I|I].
  - right. apply in_map_iff in I as (x & <- & I). apply In_nth_error in I as [i I]. destruct (F i x I) as [Q _]. cbn [length Nat.add] in Q.
    exists x. unfold generator_index. rewrite Q. split; [|reflexivity]. split; [lia|]. rewrite Nat2Z.id. exact I.
  - left. split; [|exact I]. unfold generator_index. rewrite (G n I). reflexivity.
Qed.
Lemma gens_nodup canon l index : gens canon l = TOk index -> NoDup (map dc_name l).
Proof.
  unfold gens. destruct (make_generators canon l [] []) as [g ix|e|] eqn:E; intro H; try discriminate.
  exact (proj1 (proj2 (make_generators_spec _ _ _ _ _ _ E))).
Qed.
Lemma payloads_map_spec sizes l : forall m pm, payloads_map sizes l m = TOk pm ->
  (forall n p, map_find n pm = Some p <-> map_find n m = Some p \/ (In p l /\ py_name p = n)) /\
  NoDup (map py_name l) /\ (forall p, In p l -> map_find (py_name p) m = None) /\
  (forall p d, In p l -> py_dist p = Some d -> generator_index d sizes <> -1).
Proof.
  induction l as [|p l IH]; intros m pm H; cbn [payloads_map] in H.
  - injection H as <-. split; [|split; [constructor|split; [intros ? []|intros ? ? []]]]. intros n p. split; [auto|]. intros [Q|[[] _]]. exact Q.
  - destruct (map_find (py_name p) m) eqn:F; [discriminate|].
    assert (R : payloads_map sizes l (map_set (py_name p) p m) = TOk pm /\ forall d, py_dist p = Some d -> generator_index d sizes <> -1).
    { destruct (py_dist p) as [d|]; [destruct (generator_index d sizes =? -1) eqn:G; [discriminate|]|]; split; auto; try discriminate.
      intros d' Q. injection Q as <-. apply Z.eqb_neq. exact G. }
    destruct R as [R Rd]. destruct (IH _ _ R) as (A & D & N & G).
    assert (Np : ~ In (py_name p) (map py_name l)).
    { intro Q. apply in_map_iff in Q as (q & E & Q). pose proof (N q Q) as Z0. rewrite E, map_find_set_same in Z0. discriminate. }
    split; [|split; [cbn [map]; constructor; auto|split]].
    + intros n q. rewrite A. destruct (str_eqb_spec n (py_name p)) as [->|Ne].
      * rewrite map_find_set_same. rewrite F. split.
        -- intros [Q|[Q E]]; [injection Q as <-; right; split; [left|]; reflexivity|]. exfalso. apply Np. rewrite <- E. apply in_map. exact Q.
        -- intros [Q|[[Q|Q] E]]; [discriminate|left; congruence|]. exfalso. apply Np. rewrite <- E. apply in_map. exact Q.
      * rewrite map_find_set_other by exact Ne. cbn [In]. split.
        -- intros [Q|[Q E]]; [left; exact Q|right; split; [right; exact Q|exact E]].
        -- intros [Q|[[Q|Q] E]]; [left; exact Q|congruence|right; split; assumption].
    + intros q [<-|Q]; [exact F|]. pose proof (N q Q) as Z0. destruct (str_eqb_spec (py_name q) (py_name p)) as [Ee|Ne].
      * rewrite Ee. exact F.
      * rewrite map_find_set_other in Z0 by exact Ne. exact Z0.
    + intros q d [<-|Q] E; [exact (Rd d E)|exact (G q d Q E)].
Qed.

(** ** Activities, traces *)
Lemma activity_map_spec l : forall l0 stored m st am, activity_map l stored m = TOk (st, am) -> length stored = length l0 ->
  (forall n z, map_find n m = Some z -> exists a p, at_index l0 z a /\ ac_name a = n /\ at_index stored z p /\ parse_activity a = ParseOk p) ->
  (forall i a, nth_error l0 i = Some a -> exists p, nth_error stored i = Some p /\ parse_activity a = ParseOk p) ->
  length st = length (l0 ++ l) /\
  (forall n z, map_find n am = Some z -> exists a p, at_index (l0 ++ l) z a /\ ac_name a = n /\ at_index st z p /\ parse_activity a = ParseOk p) /\
  (forall i a, nth_error (l0 ++ l) i = Some a -> exists p, nth_error st i = Some p /\ parse_activity a = ParseOk p).
Proof.
  induction l as [|a l IH]; intros l0 stored m st am H L I J; cbn [activity_map] in H.
  - injection H as <- <-. rewrite app_nil_r. auto.
  - destruct (map_find (ac_name a) m) eqn:F; [discriminate|]. destruct (parse_activity a) as [p|e] eqn:P; [|discriminate].
    assert (Pn : pa_name p = ac_name a).
    { unfold parse_activity in P. destruct (func_of_name _) as [[]|]; repeat match type of P with context [match ?x with _ => _ end] => destruct x end; try discriminate; injection P as <-; reflexivity. }
    replace (l0 ++ a :: l) with ((l0 ++ [a]) ++ l) by (rewrite <- app_assoc; reflexivity). rewrite Pn in H.
    assert (Old : forall {B} (x : list B) (y : B) i b, nth_error x i = Some b -> nth_error (x ++ [y]) i = Some b)
      by (intros B x y i b Q; rewrite nth_error_app1; [exact Q|apply nth_error_Some; congruence]).
    eapply IH; [exact H| | |].
    + rewrite !app_length. cbn [length]. lia.
    + intros n z Q. destruct (str_eqb_spec n (ac_name a)) as [->|Ne].
      * rewrite map_find_set_same in Q. injection Q as <-. exists a, p. unfold at_index. rewrite Nat2Z.id.
        rewrite (nth_error_app2 stored) by lia. rewrite (nth_error_app2 l0) by lia. replace (length stored - length l0)%nat with 0%nat by lia. rewrite Nat.sub_diag. repeat split; auto; lia.
      * rewrite map_find_set_other in Q by exact Ne. destruct (I n z Q) as (b & q & (B1 & B2) & B3 & (B4 & B5) & B6).
        exists b, q. unfold at_index. repeat split; auto.
    + intros i b Q. destruct (Nat.lt_ge_cases i (length l0)) as [Hi|Hi].
      * rewrite nth_error_app1 in Q by exact Hi. destruct (J i b Q) as (q & Q1 & Q2). exists q. auto.
      * rewrite nth_error_app2 in Q by exact Hi. destruct (i - length l0)%nat as [|[|k]] eqn:E; try discriminate. injection Q as <-.
        exists p. rewrite nth_error_app2 by lia. replace (i - length stored)%nat with 0%nat by lia. auto.
Qed.
Lemma trace_map_spec sizes l : forall l0 m tm, trace_map sizes (length l0) l m = TOk tm ->
  (forall n z, map_find n m = Some z -> exists t, at_index l0 z (n, t)) ->
  (forall n z, map_find n tm = Some z -> exists t, at_index (l0 ++ l) z (n, t)) /\ (forall n t, In (n, t) l -> validate_trace sizes (validated_part t) = None).
Proof.
  induction l as [|[n0 t0] l IH]; intros l0 m tm H I; cbn [trace_map] in H.
  - injection H as <-. rewrite app_nil_r. split; [exact I|intros n t []].
  - destruct (map_find n0 m) eqn:F; [discriminate|]. destruct (validate_trace sizes (validated_part t0)) eqn:V; [discriminate|].
    replace (l0 ++ (n0, t0) :: l) with ((l0 ++ [(n0, t0)]) ++ l) by (rewrite <- app_assoc; reflexivity).
    replace (S (length l0)) with (length (l0 ++ [(n0, t0)])) in H by (rewrite app_length; cbn [length]; lia).
    destruct (IH _ _ _ H) as [A B].
    + intros n z Q. destruct (str_eqb_spec n n0) as [->|Ne].
      * rewrite map_find_set_same in Q. injection Q as <-. exists t0. unfold at_index. rewrite Nat2Z.id, nth_error_app2, Nat.sub_diag by lia. split; [lia|reflexivity].
      * rewrite map_find_set_other in Q by exact Ne. destruct (I n z Q) as (t & P1 & P2). exists t. split; [exact P1|].
        rewrite nth_error_app1; [exact P2|apply nth_error_Some; congruence].
    + split; [exact A|]. intros n t [Q|Q]; [injection Q as <- <-; exact V|eauto].
Qed.

(** ** Definitions of RPCs *)
Lemma check_clients_spec types l u : check_clients types l = TOk u -> forall n, In n l -> map_find n types <> None.
Proof.
  induction l as [|x l IH]; cbn [check_clients In]; intros H n; [intros []|]. destruct (map_find x types) eqn:F; [|discriminate].
  intros [<-|I]; [congruence|auto].
Qed.
Lemma check_clients_ok types l : (forall n, In n l -> map_find n types <> None) -> check_clients types l = TOk tt.
Proof.
  induction l as [|x l IH]; cbn [check_clients]; intro H; [reflexivity|]. pose proof (H x (or_introl eq_refl)) as Q.
  destruct (map_find x types); [|contradiction]. apply IH. intros n I. apply H. right. exact I.
Qed.
Lemma definitions_map_spec st c me types ix pm l : forall l0 m dm, definitions_map st c me types ix pm (length l0) l m = TOk dm ->
  NoDup (map rp_name (l0 ++ l)) ->
  (forall r d, map_find (rp_name r) m = Some d -> In r l0 -> exists i, nth_error l0 i = Some r /\ rpc_definition_of st c me types ix pm i r = TOk d) ->
  (forall r, In r l0 -> map_find (rp_name r) m <> None) ->
  forall r, In r (l0 ++ l) -> exists d i, map_find (rp_name r) dm = Some d /\ nth_error (l0 ++ l) i = Some r /\ rpc_definition_of st c me types ix pm i r = TOk d.
Proof.
  induction l as [|r0 l IH]; intros l0 m dm H D I J r R; cbn [definitions_map] in H.
  - injection H as <-. rewrite app_nil_r in *. destruct (map_find (rp_name r) m) as [d|] eqn:F; [|exfalso; exact (J r R F)].
    destruct (I r d F R) as (i & Q). exists d, i. tauto.
  - apply tbind_ok in H as (d0 & E0 & H).
    replace (l0 ++ r0 :: l) with ((l0 ++ [r0]) ++ l) in * by (rewrite <- app_assoc; reflexivity).
    replace (S (length l0)) with (length (l0 ++ [r0])) in H by (rewrite app_length; cbn [length]; lia).
    assert (Dif : forall x, In x l0 -> rp_name x <> rp_name r0).
    { intros x X Q. rewrite <- app_assoc, map_app in D. cbn [app map] in D. apply NoDup_remove_2 in D. apply D. apply in_or_app. left. rewrite <- Q. apply in_map. exact X. }
    eapply IH; [exact H|exact D| | |exact R].
    + intros x d F X. apply in_app_or in X as [X|[<-|[]]].
      * rewrite map_find_set_other in F by (apply Dif; exact X). destruct (I x d F X) as (i & Q1 & Q2). exists i. split; [|exact Q2].
        rewrite nth_error_app1; [exact Q1|apply nth_error_Some; congruence].
      * rewrite map_find_set_same in F. injection F as <-. exists (length l0). split; [|exact E0]. rewrite nth_error_app2, Nat.sub_diag by lia. reflexivity.
    + intros x X. apply in_app_or in X as [X|[<-|[]]].
      * rewrite map_find_set_other by (apply Dif; exact X). apply J. exact X.
      * rewrite map_find_set_same. discriminate.
Qed.
