(** Proofs about the text of a summary: the order of the lines. *)
From Coq Require Import Ascii String List NArith ZArith Bool Lia Permutation Sorted.
From Verif Require Import Base_Model Base_Proofs Text_Model.
Import ListNotations.

(** Alphabetical order: a proper prefix comes first, otherwise the first
    character that differs decides. *)
Definition before (a b : str) : Prop :=
  (exists c r, b = a ++ c :: r) \/ exists p c d r s, a = p ++ c :: r /\ b = p ++ d :: s /\ (N_of_ascii c < N_of_ascii d)%N.
Definition pair_before (a b : str * str) : Prop := before (fst a) (fst b) \/ fst a = fst b /\ before (snd a) (snd b).

Lemma str_ltb_before a : forall b, str_ltb a b = true <-> before a b.
Proof.
  induction a as [|x a IH]; intros [|y b]; cbn [str_ltb].
  - split; [discriminate|]. intros [(c & r & E)|(p & c & d & r & s & E & _)]; [discriminate|destruct p; discriminate].
  - split; [|reflexivity]. intros _. left. exists y, b. reflexivity.
  - split; [discriminate|]. intros [(c & r & E)|(p & c & d & r & s & _ & E & _)]; [discriminate|destruct p; discriminate].
  - destruct (N.ltb_spec (N_of_ascii x) (N_of_ascii y)) as [L|L].
    + split; [|reflexivity]. intros _. right. exists [], x, y, a, b. auto.
    + destruct (N.ltb_spec (N_of_ascii y) (N_of_ascii x)) as [L2|L2].
      * split; [discriminate|]. intros [(c & r & E)|(p & c & d & r & s & E1 & E2 & N)]; [injection E as -> _; lia|].
        destruct p as [|z p]; cbn [app] in E1, E2; injection E1 as -> ->; injection E2 as -> ->; lia.
      * assert (EQ : x = y) by (rewrite <- (ascii_N_embedding x), <- (ascii_N_embedding y); f_equal; lia). subst y. rewrite IH. split.
        -- intros [(c & r & ->)|(p & c & d & r & s & -> & -> & N)]; [left; exists c, r; reflexivity|right; exists (x :: p), c, d, r, s; auto].
        -- intros [(c & r & E)|(p & c & d & r & s & E1 & E2 & N)].
           ++ cbn [app] in E. injection E as ->. left. eauto.
           ++ destruct p as [|z p]; cbn [app] in E1, E2; injection E1 as -> ->; injection E2 as E2.
              ** subst d. lia.
              ** right. subst b. eauto 10.
Qed.
Lemma str_ltb_irrefl a : str_ltb a a = false.
Proof. induction a as [|x a IH]; [reflexivity|]. cbn [str_ltb]. rewrite N.ltb_irrefl. exact IH. Qed.
Lemma str_ltb_trans a : forall b c, str_ltb a b = true -> str_ltb b c = true -> str_ltb a c = true.
Proof.
  induction a as [|x a IH]; intros [|y b] [|z c]; cbn [str_ltb]; try discriminate; try reflexivity.
  destruct (N.ltb_spec (N_of_ascii x) (N_of_ascii y)); destruct (N.ltb_spec (N_of_ascii y) (N_of_ascii x)); try discriminate; try lia;
  destruct (N.ltb_spec (N_of_ascii y) (N_of_ascii z)); destruct (N.ltb_spec (N_of_ascii z) (N_of_ascii y)); try discriminate; try lia;
  destruct (N.ltb_spec (N_of_ascii x) (N_of_ascii z)); destruct (N.ltb_spec (N_of_ascii z) (N_of_ascii x)); try reflexivity; try lia. apply IH.
Qed.
Lemma str_ltb_total a : forall b, a <> b -> str_ltb a b = false -> str_ltb b a = true.
Proof.
  induction a as [|x a IH]; intros [|y b] N; cbn [str_ltb]; try congruence; try reflexivity.
  destruct (N.ltb_spec (N_of_ascii x) (N_of_ascii y)); [discriminate|]. destruct (N.ltb_spec (N_of_ascii y) (N_of_ascii x)); [reflexivity|].
  assert (EQ : x = y) by (rewrite <- (ascii_N_embedding x), <- (ascii_N_embedding y); f_equal; lia). subst y. apply IH. congruence.
Qed.
Lemma pair_ltb_before a b : pair_ltb a b = true <-> pair_before a b.
Proof.
  destruct a as [a1 a2], b as [b1 b2]. unfold pair_ltb, pair_before. cbn [fst snd]. rewrite <- !str_ltb_before. destruct (str_ltb a1 b1) eqn:E1; [split; auto|].
  destruct (str_ltb b1 a1) eqn:E2.
  - split; [discriminate|]. intros [X|[-> _]]; [congruence|]. rewrite str_ltb_irrefl in E2. discriminate.
  - assert (a1 = b1) as ->. { destruct (str_eqb_spec a1 b1) as [|N]; [assumption|]. rewrite (str_ltb_total _ _ N E1) in E2. discriminate. }
    split; [auto|]. intros [X|[_ X]]; [congruence|assumption].
Qed.
Lemma pair_ltb_trans a b c : pair_ltb a b = true -> pair_ltb b c = true -> pair_ltb a c = true.
Proof.
  rewrite !pair_ltb_before. unfold pair_before. rewrite <- !str_ltb_before. intros [A|[A A']] [B|[B B']].
  - left. exact (str_ltb_trans _ _ _ A B).
  - left. rewrite <- B. exact A.
  - left. rewrite A. exact B.
  - right. split; [congruence|]. exact (str_ltb_trans _ _ _ A' B').
Qed.
Lemma pair_ltb_total a b : a <> b -> pair_ltb a b = false -> pair_ltb b a = true.
Proof.
  destruct a as [a1 a2], b as [b1 b2]. unfold pair_ltb. cbn [fst snd]. intros N. destruct (str_ltb a1 b1) eqn:E1; [discriminate|]. destruct (str_ltb b1 a1) eqn:E2; [reflexivity|].
  assert (a1 = b1) as ->. { destruct (str_eqb_spec a1 b1) as [|M]; [assumption|]. rewrite (str_ltb_total _ _ M E1) in E2. discriminate. }
  apply str_ltb_total. congruence.
Qed.

Section Ordered.
Context {K V : Type}.
Variable lt : K -> K -> bool.
Hypothesis lt_trans : forall a b c, lt a b = true -> lt b c = true -> lt a c = true.
Hypothesis lt_total : forall a b, a <> b -> lt a b = false -> lt b a = true.
Lemma place_perm k v (m : list (K * V)) : Permutation (place lt k v m) ((k, v) :: m).
Proof.
  induction m as [|[k' v'] m IH]; cbn [place]; [reflexivity|]. destruct (lt k' k); [|reflexivity]. rewrite IH. apply perm_swap.
Qed.
Lemma in_order_perm (m : list (K * V)) : Permutation (in_order lt m) m.
Proof. induction m as [|[k v] m IH]; cbn [in_order]; [reflexivity|]. rewrite place_perm, IH. reflexivity. Qed.
Lemma place_sorted k v (m : list (K * V)) : ~ In k (map fst m) -> StronglySorted (fun a b => lt a b = true) (map fst m) ->
  StronglySorted (fun a b => lt a b = true) (map fst (place lt k v m)).
Proof.
  induction m as [|[k' v'] m IH]; intros N S; cbn [place]; [repeat constructor|]. cbn [map fst] in N, S. inversion S as [|? ? S1 S2]; subst.
  destruct (lt k' k) eqn:L.
  - cbn [map fst]. constructor; [apply IH; [firstorder|assumption]|]. rewrite Forall_forall in S2 |- *. intros x I.
    apply (Permutation_in _ (Permutation_map fst (place_perm k v m))) in I. destruct I as [<-|I]; auto.
  - assert (X : lt k k' = true) by (apply lt_total; [intros ->; apply N; left; reflexivity|assumption]).
    cbn [map fst]. constructor; [exact S|]. constructor; [assumption|]. rewrite Forall_forall in S2 |- *. intros x I. exact (lt_trans _ _ _ X (S2 x I)).
Qed.
Lemma in_order_sorted (m : list (K * V)) : NoDup (map fst m) -> StronglySorted (fun a b => lt a b = true) (map fst (in_order lt m)).
Proof.
  induction m as [|[k v] m IH]; intros N; cbn [in_order]; [constructor|]. inversion N; subst. apply place_sorted; [|auto].
  intros I. apply (Permutation_in _ (Permutation_map fst (in_order_perm m))) in I. contradiction.
Qed.
End Ordered.
Lemma sorted_impl {A} (P Q : A -> A -> Prop) l : (forall a b, P a b -> Q a b) -> StronglySorted P l -> StronglySorted Q l.
Proof. intros H. induction l as [|x l IH]; intros S; [constructor|]. inversion S as [|? ? S1 S2]; subst. constructor; [auto|]. rewrite Forall_forall in *. auto. Qed.
