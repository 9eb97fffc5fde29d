(** Sums over the records of an execution. *)
From Coq Require Import Ascii String List NArith ZArith QArith Bool Arith Lia Permutation.
From Verif Require Import Base_Model Base_Proofs Grid_Model Grid_Proofs Place_Model Util_Model Net_Model Fanout_Model Table_Model Table_Proofs Table_Proofs2 Table_Props Cli_Model.
From Verif Require Seq_Model Sync_Model Rpc_Model Rpc_Proofs.
From Verif Require Import Seq_Proofs Node_Model Node_Proofs Node_Props Cluster_Model Cluster_Proofs Cluster_Props.
From Verif Require Import Iter_Model Iter_Proofs AList_Model AList_Proofs.
From Verif Require Import Peer_Model Peer_Proofs Peer_Props Deliver_Model Deliver_Proofs Deliver_Props.
From Verif Require Import Log_Model Sum_Model Sum_Proofs Sum_Proofs2 Report_Model Report_Proofs Report_Proofs2 Report_Props.
From Verif Require Import Work_Model Work_Proofs Work_Proofs2.
Import ListNotations.
Open Scope Z_scope.

(** At most [b], and exactly [b] if [X]. *)
Definition at_most (X : Prop) (a b : Z) : Prop := a <= b /\ (X -> a = b).
Lemma am_refl X a : at_most X a a.
Proof. split; [lia|auto]. Qed.
Lemma am_eq X a b : a = b -> at_most X a b.
Proof. intros ->. apply am_refl. Qed.
Lemma am_trans X a b c : at_most X a b -> at_most X b c -> at_most X a c.
Proof. intros [A A'] [B B']. split; [lia|]. intro x. rewrite A', B' by exact x. reflexivity. Qed.
Lemma am_add X a b c d : at_most X a b -> at_most X c d -> at_most X (a + c) (b + d).
Proof. intros [A A'] [B B']. split; [lia|]. intro x. rewrite A', B' by exact x. reflexivity. Qed.
Lemma am_mul X a b c : 0 <= c -> at_most X a b -> at_most X (a * c) (b * c).
Proof. intros C [A A']. split; [apply Z.mul_le_mono_nonneg_r; assumption|]. intro x. rewrite A' by exact x. reflexivity. Qed.
Lemma am_sum {A} X (f g : A -> Z) l : (forall x, In x l -> at_most X (f x) (g x)) -> at_most X (zsum (map f l)) (zsum (map g l)).
Proof.
  induction l as [|x l IH]; intro H; cbn [map zsum]; [apply am_refl|]. apply am_add; [apply H; left; reflexivity|]. apply IH. intros y I. apply H. right. exact I.
Qed.
Lemma am_sum_nth {A B} X (f : A -> Z) (g : B -> Z) : forall l l', length l = length l' ->
  (forall i a b, nth_error l i = Some a -> nth_error l' i = Some b -> at_most X (f a) (g b)) -> at_most X (zsum (map f l)) (zsum (map g l')).
Proof.
  induction l as [|a l IH]; intros [|b l'] L H; cbn [length] in L; try discriminate; cbn [map zsum]; [apply am_refl|].
  apply am_add; [exact (H 0%nat a b eq_refl eq_refl)|]. apply IH; [congruence|]. intros i x y E E'. exact (H (S i) x y E E').
Qed.
(** [l] has at most [n] elements, each worth at most [b]. *)
Lemma am_const {A} X (f : A -> Z) l b n : 0 <= b -> (b <> 0 -> at_most X (len l) n) -> (forall x, In x l -> at_most X (f x) b) -> at_most X (zsum (map f l)) (n * b).
Proof.
  intros B N H. apply (am_trans X _ (len l * b)).
  - clear N. induction l as [|x l IH]; cbn [map zsum]; [apply am_refl|]. replace (len (x :: l) * b) with (b + len l * b) by (unfold len; cbn [length]; lia).
    apply am_add; [apply H; left; reflexivity|]. apply IH. intros y I. apply H. right. exact I.
  - destruct (Z.eq_dec b 0) as [->|Nz]; [rewrite !Z.mul_0_r; apply am_refl|]. apply am_mul; auto.
Qed.

(** ** Counting *)
Definition count {A} (p : A -> bool) (l : list A) : Z := len (filter p l).
Definition b2z (b : bool) : Z := if b then 1 else 0.
Lemma count_sum {A} (p : A -> bool) l : count p l = zsum (map (fun x => b2z (p x)) l).
Proof. unfold count. induction l as [|x l IH]; cbn [filter map zsum]; [reflexivity|]. rewrite <- IH. destruct (p x); unfold len; cbn [length b2z]; lia. Qed.
Lemma count_app {A} (p : A -> bool) a b : count p (a ++ b) = count p a + count p b.
Proof. unfold count. rewrite filter_app. apply len_app. Qed.
Lemma count_flat {A B} (p : B -> bool) (f : A -> list B) l : count p (flat_map f l) = zsum (map (fun x => count p (f x)) l).
Proof. induction l as [|x l IH]; cbn [flat_map map zsum]; [reflexivity|]. rewrite count_app, IH. reflexivity. Qed.
Lemma count_map {A B} (p : B -> bool) (f : A -> B) l : count p (map f l) = count (fun x => p (f x)) l.
Proof. rewrite !count_sum, map_map. reflexivity. Qed.
Lemma count_perm {A} (p : A -> bool) a b : Permutation a b -> count p a = count p b.
Proof. intro P. rewrite !count_sum. apply zsum_perm, P. Qed.
Lemma count_ext {A} (p q : A -> bool) l : (forall x, In x l -> p x = q x) -> count p l = count q l.
Proof. intro H. rewrite !count_sum. f_equal. apply map_ext_in. intros x I. rewrite (H x I). reflexivity. Qed.
Lemma count_false {A} (p : A -> bool) l : (forall x, In x l -> p x = false) -> count p l = 0.
Proof. intro H. unfold count. induction l as [|x l IH]; cbn [filter]; [reflexivity|]. rewrite (H x (or_introl eq_refl)). apply IH. intros y I. apply H. right. exact I. Qed.
Lemma count_nonneg {A} (p : A -> bool) l : 0 <= count p l.
Proof. unfold count, len. lia. Qed.
Lemma zsum_zero {A} (f : A -> Z) l : (forall x, In x l -> f x = 0) -> zsum (map f l) = 0.
Proof. induction l as [|x l IH]; intro H; cbn [map zsum]; [reflexivity|]. rewrite (H x (or_introl eq_refl)), IH; [reflexivity|]. intros y I. apply H. right. exact I. Qed.
Lemma zsum_add {A} (f g : A -> Z) l : zsum (map (fun x => f x + g x) l) = zsum (map f l) + zsum (map g l).
Proof. induction l as [|x l IH]; cbn [map zsum]; [reflexivity|]. lia. Qed.
Lemma zsum_scale {A} (f : A -> Z) b l : zsum (map (fun x => f x * b) l) = zsum (map f l) * b.
Proof. induction l as [|x l IH]; cbn [map zsum]; [reflexivity|]. lia. Qed.
(** Only one term is not zero. *)
Lemma zsum_one {A} (f : A -> Z) l x : NoDup l -> In x l -> (forall y, In y l -> y <> x -> f y = 0) -> zsum (map f l) = f x.
Proof.
  induction l as [|y l IH]; intros D I H; [destruct I|]. apply NoDup_cons_iff in D as (N & D). cbn [map zsum]. destruct I as [<-|I].
  - rewrite zsum_zero; [lia|]. intros z J. apply H; [right; exact J|]. congruence.
  - rewrite (H y (or_introl eq_refl)) by congruence. rewrite IH; [lia|exact D|exact I|]. intros z J M. apply H; [right; exact J|exact M].
Qed.
Lemma zsum_swap {A B} (f : A -> B -> Z) l l' : zsum (map (fun x => zsum (map (f x) l')) l) = zsum (map (fun y => zsum (map (fun x => f x y) l)) l').
Proof. induction l as [|x l IH]; cbn [map zsum]; [symmetry; apply zsum_zero; reflexivity|]. rewrite IH, <- zsum_add. reflexivity. Qed.
(** Sums by key. *)
Lemma zsum_keys {A} (key : A -> nat) (f : nat -> Z) n l : (forall x, In x l -> (n <= key x)%nat -> f (key x) = 0) ->
  zsum (map (fun x => f (key x)) l) = zsum (map (fun z => count (fun x => Nat.eqb (key x) z) l * f z) (seq 0 n)).
Proof.
  intro H. transitivity (zsum (map (fun z => zsum (map (fun x => b2z (Nat.eqb (key x) z) * f z) l)) (seq 0 n))).
  - rewrite (zsum_swap (fun z x => b2z (Nat.eqb (key x) z) * f z)). f_equal. apply map_ext_in. intros x I. destruct (le_lt_dec n (key x)) as [L|L].
    + rewrite (H x I L). symmetry. apply zsum_zero. intros z J. apply in_seq in J. destruct (Nat.eqb_spec (key x) z); [lia|reflexivity].
    + rewrite (zsum_one _ (seq 0 n) (key x)); [rewrite Nat.eqb_refl; cbn [b2z]; lia|apply seq_NoDup|apply in_seq; lia|]. intros y _ N. destruct (Nat.eqb_spec (key x) y); [congruence|reflexivity].
  - f_equal. apply map_ext. intro z. rewrite zsum_scale, count_sum. reflexivity.
Qed.
Definition visit (n : str) (j : nat) (x : list_run) : bool := str_eqb (lr_instance x) n && (lr_list x =? Z.of_nat j).
Lemma zsum_visits (F : str -> nat -> Z) ns k l : NoDup ns -> (forall x, In x l -> In (lr_instance x) ns /\ 0 <= lr_list x < Z.of_nat k) ->
  zsum (map (fun x => F (lr_instance x) (Z.to_nat (lr_list x))) l) = zsum (map (fun n => zsum (map (fun j => count (visit n j) l * F n j) (seq 0 k))) ns).
Proof.
  intros D H. transitivity (zsum (map (fun n => zsum (map (fun j => zsum (map (fun x => b2z (visit n j x) * F n j) l)) (seq 0 k))) ns)).
  - transitivity (zsum (map (fun x => zsum (map (fun n => zsum (map (fun j => b2z (visit n j x) * F n j) (seq 0 k))) ns)) l)).
    + f_equal. apply map_ext_in. intros x I. destruct (H x I) as (I1 & I2). rewrite (zsum_one _ ns (lr_instance x) D I1).
      * rewrite (zsum_one _ (seq 0 k) (Z.to_nat (lr_list x))); [|apply seq_NoDup|apply in_seq; lia|].
        -- unfold visit. rewrite Z2Nat.id by lia. rewrite Z.eqb_refl. destruct (str_eqb_spec (lr_instance x) (lr_instance x)); [cbn [andb b2z]; lia|congruence].
        -- intros y _ N. unfold visit. destruct (Z.eqb_spec (lr_list x) (Z.of_nat y)); [lia|]. rewrite andb_false_r. reflexivity.
      * intros y _ N. apply zsum_zero. intros j _. unfold visit. destruct (str_eqb_spec (lr_instance x) y); [congruence|reflexivity].
    + rewrite (zsum_swap (fun x n => zsum (map (fun j => b2z (visit n j x) * F n j) (seq 0 k)))). f_equal. apply map_ext. intro n.
      rewrite (zsum_swap (fun x j => b2z (visit n j x) * F n j)). reflexivity.
  - f_equal. apply map_ext. intro n. f_equal. apply map_ext. intro j. rewrite zsum_scale, count_sum. reflexivity.
Qed.

(** ** The last of a name *)
Lemma find_last_app {A} (name : A -> str) l1 l2 n : find_last name (l1 ++ l2) n =
  match find_last name l2 n with Some (i, y) => Some ((length l1 + i)%nat, y) | None => find_last name l1 n end.
Proof.
  induction l1 as [|x l1 IH]; cbn [app find_last length Nat.add]; [destruct (find_last name l2 n) as [[i y]|]; reflexivity|]. rewrite IH.
  destruct (find_last name l2 n) as [[i y]|]; reflexivity.
Qed.
Lemma find_last_none {A} (name : A -> str) l n : (forall x, In x l -> name x <> n) -> find_last name l n = None.
Proof.
  induction l as [|x l IH]; intro H; cbn [find_last]; [reflexivity|]. rewrite IH by (intros; apply H; right; assumption). destruct (str_eqb_spec (name x) n) as [E|]; [destruct (H x (or_introl eq_refl) E)|reflexivity].
Qed.
Lemma find_last_split {A} (name : A -> str) l1 x l2 n : name x = n -> ~ In n (map name l2) -> find_last name (l1 ++ x :: l2) n = Some (length l1, x).
Proof.
  intros E N. rewrite find_last_app. cbn [find_last]. rewrite (find_last_none name l2 n).
  - destruct (str_eqb_spec (name x) n); [rewrite Nat.add_0_r; reflexivity|congruence].
  - intros y I Q. apply N. rewrite <- Q. apply in_map, I.
Qed.
Lemma find_last_named {A} (name : A -> str) l n z x : last_named name l n z x -> find_last name l n = Some (Z.to_nat z, x).
Proof.
  intros ((P & E) & N & L). destruct (nth_error_split _ _ E) as (l1 & l2 & -> & Le). rewrite <- Le. apply find_last_split; [exact N|].
  intro I. apply in_map_iff in I as (y & Q & I). apply In_nth_error in I as (j & J). apply (L (length l1 + S j)%nat y ltac:(lia)); [|exact Q].
  rewrite nth_error_app2 by lia. replace (length l1 + S j - length l1)%nat with (S j) by lia. exact J.
Qed.
