(** Lemmas about strings, decimal numbers and association maps. *)
From Coq Require Import Ascii String List NArith ZArith Bool Lia ZifyBool ZifyNat ZifyN.
From Verif Require Import Base_Model.
Import ListNotations.
Open Scope Z_scope.
Ltac Zify.zify_post_hook ::= Z.div_mod_to_equations.

Lemma str_eqb_spec a b : reflect (a = b) (str_eqb a b).
Proof.
  revert b. induction a as [|x a IH]; intros [|y b]; cbn [str_eqb]; try (constructor; congruence).
  destruct (Ascii.eqb_spec x y) as [->|N]; cbn [andb]; [|constructor; congruence].
  destruct (IH b) as [->|N]; constructor; congruence.
Qed.
Lemma str_eqb_refl a : str_eqb a a = true.
Proof. destruct (str_eqb_spec a a); congruence. Qed.

Lemma starts_with_spec t p : starts_with t p = true <-> exists r, t = p ++ r.
Proof.
  revert t. induction p as [|x p IH]; intros t.
  - split; [intros _; exists t; reflexivity|intros _; destruct t; reflexivity].
  - destruct t as [|y t]; cbn [starts_with].
    + split; [discriminate|intros [r E]; discriminate].
    + destruct (Ascii.eqb_spec x y) as [->|N]; cbn [andb].
      * rewrite IH. split; intros [r E]; exists r; cbn in *; congruence.
      * split; [discriminate|intros [r E]; cbn in E; congruence].
Qed.

(** ** Decimal *)
Lemma N_of_digit d : (d < 10)%N -> N_of_ascii (digit_char d) = (48 + d)%N.
Proof. intros H. unfold digit_char. apply N_ascii_embedding. lia. Qed.
Lemma is_digit_char d : (d < 10)%N -> is_digit (digit_char d) = true.
Proof. intros H. unfold is_digit. rewrite N_of_digit by exact H. lia. Qed.
Lemma digit_val_char d : (d < 10)%N -> digit_val (digit_char d) = Z.of_N d.
Proof. intros H. unfold digit_val. rewrite N_of_digit by exact H. lia. Qed.

(** The value of a digit string. *)
Definition dec_value (s : str) : Z := fold_left (fun a c => 10 * a + digit_val c) s 0.
Definition all_digits (s : str) : Prop := Forall (fun c => is_digit c = true) s.

Lemma N_size_nat_div10 n : (9 < n)%N -> (N.size_nat (n / 10) < N.size_nat n)%nat.
Proof.
  intros H. 
  assert (A : forall m, N.of_nat (N.size_nat m) = N.size m) by (destruct m as [|p]; [reflexivity|cbn; induction p; cbn; lia]).
  assert (N.size (n/10) < N.size n)%N; [|rewrite <- !A in *; lia].
  assert (E : N.size (n / 10) = if (n/10 =? 0)%N then 0%N else N.succ (N.log2 (n / 10))).
  { destruct (N.eqb_spec (n/10) 0) as [->|]; [reflexivity|]. apply N.size_log2. assumption. }
  rewrite E. rewrite (N.size_log2 n) by lia. destruct (N.eqb_spec (n/10) 0); [lia|].
  assert (N.log2 (n/10) < N.log2 n)%N; [|lia].
  apply N.log2_lt_pow2; [lia|].
  assert (n < 2 ^ N.succ (N.log2 n))%N by (apply N.log2_spec; lia).
  rewrite N.pow_succ_r' in *. lia.
Qed.

Lemma dec_loop_spec fuel : forall n acc, (N.size_nat n < fuel)%nat ->
  exists d, dec_loop fuel n acc = d ++ acc /\ all_digits d /\ d <> [] /\ dec_value d = Z.of_N n.
Proof.
  induction fuel as [|f IH]; intros n acc Hf; [lia|].
  cbn [dec_loop]. destruct (N.eqb_spec (n / 10) 0) as [E|E].
  - exists [digit_char (n mod 10)]. split; [reflexivity|]. split; [repeat constructor; apply is_digit_char; lia|].
    split; [discriminate|]. unfold dec_value. cbn [fold_left]. rewrite digit_val_char by lia. lia.
  - destruct (IH (n / 10)%N (digit_char (n mod 10) :: acc)) as (d & E1 & D & Dn & V).
    { pose proof (N_size_nat_div10 n). lia. }
    exists (d ++ [digit_char (n mod 10)]). rewrite E1. split; [rewrite <- app_assoc; reflexivity|].
    split; [apply Forall_app; split; [exact D|repeat constructor; apply is_digit_char; lia]|].
    split; [destruct d; discriminate|].
    unfold dec_value in *. rewrite fold_left_app, V. cbn [fold_left]. rewrite digit_val_char by lia. lia.
Qed.

Lemma dec_of_N_spec n : all_digits (dec_of_N n) /\ dec_of_N n <> [] /\ dec_value (dec_of_N n) = Z.of_N n.
Proof.
  unfold dec_of_N. destruct (dec_loop_spec (S (N.size_nat n)) n []) as (d & E & H); [lia|].
  rewrite E, app_nil_r. exact H.
Qed.

Lemma digits_prefix_spec s : forall acc rest, all_digits s ->
  match rest with c :: _ => is_digit c = false | [] => True end ->
  digits_prefix acc (s ++ rest) = (fold_left (fun a c => 10 * a + digit_val c) s acc, rest).
Proof.
  induction s as [|c s IH]; intros acc rest Hd Hr.
  - cbn [app fold_left]. destruct rest as [|c r]; [reflexivity|]. cbn [digits_prefix]. rewrite Hr. reflexivity.
  - apply Forall_cons_iff in Hd as [Hc Hd]. cbn [app digits_prefix fold_left]. rewrite Hc. apply IH; assumption.
Qed.

Lemma digit_not_space c : is_digit c = true -> is_space c = false.
Proof. unfold is_digit, is_space. lia. Qed.
Lemma digit_not_sign c : is_digit c = true -> Ascii.eqb c minus = false /\ Ascii.eqb c plus_ = false.
Proof.
  intros H. split.
  - destruct (Ascii.eqb_spec c minus) as [->|]; [discriminate H|reflexivity].
  - destruct (Ascii.eqb_spec c plus_) as [->|]; [discriminate H|reflexivity].
Qed.

Definition no_digit_first (rest : str) : Prop := match rest with c :: _ => is_digit c = false | [] => True end.

Lemma scan_d_dec z rest : no_digit_first rest -> scan_d (dec_of_Z z ++ rest) = ScanInt z rest.
Proof.
  intros Hr. unfold dec_of_Z. destruct (Z.ltb_spec z 0) as [Hz|Hz].
  - destruct (dec_of_N_spec (Z.abs_N z)) as (D & Dn & V).
    unfold scan_d. cbn [app skip_space]. change (is_space minus) with false. cbv iota.
    change (Ascii.eqb minus minus) with true. cbv iota.
    destruct (dec_of_N (Z.abs_N z)) as [|c d] eqn:E; [congruence|].
    apply Forall_cons_iff in D as [Hc D']. cbn [app]. rewrite Hc.
    change (c :: d ++ rest) with ((c :: d) ++ rest).
    rewrite digits_prefix_spec; [|constructor; assumption|exact Hr].
    unfold dec_value in V. rewrite V. f_equal. lia.
  - destruct (dec_of_N_spec (Z.to_N z)) as (D & Dn & V).
    destruct (dec_of_N (Z.to_N z)) as [|c d] eqn:E; [congruence|].
    pose proof D as D0. apply Forall_cons_iff in D as [Hc D'].
    unfold scan_d. cbn [app skip_space]. rewrite digit_not_space by exact Hc.
    destruct (digit_not_sign c Hc) as [-> ->]. rewrite Hc.
    change (c :: d ++ rest) with ((c :: d) ++ rest).
    rewrite digits_prefix_spec; [|exact D0|exact Hr].
    unfold dec_value in V. rewrite V. f_equal. lia.
Qed.

Lemma dec_of_Z_inj a b : dec_of_Z a = dec_of_Z b -> a = b.
Proof.
  intros E. pose proof (scan_d_dec a [] I) as Ha. pose proof (scan_d_dec b [] I) as Hb.
  rewrite E in Ha. congruence.
Qed.

Lemma simple_atoi_dec z : in_int64 z = true -> simple_atoi (dec_of_Z z) = Some z.
Proof.
  intros H. unfold simple_atoi. rewrite <- (app_nil_r (dec_of_Z z)), scan_d_dec by exact I.
  cbn [all_space forallb]. rewrite H. reflexivity.
Qed.

(** ** Association maps *)
Lemma map_find_set_same {V} k (v : V) m : map_find k (map_set k v m) = Some v.
Proof.
  induction m as [|[k' v'] m IH]; cbn [map_set map_find].
  - rewrite str_eqb_refl. reflexivity.
  - destruct (str_eqb_spec k k') as [->|N]; cbn [map_find].
    + rewrite str_eqb_refl. reflexivity.
    + destruct (str_eqb_spec k k'); [congruence|exact IH].
Qed.
Lemma map_find_set_other {V} k k2 (v : V) m : k <> k2 -> map_find k (map_set k2 v m) = map_find k m.
Proof.
  intros N. induction m as [|[k' v'] m IH]; cbn [map_set map_find].
  - destruct (str_eqb_spec k k2); congruence.
  - destruct (str_eqb_spec k2 k') as [->|N']; cbn [map_find].
    + destruct (str_eqb_spec k k'); congruence.
    + destruct (str_eqb_spec k k'); [reflexivity|exact IH].
Qed.
Lemma map_find_In {V} k (v : V) m : map_find k m = Some v -> In (k, v) m.
Proof.
  induction m as [|[k' v'] m IH]; cbn [map_find]; [discriminate|].
  destruct (str_eqb_spec k k') as [->|N]; intros E; [left; congruence|right; auto].
Qed.
Lemma map_find_None {V} k (m : list (str * V)) : map_find k m = None <-> ~ In k (map fst m).
Proof.
  induction m as [|[k' v'] m IH]; cbn [map_find map fst In]; [tauto|].
  destruct (str_eqb_spec k k') as [->|N].
  - split; [discriminate|intros H; exfalso; apply H; left; reflexivity].
  - rewrite IH. split; intros H; [intros [E|E]; congruence|tauto].
Qed.
Lemma map_set_keys {V} k (v : V) m :
  map fst (map_set k v m) = if map_find k m then map fst m else map fst m ++ [k].
Proof.
  induction m as [|[k' v'] m IH]; cbn [map_set map_find]; [reflexivity|].
  destruct (str_eqb_spec k k') as [->|N]; [reflexivity|].
  cbn [map fst app]. rewrite IH. destruct (map_find k m); reflexivity.
Qed.
Lemma NoDup_snoc {A} (l : list A) x : NoDup l -> ~ In x l -> NoDup (l ++ [x]).
Proof.
  intros H Hx. induction H as [|y l Hy H IH]; cbn; [repeat constructor; auto|].
  constructor.
  - rewrite in_app_iff. cbn in *. intros [E|[E|[]]]; [auto|subst; tauto].
  - apply IH. cbn in Hx. tauto.
Qed.
Lemma map_set_NoDup {V} k (v : V) m : NoDup (map fst m) -> NoDup (map fst (map_set k v m)).
Proof.
  intros H. rewrite map_set_keys. destruct (map_find k m) eqn:E; [exact H|].
  apply NoDup_snoc; [exact H|]. apply map_find_None. exact E.
Qed.
