(** Proofs about driver allocation and the composite drivers. *)
From Coq Require Import Ascii String List NArith ZArith Bool Arith Lia.
From Verif Require Import Base_Model Base_Proofs Util_Model Driver_Model.
Import ListNotations.
Open Scope nat_scope.

(** ** Allocation *)
Lemma allocate_terminates ev : forall fuel o depth path,
  depth <= max_depth -> max_depth - depth < fuel -> allocate fuel ev o depth path <> DrvDiverges.
Proof.
  induction fuel as [|f IH]; intros o depth path D F; [lia|]. cbn [allocate].
  destruct (Nat.eqb_spec depth max_depth); [discriminate|]. cbv zeta.
  assert (R : forall o' path', allocate f ev o' (depth + 1) path' <> DrvDiverges) by (intros; apply IH; lia).
  destruct (_ || _); [unfold leaf; destruct (ev_init _ _ _); discriminate|].
  destruct (str_eqb _ _).
  { destruct (allocate f ev _ _ (path ++ [1])) eqn:E1; try discriminate; [|exfalso; exact (R _ _ E1)].
    destruct (allocate f ev _ _ (path ++ [2])) eqn:E2; try discriminate. exfalso; exact (R _ _ E2). }
  destruct (str_eqb _ _).
  { destruct (allocate f ev _ _ (path ++ [1])) eqn:E1; try discriminate. exfalso; exact (R _ _ E1). }
  destruct (_ && _); [unfold leaf; destruct (ev_init _ _ _); discriminate|].
  destruct (_ && _); [unfold leaf; destruct (ev_init _ _ _); discriminate|].
  destruct (ev_resolver ev) as [res|]; [|discriminate]. destruct (res _); [apply R|discriminate].
Qed.
(** More fuel changes nothing. *)
Lemma allocate_fuel ev : forall fuel g o depth path, fuel <= g ->
  allocate fuel ev o depth path <> DrvDiverges -> allocate g ev o depth path = allocate fuel ev o depth path.
Proof.
  induction fuel as [|f IH]; intros g o depth path L H; [elim H; reflexivity|].
  destruct g as [|g]; [lia|]. assert (L' : f <= g) by lia. cbn [allocate] in H |- *.
  destruct (Nat.eqb depth max_depth); [reflexivity|]. cbv zeta in *.
  destruct (_ || _); [reflexivity|].
  destruct (str_eqb _ _).
  { destruct (allocate f ev _ _ (path ++ [1])) eqn:E1; [| |elim H; reflexivity];
    (rewrite (IH g) by (congruence || exact L')); rewrite E1; [|reflexivity].
    destruct (allocate f ev _ _ (path ++ [2])) eqn:E2; [| |elim H; reflexivity];
    (rewrite (IH g) by (congruence || exact L')); rewrite E2; reflexivity. }
  destruct (str_eqb _ _).
  { destruct (allocate f ev _ _ (path ++ [1])) eqn:E1; [| |elim H; reflexivity];
    (rewrite (IH g) by (congruence || exact L')); rewrite E1; reflexivity. }
  destruct (_ && _); [reflexivity|]. destruct (_ && _); [reflexivity|].
  destruct (ev_resolver ev) as [res|]; [|reflexivity]. destruct (res _); [|reflexivity]. apply IH; assumption.
Qed.

Fixpoint height (d : driver) : nat :=
  match d with DDouble a b => S (max (height a) (height b)) | DCounter a => S (height a) | _ => 1 end.
Fixpoint leaf_count (d : driver) : nat :=
  match d with DDouble a b => leaf_count a + leaf_count b | DCounter a => leaf_count a | _ => 1 end.
Lemma leaf_count_pow d : 2 * leaf_count d <= 2 ^ height d.
Proof.
  induction d; cbn [leaf_count height]; [cbn; lia|cbn; lia|cbn; lia| |].
  - rewrite Nat.pow_succ_r'.
    assert (2 ^ height d1 <= 2 ^ max (height d1) (height d2)) by (apply Nat.pow_le_mono_r; lia).
    assert (2 ^ height d2 <= 2 ^ max (height d1) (height d2)) by (apply Nat.pow_le_mono_r; lia). lia.
  - rewrite Nat.pow_succ_r'. lia.
Qed.
(** The directions to the leaves agree: both barrels have the same shape. *)
Fixpoint shape_eqb (a b : driver) : bool :=
  match a, b with
  | DGrpc _, DGrpc _ | DHoma _, DHoma _ | DMercury _, DMercury _ => true
  | DDouble a1 a2, DDouble b1 b2 => shape_eqb a1 b1 && shape_eqb a2 b2
  | DCounter a1, DCounter b1 => shape_eqb a1 b1
  | _, _ => false
  end.
Lemma allocate_height ev : forall fuel o depth path d,
  allocate fuel ev o depth path = DrvOk d -> depth <= max_depth -> depth + height d <= max_depth.
Proof.
  induction fuel as [|f IH]; intros o depth path d H L; [discriminate|]. cbn [allocate] in H.
  destruct (Nat.eqb_spec depth max_depth); [discriminate|]. cbv zeta in H.
  assert (Lf : forall mk e (o' : driver_opts), leaf mk e o' = DrvOk d -> height (mk o') = 1 -> depth + height d <= max_depth).
  { intros mk e o' E K. unfold leaf in E. destruct e; [discriminate|]. injection E as <-. lia. }
  destruct (_ || _); [eapply Lf; [exact H|reflexivity]|].
  destruct (str_eqb _ _).
  { destruct (allocate f ev _ _ (path ++ [1])) as [d1| |] eqn:E1; try discriminate.
    destruct (allocate f ev _ _ (path ++ [2])) as [d2| |] eqn:E2; try discriminate. injection H as <-.
    apply IH in E1; [|lia]. apply IH in E2; [|lia]. cbn [height]. lia. }
  destruct (str_eqb _ _).
  { destruct (allocate f ev _ _ (path ++ [1])) as [d1| |] eqn:E1; try discriminate. injection H as <-.
    apply IH in E1; [|lia]. cbn [height]. lia. }
  destruct (_ && _); [eapply Lf; [exact H|reflexivity]|]. destruct (_ && _); [eapply Lf; [exact H|reflexivity]|].
  destruct (ev_resolver ev) as [res|]; [|discriminate]. destruct (res _); [|discriminate].
  apply IH in H; lia.
Qed.
Lemma allocate_shape ev : forall fuel o depth path path' d d',
  allocate fuel ev o depth path = DrvOk d -> allocate fuel ev o depth path' = DrvOk d' -> shape_eqb d d' = true.
Proof.
  induction fuel as [|f IH]; intros o depth path path' d d' H H'; [discriminate|]. cbn [allocate] in H, H'.
  destruct (Nat.eqb depth max_depth); [discriminate|]. cbv zeta in *.
  assert (Lf : forall mk e e', leaf mk e o = DrvOk d -> leaf mk e' o = DrvOk d' -> d = d').
  { intros mk e e' A B. unfold leaf in *. destruct e; [discriminate|]. destruct e'; [discriminate|]. congruence. }
  destruct (_ || _).
  { pose proof (Lf _ _ _ H H') as <-. unfold leaf in H. destruct (ev_init ev path o); [discriminate|]. injection H as <-. reflexivity. }
  destruct (str_eqb _ _).
  { destruct (allocate f ev _ _ (path ++ [1])) as [d1| |] eqn:E1; try discriminate.
    destruct (allocate f ev _ _ (path ++ [2])) as [d2| |] eqn:E2; try discriminate. injection H as <-.
    destruct (allocate f ev _ _ (path' ++ [1])) as [d3| |] eqn:E3; try discriminate.
    destruct (allocate f ev _ _ (path' ++ [2])) as [d4| |] eqn:E4; try discriminate. injection H' as <-.
    cbn [shape_eqb]. rewrite (IH _ _ _ _ _ _ E1 E3), (IH _ _ _ _ _ _ E2 E4). reflexivity. }
  destruct (str_eqb _ _).
  { destruct (allocate f ev _ _ (path ++ [1])) as [d1| |] eqn:E1; try discriminate. injection H as <-.
    destruct (allocate f ev _ _ (path' ++ [1])) as [d3| |] eqn:E3; try discriminate. injection H' as <-.
    cbn [shape_eqb]. exact (IH _ _ _ _ _ _ E1 E3). }
  destruct (_ && _).
  { pose proof (Lf _ _ _ H H') as <-. unfold leaf in H. destruct (ev_init ev path o); [discriminate|]. injection H as <-. reflexivity. }
  destruct (_ && _).
  { pose proof (Lf _ _ _ H H') as <-. unfold leaf in H. destruct (ev_init ev path o); [discriminate|]. injection H as <-. reflexivity. }
  destruct (ev_resolver ev) as [res|]; [|discriminate]. destruct (res _); [|discriminate].
  exact (IH _ _ _ _ _ _ H H').
Qed.
(** Every leaf lies under the same number [h] of double barrels. *)
Fixpoint even_driver (h : nat) (d : driver) : Prop :=
  match d with
  | DDouble a b => match h with O => False | S h' => even_driver h' a /\ even_driver h' b end
  | DCounter a => even_driver h a
  | _ => h = 0
  end.
Lemma even_shape : forall d d' h, shape_eqb d d' = true -> even_driver h d -> even_driver h d'.
Proof.
  induction d; intros [] h S E; cbn [shape_eqb] in S; try discriminate; cbn [even_driver] in *; try exact E.
  - destruct h; [exact E|]. apply andb_prop in S. destruct S, E. split; eauto.
  - eauto.
Qed.
Lemma allocate_even ev : forall fuel o depth path d,
  allocate fuel ev o depth path = DrvOk d -> exists h, even_driver h d.
Proof.
  induction fuel as [|f IH]; intros o depth path d H; [discriminate|]. cbn [allocate] in H.
  destruct (Nat.eqb depth max_depth); [discriminate|]. cbv zeta in H.
  assert (Lf : forall mk e (o' : driver_opts), leaf mk e o' = DrvOk d -> even_driver 0 (mk o') -> exists h, even_driver h d).
  { intros mk e o' E K. unfold leaf in E. destruct e; [discriminate|]. injection E as <-. exists 0. exact K. }
  destruct (_ || _); [eapply Lf; [exact H|reflexivity]|].
  destruct (str_eqb _ _).
  { destruct (allocate f ev _ _ (path ++ [1])) as [d1| |] eqn:E1; try discriminate.
    destruct (allocate f ev _ _ (path ++ [2])) as [d2| |] eqn:E2; try discriminate. injection H as <-.
    destruct (IH _ _ _ _ E1) as (h & Eh). exists (S h). cbn [even_driver]. split; [exact Eh|].
    eapply even_shape; [|exact Eh]. eapply allocate_shape; eassumption. }
  destruct (str_eqb _ _).
  { destruct (allocate f ev _ _ (path ++ [1])) as [d1| |] eqn:E1; try discriminate. injection H as <-.
    destruct (IH _ _ _ _ E1) as (h & Eh). exists h. exact Eh. }
  destruct (_ && _); [eapply Lf; [exact H|reflexivity]|]. destruct (_ && _); [eapply Lf; [exact H|reflexivity]|].
  destruct (ev_resolver ev) as [res|]; [|discriminate]. destruct (res _); [|discriminate].
  exact (IH _ _ _ _ H).
Qed.

(** Aliases. *)
Definition builtin (ev : alloc_env) (p : str) : bool :=
  str_eqb p (s_ "grpc") || str_eqb p (s_ "grpc_async_callback") || str_eqb p (s_ "double_barrel")
  || str_eqb p (s_ "composable_rpc_counter") || ev_homa ev && str_eqb p (s_ "homa") || ev_mercury ev && str_eqb p (s_ "mercury").
Lemma allocate_alias ev f res o depth path : depth <> max_depth -> builtin ev (protocol_name o) = false ->
  ev_resolver ev = Some res ->
  allocate (S f) ev o depth path =
  match res (protocol_name o) with
  | None => DrvError (EUnresolved (protocol_name o))
  | Some o' => allocate f ev o' (depth + 1) path
  end.
Proof.
  intros D B R. cbn [allocate]. destruct (Nat.eqb_spec depth max_depth); [congruence|]. cbv zeta.
  unfold builtin in B. repeat (apply orb_false_elim in B; destruct B as [B ?K]).
  rewrite B, K3, K2, K1, K0, K, R. reflexivity.
Qed.

Lemma allocate_grpc ev f o depth path : depth <> max_depth -> protocol_name o = s_ "grpc" ->
  allocate (S f) ev o depth path = leaf DGrpc (ev_init ev path o) o.
Proof.
  intros D P. cbn [allocate]. destruct (Nat.eqb_spec depth max_depth); [congruence|]. cbv zeta. rewrite P, str_eqb_refl. reflexivity.
Qed.
Lemma allocate_double ev f o depth path : depth <> max_depth -> protocol_name o = s_ "double_barrel" ->
  allocate (S f) ev o depth path =
  match allocate f ev (next_opts (s_ "next_protocol_driver") o) (depth + 1) (path ++ [1]) with
  | DrvOk d1 => match allocate f ev (next_opts (s_ "next_protocol_driver") o) (depth + 1) (path ++ [2]) with
                | DrvOk d2 => DrvOk (DDouble d1 d2) | r => r end
  | r => r
  end.
Proof.
  intros D P. cbn [allocate]. destruct (Nat.eqb_spec depth max_depth); [congruence|]. cbv zeta. rewrite P. reflexivity.
Qed.

Lemma last_with_spec k l :
  match last_with k l with
  | Some (a, x, b) => l = a ++ x :: b /\ opt_str (st_name x) = k /\ Forall (fun s => opt_str (st_name s) <> k) b
  | None => Forall (fun s => opt_str (st_name s) <> k) l
  end.
Proof.
  induction l as [|s r IH]; cbn [last_with]; [constructor|].
  destruct (last_with k r) as [[[a x] b]|].
  - destruct IH as (-> & K & F). split; [reflexivity|]. auto.
  - destruct (str_eqb_spec (opt_str (st_name s)) k); [auto|constructor; assumption].
Qed.

(** ** The composite drivers at work *)
Fixpoint leaves (t : tree) : nat :=
  match t with TLeaf n => n | TDouble _ a b => leaves a + leaves b | TCounter _ _ a => leaves a end.
Fixpoint prefix (p q : list nat) : bool :=
  match p, q with
  | [], _ => true
  | x :: p', y :: q' => (x =? y) && prefix p' q'
  | _ :: _, [] => false
  end.
Definition is_down (p : list nat) (c : call_state) : bool := match c with CDown q => prefix p q | _ => false end.
Definition is_up (p : list nat) (c : call_state) : bool := match c with CUp q => prefix p q | _ => false end.
Definition count {A} (f : A -> bool) (l : list A) : nat := length (filter f l).
Lemma count_snoc {A} (f : A -> bool) l x : count f (l ++ [x]) = count f l + Nat.b2n (f x).
Proof. unfold count. rewrite filter_app, app_length. cbn [filter]. destruct (f x); reflexivity. Qed.
Lemma count_set {A} (f : A -> bool) l : forall i x y, nth_error l i = Some x ->
  count f (set_nth i y l) + Nat.b2n (f x) = count f l + Nat.b2n (f y).
Proof.
  unfold count. induction l as [|z l IH]; intros [|i] x y H; cbn [nth_error] in H; try discriminate; cbn [set_nth filter].
  - injection H as ->. destruct (f x), (f y); cbn [length Nat.b2n]; lia.
  - specialize (IH i x y H). destruct (f z); cbn [length]; lia.
Qed.
Lemma set_nth_length {A} l : forall i (y : A), length (set_nth i y l) = length l.
Proof. induction l; intros [|i] y; cbn [set_nth length]; auto. Qed.

Lemma prefix_app p q r : prefix p q = true -> prefix p (q ++ r) = true.
Proof.
  revert q. induction p as [|x p IH]; intros [|y q] H; cbn [prefix app] in *; try reflexivity; try discriminate.
  apply andb_prop in H. destruct H as [-> H]. cbn [andb]. apply IH, H.
Qed.
Lemma prefix_refl p : prefix p p = true.
Proof. induction p; cbn [prefix]; [reflexivity|]. rewrite Nat.eqb_refl. exact IHp. Qed.
Lemma prefix_same p a b : prefix (p ++ a) (p ++ b) = prefix a b.
Proof. induction p; cbn [app prefix]; [reflexivity|]. rewrite Nat.eqb_refl. exact IHp. Qed.
Lemma prefix_long p q : length q < length p -> prefix p q = false.
Proof.
  revert q. induction p as [|x p IH]; intros [|y q] H; cbn [length prefix] in *; try lia; try reflexivity.
  destruct (x =? y); [apply IH; lia|reflexivity].
Qed.
Lemma prefix_eq p q : length p = length q -> prefix p q = true -> p = q.
Proof.
  revert q. induction p as [|x p IH]; intros [|y q] H P; cbn [length prefix] in *; try lia; try discriminate; [reflexivity|].
  apply andb_prop in P. destruct P as [E P]. apply Nat.eqb_eq in E. f_equal; [exact E|]. apply IH; [lia|exact P].
Qed.
(** One more step down counts exactly at the new position. *)
Lemma prefix_snoc x P j : Nat.b2n (prefix x (P ++ [j])) = Nat.b2n (prefix x P) + Nat.b2n (if list_eq_dec Nat.eq_dec x (P ++ [j]) then true else false).
Proof.
  destruct (list_eq_dec Nat.eq_dec x (P ++ [j])) as [->|N].
  - rewrite prefix_refl, (prefix_long (P ++ [j]) P); [reflexivity|rewrite app_length; cbn; lia].
  - rewrite Nat.add_0_r. f_equal. destruct (prefix x P) eqn:E; [apply prefix_app, E|].
    destruct (prefix x (P ++ [j])) eqn:F; [|reflexivity]. exfalso.
    destruct (Nat.eq_dec (length x) (length (P ++ [j]))) as [L|L]; [exact (N (prefix_eq _ _ L F))|].
    assert (L2 : length x <= length P).
    { destruct (le_lt_dec (length x) (length P)); [assumption|]. rewrite app_length in *. cbn [length] in *.
      rewrite (prefix_long x (P ++ [j])) in F; [discriminate|rewrite app_length; cbn [length]; lia]. }
    clear -E F L2. revert P L2 E F. induction x as [|a x IH]; intros [|b P] L2 E F; cbn [prefix app length] in *; try discriminate; try lia.
    destruct (a =? b); cbn [andb] in *; [|discriminate]. apply (IH P); [lia|assumption|assumption].
Qed.

Definition balanced (c : Z) (a b : nat) : Prop := if Z.odd c then a = b else a = S b.
Lemma fetch_add_odd c : Z.odd (fetch_add c) = negb (Z.odd c).
Proof.
  unfold fetch_add, narrow.
  set (m := ((c + 1 + 2147483648) mod 4294967296)%Z).
  assert (E : (c + 1 + 2147483648 = 2 * (2147483648 * ((c + 1 + 2147483648) / 4294967296)) + m)%Z).
  { unfold m. rewrite (Z.div_mod (c + 1 + 2147483648) 4294967296) at 1 by lia. ring. }
  assert (O : Z.odd m = Z.odd (c + 1 + 2147483648)).
  { rewrite E, Z.odd_add, Z.odd_mul. change (Z.odd 2) with false. cbn [andb]. symmetry. apply xorb_false_l. }
  replace (m - 2147483648)%Z with (m + (-2147483648))%Z by lia.
  rewrite Z.odd_add, O. replace (c + 1 + 2147483648)%Z with (c + 2147483649)%Z by lia.
  rewrite Z.odd_add. destruct (Z.odd c); reflexivity.
Qed.

(** The bookkeeping of each node, [D] and [U] counting the calls that are on
    their way down or up below a position. *)
Fixpoint inv (D U : list nat -> nat) (p : list nat) (t : tree) : Prop :=
  match t with
  | TLeaf _ => True
  | TDouble c a b =>
      balanced c (leaves a + D (p ++ [1])) (leaves b + D (p ++ [2])) /\ inv D U (p ++ [1]) a /\ inv D U (p ++ [2]) b
  | TCounter n _ a => (n + Z.of_nat (U (p ++ [1%nat])) = Z.of_nat (leaves a))%Z /\ inv D U (p ++ [1]) a
  end.
Lemma inv_ext D U D' U' t : forall p,
  (forall x, x <> [] -> D' (p ++ x) = D (p ++ x)) -> (forall x, x <> [] -> U' (p ++ x) = U (p ++ x)) ->
  inv D U p t -> inv D' U' p t.
Proof.
  induction t as [n|c a IHa b IHb|n m a IHa]; intros p HD HU H; cbn [inv] in *; [exact H| |].
  - destruct H as (H & Ha & Hb). rewrite !HD by discriminate. split; [exact H|].
    split; [apply IHa|apply IHb]; try assumption; intros x N; rewrite <- !app_assoc; (apply HD || apply HU); discriminate.
  - destruct H as (H & Ha). rewrite HU by discriminate. split; [exact H|].
    apply IHa; try assumption; intros x N; rewrite <- !app_assoc; (apply HD || apply HU); discriminate.
Qed.
Definition hit (x y : list nat) : nat := if list_eq_dec Nat.eq_dec x y then 1 else 0.
Lemma hit_same p a b : hit (p ++ a) (p ++ b) = hit a b.
Proof.
  unfold hit. destruct (list_eq_dec Nat.eq_dec (p ++ a) (p ++ b)) as [E|N], (list_eq_dec Nat.eq_dec a b) as [E'|N']; try reflexivity.
  - apply app_inv_head in E. congruence.
  - congruence.
Qed.
Lemma hit_no a b : a <> b -> hit a b = 0.
Proof. unfold hit. destruct (list_eq_dec Nat.eq_dec a b); congruence. Qed.
Lemma hit_yes a : hit a a = 1.
Proof. unfold hit. destruct (list_eq_dec Nat.eq_dec a a); congruence. Qed.

(** Going one level down. *)
Lemma go_down D D' U : forall q t p t' e, at_path enter q t = LGo t' e ->
  (forall x, D' x = D x + hit x (p ++ q ++ e)) -> inv D U p t ->
  inv D' U p t' /\ leaves t' = leaves t /\ exists j, e = [j].
Proof.
  induction q as [|i r IH]; intros t p t' e E HD H; cbn [at_path] in E.
  - destruct t as [n|c a b|n m a]; cbn [enter] in E; [discriminate| |]; injection E as <- <-; cbn [inv leaves] in *.
    + destruct H as (B & Ha & Hb). split; [|split; [reflexivity|eexists; reflexivity]].
      assert (K : forall j x, x <> [] -> D' ((p ++ [j]) ++ x) = D ((p ++ [j]) ++ x)).
      { intros j x N. rewrite HD, <- app_assoc, hit_same, hit_no; [lia|]. cbn [app]. destruct x; [congruence|].
        destruct (Z.odd c); discriminate. }
      split; [|split; [eapply inv_ext; [apply K|reflexivity|exact Ha]|eapply inv_ext; [apply K|reflexivity|exact Hb]]].
      rewrite !HD, !hit_same. unfold balanced in *. rewrite fetch_add_odd. cbn [app]. destruct (Z.odd c); cbn [negb].
      * rewrite hit_yes, hit_no by discriminate. lia.
      * rewrite hit_yes, hit_no by discriminate. lia.
    + destruct H as (B & Ha). split; [|split; [reflexivity|eexists; reflexivity]]. split; [exact B|].
      eapply inv_ext; [|reflexivity|exact Ha]. intros x N. rewrite HD, <- app_assoc, hit_same, hit_no; [lia|].
      cbn [app]. destruct x; [congruence|]. discriminate.
  - destruct t as [n|c a b|n m a]; [discriminate| |].
    + destruct (Nat.eqb_spec i 1) as [->|].
      { destruct (at_path enter r a) as [a' e'|a'|] eqn:A; try discriminate. injection E as <- ->.
        cbn [inv] in H. destruct H as (B & Ha & Hb).
        destruct (IH a (p ++ [1]) a' e A) as (I & L & j & ->); [intro x; rewrite HD, <- app_assoc; reflexivity|exact Ha|].
        cbn [inv leaves]. rewrite L. split; [|split; [reflexivity|eauto]]. split; [|split; [exact I|]].
        - rewrite !HD, !hit_same. cbn [app]. rewrite !hit_no; [rewrite !Nat.add_0_r; exact B| |].
          + discriminate.
          + intro K. injection K as K. destruct r; discriminate.
        - eapply inv_ext; [|reflexivity|exact Hb]. intros x N. rewrite HD, <- app_assoc, hit_same, hit_no; [lia|]. discriminate. }
      destruct (Nat.eqb_spec i 2) as [->|]; [|discriminate].
      destruct (at_path enter r b) as [b' e'|b'|] eqn:A; try discriminate. injection E as <- ->.
      cbn [inv] in H. destruct H as (B & Ha & Hb).
      destruct (IH b (p ++ [2]) b' e A) as (I & L & j & ->); [intro x; rewrite HD, <- app_assoc; reflexivity|exact Hb|].
      cbn [inv leaves]. rewrite L. split; [|split; [reflexivity|eauto]]. split; [|split; [|exact I]].
      * rewrite !HD, !hit_same. cbn [app]. rewrite !hit_no; [rewrite !Nat.add_0_r; exact B| |].
        -- intro K. injection K as K. destruct r; discriminate.
        -- discriminate.
      * eapply inv_ext; [|reflexivity|exact Ha]. intros x N. rewrite HD, <- app_assoc, hit_same, hit_no; [lia|]. discriminate.
    + destruct (Nat.eqb_spec i 1) as [->|]; [|discriminate].
      destruct (at_path enter r a) as [a' e'|a'|] eqn:A; try discriminate. injection E as <- ->.
      cbn [inv] in H. destruct H as (B & Ha).
      destruct (IH a (p ++ [1]) a' e A) as (I & L & j & ->); [intro x; rewrite HD, <- app_assoc; reflexivity|exact Ha|].
      cbn [inv leaves]. rewrite L. split; [|split; [reflexivity|eauto]]. split; [exact B|exact I].
Qed.
(** Arriving at a leaf. *)
Lemma reach_leaf D D' U U' : forall q t p t', at_path enter q t = LBack t' ->
  (forall x, D x = D' x + Nat.b2n (prefix x (p ++ q))) -> (forall x, U' x = U x + Nat.b2n (prefix x (p ++ q))) ->
  inv D U p t -> inv D' U' p t' /\ leaves t' = S (leaves t).
Proof.
  induction q as [|i r IH]; intros t p t' E HD HU H; cbn [at_path] in E.
  - destruct t as [n|c a b|n m a]; cbn [enter] in E; [|discriminate|discriminate]. injection E as <-. cbn [inv leaves]. auto.
  - assert (P1 : forall j, prefix (p ++ [j]) (p ++ i :: r) = (j =? i)).
    { intro j. rewrite prefix_same. cbn [prefix]. apply andb_true_r. }
    assert (P2 : forall j x, j <> i -> prefix ((p ++ [j]) ++ x) (p ++ i :: r) = false).
    { intros j x N. rewrite <- app_assoc, prefix_same. cbn [app prefix]. destruct (Nat.eqb_spec j i); [congruence|reflexivity]. }
    destruct t as [n|c a b|n m a]; [discriminate| |].
    + destruct (Nat.eqb_spec i 1) as [->|].
      { destruct (at_path enter r a) as [a' e'|a'|] eqn:A; try discriminate. injection E as <-.
        cbn [inv] in H. destruct H as (B & Ha & Hb).
        destruct (IH a (p ++ [1]) a' A) as (I & L); [intro x; rewrite HD, <- app_assoc; reflexivity|intro x; rewrite HU, <- app_assoc; reflexivity|exact Ha|].
        cbn [inv leaves]. rewrite L. split; [|reflexivity]. split; [|split; [exact I|]].
        - rewrite !HD, !P1 in B. cbn [Nat.eqb Nat.b2n] in B. rewrite !Nat.add_0_r in B.
          replace (S (leaves a) + D' (p ++ [1])) with (leaves a + (D' (p ++ [1]) + 1)) by lia. exact B.
        - eapply inv_ext; [| |exact Hb]; intros x N; [rewrite HD|rewrite HU]; rewrite P2 by discriminate; cbn [Nat.b2n]; lia. }
      destruct (Nat.eqb_spec i 2) as [->|]; [|discriminate].
      destruct (at_path enter r b) as [b' e'|b'|] eqn:A; try discriminate. injection E as <-.
      cbn [inv] in H. destruct H as (B & Ha & Hb).
      destruct (IH b (p ++ [2]) b' A) as (I & L); [intro x; rewrite HD, <- app_assoc; reflexivity|intro x; rewrite HU, <- app_assoc; reflexivity|exact Hb|].
      cbn [inv leaves]. rewrite L. split; [|lia]. split; [|split; [|exact I]].
      * rewrite !HD, !P1 in B. cbn [Nat.eqb Nat.b2n] in B. rewrite !Nat.add_0_r in B.
        replace (S (leaves b) + D' (p ++ [2])) with (leaves b + (D' (p ++ [2]) + 1)) by lia. exact B.
      * eapply inv_ext; [| |exact Ha]; intros x N; [rewrite HD|rewrite HU]; rewrite P2 by discriminate; cbn [Nat.b2n]; lia.
    + destruct (Nat.eqb_spec i 1) as [->|]; [|discriminate].
      destruct (at_path enter r a) as [a' e'|a'|] eqn:A; try discriminate. injection E as <-.
      cbn [inv] in H. destruct H as (B & Ha).
      destruct (IH a (p ++ [1]) a' A) as (I & L); [intro x; rewrite HD, <- app_assoc; reflexivity|intro x; rewrite HU, <- app_assoc; reflexivity|exact Ha|].
      cbn [inv leaves]. rewrite L. split; [|reflexivity]. split; [|exact I].
      rewrite HU, P1. cbn [Nat.eqb Nat.b2n]. lia.
Qed.
(** Returning to the caller. *)
Fixpoint node_at (q : list nat) (t : tree) : option tree :=
  match q with
  | [] => Some t
  | i :: r =>
      match t with
      | TLeaf _ => None
      | TDouble _ a b => if i =? 1 then node_at r a else if i =? 2 then node_at r b else None
      | TCounter _ _ a => if i =? 1 then node_at r a else None
      end
  end.
Lemma go_up D U U' j : forall q t p t', at_path leave q t = LBack t' -> node_at (q ++ [j]) t <> None ->
  (forall x, U x = U' x + hit x (p ++ q ++ [j])) -> inv D U p t ->
  inv D U' p t' /\ leaves t' = leaves t.
Proof.
  induction q as [|i r IH]; intros t p t' E V HU H; cbn [at_path] in E.
  - destruct t as [n|c a b|n m a]; cbn [leave] in E; [discriminate| |]; injection E as <-; cbn [inv leaves app] in *.
    + destruct H as (B & Ha & Hb). split; [|reflexivity].
      assert (K : forall k x, x <> [] -> U' ((p ++ [k]) ++ x) = U ((p ++ [k]) ++ x)).
      { intros k x N. rewrite HU, <- app_assoc, hit_same, hit_no; [lia|]. cbn [app]. destruct x; [congruence|discriminate]. }
      split; [exact B|]. split; [eapply inv_ext; [reflexivity|apply K|exact Ha]|eapply inv_ext; [reflexivity|apply K|exact Hb]].
    + destruct H as (B & Ha). cbn [node_at] in V. destruct (Nat.eqb_spec j 1) as [->|]; [|congruence].
      split; [|reflexivity]. split.
      * rewrite HU, hit_yes in B. lia.
      * eapply inv_ext; [reflexivity| |exact Ha]. intros x N. rewrite HU, <- app_assoc, hit_same, hit_no; [lia|].
        cbn [app]. destruct x; [congruence|discriminate].
  - destruct t as [n|c a b|n m a]; [discriminate| |]; cbn [app node_at] in V.
    + destruct (Nat.eqb_spec i 1) as [->|].
      { destruct (at_path leave r a) as [a' e'|a'|] eqn:A; try discriminate. injection E as <-.
        cbn [inv] in H. destruct H as (B & Ha & Hb).
        destruct (IH a (p ++ [1]) a' A V) as (I & L); [intro x; rewrite HU, <- app_assoc; reflexivity|exact Ha|].
        cbn [inv leaves]. rewrite L. split; [|reflexivity]. split; [exact B|]. split; [exact I|].
        eapply inv_ext; [reflexivity| |exact Hb]. intros x N. rewrite HU, <- app_assoc, hit_same, hit_no; [lia|discriminate]. }
      destruct (Nat.eqb_spec i 2) as [->|]; [|discriminate].
      destruct (at_path leave r b) as [b' e'|b'|] eqn:A; try discriminate. injection E as <-.
      cbn [inv] in H. destruct H as (B & Ha & Hb).
      destruct (IH b (p ++ [2]) b' A V) as (I & L); [intro x; rewrite HU, <- app_assoc; reflexivity|exact Hb|].
      cbn [inv leaves]. rewrite L. split; [|reflexivity]. split; [exact B|]. split; [|exact I].
      eapply inv_ext; [reflexivity| |exact Ha]. intros x N. rewrite HU, <- app_assoc, hit_same, hit_no; [lia|discriminate].
    + destruct (Nat.eqb_spec i 1) as [->|]; [|discriminate].
      destruct (at_path leave r a) as [a' e'|a'|] eqn:A; try discriminate. injection E as <-.
      cbn [inv] in H. destruct H as (B & Ha).
      destruct (IH a (p ++ [1]) a' A V) as (I & L); [intro x; rewrite HU, <- app_assoc; reflexivity|exact Ha|].
      cbn [inv leaves]. rewrite L. split; [|reflexivity]. split; [|exact I].
      rewrite HU in B. cbn [app] in B. rewrite hit_same, hit_no in B; [rewrite Nat.add_0_r in B; exact B|].
      intro K. injection K as K. destruct r; discriminate.
Qed.

(** Shapes never change, so positions stay valid. *)
Fixpoint same_shape (a b : tree) : Prop :=
  match a, b with
  | TLeaf _, TLeaf _ => True
  | TDouble _ a1 a2, TDouble _ b1 b2 => same_shape a1 b1 /\ same_shape a2 b2
  | TCounter _ _ a1, TCounter _ _ b1 => same_shape a1 b1
  | _, _ => False
  end.
Lemma same_shape_refl a : same_shape a a.
Proof. induction a; cbn [same_shape]; auto. Qed.
Lemma at_path_shape f : (forall t, match f t with LGo t' _ | LBack t' => same_shape t t' | LBad => True end) ->
  forall q t, match at_path f q t with LGo t' _ | LBack t' => same_shape t t' | LBad => True end.
Proof.
  intros Hf. induction q as [|i r IH]; intro t; cbn [at_path]; [apply Hf|].
  destruct t as [n|c a b|n m a]; [exact I| |].
  - destruct (i =? 1).
    + specialize (IH a). destruct (at_path f r a); cbn [same_shape]; auto using same_shape_refl.
    + destruct (i =? 2); [|exact I]. specialize (IH b). destruct (at_path f r b); cbn [same_shape]; auto using same_shape_refl.
  - destruct (i =? 1); [|exact I]. specialize (IH a). destruct (at_path f r a); cbn [same_shape]; auto.
Qed.
Lemma enter_shape t : match enter t with LGo t' _ | LBack t' => same_shape t t' | LBad => True end.
Proof. destruct t; cbn [enter same_shape]; auto using same_shape_refl. Qed.
Lemma leave_shape t : match leave t with LGo t' _ | LBack t' => same_shape t t' | LBad => True end.
Proof. destruct t; cbn [leave same_shape]; auto using same_shape_refl. Qed.
Lemma node_shape : forall q a b, same_shape a b -> node_at q a <> None -> node_at q b <> None.
Proof.
  induction q as [|i r IH]; intros a b S N; cbn [node_at] in *; [discriminate|].
  destruct a, b; cbn [same_shape] in S; try contradiction; try (exfalso; congruence).
  - destruct (i =? 1); [destruct S; eauto|]. destruct (i =? 2); [destruct S; eauto|congruence].
  - destruct (i =? 1); [eauto|congruence].
Qed.
Lemma enter_defined : forall q t, node_at q t <> None -> at_path enter q t <> LBad.
Proof.
  induction q as [|i r IH]; intros t N; cbn [node_at at_path] in *; [destruct t; discriminate|].
  destruct t as [n|c a b|n m a]; [congruence| |].
  - destruct (i =? 1); [specialize (IH a N); destruct (at_path enter r a); congruence|].
    destruct (i =? 2); [|congruence]. specialize (IH b N); destruct (at_path enter r b); congruence.
  - destruct (i =? 1); [|congruence]. specialize (IH a N); destruct (at_path enter r a); congruence.
Qed.
Lemma leave_defined j : forall q t, node_at (q ++ [j]) t <> None -> exists t', at_path leave q t = LBack t'.
Proof.
  induction q as [|i r IH]; intros t N; cbn [app node_at at_path] in *.
  - destruct t; [congruence| |]; cbn [leave]; eauto.
  - destruct t as [n|c a b|n m a]; [congruence| |].
    + destruct (i =? 1); [destruct (IH a N) as (x & ->); eauto|].
      destruct (i =? 2); [|congruence]. destruct (IH b N) as (x & ->); eauto.
    + destruct (i =? 1); [|congruence]. destruct (IH a N) as (x & ->); eauto.
Qed.
Lemma enter_child : forall q t t' e, at_path enter q t = LGo t' e -> node_at (q ++ e) t <> None.
Proof.
  induction q as [|i r IH]; intros t t' e E; cbn [app node_at at_path] in *.
  - destruct t as [n|c a b|n m a]; cbn [enter] in E; [discriminate| |]; injection E as <- <-; cbn [node_at].
    + destruct (Z.odd c); cbn [Nat.eqb]; discriminate.
    + cbn [Nat.eqb]. discriminate.
  - destruct t as [n|c a b|n m a]; [discriminate| |].
    + destruct (i =? 1).
      { destruct (at_path enter r a) eqn:A; try discriminate. injection E as <- <-. eauto. }
      destruct (i =? 2); [|discriminate]. destruct (at_path enter r b) eqn:A; try discriminate. injection E as <- <-. eauto.
    + destruct (i =? 1); [|discriminate]. destruct (at_path enter r a) eqn:A; try discriminate. injection E as <- <-. eauto.
Qed.
Lemma node_parent j : forall q t, node_at (q ++ [j]) t <> None -> node_at q t <> None.
Proof.
  induction q as [|i r IH]; intros t N; cbn [app node_at] in *; [discriminate|].
  destruct t; [congruence| |]; destruct (i =? 1); eauto. destruct (i =? 2); eauto.
Qed.

Definition valid_call (t : tree) (c : call_state) : Prop :=
  match c with CDown q | CUp q => node_at q t <> None | CDone => True end.
(** The invariant of the whole system. *)
Record good (s : system) : Prop := {
  good_inv : inv (fun p => count (is_down p) (sy_calls s)) (fun p => count (is_up p) (sy_calls s)) [] (sy_tree s);
  good_total : leaves (sy_tree s) + count (is_down []) (sy_calls s) = length (sy_calls s);
  good_valid : Forall (valid_call (sy_tree s)) (sy_calls s) }.

Lemma inv_fresh d : forall p, inv (fun _ => 0) (fun _ => 0) p (fresh d) /\ leaves (fresh d) = 0.
Proof.
  induction d; intro p; cbn [fresh inv leaves]; auto.
  - destruct (IHd1 (p ++ [1])) as [A ->], (IHd2 (p ++ [2])) as [B ->]. split; [|reflexivity]. split; [reflexivity|]. auto.
  - destruct (IHd (p ++ [1])) as [A ->]. split; [|reflexivity]. split; [reflexivity|]. exact A.
Qed.
Lemma good_start d : good (mkSys (fresh d) []).
Proof.
  destruct (inv_fresh d []) as [A B]. constructor; cbn [sy_tree sy_calls]; [exact A|rewrite B; reflexivity|constructor].
Qed.
Lemma set_nth_Forall {A} (P : A -> Prop) l : forall i x, Forall P l -> P x -> Forall P (set_nth i x l).
Proof. induction l; intros [|i] x F H; inversion F; subst; cbn [set_nth]; constructor; auto. Qed.
Lemma nth_Forall {A} (P : A -> Prop) l i x : Forall P l -> nth_error l i = Some x -> P x.
Proof. intros F E. rewrite Forall_forall in F. apply F. eapply nth_error_In; exact E. Qed.
Lemma valid_all t t' l : same_shape t t' -> Forall (valid_call t) l -> Forall (valid_call t') l.
Proof.
  intros S F. eapply Forall_impl; [|exact F]. intros [q|q|] V; cbn [valid_call] in *; [eapply node_shape; eassumption| |exact I].
  eapply node_shape; eassumption.
Qed.

Lemma good_step s a s' : good s -> sys_step s a = Some s' -> good s'.
Proof.
  intros [I T V] E. destruct a as [|i]; cbn [sys_step] in E.
  - injection E as <-. constructor; cbn [sy_tree sy_calls].
    + eapply inv_ext; [| |exact I]; intros x N; cbn [app]; rewrite count_snoc; cbn [is_down is_up]; [|cbn [Nat.b2n]; lia].
      destruct x; [congruence|]. cbn [prefix Nat.b2n]. lia.
    + rewrite count_snoc, app_length. cbn [is_down prefix Nat.b2n length]. lia.
    + apply Forall_app. split; [exact V|]. constructor; [|constructor]. cbn [valid_call node_at]. discriminate.
  - destruct (nth_error (sy_calls s) i) as [c|] eqn:N; [|discriminate].
    destruct (call_step (sy_tree s) c) as [t' c'|] eqn:C; [|discriminate]. injection E as <-.
    pose proof (nth_Forall _ _ _ _ V N) as Vc.
    destruct c as [q|q|]; cbn [call_step] in C; [| |discriminate].
    + destruct (at_path enter q (sy_tree s)) as [t2 e|t2|] eqn:A; try discriminate; injection C as <- <-.
      * pose proof (at_path_shape enter enter_shape q (sy_tree s)) as S. rewrite A in S.
        pose proof (enter_child _ _ _ _ A) as Ch.
        destruct (go_down (fun p => count (is_down p) (sy_calls s)) (fun p => count (is_down p) (set_nth i (CDown (q ++ e)) (sy_calls s)))
                   (fun p => count (is_up p) (sy_calls s)) q _ [] t2 e A) as (I2 & L & j & ->).
        -- intro x. cbn [app]. pose proof (count_set (is_down x) _ _ _ (CDown (q ++ e)) N) as K. cbn [is_down] in K.
           assert (Ej : exists j, e = [j]).
           { clear -A. revert A. generalize (sy_tree s). intro t. revert t t2. induction q as [|k r IH]; intros t t2 A; cbn [at_path] in A.
             - destruct t; cbn [enter] in A; try discriminate; injection A as <- <-; eauto.
             - destruct t; [discriminate| |].
               + destruct (k =? 1); [destruct (at_path enter r t1) eqn:B; try discriminate; injection A as <- <-; eauto|].
                 destruct (k =? 2); [destruct (at_path enter r t3) eqn:B; try discriminate; injection A as <- <-; eauto|discriminate].
               + destruct (k =? 1); [destruct (at_path enter r t) eqn:B; try discriminate; injection A as <- <-; eauto|discriminate]. }
           destruct Ej as (j & ->). rewrite prefix_snoc in K. unfold hit.
           destruct (list_eq_dec Nat.eq_dec x (q ++ [j])); cbn [Nat.b2n] in K; lia.
        -- exact I.
        -- constructor; cbn [sy_tree sy_calls].
           ++ eapply inv_ext; [| |exact I2]; [reflexivity|]. intros x _. cbn [app].
              pose proof (count_set (is_up x) _ _ _ (CDown (q ++ [j])) N) as K. cbn [is_up Nat.b2n] in K. lia.
           ++ rewrite set_nth_length, L. pose proof (count_set (is_down []) _ _ _ (CDown (q ++ [j])) N) as K.
              cbn [is_down prefix Nat.b2n] in K. lia.
           ++ apply set_nth_Forall; [eapply valid_all; eassumption|]. cbn [valid_call]. eapply node_shape; eassumption.
      * pose proof (at_path_shape enter enter_shape q (sy_tree s)) as S. rewrite A in S.
        destruct (reach_leaf (fun p => count (is_down p) (sy_calls s)) (fun p => count (is_down p) (set_nth i (CUp q) (sy_calls s)))
                   (fun p => count (is_up p) (sy_calls s)) (fun p => count (is_up p) (set_nth i (CUp q) (sy_calls s))) q _ [] t2 A) as (I2 & L).
        -- intro x. cbn [app]. pose proof (count_set (is_down x) _ _ _ (CUp q) N) as K. cbn [is_down Nat.b2n] in K. lia.
        -- intro x. cbn [app]. pose proof (count_set (is_up x) _ _ _ (CUp q) N) as K. cbn [is_up Nat.b2n] in K. lia.
        -- exact I.
        -- constructor; cbn [sy_tree sy_calls]; [exact I2| |].
           ++ rewrite set_nth_length, L. pose proof (count_set (is_down []) _ _ _ (CUp q) N) as K.
              cbn [is_down prefix Nat.b2n] in K. lia.
           ++ apply set_nth_Forall; [eapply valid_all; eassumption|]. cbn [valid_call]. eapply node_shape; eassumption.
    + destruct q as [|q0 qr].
      * injection C as <- <-. constructor; cbn [sy_tree sy_calls].
        -- eapply inv_ext; [| |exact I]; intros x Nx; cbn [app].
           ++ pose proof (count_set (is_down x) _ _ _ CDone N) as K. cbn [is_down Nat.b2n] in K. lia.
           ++ pose proof (count_set (is_up x) _ _ _ CDone N) as K. cbn [is_up] in K.
              destruct x; [congruence|]. cbn [prefix Nat.b2n] in K. lia.
        -- rewrite set_nth_length. pose proof (count_set (is_down []) _ _ _ CDone N) as K. cbn [is_down Nat.b2n] in K. lia.
        -- apply set_nth_Forall; [exact V|exact Logic.I].
      * cbv zeta in C. set (q := q0 :: qr) in *.
        assert (Q : q = removelast q ++ [last q 0]) by (apply app_removelast_last; discriminate).
        set (caller := removelast q) in *. set (j := last q 0) in *.
        destruct (at_path leave caller (sy_tree s)) as [? ?|t2|] eqn:A; try discriminate. injection C as <- <-.
        pose proof (at_path_shape leave leave_shape caller (sy_tree s)) as S. rewrite A in S.
        cbn [valid_call] in Vc. rewrite Q in Vc.
        destruct (go_up (fun p => count (is_down p) (sy_calls s)) (fun p => count (is_up p) (sy_calls s))
                   (fun p => count (is_up p) (set_nth i (CUp caller) (sy_calls s))) j caller _ [] t2 A Vc) as (I2 & L).
        -- intro x. cbn [app]. pose proof (count_set (is_up x) _ _ _ (CUp caller) N) as K. cbn [is_up] in K.
           rewrite Q, prefix_snoc in K. unfold hit. destruct (list_eq_dec Nat.eq_dec x (caller ++ [j])); cbn [Nat.b2n] in K; lia.
        -- exact I.
        -- constructor; cbn [sy_tree sy_calls].
           ++ eapply inv_ext; [| |exact I2]; [|reflexivity]. intros x _. cbn [app].
              pose proof (count_set (is_down x) _ _ _ (CUp caller) N) as K. cbn [is_down Nat.b2n] in K. lia.
           ++ rewrite set_nth_length, L. pose proof (count_set (is_down []) _ _ _ (CUp caller) N) as K. cbn [is_down Nat.b2n] in K. lia.
           ++ apply set_nth_Forall; [eapply valid_all; eassumption|]. cbn [valid_call]. eapply node_shape; [exact S|].
              eapply node_parent; exact Vc.
Qed.
Lemma good_run l : forall s s', good s -> sys_run s l = Some s' -> good s'.
Proof.
  induction l as [|a l IH]; intros s s' G E; cbn [sys_run] in E; [congruence|].
  destruct (sys_step s a) eqn:A; [|discriminate]. eapply IH; [|exact E]. eapply good_step; eassumption.
Qed.
Lemma step_shape s a s' : sys_step s a = Some s' -> same_shape (sy_tree s) (sy_tree s').
Proof.
  destruct a as [|i]; cbn [sys_step]; intro E; [injection E as <-; apply same_shape_refl|].
  destruct (nth_error (sy_calls s) i) as [c|]; [|discriminate].
  destruct (call_step (sy_tree s) c) as [t' c'|] eqn:C; [|discriminate]. injection E as <-. cbn [sy_tree].
  destruct c as [q|q|]; cbn [call_step] in C; [| |discriminate].
  - pose proof (at_path_shape enter enter_shape q (sy_tree s)) as S.
    destruct (at_path enter q (sy_tree s)); try discriminate; injection C as <- _; exact S.
  - destruct q as [|q0 qr]; [injection C as <- _; apply same_shape_refl|]. cbv zeta in C.
    pose proof (at_path_shape leave leave_shape (removelast (q0 :: qr)) (sy_tree s)) as S.
    destruct (at_path leave _ (sy_tree s)); try discriminate. injection C as <- _. exact S.
Qed.

(** ** What the invariant says when all calls are done *)
Fixpoint shares (n : nat) (t : tree) : Prop :=
  match t with
  | TLeaf k => k = n
  | TDouble _ a b => shares (n - n / 2) a /\ shares (n / 2) b
  | TCounter k _ a => k = Z.of_nat n /\ shares n a
  end.
Lemma inv_shares t : forall p, inv (fun _ => 0) (fun _ => 0) p t -> shares (leaves t) t.
Proof.
  induction t as [n|c a IHa b IHb|n m a IHa]; intros p H; cbn [inv shares leaves] in *; [reflexivity| |].
  - destruct H as (B & Ha & Hb).
    assert (K : leaves a = (leaves a + leaves b) - (leaves a + leaves b) / 2 /\ leaves b = (leaves a + leaves b) / 2).
    { rewrite !Nat.add_0_r in B. unfold balanced in B. destruct (Z.odd c).
      - rewrite B. replace (leaves b + leaves b) with (leaves b * 2) by lia. rewrite Nat.div_mul by lia. lia.
      - rewrite B. replace (S (leaves b) + leaves b) with (1 + leaves b * 2) by lia. rewrite Nat.div_add by lia.
        change (1 / 2) with 0. lia. }
    destruct K as [K1 K2]. rewrite <- K1, <- K2. eauto.
  - destruct H as (B & Ha). split; [lia|eauto].
Qed.
Lemma count_none {A} (f : A -> bool) l : Forall (fun x => f x = false) l -> count f l = 0.
Proof. unfold count. induction 1 as [|x l H _ IH]; cbn [filter]; [reflexivity|]. rewrite H. exact IH. Qed.
Lemma all_done_counts l p : Forall (eq CDone) l -> count (is_down p) l = 0 /\ count (is_up p) l = 0.
Proof. intro F. split; apply count_none; eapply Forall_impl; try exact F; intros ? <-; reflexivity. Qed.
Lemma good_done s : good s -> Forall (eq CDone) (sy_calls s) -> shares (length (sy_calls s)) (sy_tree s).
Proof.
  intros [I T V] F. destruct (all_done_counts _ [] F) as [A _]. rewrite A, Nat.add_0_r in T. rewrite <- T.
  apply (inv_shares _ []). eapply inv_ext; [| |exact I]; intros x _; destruct (all_done_counts _ ([] ++ x) F); congruence.
Qed.
Fixpoint leaf_counts (t : tree) : list nat :=
  match t with TLeaf n => [n] | TDouble _ a b => leaf_counts a ++ leaf_counts b | TCounter _ _ a => leaf_counts a end.
Fixpoint even_tree (h : nat) (t : tree) : Prop :=
  match t with
  | TLeaf _ => h = 0
  | TDouble _ a b => match h with O => False | S h' => even_tree h' a /\ even_tree h' b end
  | TCounter _ _ a => even_tree h a
  end.
Lemma even_fresh d : forall h, even_driver h d -> even_tree h (fresh d).
Proof. induction d; intros h E; cbn [even_driver fresh even_tree] in *; auto. destruct h; [exact E|]. destruct E; auto. Qed.
Lemma even_same : forall a b h, same_shape a b -> even_tree h a -> even_tree h b.
Proof.
  induction a; intros [] h S E; cbn [same_shape even_tree] in *; try contradiction; eauto.
  destruct h; [exact E|]. destruct S, E. eauto.
Qed.
Lemma same_shape_trans : forall a b c, same_shape a b -> same_shape b c -> same_shape a c.
Proof.
  induction a; intros [] [] S E; cbn [same_shape] in *; try contradiction; eauto.
  destruct S, E. eauto.
Qed.
Lemma run_shape l : forall s s', sys_run s l = Some s' -> same_shape (sy_tree s) (sy_tree s').
Proof.
  induction l as [|a l IH]; intros s s' E; cbn [sys_run] in E; [injection E as ->; apply same_shape_refl|].
  destruct (sys_step s a) eqn:A; [|discriminate]. eapply same_shape_trans; [eapply step_shape; exact A|eapply IH; exact E].
Qed.
Lemma shares_even t : forall h n, even_tree h t -> shares n t ->
  Forall (fun k => n < (k + 1) * 2 ^ h /\ k * 2 ^ h < n + 2 ^ h) (leaf_counts t).
Proof.
  induction t as [k|c a IHa b IHb|k m a IHa]; intros h n E S; cbn [even_tree shares leaf_counts] in *.
  - subst. constructor; [|constructor]. cbn [Nat.pow]. lia.
  - destruct h as [|h]; [contradiction|]. destruct E as [Ea Eb], S as [Sa Sb].
    pose proof (Nat.div_mod n 2 ltac:(lia)) as DM. pose proof (Nat.mod_upper_bound n 2 ltac:(lia)) as MB.
    pose proof (IHa h _ Ea Sa) as Fa. pose proof (IHb h _ Eb Sb) as Fb.
    rewrite Nat.pow_succ_r'. remember (2 ^ h) as P. remember (n / 2) as m. remember (n mod 2) as r.
    apply Forall_app. split; (eapply Forall_impl; [|eassumption]); intros k (A & B); cbn beta in *; nia.
  - destruct S. auto.
Qed.

(** ** Progress *)
Fixpoint theight (t : tree) : nat :=
  match t with TLeaf _ => 1 | TDouble _ a b => S (max (theight a) (theight b)) | TCounter _ _ a => S (theight a) end.
Lemma node_depth : forall q t, node_at q t <> None -> length q < theight t.
Proof.
  induction q as [|i r IH]; intros t N; cbn [node_at length] in *; [destruct t; cbn [theight]; lia|].
  destruct t as [n|c a b|n m a]; [congruence| |]; cbn [theight].
  - destruct (i =? 1); [specialize (IH a N); lia|]. destruct (i =? 2); [specialize (IH b N); lia|congruence].
  - destruct (i =? 1); [specialize (IH a N); lia|congruence].
Qed.
Lemma theight_shape : forall a b, same_shape a b -> theight a = theight b.
Proof.
  induction a; intros [] S; cbn [same_shape theight] in *; try contradiction; auto.
  destruct S as [S1 S2]. rewrite (IHa1 _ S1), (IHa2 _ S2). reflexivity.
Qed.
Definition weight (h : nat) (c : call_state) : nat :=
  match c with CDown q => 2 * h - length q | CUp q => length q + 1 | CDone => 0 end.
Definition total (h : nat) (l : list call_state) : nat := fold_right (fun c n => weight h c + n) 0 l.
Lemma total_snoc h l c : total h (l ++ [c]) = total h l + weight h c.
Proof. induction l; cbn [app total fold_right] in *; [lia|]. unfold total in *. lia. Qed.
Lemma total_set h l : forall i x y, nth_error l i = Some x -> total h (set_nth i y l) + weight h x = total h l + weight h y.
Proof.
  induction l as [|z l IH]; intros [|i] x y H; cbn [nth_error] in H; try discriminate; cbn [set_nth total fold_right].
  - injection H as ->. lia.
  - specialize (IH i x y H). unfold total in *. lia.
Qed.
Lemma call_progress t c : valid_call t c -> c <> CDone ->
  exists t' c', call_step t c = Stepped t' c' /\ weight (theight t) c' < weight (theight t) c.
Proof.
  intros V N. destruct c as [q|q|]; [| |congruence]; cbn [valid_call] in V.
  - pose proof (enter_defined q t V) as E. pose proof (node_depth _ _ V) as Dq. cbn [call_step].
    destruct (at_path enter q t) as [t' e|t'|] eqn:A; [| |congruence].
    + pose proof (enter_child _ _ _ _ A) as Ch. pose proof (node_depth _ _ Ch) as De.
      do 2 eexists. split; [reflexivity|]. cbn [weight]. rewrite app_length in *.
      enough (0 < length e) by lia.
      destruct e; [|cbn; lia]. exfalso. clear -A. revert t t' A. induction q as [|i r IH]; intros t t' A; cbn [at_path] in A.
      * destruct t; cbn [enter] in A; congruence.
      * destruct t; [discriminate| |].
        -- destruct (i =? 1); [destruct (at_path enter r t1) eqn:B; try discriminate; injection A as <- ->; eauto|].
           destruct (i =? 2); [destruct (at_path enter r t2) eqn:B; try discriminate; injection A as <- ->; eauto|discriminate].
        -- destruct (i =? 1); [destruct (at_path enter r t) eqn:B; try discriminate; injection A as <- ->; eauto|discriminate].
    + do 2 eexists. split; [reflexivity|]. cbn [weight]. lia.
  - destruct q as [|q0 qr].
    + do 2 eexists. split; [reflexivity|]. cbn [weight length]. lia.
    + cbn [call_step]. cbv zeta. set (q := q0 :: qr) in *.
      assert (Q : q = removelast q ++ [last q 0]) by (apply app_removelast_last; discriminate).
      rewrite Q in V. destruct (leave_defined _ _ _ V) as (t' & ->).
      do 2 eexists. split; [reflexivity|]. cbn [weight]. rewrite Q at 2. rewrite app_length. cbn [length]. lia.
Qed.
Definition is_step (a : action) : bool := match a with AStep _ => true | ANew => false end.
Definition is_new (a : action) : bool := match a with AStep _ => false | ANew => true end.
Lemma run_bounded l : forall s s' h, good s -> h = theight (sy_tree s) -> sys_run s l = Some s' ->
  count is_step l + total h (sy_calls s') <= total h (sy_calls s) + 2 * h * count is_new l
  /\ length (sy_calls s') = length (sy_calls s) + count is_new l.
Proof.
  induction l as [|a l IH]; intros s s' h G Hh E; cbn [sys_run] in E.
  - injection E as <-. unfold count. cbn [filter length]. lia.
  - destruct (sys_step s a) as [s1|] eqn:A; [|discriminate].
    pose proof (good_step _ _ _ G A) as G1. pose proof (step_shape _ _ _ A) as Sh.
    assert (Hh1 : h = theight (sy_tree s1)) by (rewrite Hh; apply theight_shape, Sh).
    destruct (IH _ _ h G1 Hh1 E) as (B & L). unfold count in *. cbn [filter].
    destruct a as [|i]; cbn [is_step is_new sys_step] in *.
    + injection A as <-. cbn [sy_calls sy_tree length] in *. rewrite total_snoc in B. rewrite app_length in L.
      cbn [weight length] in *. split; lia.
    + destruct (nth_error (sy_calls s) i) as [c|] eqn:N; [|discriminate].
      destruct (call_step (sy_tree s) c) as [t' c'|] eqn:C; [|discriminate]. injection A as <-. cbn [sy_calls sy_tree length] in *.
      pose proof (nth_Forall _ _ _ _ (good_valid _ G) N) as Vc.
      assert (Nd : c <> CDone) by (intros ->; discriminate C).
      destruct (call_progress _ _ Vc Nd) as (t2 & c2 & C2 & W). rewrite C in C2. injection C2 as -> ->. rewrite <- Hh in W.
      pose proof (total_set h _ _ _ c2 N) as T. rewrite set_nth_length in L. split; lia.
Qed.

(** ** Arrivals *)
Fixpoint arrive_all (ps : list (list nat)) (t : tree) : option tree :=
  match ps with [] => Some t | p :: r => match arrive p t with Some t' => arrive_all r t' | None => None end end.
Lemma arrive_node : forall p t t' q a b c, arrive p t = Some t' -> node_at q t = Some (TCounter a b c) ->
  exists c', node_at q t' = Some (TCounter a (b + Z.of_nat (Nat.b2n (prefix q p))) c').
Proof.
  induction p as [|i r IH]; intros t t' q a b c E N.
  - destruct t; cbn [arrive] in E; try discriminate. injection E as <-. destruct q; discriminate.
  - destruct t as [n|k x y|n m x]; cbn [arrive] in E; [discriminate| |].
    + destruct q as [|j q]; [discriminate|]. cbn [node_at prefix] in *.
      destruct (Nat.eqb_spec i 1) as [->|].
      { destruct (arrive r x) as [x'|] eqn:A; [|discriminate]. injection E as <-. cbn [node_at].
        destruct (Nat.eqb_spec j 1) as [->|]; [cbn [Nat.eqb andb]; eauto|]. cbn [andb Nat.b2n]. rewrite Z.add_0_r. eauto. }
      destruct (Nat.eqb_spec i 2) as [->|]; [|discriminate].
      destruct (arrive r y) as [y'|] eqn:A; [|discriminate]. injection E as <-. cbn [node_at].
      destruct (Nat.eqb_spec j 1) as [->|]; [cbn [Nat.eqb andb Nat.b2n]; rewrite Z.add_0_r; eauto|].
      destruct (Nat.eqb_spec j 2) as [->|]; [cbn [Nat.eqb andb]; eauto|discriminate].
    + destruct i as [|[|i]]; try discriminate. destruct (arrive r x) as [x'|] eqn:A; [|discriminate]. injection E as <-.
      destruct q as [|j q]; cbn [node_at prefix] in *.
      * injection N as -> -> ->. cbn [Nat.b2n]. eauto.
      * destruct (Nat.eqb_spec j 1) as [->|]; [cbn [andb]; eauto|discriminate].
Qed.
Lemma arrive_all_node : forall ps t t' q a b c, arrive_all ps t = Some t' -> node_at q t = Some (TCounter a b c) ->
  exists c', node_at q t' = Some (TCounter a (b + Z.of_nat (count (prefix q) ps)) c').
Proof.
  induction ps as [|p r IH]; intros t t' q a b c E N; cbn [arrive_all] in E.
  - injection E as <-. rewrite Z.add_0_r. eauto.
  - destruct (arrive p t) as [t1|] eqn:A; [|discriminate].
    destruct (arrive_node _ _ _ _ _ _ _ A N) as (c1 & N1). destruct (IH _ _ _ _ _ _ E N1) as (c' & K).
    exists c'. rewrite K. f_equal. f_equal. unfold count. cbn [filter]. destruct (prefix q p); cbn [length Nat.b2n]; lia.
Qed.
Lemma server_leaf_node t : exists n, node_at (server_leaf t) t = Some (TLeaf n).
Proof. induction t; cbn [server_leaf node_at Nat.eqb]; eauto. Qed.
Lemma server_leaf_ones t : Forall (eq 1) (server_leaf t).
Proof. induction t; cbn [server_leaf]; constructor; auto. Qed.
