(** Lemmas for Res_Props.v: Mercury. *)
From Coq Require Import Ascii String List NArith ZArith Bool Arith Lia.
From Verif Require Import Base_Model Util_Model Net_Model Pool_Model Driver_Model Grpc_Model Conn_Model Res_Model Res_Proofs.
Import ListNotations.
Open Scope nat_scope.

(** Contexts belong to classes, threads work on contexts (and the server's hands
    requests to the pool), addresses belong to classes. *)
Definition mercury_needs (addresses : bool) (x : thing) : list thing :=
  match x with
  | ClientContext => [ClientClass]
  | ServerContext => [ServerClass]
  | ClientThread _ => [ClientContext]
  | ServerThread _ => [ServerContext; Pool]
  | SelfAddr => if addresses then [ServerClass] else []
  | Addr _ => if addresses then [ClientClass] else []
  | _ => []
  end.
Definition somes (l : list (option nat)) : list nat := flat_map (fun a => match a with Some k => [k] | None => [] end) l.
Lemma In_somes l a : In a (somes l) <-> In (Some a) l.
Proof.
  unfold somes. rewrite in_flat_map. split.
  - intros ([b|] & I & J); [|destruct J]. destruct J as [->|[]]. exact I.
  - intros I. exists (Some a). split; [exact I|left; reflexivity].
Qed.
Lemma free_somes l : free_addrs l = map (fun a => Unmade (Addr a)) (somes l).
Proof. induction l as [|[a|] l IH]; cbn; [reflexivity|f_equal; exact IH|exact IH]. Qed.
Lemma resize_In {A} (d : A) n : forall l x, In x (resize n d l) -> In x l \/ x = d.
Proof.
  induction n as [|n IH]; intros [|y l] x H; cbn [resize In] in *; try tauto.
  - destruct H as [H|H]; [auto|]. destruct (IH _ _ H) as [[]|K]; auto.
  - destruct H as [H|H]; [auto|]. destruct (IH _ _ H) as [K|K]; auto.
Qed.
Lemma resize_nodup n : forall l, NoDup (somes l) -> NoDup (somes (resize n None l)).
Proof.
  induction n as [|n IH]; intros [|[a|] l] H; cbn [resize somes flat_map app]; try constructor; try apply IH; auto.
  - inversion H as [|? ? H1 H2]; subst. intros I. apply In_somes in I. apply resize_In in I. destruct I as [I|I]; [|discriminate]. apply H1, In_somes, I.
  - inversion H; assumption.
Qed.
Lemma lset_In {A} (l : list A) : forall p x y, In y (lset p x l) -> y = x \/ In y l.
Proof. induction l as [|z l IH]; intros [|p] x y H; cbn [lset In] in *; try tauto; destruct H as [H|H]; auto. destruct (IH _ _ _ H); auto. Qed.
Lemma lset_has {A} (l : list A) : forall p x, p < length l -> In x (lset p x l).
Proof. induction l as [|z l IH]; intros [|p] x H; cbn [lset In length] in *; try lia; auto. right. apply IH. lia. Qed.
Lemma lset_keeps {A} (l : list A) : forall p x y z, nth_error l p = Some z -> z <> y -> In y l -> In y (lset p x l).
Proof.
  induction l as [|w l IH]; intros [|p] x y z E N H; cbn [lset In nth_error] in *; try discriminate.
  - injection E as ->. destruct H as [H|H]; [congruence|auto].
  - destruct H as [H|H]; [auto|]. right. eapply IH; eassumption.
Qed.
Lemma lset_nodup l : forall p k, NoDup (somes l) -> ~ In k (somes l) -> NoDup (somes (lset p (Some k) l)).
Proof.
  induction l as [|[a|] l IH]; intros [|p] k H N; cbn [lset somes flat_map app] in *; auto.
  - inversion H as [|? ? H1 H2]; subst. constructor; [|exact H2]. intros I. apply N. right. exact I.
  - inversion H as [|? ? H1 H2]; subst. constructor; [|apply IH; [exact H2|intros I; apply N; right; exact I]].
    intros I. apply In_somes in I. destruct (lset_In _ _ _ _ I) as [Q|J]; [injection Q as ->; apply N; left; reflexivity|]. apply H1, In_somes, J.
  - constructor; [exact N|exact H].
Qed.

Definition mholds (m : mmembers) (x : thing) : Prop :=
  match x with
  | Pool => n_pool m = true
  | ServerClass => n_sclass m = true
  | ClientClass => n_cclass m = true
  | ServerContext => n_scontext m = true
  | ClientContext => n_ccontext m = true
  | ClientThread i => i = 0 /\ n_threads m = true /\ n_cdown m = false
  | ServerThread i => i = 0 /\ n_threads m = true /\ n_sdown m = false
  | Addr a => In a (somes (n_addrs m))
  | _ => False
  end.
Record mgood (k : nat) (m : mmembers) : Prop := {
  mg_threads : n_threads m = true -> n_ccontext m = true /\ n_scontext m = true;
  mg_pool : n_threads m = true -> n_sdown m = false -> n_pool m = true;
  mg_client : n_ccontext m = true -> n_cclass m = true;
  mg_server : n_scontext m = true -> n_sclass m = true;
  mg_nodup : NoDup (somes (n_addrs m));
  mg_fresh : forall a, In a (somes (n_addrs m)) -> a < k /\ n_cclass m = true }.
(** Held besides: the own address, and addresses no member has any more. *)
Record lost (k : nat) (m : mmembers) (L : thing -> Prop) : Prop := {
  l_what : forall x, L x -> x = SelfAddr \/ exists a, x = Addr a /\ a < k;
  l_gone : forall a, L (Addr a) -> ~ In a (somes (n_addrs m)) }.
Definition with_lost (m : mmembers) (L : thing -> Prop) (x : thing) : Prop := mholds m x \/ L x.
Ltac proj := cbn [n_pool n_sclass n_cclass n_ccontext n_scontext n_id n_threads n_addrs n_sdown n_cdown with_addrs] in *.

Lemma lost_no k m L : lost k m L -> ~ L Pool /\ ~ L ServerClass /\ ~ L ClientClass /\ ~ L ServerContext /\ ~ L ClientContext /\ (forall i, ~ L (ClientThread i)) /\ forall i, ~ L (ServerThread i).
Proof. intros [H _]. repeat split; intros; intros K; apply H in K; destruct K as [K|(a & K & _)]; discriminate. Qed.

Lemma mshut_server_plays strict k m L : mgood k m -> lost k m L ->
  plays (mercury_needs strict) (with_lost m L) (fst (mshut_server m)) (with_lost (snd (mshut_server m)) L) /\ mgood k (snd (mshut_server m)) /\ lost k (snd (mshut_server m)) L.
Proof.
  intros G Lo. destruct (lost_no _ _ _ Lo) as (L1 & L2 & L3 & L4 & L5 & L6 & L7). unfold mshut_server. cbn [fst snd]. split; [|split].
  - apply (plays_app _ _ _ _ (fun x => with_lost m L x /\ (n_sdown m = false -> forall i, x <> ServerThread i))).
    + destruct (n_sdown m) eqn:D; [intros x; split; [intros H; split; [exact H|discriminate]|tauto]|]. apply plays_unmade_if.
      * intros H. left. cbn [mholds]. auto.
      * intros _ y _. destruct y; cbn; try tauto; try (destruct strict; cbn; tauto); intros H; repeat (destruct H as [H|H]; [discriminate|]); try destruct H; destruct strict; cbn in H; repeat (destruct H as [H|H]; [discriminate|]); destruct H.
      * intros y. split; [intros [A B]; split; [exact A|intros _; apply B; reflexivity]|]. intros [A B]. split; [exact A|]. intros _ i ->.
        destruct A as [[Z [T _]]|A]; [|destruct (L7 _ A)]. subst i. exact (B T eq_refl).
    + apply plays_unmade_if.
      * intros H. split; [left; exact H|discriminate].
      * intros _ y [Y Z]. destruct y; cbn; try tauto; try (intros [H|[]]; discriminate); try (destruct strict; cbn; intuition discriminate).
        destruct Y as [[_ [_ D]]|Y]; [|destruct (L7 _ Y)]. destruct (Z D i eq_refl).
      * intros y. unfold with_lost. destruct y; cbn [mholds]; proj; try solve [split; [intros [A|A]; split; try (split; auto; discriminate); auto; discriminate|intros [[[A|A] _] _]; auto]].
        -- split; [intros [A|A]; [discriminate|destruct (L1 A)]|]. intros [[[A|A] _] B]; [destruct (B A eq_refl)|auto].
        -- split; [intros [(_ & _ & A)|A]; [discriminate|destruct (L7 _ A)]|]. intros [[[(_ & _ & A)|A] B] _]; [destruct (B A i eq_refl)|auto].
  - destruct G. constructor; proj; auto.
  - destruct Lo. constructor; proj; auto.
Qed.
Lemma mshut_client_plays strict k m L : mgood k m -> lost k m L ->
  plays (mercury_needs strict) (with_lost m L) (fst (mshut_client m)) (with_lost (snd (mshut_client m)) L) /\ mgood k (snd (mshut_client m)) /\ lost k (snd (mshut_client m)) L.
Proof.
  intros G Lo. destruct (lost_no _ _ _ Lo) as (L1 & L2 & L3 & L4 & L5 & L6 & L7). unfold mshut_client. cbn [fst snd]. split; [|split].
  - destruct (n_cdown m) eqn:D.
    + intros x. unfold with_lost. destruct x; cbn [mholds]; proj; try tauto. rewrite D. tauto.
    + apply plays_unmade_if.
      * intros H. left. cbn [mholds]. auto.
      * intros _ y _. destruct y; cbn; try tauto; try (intros [H|[]]; discriminate); try (intros [H|[H|[]]]; discriminate); destruct strict; cbn; intuition discriminate.
      * intros y. unfold with_lost. destruct y; cbn [mholds]; proj; try (split; [intros A; split; [exact A|discriminate]|tauto]).
        split; [intros [(_ & _ & A)|A]; [discriminate|destruct (L6 _ A)]|]. intros [[(A & T & _)|A] B]; [subst i; destruct (B T eq_refl)|auto].
  - destruct G. constructor; proj; auto.
  - destruct Lo. constructor; proj; auto.
Qed.
Definition newly (m m' : mmembers) (x : thing) : Prop := exists a, x = Addr a /\ In a (somes (n_addrs m)) /\ ~ In a (somes (n_addrs m')).
Lemma mercury_call_plays strict k c m e m' L : mgood k m -> lost k m L -> n_cclass m = true -> mercury_call k c m = Some (e, m') ->
  plays (mercury_needs strict) (with_lost m L) e (with_lost m' (fun x => L x \/ newly m m' x)) /\ mgood (S k) m' /\ lost (S k) m' (fun x => L x \/ newly m m' x) /\ n_cclass m' = true.
Proof.
  intros G Lo C E.
  assert (Up : forall m1, mgood k m1 -> mgood (S k) m1) by (intros m1 []; constructor; auto; intros a A; destruct (mg_fresh0 a A); split; [lia|assumption]).
  assert (UpL : forall m1 L1, lost k m1 L1 -> lost (S k) m1 L1) by (intros m1 L1 []; constructor; auto; intros x X; destruct (l_what0 x X) as [|(a & Q & Z)]; [auto|right; exists a; split; [exact Q|lia]]).
  assert (Ext : forall m1, n_addrs m1 = n_addrs m -> forall x, (L x \/ newly m m1 x) <-> L x).
  { intros m1 Q x. split; [|auto]. intros [X|(a & _ & A & B)]; [exact X|]. rewrite Q in B. contradiction. }
  assert (Same : forall r : list event * mmembers, n_addrs (snd r) = n_addrs m -> n_cclass (snd r) = n_cclass m -> plays (mercury_needs strict) (with_lost m L) (fst r) (with_lost (snd r) L) /\ mgood k (snd r) /\ lost k (snd r) L ->
            plays (mercury_needs strict) (with_lost m L) (fst r) (with_lost (snd r) (fun x => L x \/ newly m (snd r) x)) /\ mgood (S k) (snd r) /\ lost (S k) (snd r) (fun x => L x \/ newly m (snd r) x) /\ n_cclass (snd r) = true).
  { intros r Q1 Q2 (A & B & D). split; [|split; [apply Up, B|split; [|congruence]]].
    - eapply plays_post; [|exact A]. intros x. unfold with_lost. rewrite (Ext _ Q1 x). reflexivity.
    - destruct (UpL _ _ D). constructor; [intros x X|intros a X]; apply (Ext _ Q1) in X; auto. }
  destruct c as [n|p works| |]; cbn [mercury_call] in E.
  - injection E as <- <-.
    assert (Sub : forall a, In a (somes (resize n None (n_addrs m))) -> In a (somes (n_addrs m))) by (intros a I; apply In_somes in I; apply resize_In in I; destruct I as [I|I]; [apply In_somes, I|discriminate]).
    split; [|split; [|split; [|exact C]]].
    + cbn [plays]. intros x. unfold with_lost, newly. destruct x; cbn [mholds]; proj; try (split; [tauto|intros [?|[?|(a & Q & _)]]; [auto|auto|discriminate]]).
      split.
      * intros [A|A]; [|auto]. destruct (in_dec Nat.eq_dec k0 (somes (resize n None (n_addrs m)))) as [I|I]; [auto|]. right. right. exists k0. auto.
      * intros [A|[A|(a & Q & A & _)]]; [auto|auto|]. injection Q as ->. auto.
    + apply Up. destruct G. constructor; proj; auto. apply resize_nodup; assumption.
    + apply UpL. destruct Lo as [W Gn]. constructor.
      * intros x [X|(a & -> & A & _)]; [auto|]. right. exists a. split; [reflexivity|]. apply (mg_fresh _ _ G a A).
      * intros a [X|(b & Q & _ & B)]; proj; [intros I; exact (Gn a X (Sub a I))|injection Q as ->; exact B].
  - destruct (Nat.ltb_spec p (length (n_addrs m))) as [Lt|]; [|discriminate]. destruct works.
    + injection E as <- <-. assert (Fr : ~ In k (somes (n_addrs m))) by (intros I; destruct (mg_fresh _ _ G _ I); lia).
      assert (NL : ~ L (Addr k)) by (intros X; destruct (l_what _ _ _ Lo _ X) as [Q|(a & Q & Z)]; [discriminate|injection Q as ->; lia]).
      assert (Has : In k (somes (lset p (Some k) (n_addrs m)))) by (apply In_somes, lset_has, Lt).
      split; [|split; [|split; [|exact C]]].
      * cbn [plays]. split; [intros [X|X]; [exact (Fr X)|exact (NL X)]|]. split; [intros y Y; cbn in Y; destruct strict; [destruct Y as [<-|[]]; left; exact C|destruct Y]|].
        intros x. unfold with_lost, newly. destruct x; cbn [mholds]; proj; try (split; [intros [?|?]; [tauto|discriminate]|intros [?|[?|(a & Q & _)]]; [auto|auto|discriminate]]).
        split.
        -- intros [[A|A]|A]; [|auto|injection A as ->; auto]. destruct (in_dec Nat.eq_dec k0 (somes (lset p (Some k) (n_addrs m)))) as [I|I]; [auto|]. right. right. exists k0. auto.
        -- intros [A|[A|(a & Q & A & _)]]; [|auto|injection Q as ->; auto]. apply In_somes in A. destruct (lset_In _ _ _ _ A) as [Q|I]; [injection Q as ->; auto|]. left. left. apply In_somes, I.
      * destruct G. constructor; proj; auto; [apply lset_nodup; assumption|]. intros a A. apply In_somes in A. destruct (lset_In _ _ _ _ A) as [Q|I]; [injection Q as ->; split; [lia|exact C]|].
        apply In_somes in I. destruct (mg_fresh0 a I). split; [lia|assumption].
      * destruct Lo as [W Gn]. constructor.
        -- intros x [X|(a & -> & A & _)]; [destruct (W x X) as [|(a & Q & Z)]; [auto|right; exists a; split; [exact Q|lia]]|]. right. exists a. split; [reflexivity|]. destruct (mg_fresh _ _ G a A). lia.
        -- intros a [X|(b & Q & _ & B)]; proj; [|injection Q as ->; exact B]. intros I. apply In_somes in I. destruct (lset_In _ _ _ _ I) as [Q|J]; [injection Q as ->; exact (NL X)|]. apply (Gn a X), In_somes, J.
    + injection E as <- <-. apply (Same ([], m)); [reflexivity..|]. cbn [fst snd]. split; [cbn; reflexivity|auto].
  - injection E as <- <-. apply (Same (mshut_server m)); [reflexivity..|]. apply mshut_server_plays; assumption.
  - injection E as <- <-. apply (Same (mshut_client m)); [reflexivity..|]. apply mshut_client_plays; assumption.
Qed.
(** The peers to which a connection was made. *)
Definition connected (l : list mcall) : list nat := flat_map (fun c => match c with Connect p true => [p] | _ => [] end) l.
Definition resizes (l : list mcall) : Prop := exists n, In (SetPeers n) l.
Lemma mercury_calls_plays strict l : forall k m e m' L, mgood k m -> lost k m L -> n_cclass m = true -> mercury_calls k l m = Some (e, m') ->
  exists k' L', plays (mercury_needs strict) (with_lost m L) e (with_lost m' L') /\ mgood k' m' /\ lost k' m' L' /\
    ((forall p a, nth_error (n_addrs m) p = Some (Some a) -> ~ In p (connected l)) -> NoDup (connected l) -> ~ resizes l -> forall x, L' x -> L x).
Proof.
  induction l as [|c l IH]; intros k m e m' L G Lo C E; cbn [mercury_calls] in E.
  - injection E as <- <-. exists k, L. split; [cbn; reflexivity|]. auto.
  - destruct (mercury_call k c m) as [[e1 m1]|] eqn:E1; [|discriminate]. destruct (mercury_calls (S k) l m1) as [[e2 m2]|] eqn:E2; [|discriminate]. injection E as <- <-.
    destruct (mercury_call_plays strict _ _ _ _ _ _ G Lo C E1) as (A1 & A2 & A3 & A4). destruct (IH _ _ _ _ _ A2 A3 A4 E2) as (k' & L' & B1 & B2 & B3 & B4).
    exists k', L'. split; [eapply plays_app; eassumption|]. split; [exact B2|]. split; [exact B3|]. intros Sl Nd Nr x X.
    assert (Nr' : ~ resizes l) by (intros (n & I); apply Nr; exists n; right; exact I).
    assert (K : (forall p a, nth_error (n_addrs m1) p = Some (Some a) -> ~ In p (connected l)) /\ NoDup (connected l) /\ forall a, In a (somes (n_addrs m)) -> In a (somes (n_addrs m1))).
    { destruct c as [n|p works| |]; cbn [mercury_call connected flat_map] in E1, Sl, Nd.
      - exfalso. apply Nr. exists n. left. reflexivity.
      - destruct (Nat.ltb_spec p (length (n_addrs m))) as [Lt|]; [|discriminate]. destruct works; injection E1 as <- <-; [|auto]. cbn [app] in Nd. inversion Nd as [|? ? N1 N2]; subst. proj. split; [|split; [exact N2|]].
        + intros q a Q I. destruct (Nat.eq_dec q p) as [->|D]; [exact (N1 I)|]. assert (Z : nth_error (n_addrs m) q = Some (Some a)).
          { revert Q D. clear. generalize (n_addrs m) p q. induction l as [|z l IH]; intros [|p'] [|q'] Q D; cbn [lset nth_error] in *; auto; try congruence. eapply IH; [exact Q|congruence]. }
          apply (Sl q a Z). right. exact I.
        + intros a I. apply In_somes in I. apply In_somes. destruct (nth_error (n_addrs m) p) as [[b|]|] eqn:Np; [|eapply lset_keeps; [exact Np|discriminate|exact I]|apply nth_error_None in Np; lia].
          destruct (Sl p b Np). left. reflexivity.
      - injection E1 as _ <-. proj. auto.
      - injection E1 as _ <-. proj. auto. }
    destruct K as (K1 & K2 & K3). destruct (B4 K1 K2 Nr' x X) as [Y|(a & _ & Y & Z)]; [exact Y|]. destruct (Z (K3 a Y)).
Qed.
Lemma plays_free strict l : forall (P : thing -> Prop), NoDup l -> (forall a, In a l -> P (Addr a)) ->
  plays (mercury_needs strict) P (map (fun a => Unmade (Addr a)) l) (fun x => P x /\ forall a, In a l -> x <> Addr a).
Proof.
  induction l as [|a l IH]; intros P N H; cbn [map plays].
  - intros x. split; [intros X; split; [exact X|intros a []]|tauto].
  - inversion N as [|? ? N1 N2]; subst. split; [apply H; left; reflexivity|]. split.
    { intros y _. destruct y; cbn; try tauto; try (intros [Q|[]]; discriminate); try (intros [Q|[Q|[]]]; discriminate); destruct strict; cbn; intuition discriminate. }
    eapply plays_post; [|apply (IH (fun y => P y /\ y <> Addr a))].
    + intros x. cbn [In]. split; [intros ((A & B) & D); split; [exact A|intros b [<-|I]; auto]|intros (A & B); split; [split; [exact A|apply B; auto]|intros b I; apply B; auto]].
    + exact N2.
    + intros b I. split; [apply H; right; exact I|]. intros Q. injection Q as ->. exact (N1 I).
Qed.
Lemma mdestroy_plays strict k m L : mgood k m -> lost k m L -> (strict = true -> forall x, ~ L x) ->
  plays (mercury_needs strict) (with_lost m L) (mercury_destroy m) L.
Proof.
  intros G Lo NL. unfold mercury_destroy. destruct (mshut_server_plays strict _ _ _ G Lo) as (A1 & A2 & A3).
  assert (S1 : n_sdown (snd (mshut_server m)) = true /\ n_pool (snd (mshut_server m)) = false) by (split; reflexivity).
  destruct (mshut_server m) as [e1 m1]. cbn [fst snd] in *.
  destruct (mshut_client_plays strict _ _ _ A2 A3) as (B1 & B2 & B3).
  assert (S2 : n_sdown (snd (mshut_client m1)) = true /\ n_pool (snd (mshut_client m1)) = false /\ n_cdown (snd (mshut_client m1)) = true) by (unfold mshut_client; cbn; tauto).
  destruct (mshut_client m1) as [e2 m2]. cbn [fst snd] in *. eapply plays_app; [exact A1|]. eapply plays_app; [exact B1|].
  clear A1 A2 A3 B1 S1 e1 e2 G Lo. destruct S2 as (S1 & S2 & S3). destruct (lost_no _ _ _ B3) as (L1 & L2 & L3 & L4 & L5 & L6 & L7).
  apply (plays_app _ _ _ _ (fun x => (match x with Addr _ => False | _ => mholds m2 x end) \/ L x)).
  { rewrite free_somes. eapply plays_post; [|apply plays_free; [apply B2|intros a A; left; exact A]].
    intros x. unfold with_lost. destruct x; cbn [mholds]; try (split; [tauto|intros H; split; [exact H|discriminate]]).
    split; [intros [[A|A] B]; [destruct (B _ A eq_refl)|auto]|intros [[]|A]; split; [auto|]]. intros a I Q. injection Q as ->. exact (l_gone _ _ _ B3 _ A I). }
  cbn [app plays].
  apply (plays_app _ _ _ _ (fun x => (match x with ServerClass | ClientClass | ClientContext => mholds m2 x | _ => False end) \/ L x)).
  { apply plays_unmade_if.
    - intros H. left. exact H.
    - intros _ y [Y|Y]; destruct y; cbn; try tauto; try (intros [Q|[]]; discriminate); try (cbn in Y; destruct Y as (_ & _ & Y); congruence); try (destruct (L7 _ Y)); destruct strict; cbn; intuition discriminate.
    - intros y. destruct y; cbn [mholds]; rewrite ?S1, ?S2, ?S3; try (split; [intros [[]|A]; split; [auto|discriminate]|intros [[A|A] B]; [first [destruct A; fail|discriminate|(destruct A as (_ & _ & A); discriminate)]|auto]]);
        try (split; [intros A; split; [exact A|discriminate]|tauto]).
      split; [intros [[]|A]; destruct (L4 A)|intros [[A|A] B]; [destruct (B A eq_refl)|auto]]. }
  apply (plays_app _ _ _ _ (fun x => (match x with ClientClass | ClientContext => mholds m2 x | _ => False end) \/ L x)).
  { apply plays_unmade_if.
    - intros H. left. exact H.
    - intros _ y [Y|Y]; destruct y; cbn; try tauto; try (intros [Q|[]]; discriminate); try (destruct (L7 _ Y)); try (destruct (L4 Y)); destruct strict; cbn; try tauto; try (destruct (NL eq_refl _ Y)).
    - intros y. destruct y; cbn [mholds]; try (split; [intros [[]|A]; split; [auto|discriminate]|intros [[[]|A] B]; auto]);
        try (split; [intros A; split; [exact A|discriminate]|tauto]).
      split; [intros [[]|A]; destruct (L2 A)|intros [[A|A] B]; [destruct (B A eq_refl)|auto]]. }
  apply (plays_app _ _ _ _ (fun x => (match x with ClientClass => mholds m2 x | _ => False end) \/ L x)).
  { apply plays_unmade_if.
    - intros H. left. exact H.
    - intros _ y [Y|Y]; destruct y; cbn; try tauto; try (intros [Q|[]]; discriminate); try (destruct (L6 _ Y)); destruct strict; cbn; intuition discriminate.
    - intros y. destruct y; cbn [mholds]; try (split; [intros [[]|A]; split; [auto|discriminate]|intros [[[]|A] B]; auto]);
        try (split; [intros A; split; [exact A|discriminate]|tauto]).
      split; [intros [[]|A]; destruct (L5 A)|intros [[A|A] B]; [destruct (B A eq_refl)|auto]]. }
  apply plays_unmade_if.
  - intros H. left. exact H.
  - intros _ y [Y|Y]; destruct y; cbn; try tauto; try (intros [Q|[]]; discriminate); try (destruct (L5 Y)); try (destruct (L7 _ Y)); destruct strict; cbn; try tauto; try (destruct (NL eq_refl _ Y)).
  - intros y. destruct y; cbn [mholds]; try (split; [intros A; split; [auto|discriminate]|intros [[[]|A] B]; auto]).
    split; [intros A; destruct (L3 A)|intros [[A|A] B]; [destruct (B A eq_refl)|auto]].
Qed.

(** ** Initialize *)
Ltac step_cases works :=
  destruct (works HgInitServer); [destruct (works HgInitClient); [destruct (works HgContextClient); [destruct (works HgContextServer); [destruct (works HgRegister), (works HgSelf); [destruct (works HgToString), (works HgFree)|..]|]|]|]|];
  cbn [negb orb andb fst snd app forallb]; proj.
Lemma mercury_steps_good works : mgood 0 (snd (mercury_steps works)).
Proof. unfold mercury_steps. cbv zeta. step_cases works; constructor; proj; try tauto; try discriminate; try (intros; split; reflexivity); try (constructor; fail); try (intros a []); constructor. Qed.
Lemma mercury_steps_ok works : n_threads (snd (mercury_steps works)) = forallb (fun c => works (fst c)) hg_calls.
Proof. unfold mercury_steps, hg_calls. cbv zeta. cbn [forallb fst]. step_cases works; reflexivity. Qed.
Lemma mercury_steps_rest works : let m := snd (mercury_steps works) in
  n_addrs m = [] /\ n_cdown m = false /\ n_sdown m = false /\ n_pool m = true /\ (n_threads m = true -> n_cclass m = true /\ n_sclass m = true /\ n_id m = true).
Proof. unfold mercury_steps. cbv zeta. step_cases works; repeat split; intros; auto; discriminate. Qed.
Lemma mercury_steps_plays strict works : let r := mercury_steps works in
  plays (mercury_needs strict) (fun x => x = Pool) (fst r) (with_lost (snd r) (fun x => x = SelfAddr /\ In (Made SelfAddr) (fst r) /\ n_threads (snd r) = false)).
Proof.
  unfold mercury_steps. cbv zeta. step_cases works; cbn [plays];
    repeat match goal with
      | |- _ /\ _ => split
      | |- forall y, In y (mercury_needs _ _) -> _ => intros y Y; destruct strict; cbn in Y; repeat destruct Y as [<-|Y]; try (destruct Y; fail); intuition discriminate
      | |- forall y, _ -> ~ In _ (mercury_needs _ y) => intros y Y H; destruct y, strict; cbn in H; intuition discriminate
      | |- ~ _ => intuition discriminate
      | |- forall x, _ <-> _ => intros x; unfold with_lost; destruct x; cbn [mholds In]; proj; cbn [somes flat_map In]; intuition (subst; discriminate || congruence || auto)
      end; auto; try tauto.
Qed.
