(** Lemmas for Tree_Props.v: gRPC. *)
From Coq Require Import Ascii String List NArith ZArith Bool Arith Lia.
From Verif Require Import Base_Model Base_Proofs Util_Model Net_Model Pool_Model Driver_Model Grpc_Model Conn_Model Res_Model Res_Proofs Res_Proofs2 Tree_Model.
Import ListNotations.
Open Scope nat_scope.

(** Threads work on completion queues; a server that listens, and the thread of
    a polling one, need the service and whatever handles the RPCs. *)
Definition grpc_needs (t : server_type) (x : thing) : list thing :=
  match x with
  | ClientThread _ => [ClientCq]
  | ServerThread _ => [Service; ServerCq; Pool]
  | Listening => Service :: match t with TInline => [] | THandoff => [Pool] | TPolling => [ServerCq; Pool] end
  | _ => []
  end.
Lemma stub_needed t y a : ~ In (Stub a) (grpc_needs t y).
Proof. destruct y; cbn; try tauto; destruct t; cbn; intuition discriminate. Qed.

Lemma somes_app l m : somes (l ++ m) = somes l ++ somes m.
Proof. unfold somes. apply flat_map_app. Qed.
Lemma somes_resize n : forall l, somes (resize n None l) = somes (firstn n l).
Proof.
  induction n as [|n IH]; intros [|[a|] l]; cbn [resize firstn somes flat_map app]; try reflexivity.
  - specialize (IH []). rewrite firstn_nil in IH. exact IH.
  - f_equal. apply IH.
  - apply IH.
Qed.
Lemma somes_cut n l : somes l = somes (firstn n l) ++ somes (skipn n l).
Proof. rewrite <- somes_app, firstn_skipn. reflexivity. Qed.
Lemma lset_split {A} (x : A) l : forall p, p < length l -> exists l1 a l2, l = l1 ++ a :: l2 /\ nth_error l p = Some a /\ lset p x l = l1 ++ x :: l2.
Proof.
  induction l as [|y l IH]; intros [|p] H; cbn [length] in H; try lia.
  - exists [], y, l. repeat split.
  - destruct (IH p ltac:(lia)) as (l1 & a & l2 & E & B & C). exists (y :: l1), a, l2. cbn [nth_error lset app]. rewrite B, C, <- E. repeat split.
Qed.
Lemma free_stubs_somes l : free_stubs l = map (fun a => Unmade (Stub a)) (somes l).
Proof. induction l as [|[a|] l IH]; cbn; [reflexivity|f_equal; exact IH|exact IH]. Qed.
Lemma plays_stubs t l : forall (P : thing -> Prop), NoDup l -> (forall a, In a l -> P (Stub a)) ->
  plays (grpc_needs t) P (map (fun a => Unmade (Stub a)) l) (fun x => P x /\ forall a, In a l -> x <> Stub a).
Proof.
  induction l as [|a l IH]; intros P N H; cbn [map plays].
  - intros x. split; [intros X; split; [exact X|intros a []]|tauto].
  - inversion N as [|? ? N1 N2]; subst. split; [apply H; left; reflexivity|]. split; [intros y _; apply stub_needed|].
    eapply plays_post; [|apply IH; [exact N2|]].
    + intros x. cbn beta. split.
      * intros ((X & Y) & Z). split; [exact X|]. intros b [<-|I]; [exact Y|apply Z, I].
      * intros (X & Z). split; [split; [exact X|apply Z; left; reflexivity]|intros b I; apply Z; right; exact I].
    + intros b I. split; [apply H; right; exact I|]. intros E. injection E as ->. exact (N1 I).
Qed.

(** ** Members and what is held *)
Definition srv (m : gmembers) (f : gserver -> bool) : Prop := match g_server m with Some s => f s = true | None => False end.
Definition gholds (m : gmembers) (x : thing) : Prop :=
  match x with
  | ClientCq => g_client m = Some ClientPolling
  | ClientThread i => i = 0 /\ g_client m = Some ClientPolling /\ g_cdown m = false
  | Stub a => In a (somes (g_stubs m ++ g_mstubs m))
  | Pool => srv m s_pool
  | Service => srv m s_service
  | ServerCq => srv m s_cq
  | Listening => srv m s_listening
  | ServerThread i => i = 0 /\ srv m s_thread
  | _ => False
  end.
Record ggood (t : server_type) (k : nat) (m : gmembers) : Prop := {
  gg_listen : srv m s_listening -> srv m s_service /\ (t <> TInline -> srv m s_pool) /\ (t = TPolling -> srv m s_cq);
  gg_thread : srv m s_thread -> srv m s_service /\ srv m s_cq /\ srv m s_pool;
  gg_nodup : NoDup (somes (g_stubs m ++ g_mstubs m));
  gg_fresh : forall a, In a (somes (g_stubs m ++ g_mstubs m)) -> a < k }.
(** Between the destructor of server_ and that of client_ nothing of a server is
    held; so it is with a driver whose server_ is null. *)
Definition no_server (m : gmembers) : gmembers := mkGm (g_client m) (g_cdown m) (g_stubs m) (g_mstubs m) None.

Lemma NoDup_l {A} (l m : list A) : NoDup (l ++ m) -> NoDup l.
Proof. induction l as [|a l IH]; cbn; intros H; [apply NoDup_nil|]. inversion H as [|? ? H1 H2]; subst. constructor; [|apply IH, H2]. intros I. apply H1, in_or_app. left. exact I. Qed.
Lemma NoDup_r {A} (l m : list A) : NoDup (l ++ m) -> NoDup m.
Proof. induction l as [|a l IH]; cbn; intros H; [exact H|]. inversion H; auto. Qed.
Lemma NoDup_disj {A} (l m : list A) a : NoDup (l ++ m) -> In a l -> ~ In a m.
Proof. induction l as [|b l IH]; cbn; intros H I; [destruct I|]. inversion H as [|? ? H1 H2]; subst. destruct I as [->|I]; [intros J; apply H1, in_or_app; auto|auto]. Qed.

Lemma gshut_client_plays t k m : ggood t k m ->
  plays (grpc_needs t) (gholds m) (fst (gshut_client m)) (gholds (snd (gshut_client m))) /\ ggood t k (snd (gshut_client m)).
Proof.
  intros G. unfold gshut_client. destruct (g_client m) as [c|] eqn:C; cbn [fst snd].
  2: { split; [intros x; reflexivity|exact G]. }
  pose proof (gg_nodup _ _ _ G) as N. rewrite somes_app in N. split.
  - set (b := (match c with ClientPolling => true | ClientCallback => false end) && negb (g_cdown m)).
    change (if b then [Unmade (ClientThread 0)] else []) with (unmade_if b (ClientThread 0)).
    eapply plays_app.
    + apply plays_unmade_if with (Q := fun y => gholds m y /\ (b = true -> y <> ClientThread 0)).
      * intros B. cbn [gholds]. subst b. destruct c; [|discriminate]. destruct (g_cdown m); [discriminate|]. auto.
      * intros _ y _ I. destruct y; cbn in I; try tauto; destruct t; cbn in I; intuition discriminate.
      * intros y. reflexivity.
    + rewrite free_stubs_somes. eapply plays_post; [|apply plays_stubs].
      * intros x. cbn beta. unfold gholds. cbn [g_client g_cdown g_stubs g_mstubs app]. unfold srv. cbn [g_server]. subst b. rewrite C.
        destruct x; try solve [split; [tauto|]; intros X; split; [split; [exact X|intros _; discriminate]|intros; discriminate]].
        -- split.
           ++ intros (((-> & P & D) & B) & _). exfalso. injection P as ->. rewrite D in B. apply (B eq_refl). reflexivity.
           ++ intros (-> & P & D). injection P as ->. discriminate D.
        -- rewrite somes_app, in_app_iff. split.
           ++ intros ((I & _) & X). destruct I as [I|I]; [destruct (X _ I eq_refl)|exact I].
           ++ intros I. repeat split; [right; exact I|intros _; discriminate|]. intros a J E. injection E as ->. exact (NoDup_disj _ _ _ N J I).
      * apply (NoDup_l _ _ N).
      * intros a I. cbn [gholds]. split; [rewrite somes_app, in_app_iff; left; exact I|intros _; discriminate].
  - constructor; unfold srv; cbn [g_server g_stubs g_mstubs app]; try apply G; [apply (NoDup_r _ _ N)|].
    intros a I. apply (gg_fresh _ _ _ G). rewrite somes_app, in_app_iff. right. exact I.
Qed.
Lemma gshut_server_plays t k m : ggood t k m ->
  plays (grpc_needs t) (gholds m) (fst (gshut_server m)) (gholds (snd (gshut_server m))) /\ ggood t k (snd (gshut_server m)).
Proof.
  intros G. unfold gshut_server. destruct (g_server m) as [s|] eqn:E; cbn [fst snd].
  2: { split; [intros x; reflexivity|exact G]. }
  split.
  - eapply plays_app.
    + apply plays_unmade_if with (Q := fun y => gholds m y /\ (s_listening s = true -> y <> Listening)).
      * intros B. cbn [gholds]. unfold srv. rewrite E. exact B.
      * intros _ y _ I. destruct y; cbn in I; try tauto; destruct t; cbn in I; intuition discriminate.
      * intros y. reflexivity.
    + apply plays_unmade_if.
      * intros B. cbn [gholds]. unfold srv. rewrite E. repeat split; auto. intros _. discriminate.
      * intros _ y _ I. destruct y; cbn in I; try tauto; destruct t; cbn in I; intuition discriminate.
      * intros y. unfold gholds, srv. rewrite E. cbn [g_client g_cdown g_stubs g_mstubs g_server s_pool s_service s_cq s_listening s_thread].
        destruct y; try solve [split; [intros X; split; [split; [exact X|intros _; discriminate]|intros _; discriminate]|tauto]].
        -- split; [intros [_ X]; discriminate|]. intros (((-> & X) & _) & Y). destruct (Y X eq_refl).
        -- split; [discriminate|]. intros ((X & Y) & _). destruct (Y X eq_refl).
  - constructor; unfold srv; cbn [g_server g_stubs g_mstubs s_listening s_thread]; try discriminate; apply G.
Qed.
Lemma gserver_destroy_plays t k m s : ggood t k m -> g_server m = Some s -> s_listening s = false -> s_thread s = false ->
  plays (grpc_needs t) (gholds m) (gserver_destroy s) (gholds (no_server m)).
Proof.
  intros G E L T. unfold gserver_destroy. destruct s as [ty pl sv cq ls th]. cbn [s_pool s_service s_cq s_listening s_thread] in *. subst ls th.
  assert (NN : forall x, x = Pool \/ x = Service \/ x = ServerCq -> forall y, gholds m y -> ~ In x (grpc_needs t y)).
  { intros x X y H I. destruct y; cbn [gholds grpc_needs In] in *; try tauto; unfold srv in H; rewrite ?E in H; cbn [s_listening s_thread] in H; try discriminate; try (destruct H; discriminate).
    intuition subst; discriminate. }
  eapply plays_app; [|eapply plays_app].
  - apply plays_unmade_if with (Q := fun y => gholds m y /\ (pl = true -> y <> Pool)); [| |intros y; reflexivity].
    + intros B. cbn [gholds]. unfold srv. rewrite E. exact B.
    + intros _ y Y. apply NN; auto.
  - apply plays_unmade_if with (Q := fun y => (gholds m y /\ (pl = true -> y <> Pool)) /\ (sv = true -> y <> Service)); [| |intros y; reflexivity].
    + intros B. cbn [gholds]. unfold srv. rewrite E. split; [exact B|intros _; discriminate].
    + intros _ y [Y _]. apply NN; auto.
  - apply plays_unmade_if.
    + intros B. cbn [gholds]. unfold srv. rewrite E. repeat split; [exact B|intros _; discriminate..].
    + intros _ y [[Y _] _]. apply NN; auto.
    + intros y. unfold gholds, srv. rewrite E. cbn [no_server g_client g_cdown g_stubs g_mstubs g_server s_pool s_service s_cq s_listening s_thread].
      destruct y; try solve [split; [intros X; split; [split; [split; [exact X|intros _; discriminate]|intros _; discriminate]|intros _; discriminate]|tauto]].
      all: split; [tauto|]; intros (((A & B) & C) & D); first [discriminate A|destruct (B A eq_refl)|destruct (C A eq_refl)|destruct (D A eq_refl)|destruct A as [_ A]; discriminate A].
Qed.
Lemma gshut_client_no_server m : gshut_client (no_server m) = (fst (gshut_client m), no_server (snd (gshut_client m))).
Proof. destruct m as [[[|]|] d st ms s]; reflexivity. Qed.
Lemma ggood_no_server t k m : ggood t k m -> ggood t k (no_server m).
Proof. intros G. constructor; unfold srv; cbn [no_server g_server g_stubs g_mstubs]; try tauto; apply G. Qed.
Lemma grpc_destroy_eq m : let c1 := gshut_client m in let s1 := gshut_server (snd c1) in let c2 := gshut_client (snd s1) in
  grpc_destroy m = fst c1 ++ fst s1 ++ match g_server (snd s1) with Some s => gserver_destroy s | None => [] end
    ++ fst c2 ++ match g_client (snd c2) with Some ClientPolling => [Unmade ClientCq] | _ => [] end ++ free_stubs (g_mstubs (snd c2)) ++ free_stubs (g_stubs (snd c2)).
Proof.
  cbn zeta. unfold grpc_destroy. destruct (gshut_client m) as [e1 m1]. cbn [fst snd]. destruct (gshut_server m1) as [e2 m2]. cbn [fst snd]. destruct (gshut_client m2) as [e3 m3]. reflexivity.
Qed.
Lemma gshut_server_stops m : match g_server (snd (gshut_server m)) with Some s => s_listening s = false /\ s_thread s = false | None => True end.
Proof. unfold gshut_server. destruct (g_server m) as [s|] eqn:E; cbn [snd g_server s_listening s_thread]; [auto|rewrite E; exact Logic.I]. Qed.
Lemma gshut_client_stops m : g_client m <> None -> g_stubs (snd (gshut_client m)) = [] /\ (g_client (snd (gshut_client m)) = Some ClientPolling -> g_cdown (snd (gshut_client m)) = true).
Proof. intros H. unfold gshut_client. destruct (g_client m) as [[|]|] eqn:E; [| |destruct (H eq_refl)]; cbn [snd g_stubs g_client g_cdown]; rewrite ?E; split; auto; discriminate. Qed.
Lemma gshut_server_client m : g_client (snd (gshut_server m)) = g_client m /\ g_stubs (snd (gshut_server m)) = g_stubs m /\ g_mstubs (snd (gshut_server m)) = g_mstubs m.
Proof. unfold gshut_server. destruct (g_server m); repeat split. Qed.
Lemma gshut_client_client m : g_client (snd (gshut_client m)) = g_client m.
Proof. unfold gshut_client. destruct (g_client m) eqn:E; cbn [snd g_client]; auto. Qed.
Lemma grpc_destroy_plays t k m : ggood t k m -> (g_client m = None -> g_stubs m = [] /\ g_mstubs m = []) -> plays (grpc_needs t) (gholds m) (grpc_destroy m) (fun _ => False).
Proof.
  intros G0 Z. rewrite grpc_destroy_eq. destruct (gshut_client_plays t k m G0) as [P1 G1]. set (m1 := snd (gshut_client m)) in *.
  destruct (gshut_server_plays t k m1 G1) as [P2 G2]. pose proof (gshut_server_stops m1) as S2. set (m2 := snd (gshut_server m1)) in *.
  eapply plays_app; [exact P1|]. eapply plays_app; [exact P2|].
  assert (P3 : plays (grpc_needs t) (gholds m2) match g_server m2 with Some s => gserver_destroy s | None => [] end (gholds (no_server m2))).
  { destruct (g_server m2) as [s|] eqn:E.
    - destruct S2 as [L T]. eapply gserver_destroy_plays; eassumption.
    - intros x. unfold gholds, srv. rewrite E. reflexivity. }
  eapply plays_app; [exact P3|]. pose proof (ggood_no_server _ _ _ G2) as G3. destruct (gshut_client_plays t k _ G3) as [P4 G4].
  rewrite gshut_client_no_server in P4, G4. cbn [fst snd] in P4, G4. eapply plays_app; [exact P4|].
  assert (C : g_client m2 = g_client m). { unfold m2, m1. rewrite (proj1 (gshut_server_client _)). apply gshut_client_client. }
  assert (D : g_stubs (snd (gshut_client m2)) = [] /\ (g_client (snd (gshut_client m2)) = Some ClientPolling -> g_cdown (snd (gshut_client m2)) = true)).
  { destruct (g_client m) as [c|] eqn:Cm; [apply gshut_client_stops; rewrite C; discriminate|]. unfold gshut_client. rewrite C. cbn [snd]. rewrite C. split; [|discriminate].
    unfold m2. rewrite (proj1 (proj2 (gshut_server_client _))). unfold m1, gshut_client. rewrite Cm. apply Z. reflexivity. }
  set (m4 := snd (gshut_client m2)) in *. destruct D as [D1 D2]. rewrite D1. cbn [free_stubs flat_map]. rewrite app_nil_r.
  pose proof (gg_nodup _ _ _ G4) as N. cbn [no_server g_stubs g_mstubs] in N. rewrite D1 in N. cbn [app] in N.
  apply plays_app with (R := fun x => exists a, x = Stub a /\ In a (somes (g_mstubs m4))).
  - assert (H : forall x, gholds (no_server m4) x <-> (x = ClientCq /\ g_client m4 = Some ClientPolling) \/ exists a, x = Stub a /\ In a (somes (g_mstubs m4))).
    { intros x. destruct x; cbn [gholds no_server g_client g_cdown g_stubs g_mstubs]; unfold srv; cbn [no_server g_server]; rewrite ?D1; cbn [app];
        try solve [split; [tauto|intros [[Q _]|(a & Q & _)]; discriminate Q]].
      - split; [intros (_ & A & B); rewrite (D2 A) in B; discriminate B|intros [[Q _]|(a & Q & _)]; discriminate Q].
      - split; [intros A; left; auto|intros [[_ A]|(a & Q & _)]; [exact A|discriminate Q]].
      - split; [intros A; right; eauto|intros [[Q _]|(a & Q & A)]; [discriminate Q|injection Q as ->; exact A]]. }
    destruct (g_client m4) as [[|]|]; cbn [plays].
    + split; [apply H; auto|]. split.
      * intros y Y. apply H in Y. destruct Y as [[-> _]|(a & -> & _)]; cbn; tauto.
      * intros x. rewrite H. split; [intros [[[-> _]|X] N']; [destruct (N' eq_refl)|exact X]|intros X; split; [auto|]; destruct X as (a & -> & _); discriminate].
    + intros x. rewrite H. split; [intros [[_ Q]|X]; [discriminate Q|exact X]|auto].
    + intros x. rewrite H. split; [intros [[_ Q]|X]; [discriminate Q|exact X]|auto].
  - rewrite free_stubs_somes. eapply plays_post; [|apply plays_stubs; [exact N|]].
    + intros x. cbn beta. split; [intros [(a & -> & I) X]; exact (X a I eq_refl)|tauto].
    + intros a I. exists a. auto.
Qed.

(** ** Calls *)
Lemma plays_store t k p l (P Q : thing -> Prop) : p < length l -> NoDup (somes l) -> (forall a, In a (somes l) -> P (Stub a)) -> ~ P (Stub k) -> ~ In k (somes l) ->
  (forall x, Q x <-> (P x /\ (forall a, nth_error l p = Some (Some a) -> x <> Stub a)) \/ x = Stub k) -> plays (grpc_needs t) P (store k p l) Q.
Proof.
  intros L N H F F' E. unfold store. cbn [plays grpc_needs In]. split; [exact F|]. split; [tauto|].
  destruct (nth_error l p) as [[a|]|] eqn:A; cbn [free_stubs flat_map app plays].
  - assert (I : In a (somes l)) by (apply In_somes, nth_error_In with p, A). split; [left; apply H, I|]. split; [intros y _; apply stub_needed|].
    intros x. rewrite E. split.
    + intros [[X| ->] Y]; [left; split; [exact X|]|auto]. intros b B. injection B as ->. exact Y.
    + intros [[X Y]| ->]; [split; [auto|apply Y; reflexivity]|split; [auto|]]. intros Q0. injection Q0 as ->. exact (F' I).
  - intros x. rewrite E. split; [intros [X|X]; [left; split; [exact X|discriminate]|auto]|intros [[X _]|X]; auto].
  - intros x. rewrite E. split; [intros [X|X]; [left; split; [exact X|discriminate]|auto]|intros [[X _]|X]; auto].
Qed.
Definition gsame (m m' : gmembers) : Prop := g_client m' = g_client m /\ g_cdown m' = g_cdown m /\ g_server m' = g_server m.
Lemma gholds_same m m' x : gsame m m' -> (forall a, x <> Stub a) -> gholds m' x <-> gholds m x.
Proof. intros (A & B & C) N. destruct x; cbn [gholds]; unfold srv; rewrite ?A, ?B, ?C; try reflexivity. destruct (N k eq_refl). Qed.
Lemma ggood_same t k k' m m' : gsame m m' -> ggood t k m -> NoDup (somes (g_stubs m' ++ g_mstubs m')) -> (forall a, In a (somes (g_stubs m' ++ g_mstubs m')) -> a < k') -> ggood t k' m'.
Proof. intros (A & B & C) G N F. constructor; [| |exact N|exact F]; unfold srv; rewrite C; apply G. Qed.
Lemma ggood_mono t k m : ggood t k m -> ggood t (S k) m.
Proof. intros G. constructor; try apply G. intros a I. pose proof (gg_fresh _ _ _ G a I). lia. Qed.
Lemma nodup_drop {A} (a b c : list A) : NoDup (a ++ b ++ c) -> NoDup (a ++ c).
Proof.
  induction a as [|x a IH]; cbn [app]; intros H; [apply (NoDup_r b), H|]. inversion H as [|? ? H1 H2]; subst. constructor; [|apply IH, H2].
  intros I. apply H1. rewrite !in_app_iff in *. tauto.
Qed.
Lemma nodup_swap {A} (k : A) a b c : NoDup (a ++ b ++ c) -> ~ In k (a ++ b ++ c) -> NoDup (a ++ (k :: c)).
Proof.
  intros H K. apply (NoDup_Add (a := k) (l := a ++ c)); [apply Add_app|]. split; [eapply nodup_drop; exact H|]. intros I. apply K. rewrite !in_app_iff in *. tauto.
Qed.
(** Both lists of stubs are handled alike: [put] says where the list is. *)
Definition put (second : bool) (l : list (option nat)) (m : gmembers) : gmembers :=
  if second then mkGm (g_client m) (g_cdown m) (g_stubs m) l (g_server m) else mkGm (g_client m) (g_cdown m) l (g_mstubs m) (g_server m).
Definition get (second : bool) (m : gmembers) : list (option nat) := if second then g_mstubs m else g_stubs m.
Lemma put_same b l m : gsame m (put b l m).
Proof. destruct b; repeat split. Qed.
Lemma put_stubs b l m a : In a (somes (g_stubs (put b l m) ++ g_mstubs (put b l m))) <-> In a (somes l) \/ In a (somes (get (negb b) m)).
Proof. destruct b; cbn [put get negb g_stubs g_mstubs]; rewrite somes_app, in_app_iff; tauto. Qed.
Lemma nodup_comm {A} (a b : list A) : NoDup (a ++ b) -> NoDup (b ++ a).
Proof.
  induction a as [|x a IH]; cbn [app]; intros H; [rewrite app_nil_r; exact H|]. inversion H as [|? ? H1 H2]; subst.
  apply (NoDup_Add (a := x) (l := b ++ a)); [apply Add_app|]. split; [apply IH, H2|]. intros I. apply H1. rewrite in_app_iff in *. tauto.
Qed.
Lemma put_nodup b l m : NoDup (somes (g_stubs (put b l m) ++ g_mstubs (put b l m))) <-> NoDup (somes l ++ somes (get (negb b) m)).
Proof. destruct b; cbn [put get negb g_stubs g_mstubs]; rewrite somes_app; split; auto using nodup_comm. Qed.
Lemma get_put b m : put b (get b m) m = m.
Proof. destruct b, m; reflexivity. Qed.
Lemma good_split t k b m : ggood t k m -> NoDup (somes (get b m) ++ somes (get (negb b) m)) /\ forall a, In a (somes (get b m)) \/ In a (somes (get (negb b) m)) -> a < k.
Proof.
  intros G. split; [apply put_nodup; rewrite get_put; apply G|]. intros a I. apply (gg_fresh _ _ _ G).
  rewrite <- (get_put b m) at 1 2. apply put_stubs. exact I.
Qed.
Lemma holds_split b m a : gholds m (Stub a) <-> In a (somes (get b m)) \/ In a (somes (get (negb b) m)).
Proof. cbn [gholds]. rewrite <- put_stubs, get_put. reflexivity. Qed.

Lemma resize_plays t k b n m : ggood t k m -> plays (grpc_needs t) (gholds m) (free_stubs (skipn n (get b m))) (gholds (put b (resize n None (get b m)) m)) /\
  ggood t (S k) (put b (resize n None (get b m)) m).
Proof.
  intros G. destruct (good_split t k b m G) as [N F]. rewrite (somes_cut n (get b m)), <- app_assoc in N. split.
  - rewrite free_stubs_somes. eapply plays_post; [|apply plays_stubs].
    + intros x. cbn beta. destruct x; try (rewrite (gholds_same _ _ _ (put_same b _ m)) by discriminate; split; [tauto|intros X; split; [exact X|discriminate]]).
      rewrite (holds_split b m). cbn [gholds]. rewrite put_stubs, somes_resize. rewrite (somes_cut n (get b m)), in_app_iff. split.
      * intros [[[X|X]|X] Y]; auto. destruct (Y _ X eq_refl).
      * intros X. split; [tauto|]. intros a I E. injection E as ->. destruct X as [X|X].
        -- apply (NoDup_disj _ _ _ N X). rewrite in_app_iff. auto.
        -- apply NoDup_r in N. exact (NoDup_disj _ _ _ N I X).
    + apply NoDup_r in N. apply NoDup_l in N. exact N.
    + intros a I. apply (holds_split b). left. rewrite (somes_cut n), in_app_iff. auto.
  - eapply ggood_same; [apply put_same|exact G| |].
    + apply put_nodup. rewrite somes_resize. eapply nodup_drop, N.
    + intros a I. apply put_stubs in I. rewrite somes_resize in I. assert (a < k); [|lia]. apply F. destruct I as [I|I]; [|auto]. left. rewrite (somes_cut n), in_app_iff. auto.
Qed.
Lemma store_plays t k b p m : ggood t k m -> p < length (get b m) -> plays (grpc_needs t) (gholds m) (store k p (get b m)) (gholds (put b (lset p (Some k) (get b m)) m)) /\
  ggood t (S k) (put b (lset p (Some k) (get b m)) m).
Proof.
  intros G L. destruct (good_split t k b m G) as [N F]. destruct (lset_split (Some k) (get b m) p L) as (l1 & a & l2 & E1 & E2 & E3).
  assert (K : ~ gholds m (Stub k)). { intros H. apply (holds_split b) in H. apply F in H. lia. }
  assert (SL : somes (get b m) = somes l1 ++ somes [a] ++ somes l2). { rewrite E1 at 1. rewrite !somes_app. cbn [somes flat_map]. rewrite app_nil_r. reflexivity. }
  assert (SS : somes (lset p (Some k) (get b m)) = somes l1 ++ k :: somes l2). { rewrite E3, somes_app. reflexivity. }
  rewrite SL in N. rewrite <- !app_assoc in N. split.
  - apply plays_store.
    + exact L.
    + rewrite SL. apply (NoDup_l _ (somes (get (negb b) m))). rewrite <- !app_assoc. exact N.
    + intros c I. apply (holds_split b). auto.
    + exact K.
    + intros I. apply K, (holds_split b). auto.
    + intros x. rewrite E2. destruct x; try (rewrite (gholds_same _ _ _ (put_same b _ m)) by discriminate; split; [intros X; left; split; [exact X|discriminate]|intros [[X _]|X]; [exact X|discriminate X]]).
      rewrite (holds_split b m). cbn [gholds]. rewrite put_stubs, SS, SL, !in_app_iff. cbn [In]. split.
      * intros [[X|[<-|X]]|X]; [left|right; reflexivity|left|left].
        -- split; [auto|]. intros c C Q. injection Q as ->. injection C as ->. apply (NoDup_disj _ _ _ N X). left. reflexivity.
        -- split; [auto|]. intros c C Q. injection Q as ->. injection C as ->. apply NoDup_r in N. apply (NoDup_disj _ _ c N); [left; reflexivity|]. rewrite in_app_iff. auto.
        -- split; [auto|]. intros c C Q. injection Q as ->. injection C as ->. apply NoDup_r in N. apply (NoDup_disj _ _ c N); [left; reflexivity|]. rewrite in_app_iff. auto.
      * intros [[X Y]|X]; [|injection X as ->; auto]. destruct X as [[X|[X|X]]|X]; auto. exfalso. destruct a as [c|]; [|destruct X]. destruct X as [<-|[]]. exact (Y c eq_refl eq_refl).
  - eapply ggood_same; [apply put_same|exact G| |].
    + apply put_nodup. rewrite SS, <- app_assoc. cbn [app]. eapply nodup_swap; [exact N|]. intros I. apply K, (holds_split b). rewrite SL. rewrite !in_app_iff in *. tauto.
    + intros c I. apply put_stubs in I. rewrite SS in I. rewrite in_app_iff in I. cbn [In] in I. specialize (F c). rewrite SL, !in_app_iff in F.
      destruct I as [[I|[I|I]]|I]; [|subst; lia|..]; enough (c < k) by lia; apply F; auto.
Qed.
Lemma grpc_call_plays t k c s e s' : ggood t k (gs_members s) -> g_client (gs_members s) <> None -> grpc_call k c s = Some (e, s') ->
  plays (grpc_needs t) (gholds (gs_members s)) e (gholds (gs_members s')) /\ ggood t (S k) (gs_members s') /\ g_client (gs_members s') <> None.
Proof.
  intros G C E. destruct s as [kn m]. cbn [gs_members gs_known] in *. destruct c as [n|p w|n|p ps w| |]; cbn [grpc_call gs_members gs_known] in E.
  - injection E as <- <-. destruct (resize_plays t k false n m G). cbn [gs_members put get] in *. auto.
  - destruct (p <? length (g_stubs m)) eqn:L; [|discriminate]. apply Nat.ltb_lt in L. destruct w; injection E as <- <-; cbn [gs_members].
    + destruct (store_plays t k false p m G L). cbn [gs_members put get] in *. auto.
    + split; [intros x; reflexivity|]. auto using ggood_mono.
  - injection E as <- <-. destruct (resize_plays t k true n m G). cbn [gs_members put get] in *. auto.
  - destruct (p <? length (g_mstubs m)) eqn:L; [|discriminate]. apply Nat.ltb_lt in L. destruct w.
    + destruct (forallb _ ps); [|discriminate]. injection E as <- <-. destruct (store_plays t k true p m G L). cbn [gs_members put get] in *. auto.
    + injection E as <- <-. split; [intros x; reflexivity|]. auto using ggood_mono.
  - destruct (gshut_server_plays t k m G) as [P G']. rewrite <- (proj1 (gshut_server_client m)) in C. destruct (gshut_server m) as [e1 m1]. cbn [fst snd] in *. injection E as <- <-. cbn [gs_members]. auto using ggood_mono.
  - destruct (gshut_client_plays t k m G) as [P G']. rewrite <- gshut_client_client in C. destruct (gshut_client m) as [e1 m1]. cbn [fst snd] in *. injection E as <- <-. cbn [gs_members]. auto using ggood_mono.
Qed.
Lemma grpc_calls_plays t l : forall k s e s', ggood t k (gs_members s) -> g_client (gs_members s) <> None -> grpc_calls k l s = Some (e, s') ->
  exists k', plays (grpc_needs t) (gholds (gs_members s)) e (gholds (gs_members s')) /\ ggood t k' (gs_members s') /\ g_client (gs_members s') <> None.
Proof.
  induction l as [|c l IH]; intros k s e s' G C E; cbn [grpc_calls] in E.
  - injection E as <- <-. exists k. split; [intros x; reflexivity|auto].
  - destruct (grpc_call k c s) as [[e1 s1]|] eqn:E1; [|discriminate]. destruct (grpc_calls (S k) l s1) as [[e2 s2]|] eqn:E2; [|discriminate]. injection E as <- <-.
    destruct (grpc_call_plays t k c s e1 s1 G C E1) as (P & G1 & C1). destruct (IH _ _ _ _ G1 C1 E2) as (k' & P2 & G2 & C2).
    exists k'. split; [eapply plays_app; eassumption|auto].
Qed.

(** ** Initialize *)
Definition type_name (t : server_type) : str := s_ match t with TInline => "inline" | THandoff => "handoff" | TPolling => "polling" end.
Definition asked (o : driver_opts) : str := server_string o (s_ "server_type") (if str_eqb (opt_str (po_name o)) (s_ "grpc_async") then s_ "handoff" else s_ "inline").
(** The server type that the options ask for, any if there is no such type. *)
Definition chosen (o : driver_opts) (t : server_type) : Prop := asked o = type_name t \/ forall t', asked o <> type_name t'.
Lemma plays_made_if needs (b : bool) x (P Q : thing -> Prop) : (b = true -> ~ P x) -> (b = true -> forall y, In y (needs x) -> P y) ->
  (forall y, Q y <-> P y \/ (b = true /\ y = x)) -> plays needs P (made_if b x) Q.
Proof.
  intros A B E. destruct b; cbn [made_if plays].
  - split; [apply A; reflexivity|]. split; [apply B; reflexivity|]. intros y. rewrite E. split; [intros [X|X]; auto|intros [X|[_ X]]; auto].
  - intros y. rewrite E. split; [auto|intros [X|[X _]]; [exact X|discriminate X]].
Qed.
Definition cholds (c : client_kind) (x : thing) : Prop := gholds (mkGm (Some c) false [] [] None) x.
Ltac by_thing := let x := fresh "x" in intros x; destruct x; cbn; intuition (try discriminate; try congruence).
Lemma client_plays t c : plays (grpc_needs t) (fun _ => False) (match c with ClientPolling => [Made ClientCq; Made (ClientThread 0)] | ClientCallback => [] end) (cholds c).
Proof.
  destruct c; cbn [plays grpc_needs In].
  - split; [tauto|]. split; [tauto|]. split; [intuition discriminate|]. split; [intuition|]. by_thing.
  - by_thing.
Qed.
Lemma serve_plays t c le o port ip pool : (t <> TInline -> pool = true) -> let r := serve le o port ip t pool in
  plays (grpc_needs t) (fun x => cholds c x \/ pool = true /\ x = Pool) (fst r) (gholds (mkGm (Some c) false [] [] (Some (snd r)))) /\
  ggood t 0 (mkGm (Some c) false [] [] (Some (snd r))).
Proof.
  intros HP. cbn zeta. unfold serve.
  destruct (transport_error _ _) as [?|].
  { cbn [fst snd]. split; [|constructor; unfold srv; cbn; try discriminate; try tauto; apply NoDup_nil].
    cbn [plays grpc_needs In]. unfold cholds. split; [cbn; unfold srv; cbn; intuition discriminate|]. split; [tauto|]. destruct c, pool; by_thing. }
  destruct (le_start _ _ _) as [?|].
  - cbn [fst snd]. split.
    + destruct t; [|rewrite (HP ltac:(discriminate))..]; cbn [made_if app plays grpc_needs In]; unfold cholds;
        repeat (split; [cbn; unfold srv; cbn; intuition discriminate|]; split; [intros y Y; cbn in Y; intuition (subst; auto)|]);
        destruct c, pool; by_thing.
    + constructor; unfold srv; cbn; try tauto; try apply NoDup_nil.
      * intros _. split; [reflexivity|]. split; [exact HP|]. intros ->. reflexivity.
      * destruct t; try discriminate. intros _. rewrite (HP ltac:(discriminate)). auto.
  - cbn [fst snd]. split.
    + destruct t; [|rewrite (HP ltac:(discriminate))..]; cbn [made_if app plays grpc_needs In]; unfold cholds;
        repeat (split; [cbn; unfold srv; cbn; intuition discriminate|]; split; [intros y Y; cbn in Y; intuition (subst; auto)|]);
        destruct c, pool; by_thing.
    + constructor; unfold srv; cbn; try tauto; try apply NoDup_nil; discriminate.
Qed.
Lemma gserver_make_plays t c le o port : let r := gserver_make le o port t in
  plays (grpc_needs t) (cholds c) (fst r) (gholds (mkGm (Some c) false [] [] (snd r))) /\ ggood t 0 (mkGm (Some c) false [] [] (snd r)).
Proof.
  cbn zeta. 
  assert (E0 : plays (grpc_needs t) (cholds c) [] (gholds (mkGm (Some c) false [] [] (Some (mkGs t false false false false false)))) /\ ggood t 0 (mkGm (Some c) false [] [] (Some (mkGs t false false false false false)))).
  { split; [cbn [plays]; unfold cholds; by_thing|constructor; unfold srv; cbn; try discriminate; try tauto; apply NoDup_nil]. }
  assert (E1 : plays (grpc_needs t) (cholds c) [] (gholds (mkGm (Some c) false [] [] None)) /\ ggood t 0 (mkGm (Some c) false [] [] None)).
  { split; [cbn [plays]; unfold cholds; by_thing|constructor; unfold srv; cbn; try discriminate; try tauto; apply NoDup_nil]. }
  assert (SP : forall ip, t <> TInline -> plays (grpc_needs t) (cholds c) (Made Pool :: fst (serve le o port ip t true)) (gholds (mkGm (Some c) false [] [] (Some (snd (serve le o port ip t true))))) /\
     ggood t 0 (mkGm (Some c) false [] [] (Some (snd (serve le o port ip t true))))).
  { intros ip NT. destruct (serve_plays t c le o port ip true ltac:(auto)) as [P G]. split; [|exact G]. cbn [plays grpc_needs In]. split; [cbn; unfold srv; cbn; tauto|]. split; [tauto|].
    eapply plays_ext; [|reflexivity|exact P]. intros x. cbn beta. intuition. }
  destruct t; cbn [gserver_make].
  - destruct (get_ip _ _ _) as [a| |]; [|exact E0..]. destruct (serve_plays TInline c le o port a false ltac:(congruence)) as [P G]. destruct (serve le o port a TInline false) as [e s]. cbn [fst snd] in *.
    split; [|exact G]. eapply plays_ext; [|reflexivity|exact P]. intros x. cbn beta. intuition discriminate.
  - destruct (get_ip _ _ _) as [a| |]; [|exact E0..]. destruct (get_pool _ _ _); [|exact E0..]. specialize (SP a ltac:(discriminate)). destruct (serve le o port a THandoff true) as [e s]. exact SP.
  - destruct (get_pool _ _ _); [|exact E1..]. destruct (get_ip _ _ _) as [a'| |].
    + specialize (SP a' ltac:(discriminate)). destruct (serve le o port a' TPolling true) as [e s]. exact SP.
    + cbn [fst snd]. split; [cbn [plays grpc_needs In]; split; [cbn; unfold srv; cbn; tauto|]; split; [tauto|]; unfold cholds; by_thing|constructor; unfold srv; cbn; try discriminate; try tauto; apply NoDup_nil].
    + cbn [fst snd]. split; [cbn [plays grpc_needs In]; split; [cbn; unfold srv; cbn; tauto|]; split; [tauto|]; unfold cholds; by_thing|constructor; unfold srv; cbn; try discriminate; try tauto; apply NoDup_nil].
Qed.
Lemma grpc_make_plays t le o port : chosen o t -> let m := snd (grpc_make le o port) in
  plays (grpc_needs t) (fun _ => False) (fst (grpc_make le o port)) (gholds m) /\ ggood t 0 m /\ g_stubs m = [] /\ g_mstubs m = [].
Proof.
  intros Ch. cbn zeta. unfold grpc_make. fold (asked o). cbn zeta.
  set (ty := if str_eqb (asked o) (s_ "inline") then Some TInline else if str_eqb (asked o) (s_ "handoff") then Some THandoff else if str_eqb (asked o) (s_ "polling") then Some TPolling else None).
  assert (T : forall t', ty = Some t' -> t' = t).
  { assert (A : forall t', ty = Some t' -> asked o = type_name t').
    { unfold ty. intros t'. destruct (str_eqb_spec (asked o) (s_ "inline")) as [E|_]; [intros Q; injection Q as <-; exact E|].
      destruct (str_eqb_spec (asked o) (s_ "handoff")) as [E|_]; [intros Q; injection Q as <-; exact E|].
      destruct (str_eqb_spec (asked o) (s_ "polling")) as [E|_]; [intros Q; injection Q as <-; exact E|discriminate]. }
    intros t' Q. apply A in Q. destruct Ch as [C|C]; [|destruct (C t' Q)]. rewrite C in Q. destruct t, t'; try reflexivity; discriminate Q. }
  assert (R : forall c, let r := (match ty with Some t0 => let '(e, s) := gserver_make le o port t0 in
       ((match c with ClientPolling => [Made ClientCq; Made (ClientThread 0)] | ClientCallback => [] end) ++ e, mkGm (Some c) false [] [] s)
     | None => (match c with ClientPolling => [Made ClientCq; Made (ClientThread 0)] | ClientCallback => [] end, mkGm (Some c) false [] [] None) end) in
     plays (grpc_needs t) (fun _ => False) (fst r) (gholds (snd r)) /\ ggood t 0 (snd r) /\ g_stubs (snd r) = [] /\ g_mstubs (snd r) = []).
  { intros c. cbn zeta. destruct ty as [t'|].
    - rewrite (T t' eq_refl). destruct (gserver_make_plays t c le o port) as [P G]. destruct (gserver_make le o port t) as [e s]. cbn [fst snd] in *.
      split; [|auto]. eapply plays_app; [apply client_plays|exact P].
    - cbn [fst snd g_stubs g_mstubs]. split; [|split; [constructor; unfold srv; cbn; try discriminate; try tauto; apply NoDup_nil|auto]]. apply client_plays. }
  destruct (str_eqb (client_string _ _ _) (s_ "polling")); [exact (R ClientPolling)|]. destruct (str_eqb (client_string _ _ _) (s_ "callback")); [exact (R ClientCallback)|].
  cbn [fst snd]. split; [cbn [plays]; by_thing|]. split; [constructor; unfold srv; cbn; try discriminate; try tauto; apply NoDup_nil|auto].
Qed.
Lemma grpc_make_client le o port d : grpc_init le o port = InitOk d -> g_client (snd (grpc_make le o port)) <> None.
Proof.
  unfold grpc_init, grpc_make. cbn zeta. destruct (str_eqb (client_string o (s_ "client_type") _) (s_ "polling")).
  - intros _. match goal with |- context [match ?ty with Some _ => _ | None => _ end] => destruct ty as [t|] end; [destruct (gserver_make le o port t)|]; discriminate.
  - destruct (str_eqb (client_string o (s_ "client_type") _) (s_ "callback")); [|discriminate].
    intros _. match goal with |- context [match ?ty with Some _ => _ | None => _ end] => destruct ty as [t|] end; [destruct (gserver_make le o port t)|]; discriminate.
Qed.
Lemma grpc_life_plays t le o port l life : chosen o t -> grpc_life le o port l = Some life -> plays (grpc_needs t) (fun _ => False) life (fun _ => False).
Proof.
  intros C. unfold grpc_life. destruct (grpc_make_plays t le o port C) as (P & G & S1 & S2). pose proof (grpc_make_client le o port) as K. destruct (grpc_make le o port) as [e1 m1]. cbn [fst snd] in *.
  destruct (grpc_init le o port) as [d| |].
  - destruct (grpc_calls 0 l (mkGst 0 m1)) as [[e2 s2]|] eqn:E; [|discriminate]. intros Q. injection Q as <-.
    destruct (grpc_calls_plays t l 0 (mkGst 0 m1) e2 s2 G (K d eq_refl) E) as (k' & P2 & G2 & C2).
    eapply plays_app; [exact P|]. eapply plays_app; [exact P2|]. eapply grpc_destroy_plays; [exact G2|]. intros Q. destruct (C2 Q).
  - intros Q. injection Q as <-. eapply plays_app; [exact P|]. eapply grpc_destroy_plays; [exact G|auto].
  - intros Q. injection Q as <-. eapply plays_app; [exact P|]. eapply grpc_destroy_plays; [exact G|auto].
Qed.
