(** Lemmas for Res_Props.v. *)
From Coq Require Import Ascii String List NArith ZArith Bool Arith Lia.
From Verif Require Import Base_Model Util_Model Net_Model Pool_Model Driver_Model Grpc_Model Conn_Model Res_Model.
Import ListNotations.
Open Scope nat_scope.

(** ** What is legal *)
Definition thing_eq_dec (x y : thing) : {x = y} + {x <> y}.
Proof. decide equality; apply Nat.eq_dec. Defined.
Definition mem (x : thing) (l : list thing) : bool := if in_dec thing_eq_dec x l then true else false.
Lemma mem_In x l : mem x l = true <-> In x l.
Proof. unfold mem. destruct (in_dec thing_eq_dec x l); split; intros; congruence || auto. Qed.
(** What is held after a list of events.  Nothing is made while it is there
    already or without what it needs; nothing is unmade that is not there, or
    while something there needs it. *)
Fixpoint replay (needs : thing -> list thing) (held : list thing) (l : list event) : option (list thing) :=
  match l with
  | [] => Some held
  | Made x :: r => if negb (mem x held) && forallb (fun y => mem y held) (needs x) then replay needs (x :: held) r else None
  | Unmade x :: r => if mem x held && forallb (fun y => negb (mem x (needs y))) held then replay needs (remove thing_eq_dec x held) r else None
  | Deregister _ _ :: r => replay needs held r
  end.

(** The same with sets. *)
Fixpoint plays (needs : thing -> list thing) (P : thing -> Prop) (l : list event) (Q : thing -> Prop) : Prop :=
  match l with
  | [] => forall x, P x <-> Q x
  | Made x :: r => ~ P x /\ (forall y, In y (needs x) -> P y) /\ plays needs (fun y => P y \/ y = x) r Q
  | Unmade x :: r => P x /\ (forall y, P y -> ~ In x (needs y)) /\ plays needs (fun y => P y /\ y <> x) r Q
  | Deregister _ _ :: r => plays needs P r Q
  end.
Lemma plays_ext needs l : forall P P' Q Q', (forall x, P x <-> P' x) -> (forall x, Q x <-> Q' x) -> plays needs P l Q -> plays needs P' l Q'.
Proof.
  induction l as [|[x|x|c i] r IH]; intros P P' Q Q' E F H; cbn [plays] in *.
  - intros x. rewrite <- E, <- F. apply H.
  - destruct H as (A & B & C). split; [rewrite <- E; exact A|]. split; [intros y Y; apply E, B, Y|]. eapply IH; [|exact F|exact C]. intros y. cbn beta. rewrite E. reflexivity.
  - destruct H as (A & B & C). split; [apply E, A|]. split; [intros y Y; apply B, E, Y|]. eapply IH; [|exact F|exact C]. intros y. cbn beta. rewrite E. reflexivity.
  - eapply IH; eassumption.
Qed.
Lemma plays_post needs l P Q Q' : (forall x, Q x <-> Q' x) -> plays needs P l Q -> plays needs P l Q'.
Proof. intros E. apply plays_ext; [reflexivity|exact E]. Qed.
Lemma plays_app needs l m : forall P R Q, plays needs P l R -> plays needs R m Q -> plays needs P (l ++ m) Q.
Proof.
  induction l as [|[x|x|c i] r IH]; intros P R Q H K; cbn [app plays] in *.
  - eapply plays_ext; [|reflexivity|exact K]. intros x. symmetry. apply H.
  - destruct H as (A & B & C). eauto.
  - destruct H as (A & B & C). eauto.
  - eauto.
Qed.
Lemma replay_plays needs l : forall P Q held, (forall x, In x held <-> P x) -> plays needs P l Q -> exists h, replay needs held l = Some h /\ forall x, In x h <-> Q x.
Proof.
  induction l as [|[x|x|c i] r IH]; intros P Q held E H; cbn [plays replay] in *.
  - exists held. split; [reflexivity|]. intros x. rewrite E. apply H.
  - destruct H as (A & B & C). replace (mem x held) with false.
    2: { symmetry. destruct (mem x held) eqn:M; [|reflexivity]. apply mem_In in M. destruct (A (proj1 (E x) M)). }
    replace (forallb (fun y => mem y held) (needs x)) with true.
    2: { symmetry. apply forallb_forall. intros y Y. apply mem_In, E, B, Y. }
    cbn [negb andb]. eapply IH; [|exact C]. intros y. cbn [In]. rewrite E. split; intros [?|?]; auto.
  - destruct H as (A & B & C). replace (mem x held) with true by (symmetry; apply mem_In, E, A).
    replace (forallb (fun y => negb (mem x (needs y))) held) with true.
    2: { symmetry. apply forallb_forall. intros y Y. destruct (mem x (needs y)) eqn:M; [|reflexivity]. apply mem_In in M. destruct (B y (proj1 (E y) Y) M). }
    cbn [andb]. eapply IH; [|exact C]. intros y. cbn beta. split.
    + intros I. apply in_remove in I. destruct I as [I N]. split; [apply E, I|exact N].
    + intros [I N]. apply in_in_remove; [exact N|apply E, I].
  - eapply IH; eassumption.
Qed.
Lemma replay_nil needs l : plays needs (fun _ => False) l (fun _ => False) -> replay needs [] l = Some [].
Proof.
  intros H. destruct (replay_plays needs l (fun _ => False) (fun _ => False) [] ltac:(intros x; cbn [In]; tauto) H) as (h & R & E). rewrite R. f_equal.
  destruct h as [|x h]; [reflexivity|]. destruct (proj1 (E x) (or_introl eq_refl)).
Qed.
(** Something made and not unmade is there. *)
Lemma replay_held needs y l : forall held h, replay needs held l = Some h -> (In y held \/ In (Made y) l) -> ~ In (Unmade y) l -> In y h.
Proof.
  induction l as [|[x|x|c i] r IH]; intros held h R M N; cbn [replay] in R; cbn [In] in *.
  - injection R as <-. destruct M as [M|[]]. exact M.
  - destruct (_ && _); [|discriminate]. eapply IH; [exact R| |tauto]. destruct M as [M|[M|M]]; [left; right; exact M|injection M as ->; left; left; reflexivity|right; exact M].
  - destruct (_ && _); [|discriminate]. eapply IH; [exact R| |tauto]. destruct M as [M|[M|M]]; [|discriminate M|right; exact M]. left. apply in_in_remove; [|exact M].
    intros ->. apply N. left. reflexivity.
  - eapply IH; [exact R| |tauto]. destruct M as [M|[M|M]]; [left; exact M|discriminate M|right; exact M].
Qed.
Lemma replay_app needs l m : forall held, replay needs held (l ++ m) = match replay needs held l with Some h => replay needs h m | None => None end.
Proof.
  induction l as [|[x|x|c i] r IH]; intros held; cbn [app replay]; auto; destruct (_ && _); auto.
Qed.
(** So it is not legal to unmade what it needs. *)
Lemma replay_needed needs x y l m : In (Made y) l -> ~ In (Unmade y) l -> In x (needs y) -> replay needs [] (l ++ Unmade x :: m) = None.
Proof.
  intros M N D. rewrite replay_app. destruct (replay needs [] l) as [h|] eqn:R; [|reflexivity]. cbn [replay].
  pose proof (replay_held _ y _ _ _ R (or_intror M) N) as I. replace (forallb (fun z => negb (mem x (needs z))) h) with false; [rewrite andb_false_r; reflexivity|].
  symmetry. apply not_true_iff_false. intros F. rewrite forallb_forall in F. specialize (F y I). replace (mem x (needs y)) with true in F by (symmetry; apply mem_In, D). discriminate.
Qed.

(** ** Homa *)
(** The threads use the sockets and the buffers; server threads also the pool
    (480-482). *)
Definition homa_needs (buffer : bool) (x : thing) : list thing :=
  match x with
  | ClientThread _ => [ClientSock; ClientBuf]
  | ServerThread _ => Pool :: ServerSock :: if buffer then [ServerBuf] else []
  | _ => []
  end.
Definition hholds (m : hmembers) (x : thing) : Prop :=
  match x with
  | Pool => m_pool m = true
  | ClientSock => m_csock m = true
  | ClientBuf => m_cbuf m = true
  | ServerSock => m_ssock m = true
  | ServerBuf => m_sbuf m = true
  | ClientThread i => m_cdown m = false /\ i < m_cthreads m
  | ServerThread i => m_sdown m = false /\ i < m_sthreads m
  | _ => False
  end.
Record hgood (strict : bool) (m : hmembers) : Prop := {
  hg_pool : m_sdown m = false -> 0 < m_sthreads m -> m_pool m = true;
  hg_server : m_sdown m = false -> 0 < m_sthreads m -> m_ssock m = true /\ m_sbuf m = true;
  hg_client : m_cdown m = false -> 0 < m_cthreads m -> m_csock m = true /\ m_cbuf m = true;
  hg_one : strict = true -> m_sthreads m <= 1;
  hg_sdown : m_sdown m = true -> m_ssock m = false /\ (m_sbuf m = true -> m_sthreads m = 0);
  hg_cdown : m_cdown m = true -> m_csock m = false /\ m_cbuf m = false }.
Lemma no_needs strict x y : (forall i, x <> ServerThread i) -> (forall i, x <> ClientThread i) -> ~ In y (homa_needs strict x).
Proof. intros A B. destruct x; cbn; auto; [destruct (B i eq_refl)|destruct (A i eq_refl)]. Qed.
Lemma needs_no_thread strict x i : ~ In (ServerThread i) (homa_needs strict x) /\ ~ In (ClientThread i) (homa_needs strict x).
Proof. destruct x; cbn; split; try tauto; try (intros [H|[H|[]]]; discriminate); destruct strict; cbn; intros H; repeat (destruct H as [H|H]; [discriminate|]); destruct H. Qed.

Lemma plays_join strict n : forall a buf (P : thing -> Prop), (strict = true -> n <= 1) -> (buf = true -> P ServerBuf) -> (forall i, P (ServerThread i) <-> a <= i < a + n) ->
  plays (homa_needs strict) P (join_servers (seq a n) buf) (fun x => P x /\ (forall i, x <> ServerThread i) /\ (x = ServerBuf -> buf = true -> n = 0)).
Proof.
  induction n as [|n IH]; intros a buf P St B T; cbn [seq join_servers plays].
  - intros x. split; [|tauto]. intros X. split; [exact X|]. split; [|auto]. intros i ->. apply T in X. lia.
  - split; [apply T; lia|]. split; [intros y _; apply needs_no_thread|].
    assert (K : forall (P' : thing -> Prop), (forall x, P' x <-> (P x /\ x <> ServerThread a) /\ (buf = true -> x <> ServerBuf)) ->
              plays (homa_needs strict) P' (join_servers (seq (S a) n) false) (fun x => P x /\ (forall i, x <> ServerThread i) /\ (x = ServerBuf -> buf = true -> S n = 0))).
    { intros P' E. eapply plays_post; [|apply (IH (S a) false P')].
      - intros x. cbn beta. rewrite E. split.
        + intros ((X & Y) & Z & _). split; [tauto|]. split; [exact Z|]. intros -> Hb. destruct (Y Hb eq_refl).
        + intros (X & Y & Z). split; [split; [split; [exact X|apply Y]|]|split; [exact Y|intros _ H; discriminate H]]. intros Hb Hx. specialize (Z Hx Hb). discriminate.
      - intros Hs. specialize (St Hs). lia.
      - discriminate.
      - intros i. rewrite E, T. split; [intros ((X & Y) & _)|intros X].
        + assert (i <> a) by (intros ->; apply Y; reflexivity). lia.
        + split; [split; [lia|intros Q; injection Q; lia]|intros _; discriminate]. }
    destruct buf; cbn [unmade_if app plays].
    + split; [split; [apply B; reflexivity|discriminate]|]. split.
      * intros y (Y & Ny). destruct y; cbn; try tauto; try (intros [H|[H|[]]]; discriminate).
        apply T in Y. destruct strict; cbn; intros H; repeat (destruct H as [H|H]; [discriminate|]); [|destruct H].
        specialize (St eq_refl). assert (i = a) by lia. subst. apply Ny. reflexivity.
      * apply K. intros x. tauto.
    + apply K. intros x. split; [|tauto]. intros H. split; [exact H|discriminate].
Qed.
Lemma plays_unmade_if needs (b : bool) x (P Q : thing -> Prop) : (b = true -> P x) -> (b = true -> forall y, P y -> ~ In x (needs y)) ->
  (forall y, Q y <-> P y /\ (b = true -> y <> x)) -> plays needs P (unmade_if b x) Q.
Proof.
  intros A B E. destruct b; cbn [unmade_if plays].
  - split; [apply A; reflexivity|]. split; [apply B; reflexivity|]. intros y. rewrite E. split; intros [X Y]; auto.
  - intros y. rewrite E. split; [|tauto]. intros X. split; [exact X|discriminate].
Qed.
Lemma plays_clients strict n : forall a (P : thing -> Prop), (forall i, P (ClientThread i) <-> a <= i < a + n) ->
  plays (homa_needs strict) P (map (fun i => Unmade (ClientThread i)) (seq a n)) (fun x => P x /\ forall i, x <> ClientThread i).
Proof.
  induction n as [|n IH]; intros a P T; cbn [seq map plays].
  - intros x. split; [|tauto]. intros X. split; [exact X|]. intros i ->. apply T in X. lia.
  - split; [apply T; lia|]. split; [intros y _; apply needs_no_thread|]. eapply plays_post; [|apply (IH (S a) (fun y => P y /\ y <> ClientThread a))].
    + intros x. cbn beta. split; [tauto|]. intros (X & Y). auto.
    + intros i. rewrite T. split; [intros (X & Y)|intros X; split; [lia|intros Q; injection Q; lia]]. assert (i <> a) by (intros ->; apply Y; reflexivity). lia.
Qed.
Lemma hshut_server_plays strict m : hgood strict m ->
  plays (homa_needs strict) (hholds m) (fst (hshut_server m)) (hholds (snd (hshut_server m))) /\ hgood strict (snd (hshut_server m)).
Proof.
  intros G. unfold hshut_server. destruct (m_sdown m) eqn:D; cbn [fst snd].
  - split; [cbn; reflexivity|exact G].
  - split.
    + eapply plays_app; [apply plays_join|apply plays_unmade_if].
      * apply (hg_one _ _ G).
      * intros H. exact H.
      * intros i. cbn [hholds]. rewrite D. split; [intros [_ H]; lia|intros H; split; [reflexivity|lia]].
      * intros H. split; [exact H|]. split; discriminate.
      * intros _ y (Y & Z & _). destruct y; cbn; try tauto; try (intros [H|[H|[]]]; discriminate). destruct (Z i eq_refl).
      * intros y. destruct y; cbn [hholds m_pool m_csock m_cbuf m_ssock m_sbuf m_cthreads m_sthreads m_cdown m_sdown]; try (split; [intros H; repeat split; auto; discriminate|tauto]).
        -- destruct (m_sthreads m); split.
           ++ intros H. repeat split; auto; discriminate.
           ++ intros [(A & _) _]. exact A.
           ++ discriminate.
           ++ intros [(A & _ & B) _]. specialize (B eq_refl A). discriminate.
        -- split; [|tauto]. intros H. split; [split; [exact H|split; discriminate]|discriminate].
        -- split; [intros [H _]; discriminate|]. intros [(A & B & _) _]. destruct (B i eq_refl).
    + constructor; cbn [m_pool m_csock m_cbuf m_ssock m_sbuf m_cthreads m_sthreads m_cdown m_sdown]; try discriminate; try apply G.
      intros _. split; [reflexivity|]. destruct (m_sthreads m); [auto|discriminate].
Qed.
Lemma hshut_client_plays strict m : hgood strict m ->
  plays (homa_needs strict) (hholds m) (fst (hshut_client m)) (hholds (snd (hshut_client m))) /\ hgood strict (snd (hshut_client m)).
Proof.
  intros G. unfold hshut_client. destruct (m_cdown m) eqn:D; cbn [fst snd].
  - split; [cbn; reflexivity|exact G].
  - split.
    + eapply plays_app; [apply plays_clients|eapply (plays_app _ _ _ _ (fun y => (hholds m y /\ forall i, y <> ClientThread i) /\ (m_cbuf m = true -> y <> ClientBuf))); [apply plays_unmade_if|apply plays_unmade_if]].
      * intros i. cbn [hholds]. rewrite D. split; [intros [_ H]; lia|intros H; split; [reflexivity|lia]].
      * intros H. split; [exact H|discriminate].
      * intros _ y (Y & Z). destruct y; cbn; try tauto; [destruct (Z i eq_refl)|]. destruct strict; cbn; intros H; repeat (destruct H as [H|H]; [discriminate|]); destruct H.
      * intros y. reflexivity.
      * cbn beta. intros H. split; [split; [exact H|discriminate]|intros _; discriminate].
      * cbn beta. intros _ y ((Y & Z) & _). destruct y; cbn; try tauto; [destruct (Z i eq_refl)|]. destruct strict; cbn; intros H; repeat (destruct H as [H|H]; [discriminate|]); destruct H.
      * intros y. cbn beta. destruct y; cbn [hholds m_pool m_csock m_cbuf m_ssock m_sbuf m_cthreads m_sthreads m_cdown m_sdown]; try (split; [intros H; repeat split; auto; discriminate|tauto]).
        -- split; [intros [H _]; discriminate|]. intros [[[_ B] _] _]. destruct (B i eq_refl).
        -- split; [|tauto]. intros H. split; [split; [split; [exact H|discriminate]|discriminate]|discriminate].
    + constructor; cbn [m_pool m_csock m_cbuf m_ssock m_sbuf m_cthreads m_sthreads m_cdown m_sdown]; try discriminate; try apply G. auto.
Qed.
Lemma hcalls_plays strict l : forall m, hgood strict m ->
  plays (homa_needs strict) (hholds m) (fst (homa_calls l m)) (hholds (snd (homa_calls l m))) /\ hgood strict (snd (homa_calls l m)).
Proof.
  induction l as [|c l IH]; intros m G; cbn [homa_calls]; [split; [cbn; reflexivity|exact G]|].
  assert (K : plays (homa_needs strict) (hholds m) (fst (match c with CallServer => hshut_server m | CallClient => hshut_client m end))
                (hholds (snd (match c with CallServer => hshut_server m | CallClient => hshut_client m end))) /\
              hgood strict (snd (match c with CallServer => hshut_server m | CallClient => hshut_client m end))) by (destruct c; [apply hshut_server_plays|apply hshut_client_plays]; exact G).
  destruct (match c with CallServer => hshut_server m | CallClient => hshut_client m end) as [e1 m1]. cbn [fst snd] in K. destruct K as [K1 K2]. destruct (IH _ K2) as [A B].
  destruct (homa_calls l m1) as [e2 m2]. cbn [fst snd] in *. split; [eapply plays_app; eassumption|exact B].
Qed.
Lemma hdestroy_plays strict m : hgood strict m ->
  plays (homa_needs strict) (hholds m) (homa_destroy m) (fun x => x = ServerBuf /\ m_sbuf m = true /\ m_sthreads m = 0).
Proof.
  intros G. unfold homa_destroy. destruct (hshut_server_plays _ _ G) as [A B].
  assert (Sd : forall x, x = hshut_server m -> m_sdown (snd x) = true) by (intros x ->; unfold hshut_server; destruct (m_sdown m) eqn:D; [exact D|reflexivity]).
  assert (Sb : m_sbuf (snd (hshut_server m)) = true <-> m_sbuf m = true /\ m_sthreads m = 0).
  { unfold hshut_server. destruct (m_sdown m) eqn:D; cbn [snd m_sbuf]; [|destruct (m_sthreads m); split; intros; try tauto; try discriminate; destruct H; discriminate].
    split; [|tauto]. intros H. split; [exact H|]. apply (hg_sdown _ _ G D), H. }
  specialize (Sd _ eq_refl). destruct (hshut_server m) as [e1 m1]. cbn [fst snd] in *.
  destruct (hshut_client_plays _ _ B) as [C D].
  assert (Cd : m_cdown (snd (hshut_client m1)) = true /\ m_sdown (snd (hshut_client m1)) = true /\ m_sbuf (snd (hshut_client m1)) = m_sbuf m1)
    by (unfold hshut_client; destruct (m_cdown m1) eqn:Q; cbn [snd m_cdown m_sdown m_sbuf]; auto).
  destruct (hshut_client m1) as [e2 m2]. cbn [fst snd] in *. destruct Cd as (Cd & Sd2 & Sb2).
  eapply plays_app; [exact A|]. eapply plays_app; [exact C|]. apply plays_unmade_if.
  - intros H. exact H.
  - intros _ y Y. destruct y; cbn [hholds] in Y; cbn; try tauto; [destruct Y; congruence|destruct Y; congruence].
  - intros y. rewrite <- Sb, <- Sb2. destruct (hg_sdown _ _ D Sd2) as [X1 X2]. destruct (hg_cdown _ _ D Cd) as [X3 X4].
    destruct y; cbn [hholds]; try (split; [intros [H _]; discriminate|intros [H _]; (congruence || destruct H; fail)]).
    + split; [intros [H _]; discriminate|]. intros [H K]. destruct (K H eq_refl).
    + split; [intros [_ H]; split; [exact H|intros _; discriminate]|intros [H _]; auto].
    + split; [intros [H _]; discriminate|]. intros [[H _] _]. congruence.
    + split; [intros [H _]; discriminate|]. intros [[H _] _]. congruence.
Qed.
Lemma plays_make_threads strict mk n : forall a (P : thing -> Prop), (forall i, a <= i -> ~ P (mk i)) -> (forall i y, In y (homa_needs strict (mk i)) -> P y) -> (forall i j, mk i = mk j -> i = j) ->
  plays (homa_needs strict) P (map (fun i => Made (mk i)) (seq a n)) (fun x => P x \/ exists i, x = mk i /\ a <= i < a + n).
Proof.
  induction n as [|n IH]; intros a P A B C; cbn [seq map plays].
  - intros x. split; [auto|]. intros [X|(i & _ & X)]; [exact X|lia].
  - split; [apply A; lia|]. split; [apply B|]. eapply plays_post; [|apply (IH (S a) (fun y => P y \/ y = mk a))].
    + intros x. cbn beta. split.
      * intros [[X|X]|(i & X & Y)]; [auto|right; exists a; split; [exact X|lia]|right; exists i; split; [exact X|lia]].
      * intros [X|(i & X & Y)]; [auto|]. destruct (Nat.eq_dec i a) as [->|D]; [auto|]. right. exists i. split; [exact X|lia].
    + intros i L [X|X]; [exact (A i ltac:(lia) X)|]. apply C in X. lia.
    + intros i y Y. left. eapply B, Y.
    + exact C.
Qed.
Definition clients_set (o : driver_opts) : Z := narrow (server_int o (s_ "client_threads") 2).
Definition servers_set (o : driver_opts) : Z := narrow (server_int o (s_ "server_threads") 3).
Lemma homa_make_plays strict le o : (strict = true -> clients_set o = 1%Z /\ (0 <= servers_set o)%Z) ->
  plays (homa_needs strict) (fun _ => False) (fst (homa_make le o)) (hholds (snd (homa_make le o))) /\ hgood strict (snd (homa_make le o)) /\
  (strict = true -> m_sbuf (snd (homa_make le o)) = true -> m_sthreads (snd (homa_make le o)) = 1).
Proof.
  intros One. unfold homa_make. fold (clients_set o) (servers_set o).
  assert (E0 : plays (homa_needs strict) (fun _ => False) [] (hholds hempty) /\ hgood strict hempty /\ (strict = true -> m_sbuf hempty = true -> m_sthreads hempty = 1)).
  { split; [|split].
    - intros [| | | | |i|i| | | | | |k| | | | |k0]; cbn; split; try tauto; try discriminate; intros [_ H]; lia.
    - constructor; cbn; try discriminate; intros; lia.
    - discriminate. }
  destruct (unknown_setting (po_server o)); [exact E0|]. destruct (get_pool le o (s_ "elastic")); [|exact E0..].
  assert (E1 : let m := mkHm true false false false false 0 0 false false in plays (homa_needs strict) (fun _ => False) [Made Pool] (hholds m) /\ hgood strict m /\ (strict = true -> m_sbuf m = true -> m_sthreads m = 1)).
  { cbn zeta. split; [|split].
    - cbn [plays homa_needs In]. split; [tauto|]. split; [tauto|]. intros [| | | | |i|i| | | | | |k| | | | |k0]; cbn; split; try tauto; try discriminate; try (intros [[]|H]; discriminate); auto; intros [_ H]; lia.
    - constructor; cbn; try discriminate; intros; lia.
    - discriminate. }
  destruct (get_ip le _ _); [|exact E1..]. destruct (hs_client (le_homa le)); [exact E1|]. destruct (hs_server (le_homa le)).
  - cbn [fst snd]. split; [|split].
    + cbn [plays homa_needs In]. repeat (split; [intros H; repeat (destruct H as [H|H]; try discriminate); tauto|]; split; [tauto|]).
      intros [| | | | |i|i| | | | | |k| | | | |k0]; cbn; split; try tauto; try discriminate; auto; try (intros H; repeat (destruct H as [H|H]; try discriminate); tauto); intros [_ H]; lia.
    + constructor; cbn; try discriminate; intros; lia.
    + discriminate.
  - set (n := Z.to_nat (clients_set o)).
    assert (Base : plays (homa_needs strict) (fun _ => False) [Made Pool; Made ClientSock; Made ClientBuf; Made ServerSock; Made ServerBuf] (hholds (mkHm true true true true true 0 0 false false))).
    { cbn [plays homa_needs In]. repeat (split; [intros H; repeat (destruct H as [H|H]; try discriminate); tauto|]; split; [tauto|]).
      intros [| | | | |i|i| | | | | |k| | | | |k0]; cbn; split; try tauto; try discriminate; auto 10; try (intros H; repeat (destruct H as [H|H]; try discriminate); tauto); intros [_ H]; lia. }
    destruct ((clients_set o <? 0)%Z || (servers_set o <? 0)%Z) eqn:Ng; cbn [fst snd].
    + split; [exact Base|]. split.
      * constructor; cbn; try discriminate; intros; lia.
      * intros St. destruct (One St) as [Q L]. apply orb_true_iff in Ng. destruct Ng as [Ng|Ng]; apply Z.ltb_lt in Ng; lia.
    + split; [|split].
      * eapply plays_app; [exact Base|]. eapply plays_app; [apply (plays_make_threads strict ClientThread)|eapply plays_post; [|apply (plays_make_threads strict ServerThread)]].
        -- intros i _ [_ H]. cbn in H. lia.
        -- intros i y [<-|[<-|[]]]; reflexivity.
        -- intros i j H. injection H. auto.
        -- intros x. cbn beta. destruct x; cbn [hholds m_pool m_csock m_cbuf m_ssock m_sbuf m_cthreads m_sthreads m_cdown m_sdown]; try (split; [intros [[H|(i & H & _)]|(i & H & _)]; (discriminate || exact H)|intros H; left; left; exact H]).
           ++ split; [intros [[[_ H]|(j & H & L)]|(j & H & _)]; [lia|injection H as ->; split; [reflexivity|lia]|discriminate]|intros [_ H]]. left. right. exists i. split; [reflexivity|lia].
           ++ split; [intros [[[_ H]|(j & H & L)]|(j & H & L)]; [lia|discriminate|injection H as ->; split; [reflexivity|lia]]|intros [_ H]]. right. exists i. split; [reflexivity|lia].
        -- intros i _ [[_ H]|(j & H & _)]; [cbn in H; lia|discriminate].
        -- intros i y Y. left. cbn in Y. destruct strict; cbn in Y; repeat (destruct Y as [<-|Y]; [reflexivity|]); destruct Y.
        -- intros i j H. injection H. auto.
      * constructor; cbn; auto; try discriminate. intros St. destruct (One St) as [Q _]. unfold n. rewrite Q. cbn. lia.
      * intros St _. destruct (One St) as [Q _]. cbn [m_sthreads]. unfold n. rewrite Q. reflexivity.
Qed.
