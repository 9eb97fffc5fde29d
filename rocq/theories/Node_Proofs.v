(** Proofs about the node manager. *)
From Coq Require Import Ascii String List NArith ZArith Bool Arith Lia Sorted.
From Verif Require Import Base_Model Base_Proofs Grid_Model Grid_Proofs Util_Model Net_Model Driver_Model Driver_Proofs Node_Model.
Import ListNotations.
Open Scope nat_scope.

(** ** The order of keys *)
Definition str_lt (a b : str) : Prop := str_ltb a b = true.
Lemma str_lt_irrefl a : ~ str_lt a a.
Proof.
  unfold str_lt. induction a as [|c a IH]; cbn [str_ltb]; [discriminate|].
  rewrite N.ltb_irrefl. exact IH.
Qed.
Lemma ascii_N_inj a b : N_of_ascii a = N_of_ascii b -> a = b.
Proof. intro H. rewrite <- (ascii_N_embedding a), <- (ascii_N_embedding b), H. reflexivity. Qed.
Lemma str_lt_trans : forall a b c, str_lt a b -> str_lt b c -> str_lt a c.
Proof.
  unfold str_lt. induction a as [|x a IH]; intros [|y b] [|z c]; cbn [str_ltb]; try discriminate; try reflexivity; intros H K.
  destruct (N.ltb_spec (N_of_ascii x) (N_of_ascii y)), (N.ltb_spec (N_of_ascii y) (N_of_ascii z)),
    (N.ltb_spec (N_of_ascii x) (N_of_ascii z)); try reflexivity; try lia;
  destruct (N.ltb_spec (N_of_ascii y) (N_of_ascii x)), (N.ltb_spec (N_of_ascii z) (N_of_ascii y)),
    (N.ltb_spec (N_of_ascii z) (N_of_ascii x)); try discriminate; try lia; eauto.
Qed.
Lemma str_lt_total : forall a b, str_lt a b \/ a = b \/ str_lt b a.
Proof.
  unfold str_lt. induction a as [|x a IH]; intros [|y b]; cbn [str_ltb]; auto.
  destruct (N.ltb_spec (N_of_ascii x) (N_of_ascii y)), (N.ltb_spec (N_of_ascii y) (N_of_ascii x)); auto; try lia.
  assert (x = y) as -> by (apply ascii_N_inj; lia). destruct (IH b) as [|[->|]]; auto.
Qed.
Definition key_sorted {V} (m : list (str * V)) : Prop := StronglySorted str_lt (map fst m).
Lemma key_sorted_NoDup {V} (m : list (str * V)) : key_sorted m -> NoDup (map fst m).
Proof.
  unfold key_sorted. induction 1 as [|k l S IH F]; constructor; [|exact IH].
  intro I. rewrite Forall_forall in F. exact (str_lt_irrefl _ (F _ I)).
Qed.
Lemma omap_set_keys {V} k (v : V) m x : In x (map fst (omap_set k v m)) <-> x = k \/ In x (map fst m).
Proof.
  induction m as [|[k' v'] r IH]; cbn [omap_set map fst In].
  - split; [intros [<-|[]]; auto|intros [->|[]]; auto].
  - destruct (str_eqb_spec k k') as [->|]; cbn [map fst In].
    + split; [auto|intros [->|]; auto].
    + destruct (str_ltb k k'); cbn [map fst In]; [split; [intros [<-|[]]; auto|intros [->|[]]; auto]|].
      rewrite IH. split; [intros [<-|[->|]]; auto|intros [->|[<-|]]; auto].
Qed.
Lemma omap_set_sorted {V} k (v : V) m : key_sorted m -> key_sorted (omap_set k v m).
Proof.
  unfold key_sorted. induction m as [|[k' v'] r IH]; cbn [omap_set map fst]; intro S; [repeat constructor|].
  inversion S as [|? ? S' F]; subst.
  destruct (str_eqb_spec k k') as [->|N]; cbn [map fst]; [constructor; assumption|].
  destruct (str_ltb k k') eqn:L; cbn [map fst].
  - constructor; [constructor; assumption|]. constructor; [exact L|]. eapply Forall_impl; [|exact F].
    intros a Ha. eapply str_lt_trans; [exact L|exact Ha].
  - constructor; [apply IH, S'|]. rewrite Forall_forall in *. intros x I. apply omap_set_keys in I. destruct I as [->|I]; [|auto].
    destruct (str_lt_total k' k) as [H|[H|H]]; [exact H|congruence|unfold str_lt in H; congruence].
Qed.
Lemma omap_set_In {V} k (v : V) m x : key_sorted m ->
  In x (omap_set k v m) <-> x = (k, v) \/ (In x m /\ fst x <> k).
Proof.
  unfold key_sorted. induction m as [|[k' v'] r IH]; cbn [omap_set map fst In]; intro S.
  - split; [intros [<-|[]]; auto|intros [->|[[] _]]; auto].
  - inversion S as [|? ? S' F]; subst. rewrite Forall_forall in F.
    assert (NotIn : forall y, In y r -> str_lt k' (fst y)) by (intros y I; apply F, in_map, I).
    destruct (str_eqb_spec k k') as [->|N]; cbn [In].
    + split.
      * intros [<-|I]; [auto|]. right. split; [auto|]. intro E. apply NotIn in I. rewrite E in I. exact (str_lt_irrefl _ I).
      * intros [->|[[<-|I] E]]; [auto| |auto]. cbn [fst] in E. congruence.
    + destruct (str_ltb k k') eqn:L; cbn [In].
      * split.
        -- intros [<-|[<-|I]]; [auto| |]; right; (split; [auto|]); [cbn [fst]; congruence|].
           intro E. apply NotIn in I. rewrite E in I. exact (str_lt_irrefl _ (str_lt_trans _ _ _ L I)).
        -- intros [->|[[<-|I] E]]; auto.
      * rewrite (IH S'). split.
        -- intros [<-|[->|[I E]]]; [right; split; [auto|cbn [fst]; congruence]|auto|auto].
        -- intros [->|[[<-|I] E]]; auto.
Qed.
Lemma map_find_iff {V} k (m : list (str * V)) v : key_sorted m -> map_find k m = Some v <-> In (k, v) m.
Proof.
  unfold key_sorted. induction m as [|[k' v'] r IH]; cbn [map_find map fst In]; intro S; [split; [discriminate|intros []]|].
  inversion S as [|? ? S' F]; subst. destruct (str_eqb_spec k k') as [->|N].
  - split; [intros [= ->]; auto|]. intros [[= ->]|I]; [reflexivity|]. rewrite Forall_forall in F.
    exfalso. exact (str_lt_irrefl _ (F _ (in_map fst _ _ I))).
  - rewrite (IH S'). split; [auto|]. intros [[= -> ->]|I]; [congruence|exact I].
Qed.

(** ** Engine lifecycles *)
(** Reading a log of events: which engines exist, which have an unjoined main
    thread, and how many were ever created.  Engines are created once, every
    other event needs an existing engine, a main thread is started only when
    there is none and joined only when there is one, and an engine is not
    destroyed with an unjoined main thread. *)
Record play_state := mkPlay { p_live : nat -> bool; p_run : nat -> bool; p_next : nat }.
Definition updb (f : nat -> bool) (i : nat) (b : bool) : nat -> bool := fun j => if j =? i then b else f j.
Definition play1 (ev : event) (st : play_state) : option play_state :=
  match ev with
  | EvCreate i =>
      if i =? p_next st then Some (mkPlay (updb (p_live st) i true) (p_run st) (S (p_next st))) else None
  | EvDestroy i =>
      if p_live st i && negb (p_run st i) then Some (mkPlay (updb (p_live st) i false) (p_run st) (p_next st)) else None
  | EvMain i =>
      if p_live st i && negb (p_run st i) then Some (mkPlay (p_live st) (updb (p_run st) i true) (p_next st)) else None
  | EvJoin i =>
      if p_live st i && p_run st i then Some (mkPlay (p_live st) (updb (p_run st) i false) (p_next st)) else None
  | EvPeers i | EvRun i | EvCancel i | EvLogs i => if p_live st i then Some st else None
  end.
Fixpoint play (l : list event) (st : play_state) : option play_state :=
  match l with
  | [] => Some st
  | ev :: r => match play r st with Some st1 => play1 ev st1 | None => None end
  end.
Definition play_start : play_state := mkPlay (fun _ => false) (fun _ => false) 0.
Lemma play_app a b st : play (a ++ b) st = match play b st with Some st1 => play a st1 | None => None end.
Proof. induction a as [|ev a IH]; cbn [app play]; [destruct (play b st); reflexivity|]. rewrite IH. destruct (play b st); reflexivity. Qed.

Definition id_of (ke : str * engine) : nat := en_id (snd ke).
Definition ids (l : list (str * engine)) : list nat := map id_of l.
Record agree (st : play_state) (l : list (str * engine)) : Prop := {
  ag_live : forall i, p_live st i = true <-> In i (ids l);
  ag_run : forall i, p_run st i = true <-> exists ke, In ke l /\ id_of ke = i /\ en_main (snd ke) = true;
  ag_nodup : NoDup (ids l);
  ag_next : forall i, In i (ids l) -> i < p_next st }.

Lemma agree_live st l ke : agree st l -> In ke l -> p_live st (id_of ke) = true.
Proof. intros A I. apply (ag_live _ _ A). apply in_map, I. Qed.
Lemma id_unique l ke ke' : NoDup (ids l) -> In ke l -> In ke' l -> id_of ke = id_of ke' -> ke = ke'.
Proof.
  unfold ids. induction l as [|x l IH]; cbn [map In]; intros N I I' E; [contradiction|]. inversion N; subst.
  destruct I as [->|I], I' as [->|I']; try reflexivity; auto.
  - exfalso. apply H1. rewrite E. apply in_map, I'.
  - exfalso. apply H1. rewrite <- E. apply in_map, I.
Qed.
Lemma agree_run st l ke : agree st l -> In ke l -> p_run st (id_of ke) = en_main (snd ke).
Proof.
  intros A I. destruct (en_main (snd ke)) eqn:M.
  - apply (ag_run _ _ A). eauto.
  - destruct (p_run st (id_of ke)) eqn:R; [|reflexivity]. exfalso.
    apply (ag_run _ _ A) in R. destruct R as (ke' & I' & E & M').
    rewrite (id_unique _ _ _ (ag_nodup _ _ A) I' I E) in M'. congruence.
Qed.
(** Replacing one engine by itself with another main-thread flag. *)
Lemma agree_flag st pre k e e' r b : agree st (pre ++ (k, e) :: r) -> en_id e' = en_id e -> en_main e' = b ->
  agree (mkPlay (p_live st) (updb (p_run st) (en_id e) b) (p_next st)) (pre ++ (k, e') :: r).
Proof.
  intros A E M. assert (Ids : ids (pre ++ (k, e') :: r) = ids (pre ++ (k, e) :: r)).
  { unfold ids. rewrite !map_app. cbn [map]. unfold id_of at 2 5. cbn [snd]. rewrite E. reflexivity. }
  pose proof (ag_nodup _ _ A) as N.
  assert (Other : forall ke, In ke pre \/ In ke r -> id_of ke <> en_id e).
  { unfold ids in N. rewrite map_app in N. cbn [map] in N. apply NoDup_remove_2 in N. change (id_of (k, e)) with (en_id e) in N.
    intros ke I Eq. apply N. rewrite in_app_iff. rewrite <- Eq. destruct I; [left|right]; apply in_map; assumption. }
  constructor; cbn [p_live p_run p_next]; rewrite ?Ids; try apply A; try exact N.
  - intro i. unfold updb. destruct (Nat.eqb_spec i (en_id e)) as [->|Ne].
    + split.
      * intros ->. exists (k, e'). split; [apply in_elt|]. split; [exact E|exact M].
      * intros (ke & I & Ei & Mk). apply in_app_or in I. destruct I as [I|[<-|I]].
        -- exfalso. exact (Other _ (or_introl I) Ei).
        -- cbn [snd] in Mk. congruence.
        -- exfalso. exact (Other _ (or_intror I) Ei).
    + rewrite (ag_run _ _ A). split; intros (ke & I & Ei & Mk); apply in_app_or in I; destruct I as [I|[<-|I]].
      * exists ke. split; [apply in_or_app; auto|auto].
      * exfalso. apply Ne. symmetry. exact Ei.
      * exists ke. split; [apply in_or_app; right; right; exact I|auto].
      * exists ke. split; [apply in_or_app; auto|auto].
      * exfalso. apply Ne. rewrite <- Ei. exact E.
      * exists ke. split; [apply in_or_app; right; right; exact I|auto].
Qed.
(** Changing parts of engines that the log does not follow. *)
Lemma agree_map st l l' : agree st l -> map (fun ke => (id_of ke, en_main (snd ke))) l' = map (fun ke => (id_of ke, en_main (snd ke))) l ->
  agree st l'.
Proof.
  intros A E.
  assert (Ids : ids l' = ids l).
  { unfold ids. pose proof (f_equal (map fst) E) as K. rewrite !map_map in K. exact K. }
  constructor; rewrite ?Ids; try apply A. intro i. rewrite (ag_run _ _ A).
  assert (K : forall l l', map (fun ke => (id_of ke, en_main (snd ke))) l' = map (fun ke => (id_of ke, en_main (snd ke))) l ->
    (exists ke, In ke l /\ id_of ke = i /\ en_main (snd ke) = true) -> exists ke, In ke l' /\ id_of ke = i /\ en_main (snd ke) = true).
  { clear. intros l l' E (ke & I & Ei & M). apply (in_map (fun ke => (id_of ke, en_main (snd ke)))) in I. rewrite <- E in I.
    apply in_map_iff in I. destruct I as (ke' & Eq & I'). injection Eq as E1 E2. exists ke'. split; [exact I'|]. split; congruence. }
  split; apply K; [exact E|symmetry; exact E].
Qed.
Lemma play_ops evs st : (forall ev, In ev evs -> match ev with EvPeers i | EvRun i | EvCancel i | EvLogs i => p_live st i = true | _ => False end) ->
  play evs st = Some st.
Proof.
  induction evs as [|ev r IH]; intro H; cbn [play]; [reflexivity|]. rewrite IH by (intros x I; apply H; right; exact I).
  specialize (H ev (or_introl eq_refl)). destruct ev; cbn [play1] in *; try contradiction; rewrite H; reflexivity.
Qed.

Lemma run_all_plays lists : forall l pre st, agree st (pre ++ l) ->
  match run_all lists l with
  | RAOk l' evs | RAError l' evs => (exists st', play evs st = Some st' /\ agree st' (pre ++ l') /\ p_next st' = p_next st) /\ map fst l' = map fst l
  | RATerminate => True
  end.
Proof.
  induction l as [|[k e] r IH]; intros pre st A; cbn [run_all]; [split; [exists st; auto|reflexivity]|].
  assert (Live : p_live st (en_id e) = true) by (apply (agree_live _ _ (k, e) A), in_elt).
  pose proof (agree_run _ _ (k, e) A (in_elt _ _ _)) as Run. unfold id_of in Run. cbn [snd] in Run.
  unfold engine_run. destruct (en_peers e).
  - destruct (existsb _ lists).
    + destruct (en_main e) eqn:M; [exact I|].
      set (e' := mkEngine _ _ _ _ _ true _).
      pose proof (agree_flag _ pre k e e' r true A eq_refl eq_refl) as A1.
      set (st1 := mkPlay _ _ _) in A1.
      assert (P1 : play [EvMain (en_id e); EvRun (en_id e)] st = Some st1).
      { cbn [play play1]. rewrite Live. cbn [play1]. rewrite Live, Run. reflexivity. }
      specialize (IH (pre ++ [(k, e')]) st1). rewrite <- app_assoc in IH. specialize (IH A1).
      destruct (run_all lists r) as [l' evs|l' evs|]; [| |exact I]; destruct IH as ((st' & P & A' & Nx) & K);
        rewrite <- app_assoc in A'; (split; [|cbn [map fst]; rewrite K; reflexivity]);
        exists st'; rewrite play_app, P1; auto.
    + assert (P1 : play [EvRun (en_id e)] st = Some st) by (cbn [play play1]; rewrite Live; reflexivity).
      specialize (IH (pre ++ [(k, e)]) st). rewrite <- app_assoc in IH. specialize (IH A).
      destruct (run_all lists r) as [l' evs|l' evs|]; [| |exact I]; destruct IH as ((st' & P & A' & Nx) & K);
        rewrite <- app_assoc in A'; (split; [|cbn [map fst]; rewrite K; reflexivity]);
        exists st'; rewrite play_app, P1; auto.
  - split; [|reflexivity]. exists st. cbn [play play1]. rewrite Live. auto.
Qed.
Lemma finish_plays : forall l pre st, agree st (pre ++ l) ->
  exists st', play (rev (flat_map (fun ke => snd (engine_finish (snd ke))) l)) st = Some st' /\
    agree st' (pre ++ map (fun ke => (fst ke, fst (engine_finish (snd ke)))) l) /\ p_next st' = p_next st.
Proof.
  induction l as [|[k e] r IH]; intros pre st A; cbn [map flat_map rev]; [exists st; auto|].
  assert (Live : p_live st (en_id e) = true) by (apply (agree_live _ _ (k, e) A), in_elt).
  pose proof (agree_run _ _ (k, e) A (in_elt _ _ _)) as Run. unfold id_of in Run. cbn [snd] in Run.
  rewrite rev_app_distr. cbn [fst snd]. destruct (engine_finish e) as [e1 ev1] eqn:F. unfold engine_finish in F. cbn [fst snd].
  destruct (en_main e) eqn:M.
  - pose proof (f_equal snd F) as Fe. cbn [snd] in Fe. subst ev1. apply (f_equal fst) in F. cbn [fst] in F.
    pose proof (agree_flag _ pre k e e1 r false A ltac:(rewrite <- F; reflexivity) ltac:(rewrite <- F; reflexivity)) as A1. clear F.
    set (st1 := mkPlay _ _ _) in A1.
    assert (P1 : play [EvJoin (en_id e)] st = Some st1) by (cbn [play play1]; rewrite Live, Run; reflexivity).
    specialize (IH (pre ++ [(k, e1)]) st1). rewrite <- app_assoc in IH. destruct (IH A1) as (st' & P & A' & Nx).
    rewrite <- app_assoc in A'. exists st'. cbn [rev app]. rewrite play_app, P1. auto.
  - injection F as <- <-. cbn [rev]. rewrite app_nil_r. specialize (IH (pre ++ [(k, e)]) st). rewrite <- app_assoc in IH.
    destruct (IH A) as (st' & P & A' & Nx). rewrite <- app_assoc in A'. exists st'. auto.
Qed.
(** Destroying one engine. *)
Lemma destroy_plays st l e k : agree st l -> In (k, e) l ->
  exists st', play (destroy_events e) st = Some st' /\ p_next st' = p_next st /\
    (forall i, p_live st' i = true <-> In i (ids l) /\ i <> en_id e) /\
    (forall i, p_run st' i = true <-> (exists ke, In ke l /\ id_of ke = i /\ en_main (snd ke) = true) /\ i <> en_id e).
Proof.
  intros A I. pose proof (agree_live _ _ _ A I) as Live. pose proof (agree_run _ _ _ A I) as Run.
  unfold id_of in Live, Run. cbn [snd] in Live, Run. unfold destroy_events. destruct (en_main e) eqn:M; cbn [play play1].
  - rewrite Live, Run. cbn [andb play1 p_live p_run p_next]. rewrite Live. unfold updb at 1. rewrite Nat.eqb_refl. cbn [andb negb].
    eexists. split; [reflexivity|]. split; [reflexivity|]. cbn [p_live p_run]. split; intro i; unfold updb; destruct (Nat.eqb_spec i (en_id e)).
    + split; [discriminate|tauto].
    + rewrite (ag_live _ _ A). tauto.
    + split; [discriminate|tauto].
    + rewrite (ag_run _ _ A). tauto.
  - rewrite Live, Run. cbn [andb negb]. eexists. split; [reflexivity|]. split; [reflexivity|]. cbn [p_live p_run]. split; intro i.
    + unfold updb. destruct (Nat.eqb_spec i (en_id e)); [split; [discriminate|tauto]|]. rewrite (ag_live _ _ A). tauto.
    + rewrite (ag_run _ _ A). split; [|tauto]. intros (ke & Ik & Ei & Mk). split; [eauto|]. intros ->.
      rewrite (id_unique _ _ (k, e) (ag_nodup _ _ A) Ik I) in Mk; [cbn [snd] in Mk; congruence|exact Ei].
Qed.
Lemma clear_plays : forall l st, agree st l ->
  exists st', play (rev (flat_map (fun ke => rev (destroy_events (snd ke))) l)) st = Some st' /\ agree st' [] /\ p_next st' = p_next st.
Proof.
  induction l as [|[k e] r IH]; intros st A; cbn [flat_map rev]; [exists st; auto|].
  rewrite rev_app_distr, rev_involutive. cbn [snd].
  destruct (destroy_plays _ _ e k A (or_introl eq_refl)) as (st1 & P & Nx & Lv & Rn).
  pose proof (ag_nodup _ _ A) as N. unfold ids in N. cbn [map] in N. change (id_of (k, e)) with (en_id e) in N.
  inversion N as [|? ? N1 N2]; subst.
  destruct (IH st1) as (st' & P' & A' & Nx').
  - constructor; [intro i; rewrite Lv|intro i; rewrite Rn|exact N2|].
    + unfold ids. cbn [map In]. change (id_of (k, e)) with (en_id e). split.
      * intros [[->|H] Ne]; [congruence|exact H].
      * intro H. split; [auto|]. intros ->. exact (N1 H).
    + split.
      * intros [(ke & [<-|I] & Ei & M) Ne]; [exfalso; apply Ne; symmetry; exact Ei|eauto].
      * intros (ke & I & Ei & M). split; [exists ke; split; [right; exact I|auto]|]. intros ->. apply N1. rewrite <- Ei. apply in_map, I.
    + intros i I. rewrite Nx. apply (ag_next _ _ A). right. exact I.
  - exists st'. rewrite play_app, P. rewrite <- Nx. auto.
Qed.

(** The invariant of a node. *)
Record good_node (s : node) : Prop := {
  gn_play : exists st, play (nd_log s) play_start = Some st /\ agree st (nd_engines s) /\ p_next st = nd_next s;
  gn_sorted : key_sorted (nd_engines s) }.
Lemma good_start_node : good_node start_node.
Proof.
  constructor; [|constructor]. exists play_start. split; [reflexivity|]. split; [|reflexivity].
  constructor.
  - intro i. split; [discriminate|intros []].
  - intro i. split; [discriminate|intros (ke & [] & _)].
  - constructor.
  - intros i [].
Qed.
Lemma good_clear s : good_node s -> good_node (clear_services s).
Proof.
  intros [(st & P & A & Nx) S]. destruct (clear_plays _ _ A) as (st' & P' & A' & Nx'). constructor; [|constructor].
  exists st'. cbn [clear_services set_engines logs nd_log nd_engines nd_next]. rewrite play_app, P, P'. split; [reflexivity|]. split; [exact A'|congruence].
Qed.
Lemma good_alloc ne ex name ty g s : good_node s ->
  match alloc_service ne ex name ty g s with
  | AllocDone s' port => good_node s' /\ exists e, nd_engines s' = omap_set name e (nd_engines s) /\ en_id e = nd_next s
      /\ en_type e = ty /\ en_index e = g /\ en_port e = port /\ en_peers e = None /\ en_main e = false /\ en_cancel e = None
      /\ nd_traffic s' = nd_traffic s /\ nd_threshold s' = nd_threshold s
      /\ nd_next s' = S (nd_next s) /\ ex_engine ex (nd_next s) = inl port /\ nd_peers s' = nd_peers s
  | AllocFailed s' _ => good_node s' /\ nd_engines s' = nd_engines s /\ nd_traffic s' = nd_traffic s
  | AllocCrash => False
  end.
Proof.
  intros [(st & P & A & Nx) So]. unfold alloc_service.
  destruct (options_for _ _ _ _ _) as [o|]; [|split; [constructor; [exists st; auto|exact So]|auto]].
  destruct (allocate _ _ _ _ _) eqn:Al.
  2: { split; [constructor; [exists st; auto|exact So]|auto]. }
  2: { exact (allocate_terminates _ _ _ _ _ (Nat.le_0_l _) (Nat.lt_succ_diag_r 4) Al). }
  set (id := nd_next s).
  assert (Pc : play (EvCreate id :: nd_log s) play_start = Some (mkPlay (updb (p_live st) id true) (p_run st) (S (p_next st)))).
  { cbn [play]. rewrite P. cbn [play1]. rewrite Nx. unfold id. rewrite Nat.eqb_refl. reflexivity. }
  assert (Fresh : ~ In id (ids (nd_engines s))) by (intro I; apply (ag_next _ _ A) in I; unfold id in I; lia).
  assert (NoRun : p_run st id = false).
  { destruct (p_run st id) eqn:R; [|reflexivity]. apply (ag_run _ _ A) in R. destruct R as (ke & I & E & _).
    exfalso. apply Fresh. rewrite <- E. apply in_map, I. }
  destruct (ex_engine ex id) as [port|m] eqn:Ee.
  - cbv zeta. set (e := mkEngine id ty g port None false None).
    set (stc := mkPlay (updb (p_live st) id true) (p_run st) (S (p_next st))) in *.
    assert (Ie : forall ke, In ke (omap_set name e (nd_engines s)) <-> ke = (name, e) \/ (In ke (nd_engines s) /\ fst ke <> name))
      by (intro ke; apply omap_set_In, So).
    split; [|exists e; repeat (split; [reflexivity|]);
             destruct (map_find name (nd_engines s)); cbn [nd_traffic nd_threshold nd_next nd_peers set_engines log logs fresh_id]; auto].
    constructor; [|cbn [nd_engines set_engines]; apply omap_set_sorted, So].
    assert (Nd : NoDup (ids (omap_set name e (nd_engines s)))).
    { clear -A So Fresh. pose proof (ag_nodup _ _ A) as N. revert So N Fresh. clear A. generalize (nd_engines s). intro m.
      unfold ids. induction m as [|[k' v'] r IH]; intros So N F; cbn [omap_set map].
      - constructor; [intros []|constructor].
      - unfold key_sorted in So. cbn [map fst] in So. inversion So as [|? ? S' F']; subst. cbn [map] in N, F. inversion N; subst.
        destruct (str_eqb_spec name k') as [->|Ne]; cbn [map].
        + constructor; [|assumption]. intro I. apply F. right. exact I.
        + destruct (str_ltb name k'); cbn [map]; [constructor; [exact F|constructor; assumption]|].
          constructor; [|apply IH; [exact S'|assumption|intro I; apply F; right; exact I]].
          intro I. apply in_map_iff in I. destruct I as (ke & E & I). apply (omap_set_In name e r) in I; [|exact S'].
          destruct I as [->|[I _]]; [|apply H1; rewrite <- E; apply in_map, I].
          change (id_of (name, e)) with id in E. apply F. left. symmetry. exact E. }
    destruct (map_find name (nd_engines s)) as [old|] eqn:Mf; cbn [nd_log nd_engines nd_next set_engines log logs fresh_id].
    + apply (map_find_iff _ _ _ So) in Mf.
      (* engines before, plus the new one *)
      pose proof (agree_live _ _ _ A Mf) as Lo. pose proof (agree_run _ _ _ A Mf) as Ro. unfold id_of in Lo, Ro. cbn [snd] in Lo, Ro.
      assert (No : en_id old <> id) by (intro E; apply Fresh; rewrite <- E; exact (in_map id_of _ _ Mf)).
      assert (Ac : agree stc ((s_ "", e) :: nd_engines s)).
      { constructor; cbn [stc p_live p_run p_next].
        - intro i. unfold ids. cbn [map In]. change (id_of (s_ "", e)) with id. unfold updb. destruct (Nat.eqb_spec i id) as [->|Ni]; [split; auto|].
          rewrite (ag_live _ _ A). split; [auto|intros [H|H]; [congruence|exact H]].
        - intro i. rewrite (ag_run _ _ A). split; intros (ke & I & Ei & M); [exists ke; split; [right; exact I|auto]|].
          destruct I as [<-|I]; [discriminate|eauto].
        - unfold ids. cbn [map]. constructor; [exact Fresh|apply A].
        - intros i [<-|I]; [unfold id_of; cbn [snd e en_id]; unfold id; lia|]. pose proof (ag_next _ _ A _ I). lia. }
      destruct (destroy_plays stc _ old name Ac (or_intror Mf)) as (st' & P' & Nx' & Lv & Rn).
      exists st'. rewrite play_app, Pc. split; [exact P'|]. split; [|rewrite Nx'; cbn [stc p_next]; congruence].
      assert (Same : forall ke, In ke (nd_engines s) -> (fst ke <> name <-> id_of ke <> en_id old)).
      { intros ke I. split; intros Ne E; apply Ne.
        - pose proof (id_unique _ ke (name, old) (ag_nodup _ _ A) I Mf E) as ->. reflexivity.
        - destruct ke as [k2 e2]. cbn [fst] in E. subst k2. apply (map_find_iff _ _ _ So) in I. apply (map_find_iff _ _ _ So) in Mf.
          rewrite I in Mf. injection Mf as ->. reflexivity. }
      constructor; [intro i; rewrite Lv|intro i; rewrite Rn|exact Nd|].
      * unfold ids. rewrite !in_map_iff. cbn [map In]. split.
        -- intros [(ke & Ei & I) Ne]. destruct I as [<-|I].
           ++ exists (name, e). split; [exact Ei|]. apply Ie. auto.
           ++ exists ke. split; [exact Ei|]. apply Ie. right. split; [exact I|]. apply (Same _ I). congruence.
        -- intros (ke & Ei & I). apply Ie in I. destruct I as [->|[I Nk]].
           ++ split; [exists (s_ "", e); auto|]. rewrite <- Ei. exact (not_eq_sym No).
           ++ split; [exists ke; auto|]. rewrite <- Ei. apply (Same _ I), Nk.
      * split.
        -- intros [(ke & [<-|I] & Ei & M) Ne]; [discriminate|]. exists ke. split; [|auto]. apply Ie. right. split; [exact I|].
           apply (Same _ I). congruence.
        -- intros (ke & I & Ei & M). apply Ie in I. destruct I as [->|[I Nk]]; [discriminate|].
           split; [exists ke; split; [right; exact I|auto]|]. rewrite <- Ei. apply (Same _ I), Nk.
      * intros i I. rewrite Nx'. cbn [stc p_next]. unfold ids in I. apply in_map_iff in I. destruct I as (ke & <- & I). apply Ie in I.
        destruct I as [->|[I _]]; [unfold id_of; cbn [snd e en_id]; unfold id; lia|].
        pose proof (ag_next _ _ A _ (in_map id_of _ _ I)). lia.
    + assert (Nk : forall ke, In ke (nd_engines s) -> fst ke <> name).
      { intros [k2 e2] I E. cbn [fst] in E. subst k2. apply (map_find_iff _ _ _ So) in I. congruence. }
      exists stc. split; [exact Pc|]. split; [|cbn [stc p_next]; congruence].
      constructor; cbn [stc p_live p_run p_next].
      * intro i. unfold updb, ids. rewrite in_map_iff. destruct (Nat.eqb_spec i id) as [->|Ni].
        -- split; [|reflexivity]. intros _. exists (name, e). split; [reflexivity|]. apply Ie. auto.
        -- rewrite (ag_live _ _ A). unfold ids. rewrite in_map_iff. split; intros (ke & Ei & I).
           ++ exists ke. split; [exact Ei|]. apply Ie. right. split; [exact I|apply Nk, I].
           ++ apply Ie in I. destruct I as [->|[I _]]; [exfalso; apply Ni; symmetry; exact Ei|]. eauto.
      * intro i. rewrite (ag_run _ _ A). split; intros (ke & I & Ei & M).
        -- exists ke. split; [|auto]. apply Ie. right. split; [exact I|apply Nk, I].
        -- apply Ie in I. destruct I as [->|[I _]]; [discriminate|]. eauto.
      * exact Nd.
      * intros i I. unfold ids in I. apply in_map_iff in I. destruct I as (ke & <- & I). apply Ie in I.
        destruct I as [->|[I _]]; [unfold id_of; cbn [snd e en_id]; unfold id; lia|].
        pose proof (ag_next _ _ A _ (in_map id_of _ _ I)). lia.
  - cbn [nd_engines nd_traffic log fresh_id]. split; [|auto]. constructor; [|exact So]. cbn [nd_log nd_engines nd_next log fresh_id].
    exists (mkPlay (updb (updb (p_live st) id true) id false) (p_run st) (S (p_next st))). split; [|split].
    + remember (EvCreate id :: nd_log s) as lg. cbn [play]. rewrite Pc. cbn [play1 p_live p_run p_next]. unfold updb at 1.
      rewrite Nat.eqb_refl, NoRun. reflexivity.
    + constructor; cbn [p_live p_run p_next]; try apply A.
      * intro i. unfold updb. destruct (Nat.eqb_spec i id) as [->|]; [split; [discriminate|contradiction]|apply A].
      * intros i I. pose proof (ag_next _ _ A _ I). lia.
    + cbn [p_next]. rewrite Nx. reflexivity.
Qed.

Definition reply_ok (r : reply) : bool := match r with ROk => true | _ => false end.
Lemma good_configure_loop ne ex : forall names s eps, good_node s ->
  match configure_loop ne ex names s eps with Replied s' _ _ => good_node s' | Crashed => True end.
Proof.
  induction names as [|name r IH]; intros s eps G; cbn [configure_loop]; [exact G|].
  destruct (_ <? _); [exact I|]. destruct (grid_index_from_name name); [|exact I].
  pose proof (good_alloc ne ex name (nth 0 (split_slash name) []) g s G) as K.
  destruct (alloc_service _ _ _ _ _ _) as [s' port|s' m|]; [|exact (proj1 K)|exact I].
  destruct (socket_for_device _ _ _ _); [|exact (proj1 K)]. apply IH, K.
Qed.
Lemma good_retag s t h p : good_node s -> good_node (mkNode t h p (nd_engines s) (nd_next s) (nd_log s)).
Proof. intros [P S]. constructor; assumption. Qed.
Lemma good_configure ne ex t names s : good_node s ->
  match configure ne ex t names s with Replied s' _ _ => good_node s' | Crashed => True end.
Proof.
  intro G. unfold configure. destruct (_ <=? _)%Z; [apply good_retag, G|]. apply good_configure_loop, good_clear.
  exact (good_retag s _ _ _ G).
Qed.
Lemma peers_loop_spec ex peers : forall l,
  let '(l', r, evs) := peers_loop ex peers l in
  map fst l' = map fst l /\ map (fun ke => (id_of ke, en_main (snd ke))) l' = map (fun ke => (id_of ke, en_main (snd ke))) l
  /\ (forall ev, In ev evs -> exists ke, In ke l /\ ev = EvPeers (id_of ke)).
Proof.
  induction l as [|[k e] r IH]; cbn [peers_loop]; [repeat split; intros ev []|].
  assert (E : forall e' o, engine_peers ex peers e = (e', o) -> en_id e' = en_id e /\ en_main e' = en_main e).
  { intros e' o H. unfold engine_peers in H. destruct peers; injection H as <- <-; auto. }
  destruct (engine_peers ex peers e) as [e' [m|]] eqn:F; destruct (E _ _ eq_refl) as [E1 E2].
  - cbn [map fst snd]. unfold id_of at 1 3. cbn [snd]. rewrite E1, E2. split; [reflexivity|]. split; [reflexivity|].
    intros ev [<-|[]]. exists (k, e). split; [left; reflexivity|reflexivity].
  - destruct (peers_loop ex peers r) as [[r' o] evs]. destruct IH as (I1 & I2 & I3). cbn [map fst snd]. unfold id_of at 1 3. cbn [snd].
    rewrite E1, E2, I1, I2. split; [reflexivity|]. split; [reflexivity|].
    intros ev I. apply in_app_or in I. destruct I as [I|[<-|[]]].
    + destruct (I3 _ I) as (ke & Ik & Eq). exists ke. split; [right; exact Ik|exact Eq].
    + exists (k, e). split; [left; reflexivity|reflexivity].
Qed.
Lemma good_peers ex p s : good_node s -> good_node (fst (introduce_peers ex p s)).
Proof.
  intros [(st & P & A & Nx) So]. unfold introduce_peers. pose proof (peers_loop_spec ex p (nd_engines s)) as K.
  destruct (peers_loop ex p (nd_engines s)) as [[l r] evs]. destruct K as (K1 & K2 & K3). cbn [fst].
  constructor; cbn [nd_log nd_engines nd_next]; [|unfold key_sorted; rewrite K1; exact So].
  exists st. rewrite play_app, P. split; [|split; [eapply agree_map; eassumption|exact Nx]].
  apply play_ops. intros ev I. destruct (K3 _ I) as (ke & Ik & ->). exact (agree_live _ _ _ A Ik).
Qed.
Lemma good_run_traffic s : good_node s ->
  match run_traffic s with Replied s' _ _ => good_node s' | Crashed => True end.
Proof.
  intros [(st & P & A & Nx) So]. unfold run_traffic. pose proof (run_all_plays (tc_lists (nd_traffic s)) (nd_engines s) [] st A) as K.
  destruct (run_all _ _) as [l evs|l evs|]; [| |exact I]; destruct K as ((st' & P' & A' & Nx') & K).
  - unfold finish_all. cbv zeta. destruct (finish_plays l [] st' A') as (st2 & P2 & A2 & Nx2). cbn [app] in *.
    constructor; cbn [nd_log nd_engines nd_next logs set_engines].
    + exists st2. rewrite play_app, P, play_app, P', P2. split; [reflexivity|]. split; [exact A2|congruence].
    + unfold key_sorted. rewrite map_map. cbn [fst]. change (map (fun x => fst x) l) with (map fst l). rewrite K. exact So.
  - constructor; cbn [nd_log nd_engines nd_next logs set_engines].
    + exists st'. rewrite play_app, P. split; [exact P'|]. split; [exact A'|congruence].
    + unfold key_sorted. rewrite K. exact So.
Qed.
Lemma good_cancel why s : good_node s -> good_node (cancel_traffic why s).
Proof.
  intros [(st & P & A & Nx) So]. unfold cancel_traffic. constructor; cbn [nd_log nd_engines nd_next logs set_engines].
  - exists st. rewrite play_app, P. split; [|split; [|exact Nx]].
    + apply play_ops. intros ev I. apply in_rev in I. apply in_map_iff in I. destruct I as (ke & <- & I). exact (agree_live _ _ _ A I).
    + eapply agree_map; [exact A|]. rewrite map_map. apply map_ext. intros [k e]. unfold id_of, engine_cancel. cbn [snd]. destruct (en_cancel e); reflexivity.
  - unfold key_sorted. rewrite map_map. exact So.
Qed.
Lemma good_result ex clear s : good_node s -> good_node (fst (traffic_result ex clear s)).
Proof.
  intros [(st & P & A & Nx) So]. unfold traffic_result. cbn [fst].
  set (s1 := logs _ s).
  assert (G1 : good_node s1).
  { constructor; [|exact So]. exists st. cbn [s1 nd_log nd_engines nd_next logs]. rewrite play_app, P. split; [|auto].
    apply play_ops. intros ev I. apply in_rev in I. apply in_map_iff in I. destruct I as (ke & <- & I). exact (agree_live _ _ _ A I). }
  destruct clear; [apply good_clear, good_cancel, G1|exact G1].
Qed.
Lemma good_handle ne ex q s s' r : good_node s -> handle ne ex q s = Some (s', r) -> good_node s'.
Proof.
  intros G E. destruct q as [t names|p| | |clear]; cbn [handle] in E.
  - pose proof (good_configure ne ex t names s G) as K. destruct (configure _ _ _ _ _); [|discriminate]. injection E as <- <-. exact K.
  - injection E as E. pose proof (good_peers ex p s G) as K. rewrite E in K. exact K.
  - pose proof (good_run_traffic s G) as K. destruct (run_traffic s); [|discriminate]. injection E as <- <-. exact K.
  - injection E as <- <-. apply good_cancel, G.
  - injection E as <- <-. exact (good_result ex clear s G).
Qed.
Lemma good_history ne : forall l s s' os, good_node s -> history ne l s = Some (s', os) -> good_node s'.
Proof.
  induction l as [|[ex q] r IH]; intros s s' os G E; cbn [history] in E; [injection E as <- <-; exact G|].
  destruct (handle ne ex q s) as [[s1 o]|] eqn:H; [|discriminate]. destruct (history ne r s1) as [[s2 os2]|] eqn:H2; [|discriminate].
  injection E as <- <-. eapply IH; [|exact H2]. eapply good_handle; eassumption.
Qed.

(** ** The result of a configuration *)
Record consistent (ne : node_env) (n0 : nat) (s : node) (eps : list (str * endpoint)) : Prop := {
  co_keys : forall k, In k (map fst (nd_engines s)) <-> In k (map fst eps);
  co_eps : NoDup (map fst eps);
  co_engine : forall k e, In (k, e) (nd_engines s) ->
    n0 <= en_id e /\ In slash k /\ en_type e = nth 0 (split_slash k) [] /\ grid_index_from_name k = Some (en_index e)
    /\ en_peers e = None /\ en_main e = false /\ en_cancel e = None
    /\ exists a, socket_for_device (ne_ifs ne) (ne_flag ne) (ne_control ne) (en_port e) = Some a
       /\ map_find k eps = Some (mkEp a (ne_hostname ne) (ne_attributes ne ++ grid_attributes k (en_index e))) }.
Lemma split_slash_length s : 2 <= length (split_slash s) -> In slash s.
Proof.
  induction s as [|c s IH]; cbn [split_slash length]; [lia|].
  destruct (Ascii.eqb_spec c slash) as [->|]; [left; reflexivity|].
  destruct (split_slash s) as [|x l] eqn:E; cbn [length]; [lia|]. intro L. right. apply IH. exact L.
Qed.
Lemma map_set_keys_In {V} k (v : V) m x : In x (map fst (map_set k v m)) <-> x = k \/ In x (map fst m).
Proof.
  rewrite map_set_keys. destruct (map_find k m) eqn:E.
  - split; [auto|]. intros [->|H]; [|exact H]. apply map_find_In in E. exact (in_map fst _ _ E).
  - rewrite in_app_iff. cbn [In]. split; [intros [|[<-|[]]]; auto|intros [->|]; auto].
Qed.
Lemma configure_loop_ok ne ex n0 : forall names s eps s' eps', good_node s -> n0 <= nd_next s -> consistent ne n0 s eps ->
  configure_loop ne ex names s eps = Replied s' ROk eps' ->
  consistent ne n0 s' eps' /\ (forall k, In k (map fst (nd_engines s')) <-> In k (map fst (nd_engines s)) \/ In k names)
  /\ nd_traffic s' = nd_traffic s /\ nd_threshold s' = nd_threshold s /\ nd_peers s' = nd_peers s.
Proof.
  induction names as [|name r IH]; intros s eps s' eps' G N0 C E; cbn [configure_loop] in E.
  - injection E as <- <-. split; [exact C|]. split; [|auto]. intro k. cbn [In]. tauto.
  - destruct (Nat.ltb_spec (length (split_slash name)) 2) as [|L2]; [discriminate|].
    destruct (grid_index_from_name name) as [g|] eqn:Gi; [|discriminate].
    pose proof (good_alloc ne ex name (nth 0 (split_slash name) []) g s G) as K.
    destruct (alloc_service _ _ _ _ _ _) as [s1 port|s1 m|]; [|discriminate|discriminate].
    destruct (socket_for_device _ _ _ port) as [a|] eqn:Sk; [|discriminate].
    destruct K as (G1 & e & Eg & Ei & Et & Ex & Ep & Epe & Em & Ec & Tr & Th & Nx & _ & Pe).
    pose proof (gn_sorted _ G) as So.
    assert (C1 : consistent ne n0 s1 (map_set name (mkEp a (ne_hostname ne) (ne_attributes ne ++ grid_attributes name g)) eps)).
    { constructor.
      * intro k. rewrite Eg, omap_set_keys, map_set_keys_In, (co_keys _ _ _ _ C). tauto.
      * apply map_set_NoDup, C.
      * intros k e2 I. rewrite Eg in I. apply (omap_set_In name e _ (k, e2) So) in I. destruct I as [I|[I Ne]].
        -- injection I as -> ->. split; [lia|]. split; [apply split_slash_length; exact L2|]. split; [exact Et|]. split; [rewrite Ex; exact Gi|].
           split; [exact Epe|]. split; [exact Em|]. split; [exact Ec|].
           exists a. rewrite Ep, Ex. split; [exact Sk|]. apply map_find_set_same.
        -- cbn [fst] in Ne. destruct (co_engine _ _ _ _ C k e2 I) as (A1 & A2 & A3 & A4 & A5 & A6 & A7 & a' & A8 & A9).
           repeat (split; [assumption|]). exists a'. split; [exact A8|]. rewrite map_find_set_other by congruence. exact A9. }
    destruct (IH s1 _ s' eps' G1 ltac:(lia) C1 E) as (C' & Ks & T1 & T2 & T3).
    { split; [exact C'|]. split; [|rewrite T1, T2, T3; auto]. intro k. rewrite Ks, Eg, omap_set_keys. cbn [In].
      split; [intros [[->|]|]; auto|intros [|[->|]]; auto]. }
Qed.
Lemma configure_ok ne ex t names s s' eps : good_node s -> configure ne ex t names s = Replied s' ROk eps ->
  consistent ne (nd_next s) s' eps /\ (forall k, In k (map fst (nd_engines s')) <-> In k names)
  /\ nd_traffic s' = t /\ nd_threshold s' = tc_max_threads t /\ nd_peers s' = nd_peers s /\ (0 < tc_max_threads t)%Z.
Proof.
  intros G E. unfold configure in E. destruct (Z.leb_spec (tc_max_threads t) 0); [discriminate|].
  set (s2 := mkNode _ _ _ _ _ _) in E. assert (G2 : good_node (clear_services s2)) by (apply good_clear; exact (good_retag s _ _ _ G)).
  destruct (configure_loop_ok ne ex (nd_next s) names (clear_services s2) [] s' eps G2) with (3 := E) as (C & K & T1 & T2 & T3).
  - cbn. lia.
  - constructor; cbn; [tauto|constructor|intros k e []].
  - split; [exact C|]. split; [intro k; rewrite K; cbn; tauto|]. cbn in T1, T2, T3. auto.
Qed.
(** The attributes of the instances of a service. *)
Lemma count_slash_app a b : count_slash (a ++ b) = count_slash a + count_slash b.
Proof. unfold count_slash. rewrite filter_app, app_length. reflexivity. Qed.
Lemma count_slash_none a : ~ In slash a -> count_slash a = 0.
Proof.
  unfold count_slash. induction a as [|c a IH]; intro N; [reflexivity|]. cbn [filter].
  destruct (Ascii.eqb_spec c slash) as [->|]; [exfalso; apply N; left; reflexivity|]. apply IH. intro I. apply N. right. exact I.
Qed.
Lemma count_slash_slash b : count_slash (slash :: b) = S (count_slash b).
Proof. unfold count_slash. cbn [filter]. rewrite Ascii.eqb_refl. reflexivity. Qed.
Lemma split_slash_none a : ~ In slash a -> split_slash a = [a].
Proof.
  induction a as [|c a IH]; intro N; [reflexivity|]. cbn [split_slash].
  destruct (Ascii.eqb_spec c slash) as [->|]; [exfalso; apply N; left; reflexivity|]. rewrite IH by (intro I; apply N; right; exact I). reflexivity.
Qed.
Lemma split_slash_app a b : ~ In slash a -> split_slash (a ++ slash :: b) = a :: split_slash b.
Proof.
  induction a as [|c a IH]; intro N; cbn [app split_slash]; [rewrite Ascii.eqb_refl; reflexivity|].
  destruct (Ascii.eqb_spec c slash) as [->|]; [exfalso; apply N; left; reflexivity|]. rewrite IH by (intro I; apply N; right; exact I). reflexivity.
Qed.

Lemma dec_no_slash z : ~ In slash (dec_of_Z z).
Proof.
  assert (D : forall n, ~ In slash (dec_of_N n)).
  { intros n I. destruct (dec_of_N_spec n) as (A & _). unfold all_digits in A. rewrite Forall_forall in A. apply A in I. discriminate I. }
  unfold dec_of_Z. destruct (z <? 0)%Z; [|apply D]. intros [H|H]; [discriminate|exact (D _ H)].
Qed.
Lemma instance_attributes s i n g : no_slash (sp_name s) -> instance_name s i = Some n -> service_index s i = Some g ->
  grid_attributes n g =
  match sp_x s, sp_y s, sp_z s with
  | Some _, _, Some _ => [(s_ "x_index", dec_of_Z (gx g)); (s_ "y_index", dec_of_Z (gy g)); (s_ "z_index", dec_of_Z (gz g))]
  | Some _, Some _, None => [(s_ "x_index", dec_of_Z (gx g)); (s_ "y_index", dec_of_Z (gy g))]
  | _, _, _ => [(s_ "index", dec_of_Z (gx g))]
  end.
Proof.
  intros Ns E S. unfold instance_name in E. rewrite S in E. unfold grid_attributes.
  assert (Z0 : forall z, count_slash (dec_of_Z z) = 0) by (intro; apply count_slash_none, dec_no_slash).
  assert (N0 : count_slash (sp_name s) = 0) by (apply count_slash_none, Ns).
  destruct (sp_x s) eqn:Ex.
  - destruct (sp_z s) eqn:Ez; [|destruct (sp_y s) eqn:Ey]; injection E as <-.
    + rewrite count_slash_app, count_slash_slash, count_slash_app, count_slash_slash, count_slash_app, count_slash_slash, !Z0, N0.
      destruct (sp_y s); reflexivity.
    + rewrite count_slash_app, count_slash_slash, count_slash_app, count_slash_slash, !Z0, N0. reflexivity.
    + rewrite count_slash_app, count_slash_slash, Z0, N0. rewrite split_slash_app by exact Ns. rewrite split_slash_none by apply dec_no_slash. reflexivity.
  - injection E as <-. unfold service_index in S. rewrite Ex in S. injection S as <-. cbn [gx].
    rewrite count_slash_app, count_slash_slash, Z0, N0. rewrite split_slash_app by exact Ns. rewrite split_slash_none by apply dec_no_slash.
    destruct (sp_y s), (sp_z s); reflexivity.
Qed.
