(** Lemmas for Tree_Props.v: allocation and whole lives of trees. *)
From Coq Require Import Ascii String List NArith ZArith Bool Arith Lia.
From Verif Require Import Base_Model Base_Proofs Util_Model Net_Model Pool_Model Driver_Model Grpc_Model Conn_Model Res_Model Res_Proofs Res_Proofs2 Res_Proofs3 Tree_Model Tree_Proofs Tree_Proofs2.
Import ListNotations.
Open Scope nat_scope.

Section Grow.
  Variables (homa mercury : bool) (res : option (str -> option driver_opts)) (les : list nat -> leaf_env).
  Definition tree_env : alloc_env := mkEnv homa mercury res (fun path o => leaf_failure (les path) o).
  Definition grown (r : log * option mtree) (a : driver_result) (path : list nat) : Prop :=
    match r with
    | (e, Some t) => exists d, a = DrvOk d /\ inside path d e /\ track les [] e path d t
    | (e, None) => (forall d, a <> DrvOk d) /\ (forall q, In q (map fst e) -> exists r, q = path ++ r) /\ forall p, proj p e = [] \/ exists L, lived les p L [] (proj p e)
    end.
  Lemma grown_nothing a path : (forall d, a <> DrvOk d) -> grown ([], None) a path.
  Proof. intros N. split; [exact N|]. split; [intros q []|auto]. Qed.
  Lemma leaf_grown {X} (r : init_result X) e t mk o path f : (failure r = None -> f = None) -> (failure r <> None -> f <> None) -> (forall L, leaves path (mk L) = [(path, mk L)]) ->
    (forall a, r = InitOk a -> living les path (mk o) t [] e) ->
    (forall a, r <> InitOk a) \/ (exists a, r = InitOk a) ->
    ((forall a, r <> InitOk a) -> exists ev, tree_destroy path t = at_ path ev /\ lived les path (mk o) [] (e ++ ev)) ->
    (match mk o with DDouble _ _ | DCounter _ => False | _ => True end) ->
    grown (leaf_log path r e t) (leaf mk f o) path.
  Proof.
    intros F0 F1 LV A D B K. unfold leaf_log. destruct D as [D|[a ->]].
    - assert (Q : grown (at_ path e ++ tree_destroy path t, None) (leaf mk f o) path).
      { destruct (B D) as (ev & E & Lv). rewrite E. split; [|split].
        - unfold leaf. destruct f; [discriminate|]. exfalso. destruct r as [a|c m|]; [exact (D a eq_refl)|apply F1; [discriminate|reflexivity]|apply F1; [discriminate|reflexivity]].
        - intros q Q. exists []. rewrite app_nil_r. rewrite map_app in Q. apply in_app_or in Q. destruct Q as [Q|Q]; apply labels_at in Q; exact Q.
        - intros p. destruct (path_eq_dec p path) as [->|N].
          + right. exists (mk o). rewrite proj_app, !proj_at. exact Lv.
          + left. apply proj_none. intros q Q. rewrite map_app in Q. apply in_app_or in Q. destruct Q as [Q|Q]; apply labels_at in Q; congruence. }
      destruct r as [a|c m|]; [destruct (D a eq_refl)|exact Q|exact Q].
    - exists (mk o). unfold leaf. rewrite (F0 eq_refl). split; [reflexivity|]. split; [apply inside_leaf, LV|].
      specialize (A a eq_refl). destruct (mk o); cbn [track]; try contradiction; rewrite proj_at; exact A.
  Qed.
  Lemma init_cases {A} (r : init_result A) : (forall a, r <> InitOk a) \/ (exists a, r = InitOk a).
  Proof. destruct r; [right; eauto|left; discriminate..]. Qed.

  Lemma grow_spec fuel : forall o depth path, grown (grow fuel homa mercury res les o depth path) (allocate fuel tree_env o depth path) path.
  Proof.
    induction fuel as [|f IH]; intros o depth path; cbn [grow allocate]; [apply grown_nothing; discriminate|].
    destruct (depth =? max_depth); [apply grown_nothing; discriminate|]. cbn [tree_env ev_homa ev_mercury ev_resolver ev_init].
    destruct (str_eqb (protocol_name o) (s_ "grpc") || str_eqb (protocol_name o) (s_ "grpc_async_callback")) eqn:N1.
    { apply leaf_grown; try reflexivity.
      - unfold leaf_failure. rewrite N1. auto.
      - unfold leaf_failure. rewrite N1. auto.
      - intros a E. exists a, [], []. split; [constructor|]. split; [reflexivity|]. split; [exact E|]. split; [reflexivity|]. rewrite app_nil_r. reflexivity.
      - apply init_cases.
      - intros D. exists (grpc_destroy (snd (grpc_make (les path) o 0))). split; [reflexivity|]. exists []. split; [constructor|]. unfold grpc_life.
        destruct (grpc_make (les path) o 0) as [e m]. cbn [fst snd]. destruct (grpc_init (les path) o 0) as [a| |]; [destruct (D a eq_refl)|reflexivity|reflexivity]. }
    destruct (str_eqb (protocol_name o) (s_ "double_barrel")).
    { pose proof (IH (next_opts (s_ "next_protocol_driver") o) (depth + 1) (path ++ [1])) as H1. pose proof (IH (next_opts (s_ "next_protocol_driver") o) (depth + 1) (path ++ [2])) as H2. fold tree_env.
      destruct (grow f homa mercury res les (next_opts (s_ "next_protocol_driver") o) (depth + 1) (path ++ [1])) as [e1 [t1|]].
      - destruct H1 as (d1 & -> & I1 & T1).
        destruct (grow f homa mercury res les (next_opts (s_ "next_protocol_driver") o) (depth + 1) (path ++ [2])) as [e2 [t2|]].
        + destruct H2 as (d2 & -> & I2 & T2). exists (DDouble d1 d2). split; [reflexivity|]. split.
          * apply inside_app; intros q Q; [destruct (I1 q Q) as [L J]|destruct (I2 q Q) as [L J]]; exists L; apply in_or_app; auto.
          * cbn [track]. split; (eapply track_ext; [|eassumption]); intros q L J; rewrite proj_app; apply leaves_prefix in J; destruct J as [s J].
            -- rewrite (inside_out _ _ _ e2 q I2), app_nil_r; [reflexivity|]. intros r R. exact (apart _ _ _ _ J R).
            -- rewrite (inside_out _ _ _ e1 q I1); [reflexivity|]. intros r R. exact (apart _ _ _ _ R J).
        + destruct H2 as (F & P & K). pose proof (destroy_inside _ _ _ _ _ _ T1) as J1. split; [|split].
          * intros d Q. destruct (allocate f tree_env _ _ (path ++ [2])) as [d2| |]; [exact (F d2 eq_refl)|discriminate Q|discriminate Q].
          * intros q Q. rewrite !map_app in Q. apply in_app_or in Q. destruct Q as [Q|Q]; [|apply in_app_or in Q; destruct Q as [Q|Q]].
            -- destruct (I1 q Q) as [L J]. apply leaves_prefix in J. destruct J as [s ->]. rewrite <- app_assoc. eauto.
            -- destruct (P q Q) as [s ->]. rewrite <- app_assoc. eauto.
            -- destruct (J1 q Q) as [L J]. apply leaves_prefix in J. destruct J as [s ->]. rewrite <- app_assoc. eauto.
          * intros p. destruct (in_dec path_eq_dec p (map fst (leaves (path ++ [1]) d1))) as [I|I].
            -- apply in_map_iff in I. destruct I as ([p' L] & <- & I). cbn [fst]. right. exists L. pose proof (destroy_lived _ _ _ _ _ _ _ _ T1 I) as V. rewrite !proj_app in *.
               rewrite (proj_none p' e2); [exact V|]. intros q Q ->. destruct (P _ Q) as [s R]. apply leaves_prefix in I. destruct I as [r' I]. exact (apart _ _ _ _ I R).
            -- assert (Z : forall e, inside (path ++ [1]) d1 e -> proj p e = []).
               { intros e Ie. apply proj_none. intros q Q ->. destruct (Ie _ Q) as [L J]. apply I. apply in_map_iff. exists (p, L). auto. }
               rewrite !proj_app, (Z _ I1), (Z _ J1). cbn [app]. rewrite app_nil_r. apply K.
      - destruct H1 as (F & P & K). split; [|split; [|exact K]].
        + intros d Q. destruct (allocate f tree_env _ _ (path ++ [1])) as [d2| |]; [exact (F d2 eq_refl)|discriminate Q|discriminate Q].
        + intros q Q. destruct (P q Q) as [s ->]. rewrite <- app_assoc. eauto. }
    destruct (str_eqb (protocol_name o) (s_ "composable_rpc_counter")).
    { pose proof (IH (next_opts (s_ "driver_under_test") o) (depth + 1) (path ++ [1])) as H1. fold tree_env.
      destruct (grow f homa mercury res les (next_opts (s_ "driver_under_test") o) (depth + 1) (path ++ [1])) as [e1 [t1|]]; cbn [option_map].
      - destruct H1 as (d1 & -> & I1 & T1). exists (DCounter d1). split; [reflexivity|]. split; [exact I1|exact T1].
      - destruct H1 as (F & P & K). split; [|split; [|exact K]].
        + intros d Q. destruct (allocate f tree_env _ _ (path ++ [1])) as [d2| |]; [exact (F d2 eq_refl)|discriminate Q|discriminate Q].
        + intros q Q. destruct (P q Q) as [s ->]. rewrite <- app_assoc. eauto. }
    destruct (homa && str_eqb (protocol_name o) (s_ "homa")) eqn:N2.
    { apply andb_prop in N2. destruct N2 as [_ N2]. apply leaf_grown; try reflexivity.
      - unfold leaf_failure. rewrite N1, N2. auto.
      - unfold leaf_failure. rewrite N1, N2. auto.
      - intros a E. exists a, [], []. split; [constructor|]. split; [exact E|]. split; [reflexivity|]. rewrite app_nil_r. reflexivity.
      - apply init_cases.
      - intros D. exists (homa_destroy (snd (homa_make (les path) o))). split; [reflexivity|]. exists []. split; [constructor|]. unfold homa_life.
        destruct (homa_make (les path) o) as [e m]. cbn [fst snd]. destruct (homa_init (les path) o 0) as [a| |]; [destruct (D a eq_refl)|reflexivity|reflexivity]. }
    destruct (mercury && str_eqb (protocol_name o) (s_ "mercury")) eqn:N3.
    { apply andb_prop in N3. destruct N3 as [_ N3].
      assert (N4 : str_eqb (protocol_name o) (s_ "homa") = false). { destruct (str_eqb_spec (protocol_name o) (s_ "mercury")) as [E|]; [rewrite E; reflexivity|discriminate N3]. }
      apply leaf_grown; try reflexivity.
      - unfold leaf_failure. rewrite N1, N4. auto.
      - unfold leaf_failure. rewrite N1, N4. auto.
      - intros a E. exists a, [], []. split; [constructor|]. split; [reflexivity|]. split; [exact E|]. split; [reflexivity|]. rewrite app_nil_r. reflexivity.
      - apply init_cases.
      - intros D. exists (mercury_destroy (snd (mercury_make (les path) o 0))). split; [reflexivity|]. exists []. split; [constructor|]. unfold mercury_life.
        destruct (mercury_make (les path) o 0) as [e m]. cbn [fst snd]. destruct (mercury_init (les path) o 0) as [a| |]; [destruct (D a eq_refl)|reflexivity|reflexivity]. }
    destruct res as [res'|]; [|apply grown_nothing; discriminate]. destruct (res' (protocol_name o)) as [o'|]; [apply IH|apply grown_nothing; discriminate].
  Qed.

  Lemma life_ok o l life d : tree_life homa mercury res les o l = Some life -> allocate 5 tree_env o 0 [] = DrvOk d ->
    (forall p L, In (p, L) (leaves [] d) -> lived les p L l (proj p life)) /\ forall p, (forall L, ~ In (p, L) (leaves [] d)) -> proj p life = [].
  Proof.
    intros E A. unfold tree_life in E. pose proof (grow_spec 5 o 0 []) as G. destruct (grow 5 homa mercury res les o 0 []) as [e [t|]].
    - destruct G as (d' & A' & I0 & T). rewrite A in A'. injection A' as <-. destruct (tree_calls l t) as [[[e2 t2] oks]|] eqn:C; [|discriminate]. injection E as <-.
      destruct (calls_track _ _ _ _ _ _ _ _ _ T C) as [I2 T2]. cbn [app] in T2. pose proof (destroy_inside _ _ _ _ _ _ T2) as I3. split.
      + intros p L I. rewrite app_assoc. apply (destroy_lived _ _ _ _ _ _ _ _ T2 I).
      + intros p N. apply proj_none. intros q Q ->. assert (J : inside [] d (e ++ e2 ++ tree_destroy [] t2)) by (repeat apply inside_app; assumption). destruct (J _ Q) as [L K]. exact (N L K).
    - destruct G as [F _]. destruct (F d A).
  Qed.
  Lemma life_failed o l life : tree_life homa mercury res les o l = Some life -> (forall d, allocate 5 tree_env o 0 [] <> DrvOk d) ->
    forall p, proj p life = [] \/ exists L, lived les p L [] (proj p life).
  Proof.
    intros E A p. unfold tree_life in E. pose proof (grow_spec 5 o 0 []) as G. destruct (grow 5 homa mercury res les o 0 []) as [e [t|]].
    - destruct G as (d' & A' & _). destruct (A d' A').
    - injection E as <-. apply G.
  Qed.
End Grow.

(** ** Calls as a leaf sees them *)
Lemma snoc_cons {A} (x : A) l c r : l ++ [x] = c :: r -> (l = [] /\ x = c /\ r = []) \/ exists l', l = c :: l' /\ r = l' ++ [x].
Proof. destruct l as [|y l]; cbn; intros E; injection E as -> <-; [left; auto|right; eauto]. Qed.
Lemma seen_cons {A} (conv : tcall -> option A) L cs : seen conv L cs -> forall c l, L = c :: l ->
  (exists x cs', conv c = Some x /\ cs = x :: cs' /\ seen conv l cs') \/ ((partial c \/ conv c = None) /\ seen conv l cs).
Proof.
  induction 1 as [|l0 cs c x H IH E|l0 cs c H IH E]; intros c' l Q; [discriminate| |].
  - apply snoc_cons in Q. destruct Q as [(-> & -> & ->)|(l' & -> & ->)].
    + left. exists x, []. inversion H as [|? ? ? ? ? ? K|? ? ? ? ? K].
      * split; [exact E|split; [reflexivity|constructor]].
      * destruct l; discriminate K.
      * destruct l; discriminate K.
    + destruct (IH c' l' eq_refl) as [(y & cs' & A1 & -> & B)|[A1 B]].
      * left. exists y, (cs' ++ [x]). split; [exact A1|]. split; [reflexivity|apply seen_call; assumption].
      * right. split; [exact A1|]. apply seen_call; assumption.
  - apply snoc_cons in Q. destruct Q as [(-> & -> & ->)|(l' & -> & ->)].
    + right. split; [exact E|]. inversion H as [|? ? ? ? ? ? K|? ? ? ? ? K]; [constructor|destruct l; discriminate K|destruct l; discriminate K].
    + destruct (IH c' l' eq_refl) as [(y & cs' & A1 & -> & B)|[A1 B]].
      * left. exists y, cs'. split; [exact A1|]. split; [reflexivity|apply seen_skip; assumption].
      * right. split; [exact A1|]. apply seen_skip; assumption.
Qed.
Definition tconnected (l : list tcall) : list nat := flat_map (fun c => match c with TConnect p _ => [p] | _ => [] end) l.
(** As the engine does (distbench_engine.cc:754, 810-820): SetNumPeers once and
    first, HandleConnect once for each peer. *)
Definition engine_use (l : list tcall) : Prop := exists n r, l = TPeers n :: r /\ (forall k, ~ In (TPeers k) r) /\ NoDup (tconnected r).
Lemma seen_connected p l : forall cs x, seen (mcall_of p) l cs -> In x (connected cs) -> In x (tconnected l).
Proof.
  intros cs x H. induction H as [|l cs c y H IH E|l cs c H IH E]; unfold connected, tconnected in *; [auto| |]; intros I.
  - rewrite flat_map_app in *. apply in_or_app. apply in_app_or in I. destruct I as [I|I]; [auto|]. right. destruct c; cbn in E; try discriminate E; injection E as <-; cbn in I; try tauto.
    destruct (works p); cbn in *; tauto.
  - rewrite flat_map_app. apply in_or_app. auto.
Qed.
Lemma seen_nodup p l : forall cs, seen (mcall_of p) l cs -> NoDup (tconnected l) -> NoDup (connected cs).
Proof.
  intros cs H. induction H as [|l cs c y H IH E|l cs c H IH E]; intros N.
  - apply NoDup_nil.
  - unfold tconnected in N. rewrite flat_map_app in N. fold (tconnected l) in N. unfold connected. rewrite flat_map_app. fold (connected cs).
    assert (K : connected cs ++ [] = connected cs) by apply app_nil_r.
    destruct c; cbn in E; try discriminate E; injection E as <-; cbn [flat_map app] in *; rewrite ?app_nil_r in *; auto.
    destruct (works p); rewrite ?app_nil_r; [|apply IH; eapply NoDup_l, N]. apply nodup_comm. cbn [app]. constructor; [|apply IH; eapply NoDup_l, N].
    intros I. apply (seen_connected _ _ _ _ H) in I. apply (NoDup_disj _ _ _ N I). left. reflexivity.
  - apply IH. unfold tconnected in N. rewrite flat_map_app in N. eapply NoDup_l, N.
Qed.
Lemma seen_resizes p l : forall cs, seen (mcall_of p) l cs -> (forall k, ~ In (TPeers k) l) -> ~ resizes cs.
Proof.
  intros cs H. induction H as [|l cs c y H IH E|l cs c H IH E]; intros N [k K].
  - destruct K.
  - apply in_app_or in K. destruct K as [K|K].
    + apply IH; [intros j J; apply (N j), in_or_app; auto|exists k; exact K].
    + destruct K as [->|[]]. destruct c; cbn in E; try discriminate E. injection E as ->. apply (N k), in_or_app. right. left. reflexivity.
  - apply IH; [intros j J; apply (N j), in_or_app; auto|exists k; exact K].
Qed.
Lemma mercury_life_peers le o port : mercury_life le o port [] = mercury_life le o port [SetPeers 0].
Proof.
  unfold mercury_life. assert (K : n_addrs (snd (mercury_make le o port)) = []).
  { unfold mercury_make. destruct (_ && _); [reflexivity|]. destruct (get_pool le o []); [|reflexivity..]. destruct (get_ip le _ 4); [|reflexivity..].
    unfold mercury_steps. cbv zeta. repeat match goal with |- context [if ?b then _ else _] => destruct b; [reflexivity|] end. reflexivity. }
  destruct (mercury_make le o port) as [e m]. cbn [fst snd] in K. destruct (mercury_init le o port); [|reflexivity..]. cbn [mercury_calls mercury_call].
  do 2 f_equal. f_equal. unfold with_addrs. rewrite K. destruct m. cbn in K. subst. reflexivity.
Qed.

(** ** Connecting *)
Fixpoint mleaves (path : list nat) (t : mtree) : list (list nat * mtree) :=
  match t with
  | MDouble t1 t2 => mleaves (path ++ [1]) t1 ++ mleaves (path ++ [2]) t2
  | MCounter t1 => mleaves (path ++ [1]) t1
  | _ => [(path, t)]
  end.
Lemma mleaves_prefix t : forall path q L, In (q, L) (mleaves path t) -> exists r, q = path ++ r.
Proof.
  induction t as [k s|n m|k m|a IHa b IHb|a IHa]; intros path q L H; cbn [mleaves] in H.
  1-3: destruct H as [H|[]]; injection H as <- <-; exists []; rewrite app_nil_r; reflexivity.
  - apply in_app_or in H. destruct H as [H|H]; [destruct (IHa _ _ _ H) as [r ->]|destruct (IHb _ _ _ H) as [r ->]]; rewrite <- app_assoc; eexists; reflexivity.
  - destruct (IHa _ _ _ H) as [r ->]. rewrite <- app_assoc. eexists. reflexivity.
Qed.
Lemma call_labels c t : forall path e t' ok q, tree_call c path t = Some (e, t', ok) -> In q (map fst e) -> exists r, q = path ++ r.
Proof.
  assert (LL : forall path e q, In q (map fst (at_ path e)) -> exists r : list nat, q = path ++ r). { intros path e q Q. exists []. rewrite app_nil_r. exact (labels_at _ _ _ Q). }
  induction t as [k s|n m|k m|a IHa b IHb|a IHa]; intros path e t' ok q H Q; cbn [tree_call] in H.
  - destruct (grpc_call _ _ _) as [[? ?]|]; [|discriminate]. injection H as <- <- <-. eauto.
  - destruct (homa_call _ _ _) as [[[? ?] ?]|]; [|discriminate]. injection H as <- <- <-. eauto.
  - destruct (mcall_of _ _); [destruct (mercury_call _ _ _) as [[? ?]|]; [|discriminate]|]; injection H as <- <- <-; [eauto|destruct Q].
  - assert (K : e = [] \/ (exists t1 k, tree_call c (path ++ [1]) a = Some (e, t1, k)) \/ exists e1 t1 k e2 t2 k2, tree_call c (path ++ [1]) a = Some (e1, t1, k) /\ tree_call c (path ++ [2]) b = Some (e2, t2, k2) /\ e = e1 ++ e2).
    { destruct c; try (injection H as <- <- <-; auto; fail).
      all: right; destruct (tree_call _ (path ++ [1]) a) as [[[e1 t1] [|]]|] eqn:Q1; [|injection H as <- <- <-; left; eauto|discriminate].
      all: destruct (tree_call _ (path ++ [2]) b) as [[[e2 t2] k2]|] eqn:Q2; [|discriminate]; injection H as <- <- <-; right; eauto 12. }
    destruct K as [->|[(t1 & k & K)|(e1 & t1 & k & e2 & t2 & k2 & K1 & K2 & ->)]]; [destruct Q| |].
    + destruct (IHa _ _ _ _ _ K Q) as [r ->]. rewrite <- app_assoc. eauto.
    + rewrite map_app in Q. apply in_app_or in Q. destruct Q as [Q|Q]; [destruct (IHa _ _ _ _ _ K1 Q) as [r ->]|destruct (IHb _ _ _ _ _ K2 Q) as [r ->]]; rewrite <- app_assoc; eauto.
  - assert (K : e = [] \/ exists t1 k, tree_call c (path ++ [1]) a = Some (e, t1, k)).
    { destruct c; try (injection H as <- <- <-; auto; fail). all: right; destruct (tree_call _ (path ++ [1]) a) as [[[e1 t1] k1]|] eqn:Q1; [|discriminate]; injection H as <- <- <-; eauto. }
    destruct K as [->|(t1 & k & K)]; [destruct Q|]. destruct (IHa _ _ _ _ _ K Q) as [r ->]. rewrite <- app_assoc. eauto.
Qed.
(** What HandleConnect does at a leaf that it reaches. *)
Definition connecting (peer : nat) (works : bool) (lf : mtree) : list event :=
  match lf with
  | MGrpc k s => if works then store k peer (g_stubs (gs_members s)) else []
  | MMercury k _ => if works then [Made (Addr k)] else []
  | _ => []
  end.
Lemma app_split {A} (a b l1 l2 : list A) x : a ++ b = l1 ++ x :: l2 -> (exists l2', a = l1 ++ x :: l2') \/ exists l1', l1 = a ++ l1' /\ b = l1' ++ x :: l2.
Proof.
  revert l1. induction a as [|y a IH]; intros [|z l1] E; cbn [app] in E.
  - right. exists []. auto.
  - right. exists (z :: l1). auto.
  - injection E as -> E. left. exists a. reflexivity.
  - injection E as -> E. destruct (IH _ E) as [(l2' & ->)|(l1' & -> & ->)]; [left; exists l2'; reflexivity|right; exists l1'; auto].
Qed.
Lemma connect_spec peer w t : forall path e t' ok, tree_call (TConnect peer w) path t = Some (e, t', ok) ->
  ok = forallb (fun x => w (fst x)) (mleaves path t) /\
  forall l1 q lf l2, mleaves path t = l1 ++ (q, lf) :: l2 -> proj q e = if forallb (fun x => w (fst x)) l1 then connecting peer (w q) lf else [].
Proof.
  assert (LL : forall (q q' : list nat) (lf lf' : mtree) l1 l2, [(q, lf)] = l1 ++ (q', lf') :: l2 -> l1 = [] /\ q' = q /\ lf' = lf).
  { intros q q' lf lf' [|x l1] l2 E; [injection E as -> -> _; auto|]. injection E as _ E. destruct l1; discriminate E. }
  induction t as [k s|n m|k m|a IHa b IHb|a IHa]; intros path e t' ok H; cbn [tree_call] in H.
  - cbn [gcall_of grpc_call] in H. destruct (peer <? _); [|discriminate]. destruct (w path) eqn:W; injection H as <- <- <-; cbn [says mleaves forallb fst]; rewrite W;
      (split; [reflexivity|]); intros l1 q lf l2 E; apply LL in E; destruct E as (-> & -> & ->); cbn [forallb connecting]; rewrite ?W; try reflexivity; exact (proj_at path (store k peer (g_stubs (gs_members s)))).
  - cbn [homa_call] in H. destruct (peer <? _); [|discriminate]. injection H as <- <- <-. cbn [says mleaves forallb fst]. split; [rewrite andb_true_r; reflexivity|].
    intros l1 q lf l2 E. apply LL in E. destruct E as (-> & -> & ->). reflexivity.
  - cbn [mcall_of mercury_call] in H. destruct (peer <? _); [|discriminate]. destruct (w path) eqn:W; injection H as <- <- <-; cbn [says mleaves forallb fst]; rewrite W;
      (split; [reflexivity|]); intros l1 q lf l2 E; apply LL in E; destruct E as (-> & -> & ->); cbn [forallb connecting]; rewrite ?W; try reflexivity; exact (proj_at path [Made (Addr k)]).
  - cbn [mleaves]. destruct (tree_call _ (path ++ [1]) a) as [[[e1 t1] [|]]|] eqn:Q1; [| |discriminate].
    + destruct (tree_call _ (path ++ [2]) b) as [[[e2 t2] k2]|] eqn:Q2; [|discriminate]. injection H as <- <- <-. destruct (IHa _ _ _ _ Q1) as [A1 A2]. destruct (IHb _ _ _ _ Q2) as [B1 B2].
      rewrite forallb_app, <- A1. split; [exact B1|]. intros l1 q lf l2 E. rewrite proj_app. apply app_split in E. destruct E as [(l2' & E)|(l1' & -> & E)].
      * rewrite (proj_none q e2), app_nil_r; [apply (A2 _ _ _ _ E)|]. intros p P ->. destruct (call_labels _ _ _ _ _ _ _ Q2 P) as [r R].
        destruct (mleaves_prefix a (path ++ [1]) q lf) as [s S1]; [rewrite E; apply in_or_app; right; left; reflexivity|]. exact (apart _ _ _ _ S1 R).
      * rewrite (proj_none q e1), forallb_app, <- A1; [apply (B2 _ _ _ _ E)|]. intros p P ->. destruct (call_labels _ _ _ _ _ _ _ Q1 P) as [r R].
        destruct (mleaves_prefix b (path ++ [2]) q lf) as [s S1]; [rewrite E; apply in_or_app; right; left; reflexivity|]. exact (apart _ _ _ _ R S1).
    + injection H as <- <- <-. destruct (IHa _ _ _ _ Q1) as [A1 A2]. rewrite forallb_app, <- A1. split; [reflexivity|]. intros l1 q lf l2 E. apply app_split in E. destruct E as [(l2' & E)|(l1' & -> & E)].
      * apply (A2 _ _ _ _ E).
      * rewrite forallb_app, <- A1. apply proj_none. intros p P ->. destruct (call_labels _ _ _ _ _ _ _ Q1 P) as [r R].
        destruct (mleaves_prefix b (path ++ [2]) q lf) as [s S1]; [rewrite E; apply in_or_app; right; left; reflexivity|]. exact (apart _ _ _ _ R S1).
  - cbn [mleaves]. destruct (tree_call _ (path ++ [1]) a) as [[[e1 t1] k1]|] eqn:Q1; [|discriminate]. injection H as <- <- <-. exact (IHa _ _ _ _ Q1).
Qed.

(** ** Shutting down *)
(** The threads that a leaf runs. *)
Definition threads (server : bool) (lf : mtree) : list nat :=
  match lf with
  | MGrpc _ s =>
      if server then match g_server (gs_members s) with Some g => if s_thread g then [0] else [] | None => [] end
      else match g_client (gs_members s) with Some ClientPolling => if g_cdown (gs_members s) then [] else [0] | _ => [] end
  | MHoma _ m => if server then if m_sdown m then [] else seq 0 (m_sthreads m) else if m_cdown m then [] else seq 0 (m_cthreads m)
  | MMercury _ m => if n_threads m && negb (if server then n_sdown m else n_cdown m) then [0] else []
  | _ => []
  end.
Definition thread_of (server : bool) (i : nat) : thing := if server then ServerThread i else ClientThread i.
Definition shut (server : bool) (lf lf' : mtree) (l : list event) : Prop :=
  threads server lf' = [] /\ threads (negb server) lf' = threads (negb server) lf /\
  (forall i, In (Unmade (thread_of server i)) l <-> In i (threads server lf)) /\ forall i, ~ In (Unmade (thread_of (negb server) i)) l.
Definition shutting (server : bool) : tcall := if server then TServer else TClient.
Lemma in_free x l : In x (free_stubs l) -> exists k, x = Unmade (Stub k).
Proof. unfold free_stubs. intros H. apply in_flat_map in H. destruct H as ([k|] & _ & H); [destruct H as [H|[]]; exists k; auto|destruct H]. Qed.
Lemma in_join i l b : In (Unmade (ServerThread i)) (join_servers l b) <-> In i l.
Proof.
  revert b. induction l as [|j l IH]; intros b; [reflexivity|]. cbn [join_servers In]. rewrite in_app_iff, IH. unfold unmade_if. split.
  - intros [H|[H|H]]; [injection H as ->; auto| |auto]. destruct b; [destruct H as [H|[]]; discriminate H|destruct H].
  - intros [->|H]; auto.
Qed.
Lemma join_only i l b : ~ In (Unmade (ClientThread i)) (join_servers l b).
Proof.
  revert b. induction l as [|j l IH]; intros b H; [exact H|]. cbn [join_servers In] in H. rewrite in_app_iff in H. destruct H as [H|[H|H]]; [discriminate H| |exact (IH _ H)].
  unfold unmade_if in H. destruct b; [destruct H as [H|[]]; discriminate H|destruct H].
Qed.
Lemma in_if b r r' : In (Unmade r) (unmade_if b r') <-> b = true /\ r = r'.
Proof. unfold unmade_if. destruct b; cbn [In]; split; [intros [H|[]]; injection H as ->; auto|intros [_ ->]; auto|intros []|intros [H _]; discriminate H]. Qed.
Lemma gshut_server_shut k s : shut true (MGrpc k s) (MGrpc (S k) (mkGst (gs_known s) (snd (gshut_server (gs_members s))))) (fst (gshut_server (gs_members s))).
Proof.
  unfold shut, gshut_server. cbn [threads negb gs_members thread_of]. destruct (g_server (gs_members s)) as [g|] eqn:Q; cbn [fst snd g_server g_client g_cdown s_thread].
  - split; [reflexivity|]. split; [reflexivity|]. split; intros i; rewrite in_app_iff, !in_if.
    + destruct (s_thread g); cbn [In]; split; [intros [[_ H]|[_ H]]; [discriminate H|injection H as ->; auto]|intros [<-|[]]; auto|intros [[_ H]|[H _]]; discriminate H|intros []].
    + intros [[_ H]|[_ H]]; discriminate H.
  - rewrite Q. split; [reflexivity|]. split; [reflexivity|]. split; intros i; [reflexivity|intros []].
Qed.
Lemma gshut_client_shut k s : shut false (MGrpc k s) (MGrpc (S k) (mkGst (gs_known s) (snd (gshut_client (gs_members s))))) (fst (gshut_client (gs_members s))).
Proof.
  unfold shut, gshut_client. cbn [threads negb gs_members thread_of]. destruct (g_client (gs_members s)) as [c|] eqn:Q; cbn [fst snd g_server g_client g_cdown].
  - split; [destruct c; reflexivity|]. split; [reflexivity|]. split; intros i.
    + rewrite in_app_iff. split.
      * intros [H|H]; [|apply in_free in H; destruct H as [j H]; discriminate H]. destruct c; cbn [andb] in H; [|destruct H]. destruct (g_cdown (gs_members s)); cbn [negb] in H; [destruct H|]. destruct H as [H|[]]. injection H as <-. left. reflexivity.
      * intros H. left. destruct c; [|destruct H]. cbn [andb]. destruct (g_cdown (gs_members s)); [destruct H|]. destruct H as [<-|[]]. left. reflexivity.
    + intros H. apply in_app_iff in H. destruct H as [H|H]; [|apply in_free in H; destruct H as [j H]; discriminate H]. destruct (_ && _); [destruct H as [H|[]]; discriminate H|destruct H].
  - rewrite Q. split; [reflexivity|]. split; [reflexivity|]. split; intros i; [reflexivity|intros []].
Qed.
Lemma hshut_server_shut n m : shut true (MHoma n m) (MHoma n (snd (hshut_server m))) (fst (hshut_server m)).
Proof.
  unfold shut, hshut_server. cbn [threads negb thread_of]. destruct (m_sdown m) eqn:Q; cbn [fst snd m_sdown m_cdown m_cthreads].
  - rewrite Q. split; [reflexivity|]. split; [reflexivity|]. split; intros i; [reflexivity|intros []].
  - split; [reflexivity|]. split; [reflexivity|]. split; intros i; rewrite in_app_iff, in_if.
    + rewrite in_join. split; [intros [H|[_ H]]; [exact H|discriminate H]|auto].
    + intros [H|[_ H]]; [exact (join_only _ _ _ H)|discriminate H].
Qed.
Lemma hshut_client_shut n m : shut false (MHoma n m) (MHoma n (snd (hshut_client m))) (fst (hshut_client m)).
Proof.
  unfold shut, hshut_client. cbn [threads negb thread_of]. destruct (m_cdown m) eqn:Q; cbn [fst snd m_sdown m_cdown m_sthreads].
  - rewrite Q. split; [reflexivity|]. split; [reflexivity|]. split; intros i; [reflexivity|intros []].
  - split; [reflexivity|]. split; [reflexivity|]. split; intros i; rewrite !in_app_iff, !in_if, in_map_iff.
    + split; [intros [(j & H & K)|[[_ H]|[_ H]]]; [injection H as ->; exact K|discriminate H|discriminate H]|intros H; left; exists i; auto].
    + intros [(j & H & _)|[[_ H]|[_ H]]]; discriminate H.
Qed.
Lemma mshut_server_shut k m : shut true (MMercury k m) (MMercury (S k) (snd (mshut_server m))) (fst (mshut_server m)).
Proof.
  unfold shut, mshut_server. cbn [threads negb thread_of fst snd n_sdown n_cdown n_threads]. split; [rewrite andb_false_r; reflexivity|]. split; [reflexivity|]. split; intros i; rewrite in_app_iff, in_if.
  - destruct (n_sdown m); cbn [negb]; [rewrite andb_false_r; split; [intros [[]|[_ H]]; discriminate H|intros []]|]. rewrite in_if, andb_true_r. destruct (n_threads m); cbn [In]; split.
    + intros [[_ H]|[_ H]]; [injection H as ->; auto|discriminate H].
    + intros [<-|[]]. auto.
    + intros [[H _]|[_ H]]; discriminate H.
    + intros [].
  - intros [H|[_ H]]; [|discriminate H]. destruct (n_sdown m); [destruct H|]. apply in_if in H. destruct H as [_ H]. discriminate H.
Qed.
Lemma mshut_client_shut k m : shut false (MMercury k m) (MMercury (S k) (snd (mshut_client m))) (fst (mshut_client m)).
Proof.
  unfold shut, mshut_client. cbn [threads negb thread_of fst snd n_sdown n_cdown n_threads]. split; [rewrite andb_false_r; reflexivity|]. split; [reflexivity|]. split; intros i.
  - destruct (n_cdown m); cbn [negb]; [rewrite andb_false_r; reflexivity|]. rewrite in_if, andb_true_r. destruct (n_threads m); cbn [In]; split.
    + intros [_ H]. injection H as ->. auto.
    + intros [<-|[]]. auto.
    + intros [H _]. discriminate H.
    + intros [].
  - intros H. destruct (n_cdown m); [destruct H|]. apply in_if in H. destruct H as [_ H]. discriminate H.
Qed.
Lemma shut_spec server t : forall path e t' ok, tree_call (shutting server) path t = Some (e, t', ok) ->
  ok = true /\ forall q lf, In (q, lf) (mleaves path t) -> exists lf', In (q, lf') (mleaves path t') /\ shut server lf lf' (proj q e).
Proof.
  induction t as [k s|n m|k m|a IHa b IHb|a IHa]; intros path e t' ok H.
  - destruct server; cbn [shutting tree_call gcall_of grpc_call] in H.
    + destruct (gshut_server (gs_members s)) as [e0 m0] eqn:Q. injection H as <- <- <-. split; [reflexivity|]. intros q lf [E|[]]. injection E as <- <-. eexists. split; [left; reflexivity|].
      rewrite proj_at. pose proof (gshut_server_shut k s) as G. rewrite Q in G. exact G.
    + destruct (gshut_client (gs_members s)) as [e0 m0] eqn:Q. injection H as <- <- <-. split; [reflexivity|]. intros q lf [E|[]]. injection E as <- <-. eexists. split; [left; reflexivity|].
      rewrite proj_at. pose proof (gshut_client_shut k s) as G. rewrite Q in G. exact G.
  - destruct server; cbn [shutting tree_call homa_call] in H.
    + destruct (hshut_server m) as [e0 m0] eqn:Q. injection H as <- <- <-. split; [reflexivity|]. intros q lf [E|[]]. injection E as <- <-. eexists. split; [left; reflexivity|].
      rewrite proj_at. pose proof (hshut_server_shut n m) as G. rewrite Q in G. exact G.
    + destruct (hshut_client m) as [e0 m0] eqn:Q. injection H as <- <- <-. split; [reflexivity|]. intros q lf [E|[]]. injection E as <- <-. eexists. split; [left; reflexivity|].
      rewrite proj_at. pose proof (hshut_client_shut n m) as G. rewrite Q in G. exact G.
  - destruct server; cbn [shutting tree_call mcall_of mercury_call] in H.
    + destruct (mshut_server m) as [e0 m0] eqn:Q. injection H as <- <- <-. split; [reflexivity|]. intros q lf [E|[]]. injection E as <- <-. eexists. split; [left; reflexivity|].
      rewrite proj_at. pose proof (mshut_server_shut k m) as G. rewrite Q in G. exact G.
    + destruct (mshut_client m) as [e0 m0] eqn:Q. injection H as <- <- <-. split; [reflexivity|]. intros q lf [E|[]]. injection E as <- <-. eexists. split; [left; reflexivity|].
      rewrite proj_at. pose proof (mshut_client_shut k m) as G. rewrite Q in G. exact G.
  - assert (D : tree_call (shutting server) path (MDouble a b) = match tree_call (shutting server) (path ++ [1]) a with
      | None => None | Some (e1, t1', false) => Some (e1, MDouble t1' b, false)
      | Some (e1, t1', true) => match tree_call (shutting server) (path ++ [2]) b with None => None | Some (e2, t2', ok) => Some (e1 ++ e2, MDouble t1' t2', ok) end end) by (destruct server; reflexivity).
    rewrite D in H. clear D. destruct (tree_call _ (path ++ [1]) a) as [[[e1 t1] k1]|] eqn:Q1; [|discriminate H]. destruct (IHa _ _ _ _ Q1) as [-> A].
    destruct (tree_call _ (path ++ [2]) b) as [[[e2 t2] k2]|] eqn:Q2; [|discriminate H]. destruct (IHb _ _ _ _ Q2) as [-> B]. injection H as <- <- <-. split; [reflexivity|].
    intros q lf I. cbn [mleaves] in I |- *. apply in_app_iff in I. rewrite proj_app. destruct I as [I|I].
    + destruct (A _ _ I) as (lf' & I' & K). exists lf'. split; [apply in_app_iff; left; exact I'|]. rewrite (proj_none q e2), app_nil_r; [exact K|]. intros p P ->.
      destruct (call_labels _ _ _ _ _ _ _ Q2 P) as [r R]. destruct (mleaves_prefix a (path ++ [1]) q lf I) as [s S1]. exact (apart _ _ _ _ S1 R).
    + destruct (B _ _ I) as (lf' & I' & K). exists lf'. split; [apply in_app_iff; right; exact I'|]. rewrite (proj_none q e1); [exact K|]. intros p P ->.
      destruct (call_labels _ _ _ _ _ _ _ Q1 P) as [r R]. destruct (mleaves_prefix b (path ++ [2]) q lf I) as [s S1]. exact (apart _ _ _ _ R S1).
  - assert (D : tree_call (shutting server) path (MCounter a) = match tree_call (shutting server) (path ++ [1]) a with
      | None => None | Some (e1, t1', ok) => Some (e1, MCounter t1', ok) end) by (destruct server; reflexivity).
    rewrite D in H. clear D. destruct (tree_call _ (path ++ [1]) a) as [[[e1 t1] k1]|] eqn:Q1; [|discriminate H]. injection H as <- <- <-. exact (IHa _ _ _ _ Q1).
Qed.
