(** Lemmas about the compiled tables: entries, agreement between engines. *)
From Coq Require Import Ascii String List NArith ZArith QArith Bool Arith Lia.
From Verif Require Import Base_Model Base_Proofs Grid_Model Canon_Model Place_Model Place_Proofs Fanout_Model Dist_Model Dist_Proofs2 Util_Model Replay_Model Table_Model Table_Proofs.
Import ListNotations.
Open Scope Z_scope.

(** ** What a reference resolves to *)
Definition service_named (c : config) (n : str) (z : Z) : Prop := exists s, at_index (cf_services c) z s /\ svc_name s = n.
Definition size_dist_named (c : config) (n : str) (z : Z) : Prop := exists x, at_index (cf_size_dists c) z x /\ dc_name x = n.
(** The payload of that name has the distribution with index [z]; -1: there is
    no such payload, or it has no distribution. *)
Definition payload_refers (c : config) (n : str) (z : Z) : Prop :=
  (exists p d, In p (cf_payloads c) /\ py_name p = n /\ py_dist p = Some d /\ size_dist_named c d z) \/
  (z = -1 /\ forall p, In p (cf_payloads c) -> py_name p = n -> py_dist p = None).
Record entry_ok (c : config) (acts : list parsed) (d : list_d) (j : nat) (n : str) (e : entry) : Prop := mkEntryOk {
  eo_action : exists l1 l2, cf_actions c = l1 ++ en_action e :: l2 /\ an_name (en_action e) = n /\ ~ In n (map an_name l2);
  eo_rpc : match an_kind (en_action e) with
           | KRpc m => exists r, at_index (cf_rpcs c) (en_rpc e) r /\ rp_name r = m /\ service_named c (rp_server r) (en_rpc_service e)
           | _ => en_rpc e = -1 /\ en_rpc_service e = -1
           end;
  eo_list : match an_kind (en_action e) with KList m => exists l, last_named li_name (cf_lists c) m (en_list e) l | _ => en_list e = -1 end;
  eo_activity : match an_kind (en_action e) with
                | KActivity m => exists a p, at_index (cf_activities c) (en_activity e) a /\ ac_name a = m /\ at_index acts (en_activity e) p /\ parse_activity a = ParseOk p
                | _ => en_activity e = -1
                end;
  eo_trace : match an_kind (en_action e) with KReplay m => exists t, at_index (cf_traces c) (en_trace e) (m, t) | _ => en_trace e = -1 end;
  eo_delay : match an_delay (en_action e) with Some m => exists x, at_index (cf_delay_dists c) (en_delay e) x /\ dc_name x = m | None => en_delay e = -1 end;
  eo_deps : Forall2 (fun m k => last_named (fun x => x) (li_actions d) m k m /\ k < Z.of_nat j) (an_deps (en_action e)) (en_deps e);
  eo_request : match an_request (en_action e) with
               | Some m => payload_refers c m (en_request e) /\ en_request e <> -1
               | None => payload_refers c [] (en_request e)
               end;
  eo_response : match an_response (en_action e) with
                | Some m => payload_refers c m (en_response e) /\ en_response e <> -1
                | None => payload_refers c [] (en_response e)
                end }.

Lemma at_named_id (l : list str) z x n : last_named (fun y => y) l n z x -> last_named (fun y => y) l n z n.
Proof. intros H. pose proof H as (_ & E & _). subst n. exact H. Qed.
Lemma payload_index_spec c sizes pm n : gens canonical_sizes (cf_size_dists c) = TOk sizes -> payloads_map sizes (cf_payloads c) [] = TOk pm ->
  payload_refers c n (payload_index sizes pm n).
Proof.
  intros G P. destruct (payloads_map_spec _ _ _ _ P) as (A & D & _ & V). unfold payload_index.
  assert (U : forall p q, In p (cf_payloads c) -> In q (cf_payloads c) -> py_name p = py_name q -> p = q).
  { intros p q Hp Hq E. pose proof (proj2 (A (py_name p) p) (or_intror (conj Hp eq_refl))) as Q1.
    pose proof (proj2 (A (py_name p) q) (or_intror (conj Hq (eq_sym E)))) as Q2. congruence. }
  destruct (map_find n pm) as [p|] eqn:F.
  - apply A in F as [F|[Ip En]]; [discriminate|]. destruct (py_dist p) as [d|] eqn:Ed.
    + left. exists p, d. repeat split; auto. destruct (gens_spec _ _ _ G d) as [[Q _]|(x & Q1 & Q2)]; [exfalso; exact (V p d Ip Ed Q)|].
      exists x. auto.
    + right. split; [reflexivity|]. intros q Iq Eq. assert (q = p) by (apply U; auto; congruence). subst q. exact Ed.
  - right. split; [reflexivity|]. intros p Ip Ep. exfalso. pose proof (proj2 (A n p) (or_intror (conj Ip Ep))). congruence.
Qed.
Lemma tmap_forall2 {A B} (f : A -> tres B) l : forall r, tmap f l = TOk r -> Forall2 (fun a b => f a = TOk b) l r.
Proof.
  induction l as [|x l IH]; intros r H; cbn [tmap] in H; [injection H as <-; constructor|].
  apply tbind_ok in H as (b & H1 & H). apply tbind_ok in H as (bs & H2 & H). injection H as <-. constructor; auto.
Qed.

(** ** The whole table *)
Record parts (st : str -> option (list (Q * Z))) (c : config) (me : str) (t : tables) : Type := mkParts {
  pt_ix : indices; pt_pm : list (str * payload_desc); pt_defs : list (str * rpc_definition);
  pt_acts : list parsed; pt_am : list (str * Z); pt_tm : list (str * Z); pt_rows : list (server_rpc * client_rpc);
  pt_e1 : sample_generators c = TOk pt_ix;
  pt_e2 : payloads_map (ix_size pt_ix) (cf_payloads c) [] = TOk pt_pm;
  pt_e3 : definitions_map st c me (enumerate_types c) pt_ix pt_pm 0 (cf_rpcs c) [] = TOk pt_defs;
  pt_e4 : activity_map (cf_activities c) [] [] = TOk (pt_acts, pt_am);
  pt_e5 : trace_map (enumerate_sizes (map sv_spec (cf_services c))) 0 (cf_traces c) [] = TOk pt_tm;
  pt_cx := mkCtx (enumerate_types c) pt_ix pt_pm pt_defs pt_am pt_tm (index_actions (cf_actions c)) (enumerate_rpcs c) (index_lists 0 (cf_lists c) []);
  pt_e6 : tmap (compile_list c pt_cx) (cf_lists c) = TOk (tb_lists t);
  pt_e7 : tmap (rpc_row c pt_cx me) (cf_rpcs c) = TOk pt_rows;
  pt_t : t = mkTables (enumerate_types c) (tb_lists t) (map fst pt_rows) (map snd pt_rows) (dependent c me) pt_acts }.
Lemma tables_parts st c me t : initialize_tables st c me = TOk t -> exists p : parts st c me t, True.
Proof.
  intro H. unfold initialize_tables in H. apply tbind_ok in H as (ix & E1 & H). apply tbind_ok in H as (pm & E2 & H).
  apply tbind_ok in H as (defs & E3 & H). apply tbind_ok in H as ([acts am] & E4 & H). apply tbind_ok in H as (tm & E5 & H).
  cbn [fst snd] in H. apply tbind_ok in H as (lists & E6 & H). apply tbind_ok in H as (rows & E7 & H). injection H as <-.
  unshelve eexists; [|exact Logic.I].
  eapply (mkParts st c me _ ix pm defs acts am tm rows); eauto.
Qed.
Lemma sample_parts c ix : sample_generators c = TOk ix ->
  gens canonical_sizes (cf_rpc_dists c) = TOk (ix_rpc ix) /\ gens canonical_delay (cf_delay_dists c) = TOk (ix_delay ix) /\ gens canonical_sizes (cf_size_dists c) = TOk (ix_size ix).
Proof.
  intro H. unfold sample_generators in H. apply tbind_ok in H as (a & E1 & H). apply tbind_ok in H as (b & E2 & H). apply tbind_ok in H as (d & E3 & H).
  injection H as <-. auto.
Qed.

Lemma entry_spec st c me t (p : parts st c me t) d pos j n x e : NoDup (map svc_name (cf_services c)) -> NoDup (map rp_name (cf_rpcs c)) ->
  pos = positions 0 (li_actions d) [] ->
  first_pass (pt_cx _ _ _ _ p) n = TOk x -> second_pass c (pt_cx _ _ _ _ p) pos j x = TOk e -> entry_ok c (pt_acts _ _ _ _ p) d j n e.
Proof.
  intros Ds Dr Epos F1 F2. subst pos. destruct p as [ix pm defs acts am tm rows e1 e2 e3 e4 e5 cx e6 e7 et]. cbn [pt_acts] in *.
  change (pt_cx st c me t _) with cx in F1, F2. destruct (sample_parts _ _ e1) as (g1 & g2 & g3).
  unfold first_pass in F1. cbn [cx_actions cx cx_indices cx_payloads] in F1.
  destruct (map_find n (index_actions (cf_actions c))) as [a|] eqn:Fa; [|discriminate].
  match type of F1 with (if ?b then _ else _) = _ => destruct b eqn:B1; [discriminate|] end.
  match type of F1 with (if ?b then _ else _) = _ => destruct b eqn:B2; [discriminate|] end.
  injection F1 as <-. unfold second_pass in F2. apply tbind_ok in F2 as (delay & Hd & F2). apply tbind_ok in F2 as (tg & Ht & F2).
  apply tbind_ok in F2 as (deps & Hdeps & F2). destruct tg as [[[[svc rpc] trc] lst] act]. injection F2 as <-.
  unfold index_actions in Fa. destruct (index_actions_spec _ _ _ _ Fa) as [(l1 & l2 & El & En & Nl)|[Q _]]; [|discriminate].
  assert (PI : forall o, payload_refers c (match o with Some q => q | None => [] end) (payload_index (ix_size ix) pm (match o with Some q => q | None => [] end)))
    by (intro o; apply payload_index_spec; assumption).
  unfold resolve_target in Ht. cbn [cx cx_rpcs cx_types cx_lists cx_activities cx_traces] in Ht.
  constructor; cbn [en_action en_rpc en_rpc_service en_list en_activity en_trace en_delay en_deps en_request en_response].
  - exists l1, l2. auto.
  - destruct (an_kind a) as [m|m|m|m|] eqn:K; try (repeat match type of Ht with match ?y with _ => _ end = _ => destruct y; try discriminate end; injection Ht; intros; subst; auto; fail).
    destruct (map_find m (enumerate_rpcs c)) as [i|] eqn:Fr; [|discriminate]. destruct (nth_error (cf_rpcs c) (Z.to_nat i)) as [r|] eqn:Er; [|discriminate].
    destruct (map_find (rp_server r) (enumerate_types c)) as [s|] eqn:Fs; [|discriminate]. injection Ht; intros; subst.
    destruct (enumerate_named rp_name _ _ _ Dr Fr) as (r' & (P1 & P2) & P3). rewrite Er in P2. injection P2 as <-.
    exists r. split; [split; assumption|]. split; [exact P3|]. exact (enumerate_named svc_name _ _ _ Ds Fs).
  - destruct (an_kind a) as [m|m|m|m|] eqn:K; try (repeat match type of Ht with match ?y with _ => _ end = _ => destruct y; try discriminate end; injection Ht; intros; subst; auto; fail).
    destruct (map_find m (index_lists 0 (cf_lists c) [])) as [i|] eqn:Fl; [|discriminate]. injection Ht; intros; subst.
    rewrite index_lists_by in Fl. exact (index_by_last _ _ _ _ Fl).
  - destruct (an_kind a) as [m|m|m|m|] eqn:K; try (repeat match type of Ht with match ?y with _ => _ end = _ => destruct y; try discriminate end; injection Ht; intros; subst; auto; fail).
    destruct (map_find m am) as [i|] eqn:Fl; [|discriminate]. injection Ht; intros; subst.
    destruct (activity_map_spec _ [] [] [] _ _ e4 eq_refl) as (_ & A & _); [discriminate|intros [|k] ? ?; discriminate|]. exact (A _ _ Fl).
  - destruct (an_kind a) as [m|m|m|m|] eqn:K; try (repeat match type of Ht with match ?y with _ => _ end = _ => destruct y; try discriminate end; injection Ht; intros; subst; auto; fail).
    destruct (map_find m tm) as [i|] eqn:Fl; [|discriminate]. injection Ht; intros; subst.
    destruct (trace_map_spec _ _ [] _ _ e5) as (A & _); [discriminate|]. exact (A _ _ Fl).
  - unfold resolve_delay in Hd. cbn [cx cx_indices] in Hd. destruct (an_delay a) as [m|]; [|injection Hd as <-; reflexivity].
    destruct (generator_index m (ix_delay ix) =? -1) eqn:G; [discriminate|]. injection Hd as <-. apply Z.eqb_neq in G.
    destruct (gens_spec _ _ _ g2 m) as [[Q _]|Q]; [contradiction|exact Q].
  - apply tmap_forall2 in Hdeps. clear - Hdeps. induction Hdeps as [|m k ms ks H _ IH]; constructor; auto.
    unfold resolve_dep in H. destruct (map_find m (positions 0 (li_actions d) [])) as [z|] eqn:Fz; [|discriminate].
    destruct (Z.of_nat j <=? z) eqn:L; [discriminate|]. injection H as <-. rewrite positions_by in Fz.
    destruct (index_by_last _ _ _ _ Fz) as (y & Y). split; [exact (at_named_id _ _ _ _ Y)|]. apply Z.leb_gt. exact L.
  - pose proof (PI (an_request a)) as Q. destruct (an_request a); [|exact Q]. split; [exact Q|]. apply Z.eqb_neq. exact B1.
  - pose proof (PI (an_response a)) as Q. destruct (an_response a); [|exact Q]. split; [exact Q|]. apply Z.eqb_neq. exact B2.
Qed.

(** ** Engines of different services *)
Definition tres_rel {A B} (R : A -> B -> Prop) (r1 : tres A) (r2 : tres B) : Prop :=
  match r1, r2 with TOk a, TOk b => R a b | TErr e, TErr e' => e = e' | TUndefined, TUndefined => True | _, _ => False end.
Lemma rel_bind {A A' B B'} (R : A -> A' -> Prop) (S : B -> B' -> Prop) r1 r2 f1 f2 :
  tres_rel R r1 r2 -> (forall a b, r1 = TOk a -> r2 = TOk b -> R a b -> tres_rel S (f1 a) (f2 b)) -> tres_rel S (tbind r1 f1) (tbind r2 f2).
Proof. destruct r1, r2; cbn [tres_rel tbind]; intros H F; try contradiction; auto. Qed.
Lemma rel_refl {A} (R : A -> A -> Prop) r : (forall a, r = TOk a -> R a a) -> tres_rel R r r.
Proof. destruct r; cbn [tres_rel]; auto. Qed.
Lemma rel_bind_same {A B B'} (S : B -> B' -> Prop) (r : tres A) f1 f2 :
  (forall a, r = TOk a -> tres_rel S (f1 a) (f2 a)) -> tres_rel S (tbind r f1) (tbind r f2).
Proof. destruct r; cbn [tres_rel tbind]; auto. Qed.
(** The same definition, except for who may call. *)
Definition same_def (d1 d2 : rpc_definition) : Prop :=
  de_spec d1 = de_spec d2 /\ de_server d1 = de_server d2 /\ de_fanout d1 = de_fanout d2 /\ de_joint d1 = de_joint d2 /\
  de_request_index d1 = de_request_index d2 /\ de_response_index d1 = de_response_index d2 /\
  de_request_size d1 = de_request_size d2 /\ de_response_size d1 = de_response_size d2 /\ de_channel d1 = de_channel d2.
Lemma same_def_refl d : same_def d d.
Proof. repeat split. Qed.
Definition same_defs (m1 m2 : list (str * rpc_definition)) : Prop :=
  forall n, match map_find n m1, map_find n m2 with Some d1, Some d2 => same_def d1 d2 | None, None => True | _, _ => False end.
Lemma rpc_definition_rel st c me1 me2 types ix pm i r :
  tres_rel same_def (rpc_definition_of st c me1 types ix pm i r) (rpc_definition_of st c me2 types ix pm i r).
Proof.
  unfold rpc_definition_of. destruct (map_find (rp_server r) types); [|reflexivity]. destruct (nth_error (cf_services c) (Z.to_nat z)) as [svc|]; [|exact Logic.I].
  apply rel_bind_same. intros ch _. apply rel_bind_same. intros u _. cbv zeta. destruct (parse_filter _ _); [|reflexivity]. repeat split.
Qed.
Lemma definitions_rel st c me1 me2 types ix pm l : forall i m1 m2, same_defs m1 m2 ->
  tres_rel same_defs (definitions_map st c me1 types ix pm i l m1) (definitions_map st c me2 types ix pm i l m2).
Proof.
  induction l as [|r l IH]; intros i m1 m2 H; cbn [definitions_map]; [exact H|].
  eapply rel_bind; [apply rpc_definition_rel|]. intros d1 d2 _ _ E. apply IH. intro n.
  destruct (str_eqb_spec n (rp_name r)) as [->|Ne]; [rewrite !map_find_set_same; exact E|].
  rewrite !map_find_set_other by exact Ne. apply H.
Qed.
Lemma definitions_clients st c me types ix pm l : forall i m dm, definitions_map st c me types ix pm i l m = TOk dm ->
  forall r, In r l -> forall n, In n (rp_clients r) -> map_find n types <> None.
Proof.
  induction l as [|r l IH]; intros i m dm H r' R n Hn; [destruct R|]. cbn [definitions_map] in H. apply tbind_ok in H as (d & E & H).
  destruct R as [<-|R]; [|eapply IH; eauto]. unfold rpc_definition_of in E. destruct (map_find (rp_server r) types); [|discriminate].
  destruct (nth_error (cf_services c) (Z.to_nat z)); [|discriminate]. apply tbind_ok in E as (ch & _ & E). apply tbind_ok in E as (u & Q & _).
  exact (check_clients_spec _ _ _ Q n Hn).
Qed.
Definition same_row (a b : server_rpc * client_rpc) : Prop :=
  sr_handler (fst a) = sr_handler (fst b) /\ same_def (sr_def (fst a)) (sr_def (fst b)) /\
  cr_service (snd a) = cr_service (snd b) /\ cr_pending (snd a) = cr_pending (snd b) /\ same_def (cr_def (snd a)) (cr_def (snd b)).
Lemma rpc_row_rel c cx1 cx2 me1 me2 r : cx_types cx1 = cx_types cx2 -> cx_lists cx1 = cx_lists cx2 -> same_defs (cx_defs cx1) (cx_defs cx2) ->
  (forall n, In n (rp_clients r) -> map_find n (cx_types cx1) <> None) -> tres_rel same_row (rpc_row c cx1 me1 r) (rpc_row c cx2 me2 r).
Proof.
  intros E1 E2 D C. unfold rpc_row. rewrite <- E1, <- E2.
  rewrite !check_clients_ok by (intros n I; apply filter_In in I as [I _]; auto). cbn [tbind].
  destruct (rp_clients r); [reflexivity|]. destruct (rp_server r) eqn:Es; [reflexivity|]. rewrite <- Es.
  destruct (map_find (rp_name r) (cx_lists cx1)) as [k|]; [|reflexivity]. destruct (nth_error (cf_lists c) (Z.to_nat k)); [|exact Logic.I].
  pose proof (D (rp_name r)) as Q. destruct (map_find (rp_name r) (cx_defs cx1)), (map_find (rp_name r) (cx_defs cx2)); try contradiction; [|exact Logic.I].
  destruct (map_find (rp_server r) (cx_types cx1)); [|reflexivity]. destruct (nth_error (cf_services c) (Z.to_nat z)) as [svc|]; [|exact Logic.I].
  destruct (svc_count svc <? 0); [exact Logic.I|]. cbn [tres_rel]. unfold same_row. cbn [fst snd sr_handler sr_def cr_service cr_pending cr_def].
  repeat match goal with |- _ /\ _ => split end; auto; apply Q.
Qed.
Lemma tmap_rel {A B B'} (S : B -> B' -> Prop) f1 f2 (l : list A) : (forall x, In x l -> tres_rel S (f1 x) (f2 x)) ->
  tres_rel (Forall2 S) (tmap f1 l) (tmap f2 l).
Proof.
  induction l as [|x l IH]; intro H; cbn [tmap]; [constructor|]. eapply rel_bind; [apply H; left; reflexivity|]. intros a b _ _ E.
  eapply rel_bind; [apply IH; intros y Y; apply H; right; exact Y|]. intros x1 x2 _ _ F. constructor; assumption.
Qed.
Definition same_tables (t1 t2 : tables) : Prop :=
  tb_types t1 = tb_types t2 /\ tb_lists t1 = tb_lists t2 /\ tb_activities t1 = tb_activities t2 /\
  Forall2 (fun a b => sr_handler a = sr_handler b /\ same_def (sr_def a) (sr_def b)) (tb_servers t1) (tb_servers t2) /\
  Forall2 (fun a b => cr_service a = cr_service b /\ cr_pending a = cr_pending b /\ same_def (cr_def a) (cr_def b)) (tb_clients t1) (tb_clients t2).
Lemma tables_rel st c me1 me2 : tres_rel same_tables (initialize_tables st c me1) (initialize_tables st c me2).
Proof.
  unfold initialize_tables. cbv zeta. apply rel_bind_same. intros ix _. apply rel_bind_same. intros pm _.
  eapply rel_bind; [apply definitions_rel; intro n; exact Logic.I|]. intros d1 d2 E1 _ D. apply rel_bind_same. intros [acts am] _.
  apply rel_bind_same. intros tm _. cbn [fst snd].
  eapply rel_bind with (R := eq).
  - match goal with |- tres_rel _ ?a ?b => change b with a end. apply rel_refl. reflexivity.
  - intros l1 l2 _ _ <-. eapply rel_bind.
    + apply tmap_rel. intros r R. apply rpc_row_rel; [reflexivity|reflexivity|exact D|]. exact (definitions_clients _ _ _ _ _ _ _ _ _ _ E1 r R).
    + intros r1 r2 _ _ F. cbn [tres_rel]. unfold same_tables. cbn [tb_types tb_lists tb_activities tb_servers tb_clients].
      do 3 (split; [reflexivity|]). clear - F. induction F as [|[a1 a2] [b1 b2] r1 r2 (H1 & H2 & H3 & H4 & H5) _ [IH1 IH2]]; cbn [map fst snd];
        [split; constructor|]. split; constructor; auto.
Qed.
Lemma instance_name_None s i j : instance_name s i = None -> instance_name s j = None.
Proof.
  unfold instance_name. destruct (sp_x s) eqn:X; [|discriminate]. unfold service_index, cmod, cdiv. rewrite X.
  destruct (z =? 0); [reflexivity|]. destruct (sp_y s) as [y|].
  - destruct (y =? 0); [reflexivity|]. destruct (sp_z s); discriminate.
  - destruct (sp_z s); discriminate.
Qed.

(** ** Dependent services *)
Lemma fold_add_In {A} (f : A -> bool) (g : A -> str) s l : forall acc,
  In s (fold_left (fun m x => if f x then set_add (g x) m else m) l acc) <-> In s acc \/ exists x, In x l /\ f x = true /\ g x = s.
Proof.
  induction l as [|x l IH]; intro acc; cbn [fold_left].
  - split; [auto|]. intros [H|(x & [] & _)]. exact H.
  - rewrite IH. destruct (f x) eqn:F.
    + rewrite set_add_In. split.
      * intros [[-> |H]|(y & Y & Q)]; [right; exists x; cbn; auto|auto|right; exists y; cbn; auto].
      * intros [H|(y & [<-|Y] & Q1 & Q2)]; [auto| |right; exists y; auto]. left. left. congruence.
    + split.
      * intros [H|(y & Y & Q)]; [auto|right; exists y; cbn; auto].
      * intros [H|(y & [<-|Y] & Q1 & Q2)]; [auto|congruence|right; exists y; auto].
Qed.
Lemma fold_add_NoDup {A} (f : A -> bool) (g : A -> str) l : forall acc, NoDup acc -> NoDup (fold_left (fun m x => if f x then set_add (g x) m else m) l acc).
Proof. induction l as [|x l IH]; intros acc D; cbn [fold_left]; [exact D|]. apply IH. destruct (f x); [apply set_add_NoDup|]; exact D. Qed.

(** ** The rows of the RPC tables *)
Lemma rpc_definition_parts st c me ix pm i r d : rpc_definition_of st c me (enumerate_types c) ix pm i r = TOk d ->
  NoDup (map svc_name (cf_services c)) ->
  de_spec d = r /\ In (de_server d) (cf_services c) /\ svc_name (de_server d) = rp_server r /\
  (de_allowed d = true <-> In me (rp_clients r)) /\
  (forall n, In n (rp_clients r) -> In n (map svc_name (cf_services c))) /\
  match rp_channel r with
  | Some m => at_index (map ch_name (sv_channels (de_server d))) (de_channel d) m /\ forall k, (k < Z.to_nat (de_channel d))%nat -> nth_error (map ch_name (sv_channels (de_server d))) k <> Some m
  | None => de_channel d = -1
  end /\
  de_joint d = match rp_dist r with Some n => generator_index n (ix_rpc ix) | None => -1 end /\
  (de_request_size d, de_request_index d) = match rp_dist r with Some _ => (-1, -1) | None => rpc_payload (ix_size ix) pm (rp_request r) 16 end /\
  (de_response_size d, de_response_index d) = match rp_dist r with Some _ => (-1, -1) | None => rpc_payload (ix_size ix) pm (rp_response r) 32 end /\
  parse_filter st (match rp_fanout r with Some f => f | None => s_ "all" end) = Some (de_fanout d).
Proof.
  intros H Ds. unfold rpc_definition_of in H. destruct (map_find (rp_server r) (enumerate_types c)) as [k|] eqn:F; [|discriminate].
  destruct (nth_error (cf_services c) (Z.to_nat k)) as [s|] eqn:E; [|discriminate].
  apply tbind_ok in H as (ch & Hc & H). apply tbind_ok in H as (u & Hu & H). cbv zeta in H.
  destruct (parse_filter _ _) as [f|] eqn:Ef; [|discriminate]. injection H as <-.
  cbn [de_spec de_server de_allowed de_channel de_joint de_request_size de_request_index de_response_size de_response_index de_fanout].
  destruct (enumerate_named svc_name _ _ _ Ds F) as (s' & (P1 & P2) & P3). rewrite E in P2. injection P2 as <-.
  split; [reflexivity|]. split; [eapply nth_error_In; eauto|]. split; [exact P3|]. split; [apply set_mem_spec|].
  split.
  { intros n Hn. pose proof (check_clients_spec _ _ _ Hu n Hn) as Q. unfold enumerate_types in Q.
    destruct (map_find n (enumerate (map svc_name (cf_services c)))) as [z|] eqn:Fz; [|congruence].
    destruct (enumerate_spec _ _ _ Ds Fz) as (_ & Q'). eapply nth_error_In; eauto. }
  split.
  { unfold rpc_channel in Hc. destruct (rp_channel r) as [m|]; [|injection Hc as <-; reflexivity].
    destruct (channel_index m (map ch_name (sv_channels s)) 0) as [z|] eqn:Ez; [|destruct (length (sv_channels s) <=? i)%nat; discriminate].
    injection Hc as <-.
    assert (G : forall l o z, 0 <= o -> channel_index m l o = Some z -> o <= z /\ nth_error l (Z.to_nat (z - o)) = Some m /\ forall k, (k < Z.to_nat (z - o))%nat -> nth_error l k <> Some m).
    { clear. induction l as [|x l IH]; intros o z Ho H; cbn [channel_index] in H; [discriminate|]. destruct (str_eqb_spec x m) as [->|Ne].
      - injection H as <-. rewrite Z.sub_diag. split; [lia|]. split; [reflexivity|]. intros k Hk. cbn in Hk. lia.
      - destruct (IH (o + 1) z ltac:(lia) H) as (A & B & C). replace (Z.to_nat (z - o)) with (S (Z.to_nat (z - (o + 1)))) by lia.
        split; [lia|]. split; [exact B|]. intros [|k] Hk; cbn [nth_error]; [congruence|apply C; lia]. }
    destruct (G _ _ _ (Z.le_refl 0) Ez) as (A & B & C). rewrite Z.sub_0_r in *. split; [split; [lia|exact B]|exact C]. }
  split; [reflexivity|]. split; [destruct (rp_dist r), (rpc_payload (ix_size ix) pm (rp_request r) 16); reflexivity|].
  split; [destruct (rp_dist r), (rpc_payload (ix_size ix) pm (rp_response r) 32); reflexivity|reflexivity].
Qed.
Lemma rpc_row_parts c cx me r a b : NoDup (map svc_name (cf_services c)) -> cx_types cx = enumerate_types c -> cx_lists cx = index_lists 0 (cf_lists c) [] ->
  rpc_row c cx me r = TOk (a, b) ->
  rp_clients r <> [] /\ rp_server r <> [] /\
  (exists k d, last_named li_name (cf_lists c) (rp_name r) k d /\ sr_handler a = if (length (li_actions d) =? 0)%nat then -1 else k) /\
  (sr_allowed a = true <-> rp_server r = me) /\
  map_find (rp_name r) (cx_defs cx) = Some (sr_def a) /\ cr_def b = sr_def a /\
  exists s, at_index (cf_services c) (cr_service b) s /\ svc_name s = rp_server r /\ cr_pending b = svc_count s /\ 0 <= cr_pending b.
Proof.
  intros Ds Et El H. unfold rpc_row in H. rewrite Et, El in H. destruct (rp_clients r) as [|c0 cs] eqn:Ec; [discriminate|]. rewrite <- Ec in H.
  destruct (rp_server r) as [|s0 ss] eqn:Es; [discriminate|]. rewrite <- Es in *. split; [congruence|]. split; [congruence|].
  apply tbind_ok in H as (u & _ & H). destruct (map_find (rp_name r) (index_lists 0 (cf_lists c) [])) as [k|] eqn:Fk; [|discriminate].
  destruct (nth_error (cf_lists c) (Z.to_nat k)) as [d|] eqn:Ed; [|discriminate]. destruct (map_find (rp_name r) (cx_defs cx)) as [def|] eqn:Fd; [|discriminate].
  destruct (map_find (rp_server r) (enumerate_types c)) as [s|] eqn:Fs; [|discriminate]. destruct (nth_error (cf_services c) (Z.to_nat s)) as [svc|] eqn:En; [|discriminate].
  destruct (svc_count svc <? 0) eqn:Hc; [discriminate|]. injection H as <- <-. cbn [sr_handler sr_allowed sr_def cr_def cr_service cr_pending].
  split.
  { rewrite index_lists_by in Fk. destruct (index_by_last _ _ _ _ Fk) as (d' & L). pose proof L as ((_ & Q) & _). rewrite Ed in Q. injection Q as <-.
    exists k, d. split; [exact L|]. destruct (li_actions d); reflexivity. }
  split. { destruct (str_eqb_spec (rp_server r) me); split; congruence. }
  split; [reflexivity|]. split; [reflexivity|]. exists svc. destruct (enumerate_named svc_name _ _ _ Ds Fs) as (s' & (P1 & P2) & P3). rewrite En in P2. injection P2 as <-.
  apply Z.ltb_ge in Hc. repeat split; auto.
Qed.
Lemma payload_find c sizes pm n p : payloads_map sizes (cf_payloads c) [] = TOk pm -> In p (cf_payloads c) -> py_name p = n -> map_find n pm = Some p.
Proof. intros P Ip En. destruct (payloads_map_spec _ _ _ _ P) as (A & _). apply A. right. auto. Qed.
Lemma payload_find_none c sizes pm n : payloads_map sizes (cf_payloads c) [] = TOk pm -> ~ In n (map py_name (cf_payloads c)) -> map_find n pm = None.
Proof.
  intros P N. destruct (payloads_map_spec _ _ _ _ P) as (A & _). destruct (map_find n pm) as [p|] eqn:F; [|reflexivity]. apply A in F as [F|[Ip En]]; [discriminate|].
  exfalso. apply N. rewrite <- En. apply in_map. exact Ip.
Qed.

(** ** Configurations that are accepted *)
Definition known_payload (c : config) (n : str) : Prop := exists p, In p (cf_payloads c) /\ py_name p = n /\ py_dist p <> None.
(** Every name that is used is defined, and defined once where that matters. *)
Record well_formed (st : str -> option (list (Q * Z))) (c : config) : Prop := mkWF {
  wf_rpc_dists : exists g, gens canonical_sizes (cf_rpc_dists c) = TOk g;
  wf_delay_dists : exists g, gens canonical_delay (cf_delay_dists c) = TOk g;
  wf_size_dists : exists g, gens canonical_sizes (cf_size_dists c) = TOk g;
  wf_services : NoDup (map svc_name (cf_services c));
  wf_rpcs : NoDup (map rp_name (cf_rpcs c));
  wf_payloads : NoDup (map py_name (cf_payloads c));
  wf_payload_dist : forall p d, In p (cf_payloads c) -> py_dist p = Some d -> In d (map dc_name (cf_size_dists c));
  wf_activities : NoDup (map ac_name (cf_activities c));
  wf_activity : forall a, In a (cf_activities c) -> exists p, parse_activity a = ParseOk p;
  wf_traces : NoDup (map fst (cf_traces c));
  wf_trace : forall t, In t (cf_traces c) -> validate_trace (enumerate_sizes (map sv_spec (cf_services c))) (validated_part (snd t)) = None;
  wf_clients : forall r, In r (cf_rpcs c) -> rp_clients r <> [] /\ forall n, In n (rp_clients r) -> In n (map svc_name (cf_services c));
  wf_server : forall r, In r (cf_rpcs c) -> rp_server r <> [] /\ exists s, In s (cf_services c) /\ svc_name s = rp_server r /\ 0 <= svc_count s /\
    match rp_channel r with Some m => In m (map ch_name (sv_channels s)) | None => True end;
  wf_fanout : forall r, In r (cf_rpcs c) -> parse_filter st (match rp_fanout r with Some f => f | None => s_ "all" end) <> None;
  wf_handler : forall r, In r (cf_rpcs c) -> In (rp_name r) (map li_name (cf_lists c));
  wf_known : forall d n, In d (cf_lists c) -> In n (li_actions d) -> In n (map an_name (cf_actions c));
  wf_action : forall a, In a (cf_actions c) ->
    match an_kind a with
    | KRpc m => In m (map rp_name (cf_rpcs c))
    | KList m => In m (map li_name (cf_lists c))
    | KActivity m => In m (map ac_name (cf_activities c))
    | KReplay m => In m (map fst (cf_traces c))
    | KNop => True
    end /\
    match an_delay a with Some m => In m (map dc_name (cf_delay_dists c)) | None => True end /\
    match an_request a with Some m => known_payload c m | None => True end /\
    match an_response a with Some m => known_payload c m | None => True end;
  (** Every dependency is in the list and all its occurrences come earlier. *)
  wf_deps : forall d j n a m, In d (cf_lists c) -> nth_error (li_actions d) j = Some n -> In a (cf_actions c) -> an_name a = n -> In m (an_deps a) ->
    In m (li_actions d) /\ forall k, nth_error (li_actions d) k = Some m -> (k < j)%nat }.

Lemma gens_known canon l g n : gens canon l = TOk g -> In n (map dc_name l) -> generator_index n g <> -1.
Proof.
  intros G I. destruct (gens_spec _ _ _ G n) as [[_ Q]|(x & (P & _) & _)]; [contradiction|lia].
Qed.
Lemma payloads_accept sizes l : forall m, NoDup (map fst m ++ map py_name l) ->
  (forall p d, In p l -> py_dist p = Some d -> generator_index d sizes <> -1) -> exists pm, payloads_map sizes l m = TOk pm.
Proof.
  induction l as [|p l IH]; intros m D V; cbn [payloads_map]; [eauto|]. cbn [map] in D.
  assert (N : ~ In (py_name p) (map fst m)). { intro Q. apply NoDup_remove_2 in D. apply D. apply in_or_app. left. exact Q. }
  destruct (map_find (py_name p) m) as [q|] eqn:F; [exfalso; apply N; apply map_find_In in F; apply in_map with (f := fst) in F; exact F|].
  assert (R : exists pm, payloads_map sizes l (map_set (py_name p) p m) = TOk pm).
  { apply IH; [|intros; eapply V; [right|]; eauto]. rewrite map_set_fresh by exact N. rewrite map_app. cbn [map]. rewrite <- app_assoc. exact D. }
  destruct (py_dist p) as [d|] eqn:Ed; [|exact R]. destruct (Z.eqb_spec (generator_index d sizes) (-1)) as [Q|_]; [|exact R].
  exfalso. exact (V p d (or_introl eq_refl) Ed Q).
Qed.
Lemma parse_activity_name a p : parse_activity a = ParseOk p -> pa_name p = ac_name a.
Proof.
  unfold parse_activity. intro H. repeat match type of H with
  | match ?x with _ => _ end = _ => destruct x; try discriminate
  end; injection H as <-; reflexivity.
Qed.
Lemma activities_accept l : forall stored m, NoDup (map fst m ++ map ac_name l) -> (forall a, In a l -> exists p, parse_activity a = ParseOk p) ->
  exists s am, activity_map l stored m = TOk (s, am) /\ forall n, In n (map fst m ++ map ac_name l) -> map_find n am <> None.
Proof.
  induction l as [|a l IH]; intros stored m D V; cbn [activity_map].
  - exists stored, m. split; [reflexivity|]. intros n I. cbn [map] in I. rewrite app_nil_r in I. intro Q. exact (proj1 (map_find_None _ _) Q I).
  - cbn [map] in D. assert (N : ~ In (ac_name a) (map fst m)). { intro Q. apply NoDup_remove_2 in D. apply D. apply in_or_app. left. exact Q. }
    destruct (map_find (ac_name a) m) as [q|] eqn:F; [exfalso; apply N; apply map_find_In in F; apply in_map with (f := fst) in F; exact F|].
    destruct (V a (or_introl eq_refl)) as (p & P). rewrite P. rewrite (parse_activity_name _ _ P).
    destruct (IH (stored ++ [p]) (map_set (ac_name a) (Z.of_nat (length stored)) m)) as (s & am & E & A).
    + rewrite map_set_fresh by exact N. rewrite map_app. cbn [map fst]. rewrite <- app_assoc. exact D.
    + intros b B. apply V. right. exact B.
    + exists s, am. split; [exact E|]. intros n I. apply A. rewrite map_set_fresh by exact N. rewrite map_app. cbn [map fst]. rewrite <- app_assoc. exact I.
Qed.
Lemma traces_accept sizes l : forall i m, NoDup (map fst m ++ map fst l) -> (forall t, In t l -> validate_trace sizes (validated_part (snd t)) = None) ->
  exists tm, trace_map sizes i l m = TOk tm /\ forall n, In n (map fst m ++ map fst l) -> map_find n tm <> None.
Proof.
  induction l as [|[n t] l IH]; intros i m D V; cbn [trace_map].
  - exists m. split; [reflexivity|]. intros n I. cbn [map] in I. rewrite app_nil_r in I. intro Q. exact (proj1 (map_find_None _ _) Q I).
  - cbn [map fst] in D. assert (N : ~ In n (map fst m)). { intro Q. apply NoDup_remove_2 in D. apply D. apply in_or_app. left. exact Q. }
    destruct (map_find n m) as [q|] eqn:F; [exfalso; apply N; apply map_find_In in F; apply in_map with (f := fst) in F; exact F|].
    pose proof (V _ (or_introl eq_refl)) as P. cbn [snd] in P. rewrite P.
    destruct (IH (S i) (map_set n (Z.of_nat i) m)) as (tm & E & A).
    + rewrite map_set_fresh by exact N. rewrite map_app. cbn [map fst]. rewrite <- app_assoc. exact D.
    + intros b B. apply V. right. exact B.
    + exists tm. split; [exact E|]. intros k I. apply A. rewrite map_set_fresh by exact N. rewrite map_app. cbn [map fst]. rewrite <- app_assoc. exact I.
Qed.
Lemma types_known c n : NoDup (map svc_name (cf_services c)) -> In n (map svc_name (cf_services c)) ->
  exists i s, map_find n (enumerate_types c) = Some (Z.of_nat i) /\ nth_error (cf_services c) i = Some s /\ svc_name s = n.
Proof.
  intros D I. apply In_nth_error in I as (i & E). pose proof (enumerate_index _ _ _ D E) as Q. rewrite nth_error_map in E.
  destruct (nth_error (cf_services c) i) as [s|] eqn:Es; [|discriminate]. injection E as E. exists i, s. auto.
Qed.
Lemma service_fun c s s' : NoDup (map svc_name (cf_services c)) -> In s (cf_services c) -> In s' (cf_services c) -> svc_name s = svc_name s' -> s = s'.
Proof.
  intros D I I' E. apply In_nth_error in I as (i & Ei). apply In_nth_error in I' as (j & Ej).
  assert (i = j). { eapply NoDup_nth_error; [exact D| |]. - rewrite map_length. apply nth_error_Some. congruence. - rewrite !nth_error_map, Ei, Ej. cbn. congruence. }
  subst j. congruence.
Qed.
Lemma channel_known m l : In m l -> forall o, channel_index m l o <> None.
Proof.
  induction l as [|x l IH]; intros I o; [destruct I|]. cbn [channel_index]. destruct (str_eqb_spec x m) as [E|Ne]; [discriminate|].
  destruct I as [E|I]; [congruence|auto].
Qed.
Lemma definition_accept st c me ix pm i r : well_formed st c -> In r (cf_rpcs c) -> exists d, rpc_definition_of st c me (enumerate_types c) ix pm i r = TOk d.
Proof.
  intros W R. destruct (wf_server _ _ W r R) as (_ & s & Is & Es & _ & Hc). unfold rpc_definition_of.
  destruct (types_known c (rp_server r) (wf_services _ _ W)) as (k & s' & F & E & En); [rewrite <- Es; apply in_map; exact Is|]. rewrite F, Nat2Z.id, E.
  assert (s' = s) by (apply (service_fun c); [exact (wf_services _ _ W)|eapply nth_error_In; eauto|exact Is|congruence]). subst s'.
  assert (exists z, rpc_channel i r s = TOk z) as (z & ->).
  { unfold rpc_channel. destruct (rp_channel r) as [m|]; [|eauto]. pose proof (channel_known m _ Hc 0) as Q. destruct (channel_index m _ 0); [eauto|congruence]. }
  cbn [tbind]. rewrite check_clients_ok. 2: { intros n I. destruct (types_known c n (wf_services _ _ W) (proj2 (wf_clients _ _ W r R) n I)) as (? & ? & Q & _). congruence. }
  cbn [tbind]. pose proof (wf_fanout _ _ W r R) as Q. destruct (parse_filter st (match rp_fanout r with Some f => f | None => s_ "all" end)); [eauto|congruence].
Qed.
Lemma definitions_accept st c me ix pm l : well_formed st c -> forall i m, (forall r, In r l -> In r (cf_rpcs c)) ->
  exists dm, definitions_map st c me (enumerate_types c) ix pm i l m = TOk dm /\ forall r, In r l \/ map_find (rp_name r) m <> None -> map_find (rp_name r) dm <> None.
Proof.
  intro W. induction l as [|r l IH]; intros i m I; cbn [definitions_map].
  - exists m. split; [reflexivity|]. intros r [[]|Q]. exact Q.
  - destruct (definition_accept st c me ix pm i r W (I r (or_introl eq_refl))) as (d & ->). cbn [tbind].
    destruct (IH (S i) (map_set (rp_name r) d m)) as (dm & E & A); [intros x X; apply I; right; exact X|].
    exists dm. split; [exact E|]. intros x [[<-|X]|X]; apply A; [right; rewrite map_find_set_same; discriminate|left; exact X|right].
    destruct (str_eqb_spec (rp_name x) (rp_name r)) as [->|Ne]; [rewrite map_find_set_same; discriminate|rewrite map_find_set_other by exact Ne; exact X].
Qed.
Lemma tmap_accept {A B} (f : A -> tres B) l : (forall x, In x l -> exists y, f x = TOk y) -> exists r, tmap f l = TOk r.
Proof.
  induction l as [|x l IH]; intro H; cbn [tmap]; [eauto|]. destruct (H x (or_introl eq_refl)) as (y & ->). cbn [tbind].
  destruct IH as (r & ->); [intros z Z; apply H; right; exact Z|]. cbn [tbind]. eauto.
Qed.
Lemma tmapi_accept {A B} (f : nat -> A -> tres B) l : forall k, (forall i x, nth_error l i = Some x -> exists y, f (k + i)%nat x = TOk y) -> exists r, tmapi f k l = TOk r.
Proof.
  induction l as [|x l IH]; intros k H; cbn [tmapi]; [eauto|]. destruct (H 0%nat x eq_refl) as (y & E). rewrite Nat.add_0_r in E. rewrite E. cbn [tbind].
  destruct (IH (S k)) as (r & ->). { intros i z Z. destruct (H (S i) z Z) as (w & Q). rewrite Nat.add_succ_r in Q. exists w. exact Q. } cbn [tbind]. eauto.
Qed.
Lemma index_actions_known l n : In n (map an_name l) -> exists a, map_find n (index_actions l) = Some a /\ In a l /\ an_name a = n.
Proof.
  intro I. assert (G : forall l m, In n (map an_name l) \/ map_find n m <> None -> map_find n (fold_left (fun m a => map_set (an_name a) a m) l m) <> None).
  { clear. induction l as [|a l IH]; intros m H; cbn [fold_left]; [destruct H as [[]|H]; exact H|]. apply IH. cbn [map In] in H.
    destruct (str_eqb_spec n (an_name a)) as [->|Ne]; [right; rewrite map_find_set_same; discriminate|]. rewrite map_find_set_other by exact Ne.
    destruct H as [[E|H]|H]; [congruence|auto|auto]. }
  pose proof (G l [] (or_introl I)) as Q. unfold index_actions. destruct (map_find n (fold_left _ l [])) as [a|] eqn:F; [|congruence].
  exists a. split; [reflexivity|]. destruct (index_actions_spec _ _ _ _ F) as [(l1 & l2 & -> & E & _)|[Q' _]]; [|discriminate].
  split; [apply in_or_app; right; left; reflexivity|exact E].
Qed.
Lemma tables_accept st c me : well_formed st c -> exists t, initialize_tables st c me = TOk t.
Proof.
  intro W. destruct (wf_rpc_dists _ _ W) as (g1 & G1). destruct (wf_delay_dists _ _ W) as (g2 & G2). destruct (wf_size_dists _ _ W) as (g3 & G3).
  unfold initialize_tables. cbv zeta. unfold sample_generators. rewrite G1, G2, G3. cbn [tbind ix_size].
  destruct (payloads_accept g3 (cf_payloads c) []) as (pm & P); [exact (wf_payloads _ _ W)|intros p d I E; exact (gens_known _ _ _ _ G3 (wf_payload_dist _ _ W p d I E))|].
  rewrite P. cbn [tbind].
  destruct (definitions_accept st c me (mkIndices g1 g2 g3) pm (cf_rpcs c) W 0 [] (fun r R => R)) as (dm & D & Dk). rewrite D. cbn [tbind].
  destruct (activities_accept (cf_activities c) [] [] (wf_activities _ _ W) (wf_activity _ _ W)) as (acts & am & A & Ak). rewrite A. cbn [tbind fst snd].
  destruct (traces_accept (enumerate_sizes (map sv_spec (cf_services c))) (cf_traces c) 0 [] (wf_traces _ _ W) (wf_trace _ _ W)) as (tm & T & Tk). rewrite T. cbn [tbind].
  assert (Lk : forall n, In n (map li_name (cf_lists c)) -> map_find n (index_lists 0 (cf_lists c) []) <> None)
    by (intros n I; rewrite index_lists_by; apply index_by_In; left; exact I).
  assert (Sk : forall r, In r (cf_rpcs c) -> exists i s, map_find (rp_server r) (enumerate_types c) = Some (Z.of_nat i) /\ nth_error (cf_services c) i = Some s /\ 0 <= svc_count s).
  { intros r R. destruct (wf_server _ _ W r R) as (_ & s & Is & Es & Hc & _).
    destruct (types_known c (rp_server r) (wf_services _ _ W)) as (i & s' & F & E & En); [rewrite <- Es; apply in_map; exact Is|].
    assert (s' = s) by (apply (service_fun c); [exact (wf_services _ _ W)|eapply nth_error_In; eauto|exact Is|congruence]). subst s'. eauto. }
  match goal with |- context [tmap (compile_list c ?x)] => set (cx := x) end.
  destruct (tmap_accept (compile_list c cx) (cf_lists c)) as (ls & ->).
  { intros d Hd. unfold compile_list. destruct (tmap_accept (first_pass cx) (li_actions d)) as (xs & X).
    - intros n Hn. unfold first_pass. cbn [cx cx_actions cx_payloads cx_indices ix_size].
      destruct (index_actions_known _ _ (wf_known _ _ W d n Hd Hn)) as (a & F & Ia & Ea). rewrite F. destruct (wf_action _ _ W a Ia) as (_ & _ & Q1 & Q2).
      assert (K : forall m, known_payload c m -> payload_index g3 pm m =? -1 = false).
      { intros m (p & Ip & Ep & Ed). unfold payload_index. rewrite (payload_find _ _ _ _ _ P Ip Ep). apply Z.eqb_neq. destruct (py_dist p) as [dd|] eqn:E; [|congruence].
        exact (gens_known _ _ _ _ G3 (wf_payload_dist _ _ W p dd Ip E)). }
      destruct (an_request a) as [m1|]; [rewrite (K m1 Q1)|]; (destruct (an_response a) as [m2|]; [rewrite (K m2 Q2)|]); eauto.
    - rewrite X. cbn [tbind]. destruct (tmapi_accept (second_pass c cx (positions 0 (li_actions d) [])) xs 0) as (es & ->); [|cbn [tbind]; eauto].
      intros j x Ej. cbn [Nat.add]. destruct (tmap_ok _ _ _ X) as [Lx Nx].
      destruct (nth_error (li_actions d) j) as [n|] eqn:En. 2: { apply nth_error_None in En. assert (j < length xs)%nat by (apply nth_error_Some; congruence). lia. }
      destruct (Nx j n En) as (y & Ey & Fy). assert (y = x) by congruence. subst y. unfold first_pass in Fy. cbn [cx cx_actions cx_payloads cx_indices ix_size] in Fy.
      destruct (index_actions_known _ _ (wf_known _ _ W d n Hd (nth_error_In _ _ En))) as (a & F & Ia & Ea). rewrite F in Fy.
      repeat match type of Fy with (if ?b then _ else _) = _ => destruct b; [discriminate|] end. injection Fy as <-.
      destruct (wf_action _ _ W a Ia) as (Q1 & Q2 & _). unfold second_pass, resolve_delay. cbn [cx cx_indices ix_delay].
      assert (exists z, match an_delay a with Some m => if generator_index m g2 =? -1 then TErr (TDelay m) else TOk (generator_index m g2) | None => TOk (-1) end = TOk z) as (z & ->).
      { destruct (an_delay a) as [m|]; [|eauto]. destruct (Z.eqb_spec (generator_index m g2) (-1)) as [E|_]; [|eauto]. exfalso. exact (gens_known _ _ _ _ G2 Q2 E). }
      cbn [tbind].
      assert (exists g, resolve_target c cx (an_kind a) = TOk g) as (tg & ->).
      { unfold resolve_target. cbn [cx cx_rpcs cx_types cx_lists cx_activities cx_traces]. destruct (an_kind a) as [m|m|m|m|].
        - apply In_nth_error in Q1 as (i & Ei). unfold enumerate_rpcs. rewrite (enumerate_index _ _ _ (wf_rpcs _ _ W) Ei). rewrite nth_error_map in Ei. rewrite Nat2Z.id.
          destruct (nth_error (cf_rpcs c) i) as [r|] eqn:Er; [|discriminate]. destruct (Sk r (nth_error_In _ _ Er)) as (k & s & -> & _). eauto.
        - pose proof (Lk m Q1) as Q. destruct (map_find m (index_lists 0 (cf_lists c) [])); [eauto|congruence].
        - pose proof (Ak m Q1) as Q. destruct (map_find m am); [eauto|congruence].
        - pose proof (Tk m Q1) as Q. destruct (map_find m tm); [eauto|congruence].
        - eauto. }
      cbn [tbind]. destruct (tmap_accept (resolve_dep (positions 0 (li_actions d) []) j) (an_deps a)) as (deps & ->); [|cbn [tbind]; destruct tg as [[[[? ?] ?] ?] ?]; eauto].
      intros m Hm. destruct (wf_deps _ _ W d j n a m Hd En Ia Ea Hm) as (M1 & M2). unfold resolve_dep. rewrite positions_by.
      pose proof (index_by_In (fun y : str => y) (li_actions d) 0 [] m (or_introl (eq_ind_r (fun q => In m q) M1 (map_id _)))) as Q.
      destruct (map_find m (index_by (fun n0 : str => n0) 0 (li_actions d) [])) as [k|] eqn:Fk; [|congruence].
      destruct (index_by_last _ _ _ _ Fk) as (y & (Y1 & Y2) & Y3 & _). subst y. pose proof (M2 _ Y2). destruct (Z.leb_spec (Z.of_nat j) k); [lia|eauto]. }
  cbn [tbind]. destruct (tmap_accept (rpc_row c cx me) (cf_rpcs c)) as (rows & ->); [|cbn [tbind]; eauto].
  intros r R. unfold rpc_row. cbn [cx cx_types cx_lists cx_defs]. destruct (wf_clients _ _ W r R) as (C1 & C2). destruct (wf_server _ _ W r R) as (S1 & _).
  rewrite check_clients_ok.
  2: { intros n I. apply filter_In in I as [I _]. destruct (types_known c n (wf_services _ _ W) (C2 n I)) as (? & ? & Q & _). congruence. }
  cbn [tbind]. destruct (rp_clients r); [congruence|]. destruct (rp_server r) eqn:Es; [congruence|]. rewrite <- Es.
  pose proof (Lk _ (wf_handler _ _ W r R)) as Q. destruct (map_find (rp_name r) (index_lists 0 (cf_lists c) [])) as [k|] eqn:Fk; [|congruence].
  rewrite index_lists_by in Fk. destruct (index_by_last _ _ _ _ Fk) as (d & (_ & Ed) & _). rewrite Ed.
  pose proof (Dk r (or_introl R)) as Q2. destruct (map_find (rp_name r) dm); [|congruence].
  destruct (Sk r R) as (i & sv & -> & E & Hc). rewrite Nat2Z.id, E. destruct (Z.ltb_spec (svc_count sv) 0); [lia|eauto].
Qed.
