(** Proofs about the sending of RPCs. *)
From Coq Require Import Ascii String List NArith ZArith QArith Bool Arith Lia Permutation.
From Verif Require Import Base_Model Base_Proofs Grid_Model Grid_Proofs Place_Model Place_Proofs Fanout_Model Fanout_Proofs Util_Model Table_Model Table_Proofs Table_Proofs2.
From Verif Require Import Dist_Model.
From Verif Require Rpc_Model Rpc_Proofs Rpc_Props.
From Verif Require Import Peer_Model Peer_Proofs Cli_Proofs Table_Props Peer_Props Deliver_Model.
Import ListNotations.
Open Scope Z_scope.

(** ** The state of a connected engine *)
Record draws_ok (d : draws) : Prop := mkDrawsOk {
  do_counter : 0 <= dw_counter d;
  do_draw : forall lo hi, lo <= hi -> lo <= dw_draw d lo hi <= hi;
  do_shuffle : forall l, Permutation (dw_shuffle d l) l }.

Record engine_situation (st : str -> option (list (Q * Z))) (c : config) (me : str) (g : grid_index) (my : str) (k i : nat) (sv : service_desc) (eps : endpoints) : Prop := mkES {
  es_sane : sane c;
  es_rpcs : NoDup (map rp_name (cf_rpcs c));
  es_located : located c my k i;
  es_service : nth_error (cf_services c) k = Some sv;
  es_type : svc_name sv = me;
  es_index : grid_index_from_name my = Some g;
  es_eps : endpoints_ok c eps;
  es_complete : forall n k i, located c n k i -> In n (map fst eps);
  es_addresses : forall n ep, In (n, ep) eps -> ep_address ep <> [] }.

Lemma service_of_name c k sv : sane c -> nth_error (cf_services c) k = Some sv -> find (fun s => str_eqb (svc_name s) (svc_name sv)) (cf_services c) = Some sv.
Proof.
  intros S E. destruct (find (fun s => str_eqb (svc_name s) (svc_name sv)) (cf_services c)) as [s|] eqn:F.
  - apply find_some in F as (I & Q). destruct (str_eqb_spec (svc_name s) (svc_name sv)) as [Q'|]; [|discriminate]. f_equal. exact (service_fun c s sv (sa_distinct _ S) I (nth_error_In _ _ E) Q').
  - pose proof (find_none _ _ F sv (nth_error_In _ _ E)) as K. cbn beta in K. rewrite str_eqb_refl in K. discriminate.
Qed.

Lemma count_pos s : canonical s -> 0 < get_count s.
Proof. intro C. rewrite (canonical_count s C). destruct (canonical_pos s C) as (A & B & D). apply Z.mul_pos_pos; [apply Z.mul_pos_pos; assumption|exact D]. Qed.
Lemma named_once {A} (f : A -> str) l a b : NoDup (map f l) -> In a l -> In b l -> f a = f b -> a = b.
Proof.
  induction l as [|x l IH]; intros D I J E; [destruct I|]. cbn [map] in D. apply NoDup_cons_iff in D as [N D]. destruct I as [<-|I], J as [<-|J]; auto.
  - destruct N. rewrite E. apply in_map, J.
  - destruct N. rewrite <- E. apply in_map, I.
Qed.
(** ** What an RPC carries *)
(** The action's own distribution of sizes comes first. *)
Definition over (override : Z) (scalar : Rpc_Model.scalar_draw) (size : Z) (otherwise : Prop) : Prop :=
  (override <> -1 -> exists n, scalar override = Some n /\ size = Rpc_Model.to_size_t n) /\ (override = -1 -> otherwise).
(** The size of a request and the size of the response it asks for. *)
Definition request_size (c : config) (r : rpc_desc) (override : Z) (scalar : Rpc_Model.scalar_draw) (joint : Rpc_Model.joint_draw) (size : Z) (asked : option Z) : Prop :=
  match rp_dist r with
  | Some n => (exists j x q tl, at_index (cf_rpc_dists c) j x /\ dc_name x = n /\ joint j = Some (q :: tl) /\ size = Rpc_Model.to_size_t q /\ asked = Some (hd q tl)) \/
              (~ In n (map dc_name (cf_rpc_dists c)) /\ asked = None /\ over override scalar size (size = 0))
  | None => asked = None /\
      over override scalar size (exists fixed index, Table_Props.direction_ok c (rp_request r) 16 fixed index /\ (index < 0 -> size = Z.max 0 fixed) /\
        (0 <= index -> exists n, scalar index = Some n /\ size = Rpc_Model.to_size_t n))
  end.
(** The size of a response that no action decides. *)
Definition response_size (c : config) (r : rpc_desc) (scalar : Rpc_Model.scalar_draw) (rq : Rpc_Model.request) (n : Z) : Prop :=
  match Rpc_Model.rq_resp_size rq, rp_dist r with
  | Some z, _ => n = Rpc_Model.to_size_t z
  | None, Some _ => n = 0
  | None, None => exists fixed index, Table_Props.direction_ok c (rp_response r) 32 fixed index /\ (index = -1 -> n = Z.max 0 fixed) /\
                    (index <> -1 -> exists z, scalar index = Some z /\ n = Rpc_Model.to_size_t z)
  end.
(** Only the RPCs of a multi-server channel are answered with the instance. *)
Definition answer_instance (r : rpc_desc) (me : Z) : option Z := match rp_channel r with Some _ => Some me | None => None end.
(** The list of the RPC is run, in this thread or another, and nothing is sent yet. *)
Definition starts_list (res : Rpc_Model.h_result) (dedicated : bool) (index : Z) (inst : option Z) : Prop :=
  if dedicated then res = Rpc_Model.mkHR [Rpc_Model.HList index inst] Rpc_Model.WNone 0 else res = Rpc_Model.mkHR [] (Rpc_Model.WList index inst) 1.

Section Engine.
  Variables (st : str -> option (list (Q * Z))) (answer : nat -> str -> option str) (accept : nat -> str -> bool) (setup : list Z -> bool) (address : str -> str).
  Variables (c : config) (me : str) (g : grid_index) (my : str) (k i : nat) (sv : service_desc) (eps : endpoints) (rd : ready).
  Hypothesis H : engine_situation st c me g my k i sv eps.
  Hypothesis P : prepare st answer accept setup address c me g eps = Some rd.

  Lemma my_place : instance_from_grid (sv_spec sv) g = Z.of_nat i /\ Z.of_nat i < svc_count sv /\ service_index (sv_spec sv) (Z.of_nat i) = Some g /\ in_grid (sv_spec sv) g /\
    map_find me (enumerate_types c) = Some (Z.of_nat k).
  Proof.
    pose proof (es_sane _ _ _ _ _ _ _ _ _ H) as S. destruct (located_facts c my k i S (es_located _ _ _ _ _ _ _ _ _ H)) as (s & g' & E & _ & Mt & Gi & Ig & Lt & Nm).
    assert (s = sv) by (pose proof (es_service _ _ _ _ _ _ _ _ _ H); congruence). subst s. assert (g' = g) by (pose proof (es_index _ _ _ _ _ _ _ _ _ H); congruence). subst g'.
    destruct (sane_nth c k sv S E) as (Cn & Ns). assert (Lt' : Z.of_nat i < svc_count sv) by lia.
    destruct (proj1 (grid_bijection _ Cn) (Z.of_nat i) (conj (Nat2Z.is_nonneg i) Lt')) as (g1 & K1 & K2 & K3).
    destruct (name_parses (sv_spec sv) (Z.of_nat i) (canonical_dims _ Cn) Ns) as (n' & g2 & A & B & D). assert (n' = my) by congruence. subst n'.
    assert (g1 = g) by congruence. subst g1. rewrite (es_type _ _ _ _ _ _ _ _ _ H) in Mt. auto.
  Qed.
  Lemma prepared : exists calls, initialize_tables st c me = TOk (rd_tables rd) /\ rd_type rd = me /\ rd_instance rd = Z.of_nat i /\ rd_index rd = g /\ rd_service rd = Z.of_nat k /\
    situation c (rd_tables rd) me (Z.of_nat i) my eps /\ complete c (tb_dependent (rd_tables rd)) eps /\
    connect_to_peers answer accept setup c (rd_tables rd) me (Z.of_nat i) eps = (calls, POk (rd_scan rd)) /\ drive address (mkStubs [] [] []) calls = Some (rd_stubs rd).
  Proof.
    pose proof (es_sane _ _ _ _ _ _ _ _ _ H) as S. pose proof my_place as (Ig & Lt & _ & _ & Mt). pose proof (es_service _ _ _ _ _ _ _ _ _ H) as E.
    unfold prepare in P. destruct (initialize_config st c me g) as [t|e|] eqn:T; [|discriminate|discriminate].
    apply initialize_config_tables in T as (_ & T). pose proof (service_of_name c k sv S E) as F. rewrite (es_type _ _ _ _ _ _ _ _ _ H) in F. rewrite F, Ig in P.
    destruct (connect_to_peers answer accept setup c t me (Z.of_nat i) eps) as [calls r] eqn:C. destruct r as [sc|e|]; [|discriminate|discriminate].
    destruct (drive address (mkStubs [] [] []) calls) as [g'|] eqn:D; [|discriminate]. injection P as <-. cbn [rd_tables rd_type rd_instance rd_index rd_service rd_scan rd_stubs].
    pose proof (si_types_of _ _ _ _ T) as Ty. exists calls. split; [exact T|]. do 3 (split; [reflexivity|]).
    split. { rewrite Ty. unfold index_or_insert. rewrite Mt. reflexivity. }
    split. { constructor.
      - exact S.
      - exact Ty.
      - exists k, i, sv. pose proof (es_located _ _ _ _ _ _ _ _ _ H). pose proof (es_type _ _ _ _ _ _ _ _ _ H). auto.
      - exact (es_eps _ _ _ _ _ _ _ _ _ H).
      - intro Z0. pose proof (es_complete _ _ _ _ _ _ _ _ _ H _ _ _ (es_located _ _ _ _ _ _ _ _ _ H)) as I. rewrite Z0 in I. destruct I.
      - intros n k0 i0 s0 ep _ _ _ I. exact (es_addresses _ _ _ _ _ _ _ _ _ H n ep I). }
    split; [|auto]. intros n k0 i0 s0 L _ _. exact (es_complete _ _ _ _ _ _ _ _ _ H n k0 i0 L).
  Qed.

  Lemma row_at k' sv' : nth_error (cf_services c) k' = Some sv' -> exists row, nth_error (sc_peers (rd_scan rd)) k' = Some row /\ Z.of_nat (length row) = svc_count sv'.
  Proof.
    intro E. destruct prepared as (calls & _ & _ & _ & _ & _ & Si & _ & C & _). destruct (connect_ok _ _ _ _ _ _ _ _ _ Si _ _ C) as (_ & Sh & _).
    assert (E' : nth_error (map (@length peer) (sc_peers (rd_scan rd))) k' = Some (Z.to_nat (svc_count sv'))) by (rewrite Sh, nth_error_map, E; reflexivity).
    rewrite nth_error_map in E'. destruct (nth_error (sc_peers (rd_scan rd)) k') as [row|]; [|discriminate]. injection E' as E'. exists row. split; [reflexivity|].
    destruct (sane_nth c k' sv' (es_sane _ _ _ _ _ _ _ _ _ H) E) as (Cn & _). pose proof (count_pos _ Cn). unfold svc_count in *. lia.
  Qed.

  (** An RPC entry: which row of the tables it uses, and what is there. *)
  Lemma entry_row l a m : In l (tb_lists (rd_tables rd)) -> In a (tl_entries l) -> an_kind (en_action a) = KRpc m ->
    exists r b k' sv', at_index (cf_rpcs c) (en_rpc a) r /\ rp_name r = m /\ vec_at (tb_clients (rd_tables rd)) (en_rpc a) = Some b /\
      nth_error (cf_services c) k' = Some sv' /\ svc_name sv' = rp_server r /\ en_rpc_service a = Z.of_nat k' /\ de_server (cr_def b) = sv' /\
      (de_allowed (cr_def b) = true <-> In me (rp_clients r)) /\ (rp_channel r = None -> de_channel (cr_def b) = -1) /\
      (forall m', rp_channel r = Some m' -> 0 <= de_channel (cr_def b)) /\
      parse_filter st (match rp_fanout r with Some f => f | None => s_ "all" end) = Some (de_fanout (cr_def b)).
  Proof.
    intros Il Ia Ka. destruct prepared as (calls & T & _). pose proof (es_sane _ _ _ _ _ _ _ _ _ H) as S. pose proof (sa_distinct _ S) as Ds. pose proof (es_rpcs _ _ _ _ _ _ _ _ _ H) as Dr.
    apply In_nth_error in Il as (x & Il). destruct (Forall2_right _ _ _ (C52_actions _ _ _ _ T Ds Dr) x l Il) as (d & _ & _ & Le & En & _).
    apply In_nth_error in Ia as (j & Ij). assert (exists n, nth_error (li_actions d) j = Some n) as (n & Nj).
    { destruct (nth_error (li_actions d) j) as [n|] eqn:Q; [eauto|]. apply nth_error_None in Q. assert (nth_error (tl_entries l) j <> None) as K by congruence. apply nth_error_Some in K. lia. }
    destruct (En j n Nj) as (a' & Ea' & Eo). assert (a' = a) by congruence. subst a'. pose proof (eo_rpc _ _ _ _ _ _ Eo) as Er. rewrite Ka in Er.
    destruct Er as (r & At & Nm & s0 & At0 & Sn). pose proof At as (R0 & Rn). destruct At0 as (S0 & Sk).
    destruct (Forall2_left _ _ _ (C52_rpcs _ _ _ _ T Ds Dr) _ _ Rn) as ([sa b] & Eab & _ & _ & _ & _ & _ & Al & _ & (s & (P0 & Es') & Sn' & Sd & _) & Chn & Pf).
    exists r, b, (Z.to_nat (en_rpc_service a)), s0. split; [exact At|]. split; [exact Nm|].
    split. { unfold vec_at. destruct (Z.ltb_spec (en_rpc a) 0); [lia|]. clear -Eab. revert Eab. generalize (Z.to_nat (en_rpc a)) as q. generalize (tb_servers (rd_tables rd)) as u, (tb_clients (rd_tables rd)) as v.
      induction u as [|u0 u IH]; intros [|v0 v] [|q] E; cbn [combine nth_error] in *; try discriminate; [congruence|]. eapply IH; eauto. }
    split; [exact Sk|]. split; [exact Sn|]. split; [lia|].
    split. { rewrite <- Sd. apply (service_fun c s s0 Ds (nth_error_In _ _ Es') (nth_error_In _ _ Sk)). congruence. }
    split; [exact Al|]. split; [intro K; rewrite K in Chn; exact Chn|]. split; [intros m' K; rewrite K in Chn; apply (proj1 (proj1 Chn))|exact Pf].
  Qed.

  Lemma dependent_on r : In r (cf_rpcs c) -> In me (rp_clients r) -> In (rp_server r) (tb_dependent (rd_tables rd)).
  Proof. intros I M. destruct prepared as (calls & T & _). apply (proj2 (C52_dependent _ _ _ _ T)). left. eauto. Qed.

  (** Where the RPC to an instance goes. *)
  Lemma goes_to k' sv' v row : nth_error (cf_services c) k' = Some sv' -> In (svc_name sv') (tb_dependent (rd_tables rd)) -> 0 <= v < svc_count sv' ->
    nth_error (sc_peers (rd_scan rd)) k' = Some row ->
    exists n p ep j info, instance_name (sv_spec sv') v = Some n /\ located c n k' (Z.to_nat v) /\ map_find n eps = Some ep /\ vec_at row v = Some p /\
      answer j (ep_address ep) = Some info /\ rpc_target (rd_stubs rd) (pe_pd p) = Some (add_protocol (address info)).
  Proof.
    intros E D V R. destruct prepared as (calls & T & _ & _ & _ & _ & Si & Co & C & Dr). pose proof (es_sane _ _ _ _ _ _ _ _ _ H) as S.
    destruct (C53_connected answer accept setup c (rd_tables rd) me (Z.of_nat i) my eps calls (rd_scan rd) address (mkStubs [] [] []) Si C Co) as (g' & Dg & _ & A).
    assert (g' = rd_stubs rd) by congruence. subst g'. destruct (sane_nth c k' sv' S E) as (Cn & Ns).
    destruct (name_parses (sv_spec sv') v (canonical_dims _ Cn) Ns) as (n & g2 & Nm & _ & _).
    assert (L : located c n k' (Z.to_nat v)) by (exists sv'; rewrite Z2Nat.id by lia; repeat split; auto; lia).
    destruct (A n k' (Z.to_nat v) sv' L E D) as (ep & p & j & info & Me & Pa & _ & _ & An & _ & Rt). exists n, p, ep, j, info.
    split; [exact Nm|]. split; [exact L|]. split; [exact Me|]. split; [|split; [exact An|exact Rt]].
    unfold peer_at in Pa. rewrite R in Pa. unfold vec_at. destruct (Z.ltb_spec v 0); [lia|exact Pa].
  Qed.
  Lemma send_all_ok k' sv' row : nth_error (cf_services c) k' = Some sv' -> In (svc_name sv') (tb_dependent (rd_tables rd)) ->
    nth_error (sc_peers (rd_scan rd)) k' = Some row ->
    forall targets, (forall v, In v targets -> 0 <= v < svc_count sv') -> exists l, send_all (rd_stubs rd) row targets = Some l /\ map fst l = targets /\
      forall v x, In (v, x) l -> exists n ep j info, instance_name (sv_spec sv') v = Some n /\ map_find n eps = Some ep /\ answer j (ep_address ep) = Some info /\ x = add_protocol (address info).
  Proof.
    intros E D R. induction targets as [|v targets IH]; intro V; [exists []; repeat split; intros ? ? []|].
    destruct (IH (fun u I => V u (or_intror I))) as (l & El & Ml & Fl). destruct (goes_to k' sv' v row E D (V v (or_introl eq_refl)) R) as (n & p & ep & j & info & Nm & _ & Me & Va & An & Rt).
    exists ((v, add_protocol (address info)) :: l). split; [cbn [send_all]; rewrite Va, Rt, El; reflexivity|]. split; [cbn [map fst]; congruence|].
    intros u x [Q|I]; [injection Q as <- <-; exists n, ep, j, info; auto|exact (Fl u x I)].
  Qed.

  Definition env_for (k' : nat) (sv' : service_desc) (d : draws) : fanout_env :=
    mkEnv (Z.of_nat k' =? Z.of_nat k) (Z.of_nat i) g (sv_spec sv') (svc_count sv') (dw_counter d) (dw_draw d) (dw_rv d) (dw_shuffle d).
  Lemma env_for_ok k' sv' d : nth_error (cf_services c) k' = Some sv' -> draws_ok d -> env_ok (env_for k' sv' d).
  Proof.
    intros E [D1 D2 D3]. destruct (sane_nth c k' sv' (es_sane _ _ _ _ _ _ _ _ _ H) E) as (Cn & _). pose proof my_place as (Ig & Lt & Si & Gr & _).
    constructor; cbn [env_for fe_peer fe_n fe_exclude_self fe_self fe_me fe_counter fe_draw fe_shuffle]; auto.
    - intro X. apply Z.eqb_eq in X. assert (k' = k) by lia. subst k'. assert (sv' = sv) by (pose proof (es_service _ _ _ _ _ _ _ _ _ H); congruence). subst sv'. split; [lia|exact Si].
    - destruct Gr as (A & B & C). lia.
  Qed.

  Lemma send_rpcs_ok l a m d r : In l (tb_lists (rd_tables rd)) -> In a (tl_entries l) -> an_kind (en_action a) = KRpc m -> In r (cf_rpcs c) -> rp_name r = m ->
    In me (rp_clients r) -> rp_channel r = None -> draws_ok d ->
    exists k' sv' f, nth_error (cf_services c) k' = Some sv' /\ svc_name sv' = rp_server r /\ parse_filter st (match rp_fanout r with Some f => f | None => s_ "all" end) = Some f /\
      env_ok (env_for k' sv' d) /\
      (forall targets, pick_targets (env_for k' sv' d) f = PickOk targets -> (forall v, In v targets -> 0 <= v < svc_count sv') ->
         exists sent, send_rpcs rd a d = ToPeers sent /\ map fst sent = targets /\
           forall v x, In (v, x) sent -> exists n ep j info, instance_name (sv_spec sv') v = Some n /\ map_find n eps = Some ep /\ answer j (ep_address ep) = Some info /\ x = add_protocol (address info)) /\
      (pick_targets (env_for k' sv' d) f = PickUB -> send_rpcs rd a d = Broken).
  Proof.
    intros Il Ia Ka Ir Nr Mc Ch Dw. destruct (entry_row l a m Il Ia Ka) as (r' & b & k' & sv' & (_ & At) & Nm & Eb & Ek & Sn & Es & Ds & Al & Chn & _ & Pf).
    assert (r' = r). { apply (named_once rp_name (cf_rpcs c)); [exact (es_rpcs _ _ _ _ _ _ _ _ _ H)|eapply nth_error_In; eauto|exact Ir|congruence]. } subst r'.
    exists k', sv', (de_fanout (cr_def b)). split; [exact Ek|]. split; [exact Sn|]. split; [exact Pf|]. split; [apply env_for_ok; assumption|].
    destruct (row_at k' sv' Ek) as (row & Er & Lr). destruct prepared as (calls & T & _ & Pi & Pg & Ps & _).
    assert (Ne : exists p row', row = p :: row').
    { destruct row as [|p row']; [|eauto]. exfalso. destruct (sane_nth c k' sv' (es_sane _ _ _ _ _ _ _ _ _ H) Ek) as (Cn & _). pose proof (count_pos _ Cn). unfold svc_count in Lr. cbn [length] in Lr. lia. }
    assert (Q : send_rpcs rd a d = match pick_targets (env_for k' sv' d) (de_fanout (cr_def b)) with
       | PickUB => Broken | PickOk targets => match send_all (rd_stubs rd) row targets with Some l => ToPeers l | None => Broken end end).
    { unfold send_rpcs. rewrite Eb, (proj2 Al Mc), Es. cbn [negb]. unfold vec_at. destruct (Z.ltb_spec (Z.of_nat k') 0); [lia|]. rewrite Nat2Z.id, Er. destruct Ne as (p & row' & ->).
      rewrite (Chn Ch), Z.eqb_refl. unfold fanout_env_of. rewrite Ds, Ps, Pi, Pg, Lr. reflexivity. }
    split.
    - intros targets Pt V. rewrite Pt in Q. destruct (send_all_ok k' sv' row Ek ltac:(rewrite Sn; apply dependent_on; assumption) Er targets V) as (sent & Es' & Ms & Fs).
      rewrite Es' in Q. exists sent. auto.
    - intro U. rewrite U in Q. exact Q.
  Qed.
  Lemma not_sent l a m d r : In l (tb_lists (rd_tables rd)) -> In a (tl_entries l) -> an_kind (en_action a) = KRpc m -> In r (cf_rpcs c) -> rp_name r = m ->
    ~ In me (rp_clients r) -> send_rpcs rd a d = NotInitiated.
  Proof.
    intros Il Ia Ka Ir Nr Mc. destruct (entry_row l a m Il Ia Ka) as (r' & b & k' & sv' & (_ & At) & Nm & Eb & Ek & Sn & Es & Ds & Al & _).
    assert (r' = r). { apply (named_once rp_name (cf_rpcs c)); [exact (es_rpcs _ _ _ _ _ _ _ _ _ H)|eapply nth_error_In; eauto|exact Ir|congruence]. } subst r'.
    unfold send_rpcs. rewrite Eb. destruct (de_allowed (cr_def b)); [destruct Mc; apply Al; reflexivity|reflexivity].
  Qed.
  (** An RPC over a multi-server channel. *)
  Lemma instances_of k' sv' ch ids (Q : Z -> Z -> str -> Prop) : nth_error (cf_services c) k' = Some sv' -> NoDup ids -> forall addresses,
    Forall2 (fun z x => exists v n p, member eps sv' ch v n /\ peer_at (sc_peers (rd_scan rd)) k' (Z.to_nat v) = Some p /\ pe_pd p = z /\ 0 <= z /\ Q z v x) ids addresses ->
    exists members, NoDup members /\ Forall2 (fun v x => exists n z, member eps sv' ch v n /\ Q z v x) members addresses /\
      (forall v, In v members -> exists p, peer_at (sc_peers (rd_scan rd)) k' (Z.to_nat v) = Some p /\ In (pe_pd p) ids) /\
      (forall z, In z ids -> exists v n p, In v members /\ member eps sv' ch v n /\ peer_at (sc_peers (rd_scan rd)) k' (Z.to_nat v) = Some p /\ pe_pd p = z).
  Proof.
    intros E D addresses F. induction F as [|z x ids addresses (v & n & p & M & Pa & Pz & Z0 & Qx) F IH]; [exists []; split; [constructor|]; split; [constructor|]; split; [intros ? []|intros ? []]|].
    apply NoDup_cons_iff in D as [N D]. destruct (IH D) as (ms & Dm & Fm & A & B). exists (v :: ms). split.
    { constructor; [|exact Dm]. intro I. destruct (A v I) as (p' & Pa' & J). assert (p' = p) by congruence. subst p'. rewrite Pz in J. exact (N J). }
    split; [constructor; [eauto|exact Fm]|]. split.
    - intros u [<-|I]; [exists p; split; [exact Pa|left; auto]|]. destruct (A u I) as (p' & Pa' & J). exists p'. split; [exact Pa'|right; exact J].
    - intros z' [<-|I]; [exists v, n, p; cbn [In]; auto|]. destruct (B z' I) as (u & n' & p' & J & K). exists u, n', p'. cbn [In]. auto.
  Qed.
  Lemma increasing_NoDup l : increasing_ids l -> NoDup l.
  Proof.
    induction l as [|z l IH]; intro I; [constructor|]. destruct I as (Lt & I). constructor; [intro J; pose proof (Lt z J); lia|exact (IH I)].
  Qed.
  Lemma send_channel l a m d r l1 sv' l2 mc : In l (tb_lists (rd_tables rd)) -> In a (tl_entries l) -> an_kind (en_action a) = KRpc m -> In r (cf_rpcs c) -> rp_name r = m ->
    In me (rp_clients r) -> rp_channel r = Some mc -> (forall info, address info <> []) ->
    cf_services c = l1 ++ sv' :: l2 -> svc_name sv' = rp_server r -> (forall s, In s l1 -> In (svc_name s) (tb_dependent (rd_tables rd)) -> sv_channels s = []) ->
    exists ch members addresses, In ch (sv_channels sv') /\ ch_name ch = mc /\ send_rpcs rd a d = ToChannel (add_protocol (comma_separated addresses)) /\ NoDup members /\ members <> [] /\
      (forall v, In v members <-> exists n, member eps sv' ch v n) /\
      Forall2 (fun v x => exists n ep j info, member eps sv' ch v n /\ map_find n eps = Some ep /\ answer j (ep_address ep) = Some info /\ x = address info) members addresses.
  Proof.
    intros Il Ia Ka Ir Nr Mc Ch Ad Es Sn Hn. destruct (entry_row l a m Il Ia Ka) as (r' & b & k' & sv2 & (R0 & At) & Nm & Eb & Ek & Sn2 & Ens & _ & Al & _ & Chn & _).
    assert (r' = r). { apply (named_once rp_name (cf_rpcs c)); [exact (es_rpcs _ _ _ _ _ _ _ _ _ H)|eapply nth_error_In; eauto|exact Ir|congruence]. } subst r'.
    destruct prepared as (calls & T & _ & _ & _ & _ & Si & Co & C & Dr). pose proof (es_sane _ _ _ _ _ _ _ _ _ H) as S. pose proof (sa_distinct _ S) as Ds.
    assert (Eb' : nth_error (tb_clients (rd_tables rd)) (Z.to_nat (en_rpc a)) = Some b) by (unfold vec_at in Eb; destruct (Z.ltb_spec (en_rpc a) 0); [lia|exact Eb]).
    destruct (C54_right_channel st c me (rd_tables rd) _ r b l1 sv' l2 mc T Ds (es_rpcs _ _ _ _ _ _ _ _ _ H) At Eb' Mc Ch Es Sn Hn) as (ch & Z0 & Ech & Cn).
    destruct (C54_addresses answer accept setup c (rd_tables rd) me (Z.of_nat i) my eps calls (rd_scan rd) address (mkStubs [] [] []) Si C Co Ad) as (g' & Dg & _ & A).
    assert (g' = rd_stubs rd) by congruence. subst g'. destruct (A _ sv' ch Ech) as (k2 & ids & addresses & Ek2 & Inc & Ne & Mb & F & Tg).
    rewrite Z2Nat.id in Tg by exact Z0.
    assert (Isv : In ch (sv_channels sv')) by (apply (channel_list_In _ _ _ _ (nth_error_In _ _ Ech))).
    destruct (instances_of k2 sv' ch ids (fun z v x => exists n ep j info, member eps sv' ch v n /\ map_find n eps = Some ep /\ answer j (ep_address ep) = Some info /\ x = address info) Ek2 (increasing_NoDup _ Inc) addresses) as (ms & Dm & Fm & M1 & M2).
    { clear -F. induction F as [|z x ids addresses (v & n & p & ep & slot & info & M & Pa & Pz & Zs & Me & An & Ex) F IH]; constructor; [|exact IH]. exists v, n, p. repeat (split; [assumption || lia|]). exists n, ep, slot, info. auto. }
    exists ch, ms, addresses. split; [exact Isv|]. split; [exact Cn|]. split.
    { unfold send_rpcs. rewrite Eb, (proj2 Al Mc), Ens. cbn [negb]. unfold vec_at at 1. destruct (Z.ltb_spec (Z.of_nat k') 0); [lia|]. rewrite Nat2Z.id.
      destruct (row_at k' sv2 Ek) as (row & -> & Lr). destruct row as [|p row].
      { exfalso. destruct (sane_nth c k' sv2 S Ek) as (Cs & _). pose proof (count_pos _ Cs). unfold svc_count in Lr. cbn [length] in Lr. lia. }
      destruct (Z.eqb_spec (de_channel (cr_def b)) (-1)); [lia|]. rewrite Tg. reflexivity. }
    split; [exact Dm|]. split. { destruct ids as [|z ids]; [congruence|]. destruct (M2 z (or_introl eq_refl)) as (v & _ & _ & I & _). destruct ms; [destruct I|discriminate]. }
    split.
    - intro v. split.
      + intro I. apply In_nth_error in I as (j & I). destruct (Forall2_left _ _ _ Fm j v I) as (x & _ & n & _ & M & _). eauto.
      + intros (n & M). assert (exists p, peer_at (sc_peers (rd_scan rd)) k2 (Z.to_nat v) = Some p) as (p & Pa).
        { destruct M as (R & _). destruct (row_at k2 sv' Ek2) as (row & Er & Lr). unfold peer_at. rewrite Er. destruct (nth_error row (Z.to_nat v)) as [p|] eqn:Q; [eauto|]. apply nth_error_None in Q. lia. }
        destruct (M2 (pe_pd p)) as (u & n' & p' & I & M' & Pa' & Q); [apply Mb; exists v, n, p; auto|].
        assert (Lc : forall v n, member eps sv' ch v n -> located c n k2 (Z.to_nat v)).
        { intros v0 n0 (R & Nm0 & _). exists sv'. rewrite Z2Nat.id by lia. repeat split; auto; lia. }
        assert (Z1 : 0 <= pe_pd p).
        { assert (In (pe_pd p) ids) as J by (apply Mb; exists v, n, p; auto). apply In_nth_error in J as (j & J). destruct (Forall2_left _ _ _ F j _ J) as (x & _ & v1 & n1 & p1 & ep1 & slot & info & _ & _ & _ & Zs & _). lia. }
        destruct (proj2 (C53_bijection _ _ _ _ _ _ _ _ _ _ _ Si C) n n' k2 (Z.to_nat v) k2 (Z.to_nat u) p p' (Lc _ _ M) (Lc _ _ M') Pa Pa' Z1 (eq_sym Q)) as (_ & _ & Qv).
        destruct M as (R & _), M' as (R' & _). replace v with u by lia. exact I.
    - clear -Fm. induction Fm as [|v x ms addresses (n & z & _ & Q) Fm IH]; constructor; auto.
  Qed.

  (** The row of an RPC in the engine's tables. *)
  Lemma rpc_tables z r : at_index (cf_rpcs c) z r ->
    exists sa b h d, nth_error (map server_part (tb_servers (rd_tables rd))) (Z.to_nat z) = Some (server_part sa) /\ nth_error (tb_clients (rd_tables rd)) (Z.to_nat z) = Some b /\
      sr_def sa = cr_def b /\ de_spec (cr_def b) = r /\ (sr_allowed sa = true <-> rp_server r = me) /\
      last_named li_name (cf_lists c) (rp_name r) h d /\ sr_handler sa = (if (length (li_actions d) =? 0)%nat then -1 else h) /\
      (let d := cr_def b in match rp_dist r with
       | Some n => de_request_size d = -1 /\ de_response_size d = -1 /\ de_request_index d = -1 /\ de_response_index d = -1 /\
                   ((exists x, at_index (cf_rpc_dists c) (de_joint d) x /\ dc_name x = n) \/ (de_joint d = -1 /\ ~ In n (map dc_name (cf_rpc_dists c))))
       | None => de_joint d = -1 /\ Table_Props.direction_ok c (rp_request r) 16 (de_request_size d) (de_request_index d) /\
                 Table_Props.direction_ok c (rp_response r) 32 (de_response_size d) (de_response_index d)
       end).
  Proof.
    intros (Z0 & Az). destruct prepared as (calls & T & _). pose proof (sa_distinct _ (es_sane _ _ _ _ _ _ _ _ _ H)) as Ds.
    pose proof (es_rpcs _ _ _ _ _ _ _ _ _ H) as Dr.
    destruct (Forall2_left _ _ _ (C52_rpcs _ _ _ _ T Ds Dr) _ _ Az) as ([sa b] & Eab & _ & _ & (h & d & Ln & Hd) & Al & Sd & _ & Sp & _).
    destruct (Forall2_left _ _ _ (Table_Props.C52_sizes _ _ _ _ T Ds Dr) _ _ Az) as (b' & Eb & Sz).
    assert (Q : nth_error (tb_servers (rd_tables rd)) (Z.to_nat z) = Some sa /\ nth_error (tb_clients (rd_tables rd)) (Z.to_nat z) = Some b).
    { clear -Eab. revert Eab. generalize (Z.to_nat z) as q. generalize (tb_servers (rd_tables rd)) as u, (tb_clients (rd_tables rd)) as v.
      induction u as [|u0 u IH]; intros [|v0 v] [|q] E; cbn [combine nth_error] in *; try discriminate; [injection E as -> ->; auto|]. eapply IH; eauto. }
    destruct Q as (Q1 & Q2). assert (b' = b) by congruence. subst b'. exists sa, b, h, d. split; [rewrite nth_error_map, Q1; reflexivity|]. split; [exact Q2|].
    do 5 (split; [assumption|]). exact Sz.
  Qed.
  Lemma rpc_tables_length : Z.of_nat (length (cf_rpcs c)) <= int32_max -> Z.of_nat (length (map server_part (tb_servers (rd_tables rd)))) <= int32_max.
  Proof.
    intro Sz. destruct prepared as (calls & T & _). rewrite map_length. destruct (tables_parts _ _ _ _ T) as (p & _). rewrite (f_equal tb_servers (pt_t _ _ _ _ p)).
    cbn [tb_servers]. rewrite map_length, (proj1 (tmap_ok _ _ _ (pt_e7 _ _ _ _ p))). exact Sz.
  Qed.

  (** An incoming RPC. *)
  Lemma receives scalar z r ded rq : at_index (cf_rpcs c) z r -> rp_server r = me -> Rpc_Model.rq_index rq = Some z -> Z.of_nat (length (cf_rpcs c)) <= int32_max ->
    exists h d, last_named li_name (cf_lists c) (rp_name r) h d /\
      (li_actions d <> [] -> exists res, receive scalar rd ded rq = Some res /\ starts_list res ded h (answer_instance r (rd_instance rd))) /\
      (li_actions d = [] -> (forall x, scalar x <> None) -> exists res n, receive scalar rd ded rq = Some res /\
         Rpc_Proofs.answered res (Rpc_Model.mkResp [] (answer_instance r (rd_instance rd)) n) /\ response_size c r scalar rq n).
  Proof.
    intros At Sv Rq Sz. pose proof At as (Z0 & _). destruct (rpc_tables z r At) as (sa & b & h & d & Ls & _ & Sd & Sp & Al & Ln & Hd & Sizes).
    pose proof (rpc_tables_length Sz) as Lg.
    assert (Sa : sr_allowed sa = true) by (apply Al; exact Sv). exists h, d. split; [exact Ln|]. unfold receive.
    assert (Im : (if Rpc_Model.df_multi (Rpc_Model.sv_def (server_part sa)) then Some (rd_instance rd) else None) = answer_instance r (rd_instance rd)).
    { cbn [server_part Rpc_Model.sv_def definition_part Rpc_Model.df_multi]. rewrite Sd, Sp. unfold answer_instance. destruct (rp_channel r); reflexivity. }
    split.
    - intro Ne. destruct (length (li_actions d) =? 0)%nat eqn:Q; [apply Nat.eqb_eq in Q; destruct (li_actions d); [congruence|discriminate]|].
      assert (Hn : sr_handler sa <> -1). { rewrite Hd. destruct Ln as ((? & _) & _). lia. }
      destruct (Rpc_Props.C31_handler_list scalar None 0 (map server_part (tb_servers (rd_tables rd))) (rd_instance rd) ded rq z (server_part sa)) as (res & Er & A1 & A1' & A2 & A3 & A4); auto; [intros (? & ? & ? & _); discriminate|].
      exists res. split; [exact Er|]. unfold Rpc_Model.rpc_handler in Er. rewrite Rq in Er.
      assert (T : Rpc_Model.to_size_t z = z).
      { unfold Rpc_Model.to_size_t. apply Z.mod_small. assert (nth_error (map server_part (tb_servers (rd_tables rd))) (Z.to_nat z) <> None) as K by congruence. apply nth_error_Some in K. unfold int32_max in Lg. lia. }
      rewrite T, Ls in Er. destruct (z >=? _) eqn:G; [exfalso; assert (nth_error (map server_part (tb_servers (rd_tables rd))) (Z.to_nat z) <> None) as K by congruence; apply nth_error_Some in K; lia|].
      cbn [server_part Rpc_Model.sv_allowed] in Er. rewrite Sa in Er. cbn [negb Rpc_Model.sv_handler] in Er.
      fold (server_part sa) in Er. cbn [server_part Rpc_Model.sv_def Rpc_Model.sv_handler] in Im, Er. rewrite Im in Er. destruct (Z.eqb_spec (sr_handler sa) (-1)); [contradiction|].
      rewrite Hd in Er. unfold starts_list. destruct ded; injection Er as <-; reflexivity.
    - intros Em Sc. rewrite Em in Hd. cbn [length Nat.eqb] in Hd.
      destruct (Rpc_Model.compute_response_size scalar rq (Rpc_Model.sv_def (server_part sa)) (Rpc_Model.df_resp_index (Rpc_Model.sv_def (server_part sa)))) as [n|] eqn:Q.
      + destruct (Rpc_Props.C31_no_handler scalar None 0 (map server_part (tb_servers (rd_tables rd))) (rd_instance rd) ded rq z (server_part sa) n) as (res & Er & An); auto; [intros (? & ? & ? & _); discriminate|].
        exists res, n. split; [exact Er|]. rewrite Im in An. split; [exact An|].
        pose proof (Rpc_Props.C32_response_size scalar rq (Rpc_Model.sv_def (server_part sa)) (Rpc_Model.df_resp_index (Rpc_Model.sv_def (server_part sa)))) as C. rewrite Q in C.
        unfold response_size. destruct (Rpc_Model.rq_resp_size rq) as [y|]; [congruence|]. destruct C as (C1 & _ & C3).
        cbn [server_part Rpc_Model.sv_def definition_part Rpc_Model.df_resp_index Rpc_Model.df_resp_size] in C1, C3. rewrite Sd in C1, C3. destruct (rp_dist r).
        * destruct Sizes as (_ & S2 & _ & S4 & _). rewrite S2, S4 in C3. specialize (C3 eq_refl eq_refl). injection C3 as ->. reflexivity.
        * destruct Sizes as (_ & _ & Dk). exists (de_response_size (cr_def b)), (de_response_index (cr_def b)). split; [exact Dk|]. split.
          -- intro E. rewrite E in C3. specialize (C3 eq_refl eq_refl). congruence.
          -- intro E. specialize (C1 E). destruct (scalar (de_response_index (cr_def b))) as [y|]; cbn [option_map] in C1; [|discriminate]. exists y. split; [reflexivity|congruence].
      + exfalso. unfold Rpc_Model.compute_response_size in Q. destruct (Rpc_Model.rq_resp_size rq); [discriminate|]. destruct (_ =? -1); [discriminate|].
        destruct (scalar _) eqn:W; [discriminate|exact (Sc _ W)].
  Qed.
  Lemma refuses scalar z r ded rq : at_index (cf_rpcs c) z r -> rp_server r <> me -> Rpc_Model.rq_index rq = Some z -> Z.of_nat (length (cf_rpcs c)) <= int32_max ->
    exists res, receive scalar rd ded rq = Some res /\
      Rpc_Proofs.answered res (Rpc_Model.mkResp (s_ "rpc_index should never be sent to this service: " ++ dec_of_Z z) None 0).
  Proof.
    intros At Sv Rq Sz. pose proof At as (Z0 & _). destruct (rpc_tables z r At) as (sa & b & h & d & Ls & _ & _ & _ & Al & _).
    unfold receive. eapply Rpc_Props.C31_not_allowed; eauto; [intros (? & ? & ? & _); discriminate|exact (rpc_tables_length Sz)|].
    cbn [server_part Rpc_Model.sv_allowed]. destruct (sr_allowed sa); [destruct (Sv (proj1 Al eq_refl))|reflexivity].
  Qed.

  (** The requests of an iteration. *)
  Lemma sends_requests scalar joint inc wu h a r targets l : at_index (cf_rpcs c) (en_rpc a) r -> requests_of scalar joint inc wu h rd a targets = Some l ->
    map (fun x => fst (fst x)) l = targets /\
    forall q v rq size, nth_error l q = Some (v, rq, size) -> Rpc_Model.rq_index rq = Some (en_rpc a) /\ Rpc_Model.rq_warmup rq = Some wu /\
      Rpc_Model.rq_trace rq = Rpc_Model.add_fanout (Z.of_nat q) (Rpc_Model.common_trace inc h) /\
      request_size c r (en_request a) scalar joint size (Rpc_Model.rq_resp_size rq).
  Proof.
    intros At E. pose proof At as (Z0 & _). destruct (rpc_tables _ r At) as (sa & b & _ & _ & _ & Nb & Sd & Sp & _ & _ & _ & Sizes). unfold requests_of in E.
    assert (Vb : vec_at (tb_clients (rd_tables rd)) (en_rpc a) = Some b) by (unfold vec_at; destruct (Z.ltb_spec (en_rpc a) 0); [lia|exact Nb]). rewrite Vb in E.
    destruct (Rpc_Props.C33_one_request_per_target _ _ _ _ _ _ _ E) as (M & R). split; [exact M|]. intros q v rq size K. destruct (R _ _ _ (nth_error_In _ _ K)) as (R1 & R2).
    cbn [Rpc_Model.hp_rpc Rpc_Model.hp_def Rpc_Model.hp_override] in R1, R2. split; [exact R1|]. split.
    { destruct (Rpc_Proofs.send_spec _ _ _ _ _ _ _ E) as (L & N).
      destruct (nth_error targets q) as [t|] eqn:T; [|apply nth_error_None in T; rewrite <- L in T; apply nth_error_None in T; congruence].
      destruct (N q t T) as (? & ? & _ & K'). rewrite K in K'. injection K' as _ -> _. reflexivity. }
    split.
    { destruct (Rpc_Proofs.send_spec _ _ _ _ _ _ _ E) as (L & N).
      destruct (nth_error targets q) as [t|] eqn:T; [|apply nth_error_None in T; rewrite <- L in T; apply nth_error_None in T; congruence].
      destruct (N q t T) as (? & ? & _ & K'). rewrite K in K'. injection K' as _ -> _. reflexivity. }
    destruct (Rpc_Props.C33_request_size scalar joint (definition_part (cr_def b)) (en_request a)) as (C1 & C2 & C3 & C4). rewrite R2 in C2, C3, C4.
    cbn [definition_part Rpc_Model.df_joint Rpc_Model.df_req_index Rpc_Model.df_req_size] in *. unfold request_size. destruct (rp_dist r) as [n|].
    - destruct Sizes as (S1 & _ & S3 & _ & [(x & Ax & Nx)|(Ej & Nn)]).
      + left. exists (de_joint (cr_def b)), x. pose proof Ax as (J0 & _). unfold Rpc_Model.request_sizes in R2. cbn [definition_part Rpc_Model.df_joint] in R2.
        destruct (Z.geb_spec (de_joint (cr_def b)) 0); [|lia]. destruct (joint (de_joint (cr_def b))) as [[|y tl]|] eqn:Q; try discriminate.
        exists y, tl. injection R2 as <- <-. do 4 (split; [assumption || reflexivity|]). destruct tl; reflexivity.
      + right. rewrite Ej, S1, S3 in *. split; [exact Nn|]. unfold over. split; [|split].
        * destruct (Z.eq_dec (en_request a) (-1)) as [W|W]; [specialize (C4 ltac:(lia) W ltac:(lia)); congruence|]. specialize (C2 ltac:(lia) W). destruct (scalar (en_request a)); cbn [option_map] in C2; congruence.
        * intro W. specialize (C2 ltac:(lia) W). destruct (scalar (en_request a)) as [y|]; cbn [option_map] in C2; [|discriminate]. exists y. split; [reflexivity|congruence].
        * intro W. specialize (C4 ltac:(lia) W ltac:(lia)). cbn in C4. congruence.
    - destruct Sizes as (Ej & Dq & _). rewrite Ej in *. unfold over. split; [|split].
      + destruct (Z.eq_dec (en_request a) (-1)) as [W|W]; [|specialize (C2 ltac:(lia) W); destruct (scalar (en_request a)); cbn [option_map] in C2; congruence].
        destruct (Z_lt_le_dec (de_request_index (cr_def b)) 0) as [G|G]; [specialize (C4 ltac:(lia) W ltac:(lia)); congruence|].
        specialize (C3 ltac:(lia) W ltac:(lia)). destruct (scalar (de_request_index (cr_def b))); cbn [option_map] in C3; congruence.
      + intro W. specialize (C2 ltac:(lia) W). destruct (scalar (en_request a)) as [y|]; cbn [option_map] in C2; [|discriminate]. exists y. split; [reflexivity|congruence].
      + intro W. exists (de_request_size (cr_def b)), (de_request_index (cr_def b)). split; [exact Dq|]. split.
        * intro G. specialize (C4 ltac:(lia) W ltac:(lia)). congruence.
        * intro G. specialize (C3 ltac:(lia) W ltac:(lia)). destruct (scalar (de_request_index (cr_def b))) as [y|]; cbn [option_map] in C3; [|discriminate]. exists y. split; [reflexivity|congruence].
  Qed.
  (** Draws that succeed are enough for the requests. *)
  Lemma requests_made scalar joint inc wu h a r targets : at_index (cf_rpcs c) (en_rpc a) r -> (forall x, scalar x <> None) -> (forall x, joint x <> None /\ joint x <> Some []) ->
    requests_of scalar joint inc wu h rd a targets <> None.
  Proof.
    intros At Sc Jo. pose proof At as (Z0 & _). destruct (rpc_tables _ r At) as (sa & b & _ & _ & _ & Nb & _). unfold requests_of.
    assert (Vb : vec_at (tb_clients (rd_tables rd)) (en_rpc a) = Some b) by (unfold vec_at; destruct (Z.ltb_spec (en_rpc a) 0); [lia|exact Nb]). rewrite Vb.
    unfold Rpc_Model.send_requests. destruct targets; [discriminate|]. cbn [Rpc_Model.hp_def Rpc_Model.hp_override]. unfold Rpc_Model.request_sizes.
    destruct (_ >=? 0).
    - destruct (Jo (Rpc_Model.df_joint (definition_part (cr_def b)))) as (J1 & J2). destruct (joint _) as [[|q tl]|]; [congruence|discriminate|congruence].
    - destruct (negb _); [destruct (scalar _) eqn:W; [discriminate|destruct (Sc _ W)]|]. destruct (_ >=? 0); [destruct (scalar _) eqn:W; [discriminate|destruct (Sc _ W)]|discriminate].
  Qed.
End Engine.
