(** C53: engines connect to their peers; C54: multi-server channels. *)
From Coq Require Import Ascii String List NArith ZArith QArith Bool Arith Lia.
From Verif Require Import Base_Model Base_Proofs Grid_Model Grid_Proofs Place_Model Place_Proofs Util_Model Table_Model Table_Proofs Table_Proofs2 Table_Props Peer_Model Peer_Proofs.
Import ListNotations.
Open Scope Z_scope.

(** The hypotheses of this file: [tables_for]: [t] is what InitializeTables
    made of [c] for the service [me].  [situation] (Peer_Proofs.v) says that the
    engine is one of the instances of the configuration, that the services have
    canonical sizes and distinct names without a slash, that every endpoint
    belongs to an instance, and that the endpoints of the services it calls have
    an address. *)
Lemma si_types_of st c me t : initialize_tables st c me = TOk t -> tb_types t = enumerate_types c.
Proof. intro H. destruct (tables_parts _ _ _ _ H) as (p & _). rewrite (f_equal tb_types (pt_t _ _ _ _ p)). reflexivity. Qed.

(** ** C53 *)
(** Every instance that has an endpoint is entered under its name with its number
    among all instances of the configuration; those of the services the engine
    calls with their address and an id of the driver, the others with the id -1. *)
Theorem C53_peers : forall answer accept setup c t me inst my eps calls s, situation c t me inst my eps ->
  connect_to_peers answer accept setup c t me inst eps = (calls, POk s) ->
  forall n k i sv, located c n k i -> nth_error (cf_services c) k = Some sv ->
    if set_mem n (map fst eps) then
      exists p z, peer_at (sc_peers s) k i = Some p /\ pe_name p = n /\ pe_trace p = Some z /\ at_index (names c) z n /\
        (In (svc_name sv) (tb_dependent t) -> exists ep, map_find n eps = Some ep /\ pe_address p = ep_address ep /\ 0 <= pe_pd p < sc_targets s) /\
        (~ In (svc_name sv) (tb_dependent t) -> pe_pd p = -1 /\ pe_address p = [])
    else peer_at (sc_peers s) k i = Some blank_peer.
Proof.
  intros answer accept setup c t me inst my eps calls s H C n k i sv L E. pose proof (si_sane _ _ _ _ _ _ H) as S. pose proof (eo_keys _ _ (si_eps _ _ _ _ _ _ H)) as K.
  destruct (connect_ok _ _ _ _ _ _ _ _ _ H _ _ C) as (_ & _ & _ & Tg & Pa & _). destruct (set_mem n (map fst eps)) eqn:M.
  - apply set_mem_spec in M. exists (expected c (tb_dependent t) 0 eps n blank_peer), (id_of c n). split; [apply Pa; exact L|].
    assert (In n (names c)) as In' by (apply (In_names c n S); eauto). pose proof (proj1 (id_of_spec c n _ S In') eq_refl) as At.
    destruct (is_dep (tb_dependent t) n) eqn:Dn.
    + destruct (deps_named _ _ _ Dn M) as (j & ep & Ej). rewrite (expected_dep c _ _ _ K Dn 0 j ep Ej blank_peer). cbn [pe_name pe_trace pe_address pe_pd].
      do 3 (split; [reflexivity || exact At|]). split.
      * intros _. exists ep. split; [apply (map_find_iff n ep _ K); exact (proj2 (deps_is_dep _ _ _ _ _ Ej))|]. split; [reflexivity|].
        assert (j < length (deps (tb_dependent t) eps))%nat by (apply nth_error_Some; congruence). lia.
      * intro Nd. exfalso. apply Nd. apply (is_dep_iff c _ n k i sv S L E). exact Dn.
    + rewrite (expected_other c _ _ _ Dn M). cbn [pe_name pe_trace pe_address pe_pd]. do 3 (split; [reflexivity || exact At|]). split; [|auto].
      intro D. apply (is_dep_iff c _ n k i sv S L E) in D. congruence.
  - assert (N : ~ In n (map fst eps)) by (intro Q; apply set_mem_spec in Q; congruence). rewrite (Pa n k i L), expected_absent by exact N. reflexivity.
Qed.

(** The ids of the driver are 0..n-1, each that of exactly one endpoint of a
    service the engine calls. *)
Theorem C53_bijection : forall answer accept setup c t me inst my eps calls s, situation c t me inst my eps ->
  connect_to_peers answer accept setup c t me inst eps = (calls, POk s) ->
  (forall z, 0 <= z < sc_targets s -> exists n k i sv p, located c n k i /\ nth_error (cf_services c) k = Some sv /\ In n (map fst eps) /\ In (svc_name sv) (tb_dependent t) /\
     peer_at (sc_peers s) k i = Some p /\ pe_name p = n /\ pe_pd p = z) /\
  (forall n n' k i k' i' p p', located c n k i -> located c n' k' i' -> peer_at (sc_peers s) k i = Some p -> peer_at (sc_peers s) k' i' = Some p' ->
     0 <= pe_pd p -> pe_pd p = pe_pd p' -> n = n' /\ k = k' /\ i = i').
Proof.
  intros answer accept setup c t me inst my eps calls s H C. pose proof (si_sane _ _ _ _ _ _ H) as S. pose proof (eo_keys _ _ (si_eps _ _ _ _ _ _ H)) as K.
  destruct (connect_ok _ _ _ _ _ _ _ _ _ H _ _ C) as (_ & _ & _ & Tg & Pa & _). split.
  - intros z R. destruct (nth_error (deps (tb_dependent t) eps) (Z.to_nat z)) as [[n ep]|] eqn:Ej; [|apply nth_error_None in Ej; lia].
    destruct (deps_is_dep _ _ _ _ _ Ej) as (Dn & I). destruct (eo_known _ _ (si_eps _ _ _ _ _ _ H) n (in_map fst _ _ I)) as (k & i & L). pose proof L as (sv & E & _).
    exists n, k, i, sv. eexists. split; [exact L|]. split; [exact E|]. split; [exact (in_map fst _ _ I)|]. split; [apply (is_dep_iff c _ n k i sv S L E); exact Dn|].
    split; [apply Pa; exact L|]. rewrite (expected_dep c _ _ _ K Dn 0 _ ep Ej blank_peer). cbn [pe_name pe_pd]. split; [reflexivity|lia].
  - intros n n' k i k' i' p p' L L' P P' R Q. rewrite (Pa n k i L) in P. rewrite (Pa n' k' i' L') in P'. injection P as <-. injection P' as <-.
    destruct (f_cases c (tb_dependent t) eps K n) as [(j & ep & Ej & F)|(_ & _ & F)]; [|lia]. rewrite F in Q, R. cbn [pe_pd] in Q, R.
    destruct (f_cases c (tb_dependent t) eps K n') as [(j' & ep' & Ej' & F')|(_ & _ & F')]; [|lia]. rewrite F' in Q. cbn [pe_pd] in Q.
    assert (j = j') by lia. subst j'. assert (n = n') by congruence. subst n'. destruct (located_fun c n k i k' i' S L L'). auto.
Qed.

(** If all endpoints of the services the engine calls exist, the gRPC client
    accepts all calls, and an RPC to the id of an instance goes to the address
    that the engine at the endpoint of this instance answered. *)
Theorem C53_connected : forall answer accept setup c t me inst my eps calls s address g, situation c t me inst my eps ->
  connect_to_peers answer accept setup c t me inst eps = (calls, POk s) -> complete c (tb_dependent t) eps ->
  exists g', drive address g calls = Some g' /\ length (gs_stubs g') = Z.to_nat (sc_targets s) /\
    forall n k i sv, located c n k i -> nth_error (cf_services c) k = Some sv -> In (svc_name sv) (tb_dependent t) ->
      exists ep p j info, map_find n eps = Some ep /\ peer_at (sc_peers s) k i = Some p /\ pe_name p = n /\ pe_pd p = Z.of_nat j /\
        answer j (ep_address ep) = Some info /\ accept j info = true /\ rpc_target g' (pe_pd p) = Some (add_protocol (address info)).
Proof.
  intros answer accept setup c t me inst my eps calls s address g H C Co. destruct (connect_ok _ _ _ _ _ _ _ _ _ H _ _ C) as (_ & _ & _ & Tg & _).
  destruct (drive_ok _ _ _ _ _ _ _ _ _ H _ _ C address g Co) as (infos & setups & g' & D & St & Li & A & _ & _). exists g'. split; [exact D|].
  split; [rewrite Tg, Nat2Z.id, St, map_length; exact Li|]. intros n k i sv L E Dp.
  destruct (pd_range _ _ _ _ _ _ _ _ _ H _ _ C n k i sv Co L E Dp) as (j & ep & Ej & Me & P). destruct (A j n ep Ej) as (info & Ei & An & Ac).
  exists ep. eexists. exists j, info. split; [exact Me|]. split; [exact P|]. cbn [pe_name pe_pd]. do 4 (split; [reflexivity || assumption|]).
  unfold rpc_target. rewrite vec_at_nat, St, nth_error_map, Ei. reflexivity.
Qed.

(** The number an engine uses for itself is the number all others use for it. *)
Theorem C53_agree : forall answer1 accept1 setup1 answer2 accept2 setup2 c t1 t2 me1 me2 inst1 inst2 my1 my2 eps calls1 calls2 s1 s2 k i,
  situation c t1 me1 inst1 my1 eps -> situation c t2 me2 inst2 my2 eps ->
  connect_to_peers answer1 accept1 setup1 c t1 me1 inst1 eps = (calls1, POk s1) ->
  connect_to_peers answer2 accept2 setup2 c t2 me2 inst2 eps = (calls2, POk s2) ->
  In my1 (map fst eps) -> located c my1 k i ->
  at_index (names c) (sc_trace s1) my1 /\ exists p, peer_at (sc_peers s2) k i = Some p /\ pe_name p = my1 /\ pe_trace p = Some (sc_trace s1).
Proof.
  intros answer1 accept1 setup1 answer2 accept2 setup2 c t1 t2 me1 me2 inst1 inst2 my1 my2 eps calls1 calls2 s1 s2 k i H1 H2 C1 C2 I L. pose proof (si_sane _ _ _ _ _ _ H1) as S.
  destruct (connect_ok _ _ _ _ _ _ _ _ _ H1 _ _ C1) as (_ & _ & Tr & _). rewrite (proj2 (set_mem_spec _ _) I) in Tr.
  assert (In my1 (names c)) as In' by (apply (In_names c my1 S); eauto). pose proof (proj1 (id_of_spec c my1 _ S In') eq_refl) as At. rewrite Tr. split; [exact At|].
  pose proof L as (sv & E & _). pose proof (C53_peers _ _ _ _ _ _ _ _ _ _ _ H2 C2 my1 k i sv L E) as P. rewrite (proj2 (set_mem_spec _ _) I) in P.
  destruct P as (p & z & P1 & P2 & P3 & P4 & _). exists p. split; [exact P1|]. split; [exact P2|]. rewrite P3. f_equal. symmetry. apply (id_of_spec c my1 z S In'). exact P4.
Qed.

(** Without channels, connecting succeeds exactly when all endpoints answer and
    the driver accepts the answers; it never aborts. *)
Theorem C53_total : forall answer accept setup c t me inst my eps, situation c t me inst my eps ->
  (forall sv, In sv (cf_services c) -> In (svc_name sv) (tb_dependent t) -> sv_channels sv = []) ->
  ((forall j a, exists info, answer j a = Some info /\ accept j info = true) -> exists calls s, connect_to_peers answer accept setup c t me inst eps = (calls, POk s)) /\
  (forall n k i sv ep, located c n k i -> nth_error (cf_services c) k = Some sv -> In (svc_name sv) (tb_dependent t) -> In (n, ep) eps ->
     (forall j info, answer j (ep_address ep) = Some info -> accept j info = false) -> exists calls, connect_to_peers answer accept setup c t me inst eps = (calls, PErr PConnect)) /\
  (snd (connect_to_peers answer accept setup c t me inst eps) = PErr PConnect \/ exists s, snd (connect_to_peers answer accept setup c t me inst eps) = POk s).
Proof.
  intros answer accept setup c t me inst my eps H N. pose proof (si_sane _ _ _ _ _ _ H) as S.
  destruct (connect_spec answer accept setup c t me inst my eps H) as (s & _ & _ & _ & _ & _ & E). rewrite E. clear E.
  destruct (handle_connects answer accept 0 (map (fun x => ep_address (snd x)) (deps (tb_dependent t) eps))) as [hc ok] eqn:Eh. destruct (handle_ok _ _ _ _ _ _ Eh) as (Ok & _).
  destruct (all_channels_total setup (enumerate_types c) (sc_peers s) (tb_dependent t) eps (cf_services c)) with (msc := 0) as (calls & z & ->).
  { intros sv ch I. exfalso. apply channel_list_In in I as (I1 & I2 & I3). rewrite (N sv I1 I2) in I3. destruct I3. }
  cbn [pbind]. split; [|split].
  - intro A. replace ok with true by (symmetry; apply Ok; intros j a _; apply A). eauto.
  - intros n k i sv ep L E D I A. assert (ok = false) as ->; [|eauto]. destruct ok; [exfalso|reflexivity].
    assert (Q : In (n, ep) (deps (tb_dependent t) eps)) by (apply filter_In; split; [exact I|]; cbn [fst]; apply (is_dep_iff c _ n k i sv S L E); exact D).
    apply In_nth_error in Q as (j & Q). destruct (proj1 Ok eq_refl j (ep_address ep)) as (info & A1 & A2); [rewrite nth_error_map, Q; reflexivity|].
    cbn [plus] in *. rewrite (A j info A1) in A2. discriminate.
  - destruct ok; [right; exists s; reflexivity|left; reflexivity].
Qed.

(** ** C54 *)
(** The channels are those of the services the engine calls, in the order of the
    configuration.  The members of number k are exactly the ids of the instances
    that are selected or satisfy the constraints, each once. *)
Theorem C54_members : forall answer accept setup c t me inst my eps calls s, situation c t me inst my eps ->
  connect_to_peers answer accept setup c t me inst eps = (calls, POk s) ->
  exists before setups, calls = before ++ CSetNumChannels (Z.of_nat (length setups)) :: setups /\
    length setups = length (channel_list (tb_dependent t) (cf_services c)) /\
    forall j d, nth_error setups j = Some d -> exists sv ch k members, nth_error (channel_list (tb_dependent t) (cf_services c)) j = Some (sv, ch) /\
      nth_error (cf_services c) k = Some sv /\ d = CSetupChannel (ch_settings ch) members (Z.of_nat j) /\ members <> [] /\ increasing_ids members /\
      (forall i, In i (ch_selected ch) -> 0 <= i < svc_count sv) /\
      forall z, In z members <-> exists i n p, member eps sv ch i n /\ peer_at (sc_peers s) k (Z.to_nat i) = Some p /\ pe_pd p = z.
Proof.
  intros answer accept setup c t me inst my eps calls s H C. destruct (connect_ok _ _ _ _ _ _ _ _ _ H _ _ C) as (_ & _ & _ & _ & _ & infos & setups & _ & _ & Ec & F).
  assert (Ls : length setups = length (channel_list (tb_dependent t) (cf_services c))).
  { rewrite <- (Forall2_len _ _ _ F). apply number_length. }
  eexists. exists setups. split; [rewrite Ls; exact Ec|]. split; [exact Ls|]. intros j d Ej.
  assert (Kx : exists x, nth_error (number 0 (channel_list (tb_dependent t) (cf_services c))) j = Some x /\ call_for eps (fun sv => vec_at (sc_peers s) (fst (index_or_insert (svc_name sv) (enumerate_types c)))) setup x d).
  { exact (Forall2_right _ _ _ F j d Ej). }
  destruct Kx as (x & Ex & r & ms & R1 & R2 & R3 & ->). rewrite number_nth in Ex. destruct (nth_error (channel_list (tb_dependent t) (cf_services c)) j) as [[sv ch]|] eqn:En; [|discriminate].
  cbn [option_map] in Ex. injection Ex as <-. cbn [fst snd] in *. pose proof (channel_list_In _ _ _ _ (nth_error_In _ _ En)) as (Isv & Idep & _). apply In_nth_error in Isv as (k & Ek).
  rewrite (row_of _ _ _ _ _ _ H s k sv Ek) in R1. exists sv, ch, k, ms. split; [reflexivity|]. split; [exact Ek|]. split; [f_equal; lia|].
  destruct (members_spec _ _ _ _ _ _ H s k sv r ch ms Ek R1 R2) as (In' & Ne & M). split; [exact Ne|]. split; [exact In'|]. split.
  - unfold channel_members in R2. apply pbind_ok in R2 as (a & Ra & _). exact (selected_range _ _ _ _ Ra).
  - intro z. rewrite M. unfold peer_at. rewrite R1. reflexivity.
Qed.

Fixpoint comma_separated (l : list str) : str :=
  match l with [] => [] | [a] => a | a :: r => a ++ s_ "," ++ comma_separated r end.
Lemma join_spec l : Forall (fun a => a <> []) l -> join_addresses l = comma_separated l.
Proof.
  intro F. destruct F as [|a r Na F]; [reflexivity|]. unfold join_addresses. cbn [fold_left app].
  assert (G : forall r acc, acc <> [] -> fold_left (fun acc a => (match acc with [] => acc | _ => acc ++ s_ "," end) ++ a) r acc = comma_separated (acc :: r)).
  { clear. induction r as [|b r IH]; intros acc N; [reflexivity|]. cbn [fold_left]. destruct acc as [|x acc]; [congruence|].
    rewrite IH by (intro Q; destruct (app_eq_nil _ _ Q) as [Q' _]; destruct (app_eq_nil _ _ Q'); discriminate).
    destruct r; cbn [comma_separated]; rewrite <- !app_assoc; reflexivity. }
  destruct a as [|x a]; [congruence|]. rewrite G by discriminate. reflexivity.
Qed.
(** If the instances of the services the engine calls all have endpoints, the
    gRPC client accepts all channels.  The channel with number j connects to the
    list of the addresses of its members, in the order of their ids. *)
Theorem C54_addresses : forall answer accept setup c t me inst my eps calls s address g, situation c t me inst my eps ->
  connect_to_peers answer accept setup c t me inst eps = (calls, POk s) -> complete c (tb_dependent t) eps -> (forall info, address info <> []) ->
  exists g', drive address g calls = Some g' /\ length (gs_channels g') = length (channel_list (tb_dependent t) (cf_services c)) /\
    forall j sv ch, nth_error (channel_list (tb_dependent t) (cf_services c)) j = Some (sv, ch) ->
      exists k members addresses, nth_error (cf_services c) k = Some sv /\ increasing_ids members /\ members <> [] /\
        (forall z, In z members <-> exists i n p, member eps sv ch i n /\ peer_at (sc_peers s) k (Z.to_nat i) = Some p /\ pe_pd p = z) /\
        Forall2 (fun z a => exists i n p ep slot info, member eps sv ch i n /\ peer_at (sc_peers s) k (Z.to_nat i) = Some p /\ pe_pd p = z /\ z = Z.of_nat slot /\
                   map_find n eps = Some ep /\ answer slot (ep_address ep) = Some info /\ a = address info) members addresses /\
        channel_target g' (Z.of_nat j) = Some (add_protocol (comma_separated addresses)).
Proof.
  intros answer accept setup c t me inst my eps calls s address g H C Co Ad.
  destruct (drive_ok _ _ _ _ _ _ _ _ _ H _ _ C address g Co) as (infos & setups & g' & D & St & Li & A & F & Ch). exists g'. split; [exact D|].
  assert (Ls : length setups = length (channel_list (tb_dependent t) (cf_services c))).
  { rewrite <- (Forall2_len _ _ _ F). apply number_length. }
  split; [rewrite Ch, map_length; exact Ls|]. intros j sv ch En.
  assert (Kx : exists d, nth_error setups j = Some d /\ call_for eps (fun sv => vec_at (sc_peers s) (fst (index_or_insert (svc_name sv) (enumerate_types c)))) setup (Z.of_nat j, (sv, ch)) d).
  { apply (Forall2_left _ _ _ F). rewrite number_nth, En. reflexivity. }
  destruct Kx as (d & Ed & r & ms & R1 & R2 & R3 & ->). cbn [fst snd] in *. pose proof (channel_list_In _ _ _ _ (nth_error_In _ _ En)) as (Isv & Idep & _).
  apply In_nth_error in Isv as (k & Ek). rewrite (row_of _ _ _ _ _ _ H s k sv Ek) in R1.
  destruct (members_spec _ _ _ _ _ _ H s k sv r ch ms Ek R1 R2) as (In' & Ne & M).
  assert (M' : forall z, In z ms <-> exists i n p, member eps sv ch i n /\ peer_at (sc_peers s) k (Z.to_nat i) = Some p /\ pe_pd p = z) by (intro z; rewrite M; unfold peer_at; rewrite R1; reflexivity).
  exists k, ms, (map (fun p => address (info_at infos p)) ms). split; [exact Ek|]. split; [exact In'|]. split; [exact Ne|]. split; [exact M'|]. split.
  - assert (Sub : forall z, In z ms -> In z ms) by auto. revert Sub. generalize ms at 1 3 4 as l. induction l as [|z l IH]; intro Sub; cbn [map]; [constructor|]. constructor; [|apply IH; intros; apply Sub; right; assumption].
    pose proof (proj1 (M' z) (Sub z (or_introl eq_refl))) as (i & n & p & Mb & P & Zp). pose proof Mb as (Ri & Nm & _).
    destruct (instance_name_total _ _ _ _ _ _ H k sv i Ek Ri) as (n' & Nm' & Lo). assert (n' = n) by congruence. subst n'.
    destruct (pd_range _ _ _ _ _ _ _ _ _ H _ _ C n k (Z.to_nat i) sv Co Lo Ek Idep) as (slot & ep & Es & Me & P'). rewrite P in P'. injection P' as ->. cbn [pe_pd] in Zp.
    destruct (A slot n ep Es) as (info & Ei & An & _). exists i, n. eexists. exists ep, slot, info. split; [exact Mb|]. split; [exact P|]. split; [exact Zp|]. split; [exact (eq_sym Zp)|].
    split; [exact Me|]. split; [exact An|]. rewrite <- Zp. unfold info_at. rewrite vec_at_nat, Ei. reflexivity.
  - unfold channel_target. rewrite vec_at_nat, Ch, nth_error_map, Ed. cbn [option_map members_of]. rewrite join_spec; [reflexivity|]. apply Forall_forall. intros a I. apply in_map_iff in I as (z & <- & _). apply Ad.
Qed.

(** Channels whose selected instances exist, whose constraints have legal moduli
    and that have a member are accepted. *)
Theorem C54_accepted : forall answer accept setup c t me inst my eps, situation c t me inst my eps -> complete c (tb_dependent t) eps ->
  (forall j a, exists info, answer j a = Some info /\ accept j info = true) -> (forall members, setup members = true) ->
  (forall sv ch, In sv (cf_services c) -> In (svc_name sv) (tb_dependent t) -> In ch (sv_channels sv) ->
     (forall i, In i (ch_selected ch) -> 0 <= i < svc_count sv) /\ (forall cl, ch_constraints ch = Some cl -> moduli_ok cl) /\ exists i n, member eps sv ch i n) ->
  exists calls s, connect_to_peers answer accept setup c t me inst eps = (calls, POk s).
Proof.
  intros answer accept setup c t me inst my eps H Co An Se Q. pose proof (si_sane _ _ _ _ _ _ H) as S.
  destruct (connect_spec answer accept setup c t me inst my eps H) as (s & _ & Sh & _ & _ & Pa & E). rewrite E. clear E.
  destruct (handle_connects answer accept 0 (map (fun x => ep_address (snd x)) (deps (tb_dependent t) eps))) as [hc ok] eqn:Eh. destruct (handle_ok _ _ _ _ _ _ Eh) as (Ok & _).
  replace ok with true by (symmetry; apply Ok; intros j a _; apply An).
  destruct (all_channels_total setup (enumerate_types c) (sc_peers s) (tb_dependent t) eps (cf_services c)) with (msc := 0) as (calls & z & ->); [|cbn [pbind]; eauto].
  intros sv ch I. pose proof (channel_list_In _ _ _ _ I) as (I1 & I2 & I3). destruct (Q sv ch I1 I2 I3) as (Q1 & Q2 & i0 & n0 & Mb). apply In_nth_error in I1 as (k & Ek).
  rewrite (row_of _ _ _ _ _ _ H s k sv Ek).
  assert (Ek' : nth_error (map (@length peer) (sc_peers s)) k = Some (Z.to_nat (svc_count sv))) by (rewrite Sh, nth_error_map, Ek; reflexivity).
  rewrite nth_error_map in Ek'. destruct (nth_error (sc_peers s) k) as [row|] eqn:Er; [|discriminate]. injection Ek' as Lr. exists row.
  pose proof Mb as (R0 & Nm0 & W0). assert (Lr' : Z.of_nat (length row) = svc_count sv) by lia.
  assert (X : exists ms, channel_members sv eps row ch = POk ms); [|destruct X as (ms & X); exists ms; auto].
  unfold channel_members. destruct (selected_total sv row (ch_selected ch) Lr' Q1) as (a & Ea). rewrite Ea. cbn [pbind].
  assert (Y : exists b, match ch_constraints ch with Some cl => constraint_members sv cl eps row (zseq (svc_count sv)) | None => POk [] end = POk b).
  { destruct (ch_constraints ch) as [cl|] eqn:Ec; [|eauto]. apply constraint_total; [exact (Q2 cl eq_refl)|exact Lr'|]. intros i Ii. apply zseq_In in Ii. split; [lia|].
    destruct (instance_name_total _ _ _ _ _ _ H k sv i Ek ltac:(lia)) as (n & Nm & Lo). pose proof (Co n k (Z.to_nat i) sv Lo Ek I2) as Ie.
    apply in_map_iff in Ie as ([m ep] & Em & Ie). cbn [fst] in Em. subst m. exists n, ep. split; [exact Nm|]. apply (map_find_iff n ep _ (eo_keys _ _ (si_eps _ _ _ _ _ _ H))). exact Ie. }
  destruct Y as (b & Eb). rewrite Eb. cbn [pbind]. destruct (sorted_unique (a ++ b)) as [|x l] eqn:Esu; [exfalso|eauto].
  destruct (nth_error row (Z.to_nat i0)) as [p0|] eqn:Ep; [|apply nth_error_None in Ep; lia]. assert (V : vec_at row i0 = Some p0) by (unfold vec_at; destruct (Z.ltb_spec i0 0); [lia|exact Ep]).
  assert (In (pe_pd p0) (sorted_unique (a ++ b))) as Bad; [|rewrite Esu in Bad; destruct Bad]. apply sorted_unique_In, in_or_app.
  destruct W0 as [W0|(cl & ep & Ec & Me & Sa)]; [left; apply (selected_spec _ _ _ _ Ea); eauto|right]. rewrite Ec in Eb. apply (constraint_spec _ _ _ _ _ _ Eb). exists i0, n0, ep, p0. split; [apply zseq_In; lia|auto].
Qed.

(** An RPC that names a channel goes to the channel of this name if no service
    before its server that the engine calls has channels. *)
Theorem C54_right_channel : forall st c me t r rs b l1 sv l2 m, initialize_tables st c me = TOk t ->
  NoDup (map svc_name (cf_services c)) -> NoDup (map rp_name (cf_rpcs c)) ->
  nth_error (cf_rpcs c) r = Some rs -> nth_error (tb_clients t) r = Some b -> In me (rp_clients rs) -> rp_channel rs = Some m ->
  cf_services c = l1 ++ sv :: l2 -> svc_name sv = rp_server rs ->
  (forall s, In s l1 -> In (svc_name s) (tb_dependent t) -> sv_channels s = []) ->
  exists ch, 0 <= de_channel (cr_def b) /\ nth_error (channel_list (tb_dependent t) (cf_services c)) (Z.to_nat (de_channel (cr_def b))) = Some (sv, ch) /\ ch_name ch = m.
Proof.
  intros st c me t r rs b l1 sv l2 m H Ds Dr Er Eb Ime Ech Es En Hn. pose proof (C52_rpcs st c me t H Ds Dr) as F. pose proof (proj2 (C52_dependent st c me t H)) as Dp.
  destruct (Forall2_left _ _ _ F r rs Er) as ([a b'] & Eab & _ & _ & _ & _ & _ & _ & _ & (s & (P0 & Es') & Sn & Sd & _) & Chn & _).
  assert (b' = b). { clear - Eab Eb. revert r Eab Eb. generalize (tb_servers t) as x, (tb_clients t) as y. induction x as [|x0 x IH]; intros [|y0 y] [|r] E1 E2; cbn in *; try discriminate; [congruence|]. eapply IH; eauto. }
  subst b'. rewrite Ech in Chn. destruct Chn as ((Ch0 & Chn) & _).
  assert (s = sv) as Esv. { apply (service_fun c s sv Ds (nth_error_In _ _ Es')); [rewrite Es; apply in_elt|congruence]. }
  rewrite <- Sd, Esv in Chn. rewrite nth_error_map in Chn. destruct (nth_error (sv_channels sv) (Z.to_nat (de_channel (cr_def b)))) as [ch|] eqn:E; [|discriminate]. injection Chn as Chn.
  exists ch. split; [exact Ch0|]. split; [|exact Chn]. rewrite Es. apply channel_list_split; [|exact Hn|exact E]. rewrite En. apply Dp. left. exists rs. split; [eapply nth_error_In; eauto|auto].
Qed.

(** ** Two clients and three servers *)
Definition ex_ep (a : string) : endpoint := mkEp (s_ a) [].
(** The map is in the order of its keys. *)
Definition ex_eps : endpoints :=
  [(s_ "client/0/0/0", ex_ep "h1:1"); (s_ "client/1/0/0", ex_ep "h2:1"); (s_ "server/0/0/0", ex_ep "h1:2"); (s_ "server/1/0/0", ex_ep "h2:2"); (s_ "server/2/0/0", ex_ep "h2:3")].
Definition ex_answer (j : nat) (a : str) : option str := Some (a ++ s_ "0").
Definition ex_tables (me : string) : tables :=
  match initialize_tables no_st ex_config (s_ me) with TOk t => t | _ => mkTables [] [] [] [] [] [] end.
Definition ex_connect (me : string) (inst : Z) := connect_to_peers ex_answer (fun _ _ => true) (fun _ => true) ex_config (ex_tables me) (s_ me) inst ex_eps.
Definition scan_of (r : list driver_call * pres scan) := match snd r with POk s => Some s | _ => None end.
Example ex_sane : sane ex_config.
Proof.
  constructor.
  - assert (G : forall n k, 0 < k <= int32_max -> canonical (mkSpec n (Some k) None (Some k) (Some 1) (Some 1))).
    { intros n k R. constructor; cbn; [exists k; split; [reflexivity|lia]|intros y E; injection E as <-; lia|intros z E; injection E as <-; split; [lia|discriminate]|f_equal; lia|lia]. }
    constructor; [apply G; vm_compute; auto; split; [reflexivity|discriminate]|]. constructor; [apply G; vm_compute; split; [reflexivity|discriminate]|constructor].
  - repeat constructor; cbn; intros H; repeat destruct H as [H|H]; try discriminate; exact H.
  - vm_compute. repeat constructor; cbn; intuition discriminate.
Qed.
Definition ex_service (k : nat) : service_desc := nth k ex_services (mkSvc (mkSpec [] None None None None None) []).
Lemma ex_located n k i : nth_error (cf_services ex_config) k = Some (ex_service k) -> (Z.of_nat i <? svc_count (ex_service k)) = true -> instance_name (sv_spec (ex_service k)) (Z.of_nat i) = Some n -> located ex_config n k i.
Proof. intros E L N. exists (ex_service k). apply Z.ltb_lt in L. auto. Qed.
Example ex_situation : situation ex_config (ex_tables "client") (s_ "client") 1 (s_ "client/1/0/0") ex_eps.
Proof.
  constructor.
  - exact ex_sane.
  - apply (si_types_of no_st ex_config (s_ "client")). vm_compute. reflexivity.
  - exists 0%nat, 1%nat, (ex_service 0). split; [apply ex_located; vm_compute; reflexivity|]. repeat split; reflexivity.
  - constructor; [vm_compute; repeat constructor; cbn; intuition discriminate|]. intros n J. cbn [map fst ex_eps] in J.
    destruct J as [<-|[<-|[<-|[<-|[<-|[]]]]]]; [exists 0%nat, 0%nat|exists 0%nat, 1%nat|exists 1%nat, 0%nat|exists 1%nat, 1%nat|exists 1%nat, 2%nat]; apply ex_located; vm_compute; reflexivity.
  - discriminate.
  - intros n k i s ep _ _ _ J. cbn [ex_eps In] in J. destruct J as [J|[J|[J|[J|[J|[]]]]]]; apply (f_equal snd) in J; cbn [snd] in J; subst ep; discriminate.
Qed.
(** The servers get the ids 0 to 2; the calls go to the addresses the servers
    answered; the channel "two" goes to the first two. *)
Example C53_ex : option_map (fun s => (sc_trace s, sc_targets s, map (map (fun p => (pe_trace p, pe_pd p))) (sc_peers s))) (scan_of (ex_connect "client" 1)) =
    Some (1, 3, [[(Some 0, -1); (Some 1, -1)]; [(Some 2, 0); (Some 3, 1); (Some 4, 2)]]) /\
  option_map (fun g => (map (rpc_target g) [0; 1; 2; 3], map (channel_target g) [0; 1; 2])) (drive (fun x => x) (mkStubs [] [] []) (fst (ex_connect "client" 1))) =
    Some ([Some (s_ "ipv4:h1:20"); Some (s_ "ipv4:h2:20"); Some (s_ "ipv4:h2:30"); None], [Some (s_ "ipv4:h1:20,h2:20"); Some (s_ "ipv4:h2:30"); None]) /\
  complete ex_config (tb_dependent (ex_tables "client")) ex_eps.
Proof.
  split; [vm_compute; reflexivity|]. split; [vm_compute; reflexivity|].
  intros n k i s (s' & E & L & Nm) E' _. assert (s' = s) by congruence. subst s'.
  destruct k as [|[|k]]; [| |destruct k; discriminate]; cbn in E; injection E as <-; cbn in L.
  - destruct i as [|[|i]]; [| |lia]; vm_compute in Nm; injection Nm as <-; vm_compute; auto.
  - destruct i as [|[|[|i]]]; [| | |lia]; vm_compute in Nm; injection Nm as <-; vm_compute; auto 6.
Qed.

(** ** What goes wrong *)
Definition one (n : string) (chans : list channel_desc) : service_desc := mkSvc (mkSpec (s_ n) (Some 1) None (Some 1) None None) chans.
Definition rpc_to (n server : string) (chan : option str) : rpc_desc := mkRpcD (s_ n) [s_ "client"] (s_ server) None None None None chan.
Definition conf (servers : list service_desc) (rpcs : list rpc_desc) : config :=
  mkConf (one "client" [] :: servers) [] rpcs [] [] (map (fun r => mkListD (rp_name r) []) rpcs) [] [] [] [].
Definition tables_of (c : config) : tables := match initialize_tables no_st c (s_ "client") with TOk t => t | _ => mkTables [] [] [] [] [] [] end.
Definition connect (c : config) (eps : endpoints) := connect_to_peers ex_answer (fun _ _ => true) (fun _ => true) c (tables_of c) (s_ "client") 0 eps.
Definition accepted (c : config) : Prop := validate_traffic_config no_st c = TOk tt /\ initialize_tables no_st c (s_ "client") = TOk (tables_of c).

(** An RPC that names the channel of its server is sent to the server of another
    service: the index of the channel is that among the channels of the service,
    the driver numbers the channels of all services the client calls. *)
Theorem C54_index_refuted : exists c eps b g, accepted c /\ nth_error (tb_clients (tables_of c)) 1 = Some b /\
  rp_server (de_spec (cr_def b)) = s_ "b" /\ rp_channel (de_spec (cr_def b)) = Some (s_ "wanted") /\ de_channel (cr_def b) = 0 /\
  (exists s, snd (connect c eps) = POk s) /\ drive (fun x => x) (mkStubs [] [] []) (fst (connect c eps)) = Some g /\
  map_find (s_ "b/0") eps = Some (ex_ep "bb:2") /\
  channel_target g (de_channel (cr_def b)) = Some (s_ "ipv4:aa:10") /\ channel_target g 1 = Some (s_ "ipv4:bb:20").
Proof.
  pose (c := conf [one "a" [mkChan (s_ "other") [] [0] None]; one "b" [mkChan (s_ "wanted") [] [0] None]] [rpc_to "ra" "a" None; rpc_to "rb" "b" (Some (s_ "wanted"))]).
  pose (eps := [(s_ "a/0", ex_ep "aa:1"); (s_ "b/0", ex_ep "bb:2"); (s_ "client/0", ex_ep "cc:3")]).
  destruct (nth_error (tb_clients (tables_of c)) 1) as [b|] eqn:Eb; [|vm_compute in Eb; discriminate].
  destruct (drive (fun x => x) (mkStubs [] [] []) (fst (connect c eps))) as [g|] eqn:Eg; [|vm_compute in Eg; discriminate].
  destruct (snd (connect c eps)) as [s| |] eqn:Es; [|vm_compute in Es; discriminate|vm_compute in Es; discriminate].
  exists c, eps, b, g. split; [split; vm_compute; reflexivity|]. split; [exact Eb|]. vm_compute in Eb. injection Eb as <-.
  do 3 (split; [vm_compute; reflexivity|]). split; [exists s; exact Es|]. split; [exact Eg|]. vm_compute in Eg. injection Eg as <-. do 2 (split; [vm_compute; reflexivity|]). vm_compute. reflexivity.
Qed.
(** Selected instances are only checked once the engines connect: not while the
    configuration is validated, and negative ones not at all. *)
Theorem C54_selected_refuted : exists c1 c2 eps, accepted c1 /\ accepted c2 /\ snd (connect c1 eps) = PErr PSelected /\ snd (connect c2 eps) = PUndefined.
Proof.
  exists (conf [one "a" [mkChan (s_ "other") [] [1] None]] [rpc_to "ra" "a" None]), (conf [one "a" [mkChan (s_ "other") [] [-1] None]] [rpc_to "ra" "a" None]),
    [(s_ "a/0", ex_ep "aa:1"); (s_ "client/0", ex_ep "cc:3")].
  repeat split; vm_compute; reflexivity.
Qed.
(** A channel that nobody uses and nobody satisfies fails the test. *)
Theorem C54_unused_channel_refuted : exists c eps, accepted c /\ Forall (fun r => rp_channel r = None) (cf_rpcs c) /\ snd (connect c eps) = PErr PNoMembers.
Proof.
  exists (conf [one "a" [mkChan (s_ "other") [] [] None]] [rpc_to "ra" "a" None]), [(s_ "a/0", ex_ep "aa:1"); (s_ "client/0", ex_ep "cc:3")].
  split; [split; vm_compute; reflexivity|]. split; [repeat constructor|vm_compute; reflexivity].
Qed.
(** A selected instance without an endpoint has the id -1; the gRPC driver
    aborts. *)
Theorem C54_missing_member_refuted : exists c eps, accepted c /\ (exists s, snd (connect c eps) = POk s) /\
  In (CSetupChannel [] [-1] 0) (fst (connect c eps)) /\ drive (fun x => x) (mkStubs [] [] []) (fst (connect c eps)) = None.
Proof.
  pose (c := conf [one "a" [mkChan (s_ "other") [] [0] None]] [rpc_to "ra" "a" None]). pose (eps := [(s_ "client/0", ex_ep "cc:3")]).
  destruct (snd (connect c eps)) as [s| |] eqn:Es; [|vm_compute in Es; discriminate|vm_compute in Es; discriminate].
  exists c, eps. split; [split; vm_compute; reflexivity|]. split; [exists s; exact Es|]. split; vm_compute; auto.
Qed.
(** A peer without an address aborts the engine. *)
Theorem C53_empty_address_refuted : exists c eps, accepted c /\ sane c /\ endpoints_ok c eps /\ complete c (tb_dependent (tables_of c)) eps /\ snd (connect c eps) = PUndefined.
Proof.
  pose (c := conf [one "a" []] [rpc_to "ra" "a" None]). pose (eps := [(s_ "a/0", ex_ep ""); (s_ "client/0", ex_ep "cc:3")]).
  assert (Sn : sane c).
  { assert (G : forall n, canonical (mkSpec n (Some 1) None (Some 1) None None)).
    { intro n. constructor; cbn; [exists 1; split; [reflexivity|lia]|discriminate|discriminate|reflexivity|vm_compute; discriminate]. }
    constructor; [constructor; [apply G|constructor; [apply G|constructor]]| |vm_compute; repeat constructor; cbn; intuition discriminate].
    repeat constructor; cbn; intros H; repeat destruct H as [H|H]; try discriminate; exact H. }
  assert (Lo : forall n k i, located c n k i <-> (n = s_ "client/0" /\ k = 0%nat /\ i = 0%nat) \/ (n = s_ "a/0" /\ k = 1%nat /\ i = 0%nat)).
  { intros n k i. split.
    - intros (s & E & L & Nm). destruct k as [|[|k]]; [| |destruct k; discriminate]; cbn in E; injection E as <-; cbn in L; destruct i; try lia; vm_compute in Nm; injection Nm as <-; auto.
    - intros [(-> & -> & ->)|(-> & -> & ->)]; [exists (one "client" [])|exists (one "a" [])]; (split; [reflexivity|]); (split; [reflexivity|vm_compute; reflexivity]). }
  exists c, eps. split; [split; vm_compute; reflexivity|]. split; [exact Sn|]. split; [|split; [|vm_compute; reflexivity]].
  - constructor; [vm_compute; repeat constructor; cbn; intuition discriminate|]. intros n J. cbn [map fst eps] in J. destruct J as [<-|[<-|[]]]; [exists 1%nat, 0%nat|exists 0%nat, 0%nat]; apply Lo; auto.
  - intros n k i s L _ _. apply Lo in L as [(-> & _)|(-> & _)]; vm_compute; auto.
Qed.
(** Endpoints that belong to no instance of the configuration, and services with
    a slash in their name, abort the engine. *)
Theorem C53_names_refuted : exists c1 eps1 c2 eps2, accepted c1 /\ accepted c2 /\
  (In (s_ "b/0") (map fst eps1) /\ ~ In (s_ "b/0") (names c1) /\ snd (connect c1 eps1) = PUndefined) /\
  (map fst eps2 = names c2 /\ map svc_name (cf_services c2) = [s_ "client"; s_ "a/b"] /\ snd (connect c2 eps2) = PUndefined).
Proof.
  exists (conf [one "a" []] [rpc_to "ra" "a" None]), [(s_ "a/0", ex_ep "aa:1"); (s_ "b/0", ex_ep "bb:1"); (s_ "client/0", ex_ep "cc:3")],
    (conf [one "a/b" []] [rpc_to "ra" "a/b" None]), [(s_ "client/0", ex_ep "cc:3"); (s_ "a/b/0", ex_ep "aa:1")].
  split; [split; vm_compute; reflexivity|]. split; [split; vm_compute; reflexivity|].
  split; [split; [vm_compute; auto|split; [vm_compute; intros [H|[H|[]]]; discriminate|vm_compute; reflexivity]]|].
  repeat split; vm_compute; reflexivity.
Qed.
Print Assumptions C53_peers.
Print Assumptions C53_bijection.
Print Assumptions C53_connected.
Print Assumptions C53_agree.
Print Assumptions C53_total.
Print Assumptions C54_members.
Print Assumptions C54_addresses.
Print Assumptions C54_accepted.
Print Assumptions C54_right_channel.
Print Assumptions C54_index_refuted.
Print Assumptions C54_selected_refuted.
Print Assumptions C54_unused_channel_refuted.
Print Assumptions C54_missing_member_refuted.
Print Assumptions C53_empty_address_refuted.
Print Assumptions C53_names_refuted.
