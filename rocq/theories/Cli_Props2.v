(** Properties C71-C73: the arguments and the registration of a node manager,
    shutting the nodes down. *)
From Coq Require Import Ascii String List NArith ZArith Bool Arith Lia.
From Verif Require Import Base_Model Base_Proofs Grid_Model Place_Model Net_Model Net_Proofs Net_Props Seq_Model Seq_Proofs Cli_Model.
Import ListNotations.
Open Scope Z_scope.

(** ** C71: the arguments of node_manager *)
(** name=value, where the name ends at the first '='. *)
Definition assigns (arg : str) (a : attribute) : Prop := arg = at_name a ++ "="%char :: at_value a /\ ~ In "="%char (at_name a).
Lemma split_spec s k v : split_assignment s = Some (k, v) <-> s = k ++ "="%char :: v /\ ~ In "="%char k.
Proof.
  revert k v. induction s as [|a s IH]; intros k v; cbn [split_assignment].
  - split; [discriminate|]. intros (E & _). destruct k; discriminate.
  - destruct (Ascii.eqb_spec a "="%char) as [->|N].
    + split; [intros [= <- <-]; split; [reflexivity|intros []]|]. intros (E & Nk). destruct k as [|b k]; [injection E as <-; reflexivity|].
      injection E as E1 _. exfalso. apply Nk. left. congruence.
    + destruct (split_assignment s) as [[k' v']|] eqn:S; cbn [option_map fst snd].
      * destruct (proj1 (IH k' v') eq_refl) as (-> & Nk). split.
        -- intros [= <- <-]. split; [reflexivity|]. cbn [In]. intros [K|K]; [congruence|contradiction].
        -- intros (E & Nk2). destruct k as [|b k]; [injection E as E1 _; congruence|]. cbn [app] in E. injection E as <- E.
           assert (K : Some (k', v') = Some (k, v)) by (apply IH; split; [exact E|intro K; apply Nk2; right; exact K]). injection K as -> ->. reflexivity.
      * split; [discriminate|]. intros (E & Nk). destruct k as [|b k]; [injection E as E1 _; congruence|]. cbn [app] in E. injection E as <- E.
        assert (K : None = Some (k, v)) by (apply IH; split; [exact E|intro K; apply Nk; right; exact K]). discriminate.
Qed.
Lemma attribute_args_spec l : forall a, attribute_args l = Some a <-> Forall2 assigns l a.
Proof.
  induction l as [|s l IH]; intro a; cbn [attribute_args].
  - split; [intros [= <-]; constructor|intro H; inversion H; reflexivity].
  - destruct (split_assignment s) as [[k v]|] eqn:S.
    + destruct (attribute_args l) as [r|] eqn:R.
      * split.
        -- intros [= <-]. constructor; [apply split_spec, S|]. apply IH. reflexivity.
        -- intro H. inversion H as [|? x ? r' A F]; subst. destruct x as [k' v']. apply IH in F. injection F as ->.
           assert (K : split_assignment s = Some (k', v')) by (apply split_spec; exact A). rewrite S in K. injection K as -> ->. reflexivity.
      * split; [discriminate|]. intro H. inversion H as [|? ? ? r' _ F]; subst. apply IH in F. discriminate.
    + split; [discriminate|]. intro H. inversion H as [|? x ? r' A F]; subst. destruct x as [k v].
      assert (K : split_assignment s = Some (k, v)) by (apply split_spec; exact A). congruence.
Qed.
Lemma atoi32_dec n : in_int32 n = true -> simple_atoi32 (dec_of_Z n) = Some n.
Proof. intro H. unfold simple_atoi32. rewrite <- (app_nil_r (dec_of_Z n)), scan_d_dec by exact Logic.I. cbn [all_space forallb]. rewrite H. reflexivity. Qed.
Lemma atoi32_range s n : simple_atoi32 s = Some n -> -2147483648 <= n <= int32_max.
Proof.
  unfold simple_atoi32. destruct (scan_d s) as [| |z rest]; try discriminate. destruct (all_space rest && in_int32 z) eqn:E; [|discriminate]. intros [= <-].
  apply andb_prop in E as (_ & E). unfold in_int32 in E. apply andb_prop in E as (E1 & E2). apply Z.leb_le in E1, E2. lia.
Qed.

(** Exactly what is accepted: an optional first argument node<N>, where N is
    written in decimal without sign or leading zeros and fits in an int, which
    asks for the id N and becomes the attribute node_alias; then name=value. *)
Theorem C71_arguments : forall args id attrs, node_args args = Some (id, attrs) <->
  (exists rest l, args = node_alias id :: rest /\ 0 <= id <= int32_max /\ attrs = mkAttr (s_ "node_alias") (node_alias id) :: l /\ Forall2 assigns rest l) \/
  (id = -1 /\ Forall2 assigns args attrs /\ forall a r, args = a :: r -> starts_with a (s_ "node") = false).
Proof.
  intros args id attrs. unfold node_args. destruct args as [|a r].
  - split.
    + intros [= <- <-]. right. split; [reflexivity|]. split; [constructor|discriminate].
    + intros [(rest & l & E & _)|(-> & F & _)]; [discriminate|]. inversion F; reflexivity.
  - destruct (starts_with a (s_ "node")) eqn:St.
    + assert (Pre : exists rest, a = s_ "node" ++ rest) by (apply starts_with_spec; exact St). destruct Pre as (d & ->).
      change (skipn 4 (s_ "node" ++ d)) with d. split.
      * intro H. left. destruct (simple_atoi32 d) as [n|] eqn:At; [|discriminate]. pose proof (atoi32_range _ _ At) as Rg.
        destruct (str_eqb_spec (s_ "node" ++ dec_of_Z n) (s_ "node" ++ d)) as [Eq|]; [|discriminate]. destruct (Z.ltb_spec n 0); [discriminate|]. cbn [negb orb] in H.
        destruct (attribute_args r) as [l|] eqn:Ar; [|discriminate]. injection H as <- <-. exists r, l. unfold node_alias. rewrite Eq.
        split; [reflexivity|]. split; [lia|]. split; [reflexivity|]. apply attribute_args_spec, Ar.
      * intros [(rest & l & E & Rg & -> & F)|(_ & _ & K)].
        -- unfold node_alias in E. injection E as E <-. subst d. rewrite atoi32_dec.
           2:{ unfold in_int32. destruct (Z.leb_spec (-2147483648) id); [|lia]. destruct (Z.leb_spec id int32_max); [reflexivity|lia]. }
           rewrite str_eqb_refl. destruct (Z.ltb_spec id 0); [lia|]. cbn [negb orb]. apply attribute_args_spec in F. rewrite F. reflexivity.
        -- specialize (K _ _ eq_refl). congruence.
    + split.
      * intro H. right. destruct (attribute_args (a :: r)) as [l|] eqn:Ar; [|discriminate]. injection H as <- <-. split; [reflexivity|].
        split; [apply attribute_args_spec, Ar|]. intros a' r' [= <- _]. exact St.
      * intros [(rest & l & E & _)|(-> & F & _)].
        -- injection E as -> _. exfalso. assert (K : starts_with (node_alias id) (s_ "node") = true) by (apply starts_with_spec; exists (dec_of_Z id); reflexivity). congruence.
        -- apply attribute_args_spec in F. rewrite F. reflexivity.
Qed.
Print Assumptions C71_arguments.
(** A node started as node<N> and not yet known to the sequencer is registered
    under exactly that name. *)
Theorem C71_alias : forall args id attrs r ok rq id' alias r', node_args args = Some (id, attrs) -> 0 <= id ->
  reachable_registry r -> rq_preassigned rq = id -> rq_attrs rq = attrs -> map_find (rq_text rq) (rg_ids r) = None ->
  register_node ok rq r = (RegOk id' alias, r') ->
  id' = id /\ nth_error args 0 = Some alias /\ In (mkAttr (s_ "node_alias") alias) attrs /\ map_find alias (map (fun a => (at_value a, tt)) attrs) <> None.
Proof.
  intros args id attrs r ok rq id' alias r' H Hid R E1 E2 F G. destruct (register_granted _ _ _ _ _ _ R G) as (_ & Ea & Ei & _).
  specialize (Ei F ltac:(lia)). rewrite E1 in Ei. subst id'. apply C71_arguments in H as [(rest & l & -> & _ & -> & _)|(-> & _)]; [|lia].
  rewrite Ea. split; [reflexivity|]. split; [reflexivity|]. split; [left; reflexivity|]. cbn [map at_value map_find]. rewrite str_eqb_refl. discriminate.
Qed.
Print Assumptions C71_alias.
Example C71_ex : node_args [s_ "node12"; s_ "rack=3"; s_ "note=a=b"] =
    Some (12, [mkAttr (s_ "node_alias") (s_ "node12"); mkAttr (s_ "rack") (s_ "3"); mkAttr (s_ "note") (s_ "a=b")]) /\
  node_args [s_ "rack=3"] = Some (-1, [mkAttr (s_ "rack") (s_ "3")]) /\ node_args [s_ "node012"] = None /\ node_args [s_ "node-1"] = None /\
  node_args [s_ "rack"] = None /\ node_args [s_ "node2147483648"] = None.
Proof. vm_compute. repeat split. Qed.
(** Finding: an attribute whose name begins with "node" is rejected when it comes
    first, though not elsewhere. *)
Theorem C71_order_refuted : exists a b, node_args [a; b] <> None /\ node_args [b; a] = None /\ exists x, assigns b x.
Proof.
  exists (s_ "rack=3"), (s_ "nodes=4"). split; [discriminate|]. split; [vm_compute; reflexivity|]. exists (mkAttr (s_ "nodes") (s_ "4")).
  split; [reflexivity|]. cbn. intros K. repeat destruct K as [K|K]; try discriminate; destruct K.
Qed.
(** Finding: the empty name is accepted, and so are repeated names. *)
Theorem C71_names_refuted : exists args id attrs, node_args args = Some (id, attrs) /\ In [] (map at_name attrs) /\ ~ NoDup (map at_name attrs).
Proof.
  exists [s_ "=3"; s_ "=4"]. do 2 eexists. split; [vm_compute; reflexivity|]. split; [left; reflexivity|]. intro N. inversion N as [|? ? K _]. apply K. left. reflexivity.
Qed.
Print Assumptions C71_order_refuted. Print Assumptions C71_names_refuted.

(** ** C72: the registration *)
(** Not a wildcard, and an IPv4 address is not written in brackets. *)
Definition plain (a : addr) (port : Z) : Prop :=
  starts_with (socket_address a port) (s_ "[::]") = false /\ starts_with (socket_address a port) (s_ "0.0.0.0") = false /\
  (ad_v4 a = true -> starts_with (ad_ip a) (s_ "[") = false /\ ad_ip a <> []).
Lemma wildcard_start tbl flag dev port : dev = [] \/ best_address tbl dev flag = None ->
  starts_with (bind_address tbl flag dev port) (s_ "[::]") || starts_with (bind_address tbl flag dev port) (s_ "0.0.0.0") = true.
Proof.
  intro H. assert (E : exists s, bind_address tbl flag dev port = s_ "0.0.0.0:" ++ s \/ bind_address tbl flag dev port = s_ "[::]:" ++ s).
  { unfold bind_address. exists (dec_of_Z port). destruct H as [->|H].
    - cbn [is_empty]. destruct (has_only_ipv4 tbl [] || flag); auto.
    - destruct (is_empty dev); [|rewrite H]; destruct (has_only_ipv4 tbl dev || flag); auto. }
  destruct E as (s & [->| ->]).
  - assert (K : starts_with (s_ "0.0.0.0:" ++ s) (s_ "0.0.0.0") = true) by (apply starts_with_spec; exists (":"%char :: s); reflexivity). rewrite K. apply orb_true_r.
  - assert (K : starts_with (s_ "[::]:" ++ s) (s_ "[::]") = true) by (apply starts_with_spec; exists (":"%char :: s); reflexivity). rewrite K. reflexivity.
Qed.
Lemma device_bind tbl flag dev port a : dev <> [] -> best_address tbl dev flag = Some a -> bind_address tbl flag dev port = socket_address a port.
Proof. intros N E. unfold bind_address. destruct dev; [congruence|]. cbn [is_empty]. rewrite E. reflexivity. Qed.

Lemma bracket c r : starts_with (c :: r) (s_ "[") = Ascii.eqb "[" c.
Proof. change (starts_with (c :: r) (s_ "[")) with (Ascii.eqb "[" c && starts_with r []). destruct r; apply andb_true_r. Qed.

(** --service_address wins. *)
Theorem C72_given : forall tbl flag host dev given port, given <> [] -> snd (service_address tbl flag host dev given port) = given.
Proof. intros tbl flag host dev given port N. unfold service_address. cbn [snd]. destruct given; [congruence|reflexivity]. Qed.
(** Without a device, or when the device has no usable address, the node is
    reached by its host name and no control_ip is sent. *)
Theorem C72_by_name : forall tbl flag host dev port, dev = [] \/ (forall b, ad_dev b = dev -> ~ usable tbl b) ->
  service_address tbl flag host dev [] port = (None, s_ "dns:///" ++ host ++ s_ ":" ++ dec_of_Z port).
Proof.
  intros tbl flag host dev port H.
  assert (Q : dev = [] \/ best_address tbl dev flag = None).
  { destruct H as [H|H]; [auto|]. destruct dev as [|c dev]; [auto|]. right. apply C43_named_found; [discriminate|exact H]. }
  unfold service_address. rewrite (wildcard_start tbl flag dev port Q). reflexivity.
Qed.
(** With a device, it is reached at an address of that device, of the preferred
    IP version if there is one. *)
Theorem C72_by_device : forall tbl flag host dev port a, dev <> [] -> best_address tbl dev flag = Some a -> plain a port ->
  usable tbl a /\ ad_dev a = dev /\ (ad_v4 a = flag \/ forall b, usable tbl b -> ad_dev b = dev -> ad_v4 b <> flag) /\
  snd (service_address tbl flag host dev [] port) =
    if ad_v4 a then s_ "ipv4:///" ++ ad_ip a ++ s_ ":" ++ dec_of_Z port else s_ "ipv6:///[" ++ ad_ip a ++ s_ "]:" ++ dec_of_Z port.
Proof.
  intros tbl flag host dev port a N E (P1 & P2 & P3). destruct (C43_named tbl dev flag a N E) as (U & D & V). split; [exact U|]. split; [exact D|]. split; [exact V|].
  unfold service_address. cbn [snd]. rewrite (device_bind tbl flag dev port a N E), P1, P2, E. cbn [orb option_map].
  unfold socket_address. destruct (ad_v4 a) eqn:V4.
  - destruct (P3 eq_refl) as (P4 & P5). destruct (ad_ip a) as [|c ip]; [congruence|]. cbn [app]. rewrite bracket in P4 |- *. rewrite P4. reflexivity.
  - change (s_ "[" ++ ad_ip a ++ s_ "]:" ++ dec_of_Z port) with ("["%char :: ad_ip a ++ s_ "]:" ++ dec_of_Z port). rewrite bracket. reflexivity.
Qed.
(** The registration says what the node was started with; nothing is sent
    without --test_sequencer or a server, and the value() of the address is only
    taken when there is one. *)
Theorem C72_registration : forall tbl flag host sequencer dev given port started id attrs,
  match node_initialize tbl flag host sequencer dev given port started id attrs with
  | InitSent r => sequencer <> [] /\ started = true /\ rn_id r = id /\ rn_host r = host /\ rn_port r = port /\ rn_attributes r = attrs /\
                  rn_address r = snd (service_address tbl flag host dev given port)
  | InitNoSequencer => sequencer = []
  | InitNoServer => started = false
  | InitUndefined => False
  end.
Proof.
  intros. unfold node_initialize. destruct sequencer as [|c sq]; [reflexivity|].
  match goal with |- context [if ?b then InitUndefined else _] => destruct b eqn:B end.
  - apply andb_prop in B as (B1 & B2). destruct (best_address tbl dev flag) eqn:E; [discriminate|]. rewrite wildcard_start in B1 by auto. discriminate.
  - destruct started; cbn [negb]; [|reflexivity]. destruct (service_address tbl flag host dev given port) as [ip address].
    cbn [rn_id rn_host rn_port rn_attributes rn_address snd]. repeat split. discriminate.
Qed.
(** A node whose server got a port is accepted by a sequencer that does not
    know it yet (the id is free and below INT_MAX, the stub can be made). *)
Theorem C72_accepted : forall tbl flag host sequencer dev given port started id attrs m text r,
  node_initialize tbl flag host sequencer dev given port started id attrs = InitSent m ->
  host <> [] -> 0 < port <= 65535 -> id < int32_max -> reachable_registry r -> nb_slots r < int32_max ->
  map_find text (rg_ids r) = None -> ~ occupied r id ->
  exists n r', register_node true (mkReg text (rn_host m) (rn_port m) (rn_id m) (rn_attributes m)) r = (RegOk n (node_alias n), r') /\ (0 <= id -> n = id).
Proof.
  intros tbl flag host sequencer dev given port started id attrs m text r H Nh Hp Hid R Ns F No.
  pose proof (C72_registration tbl flag host sequencer dev given port started id attrs) as Q. rewrite H in Q. destruct Q as (_ & _ & Q1 & Q2 & Q3 & Q4 & _).
  set (rq := mkReg _ _ _ _ _). destruct (register_node true rq r) as [res r'] eqn:G. destruct res as [| | |n al].
  - destruct (register_undefined _ _ _ _ R G) as [K|(_ & K)]; cbn [rq rq_preassigned] in K; lia.
  - destruct (register_refused _ _ _ _ R G) as [K|(_ & _ & K)].
    + exfalso. apply K. unfold request_valid. cbn [rq rq_host rq_port]. rewrite Q2, Q3. auto.
    + exfalso. apply No. cbn [rq rq_preassigned] in K. rewrite Q1 in K. exact K.
  - exfalso. pose proof (register_step _ _ _ _ _ (reachable_inv r R) G) as S. inversion S.
  - destruct (register_granted _ _ _ _ _ _ R G) as (_ & -> & Ei & _). exists n, r'. split; [reflexivity|]. intro L.
    rewrite (Ei F); cbn [rq rq_preassigned]; rewrite Q1; auto.
Qed.
Print Assumptions C72_given. Print Assumptions C72_by_name. Print Assumptions C72_by_device. Print Assumptions C72_registration. Print Assumptions C72_accepted.
Definition eth0 : list if_entry := [mkIf AfInet (Some (s_ "10.0.0.7")) (s_ "eth0"); mkIf AfInet6 (Some (s_ "2001:db8::7")) (s_ "eth0")].
Example C72_ex :
  node_initialize eth0 false (s_ "h7") (s_ "seq:80") (s_ "eth0") [] 1234 true 3 [] =
    InitSent (mkRegn 3 (s_ "h7") (Some (s_ "2001:db8::7 on eth0 (ipv6)")) 1234 (s_ "ipv6:///[2001:db8::7]:1234") []) /\
  node_initialize eth0 true (s_ "h7") (s_ "seq:80") (s_ "eth0") [] 1234 true 3 [] =
    InitSent (mkRegn 3 (s_ "h7") (Some (s_ "10.0.0.7 on eth0 (ipv4)")) 1234 (s_ "ipv4:///10.0.0.7:1234") []) /\
  node_initialize eth0 true (s_ "h7") (s_ "seq:80") [] [] 1234 true 3 [] = InitSent (mkRegn 3 (s_ "h7") None 1234 (s_ "dns:///h7:1234") []) /\
  plain (mkAddr (s_ "10.0.0.7") (s_ "eth0") true) 1234 /\ plain (mkAddr (s_ "2001:db8::7") (s_ "eth0") false) 1234 /\
  best_address eth0 (s_ "eth0") true = Some (mkAddr (s_ "10.0.0.7") (s_ "eth0") true) /\
  exists n r', register_node true (mkReg (s_ "text") (s_ "h7") 1234 3 []) empty_registry = (RegOk n (node_alias n), r') /\ n = 3.
Proof.
  split; [vm_compute; reflexivity|]. split; [vm_compute; reflexivity|]. split; [vm_compute; reflexivity|].
  split; [repeat split; try discriminate; vm_compute; reflexivity|]. split; [repeat split; try discriminate; vm_compute; reflexivity|].
  split; [vm_compute; reflexivity|]. exists 3. eexists. split; [vm_compute; reflexivity|reflexivity].
Qed.
(** Finding: control_ip is not an address but a description of it. *)
Theorem C72_control_ip_refuted : exists tbl flag host dev port ip, fst (service_address tbl flag host dev [] port) = Some ip /\ forall a, usable tbl a -> ad_ip a <> ip.
Proof.
  exists eth0, true, (s_ "h7"), (s_ "eth0"), 1234. eexists. split; [vm_compute; reflexivity|]. intros a ((e & I & M) & _).
  destruct M as (M & _). destruct I as [<-|[<-|[]]]; cbn [if_host] in M; injection M as <-; discriminate.
Qed.
Print Assumptions C72_control_ip_refuted.

(** ** C73: shutting the nodes down *)
Lemma targets_spec l : forall i, 0 <= i -> (forall n, In n l -> ns_pending n = false -> ns_stub n = true) ->
  exists ids, shutdown_targets i l = Some ids /\ NoDup ids /\
    forall j, In j ids <-> exists n, nth_error l (Z.to_nat (j - i)) = Some n /\ i <= j /\ ns_pending n = false.
Proof.
  induction l as [|n l IH]; intros i Hi S; cbn [shutdown_targets].
  - exists []. split; [reflexivity|]. split; [constructor|]. intro j. split; [intros []|]. intros (n & E & _). destruct (Z.to_nat (j - i)); discriminate.
  - destruct (IH (i + 1) ltac:(lia) (fun n I => S n (or_intror I))) as (ids & E & D & Q).
    assert (Step : forall j, i + 1 <= j -> nth_error (n :: l) (Z.to_nat (j - i)) = nth_error l (Z.to_nat (j - (i + 1)))).
    { intros j L. replace (Z.to_nat (j - i)) with (Datatypes.S (Z.to_nat (j - (i + 1)))) by lia. reflexivity. }
    destruct (ns_pending n) eqn:P.
    + exists ids. split; [exact E|]. split; [exact D|]. intro j. rewrite Q. split; intros (m & E1 & L & Pm).
      * exists m. rewrite Step by lia. repeat split; auto; lia.
      * destruct (Z.eq_dec j i) as [->|Ne]; [rewrite Z.sub_diag in E1; cbn in E1; congruence|]. exists m. rewrite Step in E1 by lia. repeat split; auto; lia.
    + rewrite (S n (or_introl eq_refl) P), E. cbn [option_map]. exists (i :: ids). split; [reflexivity|]. split.
      * constructor; [|exact D]. rewrite Q. intros (m & _ & L & _). lia.
      * intro j. cbn [In]. rewrite Q. split.
        -- intros [<-|(m & E1 & L & Pm)]; [exists n; rewrite Z.sub_diag; repeat split; auto; lia|]. exists m. rewrite Step by lia. repeat split; auto; lia.
        -- intros (m & E1 & L & Pm). destruct (Z.eq_dec j i) as [->|Ne]; [auto|]. right. exists m. rewrite Step in E1 by lia. repeat split; auto; lia.
Qed.
(** Shutdown tells every registered node once, and no one else. *)
Theorem C73_every_node_once : forall l out r, all_stubs l -> register_all l empty_registry = (out, r) ->
  exists ids, shutdown_targets 0 (rg_nodes r) = Some ids /\ NoDup ids /\ forall id, In id ids <-> occupied r id.
Proof.
  intros l out r A E. assert (S : stubs_ok r) by (apply (history_stubs l A empty_registry out r empty_inv); [|exact E]; intros id' m K; apply slot_get_range in K; cbn in K; lia).
  destruct (targets_spec (rg_nodes r) 0 ltac:(lia)) as (ids & E1 & D & Q).
  - intros n I P. apply In_nth_error in I as (k & Ek). apply (S (Z.of_nat k) n); [|exact P]. unfold slot_get. destruct (Z.ltb_spec (Z.of_nat k) 0); [lia|].
    rewrite Nat2Z.id. exact Ek.
  - exists ids. split; [exact E1|]. split; [exact D|]. intro id. rewrite Q. unfold occupied, slot_get. rewrite Z.sub_0_r. split.
    + intros (n & En & L & P). exists n. destruct (Z.ltb_spec id 0); [lia|]. auto.
    + intros (n & En & P). destruct (Z.ltb_spec id 0); [discriminate|]. exists n. auto.
Qed.
(** Finding: Shutdown follows the null stub of a node whose registration failed
    (finding of C11: such a node is not pending). *)
Theorem C73_failed_stub_refuted : exists l out r, register_all l empty_registry = (out, r) /\ shutdown_targets 0 (rg_nodes r) = None.
Proof. exists [(false, mkReg (s_ "t") (s_ "h") 1 (-1) [])]. eexists. eexists. split; vm_compute; reflexivity. Qed.
(** Each answer, good or bad, makes its node inactive; the others stay as they
    were. *)
Theorem C73_inactive : forall answers active id, In id (shutdown_answers answers active) <-> In id active /\ ~ In id answers.
Proof.
  induction answers as [|a answers IH]; intros active id; cbn [shutdown_answers In]; [tauto|]. rewrite IH. unfold mark_inactive. rewrite filter_In.
  destruct (Z.eqb_spec id a); cbn [negb]; intuition congruence.
Qed.
Theorem C73_all_inactive : forall l out r ids active, all_stubs l -> register_all l empty_registry = (out, r) -> shutdown_targets 0 (rg_nodes r) = Some ids ->
  (forall id, In id active -> occupied r id) -> shutdown_answers ids active = [].
Proof.
  intros l out r ids active A E T O. destruct (C73_every_node_once l out r A E) as (ids' & T' & _ & Q). assert (ids' = ids) as -> by congruence.
  destruct (shutdown_answers ids active) as [|x rest] eqn:K; [reflexivity|]. assert (I : In x (shutdown_answers ids active)) by (rewrite K; left; reflexivity).
  apply C73_inactive in I as (I1 & I2). destruct I2. apply Q, O, I1.
Qed.
Print Assumptions C73_every_node_once. Print Assumptions C73_failed_stub_refuted. Print Assumptions C73_inactive. Print Assumptions C73_all_inactive.
(** Nodes 0, 2 and 3 are registered, node 1 is pending. *)
Example C73_ex : let l := [(true, mkReg (s_ "a") (s_ "h") 1 (-1) []); (true, mkReg (s_ "b") (s_ "h") 2 2 []); (true, mkReg (s_ "c") (s_ "h") 3 (-1) [])] in
  all_stubs l /\ option_map (fun ids => (ids, shutdown_answers [3; 0] [0; 2; 3])) (shutdown_targets 0 (rg_nodes (snd (register_all l empty_registry)))) = Some ([0; 2; 3], [2]).
Proof. split; [intros ok rq [K|[K|[K|[]]]]; congruence|vm_compute; reflexivity]. Qed.
