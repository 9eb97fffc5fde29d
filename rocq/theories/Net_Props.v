(** C43: which address of the machine is used. *)
From Coq Require Import Ascii String List NArith ZArith Bool Lia.
From Verif Require Import Base_Model Base_Proofs Net_Model Net_Proofs.
Import ListNotations.
Open Scope Z_scope.

(** [on_machine tbl a]: some IPv4/IPv6 interface entry carries exactly the
    address, device and family of [a].  An address the code regards as link
    local is never usable. *)
Definition usable (tbl : list if_entry) (a : addr) : Prop := on_machine tbl a /\ is_link_local a = false.

(** A named device: an address of that device, of the preferred family if the
    device has a usable one of that family. *)
Theorem C43_named : forall tbl dev p a, dev <> [] -> best_address tbl dev p = Some a ->
  usable tbl a /\ ad_dev a = dev /\
  (ad_v4 a = p \/ forall b, usable tbl b -> ad_dev b = dev -> ad_v4 b <> p).
Proof.
  intros tbl dev p a N H. unfold best_address in H. destruct dev as [|c dev]; [congruence|]. cbn [is_empty negb] in H.
  set (l := all_addresses tbl (c :: dev)) in H.
  destruct (find (fun x => negb (is_link_local x) && eqb (ad_v4 x) p) l) as [x|] eqn:F.
  - injection H as ->. apply find_some in F. destruct F as [I F]. apply andb_prop in F. destruct F as [F1 F2].
    apply all_addresses_spec in I. destruct I as [M [D|D]]; [discriminate|].
    split; [split; [exact M|destruct (is_link_local a); [discriminate|reflexivity]]|].
    split; [exact D|]. left. apply eqb_prop, F2.
  - pose proof (find_none _ _ F) as G. apply find_some in H. destruct H as [I H].
    apply all_addresses_spec in I. destruct I as [M [D|D]]; [discriminate|].
    split; [split; [exact M|destruct (is_link_local a); [discriminate|reflexivity]]|].
    split; [exact D|]. right. intros b (Mb & Lb) Db E.
    assert (I : In b l) by (apply all_addresses_spec; auto). specialize (G b I). cbn beta in G.
    rewrite Lb, E, eqb_reflx in G. discriminate.
Qed.
(** It is found whenever the device has any usable address. *)
Theorem C43_named_found : forall tbl dev p, dev <> [] ->
  (best_address tbl dev p = None <-> forall b, ad_dev b = dev -> ~ usable tbl b).
Proof.
  intros tbl dev p N. unfold best_address. destruct dev as [|c dev]; [congruence|]. cbn [is_empty negb].
  set (l := all_addresses tbl (c :: dev)). split.
  - intros H b D (M & L). destruct (find _ l) eqn:F in H; [discriminate|].
    assert (I : In b l) by (apply all_addresses_spec; auto).
    pose proof (find_none _ _ H _ I) as G. cbn beta in G. rewrite L in G. discriminate.
  - intro H. destruct (find (fun x => negb (is_link_local x) && eqb (ad_v4 x) p) l) as [x|] eqn:F.
    + apply find_some in F. destruct F as [I F]. apply all_addresses_spec in I. destruct I as [M [D|D]]; [discriminate|].
      exfalso. apply (H x D). split; [exact M|]. destruct (is_link_local x); [discriminate|reflexivity].
    + destruct (find (fun x => negb (is_link_local x)) l) as [x|] eqn:F2; [|reflexivity].
      apply find_some in F2. destruct F2 as [I F2]. apply all_addresses_spec in I. destruct I as [M [D|D]]; [discriminate|].
      exfalso. apply (H x D). split; [exact M|]. destruct (is_link_local x); [discriminate|reflexivity].
Qed.
(** No device named: a usable address of maximal score, where the preferred
    family and a private range count one each and any device but lo two. *)
Definition points (p : bool) (a : addr) : Z :=
  (if eqb (ad_v4 a) p then 1 else 0) + (if is_private a then 1 else 0) + (if str_eqb (ad_dev a) (s_ "lo") then 0 else 2).
Lemma points_score p a : score p a = points p a.
Proof. unfold score, points, is_loopback. destruct (eqb _ _), (is_private a); reflexivity. Qed.
Theorem C43_any : forall tbl p a, best_address tbl [] p = Some a ->
  usable tbl a /\ forall b, usable tbl b -> points p b <= points p a.
Proof.
  intros tbl p a H. unfold best_address in H. cbn [is_empty negb] in H.
  destruct (best_any p (all_addresses tbl [])) as [(E & _)|(l1 & x & l2 & L & E & N & B1 & B2)]; [congruence|].
  rewrite E in H. injection H as ->.
  assert (I : In a (all_addresses tbl [])) by (rewrite L; apply in_or_app; right; left; reflexivity).
  apply all_addresses_spec in I. split; [split; [apply I|exact N]|].
  intros b (M & Lb). rewrite <- (points_score p a), <- (points_score p b).
  assert (J : In b (all_addresses tbl [])) by (apply all_addresses_spec; auto).
  rewrite L in J. apply in_app_or in J. destruct J as [J|[<-|J]]; [specialize (B1 b J Lb); lia|lia|apply B2; assumption].
Qed.
Theorem C43_any_found : forall tbl p,
  best_address tbl [] p = None <-> forall b, ~ usable tbl b.
Proof.
  intros tbl p. unfold best_address. cbn [is_empty negb].
  destruct (best_any p (all_addresses tbl [])) as [(E & F)|(l1 & x & l2 & L & E & N & _)]; rewrite E.
  - split; [|reflexivity]. intros _ b (M & Lb).
    assert (J : In b (all_addresses tbl [])) by (apply all_addresses_spec; auto). rewrite (F b J) in Lb. discriminate.
  - split; [discriminate|]. intro H. exfalso. apply (H x). split; [|exact N].
    assert (I : In x (all_addresses tbl [])) by (rewrite L; apply in_or_app; right; left; reflexivity).
    apply all_addresses_spec in I. apply I.
Qed.
(** Loopback addresses rank below all others except for one tie. *)
Theorem C43_loopback : forall tbl p a b, best_address tbl [] p = Some a -> ad_dev a = s_ "lo" ->
  usable tbl b -> ad_dev b <> s_ "lo" ->
  is_private a = true /\ ad_v4 a = p /\ is_private b = false /\ ad_v4 b <> p.
Proof.
  intros tbl p a b H A U B. destruct (C43_any tbl p a H) as (_ & M). specialize (M b U). unfold points in M.
  rewrite A, str_eqb_refl in M. destruct (str_eqb_spec (ad_dev b) (s_ "lo")); [congruence|].
  destruct (eqb (ad_v4 a) p) eqn:E1, (eqb (ad_v4 b) p) eqn:E2, (is_private a), (is_private b); try lia.
  split; [reflexivity|]. split; [apply eqb_prop, E1|]. split; [reflexivity|]. intro K. rewrite K, eqb_reflx in E2. discriminate.
Qed.
(** Finding: the tie exists, so loopback is not always the last resort (the
    comment in the code says it ranks below all others). *)
Definition lo_private : if_entry := mkIf AfInet (Some (s_ "10.0.0.1")) (s_ "lo").
Definition eth_v6 : if_entry := mkIf AfInet6 (Some (s_ "2001:db8::1")) (s_ "eth0").
Theorem C43_loopback_last_refuted : exists tbl p a b, best_address tbl [] p = Some a /\ ad_dev a = s_ "lo" /\
  usable tbl b /\ ad_dev b <> s_ "lo".
Proof.
  exists [lo_private; eth_v6], true, (mkAddr (s_ "10.0.0.1") (s_ "lo") true), (mkAddr (s_ "2001:db8::1") (s_ "eth0") false).
  split; [vm_compute; reflexivity|]. split; [reflexivity|]. split; [|discriminate].
  split; [|vm_compute; reflexivity]. exists eth_v6. cbn. auto.
Qed.
(** Finding: only 169.254.255.x counts as link local, the rest of 169.254/16
    can be chosen. *)
Theorem C43_ipv4_link_local_refuted : exists tbl p a, best_address tbl [] p = Some a /\
  starts_with (ad_ip a) (s_ "169.254.") = true.
Proof. exists [mkIf AfInet (Some (s_ "169.254.3.7")) (s_ "eth0")], true. eexists. vm_compute. split; reflexivity. Qed.

(** A requested IP version is respected ... *)
Theorem C43_version : forall tbl flag dev v a, ip_for_device tbl flag dev v = Some a ->
  usable tbl a /\ (dev = [] \/ ad_dev a = dev) /\ (v = 4 -> ad_v4 a = true) /\ (v = 6 -> ad_v4 a = false).
Proof.
  intros tbl flag dev v a H.
  assert (G : exists p, best_address tbl dev p = Some a /\ (v = 4 -> ad_v4 a = true) /\ (v = 6 -> ad_v4 a = false)).
  { unfold ip_for_device in H. destruct (Z.eqb_spec v 4) as [->|].
    - destruct (best_address tbl dev true) as [x|] eqn:E; [|discriminate]. destruct (ad_v4 x) eqn:V; [|discriminate].
      cbn [negb] in H. injection H as ->. exists true. repeat split; auto; discriminate.
    - destruct (Z.eqb_spec v 6) as [->|].
      + destruct (best_address tbl dev false) as [x|] eqn:E; [|discriminate]. destruct (ad_v4 x) eqn:V; [discriminate|].
        injection H as ->. exists false. repeat split; auto; discriminate.
      + exists flag. repeat split; [exact H|congruence|congruence]. }
  destruct G as (p & B & V4 & V6). destruct dev as [|c dev].
  - destruct (C43_any tbl p a B) as (U & _). auto.
  - destruct (C43_named tbl (c :: dev) p a) as (U & D & _); [discriminate|exact B|]. auto.
Qed.
(** ... and on a named device an address of that version is found if there is
    a usable one. *)
Theorem C43_version_found : forall tbl flag dev v b, dev <> [] -> v = 4 \/ v = 6 -> usable tbl b -> ad_dev b = dev ->
  ad_v4 b = (v =? 4) -> ip_for_device tbl flag dev v <> None.
Proof.
  intros tbl flag dev v b N V U D F.
  assert (G : exists x, best_address tbl dev (v =? 4) = Some x /\ ad_v4 x = (v =? 4)).
  { destruct (best_address tbl dev (v =? 4)) as [x|] eqn:E.
    - destruct (C43_named tbl dev (v =? 4) x N E) as (_ & _ & [K|K]); [exists x; auto|exfalso; apply (K b U D F)].
    - exfalso. exact (proj1 (C43_named_found tbl dev (v =? 4) N) E b D U). }
  destruct G as (x & E & K). unfold ip_for_device. destruct V as [->| ->]; cbn [Z.eqb Pos.eqb] in *; rewrite E, K; discriminate.
Qed.
(** Finding: without a device name the request for a version can fail although
    a usable address of that version exists. *)
Theorem C43_any_version_found_refuted : exists tbl flag b, usable tbl b /\ ad_v4 b = false /\ ip_for_device tbl flag [] 6 = None.
Proof.
  exists [mkIf AfInet (Some (s_ "10.0.0.1")) (s_ "eth0"); eth_v6], false, (mkAddr (s_ "2001:db8::1") (s_ "eth0") false).
  split; [|split; [reflexivity|vm_compute; reflexivity]]. split; [|vm_compute; reflexivity]. exists eth_v6. cbn. auto.
Qed.
(** Distinct address/port pairs give distinct socket strings (an IPv4 text
    does not start with a bracket). *)
Definition ip_text (a : addr) : Prop := forall r, ad_v4 a = true -> ad_ip a <> "["%char :: r.
Theorem C43_socket_unique : forall a b p q, ip_text a -> ip_text b -> socket_address a p = socket_address b q ->
  ad_ip a = ad_ip b /\ ad_v4 a = ad_v4 b /\ p = q.
Proof.
  intros a b p q Ta Tb E. unfold socket_address in E.
  assert (K : forall ip port, s_ "[" ++ ip ++ s_ "]:" ++ dec_of_Z port = (("["%char :: ip) ++ ["]"%char]) ++ colon :: dec_of_Z port).
  { intros ip port. cbn [s_ list_ascii_of_string app]. rewrite <- app_assoc. reflexivity. }
  rewrite !K in E.
  destruct (ad_v4 a) eqn:Va, (ad_v4 b) eqn:Vb; apply last_colon in E; try apply dec_no_colon; destruct E as [E1 E2]; apply dec_of_Z_inj in E2.
  - auto.
  - exfalso. eapply Ta; [exact Va|]. rewrite E1. reflexivity.
  - exfalso. eapply Tb; [exact Vb|]. rewrite <- E1. reflexivity.
  - apply app_last_inj in E1. injection E1 as E1. auto.
Qed.
(** The address a server binds to: for a named device with a usable address
    one of that device's; otherwise all devices, IPv6 unless --prefer_ipv4 is
    given or no usable IPv6 address exists. *)
Theorem C43_bind_named : forall tbl flag dev port, dev <> [] ->
  (exists a, usable tbl a /\ ad_dev a = dev /\ bind_address tbl flag dev port = socket_address a port) \/
  ((forall b, ad_dev b = dev -> ~ usable tbl b) /\ bind_address tbl flag dev port = s_ "0.0.0.0:" ++ dec_of_Z port).
Proof.
  intros tbl flag dev port N. unfold bind_address. destruct dev as [|c dev]; [congruence|]. cbn [is_empty].
  destruct (best_address tbl (c :: dev) flag) as [a|] eqn:E.
  - left. destruct (C43_named tbl (c :: dev) flag a N E) as (U & D & _). exists a. auto.
  - right. pose proof (proj1 (C43_named_found tbl (c :: dev) flag N) E) as G. split; [exact G|].
    replace (has_only_ipv4 tbl (c :: dev)) with true; [reflexivity|]. symmetry. apply forallb_forall.
    intros x I. apply all_addresses_spec in I. destruct I as [M [D|D]]; [discriminate|].
    destruct (is_link_local x) eqn:L; [destruct (ad_v4 x); reflexivity|]. exfalso. exact (G x D (conj M L)).
Qed.
Theorem C43_bind_any : forall tbl flag port,
  bind_address tbl flag [] port = s_ "[::]:" ++ dec_of_Z port /\ flag = false /\ (exists b, usable tbl b /\ ad_v4 b = false)
  \/ bind_address tbl flag [] port = s_ "0.0.0.0:" ++ dec_of_Z port /\ (flag = true \/ forall b, usable tbl b -> ad_v4 b = true).
Proof.
  intros tbl flag port. unfold bind_address. cbn [is_empty].
  destruct flag; [right; rewrite orb_true_r; auto|]. rewrite orb_false_r.
  destruct (has_only_ipv4 tbl []) eqn:E; unfold has_only_ipv4 in E.
  - right. split; [reflexivity|]. right. intros b (M & L). rewrite forallb_forall in E.
    assert (I : In b (all_addresses tbl [])) by (apply all_addresses_spec; auto).
    specialize (E b I). cbn beta in E. rewrite L in E. destruct (ad_v4 b); [reflexivity|discriminate].
  - left. split; [reflexivity|]. split; [reflexivity|].
    assert (X : exists b, In b (all_addresses tbl []) /\ negb (ad_v4 b) && negb (is_link_local b) = true).
    { clear -E. induction (all_addresses tbl []) as [|x l IH]; cbn [forallb] in E; [discriminate|].
      destruct (negb (ad_v4 x) && negb (is_link_local x)) eqn:K; [exists x; split; [left; reflexivity|exact K]|].
      cbn [negb andb] in E. destruct (IH E) as (b & I & J). exists b. split; [right; exact I|exact J]. }
    destruct X as (b & I & K). apply andb_prop in K. destruct K as [K1 K2]. exists b.
    apply all_addresses_spec in I. split; [split; [apply I|]|].
    + destruct (is_link_local b); [discriminate|reflexivity].
    + destruct (ad_v4 b); [discriminate|reflexivity].
Qed.
(** The endpoint a node manager advertises for a port. *)
Theorem C43_advertised : forall tbl flag dev port,
  match socket_for_device tbl flag dev port with
  | Some s => exists a, usable tbl a /\ (dev = [] \/ ad_dev a = dev) /\ s = socket_address a port
  | None => forall b, dev = [] \/ ad_dev b = dev -> ~ usable tbl b
  end.
Proof.
  intros tbl flag dev port. unfold socket_for_device.
  destruct (best_address tbl dev flag) as [a|] eqn:E.
  - exists a. destruct (C43_version tbl flag dev 0 a) as (U & D & _); [exact E|]. auto.
  - destruct dev as [|c dev].
    + pose proof (proj1 (C43_any_found tbl flag) E) as G. intros b _. apply G.
    + pose proof (proj1 (C43_named_found tbl (c :: dev) flag ltac:(discriminate)) E) as G.
      intros b [K|K]; [discriminate|apply G, K].
Qed.

Definition machine : list if_entry :=
  [mkIf AfInet (Some (s_ "127.0.0.1")) (s_ "lo"); mkIf AfNull None (s_ "tun0"); mkIf AfOther (Some (s_ "x")) (s_ "eth0");
   mkIf AfInet (Some (s_ "8.8.8.8")) (s_ "eth0"); mkIf AfInet6 (Some (s_ "fe80::1%eth0")) (s_ "eth0");
   mkIf AfInet6 (Some (s_ "2002:a00:1::5")) (s_ "eth1"); mkIf AfInet (Some (s_ "192.168.1.4")) (s_ "eth1");
   mkIf AfInet6 (Some (s_ "::1")) (s_ "lo")].
Example C43_ex_named : best_address machine (s_ "eth0") false = Some (mkAddr (s_ "8.8.8.8") (s_ "eth0") true). Proof. vm_compute. reflexivity. Qed.
Example C43_ex_v6 : best_address machine [] false = Some (mkAddr (s_ "2002:a00:1::5") (s_ "eth1") false). Proof. vm_compute. reflexivity. Qed.
Example C43_ex_v4 : best_address machine [] true = Some (mkAddr (s_ "192.168.1.4") (s_ "eth1") true). Proof. vm_compute. reflexivity. Qed.
Example C43_ex_6to4 : (is_private (mkAddr (s_ "2002:a00:1::5") [] false), is_private (mkAddr (s_ "2002:a00::5") [] false), is_private (mkAddr (s_ "2002:b00:1::5") [] false)) = (true, false, false).
Proof. vm_compute. reflexivity. Qed.
Example C43_ex_none : best_address machine (s_ "eth9") true = None. Proof. vm_compute. reflexivity. Qed.
Example C43_ex_none_any : best_address [mkIf AfInet6 (Some (s_ "fe80::1")) (s_ "eth0")] [] true = None. Proof. vm_compute. reflexivity. Qed.
Example C43_ex_loopback : best_address [lo_private; mkIf AfInet6 (Some (s_ "fc00::1")) (s_ "eth0")] [] true = Some (mkAddr (s_ "fc00::1") (s_ "eth0") false).
Proof. vm_compute. reflexivity. Qed.
Example C43_ex_version : ip_for_device machine false (s_ "eth1") 4 = Some (mkAddr (s_ "192.168.1.4") (s_ "eth1") true). Proof. vm_compute. reflexivity. Qed.
Example C43_ex_version_missing : ip_for_device machine false (s_ "eth0") 6 = None. Proof. vm_compute. reflexivity. Qed.
Example C43_ex_bind : (bind_address machine false (s_ "eth1") 80, bind_address machine false [] 80, bind_address machine false (s_ "x") 80)
  = (s_ "[2002:a00:1::5]:80", s_ "[::]:80", s_ "0.0.0.0:80").
Proof. vm_compute. reflexivity. Qed.
Example C43_ex_text : ip_text (mkAddr (s_ "8.8.8.8") (s_ "eth0") true). Proof. intros r _. discriminate. Qed.
Example C43_ex_socket : socket_for_device machine true (s_ "eth0") 5000 = Some (s_ "8.8.8.8:5000"). Proof. vm_compute. reflexivity. Qed.

Print Assumptions C43_named.
Print Assumptions C43_named_found.
Print Assumptions C43_any.
Print Assumptions C43_any_found.
Print Assumptions C43_loopback.
Print Assumptions C43_loopback_last_refuted.
Print Assumptions C43_ipv4_link_local_refuted.
Print Assumptions C43_version.
Print Assumptions C43_version_found.
Print Assumptions C43_any_version_found_refuted.
Print Assumptions C43_socket_unique.
Print Assumptions C43_bind_named.
Print Assumptions C43_bind_any.
Print Assumptions C43_advertised.
