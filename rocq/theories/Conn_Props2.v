(** C77: what the error says when there is no address to listen on. *)
From Coq Require Import Ascii String List ZArith Bool Lia.
From Verif Require Import Base_Model Net_Model Net_Props Conn_Model.
Import ListNotations.
Open Scope Z_scope.

(** Some address that is not link local: of the device, or any if none is named. *)
Definition has_address (tbl : list if_entry) (dev : str) : Prop := exists b, usable tbl b /\ (dev = [] \/ ad_dev b = dev).
Lemma best_none : forall tbl dev p, best_address tbl dev p = None <-> ~ has_address tbl dev.
Proof.
  intros tbl dev p. unfold has_address. destruct dev as [|c dev].
  - rewrite C43_any_found. split; [intros K (b & U & _); exact (K b U)|intros K b U; apply K; eauto].
  - rewrite C43_named_found by discriminate. split; [intros K (b & U & [D|D]); [discriminate D|exact (K b D U)]|intros K b D U; apply K; eauto].
Qed.
Lemma best_some : forall tbl dev p a, best_address tbl dev p = Some a -> has_address tbl dev.
Proof.
  intros tbl dev p a H. unfold has_address. exists a. destruct dev as [|c dev]; [split; [apply (C43_any _ _ _ H)|left; reflexivity]|]. destruct (C43_named tbl (c :: dev) p a ltac:(discriminate) H) as (U & D & _). auto.
Qed.
(** It is NotFound; it asks for the IP version only if there is an address of
    another one, and otherwise says that there is none, for this device or for
    any. *)
Theorem C77_no_address : forall le dev v c m, get_ip le dev v = InitError c m -> c = 5 /\
  ((v = 4 /\ has_address (le_ifs le) dev /\ m = s_ "No IPv4 address found for netdev '" ++ dev ++ s_ "'") \/
   (v = 6 /\ has_address (le_ifs le) dev /\ m = s_ "No IPv6 address found for netdev '" ++ dev ++ s_ "'") \/
   (~ has_address (le_ifs le) dev /\ exists p, m = (match dev with [] => s_ "No address found for any netdev" | _ => s_ "No address found for netdev '" ++ dev ++ s_ "'" end) ++ s_ " (prefer_ipv4=" ++ (if p : bool then s_ "1)" else s_ "0)")
      /\ (v = 4 -> p = true) /\ (v = 6 -> p = false) /\ (v <> 4 -> v <> 6 -> p = le_flag le))).
Proof.
  intros le dev v c m H. unfold get_ip in H. destruct (ip_for_device (le_ifs le) (le_flag le) dev v) as [a|] eqn:I; [discriminate H|]. injection H as <- <-. split; [reflexivity|].
  assert (T : forall p, best_error dev p = (match dev with [] => s_ "No address found for any netdev" | _ => s_ "No address found for netdev '" ++ dev ++ s_ "'" end) ++ s_ " (prefer_ipv4=" ++ (if p : bool then s_ "1)" else s_ "0)")).
  { intros p. unfold best_error. destruct dev as [|x dev]; cbn [is_empty]; [destruct p; reflexivity|]. rewrite <- !app_assoc. destruct p; reflexivity. }
  unfold ip_error. unfold ip_for_device in I. destruct (Z.eqb_spec v 4) as [E4|N4]; [|destruct (Z.eqb_spec v 6) as [E6|N6]].
  - destruct (best_address (le_ifs le) dev true) as [a|] eqn:B; [left; split; [assumption|]; split; [exact (best_some _ _ _ _ B)|reflexivity]|].
    right. right. split; [exact (proj1 (best_none _ _ _) B)|]. exists true. split; [apply T|]. repeat split; intros; congruence.
  - destruct (best_address (le_ifs le) dev false) as [a|] eqn:B; [right; left; split; [assumption|]; split; [exact (best_some _ _ _ _ B)|reflexivity]|].
    right. right. split; [exact (proj1 (best_none _ _ _) B)|]. exists false. split; [apply T|]. repeat split; intros; congruence.
  - right. right. split; [exact (proj1 (best_none _ _ _) I)|]. exists (le_flag le). split; [apply T|]. repeat split; intros; congruence.
Qed.
(** ... and if the device is named there is then no address of the version. *)
Theorem C77_no_address_version : forall le dev v c m b, get_ip le dev v = InitError c m -> dev <> [] -> v = 4 \/ v = 6 -> usable (le_ifs le) b -> ad_dev b = dev -> ad_v4 b <> (v =? 4).
Proof.
  intros le dev v c m b H N V U D K. apply (C43_version_found (le_ifs le) (le_flag le) dev v b N V U D K). unfold get_ip in H. destruct (ip_for_device _ _ _ _); [discriminate H|reflexivity].
Qed.
Definition ex_leaf : leaf_env := mkLeafEnv [mkIf AfInet (Some (s_ "192.168.0.1")) (s_ "eth0"); mkIf AfInet6 (Some (s_ "fe80::1")) (s_ "eth1")] true 8 false (fun _ _ => None) (mkHomaSys None None (fun _ _ => None) (inl [])) (mkHgSys (fun _ _ => true) (fun x => x)).
Example C77_ex_no_address : get_ip ex_leaf (s_ "eth0") 6 = InitError 5 (s_ "No IPv6 address found for netdev 'eth0'")
  /\ get_ip ex_leaf (s_ "eth1") 6 = InitError 5 (s_ "No address found for netdev 'eth1' (prefer_ipv4=0)").
Proof. split; vm_compute; reflexivity. Qed.
Print Assumptions C77_no_address.
Print Assumptions C77_no_address_version.
