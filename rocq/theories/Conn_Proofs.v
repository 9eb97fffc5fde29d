(** Proofs about driver initialisation and the connection handshake. *)
From Coq Require Import Ascii String List NArith ZArith Bool Arith Lia.
From Verif Require Import Base_Model Base_Proofs Util_Model Net_Model Pool_Model Driver_Model Peer_Model Conn_Model.
From Verif Require Wire_Model Wire_Proofs Wire_Proofs2 Wire_Proofs4.
Import ListNotations.
Open Scope Z_scope.

(** ** ServerAddress *)
Lemma bytes_of_length s : length (bytes_of s) = length s.
Proof. apply map_length. Qed.
Lemma bytes_of_bytes s : Wire_Proofs4.is_bytes (bytes_of s).
Proof. apply Forall_map, Forall_forall. intros c _. apply N_ascii_bounded. Qed.
Lemma text_of_bytes s : text_of (bytes_of s) = s.
Proof. unfold text_of, bytes_of. rewrite map_map. induction s as [|c s IH]; cbn [map]; [reflexivity|]. rewrite ascii_N_embedding, IH. reflexivity. Qed.
Lemma bytes_of_text b : Wire_Proofs4.is_bytes b -> bytes_of (text_of b) = b.
Proof.
  unfold bytes_of, text_of. rewrite map_map. induction b as [|x b IH]; cbn [map]; [reflexivity|]. intro H.
  rewrite N_ascii_embedding by exact (Forall_inv H). rewrite (IH (Forall_inv_tail H)). reflexivity.
Qed.

(** The sizes that fit into a message. *)
Definition short (s : str) : Prop := Z.of_nat (length s) < 2147483648.
Definition int32 (z : Z) : Prop := -2147483648 <= z < 2147483648.
Lemma sa_roundtrip ip port socket : short ip -> short socket -> int32 port ->
  sa_parse (sa_serialize (mkSA (Some ip) (Some port) (Some socket))) = Some (mkSA (Some ip) (Some port) (Some socket)).
Proof.
  intros Hi Hs Hp. unfold sa_parse, sa_serialize.
  assert (W : Forall Wire_Proofs2.wfield_ok (sa_fields (mkSA (Some ip) (Some port) (Some socket)))).
  { unfold sa_fields, Wire_Model.opt_field. cbn [sa_ip sa_port sa_socket app]. unfold short in *.
    constructor; [split; cbn; [lia|rewrite bytes_of_length; unfold Wire_Model.two63z; lia]|].
    constructor; [split; [cbn; lia|]; exact (Wire_Proofs.of_int64_range port)|].
    constructor; [split; cbn; [lia|rewrite bytes_of_length; unfold Wire_Model.two63z; lia]|constructor]. }
  rewrite bytes_of_text.
  - rewrite Wire_Proofs2.parse_enc_fields; [|exact W|pose proof (Wire_Proofs2.enc_fields_length (sa_fields (mkSA (Some ip) (Some port) (Some socket)))); lia].
    cbn [sa_fields sa_ip sa_port sa_socket Wire_Model.opt_field app sa_add_all sa_add Wire_Model.w_int]. rewrite !text_of_bytes.
    rewrite Wire_Proofs2.to_int32_of; [reflexivity|]. unfold Wire_Proofs2.int32_ok, int32 in *. lia.
  - apply Wire_Proofs4.enc_fields_bytes. unfold sa_fields, Wire_Model.opt_field. cbn [sa_ip sa_port sa_socket app].
    constructor; [exact (bytes_of_bytes ip)|]. constructor; [exact Logic.I|]. constructor; [exact (bytes_of_bytes socket)|constructor].
Qed.

(** ** gRPC *)
(** The thread pool that the settings ask for. *)
Definition pool_for (le : leaf_env) (o : driver_opts) (default_type : str) (p : pool_kind) : Prop :=
  let n := narrow (server_int o (s_ "threadpool_size") (le_cpus le)) in
  let ty := server_string o (s_ "threadpool_type") default_type in
  1 <= n /\
  match p with
  | PoolSimple k => ty = s_ "simple" /\ Z.of_nat k = n
  | PoolElastic k => (ty = [] \/ ty = s_ "elastic") /\ Z.of_nat k = n
  | PoolNull => ty = s_ "null"
  end.
Definition pool_refused (le : leaf_env) (o : driver_opts) (default_type : str) (m : str) : Prop :=
  let n := narrow (server_int o (s_ "threadpool_size") (le_cpus le)) in
  let ty := server_string o (s_ "threadpool_type") default_type in
  (n < 1 /\ m = s_ "Threadpool size must be positive") \/
  (1 <= n /\ ~ In ty (map s_ [""; "simple"; "elastic"; "null"]%string) /\ m = s_ "Threadpool type unknown: " ++ ty).
Lemma get_pool_spec le o d :
  match get_pool le o d with
  | InitOk p => pool_for le o d p
  | InitError c m => c = invalid_argument /\ pool_refused le o d m
  | InitThrows => False
  end.
Proof.
  unfold get_pool, create_threadpool, pool_for, pool_refused. set (n := narrow _). set (ty := server_string _ _ _).
  destruct (Z.ltb_spec n 1); [auto|]. destruct (str_eqb_spec ty (s_ "simple")) as [E|N1]; [split; [lia|split; [exact E|lia]]|].
  destruct (str_eqb_spec ty []) as [E|N2]; cbn [orb]; [split; [lia|split; [auto|lia]]|].
  destruct (str_eqb_spec ty (s_ "elastic")) as [E|N3]; [split; [lia|split; [auto|lia]]|].
  destruct (str_eqb_spec ty (s_ "null")) as [E|N4]; [split; [lia|exact E]|]. split; [reflexivity|]. right. split; [lia|]. split; [|reflexivity].
  cbn [map In]. intros [K|[K|[K|[K|[]]]]]; symmetry in K; contradiction.
Qed.
Lemma pool_for_unique le o d p p' : pool_for le o d p -> pool_for le o d p' -> p = p'.
Proof.
  unfold pool_for. set (n := narrow _). set (ty := server_string _ _ _). clearbody ty. intros (_ & A) (_ & B).
  destruct p, p'; try reflexivity; try (f_equal; lia); exfalso;
    repeat match goal with H : _ /\ _ |- _ => destruct H | H : _ \/ _ |- _ => destruct H end;
    match goal with A : ty = _, B : ty = _ |- _ => rewrite A in B; discriminate B end.
Qed.
Lemma pool_for_get le o d p : pool_for le o d p -> get_pool le o d = InitOk p.
Proof.
  intro H. pose proof (get_pool_spec le o d) as S. destruct (get_pool le o d) as [p'|c m|].
  - f_equal. exact (pool_for_unique _ _ _ _ _ S H).
  - exfalso. destruct S as (_ & [(L & _)|(_ & N & _)]); destruct H as (L2 & H); [lia|]. apply N. cbn [map In].
    destruct p; [destruct H as (-> & _)|destruct H as ([->| ->] & _)|rewrite H]; auto.
  - destruct S.
Qed.
(** The kinds of client and server; the options called "grpc_async" have other
    defaults. *)
Definition by_default (o : driver_opts) (async other d : str) : Prop :=
  (po_name o = Some (s_ "grpc_async") /\ d = async) \/ (po_name o <> Some (s_ "grpc_async") /\ d = other).
Definition usable (homa_grpc : bool) (transport : str) : Prop := transport = s_ "tcp" \/ (transport = s_ "homa" /\ homa_grpc = true).
Record grpc_ready (le : leaf_env) (o : driver_opts) (port : Z) (g : grpc_driver) : Prop := mkReadyGrpc {
  gr_client : exists d, by_default o (s_ "callback") (s_ "polling") d /\
    client_string o (s_ "client_type") d = match gd_client g with ClientPolling => s_ "polling" | ClientCallback => s_ "callback" end;
  gr_server : exists d, by_default o (s_ "handoff") (s_ "inline") d /\
    match gd_server g with
    | ServerInline => server_string o (s_ "server_type") d = s_ "inline"
    | ServerHandoff p => server_string o (s_ "server_type") d = s_ "handoff" /\ pool_for le o [] p
    | ServerPolling p => server_string o (s_ "server_type") d = s_ "polling" /\ pool_for le o [] p
    end;
  gr_transport : gd_transport g = server_string o (s_ "transport") (s_ "tcp") /\ usable (le_homa_grpc le) (gd_transport g);
  gr_ip : ip_for_device (le_ifs le) (le_flag le) (opt_str (po_netdev o)) (po_ip_version o) = Some (gd_ip g);
  gr_port : le_start le (gd_transport g) (socket_address (gd_ip g) port) = Some (gd_port g);
  gr_socket : gd_socket g = socket_address (gd_ip g) (gd_port g) }.
Definition grpc_refused (le : leaf_env) (o : driver_opts) (port : Z) (c : Z) (m : str) : Prop :=
  (exists d, by_default o (s_ "callback") (s_ "polling") d /\ let t := client_string o (s_ "client_type") d in
     t <> s_ "polling" /\ t <> s_ "callback" /\ c = invalid_argument /\ m = s_ "Invalid GRPC client_type (" ++ t ++ s_ ")") \/
  (exists d, by_default o (s_ "handoff") (s_ "inline") d /\ let t := server_string o (s_ "server_type") d in
     ~ In t (map s_ ["inline"; "handoff"; "polling"]%string) /\ c = invalid_argument /\ m = s_ "Invalid GRPC server_type") \/
  (exists d, by_default o (s_ "handoff") (s_ "inline") d /\ In (server_string o (s_ "server_type") d) (map s_ ["handoff"; "polling"]%string) /\
     pool_refused le o [] m /\ c = invalid_argument) \/
  (ip_for_device (le_ifs le) (le_flag le) (opt_str (po_netdev o)) (po_ip_version o) = None /\ c = not_found) \/
  (~ usable (le_homa_grpc le) (server_string o (s_ "transport") (s_ "tcp")) /\ c = unimplemented) \/
  (exists ip, ip_for_device (le_ifs le) (le_flag le) (opt_str (po_netdev o)) (po_ip_version o) = Some ip /\
     le_start le (server_string o (s_ "transport") (s_ "tcp")) (socket_address ip port) = None /\ c = unknown).

Lemma transport_spec b t : match transport_error b t with None => usable b t | Some (c, _) => ~ usable b t /\ c = unimplemented end.
Proof.
  unfold transport_error, usable. destruct (str_eqb_spec t (s_ "homa")) as [->|N1].
  - destruct b; [auto|]. split; [|reflexivity]. intros [K|(_ & K)]; discriminate.
  - destruct (str_eqb_spec t (s_ "tcp")) as [->|N2]; [auto|]. split; [|reflexivity]. intros [K|(K & _)]; contradiction.
Qed.
Lemma usable_ok b t : usable b t -> transport_error b t = None.
Proof. intro U. pose proof (transport_spec b t) as S. destruct (transport_error b t) as [[c m]|]; [destruct S; contradiction|reflexivity]. Qed.
Lemma default_of o a b : by_default o a b (if str_eqb (opt_str (po_name o)) (s_ "grpc_async") then a else b).
Proof.
  unfold by_default. destruct (str_eqb_spec (opt_str (po_name o)) (s_ "grpc_async")) as [E|N].
  - left. split; [|reflexivity]. destruct (po_name o) as [n|]; cbn [opt_str] in E; [congruence|discriminate].
  - right. split; [|reflexivity]. intro K. apply N. rewrite K. reflexivity.
Qed.
Lemma default_unique o a b d : by_default o a b d -> d = if str_eqb (opt_str (po_name o)) (s_ "grpc_async") then a else b.
Proof.
  intros [(E & ->)|(N & ->)].
  - rewrite E. reflexivity.
  - destruct (str_eqb_spec (opt_str (po_name o)) (s_ "grpc_async")) as [E|_]; [|reflexivity]. exfalso. apply N.
    destruct (po_name o) as [n|]; cbn [opt_str] in E; [congruence|discriminate].
Qed.
Lemma get_ip_spec le dev v : match get_ip le dev v with
  | InitOk a => ip_for_device (le_ifs le) (le_flag le) dev v = Some a
  | InitError c _ => ip_for_device (le_ifs le) (le_flag le) dev v = None /\ c = not_found
  | InitThrows => False end.
Proof. unfold get_ip. destruct (ip_for_device _ _ _ _); auto. Qed.
Lemma server_init_spec le o port make message :
  match server_init le o port make message with
  | InitOk (kind, ip, p) => make = InitOk kind /\ ip_for_device (le_ifs le) (le_flag le) (opt_str (po_netdev o)) (po_ip_version o) = Some ip /\
      usable (le_homa_grpc le) (server_string o (s_ "transport") (s_ "tcp")) /\ le_start le (server_string o (s_ "transport") (s_ "tcp")) (socket_address ip port) = Some p
  | InitError c m => make = InitError c m \/
      (ip_for_device (le_ifs le) (le_flag le) (opt_str (po_netdev o)) (po_ip_version o) = None /\ c = not_found) \/
      (~ usable (le_homa_grpc le) (server_string o (s_ "transport") (s_ "tcp")) /\ c = unimplemented) \/
      (exists ip, ip_for_device (le_ifs le) (le_flag le) (opt_str (po_netdev o)) (po_ip_version o) = Some ip /\
         le_start le (server_string o (s_ "transport") (s_ "tcp")) (socket_address ip port) = None /\ c = unknown)
  | InitThrows => make = InitThrows
  end.
Proof.
  unfold server_init. pose proof (get_ip_spec le (opt_str (po_netdev o)) (po_ip_version o)) as G. destruct (get_ip _ _ _) as [ip|c m|]; cbn [ibind]; [|auto|destruct G].
  destruct make as [kind|c m|]; cbn [ibind]; [|auto|reflexivity]. set (t := server_string o (s_ "transport") (s_ "tcp")).
  pose proof (transport_spec (le_homa_grpc le) t) as T. destruct (transport_error _ _) as [[c m]|]; [auto|].
  destruct (le_start le t (socket_address ip port)) as [p|] eqn:E; [auto|]. right. right. right. exists ip. auto.
Qed.
Lemma grpc_init_spec le o port :
  match grpc_init le o port with InitOk g => grpc_ready le o port g | InitError c m => grpc_refused le o port c m | InitThrows => False end.
Proof.
  unfold grpc_init. pose proof (default_of o (s_ "callback") (s_ "polling")) as Dc. pose proof (default_of o (s_ "handoff") (s_ "inline")) as Ds.
  set (dc := if str_eqb (opt_str (po_name o)) (s_ "grpc_async") then s_ "callback" else _) in *.
  set (ds := if str_eqb (opt_str (po_name o)) (s_ "grpc_async") then s_ "handoff" else _) in *.
  assert (C : match (if str_eqb (client_string o (s_ "client_type") dc) (s_ "polling") then InitOk ClientPolling
                 else if str_eqb (client_string o (s_ "client_type") dc) (s_ "callback") then InitOk ClientCallback
                 else InitError invalid_argument (s_ "Invalid GRPC client_type (" ++ client_string o (s_ "client_type") dc ++ s_ ")")) with
              | InitOk k => client_string o (s_ "client_type") dc = match k with ClientPolling => s_ "polling" | ClientCallback => s_ "callback" end
              | InitError c m => grpc_refused le o port c m
              | InitThrows => False end).
  { destruct (str_eqb_spec (client_string o (s_ "client_type") dc) (s_ "polling")) as [E|N1]; [exact E|].
    destruct (str_eqb_spec (client_string o (s_ "client_type") dc) (s_ "callback")) as [E|N2]; [exact E|]. left. exists dc. auto. }
  cbv zeta. destruct (if str_eqb (client_string o (s_ "client_type") dc) (s_ "polling") then _ else _) as [client|c m|]; cbn [ibind]; [|exact C|exact C].
  set (t := server_string o (s_ "server_type") ds).
  assert (V : forall r, (match r with
      | InitOk (kind, ip, p) => match kind with ServerInline => t = s_ "inline" | ServerHandoff q => t = s_ "handoff" /\ pool_for le o [] q | ServerPolling q => t = s_ "polling" /\ pool_for le o [] q end /\
          ip_for_device (le_ifs le) (le_flag le) (opt_str (po_netdev o)) (po_ip_version o) = Some ip /\
          usable (le_homa_grpc le) (server_string o (s_ "transport") (s_ "tcp")) /\ le_start le (server_string o (s_ "transport") (s_ "tcp")) (socket_address ip port) = Some p
      | InitError c m => grpc_refused le o port c m | InitThrows => False end) ->
    match (ido (kind, ip, assigned) <- r; InitOk (mkGrpc client kind (server_string o (s_ "transport") (s_ "tcp")) ip assigned (socket_address ip assigned))) with
    | InitOk g => grpc_ready le o port g | InitError c m => grpc_refused le o port c m | InitThrows => False end).
  { intros [[[kind ip] p]|c m|]; cbn [ibind]; auto. intros (K & Ei & U & St). constructor; cbn [gd_client gd_server gd_transport gd_ip gd_port gd_socket]; auto.
    - exists dc. auto.
    - exists ds. auto. }
  apply V.
  pose proof (get_pool_spec le o []) as P.
  assert (Pr : forall c m, (t = s_ "handoff" \/ t = s_ "polling") -> get_pool le o [] = InitError c m -> grpc_refused le o port c m).
  { intros c m Ht E. rewrite E in P. destruct P as (-> & P). right. right. left. exists ds. split; [exact Ds|]. split; [|auto]. fold t. cbn [map In]. destruct Ht as [Ht|Ht]; rewrite Ht; auto. }
  destruct (str_eqb_spec t (s_ "inline")) as [E|N1]; [|destruct (str_eqb_spec t (s_ "handoff")) as [E|N2]; [|destruct (str_eqb_spec t (s_ "polling")) as [E|N3]]].
  - pose proof (server_init_spec le o port (InitOk ServerInline) (s_ "Grpc Traffic service failed to start")) as S.
    destruct (server_init _ _ _ _ _) as [[[kind ip] p]|c m|]; [|destruct S as [S|S]; [discriminate|right; right; right; exact S]|discriminate].
    destruct S as (S & R). injection S as <-. auto.
  - match goal with |- context [server_init le o port ?m ?x] => pose proof (server_init_spec le o port m x) as S end.
    destruct (server_init _ _ _ _ _) as [[[kind ip] p]|c m|].
    + destruct S as (S & R). destruct (get_pool le o []) as [q|c m|]; cbn [ibind] in S; try discriminate. injection S as <-. auto.
    + destruct S as [S|S]; [|right; right; right; exact S]. destruct (get_pool le o []) as [q|c2 m2|] eqn:E2; cbn [ibind] in S; try discriminate. injection S as <- <-. apply Pr; auto.
    + destruct (get_pool le o []) as [q|c2 m2|]; cbn [ibind] in S; [discriminate|discriminate|destruct P].
  - destruct (get_pool le o []) as [q|c m|] eqn:E2; cbn [ibind]; [|apply Pr; auto|destruct P].
    match goal with |- context [server_init le o port ?m ?x] => pose proof (server_init_spec le o port m x) as S end.
    destruct (server_init _ _ _ _ _) as [[[kind ip] p]|c m|]; [|destruct S as [S|S]; [discriminate|right; right; right; exact S]|discriminate].
    destruct S as (S & R). injection S as <-. auto.
  - right. left. exists ds. split; [exact Ds|]. fold t. split; [|auto]. cbn [map In]. intros [K|[K|[K|[]]]]; symmetry in K; contradiction.
Qed.
Lemma grpc_ready_init le o port g : grpc_ready le o port g -> grpc_init le o port = InitOk g.
Proof.
  intro R.
  pose proof R as [(d1 & A1 & A2) (d2 & A3 & A4) (A5 & U) A6 A7 A8]. apply default_unique in A1, A3. unfold grpc_init. rewrite <- A1, <- A3, A2. cbv zeta.
  assert (Sv : forall make message, make = InitOk (gd_server g) -> server_init le o port make message = InitOk (gd_server g, gd_ip g, gd_port g)).
  { intros make message ->. unfold server_init, get_ip. rewrite A6. cbn [ibind]. rewrite <- A5, (usable_ok _ _ U), A7. reflexivity. }
  assert (Fin : (ido (kind, ip, assigned) <- InitOk (gd_server g, gd_ip g, gd_port g); InitOk (mkGrpc (gd_client g) kind (server_string o (s_ "transport") (s_ "tcp")) ip assigned (socket_address ip assigned))) = InitOk g).
  { cbn [ibind]. rewrite <- A5, <- A8. destruct g; reflexivity. }
  assert (St : (if str_eqb (server_string o (s_ "server_type") d2) (s_ "inline") then server_init le o port (InitOk ServerInline) (s_ "Grpc Traffic service failed to start")
     else if str_eqb (server_string o (s_ "server_type") d2) (s_ "handoff") then
       server_init le o port (ido p <- get_pool le o []; InitOk (ServerHandoff p)) (s_ "Grpc Async Callback Traffic service failed to start")
     else if str_eqb (server_string o (s_ "server_type") d2) (s_ "polling") then
       ido p <- get_pool le o []; server_init le o port (InitOk (ServerPolling p)) (s_ "Grpc Traffic service failed to start")
     else InitError invalid_argument (s_ "Invalid GRPC server_type")) = InitOk (gd_server g, gd_ip g, gd_port g)).
  { destruct (gd_server g) as [|q|q]; [rewrite A4|destruct A4 as (-> & P)|destruct A4 as (-> & P)].
    - exact (Sv (InitOk ServerInline) _ eq_refl).
    - rewrite (pool_for_get _ _ _ _ P). exact (Sv (InitOk (ServerHandoff q)) _ eq_refl).
    - rewrite (pool_for_get _ _ _ _ P). exact (Sv (InitOk (ServerPolling q)) _ eq_refl). }
  rewrite St. destruct (gd_client g); exact Fin.
Qed.

(** ** Homa *)
Definition homa_setting (s : setting) : Prop :=
  exists n, st_name s = Some n /\ In n (map s_ ["threadpool_type"; "threadpool_size"; "ping_pong"; "nocopy"; "client_threads"; "server_threads"]%string).
Record homa_ready (le : leaf_env) (o : driver_opts) (port : Z) (h : homa_driver) : Prop := mkReadyHoma {
  hr_settings : forall s, In s (po_server o) -> homa_setting s;
  hr_pool : pool_for le o (s_ "elastic") (hd_pool h);
  hr_flags : (hd_ping_pong h = true <-> server_int o (s_ "ping_pong") 0 <> 0) /\ (hd_nocopy h = true <-> server_int o (s_ "nocopy") 1 <> 0);
  hr_ip : ip_for_device (le_ifs le) (le_flag le) (opt_str (po_netdev o)) (po_ip_version o) = Some (hd_ip h);
  hr_sockets : hs_client (le_homa le) = None /\ hs_server (le_homa le) = None /\ hs_bind (le_homa le) (ad_v4 (hd_ip h)) port = None;
  hr_threads : Z.of_nat (hd_clients h) = narrow (server_int o (s_ "client_threads") 2) /\ hd_servers h = hd_clients h /\ 0 <= narrow (server_int o (s_ "server_threads") 3);
  hr_name : (hs_name (le_homa le) = inr (2, hd_port h) /\ hd_socket h = ad_ip (hd_ip h) ++ s_ ":" ++ dec_of_Z (hd_port h)) \/
            (hs_name (le_homa le) = inr (10, hd_port h) /\ hd_socket h = s_ "[" ++ ad_ip (hd_ip h) ++ s_ "]:" ++ dec_of_Z (hd_port h)) }.
Lemma unknown_setting_spec l : match unknown_setting l with
  | None => forall s, In s l -> homa_setting s
  | Some n => exists s, In s l /\ opt_str (st_name s) = n /\ ~ homa_setting s end.
Proof.
  induction l as [|s l IH]; cbn [unknown_setting]; [intros s []|].
  assert (H : existsb (str_eqb (opt_str (st_name s))) known_settings = true <-> homa_setting s).
  { rewrite existsb_exists. unfold homa_setting. split.
    - intros (x & I & E). destruct (str_eqb_spec (opt_str (st_name s)) x) as [K|]; [|discriminate]. destruct (st_name s) as [n|]; cbn [opt_str] in K.
      + exists n. subst x. auto.
      + exfalso. subst x. unfold known_settings in I. cbn [map In] in I. repeat (destruct I as [I|I]; [discriminate I|]). exact I.
    - intros (n & E & I). exists n. split; [exact I|]. rewrite E. cbn [opt_str]. destruct (str_eqb_spec n n); [reflexivity|contradiction]. }
  destruct (existsb _ _).
  - destruct (unknown_setting l) as [n|].
    + destruct IH as (x & I & E & N). exists x. split; [right; exact I|auto].
    + intros x [<-|I]; [apply H; reflexivity|exact (IH x I)].
  - exists s. split; [left; reflexivity|]. split; [reflexivity|]. intro K. apply H in K. discriminate.
Qed.
Lemma neqb_iff z : negb (z =? 0) = true <-> z <> 0.
Proof. destruct (Z.eqb_spec z 0); cbn [negb]; split; congruence. Qed.
Lemma homa_init_spec le o port :
  match homa_init le o port with
  | InitOk h => homa_ready le o port h
  | InitError c _ => c = invalid_argument \/ c = not_found \/ c = unknown
  | InitThrows => narrow (server_int o (s_ "client_threads") 2) < 0 \/ narrow (server_int o (s_ "server_threads") 3) < 0
  end.
Proof.
  unfold homa_init. pose proof (unknown_setting_spec (po_server o)) as U. destruct (unknown_setting (po_server o)) as [n|]; [auto|]. cbv zeta.
  pose proof (get_pool_spec le o (s_ "elastic")) as P. destruct (get_pool _ _ _) as [p|c m|]; cbn [ibind]; [|destruct P; auto|destruct P].
  pose proof (get_ip_spec le (opt_str (po_netdev o)) (po_ip_version o)) as G. destruct (get_ip _ _ _) as [ip|c m|]; cbn [ibind]; [|destruct G; auto|destruct G].
  destruct (hs_client (le_homa le)) as [e|] eqn:E1; [auto|]. destruct (hs_server (le_homa le)) as [e|] eqn:E2; [auto|].
  set (a := narrow (server_int o (s_ "client_threads") 2)). set (b := narrow (server_int o (s_ "server_threads") 3)).
  destruct (Z.ltb_spec a 0); cbn [orb]; [auto|]. destruct (Z.ltb_spec b 0); [auto|].
  destruct (hs_bind (le_homa le) (ad_v4 ip) port) as [e|] eqn:E3; [auto|]. destruct (hs_name (le_homa le)) as [e|[f q]] eqn:E4; [auto|].
  unfold af_inet, af_inet6. destruct (Z.eqb_spec f 2) as [->|]; [|destruct (Z.eqb_spec f 10) as [->|]; [|auto]];
    (constructor; cbn [hd_pool hd_ping_pong hd_nocopy hd_clients hd_servers hd_ip hd_port hd_socket]; auto;
     [split; apply neqb_iff|fold a b; split; [lia|split; [reflexivity|lia]]]).
Qed.
Lemma homa_ready_init le o port h : homa_ready le o port h -> homa_init le o port = InitOk h.
Proof.
  intros [A1 A2 (A3 & A3') A4 (A5 & A6 & A7) (A8 & A9 & A10) A11]. unfold homa_init.
  pose proof (unknown_setting_spec (po_server o)) as U. destruct (unknown_setting (po_server o)) as [n|].
  { destruct U as (s & I & _ & N). elim N. exact (A1 s I). }
  cbv zeta. rewrite (pool_for_get _ _ _ _ A2). cbn [ibind]. unfold get_ip. rewrite A4. cbn [ibind]. rewrite A5, A6, <- A8.
  destruct (Z.ltb_spec (Z.of_nat (hd_clients h)) 0); [lia|]. cbn [orb]. destruct (Z.ltb_spec (narrow (server_int o (s_ "server_threads") 3)) 0); [lia|].
  rewrite A7, Nat2Z.id. destruct h as [p pp nc cl sv ip q so]. cbn [hd_pool hd_ping_pong hd_nocopy hd_clients hd_servers hd_ip hd_port hd_socket] in *. subst sv.
  assert (E : forall x y, (x = true <-> y <> 0) -> negb (y =? 0) = x).
  { intros x y K. destruct (Z.eqb_spec y 0) as [->|N]; cbn [negb]; [|symmetry; apply K, N]. destruct x; [|reflexivity]. elim (proj1 K eq_refl). reflexivity. }
  rewrite (E _ _ A3), (E _ _ A3'). destruct A11 as [(-> & ->)|(-> & ->)]; reflexivity.
Qed.

(** ** Mercury *)
Record mercury_ready (le : leaf_env) (o : driver_opts) (port : Z) (m : mercury_driver) : Prop := mkReadyMercury {
  mr_version : po_ip_version o = 0 \/ po_ip_version o = 4;
  mr_pool : pool_for le o [] (md_pool m);
  mr_ip : ip_for_device (le_ifs le) (le_flag le) (opt_str (po_netdev o)) 4 = Some (md_ip m);
  mr_info : md_info m = info_string o (md_ip m) port;
  mr_works : forall c, hg_works (le_hg le) c (md_info m) = true;
  mr_address : md_address m = hg_address (le_hg le) (md_info m) }.
Lemma mercury_init_spec le o port :
  match mercury_init le o port with
  | InitOk m => mercury_ready le o port m
  | InitError c _ => c = unimplemented \/ c = invalid_argument \/ c = not_found \/ c = unknown
  | InitThrows => False
  end.
Proof.
  unfold mercury_init. destruct (negb (po_ip_version o =? 0) && negb (po_ip_version o =? 4)) eqn:V; [auto|].
  pose proof (get_pool_spec le o []) as P. destruct (get_pool _ _ _) as [p|c m|]; cbn [ibind]; [|destruct P; auto|destruct P].
  pose proof (get_ip_spec le (opt_str (po_netdev o)) 4) as G. destruct (get_ip _ _ _) as [ip|c m|]; cbn [ibind]; [|destruct G; auto|destruct G]. cbv zeta.
  destruct (find _ hg_calls) as [[c m]|] eqn:F; [auto|]. constructor; cbn [md_pool md_ip md_info md_address]; auto.
  - destruct (Z.eqb_spec (po_ip_version o) 0); [auto|]. destruct (Z.eqb_spec (po_ip_version o) 4); [auto|discriminate].
  - intro c. assert (I : exists m, In (c, m) hg_calls) by (unfold hg_calls; destruct c; eexists; cbn [In]; tauto). destruct I as (m & I).
    pose proof (find_none _ _ F _ I) as K. cbn [fst] in K. destruct (hg_works _ _ _); [reflexivity|discriminate].
Qed.
Lemma find_none_all {A} (f : A -> bool) l : (forall x, In x l -> f x = false) -> find f l = None.
Proof. induction l as [|x l IH]; intro H; cbn [find]; [reflexivity|]. rewrite (H x (or_introl eq_refl)). apply IH. intros y I. apply H. right. exact I. Qed.
Lemma mercury_ready_init le o port m : mercury_ready le o port m -> mercury_init le o port = InitOk m.
Proof.
  intros [A1 A2 A3 A4 A5 A6]. unfold mercury_init. replace (negb (po_ip_version o =? 0) && negb (po_ip_version o =? 4)) with false by (destruct A1 as [-> | ->]; reflexivity).
  rewrite (pool_for_get _ _ _ _ A2). cbn [ibind]. unfold get_ip. rewrite A3. cbn [ibind]. cbv zeta. rewrite <- A4.
  rewrite find_none_all by (intros x _; rewrite A5; reflexivity). rewrite <- A6. destruct m; reflexivity.
Qed.

(** StrReplaceAll: from left to right, every occurrence that does not overlap
    with an earlier one. *)
Inductive replaced (p b : str) : str -> str -> Prop :=
  | rp_end : replaced p b [] []
  | rp_match r r' : replaced p b r r' -> replaced p b (p ++ r) (b ++ r')
  | rp_skip c r r' : (forall x, c :: r <> p ++ x) -> replaced p b r r' -> replaced p b (c :: r) (c :: r').
Lemma starts_with_spec p s : if starts_with p s then exists x, s = p ++ x else forall x, s <> p ++ x.
Proof.
  revert s. induction p as [|a p IH]; intros s; cbn [starts_with]; [exists s; reflexivity|]. destruct s as [|b s]; [intros x K; discriminate|].
  destruct (Ascii.eqb_spec a b) as [->|N]; cbn [andb].
  - specialize (IH s). destruct (starts_with p s); [destruct IH as (x & ->); exists x; reflexivity|]. intros x K. injection K as K. exact (IH x K).
  - intros x K. injection K as K _. congruence.
Qed.
Lemma replace_from_skip p b k s : (k <= length s)%nat -> replace_from p b k s = replace_from p b 0 (skipn k s).
Proof.
  revert s. induction k as [|k IH]; intros s L; [reflexivity|]. destruct s as [|c s]; [cbn [length] in L; lia|]. cbn [replace_from skipn]. apply IH. cbn [length] in L. lia.
Qed.
Lemma replace_all_spec p b s : p <> [] -> replaced p b s (replace_all p b s).
Proof.
  intro N. unfold replace_all. remember (length s) as n eqn:L. assert (Le : (length s <= n)%nat) by lia. clear L. revert s Le. induction n as [|n IH]; intros s Le.
  - destruct s; [constructor|cbn [length] in Le; lia].
  - destruct s as [|c s]; [constructor|]. cbn [length] in Le. cbn [replace_from]. pose proof (starts_with_spec p (c :: s)) as S. destruct (starts_with p (c :: s)).
    + destruct S as (x & E). destruct p as [|a p]; [contradiction|]. cbn [app] in E. injection E as <- E. cbn [length]. replace (S (length p) - 1)%nat with (length p) by lia.
      assert (Lx : (length s = length p + length x)%nat) by (rewrite E, app_length; reflexivity).
      rewrite replace_from_skip by lia. rewrite E, skipn_app, skipn_all, Nat.sub_diag. cbn [skipn app]. rewrite <- E.
      change (c :: s) with ([c] ++ s). rewrite E. apply (rp_match (c :: p) b x), IH. lia.
    + apply rp_skip; [exact S|]. apply IH. lia.
Qed.

(** ** Trees of drivers *)
Inductive made (les : list nat -> leaf_env) : list nat -> driver -> live -> Prop :=
  | md_grpc path o g : grpc_ready (les path) o 0 g -> made les path (DGrpc o) (LGrpc g)
  | md_homa path o h : homa_ready (les path) o 0 h -> made les path (DHoma o) (LHoma h)
  | md_mercury path o m : mercury_ready (les path) o 0 m -> made les path (DMercury o) (LMercury m)
  | md_double path d1 d2 l1 l2 : made les (path ++ [1%nat]) d1 l1 -> made les (path ++ [2%nat]) d2 l2 -> made les path (DDouble d1 d2) (LDouble l1 l2)
  | md_counter path d l : made les (path ++ [1%nat]) d l -> made les path (DCounter d) (LCounter l).
Lemma boot_made les path d l : boot les path d = Some l <-> made les path d l.
Proof.
  split.
  - revert path l. induction d as [o|o|o|d1 IH1 d2 IH2|d IH]; intros path l; cbn [boot].
    + pose proof (grpc_init_spec (les path) o 0) as S. destruct (grpc_init _ _ _); cbn [ok_of option_map]; try discriminate. intros [= <-]. constructor. exact S.
    + pose proof (homa_init_spec (les path) o 0) as S. destruct (homa_init _ _ _); cbn [ok_of option_map]; try discriminate. intros [= <-]. constructor. exact S.
    + pose proof (mercury_init_spec (les path) o 0) as S. destruct (mercury_init _ _ _); cbn [ok_of option_map]; try discriminate. intros [= <-]. constructor. exact S.
    + destruct (boot les (path ++ [1%nat]) d1) as [l1|] eqn:E1; [|discriminate]. destruct (boot les (path ++ [2%nat]) d2) as [l2|] eqn:E2; [|discriminate].
      intros [= <-]. constructor; [exact (IH1 _ _ E1)|exact (IH2 _ _ E2)].
    + destruct (boot les (path ++ [1%nat]) d) as [l1|] eqn:E1; cbn [option_map]; [|discriminate]. intros [= <-]. constructor. exact (IH _ _ E1).
  - induction 1 as [path o g R|path o h R|path o m R|path d1 d2 l1 l2 _ E1 _ E2|path d l _ E]; cbn [boot].
    + rewrite (grpc_ready_init _ _ _ _ R). reflexivity.
    + rewrite (homa_ready_init _ _ _ _ R). reflexivity.
    + rewrite (mercury_ready_init _ _ _ _ R). reflexivity.
    + rewrite E1, E2. reflexivity.
    + rewrite E. reflexivity.
Qed.
Lemma failure_ok {A} (r : init_result A) : failure r = None -> exists a, ok_of r = Some a.
Proof. destruct r as [a|c m|]; cbn; try discriminate. eauto. Qed.
Lemma allocate_boots homa mercury res les : forall fuel o depth path d,
  allocate fuel (mkEnv homa mercury res (fun path o => leaf_failure (les path) o)) o depth path = DrvOk d -> exists l, boot les path d = Some l.
Proof.
  induction fuel as [|f IH]; intros o depth path d; cbn [allocate ev_homa ev_mercury ev_resolver ev_init]; [discriminate|].
  destruct (depth =? max_depth)%nat; [discriminate|]. cbv zeta. unfold leaf_failure.
  destruct (str_eqb (protocol_name o) (s_ "grpc") || str_eqb (protocol_name o) (s_ "grpc_async_callback")) eqn:Eg.
  { unfold leaf. destruct (failure _) eqn:F; [discriminate|]. intros [= <-]. apply failure_ok in F as (g & F). cbn [boot]. rewrite F. cbn [option_map]. eauto. }
  destruct (str_eqb (protocol_name o) (s_ "double_barrel")).
  { destruct (allocate f _ _ _ (path ++ [1%nat])) as [d1|e|] eqn:E1; try discriminate. destruct (allocate f _ _ _ (path ++ [2%nat])) as [d2|e|] eqn:E2; try discriminate.
    intros [= <-]. destruct (IH _ _ _ _ E1) as (l1 & B1). destruct (IH _ _ _ _ E2) as (l2 & B2). cbn [boot]. rewrite B1, B2. eauto. }
  destruct (str_eqb (protocol_name o) (s_ "composable_rpc_counter")).
  { destruct (allocate f _ _ _ (path ++ [1%nat])) as [d1|e|] eqn:E1; try discriminate. intros [= <-]. destruct (IH _ _ _ _ E1) as (l1 & B1). cbn [boot]. rewrite B1. cbn [option_map]. eauto. }
  destruct (str_eqb_spec (protocol_name o) (s_ "homa")) as [Eh|Nh].
  - destruct homa; cbn [andb].
    { unfold leaf. destruct (failure _) eqn:F; [discriminate|]. intros [= <-]. apply failure_ok in F as (h & F). cbn [boot]. rewrite F. cbn [option_map]. eauto. }
    rewrite Eh. change (str_eqb (s_ "homa") (s_ "mercury")) with false. rewrite andb_false_r.
    destruct res as [res|]; [|discriminate]. destruct (res (s_ "homa")) as [o'|]; [|discriminate]. apply IH.
  - rewrite andb_false_r. destruct (mercury && str_eqb (protocol_name o) (s_ "mercury")).
    { unfold leaf. destruct (failure _) eqn:F; [discriminate|]. intros [= <-]. apply failure_ok in F as (m & F). cbn [boot]. rewrite F. cbn [option_map]. eauto. }
    destruct res as [res|]; [|discriminate]. destruct (res (protocol_name o)) as [o'|]; [|discriminate]. apply IH.
Qed.
Lemma allocate_ext homa mercury res i1 i2 : (forall path o, i1 path o = i2 path o) ->
  forall fuel o depth path, allocate fuel (mkEnv homa mercury res i1) o depth path = allocate fuel (mkEnv homa mercury res i2) o depth path.
Proof.
  intro H. induction fuel as [|f IH]; intros o depth path; [reflexivity|]. cbn [allocate ev_homa ev_mercury ev_resolver ev_init]. rewrite H, !IH.
  destruct res as [res|]; [|reflexivity]. destruct (res (protocol_name o)); [rewrite IH|]; reflexivity.
Qed.
(** The leaves of a tree. *)
Fixpoint leaves (l : live) : list live := match l with LDouble a b => leaves a ++ leaves b | LCounter a => leaves a | _ => [l] end.
Fixpoint front (l : live) : live := match l with LDouble a _ => front a | LCounter a => front a | _ => l end.
Definition is_grpc (l : live) : Prop := exists g, l = LGrpc g.
(** Without Homa and Mercury compiled in, all leaves are gRPC. *)
Lemma allocate_grpc res i les : forall fuel o depth path d l,
  allocate fuel (mkEnv false false res i) o depth path = DrvOk d -> boot les path d = Some l -> Forall is_grpc (leaves l).
Proof.
  induction fuel as [|f IH]; intros o depth path d l; cbn [allocate ev_homa ev_mercury ev_resolver ev_init andb]; [discriminate|].
  destruct (depth =? max_depth)%nat; [discriminate|]. cbv zeta.
  destruct (_ || _).
  { unfold leaf. destruct (i path o); [discriminate|]. intros [= <-]. cbn [boot]. destruct (ok_of _) as [g|]; [|discriminate]. intros [= <-]. constructor; [exists g; reflexivity|constructor]. }
  destruct (str_eqb (protocol_name o) (s_ "double_barrel")).
  { destruct (allocate f _ _ _ (path ++ [1%nat])) as [d1|e|] eqn:E1; try discriminate. destruct (allocate f _ _ _ (path ++ [2%nat])) as [d2|e|] eqn:E2; try discriminate.
    intros [= <-]. cbn [boot]. destruct (boot les (path ++ [1%nat]) d1) eqn:B1; [|discriminate]. destruct (boot les (path ++ [2%nat]) d2) eqn:B2; [|discriminate]. intros [= <-].
    cbn [leaves]. apply Forall_app. split; [exact (IH _ _ _ _ _ E1 B1)|exact (IH _ _ _ _ _ E2 B2)]. }
  destruct (str_eqb (protocol_name o) (s_ "composable_rpc_counter")).
  { destruct (allocate f _ _ _ (path ++ [1%nat])) as [d1|e|] eqn:E1; try discriminate. intros [= <-]. cbn [boot]. destruct (boot les (path ++ [1%nat]) d1) eqn:B1; [|discriminate].
    intros [= <-]. exact (IH _ _ _ _ _ E1 B1). }
  destruct res as [res|]; [|discriminate]. destruct (res (protocol_name o)) as [o'|]; [|discriminate]. apply IH.
Qed.
Lemma front_leaf l : In (front l) (leaves l).
Proof. induction l; cbn [front leaves]; auto using in_or_app; left; reflexivity. Qed.

(** ** The handshake *)
(** The address that a tree announces. *)
Definition announces (l : live) (ip : str) (port : Z) (socket : str) : Prop :=
  match front l with
  | LGrpc g => ip = ad_ip (gd_ip g) /\ port = gd_port g /\ socket = gd_socket g
  | LHoma h => ip = ad_ip (hd_ip h) /\ port = hd_port h /\ socket = hd_socket h
  | _ => False
  end.
Lemma announce_front l : announce l = announce (front l).
Proof. induction l; cbn [front announce]; auto. Qed.
Lemma announced_parses l ip port socket : announces l ip port socket -> short ip -> short socket -> int32 port ->
  sa_parse (announce l) = Some (mkSA (Some ip) (Some port) (Some socket)).
Proof.
  intros A S1 S2 S3. rewrite announce_front. unfold announces in A. destruct (front l); try destruct A; cbn [announce];
    repeat match goal with H : _ /\ _ |- _ => destruct H end; subst; apply sa_roundtrip; assumption.
Qed.
(** What a leaf does with a parsed address. *)
Definition connects (homa_grpc : bool) (ce : conn_env) (info ip : str) (port : Z) (socket : str) (leaf : live) (t : target) : Prop :=
  match leaf with
  | LGrpc g => (gd_transport g = s_ "tcp" /\ t = ToGrpc (s_ "tcp") (add_protocol socket)) \/ (gd_transport g = s_ "homa" /\ homa_grpc = true /\ t = ToGrpc (s_ "homa") socket)
  | LHoma _ => exists a, (In ":"%char ip -> ce_pton ce false ip = Some a /\ t = ToHoma false (port mod 65536) a) /\
                         (~ In ":"%char ip -> ce_pton ce true ip = Some a /\ t = ToHoma true (port mod 65536) a)
  | LMercury _ => exists z, ce_lookup ce info = Some z /\ t = ToMercury z
  | _ => False
  end.
Lemma colon_spec ip : existsb (Ascii.eqb colon) ip = true <-> In ":"%char ip.
Proof.
  rewrite existsb_exists. split; [intros (x & I & E)|intro I].
  - apply Ascii.eqb_eq in E. subst x. exact I.
  - exists ":"%char. auto.
Qed.
Lemma leaf_connects homa_grpc ce info ip port socket leaf : sa_parse info = Some (mkSA (Some ip) (Some port) (Some socket)) ->
  leaves leaf = [leaf] -> forall ts, connect homa_grpc ce info leaf = InitOk ts <-> exists t, ts = [t] /\ connects homa_grpc ce info ip port socket leaf t.
Proof.
  intros P L ts. destruct leaf as [g|h|m|a b|a]; cbn [connect connects]; cbn [leaves] in L.
  - unfold grpc_connect, transport_error, address_in. rewrite P. cbn [sa_socket opt_str].
    destruct (str_eqb_spec (gd_transport g) (s_ "homa")) as [E|N].
    + rewrite E. destruct homa_grpc; cbn [ibind].
      * split; [intros [= <-]; eexists; split; [reflexivity|auto]|]. intros (t & -> & [(K & _)|(_ & _ & ->)]); [discriminate K|reflexivity].
      * split; [discriminate|]. intros (t & -> & [(K & _)|(_ & K & _)]); discriminate K.
    + destruct (str_eqb_spec (gd_transport g) (s_ "tcp")) as [E|N2]; cbn [ibind].
      * rewrite E. split; [intros [= <-]; eexists; split; [reflexivity|auto]|]. intros (t & -> & [(_ & ->)|(K & _)]); [reflexivity|discriminate K].
      * split; [discriminate|]. intros (t & -> & [(K & _)|(K & _)]); contradiction.
  - unfold homa_connect. rewrite P. cbn [sa_ip sa_port opt_str]. cbv zeta. destruct (existsb (Ascii.eqb colon) ip) eqn:E; cbn [negb].
    + apply colon_spec in E. split.
      * destruct (ce_pton ce false ip) as [a|] eqn:T; cbn [ibind]; [|discriminate]. intros [= <-]. eexists. split; [reflexivity|]. exists a. split; [auto|intro K; contradiction].
      * intros (t & -> & a & A & _). destruct (A E) as (-> & ->). reflexivity.
    + assert (N : ~ In ":"%char ip) by (intro K; apply colon_spec in K; congruence). split.
      * destruct (ce_pton ce true ip) as [a|] eqn:T; cbn [ibind]; [|discriminate]. intros [= <-]. eexists. split; [reflexivity|]. exists a. split; [intro K; contradiction|auto].
      * intros (t & -> & a & _ & A). destruct (A N) as (-> & ->). reflexivity.
  - unfold mercury_connect. split.
    + destruct (ce_lookup ce info) as [z|]; cbn [ibind]; [|discriminate]. intros [= <-]. eexists. split; [reflexivity|]. exists z. auto.
    + intros (t & -> & z & -> & ->). reflexivity.
  - exfalso. apply (f_equal (@length live)) in L. cbn [length] in L. rewrite app_length in L. pose proof (front_leaf a) as Fa. pose proof (front_leaf b) as Fb.
    destruct (leaves a); [destruct Fa|]. destruct (leaves b); [destruct Fb|]. cbn [length] in L. lia.
  - exfalso. assert (K : forall x, In (LCounter x) (leaves a) -> False).
    { clear. intro x. induction a as [| | |a1 IH1 a2 IH2|a IH]; cbn [leaves]; try (intros [K|[]]; discriminate); [rewrite in_app_iff; tauto|exact IH]. }
    apply (K a). rewrite L. left. reflexivity.
Qed.
Lemma connect_leaves homa_grpc ce info ip port socket : sa_parse info = Some (mkSA (Some ip) (Some port) (Some socket)) ->
  forall l ts, connect homa_grpc ce info l = InitOk ts <-> Forall2 (connects homa_grpc ce info ip port socket) (leaves l) ts.
Proof.
  intro P.
  assert (B : forall l, leaves l = [l] -> forall ts, connect homa_grpc ce info l = InitOk ts <-> Forall2 (connects homa_grpc ce info ip port socket) [l] ts).
  { intros l L ts. rewrite (leaf_connects _ _ _ _ _ _ _ P L). split.
    - intros (t & -> & C). repeat constructor. exact C.
    - intro F. inversion F as [|x t xs rest C F']. subst. inversion F'. subst. eauto. }
  induction l as [g|h|m|a IHa b IHb|a IH]; intro ts; try (apply B; reflexivity); [|exact (IH ts)].
  cbn [connect leaves]. split.
  - destruct (connect homa_grpc ce info a) as [t1|c m|] eqn:E1; cbn [ibind]; try discriminate. destruct (connect homa_grpc ce info b) as [t2|c m|] eqn:E2; cbn [ibind]; try discriminate.
    intros [= <-]. apply Forall2_app; [apply IHa; reflexivity|apply IHb; reflexivity].
  - intro F. apply Forall2_app_inv_l in F as (t1 & t2 & F1 & F2 & ->). apply IHa in F1. apply IHb in F2. rewrite F1, F2. reflexivity.
Qed.
