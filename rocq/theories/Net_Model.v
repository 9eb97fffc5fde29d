(** Address selection of distbench_netutils.cc.  Definitions only. *)
From Coq Require Import Ascii String List NArith ZArith Bool.
From Verif Require Import Base_Model.
Import ListNotations.
Open Scope Z_scope.

(** One entry of the list getifaddrs returns: the family of its address (or a
    null address), the numeric host name getnameinfo yields for it (or a
    failure) and the device name. *)
Inductive family := AfNull | AfInet | AfInet6 | AfOther.
Record if_entry := mkIf { if_family : family; if_host : option str; if_name : str }.
(** distbench_netutils.h: DeviceIpAddress (net_family_ is AF_INET or AF_INET6
    for every object that is returned). *)
Record addr := mkAddr { ad_ip : str; ad_dev : str; ad_v4 : bool }.

(** string_view::empty. *)
Definition is_empty (s : str) : bool := match s with [] => true | _ => false end.
(** distbench_netutils.cc 47-77: GetAllAddresses; a failing getifaddrs gives
    the empty table. *)
Fixpoint all_addresses (tbl : list if_entry) (netdev : str) : list addr :=
  match tbl with
  | [] => []
  | e :: r =>
      match if_family e with
      | AfNull | AfOther => all_addresses r netdev
      | f =>
          match if_host e with
          | None => all_addresses r netdev
          | Some h =>
              let a := mkAddr h (if_name e) (match f with AfInet => true | _ => false end) in
              if is_empty netdev || str_eqb netdev (ad_dev a) then a :: all_addresses r netdev
              else all_addresses r netdev
          end
      end
  end.

(** distbench_netutils.cc 138: isLoopback. *)
Definition is_loopback (a : addr) : bool := str_eqb (ad_dev a) (s_ "lo").
(** distbench_netutils.cc 154-156: isLinkLocal. *)
Definition is_link_local (a : addr) : bool :=
  starts_with (ad_ip a) (s_ "fe80:") || starts_with (ad_ip a) (s_ "169.254.255").

(** The "%x" conversions of distbench_netutils.cc 144.  The text is a numeric
    host, so signs, "0x" and values beyond 32 bits (more than eight hex digits)
    are not modelled. *)
Definition hex_val (c : ascii) : option Z :=
  let n := Z.of_N (N_of_ascii c) in
  if (48 <=? n) && (n <=? 57) then Some (n - 48)
  else if (97 <=? n) && (n <=? 102) then Some (n - 87)
  else if (65 <=? n) && (n <=? 70) then Some (n - 55) else None.
Fixpoint hex_digits (s : str) (acc : Z) : Z * str :=
  match s with
  | [] => (acc, [])
  | c :: r => match hex_val c with Some v => hex_digits r (acc * 16 + v) | None => (acc, s) end
  end.
Definition scan_x (s : str) : option (Z * str) :=
  match skip_space s with
  | c :: r => match hex_val c with Some v => Some (hex_digits r v) | None => None end
  | [] => None
  end.
(** Both conversions of sscanf(ip, "2002:%x:%x:"); the final ':' does not
    count. *)
Definition scan_6to4 (ip : str) : option (Z * Z) :=
  if starts_with ip (s_ "2002:") then
    match scan_x (skipn 5 ip) with
    | Some (upper, c :: r) =>
        if Ascii.eqb c ":" then match scan_x r with Some (lower, _) => Some (upper, lower) | None => None end else None
    | _ => None
    end
  else None.
Definition dot : ascii := "."%char.
Definition colon : ascii := ":"%char.
(** distbench_netutils.cc 140-152: isPrivate. *)
Definition is_private (a : addr) : bool :=
  let ip := match scan_6to4 (ad_ip a) with
            | Some (u, l) => dec_of_Z (Z.shiftr u 8) ++ dot :: dec_of_Z (Z.land u 255) ++ dot ::
                             dec_of_Z (Z.shiftr l 8) ++ dot :: dec_of_Z (Z.land l 255)
            | None => ad_ip a
            end in
  starts_with ip (s_ "10.") || starts_with ip (s_ "172.16") || starts_with ip (s_ "192.168")
  || starts_with ip (s_ "fc00:") || starts_with ip (s_ "fd00:").

(** distbench_netutils.cc 115-121: the score of an address. *)
Definition score (prefer_ipv4 : bool) (a : addr) : Z :=
  Z.b2z (eqb (ad_v4 a) prefer_ipv4) + Z.b2z (is_private a) + (if is_loopback a then 0 else 2).
(** distbench_netutils.cc 109-126: the loop. *)
Fixpoint best_loop (prefer_ipv4 : bool) (l : list addr) (sc : Z) (best : option addr) : option addr :=
  match l with
  | [] => if sc <? 0 then None else best
  | a :: r =>
      if is_link_local a then best_loop prefer_ipv4 r sc best
      else if sc <? score prefer_ipv4 a then best_loop prefer_ipv4 r (score prefer_ipv4 a) (Some a)
      else best_loop prefer_ipv4 r sc best
  end.
(** distbench_netutils.cc 83-134: GetBestAddress; [None] is NotFound.
    [best_match] is only read when some address has set it. *)
Definition best_address (tbl : list if_entry) (netdev : str) (prefer_ipv4 : bool) : option addr :=
  let l := all_addresses tbl netdev in
  if negb (is_empty netdev) then
    match find (fun a => negb (is_link_local a) && eqb (ad_v4 a) prefer_ipv4) l with
    | Some a => Some a
    | None => find (fun a => negb (is_link_local a)) l
    end
  else best_loop prefer_ipv4 l (-1) None.

(** distbench_netutils.cc 226-231: SocketAddressForIp. *)
Definition socket_address (a : addr) (port : Z) : str :=
  if ad_v4 a then ad_ip a ++ colon :: dec_of_Z port
  else s_ "[" ++ ad_ip a ++ s_ "]:" ++ dec_of_Z port.
(** distbench_netutils.cc 177-182: HasOnlyIPv4. *)
Definition has_only_ipv4 (tbl : list if_entry) (netdev : str) : bool :=
  forallb (fun a => negb (negb (ad_v4 a) && negb (is_link_local a))) (all_addresses tbl netdev).
(** distbench_netutils.cc 186-196: GetBindAddressFromPort; [flag] is
    --prefer_ipv4. *)
Definition bind_address (tbl : list if_entry) (flag : bool) (netdev : str) (port : Z) : str :=
  let wildcard := if has_only_ipv4 tbl netdev || flag then s_ "0.0.0.0:" ++ dec_of_Z port
                  else s_ "[::]:" ++ dec_of_Z port in
  if is_empty netdev then wildcard
  else match best_address tbl netdev flag with
       | None => wildcard
       | Some a => socket_address a port
       end.
(** distbench_netutils.cc 198-217: IpAddressForDevice. *)
Definition ip_for_device (tbl : list if_entry) (flag : bool) (netdev : str) (version : Z) : option addr :=
  if version =? 4 then
    match best_address tbl netdev true with
    | Some a => if negb (ad_v4 a) then None else Some a
    | None => None
    end
  else if version =? 6 then
    match best_address tbl netdev false with
    | Some a => if ad_v4 a then None else Some a
    | None => None
    end
  else best_address tbl netdev flag.
(** distbench_netutils.cc 219-224: SocketAddressForDevice. *)
Definition socket_for_device (tbl : list if_entry) (flag : bool) (netdev : str) (port : Z) : option str :=
  match best_address tbl netdev flag with Some a => Some (socket_address a port) | None => None end.
