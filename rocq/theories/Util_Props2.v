(** C42: the wrappers for server and client settings. *)
From Coq Require Import Ascii String List ZArith Bool Lia.
From Verif Require Import Base_Model Base_Proofs Util_Model Util_Proofs Util_Props.
Import ListNotations.
Open Scope Z_scope.

(** Each wrapper gives the first setting of its own side that carries the name
    and the type, or the default. *)
Definition first_string (l : list setting) (n d v : str) : Prop :=
  (exists l1 s l2, l = l1 ++ s :: l2 /\ carries_string n v s /\ forall s' v', In s' l1 -> ~ carries_string n v' s') \/ ((forall s v', In s l -> ~ carries_string n v' s) /\ v = d).
Definition first_int (l : list setting) (n : str) (d v : Z) : Prop :=
  (exists l1 s l2, l = l1 ++ s :: l2 /\ carries_int n v s /\ forall s' v', In s' l1 -> ~ carries_int n v' s') \/ ((forall s v', In s l -> ~ carries_int n v' s) /\ v = d).
Theorem C42_sides : forall o n d k,
  first_string (po_server o) n d (server_string o n d) /\ first_string (po_client o) n d (client_string o n d) /\
  first_int (po_server o) n k (server_int o n k) /\ first_int (po_client o) n k (client_int o n k).
Proof.
  intros o n d k. unfold first_string, first_int, server_string, client_string, server_int, client_int. repeat split.
  - destruct (C42_string (po_server o) n d) as [(l1 & s & l2 & v & E & C & F & ->)|K]; [left; exists l1, s, l2; auto|right; exact K].
  - destruct (C42_string (po_client o) n d) as [(l1 & s & l2 & v & E & C & F & ->)|K]; [left; exists l1, s, l2; auto|right; exact K].
  - destruct (C42_int (po_server o) n k) as [(l1 & s & l2 & v & E & C & F & ->)|K]; [left; exists l1, s, l2; auto|right; exact K].
  - destruct (C42_int (po_client o) n k) as [(l1 & s & l2 & v & E & C & F & ->)|K]; [left; exists l1, s, l2; auto|right; exact K].
Qed.
(** What a helper adds to one side is not seen on the other, under another name
    or as another type. *)
Theorem C42_added_elsewhere : forall o n v z m d k,
  client_string (add_server_string o n v) m d = client_string o m d /\ client_int (add_server_string o n v) m k = client_int o m k /\
  client_string (add_server_int o n z) m d = client_string o m d /\ client_int (add_server_int o n z) m k = client_int o m k /\
  server_string (add_client_string o n v) m d = server_string o m d /\ server_int (add_client_string o n v) m k = server_int o m k /\
  server_int (add_server_string o n v) m k = server_int o m k /\ server_string (add_server_int o n z) m d = server_string o m d /\ client_int (add_client_string o n v) m k = client_int o m k /\
  (m <> n -> server_string (add_server_string o n v) m d = server_string o m d /\ server_int (add_server_int o n z) m k = server_int o m k /\ client_string (add_client_string o n v) m d = client_string o m d).
Proof.
  intros o n v z m d k. unfold server_string, client_string, server_int, client_int, add_server_string, add_client_string, add_server_int. cbn [po_server po_client].
  rewrite !get_string_app, !get_int_app. cbn [get_string get_int st_name st_str st_int].
  repeat split; try (destruct (negb (str_eqb n m)); reflexivity); intros; destruct (str_eqb_spec n m); try congruence; reflexivity.
Qed.
Print Assumptions C42_sides.
Print Assumptions C42_added_elsewhere.
Definition ex_sides : driver_opts := mkOpts None None None [mkSet (Some (s_ "k")) (Some (s_ "x")) None; mkSet (Some (s_ "k")) None (Some 3)] [mkSet (Some (s_ "k")) None (Some 4); mkSet (Some (s_ "k")) None (Some 5)] 0.
Example C42_ex_sides : (server_string ex_sides (s_ "k") [], server_int ex_sides (s_ "k") 0, client_string ex_sides (s_ "k") [], client_int ex_sides (s_ "k") 0) = (s_ "x", 3, [], 4).
Proof. vm_compute. reflexivity. Qed.
