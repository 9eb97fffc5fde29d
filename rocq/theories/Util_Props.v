(** C42, C55, C58 and C62: settings, timeouts, statuses, activity settings. *)
From Coq Require Import Ascii String List NArith ZArith Bool Lia.
From Verif Require Import Base_Model Base_Proofs Util_Model Util_Proofs.
Import ListNotations.
Open Scope Z_scope.

(** ** C42: named settings *)
(** [carries_string n v s]: entry [s] is named [n], has the string [v] and no
    integer; [carries_int] is symmetrical.  A lookup returns the value of the
    first such entry and the default if there is none. *)
Theorem C42_string : forall l n d,
  (exists l1 s l2 v, l = l1 ++ s :: l2 /\ carries_string n v s /\
     (forall s' v', In s' l1 -> ~ carries_string n v' s') /\ get_string l n d = v)
  \/ ((forall s v, In s l -> ~ carries_string n v s) /\ get_string l n d = d).
Proof.
  intros l n d.
  assert (H : (forall s v, In s l -> ~ carries_string n v s) \/
    exists l1 s l2 v, l = l1 ++ s :: l2 /\ carries_string n v s /\ (forall s' v', In s' l1 -> ~ carries_string n v' s')).
  { induction l as [|x l IH]; [left; intros ? ? []|].
    assert (D : (exists v, carries_string n v x) \/ forall v, ~ carries_string n v x).
    { destruct (st_name x) as [m|] eqn:N; [|right; intros v (A & _); congruence].
      destruct (str_eqb_spec m n) as [->|]; [|right; intros v (A & _); congruence].
      destruct (st_str x) as [v|] eqn:S; [|right; intros v (_ & A & _); congruence].
      destruct (st_int x) eqn:I; [right; intros w (_ & _ & A); congruence|].
      left. exists v. repeat split; assumption. }
    destruct D as [(v & D)|D].
    - right. exists [], x, l, v. split; [reflexivity|]. split; [exact D|]. intros ? ? [].
    - destruct IH as [IH|(l1 & s & l2 & v & -> & C & F)].
      + left. intros s v [<-|I]; [apply D|apply IH; exact I].
      + right. exists (x :: l1), s, l2, v. split; [reflexivity|]. split; [exact C|].
        intros s' v' [<-|I]; [apply D|eapply F; exact I]. }
  destruct H as [H|(l1 & s & l2 & v & -> & C & F)].
  - right. split; [exact H|]. apply get_string_none, H.
  - left. exists l1, s, l2, v. repeat split; try apply C; try exact F. apply get_string_first; assumption.
Qed.
Theorem C42_int : forall l n d,
  (exists l1 s l2 v, l = l1 ++ s :: l2 /\ carries_int n v s /\
     (forall s' v', In s' l1 -> ~ carries_int n v' s') /\ get_int l n d = v)
  \/ ((forall s v, In s l -> ~ carries_int n v s) /\ get_int l n d = d).
Proof.
  intros l n d.
  assert (H : (forall s v, In s l -> ~ carries_int n v s) \/
    exists l1 s l2 v, l = l1 ++ s :: l2 /\ carries_int n v s /\ (forall s' v', In s' l1 -> ~ carries_int n v' s')).
  { induction l as [|x l IH]; [left; intros ? ? []|].
    assert (D : (exists v, carries_int n v x) \/ forall v, ~ carries_int n v x).
    { destruct (st_name x) as [m|] eqn:N; [|right; intros v (A & _); congruence].
      destruct (str_eqb_spec m n) as [->|]; [|right; intros v (A & _); congruence].
      destruct (st_int x) as [v|] eqn:S; [|right; intros v (_ & A & _); congruence].
      destruct (st_str x) eqn:I; [right; intros w (_ & _ & A); congruence|].
      left. exists v. repeat split; assumption. }
    destruct D as [(v & D)|D].
    - right. exists [], x, l, v. split; [reflexivity|]. split; [exact D|]. intros ? ? [].
    - destruct IH as [IH|(l1 & s & l2 & v & -> & C & F)].
      + left. intros s v [<-|I]; [apply D|apply IH; exact I].
      + right. exists (x :: l1), s, l2, v. split; [reflexivity|]. split; [exact C|].
        intros s' v' [<-|I]; [apply D|eapply F; exact I]. }
  destruct H as [H|(l1 & s & l2 & v & -> & C & F)].
  - right. split; [exact H|]. apply get_int_none, H.
  - left. exists l1, s, l2, v. repeat split; try apply C; try exact F. apply get_int_first; assumption.
Qed.
(** An option added by the helpers comes last, so it never overrides one that
    the configuration already carries; it acts as a new default. *)
Theorem C42_added_option_is_default : forall o n v w d z,
  server_string (add_server_string o n v) n d = server_string o n v /\
  client_string (add_client_string o n v) n d = client_string o n v /\
  server_int (add_server_int o n z) n w = server_int o n z /\
  (forall m, m <> n -> server_string (add_server_string o n v) m d = server_string o m d) /\
  (forall m, client_string (add_server_string o n v) m d = client_string o m d).
Proof.
  intros o n v w d z. unfold server_string, client_string, server_int, add_server_string, add_client_string, add_server_int.
  cbn [po_server po_client]. rewrite !get_string_app, get_int_app. cbn [get_string get_int st_name st_str st_int].
  rewrite str_eqb_refl. cbn [negb]. repeat split.
  intros m N. rewrite get_string_app. cbn [get_string st_name st_str st_int].
  destruct (str_eqb_spec n m); [congruence|reflexivity].
Qed.
(** The gRPC builder receives every named setting that has a value; of two
    values the string wins. *)
Theorem C42_builder_arguments : forall l n,
  (forall v, In (ArgStr n v) (builder_args l) <-> exists s, In s l /\ st_name s = Some n /\ st_str s = Some v) /\
  (forall v, In (ArgInt n v) (builder_args l) <-> exists s, In s l /\ carries_int n v s).
Proof. intros l n. split; intro v; [apply builder_str|apply builder_int]. Qed.
(** Not true: that a setting handed to the builder can also be looked up.  An
    entry carrying both values is ignored by both lookups. *)
Theorem C42_builder_agrees_refuted : exists l n v,
  In (ArgStr n v) (builder_args l) /\ (forall d, get_string l n d = d) /\ (forall d, get_int l n d = d).
Proof.
  exists [mkSet (Some (s_ "threads")) (Some (s_ "4")) (Some 4)], (s_ "threads"), (s_ "4").
  split; [left; reflexivity|split; reflexivity].
Qed.
Definition settings_ex : list setting :=
  [mkSet None (Some (s_ "a")) None; mkSet (Some (s_ "k")) (Some (s_ "text")) None;
   mkSet (Some (s_ "k")) None None; mkSet (Some (s_ "k")) None (Some 7); mkSet (Some (s_ "k")) None (Some 8);
   mkSet (Some (s_ "k")) (Some (s_ "later")) None].
Example C42_ex_int : get_int settings_ex (s_ "k") 1 = 7. Proof. reflexivity. Qed.
Example C42_ex_string : get_string settings_ex (s_ "k") (s_ "d") = s_ "text". Proof. reflexivity. Qed.
Example C42_ex_missing : get_int settings_ex (s_ "j") 1 = 1. Proof. reflexivity. Qed.
Example C42_ex_builder : builder_args settings_ex =
  [ArgStr (s_ "k") (s_ "text"); ArgInt (s_ "k") 7; ArgInt (s_ "k") 8; ArgStr (s_ "k") (s_ "later")].
Proof. reflexivity. Qed.
Example C42_ex_added :
  let o := mkOpts None None None settings_ex [] 0 in
  (server_string (add_server_string o (s_ "k") (s_ "new")) (s_ "k") [], server_string (add_server_string o (s_ "j") (s_ "new")) (s_ "j") [])
  = (s_ "text", s_ "new").
Proof. reflexivity. Qed.

(** ** C55: timeouts *)
(** [specified t v]: the test has a test_timeout attribute that reads as [v]. *)
Theorem C55_sum : forall tests vs d, tests <> [] -> Forall2 specified tests vs -> Forall (fun v => 0 < v) vs ->
  fold_right Z.add 0 vs <= int64_max -> sequence_timeout tests d = TimeoutOk (fold_right Z.add 0 vs).
Proof.
  intros tests vs d N F P S. unfold sequence_timeout.
  rewrite <- (app_nil_r tests), (timeout_loop_prefix tests vs [] d 0 F P); [|lia|lia].
  cbn [timeout_loop]. rewrite Z.add_0_l.
  assert (0 < fold_right Z.add 0 vs).
  { destruct F; [congruence|]. inversion P as [|? ? P1 P2]; subst. cbn [fold_right].
    assert (0 <= fold_right Z.add 0 l') by (clear -P2; induction P2; cbn [fold_right]; lia). lia. }
  destruct (Z.eqb_spec (fold_right Z.add 0 vs) 0); [lia|reflexivity].
Qed.
Theorem C55_default : forall pre t post vs d, Forall2 specified pre vs -> Forall (fun v => 0 < v) vs ->
  fold_right Z.add 0 vs <= int64_max -> map_find timeout_name t = None ->
  sequence_timeout (pre ++ t :: post) d = TimeoutOk d.
Proof.
  intros pre t post vs d F P S N. unfold sequence_timeout.
  rewrite (timeout_loop_prefix pre vs _ d 0 F P); [|lia|lia]. cbn [timeout_loop].
  unfold attribute_int. rewrite N, Z.eqb_refl. reflexivity.
Qed.
Theorem C55_empty : forall d, sequence_timeout [] d = TimeoutOk d.
Proof. reflexivity. Qed.
Theorem C55_unparsable : forall pre t post vs d x, Forall2 specified pre vs -> Forall (fun v => 0 < v) vs ->
  fold_right Z.add 0 vs <= int64_max -> map_find timeout_name t = Some x -> simple_atoi x = None ->
  sequence_timeout (pre ++ t :: post) d = TimeoutUnparsable.
Proof.
  intros pre t post vs d x F P S N E. unfold sequence_timeout.
  rewrite (timeout_loop_prefix pre vs _ d 0 F P); [|lia|lia]. cbn [timeout_loop].
  unfold attribute_int. rewrite N, E. reflexivity.
Qed.
Theorem C55_not_positive : forall pre t post vs d v, Forall2 specified pre vs -> Forall (fun v => 0 < v) vs ->
  fold_right Z.add 0 vs <= int64_max -> specified t v -> v <= 0 -> v <> int64_min ->
  sequence_timeout (pre ++ t :: post) d = TimeoutNotPositive v.
Proof.
  intros pre t post vs d v F P S (x & N & E) L M. unfold sequence_timeout.
  rewrite (timeout_loop_prefix pre vs _ d 0 F P); [|lia|lia]. cbn [timeout_loop].
  unfold attribute_int. rewrite N, E. destruct (Z.eqb_spec v int64_min); [congruence|].
  destruct (Z.leb_spec v 0); [reflexivity|lia].
Qed.
(** Conversely a timeout that is neither the default nor the sum never comes out. *)
Theorem C55_only : forall tests d v, sequence_timeout tests d = TimeoutOk v ->
  v = d \/ exists vs, Forall2 specified tests vs /\ Forall (fun v => 0 < v) vs /\ v = fold_right Z.add 0 vs.
Proof.
  intros tests d v H. apply timeout_ok in H; [|lia].
  destruct H as [(-> & _)|(vs & F & P & ->)]; [left; reflexivity|right; exists vs; auto].
Qed.
(** The command line flag replaces the timeout of every test, keeps the other
    attributes, and the whole sequence gets the flag once per test. *)
Theorem C55_flag : forall flag tests, 0 < flag -> tests <> [] -> Z.of_nat (length tests) * flag <= int64_max ->
  exists tests', run_tests_timeout flag tests = (tests', TimeoutOk (Z.of_nat (length tests) * flag)) /\
    Forall2 (fun t t' => specified t' flag /\ forall n, n <> timeout_name -> map_find n t' = map_find n t) tests tests'.
Proof.
  intros flag tests F N S. unfold run_tests_timeout.
  destruct (Z.eqb_spec flag 0); [lia|]. cbn [negb].
  assert (R : in_int64 flag = true).
  { unfold in_int64. assert (1 <= Z.of_nat (length tests)) by (destruct tests; [congruence|cbn [length]; lia]).
    assert (1 * flag <= Z.of_nat (length tests) * flag) by (apply Z.mul_le_mono_nonneg_r; lia).
    destruct (Z.leb_spec (-9223372036854775808) flag); [|lia]. destruct (Z.leb_spec flag int64_max); [reflexivity|lia]. }
  assert (P : forall t, specified (map_set timeout_name (dec_of_Z flag) t) flag).
  { intro t. exists (dec_of_Z flag). split; [apply map_find_set_same|apply simple_atoi_dec, R]. }
  exists (set_all_timeouts tests (dec_of_Z flag)). split.
  - f_equal. rewrite <- sum_repeat. apply C55_sum.
    + unfold set_all_timeouts. destruct tests; [congruence|discriminate].
    + unfold set_all_timeouts. clear -P. induction tests; constructor; [apply P|exact IHtests].
    + clear -F. induction tests; constructor; assumption.
    + rewrite sum_repeat. exact S.
  - unfold set_all_timeouts. clear -P. induction tests as [|t r IH]; constructor; [|exact IH].
    split; [apply P|]. intros n H. apply map_find_set_other, H.
Qed.
(** Without the flag nothing is overwritten; one hour is the default when some
    test says nothing, and otherwise the tests' own timeouts add up. *)
Theorem C55_no_flag : forall tests,
  fst (run_tests_timeout 0 tests) = tests /\
  (tests = [] -> snd (run_tests_timeout 0 tests) = TimeoutOk 3600) /\
  (forall pre t post vs, tests = pre ++ t :: post -> Forall2 specified pre vs -> Forall (fun v => 0 < v) vs ->
     fold_right Z.add 0 vs <= int64_max -> map_find timeout_name t = None ->
     snd (run_tests_timeout 0 tests) = TimeoutOk 3600) /\
  (forall vs, tests <> [] -> Forall2 specified tests vs -> Forall (fun v => 0 < v) vs ->
     fold_right Z.add 0 vs <= int64_max ->
     snd (run_tests_timeout 0 tests) = TimeoutOk (fold_right Z.add 0 vs)).
Proof.
  intro tests. unfold run_tests_timeout. cbn [Z.eqb negb fst snd].
  split; [reflexivity|]. split; [intros ->; reflexivity|]. split.
  - intros pre t post vs -> F P S N. exact (C55_default pre t post vs 3600 F P S N).
  - intros vs N F P S. exact (C55_sum tests vs 3600 N F P S).
Qed.
Theorem C55_flag_negative : forall flag t tests, int64_min < flag < 0 ->
  snd (run_tests_timeout flag (t :: tests)) = TimeoutNotPositive flag.
Proof.
  intros flag t tests H. unfold run_tests_timeout. destruct (Z.eqb_spec flag 0); [lia|]. cbn [negb snd set_all_timeouts map].
  apply (C55_not_positive [] _ _ []); try constructor; cbn [fold_right]; try lia; try (unfold int64_max; lia).
  exists (dec_of_Z flag). split; [apply map_find_set_same|]. apply simple_atoi_dec. unfold in_int64, int64_min in *.
  destruct (Z.leb_spec (-9223372036854775808) flag); [|lia]. destruct (Z.leb_spec flag int64_max); [reflexivity|unfold int64_max in *; lia].
Qed.
(** The deadline is the timeout as long as that fits in an int. *)
Theorem C55_deadline : forall v, 0 <= v <= int32_max -> deadline_seconds v = v.
Proof.
  intros v H. apply narrow_id. unfold in_int32. destruct (Z.leb_spec (-2147483648) v); [|lia].
  destruct (Z.leb_spec v int32_max); [reflexivity|lia].
Qed.
(** Findings: the deadline can lie in the past although the timeout is
    positive; --max_test_duration=inf overflows on two tests; a test whose
    timeout is INT64_MIN counts as unspecified instead of invalid. *)
Theorem C55_deadline_positive_refuted : exists tests v d,
  sequence_timeout tests d = TimeoutOk v /\ 0 < v /\ deadline_seconds v < 0.
Proof. exists [[(timeout_name, s_ "2147483648")]], 2147483648, 3600. vm_compute. repeat split. Qed.
Theorem C55_flag_defined_refuted : exists flag tests, 0 < flag <= int64_max /\
  snd (run_tests_timeout flag tests) = TimeoutOverflow.
Proof. exists int64_max, [[]; []]. split; [unfold int64_max; lia|vm_compute; reflexivity]. Qed.
Theorem C55_min_rejected_refuted : exists t v d, specified t v /\ v <= 0 /\ sequence_timeout [t] d = TimeoutOk d.
Proof.
  exists [(timeout_name, s_ "-9223372036854775808")], int64_min, 3600. split; [|split].
  - eexists. split; [vm_compute; reflexivity|vm_compute; reflexivity].
  - unfold int64_min; lia.
  - vm_compute. reflexivity.
Qed.
Definition test_a : attributes := [(s_ "x", s_ "1"); (timeout_name, s_ " 20 ")].
Definition test_b : attributes := [(timeout_name, s_ "+22")].
Example C55_ex_sum : sequence_timeout [test_a; test_b; test_a] 3600 = TimeoutOk 62. Proof. vm_compute. reflexivity. Qed.
Example C55_ex_default : sequence_timeout [test_a; []; [(timeout_name, s_ "zz")]] 3600 = TimeoutOk 3600. Proof. vm_compute. reflexivity. Qed.
Example C55_ex_bad : sequence_timeout [test_a; [(timeout_name, s_ "1h")]] 3600 = TimeoutUnparsable. Proof. vm_compute. reflexivity. Qed.
Example C55_ex_zero : sequence_timeout [test_a; [(timeout_name, s_ "0")]] 3600 = TimeoutNotPositive 0. Proof. vm_compute. reflexivity. Qed.
Example C55_ex_flag : run_tests_timeout 90 [test_a; []] =
  ([[(s_ "x", s_ "1"); (timeout_name, s_ "90")]; [(timeout_name, s_ "90")]], TimeoutOk 180).
Proof. vm_compute. reflexivity. Qed.
Example C55_ex_flag_negative : snd (run_tests_timeout (-5) [test_a]) = TimeoutNotPositive (-5). Proof. vm_compute. reflexivity. Qed.
Example C55_ex_deadline : deadline_seconds 3600 = 3600. Proof. vm_compute. reflexivity. Qed.

(** ** C58: statuses *)
(** Codes 1 to 16 are the error codes both libraries define. *)
Theorem C58_grpc_round_trip : forall s, 1 <= g_code s <= 16 ->
  let a := grpc_to_absl s in
  a_ok a = false /\ a_code a = g_code s /\ a_msg a = g_msg s /\ absl_to_grpc a = s.
Proof.
  intros [c m] H. cbn [g_code g_msg] in *. unfold grpc_to_absl, g_ok, absl_make. cbn [g_code g_msg].
  destruct (Z.eqb_spec c 0); [lia|]. unfold absl_to_grpc. cbn [a_ok a_code a_msg].
  destruct (Z.leb_spec 0 c); [|lia]. destruct (Z.leb_spec c 16); [|lia]. cbn [andb]. auto.
Qed.
Theorem C58_absl_round_trip : forall raw m, 1 <= raw <= 16 ->
  let s := AErr raw m in
  g_code (absl_to_grpc s) = raw /\ g_msg (absl_to_grpc s) = m /\ grpc_to_absl (absl_to_grpc s) = s.
Proof.
  intros raw m H. cbv zeta. unfold absl_to_grpc, grpc_to_absl, g_ok, absl_make. cbn [a_ok a_code a_msg].
  destruct (Z.leb_spec 0 raw); [|lia]. destruct (Z.leb_spec raw 16); [|lia]. cbn [andb g_code g_msg].
  destruct (Z.eqb_spec raw 0); [lia|]. auto.
Qed.
(** Success stays success and failure failure, whatever the code and message. *)
Theorem C58_outcome : forall g raw m, raw <> 0 ->
  a_ok (grpc_to_absl g) = g_ok g /\ g_ok (absl_to_grpc (AErr raw m)) = false /\ absl_to_grpc AOk = grpc_ok.
Proof.
  intros [c m'] raw m R. unfold grpc_to_absl, g_ok, absl_make. cbn [g_code]. split; [|split; [|reflexivity]].
  - destruct (Z.eqb_spec c 0); reflexivity.
  - cbn [absl_to_grpc a_ok a_code g_code]. destruct (Z.leb_spec 0 raw); cbn [andb]; [|reflexivity].
    destruct (Z.leb_spec raw 16); [|reflexivity]. apply Z.eqb_neq, R.
Qed.
Theorem C58_annotate : forall g ctx, g_code (annotate g ctx) = g_code g /\ g_ok (annotate g ctx) = g_ok g /\
  g_msg (annotate g ctx) = ctx ++ g_msg g.
Proof. repeat split. Qed.
(** An error code unknown to abseil comes back as UNKNOWN, with its message. *)
Theorem C58_unknown_code : forall c m, c < 0 \/ 16 < c -> absl_to_grpc (grpc_to_absl (mkG c m)) = mkG 2 m.
Proof.
  intros c m H. unfold grpc_to_absl, g_ok, absl_make. cbn [g_code g_msg].
  destruct (Z.eqb_spec c 0); [lia|]. unfold absl_to_grpc. cbn [a_ok a_code a_msg].
  destruct (Z.leb_spec 0 c); [|reflexivity]. destruct (Z.leb_spec c 16); [lia|reflexivity].
Qed.
Example C58_ex_round : absl_to_grpc (grpc_to_absl (mkG 9 (s_ "no nodes"))) = mkG 9 (s_ "no nodes"). Proof. reflexivity. Qed.
Example C58_ex_absl : grpc_to_absl (absl_to_grpc (AErr 4 (s_ "late"))) = AErr 4 (s_ "late"). Proof. reflexivity. Qed.
Example C58_ex_ok : (grpc_to_absl (mkG 0 (s_ "note")), g_ok (absl_to_grpc (AErr 77 []))) = (AOk, false). Proof. reflexivity. Qed.
Example C58_ex_annotate : annotate (mkG 10 (s_ "x")) (s_ "ctx: ") = mkG 10 (s_ "ctx: x"). Proof. reflexivity. Qed.
Example C58_ex_unknown : absl_to_grpc (grpc_to_absl (mkG 42 (s_ "x"))) = mkG 2 (s_ "x"). Proof. reflexivity. Qed.

(** ** C62: activity settings *)
(** Settings whose integers all fit in 32 bits. *)
Definition ints_fit (l : list setting) : Prop :=
  forall s v, In s l -> st_int s = Some v -> in_int32 v = true.
Lemma get_fits l n d : ints_fit l -> in_int32 d = true -> in_int32 (get_int l n d) = true.
Proof.
  intros F D. destruct (get_int_cases l n) as [(v & I & ->)| ->]; [|exact D].
  apply in_flat_map in I. destruct I as (s & I1 & I2). destruct (st_int s) eqn:E; [|destruct I2].
  destruct I2 as [<-|[]]. eapply F; eassumption.
Qed.
(** An accepted activity can be allocated, and running it any number of times
    never leaves its arrays and counts every run. *)
Definition counts (a : activity) : bool := match a with ActWait _ _ => false | _ => true end.
Definition wellformed (a : activity) (n : Z) : Prop :=
  match a with
  | ActCpu size it => 1 <= size /\ it = n
  | ActData size lo hi reads it => 0 <= lo /\ lo <= hi /\ hi < size /\ 1 <= reads /\ it = n
  | ActInstr size lo hi _ it => 0 <= lo /\ lo <= hi /\ hi < size /\ it = n
  | ActWait _ us => 1 <= us
  end.
Lemma do_wellformed d a n : wellformed a n ->
  exists a' e, do_activity d a = DoOk a' e /\ wellformed a' (n + 1) /\ counts a' = counts a.
Proof.
  destruct a; cbn [wellformed do_activity]; intro H.
  - eexists _, _. split; [reflexivity|]. cbn [wellformed counts]. split; [lia|reflexivity].
  - destruct (index_ok d size lo hi reads) as (l & -> & _); try lia.
    eexists _, _. split; [reflexivity|]. cbn [wellformed counts]. split; [lia|reflexivity].
  - destruct (index_ok d size lo hi invocations) as (l & -> & _); try lia.
    eexists _, _. split; [reflexivity|]. cbn [wellformed counts]. split; [lia|reflexivity].
  - eexists _, _. split; [reflexivity|]. cbn [wellformed counts]. split; [lia|reflexivity].
Qed.
Lemma parse_inj a b : ParseOk a = ParseOk b -> b = a.
Proof. congruence. Qed.
Lemma alloc_inj a b : AllocOk a = AllocOk b -> b = a.
Proof. congruence. Qed.
Lemma alloc_wellformed a p : parse_activity a = ParseOk p -> ints_fit (ac_settings a) ->
  exists act, alloc_activity p = AllocOk act /\ wellformed act 0.
Proof.
  unfold parse_activity, validate_array, validate_data_cache, validate_duration. cbv zeta. intros H F.
  assert (X := fun n => get_fits (ac_settings a) n 1000 F eq_refl).
  assert (Y := get_fits (ac_settings a) (s_ "array_size") 2000000 F eq_refl).
  assert (S := get_int_cases (ac_settings a) (s_ "array_size")).
  assert (U := get_int_cases (ac_settings a) (s_ "duration_us")).
  destruct (func_of_name _) as [[]|]; [| | | | |discriminate].
  - destruct (Z.ltb_spec (get_int (ac_settings a) (s_ "array_size") 1000) 1); [discriminate|]. apply parse_inj in H; subst p.
    cbn [alloc_activity pa_func pa_array]. rewrite narrow_id by apply X.
    destruct (Z.ltb_spec (get_int (ac_settings a) (s_ "array_size") 1000) 0); [lia|].
    eexists. split; [reflexivity|]. cbn [wellformed]. lia.
  - destruct (Z.ltb_spec (get_int (ac_settings a) (s_ "array_size") 1000) 1); [discriminate|].
    destruct (Z.ltb_spec (get_int (ac_settings a) (s_ "array_reads_per_iteration") 1000) 1); [discriminate|].
    apply parse_inj in H; subst p. cbn [alloc_activity pa_func pa_array pa_reads]. rewrite (narrow_id _ Y), narrow_id by apply X.
    assert (1 <= get_int (ac_settings a) (s_ "array_size") 2000000).
    { destruct S as [(v & _ & E)|E]; rewrite E in *; lia. }
    destruct (Z.ltb_spec (get_int (ac_settings a) (s_ "array_size") 2000000) 0); [lia|].
    destruct (Z.ltb_spec (get_int (ac_settings a) (s_ "array_size") 2000000 - 1) 0); [lia|].
    eexists. split; [reflexivity|]. cbn [wellformed]. lia.
  - apply parse_inj in H; subst p. cbn [alloc_activity pa_func pa_invocations]. eexists. split; [reflexivity|].
    cbn [wellformed]. unfold func_array_size. lia.
  - destruct (Z.ltb_spec (get_int (ac_settings a) (s_ "duration_us") (-1)) 1); [discriminate|]. apply parse_inj in H; subst p.
    cbn [alloc_activity pa_func pa_duration]. eexists. split; [reflexivity|]. cbn [wellformed].
    destruct U as [(v & _ & E)|E]; rewrite E in *; lia.
  - destruct (Z.ltb_spec (get_int (ac_settings a) (s_ "duration_us") (-1)) 1); [discriminate|]. apply parse_inj in H; subst p.
    cbn [alloc_activity pa_func pa_duration]. eexists. split; [reflexivity|]. cbn [wellformed].
    destruct U as [(v & _ & E)|E]; rewrite E in *; lia.
Qed.
Lemma run_wellformed draws act n : wellformed act 0 ->
  exists a' e, run_activity draws n act = DoOk a' e /\ wellformed a' (Z.of_nat n) /\ counts a' = counts act.
Proof.
  intro H. induction n as [|n (a' & e & R & W & C)]; cbn [run_activity].
  - eexists _, _. split; [reflexivity|]. split; [exact H|reflexivity].
  - rewrite R. destruct (do_wellformed (draws n) a' _ W) as (a2 & e2 & D & W2 & C2).
    exists a2, e2. rewrite D, Nat2Z.inj_succ. split; [reflexivity|]. split; [exact W2|congruence].
Qed.
Theorem C62_accepted_runs : forall a p draws n,
  parse_activity a = ParseOk p -> ints_fit (ac_settings a) ->
  exists act a' e, alloc_activity p = AllocOk act /\ run_activity draws n act = DoOk a' e /\
    activity_log a' = match counts act, n with
                      | true, S _ => [(s_ "iteration_count", Z.of_nat n)]
                      | _, _ => []
                      end.
Proof.
  intros a p draws n H F. destruct (alloc_wellformed a p H F) as (act & A & W).
  destruct (run_wellformed draws act n W) as (a' & e & R & W' & C).
  exists act, a', e. split; [exact A|]. split; [exact R|]. rewrite <- C.
  destruct a'; cbn [wellformed counts activity_log] in *; [| | |reflexivity].
  all: assert (I : iterations = Z.of_nat n) by lia; rewrite I; destruct n; reflexivity.
Qed.
(** One run of an accepted data cache activity reads its array
    [array_reads_per_iteration] times, a wait activity waits for exactly the
    configured time, and the other two do the configured amount of work. *)
Theorem C62_amount : forall a p draws act, parse_activity a = ParseOk p -> ints_fit (ac_settings a) ->
  alloc_activity p = AllocOk act ->
  exists a' e, do_activity draws act = DoOk a' e /\
  let get := get_int (ac_settings a) in
  match func_of_name (get_string (ac_settings a) (s_ "activity_func") []) with
  | Some FConsumeCpu => length (ef_indices e) = Z.to_nat (get (s_ "array_size") 1000) /\ ef_wait e = None
  | Some FDataCache => length (ef_indices e) = Z.to_nat (get (s_ "array_reads_per_iteration") 1000) /\ ef_wait e = None
  | Some FInstrCache => length (ef_indices e) = Z.to_nat (get (s_ "function_invocations_per_iteration") 1000) /\ ef_wait e = None
  | Some FSleepFor => exists us, ef_wait e = Some (false, us) /\ 1 <= us /\ (forall d, get (s_ "duration_us") d = us)
  | Some FSpinFor => exists us, ef_wait e = Some (true, us) /\ 1 <= us /\ (forall d, get (s_ "duration_us") d = us)
  | None => False
  end.
Proof.
  intros a p draws act H F A. destruct (alloc_wellformed a p H F) as (act' & A' & W).
  rewrite A in A'. injection A' as <-. cbv zeta.
  assert (X := fun n => get_fits (ac_settings a) n 1000 F eq_refl).
  assert (U := get_int_cases (ac_settings a) (s_ "duration_us")).
  unfold parse_activity, validate_array, validate_data_cache, validate_duration in H. cbv zeta in H.
  destruct (func_of_name _) as [[]|]; [| | | | |discriminate].
  - destruct (_ <? 1); [discriminate|]. apply parse_inj in H; subst p. cbn [alloc_activity pa_func pa_array] in A.
    destruct (_ <? 0); [discriminate|]. apply alloc_inj in A; subst act. eexists _, _. split; [reflexivity|].
    cbn [ef_indices ef_wait]. rewrite map_length, seq_length, narrow_id by apply X. auto.
  - destruct (_ <? 1); [discriminate|]. destruct (_ <? 1); [discriminate|]. apply parse_inj in H; subst p.
    cbn [alloc_activity pa_func pa_array pa_reads] in A. destruct (_ <? 0); [discriminate|]. destruct (_ <? 0); [discriminate|].
    apply alloc_inj in A; subst act. cbn [wellformed] in W. cbn [do_activity].
    match goal with |- context [accesses ?s ?lo ?hi draws ?k] => destruct (index_ok draws s lo hi k) as (l & -> & L & _); try lia end.
    eexists _, _. split; [reflexivity|]. cbn [ef_indices ef_wait]. rewrite L, narrow_id by apply X. auto.
  - apply parse_inj in H; subst p. cbn [alloc_activity pa_func pa_invocations] in A. apply alloc_inj in A; subst act. cbn [wellformed] in W. cbn [do_activity].
    match goal with |- context [accesses ?s ?lo ?hi draws ?k] => destruct (index_ok draws s lo hi k) as (l & -> & L & _); try lia end.
    eexists _, _. split; [reflexivity|]. cbn [ef_indices ef_wait]. rewrite L, narrow_id by apply X. auto.
  - destruct (Z.ltb_spec (get_int (ac_settings a) (s_ "duration_us") (-1)) 1); [discriminate|]. apply parse_inj in H; subst p.
    cbn [alloc_activity pa_func pa_duration] in A. apply alloc_inj in A; subst act. eexists _, _. split; [reflexivity|].
    eexists. split; [reflexivity|]. destruct U as [(v & _ & E)|E]; rewrite E in *; [split; [lia|exact E]|lia].
  - destruct (Z.ltb_spec (get_int (ac_settings a) (s_ "duration_us") (-1)) 1); [discriminate|]. apply parse_inj in H; subst p.
    cbn [alloc_activity pa_func pa_duration] in A. apply alloc_inj in A; subst act. eexists _, _. split; [reflexivity|].
    eexists. split; [reflexivity|]. destruct U as [(v & _ & E)|E]; rewrite E in *; [split; [lia|exact E]|lia].
Qed.
(** Rejections. *)
Theorem C62_unknown_rejected : forall a, func_of_name (get_string (ac_settings a) (s_ "activity_func") []) = None ->
  exists e, parse_activity a = ParseError e.
Proof. intros a H. unfold parse_activity. rewrite H. eexists. reflexivity. Qed.
Theorem C62_duration_required : forall a f, get_string (ac_settings a) (s_ "activity_func") [] = f ->
  f = s_ "SleepFor" \/ f = s_ "SpinFor" ->
  (forall s v, In s (ac_settings a) -> carries_int (s_ "duration_us") v s -> v < 1) ->
  exists e, parse_activity a = ParseError e.
Proof.
  intros a f E [->| ->] H; unfold parse_activity; rewrite E; cbn [func_of_name]; unfold func_of_name; cbn [str_eqb s_ list_ascii_of_string Ascii.eqb Bool.eqb andb];
  unfold validate_duration; cbv zeta;
  (destruct (Z.ltb_spec (get_int (ac_settings a) (s_ "duration_us") (-1)) 1); [eexists; reflexivity|]);
  (destruct (C42_int (ac_settings a) (s_ "duration_us") (-1)) as [(l1 & s & l2 & v & L & C & _ & G)|(_ & G)];
   [assert (v < 1) by (eapply H; [rewrite L; apply in_or_app; right; left; reflexivity|exact C]); lia|lia]).
Qed.
(** Findings: without the 32-bit bound an accepted configuration crashes or
    runs into undefined behaviour when the activity is created. *)
Theorem C62_accepted_allocates_refuted : exists a p, parse_activity a = ParseOk p /\ alloc_activity p = AllocThrows.
Proof.
  exists (mkAC (s_ "big") [mkSet (Some (s_ "activity_func")) (Some (s_ "ConsumeCpu")) None;
                           mkSet (Some (s_ "array_size")) None (Some 2147483648)]).
  eexists. split; vm_compute; reflexivity.
Qed.
Theorem C62_accepted_defined_refuted : exists a p, parse_activity a = ParseOk p /\ alloc_activity p = AllocUndefined.
Proof.
  exists (mkAC (s_ "big") [mkSet (Some (s_ "activity_func")) (Some (s_ "PolluteDataCache")) None;
                           mkSet (Some (s_ "array_size")) None (Some 4294967296)]).
  eexists. split; vm_compute; reflexivity.
Qed.
Definition cache_config : activity_config :=
  mkAC (s_ "cache") [mkSet (Some (s_ "activity_func")) (Some (s_ "PolluteDataCache")) None;
                     mkSet (Some (s_ "array_size")) None (Some 10);
                     mkSet (Some (s_ "array_reads_per_iteration")) None (Some 3)].
Definition sleep_config : activity_config :=
  mkAC (s_ "nap") [mkSet (Some (s_ "activity_func")) (Some (s_ "SleepFor")) None; mkSet (Some (s_ "duration_us")) None (Some 250)].
Example C62_ex_parse : parse_activity cache_config = ParseOk (mkParsed (s_ "cache") FDataCache (Some 10) (Some 3) None None).
Proof. vm_compute. reflexivity. Qed.
Example C62_ex_run :
  exists e, run_activity (fun n i => Z.of_nat (7 * n + i)) 4 (ActData 10 0 9 3 0) = DoOk (ActData 10 0 9 3 4) e /\ ef_indices e = [1; 2; 3].
Proof. eexists. vm_compute. split; reflexivity. Qed.
Example C62_ex_sleep : exists p, parse_activity sleep_config = ParseOk p /\ alloc_activity p = AllocOk (ActWait false 250).
Proof. eexists. vm_compute. split; reflexivity. Qed.
Example C62_ex_fit : ints_fit (ac_settings cache_config).
Proof. intros s v [<-|[<-|[<-|[]]]]; cbn [st_int]; intro H; inversion H; reflexivity. Qed.
Example C62_ex_unknown : parse_activity (mkAC (s_ "n") []) = ParseError (AUnknownFunc (s_ "n") []). Proof. vm_compute. reflexivity. Qed.
Example C62_ex_duration : parse_activity (mkAC (s_ "n") [mkSet (Some (s_ "activity_func")) (Some (s_ "SpinFor")) None; mkSet (Some (s_ "duration_us")) None (Some 0)]) = ParseError (ABadDuration 0).
Proof. vm_compute. reflexivity. Qed.

Print Assumptions C42_string.
Print Assumptions C42_int.
Print Assumptions C42_added_option_is_default.
Print Assumptions C42_builder_arguments.
Print Assumptions C42_builder_agrees_refuted.
Print Assumptions C55_sum.
Print Assumptions C55_default.
Print Assumptions C55_empty.
Print Assumptions C55_unparsable.
Print Assumptions C55_not_positive.
Print Assumptions C55_only.
Print Assumptions C55_flag.
Print Assumptions C55_no_flag.
Print Assumptions C55_flag_negative.
Print Assumptions C55_deadline.
Print Assumptions C55_deadline_positive_refuted.
Print Assumptions C55_flag_defined_refuted.
Print Assumptions C55_min_rejected_refuted.
Print Assumptions C58_grpc_round_trip.
Print Assumptions C58_absl_round_trip.
Print Assumptions C58_outcome.
Print Assumptions C58_annotate.
Print Assumptions C58_unknown_code.
Print Assumptions C62_accepted_runs.
Print Assumptions C62_amount.
Print Assumptions C62_unknown_rejected.
Print Assumptions C62_duration_required.
Print Assumptions C62_accepted_allocates_refuted.
Print Assumptions C62_accepted_defined_refuted.
