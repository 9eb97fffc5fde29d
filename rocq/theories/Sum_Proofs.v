(** Specification and lemmas for the summary. *)
From Coq Require Import Ascii String List ZArith Bool Lia SpecFloat Permutation Sorted.
From Verif Require Import Base_Model Base_Proofs Float_Model Float_Proofs Log_Model Log_Proofs2 Sum_Model.
Import ListNotations.
Open Scope Z_scope.

Lemma bind_inv : forall A B (x : option A) (f : A -> option B) r, bind x f = Some r -> exists a, x = Some a /\ f a = Some r.
Proof. intros A B [a|] f r H; cbn [bind] in H; [eauto|discriminate]. Qed.
Lemma add64_inv : forall a b c, add64 a b = Some c -> c = a + b /\ in_int64 c = true.
Proof. unfold add64. intros a b c H. destruct (in_int64 (a + b)) eqn:E; [|discriminate]. injection H as <-. auto. Qed.
Ltac inv_bind H :=
  repeat match type of H with
  | bind (add64 _ _) _ = Some _ =>
      let E := fresh "E" in let x := fresh "x" in
      apply bind_inv in H; destruct H as [x [E H]]; apply add64_inv in E; destruct E as [E _]; subst x
  end.

(** ** What the log says, as flat lists *)
Fixpoint zsum (l : list Z) : Z := match l with [] => 0 | x :: r => x + zsum r end.
Lemma zsum_app : forall a b, zsum (a ++ b) = zsum a + zsum b.
Proof. induction a as [|x a IH]; intros b; cbn [zsum app]; [reflexivity|]. rewrite IH. lia. Qed.
(** The successful samples of a peer, with the index of their RPC, and those
    that are not warmup. *)
Definition oks (pl : peer_log) : list (nat * sample) := flat_map (fun rl => map (fun s => (fst rl, s)) (fst (snd rl))) pl.
Definition fails (pl : peer_log) : list (nat * sample) := flat_map (fun rl => map (fun s => (fst rl, s)) (snd (snd rl))) pl.
Definition is_timed (x : nat * sample) : bool := negb (sa_warmup (snd x)).
Definition timed (xs : list (nat * sample)) : list (nat * sample) := filter is_timed xs.
Definition warm (xs : list (nat * sample)) : list (nat * sample) := filter (fun x => sa_warmup (snd x)) xs.
Definition req (x : nat * sample) : Z := sa_request (snd x).
Definition resp (x : nat * sample) : Z := sa_response (snd x).
Definition lat (x : nat * sample) : Z := sa_latency (snd x).
Definition t0 (x : nat * sample) : Z := sa_start (snd x).
Definition t1 (x : nat * sample) : Z := sa_start (snd x) + sa_latency (snd x).
Definition named (names : list str) (n : str) (x : nat * sample) : bool :=
  match nth_error names (fst x) with Some m => str_eqb m n | None => false end.
Definition len {A} (l : list A) : Z := Z.of_nat (length l).
Lemma len_app : forall A (a b : list A), len (a ++ b) = len a + len b.
Proof. intros. unfold len. rewrite app_length. lia. Qed.
Lemma timed_app : forall a b, timed (a ++ b) = timed a ++ timed b.
Proof. intros. apply filter_app. Qed.
Lemma warm_app : forall a b, warm (a ++ b) = warm a ++ warm b.
Proof. intros. apply filter_app. Qed.

Definition lget (n : str) (m : list (str * list Z)) : list Z := match map_find n m with Some l => l | None => [] end.
Lemma lget_set_same : forall n v m, lget n (map_set n v m) = v.
Proof. intros. unfold lget. rewrite map_find_set_same. reflexivity. Qed.
Lemma lget_set_other : forall n k v m, n <> k -> lget n (map_set k v m) = lget n m.
Proof. intros. unfold lget. rewrite map_find_set_other; auto. Qed.
Lemma in_keys : forall V (m : list (str * V)) n, In n (map fst m) <-> map_find n m <> None.
Proof. intros V m n. pose proof (map_find_None n m) as H. destruct (in_dec (list_eq_dec ascii_dec) n (map fst m)); tauto. Qed.
Lemma keys_set : forall V (m : list (str * V)) k v n, In n (map fst (map_set k v m)) <-> In n (map fst m) \/ n = k.
Proof.
  intros V m k v n. rewrite !in_keys. destruct (str_eqb_spec n k) as [->|N].
  - rewrite map_find_set_same. split; [auto|discriminate].
  - rewrite map_find_set_other by assumption. tauto.
Qed.

(** ** One peer *)
(** What happened between [a] and [a'], given the samples [xs] seen between. *)
Record acc_rel (names : list str) (xs : list (nat * sample)) (n f : Z) (a a' : peer_acc) : Prop := {
  ar_rpcs : pf_rpcs (ac_perf a') = pf_rpcs (ac_perf a) + n;
  ar_req : pf_request (ac_perf a') = pf_request (ac_perf a) + zsum (map req (timed xs));
  ar_resp : pf_response (ac_perf a') = pf_response (ac_perf a) + zsum (map resp (timed xs));
  ar_samples : ac_samples a' = ac_samples a + n + f;
  ar_failed : ac_failed a' = ac_failed a + f;
  ar_warm : ac_warm a' = ac_warm a + len (warm xs);
  ar_start : ac_start a' = fold_left Z.min (map t0 (timed xs)) (ac_start a);
  ar_end : ac_end a' = fold_left Z.max (map t1 (timed xs)) (ac_end a);
  ar_lat : forall m, lget m (ac_lat a') = lget m (ac_lat a) ++ map lat (filter (named names m) (timed xs));
  ar_nodup : NoDup (map fst (ac_lat a)) -> NoDup (map fst (ac_lat a'));
  ar_fit : Forall (fun x => in_int64 (t1 x) = true) (timed xs) }.
Lemma acc_refl : forall names a, acc_rel names [] 0 0 a a.
Proof. intros names a. constructor; cbn; intros; rewrite ?app_nil_r; auto; lia. Qed.
Lemma acc_trans : forall names xs ys n m f g a b c,
  acc_rel names xs n f a b -> acc_rel names ys m g b c -> acc_rel names (xs ++ ys) (n + m) (f + g) a c.
Proof.
  intros names xs ys n m f g a b c [A1 A2 A3 A4 A5 A6 A7 A8 A9 A10 A11] [B1 B2 B3 B4 B5 B6 B7 B8 B9 B10 B11].
  constructor; rewrite ?timed_app, ?warm_app, ?map_app, ?zsum_app, ?len_app, ?fold_left_app; try lia.
  - rewrite B7, A7. reflexivity.
  - rewrite B8, A8. reflexivity.
  - intros k. rewrite B9, A9, filter_app, map_app, app_assoc. reflexivity.
  - auto.
  - apply Forall_app; auto.
Qed.
Lemma sum_sample_rel : forall names i name a s a', nth_error names i = Some name -> sum_sample name a s = Some a' ->
  acc_rel names [(i, s)] 0 0 a a' /\ (In name (map fst (ac_lat a)) -> forall m, In m (map fst (ac_lat a')) <-> In m (map fst (ac_lat a))).
Proof.
  intros names i name a s a' N H. unfold sum_sample in H. destruct (sa_warmup s) eqn:W.
  - inv_bind H. injection H as <-. split; [|intros; reflexivity].
    constructor; cbn [timed warm filter is_timed snd map zsum fold_left ac_perf ac_samples ac_failed ac_warm ac_start ac_end ac_lat];
      unfold is_timed; cbn [snd]; rewrite ?W; cbn [negb map zsum fold_left filter]; intros; rewrite ?app_nil_r; auto; try lia.
  - apply bind_inv in H. destruct H as [e [E H]]. apply add64_inv in E. destruct E as [E F]. subst e. inv_bind H. cbv zeta in H. injection H as <-.
    split.
    + constructor; unfold timed, warm, is_timed; cbn [filter snd]; rewrite ?W;
        cbn [negb map zsum fold_left filter ac_perf pf_rpcs pf_request pf_response ac_samples ac_failed ac_warm ac_start ac_end ac_lat];
        unfold req, resp, t0, t1, len, named; cbn [fst snd length]; rewrite ?Z.add_0_r; auto; try lia.
      * intros m. rewrite N. destruct (str_eqb_spec name m) as [->|X].
        -- rewrite lget_set_same. reflexivity.
        -- rewrite lget_set_other by congruence. cbn [map]. rewrite app_nil_r. reflexivity.
      * apply map_set_NoDup.
    + cbn [ac_lat]. intros I m. rewrite keys_set. split; [intros [X| ->]; assumption|auto].
Qed.
Lemma sum_samples_rel : forall names i name l a a', nth_error names i = Some name -> sum_samples name l a = Some a' ->
  acc_rel names (map (fun s => (i, s)) l) 0 0 a a' /\ (In name (map fst (ac_lat a)) -> forall m, In m (map fst (ac_lat a')) <-> In m (map fst (ac_lat a))).
Proof.
  intros names i name. induction l as [|s l IH]; intros a a' N H; cbn [sum_samples] in H.
  - injection H as <-. split; [apply acc_refl|reflexivity].
  - apply bind_inv in H. destruct H as [b [E H]]. destruct (sum_sample_rel names i name a s b N E) as [A B]. destruct (IH b a' N H) as [C D].
    split; [exact (acc_trans names [(i, s)] _ 0 0 0 0 a b a' A C)|]. intros I m. rewrite D by (apply B; assumption). apply B; assumption.
Qed.
Lemma sum_rpc_rel : forall names a rl a', sum_rpc names a rl = Some a' ->
  exists name, nth_error names (fst rl) = Some name
  /\ acc_rel names (oks [rl]) (len (oks [rl])) (len (fails [rl])) a a'
  /\ forall m, In m (map fst (ac_lat a')) <-> In m (map fst (ac_lat a)) \/ m = name.
Proof.
  intros names a [i [ok bad]] a' H. unfold sum_rpc in H. cbn [fst snd] in H. apply bind_inv in H. destruct H as [name [N H]].
  cbv zeta in H. inv_bind H. exists name. split; [assumption|]. destruct (sum_samples_rel names i name ok _ a' N H) as [A B].
  unfold oks, fails. cbn [flat_map fst snd]. rewrite !app_nil_r. destruct A. cbn [ac_perf pf_rpcs pf_request pf_response ac_samples ac_failed ac_warm ac_start ac_end ac_lat] in *.
  set (l0 := match map_find name (ac_lat a) with Some _ => _ | None => _ end) in *.
  assert (L0 : forall m, lget m l0 = lget m (ac_lat a)).
  { intros m. unfold l0. destruct (map_find name (ac_lat a)) eqn:F; [reflexivity|]. destruct (str_eqb_spec m name) as [->|X].
    - rewrite lget_set_same. unfold lget. rewrite F. reflexivity.
    - apply lget_set_other. assumption. }
  assert (L1 : forall m, In m (map fst l0) <-> In m (map fst (ac_lat a)) \/ m = name).
  { intros m. unfold l0. destruct (map_find name (ac_lat a)) eqn:F; [|apply keys_set]. split; [auto|]. intros [X| ->]; [assumption|]. apply in_keys. congruence. }
  split.
  - constructor; unfold len in *; rewrite ?map_length; auto; try lia.
    + intros m. rewrite ar_lat0, L0. reflexivity.
    + intros ND. apply ar_nodup0. unfold l0. destruct (map_find name (ac_lat a)); [assumption|]. apply map_set_NoDup. assumption.
  - intros m. rewrite B by (apply L1; auto). apply L1.
Qed.
Lemma sum_rpcs_rel : forall names pl a a', sum_rpcs names pl a = Some a' ->
  acc_rel names (oks pl) (len (oks pl)) (len (fails pl)) a a'
  /\ (forall rl, In rl pl -> nth_error names (fst rl) <> None)
  /\ forall m, In m (map fst (ac_lat a')) <-> In m (map fst (ac_lat a)) \/ exists rl, In rl pl /\ nth_error names (fst rl) = Some m.
Proof.
  intros names. induction pl as [|rl pl IH]; intros a a' H; cbn [sum_rpcs] in H.
  - injection H as <-. split; [apply acc_refl|]. split; [intros rl []|]. intros m. split; [auto|]. intros [X|[rl [[] _]]]. assumption.
  - apply bind_inv in H. destruct H as [b [E H]]. destruct (sum_rpc_rel names a rl b E) as [name [N [A B]]]. destruct (IH b a' H) as [C [D F]].
    split; [|split].
    + replace (oks (rl :: pl)) with (oks [rl] ++ oks pl) by (unfold oks; cbn [flat_map]; rewrite app_nil_r; reflexivity).
      replace (fails (rl :: pl)) with (fails [rl] ++ fails pl) by (unfold fails; cbn [flat_map]; rewrite app_nil_r; reflexivity).
      rewrite !len_app. eapply acc_trans; eassumption.
    + intros x [<-|X]; [congruence|apply D; assumption].
    + intros m. rewrite F, B. split.
      * intros [[X| ->]|[x [X Y]]]; [auto| |]; right; [exists rl|exists x]; cbn [In]; auto.
      * intros [X|[x [[<-|X] Y]]]; [auto| |].
        -- left. right. congruence.
        -- right. exists x. auto.
Qed.

(** ** All peers *)
Definition peers (l : result_log) : list ((str * str) * peer_log) :=
  flat_map (fun ip => map (fun p => ((fst ip, fst p), snd p)) (snd ip)) l.
(** What the communication summary should say about one peer. *)
Definition perf_of (pl : peer_log) : perf :=
  mkPerf (len (oks pl)) (zsum (map req (timed (oks pl)))) (zsum (map resp (timed (oks pl)))).
Lemma pair_eqb_spec : forall a b, reflect (a = b) (pair_eqb a b).
Proof.
  intros [a b] [c d]. unfold pair_eqb. cbn [fst snd]. destruct (str_eqb_spec a c) as [->|X]; cbn [andb]; [|constructor; congruence].
  destruct (str_eqb_spec b d) as [->|X]; constructor; congruence.
Qed.
Lemma pair_set_new : forall V k (v : V) m, ~ In k (map fst m) -> pair_set k v m = m ++ [(k, v)].
Proof.
  intros V k v. induction m as [|[k' w] m IH]; intros H; cbn [pair_set app]; [reflexivity|]. cbn [map fst In] in H.
  destruct (pair_eqb_spec k' k) as [->|X]; [tauto|]. rewrite IH by tauto. reflexivity.
Qed.
(** How long a peer's RPCs took, from the first start to the last end; the
    sentinels are those of the code, 160-161. *)
Definition span (pl : peer_log) : Z :=
  fold_left Z.max (map t1 (timed (oks pl))) int64_min - fold_left Z.min (map t0 (timed (oks pl))) int64_max.
Record tot_rel (names : list str) (ps : list ((str * str) * peer_log)) (t t' : totals) : Prop := {
  tr_perf : NoDup (map fst (to_perf t) ++ map fst ps) -> to_perf t' = to_perf t ++ map (fun p => (fst p, perf_of (snd p))) ps;
  tr_samples : to_samples t' = to_samples t + zsum (map (fun p => len (oks (snd p)) + len (fails (snd p))) ps);
  tr_failed : to_failed t' = to_failed t + zsum (map (fun p => len (fails (snd p))) ps);
  tr_warm : to_warm t' = to_warm t + zsum (map (fun p => len (warm (oks (snd p)))) ps);
  tr_lat : forall m, lget m (to_lat t') = lget m (to_lat t) ++ map lat (filter (named names m) (flat_map (fun p => timed (oks (snd p))) ps));
  tr_nodup : NoDup (map fst (to_lat t)) -> NoDup (map fst (to_lat t'));
  tr_keys : forall m, In m (map fst (to_lat t')) <-> In m (map fst (to_lat t)) \/ exists p rl, In p ps /\ In rl (snd p) /\ nth_error names (fst rl) = Some m;
  tr_time_ge : to_time t <= to_time t' /\ forall p, In p ps -> timed (oks (snd p)) <> [] -> span (snd p) <= Z.max (to_time t') 0;
  tr_time_is : to_time t' = to_time t \/ exists p, In p ps /\ timed (oks (snd p)) <> [] /\ to_time t' = span (snd p);
  tr_fit : forall p, In p ps -> Forall (fun x => in_int64 (t1 x) = true) (timed (oks (snd p)));
  tr_defined : forall p rl, In p ps -> In rl (snd p) -> nth_error names (fst rl) <> None }.
Lemma tot_refl : forall names t, tot_rel names [] t t.
Proof.
  intros names t. constructor; cbn [map zsum flat_map filter]; intros; rewrite ?app_nil_r; auto; try lia.
  - split; [auto|]. intros [X|[p [rl [[] _]]]]. assumption.
  - split; [lia|]. intros p [].
  - destruct H.
Qed.
Lemma NoDup_app_l : forall A (a b : list A), NoDup (a ++ b) -> NoDup a.
Proof. intros A a b. induction a as [|x a IH]; intros H; [constructor|]. inversion H; subst. constructor; [|auto]. rewrite in_app_iff in *. tauto. Qed.
Lemma tot_trans : forall names ps qs t u v, tot_rel names ps t u -> tot_rel names qs u v -> tot_rel names (ps ++ qs) t v.
Proof.
  intros names ps qs t u v [A1 A2 A3 A4 A5 A6 A7 A8 A9 A10 A11] [B1 B2 B3 B4 B5 B6 B7 B8 B9 B10 B11].
  constructor; rewrite ?map_app, ?zsum_app; try lia.
  - rewrite app_assoc. intros ND. assert (N1 := NoDup_app_l _ _ _ ND). rewrite B1; rewrite A1 by assumption; [apply eq_sym, app_assoc|].
    rewrite map_app, map_map. exact ND.
  - intros m. rewrite B5, A5, flat_map_app, filter_app, map_app, app_assoc. reflexivity.
  - auto.
  - intros m. rewrite B7, A7. split.
    + intros [[X|[p [rl [X Y]]]]|[p [rl [X Y]]]]; [auto| |]; right; exists p, rl; rewrite in_app_iff; auto.
    + intros [X|[p [rl [X Y]]]]; [auto|]. apply in_app_iff in X. destruct X as [X|X]; [left; right|right]; exists p, rl; auto.
  - destruct A8 as [A8 A8'], B8 as [B8 B8']. split; [lia|]. intros p X T. apply in_app_iff in X. destruct X as [X|X]; [specialize (A8' p X T); lia|auto].
  - destruct B9 as [->|[p [X Y]]].
    + destruct A9 as [->|[p [X Y]]]; [auto|]. right. exists p. rewrite in_app_iff. auto.
    + right. exists p. rewrite in_app_iff. auto.
  - intros p X. apply in_app_iff in X. destruct X; auto.
  - intros p rl X. apply in_app_iff in X. destruct X; eauto.
Qed.
Lemma fold_min_le : forall l a, fold_left Z.min l a <= a /\ forall x, In x l -> fold_left Z.min l a <= x.
Proof.
  induction l as [|y l IH]; intros a; cbn [fold_left]; [split; [lia|intros x []]|]. destruct (IH (Z.min a y)) as [A B]. split; [lia|].
  intros x [<-|X]; [lia|auto].
Qed.
Lemma fold_max_ge : forall l a, a <= fold_left Z.max l a /\ forall x, In x l -> x <= fold_left Z.max l a.
Proof.
  induction l as [|y l IH]; intros a; cbn [fold_left]; [split; [lia|intros x []]|]. destruct (IH (Z.max a y)) as [A B]. split; [lia|].
  intros x [<-|X]; [lia|auto].
Qed.
Lemma fold_min_in : forall l a, fold_left Z.min l a = a \/ In (fold_left Z.min l a) l.
Proof.
  induction l as [|y l IH]; intros a; cbn [fold_left]; [auto|]. destruct (IH (Z.min a y)) as [A|A]; [|cbn [In]; auto].
  rewrite A. destruct (Z.min_spec a y) as [[_ ->]|[_ ->]]; cbn [In]; auto.
Qed.
Lemma fold_max_in : forall l a, fold_left Z.max l a = a \/ In (fold_left Z.max l a) l.
Proof.
  induction l as [|y l IH]; intros a; cbn [fold_left]; [auto|]. destruct (IH (Z.max a y)) as [A|A]; [|cbn [In]; auto].
  rewrite A. destruct (Z.max_spec a y) as [[_ ->]|[_ ->]]; cbn [In]; auto.
Qed.
Lemma sum_peer_rel : forall names i t p t', sum_peer names i t p = Some t' -> tot_rel names [((i, fst p), snd p)] t t'.
Proof.
  intros names i t [d pl] t' H. unfold sum_peer in H. cbn [fst snd] in *. apply bind_inv in H. destruct H as [a [E H]].
  apply bind_inv in H. destruct H as [tm [T H]]. injection H as <-.
  destruct (sum_rpcs_rel names pl _ a E) as [[A1 A2 A3 A4 A5 A6 A7 A8 A9 A10 A11] [B C]].
  cbn [ac_perf perf0 pf_rpcs pf_request pf_response ac_samples ac_failed ac_warm ac_start ac_end ac_lat] in *.
  assert (TM : to_time t <= tm /\ (timed (oks pl) <> [] -> span pl <= Z.max tm 0)
               /\ (tm = to_time t \/ timed (oks pl) <> [] /\ tm = span pl)).
  { unfold span. rewrite <- A7, <- A8. destruct (Z.eqb_spec (ac_start a) int64_max) as [S|S].
    - injection T as <-. split; [lia|]. split; [|auto]. intros NE. rewrite S.
      assert (ac_end a <= int64_max).
      { rewrite A8. destruct (fold_max_in (map t1 (timed (oks pl))) int64_min) as [->|I]; [discriminate|].
        apply in_map_iff in I. destruct I as [x [<- I]]. rewrite Forall_forall in A11. specialize (A11 x I). unfold in_int64 in A11. lia. }
      lia.
    - destruct (in_int64 (ac_end a - ac_start a)); [|discriminate]. injection T as <-. split; [lia|]. split; [lia|].
      destruct (Z.max_spec (to_time t) (ac_end a - ac_start a)) as [[_ ->]|[_ ->]]; [|auto]. right. split; [|reflexivity].
      intros N. rewrite N in A7. cbn in A7. congruence. }
  destruct TM as [T1 [T2 T3]].
  constructor; cbn [to_perf to_samples to_failed to_warm to_lat to_time map fst snd zsum flat_map]; rewrite ?app_nil_r; try lia; auto.
  - intros ND. rewrite pair_set_new.
    + f_equal. f_equal. f_equal. unfold perf_of. destruct (ac_perf a) as [x y z]. cbn [pf_rpcs pf_request pf_response] in *. f_equal; lia.
    + intros X. cbn [map fst] in ND. apply NoDup_remove_2 in ND. rewrite app_nil_r in ND. contradiction.
  - intros m. rewrite C. split.
    + intros [X|[rl [X Y]]]; [auto|]. right. exists (i, d, pl), rl. cbn [In snd]. auto.
    + intros [X|[p [rl [[<-|[]] Y]]]]; [auto|]. right. exists rl. assumption.
  - split; [assumption|]. intros p [<-|[]]. assumption.
  - destruct T3 as [T3|[T3 T4]]; [auto|]. right. exists (i, d, pl). cbn [In snd]. auto.
  - intros p [<-|[]]. assumption.
  - intros p rl [<-|[]]. apply B.
Qed.
Lemma sum_peers_rel : forall names i l t t', sum_peers names i l t = Some t' -> tot_rel names (map (fun p => ((i, fst p), snd p)) l) t t'.
Proof.
  intros names i. induction l as [|p l IH]; intros t t' H; cbn [sum_peers] in H; [injection H as <-; apply tot_refl|].
  apply bind_inv in H. destruct H as [u [E H]]. cbn [map]. change (?x :: ?y) with ([x] ++ y). eapply tot_trans; [apply sum_peer_rel; exact E|auto].
Qed.
Lemma sum_instances_rel : forall names l t t', sum_instances names l t = Some t' -> tot_rel names (peers l) t t'.
Proof.
  intros names. induction l as [|[i ps] l IH]; intros t t' H; cbn [sum_instances] in H; [injection H as <-; apply tot_refl|].
  apply bind_inv in H. destruct H as [u [E H]]. unfold peers. cbn [flat_map fst snd]. eapply tot_trans; [apply sum_peers_rel; exact E|apply IH; exact H].
Qed.

(** ** Instances *)
Definition sel (b : bool) (x : Z) : Z := if b then x else 0.
(** Bytes sent and received by [k] according to the communication summary. *)
Definition tx_of (k : str) (l : list ((str * str) * perf)) : Z :=
  zsum (map (fun e => sel (str_eqb (fst (fst e)) k) (pf_request (snd e)) + sel (str_eqb (snd (fst e)) k) (pf_response (snd e))) l).
Definition rx_of (k : str) (l : list ((str * str) * perf)) : Z :=
  zsum (map (fun e => sel (str_eqb (fst (fst e)) k) (pf_response (snd e)) + sel (str_eqb (snd (fst e)) k) (pf_request (snd e))) l).
Lemma inst_get_same : forall k v m, inst_get k (map_set k v m) = v.
Proof. intros. unfold inst_get. rewrite map_find_set_same. reflexivity. Qed.
Lemma inst_get_other : forall n k v m, n <> k -> inst_get n (map_set k v m) = inst_get n m.
Proof. intros. unfold inst_get. rewrite map_find_set_other; auto. Qed.
Lemma map_set_sum : forall (f : inst_sum -> Z) k v m, NoDup (map fst m) -> f (mkInst 0 0) = 0 ->
  zsum (map (fun e => f (snd e)) (map_set k v m)) = zsum (map (fun e => f (snd e)) m) + f v - f (inst_get k m).
Proof.
  intros f k v m ND F0. induction m as [|[k' w] m IH]; [cbn; lia|]. cbn [map fst] in ND. inversion ND as [|? ? N1 N2]; subst.
  unfold inst_get in *. cbn [map_set map_find]. destruct (str_eqb_spec k k') as [->|X]; cbn [map zsum snd]; [lia|]. rewrite IH by assumption. lia.
Qed.
Lemma inst_all_spec : forall l t t', inst_all l t = Some t' -> NoDup (map fst (it_map t)) ->
  NoDup (map fst (it_map t'))
  /\ (forall k, is_tx (inst_get k (it_map t')) = is_tx (inst_get k (it_map t)) + tx_of k l
             /\ is_rx (inst_get k (it_map t')) = is_rx (inst_get k (it_map t)) + rx_of k l)
  /\ (forall k, In k (map fst (it_map t')) <-> In k (map fst (it_map t)) \/ exists e, In e l /\ (k = fst (fst e) \/ k = snd (fst e)))
  /\ it_rpcs t' = it_rpcs t + zsum (map (fun e => pf_rpcs (snd e)) l)
  /\ it_tx t' = it_tx t + zsum (map (fun e => pf_request (snd e) + pf_response (snd e)) l)
  /\ zsum (map (fun e => is_tx (snd e)) (it_map t')) - it_tx t' = zsum (map (fun e => is_tx (snd e)) (it_map t)) - it_tx t
  /\ zsum (map (fun e => is_rx (snd e)) (it_map t')) - it_tx t' = zsum (map (fun e => is_rx (snd e)) (it_map t)) - it_tx t.
Proof.
  induction l as [|e l IH]; intros t t' H ND; cbn [inst_all] in H.
  - injection H as <-. split; [assumption|]. split; [intros k; unfold tx_of, rx_of; cbn; lia|].
    split; [intros k; split; [auto|intros [X|[e [[] _]]]; assumption]|]. cbn [map zsum]. lia.
  - apply bind_inv in H. destruct H as [u [E H]]. destruct e as [[i d] p]. unfold inst_step in E. inv_bind E. cbv zeta in E. inv_bind E. cbv zeta in E.
    inv_bind E. injection E as <-.
    set (m1 := map_set i _ (it_map t)) in *.
    assert (N1 : NoDup (map fst m1)) by (apply map_set_NoDup; assumption).
    set (v2 := mkInst (is_tx (inst_get d m1) + _) _) in *.
    destruct (IH _ t' H ltac:(cbn [it_map]; apply map_set_NoDup; assumption)) as [B1 [B2 [B3 [B4 [B5 [B6 B7]]]]]]. cbn [it_map it_rpcs it_tx] in *.
    split; [assumption|]. split; [|split; [|split; [|split; [|split]]]].
    + intros k. specialize (B2 k). destruct B2 as [-> ->]. unfold tx_of, rx_of. cbn [map fst snd zsum].
      destruct (str_eqb_spec d k) as [->|X].
      * rewrite inst_get_same. unfold v2. cbn [is_tx is_rx sel]. unfold m1. destruct (str_eqb_spec i k) as [->|Y].
        -- rewrite inst_get_same. cbn [is_tx is_rx sel]. lia.
        -- rewrite inst_get_other by congruence. cbn [sel]. lia.
      * rewrite inst_get_other by congruence. unfold m1. destruct (str_eqb_spec i k) as [->|Y].
        -- rewrite inst_get_same. cbn [is_tx is_rx sel]. lia.
        -- rewrite inst_get_other by congruence. cbn [sel]. lia.
    + intros k. rewrite B3, keys_set. unfold m1. rewrite keys_set. split.
      * intros [[[X|X]|X]|[e [X Y]]]; [auto| | |]; right; [exists (i, d, p)|exists (i, d, p)|exists e]; cbn [In fst snd]; auto.
      * intros [X|[e [[<-|X] Y]]]; [auto| |]; [cbn [fst snd] in Y; destruct Y; auto|]. right. exists e. auto.
    + rewrite B4. cbn [map zsum snd]. lia.
    + rewrite B5. cbn [map zsum snd]. lia.
    + rewrite B6. rewrite (map_set_sum is_tx) by (assumption || reflexivity). unfold m1 at 1. rewrite (map_set_sum is_tx) by (assumption || reflexivity).
      unfold v2. cbn [is_tx]. lia.
    + rewrite B7. rewrite (map_set_sum is_rx) by (assumption || reflexivity). unfold m1 at 1. rewrite (map_set_sum is_rx) by (assumption || reflexivity).
      unfold v2. cbn [is_rx]. lia.
Qed.
