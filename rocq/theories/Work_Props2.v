(** C80 on an example: a way to make an execution of a small test. *)
From Coq Require Import Ascii String List NArith ZArith QArith Bool Arith Lia Permutation.
From Verif Require Import Base_Model Base_Proofs Grid_Model Grid_Proofs Place_Model Util_Model Net_Model Fanout_Model Table_Model Table_Proofs Table_Proofs2 Table_Props Cli_Model.
From Verif Require Seq_Model Sync_Model Rpc_Model Rpc_Proofs.
From Verif Require Import Seq_Proofs Node_Model Node_Proofs Node_Props Cluster_Model Cluster_Proofs Cluster_Props.
From Verif Require Import Iter_Model Iter_Proofs Iter_Props AList_Model AList_Proofs.
From Verif Require Import Peer_Model Peer_Proofs Peer_Props Deliver_Model Deliver_Proofs Deliver_Props.
From Verif Require Import Log_Model Sum_Model Sum_Proofs Sum_Proofs2 Report_Model Report_Proofs Report_Proofs2 Report_Props.
From Verif Require Import Work_Model Work_Proofs Work_Proofs2 Work_Proofs3 Work_Proofs4 Work_Proofs5 Work_Props.
Import ListNotations.
Open Scope Z_scope.

(** An engine of the test that is ready. *)
Record one := mkOne { on_node : Z; on_name : str; on_engine : engine; on_ready : ready }.
Definition ones (o : outside) (t : whole) (res : test_result) (ws : worlds) : list one :=
  flat_map (fun x => let '(id, n, _) := x in match ready_of o res (wo_introduced ws) t id n with Some (e, rd) => [mkOne id n e rd] | None => [] end) (engines_of (wo_introduced ws)).
Definition ready_one (o : outside) (t : whole) (res : test_result) (ws : worlds) (x : one) : Prop := ready_at o ex_r t res ws (on_node x) (on_name x) (on_engine x) (on_ready x).
Lemma ones_ready o t res ws x : In x (ones o t res ws) -> ready_one o t res ws x.
Proof.
  unfold ones. intro I. apply in_flat_map in I as ([[id n] e] & J & I). destruct (ready_of _ _ _ _ _ _) as [[e' rd]|] eqn:R; [|destruct I]. destruct I as [<-|[]]. unfold ready_one. cbn [on_node on_name on_engine on_ready].
  apply (ready_of_at _ _ _ _ _ _ _ _ (proj1 (proj1 (engines_of_In _ _ _ _) J)) R).
Qed.

Section Generate.
  Variables (failing : bool) (address : str -> str) (opts : str -> run_options) (all : list one).
  Definition listener (a : str) : option one := find (fun x => str_eqb a (add_protocol (address (ex_info (on_node x) (on_name x) (on_engine x))))) all.
  Definition ex_hop : Rpc_Model.hop := Rpc_Model.mkHop 0 0 0 0 0 0 0 0 0 0 (Rpc_Model.mkDef 0 0 0 0 0 false).
  Definition gen_lists (a : str) (rq : Rpc_Model.request) : option (list (str * Z)) :=
    match listener a with
    | Some x => option_map (fun out => map (pair (on_name x)) (lists_started out)) (receive (fun _ => Some 8) (on_ready x) true rq)
    | None => None
    end.
  Definition gen_rpc (a : Table_Model.entry) (p : Z * str * (Z * Rpc_Model.request * Z)) : rpc_run :=
    mkRpcRun (mkEntry (Z.to_nat (en_rpc_service a)) (Z.to_nat (fst (fst p))) (Z.to_nat (Table_Model.en_rpc a)) (negb failing) (mkSample 1000 50 None 16 32 false None (if failing then Some 0 else None)))
      (if failing then [] else match gen_lists (snd (fst p)) (snd (fst (snd p))) with Some l => l | None => [] end).
  Definition gen_iteration (rd : ready) (a : Table_Model.entry) : option iteration_run :=
    match an_kind (en_action a) with
    | KRpc _ =>
        match send_rpcs rd a ex_draws with
        | ToPeers sent =>
            match requests_of (fun _ => Some 8) (fun _ => None) Rpc_Model.fake_request false ex_hop rd a (map fst sent) with
            | Some l =>
                if Nat.eqb (length l) (length sent) && forallb (fun p => match gen_lists (snd (fst p)) (snd (fst (snd p))) with Some _ => true | None => false end) (combine sent l)
                then Some (mkIterationRun ex_draws (fun _ => Some 8) (fun _ => None) Rpc_Model.fake_request ex_hop (map (gen_rpc a) (combine sent l)) [])
                else None
            | None => None
            end
        | _ => None
        end
    | KList _ => Some (mkIterationRun ex_draws (fun _ => Some 8) (fun _ => None) Rpc_Model.fake_request ex_hop [] [en_list a])
    | KNop => Some (mkIterationRun ex_draws (fun _ => Some 8) (fun _ => None) Rpc_Model.fake_request ex_hop [] [])
    | _ => None
    end.
  (** Its iterations end one after the other. *)
  Definition gen_ends (n : nat) : list it_action := flat_map (fun k => [AEnd (Z.of_nat k); AFinish (Z.of_nat k) 7]) (seq 0 n).
  Definition gen_log (x : run_options) : option it_state :=
    let cfg := iterations_of x 0 false in
    match ic_period cfg with
    | Some _ => None
    | None => match initiate cfg 0 0 with ItNext s0 => match it_run cfg (gen_ends (Z.to_nat (times x))) s0 with ItNext s => Some s | _ => None end | _ => None end
    end.
  Definition gen_action (rd : ready) (a : Table_Model.entry) : option action_run :=
    let x := opts (an_name (en_action a)) in
    match gen_log x, gen_iteration rd a with
    | Some its, Some it =>
        if Nat.eqb (length (starts (it_log its))) (Z.to_nat (times x)) && existsb (fun v => match v with ICall => true | _ => false end) (it_log its) &&
           forallb (fun v => match v with ICancel => false | _ => true end) (it_log its)
        then Some (mkActionRun 0 0 false (gen_ends (Z.to_nat (times x))) (repeat it (Z.to_nat (times x)))) else None
    | _, _ => None
    end.
  Fixpoint all_some {A} (l : list (option A)) : option (list A) :=
    match l with [] => Some [] | Some x :: r => option_map (cons x) (all_some r) | None :: _ => None end.
  Definition gen_steps (n : nat) : list al_action_ := concat (repeat (repeat (MStep 0 0) (4 + 2 * n) ++ flat_map (fun i => [ECall i; EFinish i]) (seq 0 n)) (S n)) ++ repeat (MStep 0 0) (9 + 3 * n).
  Definition gen_end (rd : ready) (tl : table_list) : option al_state :=
    match al_run (map (fun a => list_action rd (opts (an_name (en_action a))) a) (tl_entries tl)) [] (gen_steps (length (tl_entries tl))) al_init with
    | AlNext s =>
        if existsb (fun v => match v with LFree => true | _ => false end) (al_log s) && forallb (fun v => match v with LCancel => false | _ => true end) (al_log s) &&
           forallb (fun i => existsb (fun v => match v with LStart j false _ => Nat.eqb i j | _ => false end) (al_log s)) (seq 0 (length (tl_entries tl))) &&
           forallb (fun a => negb (given_up rd a)) (tl_entries tl)
        then Some s else None
    | _ => None
    end.
  Definition gen_list (k : str * Z) : option list_run :=
    match find (fun x => str_eqb (on_name x) (fst k)) all with
    | Some x =>
        match vec_at (tb_lists (rd_tables (on_ready x))) (snd k) with
        | Some tl =>
            match gen_end (on_ready x) tl, all_some (map (gen_action (on_ready x)) (tl_entries tl)) with
            | Some _, Some l => Some (mkListRun (fst k) (snd k) [] (gen_steps (length (tl_entries tl))) l)
            | _, _ => None
            end
        | None => None
        end
    | None => None
    end.
  (** The lists in the order in which they are started. *)
  Fixpoint gen (fuel : nat) (q : list (str * Z)) : option (list list_run) :=
    match q, fuel with
    | [], _ => Some []
    | k :: q, S f => match gen_list k with Some x => option_map (cons x) (gen f (q ++ starts_by_list x)) | None => None end
    | _, O => None
    end.

  Variables (o : outside) (t : whole) (res : test_result) (ws : worlds).
  Hypothesis Ad : address = ou_address o.
  Hypothesis Al : forall x, In x all -> ready_one o t res ws x.
  Lemma gen_lists_ok a rq l : gen_lists a rq = Some l -> handled o ex_r t res ws ex_info a rq l.
  Proof.
    unfold gen_lists, listener. intro E. destruct (find _ all) as [x|] eqn:F; [|discriminate]. apply find_some in F as (I & Q). destruct (str_eqb_spec a (add_protocol (address (ex_info (on_node x) (on_name x) (on_engine x))))) as [->|]; [|discriminate].
    destruct (receive (fun _ => Some 8) (on_ready x) true rq) as [out|] eqn:R; [|discriminate]. cbn in E. injection E as <-.
    exists (on_node x), (on_name x), (on_engine x), (on_ready x), (fun _ => Some 8), true, out. split; [exact (Al x I)|]. split; [rewrite Ad; reflexivity|]. split; [discriminate|]. auto.
  Qed.
  Lemma ex_draws_ok : draws_ok ex_draws.
  Proof. constructor; [cbn; lia|intros; cbn; lia|intro; apply Permutation_refl]. Qed.
  Lemma gen_iteration_ok rd a i : gen_iteration rd a = Some i -> iteration_ok o ex_r t res ws ex_info rd a i.
  Proof.
    unfold gen_iteration, iteration_ok. destruct (an_kind (en_action a)); try discriminate.
    - destruct (send_rpcs rd a ex_draws) as [| |sent|] eqn:S; try discriminate. destruct (requests_of _ _ _ _ _ _ _ _) as [l|] eqn:R; [|discriminate]. destruct (_ && _) eqn:C; [|discriminate]. intros [= <-].
      apply andb_prop in C as (Le & F). apply Nat.eqb_eq in Le. rewrite forallb_forall in F. split; [reflexivity|]. exists sent, l, false. cbn [ir_draws ir_scalar ir_joint ir_incoming ir_hop ir_rpcs].
      split; [exact ex_draws_ok|]. split; [exact S|]. split; [exact R|]. split; [rewrite map_length, combine_length; lia|].
      intros q s rq x E1 E2 E3. rewrite nth_error_map in E3. assert (Ec : nth_error (combine sent l) q = Some (s, rq)).
      { clear -E1 E2. revert q l E1 E2. induction sent as [|u sent IH]; intros [|q] [|v l] E1 E2; cbn [nth_error combine] in *; try discriminate; [congruence|apply IH; assumption]. }
      rewrite Ec in E3. cbn in E3. injection E3 as <-. constructor; try reflexivity. unfold gen_rpc. cbn [fst snd rr_lists rr_entry en_ok]. destruct failing; [right; auto|left]. specialize (F _ (nth_error_In _ _ Ec)). cbn [fst snd] in F.
      destruct (gen_lists (snd s) (snd (fst rq))) as [ls|] eqn:G; [|discriminate]. exact (gen_lists_ok _ _ _ G).
    - intros [= <-]. auto.
    - intros [= <-]. auto.
  Qed.
  Lemma gen_action_ok rd a i s ar : gen_action rd a = Some ar -> given_up rd a = false -> (exists now, In (LStart i false now) (al_log s)) ->
    action_ok o ex_r t res ws ex_info rd (opts (an_name (en_action a))) a i s ar.
  Proof.
    unfold gen_action. intros E G (now & St). destruct (gen_log _) as [its|] eqn:L; [|discriminate]. destruct (gen_iteration rd a) as [it|] eqn:It; [|discriminate]. destruct (_ && _) eqn:C; [|discriminate]. injection E as <-.
    apply andb_prop in C as (C & C3). apply andb_prop in C as (C1 & C2). apply Nat.eqb_eq in C1. rewrite forallb_forall in C3. constructor.
    - intros [N|N]; [destruct (N now St)|congruence].
    - intros _ _ _ _. exists its. split; [|split; [|split]].
      + left. cbn [ar_now ar_warmup ar_schedule]. unfold gen_log in L. split; [destruct (ic_period _); [discriminate|reflexivity]|]. destruct (ic_period _); [discriminate|]. destruct (initiate _ 0 0) as [| | |s0] eqn:I0; try discriminate.
        destruct (it_run _ _ s0) as [| | |s1] eqn:I1; try discriminate. injection L as <-. exists s0. auto.
      + cbn [ar_iterations]. rewrite repeat_length, C1. reflexivity.
      + intros _. apply existsb_exists in C2 as (v & I & V). destruct v; try discriminate. exact I.
      + intro I. specialize (C3 _ I). discriminate.
    - intros x I. cbn [ar_iterations] in I. apply repeat_spec in I. subst x. exact (gen_iteration_ok _ _ _ It).
  Qed.
  Lemma all_some_nth {A} (l : list (option A)) : forall r, all_some l = Some r -> length r = length l /\ forall i x, nth_error r i = Some x -> nth_error l i = Some (Some x).
  Proof.
    induction l as [|[u|] l IH]; intros r E; cbn [all_some] in E; try discriminate; [injection E as <-; split; [reflexivity|intros [|i] x; discriminate]|].
    destruct (all_some l) as [r'|]; [|discriminate]. injection E as <-. destruct (IH r' eq_refl) as (L & N). split; [cbn; lia|]. intros [|i] x; cbn [nth_error]; [congruence|apply N].
  Qed.
  Lemma gen_list_ok k x : gen_list k = Some x -> list_key x = k /\ exists s, list_run_ok o ex_r t res ws ex_info opts x s /\ complete s.
  Proof.
    unfold gen_list. destruct (find _ all) as [y|] eqn:F; [|discriminate]. apply find_some in F as (I & Q). destruct (str_eqb_spec (on_name y) (fst k)) as [Nm|]; [|discriminate].
    destruct (vec_at _ _) as [tl|] eqn:V; [|discriminate]. destruct (gen_end (on_ready y) tl) as [s|] eqn:G; [|discriminate]. destruct (all_some _) as [l|] eqn:A; [|discriminate]. intros [= <-].
    split; [destruct k; reflexivity|]. exists s. unfold gen_end in G. destruct (al_run _ _ _ _) as [| |s'] eqn:R; try discriminate. destruct (_ && _) eqn:C; [|discriminate]. injection G as ->.
    apply andb_prop in C as (C & C4). apply andb_prop in C as (C & C3). apply andb_prop in C as (C1 & C2). rewrite forallb_forall in C2, C3, C4. destruct (all_some_nth _ _ A) as (Le & Na). rewrite map_length in Le. split.
    - exists (on_node y), (on_engine y), (on_ready y), tl. cbn [lr_instance lr_list lr_predicates lr_schedule lr_actions]. rewrite <- Nm. split; [exact (Al y I)|]. split; [exact V|]. split; [exact R|]. split; [exact Le|].
      intros i a ar Ea Er. specialize (Na i ar Er). rewrite nth_error_map, Ea in Na. injection Na as Na. apply gen_action_ok; [exact Na| |].
      + specialize (C4 a (nth_error_In _ _ Ea)). destruct (given_up _ a); [discriminate|reflexivity].
      + assert (Li : In i (seq 0 (length (tl_entries tl)))) by (apply in_seq; assert (i < length (tl_entries tl))%nat by (apply nth_error_Some; congruence); lia).
        specialize (C3 i Li). apply existsb_exists in C3 as (v & Iv & Ev). destruct v as [|j [|] now| | | | | |]; try discriminate. apply Nat.eqb_eq in Ev. subst j. eauto.
    - split; [apply existsb_exists in C1 as (v & Iv & Ev); destruct v; try discriminate; exact Iv|]. intro Iv. specialize (C2 _ Iv). discriminate.
  Qed.
  Lemma gen_ok fuel : forall q W, gen fuel q = Some W -> map list_key W = q ++ flat_map starts_by_list W /\ forall x, In x W -> exists s, list_run_ok o ex_r t res ws ex_info opts x s /\ complete s.
  Proof.
    induction fuel as [|f IH]; intros q W E; destruct q as [|k q]; cbn [gen] in E; try discriminate; try (injection E as <-; split; [reflexivity|intros x []]).
    destruct (gen_list k) as [x|] eqn:G; [|discriminate]. destruct (gen f (q ++ starts_by_list x)) as [W'|] eqn:G'; [|discriminate]. injection E as <-. destruct (gen_list_ok _ _ G) as (K & Ok). destruct (IH _ _ G') as (M & Oks). split.
    - cbn [map flat_map app]. rewrite K, M, app_assoc. reflexivity.
    - intros y [<-|I]; [exact Ok|exact (Oks y I)].
  Qed.
  Lemma gen_execution fuel W : gen fuel (main_lists (config_of t)) = Some W -> execution o ex_r t res ws ex_info opts complete W.
  Proof. intro E. destruct (gen_ok _ _ _ E) as (M & Oks). constructor; [exact Oks|]. rewrite M. reflexivity. Qed.
End Generate.

(** ** The test: two clients call all servers twice, and once more from a list
    of their own; a server that is called calls the others *)
Definition work_conf : config :=
  mkConf ex_services [] [ex_rpc "echo" None; mkRpcD (s_ "ring") [s_ "server"] (s_ "server") None None None None None] []
    [ex_action "a" [] (KRpc (s_ "echo")); ex_action "b" [] (KRpc (s_ "echo")); ex_action "c" [] (KRpc (s_ "ring")); ex_action "l" [] (KList (s_ "sub"))]
    [mkListD (s_ "client") [s_ "a"; s_ "l"]; mkListD (s_ "echo") [s_ "c"]; mkListD (s_ "sub") [s_ "b"]; mkListD (s_ "ring") []] [] [] [] [].
Definition work_opts (n : str) : run_options := if str_eqb n (s_ "a") then mkOptions true (Some 2) None 1 None 0 false false [] else options0.
Definition work_test (cs : list (str * constraint_list)) (bs : list (str * list str)) : whole := mkWhole (mkTest work_conf [] [] [] cs bs []) 16 (wt_drivers ex_t) [] (s_ "grpc").
Definition work1 : whole := work_test (te_constraints (wt_test ex_t)) (te_bundles (wt_test ex_t)).
(** ... and the same with other instances on one node. *)
Definition work2 : whole := work_test [] [(s_ "node2", [s_ "server/1/0/0"; s_ "server/2/0/0"])].
Definition out_of (t : whole) : outside := outside_of (engines_of (wo_introduced (worlds_of (ex_run_of t)))).
Definition runs_in (t : whole) (res : test_result) (ws : worlds) : option (list list_run) :=
  gen false (skipn 10) work_opts (ones (outside_of (engines_of (wo_introduced ws))) t res ws) 100 (main_lists work_conf).
Definition some_runs (x : option (list list_run)) : list list_run := match x with Some l => l | None => [] end.
Definition work_runs (t : whole) : list list_run := some_runs (runs_in t (result_of t (ex_run_of t)) (worlds_of (ex_run_of t))).
Example C80_ex_layered : layered work_conf work_opts 3.
Proof.
  exists (fun j => match j with 0 => 0 | 1 => 2 | 2 => 1 | _ => 2 end)%nat. split; [intros [|[|[|[|j]]]] H; cbn in H; lia|].
  assert (Big : forall j, (4 <= j)%nat -> nth_error (cf_lists work_conf) j = None) by (intros j H; apply nth_error_None; exact H).
  assert (C : forall j z, list_calls work_conf work_opts j z <> 0 -> (j < 4)%nat) by (intros j z N; destruct (Nat.lt_ge_cases j 4) as [H|H]; [exact H|]; destruct N; unfold list_calls; rewrite (Big j H); reflexivity).
  assert (Ne : forall j h, list_nests work_conf work_opts j h <> 0 -> (j < 4)%nat) by (intros j h N; destruct (Nat.lt_ge_cases j 4) as [H|H]; [exact H|]; destruct N; unfold list_nests; rewrite (Big j H); reflexivity).
  assert (Rz : forall z h, runs_list work_conf z h = true -> z = 0%nat /\ h = 1%nat).
  { intros [|[|z]] h H; unfold runs_list in H; cbn [nth_error work_conf cf_rpcs] in H.
    - vm_compute in H. destruct h as [|[|h]]; [discriminate|auto|destruct h; discriminate].
    - vm_compute in H. destruct h as [|[|[|[|h]]]]; discriminate.
    - destruct z; discriminate. }
  intros j h [N|(z & R & N)].
  - pose proof (Ne j h N). destruct j as [|[|[|[|j]]]]; try lia; destruct h as [|[|[|[|h]]]]; vm_compute in N; try (destruct N; reflexivity); try lia.
  - destruct (Rz z h R) as (-> & ->). pose proof (C j _ N). destruct j as [|[|[|[|j]]]]; try lia; vm_compute in N; destruct N; reflexivity.
Qed.
Example C80_ex_plain : plain work_conf work_opts.
Proof.
  split; [intros rp [<-|[<-|[]]]; exact Logic.I|]. intros a [<-|[<-|[<-|[<-|[]]]]]; (split; [reflexivity|]); (split; [reflexivity|]); discriminate.
Qed.
Lemma work_placeable cs bs : NoDup (map fst cs) -> NoDup (map fst bs) -> placeable (work_test cs bs).
Proof. intros A B. constructor; [|exact B|exact A]. destruct Peer_Props.ex_sane as [S1 S2 S3]. constructor; [exact S1|exact S2|exact S3]. Qed.
Lemma work_ran cs bs x : NoDup (map fst cs) -> NoDup (map fst bs) -> x = do_run_test (fun _ _ => true) ex_r ex_nes ex_ev (work_test cs bs) ex_w [0; 1; 2; 3; 9] ->
  match fst (fst x) with TestOk _ _ => true | _ => false end = true ->
  ran (fun _ _ => true) ex_r ex_nes ex_ev (work_test cs bs) ex_w [0; 1; 2; 3; 9] (result_of (work_test cs bs) (fst (fst x))) (worlds_of (fst (fst x))).
Proof. intros A B E Q. apply (ran_of (work_test cs bs) x E); [apply work_placeable; assumption|exact Q]. Qed.
Fixpoint distinct (l : list str) : bool := match l with [] => true | x :: r => negb (existsb (str_eqb x) r) && distinct r end.
Lemma distinct_spec l : distinct l = true -> NoDup l.
Proof.
  induction l as [|x l IH]; intro H; [constructor|]. cbn [distinct] in H. apply andb_prop in H as (N & H). constructor; [|exact (IH H)]. intro I.
  enough (existsb (str_eqb x) l = true) as Q by (rewrite Q in N; discriminate). apply existsb_exists. exists x. split; [exact I|]. destruct (str_eqb_spec x x); [reflexivity|congruence].
Qed.
Definition check_addresses (ws : worlds) : bool :=
  let l := map ex_socket (engines_of (wo_introduced ws)) in
  distinct l && negb (existsb (str_eqb []) l) && distinct (map (fun x => add_protocol (skipn 10 (ex_info (fst (fst x)) (snd (fst x)) (snd x)))) (engines_of (wo_introduced ws))).
Lemma work_benchmark ev cs bs res ws : ran (fun _ _ => true) ex_r ex_nes ev (work_test cs bs) ex_w [0; 1; 2; 3; 9] res ws -> check_addresses ws = true ->
  benchmark (fun _ _ => true) ex_r ex_nes ev (work_test cs bs) ex_w [0; 1; 2; 3; 9] res ws (outside_of (engines_of (wo_introduced ws))) ex_info work_opts.
Proof.
  intros Rn C. unfold check_addresses in C. apply andb_prop in C as (C & C3). apply andb_prop in C as (C1 & C2). constructor.
  - exact Rn.
  - repeat constructor; cbn; intuition discriminate.
  - cbn. unfold int32_max. lia.
  - apply network_of; [apply distinct_spec, C1|]. intro I. enough (existsb (str_eqb []) (map ex_socket (engines_of (wo_introduced ws))) = true) as Q by (rewrite Q in C2; discriminate). apply existsb_exists. exists []. auto.
  - intros id n e id' n' e' O O' A A' Q. pose proof (proj2 (engines_of_In _ _ _ _) (conj O A)) as I. pose proof (proj2 (engines_of_In _ _ _ _) (conj O' A')) as I'.
    pose proof (named_once (fun x => add_protocol (skipn 10 (ex_info (fst (fst x)) (snd (fst x)) (snd x)))) _ _ _ (distinct_spec _ C3) I I' Q) as W. congruence.
  - intros rp I. assert (Nf : rp_channel rp = None /\ rp_fanout rp = None /\ rp_server rp = s_ "server") by (destruct I as [<-|[<-|[]]]; auto). destruct Nf as (Nc & Nf & _). split; [exact Nc|]. rewrite Nf.
    exists (FGrid false false false). split; [reflexivity|]. intros. repeat split; discriminate.
  - intro n. unfold work_opts. destruct (str_eqb n (s_ "a")); (split; [vm_compute; discriminate|]); intros _; vm_compute; split; discriminate.
Qed.
Lemma work_execution cs bs res ws W : runs_in (work_test cs bs) res ws = Some W -> execution (outside_of (engines_of (wo_introduced ws))) ex_r (work_test cs bs) res ws ex_info work_opts complete W.
Proof. intro E. unfold runs_in in E. eapply gen_execution; [|intros x I; exact (ones_ready _ _ _ _ x I)|exact E]. reflexivity. Qed.
Definition all_ok (l : list (str * entry)) : bool := forallb (fun y => en_ok (snd y)) l.
Lemma all_ok_spec l : all_ok l = true -> succeeded l.
Proof. intros F y I. unfold all_ok in F. rewrite forallb_forall in F. exact (F y I). Qed.
(** Both have executions, on different placements; each makes the 54 RPCs. *)
Lemma work_example cs bs : NoDup (map fst cs) -> NoDup (map fst bs) ->
  match ex_run_of (work_test cs bs) with TestOk _ _ => true | _ => false end = true -> check_addresses (worlds_of (ex_run_of (work_test cs bs))) = true ->
  match runs_in (work_test cs bs) (result_of (work_test cs bs) (ex_run_of (work_test cs bs))) (worlds_of (ex_run_of (work_test cs bs))) with Some W => all_ok (made W) | None => false end = true ->
  let t := work_test cs bs in let res := result_of t (ex_run_of t) in let ws := worlds_of (ex_run_of t) in
  benchmark (fun _ _ => true) ex_r ex_nes ex_ev t ex_w [0; 1; 2; 3; 9] res ws (out_of t) ex_info work_opts /\
  execution (out_of t) ex_r t res ws ex_info work_opts complete (work_runs t) /\ succeeded (made (work_runs t)).
Proof.
  intros A B Q C E. cbv zeta. split; [apply work_benchmark; [apply (work_ran _ _ _ A B eq_refl Q)|exact C]|].
  unfold work_runs. destruct (runs_in _ _ _) as [W|] eqn:G; [|discriminate]. cbn [some_runs]. split; [apply work_execution, G|apply all_ok_spec, E].
Qed.
Example C80_ex_first : let t := work1 in let res := result_of t (ex_run_of t) in let ws := worlds_of (ex_run_of t) in
  benchmark (fun _ _ => true) ex_r ex_nes ex_ev t ex_w [0; 1; 2; 3; 9] res ws (out_of t) ex_info work_opts /\
  execution (out_of t) ex_r t res ws ex_info work_opts complete (work_runs t) /\ succeeded (made (work_runs t)).
Proof. apply (work_example (te_constraints (wt_test ex_t)) (te_bundles (wt_test ex_t))); [apply NoDup_cons; [intros []|apply NoDup_nil]|apply NoDup_cons; [intros []|apply NoDup_nil]|vm_compute; reflexivity..]. Qed.
Example C80_ex_second : let t := work2 in let res := result_of t (ex_run_of t) in let ws := worlds_of (ex_run_of t) in
  benchmark (fun _ _ => true) ex_r ex_nes ex_ev t ex_w [0; 1; 2; 3; 9] res ws (out_of t) ex_info work_opts /\
  execution (out_of t) ex_r t res ws ex_info work_opts complete (work_runs t) /\ succeeded (made (work_runs t)).
Proof. apply (work_example [] [(s_ "node2", [s_ "server/1/0/0"; s_ "server/2/0/0"])]); [apply NoDup_nil|apply NoDup_cons; [intros []|apply NoDup_nil]|vm_compute; reflexivity..]. Qed.
(** The placements differ; the numbers are as prescribed. *)
Example C80_ex_numbers :
  let node t n := option_map en_id (engine_of (wo_introduced (worlds_of (ex_run_of t))) 2 (s_ n)) in
  (node work1 "server/1/0/0"%string, node work2 "server/1/0/0"%string) = (None, Some 0%nat) /\
  map (fun n' => expected_rpcs work_conf work_opts 3 (s_ "client/0/0/0") (s_ n') 0) ["client/1/0/0"; "server/0/0/0"; "server/2/0/0"]%string = [0; 3; 3] /\
  map (fun n' => expected_rpcs work_conf work_opts 3 (s_ "server/0/0/0") (s_ n') 1) ["client/1/0/0"; "server/0/0/0"; "server/2/0/0"]%string = [0; 0; 6] /\
  (expected_runs work_conf work_opts 3 (s_ "server/1/0/0") 1, expected_total work_conf work_opts 3, len (made (work_runs work1)), len (made (work_runs work2)), len (work_runs work1)) = (6, 54, 54, 54, 22).
Proof. vm_compute. auto. Qed.

(** ** What the first one reports *)
Definition of_instance (n : str) (x : list_run) : bool := str_eqb (lr_instance x) n.
Definition recorded_by (W : list list_run) (n : str) : list (list entry) := map made_by_list (filter (of_instance n) W).
Lemma recorded_made c W : NoDup (names c) -> (forall x, In x W -> In (lr_instance x) (names c)) -> Permutation (all_recorded c (recorded_by W)) (made W).
Proof.
  intros D. unfold all_recorded, recorded_by. induction W as [|x W IH]; intro H.
  - cbn [filter map concat made flat_map]. clear D H. induction (names c) as [|n l IH]; [constructor|exact IH].
  - change (made (x :: W)) with (map (pair (lr_instance x)) (made_by_list x) ++ made W). rewrite <- IH by (intros; apply H; right; assumption). clear IH.
    destruct (in_split _ _ (H x (or_introl eq_refl))) as (l1 & l2 & E). rewrite E in *. rewrite !flat_map_app. cbn [flat_map].
    assert (G : forall l, ~ In (lr_instance x) l -> flat_map (fun n => map (pair n) (concat (map made_by_list (filter (of_instance n) (x :: W))))) l = flat_map (fun n => map (pair n) (concat (map made_by_list (filter (of_instance n) W)))) l).
    { intros l N. induction l as [|n l IH]; [reflexivity|]. cbn [flat_map]. rewrite IH by (intro; apply N; right; assumption). f_equal. cbn [filter]. unfold of_instance at 1. destruct (str_eqb_spec (lr_instance x) n) as [<-|]; [destruct N; left; reflexivity|reflexivity]. }
    destruct (NoDup_remove _ _ _ D) as (_ & N). rewrite !G by (intro; apply N, in_or_app; auto). cbn [filter]. unfold of_instance at 2. destruct (str_eqb_spec (lr_instance x) (lr_instance x)); [|congruence].
    cbn [map concat]. rewrite map_app. rewrite !app_assoc. apply Permutation_app_tail, Permutation_app_tail, Permutation_app_comm.
Qed.
Definition state_of (runs : str -> list (list entry)) (n : str) : engine_state :=
  mkES [] (table_with rep_table (match lists_of (map (@length _) rep_table) (runs n) with Some l => l | None => [] end)) [] [] [].
Definition content_of (runs : str -> list (list entry)) (z : Z) : engine_log := fst (get_logs (state_of runs (rep_name z))).
Definition ev_of (runs : str -> list (list entry)) : environment :=
  mkEnvironment (ev_configure ex_ev) (ev_introduce ex_ev) (ev_run ex_ev)
    (mkPhase (fun _ => Served) (fun id => mkExt (Node_Model.ex_driver ex_good) (Node_Model.ex_engine ex_good) (Node_Model.ex_connect ex_good)
        (fun k => let z := 10 * id + Z.of_nat k in option_map (fun _ => z) (kept_log (content_of runs z)))) (ph_events (ev_get ex_ev))).
Definition records_check (t : whole) (runs : str -> list (list entry)) (o : outside) (ws : worlds) (res : test_result) (x : Z * str * engine) : bool :=
  let '(id, n, e) := x in
  str_eqb (rep_name (10 * id + Z.of_nat (en_id e))) n &&
  match lists_of (map (@length _) rep_table) (runs n) with Some _ => true | None => false end &&
  match ready_of o res (wo_introduced ws) t id n with Some (_, rd) => names_eqb (map (map pe_name) (sc_peers (rd_scan rd))) rep_table | None => false end.
Lemma collected_of t runs o ws res w active : ran (fun _ _ => true) ex_r ex_nes (ev_of runs) t w active res ws -> forallb (records_check t runs o ws res) (engines_of (wo_ran ws)) = true ->
  collected o ex_r (ev_of runs) t res ws (content_of runs) runs.
Proof.
  intros Rn F id n e O A. rewrite forallb_forall in F. pose proof (F _ (proj2 (engines_of_In _ _ _ _) (conj O A))) as C. unfold records_check in C. apply andb_prop in C as (C & C3). apply andb_prop in C as (C1 & C2).
  destruct (str_eqb_spec (rep_name (10 * id + Z.of_nat (en_id e))) n) as [Nm|]; [|discriminate]. exists (state_of runs n). split.
  - destruct (ready_of _ _ _ _ _ _) as [[e' rd]|] eqn:Rd; [|discriminate]. pose proof (ready_of_at _ _ _ _ _ _ _ _ O Rd) as Ra.
    assert (e' = e).
    { destruct Rn as (St & w' & active' & E). destruct (C74_engines _ _ _ _ _ _ _ _ _ _ _ St E) as (m & _ & _ & H). destruct (H id n O) as (_ & Un & _). apply Un.
      - exact (ra_engine _ _ _ _ _ _ _ _ _ Ra).
      - apply (ran_introduced _ _ _ _ _ _ _ _ _ _ _ _ (conj St (ex_intro _ w' (ex_intro _ active' E))) O), A. }
    subst e'. assert (Tn : map (map fst) (es_peers (state_of runs n)) = rep_table) by (unfold state_of; cbn [es_peers]; apply table_names).
    assert (Ln : map (@length _) (es_peers (state_of runs n)) = map (@length _) rep_table).
    { rewrite <- Tn, map_map. apply map_ext. intro. rewrite map_length. reflexivity. }
    constructor.
    + exists rd. split; [exact Ra|]. rewrite Tn. unfold names_eqb in C3. destruct (list_eq_dec _ _ _); [congruence|discriminate].
    + rewrite Ln. unfold state_of. cbn [es_peers]. destruct (lists_of _ (runs n)) as [ls|] eqn:Ls; [|discriminate]. exists ls. split; [apply lists_of_spec, Ls|apply table_merged].
  - unfold ev_of. cbn [ev_get ph_ext Node_Model.ex_logs]. unfold content_of. rewrite Nm. destruct (kept_spec (fst (get_logs (state_of runs n)))) as [(Q & _)|Q]; rewrite Q; cbn [option_map]; [reflexivity|]. rewrite Nm. reflexivity.
Qed.
Definition work_records : str -> list (list entry) := recorded_by (work_runs work1).
Definition work_content : Z -> engine_log := content_of work_records.
Definition work_ev : environment := ev_of work_records.
Definition work_run : test_outcome := fst (fst (do_run_test (fun _ _ => true) ex_r ex_nes work_ev work1 ex_w [0; 1; 2; 3; 9])).
Definition work_result : test_result := result_of work1 work_run.
Definition work_worlds : worlds := worlds_of work_run.
Lemma work_ran_again : ran (fun _ _ => true) ex_r ex_nes work_ev work1 ex_w [0; 1; 2; 3; 9] work_result work_worlds.
Proof.
  destruct C75_ex_ran as ((St & _) & _). split.
  - destruct St as [A _ [C1 C2 C3 C4] D]. constructor; [exact A| |constructor; assumption|exact D]. apply work_placeable; apply NoDup_cons; try (intros []); apply NoDup_nil.
  - assert (Q : match work_run with TestOk _ _ => true | _ => false end = true) by (vm_compute; reflexivity).
    unfold work_result, work_worlds. revert Q. unfold work_run. destruct (do_run_test _ _ _ _ _ _ _) as [[out w1] act]. cbn [fst]. destruct out; try discriminate. cbn [result_of worlds_of]. eauto.
Qed.
Definition work_out : outside := outside_of (engines_of (wo_introduced work_worlds)).
Definition work_all : list list_run := some_runs (runs_in work1 work_result work_worlds).
Lemma some_runs_spec x : match x with Some _ => true | None => false end = true -> x = Some (some_runs x).
Proof. destruct x; [reflexivity|discriminate]. Qed.
Example C80_ex_reported : benchmark (fun _ _ => true) ex_r ex_nes work_ev work1 ex_w [0; 1; 2; 3; 9] work_result work_worlds work_out ex_info work_opts /\
  execution work_out ex_r work1 work_result work_worlds ex_info work_opts complete work_all /\ succeeded (made work_all) /\
  reported (fun _ _ => true) work1 work_result work_content work_records /\ Permutation (all_recorded (config_of work1) work_records) (made work_all).
Proof.
  assert (Bm : benchmark (fun _ _ => true) ex_r ex_nes work_ev work1 ex_w [0; 1; 2; 3; 9] work_result work_worlds work_out ex_info work_opts).
  { apply work_benchmark; [exact work_ran_again|vm_compute; reflexivity]. }
  assert (Ex : execution work_out ex_r work1 work_result work_worlds ex_info work_opts complete work_all).
  { apply work_execution. change (runs_in work1 work_result work_worlds = Some work_all). apply some_runs_spec. vm_compute. reflexivity. }
  split; [exact Bm|]. split; [exact Ex|]. split; [apply all_ok_spec; vm_compute; reflexivity|]. split.
  - exists ex_r, ex_nes, work_ev, ex_w, [0; 1; 2; 3; 9], work_worlds, work_out. split; [exact work_ran_again|]. split; [exact (be_rpcs _ _ _ _ _ _ _ _ _ _ _ _ Bm)|]. split.
    + intros n ((b & l & [K|[]] & I) & c & [(_ & [J|[]])|(_ & k & [J|[]] & S & _)]).
      * apply (f_equal fst) in J. cbn [fst] in J. subst n. injection K as <- <-. destruct I as [I|[I|[]]]; discriminate.
      * apply (f_equal fst) in J. cbn [fst] in J. subst k. vm_compute in S. repeat destruct S as [S|S]; try discriminate S. exact S.
    + apply (collected_of _ _ _ _ _ _ _ work_ran_again). vm_compute. reflexivity.
  - assert (Q : made work_all = made (work_runs work1)) by (vm_compute; reflexivity). rewrite Q. destruct C80_ex_first as (B1 & E1 & _). apply recorded_made.
    + apply names_NoDup. exact (Sa _ _ _ _ _ _ _ _ _ (be_ran _ _ _ _ _ _ _ _ _ _ _ _ B1)).
    + intros x I. destruct (xe_each _ _ _ _ _ _ _ _ _ E1 x I) as (s & Ok & _). destruct Ok as (id & e & rd & tl & Ra & _).
      destruct (situation_of_test _ _ _ _ _ _ _ _ _ _ _ _ _ _ (be_ran _ _ _ _ _ _ _ _ _ _ _ _ B1) (be_rpcs _ _ _ _ _ _ _ _ _ _ _ _ B1) Ra) as (eps & k & i & s0 & _ & H & _ & _).
      apply (In_names _ _ (es_sane _ _ _ _ _ _ _ _ _ H)). exists k, i. exact (es_located _ _ _ _ _ _ _ _ _ H).
Qed.
(** In the order in which the nodes have answered. *)
Example C80_ex_summary : exists s, test_summary work_content work_result = Some (Summary s) /\ (sm_samples s, sm_failed s) = (54, 0) /\
  map (fun x => (fst x, pf_rpcs (snd x))) (sm_comm s) = map (fun x => let '(a, b, n) := x in ((s_ a, s_ b), n))
    [("server/2/0/0", "server/0/0/0", 6); ("server/2/0/0", "server/1/0/0", 6); ("client/0/0/0", "server/0/0/0", 3); ("client/0/0/0", "server/1/0/0", 3); ("client/0/0/0", "server/2/0/0", 3); ("client/1/0/0", "server/0/0/0", 3); ("client/1/0/0", "server/1/0/0", 3); ("client/1/0/0", "server/2/0/0", 3); ("server/1/0/0", "server/0/0/0", 6); ("server/1/0/0", "server/2/0/0", 6); ("server/0/0/0", "server/1/0/0", 6); ("server/0/0/0", "server/2/0/0", 6)]%string.
Proof. eexists. split; [vm_compute; reflexivity|]. split; vm_compute; reflexivity. Qed.

(** The lists come to their end also when RPCs fail; then others are not made:
    here no echo reaches a server, so that none of them calls another. *)
Theorem C80_failures_refuted : exists fnm r nes ev t w active res ws o info opts W k, benchmark fnm r nes ev t w active res ws o info opts /\ plain (config_of t) opts /\
  execution o r t res ws info opts complete W /\ layered (config_of t) opts k /\ len (made W) = 18 /\ expected_total (config_of t) opts k = 54.
Proof.
  destruct C80_ex_first as (B & _ & _). cbv zeta in B.
  pose (W := some_runs (gen true (skipn 10) work_opts (ones (out_of work1) work1 (result_of work1 (ex_run_of work1)) (worlds_of (ex_run_of work1))) 100 (main_lists work_conf))).
  exists (fun _ _ => true), ex_r, ex_nes, ex_ev, work1, ex_w, [0; 1; 2; 3; 9], (result_of work1 (ex_run_of work1)), (worlds_of (ex_run_of work1)), (out_of work1), ex_info, work_opts, W, 3%nat.
  split; [exact B|]. split; [exact C80_ex_plain|]. split; [|split; [exact C80_ex_layered|split; vm_compute; reflexivity]].
  eapply gen_execution with (failing := true) (address := skipn 10) (fuel := 100%nat); [reflexivity|intros x I; exact (ones_ready _ _ _ _ x I)|]. apply some_runs_spec. vm_compute. reflexivity.
Qed.
Print Assumptions C80_failures_refuted.
