(** Properties C68-C70 of the command line program: run_tests, check_test,
    test_preview. *)
From Coq Require Import Ascii String List NArith ZArith QArith Bool Arith Lia.
From Verif Require Import Base_Model Base_Proofs Grid_Model Grid_Proofs Canon_Model Canon_Proofs Place_Model Place_Proofs Fanout_Model Dist_Model Util_Model
  Util_Proofs Util_Props Replay_Model Table_Model Table_Proofs Table_Proofs2 Table_Props Net_Model Seq_Model Cli_Model Cli_Proofs.
Import ListNotations.
Open Scope Z_scope.

(** What a file contains: the binary format is tried first. *)
Definition file_holds (read : str -> option str) (binary text : str -> option sequence) (file : str) (s : sequence) : Prop :=
  exists contents, read file = Some contents /\ (binary contents = Some s \/ binary contents = None /\ text contents = Some s).
Lemma load_spec read binary text file s : load read binary text file = LoadOk s <-> file_holds read binary text file s.
Proof.
  unfold load, file_holds. destruct (read file) as [c|]; [|split; [discriminate|intros (? & K & _); discriminate]].
  destruct (binary c) as [b|] eqn:B.
  - split; [intros [= <-]; exists c; auto|]. intros (c' & [= <-] & [K|[K _]]); congruence.
  - destruct (text c) as [x|] eqn:T.
    + split; [intros [= <-]; exists c; auto|]. intros (c' & [= <-] & [K|[_ K]]); congruence.
    + split; [discriminate|]. intros (c' & [= <-] & [K|[_ K]]); congruence.
Qed.

(** ** C68: run_tests *)
(** The sequence sent is the one in the file, except for the timeouts of the
    tests. *)
Definition same_test (t t' : test) : Prop :=
  te_config t' = te_config t /\ te_iterations t' = te_iterations t /\ te_predicates t' = te_predicates t /\ te_constraints t' = te_constraints t /\
  te_bundles t' = te_bundles t /\ te_rest t' = te_rest t /\ forall n, n <> timeout_name -> map_find n (te_attributes t') = map_find n (te_attributes t).
Definition same_sequence (s s' : sequence) : Prop := sq_settings s' = sq_settings s /\ Forall2 same_test (sq_tests s) (sq_tests s').

Lemma with_attributes_id s : with_attributes (map te_attributes (sq_tests s)) s = s.
Proof.
  destruct s as [x l]. unfold with_attributes. cbn [sq_settings sq_tests]. f_equal. induction l as [|t l IH]; [reflexivity|].
  cbn [map combine fst snd]. rewrite IH. destruct t; reflexivity.
Qed.
Lemma with_timeouts_same flag s attrs r : run_tests_timeout flag (map te_attributes (sq_tests s)) = (attrs, r) ->
  same_sequence s (with_attributes attrs s) /\ (flag = 0 -> with_attributes attrs s = s).
Proof.
  unfold run_tests_timeout. destruct (Z.eqb_spec flag 0) as [->|N]; cbn [negb]; intros [= <- _].
  - rewrite with_attributes_id. split; [|reflexivity]. split; [reflexivity|]. induction (sq_tests s); constructor; [|exact IHl]. repeat split.
  - split; [|contradiction]. split; [reflexivity|]. unfold with_attributes, set_all_timeouts. cbn [sq_tests].
    induction (sq_tests s) as [|t l IH]; cbn [map combine]; constructor; [|exact IH]. cbn [fst snd]. unfold same_test, set_attributes.
    cbn [te_config te_attributes te_iterations te_predicates te_constraints te_bundles te_rest]. repeat split. intros n Hn. apply map_find_set_other, Hn.
Qed.

Section Run.
  Context {Results : Type}.
  Variables (read : str -> option str) (binary text : str -> option sequence)
    (run : sequence -> Z -> option Results) (save : bool -> str -> Results -> bool).
  Let mode := run_tests read binary text run save.

  (** run_tests exits with 0 only if the file was read and parsed, the timeouts
      could be computed, the sequencer answered the one call with results, and
      those results were written to the file that was asked for. *)
  Theorem C68_success : forall f args eff, mode f args = (eff, XExit 0) <->
    args = [] /\ exists s s' seconds r, file_holds read binary text (fl_infile f) s /\
      run_tests_timeout (fl_max_seconds f) (map te_attributes (sq_tests s)) = (map te_attributes (sq_tests s'), TimeoutOk seconds) /\
      same_sequence s s' /\ run s' (deadline_seconds seconds) = Some r /\
      (fl_outfile f = [] /\ eff = [ECall s' (deadline_seconds seconds); ESummary r] \/
       fl_outfile f <> [] /\ save (fl_binary f) (fl_outfile f) r = true /\
       eff = [ECall s' (deadline_seconds seconds); ESummary r; ESave (fl_binary f) (fl_outfile f) r]).
  Proof.
    intros f args eff. unfold mode, run_tests. destruct args as [|a args]; [|split; [discriminate|intros (K & _); discriminate]].
    destruct (load read binary text (fl_infile f)) as [s| |] eqn:L.
    2,3: split; [discriminate|]; intros (_ & s & _ & _ & _ & H & _); apply load_spec in H; congruence.
    destruct (run_tests_timeout (fl_max_seconds f) (map te_attributes (sq_tests s))) as [attrs tr] eqn:T.
    destruct (with_timeouts_same _ _ _ _ T) as (Sm & _).
    assert (A : map te_attributes (sq_tests (with_attributes attrs s)) = attrs).
    { assert (length attrs = length (sq_tests s)) as Len.
      { pose proof (f_equal fst T) as Q. cbn [fst] in Q. rewrite <- Q. unfold run_tests_timeout.
        destruct (negb (fl_max_seconds f =? 0)); cbn [fst]; unfold set_all_timeouts; rewrite !map_length; reflexivity. }
      clear - Len. unfold with_attributes. cbn [sq_tests]. revert attrs Len. induction (sq_tests s) as [|t l IH]; intros [|a attrs] Len; try discriminate; [reflexivity|].
      cbn [combine map fst snd]. unfold set_attributes at 1. cbn [te_attributes]. f_equal. apply IH. injection Len. auto. }
    assert (U : forall s1 s2 seconds, file_holds read binary text (fl_infile f) s1 ->
              run_tests_timeout (fl_max_seconds f) (map te_attributes (sq_tests s1)) = (map te_attributes (sq_tests s2), TimeoutOk seconds) ->
              same_sequence s1 s2 -> tr = TimeoutOk seconds /\ s2 = with_attributes attrs s).
    { intros s1 s2 seconds H1 H2 H3. apply load_spec in H1. assert (s1 = s) as -> by congruence. rewrite T in H2.
      pose proof (f_equal snd H2) as Q. pose proof (f_equal fst H2) as Q2. cbn [fst snd] in Q, Q2. split; [exact Q|]. subst attrs.
      clear - H3. destruct H3 as (E & F). destruct s as [x l], s2 as [x2 l2]. unfold with_attributes. cbn [sq_settings sq_tests] in *. subst x2. f_equal.
      induction F as [|t t' l l' (E1 & E2 & E3 & E4 & E5 & E6 & _) F IH]; [reflexivity|]. cbn [map combine fst snd]. rewrite <- IH. f_equal.
      destruct t, t'; cbn in *; unfold set_attributes; cbn. congruence. }
    split.
    - intro H. split; [reflexivity|]. destruct tr as [seconds| | |]; try discriminate.
      exists s, (with_attributes attrs s), seconds.
      destruct (run (with_attributes attrs s) (deadline_seconds seconds)) as [r|] eqn:R; [|discriminate]. exists r.
      split; [apply load_spec; exact L|]. split; [rewrite A; exact T|]. split; [exact Sm|]. split; [reflexivity|].
      destruct (fl_outfile f) as [|c out] eqn:O; [left; split; [reflexivity|congruence]|]. right. split; [discriminate|].
      destruct (save (fl_binary f) (c :: out) r) eqn:Sv; [|discriminate]. split; [reflexivity|]. congruence.
    - intros (_ & s1 & s2 & seconds & r & H1 & H2 & H3 & H4 & H5). destruct (U _ _ _ H1 H2 H3) as (-> & ->).
      rewrite H4. destruct H5 as [(O & ->)|(O & Sv & ->)].
      + rewrite O. reflexivity.
      + destruct (fl_outfile f); [congruence|]. rewrite Sv. reflexivity.
  Qed.
  (** Nothing reaches the sequencer unless the file holds a sequence whose
      timeouts are valid; with no --max_test_duration it is sent unchanged. *)
  Theorem C68_sent : forall f args s' d, In (ECall s' d) (fst (mode f args)) ->
    args = [] /\ exists s seconds, file_holds read binary text (fl_infile f) s /\ same_sequence s s' /\
      snd (run_tests_timeout (fl_max_seconds f) (map te_attributes (sq_tests s))) = TimeoutOk seconds /\ d = deadline_seconds seconds /\
      (fl_max_seconds f = 0 -> s' = s).
  Proof.
    intros f args s' d. unfold mode, run_tests. destruct args as [|a args]; [|intros []]. intro H. split; [reflexivity|].
    destruct (load read binary text (fl_infile f)) as [s| |] eqn:L; try (destruct H; fail).
    destruct (run_tests_timeout (fl_max_seconds f) (map te_attributes (sq_tests s))) as [attrs [seconds| | |]] eqn:T; try (destruct H; fail).
    destruct (with_timeouts_same _ _ _ _ T) as (Sm & S0). exists s, seconds. split; [apply load_spec, L|].
    assert (E : s' = with_attributes attrs s /\ d = deadline_seconds seconds).
    { destruct (run _ _); [destruct (fl_outfile f)|]; cbn [fst In] in H; destruct H as [H|H]; try (injection H as <- <-; auto);
        repeat destruct H as [H|H]; try discriminate; destruct H. }
    destruct E as (-> & ->). split; [exact Sm|]. split; [rewrite T; reflexivity|]. split; [reflexivity|exact S0].
  Qed.
  (** At most one call is made, before anything else; what is printed or saved is
      what it returned, in the format that was asked for. *)
  Theorem C68_results : forall f args, exists pre rest, fst (mode f args) = pre ++ rest /\
    (pre = [] /\ rest = [] \/ exists s d, pre = [ECall s d] /\
      forall e, In e rest -> exists r, run s d = Some r /\ (e = ESummary r \/ e = ESave (fl_binary f) (fl_outfile f) r /\ fl_outfile f <> [])).
  Proof.
    intros f args. unfold mode, run_tests. destruct args as [|a args]; [|exists [], []; auto].
    destruct (load read binary text (fl_infile f)) as [s| |]; try (exists [], []; auto; fail).
    destruct (run_tests_timeout _ _) as [attrs [seconds| | |]]; try (exists [], []; auto; fail).
    set (s' := with_attributes attrs s). set (d := deadline_seconds seconds). destruct (run s' d) as [r|] eqn:R.
    - destruct (fl_outfile f) as [|c out] eqn:O.
      + exists [ECall s' d], [ESummary r]. split; [reflexivity|]. right. exists s', d. split; [reflexivity|]. intros e [<-|[]]. exists r. auto.
      + exists [ECall s' d], [ESummary r; ESave (fl_binary f) (c :: out) r]. split; [reflexivity|]. right. exists s', d. split; [reflexivity|].
        intros e [<-|[<-|[]]]; exists r; (split; [exact R|]); [left; reflexivity|right; split; [reflexivity|discriminate]].
    - exists [ECall s' d], []. split; [reflexivity|]. right. exists s', d. split; [reflexivity|]. intros e [].
  Qed.
  (** Otherwise it exits with 1, or the sum of the timeouts overflows (C55). *)
  Theorem C68_exit : forall f args, snd (mode f args) = XExit 0 \/ snd (mode f args) = XExit 1 \/
    snd (mode f args) = XUndefined /\ fst (mode f args) = [] /\ exists s, file_holds read binary text (fl_infile f) s /\
      snd (run_tests_timeout (fl_max_seconds f) (map te_attributes (sq_tests s))) = TimeoutOverflow.
  Proof.
    intros f args. unfold mode, run_tests. destruct args as [|a args]; [|auto].
    destruct (load read binary text (fl_infile f)) as [s| |] eqn:L; auto.
    destruct (run_tests_timeout _ _) as [attrs [seconds| | |]] eqn:T; auto.
    - destruct (run _ _); [|auto]. destruct (fl_outfile f); [auto|]. cbn [snd]. destruct (save _ _ _); auto.
    - right. right. split; [reflexivity|]. split; [reflexivity|]. exists s. split; [apply load_spec, L|]. rewrite T. reflexivity.
  Qed.
End Run.
Print Assumptions C68_success. Print Assumptions C68_sent. Print Assumptions C68_results. Print Assumptions C68_exit.

(** The mode is the first argument that is not a flag, unless "-h" is given. *)
Theorem C68_modes : forall argv prog rest m args,
  choose_mode argv (prog :: rest) = (m, args) -> m <> ModeUsage 0 -> m <> ModeUsage 1 ->
  ~ In (s_ "-h") argv /\ exists name, rest = name :: args /\
  In (name, m) [(s_ "test_sequencer", ModeSequencer); (s_ "node_manager", ModeNode); (s_ "run_tests", ModeRun); (s_ "check_test", ModeCheck); (s_ "test_preview", ModePreview)].
Proof.
  intros argv prog rest m args H N0 N1. unfold choose_mode in H. destruct (existsb _ argv) eqn:E; [congruence|]. split.
  - intro I. assert (existsb (fun a => str_eqb a (s_ "-h")) argv = true) by (apply existsb_exists; exists (s_ "-h"); split; [exact I|apply str_eqb_refl]). congruence.
  - destruct rest as [|name rest]; [congruence|].
    repeat match type of H with (if str_eqb ?x ?y then _ else _) = _ => destruct (str_eqb_spec x y) as [->|] end;
      injection H as <- <-; try congruence; eexists; (split; [reflexivity|]); cbn [In]; auto 8.
Qed.
Theorem C68_mode_known : forall argv prog args name m, ~ In (s_ "-h") argv ->
  In (name, m) [(s_ "test_sequencer", ModeSequencer); (s_ "node_manager", ModeNode); (s_ "run_tests", ModeRun); (s_ "check_test", ModeCheck); (s_ "test_preview", ModePreview);
                (s_ "help", ModeUsage 0)] ->
  choose_mode argv (prog :: name :: args) = (m, args).
Proof.
  intros argv prog args name m N I. unfold choose_mode. destruct (existsb _ argv) eqn:E.
  - apply existsb_exists in E as (x & Ix & Ex). destruct (str_eqb_spec x (s_ "-h")); [subst; contradiction|discriminate].
  - cbn [In] in I. repeat (destruct I as [I|I]; [pose proof (f_equal fst I) as E1; pose proof (f_equal snd I) as E2; cbn [fst snd] in E1, E2; subst name m; reflexivity|]).
    destruct I.
Qed.
Print Assumptions C68_modes. Print Assumptions C68_mode_known.

(** A file in the text format with one test, results saved as binary. *)
Definition ex_test : test := mkTest ex_config [(s_ "test_timeout", s_ "100")] [] [] [] [] [].
Definition ex_seq : sequence := mkSequence None [ex_test].
Definition ex_read (f : str) : option str := if str_eqb f (s_ "in") then Some (s_ "tests {...}") else None.
Definition ex_text (c : str) : option sequence := if str_eqb c (s_ "tests {...}") then Some ex_seq else None.
Definition ex_flags (out : str) : flags := mkFlags (s_ "in") out true 0 (s_ "sequencer").
Example C68_ex :
  run_tests ex_read (fun _ => None) ex_text (fun s d => if d =? 100 then Some (length (sq_tests s)) else None) (fun _ _ _ => true) (ex_flags (s_ "out")) [] =
    ([ECall ex_seq 100; ESummary 1%nat; ESave true (s_ "out") 1%nat], XExit 0) /\
  run_tests ex_read (fun _ => None) ex_text (fun s d => Some (length (sq_tests s))) (fun _ _ _ => false) (ex_flags (s_ "out")) [] =
    ([ECall ex_seq 100; ESummary 1%nat; ESave true (s_ "out") 1%nat], XExit 1) /\
  run_tests (Results := nat) ex_read (fun _ => None) ex_text (fun _ _ => None) (fun _ _ _ => true) (ex_flags []) [] = ([ECall ex_seq 100], XExit 1) /\
  run_tests (Results := nat) ex_read (fun _ => None) (fun _ => None) (fun _ _ => None) (fun _ _ _ => true) (ex_flags []) [] = ([], XExit 1).
Proof. vm_compute. repeat split. Qed.

(** ** C69: check_test *)
Lemma Forall2_In_r {A B} (R : A -> B -> Prop) l l' : Forall2 R l l' -> forall b, In b l' -> exists a, In a l /\ R a b.
Proof. induction 1 as [|x y l l' H _ IH]; intros b I; [destruct I|]. destruct I as [<-|I]; [exists x; cbn; auto|]. destruct (IH b I) as (a & I1 & I2). exists a. cbn. auto. Qed.
Lemma completed_dims t t' sv : test_valid (dsd_of t) -> completed t t' -> In sv (cf_services (te_config t')) -> svc_count sv <> 0 ->
  forall v, sp_x (sv_spec sv) = Some v \/ sp_y (sv_spec sv) = Some v \/ sp_z (sv_spec sv) = Some v -> v <> 0.
Proof.
  intros (_ & A) (_ & F & _) I N v H. unfold dsd_of in A. cbn [d_services] in A.
  destruct (Forall2_In_r _ _ _ F (sv_spec sv)) as (s & Is & (_ & _ & Ey & Ez & X1 & X2 & _ & _ & C)); [apply in_map; exact I|].
  pose proof (proj1 (Forall_forall _ _) A s Is) as (A1 & A2 & A3 & _).
  rewrite Ey, Ez in H. destruct H as [H|[H|H]].
  - destruct (sp_x s) as [x|] eqn:X.
    + rewrite X1 in H by discriminate. injection H as <-. pose proof (A3 x (or_introl eq_refl)). lia.
    + rewrite X2 in H by reflexivity. injection H as <-. unfold svc_count, get_count in N. rewrite C in N by reflexivity. exact N.
  - pose proof (A3 v (or_intror (or_introl H))). lia.
  - pose proof (A3 v (or_intror (or_intror H))). lia.
Qed.
Lemma checked_test st t t' : test_valid (dsd_of t) -> completed t t' -> (exists u, validate_traffic_config st (te_config t) = TOk u) ->
  forall sv g, In sv (cf_services (te_config t')) ->
    (forall s, In s (cf_services (te_config t')) -> svc_name s = svc_name sv -> svc_count s <> 0) ->
    exists tables, initialize_config st (te_config t') (svc_name sv) g = TOk tables.
Proof.
  intros V C W sv g I N. pose proof C as (Sm & _). pose proof Sm as (Fg & _).
  destruct (Forall2_In_r _ _ _ Fg sv I) as (s0 & I0 & (En & _)).
  destruct (proj1 (validate_services_ok st (te_config t) _) W s0 I0) as (t0 & T0). apply initialize_config_tables in T0 as (Ne & T0).
  destruct (tables_grown _ _ _ _ _ Sm T0) as (t1 & T1). rewrite <- En in Ne, T1. exists t1. unfold initialize_config.
  destruct (svc_name sv) as [|a nm] eqn:Es; [congruence|]. rewrite <- Es in *.
  destruct (find (fun s => str_eqb (svc_name s) (svc_name sv)) (cf_services (te_config t'))) as [s|] eqn:Fs.
  - apply find_some in Fs as (Is & Eq). destruct (str_eqb_spec (svc_name s) (svc_name sv)) as [Eq'|]; [|discriminate].
    pose proof (completed_dims t t' s V C Is (N s Is Eq')) as D.
    destruct (instance_name (sv_spec s) (instance_from_grid (sv_spec s) g)) eqn:In'; [exact T1|]. exfalso. exact (instance_name_total _ _ D In').
  - exfalso. pose proof (find_none _ _ Fs sv I) as K. cbn beta in K. rewrite str_eqb_refl in K. discriminate.
Qed.

(** What GetCanonicalDistributedSystemDescription requires of a test. *)
Record valid_test (t : test) : Prop := mkValidTest {
  vt_services : forall sv, In sv (cf_services (te_config t)) -> acceptable (sv_spec sv);
  vt_traces : forall n tr, In (n, tr) (cf_traces (te_config t)) -> trace_accepted (map sv_spec (cf_services (te_config t))) (validated_part tr);
  vt_iterations : forall d, In d (te_iterations t) -> action_ok (mkActDesc d);
  vt_predicates : forall l p, In l (te_predicates t) -> In p l -> p <> [] /\ p <> s_ "!" }.
Lemma valid_iff t : test_valid (dsd_of t) <-> valid_test t.
Proof.
  unfold test_valid, dsd_accepted, dsd_of. cbn [d_services d_traces d_actions d_action_lists]. rewrite Forall_forall. split.
  - intros ((A & B & C) & D). constructor.
    + intros sv I. apply D, in_map, I.
    + intros n tr I. apply A. exact (in_map (fun x => validated_part (snd x)) _ _ I).
    + intros d I. apply B, in_map, I.
    + intros l p I J. exact (C (mkALDesc l) p (in_map mkALDesc _ _ I) J).
  - intros [A B C D]. split; [split; [|split]|].
    + intros x I. apply in_map_iff in I as ([n tr] & <- & I). exact (B n tr I).
    + intros a I. apply in_map_iff in I as (d & <- & I). exact (C d I).
    + intros al p I J. apply in_map_iff in I as (l & <- & I). exact (D l p I J).
    + intros s I. apply in_map_iff in I as (sv & <- & I). exact (A sv I).
Qed.

Section Check.
  Context {Results : Type}.
  Variables (read : str -> option str) (binary text : str -> option sequence) (st : str -> option (list (Q * Z))) (same : sequence -> sequence -> bool).
  Let mode := check_test (Results := Results) read binary text st same.

  (** If check_test exits with 0, then every test of the file has a canonical
      form, and with it every engine of a service that has instances starts,
      whatever its place in the grid. *)
  Theorem C69_checked : forall f args, snd (mode f args) = XExit 0 ->
    args = [] /\ exists s c, file_holds read binary text (fl_infile f) s /\ canonical_tests_of s = VOk c /\ Forall2 completed (sq_tests s) (sq_tests c) /\
      (forall t, In t (sq_tests s) -> valid_test t) /\
      forall t, In t (sq_tests c) -> forall sv g, In sv (cf_services (te_config t)) ->
        (forall s', In s' (cf_services (te_config t)) -> svc_name s' = svc_name sv -> svc_count s' <> 0) ->
        exists tables, initialize_config st (te_config t) (svc_name sv) g = TOk tables.
  Proof.
    intros f args H. unfold mode, check_test in H. destruct args as [|a args]; [|discriminate]. split; [reflexivity|].
    destruct (load read binary text (fl_infile f)) as [s| |] eqn:L; try discriminate.
    destruct (canonical_tests_of s) as [|e|c] eqn:Cn; try discriminate. cbn [snd] in H.
    destruct (canonical_tests_completed _ _ Cn) as (V & F & _). exists s, c. split; [apply load_spec, L|]. split; [exact Cn|]. split; [exact F|].
    split; [intros t It; apply valid_iff; exact (proj1 (Forall_forall _ _) V t It)|]. intros t It sv g Isv N. destruct (Forall2_In_r _ _ _ F t It) as (t0 & I0 & Ct).
    apply (checked_test st t0 t); auto; [apply (proj1 (Forall_forall _ _) V t0 I0)|]. apply (proj1 (check_traffic_ok st (sq_tests s)) H t0 I0).
  Qed.
  (** Nothing else is required: a file whose tests have valid shapes, whose
      replay traces and predicates are valid, and all of whose references are
      defined is accepted. *)
  Theorem C69_accepts : forall f s, file_holds read binary text (fl_infile f) s ->
    (forall t, In t (sq_tests s) -> valid_test t /\ Forall fits (map sv_spec (cf_services (te_config t))) /\ well_formed st (te_config t) /\
       forall sv, In sv (cf_services (te_config t)) -> svc_name sv <> [] /\ sp_x (sv_spec sv) <> Some 0 /\ sp_y (sv_spec sv) <> Some 0) ->
    snd (mode f []) = XExit 0.
  Proof.
    intros f s L H. apply load_spec in L. unfold mode, check_test. rewrite L.
    assert (exists c, canonical_tests_of s = VOk c) as (c & ->).
    { unfold canonical_tests_of. destruct (proj2 (canonical_sequence_spec (Canon_Model.mkSeq (sq_settings s) (map dsd_of (sq_tests s))))) as (r & ->); [| |eauto];
        cbn [ts_tests]; apply Forall_forall; intros d I; apply in_map_iff in I as (t & <- & I); destruct (H t I) as (H1 & H2 & _); [apply valid_iff|]; assumption. }
    cbn [snd]. apply check_traffic_ok. intros t I. exists tt. destruct (H t I) as (_ & _ & W & N). apply C52_accepts; assumption.
  Qed.
  (** Nothing is called and nothing is written; the canonical form is printed
      when it differs from what was read. *)
  Theorem C69_effects : forall f args, fst (mode f args) = [] \/
    exists s c, file_holds read binary text (fl_infile f) s /\ canonical_tests_of s = VOk c /\ same s c = false /\ fst (mode f args) = [EPrintCanonical c].
  Proof.
    intros f args. unfold mode, check_test. destruct args; [|auto]. destruct (load read binary text (fl_infile f)) as [s| |] eqn:L; auto.
    destruct (canonical_tests_of s) as [|e|c] eqn:C; auto. cbn [fst]. destruct (same s c) eqn:E; [auto|]. right. exists s, c.
    repeat split; auto. apply load_spec, L.
  Qed.
  (** Extra arguments, an unreadable or malformed file and an invalid test all
      make it exit with 1. *)
  Theorem C69_rejects : forall f args,
    args <> [] \/ (forall s, ~ file_holds read binary text (fl_infile f) s) \/
    (exists s e, file_holds read binary text (fl_infile f) s /\ canonical_tests_of s = VErr e) ->
    mode f args = ([], XExit 1).
  Proof.
    intros f args H. unfold mode, check_test. destruct args as [|a args]; [|reflexivity]. destruct H as [H|[H|(s & e & H1 & H2)]]; [congruence| |].
    - destruct (load read binary text (fl_infile f)) as [s| |] eqn:L; [|reflexivity|reflexivity]. apply load_spec in L. destruct (H s L).
    - apply load_spec in H1. rewrite H1, H2. reflexivity.
  Qed.
End Check.
Print Assumptions C69_checked. Print Assumptions C69_accepts. Print Assumptions C69_effects. Print Assumptions C69_rejects.

(** A 2x2 grid of servers without a count: the canonical form has 4, and the
    client gets 4 peers. *)
Definition spec_ (n : string) (count x y : option Z) : service_desc := mkSvc (mkSpec (s_ n) count None x y None) [].
Definition small_config (server : service_desc) (rpcs : list rpc_desc) : config :=
  mkConf [spec_ "client" (Some 1) None None; server] [] rpcs [] [ex_action "a" [] (KRpc (s_ "echo"))] [mkListD (s_ "client") (map (fun _ => s_ "a") rpcs); mkListD (s_ "echo") []] [] [] [] [].
Definition small_test (server : service_desc) (rpcs : list rpc_desc) (attrs : attributes) : test := mkTest (small_config server rpcs) attrs [] [] [] [] [].
Definition grid_seq : sequence := mkSequence None [small_test (spec_ "server" None (Some 2) (Some 2)) [ex_rpc "echo" None] []].
Definition check_ (s : sequence) : list (effect unit) * exit_code :=
  check_test ex_read (fun _ => None) (fun _ => Some s) no_st (fun _ _ => false) (ex_flags []) [].
Example C69_ex : exists c, check_ grid_seq = ([EPrintCanonical c], XExit 0) /\
  match sq_tests c with
  | [t] => map svc_count (cf_services (te_config t)) = [1; 4] /\
           option_map (fun u => map cr_pending (tb_clients u)) (ok_of (initialize_config no_st (te_config t) (s_ "server") (mkGI 1 1 0))) = Some [4]
  | _ => False
  end.
Proof. eexists. split; [vm_compute; reflexivity|]. vm_compute. split; reflexivity. Qed.
(** Finding: a service that never receives an RPC can have a negative number of
    instances: check_test accepts it, the sequencer throws when it places it. *)
Theorem C69_negative_count_refuted : exists s c t', check_ s = ([EPrintCanonical c], XExit 0) /\ sq_tests c = [t'] /\
  forall fnm nodes, place_services fnm (mkPD (map sv_spec (cf_services (te_config t'))) (te_constraints t') (te_bundles t')) nodes = PlaceThrow.
Proof.
  exists (mkSequence None [small_test (spec_ "server" (Some (-2)) None None) [] []]).
  eexists. eexists. split; [vm_compute; reflexivity|]. split; [reflexivity|]. intros fnm nodes. vm_compute. reflexivity.
Qed.
(** Finding: if such a service does receive RPCs, check_test itself crashes. *)
Theorem C69_defined_refuted : exists s, snd (check_ s) = XUndefined.
Proof. exists (mkSequence None [small_test (spec_ "server" (Some (-1)) None None) [ex_rpc "echo" None] []]). vm_compute. reflexivity. Qed.
(** Finding: check_test does not look at the timeouts: run_tests refuses a file
    that check_test accepts. *)
Theorem C69_runnable_refuted : exists s, snd (check_ s) = XExit 0 /\
  forall run save, run_tests (Results := unit) ex_read (fun _ => None) (fun _ => Some s) run save (ex_flags []) [] = ([], XExit 1).
Proof.
  exists (mkSequence None [small_test (spec_ "server" (Some 1) None None) [ex_rpc "echo" None] [(s_ "test_timeout", s_ "5m")]]).
  split; [vm_compute; reflexivity|]. intros. vm_compute. reflexivity.
Qed.
(** Finding: services without a name are not rejected: check_test crashes. *)
Theorem C69_unnamed_refuted : exists s, snd (check_ s) = XUndefined /\ forall t sv, In t (sq_tests s) -> In sv (cf_services (te_config t)) -> 0 < svc_count sv.
Proof.
  exists (mkSequence None [small_test (spec_ "" (Some 1) None None) [] []]). split; [vm_compute; reflexivity|].
  intros t sv [<-|[]] [<-|[<-|[]]]; vm_compute; reflexivity.
Qed.
Print Assumptions C69_negative_count_refuted. Print Assumptions C69_defined_refuted. Print Assumptions C69_runnable_refuted. Print Assumptions C69_unnamed_refuted.

(** ** C70: test_preview *)
Definition place_of (t : test) : place_desc := mkPD (map sv_spec (cf_services (te_config t))) (te_constraints t) (te_bundles t).
(** Names that neither repeat nor are cut by a slash, sizes as they come out of
    canonicalisation. *)
Definition placeable (t : test) (names : list str) : Prop :=
  all_instances (te_config t) = Some names /\ NoDup names /\ Forall (fun s => 0 <= get_count s) (map sv_spec (cf_services (te_config t))) /\
  fold_right Z.add 0 (map get_count (map sv_spec (cf_services (te_config t)))) <= int32_max.

Lemma strip_length l : forall r, strip_names l = Some r -> length r = length l.
Proof.
  induction l as [|[x|] l IH]; intros r H; cbn [strip_names] in H; [injection H as <-; reflexivity| |discriminate].
  destruct (strip_names l); [|discriminate]. injection H as <-. cbn [length]. rewrite (IH _ eq_refl). reflexivity.
Qed.
Lemma names_length l : Forall (fun s => 0 <= get_count s) l -> Z.of_nat (length (all_instance_names l)) = fold_right Z.add 0 (map get_count l).
Proof.
  unfold all_instance_names. induction 1 as [|s l H _ IH]; [reflexivity|]. cbn [flat_map map fold_right]. rewrite app_length, Nat2Z.inj_add, IH. f_equal.
  unfold service_names. rewrite map_length. unfold zseq. rewrite map_length, seq_length. lia.
Qed.
Lemma total_ok l : forall acc, 0 <= acc -> Forall (fun s => 0 <= get_count s) l -> acc + fold_right Z.add 0 (map get_count l) <= int32_max ->
  total_count acc l = Some (acc + fold_right Z.add 0 (map get_count l)).
Proof.
  induction l as [|s l IH]; intros acc Ha F H; cbn [total_count map fold_right] in *; [f_equal; lia|].
  inversion F as [|? ? F1 F2]; subst. assert (0 <= fold_right Z.add 0 (map get_count l)) by (clear - F2; induction F2; cbn [map fold_right]; lia).
  unfold in_int32. destruct (Z.leb_spec (-2147483648) (acc + get_count s)); [|lia]. destruct (Z.leb_spec (acc + get_count s) int32_max); [|lia].
  cbn [andb]. rewrite IH by (try assumption; lia). f_equal. lia.
Qed.
Lemma fold_counts l acc : fold_left (fun n s => n + svc_count s) l acc = acc + fold_right Z.add 0 (map get_count (map sv_spec l)).
Proof. revert acc. induction l as [|s l IH]; intro acc; cbn [fold_left map fold_right]; [lia|]. rewrite IH. unfold svc_count. lia. Qed.

(** A previewed test needs one node, and on one node called node0 every
    instance is placed there. *)
Theorem C70_one_node : forall t names, placeable t names -> exists t', on_one_node t = Some t' /\
  te_config t' = te_config t /\ te_constraints t' = te_constraints t /\ te_attributes t' = te_attributes t /\ te_iterations t' = te_iterations t /\ te_predicates t' = te_predicates t /\
  required_nodes t' = 1 /\
  (te_constraints t = [] -> forall fnm attrs, exists r, place_services fnm (place_of t') [(s_ "node0", attrs)] = PlaceOk r /\
     map_list (s_ "node0") r = names /\ forall n s, hosts r n s <-> n = s_ "node0" /\ In s names).
Proof.
  intros t names (A & D & P & Sm). unfold on_one_node. rewrite A. cbn [option_map]. eexists. split; [reflexivity|].
  cbn [te_config te_constraints te_attributes te_iterations te_predicates]. do 5 (split; [reflexivity|]). split.
  - unfold required_nodes. cbn [te_config te_bundles fold_left snd length]. rewrite fold_counts.
    unfold all_instances in A. rewrite <- names_length by exact P. rewrite (strip_length _ _ A). lia.
  - intros Hc fnm attrs. set (t' := mkTest _ _ _ _ _ _ _).
    assert (B : bundles_valid (place_of t') names (map fst [(s_ "node0", attrs)])).
    { unfold bundles_valid, place_of, t'. cbn [pd_bundles te_bundles map fst flat_map snd]. rewrite app_nil_r.
      split; [repeat constructor; intros []|]. split; [exact D|]. split; auto. }
    assert (T : total_count 0 (pd_services (place_of t')) = Some (fold_right Z.add 0 (map get_count (map sv_spec (cf_services (te_config t))))))
      by (apply (total_ok _ 0); [lia|exact P|]; cbn [Z.add]; exact Sm).
    assert (T0 : 0 <= fold_right Z.add 0 (map get_count (map sv_spec (cf_services (te_config t))))) by (clear - P; induction P; cbn [map fold_right]; lia).
    assert (D0 : NoDup (map fst [(s_ "node0", attrs)])) by (repeat constructor; intros []).
    destruct (proj1 (solver_complete fnm (place_of t') [(s_ "node0", attrs)] names _ Hc A D D0 T T0 B)) as (m & Em).
    + unfold place_of, t'. cbn [pd_bundles te_bundles flat_map snd length]. rewrite app_nil_r. lia.
    + assert (exists r, place_services fnm (place_of t') [(s_ "node0", attrs)] = PlaceOk r) as (r & Er) by (unfold place_services; rewrite Em; eauto).
      exists r. split; [exact Er|]. destruct (placement_spec fnm (place_of t') [(s_ "node0", attrs)] names r) as (Q1 & Q2 & Q3 & Q4 & Q5 & Q6 & Q7);
        [exact A|exact D|repeat constructor; intros []|repeat constructor; intros []|unfold place_of, t'; cbn [pd_constraints te_constraints]; rewrite Hc; constructor|exact Er|].
      assert (Eb : map_list (s_ "node0") r = names) by (apply (Q4 (s_ "node0") names); left; reflexivity).
      split; [exact Eb|]. intros n s. split.
      * intro H. destruct (Q1 n s H) as ([<-|[]] & I). auto.
      * intros (-> & I). unfold hosts. rewrite Eb. exact I.
Qed.
Print Assumptions C70_one_node.
(** Finding: a test with a constraint on any of its instances cannot be
    previewed, even when the node satisfies it: the node of a bundle is never
    used for a constrained instance. *)
Theorem C70_constrained : forall t names s c, placeable t names -> NoDup (map fst (te_constraints t)) -> In s names ->
  forall fnm, governed_by fnm (te_constraints t) s c ->
  forall t' attrs r, on_one_node t = Some t' -> place_services fnm (place_of t') [(s_ "node0", attrs)] <> PlaceOk r.
Proof.
  intros t names s c (A & D & P & Sm) Dc I fnm G t' attrs r Ht Er. unfold on_one_node in Ht. rewrite A in Ht. injection Ht as <-.
  destruct (placement_spec fnm (place_of (mkTest (te_config t) (te_attributes t) (te_iterations t) (te_predicates t) (te_constraints t) [(s_ "node0", names)] (te_rest t)))
              [(s_ "node0", attrs)] names r) as (Q1 & _ & _ & _ & _ & Q6 & _);
    [exact A|exact D|repeat constructor; intros []|repeat constructor; intros []|exact Dc|exact Er|].
  destruct (Q6 s c I G) as (c' & _ & (n & Hn & Nb) & _). destruct (Q1 n s Hn) as ([<-|[]] & _). apply Nb. left. reflexivity.
Qed.
Print Assumptions C70_constrained.
Definition rack1 : constraint_list := [[mkCon (s_ "rack") [s_ "1"] [] REqual 0]].
Definition constrained_test : test := mkTest ex_config [] [] [] [(s_ "server/0/0/0", rack1)] [] [].
Theorem C70_constraints_refuted : exists t t' names attrs, placeable t names /\ on_one_node t = Some t' /\ required_nodes t' = 1 /\
  (forall s c, governed_by str_eqb (te_constraints t) s c -> satisfies c attrs) /\
  exists e, place_services str_eqb (place_of t') [(s_ "node0", attrs)] = PlaceErr e.

Proof.
  exists constrained_test. eexists. eexists. exists [mkAttr (s_ "rack") (s_ "1")].
  split; [split; [vm_compute; reflexivity|split; [|split; [repeat constructor; cbn; lia|vm_compute; discriminate]]]|].
  { repeat (constructor; [cbn [In]; intro K; repeat destruct K as [K|K]; try discriminate; destruct K|]). constructor. }
  split; [vm_compute; reflexivity|]. split; [vm_compute; reflexivity|]. split.
  - intros s c [(_ & [K|[]])|(_ & k & [K|[]] & St & _)].
    + injection K as _ <-. intros cs [<-|[]]. eexists. split; [left; reflexivity|]. eexists. split; [left; reflexivity|].
      split; [reflexivity|]. left. eexists. split; [left; reflexivity|]. reflexivity.
    + injection K as <- _. vm_compute in St. repeat destruct St as [St|St]; try discriminate. destruct St.
  - eexists. vm_compute. reflexivity.
Qed.
Print Assumptions C70_constraints_refuted.

(** However many tests there are, one node is started. *)
Theorem C70_started : forall l l', l <> [] -> (forall t, In t l -> exists names, placeable t names) -> all_on_one_node l = Some l' -> nodes_started l' = 1.
Proof.
  intros l l' N P H. assert (Q : forall l l', (forall t, In t l -> exists names, placeable t names) -> all_on_one_node l = Some l' ->
    length l' = length l /\ forall t', In t' l' -> required_nodes t' = 1).
  { clear. induction l as [|t l IH]; intros l' P H; cbn [all_on_one_node] in H; [injection H as <-; split; [reflexivity|intros t' []]|].
    destruct (on_one_node t) as [t1|] eqn:E1; [|discriminate]. destruct (all_on_one_node l) as [l1|]; [|discriminate]. injection H as <-.
    destruct (IH l1 (fun t I => P t (or_intror I)) eq_refl) as (I1 & I2). split; [cbn [length]; congruence|]. intros t' [<-|I]; [|auto].
    destruct (P t (or_introl eq_refl)) as (names & Pn). destruct (C70_one_node t names Pn) as (t2 & E2 & _ & _ & _ & _ & _ & R & _). congruence. }
  destruct (Q l l' P H) as (Len & R). destruct l' as [|t' l']; [destruct l; [congruence|discriminate]|]. unfold nodes_started. cbn [fold_left].
  rewrite (R t' (or_introl eq_refl)). change (Z.max 0 1) with 1. assert (R' : forall t, In t l' -> required_nodes t = 1) by (intros t I; apply R; right; exact I).
  clear - R'. induction l' as [|t l' IH]; [reflexivity|]. cbn [fold_left]. rewrite (R' t (or_introl eq_refl)). apply IH. intros x I. apply R'. right. exact I.
Qed.
Print Assumptions C70_started.

Lemma all_on_one_node_spec l : forall l', all_on_one_node l = Some l' -> Forall2 (fun t t' => on_one_node t = Some t') l l'.
Proof.
  induction l as [|t l IH]; intros l' H; cbn [all_on_one_node] in H; [injection H as <-; constructor|].
  destruct (on_one_node t) as [t'|] eqn:E; [|discriminate]. destruct (all_on_one_node l) as [r|]; [|discriminate]. injection H as <-. constructor; auto.
Qed.
(** test_preview exits with 0 only if the canonical form of the file, with all
    instances of each test bundled on node0, was run with enough nodes and its
    results printed or saved. *)
Theorem C70_success : forall (Results : Type) read binary text (save : bool -> str -> Results -> bool) preview f args eff,
  test_preview read binary text save preview f args = (eff, XExit 0) ->
  args = [] /\ exists s c s' r, file_holds read binary text (fl_infile f) s /\ canonical_tests_of s = VOk c /\
    sq_settings s' = sq_settings c /\ Forall2 (fun t t' => on_one_node t = Some t') (sq_tests c) (sq_tests s') /\
    preview (nodes_started (sq_tests s')) s' = Some r /\ (forall t', In t' (sq_tests s') -> required_nodes t' <= nodes_started (sq_tests s')) /\
    (fl_outfile f = [] /\ eff = [ECall s' 3000; EPrintResults r] \/
     fl_outfile f <> [] /\ save (fl_binary f) (fl_outfile f) r = true /\ eff = [ECall s' 3000; ESave (fl_binary f) (fl_outfile f) r]).
Proof.
  intros Results read binary text save preview f args eff H. unfold test_preview in H. destruct args as [|a args]; [|discriminate]. split; [reflexivity|].
  destruct (load read binary text (fl_infile f)) as [s| |] eqn:L; try discriminate. destruct (canonical_tests_of s) as [|e|c] eqn:C; try discriminate.
  destruct (all_on_one_node (sq_tests c)) as [l|] eqn:A; [|discriminate]. cbv zeta in H.
  destruct (preview (nodes_started l) (mkSequence (sq_settings c) l)) as [r|] eqn:P; [|discriminate].
  exists s, c, (mkSequence (sq_settings c) l), r. cbn [sq_settings sq_tests]. split; [apply load_spec, L|]. split; [exact C|]. split; [reflexivity|].
  split; [apply all_on_one_node_spec, A|]. split; [exact P|]. split.
  - intros t' I. unfold nodes_started.
    assert (M : forall l acc, acc <= fold_left (fun m t => Z.max m (required_nodes t)) l acc /\
                forall t, In t l -> required_nodes t <= fold_left (fun m t => Z.max m (required_nodes t)) l acc).
    { clear. induction l as [|x l IH]; intro acc; cbn [fold_left]; [split; [lia|intros t []]|]. destruct (IH (Z.max acc (required_nodes x))) as (I1 & I2).
      split; [lia|]. intros t [<-|I]; [lia|auto]. }
    apply (proj2 (M l 0)), I.
  - destruct (fl_outfile f) as [|ch out]; [left; split; [reflexivity|congruence]|]. right. split; [discriminate|].
    destruct (save (fl_binary f) (ch :: out) r); [|discriminate]. split; [reflexivity|congruence].
Qed.
Print Assumptions C70_success.
Example C70_ex : exists s', test_preview ex_read (fun _ => None) ex_text (fun _ _ _ => true) (fun n s => if n =? 1 then Some (length (sq_tests s)) else None) (ex_flags (s_ "out")) [] =
    ([ECall s' 3000; ESave true (s_ "out") 1%nat], XExit 0) /\
  map te_bundles (sq_tests s') = [[(s_ "node0", [s_ "client/0/0/0"; s_ "client/1/0/0"; s_ "server/0/0/0"; s_ "server/1/0/0"; s_ "server/2/0/0"])]] /\
  exists names, placeable ex_test names /\ length names = 5%nat.
Proof.
  eexists. split; [vm_compute; reflexivity|]. split; [vm_compute; reflexivity|]. eexists. split; [split; [vm_compute; reflexivity|split; [|split; [repeat constructor; cbn; lia|vm_compute; discriminate]]]|reflexivity].
  repeat (constructor; [cbn [In]; intro K; repeat destruct K as [K|K]; try discriminate; destruct K|]). constructor.
Qed.
(** Finding: test_preview hands the canonical form to a sequencer, which
    canonicalises it again (distbench_test_sequencer.cc 100-104); a test with a
    service of no instances does not survive that, although check_test accepts
    it. *)
Theorem C70_canonical_twice_refuted : exists s, snd (check_ s) = XExit 0 /\
  forall (save : bool -> str -> unit -> bool) preview f, fl_infile f = s_ "in" ->
    (forall n s', (forall c, canonical_tests_of s' <> VOk c) -> preview n s' = None) ->
    snd (test_preview ex_read (fun _ => None) (fun _ => Some s) save preview f []) = XExit 1.
Proof.
  exists (mkSequence None [small_test (spec_ "server" None None None) [] []]). split; [vm_compute; reflexivity|].
  intros save preview f E H. unfold test_preview, load. rewrite E. change (ex_read (s_ "in")) with (Some (s_ "tests {...}")). cbv iota.
  match goal with |- context [canonical_tests_of ?x] => set (r := canonical_tests_of x); vm_compute in r end. subst r. cbv iota.
  match goal with |- context [all_on_one_node ?x] => set (r := all_on_one_node x); vm_compute in r end. subst r. cbv iota zeta.
  rewrite H; [reflexivity|]. intro c. vm_compute. discriminate.
Qed.
Print Assumptions C70_canonical_twice_refuted.
