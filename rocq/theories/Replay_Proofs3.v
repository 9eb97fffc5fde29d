(** The runner: times, order, progress. *)
From Coq Require Import Ascii String List NArith ZArith Bool Arith Lia.
From Verif Require Import Base_Model Grid_Model Canon_Model Replay_Model Replay_Proofs Replay_Proofs2.
Import ListNotations.
Open Scope Z_scope.

Lemma release_new t time : forall l deps ready x k, In (x, k) (snd (release t time l deps ready)) ->
  In (x, k) ready \/ (In k l /\ x = time + timing_of t k).
Proof.
  induction l as [|i r IH]; intros deps ready x k H; cbn [release] in H; [left; exact H|].
  destruct (nth_error deps i) as [d|]; [|destruct (IH _ _ _ _ H) as [A|[A B]]; [left; exact A|right; split; [right; exact A|exact B]]].
  destruct (record_at t i) as [rc|] eqn:E; [|destruct (IH _ _ _ _ H) as [A|[A B]]; [left; exact A|right; split; [right; exact A|exact B]]].
  destruct (IH _ _ _ _ H) as [A|[A B]]; [|right; split; [right; exact A|exact B]].
  destruct (dp_remaining d - 1 =? 0); [|left; exact A]. apply in_app_iff in A. destruct A as [A|[A|[]]]; [left; exact A|].
  right. apply (f_equal fst) in A as A1. apply (f_equal snd) in A as A2. cbn [fst snd] in A1, A2. subst k. split; [left; reflexivity|].
  unfold timing_of. rewrite E. symmetry. exact A1.
Qed.
Lemma release_keeps t time : forall l deps ready y, In y ready -> In y (snd (release t time l deps ready)).
Proof.
  induction l as [|i r IH]; intros deps ready y H; cbn [release]; [exact H|].
  destruct (nth_error deps i) as [d|]; [|apply IH; exact H]. destruct (record_at t i); [|apply IH; exact H]. apply IH.
  destruct (dp_remaining d - 1 =? 0); [apply in_app_iff; left|]; exact H.
Qed.

(** When record [k] may be sent at [x] or later. *)
Definition base (t : trace) (T0 : Z) (s : runner) (k : nat) : Z := match mode_of t k with MTraceStart => n_trace_start s | _ => T0 end.
Definition sched (t : trace) (local T0 : Z) (s : runner) (k : nat) (x : Z) : Prop :=
  (waits_for t local k = [] /\ x = base t T0 s k + timing_of t k) \/
  (mode_of t k = MPriorStart /\ (forall j, In j (waits_for t local k) -> exists e, In e (n_sent s) /\ sidx e = j /\ sstart e + timing_of t k <= x) /\
     (exists e, In e (n_sent s) /\ In (sidx e) (waits_for t local k) /\ x = sstart e + timing_of t k)) \/
  (mode_of t k = MPriorEnd /\ (forall j, In j (waits_for t local k) -> In j (sample_ids s)) /\
     (exists j o l, In (j, (o, l)) (n_samples s) /\ In j (waits_for t local k) /\ x = n_trace_start s + o + l + timing_of t k)).
Lemma sched_mono t local T0 s s' k x : sched t local T0 s k x -> n_trace_start s' = n_trace_start s ->
  incl (n_sent s) (n_sent s') -> incl (n_samples s) (n_samples s') -> sched t local T0 s' k x.
Proof.
  intros [[A B]|[[A [B C]]|[A [B C]]]] E I1 I2.
  - left. unfold base in *. rewrite E. auto.
  - right; left. split; [exact A|]. split.
    + intros j Hj. destruct (B j Hj) as (e & H1 & H2). exists e. split; [exact (I1 e H1)|exact H2].
    + destruct C as (e & H1 & H2). exists e. split; [exact (I1 e H1)|exact H2].
  - right; right. split; [exact A|]. split.
    + intros j Hj. specialize (B j Hj). unfold sample_ids in *. apply in_map_iff in B. destruct B as (e & H1 & H2). apply in_map_iff. exists e. split; [exact H1|exact (I2 e H2)].
    + destruct C as (j & o & l & H1 & H2 & H3). exists j, o, l. rewrite E. split; [exact (I2 _ H1)|]. split; [exact H2|exact H3].
Qed.
(** Everything a record sent at [st] waits for has happened by then. *)
Definition after (t : trace) (local : Z) (s : runner) (k : nat) (st : Z) : Prop :=
  (mode_of t k = MPriorStart -> forall j, In j (waits_for t local k) -> exists e, In e (n_sent s) /\ sidx e = j /\ sstart e <= st) /\
  (mode_of t k = MPriorEnd -> forall j, In j (waits_for t local k) -> exists o l, In (j, (o, l)) (n_samples s) /\ n_trace_start s + o + l <= st).
Lemma after_mono t local s s' k x : after t local s k x -> n_trace_start s' = n_trace_start s ->
  incl (n_sent s) (n_sent s') -> incl (n_samples s) (n_samples s') -> after t local s' k x.
Proof.
  intros [A B] E I1 I2. split.
  - intros M j Hj. destruct (A M j Hj) as (e & H1 & H2). exists e. split; [exact (I1 e H1)|exact H2].
  - intros M j Hj. destruct (B M j Hj) as (o & l & H1 & H2). exists o, l. rewrite E. split; [exact (I2 _ H1)|exact H2].
Qed.
Record tinv (t : trace) (local T0 : Z) (s : runner) : Prop := {
  q_sent : forall e, In e (n_sent s) -> n_trace_start s <= sstart e <= n_now s;
  q_now : n_trace_start s <= n_now s;
  q_flight : forall c, In c (n_flight s) -> (exists d, In (cl_index c, cl_start c, d) (n_sent s)) /\ (forall e, cl_end c = Some e -> cl_start c <= e <= n_now s);
  q_samples : forall i o l, In (i, (o, l)) (n_samples s) -> (exists d, In (i, n_trace_start s + o, d) (n_sent s)) /\ 0 <= l /\ n_trace_start s + o + l <= n_now s;
  q_started : forall i st, n_pc s = RStarted i st -> (exists e, In e (n_sent s) /\ sidx e = i /\ sstart e = st) /\ (forall e, In e (n_sent s) -> sstart e <= st);
  q_ready : forall x k, In (x, k) (n_ready s) -> sched t local T0 s k x;
  q_send : forall k, n_pc s = RSend k -> exists x, x <= n_now s /\ sched t local T0 s k x;
  q_sched : forall e, In e (n_sent s) -> exists x, x <= sstart e /\ sched t local T0 s (sidx e) x;
  q_after : forall e, In e (n_sent s) -> after t local s (sidx e) (sstart e) }.
(** Steps that move no time but the clock. *)
Lemma tinv_same t local T0 s s' : tinv t local T0 s -> n_now s <= n_now s' -> n_trace_start s' = n_trace_start s -> incl (n_ready s') (n_ready s) ->
  n_samples s' = n_samples s -> n_flight s' = n_flight s -> n_sent s' = n_sent s ->
  (forall i st, n_pc s' = RStarted i st -> n_pc s = RStarted i st) -> (forall i, n_pc s' = RSend i -> n_pc s = RSend i) -> tinv t local T0 s'.
Proof.
  intros [Q1 Q2 Q3 Q4 Q5 Q6 Q7 Q8 Q9] E1 E2 E3 E4 E5 E6 E7 E8.
  assert (M : forall k x, sched t local T0 s k x -> sched t local T0 s' k x).
  { intros k x H. eapply sched_mono; [exact H|exact E2|rewrite E6; apply incl_refl|rewrite E4; apply incl_refl]. }
  assert (M2 : forall k x, after t local s k x -> after t local s' k x).
  { intros k x H. eapply after_mono; [exact H|exact E2|rewrite E6; apply incl_refl|rewrite E4; apply incl_refl]. }
  constructor; rewrite ?E2, ?E4, ?E5, ?E6.
  - intros e He. specialize (Q1 e He). lia.
  - lia.
  - intros c Hc. destruct (Q3 c Hc) as [A B]. split; [exact A|]. intros e He. specialize (B e He). lia.
  - intros i o l H. destruct (Q4 i o l H) as [A B]. split; [exact A|lia].
  - intros i st H. exact (Q5 i st (E7 i st H)).
  - intros x k H. apply M, Q6, E3, H.
  - intros k H. destruct (Q7 k (E8 k H)) as (x & A & B). exists x. split; [lia|apply M, B].
  - intros e H. destruct (Q8 e H) as (x & A & B). exists x. split; [exact A|apply M, B].
  - intros e H. apply M2, Q9, H.
Qed.
Lemma upd_In {A} (f : A -> A) : forall l k x y, nth_error l k = Some x -> In y (upd k f l) -> In y l \/ y = f x.
Proof.
  induction l as [|z r IH]; intros [|k] x y E H; cbn [nth_error upd] in *; try discriminate.
  - injection E as ->. destruct H as [H|H]; [right; symmetry; exact H|left; right; exact H].
  - destruct H as [H|H]; [left; left; exact H|]. destruct (IH k x y E H) as [B|B]; [left; right; exact B|right; exact B].
Qed.
Lemma all_done t local s k : inv t local s -> In k (ready_ids s) -> forall j, In j (waits_for t local k) -> done_for (mode_of t k) s j = true.
Proof.
  intros V H j Hj. apply occ_In in H. pose proof (i_count _ _ _ V k) as C. pose proof (i_rem _ _ _ V k) as R.
  destruct (Z.eqb_spec (rem (n_deps s) k) 0) as [E|E]; [|rewrite andb_false_r in C; lia].
  destruct (done_for (mode_of t k) s j) eqn:D; [reflexivity|]. exfalso.
  assert (X : In j (filter (fun j => negb (done_for (mode_of t k) s j)) (waits_for t local k))) by (apply filter_In; rewrite D; auto).
  destruct (filter (fun j => negb (done_for (mode_of t k) s j)) (waits_for t local k)); [destruct X|cbn [length] in R; lia].
Qed.
Lemma sent_entry s j : In j (sent_ids s) -> exists e, In e (n_sent s) /\ sidx e = j.
Proof. unfold sent_ids. intro H. apply in_map_iff in H. destruct H as (e & A & B). exists e. auto. Qed.
Lemma step_tinv t local T0 pd ch a s s' : inv t local s -> tinv t local T0 s -> rstep t pd ch a s = RNext s' -> tinv t local T0 s'.
Proof.
  intros V Q H. pose proof (step_inv _ _ _ _ _ _ _ V H) as V'. destruct a as [d|n|k|k]; cbn [rstep] in H.
  - destruct (Z.ltb_spec d 0); [discriminate|]. injection H as <-. eapply tinv_same; [exact Q| | | | | | | |]; cbn [n_now n_ready n_pc]; try reflexivity; try lia; auto. apply incl_refl.
  - unfold main_step in H. destruct (n_pc s) as [|deadline|i|i st|] eqn:P; try discriminate.
    + injection H as <-. eapply tinv_same; [exact Q| | | | | | | |]; try reflexivity; [apply incl_refl| |]; cbn [set_pc n_pc]; destruct (n_remaining s =? 0); discriminate.
    + destruct (n_finished s) eqn:F.
      * injection H as <-. eapply tinv_same; [exact Q| | | | | | | |]; try reflexivity; [apply incl_refl| |]; discriminate.
      * destruct deadline as [d|]; [|discriminate]. destruct (Z.leb_spec d (n_now s)) as [Dl|]; [|discriminate]. destruct (earliest (n_ready s)) as [first|] eqn:Ef; [|discriminate].
        destruct (nth_error (n_ready s) n) as [[x i]|] eqn:E; [|discriminate]. destruct (Z.eqb_spec x first) as [->|]; [|discriminate]. injection H as <-.
        destruct (i_wait _ _ _ V _ P F) as [W _]. assert (d = first) by congruence. subst d.
        pose proof Q as [Q1 Q2 Q3 Q4 Q5 Q6 Q7 Q8 Q9]. constructor; cbn [n_now n_trace_start n_ready n_samples n_flight n_pc n_sent]; try assumption; try discriminate.
        -- intros x k Hin. apply without_In in Hin. exact (Q6 x k Hin).
        -- intros k0 Hk. injection Hk as <-. exists first. split; [exact Dl|]. apply Q6. eapply nth_error_In. exact E.
    + destruct (record_at t i) as [r|] eqn:E; [|discriminate]. destruct (destination r pd ch) as [dest|]; [|discriminate]. injection H as <-.
      pose proof Q as [Q1 Q2 Q3 Q4 Q5 Q6 Q7 Q8 Q9].
      match goal with |- tinv _ _ _ ?s' => assert (M : forall k x, sched t local T0 s k x -> sched t local T0 s' k x) end.
      { intros k x H. eapply sched_mono; [exact H|reflexivity|cbn [n_sent]; apply incl_tl, incl_refl|apply incl_refl]. }
      destruct (Q7 i P) as (x & X1 & X2).
      constructor; cbn [n_now n_trace_start n_ready n_samples n_flight n_pc n_sent]; try discriminate.
      * intros e [<-|He]; [cbn [sstart fst snd]; lia|exact (Q1 e He)].
      * exact Q2.
      * intros c Hc. apply in_app_iff in Hc. destruct Hc as [Hc|[<-|[]]].
        -- destruct (Q3 c Hc) as [[d A] B]. split; [exists d; right; exact A|exact B].
        -- cbn [cl_index cl_start cl_end]. split; [exists dest; left; reflexivity|discriminate].
      * intros i0 o l Hin. destruct (Q4 i0 o l Hin) as [[d A] B]. split; [exists d; right; exact A|exact B].
      * intros i0 st Hi. injection Hi as <- <-. split; [exists (i, n_now s, dest); split; [left; reflexivity|auto]|].
        intros e [<-|He]; [cbn [sstart fst snd]; lia|]. specialize (Q1 e He). lia.
      * intros y k Hin. apply M, Q6, Hin.
      * intros e [<-|He]; [exists x; split; [exact X1|apply M; exact X2]|]. destruct (Q8 e He) as (y & A & B). exists y. split; [exact A|apply M, B].
      * intros e [<-|He].
        -- cbn [sidx sstart fst snd]. eapply (after_mono _ _ s); [|reflexivity|cbn [n_sent]; apply incl_tl, incl_refl|apply incl_refl]. split.
           ++ intros Md j Hj. destruct X2 as [[A _]|[(_ & A & _)|(A & _)]]; [rewrite A in Hj; destruct Hj| |congruence].
              destruct (A j Hj) as (e & B1 & B2 & _). exists e. split; [exact B1|]. split; [exact B2|]. specialize (Q1 e B1). lia.
           ++ intros Md j Hj. destruct X2 as [[A _]|[(A & _)|(_ & A & _)]]; [rewrite A in Hj; destruct Hj|congruence|].
              specialize (A j Hj). unfold sample_ids in A. apply in_map_iff in A. destruct A as ([j' [o l]] & B1 & B2). cbn [fst] in B1. subst j'.
              exists o, l. split; [exact B2|]. destruct (Q4 _ _ _ B2) as (_ & _ & B3). exact B3.
        -- eapply (after_mono _ _ s); [exact (Q9 e He)|reflexivity|cbn [n_sent]; apply incl_tl, incl_refl|apply incl_refl].
    + destruct (nth_error (n_deps s) i) as [d|] eqn:Ed; [|discriminate].
      pose proof (release_new t st (dp_start d) (n_deps s) (n_ready s)) as RN.
      destruct (release t st (dp_start d) (n_deps s) (n_ready s)) as [deps ready] eqn:Er. cbn [fst snd] in RN. injection H as <-.
      destruct (q_started _ _ _ _ Q i st P) as [(e0 & S1 & S2 & S3) S4].
      pose proof Q as [Q1 Q2 Q3 Q4 Q5 Q6 Q7 Q8 Q9]. constructor; cbn [n_now n_trace_start n_ready n_samples n_flight n_pc n_sent]; try assumption; try discriminate.
      intros x k Hin. destruct (RN x k Hin) as [Hr|[Hk Hx]]; [exact (Q6 x k Hr)|].
      assert (El : sdeps (n_deps s) i = dp_start d) by (unfold sdeps; rewrite Ed; reflexivity).
      apply occ_In in Hk. rewrite <- El, (i_start _ _ _ V) in Hk. destruct (is_start (mode_of t k)) eqn:Md; [|lia]. apply occ_In in Hk.
      assert (Mk : mode_of t k = MPriorStart) by (destruct (mode_of t k); try discriminate; reflexivity).
      right; left. split; [exact Mk|]. split.
      * intros j Hj. assert (Dn : done_for (mode_of t k) (mkRunner (n_now s) (n_trace_start s) deps ready (n_remaining s) (n_finished s) (n_samples s) (n_flight s) RTop (n_sent s)) j = true).
        { eapply all_done; [exact V'| |exact Hj]. unfold ready_ids. apply in_map_iff. exists (x, k). auto. }
        rewrite Mk in Dn. cbn [done_for] in Dn. apply andb_true_iff in Dn. destruct Dn as [Dn _]. apply Nat.ltb_lt, occ_In in Dn.
        destruct (sent_entry _ _ Dn) as (e & A & B). cbn [n_sent] in A |- *. exists e. split; [exact A|]. split; [exact B|]. specialize (S4 e A). lia.
      * exists e0. rewrite S2, S3. split; [exact S1|]. split; [exact Hk|exact Hx].
  - unfold finish_step in H. destruct (nth_error (n_flight s) k) as [[i st [e|]]|] eqn:E; try discriminate. injection H as <-.
    pose proof Q as [Q1 Q2 Q3 Q4 Q5 Q6 Q7 Q8 Q9]. constructor; cbn [n_now n_trace_start n_ready n_samples n_flight n_pc n_sent]; try assumption.
    intros c Hc. destruct (upd_In _ _ _ _ _ E Hc) as [Hc'| ->]; [exact (Q3 c Hc')|]. destruct (Q3 _ (nth_error_In _ _ E)) as [A _]. cbn [cl_index cl_start cl_end] in *.
    split; [exact A|]. intros e He. injection He as <-. destruct A as [d A]. specialize (Q1 _ A). cbn [sstart fst snd] in Q1. lia.
  - unfold activate_step in H. destruct (nth_error (n_flight s) k) as [[i st [e|]]|] eqn:E; try discriminate.
    destruct (nth_error (n_deps s) i) as [d|] eqn:Ed; [|discriminate].
    pose proof (release_new t (n_trace_start s + (st - n_trace_start s) + (e - st)) (dp_end d) (n_deps s) (n_ready s)) as RN.
    destruct (release t (n_trace_start s + (st - n_trace_start s) + (e - st)) (dp_end d) (n_deps s) (n_ready s)) as [deps ready] eqn:Er. cbn [fst snd] in RN. injection H as <-.
    destruct (q_flight _ _ _ _ Q _ (nth_error_In _ _ E)) as [[d0 A] B]. cbn [cl_index cl_start cl_end] in A, B. specialize (B e eq_refl).
    pose proof Q as [Q1 Q2 Q3 Q4 Q5 Q6 Q7 Q8 Q9].
    match goal with |- tinv _ _ _ ?s' => assert (M : forall k x, sched t local T0 s k x -> sched t local T0 s' k x) end.
    { intros k0 x H. eapply sched_mono; [exact H|reflexivity|apply incl_refl|cbn [n_samples]; apply incl_appl, incl_refl]. }
    constructor; cbn [n_now n_trace_start n_ready n_samples n_flight n_pc n_sent]; try assumption.
    + intros c Hc. apply without_In in Hc. exact (Q3 c Hc).
    + intros i0 o l Hin. apply in_app_iff in Hin. destruct Hin as [Hin|[Hin|[]]]; [exact (Q4 i0 o l Hin)|]. injection Hin as <- <- <-.
      replace (n_trace_start s + (st - n_trace_start s)) with st by lia. split; [exists d0; exact A|lia].
    + intros x k0 Hin. destruct (RN x k0 Hin) as [Hr|[Hk Hx]]; [apply M, Q6, Hr|].
      assert (El : edeps (n_deps s) i = dp_end d) by (unfold edeps; rewrite Ed; reflexivity).
      apply occ_In in Hk. rewrite <- El, (i_end _ _ _ V) in Hk. destruct (is_end (mode_of t k0)) eqn:Md; [|lia]. apply occ_In in Hk.
      assert (Mk : mode_of t k0 = MPriorEnd) by (destruct (mode_of t k0); try discriminate; reflexivity).
      right; right. split; [exact Mk|]. split.
      * intros j Hj. match goal with |- In _ (sample_ids ?s') => assert (Dn : done_for (mode_of t k0) s' j = true) end.
        { eapply all_done; [exact V'| |exact Hj]. unfold ready_ids. apply in_map_iff. exists (x, k0). auto. }
        rewrite Mk in Dn. cbn [done_for] in Dn. apply Nat.ltb_lt, occ_In in Dn. exact Dn.
      * exists i, (st - n_trace_start s), (e - st). cbn [n_samples n_trace_start]. split; [apply in_app_iff; right; left; reflexivity|]. split; [exact Hk|]. lia.
    + intros k0 Hk. destruct (Q7 k0 Hk) as (x & X1 & X2). exists x. split; [exact X1|apply M, X2].
    + intros e0 He. destruct (Q8 e0 He) as (x & X1 & X2). exists x. split; [exact X1|apply M, X2].
    + intros e0 He. eapply after_mono; [exact (Q9 e0 He)|reflexivity|apply incl_refl|cbn [n_samples]; apply incl_appl, incl_refl].
Qed.
Lemma setup_parts t local T0 T1 s : setup t local T0 T1 = Some s ->
  n_now s = T1 /\ n_trace_start s = T1 /\ n_finished s = false /\ n_samples s = [] /\ n_flight s = [] /\ n_pc s = RTop /\ n_sent s = [] /\
  (forall x k, In (x, k) (n_ready s) -> waits_for t local k = [] /\ x = base t T0 s k + timing_of t k).
Proof.
  unfold setup. destruct (setup_loop t local T0 T1 (length (t_records t)) 0 (map (fun _ => mkDep 0 [] []) (t_records t)) [] 0) as [[[deps ready] remaining]|] eqn:E; [|discriminate].
  intro H. injection H as <-. cbn [n_now n_trace_start n_finished n_samples n_flight n_pc n_sent n_ready].
  pose proof (setup_loop_spec t local T0 T1 (length (t_records t)) 0 _ _ _ _ eq_refl (set_up_start t local T0 T1) E) as U. cbn [fst snd] in U.
  do 7 (split; [reflexivity|]). intros x k Hin. exact (u_time _ _ _ _ _ _ _ _ U x k Hin).
Qed.
Lemma setup_tinv t local T0 T1 s : setup t local T0 T1 = Some s -> tinv t local T0 s.
Proof.
  intro H. destruct (setup_parts _ _ _ _ _ H) as (E1 & E2 & E3 & E4 & E5 & E6 & E7 & E8).
  constructor; rewrite ?E1, ?E2, ?E4, ?E5, ?E6, ?E7; try discriminate; try (intros; match goal with F : In _ [] |- _ => destruct F end); try lia.
  intros x k Hin. left. exact (E8 x k Hin).
Qed.

(** ** Order *)
(** [l]: what has been sent and what is being sent, newest first. *)
Definition started_order (s : runner) : list nat := sending (n_pc s) ++ sent_ids s.
Definition ordered (t : trace) (local T0 : Z) (s : runner) : Prop :=
  (forall b, In b (started_order s) -> waits_for t local b = [] -> forall a, mine t local a = true -> waits_for t local a = [] ->
     base t T0 s a + timing_of t a < base t T0 s b + timing_of t b -> ~ In a (ready_ids s)) /\
  (forall l1 b l2, started_order s = l1 ++ b :: l2 -> waits_for t local b = [] -> forall a, mine t local a = true -> waits_for t local a = [] ->
     base t T0 s a + timing_of t a < base t T0 s b + timing_of t b -> In a l2).
Lemma no_wait_counted t local s a : inv t local s -> mine t local a = true -> waits_for t local a = [] -> In a (ready_ids s) \/ In a (started_order s).
Proof.
  intros V M W. pose proof (i_count _ _ _ V a) as C. rewrite (i_rem _ _ _ V), W, M in C. cbn [filter length Z.of_nat Z.eqb andb] in C.
  destruct (occ a (ready_ids s)) eqn:R; [right|left; apply occ_In; lia]. unfold started_order. apply occ_In. rewrite occ_app. lia.
Qed.
(** A step that sends or takes nothing. *)
Lemma ordered_same t local T0 s s' : inv t local s -> ordered t local T0 s -> n_trace_start s' = n_trace_start s -> started_order s' = started_order s ->
  (forall k, waits_for t local k = [] -> In k (ready_ids s') -> In k (ready_ids s)) -> ordered t local T0 s'.
Proof.
  intros V [A B] E1 E2 E3. assert (Bs : forall k, base t T0 s' k = base t T0 s k) by (intro k; unfold base; rewrite E1; reflexivity).
  split.
  - intros b Hb Wb a Ma Wa Lt Hin. rewrite E2 in Hb. rewrite !Bs in Lt. exact (A b Hb Wb a Ma Wa Lt (E3 a Wa Hin)).
  - intros l1 b l2 E Wb a Ma Wa Lt. rewrite E2 in E. rewrite !Bs in Lt. exact (B l1 b l2 E Wb a Ma Wa Lt).
Qed.
Lemma step_ordered t local T0 pd ch a s s' : inv t local s -> tinv t local T0 s -> ordered t local T0 s -> rstep t pd ch a s = RNext s' -> ordered t local T0 s'.
Proof.
  intros V Q O H. destruct a as [d|n|k|k]; cbn [rstep] in H.
  - destruct (d <? 0); [discriminate|]. injection H as <-. eapply ordered_same; try eassumption; try reflexivity. auto.
  - unfold main_step in H. destruct (n_pc s) as [|deadline|i|i st|] eqn:P; try discriminate.
    + injection H as <-. eapply ordered_same; try eassumption; try reflexivity; [|auto]. unfold started_order. cbn [set_pc n_pc]. rewrite P. destruct (n_remaining s =? 0); reflexivity.
    + destruct (n_finished s) eqn:F.
      * injection H as <-. eapply ordered_same; try eassumption; try reflexivity; [|auto]. unfold started_order. cbn [n_pc]. rewrite P. reflexivity.
      * destruct deadline as [d|]; [|discriminate]. destruct (d <=? n_now s); [|discriminate]. destruct (earliest (n_ready s)) as [first|] eqn:Ef; [|discriminate].
        destruct (nth_error (n_ready s) n) as [[x i]|] eqn:E; [|discriminate]. destruct (Z.eqb_spec x first) as [->|]; [|discriminate]. injection H as <-.
        assert (Fr : forall a, waits_for t local i = [] -> waits_for t local a = [] ->
                    base t T0 s a + timing_of t a < base t T0 s i + timing_of t i -> ~ In a (ready_ids s)).
        { intros a Wi Wa Lt Hin. unfold ready_ids in Hin. apply in_map_iff in Hin. destruct Hin as ([y a'] & Ha & Hin). cbn [snd] in Ha. subst a'.
          pose proof (earliest_le _ _ _ _ Ef Hin) as Le.
          assert (X : forall z w, In (z, w) (n_ready s) -> waits_for t local w = [] -> z = base t T0 s w + timing_of t w).
          { intros z w Hz Ww. destruct (q_ready _ _ _ _ Q z w Hz) as [[_ Y]|[(_ & _ & e & _ & Y & _)|(_ & _ & j & o & l & _ & Y & _)]]; [exact Y| |]; rewrite Ww in Y; destruct Y. }
          pose proof (X _ _ Hin Wa). pose proof (X _ _ (nth_error_In _ _ E) Wi). lia. }
        destruct O as [O1 O2]. unfold started_order in O1, O2. rewrite P in O1, O2. cbn [sending app] in O1, O2.
        split; unfold started_order; cbn [sending app n_pc]; unfold ready_ids, sent_ids in *; cbn [n_ready n_sent].
        -- intros b [<-|Hb] Wb a Ma Wa Lt Hin; rewrite without_map in Hin; apply without_In in Hin.
           ++ exact (Fr a Wb Wa Lt Hin).
           ++ exact (O1 b Hb Wb a Ma Wa Lt Hin).
        -- intros l1 b l2 El Wb a Ma Wa Lt. destruct l1 as [|y l1]; cbn [app] in El.
           ++ assert (i = b) by congruence. subst b. assert (l2 = map sidx (n_sent s)) by congruence. subst l2.
              destruct (no_wait_counted _ _ _ a V Ma Wa) as [R|R]; [destruct (Fr a Wb Wa Lt R)|]. unfold started_order in R. rewrite P in R. exact R.
           ++ assert (E0 : map sidx (n_sent s) = l1 ++ b :: l2) by congruence. exact (O2 l1 b l2 E0 Wb a Ma Wa Lt).
    + destruct (record_at t i) as [r|] eqn:E; [|discriminate]. destruct (destination r pd ch) as [dest|]; [|discriminate]. injection H as <-.
      eapply ordered_same; try eassumption; try reflexivity; [|auto]. unfold started_order. cbn [n_pc]. rewrite P. reflexivity.
    + destruct (nth_error (n_deps s) i) as [d|] eqn:Ed; [|discriminate].
      pose proof (release_new t st (dp_start d) (n_deps s) (n_ready s)) as RN.
      destruct (release t st (dp_start d) (n_deps s) (n_ready s)) as [deps ready] eqn:Er. cbn [fst snd] in RN. injection H as <-.
      eapply ordered_same; try eassumption; try reflexivity; [unfold started_order; cbn [n_pc]; rewrite P; reflexivity|].
      intros k Wk Hin. unfold ready_ids in *. cbn [n_ready] in Hin. apply in_map_iff in Hin. destruct Hin as ([x k'] & Hk & Hin). cbn [snd] in Hk. subst k'.
      destruct (RN x k Hin) as [Hr|[Hk Hx]]; [apply in_map_iff; exists (x, k); auto|]. exfalso.
      assert (El : sdeps (n_deps s) i = dp_start d) by (unfold sdeps; rewrite Ed; reflexivity).
      apply occ_In in Hk. rewrite <- El, (i_start _ _ _ V), Wk, occ_nil in Hk. destruct (is_start (mode_of t k)); lia.
  - unfold finish_step in H. destruct (nth_error (n_flight s) k) as [[i st [e|]]|] eqn:E; try discriminate. injection H as <-.
    eapply ordered_same; try eassumption; try reflexivity. auto.
  - unfold activate_step in H. destruct (nth_error (n_flight s) k) as [[i st [e|]]|] eqn:E; try discriminate.
    destruct (nth_error (n_deps s) i) as [d|] eqn:Ed; [|discriminate].
    pose proof (release_new t (n_trace_start s + (st - n_trace_start s) + (e - st)) (dp_end d) (n_deps s) (n_ready s)) as RN.
    destruct (release t (n_trace_start s + (st - n_trace_start s) + (e - st)) (dp_end d) (n_deps s) (n_ready s)) as [deps ready] eqn:Er. cbn [fst snd] in RN. injection H as <-.
    eapply ordered_same; try eassumption; try reflexivity.
    intros q Wk Hin. unfold ready_ids in *. cbn [n_ready] in Hin. apply in_map_iff in Hin. destruct Hin as ([x k'] & Hk & Hin). cbn [snd] in Hk. subst k'.
    destruct (RN x q Hin) as [Hr|[Hk Hx]]; [apply in_map_iff; exists (x, q); auto|]. exfalso.
    assert (El : edeps (n_deps s) i = dp_end d) by (unfold edeps; rewrite Ed; reflexivity).
    apply occ_In in Hk. rewrite <- El, (i_end _ _ _ V), Wk, occ_nil in Hk. destruct (is_end (mode_of t q)); lia.
Qed.

(** ** All of it, along a run *)
Record good (t : trace) (local T0 : Z) (s : runner) : Prop := { g_inv : inv t local s; g_tinv : tinv t local T0 s; g_ord : ordered t local T0 s }.
Lemma setup_good t local T0 T1 s : setup t local T0 T1 = Some s -> good t local T0 s.
Proof.
  intro H. constructor; [exact (proj1 (setup_inv _ _ _ _ _ H))|exact (setup_tinv _ _ _ _ _ H)|].
  destruct (setup_parts _ _ _ _ _ H) as (E1 & E2 & E3 & E4 & E5 & E6 & E7 & E8). unfold ordered, started_order, sent_ids. rewrite E6, E7. cbn [sending map app]. split.
  - intros b [].
  - intros l1 b l2 E. destruct l1; discriminate.
Qed.
Lemma step_good t local T0 pd ch a s s' : good t local T0 s -> rstep t pd ch a s = RNext s' -> good t local T0 s'.
Proof. intros [A B C] H. constructor; [exact (step_inv _ _ _ _ _ _ _ A H)|exact (step_tinv _ _ _ _ _ _ _ _ A B H)|exact (step_ordered _ _ _ _ _ _ _ _ A B C H)]. Qed.
Lemma run_good t local T0 pd ch : forall l s s', good t local T0 s -> rrun t pd ch l s = RNext s' -> good t local T0 s'.
Proof.
  induction l as [|a r IH]; intros s s' G H; cbn [rrun] in H; [injection H as <-; exact G|].
  destruct (rstep t pd ch a s) as [s1|c|] eqn:E; [|discriminate|exact (IH s s' G H)]. exact (IH s1 s' (step_good _ _ _ _ _ _ _ _ G E) H).
Qed.
