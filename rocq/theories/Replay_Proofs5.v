(** The end that a record timed by prior ends is timed by. *)
From Coq Require Import Ascii String List NArith ZArith Bool Arith Lia.
From Verif Require Import Base_Model Grid_Model Canon_Model Replay_Model Replay_Proofs Replay_Proofs2 Replay_Proofs3.
Import ListNotations.
Open Scope Z_scope.

(** [x]: the delay after the end that was recorded last among those waited for. *)
Definition lsched (t : trace) (local : Z) (s : runner) (k : nat) (x : Z) : Prop :=
  exists a j o l c, n_samples s = a ++ (j, (o, l)) :: c /\ In j (waits_for t local k) /\
    (forall q, In q c -> ~ In (fst q) (waits_for t local k)) /\ x = n_trace_start s + o + l + timing_of t k.
Definition timed (t : trace) (local : Z) (k : nat) : Prop := mode_of t k = MPriorEnd /\ waits_for t local k <> [].
Record linv (t : trace) (local : Z) (s : runner) : Prop := {
  l_ready : forall x k, In (x, k) (n_ready s) -> timed t local k -> lsched t local s k x;
  l_send : forall k, n_pc s = RSend k -> timed t local k -> exists x, x <= n_now s /\ lsched t local s k x;
  l_sent : forall e, In e (n_sent s) -> timed t local (sidx e) -> exists x, x <= sstart e /\ lsched t local s (sidx e) x }.

Lemma lsched_same t local s s' k x : n_samples s' = n_samples s -> n_trace_start s' = n_trace_start s -> lsched t local s k x -> lsched t local s' k x.
Proof. unfold lsched. intros -> ->. auto. Qed.
(** Ready, being sent or sent: all that is waited for was recorded. *)
Lemma sched_all t local T0 s k x : sched t local T0 s k x -> timed t local k -> forall j, In j (waits_for t local k) -> In j (sample_ids s).
Proof. intros [[A _]|[(A & _)|(_ & A & _)]] [M W]; [congruence|congruence|exact A]. Qed.
Lemma lsched_more t local T0 s s' k x y q : sched t local T0 s k y -> timed t local k -> inv t local s' ->
  n_samples s' = n_samples s ++ [q] -> n_trace_start s' = n_trace_start s -> lsched t local s k x -> lsched t local s' k x.
Proof.
  intros Y T V E E2 (a & j & o & l & c & A1 & A2 & A3 & A4). exists a, j, o, l, (c ++ [q]). rewrite E, A1, <- app_assoc. split; [reflexivity|].
  split; [exact A2|]. split; [|rewrite E2; exact A4]. intros p Hp Hw. apply in_app_iff in Hp. destruct Hp as [Hp|[<-|[]]]; [exact (A3 p Hp Hw)|].
  pose proof (sched_all _ _ _ _ _ _ Y T _ Hw) as Hs. pose proof (sample_nodup _ _ _ V) as ND. unfold sample_ids in *. rewrite E, map_app in ND. cbn [map] in ND.
  apply NoDup_remove_2 in ND. rewrite app_nil_r in ND. exact (ND Hs).
Qed.

Lemma step_linv t local T0 pd ch a s s' : inv t local s -> tinv t local T0 s -> linv t local s -> rstep t pd ch a s = RNext s' -> linv t local s'.
Proof.
  intros V Q L H. pose proof (step_inv _ _ _ _ _ _ _ V H) as V'. pose proof L as [L1 L2 L3]. destruct a as [d|n|k|k]; cbn [rstep] in H.
  - destruct (Z.ltb_spec d 0); [discriminate|]. injection H as <-. constructor; cbn [n_ready n_pc n_sent n_now].
    + exact L1.
    + intros k P T. destruct (L2 k P T) as (x & A & B). exists x. split; [lia|exact B].
    + exact L3.
  - unfold main_step in H. destruct (n_pc s) as [|deadline|i|i st|] eqn:P; try discriminate.
    + injection H as <-. constructor; [exact L1| |exact L3]. cbn [set_pc n_pc]. destruct (n_remaining s =? 0); discriminate.
    + destruct (n_finished s) eqn:F.
      * injection H as <-. constructor; [exact L1| |exact L3]. cbn [n_pc]. discriminate.
      * destruct deadline as [d|]; [|discriminate]. destruct (Z.leb_spec d (n_now s)) as [Dl|]; [|discriminate]. destruct (earliest (n_ready s)) as [first|] eqn:Ef; [|discriminate].
        destruct (nth_error (n_ready s) n) as [[x i]|] eqn:E; [|discriminate]. destruct (Z.eqb_spec x first) as [->|]; [|discriminate]. injection H as <-.
        destruct (i_wait _ _ _ V _ P F) as [W _]. assert (d = first) by congruence. subst d.
        constructor; cbn [n_ready n_pc n_sent n_now].
        -- intros y k Hin. apply without_In in Hin. exact (L1 y k Hin).
        -- intros k0 Hk T. injection Hk as <-. exists first. split; [exact Dl|]. apply L1; [eapply nth_error_In; exact E|exact T].
        -- exact L3.
    + destruct (record_at t i) as [r|] eqn:E; [|discriminate]. destruct (destination r pd ch) as [dest|]; [|discriminate]. injection H as <-.
      constructor; cbn [n_ready n_pc n_sent n_now].
      * exact L1.
      * discriminate.
      * intros e [<-|He] T; [exact (L2 i eq_refl T)|exact (L3 e He T)].
    + destruct (nth_error (n_deps s) i) as [d|] eqn:Ed; [|discriminate].
      pose proof (release_new t st (dp_start d) (n_deps s) (n_ready s)) as RN.
      destruct (release t st (dp_start d) (n_deps s) (n_ready s)) as [deps ready] eqn:Er. cbn [fst snd] in RN. injection H as <-.
      constructor; cbn [n_ready n_pc n_sent n_now]; [|discriminate|exact L3].
      intros x k Hin T. destruct (RN x k Hin) as [Hr|[Hk Hx]]; [exact (L1 x k Hr T)|]. exfalso.
      assert (El : sdeps (n_deps s) i = dp_start d) by (unfold sdeps; rewrite Ed; reflexivity).
      apply occ_In in Hk. rewrite <- El, (i_start _ _ _ V) in Hk. destruct T as [T _]. rewrite T in Hk. cbn [is_start] in Hk. lia.
  - unfold finish_step in H. destruct (nth_error (n_flight s) k) as [[i st [e|]]|] eqn:E; try discriminate. injection H as <-.
    constructor; [exact L1|exact L2|exact L3].
  - unfold activate_step in H. destruct (nth_error (n_flight s) k) as [[i st [e|]]|] eqn:E; try discriminate.
    destruct (nth_error (n_deps s) i) as [d|] eqn:Ed; [|discriminate].
    pose proof (release_new t (n_trace_start s + (st - n_trace_start s) + (e - st)) (dp_end d) (n_deps s) (n_ready s)) as RN.
    destruct (release t (n_trace_start s + (st - n_trace_start s) + (e - st)) (dp_end d) (n_deps s) (n_ready s)) as [deps ready] eqn:Er. cbn [fst snd] in RN. injection H as <-.
    match type of V' with inv _ _ ?s' => assert (M : forall k x y, sched t local T0 s k y -> timed t local k -> lsched t local s k x -> lsched t local s' k x) end.
    { intros k0 x y Y T. eapply lsched_more; [exact Y|exact T|exact V'|reflexivity|reflexivity]. }
    constructor; cbn [n_ready n_pc n_sent n_now].
    + intros x k0 Hin T. destruct (RN x k0 Hin) as [Hr|[Hk Hx]]; [eapply M; [exact (q_ready _ _ _ _ Q _ _ Hr)|exact T|exact (L1 _ _ Hr T)]|].
      exists (n_samples s), i, (st - n_trace_start s), (e - st), []. cbn [n_samples n_trace_start]. split; [reflexivity|].
      assert (El : edeps (n_deps s) i = dp_end d) by (unfold edeps; rewrite Ed; reflexivity).
      apply occ_In in Hk. rewrite <- El, (i_end _ _ _ V) in Hk. destruct (is_end (mode_of t k0)) eqn:Md; [|lia]. apply occ_In in Hk.
      split; [exact Hk|]. split; [intros q []|exact Hx].
    + intros k0 Hk T. destruct (L2 k0 Hk T) as (x & A & B). destruct (q_send _ _ _ _ Q k0 Hk) as (y & _ & Y). exists x. split; [exact A|]. eapply M; eassumption.
    + intros e0 He T. destruct (L3 e0 He T) as (x & A & B). destruct (q_sched _ _ _ _ Q e0 He) as (y & _ & Y). exists x. split; [exact A|]. eapply M; eassumption.
Qed.
Lemma setup_linv t local T0 T1 s : setup t local T0 T1 = Some s -> linv t local s.
Proof.
  intro H. destruct (setup_parts _ _ _ _ _ H) as (E1 & E2 & E3 & E4 & E5 & E6 & E7 & E8).
  constructor; rewrite ?E6, ?E7; try discriminate; try (intros; match goal with F : In _ [] |- _ => destruct F end).
  intros x k Hin [_ W]. destruct (E8 x k Hin) as [A _]. congruence.
Qed.
Lemma run_linv t local T0 pd ch : forall l s s', good t local T0 s -> linv t local s -> rrun t pd ch l s = RNext s' -> linv t local s'.
Proof.
  induction l as [|a r IH]; intros s s' G L H; cbn [rrun] in H; [injection H as <-; exact L|].
  destruct (rstep t pd ch a s) as [s1|c|] eqn:E; [|discriminate|exact (IH s s' G L H)].
  refine (IH s1 s' (step_good _ _ _ _ _ _ _ _ G E) _ H). exact (step_linv _ _ _ _ _ _ _ _ (g_inv _ _ _ _ G) (g_tinv _ _ _ _ G) L E).
Qed.
