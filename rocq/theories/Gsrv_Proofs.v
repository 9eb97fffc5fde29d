(** Lemmas for Gsrv_Props.v. *)
From Coq Require Import Ascii String List NArith ZArith Bool Arith Lia.
From Verif Require Import Base_Model Grpc_Model Grpc_Proofs Grpc_Proofs2 Grpc_Props Gsrv_Model.
Import ListNotations.
Open Scope nat_scope.

(** ** The states of a call *)
Definition late_ok (k : skind) (sent : bool) (l : list hop) : Prop := match k with Inline => True | Handoff => no_late_read sent l = true end.
Inductive call_ok (k : skind) (q resp : str) : gcall -> Prop :=
  | CWait : call_ok k q resp (mkGc q None true 0 0 false None false)
  | CRun l b : contract true l = true -> late_ok k false l -> (k = Inline -> b = true) ->
      call_ok k q resp (mkGc q (Some l) b 0 0 false None false)
  | CSent l b c : after_send true l = true -> late_ok k true l -> (k = Inline -> b = true) -> (c = true -> b = false) ->
      call_ok k q resp (mkGc q (Some l) b 1 0 false (match k with Inline => None | Handoff => Some (None, resp) end) c)
  | CDone b c : (c = true -> b = false) ->
      call_ok k q resp (mkGc q (Some []) b 1 (match k with Inline => 0 | Handoff => 1 end) false
                         (match k with Inline => if b then None else Some (None, resp) | Handoff => Some (None, resp) end) c).

Definition proper (k : skind) (h : nat -> str -> list hop * str) : Prop :=
  forall i q, contract true (fst (h i q)) = true /\ late_ok k false (fst (h i q)).

Record ginv (k : skind) (h : nat -> str -> list hop * str) (s : gsrv) : Prop := {
  gi_call : forall i c, nth_error (g_calls s) i = Some c -> call_ok k (k_request c) (snd (h i (k_request c))) c;
  gi_both : g_handler s = true -> g_set s = true;
  gi_set : g_set s = true -> g_handler s = true \/ g_shut s = GsGone;
  gi_closed : g_shut s = GsReturned \/ g_shut s = GsGone -> forall i c, nth_error (g_calls s) i = Some c -> k_closed c = true;
  gi_over : g_shut s = GsGone -> forall i c, nth_error (g_calls s) i = Some c -> k_ops c = Some [] }.
Lemma ginv_start k h : ginv k h gstart.
Proof. constructor; cbn; try discriminate; intros; destruct i; discriminate. Qed.

Lemma calls_set k h s i c c' : ginv k h s -> nth_error (g_calls s) i = Some c -> k_request c' = k_request c ->
  call_ok k (k_request c) (snd (h i (k_request c))) c' ->
  (k_closed c = true -> k_closed c' = true) -> (g_shut s = GsGone -> k_ops c' = Some []) ->
  ginv k h (set_calls (lset i c' (g_calls s)) s).
Proof.
  intros V E Q O C G. constructor; cbn [set_calls g_calls g_set g_handler g_shut]; try apply V.
  - intros j d F. destruct (lset_inv _ _ _ _ _ F) as [[-> ->]|[_ K]]; [rewrite Q; exact O|exact (gi_call _ _ _ V _ _ K)].
  - intros S j d F. destruct (lset_inv _ _ _ _ _ F) as [[-> ->]|[_ K]]; [exact (C (gi_closed _ _ _ V S _ _ E))|exact (gi_closed _ _ _ V S _ _ K)].
  - intros S j d F. destruct (lset_inv _ _ _ _ _ F) as [[-> ->]|[_ K]]; [exact (G S)|exact (gi_over _ _ _ V S _ _ K)].
Qed.

(** The move of a handler that keeps the contract. *)
Lemma gmove_ok k q resp o rest c : call_ok k q resp c -> k_ops c = Some (o :: rest) ->
  exists c', gmove k resp o rest c = Some c' /\ call_ok k q resp c' /\ k_request c' = k_request c /\ k_closed c' = k_closed c /\ k_ops c' = Some rest.
Proof.
  intros O E. destruct O as [|l b Ct La In|l b cl Ct La In Cl|b cl Cl]; cbn [k_ops] in E; try discriminate; injection E as ->.
  - destruct o; cbn [contract] in Ct; [| |discriminate].
    + destruct k; (eexists; split; [reflexivity|]; split; [apply CRun; auto|auto]).
    + destruct k; (eexists; split; [reflexivity|]; split; [|cbn; auto]).
      * apply (CSent Inline); auto; discriminate.
      * apply (CSent Handoff); auto; discriminate.
  - destruct o; cbn [after_send] in Ct; [|discriminate|].
    + destruct k; [|cbn in La; discriminate]. eexists. split; [reflexivity|]. split; [|cbn; auto]. apply (CSent Inline); auto.
    + destruct rest; [|discriminate]. destruct k.
      * specialize (In eq_refl). subst b. eexists. split; [reflexivity|]. split; [|cbn; auto]. exact (CDone Inline q resp true cl Cl).
      * eexists. split; [reflexivity|]. split; [|cbn; auto]. exact (CDone Handoff q resp b cl Cl).
Qed.

Lemma call_wait k q resp c : call_ok k q resp c -> k_ops c = None -> c = mkGc q None true 0 0 false None false.
Proof. intros [] E; cbn in E; congruence. Qed.
Lemma gstep_ok k h a s : proper k h -> ginv k h s -> match gstep k h a s with GNext s' => ginv k h s' | GCrash => False | GStuck => True end.
Proof.
  intros H V. destruct a as [|q|i|i|i|i|]; cbn [gstep].
  - destruct (g_shut s) eqn:S; try exact Logic.I; constructor; cbn [g_calls g_set g_handler g_shut]; rewrite ?S; try apply V; auto;
      try (intros [A|A]; discriminate); try discriminate; intros _; apply (gi_closed _ _ _ V); auto.
  - destruct (g_shut s) eqn:S; try exact Logic.I. constructor; cbn [set_calls g_calls g_set g_handler g_shut]; try apply V; rewrite ?S; try (intros [A|A]; discriminate); try discriminate.
    intros i c E. destruct (snoc_inv _ _ _ _ E) as [E1|[-> ->]]; [exact (gi_call _ _ _ V _ _ E1)|]. cbn [k_request]. apply CWait.
  - destruct (nth_error (g_calls s) i) as [c|] eqn:E; [|exact Logic.I]. destruct (k_ops c) eqn:O; [exact Logic.I|].
    destruct (g_set s) eqn:Gs; cbn [negb]; [|exact Logic.I]. pose proof (gi_call _ _ _ V _ _ E) as Ok.
    assert (Ng : g_shut s <> GsGone) by (intro A; pose proof (gi_over _ _ _ V A _ _ E); congruence).
    destruct (g_handler s) eqn:Gh; [|destruct (gi_set _ _ _ V Gs); congruence].
    pose proof (call_wait _ _ _ _ Ok O) as Ec. apply calls_set with c; auto; [|intros; congruence].
    rewrite Ec. cbn [k_request k_inside k_sent k_freed k_reply k_closed k_ops].
    destruct (H i (k_request c)) as [A B]. apply CRun; auto.
  - destruct (nth_error (g_calls s) i) as [c|] eqn:E; [|exact Logic.I]. destruct (k_ops c) as [[|o rest]|] eqn:O; try exact Logic.I.
    pose proof (gi_call _ _ _ V _ _ E) as Ok. destruct (gmove_ok _ _ _ _ _ _ Ok O) as (c' & -> & A & B & C & D).
    apply calls_set with c; auto; [congruence|]. intro S. pose proof (gi_over _ _ _ V S _ _ E). congruence.
  - destruct (nth_error (g_calls s) i) as [c|] eqn:E; [|exact Logic.I]. destruct (k_inside c) eqn:Ki; cbn [negb]; [|exact Logic.I].
    pose proof (gi_call _ _ _ V _ _ E) as Ok. destruct (k_ops c) as [l|] eqn:O; [|destruct k; exact Logic.I].
    destruct k.
    + destruct l; [|exact Logic.I].
      apply calls_set with c; auto. 
      remember (k_request c) as q eqn:Q. remember (snd (h i q)) as resp. clear Q E. destruct Ok as [|l b Ct La In|l b cl Ct La In Cl|b cl Cl]; cbn [k_request k_ops k_inside k_sent k_freed k_unset k_reply k_closed] in *; try discriminate.
      * injection O as ->. discriminate.
      * injection O as ->. discriminate.
      * subst b. unfold inline_reply. cbn. destruct cl; [specialize (Cl eq_refl); discriminate|]. exact (CDone Inline _ _ false false (fun e => eq_refl)).
    + apply calls_set with c; auto; [|intros S; pose proof (gi_over _ _ _ V S _ _ E); cbn [k_ops]; congruence].
      remember (k_request c) as q eqn:Q. remember (snd (h i q)) as resp. clear Q E.
      destruct Ok as [|l' b Ct La In|l' b cl Ct La In Cl|b cl Cl]; cbn [k_request k_ops k_inside k_sent k_freed k_unset k_reply k_closed] in *; try discriminate; injection O as <-.
      * apply CRun; auto; discriminate.
      * apply (CSent Handoff); auto; discriminate.
      * apply (CDone Handoff); auto.
  - destruct (nth_error (g_calls s) i) as [c|] eqn:E; [|exact Logic.I]. destruct (k_inside c) eqn:Ki; [exact Logic.I|].
    destruct (k_reply c) as [rp|] eqn:Kr; [|exact Logic.I]. destruct (k_closed c) eqn:Kc; [exact Logic.I|].
    pose proof (gi_call _ _ _ V _ _ E) as Ok. apply calls_set with c; auto.
    + remember (k_request c) as q eqn:Q. remember (snd (h i q)) as resp. clear Q. destruct Ok as [|l' b Ct La In|l' b cl Ct La In Cl|b cl Cl]; cbn [k_request k_ops k_inside k_sent k_freed k_unset k_reply k_closed] in *; try discriminate; subst b cl.
      * rewrite <- Kr. apply CSent; auto.
      * rewrite <- Kr. apply CDone; auto.
    + intros S. exact (gi_over _ _ _ V S _ _ E).
  - destruct (g_shut s) eqn:S; try exact Logic.I.
    + constructor; cbn [g_calls g_set g_handler g_shut]; try apply V; try (intros [A|A]; discriminate); try discriminate.
      intros A. destruct (gi_set _ _ _ V A); [auto|congruence].
    + destruct (forallb _ _) eqn:F; [|exact Logic.I]. rewrite forallb_forall in F. constructor; cbn [g_calls g_set g_handler g_shut]; try apply V; try discriminate.
      * intros A. destruct (gi_set _ _ _ V A); [auto|congruence].
      * intros _ i c E. apply F. eapply nth_error_In. exact E.
    + destruct (forallb _ _) eqn:F; [|exact Logic.I]. rewrite forallb_forall in F. constructor; cbn [g_calls g_set g_handler g_shut]; try apply V; auto.
      * intros _. apply (gi_closed _ _ _ V). auto.
      * intros _ i c E. specialize (F c (nth_error_In _ _ E)). cbn beta in F. destruct (k_ops c) as [[|]|]; congruence.
Qed.
Lemma grun_ok k h l : proper k h -> forall s, ginv k h s -> match grun k h l s with GNext s' => ginv k h s' | _ => False end.
Proof.
  intros H. induction l as [|a l IH]; intros s V; cbn [grun]; [exact V|]. pose proof (gstep_ok k h a s H V) as S.
  destruct (gstep k h a s); [apply IH, S|destruct S|apply IH, V].
Qed.
Lemma ginv_run k h l s : proper k h -> grun k h l gstart = GNext s -> ginv k h s.
Proof. intros H R. pose proof (grun_ok k h l H _ (ginv_start k h)) as V. rewrite R in V. exact V. Qed.
