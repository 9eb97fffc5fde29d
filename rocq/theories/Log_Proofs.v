(** Proofs about the reservoir. *)
From Coq Require Import List ZArith Bool Arith Lia Permutation.
From Verif Require Import Base_Model Sync_Model Sync_Proofs Log_Model.
Import ListNotations.
Open Scope nat_scope.

(** The number a recorder got. *)
Definition r_num (p : r_phase) : option nat :=
  match p with RStart => None | RFill n | RFilled n | RSpin n _ | RWant n _ | RIn n _ | RDone n => Some n end.
(** The slot meant for sample number [n]. *)
Definition target (size : nat) (draw : nat -> nat) (n : nat) : nat := if Nat.ltb n size then n else draw n.

Record RI (size : nat) (draw : nat -> nat) (s : rsv) : Prop := {
  R_num : forall t n, r_num (rv_th s t) = Some n -> n < rv_number s /\ rv_own s n = t;
  R_own : forall n, n < rv_number s -> r_num (rv_th s (rv_own s n)) = Some n;
  R_fill : forall t n, rv_th s t = RFill n -> n < size /\ rv_slot s n = None;
  R_filled : forall t n, rv_th s t = RFilled n -> n < size;
  R_spin : forall t n i, (rv_th s t = RSpin n i \/ rv_th s t = RWant n i \/ rv_th s t = RIn n i) -> size <= n /\ draw n = i /\ i < size;
  R_want : forall t n i, (rv_th s t = RWant n i \/ rv_th s t = RIn n i) -> rv_remaining s = 0;
  R_subs : forall n, In n (rv_subs s) <-> n < size /\ n < rv_number s /\ rv_th s (rv_own s n) = RDone n;
  R_nodup : NoDup (rv_subs s);
  R_count : rv_remaining s + length (rv_subs s) = size;
  R_slot : forall i m t, rv_slot s i = Some (m, t) -> target size draw m = i /\ i < size /\ (rv_th s t = RFilled m \/ rv_th s t = RDone m);
  R_max : forall t n, (rv_th s t = RFilled n \/ rv_th s t = RDone n) -> target size draw n < size ->
            exists m u, rv_slot s (target size draw n) = Some (m, u) /\ n <= m;
  R_lock : forall t, rv_lock s = Some t <-> exists n i, rv_th s t = RIn n i;
  R_bad : rv_bad s = false }.

Lemma RI0 : forall size draw, RI size draw (rsv0 size).
Proof.
  intros size draw. split; cbn; intros; try discriminate; try lia; try (split; [contradiction|lia]); try reflexivity.
  - destruct H as [H|[H|H]]; discriminate.
  - destruct H as [H|H]; discriminate.
  - constructor.
  - destruct H as [H|H]; discriminate.
  - split; [discriminate|]. intros [n [i H]]. discriminate.
Qed.

Lemma all_subs : forall size draw s, RI size draw s -> rv_remaining s = 0 -> forall n, n < size -> In n (rv_subs s).
Proof.
  intros size draw s H Z n L. pose proof (R_count _ _ _ H) as C.
  assert (X : incl (seq 0 size) (rv_subs s)); [apply (NoDup_length_incl (R_nodup _ _ _ H))|apply X, in_seq; lia].
  - rewrite seq_length. lia.
  - intros x X. apply (R_subs _ _ _ H) in X. apply in_seq. lia.
Qed.
Lemma not_num : forall size draw s t, RI size draw s -> rv_th s t = RStart -> forall n, n < rv_number s -> rv_own s n <> t.
Proof. intros size draw s t H P n L X. pose proof (R_own _ _ _ H n L) as Y. rewrite X, P in Y. discriminate. Qed.

Ltac casesx u t := let Q := fresh "OQ" in destruct (Nat.eq_dec u t) as [Q|Q];
  [repeat match goal with H : context[u] |- _ => lazymatch type of H with u = t => fail | forall _, _ => fail | _ => rewrite Q in H end end; rewrite ?Q in *; rewrite ?upd_same in *
  |rewrite ?upd_other in * by assumption].
(** A thread passes to another phase of the same number and nothing else
    about the slots changes. *)
Lemma RI_step : forall size draw t s s', RI size draw s -> rsv_step size draw t s = Some s' -> RI size draw s'.
Proof.
  intros size draw t s s' H E. unfold rsv_step in E. destruct (rv_th s t) as [|n|n|n i|n i|n i|n] eqn:P.
  - (* RStart *) injection E as <-. set (n := rv_number s).
    set (p := if n <? size then RFill n else if size <=? draw n then RDone n else RSpin n (draw n)).
    assert (PN : r_num p = Some n) by (unfold p; destruct (n <? size), (size <=? draw n); reflexivity).
    pose proof (not_num size draw s t H P) as NN. fold n in NN. pose proof H as H0. destruct H as [A B C D F G I J K L M N O].
    split; cbn [rv_number rv_remaining rv_slot rv_lock rv_th rv_own rv_subs rv_bad]; auto.
    + intros u m. cases u t.
      * rewrite PN. intros Q. injection Q as <-. split; [lia|]. apply upd_same.
      * intros Q. destruct (A u m Q) as [X Y]. fold n in X. split; [lia|]. rewrite upd_other by lia. assumption.
    + intros m L0. destruct (Nat.eq_dec m n) as [->|X].
      * rewrite upd_same, upd_same. assumption.
      * rewrite (upd_other (rv_own s)) by assumption. rewrite upd_other by (apply NN; lia). apply B. lia.
    + intros u m. cases u t; [|apply C]. intros Q. unfold p in Q. destruct (Nat.ltb_spec n size) as [LS|LS]; [|destruct (size <=? draw n); discriminate].
      injection Q as <-. split; [assumption|]. destruct (rv_slot s n) as [[m u]|] eqn:SL; [|reflexivity]. exfalso.
      destruct (L n m u SL) as [X [_ Y]]. assert (Z : r_num (rv_th s u) = Some m) by (destruct Y as [-> | ->]; reflexivity).
      destruct (A u m Z) as [W _]. fold n in W. unfold target in X. destruct (Nat.ltb_spec m size); lia.
    + intros u m. cases u t; [|apply D]. intros Q. unfold p in Q. destruct (n <? size); [discriminate|]. destruct (size <=? draw n); discriminate.
    + intros u m i. cases u t; [|apply F]. intros Q. unfold p in Q. destruct (Nat.ltb_spec n size) as [LS|LS].
      { destruct Q as [Q|[Q|Q]]; discriminate. }
      destruct (Nat.leb_spec size (draw n)) as [LD|LD]; destruct Q as [Q|[Q|Q]]; try discriminate. injection Q as <- <-. auto.
    + intros u m i. cases u t; [|apply G]. intros Q. unfold p in Q. destruct (n <? size); [destruct Q; discriminate|]. destruct (size <=? draw n); destruct Q; discriminate.
    + intros m. rewrite (I m). split.
      * intros [X [Y Z]]. split; [assumption|]. split; [fold n in Y; lia|]. rewrite (upd_other (rv_own s)) by (fold n in Y; lia).
        rewrite upd_other by (apply NN; fold n in Y; assumption). assumption.
      * intros [X [Y Z]]. destruct (Nat.eq_dec m n) as [->|Q].
        -- rewrite upd_same, upd_same in Z. unfold p in Z. destruct (Nat.ltb_spec n size); [discriminate|lia].
        -- rewrite (upd_other (rv_own s)) in Z by assumption. rewrite upd_other in Z by (apply NN; lia). repeat split; auto. fold n. lia.
    + intros i m u Q. destruct (L i m u Q) as [X [Y Z]]. split; [assumption|]. split; [assumption|].
      cases u t; [|assumption]. rewrite P in Z. destruct Z; discriminate.
    + intros u m. cases u t; [|apply M]. intros Q LT. exfalso. unfold p in Q. unfold target in LT.
      destruct (Nat.ltb_spec n size) as [LS|LS]; [destruct Q; discriminate|].
      destruct (Nat.leb_spec size (draw n)); destruct Q as [Q|Q]; try discriminate. injection Q as <-.
      destruct (Nat.ltb_spec n size); lia.
    + intros u. rewrite (N u). split; intros [m [i Q]]; exists m, i.
      * cases u t; [congruence|assumption].
      * cases u t; [|assumption]. unfold p in Q. destruct (n <? size); [discriminate|]. destruct (size <=? draw n); discriminate.
  - (* RFill *) injection E as <-. pose proof H as H0. destruct H as [A B C D F G I J K L M N O]. destruct (C t n P) as [LS SN].
    assert (NT : target size draw n = n) by (unfold target; destruct (Nat.ltb_spec n size); [reflexivity|lia]).
    destruct (A t n ltac:(rewrite P; reflexivity)) as [NB OW].
    assert (TH : forall u q, r_num (rv_th s u) = Some q -> q <> n -> u <> t) by (intros u q X Y ->; rewrite P in X; cbn in X; congruence).
    split; cbn [rv_number rv_remaining rv_slot rv_lock rv_th rv_own rv_subs rv_bad]; auto.
    + intros u m. cases u t; [|apply A]. intros Q. injection Q as <-. split; assumption.
    + intros m L0. pose proof (B m L0) as X. casesx (rv_own s m) t; [|assumption]. rewrite P in X. exact X.
    + intros u m. cases u t; [discriminate|]. intros Q. destruct (C u m Q) as [X Y]. split; [assumption|].
      rewrite upd_other; [assumption|]. intros ->. destruct (A u n ltac:(rewrite Q; reflexivity)) as [_ Z]. congruence.
    + intros u m. cases u t; [|apply D]. intros Q. injection Q as <-. assumption.
    + intros u m i. cases u t; [intros [Q|[Q|Q]]; discriminate|apply F].
    + intros u m i. cases u t; [intros [Q|Q]; discriminate|apply G].
    + intros m. rewrite (I m). split; intros [X [Y Z]]; (split; [assumption|split; [assumption|]]).
      * casesx (rv_own s m) t; [congruence|assumption].
      * casesx (rv_own s m) t; [discriminate|assumption].
    + intros i m u. destruct (Nat.eq_dec i n) as [->|NI].
      * rewrite upd_same. intros Q. injection Q as <- <-. split; [assumption|]. split; [assumption|]. left. apply upd_same.
      * rewrite upd_other by assumption. intros Q. destruct (L i m u Q) as [X [Y Z]]. split; [assumption|]. split; [assumption|].
        cases u t; [|assumption]. rewrite P in Z. destruct Z; discriminate.
    + intros u m. cases u t.
      * intros Q LT. assert (m = n) by (destruct Q as [Q|Q]; congruence). subst m. rewrite NT, upd_same. exists n, t. auto.
      * intros Q LT. destruct (M u m Q LT) as [m' [u' [X Y]]]. exists m', u'. rewrite upd_other; [auto|]. intros Z. rewrite Z in X. congruence.
    + intros u. rewrite (N u). split; intros [m [i Q]]; exists m, i; cases u t; auto; congruence.
  - (* RFilled *) injection E as <-. pose proof H as H0. destruct H as [A B C D F G I J K L M N O]. pose proof (D t n P) as LS.
    destruct (A t n ltac:(rewrite P; reflexivity)) as [NB OW].
    assert (NI : ~ In n (rv_subs s)) by (intros X; apply I in X; destruct X as [_ [_ X]]; congruence).
    assert (RP : 0 < rv_remaining s).
    { assert (LL : length (n :: rv_subs s) <= length (seq 0 size)).
      { apply NoDup_incl_length; [constructor; assumption|]. intros x [<-|X]; apply in_seq; [lia|]. apply I in X. lia. }
      rewrite seq_length in LL. cbn [length] in LL. lia. }
    split; cbn [rv_number rv_remaining rv_slot rv_lock rv_th rv_own rv_subs rv_bad]; auto.
    + intros u m. cases u t; [|apply A]. intros Q. injection Q as <-. split; assumption.
    + intros m L0. pose proof (B m L0) as X. casesx (rv_own s m) t; [|assumption]. rewrite P in X. exact X.
    + intros u m. cases u t; [discriminate|apply C].
    + intros u m. cases u t; [discriminate|apply D].
    + intros u m i. cases u t; [intros [Q|[Q|Q]]; discriminate|apply F].
    + intros u m i. cases u t; [intros [Q|Q]; discriminate|]. intros Q. specialize (G u m i Q). lia.
    + intros m. cbn [In]. rewrite (I m). split.
      * intros [<-|[X [Y Z]]]; [split; [assumption|]; split; [assumption|]; rewrite OW; apply upd_same|].
        split; [assumption|]. split; [assumption|]. casesx (rv_own s m) t; [congruence|assumption].
      * intros [X [Y Z]]. destruct (Nat.eq_dec m n) as [->|Q]; [auto|]. right. split; [assumption|]. split; [assumption|].
        casesx (rv_own s m) t; [congruence|assumption].
    + constructor; assumption.
    + cbn [length]. lia.
    + intros i m u Q. destruct (L i m u Q) as [X [Y Z]]. split; [assumption|]. split; [assumption|].
      cases u t; [|assumption]. right. destruct Z as [Z|Z]; congruence.
    + intros u m. cases u t; [|apply M]. intros Q. apply (M t m). destruct Q as [Q|Q]; [discriminate|]. left. congruence.
    + intros u. rewrite (N u). split; intros [m [i Q]]; exists m, i; cases u t; auto; congruence.
  - (* RSpin *) destruct (Nat.eqb_spec (rv_remaining s) 0) as [RZ|]; [|discriminate]. injection E as <-.
    pose proof H as H0. destruct H as [A B C D F G I J K L M N O]. destruct (F t n i (or_introl P)) as [F1 [F2 F3]].
    destruct (A t n ltac:(rewrite P; reflexivity)) as [NB OW].
    split; cbn [rv_number rv_remaining rv_slot rv_lock rv_th rv_own rv_subs rv_bad]; auto.
    + intros u m. cases u t; [|apply A]. intros Q. injection Q as <-. split; assumption.
    + intros m L0. pose proof (B m L0) as X. casesx (rv_own s m) t; [|assumption]. rewrite P in X. exact X.
    + intros u m. cases u t; [discriminate|apply C].
    + intros u m. cases u t; [discriminate|apply D].
    + intros u m j. cases u t; [|apply F]. intros [Q|[Q|Q]]; try discriminate. injection Q as <- <-. auto.
    + intros m. rewrite (I m). split; intros [X [Y Z]]; (split; [assumption|split; [assumption|]]); casesx (rv_own s m) t; auto; congruence.
    + intros j m u Q. destruct (L j m u Q) as [X [Y Z]]. split; [assumption|]. split; [assumption|].
      cases u t; [|assumption]. destruct Z as [Z|Z]; congruence.
    + intros u m. cases u t; [intros [Q|Q]; discriminate|apply M].
    + intros u. rewrite (N u). split; intros [m [j Q]]; exists m, j; cases u t; auto; congruence.
  - (* RWant *) destruct (rv_lock s) as [h|] eqn:LK; [discriminate|]. injection E as <-.
    pose proof H as H0. destruct H as [A B C D F G I J K L M N O]. destruct (F t n i (or_intror (or_introl P))) as [F1 [F2 F3]].
    destruct (A t n ltac:(rewrite P; reflexivity)) as [NB OW]. pose proof (G t n i (or_introl P)) as RZ.
    split; cbn [rv_number rv_remaining rv_slot rv_lock rv_th rv_own rv_subs rv_bad]; auto.
    + intros u m. cases u t; [|apply A]. intros Q. injection Q as <-. split; assumption.
    + intros m L0. pose proof (B m L0) as X. casesx (rv_own s m) t; [|assumption]. rewrite P in X. exact X.
    + intros u m. cases u t; [discriminate|apply C].
    + intros u m. cases u t; [discriminate|apply D].
    + intros u m j. cases u t; [|apply F]. intros [Q|[Q|Q]]; try discriminate. injection Q as <- <-. auto.
    + intros m. rewrite (I m). split; intros [X [Y Z]]; (split; [assumption|split; [assumption|]]); casesx (rv_own s m) t; auto; congruence.
    + intros j m u Q. destruct (L j m u Q) as [X [Y Z]]. split; [assumption|]. split; [assumption|].
      cases u t; [|assumption]. destruct Z as [Z|Z]; congruence.
    + intros u m. cases u t; [intros [Q|Q]; discriminate|apply M].
    + intros u. split.
      * intros Q. injection Q as <-. exists n, i. apply upd_same.
      * intros [m [j Q]]. cases u t; [reflexivity|]. assert (X : rv_lock s = Some u) by (apply N; eauto). rewrite LK in X. discriminate.
  - (* RIn *) pose proof H as H0. destruct H as [A B C D F G I J K L M N O]. destruct (F t n i (or_intror (or_intror P))) as [F1 [F2 F3]].
    destruct (A t n ltac:(rewrite P; reflexivity)) as [NB OW]. pose proof (G t n i (or_intror P)) as RZ.
    pose proof (all_subs _ _ _ H0 RZ) as AS.
    assert (TN : target size draw n = i) by (unfold target; destruct (Nat.ltb_spec n size); [lia|assumption]).
    assert (HS : exists m u, rv_slot s i = Some (m, u)).
    { pose proof (AS i F3) as X. apply I in X. destruct X as [_ [_ X]].
      destruct (M (rv_own s i) i (or_intror X)) as [m [u [Y _]]]; unfold target in *; destruct (Nat.ltb_spec i size); try lia. eauto. }
    destruct HS as [m0 [u0 SL]]. rewrite SL in E.
    assert (NF : forall u m, rv_th s u <> RFill m).
    { intros u m Q. destruct (C u m Q) as [X _]. pose proof (AS m X) as Y. apply I in Y. destruct Y as [_ [_ Y]].
      destruct (A u m ltac:(rewrite Q; reflexivity)) as [_ Z]. congruence. }
    assert (LKT : rv_lock s = Some t) by (apply N; eauto).
    set (sl := if m0 <? n then upd (rv_slot s) i (Some (n, t)) else rv_slot s).
    assert (E' : s' = mkRsv (rv_number s) (rv_remaining s) sl None (upd (rv_th s) t (RDone n)) (rv_own s) (rv_subs s) (rv_bad s)).
    { unfold sl. destruct (m0 <? n); injection E as <-; reflexivity. }
    clear E. subst s'. split; cbn [rv_number rv_remaining rv_slot rv_lock rv_th rv_own rv_subs rv_bad]; auto.
    + intros u m. cases u t; [|apply A]. intros Q. injection Q as <-. split; assumption.
    + intros m L0. pose proof (B m L0) as X. casesx (rv_own s m) t; [|assumption]. rewrite P in X. exact X.
    + intros u m. cases u t; [discriminate|]. intros Q. destruct (NF u m Q).
    + intros u m. cases u t; [discriminate|apply D].
    + intros u m j. cases u t; [intros [Q|[Q|Q]]; discriminate|apply F].
    + intros m. rewrite (I m). split; intros [X [Y Z]]; (split; [assumption|split; [assumption|]]).
      * casesx (rv_own s m) t; auto. congruence.
      * casesx (rv_own s m) t; auto. injection Z as <-. lia.
    + intros j m u Q. assert (X : (j = i /\ m = n /\ u = t) \/ rv_slot s j = Some (m, u)).
      { unfold sl in Q. destruct (m0 <? n); [|auto]. destruct (Nat.eq_dec j i) as [->|NJ]; [|rewrite upd_other in Q by assumption; auto].
        rewrite upd_same in Q. injection Q as <- <-. auto. }
      destruct X as [[-> [-> ->]]|X].
      * split; [assumption|]. split; [assumption|]. right. apply upd_same.
      * destruct (L j m u X) as [X1 [Y Z]]. split; [assumption|]. split; [assumption|].
        cases u t; [|assumption]. destruct Z as [Z|Z]; congruence.
    + assert (UP : forall j m u, rv_slot s j = Some (m, u) -> exists m' u', sl j = Some (m', u') /\ m <= m').
      { intros j m u Q. unfold sl. destruct (Nat.ltb_spec m0 n) as [LM|LM]; [|eauto]. destruct (Nat.eq_dec j i) as [->|NJ].
        - exists n, t. rewrite upd_same. split; [reflexivity|]. rewrite SL in Q. injection Q as -> ->. lia.
        - exists m, u. rewrite upd_other by assumption. auto. }
      intros u m. cases u t.
      * intros [Q|Q] LT; [discriminate|]. injection Q as <-. rewrite TN in *. unfold sl. destruct (Nat.ltb_spec m0 n) as [LM|LM].
        -- exists n, t. rewrite upd_same. auto.
        -- exists m0, u0. auto.
      * intros Q LT. destruct (M u m Q LT) as [m' [u' [X Y]]]. destruct (UP _ _ _ X) as [m'' [u'' [X' Y']]]. exists m'', u''. split; [assumption|lia].
    + intros u. split; [discriminate|]. intros [m [j Q]]. cases u t; [discriminate|].
      assert (X : rv_lock s = Some u) by (apply N; eauto). congruence.
  - discriminate.
Qed.
Lemma RI_run : forall size draw l s, RI size draw s -> RI size draw (rsv_run size draw l s).
Proof.
  intros size draw. induction l as [|t r IH]; intros s H; cbn [rsv_run]; [assumption|]. apply IH.
  destruct (rsv_step size draw t s) eqn:E; [eapply RI_step; eassumption|assumption].
Qed.

(** ** At rest *)
(** Every recorder has finished, or has not begun. *)
Definition at_rest (s : rsv) : Prop := forall t, rv_th s t = RStart \/ exists n, rv_th s t = RDone n.
Lemma rest_own : forall size draw s n, RI size draw s -> at_rest s -> n < rv_number s -> rv_th s (rv_own s n) = RDone n.
Proof.
  intros size draw s n H R L. pose proof (R_own _ _ _ H n L) as X. destruct (R (rv_own s n)) as [Y|[m Y]]; rewrite Y in X; [discriminate|].
  cbn in X. injection X as <-. assumption.
Qed.
(** The slot's sample is the last one aimed at it. *)
Lemma rest_slot : forall size draw s i, RI size draw s -> at_rest s -> i < size -> i < rv_number s ->
  exists m, rv_slot s i = Some (m, rv_own s m) /\ m < rv_number s /\ target size draw m = i
    /\ forall n, n < rv_number s -> target size draw n = i -> n <= m.
Proof.
  intros size draw s i H R L1 L2.
  assert (TI : target size draw i = i) by (unfold target; destruct (Nat.ltb_spec i size); [reflexivity|lia]).
  destruct (R_max _ _ _ H (rv_own s i) i (or_intror (rest_own _ _ _ _ H R L2)) ltac:(rewrite TI; assumption)) as [m [u [X _]]].
  rewrite TI in X. destruct (R_slot _ _ _ H i m u X) as [Y [_ Z]].
  assert (W : r_num (rv_th s u) = Some m) by (destruct Z as [-> | ->]; reflexivity). destruct (R_num _ _ _ H u m W) as [V1 V2].
  exists m. rewrite V2. split; [assumption|]. split; [assumption|]. split; [assumption|].
  intros n Ln Tn. destruct (R_max _ _ _ H (rv_own s n) n (or_intror (rest_own _ _ _ _ H R Ln)) ltac:(rewrite Tn; assumption)) as [m' [u' [A B]]].
  rewrite Tn, X in A. injection A as -> ->. assumption.
Qed.
Lemma rest_empty : forall size draw s i, RI size draw s -> (size <= i \/ rv_number s <= i) -> rv_slot s i = None.
Proof.
  intros size draw s i H D. destruct (rv_slot s i) as [[m u]|] eqn:S0; [|reflexivity]. exfalso.
  destruct (R_slot _ _ _ H i m u S0) as [A [B C]]. assert (W : r_num (rv_th s u) = Some m) by (destruct C as [-> | ->]; reflexivity).
  destruct (R_num _ _ _ H u m W) as [V1 V2]. unfold target in A. destruct (Nat.ltb_spec m size); lia.
Qed.

(** ** Progress *)
Lemma missing : forall size (l : list nat), length l < size -> exists n, n < size /\ ~ In n l.
Proof.
  intros size l L. destruct (forallb (fun n => existsb (Nat.eqb n) l) (seq 0 size)) eqn:E.
  - exfalso. rewrite forallb_forall in E.
    assert (I : incl (seq 0 size) l).
    { intros n X. specialize (E n X). apply existsb_exists in E. destruct E as [y [Y1 Y2]]. apply Nat.eqb_eq in Y2. now subst. }
    pose proof (NoDup_incl_length (seq_NoDup size 0) I) as X. rewrite seq_length in X. lia.
  - apply not_true_iff_false in E. assert (X : exists n, In n (seq 0 size) /\ existsb (Nat.eqb n) l = false).
    { clear L. induction (seq 0 size) as [|a r IH]; [destruct E; reflexivity|]. cbn [forallb] in E.
      destruct (existsb (Nat.eqb a) l) eqn:F; [|exists a; split; [left; reflexivity|assumption]].
      destruct IH as [n [A B]]; [intros Q; apply E; rewrite Q; reflexivity|]. exists n. split; [right; assumption|assumption]. }
    destruct X as [n [A B]]. exists n. apply in_seq in A. split; [lia|]. intros I.
    assert (C : existsb (Nat.eqb n) l = true) by (apply existsb_exists; exists n; split; [assumption|apply Nat.eqb_refl]). congruence.
Qed.
Lemma rsv_progress : forall size draw s t, RI size draw s -> rv_th s t <> RStart -> (forall n, rv_th s t <> RDone n) ->
  exists u, rv_th s u <> RStart /\ rsv_step size draw u s <> None.
Proof.
  intros size draw s t H NS ND.
  assert (LKD : rv_lock s <> None -> exists u, rv_th s u <> RStart /\ rsv_step size draw u s <> None).
  { intros LK. destruct (rv_lock s) as [h|] eqn:Q; [|congruence]. apply (R_lock _ _ _ H) in Q. destruct Q as [m [j Q]]. exists h.
    split; [congruence|]. unfold rsv_step. rewrite Q. destruct (rv_slot s j) as [[a b]|]; [destruct (a <? m)|]; discriminate. }
  destruct (rv_th s t) as [|n|n|n i|n i|n i|n] eqn:P; try congruence.
  - exists t. split; [congruence|]. unfold rsv_step. rewrite P. discriminate.
  - exists t. split; [congruence|]. unfold rsv_step. rewrite P. discriminate.
  - destruct (Nat.eq_dec (rv_remaining s) 0) as [RZ|RZ].
    + exists t. split; [congruence|]. unfold rsv_step. rewrite P, RZ. discriminate.
    + pose proof (R_count _ _ _ H) as C. destruct (missing size (rv_subs s)) as [m [M1 M2]]; [lia|].
      destruct (R_spin _ _ _ H t n i (or_introl P)) as [F1 _]. destruct (R_num _ _ _ H t n ltac:(rewrite P; reflexivity)) as [NB _].
      pose proof (R_own _ _ _ H m ltac:(lia)) as X. exists (rv_own s m). split; [intros Q; rewrite Q in X; discriminate|].
      unfold rsv_step. destruct (rv_th s (rv_own s m)) as [|k|k|k j|k j|k j|k] eqn:Q; try discriminate; injection X as ->.
      * destruct (R_spin _ _ _ H _ m j (or_introl Q)). lia.
      * destruct (R_spin _ _ _ H _ m j (or_intror (or_introl Q))). lia.
      * destruct (R_spin _ _ _ H _ m j (or_intror (or_intror Q))). lia.
      * destruct M2. apply (R_subs _ _ _ H). split; [assumption|]. split; [lia|assumption].
  - destruct (rv_lock s) as [h|] eqn:LK; [apply LKD; congruence|]. exists t. split; [congruence|]. unfold rsv_step. rewrite P, LK. discriminate.
  - apply LKD. assert (X : rv_lock s = Some t) by (apply (R_lock _ _ _ H); eauto). congruence.
Qed.
