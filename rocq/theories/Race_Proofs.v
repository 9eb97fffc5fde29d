(** Threads that touch fields only with their mutexes do not race. *)
From Coq Require Import List Bool Arith Lia.
From Verif Require Import Lock_Model Lock_Proofs Race_Model.
Import ListNotations.
Open Scope nat_scope.

Definition holding := list (lock * mode).
Section Keeps.
  Variable T : holding -> bool -> field -> Prop.
  Fixpoint keeps (outer : holding) (s : step) : Prop :=
    match s with
    | Take m l b => fold_right (fun x P => keeps ((l, m) :: outer) x /\ P) True b
    | Await l => exists o, outer = (l, Excl) :: o
    | Touch w f => T outer w f
    end.
  Definition keepss (outer : holding) (x : list step) : Prop := fold_right (fun s P => keeps outer s /\ P) True x.
  Lemma keepss_app outer a b : keepss outer a -> keepss outer b -> keepss outer (a ++ b).
  Proof. intros A B. induction a as [|x a IH]; [exact B|]. destruct A as [X A]. split; [exact X|exact (IH A)]. Qed.
  Definition keeping (outer : holding) (P : prog) : Prop := forall x, P x -> keepss outer x.
  Lemma k_none outer : keeping outer none.
  Proof. intros x ->. exact Logic.I. Qed.
  Lemma k_either outer P Q : keeping outer P -> keeping outer Q -> keeping outer (either P Q).
  Proof. intros A B x [H|H]; auto. Qed.
  Lemma k_then outer P Q : keeping outer P -> keeping outer Q -> keeping outer (then_ P Q).
  Proof. intros A B x (a & b & -> & Ha & Hb). apply keepss_app; auto. Qed.
  Lemma k_many outer P : keeping outer P -> keeping outer (many P).
  Proof. intros A x H. induction H as [|a b Ha H IH]; [exact Logic.I|]. apply keepss_app; auto. Qed.
  Lemma k_under outer m l P : keeping ((l, m) :: outer) P -> keeping outer (under m l P).
  Proof. intros A x (b & -> & Hb). split; [exact (A b Hb)|exact Logic.I]. Qed.
  Lemma k_await outer l o : outer = (l, Excl) :: o -> keeping outer (await l).
  Proof. intros -> x ->. split; [exists o; reflexivity|exact Logic.I]. Qed.
  Lemma k_reads outer f : T outer false f -> keeping outer (reads f).
  Proof. intros H x ->. split; [exact H|exact Logic.I]. Qed.
  Lemma k_writes outer f : T outer true f -> keeping outer (writes f).
  Proof. intros H x ->. split; [exact H|exact Logic.I]. Qed.
  Lemma k_some {A} outer (f : A -> prog) : (forall a, keeping outer (f a)) -> keeping outer (some_ f).
  Proof. intros H x (a & K). exact (H a x K). Qed.

  (** Operations, with what is held. *)
  Fixpoint sound (held : holding) (todo : list op) : Prop :=
    match todo with
    | [] => True
    | Acq m l :: r => sound ((l, m) :: held) r
    | Rel l :: r => sound (drop l held) r
    | Tch w f :: r => T held w f /\ sound held r
    end.
  Lemma drop_here l m h : drop l ((l, m) :: h) = h.
  Proof. cbn [drop fst]. destruct (lock_eq_dec l l) as [_|N]; [reflexivity|destruct (N eq_refl)]. Qed.
  Lemma ops_sound s : forall outer r, keeps outer s -> sound outer r -> sound outer (ops s ++ r).
  Proof.
    induction s as [m l b IH|l|w f] using step_ind2; intros outer r G R.
    - cbn [ops app sound]. rewrite <- app_assoc. cbn [app]. assert (K : sound ((l, m) :: outer) (Rel l :: r)) by (cbn [sound]; rewrite drop_here; exact R).
      revert K. generalize (Rel l :: r) as q. cbn [keeps] in G. change (keepss ((l, m) :: outer) b) in G. clear R r. induction b as [|x b IHb]; intros q K; [exact K|].
      destruct G as [Gx Gb]. cbn [flat_map]. rewrite <- app_assoc. apply IH; [left; reflexivity|exact Gx|]. apply IHb; [intros s H; apply IH; right; exact H|exact Gb|exact K].
    - destruct G as [o ->]. cbn [ops app sound]. rewrite drop_here. exact R.
    - cbn [ops app sound]. split; [exact G|exact R].
  Qed.
  Lemma prog_sound x : forall outer r, keepss outer x -> sound outer r -> sound outer (flat_map ops x ++ r).
  Proof. induction x as [|s x IH]; intros outer r G R; [exact R|]. destruct G as [Gs G]. cbn [flat_map]. rewrite <- app_assoc. apply ops_sound; [exact Gs|]. apply IH; assumption. Qed.

  Definition ssound (s : state) : Prop := forall i h, nth_error s i = Some h -> sound (t_held h) (t_todo h).
  Lemma try_sound prefer s i s' : try prefer s i = Some s' -> ssound s -> ssound s'.
  Proof.
    intros E K j g G. destruct (try_nth _ _ _ _ E) as (h & h' & H & -> & C). apply put_nth in G. destruct G as [[-> ->]|[_ G]]; [|exact (K _ _ G)].
    specialize (K _ _ H). destruct (t_todo h) as [|[m l|l|w f] r]; [destruct C| | |].
    - destruct C as [[_ ->]|[_ ->]]; exact K.
    - subst h'. exact K.
    - subst h'. exact (proj2 K).
  Qed.
  Lemma run_sound prefer l : forall s s', run prefer l s = Some s' -> ssound s -> ssound s'.
  Proof. induction l as [|i l IH]; intros s s' R K; cbn [run] in R; [injection R as <-; exact K|]. destruct (try prefer s i) as [s1|] eqn:E; [|discriminate]. exact (IH _ _ R (try_sound _ _ _ _ E K)). Qed.
  Lemma begins_sound serve before s : keeping [] (many serve) -> (forall t, keeping [(Started t, Excl); (Thread t, Excl)] before) -> (forall e t, keeping [(Thread t, Excl)] (then_ (work e) thread_end)) ->
    begins serve before s -> ssound s.
  Proof.
    intros A B C [K _] i h H. destruct (K _ _ H) as [(x & X & ->)|(t & e & c & w & -> & Hc & Hw)].
    - unfold serving. cbn [t_held t_todo]. rewrite <- (app_nil_r (flat_map ops x)). apply prog_sound; [exact (A x X)|exact Logic.I].
    - unfold made. cbn [t_held t_todo]. apply prog_sound; [exact (B t c Hc)|]. cbn [sound]. rewrite drop_here. apply prog_sound; [exact (C e t w Hw)|exact Logic.I].
  Qed.
End Keeps.

(** ** Fields and mutexes *)
Definition has (l : lock) (held : holding) (w : bool) : Prop := In (l, Excl) held \/ (w = false /\ In (l, Shared) held).
Definition guarded (held : holding) (w : bool) (f : field) : Prop := match guard f with Some l => has l held w | None => True end.
Definition guarded_living (held : holding) (w : bool) (f : field) : Prop :=
  match f with Engines n => has (NodeMu n) held w | Registration _ => w = false | _ => guarded held w f end.
Ltac in_tac := cbn [In]; tauto.
Ltac has_tac := cbn; unfold has; first [left; in_tac|right; split; [reflexivity|in_tac]].
Ltac touch_tac := first [exact Logic.I|reflexivity|has_tac].
Ltac keeping_tac := repeat match goal with
  | |- keeping _ _ none => apply k_none
  | |- keeping _ _ (either _ _) => apply k_either
  | |- keeping _ _ (then_ _ _) => apply k_then
  | |- keeping _ _ (many _) => apply k_many
  | |- keeping _ _ (some_ _) => apply k_some; intros ?
  | |- keeping _ _ (under _ _ _) => apply k_under
  | |- keeping _ _ (reads _) => apply k_reads; touch_tac
  | |- keeping _ _ (writes _) => apply k_writes; touch_tac
  | |- keeping _ _ (await _) => eapply k_await; reflexivity
  | |- keeping _ _ ?P => let h := match P with ?f _ _ _ => f | ?f _ _ => f | ?f _ => f | ?f => f end in unfold h
  end.
Lemma keeping_entry : keeping guarded [] (many entry).
Proof. keeping_tac. Qed.
Lemma keeping_callback t : keeping guarded [(Started t, Excl); (Thread t, Excl)] (opt callback).
Proof. keeping_tac. Qed.
Lemma keeping_work e t : keeping guarded [(Thread t, Excl)] (then_ (work e) thread_end).
Proof. keeping_tac. Qed.
Lemma keeping_living : keeping guarded_living [] (many living).
Proof. keeping_tac. Qed.
Lemma keeping_living_callback t : keeping guarded_living [(Started t, Excl); (Thread t, Excl)] (opt callback).
Proof. keeping_tac. Qed.
Lemma keeping_living_work e t : keeping guarded_living [(Thread t, Excl)] (then_ (work e) thread_end).
Proof. keeping_tac. Qed.

Lemma no_race (T : holding -> bool -> field -> Prop) l f s : ssound T s -> excl s -> (forall held w, T held w f -> has l held w) -> ~ race s f.
Proof.
  intros K X H (i & j & hi & hj & w & w' & ri & rj & N & Hi & Hj & Ei & Ej & W). pose proof (K _ _ Hi) as A. pose proof (K _ _ Hj) as B. rewrite Ei in A. rewrite Ej in B.
  destruct A as [A _]. destruct B as [B _]. apply H in A. apply H in B. unfold has in A, B.
  destruct A as [A|[-> A]].
  - destruct B as [B|[_ B]]; exact (X _ _ _ _ _ _ Hi Hj N A B).
  - cbn [orb] in W. subst w'. destruct B as [B|[B _]]; [|discriminate B]. exact (X _ _ _ _ _ _ Hj Hi (not_eq_sym N) B A).
Qed.
