(** Mutexes: an order of them, and why threads that keep to it do not deadlock. *)
From Coq Require Import List Bool Arith Lia Relations.
From Verif Require Import Lock_Model.
Import ListNotations.
Open Scope nat_scope.

Definition rank (l : lock) : nat :=
  match l with
  | SeqMu _ => 0 | CancelMu _ => 1 | NodeMu _ => 2 | Thread _ => 4 | Started _ => 5
  | Cancelation _ | ActionMu _ | Reservoir _ | RpcMu _ | PoolMu _ => 6
  | ConfigMu _ | ReplayLogs _ | PeerMu _ _ _ | ActivityLog _ | IterCache _ | Bitgen _ | Dict _ | IterMu _ _ | Abort | MercuryInit => 7
  | Notified _ => 8
  end.
Lemma rank_max l : rank l <= 8.
Proof. destruct l; cbn; lia. Qed.

(** A step that keeps to the order below [outer], the last taken first, where
    with [ex] reading the mutex of a node manager is exempt from the order; and
    awaits only on the last. *)
Definition exempt (ex : bool) (m : mode) (l : lock) : Prop := ex = true /\ m = Shared /\ exists n, l = NodeMu n.
Definition allowed (ex : bool) (m : mode) (l : lock) (outer : list lock) : Prop := exempt ex m l \/ forall k, In k outer -> rank k < rank l.
Fixpoint good (ex : bool) (outer : list lock) (s : step) : Prop :=
  match s with
  | Take m l b => allowed ex m l outer /\ fold_right (fun x P => good ex (l :: outer) x /\ P) True b
  | Await l => exists o, outer = l :: o /\ forall k, In k o -> rank k < rank l
  | Touch w f => True
  end.
Definition goods (ex : bool) (outer : list lock) (x : list step) : Prop := fold_right (fun s P => good ex outer s /\ P) True x.
Lemma goods_in ex outer x : goods ex outer x <-> forall s, In s x -> good ex outer s.
Proof.
  unfold goods. induction x as [|a x IH]; cbn [fold_right In]; [split; [intros _ s []|auto]|]. rewrite IH. split.
  - intros [A B] s [<-|H]; auto.
  - intros H. split; [apply H; auto|intros s K; apply H; auto].
Qed.
Lemma goods_app ex outer a b : goods ex outer (a ++ b) <-> goods ex outer a /\ goods ex outer b.
Proof. rewrite !goods_in. setoid_rewrite in_app_iff. firstorder. Qed.

Definition within (ex : bool) (outer : list lock) (P : prog) : Prop := forall x, P x -> goods ex outer x.
Lemma w_none ex outer : within ex outer none.
Proof. intros x ->. exact Logic.I. Qed.
Lemma w_either ex outer P Q : within ex outer P -> within ex outer Q -> within ex outer (either P Q).
Proof. intros A B x [H|H]; auto. Qed.
Lemma w_then ex outer P Q : within ex outer P -> within ex outer Q -> within ex outer (then_ P Q).
Proof. intros A B x (a & b & -> & Ha & Hb). apply goods_app. auto. Qed.
Lemma w_many ex outer P : within ex outer P -> within ex outer (many P).
Proof. intros A x H. induction H as [|a b Ha H IH]; [exact Logic.I|]. apply goods_app. auto. Qed.
Lemma w_under ex outer m l P : allowed ex m l outer -> within ex (l :: outer) P -> within ex outer (under m l P).
Proof. intros R A x (b & -> & Hb). cbn. split; [|exact Logic.I]. split; [exact R|exact (A b Hb)]. Qed.
Lemma w_await ex outer l o : outer = l :: o -> (forall k, In k o -> rank k < rank l) -> within ex outer (await l).
Proof. intros -> R x ->. cbn. split; [|exact Logic.I]. exists o. auto. Qed.
Lemma w_reads ex outer f : within ex outer (reads f).
Proof. intros x ->. cbn. auto. Qed.
Lemma w_writes ex outer f : within ex outer (writes f).
Proof. intros x ->. cbn. auto. Qed.
Lemma w_some {A} ex outer (f : A -> prog) : (forall a, within ex outer (f a)) -> within ex outer (some_ f).
Proof. intros H x (a & K). exact (H a x K). Qed.
Ltac ranks := cbn [In rank]; intros k K; repeat (destruct K as [<-|K]; [cbn [rank]; lia|]); destruct K.
Ltac within_tac := repeat match goal with
  | |- within _ _ none => apply w_none
  | |- within _ _ (either _ _) => apply w_either
  | |- within _ _ (then_ _ _) => apply w_then
  | |- within _ _ (many _) => apply w_many
  | |- within _ _ (some_ _) => apply w_some; intros ?
  | |- within _ _ (under _ _ _) => apply w_under; [first [solve [right; ranks]|left; split; [reflexivity|split; [reflexivity|eexists; reflexivity]]]|]
  | |- within _ _ (reads _) => apply w_reads
  | |- within _ _ (writes _) => apply w_writes
  | |- within _ _ (await _) => eapply w_await; [reflexivity|ranks]
  | |- within _ _ ?P => let h := match P with ?f _ _ _ => f | ?f _ _ => f | ?f _ => f | ?f => f end in unfold h
  end.
Lemma within_entry ex : within ex [] (many entry).
Proof. within_tac. Qed.
Lemma within_work ex e t : within ex [Thread t] (then_ (work e) thread_end).
Proof. within_tac. Qed.
Lemma within_callback t : within true [Started t; Thread t] (opt callback).
Proof. within_tac. Qed.

(** ** Operations *)
Fixpoint dropl (l : lock) (h : list lock) : list lock := match h with [] => [] | x :: r => if lock_eq_dec x l then r else x :: dropl l r end.
Lemma drop_fst l h : map fst (drop l h) = dropl l (map fst h).
Proof. induction h as [|[x m] h IH]; [reflexivity|]. cbn [drop map fst dropl]. destruct (lock_eq_dec x l); [reflexivity|]. cbn [map fst]. f_equal. exact IH. Qed.
Fixpoint ok (ex : bool) (held : list lock) (todo : list op) : Prop :=
  match todo with
  | [] => held = []
  | Acq m l :: r => allowed ex m l held /\ ok ex (l :: held) r
  | Rel l :: r => ok ex (dropl l held) r
  | Tch w f :: r => ok ex held r
  end.
Lemma step_ind2 (P : step -> Prop) : (forall m l b, (forall s, In s b -> P s) -> P (Take m l b)) -> (forall l, P (Await l)) -> (forall w f, P (Touch w f)) -> forall s, P s.
Proof.
  intros A B C. fix IH 1. intros [m l b|l|w f]; [|apply B|apply C]. apply A. induction b as [|x b IHb]; intros s H; [destruct H|]. destruct H as [<-|H]; [apply IH|exact (IHb s H)].
Qed.
Lemma ops_ok ex s : forall outer r, good ex outer s -> ok ex outer r -> ok ex outer (ops s ++ r).
Proof.
  induction s as [m l b IH|l|w f] using step_ind2; intros outer r G R; [| |exact R].
  - cbn [good] in G. destruct G as [G1 G2]. cbn [ops app ok]. split; [exact G1|]. rewrite <- app_assoc. cbn [app].
    assert (K : ok ex (l :: outer) (Rel l :: r)). { cbn [ok dropl]. destruct (lock_eq_dec l l) as [_|N]; [exact R|destruct (N eq_refl)]. }
    revert K. generalize (Rel l :: r) as q. change (goods ex (l :: outer) b) in G2. clear R G1 m r. induction b as [|x b IHb]; intros q K; [exact K|].
    cbn [goods fold_right] in G2. destruct G2 as [Gx Gb]. cbn [flat_map]. rewrite <- app_assoc. apply IH; [left; reflexivity|exact Gx|]. apply IHb; [intros s H; apply IH; right; exact H|exact Gb|exact K].
  - cbn [good] in G. destruct G as (o & -> & Ro). cbn [ops app ok dropl]. destruct (lock_eq_dec l l) as [_|N]; [|destruct (N eq_refl)]. split; [right; exact Ro|exact R].
Qed.
Lemma prog_ok ex x : forall outer r, goods ex outer x -> ok ex outer r -> ok ex outer (flat_map ops x ++ r).
Proof. induction x as [|s x IH]; intros outer r G R; [exact R|]. destruct G as [Gs G]. cbn [flat_map]. rewrite <- app_assoc. apply ops_ok; [exact Gs|]. apply IH; assumption. Qed.

Definition tok (ex : bool) (h : thread) : Prop := ok ex (map fst (t_held h)) (t_todo h).
Lemma serving_ok ex x : many entry x -> tok ex (serving x).
Proof. intros H. unfold tok, serving. cbn [t_held t_todo map]. rewrite <- (app_nil_r (flat_map ops x)). apply prog_ok; [apply within_entry, H|reflexivity]. Qed.
Lemma made_ok ex t e c w : (c = [] \/ (ex = true /\ opt callback c)) -> then_ (work e) thread_end w -> tok ex (made t c w).
Proof.
  intros Hc H. unfold tok, made. cbn [t_held t_todo map fst].
  apply prog_ok; [destruct Hc as [->|[-> Hc]]; [exact Logic.I|apply within_callback, Hc]|].
  cbn [ok dropl]. destruct (lock_eq_dec (Started t) (Started t)) as [_|N]; [|destruct (N eq_refl)].
  apply prog_ok; [apply (within_work ex e), H|]. cbn [ok dropl]. destruct (lock_eq_dec (Thread t) (Thread t)) as [_|N]; [reflexivity|destruct (N eq_refl)].
Qed.

(** ** States *)
Lemma put_eq i h : forall s, i < length s -> nth_error (put i h s) i = Some h.
Proof. induction i as [|i IH]; intros [|x s] L; cbn in *; try lia; [reflexivity|]. apply IH. lia. Qed.
Lemma put_neq i h : forall s j, j <> i -> nth_error (put i h s) j = nth_error s j.
Proof. induction i as [|i IH]; intros [|x s] [|j] N; cbn; try reflexivity; try congruence. apply IH. congruence. Qed.
Lemma put_length i h : forall s, length (put i h s) = length s.
Proof. induction i as [|i IH]; intros [|x s]; cbn; try reflexivity. f_equal. apply IH. Qed.
Lemma put_nth i h s j g : nth_error (put i h s) j = Some g -> (j = i /\ g = h) \/ (j <> i /\ nth_error s j = Some g).
Proof.
  intros H. destruct (Nat.eq_dec j i) as [->|N]; [left|right; rewrite put_neq in H by exact N; auto].
  split; [reflexivity|]. assert (L : i < length s). { rewrite <- (put_length i h s). apply nth_error_Some. congruence. } rewrite put_eq in H by exact L. congruence.
Qed.
Lemma try_nth prefer s i s' : try prefer s i = Some s' -> exists h h', nth_error s i = Some h /\ s' = put i h' s /\
  match t_todo h with
  | [] => False
  | Rel l :: r => h' = mkTh (drop l (t_held h)) false r
  | Tch w f :: r => h' = mkTh (t_held h) false r
  | Acq m l :: r => (free prefer m l s = true /\ h' = mkTh ((l, m) :: t_held h) false r) \/ (t_wait h = false /\ h' = mkTh (t_held h) true (t_todo h))
  end.
Proof.
  unfold try. destruct (nth_error s i) as [h|]; [|discriminate]. destruct (t_todo h) as [|[m l|l|w f] r] eqn:T; [discriminate| | |].
  - destruct (free prefer m l s) eqn:F; [|destruct (t_wait h) eqn:W; [discriminate|]]; intros E; injection E as <-; exists h; eexists; (split; [reflexivity|]); (split; [reflexivity|]); rewrite T; auto.
  - intros E. injection E as <-. exists h. eexists. split; [reflexivity|]. split; [reflexivity|]. rewrite T. reflexivity.
  - intros E. injection E as <-. exists h. eexists. split; [reflexivity|]. split; [reflexivity|]. rewrite T. reflexivity.
Qed.
(** With [ex], nobody holds or is to take the mutex of a node manager exclusively. *)
Definition reading (h : thread) : Prop := forall n, ~ In (NodeMu n, Excl) (t_held h) /\ ~ In (Acq Excl (NodeMu n)) (t_todo h).
Definition sok (ex : bool) (s : state) : Prop := forall i h, nth_error s i = Some h -> tok ex h /\ (ex = true -> reading h).
Lemma drop_incl l h x : In x (drop l h) -> In x h.
Proof. induction h as [|y h IH]; cbn [drop]; [auto|]. destruct (lock_eq_dec (fst y) l); cbn [In]; tauto. Qed.
Lemma try_ok ex prefer s i s' : try prefer s i = Some s' -> sok ex s -> sok ex s'.
Proof.
  intros T K j g G. destruct (try_nth _ _ _ _ T) as (h & h' & H & -> & C). apply put_nth in G. destruct G as [[-> ->]|[_ G]]; [|exact (K _ _ G)].
  destruct (K _ _ H) as [K1 K2]. unfold tok, reading in *. destruct (t_todo h) as [|[m l|l|w f] r]; [destruct C| | |].
  - destruct C as [[_ ->]|[_ ->]]; cbn [t_held t_todo map fst]; [|exact (conj K1 K2)]. split; [exact (proj2 K1)|].
    intros X n. destruct (K2 X n) as [A B]. cbn [In] in *. split; [|tauto]. intros [E|E]; [|tauto]. injection E as -> ->. apply B. left. reflexivity.
  - subst h'. cbn [t_held t_todo]. rewrite drop_fst. split; [exact K1|]. intros X n. destruct (K2 X n) as [A B]. cbn [In] in B. split; [|tauto]. intros E. apply A. exact (drop_incl _ _ _ E).
  - subst h'. cbn [t_held t_todo]. split; [exact K1|]. intros X n. destruct (K2 X n) as [A B]. cbn [In] in B. tauto.
Qed.
Lemma run_ok ex prefer l : forall s s', run prefer l s = Some s' -> sok ex s -> sok ex s'.
Proof. induction l as [|i l IH]; intros s s' R K; cbn [run] in R; [injection R as <-; exact K|]. destruct (try prefer s i) as [s1|] eqn:T; [|discriminate]. exact (IH _ _ R (try_ok _ _ _ _ _ T K)). Qed.

(** ** Waiting *)
Lemma holds_in l m h : holds l m h = true -> In l (map fst (t_held h)).
Proof.
  unfold holds. intros H. apply existsb_exists in H. destruct H as ([k n] & I & H). cbn [fst snd] in H. destruct (lock_eq_dec k l) as [<-|]; [|discriminate H]. apply in_map_iff. exists (k, n). auto.
Qed.
Lemma stuck_head prefer s i h : nth_error s i = Some h -> t_todo h <> [] -> try prefer s i = None ->
  exists m l r j hj, t_todo h = Acq m l :: r /\ t_wait h = true /\ nth_error s j = Some hj /\ blocks prefer m l hj = true.
Proof.
  intros H N T. unfold try in T. rewrite H in T. destruct (t_todo h) as [|[m l|l|w f] r]; [congruence| |discriminate|discriminate]. unfold free in T.
  destruct (existsb (blocks prefer m l) s) eqn:E; cbn [negb] in T; [|discriminate]. destruct (t_wait h) eqn:W; [|discriminate].
  apply existsb_exists in E. destruct E as (hj & I & B). apply In_nth_error in I. destruct I as [j J]. exists m, l, r, j, hj. auto.
Qed.
Lemma holds_pair l m h : holds l m h = true -> In (l, m) (t_held h).
Proof.
  unfold holds. intros H. apply existsb_exists in H. destruct H as ([k n] & I & H). cbn [fst snd] in H. destruct (lock_eq_dec k l) as [<-|]; [|discriminate H]. destruct n, m; try discriminate H; exact I.
Qed.
(** What a stuck thread wants is not exempt from the order. *)
Lemma stuck_order ex prefer s i h m l r j hj : sok ex s -> nth_error s i = Some h -> t_todo h = Acq m l :: r -> nth_error s j = Some hj -> blocks prefer m l hj = true ->
  forall k, In k (map fst (t_held h)) -> rank k < rank l.
Proof.
  intros K H E J B. destruct (K _ _ H) as [O1 _]. unfold tok in O1. rewrite E in O1. destruct O1 as [[(X & -> & n & ->)|O1] _]; [|exact O1].
  exfalso. destruct (proj2 (K _ _ J) X n) as [A1 A2]. unfold blocks in B. apply orb_true_iff in B. destruct B as [B|B]; [exact (A1 (holds_pair _ _ _ B))|].
  apply andb_true_iff in B. destruct B as [_ B]. unfold wants_excl in B. apply andb_true_iff in B. destruct B as [_ B].
  destruct (t_todo hj) as [|[[|] k'|k'|w' f'] rj]; try discriminate B. destruct (lock_eq_dec k' (NodeMu n)) as [->|]; [|discriminate B]. apply A2. left. reflexivity.
Qed.
(** Whom a stuck thread waits for, at once or through a waiting writer: it goes
    on, or a holder of the mutex is next. *)
Lemma stuck_holder prefer s i h : nth_error s i = Some h -> t_todo h <> [] -> try prefer s i = None ->
  exists m l r j hj, t_todo h = Acq m l :: r /\ clos_refl_trans nat (waits_for prefer s) i j /\ nth_error s j = Some hj /\ (try prefer s j <> None \/ In l (map fst (t_held hj))) /\
    exists j0 hj0, nth_error s j0 = Some hj0 /\ blocks prefer m l hj0 = true.
Proof.
  intros H N T. destruct (stuck_head _ _ _ _ H N T) as (m & k & r & j & hj & E & _ & J & B).
  assert (W : waits_for prefer s i j) by (exists h, hj, m, k, r; auto). pose proof B as B0.
  unfold blocks in B. apply orb_true_iff in B.
  assert (C : In k (map fst (t_held hj)) \/ wants_excl k hj = true).
  { destruct B as [B|B]; [left; exact (holds_in _ _ _ B)|]. destruct m; [left; exact (holds_in _ _ _ B)|]. apply andb_true_iff in B. right. apply B. }
  destruct C as [C|C].
  - exists m, k, r, j, hj. split; [exact E|]. split; [apply rt_step; exact W|]. split; [exact J|]. split; [right; exact C|]. exists j, hj. auto.
  - unfold wants_excl in C. apply andb_true_iff in C. destruct C as [Cw C]. destruct (t_todo hj) as [|[[|] k'|k'|w' f'] rj] eqn:Ej; try discriminate C. destruct (lock_eq_dec k' k) as [->|]; [|discriminate C].
    destruct (try prefer s j) as [s'|] eqn:Tj.
    { exists m, k, r, j, hj. split; [exact E|]. split; [apply rt_step; exact W|]. split; [exact J|]. split; [left; rewrite Tj; discriminate|]. exists j, hj. auto. }
    destruct (stuck_head prefer s j hj J ltac:(rewrite Ej; discriminate) Tj) as (m2 & k2 & r2 & j2 & h2 & E2 & _ & J2 & B2). rewrite Ej in E2. injection E2 as <- <- <-.
    assert (W2 : waits_for prefer s j j2) by (exists hj, h2, Excl, k, rj; auto).
    assert (C2 : In k (map fst (t_held h2))) by (unfold blocks in B2; apply orb_true_iff in B2; destruct B2 as [B2|B2]; exact (holds_in _ _ _ B2)).
    exists m, k, r, j2, h2. split; [exact E|]. split; [eapply rt_trans; apply rt_step; [exact W|exact W2]|]. split; [exact J2|]. split; [right; exact C2|]. exists j, hj. auto.
Qed.
Lemma holder_goes ex prefer s : sok ex s -> forall n i h l, nth_error s i = Some h -> In l (map fst (t_held h)) -> 8 - rank l <= n ->
  exists j, clos_refl_trans nat (waits_for prefer s) i j /\ try prefer s j <> None.
Proof.
  intros K. induction n as [|n IH]; intros i h l H I R.
  all: destruct (K _ _ H) as [O1 _]; unfold tok in O1; destruct (try prefer s i) as [s'|] eqn:T; [exists i; split; [apply rt_refl|rewrite T; discriminate]|].
  all: assert (N : t_todo h <> []) by (intros E; rewrite E in O1; cbn [ok] in O1; rewrite O1 in I; destruct I).
  all: destruct (stuck_holder _ _ _ _ H N T) as (m & k & r & j & hj & E & P & J & C & j0 & hj0 & J0 & B0); pose proof (stuck_order _ _ _ _ _ _ _ _ _ _ K H E J0 B0 _ I) as O2; pose proof (rank_max k).
  - exfalso. lia.
  - destruct C as [C|C]; [exists j; auto|]. destruct (IH j hj k J C ltac:(lia)) as (x & X1 & X2). exists x. split; [|exact X2]. eapply rt_trans; [exact P|exact X1].
Qed.
Lemma someone_goes ex prefer s i h : sok ex s -> nth_error s i = Some h -> t_todo h <> [] -> exists j, clos_refl_trans nat (waits_for prefer s) i j /\ try prefer s j <> None.
Proof.
  intros K H N. destruct (try prefer s i) as [s'|] eqn:T; [exists i; split; [apply rt_refl|rewrite T; discriminate]|].
  destruct (stuck_holder _ _ _ _ H N T) as (m & k & r & j & hj & E & P & J & C & _). destruct C as [C|C]; [exists j; auto|].
  destruct (holder_goes ex prefer s K 8 j hj k J C ltac:(lia)) as (x & X1 & X2). exists x. split; [|exact X2]. eapply rt_trans; [exact P|exact X1].
Qed.

(** ** Length of runs *)
Definition left_ (h : thread) : nat := 2 * length (t_todo h) + (if t_wait h then 0 else 1).
Definition lefts (s : state) : nat := fold_right (fun h n => left_ h + n) 0 s.
Lemma put_lefts i h' : forall s h, nth_error s i = Some h -> left_ h' < left_ h -> lefts (put i h' s) < lefts s.
Proof.
  induction i as [|i IH]; intros [|x s] h H L; cbn [nth_error] in H; try discriminate H.
  - injection H as ->. cbn [put lefts fold_right]. lia.
  - cbn [put lefts fold_right]. specialize (IH _ _ H L). unfold lefts in IH. lia.
Qed.
Lemma try_lefts prefer s i s' : try prefer s i = Some s' -> lefts s' < lefts s.
Proof.
  intros T. destruct (try_nth _ _ _ _ T) as (h & h' & H & -> & C). apply (put_lefts i h' s h H). unfold left_.
  destruct (t_todo h) as [|[m l|l|w f] r] eqn:E; [destruct C| | |].
  - destruct C as [[_ ->]|[W ->]]; cbn [t_todo t_wait length]; [destruct (t_wait h); lia|rewrite W; lia].
  - subst h'. cbn [t_todo t_wait length]. destruct (t_wait h); lia.
  - subst h'. cbn [t_todo t_wait length]. destruct (t_wait h); lia.
Qed.
Lemma run_lefts prefer l : forall s s', run prefer l s = Some s' -> length l + lefts s' <= lefts s.
Proof.
  induction l as [|i l IH]; intros s s' R; cbn [run length] in *; [injection R as <-; lia|]. destruct (try prefer s i) as [s1|] eqn:T; [|discriminate].
  apply try_lefts in T. specialize (IH _ _ R). lia.
Qed.

(** ** Exclusion *)
Definition excl (s : state) : Prop := forall i j hi hj l m, nth_error s i = Some hi -> nth_error s j = Some hj -> i <> j -> In (l, Excl) (t_held hi) -> ~ In (l, m) (t_held hj).
Lemma holds_intro l m h : In (l, m) (t_held h) -> holds l m h = true.
Proof. intros I. apply existsb_exists. exists (l, m). split; [exact I|]. cbn [fst snd]. destruct (lock_eq_dec l l) as [_|N]; [|destruct (N eq_refl)]. destruct m; reflexivity. Qed.
Lemma free_not prefer m l s i h n : free prefer m l s = true -> nth_error s i = Some h -> In (l, n) (t_held h) -> m = Shared /\ n = Shared.
Proof.
  unfold free. intros F H I. apply negb_true_iff in F. assert (B : blocks prefer m l h = false).
  { destruct (blocks prefer m l h) eqn:B; [|reflexivity]. rewrite <- F. symmetry. apply existsb_exists. exists h. split; [eapply nth_error_In; exact H|exact B]. }
  unfold blocks in B. apply orb_false_iff in B. destruct B as [B1 B2]. apply holds_intro in I. destruct n; [congruence|]. destruct m; [congruence|auto].
Qed.
Lemma try_excl prefer s i s' : try prefer s i = Some s' -> excl s -> excl s'.
Proof.
  intros T X. destruct (try_nth _ _ _ _ T) as (h & h' & H & -> & C). intros a b ha hb l m Ha Hb N Ia Ib.
  apply put_nth in Ha. apply put_nth in Hb. destruct Ha as [[-> ->]|[Na Ha]]; destruct Hb as [[-> ->]|[Nb Hb]]; [congruence| | |exact (X a b ha hb l m Ha Hb N Ia Ib)].
  - destruct (t_todo h) as [|[m0 l0|l0|w0 f0] r]; [destruct C| | |].
    + destruct C as [[F ->]|[_ ->]]; cbn [t_held] in Ia; [|exact (X _ _ _ _ _ _ H Hb N Ia Ib)]. destruct Ia as [E|Ia]; [|exact (X _ _ _ _ _ _ H Hb N Ia Ib)].
      injection E as -> ->. destruct (free_not _ _ _ _ _ _ _ F Hb Ib). discriminate.
    + subst h'. cbn [t_held] in Ia. exact (X _ _ _ _ _ _ H Hb N (drop_incl _ _ _ Ia) Ib).
    + subst h'. exact (X _ _ _ _ _ _ H Hb N Ia Ib).
  - destruct (t_todo h) as [|[m0 l0|l0|w0 f0] r]; [destruct C| | |].
    + destruct C as [[F ->]|[_ ->]]; cbn [t_held] in Ib; [|exact (X _ _ _ _ _ _ Ha H N Ia Ib)]. destruct Ib as [E|Ib]; [|exact (X _ _ _ _ _ _ Ha H N Ia Ib)].
      injection E as -> ->. destruct (free_not _ _ _ _ _ _ _ F Ha Ia). discriminate.
    + subst h'. cbn [t_held] in Ib. exact (X _ _ _ _ _ _ Ha H N Ia (drop_incl _ _ _ Ib)).
    + subst h'. exact (X _ _ _ _ _ _ Ha H N Ia Ib).
Qed.
Lemma run_excl prefer l : forall s s', run prefer l s = Some s' -> excl s -> excl s'.
Proof. induction l as [|i l IH]; intros s s' R K; cbn [run] in R; [injection R as <-; exact K|]. destruct (try prefer s i) as [s1|] eqn:T; [|discriminate]. exact (IH _ _ R (try_excl _ _ _ _ T K)). Qed.

(** ** Conditions *)
Definition awaiteds (outer : list lock) (x : list step) := flat_map (awaited outer) x.
Definition fair (x : lock * list lock) : Prop := snd x = [fst x] \/ exists n p, fst x = PoolMu p /\ snd x = [PoolMu p; NodeMu n].
Definition fairly (outer : list lock) (P : prog) : Prop := forall x, P x -> Forall fair (awaiteds outer x).
Lemma f_none outer : fairly outer none.
Proof. intros x ->. apply Forall_nil. Qed.
Lemma f_either outer P Q : fairly outer P -> fairly outer Q -> fairly outer (either P Q).
Proof. intros A B x [H|H]; auto. Qed.
Lemma f_then outer P Q : fairly outer P -> fairly outer Q -> fairly outer (then_ P Q).
Proof. intros A B x (a & b & -> & Ha & Hb). unfold awaiteds. rewrite flat_map_app. apply Forall_app. split; [exact (A a Ha)|exact (B b Hb)]. Qed.
Lemma f_many outer P : fairly outer P -> fairly outer (many P).
Proof. intros A x H. induction H as [|a b Ha H IH]; [apply Forall_nil|]. unfold awaiteds. rewrite flat_map_app. apply Forall_app. split; [exact (A a Ha)|exact IH]. Qed.
Lemma f_under outer m l P : fairly (l :: outer) P -> fairly outer (under m l P).
Proof. intros A x (b & -> & Hb). unfold awaiteds. cbn [flat_map awaited]. rewrite app_nil_r. exact (A b Hb). Qed.
Lemma f_await outer l : fair (l, outer) -> fairly outer (await l).
Proof. intros F x ->. apply Forall_cons; [exact F|apply Forall_nil]. Qed.
Lemma f_reads outer f : fairly outer (reads f).
Proof. intros x ->. apply Forall_nil. Qed.
Lemma f_writes outer f : fairly outer (writes f).
Proof. intros x ->. apply Forall_nil. Qed.
Lemma f_some {A} outer (f : A -> prog) : (forall a, fairly outer (f a)) -> fairly outer (some_ f).
Proof. intros H x (a & K). exact (H a x K). Qed.
Ltac fairly_tac := repeat match goal with
  | |- fairly _ none => apply f_none
  | |- fairly _ (either _ _) => apply f_either
  | |- fairly _ (then_ _ _) => apply f_then
  | |- fairly _ (many _) => apply f_many
  | |- fairly _ (some_ _) => apply f_some; intros ?
  | |- fairly _ (under _ _ _) => apply f_under
  | |- fairly _ (reads _) => apply f_reads
  | |- fairly _ (writes _) => apply f_writes
  | |- fairly _ (await _) => apply f_await; first [left; reflexivity|right; eexists; eexists; split; reflexivity]
  | |- fairly _ ?P => let h := match P with ?f _ _ _ => f | ?f _ _ => f | ?f _ => f | ?f => f end in unfold h
  end.
Lemma fairly_entry : fairly [] (many entry).
Proof. fairly_tac. Qed.
Lemma fairly_work e : fairly [] (then_ (work e) thread_end).
Proof. fairly_tac. Qed.
Lemma fairly_callback : fairly [] callback.
Proof. fairly_tac. Qed.

(** ** Beginnings *)
Lemma begins_ok ex (before : prog) s : (forall c, before c -> c = [] \/ (ex = true /\ opt callback c)) -> begins entry before s ->
  (ex = true -> forall i h n, nth_error s i = Some h -> ~ In (Acq Excl (NodeMu n)) (t_todo h)) -> sok ex s.
Proof.
  intros B [K _] R i h H. split.
  - destruct (K _ _ H) as [(x & X & ->)|(t & e & c & w & -> & C & W)]; [apply serving_ok, X|exact (made_ok ex t e c w (B c C) W)].
  - intros X n. split; [|exact (R X i h n H)]. destruct (K _ _ H) as [(x & _ & ->)|(t & e & c & w & -> & _)]; cbn [serving made t_held In]; [tauto|]. intros [E|[E|[]]]; discriminate E.
Qed.
Lemma begins_excl (serve before : prog) s : begins serve before s -> excl s.
Proof.
  intros [K D] i j hi hj l m Hi Hj N Ii Ij.
  destruct (K _ _ Hi) as [(x & _ & ->)|(t & e & c & w & -> & _)]; [destruct Ii|]. destruct (K _ _ Hj) as [(x & _ & ->)|(t' & e' & c' & w' & -> & _)]; [destruct Ij|].
  apply N. assert (t = t').
  { cbn [made t_held In] in Ii, Ij. destruct Ii as [E|[E|[]]]; injection E as <-; destruct Ij as [F|[F|[]]]; congruence. }
  subst t'. exact (D _ _ _ _ _ _ _ Hi Hj).
Qed.
