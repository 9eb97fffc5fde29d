(** Invariant of the Mercury server. *)
From Coq Require Import List NArith ZArith Bool Arith Lia Permutation.
From Verif Require Import Wire_Model Grpc_Model Grpc_Proofs Merc_Model Msrv_Model.
Import ListNotations.
Open Scope nat_scope.

(** * What a handler does, in total *)
Definition script (hs : hscript) : list srv_op :=
  hs_inline hs ++ match hs_work hs with Some w => w | None => [] end.
Definition is_send (o : srv_op) : bool := match o with OSend _ => true | OFree => false end.
Definition sends (l : list srv_op) : nat := length (filter is_send l).
Definition said (l : list srv_op) : list grr := flat_map (fun o => match o with OSend m => [m] | OFree => [] end) l.
Definition frees (l : list srv_op) : nat := length (filter (fun o => negb (is_send o)) l).
(** The contract of C25: at most one response, then the state is freed. *)
Definition tidy (hs : hscript) : Prop := script hs = [OFree] \/ exists m, script hs = [OSend m; OFree].

Lemma filter_count_app {A} (f : A -> bool) a b : length (filter f (a ++ b)) = length (filter f a) + length (filter f b).
Proof. rewrite filter_app, app_length. reflexivity. Qed.
Lemma sends_app a b : sends (a ++ b) = sends a + sends b.
Proof. apply filter_count_app. Qed.
Lemma said_app a b : said (a ++ b) = said a ++ said b.
Proof. unfold said. rewrite !flat_map_concat_map, map_app, concat_app. reflexivity. Qed.
Lemma said_sends l : length (said l) = sends l.
Proof. induction l as [|[m|] l IH]; [reflexivity| |]; unfold sends in *; cbn [said flat_map app length filter is_send] in *; fold (said l); rewrite ?IH; reflexivity. Qed.
Lemma frees_app a b : frees (a ++ b) = frees a + frees b.
Proof. apply filter_count_app. Qed.

Lemma nth_snoc {A} (l : list A) x j y : nth_error (l ++ [x]) j = Some y -> nth_error l j = Some y \/ (j = length l /\ y = x).
Proof.
  intros E. destruct (Nat.lt_ge_cases j (length l)).
  - rewrite nth_error_app1 in E by assumption. auto.
  - rewrite nth_error_app2 in E by assumption. destruct (j - length l) as [|k] eqn:D.
    + injection E as <-. right. split; [lia|reflexivity].
    + destruct k; discriminate.
Qed.
Lemma nth_lt {A} (l : list A) i x : nth_error l i = Some x -> i < length l.
Proof. intros E. apply nth_error_Some. congruence. Qed.

Lemma lset_fst {B} (l : list (nat * B)) : forall n i x y, nth_error l n = Some (i, x) -> map fst (lset n (i, y) l) = map fst l.
Proof.
  induction l as [|[j z] l IH]; intros [|n] i x y E; try discriminate; cbn [nth_error lset map fst] in *.
  - injection E as -> ->. reflexivity.
  - f_equal. eapply IH; eassumption.
Qed.
Lemma lset_in {A} (l : list A) : forall n x y, In y (lset n x l) -> In y l \/ (y = x /\ n < length l).
Proof.
  induction l as [|z l IH]; intros [|n] x y H; cbn [lset] in H; try (destruct H; fail).
  - destruct H as [<-|H]; [right; split; [reflexivity|cbn; lia]|left; right; exact H].
  - destruct H as [<-|H]; [left; left; reflexivity|]. apply IH in H as [H|[-> L]]; [left; right; exact H|right; cbn; split; [reflexivity|lia]].
Qed.
Lemma lset_keep {A} (l : list A) : forall n x y z, nth_error l n = Some z -> In y l -> y <> z -> In y (lset n x l).
Proof.
  induction l as [|u l IH]; intros [|n] x y z E H N; try discriminate; cbn [nth_error lset] in *.
  - injection E as ->. destruct H as [->|H]; [congruence|right; exact H].
  - destruct H as [->|H]; [left; reflexivity|right; eapply IH; eassumption].
Qed.
Lemma lset_at {A} (l : list A) : forall n x z, nth_error l n = Some z -> In x (lset n x l).
Proof.
  induction l as [|u l IH]; intros [|n] x z E; try discriminate; cbn [nth_error lset] in *; [left; reflexivity|right; eauto].
Qed.
Lemma ldrop_perm {A} (l : list A) : forall n x, nth_error l n = Some x -> Permutation l (x :: ldrop n l).
Proof.
  induction l as [|u l IH]; intros [|n] x E; try discriminate; cbn [nth_error ldrop] in *.
  - injection E as ->. reflexivity.
  - rewrite (IH n x E) at 1. apply perm_swap.
Qed.

Lemma nodup_fst {B} (l : list (nat * B)) i x y : NoDup (map fst l) -> In (i, x) l -> In (i, y) l -> x = y.
Proof.
  induction l as [|[j z] l IH]; intros ND K K2; [destruct K|]. cbn [map fst] in ND. inversion ND as [|? ? Nj NDl]; subst.
  destruct K as [K|K], K2 as [K2|K2].
  - congruence.
  - injection K as -> ->. exfalso. apply Nj. apply in_map_iff. exists (i, y). auto.
  - injection K2 as -> ->. exfalso. apply Nj. apply in_map_iff. exists (i, x). auto.
  - apply IH; auto.
Qed.

Section Server.
Variable b : build.
Variable mem : N.
Variable h : nat -> option grr -> hscript.

(** Who still has to work on which request. *)
Definition holders (s : msrv) : list (nat * list srv_op) :=
  (match sv_poller s with SpIn i ops w => [(i, ops ++ match w with Some x => x | None => [] end)] | _ => [] end) ++ sv_tasks s.

Definition of_req (i : nat) (p : mresp) : bool := Nat.eqb (rp_req p) i.
(** The messages given to HG_Respond for request [i]. *)
Definition sent_for (i : nat) (l : list mresp) : list grr := map rp_msg (filter (of_req i) l).

Definition part (rs : list mresp) (i : nat) (r : mreq) (left : list srv_op) : Prop :=
  exists pre, script (h i (rq_seen r)) = pre ++ left /\ sent_for i rs = said pre /\ rq_freed r = frees pre.

Definition is_respond (c : lib_call) : Prop := match c with LRespond _ => True | _ => False end.

Record sinv (s : msrv) : Prop := mkSinv {
  i_nodup : NoDup (map fst (holders s));
  i_hold : forall i ops, In (i, ops) (holders s) -> exists r, nth_error (sv_reqs s) i = Some r /\ part (sv_resps s) i r ops;
  i_rest : forall i r, nth_error (sv_reqs s) i = Some r -> ~ In i (map fst (holders s)) -> part (sv_resps s) i r [];
  i_req : forall i r, nth_error (sv_reqs s) i = Some r ->
            server_request mem (rq_wire r) = SrvRequest (rq_seen r) /\
            exists l, rq_lib r = l ++ [LDestroy; LFreeInput; LGetInput] /\ Forall is_respond l;
  i_task : forall i ops, In (i, ops) (sv_tasks s) ->
            exists r w pre, nth_error (sv_reqs s) i = Some r /\ hs_work (h i (rq_seen r)) = Some w /\ w = pre ++ ops;
  i_in : forall i ops w, sv_poller s = SpIn i ops w ->
            exists r pre, nth_error (sv_reqs s) i = Some r /\ hs_work (h i (rq_seen r)) = w /\ hs_inline (h i (rq_seen r)) = pre ++ ops;
  i_count : forall i r, nth_error (sv_reqs s) i = Some r -> responds (rq_lib r) = length (filter (of_req i) (sv_resps s));
  i_range : forall p, In p (sv_resps s) -> rp_req p < length (sv_reqs s) /\ rp_at p <= sv_progress s;
  i_notif : sv_notified s = match sv_shut s with ShNot => false | _ => true end;
  i_exit : sv_poller s = SpExited -> sv_notified s = true;
  i_shut : match sv_shut s with
           | ShNot | ShJoin => True
           | ShPool => sv_poller s = SpExited
           | ShDone => sv_poller s = SpExited /\ sv_tasks s = []
           end }.

Lemma sinv_start : sinv sstart.
Proof.
  constructor; cbn; try discriminate; try tauto; try (intros; contradiction).
  - constructor.
  - intros [|i] r; discriminate.
  - intros [|i] r; discriminate.
  - intros [|i] r; discriminate.
Qed.

(** The effect of one operation. *)
Definition after_op (o : srv_op) (ok : bool) (r : mreq) : mreq :=
  match o with
  | OSend _ => mkMreq (rq_wire r) (rq_seen r) (LRespond ok :: rq_lib r) (rq_freed r)
  | OFree => mkMreq (rq_wire r) (rq_seen r) (rq_lib r) (S (rq_freed r))
  end.
Definition new_resps (i : nat) (o : srv_op) (ok : bool) (s : msrv) : list mresp :=
  match o with
  | OSend m => sv_resps s ++ [mkMresp i m (sv_progress s) (if ok then RPosted else RRefused)]
  | OFree => sv_resps s
  end.
Lemma use_state_next i o ok s s' : use_state b i o ok s = SvNext s' ->
  exists r, nth_error (sv_reqs s) i = Some r /\ rq_freed r = 0 /\
    s' = mkMsrv (sv_set s) (lset i (after_op o ok r) (sv_reqs s)) (new_resps i o ok s) (sv_tasks s) (sv_poller s)
                (sv_progress s) (sv_notified s) (sv_shut s).
Proof.
  unfold use_state. destruct (nth_error (sv_reqs s) i) as [r|]; [|discriminate].
  destruct (Nat.eqb_spec (rq_freed r) 0) as [F|]; cbn [negb]; [|discriminate].
  destruct o as [m|]; [destruct (_ && _); [discriminate|]|]; intros [= <-]; exists r; auto.
Qed.

Lemma sent_for_snoc i l p : sent_for i (l ++ [p]) = sent_for i l ++ (if Nat.eqb (rp_req p) i then [rp_msg p] else []).
Proof.
  unfold sent_for. rewrite filter_app, map_app. cbn [filter]. unfold of_req at 2. destruct (Nat.eqb (rp_req p) i); reflexivity.
Qed.
Lemma part_step s i r o ok ops : part (sv_resps s) i r (o :: ops) -> part (new_resps i o ok s) i (after_op o ok r) ops.
Proof.
  intros (pre & E & R & F). exists (pre ++ [o]). rewrite said_app, frees_app.
  assert (rq_seen (after_op o ok r) = rq_seen r) as -> by (destruct o; reflexivity).
  rewrite <- app_assoc. split; [exact E|].
  destruct o as [m|]; cbn [after_op rq_lib rq_freed new_resps].
  - rewrite sent_for_snoc. cbn [rp_req rp_msg]. rewrite Nat.eqb_refl, R. split; [reflexivity|].
    unfold frees in *. cbn. lia.
  - rewrite R. split; [symmetry; apply app_nil_r|]. unfold frees in *. cbn. lia.
Qed.
Lemma part_other s i j q o ok ops : j <> i -> part (sv_resps s) j q ops -> part (new_resps i o ok s) j q ops.
Proof.
  intros D (pre & E & R & F). exists pre. split; [exact E|]. split; [|exact F]. destruct o as [m|]; [|exact R].
  cbn [new_resps]. rewrite sent_for_snoc. cbn [rp_req]. destruct (Nat.eqb_spec i j); [congruence|].
  rewrite app_nil_r. exact R.
Qed.

Lemma sinv_use i o ops ok s s1 s' : sinv s -> In (i, o :: ops) (holders s) ->
  sv_reqs s1 = sv_reqs s -> sv_resps s1 = sv_resps s -> sv_progress s1 = sv_progress s ->
  sv_notified s1 = sv_notified s -> sv_shut s1 = sv_shut s ->
  NoDup (map fst (holders s1)) ->
  (forall j x, In (j, x) (holders s1) -> (j = i /\ x = ops) \/ (j <> i /\ In (j, x) (holders s))) ->
  (forall j, In j (map fst (holders s)) -> In j (map fst (holders s1))) ->
  (forall j x, In (j, x) (sv_tasks s1) -> (exists y, In (j, y ++ x) (sv_tasks s))) ->
  (forall j x w, sv_poller s1 = SpIn j x w -> exists y, sv_poller s = SpIn j (y ++ x) w) ->
  (sv_poller s1 = SpExited <-> sv_poller s = SpExited) ->
  (sv_tasks s = [] -> sv_tasks s1 = []) ->
  use_state b i o ok s1 = SvNext s' -> sinv s'.
Proof.
  intros V Hi Er Es Ep En Eh ND Hin Hsup Ht Hp Hx Htn U.
  apply use_state_next in U as (r & Nr & Fr & ->). rewrite Er in Nr.
  assert (Hd : forall t rs rq, holders (mkMsrv t rq rs (sv_tasks s1) (sv_poller s1) (sv_progress s1) (sv_notified s1) (sv_shut s1)) = holders s1)
    by reflexivity.
  destruct (i_hold _ V _ _ Hi) as (r0 & Nr0 & P0). rewrite Nr in Nr0. injection Nr0 as <-.
  assert (Nw : new_resps i o ok s1 = new_resps i o ok s) by (unfold new_resps; rewrite Es, Ep; reflexivity).
  assert (Sn : rq_seen (after_op o ok r) = rq_seen r) by (destruct o; reflexivity).
  assert (Wr : rq_wire (after_op o ok r) = rq_wire r) by (destruct o; reflexivity).
  assert (Look : forall j q, nth_error (lset i (after_op o ok r) (sv_reqs s1)) j = Some q ->
     (j = i /\ q = after_op o ok r) \/ (j <> i /\ nth_error (sv_reqs s) j = Some q))
    by (intros j q Q; rewrite Er in Q; apply lset_inv in Q; exact Q).
  assert (Look' : forall j q, nth_error (sv_reqs s) j = Some q ->
     exists q', nth_error (lset i (after_op o ok r) (sv_reqs s1)) j = Some q' /\ rq_seen q' = rq_seen q).
  { intros j q Q. rewrite Er. destruct (Nat.eq_dec j i) as [->|D].
    - exists (after_op o ok r). split; [eapply lset_eq; eassumption|]. rewrite Nr in Q. injection Q as <-. exact Sn.
    - exists q. split; [rewrite lset_neq by assumption; exact Q|reflexivity]. }
  constructor; cbn [sv_reqs sv_resps sv_tasks sv_poller sv_progress sv_notified sv_shut]; rewrite ?Hd.
  - exact ND.
  - intros j x K. apply Hin in K as [[-> ->]|[D K]].
    + exists (after_op o ok r). rewrite Er. split; [eapply lset_eq; eassumption|rewrite Nw; apply part_step, P0].
    + destruct (i_hold _ V _ _ K) as (q & Nq & Pq). exists q. rewrite Er. split; [rewrite lset_neq by assumption; exact Nq|rewrite Nw; apply part_other; assumption].
  - intros j q Nq Nin. apply Look in Nq as [[-> ->]|[D Nq]].
    + exfalso. apply Nin, Hsup. apply in_map_iff. exists (i, o :: ops). auto.
    + rewrite Nw. apply part_other; [exact D|]. eapply (i_rest _ V); [exact Nq|]. intros K. apply Nin, Hsup, K.
  - intros j q Nq. apply Look in Nq as [[-> ->]|[D Nq]]; [|apply (i_req _ V _ _ Nq)].
    destruct (i_req _ V _ _ Nr) as (A & l & B & C). rewrite Wr, Sn. split; [exact A|].
    destruct o as [m|]; cbn [after_op rq_lib]; [|eauto]. exists (LRespond ok :: l). rewrite B. split; [reflexivity|].
    constructor; [exact Logic.I|exact C].
  - intros j x K. apply Ht in K as (y & K). destruct (i_task _ V _ _ K) as (q & w & pre & Nq & Wq & Eq).
    destruct (Look' _ _ Nq) as (q' & Nq' & Sq). exists q', w, (pre ++ y). rewrite Sq, <- app_assoc. auto.
  - intros j x w K. apply Hp in K as (y & K). destruct (i_in _ V _ _ _ K) as (q & pre & Nq & Wq & Eq).
    destruct (Look' _ _ Nq) as (q' & Nq' & Sq). exists q', (pre ++ y). rewrite Sq, <- app_assoc. auto.
  - intros j q Nq. apply Look in Nq as [[-> ->]|[D Nq]].
    + unfold new_resps. rewrite Es. pose proof (i_count _ V _ _ Nr) as C. destruct o as [m|]; cbn [after_op rq_lib].
      * rewrite filter_count_app. unfold responds in *. cbn [filter length]. unfold of_req at 2. cbn [rp_req].
        rewrite Nat.eqb_refl. cbn [length]. lia.
      * exact C.
    + unfold new_resps. rewrite Es. pose proof (i_count _ V _ _ Nq) as C. destruct o as [m|]; [|exact C].
      rewrite filter_count_app. cbn [filter]. unfold of_req at 2. cbn [rp_req].
      destruct (Nat.eqb_spec i j); [congruence|]. cbn [length]. lia.
  - intros p K. rewrite lset_length, Er, Ep. unfold new_resps in K. rewrite Es, Ep in K.
    destruct o as [m|]; [|apply (i_range _ V _ K)]. apply in_app_or in K as [K|[<-|[]]]; [apply (i_range _ V _ K)|].
    cbn [rp_req rp_at]. split; [eapply nth_lt; exact Nr|lia].
  - rewrite En, Eh. apply (i_notif _ V).
  - rewrite Hx, En. apply (i_exit _ V).
  - rewrite Eh. pose proof (i_shut _ V) as K. destruct (sv_shut s); auto; rewrite Hx; tauto.
Qed.

Lemma send_some_req sent l : forall k, map (fun p => (rp_req p, rp_msg p)) (send_some sent k l) = map (fun p => (rp_req p, rp_msg p)) l.
Proof.
  induction l as [|p l IH]; intros k; [reflexivity|]. cbn [send_some map]. f_equal; [|apply IH].
  destruct (rp_phase p); try reflexivity. destruct (existsb _ _); reflexivity.
Qed.
Lemma send_some_in sent l : forall k p, In p (send_some sent k l) ->
  exists q, In q l /\ rp_req p = rp_req q /\ rp_at p = rp_at q /\ rp_msg p = rp_msg q.
Proof.
  induction l as [|q l IH]; intros k p H; [destruct H|]. cbn [send_some] in H. destruct H as [<-|H].
  - exists q. split; [left; reflexivity|]. destruct (rp_phase q); auto. destruct (existsb _ _); auto.
  - apply IH in H as (q' & H & E). exists q'. split; [right; exact H|exact E].
Qed.
Lemma count_req l : forall i, length (filter (of_req i) l) = length (filter (fun x => Nat.eqb x i) (map rp_req l)).
Proof.
  induction l as [|p l IH]; intros i; [reflexivity|]. cbn [filter map]. unfold of_req at 1.
  destruct (Nat.eqb (rp_req p) i); cbn [length]; rewrite IH; reflexivity.
Qed.

Lemma sent_for_ext i : forall l l', map (fun p => (rp_req p, rp_msg p)) l = map (fun p => (rp_req p, rp_msg p)) l' ->
  sent_for i l = sent_for i l'.
Proof.
  induction l as [|p l IH]; intros [|q l'] E; try discriminate; [reflexivity|]. cbn [map] in E. injection E as E1 E2 E3.
  unfold sent_for in *. cbn [filter]. replace (of_req i p) with (of_req i q) by (unfold of_req; rewrite E1; reflexivity).
  destruct (of_req i q); cbn [map]; rewrite (IH _ E3), ?E2; reflexivity.
Qed.
(** Steps that leave requests, holders, poller exit and shutdown alone. *)
Lemma sinv_same s s' : sinv s -> sv_reqs s' = sv_reqs s -> sv_tasks s' = sv_tasks s ->
  holders s' = holders s ->
  map (fun p => (rp_req p, rp_msg p)) (sv_resps s') = map (fun p => (rp_req p, rp_msg p)) (sv_resps s) ->
  (forall p, In p (sv_resps s') -> rp_at p <= sv_progress s') ->
  (forall i ops w, sv_poller s' = SpIn i ops w -> sv_poller s = SpIn i ops w) ->
  sv_notified s' = match sv_shut s' with ShNot => false | _ => true end ->
  (sv_poller s' = SpExited -> sv_notified s' = true) ->
  match sv_shut s' with ShNot | ShJoin => True | ShPool => sv_poller s' = SpExited
                      | ShDone => sv_poller s' = SpExited /\ sv_tasks s' = [] end -> sinv s'.
Proof.
  intros V Er Et Eh Em Ra Hp N X S'.
  assert (Sf : forall i, sent_for i (sv_resps s') = sent_for i (sv_resps s)) by (intros i; apply sent_for_ext, Em).
  assert (Em' : map rp_req (sv_resps s') = map rp_req (sv_resps s))
    by (apply (f_equal (map fst)) in Em; rewrite !map_map in Em; exact Em).
  assert (Pt : forall i r l, part (sv_resps s) i r l -> part (sv_resps s') i r l)
    by (intros i r l (pre & A & B & C); exists pre; rewrite Sf; auto).
  constructor; rewrite ?Er, ?Et, ?Eh; try apply V; auto.
  - intros i ops K. destruct (i_hold _ V _ _ K) as (r & Nr & Pr). eauto.
  - intros i r Nr K. apply Pt. apply (i_rest _ V _ _ Nr K).
  - intros i ops w K. apply Hp in K. apply (i_in _ V _ _ _ K).
  - intros i r Nr. rewrite count_req, Em', <- count_req. apply (i_count _ V _ _ Nr).
  - intros p K. split; [|auto]. assert (M : In (rp_req p) (map rp_req (sv_resps s))) by (rewrite <- Em'; apply in_map, K).
    apply in_map_iff in M as (q & <- & Kq). apply (i_range _ V _ Kq).
  - rewrite Et in S'. exact S'.
Qed.

Lemma lset_map {A B} (f : A -> B) l : forall k x y, nth_error l k = Some y -> f x = f y -> map f (lset k x l) = map f l.
Proof.
  induction l as [|z l IH]; intros [|k] x y E F; try discriminate; cbn [nth_error lset map] in *.
  - injection E as ->. rewrite F. reflexivity.
  - f_equal. eapply IH; eassumption.
Qed.

Lemma sinv_step a s s' : sinv s -> sstep b mem h a s = SvNext s' -> sinv s'.
Proof.
  intros V E. destruct a as [| |t|ok|sent|n ok|]; cbn [sstep] in E.
  - destruct (sv_shut s) eqn:Sh; try discriminate. injection E as <-.
    apply (sinv_same s); try reflexivity; try assumption; cbn [sv_resps sv_progress sv_poller sv_notified sv_shut].
    + intros p K. apply (i_range _ V _ K).
    + auto.
    + rewrite (i_notif _ V), Sh. reflexivity.
    + apply (i_exit _ V).
  - destruct (sv_poller s) eqn:P; try discriminate. injection E as <-.
    apply (sinv_same s); try reflexivity; try assumption; cbn [sset_poller sv_resps sv_progress sv_poller sv_notified sv_shut].
    + unfold holders. cbn [sset_poller sv_poller sv_tasks]. rewrite P. destruct (sv_notified s); reflexivity.
    + intros p K. apply (i_range _ V _ K).
    + intros i ops w. destruct (sv_notified s); discriminate.
    + apply (i_notif _ V).
    + destruct (sv_notified s); [auto|discriminate].
    + pose proof (i_shut _ V) as K. rewrite P in K. destruct (sv_shut s); auto; [discriminate|destruct K; discriminate].
  - destruct (sv_poller s) eqn:P; try discriminate.
    assert (Sh : match sv_shut s with ShNot | ShJoin => True | _ => False end)
      by (pose proof (i_shut _ V) as K; rewrite P in K; destruct (sv_shut s); auto; [discriminate|destruct K; discriminate]).
    destruct t as [|wire|k]; cbn [do_trigger] in E.
    + injection E as <-.
      apply (sinv_same s); try reflexivity; try assumption; cbn [sset_poller sv_resps sv_progress sv_poller sv_notified sv_shut].
      * unfold holders. cbn [sset_poller sv_poller sv_tasks]. rewrite P. reflexivity.
      * intros p K. apply (i_range _ V _ K).
      * discriminate.
      * apply (i_notif _ V).
      * discriminate.
      * destruct (sv_shut s); auto; contradiction.
    + unfold request_callback in E. destruct (server_request mem wire) as [|m] eqn:SR; [discriminate|].
      destruct (sv_set s); cbn [negb] in E; [|discriminate]. injection E as <-. cbv zeta.
      set (i := length (sv_reqs s)). set (hs := h i m).
      assert (H0 : holders s = sv_tasks s) by (unfold holders; rewrite P; reflexivity).
      assert (Fresh : forall j x, In (j, x) (sv_tasks s) -> j < i).
      { intros j x K. rewrite <- H0 in K. destruct (i_hold _ V _ _ K) as (r & Nr & _). eapply nth_lt, Nr. }
      assert (Ef : filter (of_req i) (sv_resps s) = []).
      { assert (Z0 : forall p, In p (sv_resps s) -> of_req i p = false).
        { intros p K. unfold of_req. apply Nat.eqb_neq. pose proof (i_range _ V _ K). unfold i. lia. }
        induction (sv_resps s) as [|p l IH]; [reflexivity|]. cbn [filter]. rewrite Z0 by (left; reflexivity).
        apply IH. intros q K. apply Z0. right. exact K. }
      assert (Em : sent_for i (sv_resps s) = []) by (unfold sent_for; rewrite Ef; reflexivity).
      constructor; cbn [sv_reqs sv_resps sv_tasks sv_poller sv_progress sv_notified sv_shut];
        try (unfold holders; cbn [sv_poller sv_tasks app map fst]).
      * constructor; [|pose proof (i_nodup _ V) as Q; rewrite H0 in Q; exact Q].
        intros K. apply in_map_iff in K as ([j x] & <- & K). apply Fresh in K. cbn [fst] in K. lia.
      * intros j x [K|K].
        -- injection K as <- <-. exists (mkMreq wire m [LDestroy; LFreeInput; LGetInput] 0). split.
           ++ unfold i. rewrite nth_error_app2, Nat.sub_diag by lia. reflexivity.
           ++ exists []. rewrite Em. auto.
        -- pose proof (Fresh _ _ K). rewrite <- H0 in K. destruct (i_hold _ V _ _ K) as (r & Nr & Pr). exists r.
           split; [rewrite nth_error_app1 by assumption; exact Nr|exact Pr].
      * intros j r Nr Nin. apply nth_snoc in Nr as [Nr|[-> ->]]; [|destruct Nin; left; reflexivity].
        apply (i_rest _ V _ _ Nr). rewrite H0. intros K. apply Nin. right. exact K.
      * intros j r Nr. apply nth_snoc in Nr as [Nr|[-> ->]]; [apply (i_req _ V _ _ Nr)|].
        split; [exact SR|]. exists []. split; [reflexivity|constructor].
      * intros j x K. destruct (i_task _ V _ _ K) as (r & w & pre & Nr & Wr & Er). exists r, w, pre.
        split; [rewrite nth_error_app1 by (eapply Fresh; eassumption); exact Nr|auto].
      * intros j x w K. injection K as <- <- <-. exists (mkMreq wire m [LDestroy; LFreeInput; LGetInput] 0), [].
        split; [unfold i; rewrite nth_error_app2, Nat.sub_diag by lia; reflexivity|]. auto.
      * intros j r Nr. apply nth_snoc in Nr as [Nr|[-> ->]]; [apply (i_count _ V _ _ Nr)|].
        fold i. rewrite Ef. reflexivity.
      * intros p K. rewrite app_length. cbn [length]. pose proof (i_range _ V _ K). lia.
      * apply (i_notif _ V).
      * discriminate.
      * destruct (sv_shut s); auto; contradiction.
    + destruct (nth_error (sv_resps s) k) as [r|] eqn:Nk; [|discriminate]. destruct (rp_phase r); try discriminate.
      injection E as <-.
      apply (sinv_same s); try reflexivity; try assumption;
        cbn [sset_poller sset_resps sv_resps sv_progress sv_poller sv_notified sv_shut].
      * unfold holders. cbn [sset_poller sset_resps sv_poller sv_tasks]. rewrite P. reflexivity.
      * eapply lset_map; [exact Nk|reflexivity].
      * intros p K. apply lset_in in K as [K|[-> _]]; [apply (i_range _ V _ K)|].
        cbn [rp_at]. apply nth_error_In in Nk. apply (i_range _ V _ Nk).
      * discriminate.
      * apply (i_notif _ V).
      * discriminate.
      * destruct (sv_shut s); auto; contradiction.
  - destruct (sv_poller s) as [| |i [|o ops] w| |] eqn:P; try discriminate.
    + assert (Sh : match sv_shut s with ShNot | ShJoin => True | _ => False end)
        by (pose proof (i_shut _ V) as K; rewrite P in K; destruct (sv_shut s); auto; [discriminate|destruct K; discriminate]).
      destruct (i_in _ V _ _ _ P) as (r & pre & Nr & Wr & Er).
      assert (H0 : holders s = (i, match w with Some x => x | None => [] end) :: sv_tasks s) by (unfold holders; rewrite P; reflexivity).
      pose proof (i_nodup _ V) as ND. rewrite H0 in ND. cbn [map fst] in ND. inversion ND as [|? ? Ni NDt]; subst.
      destruct (i_hold _ V i (match hs_work (h i (rq_seen r)) with Some x => x | None => [] end)) as (r' & Nr' & Pr);
        [rewrite H0; left; reflexivity|]. rewrite Nr in Nr'. injection Nr' as <-.
      destruct (hs_work (h i (rq_seen r))) as [w|] eqn:W; injection E as <-.
      * constructor; cbn [sset_poller sset_tasks sv_reqs sv_resps sv_tasks sv_poller sv_progress sv_notified sv_shut];
          try (unfold holders; cbn [sset_poller sset_tasks sv_poller sv_tasks app]).
        -- rewrite map_app. cbn [map fst]. apply (Permutation_NoDup (l := i :: map fst (sv_tasks s))); [|constructor; assumption].
           apply Permutation_cons_append.
        -- intros j x K. apply (i_hold _ V). rewrite H0. apply in_app_or in K as [K|[K|[]]]; [right; exact K|left; exact K].
        -- intros j q Nq Nin. apply (i_rest _ V _ _ Nq). rewrite H0. intros K. apply Nin. rewrite map_app. cbn [map fst] in *.
           apply in_or_app. destruct K as [K|K]; [right; left; exact K|left; exact K].
        -- apply (i_req _ V).
        -- intros j x K. apply in_app_or in K as [K|[K|[]]]; [apply (i_task _ V _ _ K)|]. injection K as <- <-.
           exists r, w, []. auto.
        -- discriminate.
        -- apply (i_count _ V).
        -- apply (i_range _ V).
        -- apply (i_notif _ V).
        -- discriminate.
        -- destruct (sv_shut s); auto; contradiction.
      * constructor; cbn [sset_poller sv_reqs sv_resps sv_tasks sv_poller sv_progress sv_notified sv_shut];
          try (unfold holders; cbn [sset_poller sv_poller sv_tasks app]).
        -- exact NDt.
        -- intros j x K. apply (i_hold _ V). rewrite H0. right. exact K.
        -- intros j q Nq Nin. destruct (Nat.eq_dec j i) as [->|D].
           ++ rewrite Nr in Nq. injection Nq as <-. exact Pr.
           ++ apply (i_rest _ V _ _ Nq). rewrite H0. cbn [map fst]. intros [K|K]; [congruence|contradiction].
        -- apply (i_req _ V).
        -- apply (i_task _ V).
        -- discriminate.
        -- apply (i_count _ V).
        -- apply (i_range _ V).
        -- apply (i_notif _ V).
        -- discriminate.
        -- destruct (sv_shut s); auto; contradiction.
    + assert (H0 : holders s = (i, o :: ops ++ match w with Some x => x | None => [] end) :: sv_tasks s)
        by (unfold holders; rewrite P; reflexivity).
      eapply (sinv_use i o (ops ++ match w with Some x => x | None => [] end) ok s (sset_poller (SpIn i ops w) s));
        try reflexivity; try exact E; try exact V.
      * rewrite H0. left. reflexivity.
      * pose proof (i_nodup _ V) as ND. rewrite H0 in ND. exact ND.
      * pose proof (i_nodup _ V) as ND. rewrite H0 in ND. cbn [map fst] in ND. inversion ND as [|? ? Ni NDt]; subst.
        intros j x [K|K]; [injection K as <- <-; auto|]. right. split.
        -- intros ->. apply Ni. apply in_map_iff. exists (i, x). auto.
        -- rewrite H0. right. exact K.
      * rewrite H0. intros j K. exact K.
      * intros j x K. exists []. exact K.
      * intros j x w' K. cbn [sset_poller sv_poller] in K. injection K as <- <- <-. exists [o]. exact P.
      * cbn [sset_poller sv_poller]. rewrite P. split; discriminate.
      * auto.
  - destruct (sv_poller s) eqn:P; try discriminate. injection E as <-.
    apply (sinv_same s); try reflexivity; try assumption; cbn [sv_resps sv_progress sv_poller sv_notified sv_shut].
    + unfold holders. cbn [sv_poller sv_tasks]. rewrite P. reflexivity.
    + apply send_some_req.
    + intros p K. apply send_some_in in K as (q & K & _ & -> & _). pose proof (i_range _ V _ K). lia.
    + discriminate.
    + apply (i_notif _ V).
    + discriminate.
    + pose proof (i_shut _ V) as K. rewrite P in K. destruct (sv_shut s); auto; [discriminate|destruct K; discriminate].
  - destruct (nth_error (sv_tasks s) n) as [[i [|o ops]]|] eqn:T; try discriminate.
    + injection E as <-. pose proof (ldrop_perm _ _ _ T) as Pm.
      set (hd := match sv_poller s with SpIn i ops w => [(i, ops ++ match w with Some x => x | None => [] end)] | _ => [] end).
      assert (Ph : Permutation (holders s) ((i, []) :: hd ++ ldrop n (sv_tasks s))).
      { unfold holders. fold hd. rewrite Pm at 1. symmetry. apply Permutation_middle. }
      assert (ND : NoDup (i :: map fst (hd ++ ldrop n (sv_tasks s)))).
      { apply (Permutation_NoDup (l := map fst (holders s))); [|apply (i_nodup _ V)].
        rewrite (Permutation_map fst Ph). reflexivity. }
      inversion ND as [|? ? Ni NDt]; subst.
      constructor; cbn [sset_tasks sv_reqs sv_resps sv_tasks sv_poller sv_progress sv_notified sv_shut];
          try (unfold holders; cbn [sset_tasks sv_poller sv_tasks]; fold hd).
      * exact NDt.
      * intros j x K. apply (i_hold _ V). apply (Permutation_in _ (Permutation_sym Ph)). right. exact K.
      * intros j q Nq Nin. destruct (Nat.eq_dec j i) as [->|D].
        -- destruct (i_hold _ V i []) as (r & Nr & Pr); [apply (Permutation_in _ (Permutation_sym Ph)); left; reflexivity|].
           rewrite Nq in Nr. injection Nr as <-. exact Pr.
        -- apply (i_rest _ V _ _ Nq). intros K. apply (Permutation_in _ (Permutation_map fst Ph)) in K.
           cbn [map fst] in K. destruct K as [K|K]; [congruence|contradiction].
      * apply (i_req _ V).
      * intros j x K. apply (i_task _ V). apply (Permutation_in _ (Permutation_sym Pm)). right. exact K.
      * apply (i_in _ V).
      * apply (i_count _ V).
      * apply (i_range _ V).
      * apply (i_notif _ V).
      * apply (i_exit _ V).
      * pose proof (i_shut _ V) as K. destruct (sv_shut s); auto. destruct K as [K1 K2]. rewrite K2 in T. destruct n; discriminate.
    + set (hd := match sv_poller s with SpIn i ops w => [(i, ops ++ match w with Some x => x | None => [] end)] | _ => [] end).
      assert (Hh : holders s = hd ++ sv_tasks s) by reflexivity.
      assert (Hh1 : holders (sset_tasks (lset n (i, ops) (sv_tasks s)) s) = hd ++ lset n (i, ops) (sv_tasks s)) by reflexivity.
      assert (Fs : map fst (hd ++ lset n (i, ops) (sv_tasks s)) = map fst (holders s)).
      { rewrite Hh, !map_app. f_equal. eapply lset_fst; eassumption. }
      pose proof (nth_error_In _ _ T) as Ti.
      assert (Uniq : forall x, In (i, x) (holders s) -> x = o :: ops).
      { intros x K. eapply nodup_fst; [apply (i_nodup _ V)|exact K|]. rewrite Hh. apply in_or_app. right. exact Ti. }
      eapply (sinv_use i o ops ok s (sset_tasks (lset n (i, ops) (sv_tasks s)) s)); try reflexivity; try exact E; try exact V.
      * rewrite Hh. apply in_or_app. right. exact Ti.
      * rewrite Hh1, Fs. apply (i_nodup _ V).
      * intros j x K. rewrite Hh1 in K. destruct (Nat.eq_dec j i) as [->|D].
        -- left. split; [reflexivity|].
           assert (NDs : NoDup (map fst (hd ++ lset n (i, ops) (sv_tasks s)))) by (rewrite Fs; apply (i_nodup _ V)).
           assert (K2 : In (i, ops) (hd ++ lset n (i, ops) (sv_tasks s))) by (apply in_or_app; right; eapply lset_at; eassumption).
           eapply nodup_fst; eassumption.
        -- right. split; [exact D|]. rewrite Hh. apply in_app_or in K as [K|K]; apply in_or_app; [left; exact K|right].
           apply lset_in in K as [K|[K _]]; [exact K|]. congruence.
      * intros j K. rewrite Hh1, Fs. exact K.
      * intros j x K. cbn [sset_tasks sv_tasks] in K. apply lset_in in K as [K|[K _]]; [exists []; exact K|].
        injection K as -> ->. exists [o]. exact Ti.
      * intros j x w K. exists []. exact K.
      * intros K. rewrite K in T. destruct n; discriminate.
  - destruct (sv_shut s) eqn:Sh.
    + injection E as <-. apply (sinv_same s); try reflexivity; try assumption; cbn [sv_resps sv_progress sv_poller sv_notified sv_shut]; auto.
      intros p K. apply (i_range _ V _ K).
    + destruct (sv_poller s) eqn:P; try discriminate. injection E as <-.
      apply (sinv_same s); try reflexivity; try assumption; cbn [sset_shut sv_resps sv_progress sv_poller sv_notified sv_shut]; auto.
      * intros p K. apply (i_range _ V _ K).
      * rewrite (i_notif _ V), Sh. reflexivity.
      * apply (i_exit _ V).
    + destruct (sv_tasks s) eqn:T; [|discriminate]. injection E as <-.
      pose proof (i_shut _ V) as K0. rewrite Sh in K0.
      apply (sinv_same s); try reflexivity; try assumption; cbn [sset_shut sv_resps sv_progress sv_poller sv_notified sv_shut sv_tasks]; auto.
      * intros p K. apply (i_range _ V _ K).
      * rewrite (i_notif _ V), Sh. reflexivity.
      * apply (i_exit _ V).
    + injection E as <-. exact V.
Qed.

Lemma srun_ind (P : msrv -> Prop) : (forall a s s', P s -> sstep b mem h a s = SvNext s' -> P s') ->
  forall l s s', P s -> srun b mem h l s = SvNext s' -> P s'.
Proof.
  intros St. induction l as [|a l IH]; intros s s' H E; cbn [srun] in E; [injection E as <-; exact H|].
  destruct (sstep b mem h a s) eqn:Q; try discriminate; eauto.
Qed.
Lemma sinv_run l s : srun b mem h l sstart = SvNext s -> sinv s.
Proof. intros E. eapply (srun_ind sinv); [apply sinv_step|apply sinv_start|exact E]. Qed.
End Server.
