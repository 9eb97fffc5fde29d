(** Lemmas for Tree_Props.v: trees. *)
From Coq Require Import Ascii String List NArith ZArith Bool Arith Lia.
From Verif Require Import Base_Model Base_Proofs Util_Model Net_Model Pool_Model Driver_Model Grpc_Model Conn_Model Res_Model Res_Proofs Res_Proofs2 Res_Proofs3 Tree_Model Tree_Proofs.
Import ListNotations.
Open Scope nat_scope.

(** What happens at one leaf. *)
Definition path_eq_dec : forall p q : list nat, {p = q} + {p <> q} := list_eq_dec Nat.eq_dec.
Definition proj (p : list nat) (l : log) : list event := flat_map (fun x => if path_eq_dec (fst x) p then [snd x] else []) l.
Lemma proj_app p l m : proj p (l ++ m) = proj p l ++ proj p m.
Proof. apply flat_map_app. Qed.
Lemma proj_at p l : proj p (at_ p l) = l.
Proof. unfold proj, at_. induction l as [|e l IH]; [reflexivity|]. cbn [map flat_map fst snd]. destruct (path_eq_dec p p) as [_|N]; [|destruct (N eq_refl)]. cbn [app]. f_equal. exact IH. Qed.
Lemma proj_none p l : (forall q, In q (map fst l) -> q <> p) -> proj p l = [].
Proof.
  unfold proj. induction l as [|[q e] l IH]; intros H; [reflexivity|]. cbn [flat_map map fst snd In] in *. destruct (path_eq_dec q p) as [E|_]; [destruct (H q (or_introl eq_refl) E)|].
  apply IH. intros r R. apply H. right. exact R.
Qed.
Lemma labels_at p l : forall q, In q (map fst (at_ p l)) -> q = p.
Proof. unfold at_. intros q. rewrite map_map. cbn [fst]. rewrite in_map_iff. intros (x & <- & _). reflexivity. Qed.

(** The leaves of an allocated driver, in order. *)
Fixpoint leaves (path : list nat) (d : driver) : list (list nat * driver) :=
  match d with
  | DGrpc _ | DHoma _ | DMercury _ => [(path, d)]
  | DDouble d1 d2 => leaves (path ++ [1]) d1 ++ leaves (path ++ [2]) d2
  | DCounter d1 => leaves (path ++ [1]) d1
  end.
Lemma leaves_prefix d : forall path q L, In (q, L) (leaves path d) -> exists r, q = path ++ r.
Proof.
  induction d as [o|o|o|d1 IH1 d2 IH2|d IH]; intros path q L H; cbn [leaves] in H.
  1-3: destruct H as [H|[]]; injection H as <- <-; exists []; rewrite app_nil_r; reflexivity.
  - apply in_app_or in H. destruct H as [H|H]; [destruct (IH1 _ _ _ H) as [r ->]|destruct (IH2 _ _ _ H) as [r ->]]; rewrite <- app_assoc; eexists; reflexivity.
  - destruct (IH _ _ _ H) as [r ->]. rewrite <- app_assoc. eexists. reflexivity.
Qed.
Lemma apart path q r s : q = (path ++ [1]) ++ r -> q = (path ++ [2]) ++ s -> False.
Proof. intros -> E. rewrite <- !app_assoc in E. apply app_inv_head in E. discriminate E. Qed.

(** Which calls reach a leaf: those that it understands, except that calls
    concerning connections and channels can fail to. *)
Definition partial (c : tcall) : Prop := match c with TConnect _ _ | TChannels _ | TSetup _ _ _ => True | _ => False end.
Inductive seen {A} (conv : tcall -> option A) : list tcall -> list A -> Prop :=
  | seen_nil : seen conv [] []
  | seen_call l cs c x : seen conv l cs -> conv c = Some x -> seen conv (l ++ [c]) (cs ++ [x])
  | seen_skip l cs c : seen conv l cs -> partial c \/ conv c = None -> seen conv (l ++ [c]) cs.
Definition gconv (p : list nat) (c : tcall) : option gcall := Some (gcall_of p c).
Definition hconv (c : tcall) : option hcall := match c with TServer => Some CallServer | TClient => Some CallClient | _ => None end.

(** Calls without a status succeed. *)
Lemma void_ok c t : forall path e t' ok, tree_call c path t = Some (e, t', ok) -> partial c \/ ok = true.
Proof.
  induction t as [k s|n m|k m|a IHa b IHb|a IHa]; intros path e t' ok H; cbn [tree_call] in H.
  - destruct (grpc_call _ _ _) as [[? ?]|]; [|discriminate]. injection H as <- <- <-. destruct c; cbn [partial says]; auto.
  - destruct (homa_call _ _ _) as [[[? ?] ?]|]; [|discriminate]. injection H as <- <- <-. destruct c; cbn [partial says]; auto.
  - destruct (mcall_of _ _); [destruct (mercury_call _ _ _) as [[? ?]|]; [|discriminate]|]; injection H as <- <- <-; destruct c; cbn [partial says]; auto.
  - destruct c; try (left; exact Logic.I); right.
    all: destruct (tree_call _ (path ++ [1]) a) as [[[? ?] [|]]|] eqn:Q1; [|destruct (IHa _ _ _ _ Q1) as [[]|Q]; discriminate Q|discriminate H].
    all: destruct (tree_call _ (path ++ [2]) b) as [[[? ?] ?]|] eqn:Q2; [|discriminate H]; injection H as <- <- <-; destruct (IHb _ _ _ _ Q2) as [[]|Q]; exact Q.
  - destruct c; try (left; exact Logic.I); right.
    all: destruct (tree_call _ (path ++ [1]) a) as [[[? ?] ?]|] eqn:Q1; [|discriminate H]; injection H as <- <- <-; destruct (IHa _ _ _ _ Q1) as [[]|Q]; exact Q.
Qed.

Section Life.
  Variable les : list nat -> leaf_env.
  (** The life of a leaf that saw some of the calls [l]. *)
  Definition lived (p : list nat) (L : driver) (l : list tcall) (ev : list event) : Prop :=
    match L with
    | DGrpc o => exists cs, seen (gconv p) l cs /\ grpc_life (les p) o 0 cs = Some ev
    | DHoma o => exists cs, seen hconv l cs /\ homa_life (les p) o 0 cs = ev
    | DMercury o => exists cs, seen (mcall_of p) l cs /\ mercury_life (les p) o 0 cs = Some ev
    | _ => False
    end.
  (** The same while the leaf is alive. *)
  Definition living (p : list nat) (L : driver) (t : mtree) (l : list tcall) (ev : list event) : Prop :=
    match L, t with
    | DGrpc o, MGrpc k s => exists d cs e, seen (gconv p) l cs /\ k = length cs /\ grpc_init (les p) o 0 = InitOk d /\
        grpc_calls 0 cs (mkGst 0 (snd (grpc_make (les p) o 0))) = Some (e, s) /\ ev = fst (grpc_make (les p) o 0) ++ e
    | DHoma o, MHoma _ m => exists d cs e, seen hconv l cs /\ homa_init (les p) o 0 = InitOk d /\ homa_calls cs (snd (homa_make (les p) o)) = (e, m) /\ ev = fst (homa_make (les p) o) ++ e
    | DMercury o, MMercury k m => exists d cs e, seen (mcall_of p) l cs /\ k = length cs /\ mercury_init (les p) o 0 = InitOk d /\
        mercury_calls 0 cs (snd (mercury_make (les p) o 0)) = Some (e, m) /\ ev = fst (mercury_make (les p) o 0) ++ e
    | _, _ => False
    end.
  Fixpoint track (l : list tcall) (hist : log) (path : list nat) (d : driver) (t : mtree) : Prop :=
    match d, t with
    | DDouble d1 d2, MDouble t1 t2 => track l hist (path ++ [1]) d1 t1 /\ track l hist (path ++ [2]) d2 t2
    | DCounter d1, MCounter t1 => track l hist (path ++ [1]) d1 t1
    | _, _ => living path d t l (proj path hist)
    end.
  Definition inside (path : list nat) (d : driver) (e : log) : Prop := forall q, In q (map fst e) -> exists L, In (q, L) (leaves path d).
  Lemma inside_app path d e1 e2 : inside path d e1 -> inside path d e2 -> inside path d (e1 ++ e2).
  Proof. intros A B q. rewrite map_app. intros H. apply in_app_or in H. destruct H; auto. Qed.
  Lemma inside_leaf path d e : leaves path d = [(path, d)] -> inside path d (at_ path e).
  Proof. intros E q H. rewrite (labels_at _ _ _ H), E. exists d. left. reflexivity. Qed.
  Lemma inside_out path i d e q : inside (path ++ [i]) d e -> (forall r, q <> (path ++ [i]) ++ r) -> proj q e = [].
  Proof. intros H N. apply proj_none. intros r R ->. destruct (H _ R) as [L K]. apply leaves_prefix in K. destruct K as [s K]. exact (N s K). Qed.

  (** Events at other leaves do not matter. *)
  Lemma track_ext l d : forall h h' path t, (forall q L, In (q, L) (leaves path d) -> proj q h' = proj q h) -> track l h path d t -> track l h' path d t.
  Proof.
    induction d as [o|o|o|d1 IH1 d2 IH2|d IH]; intros h h' path t E H.
    1-3: cbn [track] in *; rewrite (E path _ (or_introl eq_refl)); exact H.
    - destruct t; cbn [track living] in H; try contradiction. destruct H as [A B]. cbn [track leaves] in *. split; [eapply IH1|eapply IH2]; try eassumption; intros q L I; apply (E q L), in_or_app; auto.
    - destruct t; cbn [track living] in H; try contradiction. cbn [track leaves] in *. eapply IH; eassumption.
  Qed.
  (** A call that does not reach a subtree. *)
  Lemma living_skip p L t l c ev : partial c -> living p L t l ev -> living p L t (l ++ [c]) ev.
  Proof.
    intros P. unfold living. destruct L, t; auto.
    - intros (d & cs & e & S1 & R). exists d, cs, e. split; [apply seen_skip; auto|exact R].
    - intros (d & cs & e & S1 & R). exists d, cs, e. split; [apply seen_skip; auto|exact R].
    - intros (d & cs & e & S1 & R). exists d, cs, e. split; [apply seen_skip; auto|exact R].
  Qed.
  Lemma track_skip l c h d : forall path t, partial c -> track l h path d t -> track (l ++ [c]) h path d t.
  Proof.
    induction d as [o|o|o|d1 IH1 d2 IH2|d IH]; intros path t P H.
    1-3: cbn [track] in *; apply living_skip; assumption.
    - destruct t; cbn [track living] in H; try contradiction. destruct H as [A B]. cbn [track]. auto.
    - destruct t; cbn [track living] in H; try contradiction. cbn [track]. auto.
  Qed.

  Lemma grpc_calls_snoc cs c : forall k s e s1 e2 s2, grpc_calls k cs s = Some (e, s1) -> grpc_call (k + length cs) c s1 = Some (e2, s2) -> grpc_calls k (cs ++ [c]) s = Some (e ++ e2, s2).
  Proof.
    induction cs as [|x cs IH]; intros k s e s1 e2 s2 A B; cbn [grpc_calls app length] in *.
    - injection A as <- <-. rewrite Nat.add_0_r in B. rewrite B. rewrite app_nil_r. reflexivity.
    - destruct (grpc_call k x s) as [[e0 s0]|]; [|discriminate]. destruct (grpc_calls (S k) cs s0) as [[e3 s3]|] eqn:R; [|discriminate]. injection A as <- <-.
      rewrite (IH (S k) s0 e3 s3 e2 s2 R) by (replace (S k + length cs) with (k + S (length cs)) by lia; exact B). rewrite app_assoc. reflexivity.
  Qed.
  Lemma mercury_calls_snoc cs c : forall k s e s1 e2 s2, mercury_calls k cs s = Some (e, s1) -> mercury_call (k + length cs) c s1 = Some (e2, s2) -> mercury_calls k (cs ++ [c]) s = Some (e ++ e2, s2).
  Proof.
    induction cs as [|x cs IH]; intros k s e s1 e2 s2 A B; cbn [mercury_calls app length] in *.
    - injection A as <- <-. rewrite Nat.add_0_r in B. rewrite B. rewrite app_nil_r. reflexivity.
    - destruct (mercury_call k x s) as [[e0 s0]|]; [|discriminate]. destruct (mercury_calls (S k) cs s0) as [[e3 s3]|] eqn:R; [|discriminate]. injection A as <- <-.
      rewrite (IH (S k) s0 e3 s3 e2 s2 R) by (replace (S k + length cs) with (k + S (length cs)) by lia; exact B). rewrite app_assoc. reflexivity.
  Qed.
  Lemma homa_calls_snoc cs c : forall m e m1, homa_calls cs m = (e, m1) -> homa_calls (cs ++ [c]) m = (e ++ fst (hcall_of c m1), snd (hcall_of c m1)).
  Proof.
    induction cs as [|x cs IH]; intros m e m1 A.
    - cbn [homa_calls] in A. injection A as <- <-. cbn [app]. rewrite homa_calls_cons. cbn [homa_calls fst snd]. rewrite app_nil_r. reflexivity.
    - cbn [app]. rewrite homa_calls_cons in *. destruct (homa_calls cs (snd (hcall_of x m))) as [e0 m0] eqn:R. cbn [fst snd] in A. injection A as <- <-.
      rewrite (IH _ _ _ R). cbn [fst snd]. rewrite app_assoc. reflexivity.
  Qed.

  (** One call. *)
  Lemma call_track c l d : forall path t h e t' ok, track l h path d t -> tree_call c path t = Some (e, t', ok) -> inside path d e /\ track (l ++ [c]) (h ++ e) path d t'.
  Proof.
    induction d as [o|o|o|d1 IH1 d2 IH2|d IH]; intros path t h e t' ok T E.
    - destruct t; cbn [track living] in T; try contradiction. destruct T as (d & cs & e0 & S1 & -> & A & B & C). cbn [tree_call] in E.
      destruct (grpc_call (length cs) (gcall_of path c) s) as [[e1 s1]|] eqn:R; [|discriminate]. injection E as <- <- <-. split; [apply inside_leaf; reflexivity|].
      cbn [track living]. exists d, (cs ++ [gcall_of path c]), (e0 ++ e1). split; [apply seen_call; [exact S1|reflexivity]|]. split; [rewrite app_length; cbn; lia|]. split; [exact A|].
      split; [eapply grpc_calls_snoc; [exact B|exact R]|]. rewrite proj_app, proj_at, C, app_assoc. reflexivity.
    - destruct t; cbn [track living] in T; try contradiction. destruct T as (d & cs & e0 & S1 & A & B & C). cbn [tree_call] in E.
      assert (K : (exists x, hconv c = Some x /\ exists e1, e = at_ path e1 /\ e1 = fst (hcall_of x m) /\ t' = MHoma peers (snd (hcall_of x m))) \/ (hconv c = None /\ e = [] /\ exists n, t' = MHoma n m)).
      { destruct c; cbn [homa_call hconv] in *.
        - injection E as <- <- <-. right. eauto.
        - destruct (peer <? peers); [|discriminate]. injection E as <- <- <-. right. eauto.
        - injection E as <- <- <-. right. eauto.
        - injection E as <- <- <-. right. eauto.
        - destruct (hshut_server m) as [e1 m1] eqn:R. injection E as <- <- <-. left. exists CallServer. split; [reflexivity|]. exists e1. cbn [hcall_of]. rewrite R. auto.
        - destruct (hshut_client m) as [e1 m1] eqn:R. injection E as <- <- <-. left. exists CallClient. split; [reflexivity|]. exists e1. cbn [hcall_of]. rewrite R. auto. }
      destruct K as [(x & X & e1 & -> & -> & ->)|(X & -> & n & ->)].
      + split; [apply inside_leaf; reflexivity|]. cbn [track living]. exists d, (cs ++ [x]), (e0 ++ fst (hcall_of x m)). split; [apply seen_call; assumption|]. split; [exact A|].
        split; [apply homa_calls_snoc, B|]. rewrite proj_app, proj_at, C, app_assoc. reflexivity.
      + split; [intros q []|]. cbn [track living]. exists d, cs, e0. split; [apply seen_skip; auto|]. rewrite app_nil_r. auto.
    - destruct t; cbn [track living] in T; try contradiction. destruct T as (d & cs & e0 & S1 & -> & A & B & C). cbn [tree_call] in E.
      destruct (mcall_of path c) as [mc|] eqn:MC.
      + destruct (mercury_call (length cs) mc m) as [[e1 s1]|] eqn:R; [|discriminate]. injection E as <- <- <-. split; [apply inside_leaf; reflexivity|].
        cbn [track living]. exists d, (cs ++ [mc]), (e0 ++ e1). split; [apply seen_call; assumption|]. split; [rewrite app_length; cbn; lia|]. split; [exact A|].
        split; [eapply mercury_calls_snoc; [exact B|exact R]|]. rewrite proj_app, proj_at, C, app_assoc. reflexivity.
      + injection E as <- <- <-. split; [intros q []|]. cbn [track living]. exists d, cs, e0. split; [apply seen_skip; auto|]. rewrite app_nil_r. auto.
    - destruct t; cbn [track living] in T; try contradiction. destruct T as [T1 T2]. cbn [tree_call] in E.
      assert (K : partial c /\ e = [] /\ t' = MDouble t1 t2 \/
        exists e1 t1' ok1, tree_call c (path ++ [1]) t1 = Some (e1, t1', ok1) /\
          ((partial c /\ e = e1 /\ t' = MDouble t1' t2) \/ exists e2 t2' ok2, tree_call c (path ++ [2]) t2 = Some (e2, t2', ok2) /\ e = e1 ++ e2 /\ t' = MDouble t1' t2')).
      { assert (V : forall e1 t1', tree_call c (path ++ [1]) t1 = Some (e1, t1', false) -> partial c).
        { intros e1 t1' H. destruct (void_ok _ _ _ _ _ _ H) as [P|Q]; [exact P|discriminate Q]. }
        destruct c; try (injection E as <- <- <-; left; cbn [partial]; auto; fail).
        all: right; destruct (tree_call _ (path ++ [1]) t1) as [[[e1 t1'] [|]]|] eqn:R1; [| |discriminate].
        all: exists e1, t1'; eexists; split; [reflexivity|].
        all: try (injection E as <- <- <-; left; split; [exact (V _ _ eq_refl)|auto]).
        all: right; destruct (tree_call _ (path ++ [2]) t2) as [[[e2 t2'] ok2]|] eqn:R2; [|discriminate]; injection E as <- <- <-; exists e2, t2', ok2; auto. }
      assert (O1 : forall (e1 : log) q L, inside (path ++ [1]) d1 e1 -> In (q, L) (leaves (path ++ [2]) d2) -> proj q e1 = []).
      { intros e1 q L I J. apply leaves_prefix in J. destruct J as [s J]. eapply inside_out; [exact I|]. intros r R. exact (apart _ _ _ _ R J). }
      assert (O2 : forall (e1 : log) q L, inside (path ++ [2]) d2 e1 -> In (q, L) (leaves (path ++ [1]) d1) -> proj q e1 = []).
      { intros e1 q L I J. apply leaves_prefix in J. destruct J as [s J]. eapply inside_out; [exact I|]. intros r R. exact (apart _ _ _ _ J R). }
      assert (I1 : forall e1, inside (path ++ [1]) d1 e1 -> inside path (DDouble d1 d2) e1).
      { intros e1 I q Q. destruct (I q Q) as [L J]. exists L. apply in_or_app. auto. }
      assert (I2 : forall e1, inside (path ++ [2]) d2 e1 -> inside path (DDouble d1 d2) e1).
      { intros e1 I q Q. destruct (I q Q) as [L J]. exists L. apply in_or_app. auto. }
      destruct K as [(P & -> & ->)|(e1 & t1' & ok1 & R1 & [(P & -> & ->)|(e2 & t2' & ok2 & R2 & -> & ->)])].
      + split; [intros q []|]. rewrite app_nil_r. cbn [track]. split; apply track_skip; assumption.
      + destruct (IH1 _ _ _ _ _ _ T1 R1) as [J1 K1]. split; [apply I1, J1|]. cbn [track]. split; [exact K1|]. apply track_skip; [exact P|]. eapply track_ext; [|exact T2].
        intros q L I. rewrite proj_app, (O1 _ _ _ J1 I), app_nil_r. reflexivity.
      + destruct (IH1 _ _ _ _ _ _ T1 R1) as [J1 K1]. destruct (IH2 _ _ _ _ _ _ T2 R2) as [J2 K2]. split; [apply inside_app; auto|]. cbn [track]. split.
        * eapply track_ext; [|exact K1]. intros q L I. rewrite !proj_app, (O2 _ _ _ J2 I), app_nil_r. reflexivity.
        * eapply track_ext; [|exact K2]. intros q L I. rewrite !proj_app, (O1 _ _ _ J1 I). reflexivity.
    - destruct t; cbn [track living] in T; try contradiction. cbn [tree_call] in E.
      assert (K : partial c /\ e = [] /\ t' = MCounter t \/ exists e1 t1' ok1, tree_call c (path ++ [1]) t = Some (e1, t1', ok1) /\ e = e1 /\ t' = MCounter t1').
      { destruct c; try (injection E as <- <- <-; left; cbn [partial]; auto; fail).
        all: right; destruct (tree_call _ (path ++ [1]) t) as [[[e1 t1'] ok1]|] eqn:R1; [|discriminate]; injection E as <- <- <-; eauto 10. }
      destruct K as [(P & -> & ->)|(e1 & t1' & ok1 & R1 & -> & ->)].
      + split; [intros q []|]. rewrite app_nil_r. cbn [track]. apply track_skip; assumption.
      + destruct (IH _ _ _ _ _ _ T R1) as [J1 K1]. split; [exact J1|exact K1].
  Qed.
  Lemma calls_track cs d : forall l t h e t' oks, track l h [] d t -> tree_calls cs t = Some (e, t', oks) -> inside [] d e /\ track (l ++ cs) (h ++ e) [] d t'.
  Proof.
    induction cs as [|c cs IH]; intros l t h e t' oks T E; cbn [tree_calls] in E.
    - injection E as <- <- <-. rewrite !app_nil_r. split; [intros q []|exact T].
    - destruct (tree_call c [] t) as [[[e1 t1] ok]|] eqn:R; [|discriminate]. destruct (tree_calls cs t1) as [[[e2 t2] oks2]|] eqn:R2; [|discriminate]. injection E as <- <- <-.
      destruct (call_track _ _ _ _ _ _ _ _ _ T R) as [I1 T1]. destruct (IH _ _ _ _ _ _ T1 R2) as [I2 T2]. split; [apply inside_app; assumption|].
      rewrite <- app_assoc in T2. cbn [app] in T2. rewrite <- app_assoc in T2. exact T2.
  Qed.
  (** The end. *)
  Lemma destroy_inside l h d : forall path t, track l h path d t -> inside path d (tree_destroy path t).
  Proof.
    induction d as [o|o|o|d1 IH1 d2 IH2|d IH]; intros path t T; destruct t; cbn [track living] in T; try contradiction; cbn [tree_destroy].
    1-3: apply inside_leaf; reflexivity.
    - destruct T as [T1 T2]. apply inside_app.
      + intros q Q. destruct (IH2 _ _ T2 q Q) as [L J]. exists L. apply in_or_app. auto.
      + intros q Q. destruct (IH1 _ _ T1 q Q) as [L J]. exists L. apply in_or_app. auto.
    - exact (IH _ _ T).
  Qed.
  Lemma destroy_lived l d : forall path t h p L, track l h path d t -> In (p, L) (leaves path d) -> lived p L l (proj p (h ++ tree_destroy path t)).
  Proof.
    induction d as [o|o|o|d1 IH1 d2 IH2|d IH]; intros path t h p L T I; destruct t; cbn [track living] in T; try contradiction.
    - destruct I as [I|[]]. injection I as <- <-. destruct T as (d & cs & e & S1 & -> & A & B & C). exists cs. split; [exact S1|]. unfold grpc_life.
      destruct (grpc_make (les path) o 0) as [e1 m1]. cbn [fst snd] in *. rewrite A, B. cbn [tree_destroy]. rewrite proj_app, proj_at, C, <- app_assoc. reflexivity.
    - destruct I as [I|[]]. injection I as <- <-. destruct T as (d & cs & e & S1 & A & B & C). exists cs. split; [exact S1|]. unfold homa_life.
      destruct (homa_make (les path) o) as [e1 m1]. cbn [fst snd] in *. rewrite A, B. cbn [tree_destroy]. rewrite proj_app, proj_at, C, <- app_assoc. reflexivity.
    - destruct I as [I|[]]. injection I as <- <-. destruct T as (d & cs & e & S1 & -> & A & B & C). exists cs. split; [exact S1|]. unfold mercury_life.
      destruct (mercury_make (les path) o 0) as [e1 m1]. cbn [fst snd] in *. rewrite A, B. cbn [tree_destroy]. rewrite proj_app, proj_at, C, <- app_assoc. reflexivity.
    - destruct T as [T1 T2]. cbn [tree_destroy leaves] in *. pose proof (destroy_inside _ _ _ _ _ T1) as J1. pose proof (destroy_inside _ _ _ _ _ T2) as J2. apply in_app_or in I. destruct I as [I|I].
      + specialize (IH1 _ _ _ _ _ T1 I). rewrite !proj_app in *. rewrite (inside_out _ _ _ _ p J2); [exact IH1|]. apply leaves_prefix in I. destruct I as [s I]. intros r R. exact (apart _ _ _ _ I R).
      + specialize (IH2 _ _ _ _ _ T2 I). rewrite !proj_app in *. rewrite (inside_out _ _ _ _ p J1); [rewrite app_nil_r; exact IH2|]. apply leaves_prefix in I. destruct I as [s I]. intros r R. exact (apart _ _ _ _ R I).
    - cbn [tree_destroy leaves] in *. exact (IH _ _ _ _ _ T I).
  Qed.
End Life.
