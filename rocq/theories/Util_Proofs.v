(** Proofs about settings, statuses, timeouts and activity settings. *)
From Coq Require Import Ascii String List NArith ZArith Bool Lia.
From Verif Require Import Base_Model Base_Proofs Util_Model.
Import ListNotations.
Open Scope Z_scope.

Lemma narrow_id z : in_int32 z = true -> narrow z = z.
Proof.
  unfold in_int32, int32_max, narrow. intro H. apply andb_prop in H. destruct H as [A B].
  apply Z.leb_le in A, B. rewrite Z.mod_small; lia.
Qed.

Definition carries_string (n v : str) (s : setting) : Prop :=
  st_name s = Some n /\ st_str s = Some v /\ st_int s = None.
Definition carries_int (n : str) (v : Z) (s : setting) : Prop :=
  st_name s = Some n /\ st_int s = Some v /\ st_str s = None.

Lemma get_string_first l1 s l2 n v d :
  (forall s' v', In s' l1 -> ~ carries_string n v' s') -> carries_string n v s ->
  get_string (l1 ++ s :: l2) n d = v.
Proof.
  intros H (A & B & C). induction l1 as [|x l1 IH]; cbn [app get_string].
  - rewrite A, str_eqb_refl. cbn [negb]. rewrite C, B. reflexivity.
  - assert (IH' := IH ltac:(intros; apply H; right; assumption)).
    destruct (st_name x) as [m|] eqn:N; [|exact IH'].
    destruct (str_eqb_spec m n) as [->|]; cbn [negb]; [|exact IH'].
    destruct (st_int x) eqn:I; [exact IH'|].
    destruct (st_str x) as [w|] eqn:S; [|exact IH'].
    exfalso. apply (H x w); [left; reflexivity|]. repeat split; assumption.
Qed.
Lemma get_string_none l n d :
  (forall s v, In s l -> ~ carries_string n v s) -> get_string l n d = d.
Proof.
  induction l as [|x l IH]; intro H; cbn [get_string]; [reflexivity|].
  assert (IH' := IH ltac:(intros; apply H; right; assumption)).
  destruct (st_name x) as [m|] eqn:N; [|exact IH'].
  destruct (str_eqb_spec m n) as [->|]; cbn [negb]; [|exact IH'].
  destruct (st_int x) eqn:I; [exact IH'|].
  destruct (st_str x) as [w|] eqn:S; [|exact IH'].
  exfalso. apply (H x w); [left; reflexivity|]. repeat split; assumption.
Qed.
Lemma get_int_first l1 s l2 n v d :
  (forall s' v', In s' l1 -> ~ carries_int n v' s') -> carries_int n v s ->
  get_int (l1 ++ s :: l2) n d = v.
Proof.
  intros H (A & B & C). induction l1 as [|x l1 IH]; cbn [app get_int].
  - rewrite A, str_eqb_refl. cbn [negb]. rewrite C, B. reflexivity.
  - assert (IH' := IH ltac:(intros; apply H; right; assumption)).
    destruct (st_name x) as [m|] eqn:N; [|exact IH'].
    destruct (str_eqb_spec m n) as [->|]; cbn [negb]; [|exact IH'].
    destruct (st_str x) eqn:I; [exact IH'|].
    destruct (st_int x) as [w|] eqn:S; [|exact IH'].
    exfalso. apply (H x w); [left; reflexivity|]. repeat split; assumption.
Qed.
Lemma get_int_none l n d :
  (forall s v, In s l -> ~ carries_int n v s) -> get_int l n d = d.
Proof.
  induction l as [|x l IH]; intro H; cbn [get_int]; [reflexivity|].
  assert (IH' := IH ltac:(intros; apply H; right; assumption)).
  destruct (st_name x) as [m|] eqn:N; [|exact IH'].
  destruct (str_eqb_spec m n) as [->|]; cbn [negb]; [|exact IH'].
  destruct (st_str x) eqn:I; [exact IH'|].
  destruct (st_int x) as [w|] eqn:S; [|exact IH'].
  exfalso. apply (H x w); [left; reflexivity|]. repeat split; assumption.
Qed.
Lemma get_string_app l1 l2 n d : get_string (l1 ++ l2) n d = get_string l1 n (get_string l2 n d).
Proof.
  induction l1 as [|x l1 IH]; cbn [app get_string]; [reflexivity|].
  destruct (st_name x); [|exact IH]. destruct (negb (str_eqb s n)); [exact IH|].
  destruct (st_int x); [exact IH|]. destruct (st_str x); [reflexivity|exact IH].
Qed.
Lemma get_int_app l1 l2 n d : get_int (l1 ++ l2) n d = get_int l1 n (get_int l2 n d).
Proof.
  induction l1 as [|x l1 IH]; cbn [app get_int]; [reflexivity|].
  destruct (st_name x); [|exact IH]. destruct (negb (str_eqb s n)); [exact IH|].
  destruct (st_str x); [exact IH|]. destruct (st_int x); [reflexivity|exact IH].
Qed.

(** When the first well-typed entry exists, the default is irrelevant. *)
Lemma get_int_cases l n :
  (exists v, In v (flat_map (fun s => match st_int s with Some v => [v] | None => [] end) l)
             /\ forall d, get_int l n d = v)
  \/ (forall d, get_int l n d = d).
Proof.
  induction l as [|x l IH]; cbn [get_int flat_map]; [right; reflexivity|].
  assert (K : (exists v, In v (match st_int x with Some v => [v] | None => [] end
                ++ flat_map (fun s => match st_int s with Some v => [v] | None => [] end) l)
             /\ forall d, get_int l n d = v) \/ (forall d, get_int l n d = d)).
  { destruct IH as [(v & I & E)|E]; [left; exists v; split; [apply in_or_app; right; exact I|exact E]|right; exact E]. }
  destruct (st_name x); [|exact K]. destruct (negb (str_eqb s n)); [exact K|].
  destruct (st_str x); [exact K|]. destruct (st_int x) as [w|] eqn:W; [|exact K].
  left. exists w. split; [left; reflexivity|reflexivity].
Qed.

(** Channel arguments. *)
Lemma builder_args_app l1 l2 : builder_args (l1 ++ l2) = builder_args l1 ++ builder_args l2.
Proof.
  induction l1 as [|x l1 IH]; cbn [app builder_args]; [reflexivity|].
  destruct (st_name x); [|exact IH]. destruct (st_str x), (st_int x); cbn [app]; rewrite ?IH; reflexivity.
Qed.
Lemma builder_str l n v : In (ArgStr n v) (builder_args l) <->
  exists s, In s l /\ st_name s = Some n /\ st_str s = Some v.
Proof.
  induction l as [|x l IH]; cbn [builder_args].
  - split; [intros []|intros (s & [] & _)].
  - assert (T : (exists s, In s (x :: l) /\ st_name s = Some n /\ st_str s = Some v) <->
               (st_name x = Some n /\ st_str x = Some v) \/ In (ArgStr n v) (builder_args l)).
    { rewrite IH. split.
      - intros (s & [->|I] & A & B); [left; auto|right; exists s; auto].
      - intros [(A & B)|(s & I & A & B)]; [exists x; cbn; auto|exists s; cbn; auto]. }
    rewrite T. destruct (st_name x) as [m|]; [|intuition discriminate].
    destruct (st_str x) as [w|], (st_int x) as [z|]; cbn [In]; split; intro H;
      repeat match goal with
      | H : _ \/ _ |- _ => destruct H as [H|H]
      | H : _ /\ _ |- _ => destruct H
      end; try discriminate; try (right; assumption); try assumption; left; congruence || (injection H as -> ->; auto).
Qed.
Lemma builder_int l n v : In (ArgInt n v) (builder_args l) <->
  exists s, In s l /\ carries_int n v s.
Proof.
  unfold carries_int. induction l as [|x l IH]; cbn [builder_args].
  - split; [intros []|intros (s & [] & _)].
  - assert (T : (exists s, In s (x :: l) /\ st_name s = Some n /\ st_int s = Some v /\ st_str s = None) <->
               (st_name x = Some n /\ st_int x = Some v /\ st_str x = None) \/ In (ArgInt n v) (builder_args l)).
    { rewrite IH. split.
      - intros (s & [->|I] & A & B & C); [left; auto|right; exists s; auto].
      - intros [(A & B & C)|(s & I & A & B & C)]; [exists x; cbn; auto|exists s; cbn; auto]. }
    rewrite T. destruct (st_name x) as [m|]; [|intuition discriminate].
    destruct (st_str x) as [w|], (st_int x) as [z|]; cbn [In]; split; intro H;
      repeat match goal with
      | H : _ \/ _ |- _ => destruct H as [H|H]
      | H : _ /\ _ |- _ => destruct H
      end; try discriminate; try (right; assumption); try assumption.
    + left. injection H as -> ->. auto.
    + left. congruence.
Qed.

(** Timeouts. *)
Definition specified (t : attributes) (v : Z) : Prop :=
  exists s, map_find timeout_name t = Some s /\ simple_atoi s = Some v.
Lemma simple_atoi_range s v : simple_atoi s = Some v -> int64_min <= v <= int64_max.
Proof.
  unfold simple_atoi. destruct (scan_d s); try discriminate.
  destruct (all_space rest && in_int64 z) eqn:E; [|discriminate]. intro H; injection H as ->.
  apply andb_prop in E. destruct E as [_ E]. unfold in_int64 in E. apply andb_prop in E.
  destruct E as [A B]. apply Z.leb_le in A, B. unfold int64_min. lia.
Qed.

Lemma timeout_loop_prefix pre : forall vs rest d acc, Forall2 specified pre vs ->
  Forall (fun v => 0 < v) vs -> 0 <= acc -> acc + fold_right Z.add 0 vs <= int64_max ->
  timeout_loop (pre ++ rest) d acc = timeout_loop rest d (acc + fold_right Z.add 0 vs).
Proof.
  induction pre as [|t pre IH]; intros vs rest d acc F P A S; inversion F; subst; cbn [app timeout_loop fold_right].
  - rewrite Z.add_0_r. reflexivity.
  - destruct H1 as (x & E1 & E2). unfold attribute_int. rewrite E1, E2.
    inversion P; subst. cbn [fold_right] in S.
    assert (0 <= fold_right Z.add 0 l').
    { match goal with F : Forall _ l' |- _ => clear -F; induction F; cbn [fold_right]; lia end. }
    destruct (Z.eqb_spec y int64_min) as [->|]; [unfold int64_min in *; lia|].
    destruct (Z.leb_spec y 0); [lia|].
    unfold in_int64. destruct (Z.leb_spec (-9223372036854775808) (acc + y)); [|lia].
    destruct (Z.leb_spec (acc + y) int64_max); [|lia]. cbn [andb].
    rewrite IH with (vs := l'); try assumption; try lia. f_equal; lia.
Qed.
Lemma timeout_ok tests : forall d acc v, 0 <= acc -> timeout_loop tests d acc = TimeoutOk v ->
  (v = d /\ (tests = [] /\ acc = 0 \/ exists t, In t tests /\ attribute_int t timeout_name int64_min = Some int64_min)) \/
  exists vs, Forall2 specified tests vs /\ Forall (fun v => 0 < v) vs /\ v = acc + fold_right Z.add 0 vs.
Proof.
  induction tests as [|t r IH]; intros d acc v A E; cbn [timeout_loop] in E.
  - destruct (Z.eqb_spec acc 0) as [->|]; injection E as <-; [left; auto|].
    right. exists []. cbn [fold_right]. repeat split; try constructor. lia.
  - destruct (attribute_int t timeout_name int64_min) as [w|] eqn:W; [|discriminate].
    destruct (Z.eqb_spec w int64_min) as [->|N].
    { injection E as <-. left. split; [reflexivity|]. right. exists t. split; [left; reflexivity|exact W]. }
    destruct (Z.leb_spec w 0); [discriminate|].
    destruct (in_int64 (acc + w)); [|discriminate].
    apply IH in E; [|lia]. destruct E as [[-> [[-> Z0]|(u & I & U)]]|(vs & F & P & ->)].
    + lia.
    + left. split; [reflexivity|]. right. exists u. split; [right; exact I|exact U].
    + right. exists (w :: vs). repeat split.
      * constructor; [|exact F]. unfold attribute_int in W. unfold specified.
        destruct (map_find timeout_name t) as [s|] eqn:M; [exists s; auto|congruence].
      * constructor; assumption.
      * cbn [fold_right]. lia.
Qed.
Lemma sum_repeat n v : fold_right Z.add 0 (repeat v n) = Z.of_nat n * v.
Proof. induction n as [|n IH]; [reflexivity|]. cbn [repeat fold_right]. rewrite IH, Nat2Z.inj_succ. ring. Qed.

(** Activities. *)
Lemma index_ok (d : nat -> Z) size lo hi k : 0 <= lo -> lo <= hi -> hi < size ->
  exists l, accesses size lo hi d k = Some l /\ length l = Z.to_nat k /\ Forall (fun i => lo <= i <= hi) l.
Proof.
  intros A B C. unfold accesses.
  set (l := map _ _).
  assert (F : Forall (fun i => lo <= i <= hi) l).
  { apply Forall_forall. intros i I. unfold l in I. apply in_map_iff in I.
    destruct I as (j & <- & _). pose proof (Z.mod_pos_bound (d j) (hi - lo + 1) ltac:(lia)). lia. }
  replace (forallb _ l) with true.
  - exists l. split; [reflexivity|]. split; [unfold l; rewrite map_length, seq_length; reflexivity|exact F].
  - symmetry. apply forallb_forall. intros i I. rewrite Forall_forall in F. specialize (F i I).
    destruct (Z.leb_spec 0 i); [|lia]. destruct (Z.ltb_spec i size); [reflexivity|lia].
Qed.
