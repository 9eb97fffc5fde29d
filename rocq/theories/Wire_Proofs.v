(** Specifications and proofs about Wire_Model. *)
From Coq Require Import List NArith ZArith Bool Lia ZifyBool ZifyNat ZifyN.
From Verif Require Import Wire_Model.
Import ListNotations.
Open Scope N_scope.
Ltac Zify.zify_post_hook ::= Z.div_mod_to_equations.

(* ------------------------------------------------------------------ *)
(** * Varints *)

Lemma shiftr7 v : N.shiftr v 7 = v / 128.
Proof. rewrite N.shiftr_div_pow2. reflexivity. Qed.

Lemma size_nat_bound v : v < 2 ^ N.of_nat (N.size_nat v).
Proof.
  destruct v as [|p]; [cbn; lia|].
  cbn [N.size_nat].
  induction p as [p IH|p IH|]; cbn [Pos.size_nat].
  - rewrite Nat2N.inj_succ, N.pow_succ_r'. lia.
  - rewrite Nat2N.inj_succ, N.pow_succ_r'. lia.
  - cbn. lia.
Qed.

Lemma varint_size_loop_shift fuel v r :
  varint_size_loop fuel v r = (r - 1 + varint_size_loop fuel v 1)%Z.
Proof.
  revert v r. induction fuel as [|f IH]; intros v r; cbn [varint_size_loop]; [lia|].
  destruct (128 <=? v); [|lia].
  rewrite IH. rewrite (IH _ (1 + 1)%Z). lia.
Qed.

Lemma varint_size_loop_enough fuel fuel' v r :
  v < 2 ^ N.of_nat fuel -> v < 2 ^ N.of_nat fuel' ->
  varint_size_loop fuel v r = varint_size_loop fuel' v r.
Proof.
  revert fuel' v r. induction fuel as [|f IH]; intros fuel' v r H H'.
  - cbn in H. assert (v = 0) by lia. subst. destruct fuel'; reflexivity.
  - destruct fuel' as [|f'].
    + cbn in H'. assert (v = 0) by lia. subst. reflexivity.
    + cbn [varint_size_loop]. destruct (N.leb_spec 128 v); [|reflexivity].
      rewrite shiftr7. rewrite Nat2N.inj_succ, N.pow_succ_r' in H, H'.
      apply IH; apply N.div_lt_upper_bound; lia.
Qed.

Lemma varint_size_eq v :
  varint_size v = if v <? 128 then 1%Z else (1 + varint_size (v / 128))%Z.
Proof.
  unfold varint_size at 1.
  rewrite (varint_size_loop_enough _ (S (N.size_nat v)));
    [| apply size_nat_bound
     | rewrite Nat2N.inj_succ, N.pow_succ_r'; pose proof (size_nat_bound v); lia].
  cbn [varint_size_loop].
  destruct (N.leb_spec 128 v); destruct (N.ltb_spec v 128); try lia.
  rewrite varint_size_loop_shift, shiftr7.
  rewrite (varint_size_loop_enough _ (N.size_nat (v / 128))).
  - unfold varint_size. lia.
  - pose proof (size_nat_bound v). apply N.div_lt_upper_bound; lia.
  - apply size_nat_bound.
Qed.

Lemma lor128 v : N.lor v 128 mod 256 = v mod 128 + 128.
Proof.
  replace (N.lor v 128) with (N.lor (N.lor (v / 128 * 128) (v mod 128)) 128).
  2:{ f_equal. rewrite <- N.lxor_lor, <- N.add_nocarry_lxor.
      - rewrite N.mul_comm. symmetry. apply N.div_mod. lia.
      - apply N.bits_inj. intros n. rewrite N.land_spec, N.bits_0.
        replace 128 with (2^7) by reflexivity.
        destruct (N.lt_ge_cases n 7).
        + rewrite N.mul_pow2_bits_low by lia. reflexivity.
        + rewrite N.mod_pow2_bits_high by lia. apply andb_false_r.
      - apply N.bits_inj. intros n. rewrite N.land_spec, N.bits_0.
        replace 128 with (2^7) by reflexivity.
        destruct (N.lt_ge_cases n 7).
        + rewrite N.mul_pow2_bits_low by lia. reflexivity.
        + rewrite N.mod_pow2_bits_high by lia. apply andb_false_r. }
  change 256 with (2^8). rewrite <- N.land_ones.
  apply N.bits_inj. intros n.
  assert (E : v mod 128 + 128 = N.lor (v mod 128) 128).
  { assert (H : N.land (v mod 128) 128 = 0).
    { apply N.bits_inj. intros k. rewrite N.land_spec, N.bits_0.
      change 128 with (2^7). rewrite N.pow2_bits_eqb.
      destruct (N.eqb_spec 7 k); [subst; rewrite N.mod_pow2_bits_high by lia; reflexivity|].
      apply andb_false_r. }
    rewrite (N.add_nocarry_lxor _ _ H). apply N.lxor_lor, H. }
  rewrite E. rewrite N.land_spec, !N.lor_spec.
  change 128 with (2^7). rewrite N.pow2_bits_eqb.
  destruct (N.lt_ge_cases n 8).
  - rewrite N.ones_spec_low by lia. rewrite andb_true_r.
    destruct (N.lt_ge_cases n 7).
    + rewrite N.mul_pow2_bits_low by lia. reflexivity.
    + assert (n = 7) by lia. subst. rewrite !orb_true_r. reflexivity.
  - rewrite N.ones_spec_high by lia. rewrite andb_false_r.
    rewrite N.mod_pow2_bits_high by lia.
    destruct (N.eqb_spec 7 n); [lia|reflexivity].
Qed.

Lemma make_varint_loop_enough fuel fuel' v :
  v < 2 ^ N.of_nat fuel -> v < 2 ^ N.of_nat fuel' ->
  make_varint_loop (S fuel) v = make_varint_loop (S fuel') v.
Proof.
  revert fuel' v. induction fuel as [|f IH]; intros fuel' v H H'.
  - cbn in H. assert (v = 0) by lia. subst. reflexivity.
  - destruct fuel' as [|f'].
    + cbn in H'. assert (v = 0) by lia. subst. reflexivity.
    + cbn [make_varint_loop]. f_equal.
      rewrite shiftr7. destruct (v / 128 =? 0) eqn:E; [reflexivity|].
      rewrite Nat2N.inj_succ, N.pow_succ_r' in H, H'.
      apply IH; apply N.div_lt_upper_bound; lia.
Qed.

Lemma make_varint_eq v :
  make_varint v = if v <? 128 then [v] else (v mod 128 + 128) :: make_varint (v / 128).
Proof.
  unfold make_varint at 1.
  destruct (N.ltb_spec v 128).
  - cbn [make_varint_loop]. rewrite shiftr7.
    destruct (N.ltb_spec 127 v); [lia|].
    rewrite N.div_small by lia. reflexivity.
  - cbn [make_varint_loop]. rewrite shiftr7, lor128.
    destruct (N.ltb_spec 127 v); [|lia].
    destruct (N.eqb_spec (v / 128) 0); [lia|].
    f_equal. pose proof (size_nat_bound v) as B.
    destruct (N.size_nat v) as [|k] eqn:E; [cbn in B; lia|].
    unfold make_varint. apply make_varint_loop_enough.
    + rewrite Nat2N.inj_succ, N.pow_succ_r' in B. apply N.div_lt_upper_bound; lia.
    + apply size_nat_bound.
Qed.

(** Induction on base-128 digits. *)
Lemma base128_ind (P : N -> Prop) :
  (forall v, v < 128 -> P v) ->
  (forall v, 128 <= v -> P (v / 128) -> P v) ->
  forall v, P v.
Proof.
  intros H0 H1 v.
  assert (forall n v, v < 2 ^ N.of_nat n -> P v) as G.
  { induction n as [|n IH]; intros w Hw.
    - apply H0. cbn in Hw. lia.
    - destruct (N.lt_ge_cases w 128); [apply H0; assumption|].
      apply H1; [assumption|]. apply IH.
      rewrite Nat2N.inj_succ, N.pow_succ_r' in Hw. apply N.div_lt_upper_bound; lia. }
  apply (G _ _ (size_nat_bound v)).
Qed.

Lemma make_varint_length v : Z.of_nat (length (make_varint v)) = varint_size v.
Proof.
  induction v as [v Hv|v Hv IH] using base128_ind.
  - rewrite make_varint_eq, varint_size_eq. destruct (N.ltb_spec v 128); [reflexivity|lia].
  - rewrite make_varint_eq, varint_size_eq. destruct (N.ltb_spec v 128); [lia|].
    cbn [length]. lia.
Qed.

Lemma make_varint_bytes v : Forall (fun b => b < 256) (make_varint v).
Proof.
  induction v as [v Hv|v Hv IH] using base128_ind; rewrite make_varint_eq;
  destruct (N.ltb_spec v 128); try lia; constructor; auto; lia.
Qed.

Lemma varint_size_pos v : (1 <= varint_size v)%Z.
Proof.
  induction v as [v Hv|v Hv IH] using base128_ind; rewrite varint_size_eq;
  destruct (N.ltb_spec v 128); lia.
Qed.

(** The size function: k bytes exactly for 128^(k-1) <= v < 128^k. *)
Lemma varint_size_spec v k :
  (1 <= k)%nat ->
  (varint_size v = Z.of_nat k <->
   (k = 1%nat \/ 128 ^ N.of_nat (k - 1) <= v) /\ v < 128 ^ N.of_nat k).
Proof.
  revert v. induction k as [|k IH]; intros v Hk; [lia|].
  rewrite varint_size_eq. destruct (N.ltb_spec v 128) as [Hv|Hv].
  - destruct k as [|k].
    + cbn. split; intros; lia.
    + split; [lia|]. intros [[?|H] _]; [lia|].
      replace (N.of_nat (S (S k) - 1)) with (N.succ (N.of_nat k)) in H by lia.
      rewrite N.pow_succ_r' in H.
      assert (0 < 128 ^ N.of_nat k) by (apply N.neq_0_lt_0, N.pow_nonzero; lia). nia.
  - destruct k as [|k].
    + split; [pose proof (varint_size_pos (v/128)); lia|]. cbn. lia.
    + specialize (IH (v / 128) ltac:(lia)).
      transitivity (varint_size (v/128) = Z.of_nat (S k)); [lia|].
      rewrite IH.
      replace (S (S k) - 1)%nat with (S k) by lia. replace (S k - 1)%nat with k by lia.
      rewrite (Nat2N.inj_succ (S k)), (N.pow_succ_r' _ (N.of_nat (S k))).
      rewrite (Nat2N.inj_succ k), (N.pow_succ_r' _ (N.of_nat k)).
      assert (Hq : 0 < 128 ^ N.of_nat k) by (apply N.neq_0_lt_0, N.pow_nonzero; lia).
      assert (Hk0 : k = 0%nat \/ (1 <= k)%nat) by lia.
      set (q := 128 ^ N.of_nat k) in *.
      split; intros [[E|H] H2]; split.
      * right. assert (q = 1) by (subst q; replace k with 0%nat by lia; reflexivity). lia.
      * lia.
      * right. lia.
      * lia.
      * lia.
      * lia.
      * destruct Hk0; [left; lia|right]. apply N.div_le_lower_bound; lia.
      * apply N.div_lt_upper_bound; lia.
Qed.

(** Specification of the varint wire format: little-endian base 128, the high
    bit of a byte says that another byte follows. *)
Inductive varint_enc : bytes -> N -> Prop :=
| VeLast b : b < 128 -> varint_enc [b] b
| VeMore b r v : 128 <= b -> b < 256 -> varint_enc r v -> varint_enc (b :: r) ((b - 128) + 128 * v).

Lemma make_varint_enc v : varint_enc (make_varint v) v.
Proof.
  induction v as [v Hv|v Hv IH] using base128_ind; rewrite make_varint_eq.
  - destruct (N.ltb_spec v 128); [constructor; lia|lia].
  - destruct (N.ltb_spec v 128); [lia|].
    replace v with ((v mod 128 + 128 - 128) + 128 * (v / 128)) at 3 by lia.
    constructor; [lia|lia|exact IH].
Qed.

Lemma varint_enc_pos e v : varint_enc e v -> (1 <= length e)%nat.
Proof. intros H; destruct H; cbn [length]; lia. Qed.

(** A varint is self-delimiting: reading is deterministic. *)
Lemma varint_enc_det e v e' v' r r' :
  varint_enc e v -> varint_enc e' v' -> e ++ r = e' ++ r' -> e = e' /\ v = v' /\ r = r'.
Proof.
  intros H. revert e' v' r r'.
  induction H as [b Hb|b e v H1 H2 H IH]; intros e' v' r r' H' E;
    destruct H' as [b' Hb'|b' e' v' H1' H2' H']; cbn [app] in E; injection E as Eb Er; try lia.
  - subst. auto.
  - specialize (IH _ _ _ _ H' Er) as [-> [-> ->]]. subst. auto.
Qed.

Lemma make_varint_length10 v : v < two64 -> (length (make_varint v) <= 10)%nat.
Proof.
  intros H. pose proof (make_varint_length v) as L.
  pose proof (varint_size_pos v) as P.
  assert (exists k, varint_size v = Z.of_nat k /\ (1 <= k)%nat) as [k [Ek Hk]]
    by (exists (Z.to_nat (varint_size v)); lia).
  destruct (Nat.le_gt_cases k 10); [lia|].
  apply varint_size_spec in Ek; [|lia]. destruct Ek as [[E|E] _]; [lia|].
  assert (128 ^ 10 <= 128 ^ N.of_nat (k - 1)) by (apply N.pow_le_mono_r; lia).
  change (128^10) with 1180591620717411303424 in *. unfold two64 in H. lia.
Qed.

(** ** ReadVarInt *)

Fixpoint v7 (e : bytes) : N :=
  match e with [] => 0 | b :: r => b mod 128 + 128 * v7 r end.

Lemma land127 b : N.land b 127 = b mod 128.
Proof. change 127 with (N.ones 7). apply N.land_ones. Qed.

Lemma lor_add_shift r x k : r < 2 ^ k -> N.lor r (x * 2 ^ k) = r + x * 2 ^ k.
Proof.
  intros H.
  assert (L : N.land r (x * 2 ^ k) = 0).
  { apply N.bits_inj. intros n. rewrite N.land_spec, N.bits_0.
    destruct (N.lt_ge_cases n k).
    - rewrite N.mul_pow2_bits_low by lia. apply andb_false_r.
    - rewrite <- (N.mod_small r (2^k) H), N.mod_pow2_bits_high by lia. reflexivity. }
  rewrite (N.add_nocarry_lxor _ _ L), (N.lxor_lor _ _ L). reflexivity.
Qed.

Lemma lor_add_mod r x k :
  k < 64 -> r < 2 ^ k -> N.lor r (N.shiftl x k mod two64) = r + (x * 2 ^ k) mod two64.
Proof.
  intros Hk H. rewrite N.shiftl_mul_pow2.
  change two64 with (2^64).
  replace ((x * 2 ^ k) mod 2 ^ 64) with ((x mod 2 ^ (64 - k)) * 2 ^ k).
  - apply lor_add_shift, H.
  - replace (2 ^ 64) with (2 ^ (64 - k) * 2 ^ k).
    + rewrite N.mul_mod_distr_r; try apply N.pow_nonzero; lia.
    + rewrite <- N.pow_add_r. f_equal. lia.
Qed.

Lemma byte_at_app pre b w : byte_at (pre ++ b :: w) (Z.of_nat (length pre)) = Some b.
Proof.
  unfold byte_at. destruct (Z.ltb_spec (Z.of_nat (length pre)) 0); [lia|].
  rewrite Nat2Z.id, nth_error_app2, Nat.sub_diag by lia. reflexivity.
Qed.

Ltac Zify.zify_post_hook ::= idtac.
Lemma read_loop fuel : forall k pre w endp ret,
  (fuel + k = 10)%nat -> (1 <= fuel)%nat ->
  ret < 2 ^ (7 * N.of_nat k) -> ret < two64 ->
  (Z.of_nat (length pre) <= endp)%Z -> (endp < Z.of_nat (length (pre ++ w)))%Z ->
  exists e b post,
    w = (e ++ [b]) ++ post /\
    Forall (fun x => 128 <= x) e /\
    (length e < fuel)%nat /\
    (Z.of_nat (length pre + length e) <= endp)%Z /\
    (b < 128 \/ S (length e) = fuel \/ Z.of_nat (length pre + length e) = endp) /\
    read_varint_loop fuel (pre ++ w) endp (Z.of_nat (length pre)) (7 * N.of_nat k) ret
    = Some ((ret + 2 ^ (7 * N.of_nat k) * v7 (e ++ [b])) mod two64,
            Z.of_nat (length pre + S (length e)), b).
Proof.
  induction fuel as [|f IH]; intros k pre w endp ret Hk Hf Hr Hr64 He Hl; [lia|].
  rewrite app_length in Hl.
  destruct w as [|b w]; [cbn [length] in Hl; lia|].
  cbn [read_varint_loop]. rewrite byte_at_app, land127.
  rewrite lor_add_mod by lia.
  set (P := 2 ^ (7 * N.of_nat k)) in *.
  assert (HP : P < two64).
  { unfold P, two64. change 18446744073709551616 with (2^64). apply N.pow_lt_mono_r; lia. }
  assert (HP0 : 0 < P) by (apply N.neq_0_lt_0, N.pow_nonzero; lia).
  assert (HPd : two64 = 2 ^ (64 - 7 * N.of_nat k) * P).
  { unfold P. rewrite <- N.pow_add_r. change two64 with (2^64). f_equal. lia. }
  (* the partial result stays below 2^64 and below the next weight *)
  assert (Hx : (b mod 128 * P) mod two64 + P <= two64).
  { rewrite HPd at 1 2. rewrite N.mul_mod_distr_r by (try apply N.pow_nonzero; lia).
    assert (0 < 2 ^ (64 - 7 * N.of_nat k)) by (apply N.neq_0_lt_0, N.pow_nonzero; lia).
    set (Q := 2 ^ (64 - 7 * N.of_nat k)) in *.
    assert (b mod 128 mod Q < Q) by (apply N.mod_lt; lia). nia. }
  assert (Hx' : (b mod 128 * P) mod two64 + P <= 128 * P).
  { assert ((b mod 128 * P) mod two64 <= b mod 128 * P) by (apply N.mod_le; unfold two64; lia).
    assert (b mod 128 < 128) by (apply N.mod_lt; lia). nia. }
  assert (Hmod : ret + (b mod 128 * P) mod two64 = (ret + P * (b mod 128)) mod two64).
  { rewrite (N.mul_comm P).
    rewrite <- N.add_mod_idemp_r by (unfold two64; lia).
    symmetry. apply N.mod_small. lia. }
  destruct ((128 <=? b) && (7 * N.of_nat k + 7 <? 64) && (Z.of_nat (length pre) + 1 <=? endp)%Z) eqn:C.
  - apply andb_prop in C as [C C3]. apply andb_prop in C as [C1 C2].
    replace (pre ++ b :: w) with ((pre ++ [b]) ++ w) by (rewrite <- app_assoc; reflexivity).
    replace (Z.of_nat (length pre) + 1)%Z with (Z.of_nat (length (pre ++ [b])))
      by (rewrite app_length; cbn [length]; lia).
    replace (7 * N.of_nat k + 7) with (7 * N.of_nat (S k)) by lia.
    assert (EP : 2 ^ (7 * N.of_nat (S k)) = 128 * P).
    { unfold P. replace (7 * N.of_nat (S k)) with (7 + 7 * N.of_nat k) by lia.
      rewrite N.pow_add_r. reflexivity. }
    edestruct (IH (S k) (pre ++ [b]) w endp (ret + (b mod 128 * P) mod two64))
      as (e & b' & post & Ew & Fe & Le & Lp & Ht & Hres); try lia.
    + rewrite app_length. cbn [length]. lia.
    + rewrite !app_length. cbn [length] in *. lia.
    + exists (b :: e), b', post. rewrite app_length in *. cbn [length] in *.
      split; [rewrite Ew; reflexivity|].
      split; [constructor; [lia|assumption]|].
      split; [lia|]. split; [lia|]. split; [lia|].
      rewrite Hres, EP. f_equal. f_equal. f_equal; [|lia].
      rewrite Hmod. rewrite N.add_mod_idemp_l by (unfold two64; lia).
      f_equal. cbn [app v7]. lia.
  - exists [], b, w. cbn [app length v7].
    split; [reflexivity|]. split; [constructor|]. split; [lia|]. split; [lia|].
    split.
    { apply andb_false_iff in C as [C|C]; [apply andb_false_iff in C as [C|C]|]; lia. }
    f_equal. f_equal. f_equal; [|lia].
    rewrite Hmod. f_equal. lia.
Qed.

Ltac Zify.zify_post_hook ::= Z.div_mod_to_equations.
Lemma varint_enc_v7 e b :
  Forall (fun x => 128 <= x) e -> Forall (fun x => x < 256) e -> b < 128 ->
  varint_enc (e ++ [b]) (v7 (e ++ [b])).
Proof.
  intros H H2 Hb. induction e as [|x e IH]; cbn [app v7].
  - replace (b mod 128 + 128 * 0) with b by lia. constructor. exact Hb.
  - inversion H; inversion H2; subst.
    replace (x mod 128) with (x - 128) by lia. constructor; auto.
Qed.

Lemma varint_enc_shape e v :
  varint_enc e v -> exists e' b, e = e' ++ [b] /\ Forall (fun x => 128 <= x) e' /\ b < 128.
Proof.
  induction 1 as [b Hb|b r v H1 H2 H IH].
  - exists [], b. auto.
  - destruct IH as (e' & b' & -> & F & L). exists (b :: e'), b'. repeat split; auto.
Qed.

Lemma app_eq_len {A} (a b c d : list A) : a ++ b = c ++ d -> length a = length c -> a = c /\ b = d.
Proof.
  revert c. induction a as [|x a IH]; intros [|y c] E L; cbn in *; try discriminate; auto.
  injection E as -> E. injection L as L. destruct (IH _ E L) as [-> ->]. auto.
Qed.

(** Full characterisation of ReadVarInt on a valid window. *)
Lemma read_varint_spec buf start endp :
  (0 <= start)%Z -> (endp < Z.of_nat (length buf))%Z -> Forall (fun b => b < 256) buf ->
  read_varint buf start endp <> RvUB /\
  (forall out c,
     read_varint buf start endp = RvOk out c <->
     exists pre e post v,
       buf = pre ++ e ++ post /\ Z.of_nat (length pre) = start /\
       c = (start + Z.of_nat (length e))%Z /\ (c <= endp + 1)%Z /\
       (length e <= 10)%nat /\ varint_enc e v /\ out = to_int64 (v mod two64)).
Proof.
  intros Hs He Hb. unfold read_varint.
  destruct (Z.ltb_spec endp start) as [Hlt|Hge].
  { split; [discriminate|]. intros out c. split; [discriminate|].
    intros (pre & e & post & v & _ & _ & Hc & Hc2 & _ & Hv & _).
    apply varint_enc_pos in Hv. lia. }
  set (pre := firstn (Z.to_nat start) buf). set (w := skipn (Z.to_nat start) buf).
  assert (Ebuf : buf = pre ++ w) by (symmetry; apply firstn_skipn).
  assert (Lpre : Z.of_nat (length pre) = start) by (unfold pre; rewrite firstn_length; lia).
  destruct (read_loop 10 0 pre w endp 0) as (e & b & post & Ew & Fe & Le & Lp & Ht & Hres);
    try (cbn; unfold two64; lia); try (rewrite <- ?Ebuf; lia).
  rewrite <- Ebuf, Lpre in Hres. change (7 * N.of_nat 0) with 0 in Hres.
  rewrite Hres. change (2 ^ 0) with 1. rewrite N.mul_1_l, N.add_0_l.
  assert (Fb : Forall (fun x => x < 256) (e ++ [b])).
  { rewrite Ebuf, Ew in Hb. apply Forall_app in Hb as [_ Hb]. apply Forall_app in Hb as [Hb _]. exact Hb. }
  destruct (Z.ltb_spec 10 (Z.of_nat (length pre + S (length e)) - start)); [lia|].
  destruct (N.leb_spec 128 b) as [Hb128|Hb128].
  - split; [discriminate|]. intros out c. split; [discriminate|].
    intros (pre' & e' & post' & v & E1 & E2 & Hc & Hc2 & Hl & Hv & _). exfalso.
    assert (pre' = pre /\ e' ++ post' = w) as [-> Ew'].
    { apply app_eq_len; [congruence|lia]. }
    destruct (varint_enc_shape _ _ Hv) as (e2 & b2 & -> & F2 & L2).
    symmetry in Ew'. rewrite Ew in Ew'. rewrite <- !app_assoc in Ew'.
    rewrite app_length in *. cbn [length app] in *.
    (* the terminator b2 lies inside e ++ [b], all of whose bytes are >= 128 *)
    assert (Hlen : (length e2 <= length e)%nat) by lia.
    assert (G : Forall (fun x => 128 <= x) (e ++ [b])) by (apply Forall_app; split; auto).
    assert (In b2 (e ++ [b])).
    { assert (nth_error (e ++ b :: post) (length e2) = Some b2).
      { rewrite Ew', nth_error_app2, Nat.sub_diag by lia. reflexivity. }
      replace (e ++ b :: post) with ((e ++ [b]) ++ post) in H0 by (rewrite <- app_assoc; reflexivity).
      rewrite nth_error_app1 in H0 by (rewrite app_length; cbn [length]; lia).
      eapply nth_error_In; eauto. }
    rewrite Forall_forall in G. apply G in H0. lia.
  - split; [discriminate|]. intros out c.
    assert (Hve : varint_enc (e ++ [b]) (v7 (e ++ [b]))).
    { apply varint_enc_v7; auto. apply Forall_app in Fb as [Fb _]. exact Fb. }
    split.
    + intros E. injection E as E1 E2. exists pre, (e ++ [b]), post, (v7 (e ++ [b])).
      rewrite app_length. cbn [length].
      repeat split; try lia; try (rewrite Ebuf, Ew; reflexivity); auto.
    + intros (pre' & e' & post' & v & E1 & E2 & Hc & Hc2 & Hl & Hv & Ho).
      assert (pre' = pre /\ e' ++ post' = w) as [-> Ew'].
      { apply app_eq_len; [congruence|lia]. }
      symmetry in Ew'. rewrite Ew in Ew'.
      destruct (varint_enc_det _ _ _ _ _ _ Hve Hv Ew') as (Ee & Ev & _).
      rewrite Ho, <- Ev. f_equal. rewrite Hc, <- Ee, app_length. cbn [length]. lia.
Qed.

Lemma to_int64_of_int64 z : (- two63z <= z < two63z)%Z -> to_int64 (of_int64 z) = z.
Proof. unfold to_int64, of_int64, two63z, two64. intros H. destruct (Z.ltb_spec (Z.of_N (Z.to_N (z mod Z.of_N 18446744073709551616))) 9223372036854775808); lia. Qed.

Lemma of_int64_range z : of_int64 z < two64.
Proof. unfold of_int64, two64. lia. Qed.

(** Round trip through ReadVarInt, with arbitrary bytes around. *)
Lemma read_make_varint v pre post endp :
  v < two64 -> Forall (fun b => b < 256) (pre ++ post) ->
  (Z.of_nat (length pre) + varint_size v <= endp + 1)%Z ->
  (endp < Z.of_nat (length (pre ++ make_varint v ++ post)))%Z ->
  read_varint (pre ++ make_varint v ++ post) (Z.of_nat (length pre)) endp
  = RvOk (to_int64 v) (Z.of_nat (length pre) + varint_size v)%Z.
Proof.
  intros Hv Hb He Hl.
  apply read_varint_spec; [lia|exact Hl| |].
  - apply Forall_app in Hb as [H1 H2]. apply Forall_app. split; [exact H1|].
    apply Forall_app. split; [apply make_varint_bytes|exact H2].
  - exists pre, (make_varint v), post, v. pose proof (make_varint_length v).
    repeat split; try lia.
    + apply make_varint_length10, Hv.
    + apply make_varint_enc.
    + rewrite N.mod_small by exact Hv. reflexivity.
Qed.
