(** Padding (C01), metadata scan and fast parse (C04). *)
From Coq Require Import List NArith ZArith Bool Lia ZifyBool ZifyNat ZifyN.
From Verif Require Import Wire_Model Wire_Proofs Wire_Proofs2.
Import ListNotations.
Open Scope N_scope.
Ltac Zify.zify_post_hook ::= Z.div_mod_to_equations.

(** * Padding *)

(** Everything but payload and trim. *)
Definition same_metadata (a b : grr) : Prop :=
  rpc_index a = rpc_index b /\ trace_ctx a = trace_ctx b /\ warmup a = warmup b /\
  response_payload_size a = response_payload_size b /\
  server_processing_time_ns a = server_processing_time_ns b /\
  error_message a = error_message b /\ server_instance a = server_instance b /\
  before_payload32 a = before_payload32 b /\ before_payload64 a = before_payload64 b /\
  after_payload32 a = after_payload32 b /\ after_payload64 a = after_payload64 b.

(** The message with neither payload nor trim. *)
Definition bare (m : grr) : grr :=
  mkGrr (rpc_index m) (trace_ctx m) (warmup m) (response_payload_size m)
        (server_processing_time_ns m) (error_message m) (server_instance m)
        (before_payload32 m) (before_payload64 m) None None
        (after_payload32 m) (after_payload64 m).
Definition wire_size (m : grr) : Z := Z.of_nat (length (serialize m)).

Definition trim_size (t : option bool) : Z := match t with Some _ => 2%Z | None => 0%Z end.
Definition payload_size (p : option bytes) : Z :=
  match p with
  | Some b => (1 + varint_size (N.of_nat (length b)) + Z.of_nat (length b))%Z
  | None => 0%Z
  end.

Lemma wire_size_eq m t p :
  wire_size (set_payload (set_trim m t) p) = (wire_size (bare m) + trim_size t + payload_size p)%Z.
Proof.
  unfold wire_size, serialize, grr_fields, bare, set_payload, set_trim, fields_before, fields_after;
  cbn [rpc_index trace_ctx warmup response_payload_size
        server_processing_time_ns error_message server_instance
        before_payload32 before_payload64 trim payload after_payload32 after_payload64].
  rewrite !enc_fields_app, !app_length. cbn [opt_field enc_fields flat_map length].
  assert (Ht : Z.of_nat (length (flat_map enc_field (opt_field 14 w_bool t))) = trim_size t).
  { destruct t as [[]|]; reflexivity. }
  assert (Hp : Z.of_nat (length (flat_map enc_field (opt_field 15 WLen p))) = payload_size p).
  { destruct p as [b|]; [|reflexivity]. cbn [opt_field flat_map payload_size].
    unfold enc_field; cbn [fst snd enc_wval wire_type].
    change (make_varint (15 * 8 + 2)) with [122].
    rewrite app_nil_r, !app_length. cbn [length].
    pose proof (make_varint_length (N.of_nat (length b))). lia. }
  fold (enc_fields (opt_field 14 w_bool t)) in *.
  fold (enc_fields (opt_field 15 WLen p)) in *.
  unfold enc_fields in *. lia.
Qed.

Lemma set_set_payload m p q : set_payload (set_payload m p) q = set_payload m q.
Proof. reflexivity. Qed.
Lemma bare_def m : set_trim (set_payload m None) None = bare m.
Proof. reflexivity. Qed.
Lemma set_payload_bare m t p : set_payload (set_trim m t) p = set_payload (set_trim (bare m) t) p.
Proof. reflexivity. Qed.

(** The correction of line 156-165 is exact: with k = VarIntSize pad >= 2. *)
Lemma pow128_ge k : (2 <= k)%nat -> N.of_nat k + 128 ^ N.of_nat (k - 2) <= 128 ^ N.of_nat (k - 1).
Proof.
  intros H. induction k as [|k IH]; [lia|].
  destruct (Nat.eq_dec k 1) as [->|Hk]; [cbn; lia|].
  specialize (IH ltac:(lia)).
  replace (S k - 1)%nat with (S (k - 1)) by lia. replace (S k - 2)%nat with (S (k - 2)) by lia.
  rewrite !Nat2N.inj_succ, !N.pow_succ_r'. lia.
Qed.

Lemma pad_correction pad :
  (1 <= pad)%Z -> (2 <= varint_size (Z.to_N pad))%Z ->
  let k := varint_size (Z.to_N pad) in
  let np := (pad - (k - 1))%Z in
  (varint_size (Z.to_N np) = k /\ (0 < np)%Z) \/
  (varint_size (Z.to_N np) = k - 1 /\ varint_size (Z.to_N (np + 1 - 2)) = k - 1 /\ (0 < np + 1 - 2)%Z)%Z.
Proof.
  intros Hp Hk k np.
  assert (exists kk, k = Z.of_nat kk /\ (2 <= kk)%nat) as [kk [Ek Hkk]]
    by (exists (Z.to_nat k); subst k; lia).
  assert (Hs : varint_size (Z.to_N pad) = Z.of_nat kk) by (subst k; lia).
  apply varint_size_spec in Hs; [|lia]. destruct Hs as [[?|Hlo] Hhi]; [lia|].
  pose proof (pow128_ge kk Hkk) as Hge.
  assert (H2 : 1 <= 128 ^ N.of_nat (kk - 2)) by (assert (128 ^ N.of_nat (kk - 2) <> 0) by (apply N.pow_nonzero; lia); lia).
  destruct (N.le_gt_cases (128 ^ N.of_nat (kk - 1)) (Z.to_N np)) as [Hc|Hc].
  - left. split; [|lia]. rewrite Ek. apply varint_size_spec; [lia|]. split; [right; exact Hc|lia].
  - right. replace (k - 1)%Z with (Z.of_nat (kk - 1)) by lia.
    assert (Hb : forall x, (128 ^ N.of_nat (kk - 2) <= Z.to_N x) -> Z.to_N x < 128 ^ N.of_nat (kk - 1) ->
                 varint_size (Z.to_N x) = Z.of_nat (kk - 1)).
    { intros x H3 H4. apply varint_size_spec; [lia|].
      replace (kk - 1 - 1)%nat with (kk - 2)%nat by lia. auto. }
    split; [|split].
    + apply Hb; lia.
    + apply Hb; lia.
    + lia.
Qed.

Lemma byte_size_wire m : byte_size m = wire_size m.
Proof. reflexivity. Qed.

Lemma payload_size_repeat z :
  (0 <= z)%Z ->
  payload_size (Some (alloc_payload_cord (Z.to_nat z))) = (1 + varint_size (Z.to_N z) + z)%Z.
Proof.
  intros H. unfold payload_size, alloc_payload_cord. rewrite repeat_length.
  replace (N.of_nat (Z.to_nat z)) with (Z.to_N z) by lia. lia.
Qed.

Definition payload_is_filler (m : grr) : Prop :=
  match payload m with Some b => Forall (fun x => x = 68) b | None => True end.

Lemma repeat_filler n : Forall (fun x => x = 68) (alloc_payload_cord n).
Proof. unfold alloc_payload_cord. induction n; cbn; constructor; auto. Qed.

Lemma add_padding_spec m target :
  (0 <= target)%Z ->
  let m' := add_padding m target in
  let b := wire_size (bare m) in
  same_metadata m' m /\
  (target = wire_size m -> m' = m) /\
  (target <> wire_size m ->
     (target <= b -> m' = bare m)%Z /\
     (target = b + 1 -> m' = set_payload (bare m) (Some []) /\ wire_size m' = b + 2)%Z /\
     (b + 2 <= target -> wire_size m' = target /\ payload_is_filler m' /\
                         (trim m' = None \/ trim m' = Some false))%Z).
Proof.
  intros Ht m' b. subst m'. unfold add_padding, get_padding. cbv zeta.
  change byte_size with wire_size. change (set_trim (set_payload m None) None) with (bare m).
  change (wire_size (bare m)) with b.
  destruct (Z.eqb_spec target (wire_size m)) as [E|E].
  { cbn. split; [repeat split|]. split; [auto|]. intros; contradiction. }
  destruct (Z.leb_spec target b) as [Hb|Hb].
  { cbn. split; [repeat split|]. split; [intros; contradiction|]. intros _.
    split; [reflexivity|]. split; intros; lia. }
  assert (S2 : wire_size (set_payload (bare m) (Some [])) = (b + 2)%Z).
  { change (wire_size (set_payload (set_trim (bare m) None) (Some [])) = (b + 2)%Z).
    rewrite wire_size_eq. change (wire_size (bare (bare m))) with b. cbn. lia. }
  rewrite S2.
  destruct (Z.leb_spec target (b + 2)) as [Hb2|Hb2].
  { cbn [Z.ltb Z.compare]. split; [repeat split|]. split; [intros; contradiction|]. intros _.
    split; [intros; lia|]. split; [intros; split; [reflexivity|exact S2]|].
    intros; split; [lia|]. split; [constructor|]. left; reflexivity. }
  set (pad := (target - (b + 2))%Z).
  change (varint_size 0) with 1%Z.
  pose proof (varint_size_pos (Z.to_N pad)) as Hvp.
  assert (Fin : forall t z, (0 < z)%Z -> (t = None \/ t = Some false) ->
     (b + trim_size t + 1 + varint_size (Z.to_N z) + z = target)%Z ->
     let m' := (if (0 <? z)%Z then set_payload (set_trim (set_payload (bare m) (Some [])) t)
                  (Some (alloc_payload_cord (Z.to_nat z)))
                else set_trim (set_payload (bare m) (Some [])) t) in
     same_metadata m' m /\ (target = wire_size m -> m' = m) /\
     (target <> wire_size m ->
     (target <= b -> m' = bare m)%Z /\
     (target = b + 1 -> m' = set_payload (bare m) (Some []) /\ wire_size m' = b + 2)%Z /\
     (b + 2 <= target -> wire_size m' = target /\ payload_is_filler m' /\
                         (trim m' = None \/ trim m' = Some false))%Z)).
  { intros t z Hz Htr Heq m'. subst m'. destruct (Z.ltb_spec 0 z); [|lia].
    split; [repeat split|]. split; [intros; contradiction|]. intros _.
    split; [intros; lia|]. split; [intros; lia|]. intros _. split; [|split].
    - change (set_payload (set_trim (set_payload (bare m) (Some [])) t) (Some (alloc_payload_cord (Z.to_nat z))))
        with (set_payload (set_trim (bare m) t) (Some (alloc_payload_cord (Z.to_nat z)))).
      rewrite wire_size_eq, payload_size_repeat by lia.
      change (bare (bare m)) with (bare m). fold b. lia.
    - apply repeat_filler.
    - exact Htr. }
  destruct (Z.ltb_spec 0 (varint_size (Z.to_N pad) - 1)) as [Hd|Hd].
  - destruct (pad_correction pad) as [[H1 H2]|(H1 & H2 & H3)]; [lia|lia| |].
    + destruct (Z.ltb_spec 0 (varint_size (Z.to_N pad) - varint_size (Z.to_N (pad - (varint_size (Z.to_N pad) - 1)))))
        as [Hd2|Hd2]; [lia|].
      apply (Fin None); [exact H2|auto|]. cbn [trim_size]. lia.
    + destruct (Z.ltb_spec 0 (varint_size (Z.to_N pad) - varint_size (Z.to_N (pad - (varint_size (Z.to_N pad) - 1)))))
        as [Hd2|Hd2]; [|lia].
      replace (pad - (varint_size (Z.to_N pad) - 1) + (varint_size (Z.to_N pad) -
          varint_size (Z.to_N (pad - (varint_size (Z.to_N pad) - 1)))) - 2)%Z
        with (pad - (varint_size (Z.to_N pad) - 1) + 1 - 2)%Z by lia.
      apply (Fin (Some false)); [exact H3|auto|]. cbn [trim_size]. lia.
  - apply (Fin None); [lia|auto|]. cbn [trim_size]. lia.
Qed.
