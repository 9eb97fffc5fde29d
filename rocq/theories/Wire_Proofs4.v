(** Metadata scan and fast parse (C04). *)
From Coq Require Import List NArith ZArith Bool Lia ZifyBool ZifyNat ZifyN.
From Verif Require Import Wire_Model Wire_Proofs Wire_Proofs2.
Import ListNotations.
Open Scope N_scope.
Ltac Zify.zify_post_hook ::= Z.div_mod_to_equations.

Definition is_bytes (b : bytes) : Prop := Forall (fun x => x < 256) b.
Lemma is_bytes_app a b : is_bytes (a ++ b) <-> is_bytes a /\ is_bytes b.
Proof. apply Forall_app. Qed.

Lemma land7 z : (0 <= z)%Z -> Z.land z 7 = (z mod 8)%Z.
Proof. intros. change 7%Z with (Z.ones 3). rewrite Z.land_ones by lia. reflexivity. Qed.
Lemma shiftr3 z : Z.shiftr z 3 = (z / 8)%Z.
Proof. rewrite Z.shiftr_div_pow2 by lia. reflexivity. Qed.

(** Reading one varint that the encoder wrote, anywhere in a byte buffer. *)
Lemma read_at buf pre v post :
  buf = pre ++ make_varint v ++ post -> is_bytes buf -> v < two64 ->
  read_varint buf (Z.of_nat (length pre)) (Z.of_nat (length buf) - 1)
  = RvOk (to_int64 v) (Z.of_nat (length (pre ++ make_varint v))).
Proof.
  intros -> Hb Hv.
  pose proof (make_varint_length v) as L.
  rewrite read_make_varint; [f_equal; rewrite app_length; lia|exact Hv| | |].
  - rewrite !is_bytes_app in Hb. apply Forall_app. tauto.
  - rewrite !app_length. lia.
  - lia.
Qed.

Lemma to_int64_small v : (Z.of_N v < two63z)%Z -> to_int64 v = Z.of_N v.
Proof. intros H. unfold to_int64. destruct (Z.ltb_spec (Z.of_N v) two63z); [reflexivity|lia]. Qed.

(** The scan steps over one complete field that is not the payload. *)
Lemma mdl_step fuel buf pre f post orig :
  buf = pre ++ enc_field f ++ post -> is_bytes buf -> wfield_ok f -> fst f <> 15 ->
  metadata_length_loop (S fuel) buf (Z.of_nat (length buf) - 1) (Z.of_nat (length pre)) orig
  = metadata_length_loop fuel buf (Z.of_nat (length buf) - 1) (Z.of_nat (length (pre ++ enc_field f))) orig.
Proof.
  intros E Hb [Hn Hw] H15. destruct f as [num w]; cbn [fst snd] in *.
  unfold enc_field in *; cbn [fst snd] in *.
  set (tag := num * 8 + wire_type w) in *.
  assert (Hwt : wire_type w = 0 \/ wire_type w = 1 \/ wire_type w = 2 \/ wire_type w = 5)
    by (destruct w; cbn; auto).
  assert (Htag : tag < 2 ^ 40) by (change (2^40) with 1099511627776; subst tag; lia).
  change (2^40) with 1099511627776 in Htag.
  cbn [metadata_length_loop].
  assert (Hlt : (Z.of_nat (length pre) <=? Z.of_nat (length buf) - 1)%Z = true).
  { apply Z.leb_le. rewrite E, !app_length. pose proof (varint_enc_pos _ _ (make_varint_enc tag)). lia. }
  rewrite Hlt.
  rewrite (read_at buf pre tag (enc_wval w ++ post));
    [|rewrite E, <- !app_assoc; reflexivity|exact Hb|unfold two64; lia].
  rewrite to_int64_small by (unfold two63z; lia).
  rewrite land7, shiftr3 by lia.
  replace (Z.of_N tag mod 8)%Z with (Z.of_N (wire_type w)) by (subst tag; lia).
  replace (Z.of_N tag / 8)%Z with (Z.of_N num) by (subst tag; lia).
  destruct w as [v|v|b|v]; cbn [wire_type enc_wval wval_ok Z.of_N] in *; unfold Z.eqb; cbn [Pos.eqb orb].
  - rewrite (read_at buf (pre ++ make_varint tag) v post);
      [|rewrite E, <- !app_assoc; reflexivity|exact Hb|exact Hw].
    rewrite <- app_assoc. reflexivity.
  - f_equal. rewrite !app_length, le_bytes_length. lia.
  - rewrite (read_at buf (pre ++ make_varint tag) (N.of_nat (length b)) (b ++ post));
      [|rewrite E, <- !app_assoc; reflexivity|exact Hb|unfold two63z, two64 in *; lia].
    rewrite to_int64_small by lia.
    fold (Z.eqb (Z.of_N num) kPayloadField).
    destruct (Z.eqb_spec (Z.of_N num) kPayloadField) as [E2|E2]; [unfold kPayloadField in E2; lia|].
    f_equal. rewrite !app_length. lia.
  - f_equal. rewrite !app_length, le_bytes_length. lia.
Qed.

Lemma mdl_steps fs : forall fuel buf pre post orig,
  buf = pre ++ enc_fields fs ++ post -> is_bytes buf -> Forall wfield_ok fs ->
  Forall (fun f => fst f <> 15) fs ->
  metadata_length_loop (length fs + fuel) buf (Z.of_nat (length buf) - 1) (Z.of_nat (length pre)) orig
  = metadata_length_loop fuel buf (Z.of_nat (length buf) - 1) (Z.of_nat (length (pre ++ enc_fields fs))) orig.
Proof.
  induction fs as [|f fs IH]; intros fuel buf pre post orig E Hb Hok H15.
  - cbn [length Nat.add enc_fields flat_map]. rewrite app_nil_r. reflexivity.
  - apply Forall_cons_iff in Hok as [Hok1 Hok2]. apply Forall_cons_iff in H15 as [H151 H152].
    cbn [length Nat.add enc_fields flat_map] in *. fold (enc_fields fs) in *.
    rewrite <- app_assoc in E.
    rewrite (mdl_step _ buf pre f (enc_fields fs ++ post)) by assumption.
    rewrite (IH fuel buf (pre ++ enc_field f) post) by (auto; rewrite <- app_assoc; exact E).
    rewrite <- app_assoc. reflexivity.
Qed.

(** The payload field ends the scan. *)
Lemma mdl_payload fuel buf pre n q orig :
  buf = pre ++ [122] ++ make_varint n ++ q -> is_bytes buf -> (Z.of_N n < two63z)%Z ->
  metadata_length_loop (S fuel) buf (Z.of_nat (length buf) - 1) (Z.of_nat (length pre)) orig
  = if (Z.of_nat (length q) <=? Z.of_N n + 1)%Z
    then MdlRet (Z.of_nat (length pre)) (Some (Z.of_nat (length (pre ++ [122] ++ make_varint n))))
    else MdlRet orig None.
Proof.
  intros E Hb Hn. cbn [metadata_length_loop].
  assert (Hlt : (Z.of_nat (length pre) <=? Z.of_nat (length buf) - 1)%Z = true).
  { apply Z.leb_le. rewrite E, !app_length. cbn [length]. lia. }
  rewrite Hlt.
  rewrite (read_at buf pre 122 (make_varint n ++ q)) by (auto; unfold two64; lia).
  change (to_int64 122) with 122%Z. change (Z.land 122 7) with 2%Z. change (Z.shiftr 122 3) with 15%Z.
  change (2 =? 0)%Z with false. change (2 =? 2)%Z with true. change (15 =? kPayloadField)%Z with true.
  cbv iota zeta. change (make_varint 122) with [122].
  rewrite (read_at buf (pre ++ [122]) n q);
    [|rewrite E, <- !app_assoc; reflexivity|exact Hb|unfold two63z, two64 in *; lia].
  rewrite to_int64_small by exact Hn.
  rewrite <- app_assoc. set (hl := length (pre ++ [122] ++ make_varint n)).
  assert (Hl : length buf = (hl + length q)%nat) by (unfold hl; rewrite E, !app_length; lia).
  destruct (Z.leb_spec (Z.of_nat (length buf) - 1) (Z.of_nat hl + Z.of_N n));
  destruct (Z.leb_spec (Z.of_nat (length q)) (Z.of_N n + 1)); try lia; [|reflexivity].
  f_equal. f_equal. lia.
Qed.

(** ** Bytes of encoded fields *)
Definition wval_bytes (w : wval) : Prop := match w with WLen b => is_bytes b | _ => True end.
Lemma enc_field_bytes f : wval_bytes (snd f) -> is_bytes (enc_field f).
Proof.
  intros H. unfold enc_field. apply is_bytes_app. split; [apply make_varint_bytes|].
  destruct f as [n [v|v|b|v]]; cbn [snd enc_wval] in *; try apply make_varint_bytes; try apply le_bytes_bytes.
  apply is_bytes_app. split; [apply make_varint_bytes|exact H].
Qed.
Lemma enc_fields_bytes fs : Forall (fun f => wval_bytes (snd f)) fs -> is_bytes (enc_fields fs).
Proof.
  intros H. unfold enc_fields. induction H as [|f fs Hf H IH]; cbn [flat_map]; [constructor|].
  apply is_bytes_app. split; [apply enc_field_bytes, Hf|exact IH].
Qed.
Lemma w_packed_bytes n l : Forall (fun f => wval_bytes (snd f)) (w_packed n l).
Proof.
  destruct l as [|z l]; cbn [w_packed]; constructor; [|constructor].
  cbn [snd wval_bytes]. fold (enc_packed (z :: l)). unfold enc_packed.
  induction (z :: l) as [|y r IH]; cbn [flat_map]; [constructor|].
  apply is_bytes_app. split; [apply make_varint_bytes|exact IH].
Qed.
Lemma tc_bytes t : is_bytes (enc_fields (tc_fields t)).
Proof. apply enc_fields_bytes. unfold tc_fields. rewrite !Forall_app. repeat split; apply w_packed_bytes. Qed.

Lemma opt_field_bytes {A} n enc (o : option A) :
  opt_ok (fun a => wval_bytes (enc a)) o -> Forall (fun f => wval_bytes (snd f)) (opt_field n enc o).
Proof. destruct o; cbn; repeat constructor; auto. Qed.

Lemma opt_ok_imp {A} (P Q : A -> Prop) o : (forall a, P a -> Q a) -> opt_ok P o -> opt_ok Q o.
Proof. destruct o; cbn; auto. Qed.
Lemma opt_ok_all {A} (P : A -> Prop) o : (forall a, P a) -> opt_ok P o.
Proof. destruct o; cbn; auto. Qed.

Lemma before_bytes m : grr_ok m -> is_bytes (enc_fields (fields_before m)).
Proof.
  intros H. apply enc_fields_bytes. unfold fields_before. rewrite !Forall_app.
  repeat split; apply opt_field_bytes; try (apply opt_ok_all; intros; exact I).
  - apply opt_ok_all. intros t. apply tc_bytes.
  - eapply opt_ok_imp; [|apply (ok9 m H)]. intros b Hb; apply Hb.
Qed.
Lemma after_bytes m : is_bytes (enc_fields (fields_after m)).
Proof.
  apply enc_fields_bytes. unfold fields_after. rewrite !Forall_app.
  repeat split; apply opt_field_bytes; apply opt_ok_all; intros; exact I.
Qed.

Lemma opt_field_num {A} n (enc : A -> wval) o : n <> 15 -> Forall (fun f => fst f <> 15) (opt_field n enc o).
Proof. destruct o; cbn; repeat constructor; auto. Qed.
Lemma before_num m : Forall (fun f => fst f <> 15) (fields_before m).
Proof. unfold fields_before. rewrite !Forall_app. repeat split; apply opt_field_num; lia. Qed.
Lemma after_num m : Forall (fun f => fst f <> 15) (fields_after m).
Proof. unfold fields_after. rewrite !Forall_app. repeat split; apply opt_field_num; lia. Qed.

Lemma serialize_split m p :
  payload m = Some p ->
  serialize m = (enc_fields (fields_before m) ++ [122] ++ make_varint (N.of_nat (length p)))
                ++ p ++ enc_fields (fields_after m).
Proof.
  intros E. unfold serialize, grr_fields. rewrite !enc_fields_app, E. cbn [opt_field].
  rewrite enc_payload_field. rewrite make_varint_payload_tag. rewrite <- !app_assoc. reflexivity.
Qed.

(** Sizes of the metadata and of metadata plus payload header, stated through
    the wire format of the message without its payload. *)
Definition metadata_of (m : grr) : bytes := enc_fields (fields_before m).
Definition header_size (m : grr) (p : bytes) : nat :=
  (length (metadata_of m) + 1 + length (make_varint (N.of_nat (length p))))%nat.

Lemma metadata_length_spec m p n fuel orig :
  grr_ok m -> payload m = Some p -> (header_size m p <= n)%nat ->
  (length (fields_before m) < fuel)%nat ->
  let frag := firstn n (serialize m) in
  metadata_length fuel frag orig =
  if (Nat.leb (length frag) (header_size m p + length p + 1))
  then MdlRet (Z.of_nat (length (metadata_of m))) (Some (Z.of_nat (header_size m p)))
  else MdlRet orig None.
Proof.
  intros Hok Hp Hn Hf frag.
  pose proof (serialize_split m p Hp) as Es.
  set (H := enc_fields (fields_before m) ++ [122] ++ make_varint (N.of_nat (length p))) in *.
  set (rest := p ++ enc_fields (fields_after m)) in *.
  assert (LH : length H = header_size m p)
    by (unfold H, header_size, metadata_of; rewrite !app_length; cbn [length]; lia).
  set (q := firstn (n - length H) rest).
  assert (Ef : frag = H ++ q).
  { unfold frag. rewrite Es, firstn_app, firstn_all2 by lia. reflexivity. }
  assert (Hbp : bytes_ok p) by (pose proof (ok15 m Hok) as P; rewrite Hp in P; exact P).
  assert (Hb : is_bytes frag).
  { rewrite Ef. apply is_bytes_app. split.
    - unfold H. rewrite !is_bytes_app. split; [apply before_bytes, Hok|].
      split; [repeat constructor; lia|apply make_varint_bytes].
    - unfold q. assert (is_bytes rest) as R by (apply is_bytes_app; split; [apply Hbp|apply after_bytes]).
      unfold is_bytes in *. rewrite Forall_forall in *. intros x Hx. apply R.
      rewrite <- (firstn_skipn (n - length H) rest). apply in_or_app. left. exact Hx. }
  unfold metadata_length.
  replace fuel with (length (fields_before m) + S (fuel - length (fields_before m) - 1))%nat by lia.
  change 0%Z with (Z.of_nat (length (@nil N))).
  rewrite (mdl_steps (fields_before m) _ frag [] ([122] ++ make_varint (N.of_nat (length p)) ++ q));
    [|rewrite Ef; unfold H; rewrite <- !app_assoc; reflexivity|exact Hb|apply fields_before_ok, Hok|apply before_num].
  cbn [app].
  rewrite (mdl_payload _ frag (enc_fields (fields_before m)) (N.of_nat (length p)) q);
    [|rewrite Ef; unfold H; rewrite <- !app_assoc; reflexivity|exact Hb|destruct Hbp; lia].
  change (enc_fields (fields_before m) ++ [122] ++ make_varint (N.of_nat (length p))) with H. rewrite LH.
  assert (Lf : length frag = (header_size m p + length q)%nat) by (rewrite Ef, app_length, LH; reflexivity).
  destruct (Z.leb_spec (Z.of_nat (length q)) (Z.of_N (N.of_nat (length p)) + 1));
  destruct (Nat.leb_spec (length frag) (header_size m p + length p + 1)); try lia; reflexivity.
Qed.

(** Without a payload field the scan always ends in the failing CHECK. *)
Lemma metadata_length_no_payload m fuel orig :
  grr_ok m -> payload m = None -> (length (grr_fields m) < fuel)%nat ->
  metadata_length fuel (serialize m) orig = MdlCheckFailed.
Proof.
  intros Hok Hp Hf.
  assert (Eg : grr_fields m = fields_before m ++ fields_after m) by (unfold grr_fields; rewrite Hp; reflexivity).
  assert (Hb : is_bytes (serialize m)).
  { unfold serialize. rewrite Eg, enc_fields_app. apply is_bytes_app.
    split; [apply before_bytes, Hok|apply after_bytes]. }
  unfold metadata_length.
  replace fuel with (length (grr_fields m) + S (fuel - length (grr_fields m) - 1))%nat by lia.
  change 0%Z with (Z.of_nat (length (@nil N))).
  rewrite (mdl_steps (grr_fields m) _ (serialize m) [] []).
  - cbn [app]. fold (serialize m). cbn [metadata_length_loop].
    destruct (Z.leb_spec (Z.of_nat (length (serialize m))) (Z.of_nat (length (serialize m)) - 1)); [lia|].
    destruct (Z.eqb_spec (Z.of_nat (length (serialize m)) - (Z.of_nat (length (serialize m)) - 1)) 0); [lia|reflexivity].
  - rewrite app_nil_r. reflexivity.
  - exact Hb.
  - rewrite Eg. apply Forall_app; split; [apply fields_before_ok, Hok|apply fields_after_ok, Hok].
  - rewrite Eg. apply Forall_app; split; [apply before_num|apply after_num].
Qed.

(** ** FastParse *)
(** The message data from offset [o] to its end at [L] is delivered in at most
    [n] contiguous chunks. *)
Fixpoint delivered (contiguous : nat -> nat) (n : nat) (o L : nat) : Prop :=
  match n with
  | O => False
  | S k => (o + contiguous o = L)%nat \/
           ((o + contiguous o < L)%nat /\ delivered contiguous k (o + contiguous o) L)
  end.

Lemma skipn_add {A} a b (l : list A) : skipn (a + b) l = skipn b (skipn a l).
Proof.
  revert l; induction a as [|a IH]; intros l; [reflexivity|].
  destruct l; cbn [Nat.add skipn]; [rewrite skipn_nil; reflexivity|apply IH].
Qed.

Lemma collect_chunks_spec n msg contiguous : forall o acc,
  delivered contiguous n o (length msg) ->
  collect_chunks n msg contiguous o acc = Some (acc ++ skipn o msg).
Proof.
  induction n as [|k IH]; intros o acc H; [destruct H|].
  cbn [collect_chunks delivered] in *.
  destruct H as [H|[H1 H2]].
  - destruct (Nat.eqb_spec (o + contiguous o) (length msg)); [|lia].
    do 2 f_equal. rewrite firstn_all2; [reflexivity|]. rewrite skipn_length. lia.
  - destruct (Nat.eqb_spec (o + contiguous o) (length msg)); [lia|].
    rewrite IH by exact H2. f_equal. rewrite <- app_assoc. f_equal.
    rewrite <- (firstn_skipn (contiguous o) (skipn o msg)) at 2. f_equal.
    apply skipn_add.
Qed.

Lemma fields_before_length m : (length (fields_before m) <= length (metadata_of m))%nat.
Proof. apply enc_fields_length. Qed.

Lemma set_payload_ok m : grr_ok m -> grr_ok (set_payload m None).
Proof. intros []; constructor; auto. exact I. Qed.

Lemma parse_metadata m :
  grr_ok m -> after_payload32 m = None -> after_payload64 m = None ->
  parse (metadata_of m) = Some (set_payload m None).
Proof.
  intros Hok H1 H2.
  rewrite <- (parse_serialize (set_payload m None)) by (apply set_payload_ok, Hok).
  f_equal. unfold serialize, grr_fields, metadata_of.
  rewrite !enc_fields_app. cbn [payload set_payload opt_field].
  assert (E : fields_after (set_payload m None) = []) by (unfold fields_after; cbn; rewrite H1, H2; reflexivity).
  rewrite E. cbn [enc_fields flat_map]. rewrite !app_nil_r. reflexivity.
Qed.

Lemma fast_parse_spec m p contiguous :
  grr_ok m -> payload m = Some p -> after_payload32 m = None -> after_payload64 m = None ->
  (header_size m p <= contiguous 0%nat)%nat ->
  delivered contiguous homa_max_bpages (header_size m p) (length (serialize m)) ->
  fast_parse (serialize m) contiguous = FpRet true m.
Proof.
  intros Hok Hp H16 H17 Hh Hd. unfold fast_parse. cbv zeta.
  set (chunk := firstn (contiguous 0%nat) (serialize m)).
  pose proof (serialize_split m p Hp) as Es.
  assert (Ea : enc_fields (fields_after m) = []) by (unfold fields_after; rewrite H16, H17; reflexivity).
  rewrite Ea, app_nil_r in Es.
  set (H := enc_fields (fields_before m) ++ [122] ++ make_varint (N.of_nat (length p))) in *.
  assert (LH : length H = header_size m p)
    by (unfold H, header_size, metadata_of; rewrite !app_length; cbn [length]; lia).
  assert (Ls : length (serialize m) = (header_size m p + length p)%nat) by (rewrite Es, app_length, LH; reflexivity).
  assert (Lv : (1 <= length (make_varint (N.of_nat (length p))))%nat)
    by (apply (varint_enc_pos _ _ (make_varint_enc _))).
  assert (Lh2 : (2 <= header_size m p)%nat) by (unfold header_size; lia).
  assert (Lc : (header_size m p <= length chunk <= header_size m p + length p)%nat)
    by (unfold chunk; rewrite firstn_length; lia).
  destruct (Nat.eqb_spec (length chunk) 1) as [E1|E1]; [lia|]. cbn [andb].
  destruct (Nat.leb (length (serialize m)) (N.to_nat 4096) && Nat.eqb (length chunk) (length (serialize m))) eqn:C.
  { apply andb_prop in C as [_ C]. apply Nat.eqb_eq in C.
    assert (chunk = serialize m) as ->.
    { unfold chunk in *. apply firstn_all2. rewrite firstn_length in C. lia. }
    rewrite parse_serialize by exact Hok. reflexivity. }
  unfold chunk at 1 2.
  rewrite (metadata_length_spec m p); [|exact Hok|exact Hp|exact Hh|].
  2:{ pose proof (fields_before_length m). unfold header_size in *. fold chunk. lia. }
  fold chunk.
  destruct (Nat.leb_spec (length chunk) (header_size m p + length p + 1)); [|lia].
  destruct (Z.leb_spec (Z.of_nat (length (metadata_of m))) (Z.of_nat (length chunk)));
    [|unfold header_size in *; lia].
  rewrite Nat2Z.id.
  assert (Em : firstn (length (metadata_of m)) chunk = metadata_of m).
  { unfold chunk. rewrite firstn_firstn, Nat.min_l by (unfold header_size in *; lia).
    rewrite Es. unfold H, metadata_of. rewrite <- app_assoc.
    rewrite firstn_app, Nat.sub_diag, firstn_all, firstn_O, app_nil_r. reflexivity. }
  rewrite Em, parse_metadata by assumption.
  rewrite Nat2Z.id.
  rewrite collect_chunks_spec by exact Hd. cbn [app].
  f_equal. replace (skipn (header_size m p) (serialize m)) with p.
  - rewrite <- Hp. destruct m; reflexivity.
  - rewrite Es, <- LH, skipn_app, skipn_all, Nat.sub_diag. reflexivity.
Qed.

(** A payload-free message that is long, or split, crashes the receiver. *)
Lemma fast_parse_no_payload_crash m contiguous :
  grr_ok m -> payload m = None -> (4096 < N.of_nat (length (serialize m))) ->
  (length (serialize m) <= contiguous 0%nat)%nat ->
  fast_parse (serialize m) contiguous = FpCrash.
Proof.
  intros Hok Hp Hl Hc. unfold fast_parse. cbv zeta.
  rewrite (firstn_all2 (n := contiguous 0%nat)) by exact Hc.
  destruct (Nat.eqb_spec (length (serialize m)) 1); [lia|]. cbn [andb].
  destruct (Nat.leb_spec (length (serialize m)) (N.to_nat 4096)); [lia|]. cbn [andb].
  rewrite metadata_length_no_payload; auto.
  pose proof (enc_fields_length (grr_fields m)). unfold serialize. lia.
Qed.

(** A backwards jump (negative length) makes the scan run for ever. *)
Definition looping_msg : bytes := [10; 245; 255; 255; 255; 255; 255; 255; 255; 255; 1].
Lemma metadata_length_diverges orig fuel : metadata_length fuel looping_msg orig = MdlFuel.
Proof.
  unfold metadata_length. change (Z.of_nat (length looping_msg) - 1)%Z with 10%Z.
  induction fuel as [|f IH]; [reflexivity|].
  cbn [metadata_length_loop].
  change (0 <=? 10)%Z with true. cbv iota.
  replace (read_varint looping_msg 0 10) with (RvOk 10 1) by (vm_compute; reflexivity).
  change (Z.land 10 7) with 2%Z. change (Z.shiftr 10 3) with 1%Z.
  change (2 =? 0)%Z with false. change (2 =? 2)%Z with true. change (1 =? kPayloadField)%Z with false.
  cbv iota zeta.
  replace (read_varint looping_msg 1 10) with (RvOk (-11) 11) by (vm_compute; reflexivity).
  change (11 + -11)%Z with 0%Z. exact IH.
Qed.

(** ** Statements used by the property file *)
Lemma metadata_of_plain m :
  after_payload32 m = None -> after_payload64 m = None ->
  metadata_of m = serialize (set_payload m None).
Proof.
  intros H1 H2. unfold serialize, grr_fields, metadata_of. rewrite !enc_fields_app.
  cbn [payload set_payload opt_field].
  assert (E : fields_after (set_payload m None) = []) by (unfold fields_after; cbn; rewrite H1, H2; reflexivity).
  rewrite E. cbn [enc_fields flat_map]. rewrite !app_nil_r. reflexivity.
Qed.

(** [hdr] bytes of metadata, payload tag and payload length; then the payload. *)
Definition payload_last (m : grr) (meta hdr : nat) (p : bytes) : Prop :=
  payload m = Some p /\ after_payload32 m = None /\ after_payload64 m = None /\
  meta = length (serialize (set_payload m None)) /\
  (hdr + length p = length (serialize m))%nat.

Lemma header_size_payload_last m meta hdr p : payload_last m meta hdr p ->
  hdr = header_size m p /\ meta = length (metadata_of m).
Proof.
  intros (Hp & H1 & H2 & -> & H3). split; [|rewrite metadata_of_plain by assumption; reflexivity].
  rewrite (serialize_split m p Hp) in H3.
  assert (E : fields_after m = []) by (unfold fields_after; rewrite H1, H2; reflexivity).
  rewrite E in H3. unfold header_size, metadata_of. rewrite !app_length in H3. cbn [length enc_fields flat_map] in H3. lia.
Qed.

Lemma scan_payload_last m meta hdr p n orig :
  grr_ok m -> payload_last m meta hdr p -> (hdr <= n)%nat ->
  metadata_length (S (length (firstn n (serialize m)))) (firstn n (serialize m)) orig
  = MdlRet (Z.of_nat meta) (Some (Z.of_nat hdr)).
Proof.
  intros Hok Hl Hn. destruct (header_size_payload_last _ _ _ _ Hl) as [E1 E2].
  destruct Hl as (Hp & H16 & H17 & _ & H3). subst hdr meta.
  pose proof (fields_before_length m) as Lf.
  assert (Lm : (length (metadata_of m) <= length (firstn n (serialize m)))%nat)
    by (rewrite firstn_length; unfold header_size in *; lia).
  rewrite (metadata_length_spec m p) by (auto; lia).
  destruct (Nat.leb_spec (length (firstn n (serialize m))) (header_size m p + length p + 1)); [reflexivity|].
  rewrite firstn_length in *. lia.
Qed.

Lemma fast_parse_payload_last m meta hdr p contiguous :
  grr_ok m -> payload_last m meta hdr p -> (hdr <= contiguous 0%nat)%nat ->
  delivered contiguous homa_max_bpages hdr (length (serialize m)) ->
  fast_parse (serialize m) contiguous = FpRet true m.
Proof.
  intros Hok Hl Hn Hd. destruct (header_size_payload_last _ _ _ _ Hl) as [E1 E2].
  destruct Hl as (Hp & H16 & H17 & _ & H3). subst.
  apply fast_parse_spec with (p := p); assumption.
Qed.

Lemma scan_after_fields m p orig :
  grr_ok m -> payload m = Some p -> (after_payload32 m <> None \/ after_payload64 m <> None) ->
  metadata_length (S (length (serialize m))) (serialize m) orig = MdlRet orig None.
Proof.
  intros Hok Hp Ha.
  pose proof (serialize_split m p Hp) as Es.
  assert (La : (2 <= length (enc_fields (fields_after m)))%nat).
  { unfold fields_after. destruct (after_payload32 m) as [v|]; destruct (after_payload64 m) as [w|]; cbn [opt_field app];
      try (exfalso; destruct Ha as [Ha|Ha]; apply Ha; reflexivity);
      cbn [enc_fields flat_map]; unfold enc_field; cbn [fst snd enc_wval]; rewrite !app_length;
      rewrite ?le_bytes_length; lia. }
  assert (Ls : length (serialize m) = (header_size m p + length p + length (enc_fields (fields_after m)))%nat).
  { rewrite Es. unfold header_size, metadata_of. rewrite !app_length. cbn [length]. lia. }
  rewrite <- (firstn_all (serialize m)) at 2.
  rewrite (metadata_length_spec m p); auto.
  - rewrite firstn_all. destruct (Nat.leb_spec (length (serialize m)) (header_size m p + length p + 1)); [lia|reflexivity].
  - lia.
  - pose proof (fields_before_length m). unfold header_size in *. lia.
Qed.

Lemma scan_diverges_witness : exists frag,
  Forall (fun b => b < 256) frag /\
  forall fuel original_length, metadata_length fuel frag original_length = MdlFuel.
Proof.
  exists looping_msg. split.
  - unfold looping_msg. repeat (constructor; [reflexivity|]). constructor.
  - intros. apply metadata_length_diverges.
Qed.

(** ** Any message with a payload *)
Definition drop_after (m : grr) : grr :=
  mkGrr (rpc_index m) (trace_ctx m) (warmup m) (response_payload_size m) (server_processing_time_ns m)
        (error_message m) (server_instance m) (before_payload32 m) (before_payload64 m) (trim m) (payload m) None None.
Lemma scan_exact m meta hdr p n orig : grr_ok m -> payload_last (drop_after m) meta hdr p ->
  (hdr <= n)%nat -> let frag := firstn n (serialize m) in
  metadata_length (S (length frag)) frag orig =
  if Nat.leb (length frag) (hdr + length p + 1) then MdlRet (Z.of_nat meta) (Some (Z.of_nat hdr)) else MdlRet orig None.
Proof.
  intros Hok Hl Hn frag. destruct (header_size_payload_last _ _ _ _ Hl) as [E1 E2].
  destruct Hl as (Hp & _). change (payload m = Some p) in Hp.
  change (hdr = header_size m p) in E1. change (meta = length (metadata_of m)) in E2. subst hdr meta.
  apply metadata_length_spec; auto.
  pose proof (fields_before_length m) as Lf. pose proof (serialize_split m p Hp) as Es.
  assert (length frag >= length (fields_before m))%nat; [|lia].
  unfold frag. rewrite firstn_length. rewrite Es, !app_length. unfold header_size, metadata_of in *. cbn [length]. lia.
Qed.
