(** Message level: serialization, parsing, padding, metadata scan. *)
From Coq Require Import List NArith ZArith Bool Lia ZifyBool ZifyNat ZifyN.
From Verif Require Import Wire_Model Wire_Proofs.
Import ListNotations.
Open Scope N_scope.
Ltac Zify.zify_post_hook ::= Z.div_mod_to_equations.

(** * Well-formed values: what the C++ types can hold. *)
Definition int32_ok (z : Z) : Prop := (- 2147483648 <= z < 2147483648)%Z.
Definition int64_ok (z : Z) : Prop := (- two63z <= z < two63z)%Z.
Definition bytes_ok (b : bytes) : Prop :=
  Forall (fun x => x < 256) b /\ (Z.of_nat (length b) < two63z)%Z.
Definition opt_ok {A} (P : A -> Prop) (o : option A) : Prop :=
  match o with None => True | Some a => P a end.
Definition ints_ok (l : list Z) : Prop :=
  Forall int64_ok l /\ (10 * Z.of_nat (length l) < two63z)%Z.
Definition tc_ok (t : trace_context) : Prop :=
  ints_ok (tc_engine_ids t) /\ ints_ok (tc_iterations t) /\
  ints_ok (tc_actionlist_indices t) /\ ints_ok (tc_actionlist_invocations t) /\
  ints_ok (tc_action_indices t) /\ ints_ok (tc_action_iterations t) /\
  ints_ok (tc_fanout_index t) /\
  (Z.of_nat (length (enc_fields (tc_fields t))) < two63z)%Z.
Record grr_ok (m : grr) : Prop := mkGrrOk {
  ok1 : opt_ok int32_ok (rpc_index m);
  ok2 : opt_ok tc_ok (trace_ctx m);
  ok4 : opt_ok int64_ok (response_payload_size m);
  ok5 : opt_ok int64_ok (server_processing_time_ns m);
  ok9 : opt_ok bytes_ok (error_message m);
  ok10 : opt_ok int32_ok (server_instance m);
  ok12 : opt_ok (fun v => v < 4294967296) (before_payload32 m);
  ok13 : opt_ok (fun v => v < two64) (before_payload64 m);
  ok15 : opt_ok bytes_ok (payload m);
  ok16 : opt_ok (fun v => v < 4294967296) (after_payload32 m);
  ok17 : opt_ok (fun v => v < two64) (after_payload64 m) }.

(** * Generic wire fields *)
Definition wval_ok (w : wval) : Prop :=
  match w with
  | WVarint v => v < two64
  | WFixed64 v => v < two64
  | WLen b => (Z.of_nat (length b) < two63z)%Z
  | WFixed32 v => v < 4294967296
  end.
Definition wfield_ok (f : wfield) : Prop := 1 <= fst f < 536870912 /\ wval_ok (snd f).

Lemma parse_varint_enc fuel e v r :
  varint_enc e v -> (length e <= fuel)%nat -> parse_varint fuel (e ++ r) = Some (v, r).
Proof.
  intros H. revert fuel. induction H as [b Hb|b e v H1 H2 H IH]; intros fuel Hf;
    (destruct fuel as [|f]; [cbn [length] in Hf; lia|]); cbn [app parse_varint].
  - destruct (N.ltb_spec b 128); [reflexivity|lia].
  - destruct (N.ltb_spec b 128); [lia|]. rewrite IH by (cbn [length] in Hf; lia). reflexivity.
Qed.

Lemma parse_make_varint v r : v < two64 -> parse_varint10 (make_varint v ++ r) = Some (v, r).
Proof.
  intros H. unfold parse_varint10.
  rewrite (parse_varint_enc 10 _ v) by (auto using make_varint_enc, make_varint_length10).
  rewrite N.mod_small by exact H. reflexivity.
Qed.

Lemma le_bytes_length n v : length (le_bytes n v) = n.
Proof. revert v. induction n as [|n IH]; intros v; cbn [le_bytes length]; auto. Qed.

Lemma le_value_bytes n v : v < 256 ^ N.of_nat n -> le_value (le_bytes n v) = v.
Proof.
  revert v. induction n as [|n IH]; intros v H; cbn [le_bytes le_value].
  - cbn in H. lia.
  - rewrite Nat2N.inj_succ, N.pow_succ_r' in H. rewrite IH by (apply N.div_lt_upper_bound; lia). lia.
Qed.

Lemma le_bytes_bytes n v : Forall (fun x => x < 256) (le_bytes n v).
Proof.
  revert v. induction n as [|n IH]; intros v; cbn [le_bytes]; constructor; auto. lia.
Qed.

Lemma take_exact_app (a b : bytes) : take_exact (length a) (a ++ b) = Some (a, b).
Proof.
  unfold take_exact. rewrite app_length.
  destruct (Nat.ltb_spec (length a + length b) (length a)); [lia|].
  rewrite firstn_app, Nat.sub_diag, firstn_all, firstn_O, app_nil_r.
  rewrite skipn_app, Nat.sub_diag, skipn_all. reflexivity.
Qed.

Lemma parse_enc_field f r : wfield_ok f -> parse_field (enc_field f ++ r) = Some (f, r).
Proof.
  destruct f as [num w]. unfold wfield_ok; cbn [fst snd]. intros [Hn Hw].
  unfold parse_field, enc_field; cbn [fst snd]. rewrite <- app_assoc.
  assert (Hwt : wire_type w < 8) by (destruct w; cbn; lia).
  rewrite parse_make_varint by (unfold two64; lia).
  replace ((num * 8 + wire_type w) / 8) with num by lia.
  replace ((num * 8 + wire_type w) mod 8) with (wire_type w) by lia.
  destruct w as [v|v|b|v]; cbn [wire_type enc_wval wval_ok] in *.
  - cbn [N.eqb]. rewrite parse_make_varint by assumption. reflexivity.
  - change (1 =? 0) with false. change (1 =? 1) with true. cbv iota.
    replace 8%nat with (length (le_bytes 8 v)) at 1 by apply le_bytes_length.
    rewrite take_exact_app, le_value_bytes; [reflexivity|].
    change (256 ^ N.of_nat 8) with two64. exact Hw.
  - change (2 =? 0) with false. change (2 =? 1) with false. change (2 =? 2) with true. cbv iota.
    rewrite <- app_assoc, parse_make_varint by (unfold two63z, two64 in *; lia).
    rewrite app_length. destruct (N.ltb_spec (N.of_nat (length b + length r)) (N.of_nat (length b))); [lia|].
    rewrite Nat2N.id, take_exact_app. reflexivity.
  - change (5 =? 0) with false. change (5 =? 1) with false. change (5 =? 2) with false.
    change (5 =? 5) with true. cbv iota.
    replace 4%nat with (length (le_bytes 4 v)) at 1 by apply le_bytes_length.
    rewrite take_exact_app, le_value_bytes; [reflexivity|].
    change (256 ^ N.of_nat 4) with 4294967296. exact Hw.
Qed.

Lemma enc_field_pos f : (1 <= length (enc_field f))%nat.
Proof.
  unfold enc_field. rewrite app_length.
  pose proof (varint_enc_pos _ _ (make_varint_enc (fst f * 8 + wire_type (snd f)))). lia.
Qed.

Lemma enc_fields_length fs : (length fs <= length (enc_fields fs))%nat.
Proof.
  unfold enc_fields. induction fs as [|f fs IH]; cbn [flat_map length]; [lia|].
  rewrite app_length. pose proof (enc_field_pos f). lia.
Qed.

Lemma parse_enc_fields fs fuel :
  Forall wfield_ok fs -> (length fs <= fuel)%nat ->
  parse_fields fuel (enc_fields fs) = Some fs.
Proof.
  intros H. revert fuel. induction H as [|f fs Hf H IH]; intros fuel Hl.
  - destruct fuel; reflexivity.
  - destruct fuel as [|fu]; [cbn [length] in Hl; lia|].
    cbn [enc_fields flat_map].
    destruct (enc_field f ++ flat_map enc_field fs) as [|x l] eqn:E.
    { pose proof (enc_field_pos f) as P. apply app_eq_nil in E as [E _]. rewrite E in P. cbn in P. lia. }
    rewrite <- E. cbn [parse_fields]. rewrite E. rewrite <- E.
    rewrite parse_enc_field by assumption.
    fold (enc_fields fs). rewrite IH by (cbn [length] in Hl; lia). reflexivity.
Qed.

(** ** Packed lists *)
Definition enc_packed (l : list Z) : bytes := flat_map (fun z => make_varint (of_int64 z)) l.

Lemma enc_packed_length l : (length l <= length (enc_packed l))%nat.
Proof.
  unfold enc_packed. induction l as [|z l IH]; cbn [flat_map length]; [lia|].
  rewrite app_length. pose proof (varint_enc_pos _ _ (make_varint_enc (of_int64 z))). lia.
Qed.

Lemma enc_packed_length10 l : (length (enc_packed l) <= 10 * length l)%nat.
Proof.
  unfold enc_packed. induction l as [|z l IH]; cbn [flat_map length]; [lia|].
  rewrite app_length. pose proof (make_varint_length10 _ (of_int64_range z)). lia.
Qed.

Lemma parse_enc_packed l fuel :
  Forall int64_ok l -> (length l <= fuel)%nat -> parse_packed fuel (enc_packed l) = Some l.
Proof.
  intros H. revert fuel. induction H as [|z l Hz H IH]; intros fuel Hl.
  - destruct fuel; reflexivity.
  - destruct fuel as [|fu]; [cbn [length] in Hl; lia|].
    unfold enc_packed. cbn [flat_map].
    destruct (make_varint (of_int64 z) ++ flat_map (fun z => make_varint (of_int64 z)) l) as [|x r] eqn:E.
    { pose proof (varint_enc_pos _ _ (make_varint_enc (of_int64 z))) as P.
      apply app_eq_nil in E as [E _]. rewrite E in P. cbn in P. lia. }
    rewrite <- E. cbn [parse_packed]. rewrite E. rewrite <- E.
    rewrite parse_make_varint by apply of_int64_range.
    fold (enc_packed l). rewrite IH by (cbn [length] in Hl; lia).
    rewrite to_int64_of_int64 by exact Hz. reflexivity.
Qed.

Lemma w_packed_ok n l : 1 <= n < 536870912 -> ints_ok l -> Forall wfield_ok (w_packed n l).
Proof.
  intros Hn [H1 H2]. destruct l as [|z l]; cbn [w_packed]; constructor; [|constructor].
  split; [exact Hn|]. cbn [snd wval_ok]. fold (enc_packed (z :: l)).
  pose proof (enc_packed_length10 (z :: l)). lia.
Qed.

Lemma tc_fields_ok t : tc_ok t -> Forall wfield_ok (tc_fields t).
Proof.
  intros (H1 & H2 & H3 & H4 & H5 & H6 & H7 & _). unfold tc_fields.
  repeat (apply Forall_app; split); try (apply w_packed_ok; [lia|assumption]).
Qed.

Lemma tc_add_packed t n l r :
  Forall int64_ok l ->
  tc_add_all t (w_packed n l ++ r) =
  tc_add_all (mkTC
    (if n =? 1 then tc_engine_ids t ++ l else tc_engine_ids t)
    (if n =? 2 then tc_iterations t ++ l else tc_iterations t)
    (if n =? 3 then tc_actionlist_indices t ++ l else tc_actionlist_indices t)
    (if n =? 4 then tc_actionlist_invocations t ++ l else tc_actionlist_invocations t)
    (if n =? 5 then tc_action_indices t ++ l else tc_action_indices t)
    (if n =? 6 then tc_action_iterations t ++ l else tc_action_iterations t)
    (if n =? 7 then tc_fanout_index t ++ l else tc_fanout_index t)) r.
Proof.
  intros H. destruct l as [|z l].
  - cbn [w_packed app]. rewrite !app_nil_r.
    f_equal. destruct t; cbn.
    destruct (n =? 1), (n =? 2), (n =? 3), (n =? 4), (n =? 5), (n =? 6), (n =? 7); reflexivity.
  - cbn [w_packed app tc_add_all tc_add]. fold (enc_packed (z :: l)).
    rewrite parse_enc_packed; [reflexivity|exact H|].
    pose proof (enc_packed_length (z :: l)). lia.
Qed.

Lemma parse_enc_tc t : tc_ok t -> parse_tc empty_tc (enc_fields (tc_fields t)) = Some t.
Proof.
  intros Hok. unfold parse_tc.
  rewrite parse_enc_fields by (auto using tc_fields_ok; pose proof (enc_fields_length (tc_fields t)); lia).
  destruct Hok as ([H1 _] & [H2 _] & [H3 _] & [H4 _] & [H5 _] & [H6 _] & [H7 _] & _).
  unfold tc_fields. destruct t as [t1 t2 t3 t4 t5 t6 t7].
  cbn [tc_engine_ids tc_iterations tc_actionlist_indices tc_actionlist_invocations
       tc_action_indices tc_action_iterations tc_fanout_index] in *.
  rewrite <- (app_nil_r (w_packed 7 _)). unfold empty_tc.
  do 7 (rewrite tc_add_packed by assumption;
    cbn [N.eqb Pos.eqb tc_engine_ids tc_iterations tc_actionlist_indices tc_actionlist_invocations
       tc_action_indices tc_action_iterations tc_fanout_index app]).
  reflexivity.
Qed.

(** * Fields of the message *)
Lemma opt_field_ok {A} (P : A -> Prop) n enc (o : option A) :
  1 <= n < 536870912 -> (forall a, P a -> wval_ok (enc a)) -> opt_ok P o ->
  Forall wfield_ok (opt_field n enc o).
Proof.
  intros Hn He Ho. destruct o as [a|]; cbn [opt_field]; constructor; [|constructor].
  split; [exact Hn|]. apply He, Ho.
Qed.

Lemma fields_before_ok m : grr_ok m -> Forall wfield_ok (fields_before m).
Proof.
  intros [H1 H2 H4 H5 H9 H10 H12 H13 H15 H16 H17]. unfold fields_before.
  repeat (apply Forall_app; split).
  - eapply opt_field_ok; [lia| |exact H1]. intros; apply of_int64_range.
  - eapply opt_field_ok; [lia| |exact H2]. intros t Ht; apply Ht.
  - apply (opt_field_ok (fun _ => True)); [lia| |destruct (warmup m); exact I].
    intros []; cbn; unfold two64; lia.
  - eapply opt_field_ok; [lia| |exact H4]. intros; apply of_int64_range.
  - eapply opt_field_ok; [lia| |exact H5]. intros; apply of_int64_range.
  - eapply opt_field_ok; [lia| |exact H9]. intros b Hb; apply Hb.
  - eapply opt_field_ok; [lia| |exact H10]. intros; apply of_int64_range.
  - eapply opt_field_ok; [lia| |exact H12]. auto.
  - eapply opt_field_ok; [lia| |exact H13]. auto.
  - apply (opt_field_ok (fun _ => True)); [lia| |destruct (trim m); exact I].
    intros []; cbn; unfold two64; lia.
Qed.

Lemma fields_after_ok m : grr_ok m -> Forall wfield_ok (fields_after m).
Proof.
  intros [H1 H2 H4 H5 H9 H10 H12 H13 H15 H16 H17]. unfold fields_after.
  apply Forall_app; split; (eapply opt_field_ok; [lia| |eassumption]); auto.
Qed.

Lemma payload_field_ok m : grr_ok m -> Forall wfield_ok (opt_field 15 WLen (payload m)).
Proof.
  intros [H1 H2 H4 H5 H9 H10 H12 H13 H15 H16 H17].
  eapply opt_field_ok; [lia| |exact H15]. intros b Hb; apply Hb.
Qed.

Lemma to_int32_of z : int32_ok z -> to_int32 (of_int64 z) = z.
Proof.
  unfold int32_ok, to_int32, of_int64, two64. intros H.
  assert (E : (Z.to_N (z mod Z.of_N 18446744073709551616)) mod 4294967296 = Z.to_N (z mod 4294967296)) by lia.
  rewrite E. destruct (Z.ltb_spec (Z.of_N (Z.to_N (z mod 4294967296))) 2147483648); lia.
Qed.

(** Merging the encoded fields into a message sets exactly those fields. *)
Lemma add_before m a15 a16 a17 r :
  grr_ok m ->
  grr_add_all (mkGrr None None None None None None None None None None a15 a16 a17)
              (fields_before m ++ r)
  = grr_add_all (mkGrr (rpc_index m) (trace_ctx m) (warmup m) (response_payload_size m)
        (server_processing_time_ns m) (error_message m) (server_instance m)
        (before_payload32 m) (before_payload64 m) (trim m) a15 a16 a17) r.
Proof.
  intros [H1 H2 H4 H5 H9 H10 H12 H13 H15 H16 H17]. unfold fields_before. rewrite <- !app_assoc.
  destruct m as [m1 m2 m3 m4 m5 m9 m10 m12 m13 m14 m15 m16 m17]; cbn [rpc_index trace_ctx warmup response_payload_size
        server_processing_time_ns error_message server_instance
        before_payload32 before_payload64 trim payload after_payload32 after_payload64] in *.
  transitivity (grr_add_all (mkGrr m1 None None None None None None None None None a15 a16 a17)
     (opt_field 2 (fun t => WLen (enc_fields (tc_fields t))) m2 ++
  opt_field 3 w_bool m3 ++ opt_field 4 w_int m4 ++ opt_field 5 w_int m5 ++ opt_field 9 WLen m9 ++
  opt_field 10 w_int m10 ++ opt_field 12 WFixed32 m12 ++ opt_field 13 WFixed64 m13 ++ opt_field 14 w_bool m14 ++ r)).
  { destruct m1 as [z|]; [|reflexivity]. cbn [opt_field app grr_add_all grr_add w_int].
    rewrite to_int32_of by exact H1. reflexivity. }
  transitivity (grr_add_all (mkGrr m1 m2 None None None None None None None None a15 a16 a17)
     (opt_field 3 w_bool m3 ++ opt_field 4 w_int m4 ++ opt_field 5 w_int m5 ++ opt_field 9 WLen m9 ++
  opt_field 10 w_int m10 ++ opt_field 12 WFixed32 m12 ++ opt_field 13 WFixed64 m13 ++ opt_field 14 w_bool m14 ++ r)).
  { destruct m2 as [t|]; [|reflexivity]. cbn [opt_field app grr_add_all grr_add].
    rewrite parse_enc_tc by exact H2. reflexivity. }
  transitivity (grr_add_all (mkGrr m1 m2 m3 None None None None None None None a15 a16 a17)
     (opt_field 4 w_int m4 ++ opt_field 5 w_int m5 ++ opt_field 9 WLen m9 ++
  opt_field 10 w_int m10 ++ opt_field 12 WFixed32 m12 ++ opt_field 13 WFixed64 m13 ++ opt_field 14 w_bool m14 ++ r)).
  { destruct m3 as [[]|]; reflexivity. }
  transitivity (grr_add_all (mkGrr m1 m2 m3 m4 None None None None None None a15 a16 a17)
     (opt_field 5 w_int m5 ++ opt_field 9 WLen m9 ++
  opt_field 10 w_int m10 ++ opt_field 12 WFixed32 m12 ++ opt_field 13 WFixed64 m13 ++ opt_field 14 w_bool m14 ++ r)).
  { destruct m4 as [z|]; [|reflexivity]. cbn [opt_field app grr_add_all grr_add w_int].
    rewrite to_int64_of_int64 by exact H4. reflexivity. }
  transitivity (grr_add_all (mkGrr m1 m2 m3 m4 m5 None None None None None a15 a16 a17)
     (opt_field 9 WLen m9 ++
  opt_field 10 w_int m10 ++ opt_field 12 WFixed32 m12 ++ opt_field 13 WFixed64 m13 ++ opt_field 14 w_bool m14 ++ r)).
  { destruct m5 as [z|]; [|reflexivity]. cbn [opt_field app grr_add_all grr_add w_int].
    rewrite to_int64_of_int64 by exact H5. reflexivity. }
  transitivity (grr_add_all (mkGrr m1 m2 m3 m4 m5 m9 m10 None None None a15 a16 a17)
     (opt_field 12 WFixed32 m12 ++ opt_field 13 WFixed64 m13 ++ opt_field 14 w_bool m14 ++ r)).
  { destruct m9 as [b|]; (destruct m10 as [z|]; [|reflexivity]); cbn [opt_field app grr_add_all grr_add w_int];
    rewrite to_int32_of by exact H10; reflexivity. }
  destruct m12, m13; (destruct m14 as [[]|]); reflexivity.
Qed.

Lemma add_after m a1 a2 a3 a4 a5 a9 a10 a12 a13 a14 a15 r :
  grr_add_all (mkGrr a1 a2 a3 a4 a5 a9 a10 a12 a13 a14 a15 None None) (fields_after m ++ r)
  = grr_add_all (mkGrr a1 a2 a3 a4 a5 a9 a10 a12 a13 a14 a15 (after_payload32 m) (after_payload64 m)) r.
Proof.
  unfold fields_after. destruct (after_payload32 m), (after_payload64 m); reflexivity.
Qed.

Lemma parse_any fs : Forall wfield_ok fs -> parse (enc_fields fs) = grr_add_all empty_grr fs.
Proof.
  intros H. unfold parse. rewrite parse_enc_fields; auto.
  pose proof (enc_fields_length fs). lia.
Qed.

Lemma enc_fields_app a b : enc_fields (a ++ b) = enc_fields a ++ enc_fields b.
Proof. unfold enc_fields. apply flat_map_app. Qed.

Lemma parse_serialize m : grr_ok m -> parse (serialize m) = Some m.
Proof.
  intros H. unfold serialize. rewrite parse_any.
  2:{ unfold grr_fields. rewrite !Forall_app.
      auto using fields_before_ok, fields_after_ok, payload_field_ok. }
  unfold grr_fields, empty_grr. rewrite add_before by exact H.
  destruct m as [m1 m2 m3 m4 m5 m9 m10 m12 m13 m14 m15 m16 m17]; cbn.
  destruct m15; cbn [opt_field app grr_add_all grr_add];
  rewrite <- (app_nil_r (fields_after _)), add_after; reflexivity.
Qed.

Lemma make_varint_payload_tag : make_varint kPayloadTag = [122].
Proof. reflexivity. Qed.

Lemma enc_payload_field p :
  enc_fields [(15, WLen p)] = make_varint kPayloadTag ++ make_varint (N.of_nat (length p)) ++ p.
Proof. unfold enc_fields. cbn [flat_map]. rewrite app_nil_r. reflexivity. Qed.

(** The field order actually produced by SerializeToCord. *)
Lemma serialize_to_cord_fields m p :
  payload m = Some p ->
  serialize_to_cord m true = enc_fields (fields_before m ++ fields_after m ++ [(15, WLen p)]).
Proof.
  intros E. unfold serialize_to_cord. rewrite E.
  rewrite !enc_fields_app, enc_payload_field.
  unfold serialize, grr_fields. rewrite enc_fields_app. cbn [opt_field payload set_payload app].
  rewrite <- app_assoc. reflexivity.
Qed.

Lemma parse_serialize_to_cord m b : grr_ok m -> parse (serialize_to_cord m b) = Some m.
Proof.
  intros H. destruct b; [|apply parse_serialize, H].
  destruct (payload m) as [p|] eqn:E.
  2:{ unfold serialize_to_cord. rewrite E. apply parse_serialize, H. }
  rewrite (serialize_to_cord_fields m p E). rewrite parse_any.
  2:{ rewrite !Forall_app. split; [|split]; auto using fields_before_ok, fields_after_ok.
      pose proof (payload_field_ok m H) as P. rewrite E in P. exact P. }
  unfold empty_grr. rewrite add_before by exact H.
  destruct m as [m1 m2 m3 m4 m5 m9 m10 m12 m13 m14 m15 m16 m17]; cbn in *.
  rewrite add_after. cbn. subst. reflexivity.
Qed.

Lemma serialize_to_cord_same m b :
  (after_payload32 m = None /\ after_payload64 m = None) \/ payload m = None \/ b = false ->
  serialize_to_cord m b = serialize m.
Proof.
  intros H. destruct b; [|reflexivity].
  destruct (payload m) as [p|] eqn:E.
  2:{ unfold serialize_to_cord. rewrite E. reflexivity. }
  rewrite (serialize_to_cord_fields m p E). unfold serialize, grr_fields. f_equal.
  destruct H as [[H1 H2]|[H|H]]; try discriminate.
  unfold fields_after. rewrite H1, H2, E. reflexivity.
Qed.

Lemma serialize_to_cord_length m b : length (serialize_to_cord m b) = length (serialize m).
Proof.
  destruct b; [|reflexivity].
  destruct (payload m) as [p|] eqn:E.
  2:{ unfold serialize_to_cord. rewrite E. reflexivity. }
  rewrite (serialize_to_cord_fields m p E). unfold serialize, grr_fields. rewrite E.
  rewrite !enc_fields_app, !app_length. cbn [opt_field]. lia.
Qed.
