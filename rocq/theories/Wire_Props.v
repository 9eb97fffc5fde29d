(** Properties C01-C04: padding, varints, serialization, metadata scan. *)
From Coq Require Import List NArith ZArith Bool Lia.
From Verif Require Import Wire_Model Wire_Proofs Wire_Proofs2 Wire_Proofs3 Wire_Proofs4.
Import ListNotations.
Open Scope N_scope.

(** C01. Padding reaches the target size exactly, except one byte above the
    bare message (one byte too much), and at or below the bare message. *)
Theorem C01_padding_size : forall m target,
  (0 <= target)%Z ->
  let m' := add_padding m target in
  let b := wire_size (bare m) in
  same_metadata m' m /\
  (target = wire_size m -> m' = m) /\
  (target <> wire_size m ->
     (target <= b -> m' = bare m)%Z /\
     (target = b + 1 -> m' = set_payload (bare m) (Some []) /\ wire_size m' = b + 2)%Z /\
     (b + 2 <= target -> wire_size m' = target /\ payload_is_filler m' /\
                         (trim m' = None \/ trim m' = Some false))%Z).
Proof. exact add_padding_spec. Qed.
Print Assumptions C01_padding_size.

Example C01_example : (* crosses the 127/128 boundary: 2 + 128 is not reachable by payload alone *)
  wire_size (add_padding (set_payload empty_grr (Some [1;2;3])) 130) = 130%Z /\
  trim (add_padding (set_payload empty_grr (Some [1;2;3])) 130) = Some false.
Proof. vm_compute. split; reflexivity. Qed.

(** C02. *)
Theorem C02_varint_size : forall v k,
  (1 <= k)%nat ->
  (Z.of_nat (length (make_varint v)) = varint_size v) /\
  (varint_size v = Z.of_nat k <->
   (k = 1%nat \/ 128 ^ N.of_nat (k - 1) <= v) /\ v < 128 ^ N.of_nat k).
Proof. exact (fun v k H => conj (make_varint_length v) (varint_size_spec v k H)). Qed.
Print Assumptions C02_varint_size.

Theorem C02_varint_encoding : forall v, varint_enc (make_varint v) v.
Proof. exact make_varint_enc. Qed.
Print Assumptions C02_varint_encoding.

Theorem C02_varint_round_trip : forall v pre post endp,
  v < two64 -> Forall (fun b => b < 256) (pre ++ post) ->
  (Z.of_nat (length pre) + varint_size v <= endp + 1)%Z ->
  (endp < Z.of_nat (length (pre ++ make_varint v ++ post)))%Z ->
  read_varint (pre ++ make_varint v ++ post) (Z.of_nat (length pre)) endp
  = RvOk (to_int64 v) (Z.of_nat (length pre) + varint_size v)%Z.
Proof. exact read_make_varint. Qed.
Print Assumptions C02_varint_round_trip.

Theorem C02_varint_decode_exact : forall buf start endp,
  (0 <= start)%Z -> (endp < Z.of_nat (length buf))%Z -> Forall (fun b => b < 256) buf ->
  read_varint buf start endp <> RvUB /\
  (forall out c,
     read_varint buf start endp = RvOk out c <->
     exists pre e post v,
       buf = pre ++ e ++ post /\ Z.of_nat (length pre) = start /\
       c = (start + Z.of_nat (length e))%Z /\ (c <= endp + 1)%Z /\
       (length e <= 10)%nat /\ varint_enc e v /\ out = to_int64 (v mod two64)).
Proof. exact read_varint_spec. Qed.
Print Assumptions C02_varint_decode_exact.

Example C02_example :
  make_varint 300 = [172; 2] /\
  read_varint [9; 172; 2; 7] 1 3 = RvOk 300 3 /\
  read_varint [9; 172] 1 1 = RvFail /\
  read_varint (make_varint 18446744073709551615) 0 9 = RvOk (-1) 10.
Proof. vm_compute. repeat split; reflexivity. Qed.

(** C03. *)
Theorem C03_cord_round_trip : forall m avoid_copy,
  grr_ok m -> parse (serialize_to_cord m avoid_copy) = Some m.
Proof. exact parse_serialize_to_cord. Qed.
Print Assumptions C03_cord_round_trip.

Theorem C03_cord_same_bytes : forall m avoid_copy,
  (after_payload32 m = None /\ after_payload64 m = None) \/ payload m = None \/ avoid_copy = false ->
  serialize_to_cord m avoid_copy = serialize m.
Proof. exact serialize_to_cord_same. Qed.
Print Assumptions C03_cord_same_bytes.

Theorem C03_cord_same_length : forall m avoid_copy,
  length (serialize_to_cord m avoid_copy) = length (serialize m).
Proof. exact serialize_to_cord_length. Qed.
Print Assumptions C03_cord_same_length.

Definition sample : grr :=
  mkGrr (Some (-3)%Z) (Some (mkTC [5;(-1)]%Z [] [2]%Z [] [] [0]%Z [7]%Z)) (Some true) (Some 1000%Z) None
        (Some [72;105]) (Some 4%Z) (Some 305419896) None None (Some [1;2;3;255]) None None.
Example C03_example : grr_ok sample /\ parse (serialize_to_cord sample true) = Some sample.
Proof.
  split; [|vm_compute; reflexivity].
  constructor; cbn; try exact I; unfold int32_ok, int64_ok, bytes_ok, tc_ok, ints_ok, int64_ok;
  cbn -[two63z]; unfold two63z; repeat split; try lia; repeat constructor; lia.
Qed.

(** C04. *)
Theorem C04_metadata_scan : forall m meta hdr p n original_length,
  grr_ok m -> payload_last m meta hdr p -> (hdr <= n)%nat ->
  metadata_length (S (length (firstn n (serialize m)))) (firstn n (serialize m)) original_length
  = MdlRet (Z.of_nat meta) (Some (Z.of_nat hdr)).
Proof. exact scan_payload_last. Qed.
Print Assumptions C04_metadata_scan.

Theorem C04_fast_parse_reconstructs : forall m meta hdr p contiguous,
  grr_ok m -> payload_last m meta hdr p -> (hdr <= contiguous 0%nat)%nat ->
  delivered contiguous homa_max_bpages hdr (length (serialize m)) ->
  fast_parse (serialize m) contiguous = FpRet true m.
Proof. exact fast_parse_payload_last. Qed.
Print Assumptions C04_fast_parse_reconstructs.

(** With a field after the payload the scan of the complete message refuses. *)
Theorem C04_after_fields_partial : forall m p original_length,
  grr_ok m -> payload m = Some p -> (after_payload32 m <> None \/ after_payload64 m <> None) ->
  metadata_length (S (length (serialize m))) (serialize m) original_length = MdlRet original_length None.
Proof. exact scan_after_fields. Qed.
Print Assumptions C04_after_fields_partial.

(** Every message with a payload and every fragment with its header: fast
    parsing is refused exactly when the fragment goes at least two bytes past
    the payload. *)
Theorem C04_scan_exact : forall m meta hdr p n original_length,
  grr_ok m -> payload_last (drop_after m) meta hdr p -> (hdr <= n)%nat ->
  let frag := firstn n (serialize m) in
  metadata_length (S (length frag)) frag original_length =
  if Nat.leb (length frag) (hdr + length p + 1)
  then MdlRet (Z.of_nat meta) (Some (Z.of_nat hdr)) else MdlRet original_length None.
Proof. exact scan_exact. Qed.
Print Assumptions C04_scan_exact.

Example C04_example : payload_last sample 51 53 [1;2;3;255] /\
  delivered (fun o => if Nat.eqb o 0 then 55%nat else (57 - o)%nat) homa_max_bpages 53 (length (serialize sample)).
Proof. split; [vm_compute; repeat split; reflexivity|]. vm_compute. left. reflexivity. Qed.

(** Missing from [C04_after_fields_partial]: a fragment which stops inside the
    payload is reported as "payload last" although fields follow it, and the
    receiver then appends those fields to the payload. *)
Definition with_after : grr :=
  mkGrr (Some 1%Z) None None None None None None None None None (Some [1;2;3;4;5;6]) (Some 9) None.
Theorem C04_after_fields_refuted : exists m contiguous,
  grr_ok m /\ parse (serialize m) = Some m /\
  delivered contiguous homa_max_bpages 4 (length (serialize m)) /\
  exists m', fast_parse (serialize m) contiguous = FpRet true m' /\ m' <> m /\
             after_payload32 m' = None /\ payload m' = Some [1;2;3;4;5;6;133;1;9;0;0;0].
Proof.
  exists with_after, (fun o => if Nat.eqb o 0 then 8%nat else (16 - o)%nat).
  split; [|split; [vm_compute; reflexivity|split; [vm_compute; left; reflexivity|]]].
  - constructor; cbn; try exact I; unfold int32_ok, bytes_ok; cbn -[two63z]; unfold two63z; repeat split; try lia;
      repeat constructor; lia.
  - eexists. split; [vm_compute; reflexivity|]. repeat split; discriminate.
Qed.
Print Assumptions C04_after_fields_refuted.

(** C04_scan_exact on that message: 2 bytes of metadata, header up to 4,
    payload up to 10; 11 bytes are taken for "payload last", 12 are refused. *)
Example C04_exact_example : payload_last (drop_after with_after) 2 4 [1;2;3;4;5;6] /\
  length (serialize with_after) = 16%nat /\
  metadata_length 12 (firstn 11 (serialize with_after)) 16 = MdlRet 2 (Some 4%Z) /\
  metadata_length 13 (firstn 12 (serialize with_after)) 16 = MdlRet 16 None.
Proof. vm_compute. repeat split; reflexivity. Qed.

(** Every payload-free message of more than 4096 bytes aborts the receiver. *)
Theorem C04_no_payload_crash_refuted : forall m contiguous,
  grr_ok m -> payload m = None -> (4096 < N.of_nat (length (serialize m))) ->
  (length (serialize m) <= contiguous 0%nat)%nat ->
  fast_parse (serialize m) contiguous = FpCrash.
Proof. exact fast_parse_no_payload_crash. Qed.
Print Assumptions C04_no_payload_crash_refuted.

(** ... for instance a reply with a long error message and no payload. *)
Definition long_error : grr :=
  mkGrr None None None None None (Some (repeat 65 (N.to_nat 5000))) None None None None None None None.
Example C04_no_payload_example :
  N.of_nat (length (serialize long_error)) = 5003 /\ parse (serialize long_error) = Some long_error /\
  fast_parse (serialize long_error) (fun o => (N.to_nat 5003 - o)%nat) = FpCrash.
Proof. vm_compute. repeat split; reflexivity. Qed.

(** Some byte strings make the scan run for ever. *)
Theorem C04_scan_terminates_refuted : exists frag,
  Forall (fun b => b < 256) frag /\
  forall fuel original_length, metadata_length fuel frag original_length = MdlFuel.
Proof.
  exact scan_diverges_witness.
Qed.
Print Assumptions C04_scan_terminates_refuted.
