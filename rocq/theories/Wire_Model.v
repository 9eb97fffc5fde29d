(** Model of distbench_payload.cc and of the wire format of
    distbench.proto:GenericRequestResponse.  Definitions only. *)
From Coq Require Import List NArith ZArith Bool.
Import ListNotations.
Open Scope N_scope.

(** A byte is an [N] below 256; a std::string / absl::Cord is a list of bytes. *)
Definition bytes := list N.

Definition two64 : N := 18446744073709551616.
Definition two63z : Z := 9223372036854775808%Z.

(** int64_t value stored as a 64-bit pattern (two's complement), used wherever
    the C++ assigns an uint64_t to an int64_t or the reverse. *)
Definition to_int64 (n : N) : Z :=
  if (Z.of_N n <? two63z)%Z then Z.of_N n else (Z.of_N n - Z.of_N two64)%Z.
Definition of_int64 (z : Z) : N := Z.to_N (z mod Z.of_N two64)%Z.

(** distbench_payload.cc:59-66 VarIntSize.  The while loop is recursion on
    [fuel]; [varint_size] supplies the bit length, which is always enough
    (Wire_Proofs.varint_size_eq shows the unrolled loop equation for every N). *)
Fixpoint varint_size_loop (fuel : nat) (val : N) (ret : Z) : Z :=
  match fuel with
  | O => ret
  | S f => if 128 <=? val then varint_size_loop f (N.shiftr val 7) (ret + 1)%Z
           else ret
  end.
Definition varint_size (val : N) : Z := varint_size_loop (N.size_nat val) val 1%Z.

(** distbench_payload.cc:186-200 MakeVarInt: do { emit } while (val).
    [val | 0x80] is stored in a char, i.e. its low 8 bits. *)
Fixpoint make_varint_loop (fuel : nat) (val : N) : bytes :=
  match fuel with
  | O => []
  | S f =>
      let b := if 127 <? val then N.lor val 128 mod 256 else val in
      let val' := N.shiftr val 7 in
      b :: (if val' =? 0 then [] else make_varint_loop f val')
  end.
Definition make_varint (val : N) : bytes := make_varint_loop (S (N.size_nat val)) val.

(** Reading through [const char*]: the buffer is a list, a pointer is an
    offset; reading outside the buffer is undefined behaviour (None). *)
Definition byte_at (buf : bytes) (i : Z) : option N :=
  if (i <? 0)%Z then None else nth_error buf (Z.to_nat i).

Inductive rv_result :=
| RvUB                                (* read outside the buffer *)
| RvFail                              (* returned false *)
| RvOk (out : Z) (cursor : Z).        (* returned true, *out and *start set *)

(** distbench_payload.cc:34-57 ReadVarInt, the do/while loop.  [endp] is the
    offset of the last byte (inclusive).  [bits < 64] bounds the loop to 10
    rounds, so fuel 10 is enough and running out of fuel reports UB. *)
Fixpoint read_varint_loop (fuel : nat) (buf : bytes) (endp cursor : Z)
         (bits ret : N) : option (N * Z * N) :=
  match fuel with
  | O => None
  | S f =>
      match byte_at buf cursor with
      | None => None
      | Some b =>
          let ret' := N.lor ret (N.shiftl (N.land b 127) bits mod two64) in
          let cursor' := (cursor + 1)%Z in
          let bits' := bits + 7 in
          if (128 <=? b) && (bits' <? 64) && (cursor' <=? endp)%Z
          then read_varint_loop f buf endp cursor' bits' ret'
          else Some (ret', cursor', b)
      end
  end.

(** distbench_payload.cc:34-57 ReadVarInt. *)
Definition read_varint (buf : bytes) (start endp : Z) : rv_result :=
  if (endp <? start)%Z then RvFail
  else match read_varint_loop 10 buf endp start 0 0 with
       | None => RvUB
       | Some (ret, cursor, b) =>
           if (10 <? cursor - start)%Z then RvFail
           else if 128 <=? b then RvFail
           else RvOk (to_int64 ret) cursor
       end.

(** distbench_payload.cc:32. *)
Definition kPayloadField : Z := 15%Z.

Inductive mdl_result :=
| MdlUB
| MdlCheckFailed                            (* CHECK_EQ at line 123 *)
| MdlRet (len : Z) (payload_off : option Z) (* returned len, wrote *offset_of_payload *)
| MdlFuel.                                  (* loop still running: model artefact *)

(** distbench_payload.cc:68-127 MetaDataLength.  Pointers are offsets from
    msg_fragment.data(); forming a pointer outside the buffer is allowed in
    the model, only reading there is undefined behaviour.
    An int64_t overflow in cursor + value is not modelled. *)
Fixpoint metadata_length_loop (fuel : nat) (buf : bytes) (endp cursor : Z)
         (original_length : Z) : mdl_result :=
  match fuel with
  | O => MdlFuel
  | S f =>
    if (cursor <=? endp)%Z then
      match read_varint buf cursor endp with
      | RvUB => MdlUB
      | RvFail => MdlRet original_length None
      | RvOk tag c1 =>
          let field_id := Z.shiftr tag 3 in
          let ty := Z.land tag 7 in
          if (ty =? 0)%Z then
            match read_varint buf c1 endp with
            | RvUB => MdlUB
            | RvFail => MdlRet original_length None
            | RvOk _ c2 => metadata_length_loop f buf endp c2 original_length
            end
          else if (ty =? 2)%Z then
            match read_varint buf c1 endp with
            | RvUB => MdlUB
            | RvFail => MdlRet original_length None
            | RvOk value c2 =>
                let c3 := (c2 + value)%Z in
                if (field_id =? kPayloadField)%Z then
                  if (endp <=? c3)%Z then MdlRet cursor (Some (c3 - value)%Z)
                  else MdlRet original_length None
                else metadata_length_loop f buf endp c3 original_length
            end
          else if (ty =? 3)%Z || (ty =? 4)%Z then
            metadata_length_loop f buf endp c1 original_length
          else if (ty =? 1)%Z then
            metadata_length_loop f buf endp (c1 + 8)%Z original_length
          else if (ty =? 5)%Z then
            metadata_length_loop f buf endp (c1 + 4)%Z original_length
          else MdlRet original_length None
      end
    else if (cursor - endp =? 0)%Z then MdlRet original_length None
    else MdlCheckFailed
  end.

Definition metadata_length (fuel : nat) (frag : bytes) (original_length : Z) : mdl_result :=
  metadata_length_loop fuel frag (Z.of_nat (length frag) - 1)%Z 0%Z original_length.

(** distbench.proto:38-66 TraceContext; every field is packed int64. *)
Record trace_context := mkTC {
  tc_engine_ids : list Z;              (* = 1 *)
  tc_iterations : list Z;              (* = 2, deprecated *)
  tc_actionlist_indices : list Z;      (* = 3 *)
  tc_actionlist_invocations : list Z;  (* = 4 *)
  tc_action_indices : list Z;          (* = 5 *)
  tc_action_iterations : list Z;       (* = 6 *)
  tc_fanout_index : list Z }.          (* = 7 *)
Definition empty_tc := mkTC [] [] [] [] [] [] [].

(** distbench.proto:287-335 GenericRequestResponse (proto2: every field has
    presence).  Unknown fields are not modelled. *)
Record grr := mkGrr {
  rpc_index : option Z;                 (* int32  = 1 *)
  trace_ctx : option trace_context;     (*        = 2 *)
  warmup : option bool;                 (*        = 3 *)
  response_payload_size : option Z;     (* int64  = 4 *)
  server_processing_time_ns : option Z; (* int64  = 5 *)
  error_message : option bytes;         (*        = 9 *)
  server_instance : option Z;           (* int32  = 10 *)
  before_payload32 : option N;          (* fixed32 = 12 *)
  before_payload64 : option N;          (* fixed64 = 13 *)
  trim : option bool;                   (*        = 14 *)
  payload : option bytes;               (*        = 15 *)
  after_payload32 : option N;           (* fixed32 = 16 *)
  after_payload64 : option N }.         (* fixed64 = 17 *)
Definition empty_grr :=
  mkGrr None None None None None None None None None None None None None.

Definition set_payload (m : grr) (p : option bytes) : grr :=
  mkGrr (rpc_index m) (trace_ctx m) (warmup m) (response_payload_size m)
        (server_processing_time_ns m) (error_message m) (server_instance m)
        (before_payload32 m) (before_payload64 m) (trim m) p
        (after_payload32 m) (after_payload64 m).
Definition set_trim (m : grr) (t : option bool) : grr :=
  mkGrr (rpc_index m) (trace_ctx m) (warmup m) (response_payload_size m)
        (server_processing_time_ns m) (error_message m) (server_instance m)
        (before_payload32 m) (before_payload64 m) t (payload m)
        (after_payload32 m) (after_payload64 m).

(** Protocol buffer wire format (external library; the published encoding):
    a field is a tag varint (number*8 + wire type) and a value. *)
Inductive wval :=
| WVarint (v : N)       (* wire type 0 *)
| WFixed64 (v : N)      (* wire type 1 *)
| WLen (b : bytes)      (* wire type 2 *)
| WFixed32 (v : N).     (* wire type 5 *)
Definition wfield := (N * wval)%type.

Fixpoint le_bytes (n : nat) (v : N) : bytes :=
  match n with O => [] | S k => (v mod 256) :: le_bytes k (v / 256) end.
Fixpoint le_value (b : bytes) : N :=
  match b with [] => 0 | x :: r => x + 256 * le_value r end.

Definition wire_type (w : wval) : N :=
  match w with WVarint _ => 0 | WFixed64 _ => 1 | WLen _ => 2 | WFixed32 _ => 5 end.
Definition enc_wval (w : wval) : bytes :=
  match w with
  | WVarint v => make_varint v
  | WFixed64 v => le_bytes 8 v
  | WLen b => make_varint (N.of_nat (length b)) ++ b
  | WFixed32 v => le_bytes 4 v
  end.
Definition enc_field (f : wfield) : bytes :=
  make_varint (fst f * 8 + wire_type (snd f)) ++ enc_wval (snd f).
Definition enc_fields (fs : list wfield) : bytes := flat_map enc_field fs.

Definition opt_field {A} (num : N) (enc : A -> wval) (o : option A) : list wfield :=
  match o with None => [] | Some a => [(num, enc a)] end.
(** int32 is sign-extended to 64 bits before varint encoding. *)
Definition w_int (z : Z) : wval := WVarint (of_int64 z).
Definition w_bool (b : bool) : wval := WVarint (if b then 1 else 0).
(** packed repeated int64: omitted when empty. *)
Definition w_packed (num : N) (l : list Z) : list wfield :=
  match l with [] => [] | _ => [(num, WLen (flat_map (fun z => make_varint (of_int64 z)) l))] end.

Definition tc_fields (t : trace_context) : list wfield :=
  w_packed 1 (tc_engine_ids t) ++ w_packed 2 (tc_iterations t) ++
  w_packed 3 (tc_actionlist_indices t) ++ w_packed 4 (tc_actionlist_invocations t) ++
  w_packed 5 (tc_action_indices t) ++ w_packed 6 (tc_action_iterations t) ++
  w_packed 7 (tc_fanout_index t).

(** GenericRequestResponse::SerializeAsString: the C++ runtime writes fields
    in field-number order. *)
Definition fields_before (m : grr) : list wfield :=
  opt_field 1 w_int (rpc_index m) ++
  opt_field 2 (fun t => WLen (enc_fields (tc_fields t))) (trace_ctx m) ++
  opt_field 3 w_bool (warmup m) ++
  opt_field 4 w_int (response_payload_size m) ++
  opt_field 5 w_int (server_processing_time_ns m) ++
  opt_field 9 WLen (error_message m) ++
  opt_field 10 w_int (server_instance m) ++
  opt_field 12 WFixed32 (before_payload32 m) ++
  opt_field 13 WFixed64 (before_payload64 m) ++
  opt_field 14 w_bool (trim m).
Definition fields_after (m : grr) : list wfield :=
  opt_field 16 WFixed32 (after_payload32 m) ++
  opt_field 17 WFixed64 (after_payload64 m).
Definition grr_fields (m : grr) : list wfield :=
  fields_before m ++ opt_field 15 WLen (payload m) ++ fields_after m.
Definition serialize (m : grr) : bytes := enc_fields (grr_fields m).

(** ByteSizeLong(): the size SerializeAsString would produce. *)
Definition byte_size (m : grr) : Z := Z.of_nat (length (serialize m)).

(** GenericRequestResponse::ParseFromArray (external library, published
    format): varints of at most 10 bytes, little-endian fixed values, length
    delimited values must fit, groups (wire types 3,4) are rejected here. *)
Fixpoint parse_varint (fuel : nat) (bs : bytes) : option (N * bytes) :=
  match fuel, bs with
  | S f, b :: r =>
      if b <? 128 then Some (b, r)
      else match parse_varint f r with
           | Some (v, r') => Some ((b - 128) + 128 * v, r')
           | None => None
           end
  | _, _ => None
  end.
Definition parse_varint10 (bs : bytes) : option (N * bytes) :=
  match parse_varint 10 bs with Some (v, r) => Some (v mod two64, r) | None => None end.

Definition take_exact (n : nat) (bs : bytes) : option (bytes * bytes) :=
  if (length bs <? n)%nat then None else Some (firstn n bs, skipn n bs).

Definition parse_field (bs : bytes) : option (wfield * bytes) :=
  match parse_varint10 bs with
  | None => None
  | Some (tag, r) =>
      let num := tag / 8 in
      let ty := tag mod 8 in
      if ty =? 0 then
        match parse_varint10 r with Some (v, r') => Some ((num, WVarint v), r') | None => None end
      else if ty =? 1 then
        match take_exact 8 r with Some (b, r') => Some ((num, WFixed64 (le_value b)), r') | None => None end
      else if ty =? 2 then
        match parse_varint10 r with
        | Some (n, r') =>
            if N.of_nat (length r') <? n then None
            else match take_exact (N.to_nat n) r' with
                 | Some (b, r'') => Some ((num, WLen b), r'')
                 | None => None
                 end
        | None => None
        end
      else if ty =? 5 then
        match take_exact 4 r with Some (b, r') => Some ((num, WFixed32 (le_value b)), r') | None => None end
      else None
  end.

Fixpoint parse_fields (fuel : nat) (bs : bytes) : option (list wfield) :=
  match bs with
  | [] => Some []
  | _ => match fuel with
         | O => None
         | S f => match parse_field bs with
                  | Some (fd, r) => match parse_fields f r with
                                    | Some fs => Some (fd :: fs)
                                    | None => None
                                    end
                  | None => None
                  end
         end
  end.

Fixpoint parse_packed (fuel : nat) (bs : bytes) : option (list Z) :=
  match bs with
  | [] => Some []
  | _ => match fuel with
         | O => None
         | S f => match parse_varint10 bs with
                  | Some (v, r) => match parse_packed f r with
                                   | Some l => Some (to_int64 v :: l)
                                   | None => None
                                   end
                  | None => None
                  end
         end
  end.

(** int32 fields keep the low 32 bits of the varint. *)
Definition to_int32 (n : N) : Z :=
  let l := Z.of_N (n mod 4294967296) in
  if (l <? 2147483648)%Z then l else (l - 4294967296)%Z.

Definition tc_add (t : trace_context) (f : wfield) : option trace_context :=
  match f with
  | (num, WLen b) =>
      match parse_packed (S (length b)) b with
      | None => None
      | Some l =>
          Some (mkTC
            (if num =? 1 then tc_engine_ids t ++ l else tc_engine_ids t)
            (if num =? 2 then tc_iterations t ++ l else tc_iterations t)
            (if num =? 3 then tc_actionlist_indices t ++ l else tc_actionlist_indices t)
            (if num =? 4 then tc_actionlist_invocations t ++ l else tc_actionlist_invocations t)
            (if num =? 5 then tc_action_indices t ++ l else tc_action_indices t)
            (if num =? 6 then tc_action_iterations t ++ l else tc_action_iterations t)
            (if num =? 7 then tc_fanout_index t ++ l else tc_fanout_index t))
      end
  | _ => Some t
  end.
Fixpoint tc_add_all (t : trace_context) (fs : list wfield) : option trace_context :=
  match fs with
  | [] => Some t
  | f :: r => match tc_add t f with Some t' => tc_add_all t' r | None => None end
  end.
Definition parse_tc (t : trace_context) (b : bytes) : option trace_context :=
  match parse_fields (S (length b)) b with
  | Some fs => tc_add_all t fs
  | None => None
  end.

(** Merging one decoded field into a message: scalars are overwritten,
    embedded messages are merged, anything else is an unknown field and is
    dropped by this model. *)
Definition grr_add (m : grr) (f : wfield) : option grr :=
  let '(mkGrr a1 a2 a3 a4 a5 a9 a10 a12 a13 a14 a15 a16 a17) := m in
  match f with
  | (1, WVarint v) => Some (mkGrr (Some (to_int32 v)) a2 a3 a4 a5 a9 a10 a12 a13 a14 a15 a16 a17)
  | (2, WLen b) =>
      match parse_tc (match a2 with Some t => t | None => empty_tc end) b with
      | Some t => Some (mkGrr a1 (Some t) a3 a4 a5 a9 a10 a12 a13 a14 a15 a16 a17)
      | None => None
      end
  | (3, WVarint v) => Some (mkGrr a1 a2 (Some (negb (v =? 0))) a4 a5 a9 a10 a12 a13 a14 a15 a16 a17)
  | (4, WVarint v) => Some (mkGrr a1 a2 a3 (Some (to_int64 v)) a5 a9 a10 a12 a13 a14 a15 a16 a17)
  | (5, WVarint v) => Some (mkGrr a1 a2 a3 a4 (Some (to_int64 v)) a9 a10 a12 a13 a14 a15 a16 a17)
  | (9, WLen b) => Some (mkGrr a1 a2 a3 a4 a5 (Some b) a10 a12 a13 a14 a15 a16 a17)
  | (10, WVarint v) => Some (mkGrr a1 a2 a3 a4 a5 a9 (Some (to_int32 v)) a12 a13 a14 a15 a16 a17)
  | (12, WFixed32 v) => Some (mkGrr a1 a2 a3 a4 a5 a9 a10 (Some v) a13 a14 a15 a16 a17)
  | (13, WFixed64 v) => Some (mkGrr a1 a2 a3 a4 a5 a9 a10 a12 (Some v) a14 a15 a16 a17)
  | (14, WVarint v) => Some (mkGrr a1 a2 a3 a4 a5 a9 a10 a12 a13 (Some (negb (v =? 0))) a15 a16 a17)
  | (15, WLen b) => Some (mkGrr a1 a2 a3 a4 a5 a9 a10 a12 a13 a14 (Some b) a16 a17)
  | (16, WFixed32 v) => Some (mkGrr a1 a2 a3 a4 a5 a9 a10 a12 a13 a14 a15 (Some v) a17)
  | (17, WFixed64 v) => Some (mkGrr a1 a2 a3 a4 a5 a9 a10 a12 a13 a14 a15 a16 (Some v))
  | _ => Some m
  end.
Fixpoint grr_add_all (m : grr) (fs : list wfield) : option grr :=
  match fs with
  | [] => Some m
  | f :: r => match grr_add m f with Some m' => grr_add_all m' r | None => None end
  end.
Definition parse (b : bytes) : option grr :=
  match parse_fields (S (length b)) b with
  | Some fs => grr_add_all empty_grr fs
  | None => None
  end.

(** distbench_payload.cc:202-214 SerializeToCord. *)
Definition kPayloadTag : N := N.lor (N.shiftl 15 3) 2.
Definition serialize_to_cord (m : grr) (avoid_copy : bool) : bytes :=
  match avoid_copy, payload m with
  | true, Some p =>
      serialize (set_payload m None) ++ make_varint kPayloadTag ++
      make_varint (N.of_nat (length p)) ++ p
  | _, _ => serialize m
  end.

(** distbench_payload.cc:129-169 GetPaddingForSerializedSize.  Returns the
    mutated message and the padding.  [target_size] and the result are
    size_t, so non-negative; ssize_t conversions are the identity below 2^63. *)
Definition get_padding (m : grr) (target : Z) : grr * Z :=
  if (target =? byte_size m)%Z then (m, 0%Z)
  else
    let m1 := set_trim (set_payload m None) None in
    if (target <=? byte_size m1)%Z then (m1, 0%Z)
    else
      let m2 := set_payload m1 (Some []) in
      let start_size := byte_size m2 in
      if (target <=? start_size)%Z then (m2, 0%Z)
      else
        let pad := (target - start_size)%Z in
        let delta := (varint_size (Z.to_N pad) - varint_size 0)%Z in
        if (0 <? delta)%Z then
          let new_pad := (pad - delta)%Z in
          let delta2 := (varint_size (Z.to_N pad) - varint_size (Z.to_N new_pad))%Z in
          if (0 <? delta2)%Z
          then (set_trim m2 (Some false), (new_pad + delta2 - 2)%Z)
          else (m2, new_pad)
        else (m2, pad).

(** distbench_payload.cc:171-184 AllocPayloadCord ('D' = 68) and AddPadding. *)
Definition alloc_payload_cord (size : nat) : bytes := repeat 68 size.
Definition add_padding (m : grr) (target : Z) : grr :=
  let '(m', pad) := get_padding m target in
  if (0 <? pad)%Z then set_payload m' (Some (alloc_payload_cord (Z.to_nat pad))) else m'.

(** protocol_driver_homa.cc:42-90 FastParse (with PeekAtMessage).  The
    homa::receiver is the received message and the function giving the number
    of contiguous bytes available at an offset (an external library).
    Line 89's SlowParse fallback and a crash are distinct outcomes. *)
Inductive fp_result := FpCrash | FpSlow | FpRet (ok : bool) (m : grr).
Definition homa_max_bpages : nat := 16.  (* HOMA_MAX_BPAGES of the homa library: external constant *)
Fixpoint collect_chunks (n : nat) (msg : bytes) (contiguous : nat -> nat)
         (offset : nat) (acc : bytes) : option bytes :=
  match n with
  | O => None
  | S k =>
      let c := contiguous offset in
      let acc' := acc ++ firstn c (skipn offset msg) in
      if Nat.eqb (offset + c) (length msg) then Some acc'
      else collect_chunks k msg contiguous (offset + c) acc'
  end.
Definition fast_parse (msg : bytes) (contiguous : nat -> nat) : fp_result :=
  let chunk := firstn (contiguous 0%nat) msg in
  let msg_length := length msg in
  if Nat.eqb (length chunk) 1 && match chunk with [7] => true | _ => false end
  then FpRet true empty_grr
  else if Nat.leb msg_length (N.to_nat 4096) && Nat.eqb (length chunk) msg_length then
    match parse chunk with Some m => FpRet true m | None => FpRet false empty_grr end
  else
    match metadata_length (S (length chunk)) chunk (Z.of_nat msg_length) with
    | MdlUB | MdlCheckFailed | MdlFuel => FpCrash
    | MdlRet len off =>
        if (len <=? Z.of_nat (length chunk))%Z then
          let '(ok, m) := match parse (firstn (Z.to_nat len) chunk) with
                          | Some m => (true, m) | None => (false, empty_grr) end in
          let offset := match off with Some o => Z.to_nat o | None => 0%nat end in
          match collect_chunks homa_max_bpages msg contiguous offset [] with
          | Some p => FpRet ok (set_payload m (Some p))
          | None => FpRet ok m
          end
        else FpSlow
    end.
