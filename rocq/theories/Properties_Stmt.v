(** Properties C07-C11: binary values, null bitmaps, statement parameters. *)
From Coq Require Import ZArith List.
From Verif Require Import Base BaseFacts Types ParseBuf BufMut Spec_Wire ValueBin Spec_Stmt
  ValueBin_proofs NullBitmap NullBitmap_proofs Framing StmtPackets StmtPackets_proofs.
Import ListNotations.
Open Scope Z_scope.

(** C07: a value written and read back with its own type and signedness.  [canon] only drops
    the sign of a zero time (second theorem). *)
Theorem C07_binary_round_trip : forall v flags r, value_ok v ->
  has_flag flags UNSIGNED_FLAG = value_is_unsigned v ->
  deserialize_bin (value_column_type v) flags (value_serialize v ++ r) = (Ok (canon v), r).
Proof. exact bin_round_trip. Qed.
Print Assumptions C07_binary_round_trip.

Theorem C07_only_negative_zero_time_changes : forall v,
  canon v = v \/ (v = VTime true 0 0 0 0 0 /\ canon v = VTime false 0 0 0 0 0).
Proof. exact canon_cases. Qed.
Print Assumptions C07_only_negative_zero_time_changes.

Example C07_case :
  value_ok (VDatetime 2024 2 29 23 59 58 999999) /\
  value_serialize (VDatetime 2024 2 29 23 59 58 999999)
    = [11; 232; 7; 2; 29; 23; 59; 58; 63; 66; 15; 0] /\
  deserialize_bin CDatetime 0 [11; 232; 7; 2; 29; 23; 59; 58; 63; 66; 15; 0; 77]
    = (Ok (VDatetime 2024 2 29 23 59 58 999999), [77]) /\
  value_serialize (VShort (-2)) = [254; 255].
Proof. splits; try reflexivity; vm_compute; intuition discriminate. Qed.

(** C08: the announced length is the number of bytes written, except for the zero date. *)
Theorem C08_bin_len_partial : forall v, value_ok v ->
  (lenZ (value_serialize v) = bin_len v <-> v <> VDate 0 0 0).
Proof. exact bin_len_iff. Qed.
Print Assumptions C08_bin_len_partial.

Example C08_case :
  value_ok (VDatetime 2024 2 29 23 59 58 0) /\ bin_len (VDatetime 2024 2 29 23 59 58 0) = 8 /\
  value_serialize (VDatetime 2024 2 29 23 59 58 0) = [7; 232; 7; 2; 29; 23; 59; 58].
Proof. splits; try reflexivity; vm_compute; intuition discriminate. Qed.

Theorem C08_bin_len_refuted : exists v, value_ok v /\ lenZ (value_serialize v) <> bin_len v.
Proof. exact bin_len_refuted. Qed.
Print Assumptions C08_bin_len_refuted.

(** C09: after any sequence of markings the bitmap answers what the last marking of each
    position said (initially not null); it never panics and has the documented size. *)
Theorem C09_bitmap_exact : forall client n ops, 0 <= n -> Forall (fun o => 0 <= fst o < n) ops ->
  exists bm, nb_sets client (nb_new client n) ops = Some bm /\
    lenZ bm = (if client then (n + 7) / 8 else (n + 9) / 8) /\
    forall i, 0 <= i < n -> is_null client bm i = Some (last_set ops i false).
Proof. exact bitmap_exact. Qed.
Print Assumptions C09_bitmap_exact.

(** The bit of column [i] is at the documented place. *)
Theorem C09_bitmap_layout : forall client n bm i, 0 <= i < n -> lenZ bm = bitmap_len client n ->
  is_null client bm i =
    Some (Z.testbit (nth (Z.to_nat ((i + (if client then 0 else 2)) / 8)) bm 0)
                    ((i + (if client then 0 else 2)) mod 8)).
Proof. exact is_null_layout. Qed.
Print Assumptions C09_bitmap_layout.

Example C09_case :
  nb_sets true (nb_new true 10) [(9, true); (0, true); (3, true); (0, false)] = Some [8; 2] /\
  last_set [(9, true); (0, true); (3, true); (0, false)] 0 false = false /\
  last_set [(9, true); (0, true); (3, true); (0, false)] 9 false = true.
Proof. splits; reflexivity. Qed.

(** C10: inline parameters are recovered by the server; building the request never panics. *)
Theorem C10_parameters_inline : forall id params, Forall value_ok params -> 0 <= id < 2 ^ 32 ->
  exists r, execute_new id params = Some r /\
    (ex_as_long_data r = false ->
     srv_execute (length params) (fun _ => None) (execute_serialize r) = Some (id, 0, 1, map canon params)).
Proof. exact execute_inline. Qed.
Print Assumptions C10_parameters_inline.

Example C10_case :
  match execute_new 5 [VNull; VUTiny 200; VBytes [104; 105]; VInt (-1)] with
  | Some r =>
    ex_as_long_data r = false /\
    execute_serialize r = [23; 5; 0; 0; 0; 0; 1; 0; 0; 0; 1; 1; 6; 0; 1; 128; 253; 0; 3; 0;
                           200; 2; 104; 105; 255; 255; 255; 255]
  | None => False
  end.
Proof. vm_compute. split; reflexivity. Qed.

(** C11: long data.  The server assembles exactly the byte-string parameters and, with the
    execute packet, recovers the parameter list. *)
Theorem C11_parameters_long : forall id params, Forall value_ok params -> 0 <= id < 2 ^ 32 ->
  lenZ params <= 65536 ->
  exists r pieces, execute_new id params = Some r /\
    srv_receive id (long_data_packets id 0 params) = Some pieces /\
    (forall i, (i < length params)%nat ->
       srv_long pieces i = match nth_error params i with Some (VBytes b) => Some b | _ => None end) /\
    (forall p, In p pieces -> (fst p < length params)%nat) /\
    (ex_as_long_data r = true ->
     srv_execute (length params) (srv_long pieces) (execute_serialize r) = Some (id, 0, 1, map canon params)).
Proof. exact execute_long. Qed.
Print Assumptions C11_parameters_long.

(** Long data is used exactly if the request with everything inline would be longer than one
    frame (zero dates excluded: their length is announced wrongly, see C08). *)
Theorem C11_long_data_when_needed : forall id params r, Forall value_ok params -> params <> [] ->
  ~ In (VDate 0 0 0) params -> execute_new id params = Some r ->
  (ex_as_long_data r = true <->
   lenZ (execute_serialize (mkExecute (ex_stmt_id r) (ex_flags r) (ex_iteration_count r) (ex_bitmap r)
            (ex_params_flags r) (ex_params r) false)) > MAX_PAYLOAD_LEN).
Proof. exact as_long_data_exact. Qed.
Print Assumptions C11_long_data_when_needed.

Example C11_case :
  long_data_packets 5 0 [VTiny 1; VBytes []; VBytes [7; 8]]
    = [[24; 5; 0; 0; 0; 1; 0]; [24; 5; 0; 0; 0; 2; 0; 7; 8]].
Proof. vm_compute. reflexivity. Qed.
