(** Specification of the MySQL wire format, written from the protocol documentation
    (page "Protocol Basics": packets, integer types, string types).  Independent of the model. *)
From Coq Require Import ZArith List.
Import ListNotations.
Open Scope Z_scope.

(** [int<k>]: fixed-length little-endian integer. *)
Definition wire_uint (k : nat) (n : Z) : list Z :=
  map (fun i => (n / 256 ^ Z.of_nat i) mod 256) (seq 0 k).

(** [int<lenenc>]: [lenenc n w] says that the bytes [w] are an encoding of [n]; the
    documentation lets a reader accept all four widths. *)
Inductive lenenc : Z -> list Z -> Prop :=
| lenenc_1 : forall n, 0 <= n <= 250 -> lenenc n [n]
| lenenc_3 : forall n, 0 <= n < 2 ^ 16 -> lenenc n (252 :: wire_uint 2 n)
| lenenc_4 : forall n, 0 <= n < 2 ^ 24 -> lenenc n (253 :: wire_uint 3 n)
| lenenc_9 : forall n, 0 <= n < 2 ^ 64 -> lenenc n (254 :: wire_uint 8 n).

(** The encoding a server or client is expected to produce. *)
Definition wire_lenenc (n : Z) : list Z :=
  if n <=? 250 then [n]
  else if n <=? 65535 then 252 :: wire_uint 2 n
  else if n <=? 16777215 then 253 :: wire_uint 3 n
  else 254 :: wire_uint 8 n.

(** [string<lenenc>] *)
Definition wire_lenenc_str (s : list Z) : list Z := wire_lenenc (Z.of_nat (length s)) ++ s.

(** [string<NUL>] *)
Definition wire_nul_str (s : list Z) : list Z := s ++ [0].

(** The next sequence number. *)
Definition next_seq (seq : Z) : Z := if seq =? 255 then 0 else seq + 1.

(** [frames seq payload wire seq']: [wire] carries [payload] in frames numbered from [seq];
    [seq'] is the number after the last frame.  All frames but the last are full. *)
Inductive frames : Z -> list Z -> list Z -> Z -> Prop :=
| frames_last : forall seq body,
    Z.of_nat (length body) < 2 ^ 24 - 1 ->
    frames seq body (wire_uint 3 (Z.of_nat (length body)) ++ [seq] ++ body) (next_seq seq)
| frames_full : forall seq body rest wire seq',
    Z.of_nat (length body) = 2 ^ 24 - 1 ->
    frames (next_seq seq) rest wire seq' ->
    frames seq (body ++ rest) (wire_uint 3 (2 ^ 24 - 1) ++ [seq] ++ body ++ wire) seq'.

(** [misnumbered seq wire]: some (complete) frame of a packet starting at [seq] carries a
    wrong sequence number. *)
Inductive misnumbered : Z -> list Z -> Prop :=
| misnumbered_here : forall seq sq body,
    Z.of_nat (length body) < 2 ^ 24 -> sq <> seq ->
    misnumbered seq (wire_uint 3 (Z.of_nat (length body)) ++ [sq] ++ body)
| misnumbered_later : forall seq body wire,
    Z.of_nat (length body) = 2 ^ 24 - 1 ->
    misnumbered (next_seq seq) wire ->
    misnumbered seq (wire_uint 3 (2 ^ 24 - 1) ++ [seq] ++ body ++ wire).
