(** Properties C05, C06: integers and strings of the wire format. *)
From Coq Require Import ZArith List Lia.
From Verif Require Import Base BaseFacts Types ParseBuf BufMut Spec_Wire ParseBuf_proofs.
Import ListNotations.
Open Scope Z_scope.

(** C05: written integers are read back. *)
Theorem C05_lenenc_round_trip : forall n r, 0 <= n < 2 ^ 64 ->
  checked_eat_lenenc_int (put_lenenc_int n ++ r) = (Ok n, r).
Proof. exact lenenc_int_roundtrip. Qed.
Print Assumptions C05_lenenc_round_trip.

(** Every encoding the documentation allows is read. *)
Theorem C05_lenenc_read_all_forms : forall n w r, lenenc n w ->
  checked_eat_lenenc_int (w ++ r) = (Ok n, r).
Proof. exact checked_eat_lenenc_int_spec. Qed.
Print Assumptions C05_lenenc_read_all_forms.

(** The one written is allowed, the shortest, has the announced length and does not start
    with 0xFB or 0xFF. *)
Theorem C05_lenenc_written_form : forall n, 0 <= n < 2 ^ 64 ->
  lenenc n (put_lenenc_int n) /\
  (forall w, lenenc n w -> lenZ (put_lenenc_int n) <= lenZ w) /\
  lenZ (put_lenenc_int n) = lenenc_int_len n /\
  exists b r, put_lenenc_int n = b :: r /\ b <> 251 /\ b <> 255.
Proof. exact lenenc_written_form. Qed.
Print Assumptions C05_lenenc_written_form.

(** The reader without checks reads the same, and panics where the other reports an error. *)
Theorem C05_lenenc_unchecked :
  (forall n w r, lenenc n w -> eat_lenenc_int (w ++ r) = (Ok n, r)) /\
  (forall b, fst (eat_lenenc_int b) = match fst (checked_eat_lenenc_int b) with Ok n => Ok n | _ => Panic end).
Proof.
  assert (E : forall k b, eat_uint k b = match checked_eat_uint k b with (Ok n, r) => (Ok n, r) | (_, r) => (Panic, r) end).
  { intros k b. unfold eat_uint, checked_eat_uint, pbind, checked_eat, eat. rewrite Z.geb_leb.
    destruct (Z.ltb_spec (lenZ b) (Z.of_nat k)); destruct (Z.leb_spec (Z.of_nat k) (lenZ b)); try lia; reflexivity. }
  assert (H : forall b, eat_lenenc_int b = match checked_eat_lenenc_int b with (Ok n, r) => (Ok n, r) | (_, r) => (Panic, r) end).
  { intros b. unfold eat_lenenc_int, checked_eat_lenenc_int, pbind. rewrite E.
    destruct (checked_eat_uint 1 b) as ([x| |] & r); try reflexivity.
    destruct (x <=? 250); [reflexivity|]. destruct (x =? 252); [apply E|]. destruct (x =? 253); [apply E|].
    destruct (x =? 254); [apply E|reflexivity]. }
  split.
  - intros n w r L. now rewrite H, (checked_eat_lenenc_int_spec n w r L).
  - intros b. rewrite H. destruct (checked_eat_lenenc_int b) as ([x| |] & r); reflexivity.
Qed.
Print Assumptions C05_lenenc_unchecked.

Example C05_case : put_lenenc_int 300 = [252; 44; 1] /\ lenenc 300 [253; 44; 1; 0].
Proof. split; [reflexivity|]. apply (lenenc_4 300). split; [discriminate|reflexivity]. Qed.

(** C06, length-encoded prefix. *)
Theorem C06_lenenc_slice : forall s r, lenZ s < 2 ^ 64 ->
  checked_eat_lenenc_slice (put_lenenc_slice s ++ r) = (Ok s, r) /\
  put_lenenc_slice s = wire_lenenc_str s /\
  lenZ (put_lenenc_slice s) = lenenc_slice_len s.
Proof. exact lenenc_slice_all. Qed.
Print Assumptions C06_lenenc_slice.

(** C06, u8 prefix: the first 255 bytes. *)
Theorem C06_u8_slice : forall s r,
  checked_eat_u8_slice (put_u8_slice s ++ r) = (Ok (firstn 255 s), r).
Proof. exact u8_slice_all. Qed.
Print Assumptions C06_u8_slice.

(** C06, NUL-terminated: exact iff there is no NUL byte. *)
Theorem C06_null_slice : forall s r,
  eat_null_slice (put_null_slice s ++ r) = (Ok s, r) <-> ~ In 0 s.
Proof. exact null_slice_iff. Qed.
Print Assumptions C06_null_slice.

Example C06_case :
  put_lenenc_slice [104; 105] = [2; 104; 105] /\
  eat_null_slice (put_null_slice [104; 0; 105] ++ [1]) = (Ok [104], [105; 0; 1]).
Proof. split; reflexivity. Qed.
