(** A result set that ends with a packet that has a text, on a connection. *)
From Coq Require Import String ZArith List Bool Lia.
From Verif Require Import Base BaseFacts Types Utf8 ParseBuf BufMut Spec_Wire ParseBuf_proofs Framing Framing_proofs
  Spec_Conv Packets Spec_Packets Packets_proofs Crypt Handshake ValueBin Spec_Stmt Spec_Text StmtPackets ValueText Rows Rows_proofs
  ValueText_proofs Conversion Auth Auth_proofs Conn Spec_Conn Conn_proofs Fault_proofs LongEnd_proofs.
Import ListNotations.
Open Scope Z_scope.
Open Scope io_scope.

Lemma text_is_last : forall caps status warnings text, Z.testbit caps DEPRECATE_EOF_BIT = true -> (length text <= 6)%nat ->
  is_last caps (254 :: 0 :: 0 :: wire_uint 2 status ++ wire_uint 2 warnings ++ text) = Ok true.
Proof.
  intros caps status warnings text Hc L. unfold is_last. rewrite deprecate_flag, Hc, MAX_val, Z.eqb_refl.
  f_equal. apply Z.ltb_lt. rewrite !wire_uint_le. unfold lenZ. cbn [length]. rewrite !app_length, !le_bytes_length. lia.
Qed.

(** Read row by row: the set counts as unfinished for ever. *)
Lemma next_text : forall A (decode : list column -> bytes -> res error A) cols c status warnings text w q rest,
  Z.testbit (c_caps c) DEPRECATE_EOF_BIT = true -> byte_ok (c_seq c) -> (2 <= length text <= 6)%nat ->
  frames (c_seq c) (254 :: 0 :: 0 :: wire_uint 2 status ++ wire_uint 2 warnings ++ text) w q ->
  s_in (c_stream c) = w ++ rest ->
  rs_next decode (c, mkSet cols None) = (Err (EProtocol peof), (moved c rest q, mkSet cols None)).
Proof.
  intros A decode cols c status warnings text w q rest Hc Hs L Hf Hi. unfold rs_next. cbn [rs_ok rs_columns].
  rewrite (conn_read_frames c _ w q rest Hf Hs Hi). change (c_caps (moved c rest q)) with (c_caps c).
  rewrite text_is_last by (assumption || lia). now rewrite long_end_err.
Qed.

(** A command when nothing comes but a set is believed to be open: nothing is sent. *)
Lemma command_starved : forall c cmd data, c_pending c = true -> s_in (c_stream c) = [] -> byte_ok (c_seq c) ->
  exists c', execute_command cmd data c = (Err (EProtocol (PIo (s_end (c_stream c)))), c') /\
    s_out (c_stream c') = s_out (c_stream c) /\ c_pending c' = true /\ s_in (c_stream c') = [] /\
    byte_ok (c_seq c') /\ s_end (c_stream c') = s_end (c_stream c).
Proof.
  intros c cmd data Hp Hi Hs. unfold execute_command, cleanup. rewrite iob, Hp. cbn [cleanup_loop]. rewrite iob.
  rewrite (conn_read_empty c Hi Hs). eexists. split; [reflexivity|]. repeat split; try assumption; apply Hs.
Qed.

(** Not read: the next command is refused, once. *)
Lemma command_text : forall c status warnings text w q rest cmd data,
  Z.testbit (c_caps c) DEPRECATE_EOF_BIT = true -> byte_ok (c_seq c) -> (2 <= length text <= 6)%nat -> c_pending c = true ->
  frames (c_seq c) (254 :: 0 :: 0 :: wire_uint 2 status ++ wire_uint 2 warnings ++ text) w q ->
  s_in (c_stream c) = w ++ rest ->
  execute_command cmd data c = (Err (EProtocol peof), mkConn (with_in (c_stream c) rest) q (c_data c) false).
Proof.
  intros c status warnings text w q rest cmd data Hc Hs L Hp Hf Hi.
  unfold execute_command, cleanup. rewrite iob, Hp. cbn [cleanup_loop]. rewrite iob.
  rewrite (conn_read_frames c _ w q rest Hf Hs Hi). change (c_caps (moved c rest q)) with (c_caps c).
  rewrite iob. rewrite text_is_last by (assumption || lia). unfold iores at 1. cbv beta iota.
  rewrite iob. unfold set_pending. cbv beta iota. rewrite iob. rewrite long_end_err by assumption. reflexivity.
Qed.

Lemma starved_ever : forall cmds c, c_pending c = true -> s_in (c_stream c) = [] -> byte_ok (c_seq c) ->
  let c' := fold_left (fun c x => snd (execute_command (fst x) (snd x) c)) cmds c in
  s_out (c_stream c') = s_out (c_stream c) /\
  forall cmd data, fst (execute_command cmd data c') = Err (EProtocol (PIo (s_end (c_stream c)))).
Proof.
  induction cmds as [|x cmds IH]; intros c Hp Hi Hs; cbn [fold_left].
  - split; [reflexivity|]. intros cmd data. destruct (command_starved c cmd data Hp Hi Hs) as (c' & -> & _). reflexivity.
  - destruct (command_starved c (fst x) (snd x) Hp Hi Hs) as (c1 & E & O & P & I & B & N). rewrite E. cbn [snd].
    destruct (IH c1 P I B) as (O' & F). split; [now rewrite O', O|]. intros cmd data. rewrite F, N. reflexivity.
Qed.
