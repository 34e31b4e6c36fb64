(** Proofs about announcements of columns that are cut off, and about what errors show of a packet. *)
From Coq Require Import String ZArith List Bool Lia.
From Verif Require Import Base BaseFacts Types Utf8 ParseBuf BufMut Spec_Wire ParseBuf_proofs Framing Framing_proofs
  Spec_Conv Packets Spec_Packets Packets_proofs Crypt Handshake ValueBin Spec_Stmt StmtPackets ValueText Rows Rows_proofs
  Conversion Auth Auth_proofs Conn Spec_Conn Conn_proofs Fault_proofs EndText_proofs Spec_Answer Answer_proofs Spec_AnswerCut.
Import ListNotations.
Open Scope Z_scope.
Open Scope io_scope.

Lemma cut_refused : forall p, cut_count p -> fst (checked_eat_lenenc_int p) = Err peof.
Proof.
  intros p [|r H|r H|r H]; [reflexivity|..];
    do 8 (destruct r as [|? r]; [vm_compute; reflexivity|]; try (exfalso; cbn [length] in H; lia)).
Qed.

Lemma cut_first : forall p x, cut_count p -> x = 0 \/ x = 251 \/ x = 255 -> first_is x p = false.
Proof. intros p x [|r H|r H|r H] [-> | [-> | ->]]; reflexivity. Qed.

Lemma cut_query : forall q c p w wi qn qe, Z.testbit (c_caps c) DEPRECATE_EOF_BIT = true -> between c wi ->
  requests [3 :: q] w qn -> cut_count p -> frames qn p wi qe ->
  exists c1, query q c = (Err (EProtocol peof), c1) /\ s_out (c_stream c1) = s_out (c_stream c) ++ w /\
    forall cmds, let c' := fold_left (fun c x => snd (execute_command (fst x) (snd x) c)) cmds c1 in
      s_out (c_stream c') = s_out (c_stream c) ++ w /\
      forall cmd data, fst (execute_command cmd data c') = Err (EProtocol (PIo (s_end (c_stream c)))).
Proof.
  intros q c p w wi qn qe Hc Hb Hr Hp Hf.
  destruct (write_command_between (3 :: q) c wi Hc Hb) as (w0 & q0 & F0 & c0 & E & As).
  inversion Hr as [? ? ? F1|]; subst; [|match goal with H : requests [] _ _ |- _ => inversion H end].
  destruct (frames_det _ _ _ _ F0 _ _ F1) as (-> & ->). unfold asked in As.
  assert (Hq : byte_ok qn) by (eapply frames_seq_ok; eauto; unfold byte_ok; lia).
  assert (Hq' : byte_ok qe) by (eapply frames_seq_ok; eauto).
  unfold query. rewrite iob, execute_is_write. change COM_QUERY with 3. rewrite E. unfold rs_read.
  rewrite iob, (conn_read_frames c0 p wi qe []); [|subst; exact Hf|subst; exact Hq|subst; cbn [c_stream s_in]; now rewrite app_nil_r].
  rewrite !(cut_first p) by auto. rewrite iob. unfold set_pending at 1. rewrite iob. unfold iores at 1.
  rewrite (cut_refused p Hp). cbn [of_protocol rmap_err].
  eexists. split; [reflexivity|]. subst c0. split; [reflexivity|]. intros cmds.
  match goal with |- context [fold_left _ cmds ?c1] => destruct (starved_ever cmds c1) as (X & Y); [reflexivity|reflexivity|exact Hq'|] end.
  cbv zeta. split; [rewrite X; reflexivity|]. intros cmd data. rewrite Y. reflexivity.
Qed.

Lemma column_not_shown : forall p r, Forall (fun b => 0 <= b < 256) p -> read_column p = Err (PUnexpectedPacket r) -> r <> p.
Proof.
  intros p r Hb H. apply read_column_refused in H; [|exact Hb]. inversion H as [n cat r' L N| | |]; subst.
  intros E. apply (f_equal (@length Z)) in E. cbn [length] in E. rewrite app_length in E. lia.
Qed.

Lemma error_not_shown : forall caps t r, Forall (fun b => 0 <= b < 256) t ->
  read_err (255 :: t) caps = Err (PInvalidPacket r) -> r <> 255 :: t.
Proof.
  intros caps t r Hb H. apply read_err_refused in H; [|exact Hb]. inversion H; subst.
  intros E. apply (f_equal (@length Z)) in E. cbn [length] in E. lia.
Qed.
