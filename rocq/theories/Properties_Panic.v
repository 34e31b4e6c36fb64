(** Property C76: the command layer and hostile packets. *)
From Coq Require Import String ZArith List Bool Lia.
From Verif Require Import Base BaseFacts Types Utf8 ParseBuf BufMut Spec_Wire Framing Framing_proofs Packets Crypt Handshake
  ValueBin Spec_Stmt StmtPackets ValueText Rows Rows_proofs Conversion Auth Conn Spec_Conn Conn_proofs Spec_Panic Panic_proofs
  Properties_Rows Properties_Auth Properties_Command.
Import ListNotations.
Open Scope Z_scope.

(** A panic of [m], in whatever state the connection is and whatever the server has sent, comes
    right after a packet the client cannot handle. *)
Definition panics_only_on {A B} (decode : list column -> bytes -> res error A) (m : IO conn B) : Prop :=
  forall c, byte_ok (c_seq c) -> bytes_ok (s_in (c_stream c)) ->
  fst (m c) = Panic -> fatal_input decode (s_in (c_stream c)) (s_in (c_stream (snd (m c)))).

Definition rows_panic_only_on {A B} (decode : list column -> bytes -> res error A) (m : IO (conn * result_set) B) : Prop :=
  forall c rs, byte_ok (c_seq c) -> bytes_ok (s_in (c_stream c)) ->
  fst (m (c, rs)) = Panic -> fatal_input decode (s_in (c_stream c)) (s_in (c_stream (fst (snd (m (c, rs)))))).

Lemma only_on : forall A B (decode : list column -> bytes -> res error A) (m : IO conn B), calm decode m -> panics_only_on decode m.
Proof.
  intros A B decode m H c H1 H2 P. destruct (m c) as [r c'] eqn:E. destruct (H c (conj H1 H2) r c' E) as (_ & _ & X). now apply X.
Qed.
Lemma rows_only_on : forall A B (decode : list column -> bytes -> res error A) (m : IO (conn * result_set) B),
  calm_rows decode m -> rows_panic_only_on decode m.
Proof.
  intros A B decode m H c rs H1 H2 P. destruct (m (c, rs)) as [r [c' rs']] eqn:E.
  destruct (H c rs (conj H1 H2) r c' rs' E) as (_ & _ & X). now apply X.
Qed.

(** No operation panics on the server's bytes, except right after an empty packet, a LOCAL INFILE
    request, an announcement of absurdly many columns, or a row the decoder panics on (C15). *)
Theorem C76_commands_do_not_panic_partial : forall A (decode : list column -> bytes -> res error A),
  (forall q, panics_only_on decode (query q)) /\
  (forall q, panics_only_on decode (execute_query q)) /\
  (forall q, panics_only_on decode (prepare_statement q)) /\
  (forall st values, Forall value_ok values -> panics_only_on decode (stmt_query st values)) /\
  (forall st values, Forall value_ok values -> panics_only_on decode (stmt_execute st values)) /\
  panics_only_on decode cleanup /\ panics_only_on decode disconnect /\
  rows_panic_only_on decode (rs_next decode) /\ rows_panic_only_on decode (collect decode) /\
  rows_panic_only_on decode (one decode) /\ rows_panic_only_on decode (finish decode) /\
  rows_panic_only_on decode (finish_into_inner decode).
Proof.
  intros A decode. splits; intros; first [apply only_on | apply rows_only_on];
    auto using calm_query, calm_execute_query, calm_prepare, calm_stmt_query, calm_stmt_execute, calm_cleanup, calm_disconnect,
      calm_next, calm_collect, calm_one, calm_finish, calm_finish_inner.
Qed.
Print Assumptions C76_commands_do_not_panic_partial.

(** The same for the question asked after authentication. *)
Theorem C76_settings_do_not_panic_partial : forall debug f32 f64 o,
  panics_only_on (text_rows debug f32 f64) (read_settings debug f32 f64 o).
Proof. intros. apply only_on, calm_settings. Qed.
Print Assumptions C76_settings_do_not_panic_partial.

(** Hostile bytes that are survived: a wrong number, a truncated row, garbage for a column. *)
Example C76_case :
  ~ fatal (fun _ p => Ok p) (7 :: s2l "garbage") /\
  fst (query (s2l "q") (idle (frame 1 [1] ++ frame 2 (7 :: s2l "garbage")))) <> Panic /\
  fst (query (s2l "q") (idle (frame 1 [9; 9; 9] ++ [1; 2; 3]))) = Err (EProtocol (PIo IoUnexpectedEof)) /\
  fst (execute_query (s2l "q") (idle (frame 1 []))) = Err (EProtocol peof).
Proof.
  splits; try (vm_compute; try reflexivity; discriminate).
  intros H. inversion H as [| |n w r L B E|cols p E]; subst; [|discriminate].
  inversion L; subst; cbn [app] in E; try discriminate E. injection E as E _. lia.
Qed.

(** Each kind of packet does panic somewhere. *)
Theorem C76_commands_do_not_panic_refuted :
  (exists c, fst (query (s2l "q") c) = Panic /\ s_in (c_stream c) = frame 1 [251; 47; 101]) /\
  (exists c, fst (query (s2l "q") c) = Panic /\ s_in (c_stream c) = frame 1 [254; 255; 255; 255; 255; 255; 255; 255; 255]) /\
  (exists c rs, fst (query (s2l "q") c) = Ok rs /\ s_in (c_stream c) = frame 1 [1] ++ frame 2 column_packet ++ frame 3 [] /\
     fst (rs_next (fun _ p => Ok p) (snd (query (s2l "q") c), rs)) = Panic).
Proof.
  split; [|split].
  - exists (idle (frame 1 [251; 47; 101])). split; vm_compute; reflexivity.
  - exists (idle (frame 1 [254; 255; 255; 255; 255; 255; 255; 255; 255])). split; vm_compute; reflexivity.
  - exists (idle (frame 1 [1] ++ frame 2 column_packet ++ frame 3 [])), (mkSet [some_column] None).
    splits; vm_compute; reflexivity.
Qed.
Print Assumptions C76_commands_do_not_panic_refuted.
