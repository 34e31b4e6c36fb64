(** Property C109: answers that cannot be read. *)
From Coq Require Import String ZArith List Bool Lia.
From Verif Require Import Base BaseFacts Types Utf8 ParseBuf BufMut Spec_Wire ParseBuf_proofs Framing Framing_proofs
  Spec_Conv Packets Spec_Packets Packets_proofs Crypt Handshake ValueBin Spec_Stmt Spec_Text StmtPackets ValueText Rows Rows_proofs
  ValueText_proofs Conversion Auth Auth_proofs Conn Spec_Conn Conn_proofs Panic_proofs Spec_Report Report_proofs Properties_Command
  Spec_Answer Answer_proofs.
Import ListNotations.
Open Scope Z_scope.

(** Each use shows what its own answer says, and the next one gets its own answer, however many of the
    answers before it could not be read.  Missing: announcements of columns that cannot be read (refuted
    below), are too many, or ask for a local file. *)
Theorem C109_in_step_partial : exists packets : use -> list (list Z),
  (forall u, use_ok u -> request u (packets u)) /\
  forall A (decode : list column -> bytes -> res error A) caps l i o,
  conversation decode caps packets l i o -> Z.testbit caps DEPRECATE_EOF_BIT = true ->
  forall c rest, c_caps c = caps -> between c (i ++ rest) ->
  exists ys c', run_uses decode (map fst l) c = (ys, c') /\
    Forall2 (fun x y => shown decode caps (fst x) (snd x) y) l ys /\ between c' rest /\
    s_out (c_stream c') = s_out (c_stream c) ++ o.
Proof.
  exists use_packets. split; [intros u Hu; now apply use_packets_request|].
  intros A decode caps l i o H Hd c rest Hc Hb.
  destruct (run_uses_shown A decode caps l i o H Hd c rest Hc Hb) as (ys & c' & E & S & B & _ & O). exists ys, c'. auto.
Qed.
Print Assumptions C109_in_step_partial.

(** Error packets: exactly those of the layout are taken for one, and why others are not. *)
Theorem C109_errors : forall caps p, Forall (fun b => 0 <= b < 256) p ->
  let p41 := Z.testbit caps PROTOCOL_41_BIT in let progress := Z.testbit caps PROGRESS_BIT in
  (forall e, read_err p caps = Ok e <-> err_report p41 progress e p) /\
  (forall r e, p = 255 :: r -> read_err p caps = Err e -> bad_error p41 progress p e).
Proof.
  intros caps p Hb. cbv zeta. split.
  - intros e. split; [now apply err_reported | now apply err_report_read].
  - intros r e -> H. apply read_err_refused; [now inversion Hb | exact H].
Qed.
Print Assumptions C109_errors.

(** Column definitions: likewise. *)
Theorem C109_columns : forall p, Forall (fun b => 0 <= b < 256) p ->
  (forall c, read_column p = Ok c <-> column_layout_by u8_text c p) /\
  (forall e, read_column p = Err e -> bad_column p e).
Proof.
  intros p Hb. split; [intros c; now apply read_column_iff | intros e H; now apply read_column_refused].
Qed.
Print Assumptions C109_columns.

(** An empty packet in answer to a question for rows: the client goes on waiting for the end of a
    result set, and the next request is never written. *)
Theorem C109_waiting_refuted : exists c, s_in (c_stream c) = frame 1 [] /\
  run_uses (fun _ p => Ok p) [UQuery (s2l "a") 0; UExecute (s2l "b")] c =
    ([SFailed (EProtocol too_short); SFailed (EProtocol too_short)], snd (run_uses (fun _ p => Ok p) [UQuery (s2l "a") 0] c)) /\
  s_out (c_stream (snd (run_uses (fun _ p => Ok p) [UQuery (s2l "a") 0; UExecute (s2l "b")] c))) = frame 0 (3 :: s2l "a").
Proof. exists (idle (frame 1 [])). splits; vm_compute; reflexivity. Qed.
Print Assumptions C109_waiting_refuted.

(** "Unexpected packet" for a column definition, and "invalid packet" for an error packet, do not show the packet. *)
Theorem C109_packet_refuted :
  (exists p r, read_column p = Err (PUnexpectedPacket r) /\ r <> p) /\
  (exists caps p r, read_err p caps = Err (PInvalidPacket r) /\ r <> p).
Proof.
  split.
  - exists [3; 120; 121; 122; 0; 1; 2], [0; 1; 2]. split; [vm_compute; reflexivity | discriminate].
  - exists 512, [255; 21; 4; 33; 65], [65]. split; [vm_compute; reflexivity | discriminate].
Qed.
Print Assumptions C109_packet_refuted.

(** A packet that is no answer, a column that is none, an error packet without a state, and then a
    plain answer. *)
Definition odd_uses : list (use * list (list Z)) :=
  [(UExecute (s2l "a"), [[7; 8]]);
   (UQuery (s2l "b") 2, [[2]; column_packet; [3; 120; 121; 122; 9]; [1; 97]; [254; 0; 0; 2; 0; 0; 0]]);
   (UPrepare (s2l "c"), [[255; 21; 4; 33; 65]]);
   (UQuery (s2l "d") 1, [[0; 5]]);
   (UExecute (s2l "e"), [ok_packet_bytes])].

Definition odd_input : bytes :=
  frame 1 [7; 8] ++
  (frame 1 [2] ++ frame 2 column_packet ++ frame 3 [3; 120; 121; 122; 9] ++ frame 4 [1; 97] ++ frame 5 [254; 0; 0; 2; 0; 0; 0]) ++
  frame 1 [255; 21; 4; 33; 65] ++ frame 1 [0; 5] ++ frame 1 ok_packet_bytes.

Lemma column_u8 : column_layout_by u8_text some_column column_packet.
Proof. apply read_column_iff; [|vm_compute; reflexivity]. repeat (apply Forall_cons; [unfold byte_ok; lia|]). apply Forall_nil. Qed.

Lemma odd_conversation : exists o, conversation (fun _ p => Ok p) some_caps use_packets odd_uses odd_input o.
Proof.
  assert (R : forall u p, use_packets u = [p] -> Z.of_nat (length p) < 2 ^ 24 - 1 -> requests (use_packets u) (frame 0 p) 1).
  { intros u p E L. rewrite E. constructor. now apply (frame_frames 0). }
  assert (B : forall l : list Z, forallb (fun b => (0 <=? b) && (b <? 256)) l = true -> Forall (fun b => 0 <= b < 256) l).
  { intros l H. apply Forall_forall. intros b Hb. rewrite forallb_forall in H. specialize (H b Hb). lia. }
  assert (F1 : forall p, Z.of_nat (length p) < 2 ^ 24 - 1 -> framed 1 [p] (frame 1 p) 2).
  { intros p L. rewrite <- (app_nil_r (frame 1 p)). econstructor; [now apply (frame_frames 1) | constructor]. }
  assert (Lone : forall u p, lone_answer u p -> forallb (fun b => (0 <=? b) && (b <? 256)) p = true ->
    answerable (fun _ p => Ok p : res error (list Z)) some_caps u [p]).
  { intros u p H1 H2. apply an_lone; auto. }
  eexists. unfold odd_uses, odd_input.
  eapply conversation_cons; [exact I | apply R; [reflexivity | cbn; lia] | apply Lone; [left; exact I | reflexivity] | apply F1; cbn; lia|].
  eapply conversation_cons; [exact I | apply R; [reflexivity | cbn; lia] | | |].
  { apply an_columns with (k := 2%nat) (bad := [3; 120; 121; 122; 9]); [reflexivity|].
    exists 2, [2], [some_column], [column_packet], [[1; 97]], 2, 0, [254; 0; 0; 2; 0; 0; 0].
    splits; try reflexivity; try lia.
    - exists [2], [], 2, []. splits; try reflexivity; try lia. apply loose_int_lenenc; apply lenenc_1; lia.
    - constructor; [exact column_u8 | constructor].
    - intros col (db & wdb & wt & wot & wn & won & cs & len & code & dec & fil & _ & _ & _ & _ & _ & _ & _ & _ & _ & _ & _ & E). discriminate.
    - constructor; [|constructor]. exists 1, [97]. splits; [reflexivity | lia | lia].
    - split; [split; [lia | intros H; discriminate] | split; [lia | reflexivity]].
    - repeat (apply Forall_cons; [apply B; reflexivity|]). apply Forall_nil. }
  { rewrite <- (app_nil_r (frame 5 _)). framed_by. }
  eapply conversation_cons; [exact I | apply R; [reflexivity | cbn; lia] | apply Lone; [|reflexivity] | apply F1; cbn; lia|].
  { right. right. split; [exact I | discriminate]. }
  eapply conversation_cons; [exact I | apply R; [reflexivity | cbn; lia] | apply Lone; [|reflexivity] | apply F1; cbn; lia|].
  { right. left. split; [now exists 1%nat | eauto]. }
  rewrite <- (app_nil_r (frame 1 ok_packet_bytes)).
  eapply conversation_cons; [exact I | apply R; [reflexivity | cbn; lia] | apply Lone; [left; exact I | reflexivity] | apply F1; cbn; lia|].
  constructor.
Qed.

Example C109_case : fst (run_uses (fun _ p => Ok p) (map fst odd_uses) (idle odd_input)) =
  [SFailed (EProtocol (PUnexpectedPacket [7; 8])); SFailed (EProtocol (PUnexpectedPacket [9]));
   SFailed (EProtocol (PInvalidPacket [65])); SFailed (EProtocol too_short); SDone 0 0 2 0 None None] /\
  between (idle odd_input) odd_input /\
  exists o, conversation (fun _ p => Ok p) some_caps use_packets odd_uses odd_input o.
Proof.
  split; [vm_compute; reflexivity|]. split; [|exact odd_conversation].
  split; [unfold byte_ok; cbn; lia|]. split; [reflexivity|]. left. split; reflexivity.
Qed.
