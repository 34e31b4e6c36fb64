(** Properties C102 and C106: only what the server has sent is reported; which packets end a result set. *)
From Coq Require Import String ZArith List Bool Lia.
From Verif Require Import Base BaseFacts Types Utf8 ParseBuf BufMut Spec_Wire ParseBuf_proofs Framing Framing_proofs
  Spec_Conv Packets Spec_Packets Packets_proofs Crypt Handshake ValueBin Spec_Stmt Spec_Text StmtPackets ValueText Rows Rows_proofs
  ValueText_proofs Conversion Auth Auth_proofs Conn Spec_Conn Conn_proofs Panic_proofs Spec_Report Report_proofs Properties_Command.
Import ListNotations.
Open Scope Z_scope.

(** Whatever the server has sent, and whatever is asked of the connection in whatever state: every
    outcome is told by packets that stand at its place in the input. *)
Theorem C102_told : exists packets : use -> list (list Z),
  (forall u, use_ok u -> request u (packets u)) /\
  forall A (decode : list column -> bytes -> res error A) us c ys c',
  0 <= c_seq c < 256 -> Forall (fun b => 0 <= b < 256) (s_in (c_stream c)) ->
  (s_budget (c_stream c) = None \/ exists n, s_budget (c_stream c) = Some n /\ 0 <= n) ->
  run_uses decode us c = (ys, c') ->
  length ys = length us /\
  exists i, s_in (c_stream c) = i ++ s_in (c_stream c') /\
    all_told decode (c_caps c) packets (c_pending c) (c_seq c) (combine us ys) i (c_pending c') (c_seq c').
Proof.
  exists use_packets. split; [intros u H; now apply use_packets_request|].
  intros A decode us c ys c' Hq Hi Hb H. split; [eapply run_uses_length; eauto|].
  apply run_uses_told; [|exact H]. split; [split; [exact Hq | exact Hi] | exact Hb].
Qed.
Print Assumptions C102_told.

(** A server that goes astray: a row with a wrong number, a row, then the answer to the next command
    before the end of the rows; the command after that gets an answer of its own. *)
Definition astray : conn :=
  idle (frame 1 [1] ++ frame 2 column_packet ++ frame 9 [1; 97] ++ frame 3 [1; 98] ++ frame 4 ok_packet_bytes ++
        frame 5 [254; 0; 0; 2; 0; 0; 0] ++ frame 1 (255 :: wire_uint 2 1064 ++ [35] ++ s2l "42000" ++ s2l "syntax")).

Example C102_case :
  0 <= c_seq astray < 256 /\ Forall (fun b => 0 <= b < 256) (s_in (c_stream astray)) /\ s_budget (c_stream astray) = None /\
  fst (run_uses (fun _ p => Ok p) [UQuery (s2l "q") 2; UExecute (s2l "e"); UExecute (s2l "f")] astray) =
  [SRows [some_column] [Err (EProtocol POutOfSync); Ok (Some [1; 98])];
   SFailed (EServer (ErrError 1064 (Some (s2l "42000")) (s2l "syntax")));
   SFailed (EProtocol (PIo IoUnexpectedEof))].
Proof.
  split; [cbn; lia|]. split; [|split; [reflexivity | vm_compute; reflexivity]].
  apply Forall_forall. intros b H.
  assert (K : forallb (fun b => (0 <=? b) && (b <? 256)) (s_in (c_stream astray)) = true) by reflexivity.
  rewrite forallb_forall in K. specialize (K b H). lia.
Qed.

(** ** The end of a result set *)

(** C106: what asking for a row does with the next packet, whatever it is.  An end that cannot be read
    is an error and leaves the set open. *)
Theorem C106_next : forall A (decode : list column -> bytes -> res error A) c cols p w q rest,
  0 <= c_seq c < 256 -> Forall (fun b => 0 <= b < 256) p ->
  frames (c_seq c) p w q -> s_in (c_stream c) = w ++ rest ->
  exists r c' rs', rs_next decode (c, mkSet cols None) = (r, (c', rs')) /\
    s_in (c_stream c') = rest /\ s_out (c_stream c') = s_out (c_stream c) /\ c_seq c' = q /\ c_data c' = c_data c /\
    (forall status warnings, last_packet (c_caps c) p -> end_report status warnings p ->
       r = Ok None /\ c_pending c' = false /\
       exists x, rs' = mkSet cols (Some x) /\ ok_status x = status /\ ok_warnings x = warnings) /\
    (last_packet (c_caps c) p -> ~ readable_end p ->
       r = Err (EProtocol (PIo IoUnexpectedEof)) /\ c_pending c' = c_pending c /\ rs' = mkSet cols None) /\
    (~ last_packet (c_caps c) p ->
       r = (match p with
            | [] => Panic
            | _ => match decode cols p with Ok a => Ok (Some a) | Err e => Err e | Panic => Panic end
            end) /\ c_pending c' = c_pending c /\ rs' = mkSet cols None).
Proof.
  intros A decode c cols p w q rest Hq Hp Hf Hi. unfold rs_next. cbn [rs_ok rs_columns].
  rewrite (conn_read_frames c p w q rest Hf Hq Hi).
  assert (C : c_caps (moved c rest q) = c_caps c) by reflexivity. rewrite C. pose proof (is_last_told (c_caps c) p) as L.
  destruct (is_last (c_caps c) p) as [[|]|e|]; [| |contradiction|].
  - pose proof (read_eof_np p (c_caps c)) as N. destruct (read_eof p (c_caps c)) as [x|e|] eqn:E; [| |contradiction].
    + do 3 eexists. split; [reflexivity|]. splits; auto; try contradiction.
      * intros s wn _ R. apply (eof_told (c_caps c)) in R; [|exact Hp]. destruct R as (x' & R & Es & Ew).
        rewrite E in R. injection R as <-. splits; eauto.
      * intros _ R. exfalso. apply R. eapply eof_good; eauto.
    + destruct (eof_bad _ _ _ Hp E) as (-> & R). do 3 eexists. split; [reflexivity|]. splits; auto; try contradiction.
      * intros s wn _ R'. exfalso. apply R. now exists s, wn.
  - destruct L as (L1 & L2). do 3 eexists. split; [reflexivity|]. splits; auto; try contradiction.
    intros _. splits; auto. destruct p; [contradiction|]. destruct (decode cols (z :: p)); reflexivity.
  - do 3 eexists. split; [reflexivity|]. subst p. splits; auto; try (intros; destruct H as (? & ? & _); discriminate).
Qed.
Print Assumptions C106_next.

(** After the end nothing more is read. *)
Theorem C106_over : forall A (decode : list column -> bytes -> res error A) c cols x,
  rs_next decode (c, mkSet cols (Some x)) = (Ok None, (c, mkSet cols (Some x))).
Proof. reflexivity. Qed.
Print Assumptions C106_over.

(** The end of a server that supports DEPRECATE_EOF and has nothing to say ends the set. *)
Theorem C106_documented_end_partial : forall caps status warnings,
  Z.testbit caps DEPRECATE_EOF_BIT = true -> 0 <= status < 65536 -> 0 <= warnings < 65536 ->
  let pkt := 254 :: 0 :: 0 :: wire_uint 2 status ++ wire_uint 2 warnings in
  terminator (Z.testbit caps SESSION_TRACK_BIT) InfoAbsent status warnings [] [] pkt /\
  last_packet caps pkt /\ readable_end pkt.
Proof.
  intros caps status warnings Hd Hs Hw pkt. split.
  { eexists. split; [|reflexivity]. exists [0], [0], []. splits; try lia; [apply (lenenc_1 0); lia | apply (lenenc_1 0); lia | constructor |].
    now rewrite app_nil_r. }
  assert (E : pkt = [254; 0; 0; status mod 256; status / 256; warnings mod 256; warnings / 256]).
  { unfold pkt. rewrite !wire_uint_le. cbn [app le_bytes]. now rewrite !(Z.mod_small (_ / 256)) by lia. }
  rewrite E. split; [eexists; split; [reflexivity|]; rewrite Hd; cbn; lia|].
  set (f := 256 * (status mod 256)). set (v := status / 256 + 256 * (warnings mod 256)).
  assert (Hf : 0 <= f < 65536) by (subst f; lia). assert (Hv : 0 <= v < 65536) by (subst v; lia).
  exists (status_truncate f), v, [254], [0], f, [warnings / 256].
  split; [exact Hf|]. split; [exact Hv|]. split; [right; split; [reflexivity | cbn; lia]|].
  split; [left; exists 0; constructor; apply (lenenc_1 0); lia|]. split; [|intros i; now apply status_truncate_bit].
  rewrite !wire_uint_le. cbn [app le_bytes]. unfold f, v. clear -Hs Hw.
  replace (256 * (status mod 256)) with (status mod 256 * 256) by ring. rewrite Z.mod_mul, Z.div_mul by lia.
  replace (status / 256 + 256 * (warnings mod 256)) with (status / 256 + warnings mod 256 * 256) by ring.
  rewrite Z.mod_add, Z.div_add by lia. rewrite (Z.mod_small (status / 256)), (Z.div_small (status / 256)) by lia.
  rewrite Z.add_0_l, !(Z.mod_small (_ mod 256)) by lia. reflexivity.
Qed.
Print Assumptions C106_documented_end_partial.

(** An end with a text can be unreadable, and so is every end of a server without DEPRECATE_EOF: the
    set stays open and the next row is waited for in vain. *)
Theorem C106_documented_end_refuted :
  (exists caps pkt msg, Z.testbit caps DEPRECATE_EOF_BIT = true /\ documented_form (Z.testbit caps SESSION_TRACK_BIT) InfoEof /\
     terminator (Z.testbit caps SESSION_TRACK_BIT) InfoEof 2 0 msg [] pkt /\
     last_packet caps pkt /\ ~ readable_end pkt) /\
  (forall caps status warnings pkt, Z.testbit caps DEPRECATE_EOF_BIT = false -> old_eof status warnings pkt ->
     last_packet caps pkt /\ ~ readable_end pkt).
Proof.
  split.
  - exists (2 ^ 24), ([254; 0; 0; 2; 0; 0; 0] ++ s2l "hello"), (s2l "hello"). splits; try reflexivity.
    + exists ([0; 0; 2; 0; 0; 0] ++ s2l "hello"). split; [|reflexivity]. exists [0], [0], (s2l "hello"). splits; try lia.
      * apply (lenenc_1 0). lia.
      * apply (lenenc_1 0). lia.
      * apply oi_eof. apply utf8_text_ascii. repeat constructor; cbn; lia.
      * reflexivity.
    + eexists. split; [reflexivity|]. vm_compute. reflexivity.
    + assert (B : bytes_ok ([254; 0; 0; 2; 0; 0; 0] ++ s2l "hello")) by (repeat constructor; cbn; lia).
      apply (eof_bad (2 ^ 24) _ peof B). reflexivity.
  - intros caps status warnings pkt Hd (Hs & Hw & ->). split.
    + eexists. split; [reflexivity|]. rewrite Hd. cbn [length]. rewrite app_length, !wire_uint_le, !le_bytes_length. cbn. lia.
    + assert (B : bytes_ok (254 :: wire_uint 2 warnings ++ wire_uint 2 status)).
      { constructor; [split; [lia | reflexivity]|]. apply Forall_app. rewrite !wire_uint_le. split; apply le_bytes_ok. }
      apply (eof_bad caps _ peof B). apply (old_eof_err caps status warnings). unfold old_eof. auto.
Qed.
Print Assumptions C106_documented_end_refuted.

(** Two rows, an end that cannot be read, and a second one that can; then no more packets are taken. *)
Example C106_case :
  let c := mkConn (mkStream (frame 3 [1; 97] ++ frame 4 ([254; 0; 0; 2; 0; 0; 0] ++ s2l "hello") ++
                             frame 5 [254; 0; 0; 2; 0; 0; 0] ++ frame 6 [1; 98]) IoUnexpectedEof [] None) 3 (c_data astray) true in
  fst (nexts (fun _ p => Ok p) 4 (c, mkSet [some_column] None)) =
  [Ok (Some [1; 97]); Err (EProtocol (PIo IoUnexpectedEof)); Ok None; Ok None] /\
  frames 3 [1; 97] (frame 3 [1; 97]) 4.
Proof. cbn zeta. split; [vm_compute; reflexivity|]. apply (frames_last 3 [1; 97]). cbn. lia. Qed.
