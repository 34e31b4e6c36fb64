(** Proofs about what a server reads of commands, whole or cut off (C119). *)
From Coq Require Import String ZArith List Bool Lia.
From Verif Require Import Base BaseFacts Types Utf8 ParseBuf BufMut Spec_Wire ParseBuf_proofs Framing Framing_proofs
  Packets Spec_Packets Packets_proofs Crypt Handshake ValueBin Spec_Stmt NullBitmap StmtPackets ValueText Rows
  Conversion Auth Auth_proofs Conn Spec_Conn Conn_proofs Spec_Sending Sending_proofs Properties_Command Spec_Injected.
Import ListNotations.
Open Scope Z_scope.

(** ** Reading is unambiguous *)

Lemma reads_app : forall ps w w1, server_reads ps w w1 -> w1 = [] -> forall qs l rest, server_reads qs l rest ->
  server_reads (ps ++ qs) (w ++ l) rest.
Proof.
  induction 1 as [rest0|p w q ps l0 rest0 Hf Hr IH]; intros E qs l rest H.
  - subst. exact H.
  - cbn [app]. rewrite <- app_assoc. econstructor; eauto.
Qed.

Lemma requests_reads : forall ps w q, requests ps w q -> server_reads ps w [].
Proof.
  induction 1 as [p w q Hf|p w q ps w' q' Hf Hr IH].
  - rewrite <- (app_nil_r w). econstructor; [exact Hf | constructor].
  - econstructor; eauto.
Qed.

Lemma reads_prefix : forall ps l rest, server_reads ps l rest -> forall qs lost,
  server_reads qs (l ++ lost) [] -> exists more, ps ++ more = qs.
Proof.
  induction 1 as [rest|p w q ps l rest Hf Hr IH]; intros qs lost H; [exists qs; reflexivity|].
  rewrite <- app_assoc in H. remember (w ++ l ++ lost) as all eqn:E. remember (@nil Z) as none eqn:En.
  destruct H as [?|p' w' q' qs' l' ? Hf' Hr']; subst.
  - exfalso. symmetry in E. apply app_eq_nil in E. destruct E as [-> _]. apply frames_wire_length in Hf. cbn in Hf. lia.
  - destruct (frames_payload_unique 0 _ _ _ Hf' ltac:(unfold byte_ok; lia) _ _ _ _ _ Hf E) as (-> & _ & ->).
    destruct (IH _ _ Hr') as (more & <-). exists more. reflexivity.
Qed.

(** ** Reading does not write *)

Definition kept (c c' : conn) : Prop :=
  s_out (c_stream c') = s_out (c_stream c) /\ s_budget (c_stream c') = s_budget (c_stream c).
Definition quiet {A} (m : IO conn A) : Prop := forall c, kept c (snd (m c)).

Lemma kept_refl : forall c, kept c c.
Proof. split; reflexivity. Qed.
Lemma kept_trans : forall c1 c2 c3, kept c1 c2 -> kept c2 c3 -> kept c1 c3.
Proof. intros c1 c2 c3 [A B] [C D]. split; congruence. Qed.

Lemma quiet_bind : forall A B (m : IO conn A) (f : A -> IO conn B), quiet m -> (forall a, quiet (f a)) -> quiet (iobind m f).
Proof.
  intros A B m f Hm Hf c. rewrite iob. specialize (Hm c). destruct (m c) as [[a|e|] c1]; cbn [snd] in *; auto.
  eapply kept_trans; [exact Hm | apply Hf].
Qed.
Lemma quiet_res : forall A (r : res error A), quiet (iores r).
Proof. intros A r c. apply kept_refl. Qed.
Lemma quiet_ret : forall A (a : A), quiet (ioret a).
Proof. intros A a c. apply kept_refl. Qed.
Lemma quiet_pending : forall b, quiet (set_pending b).
Proof. intros b c. split; reflexivity. Qed.
Lemma quiet_read : quiet conn_read.
Proof.
  intros c. unfold conn_read, read_packet.
  destruct (read_packet_to_buf (S (length (s_in (c_stream c)))) (c_seq c) [] (c_stream c)) as [[r q] s] eqn:E.
  apply read_packet_rest in E. destruct E as (A & _ & B). split; assumption.
Qed.
Lemma quiet_cleanup_loop : forall fuel, quiet (cleanup_loop fuel).
Proof.
  induction fuel as [|fuel IH]; [apply quiet_res|]. cbn [cleanup_loop].
  apply quiet_bind; [apply quiet_read|]. intros p c. rewrite iob. unfold iores at 1.
  destruct (is_last (c_caps c) p) as [[|]|e|]; try apply kept_refl; [|apply IH].
  rewrite iob. unfold set_pending. cbn [snd]. rewrite iob. unfold iores, ioret.
  destruct (of_protocol (read_eof p (c_caps c))); split; reflexivity.
Qed.
Lemma quiet_cleanup : quiet cleanup.
Proof.
  intros c. unfold cleanup. destruct (c_pending c); [apply quiet_cleanup_loop | apply kept_refl].
Qed.
Lemma quiet_decode : forall p, quiet (decode_response p).
Proof.
  intros [|x p] c; cbn [decode_response]; [apply kept_refl|].
  destruct (x =? 0); [apply quiet_bind; [apply quiet_res | intros; apply quiet_ret]|].
  destruct (x =? 255); [apply quiet_bind; [apply quiet_res | intros; apply quiet_ret]|]. apply kept_refl.
Qed.
Lemma quiet_response : quiet read_response.
Proof. apply quiet_bind; [apply quiet_read|]. intros p. apply quiet_bind; [apply quiet_decode | intros; apply quiet_res]. Qed.
Lemma quiet_defs : forall n, quiet (read_column_defs n).
Proof.
  induction n as [|n IH]; [apply quiet_ret|]. cbn [read_column_defs]. apply quiet_bind; [apply quiet_read|]. intros p.
  apply quiet_bind; [apply quiet_res|]. intros col. apply quiet_bind; [apply IH|]. intros l. apply quiet_ret.
Qed.
Lemma quiet_rs_read : quiet rs_read.
Proof.
  apply quiet_bind; [apply quiet_read|]. intros p. destruct (first_is 0 p).
  { apply quiet_bind; [apply quiet_decode|]. intros r. apply quiet_bind; [apply quiet_res | intros; apply quiet_ret]. }
  destruct (first_is 251 p); [apply quiet_res|]. destruct (first_is 255 p); [intros c; apply kept_refl|].
  apply quiet_bind; [apply quiet_pending|]. intros _. apply quiet_bind; [apply quiet_res|]. intros n.
  destruct (capacity_overflow n); [apply quiet_res|]. intros c.
  apply (quiet_bind _ _ (read_column_defs (Z.to_nat (Z.min n (lenZ (s_in (c_stream c)) + 1)))));
    [apply quiet_defs | intros; apply quiet_ret].
Qed.
Lemma quiet_skip : forall n, quiet (skip_packets n).
Proof.
  induction n as [|n IH]; [apply quiet_ret|]. cbn [skip_packets]. apply quiet_bind; [apply quiet_read | intros; apply IH].
Qed.
Lemma nexts_kept : forall A (decode : list column -> bytes -> res error A) k c rs,
  kept c (fst (snd (nexts decode k (c, rs)))).
Proof.
  intros A decode. induction k as [|k IH]; intros c rs; [apply kept_refl|]. cbn [nexts].
  destruct (rs_next decode (c, rs)) as [r [c1 rs1]] eqn:E. specialize (IH c1 rs1).
  destruct (nexts decode k (c1, rs1)) as [l [c2 rs2]]. cbn [fst snd] in *. eapply kept_trans; [|exact IH].
  revert E. unfold rs_next. destruct (rs_ok rs); [intros E; injection E as <- <- <-; apply kept_refl|].
  pose proof (quiet_read c) as Q. destruct (conn_read c) as [[p|e|] c']; cbn [snd] in Q;
    try (intros E; injection E as <- <- <-; exact Q).
  destruct (is_last (c_caps c') p) as [[|]|e|]; try (intros E; injection E as <- <- <-; exact Q).
  destruct (read_eof p (c_caps c')) as [x|e|]; intros E; injection E as <- <- <-; exact Q.
Qed.

(** ** Writing *)

Lemma cleanup_loop_pending : forall fuel c x c1, cleanup_loop fuel c = (Ok x, c1) -> c_pending c1 = false.
Proof.
  induction fuel as [|fuel IH]; intros c x c1; [discriminate|]. cbn [cleanup_loop]. rewrite iob.
  destruct (conn_read c) as [[p|e|] c2]; try discriminate. rewrite iob. unfold iores at 1.
  destruct (is_last (c_caps c2) p) as [[|]|e|]; try discriminate; [|apply IH].
  rewrite iob. unfold set_pending. rewrite iob. unfold iores, ioret.
  destruct (of_protocol (read_eof p (c_caps c2))); try discriminate. intros E. injection E as <- <-. reflexivity.
Qed.
Lemma cleanup_pending : forall c x c1, cleanup c = (Ok x, c1) -> c_pending c1 = false.
Proof.
  intros c x c1. unfold cleanup. destruct (c_pending c) eqn:E; [apply cleanup_loop_pending|].
  intros H. injection H as <- <-. exact E.
Qed.

(** What one command adds to what has been sent: all of it, or a part if it fails. *)
Definition sending (w : bytes) (c : conn) (x : res error unit * conn) : Prop :=
  budget_ok (c_stream (snd x)) /\ (s_budget (c_stream c) = None -> s_budget (c_stream (snd x)) = None) /\
  ((fst x = Ok tt /\ c_pending (snd x) = false /\ s_out (c_stream (snd x)) = s_out (c_stream c) ++ w) \/
   ((forall a, fst x <> Ok a) /\ exists part lost, w = part ++ lost /\ s_out (c_stream (snd x)) = s_out (c_stream c) ++ part /\
      (s_budget (c_stream c) = None -> part = [] /\ c_pending c = true))).

Lemma write_command_sends : forall p c, budget_ok (c_stream c) -> exists w q, frames 0 p w q /\ sending w c (write_command p c).
Proof.
  intros p c Hb. destruct (write_packet_spec 0 p ltac:(unfold byte_ok; lia)) as (w & q & Hf & Hw).
  exists w, q. split; [exact Hf|]. unfold write_command, sending. rewrite iob.
  pose proof (quiet_cleanup c) as (Ko & Kb). destruct (cleanup c) as [[x|e|] c1] eqn:E; cbn [fst snd] in *.
  - apply cleanup_pending in E. rewrite iob. unfold reset_seq, conn_write. cbn [c_seq c_stream c_data c_pending].
    assert (Hb1 : budget_ok (c_stream c1)) by (unfold budget_ok in *; rewrite Kb; exact Hb).
    specialize (Hw (c_stream c1) Hb1). destruct (write_all w (c_stream c1)) as [[u|e|] s1] eqn:Ew; [| |contradiction].
    + rewrite Hw. cbn [fst snd c_stream c_pending]. pose proof (write_all_budget _ _ _ _ Hb1 Ew) as B.
      unfold write_all in Ew. rewrite Kb in Ew.
      split; [exact B|]. split.
      * intros N. rewrite N in Ew. injection Ew as _ <-. reflexivity.
      * left. split; [reflexivity|]. split; [exact E|]. rewrite <- Ko.
        destruct (s_budget (c_stream c)) as [n|]; [destruct (lenZ w <=? n); [|discriminate]|]; injection Ew as _ <-; reflexivity.
    + destruct Hw as (q1 & Hw). rewrite Hw. cbn [fst snd c_stream c_pending]. pose proof (write_all_budget _ _ _ _ Hb1 Ew) as B.
      unfold write_all in Ew. rewrite Kb in Ew. destruct (s_budget (c_stream c)) as [n|] eqn:N; [|discriminate].
      destruct (lenZ w <=? n); [discriminate|]. injection Ew as _ <-. split; [exact B|]. split; [discriminate|].
      right. split; [discriminate|]. exists (takeZ n w), (dropZ n w). split; [symmetry; apply take_drop|].
      cbn [s_out]. rewrite Ko. split; [reflexivity | discriminate].
  - assert (Hb1 : budget_ok (c_stream c1)) by (unfold budget_ok in *; rewrite Kb; exact Hb).
    split; [exact Hb1|]. split; [congruence|]. right. split; [discriminate|]. exists [], w. split; [reflexivity|].
    rewrite app_nil_r. split; [exact Ko|]. intros _. split; [reflexivity|].
    unfold cleanup in E. destruct (c_pending c); [reflexivity | discriminate].
  - assert (Hb1 : budget_ok (c_stream c1)) by (unfold budget_ok in *; rewrite Kb; exact Hb).
    split; [exact Hb1|]. split; [congruence|]. right. split; [discriminate|]. exists [], w. split; [reflexivity|].
    rewrite app_nil_r. split; [exact Ko|]. intros _. split; [reflexivity|].
    unfold cleanup in E. destruct (c_pending c); [reflexivity | discriminate].
Qed.

Lemma write_commands_sends : forall ps c, ps <> [] -> budget_ok (c_stream c) ->
  exists w q, requests ps w q /\ sending w c (write_commands ps c).
Proof.
  induction ps as [|p ps IH]; intros c Hn Hb; [contradiction|]. cbn [write_commands].
  destruct (write_command_sends p c Hb) as (w & q & Hf & Hs). rewrite iob.
  destruct ps as [|p2 ps].
  { exists w, q. split; [now constructor|]. cbn [write_commands].
    destruct (write_command p c) as [[[]|e|] c1]; exact Hs. }
  destruct Hs as (Hb1 & Hnone & [(Hr & Hp & Ho) | (Hr & part & lost & Ew & Ho & Hcut)]).
  - destruct (write_command p c) as [r c1]. cbn [fst snd] in *. subst r.
    destruct (IH c1 ltac:(discriminate) Hb1) as (w' & q' & Hreq & Hs').
    exists (w ++ w'), q'. split; [econstructor; eauto|].
    destruct Hs' as (Hb2 & Hnone2 & Hc). split; [exact Hb2|]. split; [auto|].
    destruct Hc as [(Hr & Hp2 & Ho2) | (Hr & part & lost & Ew & Ho2 & Hcut)].
    + left. split; [exact Hr|]. split; [exact Hp2|]. rewrite Ho2, Ho, app_assoc. reflexivity.
    + right. split; [exact Hr|]. exists (w ++ part), lost. split; [rewrite Ew, app_assoc; reflexivity|].
      split; [rewrite Ho2, Ho, app_assoc; reflexivity|]. intros N. destruct (Hcut (Hnone N)) as (_ & F). congruence.
  - destruct (IH c ltac:(discriminate) Hb) as (w' & q' & Hreq & _).
    exists (w ++ w'), q'. split; [econstructor; eauto|].
    destruct (write_command p c) as [r c1]. cbn [fst snd] in *.
    assert (Hx : exists r', (match r with Ok _ => write_commands (p2 :: ps) c1 | Err e => (Err e, c1) | Panic => (Panic, c1) end) = (r', c1) /\ forall a, r' <> Ok a).
    { destruct r as [u|e|]; [destruct (Hr u eq_refl) | |]; eexists; (split; [reflexivity | discriminate]). }
    destruct Hx as (r' & -> & Hr'). split; [exact Hb1|]. split; [exact Hnone|]. right. split; [exact Hr'|].
    exists part, (lost ++ w'). split; [rewrite Ew, app_assoc; reflexivity|]. split; [exact Ho | exact Hcut].
Qed.

(** The same of a use; reading the answer adds nothing. *)
Definition adds (w : bytes) (c c' : conn) : Prop :=
  budget_ok (c_stream c') /\ (s_budget (c_stream c) = None -> s_budget (c_stream c') = None) /\
  exists part lost, w = part ++ lost /\ s_out (c_stream c') = s_out (c_stream c) ++ part /\
    (s_budget (c_stream c) = None -> part = [] \/ lost = []).

Lemma sending_adds : forall B w c (m : IO conn unit) (k : unit -> IO conn B), sending w c (m c) -> (forall a, quiet (k a)) ->
  adds w c (snd (iobind m k c)).
Proof.
  intros B w c m k (Hb & Hn & Hs) Hk. rewrite iob. destruct (m c) as [r c1]. cbn [fst snd] in *.
  destruct Hs as [(-> & _ & Ho) | (Hr & part & lost & Ew & Ho & Hcut)].
  - destruct (Hk tt c1) as (Ko & Kb). destruct (k tt c1) as [r2 c2]. cbn [snd] in *.
    split; [unfold budget_ok in *; now rewrite Kb|]. split; [intros N; rewrite Kb; auto|].
    exists w, []. rewrite app_nil_r. split; [reflexivity|]. split; [congruence | now right].
  - assert (E : snd (match r with Ok a => k a c1 | Err e => (Err e, c1) | Panic => (Panic, c1) end) = c1)
      by (destruct r as [u|e|]; [destruct (Hr u eq_refl) | |]; reflexivity).
    rewrite E. split; [exact Hb|]. split; [exact Hn|]. exists part, lost. split; [exact Ew|]. split; [exact Ho|].
    intros N. left. now apply Hcut.
Qed.

Lemma adds_kept : forall w c c1 c2, adds w c c1 -> kept c1 c2 -> adds w c c2.
Proof.
  intros w c c1 c2 (Hb & Hn & part & lost & Ew & Ho & Hc) (Ko & Kb).
  split; [unfold budget_ok in *; now rewrite Kb|]. split; [intros N; rewrite Kb; auto|].
  exists part, lost. split; [exact Ew|]. split; [congruence | exact Hc].
Qed.

Lemma use_rows_adds : forall A (decode : list column -> bytes -> res error A) k w c x, adds w c (snd x) ->
  adds w c (snd (use_rows decode k x)).
Proof.
  intros A decode k w c [[rs|e|] c1] H; cbn [use_rows snd] in *; auto.
  pose proof (nexts_kept A decode k c1 rs) as K. destruct (nexts decode k (c1, rs)) as [l [c2 rs2]]. cbn [fst snd] in *.
  eapply adds_kept; eauto.
Qed.
Lemma use_done_adds : forall A B (f : B -> seen A) w c x, adds w c (snd x) -> adds w c (snd (use_done f x)).
Proof. intros A B f w c [[b|e|] c1] H; exact H. Qed.

Lemma run_use_adds : forall A (decode : list column -> bytes -> res error A) u c, use_ok u -> budget_ok (c_stream c) ->
  exists w q, requests (use_packets u) w q /\ adds w c (snd (run_use decode u c)).
Proof.
  intros A decode u c Hu Hb. destruct (use_packets_request u Hu) as (Hn & _).
  destruct (write_commands_sends (use_packets u) c Hn Hb) as (w & q & Hr & Hs). exists w, q. split; [exact Hr|].
  assert (S1 : forall cmd data, use_packets u = [cmd :: data] -> sending w c (execute_command cmd data c)).
  { intros cmd data E. rewrite execute_is_write. rewrite E in Hs. cbn [write_commands] in Hs. rewrite iob in Hs.
    destruct (write_command (cmd :: data) c) as [[[]|e|] c1]; exact Hs. }
  assert (S2 : forall id values, match execute_packets id values with Some ps => ps | None => [] end = use_packets u ->
    sending w c (send_execute id values c)).
  { intros id values E. destruct (execute_packets id values) as [ps|] eqn:Ep; [|congruence].
    rewrite (send_execute_packets _ _ _ Ep), E. exact Hs. }
  destruct u as [qq k|qq|qq|id params values k|id params values]; cbn [run_use use_packets] in *.
  - apply use_rows_adds. apply sending_adds; [apply S1; reflexivity | intros; apply quiet_rs_read].
  - apply use_done_adds. apply sending_adds; [apply S1; reflexivity | intros; apply quiet_response].
  - apply use_done_adds. apply sending_adds; [apply S1; reflexivity|]. intros _.
    apply quiet_bind; [apply quiet_read|]. intros p. apply quiet_bind.
    + intros c1. destruct (first_is 0 p); [apply quiet_res|]. destruct (first_is 255 p); apply quiet_res.
    + intros st. apply quiet_bind; [apply quiet_skip | intros; apply quiet_ret].
  - apply use_rows_adds. unfold stmt_query. cbn [ps_params ps_id]. destruct Hu as (_ & _ & _ & Hl). unfold lenZ. rewrite Hl, Z.eqb_refl.
    cbn [negb]. apply sending_adds; [apply S2; reflexivity | intros; apply quiet_rs_read].
  - apply use_done_adds. unfold stmt_execute. cbn [ps_params ps_id]. destruct Hu as (_ & _ & _ & Hl). unfold lenZ. rewrite Hl, Z.eqb_refl.
    cbn [negb]. apply sending_adds; [apply S2; reflexivity | intros; apply quiet_response].
Qed.

Lemma some_of_app : forall g1 u1 g2 u2, some_of g1 u1 -> some_of g2 u2 -> some_of (g1 ++ g2) (u1 ++ u2).
Proof. intros g1 u1 g2 u2 H1 H2. induction H1; cbn [app]; auto; constructor; auto. Qed.

Lemma run_uses_adds : forall A (decode : list column -> bytes -> res error A) us c, Forall use_ok us ->
  s_budget (c_stream c) = None -> exists given sent, some_of given us /\
    server_reads (concat (map use_packets given)) sent [] /\
    s_out (c_stream (snd (run_uses decode us c))) = s_out (c_stream c) ++ sent /\
    s_budget (c_stream (snd (run_uses decode us c))) = None.
Proof.
  intros A decode. induction us as [|u us IH]; intros c Hu Hb.
  - exists [], []. rewrite app_nil_r. splits; auto; constructor.
  - inversion_clear Hu as [|? ? Hu1 Hus]. cbn [run_uses].
    destruct (run_use_adds A decode u c Hu1 (or_introl Hb)) as (w & q & Hr & Hadd).
    destruct (run_use decode u c) as [x c1]. cbn [snd] in Hadd.
    destruct Hadd as (_ & Hn & part & lost & Ew & Ho & Hc). specialize (Hn Hb).
    destruct (IH c1 Hus Hn) as (given & sent & Hg & Hs & Ho2 & Hb2).
    destruct (run_uses decode us c1) as [xs c2]. cbn [snd] in *.
    destruct (Hc Hb) as [-> | ->].
    + exists given, sent. splits; auto; [now constructor|]. rewrite Ho2, Ho, app_nil_r. reflexivity.
    + rewrite app_nil_r in Ew. subst part. exists (u :: given), (w ++ sent). splits; auto; [now constructor| |].
      * cbn [map concat]. eapply reads_app; [eapply requests_reads; exact Hr | reflexivity | exact Hs].
      * rewrite Ho2, Ho, app_assoc. reflexivity.
Qed.

(** ** Cut off *)

(** A command cut off after [n] bytes. *)
Lemma write_command_cut : forall p c rest n w q, Z.testbit (c_caps c) DEPRECATE_EOF_BIT = true -> between c rest ->
  frames 0 p w q -> 0 <= n < lenZ w -> exists s, byte_ok s /\ write_command p (stalled n c) =
    (Err (EProtocol (PIo IoOther)),
     mkConn (mkStream rest (s_end (c_stream c)) (s_out (c_stream c) ++ takeZ n w) (Some 0)) s (c_data c) false).
Proof.
  intros p c rest n w q Hc Hb Hf Hn. destruct (cleanup_between c rest Hc Hb) as (x & q0 & E & Hq).
  unfold write_command, stalled. rewrite iob, cleanup_budget, E. cbn [fst snd]. rewrite iob. unfold reset_seq.
  unfold conn_write. cbn [c_seq c_stream c_data c_pending with_limit].
  set (s := with_budget (Some n) (with_in (c_stream c) rest)).
  destruct (write_packet_spec 0 p ltac:(unfold byte_ok; lia)) as (w' & q' & Hf' & Hw).
  destruct (frames_det _ _ _ _ Hf _ _ Hf') as (<- & <-).
  assert (Hbo : budget_ok s) by (right; exists n; split; [reflexivity|lia]).
  specialize (Hw s Hbo). unfold write_all in Hw. cbn [s with_budget s_budget] in Hw.
  replace (lenZ w <=? n) with false in Hw by lia. destruct Hw as (q1 & Hw).
  pose proof (write_packet_seq 0 p s ltac:(unfold byte_ok; lia)) as Hq1. fold s. rewrite Hw in Hq1 |- *. cbn [fst snd] in Hq1.
  exists q1. split; [exact Hq1|]. reflexivity.
Qed.

(** The packet that executes a statement with one value of bytes. *)
Lemma execute_one : forall id v, 251 <= lenZ v < 65536 ->
  execute_packets id [VBytes v] =
  Some [[23] ++ le_bytes 4 id ++ [0; 1; 0; 0; 0; 0; 1; 253; 0; 252] ++ le_bytes 2 (lenZ v) ++ v].
Proof.
  intros id v H. unfold execute_packets, execute_new. change (lenZ [VBytes v]) with 1.
  cbn [mark_params bin_len]. unfold lenenc_slice_len, lenenc_int_len.
  replace (lenZ v <? 251) with false by lia. replace (lenZ v <? 65536) with true by lia.
  replace (3 + lenZ v =? 0) with false by lia. change (nb_new true 1) with [0]. cbn [ex_as_long_data].
  replace (10 + lenZ [0] + 1 + 1 * 2 + (0 + (3 + lenZ v)) >? MAX_PAYLOAD_LEN) with false
    by (rewrite MAX_val; change (lenZ [0]) with 1; symmetry; rewrite Z.gtb_ltb; apply Z.ltb_ge; lia).
  unfold execute_serialize. cbn [ex_as_long_data ex_params ex_stmt_id ex_flags ex_iteration_count ex_bitmap ex_params_flags flat_map param_data
    value_serialize app].
  unfold put_lenenc_slice, put_lenenc_int. replace (lenZ v <? 251) with false by lia. replace (lenZ v <? 65536) with true by lia.
  rewrite !app_nil_r. reflexivity.
Qed.

(** The value that makes the server run [sql], if [m] bytes of the command before are missing. *)
Definition injected (m : Z) (sql : bytes) : bytes :=
  repeatZ 0 (m - 21) ++ frame 0 (3 :: sql) ++ repeatZ 0 251.

Lemma repeat_ok : forall n, bytes_ok (repeatZ 0 n).
Proof. intros n. unfold repeatZ. apply Forall_forall. intros x Hx. apply repeat_spec in Hx. subst. unfold byte_ok. lia. Qed.

Lemma wire_uint_length : forall k n, length (wire_uint k n) = k.
Proof. intros. now rewrite wire_uint_le, le_bytes_length. Qed.

Lemma frame_length : forall p, lenZ (frame 0 p) = 4 + lenZ p.
Proof. intros p. unfold frame, lenZ. rewrite !app_length, wire_uint_length. cbn [length]. lia. Qed.

Lemma injected_length : forall m sql, 21 <= m -> lenZ (injected m sql) = m - 21 + (5 + lenZ sql) + 251.
Proof.
  intros m sql H. unfold injected. rewrite !lenZ_app, frame_length, lenZ_cons. rewrite !lenZ_repeatZ by lia. lia.
Qed.

Definition execute_head (id : Z) (v : bytes) : bytes :=
  [23] ++ le_bytes 4 id ++ [0; 1; 0; 0; 0; 0; 1; 253; 0; 252] ++ le_bytes 2 (lenZ v).

Lemma injected_read : forall q1 k sql id, 4 <= k -> k + 21 <= 5 + lenZ q1 -> lenZ q1 + lenZ sql < 60000 ->
  let m := 5 + lenZ q1 - k in let v := injected m sql in
  let body := execute_head id v ++ v in
  exists first, server_reads [first; 3 :: sql] (takeZ k (frame 0 (3 :: q1)) ++ frame 0 body) (repeatZ 0 251).
Proof.
  intros q1 k sql id Hk Hm Hl m v body.
  pose proof (lenZ_nonneg _ q1) as L1. pose proof (lenZ_nonneg _ sql) as L2.
  set (head := wire_uint 3 (Z.of_nat (length body)) ++ [0] ++ execute_head id v).
  assert (Lh : lenZ head = 21).
  { unfold head, execute_head, lenZ. rewrite !app_length, wire_uint_length, !le_bytes_length. reflexivity. }
  set (first := takeZ (k - 4) (3 :: q1) ++ head ++ repeatZ 0 (m - 21)).
  assert (Lt : lenZ (takeZ (k - 4) (3 :: q1)) = k - 4) by (apply lenZ_takeZ_le; rewrite lenZ_cons; lia).
  assert (Lf : lenZ first = 1 + lenZ q1).
  { unfold first. rewrite !lenZ_app, Lt, Lh, lenZ_repeatZ by (unfold m; lia). unfold m. lia. }
  exists first.
  replace (takeZ k (frame 0 (3 :: q1)) ++ frame 0 body) with (frame 0 first ++ frame 0 (3 :: sql) ++ repeatZ 0 251).
  - econstructor; [apply frame_frames; unfold lenZ in *; lia|].
    econstructor; [apply frame_frames; cbn [length]; unfold lenZ in *; lia|]. constructor.
  - assert (Ek : takeZ k (frame 0 (3 :: q1)) = wire_uint 3 (Z.of_nat (length (3 :: q1))) ++ [0] ++ takeZ (k - 4) (3 :: q1)).
    { unfold frame. rewrite !(app_assoc (wire_uint 3 (Z.of_nat (length (3 :: q1)))) [0]).
      assert (L4 : lenZ (wire_uint 3 (Z.of_nat (length (3 :: q1))) ++ [0]) = 4)
        by (unfold lenZ; rewrite app_length, wire_uint_length; reflexivity).
      rewrite takeZ_app_ge by lia. rewrite L4. reflexivity. }
    rewrite Ek. unfold frame at 1 3. replace (Z.of_nat (length first)) with (Z.of_nat (length (3 :: q1)))
      by (cbn [length]; unfold lenZ in *; lia).
    unfold first, head. rewrite <- !app_assoc. do 6 f_equal.
Qed.
