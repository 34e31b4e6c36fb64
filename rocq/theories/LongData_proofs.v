(** Proofs about the long data a server keeps (C120). *)
From Coq Require Import String ZArith List Bool Lia.
From Verif Require Import Base BaseFacts Types Utf8 ParseBuf BufMut Spec_Wire ParseBuf_proofs Framing Framing_proofs
  Packets Spec_Packets Packets_proofs Crypt Handshake ValueBin Spec_Stmt NullBitmap StmtPackets StmtPackets_proofs ValueText Rows
  Conversion Auth Auth_proofs Conn Spec_Conn Conn_proofs Spec_Sending Sending_proofs Properties_Command Spec_Injected
  Injected_proofs Spec_LongData.
Import ListNotations.
Open Scope Z_scope.

(** ** The server *)

Lemma srv_values_ext : forall bm long long', (forall i, long i = long' i) -> forall types i l,
  srv_values bm long i types l = srv_values bm long' i types l.
Proof.
  intros bm long long' H. induction types as [|[code u] ts IH]; intros i l; [reflexivity|]. cbn [srv_values].
  rewrite H. destruct (srv_bit bm i); [now rewrite IH|]. destruct (long' i); [now rewrite IH|].
  destruct (srv_value code u l) as [[v l1]|]; cbn [obind]; [now rewrite IH | reflexivity].
Qed.

Lemma srv_execute_ext : forall n long long' p, (forall i, long i = long' i) -> srv_execute n long p = srv_execute n long' p.
Proof.
  intros n long long' p H. unfold srv_execute. destruct (srv_byte p) as [[c l]|]; cbn [obind]; [|reflexivity].
  destruct (negb (c =? 23)); [reflexivity|]. destruct (srv_int 4 true l) as [[id l1]|]; cbn [obind]; [|reflexivity].
  destruct (srv_byte l1) as [[fl l2]|]; cbn [obind]; [|reflexivity].
  destruct (srv_int 4 true l2) as [[it l3]|]; cbn [obind]; [|reflexivity].
  destruct n as [|n]; [reflexivity|]. destruct (srv_take ((S n + 7) / 8) l3) as [[bm l4]|]; cbn [obind]; [|reflexivity].
  destruct (srv_byte l4) as [[b l5]|]; cbn [obind]; [|reflexivity]. destruct (negb (b =? 1)); [reflexivity|].
  destruct (srv_types (S n) l5) as [[ts l6]|]; cbn [obind]; [|reflexivity]. now rewrite (srv_values_ext bm long long' H).
Qed.

Lemma srv_execute_head : forall n long p id fl it vs, srv_execute n long p = Some (id, fl, it, vs) ->
  exists l l1, srv_byte p = Some (23, l) /\ srv_int 4 true l = Some (id, l1).
Proof.
  intros n long p id fl it vs. unfold srv_execute. destruct (srv_byte p) as [[c l]|]; cbn [obind]; [|discriminate].
  destruct (c =? 23) eqn:E; cbn [negb]; [|discriminate]. apply Z.eqb_eq in E. subst c.
  destruct (srv_int 4 true l) as [[id' l1]|] eqn:E1; cbn [obind]; [|discriminate].
  destruct (srv_byte l1) as [[fl' l2]|]; cbn [obind]; [|discriminate].
  destruct (srv_int 4 true l2) as [[it' l3]|]; cbn [obind]; [|discriminate].
  intros H. exists l, l1. split; [reflexivity|]. rewrite E1.
  destruct n as [|n]; [destruct l3; [|discriminate]; injection H as -> _ _ _; reflexivity|].
  destruct (srv_take ((S n + 7) / 8) l3) as [[bm l4]|]; cbn [obind] in H; [|discriminate].
  destruct (srv_byte l4) as [[b l5]|]; cbn [obind] in H; [|discriminate]. destruct (negb (b =? 1)); [discriminate|].
  destruct (srv_types (S n) l5) as [[ts l6]|]; cbn [obind] in H; [|discriminate].
  destruct (srv_values bm long 0 ts l6) as [[vs' [|]]|]; cbn [obind] in H; try discriminate.
  injection H as -> _ _ _. reflexivity.
Qed.

Lemma srv_long_data_head : forall p x, srv_long_data p = Some x -> exists l, srv_byte p = Some (24, l).
Proof.
  intros p x. unfold srv_long_data. destruct (srv_byte p) as [[c l]|]; cbn [obind]; [|discriminate].
  destruct (c =? 24) eqn:E; cbn [negb]; [|discriminate]. apply Z.eqb_eq in E. subst c. exists l. reflexivity.
Qed.

Lemma server_executes_app : forall params ps m qs, server_executes params m (ps ++ qs) =
  (let? (ex, m1) := server_executes params m ps in let? (ex2, m2) := server_executes params m1 qs in Some (ex ++ ex2, m2)).
Proof.
  intros params. induction ps as [|p ps IH]; intros m qs.
  - cbn [app server_executes obind]. now destruct (server_executes params m qs) as [[ex m2]|].
  - cbn [app server_executes]. destruct (srv_byte p) as [[c l]|]; cbn [obind]; [|reflexivity].
    destruct (c =? 24).
    { destruct (srv_long_data p) as [[[id i] d]|]; cbn [obind]; [apply IH | reflexivity]. }
    destruct (c =? 23); [|apply IH]. destruct (srv_int 4 true l) as [[id l1]|]; cbn [obind]; [|reflexivity].
    destruct (srv_execute (params id) (held m id) p) as [[[[a b] d] values]|]; cbn [obind]; [|reflexivity].
    rewrite IH. destruct (server_executes params (used_up m id) ps) as [[ex m1]|]; cbn [obind]; [|reflexivity].
    destruct (server_executes params m1 qs) as [[ex2 m2]|]; reflexivity.
Qed.

(** Receiving long data for one statement. *)
Lemma executes_receive : forall params id ps pieces m, srv_receive id ps = Some pieces ->
  server_executes params m ps = Some ([], m ++ map (fun x => (id, x)) pieces).
Proof.
  intros params id. induction ps as [|p ps IH]; intros pieces m H; cbn [srv_receive] in H.
  - injection H as <-. cbn [server_executes map]. now rewrite app_nil_r.
  - destruct (srv_long_data p) as [[[id' n] d]|] eqn:E; cbn [obind] in H; [|discriminate].
    destruct (id' =? id) eqn:Ei; cbn [negb] in H; [|discriminate]. apply Z.eqb_eq in Ei. subst id'.
    destruct (srv_receive id ps) as [ps'|] eqn:Er; cbn [obind] in H; [|discriminate]. injection H as <-.
    destruct (srv_long_data_head _ _ E) as (l & El). cbn [server_executes]. rewrite El. cbn [obind].
    change (24 =? 24) with true. cbn iota. rewrite E. cbn [obind]. rewrite (IH _ _ eq_refl).
    cbn [map]. rewrite <- app_assoc. reflexivity.
Qed.

Lemma held_own : forall id pieces, map snd (filter (fun x => fst x =? id) (map (fun x : nat * list Z => (id, x)) pieces)) = pieces.
Proof.
  intros id. induction pieces as [|x l IH]; [reflexivity|]. cbn [map filter fst]. rewrite Z.eqb_refl. cbn [map snd]. now rewrite IH.
Qed.
Lemma used_up_own : forall id (pieces : list (nat * list Z)), used_up (map (fun x => (id, x)) pieces) id = [].
Proof.
  intros id. unfold used_up. induction pieces as [|x l IH]; [reflexivity|]. cbn [map filter fst]. rewrite Z.eqb_refl. exact IH.
Qed.

(** An execution packet: the statement's long data is used up. *)
Lemma executes_execute : forall params id m p fl it vs, srv_execute (params id) (held m id) p = Some (id, fl, it, vs) ->
  server_executes params m [p] = Some ([(id, vs)], used_up m id).
Proof.
  intros params id m p fl it vs H. destruct (srv_execute_head _ _ _ _ _ _ _ H) as (l & l1 & E & E1).
  cbn [server_executes]. rewrite E. cbn [obind]. change (23 =? 24) with false. change (23 =? 23) with true. cbn iota.
  rewrite E1. cbn [obind]. rewrite H. reflexivity.
Qed.

(** A request is executed as asked and leaves nothing behind. *)
Lemma executes_request : forall params u ps, use_ok u -> known_params params u -> request u ps ->
  exists ex, server_executes params [] ps = Some (ex, []) /\ Forall2 same_execution (executions [u]) ex.
Proof.
  intros params u ps Hu Hp Hr.
  assert (S : forall id n values, Z.of_nat (length values) = n -> Z.of_nat (params id) = n -> stmt_request id values ps ->
    exists ex, server_executes params [] ps = Some (ex, []) /\ Forall2 same_execution [(id, values)] ex).
  { intros id n values Hl Hn (longs & exec & long & values' & -> & Hlong & He & Hs).
    assert (En : params id = length values) by lia. rewrite <- En in He.
    exists [(id, values')]. split; [|repeat constructor; cbn [fst snd]; auto].
    destruct Hlong as [(-> & Hlong) | (pieces & Hrec & Hlong)].
    - cbn [app]. rewrite (executes_execute params id [] exec 0 1 values'); [reflexivity|].
      rewrite <- He. apply srv_execute_ext. intros i. rewrite Hlong. reflexivity.
    - rewrite server_executes_app, (executes_receive params id longs pieces [] Hrec). cbn [obind app].
      rewrite (executes_execute params id _ exec 0 1 values'); [cbn [obind]; now rewrite used_up_own|].
      rewrite <- He. apply srv_execute_ext. intros i. rewrite Hlong. unfold held. now rewrite held_own. }
  destruct u as [q k|q|q|id n values k|id n values]; cbn [request use_ok known_params executions] in *.
  1-3: subst ps; exists []; split; [reflexivity | constructor].
  1-2: destruct Hu as (_ & _ & _ & Hl); eapply S; eauto.
Qed.

Lemma executions_app : forall us vs, executions (us ++ vs) = executions us ++ executions vs.
Proof.
  induction us as [|u us IH]; intros vs; [reflexivity|]. destruct u; cbn [app executions]; rewrite IH; reflexivity.
Qed.

Lemma executes_requests : forall params us, Forall use_ok us -> Forall (known_params params) us ->
  exists ex, server_executes params [] (concat (map use_packets us)) = Some (ex, []) /\
    Forall2 same_execution (executions us) ex.
Proof.
  intros params. induction us as [|u us IH]; intros Hu Hp; [exists []; split; [reflexivity | constructor]|].
  apply Forall_cons_iff in Hu as [Hu Hus]. apply Forall_cons_iff in Hp as [Hp Hps].
  destruct (IH Hus Hps) as (ex2 & E2 & F2).
  destruct (use_packets_request u Hu) as (_ & Hr). destruct (executes_request params u _ Hu Hp Hr) as (ex & E & F).
  exists (ex ++ ex2). cbn [map concat]. rewrite server_executes_app, E. cbn [obind]. rewrite E2. split; [reflexivity|].
  change (u :: us) with ([u] ++ us). rewrite executions_app. now apply Forall2_app.
Qed.

(** ** A use that does not fail has been sent *)

Definition tells {A} (w : bytes) (c : conn) (x : seen A * conn) : Prop :=
  failed (fst x) \/ s_out (c_stream (snd x)) = s_out (c_stream c) ++ w.
Definition tells_res {A} (w : bytes) (c : conn) (x : res error A * conn) : Prop :=
  (forall a, fst x <> Ok a) \/ s_out (c_stream (snd x)) = s_out (c_stream c) ++ w.

Lemma sending_tells : forall B w c (m : IO conn unit) (k : unit -> IO conn B), sending w c (m c) -> (forall a, quiet (k a)) ->
  tells_res w c (iobind m k c).
Proof.
  intros B w c m k (_ & _ & Hs) Hk. rewrite iob. destruct (m c) as [r c1]. cbn [fst snd] in *.
  destruct Hs as [(-> & _ & Ho) | (Hr & _)].
  - right. destruct (Hk tt c1) as (Ko & _). destruct (k tt c1) as [r2 c2]. cbn [snd] in *. congruence.
  - left. destruct r as [u|e|]; [destruct (Hr u eq_refl) | |]; discriminate.
Qed.

Lemma use_rows_tells : forall A (decode : list column -> bytes -> res error A) k w c x, tells_res w c x ->
  tells w c (use_rows decode k x).
Proof.
  intros A decode k w c [[rs|e|] c1] H; cbn [use_rows].
  - pose proof (nexts_kept A decode k c1 rs) as (K & _). destruct (nexts decode k (c1, rs)) as [l [c2 rs2]]. cbn [fst snd] in *.
    destruct H as [H|H]; [destruct (H rs eq_refl)|]. right. cbn [snd] in *. congruence.
  - left. left. exists e. reflexivity.
  - left. right. reflexivity.
Qed.
Lemma use_done_tells : forall A B (f : B -> seen A) w c x, tells_res w c x -> tells w c (use_done f x).
Proof.
  intros A B f w c [[b|e|] c1] H; cbn [use_done].
  - destruct H as [H|H]; [destruct (H b eq_refl)|]. right. exact H.
  - left. left. exists e. reflexivity.
  - left. right. reflexivity.
Qed.

Lemma run_use_tells : forall A (decode : list column -> bytes -> res error A) u c w q, use_ok u -> budget_ok (c_stream c) ->
  requests (use_packets u) w q -> tells w c (run_use decode u c).
Proof.
  intros A decode u c w q Hu Hb Hr0. destruct (use_packets_request u Hu) as (Hn & _).
  destruct (write_commands_sends (use_packets u) c Hn Hb) as (w' & q' & Hr & Hs).
  destruct (requests_det _ _ _ Hr0 _ _ Hr) as (<- & <-).
  assert (S1 : forall cmd data, use_packets u = [cmd :: data] -> sending w c (execute_command cmd data c)).
  { intros cmd data E. rewrite execute_is_write. rewrite E in Hs. cbn [write_commands] in Hs. rewrite iob in Hs.
    destruct (write_command (cmd :: data) c) as [[[]|e|] c1]; exact Hs. }
  assert (S2 : forall id values, match execute_packets id values with Some ps => ps | None => [] end = use_packets u ->
    sending w c (send_execute id values c)).
  { intros id values E. destruct (execute_packets id values) as [ps|] eqn:Ep; [|congruence].
    rewrite (send_execute_packets _ _ _ Ep), E. exact Hs. }
  destruct u as [qq k|qq|qq|id params values k|id params values]; cbn [run_use use_packets] in *.
  - apply use_rows_tells. apply sending_tells; [apply S1; reflexivity | intros; apply quiet_rs_read].
  - apply use_done_tells. apply sending_tells; [apply S1; reflexivity | intros; apply quiet_response].
  - apply use_done_tells. apply sending_tells; [apply S1; reflexivity|]. intros _.
    apply quiet_bind; [apply quiet_read|]. intros p. apply quiet_bind.
    + intros c1. destruct (first_is 0 p); [apply quiet_res|]. destruct (first_is 255 p); apply quiet_res.
    + intros st. apply quiet_bind; [apply quiet_skip | intros; apply quiet_ret].
  - apply use_rows_tells. unfold stmt_query. cbn [ps_params ps_id]. destruct Hu as (_ & _ & _ & Hl). unfold lenZ. rewrite Hl, Z.eqb_refl.
    cbn [negb]. apply sending_tells; [apply S2; reflexivity | intros; apply quiet_rs_read].
  - apply use_done_tells. unfold stmt_execute. cbn [ps_params ps_id]. destruct Hu as (_ & _ & _ & Hl). unfold lenZ. rewrite Hl, Z.eqb_refl.
    cbn [negb]. apply sending_tells; [apply S2; reflexivity | intros; apply quiet_response].
Qed.

Lemma requests_nonempty : forall ps w q, requests ps w q -> w <> [].
Proof.
  intros ps w q H. assert (L : (0 < length w)%nat); [|destruct w; [cbn in L; lia | discriminate]].
  destruct H as [p w q Hf|p w q ps w' q' Hf _]; apply frames_wire_length in Hf; rewrite ?app_length; lia.
Qed.

Lemma run_uses_performed : forall A (decode : list column -> bytes -> res error A) us c, Forall use_ok us ->
  s_budget (c_stream c) = None -> exists given sent, performed given (fst (run_uses decode us c)) us /\
    server_reads (concat (map use_packets given)) sent [] /\
    s_out (c_stream (snd (run_uses decode us c))) = s_out (c_stream c) ++ sent /\
    s_budget (c_stream (snd (run_uses decode us c))) = None.
Proof.
  intros A decode. induction us as [|u us IH]; intros c Hu Hb.
  - exists [], []. rewrite app_nil_r. splits; auto; constructor.
  - inversion_clear Hu as [|? ? Hu1 Hus]. cbn [run_uses].
    destruct (run_use_adds A decode u c Hu1 (or_introl Hb)) as (w & q & Hr & Hadd).
    pose proof (run_use_tells A decode u c w q Hu1 (or_introl Hb) Hr) as Ht.
    destruct (run_use decode u c) as [x c1]. cbn [snd] in Hadd. unfold tells in Ht. cbn [fst snd] in Ht.
    destruct Hadd as (_ & Hn & part & lost & Ew & Ho & Hc). specialize (Hn Hb).
    destruct (IH c1 Hus Hn) as (given & sent & Hg & Hs & Ho2 & Hb2).
    destruct (run_uses decode us c1) as [xs c2]. cbn [fst snd] in *.
    destruct (Hc Hb) as [-> | ->].
    + exists given, sent. splits; auto; [|rewrite Ho2, Ho, app_nil_r; reflexivity].
      constructor; [|exact Hg]. destruct Ht as [Ht|Ht]; [exact Ht|]. exfalso. rewrite Ht in Ho.
      apply app_inv_head in Ho. eapply requests_nonempty; eauto.
    + rewrite app_nil_r in Ew. subst part. exists (u :: given), (w ++ sent). splits; auto; [now constructor| |].
      * cbn [map concat]. eapply reads_app; [eapply requests_reads; exact Hr | reflexivity | exact Hs].
      * rewrite Ho2, Ho, app_assoc. reflexivity.
Qed.

Lemma performed_Forall : forall A (P : use -> Prop) given (xs : list (seen A)) us, performed given xs us -> Forall P us -> Forall P given.
Proof.
  intros A P given xs us H. induction H as [|u given x xs us H IH|u given x xs us Hx H IH]; intros F; auto;
    apply Forall_cons_iff in F as [F1 F2]; auto.
Qed.

(** ** Writing with a limit *)

(** A command that fits. *)
Lemma write_command_fits : forall p c rest n w q, Z.testbit (c_caps c) DEPRECATE_EOF_BIT = true -> between c rest ->
  frames 0 p w q -> lenZ w <= n -> exists c', write_command p (stalled n c) = (Ok tt, stalled (n - lenZ w) c') /\
    between c' rest /\ s_out (c_stream c') = s_out (c_stream c) ++ w /\ c_data c' = c_data c.
Proof.
  intros p c rest n w q Hc Hb Hf Hn. destruct (cleanup_between c rest Hc Hb) as (x & q0 & E & Hq).
  unfold write_command, stalled. rewrite iob, cleanup_budget, E. cbn [fst snd]. rewrite iob. unfold reset_seq.
  unfold conn_write. cbn [c_seq c_stream c_data c_pending with_limit].
  set (s := with_budget (Some n) (with_in (c_stream c) rest)).
  destruct (write_packet_spec 0 p ltac:(unfold byte_ok; lia)) as (w' & q' & Hf' & Hw).
  destruct (frames_det _ _ _ _ Hf _ _ Hf') as (<- & <-). pose proof (lenZ_nonneg _ w) as Lw.
  assert (Hbo : budget_ok s) by (right; exists n; split; [reflexivity|lia]).
  specialize (Hw s Hbo). unfold write_all in Hw. cbn [s with_budget s_budget] in Hw.
  replace (lenZ w <=? n) with true in Hw by lia. fold s. rewrite Hw.
  exists (mkConn (mkStream rest (s_end (c_stream c)) (s_out (c_stream c) ++ w) None) q (c_data c) false).
  split; [reflexivity|]. split; [|split; reflexivity].
  split; [eapply frames_seq_ok; [exact Hf | unfold byte_ok; lia]|]. split; [reflexivity|]. left. split; reflexivity.
Qed.

(** Commands cut off between two packets. *)
Lemma write_commands_stop : forall ps, exists w, server_reads ps w [] /\
  forall qs c rest, Z.testbit (c_caps c) DEPRECATE_EOF_BIT = true -> between c rest -> qs <> [] -> exists c',
    write_commands (ps ++ qs) (stalled (lenZ w) c) = (Err (EProtocol (PIo IoOther)), c') /\
    between (resumed c') rest /\ s_out (c_stream c') = s_out (c_stream c) ++ w /\ c_data c' = c_data c.
Proof.
  induction ps as [|p ps IH].
  - exists []. split; [constructor|]. intros qs c rest Hc Hb Hn.
    destruct qs as [|p qs]; [contradiction|]. cbn [app write_commands]. rewrite iob.
    destruct (write_packet_spec 0 p ltac:(unfold byte_ok; lia)) as (w & q & Hf & _).
    destruct (write_command_cut p c rest 0 w q Hc Hb Hf) as (s & Hs & E).
    { pose proof (frames_wire_length _ _ _ _ Hf). unfold lenZ. lia. }
    change (lenZ (@nil Z)) with 0. rewrite E. eexists. split; [reflexivity|].
    split; [split; [exact Hs|]; split; [reflexivity|]; left; split; reflexivity|].
    split; [|reflexivity]. cbn [c_stream s_out]. now destruct w.
  - destruct IH as (w' & Hr & IH). destruct (write_packet_spec 0 p ltac:(unfold byte_ok; lia)) as (w & q & Hf & _).
    exists (w ++ w'). split; [econstructor; eauto|]. intros qs c rest Hc Hb Hn.
    cbn [app write_commands]. rewrite iob. pose proof (lenZ_nonneg _ w') as L. rewrite lenZ_app.
    destruct (write_command_fits p c rest (lenZ w + lenZ w') w q Hc Hb Hf ltac:(lia)) as (c1 & E & Hb1 & Ho & Hd).
    rewrite E. replace (lenZ w + lenZ w' - lenZ w) with (lenZ w') by lia.
    destruct (IH qs c1 rest) as (c2 & E2 & Hb2 & Ho2 & Hd2); auto.
    { unfold c_caps in *. now rewrite Hd. }
    exists c2. split; [exact E2|]. split; [exact Hb2|]. split; [rewrite Ho2, Ho, app_assoc; reflexivity | congruence].
Qed.

(** ** A statement with one value that is sent as long data *)

Lemma receive_map : forall id i ds, unsigned_ok 4 id -> 0 <= i < 65536 ->
  srv_receive id (map (long_data_serialize id i) ds) = Some (map (fun d => (Z.to_nat i, d)) ds).
Proof.
  intros id i ds Hid Hi. pose proof (srv_receive_app id i ds [] [] Hid Hi eq_refl) as H. now rewrite !app_nil_r in H.
Qed.

Lemma held_pieces : forall id (ds : list bytes), ds <> [] ->
  held (map (fun x => (id, x)) (map (fun d => (0%nat, d)) ds)) id 0 = Some (concat ds).
Proof.
  intros id ds Hn. unfold held. rewrite held_own. unfold srv_long. rewrite filter_pieces_same.
  destruct ds as [|d ds]; [contradiction|]. cbn [map]. cbn [map snd]. now rewrite map_snd_pair.
Qed.

(** The packets: the pieces of the value, then the execution, in which the value does not occur. *)
Lemma one_long : forall id b, 2 ^ 24 <= lenZ b < 2 ^ 32 -> bytes_ok b -> unsigned_ok 4 id ->
  exists exec, execute_packets id [VBytes b] =
    Some (map (long_data_serialize id 0) (chunks (length b) (MAX_PAYLOAD_LEN - 6) b) ++ [exec]) /\
    forall b' long, bytes_ok b' -> lenZ b' < 2 ^ 64 -> long 0%nat = Some b' ->
      srv_execute 1 long exec = Some (id, 0, 1, [VBytes b']).
Proof.
  intros id b Hl Hb Hid.
  assert (Hv : forall b', bytes_ok b' -> lenZ b' < 2 ^ 64 -> Forall value_ok [VBytes b']).
  { intros b' H1 H2. constructor; [|constructor]. split; [exact H1|]. unfold unsigned_ok. pose proof (lenZ_nonneg _ b'). lia. }
  destruct (execute_new_spec id [VBytes b] (Hv b Hb ltac:(lia))) as (bm & E & Lb & Hbm).
  exists (execute_serialize (mkExecute id 0 1 bm 1 [VBytes b] true)). split.
  - unfold execute_packets. rewrite E.
    match goal with |- context [mkExecute id 0 1 bm 1 [VBytes b] ?x] => replace x with true end.
    2:{ symmetry. apply Z.gtb_lt. rewrite MAX_val. change (lenZ [VBytes b]) with 1. cbn [params_len fold_right bin_len].
        unfold lenenc_slice_len, lenenc_int_len. replace (lenZ b <? 251) with false by lia.
        replace (lenZ b <? 65536) with false by lia. replace (lenZ b <? 16777216) with false by lia. lia. }
    cbn [ex_as_long_data]. cbn [long_data_packets]. rewrite app_nil_r. rewrite long_data_packets_of_eq by lia.
    unfold pieces_of. destruct b as [|x b]; [change (lenZ (@nil Z)) with 0 in Hl; lia|]. reflexivity.
  - intros b' long H1 H2 H3.
    change (execute_serialize (mkExecute id 0 1 bm 1 [VBytes b] true))
      with (execute_serialize (mkExecute id 0 1 bm 1 [VBytes b'] true)).
    apply (srv_execute_app 1 long id bm [VBytes b'] true); auto.
    + discriminate.
    + intros [|i] Hi; [apply Hbm; exact Hi | cbn [length] in Hi; lia].
    + intros [|i] Hi; [exact H3 | cbn [length] in Hi; lia].
Qed.
