(** C90: sessions with a server that answers what it has received. *)
From Coq Require Import String ZArith List Bool Lia.
From Verif Require Import Base BaseFacts Types Utf8 ParseBuf BufMut Spec_Wire ParseBuf_proofs Framing Framing_proofs
  Packets Spec_Packets Packets_proofs Crypt Handshake ValueBin Spec_Stmt StmtPackets ValueText Rows
  Conversion Auth Auth_proofs Conn Spec_Conn Conn_proofs Spec_Fault Fault_proofs Properties_Command Peer Spec_Peer Peer_proofs.
Import ListNotations.
Open Scope Z_scope.

(** C90, for transports that pass on what is written: with any server that answers each request once
    it has received it, any sequence of uses comes to its end and sees exactly its answers; there is
    no other end.  So no use waits for an answer before it has written its whole request.  Missing:
    transports that keep bytes until they are flushed, see [C90_buffered_refuted]. *)
Theorem C90_session_partial : exists packets : use -> list (list Z),
  (forall u, use_ok u -> request u (packets u)) /\
  forall A (decode : list column -> bytes -> res error A) caps peer r s h c got,
  served decode caps packets peer r s h -> Z.testbit caps DEPRECATE_EOF_BIT = true ->
  c_caps c = caps -> between c [] -> s_out (c_stream c) = r -> got ++ s_in (c_stream c) = s ->
  (exists c', session peer (map (fun x => run_use decode (fst x)) h) got c (map snd h) c' /\ between c' []) /\
  forall xs c', session peer (map (fun x => run_use decode (fst x)) h) got c xs c' -> xs = map snd h.
Proof.
  exists use_packets. split; [intros u H; now apply use_packets_request|].
  intros A decode caps peer r s h c got Hs Hd Hc Hb Ho Hg.
  destruct (uses_end A decode caps peer r s h Hs Hd c got Hc Hb Ho Hg) as (c' & S & B). split; [eauto|].
  intros xs c2 S2. destruct (session_unique _ _ _ _ _ _ _ S2 _ _ S) as (E & _). exact E.
Qed.
Print Assumptions C90_session_partial.

(** A server that answers two queries, and a client that drops the first result set unread. *)
Definition c90_first : bytes := frame 0 (3 :: s2l "select c").
Definition c90_second : bytes := frame 0 (3 :: s2l "update t").
Definition c90_rows : bytes := frame 1 [1] ++ frame 2 column_packet ++ frame 3 [1; 97] ++ frame 4 [254; 0; 0; 2; 0; 0; 0].
Definition c90_done : bytes := frame 1 ok_packet_bytes.
Definition c90_server (r : list Z) : list Z :=
  if list_eqb r c90_first then c90_rows else if list_eqb r (c90_first ++ c90_second) then c90_rows ++ c90_done else [].
Definition c90_uses : list (use * seen bytes) :=
  [(UQuery (s2l "select c") 0, SRows [some_column] []); (UExecute (s2l "update t"), SDone 0 0 2 0 None None)].

Example C90_case :
  served (fun _ p => Ok p) some_caps use_packets c90_server [] [] c90_uses /\
  between (idle []) [] /\ c_caps (idle []) = some_caps /\
  exists c1 c2, session c90_server (map (fun x => run_use (fun _ p => Ok p) (fst x)) c90_uses) [] (idle []) (map snd c90_uses) c2 /\
    ends c90_server (run_use (fun _ p => Ok p) (UQuery (s2l "select c") 0)) [] (idle []) (SRows [some_column] [])
      (frame 1 [1] ++ frame 2 column_packet) c1 /\ s_in (c_stream c1) = frame 3 [1; 97] ++ frame 4 [254; 0; 0; 2; 0; 0; 0].
Proof.
  assert (Sv : served (fun _ p => Ok p) some_caps use_packets c90_server [] [] c90_uses).
  { assert (F : forall p, Z.of_nat (length p) < 2 ^ 24 - 1 -> requests [p] (frame 0 p) 1).
    { intros p Hp. apply requests_one, (frame_frames 0 p Hp). }
    apply (served_use _ _ _ _ [] [] (UQuery (s2l "select c") 0) (ARows [some_column] [[1; 97]]) _ c90_first 1
      ([[1]] ++ [column_packet] ++ [[1; 97]] ++ [[254; 0; 0; 2; 0; 0; 0]]) c90_rows 5).
    - exact I.
    - apply F. cbn. lia.
    - apply (ap_rows some_caps [some_column] [column_packet] [[1; 97]] 2 0 [254; 0; 0; 2; 0; 0; 0]).
      + discriminate.
      + constructor; [exact column_packet_layout | constructor].
      + repeat constructor; eexists _, _; (split; [reflexivity|]); split; intros; lia.
      + split; [split; [lia | intros H; discriminate] | split; [lia | reflexivity]].
      + reflexivity.
      + reflexivity.
    - unfold c90_rows. rewrite <- (app_nil_r (frame 4 _)). framed_by.
    - apply (ex_query_rows (fun _ p => Ok p) (s2l "select c") 0 [some_column] [[1; 97]]). repeat constructor. discriminate.
    - vm_compute. reflexivity.
    - apply (served_use _ _ _ _ _ _ (UExecute (s2l "update t")) (AOk 0 0 2 0 [] []) _ c90_second 1 [ok_packet_bytes] c90_done 2).
      + exact I.
      + apply F. cbn. lia.
      + apply (ap_ok some_caps InfoAbsent 0 0 2 0 [] []); [discriminate|exact ok_packet_layout|split; [lia|intros H; discriminate]|reflexivity].
      + unfold c90_done. rewrite <- (app_nil_r (frame 1 _)). framed_by.
      + apply ex_execute.
      + vm_compute. reflexivity.
      + constructor. }
  split; [exact Sv|]. split; [split; [unfold byte_ok; cbn; lia|split; [reflexivity|left; split; reflexivity]]|]. split; [reflexivity|].
  assert (B : between (idle []) []) by (split; [unfold byte_ok; cbn; lia|split; [reflexivity|left; split; reflexivity]]).
  destruct (uses_end _ _ some_caps c90_server [] [] c90_uses Sv eq_refl (idle []) [] eq_refl B eq_refl eq_refl) as (c2 & S & _).
  inversion S as [|run runs got c x got' c1 xs c3 E S']; subst. exists c1, c2. split; [exact S|].
  assert (X : ends c90_server (run_use (fun _ p => Ok p) (UQuery (s2l "select c") 0)) [] (idle []) (SRows [some_column] [])
      (frame 1 [1] ++ frame 2 column_packet) (snd (run_use (fun _ p => @Ok error _ p) (UQuery (s2l "select c") 0) (idle c90_rows)))).
  { exists c90_rows. split; [|vm_compute; auto].
    apply (readable_next _ _ _ _ [] (SFailed (EProtocol (PIo IoUnexpectedEof)))
      (snd (run_use (fun _ p => @Ok error _ p) (UQuery (s2l "select c") 0) (idle []))) c90_rows); [constructor|vm_compute; reflexivity..]. }
  destruct (ends_unique _ _ _ _ _ _ _ _ _ _ _ E X) as (_ & _ & ->). split; [exact X|]. vm_compute. reflexivity.
Qed.

(** C90 is false of other transports: nothing is ever flushed.  If the transport passes bytes on in
    blocks of any size above one, there is a server and a query that it would answer, and the
    client always waits in vain. *)
Theorem C90_buffered_refuted : forall n, 1 < n -> exists peer u y c,
  served (A := bytes) (fun _ p => Ok p) some_caps use_packets peer [] [] [(u, y)] /\
  c_caps c = some_caps /\ between c [] /\ s_out (c_stream c) = [] /\ s_in (c_stream c) = [] /\
  (exists c', session (fun out => peer (in_blocks n out)) [run_use (fun _ p => Ok p) u] [] c [SFailed (EProtocol (PIo IoTimedOut))] c') /\
  forall xs c', session (fun out => peer (in_blocks n out)) [run_use (fun _ p => Ok p) u] [] c xs c' ->
    xs = [SFailed (EProtocol (PIo IoTimedOut))].
Proof.
  intros n Hn. set (t := if 5 mod n =? 0 then s2l "q" else []).
  assert (Ht : (5 + lenZ t) mod n <> 0 /\ (t = s2l "q" \/ t = [])).
  { unfold t. destruct (Z.eqb_spec (5 mod n) 0) as [E|E]; [|split; [exact E|now right]]. split; [|now left].
    change (5 + lenZ (s2l "q")) with (5 + 1). rewrite <- Z.add_mod_idemp_l, E by lia. rewrite Z.mod_small by lia. lia. }
  clearbody t. destruct Ht as (Ht & Hc).
  set (w := frame 0 (3 :: t)). set (c := mkConn (mkStream [] IoTimedOut [] None) 0 some_data false).
  set (peer := fun r : list Z => if list_eqb r w then frame 1 ok_packet_bytes else []).
  assert (Lw : lenZ w = 5 + lenZ t) by (destruct Hc; subst t; reflexivity).
  assert (Hp : peer (in_blocks n w) = []).
  { unfold peer. destruct (list_eqb (in_blocks n w) w) eqn:E; [|reflexivity]. apply list_eqb_eq in E. exfalso.
    apply (f_equal lenZ) in E. unfold in_blocks in E. rewrite lenZ_takeZ in E by (apply Z.mul_nonneg_nonneg; [apply Z.div_pos; [apply lenZ_nonneg|lia]|lia]). rewrite Lw in E.
    assert (0 <= lenZ t) by apply lenZ_nonneg. pose proof (Z.div_mod (5 + lenZ t) n ltac:(lia)) as D.
    pose proof (Z.mod_pos_bound (5 + lenZ t) n ltac:(lia)).
    set (d := (5 + lenZ t) / n) in *. set (m := (5 + lenZ t) mod n) in *. clearbody d m. rewrite (Z.mul_comm d n) in E. lia. }
  assert (Run : exists c', run_use (fun _ p => @Ok error bytes p) (UExecute t) c = (SFailed (EProtocol (PIo IoTimedOut)), c') /\
    s_out (c_stream c') = w /\ s_in (c_stream c') = []).
  { destruct Hc; subst t; eexists; (split; [vm_compute; reflexivity|split; reflexivity]). }
  destruct Run as (c' & R & O & I).
  assert (S : session (fun out => peer (in_blocks n out)) [run_use (fun _ p => @Ok error bytes p) (UExecute t)] [] c
    [SFailed (EProtocol (PIo IoTimedOut))] c').
  { econstructor; [|constructor]. exists []. split; [constructor|]. split; [exact R|]. rewrite O, I. split; [exact Hp|reflexivity]. }
  exists peer, (UExecute t), (SDone 0 0 2 0 None None), c. split; [|splits].
  - apply (served_use _ _ _ _ _ _ (UExecute t) (AOk 0 0 2 0 [] []) _ w 1 [ok_packet_bytes] (frame 1 ok_packet_bytes) 2).
    + exact Logic.I.
    + apply requests_one. unfold w. apply (frame_frames 0). destruct Hc; subst t; cbn; lia.
    + apply (ap_ok some_caps InfoAbsent 0 0 2 0 [] []); [discriminate|exact ok_packet_layout|split; [lia|intros H; discriminate]|reflexivity].
    + rewrite <- (app_nil_r (frame 1 _)). framed_by.
    + apply ex_execute.
    + unfold peer. cbn [app]. replace (list_eqb w w) with true; [reflexivity|]. symmetry. now apply list_eqb_eq.
    + constructor.
  - reflexivity.
  - split; [unfold byte_ok; cbn; lia|split; [reflexivity|left; split; reflexivity]].
  - reflexivity.
  - reflexivity.
  - eauto.
  - intros xs c2 S2. destruct (session_unique _ _ _ _ _ _ _ S2 _ _ S) as (E & _). exact E.
Qed.
Print Assumptions C90_buffered_refuted.
