(** Property C85: the users of a pool of connections do not see each other's answers. *)
From Coq Require Import String ZArith List Bool Arith Lia.
From Verif Require Import Base BaseFacts Types Utf8 ParseBuf BufMut Spec_Wire ParseBuf_proofs Framing Framing_proofs
  Packets Spec_Packets Packets_proofs Conn Spec_Conn Conn_proofs Spec_Fault Fault_proofs Pool Spec_Pool Pool_proofs
  Properties_Pool Properties_Command Properties_Fault Shared Spec_Shared Shared_proofs.
Import ListNotations.
Open Scope Z_scope.

(** Any number of users share a pool.  The server answers the requests on each connection [k] with
    the answers of a script [h k].  However the users are interleaved, as long as the requests made
    on each connection follow its script, every use sees the answer to its own request, and no two
    users hold one connection.  Missing: answers that arrive after their user has given up (refuted
    below). *)
Theorem C85_shared_connections_partial : exists packets : use -> list (list Z),
  (forall u, use_ok u -> request u (packets u)) /\
  forall A (decode : list column -> bytes -> res error A) N caps (h : nat -> list (use * seen A)) i o rest conns l s,
  Z.testbit caps DEPRECATE_EOF_BIT = true ->
  (forall k, history decode caps packets (h k) (i k) (o k) /\ c_caps (conns k) = caps /\ between (conns k) (i k ++ rest k)) ->
  shared_steps decode N (mkShared sys_new conns) l s -> no_arrival l ->
  (forall t t' k, nth_error (s_tasks (sh_sys s)) t = Some (Holding k) -> nth_error (s_tasks (sh_sys s)) t' = Some (Holding k) -> t' = t) /\
  forall k r more, uses_on k l r -> map fst r ++ more = map fst (h k) -> r = firstn (length r) (h k).
Proof.
  exists use_packets. split.
  - intros u H. now apply use_packets_request.
  - intros A decode N caps h i o rest conns l s Hd Hh Hs Hn. destruct (shared_runs _ _ _ _ _ _ Hs Hn) as (S1 & S2).
    cbn [sh_sys sh_conns] in *. split.
    + intros t t' k E E'. eapply steps_task_holds; eauto.
    + intros k r more U P. destruct (Hh k) as (H1 & H2 & H3).
      destruct (run_uses_history A decode caps (h k) (i k) (o k) H1 Hd (conns k) (rest k) H2 H3) as (c' & E & _).
      rewrite <- P in E. pose proof (run_uses_prefix _ _ _ _ _ _ _ E) as Q.
      rewrite (S2 k r U) in Q. cbn [fst] in Q. rewrite map_length in Q.
      assert (P1 : map fst r = firstn (length r) (map fst (h k))).
      { rewrite <- P, firstn_app, map_length, Nat.sub_diag. cbn [firstn]. rewrite app_nil_r, <- (map_length fst r), firstn_all. reflexivity. }
      rewrite firstn_map in P1, Q. clear -P1 Q. revert P1 Q. generalize (firstn (length r) (h k)) as x. induction r as [|[a b] r IH]; intros [|[a' b'] x] P Q; try discriminate; auto.
      cbn in P, Q. injection P as -> P. injection Q as -> Q. f_equal. auto.
Qed.
Print Assumptions C85_shared_connections_partial.

(** The first of two users holds the only connection; the second gets it afterwards. *)
Lemma first_holds : steps true 1 sys_new (mkSys (mkPool 1 [] [] 1 0 []) [Holding 0; Idle false true]).
Proof.
  eapply steps_trans; [apply two_requests_reached|]. destruct (first_connects true) as (p & H & ->). exact H.
Qed.
Lemma pool_steps : forall A (decode : list column -> bytes -> res error A) N s s' cs, steps true N s s' ->
  shared_steps decode N (mkShared s cs) [] (mkShared s' cs).
Proof.
  intros A decode N s s' cs H. induction H as [|s1 s2 s3 H IH St]; [constructor|].
  apply (sh_snoc decode N _ _ _ [] [] IH). now constructor.
Qed.

Lemma second_gets : steps true 1 (mkSys (mkPool 1 [] [] 1 0 []) [Holding 0; Idle false true])
  (mkSys (mkPool 1 [] [] 1 0 []) [Gone; Holding 0]).
Proof.
  eapply steps_cons; [apply steps_one|].
  - apply (step_drop true 1 (mkPool 1 [] [] 1 0 []) [] (Holding 0) [Idle false true] Gone (mkPool 1 [0%nat] [] 1 0 [])). reflexivity.
  - apply (step_poll true 1 (mkPool 1 [0%nat] [] 1 0 []) [Gone] (Idle false true) [] 0 APending (Holding 0) (mkPool 1 [] [] 1 0 [])); [cbn; lia | reflexivity].
Qed.

(** One connection, two users: the first uses it and returns it; then the second holds it. *)
Lemma handed_on : forall A (decode : list column -> bytes -> res error A) u1 cs y1 c1,
  run_use decode u1 (cs 0%nat) = (y1, c1) ->
  shared_steps decode 1 (mkShared sys_new cs) [EvUse 0 0 u1 y1]
    (mkShared (mkSys (mkPool 1 [] [] 1 0 []) [Gone; Holding 0]) (set_conn 0 c1 cs)).
Proof.
  intros A decode u1 cs y1 c1 E1.
  assert (H : shared_steps decode 1 (mkShared sys_new cs) [EvUse 0 0 u1 y1] (mkShared (mkSys (mkPool 1 [] [] 1 0 []) [Holding 0; Idle false true]) (set_conn 0 c1 cs))).
  { apply (sh_snoc decode 1 _ (mkShared (mkSys (mkPool 1 [] [] 1 0 []) [Holding 0; Idle false true]) cs) _ [] [EvUse 0 0 u1 y1]).
    - apply pool_steps, first_holds.
    - apply sh_use; [reflexivity | exact E1]. }
  revert H. generalize second_gets. generalize (mkSys (mkPool 1 [] [] 1 0 []) [Holding 0; Idle false true]). intros s0 P H.
  induction P as [s|s1 s2 s3 P IH St]; [exact H|].
  rewrite <- (app_nil_r [EvUse 0 0 u1 y1]). eapply sh_snoc; [apply IH; exact H | now constructor].
Qed.

(** The first user of a pool of one connection changes 7 rows; the answer is late, the user gets an
    error and returns the connection.  The second user takes it from the pool, changes 1 row, and
    is told that 7 rows have changed: the first user's answer. *)
Theorem C85_shared_connections_refuted : exists conns u1 u2 i1 i2 pkt1 pkt2 s,
  let ok n := AOk n 0 2 0 [] [] in
  answer_packets (c_caps (conns 0%nat)) (ok 7) [pkt1] /\ answer_packets (c_caps (conns 0%nat)) (ok 1) [pkt2] /\
  frames 1 pkt1 i1 2 /\ frames 1 pkt2 i2 2 /\
  expected (A := list Z) (fun _ p => Ok p) u2 (ok 1) (SDone 1 0 2 0 None None) /\
  between (conns 0%nat) [] /\
  shared_steps (A := list Z) (fun _ p => Ok p) 1 (mkShared sys_new conns)
    [EvUse 0 0 u1 (SFailed (EProtocol (PIo IoTimedOut))); EvArrive 0 (i1 ++ i2); EvUse 1 0 u2 (SDone 7 0 2 0 None None)] s.
Proof.
  assert (L : forall n, 0 <= n < 250 -> answer_packets some_caps (AOk n 0 2 0 [] []) [[0; n; 0; 2; 0; 0; 0]]).
  { intros n Hn. eapply (ap_ok some_caps InfoAbsent n 0 2 0 [] []); [discriminate | | | reflexivity].
    - exists [n; 0; 2; 0; 0; 0]. split; [|reflexivity]. exists [n], [0], []. splits; try lia; try reflexivity; constructor; lia.
    - split; [lia | intros H; discriminate]. }
  eexists (fun _ => slow []), (UExecute (s2l "update a")), (UExecute (s2l "update b")), (frame 1 [0; 7; 0; 2; 0; 0; 0]), (frame 1 [0; 1; 0; 2; 0; 0; 0]),
    [0; 7; 0; 2; 0; 0; 0], [0; 1; 0; 2; 0; 0; 0], _. cbv zeta. splits.
  - apply L. lia.
  - apply L. lia.
  - apply frame_frames. cbn. lia.
  - apply frame_frames. cbn. lia.
  - apply ex_execute.
  - split; [unfold byte_ok; cbn; lia|]. split; [reflexivity|]. left. split; reflexivity.
  - eapply (sh_snoc _ 1 _ _ _ [_; _] [_]).
    + eapply (sh_snoc _ 1 _ _ _ [_] [_]); [eapply handed_on; vm_compute; reflexivity | apply sh_arrive].
    + apply sh_use; [reflexivity | vm_compute; reflexivity].
Qed.
Print Assumptions C85_shared_connections_refuted.

(** Two users, one after the other, with both answers in time. *)
Example C85_case : exists l s,
  shared_steps (A := bytes) (fun _ p => Ok p) 1 (mkShared sys_new (fun _ => idle c46_input)) l s /\
  no_arrival l /\ uses_on 0 l c46_history /\
  map (fun e => match e with EvUse t _ _ _ => t | EvArrive _ _ => 9%nat end) l = [0; 1]%nat /\
  history (fun _ p => Ok p) some_caps use_packets c46_history c46_input (frame 0 [3; 113] ++ frame 0 [3; 101] ++ []) /\
  between (idle c46_input) (c46_input ++ []).
Proof.
  destruct (run_use (A := bytes) (fun _ p => Ok p) (UQuery (s2l "q") 1) (idle c46_input)) as [y1 c1] eqn:E1.
  destruct (run_use (A := bytes) (fun _ p => Ok p) (UExecute (s2l "e")) c1) as [y2 c2] eqn:E2.
  exists [EvUse 0 0 (UQuery (s2l "q") 1) y1; EvUse 1 0 (UExecute (s2l "e")) y2]. eexists.
  assert (Y : y1 = SRows [some_column] [Ok (Some [1; 97])] /\ y2 = SDone 0 0 2 0 None None).
  { vm_compute in E1. injection E1 as <- <-. vm_compute in E2. injection E2 as <- _. split; reflexivity. }
  splits.
  - eapply (sh_snoc _ 1 _ _ _ [_] [_]).
    + apply (handed_on _ _ _ (fun _ => idle c46_input) _ _ E1).
    + apply sh_use; [reflexivity | exact E2].
  - intros k b [F|[F|[]]]; discriminate.
  - destruct Y as (-> & ->). unfold c46_history. repeat constructor.
  - reflexivity.
  - apply C46_case.
  - apply C46_case.
Qed.
