(** C117: what requests that wait for a pooled connection cost. *)
From Coq Require Import ZArith List Bool Arith Lia.
From Verif Require Import Base BaseFacts Types Pool Spec_Pool Pool_proofs Waiters_proofs.
Import ListNotations.

(** A request wakes itself at most N + 1 times, whatever the others do.  Each time but the last, another
    request has started a connection since it looked. *)
Theorem C117_wakes : forall spurious N i log s, watched spurious N i sys_new log s -> coherent log ->
  (length log <= N + 1)%nat /\
  Forall (fun e => (fst e < N)%nat -> (fst e < snd e)%nat) log /\
  (length (filter (fun e => N <=? fst e) log) <= 1)%nat.
Proof.
  intros sp N i log s H C. destruct (watched_log _ _ _ _ _ H) as (_ & F & X & _).
  destruct (exchanged_bound N log F C) as [B _]. splits.
  - rewrite (log_split N log). lia.
  - eapply Forall_impl; [|exact F]. intros e (_ & _ & E). exact E.
  - unfold exhausted in X. erewrite filter_ext; [exact X|]. intros e. cbn beta.
    destruct (Nat.leb_spec N (fst e)), (Nat.ltb_spec (fst e) N); cbn; try reflexivity; lia.
Qed.
Print Assumptions C117_wakes.

(** Each request stores at most one waker, and only requests that have been made do. *)
Theorem C117_stored_partial : forall spurious N s, steps spurious N sys_new s ->
  NoDup (ap_wakers (s_pool s)) /\
  Forall (fun i => (i < length (s_tasks s))%nat) (ap_wakers (s_pool s)) /\
  (length (ap_wakers (s_pool s)) <= length (s_tasks s))%nat.
Proof.
  intros sp N s H. destruct (steps_wakers _ _ _ H) as [A B].
  assert (F : Forall (fun i => (i < length (s_tasks s))%nat) (ap_wakers (s_pool s)))
    by (eapply Forall_impl; [|exact B]; intros i (Hi & _); exact Hi).
  splits; [assumption | assumption|].
  rewrite <- (seq_length (length (s_tasks s)) 0). apply NoDup_incl_length; [assumption|].
  intros i Hi. rewrite Forall_forall in F. apply in_seq. specialize (F i Hi). lia.
Qed.
Print Assumptions C117_stored_partial.

(** Nothing is ever taken out again, so that the wakers of requests long gone pile up: for every k there
    is a run after which nobody waits and k of them are stored. *)
Theorem C117_left_refuted :
  (forall spurious N s s', steps spurious N s s' -> exists more, ap_wakers (s_pool s') = ap_wakers (s_pool s) ++ more) /\
  (forall N k, exists s, steps false N sys_new s /\ Forall settled (s_tasks s) /\ length (held (s_tasks s)) = N /\
     length (ap_wakers (s_pool s)) = k).
Proof.
  split; [exact steps_keep|]. intros N k.
  enough (G : exists ts ws, steps false N sys_new (mkSys (mkPool N [] ws N 0 []) ts) /\ Forall settled ts /\
     length (held ts) = N /\ length ws = k).
  { destruct G as (ts & ws & G). eexists. exact G. }
  induction k as [|k (ts & ws & H & Hs & Hh & Hk)].
  - destruct (all_out false N N (le_n N)) as (ts & H & _ & Hh & Hf). exists ts, []. splits; [exact H | | now rewrite Hh, seq_length | reflexivity].
    eapply Forall_impl; [|exact Hf]. intros [] X; cbn; tauto.
  - exists (ts ++ [Gone]), (ws ++ [length ts]). splits.
    + eapply steps_trans; [exact H|]. set (p := mkPool N [] ws N 0 []). set (p' := mkPool N [] (ws ++ [length ts]) N 0 []).
      eapply steps_cons; [eapply steps_cons; [eapply steps_cons; [eapply steps_cons; [apply steps_one|]|]|]|].
      * apply step_get.
      * apply (step_poll false N p ts (Idle false true) [] 0 APending (Popped false) p); [lia | reflexivity].
      * apply (step_poll false N p ts (Popped false) [] N APending (Loaded false N) p); [cbn; lia | reflexivity].
      * apply (step_poll false N p ts (Loaded false N) [] 0 APending (Idle true true) p'); [lia|].
        cbn [poll_step]. rewrite Nat.ltb_irrefl. reflexivity.
      * apply (step_drop false N p' ts (Idle true true) []). reflexivity.
    + apply Forall_app. split; [assumption|]. repeat constructor.
    + rewrite held_app, app_length, Hh. cbn. lia.
    + rewrite app_length, Hk. cbn. lia.
Qed.
Print Assumptions C117_left_refuted.

(** Two requests for a pool of two: the second loses an exchange once, then starts its connection. *)
Example C117_case : exists s, watched false 2 1 sys_new [(0%nat, 1%nat)] s /\
  s_tasks s = [Adding; Adding] /\ ap_items (s_pool s) = 2%nat /\ coherent [(0%nat, 1%nat)].
Proof.
  set (p0 := pool_new). set (p1 := mkPool 1 [] [] 0 0 []). set (p2 := mkPool 2 [] [] 0 0 []).
  exists (mkSys p2 [Adding; Adding]). splits; try reflexivity; try exact I.
  eapply (watched_next false 2 1 _ [(0%nat, 1%nat)] (mkSys p1 [Adding; Loaded false 1])).
  2: { apply (step_poll false 2 p1 [Adding] (Loaded false 1) [] 0 APending Adding p2); [cbn; lia | reflexivity]. }
  2: reflexivity.
  eapply (watched_next false 2 1 _ [(0%nat, 1%nat)] (mkSys p1 [Adding; Popped false])).
  2: { apply (step_poll false 2 p1 [Adding] (Popped false) [] 1 APending (Loaded false 1) p1); [cbn; lia | reflexivity]. }
  2: reflexivity.
  eapply (watched_next false 2 1 _ [(0%nat, 1%nat)] (mkSys p1 [Adding; Idle false true])).
  2: { apply (step_poll false 2 p1 [Adding] (Idle false true) [] 0 APending (Popped false) p1); [cbn; lia | reflexivity]. }
  2: reflexivity.
  eapply (watched_next false 2 1 _ [] (mkSys p1 [Adding; Loaded false 0])).
  2: { apply (step_poll false 2 p1 [Adding] (Loaded false 0) [] 0 APending (Idle false true) p1); [cbn; lia | reflexivity]. }
  2: reflexivity.
  eapply (watched_next false 2 1 _ [] (mkSys p0 [Loaded false 0; Loaded false 0])).
  2: { apply (step_poll false 2 p0 [] (Loaded false 0) [Loaded false 0] 0 APending Adding p1); [cbn; lia | reflexivity]. }
  2: reflexivity.
  eapply (watched_next false 2 1 _ [] (mkSys p0 [Popped false; Loaded false 0])).
  2: { apply (step_poll false 2 p0 [] (Popped false) [Loaded false 0] 0 APending (Loaded false 0) p0); [cbn; lia | reflexivity]. }
  2: reflexivity.
  eapply (watched_next false 2 1 _ [] (mkSys p0 [Popped false; Popped false])).
  2: { apply (step_poll false 2 p0 [Popped false] (Popped false) [] 0 APending (Loaded false 0) p0); [cbn; lia | reflexivity]. }
  2: reflexivity.
  eapply (watched_next false 2 1 _ [] (mkSys p0 [Popped false; Idle false true])).
  2: { apply (step_poll false 2 p0 [Popped false] (Idle false true) [] 0 APending (Popped false) p0); [cbn; lia | reflexivity]. }
  2: reflexivity.
  eapply (watched_next false 2 1 _ [] (mkSys p0 [Idle false true; Idle false true])).
  2: { apply (step_poll false 2 p0 [] (Idle false true) [Idle false true] 0 APending (Popped false) p0); [cbn; lia | reflexivity]. }
  2: reflexivity.
  eapply (watched_next false 2 1 _ [] (mkSys p0 [Idle false true])).
  2: { apply (step_get false 2 p0 [Idle false true]). }
  2: reflexivity.
  eapply (watched_next false 2 1 _ [] (mkSys p0 [])).
  2: { apply (step_get false 2 p0 []). }
  2: reflexivity.
  apply watched_nil.
Qed.
