(** Properties C52-C57: pools and timeouts. *)
From Coq Require Import ZArith List Bool Arith Lia.
From Verif Require Import Base BaseFacts Types Pool Spec_Pool Pool_proofs.
Import ListNotations.

(** C52: whatever users do with the buffers they hold, every buffer they obtain is empty, the
    pool keeps at most [cap] buffers, and what it keeps is empty and within the size cap. *)
Theorem C52_buffers_empty : forall ctx cap os s' obtained, (0 <= size_cap ctx)%Z ->
  sync_run ctx cap os (mkSync [] []) = (s', obtained) ->
  Forall (fun b => b_data b = []) obtained /\
  (length (sp_queue s') <= cap)%nat /\
  Forall (fun b => b_data b = [] /\ (b_cap b <= size_cap ctx)%Z) (sp_queue s').
Proof.
  intros ctx cap os s' obtained Hc E.
  destruct (sync_run_inv ctx cap os (mkSync [] []) Hc) as ((A & B) & C).
  { split; cbn; [lia | constructor]. }
  rewrite E in *. auto.
Qed.
Print Assumptions C52_buffers_empty.

(** The pool the crate uses never keeps more than 64 buffers and 256 MiB. *)
Theorem C52_crate_pool : forall os s' obtained,
  sync_run buffer_ctx BUFFER_POOL_SIZE os (mkSync [] []) = (s', obtained) ->
  Forall (fun b => b_data b = []) obtained /\
  (length (sp_queue s') <= 64)%nat /\
  (fold_right Z.add 0 (map b_cap (sp_queue s')) <= 256 * 1024 * 1024)%Z.
Proof.
  intros os s' obtained E. destruct (C52_buffers_empty buffer_ctx BUFFER_POOL_SIZE os s' obtained) as (A & B & C); [now compute | exact E |].
  change BUFFER_POOL_SIZE with 64%nat in B. split; [exact A|]. split; [exact B|].
  assert (H : (fold_right Z.add 0 (map b_cap (sp_queue s')) <= Z.of_nat (length (sp_queue s')) * (4 * 1024 * 1024))%Z).
  { clear -C. induction C as [|b l (_ & H) _ IH]; cbn [map fold_right length]; [reflexivity|].
    change (size_cap buffer_ctx) with (4 * 1024 * 1024)%Z in H. lia. }
  lia.
Qed.
Print Assumptions C52_crate_pool.

(** C52: a buffer is taken from the pool if there is one, the one given back first; otherwise a new
    one with the initial capacity is made. *)
Theorem C52_taken : forall ctx cap extra q out, (0 <= extra)%Z ->
  exists b q', sync_step ctx cap (STake extra) (mkSync q out) = (mkSync q' (b :: out), Some b) /\
    (q = b :: q' \/ q = [] /\ q' = [] /\ b_data b = [] /\ (init_size ctx <= b_cap b)%Z).
Proof.
  intros ctx cap extra [|b q] out H; eexists _, _; (split; [reflexivity|]); [right|now left].
  cbn. splits; try reflexivity. lia.
Qed.
Print Assumptions C52_taken.

(** C52: writing into a buffer in use changes no other one and nothing in the pool. *)
Theorem C52_written : forall ctx cap q before b b' after,
  sync_step ctx cap (SWrite (length before) b') (mkSync q (before ++ b :: after)) = (mkSync q (before ++ b' :: after), None).
Proof.
  intros ctx cap q before b b' after. cbn [sync_step sp_out sp_queue].
  replace (update (before ++ b :: after) (length before) b') with (before ++ b' :: after) by (induction before; cbn; congruence).
  reflexivity.
Qed.
Print Assumptions C52_written.

(** C52: a buffer given back leaves the other buffers in use alone; it goes to the end of the pool,
    emptied and with no more than the size cap, or away if the pool is full. *)
Theorem C52_given : forall ctx cap q before b after, (0 <= size_cap ctx)%Z ->
  exists q', sync_step ctx cap (SGive (length before)) (mkSync q (before ++ b :: after)) = (mkSync q' (before ++ after), None) /\
    ((length q < cap)%nat -> q' = q ++ [mkBuffer [] (Z.min (b_cap b) (size_cap ctx))]) /\
    ((cap <= length q)%nat -> q' = q).
Proof.
  intros ctx cap q before b after Hc. cbn [sync_step sp_out sp_queue].
  assert (E : nth_error (before ++ b :: after) (length before) = Some b) by (induction before; cbn; auto).
  rewrite E. replace (remove_at (before ++ b :: after) (length before)) with (before ++ after) by (induction before; cbn in *; auto; f_equal; auto).
  eexists. split; [reflexivity|]. unfold sync_put, aq_push. split; intros H.
  - replace (length q <? cap)%nat with true by (symmetry; apply Nat.ltb_lt; exact H). cbn [fst]. do 2 f_equal.
    unfold buffer_reset, shrink_to. cbn [b_cap b_data].
    destruct (Z.gtb_spec (b_cap b) (size_cap ctx)).
    + rewrite Z.min_r by lia. f_equal. change (lenZ []) with 0%Z. lia.
    + rewrite Z.min_l by lia. reflexivity.
  - replace (length q <? cap)%nat with false by (symmetry; apply Nat.ltb_ge; exact H). reflexivity.
Qed.
Print Assumptions C52_given.

(** The pool of the crate: a returned buffer is used again, shrunk, without its bytes. *)
Example C52_case :
  sync_run buffer_ctx BUFFER_POOL_SIZE [STake 0; SWrite 0 (mkBuffer [1; 2; 3]%Z 9000000%Z); SGive 0; STake 0] (mkSync [] [])
  = (mkSync [] [mkBuffer [] 4194304%Z], [mkBuffer [] 1024%Z; mkBuffer [] 4194304%Z]).
Proof. vm_compute. reflexivity. Qed.

(** A run used in the examples: two requests on a pool of one. *)
Definition two_requests : sys := mkSys pool_new [Idle false true; Idle false true].
Lemma two_requests_reached : forall sp, steps sp 1 sys_new two_requests.
Proof.
  intros sp. eapply steps_cons; [apply steps_one; apply step_get|]. apply (step_get sp 1 pool_new [Idle false true]).
Qed.

(** The first request connects. *)
Lemma first_connects : forall sp, exists p,
  steps sp 1 two_requests (mkSys p [Holding 0; Idle false true]) /\
  p = mkPool 1 [] [] 1 0 [].
Proof.
  intros sp. eexists. split; [|reflexivity]. eapply steps_cons; [|].
  - eapply steps_cons; [eapply steps_cons; [apply steps_one|]|].
    + apply (step_poll sp 1 pool_new [] (Idle false true) [Idle false true] 0 APending (Popped false) pool_new); [lia | reflexivity].
    + apply (step_poll sp 1 pool_new [] (Popped false) [Idle false true] 0 APending (Loaded false 0) pool_new); [lia | reflexivity].
    + eapply (step_poll sp 1 pool_new [] (Loaded false 0) [Idle false true] 0 APending); [lia | reflexivity].
  - eapply (step_poll sp 1 _ [] Adding [Idle false true] 0 AReady); [lia | reflexivity].
Qed.

(** The second waits. *)
Lemma second_waits : forall sp,
  steps sp 1 two_requests (mkSys (mkPool 1 [] [1%nat] 1 0 []) [Holding 0; Idle true false]).
Proof.
  intros sp. destruct (first_connects sp) as (p & H & ->). eapply steps_trans; [exact H|].
  set (p := mkPool 1 [] [] 1 0 []). set (p' := mkPool 1 [] [1%nat] 1 0 []).
  eapply steps_cons; [eapply steps_cons; [eapply steps_cons; [eapply steps_cons; [eapply steps_cons; [apply steps_one|]|]|]|]|].
  - apply (step_poll sp 1 p [Holding 0] (Idle false true) [] 0 APending (Popped false) p); [cbn; lia | reflexivity].
  - apply (step_poll sp 1 p [Holding 0] (Popped false) [] 1 APending (Loaded false 1) p); [cbn; lia | reflexivity].
  - apply (step_poll sp 1 p [Holding 0] (Loaded false 1) [] 0 APending (Idle true true) p'); [cbn; lia | reflexivity].
  - apply (step_poll sp 1 p' [Holding 0] (Idle true true) [] 0 APending (Popped true) p'); [cbn; lia | reflexivity].
  - apply (step_poll sp 1 p' [Holding 0] (Popped true) [] 1 APending (Loaded true 1) p'); [cbn; lia | reflexivity].
  - apply (step_poll sp 1 p' [Holding 0] (Loaded true 1) [] 0 APending (Idle true false) p'); [cbn; lia | reflexivity].
Qed.

(** C53: in every state reached by any interleaving of any number of requests, with failures,
    drops, stale loads and needless polls, at most N connections exist. *)
Theorem C53_at_most_N : forall spurious N s, steps spurious N sys_new s -> (existing s <= N)%nat.
Proof. intros sp N s H. destruct (steps_inv sp N s H) as (A & B & _). lia. Qed.
Print Assumptions C53_at_most_N.

(** A pool of no connections is not made (the queue panics); one of N starts without any, and all N can
    be handed out at once. *)
Theorem C53_created : pool_created 0 = Panic /\
  (forall N, (0 < N)%nat -> pool_created N = Ok pool_new) /\
  (forall spurious N, exists s, steps spurious N sys_new s /\ held (s_tasks s) = seq 0 N /\ existing s = N).
Proof.
  splits; [reflexivity | intros [|N] H; [lia | reflexivity] |].
  intros sp N. destruct (all_out sp N N (le_n N)) as (ts & H & Hl & Hh & Hf). eexists. split; [exact H|]. cbn [s_tasks].
  split; [assumption|]. unfold existing. cbn [s_pool s_tasks ap_queue length]. rewrite Hh, seq_length.
  enough (establishing ts = 0%nat) by lia. clear - Hf. induction Hf as [|t ts Ht Hf IH]; [reflexivity|].
  rewrite establishing_cons, IH. destruct t; tauto || reflexivity.
Qed.
Print Assumptions C53_created.

Example C53_case : exists s, steps false 1 sys_new s /\ existing s = 1%nat /\ held (s_tasks s) = [0%nat].
Proof.
  eexists. split; [eapply steps_trans; [apply two_requests_reached | apply second_waits]|]. split; reflexivity.
Qed.

(** C54: no connection is held twice or held while in the pool, and none has been discarded. *)
Theorem C54_one_owner : forall spurious N s, steps spurious N sys_new s ->
  NoDup (ap_queue (s_pool s) ++ held (s_tasks s)) /\ ap_discarded (s_pool s) = [].
Proof. intros sp N s H. destruct (steps_inv sp N s H) as (_ & _ & A & _ & B). auto. Qed.
Print Assumptions C54_one_owner.

(** Returning a connection puts it into the pool. *)
Theorem C54_returned : forall spurious N p l1 id l2, steps spurious N sys_new (mkSys p (l1 ++ Holding id :: l2)) ->
  let '(t, p') := drop_step N (Holding id) p in
  t = Gone /\ ap_queue p' = ap_queue p ++ [id].
Proof.
  intros sp N p l1 id l2 H. destruct (steps_inv sp N _ H) as (A & B & _). unfold existing in A. cbn [s_pool s_tasks] in *.
  rewrite held_app, held_cons, app_length in A. cbn [length] in A.
  cbn [drop_step]. unfold async_put, aq_push. destruct (Nat.ltb_spec (length (ap_queue p)) N); [|lia]. split; reflexivity.
Qed.
Print Assumptions C54_returned.

Example C54_case :
  drop_step 1 (Holding 0) (mkPool 1 [] [1%nat] 1 0 []) = (Gone, mkPool 1 [0%nat] [1%nat] 1 0 []).
Proof. reflexivity. Qed.

(** C55, what holds: a request that is polled while the pool has a connection gets one.  Missing:
    that it is polled (refuted below). *)
Theorem C55_polled_is_served_partial : forall N me seen att w p id q, ap_queue p = id :: q ->
  exists p', poll_step N me seen att (Idle w true) p = (Holding id, p').
Proof. intros N me seen att w p id q H. cbn [poll_step]. rewrite H. cbn. eexists. reflexivity. Qed.
Print Assumptions C55_polled_is_served_partial.

(** A task that waits is never woken, whatever happens, until it is dropped; and there is a run
    after which a task waits while a connection is idle in the pool. *)
Theorem C55_waiters_woken_refuted :
  (forall N s s' i, waiting s i -> steps false N s s' -> waiting s' i \/ dropped s' i) /\
  (exists s i, steps false 1 sys_new s /\ waiting s i /\ ap_queue (s_pool s) = [0%nat] /\ In i (ap_wakers (s_pool s)) /\
     forall s', steps false 1 s s' -> waiting s' i \/ dropped s' i).
Proof.
  split; [intros N s s' i W H; eapply steps_waiting; eauto|].
  exists (mkSys (mkPool 1 [0%nat] [1%nat] 1 0 []) [Gone; Idle true false]), 1%nat. splits.
  - eapply steps_trans; [apply two_requests_reached|]. eapply steps_cons; [apply second_waits|].
    apply (step_drop false 1 _ [] (Holding 0) [Idle true false]). reflexivity.
  - reflexivity.
  - reflexivity.
  - left. reflexivity.
  - intros s' H. eapply steps_waiting; eauto. reflexivity.
Qed.
Print Assumptions C55_waiters_woken_refuted.

Example C55_case : exists p, poll_step 1 1 0 APending (Idle true true) (mkPool 1 [0%nat] [1%nat] 1 0 []) = (Holding 0, p).
Proof. eexists. reflexivity. Qed.

(** C56, exactly: the count of connections is off by the number of failed and abandoned attempts,
    forever; a request that finds the pool empty may connect as long as both together stay below
    N.  Missing: attempts that fail (refuted below). *)
Theorem C56_accounting_partial : forall spurious N s, steps spurious N sys_new s ->
  (existing s + ap_lost (s_pool s) = ap_items (s_pool s))%nat /\ (ap_items (s_pool s) <= N)%nat /\
  (forall l1 w l2, s_tasks s = l1 ++ Idle w true :: l2 -> ap_queue (s_pool s) = [] ->
     (existing s + ap_lost (s_pool s) < N)%nat ->
     exists p', steps spurious N s (mkSys p' (l1 ++ Adding :: l2))) /\
  (forall s', steps spurious N s s' -> (existing s' + ap_lost (s_pool s) <= N)%nat).
Proof.
  intros sp N s H. destruct (steps_inv sp N s H) as (A & B & _). splits; auto.
  - intros l1 w l2 E Hq Hl. destruct s as [p ts]. cbn [s_pool s_tasks] in *. subst ts. apply can_start; [assumption | lia].
  - intros s' H'. pose proof (steps_lost _ _ _ _ H'). destruct (steps_inv sp N s' (steps_trans _ _ _ _ _ H H')) as (A' & B' & _). lia.
Qed.
Print Assumptions C56_accounting_partial.

(** After N failed attempts there are no connections and there never will be. *)
Theorem C56_failures_refuted : forall N, exists s,
  steps false N sys_new s /\ existing s = 0%nat /\
  forall spurious s', steps spurious N s s' -> existing s' = 0%nat.
Proof.
  intros N.
  assert (H : forall k, (k <= N)%nat -> exists ts, (forall sp, steps sp N sys_new (mkSys (mkPool k [] [] 0 k []) ts)) /\
            held ts = [] /\ establishing ts = 0%nat).
  { induction k as [|k IH]; intros Hk.
    - exists []. split; [intros; apply steps_nil | split; reflexivity].
    - destruct IH as (ts & H & Hh & He); [lia|]. exists (ts ++ [Failed]). split.
      + intros sp. eapply steps_trans; [apply H|]. set (p := mkPool k [] [] 0 k []).
        eapply steps_cons; [eapply steps_cons; [eapply steps_cons; [eapply steps_cons; [apply steps_one|]|]|]|].
        * apply step_get.
        * apply (step_poll sp N p ts (Idle false true) [] 0 APending (Popped false) p); [lia | reflexivity].
        * apply (step_poll sp N p ts (Popped false) [] k APending (Loaded false k) p); [cbn; lia | reflexivity].
        * apply (step_poll sp N p ts (Loaded false k) [] 0 APending Adding (mkPool (k + 1) [] [] 0 k [])); [lia|].
          cbn [poll_step ap_items p]. destruct (Nat.ltb_spec k N); [|lia]. now rewrite Nat.eqb_refl.
        * replace (S k) with (k + 1)%nat at 1 by lia.
          apply (step_poll sp N (mkPool (k + 1) [] [] 0 k []) ts Adding [] 0 AFailed Failed (mkPool (k + 1) [] [] 0 (S k) []));
            [lia | reflexivity].
      + rewrite held_app, establishing_app, Hh, He. split; reflexivity. }
  destruct (H N) as (ts & R & Hh & He); [lia|]. exists (mkSys (mkPool N [] [] 0 N []) ts). splits.
  - apply R.
  - unfold existing. cbn [s_pool s_tasks ap_queue]. now rewrite Hh, He.
  - intros sp s' H'. pose proof (steps_lost _ _ _ _ H') as L. cbn in L.
    destruct (steps_inv sp N s' (steps_trans _ _ _ _ _ (R sp) H')) as (A & B & _). lia.
Qed.
Print Assumptions C56_failures_refuted.

Example C56_case : exists s, steps false 1 sys_new s /\ s_tasks s = [Failed; Idle true false] /\ existing s = 0%nat.
Proof.
  exists (mkSys (mkPool 1 [] [1%nat] 0 1 []) [Failed; Idle true false]). split; [|split; reflexivity].
  eapply steps_trans; [apply two_requests_reached|].
  set (p := mkPool 1 [] [] 0 1 []). set (p' := mkPool 1 [] [1%nat] 0 1 []).
  eapply steps_trans with (b := mkSys p [Failed; Idle false true]).
  - eapply steps_cons; [eapply steps_cons; [eapply steps_cons; [apply steps_one|]|]|].
    + apply (step_poll false 1 pool_new [] (Idle false true) [Idle false true] 0 APending (Popped false) pool_new); [lia | reflexivity].
    + apply (step_poll false 1 pool_new [] (Popped false) [Idle false true] 0 APending (Loaded false 0) pool_new); [lia | reflexivity].
    + eapply (step_poll false 1 pool_new [] (Loaded false 0) [Idle false true] 0 APending); [lia | reflexivity].
    + eapply (step_poll false 1 _ [] Adding [Idle false true] 0 AFailed); [lia | reflexivity].
  - eapply steps_cons; [eapply steps_cons; [eapply steps_cons; [eapply steps_cons; [eapply steps_cons; [apply steps_one|]|]|]|]|].
    + apply (step_poll false 1 p [Failed] (Idle false true) [] 0 APending (Popped false) p); [cbn; lia | reflexivity].
    + apply (step_poll false 1 p [Failed] (Popped false) [] 1 APending (Loaded false 1) p); [cbn; lia | reflexivity].
    + apply (step_poll false 1 p [Failed] (Loaded false 1) [] 0 APending (Idle true true) p'); [cbn; lia | reflexivity].
    + apply (step_poll false 1 p' [Failed] (Idle true true) [] 0 APending (Popped true) p'); [cbn; lia | reflexivity].
    + apply (step_poll false 1 p' [Failed] (Popped true) [] 1 APending (Loaded true 1) p'); [cbn; lia | reflexivity].
    + apply (step_poll false 1 p' [Failed] (Loaded true 1) [] 0 APending (Idle true false) p'); [cbn; lia | reflexivity].
Qed.

(** C57: the result of a wrapped operation, in terms of the polls of the operation and the delay:
    if the operation is ready no later than the delay, its result; if the delay elapses first, a
    timeout, at that poll; otherwise pending. *)
Theorem C57_timeout : forall F D A (pf : F -> poll A * F) (pd : D -> poll unit * D) f d n,
  (forall a, ready_at pf f n a -> (forall m, (m < n)%nat -> nth_poll pd m d = Pending) ->
     ready_at (timeout_poll pf pd) (f, d) n (Ok a)) /\
  (pending_to pf f n -> ready_at pd d n tt -> ready_at (timeout_poll pf pd) (f, d) n (Err IoTimedOut)) /\
  (pending_to pf f n -> pending_to pd d n -> pending_to (timeout_poll pf pd) (f, d) n).
Proof.
  intros F D A pf pd f d n. splits.
  - intros a H1 H2. now apply timeout_ready.
  - intros H1 H2. now apply timeout_elapsed.
  - intros H1 H2 m Hm. unfold nth_poll. rewrite timeout_states; [reflexivity | |]; intros k Hk; [apply H1 | apply H2]; lia.
Qed.
Print Assumptions C57_timeout.

(** One poll: exactly what is returned, and the delay is not polled if the operation is ready. *)
Theorem C57_one_poll : forall F D A (pf : F -> poll A * F) (pd : D -> poll unit * D) f d,
  (forall a, fst (timeout_poll pf pd (f, d)) = Ready (Ok a) <-> fst (pf f) = Ready a) /\
  (forall e, fst (timeout_poll pf pd (f, d)) = Ready (Err e) <->
     e = IoTimedOut /\ fst (pf f) = Pending /\ fst (pd d) = Ready tt) /\
  (fst (timeout_poll pf pd (f, d)) = Pending <-> fst (pf f) = Pending /\ fst (pd d) = Pending) /\
  (forall a, fst (pf f) = Ready a -> snd (snd (timeout_poll pf pd (f, d))) = d).
Proof.
  intros F D A pf pd f d. unfold timeout_poll. destruct (pf f) as [[a|] f1], (pd d) as [[[]|] d1]; cbn;
    splits; intros; intuition congruence.
Qed.
Print Assumptions C57_one_poll.

(** An operation and a delay both ready at the third poll. *)
Example C57_case :
  let p := fun n : nat => if (n =? 2)%nat then (Ready tt, n) else (Pending, S n) in
  ready_at p 0%nat 2 tt /\ ready_at (timeout_poll p p) (0%nat, 0%nat) 2 (Ok tt) /\
  ready_at (timeout_poll (fun n : nat => (@Pending unit, n)) p) (0%nat, 0%nat) 2 (Err IoTimedOut).
Proof.
  cbn zeta. splits; (split; [reflexivity|]); intros m Hm; destruct m as [|[|m]]; try reflexivity; lia.
Qed.
