(** The conditions of the unsafe blocks: C81. *)
From Coq Require Import String ZArith List Bool Lia.
From Verif Require Import Base BaseFacts Types Utf8 ParseBuf Packets Spec_Conv Spec_Packets ParseBuf_proofs Packets_proofs Pool.
Import ListNotations.
Open Scope Z_scope.

(** ** C81: unsafe blocks *)

(** The state that is given out as a [&str] without a check is five bytes of valid UTF-8. *)
Theorem C81_state_text : forall packet caps code s message, bytes_ok packet ->
  read_err packet caps = Ok (ErrError code (Some s) message) ->
  length s = 5%nat /\ exists t, utf8_text t s.
Proof.
  intros packet caps code s message Hb H. apply read_err_inv in H; [|exact Hb].
  inversion H as [? ? t ? ? ? ? ? L T ? | |]; subst. eauto.
Qed.
Print Assumptions C81_state_text.

(** The slices that are read as arrays of [n] bytes have exactly [n] bytes, the next ones of the
    packet; without that many the reading panics or fails before. *)
Theorem C81_arrays : forall n packet x rest, 0 <= n ->
  eat n packet = (Ok x, rest) \/ checked_eat n packet = (Ok x, rest) ->
  packet = x ++ rest /\ Z.of_nat (length x) = n.
Proof. intros n packet x rest Hn [H|H]; [apply eat_inv in H|apply checked_eat_inv in H]; assumption. Qed.
Print Assumptions C81_arrays.

(** A guard of a pooled connection stays the guard of that connection until it is dropped; that takes
    the connection out once, and nothing ever happens to the guard again. *)
Lemma guard_step : forall spurious N s s' t, step spurious N s s' ->
  (forall id, nth_error (s_tasks s) t = Some (Holding id) ->
     nth_error (s_tasks s') t = Some (Holding id) \/
     nth_error (s_tasks s') t = Some Gone /\ s_pool s' = async_put N id (s_pool s)) /\
  (nth_error (s_tasks s) t = Some Gone -> nth_error (s_tasks s') t = Some Gone).
Proof.
  assert (R : forall (l1 l2 : list task) x y t, t <> length l1 -> nth_error (l1 ++ x :: l2) t = nth_error (l1 ++ y :: l2) t).
  { induction l1 as [|z l1 IH]; intros l2 x y [|t] H; cbn in *; try congruence; auto. }
  assert (M : forall (l1 l2 : list task) x, nth_error (l1 ++ x :: l2) (length l1) = Some x) by (induction l1; cbn; auto).
  intros spurious N s s' t H. inversion H as [p ts|p l1 x l2 seen att x' p' _ E|p l1 x l2 x' p' E|p l1 w l2 _]; subst; cbn [s_tasks s_pool].
  - assert (K : forall y, nth_error ts t = Some y -> nth_error (ts ++ [task_new]) t = Some y).
    { intros y Hy. rewrite nth_error_app1; [exact Hy|]. apply nth_error_Some. congruence. }
    split; [intros id Hy; left | intros Hy]; now apply K.
  - destruct (Nat.eq_dec t (length l1)) as [->|Nt]; [|rewrite (R l1 l2 x x' t Nt); split; auto].
    rewrite !M. split; [intros id [= ->]|intros [= ->]]; cbn in E; injection E as <- <-; auto.
  - destruct (Nat.eq_dec t (length l1)) as [->|Nt]; [|rewrite (R l1 l2 x x' t Nt); split; auto].
    rewrite !M. split; [intros id [= ->]|intros [= ->]]; cbn in E; injection E as <- <-; auto.
  - destruct (Nat.eq_dec t (length l1)) as [->|Nt]; [|rewrite (R l1 l2 (Idle w false) (Idle w true) t Nt); split; auto].
    rewrite !M. split; [intros id|]; discriminate.
Qed.

Theorem C81_taken_once : forall spurious N s s' t, steps spurious N s s' ->
  (forall id, nth_error (s_tasks s) t = Some (Holding id) ->
     nth_error (s_tasks s') t = Some (Holding id) \/
     nth_error (s_tasks s') t = Some Gone /\
     exists s1 s2, steps spurious N s s1 /\ step spurious N s1 s2 /\ steps spurious N s2 s' /\
       nth_error (s_tasks s1) t = Some (Holding id) /\ nth_error (s_tasks s2) t = Some Gone /\
       s_pool s2 = async_put N id (s_pool s1)) /\
  (nth_error (s_tasks s) t = Some Gone -> nth_error (s_tasks s') t = Some Gone) /\
  (forall p, drop_step N Gone p = (Gone, p) /\ forall id, drop_step N (Holding id) p = (Gone, async_put N id p)).
Proof.
  intros spurious N s s' t H. induction H as [s|s1 s2 s3 H IH S]; [splits; auto; intros p; split; reflexivity|].
  destruct IH as (IHh & IHg & _). destruct (guard_step spurious N s2 s3 t S) as (Sh & Sg). splits; auto.
  intros id Hi. destruct (IHh id Hi) as [K|(K & x & y & A & B & C & D)].
  - destruct (Sh id K) as [K'|(K' & P)]; auto. right. split; [exact K'|].
    exists s2, s3. splits; auto. constructor.
  - right. split; [auto|]. exists x, y. splits; auto; try tauto. eapply steps_cons; eauto.
Qed.
Print Assumptions C81_taken_once.

(** A buffer that is dropped is gone from those in use and was put into its pool once, if there is room. *)
Theorem C81_buffer_taken_once : forall ctx cap q before b after,
  sync_step ctx cap (SGive (length before)) (mkSync q (before ++ b :: after)) =
  (mkSync (if (length q <? cap)%nat then q ++ [buffer_reset ctx b] else q) (before ++ after), None).
Proof.
  intros ctx cap q before b after. cbn [sync_step sp_out sp_queue].
  replace (nth_error (before ++ b :: after) (length before)) with (Some b) by (induction before; cbn; auto).
  replace (remove_at (before ++ b :: after) (length before)) with (before ++ after) by (induction before; cbn; congruence).
  unfold sync_put, aq_push. destruct (length q <? cap)%nat; reflexivity.
Qed.
Print Assumptions C81_buffer_taken_once.

Example C81_case :
  read_err ([255; 21; 4; 35] ++ s2l "28000" ++ s2l "no") 0x200 = Ok (ErrError 1045 (Some (s2l "28000")) (s2l "no")) /\
  read_err ([255; 21; 4; 35] ++ [50; 56; 48; 255; 48] ++ s2l "no") 0x200 = Err (PParse EUtf8) /\
  eat 2 [1; 2; 3] = (Ok [1; 2], [3]) /\ checked_eat 4 [1; 2; 3] = (Err peof, [1; 2; 3]).
Proof. vm_compute. auto. Qed.

(** A guard that is dropped: the connection is in the pool, and dropping again does nothing. *)
Example C81_guard_case :
  let p := mkPool 1 [] [] 1 0 [] in
  step false 1 (mkSys p [Holding 0]) (mkSys (mkPool 1 [0%nat] [] 1 0 []) [Gone]) /\
  drop_step 1 Gone p = (Gone, p) /\
  sync_step (mkCtx 10 5) 2 (SGive 1) (mkSync [] [mkBuffer [1] 5; mkBuffer [2] 5; mkBuffer [3] 5]) =
  (mkSync [mkBuffer [] 5] [mkBuffer [1] 5; mkBuffer [3] 5], None).
Proof. cbn zeta. splits; try reflexivity. apply (step_drop false 1 _ [] (Holding 0) [] Gone). reflexivity. Qed.
