(** Proofs about the users of a pool of connections. *)
From Coq Require Import ZArith List Bool Arith Lia.
From Verif Require Import Base BaseFacts Types Framing Conn Spec_Conn Conn_proofs Fault_proofs Pool Spec_Pool Pool_proofs Shared Spec_Shared.
Import ListNotations.

Lemma run_uses_app2 : forall A (decode : list column -> bytes -> res error A) us vs c,
  run_uses decode (us ++ vs) c =
  (fst (run_uses decode us c) ++ fst (run_uses decode vs (snd (run_uses decode us c))),
   snd (run_uses decode vs (snd (run_uses decode us c)))).
Proof.
  intros. apply run_uses_app. destruct (run_uses decode us c); reflexivity.
Qed.

Lemma uses_on_exists : forall A k (l : list (event A)), exists r, uses_on k l r.
Proof.
  intros A k. induction l as [|e l (r & IH)]; [exists []; constructor|].
  destruct e as [t k' u y | k' b].
  - destruct (Nat.eq_dec k' k) as [->|N]; [exists ((u, y) :: r) | exists r]; constructor; assumption.
  - exists r. now constructor.
Qed.
Lemma uses_on_app_inv : forall A k (l l2 : list (event A)) r, uses_on k (l ++ l2) r ->
  exists r1 r2, r = r1 ++ r2 /\ uses_on k l r1 /\ uses_on k l2 r2.
Proof.
  induction l as [|e l IH]; cbn [app]; intros l2 r H.
  - exists [], r. repeat split; [constructor | assumption].
  - inversion H; subst.
    + destruct (IH _ _ H3) as (r1 & r2 & -> & A1 & A2). exists ((u, y) :: r1), r2. repeat split; [constructor; assumption | assumption].
    + destruct (IH _ _ H4) as (r1 & r2 & -> & A1 & A2). exists r1, r2. repeat split; [constructor; assumption | assumption].
    + destruct (IH _ _ H3) as (r1 & r2 & -> & A1 & A2). exists r1, r2. repeat split; [constructor; assumption | assumption].
Qed.

(** Every connection is in the state its own uses have led to. *)
Lemma shared_runs : forall A (decode : list column -> bytes -> res error A) N s0 l s,
  shared_steps decode N s0 l s -> no_arrival l ->
  steps true N (sh_sys s0) (sh_sys s) /\
  forall k r, uses_on k l r ->
    run_uses decode (map fst r) (sh_conns s0 k) = (map snd r, sh_conns s k).
Proof.
  intros A decode N s0 l s H. induction H as [s | s1 s2 s3 l e H IH St]; intros Na.
  - split; [constructor|]. intros k r U. inversion U; subst. reflexivity.
  - destruct IH as (I1 & I2). { intros k b Hin. apply (Na k b). apply in_or_app. auto. }
    inversion St; subst; cbn [sh_sys sh_conns] in *.
    + split; [eapply steps_cons; eassumption|]. rewrite app_nil_r. exact I2.
    + split; [exact I1|]. intros k' r U. apply uses_on_app_inv in U. destruct U as (r1 & r2 & -> & U1 & U2).
      rewrite !map_app, run_uses_app2, (I2 _ _ U1). cbn [fst snd]. unfold set_conn.
      inversion U2; subst.
      * lazymatch goal with X : uses_on _ [] _ |- _ => inversion X; subst end. rewrite Nat.eqb_refl. cbn [map fst snd run_uses]. rewrite H1. reflexivity.
      * lazymatch goal with X : uses_on _ [] _ |- _ => inversion X; subst end. destruct (Nat.eqb_spec k' k); [congruence|]. cbn [map fst snd run_uses]. reflexivity.
    + exfalso. apply (Na k b). apply in_or_app. right. now left.
Qed.

Lemma steps_task_holds : forall N s t k, steps true N sys_new s -> nth_error (s_tasks s) t = Some (Holding k) ->
  forall t', nth_error (s_tasks s) t' = Some (Holding k) -> t' = t.
Proof.
  intros N s t k H E t' E'. destruct (steps_inv true N s H) as (_ & _ & D & _ & _).
  assert (D2 : NoDup (held (s_tasks s))).
  { clear -D. induction (ap_queue (s_pool s)); cbn in *; [assumption|]. inversion D; auto. }
  clear - D2 E E'. revert t t' E E' D2. induction (s_tasks s) as [|a l IH]; intros [|t] [|t'] E E' D2; try discriminate; auto.
  - exfalso. cbn in E, E'. injection E as ->. rewrite held_cons in D2. cbn in D2. inversion D2; subst. apply H1.
    clear -E'. revert t' E'. induction l as [|b l IH]; intros [|t'] E; try discriminate; cbn in E.
    + injection E as ->. rewrite held_cons. now left.
    + rewrite held_cons. destruct b; try right; eauto.
  - exfalso. cbn in E, E'. injection E' as ->. rewrite held_cons in D2. cbn in D2. inversion D2; subst. apply H1.
    clear -E. revert t E. induction l as [|b l IH]; intros [|t'] E; try discriminate; cbn in E.
    + injection E as ->. rewrite held_cons. now left.
    + rewrite held_cons. destruct b; try right; eauto.
  - f_equal. rewrite held_cons in D2. apply (IH t t'); auto.
    clear -D2. destruct a; cbn in D2; try assumption. inversion D2; assumption.
Qed.

Lemma run_uses_prefix : forall A (decode : list column -> bytes -> res error A) us vs c xs c',
  run_uses decode (us ++ vs) c = (xs, c') -> fst (run_uses decode us c) = firstn (length us) xs.
Proof.
  intros A decode us vs c xs c' H. rewrite run_uses_app2 in H. injection H as <- _.
  assert (L : length (fst (run_uses decode us c)) = length us).
  { clear. revert c. induction us as [|u us IH]; intros c; cbn [run_uses]; [reflexivity|].
    destruct (run_use decode u c) as [x c1]. specialize (IH c1). destruct (run_uses decode us c1) as [xs c2].
    cbn in *. now rewrite IH. }
  rewrite <- L, firstn_app, Nat.sub_diag, firstn_all. cbn. now rewrite app_nil_r.
Qed.
