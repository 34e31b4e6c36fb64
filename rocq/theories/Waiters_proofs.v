(** Proofs about requests that wait for a connection (C117). *)
From Coq Require Import ZArith List Bool Arith Lia.
From Verif Require Import Base BaseFacts Types Pool Spec_Pool Pool_proofs.
Import ListNotations.

Definition exchanged (N : nat) (log : list (nat * nat)) : nat := length (filter (fun e => fst e <? N)%nat log).
Definition exhausted (N : nat) (log : list (nat * nat)) : nat := length (filter (fun e => negb (fst e <? N))%nat log).

Lemma log_split : forall N log, length log = (exchanged N log + exhausted N log)%nat.
Proof.
  unfold exchanged, exhausted. induction log as [|e r IH]; [reflexivity|]. cbn [filter length].
  destruct (fst e <? N)%nat; cbn [negb length]; lia.
Qed.

Lemma coherent_app : forall log e, coherent (log ++ [e]) ->
  coherent log /\ forall r d, log = r ++ [d] -> (snd d <= fst e)%nat.
Proof.
  induction log as [|[l v] r IH]; intros e H.
  - split; [exact I|]. intros r d E. destruct r; discriminate.
  - destruct r as [|[l' v'] r].
    + cbn in H. destruct e as [le ve]. split; [exact I|]. intros r d E. destruct r as [|x r].
      * injection E as <-. cbn. tauto.
      * exfalso. injection E as _ E. destruct r; discriminate.
    + change (((l, v) :: (l', v') :: r) ++ [e]) with ((l, v) :: (((l', v') :: r) ++ [e])) in H.
      cbn [app coherent] in H. destruct H as [H1 H2]. change ((l', v') :: r ++ [e]) with (((l', v') :: r) ++ [e]) in H2.
      destruct (IH e H2) as [A B]. split; [cbn [coherent]; split; assumption|].
      intros r0 d E. destruct r0 as [|x r0]; [discriminate|]. injection E as _ E. eapply B; exact E.
Qed.

Lemma exchanged_bound : forall N log,
  Forall (fun e => (fst e <= snd e)%nat /\ (snd e <= N)%nat /\ ((fst e < N)%nat -> (fst e < snd e)%nat)) log ->
  coherent log -> (exchanged N log <= N)%nat /\ (forall r d, log = r ++ [d] -> (exchanged N log <= snd d)%nat).
Proof.
  intros N log. induction log as [|e r IH] using rev_ind; intros F C.
  - split; [cbn; lia|]. intros r d E. destruct r; discriminate.
  - apply Forall_app in F. destruct F as [F Fe]. inversion Fe as [|? ? (E1 & E2 & E3) _]; subst.
    destruct (coherent_app r e C) as [C1 C2]. destruct (IH F C1) as [B1 B2].
    assert (X : (exchanged N (r ++ [e]) <= snd e)%nat).
    { unfold exchanged in *. rewrite filter_app, app_length. cbn [filter].
      assert (K : (length (filter (fun e => fst e <? N)%nat r) <= fst e)%nat).
      { destruct r as [|y r1]; [cbn; lia|]. destruct (exists_last (l := y :: r1)) as (r0 & x & Er); [discriminate|].
        specialize (C2 r0 x Er). specialize (B2 r0 x Er). lia. }
      destruct (Nat.ltb_spec (fst e) N); cbn [length]; [specialize (E3 H); lia | lia]. }
    split; [lia|]. intros r0 d E. apply app_inj_tail in E. destruct E as [_ <-]. exact X.
Qed.

(** What a request loads is not more than what is there, and only grows. *)
Definition loads_ok (s : sys) : Prop :=
  Forall (fun t => match t with Loaded _ n => (n <= ap_items (s_pool s))%nat | _ => True end) (s_tasks s).

Lemma poll_items : forall N me seen att t p t' p', poll_step N me seen att t p = (t', p') -> (ap_items p <= ap_items p')%nat.
Proof.
  intros N me seen att t p t' p' E. destruct t as [w [|]|w|w n| |id| |]; cbn [poll_step] in E; try (injection E as <- <-; lia).
  - unfold aq_pop in E. destruct (ap_queue p); injection E as <- <-; cbn; lia.
  - destruct (n <? N)%nat; [destruct (Nat.eqb_spec (ap_items p) n) | destruct w]; injection E as <- <-; cbn; lia.
  - destruct att; injection E as <- <-; cbn; lia.
Qed.
Lemma drop_items : forall N t p t' p', drop_step N t p = (t', p') -> ap_items p' = ap_items p.
Proof.
  intros N t p t' p' E. destruct t as [w k|w|w n| |id| |]; cbn [drop_step] in E; try (injection E as <- <-; reflexivity).
  unfold async_put in E. destruct (aq_push _ _ _). injection E as <- <-. reflexivity.
Qed.

Lemma loads_mono : forall p p' ts, (ap_items p <= ap_items p')%nat -> loads_ok (mkSys p ts) -> loads_ok (mkSys p' ts).
Proof.
  unfold loads_ok. intros p p' ts H F. cbn [s_pool s_tasks] in *. eapply Forall_impl; [|exact F].
  intros [] A; auto; lia.
Qed.
Lemma loads_mid : forall p l1 t t' l2, loads_ok (mkSys p (l1 ++ t :: l2)) ->
  match t' with Loaded _ n => (n <= ap_items p)%nat | _ => True end -> loads_ok (mkSys p (l1 ++ t' :: l2)).
Proof.
  unfold loads_ok. intros p l1 t t' l2 F H. cbn [s_pool s_tasks] in *. rewrite Forall_app in *. destruct F as [F1 F2].
  inversion F2; subst. split; [assumption|]. constructor; assumption.
Qed.

Lemma step_loads : forall sp N s s', loads_ok s -> step sp N s s' -> loads_ok s'.
Proof.
  intros sp N s s' F H. destruct H as [p ts | p l1 t l2 seen att t' p' Hle E | p l1 t l2 t' p' E | p l1 w l2 X].
  - unfold loads_ok in *. cbn [s_pool s_tasks] in *. apply Forall_app. split; [assumption|]. repeat constructor.
  - pose proof (poll_items _ _ _ _ _ _ _ _ E) as M. eapply loads_mono; [exact M|]. eapply loads_mid; [exact F|].
    destruct t as [w [|]|w|w n| |id| |]; cbn [poll_step] in E; try (injection E as <- <-; auto; fail).
    + unfold aq_pop in E. destruct (ap_queue p); injection E as <- <-; exact I.
    + destruct (n <? N)%nat; [destruct (ap_items p =? n)%nat | destruct w]; injection E as <- <-; exact I.
    + destruct att; injection E as <- <-; exact I.
  - apply loads_mono with (p := p); [rewrite (drop_items _ _ _ _ _ E); apply le_n|]. eapply loads_mid; [exact F|].
    destruct t as [w k|w|w n| |id| |]; cbn [drop_step] in E; try (injection E as <- <-; exact I).
    + unfold loads_ok in F. cbn [s_pool s_tasks] in F. rewrite Forall_app in F. destruct F as [_ F]. inversion F; subst.
      injection E as <- <-. assumption.
  - eapply loads_mid; [exact F | exact I].
Qed.

(** Requests that have not stored their waker. *)
Definition unflagged (t : option task) : Prop :=
  match t with
  | None | Some (Idle false _) | Some (Popped false) | Some (Loaded false _) => True
  | _ => False
  end.

Lemma nth_self : forall T (l1 : list T) t l2, nth_error (l1 ++ t :: l2) (length l1) = Some t.
Proof. intros. rewrite nth_error_app2 by lia. rewrite Nat.sub_diag. reflexivity. Qed.
Lemma nth_other : forall T (l1 : list T) t t' l2 i, i <> length l1 -> nth_error (l1 ++ t' :: l2) i = nth_error (l1 ++ t :: l2) i.
Proof.
  induction l1 as [|y l1 IH]; intros t t' l2 i H; destruct i as [|i]; cbn in *; auto; try congruence; apply IH; lia.
Qed.

Lemma nodup_snoc : forall T (l : list T) x, NoDup l -> ~ In x l -> NoDup (l ++ [x]).
Proof. intros T l x H1 H2. apply NoDup_Add with (a := x) (l := l); [|split; assumption]. rewrite <- (app_nil_r l) at 1. apply Add_app. Qed.

Definition wakers_ok (s : sys) : Prop :=
  NoDup (ap_wakers (s_pool s)) /\
  Forall (fun i => (i < length (s_tasks s))%nat /\ ~ unflagged (nth_error (s_tasks s) i)) (ap_wakers (s_pool s)).

Ltac plain_step := splits; [cbn; tauto | left; reflexivity | try (intros ? ? ? ? ?; discriminate)].

(** What one step does to a task and to the stored wakers. *)
Lemma step_change : forall sp N s s', step sp N s s' ->
  (exists t, s_tasks s' = s_tasks s ++ [t] /\ t = Idle false true /\ s_pool s' = s_pool s) \/
  (exists l1 t t' l2, s_tasks s = l1 ++ t :: l2 /\ s_tasks s' = l1 ++ t' :: l2 /\
     (unflagged (Some t') -> unflagged (Some t)) /\
     (ap_wakers (s_pool s') = ap_wakers (s_pool s) \/
      (unflagged (Some t) /\ ~ unflagged (Some t') /\ ap_wakers (s_pool s') = ap_wakers (s_pool s) ++ [length l1])) /\
     (forall w n w', t = Loaded w n -> t' = Idle w' true ->
        ((n < N)%nat /\ n <> ap_items (s_pool s)) \/
        ((N <= n)%nat /\ unflagged (Some t) /\ ~ unflagged (Some t')))).
Proof.
  intros sp N s s' H. destruct H as [p ts | p l1 t l2 seen att t' p' Hle E | p l1 t l2 t' p' E | p l1 w l2 X]; cbn [s_pool s_tasks].
  - left. eexists. splits; reflexivity.
  - right. exists l1, t, t', l2. split; [reflexivity|]. split; [reflexivity|].
    destruct t as [w [|]|w|w n| |id| |]; cbn [poll_step] in E.
    + unfold aq_pop in E. destruct (ap_queue p); injection E as <- <-; plain_step.
    + injection E as <- <-. plain_step.
    + injection E as <- <-. plain_step.
    + destruct (Nat.ltb_spec n N); [destruct (Nat.eqb_spec (ap_items p) n) | destruct w]; injection E as <- <-; cbn [ap_wakers ap_items].
      * plain_step.
      * plain_step. intros w0 m0 w' Et _. injection Et as -> ->. left. split; [assumption | congruence].
      * plain_step.
      * splits; [cbn; tauto | right; cbn; auto |]. intros w0 m0 w' Et _. injection Et as <- <-. right. cbn. auto.
    + destruct att; injection E as <- <-; plain_step.
    + injection E as <- <-. plain_step.
    + injection E as <- <-. plain_step.
    + injection E as <- <-. plain_step.
  - right. exists l1, t, t', l2. split; [reflexivity|]. split; [reflexivity|].
    destruct t as [w k|w|w n| |id| |]; cbn [drop_step] in E.
    all: try (injection E as <- <-; plain_step; fail).
    unfold async_put in E. destruct (aq_push _ _ _). injection E as <- <-. plain_step.
  - right. exists l1, (Idle w false), (Idle w true), l2. split; [reflexivity|]. split; [reflexivity|]. plain_step.
Qed.

Lemma step_wakers : forall sp N s s', wakers_ok s -> step sp N s s' -> wakers_ok s'.
Proof.
  intros sp N s s' [A B] H. unfold wakers_ok.
  destruct (step_change _ _ _ _ H) as [(t & E1 & -> & E2) | (l1 & t & t' & l2 & E1 & E2 & U & W & _)].
  - rewrite E1, E2. split; [assumption|]. eapply Forall_impl; [|exact B]. intros i (Hi & Hu). cbn beta.
    rewrite app_length. split; [cbn; lia|]. rewrite nth_error_app1 by assumption. assumption.
  - rewrite E1 in B. rewrite E2.
    assert (K : Forall (fun i => (i < length (l1 ++ t' :: l2))%nat /\ ~ unflagged (nth_error (l1 ++ t' :: l2) i)) (ap_wakers (s_pool s))).
    { eapply Forall_impl; [|exact B]. intros i (Hi & Hu). cbn beta. rewrite app_length in *. cbn [length] in *. split; [assumption|].
      destruct (Nat.eq_dec i (length l1)) as [->|Hn].
      - rewrite nth_self in *. tauto.
      - rewrite (nth_other _ l1 t t'); assumption. }
    destruct W as [-> | (W1 & W2 & ->)]; [split; assumption|]. split.
    + apply nodup_snoc; [assumption|]. intros X. rewrite Forall_forall in B. destruct (B _ X) as [_ Y]. rewrite nth_self in Y. tauto.
    + apply Forall_app. split; [assumption|]. constructor; [|constructor]. rewrite nth_self, app_length. cbn. split; [lia | assumption].
Qed.

Lemma steps_wakers : forall sp N s, steps sp N sys_new s -> wakers_ok s.
Proof.
  intros sp N s H. remember sys_new as s0. induction H as [s|s1 s2 s3 H IH Hs]; subst.
  - split; constructor.
  - eapply step_wakers; eauto.
Qed.

Lemma steps_keep : forall sp N s s', steps sp N s s' -> exists more, ap_wakers (s_pool s') = ap_wakers (s_pool s) ++ more.
Proof.
  intros sp N s s' H. induction H as [s|s1 s2 s3 H IH Hs]; [exists []; now rewrite app_nil_r|].
  destruct IH as (m & IH).
  destruct (step_change _ _ _ _ Hs) as [(t & _ & _ & E) | (l1 & t & t' & l2 & _ & _ & _ & [E | (_ & _ & E)] & _)];
    rewrite E, IH; [eauto | eauto |]. exists (m ++ [length l1]). now rewrite app_assoc.
Qed.

(** ** How often a request wakes itself *)

Lemma watched_next : forall sp N i s1 log s2 log' s3, watched sp N i s1 log s2 -> step sp N s2 s3 ->
  log' = log ++ woke_itself i s2 s3 -> watched sp N i s1 log' s3.
Proof. intros sp N i s1 log s2 log' s3 H1 H2 ->. eapply watched_step; eassumption. Qed.

Lemma watched_steps : forall sp N i s log s', watched sp N i s log s' -> steps sp N s s'.
Proof. intros sp N i s log s' H. induction H; [apply steps_nil | eapply steps_cons; eassumption]. Qed.

Lemma woke_spec : forall sp N i s s', step sp N s s' -> loads_ok s -> (ap_items (s_pool s) <= N)%nat ->
  let new := woke_itself i s s' in
  Forall (fun e => (fst e <= snd e)%nat /\ (snd e <= N)%nat /\ ((fst e < N)%nat -> (fst e < snd e)%nat)) new /\
  (exhausted N new = 0%nat \/
   (exhausted N new = 1%nat /\ unflagged (nth_error (s_tasks s) i) /\ ~ unflagged (nth_error (s_tasks s') i))) /\
  (unflagged (nth_error (s_tasks s') i) -> unflagged (nth_error (s_tasks s) i)).
Proof.
  intros sp N i s s' H L I. cbv zeta. unfold woke_itself.
  destruct (step_change _ _ _ _ H) as [(t & E1 & -> & E2) | (l1 & t & t' & l2 & E1 & E2 & U & _ & V)].
  - rewrite E1. destruct (Nat.lt_ge_cases i (length (s_tasks s))) as [Hi|Hi].
    + rewrite nth_error_app1 by assumption. destruct (nth_error (s_tasks s) i) as [[]|]; cbn; splits; auto.
    + rewrite (proj2 (nth_error_None _ _) Hi). splits; cbn; auto.
  - rewrite E1, E2. destruct (Nat.eq_dec i (length l1)) as [->|Hn].
    + rewrite !nth_self. unfold loads_ok in L. rewrite E1, Forall_app in L. destruct L as [_ L]. inversion L as [|? ? L1 _]; subst.
      destruct t as [w k|w|w n| |id| |]; try (splits; [constructor | left; reflexivity | assumption]; fail).
      destruct t' as [w' [|]|w'|w' n'| |id'| |]; try (splits; [constructor | left; reflexivity | assumption]; fail).
      destruct (V w n w' eq_refl eq_refl) as [(V1 & V2) | (V1 & V2 & V3)].
      * splits; [| |assumption].
        -- constructor; [cbn; lia | constructor].
        -- left. unfold exhausted. cbn [filter fst]. destruct (Nat.ltb_spec n N); [reflexivity | lia].
      * splits; [| |assumption].
        -- constructor; [cbn; lia | constructor].
        -- right. unfold exhausted. cbn [filter fst]. destruct (Nat.ltb_spec n N); [lia|]. splits; auto.
    + rewrite (nth_other _ l1 t t') by assumption. destruct (nth_error (l1 ++ t :: l2) i) as [[w k|w|w n| |id| |]|]; cbn; splits; auto.
Qed.

Lemma watched_log : forall sp N i log s, watched sp N i sys_new log s ->
  loads_ok s /\
  Forall (fun e => (fst e <= snd e)%nat /\ (snd e <= N)%nat /\ ((fst e < N)%nat -> (fst e < snd e)%nat)) log /\
  (exhausted N log <= 1)%nat /\ (unflagged (nth_error (s_tasks s) i) -> exhausted N log = 0%nat).
Proof.
  intros sp N i log s H. remember sys_new as s0. induction H as [s|s1 log s2 s3 H IH Hs]; subst.
  - splits; [constructor | constructor | cbn; lia | reflexivity].
  - destruct (IH eq_refl) as (L & F & X & Y).
    destruct (steps_inv _ _ _ (watched_steps _ _ _ _ _ _ H)) as (_ & I & _).
    destruct (woke_spec _ _ i _ _ Hs L I) as (A & B & C). cbv zeta in *.
    assert (S : exhausted N (log ++ woke_itself i s2 s3) = (exhausted N log + exhausted N (woke_itself i s2 s3))%nat)
      by (unfold exhausted; now rewrite filter_app, app_length).
    splits.
    + eapply step_loads; eauto.
    + apply Forall_app. split; assumption.
    + rewrite S. destruct B as [B | (B & B1 & B2)]; [lia|]. rewrite (Y B1). lia.
    + intros U. rewrite S. destruct B as [B | (B & B1 & B2)]; [|tauto]. rewrite (Y (C U)). lia.
Qed.
