(** Lemmas about the pools and timeouts. *)
From Coq Require Import ZArith List Bool Arith Lia Permutation.
From Verif Require Import Base BaseFacts Types Pool Spec_Pool.
Import ListNotations.

(** ** SyncPool *)

Definition sync_inv (ctx : pool_ctx) (cap : nat) (s : sync_state) : Prop :=
  (length (sp_queue s) <= cap)%nat /\ Forall (fun b => b_data b = [] /\ (b_cap b <= size_cap ctx)%Z) (sp_queue s).

Lemma reset_ok : forall ctx b, (0 <= size_cap ctx)%Z ->
  b_data (buffer_reset ctx b) = [] /\ (b_cap (buffer_reset ctx b) <= size_cap ctx)%Z.
Proof.
  intros ctx b H. unfold buffer_reset, shrink_to. cbn [b_cap b_data].
  destruct (Z.gtb_spec (b_cap b) (size_cap ctx)); cbn [b_cap b_data]; split; try reflexivity; rewrite ?lenZ_nil; lia.
Qed.

Lemma push_len : forall T cap (q : list T) x, (length q <= cap)%nat -> (length (fst (aq_push cap q x)) <= cap)%nat.
Proof.
  intros T cap q x H. unfold aq_push. destruct (Nat.ltb_spec (length q) cap); cbn [fst]; [rewrite app_length; cbn; lia | assumption].
Qed.
Lemma push_forall : forall T (P : T -> Prop) cap q x, Forall P q -> P x -> Forall P (fst (aq_push cap q x)).
Proof.
  intros T P cap q x H Hx. unfold aq_push. destruct (_ <? _)%nat; cbn [fst]; [|assumption].
  apply Forall_app. auto.
Qed.

Lemma sync_step_inv : forall ctx cap o s, (0 <= size_cap ctx)%Z -> sync_inv ctx cap s -> sync_inv ctx cap (fst (sync_step ctx cap o s)).
Proof.
  intros ctx cap o [q out] Hc (Hl & Hq). cbn [sp_queue] in *. destruct o as [extra|i b|i]; cbn [sync_step sp_queue sp_out].
  - unfold sync_get, aq_pop. destruct q as [|b q]; split; cbn [fst sp_queue]; auto. { cbn in Hl. lia. } now inversion Hq.
  - split; assumption.
  - destruct (nth_error out i) as [b|]; [|split; assumption]. cbn [fst]. unfold sync_put. split; cbn [sp_queue].
    + now apply push_len.
    + apply push_forall; [assumption|]. now apply reset_ok.
Qed.

Fixpoint sync_run (ctx : pool_ctx) (cap : nat) (os : list sync_op) (s : sync_state) : sync_state * list buffer :=
  match os with
  | [] => (s, [])
  | o :: r =>
    let '(s1, b) := sync_step ctx cap o s in
    let '(s2, bs) := sync_run ctx cap r s1 in
    (s2, match b with Some x => x :: bs | None => bs end)
  end.

Lemma sync_run_inv : forall ctx cap os s, (0 <= size_cap ctx)%Z -> sync_inv ctx cap s ->
  sync_inv ctx cap (fst (sync_run ctx cap os s)) /\ Forall (fun b => b_data b = []) (snd (sync_run ctx cap os s)).
Proof.
  intros ctx cap os. induction os as [|o os IH]; intros s Hc Hs; [split; [assumption | constructor]|].
  cbn [sync_run]. pose proof (sync_step_inv ctx cap o s Hc Hs) as H1. destruct (sync_step ctx cap o s) as [s1 b] eqn:E. cbn [fst] in H1.
  destruct (IH s1 Hc H1) as (H2 & H3). destruct (sync_run ctx cap os s1) as [s2 bs]. cbn [fst snd] in *. split; [assumption|].
  destruct b as [b|]; [|assumption]. constructor; [|assumption].
  destruct o as [extra|i x|i]; cbn [sync_step] in E; try discriminate.
  - unfold sync_get, aq_pop in E. destruct Hs as (_ & Hq). destruct (sp_queue s) as [|y q]; injection E as <- <-; [reflexivity|].
    now inversion Hq.
  - destruct (nth_error (sp_out s) i); discriminate.
Qed.

(** ** AsyncPool *)

Lemma held_app : forall a b, held (a ++ b) = held a ++ held b.
Proof. intros. unfold held. apply flat_map_app. Qed.
Lemma establishing_app : forall a b, establishing (a ++ b) = (establishing a + establishing b)%nat.
Proof. intros. unfold establishing. now rewrite filter_app, app_length. Qed.
Lemma held_cons : forall t l, held (t :: l) = match t with Holding id => id :: held l | _ => held l end.
Proof. intros [] l; reflexivity. Qed.
Lemma establishing_cons : forall t l, establishing (t :: l) = (match t with Adding => 1 | _ => 0 end + establishing l)%nat.
Proof. intros [] l; reflexivity. Qed.

Definition pool_inv (N : nat) (s : sys) : Prop :=
  let p := s_pool s in
  ap_items p = (existing s + ap_lost p)%nat /\ (ap_items p <= N)%nat /\
  NoDup (ap_queue p ++ held (s_tasks s)) /\ Forall (fun id => (id < ap_fresh p)%nat) (ap_queue p ++ held (s_tasks s)) /\
  ap_discarded p = [].

Lemma step_inv : forall sp N s s', pool_inv N s -> step sp N s s' -> pool_inv N s'.
Proof.
  intros sp N s s' (I1 & I2 & I3 & I4 & I5) H. unfold existing in *.
  destruct H as [p ts | p l1 t l2 seen att t' p' Hle E | p l1 t l2 t' p' E | p l1 w l2 _]; cbn [s_pool s_tasks] in *.
  - unfold pool_inv, existing. cbn [s_pool s_tasks]. rewrite held_app, establishing_app. cbn [held task_new flat_map app].
    rewrite app_nil_r. change (establishing [Idle false true]) with 0%nat. rewrite Nat.add_0_r. auto.
  - unfold pool_inv, existing. cbn [s_pool s_tasks]. rewrite !held_app, !establishing_app, !held_cons, !establishing_cons, !app_length in *.
    destruct t as [w [|]|w|w n| |id| |]; cbn [poll_step] in E.
    + unfold aq_pop in E. destruct (ap_queue p) as [|id q] eqn:Eq; injection E as <- <-; cbn [ap_items ap_queue ap_fresh ap_lost ap_discarded].
      * rewrite Eq. auto.
      * cbn [length app] in *. splits; auto; try lia.
        -- apply (Permutation_NoDup (l := id :: q ++ held l1 ++ held l2)); [|assumption].
           rewrite !app_assoc. apply Permutation_middle.
        -- apply (Permutation_Forall (x := id :: q ++ held l1 ++ held l2)); [|assumption].
           rewrite !app_assoc. apply Permutation_middle.
    + injection E as <- <-. auto.
    + injection E as <- <-. auto.
    + destruct (Nat.ltb_spec n N).
      * destruct (Nat.eqb_spec (ap_items p) n); injection E as <- <-; auto.
        cbn [ap_items ap_queue ap_fresh ap_lost ap_discarded]. splits; auto; lia.
      * destruct w; injection E as <- <-; auto.
    + destruct att; injection E as <- <-; cbn [ap_items ap_queue ap_fresh ap_lost ap_discarded]; auto.
      * cbn [length]. splits; auto; try lia.
        -- apply (Permutation_NoDup (l := ap_fresh p :: ap_queue p ++ held l1 ++ held l2)).
           ++ rewrite !app_assoc. apply Permutation_middle.
           ++ constructor; [|assumption]. intros Hin. rewrite Forall_forall in I4. specialize (I4 _ Hin). lia.
        -- apply (Permutation_Forall (x := ap_fresh p :: ap_queue p ++ held l1 ++ held l2)).
           ++ rewrite !app_assoc. apply Permutation_middle.
           ++ constructor; [lia|]. eapply Forall_impl; [|exact I4]. cbn. lia.
      * splits; auto; lia.
    + injection E as <- <-. auto.
    + injection E as <- <-. auto.
    + injection E as <- <-. auto.
  - unfold pool_inv, existing. cbn [s_pool s_tasks]. rewrite !held_app, !establishing_app, !held_cons, !establishing_cons, !app_length in *.
    destruct t as [w k|w|w n| |id| |]; cbn [drop_step] in E; try (injection E as <- <-; auto; fail).
    + injection E as <- <-. cbn [ap_items ap_queue ap_fresh ap_lost ap_discarded]. splits; auto; lia.
    + unfold async_put, aq_push in E. cbn [length] in *. replace (length (ap_queue p) <? N)%nat with true in E by (symmetry; apply Nat.ltb_lt; lia).
      injection E as <- <-. cbn [ap_items ap_queue ap_fresh ap_lost ap_discarded]. rewrite app_length, app_nil_r. cbn [length].
      assert (Pm : Permutation (ap_queue p ++ held l1 ++ id :: held l2) ((ap_queue p ++ [id]) ++ held l1 ++ held l2)).
      { rewrite <- app_assoc. apply Permutation_app_head. cbn [app]. symmetry. apply Permutation_middle. }
      splits; auto; try lia.
      * eapply Permutation_NoDup; eauto.
      * eapply Permutation_Forall; eauto.
  - unfold pool_inv, existing. cbn [s_pool s_tasks]. rewrite !held_app, !establishing_app, !held_cons, !establishing_cons in *. auto.
Qed.

Lemma steps_inv : forall sp N s, steps sp N sys_new s -> pool_inv N s.
Proof.
  intros sp N s H. remember sys_new as s0. induction H as [s|s1 s2 s3 H IH Hs]; subst.
  - unfold pool_inv, existing. cbn. splits; auto; try lia; constructor.
  - eapply step_inv; eauto.
Qed.

Lemma steps_trans : forall sp N a b c, steps sp N a b -> steps sp N b c -> steps sp N a c.
Proof. intros sp N a b c H1 H2. induction H2; [assumption|]. eapply steps_cons; [apply IHsteps; assumption | eassumption]. Qed.
Lemma steps_one : forall sp N a b, step sp N a b -> steps sp N a b.
Proof. intros. eapply steps_cons; [apply steps_nil | assumption]. Qed.

(** A waiting task that is not woken stays so until it is dropped. *)
Definition waiting (s : sys) (i : nat) : Prop := nth_error (s_tasks s) i = Some (Idle true false).
Definition dropped (s : sys) (i : nat) : Prop := nth_error (s_tasks s) i = Some Gone.

Lemma nth_mid : forall T (l1 : list T) t t' l2 i x, nth_error (l1 ++ t :: l2) i = Some x ->
  nth_error (l1 ++ t' :: l2) i = Some x \/ (i = length l1 /\ t = x /\ nth_error (l1 ++ t' :: l2) i = Some t').
Proof.
  induction l1 as [|y l1 IH]; intros t t' l2 i x H; destruct i as [|i]; cbn in *; auto.
  - injection H as ->. auto.
  - destruct (IH t t' l2 i x H) as [A | (-> & B & C)]; auto.
Qed.

Lemma step_waiting : forall N s s' i, waiting s i \/ dropped s i -> step false N s s' -> waiting s' i \/ dropped s' i.
Proof.
  intros N s s' i W H. unfold waiting, dropped in *.
  destruct H as [p ts | p l1 t l2 seen att t' p' Hle E | p l1 t l2 t' p' E | p l1 w l2 X]; cbn [s_tasks] in *; [| | |discriminate].
  - destruct W as [W|W]; [left|right]; (rewrite nth_error_app1; [assumption | apply nth_error_Some; congruence]).
  - destruct W as [W|W]; destruct (nth_mid _ l1 t t' l2 i _ W) as [A | (-> & -> & A)]; auto;
      cbn in E; injection E as <- <-; auto.
  - destruct W as [W|W]; destruct (nth_mid _ l1 t t' l2 i _ W) as [A | (-> & -> & A)]; auto;
      cbn in E; injection E as <- <-; auto.
Qed.
Lemma steps_waiting : forall N s s' i, steps false N s s' -> waiting s i -> waiting s' i \/ dropped s' i.
Proof. intros N s s' i H W. induction H as [s|s1 s2 s3 H IH Hs]; [auto|]. eapply step_waiting; [apply IH | ]; eauto. Qed.

(** Losses stay. *)
Lemma step_lost : forall sp N s s', step sp N s s' -> (ap_lost (s_pool s) <= ap_lost (s_pool s'))%nat.
Proof.
  intros sp N s s' H. destruct H as [p ts | p l1 t l2 seen att t' p' Hle E | p l1 t l2 t' p' E | p l1 w l2 X]; cbn [s_pool]; auto.
  - destruct t as [w [|]|w|w n| |id| |]; cbn [poll_step] in E; try (injection E as <- <-; auto; fail).
    + unfold aq_pop in E. destruct (ap_queue p); injection E as <- <-; auto.
    + destruct (n <? N)%nat; [destruct (ap_items p =? n)%nat | destruct w]; injection E as <- <-; auto.
    + destruct att; injection E as <- <-; cbn; auto.
  - destruct t as [w k|w|w n| |id| |]; cbn [drop_step] in E; try (injection E as <- <-; cbn; auto; fail).
    unfold async_put, aq_push in E. destruct (_ <? _)%nat; injection E as <- <-; auto.
Qed.
Lemma steps_lost : forall sp N s s', steps sp N s s' -> (ap_lost (s_pool s) <= ap_lost (s_pool s'))%nat.
Proof. intros sp N s s' H. induction H as [s|s1 s2 s3 H IH Hs]; [auto|]. apply step_lost in Hs. lia. Qed.

(** A request that finds the queue empty may start connecting if the count allows. *)
Lemma can_start : forall sp N p l1 w l2, ap_queue p = [] -> (ap_items p < N)%nat ->
  exists p', steps sp N (mkSys p (l1 ++ Idle w true :: l2)) (mkSys p' (l1 ++ Adding :: l2)).
Proof.
  intros sp N p l1 w l2 Hq Hi. eexists.
  eapply steps_cons; [eapply steps_cons; [apply steps_one|]|].
  - apply (step_poll sp N p l1 (Idle w true) l2 0 APending (Popped w) p); [lia|]. cbn. now rewrite Hq.
  - apply (step_poll sp N p l1 (Popped w) l2 (ap_items p) APending (Loaded w (ap_items p)) p); [lia | reflexivity].
  - eapply (step_poll sp N p l1 (Loaded w (ap_items p)) l2 0 APending); [lia|]. cbn [poll_step].
    destruct (Nat.ltb_spec (ap_items p) N); [|lia]. rewrite Nat.eqb_refl. reflexivity.
Qed.

(** Connections can be had one after the other, up to N. *)
Lemma all_out : forall sp N k, (k <= N)%nat -> exists ts,
  steps sp N sys_new (mkSys (mkPool k [] [] k 0 []) ts) /\ length ts = k /\ held ts = seq 0 k /\
  Forall (fun t => match t with Holding _ => True | _ => False end) ts.
Proof.
  intros sp N k. induction k as [|k IH]; intros Hk.
  - exists []. splits; [apply steps_nil | reflexivity | reflexivity | constructor].
  - destruct IH as (ts & H & Hl & Hh & Hf); [lia|]. exists (ts ++ [Holding k]). splits.
    + eapply steps_trans; [apply H|]. set (p := mkPool k [] [] k 0 []).
      eapply steps_cons; [eapply steps_cons; [eapply steps_cons; [eapply steps_cons; [apply steps_one|]|]|]|].
      * apply step_get.
      * apply (step_poll sp N p ts (Idle false true) [] 0 APending (Popped false) p); [lia | reflexivity].
      * apply (step_poll sp N p ts (Popped false) [] k APending (Loaded false k) p); [cbn; lia | reflexivity].
      * apply (step_poll sp N p ts (Loaded false k) [] 0 APending Adding (mkPool (k + 1) [] [] k 0 [])); [lia|].
        cbn [poll_step ap_items p]. destruct (Nat.ltb_spec k N); [|lia]. now rewrite Nat.eqb_refl.
      * replace (S k) with (k + 1)%nat at 1 by lia.
        apply (step_poll sp N (mkPool (k + 1) [] [] k 0 []) ts Adding [] 0 AReady (Holding k) (mkPool (k + 1) [] [] (S k) 0 []));
          [lia | reflexivity].
    + rewrite app_length, Hl. cbn. lia.
    + rewrite held_app, Hh, seq_S. reflexivity.
    + apply Forall_app. split; [assumption|]. repeat constructor.
Qed.

(** ** Timeout *)

Section timeout.
  Variables (F D A : Type) (pf : F -> poll A * F) (pd : D -> poll unit * D) (f : F) (d : D).
  Let w := timeout_poll pf pd.

  (** While both are pending, both are polled alike. *)
  Lemma timeout_states : forall n, pending_to pf f n -> pending_to pd d n ->
    polls w n (f, d) = (Pending, (snd (polls pf n f), snd (polls pd n d))).
  Proof.
    induction n as [|n IH]; intros Hf Hd.
    - pose proof (Hf 0%nat (le_n _)) as A0. pose proof (Hd 0%nat (le_n _)) as B0. unfold nth_poll in *. cbn [polls] in *.
      unfold w, timeout_poll. destruct (pf f) as [r1 f1], (pd d) as [r2 d1]. cbn in *. subst. reflexivity.
    - pose proof (Hf (S n) (le_n _)) as A0. pose proof (Hd (S n) (le_n _)) as B0. unfold nth_poll in *. cbn [polls] in *.
      rewrite IH; [|intros m H; apply Hf; lia | intros m H; apply Hd; lia]. cbn [snd]. unfold w, timeout_poll.
      destruct (pf (snd (polls pf n f))) as [r1 f1], (pd (snd (polls pd n d))) as [r2 d1]. cbn in *. subst. reflexivity.
  Qed.

  Lemma timeout_before : forall n, (forall m, (m < n)%nat -> nth_poll pf m f = Pending) ->
    (forall m, (m < n)%nat -> nth_poll pd m d = Pending) ->
    polls w n (f, d) = w (match n with O => (f, d) | S m => (snd (polls pf m f), snd (polls pd m d)) end) /\
    forall m, (m < n)%nat -> nth_poll w m (f, d) = Pending.
  Proof.
    intros n Hf Hd. split.
    - destruct n as [|n]; [reflexivity|]. cbn [polls]. rewrite timeout_states; [reflexivity | |]; intros m H; [apply Hf | apply Hd]; lia.
    - intros m H. unfold nth_poll. rewrite timeout_states; [reflexivity | |]; intros k Hk; [apply Hf | apply Hd]; lia.
  Qed.

  Lemma step_of : forall n, polls pf n f = pf (match n with O => f | S m => snd (polls pf m f) end).
  Proof. destruct n; reflexivity. Qed.
  Lemma step_of_d : forall n, polls pd n d = pd (match n with O => d | S m => snd (polls pd m d) end).
  Proof. destruct n; reflexivity. Qed.

  Lemma timeout_ready : forall n a, ready_at pf f n a -> (forall m, (m < n)%nat -> nth_poll pd m d = Pending) ->
    ready_at w (f, d) n (Ok a).
  Proof.
    intros n a (H1 & H2) Hd. destruct (timeout_before n H2 Hd) as (E & P). split; [|exact P].
    unfold nth_poll in *. rewrite E. rewrite step_of in H1. destruct n as [|n]; unfold w, timeout_poll;
      match goal with |- context [pf ?x] => destruct (pf x) as [r f1] end; cbn in *; now subst.
  Qed.

  Lemma timeout_elapsed : forall n, ready_at pd d n tt -> pending_to pf f n -> ready_at w (f, d) n (Err IoTimedOut).
  Proof.
    intros n (H1 & H2) Hf. destruct (timeout_before n) as (E & P); [intros m H; apply Hf; lia | exact H2|]. split; [|exact P].
    pose proof (Hf n (le_n _)) as H0. unfold nth_poll in *. rewrite E. rewrite step_of in H0. rewrite step_of_d in H1.
    destruct n as [|n]; unfold w, timeout_poll;
      match goal with |- context [pf ?x] => destruct (pf x) as [r f1] end; cbn in *; subst;
      match goal with |- context [pd ?x] => destruct (pd x) as [r d1] end; cbn in *; now subst.
  Qed.
End timeout.
