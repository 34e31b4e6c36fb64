(** Proofs about active models on a connection. *)
From Coq Require Import ZArith List Bool Lia.
From Verif Require Import Base BaseFacts Types Utf8 Spec_Wire Spec_Packets Spec_Conv Conversion_proofs Framing Packets Auth Conn Spec_Conn Conn_proofs
  Models Model_proofs TypedModel ModelWire Spec_ModelWire.
Import ListNotations.
Open Scope Z_scope.

(** The statements executed on a connection with these outcomes. *)
Inductive ran : list statement -> conn -> conn -> Prop :=
| ran_nil : forall c, ran [] c c
| ran_cons : forall text params r tr c c1 c', run_prepared text params c = (r, c1) -> ran tr c1 c' ->
    ran ((text, params, r) :: tr) c c'.

Lemma ran_app : forall t1 t2 c c', ran (t1 ++ t2) c c' -> exists c1, ran t1 c c1 /\ ran t2 c1 c'.
Proof.
  induction t1 as [|[[text params] r] t1 IH]; intros t2 c c' H; cbn [app] in H; [exists c; split; [constructor|exact H]|].
  inversion H; subst. destruct (IH _ _ _ H7) as (c2 & A & B). exists c2. split; [econstructor; eauto|exact B].
Qed.

(** The second does on a connection what the first does with a database. *)
Definition carried {A} (f : IO (list statement) A) (g : IO conn A) : Prop := forall h r h', f h = (r, h') ->
  exists tr, h' = h ++ tr /\ forall c c', ran tr c c' -> g c = (r, c').

Lemma carried_res : forall A (x : res error A), carried (fun h => (x, h)) (iores x).
Proof.
  intros A x h r h' E. injection E as <- <-. exists []. rewrite app_nil_r. split; [reflexivity|].
  intros c c' H. inversion H; subst. reflexivity.
Qed.
Lemma carried_ret : forall A (x : A), carried (fun h => (Ok x, h)) (ioret x).
Proof. intros A x. exact (carried_res A (Ok x)). Qed.

Lemma carried_bind : forall A B (f : IO (list statement) A) (g : IO conn A) (k : A -> IO (list statement) B) (l : A -> IO conn B),
  carried f g -> (forall x, carried (k x) (l x)) -> carried (iobind f k) (iobind g l).
Proof.
  intros A B f g k l H K h r h' E. unfold iobind in E. destruct (f h) as [[x|e|] h1] eqn:Ef.
  - destruct (H _ _ _ Ef) as (t1 & -> & R1). destruct (K x _ _ _ E) as (t2 & -> & R2).
    exists (t1 ++ t2). rewrite app_assoc. split; [reflexivity|]. intros c c' Hr.
    destruct (ran_app _ _ _ _ Hr) as (c1 & A1 & A2). unfold iobind. rewrite (R1 _ _ A1). apply R2. exact A2.
  - injection E as <- <-. destruct (H _ _ _ Ef) as (t1 & -> & R1). exists t1. split; [reflexivity|].
    intros c c' Hr. unfold iobind. now rewrite (R1 _ _ Hr).
  - injection E as <- <-. destruct (H _ _ _ Ef) as (t1 & -> & R1). exists t1. split; [reflexivity|].
    intros c c' Hr. unfold iobind. now rewrite (R1 _ _ Hr).
Qed.

Lemma carried_run : forall db text params, carried (run_statement db text params) (run_prepared text params).
Proof.
  intros db text params h r h' E. unfold run_statement in E. injection E as E1 E2. subst. eexists. split; [reflexivity|].
  intros c c' H. inversion H as [|? ? ? ? ? c1 ? R R']; subst. inversion R'; subst. exact R.
Qed.

Lemma insert_on_eq : forall t p simples structs refs,
  insert_on (Active t p simples structs refs) =
  (vs <- iores (simple_values simples) ;;
   ws <- iores (struct_values structs) ;;
   us <- reference_values_on refs ;;
   run_prepared (into_insert (vs ++ ws ++ us) t) (map snd (vs ++ ws ++ us)))%io.
Proof.
  intros. cbn [insert_on].
  match goal with |- context [iobind (?g refs)] => assert (E : g refs = reference_values_on refs) end.
  { induction refs as [|[n [k|a|]] refs IH]; [reflexivity|..]; cbn [reference_values_on]; now rewrite <- IH. }
  now rewrite E.
Qed.

Lemma carried_references : forall db refs, Forall (fun r => forall a, snd r = RInsert a -> carried (insert db a) (insert_on a)) refs ->
  carried (reference_values db refs) (reference_values_on refs).
Proof.
  intros db refs H. induction H as [|[n x] refs Hx _ IH]; cbn [reference_values reference_values_on]; [apply carried_ret|].
  destruct x as [k|a|]; [| |exact IH].
  - apply carried_bind; [exact IH|]. intros us. apply carried_ret.
  - apply carried_bind; [exact (Hx a eq_refl)|]. intros id. apply carried_bind; [exact IH|]. intros us. apply carried_ret.
Qed.

Lemma carried_insert : forall db a, carried (insert db a) (insert_on a).
Proof.
  intros db. induction a as [t p simples structs refs IH] using active_ind'. rewrite insert_eq, insert_on_eq.
  apply carried_bind; [apply carried_res|]. intros vs. apply carried_bind; [apply carried_res|]. intros ws.
  apply carried_bind; [now apply carried_references|]. intros us. apply carried_run.
Qed.

Lemma carried_update : forall db key p a, carried (update_model db key p a) (update_on key p a).
Proof.
  intros db key p [t q simples structs refs]. cbn [update_model update_on].
  apply carried_bind; [apply carried_res|]. intros vs. apply carried_bind; [apply carried_res|]. intros ws.
  apply carried_bind.
  - apply carried_references. apply Forall_forall. intros r _ a _. apply carried_insert.
  - intros us. destruct (vs ++ ws ++ us) as [|v l]; [apply carried_ret|].
    apply carried_bind; [apply carried_run|]. intros _. apply carried_ret.
Qed.

(** ** The exchanges *)
Lemma run_use_step : forall A (decode : list column -> bytes -> res error A) u us x xs c c',
  run_uses decode (u :: us) c = (x :: xs, c') -> exists c1, run_use decode u c = (x, c1) /\ run_uses decode us c1 = (xs, c').
Proof.
  intros A decode u us x xs c c' E. cbn [run_uses] in E. destruct (run_use decode u c) as [y c1] eqn:E1.
  destruct (run_uses decode us c1) as [ys c2] eqn:E2. injection E as <- <- <-. eauto.
Qed.

Lemma prepare_seen : forall A (decode : list column -> bytes -> res error A) b sid n c c1,
  run_use decode (UPrepare b) c = (SPrepared sid n, c1) -> prepare_statement b c = (Ok (mkPrepared sid n), c1).
Proof.
  intros A decode b sid n c c1 E. cbn [run_use] in E. unfold use_done in E.
  destruct (prepare_statement b c) as [[[i p]|e|] c2]; [|discriminate..]. injection E as <- <- <-. reflexivity.
Qed.
Lemma prepare_failed : forall A (decode : list column -> bytes -> res error A) b e c c1,
  run_use decode (UPrepare b) c = (SFailed e, c1) -> prepare_statement b c = (Err e, c1).
Proof.
  intros A decode b e c c1 E. cbn [run_use] in E. unfold use_done in E.
  destruct (prepare_statement b c) as [[[i p]|e'|] c2]; [discriminate| |discriminate]. injection E as <- <-. reflexivity.
Qed.
Lemma execute_failed : forall A (decode : list column -> bytes -> res error A) sid n params e c c1,
  run_use decode (UStmtExecute sid n params) c = (SFailed e, c1) -> stmt_execute (mkPrepared sid n) params c = (Err e, c1).
Proof.
  intros A decode sid n params e c c1 E. cbn [run_use] in E. unfold use_done in E.
  destruct (stmt_execute (mkPrepared sid n) params c) as [[x|e'|] c2]; [unfold view in E; discriminate| |discriminate]. injection E as <- <-. reflexivity.
Qed.
Lemma execute_done : forall A (decode : list column -> bytes -> res error A) sid n params rows id status warnings msg st c c1,
  run_use decode (UStmtExecute sid n params) c = (SDone rows id status warnings msg st, c1) ->
  exists x, stmt_execute (mkPrepared sid n) params c = (Ok x, c1) /\ ok_last_insert_id x = id.
Proof.
  intros A decode sid n params rows id status warnings msg st c c1 E. cbn [run_use] in E. unfold use_done in E.
  destruct (stmt_execute (mkPrepared sid n) params c) as [[x|e'|] c2]; [|discriminate..]. unfold view in E.
  injection E as _ <- _ _ _ _ <-. eauto.
Qed.

Lemma exchanged_ran : forall A (decode : list column -> bytes -> res error A) tr h, exchanged tr h ->
  forall c c', run_uses decode (map fst h) c = (map snd h, c') -> ran tr c c'.
Proof.
  intros A decode tr h H. induction H as [|text b params id sid rows status warnings msg st tr h U _ IH|text b params e tr h U _ IH|text b params e sid tr h U _ IH];
    intros c c' E; cbn [map fst snd] in E.
  - injection E as <-. constructor.
  - apply run_use_step in E as (c1 & E1 & E). apply run_use_step in E as (c2 & E2 & E).
    apply utf8_text_iff in U as (_ & <-). apply prepare_seen in E1. apply execute_done in E2 as (x & E2 & <-).
    econstructor; [|apply IH; exact E]. unfold run_prepared, iobind. rewrite E1, E2. reflexivity.
  - apply run_use_step in E as (c1 & E1 & E). apply utf8_text_iff in U as (_ & <-). apply prepare_failed in E1.
    econstructor; [|apply IH; exact E]. unfold run_prepared, iobind. now rewrite E1.
  - apply run_use_step in E as (c1 & E1 & E). apply run_use_step in E as (c2 & E2 & E).
    apply utf8_text_iff in U as (_ & <-). apply prepare_seen in E1. apply execute_failed in E2.
    econstructor; [|apply IH; exact E]. unfold run_prepared, iobind. now rewrite E1, E2.
Qed.

(** All together. *)
Lemma carried_served : forall X (f : IO (list statement) X) (g : IO conn X), carried f g ->
  forall A (decode : list column -> bytes -> res error A) caps r tr hs i o c rest,
  f [] = (r, tr) -> exchanged tr hs -> history decode caps use_packets hs i o ->
  Z.testbit caps DEPRECATE_EOF_BIT = true -> c_caps c = caps -> between c (i ++ rest) ->
  exists c', g c = (r, c') /\ between c' rest /\ c_data c' = c_data c /\ s_out (c_stream c') = s_out (c_stream c) ++ o.
Proof.
  intros X f g H A decode caps r tr hs i o c rest E Ex Hh Hd Hc Hb.
  destruct (run_uses_history A decode caps hs i o Hh Hd c rest Hc Hb) as (c' & Er & B & D & O).
  destruct (H _ _ _ E) as (tr' & Et & R). cbn [app] in Et. subst tr'.
  exists c'. split; [|auto]. apply R. eapply exchanged_ran; eauto.
Qed.
