(** Proofs about migrations on a connection. *)
From Coq Require Import ZArith List Bool Lia.
From Verif Require Import Base BaseFacts Types Utf8 Spec_Wire Spec_Packets Spec_Conv Conversion_proofs Framing Conn Spec_Conn Conn_proofs
  Migrator Spec_Migrate Migrator_proofs SimpleMigration Spec_Simple.
Import ListNotations.

(** Every outcome in a history is the oracle's. *)
Inductive consistent (w : oracle) : list event -> list event -> Prop :=
| co_nil : forall h, consistent w h []
| co_cons : forall h a tr, consistent w (h ++ [(a, w h a)]) tr -> consistent w h ((a, w h a) :: tr).

Lemma consistent_app : forall w tr1 h tr2, consistent w h tr1 -> consistent w (h ++ tr1) tr2 -> consistent w h (tr1 ++ tr2).
Proof.
  intros w tr1 h tr2 H. induction H; cbn [app]; intros K; [now rewrite app_nil_r in K|].
  constructor. apply IHconsistent. rewrite <- app_assoc. exact K.
Qed.

Definition keeps {A} (w : oracle) (f : IO mig_state A) : Prop := forall a h r a' h', f (a, h) = (r, (a', h')) ->
  exists tr, h' = h ++ tr /\ consistent w h tr.

Lemma keeps_await : forall w x, keeps w (await w x).
Proof.
  intros w x a h r a' h' E. unfold await in E. injection E as _ _ <-. exists [(x, w h x)]. split; [reflexivity|].
  repeat constructor.
Qed.
Lemma keeps_pure : forall A w (f : applied_map -> applied_map) (x : A), keeps w (fun '(a, h) => (Ok x, (f a, h))).
Proof.
  intros A w f x a h r a' h' E. injection E as _ _ <-. exists []. rewrite app_nil_r. split; [reflexivity|constructor].
Qed.
Lemma keeps_bind : forall A B w (m : IO mig_state A) (k : A -> IO mig_state B), keeps w m -> (forall x, keeps w (k x)) ->
  keeps w (iobind m k).
Proof.
  intros A B w m k Hm Hk a h r a' h' E. unfold iobind in E. destruct (m (a, h)) as [r1 (a1, h1)] eqn:E1.
  destruct (Hm _ _ _ _ _ E1) as (tr1 & -> & C1).
  destruct r1 as [x|e|].
  - destruct (Hk x _ _ _ _ _ E) as (tr2 & -> & C2). exists (tr1 ++ tr2). rewrite app_assoc. split; [reflexivity|].
    now apply consistent_app.
  - injection E as _ _ <-. eauto.
  - injection E as _ _ <-. eauto.
Qed.
Lemma keeps_all : forall w one ms, (forall m, keeps w (one m)) -> keeps w (run_all one ms).
Proof.
  intros w one ms H. induction ms as [|m ms IH]; cbn [run_all].
  - intros a h r a' h' E. injection E as _ _ <-. exists []. rewrite app_nil_r. split; [reflexivity|constructor].
  - apply keeps_bind; auto.
Qed.
Lemma keeps_up : forall w m, keeps w (up_one w m).
Proof.
  intros w m a h r a' h' E. unfold up_one in E. cbn [fst] in E. destruct (get_applied a (fst m) (snd m)).
  - injection E as _ _ <-. exists []. rewrite app_nil_r. split; [reflexivity|constructor].
  - revert E. apply keeps_bind; [apply keeps_await|]. intros _.
    apply keeps_bind; [apply (keeps_pure unit w (fun x => insert_applied x (fst m) (snd m)) tt)|]. intros _.
    apply keeps_bind; [apply keeps_await|]. intros _. apply keeps_await.
Qed.
Lemma keeps_down : forall w m, keeps w (down_one w m).
Proof.
  intros w m a h r a' h' E. unfold down_one in E. cbn [fst] in E. destruct (get_applied a (fst m) (snd m)) as [(l, i)|].
  - revert E. unfold revert. apply keeps_bind; [apply keeps_await|]. intros _.
    apply keeps_bind; [apply (keeps_pure unit w (fun x => map_set x (fst m) (swap_remove l i)) tt)|]. intros _.
    apply keeps_bind; [apply keeps_await|]. intros _. apply keeps_await.
  - injection E as _ _ <-. exists []. rewrite app_nil_r. split; [reflexivity|constructor].
Qed.

(** What a run sends: statements until one fails. *)
Inductive sent : list str -> list (str * outcome) -> res error unit -> Prop :=
| sent_nil : sent [] [] (Ok tt)
| sent_fail : forall q qs e b, sent (q :: qs) [(q, Failed e b)] (Err e)
| sent_next : forall q qs l r, sent qs l r -> sent (q :: qs) ((q, Done) :: l) r.

Definition text_events (s : simple_texts) (h : list event) : list (str * outcome) :=
  flat_map (fun e => match action_text s (fst e) with Some q => [(q, snd e)] | None => [] end) h.

Definition plan_texts (own : migration_record -> str) (rec : version -> str -> str) (plan : list migration_record) : list str :=
  flat_map (fun m => [own m; rec (fst m) (snd m)]) plan.

Lemma get_done : forall s ef c h tr, consistent (wire_oracle s ef c) h tr -> forall e b, ~ In (Get, Failed e b) tr.
Proof.
  intros s ef c h tr H. induction H; intros e b K; [exact K|]. destruct K as [K|K]; [|exact (IHconsistent _ _ K)].
  injection K as -> K. discriminate.
Qed.

Lemma up_sent : forall s plan tr d r, up_run plan tr d r -> (forall e b, ~ In (Get, Failed e b) tr) ->
  sent (plan_texts (st_up s) insert_statement plan) (text_events s tr) r.
Proof.
  intros s plan tr d r H. induction H; intros G; unfold plan_texts, text_events; cbn [flat_map fst snd action_text app].
  - constructor.
  - constructor.
  - exfalso. apply (G e b). right. now left.
  - repeat constructor.
  - constructor. constructor. apply IHup_run. intros e b K. apply (G e b). cbn. auto.
Qed.
Lemma down_sent : forall s plan tr d r, down_run plan tr d r -> (forall e b, ~ In (Get, Failed e b) tr) ->
  sent (plan_texts (st_down s) delete_statement plan) (text_events s tr) r.
Proof.
  intros s plan tr d r H. induction H; intros G; unfold plan_texts, text_events; cbn [flat_map fst snd action_text app].
  - constructor.
  - constructor.
  - exfalso. apply (G e b). right. now left.
  - repeat constructor.
  - constructor. constructor. apply IHdown_run. intros e b K. apply (G e b). cbn. auto.
Qed.

Lemma conn_after_app : forall s h l c, conn_after s (h ++ l) c = conn_after s l (conn_after s h c).
Proof. intros s h l. induction h as [|(a, o) h IH]; intros c; cbn [app conn_after]; auto. Qed.

Lemma conn_after_silent : forall s tr c, text_events s tr = [] -> conn_after s tr c = c.
Proof.
  intros s tr. induction tr as [|(x, o) tr IH]; intros c H; cbn [conn_after]; [reflexivity|].
  unfold text_events in H. cbn [flat_map fst snd] in H. fold (text_events s tr) in H.
  destruct (action_text s x); [discriminate|]. auto.
Qed.

(** The connection's answers decide the outcomes. *)
Lemma sent_answered : forall A (decode : list column -> bytes -> res error A) s ef c0 h tr, consistent (wire_oracle s ef c0) h tr ->
  forall qs r hs r', sent qs (text_events s tr) r -> answered qs hs r' ->
  fst (run_uses decode (map fst hs) (conn_after s h c0)) = map snd hs ->
  r = r' /\ conn_after s (h ++ tr) c0 = snd (run_uses decode (map fst hs) (conn_after s h c0)).
Proof.
  intros A decode s ef c0 h tr H. induction H as [h|h x tr H IH]; intros qs r hs r' S An E.
  - cbn in S. inversion S; subst. inversion An; subst. rewrite app_nil_r. split; reflexivity.
  - replace (h ++ (x, wire_oracle s ef c0 h x) :: tr) with ((h ++ [(x, wire_oracle s ef c0 h x)]) ++ tr) by (now rewrite <- app_assoc).
    unfold text_events in S. cbn [flat_map fst snd] in S. fold (text_events s tr) in S.
    remember (wire_oracle s ef c0 h x) as o eqn:Eo.
    assert (Co : conn_after s (h ++ [(x, o)]) c0 = match action_text s x with Some q => snd (execute_text q (conn_after s h c0)) | None => conn_after s h c0 end).
    { rewrite conn_after_app. reflexivity. }
    unfold wire_oracle in Eo. destruct (action_text s x) as [q|] eqn:Et.
    2:{ cbn [app] in S. rewrite <- Co in E |- *. eapply IH; eauto. }
    cbn [app] in S. unfold execute_text in *.
    destruct (execute_query (utf8_encode q) (conn_after s h c0)) as [k c1] eqn:Eq. cbn [fst snd] in *.
    inversion An as [|q0 b qs0 e U|q0 b qs0 rows id status warnings msg st hs0 r0 U An']; subst qs.
    + inversion S.
    + subst. apply utf8_text_iff in U. destruct U as (_ & <-). cbn [map fst snd run_uses] in E |- *.
      inversion S; subst; cbn [run_use] in *; rewrite Eq in *; unfold use_done in *; destruct k as [k|e'|]; cbn [fst snd] in *; try discriminate.
      injection E as ->. match goal with X : Failed _ _ = Failed _ _ |- _ => injection X as -> -> end.
      split; [reflexivity|]. rewrite conn_after_app. apply conn_after_silent. congruence.
    + subst. apply utf8_text_iff in U. destruct U as (_ & <-). cbn [map fst snd run_uses] in E |- *.
      inversion S; subst; cbn [run_use] in *; rewrite Eq in *; unfold use_done in *; destruct k as [k|e'|]; cbn [fst snd] in *; try discriminate.
      all: cbn beta iota in E |- *.
      all: destruct (run_uses decode (map fst hs0) _) as [xs c2] eqn:Er in E; cbn [fst] in E; try discriminate.
      rewrite Er. cbn [snd]. injection E; intros E2 _ _ _ _ _ _.
      lazymatch goal with X : sent qs0 _ _ |- _ => specialize (IH _ _ _ _ X An') end. rewrite Er in IH. cbn [fst snd] in IH. apply IH. exact E2.
Qed.

Lemma up_statements : forall bs own plan, Forall (fun m => plain_name (snd m) /\ version_small (fst m)) plan ->
  statements own (says_insert bs) plan (plan_texts own insert_statement plan).
Proof.
  intros bs own plan H. induction H as [|(v, n) plan (P & V) H IH]; [constructor|].
  unfold plan_texts. cbn [flat_map app]. constructor; [now apply says_insert_self | exact IH].
Qed.
Lemma down_statements : forall bs own plan, Forall (fun m => plain_name (snd m) /\ version_small (fst m)) plan ->
  statements own (says_delete bs) plan (plan_texts own delete_statement plan).
Proof.
  intros bs own plan H. induction H as [|(v, n) plan (P & V) H IH]; [constructor|].
  unfold plan_texts. cbn [flat_map app]. constructor; [now apply says_delete_self | exact IH].
Qed.
