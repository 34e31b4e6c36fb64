(** Lemmas about a connection and a server that answers. *)
From Coq Require Import String ZArith List Bool Lia.
From Verif Require Import Base BaseFacts Types Utf8 ParseBuf BufMut Spec_Wire ParseBuf_proofs Framing Framing_proofs
  Packets Spec_Packets Packets_proofs Crypt Handshake ValueBin Spec_Stmt StmtPackets ValueText Rows Conversion Auth Auth_proofs
  Conn Spec_Conn Conn_proofs Spec_Fault Fault_proofs Peer Spec_Peer.
Import ListNotations.
Open Scope Z_scope.
Open Scope io_scope.
Local Opaque MAX_PAYLOAD_LEN.

(** ** A run has one end *)

Definition next {X} (net : bytes -> bytes) (run : conn -> X * conn) (got : bytes) (c : conn) (i k : bytes) : Prop :=
  net (s_out (c_stream (snd (run (with_input i c))))) = got ++ k.

Lemma next_fun : forall X net (run : conn -> X * conn) got c i k k', next net run got c i k -> next net run got c i k' -> k = k'.
Proof. unfold next. intros. rewrite H in H0. now apply app_inv_head in H0. Qed.

(** Everything readable is an iterate of [next]. *)
Inductive chain {X} (net : bytes -> bytes) (run : conn -> X * conn) (got : bytes) (c : conn) : nat -> bytes -> Prop :=
| chain_O : chain net run got c O (s_in (c_stream c))
| chain_S : forall n i k, chain net run got c n i -> next net run got c i k -> chain net run got c (S n) k.

Lemma readable_chain : forall X net (run : conn -> X * conn) got c i, readable net run got c i -> exists n, chain net run got c n i.
Proof.
  intros X net run got c i H. induction H as [|i x c' more H (n & IH) E N].
  - exists O. constructor.
  - exists (S n). econstructor; [exact IH|]. unfold next. now rewrite E.
Qed.

Lemma chain_fun : forall X net (run : conn -> X * conn) got c n i, chain net run got c n i -> forall k, chain net run got c n k -> i = k.
Proof.
  intros X net run got c n i H. induction H as [|n i k H IH N]; intros k' H'; inversion H'; subst; [reflexivity|].
  match goal with H1 : chain _ _ _ _ n ?j |- _ => specialize (IH j H1); subst j end.
  eapply next_fun; eauto.
Qed.

Lemma chain_stable : forall X net (run : conn -> X * conn) got c n i, chain net run got c n i -> next net run got c i i ->
  forall m k, (n <= m)%nat -> chain net run got c m k -> k = i.
Proof.
  intros X net run got c n i H S m. induction m as [|m IH]; intros k L H'.
  - assert (n = O) by lia. subst n. eapply chain_fun; eauto.
  - destruct (Nat.eq_dec n (Datatypes.S m)) as [->|Hn]; [eapply chain_fun; eauto|].
    inversion H' as [|? j ? Hj Nj]; subst. rewrite (IH j) in Nj; [|lia|exact Hj]. eapply next_fun; eauto.
Qed.

Lemma ends_unique : forall X net (run : conn -> X * conn) got c x g1 c1 y g2 c2,
  ends net run got c x g1 c1 -> ends net run got c y g2 c2 -> x = y /\ g1 = g2 /\ c1 = c2.
Proof.
  intros X net run got c x g1 c1 y g2 c2 (i & R1 & E1 & N1 & G1) (j & R2 & E2 & N2 & G2).
  destruct (readable_chain _ _ _ _ _ _ R1) as (n & H1). destruct (readable_chain _ _ _ _ _ _ R2) as (m & H2).
  assert (S1 : next net run got c i i) by (unfold next; now rewrite E1).
  assert (S2 : next net run got c j j) by (unfold next; now rewrite E2).
  assert (i = j).
  { destruct (Nat.le_ge_cases n m) as [L|L]; [symmetry; eapply (chain_stable _ _ _ _ _ n i H1 S1 m); eauto|
      eapply (chain_stable _ _ _ _ _ m j H2 S2 n); eauto]. }
  subst j. rewrite E1 in E2. injection E2 as <- <-. splits; try reflexivity. rewrite G1 in G2. now apply app_inv_tail in G2.
Qed.

Lemma session_unique : forall X net (runs : list (conn -> X * conn)) got c xs c1, session net runs got c xs c1 ->
  forall ys c2, session net runs got c ys c2 -> xs = ys /\ c1 = c2.
Proof.
  intros X net runs got c xs c1 H. induction H as [|run runs got c x got' c' xs c1 E H IH]; intros ys c2 H2; inversion H2; subst.
  - auto.
  - match goal with E2 : ends _ run got c ?y ?g ?d |- _ => destruct (ends_unique _ _ _ _ _ _ _ _ _ _ _ E E2) as (-> & -> & ->) end.
    match goal with H3 : session _ runs _ _ ?l _ |- _ => destruct (IH _ _ H3) as (-> & ->) end. auto.
Qed.

(** ** Input is taken from the front *)

Definition tail_of (c c' : conn) : Prop := exists used, s_in (c_stream c) = used ++ s_in (c_stream c').
Definition takes {A} (m : IO conn A) : Prop := forall c, tail_of c (snd (m c)).

Lemma tail_refl : forall c, tail_of c c.
Proof. intros c. now exists []. Qed.
Lemma tail_same : forall c c', s_in (c_stream c') = s_in (c_stream c) -> tail_of c c'.
Proof. intros c c' E. exists []. now rewrite E. Qed.
Lemma tail_trans : forall a b c, tail_of a b -> tail_of b c -> tail_of a c.
Proof. intros a b c (u & E) (v & F). exists (u ++ v). now rewrite E, F, app_assoc. Qed.

Lemma takes_bind : forall A B (m : IO conn A) (f : A -> IO conn B), takes m -> (forall a, takes (f a)) -> takes (iobind m f).
Proof.
  intros A B m f Hm Hf c. rewrite iob. specialize (Hm c). destruct (m c) as [[a|e|] c']; cbn in *; auto.
  eapply tail_trans; [exact Hm|]. apply Hf.
Qed.
Lemma takes_res : forall A (r : res error A), takes (iores r).
Proof. intros A r c. apply tail_refl. Qed.
Lemma takes_ret : forall A (a : A), takes (ioret a).
Proof. intros A a c. apply tail_refl. Qed.

Lemma read_exact_tail : forall n s r s', read_exact n s = (r, s') -> exists used, s_in s = used ++ s_in s'.
Proof.
  intros n s r s' H. unfold read_exact in H. destruct (_ <? _); injection H as <- <-; cbn [s_in].
  - exists (s_in s). now rewrite app_nil_r.
  - exists (takeZ n (s_in s)). symmetry. apply take_drop.
Qed.
Lemma read_chunk_tail : forall dst s r s', read_chunk_to_buf dst s = (r, s') -> exists used, s_in s = used ++ s_in s'.
Proof.
  intros dst s r s' H. unfold read_chunk_to_buf in H. rewrite iob in H.
  destruct (read_exact 4 s) as [[meta|e|] s1] eqn:E; apply read_exact_tail in E; [|injection H as _ <-; exact E..].
  cbn zeta in H. destruct (_ =? 0); [injection H as _ <-; exact E|]. rewrite iob in H.
  destruct (read_exact _ s1) as [[body|e|] s2] eqn:E2; apply read_exact_tail in E2; injection H as _ <-;
    destruct E as (u & E), E2 as (v & E2); exists (u ++ v); now rewrite E, E2, app_assoc.
Qed.
Lemma read_packet_tail : forall fuel seq dst s r s', read_packet_to_buf fuel seq dst s = (r, s') ->
  exists used, s_in s = used ++ s_in s'.
Proof.
  induction fuel as [|fuel IH]; intros seq dst s r s' H; cbn [read_packet_to_buf] in H; [injection H as _ <-; now exists []|].
  destruct (read_chunk_to_buf dst s) as [[[[d q] l]|e|] s1] eqn:E; apply read_chunk_tail in E; [|injection H as _ <-; exact E..].
  destruct (negb _); [injection H as _ <-; exact E|]. cbn zeta in H. destruct l; [injection H as _ <-; exact E|].
  apply IH in H. destruct E as (u & E), H as (v & E2). exists (u ++ v). now rewrite E, E2, app_assoc.
Qed.
Lemma takes_read : takes conn_read.
Proof.
  intros c. unfold conn_read, read_packet. destruct (read_packet_to_buf _ _ _ _) as [[r q] s] eqn:E.
  apply read_packet_tail in E. exact E.
Qed.
Lemma write_chunks_in : forall fuel seq b s r s', write_chunks fuel seq b s = (r, s') -> s_in s' = s_in s.
Proof.
  assert (W : forall b s r s', write_all b s = (r, s') -> s_in s' = s_in s).
  { intros b s r s' H. unfold write_all in H. destruct (s_budget s) as [n|]; [destruct (_ <=? _)|]; injection H as _ <-; reflexivity. }
  induction fuel as [|fuel IH]; intros seq b s r s' H; cbn [write_chunks] in H; [injection H as _ <-; reflexivity|].
  destruct b as [|x b]; [injection H as _ <-; reflexivity|]. rewrite iob in H.
  destruct (write_all _ s) as [[u|e|] s1] eqn:E1; [|injection H as _ <-; eapply W; eauto..].
  destruct (write_all _ s1) as [[u'|e|] s2] eqn:E2; apply W in E1; [|injection H as _ <-; apply W in E2; congruence..].
  apply W in E2. apply IH in H. congruence.
Qed.
Lemma takes_write : forall p, takes (conn_write p).
Proof.
  intros p c. unfold conn_write, write_packet. destruct (write_chunks _ _ _ _) as [[r q] s] eqn:E. apply write_chunks_in in E.
  apply tail_same. destruct r as [u|e|]; [|cbn; auto..]. destruct (_ =? 0); [|cbn; auto].
  unfold write_all. destruct (s_budget s) as [n|]; [destruct (_ <=? _)|]; cbn; auto.
Qed.
Lemma takes_pending : forall b, takes (set_pending b).
Proof. intros b c. now apply tail_same. Qed.
Lemma takes_reset : takes reset_seq.
Proof. intros c. now apply tail_same. Qed.
Lemma takes_here : forall A (m : conn -> IO conn A), (forall c, takes (m c)) -> takes (fun c => m c c).
Proof. intros A m H c. apply H. Qed.
Global Hint Resolve takes_bind takes_res takes_ret takes_read takes_write takes_pending takes_reset : takes.

Lemma takes_cleanup : takes cleanup.
Proof.
  intros c. unfold cleanup. destruct (c_pending c); [|apply tail_refl]. generalize (S (length (s_in (c_stream c)))). intros n. revert c.
  change (takes (cleanup_loop n)). induction n as [|n IH]; [intros c; apply tail_refl|]. cbn [cleanup_loop].
  apply takes_bind; [auto with takes|]. intros p.
  apply (takes_here _ (fun c => last <- iores (is_last (c_caps c) p) ;; if last then
         set_pending false ;;; x <- iores (of_protocol (read_eof p (c_caps c))) ;; ioret (Some x) else cleanup_loop n)%io).
  intros c. apply takes_bind; [auto with takes|]. intros [|]; auto 6 with takes.
Qed.
Lemma takes_command : forall p, takes (write_command p).
Proof. intros p. unfold write_command. auto using takes_cleanup with takes. Qed.
Lemma takes_commands : forall ps, takes (write_commands ps).
Proof. induction ps; cbn [write_commands]; auto using takes_command with takes. Qed.
Lemma takes_execute : forall id values, takes (send_execute id values).
Proof.
  intros id values. unfold send_execute. destruct (execute_new id values) as [r|]; [|auto with takes].
  apply takes_bind; [|intros; apply takes_command]. unfold send_long_data. destruct (ex_as_long_data r); auto using takes_commands with takes.
Qed.
Lemma takes_decode : forall p, takes (decode_response p).
Proof.
  intros p c. unfold decode_response. destruct p as [|x p]; [apply tail_refl|].
  destruct (x =? 0); [|destruct (x =? 255); [|apply tail_refl]];
    match goal with |- context [?m c] => match type of m with IO conn _ => assert (H : takes m) by auto with takes; apply H end end.
Qed.
Lemma takes_response : takes read_response.
Proof. unfold read_response. auto using takes_decode with takes. Qed.
Lemma takes_defs : forall n, takes (read_column_defs n).
Proof. induction n; cbn [read_column_defs]; auto 8 with takes. Qed.
Lemma takes_rs_read : takes rs_read.
Proof.
  unfold rs_read. apply takes_bind; [auto with takes|]. intros p. destruct (first_is 0 p); [auto using takes_decode with takes|].
  destruct (first_is 251 p); [auto with takes|]. destruct (first_is 255 p).
  - intros c. apply tail_refl.
  - apply takes_bind; [auto with takes|]. intros _. apply takes_bind; [auto with takes|]. intros n.
    destruct (capacity_overflow n); [auto with takes|].
    apply (takes_here _ (fun c => columns <- read_column_defs (Z.to_nat (Z.min n (lenZ (s_in (c_stream c)) + 1))) ;;
       ioret (mkSet columns None))%io). intros c. auto using takes_defs with takes.
Qed.
Lemma takes_skip : forall n, takes (skip_packets n).
Proof. induction n; cbn [skip_packets]; auto with takes. Qed.

Lemma nexts_takes : forall A (decode : list column -> bytes -> res error A) k c rs, tail_of c (fst (snd (nexts decode k (c, rs)))).
Proof.
  intros A decode. induction k as [|k IH]; intros c rs; [apply tail_refl|]. cbn [nexts].
  assert (N : tail_of c (fst (snd (rs_next decode (c, rs))))).
  { unfold rs_next. destruct (rs_ok rs); [apply tail_refl|]. pose proof (takes_read c) as K.
    destruct (conn_read c) as [[p|e|] c1]; cbn in *; auto. destruct (is_last (c_caps c1) p) as [[|]|e|]; cbn; auto.
    destruct (read_eof p (c_caps c1)); cbn; auto. }
  destruct (rs_next decode (c, rs)) as [r [c1 rs1]]. cbn [fst snd] in N. specialize (IH c1 rs1).
  destruct (nexts decode k (c1, rs1)) as [l [c2 rs2]]. cbn in *. eapply tail_trans; eauto.
Qed.

Lemma run_use_takes : forall A (decode : list column -> bytes -> res error A) u c, tail_of c (snd (run_use decode u c)).
Proof.
  intros A decode u c.
  assert (R : forall (m : IO conn result_set) k, takes m -> tail_of c (snd (use_rows decode k (m c)))).
  { intros m k H. specialize (H c). destruct (m c) as [[rs|e|] c1]; cbn in H |- *; auto.
    pose proof (nexts_takes A decode k c1 rs) as N. destruct (nexts decode k (c1, rs)) as [l [c2 rs2]]. cbn in *.
    eapply tail_trans; eauto. }
  assert (D : forall B (f : B -> seen A) (m : IO conn B), takes m -> tail_of c (snd (use_done f (m c)))).
  { intros B f m H. specialize (H c). destruct (m c) as [[b|e|] c1]; exact H. }
  destruct u; cbn [run_use].
  - apply R. unfold query, execute_command. auto using takes_rs_read, takes_cleanup with takes.
  - apply D. unfold execute_query, execute_command. auto using takes_response, takes_cleanup with takes.
  - apply D. unfold prepare_statement, execute_command. apply takes_bind; [auto using takes_cleanup with takes|]. intros _.
    apply takes_bind; [auto with takes|]. intros p. apply takes_bind; [|auto using takes_skip with takes].
    intros c1. destruct (first_is 0 p); [|destruct (first_is 255 p)]; apply tail_refl.
  - apply R. unfold stmt_query. destruct (negb _); auto using takes_rs_read, takes_execute with takes.
  - apply D. unfold stmt_execute. destruct (negb _); auto using takes_response, takes_execute with takes.
Qed.

(** ** A use that is answered *)

Lemma between_input : forall c rest more, between c rest -> between (with_input (s_in (c_stream c) ++ more) c) (rest ++ more).
Proof.
  intros c rest more (H1 & H2 & H3). split; [exact H1|]. split; [exact H2|]. cbn [with_input c_pending c_stream s_in].
  destruct H3 as [(P & E)|(P & rows & st & wa & last & w & q & F & L & Fr & E)].
  - left. split; [exact P|]. now rewrite E.
  - right. split; [exact P|]. exists rows, st, wa, last, w, q. splits; auto. now rewrite E, app_assoc.
Qed.

Lemma with_input_same : forall c, with_input (s_in (c_stream c)) c = c.
Proof. intros [[i e o b] q d p]. reflexivity. Qed.

Lemma answer_not_empty : forall caps a pkts, answer_packets caps a pkts -> exists p more, pkts = p :: more.
Proof. intros caps a pkts H. destruct H; eauto. cbn [app]. eauto. Qed.

(** A use without its answer: the whole request is written. *)
Lemma run_use_asks : forall A (decode : list column -> bytes -> res error A) u a y w q pkts wi q' c,
  Z.testbit (c_caps c) DEPRECATE_EOF_BIT = true -> use_ok u -> requests (use_packets u) w q ->
  answer_packets (c_caps c) a pkts -> framed q pkts wi q' -> expected decode u a y -> between c [] ->
  exists c', run_use decode u c = (SFailed (lost_error c), c') /\ s_out (c_stream c') = s_out (c_stream c) ++ w.
Proof.
  intros A decode u a y w q pkts wi q' c Hd Hu Hr Ha Hf He Hb.
  destruct (answer_not_empty _ _ _ Ha) as (p & more & ->). inversion Hf as [|? ? wp q1 ? wm ? Fp Fm]; subst.
  assert (Hwp : wp <> []) by (apply frames_wire_length in Fp; intros ->; cbn in Fp; lia).
  destruct (run_use_cut A decode u a y w q [] p more [] q [] wp q1 c Hd Hu Hr Ha (framed_nil q) Fp Hwp He Hb)
    as (c1 & c2 & E & As & (D & (i & S) & _)).
  exists c2. split; [|rewrite S, As; reflexivity].
  rewrite E. f_equal. unfold seen_part. destruct a; try reflexivity. destruct (reads u); reflexivity.
Qed.

Lemma use_ends : forall A (decode : list column -> bytes -> res error A) peer u a y w q pkts wi q' c got,
  Z.testbit (c_caps c) DEPRECATE_EOF_BIT = true -> use_ok u -> requests (use_packets u) w q ->
  answer_packets (c_caps c) a pkts -> framed q pkts wi q' -> expected decode u a y -> between c [] ->
  peer (s_out (c_stream c) ++ w) = (got ++ s_in (c_stream c)) ++ wi ->
  exists got' c', ends peer (run_use decode u) got c y got' c' /\ between c' [] /\ c_data c' = c_data c /\
    s_out (c_stream c') = s_out (c_stream c) ++ w /\ got' ++ s_in (c_stream c') = (got ++ s_in (c_stream c)) ++ wi.
Proof.
  intros A decode peer u a y w q pkts wi q' c got Hd Hu Hr Ha Hf He Hb Hp. rewrite <- app_assoc in Hp.
  destruct (run_use_asks A decode u a y w q pkts wi q' c Hd Hu Hr Ha Hf He Hb) as (c0 & E0 & O0).
  set (i := s_in (c_stream c) ++ wi) in *.
  assert (B1 : between (with_input i c) (wi ++ [])) by (rewrite app_nil_r; apply (between_input c [] wi Hb)).
  destruct (run_use_served A decode u a y w q pkts wi q' (with_input i c) []) as (c1 & E1 & B2 & D1 & O1); auto.
  destruct (run_use_takes A decode u (with_input i c)) as (used & T). rewrite E1 in T. cbn [snd with_input c_stream s_in s_out] in T, O1.
  exists (got ++ used), c1. split; [|splits; auto].
  - exists i. split; [|split; [exact E1|split]].
    + unfold i. eapply readable_next; [apply readable_first|rewrite with_input_same; exact E0|]. now rewrite O0, Hp.
    + now rewrite O1, Hp.
    + now rewrite T, app_assoc.
  - rewrite <- !app_assoc. fold i. now rewrite T.
Qed.

Lemma uses_end : forall A (decode : list column -> bytes -> res error A) caps peer r s h, served decode caps use_packets peer r s h ->
  Z.testbit caps DEPRECATE_EOF_BIT = true -> forall c got, c_caps c = caps -> between c [] ->
  s_out (c_stream c) = r -> got ++ s_in (c_stream c) = s ->
  exists c', session peer (map (fun x => run_use decode (fst x)) h) got c (map snd h) c' /\ between c' [].
Proof.
  intros A decode caps peer r s h H Hd. induction H as [r s|r s u a y w q pkts wi q' h Hu Hr Ha Hf He Hp H IH]; intros c got Hc Hb Ho Hg.
  - exists c. split; [constructor|exact Hb].
  - subst caps r s.
    destruct (use_ends A decode peer u a y w q pkts wi q' c got Hd Hu Hr Ha Hf He Hb Hp) as (got' & c1 & E & B & D & O & G).
    destruct (IH c1 got') as (c2 & S & B2); [unfold c_caps; now rewrite D|exact B|exact O|exact G|].
    exists c2. split; [|exact B2]. cbn [map fst snd]. econstructor; eauto.
Qed.
