(** Lemmas about builds without optional features. *)
From Coq Require Import String ZArith List Bool Lia.
From Verif Require Import Base BaseFacts Types Utf8 ParseBuf BufMut Spec_Wire ParseBuf_proofs Conversion Conversion_proofs
  Packets Spec_Packets Packets_proofs Scramble Crypt Spec_Crypt Crypt_proofs Handshake Spec_Handshake Handshake_proofs Greeting_proofs
  Framing Framing_proofs Auth Spec_Auth Auth_proofs Spec_Connect Connect_proofs Features Spec_Features.
Import ListNotations.
Open Scope Z_scope.
Open Scope io_scope.

(** ** Reading without the plugin *)

Definition sha2_name : bytes := plugin_bytes PSha2.

Lemma from_bytes_all : forall f n, f_sha2 f = true -> plugin_from_bytes_with f n = plugin_from_bytes n.
Proof. intros f n H. unfold plugin_from_bytes_with. rewrite H. reflexivity. Qed.

Lemma from_bytes_less : forall f n, f_sha2 f = false ->
  plugin_from_bytes_with f n = match plugin_from_bytes n with
                               | Ok PSha2 => Err (PUnknownAuthPlugin sha2_name)
                               | r => r
                               end.
Proof.
  intros f n H. unfold plugin_from_bytes_with, plugin_from_bytes. rewrite H. cbn [andb]. cbv zeta.
  destruct (list_eqb (strip_zero n) (plugin_bytes PClear)); [reflexivity|].
  destruct (list_eqb (strip_zero n) (plugin_bytes PNative)); [reflexivity|].
  destruct (list_eqb (strip_zero n) (plugin_bytes PSha2)) eqn:E; [|reflexivity].
  apply list_eqb_eq in E. now rewrite E.
Qed.

(** The result of a greeting with the plugin refused. *)
Definition refuse (h : res protocol_error handshake * bytes) : res protocol_error handshake * bytes :=
  match h with
  | (Ok x, b) => match hs_auth_plugin x with
                 | Some PSha2 => (Err (PUnknownAuthPlugin sha2_name), b)
                 | _ => (Ok x, b)
                 end
  | y => y
  end.

Lemma refuse_bind : forall A (m : P A) (k k' : A -> P handshake) b,
  (forall a b', k' a b' = refuse (k a b')) -> pbind m k' b = refuse (pbind m k b).
Proof. intros A m k k' b H. unfold pbind. destruct (m b) as [[a|e|] b']; auto. Qed.

Lemma handshake_all : forall f debug b, f_sha2 f = true -> handshake_with f debug b = handshake_p debug b.
Proof.
  intros f debug b H. unfold handshake_with, handshake_p.
  assert (B : forall A (m : P A) (k k' : A -> P handshake) b, (forall a b', k' a b' = k a b') -> pbind m k' b = pbind m k b)
    by (intros A m k k' b0 E; unfold pbind; destruct (m b0) as [[a|e|] b']; auto).
  do 13 (apply B; intros ? ?). cbv zeta.
  destruct (has_flag _ CAP_PLUGIN_AUTH); [|reflexivity].
  unfold pbind, eat_all, plift. rewrite from_bytes_all by exact H. reflexivity.
Qed.

Lemma handshake_less : forall f debug b, f_sha2 f = false -> handshake_with f debug b = refuse (handshake_p debug b).
Proof.
  intros f debug b H. unfold handshake_with, handshake_p. do 13 (apply refuse_bind; intros ? ?). cbv zeta.
  destruct (has_flag _ CAP_PLUGIN_AUTH); [|reflexivity].
  unfold pbind, eat_all, plift. rewrite from_bytes_less by exact H.
  destruct (plugin_from_bytes _) as [[| |]|e|]; reflexivity.
Qed.

Lemma handshake_data_all : forall f debug other o g, f_sha2 f = true ->
  handle_handshake_with f debug other o g = handle_handshake debug other o g.
Proof. intros f debug other o g H. unfold handle_handshake_with. rewrite handshake_all, H by exact H. reflexivity. Qed.

Lemma handshake_data_less : forall f debug other o g, f_sha2 f = false -> o_server_key o = None ->
  handle_handshake_with f debug other o g =
  match read_handshake debug g with
  | Ok h => match hs_auth_plugin h with Some PSha2 => Panic | _ => handle_handshake debug other o g end
  | _ => handle_handshake debug other o g
  end.
Proof.
  intros f debug other o g H K. unfold handle_handshake_with, handle_handshake, read_handshake. rewrite handshake_less, H, K by exact H.
  destruct (handshake_p debug g) as [[h|e|] b]; cbn [refuse fst]; try reflexivity.
  destruct (hs_auth_plugin h) as [[| |]|] eqn:E; cbn [fst]; rewrite ?E; reflexivity.
Qed.

Lemma switch_all : forall f q, f_sha2 f = true -> read_auth_switch_with f q = read_auth_switch q.
Proof.
  intros f q H. unfold read_auth_switch_with, read_auth_switch, plugin_p, pbind, plift.
  destruct (skip 1 q) as [[?|?|] b1]; try reflexivity. destruct (eat_null_slice b1) as [[n|?|] b2]; try reflexivity.
  now rewrite from_bytes_all.
Qed.

Lemma switch_less : forall f q, f_sha2 f = false ->
  read_auth_switch_with f q = match read_auth_switch q with
                              | Ok (PSha2, _) => Err (PUnknownAuthPlugin sha2_name)
                              | r => r
                              end.
Proof.
  intros f q H. unfold read_auth_switch_with, read_auth_switch, plugin_p, pbind, plift.
  destruct (skip 1 q) as [[?|?|] b1]; try reflexivity. destruct (eat_null_slice b1) as [[n|?|] b2]; try reflexivity.
  rewrite from_bytes_less by exact H. destruct (plugin_from_bytes n) as [[| |]|e|]; reflexivity.
Qed.

(** ** Packets that name the plugin *)

Lemma greeting_names : forall debug g h, bytes_ok g -> read_handshake debug g = Ok h -> hs_auth_plugin h = Some PSha2 -> names_sha2 g.
Proof.
  intros debug g h Hb E Hp. destruct (loose_read_inv debug g h Hb E) as (p1 & p2 & G & _). rewrite Hp in G.
  destruct G as [proto wv filler coll res wp _ _ _ _ _ _ _ _ _ _ _ Hw ->]. left.
  destruct (Z.testbit _ PLUGIN_AUTH_BIT); [|discriminate]. destruct Hw as (p & Ep & Hw). injection Ep as <-.
  repeat rewrite app_assoc. destruct Hw as [-> | ->]; eexists; [right | left]; reflexivity.
Qed.

Lemma from_bytes_sha2 : forall n, plugin_from_bytes n = Ok PSha2 -> n = plugin_name PSha2 \/ n = plugin_name PSha2 ++ [0].
Proof.
  intros n H. unfold plugin_from_bytes in H. cbv zeta in H.
  destruct (list_eqb (strip_zero n) (plugin_bytes PClear)); [discriminate|].
  destruct (list_eqb (strip_zero n) (plugin_bytes PNative)); [discriminate|].
  destruct (list_eqb (strip_zero n) (plugin_bytes PSha2)) eqn:E; [|discriminate]. apply list_eqb_eq in E.
  change (plugin_bytes PSha2) with (plugin_name PSha2) in E. rewrite <- E. clear. unfold strip_zero.
  destruct (rev n) as [|x r] eqn:R.
  - left. reflexivity.
  - destruct (Z.eq_dec x 0) as [-> | Hx].
    + right. rewrite <- (rev_involutive n), R. reflexivity.
    + left. destruct x; congruence.
Qed.

Lemma switch_names : forall q nonce r, q = 254 :: r -> read_auth_switch q = Ok (PSha2, nonce) -> names_sha2 q.
Proof.
  intros q nonce r -> H. unfold read_auth_switch in H.
  rewrite (pbind_ok _ _ _ tt r) in H by (apply (skip_app 1 [254]); reflexivity).
  unfold plugin_p in H. destruct (in_dec Z.eq_dec 0 r) as [I|I].
  - destruct (split_nul r I) as (w & r' & -> & Hw).
    pose proof (eat_null_slice_general w r' [] Hw) as E. rewrite app_nil_r in E.
    unfold pbind in H. change (w ++ [0] ++ r') with (w ++ 0 :: r') in H. rewrite E in H. unfold plift, eat_all, pret in H.
    destruct (plugin_from_bytes w) as [p|e|] eqn:F; try discriminate. injection H as -> _.
    right. exists r'. unfold switch_request, wire_nul_str.
    apply from_bytes_sha2 in F. destruct F as [-> | ->]; [rewrite <- app_assoc; reflexivity|].
    exfalso. apply Hw. apply in_or_app. right. now left.
  - left. assert (E : eat_null_slice r = (Ok r, [])).
    { unfold eat_null_slice. rewrite position_none by exact I. cbv zeta. unfold pbind, eat.
      rewrite (proj2 (Z.ltb_ge _ _) (Z.le_refl _)). unfold pret.
      rewrite takeZ_firstn, dropZ_skipn. unfold lenZ. rewrite Nat2Z.id, firstn_all, skipn_all.
      now rewrite strip_zero_not by exact I. }
    unfold pbind in H. rewrite E in H. unfold plift, eat_all, pret in H.
    destruct (plugin_from_bytes r) as [p|e|] eqn:F; try discriminate. injection H as -> _.
    apply from_bytes_sha2 in F. exists [254]. destruct F as [-> | ->]; [left | right]; reflexivity.
Qed.

(** ** Runs *)

Lemma auth_all : forall f n S (t : transport S) pr secure o s, f_sha2 f = true ->
  continue_auth_with f n t pr secure o s = continue_auth n t pr secure o s.
Proof.
  intros f n. induction n as [|n IH]; intros S t pr secure o [s d] H; [reflexivity|].
  cbn [continue_auth_with continue_auth]. cbv zeta. cbn [snd]. rewrite H.
  assert (X : forall sh : bool,
    (packet <- on_stream (t_read t) ;;
     if first_is 0 packet then ioret tt
     else if sh && first_is 1 packet
          then if second_is 3 packet then on_stream (t_read t) ;;; ioret tt
               else if second_is 4 packet then full_auth t pr secure o
               else iores (Err (EProtocol (PUnexpectedPacket packet)))
          else if first_is 254 packet && negb (d_auth_switched d)
               then request <- iores (of_protocol (read_auth_switch_with f packet)) ;;
                    (let '(plugin, nonce) := request in
                     (fun '(s0, d0) => if d_auth_switched d0 then (Panic, (s0, d0)) else (Ok tt, (s0, switched d0 plugin nonce))) ;;;
                     plugin_data <- iores (gen_data pr plugin (utf8_encode (o_password o)) nonce o) ;;
                     on_stream (t_write t match plugin_data with Some x => plugin_data_serialize x | None => [] end) ;;;
                     continue_auth_with f n t pr secure o)
               else iores (err_or_unexpected packet (d_capabilities d))) (s, d) =
    (packet <- on_stream (t_read t) ;;
     if first_is 0 packet then ioret tt
     else if sh && first_is 1 packet
          then if second_is 3 packet then on_stream (t_read t) ;;; ioret tt
               else if second_is 4 packet then full_auth t pr secure o
               else iores (Err (EProtocol (PUnexpectedPacket packet)))
          else if first_is 254 packet && negb (d_auth_switched d)
               then request <- iores (of_protocol (read_auth_switch packet)) ;;
                    (let '(plugin, nonce) := request in
                     (fun '(s0, d0) => if d_auth_switched d0 then (Panic, (s0, d0)) else (Ok tt, (s0, switched d0 plugin nonce))) ;;;
                     plugin_data <- iores (gen_data pr plugin (utf8_encode (o_password o)) nonce o) ;;
                     on_stream (t_write t match plugin_data with Some x => plugin_data_serialize x | None => [] end) ;;;
                     continue_auth n t pr secure o)
               else iores (err_or_unexpected packet (d_capabilities d))) (s, d)).
  { intros sh. rewrite !iob. destruct (on_stream (t_read t) (s, d)) as [[q|e|] [s1 d1]]; try reflexivity.
    destruct (first_is 0 q); [reflexivity|]. destruct (sh && first_is 1 q); [reflexivity|].
    destruct (first_is 254 q && negb (d_auth_switched d)); [|reflexivity].
    unfold iores. rewrite !iob. rewrite switch_all by exact H.
    destruct (of_protocol (read_auth_switch q)) as [[pl nonce]|e|]; try reflexivity.
    rewrite !iob. destruct (d_auth_switched d1); [reflexivity|]. rewrite !iob.
    destruct (gen_data pr pl (utf8_encode (o_password o)) nonce o); try reflexivity. rewrite !iob.
    destruct (on_stream (t_write t _) (s1, switched d1 pl nonce)) as [[?|?|] s2]; try reflexivity. apply IH. exact H. }
  destruct (current_plugin o d); [exact (X false) | exact (X false) | exact (X true)].
Qed.

Lemma in_grows : forall S (t : transport S) n pr secure o s tr d x,
  (if d_auth_switched d then 1 <= n else 2 <= n)%nat -> In x tr ->
  In x (snd (fst (snd (continue_auth n (traced t) pr secure o (s, tr, d))))).
Proof.
  intros S t n pr secure o s tr d x Hn H. destruct (auth_run_shape n S t pr secure o s tr d Hn) as (ev & E & _).
  rewrite E. apply in_or_app. now left.
Qed.

Lemma gen_plugin : forall pr p pass nonce o x, gen_data pr p pass nonce o = Ok x -> o_auth_plugin o = None \/ o_auth_plugin o = Some p.
Proof.
  intros pr p pass nonce o x H. unfold gen_data in H. destruct (o_auth_plugin o) as [g|]; [|now left]. right.
  destruct p, g; cbn in H; (reflexivity || discriminate).
Qed.

(** One round without caching_sha2_password. *)
Definition native_round {S} (rd : bytes -> res protocol_error (auth_plugin * bytes)) (k : S * conn_data -> res error unit * (S * conn_data))
    (t : transport S) (pr : primitives) (o : conn_options) (s : S) (d : conn_data) : res error unit * (S * conn_data) :=
  match t_read t s with
  | (Ok q, s1) =>
    if first_is 0 q then (Ok tt, (s1, d))
    else if first_is 254 q && negb (d_auth_switched d) then
      match rd q with
      | Ok (pl, nonce) =>
        match gen_data pr pl (utf8_encode (o_password o)) nonce o with
        | Ok x => match t_write t (match x with Some y => plugin_data_serialize y | None => [] end) s1 with
                  | (Ok _, s2) => k (s2, switched d pl nonce)
                  | (Err e, s2) => (Err e, (s2, switched d pl nonce))
                  | (Panic, s2) => (Panic, (s2, switched d pl nonce))
                  end
        | Err e => (Err e, (s1, switched d pl nonce))
        | Panic => (Panic, (s1, switched d pl nonce))
        end
      | Err e => (Err (EProtocol e), (s1, d))
      | Panic => (Panic, (s1, d))
      end
    else (err_or_unexpected q (d_capabilities d), (s1, d))
  | (Err e, s1) => (Err e, (s1, d))
  | (Panic, s1) => (Panic, (s1, d))
  end.

Lemma round_all : forall n S (t : transport S) pr secure o s d, current_plugin o d <> PSha2 ->
  continue_auth (Datatypes.S n) t pr secure o (s, d) = native_round read_auth_switch (continue_auth n t pr secure o) t pr o s d.
Proof.
  intros n S t pr secure o s d Hc. cbn [continue_auth]. cbv zeta.
  replace (match current_plugin o d with PSha2 => true | _ => false end) with false by (destruct (current_plugin o d); congruence).
  cbn [andb]. unfold native_round. rewrite iob. unfold on_stream at 1. destruct (t_read t s) as [[q|e|] s1]; try reflexivity.
  destruct (first_is 0 q); [reflexivity|]. destruct (first_is 254 q && negb (d_auth_switched d)) eqn:Hs; [|reflexivity].
  apply andb_true_iff in Hs. destruct Hs as (_ & Hs). apply negb_true_iff in Hs.
  rewrite iob. unfold iores at 1. destruct (read_auth_switch q) as [[pl nonce]|e|]; try reflexivity. cbn [of_protocol rmap_err].
  rewrite iob, Hs. rewrite iob. unfold iores at 1. destruct (gen_data pr pl (utf8_encode (o_password o)) nonce o) as [x|e|]; try reflexivity.
  rewrite iob. unfold on_stream at 1. destruct (t_write t _ s1) as [[u|e|] s2]; reflexivity.
Qed.

Lemma round_less : forall f n S (t : transport S) pr secure o s d, f_sha2 f = false ->
  continue_auth_with f (Datatypes.S n) t pr secure o (s, d) =
  native_round (read_auth_switch_with f) (continue_auth_with f n t pr secure o) t pr o s d.
Proof.
  intros f n S t pr secure o s d H. cbn [continue_auth_with]. cbv zeta. cbn [snd]. rewrite H.
  assert (X : forall A (p : auth_plugin) (x : A), match p with PSha2 => x | PNative | PClear => x end = x) by (intros A [| |] x; reflexivity).
  rewrite X. clear X.
  unfold native_round. rewrite iob. unfold on_stream at 1. destruct (t_read t s) as [[q|e|] s1]; try reflexivity.
  destruct (first_is 0 q); [reflexivity|]. destruct (first_is 254 q && negb (d_auth_switched d)) eqn:Hs; [|reflexivity].
  apply andb_true_iff in Hs. destruct Hs as (_ & Hs). apply negb_true_iff in Hs.
  rewrite iob. unfold iores at 1. destruct (read_auth_switch_with f q) as [[pl nonce]|e|]; try reflexivity. cbn [of_protocol rmap_err].
  rewrite iob, Hs. rewrite iob. unfold iores at 1. destruct (gen_data pr pl (utf8_encode (o_password o)) nonce o) as [x|e|]; try reflexivity.
  rewrite iob. unfold on_stream at 1. destruct (t_write t _ s1) as [[u|e|] s2]; reflexivity.
Qed.

Lemma traced_read : forall S (t : transport S) s tr, t_read (traced t) (s, tr) =
  match t_read t s with (Ok p, s') => (Ok p, (s', tr ++ [Received p])) | (r, s') => (r, (s', tr)) end.
Proof. reflexivity. Qed.
Lemma traced_write : forall S (t : transport S) b s tr, t_write (traced t) b (s, tr) =
  let '(r, s') := t_write t b s in (r, (s', tr ++ [Sent b])).
Proof. reflexivity. Qed.

Lemma auth_less : forall f n S (t : transport S) pr secure o s tr d, f_sha2 f = false -> o_auth_plugin o <> Some PSha2 ->
  (if d_auth_switched d then 1 <= n else 2 <= n)%nat -> current_plugin o d <> PSha2 ->
  (forall p, In (Received p) (snd (fst (snd (continue_auth n (traced t) pr secure o (s, tr, d))))) -> ~ names_sha2 p) ->
  continue_auth_with f n (traced t) pr secure o (s, tr, d) = continue_auth n (traced t) pr secure o (s, tr, d).
Proof.
  intros f n. induction n as [|n IH]; intros S t pr secure o s tr d H Ho Hn Hc Hp; [reflexivity|].
  rewrite round_less, round_all in * by assumption. unfold native_round in *.
  rewrite traced_read in *. destruct (t_read t s) as [[q|e|] s1]; try reflexivity.
  destruct (first_is 0 q); [reflexivity|]. destruct (first_is 254 q && negb (d_auth_switched d)) eqn:Hs; [|reflexivity].
  apply andb_true_iff in Hs. destruct Hs as (F & Hs). apply negb_true_iff in Hs. rewrite Hs in Hn. apply first_is_iff in F. destruct F as (r & F).
  rewrite switch_less by exact H.
  destruct (read_auth_switch q) as [[pl nonce]|e|] eqn:Er; [|reflexivity|reflexivity].
  assert (Np : names_sha2 q -> False).
  { apply Hp. destruct (gen_data pr pl (utf8_encode (o_password o)) nonce o) as [x|e|]; cbn [fst snd];
      try (apply in_or_app; right; now left).
    rewrite traced_write. destruct (t_write t _ s1) as [[u|e|] s2]; cbn [fst snd];
      try (apply in_or_app; left; apply in_or_app; right; now left).
    apply in_grows; [cbn; lia|]. apply in_or_app; left; apply in_or_app; right; now left. }
  destruct pl; [| |destruct Np; eapply switch_names; eassumption].
  all: (destruct (gen_data pr _ (utf8_encode (o_password o)) nonce o) as [x|e|] eqn:Eg; [|reflexivity|reflexivity]).
  all: apply gen_plugin in Eg; rewrite traced_write in *; destruct (t_write t _ s1) as [[u|e|] s2];
    try reflexivity; apply IH; auto; [cbn; lia|]; unfold current_plugin; destruct Eg as [-> | ->]; discriminate.
Qed.

(** What a build without the plugin does when it is asked for. *)
Lemma switch_refused : forall f n S (t : transport S) pr secure o s d q data s1, f_sha2 f = false ->
  d_auth_switched d = false -> t_read t s = (Ok q, s1) -> switch_request PSha2 data q ->
  continue_auth_with f (Datatypes.S n) t pr secure o (s, d) = (Err (EProtocol (PUnknownAuthPlugin (plugin_name PSha2))), (s1, d)).
Proof.
  intros f n S t pr secure o s d q data s1 H Hs E Hq. rewrite round_less by exact H. unfold native_round. rewrite E.
  rewrite switch_less, (read_switch_request _ _ _ Hq) by exact H. rewrite Hq, Hs. reflexivity.
Qed.
