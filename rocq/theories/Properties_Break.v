(** Property C114: logging in panics in exactly these exchanges. *)
From Coq Require Import String ZArith List Bool Lia.
From Verif Require Import Base BaseFacts Types Utf8 ParseBuf BufMut Spec_Wire ParseBuf_proofs Conversion Conversion_proofs
  Packets Spec_Packets Packets_proofs Scramble Crypt Spec_Crypt Crypt_proofs Handshake Spec_Handshake Handshake_proofs
  Framing Framing_proofs Auth Spec_Auth Auth_proofs ValueText Spec_Text ValueText_proofs Rows Rows_proofs
  StmtPackets Conn Spec_Conn Conn_proofs Spec_Connect Greeting_proofs Properties_Rows Properties_Crypt Connect_proofs Spec_Accept
  Accept_proofs Properties_Handshake Properties_Auth Properties_Connect Properties_Accept Spec_Break Break_proofs.
Import ListNotations.
Open Scope Z_scope.
Open Scope io_scope.

(** After an accepted greeting, and with a plugin the options allow, over a transport that does not panic
    itself: logging in panics exactly if the rest of the conversation is one of the breaking exchanges,
    and at its end. *)
Theorem C114_exactly : forall pr debug other secure o, hash_fun 20 (p_sha1 pr) -> hash_fun 32 (p_sha256 pr) ->
  forall id caps status len version part1 part2 plugin p g,
  loose_greeting debug id caps status len version part1 part2 plugin g -> ~ version_breaks other 3 version ->
  p = match o_auth_plugin o with Some f => f | None => match plugin with Some q => q | None => PNative end end ->
  allowed_by o p ->
  exists h, forall S (t : transport S) s s1, reads_octets t -> steady t -> t_read t s = (Ok g, s1) ->
    forall s', authenticate t pr debug other secure o s = (Panic, s') <->
      exists ev, plays t (Sent h :: ev) s1 s' /\
        breaking (p_sha1 pr) (p_sha256 pr) (fun n e m => p_encrypt pr (mkKey n e) m = Panic) secure (allowed_by o)
          (utf8_encode (o_password o)) (known_by o) p (challenge part1 part2) true ev.
Proof.
  intros pr debug other secure o H1 H2 id caps status len version part1 part2 plugin p g Hg Hv Hp Ha.
  destruct (loose_data debug other o _ _ _ _ _ _ _ _ _ Hg Hv) as (m & v & Vo & E).
  match type of E with _ = Ok ?y => set (d0 := y) in * end.
  destruct (token_out pr o p (challenge part1 part2) H1 H2 Ha) as (x & G & _ & _).
  assert (Cp : current_plugin o d0 = p) by (unfold current_plugin; rewrite Hp; reflexivity).
  assert (Er : exists h, make_handshake_response pr o d0 = Ok h).
  { eexists. unfold make_handshake_response. cbv zeta. change (d_nonce d0) with (challenge part1 part2).
    unfold current_plugin in Cp. rewrite Cp, G. reflexivity. }
  destruct Er as (h & Er). exists h. intros S t s s1 Ht Hst Eg s'.
  assert (A : authenticate t pr debug other secure o s = (t_write t h ;;;
    fun s => match continue_auth 2 t pr secure o (s, d0) with
             | (Ok _, (s', d')) => (Ok d', s')
             | (Err e, (s', _)) => (Err e, s')
             | (Panic, (s', _)) => (Panic, s')
             end) s1).
  { unfold authenticate. rewrite iob, Eg, iob. unfold iores at 1. rewrite E. cbn [of_protocol rmap_err].
    rewrite iob. unfold iores at 1. rewrite Er. reflexivity. }
  rewrite A, iob. split.
  - intros H. destruct (t_write t h s1) as [[[]|e|] s2] eqn:Ew; try discriminate.
    2:{ exfalso. apply (proj2 Hst h s1). now rewrite Ew. }
    destruct (continue_auth 2 t pr secure o (s2, d0)) as [[u|e|] [s3 d3]] eqn:Ec; try discriminate. injection H as <-.
    destruct (continue_break t pr secure o Ht Hst H1 H2 true d0 s2 s3 d3 eq_refl eq_refl Ec) as (ev & P & K).
    exists ev. split; [cbn [plays]; eauto|]. rewrite Cp in K. exact K.
  - intros (ev & (s2 & Ew & P) & K). rewrite Ew.
    destruct (breaking_runs pr secure o H1 H2 _ _ _ _ K d0 Cp eq_refl eq_refl eq_refl S t s2 s' Ht P) as (d & R).
    change (if true then 2%nat else 1%nat) with 2%nat in R. now rewrite R.
Qed.
Print Assumptions C114_exactly.

(** And it panics otherwise only at the greeting (C35), with nothing sent; a plugin the options do not
    allow is an error. *)
Theorem C114_only : forall pr debug other secure o S (t : transport S) s s', reads_octets t -> steady t ->
  authenticate t pr debug other secure o s = (Panic, s') ->
  exists g s1, t_read t s = (Ok g, s1) /\
    ((s' = s1 /\ forall id caps status len version part1 part2 plugin,
        loose_greeting debug id caps status len version part1 part2 plugin g -> version_breaks other 3 version) \/
     exists id caps status len version part1 part2 plugin,
       loose_greeting debug id caps status len version part1 part2 plugin g /\ ~ version_breaks other 3 version /\
       allowed_by o (match o_auth_plugin o with Some f => f | None => match plugin with Some q => q | None => PNative end end)).
Proof.
  intros pr debug other secure o S t s s' Ht Hst H. unfold authenticate in H. rewrite iob in H.
  destruct (t_read t s) as [[g|e|] s1] eqn:Eg; try discriminate.
  2:{ exfalso. apply (proj1 Hst s). now rewrite Eg. }
  exists g, s1. split; [reflexivity|]. rewrite iob in H. unfold iores at 1 in H.
  destruct (handle_handshake debug other o g) as [d0|e|] eqn:Eh; try discriminate; cbn [of_protocol rmap_err] in H.
  2:{ left. injection H as <-. split; [reflexivity|]. now apply (proj1 (C35_outcome debug other o g (Ht _ _ _ Eg))). }
  right. destruct (greeting_parts debug other o g d0 (Ht _ _ _ Eg) Eh) as (id & caps & status & len & version & part1 & part2 & plugin & G & V).
  exists id, caps, status, len, version, part1, part2, plugin. split; [exact G|]. split; [exact V|].
  destruct (loose_data debug other o _ _ _ _ _ _ _ _ _ G V) as (m & v & _ & E). rewrite E in Eh. injection Eh as <-.
  rewrite iob in H. unfold iores at 1 in H. unfold make_handshake_response in H. cbv zeta in H. cbn [d_auth_plugin d_nonce] in H.
  match type of H with context [gen_data ?a ?b ?c ?e ?f] => pose proof (gen_data_np a b c e f) as N;
    destruct (gen_data a b c e f) as [y|er|] eqn:Gd end; cbn [rbind] in H; try discriminate; [|contradiction].
  now apply gen_data_allowed in Gd.
Qed.
Print Assumptions C114_only.

(** The sizes of moduli for which encrypting can panic: one bit more than a whole number of bytes. *)
Definition odd_size (n : Z) : Prop := exists k, 0 <= k /\ 256 ^ k <= n < 2 * 256 ^ k.

Theorem C114_encryption : forall sha1 seed n e data, encrypt_padded sha1 seed (mkKey n e) data = Panic ->
  odd_size n /\ 256 ^ (44 + Z.of_nat (length data)) <= n.
Proof.
  intros h seed n e data H. destruct (encrypt_panics h seed n e data H) as (k & Hk & Hl). unfold lenZ in Hl.
  split; [exists k; split; [lia | exact Hk]|].
  apply Z.le_trans with (256 ^ k); [|lia]. apply Z.pow_le_mono_r; lia.
Qed.
Print Assumptions C114_encryption.

(** Packets that do no harm: no key file cut short, no key of such a size, no request to switch without a
    challenge. *)
Definition harmless (pkt : list Z) : Prop :=
  (forall w, pkt = 1 :: w -> ~ cut_pem w) /\
  (forall w n e, pkt = 1 :: w -> loose_pem n e w -> ~ odd_size n) /\
  (forall q data, loose_switch q data pkt -> ~ switch_nonce data []).

(** Over an encrypted transport logging in never panics after the greeting; without one, not if all
    packets are harmless and the key the user gave is of another size. *)
Theorem C114_no_panic_partial : forall pr seed debug other secure o, hash_fun 20 (p_sha1 pr) -> hash_fun 32 (p_sha256 pr) ->
  (forall k m, p_encrypt pr k m = encrypt_padded (p_sha1 pr) seed k m) ->
  forall id caps status len version part1 part2 plugin g,
  loose_greeting debug id caps status len version part1 part2 plugin g -> ~ version_breaks other 3 version ->
  forall S (t : transport S) s s1, reads_octets t -> steady t -> t_read t s = (Ok g, s1) ->
  secure = true \/
    ((forall s p s', t_read t s = (Ok p, s') -> harmless p) /\ (forall n e, known_by o = Some (n, e) -> ~ odd_size n)) ->
  forall s', authenticate t pr debug other secure o s <> (Panic, s').
Proof.
  intros pr seed debug other secure o H1 H2 Hen id caps status len version part1 part2 plugin g Hg Hv S t s s1 Ht Hst Eg Hh s' H.
  assert (Ha : allowed_by o (match o_auth_plugin o with Some f => f | None => match plugin with Some q => q | None => PNative end end)).
  { destruct (loose_data debug other o _ _ _ _ _ _ _ _ _ Hg Hv) as (m & v & _ & E).
    unfold authenticate in H. rewrite iob, Eg, iob in H. unfold iores at 1 in H. rewrite E in H. cbn [of_protocol rmap_err] in H.
    rewrite iob in H. unfold iores at 1 in H. unfold make_handshake_response in H. cbv zeta in H. cbn [d_auth_plugin d_nonce] in H.
    match type of H with context [gen_data ?a ?b ?c ?e ?f] => pose proof (gen_data_np a b c e f) as N;
      destruct (gen_data a b c e f) as [y|er|] eqn:Gd end; cbn [rbind] in H; try discriminate; [|contradiction].
    now apply gen_data_allowed in Gd. }
  destruct (C114_exactly pr debug other secure o H1 H2 _ _ _ _ _ _ _ _ _ g Hg Hv eq_refl Ha) as (h & K).
  apply (K S t s s1 Ht Hst Eg s') in H. destruct H as (ev & (s2 & _ & P) & B).
  assert (L : length part1 = 8%nat) by (destruct Hg; assumption).
  assert (Ne : challenge part1 part2 <> []) by (destruct part1; discriminate).
  assert (D : forall nonce n e, nonce <> [] -> ~ odd_size n ->
    ~ unencryptable (fun n e m => p_encrypt pr (mkKey n e) m = Panic) (utf8_encode (o_password o)) nonce n e).
  { intros nonce n e N1 N2 [U | (_ & U)]; [contradiction|]. rewrite Hen in U. apply C114_encryption in U. now apply N2. }
  clear Eg K Hg Hv Ha L. remember true as b eqn:Q in B. clear Q. revert s2 P Ne. induction B as [nonce sw r n e Hs Hk Hu | nonce sw r w Hs Hk Hc | nonce sw r n e w Hs Hk Hw Hu
      | p nonce q data nonce' pkt ev Ha Hr Hn HL IH]; intros s2 P Ne.
  - destruct Hh as [Hh | (_ & Hh)]; [congruence|]. apply (D _ n e Ne) in Hu; [contradiction|]. now apply (Hh n e).
  - destruct Hh as [Hh | (Hh & _)]; [congruence|]. destruct P as (s3 & _ & s4 & _ & s5 & E & _). apply Hh in E. destruct E as (E & _).
    now apply (E w).
  - destruct Hh as [Hh | (Hh & _)]; [congruence|]. destruct P as (s3 & _ & s4 & _ & s5 & E & _). apply Hh in E. destruct E as (_ & E & _).
    apply (D _ n e Ne) in Hu; [contradiction|]. now apply (E w n e).
  - destruct P as (s3 & E & s4 & _ & P). apply (IH s4 P). intros ->.
    destruct Hh as [Hh | (Hh & _)].
    + clear IH P. inversion HL; congruence.
    + apply Hh in E. destruct E as (_ & _ & E). now apply (E q data).
Qed.
Print Assumptions C114_no_panic_partial.

Definition real_prims (seed : list Z) : primitives :=
  mkPrims (toy_hash 20) (toy_hash 32) (encrypt_padded (toy_hash 20) seed).
Definition options_with (key : option public_key) : conn_options :=
  mkOptions (s2l "root") (s2l "secret") None None false None key.

Lemma byte_script_ok : reads_octets byte_script /\ steady byte_script.
Proof.
  split; [|split].
  - intros [i w] p s' H. cbn in H. destruct i as [|q i]; [discriminate|]. injection H as <- _. apply Forall_forall. intros b Hb.
    apply in_map_iff in Hb. destruct Hb as (x & <- & _). unfold byte_ok. lia.
  - intros [[|q i] w]; discriminate.
  - intros b [i w]. discriminate.
Qed.

Lemma mysql8_greeting_loose :
  loose_greeting true 9 3758096383 2 21 (s2l "8.0.36") [1; 2; 3; 4; 5; 6; 7; 8]
    [9; 10; 11; 12; 13; 14; 15; 16; 17; 18; 19; 20; 0] (Some PSha2) mysql8_greeting.
Proof.
  apply (loose_intro _ _ _ _ _ _ _ _ _ _ 10 (s2l "8.0.36") 0 255 (repeat 0 10) (plugin_name PSha2 ++ [0])); try lia; try reflexivity.
  - split; [lia|]. vm_compute. discriminate.
  - apply utf8_text_ascii. vm_compute. repeat constructor; discriminate.
  - vm_compute. intuition discriminate.
  - exists PSha2. split; [reflexivity | now left].
Qed.

(** Without the conditions it does panic: on a request to switch without a challenge, on a key file cut
    short, and on a key with 409 bits (that of C40). *)
Theorem C114_no_panic_refuted : exists seed part1 part2,
  loose_greeting true 9 3758096383 2 21 (s2l "8.0.36") part1 part2 (Some PSha2) mysql8_greeting /\
  ~ version_breaks (fun _ => true) 3 (s2l "8.0.36") /\
  (exists s, authenticate byte_script (real_prims seed) true (fun _ => true) false (options_with (Some (mkKey good_modulus 3)))
     ([mysql8_greeting; [254] ++ s2l "caching_sha2_password"; [1; 4]; [0]], []) = (Panic, s)) /\
  (exists s, authenticate byte_script (real_prims seed) true (fun _ => true) false (options_with None)
     ([mysql8_greeting; [1; 4]; 1 :: ascii_text "-----BEGIN PUBLIC KEY----- MAA= -----END PUBLIC KEY-----"; [0]], []) = (Panic, s)) /\
  (exists s, authenticate byte_script (real_prims seed) true (fun _ => true) false (options_with (Some (mkKey bad_modulus 3)))
     ([mysql8_greeting; [1; 4]; [0]], []) = (Panic, s)).
Proof.
  exists (repeat 6 20), [1; 2; 3; 4; 5; 6; 7; 8], [9; 10; 11; 12; 13; 14; 15; 16; 17; 18; 19; 20; 0]. splits.
  - exact mysql8_greeting_loose.
  - exact (proj2 C35_outcome_case).
  - eexists. vm_compute. reflexivity.
  - eexists. vm_compute. reflexivity.
  - eexists. vm_compute. reflexivity.
Qed.
Print Assumptions C114_no_panic_refuted.

(** With a key of 408 bits, and a complete file, the same exchanges end in errors or in success. *)
Example C114_case :
  (reads_octets byte_script /\ steady byte_script) /\ ~ odd_size good_modulus /\ odd_size bad_modulus /\
  harmless [0] /\ harmless [1; 4] /\
  (exists d h c, authenticate byte_script (real_prims (repeat 6 20)) true (fun _ => true) false (options_with (Some (mkKey good_modulus 3)))
     ([mysql8_greeting; [1; 4]; [0]], []) = (Ok d, ([], [h; c]))) /\
  (exists e h, authenticate byte_script (real_prims (repeat 6 20)) true (fun _ => true) false (options_with None)
     ([mysql8_greeting; [1; 4]; 1 :: ascii_text "-----BEGIN PUBLIC KEY----- MA%= -----END PUBLIC KEY-----"; [0]], []) =
     (Err e, ([[0]], [h; [2]]))) /\
  (exists d h x, authenticate byte_script (real_prims (repeat 6 20)) true (fun _ => true) true (options_with None)
     ([mysql8_greeting; [254] ++ s2l "caching_sha2_password"; [1; 4]; [0]], []) = (Ok d, ([], [h; x; s2l "secret" ++ [0]]))).
Proof.
  splits.
  - apply byte_script_ok.
  - apply byte_script_ok.
  - intros (k & Hk & K).
    assert (L : 2 * 256 ^ 50 <= good_modulus < 256 ^ 51) by (split; vm_compute; congruence).
    destruct (Z_lt_le_dec k 51) as [Lt|Ge].
    + pose proof (Z.pow_le_mono_r 256 k 50). lia.
    + pose proof (Z.pow_le_mono_r 256 51 k). lia.
  - exists 51. split; [lia|]. split; vm_compute; congruence.
  - unfold harmless. splits; [discriminate | discriminate |]. intros q data [H | (_ & H)]; discriminate H.
  - unfold harmless. splits.
    + intros w H. injection H as <-. intros C. apply C41_panics in C; [vm_compute in C; discriminate | repeat constructor; lia].
    + intros w n e H. injection H as <-. intros C. apply C41_accepted_files in C; [vm_compute in C; discriminate | repeat constructor; lia].
    + intros q data [H | (_ & H)]; discriminate H.
  - eexists _, _, _. vm_compute. reflexivity.
  - eexists _, _. vm_compute. reflexivity.
  - eexists _, _, _. vm_compute. reflexivity.
Qed.
