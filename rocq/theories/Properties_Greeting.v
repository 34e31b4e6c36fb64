(** Property C34, exactly: which documented greetings are decoded right, whatever length of the
    challenge they announce. *)
From Coq Require Import String ZArith List Bool Lia.
From Verif Require Import Base BaseFacts Types Utf8 ParseBuf BufMut Spec_Wire ParseBuf_proofs Rows_proofs Conversion
  Spec_Conv Conversion_proofs Packets Spec_Packets Packets_proofs Scramble Crypt Handshake Spec_Handshake Handshake_proofs
  Greeting_proofs LongGreeting_proofs.
Import ListNotations.
Open Scope Z_scope.

(** Of the documented greetings with a plugin the client knows, or none, the ones decoded right are
    exactly those without a second part of the challenge, those that announce a length up to 127,
    those up to 135 if overflows are not checked, and above 135 those that name no plugin.  For the
    others: with checks, 128 to 135 is a panic; above 135 all but 13 bytes of the second part are taken
    for the beginning of the plugin's name. *)
Theorem C34_exactly_partial : forall debug id caps status len version part1 part2 plugin pkt,
  greeting id caps status len version part1 part2 plugin pkt ->
  (forall name, plugin = Some name -> exists p, name = plugin_name p) ->
  ((exists h, read_handshake debug pkt = Ok h /\ option_map plugin_name (hs_auth_plugin h) = plugin /\
      hs_connection_id h = id /\ hs_capabilities h = caps /\ hs_nonce h = challenge part1 part2 /\
      hs_server_version h = version /\ hs_status h = status) <->
   Z.testbit caps SECURE_CONNECTION_BIT = false \/ len <= 127 \/ (len <= 135 /\ debug = false) \/
     (135 < len /\ plugin = None)) /\
  (Z.testbit caps SECURE_CONNECTION_BIT = true -> 128 <= len <= 135 -> debug = true -> read_handshake debug pkt = Panic) /\
  (Z.testbit caps SECURE_CONNECTION_BIT = true -> 135 < len -> forall name, plugin = Some name ->
     read_handshake debug pkt = Err (PUnknownAuthPlugin (skipn 13 part2 ++ name))).
Proof. exact long_greeting. Qed.
Print Assumptions C34_exactly_partial.

(** A greeting that announces 140 bytes: 132 in the second part, of which 119 are taken for a name. *)
Example C34_exactly_case :
  let part2 := repeat 7 131 ++ [0] in
  let pkt := [10] ++ s2l "8.0.36" ++ [0] ++ [9; 0; 0; 0] ++ [1; 2; 3; 4; 5; 6; 7; 8] ++ [0] ++ [255; 255] ++ [255] ++ [2; 0] ++
    [255; 223] ++ [140] ++ repeat 0 10 ++ part2 ++ s2l "caching_sha2_password" ++ [0] in
  greeting 9 3758096383 2 140 (s2l "8.0.36") [1; 2; 3; 4; 5; 6; 7; 8] part2 (Some (plugin_name PSha2)) pkt /\
  read_handshake false pkt = Err (PUnknownAuthPlugin (repeat 7 118 ++ [0] ++ s2l "caching_sha2_password")).
Proof.
  cbv zeta. split; [|vm_compute; reflexivity].
  apply greeting_intro with (wv := s2l "8.0.36") (filler := 0) (collation := 255) (reserved := repeat 0 10)
    (w2 := repeat 7 131 ++ [0]) (wp := s2l "caching_sha2_password" ++ [0]); try lia; try reflexivity.
  - split; [lia | vm_compute; intros H; discriminate H].
  - apply utf8_text_ascii. repeat constructor; lia.
  - vm_compute. intuition discriminate.
  - vm_compute. split; reflexivity.
  - vm_compute Z.testbit. cbn match. exists (plugin_name PSha2). split; [reflexivity|].
    split; [vm_compute; intuition discriminate | left; reflexivity].
Qed.
