(** Debug output: C82, C83. *)
From Coq Require Import String ZArith List Bool Lia.
From Verif Require Import Base BaseFacts Types Utf8 ValueText Crypt Handshake Packets Options Debug Spec_Debug Spec_Text Spec_Conv Spec_Packets
  ParseBuf_proofs Packets_proofs Debug_proofs.
Import ListNotations.
Open Scope Z_scope.

(** ** C82: printing does not reveal the password *)

(** The data of a connection as set up from the greeting are printed the same whatever the
    password is. *)
Theorem C82_data_partial : forall debug other caps key o password packet d,
  handle_handshake debug other o packet = Ok d ->
  exists d', handle_handshake debug other
    (mkOptions (o_user o) password (o_db_name o) (o_max_allowed_packet o) (o_allow_cleartext o) (o_auth_plugin o) (o_server_key o)) packet = Ok d' /\
  debug_data caps key d' = debug_data caps key d.
Proof. intros debug other caps key o password packet d H. exists d. split; [|reflexivity]. rewrite <- H. reflexivity. Qed.
Print Assumptions C82_data_partial.

(** But printed options can be read by anyone: user and password. *)
Theorem C82_options_shown : forall printable connection timeout key o, str_ok (o_user o) -> str_ok (o_password o) ->
  find_password (debug_options printable connection timeout key o) = Some (o_user o, o_password o).
Proof. exact password_found. Qed.
Print Assumptions C82_options_shown.

(** So can a printed connection, which contains the printed options. *)
Theorem C82_connection_shown : forall printable connection timeout key caps seq d o, str_ok (o_user o) -> str_ok (o_password o) ->
  exists before text behind, debug_connection printable connection timeout key caps seq d o = before ++ text ++ behind /\
    find_password text = Some (o_user o, o_password o).
Proof.
  intros printable connection timeout key caps seq d o Hu Hp.
  destruct (connection_text printable connection timeout key caps seq d o) as (before & behind & E).
  exists before, (debug_options printable connection timeout key o), behind. split; [exact E|]. now apply password_found.
Qed.
Print Assumptions C82_connection_shown.

Theorem C82_password_refuted : exists printable connection timeout key o, o_password o = s2l "secret" /\
  find_password (debug_options printable connection timeout key o) = Some (s2l "ann", s2l "secret").
Proof.
  exists (fun _ => true), [], [], (fun _ => []), (default_options (s2l "ann") (s2l "secret")). vm_compute. auto.
Qed.
Print Assumptions C82_password_refuted.

Example C82_case :
  let o := default_options (s2l "ann") (s2l "se""cret\") in
  debug_options (fun _ => true) (s2l "TcpOptions") (s2l "10s") (fun _ => []) o =
    s2l "ConnectionOptions { user: ""ann"", password: ""se\""cret\\"", db_name: None, connection: TcpOptions, max_allowed_packet: None, timeout: 10s, allow_cleartext_password: false, auth_plugin: Some(Sha2), server_key: None }" /\
  find_password (debug_options (fun _ => true) (s2l "TcpOptions") (s2l "10s") (fun _ => []) o) = Some (s2l "ann", s2l "se""cret\").
Proof. vm_compute. auto. Qed.

(** ** C83: server errors in debug output *)

(** Different errors print differently: code, state and message can be told from the text. *)
Theorem C83_error_text : forall printable p1 p2 caps1 caps2 e1 e2, bytes_ok p1 -> bytes_ok p2 ->
  read_err p1 caps1 = Ok e1 -> read_err p2 caps2 = Ok e2 ->
  debug_err printable e1 = debug_err printable e2 -> e1 = e2.
Proof.
  intros printable p1 p2 caps1 caps2 e1 e2 B1 B2 R1 R2 E.
  apply (err_text_inj printable); [exact (read_err_fields _ _ _ B1 R1)|exact (read_err_fields _ _ _ B2 R2)|exact E].
Qed.
Print Assumptions C83_error_text.

(** The message and the state stand there as string literals, the code in decimal. *)
Theorem C83_error_literal : forall printable code state message, str_ok message -> str_ok state -> 0 <= code ->
  exists c s m, debug_err printable (ErrError code (Some (utf8_encode state)) message) =
    s2l "ErrorPacket { code: " ++ c ++ s2l ", state: """ ++ s ++ s2l ", message: """ ++ m /\
    nat_text code c /\
    literal InText (s ++ s2l ", message: """ ++ m) = Some (state, s2l ", message: """ ++ m) /\
    literal InText m = Some (message, s2l " }").
Proof. exact err_literal. Qed.
Print Assumptions C83_error_literal.

Example C83_case :
  read_err ([255; 21; 4; 35] ++ s2l "28000" ++ s2l "user 'a""b' denied") 0x200 =
    Ok (ErrError 1045 (Some (s2l "28000")) (s2l "user 'a""b' denied")) /\
  debug_err (fun _ => true) (ErrError 1045 (Some (s2l "28000")) (s2l "user 'a""b' denied")) =
    s2l "ErrorPacket { code: 1045, state: ""28000"", message: ""user 'a\""b' denied"" }".
Proof. vm_compute. auto. Qed.
