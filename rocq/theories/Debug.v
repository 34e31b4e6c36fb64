(** Debug output: src/connection/options.rs, src/connection/mod.rs, src/connection/data.rs,
    src/connection/packets/err.rs; with std::fmt's [debug_struct] (not the alternate form [{:#?}]). *)
From Coq Require Import String ZArith List Bool.
From Verif Require Import Base Types Utf8 ValueText Crypt Handshake.
Import ListNotations.
Open Scope Z_scope.

Section Debug.
  (** Which characters std prints as they are; only asked for characters that have no escape of
      their own.  Used at src/connection/options.rs:122-123. *)
  Variable printable : Z -> bool.

  (** Digits of a character's number (std, in [char::escape_unicode]); used at
      src/connection/options.rs:122-123. *)
  Fixpoint unicode_digits (fuel : nat) (n : Z) : str :=
    match fuel with
    | O => []
    | S f => if n <? 16 then [hex_digit n] else unicode_digits f (n / 16) ++ [hex_digit (n mod 16)]
    end.

  (** [char::escape_debug_ext] as used for strings (the single quote stays); used at
      src/connection/options.rs:122-123. *)
  Definition escape_char (c : Z) : str :=
    if c =? 0 then [92; 48] else
    if c =? 9 then [92; 116] else
    if c =? 13 then [92; 114] else
    if c =? 10 then [92; 110] else
    if c =? 92 then [92; 92] else
    if c =? 34 then [92; 34] else
    if printable c then [c] else [92; 117; 123] ++ unicode_digits 6 c ++ [125].

  (** [Debug] of a [str] (std); used at src/connection/options.rs:122-123,
      src/connection/packets/err.rs:71, 73 *)
  Definition debug_str (s : str) : str := [34] ++ flat_map escape_char s ++ [34].

  (** [DebugStruct] (std); used at src/connection/options.rs:121-133. *)
  Fixpoint debug_fields (first : bool) (fields : list (str * str)) : str :=
    match fields with
    | [] => []
    | (n, v) :: r => (if first then s2l " { " else s2l ", ") ++ n ++ s2l ": " ++ v ++ debug_fields false r
    end.

  (** [Formatter::debug_struct(..).field(..).finish()] (std); used at src/connection/options.rs:121-133. *)
  Definition debug_struct (name : str) (fields : list (str * str)) : str :=
    name ++ debug_fields true fields ++ match fields with [] => [] | _ => s2l " }" end.

  (** [Debug] of an [Option] (derived in std); used at src/connection/options.rs:124 *)
  Definition debug_option {A} (show : A -> str) (o : option A) : str :=
    match o with Some a => s2l "Some(" ++ show a ++ s2l ")" | None => s2l "None" end.

  (** [Debug] of a [bool] (std); used at src/connection/options.rs:128 *)
  Definition debug_bool (b : bool) : str := if b then s2l "true" else s2l "false".

  (** Derived [Debug]: src/connection/types/auth_plugin.rs:15-27 *)
  Definition debug_plugin (p : auth_plugin) : str :=
    match p with PClear => s2l "Clear" | PNative => s2l "Native" | PSha2 => s2l "Sha2" end.

  (** src/connection/options.rs:119-134.  The texts of the transport's options, of the timeout and
      of the key are given. *)
  Definition debug_options (connection timeout : str) (key : public_key -> str) (o : conn_options) : str :=
    debug_struct (s2l "ConnectionOptions")
      [(s2l "user", debug_str (o_user o));
       (s2l "password", debug_str (o_password o));
       (s2l "db_name", debug_option debug_str (o_db_name o));
       (s2l "connection", connection);
       (s2l "max_allowed_packet", debug_option dec (o_max_allowed_packet o));
       (s2l "timeout", timeout);
       (s2l "allow_cleartext_password", debug_bool (o_allow_cleartext o));
       (s2l "auth_plugin", debug_option debug_plugin (o_auth_plugin o));
       (s2l "server_key", debug_option key (o_server_key o))].

  (** [Debug] of a [Vec] or a tuple (std): used at src/connection/data.rs:54, 56 *)
  Fixpoint debug_items (items : list str) : str :=
    match items with
    | [] => []
    | [x] => x
    | x :: r => x ++ s2l ", " ++ debug_items r
    end.

  (** src/connection/data.rs:48-66.  The text of the capabilities is given. *)
  Definition debug_data (caps : Z -> str) (key : public_key -> str) (d : conn_data) : str :=
    debug_struct (s2l "ConnectionData")
      [(s2l "id", dec (d_id d));
       (s2l "is_mariadb", debug_bool (d_is_mariadb d));
       (s2l "version", s2l "(" ++ debug_items [dec (fst (fst (d_version d))); dec (snd (fst (d_version d))); dec (snd (d_version d))] ++ s2l ")");
       (s2l "capabilities", caps (d_capabilities d));
       (s2l "nonce", s2l "[" ++ debug_items (map dec (d_nonce d)) ++ s2l "]");
       (s2l "server_key", debug_option key (d_server_key d));
       (s2l "auth_plugin", debug_plugin (d_auth_plugin d));
       (s2l "auth_switched", debug_bool (d_auth_switched d));
       (s2l "max_allowed_packet", dec (d_max_allowed_packet d))].

  (** src/connection/mod.rs:68-76 *)
  Definition debug_connection (connection timeout : str) (key : public_key -> str) (caps : Z -> str)
    (seq : Z) (d : conn_data) (o : conn_options) : str :=
    debug_struct (s2l "Connection")
      [(s2l "seq_id", dec seq); (s2l "data", debug_data caps key d);
       (s2l "options", debug_options connection timeout key o)].

  (** src/connection/packets/err.rs:66-76, and for progress the derived one at lines 108-114.  The
      state is taken for text without a check (lines 54-59). *)
  Definition debug_err (e : err_packet) : str :=
    match e with
    | ErrError code state message =>
      debug_struct (s2l "ErrorPacket")
        ([(s2l "code", dec code)] ++
         match state with
         | Some s => [(s2l "state", debug_str (match utf8_decode s with Some t => t | None => [] end))]
         | None => []
         end ++
         [(s2l "message", debug_str message)])
    | ErrProgress stage max_stage progress info =>
      debug_struct (s2l "ProgressPacket")
        [(s2l "stage", dec stage); (s2l "max_stage", dec max_stage); (s2l "progress", dec progress);
         (s2l "stage_info", s2l "[" ++ debug_items (map dec info) ++ s2l "]")]
    end.
End Debug.
