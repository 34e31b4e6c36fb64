(** Specification of the connection phase, from the protocol documentation (pages
    "Protocol::HandshakeV10", "Protocol::HandshakeResponse41") and the MySQL version format. *)
From Coq Require Import String ZArith List Bool.
From Verif Require Import Base Types Spec_Wire Spec_Conv Spec_Packets.
Import ListNotations.
Open Scope Z_scope.

(** Capability bits used here (page "Capabilities Flags"). *)
Definition CONNECT_WITH_DB_BIT : Z := 3.
Definition SECURE_CONNECTION_BIT : Z := 15.
Definition PLUGIN_AUTH_BIT : Z := 19.
Definition CONNECT_ATTRS_BIT : Z := 20.
Definition LENENC_CLIENT_DATA_BIT : Z := 21.

(** ASCII text as bytes. *)
Definition ascii_name (s : string) : list Z := s2l s.

(** The documented plugin names. *)
Definition plugin_name (p : auth_plugin) : list Z :=
  match p with
  | PClear => ascii_name "mysql_clear_password"
  | PNative => ascii_name "mysql_native_password"
  | PSha2 => ascii_name "caching_sha2_password"
  end.

(** A protocol-10 greeting.  [len] is the announced length of the plugin data; its second part has
    max(13, len - 8) bytes and is present with SECURE_CONNECTION; the plugin name, with or without
    its NUL (old servers forget it), is present with PLUGIN_AUTH. *)
Inductive greeting (id caps status len : Z) (version part1 part2 : list Z) (plugin : option (list Z)) (pkt : list Z)
  : Prop :=
| greeting_intro : forall wv filler collation reserved w2 wp,
    0 <= id < 2 ^ 32 -> 0 <= caps < 2 ^ 32 -> 0 <= len < 256 -> 0 <= collation < 256 ->
    known_status status ->
    utf8_text version wv -> ~ In 0 wv ->
    length part1 = 8%nat -> length reserved = 10%nat ->
    (if Z.testbit caps SECURE_CONNECTION_BIT
     then Z.of_nat (length part2) = Z.max 13 (len - 8) /\ w2 = part2
     else part2 = [] /\ w2 = []) ->
    (if Z.testbit caps PLUGIN_AUTH_BIT
     then exists name, plugin = Some name /\ ~ In 0 name /\ (wp = name ++ [0] \/ wp = name)
     else plugin = None) ->
    pkt = [10] ++ wv ++ [0] ++ wire_uint 4 id ++ part1 ++ [filler] ++ wire_uint 2 (caps mod 2 ^ 16) ++
          [collation] ++ wire_uint 2 status ++ wire_uint 2 (caps / 2 ^ 16) ++ [len] ++ reserved ++ w2 ++ wp ->
    greeting id caps status len version part1 part2 plugin pkt.

(** The 20 bytes of the challenge: the plugin data, cut or zero-filled. *)
Definition challenge (part1 part2 : list Z) : list Z :=
  firstn 20 (part1 ++ part2 ++ repeat 0 20).

(** What the client accepts as a greeting: any protocol version; the length of the plugin data read as
    a signed byte ([checked]: with overflow checks), of which the second part is at least 13 bytes; of
    the plugins the three it knows. *)
Definition second_part (checked : bool) (len : Z) : option Z :=
  if len <=? 127 then Some (Z.max 13 (len - 8))
  else if len <=? 135 then (if checked then None else Some (len - 8))
  else Some 13.

Inductive loose_greeting (checked : bool) (id caps status len : Z) (version part1 part2 : list Z) (plugin : option auth_plugin)
    (pkt : list Z) : Prop :=
| loose_intro : forall proto wv filler collation reserved wp,
    0 <= proto < 256 -> 0 <= id < 2 ^ 32 -> 0 <= caps < 2 ^ 32 -> 0 <= len < 256 -> 0 <= collation < 256 ->
    known_status status ->
    utf8_text version wv -> ~ In 0 wv ->
    length part1 = 8%nat -> length reserved = 10%nat ->
    (if Z.testbit caps SECURE_CONNECTION_BIT
     then second_part checked len = Some (Z.of_nat (length part2))
     else part2 = []) ->
    (if Z.testbit caps PLUGIN_AUTH_BIT
     then exists p, plugin = Some p /\ (wp = plugin_name p ++ [0] \/ wp = plugin_name p)
     else plugin = None) ->
    pkt = [proto] ++ wv ++ [0] ++ wire_uint 4 id ++ part1 ++ [filler] ++ wire_uint 2 (caps mod 2 ^ 16) ++
          [collation] ++ wire_uint 2 status ++ wire_uint 2 (caps / 2 ^ 16) ++ [len] ++ reserved ++ part2 ++ wp ->
    loose_greeting checked id caps status len version part1 part2 plugin pkt.

(** ** The server's reading of a handshake response *)
Record client_hello : Type := mkHello {
  ch_caps : Z;
  ch_max_packet : Z;
  ch_charset : Z;
  ch_user : list Z;
  ch_auth : list Z;
  ch_db : option (list Z);
  ch_plugin : option (list Z)
}.

Definition obind {A B} (o : option A) (f : A -> option B) : option B :=
  match o with Some a => f a | None => None end.

Definition srv_bytes (n : nat) (s : list Z) : option (list Z * list Z) :=
  if Nat.leb n (length s) then Some (firstn n s, skipn n s) else None.

Definition srv_uint (k : nat) (s : list Z) : option (Z * list Z) :=
  obind (srv_bytes k s) (fun '(x, r) => Some (fold_right (fun b acc => b + 256 * acc) 0 x, r)).

Fixpoint srv_nul (s : list Z) : option (list Z * list Z) :=
  match s with
  | [] => None
  | x :: r => if x =? 0 then Some ([], r) else obind (srv_nul r) (fun '(a, b) => Some (x :: a, b))
  end.

Definition srv_lenenc (s : list Z) : option (Z * list Z) :=
  obind (srv_uint 1 s) (fun '(x, r) =>
  if x <=? 250 then Some (x, r)
  else if x =? 252 then srv_uint 2 r
  else if x =? 253 then srv_uint 3 r
  else if x =? 254 then srv_uint 8 r
  else None).

(** The packet must be consumed entirely; a packet with attributes is outside this specification. *)
Definition server_reads (pkt : list Z) : option client_hello :=
  obind (srv_uint 4 pkt) (fun '(caps, s) =>
  obind (srv_uint 4 s) (fun '(max, s) =>
  obind (srv_uint 1 s) (fun '(charset, s) =>
  obind (srv_bytes 23 s) (fun '(_, s) =>
  obind (srv_nul s) (fun '(user, s) =>
  obind (if Z.testbit caps LENENC_CLIENT_DATA_BIT then
           obind (srv_lenenc s) (fun '(n, s) => srv_bytes (Z.to_nat n) s)
         else if Z.testbit caps SECURE_CONNECTION_BIT then
           obind (srv_uint 1 s) (fun '(n, s) => srv_bytes (Z.to_nat n) s)
         else srv_nul s) (fun '(auth, s) =>
  obind (if Z.testbit caps CONNECT_WITH_DB_BIT
         then obind (srv_nul s) (fun '(x, s) => Some (Some x, s)) else Some (None, s)) (fun '(db, s) =>
  obind (if Z.testbit caps PLUGIN_AUTH_BIT
         then obind (srv_nul s) (fun '(x, s) => Some (Some x, s)) else Some (None, s)) (fun '(plugin, s) =>
  if Z.testbit caps CONNECT_ATTRS_BIT then None
  else match s with
       | [] => Some (mkHello caps max charset user auth db plugin)
       | _ => None
       end)))))))).

(** The authentication data can be carried under these capabilities: one length byte counts to
    255, NUL-terminated data has no NUL. *)
Definition carriable (caps : Z) (auth : list Z) : Prop :=
  if Z.testbit caps LENENC_CLIENT_DATA_BIT then Z.of_nat (length auth) < 2 ^ 64
  else if Z.testbit caps SECURE_CONNECTION_BIT then (length auth <= 255)%nat
  else ~ In 0 auth.

(** utf8mb4_general_ci exists since 5.5.3, before that utf8_general_ci. *)
Definition utf8_collation (version : Z * Z * Z) : Z :=
  let '(a, b, c) := version in
  if (a * 65536 + b) * 65536 + c <? (5 * 65536 + 5) * 65536 + 3 then 33 else 45.

(** Every bit of [a] is in [b]. *)
Definition subset (a b : Z) : Prop := forall i, Z.testbit a i = true -> Z.testbit b i = true.

(** ** Server versions *)
Definition number_text (n : Z) (s : list Z) : Prop :=
  s <> [] /\ Forall (fun c => 48 <= c <= 57) s /\ n = fold_left (fun acc c => acc * 10 + (c - 48)) s 0 /\ n < 65536.

Definition separator (c : Z) : Prop :=
  0 <= c < 128 /\ ~ 48 <= c <= 57 /\ ~ 65 <= c <= 90 /\ ~ 97 <= c <= 122.

(** major.minor.patch followed by nothing or by a separator and any suffix. *)
Inductive version_text (a b c : Z) : list Z -> list Z -> Prop :=
| version_plain : forall sa sb sc, number_text a sa -> number_text b sb -> number_text c sc ->
    version_text a b c [] (sa ++ [46] ++ sb ++ [46] ++ sc)
| version_suffix : forall sa sb sc x suffix,
    number_text a sa -> number_text b sb -> number_text c sc -> separator x ->
    version_text a b c (x :: suffix) (sa ++ [46] ++ sb ++ [46] ++ sc ++ x :: suffix).

(** MariaDB servers have "MariaDB" somewhere in the suffix. *)
Definition mentions (s : list Z) (word : string) : Prop := exists a b, s = a ++ s2l word ++ b.

(** ** Versions the client breaks on *)

(** Letters and digits: above ASCII, [other] decides. *)
Definition alphanumeric (other : Z -> bool) (c : Z) : Prop :=
  (48 <= c <= 57 \/ 65 <= c <= 90 \/ 97 <= c <= 122) \/ (128 <= c /\ other c = true).

(** [s] is cut after its first [n] bytes. *)
Definition cut_at (n : nat) (s u w : list Z) : Prop :=
  s = u ++ w /\ exists b, utf8_text u b /\ length b = n.

(** Reading up to [k] numbers, each up to the first character that is neither letter nor digit: the
    count of the characters before it is taken for a count of bytes, and there, or one byte further,
    is the middle of a character. *)
Inductive version_breaks (other : Z -> bool) : nat -> list Z -> Prop :=
| breaks_here : forall k a x b,
    Forall (alphanumeric other) a -> ~ alphanumeric other x ->
    ((forall u w, ~ cut_at (length a) (a ++ x :: b) u w) \/ (forall u w, ~ cut_at (S (length a)) (a ++ x :: b) u w)) ->
    version_breaks other (S k) (a ++ x :: b)
| breaks_later : forall k a x b u w u' w' n,
    Forall (alphanumeric other) a -> ~ alphanumeric other x ->
    cut_at (length a) (a ++ x :: b) u w -> cut_at (S (length a)) (a ++ x :: b) u' w' ->
    number_text n u -> version_breaks other k w' ->
    version_breaks other (S k) (a ++ x :: b).
