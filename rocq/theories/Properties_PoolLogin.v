(** The program of examples/migrations from the first byte of its connections: C113. *)
From Coq Require Import String ZArith List Bool Lia.
From Verif Require Import Base BaseFacts Types Utf8 Framing Framing_proofs Spec_Wire Packets Spec_Packets Packets_proofs Crypt Spec_Crypt Handshake Spec_Handshake
  Spec_Auth Auth Auth_proofs Spec_Stmt Spec_Text Rows Rows_proofs StmtPackets Options Conn Spec_Conn Conn_proofs Spec_Connect Connect_proofs Conversion Spec_Conv
  Migrator Spec_Migrate Migrator_proofs SimpleMigration Spec_Simple Program Spec_Program Program_proofs
  MigratorWire Spec_MigratorWire MigratorWire_proofs PrimaryAddress Spec_PrimaryAddress PrimaryAddress_proofs PoolMigrator Spec_PoolMigrator PoolMigrator_proofs
  Properties_Crypt Properties_Handshake Properties_Auth Properties_Command Properties_Connect Properties_ModelWire Properties_Program Properties_Simple
  Properties_MigratorWire Properties_PrimaryAddress Properties_PoolMigrator.
Import ListNotations.
Open Scope Z_scope.

(** A server that lets the user in, as in C73: its greeting [w_packet], the plugin [w_used] that is
    used, and the packets [w_login] after the client's first. *)
Record welcome : Type := mkWelcome
  { w_id : Z; w_caps : Z; w_status : Z; w_len : Z; w_version : list Z; w_part1 : list Z; w_part2 : list Z; w_plugin : option (list Z);
    w_default : auth_plugin; w_used : auth_plugin; w_packet : list Z; w_login : list Spec_Auth.event }.

Definition lets_in (pr : primitives) (secure : bool) (o : conn_options) (W : welcome) : Prop :=
  greeting (w_id W) (w_caps W) (w_status W) (w_len W) (w_version W) (w_part1 W) (w_part2 W) (w_plugin W) (w_packet W) /\ w_len W <= 127 /\
  Z.testbit (w_caps W) SECURE_CONNECTION_BIT = true /\ Z.testbit (w_caps W) DEPRECATE_EOF_BIT = true /\
  (exists a b c suffix, version_text a b c suffix (w_version W)) /\ greeting_plugin (w_plugin W) (w_default W) /\
  w_used W = match o_auth_plugin o with Some f => f | None => w_default W end /\ allowed_by o (w_used W) /\ w_used W <> PClear /\
  login (p_sha1 pr) (p_sha256 pr) (fun n e m c => p_encrypt pr (mkKey n e) m = Ok c) secure (allowed_by o)
    (utf8_encode (o_password o)) (known_by o) (w_used W) (challenge (w_part1 W) (w_part2 W)) true (w_login W).

(** The client's first packet [h], and the capabilities used from then on. *)
Definition introduces (pr : primitives) (o : conn_options) (W : welcome) (h : list Z) (common : Z) : Prop :=
  (exists hello, server_reads h = Some hello /\ ch_user hello = utf8_encode (o_user o) /\
    ch_auth hello = token (p_sha1 pr) (p_sha256 pr) (utf8_encode (o_password o)) (w_used W) (challenge (w_part1 W) (w_part2 W)) /\
    ch_plugin hello = Some (plugin_name (w_used W)) /\ ch_db hello = option_map utf8_encode (o_db_name o)) /\
  forall i, Z.testbit common i = true <-> Z.testbit (w_caps W) i = true /\ common_bit (is_some (o_db_name o)) i.

(** The bytes of the login and of the question for the limit. *)
Definition logged_in (o : conn_options) (W : welcome) (h : list Z) (common : Z) (w i : list Z) : Prop :=
  exists wi wo q n wl il, conversation 0 (Received (w_packet W) :: Sent h :: w_login W) wi wo q /\
    limit_known (o_max_allowed_packet o) common n wl il /\ w = wo ++ wl /\ i = wi ++ il.

Lemma dialled : forall pr debug other f32 f64 secure o W, hash_fun 20 (p_sha1 pr) -> hash_fun 32 (p_sha256 pr) ->
  sendable (o_user o) -> (forall x, o_db_name o = Some x -> sendable x) -> lets_in pr secure o W ->
  exists h common, introduces pr o W h common /\ Z.testbit common DEPRECATE_EOF_BIT = true /\
    forall w i s rest, logged_in o W h common w i -> s_budget s = None -> s_in s = i ++ rest ->
    exists c, fst (connect pr debug other f32 f64 secure o s) = Ok c /\ between c rest /\ c_caps c = common /\
      s_out (c_stream c) = s_out s ++ w.
Proof.
  intros pr debug other f32 f64 secure o W H1 H2 Hu Hdb (Hg & Hl & Hs & Hd & (a & b & c & suffix & Hv) & Hp0 & Hp & Ha & Hc & HL).
  destruct (connected pr debug other f32 f64 secure o H1 H2 Hu Hdb _ _ _ _ _ _ _ _ _ _ _ a b c suffix _ Hg Hl Hs Hd Hv Hp0 Hp Ha Hc HL)
    as (h & hello & common & S1 & S2 & S3 & S4 & S5 & S6 & Dep & Conn).
  exists h, common. split; [split; [exists hello; auto|exact S6]|]. split; [exact Dep|].
  intros w i s rest (wi & wo & q & n & wl & il & HC & Hlim & -> & ->) Hb Hi. rewrite <- app_assoc in Hi.
  destruct (Conn wi wo q s n wl il rest HC Hb Hlim Hi) as (conn & E & B & Cap & O). exists conn. rewrite E. auto.
Qed.

(** The program of examples/migrations with the connections it makes itself, from the first byte of
    each: three logins, no fourth, and on each connection after it what C113_example says. *)
Theorem C113_logged_in : exists (packets : use -> list (list Z)) create add own,
  (forall u, use_ok u -> request u (packets u)) /\ is_create create /\ says_add add /\ example_says own /\
  forall pr debug other f32 f64 secure o N streams effect bs coll t gone W1 W2 W3,
  hash_fun 20 (p_sha1 pr) -> hash_fun 32 (p_sha256 pr) -> sendable (o_user o) -> (forall x, o_db_name o = Some x -> sendable x) ->
  lets_in pr secure o W1 -> lets_in pr secure o W2 -> lets_in pr secure o W3 ->
  (3 <= N)%nat -> (forall n, coll n n = true) -> storable coll example_records ->
  NoDup t -> incl t example_records -> sublist_of (fun m => In m t) (rev example_records) gone ->
  exists h1 k1 h2 k2 h3 k3 qs q3,
  introduces pr o W1 h1 k1 /\ introduces pr o W2 h2 k2 /\ introduces pr o W3 h3 k3 /\
  performed bs coll own (map Remove gone ++ [Apply user_made; Apply address_made]) qs t [user_made; address_made] /\
  says_insert bs q3 primary_added /\ Spec_Migrate.effect bs coll q3 [user_made; address_made] example_records /\
  forall l1 m1 l2 m2 l3 m3 w0 i0 w i us all id2 id3 w1 i1 w2 i2 w3 i3 v2 j2 v3 j3 w4 i4 rest1 rest2 rest3,
  logged_in o W1 h1 k1 l1 m1 -> logged_in o W2 h2 k2 l2 m2 -> logged_in o W3 h3 k3 l3 m3 ->
  opened k1 create t w0 i0 -> executed k1 qs w i -> listed_users k1 add us w1 i1 ->
  statement_made packets k2 two_addresses id2 1 w2 i2 -> statement_made packets k3 set_address id3 2 w3 i3 ->
  gone_through packets k2 k3 id2 id3 all us v2 j2 v3 j3 -> executed k3 [q3] w4 i4 ->
  (forall k, s_budget (streams k) = None) ->
  s_in (streams 0%nat) = m1 ++ i0 ++ i ++ i1 ++ rest1 -> s_in (streams 1%nat) = m2 ++ i2 ++ j2 ++ rest2 ->
  s_in (streams 2%nat) = m3 ++ i3 ++ j3 ++ i4 ++ rest3 ->
  exists c1 c2 c3, example_main N (dial_with pr debug other f32 f64 secure o streams) debug f32 f64 effect = (Ok tt, mkPool [c2; c1; c3] 3) /\
    between c1 rest1 /\ between c2 rest2 /\ between c3 rest3 /\
    s_out (c_stream c1) = s_out (streams 0%nat) ++ l1 ++ w0 ++ w ++ w1 /\ s_out (c_stream c2) = s_out (streams 1%nat) ++ l2 ++ w2 ++ v2 /\
    s_out (c_stream c3) = s_out (streams 2%nat) ++ l3 ++ w3 ++ v3 ++ w4.
Proof.
  destruct C113_example as (packets & create & add & own & A1 & A2 & A3 & A4 & M). exists packets, create, add, own.
  split; [exact A1|]. split; [exact A2|]. split; [exact A3|]. split; [exact A4|].
  intros pr debug other f32 f64 secure o N streams ef bs coll t gone W1 W2 W3 H1 H2 Hu Hdb L1 L2 L3 HN R S Nd I G.
  destruct (dialled pr debug other f32 f64 secure o W1 H1 H2 Hu Hdb L1) as (h1 & k1 & X1 & D1 & C1).
  destruct (dialled pr debug other f32 f64 secure o W2 H1 H2 Hu Hdb L2) as (h2 & k2 & X2 & D2 & C2).
  destruct (dialled pr debug other f32 f64 secure o W3 H1 H2 Hu Hdb L3) as (h3 & k3 & X3 & D3 & C3).
  destruct (M bs coll t gone R S Nd I G) as (qs & q3 & P & Q1 & Q2 & K). exists h1, k1, h2, k2, h3, k3, qs, q3. splits; auto.
  intros l1 m1 l2 m2 l3 m3 w0 i0 w i us all id2 id3 w1 i1 w2 i2 w3 i3 v2 j2 v3 j3 w4 i4 rest1 rest2 rest3 G1 G2 G3 Op Ex HL M2 M3 HG E4 Hb I1 I2 I3.
  destruct (C1 _ _ _ _ G1 (Hb 0%nat) I1) as (c1 & E1 & B1 & Ca1 & O1). destruct (C2 _ _ _ _ G2 (Hb 1%nat) I2) as (c2 & E2 & B2 & Ca2 & O2).
  destruct (C3 _ _ _ _ G3 (Hb 2%nat) I3) as (c3 & E3 & B3 & Ca3 & O3). subst k1 k2 k3.
  destruct (K N (dial_with pr debug other f32 f64 secure o streams) debug f32 f64 ef c1 c2 c3 HN E1 E2 E3 D1 D2 D3
    w0 i0 w i us all id2 id3 w1 i1 w2 i2 w3 i3 v2 j2 v3 j3 w4 i4 rest1 rest2 rest3 Op Ex HL M2 M3 HG E4 B1 B2 B3)
    as (d1 & d2 & d3 & E & F1 & F2 & F3 & P1 & P2 & P3).
  exists d1, d2, d3. splits; auto.
  - now rewrite P1, O1, <- app_assoc.
  - now rewrite P2, O2, <- app_assoc.
  - now rewrite P3, O3, <- app_assoc.
Qed.
Print Assumptions C113_logged_in.

(** With the server of C73 on all three connections. *)
Definition c113_streams (k : nat) : stream :=
  mkStream (match k with
    | 0%nat => login_input ++ c113_in1 [address_made; user_made] 8
    | 1%nat => login_input ++ c112_in2
    | 2%nat => login_input ++ c112_in3 ++ c111_ok
    | _ => [] end) IoUnexpectedEof [] None.
Definition c113_login (h : bytes) : bytes := frame 1 h ++ frame 3 [7] ++ frame 0 (3 :: s2l "select @@max_allowed_packet").
Example C113_logged_in_case :
  match example_main 10 (dial_with flat_prims true (fun _ => true) (fun _ => None) (fun _ => None) false known_key_options c113_streams)
    true (fun _ => None) (fun _ => None) (fun _ => false) with
  | (r, p) => r = Ok tt /\ pl_made p = 3%nat /\ map (fun c => s_in (c_stream c)) (pl_idle p) = [[]; []; []] /\
    exists h, map (fun c => s_out (c_stream c)) (pl_idle p) =
    [c113_login h ++ frame 0 (22 :: two_addresses) ++ sent_by (UStmtQuery 5 1 [VUInt 1] 0) ++ sent_by (UStmtQuery 5 1 [VUInt 2] 0) ++
         sent_by (UStmtQuery 5 1 [VUInt 3] 0) ++ sent_by (UStmtQuery 5 1 [VUInt 4] 0);
     c113_login h ++ asked_for look ++ asked_for list_records ++ c113_old address_made ++ c113_old user_made ++ c113_new user_made ++ c113_new address_made ++
         asked_for add_query ++ asked_for list_users;
     c113_login h ++ frame 0 (22 :: set_address) ++ sent_by (UStmtExecute 9 2 [VUInt 11; VUInt 1]) ++ sent_by (UStmtExecute 9 2 [VUInt 41; VUInt 4]) ++
         asked_for (record_text (Apply primary_added))]
  end.
Proof.
  match goal with |- match ?x with _ => _ end => destruct x as [r p] eqn:E end.
  vm_compute in E. injection E as <- <-. split; [reflexivity|]. split; [reflexivity|]. split; [reflexivity|].
  match goal with |- exists h, map _ (pl_idle {| pl_idle := ?c :: _ |}) = _ =>
    let o := eval vm_compute in (s_out (c_stream c)) in
    exists (firstn (length o - length (frame 3 [7] ++ frame 0 (3 :: s2l "select @@max_allowed_packet") ++ frame 0 (22 :: two_addresses) ++ sent_by (UStmtQuery 5 1 [VUInt 1] 0) ++ sent_by (UStmtQuery 5 1 [VUInt 2] 0) ++
         sent_by (UStmtQuery 5 1 [VUInt 3] 0) ++ sent_by (UStmtQuery 5 1 [VUInt 4] 0)) - 4) (skipn 4 o)) end.
  vm_compute. reflexivity.
Qed.

Definition c113_welcome : welcome :=
  mkWelcome 9 3758096383 2 21 (s2l "8.0.36") [1; 2; 3; 4; 5; 6; 7; 8] [9; 10; 11; 12; 13; 14; 15; 16; 17; 18; 19; 20; 0] (Some (plugin_name PSha2))
    PSha2 PSha2 mysql8_greeting [Received [1; 4]; Sent [7]; Received ok_packet_bytes].
Example C113_lets_in_case :
  lets_in flat_prims false known_key_options c113_welcome /\ sendable (o_user known_key_options) /\
  (forall x, o_db_name known_key_options = Some x -> sendable x).
Proof.
  destruct C74_case as (A1 & _ & A3 & _ & A5). split; [|split].
  - unfold lets_in. cbn [c113_welcome w_id w_caps w_status w_len w_version w_part1 w_part2 w_plugin w_packet w_login w_default w_used].
    split; [exact mysql8_greeting_ok|]. split; [lia|]. split; [reflexivity|]. split; [reflexivity|]. split; [exists 8, 0, 36, []; exact A3|].
    split; [exact A1|]. split; [reflexivity|]. split; [split; [now right|discriminate]|]. split; [discriminate|]. exact A5.
  - split; [apply ascii_text; vm_compute; reflexivity|]. vm_compute. intuition discriminate.
  - intros x E. vm_compute in E. discriminate.
Qed.
