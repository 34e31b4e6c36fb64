(** A whole program: C110. *)
From Coq Require Import String ZArith List Bool Lia Permutation.
From Verif Require Import Base BaseFacts Types Utf8 ParseBuf BufMut Spec_Wire ParseBuf_proofs Conversion Spec_Conv Conversion_proofs
  Packets Spec_Packets Packets_proofs Scramble Crypt Spec_Crypt Crypt_proofs Handshake Spec_Handshake Handshake_proofs
  Framing Framing_proofs Auth Spec_Auth Auth_proofs ValueText Spec_Text ValueText_proofs Rows Rows_proofs
  Spec_Stmt StmtPackets Options Conn Spec_Conn Conn_proofs Spec_Connect Connect_proofs Models Spec_Model Spec_Mapping Mapping_proofs Model_proofs
  TypedModel Spec_Typed Typed_proofs Spec_Engine Engine_proofs Spec_Engine_run ModelWire Spec_ModelWire ModelWire_proofs Sending_proofs Spec_Active Active_proofs
  Program Spec_Program Program_proofs Properties_Crypt Properties_Handshake Properties_Auth Properties_Command Properties_Connect
  Properties_Model Properties_Mapping Properties_Typed Properties_Engine Properties_Active Properties_ModelWire.
Import ListNotations.
Open Scope Z_scope.

(** ** C110: from connecting to disconnecting *)

Lemma carried_each : forall db m xs, carried (insert_each db m xs) (insert_all m xs).
Proof.
  intros db m. induction xs as [|x xs IH]; cbn [insert_all]; [exact (carried_ret (list Z) [])|].
  assert (K : carried (iobind (insert db (into_active_model (untyped m) (instance_of m x)))
    (fun id => iobind (insert_each db m xs) (fun ids h => (Ok (id :: ids), h))))
    (iobind (insert_on (into_active_model (untyped m) (instance_of m x))) (fun id => iobind (insert_all m xs) (fun ids => ioret (id :: ids))))).
  { apply carried_bind; [apply carried_insert|]. intros id. apply carried_bind; [exact IH|]. intros ids. apply carried_ret. }
  intros h r h' E. apply (K h r h'). revert E. cbn [insert_each]. unfold iobind.
  destruct (insert db (into_active_model (untyped m) (instance_of m x)) h) as [[id|e|] h1]; auto.
Qed.

(** Connected, as C73 says, with the limit given or asked for. *)
Lemma connected : forall pr debug other f32 f64 secure o, hash_fun 20 (p_sha1 pr) -> hash_fun 32 (p_sha256 pr) ->
  sendable (o_user o) -> (forall x, o_db_name o = Some x -> sendable x) ->
  forall id caps status len version part1 part2 plugin p0 p g a b c suffix ev,
  greeting id caps status len version part1 part2 plugin g -> len <= 127 ->
  Z.testbit caps SECURE_CONNECTION_BIT = true -> Z.testbit caps DEPRECATE_EOF_BIT = true ->
  version_text a b c suffix version -> greeting_plugin plugin p0 ->
  p = match o_auth_plugin o with Some f => f | None => p0 end -> allowed_by o p -> p <> PClear ->
  login (p_sha1 pr) (p_sha256 pr) (fun n e m c => p_encrypt pr (mkKey n e) m = Ok c) secure (allowed_by o)
    (utf8_encode (o_password o)) (known_by o) p (challenge part1 part2) true ev ->
  exists h hello common,
    server_reads h = Some hello /\ ch_user hello = utf8_encode (o_user o) /\
    ch_auth hello = token (p_sha1 pr) (p_sha256 pr) (utf8_encode (o_password o)) p (challenge part1 part2) /\
    ch_plugin hello = Some (plugin_name p) /\ ch_db hello = option_map utf8_encode (o_db_name o) /\
    (forall i, Z.testbit common i = true <-> Z.testbit caps i = true /\ common_bit (is_some (o_db_name o)) i) /\
    Z.testbit common DEPRECATE_EOF_BIT = true /\
    forall wi wo q s n wl il rest, conversation 0 (Received g :: Sent h :: ev) wi wo q -> s_budget s = None ->
    limit_known (o_max_allowed_packet o) common n wl il -> s_in s = wi ++ il ++ rest ->
    exists conn, connect pr debug other f32 f64 secure o s = (Ok conn, c_stream conn) /\ between conn rest /\ c_caps conn = common /\
      s_out (c_stream conn) = s_out s ++ wo ++ wl.
Proof.
  intros pr debug other f32 f64 secure o H1 H2 Hu Hdb id caps status len version part1 part2 plugin p0 p g a b c suffix ev
    Hg Hl Hs Hd Hv Hp0 Hp Ha Hc HL.
  destruct (C73_connect_partial pr debug other f32 f64 secure o H1 H2 Hu Hdb id caps status len version part1 part2 plugin p0 p g a b c suffix ev
    Hg Hl Hs Hd Hv Hp0 Hp Ha Hc HL) as (h & hello & common & S1 & S2 & S3 & S4 & S5 & S6 & R).
  exists h, hello, common. splits; auto.
  { apply S6. split; [exact Hd|]. left. cbn. tauto. }
  intros wi wo q s n wl il rest HC Hb Hlim Hi. destruct (R wi wo q s rest HC Hb) as (R1 & R2).
  unfold limit_known in Hlim. destruct (o_max_allowed_packet o) as [m|].
  - destruct Hlim as (-> & -> & ->). destruct (R1 m eq_refl Hi) as (conn & E & B & _ & _ & C & _ & O).
    exists conn. rewrite app_nil_r. auto.
  - destruct Hlim as (q0 & pkts & q1 & F & St & Fr).
    destruct (R2 n wl q0 pkts il q1 eq_refl F St Fr Hi) as (conn & E & B & _ & _ & C & _ & O). exists conn. auto.
Qed.

(** The program of examples/hello_world.rs, with any first statement, model and instances.  The server
    lets the user in (C73), executes the first statement, keeps tables made for the model from then
    on (C94), executes the statements of the inserts and answers the query.  Then the program ends
    without error.  It has listed exactly the models it has inserted, with the keys the server has
    assigned, and those that were there before, in some order.  It has sent exactly the packets
    of the login, the question for the limit, the first statement, the prepared statements in
    order, the query and COM_QUIT, and has read every byte of the answers.  Missing: what C73, C94
    and C96 lack. *)
Theorem C110_program_partial : exists packets : use -> list (list Z),
  (forall u, use_ok u -> request u (packets u)) /\
  forall pr debug other secure o (f32_text f64_text : Z -> list Z -> Prop) (f32 f64 : str -> option Z),
  hash_fun 20 (p_sha1 pr) -> hash_fun 32 (p_sha256 pr) ->
  (forall x l, f32_text x l -> Forall (fun c => 0 <= c < 128) l /\ f32 l = Some x) ->
  (forall x l, f64_text x l -> Forall (fun c => 0 <= c < 128) l /\ f64 l = Some x) ->
  sendable (o_user o) -> (forall x, o_db_name o = Some x -> sendable x) ->
  forall id caps status len version part1 part2 plugin p0 p g a b c suffix ev,
  greeting id caps status len version part1 part2 plugin g -> len <= 127 ->
  Z.testbit caps SECURE_CONNECTION_BIT = true -> Z.testbit caps DEPRECATE_EOF_BIT = true ->
  version_text a b c suffix version -> greeting_plugin plugin p0 ->
  p = match o_auth_plugin o with Some f => f | None => p0 end -> allowed_by o p -> p <> PClear ->
  login (p_sha1 pr) (p_sha256 pr) (fun n e m c => p_encrypt pr (mkKey n e) m = Ok c) secure (allowed_by o)
    (utf8_encode (o_password o)) (known_by o) p (challenge part1 part2) true ev ->
  forall db st m xs ids trace l,
  serves db st -> made_for (st []) m -> keys_differ (st []) -> contents (st []) m l ->
  everywhere names_distinct (untyped m) -> everywhere names_plain (untyped m) -> everywhere has_column (untyped m) ->
  Forall (all_exact m) xs -> ~ In (m_table (untyped m)) (referred m) ->
  insert_each db m xs [] = (Ok ids, trace) ->
  let sel := selected (m_table (untyped m)) (untyped m) in
  let q := build_query (m_table (untyped m)) (model_columns (untyped m)) in
  exists h hello common xs',
  server_reads h = Some hello /\ ch_user hello = utf8_encode (o_user o) /\
  ch_auth hello = token (p_sha1 pr) (p_sha256 pr) (utf8_encode (o_password o)) p (challenge part1 part2) /\
  ch_plugin hello = Some (plugin_name p) /\ ch_db hello = option_map utf8_encode (o_db_name o) /\
  (forall i, Z.testbit common i = true <-> Z.testbit caps i = true /\ common_bit (is_some (o_db_name o)) i) /\
  Forall2 (fun xi x' => saved m (fst xi) (snd xi) x') (combine xs ids) xs' /\ length ids = length xs /\
  forall s rest wi wo q0 n wl il create rows0 id0 status0 warnings0 msg0 st0 wc ic
    A (decode : list column -> bytes -> res error A) uses i w qb cols vss rows wq iq,
  conversation 0 (Received g :: Sent h :: ev) wi wo q0 ->
  limit_known (o_max_allowed_packet o) common n wl il ->
  exchange common create (AOk rows0 id0 status0 warnings0 msg0 st0) wc ic ->
  exchanged trace uses -> history decode common packets uses i w ->
  utf8_text q qb -> answers (st trace) q vss -> asks_for m sel cols -> Forall (fun c => col_type c <> CLongBlob) cols ->
  Forall2 (text_row f32_text f64_text (map (fun c => (col_type c, has_flag (col_flags c) UNSIGNED_FLAG)) cols)) vss rows ->
  exchange common qb (ARows cols rows) wq iq ->
  s_budget s = None -> s_in s = wi ++ il ++ ic ++ i ++ iq ++ rest ->
  exists ys s', hello_world pr debug other f32 f64 secure o create m xs s = (Ok ys, s') /\
    Permutation (xs' ++ l) ys /\ s_in s' = rest /\
    s_out s' = s_out s ++ wo ++ wl ++ wc ++ w ++ wq ++ [1; 0; 0; 0; 1].
Proof.
  exists use_packets. split; [intros u H; now apply use_packets_request|].
  intros pr debug other secure o f32_text f64_text f32 f64 H1 H2 F1 F2 Hu Hdb id caps status len version part1 part2 plugin p0 p g a b c suffix ev
    Hg Hl Hs Hd Hv Hp0 Hp Ha Hc HL db st m xs ids trace l Sv Md KD Ct Nd Np Hcol Ex Nn Ei sel q.
  destruct (connected pr debug other f32 f64 secure o H1 H2 Hu Hdb id caps status len version part1 part2 plugin p0 p g a b c suffix ev
    Hg Hl Hs Hd Hv Hp0 Hp Ha Hc HL) as (h & hello & common & S1 & S2 & S3 & S4 & S5 & S6 & Dep & Conn).
  destruct (C94_round_trip_partial f32_text f64_text f32 f64 debug db st m xs [] ids trace l F1 F2 Sv Md KD Ct Nd Np Hcol Ex Nn Ei)
    as (xs' & V1 & V2 & Rd).
  exists h, hello, common, xs'. splits; auto.
  intros s rest wi wo q0 n wl il create rows0 id0 status0 warnings0 msg0 st0 wc ic A decode uses i w qb cols vss rows wq iq
    HC Hlim (qc & pc & qc' & C1 & C2 & C3) Exc Hh Hqb An Has Hbl Hr (qq & pq & qq' & Q1 & Q2 & Q3) Hb Hi.
  destruct (Conn wi wo q0 s n wl il (ic ++ i ++ iq ++ rest) HC Hb Hlim Hi) as (c0 & E0 & B0 & Cap0 & O0).
  assert (D0 : Z.testbit (c_caps c0) DEPRECATE_EOF_BIT = true) by now rewrite Cap0.
  destruct (execute_done c0 create rows0 id0 status0 warnings0 msg0 st0 wc qc pc ic qc' (i ++ iq ++ rest) D0 C1) as (x1 & c1 & E1 & B1 & Dt1 & O1);
    [now rewrite Cap0|exact C3|exact B0|].
  assert (Cap1 : c_caps c1 = common) by (unfold c_caps in *; now rewrite Dt1).
  destruct (carried_served _ _ _ (carried_each db m xs) A decode common _ _ uses i w c1 (iq ++ rest) Ei Exc Hh Dep Cap1 B1) as (c2 & E2 & B2 & Dt2 & O2).
  assert (Cap2 : c_caps c2 = common) by (unfold c_caps in *; now rewrite Dt2).
  assert (D2 : Z.testbit (c_caps c2) DEPRECATE_EOF_BIT = true) by now rewrite Cap2.
  destruct (Rd qb c2 cols vss rows pq wq iq qq qq' rest Hqb An Has Hbl Hr D2 Q1) as (k1 & k2 & rs & ys & K1 & K2 & K3 & K4); [now rewrite Cap2|exact Q3|exact B2|].
  destruct (query_collected _ (model_rows (text_rows debug f32 f64) m) qb c2 cols rows pq wq iq qq qq' rest D2 Q1) as (j1 & j2 & rs' & J1 & J2 & J3 & J4 & J5);
    [now rewrite Cap2|exact Q3|exact B2|].
  rewrite K1 in J1. injection J1 as <-. rewrite K2 in J2. injection J2 as J2 <- <-.
  assert (D3 : Z.testbit (c_caps k2) DEPRECATE_EOF_BIT = true) by (unfold c_caps in *; now rewrite J4).
  destruct (disconnect_between k2 rest D3 K4) as (c4 & E4 & O4 & I4).
  exists ys, (c_stream c4). splits; [|exact K3|exact I4|].
  - unfold hello_world. rewrite E0. unfold work. rewrite iob, E1, iob, E2, iob. unfold list_all. rewrite iob.
    apply utf8_text_iff in Hqb as (_ & Hqb). fold q. rewrite Hqb, K1, K2, iob, E4. reflexivity.
  - rewrite O4, J5, O2, O1, O0, <- !app_assoc. reflexivity.
Qed.
Print Assumptions C110_program_partial.

(** If the server refuses the first statement or the query, or one of the inserts fails, the program
    ends with that error and has sent nothing after the packets of the statement; whatever the
    server does with the statements.  COM_QUIT is not sent. *)
Theorem C110_stops_partial : exists packets : use -> list (list Z),
  (forall u, use_ok u -> request u (packets u)) /\
  forall pr debug other secure o (f32 f64 : str -> option Z),
  hash_fun 20 (p_sha1 pr) -> hash_fun 32 (p_sha256 pr) ->
  sendable (o_user o) -> (forall x, o_db_name o = Some x -> sendable x) ->
  forall id caps status len version part1 part2 plugin p0 p g a b c suffix ev,
  greeting id caps status len version part1 part2 plugin g -> len <= 127 ->
  Z.testbit caps SECURE_CONNECTION_BIT = true -> Z.testbit caps DEPRECATE_EOF_BIT = true ->
  version_text a b c suffix version -> greeting_plugin plugin p0 ->
  p = match o_auth_plugin o with Some f => f | None => p0 end -> allowed_by o p -> p <> PClear ->
  login (p_sha1 pr) (p_sha256 pr) (fun n e m c => p_encrypt pr (mkKey n e) m = Ok c) secure (allowed_by o)
    (utf8_encode (o_password o)) (known_by o) p (challenge part1 part2) true ev ->
  exists h hello common, server_reads h = Some hello /\
  (forall i, Z.testbit common i = true <-> Z.testbit caps i = true /\ common_bit (is_some (o_db_name o)) i) /\
  forall s rest wi wo q0 n wl il create wc ic m xs,
  conversation 0 (Received g :: Sent h :: ev) wi wo q0 ->
  limit_known (o_max_allowed_packet o) common n wl il -> s_budget s = None ->
  (forall code state msg, exchange common create (AErr code state msg) wc ic -> s_in s = wi ++ il ++ ic ++ rest ->
     exists s', hello_world pr debug other f32 f64 secure o create m xs s = (Err (EServer (ErrError code state msg)), s') /\
       s_out s' = s_out s ++ wo ++ wl ++ wc) /\
  (forall rows0 id0 status0 warnings0 msg0 st0 db e trace A (decode : list column -> bytes -> res error A) uses i w,
     exchange common create (AOk rows0 id0 status0 warnings0 msg0 st0) wc ic ->
     insert_each db m xs [] = (Err e, trace) -> exchanged trace uses -> history decode common packets uses i w ->
     s_in s = wi ++ il ++ ic ++ i ++ rest ->
     exists s', hello_world pr debug other f32 f64 secure o create m xs s = (Err e, s') /\
       s_out s' = s_out s ++ wo ++ wl ++ wc ++ w) /\
  (forall rows0 id0 status0 warnings0 msg0 st0 db ids trace A (decode : list column -> bytes -> res error A) uses i w qb code state msg wq iq,
     exchange common create (AOk rows0 id0 status0 warnings0 msg0 st0) wc ic ->
     insert_each db m xs [] = (Ok ids, trace) -> exchanged trace uses -> history decode common packets uses i w ->
     utf8_text (build_query (m_table (untyped m)) (model_columns (untyped m))) qb -> exchange common qb (AErr code state msg) wq iq ->
     s_in s = wi ++ il ++ ic ++ i ++ iq ++ rest ->
     exists s', hello_world pr debug other f32 f64 secure o create m xs s = (Err (EServer (ErrError code state msg)), s') /\
       s_out s' = s_out s ++ wo ++ wl ++ wc ++ w ++ wq).
Proof.
  exists use_packets. split; [intros u H; now apply use_packets_request|].
  intros pr debug other secure o f32 f64 H1 H2 Hu Hdb id caps status len version part1 part2 plugin p0 p g a b c suffix ev
    Hg Hl Hs Hd Hv Hp0 Hp Ha Hc HL.
  destruct (connected pr debug other f32 f64 secure o H1 H2 Hu Hdb id caps status len version part1 part2 plugin p0 p g a b c suffix ev
    Hg Hl Hs Hd Hv Hp0 Hp Ha Hc HL) as (h & hello & common & S1 & S2 & S3 & S4 & S5 & S6 & Dep & Conn).
  exists h, hello, common. splits; auto.
  intros s rest wi wo q0 n wl il create wc ic m xs HC Hlim Hb. splits.
  - intros code state msg (qc & pc & qc' & C1 & C2 & C3) Hi.
    destruct (Conn wi wo q0 s n wl il (ic ++ rest) HC Hb Hlim Hi) as (c0 & E0 & B0 & Cap0 & O0).
    assert (D0 : Z.testbit (c_caps c0) DEPRECATE_EOF_BIT = true) by now rewrite Cap0.
    destruct (execute_refused c0 create code state msg wc qc pc ic qc' rest D0 C1) as (c1 & E1 & B1 & O1); [now rewrite Cap0|exact C3|exact B0|].
    exists (c_stream c1). split; [unfold hello_world; rewrite E0; unfold work; rewrite iob, E1; reflexivity|]. rewrite O1, O0, <- !app_assoc. reflexivity.
  - intros rows0 id0 status0 warnings0 msg0 st0 db e trace A decode uses i w (qc & pc & qc' & C1 & C2 & C3) Ei Exc Hh Hi.
    destruct (Conn wi wo q0 s n wl il (ic ++ i ++ rest) HC Hb Hlim Hi) as (c0 & E0 & B0 & Cap0 & O0).
    assert (D0 : Z.testbit (c_caps c0) DEPRECATE_EOF_BIT = true) by now rewrite Cap0.
    destruct (execute_done c0 create rows0 id0 status0 warnings0 msg0 st0 wc qc pc ic qc' (i ++ rest) D0 C1) as (x1 & c1 & E1 & B1 & Dt1 & O1);
      [now rewrite Cap0|exact C3|exact B0|].
    assert (Cap1 : c_caps c1 = common) by (unfold c_caps in *; now rewrite Dt1).
    destruct (carried_served _ _ _ (carried_each db m xs) A decode common _ _ uses i w c1 rest Ei Exc Hh Dep Cap1 B1) as (c2 & E2 & B2 & Dt2 & O2).
    exists (c_stream c2). split; [unfold hello_world; rewrite E0; unfold work; rewrite iob, E1, iob, E2; reflexivity|].
    rewrite O2, O1, O0, <- !app_assoc. reflexivity.
  - intros rows0 id0 status0 warnings0 msg0 st0 db ids trace A decode uses i w qb code state msg wq iq
      (qc & pc & qc' & C1 & C2 & C3) Ei Exc Hh Hqb (qq & pq & qq' & Q1 & Q2 & Q3) Hi.
    destruct (Conn wi wo q0 s n wl il (ic ++ i ++ iq ++ rest) HC Hb Hlim Hi) as (c0 & E0 & B0 & Cap0 & O0).
    assert (D0 : Z.testbit (c_caps c0) DEPRECATE_EOF_BIT = true) by now rewrite Cap0.
    destruct (execute_done c0 create rows0 id0 status0 warnings0 msg0 st0 wc qc pc ic qc' (i ++ iq ++ rest) D0 C1) as (x1 & c1 & E1 & B1 & Dt1 & O1);
      [now rewrite Cap0|exact C3|exact B0|].
    assert (Cap1 : c_caps c1 = common) by (unfold c_caps in *; now rewrite Dt1).
    destruct (carried_served _ _ _ (carried_each db m xs) A decode common _ _ uses i w c1 (iq ++ rest) Ei Exc Hh Dep Cap1 B1) as (c2 & E2 & B2 & Dt2 & O2).
    assert (Cap2 : c_caps c2 = common) by (unfold c_caps in *; now rewrite Dt2).
    destruct (query_refused c2 qb code state msg wq qq pq iq qq' rest) as (c3 & E3 & B3 & O3); [now rewrite Cap2|exact Q1|now rewrite Cap2|exact Q3|exact B2|].
    apply utf8_text_iff in Hqb as (_ & Hqb).
    exists (c_stream c3). split.
    + unfold hello_world. rewrite E0. unfold work. rewrite iob, E1, iob, E2, iob. unfold list_all. rewrite iob, Hqb, E3. reflexivity.
    + rewrite O3, O2, O1, O0, <- !app_assoc. reflexivity.
Qed.
Print Assumptions C110_stops_partial.

(** If connecting fails, the program ends with that error and does nothing more. *)
Theorem C110_not_connected : forall pr debug other secure o f32 f64 create m xs s e s',
  connect pr debug other f32 f64 secure o s = (Err e, s') ->
  hello_world pr debug other f32 f64 secure o create m xs s = (Err e, s').
Proof. intros pr debug other secure o f32 f64 create m xs s e s' E. unfold hello_world. now rewrite E. Qed.
Print Assumptions C110_not_connected.

(** The program of examples/hello_world.rs itself. *)
Definition user_types : tmodel :=
  TModel (s2l "user") (s2l "id") true [(s2l "id", TyPrim U32); (s2l "name", TyString); (s2l "email", TyOption TyString)] [] [].
Definition users : tables := fun t =>
  if list_eqb t (s2l "user") then
    Some (mkTable [mkDef (s2l "id") (KNum U32) true; mkDef (s2l "name") KBytes false; mkDef (s2l "email") (KNull KBytes) false] (s2l "id") []) else None.
Definition foo (id : Z) : tinstance := TInstance [RNum id; RString (s2l "foo"); RSome (RString (s2l "foo@example.com"))] [] [].
Definition bar (id : Z) : tinstance := TInstance [RNum id; RString (s2l "bar"); RNone] [] [].
Definition user_column (name : string) (type : column_type) (flags : Z) : column :=
  mkColumn (s2l name) (s2l name) (s2l "user") (s2l "user") type flags.
Definition user_columns : list column :=
  [user_column "id" CLong 32; user_column "name" CVarString 0; user_column "email" CVarString 0].
Definition user_definition (name : string) (code flags : Z) : bytes :=
  [3; 100; 101; 102; 0] ++ wire_lenenc_str (s2l "user") ++ wire_lenenc_str (s2l "user") ++ wire_lenenc_str (s2l name) ++
  wire_lenenc_str (s2l name) ++ [12; 33; 0; 255; 0; 0; 0; code] ++ wire_uint 2 flags ++ [0; 0; 0].
Definition user_rows : list bytes :=
  [[1; 49; 3] ++ s2l "foo" ++ [15] ++ s2l "foo@example.com"; [1; 50; 3] ++ s2l "bar" ++ [251]].
Definition user_answer : list bytes :=
  [[3]; user_definition "id" 3 32; user_definition "name" 253 0; user_definition "email" 253 0] ++ user_rows ++ [[254; 0; 0; 2; 0; 0; 0]].
Definition create_users : bytes := s2l "CREATE TEMPORARY TABLE `user` (`id` INT UNSIGNED NOT NULL AUTO_INCREMENT PRIMARY KEY, `name` VARCHAR(255) NOT NULL, `email` VARCHAR(255))".
Definition user_query : bytes := s2l "select `user`.`id`, `user`.`name`, `user`.`email` from `user`".
Definition c110_trace : list statement := snd (insert_each (engine users) user_types [foo 0; bar 0] []).
Definition c110_input : bytes :=
  frame 0 mysql8_greeting ++ frame 2 [1; 4] ++ frame 4 ok_packet_bytes ++ frame_all 1 c73_answer ++ frame 1 ok_packet_bytes ++
  c96_input 1 c110_trace ++ frame_all 1 user_answer.
Example C110_case :
  match hello_world flat_prims true (fun _ => true) (fun _ => None) (fun _ => None) false known_key_options create_users user_types
    [foo 0; bar 0] (mkStream (c110_input ++ [42]) IoUnexpectedEof [] None) with
  | (r, s) => r = Ok [foo 1; bar 2] /\ s_in s = [42] /\
    exists h, s_out s = frame 1 h ++ frame 3 [7] ++ frame 0 (3 :: s2l "select @@max_allowed_packet") ++ frame 0 (3 :: create_users) ++
      c96_output 1 c110_trace ++ frame 0 (3 :: user_query) ++ [1; 0; 0; 0; 1]
  end.
Proof.
  match goal with |- match ?x with _ => _ end => destruct x as [r s] eqn:E end.
  vm_compute in E. injection E as <- <-. split; [reflexivity|]. split; [reflexivity|].
  match goal with |- exists h, ?o = _ => exists (firstn (length o - length (frame 3 [7] ++ frame 0 (3 :: s2l "select @@max_allowed_packet") ++ frame 0 (3 :: create_users) ++
      c96_output 1 c110_trace ++ frame 0 (3 :: user_query) ++ [1; 0; 0; 0; 1]) - 4) (skipn 4 o)) end. vm_compute. reflexivity.
Qed.

(** The statements of the program and the server's answers are as the theorem asks for. *)
Lemma user_column_layout : forall name type code flags, In (code, type) type_code -> 0 <= flags < 65536 ->
  Forall (fun c => 0 <= c < 128) (s2l name) -> Z.of_nat (length (s2l name)) < 200 ->
  column_layout_by short_name_text (user_column name type flags) (user_definition name code flags).
Proof.
  intros name type code flags Hc Hf Ha Hl.
  assert (N : forall l, Forall (fun c => 0 <= c < 128) l -> Z.of_nat (length l) < 200 -> short_name_text l (wire_lenenc_str l)).
  { intros l H L. split; [exists l; split; [now apply utf8_text_ascii|reflexivity]|]. unfold wire_lenenc_str. rewrite app_length.
    unfold wire_lenenc. replace (Z.of_nat (length l) <=? 250) with true by (symmetry; apply Z.leb_le; lia). cbn [length]. lia. }
  assert (U : short_name_text (s2l "user") (wire_lenenc_str (s2l "user"))). { apply N; [repeat constructor; lia|cbn; lia]. }
  exists [], [0], (wire_lenenc_str (s2l "user")), (wire_lenenc_str (s2l "user")), (wire_lenenc_str (s2l name)), (wire_lenenc_str (s2l name)),
    33, 255, code, 0, [0; 0]. cbn [col_table col_org_table col_name col_org_name col_type col_flags user_column].
  splits; auto; try lia; try (cbn; lia).
  - split; [|cbn; lia]. exists []. split; [constructor|reflexivity].
Qed.

Example C110_hypotheses_case :
  serves (engine users) (engine_tables users) /\ made_for users user_types /\ keys_differ users /\ contents users user_types [] /\
  everywhere names_distinct (untyped user_types) /\ everywhere names_plain (untyped user_types) /\ everywhere has_column (untyped user_types) /\
  Forall (all_exact user_types) [foo 0; bar 0] /\ ~ In (m_table (untyped user_types)) (referred user_types) /\
  insert_each (engine users) user_types [foo 0; bar 0] [] = (Ok [1; 2], c110_trace) /\
  (exists w wi, limit_known (o_max_allowed_packet known_key_options) some_caps 67108864 w wi) /\
  exchange some_caps create_users (AOk 0 0 2 0 [] []) (frame 0 (3 :: create_users)) (frame 1 ok_packet_bytes) /\
  exchanged c110_trace (c96_uses 1 c110_trace) /\
  history (fun _ p => Ok p) some_caps use_packets (c96_uses 1 c110_trace) (c96_input 1 c110_trace) (c96_output 1 c110_trace) /\
  utf8_text (build_query (m_table (untyped user_types)) (model_columns (untyped user_types))) user_query /\
  exists vss,
  answers (engine_tables users c110_trace) (build_query (m_table (untyped user_types)) (model_columns (untyped user_types))) vss /\
  asks_for user_types (selected (m_table (untyped user_types)) (untyped user_types)) user_columns /\
  Forall (fun c => col_type c <> CLongBlob) user_columns /\
  Forall2 (text_row (fun _ _ => False) (fun _ _ => False) (map (fun c => (col_type c, has_flag (col_flags c) UNSIGNED_FLAG)) user_columns)) vss user_rows /\
  exchange some_caps user_query (ARows user_columns user_rows) (frame 0 (3 :: user_query)) (frame_all 1 user_answer).
Proof.
  assert (F : forall ps, Forall (fun p => Z.of_nat (length p) < 1000) ps -> exists q', framed (next_seq 0) ps (frame_all 1 ps) q').
  { intros ps H. exact (frame_all_framed ps 1 H). }
  assert (S : c96_all 1 c110_trace).
  { assert (E : c110_trace = ltac:(let t := eval vm_compute in c110_trace in exact t)) by (vm_compute; reflexivity).
    rewrite E. clear E.
    repeat (constructor; [unfold c96_simple; splits; [repeat constructor; lia|vm_compute; reflexivity|small_values|vm_compute; reflexivity|
      eexists; split; [reflexivity|lia]|eexists; split; [vm_compute; reflexivity|vm_compute; reflexivity]]|]). constructor. }
  destruct (c96_served 1 c110_trace S) as (X1 & X2); [lia|vm_compute; reflexivity|].
  splits.
  - apply engine_serves.
  - econstructor; [reflexivity|reflexivity|nodup|left; reflexivity|intros _; exists U32; left; reflexivity|nodup| |members|constructor].
    members; (eexists; split; [cbn; repeat (try (left; reflexivity); right)|]; split; [intros X|intros (_ & X)]; try discriminate; auto).
  - intros t tb E. unfold users in E. destruct (list_eqb t (s2l "user")); [|discriminate]; injection E as <-. split; constructor.
  - eexists _, []. splits; [reflexivity|apply Permutation_refl|constructor].
  - cbn [untyped user_types map fst snd]. concrete.
  - cbn [untyped user_types map fst snd]. concrete.
  - cbn [untyped user_types map fst snd]. concrete.
  - assert (U : forall l, Forall (fun c => 0 <= c < 128) l -> utf8_text l l) by (intros; now apply utf8_text_ascii).
    unfold foo, bar, user_types. constructor; [|constructor; [|constructor]].
    all: repeat match goal with
    | |- all_exact _ _ => constructor
    | |- Forall2 _ [] [] => constructor
    | |- Forall2 _ (_ :: _) (_ :: _) => constructor; cbn [fst snd]
    | |- exact (TyPrim _) _ => eapply exact_num; [constructor|cbn; unfold unsigned_ok; lia]
    | |- exact TyString _ => eapply exact_string; [apply U; repeat constructor; lia|reflexivity]
    | |- exact (TyOption _) RNone => constructor
    | |- exact (TyOption _) _ => apply exact_some; [discriminate|]
    end.
  - cbn. intros [].
  - vm_compute. reflexivity.
  - destruct C73_case as (Sa & _). destruct (F c73_answer) as (q' & Fr). { repeat constructor. }
    exists (frame 0 (3 :: s2l "select @@max_allowed_packet")), (frame_all 1 c73_answer). cbn [limit_known o_max_allowed_packet known_key_options].
    exists 1, c73_answer, q'. splits; [apply frame_frames; vm_compute; reflexivity|exact Sa|exact Fr].
  - exists 1, [ok_packet_bytes], 2. splits.
    + constructor. apply frame_frames. vm_compute. reflexivity.
    + apply (ap_ok some_caps InfoAbsent 0 0 2 0 [] []); [discriminate|exact ok_packet_layout|split; [lia|intros K; discriminate]|reflexivity].
    + rewrite <- (app_nil_r (frame 1 ok_packet_bytes)). econstructor; [apply frame_frames; vm_compute; reflexivity|constructor].
  - exact X1.
  - exact X2.
  - vm_compute. apply (utf8_text_ascii (utf8_encode user_query)). vm_compute. repeat constructor; discriminate.
  - exists [[VUInt 1; VBytes (s2l "foo"); VBytes (s2l "foo@example.com")]; [VUInt 2; VBytes (s2l "bar"); VNull]]. splits.
    + apply select_answers. vm_compute. reflexivity.
    + unfold asks_for. splits.
      * cbn [untyped user_types map fst snd]. concrete.
      * cbn [untyped user_types map fst snd]. concrete.
      * apply Forall_forall. auto.
      * intros x. auto.
      * repeat constructor.
    + repeat constructor; discriminate.
    + assert (Id : forall n l, n = 1 /\ l = [49] \/ n = 2 /\ l = [50] -> text_enc (fun _ _ => False) (fun _ _ => False) CLong true (VUInt n) l).
      { intros n l H. apply te_long_u; [now left|unfold u32; lia|]. unfold nat_text.
        destruct H as [(-> & ->)|(-> & ->)]; (splits; [discriminate|repeat constructor; unfold digit; lia|reflexivity]). }
      constructor; [|constructor; [|constructor]]; cbn [map user_columns user_column col_type col_flags].
      * apply (tr_val _ _ CLong true _ _ _ [49] [1]); [apply Id; auto|constructor; cbn; lia|].
        apply (tr_val _ _ CVarString false _ _ _ (s2l "foo") [3]); [apply te_str; constructor|constructor; cbn; lia|].
        apply (tr_val _ _ CVarString false _ _ _ (s2l "foo@example.com") [15] []); [apply te_str; constructor|constructor; cbn; lia|constructor].
      * apply (tr_val _ _ CLong true _ _ _ [50] [1]); [apply Id; auto|constructor; cbn; lia|].
        apply (tr_val _ _ CVarString false _ _ _ (s2l "bar") [3]); [apply te_str; constructor|constructor; cbn; lia|].
        apply tr_null. constructor.
    + destruct (F user_answer) as (q' & Fr). { repeat constructor. }
      exists 1, user_answer, q'. splits; [constructor; apply frame_frames; vm_compute; reflexivity| |exact Fr].
      apply (ap_rows some_caps user_columns [user_definition "id" 3 32; user_definition "name" 253 0; user_definition "email" 253 0] user_rows 2 0
        [254; 0; 0; 2; 0; 0; 0]).
      * discriminate.
      * repeat (constructor; [apply user_column_layout; [cbn; tauto|lia|repeat constructor; lia|vm_compute; reflexivity]|]). constructor.
      * repeat constructor; (eexists _, _; split; [reflexivity|]; split; intros; lia).
      * split; [split; [lia|intros H; discriminate]|split; [lia|reflexivity]].
      * reflexivity.
      * reflexivity.
Qed.

(** C110 is false of durations between minus one second and zero (C94): the program ends without error
    and the server has kept what it was told, but listed is another duration than the one inserted. *)
Definition pause_trace : list statement := snd (insert_each (engine pauses) pause_types [pause] []).
Definition pause_definition (name : string) (code flags : Z) : bytes :=
  [3; 100; 101; 102; 0] ++ wire_lenenc_str (s2l "pause") ++ wire_lenenc_str (s2l "pause") ++ wire_lenenc_str (s2l name) ++
  wire_lenenc_str (s2l name) ++ [12; 33; 0; 255; 0; 0; 0; code] ++ wire_uint 2 flags ++ [0; 0; 0].
Definition pause_input : bytes :=
  frame 0 mysql8_greeting ++ frame 2 [1; 4] ++ frame 4 ok_packet_bytes ++ frame_all 1 c73_answer ++ frame 1 ok_packet_bytes ++
  c96_input 1 pause_trace ++ frame_all 1 [[2]; pause_definition "id" 3 32; pause_definition "length" 11 0;
    [1; 49; 15] ++ s2l "00:00:00.500000"; [254; 0; 0; 2; 0; 0; 0]].
Theorem C110_program_refuted : exists T m x trace s y s',
  serves (engine T) (engine_tables T) /\ made_for T m /\ keys_differ T /\ contents T m [] /\
  everywhere names_distinct (untyped m) /\ everywhere names_plain (untyped m) /\ everywhere has_column (untyped m) /\ referred m = [] /\
  (exists d, fields_of x = [RNum 0; RDuration d] /\ duration_valid d) /\
  insert_each (engine T) m [x] [] = (Ok [1], trace) /\
  answers (engine_tables T trace) (build_query (m_table (untyped m)) (model_columns (untyped m))) [[VUInt 1; VTime false 0 0 0 0 500000]] /\
  hello_world flat_prims true (fun _ => true) (fun _ => None) (fun _ => None) false known_key_options create_users m [x] s = (Ok [y], s') /\
  ~ saved m x 1 y.
Proof.
  exists pauses, pause_types, pause, pause_trace, (mkStream pause_input IoUnexpectedEof [] None), (TInstance [RNum 1; RDuration (mkDuration 0 500000000)] [] []).
  eexists. splits.
  - apply engine_serves.
  - econstructor; [reflexivity|reflexivity|nodup|left; reflexivity|intros _; exists U32; left; reflexivity|nodup| |members|constructor].
    members; (eexists; split; [cbn; repeat (try (left; reflexivity); right)|]; split; [intros X|intros (_ & X)]; try discriminate; auto).
  - intros t tb E. unfold pauses in E. destruct (list_eqb t (s2l "pause")); [|discriminate]. injection E as <-. split; constructor.
  - eexists _, []. splits; [reflexivity|apply Permutation_refl|constructor].
  - cbn [untyped pause_types map fst snd]. concrete.
  - cbn [untyped pause_types map fst snd]. concrete.
  - cbn [untyped pause_types map fst snd]. concrete.
  - reflexivity.
  - exists (mkDuration (-1) 500000000). split; [reflexivity|]. vm_compute. intuition congruence.
  - vm_compute. reflexivity.
  - apply select_answers. vm_compute. reflexivity.
  - vm_compute. reflexivity.
  - intros S. inversion S as [? ? ? ? ? ? ? ? ? ? ? ? ? ? Hy]; subst.
    specialize (Hy 1%nat _ _ _ _ eq_refl eq_refl eq_refl). vm_compute in Hy. discriminate.
Qed.
Print Assumptions C110_program_refuted.

(** The first statement is refused; the second insert is refused; the query is refused; the user is
    refused. *)
Definition refusal : bytes := 255 :: 81 :: 4 :: 35 :: s2l "42S02No table".
Definition run_hello (input : bytes) : res error (list tinstance) * bytes :=
  let '(r, s) := hello_world flat_prims true (fun _ => true) (fun _ => None) (fun _ => None) false known_key_options create_users user_types
    [foo 0; bar 0] (mkStream input IoUnexpectedEof [] None) in (r, s_out s).
Definition login_input : bytes := frame 0 mysql8_greeting ++ frame 2 [1; 4] ++ frame 4 ok_packet_bytes ++ frame_all 1 c73_answer.
Example C110_stops_case :
  let e := Err (EServer (ErrError 1105 (Some (s2l "42S02")) (s2l "No table"))) in
  let login := frame 3 [7] ++ frame 0 (3 :: s2l "select @@max_allowed_packet") in
  let first := firstn 1 c110_trace in
  (exists h, run_hello (login_input ++ frame 1 refusal) = (e, frame 1 h ++ login ++ frame 0 (3 :: create_users))) /\
  (exists h, run_hello (login_input ++ frame 1 ok_packet_bytes ++ c96_input 1 first ++ frame_all 1 (c96_prepared 2 2) ++ frame 1 refusal) =
     (e, frame 1 h ++ login ++ frame 0 (3 :: create_users) ++ c96_output 1 c110_trace)) /\
  (exists h, run_hello (login_input ++ frame 1 ok_packet_bytes ++ c96_input 1 c110_trace ++ frame 1 refusal) =
     (e, frame 1 h ++ login ++ frame 0 (3 :: create_users) ++ c96_output 1 c110_trace ++ frame 0 (3 :: user_query))) /\
  (exists h, run_hello (frame 0 mysql8_greeting ++ frame 2 refusal) = (e, frame 1 h)).
Proof.
  cbv zeta. splits.
  all: match goal with |- exists h, ?x = _ =>
    let o := eval vm_compute in (snd x) in
    match goal with
    | |- exists h, _ = (_, frame 1 h ++ ?post) => exists (firstn (length o - length post - 4) (skipn 4 o)); vm_compute; reflexivity
    | |- exists h, _ = (_, frame 1 h) => exists (skipn 4 o); vm_compute; reflexivity
    end end.
Qed.
