(** Property C124: the packet limit, if the options give none. *)
From Coq Require Import String ZArith List Bool Lia.
From Verif Require Import Base BaseFacts Types Utf8 ParseBuf BufMut Spec_Wire ParseBuf_proofs Framing Framing_proofs
  Spec_Conv Packets Spec_Packets Packets_proofs Crypt Handshake ValueBin Spec_Stmt Spec_Text StmtPackets ValueText Rows Rows_proofs
  ValueText_proofs Conversion Auth Auth_proofs Conn Spec_Conn Conn_proofs Connect_proofs ConnData Spec_Limit Limit_proofs
  Properties_Handshake Properties_Auth Properties_Command Properties_Connect.
Import ListNotations.
Open Scope Z_scope.
Open Scope io_scope.

(** The user has been authenticated, and the server answers the question for the limit in any way: the limit is
    the number of the first column of that name in the first row, if it is an unsigned BIGINT; it stays what it was
    if there is no set, no row or no such column; otherwise connecting fails, with the error of [limit_after].
    Nothing else is sent, and nothing else of the connection's data changes. *)
Theorem C124_limit_asked : forall pr debug other f32 f64 secure o s d s1 q a w q0 pkts wi qe rest,
  authenticate wire_transport pr debug other secure o (s, 0) = (Ok d, (s1, q)) ->
  o_max_allowed_packet o = None -> 0 <= q < 256 -> s_budget s1 = None ->
  Z.testbit (data_capabilities d) DEPRECATE_EOF_BIT = true ->
  frames 0 (3 :: s2l "select @@max_allowed_packet") w q0 -> answer_packets (data_capabilities d) a pkts -> framed q0 pkts wi qe ->
  (forall id params columns, a <> APrepared id params columns) ->
  (forall cols p ps, a = ARows cols (p :: ps) -> text_rows debug f32 f64 cols p <> Panic) ->
  s_in s1 = wi ++ rest ->
  exists r, limit_after (text_rows debug f32 f64) a r /\
    (forall r', limit_after (text_rows debug f32 f64) a r' -> r' = r) /\
    match connect pr debug other f32 f64 secure o s with
    | (Ok c, s') => (exists n, r = Ok n /\ data_max_allowed_packet (conn_data_of c) =
                       match n with Some x => x | None => data_max_allowed_packet d end) /\
        data_id (conn_data_of c) = data_id d /\ data_capabilities (conn_data_of c) = data_capabilities d /\
        between c rest /\ s' = c_stream c /\ s_out s' = s_out s1 ++ w
    | (Err e, s') => r = Err e /\ s_out s' = s_out s1 ++ w
    | (Panic, _) => False
    end.
Proof.
  intros pr debug other f32 f64 secure o s d s1 q a w q0 pkts wi qe rest Ea Ho Hq Hb Hd Fw Ha Hf Hp Hn Hi.
  unfold connect. rewrite Ea.
  destruct (settings_any debug f32 f64 o (mkConn s1 q d false) a w q0 pkts wi qe rest) as (r & c' & L & E & B & O & D); auto.
  { apply closed_between. split; [exact Hq|]. split; [exact Hb|]. split; [reflexivity | exact Hi]. }
  exists r. split; [exact L|]. split; [intros r' K; eapply limit_after_det; eauto|]. rewrite E.
  destruct r as [n|e|]; [| |inversion L].
  - cbn [c_data c_stream] in D, O. unfold conn_data_of. splits; auto.
    + exists n. split; [reflexivity|]. rewrite D. destruct n; reflexivity.
    + rewrite D. destruct n; reflexivity.
    + rewrite D. destruct n; reflexivity.
  - split; [reflexivity | exact O].
Qed.
Print Assumptions C124_limit_asked.

(** Answers that are taken, kept from and refused: the number of a MySQL server; no row; a signed number; NULL. *)
Example C124_limit_case :
  let col n flags := mkColumn [] n [] [] CLongLong flags in
  let rows := text_rows true (fun _ => None) (fun _ => None) in
  limit_after rows (ARows [col limit_name 160] [8 :: s2l "67108864"]) (Ok (Some 67108864)) /\
  limit_after rows (ARows [col (s2l "limit") 160] [8 :: s2l "67108864"]) (Ok None) /\
  limit_after rows (ARows [col limit_name 160] []) (Ok None) /\
  limit_after rows (ARows [col limit_name 0] [8 :: s2l "67108864"])
    (Err (EProtocol (PParse (EWrongValue TULong (VLong 67108864))))) /\
  limit_after rows (ARows [col limit_name 160] [[251]]) (Err (EProtocol (PParse (EWrongValue TULong VNull)))).
Proof.
  cbv zeta. split; [|split; [|split; [|split]]].
  - eapply (limit_number _ [] _ []); [vm_compute; reflexivity | intros [] | reflexivity | reflexivity].
  - eapply limit_not_named; [vm_compute; reflexivity|]. intros [H|[]]. vm_compute in H. discriminate.
  - constructor.
  - eapply (limit_no_number _ [] _ []); [vm_compute; reflexivity | intros [] | reflexivity | reflexivity | discriminate].
  - eapply (limit_no_number _ [] _ []); [vm_compute; reflexivity | intros [] | reflexivity | reflexivity | discriminate].
Qed.

(** The connection of [C73_case], after authentication. *)
Example C124_limit_after_login_case : exists d s1 q,
  authenticate wire_transport flat_prims true (fun _ => true) false known_key_options
    (mkStream c73_input IoUnexpectedEof [] None, 0) = (Ok d, (s1, q)) /\
  o_max_allowed_packet known_key_options = None /\ 0 <= q < 256 /\ s_budget s1 = None /\
  Z.testbit (data_capabilities d) DEPRECATE_EOF_BIT = true /\
  s_in s1 = (frame 1 [1] ++ frame 2 limit_column ++ frame 3 (8 :: s2l "67108864") ++ frame 4 [254; 0; 0; 2; 0; 0; 0] ++ []) ++
            frame 1 ok_packet_bytes /\
  framed 1 c73_answer (frame 1 [1] ++ frame 2 limit_column ++ frame 3 (8 :: s2l "67108864") ++ frame 4 [254; 0; 0; 2; 0; 0; 0] ++ []) 5.
Proof.
  match goal with |- context [authenticate ?a ?b ?c ?d ?e ?f ?g] => destruct (authenticate a b c d e f g) as [r [s q]] eqn:E end.
  vm_compute in E. injection E as <- <- <-. eexists _, _, _. split; [reflexivity|].
  split; [reflexivity|]. split; [lia|]. split; [reflexivity|]. split; [vm_compute; reflexivity|]. split; [vm_compute; reflexivity|].
  unfold c73_answer. framed_by.
Qed.
