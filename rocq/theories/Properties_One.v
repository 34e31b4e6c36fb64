(** Property C107: asking a result set for one row, or only for its end. *)
From Coq Require Import String ZArith List Bool Lia.
From Verif Require Import Base BaseFacts Types Utf8 ParseBuf BufMut Spec_Wire ParseBuf_proofs Framing Framing_proofs
  Spec_Conv Packets Spec_Packets Packets_proofs Crypt Handshake ValueBin Spec_Stmt Spec_Text StmtPackets ValueText Rows Rows_proofs
  ValueText_proofs Conversion Models TypedModel Auth Auth_proofs Conn Spec_Conn Conn_proofs Spec_One One_proofs
  Properties_Command Properties_Typed.
Import ListNotations.
Open Scope Z_scope.

(** What [one] answers, in every case, at any place in a set.  Afterwards the next command can follow
    ([between], see C46); the set has been read to its end if the other rows could be read. *)
Theorem C107_one_partial : forall A (decode : list column -> bytes -> res error A) cols c rows status warnings w rest,
  Z.testbit (c_caps c) DEPRECATE_EOF_BIT = true ->
  0 <= c_seq c < 256 -> s_budget (c_stream c) = None -> c_pending c = true ->
  rest_of_set (c_seq c) rows status warnings w -> s_in (c_stream c) = w ++ rest ->
  exists r c' rs', one decode (c, mkSet cols None) = (r, (c', rs')) /\ one_of decode cols rows r /\
    between c' rest /\ c_data c' = c_data c /\ s_out (c_stream c') = s_out (c_stream c) /\
    (Forall (readable decode cols) (tl rows) -> (forall p, hd_error rows = Some p -> decode cols p <> Panic) ->
     c_pending c' = false /\ s_in (c_stream c') = rest /\
     exists x, rs' = mkSet cols (Some x) /\ shifted_report status warnings (ok_status x) (ok_warnings x)).
Proof.
  intros A decode cols c rows status warnings w rest Hc Hs Hb Hp Hr Hi.
  destruct (one_answer A decode cols rows c status warnings rest Hc) as (r & c' & rs' & E & O & B & (D & S) & R).
  { split; [exact Hs|]. split; [exact Hb|]. split; [exact Hp|]. exists w. auto. }
  exists r, c', rs'. splits; try assumption. intros F N. destruct R as ((_ & _ & P & I) & x & X & Y).
  - destruct rows as [|p rows]; [exact I|]. split; [now apply N | now apply reading_all].
  - splits; [exact P | exact I | exists x; auto].
Qed.
Print Assumptions C107_one_partial.

(** The answer is determined by the rows. *)
Theorem C107_answer_unique : forall A (decode : list column -> bytes -> res error A) cols rows r s,
  one_of decode cols rows r -> one_of decode cols rows s -> r = s.
Proof. intros A decode cols rows r s. apply one_of_det. Qed.
Print Assumptions C107_answer_unique.

(** Finishing: the report of the end (as C30 has it), with the columns if asked for, or the first row
    that cannot be read. *)
Theorem C107_finish_partial : forall A (decode : list column -> bytes -> res error A) cols c rows status warnings w rest,
  Z.testbit (c_caps c) DEPRECATE_EOF_BIT = true ->
  0 <= c_seq c < 256 -> s_budget (c_stream c) = None -> c_pending c = true ->
  rest_of_set (c_seq c) rows status warnings w -> s_in (c_stream c) = w ++ rest ->
  exists r c' rs', reading decode cols rows r /\
    between c' rest /\ c_data c' = c_data c /\ s_out (c_stream c') = s_out (c_stream c) /\
    match r with
    | Ok _ => exists x, shifted_report status warnings (ok_status x) (ok_warnings x) /\
        c_pending c' = false /\ s_in (c_stream c') = rest /\ rs' = mkSet cols (Some x) /\
        finish decode (c, mkSet cols None) = (Ok x, (c', rs')) /\
        finish_into_inner decode (c, mkSet cols None) = (Ok (x, cols), (c', rs'))
    | Err e => finish decode (c, mkSet cols None) = (Err e, (c', rs')) /\
        finish_into_inner decode (c, mkSet cols None) = (Err e, (c', rs'))
    | Panic => finish decode (c, mkSet cols None) = (Panic, (c', rs')) /\
        finish_into_inner decode (c, mkSet cols None) = (Panic, (c', rs'))
    end.
Proof.
  intros A decode cols c rows status warnings w rest Hc Hs Hb Hp Hr Hi.
  destruct (finish_answer A decode cols rows c status warnings rest Hc) as (r & c' & rs' & R & B & (D & S) & F).
  { split; [exact Hs|]. split; [exact Hb|]. split; [exact Hp|]. exists w. auto. }
  exists r, c', rs'. splits; try assumption. destruct r as [[]|e|]; [|exact F|exact F].
  destruct F as (x & X & (_ & _ & P & I) & E & F1 & F2). exists x. splits; assumption.
Qed.
Print Assumptions C107_finish_partial.

(** A set that is over: its report again, and nothing is read. *)
Theorem C107_over : forall A (decode : list column -> bytes -> res error A) cols c x,
  one decode (c, mkSet cols (Some x)) = (Ok None, (c, mkSet cols (Some x))) /\
  finish decode (c, mkSet cols (Some x)) = (Ok x, (c, mkSet cols (Some x))) /\
  finish_into_inner decode (c, mkSet cols (Some x)) = (Ok (x, cols), (c, mkSet cols (Some x))).
Proof. intros. splits; reflexivity. Qed.
Print Assumptions C107_over.

(** Not so in general: a later row that does not fit the type asked for hides the first one, and the
    report of the end.  Here the second map has no name. *)
Definition first_map (wire : bytes) : res error (option tinstance) * res error ok_packet :=
  let decode := model_rows (text_rows true (fun _ => None) (fun _ => None)) map_types in
  match query (s2l "q") (idle wire) with
  | (Ok rs, c) => (fst (one decode (c, rs)), fst (finish decode (c, rs)))
  | _ => (Panic, Panic)
  end.
Definition cave : tinstance :=
  TInstance [RNum 1; RString (s2l "cave"); RNum 2; RSome (RDatetime (mkDate 2024 2 29) (mkTime 20 15 0 0))] [] [].
Theorem C107_other_rows_refuted : exists wire e,
  (exists x, first_map (map_answer (wire_lenenc_str (s2l "well"))) = (Ok (Some cave), Ok x)) /\
  wire = map_answer [251] /\ read_maps wire = Err e /\ first_map wire = (Err e, Err e).
Proof.
  eexists _, _. splits; [|reflexivity| |]; [eexists|..]; vm_compute; reflexivity.
Qed.
Print Assumptions C107_other_rows_refuted.

(** More generally, for any rows. *)
Theorem C107_later_row_refuted : forall A (decode : list column -> bytes -> res error A) cols c p a good bad rows e status warnings w rest,
  Z.testbit (c_caps c) DEPRECATE_EOF_BIT = true ->
  0 <= c_seq c < 256 -> s_budget (c_stream c) = None -> c_pending c = true ->
  rest_of_set (c_seq c) (p :: good ++ bad :: rows) status warnings w -> s_in (c_stream c) = w ++ rest ->
  decode cols p = Ok a -> Forall (readable decode cols) good -> decode cols bad = Err e ->
  fst (one decode (c, mkSet cols None)) = Err e /\ fst (finish decode (c, mkSet cols None)) = Err e.
Proof.
  intros A decode cols c p a good bad rows e status warnings w rest Hc Hs Hb Hp Hr Hi Hd Hg Hbad. split.
  - destruct (C107_one_partial A decode cols c _ status warnings w rest Hc Hs Hb Hp Hr Hi) as (r & c' & rs' & E & O & _).
    rewrite E. cbn [fst]. eapply one_of_det; [exact O|]. apply one_later_error; [congruence|].
    now apply reading_error.
  - destruct (C107_finish_partial A decode cols c _ status warnings w rest Hc Hs Hb Hp Hr Hi) as (r & c' & rs' & R & _ & _ & _ & F).
    assert (K : r = Err e).
    { eapply reading_det; [exact R|]. apply (reading_error decode cols (p :: good) bad rows e); [|exact Hbad].
      constructor; [exists a; exact Hd | exact Hg]. }
    subst r. destruct F as (F & _). now rewrite F.
Qed.
Print Assumptions C107_later_row_refuted.

Example C107_case :
  let c := mkConn (mkStream (frame 3 [1; 97] ++ frame 4 [1; 98] ++ frame 5 [254; 0; 0; 2; 0; 0; 0] ++ [7]) IoUnexpectedEof [] None) 3 some_data true in
  rest_of_set 3 [[1; 97]; [1; 98]] 2 0 (frame 3 [1; 97] ++ frame 4 [1; 98] ++ frame 5 [254; 0; 0; 2; 0; 0; 0] ++ []) /\
  Z.testbit (c_caps c) DEPRECATE_EOF_BIT = true /\
  (let '(r, (c', _)) := one (fun _ p => Ok p) (c, mkSet [some_column] None) in (r, s_in (c_stream c'))) = (Ok (Some [1; 97]), [7]) /\
  (let '(r, (c', _)) := finish (fun _ p => Ok p) (c, mkSet [some_column] None) in (rmap ok_status r, s_in (c_stream c'))) = (Ok 512, [7]).
Proof.
  cbn zeta. splits; [|reflexivity|vm_compute; reflexivity|vm_compute; reflexivity].
  split; [repeat constructor; eexists _, _; (split; [reflexivity | lia])|].
  exists [254; 0; 0; 2; 0; 0; 0], 6. split; [split; [split; [lia | discriminate]|]; split; [lia | reflexivity]|].
  cbn [app]. framed_by.
Qed.
