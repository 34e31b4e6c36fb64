(** C98: byte strings serialized as [Hex]. *)
From Coq Require Import String ZArith List Bool Lia.
From Verif Require Import Base BaseFacts Types Utf8 ParseBuf ValueText Hex SerdeHex Spec_Text Spec_Conv Spec_Serde
  ValueText_proofs Escape_proofs Hex_proofs Conversion_proofs ParseBuf_proofs Packets_proofs.
Import ListNotations.
Open Scope Z_scope.

(** What a JSON reader answers when asked for a text. *)
Definition json_answer (src : source) (s : list Z) (copied : bool) : visit :=
  if can_lend src copied then VisitBorrowedStr s else VisitStr s.

(** In every format that writes a newtype as its content and lends texts to the reader, what is
    written is read back.  Missing: formats and sources that do not lend (refuted below). *)
Theorem C98_round_trip_partial : forall (doc : Type) (write : ser_call -> doc) (read : doc -> visit),
  (forall name s, read (write (SerNewtypeString name s)) = VisitBorrowedStr s) ->
  forall b, bytes_ok b -> hex_deserialize (read (write (hex_serialize b))) = Ok b.
Proof.
  intros doc write read H b Hb. unfold hex_serialize. rewrite H. unfold hex_deserialize, str_visitor. cbn [rbind].
  now rewrite hex_round_trip.
Qed.
Print Assumptions C98_round_trip_partial.

(** Exactly what is accepted: text of the input - given as text or as bytes of it - that denotes the
    bytes; nothing panics. *)
Theorem C98_accepted : forall v,
  (forall s, v = VisitBorrowedBytes s -> bytes_ok s) ->
  hex_deserialize v <> Panic /\
  forall b, hex_deserialize v = Ok b <->
    exists s, hex_text b s /\ (v = VisitBorrowedStr s \/ (v = VisitBorrowedBytes s /\ exists t, utf8_text t s)).
Proof.
  intros v Hv. split.
  - unfold hex_deserialize. destruct v as [s|s|s|s|]; cbn [str_visitor rbind]; try discriminate.
    + pose proof (from_str_np s). destruct (hex_from_str s); [discriminate | discriminate | congruence].
    + destruct (utf8_decode s); cbn [rbind]; [|discriminate].
      pose proof (from_str_np s). destruct (hex_from_str s); [discriminate | discriminate | congruence].
  - intros b. split.
    + intros H. destruct v as [s|s|s|s|]; try discriminate.
      * unfold hex_deserialize in H. cbn [str_visitor rbind] in H. destruct (hex_from_str s) eqn:E; [|discriminate|discriminate]. injection H as ->.
        exists s. split; [now apply from_str_iff | now left].
      * specialize (Hv s eq_refl). unfold hex_deserialize in H. cbn [str_visitor] in H. destruct (utf8_decode s) as [t|] eqn:U; [|discriminate]. cbn [rbind] in H.
        destruct (hex_from_str s) eqn:E; [|discriminate|discriminate]. injection H as ->.
        exists s. split; [now apply from_str_iff | right; split; [reflexivity|]]. exists t. now apply decode_text.
    + intros (s & T & [->|(-> & t & U)]); apply from_str_iff in T; unfold hex_deserialize, str_visitor.
      * cbn [rbind]. now rewrite T.
      * rewrite (from_utf8_text t s U). cbn [rbind]. now rewrite T.
Qed.
Print Assumptions C98_accepted.

(** In JSON the text needs no escapes. *)
Lemma hex_plain : forall b, bytes_ok b -> json_chars (hex_encode b) (hex_encode b) false.
Proof.
  induction b as [|x b IH]; intros H; [constructor|]. inversion H as [|? ? Hx Hb]; subst. specialize (IH Hb).
  unfold hex_encode. cbn [flat_map app]. fold (hex_encode b).
  assert (D : forall n, 32 <= hex_digit n /\ hex_digit n <> 34 /\ hex_digit n <> 92 \/ n < 0 \/ 15 < n).
  { intros n. unfold hex_digit. destruct (n <? 10) eqn:E; lia. }
  unfold byte_ok in Hx.
  destruct (D (x / 16)) as [(A1 & A2 & A3)|A]; [|lia].
  destruct (D (x mod 16)) as [(B1 & B2 & B3)|B]; [|lia].
  constructor; auto. constructor; auto.
Qed.

Theorem C98_json : forall b, bytes_ok b -> exists name s,
  hex_serialize b = SerNewtypeString name s /\ json_string s ([34] ++ s ++ [34]) false /\
  hex_deserialize (json_answer InMemory s false) = Ok b.
Proof.
  intros b Hb. exists (s2l "Hex"), (hex_display b). split; [reflexivity|]. split.
  - exists (hex_display b). split; [|reflexivity]. unfold hex_display. cbn [app].
    constructor; [lia | lia | lia|]. constructor; [lia | lia | lia|]. now apply hex_plain.
  - unfold hex_deserialize, json_answer. cbn [can_lend negb str_visitor rbind]. now rewrite hex_round_trip.
Qed.
Print Assumptions C98_json.

Example C98_case : hex_serialize [171; 205] = SerNewtypeString (s2l "Hex") (s2l "0xabcd") /\
  hex_deserialize (VisitBorrowedStr (s2l "0XAbCd")) = Ok [171; 205] /\
  hex_deserialize (VisitBorrowedBytes (s2l "abcd")) = Ok [171; 205] /\
  hex_deserialize (VisitBorrowedStr (s2l "0xabc")) = Err (DCustom HOddLength) /\
  hex_deserialize (VisitBorrowedBytes [255]) = Err DInvalidValue.
Proof. splits; vm_compute; reflexivity. Qed.

(** The same document read from a stream or from a tree is refused, for all bytes; so is, even in memory,
    a document that writes one of the characters out. *)
Theorem C98_round_trip_refuted :
  (forall b src, bytes_ok b -> src <> InMemory -> exists s d,
    hex_serialize b = SerNewtypeString (s2l "Hex") s /\ json_string s d false /\
    hex_deserialize (json_answer src s false) = Err DInvalidType) /\
  (exists s d, hex_text [18] s /\ json_string s d true /\ hex_deserialize (json_answer InMemory s true) = Err DInvalidType).
Proof.
  split.
  - intros b src Hb Hs. destruct (C98_json b Hb) as (name & s & E & J & _). injection E as <- <-.
    eexists _, _. split; [reflexivity|]. split; [exact J|]. destruct src; [congruence | reflexivity | reflexivity].
  - exists (s2l "0x12"), ([34] ++ (48 :: 120 :: [92; 117; 48; 48; 51; 49] ++ [50]) ++ [34]). split; [|split; [|reflexivity]].
    + apply from_str_iff. vm_compute. reflexivity.
    + eexists. split; [|reflexivity]. change (s2l "0x12") with [48; 120; 16 * 3 + 1; 50].
      constructor; [lia | lia | lia|]. constructor; [lia | lia | lia|].
      apply (json_written_out 3 1 [50] [50] false); [lia | lia|]. constructor; [lia | lia | lia | constructor].
Qed.
Print Assumptions C98_round_trip_refuted.
