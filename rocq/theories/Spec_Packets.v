(** Layouts of the server packets of the command phase, from the protocol documentation
    (OK_Packet, EOF_Packet, ERR_Packet, Column Definition, COM_STMT_PREPARE_OK).
    Independent of the model's functions. *)
From Coq Require Import ZArith List Bool.
From Verif Require Import Types Spec_Wire Spec_Conv.
Import ListNotations.
Open Scope Z_scope.

(** A bit of a flag word. *)
Definition flag_set (flags : Z) (bit : Z) : Prop := Z.testbit flags bit = true.

Definition SESSION_TRACK_BIT : Z := 23.
Definition PROTOCOL_41_BIT : Z := 9.
Definition PROGRESS_BIT : Z := 29.
Definition SESSION_STATE_CHANGED_BIT : Z := 14.

(** [string<lenenc>] holding UTF-8 text. *)
Definition lenenc_text (s w : list Z) : Prop :=
  exists b l, utf8_text s b /\ lenenc (Z.of_nat (length b)) l /\ w = l ++ b.

(** Text with a one-byte length. *)
Definition u8_text (s w : list Z) : Prop :=
  exists b, utf8_text s b /\ Z.of_nat (length b) < 256 /\ w = Z.of_nat (length b) :: b.

(** ** OK packet *)

(** Forms of the information text: absent (nothing to say), length-encoded, to the end of packet. *)
Inductive info_form := InfoAbsent | InfoLenenc | InfoEof.

(** The documented form: length-encoded with SESSION_TRACK, otherwise to the end; servers leave it
    out if there is nothing to say. *)
Definition documented_form (track : bool) (f : info_form) : Prop :=
  match f with
  | InfoAbsent => True
  | InfoLenenc => track = true
  | InfoEof => track = false
  end.

(** Information text and session state. *)
Inductive ok_info (track changed : bool) : info_form -> list Z -> list Z -> list Z -> Prop :=
| oi_absent : ok_info track changed InfoAbsent [] [] []
| oi_lenenc : forall msg w, track && changed = false -> lenenc_text msg w ->
    ok_info track changed InfoLenenc msg [] w
| oi_state : forall msg st w1 w2, track && changed = true -> lenenc_text msg w1 -> lenenc_text st w2 ->
    ok_info track changed InfoLenenc msg st (w1 ++ w2)
| oi_eof : forall msg w, utf8_text msg w -> ok_info track changed InfoEof msg [] w.

(** Everything after the header byte. *)
Definition ok_body (track : bool) (f : info_form) (rows id status warnings : Z) (msg st w : list Z) : Prop :=
  exists a b c, lenenc rows a /\ lenenc id b /\
    0 <= status < 65536 /\ 0 <= warnings < 65536 /\
    ok_info track (Z.testbit status SESSION_STATE_CHANGED_BIT) f msg st c /\
    w = a ++ b ++ wire_uint 2 status ++ wire_uint 2 warnings ++ c.

Definition ok_layout (track : bool) (f : info_form) (rows id status warnings : Z) (msg st pkt : list Z) : Prop :=
  exists w, ok_body track f rows id status warnings msg st w /\ pkt = 0 :: w.

(** What a lenient reader accepts: the two bytes that begin no integer count as zero, and anything
    may follow the warnings. *)
Inductive loose_int : Z -> list Z -> Prop :=
| loose_int_lenenc : forall n w, lenenc n w -> loose_int n w
| loose_int_null : loose_int 0 [251]
| loose_int_err : loose_int 0 [255].

Definition loose_ok (rows id status warnings : Z) (pkt : list Z) : Prop :=
  exists a b rest, loose_int rows a /\ loose_int id b /\ 0 <= status < 65536 /\ 0 <= warnings < 65536 /\
    pkt = 0 :: a ++ b ++ wire_uint 2 status ++ wire_uint 2 warnings ++ rest.

(** The text a reader sees: none if empty. *)
Definition nonempty (s : list Z) : option (list Z) := match s with [] => None | _ => Some s end.

(** The status flags MySQL and MariaDB define: all but bit 2. *)
Definition known_status (s : Z) : Prop := 0 <= s < 65536 /\ ~ flag_set s 2.

(** ** End of a result set *)

(** With DEPRECATE_EOF: an OK packet with header 0xFE. *)
Definition terminator (track : bool) (f : info_form) (status warnings : Z) (msg st pkt : list Z) : Prop :=
  exists w, ok_body track f 0 0 status warnings msg st w /\ pkt = 254 :: w.

(** Without DEPRECATE_EOF. *)
Definition old_eof (status warnings : Z) (pkt : list Z) : Prop :=
  0 <= status < 65536 /\ 0 <= warnings < 65536 /\
  pkt = 254 :: wire_uint 2 warnings ++ wire_uint 2 status.

(** ** ERR packet *)
Inductive err_layout (p41 progress : bool) : err_packet -> list Z -> Prop :=
| err_state : forall code st t m msg,
    p41 = true -> 0 <= code < 65536 -> ~ (code = 65535 /\ progress = true) ->
    length st = 5%nat -> utf8_text t st -> utf8_text msg m ->
    err_layout p41 progress (ErrError code (Some st) msg) (255 :: wire_uint 2 code ++ [35] ++ st ++ m)
| err_plain : forall code m msg,
    p41 = false -> 0 <= code < 65536 -> ~ (code = 65535 /\ progress = true) ->
    utf8_text msg m ->
    err_layout p41 progress (ErrError code None msg) (255 :: wire_uint 2 code ++ m)
| err_progress : forall n stage max_stage prog info l rest,
    progress = true -> 0 <= stage < 256 -> 0 <= max_stage < 256 -> 0 <= prog < 16777216 ->
    lenenc (Z.of_nat (length info)) l ->
    err_layout p41 progress (ErrProgress stage max_stage prog info)
      ([255; 255; 255; n; stage; max_stage] ++ wire_uint 3 prog ++ l ++ info ++ rest).

(** ** Column definition *)

(** The numeric code of each column type (enum_field_types). *)
Definition type_code : list (Z * column_type) :=
  [(0, CDecimal); (1, CTiny); (2, CShort); (3, CLong); (4, CFloat); (5, CDouble); (6, CNull);
   (7, CTimestamp); (8, CLongLong); (9, CInt24); (10, CDate); (11, CTime); (12, CDatetime);
   (13, CYear); (14, CNewDate); (15, CVarchar); (16, CBit); (17, CTimestamp2); (18, CDatetime2);
   (19, CTime2); (20, CTypedArray); (243, CUnknown); (245, CJson); (246, CNewDecimal); (247, CEnum);
   (248, CSet); (249, CTinyBlob); (250, CMediumBlob); (251, CLongBlob); (252, CBlob);
   (253, CVarString); (254, CString); (255, CGeometry)].

(** [text] is the encoding of the names. *)
Definition column_layout_by (text : list Z -> list Z -> Prop) (c : column) (pkt : list Z) : Prop :=
  exists db wdb wt wot wn won charset len code decimals filler,
    text db wdb /\ text (col_table c) wt /\ text (col_org_table c) wot /\
    text (col_name c) wn /\ text (col_org_name c) won /\
    0 <= charset < 65536 /\ 0 <= len < 4294967296 /\ In (code, col_type c) type_code /\
    0 <= col_flags c < 65536 /\ 0 <= decimals < 256 /\ (2 <= length filler)%nat /\
    pkt = [3; 100; 101; 102] ++ wdb ++ wt ++ wot ++ wn ++ won ++
          [12] ++ wire_uint 2 charset ++ wire_uint 4 len ++ [code] ++ wire_uint 2 (col_flags c) ++
          [decimals] ++ filler.

(** As documented: names are [string<lenenc>] in the shortest form. *)
Definition name_text (s w : list Z) : Prop := exists b, utf8_text s b /\ w = wire_lenenc_str b.

Definition column_layout : column -> list Z -> Prop := column_layout_by name_text.

(** Names of at most 250 bytes. *)
Definition short_name_text (s w : list Z) : Prop := name_text s w /\ Z.of_nat (length w) <= 251.

(** ** COM_STMT_PREPARE_OK *)
Definition stmt_layout (id columns params warnings : Z) (pkt : list Z) : Prop :=
  0 <= id < 4294967296 /\ 0 <= columns < 65536 /\ 0 <= params < 65536 /\ 0 <= warnings < 65536 /\
  exists status filler rest,
  pkt = [status] ++ wire_uint 4 id ++ wire_uint 2 columns ++ wire_uint 2 params ++ [filler] ++
        wire_uint 2 warnings ++ rest.
