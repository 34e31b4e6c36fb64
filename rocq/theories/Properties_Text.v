(** Properties C16-C22: escaping and text forms of values. *)
From Coq Require Import String ZArith List Bool Lia.
From Verif Require Import Base BaseFacts Types ParseBuf ValueText Hex Spec_Text
  ValueText_proofs Escape_proofs Hex_proofs.
Import ListNotations.
Open Scope Z_scope.

(** C16: the escaped text is one literal and the text after it is untouched; its content is the
    string with every Control+Z replaced by the letter z, hence the string itself exactly if it
    contains no Control+Z. *)
Theorem C16_one_literal : forall s rest, not_starting 34 rest ->
  lex_string true (string_escape s ++ rest) =
    Some (map (fun c => if c =? 26 then 122 else c) s, rest).
Proof. exact string_escape_lex. Qed.
Print Assumptions C16_one_literal.

Theorem C16_content_partial : forall s rest, not_starting 34 rest ->
  (lex_string true (string_escape s ++ rest) = Some (s, rest) <-> ~ In 26 s).
Proof. exact string_escape_exact. Qed.
Print Assumptions C16_content_partial.

Theorem C16_content_refuted : exists s, forall rest, not_starting 34 rest ->
  lex_string true (string_escape s ++ rest) <> Some (s, rest).
Proof.
  exists [26]. intros rest H. rewrite string_escape_exact by assumption. cbn. tauto.
Qed.
Print Assumptions C16_content_refuted.

(** With SQL mode NO_BACKSLASH_ESCAPES the literal can be left. *)
Theorem C16_no_backslash_mode_refuted : exists s rest content,
  lex_string false (string_escape s ++ rest) = Some (content, s2l " OR 1=1 -- " ++ [34] ++ rest).
Proof.
  exists (s2l "x" ++ [34] ++ s2l " OR 1=1 -- "), [], (s2l "x\"). vm_compute. reflexivity.
Qed.
Print Assumptions C16_no_backslash_mode_refuted.

Example C16_case :
  string_escape (s2l "a'b" ++ [34; 92; 10] ++ s2l "%") = [34; 97; 92; 39; 98; 92; 34; 92; 92; 92; 110; 37; 34] /\
  lex_string true ([34; 97; 92; 39; 98; 92; 34; 92; 92; 92; 110; 37; 34] ++ s2l " x")
    = Some (s2l "a'b" ++ [34; 92; 10] ++ s2l "%", s2l " x").
Proof. split; vm_compute; reflexivity. Qed.

(** C17: the escaped identifier is one quoted identifier, whatever follows except a backtick. *)
Theorem C17_one_identifier : forall s rest, not_starting 96 rest ->
  exists name, lex_identifier (identifier_escape s ++ rest) = Some (name, rest) /\
    Forall ident_allowed name.
Proof.
  intros s rest H. exists (ident_kept s). split; [exact (identifier_lex s rest H)|].
  exact (ident_kept_allowed s).
Qed.
Print Assumptions C17_one_identifier.

(** The name is the input without disallowed characters and trailing whitespace, unless the
    input has only whitespace among its allowed characters and begins with one of them. *)
Theorem C17_name_partial : forall s rest, not_starting 96 rest ->
  ((exists name, lex_identifier (identifier_escape s ++ rest) = Some (name, rest) /\ ident_name s name)
   <-> (exists c, In c s /\ ident_allowed c /\ ~ space c) \/
       match s with c :: _ => ~ (ident_allowed c /\ space c) | [] => True end).
Proof. exact identifier_exact. Qed.
Print Assumptions C17_name_partial.

Theorem C17_name_refuted : exists s, ident_name s [] /\
  forall rest, not_starting 96 rest -> lex_identifier (identifier_escape s ++ rest) = Some ([32], rest).
Proof.
  exists [32]. split.
  - exists [32]. splits; [|constructor; [cbn; lia | constructor] | left; reflexivity].
    constructor; [unfold ident_allowed; lia | constructor].
  - intros rest H. exact (identifier_lex [32] rest H).
Qed.
Print Assumptions C17_name_refuted.

Example C17_case :
  identifier_escape (s2l "a`b " ++ [0; 128512] ++ s2l "c  ") = s2l "`a``b c`" /\
  lex_identifier (s2l "`a``b c` = 1") = Some (s2l "a`b c", s2l " = 1").
Proof. split; vm_compute; reflexivity. Qed.

(** C18: exactly the allowed characters, in order; valid identifiers unchanged. *)
Theorem C18_unquoted : forall s,
  selects unquoted_allowed s (unquoted_identifier_escape s) /\
  (unquoted_identifier_escape s = s <-> Forall unquoted_allowed s).
Proof. intros s. split; [exact (unquoted_selects s) | exact (unquoted_same s)]. Qed.
Print Assumptions C18_unquoted.

Example C18_case : unquoted_identifier_escape (s2l "a b;`$_9" ++ [127; 128; 65536]) = s2l "ab$_9" ++ [128].
Proof. vm_compute. reflexivity. Qed.

(** C19: the printed text of a date, time or datetime is one double-quoted literal whose content
    decodes to the same value. *)
Theorem C19_date : forall debug f32 f64 y m d, 0 <= y < 10000 -> 0 <= m < 100 -> 0 <= d < 100 ->
  exists t, value_display debug f32 f64 (VDate y m d) = Some ([34] ++ t ++ [34]) /\
    date_text t = Ok (VDate y m d) /\
    forall rest, not_starting 34 rest -> lex_string true (([34] ++ t ++ [34]) ++ rest) = Some (t, rest).
Proof. exact display_date_lit. Qed.
Print Assumptions C19_date.

Theorem C19_time : forall debug f32 f64 neg days h m s u, 0 <= days -> 0 <= h < 24 ->
  days * 24 + h < 2 ^ 32 -> 0 <= m < 100 -> 0 <= s < 100 -> 0 <= u < 1000000 ->
  exists t, value_display debug f32 f64 (VTime neg days h m s u) = Some ([34] ++ t ++ [34]) /\
    time_text debug t = Ok (VTime neg days h m s u) /\
    forall rest, not_starting 34 rest -> lex_string true (([34] ++ t ++ [34]) ++ rest) = Some (t, rest).
Proof. exact display_time_lit. Qed.
Print Assumptions C19_time.

Theorem C19_datetime : forall debug f32 f64 y mo d h m s u, 0 <= y < 10000 -> 0 <= mo < 100 ->
  0 <= d < 100 -> 0 <= h < 24 -> 0 <= m < 100 -> 0 <= s < 100 -> 0 <= u < 1000000 ->
  exists t, value_display debug f32 f64 (VDatetime y mo d h m s u) = Some ([34] ++ t ++ [34]) /\
    datetime_text debug t = Ok (VDatetime y mo d h m s u) /\
    forall rest, not_starting 34 rest -> lex_string true (([34] ++ t ++ [34]) ++ rest) = Some (t, rest).
Proof. exact display_datetime_lit. Qed.
Print Assumptions C19_datetime.

(** More hours than fit: a debug build panics, a release build prints another time. *)
Theorem C19_overflow : forall f32 f64 neg days h m s u, 0 <= days < 2 ^ 32 -> 0 <= h < 256 -> 2 ^ 32 <= days * 24 + h ->
  value_display true f32 f64 (VTime neg days h m s u) = None /\
  let k := (days * 24 + h) mod 2 ^ 32 in
  value_display false f32 f64 (VTime neg days h m s u) = value_display false f32 f64 (VTime neg (k / 24) (k mod 24) m s u).
Proof.
  intros f32 f64 neg days h m s u Hd Hh Hb. change (2 ^ 32) with 4294967296 in *.
  assert (K : forall k, 0 <= k < 4294967296 -> total_hours false (k / 24) (k mod 24) = Some k).
  { intros k Hk. pose proof (Z.div_mod k 24 ltac:(lia)). pose proof (Z.mod_pos_bound k 24 ltac:(lia)). unfold total_hours, u32_checked. destruct (Z.ltb_spec (k / 24 * 24) 4294967296); [|lia].
    destruct (Z.ltb_spec (k / 24 * 24 + k mod 24) 4294967296); [|lia]. f_equal. lia. }
  assert (D : total_hours true days h = None).
  { unfold total_hours, u32_checked. destruct (Z.ltb_spec (days * 24) 4294967296); [|reflexivity]. destruct (Z.ltb_spec (days * 24 + h) 4294967296); [lia|reflexivity]. }
  assert (R : total_hours false days h = Some ((days * 24 + h) mod 4294967296)).
  { unfold total_hours, u32_checked. destruct (Z.ltb_spec (days * 24) 4294967296) as [H|H].
    - destruct (Z.ltb_spec (days * 24 + h) 4294967296); [lia|reflexivity].
    - rewrite <- (Z.add_mod_idemp_l (days * 24) h) by lia.
      destruct (Z.ltb_spec ((days * 24) mod 4294967296 + h) 4294967296) as [L|L]; [|reflexivity].
      pose proof (Z.mod_pos_bound (days * 24) 4294967296 ltac:(lia)). now rewrite (Z.mod_small ((days * 24) mod 4294967296 + h)) by lia. }
  cbv zeta. cbn [value_display]. rewrite D, R, (K ((days * 24 + h) mod 4294967296)) by (apply Z.mod_pos_bound; lia). auto.
Qed.
Print Assumptions C19_overflow.

Example C19_overflow_case :
  value_display false (fun _ => []) (fun _ => []) (VTime false 178956971 5 59 58 0) = Some ([34] ++ s2l "13:59:58" ++ [34]).
Proof. vm_compute. reflexivity. Qed.

Theorem C19_null : forall debug f32 f64, value_display debug f32 f64 VNull = Some (s2l "NULL").
Proof. reflexivity. Qed.
Print Assumptions C19_null.

Example C19_case :
  value_display true (fun _ => []) (fun _ => []) (VTime true 34 22 59 59 120)
    = Some ([34] ++ s2l "-838:59:59.000120" ++ [34]) /\
  time_text true (s2l "-838:59:59.000120") = Ok (VTime true 34 22 59 59 120) /\
  value_display true (fun _ => []) (fun _ => []) (VDatetime 987 6 5 4 3 2 0)
    = Some ([34] ++ s2l "0987-06-05 04:03:02" ++ [34]).
Proof. splits; vm_compute; reflexivity. Qed.

(** C20: printed integers are decimal and decode to the same value ... *)
Theorem C20_integers : forall debug ff32 ff64 f32 f64 flags v n k u, value_ok v ->
  int_value v = Some (n, k, u) -> has_flag flags UNSIGNED_FLAG = u ->
  exists t, value_display debug ff32 ff64 v = Some t /\ signed_text n t /\
    text_value debug f32 f64 (value_column_type v) flags t = Ok v.
Proof. exact display_int. Qed.
Print Assumptions C20_integers.

(** ... and decimal text of a number outside the range of the column is rejected. *)
Theorem C20_out_of_range : forall debug f32 f64 t k flags n l,
  In (t, k) [(CTiny, 1%nat); (CShort, 2%nat); (CYear, 2%nat); (CLong, 4%nat); (CInt24, 4%nat); (CLongLong, 8%nat)] ->
  signed_text n l ->
  ~ (if has_flag flags UNSIGNED_FLAG then 0 <= n < 256 ^ Z.of_nat k
     else - (256 ^ Z.of_nat k / 2) <= n < 256 ^ Z.of_nat k / 2) ->
  text_value debug f32 f64 t flags l = Err (PIo IoInvalidData).
Proof. exact int_out_of_range. Qed.
Print Assumptions C20_out_of_range.

Example C20_case :
  value_display true (fun _ => []) (fun _ => []) (VLong (-9223372036854775808))
    = Some (s2l "-9223372036854775808") /\
  text_value true (fun _ => None) (fun _ => None) CLongLong 0 (s2l "-9223372036854775808")
    = Ok (VLong (-9223372036854775808)) /\
  text_value true (fun _ => None) (fun _ => None) CTiny 32 (s2l "256") = Err (PIo IoInvalidData) /\
  int_value (VULong 18446744073709551615) = Some (18446744073709551615, 8%nat, true).
Proof. splits; vm_compute; reflexivity. Qed.

(** C21: the printed text of a byte string is a hexadecimal literal for these bytes, except that
    the empty byte string prints as 0x, which is no literal. *)
Theorem C21_hex_literal_partial : forall debug f32 f64 b, bytes_ok b ->
  exists t, value_display debug f32 f64 (VBytes b) = Some t /\ (hex_literal b t <-> b <> []).
Proof. exact display_bytes. Qed.
Print Assumptions C21_hex_literal_partial.

Theorem C21_hex_literal_refuted : exists b t, bytes_ok b /\
  (forall debug f32 f64, value_display debug f32 f64 (VBytes b) = Some t) /\ forall bs, ~ hex_literal bs t.
Proof.
  exists [], (s2l "0x"). splits; [constructor | reflexivity |].
  intros bs H. inversion H; subst; [congruence|].
  match goal with P : hex_pairs _ [48] |- _ => inversion P end.
Qed.
Print Assumptions C21_hex_literal_refuted.

Example C21_case : value_display true (fun _ => []) (fun _ => []) (VBytes [0; 171; 255]) = Some (s2l "0x00abff").
Proof. vm_compute. reflexivity. Qed.

(** C22: [from_str] accepts exactly the hexadecimal texts (optional prefix, either case), gives
    the bytes they denote, and reads back what is printed. *)
Theorem C22_from_str : forall s,
  hex_from_str s <> Panic /\ forall bs, hex_from_str s = Ok bs <-> hex_text bs s.
Proof. intros s. split; [exact (from_str_np s) | exact (from_str_iff s)]. Qed.
Print Assumptions C22_from_str.

Theorem C22_round_trip : forall b, bytes_ok b -> hex_from_str (hex_display b) = Ok b.
Proof. exact hex_round_trip. Qed.
Print Assumptions C22_round_trip.

(** An error names the reason: an odd number of digits, or else the first character that is no
    digit and its position, counted after the prefix. *)
Theorem C22_errors : forall s t, hex_digits_of s t ->
  (hex_from_str s = Err HOddLength <-> lenZ t mod 2 <> 0) /\
  (forall c i, hex_from_str s = Err (HInvalidCharacter c i) <-> lenZ t mod 2 = 0 /\
    exists a r, t = a ++ c :: r /\ lenZ a = i /\ Forall (fun x => hex_val x <> None) a /\ hex_val c = None).
Proof. exact from_str_errors. Qed.
Print Assumptions C22_errors.

(** [try_from_hex] does the same for texts of at least two bytes and panics on shorter ones. *)
Theorem C22_try_from_hex_partial : forall s,
  (2 <= lenZ s -> hex_try_from_hex s = hex_from_str s) /\ (hex_try_from_hex s = Panic <-> lenZ s < 2).
Proof. intros s. split; [exact (try_from_hex_same s) | exact (try_from_hex_panic s)]. Qed.
Print Assumptions C22_try_from_hex_partial.

Theorem C22_try_from_hex_refuted : exists s, hex_text [] s /\ hex_try_from_hex s = Panic.
Proof. exists []. split; [exists []; split; [constructor | left; reflexivity] | reflexivity]. Qed.
Print Assumptions C22_try_from_hex_refuted.

Example C22_case :
  hex_from_str (s2l "0XaBcD") = Ok [171; 205] /\ hex_from_str (s2l "abc") = Err HOddLength /\
  hex_from_str (s2l "0x0g") = Err (HInvalidCharacter 103 1) /\ hex_from_str (s2l "00ff") = Ok [0; 255].
Proof. splits; vm_compute; reflexivity. Qed.
