{
 "claims": [
  {
   "property": "C01",
   "status": "proved",
   "theorems": [
    "C01_framing_round_trip"
   ],
   "note": "All payload lengths, all sequence numbers, all trailing input."
  },
  {
   "property": "C02",
   "status": "proved",
   "theorems": [
    "C02_frames_follow_rules",
    "C02_frames_unambiguous"
   ],
   "note": "Output of write_packet satisfies the inductive frame relation of Spec_Wire, which determines payload and end."
  },
  {
   "property": "C03",
   "status": "proved",
   "theorems": [
    "C03_accepted_iff_in_order",
    "C03_misnumbered_rejected",
    "C03_read_no_panic"
   ],
   "note": "Exact characterisation of acceptance, plus the error for a misnumbered frame and absence of panics."
  },
  {
   "property": "C04",
   "status": "proved",
   "theorems": [
    "C04_failing_write_prefix"
   ],
   "note": "Every fault position; transport faults are modelled as a byte budget."
  },
  {
   "property": "C05",
   "status": "proved",
   "theorems": [
    "C05_lenenc_round_trip",
    "C05_lenenc_read_all_forms",
    "C05_lenenc_written_form",
    "C05_lenenc_unchecked"
   ],
   "note": "Also covers every non-minimal form the documentation allows."
  },
  {
   "property": "C06",
   "status": "proved",
   "theorems": [
    "C06_lenenc_slice",
    "C06_u8_slice",
    "C06_null_slice",
    "C06_texts",
    "C06_rest"
   ],
   "note": ""
  },
  {
   "property": "C07",
   "status": "proved",
   "theorems": [
    "C07_binary_round_trip",
    "C07_only_negative_zero_time_changes"
   ],
   "note": "Every value in range; the only value that changes is a zero TIME with the negative flag, which has no wire form of its own."
  },
  {
   "property": "C08",
   "status": "partial",
   "theorems": [
    "C08_bin_len_partial",
    "C08_bin_len_refuted"
   ],
   "note": "Holds for every value except the zero DATE (announced 1 byte, written 5); the exact guard is proved and the witness given."
  },
  {
   "property": "C09",
   "status": "proved",
   "theorems": [
    "C09_bitmap_exact",
    "C09_bitmap_layout"
   ],
   "note": ""
  },
  {
   "property": "C10",
   "status": "proved",
   "theorems": [
    "C10_parameters_inline"
   ],
   "note": "The server side is a separate decoder written from the protocol documentation."
  },
  {
   "property": "C11",
   "status": "proved",
   "theorems": [
    "C11_parameters_long",
    "C11_long_data_when_needed"
   ],
   "note": "Chunk boundaries and interleaving covered; every chunk is decoded and appended by the server specification."
  },
  {
   "property": "C12",
   "status": "partial",
   "theorems": [
    "C12_text_rows_partial",
    "C12_text_rows_refuted"
   ],
   "note": "Holds for every column type the text decoder knows; LONG_BLOB columns panic (refuted)."
  },
  {
   "property": "C13",
   "status": "proved",
   "theorems": [
    "C13_binary_rows"
   ],
   "note": ""
  },
  {
   "property": "C14",
   "status": "proved",
   "theorems": [
    "C14_text_row_length",
    "C14_binary_row_length"
   ],
   "note": ""
  },
  {
   "property": "C15",
   "status": "partial",
   "theorems": [
    "C15_binary_no_panic_partial",
    "C15_text_no_panic_partial",
    "C15_no_panic_refuted"
   ],
   "note": "Binary: all types with a decoder. Text: additionally needs a release build for time columns. Panics on unsupported types and on long fractions in debug builds are given as refutations."
  },
  {
   "property": "C16",
   "status": "partial",
   "theorems": [
    "C16_no_backslash_exactly",
    "C16_no_backslash_left",
    "C16_one_literal",
    "C16_content_partial",
    "C16_content_refuted",
    "C16_no_backslash_mode_refuted"
   ],
   "note": "One literal, never left, rest untouched: proved for all strings. Content equals the input exactly if it has no Control+Z, which is written as backslash z and read as z (refuted). Under NO_BACKSLASH_ESCAPES the literal can be left (refuted): C16_no_backslash_exactly and C16_no_backslash_left say for which strings, and what is then outside of it."
  },
  {
   "property": "C17",
   "status": "partial",
   "theorems": [
    "C17_one_identifier",
    "C17_name_partial",
    "C17_name_refuted"
   ],
   "note": "Never left: proved for all strings. The name is exact except for inputs whose allowed characters are all whitespace and which begin with one."
  },
  {
   "property": "C18",
   "status": "proved",
   "theorems": [
    "C18_unquoted"
   ],
   "note": ""
  },
  {
   "property": "C19",
   "status": "proved",
   "theorems": [
    "C19_date",
    "C19_time",
    "C19_datetime",
    "C19_overflow",
    "C19_null"
   ],
   "note": "Both build modes."
  },
  {
   "property": "C20",
   "status": "proved",
   "theorems": [
    "C20_integers",
    "C20_out_of_range"
   ],
   "note": ""
  },
  {
   "property": "C21",
   "status": "partial",
   "theorems": [
    "C21_hex_literal_partial",
    "C21_hex_literal_refuted"
   ],
   "note": "Exact guard: the empty byte string prints 0x, which is not a literal."
  },
  {
   "property": "C22",
   "status": "partial",
   "theorems": [
    "C22_from_str",
    "C22_round_trip",
    "C22_errors",
    "C22_try_from_hex_partial",
    "C22_try_from_hex_refuted"
   ],
   "note": "from_str exact for all texts; try_from_hex panics exactly on inputs shorter than two bytes."
  },
  {
   "property": "C23",
   "status": "proved",
   "theorems": [
    "C23_primitives",
    "C23_strings_and_bytes"
   ],
   "note": ""
  },
  {
   "property": "C24",
   "status": "proved",
   "theorems": [
    "C24_option",
    "C24_null_refused",
    "C24_option_inverse"
   ],
   "note": "Generic in the target type; separately, every conversion of the crate is shown to refuse NULL."
  },
  {
   "property": "C25",
   "status": "proved",
   "theorems": [
    "C25_string_utf8"
   ],
   "note": "UTF-8 is specified by an inductive relation on code points and bytes."
  },
  {
   "property": "C26",
   "status": "partial",
   "theorems": [
    "C26_date",
    "C26_date_values",
    "C26_datetime",
    "C26_datetime_values_partial",
    "C26_datetime_values_refuted",
    "C26_date_of_datetime",
    "C26_other_types"
   ],
   "note": "Dates exact; datetimes round trip to the microsecond. Acceptance is exact up to chrono's leap seconds: second 59 with 1000000..1999999 microseconds is accepted (refuted). Reading a date from a datetime value ignores the time part."
  },
  {
   "property": "C27",
   "status": "partial",
   "theorems": [
    "C27_time_to_duration",
    "C27_round_trip_partial",
    "C27_round_trip_refuted",
    "C27_days_refuted",
    "C27_other_types"
   ],
   "note": "Exact guard proved: the sign is lost strictly between minus one second and minus one microsecond (refuted with -0.5 s); the day count is cut to 32 bits (refuted)."
  },
  {
   "property": "C28",
   "status": "partial",
   "theorems": [
    "C28_bool_partial",
    "C28_bool_refuted",
    "C28_bool_round_trip",
    "C28_other_types"
   ],
   "note": "True exactly for positive integers; negative integers give false (refuted)."
  },
  {
   "property": "C29",
   "status": "partial",
   "theorems": [
    "C29_text_refuted",
    "C29_ok_partial",
    "C29_ok_refuted",
    "C29_no_panic",
    "C29_accepted",
    "C29_refused"
   ],
   "note": "Proved when the information text is absent or length-encoded (what servers send). The documentation lets the text run to the end of the packet without SESSION_TRACK, which this crate never requests; then the numbers are read right but no text ever is (refuted for every text). C29_accepted and C29_refused characterise exactly which packets are accepted and which error the others give."
  },
  {
   "property": "C30",
   "status": "partial",
   "theorems": [
    "C30_one_more_partial",
    "C30_from_text_refuted",
    "C30_short_text_refuted",
    "C30_long_end_refuted",
    "C30_terminator_partial",
    "C30_terminator_refuted",
    "C30_old_eof_refuted",
    "C30_old_eof_reader_refuted",
    "C30_no_panic"
   ],
   "note": "The header byte 0xFE is not skipped: the exact values reported are proved, they are right only if status and warnings are zero; refuted with status 0x0002, which is reported as 0x0200. With one byte behind the warnings the same; with two or more (a text, a session state) header and counts are taken for one integer of eight bytes, so status and warnings have no influence at all and what is reported comes from the text; with two to six bytes it is always an error. The old 5-byte EOF is always an error. The reader for that form, read_old_eof, is never called and is off by one byte as well."
  },
  {
   "property": "C31",
   "status": "proved",
   "theorems": [
    "C31_err",
    "C31_err_exact",
    "C31_no_panic"
   ],
   "note": "Exact in both directions for error packets; progress reports included."
  },
  {
   "property": "C32",
   "status": "partial",
   "theorems": [
    "C32_exactly_partial",
    "C32_column_partial",
    "C32_column_exact",
    "C32_column_refuted",
    "C32_no_panic"
   ],
   "note": "Proved for names of at most 250 bytes, and exact: with a schema name of at most 250 bytes a documented definition is read as its column exactly if every name in it has at most 250 bytes. A longer name (an alias may have 1024) is refused or read as another column (refuted)."
  },
  {
   "property": "C33",
   "status": "proved",
   "theorems": [
    "C33_stmt"
   ],
   "note": ""
  },
  {
   "property": "C34",
   "status": "partial",
   "theorems": [
    "C34_exactly_partial",
    "C34_greeting_decoded_partial",
    "C34_halves",
    "C34_greeting_decoded_refuted",
    "C34_accepted"
   ],
   "note": "Partial: announced plugin data length at most 127 (servers send 21 or 0). Exact for every documented greeting (C34_exactly_partial): the length byte is read as i8, so with a second part of the challenge 128..135 panics with overflow checks, and from 136 on all but 13 bytes of the second part are taken for the start of the plugin's name (refuted). C34_accepted says exactly which packets are accepted and what is read from them; any protocol version is."
  },
  {
   "property": "C35",
   "status": "partial",
   "theorems": [
    "C35_connecting_never_panics_partial",
    "C35_connecting_never_panics_refuted",
    "C35_outcome"
   ],
   "note": "Refuted: handle_handshake unwraps, so any error packet sent instead of a greeting panics, and a non-ASCII version string panics at a char boundary. C35_outcome says exactly when the first packet makes connecting panic; it never gives an error. Partial: reading by itself never panics in release mode; decodable greetings with an ASCII version connect."
  },
  {
   "property": "C36",
   "status": "partial",
   "theorems": [
    "C36_response_decoded_partial",
    "C36_connect_packet_partial",
    "C36_response_decoded_refuted",
    "C36_exactly"
   ],
   "note": "Partial: user and database without NUL, authentication data at most 255 bytes with one-byte length. C36_exactly: user, data and database are read as meant exactly under these conditions. Connection attributes (never sent by the crate) are outside. Refuted for a NUL in the user name and for a 300-byte clear password, which is cut."
  },
  {
   "property": "C37",
   "status": "partial",
   "theorems": [
    "C37_capabilities_subset_partial",
    "C37_capabilities_subset_refuted",
    "C37_exactly"
   ],
   "note": "Partial: server offers PLUGIN_AUTH, and CONNECT_WITH_DB if a database is configured. C37_exactly: exactly then. Refuted otherwise: both bits are inserted unconditionally."
  },
  {
   "property": "C38",
   "status": "proved",
   "theorems": [
    "C38_native_scramble_accepted"
   ],
   "note": "Hash is a universally quantified function with 20-byte byte outputs; the server check is the documented mysql_native_password verification."
  },
  {
   "property": "C39",
   "status": "proved",
   "theorems": [
    "C39_sha2_scramble_accepted"
   ],
   "note": "Hash is a universally quantified function with 32-byte byte outputs; the server check is the documented caching_sha2_password verification."
  },
  {
   "property": "C40",
   "status": "partial",
   "theorems": [
    "C40_encrypted_password_decrypts_partial",
    "C40_encrypted_password_decrypts_refuted",
    "C40_odd_modulus_refuted"
   ],
   "note": "Partial: proved for keys whose modulus bit length is not 1 modulo 8 and whose size is within the length of the MGF1 output used. Refuted for every key whose modulus bit length is 1 modulo 8, with every password, nonce and seed: num_octets is one too small, so the password is refused as too long, encryption panics, or what is sent is one byte short and has to be refused by the server."
  },
  {
   "property": "C41",
   "status": "partial",
   "theorems": [
    "C41_public_key_parsed_partial",
    "C41_accepted_files",
    "C41_panics",
    "C41_errors",
    "C41_malformed_rejected_refuted"
   ],
   "note": "Partial: well-formed PKCS#1 and PKCS#8 PEM files parse to their key, and C41_accepted_files characterises exactly which files are accepted; malformed files can panic instead of giving an error (refuted). C41_panics says exactly which: files cut short inside an element, or label lines sharing hyphens. C41_errors: all others give InvalidPem."
  },
  {
   "property": "C42",
   "status": "proved",
   "theorems": [
    "C42_password_not_disclosed",
    "C42_packets_written",
    "C42_record_is_faithful"
   ],
   "note": "Non-interference for every transport and server behaviour, plus a classification of every packet written after the handshake response. Full authentication encrypts with whatever key the server sends, as the protocol does."
  },
  {
   "property": "C43",
   "status": "proved",
   "theorems": [
    "C43_forced_plugin_data",
    "C43_switch_to_another_plugin"
   ],
   "note": "The run depends on the password through the forced plugin's data only, for every server; a switch request to another plugin ends the run with the mismatch error and no further packet."
  },
  {
   "property": "C44",
   "status": "proved",
   "theorems": [
    "C44_authentication_bounded",
    "C44_recursion_depth"
   ],
   "note": "At most five packets read, four written, one switch answered; recursion depth two."
  },
  {
   "property": "C45",
   "status": "partial",
   "theorems": [
    "C45_failure_reported_partial",
    "C45_error_packet_fails_partial",
    "C45_failure_reported_refuted",
    "C45_after_marker_refuted"
   ],
   "note": "Proved: success implies a final OK packet, or a packet following the fast-authentication marker (01 03). Refuted in general: with caching_sha2_password every packet after 01 03, every error included, is read and ignored, and connecting goes on as if authenticated (it then fails later or not, depending on the server). Modelled up to the end of authentication; reading the settings afterwards is part of the connection model."
  },
  {
   "property": "C46",
   "status": "partial",
   "theorems": [
    "C46_own_responses_partial",
    "C46_own_responses_refuted",
    "C46_end_text_refuted",
    "C46_end_text_unread_refuted",
    "C46_more_results_refuted",
    "C46_old_prepare_refuted"
   ],
   "note": "Partial: every history of queries, statements, prepares and row reads on a connection with DEPRECATE_EOF, where each answer is a single result (rows, OK, ERR, or prepared statement). Refuted for a prepared statement with several results: PS_MULTI_RESULTS is announced but MORE_RESULTS_EXISTS is never looked at, and the next command fails with OutOfSync (for all histories and all further results: C46_more_results_refuted). Also refuted when the packet ending a set has a text of two to six bytes: read row by row, the set ends with an error and counts as open for ever, so that no further command is sent; left unread, the next command is refused. On connections without DEPRECATE_EOF, preparing leaves one packet on the wire for each list of definitions that is not empty, and the next query is out of sync."
  },
  {
   "property": "C47",
   "status": "partial",
   "theorems": [
    "C47_rows_in_order_partial",
    "C47_binary_values",
    "C47_text_values",
    "C47_rows_in_order_refuted",
    "C47_old_server_refuted"
   ],
   "note": "Partial: with DEPRECATE_EOF, for every row decoder, collect/one/finish; instances for the binary and text protocols. Refuted without DEPRECATE_EOF (the EOF packet after the column definitions is not expected). The refutation for servers without DEPRECATE_EOF is proved for every result set: no row is ever delivered, and the next command is refused."
  },
  {
   "property": "C48",
   "status": "partial",
   "theorems": [
    "C48_execute_then_next_partial",
    "C48_execute_rows_refuted"
   ],
   "note": "Partial: statements answered by OK or ERR. For every statement answered by rows, execute_query reports an unexpected packet and leaves the result set in the stream without marking it, so that the next command fails with OutOfSync (proved for all such answers)."
  },
  {
   "property": "C49",
   "status": "partial",
   "theorems": [
    "C49_errors_reported_partial",
    "C49_error_as_row_refuted",
    "C49_never_reported_refuted",
    "C49_empty_row_refuted",
    "C49_null_row_refuted",
    "C49_only_first_refuted"
   ],
   "note": "Partial: an error packet as the first packet of the answer is reported. Refuted inside a result set, for every error, every column list and both kinds of rows: the row decoder is called instead, the error is never reported, reading on fails and no command is ever sent again on that connection. A query with one column of a type whose text is not parsed yields a row with an empty value for every error; a prepared statement with one column of any type yields a row with NULL for every error whose code has the bit of value 4 set (for example 1317, a killed query)."
  },
  {
   "property": "C50",
   "status": "proved",
   "theorems": [
    "C50_parameter_count",
    "C50_right_count"
   ],
   "note": "Any statement, any values; the connection is unchanged. With the right count the mismatch is never reported."
  },
  {
   "property": "C51",
   "status": "partial",
   "theorems": [
    "C51_statements_released_refuted",
    "C51_close_packet_partial"
   ],
   "note": "Refuted: no packet the client ever sends is COM_STMT_CLOSE; StmtClose is never constructed and dropping a statement does nothing."
  },
  {
   "property": "C52",
   "status": "proved",
   "theorems": [
    "C52_buffers_empty",
    "C52_crate_pool",
    "C52_taken",
    "C52_written",
    "C52_given"
   ],
   "note": "All histories of takes, arbitrary changes to held buffers, and returns, for any capacity and size cap; a buffer of the pool is reused before a new one with the initial capacity is made. Vec::shrink_to as implemented by the standard library."
  },
  {
   "property": "C53",
   "status": "proved",
   "theorems": [
    "C53_at_most_N",
    "C53_created"
   ],
   "note": "All interleavings of atomic steps of any number of requests, with stale relaxed loads, failures, drops and needless polls."
  },
  {
   "property": "C54",
   "status": "proved",
   "theorems": [
    "C54_one_owner",
    "C54_returned"
   ],
   "note": "As C53."
  },
  {
   "property": "C55",
   "status": "partial",
   "theorems": [
    "C55_polled_is_served_partial",
    "C55_waiters_woken_refuted"
   ],
   "note": "Refuted: wakers are stored but nothing ever takes them out; a task that found the pool exhausted twice is never woken. What holds: a request that is polled while a connection is idle gets it."
  },
  {
   "property": "C56",
   "status": "partial",
   "theorems": [
    "C56_accounting_partial",
    "C56_failures_refuted"
   ],
   "note": "Refuted: items is incremented before connecting and never decremented, so after N failed or cancelled attempts the pool is dead. Exact accounting proved (partial)."
  },
  {
   "property": "C57",
   "status": "proved",
   "theorems": [
    "C57_timeout",
    "C57_one_poll"
   ],
   "note": "Any operation and delay given as poll functions; all poll histories."
  },
  {
   "property": "C58",
   "status": "proved",
   "theorems": [
    "C58_compare",
    "C58_order",
    "C58_ordered"
   ],
   "note": "All versions and lists."
  },
  {
   "property": "C59",
   "status": "partial",
   "theorems": [
    "C59_up_partial",
    "C59_progress",
    "C59_names_exactly",
    "C59_name_refuted"
   ],
   "note": "Guard: names of at most 255 characters without double quote and with backslashes before % or _ only (with backslash escapes exactly the names recorded as they are: C59_names_exactly), and no two names of a version equal for the server's collation. Refuted without it: names are put into the statement unescaped, so a name with a backslash is recorded under another name and the migrator cannot be opened again. The table is computed by reading the statements sent as MySQL reads them."
  },
  {
   "property": "C60",
   "status": "partial",
   "theorems": [
    "C60_down_partial",
    "C60_one_partial",
    "C60_name_refuted"
   ],
   "note": "Same guard as C59. Refuted for a name with a backslash that is recorded as it is: the DELETE names another record and removes nothing."
  },
  {
   "property": "C61",
   "status": "partial",
   "theorems": [
    "C61_to_version_partial",
    "C61_name_refuted"
   ],
   "note": "Same guard as C59. Refuted for a name with a backslash: another name is recorded than the one listed."
  },
  {
   "property": "C62",
   "status": "partial",
   "theorems": [
    "C62_stopped_partial",
    "C62_stopped_down_partial",
    "C62_name_refuted"
   ],
   "note": "Same guard as C59. Every prefix of the history, so also dropped futures and panics inside migrations; a failed statement may or may not have taken effect. Also proved for downward runs. Refuted for a name with a backslash: a migration whose bookkeeping succeeded is not recorded under its name."
  },
  {
   "property": "C63",
   "status": "proved",
   "theorems": [
    "C63_insert_text",
    "C63_update_text",
    "C63_update"
   ],
   "note": "Texts are read by a small parser of the SQL subset (Spec_Model.parse_insert/parse_update). Names are not escaped by the code, so names must not contain a backquote; Rust field names never do."
  },
  {
   "property": "C64",
   "status": "proved",
   "theorems": [
    "C64_select",
    "C64_once",
    "C64_needs_a_column"
   ],
   "note": "Text read back by Spec_Model.parse_select. A model with no column at all gives text that is no SELECT (C64_needs_a_column)."
  },
  {
   "property": "C65",
   "status": "partial",
   "theorems": [
    "C65_mapping_partial",
    "C65_same_name_refuted",
    "C65_nested_name_refuted",
    "C65_plain_rows",
    "C65_exactly"
   ],
   "note": "Holds if no reference field has the same name as its model's table and no table name contains a dot. Otherwise fields are lost (C65_same_name_refuted) or get another field's column (C65_nested_name_refuted). For all models, without those guards, C65_exactly says when it holds: exactly if each selected column goes to its own field, by the rule in Spec_Route.v."
  },
  {
   "property": "C66",
   "status": "proved",
   "theorems": [
    "C66_insert"
   ],
   "note": "The database is any function of the history; failures included."
  },
  {
   "property": "C67",
   "status": "partial",
   "theorems": [
    "C67_server_version_partial",
    "C67_server_version_refuted"
   ],
   "note": "Partial: numbers proved for all versions; MariaDB recognised iff the word directly follows the first separator. Refuted for the 5.5.5-10.x.y-MariaDB form."
  },
  {
   "property": "C68",
   "status": "partial",
   "theorems": [
    "C68_retry_refuted",
    "C68_reopen_partial"
   ],
   "note": "Refuted for the same Migrator: the migration is added to the in-memory set before its record is written, so a retry reports success without recording it. Proved when the migrator is opened anew."
  },
  {
   "property": "C69",
   "status": "proved",
   "theorems": [
    "C69_open",
    "C69_failures",
    "C69_unordered",
    "C69_columns"
   ],
   "note": "Release builds accept unordered lists; versions are assumed increasing for the converse."
  },
  {
   "property": "C70",
   "status": "proved",
   "theorems": [
    "C70_whole_model"
   ],
   "note": "Values are given by the result of their conversion to Value."
  },
  {
   "property": "C71",
   "status": "proved",
   "theorems": [
    "C71_truncated_answers"
   ],
   "note": "All cut positions, including inside a packet header. Writing does not fail in this theorem; the missing bytes never arrive (late arrival is C72)."
  },
  {
   "property": "C72",
   "status": "partial",
   "theorems": [
    "C72_late_answers_partial",
    "C72_late_answers_refuted",
    "C72_shifted_refuted"
   ],
   "note": "Proved when the time-out falls between packets, after at least one packet of a result set has been read. Missing: a time-out before the first packet or inside a packet. Refuted there: pending_result is only set once the column definitions have been read and nothing marks the connection unusable, so the OK packet of a timed-out statement is taken for the answer to the next one (wrong affected rows). In general (C72_shifted_refuted): whatever was asked, an answer that comes too late as a whole is what the next use reports, and every later use reports the answer to the one before it."
  },
  {
   "property": "C73",
   "status": "partial",
   "theorems": [
    "C73_connect_partial",
    "C73_connect_refuted",
    "C73_old_server_refuted"
   ],
   "note": "Proved for conversations given as bytes in both directions, on a transport that delivers them (C71 covers those that do not). Guards, each shown necessary: not mysql_clear_password from the start (C74 refuted), length byte of the greeting at most 127 (C34), the server has DEPRECATE_EOF (C73_connect_refuted: a server without it is greeted and logged in to, then connecting fails), user and database without NUL (C36). That connecting fails is proved for every server without DEPRECATE_EOF, if the options give no packet limit."
  },
  {
   "property": "C74",
   "status": "partial",
   "theorems": [
    "C74_documented_exchanges_succeed_partial",
    "C74_documented_exchanges_succeed_refuted",
    "C74_clear_from_start_refuted"
   ],
   "note": "Proved for every exchange that does not start with mysql_clear_password. Refuted for that one, with every password: in the handshake response the password lacks the final NUL that is the plugin's data (switching to the plugin does send it)."
  },
  {
   "property": "C75",
   "status": "partial",
   "theorems": [
    "C75_default_options_partial",
    "C75_password_kept",
    "C75_default_options_refuted",
    "C75_native_users_refuted"
   ],
   "note": "Proved for caching_sha2_password users, whatever plugin the greeting names. Refuted for mysql_native_password, for every server that asks for it: the default options force caching_sha2_password and a switch request then is an AuthPluginMismatch error."
  },
  {
   "property": "C76",
   "status": "partial",
   "theorems": [
    "C76_commands_do_not_panic_partial",
    "C76_settings_do_not_panic_partial",
    "C76_commands_do_not_panic_refuted"
   ],
   "note": "partial: a panic can only come right after one of four kinds of packet (an empty packet, a LOCAL INFILE request, a column count Vec::with_capacity cannot hold, a row the decoder itself panics on, see C15); the refuted theorem gives a witness for each of the first three"
  },
  {
   "property": "C77",
   "status": "partial",
   "theorems": [
    "C77_broken_off_refuted",
    "C77_old_server_refuted",
    "C77_disconnect_partial",
    "C77_disconnect_refuted"
   ],
   "note": "Under the conditions of C46 (single results, DEPRECATE_EOF); proved for every history and unread remainder. Refuted in general: for every result set that breaks off with an error, disconnecting fails and COM_QUIT is never sent, however often it is tried (C77_broken_off_refuted); for every query on a connection without DEPRECATE_EOF the first attempt to disconnect fails and sends nothing, the second succeeds (C77_old_server_refuted)."
  },
  {
   "property": "C78",
   "status": "partial",
   "theorems": [
    "C78_packet_limit_partial",
    "C78_packet_limit_refuted"
   ],
   "note": "partial: every packet has at most 2^24 bytes (statement texts excepted, sent whole; zero dates excepted, C08); refuted for smaller limits: max_allowed_packet is stored but never consulted, and pieces of long data are one byte longer than a frame"
  },
  {
   "property": "C79",
   "status": "partial",
   "theorems": [
    "C79_interrupted_commands_partial",
    "C79_interrupted_commands_refuted"
   ],
   "note": "partial: proved for commands interrupted before their first byte; refuted for any later point by a witness in which the server takes the next command's bytes for the rest of the interrupted one"
  },
  {
   "property": "C80",
   "status": "partial",
   "theorems": [
    "C80_any_order_partial",
    "C80_missing_partial",
    "C80_other_table_refuted",
    "C80_exactly",
    "C80_missing_exactly",
    "C80_readable",
    "C80_one_field"
   ],
   "note": "Proved for columns that are each either one the generated query would select or unrelated to the model: any order, any repetitions (the last one counts), any further columns; the first missing column is named. Refuted for further columns that share the name of one of the model's own columns: tables are only looked at to find references, so another table's column overrides the model's. For all models and all columns, without those guards, C80_exactly, C80_missing_exactly and C80_readable say which column each field takes and when reading fails, by the rule in Spec_Route.v."
  },
  {
   "property": "C81",
   "status": "proved",
   "theorems": [
    "C81_state_text",
    "C81_arrays",
    "C81_taken_once",
    "C81_buffer_taken_once"
   ],
   "note": "State text, array reads and pooled items (connections and buffers). The remaining unsafe block, set_len(0) of a byte vector, has no condition beyond 0 <= capacity."
  },
  {
   "property": "C82",
   "status": "partial",
   "theorems": [
    "C82_data_partial",
    "C82_options_shown",
    "C82_connection_shown",
    "C82_password_refuted"
   ],
   "note": "Only the connection data is printed without the password. Refuted for the options and the connection: user and password can be read back from the printed text, for all user names and passwords (C82_options_shown, C82_connection_shown). Printing covers {:?}, not {:#?}."
  },
  {
   "property": "C83",
   "status": "proved",
   "theorems": [
    "C83_error_text",
    "C83_error_literal"
   ],
   "note": "Two errors that were read from packets and print the same are the same; code, state and message stand in the text as a decimal number and string literals. {:?}, not {:#?}."
  },
  {
   "property": "C84",
   "status": "partial",
   "theorems": [
    "C84_columns_partial",
    "C84_supported",
    "C84_structs",
    "C84_references",
    "C84_lookalike_refuted",
    "C84_exactly"
   ],
   "note": "C84_columns_partial: for types none of whose paths merely ends like a supported one. Refuted in general: path_matches compares the common tail only, so money::u64 counts as u64. C84_exactly says for every path what it is taken for. Names are compared as written; what a name refers to is outside the model."
  },
  {
   "property": "C85",
   "status": "partial",
   "theorems": [
    "C85_shared_connections_partial",
    "C85_shared_connections_refuted"
   ],
   "note": "Proved for every interleaving when the answers are there when they are read. Refuted in general: a connection is put back without any check, so an answer that arrives after its user has timed out is given to the next user of that connection."
  },
  {
   "property": "C86",
   "status": "partial",
   "theorems": [
    "C86_up_statements_partial",
    "C86_down_statements_partial",
    "C86_recorded_refuted",
    "C86_same_connection"
   ],
   "note": "Proved from the table the migrator was opened on to the bytes written, when nobody else uses the pool. Missing: names that are not storable (refuted: C86_recorded_refuted, the statement sent records another name), answers that are neither OK nor an error, and other users of the pool."
  },
  {
   "property": "C87",
   "status": "partial",
   "theorems": [
    "C87_second_ignored_refuted",
    "C87_last_wins_refuted",
    "C87_index_refuted",
    "C87_no_identifier_refuted",
    "C87_attribute_read_partial",
    "C87_no_attribute",
    "C87_table_partial",
    "C87_model_primary_partial",
    "C87_active_primary_partial",
    "C87_reported_partial",
    "C87_attributes_refuted"
   ],
   "note": "Proved for one attribute that names nothing twice, has no tuple index in a type, and whose primary key is an identifier; what is reported is exactly what is wrong or missing. Refuted beyond, for all attributes: whatever stands behind the first own attribute has no effect (C87_second_ignored_refuted), the last of several tables in a well-formed attribute is taken (C87_last_wins_refuted), a tuple index in any type of the first own attribute makes all three macros panic (C87_index_refuted), and so does a primary key that is no identifier (C87_no_identifier_refuted, for the active model). The code generated from these values is C63 to C66."
  },
  {
   "property": "C88",
   "status": "proved",
   "theorems": [
    "C88_version_text",
    "C88_version_text_injective"
   ],
   "note": ""
  },
  {
   "property": "C89",
   "status": "partial",
   "theorems": [
    "C89_packet_partial",
    "C89_answer_partial",
    "C89_in_time",
    "C89_silent",
    "C89_untimed",
    "C89_operation_refuted"
   ],
   "note": "False of operations: the delay is restarted for each header and each body (io.rs:53, 63), so for every time-out T and every k there is a server whose k packets are all read without error after 2kT (C89_operation_refuted). Proved: a packet takes at most 2T, plus 2T per full frame it continues after; an answer of k packets 2kT plus 2T per 16777219 bytes; a packet that arrives within T is read when its last byte is there; a silent server is reported exactly at T; and every timed read equals the untimed read of Framing.v over the bytes that had arrived, which justifies the transport used by all other theorems. Time is an integer, polls are prompt and computing takes no time."
  },
  {
   "property": "C90",
   "status": "partial",
   "theorems": [
    "C90_session_partial",
    "C90_buffered_refuted"
   ],
   "note": "Proved for transports that pass on what is written, with the input a function of the output (least fixed point: what is readable grows only by what the server sends because of what was written), and the end is unique. Refuted for transports that keep bytes until they are flushed: no code of the crate flushes, so with blocks of any size above one there is a query whose request never leaves (C90_buffered_refuted). While connecting, the order of reads and writes is part of C74, which is proved for every transport."
  },
  {
   "property": "C91",
   "status": "partial",
   "theorems": [
    "C91_date",
    "C91_integer",
    "C91_time_partial",
    "C91_datetime_partial",
    "C91_time_refuted",
    "C91_datetime_refuted"
   ],
   "note": "Exact for dates and integers. For times and datetimes the accepted texts are characterised exactly, and they are more than the documented ones: one stray character after the seconds, any character between date and time, hours of 24 and more in a datetime (reduced modulo 24), one hour digit, and in release builds more than six fraction digits (read as 0). Refuted by 04:05:08x and 2038-01-19X03:14:07."
  },
  {
   "property": "C92",
   "status": "proved",
   "theorems": [
    "C92_configured_key",
    "C92_received_key",
    "C92_asked_once"
   ],
   "note": "Proved for every transport and server. C92_configured_key and C92_received_key say what each packet after the handshake response is; C92_asked_once counts key requests, for an encryption that never yields the one-byte request itself."
  },
  {
   "property": "C93",
   "status": "partial",
   "theorems": [
    "C93_fields",
    "C93_rows_partial",
    "C93_query_partial",
    "C93_statement_partial",
    "C93_same_name_refuted",
    "C93_rows_exactly",
    "C93_query_exactly_partial",
    "C93_statement_exactly"
   ],
   "note": "C93_fields is exact for every field type. C93_rows_partial assumes that further columns have nothing to do with the model and that no reference is named like its table (refuted without: C80_other_table_refuted, C93_same_name_refuted); C93_rows_exactly says without these what is read from any columns, and with which error otherwise. The theorems over the wire assume DEPRECATE_EOF (C47_rows_in_order_refuted) and, for text rows, no LONG_BLOB columns (C12)."
  },
  {
   "property": "C94",
   "status": "partial",
   "theorems": [
    "C94_insert_partial",
    "C94_insert_row_partial",
    "C94_select_partial",
    "C94_round_trip_partial",
    "C94_refuted"
   ],
   "note": "Proved for exact values (microseconds, no duration between -1 s and 0: C94_refuted shows that -0.5 s comes back as +0.5 s), models that do not refer to their own table (C94_insert_row_partial for those that do), names without backquotes, and over the wire under the guards of C93. The server is specified in Spec_Engine.v; Spec_Engine_run.v has one that runs."
  },
  {
   "property": "C95",
   "status": "partial",
   "theorems": [
    "C95_insert_partial",
    "C95_update_partial",
    "C95_update_missing_partial",
    "C95_primary",
    "C95_history_partial",
    "C95_refuted",
    "C95_replace_partial"
   ],
   "note": "Proved for integer keys (keys have to be Copy, as the generated primary moves out of a borrow), exact values as in C94, models that do not refer to their own table, names without backquotes, keys set to existing models. C95_refuted: the auto-increment key of a referenced active model set to zero; the server assigns a number, the reference is zero. The server's UPDATE is specified in Spec_Engine.v. C95_replace_partial: a model updated with into_active_model of another has its values, keeps a key the server assigned and refers to newly inserted models."
  },
  {
   "property": "C96",
   "status": "partial",
   "theorems": [
    "C96_insert",
    "C96_update",
    "C96_program_partial",
    "C96_program_refuted"
   ],
   "note": "C96_insert and C96_update are complete for every server that describes as many parameters as the statement has values (which is what the text says). C96_program_partial inherits the guards of C95 (integer keys, exact values, plain names, a model that does not refer to its own table). C96_program_refuted: a model with a reference whose key is zero is inserted without error, every byte of the exchange being as documented, and the generated query has no rows."
  },
  {
   "property": "C97",
   "status": "partial",
   "theorems": [
    "C97_same_code",
    "C97_handed_over",
    "C97_answered_partial",
    "C97_buffered_refuted",
    "C97_stuck"
   ],
   "note": "The crate never flushes. Proved: the frames are handed over completely and in order; nothing stays in a buffer exactly if the last piece fills it; then, in particular on streams without a buffer such as TcpStream, the answer is read. Refuted for buffering streams such as tokio's BufStream: a server that waits for the whole packet never answers."
  },
  {
   "property": "C98",
   "status": "partial",
   "theorems": [
    "C98_round_trip_partial",
    "C98_accepted",
    "C98_json",
    "C98_round_trip_refuted"
   ],
   "note": "Proved for formats that write a newtype as its content and lend the text to the reader, for JSON in memory in particular; C98_accepted says exactly what is accepted. Refuted: Hex is deserialized as &str, so a text that cannot be borrowed - JSON from a reader or a serde_json::Value, or with an escape in it - is refused, for all bytes."
  },
  {
   "property": "C99",
   "status": "partial",
   "theorems": [
    "C99_recorded_partial",
    "C99_one_succeeds_partial",
    "C99_in_turn_partial",
    "C99_once_refuted"
   ],
   "note": "Partial: refuted for runs at the same time (C99_once_refuted): nothing locks the table between opening the migrator and recording a migration, so two migrators opened on the same table both execute it, and the second only fails when the server refuses its record. Proved (names as in C59): in every interleaving of any number of upward runs, opened on any tables and stopped anywhere, no record appears twice, old records stay, and only migrations some run executed are added (C99_recorded_partial); two runs that both had some migration to do never both succeed (C99_one_succeeds_partial); runs one after another execute every migration at most once (C99_in_turn_partial)."
  },
  {
   "property": "C100",
   "status": "partial",
   "theorems": [
    "C100_plain_partial",
    "C100_query_partial",
    "C100_read_partial",
    "C100_raw_asked",
    "C100_raw_refuted",
    "C100_unreadable",
    "C100_unreadable_refuted",
    "C100_unreadable_anywhere",
    "C100_readable_exactly"
   ],
   "note": "Proved for structs without raw identifiers (C100_plain_partial, C100_query_partial), and reading back for structs whose struct-typed fields and parts are not raw (C100_read_partial). False with raw identifiers: a raw field r#type is selected, mapped and inserted as a column named `r#type` (C100_raw_asked, C100_raw_refuted); with a raw struct-typed field or part the query and the mapping disagree, so that every row of the struct's own query is refused (C100_unreadable, with references C100_unreadable_anywhere, and a witness C100_unreadable_refuted); C100_readable_exactly: its rows are read exactly if there is no such field or part in the struct or in what it refers to."
  },
  {
   "property": "C101",
   "status": "partial",
   "theorems": [
    "C101_default_build",
    "C101_without_plugin_partial",
    "C101_native_users_partial",
    "C101_switch_refused",
    "C101_new_servers",
    "C101_without_plugin_refuted",
    "C101_sleep",
    "C101_sleep_refuted"
   ],
   "note": "Proved: with the plugin and a function to sleep with the build is the default one; without the plugin every run in which no packet names it is the same, packet by packet; users of mysql_native_password get in when the greeting names that plugin or none; a switch request for the missing plugin ends in an error with nothing sent. Refuted: a greeting that names caching_sha2_password (every MySQL server since 8.0) makes the build without it panic, whatever the user's plugin; without time the default options make every attempt to connect panic."
  },
  {
   "property": "C102",
   "status": "proved",
   "theorems": [
    "C102_told"
   ],
   "note": "Soundness for arbitrary input: each outcome is tied to the packets at its place. The only assumptions are that numbers and input are bytes. What a decoder makes of a row is a parameter."
  },
  {
   "property": "C103",
   "status": "proved",
   "theorems": [
    "C103_exactly",
    "C103_otherwise_never"
   ],
   "note": "Exact for transports that deliver bytes and hash functions of the right length. Encryption is a parameter. After the fast-authentication marker any packet is taken for success (C45 refutes the stricter reading)."
  },
  {
   "property": "C104",
   "status": "proved",
   "theorems": [
    "C104_refused",
    "C104_unusable_key"
   ],
   "note": "C104_refused: under the hypotheses of C103_exactly, for every place of the exchange where the server may refuse (inductive [refused]), an error packet by its layout gives EServer with its code, state and message, and packets of no exchange give PUnexpectedPacket with the bytes; nothing more is read or sent. The packet after the fast-authentication marker is excluded (C45)."
  },
  {
   "property": "C105",
   "status": "proved",
   "theorems": [
    "C105_text_errors",
    "C105_binary_errors",
    "C105_text_rows",
    "C105_text_breaks",
    "C105_binary_rows",
    "C105_binary_breaks"
   ],
   "note": "Exact versions of C12-C15: `Spec_RowForms.v` lists the forms that are taken, which include some no server sends (a date length that is none of 0, 4, 7, 11; its surplus bytes are read by the next column). C15's panics are exactly those listed here. `Spec_RowErrors.v` gives the error of every other packet; a time text without a colon is reported like a packet that ends too early."
  },
  {
   "property": "C106",
   "status": "partial",
   "theorems": [
    "C106_next",
    "C106_over",
    "C106_documented_end_partial",
    "C106_documented_end_refuted"
   ],
   "note": "Partial: an end whose status and warnings cannot be found behind what is taken for two numbers (the header byte is read as the first of them) is an error and leaves the set open. `Spec_Report.end_report` says exactly which ends are readable; the documented end without a text is, some ends with a text are not, and no end without DEPRECATE_EOF is (refuted)."
  },
  {
   "property": "C107",
   "status": "partial",
   "theorems": [
    "C107_one_partial",
    "C107_answer_unique",
    "C107_finish_partial",
    "C107_over",
    "C107_other_rows_refuted",
    "C107_later_row_refuted"
   ],
   "note": "Exactly what one, finish and finish_into_inner answer for any rows, and where the connection then stands (always usable, by C46). False in general: both decode every row, so a later row that does not fit the type hides the first row and the report of the end; and the numbers of the end are read one byte late (C30)."
  },
  {
   "property": "C108",
   "status": "partial",
   "theorems": [
    "C108_recorded_partial",
    "C108_down_partial",
    "C108_down_agree_partial",
    "C108_lowest_partial",
    "C108_by_turns_partial",
    "C108_twice_refuted",
    "C108_agree_refuted"
   ],
   "note": "Proved for names as in C59. In turn, the table records exactly what is in place (C108_by_turns_partial); downward runs at the same time leave exactly what is in place (C108_down_agree_partial), the lowest target deciding (C108_lowest_partial); runs in both directions stopped anywhere add only executed and remove only reverted migrations (C108_recorded_partial). Refuted: two downward runs opened on the same table both revert the same migration and both succeed (C108_twice_refuted), and with runs in both directions at the same time a reverted migration may end up recorded though every run succeeds (C108_agree_refuted)."
  },
  {
   "property": "C109",
   "status": "partial",
   "theorems": [
    "C109_in_step_partial",
    "C109_errors",
    "C109_columns",
    "C109_waiting_refuted",
    "C109_packet_refuted",
    "C109_cut_refuted",
    "C109_not_shown_refuted"
   ],
   "note": "Proved for every sequence of uses whose answers are documented answers, single packets of any bytes, or result sets in which a column definition cannot be read (C109_in_step_partial); the kinds of failure are exact for error packets (C109_errors) and told for column definitions (C109_columns). Refuted: an empty packet (or one whose column count cannot be read) in answer to a question for rows leaves the connection waiting for the end of a result set, so the next request is never written (result_set.rs:47-48; C109_waiting_refuted, and for every announcement that is cut off, whatever is tried afterwards, C109_cut_refuted); and the errors for a column definition with a wrong catalog and for an error packet without a state show only what follows the bytes already read, not the packet (column_def.rs:26-31, err.rs:87-93; C109_packet_refuted, and never the packet, C109_not_shown_refuted). Missing from the partial theorem: announcements of so many columns that the allocation panics and requests for a local file, which panic."
  },
  {
   "property": "C110",
   "status": "partial",
   "theorems": [
    "C110_program_partial",
    "C110_stops_partial",
    "C110_not_connected",
    "C110_program_refuted"
   ],
   "note": "C110_program_partial composes C73, C46, C94, C96 and C77 for the program of examples/hello_world.rs with any first statement, model and instances; the tables of the server are those after the first statement. Guards: those of C73 (plugin data up to 127 bytes, no clear text password, DEPRECATE_EOF), C94 (exact values, no reference to the own table, names without backquotes) and C46. C110_program_refuted: a duration of minus half a second is listed as plus half a second. C110_stops_partial: refused statements end the program with the error; without COM_QUIT."
  },
  {
   "property": "C111",
   "status": "partial",
   "theorems": [
    "C111_steps",
    "C111_run_partial",
    "C111_again_partial",
    "C111_refused",
    "C111_unknown",
    "C111_again_refuted"
   ],
   "note": "C111_run_partial: everything sent by opening a migrator and any sequence of calls on it, with the table the statements lead to (C111_steps: exactly one list of steps per table and calls). C111_again_partial: a second start sends only the opening. C111_refused: a refused opening. C111_unknown: unlisted record, unordered list. Guards: those of C59 (names of at most 255 characters without quote or backslash, distinct for the server) and of C46; one connection, as in C86; migrations made by simple_migration!. C111_again_refuted: with a backslash in a name the first start ends without error and the second panics."
  },
  {
   "property": "C112",
   "status": "proved",
   "theorems": [
    "C112_done",
    "C112_refused",
    "C112_not_connected",
    "C112_undone",
    "C112_three_needed"
   ],
   "note": "C112_done: everything sent on the three connections when the server executes all. C112_refused: a refusal anywhere. C112_not_connected: no second or third connection. C112_undone: down. C112_three_needed: a pool of fewer than three (any schedule). DEPRECATE_EOF is the guard of the statement."
  },
  {
   "property": "C113",
   "status": "proved",
   "theorems": [
    "C113_logged_in",
    "C113_run",
    "C113_one_run",
    "C113_returned",
    "C113_not_opened",
    "C113_example",
    "C113_too_few"
   ],
   "note": ""
  },
  {
   "property": "C114",
   "status": "partial",
   "theorems": [
    "C114_exactly",
    "C114_only",
    "C114_encryption",
    "C114_no_panic_partial",
    "C114_no_panic_refuted"
   ],
   "note": "False of the code without encryption (refuted: an empty challenge after a switch, a key file cut short, a key of 8k+1 bits); C114_exactly lists all panicking exchanges, C114_no_panic_partial excludes them by conditions on the packets and the key, C114_encryption says which keys."
  },
  {
   "property": "C115",
   "status": "proved",
   "theorems": [
    "C115_form",
    "C115_distinct",
    "C115_server"
   ],
   "note": "C115_form gives the printed form of every error; C115_distinct says that different errors are printed differently; C115_server specialises both to error packets as they are read. What an io::Error or a boxed value prints is a given text; floating-point texts are assumed to contain no comma, space or closing parenthesis and to differ for different numbers."
  },
  {
   "property": "C116",
   "status": "partial",
   "theorems": [
    "C116_bounded_partial",
    "C116_result",
    "C116_limit_refuted"
   ],
   "note": "C116_bounded_partial and C116_result hold without restriction. The last part is false (C116_limit_refuted): the limit given in the options is announced to the server but never compared with the length of what is received."
  },
  {
   "property": "C117",
   "status": "partial",
   "theorems": [
    "C117_wakes",
    "C117_stored_partial",
    "C117_left_refuted"
   ],
   "note": "C117_wakes bounds how often a request is polled without reason, for every schedule. C117_stored_partial: one waker per request. False (C117_left_refuted): nothing ever takes a waker out (async_pool.rs has no pop on wakers), so those of finished and dropped requests stay as long as the pool."
  },
  {
   "property": "C118",
   "status": "partial",
   "theorems": [
    "C118_packets_partial",
    "C118_inside",
    "C118_forged_refuted"
   ],
   "note": "C118_packets_partial: as long as packets arrive whole, each read is one packet whatever is in it. False after a time-out inside a row: the bytes already read are lost and the connection stays in use, so the rest of the row is read as packets (C118_inside). C118_forged_refuted: for any later commands and any answers to them (65000 bytes) there is a value such that these commands see these answers."
  },
  {
   "property": "C119",
   "status": "partial",
   "theorems": [
    "C119_given_partial",
    "C119_injected_refuted"
   ],
   "note": "Proved for every list of commands, any answers, and a last command cut off anywhere: the server reads only packets of commands given. Refuted for commands after a cut-off one: for any text there is a value of a prepared statement that makes the server run it. C79 states what is lost, C119 what can be chosen."
  },
  {
   "property": "C120",
   "status": "partial",
   "theorems": [
    "C120_values_partial",
    "C120_cut_off_partial",
    "C120_repeated_refuted"
   ],
   "note": "Proved for every list of uses that are not cut off, with any answers: the server, which keeps long data per statement and parameter, executes the statements given with the values given, all that did not fail are among them, and no long data stays behind; also up to and including a last use that is cut off. Refuted after a cut-off use: for every value of 16 MiB or more an execution cut off after its first long-data packet and repeated is answered as usual, but is executed with that part in front of the value (COM_STMT_RESET is never sent)."
  },
  {
   "property": "C121",
   "status": "partial",
   "theorems": [
    "C121_statement_partial",
    "C121_adjacent_refuted",
    "C121_unquoted_refuted",
    "C121_meaning_refuted"
   ],
   "note": "Proved for statements in which nothing after a part continues its token and unquoted identifiers have a permitted character; refuted without these; the meaning of each token is exact under [expressible], shown to be necessary."
  },
  {
   "property": "C122",
   "status": "partial",
   "theorems": [
    "C122_same_values_partial",
    "C122_results_partial",
    "C122_distinct",
    "C122_long_blob_refuted",
    "C122_float_refuted"
   ],
   "note": "Proved for all column types but LONG_BLOB, and for FLOAT columns whose text is that of the number stored; refuted for both. DOUBLE texts are those the parser reads back."
  },
  {
   "property": "C123",
   "status": "partial",
   "theorems": [
    "C123_plain",
    "C123_integers",
    "C123_floats",
    "C123_unaffected",
    "C123_bytes",
    "C123_literal_partial",
    "C123_literal_refuted",
    "C123_width_refuted"
   ],
   "note": "Numbers, NULL, dates and times proved; byte strings keep their meaning if nothing is cut off and nothing is filled in before the digits, refuted otherwise. The options of std::fmt are modelled in FormatSpec.v; the digits of floats are arbitrary."
  },
  {
   "property": "C124",
   "status": "partial",
   "theorems": [
    "C124_told",
    "C124_plugin_partial",
    "C124_plugin_refuted",
    "C124_connected",
    "C124_kept",
    "C124_limit_asked"
   ],
   "note": "Proved for everything reported; for the plugin if none is forced, the forced one is the server's default, or the server switches, and refuted for another forced plugin. The limit asked for with select @@max_allowed_packet is the subject of C73. If the options give no limit, what becomes of it is proved for every answer to the question for it (set, kept, or an error)."
  },
  {
   "property": "C125",
   "status": "partial",
   "theorems": [
    "C125_equal",
    "C125_equivalence",
    "C125_column_partial",
    "C125_number_refuted",
    "C125_time_refuted"
   ],
   "note": "Values of different types are never equal and times can be written alike without being equal (refuted); for one column, equality is exactly sameness of content."
  }
 ]
}