{"id": "C01", "title": "Packet framing round trip", "statement": "Any payload the client writes as a packet, split into wire frames, is reassembled byte for byte by the client's own packet reader started at the same sequence number, leaving both sides with the same next sequence number and consuming exactly the bytes written.", "quantifier": "every payload (any length, including 0 and exact multiples of 16777215), every starting sequence number, every trailing stream content", "why_tests_cant": "lengths around multiples of 16 MiB and the 256 sequence numbers cannot be enumerated", "anchors": ["src/connection/io.rs: write_packet, read_packet_to_buf, read_chunk_to_buf", "src/utils/mod.rs: read_u32"]}
{"id": "C02", "title": "Frames on the wire follow the MySQL framing rules", "statement": "What the client writes for a payload is a sequence of frames whose bodies concatenate to the payload, all but the last being exactly 16777215 bytes and the last strictly shorter (possibly empty), with 3-byte little-endian lengths and sequence numbers increasing by one modulo 256.", "quantifier": "every payload and every starting sequence number", "why_tests_cant": "needs all lengths; a server rejects any deviation", "anchors": ["src/connection/io.rs: write_packet"]}
{"id": "C03", "title": "Out-of-order frames are rejected", "statement": "Reading a packet succeeds only if every frame carries the expected next sequence number; a frame with any other number yields an out-of-sync protocol error, never data.", "quantifier": "every incoming byte stream and every expected sequence number", "why_tests_cant": "all streams", "anchors": ["src/connection/io.rs: read_packet_to_buf", "src/error/protocol.rs: ProtocolError::OutOfSync"]}
{"id": "C04", "title": "A failing write leaves a prefix", "statement": "If the transport fails after any number of bytes while a packet is being written, the bytes the peer has received are a prefix of the fault-free encoding and the call reports an I/O error.", "quantifier": "every payload, every fault position", "why_tests_cant": "every crash point", "anchors": ["src/connection/io.rs: write_packet", "src/connection/timeout.rs: Timeout"]}
{"id": "C05", "title": "Length-encoded integers round trip", "statement": "Every u64 written as a length-encoded integer is read back unchanged, with the rest of the buffer untouched; the encoding is the shortest one, has the announced length and never starts with the NULL marker 0xFB or the error marker 0xFF.", "quantifier": "every u64 and every following buffer content", "why_tests_cant": "2^64 values, four encodings", "anchors": ["src/utils/buf_mut_ext.rs: put_lenenc_int", "src/connection/parse_buf.rs: checked_eat_lenenc_int, eat_lenenc_int", "src/utils/mod.rs: lenenc_int_len"]}
{"id": "C06", "title": "Length-prefixed and NUL-terminated strings round trip", "statement": "A byte string written with a length-encoded prefix is read back unchanged; one written with a u8 prefix is read back up to its first 255 bytes; one written NUL-terminated is read back unchanged exactly when it contains no NUL byte. Read as texts, they are read back if they are UTF-8 and refused as not UTF-8 otherwise. The rest of a packet is taken whole.", "quantifier": "every byte string and following content", "why_tests_cant": "all lengths", "anchors": ["src/utils/buf_mut_ext.rs: put_lenenc_slice, put_u8_slice, put_null_slice", "src/connection/parse_buf.rs: checked_eat_lenenc_slice, checked_eat_u8_slice, eat_null_slice"]}
{"id": "C07", "title": "Binary value round trip", "statement": "A value serialized for the binary protocol and read back with its own column type and signedness is the same value, consuming exactly its bytes; the only identification is that a negative zero time reads as zero.", "quantifier": "every value: all integers, all float bit patterns, all byte strings, all dates, times and datetimes", "why_tests_cant": "the value space is unbounded", "anchors": ["src/types/value/bin.rs: serialize, deserialize_bin", "src/types/value/mod.rs: column_type, is_unsigned"]}
{"id": "C08", "title": "Announced binary length equals bytes written", "statement": "The length reported for a value's binary encoding equals the number of bytes that serializing it produces.", "quantifier": "every value", "why_tests_cant": "all values; the zero DATE is the one that breaks it", "anchors": ["src/types/value/bin.rs: bin_len, serialize"]}
{"id": "C09", "title": "Null bitmap marks exactly the null columns", "statement": "After marking an arbitrary set of positions null, the bitmap answers null for exactly those positions, has the size the protocol prescribes and never indexes out of range; client and server layouts use offsets 0 and 2.", "quantifier": "every number of columns and every null pattern", "why_tests_cant": "every count and pattern", "anchors": ["src/connection/types/null_bitmap.rs: NullBitmap::{bitmap_len,set,is_null,new}"]}
{"id": "C10", "title": "Prepared statement parameters reach the server unchanged", "statement": "A server that decodes the COM_STMT_EXECUTE packet by the protocol documentation recovers the statement id, no-cursor flag, iteration count 1 and exactly the parameter list the caller passed (NULLs included), when no parameter is sent as long data.", "quantifier": "every statement id and every parameter list", "why_tests_cant": "all lists of values", "anchors": ["src/connection/packets/stmt_execute_request.rs", "src/types/value/bin.rs"]}
{"id": "C11", "title": "Large parameters are split and reassembled losslessly", "statement": "When the request would exceed one frame, every byte-string parameter is delivered by long-data commands carrying its own index, whose chunks concatenate to the parameter (at least one chunk, also for an empty one), nothing is sent for other parameters, and together with the execute packet the server recovers exactly the parameter list.", "quantifier": "every statement id, every parameter list of at most 65535 entries", "why_tests_cant": "sizes above 16 MiB and all mixes", "anchors": ["src/connection/io.rs: send_long_data", "src/connection/packets/stmt_send_long_data.rs", "src/connection/packets/stmt_execute_request.rs: as_long_data", "src/connection/prepared_statement.rs"]}
{"id": "C12", "title": "Text protocol rows decode to the values the server sent", "statement": "A text row built by the documented encoding (NULL as 0xFB, everything else as a length-encoded string; integers in decimal; dates and times in their canonical text) decodes to exactly the row's values for the column types given.", "quantifier": "every column list and every matching row", "why_tests_cant": "unbounded rows and values", "anchors": ["src/connection/types/protocol.rs: TextProtocol", "src/types/value/text.rs: deserialize_text"]}
{"id": "C13", "title": "Binary protocol rows decode to the values the server sent", "statement": "A binary row built by the documented encoding (0x00 header, null bitmap with offset 2, values of the non-null columns) decodes to exactly the row's values.", "quantifier": "every column list and every matching row", "why_tests_cant": "unbounded rows and null patterns", "anchors": ["src/connection/types/protocol.rs: BinaryProtocol", "src/types/value/bin.rs: deserialize_bin"]}
{"id": "C14", "title": "Row decoding yields one value per column", "statement": "Whenever decoding a row packet succeeds, text or binary, the result has exactly as many values as there are columns, so positional access through the column list is in range.", "quantifier": "every packet and column list", "why_tests_cant": "arbitrary bytes from the server", "anchors": ["src/connection/types/protocol.rs"]}
{"id": "C15", "title": "Malformed rows are errors, not panics", "statement": "Decoding a row from arbitrary bytes returns a value list or an error and never panics.", "quantifier": "every byte string and every column list", "why_tests_cant": "adversarial inputs", "anchors": ["src/connection/types/protocol.rs", "src/types/value/text.rs: deserialize_text, deserialize_time_text_inner", "src/types/value/bin.rs"]}
{"id": "C16", "title": "Escaped strings cannot break out of their literal", "statement": "The escaped form of any string, followed by any SQL text that does not itself begin with a double quote, is lexed by MySQL's default-mode string-literal rules as exactly one literal whose content is the original string, leaving the following text untouched.", "quantifier": "every string and every following text", "why_tests_cant": "injection safety is a universal claim", "anchors": ["src/types/value/text.rs: StringEscape, write_escaped_chars"]}
{"id": "C17", "title": "Escaped identifiers cannot break out of their quotes", "statement": "The escaped form of any identifier, followed by text not starting with a backtick, is lexed by MySQL as one quoted identifier whose name is the input with disallowed characters and trailing whitespace removed.", "quantifier": "every string", "why_tests_cant": "universal claim over Unicode strings", "anchors": ["src/types/value/text.rs: IdentifierEscape"]}
{"id": "C18", "title": "Unquoted identifiers contain only allowed characters", "statement": "The unquoted-identifier filter outputs exactly the allowed characters of its input in order, never anything else, and leaves already valid identifiers unchanged.", "quantifier": "every string", "why_tests_cant": "universal claim", "anchors": ["src/types/value/text.rs: UnquotedIdentifierEscape"]}
{"id": "C19", "title": "Displayed dates and times parse back", "statement": "For calendar-range values, the quoted text printed for a DATE, TIME or DATETIME value, with its quotes stripped, is decoded by the text protocol to the same value (microseconds included), and the printed text is a single double-quoted literal. A TIME of 2^32 hours or more makes a debug build panic; a release build prints the time with its hours modulo 2^32. NULL is printed as the keyword NULL.", "quantifier": "every date, time and datetime with two-digit fields, four-digit year and microseconds below 1000000; every time of too many hours", "why_tests_cant": "all values", "anchors": ["src/types/value/text.rs: Display for Value, deserialize_date_text, deserialize_time_text, deserialize_datetime_text"]}
{"id": "C20", "title": "Displayed integers parse back", "statement": "The decimal text printed for any integer value is decoded by the text protocol, for the matching column type and signedness, to the same value; integers outside the column's range are rejected.", "quantifier": "every integer of every width", "why_tests_cant": "2^64 values", "anchors": ["src/types/value/text.rs: Display for Value, deserialize_text"]}
{"id": "C21", "title": "Displayed byte values are valid hexadecimal literals", "statement": "The text printed for a byte-string value is a MySQL hexadecimal literal denoting exactly those bytes.", "quantifier": "every byte string", "why_tests_cant": "all byte strings; the empty one is the corner case", "anchors": ["src/types/value/text.rs: Display for Value"]}
{"id": "C22", "title": "Hex text round trip", "statement": "Parsing the printed form of a hex value gives back the same bytes, with or without 0x/0X prefix and in either letter case; odd-length or non-hex text is rejected with an error. The error says whether the length is odd or which character at which place is no digit.", "quantifier": "every byte string and every text", "why_tests_cant": "all strings", "anchors": ["src/types/hex.rs: FromStr, Display, try_from_hex"]}
{"id": "C23", "title": "Primitive conversions round trip and reject other variants", "statement": "Converting a Rust integer, float, string or byte vector into a value and back gives the original; converting a value of any other variant fails with a wrong-value error naming the expected type and carrying the offending value.", "quantifier": "every primitive and every value", "why_tests_cant": "all values", "anchors": ["src/types/value/conversion.rs: impl_conversion, String, Vec<u8>", "src/types/hex.rs"]}
{"id": "C24", "title": "Optional conversions map NULL to None and nothing else", "statement": "Converting to Option<T> yields None exactly for NULL and Some(x) exactly when the plain conversion yields x; errors are propagated; converting Option<T> into a value is the inverse.", "quantifier": "every value and every target type", "why_tests_cant": "all values", "anchors": ["src/types/value/conversion.rs: impl_try_into_option, TryFrom<Option<T>>"]}
{"id": "C25", "title": "String conversion accepts exactly valid UTF-8", "statement": "Converting a byte value to a string succeeds exactly when the bytes are the UTF-8 encoding of some sequence of Unicode scalar values, and then returns that sequence.", "quantifier": "every byte string", "why_tests_cant": "all byte strings", "anchors": ["src/types/value/conversion.rs: TryInto<String>"]}
{"id": "C26", "title": "Date and datetime conversions are calendar-exact", "statement": "A calendar date or datetime with a year of 0..65535 converts to a value and back to itself (datetimes to microsecond precision); any value whose fields do not form a calendar date and clock time is rejected, and dates outside the year range are rejected when converting to a value.", "quantifier": "every calendar date and time, every value", "why_tests_cant": "leap years and ranges", "anchors": ["src/types/value/conversion.rs: NaiveDate, NaiveDateTime"]}
{"id": "C27", "title": "Duration conversion preserves sign and magnitude", "statement": "Converting a duration into a time value and back yields the same duration to microsecond precision (truncated towards zero), for every duration whose day count fits.", "quantifier": "every duration", "why_tests_cant": "sign handling below one second, all magnitudes", "anchors": ["src/types/value/conversion.rs: From<Duration>, TryInto<Duration>"]}
{"id": "C28", "title": "Boolean conversion follows SQL truth", "statement": "Converting an integer value to bool gives true exactly for non-zero values, and bool to value and back is the identity.", "quantifier": "every integer value", "why_tests_cant": "negative values are the corner case", "anchors": ["src/types/value/conversion.rs: bool"]}
{"id": "C29", "title": "OK packets are decoded faithfully", "statement": "An OK packet built by the documented layout decodes to the same affected rows, last insert id, status flags, warning count and, if non-empty, message and session-state text.", "quantifier": "every field combination", "why_tests_cant": "all field values and lengths", "anchors": ["src/connection/packets/ok.rs: read_ok"]}
{"id": "C30", "title": "The packet ending a result set is decoded faithfully", "statement": "The OK/EOF packet that terminates a result set decodes to the status flags and warning count the server sent.", "quantifier": "every terminator packet", "why_tests_cant": "all status values", "anchors": ["src/connection/packets/ok.rs: read_eof", "src/connection/result_set.rs: next, finish"]}
{"id": "C31", "title": "Error packets are decoded faithfully", "statement": "A server error packet decodes to the same code, SQL state and message; arbitrary bytes yield a decoded packet or a protocol error, never a panic.", "quantifier": "every error packet; every byte string", "why_tests_cant": "all contents", "anchors": ["src/connection/packets/err.rs"]}
{"id": "C32", "title": "Column metadata is decoded faithfully", "statement": "A column-definition packet built by the documented layout decodes to the same table, original table, name, original name, type and flags; arbitrary bytes never panic.", "quantifier": "every column definition; every byte string", "why_tests_cant": "names of every length", "anchors": ["src/connection/packets/column_def.rs", "src/connection/types/column.rs"]}
{"id": "C33", "title": "The prepare response is decoded faithfully", "statement": "The response to a prepare request decodes to the same statement id, column count, parameter count and warning count, and shorter packets are errors.", "quantifier": "every response; every byte string", "why_tests_cant": "all values", "anchors": ["src/connection/packets/stmt.rs"]}
{"id": "C34", "title": "The server greeting is decoded faithfully", "statement": "A protocol-10 greeting built by the documented layout decodes to the same connection id, capabilities, 20-byte nonce and authentication plugin.", "quantifier": "every greeting", "why_tests_cant": "all field values", "anchors": ["src/connection/packets/handshake.rs"]}
{"id": "C35", "title": "Connecting never panics on server bytes", "statement": "Whatever bytes the server sends as its greeting, connecting returns a connection or an error.", "quantifier": "every greeting byte string", "why_tests_cant": "adversarial or overloaded servers", "anchors": ["src/connection/init.rs: handle_handshake", "src/connection/packets/handshake.rs: parse_server_version"]}
{"id": "C36", "title": "The handshake response is decoded by the server as intended", "statement": "A server decoding the handshake response by the documented layout recovers the capabilities, packet size, collation, user, authentication data, database and plugin name, and the database and plugin fields are present exactly when the corresponding capability bits are set.", "quantifier": "every user, database, plugin and authentication data", "why_tests_cant": "all strings", "anchors": ["src/connection/packets/handshake_response.rs"]}
{"id": "C37", "title": "Only capabilities the server offered are requested", "statement": "The capability flags in the handshake response are a subset of those the server advertised.", "quantifier": "every server capability set and option set", "why_tests_cant": "2^32 capability sets", "anchors": ["src/connection/init.rs", "src/connection/packets/handshake_response.rs: new", "src/connection/options.rs: get_capabilities"]}
{"id": "C38", "title": "Native password scramble is accepted by the server", "statement": "For a non-empty password, the native scramble is 20 bytes and passes the server's check against the stored double hash; an empty password sends none.", "quantifier": "every password and nonce, every hash function of the right output length", "why_tests_cant": "all passwords", "anchors": ["src/utils/scramble.rs: scramble_native"]}
{"id": "C39", "title": "SHA-256 scramble is accepted by the server", "statement": "For a non-empty password, the caching_sha2_password scramble is 32 bytes and passes the server's fast-authentication check; an empty password sends none.", "quantifier": "every password and nonce", "why_tests_cant": "all passwords", "anchors": ["src/utils/scramble.rs: scramble_sha256"]}
{"id": "C40", "title": "The RSA-encrypted password decrypts to the password", "statement": "A server holding the private key, undoing RSA and OAEP padding and XOR-ing with the nonce, recovers the NUL-terminated password; messages that do not fit are rejected with an error.", "quantifier": "every password, nonce, padding seed and valid RSA key", "why_tests_cant": "all keys, seeds and lengths", "anchors": ["src/utils/crypt.rs: encrypt_padded, OaepPadding::pad, mgf1, num_octets", "src/connection/auth.rs"]}
{"id": "C41", "title": "Server public keys are parsed faithfully", "statement": "A PEM public key in PKCS#1 or PKCS#8 form parses to its modulus and exponent; malformed input is rejected with an error.", "quantifier": "every modulus and exponent; every byte string", "why_tests_cant": "all key sizes and malformed inputs", "anchors": ["src/utils/crypt.rs: try_from_pem, try_from_pkcs1, try_from_pkcs8, eat_len"]}
{"id": "C42", "title": "The password is never sent in clear without permission", "statement": "During connection, unless clear-text passwords are allowed in the options or the transport is declared secure, nothing the client writes is the password itself, whatever the server sends.", "quantifier": "every server behaviour and option set", "why_tests_cant": "adversarial servers", "anchors": ["src/connection/auth.rs", "src/connection/types/auth_plugin.rs: gen_data", "src/connection/init.rs: do_handshake_response"]}
{"id": "C43", "title": "A forced authentication plugin is respected", "statement": "If an authentication plugin is forced in the options, authentication data for no other plugin is ever written; a server asking for another one gets a mismatch error.", "quantifier": "every server behaviour", "why_tests_cant": "adversarial servers", "anchors": ["src/connection/types/auth_plugin.rs: gen_data", "src/connection/auth.rs"]}
{"id": "C44", "title": "Authentication terminates", "statement": "Authentication reads at most six packets and performs at most one plugin switch, whatever the server sends.", "quantifier": "every server behaviour", "why_tests_cant": "unbounded server behaviours", "anchors": ["src/connection/auth.rs: continue_auth, perform_auth_switch"]}
{"id": "C45", "title": "Connecting reports authentication failure", "statement": "If the server's last word in the authentication exchange is an error packet, connecting fails. (Does not hold after the fast-authentication marker; proved otherwise.)", "quantifier": "every server behaviour", "why_tests_cant": "all exchanges", "anchors": ["src/connection/auth.rs"]}
{"id": "C46", "title": "Each command reads its own response", "statement": "In any sequence of commands whose responses follow the protocol, with result sets read completely, partially or not at all, each command obtains exactly the response the server sent to it.", "quantifier": "every history of queries, statements, row reads and abandoned result sets", "why_tests_cant": "unbounded histories", "anchors": ["src/connection/result_set.rs: read, next, cleanup", "src/connection/query.rs: execute_command", "src/connection/io.rs: write_command", "src/connection/prepared_statement.rs"]}
{"id": "C47", "title": "Result sets deliver every row in order", "statement": "Collecting a result set returns the server's rows in order and nothing else, ends exactly at the terminator, and reading on after the end keeps returning none without touching the connection.", "quantifier": "every result set", "why_tests_cant": "unbounded rows", "anchors": ["src/connection/result_set.rs: next, collect, one, finish"]}
{"id": "C48", "title": "Statements whose result rows are not read keep the connection usable", "statement": "After execute_query of any statement, including one that returns rows, the next command obtains its own response.", "quantifier": "every server response to the statement", "why_tests_cant": "protocol history", "anchors": ["src/connection/query.rs: execute_query", "src/connection/io.rs: read_response"]}
{"id": "C49", "title": "Server errors in the middle of a result set are reported", "statement": "If the server aborts a result set with an error packet, reading rows returns that error rather than a row.", "quantifier": "every error packet and column list", "why_tests_cant": "server-side aborts at any row", "anchors": ["src/connection/result_set.rs: next"]}
{"id": "C50", "title": "Parameter count mismatches are rejected without side effects", "statement": "Executing a prepared statement with a number of values different from its parameter count returns a mismatch error and writes nothing.", "quantifier": "every statement and value list", "why_tests_cant": "all counts", "anchors": ["src/connection/prepared_statement.rs: query, execute"]}
{"id": "C51", "title": "Prepared statements are released", "statement": "Every statement the client prepares is eventually closed on the server when its handle is dropped.", "quantifier": "every history of commands", "why_tests_cant": "server-side resources over unbounded histories", "anchors": ["src/connection/prepared_statement.rs", "src/connection/packets/stmt_close.rs"]}
{"id": "C52", "title": "Pooled buffers are always empty", "statement": "A buffer taken from the buffer pool has length zero and never shows bytes of earlier packets, writing into a buffer in use or giving it back changes no other buffer in use, a buffer given back goes to the end of the pool or away if the pool is full, the pool never holds more than its capacity, and kept buffers do not exceed the size cap.", "quantifier": "every history of takes, writes and returns", "why_tests_cant": "unbounded histories", "anchors": ["src/pool/sync_pool.rs", "src/pool/pool_item.rs"]}
{"id": "C53", "title": "The connection pool never exceeds its size", "statement": "At most N connections exist at any time, counting idle, handed-out and being-established ones, under any interleaving of concurrent requests.", "quantifier": "every schedule of every number of tasks", "why_tests_cant": "concurrent schedules", "anchors": ["src/pool/async_pool.rs: PoolTake::poll"]}
{"id": "C54", "title": "A pooled connection has one owner", "statement": "No connection is ever handed to two holders at once, and returning one never discards it.", "quantifier": "every schedule", "why_tests_cant": "concurrent schedules", "anchors": ["src/pool/async_pool.rs", "src/pool/pool_item.rs: Drop"]}
{"id": "C55", "title": "Waiting for a pooled connection ends when one is returned", "statement": "A task waiting on an exhausted pool is woken and served once a connection is returned.", "quantifier": "every schedule", "why_tests_cant": "liveness under all schedules", "anchors": ["src/pool/async_pool.rs: put, poll (wakers)"]}
{"id": "C56", "title": "Failed connection attempts do not shrink the pool", "statement": "After any number of failed or abandoned connection attempts, a request can still establish a new connection as long as fewer than N exist.", "quantifier": "every history of failures", "why_tests_cant": "unbounded failure histories", "anchors": ["src/pool/async_pool.rs: poll (items)"]}
{"id": "C57", "title": "Timeouts never discard a finished operation", "statement": "A wrapped operation that is ready when polled yields its result even if the deadline has passed; a timeout is reported only when the operation is still pending and the delay has elapsed, and otherwise the wrapper is pending.", "quantifier": "every pair of poll histories", "why_tests_cant": "all schedules", "anchors": ["src/connection/timeout.rs"]}
{"id": "C58", "title": "Versions are ordered lexicographically", "statement": "Version comparison is a total order equal to lexicographic comparison of the three components, and the ordered check holds exactly for strictly increasing lists.", "quantifier": "every pair of versions and every list", "why_tests_cant": "2^96 pairs", "anchors": ["src/migrator/migration.rs"]}
{"id": "C59", "title": "Migrating up applies each pending migration once, in order", "statement": "A successful up run executes exactly the not yet applied migrations (up to the target version) in list order, once each, and afterwards the table records exactly the old entries plus those; a second run does nothing.", "quantifier": "every migration list, applied set and target version", "why_tests_cant": "unbounded lists", "anchors": ["src/migrator/migrator_inner.rs: up_to_version"]}
{"id": "C60", "title": "Migrating down reverts in reverse order", "statement": "A successful down run reverts exactly the applied migrations above the target version, in reverse list order, and removes exactly their records.", "quantifier": "every migration list, applied set and target", "why_tests_cant": "unbounded lists", "anchors": ["src/migrator/migrator_inner.rs: down_to_version, one_down"]}
{"id": "C61", "title": "Migrating to a version reaches exactly that version", "statement": "After a successful to_version(v), the recorded migrations are exactly all listed migrations with version at most v.", "quantifier": "every list, starting state and v", "why_tests_cant": "unbounded lists", "anchors": ["src/migrator/migrator_inner.rs: to_version"]}
{"id": "C62", "title": "A failed migration run loses no more than one record", "statement": "Wherever an up run stops because a migration or its bookkeeping fails, the executed migrations form a prefix of the plan and the table records all of them except possibly the last executed one.", "quantifier": "every failure point", "why_tests_cant": "every crash point", "anchors": ["src/migrator/migrator_inner.rs: up_to_version"]}
{"id": "C63", "title": "Generated inserts and updates match their parameters", "statement": "Generated INSERT and UPDATE statements name the set columns in order and contain exactly one placeholder per parameter sent, in the same order, the key last for updates; an update with nothing set executes nothing.", "quantifier": "every list of set columns, whatever their values; names without backquotes", "why_tests_cant": "all lists", "anchors": ["src/model/active_model/named_value.rs", "src/model/active_model/update_model.rs", "src/model/active_model/mod.rs: insert"]}
{"id": "C64", "title": "Generated selects list every column once and join every reference", "statement": "The generated query selects every column of the model and, recursively, of its references, each once, separated by commas, and joins every referenced table under its path alias on the right key.", "quantifier": "every model tree in which each model has a column; names without backquotes", "why_tests_cant": "arbitrarily nested models", "anchors": ["src/model/into_query.rs"]}
{"id": "C65", "title": "Rows of a generated query map back to the right fields", "statement": "Mapping the columns of the generated query back onto the model assigns every field the index of its own column.", "quantifier": "every model tree", "why_tests_cant": "name clashes in nested models", "anchors": ["src/model/from_query_result.rs", "macros/src/lib.rs: derive_from_query_result", "src/model/into_query.rs"]}
{"id": "C66", "title": "Referenced models are inserted before their owner", "statement": "Inserting an active model with nested models inserts each referenced model first and stores its primary key, or the id the database assigned, in the owner's column; unset fields are not mentioned. If a field cannot be converted to a value, nothing is executed for its model and the first such error is returned.", "quantifier": "every tree of active models", "why_tests_cant": "arbitrarily nested trees", "anchors": ["src/model/active_model/active_reference.rs", "src/model/active_model/active_value.rs", "macros/src/lib.rs: derive_active_model"]}
{"id": "C67", "title": "The server version is recognised", "statement": "For a version string major.minor.patch, alone or followed by a separator and a suffix, exactly these three numbers are recorded, and a server whose suffix names MariaDB is recorded as MariaDB.", "quantifier": "every version string of that shape", "why_tests_cant": "all numbers, separators and suffixes", "anchors": ["src/connection/packets/handshake.rs: parse_server_version"]}
{"id": "C68", "title": "A stopped migration run can be repeated", "statement": "If an up run stops at any point and up is run again and succeeds, every listed migration up to the target is recorded exactly once afterwards.", "quantifier": "every migration list, table, stopping point and later run", "why_tests_cant": "every failure point combined with every list", "anchors": ["src/migrator/migrator_inner.rs: up_to_version, insert_applied"]}
{"id": "C69", "title": "Opening a migrator reads exactly the recorded migrations", "statement": "Migrator::new succeeds exactly if all recorded migrations are listed and then treats exactly the recorded ones as applied; a record of an unknown migration stops the program.", "quantifier": "every migration list and table", "why_tests_cant": "unbounded lists and tables", "anchors": ["src/migrator/migrator_inner.rs: new", "src/migrator/model.rs"]}
{"id": "C70", "title": "Inserting a whole model stores every value once", "statement": "Turning a model into an active model and inserting it successfully stores each referenced model and then one row with all of the model's own values, leaving out exactly the primary key if it is auto-increment, and with the keys of the referenced models.", "quantifier": "every model tree and all field values, whatever ids the database assigns", "why_tests_cant": "arbitrarily nested models", "anchors": ["macros/src/lib.rs: derive_active_model", "src/model/active_model/mod.rs", "src/model/active_model/active_reference.rs"]}
{"id": "C71", "title": "Answers cut off by a broken or silent connection are reported", "statement": "If the transport ends, fails or times out anywhere inside the answer to a command, every earlier command has seen its own answer, this command returns exactly the rows that arrived whole followed by the transport's error (or just the error if not even the columns arrived), and every later command returns the transport's error; no row, result or success is made up.", "quantifier": "every history of commands, every answer, every byte position at which the transport stops, every number of rows asked for and every list of later commands", "why_tests_cant": "every cut position of every answer in every history", "anchors": ["src/connection/io.rs: read_packet_to_buf", "src/connection/command.rs: read_response, cleanup", "src/connection/result_set.rs: next"]}
{"id": "C72", "title": "Late answers are not taken for the answer to a later command", "statement": "After a command whose answer was not complete when the read timed out, the rest of that answer may still arrive; later commands on the connection nevertheless see their own answers.", "quantifier": "every command, answer, time-out position, late rest and later history of commands", "why_tests_cant": "needs every time-out position and the interplay with all later commands", "anchors": ["src/connection/command.rs: cleanup, read_response", "src/connection/timeout.rs"]}
{"id": "C73", "title": "Connecting yields a working connection", "statement": "If the server greets, accepts the user by a documented exchange and answers the question for max_allowed_packet (asked only if the options give none), connecting succeeds over any transport that delivers the bytes: the connection carries the server's id and version, exactly the capabilities both sides have, the packet limit, nothing of the server's bytes is lost or left over, and exactly the packets of the exchange and the question were sent - so that all later commands see their own answers.", "quantifier": "every greeting, options, documented exchange, packet limit, framing of the conversation and rest of the input", "why_tests_cant": "needs every server configuration, plugin, exchange and limit; a test has one server", "anchors": ["src/connection/init.rs: connect, handle_handshake, do_handshake_response", "src/connection/auth.rs", "src/connection/types/auth_plugin.rs", "src/connection/options.rs"]}
{"id": "C74", "title": "Every documented authentication exchange succeeds", "statement": "Whatever documented way a server uses to accept the user - at once, by fast authentication, by full authentication on an encrypted transport, with a known or a requested public key, each possibly after switching to another allowed plugin - the client sends the packets that exchange requires and authentication succeeds.", "quantifier": "every greeting, options, nonce, password, key, exchange and transport", "why_tests_cant": "servers choose the exchange from their cache, account and transport; tests see one", "anchors": ["src/connection/auth.rs: continue_auth", "src/connection/types/auth_plugin.rs: gen_data", "src/connection/options.rs"]}
{"id": "C75", "title": "Default options admit accounts of every plugin that hides the password", "statement": "With the default options, connecting succeeds for users of mysql_native_password and caching_sha2_password alike, whatever plugin the greeting names.", "quantifier": "every user, password, greeting and documented exchange", "why_tests_cant": "needs accounts of every plugin on servers of every default plugin", "anchors": ["src/connection/options.rs: Default", "src/connection/auth.rs: perform_auth_switch"]}
{"id": "C76", "title": "The command layer does not panic on server bytes", "statement": "Whatever bytes the server sends and whatever state the connection is in, no query, execution, preparation, row reading, clean-up or disconnect panics.", "quantifier": "every connection state, every input byte sequence, every way the input ends, every row decoder", "why_tests_cant": "the space of hostile byte sequences is unbounded and the panics sit behind unusual packet kinds", "anchors": ["src/connection/result_set.rs: ResultSet::read", "src/connection/result_set.rs: ResultSet::next_row", "src/connection/prepared_statement.rs: prepare_statement", "src/connection/query.rs: query", "src/connection/io.rs: read_packet"]}
{"id": "C77", "title": "Disconnecting ends the session in order", "statement": "Disconnecting at any point reads the rest of a pending result, sends exactly one COM_QUIT packet numbered 0 after everything sent before, and reports success.", "quantifier": "every history of uses and answers, any number of rows left unread", "why_tests_cant": "depends on what was left unread before the disconnect, for every history", "anchors": ["src/connection/init.rs: disconnect", "src/connection/query.rs: execute_command", "src/connection/result_set.rs: cleanup"]}
{"id": "C78", "title": "No packet exceeds the agreed maximum", "statement": "No command packet is longer than the connection's max_allowed_packet; long parameters are sent in pieces that fit.", "quantifier": "every use, every parameter list, every limit", "why_tests_cant": "needs parameters of millions of bytes at exact boundaries and servers with every limit", "anchors": ["src/connection/data.rs: max_allowed_packet", "src/connection/packets/stmt_execute_request.rs: StmtExecuteRequest::new", "src/connection/io.rs: send_long_data", "src/connection/query.rs: read_settings"]}
{"id": "C79", "title": "An interrupted command does not corrupt later ones", "statement": "If sending a command fails or is cancelled, later commands on the connection are read by the server as they were given.", "quantifier": "every history, every command, every point of interruption", "why_tests_cant": "a transport would have to fail at every byte of every command and then recover", "anchors": ["src/connection/io.rs: write_packet", "src/connection/query.rs: execute_command", "src/connection/timeout.rs: Timeout"]}
{"id": "C80", "title": "Fields take their columns by name from any query", "statement": "Read from the result of any query, every field of a model takes the value of the column with its table and name, whatever the order of the columns and whatever other columns there are; if a field's column is missing, reading fails and names the field.", "quantifier": "every model tree, every list of columns, every row", "why_tests_cant": "queries order, repeat and add columns in unboundedly many ways", "anchors": ["src/model/from_query_result.rs", "macros/src/lib.rs: derive_from_query_result", "src/connection/mod.rs"]}
{"id": "C81", "title": "The conditions of the unsafe blocks hold", "statement": "Whenever an unsafe block runs, what it relies on is true: the state of a server error given out as text is valid UTF-8, slices reinterpreted as arrays have exactly that many bytes, and a pooled item is taken out of its guard once.", "quantifier": "every packet, every size, every schedule", "why_tests_cant": "a violated condition is undefined behaviour, which need not show in a test", "anchors": ["src/connection/packets/err.rs: state_str, ErrorPacket::deserialize", "src/connection/parse_buf.rs: parse_num", "src/connection/serialization.rs", "src/pool/pool_item.rs: drop"]}
{"id": "C82", "title": "Debug output does not reveal the password", "statement": "Printing the options, the data or the connection itself with {:?} does not show the password.", "quantifier": "every user name, password and option, every set of characters the standard library prints unescaped", "why_tests_cant": "a test looks for one password in one text", "anchors": ["src/connection/options.rs: Debug for ConnectionOptions", "src/connection/data.rs: Debug for ConnectionData", "src/connection/mod.rs: Debug for Connection"]}
{"id": "C83", "title": "Debug output of server errors is faithful", "statement": "The debug text of an error from the server shows its code, state and message so that they can be told from the text, whatever characters they contain.", "quantifier": "every error packet, every set of characters the standard library prints unescaped", "why_tests_cant": "messages contain arbitrary text, including quotes and text that looks like other fields", "anchors": ["src/connection/packets/err.rs: Debug for ErrorPacket, ProgressPacket"]}
{"id": "C84", "title": "Derived models know which fields are columns", "statement": "A field becomes a column exactly if its type is a supported one (integers, floats, bool, String, Vec<u8>, dates, durations, Hex, or an Option of these) however its path is abbreviated; any other type is a group of columns if declared with ty, and a reference otherwise.", "quantifier": "every type written as a path, every list of declared structs", "why_tests_cant": "types can be written in unboundedly many ways", "anchors": ["macros/src/parse.rs: TypeComplexity::from_path"]}
{"id": "C85", "title": "Users of a pool do not see each other's answers", "statement": "When any number of tasks share connections through an AsyncPool, every command sees the answer the server gave to that command, whichever tasks used the connection before, and no connection is held by two tasks at once. A connection returned to the pool carries nothing over from its previous user.", "quantifier": "all pool sizes, all interleavings of get, poll, drop and use by any number of tasks, all histories of commands and answers on each connection, all row decoders", "why_tests_cant": "The interleavings of tasks and the histories on each connection are unbounded, and a leak shows only when one task's leftover meets another task's command.", "anchors": ["src/pool/async_pool.rs:20-25", "src/pool/async_pool.rs:72-112", "src/pool/pool_item.rs:18-47", "src/connection/mod.rs"]}
{"id": "C86", "title": "Migration runs send exactly the pending migrations' statements", "statement": "With migrations made by simple_migration!, an upward run sends, for each pending migration in order, the migration's own statement followed by the insert that records it, each as one command; a downward run sends the revert statement and the delete. Nothing else is sent. The run stops at the first statement the server refuses and returns that error.", "quantifier": "all migration lists, tables, targets, statement texts, and all sequences of answers by the server", "why_tests_cant": "The lists of migrations, their texts and the point at which the server refuses are unbounded.", "anchors": ["src/migrator/mod.rs:10-46", "src/migrator/migrator_inner.rs:97-142", "src/connection/query.rs:23-26"]}
{"id": "C87", "title": "Derive attributes mean what is written", "statement": "The derive macros use exactly what the mysql_connector attributes of a struct say: every entry is used or an error is reported, the table and the primary key generated are the ones written, the key is generated by the server exactly if auto_increment is \"true\", a model's primary key is one of its fields, and the macros do not panic.", "quantifier": "every list of attributes, every list of entries and every list of fields", "why_tests_cant": "attributes can be written in unboundedly many ways, and what the macros drop leaves no trace", "anchors": ["macros/src/parse.rs: parse_attr", "macros/src/lib.rs: derive_model_data, derive_active_model, derive_model"]}
{"id": "C88", "title": "The text of a version is that version", "statement": "A migration version is printed as its three numbers in decimal, separated by dots and in parentheses, and two versions with the same text are equal.", "quantifier": "all versions", "why_tests_cant": "there are 2^48 versions, and equality of texts is about pairs of them", "anchors": ["src/migrator/migration.rs: Display for Version"]}
{"id": "C89", "title": "Waiting for the server is bounded by the time-out", "statement": "With a time-out T configured, waiting for an answer ends within T: with the answer, if it arrives in time, or with a time-out error. Apart from that the time-out changes nothing: what is read is what the bytes that arrived say.", "quantifier": "for all time-outs, sequence numbers, byte contents, arrival times of every single byte, and times and kinds of transport failure", "why_tests_cant": "A test would have to control when every byte arrives and wait for real delays; it tries a few schedules, while the claim is about every possible one, including servers that send each part at the last moment.", "anchors": ["src/connection/io.rs:46-105", "src/connection/timeout.rs:1-41", "src/connection/result_set.rs"]}
{"id": "C90", "title": "Sessions with a server that answers run to their end", "statement": "With any server that answers each request once it has received it completely, every sequence of commands runs to its end and sees exactly its answers: no command waits for an answer before its whole request has been passed on, whatever transport the connection uses.", "quantifier": "for all sequences of uses, requests, answers, servers, row decoders, unread remainders and transports, over every number of suspensions", "why_tests_cant": "Deadlocks depend on the order of writes, flushes and reads on both sides; tests use one server and one transport (TCP), on which written bytes leave at once.", "anchors": ["src/connection/io.rs:94-151", "src/connection/query.rs:15-49", "src/connection/prepared_statement.rs:45-97", "src/connection/mod.rs:78-94"]}
{"id": "C91", "title": "Texts that are not dates, times or numbers are rejected", "statement": "A value of a text row is accepted for a date, time, datetime or integer column only if it is the documented text of such a value; everything else is an error.", "quantifier": "every byte string, every column type with a numeric or calendar text form, debug and release builds", "why_tests_cant": "The inputs are all byte strings; tests try a handful of valid ones and no malformed ones.", "anchors": ["src/types/value/text.rs: deserialize_time_text_inner, deserialize_date_text_inner, deserialize_time_text, deserialize_datetime_text, deserialize_text"]}
{"id": "C92", "title": "The password is encrypted for the configured key only", "statement": "While connecting, if a server key is set in the options the password is only ever encrypted for that key and the server is never asked for one. Otherwise the key is asked for at most once, and the password is encrypted for exactly the key in the answer. The connection keeps the key it used.", "quantifier": "every transport, server behaviour, option set, primitives and build mode", "why_tests_cant": "A hostile server may answer with any packets in any order; a test shows a few exchanges, not that none of them makes the client use another key.", "anchors": ["src/connection/auth.rs:46-143", "src/connection/init.rs:60-80", "src/connection/options.rs:36"]}
{"id": "C93", "title": "Rows of a query are read as models with typed fields", "statement": "Collecting a query or prepared statement as a model type gives one model per row, in order, each field holding the value of its own column as the field's Rust type (integers and floats of exactly that width, String as UTF-8, dates and times as chrono values, Option as None for NULL); structs and referenced models are filled from their columns. If some value does not fit its field, the result is the error of the first such field in the first such row; reading never panics.", "quantifier": "For all models (any nesting of references, any structs, any field types), all queries that select the model's columns in any order among unrelated ones, all row values, and all answers written by the server in the text or binary protocol.", "why_tests_cant": "The generated code depends on the model, the column order, the column types and every value; tests fix one struct and a few rows, while an error only shows for one combination of field type and value.", "anchors": ["macros/src/lib.rs:85-204", "src/model/from_query_result.rs:1-32", "src/types/value/conversion.rs:1-258", "src/connection/result_set.rs:40-140"]}
{"id": "C94", "title": "What is inserted is what is selected", "statement": "Inserting models (with structs and referenced models, stored one after the other through their active models) into a MySQL server whose tables are made for them, and then querying the model type, gives back exactly these models together with the ones that were there before: every field unchanged, every reference resolved to the model it was inserted with, and the auto-increment keys those the server assigned and insert returned. No other table is touched.", "quantifier": "For all models (any nesting of references, any structs and field types), all tables with the columns of the model (and others), all contents, all lists of inserted models, and every server that carries out INSERT and SELECT with joins as documented.", "why_tests_cant": "The round trip goes through the generated INSERTs, the value conversions, the assigned keys, the generated SELECT with its aliases and joins, and the mapping of rows; a wrong column name, a key of the wrong model or a lossy conversion only shows for particular models, values and table contents, and needs a live server.", "anchors": ["src/model/active_model/mod.rs", "src/model/active_model/active_reference.rs", "src/model/into_query.rs:1-75", "src/model/from_query_result.rs:1-32", "macros/src/lib.rs:85-354", "src/types/value/conversion.rs"]}
{"id": "C95", "title": "Updates change exactly the model with the key", "statement": "Inserting an active model of which only some fields are set adds one model with those values, the key the server assigned, and nothing (NULL) in the fields left out; updating by key sets exactly the fields that were set on the model with that key, leaves its other fields, all other models and all unrelated tables unchanged, and changes nothing if no model has the key. Updating with a whole model gives the model with the key that one's values, new rows for the models it refers to, and the key it had if the server assigns keys. References set to a key refer to the model with this key, references to be inserted refer to the model just inserted. A later query of the model type reads exactly the resulting models.", "quantifier": "For all models with integer keys (any nesting of references, any structs and field types), all partially set active models, all sequences of inserts and updates, all table contents, and every server that carries out INSERT, UPDATE and SELECT as documented.", "why_tests_cant": "Each combination of set and unset fields, structs and references produces its own statement text and parameter list; a shifted parameter, a WHERE clause on the wrong column or an unset field overwritten only shows for particular combinations and table contents, and needs a live server.", "anchors": ["src/model/active_model/update_model.rs:6-31", "src/model/active_model/active_reference.rs:6-31", "src/model/active_model/active_value.rs", "src/model/active_model/mod.rs", "macros/src/lib.rs:243-354", "macros/src/lib.rs:460-462", "macros/src/lib.rs:264-281"]}
{"id": "C96", "title": "Inserts and updates of models exchange exactly their statements with the server", "statement": "Inserting an active model or updating a model on a connection prepares and executes each statement exactly once and in order (those of referenced models first), with its values as parameters; a statement whose preparation or execution the server refuses ends the operation with that error and nothing more is sent. The result is the one determined by the server's answers, the ids of referenced rows included, no byte of an answer is left over, and the connection can be used again: after a program of inserts and updates, the generated query on the same connection reads exactly the models the program leads to.", "quantifier": "All active models (any nesting), keys, programs, servers that answer as documented with any outcome for each statement, and all packet encodings of those answers.", "why_tests_cant": "Statements, nesting, outcomes and packet boundaries are unbounded, and a wrong id or a leftover packet shows only with particular answers of a live server.", "anchors": ["src/model/active_model/mod.rs:14-30", "src/model/active_model/update_model.rs:21-31", "src/model/active_model/active_reference.rs:14-30", "src/connection/prepared_statement.rs", "macros/src/lib.rs:331-337"]}
{"id": "C97", "title": "Commands reach the server before the answer is awaited", "statement": "When a packet has been written, all of its bytes have been passed to the server before the client starts to wait for the answer, whatever stream the user supplies.", "quantifier": "every packet, every server and every stream with the traits the crate asks for, also with a buffer of any size", "why_tests_cant": "Tests use TCP streams, which pass on every write; whether something is left behind depends on packet and buffer sizes.", "anchors": ["src/connection/io.rs:107-151", "src/connection/mod.rs:78-95"]}
{"id": "C98", "title": "Serialized Hex values are read back", "statement": "With the feature `serde`, a `Hex` written by any serde format is read back as the same bytes, whatever the document is read from; texts that denote no byte string are errors, never panics.", "quantifier": "every byte string, serde format, document and source it is read from", "why_tests_cant": "a test uses one format and one source, in practice a string in memory, where texts are borrowed", "anchors": ["src/types/hex.rs: Serialize for Hex", "src/types/hex.rs: Deserialize for Hex"]}
{"id": "C99", "title": "Migrators at work at the same time", "statement": "When several migrators bring the same database up to date, every migration is executed once: each one's code runs in exactly one of the runs, its record is written once, and two runs that both had a migration to do do not both report success.", "quantifier": "for all migration lists, initial tables, numbers of migrators, points at which each was opened and stopped, interleavings of what they do, and outcomes of every awaited action", "why_tests_cant": "A test runs a handful of migrators in whatever order the scheduler gives; the order in which a second migrator executes a migration before the first has recorded it occurs only in a narrow window, and all interleavings of any number of runs cannot be tried.", "anchors": ["src/migrator/migrator_inner.rs:17-68", "src/migrator/migrator_inner.rs:97-123"]}
{"id": "C100", "title": "A field stands for the column of its name", "statement": "In a struct with the derives every field stands for the database column of its name, a part of a struct-typed field for the column named after field and part: the generated SELECT asks for these columns, rows are mapped from them, and inserts and updates write them; rows of the struct's own query can always be read back. A raw identifier such as r#type is the field named type.", "quantifier": "all structs (tables, fields, struct-typed fields with parts, nested references), plain or raw identifiers, all rows and column descriptions", "why_tests_cant": "The names are made in four places of the macros with different formatting functions; whether they agree for every struct and every kind of identifier cannot be covered by expanding a few example structs.", "anchors": ["macros/src/lib.rs", "macros/src/parse.rs", "src/model/from_query_result.rs"]}
{"id": "C101", "title": "Leaving out optional features leaves the rest of connecting as it is", "statement": "Whichever of the optional features a build has, connecting to a server that accepts the user by a plugin the build knows works as in the default build: without caching-sha2-password, users of mysql_native_password still get in and a request for the missing plugin ends in an error; without time, the default options still connect.", "quantifier": "all feature sets, options, transports, greetings and packet sequences", "why_tests_cant": "Tests run one build against one server; the claim is about every combination of features and every exchange of packets.", "anchors": ["src/connection/types/auth_plugin.rs:46-61", "src/connection/init.rs:36-81", "src/connection/auth.rs:12-42", "src/connection/options.rs:98-120", "Cargo.toml:19-24"]}
{"id": "C102", "title": "Only what the server has sent is reported", "statement": "Whatever bytes the server sends, conforming or not: a command is reported as done with given numbers, flags and texts only if an OK packet with them stands, correctly numbered, in the input right where the answer of this command begins (after the packets left over from an unfinished result set, which are skipped to their last packet); a prepared statement, the columns and each row of a result set, its end, and an error of the server are likewise reported only for packets standing next in the input, rows one packet each and in order. Only failures without a result may skip bytes.", "quantifier": "every input of the transport, every state of a connection, every sequence of queries, statements and prepared statements with every number of rows asked for, every row decoder", "why_tests_cant": "all server byte streams, including ones no server would send, times all sequences of commands", "anchors": ["src/connection/command.rs: read_response, write_command, cleanup", "src/connection/result_set.rs: read, next", "src/connection/packets/ok.rs", "src/connection/packets/err.rs", "src/connection/prepared_statement.rs"]}
{"id": "C103", "title": "Authentication succeeds after accepted exchanges and no others", "statement": "Connecting gets past authentication exactly if the server's first packet is an acceptable greeting, the plugin in use (the forced one, else the server's, else mysql_native_password) is allowed by the options, and the conversation after the client's first packet is one of: an OK packet; for caching_sha2_password the fast-authentication marker and one more packet, or the full exchange (the password in clear on a secure transport only, otherwise encrypted with the known or requested key) ending in an OK packet; or, once, a request to switch to an allowed plugin answered with that plugin's token for the new nonce, followed by one of these. The connection then has the id of the greeting and the common capabilities.", "quantifier": "every server behaviour, transport, option set, password, hash and encryption function", "why_tests_cant": "an if-and-only-if over all conversations", "anchors": ["src/connection/auth.rs: continue_auth, continue_mysql_native_password_auth, continue_caching_sha2_password_auth, perform_auth_switch", "src/connection/init.rs", "src/connection/packets/auth_switch_request.rs"]}
{"id": "C104", "title": "The server's reason for refusing a login is reported", "statement": "After any accepted greeting and with a plugin the options allow, an error packet that the server sends where it may end the exchange (at once, after the password, instead of its public key, or at any of these places after a switch of plugin) makes authentication return exactly the code, SQL state and message of that packet, having read and sent nothing further; an empty packet, or one whose first byte is none of 0, 1, 254 and 255, is returned as an unexpected packet with its bytes. If the server's key is no key, or the password cannot be encrypted with it, nothing more is sent and this is returned as an encryption error.", "quantifier": "all greetings accepted, options, hash functions, encryptions, transports delivering bytes, error packets, and places in the exchange (not: the packet after \"fast authentication succeeded\", whose content is ignored, C45)", "why_tests_cant": "a test provokes one refusal of one server with one plugin; the claim ranges over every error packet and every place where a server may refuse", "anchors": ["src/connection/auth.rs:24-42", "src/connection/auth.rs:88-102", "src/connection/auth.rs:113-126", "src/connection/auth.rs:131-141"]}
{"id": "C105", "title": "Exactly which packets are read as rows, and on which reading breaks", "statement": "A text-row packet is read as a list of values exactly if it starts with one cell per column, each either the NULL byte or a length and a text in the form of the column's type. A binary-row packet is read as a list of values exactly if it holds a first byte, a whole NULL bitmap and, for each column not marked there, the bytes of a value of its type. Bytes behind the last value are ignored. Reading panics exactly if a cell that is reached and is not NULL has a type without the form in question or, for text with overflow checks, is a time whose fraction has more than six digits. Everything else is an error: for binary rows always that the packet ends too early; for text rows that of the first cell that is not complete (the packet ends too early) or not in the form of its column (which text was refused, and as what).", "quantifier": "every byte string, every column list, both row formats, builds with and without overflow checks, every behaviour of the standard library's float parser", "why_tests_cant": "an if-and-only-if over all byte strings; tests send well-formed rows and a few malformed ones", "anchors": ["src/types/value/text.rs", "src/types/value/bin.rs", "src/connection/types/null_bitmap.rs", "src/connection/types/protocol.rs"]}
{"id": "C106", "title": "Result sets end where the server ends them", "statement": "Asking for the next row takes exactly one packet. If that packet ends the set (first byte 0xFE, shorter than 2^24-1 bytes or, without DEPRECATE_EOF, than 8) the set is over, no further packet is ever read for it, and the connection is free for the next command; any other packet is decoded as a row and leaves the set open.", "quantifier": "every packet, column list, row type, transport content and capability set", "why_tests_cant": "ranges over all packets, including ends that carry a text and ends of servers without DEPRECATE_EOF, which the tests' server does not send", "anchors": ["src/connection/result_set.rs:66-89", "src/connection/packets/ok.rs:81-116"]}
{"id": "C107", "title": "One row, or only the end, can be asked for", "statement": "Asking a result set for one row returns its first row (none if it has none), and finishing it returns the status and warnings the server ended it with (and the columns, if asked for), whatever the other rows are; both read the set to its end, so that the connection is free for the next command; on a set that is over they read nothing.", "quantifier": "every row decoder, column list, sequence of row packets, end and place in the set", "why_tests_cant": "ranges over all rows and row types; the tests read sets of well-typed rows only", "anchors": ["src/connection/result_set.rs:99-103", "src/connection/result_set.rs:125-145"]}
{"id": "C108", "title": "Migrators going up and down", "statement": "Whatever migrators go up and down on one database, in turn or at the same time, the table records what is in place: once all have ended, a migration is recorded exactly when its `up` was executed, or it was recorded before, and its `down` has not been executed since. A record appears only after some migrator executed the migration and disappears only after some migrator reverted it; a migrator that went down successfully leaves nothing it saw above its target, and no migration is reverted twice.", "quantifier": "for all migration lists, initial tables, numbers of migrators in either direction, targets, points at which each was opened and stopped, interleavings of what they do, and outcomes of every awaited action", "why_tests_cant": "The order in which a slow migrator records a migration that another has meanwhile reverted occurs only in a narrow window; tests run one migrator at a time against one table, and the interleavings of any number of runs cannot be tried.", "anchors": ["src/migrator/migrator_inner.rs:97-123", "src/migrator/migrator_inner.rs:125-147"]}
{"id": "C109", "title": "An answer that cannot be read does not disturb the next", "statement": "Whatever packet a server sends as the answer to a statement, as the refusal of a question for rows or of a statement to prepare, or as the definition of a column, the call reports what that packet says: an OK or an error packet its contents, anything else a protocol error of a kind told by the packet (too short, unexpected packet, invalid packet, not UTF-8, unknown column type). The connection has then read or will skip exactly that answer, so each later call is sent in full and reports its own answer, however many answers before it could not be read. The error shows the packet.", "quantifier": "for all sequences of uses of a connection, packets of any bytes and length as their answers, capabilities with DEPRECATE_EOF, row decoders and numbers of rows read", "why_tests_cant": "Servers send well-formed packets, so tests never see the error paths; which of arbitrarily many malformed packets leaves bytes unread, and what the next command then takes for its answer, depends on every byte of the packet and on the state left behind.", "anchors": ["src/connection/io.rs:153-176", "src/connection/result_set.rs:32-53", "src/connection/result_set.rs:147-170", "src/connection/query.rs:41-49", "src/connection/prepared_statement.rs:45-67", "src/connection/packets/err.rs:20-36", "src/connection/packets/err.rs:82-105", "src/connection/packets/column_def.rs:25-55"]}
{"id": "C110", "title": "A program from connecting to disconnecting", "statement": "A program that connects, executes a first statement, inserts models, lists all models of their table and disconnects (as examples/hello_world.rs does) ends without error if the server lets the user in and carries out the statements: it lists exactly the models it has inserted, with the keys the server has assigned, and those that were there before, each once. Over the whole run it has sent exactly the packets of the login, the question for the packet limit if the options give none, the first statement, each prepared statement once and in order, the query and COM_QUIT, and has read every byte of every answer. If the server refuses the first statement or an insert, the program ends with that error and nothing more is sent.", "quantifier": "All options, login exchanges, first statements, models (any nesting and types), instances with values the server keeps, servers that keep tables, and packet encodings of their answers.", "why_tests_cant": "A test runs one program against one server; that no packet of one step is taken for the answer of another, in any combination of login, limit, statements and rows, cannot be enumerated.", "anchors": ["examples/hello_world.rs:13-69", "src/connection/init.rs:14-34", "src/connection/query.rs:15-26", "src/model/active_model/mod.rs:14-30", "src/connection/result_set.rs:91-119"]}
{"id": "C111", "title": "A program that migrates, from opening to the last statement", "statement": "A program that opens a migrator on a connection and calls it (as examples/migrations/main.rs does: Migrator::new, then any sequence of up, up_to_version, down_to_version, to_version and one_down) asks the server for the migrations table, creates it exactly if it is missing, reads the records and then sends, for every step the calls require, the migration's own statement followed by the statement that changes its record, each as one query in order, and nothing else; it stops at the first refused statement with the server's error, also during the opening. The statements leave the table exactly as the calls require. If the last call was up and the program is started again, it sends only the two queries of the opening. A recorded migration that is not listed stops the program before any migration has run.", "quantifier": "All migration lists, statements of migrations, tables (any order of their rows), sequences of calls, answers of the server and their packet encodings.", "why_tests_cant": "A test opens one migrator on one table; that for every table and sequence of calls the statements on the wire are exactly the required ones, and that a second start sends none, ranges over unboundedly many tables, lists and call sequences.", "anchors": ["src/migrator/migrator_inner.rs:17-68", "src/migrator/migrator_inner.rs:97-164", "src/migrator/model.rs:22-72", "src/migrator/mod.rs:10-46", "examples/migrations/main.rs:21-29"]}
{"id": "C112", "title": "A migration that reads users while it changes them on other connections", "statement": "The migration UserAddPrimaryAddress of examples/migrations (up) changes the table, lists the users on the first connection of the pool, and while that result set is open asks on the second, with one prepared statement, for at most two addresses of each user, and sets on the third, with another prepared statement, the address of exactly those users that have exactly one, in the order of the users. Nothing else is sent on any of the three, each of the statements is sent once with the right parameters, and afterwards all three connections can be used again. If the server refuses a statement (on whichever connection, during whichever user), the migration ends with that error, nothing is sent after it on any connection, and all three can be used again although users have not been read. If the pool gives no second or third connection, only the change of the table has been sent. down sends one statement. The migration holds three connections at once: a pool of fewer never gives them. Connections with DEPRECATE_EOF (as connect makes them).", "quantifier": "All users, all addresses of each (any two of more than two may be shown), all statement ids, all packet encodings of the answers, all positions of the refusal, all states of the three connections between uses.", "why_tests_cant": "The answers on three connections interleave with the reading of an open result set; a test runs one small set of users, while the statements sent must be right for every number of users, every number of addresses and every position of a refusal.", "anchors": ["examples/migrations/migrations/v0_1_1.rs:16-70", "src/connection/result_set.rs:66-103", "src/connection/prepared_statement.rs:20-98", "src/connection/query.rs:15-27", "src/pool/async_pool.rs:39-90"]}
{"id": "C113", "title": "A migrator with a pool: any migrations, and the example program from start to end", "statement": "A migrator that takes its connections from a pool is opened on the connection the pool gives and returns it. Then, for each step the calls require (C59, C60, C61), in order, the migration itself is run with the pool, and only when it has succeeded the statement that changes its record is executed on a connection of the pool, which is returned whether or not it succeeded; these statements lead to the records the calls should leave. The first thing that fails ends the run with its result, and there is exactly one way for a run to go. If the opening is refused, nothing else is done and its connection is returned. The pool gives the connection that was returned first, makes one only when none is there and fewer than its size were made, and otherwise waits. So the program of examples/migrations, whatever of its migrations the table records, undoes those, the later first, then creates the two tables and adds the primary addresses; it does everything but the last migration on one connection and records the last on the third, as the three are returned in the opposite order; all three are in the pool at the end and can be used again. If it makes its connections itself and the server lets the user in on each (as in C73), it logs in three times, and everything it sends from the first byte of each connection is the login followed by these statements. With fewer than three connections, or if one cannot be made, the column has been added, the record has not been written, and the program waits forever or ends with that error. For records whose names the statements can hold (as in C59), that are valid text and that the collation keeps apart, connections with DEPRECATE_EOF (as connect makes them), lists in ascending order.", "quantifier": "All migrations (any function of the pool), all lists, calls and recorded tables, all pools and sizes, all results of making connections, all collations, both SQL modes, all packet encodings of the answers, all users and addresses of the example.", "why_tests_cant": "Which connection executes which statement depends on the order in which the connections were returned to the pool; a test with one database sees the statements but not the connections, and a pool of two only shows as a test that never ends.", "anchors": ["src/migrator/migrator_inner.rs:29-160", "src/migrator/mod.rs:20-45", "src/pool/async_pool.rs:13-112", "examples/migrations/main.rs:8-29", "examples/migrations/migrations/v0_1_0.rs:1-29", "examples/migrations/migrations/v0_1_1.rs:1-72", "src/connection/mod.rs:96-110"]}
{"id": "C114", "title": "Logging in panics in exactly these exchanges", "statement": "Whatever the server sends after a greeting the client accepts, logging in ends with a connection or an error. (As the code is, this holds over an encrypted transport. Without one it fails in exactly these cases, all of them when the server asks for the full exchange of caching_sha2_password: the server asked before to switch to that plugin and gave an empty challenge; the key file it sends is cut short or its label lines share hyphens; or encrypting the password panics, which happens only with a key, sent or given by the user, whose modulus has one bit more than a whole number of bytes. The panic then comes before anything else is sent. Besides these, only a greeting as in C35 panics, before anything is sent.)", "quantifier": "every server behaviour, transport that does not panic itself, option set, password, hash and encryption function, key", "why_tests_cant": "an if-and-only-if over all conversations; a test sends one empty challenge or one odd key only if its author thought of it", "anchors": ["src/connection/auth.rs:12-171", "src/connection/init.rs:18-27", "src/utils/crypt.rs:20-157", "src/connection/packets/auth_switch_request.rs"]}
{"id": "C115", "title": "What is printed for an error tells which error it is", "statement": "The debug output of an error names its kind and every part it has in Rust's notation (numbers in decimal, texts as string literals, byte sequences as lists, named fields with their names), and two errors that differ in kind or in any part are printed differently. This includes the two hand-written forms, for a value of the wrong type and for an unexpected packet.", "quantifier": "all errors of the types Error, ProtocolError, ParseError, SerializeError, RuntimeError and ErrPacket, with fields in the ranges of their Rust types (floating-point values that are NaN excepted for the second part); all texts for I/O errors and boxed values; all choices of printable characters", "why_tests_cant": "Tests compare the output for some errors; that no two of infinitely many errors are printed alike, whatever quotes, commas or parentheses their texts contain, is a statement about all of them.", "anchors": ["src/error/mod.rs:14-38", "src/error/protocol.rs:7-61", "src/error/parse.rs:7-39", "src/types/value/mod.rs:16-55", "src/connection/packets/err.rs:10-14", "src/utils/crypt.rs:7-11"]}
{"id": "C116", "title": "A packet takes no more memory than was received, and one frame", "statement": "While a packet is read, the buffer it is read into is never longer than the bytes received for it so far plus one frame of 2^24 - 1 bytes, so a server cannot make a client reserve memory by announcing lengths alone; a packet that has been read never took more than its own length; and packets longer than the connection's maximum packet size are refused.", "quantifier": "all sequence numbers and all byte streams from the server, including ones that end early or are out of order; for the limit: all limits", "why_tests_cant": "Tests read packets of some lengths; the bound holds for every stream, including streams of any number of frames that break off anywhere.", "anchors": ["src/connection/io.rs:46-105", "src/connection/options.rs:29", "src/connection/init.rs:72-74"]}
{"id": "C117", "title": "What waiting for a pooled connection costs", "statement": "A request for a pooled connection wakes itself at most N + 1 times, whatever the other requests do, and every time but one only because another request has started a connection since it looked; it stores at most one waker; and when nobody waits any more, no wakers are stored.", "quantifier": "every pool size, every number of requests, every interleaving of their steps with failures, drops and stale loads (that respect the order of one task's own loads), every request", "why_tests_cant": "The bound is about all interleavings of any number of tasks; a test sees a few schedules, and what piles up only shows after many requests.", "anchors": ["src/pool/async_pool.rs:13-18", "src/pool/async_pool.rs:72-112"]}
{"id": "C118", "title": "Values are not taken for packets", "statement": "Whatever bytes the values of a row consist of, they are only ever delivered as values: each read of a packet returns one whole packet of the server, and no part of a value is taken for a packet, so that what is stored in the database cannot decide what later commands see.", "quantifier": "every sequence of packets, all column lists, rows and values, every place inside a row at which a read times out, every list of later commands and every list of answers to them", "why_tests_cant": "The bytes that do harm have to be chosen for the place at which the read times out; the statement is about all values and all such places.", "anchors": ["src/connection/io.rs:46-105", "src/connection/result_set.rs:42-91", "src/connection/result_set.rs:149-170"]}
{"id": "C119", "title": "Values are not taken for commands", "statement": "Whatever text or values a program sends, every packet a server reads on the connection is a packet of a command the program has given, in the order given; no value of a prepared statement is ever run as a command.", "quantifier": "every list of commands, every answer of the server, every state of the connection, every place at which a command is cut off, every text to be run", "why_tests_cant": "The bytes that do harm have to be chosen for the place at which the command before was cut off; the statement is about all values and all such places.", "anchors": ["src/connection/io.rs:106-151", "src/connection/query.rs:28-39", "src/connection/prepared_statement.rs:20-41", "src/connection/packets/stmt_execute_request.rs:54-85"]}
{"id": "C120", "title": "Each execution of a statement uses exactly the values given for it", "statement": "The server executes prepared statements with exactly the values the program gave for that execution, whatever was executed before on the connection: long data sent for one execution is never left over for another, and a failed execution that is repeated stores the same value as if it had not failed.", "quantifier": "every list of uses of a connection, every answer of the server, every number of parameters of each statement, every cut-off place, every value of 16 MiB or more", "why_tests_cant": "The server keeps long data between packets; the wrong value appears only when an execution is cut off exactly between two packets of more than 16 MiB and then repeated, and then the repeated execution is answered as usual.", "anchors": ["src/connection/io.rs:20-44", "src/connection/prepared_statement.rs:69-97", "src/connection/packets/stmt_send_long_data.rs:22-29", "src/connection/packets/stmt_execute_request.rs:54-85", "src/connection/io.rs:106-151"]}
{"id": "C121", "title": "Nothing put into a statement changes what the rest of it says", "statement": "A program assembles a statement from fixed texts, strings written with StringEscape, identifiers written with IdentifierEscape or UnquotedIdentifierEscape, and values written with Display. The server divides that statement into the tokens of the fixed texts and, for every thing put in, one string, one identifier, one word, or a minus sign and one word, whatever was put in. The token means what was put in exactly when it can be expressed: no Control+Z in a string, an identifier that is not only spaces, a byte string that is not empty, a date with at most four digits in the year. Two conditions remain: nothing may follow that continues a token (no quote after a string, no letter, digit or dot after a number), and an unquoted identifier must contain a permitted character.", "quantifier": "for all lists of fixed texts whose tokens do not depend on what follows, all strings, identifiers and values put between them, all texts of floating-point numbers, both build modes", "why_tests_cant": "tests try a few statements with a few hostile strings; the claim covers every statement and every string, and that there is no other way to divide the text", "anchors": ["src/types/value/text.rs:16-131", "src/types/value/text.rs:133-200"]}
{"id": "C122", "title": "Queries and prepared statements give the same values", "statement": "A row of a result gives the same values whether it comes as text, after a query, or in binary form, after executing a prepared statement: for every column type, NULLs, ranges of integers, zero dates, fractions of seconds and times of more than a day, the value is the one that stands for what is stored, and different contents never give the same value. Not so for FLOAT columns, whose text has six digits, and for LONG_BLOB columns, on which reading text breaks.", "quantifier": "for all columns of all supported types and scales, all contents such columns can hold, all legal texts and binary forms of the row, both build modes, all parsers of floating-point numbers that read the texts sent", "why_tests_cant": "tests compare a few rows; the two decoders are written separately and have to agree on every content of every type", "anchors": ["src/types/value/text.rs:202-385", "src/types/value/bin.rs:104-256", "src/connection/types/protocol.rs:10-55"]}
{"id": "C123", "title": "Values written with a width or precision keep their meaning", "statement": "Writing a value with format options (width, fill, alignment, plus sign, zero flag, precision) changes only what the options say: a number is its sign and its digits in a field of the width, filled on the sides of the alignment or with zeros after the sign, and filled with spaces or zeros it is still read as the same number; NULL, dates and times are written as without options. Not so for byte strings: the options apply to the digits after 0x, so aligning to the right breaks the literal, a precision cuts digits off, and the width comes out two too large.", "quantifier": "for all values, all fills, alignments, signs, zero flags, widths and precisions, both build modes, all texts of floating-point numbers", "why_tests_cant": "the options combine in infinitely many ways, and the errors need a byte string together with an alignment or a precision", "anchors": ["src/types/value/text.rs:133-200", "src/types/hex.rs:82-87"]}
{"id": "C124", "title": "A connection tells which server it is connected to and how", "statement": "What Connection::data() reports - the connection id, the server version, whether it is MariaDB, the capabilities in use and the packet limit - is what the server's greeting and the options say, and it stays the same whatever is done with the connection later; the authentication plugin reported is the one by which the user was authenticated, including one the server has switched to. Not so if the options force another plugin than the server's default and the server accepts it: the default is reported.", "quantifier": "for all transports, greetings, options, exchanges that authenticate, hash and encryption functions, and all later uses of the connection with all server answers", "why_tests_cant": "tests connect to one server; the wrong report needs a forced plugin different from the default of the server", "anchors": ["src/connection/data.rs:22-46", "src/connection/init.rs:36-81", "src/connection/auth.rs:145-171"]}
{"id": "C125", "title": "Values compare equal exactly if they stand for the same", "statement": "Two values are `==` exactly if they have the same type and the same content, where floating-point numbers are compared by the number their bits stand for: zero and minus zero are equal and NaN is equal to nothing. The comparison is symmetric and transitive, and every value but NaN is equal to itself. For two rows of one result, the values of a column are therefore equal exactly if the column holds the same in both, NULL included. Values of columns of different types are never equal, even if they are the same number, and two times written alike may differ.", "quantifier": "for all pairs and triples of values with parts in the range of their types, all bit patterns of f32 and f64, all columns and all contents they can hold", "why_tests_cant": "There are 2^64 bit patterns for one double alone; that the comparison agrees with the represented numbers has to hold for every pair of them.", "anchors": ["src/types/value/mod.rs:16"]}
