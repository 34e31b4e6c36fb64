# Formal model of mysql-connector: design

The code under study is `/repo` (Rust).  It is read as text; nothing is built or run.
The model is a set of total Gallina functions, written by hand, function by
function.  Every definition cites the file and lines it transcribes.

## Conventions

* **Integers** are `Z`; a Rust width is a range predicate (`u8_ok`, `u32_ok`, ...).
  Casts that wrap are written as explicit `mod`/`wrap`.  `usize` is 64 bits.
  Arithmetic that can overflow is either proved in range or goes to `Panic`
  (debug build) / wraps (release build), under a mode parameter where the two differ.
* **Bytes** are `list Z` with every element in 0..255; **strings** are lists of Unicode
  scalar values (`list Z`).
* **Result/Option** stay data: `res E A := Ok a | Err e | Panic`.  `unwrap`, slice indexing,
  `unimplemented!` and similar become `Panic`.
* **Parsers** are functions `bytes -> res A * bytes`: the buffer survives an error, because
  the Rust `ParseBuf` does.
* **Loops** over server input use fuel equal to the input length plus one; a lemma shows
  that the fuel never runs out.
* **I/O**: a stream is the list of bytes still to be delivered by the peer, the bytes written
  so far and an optional write budget (to place a fault at any position).
  A short read is an I/O error of the kind the stream ends with.
* **External functions** (SHA-1, SHA-256, float parsing and printing, user migrations) are universally
  quantified parameters of the definitions, never axioms.
* **Specifications** (`Spec_*.v`) are written from the MySQL protocol documentation and
  do not use the model's functions.

## Layout of /verif/rocq/theories

Model files; each definition cites the lines it transcribes.

| file | Rust source | content |
|---|---|---|
| `Base.v` | - | `res` (Ok / Err / Panic), bytes, little-endian codec, integer ranges |
| `Types.v` | `src/error/*`, `src/types/value/mod.rs`, `src/connection/types/*`, `bitflags.rs` | errors, values, column types, flags |
| `BufMut.v`, `ParseBuf.v` | `src/utils/buf_mut_ext.rs`, `src/connection/parse_buf.rs` | writers and readers of integers and strings |
| `Framing.v` | `src/connection/io.rs` | streams with faults, packet reading and writing, the state monad |
| `Utf8.v` | `std::str::from_utf8`, `String::as_bytes` | UTF-8 |
| `NullBitmap.v`, `ValueBin.v`, `StmtPackets.v` | `types/null_bitmap.rs`, `src/types/value/bin.rs`, `packets/stmt*.rs` | binary values, execute / long-data / prepare packets |
| `ValueText.v`, `Rows.v`, `Hex.v` | `src/types/value/text.rs`, `result_set.rs`, `src/types/hex.rs` | text values, escaping, display, row decoding |
| `Conversion.v` | `src/types/value/conversion.rs` | conversions between `Value` and Rust types, chrono calendar |
| `Packets.v` | `packets/{ok,err,column_def,stmt,auth_switch_request}.rs` | packet readers |
| `Handshake.v`, `Options.v` | `packets/handshake*.rs`, `init.rs`, `data.rs`, `options.rs` | greeting, response, capabilities, default options |
| `Scramble.v`, `Crypt.v` | `src/utils/scramble.rs`, `src/utils/crypt.rs`, `types/auth_plugin.rs` | password scrambles, PEM/DER, OAEP and RSA |
| `Auth.v` | `src/connection/auth.rs`, `init.rs` | the authentication dialogue over any transport |
| `Conn.v` | `command.rs`, `query.rs`, `prepared_statement.rs`, `result_set.rs`, `init.rs` | connections: commands, result sets, connecting, settings |
| `Pool.v` | `src/pool/*`, `src/connection/timeout.rs` | buffer pool, connection pool (as a transition system), timeouts |
| `Migrator.v` | `src/migrator/*` | versions, the migrator, its statements |
| `SimpleMigration.v` | `src/migrator/mod.rs` | `simple_migration!`; the migrator's environment made of a connection |
| `Shared.v` | `src/pool/*`, `src/connection/*` | connections used by many tasks through a pool |
| `Debug.v` | `Debug` implementations | options, connections and error packets as text |
| `FieldTypes.v` | `macros/src/*` | how the derive macros classify field types |
| `DeriveAttr.v` | `macros/src/*` | the attribute of the derive macros and what is taken from it |
| `Timed.v` | `src/connection/io.rs`, `src/connection/timeout.rs` | reading packets when every byte has an arrival time |
| `Peer.v` | awaited reads in `src/connection/io.rs` | a connection and a server whose output depends on what it has received |
| `CrateTests.v` | tests in `src/types`, `src/model` | the crate's own unit tests, evaluated on the model |
| `Models.v` | `src/model/*`, `macros/src/*` | generated select / insert / update, mappings, active models |
| `TypedModel.v` | `macros/src/lib.rs`, `result_set.rs` | models with the Rust types of their fields, result sets of models, typed active models and updates |
| `ModelWire.v` | `active_model/mod.rs`, `update_model.rs` | inserts and updates of active models on a connection |
| `Flush.v` | `src/connection/io.rs` | writing packets to streams that buffer |
| `ConnData.v` | `src/connection/data.rs` | what `Connection::data()` reports |
| `ValueEq.v` | `src/types/value/mod.rs` | derived `PartialEq` of `Value`; `==` of `f32` and `f64` (std) on their bits |
| `FormatSpec.v` | `src/types/value/text.rs`, `src/types/hex.rs`, std::fmt | values written with a width, precision or alignment |
| `SerdeHex.v` | `src/types/hex.rs`, serde traits | serialized form of `Hex` |
| `DeriveNames.v` | `macros/src/lib.rs` | names of columns from (raw) identifiers |
| `Program.v` | `examples/hello_world.rs` | a whole program: connect, execute, insert, list, disconnect |
| `MigratorWire.v` | `src/migrator/migrator_inner.rs`, `model.rs`, `examples/migrations/main.rs` | opening a migrator on a connection and calling it |
| `PrimaryAddress.v` | `examples/migrations/migrations/v0_1_1.rs` | a migration that reads a result set while two prepared statements run on other connections |
| `PoolMigrator.v` | `src/migrator/migrator_inner.rs`, `examples/migrations/` | a migrator with the pool it takes its connections from, any migrations; the program of the example |
| `Shown.v` | `src/error/*.rs` | errors with all their details, as text |
| `Memory.v` | `src/connection/io.rs` | lengths of the buffer a packet is read into |
| `Features.v` | `src/connection/{auth,init,options}.rs`, `types/auth_plugin.rs` | connecting in builds without the default features |

Others:

| file | content |
|---|---|
| `Spec_*.v` | independent specifications: protocol layouts, SQL literals, server decoders, calendars, DER, documented login exchanges, histories |
| `BaseFacts.v`, `*_proofs.v` | lemmas |
| `Properties_*.v` | the property theorems, each followed by `Print Assumptions`, with examples (`Cxx_..._case`, `..._example`) that meet the hypotheses in a concrete non-trivial case |

## Per property

| id | modelled | how proved |
|---|---|---|
| C01 | `write_packet`, `read_packet_to_buf` over byte streams | induction on the chunk count; write ; read = identity |
| C02 | `write_packet` | its output satisfies a separate inductive definition of a frame sequence |
| C03 | `read_packet_to_buf` | success implies the consumed prefix is a frame sequence with the expected numbers |
| C04 | `write_packet` with a write budget | for every budget: output is a prefix of the unlimited output |
| C05 | `put_lenenc_int`, `checked_eat_lenenc_int` | case analysis and arithmetic on little-endian digits |
| C06 | slice writers and readers | list induction |
| C07 | `serialize`, `deserialize_bin` | case analysis per variant using the LE codec |
| C08 | `bin_len`, `serialize` | exact characterisation: equal iff not the zero DATE; refutation with that witness |
| C09 | `NullBitmap` | bit arithmetic, induction over set operations |
| C10 | `StmtExecuteRequest::serialize` | independent server decoder recovers the parameters |
| C11 | `send_long_data`, `as_long_data` | chunk concatenation by induction; server model accumulates chunks |
| C12, C13 | text and binary row decoding | independent row encoders; decode . encode = identity by induction on columns |
| C14 | row decoding | induction on columns |
| C15 | row decoding incl. time/date text parsers | partial: no panic outside listed column types / fractions; refutations for those |
| C16-C18 | escapers | independent lexer for literals and identifiers; induction on the string; for NO_BACKSLASH_ESCAPES exactly what happens (`Spec_NoBackslash.v`) |
| C19-C21 | `Display for Value` | independent decimal / hex literal semantics |
| C22 | `Hex` | induction |
| C23-C28 | conversions | case analysis; UTF-8 and calendar modelled in full |
| C29-C34 | packet readers | independent packet encoders |
| C35 | `handle_handshake` | refutation (error greeting, non-ASCII version, nonce length) plus the positive part; exact condition in `C35_outcome` |
| C36, C37 | `HandshakeResponse` | independent server decoder; subset refuted with witness, exact characterisation |
| C38, C39 | scrambles | for every hash function; server check as specification |
| C40 | OAEP and RSA | OAEP decode specification, modular arithmetic over Z |
| C41 | PEM/DER reader | DER encoder specification; panics refuted and characterised exactly |
| C42-C45 | `Auth.authenticate` over any transport | simulation between two runs with different passwords (C42, C43), counting (C44), every path to success (C45) |
| C46-C51 | `Conn`: connection operations over streams | server specification as framed answers; invariant "between answers / inside a result set", induction over histories |
| C52-C57 | pools and timeout as transition systems | invariants by induction over every schedule, including stale relaxed loads, drops and spurious polls |
| C58-C62 | migrator over an environment that may fail at any step | induction over the migration list; the server reads the records back from the statement texts; the names recorded as they are, exactly (C59_names_exactly); refuted for others, e.g. with backslashes |
| C63-C66 | SQL builders, column mapping, insertion of model trees | parsers of the SQL subset as specification; induction over lists and trees |
| C67 | version parsing of the greeting | exact grammar of accepted versions; MariaDB detection refuted for the `5.5.5-` prefix |
| C68, C69 | repeated runs, opening a migrator | as C58-C62; refuted for a retry on the same `Migrator` |
| C70 | `insert` of a whole model tree | induction over trees; multiset of stored values |
| C71 | every command on a transport that stops anywhere | each cut position inside an answer; invariant that nothing but the transport's error follows |
| C72 | commands after a time-out whose answer arrives late | partial: cut between packets; refuted before the first packet |
| C73 | `connect`: greeting to working connection over bytes | composition of C34, C36, C74 and the answer to the settings query; refuted for servers without DEPRECATE_EOF |
| C74 | authentication against every documented exchange | induction over the exchange; refuted for a clear password from the start |
| C75 | `connect` with the default options | instance of C73; refuted for `mysql_native_password` accounts |
| C76 | the command operations of `Conn.v` from any state, over any input | panic only right after a `fatal` packet (`Spec_Panic.v`); refuted for three kinds of packet |
| C77 | `disconnect` after any `history` | exact bytes sent and read; conditions of C46; refuted without |
| C78 | sizes of the packets of every use | at most 2^24 bytes; smaller limits refuted (`max_allowed_packet` is never consulted) |
| C79 | a use over a transport that stops accepting bytes and recovers | proved if nothing was sent; refuted for a part |
| C80 | the generated mapping on any list of columns: order, repetition, foreign columns, missing columns | proved for selected and unrelated columns; refuted for a foreign column with one of the model's names; for all columns and models the rule is `Spec_Route.v` (`C80_exactly`, `C80_missing_exactly`, `C80_readable`; `C65_exactly` for the model's own selection) |
| C81 | reading errors and fixed-size fields: what `unsafe` relies on | inversion of the readers; runs of the pool for the guards |
| C82 | `Debug` of options, data, connection | reader of string literals as specification; refuted: the password can be read back |
| C83 | `Debug` of error packets | injective; same reader |
| C84 | `TypeComplexity::from_path` | supported types as specification; refuted for paths that only end like one; `C84_exactly` for every path, with names that end alike |
| C85 | `AsyncPool` with the commands of `Connection` | pool steps interleaved with whole uses by the holder; cancelled uses not included; refuted for answers that arrive late |
| C86 | `simple_migration!` and `Migrator` on a connection | the environment of `Migrator.v` made of the connection of `Conn.v`; one connection, as nobody else uses the pool; refuted for names with backslashes |
| C87 | `parse_attr`, `derive_model_data`, `derive_active_model`, `derive_model` | attributes as `syn` parses them; refuted for repeated attributes and names, tuple indices and keys that are no identifiers |
| C88 | `Display for Version` | decimal texts as specification |
| C89 | reading packets with arrival times | partial: bound per packet and per answer, exact time-out, equality with the untimed reads; refuted for operations (the delay restarts for each header and body) |
| C90 | the command layer with a server that answers | partial: every session ends with its answers, uniquely; refuted for transports that need flushing |
| C91 | which texts are dates, times and integers | partial: exact for dates and integers; times and datetimes accept stray characters (refuted) |
| C92 | which public key the password is encrypted for | over every transport; a trace of packets is recorded beside the run |
| C93 | the generated `from_mapping_and_row` with its conversions, in result sets | exact for fields; rows partial as in C80, over the wire partial as in C47 and C12; refuted for references named like their table; `C93_rows_exactly` and its forms over the wire for all columns and names (`Spec_TypedRoute.v`) |
| C94 | `insert` of whole models, `build_query`, reading rows, against a server with tables (`Spec_Engine.v`) | partial: exact values (refuted for durations between -1 s and 0), no reference to the own table, no backquotes |
| C95 | partially set active models, `UpdateModel::update`, `primary`, `into_active_model` as an update (`Spec_Replace.v`), against the same server | partial: integer keys and the guards of C94 (refuted for the key of a referenced active model set to zero) |
| C96 | `insert` and `update` of active models run on the connection | exact; reading back partial as in C95, with the same refutation on a connection |
| C97 | `write_packet` on streams with a buffer (`Flush.v`) | exact; refuted for buffers the last piece does not fill, as nothing is flushed |
| C98 | `Serialize` and `Deserialize` for `Hex` | serde is modelled by the call on the serializer and the visitor method a deserializer answers with; JSON strings in `Spec_Serde.v` |
| C99 | several `Migrator`s running `up_to_version` | interleavings of histories in `Spec_Concurrent.v`; the server is the table of `Spec_Migrate.v` with its unique key |
| C100 | `macros/src/lib.rs` (names in the four derives) | `DeriveNames.v`: identifiers with their raw mark; `to_string`, `stringify!` and `format!` keep it, `format_ident!` drops it (crate `quote`); `Spec_RawNames.v`: the structs that cannot read their own rows; a raw `primary` attribute is left to C87 |
| C101 | `auth_plugin.rs`, `auth.rs`, `init.rs`, `options.rs` (their `cfg` attributes) | `Features.v`: a set of features as a parameter; options of a build without caching-sha2-password are those that neither force that plugin nor have a key; whether a `sleep` function is given is a flag |
| C102 | every use of a connection | no new model; `Spec_Report.v` says which outcomes given input bytes allow; a packet that is lost (out of sync, transport error) and a use that fails may leave the input anywhere |
| C103 | `auth.rs`, `init.rs`, `auth_switch_request.rs` | no new model; `Spec_Accept.v` lists the accepted exchanges: the documented ones (C74), leniently in three places |
| C104 | `auth.rs` | no new model; `Spec_Accept.v` lists the places where the server may refuse, and the error each last packet stands for |
| C105 | `text.rs`, `bin.rs`, `null_bitmap.rs`, `protocol.rs` | no new model; `Spec_RowForms.v` lists the cells taken, including those no server sends, and the types and texts on which reading breaks; `Spec_RowErrors.v` the error each of the others gives |
| C106 | `result_set.rs`, `ok.rs` | no new model; `Spec_Report.v` says exactly which packets are read as the end of a result set (also used by C102) |
| C46 (end with a text) | `result_set.rs` | as C30; a text of two to six bytes behind the warnings |
| C49 (inside a result set) | `result_set.rs`, `protocol.rs` | every error packet, both row decoders; the connection afterwards as in C46 |
| C47 (old servers) | `result_set.rs`, `ok.rs` | `Spec_OldServer.v`: result sets as servers without DEPRECATE_EOF send them |
| C107 | `result_set.rs` | `Conn.v`: `finish_into_inner` added (the mapping is a function of the columns); `Spec_One.v` says what `one` and `finish` answer for any rows; the numbers of the end as C30 has them |
| C108 | several `Migrator`s running `up_to_version` and `down_to_version` | as C99; `in_place` in `Spec_Concurrent.v` says which migrations are in place after the code executed; `one_down` and `to_version` (which go down and up with these) are not runs of their own |
| C109 | `io.rs` `decode_response`, `result_set.rs` `read`, `prepared_statement.rs` `new`, `err.rs`, `column_def.rs` | no new model; `Spec_Answer.v` says what is reported of an answer of any bytes, and which answers are considered; `Spec_AnswerCut.v` says which announcements of columns are cut off; answers that end inside a packet are in C102 |
| C110 | `examples/hello_world.rs`, `init.rs` `connect`/`disconnect`, `query.rs`, `active_model/mod.rs` | composition of C73, C46, C94, C96, C77; `unwrap` ends the program, its error is kept as data; the first statement is any text and the tables are those after it |
| C111 | `migrator_inner.rs` whole, `model.rs`, `simple_migration!`, `examples/migrations/main.rs` | composition of C46, C69, C59-C61, C86; one connection; the required steps are stated by `call_steps`, the table by `performed` with the effects of Spec_Migrate; a panic of the connection is not separated from an error (as in C86) |
| C112 | `examples/migrations/migrations/v0_1_1.rs`, `result_set.rs`, `prepared_statement.rs` | the three connections are three values, as the pool gives each to one holder (C54); what the second and third `pool.get()` give is a parameter; the order of the bytes between different connections is that of the program and is not recorded |
| C113 | `migrator_inner.rs`, `async_pool.rs`, `examples/migrations/` | one task uses the pool (C53–C55 cover several); the queue of idle connections is a list, in the order in which they were returned; waiting forever is `Panic`; a migration is any function from the pool to a result and a pool; what making the n-th connection gives is a parameter |
| C114 | `auth.rs`, `crypt.rs` | no new model; `Spec_Break.v` lists the exchanges during which logging in panics; the transport is one that does not panic itself |
| C115 | `Debug` of errors | `Spec_Shown.v` has a grammar of debug output and the tree each error stands for; texts of floats, I/O errors and boxed values are given |
| C116 | `io.rs` reading | each time the buffer is made longer: what has been received, and its new length; refuted: the maximum packet size is not checked |
| C117 | `async_pool.rs` polling | runs as in C53, with what a request saw each time it woke itself; `coherent`: a task's loads do not go back; refuted: stored wakers are never taken out |
| C118 | `io.rs`, `result_set.rs`, clean-up | as C71/C72: a time-out is the end of what has arrived, bytes read of an incomplete packet are lost; refuted: the rest of the row is read as packets |
| C119 | sending of commands and statements | as C79: a command is cut off after any number of bytes (`s_budget`); the server reads packets numbered from 0, one after the other; refuted: a command after a cut-off one, whose value is then read as a command |
| C120 | sending of statements | the server of the specification keeps long data per statement and parameter until the next execution of the statement; refuted: an execution cut off between two packets and repeated |
| C121 | escapers and display of values | the server of the specification divides a statement into strings, quoted names, words, marks and comments (backslash escapes on); refuted: strings next to each other, unquoted names without a permitted character, Control+Z, empty byte strings |
| C122 | both decoders of rows, and a query and a statement on one connection | the specification says what columns can hold and how servers write it in both forms; refuted: FLOAT columns (six digits as text), LONG_BLOB columns (text breaks) |
| C123 | `Display` of `Value` and `Hex` with format options | padding of std::fmt written out; digits of floats arbitrary; refuted for byte strings aligned to the right or with a precision, and for widths |
| C124 | `Connection::data()` after connecting and later | any transport; refuted for a forced plugin that is not the server's default; `Spec_Limit.v` says what becomes of the limit for every answer to the question for it |
| C125 | `==` of values | floats by the number their bits stand for (IEEE 754); per column exactly the same content; refuted across types (`Int(1)` and `Long(1)`) and for times written alike (a day, 24 hours) |

A property whose full statement fails on the code keeps its full statement; the
manifest then lists a `_refuted` theorem with a witness and a positive theorem (named `_partial`)
with the exact extra hypothesis.

## What is modelled and what is not

Modelled: everything under `src/` that touches bytes, SQL text, values, the protocol state, the
pools, the timeout wrapper, the migrator and the model traits; of `macros/`, the code that is
generated for queries, mappings and active models.

Simplifications, also noted at the definitions:

* `async` functions are functions; suspension points matter only in `Pool.v`, where each poll is a step.
  Dropped futures are covered by taking every prefix of a run (C04, C56, C62).
* Writes reach the peer at once (C97 is about streams that buffer) and either succeed or fail after a byte budget; reads deliver the bytes of the peer and then
  fail with a given I/O error (end of file, time-out, any other).  Nothing is reordered.  `Timed.v`
  gives every byte a time; C89 proves that nothing else changes.
* `Vec` capacities, allocation failure and buffer reuse between packets are not modelled, except
  the capacities in the buffer pool (C52).
* Errors carry their kind and data; their text, and the details dropped in `Types.v`, only in `Debug.v` and `Shown.v`.
* `TypeId`-free generic code (`FromQueryResult`, `IntoQuery`, mappings) is modelled by the shape of a
  struct: its table, simple fields, nested structs and references in declaration order.
* Floats are bit patterns; decimal parsing and printing of floats are parameters.
* SHA-1, SHA-256 and the random padding of OAEP are parameters; RSA itself is arithmetic on `Z`.
* Two build modes (`debug`) where overflow checks or `debug_assert!` make a difference.

Not modelled: TLS, socket options and DNS (in user-supplied `Stream`s),
`Debug` output other than that of options, connections and errors, wakers' internals.

## Trusted base

* The Coq 8.16.1 kernel (`coqc`; the compiled files also pass `coqchk`) and the standard library
  files imported.  No plugins beyond those of the standard distribution.
* The reading of the Rust source into Gallina (by hand), the reading of the MySQL documentation
  into `Spec_*.v`, and the behaviour of `std`, `chrono`, `crossbeam`, `num-bigint`, `btoi` as noted at the
  definitions that stand for them.
* Axioms: none of our own.  `Print Assumptions` stands under each property theorem and answers
  "Closed under the global context" for every one of them.  The standard library modules loaded
  through `ZArith`, `Lia` and the like bring the declarations `Coq.ssr.ssrunder.Under_rel.*` (seven
  constants of a sealed module) into the environment; no theorem here depends on them.

## Testing the theorems

`seeded/LOG.jsonl` lists edits of model definitions - wrong boundaries, dropped updates, swapped
arguments - made in a scratch copy.  `claim` is the property expected to break, written before the
run (except for random edits, below).  `failed` are the theorems that no longer go through, directly or because a lemma they use
fails; `checked` the files tried.  A run stops once a theorem has failed and the files of the named
properties have been tried, so `failed` need not be complete.

Entries with `"random": true` are edits chosen by a script, and are weaker evidence.  No claim was
written before the run; where one is given it was written on review (`claim_written`).  Such a run
stops at the first lemma that breaks and that a property theorem uses, `failed_lemma`.  No later
theorem was tried, so `failed` is empty unless the broken lemma is itself a property theorem.
`users_of_lemma` (at most eight, of `n_users_of_lemma`) are the property theorems that lead to that
lemma by the names occurring in the present sources.  That is inferred, not run: it can name theorems
that were added later or that would still be proved.  Earlier versions of the log gave this
list as `failed`, and as properties the edit "bears on".

A failing proof shows that the theorem was not proved again by the same script.  It does not show
that the theorem is false of the edited model: equivalent edits can break scripts too.  Such entries,
entries whose named property was the wrong one, and edits that broke no theorem carry a `note`;
`tightened` names the theorem that was added or strengthened.
