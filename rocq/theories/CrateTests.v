(** The crate's own unit tests, evaluated on the model: each test that does not need a server.
    That the model passes them says that it was read off the program correctly where they look. *)
From Coq Require Import String ZArith List Bool.
From Verif Require Import Base Types ValueText Hex Models Properties_Model FieldTypes DeriveAttr.
Import ListNotations.
Open Scope Z_scope.

(** [string_escape]: src/types/value/text.rs:396-419 *)
Example test_string_escape :
  string_escape (s2l "Robert'); DROP TABLE Students;--") = s2l """Robert\'); DROP TABLE Students;--""" /\
  string_escape (s2l """ or """"=""") = s2l """\"" or \""\""=\""""" /\
  string_escape (s2l "' or ''='") = s2l """\' or \'\'=\'""" /\
  string_escape (s2l "abc" ++ [0] ++ s2l "def") = s2l """abc\0def""" /\
  string_escape (s2l "abc" ++ [8] ++ s2l "def") = s2l """abc\bdef""" /\
  string_escape (s2l "abc" ++ [10] ++ s2l "def") = s2l """abc\ndef""" /\
  string_escape (s2l "abc" ++ [13] ++ s2l "def") = s2l """abc\rdef""" /\
  string_escape (s2l "abc" ++ [9] ++ s2l "def") = s2l """abc\tdef""" /\
  string_escape (s2l "abc" ++ [26] ++ s2l "def") = s2l """abc\zdef""" /\
  string_escape (s2l "abc'def") = s2l """abc\'def""" /\
  string_escape (s2l "abc""def") = s2l """abc\""def""" /\
  string_escape (s2l "abc\def") = s2l """abc\\def""".
Proof. vm_compute. repeat split. Qed.

(** [identifier_escape]: src/types/value/text.rs:421-428 *)
Example test_identifier_escape :
  identifier_escape (s2l "id") = s2l "`id`" /\
  identifier_escape (s2l "i d ") = s2l "`i d`" /\
  identifier_escape [228; 246; 252] = [96; 228; 246; 252; 96] /\
  identifier_escape (s2l "`test`") = s2l "```test```" /\
  identifier_escape ([0] ++ s2l "test" ++ [65536]) = s2l "`test`".
Proof. vm_compute. repeat split. Qed.

(** [unquoted_identifier_escape]: src/types/value/text.rs:430-439 *)
Example test_unquoted_identifier_escape :
  unquoted_identifier_escape (s2l "test id") = s2l "testid" /\
  unquoted_identifier_escape (s2l "Id0") = s2l "Id0" /\
  unquoted_identifier_escape (s2l "0$_" ++ [228; 246; 252]) = s2l "0$_" ++ [228; 246; 252] /\
  unquoted_identifier_escape (s2l "`id`") = s2l "id" /\
  unquoted_identifier_escape (s2l """id""") = s2l "id" /\
  unquoted_identifier_escape (s2l "'id'") = s2l "id" /\
  unquoted_identifier_escape (s2l "\bid") = s2l "bid".
Proof. vm_compute. repeat split. Qed.

(** [display]: src/types/value/text.rs:441-467; the printing of floats is a parameter. *)
Example test_display : forall debug f d,
  let show := value_display debug f d in
  show VNull = Some (s2l "NULL") /\
  show (VInt (-5)) = Some (s2l "-5") /\
  show (VBytes [32; 64; 123; 213]) = Some (s2l "0x20407bd5") /\
  show (VDate 2038 1 19) = Some (s2l """2038-01-19""") /\
  show (VTime false 0 4 5 8 0) = Some (s2l """04:05:08""") /\
  show (VTime false 6 4 15 18 50) = Some (s2l """148:15:18.000050""") /\
  show (VDatetime 2038 1 19 3 14 7 0) = Some (s2l """2038-01-19 03:14:07""") /\
  show (VDatetime 2038 1 19 3 14 7 50) = Some (s2l """2038-01-19 03:14:07.000050""").
Proof. intros [|] f d; vm_compute; repeat split. Qed.

(** [parse]: src/types/value/text.rs:469-491 *)
Example test_parse : forall debug,
  date_text (s2l "2038-01-19") = Ok (VDate 2038 1 19) /\
  time_text debug (s2l "04:05:08") = Ok (VTime false 0 4 5 8 0) /\
  time_text debug (s2l "148:15:18.000050") = Ok (VTime false 6 4 15 18 50) /\
  datetime_text debug (s2l "2038-01-19 03:14:07") = Ok (VDatetime 2038 1 19 3 14 7 0) /\
  datetime_text debug (s2l "2038-01-19 03:14:07.000050") = Ok (VDatetime 2038 1 19 3 14 7 50).
Proof. intros [|]; vm_compute; repeat split. Qed.

(** [to_string_and_from_str]: src/types/hex.rs:114-120 *)
Example test_hex :
  let bytes := s2l "hello hex" in
  hex_display bytes = s2l "0x68656c6c6f20686578" /\
  hex_from_str (hex_display bytes) = Ok bytes /\
  hex_try_from_hex (hex_display bytes) = Ok bytes.
Proof. vm_compute. repeat split. Qed.

(** [test_into_query]: src/model/test.rs:36-51, with the models of 13-34 *)
Example test_into_query :
  build_query (m_table map_model) (model_columns map_model) =
    s2l "select `map`.`id`, `map`.`name`, `map`.`difficulty`, `map`.`last_played` from `map`" /\
  build_query (m_table entity_model) (model_columns entity_model) =
    s2l "select `entity`.`id`, `entity`.`name`, `entity`.`heading`, `entity`.`model`, `entity`.`spawn_after`, " ++
    s2l "`entity`.`position_x`, `entity`.`position_y`, `entity`.`position_z`, " ++
    s2l "`entity.map`.`id`, `entity.map`.`name`, `entity.map`.`difficulty`, `entity.map`.`last_played` " ++
    s2l "from `entity` join `map` as `entity.map` on (`entity`.`map` = `entity.map`.`id`)".
Proof. vm_compute. repeat split. Qed.

(** The attribute of [Entity]: src/model/test.rs:15 *)
Example test_attribute :
  let attrs := [mkAttribute true (Some [(Some (s2l "table"), VStr (s2l "entity")); (Some (s2l "primary"), VStr (s2l "id"));
    (Some (s2l "auto_increment"), VStr (s2l "true"));
    (Some (s2l "ty"), VStruct (Path [(s2l "Vector3", AOther)]) [(Some (s2l "x"), None); (Some (s2l "y"), None); (Some (s2l "z"), None)])])] in
  derive_model_data attrs = Generated (s2l "entity") /\
  derive_model (fun _ => true) attrs [] [s2l "id"; s2l "name"; s2l "position"; s2l "heading"; s2l "model"; s2l "spawn_after"; s2l "map"]
    = Generated (s2l "id", true) /\
  match parse_attr attrs with Some (_, _, _, ts) => ts | None => [] end =
    [(Path [(s2l "Vector3", AOther)], [(s2l "x", s2l "x"); (s2l "y", s2l "y"); (s2l "z", s2l "z")])].
Proof. vm_compute. repeat split. Qed.
