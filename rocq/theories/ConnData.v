(** What a connection tells about itself: src/connection/data.rs:22-46, src/connection/mod.rs:59-61. *)
From Coq Require Import ZArith List.
From Verif Require Import Base Types Packets Handshake Framing Conn.
Open Scope Z_scope.

(** [ConnectionData::id]: src/connection/data.rs:23-25 *)
Definition data_id (d : conn_data) : Z := d_id d.
(** [ConnectionData::is_mariadb]: src/connection/data.rs:27-29 *)
Definition data_is_mariadb (d : conn_data) : bool := d_is_mariadb d.
(** [ConnectionData::version]: src/connection/data.rs:31-33 *)
Definition data_version (d : conn_data) : Z * Z * Z := d_version d.
(** [ConnectionData::capabilities]: src/connection/data.rs:35-37 *)
Definition data_capabilities (d : conn_data) : Z := d_capabilities d.
(** [ConnectionData::auth_plugin]: src/connection/data.rs:39-41 *)
Definition data_auth_plugin (d : conn_data) : auth_plugin := d_auth_plugin d.
(** [ConnectionData::max_allowed_packet]: src/connection/data.rs:43-45 *)
Definition data_max_allowed_packet (d : conn_data) : Z := d_max_allowed_packet d.
(** [Connection::data]: src/connection/mod.rs:59-61 *)
Definition conn_data_of (c : conn) : conn_data := c_data c.
