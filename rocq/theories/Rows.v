(** Decoding of result-set rows: src/connection/types/protocol.rs. *)
From Coq Require Import ZArith List Bool.
From Verif Require Import Base Types ParseBuf ValueBin NullBitmap ValueText.
Import ListNotations.
Open Scope Z_scope.
Open Scope parse_scope.

(** The loop of src/connection/types/protocol.rs:18-26 *)
Fixpoint text_values (debug : bool) (f32 f64 : str -> option Z) (cols : list column) : P (list value) :=
  match cols with
  | [] => pret []
  | c :: r =>
    v <- deserialize_text debug f32 f64 (col_type c) (col_flags c) ;;
    vs <- text_values debug f32 f64 r ;;
    pret (v :: vs)
  end.

(** [TextProtocol::read_result_set_row]: src/connection/types/protocol.rs:14-27 *)
Definition read_text_row (debug : bool) (f32 f64 : str -> option Z) (packet : bytes)
  (cols : list column) : res protocol_error (list value) :=
  fst (text_values debug f32 f64 cols packet).

(** The loop of src/connection/types/protocol.rs:41-51; [i] is the column index. *)
Fixpoint bin_row_values (bm : bytes) (i : Z) (cols : list column) : P (list value) :=
  match cols with
  | [] => pret []
  | c :: r =>
    match is_null false bm i with
    | None => ppanic
    | Some true =>
      vs <- bin_row_values bm (i + 1) r ;; pret (VNull :: vs)
    | Some false =>
      v <- deserialize_bin (col_type c) (col_flags c) ;;
      vs <- bin_row_values bm (i + 1) r ;;
      pret (v :: vs)
    end
  end.

(** [BinaryProtocol::read_result_set_row]: src/connection/types/protocol.rs:34-54 *)
Definition read_bin_row (packet : bytes) (cols : list column) : res protocol_error (list value) :=
  fst ((skip 1 ;;;
        bm <- nb_deserialize false (lenZ cols) ;;
        bin_row_values bm 0 cols) packet).
