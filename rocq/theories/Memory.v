(** The buffer a packet is read into, while it is read: src/connection/io.rs:46-92. *)
From Coq Require Import ZArith List Bool.
From Verif Require Import Base Types BufMut Framing.
Import ListNotations.
Open Scope Z_scope.

(** What [read_packet_to_buf] (src/connection/io.rs:72-92) does to its buffer: for each
    [dst.resize(start + chunk_len, 0)] (lines 61-62) the bytes of the input that have not been read yet,
    and the length the buffer then has. *)
Fixpoint resizes (fuel : nat) (seq : Z) (dst : bytes) (s : stream) : list (Z * Z) :=
  match fuel with
  | O => []
  | S fuel' =>
    match read_exact 4 s with
    | (Ok meta, s1) =>
      let chunk_len := read_u32 (takeZ 3 meta) in
      if chunk_len =? 0 then [] else
      (lenZ (s_in s1), lenZ dst + chunk_len) ::
      match read_chunk_to_buf dst s with
      | (Ok (dst', read_seq, last), s') =>
        if negb (seq =? read_seq) then [] else
        if last then [] else resizes fuel' ((seq + 1) mod 256) dst' s'
      | _ => []
      end
    | _ => []
    end
  end.

(** src/connection/io.rs:94-105 with an empty pooled buffer *)
Definition packet_resizes (seq : Z) (s : stream) : list (Z * Z) := resizes (S (length (s_in s))) seq [] s.
