(** Packet framing: src/connection/io.rs:46-151 over an abstract transport. *)
From Coq Require Import ZArith List Bool.
From Verif Require Import Base Types BufMut.
Import ListNotations.
Open Scope Z_scope.

(** src/connection/mod.rs:17: [MAX_PAYLOAD_LEN] *)
Definition MAX_PAYLOAD_LEN : Z := 16777215.

(** The transport behind [dyn StreamRequirements] (src/connection/mod.rs:78-81).
    [s_in]: bytes the peer will deliver; when they run out, a read fails with [s_end]
    (end of file, or the timeout of src/connection/timeout.rs, or any transport error).
    [s_out]: bytes delivered to the peer so far.
    [s_budget]: how many more bytes the transport accepts; [None] = no limit. *)
Record stream : Type := mkStream {
  s_in : bytes;
  s_end : io_kind;
  s_out : bytes;
  s_budget : option Z
}.

(** Stateful operations on the transport: [&mut self] is passed and returned
    (the async methods of src/connection/io.rs:32-177). *)
Definition IO (S A : Type) : Type := S -> res error A * S.

(** [?] on I/O operations (e.g. src/connection/io.rs:81). *)
Definition iobind {S A B} (m : IO S A) (f : A -> IO S B) : IO S B :=
  fun s => match m s with
           | (Ok a, s') => f a s'
           | (Err e, s') => (Err e, s')
           | (Panic, s') => (Panic, s')
           end.

(** [Ok(a)] (e.g. src/connection/io.rs:138). *)
Definition ioret {S A} (a : A) : IO S A := fun s => (Ok a, s).

Declare Scope io_scope.
Delimit Scope io_scope with io.
Notation "x <- m ;; k" := (iobind m (fun x => k))
  (at level 61, m at next level, right associativity) : io_scope.
Notation "m ;;; k" := (iobind m (fun _ => k))
  (at level 61, right associativity) : io_scope.
Open Scope io_scope.

(** [Timeout::new(stream.read_exact(buf)).await??]: src/connection/io.rs:53 and 63.
    On failure the bytes read so far are lost. *)
Definition read_exact (n : Z) : IO stream bytes :=
  fun s =>
    if lenZ (s_in s) <? n
    then (Err (EProtocol (PIo (s_end s))), mkStream [] (s_end s) (s_out s) (s_budget s))
    else (Ok (takeZ n (s_in s)),
          mkStream (dropZ n (s_in s)) (s_end s) (s_out s) (s_budget s)).

(** [Timeout::new(stream.write_all(b)).await??]: src/connection/io.rs:112-124.  A failing
    transport has delivered a prefix. *)
Definition write_all (b : bytes) : IO stream unit :=
  fun s =>
    match s_budget s with
    | None => (Ok tt, mkStream (s_in s) (s_end s) (s_out s ++ b) None)
    | Some n =>
      if lenZ b <=? n
      then (Ok tt, mkStream (s_in s) (s_end s) (s_out s ++ b) (Some (n - lenZ b)))
      else (Err (EProtocol (PIo IoOther)),
            mkStream (s_in s) (s_end s) (s_out s ++ takeZ n b) (Some 0))
    end.

(** src/connection/io.rs:46-70; returns the new buffer, the sequence id and "last chunk". *)
Definition read_chunk_to_buf (dst : bytes) : IO stream (bytes * Z * bool) :=
  meta <- read_exact 4 ;;
  let chunk_len := read_u32 (takeZ 3 meta) in
  let seq_id := nth 3 meta 0 in
  if chunk_len =? 0 then ioret (dst, seq_id, true)
  else
    body <- read_exact chunk_len ;;
    let dst' := dst ++ body in
    ioret (dst', seq_id, negb (lenZ dst' mod MAX_PAYLOAD_LEN =? 0)).

(** src/connection/io.rs:72-92.  [fuel] bounds the number of chunks; each chunk consumes at
    least four input bytes, so [1 + length of input] is never exhausted
    (lemma [read_packet_fuel] in Framing_proofs).  Returns buffer and sequence id; on errors
    the sequence id is that of the last accepted chunk. *)
Fixpoint read_packet_to_buf (fuel : nat) (seq : Z) (dst : bytes)
  : stream -> (res error bytes * Z) * stream :=
  fun s =>
    match fuel with
    | O => ((Panic, seq), s)
    | S fuel' =>
      match read_chunk_to_buf dst s with
      | (Err e, s') => ((Err e, seq), s')
      | (Panic, s') => ((Panic, seq), s')
      | (Ok (dst', read_seq, last), s') =>
        if negb (seq =? read_seq) then ((Err (EProtocol POutOfSync), seq), s')
        else
          let seq' := (seq + 1) mod 256 in
          if last then ((Ok dst', seq'), s')
          else read_packet_to_buf fuel' seq' dst' s'
      end
    end.

(** src/connection/io.rs:94-105 with an empty pooled buffer (src/pool/sync_pool.rs). *)
Definition read_packet (seq : Z) (s : stream) : (res error bytes * Z) * stream :=
  read_packet_to_buf (S (length (s_in s))) seq [] s.

(** [write_u32_le(chunk_len | seq << 24)]: src/connection/io.rs:113-114, 131 *)
Definition frame_header (len seq : Z) : bytes := le_bytes 4 (Z.lor len (Z.shiftl seq 24)).

(** The loop of src/connection/io.rs:110-127; structural on [fuel], which the caller sets to
    one more than the number of bytes (each round removes at least one). *)
Fixpoint write_chunks (fuel : nat) (seq : Z) (b : bytes) : stream -> (res error unit * Z) * stream :=
  fun s =>
    match fuel with
    | O => ((Panic, seq), s)
    | S fuel' =>
      match b with
      | [] => ((Ok tt, seq), s)
      | _ =>
        let chunk_len := Z.min (lenZ b) MAX_PAYLOAD_LEN in
        match (write_all (frame_header chunk_len seq) ;;; write_all (takeZ chunk_len b)) s with
        | (Ok _, s') => write_chunks fuel' ((seq + 1) mod 256) (dropZ chunk_len b) s'
        | (Err e, s') => ((Err e, seq), s')
        | (Panic, s') => ((Panic, seq), s')
        end
      end
    end.

(** src/connection/io.rs:107-139 *)
Definition write_packet (seq : Z) (b : bytes) (s : stream) : (res error unit * Z) * stream :=
  let extra_packet := lenZ b mod MAX_PAYLOAD_LEN =? 0 in
  match write_chunks (S (length b)) seq b s with
  | ((Ok _, seq'), s') =>
    if extra_packet then
      match write_all (le_bytes 4 (Z.shiftl seq' 24)) s' with
      | (Ok _, s'') => ((Ok tt, (seq' + 1) mod 256), s'')
      | (Err e, s'') => ((Err e, seq'), s'')
      | (Panic, s'') => ((Panic, seq'), s'')
      end
    else ((Ok tt, seq'), s')
  | r => r
  end.
