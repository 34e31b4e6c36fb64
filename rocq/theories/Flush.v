(** Writing packets to a stream that buffers: src/connection/io.rs:107-151.  The crate asks a
    stream for [AsyncRead + AsyncWrite] only (src/connection/mod.rs:78-85) and never calls
    [flush]. *)
From Coq Require Import ZArith List Bool.
From Verif Require Import Base Types BufMut Framing.
Import ListNotations.
Open Scope Z_scope.
Open Scope io_scope.

(** The loop of src/connection/io.rs:110-127 on any stream; [w]: [write_all] (also the
    [write_u32_le] of line 113, which writes four bytes).  [fuel] as in [write_chunks]. *)
Fixpoint write_chunks_on {S} (w : bytes -> IO S unit) (fuel : nat) (seq : Z) (b : bytes) : S -> (res error unit * Z) * S :=
  fun s =>
    match fuel with
    | O => ((Panic, seq), s)
    | S fuel' =>
      match b with
      | [] => ((Ok tt, seq), s)
      | _ =>
        let chunk_len := Z.min (lenZ b) MAX_PAYLOAD_LEN in
        match (w (frame_header chunk_len seq) ;;; w (takeZ chunk_len b)) s with
        | (Ok _, s') => write_chunks_on w fuel' ((seq + 1) mod 256) (dropZ chunk_len b) s'
        | (Err e, s') => ((Err e, seq), s')
        | (Panic, s') => ((Panic, seq), s')
        end
      end
    end.

(** src/connection/io.rs:107-139 on any stream *)
Definition write_packet_on {S} (w : bytes -> IO S unit) (seq : Z) (b : bytes) (s : S) : (res error unit * Z) * S :=
  let extra_packet := lenZ b mod MAX_PAYLOAD_LEN =? 0 in
  match write_chunks_on w (Datatypes.S (length b)) seq b s with
  | ((Ok _, seq'), s') =>
    if extra_packet then
      match w (le_bytes 4 (Z.shiftl seq' 24)) s' with
      | (Ok _, s'') => ((Ok tt, (seq' + 1) mod 256), s'')
      | (Err e, s'') => ((Err e, seq'), s'')
      | (Panic, s'') => ((Panic, seq'), s'')
      end
    else ((Ok tt, seq'), s')
  | r => r
  end.

(** A stream with a buffer in front, as a user may hand over (src/connection/mod.rs:78-85), for
    example [tokio::io::BufStream].  [bf_cap]: the capacity of the buffer, zero for none;
    [bf_buf]: what is in it; [bf_got]: what the peer has received; [bf_read]: how many of the bytes
    sent by the peer have been read. *)
Record buffered : Type := mkBuffered { bf_cap : Z; bf_buf : bytes; bf_got : bytes; bf_read : Z }.

(** [BufWriter::poll_write] of tokio under [write_all] (src/connection/io.rs:112-124): the buffer is
    passed on if the bytes do not fit, and bytes that would fill it are not buffered. *)
Definition bf_write (b : bytes) : IO buffered unit :=
  fun s =>
    let s1 := if lenZ (bf_buf s) + lenZ b >? bf_cap s
              then mkBuffered (bf_cap s) [] (bf_got s ++ bf_buf s) (bf_read s) else s in
    (Ok tt,
     if lenZ b >=? bf_cap s1 then mkBuffered (bf_cap s1) (bf_buf s1) (bf_got s1 ++ b) (bf_read s1)
     else mkBuffered (bf_cap s1) (bf_buf s1 ++ b) (bf_got s1) (bf_read s1)).

(** [read_packet] (src/connection/io.rs:94-105): [peer] gives all that the peer sends once it has
    received the argument; without more, the time-out fires. *)
Definition bf_read_packet (peer : bytes -> bytes) (seq : Z) (s : buffered) : (res error bytes * Z) * buffered :=
  let avail := dropZ (bf_read s) (peer (bf_got s)) in
  match read_packet seq (mkStream avail IoTimedOut [] None) with
  | (r, st) => (r, mkBuffered (bf_cap s) (bf_buf s) (bf_got s) (bf_read s + (lenZ avail - lenZ (s_in st))))
  end.

(** A command and the packet read after it: src/connection/io.rs:147-151 without a pending result,
    then 173-174 *)
Definition bf_exchange (peer : bytes -> bytes) (b : bytes) (s : buffered) : (res error bytes * Z) * buffered :=
  match write_packet_on bf_write 0 b s with
  | ((Ok _, seq), s') => bf_read_packet peer seq s'
  | ((Err e, seq), s') => ((Err e, seq), s')
  | ((Panic, seq), s') => ((Panic, seq), s')
  end.
