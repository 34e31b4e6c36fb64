(** Reading with time: src/connection/io.rs:46-92 with the time-outs of src/connection/timeout.rs.

    Time is an integer number of units.  Polls are prompt: a read is noticed when its last byte
    arrives and a delay when it elapses; computing takes no time. *)
From Coq Require Import ZArith List Bool.
From Verif Require Import Base Types BufMut Framing.
Import ListNotations.
Open Scope Z_scope.

(** The transport behind [dyn StreamRequirements] (src/connection/mod.rs:78-81) with time: the
    current time, the bytes to come with the time each reaches the socket, and when and how the
    transport fails after them, if ever. *)
Record timed : Type := mkTimed { t_now : Z; t_in : list (Z * Z); t_fail : option (Z * io_kind) }.

(** The bytes that have arrived by [d]; a byte cannot be read before those in front of it
    (the stream of src/connection/mod.rs:78-81). *)
Fixpoint within (d : Z) (l : list (Z * Z)) : list (Z * Z) :=
  match l with
  | [] => []
  | (b, t) :: r => if t <=? d then (b, t) :: within d r else []
  end.

(** When all of these bytes have arrived, at the earliest now: the wake-up of the read in
    src/connection/timeout.rs:33-35. *)
Definition last_time (now : Z) (l : list (Z * Z)) : Z := fold_left Z.max (map snd l) now.

(** [Timeout::new(stream.read_exact(buf), sleep, timeout).await??]: src/connection/io.rs:53, 63,
    src/connection/timeout.rs:18-41.  The read is polled before the delay; what a read that is
    given up has taken is lost. *)
Definition read_exact_timed (timeout n : Z) (s : timed) : res error bytes * timed :=
  let deadline := t_now s + timeout in
  let w := within deadline (t_in s) in
  if n <=? lenZ w then
    (Ok (map fst (takeZ n w)), mkTimed (last_time (t_now s) (takeZ n w)) (dropZ n (t_in s)) (t_fail s))
  else
    let timed_out := (Err (EProtocol (PIo IoTimedOut)), mkTimed deadline (dropZ (lenZ w) (t_in s)) (t_fail s)) in
    match t_fail s with
    | Some (t, k) =>
      if (t <=? deadline) && (lenZ w =? lenZ (t_in s))
      then (Err (EProtocol (PIo k)), mkTimed (Z.max (last_time (t_now s) w) t) [] (t_fail s))
      else timed_out
    | None => timed_out
    end.

(** src/connection/io.rs:46-70 *)
Definition read_chunk_timed (timeout : Z) (dst : bytes) (s : timed) : res error (bytes * Z * bool) * timed :=
  match read_exact_timed timeout 4 s with
  | (Ok meta, s1) =>
    let chunk_len := read_u32 (takeZ 3 meta) in
    let seq_id := nth 3 meta 0 in
    if chunk_len =? 0 then (Ok (dst, seq_id, true), s1)
    else
      match read_exact_timed timeout chunk_len s1 with
      | (Ok body, s2) => (Ok (dst ++ body, seq_id, negb (lenZ (dst ++ body) mod MAX_PAYLOAD_LEN =? 0)), s2)
      | (Err e, s2) => (Err e, s2)
      | (Panic, s2) => (Panic, s2)
      end
  | (Err e, s1) => (Err e, s1)
  | (Panic, s1) => (Panic, s1)
  end.

(** src/connection/io.rs:72-92; [fuel] as in [read_packet_to_buf] of Framing.v *)
Fixpoint read_packet_loop (timeout : Z) (fuel : nat) (seq : Z) (dst : bytes) (s : timed) : (res error bytes * Z) * timed :=
  match fuel with
  | O => ((Panic, seq), s)
  | S fuel' =>
    match read_chunk_timed timeout dst s with
    | (Err e, s') => ((Err e, seq), s')
    | (Panic, s') => ((Panic, seq), s')
    | (Ok (dst', read_seq, last), s') =>
      if negb (seq =? read_seq) then ((Err (EProtocol POutOfSync), seq), s')
      else
        let seq' := (seq + 1) mod 256 in
        if last then ((Ok dst', seq'), s') else read_packet_loop timeout fuel' seq' dst' s'
    end
  end.

(** src/connection/io.rs:94-105 *)
Definition read_packet_timed (timeout seq : Z) (s : timed) : (res error bytes * Z) * timed :=
  read_packet_loop timeout (S (length (t_in s))) seq [] s.

(** The packets of a result set, one after the other: src/connection/result_set.rs:55-62, 66-90 *)
Fixpoint read_packets_timed (timeout : Z) (k : nat) (seq : Z) (s : timed) : (res error (list bytes) * Z) * timed :=
  match k with
  | O => ((Ok [], seq), s)
  | S k' =>
    match read_packet_timed timeout seq s with
    | ((Ok p, seq'), s') =>
      match read_packets_timed timeout k' seq' s' with
      | ((Ok l, seq''), s'') => ((Ok (p :: l), seq''), s'')
      | r => r
      end
    | ((Err e, seq'), s') => ((Err e, seq'), s')
    | ((Panic, seq'), s') => ((Panic, seq'), s')
    end
  end.
