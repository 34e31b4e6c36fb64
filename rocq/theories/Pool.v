(** The pools: src/pool/sync_pool.rs, async_pool.rs, pool_item.rs; and src/connection/timeout.rs.
    Each atomic action on shared memory is one step; a run is any interleaving of steps. *)
From Coq Require Import ZArith List Bool Arith.
From Verif Require Import Base Types.
Import ListNotations.

(** ** ArrayQueue (crossbeam): a bounded queue; push and pop are atomic. *)

(** [new] panics for a capacity of zero: used at src/pool/sync_pool.rs:24, src/pool/async_pool.rs:32 *)
Definition aq_new {T} (cap : nat) : res Empty_set (list T) :=
  match cap with O => Panic | S _ => Ok [] end.

(** [push]: the value comes back if the queue is full: used at src/pool/sync_pool.rs:16,
    src/pool/async_pool.rs:23 *)
Definition aq_push {T} (cap : nat) (q : list T) (x : T) : list T * option T :=
  if (length q <? cap)%nat then (q ++ [x], None) else (q, Some x).

(** [pop]: used at src/pool/sync_pool.rs:29, src/pool/async_pool.rs:78 *)
Definition aq_pop {T} (q : list T) : option T * list T :=
  match q with [] => (None, []) | x :: r => (Some x, r) end.

(** ** SyncPool of byte vectors *)

(** A [Vec<u8>]: contents and capacity (src/pool/sync_pool.rs:49-63). *)
Record buffer : Type := mkBuffer { b_data : bytes; b_cap : Z }.

(** [VecPoolCtx]: src/pool/sync_pool.rs:44-47 *)
Record pool_ctx : Type := mkCtx { size_cap : Z; init_size : Z }.

(** [BUFFER_POOL]: src/connection/mod.rs:24-27 *)
Definition buffer_ctx : pool_ctx := mkCtx (4 * 1024 * 1024) 1024.
(** src/connection/mod.rs:24 *)
Definition BUFFER_POOL_SIZE : nat := 64.

(** src/pool/sync_pool.rs:52-54; [with_capacity] may allocate more ([extra]). *)
Definition buffer_new (ctx : pool_ctx) (extra : Z) : buffer := mkBuffer [] (init_size ctx + extra).

(** [Vec::shrink_to] (standard library, implementation): the capacity becomes the larger of
    length and bound if it is above; used at src/pool/sync_pool.rs:60 *)
Definition shrink_to (bound : Z) (b : buffer) : buffer :=
  if (b_cap b >? bound)%Z then mkBuffer (b_data b) (Z.max (lenZ (b_data b)) bound) else b.

(** src/pool/sync_pool.rs:56-61 *)
Definition buffer_reset (ctx : pool_ctx) (b : buffer) : buffer :=
  shrink_to (size_cap ctx) (mkBuffer [] (b_cap b)).

(** src/pool/sync_pool.rs:28-34 *)
Definition sync_get (ctx : pool_ctx) (extra : Z) (q : list buffer) : buffer * list buffer :=
  match aq_pop q with
  | (Some b, q') => (b, q')
  | (None, q') => (buffer_new ctx extra, q')
  end.

(** src/pool/sync_pool.rs:13-17, called by src/pool/pool_item.rs:43-47 *)
Definition sync_put (ctx : pool_ctx) (cap : nat) (b : buffer) (q : list buffer) : list buffer :=
  fst (aq_push cap q (buffer_reset ctx b)).

(** What users of the pool do: take a buffer, change the one they hold in any way (its capacity
    is at least its length), give it back.  src/connection/io.rs:95, 142, query.rs:32,
    init.rs:53, 99, auth.rs:67 *)
Inductive sync_op : Type :=
| STake (extra : Z)
| SWrite (i : nat) (b : buffer)
| SGive (i : nat).

(** The pool (src/pool/sync_pool.rs:7-10) and the buffers in use. *)
Record sync_state : Type := mkSync { sp_queue : list buffer; sp_out : list buffer }.

(** Replace the i-th buffer in use, as its holder writes through [DerefMut]: src/pool/pool_item.rs:19-23. *)
Fixpoint update {T} (l : list T) (i : nat) (x : T) : list T :=
  match l, i with
  | [], _ => []
  | _ :: r, O => x :: r
  | y :: r, S i' => y :: update r i' x
  end.
(** Take away the i-th buffer in use when it is dropped: src/pool/pool_item.rs:43-47. *)
Fixpoint remove_at {T} (l : list T) (i : nat) : list T :=
  match l, i with
  | [], _ => []
  | _ :: r, O => r
  | y :: r, S i' => y :: remove_at r i'
  end.

(** One operation; the second result is the buffer obtained.  src/pool/sync_pool.rs:12-35 *)
Definition sync_step (ctx : pool_ctx) (cap : nat) (o : sync_op) (s : sync_state) : sync_state * option buffer :=
  match o with
  | STake extra =>
    let '(b, q) := sync_get ctx extra (sp_queue s) in (mkSync q (b :: sp_out s), Some b)
  | SWrite i b => (mkSync (sp_queue s) (update (sp_out s) i b), None)
  | SGive i =>
    match nth_error (sp_out s) i with
    | Some b => (mkSync (sync_put ctx cap b (sp_queue s)) (remove_at (sp_out s) i), None)
    | None => (s, None)
    end
  end.

(** ** AsyncPool *)

(** src/pool/async_pool.rs:13-18.  Connections are named by numbers; [ap_fresh] is the next name.
    [ap_lost] (attempts that failed or were abandoned) and [ap_discarded] (items [push] refused)
    only record what happened. *)
Record async_pool : Type := mkPool {
  ap_items : nat;
  ap_queue : list nat;
  ap_wakers : list nat;
  ap_fresh : nat;
  ap_lost : nat;
  ap_discarded : list nat
}.

(** src/pool/async_pool.rs:28-35 *)
Definition pool_new : async_pool := mkPool 0 [] [] 0 0 [].

(** The same with the capacity, which is the constant N: src/pool/async_pool.rs:28-35 *)
Definition pool_created (N : nat) : res Empty_set async_pool :=
  rmap (fun q => mkPool 0 q [] 0 0 []) (aq_new N).

(** A [PoolTake] (src/pool/async_pool.rs:50-54) and what became of it.  [Idle]: between polls
    without [add]; [woken]: the task will be polled again.  [Popped], [Loaded]: within [poll],
    after the pop at line 78 and the load at line 84.  [Adding]: [add] is set; the future of the
    connection attempt sees to its own waking. *)
Inductive task : Type :=
| Idle (waker_added woken : bool)
| Popped (waker_added : bool)
| Loaded (waker_added : bool) (item_count : nat)
| Adding
| Holding (id : nat)
| Failed
| Gone.

(** src/pool/async_pool.rs:39-45: a future is polled when first awaited. *)
Definition task_new : task := Idle false true.

(** What the poll of the connection attempt returns: src/pool/async_pool.rs:59 *)
Inductive attempt : Type := APending | AReady | AFailed.

(** One step of [poll] (src/pool/async_pool.rs:72-112) by the task named [me].  [seen] is what the
    relaxed load returns, [att] what the attempt returns. *)
Definition poll_step (N : nat) (me seen : nat) (att : attempt) (t : task) (p : async_pool) : task * async_pool :=
  match t with
  | Idle w true =>
    match aq_pop (ap_queue p) with
    | (Some id, q) =>
      (Holding id, mkPool (ap_items p) q (ap_wakers p) (ap_fresh p) (ap_lost p) (ap_discarded p))
    | (None, _) => (Popped w, p)
    end
  | Popped w => (Loaded w seen, p)
  | Loaded w item_count =>
    if (item_count <? N)%nat then
      if (ap_items p =? item_count)%nat then
        (Adding, mkPool (item_count + 1) (ap_queue p) (ap_wakers p) (ap_fresh p) (ap_lost p) (ap_discarded p))
      else (Idle w true, p)
    else if negb w then
      (Idle true true,
       mkPool (ap_items p) (ap_queue p) (ap_wakers p ++ [me]) (ap_fresh p) (ap_lost p) (ap_discarded p))
    else (Idle w false, p)
  | Adding =>
    match att with
    | APending => (Adding, p)
    | AReady =>
      (Holding (ap_fresh p),
       mkPool (ap_items p) (ap_queue p) (ap_wakers p) (S (ap_fresh p)) (ap_lost p) (ap_discarded p))
    | AFailed =>
      (Failed, mkPool (ap_items p) (ap_queue p) (ap_wakers p) (ap_fresh p) (S (ap_lost p)) (ap_discarded p))
    end
  | _ => (t, p)
  end.

(** src/pool/async_pool.rs:21-24 *)
Definition async_put (N : nat) (id : nat) (p : async_pool) : async_pool :=
  let '(q, back) := aq_push N (ap_queue p) id in
  mkPool (ap_items p) q (ap_wakers p) (ap_fresh p) (ap_lost p)
    (ap_discarded p ++ match back with Some x => [x] | None => [] end).

(** Dropping a future between polls or a held item: src/pool/pool_item.rs:43-47.  Within [poll]
    nothing is dropped. *)
Definition drop_step (N : nat) (t : task) (p : async_pool) : task * async_pool :=
  match t with
  | Idle _ _ => (Gone, p)
  | Adding => (Gone, mkPool (ap_items p) (ap_queue p) (ap_wakers p) (ap_fresh p) (S (ap_lost p)) (ap_discarded p))
  | Holding id => (Gone, async_put N id p)
  | _ => (t, p)
  end.

(** ** Timeout *)

(** [std::task::Poll] *)
Inductive poll (A : Type) : Type := Ready (a : A) | Pending.
Arguments Ready {A}. Arguments Pending {A}.

(** src/connection/timeout.rs:30-41, for any futures given by their poll functions. *)
Definition timeout_poll {F D A} (poll_future : F -> poll A * F) (poll_delay : D -> poll unit * D) (s : F * D)
  : poll (res io_kind A) * (F * D) :=
  let '(f, d) := s in
  match poll_future f with
  | (Ready x, f') => (Ready (Ok x), (f', d))
  | (Pending, f') =>
    match poll_delay d with
    | (Ready _, d') => (Ready (Err IoTimedOut), (f', d'))
    | (Pending, d') => (Pending, (f', d'))
    end
  end.

(** ** Runs of the connection pool *)

(** The pool (src/pool/async_pool.rs:13-48) and all requests ever made. *)
Record sys : Type := mkSys { s_pool : async_pool; s_tasks : list task }.

(** One step of some task: src/pool/async_pool.rs:72-112, pool_item.rs:43-47.  A relaxed load may
    return any earlier value; [items] only grows, so that is any smaller number.  An executor
    polls tasks that have been woken; with [spurious] it may poll others as well. *)
Inductive step (spurious : bool) (N : nat) : sys -> sys -> Prop :=
| step_get : forall p ts, step spurious N (mkSys p ts) (mkSys p (ts ++ [task_new]))
| step_poll : forall p l1 t l2 seen att t' p', (seen <= ap_items p)%nat ->
    poll_step N (length l1) seen att t p = (t', p') ->
    step spurious N (mkSys p (l1 ++ t :: l2)) (mkSys p' (l1 ++ t' :: l2))
| step_drop : forall p l1 t l2 t' p', drop_step N t p = (t', p') ->
    step spurious N (mkSys p (l1 ++ t :: l2)) (mkSys p' (l1 ++ t' :: l2))
| step_spurious : forall p l1 w l2, spurious = true ->
    step spurious N (mkSys p (l1 ++ Idle w false :: l2)) (mkSys p (l1 ++ Idle w true :: l2)).

(** Any number of steps: every interleaving of the uses of src/pool/async_pool.rs:28-112. *)
Inductive steps (spurious : bool) (N : nat) : sys -> sys -> Prop :=
| steps_nil : forall s, steps spurious N s s
| steps_cons : forall s1 s2 s3, steps spurious N s1 s2 -> step spurious N s2 s3 -> steps spurious N s1 s3.

(** src/pool/async_pool.rs:28-35 *)
Definition sys_new : sys := mkSys pool_new [].
