(** Specification of the pools: what exists and who holds it. *)
From Coq Require Import ZArith List Bool Arith.
From Verif Require Import Base Types Pool.
Import ListNotations.

(** The connections held by users. *)
Definition held (ts : list task) : list nat := flat_map (fun t => match t with Holding id => [id] | _ => [] end) ts.

(** Connections being established. *)
Definition establishing (ts : list task) : nat := length (filter (fun t => match t with Adding => true | _ => false end) ts).

(** All connections that exist: idle, handed out, being established. *)
Definition existing (s : sys) : nat :=
  length (ap_queue (s_pool s)) + length (held (s_tasks s)) + establishing (s_tasks s).

(** Request number [i] has loaded a number and is to be polled again at once: the number it loaded and
    the one that was there then. *)
Definition woke_itself (i : nat) (s s' : sys) : list (nat * nat) :=
  match nth_error (s_tasks s) i, nth_error (s_tasks s') i with
  | Some (Loaded _ n), Some (Idle _ true) => [(n, ap_items (s_pool s))]
  | _, _ => []
  end.

(** A run in which request number [i] is watched: what it saw each time it woke itself. *)
Inductive watched (spurious : bool) (N i : nat) : sys -> list (nat * nat) -> sys -> Prop :=
| watched_nil : forall s, watched spurious N i s [] s
| watched_step : forall s1 log s2 s3, watched spurious N i s1 log s2 -> step spurious N s2 s3 ->
    watched spurious N i s1 (log ++ woke_itself i s2 s3) s3.

(** A load does not return a number older than one the same task has seen before (coherence). *)
Fixpoint coherent (log : list (nat * nat)) : Prop :=
  match log with
  | (_, v) :: (((l, _) :: _) as r) => (v <= l)%nat /\ coherent r
  | _ => True
  end.

(** Nobody waits: every request has its connection, has failed or has been dropped. *)
Definition settled (t : task) : Prop :=
  match t with Holding _ | Failed | Gone => True | _ => False end.

(** Polls of a future one after the other. *)
Fixpoint polls {S A} (p : S -> poll A * S) (n : nat) (s : S) : poll A * S :=
  match n with
  | O => p s
  | S n' => p (snd (polls p n' s))
  end.

(** The result of poll number [n], counted from 0. *)
Definition nth_poll {S A} (p : S -> poll A * S) (n : nat) (s : S) : poll A := fst (polls p n s).

(** The future is pending until poll [n], where it yields [a]. *)
Definition ready_at {S A} (p : S -> poll A * S) (s : S) (n : nat) (a : A) : Prop :=
  nth_poll p n s = Ready a /\ forall m, (m < n)%nat -> nth_poll p m s = Pending.

(** The future is pending at polls 0 .. n. *)
Definition pending_to {S A} (p : S -> poll A * S) (s : S) (n : nat) : Prop :=
  forall m, (m <= n)%nat -> nth_poll p m s = Pending.
