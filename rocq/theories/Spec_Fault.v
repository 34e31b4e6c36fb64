(** Specification of interrupted answers: the connection breaks, or a read times out, before the
    whole answer has arrived. *)
From Coq Require Import ZArith List.
From Verif Require Import Base Types Spec_Wire Spec_Packets Spec_Stmt Spec_Conn.
Import ListNotations.
Open Scope Z_scope.

(** [cut_after q pkts n i]: of the packets [pkts], numbered from [q], the bytes [i] hold the first
    [n] whole and a proper part of the next one, if any. *)
Definition cut_after (q : Z) (pkts : list (list Z)) (n : nat) (i : list Z) : Prop :=
  exists p more w q0 part lost q1,
    skipn n pkts = p :: more /\ framed q (firstn n pkts) w q0 /\
    frames q0 p (part ++ lost) q1 /\ lost <> [] /\ i = w ++ part.

(** How often a use asks for the next row. *)
Definition reads (u : use) : option nat :=
  match u with
  | UQuery _ k | UStmtQuery _ _ _ k => Some k
  | _ => None
  end.

(** What a use is to see of an answer of which the first [n] packets have arrived: the rows that
    have arrived, then the error of the transport. *)
Definition seen_part {A} (decode : list column -> list Z -> res error A) (lost : error) (u : use) (a : answer) (n : nat)
  : seen A :=
  match a, reads u with
  | ARows cols rows, Some k =>
    if (n <=? length cols)%nat then SFailed lost
    else SRows cols (firstn k (map (fun p => match decode cols p with
                                             | Ok a => Ok (Some a)
                                             | Err e => Err e
                                             | Panic => Panic
                                             end) (firstn (n - S (length cols)) rows) ++ repeat (Err lost) k))
  | _, _ => SFailed lost
  end.
