(** Specification for C110: the exchanges of a program with the server.  Uses no function of the model. *)
From Coq Require Import String ZArith List.
From Verif Require Import Base Types Spec_Wire Spec_Packets Spec_Conn Spec_Connect Handshake.
Import ListNotations.
Open Scope Z_scope.

(** The bytes [w] of one COM_QUERY with the text [b], and the bytes [wi] of the server's answer to it. *)
Definition exchange (caps : Z) (b : list Z) (a : answer) (w wi : list Z) : Prop :=
  exists q pkts q', requests [3 :: b] w q /\ answer_packets caps a pkts /\ framed q pkts wi q'.

(** The packet limit is given in the options, or the server is asked for it. *)
Definition limit_known (given : option Z) (caps n : Z) (w wi : list Z) : Prop :=
  match given with
  | Some m => n = m /\ w = [] /\ wi = []
  | None => exists q pkts q', frames 0 (3 :: s2l "select @@max_allowed_packet") w q /\ settings_answer caps n pkts /\ framed q pkts wi q'
  end.
