(** Specification of a server that answers: it sends the answer to a request when it has received
    the request completely. *)
From Coq Require Import ZArith List.
From Verif Require Import Base Types Spec_Wire Spec_Packets Spec_Stmt Spec_Conn.
Import ListNotations.
Open Scope Z_scope.

(** [peer r]: everything the server sends if it receives [r].  Having received [r] and sent [s], the
    server answers the uses [h], each as soon as its request is complete. *)
Inductive served {A} (decode : list column -> list Z -> res error A) (caps : Z) (packets : use -> list (list Z))
  (peer : list Z -> list Z) : list Z -> list Z -> list (use * seen A) -> Prop :=
| served_end : forall r s, served decode caps packets peer r s []
| served_use : forall r s u a y w q pkts wi q' h,
    use_ok u -> requests (packets u) w q ->
    answer_packets caps a pkts -> framed q pkts wi q' -> expected decode u a y ->
    peer (r ++ w) = s ++ wi -> served decode caps packets peer (r ++ w) (s ++ wi) h ->
    served decode caps packets peer r s ((u, y) :: h).
