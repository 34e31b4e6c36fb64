(** What a format specification asks for (documentation of std::fmt): a text is put into a field of a
    given width, filled up on the sides the alignment says.  Independent of the model's functions. *)
From Coq Require Import ZArith List Bool.
From Verif Require Import Types Spec_Wire Spec_Stmt Spec_Text.
Import ListNotations.
Open Scope Z_scope.

(** The sides that are filled. *)
Inductive side : Type := Before | Around | After.

(** [placed fill s w t out]: [t] in a field of [w] characters; [out] is [t] if it is not shorter. *)
Definition placed (fill : Z) (s : side) (w : nat) (t out : list Z) : Prop :=
  exists before after, out = repeat fill before ++ t ++ repeat fill after /\
    (before + after = w - length t)%nat /\
    match s with Before => after = O | After => before = O | Around => (before <= after <= S before)%nat end.

(** A sign for a number: the minus sign for negative numbers, otherwise none or, if asked for, a plus. *)
Definition sign_of (plus : bool) (n : Z) : list Z :=
  if n <? 0 then [45] else if plus then [43] else [].

(** [with_zeros w sign s out]: zeros between the sign and the digits fill up the width. *)
Definition with_zeros (w : nat) (sign s out : list Z) : Prop :=
  exists zeros, out = sign ++ repeat 48 zeros ++ s /\ (zeros = w - (length sign + length s))%nat.

(** What a client or server makes of a number: spaces around it do not matter, a sign, digits. *)
Inductive reads_number : list Z -> Z -> Prop :=
| rn_plain : forall l, l <> [] -> Forall digit l -> reads_number l (dec_val l)
| rn_plus : forall l, l <> [] -> Forall digit l -> reads_number (43 :: l) (dec_val l)
| rn_minus : forall l, l <> [] -> Forall digit l -> reads_number (45 :: l) (- dec_val l)
| rn_before : forall l n, reads_number l n -> reads_number (32 :: l) n
| rn_after : forall l n, reads_number l n -> reads_number (l ++ [32]) n.
