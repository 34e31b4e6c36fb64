(** How a reader of debug output understands it: Rust string literals. *)
From Coq Require Import String ZArith List Bool.
From Verif Require Import Base Types.
Import ListNotations.
Open Scope Z_scope.

(** Where in a string literal the reader is. *)
Inductive literal_state : Type := InText | AfterSlash | AfterU | InNumber (n : Z).

Definition hex_value (c : Z) : option Z :=
  if (48 <=? c) && (c <=? 57) then Some (c - 48) else
  if (97 <=? c) && (c <=? 102) then Some (c - 87) else None.

(** The string a literal stands for, from after its opening quote, and what follows the closing one. *)
Fixpoint literal (st : literal_state) (l : list Z) : option (list Z * list Z) :=
  match l with
  | [] => None
  | c :: r =>
    let put x := match literal InText r with Some (s, rest) => Some (x :: s, rest) | None => None end in
    match st with
    | InText => if c =? 34 then Some ([], r) else if c =? 92 then literal AfterSlash r else put c
    | AfterSlash =>
      if c =? 48 then put 0 else if c =? 116 then put 9 else if c =? 114 then put 13 else if c =? 110 then put 10 else
      if c =? 92 then put 92 else if c =? 34 then put 34 else if c =? 39 then put 39 else
      if c =? 117 then literal AfterU r else None
    | AfterU => if c =? 123 then literal (InNumber 0) r else None
    | InNumber n => if c =? 125 then put n else match hex_value c with Some d => literal (InNumber (16 * n + d)) r | None => None end
    end
  end.

(** [l] starts with exactly [p]; the rest. *)
Fixpoint after (p l : list Z) : option (list Z) :=
  match p, l with
  | [], _ => Some l
  | a :: p', b :: l' => if a =? b then after p' l' else None
  | _, [] => None
  end.

(** Someone who finds options printed reads the user and the password. *)
Definition find_password (text : list Z) : option (list Z * list Z) :=
  match after (s2l "ConnectionOptions { user: """) text with
  | Some l =>
    match literal InText l with
    | Some (user, l2) =>
      match after (s2l ", password: """) l2 with
      | Some l3 => match literal InText l3 with Some (password, _) => Some (user, password) | None => None end
      | None => None
      end
    | None => None
    end
  | None => None
  end.
