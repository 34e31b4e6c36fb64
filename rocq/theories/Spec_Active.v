(** What inserting and updating active models does to the models in the tables of a server
    (Spec_Engine.v).  Uses the types of the model, none of its functions. *)
From Coq Require Import ZArith List Bool.
From Verif Require Import Base Types Conversion Models TypedModel Spec_Conv Spec_Model Spec_Mapping Spec_Typed Spec_Engine.
Import ListNotations.
Open Scope Z_scope.

(** All keys, also those of the models referred to, are integers. *)
Inductive integer_keys : tmodel -> Prop :=
| integer_keys_intro : forall t p a simples structs refs,
    (forall ty, In (p, ty) simples -> exists q, ty = TyPrim q /\ int_range q <> None) ->
    Forall (fun f => integer_keys (snd f)) refs ->
    integer_keys (TModel t p a simples structs refs).

(** The key of a model. *)
Definition has_key (m : tmodel) (x : tinstance) (k : rust_value) : Prop :=
  match m, x with
  | TModel _ p _ simples _ _, TInstance xs _ _ => exists i ty, nth_error simples i = Some (p, ty) /\ nth_error xs i = Some k
  end.

(** The model with a key is in the tables. *)
Definition refers (T : tables) (m : tmodel) (k : rust_value) (c : tinstance) : Prop :=
  has_key m c k /\ exists tb r, T (m_table (untyped m)) = Some tb /\ In r (t_rows tb) /\ row_is T m r c.

(** What is set has the shape of the model and exact values; keys the server assigns are not set to
    zero; references are set to keys that are there. *)
Inductive proper (T : tables) : tmodel -> tactive -> Prop :=
| proper_intro : forall t p a simples structs refs xs ss rs,
    Forall2 (fun f o => forall x, o = Some x -> exact (snd f) x /\ (a = true -> fst f = p -> x <> RNum 0)) simples xs ->
    Forall2 (fun s o => forall l, o = Some l -> Forall2 (fun f x => exact (snd f) x) (snd s) l) structs ss ->
    Forall2 (fun f r => proper_ref T (snd f) r) refs rs ->
    proper T (TModel t p a simples structs refs) (TActive xs ss rs)
with proper_ref (T : tables) : tmodel -> tref -> Prop :=
| proper_set : forall m k c, refers T m k c -> proper_ref T m (TSet k)
| proper_insert : forall m a, proper T m a -> proper_ref T m (TInsert a)
| proper_unset : forall m, proper_ref T m TUnset.

(** A field afterwards: what is set; if nothing is, what it was; in a new row the number the server
    assigns, or nothing. *)
Definition field_becomes (old set : option rust_value) (assigned : option Z) (new : rust_value) : Prop :=
  match set, old, assigned with
  | Some x, _, _ => new = x
  | None, Some y, _ => new = y
  | None, None, Some id => new = RNum id
  | None, None, None => new = RNone
  end.
Definition struct_becomes (old set : option (list rust_value)) (parts : list (str * rust_type)) (new : list rust_value) : Prop :=
  match set, old with
  | Some l, _ => new = l
  | None, Some l => new = l
  | None, None => new = map (fun _ => RNone) parts
  end.

Definition old_simple (old : option tinstance) (i : nat) : option rust_value :=
  match old with Some (TInstance xs _ _) => nth_error xs i | None => None end.
Definition old_struct (old : option tinstance) (i : nat) : option (list rust_value) :=
  match old with Some (TInstance _ ss _) => nth_error ss i | None => None end.
Definition old_children (old : option tinstance) (n : nat) : list (option tinstance) :=
  match old with Some (TInstance _ _ cs) => map Some cs | None => repeat None n end.

(** The model after an active model has been inserted ([old] is [None]) or the model [old] has been
    updated with it; [R] are the models that keys stand for. *)
Inductive becomes (R : tmodel -> rust_value -> tinstance -> Prop) : tmodel -> option tinstance -> tactive -> Z -> tinstance -> Prop :=
| becomes_intro : forall t p a simples structs refs old gx gs gr id xs ss children,
    length gx = length simples -> length xs = length simples ->
    (forall i n ty g x, nth_error simples i = Some (n, ty) -> nth_error gx i = Some g -> nth_error xs i = Some x ->
       field_becomes (old_simple old i) g (if a && list_eqb n p then Some id else None) x) ->
    length gs = length structs -> length ss = length structs ->
    (forall i n parts g l, nth_error structs i = Some (n, parts) -> nth_error gs i = Some g -> nth_error ss i = Some l ->
       struct_becomes (old_struct old i) g parts l) ->
    ref_becomes R refs (old_children old (length refs)) gr children ->
    becomes R (TModel t p a simples structs refs) old (TActive gx gs gr) id (TInstance xs ss children)
with ref_becomes (R : tmodel -> rust_value -> tinstance -> Prop)
  : list (str * tmodel) -> list (option tinstance) -> list tref -> list tinstance -> Prop :=
| ref_none : ref_becomes R [] [] [] []
| ref_set : forall f m refs o olds k rs c cs, R m k c -> ref_becomes R refs olds rs cs ->
    ref_becomes R ((f, m) :: refs) (o :: olds) (TSet k :: rs) (c :: cs)
| ref_insert : forall f m refs o olds a id rs c cs, becomes R m None a id c -> ref_becomes R refs olds rs cs ->
    ref_becomes R ((f, m) :: refs) (o :: olds) (TInsert a :: rs) (c :: cs)
| ref_same : forall f m refs c olds rs cs, ref_becomes R refs olds rs cs ->
    ref_becomes R ((f, m) :: refs) (Some c :: olds) (TUnset :: rs) (c :: cs).
