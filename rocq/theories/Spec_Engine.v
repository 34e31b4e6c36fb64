(** A database server as far as the generated statements need one: tables with typed columns, INSERT,
    UPDATE, and SELECT with joins, in strict SQL mode and with the binary collation; and what it means that the
    tables hold a model.  Written from the MySQL reference manual; statements are read off their text
    with Spec_Model.v. *)
From Coq Require Import ZArith List Bool Permutation.
From Verif Require Import Base Types Conversion Models TypedModel Spec_Conv Spec_Model Spec_Mapping Spec_Typed.
Import ListNotations.
Open Scope Z_scope.

(** ** Columns *)

(** The kinds of columns: numbers, strings of bytes, DATE, DATETIME(6), TIME(6); not NULL but for [KNull]. *)
Inductive kind : Type :=
| KNum (p : prim)
| KBytes
| KDate
| KDatetime
| KTime
| KNull (k : kind).

(** The range of a type of integers. *)
Definition int_range (p : prim) : option (Z * Z) :=
  match p with
  | I8 => Some (- 2 ^ 7, 2 ^ 7) | I16 => Some (- 2 ^ 15, 2 ^ 15) | I32 => Some (- 2 ^ 31, 2 ^ 31) | I64 => Some (- 2 ^ 63, 2 ^ 63)
  | U8 => Some (0, 2 ^ 8) | U16 => Some (0, 2 ^ 16) | U32 => Some (0, 2 ^ 32) | U64 => Some (0, 2 ^ 64)
  | F32 | F64 => None
  end.

(** What a column keeps of a value; values out of range and of another kind are rejected. *)
Inductive keeps : kind -> value -> value -> Prop :=
| keeps_int : forall p ctor ty v n lo hi, prim_spec p ctor ty -> int_range p = Some (lo, hi) ->
    int_of v = Some n -> lo <= n < hi -> keeps (KNum p) v (ctor n)
| keeps_f32 : forall x, keeps (KNum F32) (VFloat x) (VFloat x)
| keeps_f64 : forall x, keeps (KNum F64) (VDouble x) (VDouble x)
| keeps_bytes : forall b, keeps KBytes (VBytes b) (VBytes b)
| keeps_date : forall y m d, calendar_date y m d -> 0 <= y <= 9999 -> keeps KDate (VDate y m d) (VDate y m d)
| keeps_datetime : forall y m d h mi s u, calendar_date y m d -> 0 <= y <= 9999 -> clock_time h mi s u ->
    keeps KDatetime (VDatetime y m d h mi s u) (VDatetime y m d h mi s u)
| keeps_time : forall neg d h m s u, 0 <= d -> clock_time h m s u -> d * 24 + h <= 838 -> time_micros neg d h m s u <> 0 ->
    keeps KTime (VTime neg d h m s u) (VTime neg d h m s u)
| keeps_no_time : forall neg, keeps KTime (VTime neg 0 0 0 0 0) (VTime false 0 0 0 0 0)
| keeps_null : forall k, keeps (KNull k) VNull VNull
| keeps_not_null : forall k v w, v <> VNull -> keeps k v w -> keeps (KNull k) v w.

(** ** Tables *)

(** A column: its name, its kind, and whether the server assigns its values. *)
Record column_def : Type := mkDef { d_name : str; d_kind : kind; d_auto : bool }.
Definition row : Type := list (str * value).
Record table : Type := mkTable { t_cols : list column_def; t_key : str; t_rows : list row }.
Definition tables : Type := str -> option table.

Fixpoint assoc {A} (n : str) (l : list (str * A)) : option A :=
  match l with
  | [] => None
  | (m, x) :: r => if list_eq_dec Z.eq_dec n m then Some x else assoc n r
  end.

(** One column of a new row: the value given for it; the number assigned, also instead of zero and
    NULL; NULL if nothing is given. *)
Inductive new_cell (given : list (str * value)) (id : Z) (d : column_def) : str * value -> Prop :=
| cell_given : forall v w, In (d_name d, v) given -> (d_auto d = true -> v <> VNull /\ int_of v <> Some 0) ->
    keeps (d_kind d) v w -> new_cell given id d (d_name d, w)
| cell_assigned : forall w, d_auto d = true ->
    (forall v, In (d_name d, v) given -> v = VNull \/ int_of v = Some 0) ->
    keeps (d_kind d) (VULong id) w -> new_cell given id d (d_name d, w)
| cell_default : forall w, d_auto d = false -> ~ In (d_name d) (map fst given) ->
    keeps (d_kind d) VNull w -> new_cell given id d (d_name d, w).

(** Equality of the WHERE clause: numbers by their value. *)
Definition same_value (v w : value) : Prop :=
  match int_of v, int_of w with
  | Some a, Some b => a = b
  | None, None => v = w /\ v <> VNull
  | _, _ => False
  end.

(** A row with some columns set. *)
Definition set_cells (cols : list column_def) (given : list (str * value)) (o o' : row) : Prop :=
  forall n, match assoc n given with
    | Some v => exists d w, In d cols /\ d_name d = n /\ keeps (d_kind d) v w /\ assoc n o' = Some w
    | None => assoc n o' = assoc n o
    end.

(** No two rows have the same key, and no key is NULL. *)
Definition keys_ok (key : str) (rows : list row) : Prop :=
  NoDup (map (assoc key) rows) /\ Forall (fun r => exists k, assoc key r = Some k /\ k <> VNull) rows.

(** An INSERT with its parameters: one more row, with a key of its own that is not NULL.  Where the
    row goes, and which number is assigned, is up to the server.  An UPDATE: the columns are set in all
    rows with the given value; the number is of no meaning. *)
Inductive executes : tables -> str -> list value -> tables -> Z -> Prop :=
| ex_insert : forall T text params t names tb before after r key id T',
    parse_insert text = Some (t, names, length params) -> length names = length params -> NoDup names ->
    T t = Some tb -> incl names (map d_name (t_cols tb)) ->
    Forall2 (new_cell (combine names params) id) (t_cols tb) r ->
    assoc (t_key tb) r = Some key -> key <> VNull ->
    t_rows tb = before ++ after -> (forall o, In o (t_rows tb) -> assoc (t_key tb) o <> Some key) ->
    T' t = Some (mkTable (t_cols tb) (t_key tb) (before ++ r :: after)) ->
    (forall t', t' <> t -> T' t' = T t') ->
    executes T text params T' id
| ex_update : forall T text vs k t names column tb rows id T',
    parse_update text = Some (t, names, column) -> length names = length vs -> NoDup names ->
    T t = Some tb -> incl (column :: names) (map d_name (t_cols tb)) ->
    Forall2 (fun o o' => exists c, assoc column o = Some c /\
      ((same_value c k /\ set_cells (t_cols tb) (combine names vs) o o') \/ (~ same_value c k /\ o' = o))) (t_rows tb) rows ->
    keys_ok (t_key tb) rows ->
    T' t = Some (mkTable (t_cols tb) (t_key tb) rows) -> (forall t', t' <> t -> T' t' = T t') ->
    executes T text (vs ++ [k]) T' id.

(** A server whose tables after the statements [h] are [st h]: it carries out what it says it has
    carried out, and nothing else. *)
Definition serves (db : database) (st : list statement -> tables) : Prop :=
  forall h text params,
    match db h text params with
    | Ok id => executes (st h) text params (st (h ++ [(text, params, Ok id)])) id
    | r => forall t, st (h ++ [(text, params, r)]) t = st h t
    end.

(** ** SELECT *)

Definition env : Type := list (str * row).
Definition value_in (e : env) (x : str * str) : option value :=
  match assoc (fst x) e with Some r => assoc (snd x) r | None => None end.

Definition value_eq_dec : forall v w : value, {v = w} + {v <> w}.
Proof. decide equality; try apply Z.eq_dec; try apply (list_eq_dec Z.eq_dec); apply bool_dec. Defined.

(** Equal and not NULL. *)
Definition joins_on (v w : option value) : bool :=
  match v, w with
  | Some v, Some w => if value_eq_dec v w then (if value_eq_dec v VNull then false else true) else false
  | _, _ => false
  end.

(** One more joined table: each row so far with each row of the table that fits. *)
Definition join (T : tables) (es : list env) (j : joined) : list env :=
  flat_map (fun e =>
    map (fun r => (j_alias j, r) :: e)
      (filter (fun r => joins_on (value_in e (j_left j)) (value_in ((j_alias j, r) :: e) (j_right j)))
        (match T (j_table j) with Some tb => t_rows tb | None => [] end))) es.

(** The rows of the answer to a SELECT, in any order. *)
Definition answers (T : tables) (text : str) (rows : list (list value)) : Prop :=
  exists cols t js tb es, parse_select text = Some (cols, t, js) /\ T t = Some tb /\
    Permutation (fold_left (join T) js (map (fun r => [(t, r)]) (t_rows tb))) es /\
    Forall2 (fun e vs => Forall2 (fun x v => value_in e x = Some v) cols vs) es rows.

(** ** Models in tables *)

(** The kind of column for a type. *)
Fixpoint kind_of (t : rust_type) : kind :=
  match t with
  | TyPrim p => KNum p
  | TyBool => KNum I8
  | TyString | TyBytes => KBytes
  | TyDate => KDate
  | TyDatetime => KDatetime
  | TyDuration => KTime
  | TyOption t => KNull (kind_of t)
  end.

Definition struct_columns (structs : list (str * list (str * rust_type))) : list (str * rust_type) :=
  flat_map (fun s => map (fun p => (fst s ++ [95] ++ fst p, snd p)) (snd s)) structs.

(** The tables are made for the model: the key is a simple field, there is a column for every field,
    and one like the key of the referenced model for every reference.  The columns may be more. *)
Inductive made_for (T : tables) : tmodel -> Prop :=
| made_intro : forall t p a simples structs refs tb,
    T t = Some tb -> t_key tb = p -> NoDup (map d_name (t_cols tb)) ->
    In p (map fst simples) -> (a = true -> exists q, In (p, TyPrim q) simples) ->
    NoDup (map fst simples ++ map fst (struct_columns structs) ++ map fst refs) ->
    (forall n ty, In (n, ty) simples -> exists auto, In (mkDef n (kind_of ty) auto) (t_cols tb) /\ (auto = true <-> a = true /\ n = p)) ->
    (forall n ty, In (n, ty) (struct_columns structs) -> In (mkDef n (kind_of ty) false) (t_cols tb)) ->
    Forall (fun r => made_for T (snd r) /\
      match snd r with
      | TModel _ q _ subs _ _ => forall ty, In (q, ty) subs -> In (mkDef (fst r) (kind_of ty) false) (t_cols tb)
      end) refs ->
    made_for T (TModel t p a simples structs refs).

Definition keys_differ (T : tables) : Prop := forall t tb, T t = Some tb -> keys_ok (t_key tb) (t_rows tb).

(** A row is the model [x]: its cells are read as the fields, its references are keys of rows that are
    the referenced models. *)
Inductive row_is (T : tables) : tmodel -> row -> tinstance -> Prop :=
| row_is_intro : forall t p a simples structs refs r xs ss children,
    Forall2 (fun f x => exists v, assoc (fst f) r = Some v /\ value_ok v /\ reads (snd f) v x) simples xs ->
    Forall2 (fun s l => Forall2 (fun f x => exists v, assoc (fst s ++ [95] ++ fst f) r = Some v /\ value_ok v /\ reads (snd f) v x) (snd s) l)
      structs ss ->
    Forall2 (fun f c => exists k tb r', assoc (fst f) r = Some k /\ T (m_table (untyped (snd f))) = Some tb /\
      In r' (t_rows tb) /\ assoc (t_key tb) r' = Some k /\ row_is T (snd f) r' c) refs children ->
    row_is T (TModel t p a simples structs refs) r (TInstance xs ss children).

(** The models in the table of a model. *)
Definition contents (T : tables) (m : tmodel) (l : list tinstance) : Prop :=
  exists tb rows, T (m_table (untyped m)) = Some tb /\ Permutation (t_rows tb) rows /\ Forall2 (row_is T m) rows l.

(** ** What is saved *)

(** Values that neither conversion nor column changes: whole microseconds, no duration between minus
    one second and zero. *)
Inductive exact : rust_type -> rust_value -> Prop :=
| exact_num : forall p ctor ty x, prim_spec p ctor ty -> value_ok (ctor x) -> exact (TyPrim p) (RNum x)
| exact_bool : forall b, exact TyBool (RBool b)
| exact_string : forall s b, utf8_text s b -> Z.of_nat (length b) < 2 ^ 64 -> exact TyString (RString s)
| exact_bytes : forall b, bytes_ok b -> Z.of_nat (length b) < 2 ^ 64 -> exact TyBytes (RBytes b)
| exact_date : forall d, date_valid d -> exact TyDate (RDate d)
| exact_datetime : forall d t, date_valid d -> time_valid t -> nt_nano t mod 1000 = 0 -> exact TyDatetime (RDatetime d t)
| exact_duration : forall d, duration_valid d -> total_nanos d mod 1000 = 0 ->
    ~ (-1000000000 < total_nanos d < 0) -> Z.abs (total_nanos d) < 2 ^ 32 * 86400000000000 -> exact TyDuration (RDuration d)
| exact_none : forall t, exact (TyOption t) RNone
| exact_some : forall t x, x <> RNone -> exact t x -> exact (TyOption t) (RSome x).

Inductive all_exact : tmodel -> tinstance -> Prop :=
| all_exact_intro : forall t p a simples structs refs xs ss children,
    Forall2 (fun f x => exact (snd f) x) simples xs ->
    Forall2 (fun s l => Forall2 (fun f x => exact (snd f) x) (snd s) l) structs ss ->
    Forall2 (fun f c => all_exact (snd f) c) refs children ->
    all_exact (TModel t p a simples structs refs) (TInstance xs ss children).

(** The model as it is saved: the same but for the keys the server has assigned; [id] is that of the
    model itself. *)
Inductive saved : tmodel -> tinstance -> Z -> tinstance -> Prop :=
| saved_intro : forall t p a simples structs refs xs ss children id ys children',
    length xs = length simples -> length ys = length simples ->
    (forall i n ty x y, nth_error simples i = Some (n, ty) -> nth_error xs i = Some x -> nth_error ys i = Some y ->
       y = if a && list_eqb n p then RNum id else x) ->
    saved_children refs children children' ->
    saved (TModel t p a simples structs refs) (TInstance xs ss children) id (TInstance ys ss children')
with saved_children : list (str * tmodel) -> list tinstance -> list tinstance -> Prop :=
| saved_nil : saved_children [] [] []
| saved_cons : forall f m refs x xs id y ys, saved m x id y -> saved_children refs xs ys ->
    saved_children ((f, m) :: refs) (x :: xs) (y :: ys).

(** The tables a model refers to. *)
Fixpoint referred (m : tmodel) : list str :=
  match m with
  | TModel _ _ _ _ _ refs => flat_map (fun r => match r with (_, (TModel t _ _ _ _ _ as sub)) => t :: referred sub end) refs
  end.
