(** Which kind of field a type makes: macros/src/parse.rs.

    A type is given as it is written; only paths are accepted (parse.rs:30-45).  Idents are text;
    raw identifiers and leading [::] are left out. *)
From Coq Require Import String ZArith List Bool.
From Verif Require Import Base Types.
Import ListNotations.
Open Scope Z_scope.

(** [syn::Path]: segments with their arguments (macros/src/parse.rs:5-10, 180-193).
    [AOther]: no arguments or those of [Fn(..)]; [GOther]: lifetimes, constants, types that are not paths. *)
Inductive path : Type := Path (segments : list (str * arguments))
(** macros/src/parse.rs:184-185 *)
with arguments : Type := AOther | AAngle (args : list generic)
(** macros/src/parse.rs:187 *)
with generic : Type := GOther | GType (p : path).

(** [path.segments]: macros/src/parse.rs:155, 169 *)
Definition segments (p : path) : list (str * arguments) := match p with Path s => s end.

(** [segments[i].ident]: macros/src/parse.rs:159, 174 *)
Definition idents (p : path) : list str := map fst (segments p).

(** The loop of macros/src/parse.rs:169-177 from the ends; both lists reversed. *)
Fixpoint matches_rev (a b : list str) : bool :=
  match a, b with
  | x :: a', y :: b' => if list_eqb x y then matches_rev a' b' else false
  | _, _ => true
  end.

(** macros/src/parse.rs:168-179 *)
Definition path_matches (p : path) (b : list str) : bool := matches_rev (rev (idents p)) (rev b).

(** macros/src/parse.rs:155-166 *)
Fixpoint idents_eq (a b : list str) : bool :=
  match a, b with
  | [], [] => true
  | x :: a', y :: b' => list_eqb x y && idents_eq a' b'
  | _, _ => false
  end.

(** macros/src/parse.rs:155-166 *)
Definition path_eq (a b : path) : bool := idents_eq (idents a) (idents b).

(** macros/src/parse.rs:181-195 *)
Definition get_last_arguments_path (p : path) : option path :=
  match rev (segments p) with
  | (_, AAngle [GType q]) :: _ => Some q
  | _ => None
  end.

(** macros/src/parse.rs:198-215 *)
Definition SIMPLE : list (list str) :=
  [[s2l "i8"]; [s2l "i16"]; [s2l "i32"]; [s2l "i64"]; [s2l "u8"]; [s2l "u16"]; [s2l "u32"]; [s2l "u64"];
   [s2l "f32"]; [s2l "f64"]; [s2l "bool"]; [s2l "std"; s2l "string"; s2l "String"];
   [s2l "chrono"; s2l "NaiveDate"]; [s2l "chrono"; s2l "NaiveDateTime"]; [s2l "chrono"; s2l "Duration"];
   [s2l "mysql_connector"; s2l "types"; s2l "Hex"]].

(** macros/src/parse.rs:197-232 with [option] false: the call at line 229 *)
Definition is_simple_inner (p : path) : bool :=
  if existsb (path_matches p) SIMPLE then true else
  if path_matches p [s2l "std"; s2l "vec"; s2l "Vec"] then
    match get_last_arguments_path p with
    | Some q => path_matches q [s2l "u8"]
    | None => false
    end
  else false.

(** macros/src/parse.rs:197-232 with [option] true *)
Definition is_simple (p : path) : bool :=
  if existsb (path_matches p) SIMPLE then true else
  match (if path_matches p [s2l "std"; s2l "vec"; s2l "Vec"] then get_last_arguments_path p else None) with
  | Some q => path_matches q [s2l "u8"]
  | None =>
    match (if path_matches p [s2l "std"; s2l "option"; s2l "Option"] then get_last_arguments_path p else None) with
    | Some q => is_simple_inner q
    | None => false
    end
  end.

(** macros/src/parse.rs:62-66: a type declared with [ty = ...] and its fields *)
Definition simple_struct : Type := (path * list (str * str))%type.

(** macros/src/parse.rs:145-150 *)
Inductive complexity : Type := Simple | Struct (s : simple_struct) | Complex.

(** macros/src/parse.rs:234-241 *)
Definition from_path (p : path) (types : list simple_struct) : complexity :=
  if is_simple p then Simple else
  match find (fun x => path_eq (fst x) p) types with
  | Some x => Struct x
  | None => Complex
  end.
