(** Property C105: which error a row that cannot be read gives. *)
From Coq Require Import String ZArith List Bool Lia.
From Verif Require Import Base BaseFacts Types ParseBuf ValueBin NullBitmap ValueText Rows
  Spec_Wire Spec_Conv Spec_Packets Spec_Stmt Spec_Text Spec_TextForms Spec_RowForms Spec_RowErrors Rows_proofs RowForms_proofs RowErrors_proofs
  Properties_RowForms.
Import ListNotations.
Open Scope Z_scope.

(** C105, text rows: an error is returned exactly if, behind cells that are taken, there is one that is not
    complete or not in the form of its column; it says which text was refused, and as what. *)
Theorem C105_text_errors : forall debug f32 f64 pkt cols e, bytes_ok pkt ->
  read_text_row debug f32 f64 pkt cols = Err e <->
  exists before c after vs w r, cols = before ++ c :: after /\ pkt = w ++ r /\
    text_cells f32 f64 (negb debug) (map (fun c => (col_type c, has_flag (col_flags c) UNSIGNED_FLAG)) before) vs w /\
    cell_refused f32 f64 debug (col_type c) (has_flag (col_flags c) UNSIGNED_FLAG) r e.
Proof. intros debug f32 f64 pkt cols e Hp. exact (text_row_errors debug f32 f64 cols pkt e Hp). Qed.
Print Assumptions C105_text_errors.

(** C105, binary rows: the only error is that of a packet that ends too early. *)
Theorem C105_binary_errors : forall pkt cols e, bytes_ok pkt ->
  read_bin_row pkt cols = Err e <->
  e = ends_early /\
  (forall bm w rest vs, bin_packet (length cols) bm (w ++ rest) pkt ->
     ~ bin_cells bm 0 (map (fun c => (col_type c, has_flag (col_flags c) UNSIGNED_FLAG)) cols) vs w rest) /\
  (forall bm before c after vs w rest, cols = before ++ c :: after -> bin_packet (length cols) bm (w ++ rest) pkt ->
     bin_cells bm 0 (map (fun c => (col_type c, has_flag (col_flags c) UNSIGNED_FLAG)) before) vs w rest ->
     null_mark bm (length before) = false -> ~ bin_breaks (col_type c)).
Proof.
  intros pkt cols e Hp. pose proof (C105_binary_rows pkt cols) as R. pose proof (C105_binary_breaks pkt cols Hp) as B. split.
  - intros H. splits; [exact (bin_row_errors _ _ _ H)| |].
    + intros bm w rest vs P C. assert (X : read_bin_row pkt cols = Ok vs) by (apply R; [exact Hp|eauto]). congruence.
    + intros bm before c after vs w rest E P C M K. assert (X : read_bin_row pkt cols = Panic).
      { apply B. exists bm, before, c, after, vs, w, rest. auto. }
      congruence.
  - intros (-> & N & K). destruct (read_bin_row pkt cols) as [vs|x|] eqn:E.
    + destruct (proj1 (R vs Hp) eq_refl) as (bm & w & rest & P & C). now apply N in C.
    + f_equal. exact (bin_row_errors _ _ _ E).
    + destruct (proj1 B eq_refl) as (bm & before & c & after & vs & w & rest & X & P & C & M & Y). now apply (K bm before c after vs w rest X P C M) in Y.
Qed.
Print Assumptions C105_binary_errors.

(** A time without minutes, a date with slashes, a text that is cut off, a number with a letter. *)
Example C105_errors_case :
  let c t := mkColumn [] [99] [] [116] t 0 in
  let read cols l := read_text_row true (fun _ => None) (fun _ => None) l cols in
  let n x := Z.of_nat (String.length x) :: s2l x in
  read [c CTime] (n "12"%string) = Err ends_early /\
  read [c CTime] (n "-12:00"%string) = Err (PParse (EInvalidValue TTime (s2l "12:00"))) /\
  read [c CTiny; c CDate] (n "1"%string ++ n "2024/01/02"%string) = Err (PParse (EInvalidValue TDate (s2l "2024/01/02"))) /\
  read [c CDatetime] (n "2024-01-02 03:04:0x"%string) = Err (PParse (EInvalidValue TTime (s2l "03:04:0x"))) /\
  read [c CTiny; c CString] (n "1"%string ++ [5; 65]) = Err ends_early /\
  read [c CTiny] (n "1x"%string) = Err (PIo IoInvalidData) /\
  text_refused CTime (s2l "-12:00") (PParse (EInvalidValue TTime (s2l "12:00"))) /\
  read_bin_row [0; 0; 7] [c CTiny; c CLong] = Err ends_early.
Proof.
  cbv zeta. splits; try (vm_compute; reflexivity).
  apply (tr_time true (s2l "12:00")); [vm_compute; tauto | discriminate].
Qed.
