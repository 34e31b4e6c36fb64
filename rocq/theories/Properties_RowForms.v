(** Property C105: exactly which packets are read as rows, and on which reading breaks. *)
From Coq Require Import String ZArith List Bool Lia.
From Verif Require Import Base BaseFacts Types ParseBuf ValueBin NullBitmap ValueText Rows
  Spec_Wire Spec_Conv Spec_Packets Spec_Stmt Spec_Text Spec_TextForms Spec_RowForms Rows_proofs RowForms_proofs.
Import ListNotations.
Open Scope Z_scope.

(** C105, text rows: a packet is read as the given values exactly if it starts with cells of the columns
    in a form that is taken, whatever follows them.  [debug]: with overflow checks. *)
Theorem C105_text_rows : forall debug f32 f64 pkt cols vs, bytes_ok pkt ->
  read_text_row debug f32 f64 pkt cols = Ok vs <->
  exists w rest, pkt = w ++ rest /\
    text_cells f32 f64 (negb debug) (map (fun c => (col_type c, has_flag (col_flags c) UNSIGNED_FLAG)) cols) vs w.
Proof.
  intros debug f32 f64 pkt cols vs Hp. unfold read_text_row. split.
  - intros H. destruct (text_values debug f32 f64 cols pkt) as [x r] eqn:E. cbn [fst] in H. subst x.
    apply text_cells_iff in E; [|exact Hp]. destruct E as (w & -> & W). now exists w, r.
  - intros (w & r & -> & W). replace (text_values debug f32 f64 cols (w ++ r)) with (@Ok protocol_error _ vs, r); [reflexivity|].
    symmetry. apply text_cells_iff; [exact Hp|]. now exists w.
Qed.

Print Assumptions C105_text_rows.

(** C105, text rows: reading breaks exactly if, behind cells that are taken, there is one of a type
    without text form or, with overflow checks, a time with more than six digits of a fraction. *)
Theorem C105_text_breaks : forall debug f32 f64 pkt cols, bytes_ok pkt ->
  read_text_row debug f32 f64 pkt cols = Panic <->
  exists before c after vs w pre l rest, cols = before ++ c :: after /\ pkt = w ++ pre ++ l ++ rest /\
    text_cells f32 f64 (negb debug) (map (fun c => (col_type c, has_flag (col_flags c) UNSIGNED_FLAG)) before) vs w /\
    loose_int (Z.of_nat (length l)) pre /\ pre <> [251] /\ text_breaks debug (col_type c) l.
Proof. intros debug f32 f64 pkt cols Hp. exact (text_row_panics debug f32 f64 cols pkt Hp). Qed.

Print Assumptions C105_text_breaks.

(** C105, binary rows: a packet is read as the given values exactly if it has a first byte, the whole
    bitmap and values of the columns not marked there, whatever follows them. *)
Theorem C105_binary_rows : forall pkt cols vs, bytes_ok pkt ->
  read_bin_row pkt cols = Ok vs <->
  exists bm w rest, bin_packet (length cols) bm (w ++ rest) pkt /\
    bin_cells bm 0 (map (fun c => (col_type c, has_flag (col_flags c) UNSIGNED_FLAG)) cols) vs w rest.
Proof.
  intros pkt cols vs Hp. destruct (bin_row_start pkt cols) as [(bm & body & P & ->) | (N & ->)].
  - assert (Hb : bytes_ok body).
    { destruct P as (x & -> & _). unfold bytes_ok in *. inversion Hp as [|? ? _ H]; subst. rewrite Forall_app in H. tauto. }
    assert (Hl : length bm = ((length cols + 9) / 8)%nat) by (destruct P as (x & _ & H); exact H).
    split.
    + intros H. destruct (bin_row_values bm 0 cols body) as [y r] eqn:E. cbn [fst] in H. subst y.
      apply (bin_cells_iff bm (length cols) cols 0 body vs r Hb ltac:(lia) Hl) in E. destruct E as (w & -> & W). now exists bm, w, r.
    + intros (bm' & w & r & P' & W). assert (E : bm' = bm /\ body = w ++ r).
      { destruct P as (x & E & L), P' as (x' & E' & L'). rewrite E in E'. injection E' as _ E'. apply app_inj_len in E'; [|congruence].
        destruct E' as [-> ->]. auto. }
      destruct E as [-> ->].
      pose proof (proj2 (bin_cells_iff bm (length cols) cols 0 (w ++ r) vs r Hb ltac:(lia) Hl) (ex_intro _ w (conj eq_refl W))) as K.
      change (Z.of_nat 0) with 0 in K. now rewrite K.
  - split; [discriminate|]. intros (bm & w & r & P & _). now apply N in P.
Qed.

Print Assumptions C105_binary_rows.

(** C105, binary rows: reading breaks exactly if, behind values that are taken, there is a column not
    marked NULL of a type without binary form. *)
Theorem C105_binary_breaks : forall pkt cols, bytes_ok pkt ->
  read_bin_row pkt cols = Panic <->
  exists bm before c after vs w rest, cols = before ++ c :: after /\ bin_packet (length cols) bm (w ++ rest) pkt /\
    bin_cells bm 0 (map (fun c => (col_type c, has_flag (col_flags c) UNSIGNED_FLAG)) before) vs w rest /\
    null_mark bm (length before) = false /\ bin_breaks (col_type c).
Proof.
  intros pkt cols Hp. destruct (bin_row_start pkt cols) as [(bm & body & P & ->) | (N & ->)].
  - assert (Hb : bytes_ok body).
    { destruct P as (x & -> & _). unfold bytes_ok in *. inversion Hp as [|? ? _ H]; subst. rewrite Forall_app in H. tauto. }
    assert (Hl : length bm = ((length cols + 9) / 8)%nat) by (destruct P as (x & _ & H); exact H).
    pose proof (bin_cells_panic bm (length cols) cols 0 body Hb ltac:(lia) Hl) as K. change (Z.of_nat 0) with 0 in K. rewrite K. split.
    + intros (before & c & after & vs & w & r & Ec & -> & W & M & B). exists bm, before, c, after, vs, w, r. auto.
    + intros (bm' & before & c & after & vs & w & r & Ec & P' & W & M & B). assert (E : bm' = bm /\ body = w ++ r).
      { destruct P as (x & E & L), P' as (x' & E' & L'). rewrite E in E'. injection E' as _ E'. apply app_inj_len in E'; [|congruence].
        destruct E' as [-> ->]. auto. }
      destruct E as [-> ->]. exists before, c, after, vs, w, r. auto.
  - split; [discriminate|]. intros (bm & before & c & after & vs & w & r & _ & P & _). now apply N in P.
Qed.

Print Assumptions C105_binary_breaks.

(** A date said to be five bytes long: the fifth is left for the next column.  A text with a plus sign,
    its length in the long form, behind a NULL.  A column of unknown type behind another one. *)
Example C105_case :
  let c t := mkColumn [] [99] [] [116] t 0 in
  read_bin_row [0; 0; 5; 232; 7; 1; 2; 9] [c CDate; c CTiny] = Ok [VDate 2024 1 2; VTiny 9] /\
  bin_cells [0] 0 [(CDate, false); (CTiny, false)] [VDate 2024 1 2; VTiny 9] [5; 232; 7; 1; 2; 9] [] /\
  read_text_row true (fun _ => None) (fun _ => None) [251; 252; 2; 0; 43; 55; 1] [c CLong; c CTiny] = Ok [VNull; VTiny 7] /\
  read_bin_row [0; 0; 9; 1] [c CTiny; c CUnknown] = Panic /\
  read_bin_row [0; 8; 9] [c CTiny; c CUnknown] = Ok [VTiny 9; VNull] /\
  read_text_row true (fun _ => None) (fun _ => None) [1; 57; 0] [c CTiny; c CLongBlob] = Panic.
Proof.
  cbn zeta. splits; try reflexivity.
  change [5; 232; 7; 1; 2; 9] with (([5] ++ wire_uint 2 2024 ++ [1; 2]) ++ wire_uint 1 9 ++ []).
  apply bc_val; [reflexivity | apply bf_date; unfold u16, u8; cbn; lia |].
  apply bc_val; [reflexivity | apply (bf_signed CTiny 1 VTiny VUTiny); [constructor | unfold half; cbn; lia] | constructor].
Qed.
