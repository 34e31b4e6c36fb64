(** Which texts are read as dates, times and integers (C91). *)
From Coq Require Import ZArith String List Bool Lia.
From Verif Require Import Base BaseFacts Types Utf8 ParseBuf ParseBuf_proofs ValueBin ValueBin_proofs
  ValueText Rows Spec_Wire Spec_Stmt Spec_Text ValueText_proofs Escape_proofs Spec_TextForms TextForms_proofs.
Import ListNotations.
Open Scope Z_scope.

(** C91: a DATE column accepts exactly the texts YYYY-MM-DD. *)
Theorem C91_date : forall debug f32 f64 flags l v,
  text_value debug f32 f64 CDate flags l = Ok v <-> exists y m d, v = VDate y m d /\ spec_date y m d l.
Proof. intros debug f32 f64 flags l v. exact (date_iff l v). Qed.
Print Assumptions C91_date.

(** An integer column accepts exactly decimal numbers in its range; signed columns allow a sign. *)
Theorem C91_integer : forall debug f32 f64 t k i u flags l v,
  In (t, k, i, u) [(CTiny, 1%nat, VTiny, VUTiny); (CShort, 2%nat, VShort, VUShort); (CYear, 2%nat, VShort, VUShort);
    (CLong, 4%nat, VInt, VUInt); (CInt24, 4%nat, VInt, VUInt); (CLongLong, 8%nat, VLong, VULong)] ->
  (text_value debug f32 f64 t flags l = Ok v <->
   if has_flag flags UNSIGNED_FLAG then exists n, v = u n /\ n < 256 ^ Z.of_nat k /\ nat_text n l
   else exists n, v = i n /\ - (256 ^ Z.of_nat k / 2) <= n < 256 ^ Z.of_nat k / 2 /\ integer_form n l).
Proof.
  intros debug f32 f64 t k i u flags l v H.
  assert (E : text_value debug f32 f64 t flags l = int_text k i u (has_flag flags UNSIGNED_FLAG) l)
    by (cbn [In] in H; repeat destruct H as [H|H]; try contradiction; injection H as <- <- <- <-; reflexivity).
  assert (K : 2 <= 256 ^ Z.of_nat k)
    by (cbn [In] in H; repeat destruct H as [H|H]; try contradiction; injection H as <- <- <- <-; vm_compute; congruence).
  rewrite E. clear E H. unfold int_text, or_invalid_data. cbn zeta. set (m := 256 ^ Z.of_nat k) in *. clearbody m.
  assert (M : 0 < m / 2) by (apply Z.div_str_pos; lia). set (q := m / 2) in *. clearbody q.
  destruct (has_flag flags UNSIGNED_FLAG).
  - pose proof (fun n => btou_iff (m - 1) l n ltac:(lia)) as B. destruct (btou (m - 1) l) as [n|]; cbn [option_map].
    + destruct (proj1 (B n) eq_refl) as (T & L). split; [intros [= <-]; exists n; repeat split; try apply T; lia|].
      intros (n' & -> & L' & T'). assert (n = n') as -> by (destruct T as (_ & _ & <-), T' as (_ & _ & <-); reflexivity). reflexivity.
    + split; [discriminate|]. intros (n' & -> & L' & T'). assert (X : None = Some n') by (apply B; split; [exact T'|lia]). discriminate.
  - pose proof (fun n => btoi_iff (- q) (q - 1) l n ltac:(lia)) as B. destruct (btoi (- q) (q - 1) l) as [n|]; cbn [option_map].
    + destruct (proj1 (B n) eq_refl) as (L & T). split; [intros [= <-]; exists n; repeat split; try exact T; lia|].
      intros (n' & -> & L' & T'). assert (X : Some n = Some n') by (apply B; split; [lia|exact T']). injection X as ->. reflexivity.
    + split; [discriminate|]. intros (n' & -> & L' & T'). assert (X : None = Some n') by (apply B; split; [lia|exact T']). discriminate.
Qed.
Print Assumptions C91_integer.

(** A TIME column accepts exactly the texts of [time_form]; more than the documented ones. *)
Theorem C91_time_partial : forall debug f32 f64 flags l v,
  text_value debug f32 f64 CTime flags l = Ok v <-> time_form (negb debug) v l.
Proof. intros debug f32 f64 flags l v. exact (time_iff debug l v). Qed.
Print Assumptions C91_time_partial.

(** DATETIME and TIMESTAMP columns accept exactly the texts of [datetime_form]. *)
Theorem C91_datetime_partial : forall debug f32 f64 t flags l v, t = CDatetime \/ t = CTimestamp ->
  (text_value debug f32 f64 t flags l = Ok v <-> datetime_form (negb debug) v l).
Proof. intros debug f32 f64 t flags l v [->| ->]; exact (datetime_iff debug l v). Qed.
Print Assumptions C91_datetime_partial.

Lemma spec_clock_chars : forall h m s u l, spec_clock h m s u l -> Forall (fun c => digit c \/ c = 58 \/ c = 46) l.
Proof.
  intros h m s u l (a & b & c & f & -> & _ & (_ & A & _) & (_ & B & _) & (_ & C & _) & F).
  assert (D : forall x, Forall digit x -> Forall (fun c => digit c \/ c = 58 \/ c = 46) x)
    by (intros x; apply Forall_impl; auto).
  repeat (apply Forall_app; split); auto.
  destruct F as [(_ & ->)|(g & -> & _ & G & _)]; auto.
Qed.

(** A stray character after the seconds is overlooked. *)
Theorem C91_time_refuted : forall debug f32 f64 flags, exists l v,
  text_value debug f32 f64 CTime flags l = Ok v /\ ~ exists v', spec_time v' l.
Proof.
  intros. exists (s2l "04:05:08x"), (VTime false 0 4 5 8 0). split; [reflexivity|].
  intros (v' & H). inversion H as [days h m s u l _ _ _ C E1 E2|]; subst. apply spec_clock_chars in C.
  rewrite Forall_forall in C. specialize (C 120 ltac:(vm_compute; intuition)). unfold digit in C. lia.
Qed.
Print Assumptions C91_time_refuted.

(** Any character separates date and time, and an hour of 27 is read as 3. *)
Theorem C91_datetime_refuted : forall debug f32 f64 flags, exists l v,
  text_value debug f32 f64 CDatetime flags l = Ok v /\
  (~ exists y mo d h mi s u, spec_datetime y mo d h mi s u l) /\
  text_value debug f32 f64 CDatetime flags (s2l "2038-01-19 27:14:07") = Ok (VDatetime 2038 1 19 3 14 7 0).
Proof.
  intros. exists (s2l "2038-01-19X03:14:07"), (VDatetime 2038 1 19 3 14 7 0). split; [reflexivity|]. split; [|reflexivity].
  intros (y & mo & d & h & mi & s & u & a & b & E & D & _). apply spec_date_len in D.
  pose proof (at_mid a 32 b 10 D) as X. change (a ++ 32 :: b) with (a ++ [32] ++ b) in X. rewrite <- E in X.
  vm_compute in X. discriminate.
Qed.
Print Assumptions C91_datetime_refuted.

Example C91_case :
  text_value false (fun _ => None) (fun _ => None) CDate 0 (s2l "2038-01-19") = Ok (VDate 2038 1 19) /\
  spec_date 2038 1 19 (s2l "2038-01-19") /\
  (forall v, text_value false (fun _ => None) (fun _ => None) CDate 0 (s2l "2038-01-190") <> Ok v) /\
  (forall v, text_value false (fun _ => None) (fun _ => None) CDate 0 (s2l "2038/01/19") <> Ok v) /\
  (forall v, text_value false (fun _ => None) (fun _ => None) CTime 0 (s2l "04:05x08") <> Ok v) /\
  (forall v, text_value false (fun _ => None) (fun _ => None) CTime 0 (s2l "04:05:08xy") <> Ok v) /\
  time_form true (VTime true 1 3 5 8 120000) (s2l "-27:05:08.12") /\
  text_value false (fun _ => None) (fun _ => None) CTime 0 (s2l "-27:05:08.12") = Ok (VTime true 1 3 5 8 120000) /\
  text_value false (fun _ => None) (fun _ => None) CLong 0 (s2l "+7") = Ok (VInt 7) /\
  (forall v, text_value false (fun _ => None) (fun _ => None) CLong 32 (s2l "+7") <> Ok v) /\
  (forall v, text_value false (fun _ => None) (fun _ => None) CLong 0 (s2l "7.5") <> Ok v).
Proof.
  repeat match goal with |- _ /\ _ => split end; try reflexivity; try (intros v; vm_compute; discriminate).
  - apply date_inner_inv. reflexivity.
  - apply (proj1 (time_iff false _ _)). reflexivity.
Qed.
