(** Proofs about debug output. *)
From Coq Require Import String ZArith List Bool Lia.
From Verif Require Import Base BaseFacts Types Utf8 ValueText Crypt Handshake Debug Spec_Debug Spec_Text Spec_Conv Spec_Packets ParseBuf Packets ParseBuf_proofs Conversion_proofs Packets_proofs Escape_proofs.
Import ListNotations.
Open Scope Z_scope.

Lemma hex_value_digit : forall d, 0 <= d < 16 -> hex_value (hex_digit d) = Some d /\ hex_digit d <> 125.
Proof.
  intros d H. assert (E : In d [0;1;2;3;4;5;6;7;8;9;10;11;12;13;14;15]) by (cbn [In]; lia).
  cbn [In] in E. repeat (destruct E as [<-|E]; [split; [reflexivity|discriminate]|]). destruct E.
Qed.

Lemma literal_digits : forall f n m r, 0 <= n < 16 ^ Z.of_nat f -> 0 <= m ->
  exists k, literal (InNumber m) (unicode_digits f n ++ r) = literal (InNumber (m * 16 ^ Z.of_nat k + n)) r.
Proof.
  induction f as [|f IH]; intros n m r Hn Hm; cbn [unicode_digits].
  - exists 0%nat. cbn [app]. change (Z.of_nat 0) with 0 in *. replace (m * 16 ^ 0 + n) with m by (change (16 ^ 0) with 1 in *; lia). reflexivity.
  - destruct (Z.ltb_spec n 16) as [L|L].
    + exists 1%nat. destruct (hex_value_digit n ltac:(lia)) as (E1 & E2). cbn [app literal].
      replace (hex_digit n =? 125) with false by (symmetry; now apply Z.eqb_neq). rewrite E1. do 2 f_equal. change (16 ^ Z.of_nat 1) with 16. lia.
    + assert (Hq : 0 <= n / 16 < 16 ^ Z.of_nat f).
      { rewrite Nat2Z.inj_succ, Z.pow_succ_r in Hn by lia. split; [apply Z.div_pos; lia|]. apply Z.div_lt_upper_bound; lia. }
      rewrite <- app_assoc. destruct (IH (n / 16) m (([hex_digit (n mod 16)] ++ r)) Hq Hm) as (k & ->).
      exists (S k). pose proof (Z.mod_pos_bound n 16 ltac:(lia)) as Hr.
      destruct (hex_value_digit (n mod 16) Hr) as (E1 & E2). cbn [app literal].
      replace (hex_digit (n mod 16) =? 125) with false by (symmetry; now apply Z.eqb_neq). rewrite E1. do 2 f_equal.
      rewrite Nat2Z.inj_succ, Z.pow_succ_r by lia. pose proof (Z.div_mod n 16 ltac:(lia)). nia.
Qed.

Lemma literal_char : forall printable c r, 0 <= c < 16 ^ 6 ->
  literal InText (escape_char printable c ++ r) =
  match literal InText r with Some (s, rest) => Some (c :: s, rest) | None => None end.
Proof.
  intros printable c r Hc. unfold escape_char.
  destruct (Z.eqb_spec c 0) as [->|N0]; [reflexivity|].
  destruct (Z.eqb_spec c 9) as [->|N1]; [reflexivity|].
  destruct (Z.eqb_spec c 13) as [->|N2]; [reflexivity|].
  destruct (Z.eqb_spec c 10) as [->|N3]; [reflexivity|].
  destruct (Z.eqb_spec c 92) as [->|N4]; [reflexivity|].
  destruct (Z.eqb_spec c 34) as [->|N5]; [reflexivity|].
  destruct (printable c).
  - cbn [app literal]. apply Z.eqb_neq in N5, N4. now rewrite N5, N4.
  - rewrite <- !app_assoc. destruct (literal_digits 6 c 0 ([125] ++ r) Hc ltac:(lia)) as (k & E).
    change ([92; 117; 123] ++ unicode_digits 6 c ++ [125] ++ r) with (92 :: 117 :: 123 :: (unicode_digits 6 c ++ [125] ++ r)).
    transitivity (literal (InNumber 0) (unicode_digits 6 c ++ [125] ++ r)); [reflexivity|]. rewrite E.
    cbn [app literal]. change (125 =? 125) with true. cbv match. replace (0 * 16 ^ Z.of_nat k + c) with c by lia. reflexivity.
Qed.

Lemma literal_str : forall printable s r, str_ok s ->
  exists l, debug_str printable s ++ r = 34 :: l /\ literal InText l = Some (s, r).
Proof.
  intros printable s r Hs. exists (flat_map (escape_char printable) s ++ [34] ++ r). split.
  - unfold debug_str. cbn [app]. now rewrite <- app_assoc.
  - induction s as [|c s IH]; [reflexivity|]. inversion Hs as [|? ? Hc Hs']; subst. cbn [flat_map]. rewrite <- app_assoc, literal_char.
    + now rewrite IH.
    + unfold scalar_ok in Hc. change (16 ^ 6) with 16777216. lia.
Qed.

(** ** The password *)

Lemma options_text : forall printable connection timeout key o,
  exists rest, debug_options printable connection timeout key o =
    s2l "ConnectionOptions { user: " ++ debug_str printable (o_user o) ++ s2l ", password: " ++ debug_str printable (o_password o) ++ rest.
Proof.
  intros. unfold debug_options, debug_struct. cbn [debug_fields]. eexists. rewrite <- !app_assoc.
  change (s2l "ConnectionOptions { user: ") with (s2l "ConnectionOptions" ++ s2l " { " ++ s2l "user" ++ s2l ": ").
  change (s2l ", password: ") with (s2l ", " ++ s2l "password" ++ s2l ": "). rewrite <- !app_assoc. reflexivity.
Qed.

Lemma after_app : forall p l, after p (p ++ l) = Some l.
Proof. induction p as [|a p IH]; intros l; cbn [app after]; [reflexivity|]. now rewrite Z.eqb_refl. Qed.

Lemma password_found : forall printable connection timeout key o, str_ok (o_user o) -> str_ok (o_password o) ->
  find_password (debug_options printable connection timeout key o) = Some (o_user o, o_password o).
Proof.
  intros printable connection timeout key o Hu Hp. destruct (options_text printable connection timeout key o) as (rest & ->).
  destruct (literal_str printable (o_password o) rest Hp) as (l3 & E3 & R3).
  destruct (literal_str printable (o_user o) (s2l ", password: " ++ 34 :: l3) Hu) as (l1 & E1 & R1).
  rewrite E3, E1. unfold find_password.
  change (s2l "ConnectionOptions { user: " ++ 34 :: l1) with (s2l "ConnectionOptions { user: """ ++ l1).
  rewrite after_app, R1.
  change (s2l ", password: " ++ 34 :: l3) with (s2l ", password: """ ++ l3). rewrite after_app, R3. reflexivity.
Qed.

Lemma connection_text : forall printable connection timeout key caps seq d o,
  exists before behind, debug_connection printable connection timeout key caps seq d o =
    before ++ debug_options printable connection timeout key o ++ behind.
Proof.
  intros. unfold debug_connection, debug_struct. cbn [debug_fields].
  exists (s2l "Connection" ++ s2l " { " ++ s2l "seq_id" ++ s2l ": " ++ dec seq ++ s2l ", " ++ s2l "data" ++ s2l ": " ++ debug_data caps key d
    ++ s2l ", " ++ s2l "options" ++ s2l ": "), (s2l " }").
  rewrite <- !app_assoc. reflexivity.
Qed.

(** ** Server errors *)

Lemma split_digits : forall a b c d x y, Forall digit a -> Forall digit b -> ~ digit c -> ~ digit d ->
  a ++ c :: x = b ++ d :: y -> a = b /\ c :: x = d :: y.
Proof.
  induction a as [|e a IH]; intros [|f b] c d x y Ha Hb Hc Hd E; cbn [app] in E.
  - auto.
  - inversion Hb; subst. injection E as -> _. contradiction.
  - inversion Ha; subst. injection E as -> _. contradiction.
  - inversion Ha; subst. inversion Hb; subst. injection E as -> E. destruct (IH b c d x y) as (-> & E2); auto.
Qed.

Lemma dec_split : forall n m c d x y, 0 <= n -> 0 <= m -> ~ digit c -> ~ digit d ->
  dec n ++ c :: x = dec m ++ d :: y -> n = m /\ c :: x = d :: y.
Proof.
  intros n m c d x y Hn Hm Hc Hd E. destruct (dec_nat n Hn) as (_ & Dn & Vn). destruct (dec_nat m Hm) as (_ & Dm & Vm).
  apply split_digits in E as (E1 & E2); try assumption. split; [|exact E2]. rewrite <- Vn, <- Vm. now rewrite E1.
Qed.

Lemma dec_cut : forall n m x y, 0 <= n -> 0 <= m -> (exists c r, x = c :: r /\ ~ digit c) -> (exists c r, y = c :: r /\ ~ digit c) ->
  dec n ++ x = dec m ++ y -> n = m /\ x = y.
Proof. intros n m x y Hn Hm (c & r & -> & C) (d & t & -> & D) E. apply dec_split in E; auto. Qed.

Lemma str_split : forall printable s t x y, str_ok s -> str_ok t ->
  debug_str printable s ++ x = debug_str printable t ++ y -> s = t /\ x = y.
Proof.
  intros printable s t x y Hs Ht E. destruct (literal_str printable s x Hs) as (l1 & E1 & R1).
  destruct (literal_str printable t y Ht) as (l2 & E2 & R2). rewrite E1, E2 in E. injection E as ->.
  rewrite R1 in R2. injection R2 as -> ->. auto.
Qed.

Lemma items_split : forall l1 l2, Forall (fun n => 0 <= n) l1 -> Forall (fun n => 0 <= n) l2 ->
  debug_items (map dec l1) ++ s2l "]" ++ s2l " }" = debug_items (map dec l2) ++ s2l "]" ++ s2l " }" -> l1 = l2.
Proof.
  assert (C : ~ digit 44) by (unfold digit; lia). assert (B : ~ digit 93) by (unfold digit; lia).
  assert (H0 : forall n l x, 0 <= n -> debug_items (map dec (n :: l)) ++ x =
    dec n ++ match l with [] => x | _ => 44 :: 32 :: debug_items (map dec l) ++ x end).
  { intros n [|m l] x _; cbn [map debug_items]; [reflexivity|]. rewrite <- !app_assoc. reflexivity. }
  assert (H1 : forall n, 0 <= n -> exists c r, dec n = c :: r /\ digit c).
  { intros n Hn. destruct (dec_nat n Hn) as (D & F & _). destruct (dec n) as [|c r]; [contradiction|]. inversion F; subst. eauto. }
  induction l1 as [|n l1 IH]; intros [|m l2] F1 F2 E.
  - reflexivity.
  - inversion F2 as [|? ? G _]; subst. rewrite H0 in E by exact G. destruct (H1 m G) as (c & r & E1 & D1). rewrite E1 in E.
    injection E as E _. subst c. contradiction.
  - inversion F1 as [|? ? G _]; subst. rewrite H0 in E by exact G. destruct (H1 n G) as (c & r & E1 & D1). rewrite E1 in E.
    injection E as E _. subst c. contradiction.
  - inversion F1 as [|? ? G1 G2]; subst. inversion F2 as [|? ? G3 G4]; subst. rewrite !H0 in E by assumption.
    destruct l1 as [|n1 l1]; destruct l2 as [|m1 l2].
    + apply dec_split in E as (-> & _); auto.
    + apply (dec_split n m 93 44) in E as (_ & E); auto. discriminate.
    + apply (dec_split n m 44 93) in E as (_ & E); auto. discriminate.
    + apply dec_split in E as (-> & E); auto. injection E as E. f_equal. apply IH; assumption.
Qed.

(** What the fields of an error packet can hold (C81 for the state). *)
Definition err_ok (e : err_packet) : Prop :=
  match e with
  | ErrError code state message => 0 <= code /\ str_ok message /\
      match state with Some s => exists t, str_ok t /\ utf8_encode t = s | None => True end
  | ErrProgress a b c info => 0 <= a /\ 0 <= b /\ 0 <= c /\ Forall (fun n => 0 <= n) info
  end.

Ltac comma := eexists _, _; split; [reflexivity|intros D; vm_compute in D; destruct D as [D _]; now apply D].

Lemma err_text_inj : forall printable e f, err_ok e -> err_ok f -> debug_err printable e = debug_err printable f -> e = f.
Proof.
  assert (C : ~ digit 44) by (unfold digit; lia).
  intros printable [c1 s1 m1|a1 b1 p1 i1] [c2 s2 m2|a2 b2 p2 i2] H1 H2 E; unfold debug_err, debug_struct in E; cbn [app debug_fields] in E.
  - cbn [err_ok] in H1, H2. destruct H1 as (C1 & M1 & S1), H2 as (C2 & M2 & S2).
    destruct s1 as [s1|]; destruct s2 as [s2|]; cbn [app debug_fields] in E; rewrite <- !app_assoc in E;
      do 4 apply app_inv_head in E.
    + destruct S1 as (t1 & O1 & <-), S2 as (t2 & O2 & <-). rewrite !utf8_roundtrip in E by assumption.
      apply dec_cut in E as (-> & E); auto; [|comma|comma]. do 3 apply app_inv_head in E.
      apply str_split in E as (-> & E); auto. do 3 apply app_inv_head in E. apply str_split in E as (-> & _); auto.
    + apply dec_cut in E as (_ & E); auto; [|comma|comma]. discriminate.
    + apply dec_cut in E as (_ & E); auto; [|comma|comma]. discriminate.
    + apply dec_cut in E as (-> & E); auto; [|comma|comma]. do 3 apply app_inv_head in E. apply str_split in E as (-> & _); auto.
  - discriminate.
  - discriminate.
  - cbn [err_ok] in H1, H2. destruct H1 as (A1 & B1 & P1 & I1), H2 as (A2 & B2 & P2 & I2). rewrite <- !app_assoc in E.
    do 4 apply app_inv_head in E.
    apply dec_cut in E as (-> & E); auto; [|comma|comma]. do 3 apply app_inv_head in E.
    apply dec_cut in E as (-> & E); auto; [|comma|comma]. do 3 apply app_inv_head in E.
    apply dec_cut in E as (-> & E); auto; [|comma|comma]. do 4 apply app_inv_head in E.
    apply items_split in E as ->; auto.
Qed.

Lemma parts_ok : forall n l, bytes_ok l -> bytes_ok (takeZ n l) /\ bytes_ok (dropZ n l).
Proof. intros n l H. rewrite <- (take_drop _ n l) in H. unfold bytes_ok in *. now apply Forall_app in H. Qed.

Lemma lenenc_int_rest : forall b n b', checked_eat_lenenc_int b = (Ok n, b') -> bytes_ok b -> bytes_ok b'.
Proof.
  intros b n b' E Hb. apply pbind_inv in E as (x & b1 & E1 & E). apply checked_eat_uint_inv in E1 as (_ & _ & B1); [|exact Hb].
  destruct (x <=? 250); [injection E as _ <-; exact B1|].
  destruct (x =? 252); [apply checked_eat_uint_inv in E; [tauto|exact B1]|].
  destruct (x =? 253); [apply checked_eat_uint_inv in E; [tauto|exact B1]|].
  destruct (x =? 254); [apply checked_eat_uint_inv in E; [tauto|exact B1]|].
  injection E as _ <-. exact B1.
Qed.

Lemma read_err_fields : forall p caps e, bytes_ok p -> read_err p caps = Ok e -> err_ok e.
Proof.
  intros p caps [code state message|a b c info] Hp H.
  - apply read_err_inv in H; [|exact Hp]. cbn [err_ok]. inversion H as [? ? ? ? ? ? C ? ? T M|? ? ? ? C ? M|]; subst.
    + apply utf8_text_iff in T, M. splits; [lia|tauto|eauto].
    + apply utf8_text_iff in M. splits; [lia|tauto|exact I].
  - unfold read_err in H. destruct (read_err_p caps p) as [r rest] eqn:E. cbn [fst] in H. subst r.
    apply pbind_inv in E as (u & b1 & E1 & E). unfold check_len in E1. destruct (lenZ p <? 3); [discriminate|]. injection E1 as <- <-.
    apply pbind_inv in E as (h & b2 & E1 & E). apply eat_uint_inv in E1 as (_ & _ & B2); [|exact Hp].
    destruct (negb (h =? 255)); [discriminate|].
    apply pbind_inv in E as (cd & b3 & E1 & E). apply eat_uint_inv in E1 as (_ & _ & B3); [|exact B2].
    destruct ((cd =? 65535) && has_flag caps CAP_PROGRESS_OBSOLETE).
    + unfold progress_packet in E. apply pbind_inv in E as (u2 & b4 & E1 & E). unfold check_len in E1.
      destruct (lenZ b3 <? 6); [discriminate|]. injection E1 as <- <-.
      apply pbind_inv in E as (u3 & b5 & E1 & E). unfold skip in E1. injection E1 as <- <-.
      assert (B5 : bytes_ok (dropZ (Z.min 1 (lenZ b3)) b3)) by (now apply parts_ok).
      apply pbind_inv in E as (x1 & b6 & E1 & E). apply eat_uint_inv in E1 as (_ & R1 & B6); [|exact B5].
      apply pbind_inv in E as (x2 & b7 & E1 & E). apply eat_uint_inv in E1 as (_ & R2 & B7); [|exact B6].
      apply pbind_inv in E as (x3 & b8 & E1 & E). apply eat_uint_inv in E1 as (_ & R3 & B8); [|exact B7].
      apply pbind_inv in E as (x4 & b9 & E1 & E). unfold pret in E. injection E as -> -> -> -> _. cbn [err_ok]. splits; try lia.
      apply pbind_inv in E1 as (n & b10 & E1 & E2). apply lenenc_int_rest in E1; [|exact B8].
      unfold checked_eat, eat in E2. destruct (lenZ b10 >=? n); [|discriminate]. destruct (lenZ b10 <? n); [discriminate|].
      injection E2 as <- _. destruct (parts_ok n b10 E1) as (H & _). eapply Forall_impl; [|exact H].
      unfold byte_ok. intros. lia.
    + exfalso. unfold error_packet in E. apply pbind_inv in E as (? & ? & _ & E). apply pbind_inv in E as (? & ? & _ & E).
      apply pbind_inv in E as (? & ? & _ & E). discriminate.
Qed.

Lemma err_literal : forall printable code state message, str_ok message -> str_ok state -> 0 <= code ->
  exists c s m, debug_err printable (ErrError code (Some (utf8_encode state)) message) =
    s2l "ErrorPacket { code: " ++ c ++ s2l ", state: """ ++ s ++ s2l ", message: """ ++ m /\
    nat_text code c /\
    literal InText (s ++ s2l ", message: """ ++ m) = Some (state, s2l ", message: """ ++ m) /\
    literal InText m = Some (message, s2l " }").
Proof.
  intros printable code state message Hm Hs Hc.
  exists (dec code), (flat_map (escape_char printable) state ++ [34]), (flat_map (escape_char printable) message ++ [34] ++ s2l " }").
  splits.
  - unfold debug_err. rewrite utf8_roundtrip by exact Hs. unfold debug_struct. cbn [app debug_fields].
    change (s2l "ErrorPacket { code: ") with (s2l "ErrorPacket" ++ s2l " { " ++ s2l "code" ++ s2l ": ").
    change (s2l ", state: """) with (s2l ", " ++ s2l "state" ++ s2l ": " ++ [34]).
    change (s2l ", message: """) with (s2l ", " ++ s2l "message" ++ s2l ": " ++ [34]).
    unfold debug_str. rewrite <- !app_assoc. reflexivity.
  - now apply dec_nat.
  - destruct (literal_str printable state (s2l ", message: """ ++ flat_map (escape_char printable) message ++ [34] ++ s2l " }") Hs) as (l & E & R).
    unfold debug_str in E. cbn [app] in E. injection E as <-. exact R.
  - destruct (literal_str printable message (s2l " }") Hm) as (l & E & R).
    unfold debug_str in E. rewrite <- !app_assoc in E. cbn [app] in E. injection E as <-. exact R.
Qed.
