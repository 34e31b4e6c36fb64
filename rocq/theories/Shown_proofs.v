(** Proofs about what is printed for errors. *)
From Coq Require Import String ZArith List Bool Lia.
From Verif Require Import Base BaseFacts Types Utf8 ValueText Crypt Handshake Debug Shown Spec_Debug Spec_Text Spec_Shown ParseBuf_proofs Conversion_proofs Escape_proofs Debug_proofs.
Import ListNotations.
Open Scope Z_scope.

(** ** The form *)

Lemma separated_items : forall l, separated l (debug_items l).
Proof.
  induction l as [|a [|b l] IH]; cbn [debug_items]; [constructor|constructor|]. apply sep_more, IH.
Qed.

Lemma prints_debug_tuple : forall n l ts, prints_all l ts -> prints (Tuple n l) (debug_tuple n ts).
Proof. intros n l ts H. exact (prints_tuple n l ts (debug_items ts) H (separated_items ts)). Qed.

Lemma separated_fields : forall (l : list (str * str)), separated (map (fun f => fst f ++ s2l ": " ++ snd f) l)
  (match l with [] => [] | (n, v) :: r => n ++ s2l ": " ++ v ++ debug_fields false r end).
Proof.
  induction l as [|[n v] [|[m w] l] IH]; cbn [map fst snd debug_fields]; [constructor| |].
  - rewrite app_nil_r. constructor.
  - replace (n ++ s2l ": " ++ v ++ s2l ", " ++ m ++ s2l ": " ++ w ++ debug_fields false l)
      with ((n ++ s2l ": " ++ v) ++ s2l ", " ++ (m ++ s2l ": " ++ w ++ debug_fields false l)) by (now rewrite <- !app_assoc).
    apply sep_more, IH.
Qed.

Lemma prints_debug_struct : forall n f r ts, prints_fields (map (fun x => (fst (fst x), snd x)) (f :: r)) ts ->
  ts = map (fun f => fst f ++ s2l ": " ++ snd f) (map fst (f :: r)) ->
  prints (Struct n (map (fun x => (fst (fst x), snd x)) (f :: r))) (debug_struct n (map fst (f :: r))).
Proof.
  intros n [[k v] t] r ts H ->. cbn [map fst snd] in *. unfold debug_struct. cbn [debug_fields].
  pose proof (separated_fields ((k, v) :: map fst r)) as S. cbn [map fst snd] in S.
  pose proof (prints_struct n _ _ _ H S) as P.
  replace (n ++ (s2l " { " ++ k ++ s2l ": " ++ v ++ debug_fields false (map fst r)) ++ s2l " }")
    with (n ++ s2l " { " ++ (k ++ s2l ": " ++ v ++ debug_fields false (map fst r)) ++ s2l " }") by (now rewrite <- !app_assoc).
  exact P.
Qed.

Lemma dec_prints : forall n, 0 <= n -> prints (Num n) (dec n).
Proof. intros n H. constructor. left. now apply dec_nat. Qed.

Lemma signed_prints : forall n, prints (Num n) (dec_signed n).
Proof. intros n. constructor. apply dec_signed_text. Qed.

Lemma numbers_print : forall b, Forall (fun n => 0 <= n) b -> prints (number_list b) (debug_bytes b).
Proof.
  intros b H. unfold debug_bytes, number_list. apply (prints_items (map Num b) (map dec b)); [|apply separated_items].
  induction H as [|x b Hx H IH]; cbn [map]; constructor; [|exact IH]. now apply dec_prints.
Qed.

Lemma bytes_prints : forall b, bytes_ok b -> prints (number_list b) (debug_bytes b).
Proof. intros b H. apply numbers_print. eapply Forall_impl; [|exact H]. unfold byte_ok. intros. lia. Qed.

Lemma str_prints : forall printable s, str_ok s -> prints (Text s) (debug_str printable s).
Proof.
  intros printable s H. destruct (literal_str printable s [] H) as (l & E & R). rewrite app_nil_r in E. rewrite E. now constructor.
Qed.

(** A struct of two, three or four fields. *)
Lemma struct2 : forall n k1 v1 t1 k2 v2 t2, prints t1 v1 -> prints t2 v2 ->
  prints (Struct n [(k1, t1); (k2, t2)]) (debug_struct n [(k1, v1); (k2, v2)]).
Proof.
  intros. refine (prints_debug_struct n ((k1, v1), t1) [((k2, v2), t2)] _ _ eq_refl).
  cbn [map fst snd]. repeat (constructor; [assumption|]). constructor.
Qed.

Lemma struct3 : forall n k1 v1 t1 k2 v2 t2 k3 v3 t3, prints t1 v1 -> prints t2 v2 -> prints t3 v3 ->
  prints (Struct n [(k1, t1); (k2, t2); (k3, t3)]) (debug_struct n [(k1, v1); (k2, v2); (k3, v3)]).
Proof.
  intros. refine (prints_debug_struct n ((k1, v1), t1) [((k2, v2), t2); ((k3, v3), t3)] _ _ eq_refl).
  cbn [map fst snd]. repeat (constructor; [assumption|]). constructor.
Qed.

Lemma struct4 : forall n k1 v1 t1 k2 v2 t2 k3 v3 t3 k4 v4 t4, prints t1 v1 -> prints t2 v2 -> prints t3 v3 -> prints t4 v4 ->
  prints (Struct n [(k1, t1); (k2, t2); (k3, t3); (k4, t4)]) (debug_struct n [(k1, v1); (k2, v2); (k3, v3); (k4, v4)]).
Proof.
  intros. refine (prints_debug_struct n ((k1, v1), t1) [((k2, v2), t2); ((k3, v3), t3); ((k4, v4), t4)] _ _ eq_refl).
  cbn [map fst snd]. repeat (constructor; [assumption|]). constructor.
Qed.

Ltac items := repeat (constructor; [first [apply dec_prints; unfold unsigned_ok in *; lia | apply signed_prints | assumption | constructor]|]); constructor.

Lemma type_prints : forall t, prints (type_tree t) (debug_value_type t).
Proof. intros t. destruct t; apply prints_name. Qed.

Lemma value_prints : forall f32 f64 v, value_ok v -> prints (value_tree f32 f64 v) (debug_value f32 f64 v).
Proof.
  intros f32 f64 v H. destruct v; cbn [value_ok] in H; cbn [value_tree debug_value map]; try (apply prints_debug_tuple); try (items; fail).
  - constructor; [apply bytes_prints; tauto|constructor].
  - destruct neg; items.
Qed.

Lemma utf8_prints : forall e, utf8_error_ok e -> prints (utf8_tree e) (debug_utf8_error e).
Proof.
  intros [v l] (H1 & H2). cbn [ue_valid_up_to ue_error_len] in *. apply struct2; cbn [ue_valid_up_to ue_error_len].
  - now apply dec_prints.
  - destruct l as [n|]; cbn [option_tree debug_option]; [|apply prints_name].
    apply (prints_debug_tuple (s2l "Some") [Num n] [dec n]). items.
Qed.

Lemma flags_prints : forall f, flags_ok f -> prints (flags_tree f) (debug_flags f).
Proof. intros f H. destruct f; cbn [flags_ok] in H; cbn [flags_tree debug_flags]; apply prints_debug_tuple; items. Qed.

Ltac one := apply prints_debug_tuple; constructor; [|constructor].

Lemma parse_prints : forall printable f32 f64 e, parse_ok e -> prints (parse_tree f32 f64 e) (debug_parse printable f32 f64 e).
Proof.
  intros printable f32 f64 e H. destruct e; cbn [parse_ok] in H; cbn [parse_tree debug_parse].
  - one. now apply str_prints.
  - apply prints_name.
  - one. apply struct2; [apply type_prints|now apply value_prints].
  - apply prints_debug_tuple. constructor; [apply type_prints|]. constructor; [now apply bytes_prints|constructor].
  - one. now apply value_prints.
  - one. now apply flags_prints.
  - one. now apply utf8_prints.
  - one. apply struct2; [now apply bytes_prints|now apply utf8_prints].
Qed.

Lemma serialize_prints : forall e, prints (serialize_tree e) (debug_serialize e).
Proof.
  intros [|t text|[|]]; cbn [serialize_tree debug_serialize].
  - apply prints_name.
  - apply prints_debug_tuple. constructor; [apply type_prints|]. constructor; constructor.
  - one. apply prints_name.
  - one. apply prints_name.
Qed.

Lemma protocol_prints : forall printable f32 f64 e, protocol_ok e -> prints (protocol_tree f32 f64 e) (debug_protocol printable f32 f64 e).
Proof.
  intros printable f32 f64 e H. destruct e as [x|x|text| |p x|p t x|n]; cbn [protocol_ok] in H; cbn [protocol_tree debug_protocol].
  - one. now apply parse_prints.
  - one. apply serialize_prints.
  - one. constructor.
  - apply prints_name.
  - destruct x as [x|]; unfold debug_unexpected; one.
    + apply struct2; [apply str_prints|apply bytes_prints]; tauto.
    + one. apply bytes_prints. tauto.
  - one. apply struct3; [apply bytes_prints|apply str_prints|apply str_prints]; tauto.
  - one. now apply str_prints.
Qed.

Lemma plugin_prints : forall p, prints (plugin_tree p) (debug_plugin p).
Proof. intros p. destruct p; apply prints_name. Qed.

Lemma runtime_prints : forall e, prints (runtime_tree e) (debug_runtime e).
Proof.
  intros [| |c r]; cbn [runtime_tree debug_runtime]; [apply prints_name|apply prints_name|]. one. apply struct2; apply plugin_prints.
Qed.

Lemma server_prints : forall printable e, server_ok e -> exists t, server_tree e t /\ prints t (debug_server printable e).
Proof.
  intros printable [code [s|] m|a b c info] H; cbn [server_ok] in H.
  - destruct H as (H1 & H2 & t & H3 & <-). eexists. split; [apply server_state|]. unfold debug_server, debug_err. one.
    rewrite utf8_roundtrip by exact H3. cbn [app].
    apply struct3; [now apply dec_prints|now apply str_prints|now apply str_prints].
  - destruct H as (H1 & H2 & _). eexists. split; [apply server_plain|]. unfold debug_server, debug_err. one. cbn [app].
    apply struct2; [now apply dec_prints|now apply str_prints].
  - destruct H as (H1 & H2 & H3 & H4). eexists. split; [apply server_progress|]. unfold debug_server, debug_err. one.
    apply struct4; [now apply dec_prints|now apply dec_prints|now apply dec_prints|exact (numbers_print info H4)].
Qed.

Lemma error_prints : forall printable f32 f64 e, error_ok e -> exists t, error_tree f32 f64 e t /\ prints t (debug_error printable f32 f64 e).
Proof.
  intros printable f32 f64 [x|x|x] H; cbn [error_ok] in H; cbn [debug_error].
  - destruct (server_prints printable x H) as (t & T & P). eexists. split; [exact (tree_server f32 f64 x t T)|]. one. exact P.
  - eexists. split; [constructor|]. one. now apply protocol_prints.
  - eexists. split; [constructor|]. one. apply runtime_prints.
Qed.

(** ** Different errors, different texts *)

Definition letter (c : Z) : bool := negb (existsb (Z.eqb c) [40; 41; 44; 32; 93]).
Definition word (l : str) : Prop := forallb letter l = true.
Definition stop (l : str) : Prop := match l with c :: _ => letter c = false | [] => False end.

Lemma word_cut : forall a b x y, word a -> word b -> stop x -> stop y -> a ++ x = b ++ y -> a = b /\ x = y.
Proof.
  unfold word. induction a as [|c a IH]; intros [|d b] x y A B X Y E; cbn [app forallb] in *.
  - auto.
  - subst x. cbn [stop] in X. rewrite X in B. discriminate.
  - subst y. cbn [stop] in Y. rewrite Y in A. discriminate.
  - injection E as -> E. apply andb_prop in A as (_ & A). apply andb_prop in B as (_ & B). destruct (IH b x y A B X Y E) as (-> & ->). auto.
Qed.

Lemma digits_word : forall l, Forall digit l -> word l.
Proof.
  unfold word. induction 1 as [|c l H _ IH]; cbn [forallb]; [reflexivity|]. rewrite IH, andb_true_r. unfold letter. cbn [existsb]. unfold digit in H.
  rewrite !(proj2 (Z.eqb_neq _ _)) by lia. reflexivity.
Qed.

Lemma dec_word : forall n, 0 <= n -> word (dec n).
Proof. intros n H. apply digits_word, dec_nat, H. Qed.

Lemma dec_inj : forall n m, 0 <= n -> 0 <= m -> dec n = dec m -> n = m.
Proof. intros n m H1 H2 E. destruct (dec_nat n H1) as (_ & _ & <-), (dec_nat m H2) as (_ & _ & <-). now rewrite E. Qed.

Lemma num_cut : forall n m x y, 0 <= n -> 0 <= m -> stop x -> stop y -> dec n ++ x = dec m ++ y -> n = m /\ x = y.
Proof.
  intros n m x y H1 H2 X Y E. apply word_cut in E as (E & ->); auto using dec_word. split; [|reflexivity]. now apply dec_inj.
Qed.

Lemma signed_cut : forall n m x y, stop x -> stop y -> dec_signed n ++ x = dec_signed m ++ y -> n = m /\ x = y.
Proof.
  assert (W : forall n, word (dec_signed n)).
  { intros n. unfold dec_signed. destruct (Z.ltb_spec n 0); [|now apply dec_word]. unfold word. cbn [forallb].
    change (letter 45) with true. apply dec_word. lia. }
  assert (D : forall n, 0 <= n -> dec n <> [] /\ forall r, dec n <> 45 :: r).
  { intros n H. destruct (dec_nat n H) as (A & B & _). split; [exact A|]. intros r E. rewrite E in B. inversion B as [|? ? F _]. unfold digit in F. lia. }
  intros n m x y X Y E. apply word_cut in E as (E & ->); auto. split; [|reflexivity]. unfold dec_signed in E.
  destruct (Z.ltb_spec n 0), (Z.ltb_spec m 0).
  - injection E as E. apply dec_inj in E; lia.
  - exfalso. symmetry in E. now apply D in E.
  - exfalso. now apply D in E.
  - now apply dec_inj.
Qed.

Lemma items_more : forall a b l x, debug_items (a :: b :: l) ++ x = a ++ 44 :: 32 :: (debug_items (b :: l) ++ x).
Proof. intros. cbn [debug_items]. rewrite <- !app_assoc. reflexivity. Qed.

Lemma bytes_cut : forall a b x y, bytes_ok a -> bytes_ok b -> debug_bytes a ++ x = debug_bytes b ++ y -> a = b /\ x = y.
Proof.
  assert (H1 : forall n, 0 <= n -> exists c r, dec n = c :: r /\ digit c).
  { intros n Hn. destruct (dec_nat n Hn) as (D & F & _). destruct (dec n) as [|c r]; [contradiction|]. inversion F; subst. eauto. }
  assert (G : forall a b x y, bytes_ok a -> bytes_ok b -> debug_items (map dec a) ++ 93 :: x = debug_items (map dec b) ++ 93 :: y -> a = b /\ x = y).
  { unfold bytes_ok. induction a as [|n a IH]; intros [|m b] x y A B E.
    - injection E. auto.
    - exfalso. inversion B as [|? ? M B']; subst. destruct (H1 m) as (c & r & E1 & D1); [unfold byte_ok in M; lia|].
      destruct b as [|k b]; [cbn [map debug_items] in E|cbn [map] in E; rewrite items_more in E]; rewrite E1 in E;
        injection E as E _; subst c; unfold digit in D1; lia.
    - exfalso. inversion A as [|? ? M B']; subst. destruct (H1 n) as (c & r & E1 & D1); [unfold byte_ok in M; lia|].
      destruct a as [|k a]; [cbn [map debug_items] in E|cbn [map] in E; rewrite items_more in E]; rewrite E1 in E;
        injection E as E _; subst c; unfold digit in D1; lia.
    - inversion A as [|? ? M A']; subst. inversion B as [|? ? M' B']; subst. unfold byte_ok in M, M'.
      destruct a as [|n1 a]; destruct b as [|m1 b]; cbn [map] in E; rewrite ?items_more in E; cbn [debug_items] in E;
        apply num_cut in E as (-> & E); try lia; try reflexivity; try discriminate; injection E as E.
      + auto.
      + destruct (IH (m1 :: b) x y A' B' E) as (-> & ->). auto. }
  intros a b x y A B E. unfold debug_bytes in E. rewrite <- !app_assoc in E. injection E as E. now apply G.
Qed.

Lemma tuple_cut : forall n m l k x y, word n -> word m -> debug_tuple n l ++ x = debug_tuple m k ++ y ->
  n = m /\ debug_items l ++ 41 :: x = debug_items k ++ 41 :: y.
Proof.
  intros n m l k x y N M E. unfold debug_tuple in E. rewrite <- !app_assoc in E. cbn [app] in E.
  apply word_cut in E as (-> & E); auto; try reflexivity. injection E as E. auto.
Qed.

Lemma name_tuple : forall n m k x y, word n -> word m -> stop x -> n ++ x = debug_tuple m k ++ y -> n = m.
Proof.
  intros n m k x y N M X E. unfold debug_tuple in E. rewrite <- !app_assoc in E. cbn [app] in E.
  now apply word_cut in E as (-> & E).
Qed.

Definition type_name_inj : forall s t, debug_value_type s = debug_value_type t -> s = t.
Proof. intros s t E. destruct s, t; first [reflexivity|discriminate E]. Qed.

Lemma type_cut : forall s t x y, stop x -> stop y -> debug_value_type s ++ x = debug_value_type t ++ y -> s = t /\ x = y.
Proof.
  assert (W : forall t, word (debug_value_type t)) by (intros t; destruct t; reflexivity).
  intros s t x y X Y E. apply word_cut in E as (E & ->); auto. split; [now apply type_name_inj|reflexivity].
Qed.

Section Distinct.
  Variables (printable : Z -> bool) (f32 f64 : Z -> str).
  Hypothesis (F32 : float_texts 4 f32_nan f32) (F64 : float_texts 8 f64_nan f64).

  Lemma float_split : forall a b x y, Forall float_char a -> Forall float_char b -> a ++ 41 :: x = b ++ 41 :: y -> a = b /\ x = y.
  Proof.
    induction a as [|c a IH]; intros [|d b] x y A B E; cbn [app] in E.
    - injection E. auto.
    - inversion B as [|? ? N _]; subst. unfold float_char in N. injection E as <- _. lia.
    - inversion A as [|? ? N _]; subst. unfold float_char in N. injection E as -> _. lia.
    - inversion A; inversion B; subst. injection E as -> E. destruct (IH b x y) as (-> & ->); auto.
  Qed.

  (** The name a value is printed with, and what is in the parentheses. *)
  Definition value_name (v : value) : str := match value_tree f32 f64 v with Tuple n _ | Name n => n | _ => [] end.

  Ltac names E := vm_compute in E; discriminate E.
  Ltac word_now := vm_compute; reflexivity.
  Ltac stop_now := first [assumption|reflexivity].
  Ltac step E := first
    [ apply num_cut in E as (-> & E); [|unfold unsigned_ok in *; lia|unfold unsigned_ok in *; lia|stop_now|stop_now]
    | apply signed_cut in E as (-> & E); [|stop_now|stop_now]
    | apply bytes_cut in E as (-> & E); [|tauto|tauto]
    | apply type_cut in E as (-> & E); [|stop_now|stop_now] ];
    try (injection E as E).

  Lemma value_cut : forall v w x y, value_ok v -> value_ok w -> no_nan v -> no_nan w -> stop x -> stop y ->
    debug_value f32 f64 v ++ x = debug_value f32 f64 w ++ y -> v = w /\ x = y.
  Proof.
    intros v w x y V W NV NW X Y E.
    destruct v, w; cbn [debug_value] in E;
      first [ apply tuple_cut in E as (N & E); [|word_now|word_now]
            | apply name_tuple in E as N; [|word_now|word_now|exact X]
            | symmetry in E; apply name_tuple in E as N; [|word_now|word_now|exact Y]
            | apply app_inv_head in E; now split ];
      first [ discriminate N | clear N ]; cbn [value_ok no_nan] in V, W, NV, NW; rewrite ?items_more in E; cbn [debug_items] in E.
    all: try (step E; auto; fail).
    - apply float_split in E as (E & ->); [|apply F32|apply F32]. apply F32 in E as ->; auto.
    - apply float_split in E as (E & ->); [|apply F64|apply F64]. apply F64 in E as ->; auto.
    - do 3 step E. auto.
    - assert (B : neg = neg0 /\ dec days ++ 44 :: 32 :: (dec hours ++ 44 :: 32 :: (dec minutes ++ 44 :: 32 :: (dec seconds ++ 44 :: 32 :: (dec micros ++ 41 :: x)))) =
        dec days0 ++ 44 :: 32 :: (dec hours0 ++ 44 :: 32 :: (dec minutes0 ++ 44 :: 32 :: (dec seconds0 ++ 44 :: 32 :: (dec micros0 ++ 41 :: y))))).
      { destruct neg, neg0; cbn [debug_bool] in E.
        - apply app_inv_head in E. injection E as E. auto.
        - discriminate E.
        - discriminate E.
        - apply app_inv_head in E. injection E as E. auto. }
      clear E. destruct B as (-> & E). do 5 step E. auto.
    - do 7 step E. auto.
  Qed.

  Lemma utf8_cut : forall e f x y, utf8_error_ok e -> utf8_error_ok f -> debug_utf8_error e ++ x = debug_utf8_error f ++ y -> e = f /\ x = y.
  Proof.
    intros [v1 l1] [v2 l2] x y (A1 & A2) (B1 & B2) E. cbn [ue_valid_up_to ue_error_len] in *.
    unfold debug_utf8_error, debug_struct in E. cbn [debug_fields ue_valid_up_to ue_error_len] in E. rewrite <- !app_assoc in E.
    do 4 apply app_inv_head in E. apply num_cut in E as (-> & E); try assumption; try reflexivity. do 3 apply app_inv_head in E.
    destruct l1 as [n1|], l2 as [n2|]; cbn [debug_option] in E; try discriminate E; rewrite <- ?app_assoc in E; apply app_inv_head in E.
    - apply num_cut in E as (-> & E); try assumption; try reflexivity. do 3 apply app_inv_head in E. auto.
    - do 2 apply app_inv_head in E. auto.
  Qed.

  Lemma flags_cut : forall e f x y, flags_ok e -> flags_ok f -> debug_flags e ++ x = debug_flags f ++ y -> e = f /\ x = y.
  Proof.
    intros e f x y A B E. destruct e, f; cbn [debug_flags] in E; (apply tuple_cut in E as (N & E); [|word_now|word_now]);
      first [discriminate N|clear N]; cbn [flags_ok] in A, B; cbn [debug_items] in E;
      (apply num_cut in E as (-> & E); [|assumption|assumption|reflexivity|reflexivity]); injection E as ->; auto.
  Qed.

  Definition parse_no_nan (e : full_parse) : Prop := match e with GWrongValue _ v | GValueOutOfBounds v => no_nan v | _ => True end.

  Lemma parse_cut : forall e f x, parse_ok e -> parse_ok f -> parse_no_nan e -> parse_no_nan f -> stop x ->
    debug_parse printable f32 f64 e ++ x = debug_parse printable f32 f64 f ++ x -> e = f.
  Proof.
    intros e f x A B NA NB X E.
    destruct e, f; cbn [debug_parse] in E;
      first [ apply tuple_cut in E as (N & E); [|word_now|word_now]
            | apply name_tuple in E as N; [|word_now|word_now|exact X]
            | symmetry in E; apply name_tuple in E as N; [|word_now|word_now|exact X]
            | reflexivity ];
      first [ discriminate N | clear N ]; cbn [parse_ok parse_no_nan] in A, B, NA, NB; rewrite ?items_more in E; cbn [debug_items] in E.
    - apply str_split in E as (-> & _); auto.
    - unfold debug_struct in E. cbn [debug_fields] in E. rewrite <- !app_assoc in E. do 4 apply app_inv_head in E.
      apply type_cut in E as (-> & E); try reflexivity. do 3 apply app_inv_head in E. apply value_cut in E as (-> & _); auto; reflexivity.
    - apply type_cut in E as (-> & E); try reflexivity. apply (app_inv_head [44; 32]) in E. apply bytes_cut in E as (-> & _); auto.
    - apply value_cut in E as (-> & _); auto; reflexivity.
    - apply flags_cut in E as (-> & _); auto.
    - apply utf8_cut in E as (-> & _); auto.
    - unfold debug_struct in E. cbn [debug_fields] in E. rewrite <- !app_assoc in E. do 4 apply app_inv_head in E.
      destruct A as (A1 & A2), B as (B1 & B2). apply bytes_cut in E as (-> & E); auto. do 3 apply app_inv_head in E.
      apply utf8_cut in E as (-> & _); auto.
  Qed.

  Lemma serialize_cut : forall e f x, stop x -> debug_serialize e ++ x = debug_serialize f ++ x -> e = f.
  Proof.
    intros e f x X E. apply app_inv_tail in E. destruct e as [|t a|[|]], f as [|u b|[|]]; cbn [debug_serialize] in E; try reflexivity; try discriminate E.
    unfold debug_tuple in E. do 2 apply app_inv_head in E. apply app_inv_tail in E. cbn [debug_items] in E.
    apply type_cut in E as (-> & E); try reflexivity. apply app_inv_head in E. now subst.
  Qed.

  Lemma protocol_cut : forall e f, protocol_ok e -> protocol_ok f -> error_no_nan (GProtocol e) -> error_no_nan (GProtocol f) ->
    debug_protocol printable f32 f64 e = debug_protocol printable f32 f64 f -> e = f.
  Proof.
    intros e f A B NA NB E. apply (f_equal (fun l => l ++ [44])) in E.
    destruct e as [x|x|text| |p x|p t x|n], f as [x'|x'|text'| |p' x'|p' t' x'|n']; cbn [debug_protocol] in E;
      first [ apply tuple_cut in E as (N & E); [|word_now|word_now]
            | apply name_tuple in E as N; [|word_now|word_now|reflexivity]
            | symmetry in E; apply name_tuple in E as N; [|word_now|word_now|reflexivity]
            | reflexivity ];
      first [ discriminate N | clear N ]; cbn [protocol_ok] in A, B; cbn [debug_items] in E.
    - apply parse_cut in E as ->; auto; try reflexivity.
    - apply serialize_cut in E as ->; auto; reflexivity.
    - apply app_inv_tail in E as ->. reflexivity.
    - destruct A as (A1 & A2), B as (B1 & B2). destruct x as [x|], x' as [x'|]; unfold debug_unexpected, debug_struct, debug_tuple in E;
        cbn [debug_fields debug_items] in E; rewrite <- !app_assoc in E; apply app_inv_head in E; try discriminate E.
      + do 3 apply app_inv_head in E. apply str_split in E as (-> & E); auto. do 3 apply app_inv_head in E. apply bytes_cut in E as (-> & E); auto.
      + apply app_inv_head in E. apply bytes_cut in E as (-> & E); auto.
    - destruct A as (A1 & A2 & A3), B as (B1 & B2 & B3). unfold debug_struct in E. cbn [debug_fields] in E. rewrite <- !app_assoc in E.
      do 4 apply app_inv_head in E. apply bytes_cut in E as (-> & E); auto. do 3 apply app_inv_head in E.
      apply str_split in E as (-> & E); auto. do 3 apply app_inv_head in E. apply str_split in E as (-> & E); auto.
    - apply str_split in E as (-> & E); auto.
  Qed.

  Lemma plugin_text_inj : forall p q, debug_plugin p = debug_plugin q -> p = q.
  Proof. intros p q E. destruct p, q; first [reflexivity|discriminate E]. Qed.

  Lemma runtime_inj : forall e f, debug_runtime e = debug_runtime f -> e = f.
  Proof.
    intros [| |c r] [| |c' r'] E; first [reflexivity|discriminate E|idtac].
    destruct c, r, c', r'; first [reflexivity|vm_compute in E; discriminate E].
  Qed.

  Lemma server_ok_err : forall e, server_ok e -> err_ok e.
  Proof.
    intros e H. exact H.
  Qed.

  Lemma server_inj : forall e f, server_ok e -> server_ok f -> debug_server printable e = debug_server printable f -> e = f.
  Proof.
    intros e f A B E. apply (err_text_inj printable); [now apply server_ok_err|now apply server_ok_err|]. unfold debug_server in E.
    destruct e, f; cbv match in E; unfold debug_tuple in E; cbn [debug_items] in E; try discriminate E;
      do 2 apply app_inv_head in E; now apply app_inv_tail in E.
  Qed.

  Lemma error_inj : forall e f, error_ok e -> error_ok f -> error_no_nan e -> error_no_nan f ->
    debug_error printable f32 f64 e = debug_error printable f32 f64 f -> e = f.
  Proof.
    intros e f A B NA NB E. destruct e, f; cbn [debug_error] in E; try discriminate E; unfold debug_tuple in E; cbn [debug_items] in E;
      do 2 apply app_inv_head in E; apply app_inv_tail in E; f_equal.
    - now apply server_inj.
    - now apply protocol_cut.
    - now apply runtime_inj.
  Qed.
End Distinct.
