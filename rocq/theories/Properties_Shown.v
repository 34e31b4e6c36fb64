(** C115: what is printed for an error. *)
From Coq Require Import String ZArith List Bool Lia.
From Verif Require Import Base BaseFacts Types Utf8 ValueText Crypt Handshake Packets Debug Shown Spec_Debug Spec_Text Spec_Shown Escape_proofs Debug_proofs Shown_proofs.
Import ListNotations.
Open Scope Z_scope.

(** What is printed names the error and every part of it, in Rust's notation. *)
Theorem C115_form : forall printable f32 f64 e, error_ok e ->
  exists t, error_tree f32 f64 e t /\ prints t (debug_error printable f32 f64 e).
Proof. exact error_prints. Qed.
Print Assumptions C115_form.

Example C115_form_case :
  debug_error (fun _ => true) dec dec (GProtocol (GUnexpectedPacket [1; 2] (Some (s2l "Ok or Err Packet")))) =
    s2l "Protocol(UnexpectedPacket(UnexpectedPacket { expected: ""Ok or Err Packet"", got: [1, 2] }))" /\
  debug_error (fun _ => true) dec dec (GProtocol (GUnexpectedPacket [] None)) =
    s2l "Protocol(UnexpectedPacket(UnexpectedPacket([])))" /\
  debug_error (fun _ => true) dec dec (GProtocol (GParse (GWrongValue TTime (VTime true 1 2 3 4 5)))) =
    s2l "Protocol(Parse(WrongValue(WrongValue { expected: Time, got: Time(true, 1, 2, 3, 4, 5) })))" /\
  debug_error (fun _ => true) dec dec (GProtocol (GParse (GFromUtf8 [255] (mkUtf8Error 0 (Some 1))))) =
    s2l "Protocol(Parse(FromUtf8(FromUtf8Error { bytes: [255], error: Utf8Error { valid_up_to: 0, error_len: Some(1) } })))" /\
  debug_error (fun _ => true) dec dec (GRuntime (RAuthPluginMismatch PSha2 PClear)) =
    s2l "Runtime(AuthPluginMismatch(AuthPluginMismatch { current: Sha2, requested: Clear }))" /\
  debug_error (fun _ => true) dec dec (GServer (ErrError 1064 (Some (s2l "42000")) (s2l "no"))) =
    s2l "Server(Error(ErrorPacket { code: 1064, state: ""42000"", message: ""no"" }))" /\
  error_ok (GProtocol (GUnexpectedPacket [1; 2] (Some (s2l "Ok or Err Packet")))).
Proof.
  do 6 (split; [vm_compute; reflexivity|]).
  cbn [error_ok protocol_ok]. split; repeat (constructor; [unfold byte_ok, scalar_ok; vm_compute; intuition discriminate|]); constructor.
Qed.

(** Different errors are printed differently. *)
Theorem C115_distinct : forall printable f32 f64, float_texts 4 f32_nan f32 -> float_texts 8 f64_nan f64 ->
  forall e f, error_ok e -> error_ok f -> error_no_nan e -> error_no_nan f ->
  debug_error printable f32 f64 e = debug_error printable f32 f64 f -> e = f.
Proof. intros. eapply error_inj; eassumption. Qed.
Print Assumptions C115_distinct.

Lemma dec_floats : forall width nan, float_texts width nan (fun x => dec (Z.abs x)).
Proof.
  intros width nan. split.
  - intros a. destruct (dec_nat (Z.abs a) ltac:(lia)) as (_ & F & _). eapply Forall_impl; [|exact F].
    unfold digit, float_char. intros. lia.
  - intros a b A B _ _ E. apply dec_inj in E; try lia. unfold unsigned_ok in *. lia.
Qed.

Example C115_distinct_case :
  float_texts 4 f32_nan (fun x => dec (Z.abs x)) /\ float_texts 8 f64_nan (fun x => dec (Z.abs x)) /\
  error_ok (GProtocol (GParse (GValueOutOfBounds (VFloat 1065353216)))) /\
  error_no_nan (GProtocol (GParse (GValueOutOfBounds (VFloat 1065353216)))).
Proof.
  splits; try apply dec_floats; [|]; vm_compute; intuition discriminate.
Qed.

(** So it is for the errors a server sends, as they are read. *)
Theorem C115_server : forall printable f32 f64 p q caps1 caps2 e f, bytes_ok p -> bytes_ok q ->
  read_err p caps1 = Ok e -> read_err q caps2 = Ok f ->
  (exists t, error_tree f32 f64 (GServer e) t /\ prints t (debug_error printable f32 f64 (GServer e))) /\
  (debug_error printable f32 f64 (GServer e) = debug_error printable f32 f64 (GServer f) -> e = f).
Proof.
  intros printable f32 f64 p q caps1 caps2 e f P Q E F. apply read_err_fields in E, F; auto. split.
  - now apply error_prints.
  - intros H. cbn [debug_error] in H. unfold debug_tuple in H. cbn [debug_items] in H. do 2 apply app_inv_head in H. apply app_inv_tail in H.
    now apply server_inj in H.
Qed.
Print Assumptions C115_server.

Example C115_server_case :
  read_err (255 :: 40 :: 4 :: 35 :: s2l "42000" ++ s2l "no") 512 = Ok (ErrError 1064 (Some (s2l "42000")) (s2l "no")).
Proof. vm_compute. reflexivity. Qed.
