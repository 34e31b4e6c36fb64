(** Property C06: texts in the three forms of strings, and the rest of a packet. *)
From Coq Require Import String ZArith List Lia.
From Verif Require Import Base BaseFacts Types Utf8 ParseBuf BufMut Spec_Wire Spec_Conv ParseBuf_proofs Packets_proofs Properties_Codec.
Import ListNotations.
Open Scope Z_scope.

Lemma text_outcome : forall (p : P bytes) w b r, bytes_ok w -> p b = (Ok w, r) ->
  (forall s, utf8_text s w -> pbind p (fun x => plift (from_utf8 x)) b = (Ok s, r)) /\
  ((forall s, ~ utf8_text s w) -> pbind p (fun x => plift (from_utf8 x)) b = (Err (PParse EUtf8), r)).
Proof.
  intros p w b r Hw E. unfold pbind, plift. rewrite E. split.
  - intros s H. unfold from_utf8. now rewrite (from_utf8_text s w H).
  - intros H. destruct (from_utf8 w) as [s|e|] eqn:F.
    + elim (H s). apply (from_utf8_inv w s [] []); [unfold plift; now rewrite F | exact Hw].
    + unfold from_utf8 in F. destruct (utf8_decode w); congruence.
    + unfold from_utf8 in F. destruct (utf8_decode w); congruence.
Qed.

(** C06: a text that was written is read back, and bytes that are no UTF-8 are refused as such, whichever
    of the three forms they have; what follows is left. *)
Theorem C06_texts : forall w r, Forall (fun b => 0 <= b < 256) w ->
  (lenZ w < 2 ^ 64 ->
   (forall s, utf8_text s w -> checked_eat_lenenc_str (put_lenenc_slice w ++ r) = (Ok s, r)) /\
   ((forall s, ~ utf8_text s w) -> checked_eat_lenenc_str (put_lenenc_slice w ++ r) = (Err (PParse EUtf8), r))) /\
  (lenZ w < 256 ->
   (forall s, utf8_text s w -> checked_eat_u8_str (put_u8_slice w ++ r) = (Ok s, r)) /\
   ((forall s, ~ utf8_text s w) -> checked_eat_u8_str (put_u8_slice w ++ r) = (Err (PParse EUtf8), r))) /\
  (~ In 0 w ->
   (forall s, utf8_text s w -> eat_null_str (put_null_slice w ++ r) = (Ok s, r)) /\
   ((forall s, ~ utf8_text s w) -> eat_null_str (put_null_slice w ++ r) = (Err (PParse EUtf8), r))).
Proof.
  intros w r Hw. split; [|split].
  - intros L. apply text_outcome; [exact Hw|]. now apply C06_lenenc_slice.
  - intros L. apply text_outcome; [exact Hw|]. rewrite C06_u8_slice, firstn_all2; [reflexivity|]. unfold lenZ in L. lia.
  - intros N. apply text_outcome; [exact Hw|]. now apply C06_null_slice.
Qed.
Print Assumptions C06_texts.

(** What is left of a packet is taken whole, and nothing is left then. *)
Theorem C06_rest : forall b x r, eat_all b = (Ok x, r) <-> x = b /\ r = [].
Proof. intros b x r. unfold eat_all. split; [intros E; injection E as -> ->; auto | intros (-> & ->); reflexivity]. Qed.
Print Assumptions C06_rest.

Example C06_texts_case :
  utf8_text [233; 33] [195; 169; 33] /\
  checked_eat_lenenc_str ([3; 195; 169; 33] ++ [7]) = (Ok [233; 33], [7]) /\
  checked_eat_u8_str ([3; 195; 169; 33] ++ [7]) = (Ok [233; 33], [7]) /\
  eat_null_str ([195; 169; 33; 0] ++ [7]) = (Ok [233; 33], [7]) /\
  checked_eat_lenenc_str ([2; 195; 33] ++ [7]) = (Err (PParse EUtf8), [7]) /\ eat_all [1; 2] = (Ok [1; 2], []).
Proof.
  assert (H : checked_eat_lenenc_str [3; 195; 169; 33] = (Ok [233; 33], [])) by reflexivity.
  split; [|repeat split; reflexivity].
  apply (from_utf8_inv [195; 169; 33] [233; 33] [] []); [reflexivity|]. repeat constructor; discriminate.
Qed.
