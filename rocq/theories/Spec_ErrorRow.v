(** The column types whose text is handed over as it is, for errors that arrive where a row is
    expected (C49). *)
From Coq Require Import List.
From Verif Require Import Types.
Import ListNotations.

Definition plain_text_types : list column_type :=
  [CString; CVarString; CVarchar; CBlob; CTinyBlob; CMediumBlob; CSet; CEnum; CDecimal; CBit; CNewDecimal; CGeometry; CJson].
