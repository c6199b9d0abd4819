(** * What the properties of encoding to a writer say *)

From Verif Require Import Base StrModel TypesModel JsonModel WriterModel.

(** A writer that never takes a part of a buffer. *)
Definition whole (a : answer) : Prop := match a with Short _ => False | _ => True end.

(** A writer that always takes something. *)
Definition willing (a : answer) : Prop := match a with Full => True | Short n => 0 < n | _ => False end.

(** The answer that an error reports. *)
Definition culprit (e : werr) : answer :=
  match e with EInterrupted => Interrupted | EFails => Fails | EWriteZero => Short 0 end.

(** The bytes that the encoder writes for some characters, the last bytes of some of them missing. *)
Inductive short_chars : list byte -> list byte -> Prop :=
| sc_nil : short_chars [] []
| sc_char c p r b' b : write_ch c = p ++ r -> short_chars b' b -> short_chars (p ++ b') (write_ch c ++ b).

(** The same bytes, except between some quotes. *)
Definition quote : byte := "034"%byte.

Inductive shortened : list byte -> list byte -> Prop :=
| sh_nil : shortened [] []
| sh_same x b' b : shortened b' b -> shortened (x :: b') (x :: b)
| sh_text s' s b' b : short_chars s' s -> shortened b' b ->
    shortened (quote :: s' ++ quote :: b') (quote :: s ++ quote :: b).

(** Types whose values have no text: no characters, strings or labels. *)
Inductive textless : ty -> Prop :=
| tl_unit : textless TUnit
| tl_prim p : p <> PChar -> textless (TPrim p)
| tl_tuple ts : Forall textless ts -> textless (TTuple ts).
