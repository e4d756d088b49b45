(** SpecErrText.v - specification side for the texts of errors. *)
From Verif Require Import Base RbxlValues RbxlModel RbxlFile RbxValues RbxlCodec RbxlApi ErrText.

(** Text without control characters (in particular without a line break). *)
Definition clean_text (s : bytes) : Prop := Forall (fun c => (0x20 <= b2N c)%N) s.
(** The warnings about a binary file. *)
Definition binary_warning (w : fwarn) : Prop := match w with WXml _ => False | _ => True end.
(** A binary file: the byte after "<roblox" is "!". *)
Definition binary_input (input : bytes) : Prop := nth_error input 7 = Some x21.
(** The errors that are found by following Unwrap. *)
Inductive wraps : gerr -> gerr -> Prop :=
| wraps_self e : wraps e e
| wraps_in e c d : gunwrap e = Some c -> wraps c d -> wraps e d.
(** Made by this library, or by anyone who does not leave a cause out. *)
Inductive complete : gerr -> Prop :=
| co_plain m : complete (GPlain m)
| co_index i c : complete c -> complete (GIndex i c)
| co_value t c : complete c -> complete (GValue t (Some c))
| co_xml c : complete c -> complete (GXml (Some c))
| co_codec c : complete c -> complete (GCodec (Some c))
| co_data o c : complete c -> complete (GData o (Some c))
| co_chunk i sg c : complete c -> complete (GChunk i sg (Some c)).
