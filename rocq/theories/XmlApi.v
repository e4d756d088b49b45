(** XmlApi.v - the exported Decode of /repo/rbxl with both formats. *)
From Verif Require Import Base RbxlValues RbxlArrays RbxlModel RbxlFile RbxValues Tree RbxlCodec RbxlApi XmlText XmlDoc XmlCodec.

(** decoder.go:48-53: rbxlx.Decoder{}.Decode of the bytes handed on; the option
    DiscardInvalidProperties is not set. *)
Definition legacy (xenv : xenv) (b : bytes) : tree_res :=
  match xml_decode xenv false b XEOF with
  | OK (r, h, ws) => OK (r, h, map WXml ws)
  | Err (e, ws) => Err (FXml e, map WXml ws)
  | Panic => Panic
  | Hang => Hang
  end.
(** decoder.go:37-67 *)
Definition Decode (lz : lz4) (spare : nat -> nat) (q2m : quat) (xenv : xenv) (noXML : bool) (input : bytes) : tree_res :=
  Decoder_Decode lz spare q2m (legacy xenv) noXML input.
