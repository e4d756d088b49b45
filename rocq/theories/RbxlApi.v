(** RbxlApi.v - model of the exported methods of /repo/rbxl that go all the way
    between trees and bytes: encoder.go:23-37 Encode, decoder.go:37-67 Decode. *)
From Verif Require Import Base RbxlValues RbxlArrays RbxlModel RbxlFile RbxValues Tree RbxlCodec XmlDoc.

(** encoder.go:23-37 Encode with a non-nil writer.  The codec's warnings are
    stored in [warn] (:30), which the last return (:35) does not use. *)
Definition Encoder_Encode (ev : env) (lz : lz4) (place uncompressed : bool) (h : heap) (r : option root)
  : res (list warning * bytes) :=
  ' (f, _) <- codec_encode ev place h r ;;
  encode lz uncompressed false f.

(** decoder.go:37-67 Decode with a non-nil reader.  [xml] stands for
    rbxlx.Decoder.Decode (:48) on the bytes of the reader.  Warnings of the
    file come before those of the codec. *)
Inductive fwarn := WFile (w : warning) | WCodec (w : cwarn) | WXml (w : xerr).
Inductive ferr := FErr (e : err) | FXml (e : xerr).       (* errors.go:79 XMLError *)
Definition tree_res := outcome (ferr * list fwarn) (root * heap * list fwarn).
Definition Decoder_Decode (lz : lz4) (spare : nat -> nat) (q2m : quat) (xml : bytes -> tree_res) (noXML : bool)
    (input : bytes) : tree_res :=
  match decode lz spare noXML input with
  | Err (e, ws, _) => Err (FErr e, map WFile ws)
  | Panic => Panic
  | Hang => Hang
  | OK (DXml b, _, _) => xml b                            (* :49: warn is overwritten *)
  | OK (DModel f, ws, _) =>
      match codec_decode q2m f with
      | OK (r, h, cws) => OK (r, h, map WFile ws ++ map WCodec cws)
      | Err (e, cws) => Err (FErr e, map WFile ws ++ map WCodec cws)
      | Panic => Panic
      | Hang => Hang
      end
  end.
