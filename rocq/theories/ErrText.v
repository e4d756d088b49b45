(** ErrText.v - model of the texts of the errors and warnings of package rbxl:
    the Error and Unwrap methods of /repo/rbxl/errors.go, arrays.go, codec.go
    and values.go, and the error values that the decoder returns. *)
From Verif Require Import Base RbxlValues RbxlArrays RbxlModel RbxlFile RbxValues Tree RbxlCodec RbxlApi XmlText Errors RbxlDump.

(** An error value.  [GPlain] is an error without an Unwrap method, seen only
    through its text.  The exported wrappers can be made by anyone, also with a
    nil cause. *)
Inductive gerr :=
| GPlain (msg : bytes)
| GIndex (i : nat) (cause : gerr)                  (* arrays.go:32 indexError, not exported *)
| GValue (t : byte) (cause : option gerr)          (* errors.go:65 ValueError *)
| GXml (cause : option gerr)                       (* errors.go:80 XMLError *)
| GCodec (cause : option gerr)                     (* errors.go:97 CodecError *)
| GData (offset : Z) (cause : option gerr)         (* errors.go:113 DataError *)
| GChunk (i : Z) (sg : N) (cause : option gerr).   (* errors.go:138 ChunkError *)

(** arrays.go:41, errors.go:75, 91, 107, 133, 155: the Unwrap methods *)
Definition gunwrap (e : gerr) : option gerr :=
  match e with
  | GPlain _ => None
  | GIndex _ c => Some c
  | GValue _ c | GXml c | GCodec c | GData _ c | GChunk _ _ c => c
  end.

(** The verb %X of a byte *)
Definition verb_X (b : byte) : bytes :=
  if (b2N b <? 16)%N then [hex_at upper_hex (b2N b)] else upper_byte b.
(** model.go:101-110 sig.String *)
Definition sig_string (sg : N) : bytes := map (fun c => if latin_print c then c else x2e) (le32 sg).
(** values.go:220-287 typeID.String, also of an invalid type *)
Definition tid_name (t : option tid) : bytes := match t with Some t => tid_string t | None => str "Invalid" end.
Definition count (n : nat) : bytes := FormatUint (N.of_nat n).   (* %d of a length or an index *)

Section Text.
Variable de : denv.          (* strconv.IsPrint, for %q *)
Variable lz4_text : bytes.   (* the text of the error of the lz4 library (model.go:197) *)

(** The Error methods: arrays.go:37-39, errors.go:71-73, 84-89, 100-105,
    119-131, 147-153.  ValueError and ChunkError call the Error method of the
    cause, which panics for a nil cause; the others check. *)
Fixpoint gtext (e : gerr) : outcome Empty_set bytes :=
  match e with
  | GPlain m => OK m
  | GIndex i c => t <- gtext c ;; OK (str "#" ++ count i ++ str ": " ++ t)
  | GValue b c =>
      match c with
      | None => Panic
      | Some c => t <- gtext c ;; OK (str "type " ++ tid_name (tid_of_byte b) ++ str " (0x" ++ verb_X b ++ str "): " ++ t)
      end
  | GXml c =>
      match c with
      | None => OK (str "decoding XML")
      | Some c => t <- gtext c ;; OK (str "decoding XML: " ++ t)
      end
  | GCodec c =>
      match c with
      | None => OK (str "codec error")
      | Some c => t <- gtext c ;; OK (str "codec error: " ++ t)
      end
  | GData off c =>
      let s := str "data error" ++ (if (0 <=? off)%Z then str " at " ++ FormatInt off else []) in
      match c with
      | None => OK s
      | Some c => t <- gtext c ;; OK (s ++ str ": " ++ t)
      end
  | GChunk i sg c =>
      match c with
      | None => Panic
      | Some c =>
          t <- gtext c ;;
          OK ((if (i <? 0)%Z then [] else str "#" ++ FormatInt i ++ str " ") ++
              Quote de (sig_string sg) ++ str " chunk: " ++ t)
      end
  end.

(** The error values that [err] stands for: the places cited at [err]. *)
Fixpoint go_err (e : err) : gerr :=
  match e with
  | EBuflen exp got => GPlain (str "expected " ++ FormatUint exp ++ str " bytes, got " ++ count got)       (* values.go:561 *)
  | EUnknownType t => GPlain (str "unknown data type 0x" ++ verb_X t)                                      (* errors.go:36 *)
  | EIndex i c => GIndex i (go_err c)
  | EExpectedType want got => GPlain (str "expected type " ++ FormatUint (b2N want) ++ str ", got " ++ FormatUint (b2N got))
  | ESizePositive => GPlain (str "size must be greater than 0")
  | ESizeDivisor size len => GPlain (str "size (" ++ FormatInt size ++ str ") must be a divisor of array length (" ++ count len ++ str ")")
  | EEOF => GPlain (str "EOF")
  | EUnexpectedEOF => GPlain (str "unexpected EOF")
  | ELz4 => GPlain (str "lz4: " ++ lz4_text)
  | EUnknownID id => GPlain (str "unknown ID `" ++ FormatInt id ++ str "`")
  | EValue t c => GValue t (Some (go_err c))
  | EParentArray children parent =>
      GPlain (str "length of parents array (" ++ count parent ++ str ") does not match length of children array (" ++ count children ++ str ")")
  | EInvalidSig => GPlain (str "invalid signature")
  | EHeader => GPlain (str "the file header is corrupted")
  | EVersion v => GPlain (str "unrecognized version " ++ FormatUint v)
  | EXML => GPlain (str "unexpected XML format")
  | EBounds kind index bounds =>
      GPlain ((match kind with O => str "class index" | 1 => str "instance id" | _ => str "child id" end) ++ str " " ++
              FormatInt index ++ str " out of bounds [0," ++ FormatUint bounds ++ str "]")
  | EGetServiceLen => GPlain (str "GetService array length does not equal InstanceIDs array length")
  | EDuplicateID id => GPlain (str "duplicate instance id: " ++ FormatInt id)
  | EClassIndex id => GPlain (str "invalid class index: " ++ FormatInt id)
  | EPropLen props insts =>
      GPlain (str "length of properties array (" ++ count props ++ str ") does not equal length of class array (" ++ count insts ++ str ")")
  | EParentVersion v => GPlain (str "unrecognized parent link format " ++ FormatUint v)
  | EChunk i sg c => GChunk (Z.of_nat i) sg (Some (go_err c))
  | ENilRoot => GPlain (str "Root is nil")
  end.
(** errors.go:12-21, 48-50 and the chunk errors of decoder.go:241, 247,
    encoder.go:78 *)
Definition go_warning (w : warning) : gerr :=
  match w with
  | WReserve offset b => GPlain (str "unexpected content for reserved bytes near " ++ count offset ++ str ": " ++ spaced_hex b)
  | WUnknownSig i sg => GChunk (Z.of_nat i) sg (Some (GPlain (str "unknown chunk signature")))
  | WChunk i sg c => GChunk (Z.of_nat i) sg (Some (go_err c))
  | WEndCompressed => GPlain (str "end chunk is compressed")
  | WEndContent => GPlain (str "end chunk content is not `</roblox>`")
  | WEndNotLast => GPlain (str "end chunk is not the last chunk")
  end.
(** codec.go:95, 100, 161, 565, 571 through chunkWarn (:25) *)
Definition go_cwarn (w : cwarn) : gerr :=
  let ' (CW i sg k) := w in
  GChunk (Z.of_nat i) sg (Some (GPlain
    match k with
    | CGroup id => str "class `" ++ FormatInt id ++ str "` of property group is invalid or unknown"
    | CNoType => str "no value type"
    | CChild j id => str "child #" ++ count j ++ str ": id " ++ FormatInt id ++ str " does not exist"
    | CMismatch t u class name =>
        str "mismatched types " ++ tid_name t ++ str " and " ++ tid_name u ++ str " for property " ++ class ++ str "." ++ name ++ str ", chunk skipped"
    | COptMismatch t u class name =>
        str "mismatched optional types " ++ tid_name t ++ str " and " ++ tid_name u ++ str " for property " ++ class ++ str "." ++ name ++ str ", chunk skipped"
    end)).
(** The error of Decoder.Decode for a binary file: those of the file are in a
    DataError (decoder.go:86-96) with the offset [off], which RbxlFile.v does
    not keep (RbxlReader.v does); those of the codec are chunk errors
    (codec.go:22). *)
Definition go_decode_err (off : nat) (e : err) : gerr :=
  match e with
  | EChunk _ _ _ => go_err e
  | _ => GData (Z.of_nat off) (Some (go_err e))
  end.
(** The warnings of Decoder.Decode for a binary file as one error value
    (errors.Union, decoder.go:44, 60).  A text that panics is left out here,
    which does not happen: see PropErrText.v. *)
Definition single (e : gerr) : option error := match gtext e with OK t => Some (Single t) | _ => None end.
Definition fwarn_gerr (w : fwarn) : option gerr :=
  match w with WFile w => Some (go_warning w) | WCodec w => Some (go_cwarn w) | WXml _ => None end.
Definition warn_error (ws : list fwarn) : option error :=
  Union (map (fun w => match fwarn_gerr w with Some e => single e | None => None end) ws).
End Text.
