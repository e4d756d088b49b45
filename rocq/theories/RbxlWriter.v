(** RbxlWriter.v - model of /repo/rbxl/encoder.go and of Decoder.Decompress with
    a writer that may fail.  RbxlFile.v is the same encoder with a writer that
    accepts everything. *)
From Verif Require Import Base RbxlValues RbxlArrays RbxlModel RbxlFile RbxValues Tree RbxlCodec RbxlApi.

Section Writer.
Context {E : Type}.

(** An io.Writer: what it answers to Write(p) may depend on everything it was
    asked before.  A call is the argument, the count and the error returned. *)
Record call := Call { c_arg : bytes; c_n : nat; c_err : option E }.
Definition writer := list call -> bytes -> nat * option E.

(** [errors.Errors{}] - a list of no errors - is a non-nil error
    (errors/errors.go:27); encodeError tests for it (encoder.go:42-44). *)
Variable no_errors : E -> bool.

(** What an error of the encoder carries: the error of the writer, or of the
    model being encoded. *)
Inductive wcause := CWriter (e : E) | CModel (e : err).

(** parse.BinaryWriter: the calls made so far, the count N(), the sticky error *)
Record bw := BW { bw_calls : list call; bw_n : nat; bw_err : option wcause }.
Definition bw0 := BW [] 0 None.

Inductive status := SGo | SFail | SPanic | SHang.
Definition op := bw -> bw * status.
Definition seq (a b : op) : op := fun s => match a s with (s, SGo) => b s | r => r end.
Notation "a >> b" := (seq a b) (at level 61, right associativity).

(** parse.BinaryWriter.Bytes, Number: one Write each *)
Definition wBytes (w : writer) (p : bytes) : op := fun s =>
  match bw_err s with
  | Some _ => (s, SFail)
  | None =>
      let '(n, e) := w (bw_calls s) p in
      let s' := BW (bw_calls s ++ [Call p n e]) (bw_n s + n) (option_map CWriter e) in
      (s', match e with Some _ => SFail | None => SGo end)
  end.
(** parse.BinaryWriter.Add(n, err) *)
Definition wAdd (n : nat) (e : option wcause) : op := fun s =>
  match bw_err s with
  | Some _ => (s, SFail)
  | None => (BW (bw_calls s) (bw_n s + n) e, match e with Some _ => SFail | None => SGo end)
  end.

(** model.go:206-263 rawChunk.WriteTo.  The sanity check at :220 is part of the
    lz4 interface. *)
Definition raw_writeTo (w : writer) (lz : lz4) (c : rawchunk) : op :=
  let len := N.of_nat (length (raw_payload c)) in
  wBytes w (le32 (raw_sig c)) >>                                         (* :207 *)
  (if raw_compressed c then
     match lz_enc lz (raw_payload c) with
     | None => wAdd 0 (Some (CModel ELz4))                               (* :214 *)
     | Some d =>
         wBytes w (le32 (N.of_nat (length d))) >> wBytes w (le32 len) >> wBytes w (le32 0) >>
         wBytes w d
     end
   else
     wBytes w (le32 0) >> wBytes w (le32 len) >> wBytes w (le32 0) >> wBytes w (raw_payload c)).

(** The count that chunk.WriteTo returns along with an error: PRNT writes its
    version before it compares the lengths (model.go:566-577), PROP the class
    and the name before the array (:658-683). *)
Definition count_at_error (p : payload) : nat :=
  match p with
  | PPrnt _ _ _ => 1
  | PProp _ name _ => 8 + length name
  | _ => 0
  end.
(** encoder.go:100-103: the chunk is written to a buffer, and what is written
    to the buffer is added to the count of the file *)
Definition chunk_writeTo (w : writer) (lz : lz4) (uncompressed : bool) (c : chunk) : op :=
  match payload_bytes (ch_payload c) with
  | OK p =>
      wAdd (length p) None >>
      raw_writeTo w lz (Raw (psig (ch_payload c)) (negb uncompressed && ch_compressed c) p)  (* :107 *)
  | Err e => wAdd (count_at_error (ch_payload c)) (Some (CModel e))
  | Panic => fun s => (s, SPanic)
  | Hang => fun s => (s, SHang)
  end.

(** encoder.go:78-110: the loop; [ws] are the warnings so far *)
Fixpoint chunks_writeTo (w : writer) (lz : lz4) (uncompressed dcomp : bool) (i n : nat) (cs : list chunk)
    (ws : list warning) (s : bw) : bw * status * list warning :=
  match cs with
  | [] => (s, SGo, ws)
  | c :: cs =>
      let ws := ws ++ enc_warns uncompressed dcomp i n c in
      match chunk_writeTo w lz uncompressed c s with
      | (s, SGo) => chunks_writeTo w lz uncompressed dcomp (S i) n cs ws s
      | (s, st) => (s, st, ws)
      end
  end.

(** encoder.go:39-49 encodeError(fw, nil); DataError{Offset, Cause} *)
Record dataError := DataError { de_offset : nat; de_cause : wcause }.
Definition encodeError (s : bw) : option dataError :=
  match bw_err s with
  | None => None
  | Some (CWriter e) => if no_errors e then None else Some (DataError (bw_n s) (CWriter e))
  | Some c => Some (DataError (bw_n s) c)
  end.

(** What a call of the encoder does: the calls of Write it made, and the
    warnings and the error it returned. *)
Inductive werror := WData (d : dataError) | WCodecErr (e : err) | WDecode (e : err) | WNilWriter | WNilReader.
Record ran := Ran { r_calls : list call; r_result : outcome Empty_set (list warning * option werror) }.

(** encoder.go:51-115 encode *)
Definition finish (r : bw * status * list warning) : ran :=
  match r with
  | (s, SPanic, _) => Ran (bw_calls s) Panic
  | (s, SHang, _) => Ran (bw_calls s) Hang
  | (s, _, ws) => Ran (bw_calls s) (OK (ws, option_map WData (encodeError s)))
  end.
Definition encodeTo (w : writer) (lz : lz4) (uncompressed dcomp : bool) (f : fmodel) : ran :=
  match (wBytes w (robloxSig ++ binaryMarker ++ binaryHeader) >>          (* :56 *)
         wBytes w (le16 (fm_version f)) >>                                (* :60 *)
         wBytes w (le32 (fm_classCount f)) >>                             (* :64 *)
         wBytes w (le32 (fm_instCount f)) >>                              (* :68 *)
         wBytes w (le64 0)) bw0 with                                      (* :73 *)
  | (s, SGo) =>
      match chunks_writeTo w lz uncompressed dcomp 0 (length (fm_chunks f)) (fm_chunks f) [] s with
      | (s, SGo, ws) => finish (wBytes w (fm_trailing f) s, ws)           (* :112 *)
      | r => finish r
      end
  | r => finish (r, [])
  end.

(** encoder.go:23-37 Encode; the writer may be nil.  The warnings of the codec
    are dropped (:35) unless it fails (:32); of those nothing is kept here. *)
Definition Encode_to (w : option writer) (ev : env) (lz : lz4) (place uncompressed : bool) (h : heap)
    (r : option root) : ran :=
  match w with
  | None => Ran [] (OK ([], Some WNilWriter))
  | Some w =>
      match codec_encode ev place h r with
      | OK (f, _) => encodeTo w lz uncompressed false f
      | Err e => Ran [] (OK ([], Some (WCodecErr e)))
      | Panic => Ran [] Panic
      | Hang => Ran [] Hang
      end
  end.

(** decoder.go:69-88 Decompress; the reader and the writer may be nil.  Only the
    reader is tested (:70): the first Write on a nil writer panics. *)
Definition Decompress_to (w : option writer) (lz : lz4) (noXML : bool) (input : option bytes) : ran :=
  match input with
  | None => Ran [] (OK ([], Some WNilReader))
  | Some input =>
      match decode_dcomp lz noXML input with
      | OK (DXml _, ws, _) => Ran [] (OK (ws, Some (WDecode EXML)))
      | OK (DModel f, ws, _) =>
          match w with
          | None => Ran [] Panic
          | Some w =>
              let r := encodeTo w lz true true f in
              Ran (r_calls r) (' (ws2, e) <- r_result r ;; OK (ws ++ ws2, e))
          end
      | Err (e, ws, _) => Ran [] (OK (ws, Some (WDecode e)))
      | Panic => Ran [] Panic
      | Hang => Ran [] Hang
      end
  end.
End Writer.
Arguments writer : clear implicits.
Arguments call : clear implicits.
Arguments ran : clear implicits.
