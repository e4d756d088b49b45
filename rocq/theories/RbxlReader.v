(** RbxlReader.v - model of /repo/rbxl/decoder.go over a reader that gives its
    bytes in pieces and may end in any error.  RbxlFile.v is the same decoder on
    a byte string that ends in io.EOF. *)
From Verif Require Import Base RbxlValues RbxlArrays RbxlModel RbxlFile RbxValues Tree RbxlCodec RbxlApi XmlText XmlDoc XmlCodec.

Section Reader.
Context {E : Type}.

(** An io.Reader: the pieces that successive calls of Read return, however
    large the buffer given - a piece that does not fit is returned in parts -,
    then an error, io.EOF ([None]) or another, each time.  The error may come
    with the last piece or after it ([joined]). *)
Variable fin : option E.
Variable joined : bool.
Definition pieces := list bytes.
Inductive rerr := RIO (e : E) | RErr (e : err).

(** Read of at most k bytes, k > 0: the bytes, the error, what is left *)
Definition read (k : nat) (r : pieces) : bytes * option (option E) * pieces :=
  match r with
  | [] => ([], Some fin, [])
  | d :: r =>
      if length d <=? k then (d, match r with [] => if joined then Some fin else None | _ => None end, r)
      else (firstn k d, None, skipn k d :: r)
  end.

(** io.ReadFull into k bytes (io.ReadAtLeast): reads until there are k bytes or
    an error; an error that comes with the last byte needed is dropped; io.EOF
    after some bytes is ErrUnexpectedEOF.  [got] is what is read so far; the
    fuel covers the loop, as every Read but the last takes a piece. *)
Fixpoint readFull (fuel k : nat) (got : bytes) (r : pieces) : bytes * option rerr * pieces :=
  match fuel with
  | O => (got, None, r)
  | S fuel =>
      if k <=? length got then (got, None, r)
      else
        let '(d, e, r) := read (k - length got) r in
        let got := got ++ d in
        match e with
        | None => readFull fuel k got r
        | Some e =>
            if k <=? length got then (got, None, r)
            else (got, Some (match e with
                             | None => RErr (match got with [] => EEOF | _ => EUnexpectedEOF end)
                             | Some e => RIO e
                             end), r)
        end
  end.
(** io.ReadAll: io.EOF is not an error *)
Definition readAll (r : pieces) : bytes * option rerr :=
  (concat r, match fin with None => None | Some e => Some (RIO e) end).

(** parse.BinaryReader: what is left of the reader and the count N().  The
    error sticks; no call after an error does anything. *)
Record rs := RS { rs_left : pieces; rs_n : nat }.
Definition rop A := rs -> outcome (rerr * rs) (A * rs).
Definition opBytes (n : N) : rop bytes := fun s =>
  match readFull (S (S (length (rs_left s)))) (N.to_nat n) [] (rs_left s) with
  | (got, None, r) => OK (got, RS r (rs_n s + length got))
  | (got, Some e, r) => Err (e, RS r (rs_n s + length got))
  end.
Definition opNum (k : nat) : rop N := fun s => ' (w, s) <- opBytes (N.of_nat k) s ;; OK (le_N w, s).

(** model.go:149-203 rawChunk.Decode *)
Definition opRaw (lz : lz4) : rop rawchunk := fun s =>
  ' (sg, s) <- opNum 4 s ;;
  ' (clen, s) <- opNum 4 s ;;
  ' (dlen, s) <- opNum 4 s ;;
  ' (_, s) <- opNum 4 s ;;
  if (clen =? 0)%N then
    ' (p, s) <- opBytes dlen s ;; OK (Raw sg false p, s)
  else if (2 ^ 32 <=? clen + 4)%N then Panic
  else
    ' (c, s) <- opBytes clen s ;;
    match lz_dec lz dlen c with
    | Some p => OK (Raw sg true p, s)
    | None => Err (RErr ELz4, s)
    end.

(** decoder.go:192-301 decodeChunks and decompressChunks, as in RbxlFile.v *)
Fixpoint opChunks (lz : lz4) (step : nat -> rawchunk -> dstate -> res (dstate * bool))
    (fuel i : nat) (s : rs) (d : dstate) : outcome (rerr * rs * dstate) (dstate * rs) :=
  match fuel with
  | O => Hang
  | S fuel =>
      match opRaw lz s with
      | Err (e, s) => Err (e, s, d)
      | Panic => Panic
      | Hang => Hang
      | OK (rc, s) =>
          match step i rc d with
          | OK (d, true) => OK (d, s)
          | OK (d, false) => opChunks lz step fuel (S i) s d
          | Err e => Err (RErr e, s, d)
          | Panic => Panic
          | Hang => Hang
          end
      end
  end.

(** A DataError: the count of bytes read, and the cause (decoder.go:90-96) *)
Record rdErr := RdErr { rd_offset : nat; rd_cause : rerr }.
Inductive rdecoded := RXml (signature : bytes) (left : pieces) | RModel (f : fmodel).
Definition rdres := outcome (rdErr * list warning * stats) (rdecoded * list warning * stats).
Definition failR (e : rerr) (s : rs) (st : stats) : rdres := Err (RdErr (rs_n s) e, [], st).

(** decoder.go:98-190 decode.  Fuel for the chunks: their number is bounded by
    the bytes left. *)
Definition decodeR (lz : lz4) (step : nat -> rawchunk -> dstate -> res (dstate * bool)) (noXML : bool) (input : pieces) : rdres :=
  match opBytes 8 (RS input 0) with
  | OK (sg, s) =>
    if negb (bytes_eqb (firstn 7 sg) robloxSig) then failR (RErr EInvalidSig) s stats0
    else if negb (bytes_eqb (skipn 7 sg) binaryMarker) then
      let st := Stats true 0 0 0 0 [] in
      if noXML then failR (RErr EInvalidSig) s st else OK (RXml sg (rs_left s), [], st)
    else
    match opBytes 6 s with
    | OK (h, s) =>
      if negb (bytes_eqb h binaryHeader) then failR (RErr EHeader) s stats0
      else
      match opNum 2 s with
      | OK (v, s) =>
        let st := Stats false v 0 0 0 [] in
        if negb (v =? 0)%N then failR (RErr (EVersion v)) s st
        else
        match opNum 4 s with
        | OK (cc, s) =>
          let st := Stats false v cc 0 0 [] in
          match opNum 4 s with
          | OK (ic, s) =>
            let st := Stats false v cc ic 0 [] in
            match opBytes 8 s with
            | OK (rsv, s) =>
              let ws := if bytes_eqb rsv (repeat x00 8) then [] else [WReserve (rs_n s - 8) rsv] in
              match opChunks lz step (S (length (concat (rs_left s)))) 0 s (DState [] ws [] st) with
              | OK (d, s) =>                                                  (* :183 *)
                  match readAll (rs_left s) with
                  | (rest, None) => OK (RModel (FModel v cc ic (ds_chunks d) rest (ds_groups d)), ds_warns d, ds_stats d)
                  | (rest, Some e) => Err (RdErr (rs_n s + length rest) e, ds_warns d, ds_stats d)
                  end
              | Err (e, s, d) => Err (RdErr (rs_n s) e, ds_warns d, ds_stats d)
              | Panic => Panic
              | Hang => Hang
              end
            | Err (e, s) => failR e s st | Panic => Panic | Hang => Hang
            end
          | Err (e, s) => failR e s st | Panic => Panic | Hang => Hang
          end
        | Err (e, s) => failR e s st | Panic => Panic | Hang => Hang
        end
      | Err (e, s) => failR e s stats0 | Panic => Panic | Hang => Hang
      end
    | Err (e, s) => failR e s stats0 | Panic => Panic | Hang => Hang
    end
  | Err (e, s) => failR e s stats0 | Panic => Panic | Hang => Hang
  end.
Definition decode_reader (lz : lz4) (spare : nat -> nat) := decodeR lz (dec_step spare).
Definition decompress_reader (lz : lz4) := decodeR lz (fun _ rc s => OK (dcomp_step rc s)).
End Reader.
