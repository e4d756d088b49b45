(** RbxlFile.v - model of /repo/rbxl/encoder.go (encode) and
    /repo/rbxl/decoder.go (decode, decodeChunks, decompressChunks, Decompress):
    the file container.  Model of the codec: RbxlCodec.v. *)
From Verif Require Import Base RbxlValues RbxlArrays RbxlModel.

(** model.go:16-22 *)
Definition robloxSig : bytes := str "<roblox".
Definition binaryMarker : bytes := str "!".
Definition binaryHeader : bytes := [x89; xff; x0d; x0a; x1a; x0a].
(** decoder.go:256, encoder.go:80 *)
Definition endContent : bytes := str "</roblox>".

(** model.go:75-92 formatModel.  [fm_groups] is groupLookup: class id to the
    position in Chunks of the registered INST chunk and its InstanceIDs (the
    Go map holds a pointer to the chunk; position stands for identity). *)
Definition groups := list (Z * (nat * list Z)).
Fixpoint group_get (g : groups) (id : Z) : option (nat * list Z) :=
  match g with
  | [] => None
  | (k, v) :: g => if (k =? id)%Z then Some v else group_get g id
  end.
Definition group_set (g : groups) (id : Z) (v : nat * list Z) : groups := (id, v) :: g.
Definition group_len (g : groups) (id : Z) : option nat :=
  match group_get g id with Some (_, ids) => Some (length ids) | None => None end.

Record fmodel := FModel {
  fm_version : N; fm_classCount : N; fm_instCount : N;
  fm_chunks : list chunk; fm_trailing : bytes; fm_groups : groups }.

(** Warnings of the container (errors.go:10-22, 37-49, 138). *)
Inductive warning :=
| WReserve (offset : nat) (b : bytes)
| WUnknownSig (i : nat) (sg : N)
| WChunk (i : nat) (sg : N) (cause : err)
| WEndCompressed
| WEndContent
| WEndNotLast.

(** ** encoder.go:51-115 encode *)
Definition enc_warns (uncompressed dcomp : bool) (i n : nat) (c : chunk) : list warning :=
  (if negb (validChunk (psig (ch_payload c))) && negb dcomp
   then [WUnknownSig i (psig (ch_payload c))] else []) ++
  match ch_payload c with
  | PEnd content =>
      (if negb uncompressed && ch_compressed c then [WEndCompressed] else []) ++
      (if negb (bytes_eqb content endContent) && negb dcomp then [WEndContent] else []) ++
      (if negb (S i =? n)%nat && negb dcomp then [WEndNotLast] else [])
  | _ => []
  end.
Definition enc_chunk (lz : lz4) (uncompressed : bool) (c : chunk) : res bytes :=
  p <- payload_bytes (ch_payload c) ;;
  raw_write lz (Raw (psig (ch_payload c)) (negb uncompressed && ch_compressed c) p).
Fixpoint enc_chunks (lz : lz4) (uncompressed dcomp : bool) (i n : nat) (cs : list chunk)
  : res (list warning * bytes) :=
  match cs with
  | [] => OK ([], [])
  | c :: cs =>
      b <- enc_chunk lz uncompressed c ;;
      ' (ws, r) <- enc_chunks lz uncompressed dcomp (S i) n cs ;;
      OK (enc_warns uncompressed dcomp i n c ++ ws, b ++ r)
  end.
(** Simplification: when a chunk fails, the bytes and warnings produced before
    it are dropped and only the error is kept. *)
Definition encode (lz : lz4) (uncompressed dcomp : bool) (f : fmodel) : res (list warning * bytes) :=
  ' (ws, b) <- enc_chunks lz uncompressed dcomp 0 (length (fm_chunks f)) (fm_chunks f) ;;
  OK (ws, robloxSig ++ binaryMarker ++ binaryHeader ++ le16 (fm_version f) ++
          le32 (fm_classCount f) ++ le32 (fm_instCount f) ++ le64 0 ++ b ++ fm_trailing f).

(** ** decoder.go *)

(** decoder.go:13-21 DecoderStats; ChunkTypes as the list of signatures seen,
    in order (the Go map counts them by their printable form). *)
Record stats := Stats {
  st_xml : bool; st_version : N; st_classCount : N; st_instCount : N;
  st_chunks : nat; st_chunkTypes : list N }.
Definition stats0 := Stats false 0 0 0 0 [].
Definition st_sig (st : stats) (sg : N) :=
  Stats (st_xml st) (st_version st) (st_classCount st) (st_instCount st) (st_chunks st)
        (st_chunkTypes st ++ [sg]).
Definition st_chunk (st : stats) :=
  Stats (st_xml st) (st_version st) (st_classCount st) (st_instCount st) (S (st_chunks st))
        (st_chunkTypes st).

(** State of the chunk loop. *)
Record dstate := DState { ds_chunks : list chunk; ds_warns : list warning; ds_groups : groups; ds_stats : stats }.

(** decoder.go:192-265 decodeChunks, one iteration at a time.  [Some] rest when
    the END chunk was read.  A failed read of the raw chunk ends decoding
    with the reader's error (DataError, decoder.go:86). *)
Definition dec_step (spare : nat -> nat) (i : nat) (rc : rawchunk) (s : dstate) : res (dstate * bool) :=
  let sg := raw_sig rc in
  let st := st_sig (ds_stats s) sg in
  match read_payload spare (group_len (ds_groups s)) sg (raw_payload rc) with
  | Panic => Panic
  | Hang => Hang
  | Err (e, rest) =>
      let p := PErrored sg (length (raw_payload rc) - length rest) e (raw_payload rc) in
      OK (DState (ds_chunks s ++ [Chunk (raw_compressed rc) p])
                 (ds_warns s ++ [WChunk i sg e]) (ds_groups s) st, false)
  | OK (p, _) =>
      let g := match p with
               | PInst id _ ids _ _ => group_set (ds_groups s) id (i, ids)
               | _ => ds_groups s
               end in
      let w := match p with
               | PUnknown _ _ => [WUnknownSig i sg]
               | PEnd c =>
                   (if raw_compressed rc then [WEndCompressed] else []) ++
                   (if bytes_eqb c endContent then [] else [WEndContent])
               | _ => []
               end in
      OK (DState (ds_chunks s ++ [Chunk (raw_compressed rc) p]) (ds_warns s ++ w) g (st_chunk st),
          match p with PEnd _ => true | _ => false end)
  end.
(** decoder.go:267-301 decompressChunks, one iteration *)
Definition dcomp_step (rc : rawchunk) (s : dstate) : dstate * bool :=
  (DState (ds_chunks s ++ [Chunk (raw_compressed rc) (PUnknown (raw_sig rc) (raw_payload rc))])
          (ds_warns s) (ds_groups s) (st_chunk (st_sig (ds_stats s) (raw_sig rc))),
   (raw_sig rc =? sigEND)%N).

(** The loop; the fuel is an upper bound of the number of chunks. *)
Fixpoint chunk_loop (lz : lz4) (step : nat -> rawchunk -> dstate -> res (dstate * bool))
    (fuel i : nat) (b : bytes) (s : dstate) : outcome (err * dstate) (dstate * bytes) :=
  match fuel with
  | O => Hang
  | S fuel =>
      match raw_read lz b with
      | Err (e, _) => Err (e, s)
      | Panic => Panic
      | Hang => Hang
      | OK (rc, b) =>
          match step i rc s with
          | OK (s, true) => OK (s, b)
          | OK (s, false) => chunk_loop lz step fuel (S i) b s
          | Err e => Err (e, s)
          | Panic => Panic
          | Hang => Hang
          end
      end
  end.

(** decoder.go:97-190 decode.  Result: the XML bytes to hand on, or the model;
    warnings and stats come along, on errors too. *)
Inductive decoded := DXml (b : bytes) | DModel (f : fmodel).
Definition dres := outcome (err * list warning * stats) (decoded * list warning * stats).
Definition fail (e : err) (st : stats) : dres := Err (e, [], st).

Definition decode_body (lz : lz4) (step : nat -> rawchunk -> dstate -> res (dstate * bool))
    (noXML : bool) (input : bytes) : dres :=
  match rBytes 8 input with                                             (* :102 *)
  | OK (sg, b) =>
    if negb (bytes_eqb (firstn 7 sg) robloxSig) then fail EInvalidSig stats0
    else if negb (bytes_eqb (skipn 7 sg) binaryMarker) then              (* :111 *)
      let st := Stats true 0 0 0 0 [] in
      if noXML then fail EInvalidSig st else OK (DXml (sg ++ b), [], st)
    else
    match rBytes 6 b with                                                (* :124 *)
    | OK (h, b) =>
      if negb (bytes_eqb h binaryHeader) then fail EHeader stats0
      else
      match rNum 2 b with                                                (* :133 *)
      | OK (v, b) =>
        let st := Stats false v 0 0 0 [] in
        if negb (v =? 0)%N then fail (EVersion v) st
        else
        match rNum 4 b with                                              (* :144 *)
        | OK (cc, b) =>
          let st := Stats false v cc 0 0 [] in
          match rNum 4 b with                                            (* :153 *)
          | OK (ic, b) =>
            let st := Stats false v cc ic 0 [] in
            match rBytes 8 b with                                        (* :161 *)
            | OK (rsv, b) =>
              let ws := if bytes_eqb rsv (repeat x00 8) then []
                        else [WReserve (length input - length b - 8) rsv] in
              match chunk_loop lz step (S (length b)) 0 b (DState [] ws [] st) with
              | OK (s, rest) =>                                          (* :183 *)
                  OK (DModel (FModel v cc ic (ds_chunks s) rest (ds_groups s)), ds_warns s, ds_stats s)
              | Err (e, s) => Err (e, ds_warns s, ds_stats s)
              | Panic => Panic
              | Hang => Hang
              end
            | Err (e, _) => fail e st | Panic => Panic | Hang => Hang
            end
          | Err (e, _) => fail e st | Panic => Panic | Hang => Hang
          end
        | Err (e, _) => fail e st | Panic => Panic | Hang => Hang
        end
      | Err (e, _) => fail e stats0 | Panic => Panic | Hang => Hang
      end
    | Err (e, _) => fail e stats0 | Panic => Panic | Hang => Hang
    end
  | Err (e, _) => fail e stats0 | Panic => Panic | Hang => Hang
  end.

Definition decode (lz : lz4) (spare : nat -> nat) (noXML : bool) (input : bytes) : dres :=
  decode_body lz (dec_step spare) noXML input.
Definition decode_dcomp (lz : lz4) (noXML : bool) (input : bytes) : dres :=
  decode_body lz (fun _ rc s => OK (dcomp_step rc s)) noXML input.

(** decoder.go:69-88 Decompress *)
Definition decompress (lz : lz4) (noXML : bool) (input : bytes)
  : outcome (err * list warning) (list warning * bytes) :=
  match decode_dcomp lz noXML input with
  | OK (DXml _, ws, _) => Err (EXML, ws)
  | OK (DModel f, ws, _) =>
      match encode lz true true f with
      | OK (ws2, b) => OK (ws ++ ws2, b)
      | Err e => Err (e, ws)
      | Panic => Panic
      | Hang => Hang
      end
  | Err (e, ws, _) => Err (e, ws)
  | Panic => Panic
  | Hang => Hang
  end.
