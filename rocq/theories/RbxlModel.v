(** RbxlModel.v - model of /repo/rbxl/model.go: chunks, their payload encoding
    and the raw chunk framing.

    github.com/anaminus/parse's BinaryReader and BinaryWriter (not in the
    repository) are modelled as: little-endian numbers, io.ReadFull for bytes,
    an error that sticks.  A reader is a function from the remaining bytes to
    a result and the bytes then remaining; an error also carries the bytes
    remaining when it occurred, from which the reported offset is computed.
    Readers and writers that fail by themselves are not modelled, nor is the
    memory needed by [make]. *)
From Verif Require Import Base RbxlValues RbxlArrays.

Definition rres A := outcome (err * bytes) (A * bytes).

(** parse.BinaryReader.Bytes of n bytes: io.ReadFull consumes what there is. *)
Definition rBytes (n : N) (b : bytes) : rres bytes :=
  if (N.of_nat (length b) <? n)%N
  then Err ((match b with [] => EEOF | _ => EUnexpectedEOF end), [])
  else OK (firstn (N.to_nat n) b, skipn (N.to_nat n) b).
(** parse.BinaryReader.Number of k bytes *)
Definition rNum (k : nat) (b : bytes) : rres N :=
  ' (w, b) <- rBytes (N.of_nat k) b ;; OK (le_N w, b).
Definition rI32 (b : bytes) : rres Z := ' (w, b) <- rNum 4 b ;; OK (ofN 32 w, b).
(** parse.BinaryReader.Add(0, err) for a call that returned an error *)
Definition rAdd {A} (o : res A) (b : bytes) : rres A :=
  match o with OK a => OK (a, b) | Err e => Err (e, b) | Panic => Panic | Hang => Hang end.

(** model.go:26-43 readString *)
Definition readString (b : bytes) : rres bytes :=
  ' (n, b) <- rNum 4 b ;; rBytes n b.
(** model.go:45-55 writeString: uint32(len) wraps *)
Definition writeString (s : bytes) : bytes := le32 (N.of_nat (length s)) ++ s.

(** Signatures: model.go:325, 449, 485, 589, 667, 715 *)
Definition sigINST : N := 0x54534E49.
Definition sigEND : N := 0x00444E45.
Definition sigPRNT : N := 0x544E5250.
Definition sigPROP : N := 0x504F5250.
Definition sigMETA : N := 0x4154454D.
Definition sigSSTR : N := 0x52545353.
(** model.go:60-72 validChunk *)
Definition validChunk (s : N) : bool :=
  existsb (N.eqb s) [sigMETA; sigSSTR; sigINST; sigPROP; sigPRNT; sigEND].

(** ** Chunk payloads *)
Inductive payload :=
| PMeta (values : list (bytes * bytes))                              (* model.go:670 *)
| PSstr (version : N) (values : list (bytes * bytes))                (* :718, hash and value *)
| PInst (classID : Z) (className : bytes) (ids : list Z) (isService : bool) (getService : bytes) (* :330 *)
| PProp (classID : Z) (name : bytes) (props : option array)          (* :593 *)
| PPrnt (version : N) (children parents : list Z)                    (* :489 *)
| PEnd (content : bytes)                                             (* :453 *)
| PUnknown (sig : N) (content : bytes)                               (* :268 *)
| PErrored (sig : N) (offset : nat) (cause : err) (content : bytes). (* :291; of the partially
    decoded inner chunk only its signature is kept *)

(** The Signature methods *)
Definition psig (p : payload) : N :=
  match p with
  | PMeta _ => sigMETA | PSstr _ _ => sigSSTR | PInst _ _ _ _ _ => sigINST
  | PProp _ _ _ => sigPROP | PPrnt _ _ _ => sigPRNT | PEnd _ => sigEND
  | PUnknown s _ => s | PErrored s _ _ _ => s
  end.
(** A chunk: payload and the [compressed] flag (model.go:127-135). *)
Record chunk := Chunk { ch_compressed : bool; ch_payload : payload }.

(** The WriteTo methods: model.go:282, 310, 413, 476, 562, 640, 698, 761. *)
Definition write_ids (l : list Z) : res bytes :=
  match l with [] => OK [] | _ => refArrayToBytes l end.
Definition payload_bytes (p : payload) : res bytes :=
  match p with
  | PMeta vs =>
      OK (le32 (N.of_nat (length vs)) ++ flat_map (fun kv => writeString (fst kv) ++ writeString (snd kv)) vs)
  | PSstr v vs =>
      OK (le32 v ++ le32 (N.of_nat (length vs)) ++ flat_map (fun hv => fst hv ++ writeString (snd hv)) vs)
  | PInst id name ids svc gs =>
      r <- write_ids ids ;;
      OK (le32 (toN 32 id) ++ writeString name ++ [if svc then x01 else x00]
          ++ le32 (N.of_nat (length ids)) ++ r ++ (if svc then gs else []))
  | PProp id name None => OK (le32 (toN 32 id) ++ writeString name)
  | PProp id name (Some a) =>
      r <- typeArrayToBytes a ;;
      OK (le32 (toN 32 id) ++ writeString name ++ r)
  | PPrnt v ch ps =>
      if negb (length ps =? length ch)%nat then Err (EParentArray (length ch) (length ps))
      else
        c <- write_ids ch ;; p <- write_ids ps ;;
        OK ([N2b v] ++ le32 (N.of_nat (length ch)) ++ c ++ p)
  | PEnd c => OK c
  | PUnknown _ c => OK c
  | PErrored _ _ _ c => OK c
  end.

(** The Decode methods.  *)

(** model.go:382-403, 527-559: [make([]byte, n*4)] with n a uint32 *)
Definition read_ids (n : N) (b : bytes) : rres (list Z) :=
  if (n =? 0)%N then OK ([], b)
  else
    ' (raw, b) <- rBytes (n * 4 mod 2 ^ 32) b ;;
    rAdd (refArrayFromBytes raw (N.to_nat n)) b.

Fixpoint read_pairs (n : nat) (b : bytes) : rres (list (bytes * bytes)) :=   (* :682-692 *)
  match n with
  | O => OK ([], b)
  | S n =>
      ' (k, b) <- readString b ;;
      ' (v, b) <- readString b ;;
      ' (r, b) <- read_pairs n b ;;
      OK ((k, v) :: r, b)
  end.
(** :744-756.  A failed hash read does not return at once, but the reader's
    error sticks and makes the following readString fail. *)
Fixpoint read_shared (n : nat) (b : bytes) : rres (list (bytes * bytes)) :=
  match n with
  | O => OK ([], b)
  | S n =>
      ' (h, b) <- rBytes 16 b ;;
      ' (v, b) <- readString b ;;
      ' (r, b) <- read_shared n b ;;
      OK ((h, v) :: r, b)
  end.

(** model.go:673-696 *)
Definition read_meta (b : bytes) : rres payload :=
  ' (n, b) <- rNum 4 b ;;
  ' (vs, b) <- read_pairs (N.to_nat n) b ;;
  OK (PMeta vs, b).
(** model.go:731-759 *)
Definition read_sstr (b : bytes) : rres payload :=
  ' (v, b) <- rNum 4 b ;;
  ' (n, b) <- rNum 4 b ;;
  ' (vs, b) <- read_shared (N.to_nat n) b ;;
  OK (PSstr v vs, b).
(** model.go:364-411 *)
Definition read_inst (b : bytes) : rres payload :=
  ' (id, b) <- rI32 b ;;
  ' (name, b) <- readString b ;;
  ' (svc, b) <- rNum 1 b ;;
  let svc := negb (svc =? 0)%N in
  ' (n, b) <- rNum 4 b ;;
  ' (ids, b) <- read_ids n b ;;
  ' (gs, b) <- (if svc then rBytes n b else OK ([], b)) ;;
  OK (PInst id name ids svc gs, b).
(** model.go:514-560 *)
Definition read_prnt (b : bytes) : rres payload :=
  ' (v, b) <- rNum 1 b ;;
  ' (n, b) <- rNum 4 b ;;
  ' (ch, b) <- read_ids n b ;;
  ' (ps, b) <- read_ids n b ;;
  OK (PPrnt v ch ps, b).
(** model.go:605-638.  [groups] gives the number of instances of the INST
    chunk registered for a class id; [spare n] is the capacity beyond n bytes
    of the buffer that io.ReadAll returns.  The error is wrapped in a
    ValueError when the type byte is valid. *)
Definition prop_error (raw : bytes) (e : err) : err :=
  match raw with
  | t :: _ => match tid_of_byte t with Some _ => EValue t e | None => e end
  | [] => e
  end.
Definition read_prop (spare : nat -> nat) (groups : Z -> option nat) (b : bytes) : rres payload :=
  ' (id, b) <- rI32 b ;;
  match groups id with
  | None => Err (EUnknownID id, b)
  | Some n =>
      ' (name, raw) <- readString b ;;
      match raw with
      | [] => OK (PProp id name None, [])
      | _ =>
          match typeArrayFromBytes (spare (length raw)) raw n with
          | OK (a, _) => OK (PProp id name (Some a), [])
          | Err e => Err (prop_error raw e, [])
          | Panic => Panic
          | Hang => Hang
          end
      end
  end.

(** decoder.go:209-240: the payload of a raw chunk by signature; an error is
    not an error of the file.  chunkEnd.Decode (model.go:468) reads it all. *)
Definition read_payload (spare : nat -> nat) (groups : Z -> option nat) (sg : N) (b : bytes) : rres payload :=
  if (sg =? sigMETA)%N then read_meta b
  else if (sg =? sigSSTR)%N then read_sstr b
  else if (sg =? sigINST)%N then read_inst b
  else if (sg =? sigPROP)%N then read_prop spare groups b
  else if (sg =? sigPRNT)%N then read_prnt b
  else if (sg =? sigEND)%N then OK (PEnd b, [])
  else OK (PUnknown sg b, []).

(** ** Raw chunks *)

(** github.com/bkaradzic/go-lz4 (not in the repository): [lz_enc] is
    lz4.Encode without the four length bytes it puts first, None when it
    returns an error; [lz_dec n c] is the content of an n-byte destination
    after lz4.Decode, None for an error. *)
Record lz4 := Lz4 { lz_enc : bytes -> option bytes; lz_dec : N -> bytes -> option bytes }.

Record rawchunk := Raw { raw_sig : N; raw_compressed : bool; raw_payload : bytes }.

(** model.go:149-203 rawChunk.Decode.  [compressedLength+4] is a uint32: within
    four of 2^32 the buffer is too short for PutUint32. *)
Definition raw_read (lz : lz4) (b : bytes) : rres rawchunk :=
  ' (sg, b) <- rNum 4 b ;;
  ' (clen, b) <- rNum 4 b ;;
  ' (dlen, b) <- rNum 4 b ;;
  ' (_, b) <- rNum 4 b ;;
  if (clen =? 0)%N then
    ' (p, b) <- rBytes dlen b ;; OK (Raw sg false p, b)
  else if (2 ^ 32 <=? clen + 4)%N then Panic
  else
    ' (c, b) <- rBytes clen b ;;
    match lz_dec lz dlen c with
    | Some p => OK (Raw sg true p, b)
    | None => Err (ELz4, b)
    end.

(** model.go:206-263 rawChunk.WriteTo *)
Definition raw_write (lz : lz4) (c : rawchunk) : res bytes :=
  let len := N.of_nat (length (raw_payload c)) in
  if raw_compressed c then
    match lz_enc lz (raw_payload c) with
    | None => Err ELz4
    | Some d =>
        OK (le32 (raw_sig c) ++ le32 (N.of_nat (length d)) ++ le32 len ++ le32 0 ++ d)
    end
  else OK (le32 (raw_sig c) ++ le32 0 ++ le32 len ++ le32 0 ++ raw_payload c).
