(** SpecModel.v - specification side for chunks and the file container. *)
From Verif Require Import Base RbxlValues RbxlArrays RbxlModel SpecValues SpecArrays SpecWire.

(** A compressor is lossless: what it produces is never empty, fits the 32-bit
    length field, and decompresses to the input; decompression fills exactly
    the destination.  (What the code assumes of go-lz4.) *)
Definition lossless (lz : lz4) : Prop :=
  (forall p c, lz_enc lz p = Some c ->
     c <> [] /\ (N.of_nat (length c) + 4 < 2 ^ 32)%N /\ (N.of_nat (length p) < 2 ^ 32)%N /\
     lz_dec lz (N.of_nat (length p)) c = Some p) /\
  (forall n c p, lz_dec lz n c = Some p -> N.of_nat (length p) = n).
(** The part that decoding alone relies on. *)
Definition fills (lz : lz4) : Prop :=
  forall n c p, lz_dec lz n c = Some p -> N.of_nat (length p) = n.

(** Payloads a Go program can write and whose lengths fit the format.  [g]
    gives the size of the instance group of each class id. *)
Definition ids_ok (l : list Z) : Prop := Forall (int_range 32) l /\ (N.of_nat (length l) < 2 ^ 30)%N.
Definition strs_ok (l : list (bytes * bytes)) : Prop :=
  len32 l /\ Forall (fun kv => len32 (fst kv) /\ len32 (snd kv)) l.
Definition array_ok (a : array) : Prop :=
  wf_array a /\ arr_len a <> 0 /\
  match a with ARR _ _ => True | AOPT _ _ => ~ is_interleaved_type (elem_type a) end.
Definition known_sig (s : N) : Prop :=
  In s [sigMETA; sigSSTR; sigINST; sigPROP; sigPRNT; sigEND].
Definition wf_payload (g : Z -> option nat) (p : payload) : Prop :=
  match p with
  | PMeta vs => strs_ok vs
  | PSstr v vs => f32 v /\ len32 vs /\ Forall (fun hv => length (fst hv) = 16 /\ len32 (snd hv)) vs
  | PInst id name ids svc gs =>
      int_range 32 id /\ len32 name /\ ids_ok ids /\
      (svc = true -> length gs = length ids)
  | PProp id name a =>
      int_range 32 id /\ len32 name /\
      match a with
      | None => exists n, g id = Some n
      | Some a => array_ok a /\ g id = Some (arr_len a)
      end
  | PPrnt v ch ps => (v < 256)%N /\ ids_ok ch /\ ids_ok ps /\ length ch = length ps
  | PEnd _ => True
  | PUnknown s _ => f32 s /\ ~ known_sig s
  | PErrored _ _ _ _ => False
  end.
(** What the format keeps of a payload. *)
Definition stored_payload (p : payload) : payload :=
  match p with
  | PProp id name (Some a) => PProp id name (Some (stored_array a))
  | PInst id name ids svc gs => PInst id name ids svc (if svc then gs else [])   (* flags of services only *)
  | p => p
  end.

(** The framing of one chunk in a file, field by field. *)
Record frame := Frame { fr_sig : N; fr_clen : N; fr_dlen : N; fr_reserved : N; fr_body : bytes }.
Definition frame_bytes (f : frame) : bytes :=
  emit [LE 4 (fr_sig f); LE 4 (fr_clen f); LE 4 (fr_dlen f); LE 4 (fr_reserved f); Raw (fr_body f)].
Definition frame_ok (f : frame) : Prop :=
  f32 (fr_sig f) /\ f32 (fr_clen f) /\ f32 (fr_dlen f) /\ f32 (fr_reserved f) /\
  N.of_nat (length (fr_body f)) = (if (fr_clen f =? 0)%N then fr_dlen f else fr_clen f).
(** The raw chunk a frame stands for. *)
Definition frame_chunk (lz : lz4) (f : frame) (c : rawchunk) : Prop :=
  frame_ok f /\ raw_sig c = fr_sig f /\ raw_compressed c = negb (fr_clen f =? 0)%N /\
  (if (fr_clen f =? 0)%N then raw_payload c = fr_body f
   else lz_dec lz (fr_dlen f) (fr_body f) = Some (raw_payload c)).
