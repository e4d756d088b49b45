(** SpecWriter.v - what io.Writer promises, and what a writer has received. *)
From Verif Require Import Base RbxlValues RbxlModel RbxlFile RbxlWriter.

Section S.
Context {E : Type}.
(** io.Writer: "Write returns the number of bytes written from p (0 <= n <=
    len(p)) and any error encountered that caused the write to stop early.
    Write must return a non-nil error if it returns n < len(p)." *)
Definition contract (w : writer E) : Prop := forall past p,
  (fst (w past p) <= length p)%nat /\ (snd (w past p) = None -> fst (w past p) = length p).
(** The bytes a writer took in a sequence of calls *)
Definition delivered (cs : list (call E)) : bytes := flat_map (fun c => firstn (c_n c) (c_arg c)) cs.
(** The bytes offered *)
Definition asked (cs : list (call E)) : bytes := flat_map (@c_arg E) cs.
(** A call without an error, all of it taken *)
Definition whole (c : call E) : Prop := c_err c = None /\ c_n c = length (c_arg c).
(** A writer that takes everything, such as a bytes.Buffer *)
Definition accept_all : writer E := fun _ p => (length p, None).
End S.

(** Lengths: of the payload of a chunk before compression, and of the chunk in
    the file *)
Definition plen (c : chunk) : nat := match payload_bytes (ch_payload c) with OK p => length p | _ => 0 end.
(** How much of a chunk that cannot be encoded has been counted: the fields
    before the one that fails, or if it is the compression that fails, the whole
    payload and the signature. *)
Definition begun (c : chunk) : nat :=
  match payload_bytes (ch_payload c), ch_payload c with
  | OK p, _ => length p + length (le32 (psig (ch_payload c)))
  | _, PPrnt v _ _ => length [N2b v]
  | _, PProp id name _ => length (le32 (toN 32 id) ++ writeString name)
  | _, _ => 0
  end.
Definition esize (lz : lz4) (u : bool) (c : chunk) : nat := match enc_chunk lz u c with OK b => length b | _ => 0 end.
Definition total (f : chunk -> nat) (cs : list chunk) : nat := list_sum (map f cs).
(** A model with other chunks and nothing after them *)
Definition with_chunks (f : fmodel) (cs : list chunk) : fmodel :=
  FModel (fm_version f) (fm_classCount f) (fm_instCount f) cs [] (fm_groups f).
