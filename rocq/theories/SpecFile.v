(** SpecFile.v - specification side for files. *)
From Verif Require Import Base RbxlValues RbxlArrays RbxlModel RbxlFile SpecValues SpecArrays SpecWire SpecModel.

(** The 32-byte header, field by field. *)
Definition magic : bytes := str "<roblox!" ++ [x89; xff; x0d; x0a; x1a; x0a].
Definition header (version classes instances : N) (reserved : bytes) : bytes :=
  magic ++ emit [LE 2 version; LE 4 classes; LE 4 instances; Raw reserved].

(** The group sizes known after a payload. *)
Definition extend (g : Z -> option nat) (p : payload) : Z -> option nat :=
  match p with
  | PInst id _ ids _ _ => fun k => if (id =? k)%Z then Some (length ids) else g k
  | _ => g
  end.
(** The class table: for each class id the last INST chunk with it. *)
Definition grow (g : groups) (i : nat) (p : payload) : groups :=
  match p with PInst id _ ids _ _ => group_set g id (i, ids) | _ => g end.
(** groupLookup after the chunks cs, the first of which is number i. *)
Fixpoint grow_all (g : groups) (i : nat) (cs : list chunk) : groups :=
  match cs with [] => g | c :: cs => grow_all (grow g i (ch_payload c)) (S i) cs end.
(** Chunk lists a well-formed file holds: END last and only there, and each
    payload writable given the groups before it. *)
Inductive wf_chunks : (Z -> option nat) -> list chunk -> Prop :=
| wf_end g comp content : wf_chunks g [Chunk comp (PEnd content)]
| wf_cons g c cs :
    (forall content, ch_payload c <> PEnd content) -> wf_payload g (ch_payload c) ->
    wf_chunks (extend g (ch_payload c)) cs -> wf_chunks g (c :: cs).
Definition no_groups : Z -> option nat := fun _ => None.

Definition stored_chunk (c : chunk) : chunk := Chunk (ch_compressed c) (stored_payload (ch_payload c)).
Definition uncompress (c : chunk) : chunk := Chunk false (ch_payload c).

Definition is_errored (c : chunk) : bool :=
  match ch_payload c with PErrored _ _ _ _ => true | _ => false end.
Definition is_end (c : chunk) : bool :=
  match ch_payload c with PEnd _ => true | _ => false end.
