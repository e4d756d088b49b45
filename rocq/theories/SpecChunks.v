(** SpecChunks.v - the byte layout of chunk payloads and files, independent of
    the model's encoders. *)
From Coq Require Import String.
From Verif Require Import Base RbxlValues RbxlArrays RbxlModel SpecValues SpecWire SpecModel.

(** A list of ids: wrapped differences to the previous id, zigzag, big-endian,
    byte i of element j at offset i*count+j. *)
Definition id_block (ids : list Z) (r : bytes) : Prop :=
  length r = 4 * length ids /\
  forall i j id, i < 4 -> nth_error ids j = Some id ->
    exists d, int_range 32 d /\
      (d mod 2 ^ 32 = (id - (if (j =? 0)%nat then 0 else nth (j - 1) ids 0)) mod 2 ^ 32)%Z /\
      nth (i * length ids + j) r x00 = digit (zig d) (3 - i).

Definition count {A} (l : list A) : field := LE 4 (N.of_nat (length l)).

(** The four characters of a chunk signature. *)
Definition sig_text (p : payload) : option string :=
  match p with
  | PMeta _ => Some "META"%string | PSstr _ _ => Some "SSTR"%string | PInst _ _ _ _ _ => Some "INST"%string
  | PProp _ _ _ => Some "PROP"%string | PPrnt _ _ _ => Some "PRNT"%string
  | PEnd _ => Some ("END" ++ String Ascii.zero EmptyString)%string
  | _ => None
  end.

(** The documented layout of each payload. *)
Inductive payload_layout : payload -> list field -> Prop :=
| lay_meta vs : payload_layout (PMeta vs) (count vs :: flat_map (fun kv => text (fst kv) ++ text (snd kv)) vs)
| lay_sstr v vs :
    payload_layout (PSstr v vs) (LE 4 v :: count vs :: flat_map (fun hv => Raw (fst hv) :: text (snd hv)) vs)
| lay_inst id name ids (svc : bool) gs r : id_block ids r ->
    payload_layout (PInst id name ids svc gs)
      (LE 4 (twos 32 id) :: text name ++ [LE 1 (bit svc 1); count ids; Raw r] ++ (if svc then [Raw gs] else []))
| lay_prop0 id name : payload_layout (PProp id name None) (LE 4 (twos 32 id) :: text name)
| lay_prop id name a r : typeArrayToBytes a = OK r ->
    payload_layout (PProp id name (Some a)) (LE 4 (twos 32 id) :: text name ++ [Raw r])
| lay_prnt v ch ps rc rp : id_block ch rc -> id_block ps rp ->
    payload_layout (PPrnt v ch ps) [LE 1 v; count ch; Raw rc; Raw rp]
| lay_end c : payload_layout (PEnd c) [Raw c]
| lay_unknown s c : payload_layout (PUnknown s c) [Raw c]
| lay_errored s n e c : payload_layout (PErrored s n e c) [Raw c].
