(** SpecWarn.v - specification side: the warnings a binary file deserves. *)
From Verif Require Import Base RbxlValues RbxlArrays RbxlModel RbxlFile RbxlCodec SpecDecode.

(** Of the header: reserved bytes that are not zero. *)
Definition header_notes (input : bytes) : list warning :=
  let rsv := firstn 8 (skipn 24 input) in if bytes_eqb rsv (repeat x00 8) then [] else [WReserve 24 rsv].
(** Of the i-th chunk: an unknown signature; what is wrong with its payload; an
    END chunk that is compressed or has other content. *)
Definition chunk_notes (i : nat) (c : chunk) : list warning :=
  match ch_payload c with
  | PUnknown sg _ => [WUnknownSig i sg]
  | PErrored sg _ e _ => [WChunk i sg e]
  | PEnd content =>
      (if ch_compressed c then [WEndCompressed] else []) ++ (if bytes_eqb content (str "</roblox>") then [] else [WEndContent])
  | _ => []
  end.
Fixpoint file_notes (i : nat) (cs : list chunk) : list warning :=
  match cs with [] => [] | c :: cs => chunk_notes i c ++ file_notes (S i) cs end.
(** Of making a tree from the chunks: a column without values; a link of a
    child that is not there.  [known] are the ids of the instances so far. *)
Fixpoint link_notes (known : list Z) (i j : nat) (links : list (Z * Z)) : list cwarn :=
  match links with
  | [] => []
  | (child, _) :: links => (if has_id known child then [] else [CW i sigPRNT (CChild j child)]) ++ link_notes known i (S j) links
  end.
Fixpoint tree_notes (known : list Z) (i : nat) (cs : list chunk) : list cwarn :=
  match cs with
  | [] => []
  | c :: cs =>
      match ch_payload c with
      | PEnd _ => []
      | PInst _ _ ids _ _ => tree_notes (known ++ ids) (S i) cs
      | PProp _ _ None => CW i sigPROP CNoType :: tree_notes known (S i) cs
      | PPrnt _ ch ps => link_notes known i 0 (combine ch ps) ++ tree_notes known (S i) cs
      | _ => tree_notes known (S i) cs
      end
  end.
