(** SpecStats.v - specification side for the statistics of a decode that
    fails (C43). *)
From Verif Require Import Base RbxlModel RbxlFile SpecModel SpecFile.

(** The little-endian number of k bytes at an offset, 0 when the input ends
    before its last byte. *)
Definition field (at_ k : nat) (input : bytes) : N :=
  if (length input <? at_ + k)%nat then 0%N else le_N (firstn k (skipn at_ input)).
(** The input is that of the XML format: "<roblox" and one more byte, which
    is not "!". *)
Definition looks_xml (input : bytes) : bool :=
  match skipn 7 input with
  | c :: _ => bytes_eqb (firstn 7 input) (str "<roblox") && negb (bytes_eqb [c] (str "!"))
  | [] => false
  end.
(** What the header alone says: version, class count and instance count, each
    if the input holds all of it and what comes before it is right. *)
Definition header_stats (input : bytes) : stats :=
  if bytes_eqb (firstn 14 input) magic then
    if (field 14 2 input =? 0)%N then Stats false 0 (field 16 4 input) (field 20 4 input) 0 []
    else Stats false (field 14 2 input) 0 0 0 []
  else Stats (looks_xml input) 0 0 0 0 [].
(** The chunk that ends a file. *)
Definition end_bytes : bytes := str "END" ++ repeat x00 5 ++ [x09] ++ repeat x00 7 ++ str "</roblox>".
(** The bytes do not begin with a chunk.  (A compressed length of 2^32 - 4 or
    more makes the reader panic: C17.) *)
Definition no_chunk (lz : lz4) (rest : bytes) : Prop :=
  forall f rc r, frame_chunk lz f rc -> (fr_clen f + 4 < 2 ^ 32)%N -> rest <> frame_bytes f ++ r.
