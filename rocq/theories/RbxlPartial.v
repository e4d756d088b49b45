(** RbxlPartial.v - model of /repo/rbxl: the chunk "as the error occurred"
    (model.go:294-296) that decoding keeps of a chunk it cannot read, and Dump
    with it.

    parse.BinaryReader.Bytes is io.ReadFull into the given slice: a short read
    fills its beginning.  Everything else is set only when it was read. *)
From Verif Require Import Base RbxlValues RbxlArrays RbxlModel RbxlFile RbxlDump.

(** arrays.go:260-326 newArray: slices of zero values *)
Definition zero_value (t : tid) : value := match newValue t with Some v => v | None => VBool false end.
(** arrays.go:152-162: a is set up to the element that fails *)
Fixpoint partial_elems (t : tid) (n : nat) (b : bytes) : list value :=
  match n with
  | O => []
  | S n' =>
      match from_bytes t b with
      | OK (v, nn) => v :: partial_elems t n' (skipn nn b)
      | _ => repeat (zero_value t) n
      end
  end.
(** arrays.go:1066-1081 *)
Fixpoint partial_refs (n i : nat) (prev : Z) (b : bytes) : list value :=
  match n with
  | O => []
  | S n' =>
      match from_bytes tReference b with
      | OK (VReference v, nn) =>
          let v := if (i =? 0)%nat then v else wrapZ 32 (v + prev) in
          VReference v :: partial_refs n' (S i) v (skipn nn b)
      | _ => repeat (VReference 0) n
      end
  end.
(** arrays.go:877-896, 956-972 *)
Fixpoint partial_heads (t : tid) (n : nat) (b : bytes) : list value :=
  match n with
  | O => []
  | S n' =>
      match heads_from t 1 0 b with
      | OK ([v], b, _) => v :: partial_heads t n' b
      | _ => repeat (zero_value t) n
      end
  end.
(** arrays.go:900-909, 977-986 *)
Fixpoint partial_pos (vs : list value) (b : bytes) : list value :=
  match vs with
  | [] => []
  | v :: vs =>
      match fb_vec3 b with
      | OK (p, nn) => set_pos v p :: partial_pos vs (skipn nn b)
      | _ => v :: vs
      end
  end.
(** arrays.go:876-911, 955-988 *)
Definition partial_cframes (spare : nat) (t : tid) (n : nat) (b : bytes) : list value :=
  match heads_from t n 0 b with
  | OK (vs, b, _) =>
      let k := n * zVector3 in
      match deinterleave (firstn k (b ++ repeat x00 spare)) (Z.of_nat zVector3) with
      | OK p => partial_pos vs (firstn (length b) (p ++ skipn k b))
      | _ => vs
      end
  | _ => partial_heads t n b
  end.
(** arrays.go:134-164 arrayFromBytes *)
Definition partial_arr1 (spare : nat) (t : tid) (n : nat) (b : bytes) : list value :=
  match (if interleaved t then deinterleave b (tid_size t) else OK b) with
  | OK b =>
      match t with
      | tCFrame | tCFrameQuat => partial_cframes spare t n b
      | tReference => partial_refs n 0 0 b
      | _ => partial_elems t n b
      end
  | _ => repeat (zero_value t) n
  end.
(** arrays.go:164-183 typeArrayFromBytes, :1451 arrayOptional.FromBytes *)
Fixpoint partial_array (spare : nat) (b : bytes) (n : nat) {struct b} : option array :=
  match b with
  | [] => None
  | tb :: rest =>
      match tid_of_byte tb with
      | None => None
      | Some tOptional =>
          match typeArrayFromBytes spare rest n with
          | OK (vals, nn) =>
              Some (AOPT (Some vals)
                match skipn nn (array_after vals rest) with
                | pb :: r => match tid_of_byte pb with
                             | Some tBool => map bool_of (partial_arr1 spare tBool n r)
                             | _ => repeat false n
                             end
                | [] => repeat false n
                end)
          | _ => Some (AOPT (partial_array spare rest n) (repeat false n))
          end
      | Some t => Some (ARR t (partial_arr1 spare t n rest))
      end
  end.

(** The Decode methods of the chunks. *)
(** A slice of n zero bytes after a failed fr.Bytes *)
Definition part_read (n : nat) (b : bytes) : bytes := firstn n (b ++ repeat x00 n).
Fixpoint partial_pairs (n : nat) (b : bytes) : list (bytes * bytes) :=                 (* model.go:682-692 *)
  match n with
  | O => []
  | S n' =>
      match readString b with
      | OK (k, b) => match readString b with
                     | OK (v, b) => (k, v) :: partial_pairs n' b
                     | _ => (k, []) :: repeat ([], []) n'
                     end
      | _ => repeat ([], []) n
      end
  end.
Fixpoint partial_shared (n : nat) (b : bytes) : list (bytes * bytes) :=                (* :744-756 *)
  match n with
  | O => []
  | S n' =>
      match rBytes 16 b with
      | OK (h, b) => match readString b with
                     | OK (v, b) => (h, v) :: partial_shared n' b
                     | _ => (h, []) :: repeat (repeat x00 16, []) n'
                     end
      | _ => (part_read 16 b, []) :: repeat (repeat x00 16, []) n'
      end
  end.
Definition partial_meta (b : bytes) : payload :=                                       (* :673-696 *)
  match rNum 4 b with OK (n, b) => PMeta (partial_pairs (N.to_nat n) b) | _ => PMeta [] end.
Definition partial_sstr (b : bytes) : payload :=                                       (* :731-759 *)
  match rNum 4 b with
  | OK (v, b) => match rNum 4 b with OK (n, b) => PSstr v (partial_shared (N.to_nat n) b) | _ => PSstr v [] end
  | _ => PSstr 0 []
  end.
Definition partial_inst (b : bytes) : payload :=                                       (* :364-411 *)
  match rI32 b with
  | OK (id, b) =>
      match readString b with
      | OK (name, b) =>
          match rNum 1 b with
          | OK (svc, b) =>
              let svc := negb (svc =? 0)%N in
              match rNum 4 b with
              | OK (n, b) =>
                  match read_ids n b with
                  | OK (ids, b) => PInst id name ids svc (if svc then part_read (N.to_nat n) b else [])
                  | _ => PInst id name (repeat 0%Z (N.to_nat n)) svc []
                  end
              | _ => PInst id name [] svc []
              end
          | _ => PInst id name [] false []
          end
      | _ => PInst id [] [] false []
      end
  | _ => PInst 0 [] [] false []
  end.
Definition partial_prnt (b : bytes) : payload :=                                       (* :514-560 *)
  match rNum 1 b with
  | OK (v, b) =>
      match rNum 4 b with
      | OK (n, b) =>
          match read_ids n b with
          | OK (ch, b) => PPrnt v ch (repeat 0%Z (N.to_nat n))
          | _ => PPrnt v (repeat 0%Z (N.to_nat n)) []
          end
      | _ => PPrnt v [] []
      end
  | _ => PPrnt 0 [] []
  end.
Definition partial_prop (spare : nat -> nat) (groups : Z -> option nat) (b : bytes) : payload :=  (* :605-638 *)
  match rI32 b with
  | OK (id, b) =>
      match groups id with
      | None => PProp id [] None
      | Some n =>
          match readString b with
          | OK (name, raw) => PProp id name (partial_array (spare (length raw)) raw n)
          | _ => PProp id [] None
          end
      end
  | _ => PProp 0 [] None
  end.
(** decoder.go:209-240; the other chunks have no errors. *)
Definition partial_payload (spare : nat -> nat) (groups : Z -> option nat) (sg : N) (b : bytes) : payload :=
  if (sg =? sigMETA)%N then partial_meta b
  else if (sg =? sigSSTR)%N then partial_sstr b
  else if (sg =? sigINST)%N then partial_inst b
  else if (sg =? sigPROP)%N then partial_prop spare groups b
  else if (sg =? sigPRNT)%N then partial_prnt b
  else PEnd b.

(** groupLookup before chunk i: decoder.go:222 *)
Fixpoint groups_before (cs : list chunk) (k i : nat) : groups :=
  match i, cs with
  | S i, c :: cs => 
      groups_before cs (S k) i ++ match ch_payload c with PInst id _ ids _ _ => [(id, (k, ids))] | _ => [] end
  | _, _ => []
  end.
Definition partial_of (spare : nat -> nat) (f : fmodel) (i : nat) : payload :=
  match nth_error (fm_chunks f) i with
  | Some (Chunk _ (PErrored sg _ _ b)) => partial_payload spare (group_len (groups_before (fm_chunks f) 0 i)) sg b
  | _ => PEnd []
  end.
(** dump.go:14-49 Dump *)
Definition Dump (de : denv) (lz : lz4) (spare : nat -> nat) (noXML : bool) (input : bytes)
  : outcome (err * list warning) (list warning * bytes) :=
  Decoder_Dump de (match decode lz spare noXML input with OK (DModel f, _, _) => partial_of spare f | _ => fun _ => PEnd [] end) lz spare noXML input.
