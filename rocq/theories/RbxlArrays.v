(** RbxlArrays.v - model of /repo/rbxl/arrays.go: interleaving and the typed
    property arrays.

    A Go slice is the list of its visible bytes.  Where the code slices past
    the visible length (arrays.go:897, 974) the hidden capacity matters: the
    functions that do so take [spare], the number of bytes of capacity beyond
    the visible ones (they read as zero). *)
From Verif Require Import Base RbxlValues.

(** An indexed store c[i] = b: panics out of range. *)
Definition set_at (c : bytes) (i : nat) (b : byte) : res bytes :=
  if (i <? length c)%nat then OK (replace_nth i c b) else Panic.
Definition get_at (c : bytes) (i : nat) : res byte :=
  match nth_error c i with Some b => OK b | None => Panic end.

(** A bounded for loop. *)
Fixpoint loop {A} (n : nat) (i : nat) (body : nat -> A -> res A) (a : A) : res A :=
  match n with
  | O => OK a
  | S n => a <- body i a ;; loop n (S i) body a
  end.

(** arrays.go:49 the simultaneous swap of two cells *)
Definition swap_at (c : bytes) (i j : nat) : res bytes :=
  x <- get_at c i ;; y <- get_at c j ;;
  c <- set_at c i y ;; set_at c j x.

(** arrays.go:47-52 square case, in place *)
Definition transpose_square (b : bytes) (rows cols : nat) : res bytes :=
  loop rows 0 (fun r b => loop r 0 (fun c b => swap_at b (r * cols + c) (c * cols + r)) b) b.

(** arrays.go:56-65 general case, through a copy *)
Fixpoint transpose_loop (bs : bytes) (step : nat) (c : bytes) (i : nat) : res bytes :=
  match bs with
  | [] => OK c
  | b :: bs =>
      c <- set_at c i b ;;
      let i := i + step in
      let i := if (length c <=? i)%nat then i - (length c - 1) else i in
      transpose_loop bs step c i
  end.

(** arrays.go:45-68 transpose; [len(bytes)/length] panics for length 0. *)
Definition transpose (b : bytes) (len : nat) : res bytes :=
  if (len =? 0)%nat then Panic
  else
    let cols := length b / len in
    if (len =? cols)%nat then transpose_square b len cols
    else transpose_loop b len (repeat x00 (length b)) 0.

(** arrays.go:78-87 interleave *)
Definition interleave (b : bytes) (size : Z) : res bytes :=
  if (size <=? 0)%Z then Err ESizePositive
  else if negb (length b mod Z.to_nat size =? 0)%nat then Err (ESizeDivisor size (length b))
  else transpose b (length b / Z.to_nat size).

(** arrays.go:89-98 deinterleave *)
Definition deinterleave (b : bytes) (size : Z) : res bytes :=
  if (size <=? 0)%Z then Err ESizePositive
  else if negb (length b mod Z.to_nat size =? 0)%nat then Err (ESizeDivisor size (length b))
  else transpose b (Z.to_nat size).

(** Types whose arrays have the Interleaved method: arrays.go:431, 465, 531,
    565, 695, 729, 763, 797, 1022, 1083, 1253, 1323, 1357, 1391, 1530 *)
Definition interleaved (t : tid) : bool :=
  match t with
  | tInt | tFloat | tUDim | tUDim2 | tBrickColor | tColor3 | tVector2 | tVector3 | tToken
  | tReference | tRect | tColor3uint8 | tInt64 | tSharedString | tUniqueId => true
  | _ => false
  end.

(** The array types: arrayX is [ARR tX], arrayOptional (:1395) is [AOPT]. *)
Inductive array :=
| ARR (t : tid) (vs : list value)
| AOPT (vals : option array) (present : list bool).

Definition arr_type (a : array) : tid :=
  match a with ARR t _ => t | AOPT _ _ => tOptional end.

(** The Len methods, and :1404 *)
Fixpoint arr_len (a : array) : nat :=
  match a with
  | ARR _ vs => length vs
  | AOPT None _ => 0
  | AOPT (Some v) _ => arr_len v
  end.

(** arrays.go:264-329 newArray *)
Definition newArray (t : tid) (n : nat) : array :=
  match t with
  | tOptional => AOPT None (repeat false n)
  | _ => ARR t (match newValue t with Some v => repeat v n | None => [] end)
  end.

(** :860-874 arrayCFrame.Bytes and :941-953 arrayCFrameQuat.Bytes: special
    ids with inline rotations, then all positions interleaved. *)
Definition cframe_head (v : value) : bytes :=
  match v with
  | VCFrame sp rot _ => sp :: (if Byte.eqb sp x00 then b_rotation rot else [])
  | VCFrameQuat sp qx qy qz qw _ => sp :: (if Byte.eqb sp x00 then b_quat qx qy qz qw else [])
  | _ => []
  end.
Definition cframe_pos (v : value) : vec3 :=
  match v with VCFrame _ _ p => p | VCFrameQuat _ _ _ _ _ p => p | _ => vec3_zero end.
Definition cframes_bytes (vs : list value) : res bytes :=
  p <- (match interleave (flat_map (fun v => b_vec3 (cframe_pos v)) vs) (Z.of_nat zVector3) with
        | Err _ => OK (flat_map (fun v => b_vec3 (cframe_pos v)) vs)   (* error ignored *)
        | o => o
        end) ;;
  OK (flat_map cframe_head vs ++ p).

(** :1049-1064 arrayReference.Bytes: first value, then wrapped differences. *)
Definition ref_val (v : value) : Z := match v with VReference n => n | _ => 0%Z end.
Fixpoint ref_deltas (prev : Z) (l : list Z) : list Z :=
  match l with
  | [] => []
  | v :: l => wrapZ 32 (v - prev) :: ref_deltas v l
  end.
Definition ref_encode (l : list Z) : list Z :=
  match l with [] => [] | v :: r => v :: ref_deltas v r end.

(** The Bytes methods (:360, 392, ...) and, for arrayOptional, :1442 with
    typeArrayToBytes :115 and arrayToBytes :100 inlined. *)
Definition arr_raw (t : tid) (vs : list value) : res bytes :=
  match t with
  | tCFrame | tCFrameQuat => cframes_bytes vs
  | tReference => OK (flat_map (fun n => to_bytes (VReference n)) (ref_encode (map ref_val vs)))
  | _ => OK (flat_map to_bytes vs)
  end.
(** arrays.go:100-113 arrayToBytes (the appended part) for a plain array *)
Definition arr_to_bytes1 (t : tid) (vs : list value) : res bytes :=
  r <- arr_raw t vs ;;
  if interleaved t then interleave r (tid_size t) else OK r.
(** arrays.go:115-118 typeArrayToBytes; :1442-1449 arrayOptional.Bytes.
    [typeArrayToBytes]'s error is ignored inside an optional array, leaving an
    empty buffer. *)
Fixpoint typeArrayToBytes (a : array) : res bytes :=
  match a with
  | ARR t vs => r <- arr_to_bytes1 t vs ;; OK (tid_byte t :: r)
  | AOPT None _ => OK [tid_byte tOptional]
  | AOPT (Some v) present =>
      a <- typeArrayToBytes v ;;
      b <- arr_to_bytes1 tBool (map VBool present) ;;
      OK (tid_byte tOptional :: a ++ tid_byte tBool :: b)
  end.
(** arrays.go:120-129 refArrayToBytes (error ignored) *)
Definition refArrayToBytes (l : list Z) : res bytes := arr_to_bytes1 tReference (map VReference l).

(** The BytesLen methods: len(a) times the size for constant-size types, the
    sum for the others; :1435 for optional arrays. *)
Fixpoint arr_bytes_len (a : array) : nat :=
  match a with
  | ARR t vs =>
      if (0 <? tid_size t)%Z then length vs * Z.to_nat (tid_size t)
      else fold_right (fun v n => bytes_len v + n) 0 vs
  | AOPT None _ => 0
  | AOPT (Some v) present => zb + arr_bytes_len v + zb + length present * zb
  end.

(** ** Decoding *)

(** arrays.go:152-162 the generic element loop *)
Fixpoint elems_from (t : tid) (n i : nat) (b : bytes) : res (list value * nat) :=
  match n with
  | O => OK ([], 0)
  | S n =>
      match from_bytes t b with
      | OK (v, nn) =>
          if (length b <? nn)%nat then Panic else
          ' (vs, m) <- elems_from t n (S i) (skipn nn b) ;;
          OK (v :: vs, nn + m)
      | Err e => Err (EIndex i e)
      | Panic => Panic
      | Hang => Hang
      end
  end.

(** arrays.go:1066-1081 arrayReference.FromBytes *)
Fixpoint refs_from (n i : nat) (prev : Z) (b : bytes) : res (list value * nat) :=
  match n with
  | O => OK ([], 0)
  | S n =>
      match from_bytes tReference b with
      | OK (VReference v, nn) =>
          if (length b <? nn)%nat then Panic else
          let v := if (i =? 0)%nat then v else wrapZ 32 (v + prev) in
          ' (vs, m) <- refs_from n (S i) v (skipn nn b) ;;
          OK (VReference v :: vs, nn + m)
      | OK _ => Panic
      | Err e => Err (EIndex i e)
      | Panic => Panic
      | Hang => Hang
      end
  end.

(** arrays.go:877-896 and 956-972: the head loop of arrayCFrame(Quat).FromBytes.
    Result: values with zero position, rest of the buffer, bytes read. *)
Fixpoint heads_from (t : tid) (n i : nat) (b : bytes) : res (list value * bytes * nat) :=
  match n with
  | O => OK ([], b, 0)
  | S n =>
      match checkLengthCond t b with
      | Err e => Err (EIndex i e)
      | Panic => Panic
      | Hang => Hang
      | OK (cond, b, _) =>
          ' (v, b, k) <-
            (match t with
             | tCFrameQuat =>
                 if Byte.eqb cond x00
                 then ' ((x, y, z, w), b) <- rd_quat b ;;
                      OK (VCFrameQuat cond x y z w vec3_zero, b, zCFrameQuatSp + zCFrameQuatQ)
                 else OK (VCFrameQuat cond 0 0 0 0 vec3_zero, b, zCFrameQuatSp)
             | _ =>
                 if Byte.eqb cond x00
                 then ' (rot, b) <- rd_floats 9 b ;;
                      OK (VCFrame cond rot vec3_zero, b, zCFrameSp + zCFrameRo)
                 else OK (VCFrame cond (repeat 0%N 9) vec3_zero, b, zCFrameSp)
             end) ;;
          ' (vs, b, m) <- heads_from t n (S i) b ;;
          OK (v :: vs, b, k + m)
      end
  end.
(** arrays.go:900-909 and 977-986: the position loop *)
Definition set_pos (v : value) (p : vec3) : value :=
  match v with
  | VCFrame sp rot _ => VCFrame sp rot p
  | VCFrameQuat sp x y z w _ => VCFrameQuat sp x y z w p
  | v => v
  end.
Fixpoint pos_from (vs : list value) (i : nat) (b : bytes) : res (list value * nat) :=
  match vs with
  | [] => OK ([], 0)
  | v :: vs =>
      match fb_vec3 b with
      | Err e => Err (EIndex i e)
      | Panic => Panic
      | Hang => Hang
      | OK (p, nn) =>
          if (length b <? nn)%nat then Panic else
          ' (vs, m) <- pos_from vs (S i) (skipn nn b) ;;
          OK (set_pos v p :: vs, nn + m)
      end
  end.
(** arrays.go:876-911, 955-988.  [b[:len(a)*zVector3]] may reach into the spare
    capacity, and panics beyond it; the slice is deinterleaved in place. *)
Definition cframes_from (spare : nat) (t : tid) (n : nat) (b : bytes) : res (list value * nat) :=
  ' (vs, b, m) <- heads_from t n 0 b ;;
  let k := n * zVector3 in
  if (length b + spare <? k)%nat then Panic
  else
    p <- deinterleave (firstn k (b ++ repeat x00 spare)) (Z.of_nat zVector3) ;;
    let b := firstn (length b) (p ++ skipn k b) in
    ' (vs, m2) <- pos_from vs 0 b ;;
    OK (vs, m + m2).

(** arrays.go:134-164 arrayFromBytes for a plain array of n elements *)
Definition arr_from1 (spare : nat) (t : tid) (n : nat) (b : bytes) : res (list value * nat) :=
  b <- (if interleaved t then deinterleave b (tid_size t) else OK b) ;;
  match t with
  | tCFrame | tCFrameQuat => cframes_from spare t n b
  | tReference => refs_from n 0 0 b
  | _ => elems_from t n 0 b
  end.

Definition bool_of (v : value) : bool := match v with VBool b => b | _ => false end.

(** arrays.go:56-65, 134-143: deinterleaving overwrites the buffer, so the code
    that reads on after an interleaved array sees the deinterleaved bytes.
    [array_after a b] is the buffer that held the typed array a.  (What a CFrame
    array deinterleaves, it consumes.) *)
Fixpoint array_after (a : array) (b : bytes) : bytes :=
  match b with
  | [] => []
  | tb :: r =>
      tb :: match a with
            | ARR t _ =>
                if interleaved t
                then match deinterleave r (tid_size t) with OK r' => r' | _ => r end
                else r
            | AOPT (Some v) _ => array_after v r
            | AOPT None _ => r
            end
  end.

(** arrays.go:166-184 typeArrayFromBytes, with :1451 arrayOptional.FromBytes and
    :186 expectArrayFromBytes inlined in the optional case. *)
Fixpoint typeArrayFromBytes (spare : nat) (b : bytes) (n : nat) {struct b} : res (array * nat) :=
  match b with
  | [] => Err (EBuflen (N.of_nat zb) 0)
  | tb :: rest =>
      match tid_of_byte tb with
      | None => Err (EUnknownType tb)
      | Some tOptional =>
          ' (vals, nn) <- typeArrayFromBytes spare rest n ;;
          if (length rest <? nn)%nat then Panic else
          match skipn nn (array_after vals rest) with
          | [] => Err (EBuflen (N.of_nat zb) 0)
          | pb :: r =>
              match tid_of_byte pb with
              | None => Err (EUnknownType pb)
              | Some tBool =>
                  ' (ps, mm) <- arr_from1 spare tBool n r ;;
                  OK (AOPT (Some vals) (map bool_of ps), zb + (nn + (zb + mm)))
              | Some _ => Err (EExpectedType (tid_byte tBool) pb)
              end
          end
      | Some t =>
          ' (vs, nn) <- arr_from1 spare t n rest ;;
          OK (ARR t vs, zb + nn)
      end
  end.

(** arrays.go:208-212 refArrayFromBytes *)
Definition refArrayFromBytes (b : bytes) (n : nat) : res (list Z) :=
  ' (vs, _) <- arr_from1 0 tReference n b ;; OK (map ref_val vs).
