(** RbxlCodec.v - model of /repo/rbxl/codec.go and /repo/rbxl/cframe.go, with
    values.go:290-431 (type correspondence) and :1581-1597 (quaternions):
    conversion between instance trees and the chunks of the binary format.

    Instances are in a heap (Tree.v).  Iteration orders of Go maps, the hash of
    shared strings, and the float expressions of a quaternion rotation are
    parameters. *)
From Verif Require Import Base RbxlValues RbxlArrays RbxlModel RbxlFile RbxValues Tree.

(** values.go:290-357 typeID.ValueType *)
Definition tid_value_type (t : tid) : Type_ :=
  match t with
  | tString => TypeString | tBool => TypeBool | tInt => TypeInt | tFloat => TypeFloat
  | tDouble => TypeDouble | tUDim => TypeUDim | tUDim2 => TypeUDim2 | tRay => TypeRay
  | tFaces => TypeFaces | tAxes => TypeAxes | tBrickColor => TypeBrickColor | tColor3 => TypeColor3
  | tVector2 => TypeVector2 | tVector3 => TypeVector3 | tVector2int16 => TypeVector2int16
  | tCFrame => TypeCFrame | tCFrameQuat => TypeCFrame | tToken => TypeToken
  | tReference => TypeReference | tVector3int16 => TypeVector3int16
  | tNumberSequence => TypeNumberSequence | tColorSequence => TypeColorSequence
  | tNumberRange => TypeNumberRange | tRect => TypeRect
  | tPhysicalProperties => TypePhysicalProperties | tColor3uint8 => TypeColor3uint8
  | tInt64 => TypeInt64 | tSharedString => TypeSharedString | tOptional => TypeOptional
  | tUniqueId => TypeUniqueId | tFont => TypeFont
  end.
(** values.go:360-431 fromValueType; None is typeInvalid *)
Definition fromValueType (t : Type_) : option tid := assocN [
  (TypeString, tString); (TypeBinaryString, tString); (TypeProtectedString, tString); (TypeContent, tString);
  (TypeBool, tBool); (TypeInt, tInt); (TypeFloat, tFloat); (TypeDouble, tDouble); (TypeUDim, tUDim);
  (TypeUDim2, tUDim2); (TypeRay, tRay); (TypeFaces, tFaces); (TypeAxes, tAxes); (TypeBrickColor, tBrickColor);
  (TypeColor3, tColor3); (TypeVector2, tVector2); (TypeVector3, tVector3); (TypeVector2int16, tVector2int16);
  (TypeCFrame, tCFrame); (TypeToken, tToken); (TypeReference, tReference); (TypeVector3int16, tVector3int16);
  (TypeNumberSequence, tNumberSequence); (TypeColorSequence, tColorSequence); (TypeNumberRange, tNumberRange);
  (TypeRect, tRect); (TypePhysicalProperties, tPhysicalProperties); (TypeColor3uint8, tColor3uint8);
  (TypeInt64, tInt64); (TypeSharedString, tSharedString); (TypeOptional, tOptional);
  (TypeUniqueId, tUniqueId); (TypeFont, tFont) ] t.

(** ** Special rotations: cframe.go *)
Definition p1 : N := 0x3f800000.  Definition m1 : N := 0xbf800000.
Definition p0 : N := 0.           Definition m0 : N := 0x80000000.   (* :24 _0 *)

(** Float32 arithmetic on +0, -0, 1 and -1, where it is exact. *)
Definition fneg (a : N) : N := N.lxor a 0x80000000.
Definition is_zero (a : N) : bool := (a =? p0)%N || (a =? m0)%N.
Definition fmul01 (a b : N) : N :=
  let s := N.lxor (N.land a 0x80000000) (N.land b 0x80000000) in
  if is_zero a || is_zero b then s else N.lor s p1.
Definition fadd01 (a b : N) : N :=
  if is_zero a then (if is_zero b then (if (a =? b)%N then a else p0) else b)
  else if is_zero b then a
  else if (a =? b)%N then (a + 0x800000)%N else p0.
Definition fsub01 (a b : N) : N := fadd01 a (fneg b).

(** cframe.go:7-22 matrixFromID; [1 - float32(k*2)] is 1 or -1 for k 0 or 1 *)
Definition one_minus (k : N) : N := if (k =? 0)%N then p1 else m1.
Definition matrixFromID (id : byte) : list N :=
  let i := ((b2N id + 255) mod 256)%N in
  if (35 <=? i)%N || (i / 6 mod 3 =? i mod 3)%N then repeat 0%N 9
  else
    let m := repeat 0%N 9 in
    let m := upd m (N.to_nat (i / 6 mod 3 * 3)) (one_minus (i / 18)) in
    let m := upd m (N.to_nat (i mod 6 mod 3 * 3 + 1)) (one_minus (i mod 6 / 3)) in
    let g k m := nth k m 0%N in
    let m := upd m 2 (fsub01 (fmul01 (g 3 m) (g 7 m)) (fmul01 (g 4 m) (g 6 m))) in
    let m := upd m 5 (fsub01 (fmul01 (g 6 m) (g 1 m)) (fmul01 (g 7 m) (g 0 m))) in
    upd m 8 (fsub01 (fmul01 (g 0 m) (g 4 m)) (fmul01 (g 1 m) (g 3 m))).

(** cframe.go:28-54 cframeSpecialMatrix *)
Definition cframeSpecialMatrix : list (byte * list N) := [
  (x02, [p1; p0; p0; p0; p1; p0; p0; p0; p1]);
  (x03, [p1; p0; p0; p0; p0; m1; p0; p1; p0]);
  (x05, [p1; p0; p0; p0; m1; p0; p0; p0; m1]);
  (x06, [p1; p0; m0; p0; p0; p1; p0; m1; p0]);
  (x07, [p0; p1; p0; p1; p0; p0; p0; p0; m1]);
  (x09, [p0; p0; p1; p1; p0; p0; p0; p1; p0]);
  (x0a, [p0; m1; p0; p1; p0; m0; p0; p0; p1]);
  (x0c, [p0; p0; m1; p1; p0; p0; p0; m1; p0]);
  (x0d, [p0; p1; p0; p0; p0; p1; p1; p0; p0]);
  (x0e, [p0; p0; m1; p0; p1; p0; p1; p0; p0]);
  (x10, [p0; m1; p0; p0; p0; m1; p1; p0; p0]);
  (x11, [p0; p0; p1; p0; m1; p0; p1; p0; m0]);
  (x14, [m1; p0; p0; p0; p1; p0; p0; p0; m1]);
  (x15, [m1; p0; p0; p0; p0; p1; p0; p1; m0]);
  (x17, [m1; p0; p0; p0; m1; p0; p0; p0; p1]);
  (x18, [m1; p0; m0; p0; p0; m1; p0; m1; m0]);
  (x19, [p0; p1; m0; m1; p0; p0; p0; p0; p1]);
  (x1b, [p0; p0; m1; m1; p0; p0; p0; p1; p0]);
  (x1c, [p0; m1; m0; m1; p0; m0; p0; p0; m1]);
  (x1e, [p0; p0; p1; m1; p0; p0; p0; m1; p0]);
  (x1f, [p0; p1; p0; p0; p0; m1; m1; p0; p0]);
  (x20, [p0; p0; p1; p0; p1; m0; m1; p0; p0]);
  (x22, [p0; m1; p0; p0; p0; p1; m1; p0; p0]);
  (x23, [p0; p0; m1; p0; m1; m0; m1; p0; m0]) ].
(** cframeSpecialMatrix[b]: the zero matrix when absent *)
Definition special_matrix (b : byte) : list N :=
  match find (fun e => Byte.eqb (fst e) b) cframeSpecialMatrix with
  | Some (_, m) => m
  | None => repeat 0%N 9
  end.
(** cframe.go:56-81 cframeSpecialNumber, a map keyed by nine floats: keys are
    compared with ==, for which NaN differs from everything and -0 equals 0. *)
Definition is_nan32 (a : N) : bool := (0x7f800000 <? N.land a 0x7fffffff)%N.
Definition feq32 (a b : N) : bool :=
  negb (is_nan32 a) && negb (is_nan32 b) && ((a =? b)%N || (is_zero a && is_zero b)).
Fixpoint feqs (a b : list N) : bool :=
  match a, b with
  | [], [] => true
  | x :: a, y :: b => feq32 x y && feqs a b
  | _, _ => false
  end.
Definition cframeSpecialNumber : list (list N * byte) :=
  map (fun b => (special_matrix b, b))
    [x02; x03; x05; x06; x07; x09; x0a; x0c; x0d; x0e; x10; x11; x14; x15; x17; x18; x19; x1b; x1c; x1e;
     x1f; x20; x22; x23].
Definition special_number (rot : list N) : option byte :=
  option_map snd (find (fun e => feqs (fst e) rot) cframeSpecialNumber).

(** ** Values *)

(** codec.go:791-1000 encodeValue, None for nil *)
Definition encodeValue (v : rvalue) : option value :=
  match v with
  | RString s | RBinaryString s | RProtectedString s | RContent s => Some (VString s)
  | RBool b => Some (VBool b)
  | RInt n => Some (VInt n)
  | RFloat f => Some (VFloat f)
  | RDouble f => Some (VDouble f)
  | RUDim s o => Some (VUDim s o)
  | RUDim2 xs xo ys yo => Some (VUDim2 xs ys xo yo)
  | RRay o d => Some (VRay (v3x o) (v3y o) (v3z o) (v3x d) (v3y d) (v3z d))
  | RFaces a b c d e f => Some (VFaces a b c d e f)
  | RAxes x y z => Some (VAxes x y z)
  | RBrickColor n => Some (VBrickColor n)
  | RColor3 r g b => Some (VColor3 r g b)
  | RVector2 x y => Some (VVector2 x y)
  | RVector3 v => Some (VVector3 v)
  | RCFrame p rot =>
      match special_number rot with
      | Some s => Some (VCFrame s (repeat 0%N 9) p)
      | None => Some (VCFrame x00 rot p)
      end
  | RToken n => Some (VToken n)
  | RReference _ => None
  | RVector3int16 x y z => Some (VVector3int16 x y z)
  | RVector2int16 x y => Some (VVector2int16 x y)
  | RNumberSequence ks => Some (VNumberSequence ks)
  | RColorSequence ks => Some (VColorSequence ks)
  | RNumberRange a b => Some (VNumberRange a b)
  | RRect a b c d => Some (VRect a b c d)
  | RPhysicalProperties c d f e fw ew => Some (VPhysicalProperties (if c then x01 else x00) d f e fw ew)
  | RColor3uint8 r g b => Some (VColor3uint8 r g b)
  | RInt64 n => Some (VInt64 n)
  | RSharedString _ => None
  | ROptional _ _ => None
  | RUniqueId r t i => Some (VUniqueId r t i)
  | RFont f w s c => Some (VFont f w s c)
  end.

(** codec.go:206-418 decodeValue, None for nil.  [q2m] stands for the nine
    float32 expressions of values.go:1590-1594 (a compiler may fuse their
    multiplications and additions). *)
Definition quat := N -> N -> N -> N -> list N.
Definition decodeValue (q2m : quat) (v : value) : option rvalue :=
  match v with
  | VString s => Some (RString s)
  | VBool b => Some (RBool b)
  | VInt n => Some (RInt n)
  | VFloat f => Some (RFloat f)
  | VDouble f => Some (RDouble f)
  | VUDim s o => Some (RUDim s o)
  | VUDim2 sx sy ox oy => Some (RUDim2 sx ox sy oy)
  | VRay a b c d e f => Some (RRay (Vec3 a b c) (Vec3 d e f))
  | VFaces a b c d e f => Some (RFaces a b c d e f)
  | VAxes x y z => Some (RAxes x y z)
  | VBrickColor n => Some (RBrickColor n)
  | VColor3 r g b => Some (RColor3 r g b)
  | VVector2 x y => Some (RVector2 x y)
  | VVector3 v => Some (RVector3 v)
  | VVector2int16 x y => Some (RVector2int16 x y)
  | VCFrame sp rot p => Some (RCFrame p (if Byte.eqb sp x00 then rot else special_matrix sp))
  | VCFrameQuat sp x y z w p =>                          (* values.go:1583-1597 ToCFrame *)
      Some (RCFrame p (if Byte.eqb sp x00 then q2m x y z w else special_matrix sp))
  | VToken n => Some (RToken n)
  | VReference _ => None
  | VVector3int16 x y z => Some (RVector3int16 x y z)
  | VNumberSequence ks => Some (RNumberSequence ks)
  | VColorSequence ks => Some (RColorSequence ks)
  | VNumberRange a b => Some (RNumberRange a b)
  | VRect a b c d => Some (RRect a b c d)
  | VPhysicalProperties c d f e fw ew => Some (RPhysicalProperties (negb (Byte.eqb c x00)) d f e fw ew)
  | VColor3uint8 r g b => Some (RColor3uint8 r g b)
  | VInt64 n => Some (RInt64 n)
  | VSharedString _ => None
  | VUniqueId r t i => Some (RUniqueId r t i)
  | VFont f w s c => Some (RFont f w s c)
  end.

(** ** Array access *)

(** The Get methods (arrays.go:346, ..., 1411) *)
Fixpoint arr_get (a : array) (i : nat) : res (option value) :=
  match a with
  | ARR _ vs => match nth_error vs i with Some v => OK (Some v) | None => Panic end
  | AOPT None _ => Panic
  | AOPT (Some v) ps =>
      match nth_error ps i with
      | None => Panic
      | Some false => OK None
      | Some true => arr_get v i
      end
  end.
(** The Set methods (arrays.go:351, ..., 1421); a value of another type, and
    nil, panics in the type assertion. *)
Fixpoint arr_set (a : array) (i : nat) (v : option value) : res array :=
  match a with
  | ARR t vs =>
      match v with
      | Some v => if tid_eqb (vtype v) t && (i <? length vs)%nat then OK (ARR t (upd vs i v)) else Panic
      | None => Panic
      end
  | AOPT None _ => Panic
  | AOPT (Some a) ps =>
      a' <- arr_set a i (match v with Some v => Some v | None => newValue (arr_type a) end) ;;
      if (i <? length ps)%nat
      then OK (AOPT (Some a') (upd ps i (match v with Some _ => true | None => false end)))
      else Panic
  end.

(** ** Warnings of the codec (codec.go:25-27) with the formatted texts. *)
Inductive ckind :=
| CGroup (id : Z)                                      (* :95 *)
| CNoType                                              (* :100 *)
| CChild (i : nat) (id : Z)                            (* :161 *)
| CMismatch (t u : option tid) (class name : bytes)    (* :565 *)
| COptMismatch (t u : option tid) (class name : bytes). (* :571 *)
Inductive cwarn := CW (i : nat) (sg : N) (k : ckind).

(** ** codec.go:39-197 Decode *)

(** instLookup; -1 maps to nil *)
Definition look := list (Z * ptr).
Fixpoint lfind (l : look) (k : Z) : option ptr :=
  match l with
  | [] => None
  | (k', p) :: l => if (k' =? k)%Z then Some p else lfind l k
  end.
Definition lget (l : look) (k : Z) : ptr := match lfind l k with Some p => p | None => 0 end.
Definition nilInstance : Z := (-1)%Z.

(** The variables of Decode; the fresh instances are the heap. *)
Record dcs := Dcs {
  k_heap : heap; k_look : look; k_root : list ptr; k_meta : list (bytes * bytes);
  k_shared : list (bytes * bytes); k_warns : list cwarn }.
Definition k0 : dcs := Dcs [] [(nilInstance, 0)] [] [] [] [].

Definition out_of_bounds (id : Z) (bound : N) : bool := (id <? 0)%Z || (bound <=? Z.to_N id)%N.

(** codec.go:65-81; file.go:93-99 NewInstance.  GetService[i] is in range by
    the check before. *)
Fixpoint dec_insts (bound : N) (class : bytes) (svc : bool) (gs : bytes) (ids : list Z) (h : heap) (lk : look)
  : res (heap * look) :=
  match ids with
  | [] => OK (h, lk)
  | id :: ids =>
      if out_of_bounds id bound then Err (EBounds 1 id bound)
      else match lfind lk id with
      | Some _ => Err (EDuplicateID id)
      | None =>
          dec_insts bound class svc (tl gs) ids
            (h ++ [Inst class [] (svc && Byte.eqb (hd x00 gs) x01) [] []])
            ((id, S (length h)) :: lk)
      end
  end.

(** codec.go:109-142: the i-th value of a property array.  Some(nil) panics. *)
Definition dec_value (q2m : quat) (lk : look) (shared : list (bytes * bytes)) (a : array) (i : nat) : res rvalue :=
  match a with
  | ARR tReference vs =>
      match nth_error vs i with Some (VReference r) => OK (RReference (lget lk r)) | _ => Panic end
  | ARR tSharedString vs =>
      match nth_error vs i with
      | Some (VSharedString n) =>
          OK (RSharedString (if (n <? N.of_nat (length shared))%N
                             then snd (nth (N.to_nat n) shared ([], [])) else []))
      | _ => Panic
      end
  | AOPT (Some v) ps =>
      match nth_error ps i with
      | None => Panic
      | Some false => OK (mkNone (tid_value_type (arr_type v)))
      | Some true =>
          x <- arr_get v i ;;
          match x with
          | None => Panic
          | Some x => match decodeValue q2m x with Some r => OK (mkSome r) | None => Panic end
          end
      end
  | AOPT None _ => Panic
  | ARR _ vs =>
      match nth_error vs i with
      | Some v => match decodeValue q2m v with Some r => OK r | None => Panic end
      | None => Panic
      end
  end.
(** The loops over the instances of the group; a nil instance panics. *)
Fixpoint dec_props (q2m : quat) (lk : look) shared (name : bytes) (a : array) (i : nat) (ids : list Z) (h : heap)
  : res heap :=
  match ids with
  | [] => OK h
  | id :: ids =>
      v <- dec_value q2m lk shared a i ;;
      match hget h (lget lk id) with
      | None => Panic
      | Some x =>
          dec_props q2m lk shared name a (S i) ids
            (hset h (lget lk id) (set_props x (mset (i_props x) name v)))
      end
  end.

Definition set_children (i : inst) (cs : list ptr) : inst :=
  Inst (i_class i) (i_ref i) (i_service i) (i_props i) cs.
(** codec.go:154-179, the error with the warnings so far *)
Fixpoint dec_links (ic : nat) (bound : N) (lk : look) (i : nat) (l : list (Z * Z))
    (h : heap) (rt : list ptr) (ws : list cwarn) : outcome (err * list cwarn) (heap * list ptr * list cwarn) :=
  match l with
  | [] => OK (h, rt, ws)
  | (c, p) :: l =>
      if out_of_bounds c bound then Err (EBounds 2 c bound, ws)
      else
        let child := lget lk c in
        if (child =? 0)%nat
        then dec_links ic bound lk (S i) l h rt (ws ++ [CW ic sigPRNT (CChild i c)])
        else if (p =? nilInstance)%Z then dec_links ic bound lk (S i) l h (rt ++ [child]) ws
        else match lfind lk p with
        | None => dec_links ic bound lk (S i) l h rt ws
        | Some pp =>
            match hget h pp with
            | None => Panic
            | Some x =>
                dec_links ic bound lk (S i) l (hset h pp (set_children x (i_children x ++ [child]))) rt ws
            end
        end
  end.

Definition cfail (s : dcs) (i : nat) (p : payload) (e : err) : outcome (err * list cwarn) dcs :=
  Err (EChunk i (psig p) e, k_warns s).
Definition cwarn_add (s : dcs) (w : cwarn) : dcs :=
  Dcs (k_heap s) (k_look s) (k_root s) (k_meta s) (k_shared s) (k_warns s ++ [w]).
(** One chunk: codec.go:53-193 *)
Definition dec_chunk (q2m : quat) (f : fmodel) (ic : nat) (p : payload) (s : dcs)
  : outcome (err * list cwarn) dcs :=
  match p with
  | PInst id class ids svc gs =>
      if out_of_bounds id (fm_classCount f) then cfail s ic p (EBounds 0 id (fm_classCount f))
      else if svc && negb (length ids =? length gs)%nat then cfail s ic p EGetServiceLen
      else match dec_insts (fm_instCount f) class svc gs ids (k_heap s) (k_look s) with
      | Err e => cfail s ic p e
      | Panic => Panic
      | Hang => Hang
      | OK (h, lk) =>
          match group_get (fm_groups f) id with
          | Some (pos, _) =>
              if (pos =? ic)%nat
              then OK (Dcs h lk (k_root s) (k_meta s) (k_shared s) (k_warns s))
              else cfail s ic p (EClassIndex id)
          | None => cfail s ic p (EClassIndex id)
          end
      end
  | PProp id name props =>
      if out_of_bounds id (fm_classCount f) then cfail s ic p (EBounds 0 id (fm_classCount f))
      else match group_get (fm_groups f) id with
      | None => OK (cwarn_add s (CW ic (psig p) (CGroup id)))
      | Some (_, ids) =>
          match props with
          | None => OK (cwarn_add s (CW ic (psig p) CNoType))
          | Some a =>
              if negb (arr_len a =? length ids)%nat then cfail s ic p (EPropLen (arr_len a) (length ids))
              else match dec_props q2m (k_look s) (k_shared s) name a 0 ids (k_heap s) with
              | OK h => OK (Dcs h (k_look s) (k_root s) (k_meta s) (k_shared s) (k_warns s))
              | Err e => cfail s ic p e
              | Panic => Panic
              | Hang => Hang
              end
          end
      end
  | PPrnt v ch ps =>
      if negb (v =? 0)%N then cfail s ic p (EParentVersion v)
      else if negb (length ps =? length ch)%nat then cfail s ic p (EParentArray (length ch) (length ps))
      else match dec_links ic (fm_instCount f) (k_look s) 0 (combine ch ps) (k_heap s) (k_root s) (k_warns s) with
      | OK (h, rt, ws) => OK (Dcs h (k_look s) rt (k_meta s) (k_shared s) ws)
      | Err (e, ws) => Err (EChunk ic (psig p) e, ws)
      | Panic => Panic
      | Hang => Hang
      end
  | PMeta vs =>
      OK (Dcs (k_heap s) (k_look s) (k_root s)
              (fold_left (fun m kv => mset m (fst kv) (snd kv)) vs (k_meta s)) (k_shared s) (k_warns s))
  | PSstr _ vs => OK (Dcs (k_heap s) (k_look s) (k_root s) (k_meta s) vs (k_warns s))
  | PEnd _ | PUnknown _ _ | PErrored _ _ _ _ => OK s
  end.
Fixpoint dec_chunk_list (q2m : quat) (f : fmodel) (ic : nat) (cs : list chunk) (s : dcs)
  : outcome (err * list cwarn) dcs :=
  match cs with
  | [] => OK s
  | c :: cs =>
      match ch_payload c with
      | PEnd _ => OK s                                  (* :192 break loop *)
      | p => s <- dec_chunk q2m f ic p s ;; dec_chunk_list q2m f (S ic) cs s
      end
  end.
Definition codec_decode (q2m : quat) (f : fmodel)
  : outcome (err * list cwarn) (root * heap * list cwarn) :=
  s <- dec_chunk_list q2m f 0 (fm_chunks f) k0 ;;
  OK (Root (k_root s) (k_meta s), k_heap s, k_warns s).

(** ** codec.go:426-740 Encode *)

(** An INST chunk under construction: ids, IsService, GetService. *)
Record cgroup := CGrp { g_ids : list Z; g_service : bool; g_flags : bytes }.
(** The nondeterminism and the hash: [ev_hash s] is the first 16 bytes of
    blake2b-256; the orders are those of ranging over instChunkMap (:498),
    propChunkMap (:529) and root.Metadata (:711); [ev_sort] is sort.Sort with
    sortMetaData (:714) on more than twelve pairs. *)
Record env := Env {
  ev_hash : bytes -> bytes;
  ev_classes : list (bytes * cgroup) -> list (bytes * cgroup);
  ev_names : list bytes -> list bytes;
  ev_meta : list (bytes * bytes) -> list (bytes * bytes);
  ev_sort : list (bytes * bytes) -> list (bytes * bytes) }.

(** refs (:440): nil is -1, an instance its position in instList *)
Fixpoint position (l : list ptr) (p : ptr) : option nat :=
  match l with
  | [] => None
  | q :: l => if (q =? p)%nat then Some 0 else option_map S (position l p)
  end.
Definition refs_get (l : list ptr) (p : ptr) : option Z :=
  if (p =? 0)%nat then Some nilInstance else option_map (fun k => wrapZ 32 (Z.of_nat k)) (position l p).
Definition refs_or_nil (l : list ptr) (p : ptr) : Z :=
  match refs_get l p with Some r => r | None => nilInstance end.

Fixpoint fold_res {A S} (f : A -> S -> res S) (l : list A) (s : S) : res S :=
  match l with [] => OK s | a :: l => s <- f a s ;; fold_res f l s end.

(** :447-468 addInstance *)
Fixpoint add_inst (fuel : nat) (h : heap) (p : ptr) (l : list ptr) : res (list ptr) :=
  match fuel with
  | O => Hang
  | S fuel =>
      match refs_get l p with
      | Some _ => OK l
      | None =>
          match hget h p with
          | None => Panic                                 (* not an instance *)
          | Some i => fold_res (add_inst fuel h) (i_children i) (l ++ [p])
          end
      end
  end.

(** :470-491; [n] is the reference number of the first instance of l *)
Fixpoint group_insts (place : bool) (h : heap) (n : nat) (l : list ptr) (g : list (bytes * cgroup))
  : res (list (bytes * cgroup)) :=
  match l with
  | [] => OK g
  | p :: l =>
      match hget h p with
      | None => Panic
      | Some i =>
          let c := match mfind g (i_class i) with Some c => c | None => CGrp [] false [] end in
          let svc := place && i_service i in
          let c := CGrp (g_ids c ++ [wrapZ 32 (Z.of_nat n)]) (g_service c || svc)
                        (g_flags c ++ [if svc then x01 else x00]) in
          group_insts place h (S n) l (mset g (i_class i) c)
      end
  end.

(** sort.Sort by a string key.  The keys are those of a map, so all different:
    every correct sorting algorithm gives this list. *)
Fixpoint insert_by {A} (key : A -> bytes) (a : A) (l : list A) : list A :=
  match l with
  | [] => [a]
  | b :: l => if bytes_ltb (key b) (key a) then b :: insert_by key a l else a :: b :: l
  end.
Definition sort_by {A} (key : A -> bytes) (l : list A) : list A := fold_right (insert_by key) [] l.

(** :511-525: the property names of the instances of a class *)
Definition add_name (names : list bytes) (n : bytes) : list bytes :=
  if existsb (bytes_eqb n) names then names else names ++ [n].
Definition class_names (insts : list inst) : list bytes :=
  fold_left (fun names i => fold_left add_name (map fst (i_props i)) names) insts [].

(** :527-587 for one name: the values of the instances that have it, in order.
    Result: the warnings, and the chunk's array (None: the chunk is deleted,
    Some None: it stays without an array).  instList[-1] panics (:543, 554). *)
Fixpoint check_rest (t : tid) (o : option tid) (class name : bytes) (vs : list rvalue) : option (ckind * bool) :=
  match vs with
  | [] => None
  | v :: vs =>
      if match fromValueType (rtype v) with Some u => negb (tid_eqb u t) | None => true end
      then Some (CMismatch (fromValueType (rtype v)) (Some t) class name, true)
      else match v with
      | ROptional ty _ =>
          if match fromValueType ty, o with
             | Some u, Some w => negb (tid_eqb u w)
             | None, None => false
             | _, _ => true
             end
          then Some (COptMismatch (fromValueType ty) o class name, false)
          else check_rest t o class name vs
      | _ => check_rest t o class name vs
      end
  end.
Definition check_prop (place : bool) (class name : bytes) (n : nat) (vs : list rvalue)
  : res (list ckind * option (option array)) :=
  match vs with
  | [] => Panic                                           (* :576, not reached *)
  | v :: vs =>
      match fromValueType (rtype v) with
      | None => Panic
      | Some t =>
          if negb place && tid_eqb t tUniqueId then OK ([], None)
          else
            match (match v with
                   | ROptional ty _ => match fromValueType ty with Some u => Some (Some u) | None => None end
                   | _ => Some None
                   end) with
            | None => Panic
            | Some o =>
                match check_rest t o class name vs with
                | Some (w, true) => OK ([w], None)
                | Some (w, false) => OK ([w], Some None)
                | None =>
                    OK ([], Some (Some
                      (match o with
                       | Some u => AOPT (Some (newArray u n)) (repeat false n)
                       | None => newArray t n
                       end)))
                end
            end
      end
  end.
Definition prop_values (insts : list inst) (name : bytes) : list rvalue :=
  flat_map (fun i => match mfind (i_props i) name with Some v => [v] | None => [] end) insts.

Fixpoint check_props (place : bool) (class : bytes) (insts : list inst) (names : list bytes)
  : res (list ckind * list (bytes * option array)) :=
  match names with
  | [] => OK ([], [])
  | name :: names =>
      ' (w, a) <- check_prop place class name (length insts) (prop_values insts name) ;;
      ' (ws, r) <- check_props place class insts names ;;
      OK (w ++ ws, match a with Some a => (name, a) :: r | None => r end)
  end.

(** The shared strings so far, in index order, with their hashes (:445). *)
Definition shareds := list (bytes * bytes).
Fixpoint shared_index (sh : shareds) (hash : bytes) : option nat :=
  match sh with
  | [] => None
  | (k, _) :: sh => if bytes_eqb k hash then Some 0 else option_map S (shared_index sh hash)
  end.
(** :620-634 *)
Definition share (ev : env) (s : bytes) (sh : shareds) : N * shareds :=
  match shared_index sh (ev_hash ev s) with
  | Some k => (N.of_nat k mod 2 ^ 32, sh)%N
  | None => (N.of_nat (length sh) mod 2 ^ 32, sh ++ [(ev_hash ev s, s)])%N
  end.

(** :603-650 for one instance *)
Definition enc_value (ev : env) (l : list ptr) (name : bytes) (i : nat) (x : inst) (st : array * shareds)
  : res (array * shareds) :=
  let '(a, sh) := st in
  match mfind (i_props x) name with
  | Some (ROptional _ v) =>
      a <- arr_set a i (match v with Some v => encodeValue v | None => None end) ;; OK (a, sh)
  | ov =>
      let '(bv, sh) :=
        match ov with
        | Some (RReference p) => (Some (VReference (refs_or_nil l p)), sh)
        | Some (RSharedString s) => let '(n, sh) := share ev s sh in (Some (VSharedString n), sh)
        | Some v => (encodeValue v, sh)
        | None => (None, sh)
        end in
      let bv :=
        match bv with
        | Some b => if tid_eqb (vtype b) (arr_type a) then Some b else newValue (arr_type a)
        | None => newValue (arr_type a)
        end in
      a <- arr_set a i bv ;; OK (a, sh)
  end.
Fixpoint enc_values (ev : env) (l : list ptr) (name : bytes) (i : nat) (insts : list inst) (st : array * shareds)
  : res (array * shareds) :=
  match insts with
  | [] => OK st
  | x :: insts => st <- enc_value ev l name i x st ;; enc_values ev l name (S i) insts st
  end.
(** :601-652; calling a method of a nil array panics *)
Fixpoint enc_props (ev : env) (l : list ptr) (classID : Z) (insts : list inst) (ps : list (bytes * option array))
    (sh : shareds) : res (list chunk * shareds) :=
  match ps with
  | [] => OK ([], sh)
  | (name, None) :: ps =>
      match insts with [] => enc_props ev l classID insts ps sh | _ => Panic end
  | (name, Some a) :: ps =>
      ' (a, sh) <- enc_values ev l name 0 insts (a, sh) ;;
      ' (cs, sh) <- enc_props ev l classID insts ps sh ;;
      OK (Chunk true (PProp classID name (Some a)) :: cs, sh)
  end.

Definition get_insts (h : heap) (l : list ptr) (ids : list Z) : res (list inst) :=
  fold_right (fun id r =>
    r <- r ;;
    match (if (id <? 0)%Z then None else nth_error l (Z.to_nat id)) with
    | Some p => match hget h p with Some x => OK (x :: r) | None => Panic end
    | None => Panic
    end) (OK []) ids.

(** :506-653, the loop over instChunkList; [i] is the class id.  Result:
    warnings, INST chunks, PROP chunks, shared strings. *)
Fixpoint enc_classes (ev : env) (place : bool) (h : heap) (l : list ptr) (i : nat) (gs : list (bytes * cgroup))
    (sh : shareds) : res (list cwarn * list chunk * list chunk * shareds) :=
  match gs with
  | [] => OK ([], [], [], sh)
  | (class, g) :: gs =>
      let classID := wrapZ 32 (Z.of_nat i) in
      insts <- get_insts h l (g_ids g) ;;
      ' (ws, ps) <- check_props place class insts (ev_names ev (class_names insts)) ;;
      ' (cs, sh) <- enc_props ev l classID insts (sort_by fst ps) sh ;;
      ' (ws2, is2, cs2, sh) <- enc_classes ev place h l (S i) gs sh ;;
      OK (map (CW i sigINST) ws ++ ws2,
          Chunk true (PInst classID class (g_ids g) (g_service g) (g_flags g)) :: is2,
          cs ++ cs2, sh)
  end.

(** :655-686 recInst; n is the length of the arrays *)
Fixpoint rec_inst (fuel : nat) (h : heap) (l : list ptr) (parent : ptr) (p : ptr) (acc : list (Z * Z))
  : res (list (Z * Z)) :=
  match fuel with
  | O => Hang
  | S fuel =>
      match hget h p with
      | None => Panic                                     (* nil *)
      | Some x =>
          acc <- fold_res (rec_inst fuel h l p) (i_children x) acc ;;
          if (length acc <? length l)%nat
          then OK (acc ++ [(match refs_get l p with Some r => r | None => 0%Z end, refs_or_nil l parent)])
          else Panic
      end
  end.

(** :766-776 sortMetaData: Less compares a key with a value.  sort.Sort is
    insertion sort up to twelve elements; [meta_insert] moves the last element
    of a prefix to the left, on the reversed prefix. *)
Definition meta_less (a b : bytes * bytes) : bool := bytes_ltb (fst a) (snd b).
Fixpoint meta_insert (a : bytes * bytes) (r : list (bytes * bytes)) : list (bytes * bytes) :=
  match r with
  | [] => [a]
  | b :: r => if meta_less a b then b :: meta_insert a r else a :: b :: r
  end.
Definition meta_isort (l : list (bytes * bytes)) : list (bytes * bytes) :=
  rev (fold_left (fun r a => meta_insert a r) l []).
Definition meta_sort (ev : env) (l : list (bytes * bytes)) : list (bytes * bytes) :=
  if (length l <=? 12)%nat then meta_isort l else ev_sort ev l.

(** :426-740.  Recursion is at most as deep as the heap is long on any
    acyclic forest; [fuel] beyond that never matters. *)
Definition codec_encode (ev : env) (place : bool) (h : heap) (r : option root)
  : res (fmodel * list cwarn) :=
  match r with
  | None => Err ENilRoot
  | Some r =>
      let fuel := S (S (length h)) in
      l <- fold_res (add_inst fuel h) (r_instances r) [] ;;
      gs <- group_insts place h 0 l [] ;;
      let gs := sort_by fst (ev_classes ev gs) in
      ' (ws, is, ps, sh) <- enc_classes ev place h l 0 gs [] ;;
      links <- (match l with
                | [] => OK []
                | _ => fold_res (rec_inst fuel h l 0) (r_instances r) []
                end) ;;
      let pad := repeat (0, 0)%Z (length l - length links) in
      let prnt := PPrnt 0 (map fst (links ++ pad)) (map snd (links ++ pad)) in
      let meta := match r_metadata r with
                  | [] => []
                  | md => [Chunk true (PMeta (meta_sort ev (ev_meta ev md)))]
                  end in
      let sstr := match sh with
                  | [] => []
                  | _ => [Chunk true (PSstr 0 (map (fun e => (repeat x00 16, snd e)) sh))]
                  end in
      OK (FModel 0 (N.of_nat (length gs) mod 2 ^ 32) (N.of_nat (length l) mod 2 ^ 32)
            (meta ++ sstr ++ is ++ ps ++ [Chunk true prnt; Chunk false (PEnd endContent)]) [] [], ws)
  end.
