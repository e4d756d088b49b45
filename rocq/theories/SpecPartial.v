(** SpecPartial.v - specification side for chunks that break off: what is shown
    of them is a beginning of what they would have been. *)
From Verif Require Import Base RbxlValues RbxlArrays RbxlModel RbxlFile SpecDumpLayout.

(** The first m elements of l, and zeros *)
Definition filled {A} (m : nat) (zero : A) (l : list A) : list A := firstn m l ++ repeat zero (length l - m).
(** The first elements of l, one that may be partly there, and zeros *)
Definition begun_list {A} (part : A -> A -> Prop) (zero : A) (full seen : list A) : Prop :=
  seen = [] \/ exists m y a, nth_error full m = Some y /\ part y a /\ seen = firstn m full ++ a :: repeat zero (length full - S m).
Definition begun_pair (full seen : bytes * bytes) : Prop := snd seen = [] /\ (fst seen = fst full \/ fst seen = []).
Definition begun_hash (full seen : bytes * bytes) : Prop := snd seen = [] /\ exists m, fst seen = filled m x00 (fst full).

(** Columns whose values are stored one after another; the bytes of the others
    are interleaved, and say nothing when some are missing. *)
Definition in_sequence (t : tid) : Prop :=
  In t [tString; tBool; tDouble; tRay; tFaces; tAxes; tVector2int16; tVector3int16; tNumberSequence; tColorSequence; tNumberRange;
        tPhysicalProperties; tFont].
Fixpoint column_type (a : array) : option tid := match a with ARR t _ => Some t | AOPT (Some a) _ => column_type a | AOPT None _ => None end.
(** The zero of a type *)
Definition zero_of (t : tid) : value :=
  match t with
  | tString => VString [] | tBool => VBool false | tDouble => VDouble 0 | tRay => VRay 0 0 0 0 0 0 
  | tFaces => VFaces false false false false false false | tAxes => VAxes false false false
  | tVector2int16 => VVector2int16 0 0 | tVector3int16 => VVector3int16 0 0 0
  | tNumberSequence => VNumberSequence [] | tColorSequence => VColorSequence [] | tNumberRange => VNumberRange 0 0
  | tPhysicalProperties => VPhysicalProperties x00 0 0 0 0 0 | tFont => VFont [] 0 x00 []
  | tInt => VInt 0 | tFloat => VFloat 0 | tUDim => VUDim 0 0 | tUDim2 => VUDim2 0 0 0 0 | tBrickColor => VBrickColor 0
  | tColor3 => VColor3 0 0 0 | tVector2 => VVector2 0 0 | tVector3 => VVector3 (Vec3 0 0 0) | tToken => VToken 0 | tReference => VReference 0
  | tRect => VRect 0 0 0 0 | tColor3uint8 => VColor3uint8 x00 x00 x00 | tInt64 => VInt64 0 | tSharedString => VSharedString 0
  | tUniqueId => VUniqueId 0 0 0 | tCFrame => VCFrame x00 (repeat 0%N 9) (Vec3 0 0 0) | tCFrameQuat => VCFrameQuat x00 0 0 0 0 (Vec3 0 0 0)
  | tOptional => VBool false
  end.
Inductive begun_column : array -> option array -> Prop :=
| begun_nothing a : begun_column a None
| begun_values t vs m : begun_column (ARR t vs) (Some (ARR t (filled m (zero_of t) vs)))
| begun_optional a s ps : begun_column a s -> begun_column (AOPT (Some a) ps) (Some (AOPT s (repeat false (length ps))))
| begun_present a ps m : begun_column (AOPT (Some a) ps) (Some (AOPT (Some a) (filled m false ps))).

Inductive begun : payload -> payload -> Prop :=
| begun_meta vs vs' : begun_list begun_pair ([], []) vs vs' -> begun (PMeta vs) (PMeta vs')
| begun_sstr0 v vs : begun (PSstr v vs) (PSstr 0 [])
| begun_sstr v vs vs' : begun_list begun_hash (repeat x00 16, []) vs vs' -> begun (PSstr v vs) (PSstr v vs')
| begun_inst0 id name ids svc gs : begun (PInst id name ids svc gs) (PInst 0 [] [] false [])
| begun_inst1 id name ids svc gs : begun (PInst id name ids svc gs) (PInst id [] [] false [])
| begun_inst2 id name ids svc gs : begun (PInst id name ids svc gs) (PInst id name [] false [])
| begun_inst3 id name ids svc gs : begun (PInst id name ids svc gs) (PInst id name [] svc [])
| begun_inst4 id name ids svc gs : begun (PInst id name ids svc gs) (PInst id name (repeat 0%Z (length ids)) svc [])
| begun_inst5 id name ids gs m : begun (PInst id name ids true gs) (PInst id name ids true (filled m x00 gs))
| begun_prnt0 v cs ps : begun (PPrnt v cs ps) (PPrnt 0 [] [])
| begun_prnt1 v cs ps : begun (PPrnt v cs ps) (PPrnt v [] [])
| begun_prnt2 v cs ps : begun (PPrnt v cs ps) (PPrnt v (repeat 0%Z (length cs)) [])
| begun_prnt3 v cs ps : begun (PPrnt v cs ps) (PPrnt v cs (repeat 0%Z (length ps)))
| begun_prop0 id name props : begun (PProp id name props) (PProp 0 [] None)
| begun_prop1 id name props : begun (PProp id name props) (PProp id [] None)
| begun_prop id name a s : (forall t, column_type a = Some t -> in_sequence t -> begun_column a s) ->
    begun (PProp id name (Some a)) (PProp id name s).

(** The number of instances of a class as declared before chunk i *)
Definition declared_before (f : fmodel) (i : nat) (id : Z) : option nat :=
  option_map fst (last_class (map ch_payload (firstn i (fm_chunks f))) id).
