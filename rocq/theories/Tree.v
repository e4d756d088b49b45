(** Tree.v - model of /repo/file.go and /repo/ref.go: instances, reference
    tables, copying.

    Instances live in a heap: pointer 0 is nil, pointer p > 0 is entry p-1.
    A Go map is an association list in which the first binding counts; where
    the code ranges over a map, the order is an arbitrary permutation given by
    a parameter.  Property values are never the nil interface. *)
From Verif Require Import Base RbxlValues RbxValues.

(** file.go:69-92 Instance *)
Record inst := Inst {
  i_class : bytes; i_ref : bytes; i_service : bool;
  i_props : list (bytes * rvalue); i_children : list ptr }.
Definition heap := list inst.
Definition hget (h : heap) (p : ptr) : option inst :=
  match p with O => None | S k => nth_error h k end.
Definition hset (h : heap) (p : ptr) (i : inst) : heap :=
  match p with O => h | S k => upd h k i end.
Definition set_ref (i : inst) (r : bytes) : inst :=
  Inst (i_class i) r (i_service i) (i_props i) (i_children i).
Definition set_props (i : inst) (ps : list (bytes * rvalue)) : inst :=
  Inst (i_class i) (i_ref i) (i_service i) ps (i_children i).
(** file.go:26-32 Root; a nil Metadata map is the empty one. *)
Record root := Root { r_instances : list ptr; r_metadata : list (bytes * bytes) }.

(** m[k] and m[k] = a *)
Fixpoint mfind {A} (m : list (bytes * A)) (k : bytes) : option A :=
  match m with
  | [] => None
  | (k', a) :: m => if bytes_eqb k' k then Some a else mfind m k
  end.
Fixpoint mset {A} (m : list (bytes * A)) (k : bytes) (a : A) : list (bytes * A) :=
  match m with
  | [] => [(k, a)]
  | (k', a') :: m => if bytes_eqb k' k then (k, a) :: m else (k', a') :: mset m k a
  end.

(** ref.go:17 References; [nil] entries are 0, a nil map is [None]. *)
Definition refmap := list (bytes * ptr).
Definition rget (m : refmap) (k : bytes) : ptr := match mfind m k with Some p => p | None => 0 end.

(** ref.go:72-79 IsEmptyReference *)
Definition IsEmptyReference (r : bytes) : bool :=
  bytes_eqb r [] || bytes_eqb r (str "null") || bytes_eqb r (str "nil").

(** ref.go:10-14 PropRef *)
Record propref := PropRef { pr_inst : ptr; pr_prop : bytes; pr_ref : bytes }.

(** ref.go:22-34 Resolve *)
Definition Resolve (refs : option refmap) (h : heap) (e : propref) : heap * bool :=
  match refs with
  | None => (h, false)
  | Some m =>
      match hget h (pr_inst e) with
      | None => (h, false)
      | Some i =>
          let referent := rget m (pr_ref e) in
          (hset h (pr_inst e) (set_props i (mset (i_props i) (pr_prop e) (RReference referent))),
           negb (referent =? 0)%nat && negb (IsEmptyReference (pr_ref e)))
      end
  end.

(** ref.go:55-66: generate until the string is not a key.  [rnd k] is the k-th
    group of 16 bytes read from crypto/rand.  With fuel: a table of n keys
    cannot reject n+1 different strings. *)
Fixpoint regenerate (fuel : nat) (rnd : nat -> bytes) (k : nat) (m : refmap)
  : outcome Empty_set (bytes * nat) :=
  match fuel with
  | O => Hang
  | S fuel =>
      let r := GenerateReference (rnd k) in
      match mfind m r with
      | None => OK (r, S k)
      | Some _ => regenerate fuel rnd (S k) m
      end
  end.
(** ref.go:40-70 Get on a non-nil table; [k] counts the random reads. *)
Definition get_ref (rnd : nat -> bytes) (h : heap) (m : refmap) (k : nat) (p : ptr)
  : outcome Empty_set (bytes * heap * refmap * nat) :=
  if (p =? 0)%nat then OK ([], h, m, k)
  else
    match hget h p with
    | None => Panic                                      (* not an instance *)
    | Some i =>
        let r := i_ref i in
        let taken := rget m r in
        if IsEmptyReference r || (negb (taken =? 0)%nat && negb (taken =? p)%nat) then
          ' (r, k) <- regenerate (S (length m)) rnd k m ;;
          OK (r, hset h p (set_ref i r), mset m r p, k)
        else OK (r, h, mset m r p, k)
    end.
Definition References_Get (rnd : nat -> bytes) (h : heap) (m : option refmap) (k : nat) (p : ptr)
  : outcome Empty_set (bytes * heap * option refmap * nat) :=
  match m with
  | None => OK (match hget h p with Some i => i_ref i | None => [] end, h, None, k)
  | Some m => ' (r, h, m, k) <- get_ref rnd h m k p ;; OK (r, h, Some m, k)
  end.

(** The state threaded through copy: the heap, the two tables, the property
    references still to resolve, the random reads so far. *)
Record cst := Cst { c_heap : heap; c_refs : refmap; c_crefs : refmap; c_pend : list propref; c_rnd : nat }.

(** file.go:113-124: the loop over the properties; the clone's map is returned
    (it is not read before the loop ends). *)
Fixpoint copy_props (rnd : nat -> bytes) (c : ptr) (l : list (bytes * rvalue)) (ps : list (bytes * rvalue)) (s : cst)
  : outcome Empty_set (list (bytes * rvalue) * cst) :=
  match l with
  | [] => OK (ps, s)
  | (name, v) :: l =>
      match v with
      | RReference x =>
          ' (r, h, m, k) <- get_ref rnd (c_heap s) (c_refs s) (c_rnd s) x ;;
          copy_props rnd c l ps (Cst h m (c_crefs s) (c_pend s ++ [PropRef c name r]) k)
      | v => copy_props rnd c l (mset ps name (rcopy v)) s
      end
  end.
(** file.go:125-128: the loop over the children *)
Fixpoint copy_list (f : ptr -> cst -> outcome Empty_set (ptr * cst)) (l : list ptr) (s : cst)
  : outcome Empty_set (list ptr * cst) :=
  match l with
  | [] => OK ([], s)
  | p :: l => ' (c, s) <- f p s ;; ' (cs, s) <- copy_list f l s ;; OK (c :: cs, s)
  end.
(** file.go:104-130 Instance.copy.  The clone is allocated first and its
    properties and children stored at the end.  [ord p l] is the iteration
    order of the property map of p.  A cyclic tree is infinite recursion. *)
Fixpoint icopy (fuel : nat) (rnd : nat -> bytes) (ord : ptr -> list (bytes * rvalue) -> list (bytes * rvalue))
    (p : ptr) (s : cst) : outcome Empty_set (ptr * cst) :=
  match fuel with
  | O => Hang
  | S fuel =>
      match hget (c_heap s) p with
      | None => Panic                                    (* nil child *)
      | Some i =>
          ' (r, h, m, k) <- get_ref rnd (c_heap s) (c_refs s) (c_rnd s) p ;;
          let c := S (length h) in
          let s := Cst (h ++ [Inst (i_class i) r (i_service i) [] []]) m (mset (c_crefs s) r c) (c_pend s) k in
          ' (ps, s) <- copy_props rnd c (ord p (i_props i)) [] s ;;
          ' (cs, s) <- copy_list (icopy fuel rnd ord) (i_children i) s ;;
          OK (c, Cst (hset (c_heap s) c (Inst (i_class i) r (i_service i) ps cs)) (c_refs s) (c_crefs s) (c_pend s) (c_rnd s))
      end
  end.
(** file.go:58-64 = 141-147 *)
Definition resolve_all (s : cst) : heap :=
  fold_left (fun h e =>
    let '(h, ok) := Resolve (Some (c_crefs s)) h e in
    if ok then h else fst (Resolve (Some (c_refs s)) h e)) (c_pend s) (c_heap s).
(** file.go:139-149 Instance.Copy; k is the number of random reads done before *)
Definition Instance_Copy (fuel : nat) rnd ord (k : nat) (h : heap) (p : ptr) : outcome Empty_set (ptr * heap) :=
  ' (c, s) <- icopy fuel rnd ord p (Cst h [] [] [] k) ;; OK (c, resolve_all s).
(** file.go:48-66 Root.Copy *)
Definition Root_Copy (fuel : nat) rnd ord (k : nat) (h : heap) (r : root) : outcome Empty_set (root * heap) :=
  ' (cs, s) <- copy_list (icopy fuel rnd ord) (r_instances r) (Cst h [] [] [] k) ;;
  OK (Root cs [], resolve_all s).
