(** PropJsonDoc.v - C81: the meaning of JSON documents. *)
From Coq Require Import Permutation.
From Verif Require Import Base RbxlValues RbxValues Tree RbxlCodec XmlText Ieee Json SpecValues SpecTree SpecCodec SpecJson TreeProofs
  JsonProofs RbxlFileProofs XmlTreeEnc JsonDec JsonRead JsonOrder SpecJsonRead PropJsonValues JsonDoc PropJsonRead.
From Coq Require Import Lia.

Lemma forall2_combine {A B} (P : A -> B -> Prop) l r : length r = length l -> (forall a b, In (a, b) (combine l r) -> P a b) -> Forall2 P l r.
Proof.
  revert r. induction l as [|a l IH]; intros [|b r] HL H; try discriminate HL; constructor; [apply H; now left|apply IH; [cbn in HL; lia|]].
  intros x y Hxy. apply H. now right.
Qed.
Lemma unmarshalled_props v : unmarshalled v -> NoDup (map fst (props_of v)).
Proof.
  intros H. unfold props_of. destruct v as [| | | | |m|]; cbn [index_obj]; try constructor. destruct (mfind m (str "properties")) as [[| | | | |ps|]|] eqn:E; try constructor.
  apply mfind_In in E. inversion H as [| | | | |m' _ Hall]; subst. rewrite Forall_forall in Hall. specialize (Hall _ E). cbn [snd] in Hall. inversion Hall; subst. assumption.
Qed.

(** In a document where no reference is given twice, every entry with a class
    name is one instance of the root, in order, as it is described, whatever
    the order in which maps are ranged over.  A reference is resolved to the
    one instance that has it, or is nil. *)
Theorem C81_document : forall other jord doc l r h, any_members jord -> unmarshalled doc ->
  reads_instances other doc l -> NoDup (doc_refs l) -> RootFromJSON other jord doc = OK (Some (r, h)) ->
  Forall2 (instance_read h (doc_refs l)) (filter has_class l) (r_instances r) /\ NoDup (r_instances r) /\ r_metadata r = [] /\
  (forall p q i j, hget h p = Some i -> hget h q = Some j -> i_ref i = i_ref j -> i_ref i <> [] -> p = q).
Proof.
  intros other jord doc l r h Hj Hu (m & f & -> & Hv & Hz & Hl) Hn E.
  unfold RootFromJSON in E. cbn [index_obj] in E. rewrite Hv, Hz, Hl in E. cbn [Z.eqb] in E. apply bnd in E as ([ps s] & E1 & E).
  injection E as <- E. change (fold_left (set_ref_prop (jd_refs s)) (jd_props s) (jd_heap s) = h) in E. subst h. cbn [r_instances r_metadata].
  assert (Hp : Forall (fun v => NoDup (map fst (props_of v))) l).
  { apply mfind_In in Hl. inversion Hu as [| | | | |m' _ Hall]; subst. rewrite Forall_forall in Hall. specialize (Hall _ Hl). cbn [snd] in Hall. inversion Hall as [| | | |l' HA|]; subst.
    rewrite Forall_forall in *. intros v Hin. now apply unmarshalled_props, HA. }
  destruct (state_list other jord Hj l [] [] _ ps s (state_start other) Hn (NoDup_nil _) Hp E1) as (A & B & C). cbn [app map] in B, C.
  destruct (set_refs_ok (jd_refs s) (jd_props s) (jd_heap s)) as [L R]. set (h := fold_left _ _ _) in *.
  assert (BACK : forall p i, hget h p = Some i -> exists i0, hget (jd_heap s) p = Some i0 /\ i_ref i = i_ref i0).
  { intros p i Hi. pose proof (hget_some _ _ _ Hi) as G. destruct (hget (jd_heap s) p) as [i0|] eqn:Q.
    - exists i0. split; [reflexivity|]. destruct (R p i0 Q) as (i' & Hi' & _ & Q2 & _). congruence.
    - exfalso. unfold hget in Q. destruct p as [|p]; [lia|]. apply nth_error_None in Q. lia. }
  split; [|split; [exact B|split; [reflexivity|]]].
  - apply forall2_combine; [exact A|]. intros v p Hin. destruct (st_done _ _ _ _ C v p Hin) as (mv & i & -> & D1 & D2 & D3 & D4 & D5 & D6).
    destruct (R p i D1) as (i' & R1 & R2 & R3 & R4 & R5 & R6). econstructor; [exact R1|now rewrite R2|now rewrite R3|now rewrite R4|now rewrite R5|].
    intros name. specialize (D6 name). unfold props_of in D6. cbn [index_obj] in D6.
    set (jo := match mfind mv (str "properties") with Some (JObj ps0) => mfind ps0 name | _ => None end).
    replace (mfind match mfind mv (str "properties") with Some (JObj m0) => m0 | _ => [] end name) with jo in D6
      by (unfold jo; destruct (mfind mv (str "properties")) as [[]|]; reflexivity).
    assert (SEL : forall e, In e (filter (fun e => pr_inst e =? p) (jd_props s)) <-> In e (jd_props s) /\ pr_inst e = p)
      by (intros e; rewrite filter_In, Nat.eqb_eq; reflexivity).
    assert (NONE : (forall x, In x (filter (fun e => pr_inst e =? p) (jd_props s)) -> pr_prop x <> name) -> mfind (i_props i') name = mfind (i_props i) name).
    { intros Q. destruct (R6 name) as [[Q1 _]|(e & Q1 & Q2 & Q3 & _)]; [exact Q1|]. destruct (Q e); [now apply SEL|exact Q3]. }
    destruct jo as [jp|]; cbn [option_map outcome_of] in D6.
    + apply (effect_read other _ _ jp (effect_of other jp)); [reflexivity|]. destruct (effect_of other jp) as [|rr|w|].
      * destruct D6 as [F1 F2]. rewrite NONE by exact F2. exact F1.
      * destruct D6 as (F1 & (x & F2 & F3) & F4). destruct (R6 name) as [[Q1 Q2]|(e & Q1 & Q2 & Q3 & Q4)].
        -- apply SEL in F2 as [F2 F2']. destruct (Q2 x F2 F2' F3).
        -- exists (rget (jd_refs s) rr). rewrite Q4. rewrite (F4 e) by (try exact Q3; now apply SEL). split; [reflexivity|].
           unfold resolves, rget. destruct (mfind (jd_refs s) rr) as [q|] eqn:Eq.
           ++ right. destruct (st_refs _ _ _ _ C rr q Eq) as (U & iq & Hq & Hr). split; [exact U|]. destruct (R q iq Hq) as (iq' & T1 & _ & T2 & _). exists iq'. split; [exact T1|congruence].
           ++ left. split; [reflexivity|]. intros U. destruct (st_used _ _ _ _ C rr U) as [q Hq]. congruence.
      * destruct D6 as [F1 F2]. rewrite NONE by exact F2. exact F1.
      * exact D6.
    + destruct D6 as [F1 F2]. rewrite NONE by exact F2. rewrite F1. constructor.
  - intros p q i j Hi Hj' Eij Hne. destruct (BACK p i Hi) as (i0 & I1 & I2), (BACK q j Hj') as (j0 & J1 & J2).
    destruct (st_heap _ _ _ _ C p i0 I1) as [K|K]; [congruence|]. destruct (st_heap _ _ _ _ C q j0 J1) as [K'|K']; [congruence|]. congruence.
Qed.

(** ** Witnesses *)
Definition prop (t : String.string) (v : jv) : jv := obj [("type", JStr (str t)); ("value", v)]%string.
Definition one : N := f64_of_Z 1.
(** Two instances and an entry without a class: a reference to the second, one
    to the entry, one to nothing, a number with a fraction, a value of the
    wrong kind, a CFrame with two of nine entries. *)
Definition part : list (bytes * jv) :=
  [(str "class_name", JStr (str "Part")); (str "reference", JStr (str "A")); (str "is_service", JNull);
   (str "properties", JObj [(str "to", prop "Reference" (JStr (str "B"))); (str "ghost", prop "Reference" (JStr (str "C")));
      (str "lost", prop "Reference" (JStr (str "D"))); (str "n", prop "Int" (JNum 0xc004000000000000 (* -2.5 *)));
      (str "bad", prop "Int" (JStr (str "2"))); (str "raw", JNum one);
      (str "cf", prop "CFrame" (obj [("position", obj [("x", JNum one); ("y", JNum one); ("z", JNum one)]); ("rotation", JArr [JNum one; JNum one])]%string))]);
   (str "children", JArr [JNull])].
Definition entries : list jv :=
  [JObj part; obj [("class_name", JStr (str "Game")); ("reference", JStr (str "B")); ("is_service", JBool true)]%string; obj [("reference", JStr (str "C"))]%string; JNum one].
Definition doc81 (l : list jv) : jv := obj [("rbxfile_version", JNum 0); ("instances", JArr l)]%string.
Definition v1 : vec3 := Vec3 0x3f800000 0x3f800000 0x3f800000.
Theorem C81_example : forall other, let doc := doc81 entries in
  unmarshalled doc /\ reads_instances other doc entries /\ NoDup (doc_refs entries) /\
  exists h, RootFromJSON other (fun l => l) doc = OK (Some (Root [1; 3] [], h)) /\
    hget h 1 = Some (Inst (str "Part") (str "A") false
      [(str "n", RInt (-2)); (str "cf", RCFrame v1 [0x3f800000; 0x3f800000; 0; 0; 0; 0; 0; 0; 0]%N);
       (str "to", RReference 3); (str "ghost", RReference 4); (str "lost", RReference 0)] []) /\
    hget h 3 = Some (Inst (str "Game") (str "B") true [] []) /\ hget h 4 = Some (Inst [] (str "C") false [] []).
Proof.
  intros other doc. split; [|split; [|split]].
  - unfold doc, doc81, entries, part, prop, obj; cbn [map fst snd].
    repeat (lazymatch goal with
    | |- unmarshalled (snd _) => cbn [snd]
    | |- unmarshalled (JObj _) => apply um_obj; [cbn [map fst]; repeat constructor; cbn; intuition discriminate|]
    | |- unmarshalled _ => constructor
    | |- Forall _ _ => constructor
    end).
  - exists [(str "rbxfile_version", JNum 0); (str "instances", JArr entries)]. exists 0%N. repeat split.
  - change (doc_refs entries) with [str "A"; str "B"; str "C"]. repeat constructor; cbn; intuition discriminate.
  - eexists. split; [vm_compute; reflexivity|]. repeat split; vm_compute; reflexivity.
Qed.
(** Two entries with the same reference are one instance, listed twice, with
    the class of the last and the properties of both. *)
Theorem C81_duplicates_refuted : exists l, forall other, exists h,
  RootFromJSON other (fun l => l) (doc81 l) = OK (Some (Root [1; 1] [], h)) /\
  h = [Inst (str "Folder") (str "A") false [(str "a", RBool true); (str "b", RBool false)] []].
Proof.
  exists [obj [("class_name", JStr (str "Part")); ("reference", JStr (str "A")); ("properties", obj [("a", prop "Bool" (JBool true))])]%string;
     obj [("class_name", JStr (str "Folder")); ("reference", JStr (str "A")); ("properties", obj [("b", prop "Bool" (JBool false))])]%string].
  intros other. eexists. split; vm_compute; reflexivity.
Qed.
