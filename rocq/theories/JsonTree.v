(** JsonTree.v - what the JSON encoder makes of a forest. *)
From Coq Require Import Permutation.
From Verif Require Import Base RbxlValues RbxValues Tree RbxlCodec XmlText XmlTextProofs Ieee Json SpecValues SpecTree SpecCodec SpecJson TreeProofs SortProofs
  JsonProofs PropRoot XmlTreeEnc.

Lemma ascii_app a b : ascii (a ++ b) = ascii a && ascii b.
Proof. apply forallb_app. Qed.
Lemma hex_upper_ascii b : ascii (SpecRoot.hex "0123456789ABCDEF" b) = true.
Proof. destruct b; vm_compute; reflexivity. Qed.
Lemma generated_utf8 x : length x = 16 -> utf8 (GenerateReference x).
Proof.
  intros H. apply ascii_utf8. destruct (C37_reference_text x H) as [-> _]. rewrite ascii_app. change (ascii (str "RBX")) with true. cbn [andb].
  induction (mapi SpecRoot.v4_byte 0 x) as [|b l IH]; [reflexivity|]. cbn [flat_map]. now rewrite ascii_app, hex_upper_ascii.
Qed.
(** Every type name is read as the type. *)
Lemma type_name v : type_of_name (str (type_string (rtype v))) = rtype v.
Proof. destruct v; vm_compute; reflexivity. Qed.
Lemma type_name_utf8 v : utf8 (str (type_string (rtype v))).
Proof. apply ascii_utf8. destruct v; vm_compute; reflexivity. Qed.
Lemma member_find m k v : v <> JNull -> member m k = v -> mfind m (str k) = Some v.
Proof. unfold member. intros Hv H. destruct (mfind m (str k)); congruence. Qed.

Section Trees.
Variable (other : Z -> Z -> N -> Z) (rnd : nat -> bytes) (ord : ptr -> list (bytes * rvalue) -> list (bytes * rvalue)) (h0 : heap).
Hypothesis Hrnd : forall k, length (rnd k) = 16.
Hypothesis Hnr : never_repeats (length h0) rnd.
Hypothesis Hord : any_order ord.

Definition jfrom (r : bytes) (q : ptr) : Prop :=
  exists i0, hget h0 q = Some i0 /\ (r = i_ref i0 \/ exists j, r = GenerateReference (rnd j)).
Definition JINV (s : jst) : Prop :=
  RI h0 (js_heap s) (js_refs s) /\ length (js_heap s) = length h0 /\
  (forall q i, hget (js_heap s) q = Some i -> jfrom (i_ref i) q).
Lemma JINV_start : JINV (Jst h0 [] 0).
Proof.
  split; [|split; [reflexivity|]].
  - split; [apply Nat.le_refl|]. split; [intros p i H; exists i; split; [exact H|apply same_refl]|]. split; [discriminate|constructor].
  - intros q i H. exists i. auto.
Qed.
Lemma j_ref_inv s p i0 : JINV s -> hget h0 p = Some i0 -> utf8 (i_ref i0) ->
  exists r s', j_ref rnd p s = OK (JStr r, s') /\ JINV s' /\ mono (js_refs s) (js_refs s') /\
    mfind (js_refs s') r = Some p /\ utf8 r.
Proof.
  intros (HR & HL & HF) Hp Hu. pose proof (hget_some _ _ _ Hp) as Hrange.
  destruct (get_ref_spec rnd h0 (js_heap s) (js_refs s) (js_rnd s) p HR Hrange) as [(r & h' & m' & k' & E & A1 & A2 & A3 & A4 & A5 & A6 & A7)|[_ B]]; [|contradiction].
  exists r, (Jst h' m' k'). unfold j_ref. rewrite E. split; [reflexivity|].
  pose proof HR as (_ & R1 & _). destruct (R1 p i0 Hp) as (i & Hi & Si).
  pose proof (get_ref_from rnd _ _ _ _ _ _ _ _ _ Hi E) as Hr. destruct (HF p i Hi) as (j0 & Hj & Hij). rewrite Hp in Hj. apply Some_eq in Hj. subst j0.
  assert (Hfr : r = i_ref i0 \/ exists j, r = GenerateReference (rnd j)) by (destruct Hr as [-> | Hr]; [exact Hij|now right]).
  split; [|split; [exact A4|split; [exact A2|]]].
  - split; [exact A1|]. split; [cbn [js_heap]; congruence|].
    cbn [js_heap]. intros q iq Hq. destruct (Nat.eq_dec q p) as [->|Hne].
    + rewrite (A7 i Hi) in Hq. apply Some_eq in Hq. subst iq. exists i0. split; [exact Hp|exact Hfr].
    + rewrite A6 in Hq by exact Hne. now apply HF.
  - destruct Hfr as [->|[j ->]]; [exact Hu|]. apply generated_utf8, Hrnd.
Qed.

(** What stands for a property once the text is read. *)
Definition prop_json (m : refmap) (v : rvalue) (jp : jv) : Prop :=
  exists pr jx, jp = JObj pr /\ mfind pr (str "type") = Some (JStr (str (type_string (rtype v)))) /\ mfind pr (str "value") = Some jx /\
    match v with
    | RReference q => exists r, jx = JStr r /\ ok_ref m r q
    | v => ValueFromJSON other jx (rtype v) = OK (json_value v)
    end.
Definition props_json (m : refmap) (ps : list (bytes * rvalue)) (pm : list (bytes * jv)) : Prop :=
  NoDup (map fst pm) /\
  forall name, match mfind ps name with Some v => exists jp, mfind pm name = Some jp /\ prop_json m v jp | None => mfind pm name = None end.
Inductive inst_json (m : refmap) : rtree -> jv -> Prop :=
| IJ p ts i rf r pm l : hget h0 p = Some i -> mfind m rf = Some p ->
    mfind r (str "class_name") = Some (JStr (i_class i)) -> mfind r (str "reference") = Some (JStr rf) ->
    mfind r (str "is_service") = Some (JBool (i_service i)) ->
    mfind r (str "properties") = Some (JObj pm) -> props_json m (i_props i) pm ->
    mfind r (str "children") = Some (JArr l) -> Forall2 (inst_json m) ts l ->
    inst_json m (RNode p ts) (JObj r).
Lemma prop_json_mono m m' v jp : mono m m' -> prop_json m v jp -> prop_json m' v jp.
Proof.
  intros Hm (pr & jx & H1 & H2 & H3 & H4). exists pr, jx. split; [exact H1|]. split; [exact H2|]. split; [exact H3|].
  destruct v; try exact H4. destruct H4 as (r & E & H4). exists r. split; [exact E|]. eapply ok_ref_mono; [exact Hm|exact H4].
Qed.
Lemma props_json_mono m m' ps pm : mono m m' -> props_json m ps pm -> props_json m' ps pm.
Proof.
  intros Hm [H1 H2]. split; [exact H1|]. intros name. specialize (H2 name). destruct (mfind ps name) as [v|]; [|exact H2].
  destruct H2 as (jp & E & H2). exists jp. split; [exact E|]. eapply prop_json_mono; eauto.
Qed.
Fixpoint inst_json_mono m m' (Hm : mono m m') t j (H : inst_json m t j) {struct H} : inst_json m' t j.
Proof.
  destruct H as [p ts i rf r pm l A1 A2 A3 A4 A5 A6 A7 A8 A9]. eapply IJ; try eassumption; [now apply Hm|eapply props_json_mono; eauto|].
  clear A8. induction A9 as [|t j ts l Ht Hl IH]; constructor; [apply (inst_json_mono m m' Hm _ _ Ht)|exact IH].
Defined.

Lemma prop_enc v s : JINV s -> jsonable v -> (forall q, v = RReference q -> q <> 0 -> exists y, hget h0 q = Some y /\ utf8 (i_ref y)) ->
  exists j s', ValueToJSON rnd v s = OK (j, s') /\ JINV s' /\ mono (js_refs s) (js_refs s') /\
    exists jp, marshal (obj [("type", JStr (str (type_string (rtype v)))); ("value", j)]%string) = Some jp /\ prop_json (js_refs s') v jp.
Proof.
  intros Hs Hv Hq.
  assert (D : (exists q, v = RReference q) \/ forall q, v <> RReference q) by (destruct v; try (right; discriminate); left; eauto).
  assert (G : exists j s', ValueToJSON rnd v s = OK (j, s') /\ JINV s' /\ mono (js_refs s) (js_refs s') /\ exists jx, marshal j = Some jx /\
     match v with
    | RReference q => exists r, jx = JStr r /\ ok_ref (js_refs s') r q
    | v => ValueFromJSON other jx (rtype v) = OK (json_value v)
    end).
  { destruct D as [[q ->]|D].
    - cbn [ValueToJSON]. destruct (Nat.eq_dec q 0) as [->|Hne].
      + unfold j_ref, get_ref. cbn [Nat.eqb obind]. exists (JStr []), (Jst (js_heap s) (js_refs s) (js_rnd s)). split; [reflexivity|].
        split; [exact Hs|]. split; [apply mono_refl|]. exists (JStr []). split; [reflexivity|]. exists []. split; [reflexivity|]. now left.
      + destruct (Hq q eq_refl Hne) as (y & Hy & Hu). destruct (j_ref_inv s q y Hs Hy Hu) as (r & s' & E & I & M & F & U).
        exists (JStr r), s'. split; [exact E|]. split; [exact I|]. split; [exact M|]. exists (JStr r). cbn [marshal]. rewrite utf8_fix_id by exact U.
        split; [reflexivity|]. exists r. split; [reflexivity|]. right. auto.
    - destruct (value_trip other v s rnd Hv D) as (j & j' & E & M & R). exists j, s. split; [exact E|]. split; [exact Hs|]. split; [apply mono_refl|].
      exists j'. split; [exact M|]. destruct v; try exact R. now destruct (D p). }
  destruct G as (j & s' & E & I & M & jx & Ej & R). exists j, s'. split; [exact E|]. split; [exact I|]. split; [exact M|].
  destruct (marshal_fixed [("type", JStr (str (type_string (rtype v)))); ("value", j)]%string [("type", JStr (str (type_string (rtype v)))); ("value", jx)]%string)
    as (pr & Epr & _ & F).
  - reflexivity.
  - repeat (apply Forall2_cons || apply Forall2_nil); cbn [fst snd]; [|exact Ej]. cbn [marshal]. now rewrite utf8_fix_id by apply type_name_utf8.
  - reflexivity.
  - exists (JObj pr). split; [exact Epr|]. exists pr, jx. split; [reflexivity|]. rewrite !F. split; [reflexivity|]. split; [reflexivity|]. exact R.
Qed.
Definition storable_prop (nv : bytes * rvalue) : Prop :=
  utf8 (fst nv) /\ jsonable (snd nv) /\ forall q, snd nv = RReference q -> q <> 0 -> exists y, hget h0 q = Some y /\ utf8 (i_ref y).
Lemma props_enc l : Forall storable_prop l -> forall s, JINV s ->
  exists js s', props_to_json rnd l s = OK (js, s') /\ JINV s' /\ mono (js_refs s) (js_refs s') /\ map fst js = map fst l /\
    exists js', Forall2 mar js js' /\ Forall2 (fun nv nj => fst nv = fst nj /\ prop_json (js_refs s') (snd nv) (snd nj)) l js'.
Proof.
  induction 1 as [|[n v] l (H1 & H2 & H3) Hl IH]; intros s Hs; cbn [fst snd] in *.
  { exists [], s. split; [reflexivity|]. split; [exact Hs|]. split; [apply mono_refl|]. split; [reflexivity|]. exists []. split; constructor. }
  destruct (prop_enc v s Hs H2 H3) as (j & s1 & E1 & I1 & M1 & jp & Mj & P1).
  destruct (IH s1 I1) as (js & s2 & E2 & I2 & M2 & K2 & js' & F2 & P2).
  eexists _, s2. cbn [props_to_json]. rewrite E1. cbn [obind]. rewrite E2. cbn [obind]. split; [reflexivity|]. split; [exact I2|].
  split; [eapply mono_trans; eauto|]. split; [cbn [map fst]; now rewrite K2|]. exists ((n, jp) :: js'). split; [constructor; [split; [reflexivity|exact Mj]|exact F2]|].
  constructor; [|exact P2]. split; [reflexivity|]. cbn [snd]. eapply prop_json_mono; eauto.
Qed.
Lemma props_json_of m l js' pm : NoDup (map fst l) ->
  Forall2 (fun nv nj => fst nv = fst nj /\ prop_json m (snd nv) (snd nj)) l js' ->
  NoDup (map fst pm) -> (forall k, mfind pm k = mfind js' k) -> props_json m l pm.
Proof.
  intros Hn H Hpm F. split; [exact Hpm|]. intros name. rewrite F. clear pm Hpm F Hn.
  induction H as [|[n v] [n' j] l js' [E P] Hl IH]; cbn [mfind fst snd] in *; [reflexivity|]. subst n'.
  destruct (beqb_spec n name); [eauto|exact IH].
Qed.
Lemma props_json_perm m l l' pm : NoDup (map fst l) -> Permutation l l' -> props_json m l' pm -> props_json m l pm.
Proof. intros Hn Hp [H1 H2]. split; [exact H1|]. intros name. rewrite (mfind_perm l l' name Hn Hp). apply H2. Qed.

Definition storable_inst (p : ptr) : Prop :=
  exists i, hget h0 p = Some i /\ utf8 (i_class i) /\ utf8 (i_ref i) /\ NoDup (map fst (i_props i)) /\ Forall storable_prop (i_props i).
Definition tree_enc (f : ptr -> jst -> jout (jv * jst)) (t : rtree) : Prop := forall s, JINV s ->
  exists j s', f (rroot t) s = OK (j, s') /\ JINV s' /\ mono (js_refs s) (js_refs s') /\ exists j', marshal j = Some j' /\ inst_json (js_refs s') t j'.
Lemma insts_enc f ts : Forall (tree_enc f) ts -> forall s, JINV s ->
  exists js s', insts_to_json f (map rroot ts) s = OK (js, s') /\ JINV s' /\ mono (js_refs s) (js_refs s') /\
    exists js', Forall2 (fun a b => marshal a = Some b) js js' /\ Forall2 (inst_json (js_refs s')) ts js'.
Proof.
  induction 1 as [|t ts Ht Hts IH]; intros s Hs.
  { exists [], s. split; [reflexivity|]. split; [exact Hs|]. split; [apply mono_refl|]. exists []. split; constructor. }
  destruct (Ht s Hs) as (j & s1 & E1 & I1 & M1 & j' & Mj & P1). destruct (IH s1 I1) as (js & s2 & E2 & I2 & M2 & js' & F2 & P2).
  exists (j :: js), s2. cbn [map insts_to_json]. rewrite E1. cbn [obind]. rewrite E2. cbn [obind]. split; [reflexivity|]. split; [exact I2|].
  split; [eapply mono_trans; eauto|]. exists (j' :: js'). split; [now constructor|]. constructor; [|exact P2]. eapply inst_json_mono; eauto.
Qed.
Lemma inst_enc fuel : forall t, height t <= fuel -> tree_at h0 t -> Forall storable_inst (rnodes t) -> tree_enc (InstanceToJSON rnd ord fuel) t.
Proof.
  induction fuel as [|fuel IH]; intros [p ts] Hh Ht Hn s Hs; [cbn [height] in Hh; lia|].
  inversion Ht as [p' ts' i Hi Hc Hts]; subst. cbn [rnodes] in Hn. apply Forall_cons_iff in Hn as [(i0 & Hi0 & Uc & Ur & Nd & Sp) Hn].
  rewrite Hi in Hi0. apply Some_eq in Hi0. subst i0.
  pose proof Hs as ((_ & R1 & _) & _). destruct (R1 p i Hi) as (i1 & Hi1 & S1 & S2 & S3 & S4).
  cbn [rroot InstanceToJSON]. rewrite Hi1.
  destruct (j_ref_inv s p i Hs Hi Ur) as (rf & s1 & E1 & I1 & M1 & F1 & U1). rewrite E1. cbn [obind]. rewrite <- S3.
  assert (Sp' : Forall storable_prop (ord p (i_props i))) by (eapply Permutation_Forall; [apply Hord|exact Sp]).
  destruct (props_enc _ Sp' s1 I1) as (js & s2 & E2 & I2 & M2 & K2 & js' & F2 & P2). rewrite E2. cbn [obind].
  rewrite <- S4, Hc.
  assert (Hall : Forall (tree_enc (InstanceToJSON rnd ord fuel)) ts).
  { apply Forall_forall. intros t Hin. apply IH.
    - cbn [height] in Hh. assert (height t <= fold_right (fun t n => Nat.max (height t) n) 0 ts); [|lia].
      clear - Hin. induction ts as [|t' ts IH]; [destruct Hin|]. cbn [fold_right]. destruct Hin as [->|Hin]; [lia|]. specialize (IH Hin). lia.
    - rewrite Forall_forall in Hts. now apply Hts.
    - apply Forall_forall. intros q Hq. rewrite Forall_forall in Hn. apply Hn. apply in_flat_map. eauto. }
  destruct (insts_enc _ ts Hall s2 I2) as (cs & s3 & E3 & I3 & M3 & cs' & F3 & P3). rewrite E3. cbn [obind].
  eexists _, s3. split; [reflexivity|]. split; [exact I3|]. split; [eapply mono_trans; [exact M1|eapply mono_trans; eauto]|].
  assert (Nd' : NoDup (map fst (ord p (i_props i)))) by (eapply Permutation_NoDup; [apply Permutation_map, Hord|exact Nd]).
  destruct (marshal_obj js js' F2) as (pm & Epm & Npm & Fpm).
  { now rewrite K2. }
  { rewrite K2. apply Forall_forall. intros k Hk. apply in_map_iff in Hk. destruct Hk as (nv & <- & Hin). rewrite Forall_forall in Sp'. now apply Sp'. }
  rewrite <- S1, <- S2.
  destruct (marshal_fixed [("class_name", JStr (i_class i)); ("reference", JStr rf); ("is_service", JBool (i_service i)); ("properties", JObj js); ("children", JArr cs)]%string
    [("class_name", JStr (i_class i)); ("reference", JStr rf); ("is_service", JBool (i_service i)); ("properties", JObj pm); ("children", JArr cs')]%string) as (r & Er & _ & Fr).
  - reflexivity.
  - repeat (apply Forall2_cons || apply Forall2_nil); cbn [fst snd].
    + cbn [marshal]. now rewrite utf8_fix_id.
    + cbn [marshal]. now rewrite utf8_fix_id.
    + reflexivity.
    + exact Epm.
    + now apply marshal_list_ok.
  - reflexivity.
  - exists (JObj r). split; [exact Er|]. eapply (IJ _ p ts i rf r pm cs'); rewrite ?Fr; try reflexivity; [exact Hi|apply M3, M2, F1| |exact P3].
    eapply props_json_mono; [exact M3|]. eapply props_json_perm; [exact Nd|apply Hord|]. eapply props_json_of; eauto.
Qed.
End Trees.
