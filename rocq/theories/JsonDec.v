(** JsonDec.v - what the JSON decoder makes of documents. *)
From Coq Require Import Permutation.
From Verif Require Import Base RbxlValues RbxValues Tree RbxlCodec XmlText XmlTextProofs Ieee Json SpecValues SpecTree SpecCodec SpecJson TreeProofs SortProofs
  JsonProofs PropRoot XmlTreeEnc JsonTree.

(** ** Only results and panics *)
Definition tame {A} (o : jout A) : Prop := match o with OK _ | Panic => True | _ => False end.
Lemma tame_bind {A B} (o : jout A) (f : A -> jout B) : tame o -> (forall a, tame (f a)) -> tame (obind o f).
Proof. destruct o; cbn; auto; contradiction. Qed.
Ltac tame_one :=
  match goal with
  | |- tame (OK _) => exact I
  | |- tame Panic => exact I
  | |- tame (obind _ _) => apply tame_bind; [|intros ?]
  | |- tame (match ?x with _ => _ end) => destruct x
  | |- tame (must _) => unfold must
  | |- tame (num32 _ _) => unfold num32
  | |- tame (num _ _) => unfold num
  | |- tame (boolean _ _) => unfold boolean
  | |- tame (from_udim _ _) => unfold from_udim
  | |- tame (from_color3 _) => unfold from_color3
  | |- tame (from_vec2 _) => unfold from_vec2
  | |- tame (from_vec3 _) => unfold from_vec3
  | |- tame (from_nskey _) => unfold from_nskey
  | |- tame (from_cskey _) => unfold from_cskey
  end.
Ltac tame := repeat tame_one.
Lemma tame_rotation n : forall l, tame (Json.rotation n l).
Proof. induction n as [|n IH]; intros [|j l]; cbn [Json.rotation]; tame. apply IH. Qed.
Lemma tame_each {A} (f : jv -> jout A) : (forall v, tame (f v)) -> forall l, tame (each f l).
Proof. intros Hf. induction l as [|v l IH]; cbn [each]; tame; [apply Hf|exact IH]. Qed.

(** A value is one of the seven kinds: induction through arrays and objects. *)
Fixpoint jv_ind2 (P : jv -> Prop) (Hn : P JNull) (Hb : forall b, P (JBool b)) (Hf : forall f, P (JNum f)) (Hs : forall s, P (JStr s))
  (Ha : forall l, Forall P l -> P (JArr l)) (Ho : forall m, Forall (fun kv => P (snd kv)) m -> P (JObj m)) (Ht : forall t, P (JType t)) (v : jv) : P v.
Proof.
  destruct v as [|b|f|s|l|m|t]; [exact Hn|apply Hb|apply Hf|apply Hs|apply Ha|apply Ho|apply Ht].
  - induction l as [|v l IH]; constructor; [apply jv_ind2; assumption|exact IH].
  - induction m as [|[k v] m IH]; constructor; [apply jv_ind2; assumption|exact IH].
Defined.

Section Dec.
Variable other : Z -> Z -> N -> Z.
Lemma tame_value v : forall t, tame (ValueFromJSON other v t).
Proof.
  induction v as [|b|f|s|l IH|m IH|t'] using jv_ind2; intros t; cbn [ValueFromJSON]; cbv zeta;
    repeat match goal with |- tame (if (?a =? ?b)%N then _ else _) => destruct (a =? b)%N end; tame;
    try apply tame_rotation; try (apply tame_each; intros; tame).
  clear - IH. induction IH as [|[k v] m Hv Hm IHm]; [exact I|]. destruct (bytes_eqb k (str "value")); [|exact IHm].
  cbn [snd] in Hv. destruct v; tame; apply Hv.
Qed.

(** ** Properties *)
Lemma tame_prop p s nv : tame (prop_from_json other p s nv).
Proof. unfold prop_from_json. tame; apply tame_value. Qed.
Lemma tame_props p l : forall s, tame (props_from_json other p l s).
Proof. induction l as [|nv l IH]; intros s; cbn [props_from_json]; tame; [apply tame_prop|apply IH]. Qed.

Variable ord : list (bytes * jv) -> list (bytes * jv).
Definition service_of (v : jv) (old : bool) : bool := match index_obj v "is_service" with Some (JBool b) => b | _ => old end.
Definition props_of (v : jv) : list (bytes * jv) := match index_obj v "properties" with Some (JObj m) => m | _ => [] end.
Definition no_kids (i : inst) : inst := Inst (i_class i) (i_ref i) (i_service i) (i_props i) [].
Fixpoint kids (p : ptr) (l : list jv) (s : jdst) : jout (option ptr * jdst) :=
  match l with
  | [] => OK (Some p, s)
  | c :: l => ' (r, s) <- InstanceFromJSON other ord c s ;; match r with Some _ => Panic | None => kids p l s end
  end.
Lemma inst_step v s : InstanceFromJSON other ord v s =
  let '(p, s1) := inst_for v s in
  match index_obj v "class_name" with
  | Some (JStr class) =>
      s2 <- props_from_json other p (ord (props_of v)) (update s1 p (fun i => Inst class (i_ref i) (service_of v (i_service i)) (i_props i) (i_children i))) ;;
      let s3 := update s2 p no_kids in
      match index_obj v "children" with Some (JArr l) => kids p l s3 | _ => OK (Some p, s3) end
  | _ => OK (None, s1)
  end.
Proof.
  destruct v as [|b|f|st|l|m|t]; cbn [InstanceFromJSON]; try reflexivity.
  cbv zeta. destruct (inst_for (JObj m) s) as [p s1]. cbn [index_obj]. destruct (mfind m (str "class_name")) as [[]|]; try reflexivity.
  unfold props_of, service_of. cbn [index_obj].
  match goal with |- obind ?a _ = obind ?b _ => replace b with a end.
  - match goal with |- obind ?a _ = _ => destruct a as [s2| | |]; cbn [obind]; try reflexivity end.
    fold no_kids. change (fun i : inst => _) with no_kids. set (s3 := update s2 p no_kids). clearbody s3.
    assert (K : forall l s, (fix go (l : list jv) (s : jdst) {struct l} : outcome Empty_set (option ptr * jdst) := match l with
                      | [] => OK (Some p, s)
                      | c :: l =>
                          ' (r, s) <- InstanceFromJSON other ord c s ;;
                          match r with Some _ => Panic | None => go l s end
                      end) l s = kids p l s).
    { clear. induction l as [|c l IH]; intros s; cbn [kids]; [reflexivity|]. destruct (InstanceFromJSON other ord c s) as [[[q|] s']| | |]; cbn [obind]; auto. }
    induction m as [|[k c] m IH]; cbn [mfind]; [reflexivity|]. destruct (bytes_eqb k (str "children")); [|exact IH].
    destruct c; try reflexivity. apply K.
  - destruct (mfind m (str "is_service")) as [[]|]; reflexivity.
Qed.
Definition elements (v : jv) : list jv := match v with JArr l => l | _ => [] end.
Lemma inst_induction (P : jv -> Prop) :
  (forall v, (forall m, v = JObj m -> forall k l, In (k, JArr l) m -> Forall P l) -> P v) -> forall v, P v.
Proof.
  intros H. assert (G : forall v, P v /\ Forall P (elements v)); [|intros v; apply G].
  induction v as [|b|f|st|l IH|m IH|t] using jv_ind2; (split; [apply H|cbn [elements]; try constructor]); try discriminate.
  - apply Forall_forall. intros x Hx. rewrite Forall_forall in IH. now apply IH.
  - intros m' Hm k l Hin. injection Hm as <-. rewrite Forall_forall in IH. now apply (IH (k, JArr l)).
Qed.
Lemma tame_inst v : forall s, tame (InstanceFromJSON other ord v s).
Proof.
  induction v as [v IH] using inst_induction. intros s. rewrite inst_step. destruct (inst_for v s) as [p s1].
  destruct (index_obj v "class_name") as [[]|]; try exact I. apply tame_bind; [apply tame_props|]. intros s2. cbv zeta.
  destruct (index_obj v "children") as [[| | | |l| |]|] eqn:E; try exact I. generalize (update s2 p no_kids). clear s2.
  destruct v; try discriminate E. cbn [index_obj] in E. apply mfind_In in E. specialize (IH _ eq_refl _ _ E). clear E.
  induction IH as [|c l Hc Hl IHl]; intros s2; cbn [kids]; [exact I|]. apply tame_bind; [apply Hc|]. intros [[q|] s3]; [exact I|apply IHl].
Qed.
(** An instance has a class name. *)
Definition is_inst (v : jv) : bool := match index_obj v "class_name" with Some (JStr _) => true | _ => false end.
Lemma inst_some v s r s' : InstanceFromJSON other ord v s = OK (r, s') -> (exists p, r = Some p) <-> is_inst v = true.
Proof.
  rewrite inst_step. destruct (inst_for v s) as [p s1]. unfold is_inst.
  destruct (index_obj v "class_name") as [[]|]; try (intros H; injection H as <- <-; split; [intros [q Hq]; discriminate|discriminate]).
  intros H. split; [reflexivity|intros _].
  destruct (props_from_json _ _ _ _) as [s2| | |]; try discriminate H. cbn [obind] in H. cbv zeta in H.
  destruct (index_obj v "children") as [[| | | |l| |]|]; try (injection H as <- <-; eauto; fail).
  revert H. generalize (update s2 p no_kids). clear s2. induction l as [|c l IH]; intros s2 H; cbn [kids] in H; [injection H as <- <-; eauto|].
  destruct (InstanceFromJSON other ord c s2) as [[[q|] s3]| | |]; cbn [obind] in H; try discriminate H. now apply IH in H.
Qed.
(** A document in which an instance has a child cannot be read. *)
Theorem child_panics v l c s : is_inst v = true -> index_obj v "children" = Some (JArr l) -> In c l -> is_inst c = true ->
  InstanceFromJSON other ord v s = Panic.
Proof.
  intros Hv Hl Hc Hi. pose proof (tame_inst v s) as T. destruct (InstanceFromJSON other ord v s) as [[r s']| | |] eqn:E; try contradiction; [|reflexivity].
  exfalso. rewrite inst_step in E. destruct (inst_for v s) as [p s1]. unfold is_inst in Hv.
  destruct (index_obj v "class_name") as [[]|]; try discriminate Hv. rewrite Hl in E.
  destruct (props_from_json _ _ _ _) as [s2| | |]; try discriminate E. cbn [obind] in E. cbv zeta in E.
  revert E. generalize (update s2 p no_kids). clear - Hc Hi. induction l as [|c' l IH]; intros s2 E; [destruct Hc|]. cbn [kids] in E.
  destruct (InstanceFromJSON other ord c' s2) as [[[q|] s3]| | |] eqn:E'; cbn [obind] in E; try discriminate E.
  destruct Hc as [->|Hc]; [|now apply (IH Hc s3)]. destruct (inst_some c s2 None s3 E') as [_ G]. destruct (G Hi) as [q Hq]. discriminate Hq.
Qed.
Lemma insts_panic l : forall s, (exists v, In v l /\ forall s, InstanceFromJSON other ord v s = Panic) -> insts_from_json other ord l s = Panic.
Proof.
  induction l as [|v l IH]; intros s (w & Hw & HP); [destruct Hw|]. cbn [insts_from_json]. destruct Hw as [->|Hw].
  - now rewrite HP.
  - pose proof (tame_inst v s) as T. destruct (InstanceFromJSON other ord v s) as [[r s']| | |]; try contradiction; [|reflexivity]. cbn [obind].
    rewrite IH by eauto. reflexivity.
Qed.

(** ** Reading what was written *)
Section Read.
Variable (h0 : heap) (m : refmap).          (* the references that were written *)
Hypothesis Hm : forall r q, mfind m r = Some q -> IsEmptyReference r = false.

(** The references of one instance. *)
Definition new_refs (p : ptr) (ps : list (bytes * rvalue)) (names : list bytes) (new : list propref) : Prop :=
  (forall e, In e new -> pr_inst e = p /\ In (pr_prop e) names /\ exists q, mfind ps (pr_prop e) = Some (RReference q) /\ ok_ref m (pr_ref e) q) /\
  (forall name q, In name names -> mfind ps name = Some (RReference q) -> exists e, In e new /\ pr_prop e = name).
Definition plain (v : rvalue) : option rvalue := match v with RReference _ => None | v => json_value v end.
Lemma props_read p ps l : NoDup (map fst l) -> Forall (fun nj => exists v, mfind ps (fst nj) = Some v /\ prop_json other m v (snd nj)) l ->
  forall s i, hget (jd_heap s) p = Some i -> 
  exists s' i' new, props_from_json other p l s = OK s' /\ jd_refs s' = jd_refs s /\ jd_props s' = jd_props s ++ new /\
    new_refs p ps (map fst l) new /\ length (jd_heap s') = length (jd_heap s) /\ (forall q, q <> p -> hget (jd_heap s') q = hget (jd_heap s) q) /\
    hget (jd_heap s') p = Some i' /\ i_class i' = i_class i /\ i_ref i' = i_ref i /\ i_service i' = i_service i /\ i_children i' = i_children i /\
    (forall name, ~ In name (map fst l) -> mfind (i_props i') name = mfind (i_props i) name) /\
    (forall name, In name (map fst l) -> mfind (i_props i') name =
       match mfind ps name with Some v => match plain v with Some w => Some w | None => mfind (i_props i) name end | None => mfind (i_props i) name end).
Proof.
  induction l as [|[n jp] l IH]; intros Hn Hl s i Hi; cbn [map fst] in *.
  { exists s, i, []. rewrite app_nil_r. cbn [props_from_json]. repeat split; try reflexivity; try exact Hi; try (intros; contradiction). }
  inversion Hn as [|? ? N1 N2]; subst. apply Forall_cons_iff in Hl as [(v & Hv & pr & jx & Ejp & Ht & Hx & Hj) Hl]. cbn [fst snd] in *. subst jp.
  assert (STEP : exists s1 i1 new1, prop_from_json other p s (n, JObj pr) = OK s1 /\ jd_refs s1 = jd_refs s /\ jd_props s1 = jd_props s ++ new1 /\
     new_refs p ps [n] new1 /\ length (jd_heap s1) = length (jd_heap s) /\ (forall q, q <> p -> hget (jd_heap s1) q = hget (jd_heap s) q) /\
     hget (jd_heap s1) p = Some i1 /\ i_class i1 = i_class i /\ i_ref i1 = i_ref i /\ i_service i1 = i_service i /\ i_children i1 = i_children i /\
     forall name, mfind (i_props i1) name = if bytes_eqb n name then match plain v with Some w => Some w | None => mfind (i_props i) name end else mfind (i_props i) name).
  { unfold prop_from_json. cbn [snd fst index_obj]. rewrite Ht, Hx, type_name.
    destruct (match v with RReference _ => true | _ => false end) eqn:Ev.
    - destruct v; try discriminate Ev. destruct Hj as (r & -> & Hr). exists (Jdst (jd_heap s) (jd_refs s) (jd_props s ++ [PropRef p n r])), i, [PropRef p n r].
      split; [reflexivity|]. split; [reflexivity|]. split; [reflexivity|]. split.
      { split.
        - intros e [<-|[]]. cbn [pr_inst pr_prop pr_ref]. split; [reflexivity|]. split; [now left|]. eauto.
        - intros name q [<-|[]] Hq. exists (PropRef p n r). split; [now left|reflexivity]. }
      repeat split; try reflexivity; [exact Hi|]. intros name. cbn [plain]. now destruct (bytes_eqb n name).
    - assert (Hj' : ValueFromJSON other jx (rtype v) = OK (json_value v)) by (destruct v; try exact Hj; discriminate Ev). clear Hj. rewrite Hj'. cbn [obind].
      assert (Hp : plain v = json_value v) by (destruct v; try reflexivity; discriminate Ev). rewrite Hp.
      assert (NR : new_refs p ps [n] []).
      { split; [intros e []|]. intros name q [<-|[]] Hq. rewrite Hv in Hq. apply Some_eq in Hq. subst v. discriminate Ev. }
      destruct (json_value v) as [w|].
      + replace (rtype v =? TypeReference)%N with false by (destruct v; try reflexivity; discriminate Ev). rewrite Hi.
        eexists _, _, []. rewrite app_nil_r. split; [reflexivity|]. split; [reflexivity|]. split; [reflexivity|]. split; [exact NR|].
        cbn [jd_heap]. split; [apply hset_length|]. split; [intros q Hq; rewrite hget_hset; now apply Nat.eqb_neq in Hq as ->|].
        split; [rewrite hget_hset, Nat.eqb_refl, Hi; reflexivity|]. repeat split; try reflexivity.
        intros name. cbn [i_props set_props]. apply mfind_mset.
      + exists s, i, []. rewrite app_nil_r. repeat split; try reflexivity; try exact Hi; try (now destruct NR as [NR1 NR2]; apply NR1); try apply NR.
        intros name. now destruct (bytes_eqb n name). }
  destruct STEP as (s1 & i1 & new1 & E1 & A1 & A2 & A3 & A4 & A5 & A6 & A7 & A8 & A9 & A10 & A11).
  destruct (IH N2 Hl s1 i1 A6) as (s2 & i2 & new2 & E2 & B1 & B2 & B3 & B4 & B5 & B6 & B7 & B8 & B9 & B10 & B11 & B12).
  exists s2, i2, (new1 ++ new2). cbn [props_from_json]. rewrite E1. cbn [obind]. split; [exact E2|]. split; [congruence|].
  split; [now rewrite B2, A2, app_assoc|]. split.
  { destruct A3 as [C1 C2], B3 as [D1 D2]. split.
    - intros e He. apply in_app_or in He. destruct He as [He|He].
      + destruct (C1 e He) as (F1 & [F2|[]] & F3). split; [exact F1|]. split; [now left|exact F3].
      + destruct (D1 e He) as (F1 & F2 & F3). split; [exact F1|]. split; [now right|exact F3].
    - intros name q [<-|Hin] Hq.
      + destruct (C2 n q (or_introl eq_refl) Hq) as (e & F1 & F2). exists e. split; [apply in_or_app; now left|exact F2].
      + destruct (D2 name q Hin Hq) as (e & F1 & F2). exists e. split; [apply in_or_app; now right|exact F2]. }
  split; [congruence|]. split; [intros q Hq; rewrite B5 by exact Hq; now apply A5|]. split; [exact B6|].
  split; [congruence|]. split; [congruence|]. split; [congruence|]. split; [congruence|]. split.
  - intros name Hname. rewrite B11 by (intros G; apply Hname; now right). rewrite A11. destruct (beqb_spec n name) as [->|]; [destruct Hname; now left|reflexivity].
  - intros name [<-|Hin].
    + rewrite B11 by exact N1. rewrite A11, bytes_eqb_refl, Hv. reflexivity.
    + rewrite B12 by exact Hin. rewrite !A11. destruct (beqb_spec n name) as [->|]; [contradiction|reflexivity].
Qed.

(** All instances of a document without children. *)
Definition leaf_of (p : ptr) : rtree := RNode p [].
Hypothesis Hord : any_members ord.
Definition pos (nodes : list ptr) (p : ptr) : ptr := match index_of p nodes with Some k => S k | None => 0 end.
(** What has been read of an instance. *)
Definition read_inst (i i' : inst) (rf : bytes) : Prop :=
  i_class i' = i_class i /\ i_ref i' = rf /\ i_service i' = i_service i /\ i_children i' = [] /\
  forall name, mfind (i_props i') name = match mfind (i_props i) name with Some v => plain v | None => None end.
Record read_so_far (done : list ptr) (s : jdst) : Prop := {
  rs_len : length (jd_heap s) = length done;
  rs_inst : forall k p, nth_error done k = Some p -> exists i i' rf, hget h0 p = Some i /\ mfind m rf = Some p /\
     hget (jd_heap s) (S k) = Some i' /\ read_inst i i' rf /\ mfind (jd_refs s) rf = Some (S k);
  rs_refs : forall r q, mfind (jd_refs s) r = Some q -> exists k p, q = S k /\ nth_error done k = Some p /\ mfind m r = Some p;
  rs_props : forall e, In e (jd_props s) -> exists k p i q, pr_inst e = S k /\ nth_error done k = Some p /\ hget h0 p = Some i /\
     mfind (i_props i) (pr_prop e) = Some (RReference q) /\ ok_ref m (pr_ref e) q;
  rs_all : forall k p i name q, nth_error done k = Some p -> hget h0 p = Some i -> mfind (i_props i) name = Some (RReference q) ->
     exists e, In e (jd_props s) /\ pr_inst e = S k /\ pr_prop e = name }.
Lemma read_one done s p j : read_so_far done s -> ~ In p done -> inst_json other h0 m (leaf_of p) j ->
  exists s', InstanceFromJSON other ord j s = OK (Some (S (length done)), s') /\ read_so_far (done ++ [p]) s'.
Proof.
  intros HS Hnp HJ. inversion HJ as [p' ts i rf r pm l Hi Hrf C1 C2 C3 C4 HP C5 HK]; subst. inversion HK; subst. clear HK HJ.
  rewrite inst_step.
  assert (Hfresh : mfind (jd_refs s) rf = None).
  { destruct (mfind (jd_refs s) rf) as [q|] eqn:E; [|reflexivity]. destruct (rs_refs _ _ HS rf q E) as (k & p' & _ & Hk & Hp').
    rewrite Hrf in Hp'. apply Some_eq in Hp'. subst p'. destruct Hnp. now apply nth_error_In in Hk. }
  unfold inst_for. cbn [index_obj]. rewrite C2. rewrite (Hm rf p Hrf), Hfresh. rewrite C1.
  set (n := S (length (jd_heap s))). unfold update at 1. cbn [jd_heap]. unfold n at 2. rewrite hget_new. cbn [jd_refs jd_props i_ref i_service i_props i_children].
  unfold service_of. cbn [index_obj]. rewrite C3. unfold props_of. cbn [index_obj]. rewrite C4.
  set (s1 := Jdst _ _ (jd_props s)).
  assert (G1 : hget (jd_heap s1) n = Some (Inst (i_class i) rf (i_service i) [] [])).
  { unfold s1. cbn [jd_heap]. rewrite hget_hset, Nat.eqb_refl. unfold n. rewrite hget_new. reflexivity. }
  destruct HP as [Npm HP].
  assert (Npm' : NoDup (map fst (ord pm))) by (eapply Permutation_NoDup; [apply Permutation_map, Hord|exact Npm]).
  destruct (props_read n (i_props i) (ord pm) Npm') with (s := s1) (i := Inst (i_class i) rf (i_service i) [] (@nil ptr))
    as (s2 & i2 & new & E2 & B1 & B2 & [B3 B3'] & B4 & B5 & B6 & B7 & B8 & B9 & B10 & B11 & B12); [|exact G1|].
  { eapply Permutation_Forall; [apply Hord|]. apply Forall_forall. intros [name jp] Hin. cbn [fst snd]. apply In_mfind in Hin; [|exact Npm].
    specialize (HP name). destruct (mfind (i_props i) name) as [v|]; [|congruence]. destruct HP as (jp' & E & P). rewrite Hin in E. apply Some_eq in E. subst jp'. eauto. }
  rewrite E2. cbn [obind]. cbv zeta. rewrite C5. cbn [kids]. unfold update. rewrite B6.
  assert (En : n = S (length done)) by (unfold n; now rewrite (rs_len _ _ HS)). clearbody n.
  eexists. split; [rewrite En; reflexivity|].
  assert (Hkeys : forall name, mfind (i_props i2) name = match mfind (i_props i) name with Some v => plain v | None => None end).
  { intros name. destruct (in_dec (list_eq_dec Byte.byte_eq_dec) name (map fst (ord pm))) as [Hin|Hin].
    - rewrite B12 by exact Hin. cbn [i_props mfind]. destruct (mfind (i_props i) name) as [v|]; [|reflexivity]. now destruct (plain v).
    - rewrite B11 by exact Hin. cbn [i_props mfind]. specialize (HP name). destruct (mfind (i_props i) name) as [v|]; [|reflexivity].
      destruct HP as (jp & E & _). exfalso. apply Hin. eapply Permutation_in; [apply Permutation_map, Hord|]. apply mfind_key. eauto. }
  assert (Hold : forall q, q <= length done -> hget (jd_heap s2) q = hget (jd_heap s) q).
  { intros q Hq. rewrite B5 by lia. unfold s1. cbn [jd_heap]. rewrite hget_hset. replace (q =? n) with false by (symmetry; apply Nat.eqb_neq; lia).
    apply hget_app. rewrite (rs_len _ _ HS). exact Hq. }
  assert (Hlen : length (jd_heap s2) = S (length done)).
  { rewrite B4. unfold s1. cbn [jd_heap]. rewrite hset_length, app_length, (rs_len _ _ HS). cbn [length]. lia. }
  assert (Hrefs : jd_refs s2 = mset (jd_refs s) rf n) by (rewrite B1; reflexivity).
  split; cbn [jd_heap jd_refs jd_props].
  - rewrite hset_length, Hlen, app_length. cbn [length]. lia.
  - intros k p0 Hk. destruct (Nat.lt_ge_cases k (length done)) as [L|L].
    + rewrite nth_error_app1 in Hk by exact L. destruct (rs_inst _ _ HS k p0 Hk) as (i0 & i0' & rf0 & D1 & D2 & D3 & D4 & D5).
      exists i0, i0', rf0. split; [exact D1|]. split; [exact D2|]. split; [|split; [exact D4|]].
      * rewrite hget_hset. replace (S k =? n) with false by (symmetry; apply Nat.eqb_neq; lia). rewrite Hold by lia. exact D3.
      * rewrite Hrefs, mfind_mset. destruct (beqb_spec rf rf0) as [<-|]; [congruence|exact D5].
    + assert (k = length done) as ->.
      { assert (k < length (done ++ [p])) by (apply nth_error_Some; congruence). rewrite app_length in H. cbn [length] in H. lia. }
      rewrite nth_error_app2, Nat.sub_diag in Hk by lia. cbn [nth_error] in Hk. apply Some_eq in Hk. subst p0. rewrite <- En.
      exists i, (no_kids i2), rf. split; [exact Hi|]. split; [exact Hrf|]. split; [rewrite hget_hset, Nat.eqb_refl, B6; reflexivity|]. split.
      * split; [exact B7|]. split; [exact B8|]. split; [exact B9|]. split; [reflexivity|]. exact Hkeys.
      * rewrite Hrefs, mfind_mset, bytes_eqb_refl. reflexivity.
  - intros r0 q Hq. rewrite Hrefs, mfind_mset in Hq. destruct (beqb_spec rf r0) as [<-|].
    + apply Some_eq in Hq. subst q. exists (length done), p. split; [exact En|]. split; [|exact Hrf]. rewrite nth_error_app2, Nat.sub_diag by lia. reflexivity.
    + destruct (rs_refs _ _ HS r0 q Hq) as (k & p' & D1 & D2 & D3). exists k, p'. split; [exact D1|]. split; [|exact D3].
      rewrite nth_error_app1; [exact D2|]. apply nth_error_Some. congruence.
  - intros e He. rewrite B2 in He. apply in_app_or in He. destruct He as [He|He].
    + destruct (rs_props _ _ HS e He) as (k & p' & i' & q & D1 & D2 & D3 & D4 & D5). exists k, p', i', q. split; [exact D1|]. split; [|split; [exact D3|split; [exact D4|exact D5]]].
      rewrite nth_error_app1; [exact D2|]. apply nth_error_Some. congruence.
    + destruct (B3 e He) as (D1 & D2 & q & D3 & D4). exists (length done), p, i, q. split; [congruence|]. split; [|split; [exact Hi|split; [exact D3|exact D4]]].
      rewrite nth_error_app2, Nat.sub_diag by lia. reflexivity.
  - intros k p0 i0 name q Hk Hi0 Hq. rewrite B2. destruct (Nat.lt_ge_cases k (length done)) as [L|L].
    + rewrite nth_error_app1 in Hk by exact L. destruct (rs_all _ _ HS k p0 i0 name q Hk Hi0 Hq) as (e & D1 & D2). exists e. split; [apply in_or_app; now left|exact D2].
    + assert (k = length done) as ->.
      { assert (k < length (done ++ [p])) by (apply nth_error_Some; congruence). rewrite app_length in H. cbn [length] in H. lia. }
      rewrite nth_error_app2, Nat.sub_diag in Hk by lia. cbn [nth_error] in Hk. apply Some_eq in Hk. subst p0.
      rewrite Hi in Hi0. apply Some_eq in Hi0. subst i0.
      destruct (B3' name q) as (e & D1 & D2); [|exact Hq|exists e; split; [apply in_or_app; now right|split; [|exact D2]]].
      * specialize (HP name). rewrite Hq in HP. destruct HP as (jp & E & _). eapply Permutation_in; [apply Permutation_map, Hord|]. apply mfind_key. eauto.
      * rewrite <- En. now apply B3.
Qed.
Lemma read_all rest : forall done s js, read_so_far done s -> NoDup (done ++ rest) ->
  Forall2 (inst_json other h0 m) (map leaf_of rest) js ->
  exists s', insts_from_json other ord js s = OK (seq (S (length done)) (length rest), s') /\ read_so_far (done ++ rest) s'.
Proof.
  induction rest as [|p rest IH]; intros done s js HS Hn HJ; cbn [map] in HJ; inversion HJ; subst.
  { exists s. rewrite app_nil_r. now split. }
  assert (Hp : ~ In p done).
  { intros Hin. apply NoDup_remove_2 in Hn. apply Hn, in_or_app. now left. }
  destruct (read_one done s p _ HS Hp H1) as (s1 & E1 & S1).
  replace (done ++ p :: rest) with ((done ++ [p]) ++ rest) in * by (now rewrite <- app_assoc).
  destruct (IH (done ++ [p]) s1 _ S1 Hn H3) as (s2 & E2 & S2). exists s2. split; [|exact S2].
  cbn [insts_from_json]. rewrite E1. cbn [obind]. rewrite E2. cbn [obind]. rewrite app_length, Nat.add_comm. reflexivity.
Qed.

(** ** Setting the references *)
Definition set_ref_prop (refs : refmap) (h : heap) (e : propref) : heap :=
  match hget h (pr_inst e) with
  | Some i => hset h (pr_inst e) (set_props i (mset (i_props i) (pr_prop e) (RReference (rget refs (pr_ref e)))))
  | None => h
  end.
Lemma set_refs_ok refs l : forall h, length (fold_left (set_ref_prop refs) l h) = length h /\
  forall p i, hget h p = Some i -> exists i', hget (fold_left (set_ref_prop refs) l h) p = Some i' /\
    i_class i' = i_class i /\ i_ref i' = i_ref i /\ i_service i' = i_service i /\ i_children i' = i_children i /\
    forall name, (mfind (i_props i') name = mfind (i_props i) name /\ forall e, In e l -> pr_inst e = p -> pr_prop e <> name) \/
       exists e, In e l /\ pr_inst e = p /\ pr_prop e = name /\ mfind (i_props i') name = Some (RReference (rget refs (pr_ref e))).
Proof.
  induction l as [|e l IH]; intros h; cbn [fold_left].
  { split; [reflexivity|]. intros p i Hi. exists i. repeat split; try reflexivity; [exact Hi|]. intros name. left. split; [reflexivity|]. intros e []. }
  destruct (IH (set_ref_prop refs h e)) as [L IH']. split.
  { rewrite L. unfold set_ref_prop. destruct (hget h (pr_inst e)); [apply hset_length|reflexivity]. }
  intros p i Hi.
  assert (STEP : exists i1, hget (set_ref_prop refs h e) p = Some i1 /\ i_class i1 = i_class i /\ i_ref i1 = i_ref i /\ i_service i1 = i_service i /\ i_children i1 = i_children i /\
    forall name, mfind (i_props i1) name = if (pr_inst e =? p) && bytes_eqb (pr_prop e) name then Some (RReference (rget refs (pr_ref e))) else mfind (i_props i) name).
  { unfold set_ref_prop. destruct (Nat.eqb_spec (pr_inst e) p) as [->|Hne].
    - rewrite Hi, hget_hset, Nat.eqb_refl, Hi. cbn [option_map]. eexists. split; [reflexivity|]. repeat split; try reflexivity.
      intros name. cbn [i_props set_props andb]. apply mfind_mset.
    - exists i. split; [|repeat split; reflexivity]. destruct (hget h (pr_inst e)); [|exact Hi]. rewrite hget_hset.
      replace (p =? pr_inst e) with false by (symmetry; apply Nat.eqb_neq; congruence). exact Hi. }
  destruct STEP as (i1 & H1 & A1 & A2 & A3 & A4 & A5). destruct (IH' p i1 H1) as (i2 & H2 & B1 & B2 & B3 & B4 & B5).
  exists i2. split; [exact H2|]. split; [congruence|]. split; [congruence|]. split; [congruence|]. split; [congruence|].
  intros name. destruct (B5 name) as [[C1 C2]|(e' & C1 & C2 & C3 & C4)].
  - rewrite A5 in C1. destruct (Nat.eqb_spec (pr_inst e) p) as [Ep|Hne]; [destruct (beqb_spec (pr_prop e) name) as [En|Hne]|].
    + right. exists e. split; [now left|]. split; [exact Ep|]. split; [exact En|exact C1].
    + left. split; [exact C1|]. intros e' [<-|He]; [intros _; exact Hne|now apply C2].
    + left. split; [exact C1|]. intros e' [<-|He]; [contradiction|now apply C2].
  - right. exists e'. split; [now right|]. auto.
Qed.
Lemma pos_nth nodes k p : NoDup nodes -> nth_error nodes k = Some p -> pos nodes p = S k.
Proof.
  unfold pos. revert k. induction nodes as [|q nodes IH]; intros k Hn Hk; [destruct k; discriminate Hk|].
  inversion Hn; subst. cbn [index_of]. destruct k as [|k]; cbn [nth_error] in Hk.
  - apply Some_eq in Hk. subst q. now rewrite Nat.eqb_refl.
  - specialize (IH k H2 Hk). destruct (Nat.eqb_spec q p) as [->|]; [destruct H1; now apply nth_error_In in Hk|].
    destruct (index_of p nodes); [|discriminate IH]. injection IH as ->. reflexivity.
Qed.
Lemma pos_outside nodes p : ~ In p nodes -> pos nodes p = 0.
Proof.
  unfold pos. intros H. assert (index_of p nodes = None) as ->; [|reflexivity].
  induction nodes as [|q nodes IH]; [reflexivity|]. cbn [index_of]. destruct (Nat.eqb_spec q p) as [->|]; [destruct H; now left|].
  rewrite IH; [reflexivity|]. intros Hin. apply H. now right.
Qed.
End Read.
End Dec.
