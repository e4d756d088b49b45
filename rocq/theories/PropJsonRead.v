(** PropJsonRead.v - which trees can be written as JSON, which documents can be
    read, and what is lost (C63-C66). *)
From Coq Require Import Permutation.
From Verif Require RbxlCodecEnc.
From Verif Require Import Base RbxlValues RbxValues Tree RbxlCodec XmlText XmlTextProofs Ieee Json SpecValues SpecTree SpecCodec SpecJson TreeProofs SortProofs
  JsonProofs PropRoot PropTree RbxlFileProofs XmlTreeEnc JsonTree JsonDec JsonFinite JsonRead JsonOrder PropJson.

(** ** C63: children and optional values cannot be read back *)

(** As soon as some instance in the forest has a child, what Encode writes
    makes the reader panic. *)
Theorem C63_children : forall other rnd ord jord fuel h r ts p,
  (forall k, length (rnd k) = 16) -> never_repeats (length h) rnd -> any_order ord ->
  wf_heap h -> Forall (tree_at h) ts -> map rroot ts = r_instances r -> json_storable h (fnodes ts) ->
  (forall t, In t ts -> height t <= fuel) -> 1 <= fuel ->
  In p (fnodes ts) -> (exists x c, hget h p = Some x /\ In c (i_children x)) ->
  exists doc named, json_Encode rnd ord fuel h r = OK (Some doc, named) /\ RootFromJSON other jord doc = Panic.
Proof.
  intros other rnd ord jord fuel h r ts p Hrnd Hnr Hord Hw Ht Hr HS Hf Hf1 Hp (x & c & Hx & Hc).
  assert (Htall : tall ts <= fuel).
  { clear - Hf Hf1. unfold tall. induction ts as [|t ts IH]; cbn [fold_right]; [exact Hf1|]. specialize (IH (fun t' H => Hf t' (or_intror H))). pose proof (Hf t (or_introl eq_refl)). lia. }
  assert (Hst : Forall (storable_inst h) (fnodes ts)).
  { apply storable_nodes; [exact Hw|exact HS|]. intros q Hq. unfold fnodes in Hq. apply in_flat_map in Hq. destruct Hq as (t & Hin & Hq).
    rewrite Forall_forall in Ht. specialize (Ht t Hin). eapply RbxlCodecEnc.tree_nodes; eauto. }
  destruct (root_enc other rnd ord h Hrnd Hnr Hord ts fuel r Ht Hr Htall Hst) as (d & s & js & E & I & D1 & D2 & P).
  exists (JObj d), (js_heap s). split; [exact E|]. unfold RootFromJSON. cbn [index_obj]. rewrite D1, D2, to_i64_zero. cbn [Z.eqb].
  rewrite insts_panic; [reflexivity|].
  (* the root above p has a child *)
  unfold fnodes in Hp. apply in_flat_map in Hp. destruct Hp as (t & Hin & Hp).
  assert (Hkids : exists q t1 l, t = RNode q (t1 :: l)).
  { rewrite Forall_forall in Ht. specialize (Ht t Hin). destruct t as [q [|t1 l]]; [|eauto]. exfalso. destruct Hp as [->|[]].
    inversion Ht as [p' ts' i Hi Hch _]; subst. rewrite Hx in Hi. apply Some_eq in Hi. subst i. rewrite Hch in Hc. destruct Hc. }
  destruct Hkids as (q & t1 & l & ->).
  assert (Hj : exists j, In j js /\ inst_json other h (js_refs s) (RNode q (t1 :: l)) j).
  { clear - P Hin. induction P as [|t j ts js H P IH]; [destruct Hin|]. destruct Hin as [->|Hin]; [exists j; split; [now left|exact H]|].
    destruct (IH Hin) as (j' & H1 & H2). exists j'. split; [now right|exact H2]. }
  destruct Hj as (j & Hj & HJ). exists j. split; [exact Hj|]. intros s'.
  inversion HJ as [p' ts' i rf r' pm l' Hi _ C1 _ _ _ _ C5 HK]; subst. inversion HK as [|t1' j1 ? l1 K1 K2]; subst.
  apply (child_panics other jord (JObj r') (j1 :: l1) j1).
  - unfold is_inst. cbn [index_obj]. now rewrite C1.
  - exact C5.
  - now left.
  - inversion K1; subst. unfold is_inst. cbn [index_obj]. now rewrite H1.
Qed.
(** An optional value is written with the number of its type, which the reader
    does not take. *)
Theorem C63_optional : forall other rnd t o s j s' doc, ValueToJSON rnd (ROptional t o) s = OK (j, s') -> marshal j = Some doc ->
  ValueFromJSON other doc TypeOptional = Panic.
Proof.
  intros other rnd t o s j s' doc HE HM.
  assert (HO : exists x, j = obj [("type", JType t); ("value", x)]%string).
  { cbn [ValueToJSON] in HE. destruct o as [v|]; [|apply OK_pair' in HE as [<- _]; eauto].
    apply bind_OK in HE as ([j1 s1] & _ & HE). apply OK_pair' in HE as [<- _]. eauto. }
  destruct HO as [x ->].
  assert (HX : exists x', marshal x = Some x').
  { unfold obj in HM. cbn [map fst snd] in HM. rewrite marshal_obj_eq in HM. cbn [marshal_members marshal] in HM. destruct (marshal x); [eauto|discriminate HM]. }
  destruct HX as [x' HX].
  destruct (marshal_fixed [("type", JType t); ("value", x)]%string [("type", JNum (f64_of_Z (Z.of_N t))); ("value", x')]%string) as (d & Ed & _ & Fd).
  - reflexivity.
  - repeat (apply Forall2_cons || apply Forall2_nil); cbn [fst snd]; [reflexivity|exact HX].
  - reflexivity.
  - rewrite HM in Ed. injection Ed as ->. destruct (value_spec other (JObj d) TypeOptional) as [S1 _].
    pose proof (tame_value other (JObj d) TypeOptional) as T. destruct (ValueFromJSON other (JObj d) TypeOptional) as [a| | |]; try contradiction; [|reflexivity].
    exfalso. assert (R : readable TypeOptional (JObj d)) by (apply S1; now exists a).
    assert (Ft : mfind d (str "type") = Some (JNum (f64_of_Z (Z.of_N t)))) by (rewrite Fd; reflexivity).
    inversion R; subst; try discriminate; congruence.
Qed.

(** ** C64: when Encode fails *)
Lemma marshal_bad j : marshal j = None <-> bad j = true.
Proof. unfold bad. destruct (marshal j); split; congruence. Qed.

Section Total.
Variable (rnd : nat -> bytes) (ord : ptr -> list (bytes * rvalue) -> list (bytes * rvalue)) (h0 : heap).
Hypothesis Hnr : never_repeats (length h0) rnd.
Hypothesis Hord : any_order ord.
Definition KINV (s : jst) : Prop := RI h0 (js_heap s) (js_refs s).
Lemma j_ref_total p s : KINV s -> p <= length h0 -> exists j s', j_ref rnd p s = OK (j, s') /\ KINV s'.
Proof.
  intros HR Hp. unfold j_ref. destruct (Nat.eq_dec p 0) as [->|Hne].
  - unfold get_ref. cbn [Nat.eqb obind]. eexists _, _. split; [reflexivity|exact HR].
  - destruct (get_ref_spec rnd h0 (js_heap s) (js_refs s) (js_rnd s) p HR ltac:(lia)) as [(r & h' & m' & k' & E & A1 & _)|[_ B]]; [|contradiction].
    rewrite E. cbn [obind]. eexists _, _. split; [reflexivity|exact A1].
Qed.
Lemma value_total : forall v s, KINV s -> (forall q, In q (targets v) -> q <= length h0) -> exists j s', ValueToJSON rnd v s = OK (j, s') /\ KINV s'.
Proof.
  fix IH 1. intros v s HK Ht. destruct v; cbn [ValueToJSON]; try (eexists _, s; split; [reflexivity|exact HK]).
  - apply j_ref_total; [exact HK|]. apply Ht. now left.
  - destruct v as [v|]; [|eexists _, s; split; [reflexivity|exact HK]]. destruct (IH v s HK Ht) as (j & s' & E & K). rewrite E. cbn [obind]. eexists _, s'. split; [reflexivity|exact K].
Qed.
Lemma props_total l : (forall n v q, In (n, v) l -> In q (targets v) -> q <= length h0) -> forall s, KINV s -> exists js s', props_to_json rnd l s = OK (js, s') /\ KINV s'.
Proof.
  induction l as [|[n v] l IH]; intros Ht s HK; cbn [props_to_json]; [eexists _, s; split; [reflexivity|exact HK]|].
  destruct (value_total v s HK) as (j & s1 & E1 & K1); [intros q; apply (Ht n v); now left|]. rewrite E1. cbn [obind].
  destruct (IH (fun n' v' q H => Ht n' v' q (or_intror H)) s1 K1) as (js & s2 & E2 & K2). rewrite E2. cbn [obind]. eexists _, s2. split; [reflexivity|exact K2].
Qed.
Definition fine_inst (p : ptr) : Prop := exists i, hget h0 p = Some i /\ forall n v q, In (n, v) (i_props i) -> In q (targets v) -> q <= length h0.
Definition tree_total (f : ptr -> jst -> jout (jv * jst)) (t : rtree) : Prop := forall s, KINV s -> exists j s', f (rroot t) s = OK (j, s') /\ KINV s'.
Lemma insts_total f ts : Forall (tree_total f) ts -> forall s, KINV s -> exists js s', insts_to_json f (map rroot ts) s = OK (js, s') /\ KINV s'.
Proof.
  induction 1 as [|t ts Ht Hts IH]; intros s HK; cbn [map insts_to_json]; [eexists _, s; split; [reflexivity|exact HK]|].
  destruct (Ht s HK) as (j & s1 & E1 & K1). rewrite E1. cbn [obind]. destruct (IH s1 K1) as (js & s2 & E2 & K2). rewrite E2. cbn [obind].
  eexists _, s2. split; [reflexivity|exact K2].
Qed.
Lemma inst_total fuel : forall t, height t <= fuel -> tree_at h0 t -> Forall fine_inst (rnodes t) -> tree_total (InstanceToJSON rnd ord fuel) t.
Proof.
  induction fuel as [|fuel IH]; intros [p ts] Hh Ht Hn s HK; [cbn [height] in Hh; lia|].
  inversion Ht as [p' ts' i Hi Hc Hts]; subst. cbn [rnodes] in Hn. apply Forall_cons_iff in Hn as [(i0 & Hi0 & Hq) Hn].
  rewrite Hi in Hi0. apply Some_eq in Hi0. subst i0. pose proof HK as (_ & R1 & _). destruct (R1 p i Hi) as (i1 & Hi1 & S1 & S2 & S3 & S4).
  cbn [rroot InstanceToJSON]. rewrite Hi1. destruct (j_ref_total p s HK) as (rf & s1 & E1 & K1); [apply hget_some in Hi; lia|]. rewrite E1. cbn [obind]. rewrite <- S3.
  destruct (props_total (ord p (i_props i))) with (s := s1) as (js & s2 & E2 & K2); [|exact K1|].
  { intros n v q Hin. apply (Hq n v q). eapply Permutation_in; [apply Permutation_sym, Hord|exact Hin]. }
  rewrite E2. cbn [obind]. rewrite <- S4, Hc. destruct (insts_total (InstanceToJSON rnd ord fuel) ts) with (s := s2) as (cs & s3 & E3 & K3); [|exact K2|].
  { apply Forall_forall. intros t Hin. apply IH.
    - cbn [height] in Hh. assert (height t <= fold_right (fun t n => Nat.max (height t) n) 0 ts); [|lia].
      clear - Hin. induction ts as [|t' ts IH]; [destruct Hin|]. cbn [fold_right]. destruct Hin as [->|Hin]; [lia|]. specialize (IH Hin). lia.
    - rewrite Forall_forall in Hts. now apply Hts.
    - apply Forall_forall. intros q Hq'. rewrite Forall_forall in Hn. apply Hn. apply in_flat_map. eauto. }
  rewrite E3. cbn [obind]. eexists _, s3. split; [reflexivity|exact K3].
Qed.
End Total.

(** Encode never panics on a forest whose references are nil or instances; it
    reports an error exactly when some property anywhere holds a number that is
    not finite. *)
Theorem C64_encode : forall rnd ord fuel h r ts,
  never_repeats (length h) rnd -> any_order ord ->
  Forall (tree_at h) ts -> map rroot ts = r_instances r -> (forall t, In t ts -> height t <= fuel) -> no_dangling h (fnodes ts) ->
  (forall p i, hget h p = Some i -> Forall (fun nv => wf_rvalue (snd nv)) (i_props i)) ->
  exists res named, json_Encode rnd ord fuel h r = OK (res, named) /\
    (res = None <-> exists x name v, inst_in h (fnodes ts) x /\ In (name, v) (i_props x) /\ nonfinite v).
Proof.
  intros rnd ord fuel h r ts Hnr Hord Ht Hr Hf Hd Hwf.
  destruct (insts_total h (InstanceToJSON rnd ord fuel) ts) with (s := Jst h [] 0) as (js & s & E & K).
  - apply Forall_forall. intros t Hin. rewrite Forall_forall in Ht. apply inst_total; auto.
    apply Forall_forall. intros q Hq. destruct (RbxlCodecEnc.tree_nodes h t (Ht t Hin) q Hq) as [i Hi]. exists i. split; [exact Hi|].
    intros n v q' Hn Hq'. apply (Hd i n v q'); auto. exists q. split; [|exact Hi]. unfold fnodes. apply in_flat_map. eauto.
  - split; [apply Nat.le_refl|]. split; [intros p i H; exists i; split; [exact H|apply same_refl]|]. split; [discriminate|constructor].
  - assert (KH : kept_heap h (Jst h [] 0)) by (intros p i Hi; exists i; split; [exact Hi|apply same_refl]).
    destruct (insts_bad h (InstanceToJSON rnd ord fuel) ts) with (s := Jst h [] 0) (js := js) (s' := s) as [_ B]; [|exact KH|exact E|].
    { apply Forall_forall. intros t Hin. rewrite Forall_forall in Ht. apply inst_bad; auto. }
    unfold json_Encode, RootToJSON. rewrite <- Hr, E. cbn [obind]. eexists _, _. split; [reflexivity|].
    rewrite marshal_bad, bad_fixed. cbn [map snd existsb]. rewrite bad_arr, B. change (bad (ji 0)) with false. rewrite orb_false_l, orb_false_r, existsb_exists. split.
    + intros (p & Hp & Hb). unfold bad_inst in Hb. destruct (hget h p) as [i|] eqn:Hi; [|discriminate Hb]. apply existsb_exists in Hb. destruct Hb as ([n v] & Hin & Hb).
      exists i, n, v. split; [exists p; now split|]. split; [exact Hin|]. now apply nonfinite_b.
    + intros (x & n & v & (p & Hp & Hx) & Hin & Hv). exists p. split; [exact Hp|]. unfold bad_inst. rewrite Hx. apply existsb_exists. exists (n, v). split; [exact Hin|]. now apply nonfinite_b.
Qed.

(** ** C65: when Decode panics *)

(** A value is read as nil exactly if its JSON kind is not that of the type,
    otherwise it is read as a value of the type or the reader panics, and which
    of them is a matter of the members. *)
Theorem C65_value : forall other v t, 
  (exists r, ValueFromJSON other v t = OK r /\ readable t v /\ (r = None <-> has_kind v (kind_of t) = false)) \/
  (ValueFromJSON other v t = Panic /\ ~ readable t v).
Proof.
  intros other v t. destruct (value_spec other v t) as [S1 S2]. pose proof (tame_value other v t) as T.
  destruct (ValueFromJSON other v t) as [r| | |] eqn:E; try contradiction.
  - left. exists r. split; [reflexivity|]. split; [apply S1; now exists r|]. now apply S2.
  - right. split; [reflexivity|]. intros R. apply S1 in R. destruct R as [a Ha]. discriminate Ha.
Qed.
(** The reader panics exactly when the version number truncates to 0 and one of
    the instances has an unreadable property or a child; it always returns. *)
Definition reads_instances (other : Z -> Z -> N -> Z) (doc : jv) (l : list jv) : Prop :=
  exists m f, doc = JObj m /\ mfind m (str "rbxfile_version") = Some (JNum f) /\ to_i64 other f = 0%Z /\ mfind m (str "instances") = Some (JArr l).
Theorem C65_document : forall other jord doc, any_members jord ->
  (exists l, reads_instances other doc l /\
     ((exists r, RootFromJSON other jord doc = OK (Some r) /\ Forall (fun v => ~ breaks v) l) \/
      (RootFromJSON other jord doc = Panic /\ ~ Forall (fun v => ~ breaks v) l))) \/
  ((forall l, ~ reads_instances other doc l) /\ RootFromJSON other jord doc = OK None).
Proof.
  intros other jord doc Hj. unfold RootFromJSON.
  destruct doc as [| | | | |m|]; cbn [index_obj]; try (right; split; [intros ? (m' & ? & E & _); discriminate E|reflexivity]).
  destruct (mfind m (str "rbxfile_version")) as [[| |f| | | |]|] eqn:Ev; try (right; split; [intros ? (m' & f' & E & Hv & _); injection E as <-; congruence|reflexivity]).
  destruct (to_i64 other f =? 0)%Z eqn:Ez; [apply Z.eqb_eq in Ez|apply Z.eqb_neq in Ez; right; split; [intros ? (m' & f' & E & Hv & Hz & _); injection E as <-; congruence|reflexivity]].
  destruct (mfind m (str "instances")) as [[| | | |l| |]|] eqn:El; try (right; split; [intros ? (m' & f' & E & Hv & Hz & Hl); injection E as <-; congruence|reflexivity]).
  left. exists l. split; [exists m, f; now split|]. pose proof (insts_oks other jord Hj l _ valid_start) as G. pose proof (insts_tame other jord l (Jdst [] [] [])) as T.
  destruct (insts_from_json other jord l (Jdst [] [] [])) as [[ps s]| | |]; try contradiction; cbn [obind].
  - left. eexists. split; [reflexivity|]. apply G. eexists; reflexivity.
  - right. split; [reflexivity|]. intros F. apply G in F. destruct F as [a Ha]. discriminate Ha.
Qed.

(** ** C66: what is read does not depend on the order of map iteration *)
Theorem C66_order : forall other jord jord' doc, any_members jord -> any_members jord' -> unmarshalled doc ->
  match RootFromJSON other jord doc, RootFromJSON other jord' doc with
  | OK None, OK None => True
  | OK (Some (r, h)), OK (Some (r', h')) => r = r' /\ same_heap h h'
  | Panic, Panic => True
  | _, _ => False
  end.
Proof.
  intros other jord jord' doc H1 H2 Hu. unfold RootFromJSON. destruct (index_obj doc "rbxfile_version") as [[]|]; try exact I.
  destruct (to_i64 other f =? 0)%Z; [|exact I]. destruct (index_obj doc "instances") as [[| | | |l| |]|] eqn:E; try exact I.
  assert (Hl : Forall unmarshalled l).
  { destruct doc; try discriminate E. cbn [index_obj] in E. apply mfind_In in E. inversion Hu as [| | | | |m' Hm Hall]; subst.
    rewrite Forall_forall in Hall. specialize (Hall _ E). cbn [snd] in Hall. now inversion Hall. }
  pose proof (insts_order other jord jord' H1 H2 l Hl _ _ (seq_refl _) valid_start) as G.
  destruct (insts_from_json other jord l (Jdst [] [] [])) as [[ps a]| | |]; destruct (insts_from_json other jord' l (Jdst [] [] [])) as [[ps' b]| | |]; try contradiction; cbn [obind]; [|exact I].
  destruct G as [G1 G2]. cbn [fst snd] in *. subst ps'. split; [reflexivity|]. now apply set_refs_seq.
Qed.

(** ** Witnesses *)
Definition o0 : Z -> Z -> N -> Z := fun _ _ _ => 0%Z.
Definition id_p : ptr -> list (bytes * rvalue) -> list (bytes * rvalue) := fun _ l => l.
Lemma id_any : any_order id_p.
Proof. intros p l. apply Permutation_refl. Qed.
Lemma rev_any : any_members (@rev (bytes * jv)).
Proof. intros l. apply Permutation_rev. Qed.
(** Two instances that refer to each other and to themselves, with data whose
    length is not a multiple of three and with a unique id. *)
Definition ring : heap :=
  [Inst (str "A") [] false [(str "next", RReference 2); (str "data", RBinaryString (str "abcd")); (str "id", RUniqueId 1 2 3); (str "f", RFloat 0x3fc00000)] [];
   Inst (str "B") (str "x") true [(str "next", RReference 1); (str "self", RReference 2); (str "n", RInt64 (-5)); (str "none", RReference 0)] []].
Definition ring_root : root := Root [1; 2] [].
Lemma counter_16 k : length (counter k) = 16.
Proof. reflexivity. Qed.
Lemma ring_nr : never_repeats (length ring) counter.
Proof. eapply never_repeats_le; [|exact counter_never_repeats]. cbn; lia. Qed.
Lemma ring_wf : wf_heap ring.
Proof.
  intros [|[|[|p]]] i H; try discriminate H; try (destruct p; discriminate H); injection H as <-; cbn [i_props ring length map fst];
    (split; [repeat (apply NoDup_cons; [cbn; intuition discriminate|]); apply NoDup_nil|]);
    intros nm x Hi; cbn in Hi; repeat destruct Hi as [Hi|Hi]; try (injection Hi as _ <-; lia); try discriminate Hi; destruct Hi.
Qed.
Lemma ring_childless : childless ring [1; 2].
Proof.
  split; [repeat (apply NoDup_cons; [cbn; intuition discriminate|]); apply NoDup_nil|].
  intros p [<-|[<-|[]]]; eexists; (split; [reflexivity|reflexivity]).
Qed.
Lemma ring_get p i : hget ring p = Some i -> i = Inst (str "A") [] false [(str "next", RReference 2); (str "data", RBinaryString (str "abcd")); (str "id", RUniqueId 1 2 3); (str "f", RFloat 0x3fc00000)] [] \/
   i = Inst (str "B") (str "x") true [(str "next", RReference 1); (str "self", RReference 2); (str "n", RInt64 (-5)); (str "none", RReference 0)] [].
Proof. destruct p as [|[|[|[]]]]; intros H; try discriminate H; injection H as <-; auto. Qed.
Lemma ring_storable : json_storable ring [1; 2].
Proof.
  split.
  - intros x (p & Hp & Hx). destruct (ring_get p x Hx) as [-> | ->]; split; apply ascii_utf8; reflexivity.
  - intros x name v (p & Hp & Hx) Hv. apply mfind_In in Hv. destruct (ring_get p x Hx) as [-> | ->]; cbn [i_props In] in Hv;
      repeat destruct Hv as [Hv|Hv]; try contradiction; injection Hv as <- <-; (split; [apply ascii_utf8; reflexivity|]); try exact I; vm_compute; auto.
  - intros x name q (p & Hp & Hx) Hv Hq. apply mfind_In in Hv. destruct (ring_get p x Hx) as [-> | ->]; cbn [i_props In] in Hv;
      repeat destruct Hv as [Hv|Hv]; try contradiction; try discriminate Hv; injection Hv as <- <-; try (now destruct Hq); eexists; (split; [reflexivity|]); apply ascii_utf8; reflexivity.
Qed.
Example C62_witness : wf_heap ring /\ childless ring [1; 2] /\ json_storable ring [1; 2] /\ never_repeats (length ring) counter /\
  match json_Encode counter id_p 1 ring ring_root with
  | OK (Some doc, _) =>
      match RootFromJSON o0 (@rev _) doc with
      | OK (Some (r, h)) => r_instances r = [1; 2] /\ map (fun i => (i_class i, i_service i)) h = [(str "A", false); (str "B", true)] /\
          map (fun n => match hget h 1 with Some i => mfind (i_props i) (str n) | None => None end) ["next"; "data"; "id"; "f"]%string
            = [Some (RReference 2); Some (RBinaryString (str "abc")); None; Some (RFloat 0x3fc00000)] /\
          map (fun n => match hget h 2 with Some i => mfind (i_props i) (str n) | None => None end) ["next"; "self"; "n"; "none"]%string
            = [Some (RReference 1); Some (RReference 2); Some (RInt64 (-5)); Some (RReference 0)]
      | _ => False
      end
  | _ => False
  end.
Proof.
  split; [exact ring_wf|]. split; [exact ring_childless|]. split; [exact ring_storable|]. split; [exact ring_nr|].
  vm_compute. repeat split.
Qed.
(** What is not carried over: integers of more than 53 bits are rounded, bytes
    that are not UTF-8 are replaced, and trees cannot be read back. *)
Definition trip (v : rvalue) : jout (option rvalue) :=
  match ValueToJSON counter v (Jst [] [] 0) with
  | OK (j, _) => match marshal j with Some j' => ValueFromJSON o0 j' (rtype v) | None => OK None end
  | _ => Panic
  end.
Example C62_lossy :
  trip (RInt64 9007199254740993) = OK (Some (RInt64 9007199254740992)) /\
  trip (RString [xff; x41]) = OK (Some (RString [xef; xbf; xbd; x41])) /\
  trip (RSharedString [x01; x02]) = OK (Some (RSharedString [])) /\
  trip (RFont [] 1 x02 []) = OK None.
Proof. vm_compute. repeat split. Qed.
Definition family : heap := [Inst (str "P") [] false [] [2]; Inst (str "C") [] false [(str "up", RReference 1)] []].
Example C63_witness : Forall (tree_at family) [RNode 1 [RNode 2 []]] /\ json_storable family (fnodes [RNode 1 [RNode 2 []]]) /\
  match json_Encode counter id_p 2 family (Root [1] []) with
  | OK (Some doc, _) => RootFromJSON o0 (@rev _) doc = Panic
  | _ => False
  end.
Proof.
  assert (G : forall p i, hget family p = Some i -> i = Inst (str "P") [] false [] [2] \/ i = Inst (str "C") [] false [(str "up", RReference 1)] []).
  { intros [|[|[|[]]]] i H; try discriminate H; injection H as <-; auto. }
  split; [|split].
  - repeat (apply Forall_cons || apply Forall_nil). eapply tree_node; [reflexivity|reflexivity|]. repeat (apply Forall_cons || apply Forall_nil). eapply tree_node; [reflexivity|reflexivity|constructor].
  - split.
    + intros x (p & Hp & Hx). destruct (G p x Hx) as [-> | ->]; split; apply ascii_utf8; reflexivity.
    + intros x name v (p & Hp & Hx) Hv. apply mfind_In in Hv. destruct (G p x Hx) as [-> | ->]; cbn [i_props In] in Hv;
        repeat destruct Hv as [Hv|Hv]; try contradiction; injection Hv as <- <-; (split; [apply ascii_utf8; reflexivity|exact I]).
    + intros x name q (p & Hp & Hx) Hv Hq. apply mfind_In in Hv. destruct (G p x Hx) as [-> | ->]; cbn [i_props In] in Hv;
        repeat destruct Hv as [Hv|Hv]; try contradiction; injection Hv as <- <-; eexists; (split; [reflexivity|apply ascii_utf8; reflexivity]).
  - vm_compute. reflexivity.
Qed.
(** A ring of values with an infinity inside an optional value inside a child. *)
Example C64_witness :
  let h f := [Inst (str "P") [] false [] [2]; Inst (str "C") [] false [(str "o", ROptional TypeVector2 (Some (RVector2 0 f)))] []] in
  match json_Encode counter id_p 2 (h 0x3f800000%N) (Root [1] []) with OK (Some _, _) => True | _ => False end /\
  match json_Encode counter id_p 2 (h 0x7f800000%N) (Root [1] []) with OK (None, _) => True | _ => False end /\
  match json_Encode counter id_p 2 (h 0x7fc00000%N) (Root [1] []) with OK (None, _) => True | _ => False end /\
  nonfinite (ROptional TypeVector2 (Some (RVector2 0 0x7f800000))) /\ ~ nonfinite (ROptional TypeVector2 (Some (RVector2 0 0x3f800000))).
Proof.
  cbv zeta. split; [vm_compute; exact I|]. split; [vm_compute; exact I|]. split; [vm_compute; exact I|].
  rewrite !nonfinite_b. split; [reflexivity|]. vm_compute. discriminate.
Qed.
(** Documents: an ignored property, a missing member, a wrong version. *)
Definition doc_with (version : N) (ty : String.string) (v : jv) : jv :=
  obj [("rbxfile_version", JNum version); ("instances", JArr [JNull; obj [("class_name", JStr (str "A"));
     ("properties", obj [("p", obj [("type", JStr (str ty)); ("value", v)]); ("q", JNull)])]])]%string.
Example C65_witness :
  (exists r, RootFromJSON o0 (@rev _) (doc_with 0 "Vector2" (obj [("x", JNum 0); ("y", JNum 0)]%string)) = OK (Some r)) /\
  (exists r, RootFromJSON o0 (@rev _) (doc_with 0 "Vector2" (JBool true)) = OK (Some r)) /\
  (exists r, RootFromJSON o0 (@rev _) (doc_with 0x3fe0000000000000 "Bool" (JBool true)) = OK (Some r)) /\
  RootFromJSON o0 (@rev _) (doc_with 0 "Vector2" (obj [("x", JNum 0)]%string)) = Panic /\
  RootFromJSON o0 (@rev _) (doc_with 0x3ff0000000000000 "Vector2" (obj [("x", JNum 0)]%string)) = OK None /\
  ~ readable TypeVector2 (obj [("x", JNum 0)]%string) /\ readable TypeVector2 (JBool true).
Proof.
  split; [eexists; vm_compute; reflexivity|]. split; [eexists; vm_compute; reflexivity|]. split; [eexists; vm_compute; reflexivity|].
  split; [vm_compute; reflexivity|]. split; [vm_compute; reflexivity|]. split.
  - intros R. destruct (C65_value o0 (obj [("x", JNum 0)]%string) TypeVector2) as [(r & E & _)|[_ N]]; [vm_compute in E; discriminate E|now apply N].
  - now apply rd_ignored.
Qed.
(** Two instances with one reference are one instance; the last one wins. *)
Example C66_witness :
  let i c v := obj [("class_name", JStr (str c)); ("reference", JStr (str "r")); ("properties", obj [("p", obj [("type", JStr (str "Bool")); ("value", JBool v)]); ("q", obj [("type", JStr (str "Reference")); ("value", JStr (str "r"))])])]%string in
  let doc := obj [("rbxfile_version", JNum 0); ("instances", JArr [i "A"%string true; i "B"%string false])]%string in
  match RootFromJSON o0 (fun l => l) doc, RootFromJSON o0 (@rev _) doc with
  | OK (Some (r, h)), OK (Some (r', h')) => r = r' /\ r_instances r = [1; 1] /\ map i_class h = [str "B"] /\ map i_class h' = [str "B"] /\
      map (fun n => match hget h 1 with Some i => mfind (i_props i) (str n) | None => None end) ["p"; "q"]%string = [Some (RBool false); Some (RReference 1)] /\
      map (fun n => match hget h' 1 with Some i => mfind (i_props i) (str n) | None => None end) ["p"; "q"]%string = [Some (RBool false); Some (RReference 1)]
  | _, _ => False
  end.
Proof. vm_compute. repeat split. Qed.
