(** PropXmlEncode.v - properties of encoding XML: what can be encoded, that
    map order and layout do not matter. *)
From Coq Require Import Permutation.
From Verif Require Import Base RbxlValues RbxValues Tree RbxlCodec RbxlFileProofs SpecValues SpecTree SpecCodec SortProofs TreeProofs RbxlCodecEnc PropTree
  XmlText XmlDoc XmlCodec SpecXml XmlTextProofs XmlLayout XmlBare XmlTreeEnc XmlRound PropXml SpecXmlEncode.
Local Notation string := String.string.

(** ** C56: the order of maps does not matter *)
Definition orel {E A} (R : A -> A -> Prop) (o o' : outcome E A) : Prop :=
  match o, o' with
  | OK a, OK a' => R a a'
  | Err e, Err e' => e = e'
  | Panic, Panic => True
  | Hang, Hang => True
  | _, _ => False
  end.
Lemma orel_bind {E A B} (R : A -> A -> Prop) (S : B -> B -> Prop) (o o' : outcome E A) (f f' : A -> outcome E B) :
  orel R o o' -> (forall a a', R a a' -> orel S (f a) (f' a')) -> orel S (obind o f) (obind o' f').
Proof. destruct o, o'; cbn; try tauto. intros H K. now apply K. Qed.
Lemma orel_refl {E A} (R : A -> A -> Prop) (o : outcome E A) : (forall a, R a a) -> orel R o o.
Proof. intros H. destruct o; cbn; auto. Qed.
Lemma same_hget h h' p : same_heap h h' -> match hget h p, hget h' p with Some i, Some j => same_inst i j | None, None => True | _, _ => False end.
Proof.
  intros H. destruct p as [|p]; [exact I|]. cbn [hget]. revert p. induction H as [|i j h h' Hij _ IH]; intros [|p]; cbn; try exact I; [exact Hij|apply IH].
Qed.
Lemma same_hset h h' p i j : same_heap h h' -> same_inst i j -> same_heap (hset h p i) (hset h' p j).
Proof.
  intros H Hij. destruct p as [|p]; [exact H|]. cbn [hset]. revert p. induction H as [|x y h h' Hxy H IH]; intros [|p]; cbn; try constructor; try assumption. apply IH.
Qed.
Section Order.
Variables (env : xenv) (rnd : nat -> bytes).
Definition same_st (s s' : rest_) : Prop := same_heap (re_heap s) (re_heap s') /\ re_refs s = re_refs s' /\ re_rnd s = re_rnd s' /\ re_shared s = re_shared s'.
Definition same_res {A} (x x' : A * rest_) : Prop := fst x = fst x' /\ same_st (snd x) (snd x').
Lemma get_ref_same h h' m k p : same_heap h h' ->
  orel (fun x x' => fst (fst (fst x)) = fst (fst (fst x')) /\ same_heap (snd (fst (fst x))) (snd (fst (fst x'))) /\ snd (fst x) = snd (fst x') /\ snd x = snd x')
    (get_ref rnd h m k p) (get_ref rnd h' m k p).
Proof.
  intros H. unfold get_ref. destruct (p =? 0)%nat; [cbn; auto|]. pose proof (same_hget h h' p H) as G. destruct (hget h p) as [i|], (hget h' p) as [j|]; try contradiction; [|exact I].
  rewrite <- (si_ref _ _ G). destruct (_ || _); [|cbn; auto].
  destruct (regenerate (S (length m)) rnd k m) as [[r k']|e| |]; cbn [obind]; try exact I; [|exact eq_refl]. cbn. split; [reflexivity|]. split; [|auto].
  apply same_hset; [exact H|]. destruct G as [G1 G2 G3 G4 G5 G6]. now constructor.
Qed.
Lemma encodeProperty_same v s s' : same_st s s' -> orel same_res (encodeProperty env rnd v s) (encodeProperty env rnd v s').
Proof.
  intros HS. assert (HP : forall t : tag, orel same_res (OK (t, s) : eout (tag * rest_)) (OK (t, s'))) by (intros t; split; [reflexivity|exact HS]).
  assert (HL : forall o : eout tag, orel same_res (t <- o ;; OK (t, s)) (t <- o ;; OK (t, s'))) by (intros o; apply (orel_bind eq); [apply orel_refl; reflexivity|intros a a' <-; apply HP]).
  destruct v; cbn [encodeProperty]; try apply HP; try apply HL.
  all: try (apply (orel_bind eq); [apply orel_refl; reflexivity|intros a a' <-; first [apply HP|apply (orel_bind eq); [apply orel_refl; reflexivity|intros b b' <-; apply HP]]]).
  - (* reference *) destruct (p =? 0)%nat; [apply HP|]. destruct HS as (H1 & H2 & H3 & H4). rewrite <- H2, <- H3.
    eapply orel_bind; [apply get_ref_same; exact H1|]. intros [[[r h1] m1] k1] [[[r' h1'] m1'] k1'] (E1 & E2 & E3 & E4). cbn in E1, E2, E3, E4. subst. split; [reflexivity|]. unfold same_st. cbn. now repeat split.
  - destruct custom; [|apply HP]. apply (orel_bind eq); [apply orel_refl; reflexivity|intros a a' <-; apply HP].
  - destruct HS as (H1 & H2 & H3 & H4). rewrite <- H4. apply (orel_bind eq); [apply orel_refl; reflexivity|]. intros a a' <-. split; [reflexivity|]. unfold same_st. cbn. now repeat split.
  - destruct v as [v|]; [destruct v|]; try apply HP. apply (orel_bind eq); [apply orel_refl; reflexivity|intros a a' <-; apply HP].
Qed.
Lemma encode_props_same l : forall s s', same_st s s' -> orel same_res (encode_props env rnd l s) (encode_props env rnd l s').
Proof.
  induction l as [|[n v] l IH]; intros s s' HS; cbn [encode_props]; [now split|].
  eapply orel_bind; [apply encodeProperty_same; exact HS|]. intros [t s1] [t' s1'] [E1 E2]. cbn in E1, E2. subst t'.
  eapply orel_bind; [apply IH; exact E2|]. intros [ts s2] [ts' s2'] [E3 E4]. cbn in E3, E4. subst ts'. now split.
Qed.
Lemma encode_list_same f l : (forall p s s', same_st s s' -> orel same_res (f p s) (f p s')) -> forall s s', same_st s s' ->
  orel same_res (encode_list f l s) (encode_list f l s').
Proof.
  intros Hf. induction l as [|p l IH]; intros s s' HS; cbn [encode_list]; [now split|].
  eapply orel_bind; [apply Hf; exact HS|]. intros [t s1] [t' s1'] [E1 E2]. cbn in E1, E2. subst t'.
  eapply orel_bind; [apply IH; exact E2|]. intros [ts s2] [ts' s2'] [E3 E4]. cbn in E3, E4. subst ts'. now split.
Qed.
Lemma encodeInstance_same noref fuel : forall p s s', same_st s s' -> orel same_res (encodeInstance env rnd fuel noref p s) (encodeInstance env rnd fuel noref p s').
Proof.
  induction fuel as [|fuel IH]; intros p s s' HS; cbn [encodeInstance]; [exact I|]. destruct HS as (H1 & H2 & H3 & H4). rewrite <- H2, <- H3, <- H4.
  eapply orel_bind; [apply get_ref_same; exact H1|]. intros [[[r h1] m1] k1] [[[r' h1'] m1'] k1'] (E1 & E2 & E3 & E4). cbn in E1, E2, E3, E4. subst.
  pose proof (same_hget h1 h1' p E2) as G. destruct (hget h1 p) as [i|], (hget h1' p) as [j|]; try contradiction; [|exact I].
  rewrite <- (sort_perm_eq fst _ _ (si_names _ _ G) (si_props _ _ G)), <- (si_class _ _ G), <- (si_children _ _ G).
  eapply orel_bind; [apply encode_props_same; unfold same_st; cbn; now repeat split|]. intros [ps s2] [ps' s2'] [E3 E4]. cbn in E3, E4. subst ps'.
  eapply orel_bind; [apply encode_list_same; [exact IH|exact E4]|]. intros [ts s3] [ts' s3'] [E5 E6]. cbn in E5, E6. subst ts'. now split.
Qed.
End Order.
(** Encode of trees that are the same but for the order of map entries: the
    same outcome, the same bytes and warnings, the same references given out. *)
Theorem C56_map_order : forall env rnd fuel e h h' r r', same_heap h h' -> same_root r r' ->
  match xml_encode fuel env rnd e h (Some r), xml_encode fuel env rnd e h' (Some r') with
  | OK (ws, out, h1), OK (ws', out', h1') => ws = ws' /\ out = out' /\ same_heap h1 h1'
  | Panic, Panic => True
  | Hang, Hang => True
  | _, _ => False
  end.
Proof.
  intros env rnd fuel e h h' r r' HH (HR1 & HR2 & HR3).
  assert (G : orel (fun x x' => fst x = fst x' /\ same_heap (snd x) (snd x')) (codec_write env rnd fuel (x_opts e) h (Some r)) (codec_write env rnd fuel (x_opts e) h' (Some r'))).
  { unfold codec_write. rewrite <- (sort_perm_eq fst _ _ HR3 HR2), <- HR1. eapply orel_bind.
    - apply (encode_list_same (encodeInstance env rnd fuel (o_noref (x_opts e)))); [intros; now apply encodeInstance_same|]. split; [exact HH|]. now repeat split.
    - intros [items s] [items' s'] [E1 E2]. cbn in E1, E2. subst items'. destruct E2 as (H1 & H2 & H3 & H4). rewrite <- H4.
      apply (orel_bind eq); [apply orel_refl; reflexivity|]. intros sh sh' <-. now split. }
  unfold xml_encode. destruct (codec_write env rnd fuel (x_opts e) h (Some r)) as [[t h1]|x| |], (codec_write env rnd fuel (x_opts e) h' (Some r')) as [[t' h1']|x'| |]; cbn [orel fst snd] in G; try contradiction; try exact I; cbn [obind]; try (now destruct x).
  destruct G as [<- G]. destruct (WriteTo _) as [w out]. now repeat split.
Qed.

(** ** C49: only trees can be encoded *)
Section Trees.
Variables (env : xenv) (rnd : nat -> bytes).
Definition same_kids (h h' : heap) : Prop := forall p, option_map i_children (hget h' p) = option_map i_children (hget h p).
Lemma same_kids_trans h h1 h2 : same_kids h h1 -> same_kids h1 h2 -> same_kids h h2.
Proof. intros A B p. now rewrite B. Qed.
Lemma get_ref_kids h m k p r h' m' k' : get_ref rnd h m k p = OK (r, h', m', k') -> same_kids h h'.
Proof.
  unfold get_ref. intros E. destruct (p =? 0)%nat; [apply OK_pair' in E as [E _]; apply pair_equal_spec in E as [E _]; apply pair_equal_spec in E as [_ <-]; now intros q|].
  destruct (hget h p) as [i|] eqn:Ei; [|discriminate E]. destruct (_ || _).
  - apply bind_OK in E as ([r0 k0] & _ & E). apply OK_pair' in E as [E _]; apply pair_equal_spec in E as [E _]; apply pair_equal_spec in E as [_ <-].
    intros q. rewrite hget_hset. destruct (Nat.eqb_spec q p) as [->|]; [|reflexivity]. rewrite Ei. reflexivity.
  - apply OK_pair' in E as [E _]; apply pair_equal_spec in E as [E _]; apply pair_equal_spec in E as [_ <-]; now intros q.
Qed.
Lemma encodeProperty_kids v s t s' : encodeProperty env rnd v s = OK (t, s') -> same_kids (re_heap s) (re_heap s').
Proof.
  intros E. assert (HP : forall t0 : tag, (OK (t0, s) : eout (tag * rest_)) = OK (t, s') -> same_kids (re_heap s) (re_heap s')) by (intros t0 E0; apply OK_pair' in E0 as [_ <-]; now intros q).
  destruct v; cbn [encodeProperty] in E; try exact (HP _ E).
  all: try (apply bind_OK in E as (a & _ & E); first [exact (HP _ E)|apply bind_OK in E as (b & _ & E); exact (HP _ E)]).
  - destruct (p =? 0)%nat; [exact (HP _ E)|]. apply bind_OK in E as ([[[r h1] m1] k1] & E1 & E). apply OK_pair' in E as [_ <-]. exact (get_ref_kids _ _ _ _ _ _ _ _ E1).
  - destruct custom; [|exact (HP _ E)]. apply bind_OK in E as (a & _ & E). exact (HP _ E).
  - apply bind_OK in E as (a & _ & E). apply OK_pair' in E as [_ <-]. now intros q.
  - destruct v as [v|]; [destruct v|]; try exact (HP _ E). apply bind_OK in E as (a & _ & E). exact (HP _ E).
Qed.
Lemma encode_props_kids l : forall s ts s', encode_props env rnd l s = OK (ts, s') -> same_kids (re_heap s) (re_heap s').
Proof.
  induction l as [|[n v] l IH]; intros s ts s' E; cbn [encode_props] in E; [apply OK_pair' in E as [_ <-]; now intros q|].
  apply bind_OK in E as ([t s1] & E1 & E). apply bind_OK in E as ([ts2 s2] & E2 & E). apply OK_pair' in E as [_ <-].
  exact (same_kids_trans _ _ _ (encodeProperty_kids _ _ _ _ E1) (IH _ _ _ E2)).
Qed.
Lemma tree_kids h h' t : same_kids h h' -> tree_at h' t -> tree_at h t.
Proof.
  intros K. induction t as [p ts IH] using rtree_ind'. intros H. inversion H as [? ? i E1 E2 E3]; subst. specialize (K p) as Kp. rewrite E1 in Kp. destruct (hget h p) as [j|] eqn:Ej; [|discriminate Kp].
  apply (tree_node h p ts j); [exact Ej|cbn in Kp; congruence|]. rewrite Forall_forall in *. intros u Hu. apply (IH u Hu). now apply E3.
Qed.
Definition tree_enc (f : ptr -> rest_ -> eout (tag * rest_)) : Prop := forall p s t s', f p s = OK (t, s') ->
  same_kids (re_heap s) (re_heap s') /\ exists tr, rroot tr = p /\ tree_at (re_heap s) tr.
Lemma encode_list_trees f l : tree_enc f -> forall s ts s', encode_list f l s = OK (ts, s') ->
  same_kids (re_heap s) (re_heap s') /\ exists trs, map rroot trs = l /\ Forall (tree_at (re_heap s)) trs.
Proof.
  intros Hf. induction l as [|p l IH]; intros s ts s' E; cbn [encode_list] in E; [apply OK_pair' in E as [_ <-]; split; [now intros q|]; exists []; now split|].
  apply bind_OK in E as ([t s1] & E1 & E). apply bind_OK in E as ([ts2 s2] & E2 & E). apply OK_pair' in E as [_ <-].
  destruct (Hf _ _ _ _ E1) as (K1 & tr & R1 & T1). destruct (IH _ _ _ E2) as (K2 & trs & R2 & T2). split; [exact (same_kids_trans _ _ _ K1 K2)|].
  exists (tr :: trs). split; [cbn; congruence|]. constructor; [exact T1|]. eapply Forall_impl; [|exact T2]. intros u. now apply tree_kids.
Qed.
Lemma encodeInstance_trees noref fuel : tree_enc (encodeInstance env rnd fuel noref).
Proof.
  induction fuel as [|fuel IH]; intros p s t s' E; [discriminate E|]. cbn [encodeInstance] in E.
  apply bind_OK in E as ([[[r h1] m1] k1] & E1 & E). pose proof (get_ref_kids _ _ _ _ _ _ _ _ E1) as K1.
  destruct (hget h1 p) as [i|] eqn:Ei; [|discriminate E]. apply bind_OK in E as ([ps s2] & E2 & E). pose proof (encode_props_kids _ _ _ _ E2) as K2. cbn [re_heap] in K2.
  apply bind_OK in E as ([ts s3] & E3 & E). apply OK_pair' in E as [_ <-]. destruct (encode_list_trees _ _ IH _ _ _ E3) as (K3 & trs & R & T).
  pose proof (same_kids_trans _ _ _ K1 K2) as K. split; [exact (same_kids_trans _ _ _ K K3)|]. exists (RNode p trs). split; [reflexivity|].
  specialize (K1 p) as Kp. rewrite Ei in Kp. destruct (hget (re_heap s) p) as [j|] eqn:Ej; [|discriminate Kp]. apply (tree_node _ p trs j); [exact Ej|cbn in Kp; congruence|].
  eapply Forall_impl; [|exact T]. intros u. now apply tree_kids.
Qed.
End Trees.
(** When Encode succeeds, every instance of the root holds a finite tree of
    instances: no cycles, no nil instances. *)
Theorem C49_only_trees : forall fuel env rnd e h r ws out h1,
  xml_encode fuel env rnd e h (Some r) = OK (ws, out, h1) ->
  exists ts, map rroot ts = r_instances r /\ Forall (tree_at h) ts.
Proof.
  intros fuel env rnd e h r ws out h1 E. unfold xml_encode in E. apply bind_OK in E as ([t h'] & E & _). unfold codec_write in E.
  apply bind_OK in E as ([items s] & E & _). destruct (encode_list_trees _ _ (encodeInstance_trees env rnd _ _) _ _ _ E) as (_ & trs & R & T). exists trs. now split.
Qed.
(** A nil root panics. *)
Theorem C49_nil_root_panics : forall fuel env rnd e h, xml_encode fuel env rnd e h None = Panic.
Proof. reflexivity. Qed.
(** An instance that contains itself is never encoded, however long it takes. *)
Theorem C49_cycle_never_ends : forall fuel env rnd e i, i_children i = [1] -> IsEmptyReference (i_ref i) = false -> i_props i = [] ->
  xml_encode fuel env rnd e [i] (Some (Root [1] [])) = Hang.
Proof.
  intros fuel env rnd e i Hc Ee Hp. assert (G : forall n s, re_heap s = [i] -> (re_refs s = [] \/ re_refs s = [(i_ref i, 1)]) -> encodeInstance env rnd n (o_noref (x_opts e)) 1 s = Hang).
  { induction n as [|f IH]; intros s Hh Hm; [reflexivity|]. cbn [encodeInstance]. unfold get_ref. cbn [Nat.eqb]. rewrite Hh. cbn [hget nth_error].
    rewrite Ee. cbn [orb].
    assert (Em : negb (rget (re_refs s) (i_ref i) =? 0)%nat && negb (rget (re_refs s) (i_ref i) =? 1)%nat = false /\ mset (re_refs s) (i_ref i) 1 = [(i_ref i, 1)]).
    { destruct Hm as [-> | ->]; unfold rget; cbn [mfind mset]; [split; reflexivity|]. destruct (beqb_spec (i_ref i) (i_ref i)) as [_|N]; [split; reflexivity|contradiction]. }
    destruct Em as [-> ->]. cbn [obind hget nth_error]. rewrite Hp. cbn [sort_by fold_right encode_props obind]. rewrite Hc. cbn [encode_list]. rewrite IH; [reflexivity|reflexivity|now right]. }
  unfold xml_encode, codec_write. cbn [r_instances encode_list]. rewrite (G fuel (Rest [i] [] 0 []) eq_refl (or_introl eq_refl)). reflexivity.
Qed.

(** ** C58: layout does not matter *)
(** Encoders that differ in prefix, indentation and suffix only; the prefix and
    the indentation are white space, the suffix is anything. *)
Theorem C58_layout : forall env rnd fuel e e' h ts r ws out h1,
  floats_ok (xe_fl env) -> (forall k, length (rnd k) = 16) -> never_repeats (length h) rnd ->
  forest_at h ts -> r_instances r = map rroot ts -> xml_storable h (fnodes ts) -> length h <= fuel ->
  x_opts e' = x_opts e -> x_noroot e = false -> x_noroot e' = false ->
  blank (x_prefix e) -> blank (x_indent e) -> blank (x_prefix e') -> blank (x_indent e') ->
  xml_encode fuel env rnd e h (Some r) = OK (ws, out, h1) ->
  exists out', xml_encode fuel env rnd e' h (Some r) = OK (ws, out', h1) /\
    forall discard end_ end', xml_decode env discard out' end' = xml_decode env discard out end_.
Proof.
  intros env rnd fuel e e' h ts r ws out h1 Hfl Hrnd Hnr Hf Hroots Hst Hfuel Ho Hn Hn' Hp Hi Hp' Hi' HE.
  destruct (write_ok env rnd h ts (x_opts e) r Hfl Hrnd Hnr Hf Hroots Hst fuel Hfuel) as (items & sh & s' & E & Es & HI & HF).
  assert (Hpl : plain_tag (root_tag (x_opts e) r items sh) = true) by (eapply write_plain; [exact HI|exact (HF false)|exact Es]).
  assert (G : forall (x : xencoder), x_opts x = x_opts e -> x_noroot x = false -> blank (x_prefix x) -> blank (x_indent x) ->
    exists o, xml_encode fuel env rnd x h (Some r) = OK ([], o, re_heap s') /\
      forall discard end_, xml_decode env discard o end_ = match codec_read env discard (Doc [] [] [] false (Some (settled (root_tag (x_opts e) r items sh))) []) with OK r => OK r | Err z => match z with end | Panic => Panic | Hang => Hang end).
  { intros x X1 X2 X3 X4. unfold xml_encode. rewrite X1, E. cbn [obind]. set (d := Doc _ _ _ _ _ _).
    assert (DR : forall end_, fst (WriteTo d) = [] /\ exists p i t', ReadFrom (snd (WriteTo d)) end_ = OK (Doc p i (doc_suffix d) false (Some t') []) /\ bare t' = settled (root_tag (x_opts e) r items sh)).
    { intros end_. apply document_roundtrip; try assumption; try reflexivity; [now right|]. subst d. cbn [doc_indent]. destruct (_ && _); [reflexivity|exact X4]. }
    destruct (WriteTo d) as [w o]. exists o. split; [destruct (DR XEOF) as [W _]; cbn [fst] in W; now rewrite W|]. intros discard end_. destruct (DR end_) as [_ (p & i & t' & Er & Eb)]. cbn [snd] in Er.
    unfold xml_decode. rewrite Er. rewrite (codec_read_bare env discard p i (doc_suffix d) false t' [] [] [] [] false (settled (root_tag (x_opts e) r items sh))) by (now rewrite bare_settled). reflexivity. }
  destruct (G e eq_refl Hn Hp Hi) as (o & A & B). destruct (G e' Ho Hn' Hp' Hi') as (o' & A' & B'). rewrite A in HE. apply OK_pair' in HE as [HE <-]. apply pair_equal_spec in HE as [<- <-].
  exists o'. split; [exact A'|]. intros discard end_ end'. now rewrite B', B.
Qed.
