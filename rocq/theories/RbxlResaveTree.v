(** RbxlResaveTree.v - encoding a decoded tree again. *)
From Coq Require Import Permutation Sorting.Sorted.
From Verif Require Import Base RbxlValues RbxlArrays RbxlModel RbxlFile RbxlFileProofs RbxValues Tree RbxlCodec
  SpecValues SpecArrays SpecModel SpecFile SpecTree SpecCodec TreeProofs SortProofs PropCodecValues RbxlCodecEnc RbxlCodecCols
  RbxlCodecOut RbxlCodecShape RbxlCodecDec RbxlCodecRound RbxlCodecImage RbxlResave.

(** ** Trees with other addresses *)
Fixpoint rtmap (f : ptr -> ptr) (t : rtree) : rtree := match t with RNode p ts => RNode (f p) (map (rtmap f) ts) end.
Lemma rroot_map f t : rroot (rtmap f t) = f (rroot t).
Proof. destruct t; reflexivity. Qed.
Lemma rroots_map f ts : map rroot (map (rtmap f) ts) = map f (map rroot ts).
Proof. rewrite !map_map. apply map_ext. intros; apply rroot_map. Qed.
Lemma rnodes_map f t : rnodes (rtmap f t) = map f (rnodes t).
Proof.
  induction t as [p ts IH] using rtree_ind'. cbn [rtmap]. rewrite !rnodes_node. cbn [map]. f_equal.
  induction IH as [|t ts Ht _ IH]; [reflexivity|]. cbn [map]. rewrite !fnodes_cons, map_app. congruence.
Qed.
Lemma fnodes_map f ts : fnodes (map (rtmap f) ts) = map f (fnodes ts).
Proof. induction ts as [|t ts IH]; [reflexivity|]. cbn [map]. rewrite !fnodes_cons, map_app, rnodes_map. congruence. Qed.
Definition both (f : ptr -> ptr) (cp : ptr * ptr) : ptr * ptr := (f (fst cp), f (snd cp)).
Lemma plinks_map f t : forall parent, plinks (f parent) (rtmap f t) = map (both f) (plinks parent t).
Proof.
  induction t as [p ts IH] using rtree_ind'. intros parent. cbn [rtmap]. rewrite !plinks_node, map_app. f_equal.
  induction IH as [|t ts Ht _ IH]; [reflexivity|]. cbn [map]. rewrite !flinks_cons, map_app, Ht. congruence.
Qed.
Lemma flinks_map f ts parent : flinks (f parent) (map (rtmap f) ts) = map (both f) (flinks parent ts).
Proof. induction ts as [|t ts IH]; [reflexivity|]. cbn [map]. rewrite !flinks_cons, map_app, plinks_map. congruence. Qed.
Lemma tree_map h h' f t : tree_at h t ->
  (forall p x, In p (rnodes t) -> hget h p = Some x -> exists x', hget h' (f p) = Some x' /\ i_children x' = map f (i_children x)) ->
  tree_at h' (rtmap f t).
Proof.
  induction t as [p ts IH] using rtree_ind'. intros Ht H. inversion Ht as [? ? i Hi Hc Hts]; subst. cbn [rtmap].
  destruct (H p i) as (x' & Hx' & Hc'); [rewrite rnodes_node; now left|exact Hi|].
  econstructor; [exact Hx'|rewrite Hc', Hc; symmetry; apply rroots_map|].
  rewrite Forall_map. rewrite Forall_forall in *. intros t Hin. apply IH; auto.
  intros q x Hq. apply H. rewrite rnodes_node. right. apply in_flat_map. eauto.
Qed.

(** ** Lists *)
Lemma sorted_same {A} (R : A -> A -> Prop) : (forall a, ~ R a a) -> (forall a b, R a b -> ~ R b a) -> forall l l' : list A,
  StronglySorted R l -> StronglySorted R l' -> (forall x, In x l <-> In x l') -> l = l'.
Proof.
  intros Hirr Hasym. induction l as [|a l IH]; intros l' Hs Hs' H.
  - destruct l' as [|b l']; [reflexivity|]. destruct (proj2 (H b)). now left.
  - destruct l' as [|b l']; [destruct (proj1 (H a)); now left|].
    inversion Hs as [|? ? Hl Ha]; subst. inversion Hs' as [|? ? Hl' Hb]; subst. rewrite Forall_forall in Ha, Hb.
    assert (a = b).
    { destruct (proj1 (H a) (or_introl eq_refl)) as [->|H1]; [reflexivity|]. destruct (proj2 (H b) (or_introl eq_refl)) as [->|H2]; [reflexivity|].
      exfalso. eapply Hasym; [apply (Ha b H2)|apply (Hb a H1)]. }
    subst b. f_equal. apply IH; auto. intros x. split; intros Hx.
    + destruct (proj1 (H x) (or_intror Hx)) as [<-|H1]; [exfalso; exact (Hirr _ (Ha a Hx))|exact H1].
    + destruct (proj2 (H x) (or_intror Hx)) as [<-|H1]; [exfalso; exact (Hirr _ (Hb a Hx))|exact H1].
Qed.
Lemma enum_rel {A B} (R : A -> B -> Prop) l l' : Forall2 R l l' -> forall n,
  Forall2 (fun e e' => fst e = fst e' /\ R (snd e) (snd e')) (enum n l) (enum n l').
Proof. induction 1 as [|a b l l' Hab H IH]; intros n; [constructor|]. rewrite !enum_cons. constructor; [cbn; auto|apply IH]. Qed.
Lemma filter_rel {A B} (R : A -> B -> Prop) (P : A -> bool) (Q : B -> bool) l l' : (forall a b, R a b -> P a = Q b) ->
  Forall2 R l l' -> Forall2 R (filter P l) (filter Q l').
Proof.
  intros HPQ. induction 1 as [|a b l l' Hab H IH]; [constructor|]. cbn [filter]. rewrite <- (HPQ a b Hab). destruct (P a); [constructor|]; assumption.
Qed.
Lemma Forall2_nth2 {A B} (R : A -> B -> Prop) l l' k a b : Forall2 R l l' -> nth_error l k = Some a -> nth_error l' k = Some b -> R a b.
Proof.
  intros H. revert k. induction H as [|x y l l' Hxy H IH]; intros [|k] E E'; try discriminate; cbn in *; [congruence|eauto].
Qed.
Lemma Forall2_of_nth {A B} (R : A -> B -> Prop) : forall l l', length l = length l' ->
  (forall k a b, nth_error l k = Some a -> nth_error l' k = Some b -> R a b) -> Forall2 R l l'.
Proof.
  induction l as [|a l IH]; intros [|b l'] Hl H; try discriminate; [constructor|]. constructor; [exact (H 0 a b eq_refl eq_refl)|].
  apply IH; [now injection Hl|]. intros k. exact (H (S k)).
Qed.

(** ** Types *)
Lemma from_stored_type t : fromValueType (stored_type t) = fromValueType t.
Proof.
  unfold stored_type. destruct (existsb (N.eqb t) [TypeBinaryString; TypeProtectedString; TypeContent]) eqn:E; [|reflexivity].
  apply existsb_exists in E. destruct E as (u & Hu & E). apply N.eqb_eq in E. subst u.
  repeat (destruct Hu as [<-|Hu]; [reflexivity|]). destruct Hu.
Qed.
Lemma default_type t v : NewValue t = Some v -> rtype v = t.
Proof.
  unfold NewValue. intros H.
  assert (G : forallb (fun tv => (rtype (snd tv) =? fst tv)%N) valueGenerators = true) by reflexivity.
  revert H G. generalize valueGenerators as l. induction l as [|[k x] l IH]; [discriminate|]. cbn [assocN forallb fst snd]. intros H G. apply andb_prop in G as [G1 G2].
  destruct (k =? t)%N eqn:E; [|now apply IH]. assert (x = v) by congruence. subst x. apply N.eqb_eq in E, G1. congruence.
Qed.
Lemma keeps_plain v v' : keeps_stored v v' -> plain v -> plain v'.
Proof.
  unfold keeps_stored. intros H Hp. assert (Hw : plain (without_fields v)) by (destruct v as [| | | | | | | | | | | | | | | | | | | | | | | | | |[]| | | | | |]; exact Hp).
  destruct H; try exact I. exact Hw.
Qed.
Lemma carried_col phi ct v v' : is_col ct v -> carried phi v v' -> is_col ct v'.
Proof.
  intros Hc H. destruct H as [v v' Hp Hk| | |t|t v v' _ _|t v _].
  - destruct ct as [t|u]; [|destruct Hc as (ty & o & -> & _); contradiction]. destruct Hc as [Hc Hn]. split; [|exact Hn].
    unfold vt in *. now rewrite (keeps_type _ _ Hk), from_stored_type.
  - destruct ct as [t|u]; [exact Hc|]. destruct Hc as (ty & o' & [=] & _).
  - exact Hc.
  - destruct ct as [u|u]; [exact Hc|]. destruct Hc as (ty & o & [= <- <-] & Hf & Hn). do 2 eexists. split; [reflexivity|]. now rewrite from_stored_type.
  - destruct ct as [u|u]; [exact Hc|]. destruct Hc as (ty & o & [= <- <-] & Hf & Hn). do 2 eexists. split; [reflexivity|]. now rewrite from_stored_type.
  - destruct ct as [u|u]; [exact Hc|]. destruct Hc as (ty & o & [= <- <-] & Hf & Hn). do 2 eexists. split; [reflexivity|]. now rewrite from_stored_type.
Qed.
Lemma filled_col p fs ct w d : is_col ct w -> filled p fs w d -> is_col ct d.
Proof.
  intros Hc H. destruct H as [t o| | | |w d Hp _ Hd].
  - destruct ct as [u|u]; [exact Hc|]. destruct Hc as (ty & o' & [= <- <-] & Hf & Hn). do 2 eexists. split; [reflexivity|]. now rewrite from_stored_type.
  - destruct ct as [u|u]; [exact Hc|]. destruct Hc as (ty & o' & [=] & _).
  - destruct ct as [u|u]; [exact Hc|]. destruct Hc as (ty & o' & [=] & _).
  - destruct ct as [u|u]; [exact Hc|]. destruct Hc as (ty & o' & [=] & _).
  - apply default_type in Hd. destruct ct as [t|u]; [|destruct Hc as (ty & o & -> & _); contradiction]. destruct Hc as [Hc Hn]. split; [|exact Hn].
    unfold vt in *. now rewrite Hd, from_stored_type.
Qed.

(** ** Shared strings of the two trees *)
(** The second list has more copies of f. *)
Inductive more (f : bytes) : list bytes -> list bytes -> Prop :=
| more_nil : more f [] []
| more_same s l l' : more f l l' -> more f (s :: l) (s :: l')
| more_copy l l' : more f l l' -> more f l (f :: l').
Lemma more_app f a a' b b' : more f a a' -> more f b b' -> more f (a ++ b) (a' ++ b').
Proof. induction 1; intros Hb; cbn; [exact Hb|constructor; auto|apply more_copy; auto]. Qed.
Lemma more_refl f l : more f l l.
Proof. induction l; constructor; auto. Qed.
Lemma share_known ev s sh k : shared_index sh (ev_hash ev s) = Some k -> snd (share ev s sh) = sh.
Proof. unfold share. now intros ->. Qed.
Lemma index_app sh sh2 x k : shared_index sh x = Some k -> shared_index (sh ++ sh2) x = Some k.
Proof.
  revert k. induction sh as [|[y s] sh IH]; intros k; cbn; [discriminate|]. destruct (bytes_eqb y x); [auto|].
  destruct (shared_index sh x) as [j|]; cbn; [|discriminate]. intros [= <-]. now rewrite (IH j eq_refl).
Qed.
Lemma share_grows ev s sh : exists new, snd (share ev s sh) = sh ++ new.
Proof. unfold share. destruct (shared_index _ _); [exists []; now rewrite app_nil_r|eexists; reflexivity]. Qed.
Lemma share_all_grows ev l : forall sh, exists new, share_all ev l sh = sh ++ new.
Proof.
  induction l as [|s l IH]; intros sh; [exists []; now rewrite app_nil_r|]. cbn [share_all]. destruct (share_grows ev s sh) as [n ->].
  destruct (IH (sh ++ n)) as [n' ->]. exists (n ++ n'). now rewrite app_assoc.
Qed.
Lemma more_known ev f l l' : more f l l' -> forall sh k, shared_index sh (ev_hash ev f) = Some k -> share_all ev l' sh = share_all ev l sh.
Proof.
  induction 1 as [|s l l' H IH|l l' H IH]; intros sh k Hk; cbn [share_all]; [reflexivity| |].
  - destruct (share_grows ev s sh) as [n E]. rewrite E. eapply IH. eapply index_app. exact Hk.
  - rewrite (share_known ev f sh k Hk). eauto.
Qed.
Lemma more_same_shares ev f l l' : more f l l' -> l <> [] -> hd [] l = f -> share_all ev l' [] = share_all ev l [].
Proof.
  intros H Hl Hf. destruct l as [|s l]; [contradiction|]. cbn in Hf. subst s.
  assert (Hn : shared_index (snd (share ev f [])) (ev_hash ev f) = Some 0).
  { unfold share. cbn. destruct (beqb_spec (ev_hash ev f) (ev_hash ev f)); [reflexivity|congruence]. }
  inversion H as [|s a a' Ha|a a' Ha]; subst; cbn [share_all].
  - eapply more_known; eauto.
  - rewrite (more_known ev f _ _ Ha _ 0 Hn). cbn [share_all]. now rewrite (share_known ev f _ 0 Hn).
Qed.

(** A column as it was stored. *)
Definition stored_echunk (e : entry) : chunk := Chunk true (PProp (Z.of_nat (e_id e)) (e_name e) (Some (stored_array (e_arr e)))).

Section Again.
  Variables (ev ev' : env) (place : bool) (h : heap) (r : root) (ts : list rtree) (xs : list inst).
  Let nodes := fnodes ts.
  Hypothesis Hev : orders_ok ev.
  Hypothesis Hev' : orders_ok ev'.
  Hypothesis Hhash : forall s, ev_hash ev' s = ev_hash ev s.
  Hypothesis Hforest : forest_at h ts.
  Hypothesis Hroot : r_instances r = map rroot ts.
  Hypothesis Hst : storable h nodes.
  Hypothesis Hcol : no_collision (ev_hash ev) h nodes.
  Hypothesis Hholds : holds h nodes xs.
  Variables (m : list (bytes * bytes)) (sh : shareds) (cl : list bytes) (entries : list entry) (ws : list cwarn).
  Hypothesis Hpi : pieces_in ev place r ts xs (shared_strings h nodes) m sh cl entries ws.
  Hypothesis Hp : pieces ev place h r ts xs m sh cl entries ws.
  Variables (q2m : quat) (f : fmodel).
  Let chunks := shape_chunks place ts xs m sh cl entries.
  Hypothesis Hcc : fm_classCount f = N.of_nat (length cl).
  Hypothesis Hic : fm_instCount f = N.of_nat (length nodes).
  Hypothesis Hchunks : map ch_payload (fm_chunks f) = map ch_payload (map stored_chunk chunks).
  Hypothesis Hgroups : fm_groups f = grow_all [] 0 chunks.
  Variables (lk : look) (h' : heap) (mt : list (bytes * bytes)) (xs' : list inst).
  Hypothesis Hlk : lookup_ok lk (mids (order xs cl)).
  Let phi := RbxlCodecImage.phi ts lk.
  Let ts' := map (rtmap phi) ts.
  Let nodes' := fnodes ts'.
  Let r' := Root (map phi (r_instances r)) mt.
  Hypothesis Him : image place h nodes phi h'.
  Hypothesis Hex : exact_props ts xs sh cl entries q2m lk h'.
  Hypothesis Hholds' : holds h' (map phi nodes) xs'.
  Hypothesis Hmeta : Permutation (r_metadata r) mt.

  Let Hcl : classes_of xs cl := pc_classes _ _ _ _ _ _ _ _ _ _ _ Hp.
  Lemma nodes_map : nodes' = map phi nodes.
  Proof. apply fnodes_map. Qed.
  Lemma phi_zero : phi 0 = 0.
  Proof.
    apply (phi_out ts xs cl lk Hlk). intros H. exact (nodes_nz h ts Hforest 0 H eq_refl).
  Qed.
  Lemma forest' : forest_at h' ts'.
  Proof.
    destruct Hforest as [H1 H2]. split.
    - unfold ts'. rewrite Forall_map. rewrite Forall_forall in *. intros t Ht. eapply tree_map; [now apply H1|].
      intros p x Hp0 Hx. destruct (im_inst _ _ _ _ _ Him) as (fs & _ & Hi).
      assert (Hn : In p nodes) by (apply in_flat_map; eauto). destruct (Hi p x Hn Hx) as (x' & Hx' & Hii).
      exists x'. split; [exact Hx'|]. apply (ii_children _ _ _ _ _ _ _ Hii).
    - change (fnodes ts') with nodes'. rewrite nodes_map. unfold nodes in *.
      assert (Hinj : forall p q, In p (fnodes ts) -> In q (fnodes ts) -> phi p = phi q -> p = q) by apply (im_inj _ _ _ _ _ Him).
      clear -H2 Hinj. induction H2 as [|p l Hp Hl IH]; cbn [map]; [constructor|]. constructor.
      + intros Hin. apply in_map_iff in Hin. destruct Hin as (q & E & Hq). apply Hp.
        assert (q = p) by (apply Hinj; [now right|now left|exact E]). congruence.
      + apply IH. intros; apply Hinj; auto; now right.
  Qed.
  Lemma root' : r_instances r' = map rroot ts'.
  Proof. unfold r', ts'. cbn [r_instances]. rewrite rroots_map. congruence. Qed.
  Lemma count' : length nodes' = length nodes.
  Proof. rewrite nodes_map. apply map_length. Qed.
  Lemma holds' : holds h' nodes' xs'.
  Proof. now rewrite nodes_map. Qed.
  Lemma lengths : length xs' = length xs.
  Proof. rewrite (holds_length _ _ _ Hholds'), (holds_length _ _ _ Hholds). apply map_length. Qed.
  (** Instance by instance. *)
  Lemma rows k x x' : nth_error xs k = Some x -> nth_error xs' k = Some x' ->
    i_class x' = i_class x /\ i_service x' = place && i_service x /\
    forall name v, mfind (i_props x') name = Some v <-> exists j a c mm,
      In (j, name, a) entries /\ nth_error cl j = Some c /\ nth_error (mem xs c) mm = Some (k, x) /\ dval q2m lk (shared sh) a mm = OK v.
  Proof.
    intros Hx Hx'. destruct (holds_nth _ _ _ _ _ Hholds Hx) as (p & Hpk & Hg). destruct (holds_nth _ _ _ _ _ Hholds' Hx') as (p' & Hpk' & Hg').
    assert (p' = phi p) by (rewrite nth_error_map, Hpk in Hpk'; cbn in Hpk'; congruence). subst p'.
    destruct (im_inst _ _ _ _ _ Him) as (fs & _ & Hi). destruct (Hi p x (nth_error_In _ _ Hpk) Hg) as (y & Hy & Hii).
    assert (y = x') by congruence. subst y. split; [apply (ii_class _ _ _ _ _ _ _ Hii)|]. split; [apply (ii_service _ _ _ _ _ _ _ Hii)|].
    destruct (Hex k p x Hpk Hx) as (y & Hy' & Hiff). fold phi in Hy'. assert (y = x') by congruence. subst y. exact Hiff.
  Qed.
  Lemma rows_rel : Forall2 (fun x x' => i_class x' = i_class x /\ i_service x' = place && i_service x) xs xs'.
  Proof. apply Forall2_of_nth; [symmetry; exact lengths|]. intros k x x' H1 H2. destruct (rows k x x' H1 H2) as (A & B & _). auto. Qed.
  Lemma mem_rel c : Forall2 (fun e e' => fst e = fst e' /\ i_class (snd e') = i_class (snd e) /\ i_service (snd e') = place && i_service (snd e)) (mem xs c) (mem xs' c).
  Proof.
    unfold mem. apply filter_rel; [|apply (enum_rel _ _ _ rows_rel 0)]. intros [k x] [k' x'] (_ & E & _). unfold in_class. cbn [snd] in *. now rewrite E.
  Qed.
  Lemma mem_pair c mm k x : nth_error (mem xs c) mm = Some (k, x) ->
    exists x', nth_error (mem xs' c) mm = Some (k, x') /\ nth_error xs k = Some x /\ nth_error xs' k = Some x' /\ i_class x = c.
  Proof.
    intros H. destruct (Forall2_nth _ _ _ _ _ (mem_rel c) H) as ([k' x'] & H' & E & _). cbn in E. subst k'. exists x'. split; [exact H'|].
    apply nth_error_In in H, H'. apply mem_In in H, H'. tauto.
  Qed.
  Lemma mem_pair_back c mm k x' : nth_error (mem xs' c) mm = Some (k, x') -> exists x, nth_error (mem xs c) mm = Some (k, x).
  Proof.
    intros H. assert (Hl : mm < length (mem xs c)).
    { rewrite (Forall2_len _ _ _ (mem_rel c)). apply nth_error_Some. congruence. }
    destruct (nth_error (mem xs c) mm) as [[k0 x]|] eqn:E; [|apply nth_error_Some in Hl; contradiction].
    destruct (mem_pair c mm k0 x E) as (x2 & E2 & _). assert (k0 = k) by congruence. subst. eauto.
  Qed.
  Lemma classes' : classes_of xs' cl.
  Proof.
    destruct Hcl as [H1 H2]. split; [exact H1|]. intros c. rewrite H2. split; intros (x & Hx & <-).
    - apply In_nth_error in Hx. destruct Hx as [k Hk]. destruct (Forall2_nth _ _ _ _ _ rows_rel Hk) as (x' & Hk' & E & _).
      exists x'. split; [eapply nth_error_In; eauto|exact E].
    - apply In_nth_error in Hx. destruct Hx as [k Hk]. assert (Hl : k < length xs) by (rewrite <- lengths; apply nth_error_Some; congruence).
      destruct (nth_error xs k) as [y|] eqn:Ey; [|apply nth_error_Some in Hl; contradiction]. exists y. split; [eapply nth_error_In; eauto|].
      destruct (rows k y x Ey Hk) as (E & _). congruence.
  Qed.
  (** Column by column. *)
  Definition first := phi (hd 0 nodes).
  Lemma value' j name a c mm k x x' : In (j, name, a) entries -> nth_error cl j = Some c -> nth_error (mem xs c) mm = Some (k, x) ->
    nth_error xs' k = Some x' -> exists v', mfind (i_props x') name = Some v' /\ dval q2m lk (shared sh) a mm = OK v' /\
      (forall v, mfind (i_props x) name = Some v -> carried phi v v') /\
      (mfind (i_props x) name = None -> forall w, In w (prop_values (members xs c) name) -> filled first (fstr sh) w v').
  Proof.
    intros Hin Hj Hm Hx'. destruct (entry_value ev place h r ts xs Hforest Hst Hholds m sh cl entries ws Hp q2m f Hcc Hic Hchunks Hgroups
      lk j name a c mm k x Hin Hj Hm) as (v' & Hv & H1 & H2).
    exists v'. destruct (mem_pair c mm k x Hm) as (y & _ & Hk & Hy & _). destruct (rows k x x' Hk Hx') as (_ & _ & Hiff).
    split; [apply Hiff; exists j, a, c, mm; auto|]. split; [exact Hv|]. split; assumption.
  Qed.
  Lemma value_from k x' name v' : nth_error xs' k = Some x' -> mfind (i_props x') name = Some v' ->
    exists j a c mm x, In (j, name, a) entries /\ nth_error cl j = Some c /\ nth_error (mem xs c) mm = Some (k, x) /\ i_class x' = c /\
      dval q2m lk (shared sh) a mm = OK v' /\
      (forall v, mfind (i_props x) name = Some v -> carried phi v v') /\
      (mfind (i_props x) name = None -> forall w, In w (prop_values (members xs c) name) -> filled first (fstr sh) w v').
  Proof.
    intros Hx' Hf. assert (Hl : k < length xs) by (rewrite <- lengths; apply nth_error_Some; congruence).
    destruct (nth_error xs k) as [x|] eqn:Ex; [|apply nth_error_Some in Hl; contradiction].
    destruct (rows k x x' Ex Hx') as (Ecl & _ & Hiff). destruct (proj1 (Hiff name v') Hf) as (j & a & c & mm & H1 & H2 & H3 & H4).
    exists j, a, c, mm, x. destruct (value' j name a c mm k x x' H1 H2 H3 Hx') as (v2 & Hv2 & Hd & Hc & Hfl).
    assert (v2 = v') by congruence. subst v2. destruct (mem_pair c mm k x H3) as (_ & _ & _ & _ & Ec). repeat (split; [assumption|]).
    split; [congruence|]. repeat (split; [assumption|]). assumption.
  Qed.
  Lemma class_id j j' c : nth_error cl j = Some c -> nth_error cl j' = Some c -> j = j'.
  Proof.
    intros H H'. pose proof (classes_NoDup xs cl Hcl) as Hn. eapply NoDup_nth_error; [exact Hn|apply nth_error_Some; congruence|congruence].
  Qed.
  Lemma col_values j name a c ct : In (j, name, a) entries -> nth_error cl j = Some c -> kept_col place (members xs c) name ct ->
    forall mm k x x', nth_error (mem xs c) mm = Some (k, x) -> nth_error xs' k = Some x' -> exists v', mfind (i_props x') name = Some v' /\ is_col ct v'.
  Proof.
    intros Hin Hj (Hne & Hall & _) mm k x x' Hm Hx'. destruct (value' j name a c mm k x x' Hin Hj Hm Hx') as (v' & Hv & _ & Hc & Hfl).
    exists v'. split; [exact Hv|]. rewrite Forall_forall in Hall. destruct (mfind (i_props x) name) as [v|] eqn:Ef.
    - eapply carried_col; [|now apply Hc]. apply Hall. apply prop_values_In. exists x. split; [|exact Ef].
      unfold members. apply in_map_iff. exists (k, x). split; [reflexivity|eapply nth_error_In; eauto].
    - destruct (prop_values (members xs c) name) as [|w pv]; [contradiction|]. eapply filled_col; [apply Hall; now left|]. apply (Hfl eq_refl). now left.
  Qed.
  Lemma members_nth c mm x : nth_error (members xs c) mm = Some x -> exists k, nth_error (mem xs c) mm = Some (k, x).
  Proof. unfold members. rewrite nth_error_map. destruct (nth_error (mem xs c) mm) as [[k y]|]; [|discriminate]. cbn. intros [= <-]. eauto. Qed.
  Lemma members_nth' c mm x : nth_error (members xs' c) mm = Some x -> exists k, nth_error (mem xs' c) mm = Some (k, x).
  Proof. unfold members. rewrite nth_error_map. destruct (nth_error (mem xs' c) mm) as [[k y]|]; [|discriminate]. cbn. intros [= <-]. eauto. Qed.
  Lemma col_from c name v' : In v' (prop_values (members xs' c) name) ->
    exists j a ct, In (j, name, a) entries /\ nth_error cl j = Some c /\ kept_col place (members xs c) name ct /\ is_col ct v'.
  Proof.
    intros H. apply prop_values_In in H. destruct H as (x' & Hx' & Hf). apply In_nth_error in Hx'. destruct Hx' as [mm Hmm].
    destruct (members_nth' c mm x' Hmm) as [k Hk]. assert (Hi : nth_error xs' k = Some x' /\ i_class x' = c) by (apply mem_In; eapply nth_error_In; eauto).
    destruct Hi as [Hxk Hc]. destruct (value_from k x' name v' Hxk Hf) as (j & a & c' & mm' & x & H1 & H2 & H3 & H4 & _).
    assert (E : c' = c) by congruence. clear H4 Hc. subst c'. destruct (pc_entry _ _ _ _ _ _ _ _ _ _ _ Hp _ _ _ H1) as (c' & ct & Hj & Hkc & _).
    assert (c' = c) by congruence. subst c'. destruct (col_values j name a c ct H1 H2 Hkc mm' k x x' H3 Hxk) as (v2 & Hv2 & Hcol2).
    exists j, a, ct. repeat (split; [assumption|]). congruence.
  Qed.
  Lemma kept' c name ct : kept_col place (members xs c) name ct -> kept_col place (members xs' c) name ct.
  Proof.
    intros Hk. assert (Hk0 := Hk). destruct Hk0 as (Hne & Hall & Hpl).
    assert (Hw : exists w x, In x (members xs c) /\ mfind (i_props x) name = Some w).
    { destruct (prop_values (members xs c) name) as [|w pv] eqn:E; [contradiction|]. exists w. apply prop_values_In. rewrite E. now left. }
    destruct Hw as (w & x & Hx & Hf). assert (Hc : In c cl).
    { apply (proj2 Hcl). apply members_In in Hx. exists x. exact Hx. }
    apply In_nth_error in Hc. destruct Hc as [j Hj]. destruct (pc_kept _ _ _ _ _ _ _ _ _ _ _ Hp _ _ _ _ Hj Hk) as [a Ha].
    split; [|split; [|exact Hpl]].
    - apply In_nth_error in Hx. destruct Hx as [mm Hmm]. destruct (members_nth c mm x Hmm) as [k Hkx].
      destruct (mem_pair c mm k x Hkx) as (x' & Hm' & _ & Hx' & _). destruct (col_values j name a c ct Ha Hj Hk mm k x x' Hkx Hx') as (v' & Hv' & _).
      intros E. assert (Hin : In v' (prop_values (members xs' c) name)).
      { apply prop_values_In. exists x'. split; [|exact Hv']. unfold members. apply in_map_iff. exists (k, x'). split; [reflexivity|eapply nth_error_In; eauto]. }
      rewrite E in Hin. destruct Hin.
    - apply Forall_forall. intros v' Hv'. destruct (col_from c name v' Hv') as (j' & a' & ct' & _ & _ & Hk' & Hc'). now rewrite (kept_col_fun _ _ _ _ _ Hk Hk').
  Qed.
  Lemma kept_back c name ct : kept_col place (members xs' c) name ct -> kept_col place (members xs c) name ct.
  Proof.
    intros Hk. destruct (prop_values (members xs' c) name) as [|v' pv] eqn:E; [destruct Hk as [Hk _]; contradiction|].
    destruct (col_from c name v') as (j & a & ct' & _ & _ & Hk' & _); [rewrite E; now left|].
    rewrite (kept_col_fun _ _ _ _ _ Hk (kept' _ _ _ Hk')). exact Hk'.
  Qed.
  Lemma opts' c name : opts_agree (prop_values (map snd (mem xs' c)) name).
  Proof.
    fold (members xs' c). destruct (prop_values (members xs' c) name) as [|v0 pv] eqn:E.
    - exists tString. split; [discriminate|]. intros ty o [].
    - destruct (col_from c name v0) as (j & a & ct & _ & _ & Hk & _); [rewrite E; now left|].
      assert (Hall : forall v, In v (v0 :: pv) -> is_col ct v).
      { intros v Hv. rewrite <- E in Hv. destruct (col_from c name v Hv) as (j' & a' & ct' & _ & _ & Hk' & Hc'). now rewrite (kept_col_fun _ _ _ _ _ Hk Hk'). }
      destruct ct as [t|u].
      + exists tString. split; [discriminate|]. intros ty o Hin. destruct (Hall _ Hin) as [Hv Hn]. cbn in Hv. congruence.
      + destruct (Hall v0 (or_introl eq_refl)) as (_ & _ & _ & _ & Hn). exists u. split; [exact Hn|]. intros ty o Hin.
        destruct (Hall _ Hin) as (ty' & o' & [= <- <-] & Hu & _). exact Hu.
  Qed.
  Lemma insts' : Forall (inst_ok (shared_strings h nodes)) xs'.
  Proof.
    apply Forall_forall. intros x' Hx'. apply In_nth_error in Hx'. destruct Hx' as [k Hk].
    assert (Hsome : forall name v', mfind (i_props x') name = Some v' -> exists c ct x, kept_col place (members xs c) name ct /\ In x (members xs c) /\
      (forall v, mfind (i_props x) name = Some v -> carried phi v v') /\
      (mfind (i_props x) name = None -> forall w, In w (prop_values (members xs c) name) -> filled first (fstr sh) w v')).
    { intros name v' Hf. destruct (value_from k x' name v' Hk Hf) as (j & a & c & mm & x & H1 & H2 & H3 & H4 & _ & H5 & H6).
      destruct (pc_entry _ _ _ _ _ _ _ _ _ _ _ Hp _ _ _ H1) as (c' & ct & Hj & Hkc & _). assert (c' = c) by congruence. subst c'.
      exists c, ct, x. split; [exact Hkc|]. split; [|split; assumption]. unfold members. apply in_map_iff. exists (k, x). split; [reflexivity|eapply nth_error_In; eauto]. }
    split.
    - intros name s Hf. destruct (Hsome _ _ Hf) as (c & ct & x & Hkc & Hx & H5 & H6). pose proof (proj1 (members_inst h ts xs Hholds c x) Hx) as [Hxi _].
      destruct (mfind (i_props x) name) as [v|] eqn:Ef.
      + specialize (H5 v eq_refl). assert (v = RSharedString s); [|subst v; eapply shared_strings_In; eauto].
        inversion H5; subst; [|reflexivity]. match goal with K : keeps_stored ?a _, P : plain ?a |- _ => destruct (keeps_plain _ _ K P) end.
      + destruct (prop_values (members xs c) name) as [|w pv] eqn:E; [destruct Hkc as [Hkc _]; contradiction|].
        specialize (H6 eq_refl w (or_introl eq_refl)). assert (Hw : exists s0, w = RSharedString s0 /\ s = fstr sh).
        { inversion H6 as [| |s0| |w1 d Hpl Hnt Hd]; subst; [eauto|]. exfalso. apply default_type in Hd. destruct w; try contradiction; discriminate Hd. }
        destruct Hw as (s0 & -> & ->). apply (fstr_in ev place h r ts xs Hst Hholds m sh cl entries ws Hp f Hchunks Hgroups c name s0).
        eapply written_kept; [exact Hholds|exact Hkc|]. rewrite E. now left.
    - intros name ty v Hf. destruct (Hsome _ _ Hf) as (c & ct & x & Hkc & Hx & H5 & H6). pose proof (proj1 (members_inst h ts xs Hholds c x) Hx) as [Hxi _].
      destruct (mfind (i_props x) name) as [v0|] eqn:Ef.
      + specialize (H5 v0 eq_refl). inversion H5 as [v1 v2 Hpl Hks| | | |t v1 v2 Hpl Hks|]; subst.
        * match goal with K : keeps_stored ?a _, P : plain ?a |- _ => destruct (keeps_plain _ _ K P) end.
        * destruct (st_props _ _ Hst x name _ Hxi Ef) as [_ Hw]. cbn in Hw. destruct Hw as [-> _]. symmetry. now apply keeps_type.
      + destruct (prop_values (members xs c) name) as [|w pv] eqn:E; [destruct Hkc as [Hkc _]; contradiction|].
        specialize (H6 eq_refl w (or_introl eq_refl)). inversion H6 as [| | | |w1 d Hpl Hnt Hd]; subst.
        exfalso. assert (Hd' := Hd). apply default_type in Hd. destruct w; try contradiction; discriminate Hd'.
  Qed.

  (** Reference numbers. *)
  Lemma phi_nz p : In p nodes -> phi p <> 0.
  Proof.
    intros H. apply In_nth_error in H. destruct H as [k Hk]. destruct (holds_nth_l _ _ _ _ _ Hholds Hk) as (x & Hx & _).
    destruct (phi_nth ev place h r ts xs Hforest Hst Hholds m sh cl entries ws Hp f Hcc Hic lk Hlk k p x Hk Hx) as (q & _ & E).
    change (phi p = S q) in E. rewrite E. discriminate.
  Qed.
  Lemma position_map l p : (forall q, In q l -> phi q = phi p -> q = p) -> position (map phi l) (phi p) = position l p.
  Proof.
    induction l as [|q l IH]; intros H; [reflexivity|]. cbn [map position].
    rewrite IH by (intros; apply H; auto; now right). destruct (Nat.eqb_spec q p) as [->|Hq]; [now rewrite Nat.eqb_refl|].
    destruct (Nat.eqb_spec (phi q) (phi p)) as [E|]; [|reflexivity]. apply H in E; [contradiction|now left].
  Qed.
  Lemma num' p : num nodes' (phi p) = num nodes p.
  Proof.
    rewrite nodes_map. destruct (in_dec Nat.eq_dec p nodes) as [Hin|Hin].
    - unfold num, refs_or_nil, refs_get. destruct (Nat.eqb_spec p 0) as [->|_]; [exfalso; exact (nodes_nz h ts Hforest 0 Hin eq_refl)|].
      destruct (Nat.eqb_spec (phi p) 0) as [E|_]; [exfalso; exact (phi_nz p Hin E)|]. rewrite position_map; [reflexivity|].
      intros q Hq E. exact (im_inj _ _ _ _ _ Him q p Hq Hin E).
    - assert (E : phi p = 0) by (apply (phi_out ts xs cl lk Hlk); exact Hin). rewrite E. symmetry. exact (num_out ts p Hin).
  Qed.
  (** ** The second encoding *)
  Variables (m' : list (bytes * bytes)) (sh' : shareds) (cl' : list bytes) (entries' : list entry) (ws' : list cwarn).
  Hypothesis Hpi' : pieces_in ev' place r' ts' xs' (shared_strings h nodes) m' sh' cl' entries' ws'.
  Lemma same_classes : cl' = cl.
  Proof.
    destruct (pi_classes _ _ _ _ _ _ _ _ _ _ _ Hpi') as [H1 H2]. destruct classes' as [H3 H4].
    eapply sorted_same; [| |exact H1|exact H3|].
    - intros a. unfold lt_key. now rewrite ltb_irrefl.
    - intros a b. unfold lt_key. intros Ha Hb. pose proof (ltb_trans _ _ _ Ha Hb) as Hc. now rewrite ltb_irrefl in Hc.
    - intros c. now rewrite H2, H4.
  Qed.

  Definition key_lt (a b : nat * bytes) : Prop := fst a < fst b \/ fst a = fst b /\ bytes_ltb (snd a) (snd b) = true.
  Lemma keys_sorted es : StronglySorted entry_lt es -> StronglySorted key_lt (map ekey es).
  Proof.
    induction 1 as [|e es Hs IH Ha]; cbn [map]; constructor; [exact IH|]. rewrite Forall_map. eapply Forall_impl; [|exact Ha]. intros a H. exact H.
  Qed.
  Lemma key_In k es : In k (map ekey es) <-> exists a, In (fst k, snd k, a) es.
  Proof.
    rewrite in_map_iff. split.
    - intros ([[j name] a] & <- & H). exists a. exact H.
    - intros (a & H). exists (fst k, snd k, a). split; [now destruct k|exact H].
  Qed.
  Lemma same_keys : map ekey entries' = map ekey entries.
  Proof.
    apply (sorted_same key_lt).
    - intros a [H|[_ H]]; [lia|]. now rewrite ltb_irrefl in H.
    - intros a b [H|[H1 H2]] [H'|[H1' H2']]; try lia. apply ltb_asym in H2. congruence.
    - apply keys_sorted, (pi_sorted _ _ _ _ _ _ _ _ _ _ _ Hpi').
    - apply keys_sorted, (pi_sorted _ _ _ _ _ _ _ _ _ _ _ Hpi).
    - intros [j name]. rewrite !key_In. cbn [fst snd]. split; intros [a Ha].
      + destruct (pi_entry _ _ _ _ _ _ _ _ _ _ _ Hpi' _ _ _ Ha) as (c & ct & Hj & Hk & _). rewrite same_classes in Hj.
        eapply (pi_kept _ _ _ _ _ _ _ _ _ _ _ Hpi); [exact Hj|]. eapply kept_back; eauto.
      + destruct (pi_entry _ _ _ _ _ _ _ _ _ _ _ Hpi _ _ _ Ha) as (c & ct & Hj & Hk & _). rewrite <- same_classes in Hj.
        eapply (pi_kept _ _ _ _ _ _ _ _ _ _ _ Hpi'); [exact Hj|]. eapply kept'; eauto.
  Qed.
  (** Strings of a column. *)
  Lemma row_more j name a c mm k x x' : In (j, name, a) entries -> nth_error cl j = Some c -> nth_error (mem xs c) mm = Some (k, x) ->
    nth_error xs' k = Some x' -> more (fstr sh) (row_strings name x) (row_strings name x').
  Proof.
    intros Hin Hj Hm Hx'. destruct (value' j name a c mm k x x' Hin Hj Hm Hx') as (v' & Hv & _ & Hc & Hfl).
    unfold row_strings. rewrite Hv. destruct (mfind (i_props x) name) as [v|] eqn:E.
    - specialize (Hc v eq_refl). replace (match v' with RSharedString s => [s] | _ => [] end) with (match v with RSharedString s => [s] | _ => [] end);
        [apply more_refl|]. inversion Hc as [v1 v2 Hpl Hks| | | | |]; subst; try reflexivity.
      pose proof (keeps_plain _ _ Hks Hpl) as Hpl'. destruct v, v'; try contradiction; reflexivity.
    - destruct (pc_entry _ _ _ _ _ _ _ _ _ _ _ Hp _ _ _ Hin) as (c' & ct & Hj' & (Hne & _) & _). assert (Ec : c' = c) by congruence. subst c'.
      destruct (prop_values (members xs c) name) as [|w pv]; [contradiction|]. specialize (Hfl eq_refl w (or_introl eq_refl)).
      inversion Hfl as [| | | |w1 d Hpl Hnt Hd]; subst; try constructor; try constructor.
      apply default_type in Hd. destruct w; try contradiction; destruct v'; try discriminate Hd; constructor.
  Qed.
  Lemma flat_more (g g' : inst -> list bytes) F l l' : Forall2 (fun x x' => more F (g x) (g' x')) l l' -> more F (flat_map g l) (flat_map g' l').
  Proof. induction 1; cbn [flat_map]; [constructor|now apply more_app]. Qed.
  Lemma members_rel c (P : inst -> inst -> Prop) :
    (forall mm k x x', nth_error (mem xs c) mm = Some (k, x) -> nth_error xs' k = Some x' -> P x x') -> Forall2 P (members xs c) (members xs' c).
  Proof.
    intros H. apply Forall2_of_nth.
    - unfold members. rewrite !map_length. exact (Forall2_len _ _ _ (mem_rel c)).
    - intros mm x x' Hm Hm'. destruct (members_nth c mm x Hm) as [k Hk]. destruct (members_nth' c mm x' Hm') as [k' Hk'].
      destruct (mem_pair c mm k x Hk) as (y & Hy & _ & Hxk & _). assert (E : Some (k', x') = Some (k, y)) by congruence.
      assert (y = x') by congruence. subst y. eapply H; eauto.
  Qed.
  Lemma col_more j name a c : In (j, name, a) entries -> nth_error cl j = Some c ->
    more (fstr sh) (col_strings name (members xs c)) (col_strings name (members xs' c)).
  Proof.
    intros Hin Hj. apply flat_more, members_rel. intros mm k x x' Hm Hx'. eapply row_more; eauto.
  Qed.
  Definition key_strings (l : list inst) (k : nat * bytes) : list bytes := col_strings (snd k) (members l (nth (fst k) cl [])).
  Lemma keys_more : more (fstr sh) (flat_map (key_strings xs) (map ekey entries)) (flat_map (key_strings xs') (map ekey entries)).
  Proof.
    assert (G : forall es, incl es entries -> more (fstr sh) (flat_map (key_strings xs) (map ekey es)) (flat_map (key_strings xs') (map ekey es))).
    { induction es as [|[[j name] a] es IH]; intros Hi; [constructor|]. cbn [map flat_map]. apply more_app; [|apply IH; intros e He; apply Hi; now right].
      assert (Hin : In (j, name, a) entries) by (apply Hi; now left). unfold key_strings, ekey, e_id, e_name. cbn [fst snd].
      destruct (pc_entry _ _ _ _ _ _ _ _ _ _ _ Hp _ _ _ Hin) as (c & ct & Hj & _). rewrite (nth_error_nth _ _ _ Hj). eapply col_more; eauto. }
    apply G. intros e He. exact He.
  Qed.
  Lemma entry_key_strings l es : flat_map (entry_strings l cl) es = flat_map (key_strings l) (map ekey es).
  Proof. induction es as [|e es IH]; [reflexivity|]. cbn [flat_map map]. now rewrite IH. Qed.
  Lemma share_all_hash l : forall s0, share_all ev' l s0 = share_all ev l s0.
  Proof.
    induction l as [|s l IH]; intros s0; [reflexivity|]. cbn [share_all]. unfold share. rewrite Hhash.
    destruct (shared_index s0 (ev_hash ev s)); cbn [snd]; apply IH.
  Qed.
  Lemma key_strings_In l k s : In s (key_strings l k) <-> In (RSharedString s) (prop_values (members l (nth (fst k) cl [])) (snd k)).
  Proof.
    unfold key_strings, col_strings. rewrite in_flat_map, prop_values_In. unfold row_strings. split; intros (x & Hx & H); exists x; (split; [exact Hx|]).
    - destruct (mfind (i_props x) (snd k)) as [[]|]; cbn in H; intuition congruence.
    - rewrite H. now left.
  Qed.
  Lemma strings_from s : In s (flat_map (key_strings xs') (map ekey entries)) -> flat_map (key_strings xs) (map ekey entries) <> [].
  Proof.
    intros H. apply in_flat_map in H. destruct H as ([j0 name] & _ & H). apply key_strings_In in H. cbn [fst snd] in H.
    apply prop_values_In in H. destruct H as (x' & Hx' & Hf).
    apply In_nth_error in Hx'. destruct Hx' as [mm0 Hmm]. destruct (members_nth' _ mm0 x' Hmm) as [k Hk]. apply nth_error_In in Hk. apply mem_In in Hk.
    destruct Hk as [Hk _]. destruct (value_from k x' name _ Hk Hf) as (j & a & c & mm & x & H1 & H2 & H3 & H4 & _ & H5 & H6).
    assert (Hs : exists s0, In (RSharedString s0) (prop_values (members xs c) name)).
    { destruct (mfind (i_props x) name) as [v|] eqn:Ef.
      - specialize (H5 v eq_refl). exists s. apply prop_values_In. exists x. split.
        + unfold members. apply in_map_iff. exists (k, x). split; [reflexivity|eapply nth_error_In; eauto].
        + rewrite Ef. f_equal. inversion H5 as [v1 v2 Hpl Hks| | | | |]; subst; [|reflexivity].
          match goal with K : keeps_stored ?a _, P : plain ?a |- _ => destruct (keeps_plain _ _ K P) end.
      - destruct (pc_entry _ _ _ _ _ _ _ _ _ _ _ Hp _ _ _ H1) as (c' & ct & Hj' & (Hne & _) & _). assert (Ec : c' = c) by congruence. clear H4. subst c'.
        destruct (prop_values (members xs c) name) as [|w pv] eqn:E; [contradiction|]. specialize (H6 eq_refl w (or_introl eq_refl)).
        inversion H6 as [| |s0| |w1 d Hpl Hnt Hd]; subst; [exists s0; now left|]. exfalso. apply default_type in Hd. destruct w; try contradiction; discriminate Hd. }
    destruct Hs as [s0 Hs]. assert (Hin : In s0 (flat_map (key_strings xs) (map ekey entries))).
    { apply in_flat_map. exists (j, name). split; [apply key_In; exists a; exact H1|]. apply key_strings_In. cbn [fst snd].
      now rewrite (nth_error_nth _ _ _ H2). }
    intros E. rewrite E in Hin. destruct Hin.
  Qed.
  Lemma same_shares : sh' = sh.
  Proof.
    pose proof (pi_order _ _ _ _ _ _ _ _ _ _ _ Hpi') as E'. pose proof (pi_order _ _ _ _ _ _ _ _ _ _ _ Hpi) as E.
    rewrite same_classes, entry_key_strings, same_keys, share_all_hash in E'. rewrite entry_key_strings in E. rewrite E', E.
    pose proof keys_more as Hm. pose proof strings_from as Hsf. revert Hm Hsf E.
    generalize (flat_map (key_strings xs) (map ekey entries)) as l, (flat_map (key_strings xs') (map ekey entries)) as l'. clear E'.
    intros l l' Hm Hsf E. destruct l as [|s l].
    - destruct l' as [|s' l']; [reflexivity|]. exfalso. apply (Hsf s'); [now left|reflexivity].
    - eapply more_same_shares; [exact Hm|discriminate|]. cbn [hd]. unfold fstr. rewrite E. cbn [share_all].
      unfold share. cbn [shared_index]. cbn [snd app]. destruct (share_all_grows ev l [(ev_hash ev s, s)]) as [new ->]. reflexivity.
  Qed.

  (** ** Arrays *)
  Lemma default_stored t d : newValue t = Some d -> t <> tCFrameQuat -> stored d = d.
  Proof. intros H Ht. destruct t; try discriminate; try congruence; injection H as <-; reflexivity. Qed.
  Lemma vt_not_quat v t : vt v = Some t -> t <> tCFrameQuat.
  Proof. intros H ->. exact (from_not_quat _ H). Qed.
  Lemma shared_index_unique k k' e : nth_error sh k = Some e -> nth_error sh k' = Some e -> k = k'.
  Proof.
    intros H H'. destruct (pi_shared _ _ _ _ _ _ _ _ _ _ _ Hpi) as [_ Hn]. eapply (NoDup_nth_error (map fst sh)).
    - exact Hn.
    - rewrite map_length. apply nth_error_Some. congruence.
    - rewrite !nth_error_map. congruence.
  Qed.
  Lemma tid_eq_dec (a b : tid) : {a = b} + {a <> b}.
  Proof. decide equality. Defined.
  (** One element of a column that is not optional. *)
  Lemma plain_elem t name a bs c j mm k x x' b b' :
    In (j, name, a) entries -> nth_error cl j = Some c -> kept_col place (members xs c) name (CPlain t) ->
    a = ARR t bs -> nth_error bs mm = Some b -> nth_error (mem xs c) mm = Some (k, x) -> nth_error xs' k = Some x' ->
    elem ev nodes t name sh x b -> elem ev' nodes' t name sh x' b' -> b' = stored b.
  Proof.
    intros Hin Hj Hk Ha Hb Hm Hx' He He'. destruct (value' j name a c mm k x x' Hin Hj Hm Hx') as (v' & Hv' & Hd & _ & _).
    destruct (col_values j name a c _ Hin Hj Hk mm k x x' Hm Hx') as (v2 & Hv2 & Hc'). assert (v2 = v') by congruence. subst v2. clear Hv2.
    destruct Hk as (Hne & Hall & _). rewrite Forall_forall in Hall.
    assert (Hown : forall v, mfind (i_props x) name = Some v -> is_col (CPlain t) v).
    { intros v Hv. apply Hall. apply prop_values_In. exists x. split; [|exact Hv]. unfold members. apply in_map_iff. exists (k, x). split; [reflexivity|eapply nth_error_In; eauto]. }
    destruct Hc' as [Hvt' Hno]. pose proof (vt_not_quat _ _ Hvt') as Hnq.
    assert (Hbt : vtype b = t) by (eapply elem_type; eauto).
    subst a. unfold dval in Hd. cbn [stored_array] in Hd.
    assert (Hnb : nth_error (map stored bs) mm = Some (stored b)) by (rewrite nth_error_map, Hb; reflexivity).
    destruct (tid_eq_dec t tReference) as [->|Hnr]; [|destruct (tid_eq_dec t tSharedString) as [->|Hns]].
    - cbn [dec_value] in Hd. rewrite Hnb in Hd. destruct b; try discriminate Hbt. cbn [stored] in *. injection Hd as <-.
      unfold elem in He'. rewrite Hv' in He'. rewrite He'. f_equal. change (num (fnodes ts')) with (num nodes').
      unfold elem in He. destruct (mfind (i_props x) name) as [v|] eqn:Ef.
      + specialize (Hown v eq_refl). destruct Hown as [Hvt _]. destruct v; cbn in Hvt; try discriminate Hvt.
        injection He as ->. apply num'.
      + injection He as <-. assert (Hn0 : nth_error nodes 0 = Some (hd 0 nodes)).
        { apply nth_error_In, mem_In in Hm. destruct Hm as [Hm _]. destruct (holds_nth _ _ _ _ _ Hholds Hm) as (p & Hpk & _).
          destruct nodes as [|q l]; [destruct k; discriminate|reflexivity]. }
        pose proof (num_nth h ts xs Hforest Hst Hholds cl f Hcc Hic 0 _ Hn0) as E. change (num nodes (hd 0 nodes) = 0%Z) in E.
        rewrite <- E at 1. change (num nodes' (phi (hd 0 nodes)) = 0%Z). rewrite num'. exact E.
    - cbn [dec_value] in Hd. rewrite Hnb in Hd. destruct b; try discriminate Hbt. cbn [stored] in *.
      assert (Hkk : exists i, n = N.of_nat i /\ i < length sh).
      { unfold elem in He. destruct (mfind (i_props x) name) as [v|] eqn:Ef.
        - specialize (Hown v eq_refl). destruct Hown as [Hvt _]. destruct v; cbn in Hvt; try discriminate Hvt.
          destruct He as (i & [= ->] & Hi). exists i. split; [reflexivity|]. apply nth_error_Some. congruence.
        - injection He as <-. exists 0. split; [reflexivity|]. 
          destruct (prop_values (members xs c) name) as [|w pv] eqn:E; [contradiction|]. 
          specialize (Hall w (or_introl eq_refl)). destruct Hall as [Hvt _]. destruct w; cbn in Hvt; try discriminate Hvt.
          destruct (pc_entry _ _ _ _ _ _ _ _ _ _ _ Hp _ _ _ Hin) as (c0 & ct0 & Hj0 & Hk0 & Hr). assert (c0 = c) by congruence. subst c0.
          assert (Hw : In (RSharedString s) (prop_values (members xs c) name)) by (rewrite E; now left).
          assert (ct0 = CPlain tSharedString).
          { destruct Hk0 as (_ & Hall0 & _). rewrite Forall_forall in Hall0. specialize (Hall0 _ Hw). destruct ct0 as [t0|u0]; [|destruct Hall0 as (? & ? & [=] & _)].
            destruct Hall0 as [H0 _]. cbn in H0. injection H0 as <-. reflexivity. }
          subst ct0. destruct Hr as (bs0 & _ & Hf2). apply prop_values_In in Hw. destruct Hw as (y & Hy & Hfy).
          apply In_nth_error in Hy. destruct Hy as [my Hy]. destruct (Forall2_nth _ _ _ _ _ Hf2 Hy) as (b0 & _ & Heb). unfold elem in Heb. rewrite Hfy in Heb.
          destruct Heb as (i & _ & Hi). destruct sh; [destruct i; discriminate|cbn; lia]. }
      destruct Hkk as (i & -> & Hi).
      assert (Hl : length (shared sh) = length sh) by apply map_length. rewrite Hl in Hd.
      destruct (N.ltb_spec (N.of_nat i) (N.of_nat (length sh))); [|lia]. rewrite Nat2N.id in Hd.
      destruct (nth_error sh i) as [[hk hs]|] eqn:Ei; [|apply nth_error_None in Ei; lia].
      assert (En : nth i (shared sh) ([], []) = (repeat x00 16, hs)).
      { apply nth_error_nth. unfold shared. rewrite nth_error_map, Ei. reflexivity. }
      rewrite En in Hd. cbn [snd] in Hd. injection Hd as <-.
      unfold elem in He'. rewrite Hv' in He'. destruct He' as (i' & -> & Hi'). f_equal. f_equal. rewrite Hhash in Hi'.
      eapply shared_index_unique; [exact Hi'|]. rewrite Ei. f_equal. f_equal.
      destruct (pi_shared _ _ _ _ _ _ _ _ _ _ _ Hpi) as [Hso _]. apply (Hso hk hs). eapply nth_error_In; eauto.
    - assert (Hd' : decodeValue q2m (stored b) = Some v').
      { unfold dec_value in Hd. destruct t; try congruence; rewrite Hnb in Hd; destruct (decodeValue q2m (stored b)); congruence. }
      assert (He2 : encodeValue v' = Some b').
      { unfold elem in He'. rewrite Hv' in He'. destruct v'; cbn in Hvt'; try congruence; exact He'. }
      unfold elem in He. destruct (mfind (i_props x) name) as [v|] eqn:Ef.
      + specialize (Hown v eq_refl). destruct Hown as [Hvt _].
        assert (He1 : encodeValue v = Some b) by (destruct v; cbn in Hvt; try congruence; exact He).
        pose proof (again_plain q2m v b v' He1 Hd'). congruence.
      + pose proof (again_default q2m t b v' He Hnq Hd'). congruence.
  Qed.

  Lemma opt_elem u name es c j mm k x x' e e' :
    In (j, name, AOPT (Some (ARR u (map fst es))) (map snd es)) entries -> nth_error cl j = Some c ->
    kept_col place (members xs c) name (COpt u) -> nth_error es mm = Some e -> nth_error (mem xs c) mm = Some (k, x) ->
    nth_error xs' k = Some x' -> elemo u name x e -> elemo u name x' e' -> e' = (stored (fst e), snd e).
  Proof.
    intros Hin Hj Hk Hb Hm Hx' He He'. destruct (value' j name _ c mm k x x' Hin Hj Hm Hx') as (v' & Hv' & Hd & _ & _).
    destruct (col_values j name _ c _ Hin Hj Hk mm k x x' Hm Hx') as (v2 & Hv2 & Hc'). assert (v2 = v') by congruence. subst v2. clear Hv2.
    destruct Hc' as (ty & o & -> & Hty & Hno). assert (Hnq : u <> tCFrameQuat) by (intros ->; exact (from_not_quat _ Hty)).
    unfold dval in Hd. cbn [stored_array dec_value] in Hd.
    assert (Hps : nth_error (map snd es) mm = Some (snd e)) by (rewrite nth_error_map, Hb; reflexivity). rewrite Hps in Hd.
    assert (Hvs : nth_error (map stored (map fst es)) mm = Some (stored (fst e))) by (rewrite !nth_error_map, Hb; reflexivity).
    assert (Hfalse : forall d, newValue u = Some d -> snd e = false -> e = (d, false) -> e' = (stored (fst e), snd e)).
    { intros d Hnd Hse ->. cbn [fst snd] in *. rewrite (default_stored u d Hnd Hnq). injection Hd as _ <-.
      unfold elemo in He'. rewrite Hv' in He'. destruct He' as (d' & Hd' & ->). congruence. }
    unfold elemo in He. destruct (mfind (i_props x) name) as [v|] eqn:Ef.
    2: { destruct He as (d & Hnd & ->). now apply (Hfalse d). }
    destruct v; try (destruct He as (dd & Hnd & ->); now apply (Hfalse dd)).
    match goal with He : match ?oo with Some _ => _ | None => _ end |- _ => destruct oo as [v|] end; [|destruct He as (dd & Hnd & ->); now apply (Hfalse dd)].
    destruct (encodeValue v) as [b|] eqn:Ev; [|destruct He as (dd & Hnd & ->); now apply (Hfalse dd)].
    subst e. cbn [fst snd] in *. clear Hfalse.
    unfold arr_get in Hd. rewrite Hvs in Hd. cbn [obind] in Hd. destruct (decodeValue q2m (stored b)) as [rv|] eqn:Ed; [|discriminate].
    injection Hd as _ <-. unfold elemo in He'. rewrite Hv' in He'. rewrite (again_plain q2m v b rv Ev Ed) in He'. exact He'.
  Qed.
  Lemma map_eq_nth {A B} (g : A -> B) : forall (l : list A) (l' : list B), length l = length l' ->
    (forall k a b, nth_error l k = Some a -> nth_error l' k = Some b -> b = g a) -> l' = map g l.
  Proof.
    induction l as [|a l IH]; intros [|b l'] Hl H; try discriminate; [reflexivity|]. cbn [map].
    rewrite <- (IH l'), (H 0 a b eq_refl eq_refl); [reflexivity|now injection Hl|]. intros k. exact (H (S k)).
  Qed.
  Lemma same_array j name a a' : In (j, name, a) entries -> In (j, name, a') entries' -> a' = stored_array a.
  Proof.
    intros Hin Hin'. destruct (pi_entry _ _ _ _ _ _ _ _ _ _ _ Hpi _ _ _ Hin) as (c & ct & Hj & Hk & Hr).
    destruct (pi_entry _ _ _ _ _ _ _ _ _ _ _ Hpi' _ _ _ Hin') as (c' & ct' & Hj' & Hk' & Hr').
    rewrite same_classes in Hj'. assert (c' = c) by congruence. subst c'.
    rewrite (kept_col_fun _ _ _ _ _ Hk' (kept' _ _ _ Hk)) in Hr'. rewrite same_shares in Hr'.
    assert (Hpair : forall mm x, nth_error (members xs c) mm = Some x -> exists k x', nth_error (mem xs c) mm = Some (k, x) /\
      nth_error xs' k = Some x' /\ nth_error (members xs' c) mm = Some x').
    { intros mm x Hx. destruct (members_nth c mm x Hx) as [k Hkx]. destruct (mem_pair c mm k x Hkx) as (x' & Hm' & _ & Hx' & _).
      exists k, x'. repeat (split; [assumption|]). unfold members. rewrite nth_error_map, Hm'. reflexivity. }
    assert (Hml : length (members xs c) = length (members xs' c)).
    { unfold members. rewrite !map_length. exact (Forall2_len _ _ _ (mem_rel c)). }
    destruct ct as [t|u]; cbn [col_result] in Hr, Hr'.
    - destruct Hr as (bs & -> & Hf2). destruct Hr' as (bs' & -> & Hf2'). cbn [stored_array]. f_equal.
      assert (Hl : length (members xs c) = length bs) by exact (Forall2_len _ _ _ Hf2).
      assert (Hl' : length (members xs' c) = length bs') by exact (Forall2_len _ _ _ Hf2').
      apply map_eq_nth; [congruence|]. intros mm b b' Hb Hb'.
      assert (Hmm : mm < length (members xs c)) by (rewrite Hl; apply nth_error_Some; congruence).
      destruct (nth_error (members xs c) mm) as [x|] eqn:Ex; [|apply nth_error_None in Ex; lia].
      destruct (Hpair mm x Ex) as (k & x' & H1 & H2 & H3).
      eapply (plain_elem t name); [exact Hin|exact Hj|exact Hk|reflexivity|exact Hb|exact H1|exact H2| |].
      + exact (Forall2_nth2 _ _ _ _ _ _ Hf2 Ex Hb).
      + exact (Forall2_nth2 _ _ _ _ _ _ Hf2' H3 Hb').
    - destruct Hr as (es & -> & Hf2). destruct Hr' as (es' & -> & Hf2'). cbn [stored_array].
      assert (Hl : length (members xs c) = length es) by exact (Forall2_len _ _ _ Hf2).
      assert (Hl' : length (members xs' c) = length es') by exact (Forall2_len _ _ _ Hf2').
      assert (E : es' = map (fun e => (stored (fst e), snd e)) es).
      { apply map_eq_nth; [congruence|]. intros mm b b' Hb Hb'.
        assert (Hmm : mm < length (members xs c)) by (rewrite Hl; apply nth_error_Some; congruence).
        destruct (nth_error (members xs c) mm) as [x|] eqn:Ex; [|apply nth_error_None in Ex; lia].
        destruct (Hpair mm x Ex) as (k & x' & H1 & H2 & H3).
        eapply (opt_elem u name es); [exact Hin|exact Hj|exact Hk|exact Hb|exact H1|exact H2| |].
        - exact (Forall2_nth2 _ _ _ _ _ _ Hf2 Ex Hb).
        - exact (Forall2_nth2 _ _ _ _ _ _ Hf2' H3 Hb'). }
      rewrite E, !map_map. reflexivity.
  Qed.
  Lemma same_entries : entries' = map (fun e => (e_id e, e_name e, stored_array (e_arr e))) entries.
  Proof.
    pose proof same_keys as Hk. apply map_eq_nth.
    - rewrite <- (map_length ekey entries), <- Hk. apply map_length.
    - intros k [[j name] a] [[j' name'] a'] He He'. assert (E : nth_error (map ekey entries') k = nth_error (map ekey entries) k) by now rewrite Hk.
      rewrite !nth_error_map, He, He' in E. cbn [option_map] in E. unfold ekey, e_id, e_name, e_arr in *. cbn [fst snd] in *.
      assert (j' = j) by congruence. assert (name' = name) by congruence. subst j' name'. f_equal.
      eapply same_array; eapply nth_error_In; eauto.
  Qed.
  (** ** Instances, parents, metadata *)
  Lemma same_ichunk ic : ichunk place xs' ic = ichunk place xs ic.
  Proof.
    unfold ichunk, grp. cbn [g_ids g_service g_flags]. pose proof (mem_rel (snd ic)) as H.
    assert (E1 : mids (mem xs' (snd ic)) = mids (mem xs (snd ic))).
    { unfold mids. induction H as [|e e' l l' (E & _) H IH]; [reflexivity|]. cbn [map]. now rewrite IH, E. }
    assert (Em : map (mflag place) (mem xs' (snd ic)) = map (mflag place) (mem xs (snd ic))).
    { clear E1. induction H as [|e e' l l' (_ & _ & E) H IH]; [reflexivity|]. cbn [map]. rewrite IH. f_equal. unfold mflag. rewrite E.
      destruct place; reflexivity. }
    assert (E2 : existsb (mflag place) (mem xs' (snd ic)) = existsb (mflag place) (mem xs (snd ic))).
    { revert Em. generalize (mem xs' (snd ic)), (mem xs (snd ic)). induction l as [|e l IH]; intros [|e0 l0] Em; try discriminate; [reflexivity|].
      cbn [map existsb] in *. injection Em as -> E. now rewrite (IH _ E). }
    assert (E3 : map (fun e => if mflag place e then x01 else x00) (mem xs' (snd ic)) = map (fun e => if mflag place e then x01 else x00) (mem xs (snd ic))).
    { revert Em. generalize (mem xs' (snd ic)), (mem xs (snd ic)). induction l as [|e l IH]; intros [|e0 l0] Em; try discriminate; [reflexivity|].
      cbn [map] in *. injection Em as -> E. now rewrite (IH _ E). }
    now rewrite E1, E2, E3.
  Qed.
  Lemma same_prnt : prnt_payload ts' = prnt_payload ts.
  Proof.
    unfold prnt_payload. change (fnodes ts') with nodes'.
    assert (E : flinks 0 ts' = map (both phi) (flinks 0 ts)).
    { unfold ts'. rewrite <- phi_zero at 1. apply flinks_map. }
    rewrite E. rewrite !map_map. cbn [both fst snd]. f_equal; apply map_ext; intros [a b]; unfold both; cbn [fst snd]; apply num'.
  Qed.
  (** The second list of chunks: the first as stored, but for the metadata. *)
  Theorem same_chunks : shape_chunks place ts' xs' m' sh' cl' entries' =
    meta_chunks m' ++ sstr_chunks sh ++ map (ichunk place xs) (enum 0 cl) ++ map stored_echunk entries ++
      [Chunk true (prnt_payload ts); Chunk false (PEnd endContent)].
  Proof.
    unfold shape_chunks. rewrite same_classes, same_shares, same_prnt, same_entries, map_map. do 3 f_equal.
    now apply map_ext, same_ichunk.
  Qed.
  (** Nobody warns about types: the columns with several types are gone. *)
  Lemma no_warns' : ws' = [].
  Proof.
    destruct ws' as [|w ws0] eqn:Ew; [reflexivity|]. exfalso.
    destruct (proj1 (pi_warns _ _ _ _ _ _ _ _ _ _ _ Hpi' w)) as (j & c & name & t & u & _ & _ & Hm & _); [now left|].
    assert (Hall : exists ct, forall v, In v (prop_values (members xs' c) name) -> is_col ct v).
    { destruct (prop_values (members xs' c) name) as [|v0 pv] eqn:E; [exists (CPlain tString); intros v []|].
      destruct (col_from c name v0) as (j0 & a & ct & _ & _ & Hk & _); [rewrite E; now left|]. exists ct. intros v Hv. rewrite <- E in Hv.
      destruct (col_from c name v Hv) as (j' & a' & ct' & _ & _ & Hk' & Hc'). now rewrite (kept_col_fun _ _ _ _ _ Hk Hk'). }
    destruct Hall as [ct Hall]. eapply mixed_not_col; [exact Hm|]. apply Forall_forall. exact Hall.
  Qed.
End Again.
