(** XmlResave.v - encoding two trees that are the same but for the addresses
    of their instances, when the references of the second are the ones given
    out for the first. *)
From Coq Require Import Permutation.
From Verif Require Import Base RbxlValues RbxValues Tree RbxlCodec SpecValues SpecTree SpecCodec SortProofs TreeProofs
  XmlText XmlDoc XmlCodec SpecXml SpecXmlWrite XmlTreeEnc RbxlFileProofs.
Local Notation string := String.string.

(** A property of the copy of a tree where instance p becomes [phi p]. *)
Definition moved (phi : ptr -> ptr) (v : rvalue) : rvalue := match v with RReference q => RReference (phi q) | v => v end.
Definition with_value (g : rvalue -> rvalue) (nv : bytes * rvalue) : bytes * rvalue := (fst nv, g (snd nv)).
(** Two values that are written as the same tag. *)
Definition one_tag (env : xenv) (v w : rvalue) : Prop :=
  forall rnd rnd2 s s2 t s', encodeProperty env rnd v s = OK (t, s') -> s' = s /\ encodeProperty env rnd2 w s2 = OK (t, s2).

(** ** The first encoding: references are only added *)
Section First.
Variables (env : xenv) (rnd : nat -> bytes).
Definition inside (h h' : heap) : Prop := forall p i', hget h' p = Some i' -> exists i, hget h p = Some i /\ same_but_ref i i'.
Definition keeps_refs (m m' : refmap) : Prop := forall k q, q <> 0 -> mfind m k = Some q -> mfind m' k = Some q.
Definition adds (s s' : rest_) : Prop := inside (re_heap s) (re_heap s') /\ keeps_refs (re_refs s) (re_refs s').
Lemma inside_refl h : inside h h. Proof. intros p i H. exists i. split; [exact H|apply same_refl]. Qed.
Lemma inside_trans h h1 h2 : inside h h1 -> inside h1 h2 -> inside h h2.
Proof. intros A B p i H. destruct (B p i H) as (j & Hj & Sj). destruct (A p j Hj) as (l & Hl & Sl). exists l. split; [exact Hl|]. eapply same_trans; eauto. Qed.
Lemma adds_refl s : adds s s. Proof. split; [apply inside_refl|intros k q _ H; exact H]. Qed.
Lemma adds_trans s s1 s2 : adds s s1 -> adds s1 s2 -> adds s s2.
Proof. intros [A1 A2] [B1 B2]. split; [eapply inside_trans; eauto|]. intros k q Hq H. apply B2; [exact Hq|]. now apply A2. Qed.
Lemma regenerate_fresh m fuel : forall k r k', regenerate fuel rnd k m = OK (r, k') -> mfind m r = None.
Proof.
  induction fuel as [|fuel IH]; intros k r k' E; [discriminate E|]. cbn [regenerate] in E.
  destruct (mfind m (GenerateReference (rnd k))) eqn:F; [now apply IH in E|]. apply OK_pair' in E as [<- _]. exact F.
Qed.
Lemma get_ref_adds h m k p r h' m' k' : p <> 0 -> get_ref rnd h m k p = OK (r, h', m', k') ->
  inside h h' /\ keeps_refs m m' /\ mfind m' r = Some p.
Proof.
  intros Hp E. unfold get_ref in E. destruct (Nat.eqb_spec p 0) as [|_]; [contradiction|]. destruct (hget h p) as [i|] eqn:Ei; [|discriminate E].
  destruct (_ || _) eqn:Ec.
  - apply bind_OK in E as ([r0 k0] & E0 & E). apply OK_pair' in E as [E _]; apply pair_equal_spec in E as [E <-]; apply pair_equal_spec in E as [<- <-].
    apply regenerate_fresh in E0. split; [|split].
    + intros q j Hj. rewrite hget_hset in Hj. destruct (Nat.eqb_spec q p) as [->|]; [|exists j; split; [exact Hj|apply same_refl]].
      rewrite Ei in Hj. injection Hj as <-. exists i. split; [exact Ei|apply same_but_ref_set].
    + intros key q Hq H. rewrite mfind_mset. destruct (beqb_spec r0 key) as [<-|]; [congruence|exact H].
    + rewrite mfind_mset, bytes_eqb_refl. reflexivity.
  - apply OK_pair' in E as [E _]; apply pair_equal_spec in E as [E <-]; apply pair_equal_spec in E as [<- <-].
    split; [apply inside_refl|]. apply orb_false_elim in Ec as [_ Ec]. split.
    + intros key q Hq H. rewrite mfind_mset. destruct (beqb_spec (i_ref i) key) as [<-|]; [|exact H].
      unfold rget in Ec. rewrite H in Ec. destruct (Nat.eqb_spec q 0); [contradiction|]. cbn in Ec. destruct (Nat.eqb_spec q p) as [Eq|]; [now rewrite Eq|discriminate Ec].
    + rewrite mfind_mset, bytes_eqb_refl. reflexivity.
Qed.
Lemma encodeProperty_adds v s t s' : encodeProperty env rnd v s = OK (t, s') -> adds s s'.
Proof.
  intros E. assert (HP : forall t0 : tag, (OK (t0, s) : eout (tag * rest_)) = OK (t, s') -> adds s s') by (intros t0 E0; apply OK_pair' in E0 as [_ <-]; apply adds_refl).
  destruct v; cbn [encodeProperty] in E; try exact (HP _ E).
  all: try (apply bind_OK in E as (a & _ & E); first [exact (HP _ E)|apply bind_OK in E as (b & _ & E); exact (HP _ E)]).
  - destruct (Nat.eqb_spec p 0) as [|Hp]; [exact (HP _ E)|]. apply bind_OK in E as ([[[r h1] m1] k1] & E1 & E). apply OK_pair' in E as [_ <-].
    apply (get_ref_adds _ _ _ _ _ _ _ _ Hp) in E1 as (A & B & _). now split.
  - destruct custom; [|exact (HP _ E)]. apply bind_OK in E as (a & _ & E). exact (HP _ E).
  - apply bind_OK in E as (a & _ & E). apply OK_pair' in E as [_ <-]. split; [apply inside_refl|intros k q _ H; exact H].
  - destruct v as [v|]; [destruct v|]; try exact (HP _ E). apply bind_OK in E as (a & _ & E). exact (HP _ E).
Qed.
Lemma encode_props_adds l : forall s ts s', encode_props env rnd l s = OK (ts, s') -> adds s s'.
Proof.
  induction l as [|[n v] l IH]; intros s ts s' E; cbn [encode_props] in E; [apply OK_pair' in E as [_ <-]; apply adds_refl|].
  apply bind_OK in E as ([t s1] & E1 & E). apply bind_OK in E as ([ts2 s2] & E2 & E). apply OK_pair' in E as [_ <-].
  exact (adds_trans _ _ _ (encodeProperty_adds _ _ _ _ E1) (IH _ _ _ E2)).
Qed.
Lemma encode_list_adds f l : (forall p s t s', In p l -> f p s = OK (t, s') -> adds s s') -> forall s ts s', encode_list f l s = OK (ts, s') -> adds s s'.
Proof.
  induction l as [|p l IH]; intros Hf s ts s' E; cbn [encode_list] in E; [apply OK_pair' in E as [_ <-]; apply adds_refl|].
  apply bind_OK in E as ([t s1] & E1 & E). apply bind_OK in E as ([ts2 s2] & E2 & E). apply OK_pair' in E as [_ <-].
  eapply adds_trans; [apply (Hf _ _ _ _ (or_introl eq_refl) E1)|]. refine (IH _ _ _ _ E2). intros q s0 t0 s0' Hq. apply Hf. now right.
Qed.
Lemma encodeInstance_adds noref fuel : forall p s t s', encodeInstance env rnd fuel noref p s = OK (t, s') -> adds s s'.
Proof.
  induction fuel as [|fuel IH]; intros p s t s' E; [discriminate E|]. cbn [encodeInstance] in E.
  apply bind_OK in E as ([[[r h1] m1] k1] & E1 & E). destruct (hget h1 p) as [i|] eqn:Ei; [|discriminate E].
  assert (Hp : p <> 0) by (intros ->; discriminate Ei). apply (get_ref_adds _ _ _ _ _ _ _ _ Hp) in E1 as (A & B & _).
  apply bind_OK in E as ([ps s2] & E2 & E). apply encode_props_adds in E2. apply bind_OK in E as ([ts s3] & E3 & E). apply OK_pair' in E as [_ <-].
  apply encode_list_adds in E3; [|intros; eapply IH; eauto]. eapply adds_trans; [|exact E3]. eapply adds_trans; [|exact E2]. now split.
Qed.
End First.

(** ** The two encodings, step by step *)
Section Both.
Variables (env : xenv) (rnd rnd2 : nat -> bytes) (h0 h' : heap) (nodes : list ptr) (rho : ptr -> bytes) (phi : ptr -> ptr) (gv : rvalue -> rvalue).
(** phi p in h' is the image of p in h0, with reference rho p; gv v is the
    value that replaces v. *)
Definition twin (p : ptr) (x : inst) : Prop := exists x', hget h' (phi p) = Some x' /\ i_class x' = i_class x /\ i_children x' = map phi (i_children x) /\
  i_ref x' = rho p /\ IsEmptyReference (rho p) = false /\ sort_by fst (i_props x') = map (with_value gv) (sort_by fst (i_props x)).
Hypothesis Htwin : forall p x, In p nodes -> hget h0 p = Some x -> twin p x.
Hypothesis Hhave : forall p, In p nodes -> exists x, hget h0 p = Some x.
Hypothesis Huniq : forall q q' x x', hget h' q = Some x -> hget h' q' = Some x' -> i_ref x = i_ref x' -> q = q'.
Hypothesis Hzero : phi 0 = 0.
Hypothesis Hrefs : forall p x name q, In p nodes -> hget h0 p = Some x -> In (name, RReference q) (i_props x) -> q <> 0 -> In q nodes.
Hypothesis Hg : forall p x name v, In p nodes -> hget h0 p = Some x -> In (name, v) (i_props x) -> gv v = moved phi v \/ one_tag env v (gv v).
Hypothesis Hkids : forall p x q, In p nodes -> hget h0 p = Some x -> In q (i_children x) -> In q nodes.
(** The state of the second encoding. *)
Definition calm (s : rest_) : Prop := re_heap s = h' /\
  forall k q, mfind (re_refs s) k = Some q -> q <> 0 -> exists x, hget h' q = Some x /\ i_ref x = k.
(** What the first encoding ends with. *)
Definition final (s : rest_) : Prop := forall k q, mfind (re_refs s) k = Some q -> q <> 0 -> rho q = k.
Lemma final_adds s s' : adds s s' -> final s' -> final s.
Proof. intros [_ A] F k q H Hq. apply F; [|exact Hq]. now apply A. Qed.
Lemma get_ref_second s2 p x : calm s2 -> In p nodes -> hget h0 p = Some x ->
  exists m k, get_ref rnd2 (re_heap s2) (re_refs s2) (re_rnd s2) (phi p) = OK (rho p, h', m, k) /\ forall sh, calm (Rest h' m k sh).
Proof.
  intros [C1 C2] Hp Hx. destruct (Htwin p x Hp Hx) as (x' & X1 & _ & _ & X4 & X5 & _). rewrite C1. unfold get_ref.
  destruct (Nat.eqb_spec (phi p) 0) as [Z|_]; [rewrite Z in X1; discriminate X1|]. rewrite X1, X4, X5. cbn [orb].
  assert (Ec : negb (rget (re_refs s2) (rho p) =? 0)%nat && negb (rget (re_refs s2) (rho p) =? phi p)%nat = false).
  { unfold rget. destruct (mfind (re_refs s2) (rho p)) as [q|] eqn:F; [|reflexivity]. destruct (Nat.eqb_spec q 0) as [|Hq]; [reflexivity|].
    destruct (C2 _ _ F Hq) as (y & Y1 & Y2). rewrite (Huniq q (phi p) y x' Y1 X1) by congruence. rewrite Nat.eqb_refl. reflexivity. }
  rewrite Ec. do 2 eexists. split; [reflexivity|]. intros sh. split; [reflexivity|]. cbn [re_refs]. intros k q F Hq. rewrite mfind_mset in F.
  destruct (beqb_spec (rho p) k) as [<-|]; [injection F as <-; exists x'; now split|]. now apply C2.
Qed.
Definition follows (s' : rest_) (o : eout (tag * rest_)) (t : tag) : Prop := exists s2', o = OK (t, s2') /\ calm s2' /\ re_shared s2' = re_shared s'.
Lemma prop_both v s t s' s2 : encodeProperty env rnd v s = OK (t, s') -> final s' -> calm s2 -> re_shared s2 = re_shared s ->
  (forall q, v = RReference q -> q <> 0 -> In q nodes) -> follows s' (encodeProperty env rnd2 (moved phi v) s2) t.
Proof.
  intros E F C S Hv. assert (HP : forall t0 : tag, (OK (t0, s) : eout (tag * rest_)) = OK (t, s') -> follows s' (OK (t0, s2)) t).
  { intros t0 E0. apply OK_pair' in E0 as [-> <-]. exists s2. now split. }
  destruct v; cbn [moved]; cbn [encodeProperty] in *; try exact (HP _ E).
  all: try (apply bind_OK in E as (a & Ea & E); rewrite Ea; cbn [obind]; first [exact (HP _ E)|apply bind_OK in E as (b & Eb & E); rewrite Eb; cbn [obind]; exact (HP _ E)]).
  - destruct (Nat.eqb_spec p 0) as [Z0|Hp]; [subst p; rewrite Hzero; exact (HP _ E)|]. specialize (Hv p eq_refl Hp).
    apply bind_OK in E as ([[[r h1] m1] k1] & E1 & E). apply OK_pair' in E as [<- <-]. apply (get_ref_adds _ _ _ _ _ _ _ _ _ Hp) in E1 as (_ & _ & M).
    pose proof (F r p M Hp) as Er. subst r. destruct (Hhave p Hv) as [x Hx]. destruct (get_ref_second s2 p x C Hv Hx) as (m & k & E2 & C2).
    destruct (Htwin p x Hv Hx) as (x' & X1 & _). destruct (Nat.eqb_spec (phi p) 0) as [Z|_]; [rewrite Z in X1; discriminate X1|].
    rewrite E2. cbn [obind]. eexists. split; [reflexivity|]. split; [apply C2|exact S].
  - destruct custom; [|exact (HP _ E)]. apply bind_OK in E as (a & Ea & E). rewrite Ea. cbn [obind]. exact (HP _ E).
  - apply bind_OK in E as (a & Ea & E). apply OK_pair' in E as [<- <-]. rewrite Ea. cbn [obind]. eexists. split; [reflexivity|]. split; [|cbn [re_shared]; now rewrite S].
    destruct C as [C1 C2]. now split.
  - destruct v as [v|]; [destruct v|]; try exact (HP _ E). apply bind_OK in E as (a & Ea & E). rewrite Ea. cbn [obind]. exact (HP _ E).
Qed.
Lemma props_both l : forall s ts s' s2, encode_props env rnd l s = OK (ts, s') -> final s' -> calm s2 -> re_shared s2 = re_shared s ->
  (forall name q, In (name, RReference q) l -> q <> 0 -> In q nodes) -> (forall name v, In (name, v) l -> gv v = moved phi v \/ one_tag env v (gv v)) ->
  exists s2', encode_props env rnd2 (map (with_value gv) l) s2 = OK (ts, s2') /\ calm s2' /\ re_shared s2' = re_shared s'.
Proof.
  induction l as [|[n v] l IH]; intros s ts s' s2 E F C S Hv Hw; cbn [encode_props map] in *; [apply OK_pair' in E as [<- <-]; exists s2; now split|].
  apply bind_OK in E as ([t s1] & E1 & E). apply bind_OK in E as ([ts2 s3] & E2 & E). apply OK_pair' in E as [<- <-].
  unfold with_value at 1. cbn [fst snd].
  assert (G0 : follows s1 (encodeProperty env rnd2 (gv v) s2) t).
  { destruct (Hw n v (or_introl eq_refl)) as [-> | W].
    - apply (prop_both v s t s1 s2 E1); [|exact C|exact S|].
      + eapply final_adds; [|exact F]. eapply encode_props_adds; eauto.
      + intros q -> Hq. apply (Hv n q); [now left|exact Hq].
    - destruct (W rnd rnd2 s s2 t s1 E1) as [-> W2]. exists s2. split; [exact W2|]. split; [exact C|exact S]. }
  destruct G0 as (s2' & G1 & C1 & S1).
  destruct (IH s1 ts2 s3 s2' E2 F C1 S1) as (s4 & G2 & C2 & S2); [intros name q Hin; apply (Hv name q); now right|intros name w Hin; apply (Hw name w); now right|].
  rewrite G1. cbn [obind]. rewrite G2. cbn [obind]. exists s4. now split.
Qed.
Definition both_at (f g : ptr -> rest_ -> eout (tag * rest_)) (p : ptr) : Prop := forall s t s' s2, f p s = OK (t, s') -> inside h0 (re_heap s) -> final s' -> calm s2 ->
  re_shared s2 = re_shared s -> follows s' (g (phi p) s2) t.
Lemma list_both f g l : (forall p s t s', f p s = OK (t, s') -> adds s s') -> Forall (both_at f g) l -> forall s ts s' s2, encode_list f l s = OK (ts, s') -> inside h0 (re_heap s) ->
  final s' -> calm s2 -> re_shared s2 = re_shared s ->
  exists s2', encode_list g (map phi l) s2 = OK (ts, s2') /\ calm s2' /\ re_shared s2' = re_shared s'.
Proof.
  intros Ha. induction 1 as [|p l Hp _ IH]; intros s ts s' s2 E Hi F C S; cbn [encode_list map] in *; [apply OK_pair' in E as [<- <-]; exists s2; now split|].
  apply bind_OK in E as ([t s1] & E1 & E). apply bind_OK in E as ([ts2 s3] & E2 & E). apply OK_pair' in E as [<- <-].
  pose proof (Ha _ _ _ _ E1) as A1. assert (A2 : adds s1 s3) by (eapply encode_list_adds; [|exact E2]; intros; eapply Ha; eauto).
  destruct (Hp s t s1 s2 E1 Hi (final_adds _ _ A2 F) C S) as (s2' & G1 & C1 & S1).
  destruct (IH s1 ts2 s3 s2' E2 (inside_trans _ _ _ Hi (proj1 A1)) F C1 S1) as (s4 & G2 & C2 & S2).
  rewrite G1. cbn [obind]. rewrite G2. cbn [obind]. exists s4. now split.
Qed.
Lemma instance_both fuel : forall p, In p nodes -> both_at (encodeInstance env rnd fuel false) (encodeInstance env rnd2 fuel false) p.
Proof.
  induction fuel as [|fuel IH]; intros p Hp s t s' s2 E Hi F C S; [discriminate E|]. cbn [encodeInstance] in *.
  apply bind_OK in E as ([[[r h1] m1] k1] & E1 & E). destruct (hget h1 p) as [i|] eqn:Ei; [|discriminate E].
  assert (Hp0 : p <> 0) by (intros ->; discriminate Ei). apply (get_ref_adds _ _ _ _ _ _ _ _ _ Hp0) in E1 as (A & B & M).
  apply bind_OK in E as ([ps s3] & E2 & E). pose proof (encode_props_adds _ _ _ _ _ _ E2) as A2. apply bind_OK in E as ([ts s4] & E3 & E). apply OK_pair' in E as [<- <-].
  assert (A3 : adds s3 s4) by (eapply encode_list_adds; [|exact E3]; intros; eapply encodeInstance_adds; eauto).
  assert (Hr : rho p = r). { apply F; [|exact Hp0]. apply (proj2 A3); [exact Hp0|]. apply (proj2 A2); [exact Hp0|]. exact M. }
  pose proof (inside_trans _ _ _ Hi A) as Hi1. destruct (Hi1 p i Ei) as (x & Hx & (Q1 & _ & Q3 & Q4)).
  destruct (get_ref_second s2 p x C Hp Hx) as (m & k & G1 & C1). destruct (Htwin p x Hp Hx) as (x' & X1 & X2 & X3 & X4 & X5 & X6).
  rewrite G1. cbn [obind]. rewrite X1, X6, Q3, X3, Q4, X2, Q1, Hr.
  destruct (props_both (sort_by fst (i_props i)) (Rest h1 m1 k1 (re_shared s)) ps s3 (Rest h' m k (re_shared s2)) E2 (final_adds _ _ A3 F) (C1 _)) as (s5 & G2 & C2 & S2); [exact S| | |].
  { intros name q Hin Hq. apply (Hrefs p x name q Hp Hx); [|exact Hq]. rewrite Q3. eapply Permutation_in; [symmetry; apply sort_perm|exact Hin]. }
  { intros name v Hin. apply (Hg p x name v Hp Hx). rewrite Q3. eapply Permutation_in; [symmetry; apply sort_perm|exact Hin]. }
  rewrite G2. cbn [obind].
  destruct (list_both (encodeInstance env rnd fuel false) (encodeInstance env rnd2 fuel false) (i_children i) (fun p s t s' => encodeInstance_adds env rnd false fuel p s t s')) with (s := s3) (ts := ts) (s' := s4) (s2 := s5) as (s6 & G3 & C3 & S3);
    [| exact E3 | | exact F | exact C2 | exact S2 |].
  { apply Forall_forall. intros q Hq. apply IH. apply (Hkids p x q Hp Hx). rewrite Q4. exact Hq. }
  { eapply inside_trans; [exact Hi1|]. exact (proj1 A2). }
  rewrite G3. cbn [obind]. exists s6. split; [reflexivity|]. now split.
Qed.
(** The two documents are the same. *)
Lemma write_both fuel o r r' t h1 items s' : o_noref o = false ->
  encode_list (encodeInstance env rnd fuel false) (r_instances r) (Rest h0 [] 0 []) = OK (items, s') -> final s' ->
  (forall p, In p (r_instances r) -> In p nodes) -> r_instances r' = map phi (r_instances r) ->
  (o_nometa o = false -> sort_by fst (r_metadata r') = sort_by fst (r_metadata r)) ->
  codec_write env rnd fuel o h0 (Some r) = OK (t, h1) -> codec_write env rnd2 fuel o h' (Some r') = OK (t, h').
Proof.
  intros Ho E F Hin Hr Hm H. unfold codec_write in *. rewrite Ho in *. rewrite E in H. cbn [obind] in H.
  destruct (list_both (encodeInstance env rnd fuel false) (encodeInstance env rnd2 fuel false) (r_instances r) (fun p s t s' => encodeInstance_adds env rnd false fuel p s t s')) with (s := Rest h0 [] 0 []) (ts := items) (s' := s') (s2 := Rest h' [] 0 []) as (s6 & G3 & [C3 _] & S3);
    [| exact E | apply inside_refl | exact F | | reflexivity |].
  { apply Forall_forall. intros q Hq. apply instance_both. now apply Hin. }
  { split; [reflexivity|]. intros k q X. discriminate X. }
  rewrite Hr, G3. cbn [obind]. rewrite S3. apply bind_OK in H as (sh & E2 & H). rewrite E2. cbn [obind]. apply OK_pair' in H as [<- <-]. rewrite C3. f_equal. f_equal.
  destruct (o_nometa o); [reflexivity|]. now rewrite Hm.
Qed.
End Both.
