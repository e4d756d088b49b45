(** RbxlCodecEnc.v - what Encode of the codec produces. *)
From Coq Require Import Permutation Sorting.Sorted.
From Verif Require Import Base RbxlValues RbxlArrays RbxlModel RbxlFile RbxlFileProofs RbxValues Tree RbxlCodec
  SpecValues SpecArrays SpecModel SpecFile SpecTree SpecCodec TreeProofs SortProofs.

(** ** Numbering *)
Fixpoint rtree_ind' (P : rtree -> Prop) (H : forall p ts, Forall P ts -> P (RNode p ts)) (t : rtree) : P t :=
  match t with
  | RNode p ts => H p ts ((fix go l : Forall P l := match l with [] => Forall_nil _ | a :: l => Forall_cons _ (rtree_ind' P H a) (go l) end) ts)
  end.
Lemma fnodes_cons t ts : fnodes (t :: ts) = rnodes t ++ fnodes ts.
Proof. reflexivity. Qed.
Lemma fnodes_app ts ts' : fnodes (ts ++ ts') = fnodes ts ++ fnodes ts'.
Proof. unfold fnodes. now rewrite flat_map_app. Qed.
Lemma rnodes_node p ts : rnodes (RNode p ts) = p :: fnodes ts.
Proof. reflexivity. Qed.
Lemma height_nodes t : height t <= length (rnodes t).
Proof.
  induction t as [p ts IH] using rtree_ind'. rewrite rnodes_node. cbn [height length]. apply le_n_S.
  induction IH as [|t ts Ht _ IH]; cbn [fold_right]; [apply Nat.le_0_l|].
  rewrite fnodes_cons, app_length. lia.
Qed.
Lemma height_forest ts t : In t ts -> height t <= length (fnodes ts).
Proof.
  induction ts as [|u ts IH]; cbn [In]; intros H; [easy|]. rewrite fnodes_cons, app_length.
  destruct H as [->|H]; [pose proof (height_nodes t); lia|specialize (IH H); lia].
Qed.
Lemma tree_nodes h t : tree_at h t -> forall p, In p (rnodes t) -> exists i, hget h p = Some i.
Proof.
  induction t as [q ts IH] using rtree_ind'. intros H p Hp. inversion H as [? ? i Hi Hc Ht]; subst.
  rewrite rnodes_node in Hp. destruct Hp as [<-|Hp]; [eauto|].
  unfold fnodes in Hp. apply in_flat_map in Hp. destruct Hp as (t & Hin & Hp).
  rewrite Forall_forall in IH, Ht. eapply IH; eauto.
Qed.
Lemma forest_nodes h ts : Forall (tree_at h) ts -> forall p, In p (fnodes ts) -> exists i, hget h p = Some i.
Proof.
  intros H p Hp. unfold fnodes in Hp. apply in_flat_map in Hp. destruct Hp as (t & Hin & Hp).
  rewrite Forall_forall in H. eapply tree_nodes; eauto.
Qed.
Lemma nodes_le h ts : forest_at h ts -> length (fnodes ts) <= length h.
Proof.
  intros [H Hn]. rewrite <- (seq_length (length h) 1). apply NoDup_incl_length; [exact Hn|].
  intros p Hp. destruct (forest_nodes h ts H p Hp) as [i Hi]. apply hget_some in Hi. apply in_seq. lia.
Qed.
Lemma position_In l p : In p l <-> exists k, position l p = Some k.
Proof.
  induction l as [|q l IH]; cbn [In position].
  - split; [easy|]. intros [k H]. discriminate.
  - destruct (Nat.eqb_spec q p) as [->|Hq]; [split; eauto|]. rewrite IH. split.
    + intros [E|[k ->]]; [contradiction|]. cbn. eauto.
    + intros [k H]. right. destruct (position l p) as [j|]; [eauto|discriminate].
Qed.
Lemma position_nth l p k : position l p = Some k -> nth_error l k = Some p.
Proof.
  revert k. induction l as [|q l IH]; cbn; intros k H; [discriminate|].
  destruct (Nat.eqb_spec q p) as [->|]; [injection H as <-; reflexivity|].
  destruct (position l p) as [j|]; [|discriminate]. injection H as <-. cbn. auto.
Qed.
Lemma nth_position l : NoDup l -> forall k p, nth_error l k = Some p -> position l p = Some k.
Proof.
  induction 1 as [|q l Hn Hd IH]; intros k p H; [destruct k; discriminate|].
  destruct k; cbn in H |- *.
  - injection H as ->. now rewrite Nat.eqb_refl.
  - destruct (Nat.eqb_spec q p) as [->|]; [exfalso; apply Hn; eapply nth_error_In; eauto|].
    now rewrite (IH _ _ H).
Qed.
Lemma refs_get_None l p : p <> 0 -> ~ In p l -> refs_get l p = None.
Proof.
  intros H0 Hn. unfold refs_get. destruct (Nat.eqb_spec p 0); [contradiction|].
  destruct (position l p) as [k|] eqn:E; [|reflexivity]. exfalso. apply Hn. apply position_In. eauto.
Qed.

Lemma add_inst_spec h : forall fuel t l,
  tree_at h t -> NoDup (l ++ rnodes t) -> height t <= fuel ->
  add_inst fuel h (rroot t) l = OK (l ++ rnodes t).
Proof.
  induction fuel as [|fuel IH]; intros [p ts] l Ht Hn Hh; [cbn in Hh; lia|].
  inversion Ht as [? ? i Hi Hc Hts]; subst. cbn [add_inst rroot]. rewrite rnodes_node in *.
  rewrite refs_get_None; [|apply hget_some in Hi; lia|].
  2:{ intros H. apply NoDup_remove_2 in Hn. apply Hn. apply in_or_app. now left. }
  rewrite Hi, Hc. replace (l ++ p :: fnodes ts) with ((l ++ [p]) ++ fnodes ts) in * by now rewrite <- app_assoc.
  assert (Hh' : forall t, In t ts -> height t <= fuel).
  { cbn [height] in Hh. intros t Hin. apply le_S_n in Hh. etransitivity; [|exact Hh]. clear -Hin.
    induction ts as [|u ts IHts]; [easy|]. cbn [fold_right]. destruct Hin as [->|Hin]; [lia|]. specialize (IHts Hin). lia. }
  clear Ht Hh Hi Hc. revert l Hn. generalize dependent ts. intros ts Hts Hh l. generalize (l ++ [p]). clear l p i.
  induction Hts as [|t ts Ht _ IHts]; intros l Hn; cbn [map fold_res].
  - cbn. now rewrite app_nil_r.
  - rewrite fnodes_cons in *. rewrite app_assoc in Hn. rewrite IH; [cbn [obind]|exact Ht|eapply NoDup_app_l; exact Hn|apply Hh; now left].
    rewrite IHts; [now rewrite <- app_assoc| |exact Hn]. intros u Hu. apply Hh. now right.
Qed.
Lemma add_insts_spec h fuel : forall ts l,
  Forall (tree_at h) ts -> NoDup (l ++ fnodes ts) -> (forall t, In t ts -> height t <= fuel) ->
  fold_res (add_inst fuel h) (map rroot ts) l = OK (l ++ fnodes ts).
Proof.
  intros ts l Hts. revert l. induction Hts as [|t ts Ht _ IH]; intros l Hn Hh; cbn [map fold_res].
  - cbn. now rewrite app_nil_r.
  - rewrite fnodes_cons in *. rewrite app_assoc in Hn.
    rewrite add_inst_spec; [cbn [obind]|exact Ht|eapply NoDup_app_l; exact Hn|apply Hh; now left].
    rewrite IH; [now rewrite <- app_assoc|exact Hn|intros u Hu; apply Hh; now right].
Qed.
Lemma numbering h ts : forest_at h ts ->
  fold_res (add_inst (S (S (length h))) h) (map rroot ts) [] = OK (fnodes ts).
Proof.
  intros Hf. pose proof (nodes_le h ts Hf) as Hl. destruct Hf as [Ht Hn].
  rewrite add_insts_spec; auto. intros t Hin. pose proof (height_forest ts t Hin). lia.
Qed.

(** ** Parent links, post-order *)
Fixpoint plinks (parent : ptr) (t : rtree) : list (ptr * ptr) :=
  match t with RNode p ts => flat_map (plinks p) ts ++ [(p, parent)] end.
Definition flinks (parent : ptr) (ts : list rtree) : list (ptr * ptr) := flat_map (plinks parent) ts.
Lemma plinks_node parent p ts : plinks parent (RNode p ts) = flinks p ts ++ [(p, parent)].
Proof. reflexivity. Qed.
Lemma flinks_cons parent t ts : flinks parent (t :: ts) = plinks parent t ++ flinks parent ts.
Proof. reflexivity. Qed.
Lemma plinks_perm t : forall parent, Permutation (map fst (plinks parent t)) (rnodes t).
Proof.
  induction t as [p ts IH] using rtree_ind'. intros parent. rewrite plinks_node, rnodes_node, map_app. cbn [map].
  rewrite Permutation_app_comm. cbn [app]. constructor.
  induction IH as [|t ts Ht _ IH]; [constructor|]. rewrite flinks_cons, fnodes_cons, map_app. now apply Permutation_app.
Qed.
Lemma flinks_perm ts parent : Permutation (map fst (flinks parent ts)) (fnodes ts).
Proof.
  induction ts as [|t ts IH]; [constructor|]. rewrite flinks_cons, fnodes_cons, map_app.
  apply Permutation_app; [apply plinks_perm|exact IH].
Qed.
Lemma plinks_snd t : forall parent c q, In (c, q) (plinks parent t) -> q = parent \/ In q (rnodes t).
Proof.
  induction t as [p ts IH] using rtree_ind'. intros parent c q H. rewrite plinks_node in H. rewrite rnodes_node.
  apply in_app_or in H. destruct H as [H|[[= <- <-]|[]]]; [|now left]. right.
  unfold flinks in H. apply in_flat_map in H. destruct H as (t & Hin & H). rewrite Forall_forall in IH.
  destruct (IH t Hin p c q H) as [->|H1]; [now left|]. right. unfold fnodes. apply in_flat_map. eauto.
Qed.
Lemma flinks_snd ts parent c q : In (c, q) (flinks parent ts) -> q = parent \/ In q (fnodes ts).
Proof.
  intros H. unfold flinks in H. apply in_flat_map in H. destruct H as (t & Hin & H).
  destruct (plinks_snd _ _ _ _ H) as [->|H1]; [now left|]. right. unfold fnodes. apply in_flat_map. eauto.
Qed.
Definition under (q : ptr) (l : list (ptr * ptr)) : list ptr := map fst (filter (fun cp => (snd cp =? q)%nat) l).
Lemma under_app q a b : under q (a ++ b) = under q a ++ under q b.
Proof. unfold under. now rewrite filter_app, map_app. Qed.
Lemma under_none q l : (forall c, ~ In (c, q) l) -> under q l = [].
Proof.
  intros H. unfold under. induction l as [|[c p] l IH]; [reflexivity|]. cbn [filter snd].
  destruct (Nat.eqb_spec p q) as [->|]; [exfalso; eapply H; now left|]. apply IH. intros d Hd. apply (H d). now right.
Qed.
Lemma under_parent t parent : ~ In parent (rnodes t) -> under parent (plinks parent t) = [rroot t].
Proof.
  destruct t as [p ts]. rewrite plinks_node, rnodes_node, under_app. intros H.
  rewrite under_none.
  - unfold under. cbn. now rewrite Nat.eqb_refl.
  - intros c Hin. destruct (flinks_snd _ _ _ _ Hin) as [->|H1]; apply H; [now left|now right].
Qed.
Lemma under_fparent ts parent : ~ In parent (fnodes ts) -> under parent (flinks parent ts) = map rroot ts.
Proof.
  induction ts as [|t ts IH]; [reflexivity|]. rewrite fnodes_cons, flinks_cons, under_app. intros H. cbn [map].
  rewrite under_parent, IH; [reflexivity| |]; intros Hi; apply H; apply in_or_app; auto.
Qed.
Lemma NoDup_app_disj {A} (a b : list A) x : NoDup (a ++ b) -> In x a -> In x b -> False.
Proof.
  induction a as [|y a IH]; cbn; intros H Ha Hb; [easy|]. inversion H; subst.
  destruct Ha as [->|Ha]; [apply H2; apply in_or_app; now right|auto].
Qed.
Lemma NoDup_app_r {A} (a b : list A) : NoDup (a ++ b) -> NoDup b.
Proof. induction a; cbn; intros H; [exact H|]. inversion H; auto. Qed.
(** The children of a node are the links that name it as the parent. *)
Lemma under_node h t : tree_at h t -> NoDup (rnodes t) -> forall parent q i, ~ In parent (rnodes t) ->
  In q (rnodes t) -> hget h q = Some i -> under q (plinks parent t) = i_children i.
Proof.
  induction t as [p ts IH] using rtree_ind'. intros Ht Hn parent q i Hpar Hq Hi.
  inversion Ht as [? ? j Hj Hc Hts]; subst. rewrite rnodes_node in *. inversion Hn as [|? ? Hp Hnd]; subst.
  rewrite plinks_node, under_app.
  assert (E : under q [(p, parent)] = []).
  { apply under_none. intros c [[= <- <-]|[]]. now apply Hpar. }
  rewrite E, app_nil_r. destruct Hq as [<-|Hq].
  - rewrite Hj in Hi. injection Hi as <-. rewrite Hc. now apply under_fparent.
  - assert (Hpq : p <> q) by (intros ->; contradiction). clear Hj Hc E Ht Hn Hpar. revert Hts IH Hnd Hp Hq.
    induction ts as [|t ts IHts]; intros Hts IH Hnd Hp Hq; [easy|]. rewrite fnodes_cons in *. rewrite flinks_cons, under_app.
    inversion Hts as [|? ? Ht Hts']; subst. inversion IH as [|? ? Hit IH']; subst.
    apply in_app_or in Hq. destruct Hq as [Hq|Hq].
    + rewrite (Hit Ht (NoDup_app_l _ _ Hnd) p q i); auto; [|intros H; apply Hp; apply in_or_app; now left].
      rewrite under_none; [apply app_nil_r|]. intros c Hin. apply flinks_snd in Hin. destruct Hin as [->|Hin]; [congruence|].
      eapply NoDup_app_disj; eauto.
    + rewrite (under_none q (plinks p t)).
      * apply IHts; auto; [eapply NoDup_app_r; eauto|intros H; apply Hp; apply in_or_app; now right].
      * intros c Hin. apply plinks_snd in Hin. destruct Hin as [->|Hin]; [congruence|]. eapply NoDup_app_disj; eauto.
Qed.
Lemma under_forest h ts : Forall (tree_at h) ts -> NoDup (fnodes ts) -> forall parent q i, ~ In parent (fnodes ts) ->
  In q (fnodes ts) -> hget h q = Some i -> under q (flinks parent ts) = i_children i.
Proof.
  intros Hts. induction Hts as [|t ts Ht _ IH]; intros Hn parent q i Hp Hq Hi; [easy|].
  rewrite fnodes_cons in *. rewrite flinks_cons, under_app.
  assert (Hpq : parent <> q) by (intros ->; contradiction).
  apply in_app_or in Hq. destruct Hq as [Hq|Hq].
  - rewrite (under_node h t Ht (NoDup_app_l _ _ Hn) parent q i); auto; [|intros H; apply Hp; apply in_or_app; now left].
    rewrite under_none; [apply app_nil_r|]. intros c Hin. apply flinks_snd in Hin. destruct Hin as [->|Hin]; [congruence|].
    eapply NoDup_app_disj; eauto.
  - rewrite (under_none q (plinks parent t)).
    + apply IH; auto; [eapply NoDup_app_r; eauto|intros H; apply Hp; apply in_or_app; now right].
    + intros c Hin. apply plinks_snd in Hin. destruct Hin as [->|Hin]; [congruence|]. eapply NoDup_app_disj; eauto.
Qed.

(** The reference number of an instance of l, -1 for the others. *)
Definition num (l : list ptr) (p : ptr) : Z := refs_or_nil l p.
Definition nlink (l : list ptr) (cp : ptr * ptr) : Z * Z := (num l (fst cp), num l (snd cp)).
Lemma refs_get_num l p : In p l -> refs_get l p = Some (num l p).
Proof.
  intros H. unfold num, refs_or_nil. destruct (refs_get l p) eqn:E; [reflexivity|].
  unfold refs_get in E. destruct (p =? 0); [discriminate|]. apply position_In in H. destruct H as [k Hk].
  rewrite Hk in E. discriminate.
Qed.
Lemma rec_inst_spec h l : forall fuel t parent acc,
  tree_at h t -> incl (rnodes t) l -> height t <= fuel -> length acc + length (rnodes t) <= length l ->
  rec_inst fuel h l parent (rroot t) acc = OK (acc ++ map (nlink l) (plinks parent t)).
Proof.
  induction fuel as [|fuel IH]; intros [p ts] parent acc Ht Hl Hh Hlen; [cbn in Hh; lia|].
  inversion Ht as [? ? i Hi Hc Hts]; subst. cbn [rec_inst rroot]. rewrite Hi, Hc.
  rewrite rnodes_node in *. cbn [length] in Hlen.
  assert (Hh' : forall t, In t ts -> height t <= fuel).
  { cbn [height] in Hh. intros t Hin. apply le_S_n in Hh. etransitivity; [|exact Hh]. clear -Hin.
    induction ts as [|u ts IHts]; [easy|]. cbn [fold_right]. destruct Hin as [->|Hin]; [lia|]. specialize (IHts Hin). lia. }
  assert (E : fold_res (rec_inst fuel h l p) (map rroot ts) acc = OK (acc ++ map (nlink l) (flinks p ts))).
  { assert (Hl' : incl (fnodes ts) l) by (intros x Hx; apply Hl; now right).
    assert (Hlen' : length acc + length (fnodes ts) <= length l) by lia.
    clear -Hts Hh' Hl' Hlen' IH. revert acc Hlen'.
    induction Hts as [|t ts Ht _ IHts]; intros acc Hlen; cbn [map fold_res].
    - cbn. now rewrite app_nil_r.
    - rewrite fnodes_cons in *. rewrite app_length in Hlen. rewrite IH; auto.
      + cbn [obind]. rewrite IHts.
        * now rewrite flinks_cons, map_app, app_assoc.
        * intros u Hu. apply Hh'. now right.
        * intros x Hx. apply Hl'. apply in_or_app. now right.
        * rewrite app_length, map_length. erewrite <- (map_length fst (plinks p t)), (Permutation_length (plinks_perm t p)). lia.
      + intros x Hx. apply Hl'. apply in_or_app. now left.
      + apply Hh'. now left.
      + lia. }
  rewrite E. cbn [obind]. rewrite app_length, map_length.
  erewrite <- (map_length fst (flinks p ts)), (Permutation_length (flinks_perm ts p)).
  destruct (Nat.ltb_spec (length acc + length (fnodes ts)) (length l)); [|lia].
  rewrite plinks_node, map_app, app_assoc. rewrite refs_get_num; [reflexivity|]. apply Hl. now left.
Qed.
Lemma links_spec h ts : forest_at h ts ->
  fold_res (rec_inst (S (S (length h))) h (fnodes ts) 0) (map rroot ts) [] = OK (map (nlink (fnodes ts)) (flinks 0 ts)).
Proof.
  intros Hf. pose proof (nodes_le h ts Hf) as Hl. destruct Hf as [Ht _].
  enough (E : forall us acc, Forall (tree_at h) us -> incl (fnodes us) (fnodes ts) ->
     (forall t, In t us -> height t <= S (S (length h))) -> length acc + length (fnodes us) <= length (fnodes ts) ->
     fold_res (rec_inst (S (S (length h))) h (fnodes ts) 0) (map rroot us) acc
       = OK (acc ++ map (nlink (fnodes ts)) (flinks 0 us))).
  { apply (E ts []); auto; [apply incl_refl|]. intros t Hin. pose proof (height_forest ts t Hin). lia. }
  intros us acc Hus. revert acc. induction Hus as [|t us Hu _ IH]; intros acc Hi Hh Hlen; cbn [map fold_res].
  - cbn. now rewrite app_nil_r.
  - rewrite fnodes_cons in *. rewrite app_length in Hlen. rewrite rec_inst_spec; auto.
    + cbn [obind]. rewrite IH.
      * now rewrite flinks_cons, map_app, app_assoc.
      * intros x Hx. apply Hi. apply in_or_app. now right.
      * intros u Hin. apply Hh. now right.
      * rewrite app_length, map_length. erewrite <- (map_length fst (plinks 0 t)), (Permutation_length (plinks_perm t 0)). lia.
    + intros x Hx. apply Hi. apply in_or_app. now left.
    + apply Hh. now left.
    + lia.
Qed.

(** ** Groups *)
Definition enum {A} (n : nat) (l : list A) : list (nat * A) := combine (seq n (length l)) l.
Lemma enum_cons {A} n (a : A) l : enum n (a :: l) = (n, a) :: enum (S n) l.
Proof. reflexivity. Qed.
Lemma enum_In {A} n (l : list A) k a : In (k, a) (enum n l) <-> n <= k /\ nth_error l (k - n) = Some a.
Proof.
  revert n. induction l as [|b l IH]; intros n.
  - cbn. split; [easy|]. intros [_ H]. destruct (k - n); discriminate.
  - rewrite enum_cons. cbn [In]. rewrite IH. split.
    + intros [[= <- <-]|[H1 H2]]; [rewrite Nat.sub_diag; split; [lia|reflexivity]|].
      split; [lia|]. destruct (k - n) as [|m] eqn:E; [lia|]. cbn. now replace m with (k - S n) by lia.
    + intros [H1 H2]. destruct (Nat.eq_dec k n) as [->|Hk].
      * left. rewrite Nat.sub_diag in H2. cbn in H2. now injection H2 as <-.
      * right. split; [lia|]. destruct (k - n) as [|m] eqn:E; [lia|]. cbn in H2. now replace (k - S n) with m by lia.
Qed.
Lemma enum_snd {A} n (l : list A) : map snd (enum n l) = l.
Proof. revert n. induction l as [|a l IH]; intros n; [reflexivity|]. rewrite enum_cons. cbn. now rewrite IH. Qed.
Lemma enum_fst {A} n (l : list A) : map fst (enum n l) = seq n (length l).
Proof. revert n. induction l as [|a l IH]; intros n; [reflexivity|]. rewrite enum_cons. cbn. now rewrite IH. Qed.

Definition in_class (c : bytes) (e : nat * inst) : bool := bytes_eqb (i_class (snd e)) c.
(** The instances of a class with their numbers. *)
Definition mem (xs : list inst) (c : bytes) : list (nat * inst) := filter (in_class c) (enum 0 xs).
Definition mids (ms : list (nat * inst)) : list Z := map (fun e => Z.of_nat (fst e)) ms.
Definition mflag (place : bool) (e : nat * inst) : bool := place && i_service (snd e).
Definition grp (place : bool) (ms : list (nat * inst)) : cgroup :=
  CGrp (mids ms) (existsb (mflag place) ms) (map (fun e => if mflag place e then x01 else x00) ms).
Definition gapp (place : bool) (o : option cgroup) (ms : list (nat * inst)) : option cgroup :=
  match o, ms with
  | None, [] => None
  | None, ms => Some (grp place ms)
  | Some g, ms => Some (CGrp (g_ids g ++ mids ms) (g_service g || existsb (mflag place) ms)
                             (g_flags g ++ map (fun e => if mflag place e then x01 else x00) ms))
  end.
Lemma gapp_nil place o : gapp place o [] = o.
Proof. destruct o as [[a b c]|]; [|reflexivity]. unfold gapp, mids. cbn. now rewrite !app_nil_r, orb_false_r. Qed.
Lemma wrap_small k : (Z.of_nat k < 2 ^ 31)%Z -> wrapZ 32 (Z.of_nat k) = Z.of_nat k.
Proof. intros H. apply wrapZ_id; [reflexivity|]. unfold in_i. change (2 ^ (32 - 1))%Z with (2 ^ 31)%Z. lia. Qed.
Definition holds (h : heap) (l : list ptr) (xs : list inst) : Prop := Forall2 (fun p x => hget h p = Some x) l xs.
Lemma holds_nth h l xs k x : holds h l xs -> nth_error xs k = Some x -> exists p, nth_error l k = Some p /\ hget h p = Some x.
Proof.
  intros H. revert k. induction H as [|p y l xs Hp H IH]; intros [|k] E; try discriminate; cbn in *; [injection E as <-; eauto|auto].
Qed.
Lemma holds_nth_l h l xs k p : holds h l xs -> nth_error l k = Some p -> exists x, nth_error xs k = Some x /\ hget h p = Some x.
Proof.
  intros H. revert k. induction H as [|q y l xs Hp H IH]; intros [|k] E; try discriminate; cbn in *; [injection E as <-; eauto|auto].
Qed.
Lemma group_insts_spec place h : forall l xs n g,
  holds h l xs -> (Z.of_nat (n + length l) <= 2 ^ 31)%Z -> NoDup (map fst g) ->
  exists g', group_insts place h n l g = OK g' /\ NoDup (map fst g') /\
    forall c, mfind g' c = gapp place (mfind g c) (filter (in_class c) (enum n xs)).
Proof.
  intros l xs n g H. revert n g. induction H as [|p x l xs Hp H IH]; intros n g Hb Hn; cbn [group_insts].
  - exists g. split; [reflexivity|]. split; [exact Hn|]. intros c. cbn. now rewrite gapp_nil.
  - rewrite Hp. cbn [length] in Hb.
    destruct (IH (S n) (mset g (i_class x)
       (let c0 := match mfind g (i_class x) with Some c => c | None => CGrp [] false [] end in
        CGrp (g_ids c0 ++ [wrapZ 32 (Z.of_nat n)]) (g_service c0 || place && i_service x)
             (g_flags c0 ++ [if place && i_service x then x01 else x00]))))
      as (g' & E & Hn' & Hf); [lia|now apply mset_keys|].
    exists g'. split; [exact E|]. split; [exact Hn'|]. intros c. rewrite Hf, mfind_mset, enum_cons. cbn [filter].
    unfold in_class at 2. cbn [snd]. destruct (beqb_spec (i_class x) c) as [<-|Hc]; [|reflexivity].
    rewrite wrap_small by lia. destruct (mfind g (i_class x)) as [[ids sv fl]|];
      unfold gapp, grp, mids; cbn [g_ids g_service g_flags map existsb fst snd app mflag]; unfold mflag; cbn [snd];
      rewrite <- ?app_assoc, ?orb_assoc; cbn [app]; reflexivity.
Qed.

(** The classes present, in order. *)
Definition classes_of (xs : list inst) (cl : list bytes) : Prop :=
  StronglySorted (lt_key (fun c : bytes => c)) cl /\ forall c, In c cl <-> exists x, In x xs /\ i_class x = c.
Lemma mem_In xs c k x : In (k, x) (mem xs c) <-> nth_error xs k = Some x /\ i_class x = c.
Proof.
  unfold mem. rewrite filter_In, enum_In, Nat.sub_0_r. unfold in_class. cbn [snd].
  destruct (beqb_spec (i_class x) c); intuition (try lia; congruence).
Qed.
Lemma mem_nonempty xs c : mem xs c <> [] <-> exists x, In x xs /\ i_class x = c.
Proof.
  split.
  - destruct (mem xs c) as [|[k x] m] eqn:E; [easy|]. intros _.
    assert (H : In (k, x) (mem xs c)) by (rewrite E; now left). apply mem_In in H. destruct H as [H Hc].
    exists x. split; [eapply nth_error_In; eauto|exact Hc].
  - intros (x & Hin & Hc) E. apply In_nth_error in Hin. destruct Hin as [k Hk].
    assert (H : In (k, x) (mem xs c)) by (apply mem_In; auto). rewrite E in H. easy.
Qed.
Lemma sorted_map {A B} (f : A -> B) (key : B -> bytes) l :
  StronglySorted (lt_key (fun a => key (f a))) l -> StronglySorted (lt_key key) (map f l).
Proof.
  induction 1 as [|a l Hl IH Ha]; cbn; constructor; auto. rewrite Forall_map. exact Ha.
Qed.
Lemma keyed_map {B} (f : bytes -> B) (l : list (bytes * B)) :
  (forall k b, In (k, b) l -> b = f k) -> l = map (fun k => (k, f k)) (map fst l).
Proof.
  induction l as [|[k b] l IH]; intros H; [reflexivity|]. cbn. f_equal.
  - f_equal. apply H. now left.
  - apply IH. intros k' b' Hin. apply H. now right.
Qed.
Lemma groups_spec place h l xs ord : holds h l xs -> (Z.of_nat (length l) <= 2 ^ 31)%Z ->
  (forall g : list (bytes * cgroup), Permutation g (ord g)) ->
  exists gs cl, group_insts place h 0 l [] = OK gs /\ classes_of xs cl /\
    sort_by fst (ord gs) = map (fun c => (c, grp place (mem xs c))) cl.
Proof.
  intros H Hb Hord. destruct (group_insts_spec place h l xs 0 [] H Hb) as (g & E & Hn & Hf); [constructor|].
  assert (Hg : forall c b, In (c, b) g -> b = grp place (mem xs c) /\ mem xs c <> []).
  { intros c b Hin. apply In_mfind in Hin; [|exact Hn]. rewrite Hf in Hin. cbn [mfind gapp] in Hin. fold (mem xs c) in Hin.
    destruct (mem xs c) eqn:Em; [discriminate|]. injection Hin as <-. split; [reflexivity|discriminate]. }
  pose proof (sort_perm fst (ord g)) as Hp. assert (Hp' : Permutation g (sort_by fst (ord g))) by (etransitivity; eauto).
  exists g, (map fst (sort_by fst (ord g))). split; [exact E|]. split; [split|].
  - apply sorted_map. apply sort_sorted. eapply Permutation_NoDup; [apply Permutation_map, Hord|exact Hn].
  - intros c. rewrite <- mem_nonempty. split.
    + intros Hin. apply in_map_iff in Hin. destruct Hin as ([c' b] & <- & Hin).
      apply (Permutation_in _ (Permutation_sym Hp')) in Hin. now apply Hg in Hin.
    + intros Hm. apply (Permutation_in (l := map fst g)); [now apply Permutation_map|].
      apply mfind_key. rewrite Hf. cbn [mfind gapp]. fold (mem xs c). destruct (mem xs c); [easy|eauto].
  - apply keyed_map. intros c b Hin. apply (Permutation_in _ (Permutation_sym Hp')) in Hin. now apply Hg in Hin.
Qed.
Lemma mfind_get_insts h l xs ms : holds h l xs -> (forall k x, In (k, x) ms -> nth_error xs k = Some x) ->
  get_insts h l (mids ms) = OK (map snd ms).
Proof.
  intros H Hm. unfold get_insts, mids. induction ms as [|[k x] ms IH]; [reflexivity|]. cbn [map fold_right fst snd].
  rewrite IH by (intros; apply Hm; now right). cbn [obind].
  destruct (Z.ltb_spec (Z.of_nat k) 0); [lia|]. rewrite Nat2Z.id.
  destruct (holds_nth h l xs k x H) as (p & -> & ->); [apply Hm; now left|reflexivity].
Qed.
Lemma mem_get_insts h l xs c : holds h l xs -> get_insts h l (mids (mem xs c)) = OK (map snd (mem xs c)).
Proof. intros H. apply (mfind_get_insts h l xs); [exact H|]. intros k x Hin. now apply mem_In in Hin. Qed.
