(** DeclareTree.v - the trees that declarations make. *)
From Coq Require Import Permutation.
From Verif Require Import Base RbxlValues RbxValues Tree SpecTree Ieee Declare SpecDeclare TreeProofs DeclareProofs.
Local Open Scope nat_scope.

(** ** Building *)
Fixpoint build_list (l : list dinst) (s : bst) : list ptr * bst :=
  match l with
  | [] => ([], s)
  | c :: l => let '(q, s) := build c s in let '(qs, s) := build_list l s in (q :: qs, s)
  end.
Lemma build_eq class ref props children s : build (DInst class ref props children) s =
  let p := S (length (b_heap s)) in
  let s := Bst (b_heap s ++ [Inst class ref false [] []]) (if bytes_eqb ref [] then b_refs s else mset (b_refs s) ref p) (b_props s ++ [(p, props)]) in
  let '(cs, s) := build_list children s in
  (p, Bst (match hget (b_heap s) p with
           | Some i => hset (b_heap s) p (Inst (i_class i) (i_ref i) (i_service i) (i_props i) cs)
           | None => b_heap s
           end) (b_refs s) (b_props s)).
Proof.
  cbn [build]. cbv zeta. set (s' := Bst _ _ _). clearbody s'.
  assert (E : forall l s, (fix go l s := match l with [] => ([], s) | c :: l => let '(q, s) := build c s in let '(qs, s) := go l s in (q :: qs, s) end) l s = build_list l s).
  { induction l as [|c l IH]; intros s0; [reflexivity|]. cbn [build_list]. destruct (build c s0) as [q s1]. now rewrite IH. }
  now rewrite E.
Qed.
Definition add_label (m : refmap) (dp : dinst * ptr) : refmap := if bytes_eqb (d_ref (fst dp)) [] then m else mset m (d_ref (fst dp)) (snd dp).
Inductive built (h : heap) : dinst -> rtree -> Prop :=
| bu_node d p ts : hget h p = Some (Inst (d_class d) (d_ref d) false [] (map rroot ts)) -> Forall2 (built h) (d_children d) ts -> built h d (RNode p ts).
Section BuiltInd.
Variable h : heap.
Variable P : dinst -> rtree -> Prop.
Hypothesis H : forall d p ts, hget h p = Some (Inst (d_class d) (d_ref d) false [] (map rroot ts)) -> Forall2 (built h) (d_children d) ts ->
  Forall2 P (d_children d) ts -> P d (RNode p ts).
Fixpoint built_ind2 d t (b : built h d t) : P d t :=
  match b with
  | bu_node _ d p ts E F => H d p ts E F
      ((fix go ds ts (F : Forall2 (built h) ds ts) : Forall2 P ds ts :=
         match F with Forall2_nil _ => Forall2_nil _ | Forall2_cons _ _ b F => Forall2_cons _ _ (built_ind2 _ _ b) (go _ _ F) end) _ _ F)
  end.
End BuiltInd.
Section DinstInd.
Variable P : dinst -> Prop.
Hypothesis H : forall class ref props children, Forall P children -> P (DInst class ref props children).
Fixpoint dinst_ind2 (d : dinst) : P d :=
  match d with
  | DInst class ref props children => H class ref props children
      ((fix go l : Forall P l := match l with [] => Forall_nil _ | c :: l => Forall_cons _ (dinst_ind2 c) (go l) end) children)
  end.
End DinstInd.
Lemma built_mono h h' d t : built h d t -> (forall p, In p (rnodes t) -> hget h' p = hget h p) -> built h' d t.
Proof.
  intros B. induction B as [d p ts E F IH] using built_ind2. intros Hh. constructor.
  - rewrite Hh; [exact E|]. now left.
  - assert (Hh' : forall t q, In t ts -> In q (rnodes t) -> hget h' q = hget h q) by (intros t q Ht Hq; apply Hh; right; apply in_flat_map; eauto).
    clear E F Hh. induction IH as [|d' t' ds' ts' X Y IH]; constructor.
    + apply X. intros q Hq. apply (Hh' t' q); [now left|exact Hq].
    + apply IH. intros t q Ht. apply Hh'. now right.
Qed.
(** What building a list of declarations does. *)
Definition builds (ds : list dinst) (s : bst) (qs : list ptr) (s' : bst) : Prop :=
  exists ts, qs = map rroot ts /\ Forall2 mirrors ds ts /\ Forall2 (built (b_heap s')) ds ts /\
    fnodes ts = seq (S (length (b_heap s))) (length (all_nodes ds)) /\
    length (b_heap s') = length (b_heap s) + length (all_nodes ds) /\
    (forall q, q <= length (b_heap s) -> hget (b_heap s') q = hget (b_heap s) q) /\
    b_props s' = b_props s ++ combine (fnodes ts) (map d_props (all_nodes ds)) /\
    b_refs s' = fold_left add_label (combine (all_nodes ds) (fnodes ts)) (b_refs s).
Lemma d_nodes_eq d : d_nodes d = d :: all_nodes (d_children d).
Proof. now destruct d. Qed.
Lemma combine_app {A B} (a a' : list A) (b b' : list B) : length a = length b -> combine (a ++ a') (b ++ b') = combine a b ++ combine a' b'.
Proof. revert b. induction a as [|x a IH]; intros [|y b] H; try discriminate; [reflexivity|]. cbn [combine app]. f_equal. apply IH. now injection H. Qed.
Lemma build_list_spec ds s : Forall (fun d => forall s, let '(q, s') := build d s in builds [d] s [q] s') ds ->
  let '(qs, s') := build_list ds s in builds ds s qs s'.
Proof.
  intros H. revert s. induction H as [|d ds Hd _ IH]; intros s.
  - cbn [build_list]. exists []. cbn [map fnodes flat_map all_nodes seq length combine fold_left]. repeat split; try constructor; try lia; now rewrite ?app_nil_r.
  - cbn [build_list]. specialize (Hd s). destruct (build d s) as [q s1] eqn:E1. specialize (IH s1). destruct (build_list ds s1) as [qs s2] eqn:E2.
    destruct Hd as (ts1 & Q1 & M1 & B1 & N1 & L1 & O1 & P1 & R1). destruct IH as (ts2 & Q2 & M2 & B2 & N2 & L2 & O2 & P2 & R2).
    destruct ts1 as [|t1 [|? ?]]; try discriminate Q1. injection Q1 as ->.
    assert (EA : all_nodes (d :: ds) = all_nodes [d] ++ all_nodes ds) by (unfold all_nodes; cbn [flat_map]; now rewrite app_nil_r).
    assert (EF : fnodes (t1 :: ts2) = fnodes [t1] ++ fnodes ts2) by (unfold fnodes; cbn [flat_map]; now rewrite app_nil_r).
    inversion M1; subst. inversion B1; subst.
    assert (Len : length (fnodes [t1]) = length (all_nodes [d])) by (rewrite N1; apply seq_length).
    exists (t1 :: ts2). split; [reflexivity|]. split; [now constructor|]. split.
    { constructor; [|exact B2]. eapply built_mono; [eassumption|]. intros p Hp. apply O2. assert (Hin : In p (fnodes [t1])) by (unfold fnodes; cbn [flat_map]; rewrite app_nil_r; exact Hp).
      rewrite N1 in Hin. apply in_seq in Hin. lia. }
    rewrite EA, EF. rewrite app_length. split; [rewrite N1, N2, L1, seq_app; f_equal; f_equal; lia|]. split; [lia|].
    split; [intros q0 Hq; rewrite O2 by lia; now apply O1|]. split.
    + rewrite P2, P1, map_app, combine_app by (rewrite map_length; exact Len). now rewrite app_assoc.
    + rewrite R2, R1, combine_app by (symmetry; exact Len). now rewrite fold_left_app.
Qed.
Lemma build_spec d : forall s, let '(q, s') := build d s in builds [d] s [q] s'.
Proof.
  induction d as [class ref props children IH] using dinst_ind2. intros s. rewrite build_eq. cbv zeta.
  set (p := S (length (b_heap s))). set (s0 := Bst _ _ _). pose proof (build_list_spec children s0 IH) as HB.
  destruct (build_list children s0) as [cs s1]. destruct HB as (ts & -> & M & B & N & L & O & P & R).
  assert (L0 : length (b_heap s0) = S (length (b_heap s))) by (unfold s0; cbn [b_heap]; rewrite app_length; cbn; lia).
  assert (E0 : hget (b_heap s0) p = Some (Inst class ref false [] [])) by apply hget_new.
  assert (E1 : hget (b_heap s1) p = Some (Inst class ref false [] [])) by (rewrite O; [exact E0|unfold p; lia]). rewrite E1. cbn [i_class i_ref i_service i_props].
  set (h2 := hset (b_heap s1) p (Inst class ref false [] (map rroot ts))).
  assert (G : forall q, q <> p -> hget h2 q = hget (b_heap s1) q).
  { intros q Hq. unfold h2. rewrite hget_hset. destruct (Nat.eqb_spec q p); [congruence|reflexivity]. }
  assert (Gp : hget h2 p = Some (Inst class ref false [] (map rroot ts))).
  { unfold h2. rewrite hget_hset, Nat.eqb_refl, E1. reflexivity. }
  assert (EA : all_nodes [DInst class ref props children] = DInst class ref props children :: all_nodes children) by (unfold all_nodes; cbn [flat_map d_nodes]; now rewrite app_nil_r).
  assert (EF : fnodes [RNode p ts] = p :: fnodes ts) by (unfold fnodes; cbn [flat_map rnodes]; now rewrite app_nil_r).
  exists [RNode p ts]. cbn [b_heap b_refs b_props]. rewrite EA, EF. cbn [map rroot combine fold_left length seq d_props].
  split; [reflexivity|]. split; [repeat constructor; exact M|]. split.
  { constructor; [|constructor]. constructor; [exact Gp|]. cbn [d_children]. clear - B G N L0.
    assert (Hp : forall q, In q (fnodes ts) -> q <> p) by (intros q Hq; rewrite N in Hq; apply in_seq in Hq; unfold p; lia). clear N. clearbody h2.
    induction B as [|d t ds ts X Y IH]; constructor.
    - eapply built_mono; [exact X|]. intros q Hq. apply G. apply Hp. apply in_flat_map. exists t. split; [now left|exact Hq].
    - apply IH. intros q Hq. apply Hp. unfold fnodes in *. cbn [flat_map]. apply in_app_iff. now right. }
  split; [rewrite N, L0; reflexivity|]. split; [unfold h2; rewrite hset_length; lia|]. split.
  { intros q Hq. rewrite G by (unfold p; lia). rewrite O by lia. unfold s0. cbn [b_heap]. now apply hget_app. }
  split; [rewrite P; unfold s0; cbn [b_props]; now rewrite <- app_assoc|]. rewrite R. reflexivity.
Qed.
Lemma build_list_builds ds s : let '(qs, s') := build_list ds s in builds ds s qs s'.
Proof. apply build_list_spec. apply Forall_forall. intros d _. apply build_spec. Qed.
(** ** Labels *)
Definition label_at (ds : list dinst) (nodes : list ptr) (s : bytes) (q : ptr) : Prop :=
  (s <> [] /\ exists k d, nth_error ds k = Some d /\ d_ref d = s /\ nth_error nodes k = Some q /\
     forall k' d', k < k' -> nth_error ds k' = Some d' -> d_ref d' <> s) \/
  (q = 0 /\ (s = [] \/ forall d, In d ds -> d_ref d <> s)).
Lemma labels_spec ds : forall nodes, length ds = length nodes -> forall s, label_at ds nodes s (rget (fold_left add_label (combine ds nodes) []) s).
Proof.
  induction ds as [|d ds IH] using rev_ind; intros nodes Hn s.
  - right. split; [reflexivity|]. right. intros d [].
  - destruct nodes as [|p nodes _] using rev_ind; [rewrite app_length in Hn; cbn in Hn; lia|]. rewrite !app_length in Hn. cbn in Hn.
    assert (Hl : length ds = length nodes) by lia. specialize (IH nodes Hl s). rewrite combine_app by exact Hl. rewrite fold_left_app. cbn [combine fold_left].
    set (m := fold_left add_label (combine ds nodes) []) in *. unfold add_label. cbn [fst snd].
    assert (Keep : d_ref d <> s \/ s = [] -> label_at (ds ++ [d]) (nodes ++ [p]) s (rget m s)).
    { intros Hd. destruct IH as [(S0 & k & d0 & A1 & A2 & A3 & A4)|(A1 & A2)].
      - left. split; [exact S0|]. exists k, d0. assert (Hk : k < length ds) by (apply nth_error_Some; congruence).
        rewrite !nth_error_app1 by lia. repeat split; try assumption. intros k' d' Hk' E. destruct (lt_dec k' (length ds)) as [G|G].
        + rewrite nth_error_app1 in E by exact G. now apply (A4 k').
        + rewrite nth_error_app2 in E by lia. destruct (k' - length ds) as [|j]; [|destruct j; discriminate]. cbn in E. apply Some_eq in E. subst d'. destruct Hd as [Hd|Hd]; [exact Hd|now destruct S0].
      - right. split; [exact A1|]. destruct Hd as [Hd|Hd]; [|now left]. destruct A2 as [A2|A2]; [now left|]. right. intros d' Hin. apply in_app_iff in Hin as [Hin|[<-|[]]]; [now apply A2|exact Hd]. }
    destruct (beqb_spec (d_ref d) []) as [E|E].
    + apply Keep. destruct (beqb_spec s []) as [->|Hs]; [now right|left; congruence].
    + unfold rget. rewrite mfind_mset. destruct (beqb_spec (d_ref d) s) as [Es|Es].
      * left. split; [congruence|]. exists (length ds), d. rewrite nth_error_app2, Nat.sub_diag by lia. rewrite Hl. rewrite nth_error_app2, Nat.sub_diag by lia. repeat split; try assumption.
        intros k' d' Hk E'. rewrite nth_error_app2 in E' by lia. destruct (k' - length ds) as [|j] eqn:Ek; [lia|destruct j; discriminate].
      * apply Keep. now left.
Qed.
Lemma label_fun ds nodes s q q' : label_at ds nodes s q -> label_at ds nodes s q' -> q = q'.
Proof.
  intros [(S0 & k & d & A1 & A2 & A3 & A4)|(A1 & A2)] [(S0' & k' & d' & B1 & B2 & B3 & B4)|(B1 & B2)].
  - destruct (Nat.lt_total k k') as [G|[G|G]]; [now destruct (A4 k' d' G B1)|congruence|now destruct (B4 k d G A1)].
  - destruct B2 as [->|B2]; [now destruct S0|]. apply nth_error_In in A1. now destruct (B2 d A1).
  - destruct A2 as [->|A2]; [now destruct S0'|]. apply nth_error_In in B1. now destruct (A2 d' B1).
  - congruence.
Qed.

(** ** Properties *)
Section Props.
Variable other : format -> Z -> Z -> N -> Z.
Variable refs : refmap.
Definition pvalue (p : dprop) : option rvalue := match d_value other (dp_type p) refs (dp_vals p) with OK v => v | _ => None end.
Definition sound (p : dprop) : Prop := exists v, d_value other (dp_type p) refs (dp_vals p) = OK (Some v).
Fixpoint entries (l : list dprop) (ps : list (bytes * rvalue)) : list (bytes * rvalue) :=
  match l with
  | [] => ps
  | p :: l => entries l (match pvalue p with Some v => mset ps (dp_name p) v | None => ps end)
  end.
Lemma last_prop_cons p l name : last_prop (p :: l) name = match last_prop l name with Some q => Some q | None => if bytes_eqb (dp_name p) name then Some p else None end.
Proof.
  unfold last_prop. cbn [rev]. generalize (rev l) as r. induction r as [|q r IH]; [reflexivity|]. cbn [app find]. destruct (bytes_eqb (dp_name q) name); [reflexivity|exact IH].
Qed.
Lemma entries_spec l : Forall sound l -> forall ps name, mfind (entries l ps) name = match last_prop l name with Some p => pvalue p | None => mfind ps name end.
Proof.
  induction 1 as [|p l [v Hv] _ IH]; intros ps name; [reflexivity|]. cbn [entries]. rewrite IH, last_prop_cons. destruct (last_prop l name); [reflexivity|].
  assert (E : pvalue p = Some v) by (unfold pvalue; now rewrite Hv). rewrite E, mfind_mset. destruct (beqb_spec (dp_name p) name); [now rewrite E|reflexivity].
Qed.
Lemma entries_keys l : forall ps, NoDup (map fst ps) -> NoDup (map fst (entries l ps)).
Proof. induction l as [|p l IH]; intros ps H; [exact H|]. cbn [entries]. apply IH. destruct (pvalue p); [now apply mset_keys|exact H]. Qed.
Lemma set_dprops_spec p l : Forall sound l -> forall h i, hget h p = Some i ->
  exists h', set_dprops other refs p l h = OK h' /\ length h' = length h /\ hget h' p = Some (set_props i (entries l (i_props i))) /\ forall q, q <> p -> hget h' q = hget h q.
Proof.
  induction 1 as [|d l [v Hv] _ IH]; intros h i Hi; cbn [set_dprops entries].
  - exists h. repeat split; try reflexivity. rewrite Hi. now destruct i.
  - assert (E : pvalue d = Some v) by (unfold pvalue; now rewrite Hv). rewrite Hv, E. cbn [obind]. rewrite Hi.
    set (i' := set_props i (mset (i_props i) (dp_name d) v)).
    assert (Hi' : hget (hset h p i') p = Some i') by (rewrite hget_hset, Nat.eqb_refl, Hi; reflexivity).
    destruct (IH (hset h p i') i' Hi') as (h' & E' & L & A & B). exists h'. split; [exact E'|]. split; [rewrite L; apply hset_length|]. split; [exact A|].
    intros q Hq. rewrite B by exact Hq. rewrite hget_hset. destruct (Nat.eqb_spec q p); [congruence|reflexivity].
Qed.
Lemma set_all_spec l : Forall (fun e => Forall sound (snd e)) l -> NoDup (map fst l) -> forall h, (forall p, In p (map fst l) -> exists i, hget h p = Some i) ->
  exists h', set_all_dprops other refs l h = OK h' /\ length h' = length h /\
    (forall p ps i, In (p, ps) l -> hget h p = Some i -> hget h' p = Some (set_props i (entries ps (i_props i)))) /\
    (forall q, ~ In q (map fst l) -> hget h' q = hget h q).
Proof.
  induction 1 as [|[p ps] l Hp _ IH]; intros Hn h Hx; cbn [set_all_dprops map fst snd] in *.
  - exists h. repeat split; try reflexivity. intros ? ? ? [].
  - inversion Hn as [|? ? N1 N2]; subst. destruct (Hx p ltac:(now left)) as [i Hi]. destruct (set_dprops_spec p ps Hp h i Hi) as (h1 & E1 & L1 & A1 & B1).
    assert (Hne : forall q, In q (map fst l) -> q <> p) by (intros q Hq ->; now apply N1).
    destruct (IH N2 h1) as (h2 & E2 & L2 & A2 & B2); [intros q Hq; rewrite B1 by (now apply Hne); apply Hx; now right|].
    exists h2. rewrite E1. cbn [obind]. split; [exact E2|]. split; [lia|]. split.
    + intros q qs j [E|Hin] Hj; [injection E as <- <-|].
      * rewrite B2 by exact N1. rewrite A1. congruence.
      * apply (A2 q qs j Hin). rewrite B1; [exact Hj|]. apply Hne. now apply (in_map fst) in Hin.
    + intros q Hq. rewrite B2 by (intros Hin; apply Hq; now right). apply B1. intros ->. apply Hq. now left.
Qed.
Definition panics (p : dprop) : Prop := d_value other (dp_type p) refs (dp_vals p) = Panic.
Lemma set_dprops_panic p l : Exists panics l -> forall h, set_dprops other refs p l h = Panic.
Proof.
  induction l as [|d l IH]; intros H h; [inversion H|]. cbn [set_dprops]. destruct (d_value other (dp_type d) refs (dp_vals d)) as [v|[]| |] eqn:E; cbn [obind].
  - apply IH. apply Exists_cons in H as [H|H]; [unfold panics in H; congruence|exact H].
  - reflexivity.
  - exfalso. exact (value_no_hang other _ _ _ E).
Qed.
Lemma set_dprops_cases p l : forall h, set_dprops other refs p l h = Panic \/ exists h', set_dprops other refs p l h = OK h'.
Proof.
  induction l as [|d l IH]; intros h; cbn [set_dprops]; [right; eauto|]. destruct (d_value other (dp_type d) refs (dp_vals d)) as [v|[]| |] eqn:E; cbn [obind].
  - apply IH.
  - now left.
  - exfalso. exact (value_no_hang other _ _ _ E).
Qed.
Lemma set_all_panic l : Exists (fun e => Exists panics (snd e)) l -> forall h, set_all_dprops other refs l h = Panic.
Proof.
  induction l as [|[p ps] l IH]; intros H h; [inversion H|]. cbn [set_all_dprops]. apply Exists_cons in H as [H|H].
  - cbn [snd] in H. now rewrite set_dprops_panic.
  - destruct (set_dprops_cases p ps h) as [->|[h' ->]]; [reflexivity|]. cbn [obind]. now apply IH.
Qed.
Lemma sound_or_panics l : Forall (fun p => NewValue (dp_type p) <> None) l -> Forall sound l \/ Exists panics l.
Proof.
  induction 1 as [|p l Hp _ [IH|IH]]; [left; constructor| |right; now constructor 2].
  destruct (d_value other (dp_type p) refs (dp_vals p)) as [r|[]| |] eqn:E.
  - left. constructor; [|exact IH]. destruct (value_typed other _ _ _ r Hp E) as (v & -> & _). exists v. exact E.
  - right. now constructor 1.
  - exfalso. exact (value_no_hang other _ _ _ E).
Qed.
Lemma sound_or_panics_all (l : list (ptr * list dprop)) : Forall (fun e => Forall (fun p => NewValue (dp_type p) <> None) (snd e)) l ->
  Forall (fun e => Forall sound (snd e)) l \/ Exists (fun e => Exists panics (snd e)) l.
Proof.
  induction 1 as [|e l He _ [IH|IH]]; [left; constructor| |right; now constructor 2].
  destruct (sound_or_panics _ He) as [G|G]; [left; now constructor|right; now constructor 1].
Qed.
(** The order does not matter. *)
Lemma hget_ext (h h' : heap) : (forall p, hget h p = hget h' p) -> h = h'.
Proof.
  intros H. assert (G : forall k, nth_error h k = nth_error h' k) by (intros k; apply (H (S k))). clear H. revert h' G.
  induction h as [|i h IH]; intros [|i' h'] G; [reflexivity|discriminate (G 0)|discriminate (G 0)|]. pose proof (G 0) as G0. cbn in G0. apply Some_eq in G0. subst i'. f_equal. apply IH. intros k. apply (G (S k)).
Qed.
Lemma set_all_order l l' h : Permutation l l' -> Forall (fun e => Forall (fun p => NewValue (dp_type p) <> None) (snd e)) l -> NoDup (map fst l) ->
  (forall p, In p (map fst l) -> exists i, hget h p = Some i) -> set_all_dprops other refs l h = set_all_dprops other refs l' h.
Proof.
  intros P Hp Hn Hx. assert (Pf : Permutation (map fst l) (map fst l')) by now apply Permutation_map.
  destruct (sound_or_panics_all l Hp) as [G|G].
  - assert (G' : Forall (fun e => Forall sound (snd e)) l') by (eapply Permutation_Forall; eassumption).
    assert (Hn' : NoDup (map fst l')) by (eapply Permutation_NoDup; eassumption).
    destruct (set_all_spec l G Hn h Hx) as (h1 & E1 & L1 & A1 & B1).
    destruct (set_all_spec l' G' Hn' h) as (h2 & E2 & L2 & A2 & B2); [intros p Hin; apply Hx; eapply Permutation_in; [symmetry; exact Pf|exact Hin]|].
    rewrite E1, E2. f_equal. apply hget_ext. intros p. destruct (in_dec Nat.eq_dec p (map fst l)) as [Hin|Hni].
    + destruct (Hx p Hin) as [i Hi]. apply in_map_iff in Hin. destruct Hin as ([p' ps] & <- & Hin). cbn [fst] in *.
      rewrite (A1 p' ps i Hin Hi). rewrite (A2 p' ps i); [reflexivity|eapply Permutation_in; eassumption|exact Hi].
    + rewrite B1 by exact Hni. rewrite B2; [reflexivity|]. intros Hin. apply Hni. eapply Permutation_in; [symmetry; exact Pf|exact Hin].
  - rewrite (set_all_panic l G). symmetry. apply set_all_panic. apply Exists_exists in G. destruct G as (e & He & G). apply Exists_exists. exists e. split; [eapply Permutation_in; eassumption|exact G].
Qed.
End Props.

(** ** Declarations *)
Lemma built_nodes h d t : built h d t -> Forall2 (fun d p => exists cs, hget h p = Some (Inst (d_class d) (d_ref d) false [] cs)) (d_nodes d) (rnodes t).
Proof.
  intros B. induction B as [d p ts E F IH] using built_ind2. rewrite d_nodes_eq. cbn [rnodes]. constructor; [eauto|]. clear E F. unfold all_nodes.
  induction IH as [|d' t' ds' ts' X Y IH]; cbn [flat_map]; [constructor|]. apply Forall2_app; assumption.
Qed.
Lemma built_all h ds ts : Forall2 (built h) ds ts -> Forall2 (fun d p => exists cs, hget h p = Some (Inst (d_class d) (d_ref d) false [] cs)) (all_nodes ds) (fnodes ts).
Proof. induction 1 as [|d t ds ts X Y IH]; [constructor|]. unfold all_nodes, fnodes. cbn [flat_map]. apply Forall2_app; [now apply built_nodes|exact IH]. Qed.
Lemma built_tree h h' d t : built h d t -> (forall p i, In p (rnodes t) -> hget h p = Some i -> exists i', hget h' p = Some i' /\ i_children i' = i_children i) -> tree_at h' t.
Proof.
  intros B. induction B as [d p ts E F IH] using built_ind2. intros H. destruct (H p _ ltac:(now left) E) as (i' & E' & C). apply tree_node with (i := i'); [exact E'|now rewrite C|].
  assert (H' : forall t, In t ts -> forall p i, In p (rnodes t) -> hget h p = Some i -> exists i', hget h' p = Some i' /\ i_children i' = i_children i).
  { intros t Ht q i Hq. apply H. right. apply in_flat_map. eauto. }
  clear E F H E' C. induction IH as [|d' t' ds' ts' X Y IH]; constructor; [apply X; apply H'; now left|]. apply IH. intros t Ht. apply H'. now right.
Qed.
Lemma Forall2_nth {A B} (R : A -> B -> Prop) l l' : Forall2 R l l' -> forall k a b, nth_error l k = Some a -> nth_error l' k = Some b -> R a b.
Proof.
  induction 1 as [|x y l l' Hxy _ IH]; intros [|k] a b; cbn [nth_error]; try discriminate; [|apply IH]. intros Ea Eb. apply Some_eq in Ea, Eb. now subst.
Qed.
Lemma combine_nth {A B} (a : list A) (b : list B) k x y : nth_error a k = Some x -> nth_error b k = Some y -> In (x, y) (combine a b).
Proof. revert b k. induction a as [|u a IH]; intros [|v b] [|k]; cbn [nth_error combine]; try discriminate; [intros E1 E2; apply Some_eq in E1, E2; subst; now left|]. intros E1 E2. right. eapply IH; eassumption. Qed.
Lemma map_fst_combine {A B} (a : list A) (b : list B) : length a = length b -> map fst (combine a b) = a.
Proof. revert b. induction a as [|u a IH]; intros [|v b] H; try discriminate; [reflexivity|]. cbn [combine map fst]. f_equal. apply IH. now injection H. Qed.
Lemma map_snd_combine {A B} (a : list A) (b : list B) : length a = length b -> map snd (combine a b) = b.
Proof. revert b. induction a as [|u a IH]; intros [|v b] H; try discriminate; [reflexivity|]. cbn [combine map snd]. f_equal. apply IH. now injection H. Qed.
Section Declare.
Variable other : format -> Z -> Z -> N -> Z.
Variable h : heap.
Lemma explodes_panics refs p : explodes p <-> panics other refs p.
Proof. symmetry. apply value_panics. Qed.
Section Built.
Variables (ds : list dinst) (qs : list ptr) (s' : bst).
Hypothesis HB : builds ds (Bst h [] []) qs s'.
Lemma props_facts : map fst (b_props s') = seq (S (length h)) (length (all_nodes ds)) /\ map snd (b_props s') = map d_props (all_nodes ds) /\
  NoDup (map fst (b_props s')) /\ (forall p, In p (map fst (b_props s')) -> exists i, hget (b_heap s') p = Some i).
Proof.
  destruct HB as (ts & _ & _ & B & N & L & _ & P & _). cbn [b_props b_heap app] in *. rewrite P.
  assert (Len : length (fnodes ts) = length (map d_props (all_nodes ds))) by (rewrite N, seq_length, map_length; reflexivity).
  rewrite map_fst_combine, map_snd_combine by exact Len. split; [exact N|]. split; [reflexivity|]. rewrite N. split; [apply seq_NoDup|].
  intros p Hp. apply in_seq in Hp. apply hget_range. lia.
Qed.
Lemma props_proper : Forall proper (all_nodes ds) -> Forall (fun e => Forall (fun p => NewValue (dp_type p) <> None) (snd e)) (b_props s').
Proof.
  intros Hp. destruct props_facts as (_ & Hs & _). apply Forall_forall. intros e He. apply (in_map snd) in He. rewrite Hs in He. apply in_map_iff in He. destruct He as (d & <- & Hd).
  rewrite Forall_forall in Hp. apply (Hp d Hd).
Qed.
Lemma exploding : Exists (fun e => Exists (panics other (b_refs s')) (snd e)) (b_props s') <-> exists d p, In d (all_nodes ds) /\ In p (d_props d) /\ explodes p.
Proof.
  destruct props_facts as (_ & Hs & _). split.
  - intros H. apply Exists_exists in H. destruct H as (e & He & H). apply Exists_exists in H. destruct H as (p & Hp & H).
    apply (in_map snd) in He. rewrite Hs in He. apply in_map_iff in He. destruct He as (d & Ed & Hd). exists d, p. rewrite Ed. split; [exact Hd|]. split; [exact Hp|]. now apply explodes_panics in H.
  - intros (d & p & Hd & Hp & H). apply (in_map d_props) in Hd. rewrite <- Hs in Hd. apply in_map_iff in Hd. destruct Hd as (e & Ed & He). apply Exists_exists. exists e. split; [exact He|].
    apply Exists_exists. exists p. rewrite Ed. split; [exact Hp|]. now apply explodes_panics.
Qed.
Variable ord : list (ptr * list dprop) -> list (ptr * list dprop).
Hypothesis Hord : any_decls ord.
Hypothesis Hp : Forall proper (all_nodes ds).
Lemma finish_panic : (exists d p, In d (all_nodes ds) /\ In p (d_props d) /\ explodes p) -> set_all_dprops other (b_refs s') (ord (b_props s')) (b_heap s') = Panic.
Proof.
  intros H. apply exploding in H. apply set_all_panic. apply Exists_exists in H. destruct H as (e & He & H). apply Exists_exists. exists e. split; [|exact H].
  eapply Permutation_in; [apply Hord|exact He].
Qed.
Lemma finish_ok : ~ (exists d p, In d (all_nodes ds) /\ In p (d_props d) /\ explodes p) ->
  exists ts h', set_all_dprops other (b_refs s') (ord (b_props s')) (b_heap s') = OK h' /\ qs = map rroot ts /\ declared other h ds ts h'.
Proof.
  intros Hne. destruct props_facts as (F1 & F2 & F3 & F4).
  rewrite <- (set_all_order other (b_refs s') _ _ (b_heap s') (Hord (b_props s')) (props_proper Hp) F3 F4).
  destruct (sound_or_panics_all other (b_refs s') _ (props_proper Hp)) as [G|G]; [|now apply exploding in G].
  destruct (set_all_spec other (b_refs s') _ G F3 _ F4) as (h' & E & L' & A & B').
  destruct HB as (ts & Q & M & B & N & L & O & P & R). cbn [b_props b_heap b_refs app] in *.
  pose proof (built_all _ _ _ B) as BA. assert (Len : length (fnodes ts) = length (all_nodes ds)) by (rewrite N; apply seq_length).
  assert (Hnode : forall k d p, nth_error (all_nodes ds) k = Some d -> nth_error (fnodes ts) k = Some p ->
    exists cs, hget (b_heap s') p = Some (Inst (d_class d) (d_ref d) false [] cs) /\ hget h' p = Some (Inst (d_class d) (d_ref d) false (entries other (b_refs s') (d_props d) []) cs)).
  { intros k d p Hd Hq. destruct (Forall2_nth _ _ _ BA k d p Hd Hq) as [cs Hc]. exists cs. split; [exact Hc|].
    assert (Hin : In (p, d_props d) (b_props s')) by (rewrite P; eapply combine_nth; [exact Hq|now apply map_nth_error]).
    rewrite (A p _ _ Hin Hc). reflexivity. }
  exists ts, h'. split; [exact E|]. split; [exact Q|]. split.
  - exact M.
  - split; [|rewrite N; apply seq_NoDup]. apply Forall_forall. intros t Ht. destruct (In_nth_error _ _ Ht) as [k Hk].
    assert (Bt : exists d, built (b_heap s') d t).
    { clear - B Ht. induction B as [|d t' ds ts X Y IH]; [destruct Ht|]. destruct Ht as [->|Ht]; [eauto|now apply IH]. }
    destruct Bt as [d Bt]. eapply built_tree; [exact Bt|]. intros p i Hin Hi.
    assert (Hf : In p (fnodes ts)) by (apply in_flat_map; eauto). destruct (In_nth_error _ _ Hf) as [k' Hk'].
    destruct (nth_error (all_nodes ds) k') as [d'|] eqn:Ed; [|apply nth_error_None in Ed; assert (k' < length (fnodes ts)) by (apply nth_error_Some; congruence); lia].
    destruct (Hnode k' d' p Ed Hk') as (cs & H1 & H2). rewrite H1 in Hi. apply Some_eq in Hi. subst i. eexists. split; [exact H2|reflexivity].
  - exact N.
  - lia.
  - intros q Hq. rewrite B' by (rewrite F1; rewrite in_seq; lia). now apply O.
  - exists (b_refs s'). split; [rewrite R; apply labels_spec; lia|]. intros k d p Hd Hq. destruct (Hnode k d p Hd Hq) as (cs & _ & H2). eexists. split; [exact H2|].
    repeat split; cbn [i_props].
    + apply entries_keys. constructor.
    + intros name. rewrite entries_spec.
      * destruct (last_prop (d_props d) name); reflexivity.
      * rewrite Forall_forall in G. apply nth_error_In in Hd. apply (in_map d_props) in Hd. rewrite <- F2 in Hd. apply in_map_iff in Hd. destruct Hd as (e & Ee & He). rewrite <- Ee. now apply G.
Qed.
End Built.
(** *** The loop over a Root declaration *)
Lemma declare_loop_eq l : forall r s, declare_loop l r s =
  let '(qs, s') := build_list (root_insts l) s in
  (Root (r_instances r ++ qs) (fold_left (fun m kv => mset m (fst kv) (snd kv)) (root_metas l) (r_metadata r)), s').
Proof.
  induction l as [|[d|k v] l IH]; intros r s; cbn [declare_loop].
  - cbn. rewrite app_nil_r. now destruct r.
  - change (root_insts (PInst d :: l)) with (d :: root_insts l). change (root_metas (PInst d :: l)) with (root_metas l). cbn [build_list].
    destruct (build d s) as [q s1]. rewrite IH. destruct (build_list (root_insts l) s1) as [qs s2]. cbn [r_instances r_metadata]. now rewrite <- app_assoc.
  - rewrite IH. reflexivity.
Qed.
Lemma metas_spec l : forall m k, mfind (fold_left (fun m kv => mset m (fst kv) (snd kv)) l m) k = match last_meta l k with Some v => Some v | None => mfind m k end.
Proof.
  induction l as [|[k' v] l IH]; intros m k; [reflexivity|]. cbn [fold_left fst snd]. rewrite IH. unfold last_meta. cbn [rev]. rewrite mfind_mset.
  assert (E : forall r : list (bytes * bytes), find (fun kv => bytes_eqb (fst kv) k) (r ++ [(k', v)]) = match find (fun kv => bytes_eqb (fst kv) k) r with Some x => Some x | None => if bytes_eqb k' k then Some (k', v) else None end).
  { induction r as [|x r IHr]; [reflexivity|]. cbn [app find]. destruct (bytes_eqb (fst x) k); [reflexivity|exact IHr]. }
  rewrite E. destruct (find _ (rev l)) as [x|]; [reflexivity|]. cbn [option_map]. now destruct (bytes_eqb k' k).
Qed.
Lemma metas_keys l : forall m, NoDup (map fst m) -> NoDup (map fst (fold_left (fun (m : list (bytes * bytes)) kv => mset m (fst kv) (snd kv)) l m)).
Proof. induction l as [|kv l IH]; intros m H; [exact H|]. cbn [fold_left]. apply IH. now apply mset_keys. Qed.
End Declare.
