(** XmlTreeDec.v - what the XML decoder makes of the encoder's tags. *)
From Coq Require Import Permutation.
From Verif Require Import Base RbxlValues RbxValues Tree RbxlCodec SpecValues SpecTree SpecCodec SortProofs TreeProofs RbxlCodecEnc
  XmlText XmlDoc XmlCodec SpecXml XmlTextProofs XmlLayout XmlBare XmlValues XmlTreeEnc.
Local Notation string := String.string.

Section Dec.
Variable (env : xenv) (discard : bool) (h0 : heap) (noref : bool) (rho : ptr -> bytes) (K : bytes -> ptr -> Prop).
Let fl := xe_fl env.
Definition imm_props (l : list (bytes * rvalue)) (acc : list (bytes * rvalue)) : list (bytes * rvalue) :=
  fold_left (fun m nv => match imm env discard (snd nv) with Some v => mset m (fst nv) v | None => m end) l acc.
Definition nl_list (s : rdst) (h : heap) (look : refmap) (refs strs : list propref) : rdst :=
  Rdst (rd_heap s ++ h) look (rd_props s ++ refs) (rd_strs s ++ strs) (rd_warn s).
Lemma get_props_in p l : forall pts acc s, Forall2 (ptag_in env discard rho K) l pts ->
  get_props env discard p (map settled pts) acc s =
  OK (imm_props l acc, Rdst (rd_heap s) (rd_look s) (rd_props s ++ flat_map (later_ref rho p) l) (rd_strs s ++ flat_map (later_str env p) l) (rd_warn s)).
Proof.
  induction l as [|[n v] l IH]; intros pts acc s H.
  - inversion H; subst. cbn [map get_props imm_props fold_left flat_map]. now rewrite <- rd_same.
  - inversion H as [|a t b ts [[_ Ht] _] Hts]; subst. cbn [map get_props]. rewrite Ht. cbn [obind]. rewrite IH by exact Hts. cbn [rd_heap rd_look rd_props rd_strs rd_warn flat_map imm_props fold_left fst snd].
    rewrite <- !app_assoc. destruct (imm env discard v); reflexivity.
Qed.

Variable phi : ptr -> ptr.
Definition inst_at (p : ptr) : inst := match hget h0 p with Some i => i | None => Inst [] [] false [] [] end.
Definition sprops (p : ptr) : list (bytes * rvalue) := sort_by fst (i_props (inst_at p)).
Definition cell (p : ptr) : inst :=
  Inst (nl (i_class (inst_at p))) (if noref then [] else rho p) false (imm_props (sprops p) []) (map phi (i_children (inst_at p))).
Definition refs_of (p : ptr) : list propref := flat_map (later_ref rho (phi p)) (sprops p).
Definition strs_of (p : ptr) : list propref := flat_map (later_str env (phi p)) (sprops p).
Definition look_of (l : list ptr) (m : refmap) : refmap := if noref then m else fold_left (fun m p => mset m (rho p) (phi p)) l m.
Definition placed (a : nat) (l : list ptr) : Prop := forall k p, nth_error l k = Some p -> phi p = a + k.
Definition after (s : rdst) (l : list ptr) : rdst :=
  Rdst (rd_heap s ++ map cell l) (look_of l (rd_look s)) (rd_props s ++ flat_map refs_of l) (rd_strs s ++ flat_map strs_of l) (rd_warn s).
Lemma after_app s a b : after (after s a) b = after s (a ++ b).
Proof.
  unfold after. cbn [rd_heap rd_look rd_props rd_strs rd_warn]. rewrite !map_app, !flat_map_app, <- !app_assoc. f_equal.
  unfold look_of. destruct noref; [reflexivity|]. now rewrite fold_left_app.
Qed.
Lemma after_nil s : after s [] = s.
Proof. unfold after, look_of. cbn. rewrite !app_nil_r. destruct noref; now destruct s. Qed.
Lemma placed_app a l1 l2 : placed a (l1 ++ l2) -> placed a l1 /\ placed (a + length l1) l2.
Proof.
  intros H. split; intros k p Hk.
  - apply H. rewrite nth_error_app1; [exact Hk|]. apply nth_error_Some. congruence.
  - rewrite (H (length l1 + k) p); [lia|]. rewrite nth_error_app2 by lia. now replace (length l1 + k - length l1) with k by lia.
Qed.
Lemma hset_last h i j : hset (h ++ [i]) (S (length h)) j = h ++ [j].
Proof. cbn [hset]. induction h as [|a h IH]; [reflexivity|]. cbn. now rewrite IH. Qed.
Lemma hset_mid h i j l : hset (h ++ i :: l) (S (length h)) j = h ++ j :: l.
Proof. cbn [hset]. induction h as [|a h IH]; [reflexivity|]. cbn. now rewrite IH. Qed.
Lemma length_after s l : length (rd_heap (after s l)) = length (rd_heap s) + length l.
Proof. unfold after. cbn [rd_heap]. now rewrite app_length, map_length. Qed.

Definition reads_item (t : rtree) (tg : tag) : Prop := forall s, placed (S (length (rd_heap s))) (rnodes t) ->
  get_item env discard (settled tg) s = OK (Some (phi (rroot t)), after s (rnodes t)).
Lemma items_in parent has props ts : forall tgs insts s, Forall2 reads_item ts tgs -> Forall (fun t => t_start t = str "Item") tgs ->
  placed (S (length (rd_heap s))) (fnodes ts) ->
  items_loop env discard (get_item env discard) parent (map settled tgs) has props insts s = OK (insts ++ map phi (map rroot ts), props, after s (fnodes ts)).
Proof.
  induction ts as [|t ts IH]; intros tgs insts s H Hst Hpl; inversion H as [|a tg b tgs' Ht Hts]; subst; cbn [map items_loop].
  - rewrite app_nil_r. now rewrite after_nil.
  - apply Forall_cons_iff in Hst as [Hst Hst']. rewrite settled_name, Hst. change (bytes_eqb (str "Item") (str "Item")) with true. cbv iota.
    rewrite fnodes_cons in *. apply placed_app in Hpl as [Hp1 Hp2]. rewrite (Ht s Hp1). cbn [obind].
    rewrite IH; [|exact Hts|exact Hst'|rewrite length_after; replace (S (length (rd_heap s) + length (rnodes t))) with (S (length (rd_heap s)) + length (rnodes t)) by lia; exact Hp2].
    rewrite after_app, <- app_assoc. reflexivity.
Qed.
Lemma itag_start t tg : itag env discard h0 noref rho K t tg -> t_start tg = str "Item".
Proof. now inversion 1. Qed.
Lemma item_class c r : attr_value (map nl_attr (item_attrs noref c r)) (str "class") = Some (nl c).
Proof. unfold item_attrs. now destruct noref. Qed.
Lemma item_ref c r : no_cr r = true -> attr_value (map nl_attr (item_attrs noref c r)) (str "referent") = if noref then None else Some r.
Proof. intros H. unfold item_attrs. destruct noref; [reflexivity|]. cbn [map]. unfold nl_attr. cbn [fst snd]. now rewrite (nl_no_cr r H). Qed.
Lemma itag_ind' (P : rtree -> tag -> Prop) :
  (forall p ts i pts kids, hget h0 p = Some i -> K [] p -> IsEmptyReference (rho p) = false -> no_cr (rho p) = true ->
    Forall2 (ptag_in env discard rho K) (sort_by fst (i_props i)) pts -> Forall2 (fun t tg => itag env discard h0 noref rho K t tg /\ P t tg) ts kids ->
    P (RNode p ts) (Tag (str "Item") [] (item_attrs noref (i_class i) (rho p)) false false None [] false (node (str "Properties") pts :: kids))) ->
  forall t tg, itag env discard h0 noref rho K t tg -> P t tg.
Proof.
  intros H. fix go 3. intros t tg [p ts i pts kids H1 H2 H3 H4 H5 H6]. apply H; auto.
  clear H5. induction H6 as [|u ug us ks Hu _ IH]; constructor; [split; [exact Hu|now apply go]|exact IH].
Qed.
Lemma reads_tree t tg : itag env discard h0 noref rho K t tg -> tree_at h0 t -> reads_item t tg.
Proof.
  intros H. revert t tg H. refine (itag_ind' _ _). intros p ts i pts kids Hi HK Hne Hcr Hpts Hkids Ht s Hpl.
  inversion Ht as [p' ts' i' Hi' Hc Hts]; subst p' ts'. rewrite Hi in Hi'. apply Some_eq in Hi'. subst i'.
  cbn [settled get_item]. rewrite item_class. rewrite item_ref by exact Hcr. cbn [map].
  assert (Ephi : phi p = S (length (rd_heap s))) by (rewrite (Hpl 0 p); [lia|reflexivity]).
  set (ref := if noref then [] else rho p).
  assert (Er : match (if noref then None else Some (rho p)) with Some r => r | None => [] end = ref) by (unfold ref; now destruct noref).
  rewrite Er. rewrite <- Ephi.
  set (s1 := Rdst (rd_heap s ++ [Inst (nl (i_class i)) ref false [] []]) (if IsEmptyReference ref then rd_look s else mset (rd_look s) ref (phi p)) (rd_props s) (rd_strs s) (rd_warn s)).
  change (items_loop env discard (get_item env discard) (phi p) (settled (node (str "Properties") pts) :: map settled kids) false [] [] s1) with
    (if false || (phi p =? 0)%nat then items_loop env discard (get_item env discard) (phi p) (map settled kids) false [] [] s1
     else ' (props, s) <- get_props env discard (phi p) (map settled pts) [] s1 ;; items_loop env discard (get_item env discard) (phi p) (map settled kids) true props [] s).
  replace (phi p =? 0) with false by (symmetry; apply Nat.eqb_neq; lia). cbn [orb].
  rewrite (get_props_in _ _ _ _ _ Hpts). cbn [obind].
  set (s2 := Rdst _ _ _ _ _).
  assert (Hs2 : s2 = Rdst (rd_heap s ++ [Inst (nl (i_class i)) ref false [] []]) (look_of [p] (rd_look s)) (rd_props s ++ refs_of p) (rd_strs s ++ strs_of p) (rd_warn s)).
  { unfold s2, s1. cbn [rd_heap rd_look rd_props rd_strs rd_warn]. unfold refs_of, strs_of, sprops, inst_at. rewrite Hi. f_equal.
    unfold look_of, ref. destruct noref; [reflexivity|]. cbn [fold_left]. now rewrite Hne. }
  assert (L : length (rd_heap s2) = S (length (rd_heap s))) by (rewrite Hs2; cbn [rd_heap]; rewrite app_length; cbn [length]; lia).
  cbn [rnodes] in Hpl. change (p :: flat_map rnodes ts) with ([p] ++ fnodes ts) in Hpl. apply placed_app in Hpl as [_ Hpl]. cbn [length] in Hpl.
  rewrite items_in with (ts := ts).
  - cbn [obind app rroot]. f_equal. f_equal. unfold after. rewrite Hs2. cbn [rd_heap rd_look rd_props rd_strs rd_warn]. rewrite rnodes_node. cbn [map flat_map].
    rewrite <- !app_assoc. f_equal.
    + rewrite Ephi. cbn [app]. rewrite hset_mid. f_equal. f_equal. unfold cell, sprops, inst_at. rewrite Hi, Hc. reflexivity.
    + unfold look_of. destruct noref; [reflexivity|]. reflexivity.
  - clear -Hkids Hts. revert Hts. induction Hkids as [|t tg ts kids [_ Hr] _ IH]; intros Hts; constructor; apply Forall_cons_iff in Hts as [? ?]; auto.
  - clear -Hkids. induction Hkids as [|t tg ts kids [Hr _] _ IH]; constructor; auto. eapply itag_start; eauto.
  - rewrite L. replace (S (S (length (rd_heap s)))) with (S (length (rd_heap s)) + 1) by lia. exact Hpl.
Qed.
Lemma reads_forest ts tgs : Forall2 (itag env discard h0 noref rho K) ts tgs -> Forall (tree_at h0) ts ->
  Forall2 reads_item ts tgs /\ Forall (fun t => t_start t = str "Item") tgs.
Proof.
  induction 1 as [|t tg ts tgs Ht _ IH]; intros Hts; [split; constructor|]. apply Forall_cons_iff in Hts as [Hu Hts]. destruct (IH Hts) as [A B].
  split; constructor; auto; [now apply reads_tree|now apply itag_start in Ht].
Qed.
(** The tags are plain. *)
Lemma plain_items t tg : itag env discard h0 noref rho K t tg -> plain_tag tg = true.
Proof.
  revert t tg. refine (itag_ind' _ _). intros p ts i pts kids Hi HK Hne Hcr Hpts Hkids. cbn [plain_tag].
  assert (Ea : forallb (fun a => good_name (fst a)) (item_attrs noref (i_class i) (rho p)) = true) by (unfold item_attrs; now destruct noref).
  rewrite Ea. change (good_name (str "Item")) with true. cbn [nonempty negb andb forallb]. apply andb_true_intro. split.
  - cbn [plain_tag node]. change (good_name (str "Properties")) with true. cbn [nonempty negb andb forallb]. clear -Hpts.
    induction Hpts as [|nv t l ts [[Hp _] _] _ IH]; [reflexivity|]. cbn [forallb]. now rewrite Hp.
  - clear -Hkids. induction Hkids as [|t tg ts kids [_ Hr] _ IH]; [reflexivity|]. cbn [forallb]. now rewrite Hr.
Qed.
End Dec.
