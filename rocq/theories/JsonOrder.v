(** JsonOrder.v - the JSON reader does not depend on map iteration order. *)
From Coq Require Import Permutation.
From Verif Require Import Base RbxlValues RbxValues Tree RbxlCodec XmlText Ieee Json SpecValues SpecTree SpecCodec SpecJson TreeProofs
  JsonProofs RbxlFileProofs XmlTreeEnc JsonDec JsonRead.

Lemma same_inst_refl i : same_inst i i.
Proof. repeat split. Qed.
Lemma same_inst_sym i j : same_inst i j -> same_inst j i.
Proof. intros (A & B & C & D & E). repeat split; congruence. Qed.
Lemma same_inst_trans i j k : same_inst i j -> same_inst j k -> same_inst i k.
Proof. intros (A & B & C & D & E) (A' & B' & C' & D' & E'). repeat split; congruence. Qed.
Lemma same_heap_refl h : same_heap h h.
Proof. induction h; constructor; [apply same_inst_refl|exact IHh]. Qed.
Lemma same_heap_sym h k : same_heap h k -> same_heap k h.
Proof. induction 1; constructor; [now apply same_inst_sym|exact IHForall2]. Qed.
Lemma same_heap_trans h k l : same_heap h k -> same_heap k l -> same_heap h l.
Proof.
  intros H. revert l. induction H as [|i j h k Hij H IH]; intros l Hl; inversion Hl; subst; constructor; [eapply same_inst_trans; eauto|now apply IH].
Qed.
Lemma same_heap_get h k p : same_heap h k ->
  match hget h p, hget k p with Some i, Some j => same_inst i j | None, None => True | _, _ => False end.
Proof.
  intros H. destruct p as [|p]; [exact I|]. unfold hget. revert p. induction H as [|i j h k Hij H IH]; intros [|p]; cbn [nth_error]; [exact I|exact I|exact Hij|exact (IH p)].
Qed.
Lemma same_heap_length h k : same_heap h k -> length h = length k.
Proof. induction 1; cbn [length]; congruence. Qed.
Lemma same_heap_ext h k : length h = length k -> (forall p i, hget h p = Some i -> exists j, hget k p = Some j /\ same_inst i j) -> same_heap h k.
Proof.
  revert k. induction h as [|i h IH]; intros [|j k] HL H; try discriminate HL; constructor.
  - destruct (H 1 i eq_refl) as (j' & E & S). cbn in E. apply Some_eq in E. now subst j'.
  - apply IH; [cbn [length] in HL; lia|]. intros [|p] x Hx; [discriminate Hx|]. exact (H (S (S p)) x Hx).
Qed.
Lemma same_heap_set h k p i j : same_heap h k -> same_inst i j -> same_heap (hset h p i) (hset k p j).
Proof.
  intros H S. apply same_heap_ext; [rewrite !hset_length; now apply same_heap_length|]. intros q x. rewrite !hget_hset. pose proof (same_heap_get h k q H) as G.
  destruct (Nat.eqb_spec q p) as [->|_].
  - destruct (hget h p) as [a|], (hget k p) as [b|]; try contradiction; cbn [option_map]; intros E; [|discriminate E]. apply Some_eq in E. subst x. eauto.
  - intros E. rewrite E in G. destruct (hget k q) as [y|]; [eauto|contradiction].
Qed.
Lemma same_heap_app h k i j : same_heap h k -> same_inst i j -> same_heap (h ++ [i]) (k ++ [j]).
Proof. intros H S. apply Forall2_app; [exact H|]. constructor; [exact S|constructor]. Qed.

(** The references for one property of one instance. *)
Definition about (p : ptr) (n : bytes) (e : propref) : bool := (pr_inst e =? p)%nat && bytes_eqb (pr_prop e) n.
Definition sel p n l := filter (about p n) l.
Definition seq (s1 s2 : jdst) : Prop :=
  jd_refs s1 = jd_refs s2 /\ same_heap (jd_heap s1) (jd_heap s2) /\ forall p n, sel p n (jd_props s1) = sel p n (jd_props s2).
Lemma seq_refl s : seq s s.
Proof. split; [reflexivity|]. split; [apply same_heap_refl|reflexivity]. Qed.
Lemma seq_trans a b c : seq a b -> seq b c -> seq a c.
Proof. intros (A & B & C) (A' & B' & C'). split; [congruence|]. split; [eapply same_heap_trans; eauto|congruence]. Qed.
Definition orel {A} (R : A -> A -> Prop) (a b : jout A) : Prop :=
  match a, b with OK x, OK y => R x y | Panic, Panic => True | _, _ => False end.
Lemma orel_trans {A} (R : A -> A -> Prop) a b c : (forall x y z, R x y -> R y z -> R x z) -> orel R a b -> orel R b c -> orel R a c.
Proof. intros HT. destruct a, b, c; cbn; try contradiction; auto. apply HT. Qed.
Lemma orel_bind {A B} (R : A -> A -> Prop) (S : B -> B -> Prop) a b f g :
  orel R a b -> (forall x y, R x y -> orel S (f x) (g y)) -> orel S (obind a f) (obind b g).
Proof. destruct a, b; cbn; try contradiction; auto. Qed.

Section Order.
Variable other : Z -> Z -> N -> Z.
Lemma there_same h k p : same_heap h k -> there h p -> there k p.
Proof. intros H [i Hi]. pose proof (same_heap_get h k p H) as G. rewrite Hi in G. destruct (hget k p) as [j|] eqn:E; [exists j; exact E|contradiction]. Qed.
Lemma valid_same s1 s2 : seq s1 s2 -> valid s1 -> valid s2.
Proof. intros (A & B & _) H r q Hq. rewrite <- A in Hq. eapply there_same; eauto. Qed.
(** What a property does. *)
Inductive effect := Nothing | Refers (r : bytes) | Sets (v : rvalue) | Breaks.
Definition effect_of (jp : jv) : effect :=
  match index_obj jp "type", index_obj jp "value" with
  | Some (JStr t), Some iv =>
      match ValueFromJSON other iv (type_of_name t) with
      | OK None => Nothing
      | OK (Some v) => if (type_of_name t =? TypeReference)%N then match v with RString r => Refers r | _ => Breaks end else Sets v
      | _ => Breaks
      end
  | _, _ => Nothing
  end.
Definition apply_effect (p : ptr) (n : bytes) (e : effect) (s : jdst) : jout jdst :=
  match e with
  | Nothing => OK s
  | Refers r => OK (Jdst (jd_heap s) (jd_refs s) (jd_props s ++ [PropRef p n r]))
  | Sets v => match hget (jd_heap s) p with
      | Some i => OK (Jdst (hset (jd_heap s) p (set_props i (mset (i_props i) n v))) (jd_refs s) (jd_props s))
      | None => Panic
      end
  | Breaks => Panic
  end.
Lemma prop_effect p s n jp : prop_from_json other p s (n, jp) = apply_effect p n (effect_of jp) s.
Proof.
  unfold prop_from_json, effect_of. cbn [fst snd]. destruct (index_obj jp "type") as [[]|]; try reflexivity. destruct (index_obj jp "value") as [iv|]; [|reflexivity].
  pose proof (tame_value other iv (type_of_name s0)) as T. destruct (ValueFromJSON other iv (type_of_name s0)) as [[v|]| | |]; try contradiction; cbn [obind]; try reflexivity.
  destruct (_ =? _)%N; [destruct v|]; reflexivity.
Qed.
Lemma sel_app p n a b : sel p n (a ++ b) = sel p n a ++ sel p n b.
Proof. apply filter_app. Qed.
Lemma apply_seq p n e s1 s2 : seq s1 s2 -> orel seq (apply_effect p n e s1) (apply_effect p n e s2).
Proof.
  intros (A & B & C). destruct e; cbn [apply_effect].
  - now split.
  - split; [exact A|]. split; [exact B|]. intros q m. cbn [jd_props]. now rewrite !sel_app, C.
  - pose proof (same_heap_get _ _ p B) as G. destruct (hget (jd_heap s1) p) as [i|], (hget (jd_heap s2) p) as [j|]; try contradiction; [|exact I].
    split; [exact A|]. split; [|exact C]. cbn [jd_heap]. apply same_heap_set; [exact B|]. destruct G as (G1 & G2 & G3 & G4 & G5). repeat split; try assumption.
    intros name. cbn [i_props set_props]. rewrite !mfind_mset. now rewrite G5.
  - exact I.
Qed.
Lemma apply_there p n e s s' q : there (jd_heap s) q -> apply_effect p n e s = OK s' -> there (jd_heap s') q.
Proof.
  intros Hq H. destruct e; cbn [apply_effect] in H; try discriminate H; try (injection H as <-; exact Hq).
  destruct (hget (jd_heap s) p); [|discriminate H]. injection H as <-. cbn [jd_heap]. now apply there_hset.
Qed.
Lemma sel_swap q m p n n' r r' : n <> n' -> sel q m [PropRef p n r; PropRef p n' r'] = sel q m [PropRef p n' r'; PropRef p n r].
Proof.
  intros Hn. unfold sel, about. cbn [filter pr_inst pr_prop]. destruct (p =? q)%nat; [|reflexivity]. cbn [andb].
  destruct (beqb_spec n m) as [->|]; destruct (beqb_spec n' m) as [->|]; try reflexivity. now destruct Hn.
Qed.
Lemma apply_swap p n e n' e' s : n <> n' -> there (jd_heap s) p ->
  orel seq (s1 <- apply_effect p n e s ;; apply_effect p n' e' s1) (s1 <- apply_effect p n' e' s ;; apply_effect p n e s1).
Proof.
  intros Hn [i Hi]. assert (SET : forall x, hget (hset (jd_heap s) p x) p = Some x) by (intros x; rewrite hget_hset, Nat.eqb_refl, Hi; reflexivity).
  destruct e as [|r|v|], e' as [|r'|v'|]; cbn [apply_effect obind]; rewrite ?Hi; cbn [obind jd_heap jd_refs jd_props apply_effect]; rewrite ?Hi, ?SET; cbn [obind jd_heap jd_refs jd_props]; rewrite ?Hi, ?SET; try exact I; try apply seq_refl.
  - split; [reflexivity|]. split; [apply same_heap_refl|]. intros q m. cbn [jd_props]. rewrite <- !app_assoc, !sel_app. f_equal. rewrite <- !sel_app. now apply (sel_swap q m p n n' r r').
  - split; [reflexivity|]. split; [|reflexivity]. cbn [jd_heap]. apply same_heap_ext; [now rewrite !hset_length|]. intros q x. rewrite !hget_hset.
    destruct (Nat.eqb_spec q p) as [->|_]; [|intros E; rewrite E; exists x; split; [reflexivity|apply same_inst_refl]]. rewrite ?Nat.eqb_refl, Hi. cbn [option_map]. intros E. apply Some_eq in E. subst x.
    eexists. split; [reflexivity|]. repeat split. intros name. cbn [i_props set_props]. rewrite !mfind_mset.
    destruct (beqb_spec n' name) as [->|]; destruct (beqb_spec n name) as [->|]; try reflexivity. now destruct Hn.
Qed.
Lemma props_order p l l' : Permutation l l' -> NoDup (map fst l) -> forall s1 s2, seq s1 s2 -> there (jd_heap s1) p ->
  orel seq (props_from_json other p l s1) (props_from_json other p l' s2).
Proof.
  induction 1 as [|[n jp] l l' HP IH|[n jp] [n' jp'] l|l l' l'' HP1 IH1 HP2 IH2]; intros Hn s1 s2 HS Ht; cbn [props_from_json map fst] in *.
  - exact HS.
  - inversion Hn; subst. rewrite !prop_effect. pose proof (apply_seq p n (effect_of jp) s1 s2 HS) as G.
    destruct (apply_effect p n (effect_of jp) s1) as [s1'| | |] eqn:E; destruct (apply_effect p n (effect_of jp) s2) as [s2'| | |]; try contradiction; cbn [obind]; [|exact I].
    apply IH; [assumption|exact G|]. eapply apply_there; eauto.
  - inversion Hn as [|? ? N1 N2]; subst.
    pose proof (apply_swap p n' (effect_of jp') n (effect_of jp) s1 ltac:(intros ->; apply N1; now left) Ht) as G.
    assert (G2 : orel seq (s <- apply_effect p n (effect_of jp) s1 ;; apply_effect p n' (effect_of jp') s) (s <- apply_effect p n (effect_of jp) s2 ;; apply_effect p n' (effect_of jp') s)).
    { apply (orel_bind seq); [now apply apply_seq|]. intros; now apply apply_seq. }
    pose proof (orel_trans _ _ _ _ seq_trans G G2) as G3. rewrite !prop_effect.
    assert (A : forall a b s, (s0 <- prop_from_json other p s (a, b);; props_from_json other p l s0) = (s0 <- apply_effect p a (effect_of b) s ;; props_from_json other p l s0)) by (intros; now rewrite prop_effect).
    assert (B : forall (f g : jdst -> jout jdst) s, (s0 <- f s ;; s1 <- g s0 ;; props_from_json other p l s1) = (s1 <- (s0 <- f s ;; g s0) ;; props_from_json other p l s1)) by (intros f g s; now destruct (f s)).
    assert (SK : forall x y, seq x y -> orel seq (props_from_json other p l x) (props_from_json other p l y)).
    { clear - other. induction l as [|[a b] l IH]; intros x y H; cbn [props_from_json]; [exact H|]. rewrite !prop_effect.
      apply (orel_bind seq); [now apply apply_seq|]. exact IH. }
    replace (s <- apply_effect p n' (effect_of jp') s1;; s0 <- prop_from_json other p s (n, jp);; props_from_json other p l s0)
      with (s0 <- (s <- apply_effect p n' (effect_of jp') s1 ;; apply_effect p n (effect_of jp) s) ;; props_from_json other p l s0)
      by (destruct (apply_effect p n' (effect_of jp') s1); cbn [obind]; rewrite ?prop_effect; reflexivity).
    replace (s <- apply_effect p n (effect_of jp) s2;; s0 <- prop_from_json other p s (n', jp');; props_from_json other p l s0)
      with (s0 <- (s <- apply_effect p n (effect_of jp) s2 ;; apply_effect p n' (effect_of jp') s) ;; props_from_json other p l s0)
      by (destruct (apply_effect p n (effect_of jp) s2); cbn [obind]; rewrite ?prop_effect; reflexivity).
    apply (orel_bind seq); [exact G3|exact SK].
  - eapply orel_trans; [apply seq_trans|apply (IH1 Hn s1 s1 (seq_refl s1) Ht)|]. apply IH2; [|exact HS|exact Ht].
    eapply Permutation_NoDup; [apply Permutation_map; exact HP1|exact Hn].
Qed.
Lemma update_seq p f s1 s2 : (forall i j, same_inst i j -> same_inst (f i) (f j)) -> seq s1 s2 -> seq (update s1 p f) (update s2 p f).
Proof.
  intros Hf HS. pose proof HS as (A & B & C). unfold update. pose proof (same_heap_get _ _ p B) as G.
  destruct (hget (jd_heap s1) p) as [i|], (hget (jd_heap s2) p) as [j|]; try contradiction; [|exact HS]. split; [exact A|]. split; [|exact C]. cbn [jd_heap].
  apply same_heap_set; [exact B|now apply Hf].
Qed.
Lemma inst_for_seq v s1 s2 : seq s1 s2 -> fst (inst_for v s1) = fst (inst_for v s2) /\ seq (snd (inst_for v s1)) (snd (inst_for v s2)).
Proof.
  intros (A & B & C). unfold inst_for. rewrite <- A, <- (same_heap_length _ _ B). destruct (IsEmptyReference _).
  - split; [reflexivity|]. split; [reflexivity|]. split; [|exact C]. apply same_heap_app; [exact B|apply same_inst_refl].
  - destruct (mfind (jd_refs s1) _) as [q|] eqn:E.
    + split; [reflexivity|]. now split.
    + split; [reflexivity|]. split; [reflexivity|]. split; [|exact C]. apply same_heap_app; [exact B|apply same_inst_refl].
Qed.

Variable ord1 ord2 : list (bytes * jv) -> list (bytes * jv).
Hypothesis H1 : any_members ord1.
Hypothesis H2 : any_members ord2.
Definition prel {A} (x y : A * jdst) : Prop := fst x = fst y /\ seq (snd x) (snd y).
Lemma inst_order v : unmarshalled v -> forall s1 s2, seq s1 s2 -> valid s1 -> orel prel (InstanceFromJSON other ord1 v s1) (InstanceFromJSON other ord2 v s2).
Proof.
  induction v as [v IH] using inst_induction. intros Hu s1 s2 HS HV. rewrite !inst_step.
  destruct (inst_for_seq v s1 s2 HS) as [F1 F2]. destruct (inst_for v s1) as [p s1'] eqn:E1. destruct (inst_for v s2) as [p' s2'] eqn:E2. cbn [fst snd] in F1, F2. subst p'.
  destruct (inst_for_valid v s1 p s1' HV E1) as [V1 T1].
  destruct (index_obj v "class_name") as [[| | |class| | |]|]; try (split; [reflexivity|exact F2]).
  apply (orel_bind (fun a b => seq a b /\ valid a)).
  - set (f := fun i : inst => _). set (u1 := update s1' p f). set (u2 := update s2' p f).
    assert (GU : seq u1 u2). { apply update_seq; [|exact F2]. intros i j (A & B & C & D & E). unfold f, service_of. repeat split; try assumption. cbn [i_service]. destruct (index_obj v "is_service") as [[]|]; congruence. }
    assert (G : orel seq (props_from_json other p (ord1 (props_of v)) u1) (props_from_json other p (ord2 (props_of v)) u2)).
    { apply props_order; [|  |exact GU|].
      - eapply Permutation_trans; [apply Permutation_sym, H1|apply H2].
      - eapply Permutation_NoDup; [apply Permutation_map, H1|]. unfold props_of. destruct v; cbn [index_obj]; try constructor.
        destruct (mfind m (str "properties")) as [[]|] eqn:E; try constructor. apply mfind_In in E. inversion Hu as [| | | | |m' Hm Hall]; subst.
        rewrite Forall_forall in Hall. specialize (Hall _ E). cbn [snd] in Hall. now inversion Hall.
      - now apply there_update. }
    destruct (props_from_json other p (ord1 (props_of v)) u1) as [a| | |] eqn:Ea; destruct (props_from_json other p (ord2 (props_of v)) u2); try contradiction; [|exact I].
    split; [exact G|]. eapply props_valid in Ea; [apply Ea|now apply there_update|now apply valid_update].
  - intros a b [Hab Va]. cbv zeta.
    assert (GN : seq (update a p no_kids) (update b p no_kids)) by (apply update_seq; [|exact Hab]; intros i j (A & B & C & D & E); repeat split; assumption).
    assert (VN : valid (update a p no_kids)) by now apply valid_update.
    destruct (index_obj v "children") as [[| | | |l| |]|] eqn:E; try (split; [reflexivity|exact GN]).
    assert (HL : Forall unmarshalled l /\ Forall (fun c => unmarshalled c -> forall s1 s2, seq s1 s2 -> valid s1 -> orel prel (InstanceFromJSON other ord1 c s1) (InstanceFromJSON other ord2 c s2)) l).
    { destruct v; try discriminate E. cbn [index_obj] in E. apply mfind_In in E. split; [|now apply (IH m eq_refl (str "children") l)].
      inversion Hu as [| | | | |m' Hm Hall]; subst. rewrite Forall_forall in Hall. specialize (Hall _ E). cbn [snd] in Hall. now inversion Hall. }
    clear IH E. destruct HL as [HL1 HL2]. revert GN VN. generalize (update a p no_kids), (update b p no_kids).
    induction l as [|c l IHl]; intros a' b' GN VN; cbn [kids]; [split; [reflexivity|exact GN]|].
    apply Forall_cons_iff in HL1 as [U1 HL1]. apply Forall_cons_iff in HL2 as [C1 HL2]. specialize (C1 U1 a' b' GN VN).
    destruct (InstanceFromJSON other ord1 c a') as [[r a'']| | |] eqn:EI; destruct (InstanceFromJSON other ord2 c b') as [[r' b'']| | |]; try contradiction; cbn [obind]; [|exact I].
    destruct C1 as [D1 D2]. cbn [fst snd] in D1, D2. subst r'. destruct r as [q|]; [exact I|]. apply IHl; [exact HL1|exact HL2|exact D2|]. eapply (inst_valid other ord1 c a'); eauto.
Qed.
Lemma insts_order l : Forall unmarshalled l -> forall s1 s2, seq s1 s2 -> valid s1 -> orel prel (insts_from_json other ord1 l s1) (insts_from_json other ord2 l s2).
Proof.
  induction 1 as [|v l Hv Hl IH]; intros s1 s2 HS HV; cbn [insts_from_json]; [split; [reflexivity|exact HS]|].
  pose proof (inst_order v Hv s1 s2 HS HV) as G.
  destruct (InstanceFromJSON other ord1 v s1) as [[r a]| | |] eqn:E; destruct (InstanceFromJSON other ord2 v s2) as [[r' b]| | |]; try contradiction; cbn [obind]; [|exact I].
  destruct G as [D1 D2]. cbn [fst snd] in D1, D2. subst r'. specialize (IH a b D2 (inst_valid other ord1 v s1 r a HV E)).
  destruct (insts_from_json other ord1 l a) as [[ps a']| | |]; destruct (insts_from_json other ord2 l b) as [[ps' b']| | |]; try contradiction; cbn [obind]; [|exact I].
  destruct IH as [D3 D4]. cbn [fst snd] in *. subst ps'. now split.
Qed.
End Order.
(** Setting the references. *)
Lemma set_one h refs e p : hget (set_ref_prop refs h e) p =
  option_map (fun i => if (pr_inst e =? p)%nat then set_props i (mset (i_props i) (pr_prop e) (RReference (rget refs (pr_ref e)))) else i) (hget h p).
Proof.
  unfold set_ref_prop. destruct (Nat.eqb_spec (pr_inst e) p) as [->|Hne].
  - destruct (hget h p) as [i|] eqn:E; [|rewrite E; reflexivity]. now rewrite hget_hset, Nat.eqb_refl, E.
  - destruct (hget h (pr_inst e)); [rewrite hget_hset; replace (p =? pr_inst e)%nat with false by (symmetry; apply Nat.eqb_neq; congruence)|]; now destruct (hget h p).
Qed.
Definition keep (i : inst) (f : bytes -> option rvalue) (j : inst) : Prop :=
  i_class j = i_class i /\ i_ref j = i_ref i /\ i_service j = i_service i /\ i_children j = i_children i /\ forall n, mfind (i_props j) n = f n.
Definition after refs (i : inst) (p : ptr) (l : list propref) (n : bytes) : option rvalue :=
  fold_left (fun _ e => Some (RReference (rget refs (pr_ref e)))) (sel p n l) (mfind (i_props i) n).
Lemma set_all refs l : forall h p i, hget h p = Some i -> exists j, hget (fold_left (set_ref_prop refs) l h) p = Some j /\ keep i (after refs i p l) j.
Proof.
  induction l as [|e l IH]; intros h p i Hi; cbn [fold_left]; [exists i; split; [exact Hi|repeat split]|].
  pose proof (set_one h refs e p) as S. rewrite Hi in S. cbn [option_map] in S. destruct (IH _ _ _ S) as (j & Hj & K1 & K2 & K3 & K4 & K5).
  exists j. split; [exact Hj|]. unfold after in *. unfold sel, about in *. destruct (pr_inst e =? p)%nat eqn:E; cbn [set_props i_class i_ref i_service i_children i_props] in *.
  - repeat split; try assumption. intros n. rewrite K5. cbn [filter]. rewrite E. cbn [andb]. rewrite mfind_mset. destruct (bytes_eqb (pr_prop e) n); reflexivity.
  - repeat split; try assumption. intros n. rewrite K5. cbn [filter]. rewrite E. reflexivity.
Qed.
Lemma set_length refs l : forall h, length (fold_left (set_ref_prop refs) l h) = length h.
Proof. intros h. apply set_refs_ok. Qed.
Lemma set_refs_seq s1 s2 : seq s1 s2 ->
  same_heap (fold_left (set_ref_prop (jd_refs s1)) (jd_props s1) (jd_heap s1)) (fold_left (set_ref_prop (jd_refs s2)) (jd_props s2) (jd_heap s2)).
Proof.
  intros (A & B & C). apply same_heap_ext; [rewrite !set_length; now apply same_heap_length|]. intros p x Hx. rewrite <- A.
  assert (Hi : exists i, hget (jd_heap s1) p = Some i).
  { apply hget_some in Hx. rewrite set_length in Hx. now apply hget_range. }
  destruct Hi as [i Hi]. destruct (set_all (jd_refs s1) (jd_props s1) (jd_heap s1) p i Hi) as (j & Hj & K1 & K2 & K3 & K4 & K5). rewrite Hx in Hj. apply Some_eq in Hj. subst j.
  pose proof (same_heap_get _ _ p B) as G. rewrite Hi in G. destruct (hget (jd_heap s2) p) as [i2|] eqn:Hi2; [|contradiction]. destruct G as (G1 & G2 & G3 & G4 & G5).
  destruct (set_all (jd_refs s1) (jd_props s2) (jd_heap s2) p i2 Hi2) as (j & Hj & L1 & L2 & L3 & L4 & L5). exists j. split; [exact Hj|].
  repeat split; try congruence. intros n. rewrite K5, L5. unfold after. now rewrite C, G5.
Qed.
