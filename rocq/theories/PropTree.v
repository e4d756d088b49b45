(** PropTree.v - C31 to C34: copying trees, reference tables. *)
From Coq Require Import Permutation.
From Verif Require Import Base RbxlValues RbxValues Tree SpecTree SpecRoot PropRoot TreeProofs.

(** ** C31: the copy is a deep isomorphic copy *)
Lemma RI_start h : RI h h [].
Proof.
  split; [lia|]. split; [intros p i H; exists i; split; [exact H|apply same_refl]|].
  split; [intros r p H; discriminate H|constructor].
Qed.
Lemma CI_start h k : CI [] (Cst h [] [] [] k).
Proof. split; [intros r c H; discriminate H|intros q c []]. Qed.

Theorem C31_instance_copy : forall h t rnd ord k fuel,
  wf_heap h -> forest_at h [t] -> any_order ord -> height t <= fuel ->
  match Instance_Copy fuel rnd ord k h (rroot t) with
  | OK (c, h') => c = clone_of h (rnodes t) (rroot t) /\ length h < c /\ is_copy h h' (rnodes t)
  | Hang => ~ never_repeats (length h) rnd
  | _ => False
  end.
Proof.
  intros h t rnd ord k fuel Hwf [Ht Hn] Hord Hf. unfold fnodes in Hn. cbn [flat_map] in Hn. rewrite app_nil_r in Hn.
  inversion Ht as [|? ? Ht' _]; subst. unfold Instance_Copy.
  destruct (icopy_spec rnd ord h Hwf Hord fuel t Ht' Hf [] (Cst h [] [] [] k)) as [(s' & E & C)|[E Hr]].
  - exact Hn.
  - apply RI_start.
  - apply CI_start.
  - rewrite E. cbn [obind c_heap]. split; [|split; [lia|eapply copied_is_copy; eauto]].
    unfold clone_of. destruct t as [p ts]. cbn [rnodes rroot index_of]. rewrite Nat.eqb_refl. lia.
  - rewrite E. exact Hr.
Qed.

Definition list_height (ts : list rtree) : nat := fold_right (fun t n => Nat.max (height t) n) 0 ts.

Theorem C31_root_copy : forall h ts md rnd ord k fuel,
  wf_heap h -> forest_at h ts -> any_order ord -> list_height ts <= fuel ->
  match Root_Copy fuel rnd ord k h (Root (map rroot ts) md) with
  | OK (r, h') => r_instances r = map (clone_of h (fnodes ts)) (map rroot ts) /\ is_copy h h' (fnodes ts)
  | Hang => ~ never_repeats (length h) rnd
  | _ => False
  end.
Proof.
  intros h ts md rnd ord k fuel Hwf [Ht Hn] Hord Hf. unfold Root_Copy. cbn [r_instances].
  assert (Hg : Forall (good_one rnd h (icopy fuel rnd ord)) ts).
  { clear Hn. induction ts as [|t ts IH]; [constructor|]. inversion Ht; subst. cbn in Hf. unfold list_height in IH.
    constructor; [apply icopy_spec; auto; lia|apply IH; [assumption|lia]]. }
  destruct (copy_list_spec rnd h _ ts Hg [] (Cst h [] [] [] k)) as [(cs & s' & E & C & F)|[E Hr]].
  - exact Hn.
  - apply RI_start.
  - apply CI_start.
  - rewrite E. cbn [obind r_instances]. split; [|eapply copied_is_copy; eauto]. cbn [c_heap] in F. clear -F Hn.
    revert F. generalize (map rroot ts). intros l F. induction F as [|x d l l' H _ IH]; [reflexivity|]. cbn [map]. f_equal; [|exact IH].
    symmetry. now apply clone_of_pairs.
  - rewrite E. exact Hr.
Qed.

(** Every clone is a new instance and different originals have different clones,
    so the two forests share nothing. *)
Theorem C31_disjoint : forall h ns p, In p ns -> length h < clone_of h ns p <= length h + length ns.
Proof.
  intros h ns p H. unfold clone_of. destruct (index_of_In _ _ H) as [j Hj]. rewrite Hj.
  apply (index_of_pairs (length h)) in Hj. apply pairs_range in Hj. lia.
Qed.
Theorem C31_injective : forall h ns p q, In p ns -> In q ns -> clone_of h ns p = clone_of h ns q -> p = q.
Proof.
  intros h ns p q Hp Hq. unfold clone_of. destruct (index_of_In _ _ Hp) as [j Hj], (index_of_In _ _ Hq) as [l Hl].
  rewrite Hj, Hl. intros E. apply (index_of_pairs (length h)) in Hj, Hl. rewrite E in Hj. eapply pairs_inj; eauto.
Qed.

(** Root.Copy drops the metadata although it "creates a copy of the root and
    its contents". *)
Theorem C31_metadata_always_dropped : forall h r rnd ord k fuel r' h',
  Root_Copy fuel rnd ord k h r = OK (r', h') -> r_metadata r' = [].
Proof.
  intros h r rnd ord k fuel r' h' H. unfold Root_Copy in H. destruct (copy_list _ _ _) as [[cs s]| | |]; try discriminate H.
  cbn [obind] in H. now injection H as <- <-.
Qed.

(** A cyclic tree is unbounded recursion: with any fuel the copy hangs.  The
    hypothesis that there is a finite tree is thus needed. *)
Definition loop_heap : heap := [Inst (str "A") (str "x") false [] [1]].
Lemma loop_hangs rnd ord : (forall p, ord p [] = []) -> forall fuel s i, hget (c_heap s) 1 = Some i ->
  mfind (c_refs s) (str "x") = None \/ mfind (c_refs s) (str "x") = Some 1 ->
  i = Inst (str "A") (str "x") false [] [1] -> icopy fuel rnd ord 1 s = Hang.
Proof.
  intros Ho. induction fuel as [|fuel IH]; intros s i Hi Hx ->; [reflexivity|]. cbn [icopy]. rewrite Hi. unfold get_ref. cbn [Nat.eqb]. rewrite Hi.
  cbn [i_ref]. assert (G : (IsEmptyReference (str "x") || (negb (rget (c_refs s) (str "x") =? 0)%nat && negb (rget (c_refs s) (str "x") =? 1)%nat))%bool = false).
  { unfold rget. destruct Hx as [-> | ->]; reflexivity. }
  rewrite G. cbn [obind i_props i_children]. rewrite Ho. cbn [copy_props obind copy_list]. erewrite IH; [reflexivity| | |reflexivity].
  - cbn [c_heap]. rewrite hget_app; [exact Hi|]. apply hget_some in Hi. lia.
  - cbn [c_refs]. right. now rewrite mfind_mset, bytes_eqb_refl.
Qed.
Theorem C31_cycle_hangs : forall rnd ord k fuel, any_order ord -> Instance_Copy fuel rnd ord k loop_heap 1 = Hang.
Proof.
  intros rnd ord k fuel Ho. unfold Instance_Copy. erewrite (loop_hangs rnd ord); try reflexivity.
  - intros p. specialize (Ho p []). now apply Permutation_nil in Ho.
  - now left.
Qed.

(** ** C32: references *)
(** A reference inside the copied forest follows it, any other is kept. *)
Theorem C32_references : forall h t rnd ord k fuel c h' p i name x,
  wf_heap h -> forest_at h [t] -> any_order ord -> height t <= fuel ->
  Instance_Copy fuel rnd ord k h (rroot t) = OK (c, h') ->
  In p (rnodes t) -> hget h p = Some i -> mfind (i_props i) name = Some (RReference x) ->
  exists i' y, hget h' (clone_of h (rnodes t) p) = Some i' /\
    mfind (i_props i') name = Some (RReference y) /\
    (In x (rnodes t) -> y = clone_of h (rnodes t) x) /\ (~ In x (rnodes t) -> y = x).
Proof.
  intros h t rnd ord k fuel c h' p i name x Hwf Hf Ho Hh E Hp Hi Hx.
  pose proof (C31_instance_copy h t rnd ord k fuel Hwf Hf Ho Hh) as T. rewrite E in T. destruct T as (_ & _ & _ & _ & T).
  destruct (T p i Hp Hi) as (_ & i' & _ & A & _ & _ & _ & _ & B). exists i', (clone_of h (rnodes t) x). split; [exact A|].
  rewrite B, Hx. split; [reflexivity|]. split; [reflexivity|]. intros Hn. unfold clone_of.
  destruct (index_of x (rnodes t)) as [j|] eqn:Ej; [|reflexivity]. apply (index_of_pairs (length h)) in Ej.
  apply pairs_range in Ej. tauto.
Qed.
Theorem C32_root_references : forall h ts md rnd ord k fuel r h' p i name x,
  wf_heap h -> forest_at h ts -> any_order ord -> list_height ts <= fuel ->
  Root_Copy fuel rnd ord k h (Root (map rroot ts) md) = OK (r, h') ->
  In p (fnodes ts) -> hget h p = Some i -> mfind (i_props i) name = Some (RReference x) ->
  exists i' y, hget h' (clone_of h (fnodes ts) p) = Some i' /\
    mfind (i_props i') name = Some (RReference y) /\
    (In x (fnodes ts) -> y = clone_of h (fnodes ts) x) /\ (~ In x (fnodes ts) -> y = x).
Proof.
  intros h ts md rnd ord k fuel r h' p i name x Hwf Hf Ho Hh E Hp Hi Hx.
  pose proof (C31_root_copy h ts md rnd ord k fuel Hwf Hf Ho Hh) as T. rewrite E in T. destruct T as (_ & _ & _ & T).
  destruct (T p i Hp Hi) as (_ & i' & _ & A & _ & _ & _ & _ & B). exists i', (clone_of h (fnodes ts) x). split; [exact A|].
  rewrite B, Hx. split; [reflexivity|]. split; [reflexivity|]. intros Hn. unfold clone_of.
  destruct (index_of x (fnodes ts)) as [j|] eqn:Ej; [|reflexivity]. apply (index_of_pairs (length h)) in Ej.
  apply pairs_range in Ej. tauto.
Qed.

(** Two instances with the same Reference string, one of them referring to the
    other, to itself, outside (3) and to nothing. *)
Definition sample : heap :=
  [ Inst (str "Folder") (str "dup") true [(str "p", RReference 2); (str "q", RReference 3); (str "n", RReference 0); (str "s", RString (str "v"))] [2];
    Inst (str "Part") (str "dup") false [(str "self", RReference 2); (str "o", ROptional TypeReference (Some (RReference 2)))] [];
    Inst (str "Out") [] false [] [] ].
Definition sample_tree : rtree := RNode 1 [RNode 2 []].
(** A source that counts. *)
Definition counter (n : nat) : bytes := le32 (N.of_nat n) ++ repeat x00 12.
Lemma counter_never_repeats : never_repeats 1000 counter.
Proof.
  assert (E4 : forall a b c d e f g h r, mapi v4_byte 0 ([a; b; c; d] ++ r) = mapi v4_byte 0 ([e; f; g; h] ++ r) -> [a; b; c; d] = [e; f; g; h]).
  { intros a b c d e f g h r H. cbn [app mapi] in H. change (v4_byte 0) with (fun b : byte => b) in H.
    change (v4_byte 1) with (fun b : byte => b) in H. change (v4_byte 2) with (fun b : byte => b) in H.
    change (v4_byte 3) with (fun b : byte => b) in H. cbn beta in H. congruence. }
  assert (E8 : forall a b r, length a = 4 -> length b = 4 -> mapi v4_byte 0 (a ++ r) = mapi v4_byte 0 (b ++ r) -> a = b).
  { intros a b r Ha Hb. destruct a as [|a0 [|a1 [|a2 [|a3 [|]]]]]; try discriminate Ha.
    destruct b as [|b0 [|b1 [|b2 [|b3 [|]]]]]; try discriminate Hb. apply E4. }
  intros i j Hij E. apply C37_reference_injective in E; [|reflexivity|reflexivity].
  unfold counter in E. apply E8 in E; [|apply le_bytes_length|apply le_bytes_length].
  apply (f_equal le_N) in E. unfold le32 in E. rewrite !le_N_le_bytes in E. change (8 * N.of_nat 4)%N with 32%N in E.
  pose proof (N.div_mod (N.of_nat i) (2 ^ 32) ltac:(lia)) as Di. pose proof (N.div_mod (N.of_nat j) (2 ^ 32) ltac:(lia)) as Dj.
  rewrite E in Di. remember (N.of_nat i / 2 ^ 32)%N as a. remember (N.of_nat j / 2 ^ 32)%N as b.
  remember (N.of_nat j mod 2 ^ 32)%N as c. change (2 ^ 32)%N with 4294967296%N in *. lia.
Qed.
Lemma sample_wf : wf_heap sample.
Proof.
  intros [|[|[|[|[|p]]]]] i H; try discriminate H; injection H as <-; cbn [i_props sample length map fst].
  - split; [|intros nm x Hi; cbn in Hi; repeat destruct Hi as [Hi|Hi]; try (injection Hi as _ <-; lia); try discriminate Hi; destruct Hi].
    repeat (apply NoDup_cons; [cbn; intuition discriminate|]). apply NoDup_nil.
  - split; [|intros nm x Hi; cbn in Hi; repeat destruct Hi as [Hi|Hi]; try (injection Hi as _ <-; lia); try discriminate Hi; destruct Hi].
    repeat (apply NoDup_cons; [cbn; intuition discriminate|]). apply NoDup_nil.
  - split; [apply NoDup_nil|intros nm x []].
Qed.
Lemma sample_forest : forest_at sample [sample_tree].
Proof.
  split.
  - apply Forall_cons; [|apply Forall_nil]. eapply tree_node; [reflexivity|reflexivity|]. apply Forall_cons; [|apply Forall_nil].
    eapply tree_node; [reflexivity|reflexivity|apply Forall_nil].
  - repeat (apply NoDup_cons; [cbn; intuition discriminate|]). apply NoDup_nil.
Qed.
Example C31_witness : wf_heap sample /\ forest_at sample [sample_tree] /\ never_repeats (length sample) counter /\
  match Instance_Copy 2 counter (fun _ l => l) 0 sample 1 with
  | OK (c, h') => c = 4 /\ map i_children h' = [[2]; []; []; [5]; []] /\
      option_map (fun i => mfind (i_props i) (str "p")) (hget h' 4) = Some (Some (RReference 5)) /\
      option_map (fun i => mfind (i_props i) (str "q")) (hget h' 4) = Some (Some (RReference 3)) /\
      option_map (fun i => mfind (i_props i) (str "self")) (hget h' 5) = Some (Some (RReference 5))
  | _ => False
  end.
Proof. split; [exact sample_wf|]. split; [exact sample_forest|].
  split; [eapply never_repeats_le; [|exact counter_never_repeats]; cbn; lia|]. vm_compute. now repeat split.
Qed.
(** A reference inside an optional value is not redirected: the copy points
    into the original tree. *)
Theorem C32_optional_refuted : exists h t c h' i',
  wf_heap h /\ forest_at h [t] /\ Instance_Copy 2 counter (fun _ l => l) 0 h (rroot t) = OK (c, h') /\
  In 2 (rnodes t) /\ hget h' (clone_of h (rnodes t) 2) = Some i' /\
  mfind (i_props i') (str "o") = Some (ROptional TypeReference (Some (RReference 2))).
Proof.
  exists sample, sample_tree. eexists _, _, _. split; [exact sample_wf|]. split; [exact sample_forest|].
  split; [vm_compute; reflexivity|]. split; [now right; left|]. split; [vm_compute; reflexivity|]. reflexivity.
Qed.

(** ** C33: reference strings *)
(** A client asking one table for the references of the instances [l]. *)
Fixpoint get_all (rnd : nat -> bytes) (h : heap) (m : refmap) (k : nat) (l : list ptr)
  : outcome Empty_set (list bytes * heap) :=
  match l with
  | [] => OK ([], h)
  | p :: l => ' (r, h, m, k) <- get_ref rnd h m k p ;; ' (rs, h) <- get_all rnd h m k l ;; OK (r :: rs, h)
  end.
Lemma get_all_inv rnd h0 l : Forall (fun p => p <= length h0) l -> forall h m k, RI h0 h m ->
  match get_all rnd h m k l with
  | OK (rs, h') => length rs = length l /\ exists m', RI h0 h' m' /\ mono m m' /\ Forall2 (ok_ref m') rs l
  | Hang => ~ never_repeats (length h0) rnd
  | _ => False
  end.
Proof.
  induction 1 as [|p l Hp _ IH]; intros h m k HR; cbn [get_all].
  { split; [reflexivity|]. exists m. split; [exact HR|]. split; [apply mono_refl|constructor]. }
  destruct (Nat.eq_dec p 0) as [->|Hne].
  - unfold get_ref. cbn [Nat.eqb obind]. specialize (IH h m k HR). destruct (get_all rnd h m k l) as [[rs h']| | |]; cbn [obind]; try exact IH.
    destruct IH as (A & m' & B & C & D). split; [cbn; now rewrite A|]. exists m'. split; [exact B|]. split; [exact C|].
    constructor; [now left|exact D].
  - destruct (get_ref_spec rnd h0 h m k p HR ltac:(lia)) as [(r & h' & m' & k' & E & A1 & A2 & A3 & A4 & A5 & A6 & A7)|[E Hr]]; rewrite E; cbn [obind]; [|exact Hr].
    specialize (IH h' m' k' A1). destruct (get_all rnd h' m' k' l) as [[rs h'']| | |]; cbn [obind]; try exact IH.
    destruct IH as (B1 & m'' & B2 & B3 & B4). split; [cbn; now rewrite B1|]. exists m''. split; [exact B2|].
    split; [eapply mono_trans; [exact A4|exact B3]|]. constructor; [right; split; [exact Hne|now apply B3]|exact B4].
Qed.
Theorem C33_references_unique : forall rnd h k l, Forall (fun p => p <= length h) l ->
  match get_all rnd h [] k l with
  | OK (rs, h') =>
      length rs = length l /\
      forall a b p q r r', nth_error l a = Some p -> nth_error l b = Some q -> nth_error rs a = Some r -> nth_error rs b = Some r' ->
        (p = 0 -> r = []) /\
        (p <> 0 -> IsEmptyReference r = false /\ exists i, hget h' p = Some i /\ i_ref i = r) /\
        (p <> 0 -> q <> 0 -> (p = q <-> r = r'))
  | Hang => ~ never_repeats (length h) rnd
  | _ => False
  end.
Proof.
  intros rnd h k l Hl. pose proof (get_all_inv rnd h l Hl h [] k (RI_start h)) as T.
  destruct (get_all rnd h [] k l) as [[rs h']| | |]; try exact T. destruct T as (T1 & m & (_ & _ & R3 & _) & _ & F). split; [exact T1|].
  assert (G : forall a p r, nth_error l a = Some p -> nth_error rs a = Some r -> ok_ref m r p).
  { clear -F. induction F as [|r p rs l H F IH]; intros [|a] p' r' H1 H2; try discriminate H1; cbn in H1, H2; [congruence|eauto]. }
  intros a b p q r r' Ha Hb Hr Hr'. pose proof (G a p r Ha Hr) as Ga. pose proof (G b q r' Hb Hr') as Gb.
  split; [intros ->; destruct Ga as [[_ ->]|[[] _]]; reflexivity|]. split.
  - intros Hp. destruct Ga as [[]|[_ Ga]]; [congruence|]. destruct (R3 _ _ Ga) as (_ & A & i & B & C). eauto.
  - intros Hp Hq. destruct Ga as [[]|[_ Ga]]; [congruence|]. destruct Gb as [[]|[_ Gb]]; [congruence|].
    split; [intros ->|intros <-; congruence].
    destruct (R3 _ _ Ga) as (_ & _ & i & B & C), (R3 _ _ Gb) as (_ & _ & j & D & E). congruence.
Qed.
(** A string that is not empty and not claimed by another is kept; nothing but
    the string of that one instance ever changes. *)
Theorem C33_keeps : forall rnd h m k p i, hget h p = Some i -> IsEmptyReference (i_ref i) = false ->
  rget m (i_ref i) = 0 \/ rget m (i_ref i) = p ->
  get_ref rnd h m k p = OK (i_ref i, h, mset m (i_ref i) p, k).
Proof.
  intros rnd h m k p i Hp He Hm. pose proof (hget_some _ _ _ Hp). unfold get_ref.
  replace (p =? 0)%nat with false by (symmetry; apply Nat.eqb_neq; lia). rewrite Hp, He.
  destruct Hm as [-> | ->]; rewrite ?Nat.eqb_refl; cbn [orb andb negb Nat.eqb]; [reflexivity|]. now rewrite andb_false_r.
Qed.
Theorem C33_only_ref : forall rnd h m k p r h' m' k', get_ref rnd h m k p = OK (r, h', m', k') ->
  length h' = length h /\ (forall q, q <> p -> hget h' q = hget h q) /\
  (forall i, hget h p = Some i -> hget h' p = Some (set_ref i r)).
Proof.
  intros rnd h m k p r h' m' k' H. unfold get_ref in H. destruct (Nat.eqb_spec p 0) as [->|_].
  { injection H as <- <- <- <-. split; [reflexivity|]. split; [reflexivity|]. intros i Hi. discriminate Hi. }
  destruct (hget h p) as [i|] eqn:Ei; [|discriminate H]. destruct (_ || _)%bool.
  - destruct (regenerate _ _ _ _) as [[r0 k0]| | |]; try discriminate H. cbn [obind] in H. injection H as <- <- <- <-.
    split; [apply hset_length|]. split; [intros q Hq; rewrite hget_hset; now apply Nat.eqb_neq in Hq as ->|].
    intros j [= <-]. now rewrite hget_hset, Nat.eqb_refl, Ei.
  - injection H as <- <- <- <-. split; [reflexivity|]. split; [reflexivity|]. intros j [= <-]. rewrite Ei. now destruct i.
Qed.
Example C33_witness :
  match get_all counter sample [] 0 [1; 2; 0; 1; 3; 2] with
  | OK ([a; b; c; d; e; f], _) => a = str "dup" /\ d = a /\ f = b /\ b <> a /\ c = [] /\ e <> b /\ length e = 35
  | _ => False
  end.
Proof. vm_compute. repeat split; discriminate. Qed.

(** ** C34: Resolve *)
Theorem C34_resolve : forall refs h e,
  match Resolve refs h e with
  | (h', ok) =>
      (* the result *)
      (ok = true <-> exists m i p, refs = Some m /\ hget h (pr_inst e) = Some i /\
                       mfind m (pr_ref e) = Some p /\ p <> 0 /\
                       pr_ref e <> [] /\ pr_ref e <> str "null" /\ pr_ref e <> str "nil") /\
      (* no table or no instance: nothing happens *)
      (refs = None \/ hget h (pr_inst e) = None -> h' = h) /\
      (* the property holds the referent, or nil *)
      (forall m i, refs = Some m -> hget h (pr_inst e) = Some i ->
         exists i', hget h' (pr_inst e) = Some i' /\ same_but_props i i' /\
           mfind (i_props i') (pr_prop e) = Some (RReference (match mfind m (pr_ref e) with Some p => p | None => 0 end)) /\
           forall name, name <> pr_prop e -> mfind (i_props i') name = mfind (i_props i) name) /\
      (* no other instance changes *)
      length h' = length h /\ forall q, q <> pr_inst e -> hget h' q = hget h q
  end.
Proof.
  intros refs h e. unfold Resolve. destruct refs as [m|].
  2:{ split; [split; [discriminate|intros (m & i & p & H & _); discriminate H]|]. split; [reflexivity|].
      split; [intros m i H; discriminate H|]. split; reflexivity. }
  destruct (hget h (pr_inst e)) as [i|] eqn:Ei.
  2:{ split; [split; [discriminate|intros (m' & i & p & _ & H & _); discriminate H]|]. split; [reflexivity|].
      split; [intros m' i _ H; discriminate H|]. split; reflexivity. }
  split; [|split; [|split; [|split]]].
  - rewrite andb_true_iff, !negb_true_iff, Nat.eqb_neq. unfold rget, IsEmptyReference. rewrite !orb_false_iff.
    assert (B : forall a b, bytes_eqb a b = false <-> a <> b) by (intros a b; destruct (beqb_spec a b); intuition congruence).
    rewrite !B. split.
    + intros [H1 [[H2 H3] H4]]. destruct (mfind m (pr_ref e)) as [p|] eqn:E; [|congruence]. exists m, i, p. auto 8.
    + intros (m' & i' & p & [= <-] & _ & -> & H). intuition.
  - intros [H|H]; discriminate H.
  - intros m' j [= <-] [= <-]. rewrite hget_hset, Nat.eqb_refl, Ei. eexists. split; [reflexivity|]. split; [now repeat split|].
    cbn [i_props set_props]. rewrite mfind_mset, bytes_eqb_refl. split; [reflexivity|].
    intros name Hn. rewrite mfind_mset. destruct (beqb_spec (pr_prop e) name); [congruence|reflexivity].
  - apply hset_length.
  - intros q Hq. rewrite hget_hset. now apply Nat.eqb_neq in Hq as ->.
Qed.
(** The documentation ("If the referent does not exist, and the reference is
    not empty, then false is returned. True is returned otherwise.") is wrong
    for empty references. *)
Theorem C34_documentation_refuted : exists m h e i, hget h (pr_inst e) = Some i /\
  IsEmptyReference (pr_ref e) = true /\ snd (Resolve (Some m) h e) = false.
Proof. exists [], sample, (PropRef 1 (str "p") []), (nth 0 sample (Inst [] [] false [] [])). repeat split. Qed.
Example C34_witness : snd (Resolve (Some [(str "a", 2)]) sample (PropRef 1 (str "p") (str "a"))) = true /\
  snd (Resolve (Some [(str "nil", 2)]) sample (PropRef 1 (str "p") (str "nil"))) = false.
Proof. split; reflexivity. Qed.

Print Assumptions C31_instance_copy. Print Assumptions C31_root_copy. Print Assumptions C31_disjoint. Print Assumptions C31_injective.
Print Assumptions C31_metadata_always_dropped. Print Assumptions C31_cycle_hangs.
Print Assumptions C32_references. Print Assumptions C32_root_references. Print Assumptions C32_optional_refuted.
Print Assumptions C33_references_unique. Print Assumptions C33_keeps. Print Assumptions C33_only_ref.
Print Assumptions C34_resolve. Print Assumptions C34_documentation_refuted.
