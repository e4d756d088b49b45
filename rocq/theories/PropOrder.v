(** PropOrder.v - the order of Go's maps does not show in encoded trees, except
    in the order of metadata. *)
From Coq Require Import Permutation Sorting.Sorted.
From Verif Require Import Base RbxlValues RbxlArrays RbxlModel RbxlFile RbxlFileProofs RbxValues Tree RbxlCodec RbxlApi
  SpecTree SpecCodec SpecTables TreeProofs SortProofs PropFile RbxlCodecEnc RbxlCodecOut RbxlCodecShape.

(** Results that agree up to a relation on successes. *)
Definition agree {A} (R : A -> A -> Prop) (a b : res A) : Prop :=
  match a, b with
  | OK x, OK y => R x y
  | Err e, Err e' => e = e'
  | Panic, Panic | Hang, Hang => True
  | _, _ => False
  end.
Lemma agree_refl {A} (R : A -> A -> Prop) a : (forall x, R x x) -> agree R a a.
Proof. destruct a; cbn; auto. Qed.
Lemma agree_bind {A B} (R : A -> A -> Prop) (Q : B -> B -> Prop) a a' f f' :
  agree R a a' -> (forall x y, a = OK x -> a' = OK y -> R x y -> agree Q (f x) (f' y)) -> agree Q (obind a f) (obind a' f').
Proof. destruct a, a'; cbn; try tauto; auto. Qed.

Lemma check_prop_cases place class name n vs : (exists x, check_prop place class name n vs = OK x) \/ check_prop place class name n vs = Panic.
Proof.
  unfold check_prop. destruct vs as [|v vs]; [now right|]. destruct (fromValueType (rtype v)) as [t|]; [|now right].
  destruct (negb place && tid_eqb t tUniqueId); [left; eauto|].
  destruct (match v with ROptional ty _ => match fromValueType ty with Some u => Some (Some u) | None => None end | _ => Some None end);
    [|now right].
  destruct (check_rest t o class name vs) as [[w []]|]; left; eauto.
Qed.
Definition perms {A B} (x y : list A * list B) : Prop := Permutation (fst x) (fst y) /\ Permutation (snd x) (snd y).
Lemma check_props_cases place class insts ns :
  (exists x, check_props place class insts ns = OK x /\ incl (map fst (snd x)) ns) \/ check_props place class insts ns = Panic.
Proof.
  induction ns as [|n ns IH]; cbn [check_props]; [left; eexists; split; [reflexivity|apply incl_refl]|].
  destruct (check_prop_cases place class n (length insts) (prop_values insts n)) as [[[w a] ->]| ->]; [|now right]. cbn [obind].
  destruct IH as [([ws r] & -> & Hi)| ->]; [left|now right]. cbn [obind]. eexists. split; [reflexivity|]. cbn [snd] in *.
  destruct a; cbn [map fst]; intros x Hx; [destruct Hx as [<-|Hx]; [now left|]|]; right; auto.
Qed.
Lemma check_props_nodup place class insts ns : NoDup ns -> forall x, check_props place class insts ns = OK x -> NoDup (map fst (snd x)).
Proof.
  induction 1 as [|n ns Hn Hd IH]; intros x; cbn [check_props]; [intros H; replace x with (@nil ckind, @nil (bytes * option array)) by congruence; constructor|].
  destruct (check_prop place class n (length insts) (prop_values insts n)) as [[w a]| | |]; try discriminate. cbn [obind].
  destruct (check_props_cases place class insts ns) as [([ws r] & E & Hi)|E]; rewrite E; cbn [obind]; [|discriminate].
  intros [= <-]. specialize (IH _ E). cbn [snd] in *. destruct a; [|exact IH]. cbn [map fst]. constructor; auto.
Qed.
Lemma perm_rotate {A} (a b c : list A) : Permutation (a ++ b ++ c) (b ++ a ++ c).
Proof. rewrite !app_assoc. apply Permutation_app_tail, Permutation_app_comm. Qed.
Lemma check_props_perm place class insts ns ns' : Permutation ns ns' ->
  agree perms (check_props place class insts ns) (check_props place class insts ns').
Proof.
  induction 1 as [|n ns ns' H IH|n n' ns|ns1 ns2 ns3 H1 IH1 H2 IH2].
  - cbn. split; reflexivity.
  - cbn [check_props]. destruct (check_prop_cases place class n (length insts) (prop_values insts n)) as [[[w a] ->]| ->]; cbn [obind]; [|exact I].
    eapply agree_bind; [exact IH|]. intros [w1 r1] [w2 r2] _ _ [P1 P2]. cbn in *. split; cbn; [now apply Permutation_app_head|].
    destruct a; [now constructor|exact P2].
  - cbn [check_props].
    destruct (check_prop_cases place class n (length insts) (prop_values insts n)) as [[[w a] ->]| ->];
      destruct (check_prop_cases place class n' (length insts) (prop_values insts n')) as [[[w' a'] ->]| ->]; cbn [obind]; try exact I.
    + destruct (check_props_cases place class insts ns) as [([ws r] & -> & _)| ->]; cbn [obind]; [|exact I]. split; cbn.
      * apply perm_rotate.
      * destruct a, a'; try reflexivity. apply perm_swap.
  - destruct (check_props place class insts ns1), (check_props place class insts ns2), (check_props place class insts ns3); cbn in *; try tauto; try congruence.
    destruct IH1, IH2. split; etransitivity; eauto.
Qed.

Section TwoOrders.
  Variables (e1 e2 : env).
  Hypothesis Hh : forall s, ev_hash e1 s = ev_hash e2 s.
  Hypothesis H1 : orders_ok e1.
  Hypothesis H2 : orders_ok e2.

  Lemma share_same s sh : share e1 s sh = share e2 s sh.
  Proof. unfold share. now rewrite Hh. Qed.
  Lemma enc_value_same l name i x st : enc_value e1 l name i x st = enc_value e2 l name i x st.
  Proof. unfold enc_value. destruct st as [a sh]. destruct (mfind (i_props x) name) as [[]|]; try reflexivity. now rewrite share_same. Qed.
  Lemma enc_values_same l name insts : forall i st, enc_values e1 l name i insts st = enc_values e2 l name i insts st.
  Proof.
    induction insts as [|x insts IH]; intros i st; [reflexivity|]. cbn [enc_values]. rewrite enc_value_same.
    destruct (enc_value e2 l name i x st); cbn; auto.
  Qed.
  Lemma enc_props_same l id insts ps : forall sh, enc_props e1 l id insts ps sh = enc_props e2 l id insts ps sh.
  Proof.
    induction ps as [|[name [a|]] ps IH]; intros sh; [reflexivity| |]; cbn [enc_props].
    - rewrite enc_values_same. destruct (enc_values e2 l name 0 insts (a, sh)) as [[a' sh']| | |]; cbn [obind]; auto. now rewrite IH.
    - destruct insts; auto.
  Qed.
  Definition same_out (x y : list cwarn * list chunk * list chunk * shareds) : Prop :=
    match x, y with (w, i, p, s), (w', i', p', s') => Permutation w w' /\ i = i' /\ p = p' /\ s = s' end.
  Lemma enc_classes_same place h l gs : forall i sh, agree same_out (enc_classes e1 place h l i gs sh) (enc_classes e2 place h l i gs sh).
  Proof.
    induction gs as [|[c g] gs IH]; intros i sh; cbn [enc_classes]; [cbn; auto|].
    destruct (get_insts h l (g_ids g)) as [insts| | |]; cbn [obind]; [|cbn; auto..].
    assert (Hp : Permutation (ev_names e1 (class_names insts)) (ev_names e2 (class_names insts))).
    { etransitivity; [symmetry; apply (proj1 (proj2 H1))|apply (proj1 (proj2 H2))]. }
    assert (Hn : NoDup (ev_names e1 (class_names insts))).
    { eapply Permutation_NoDup; [apply (proj1 (proj2 H1))|apply class_names_spec]. }
    eapply agree_bind; [apply (check_props_perm place c insts _ _ Hp)|]. intros [w1 r1] [w2 r2] E1 _ [P1 P2]. cbn [fst snd] in P1, P2.
    apply check_props_nodup in E1; [|exact Hn]. cbn [snd] in E1.
    rewrite (sort_perm_eq fst r1 r2 E1 P2), enc_props_same.
    destruct (enc_props e2 l (wrapZ 32 (Z.of_nat i)) insts (sort_by fst r2) sh) as [[cs sh']| | |]; cbn [obind]; [|cbn; auto..].
    eapply agree_bind; [apply IH|]. intros [[[ws2 is2] cs2] sh2] [[[ws2' is2'] cs2'] sh2'] _ _ (Q1 & -> & -> & ->).
    cbn. split; [|auto]. apply Permutation_app; [now apply Permutation_map|exact Q1].
  Qed.
  Lemma group_insts_nodup place h l : forall n g g', NoDup (map fst g) -> group_insts place h n l g = OK g' -> NoDup (map fst g').
  Proof.
    induction l as [|p l IH]; intros n g g' Hn; cbn [group_insts]; [intros H; now replace g' with g by congruence|].
    destruct (hget h p) as [i|]; [|discriminate]. apply IH. now apply mset_keys.
  Qed.
  Definition meta_part (e : env) (r : root) : list chunk :=
    match r_metadata r with [] => [] | md => [Chunk true (PMeta (meta_sort e (ev_meta e md)))] end.
  Definition differ_in_meta (r : root) (x y : fmodel * list cwarn) : Prop :=
    exists v cc ic rest tr g, fst x = FModel v cc ic (meta_part e1 r ++ rest) tr g /\ fst y = FModel v cc ic (meta_part e2 r ++ rest) tr g /\
      Permutation (snd x) (snd y).
  Lemma order_core place h r : agree (differ_in_meta r) (codec_encode e1 place h (Some r)) (codec_encode e2 place h (Some r)).
  Proof.
    unfold codec_encode.
    destruct (fold_res (add_inst (S (S (length h))) h) (r_instances r) []) as [l| | |]; cbn [obind]; [|cbn; auto..].
    destruct (group_insts place h 0 l []) as [gs| | |] eqn:Eg; cbn [obind]; [|cbn; auto..].
    assert (E : sort_by fst (ev_classes e1 gs) = sort_by fst (ev_classes e2 gs)).
    { apply sort_perm_eq.
      - eapply Permutation_NoDup; [apply Permutation_map, (proj1 H1)|]. refine (group_insts_nodup _ _ _ _ _ _ _ Eg). constructor.
      - etransitivity; [symmetry; apply (proj1 H1)|apply (proj1 H2)]. }
    rewrite E. set (gs' := sort_by fst (ev_classes e2 gs)).
    pose proof (enc_classes_same place h l gs' 0 []) as A.
    destruct (enc_classes e1 place h l 0 gs' []) as [[[[ws is] ps] sh]| | |], (enc_classes e2 place h l 0 gs' []) as [[[[ws' is'] ps'] sh']| | |];
      cbn [agree same_out] in A; try contradiction; cbn [obind]; [|cbn; auto..].
    destruct A as (Pw & -> & -> & ->).
    destruct (match l with [] => OK [] | _ => fold_res (rec_inst (S (S (length h))) h l 0) (r_instances r) [] end) as [links| | |];
      cbn [obind]; [|cbn; auto..].
    cbn [agree]. do 6 eexists. cbn [fst snd]. split; [reflexivity|]. split; [reflexivity|exact Pw].
  Qed.
  Theorem order_independent place h r : same_but_order (codec_encode e1 place h r) (codec_encode e2 place h r).
  Proof.
    destruct r as [r|]; [|reflexivity]. pose proof (order_core place h r) as A. unfold same_but_order.
    destruct (codec_encode e1 place h (Some r)) as [[f ws]| | |], (codec_encode e2 place h (Some r)) as [[f' ws']| | |]; cbn [agree] in A; try exact A.
    destruct A as (v & cc & ic & rest & tr & g & F1 & F2 & P). cbn [fst snd] in F1, F2, P. subst f f'. cbn. repeat (split; [reflexivity|]). split; [|auto].
    apply Forall2_app.
    - unfold meta_part. destruct (r_metadata r) as [|kv md]; [constructor|]. constructor; [|constructor]. right. do 2 eexists.
      split; [reflexivity|]. split; [reflexivity|]. etransitivity; [symmetry; now apply meta_sort_perm|now apply meta_sort_perm].
    - assert (Hrefl : forall cs, Forall2 same_chunk cs cs) by (induction cs; constructor; [now left|auto]). apply Hrefl.
  Qed.
  Theorem bytes_same lz place u h r : (forall r', r = Some r' -> length (r_metadata r') <= 1) ->
    Encoder_Encode e1 lz place u h r = Encoder_Encode e2 lz place u h r.
  Proof.
    intros Hm. unfold Encoder_Encode. destruct r as [r|]; [|reflexivity]. pose proof (order_core place h r) as A. specialize (Hm r eq_refl).
    assert (E : meta_part e1 r = meta_part e2 r).
    { unfold meta_part. destruct (r_metadata r) as [|kv [|]]; [reflexivity| |cbn in Hm; lia].
      pose proof (meta_sort_perm e1 [kv] H1) as P1. pose proof (meta_sort_perm e2 [kv] H2) as P2.
      apply Permutation_length_1_inv in P1, P2. now rewrite P1, P2. }
    destruct (codec_encode e1 place h (Some r)) as [[f ws]| | |], (codec_encode e2 place h (Some r)) as [[f' ws']| | |]; cbn [agree] in A; try contradiction; cbn [obind]; try congruence.
    destruct A as (v & cc & ic & rest & tr & g & F1 & F2 & _). cbn in F1, F2. now rewrite F1, F2, E.
  Qed.
End TwoOrders.

(** C22: the result of encoding does not depend on the order in which Go
    ranges over maps, for any heap and root, except for the order of metadata
    and warnings. *)
Theorem C22_order_independent : forall e1 e2, orders_ok e1 -> orders_ok e2 -> (forall s, ev_hash e1 s = ev_hash e2 s) ->
  forall place h r, same_but_order (codec_encode e1 place h r) (codec_encode e2 place h r).
Proof. intros e1 e2 H1 H2 Hh place h r. now apply order_independent. Qed.
(** Without two metadata entries the bytes are the same. *)
Theorem C22_bytes_deterministic : forall e1 e2, orders_ok e1 -> orders_ok e2 -> (forall s, ev_hash e1 s = ev_hash e2 s) ->
  forall lz place u h r, (forall r', r = Some r' -> length (r_metadata r') <= 1) ->
  Encoder_Encode e1 lz place u h r = Encoder_Encode e2 lz place u h r.
Proof. intros e1 e2 H1 H2 Hh lz place u h r Hm. now apply bytes_same. Qed.
