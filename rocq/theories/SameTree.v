(** SameTree.v - the binary encoder treats two heaps that hold the same tree
    in the same way. *)
From Coq Require Import Permutation.
From Verif Require Import Base RbxlValues RbxlArrays RbxlModel RbxlFile RbxValues Tree RbxlCodec SpecTree SpecCodec SpecSame
  TreeProofs SortProofs RbxlFileProofs RbxlCodecImage RbxlCodecEnc RbxlCodecOut RbxlResaveTree.

(** Outcomes that agree, up to R. *)
Definition agree {A B} (R : A -> B -> Prop) (a : res A) (b : res B) : Prop :=
  match a, b with
  | OK x, OK y => R x y
  | Err e, Err e' => e = e'
  | Panic, Panic | Hang, Hang => True
  | _, _ => False
  end.
Lemma agree_bind {A B C D} (R : A -> B -> Prop) (Q : C -> D -> Prop) a b f g :
  agree R a b -> (forall x y, R x y -> agree Q (f x) (g y)) -> agree Q (obind a f) (obind b g).
Proof. destruct a, b; cbn; try contradiction; auto. Qed.
Lemma agree_eq {A} (a b : res A) : agree eq a b <-> a = b.
Proof. destruct a, b; cbn; split; intros H; try congruence; try contradiction; try discriminate; auto. Qed.

Section Same.
  Variables (phi : ptr -> ptr) (ev ev' : env) (place : bool).
  Hypothesis Hhash : forall s, ev_hash ev' s = ev_hash ev s.
  Hypothesis Hev : orders_ok ev.
  Hypothesis Hev' : orders_ok ev'.
  Notation sv := (same_value phi).
  Notation si := (same_instance phi).

  Lemma sv_type v v' : sv v v' -> rtype v' = rtype v.
  Proof. destruct 1; reflexivity. Qed.
  Lemma sv_encode v v' : sv v v' -> encodeValue v' = encodeValue v.
  Proof. destruct 1; reflexivity. Qed.
  Lemma si_find x x' name : si x x' -> match mfind (i_props x) name with
    | Some v => exists v', mfind (i_props x') name = Some v' /\ sv v v' | None => mfind (i_props x') name = None end.
  Proof. intros H. destruct (mfind (i_props x) name) eqn:E; [eapply si_some|eapply si_none]; eauto. Qed.
  Lemma si_names x x' name : si x x' -> In name (map fst (i_props x)) <-> In name (map fst (i_props x')).
  Proof.
    intros H. rewrite <- !mfind_key. pose proof (si_find x x' name H) as G. destruct (mfind (i_props x) name) as [v|].
    - destruct G as (v' & -> & _). split; eauto.
    - rewrite G. split; intros [? ?]; discriminate.
  Qed.

  Lemma check_rest_same t o class name vs vs' : Forall2 sv vs vs' -> check_rest t o class name vs' = check_rest t o class name vs.
  Proof.
    induction 1 as [|v v' vs vs' Hv _ IH]; [reflexivity|]. cbn [check_rest]. rewrite (sv_type _ _ Hv), IH. destruct Hv as [v Hv|p|ty v v' Hv]; reflexivity.
  Qed.
  Lemma check_prop_same class name n vs vs' : Forall2 sv vs vs' -> check_prop place class name n vs' = check_prop place class name n vs.
  Proof.
    intros H. destruct H as [|v v' vs vs' Hv H]; [reflexivity|]. unfold check_prop. rewrite (sv_type _ _ Hv).
    destruct (fromValueType (rtype v)) as [t|]; [|reflexivity]. destruct (negb place && tid_eqb t tUniqueId); [reflexivity|].
    assert (E : forall o, check_rest t o class name vs' = check_rest t o class name vs) by (intros; now apply check_rest_same).
    destruct Hv as [v Hv|p|ty v v' Hv]; [|now rewrite E|destruct (fromValueType ty); [now rewrite E|reflexivity]].
    destruct v; try (now rewrite E). destruct (fromValueType typ); [now rewrite E|reflexivity].
  Qed.
  Lemma prop_values_same insts insts' name : Forall2 si insts insts' -> Forall2 sv (prop_values insts name) (prop_values insts' name).
  Proof.
    unfold prop_values. induction 1 as [|x x' l l' Hx _ IH]; [constructor|]. cbn [flat_map]. apply Forall2_app; [|exact IH].
    pose proof (si_find x x' name Hx) as G. destruct (mfind (i_props x) name) as [v|]; [destruct G as (v' & -> & G)|rewrite G]; repeat constructor. exact G.
  Qed.
  Definition checked := (list ckind * list (bytes * option array))%type.
  Definition same_checked (a b : checked) : Prop := Permutation (fst a) (fst b) /\ Permutation (snd a) (snd b).
  Lemma check_prop_ok class name n vs : (exists a, check_prop place class name n vs = OK a) \/ check_prop place class name n vs = Panic.
  Proof.
    destruct vs as [|v vs]; [now right|]. unfold check_prop. destruct (fromValueType _) as [t|]; [|now right].
    destruct (_ && _); [left; eauto|]. 
    match goal with |- context [match ?x with Some o => _ | None => Panic end] => destruct x as [o|] end; [|now right].
    destruct (check_rest _ _ _ _ _) as [[w [|]]|]; left; eauto.
  Qed.
  Lemma check_props_ok class insts names : (exists a, check_props place class insts names = OK a) \/ check_props place class insts names = Panic.
  Proof.
    induction names as [|name names IH]; [left; eexists; reflexivity|]. cbn [check_props].
    destruct (check_prop_ok class name (length insts) (prop_values insts name)) as [[[w a] ->]| ->]; [|now right]. cbn [obind].
    destruct IH as [[[ws r] ->]| ->]; cbn [obind]; [left; eauto|now right].
  Qed.
  Lemma check_props_same class insts insts' names : Forall2 si insts insts' -> check_props place class insts' names = check_props place class insts names.
  Proof.
    intros H. induction names as [|name names IH]; [reflexivity|]. cbn [check_props].
    rewrite <- (Forall2_len _ _ _ H), (check_prop_same _ _ _ _ _ (prop_values_same _ _ name H)), IH. reflexivity.
  Qed.
  Lemma check_props_perm class insts names names' : Permutation names names' ->
    agree same_checked (check_props place class insts names) (check_props place class insts names').
  Proof.
    induction 1 as [|name l l' _ IH|a b l|l1 l2 l3 _ IH1 _ IH2].
    - now split.
    - cbn [check_props]. destruct (check_prop_ok class name (length insts) (prop_values insts name)) as [[[w a] ->]| ->]; [|exact I]. cbn [obind].
      eapply agree_bind; [exact IH|]. intros [ws r] [ws' r'] [H1 H2]. cbn in *. split; cbn [fst snd]; [now apply Permutation_app_head|].
      destruct a; [now constructor|exact H2].
    - cbn [check_props]. destruct (check_prop_ok class a (length insts) (prop_values insts a)) as [[[wa ra] ->]| ->],
        (check_prop_ok class b (length insts) (prop_values insts b)) as [[[wb rb] ->]| ->]; cbn [obind]; try exact I;
        destruct (check_props_ok class insts l) as [[[ws r] ->]| ->]; cbn [obind]; try exact I.
      split; cbn [fst snd]; [rewrite !app_assoc; apply Permutation_app_tail, Permutation_app_comm|].
      destruct ra, rb; try reflexivity. apply perm_swap.
    - destruct (check_props place class insts l1) as [[]| | |], (check_props place class insts l2) as [[]| | |], (check_props place class insts l3) as [[]| | |];
        cbn in *; try contradiction; try congruence; try exact I. destruct IH1, IH2. split; etransitivity; eauto.
  Qed.
  Lemma check_props_names class insts names ws ps : check_props place class insts names = OK (ws, ps) -> NoDup names -> NoDup (map fst ps).
  Proof.
    intros H Hn. assert (G : NoDup (map fst ps) /\ incl (map fst ps) names); [|apply G].
    revert ws ps H. induction Hn as [|name names Hi Hn IH]; intros ws ps H; cbn [check_props] in H.
    - injection H as <- <-. split; [constructor|easy].
    - apply bind_OK in H. destruct H as ([w a] & _ & H). apply bind_OK in H. destruct H as ([ws1 r] & E & H). injection H as <- <-.
      destruct (IH _ _ E) as [H1 H2]. destruct a as [a|]; cbn [map fst].
      + split; [constructor; [intros Hx; apply Hi, H2, Hx|exact H1]|]. intros x [<-|Hx]; [now left|right; auto].
      + split; [exact H1|]. intros x Hx. right. auto.
  Qed.
  Lemma class_names_same insts insts' : Forall2 si insts insts' -> Permutation (class_names insts) (class_names insts').
  Proof.
    intros H. destruct (class_names_spec insts) as [N1 M1], (class_names_spec insts') as [N2 M2]. apply NoDup_Permutation; [exact N1|exact N2|].
    intros name. rewrite M1, M2. clear N1 M1 N2 M2. induction H as [|x x' l l' Hx _ IH]; [split; intros (? & [] & _)|].
    pose proof (si_names x x' name Hx). split; intros (y & [<-|Hy] & Hn).
    - exists x'. split; [now left|tauto].
    - destruct (proj1 IH) as (z & Hz & Hz2); [eauto|]. exists z. split; [now right|exact Hz2].
    - exists x. split; [now left|tauto].
    - destruct (proj2 IH) as (z & Hz & Hz2); [eauto|]. exists z. split; [now right|exact Hz2].
  Qed.

  (** Values *)
  Variables (l : list ptr).
  Hypothesis Hnil : phi 0 = 0.
  Hypothesis Hzero : ~ In 0 l.
  Hypothesis Hinj : forall p q, In p l -> phi q = phi p -> q = p.
  Lemma position_same k p : incl k l -> position (map phi k) (phi p) = position k p.
  Proof.
    induction k as [|q k IH]; intros Hi; [reflexivity|]. cbn [map position]. destruct (Nat.eqb_spec q p) as [->|Hn].
    - now rewrite Nat.eqb_refl.
    - destruct (Nat.eqb_spec (phi q) (phi p)) as [E|_]; [exfalso; apply Hn; symmetry; apply Hinj; [apply Hi; now left|now symmetry]|].
      rewrite IH; [reflexivity|]. intros x Hx. apply Hi. now right.
  Qed.
  Lemma refs_same p : refs_or_nil (map phi l) (phi p) = refs_or_nil l p.
  Proof.
    unfold refs_or_nil, refs_get. rewrite (position_same l p (incl_refl _)). destruct (Nat.eqb_spec p 0) as [->|Hp]; [now rewrite Hnil|].
    destruct (Nat.eqb_spec (phi p) 0) as [E|_]; [|reflexivity].
    destruct (position l p) as [k|] eqn:Ek; [|reflexivity]. exfalso. assert (Hi : In p l) by (apply position_In; eauto).
    rewrite <- Hnil in E. symmetry in E. apply Hinj in E; [|exact Hi]. congruence.
  Qed.
  Lemma share_same s sh : share ev' s sh = share ev s sh.
  Proof. unfold share. now rewrite Hhash. Qed.
  Lemma enc_value_same name i x x' st : si x x' -> enc_value ev' (map phi l) name i x' st = enc_value ev l name i x st.
  Proof.
    intros H. destruct st as [a sh]. unfold enc_value. pose proof (si_find x x' name H) as G. destruct (mfind (i_props x) name) as [v|]; [|now rewrite G].
    destruct G as (v' & -> & G). destruct G as [v Hv|p|t v v' Hv]; [destruct v; try reflexivity; [now destruct (Hv p)|now rewrite share_same]|now rewrite refs_same|].
    now rewrite (sv_encode _ _ Hv).
  Qed.
  Lemma enc_values_same name insts insts' : Forall2 si insts insts' -> forall i st, enc_values ev' (map phi l) name i insts' st = enc_values ev l name i insts st.
  Proof.
    induction 1 as [|x x' k k' Hx _ IH]; intros i st; [reflexivity|]. cbn [enc_values]. rewrite (enc_value_same name i x x' st Hx).
    destruct (enc_value _ _ _ _ _ _); cbn [obind]; auto.
  Qed.
  Lemma enc_props_same id insts insts' ps : Forall2 si insts insts' -> forall sh, enc_props ev' (map phi l) id insts' ps sh = enc_props ev l id insts ps sh.
  Proof.
    intros H. induction ps as [|[name [a|]] ps IH]; intros sh; [reflexivity| |]; cbn [enc_props].
    - rewrite (enc_values_same name _ _ H). destruct (enc_values _ _ _ _ _ _) as [[a1 sh1]| | |]; cbn [obind]; [now rewrite IH|reflexivity..].
    - destruct H; [apply IH|reflexivity].
  Qed.
  Variables (h h' : heap).
  Hypothesis Hinst : forall p x, In p l -> hget h p = Some x -> exists x', hget h' (phi p) = Some x' /\ si x x'.
  Hypothesis Hheld : forall p, In p l -> exists x, hget h p = Some x.
  Lemma get_insts_same ids : agree (Forall2 si) (get_insts h l ids) (get_insts h' (map phi l) ids).
  Proof.
    induction ids as [|id ids IH]; [constructor|]. unfold get_insts in *. cbn [fold_right]. eapply agree_bind; [exact IH|]. intros k k' Hk.
    destruct (id <? 0)%Z; [exact I|]. rewrite nth_error_map. destruct (nth_error l (Z.to_nat id)) as [p|] eqn:E; [|exact I]. cbn [option_map].
    apply nth_error_In in E. destruct (Hheld p E) as [x Hx]. destruct (Hinst p x E Hx) as (x' & Hx' & Hs). rewrite Hx, Hx'. now constructor.
  Qed.
  Definition encoded := (list cwarn * list chunk * list chunk * shareds)%type.
  Definition same_encoded (a b : encoded) : Prop :=
    let '(ws, is, cs, sh) := a in let '(ws', is', cs', sh') := b in Permutation ws ws' /\ is = is' /\ cs = cs' /\ sh = sh'.
  Lemma enc_classes_same gs : forall i sh,
    agree same_encoded (enc_classes ev place h l i gs sh) (enc_classes ev' place h' (map phi l) i gs sh).
  Proof.
    induction gs as [|[class g] gs IH]; intros i sh; cbn [enc_classes]; [now repeat split|].
    eapply agree_bind; [apply get_insts_same|]. intros k k' Hk.
    apply (agree_bind (fun a b => same_checked a b /\ sort_by fst (snd a) = sort_by fst (snd b))).
    - rewrite (check_props_same _ _ _ _ Hk).
      assert (Hp : Permutation (ev_names ev (class_names k)) (ev_names ev' (class_names k'))).
      { destruct Hev as (_ & Hn & _), Hev' as (_ & Hn' & _). rewrite <- Hn, <- Hn'. now apply class_names_same. }
      pose proof (check_props_perm class k _ _ Hp) as G. destruct (check_props place class k (ev_names ev (class_names k))) as [[ws ps]| | |] eqn:E,
        (check_props place class k (ev_names ev' (class_names k'))) as [[ws' ps']| | |]; cbn in *; try contradiction; auto.
      split; [exact G|]. apply sort_perm_eq; [|apply G]. eapply check_props_names; [exact E|].
      destruct Hev as (_ & Hn & _). eapply Permutation_NoDup; [apply Hn|]. apply class_names_spec.
    - intros [ws ps] [ws' ps'] [[H1 _] H2]. cbn [fst snd] in H1, H2. rewrite <- H2. rewrite (enc_props_same _ _ _ _ Hk).
      apply (agree_bind eq); [now apply agree_eq|]. intros [cs sh1] ? <-. eapply agree_bind; [apply IH|].
      intros [[[ws2 is2] cs2] sh2] [[[ws3 is3] cs3] sh3] (A & -> & -> & ->). repeat split; auto. apply Permutation_app; [now apply Permutation_map|exact A].
  Qed.
  Lemma group_same k : incl k l -> forall n g, group_insts place h' n (map phi k) g = group_insts place h n k g.
  Proof.
    induction k as [|p k IH]; intros Hi n g; [reflexivity|]. cbn [map group_insts]. destruct (Hheld p (Hi p (or_introl eq_refl))) as [x Hx].
    destruct (Hinst p x (Hi p (or_introl eq_refl)) Hx) as (x' & Hx' & Hs). rewrite Hx, Hx', (si_class _ _ _ Hs), (si_service _ _ _ Hs).
    apply IH. intros q Hq. apply Hi. now right.
  Qed.
End Same.
Lemma mset_NoDup {A} (g : list (bytes * A)) k a : NoDup (map fst g) -> NoDup (map fst (mset g k a)).
Proof.
  induction g as [|[k0 a0] g IH]; intros H; cbn [mset]; [repeat constructor; easy|]. cbn [map fst] in *. inversion H; subst.
  destruct (beqb_spec k0 k) as [->|Hn]; cbn [map fst]; [now constructor|]. constructor; [|auto].
  intros Hi. apply mfind_key in Hi. destruct Hi as [b Hb]. rewrite mfind_mset in Hb. destruct (beqb_spec k k0); [congruence|].
  apply H2. apply mfind_key. eauto.
Qed.
Lemma group_NoDup place h k : forall n g g', group_insts place h n k g = OK g' -> NoDup (map fst g) -> NoDup (map fst g').
Proof.
  induction k as [|p k IH]; intros n g g' H Hn; cbn [group_insts] in H; [now injection H as <-|].
  destruct (hget h p) as [x|]; [|discriminate]. eapply IH; [exact H|]. now apply mset_NoDup.
Qed.
