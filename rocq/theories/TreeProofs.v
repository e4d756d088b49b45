(** TreeProofs.v - invariants of reference tables and of copying. *)
From Coq Require Import Permutation.
From Verif Require Import Base RbxlValues RbxValues Tree SpecTree SpecRoot PropRoot.

Lemma Forall2_impl {A B} (P Q : A -> B -> Prop) l l' :
  (forall a b, P a b -> Q a b) -> Forall2 P l l' -> Forall2 Q l l'.
Proof. intros H. induction 1; constructor; auto. Qed.
Lemma Some_eq {A} (x y : A) : Some x = Some y -> x = y.
Proof. congruence. Qed.
Lemma NoDup_app_l {A} (a b : list A) : NoDup (a ++ b) -> NoDup a.
Proof.
  induction a as [|x a IH]; intros H; [constructor|]. cbn in H. inversion H; subst. constructor; [|auto].
  intros Hi. apply H2, in_or_app. now left.
Qed.
Lemma beqb_spec a b : reflect (a = b) (bytes_eqb a b).
Proof. destruct (bytes_eqb a b) eqn:E; constructor; [now apply bytes_eqb_eq|]. intros ->. now rewrite bytes_eqb_refl in E. Qed.

Lemma mfind_mset {A} (m : list (bytes * A)) k a k' :
  mfind (mset m k a) k' = if bytes_eqb k k' then Some a else mfind m k'.
Proof.
  induction m as [|[k0 a0] m IH]; cbn [mset mfind]; [reflexivity|].
  destruct (beqb_spec k0 k) as [->|Hne]; cbn [mfind].
  - destruct (beqb_spec k k'); reflexivity.
  - destruct (beqb_spec k0 k') as [->|H0]; [|apply IH].
    destruct (beqb_spec k k') as [->|]; [congruence|reflexivity].
Qed.
Lemma mfind_In {A} (m : list (bytes * A)) k a : mfind m k = Some a -> In (k, a) m.
Proof.
  induction m as [|[k0 a0] m IH]; cbn [mfind]; [discriminate|].
  destruct (beqb_spec k0 k) as [->|]; [intros [= ->]; now left|]. intros H. right. auto.
Qed.
Lemma In_mfind {A} (m : list (bytes * A)) k a : NoDup (map fst m) -> In (k, a) m -> mfind m k = Some a.
Proof.
  induction m as [|[k0 a0] m IH]; intros Hn Hi; [destruct Hi|]. cbn [map fst mfind] in *. inversion Hn; subst.
  destruct Hi as [[= -> ->]|Hi]; [now rewrite bytes_eqb_refl|].
  destruct (beqb_spec k0 k) as [->|]; [|auto]. destruct H1. change k with (fst (k, a)). now apply in_map.
Qed.
Lemma mfind_key {A} (m : list (bytes * A)) k : (exists a, mfind m k = Some a) <-> In k (map fst m).
Proof.
  induction m as [|[k0 a0] m IH]; cbn [mfind map fst In]; [split; [intros [a H]; discriminate|intros []]|].
  destruct (beqb_spec k0 k) as [->|Hne]; [split; eauto|]. rewrite IH. split; [tauto|intros [H|H]; [congruence|exact H]].
Qed.
Lemma mfind_perm {A} (l l' : list (bytes * A)) k : NoDup (map fst l) -> Permutation l l' -> mfind l k = mfind l' k.
Proof.
  intros Hn Hp. assert (Hn' : NoDup (map fst l')) by (eapply Permutation_NoDup; [apply Permutation_map|]; eauto).
  destruct (mfind l k) as [a|] eqn:E.
  - symmetry. apply In_mfind; [exact Hn'|]. eapply Permutation_in; [exact Hp|]. now apply mfind_In.
  - destruct (mfind l' k) as [a|] eqn:E'; [|reflexivity]. apply mfind_In in E'.
    apply Permutation_sym in Hp. pose proof (Permutation_in _ Hp E') as Hi. apply In_mfind in Hi; congruence.
Qed.

(** Heap *)
Lemma nth_error_upd {A} (l : list A) i a j :
  nth_error (upd l i a) j = if (j =? i)%nat then option_map (fun _ => a) (nth_error l i) else nth_error l j.
Proof.
  revert i j; induction l as [|x l IH]; intros i j.
  - cbn [upd]. destruct j, i; cbn; try reflexivity; destruct (j =? i)%nat; reflexivity.
  - destruct i as [|i], j as [|j]; cbn [upd nth_error]; try reflexivity. rewrite IH. reflexivity.
Qed.
Lemma hget_hset h p i q : hget (hset h p i) q =
  if (q =? p)%nat then option_map (fun _ => i) (hget h p) else hget h q.
Proof.
  destruct p as [|p], q as [|q]; cbn [hset hget]; try reflexivity. now rewrite nth_error_upd.
Qed.
Lemma hset_length h p i : length (hset h p i) = length h.
Proof. destruct p; [reflexivity|apply upd_length]. Qed.
Lemma hget_app h h' p : p <= length h -> hget (h ++ h') p = hget h p.
Proof. destruct p as [|p]; [reflexivity|]. intros H. cbn [hget]. apply nth_error_app1. lia. Qed.
Lemma hget_new h i : hget (h ++ [i]) (S (length h)) = Some i.
Proof. cbn [hget]. rewrite nth_error_app2 by lia. now rewrite Nat.sub_diag. Qed.
Lemma hget_some h p i : hget h p = Some i -> 1 <= p <= length h.
Proof. destruct p as [|p]; [discriminate|]. intros H. assert (p < length h) by (apply nth_error_Some; cbn in H; congruence). lia. Qed.
Lemma hget_range h p : 1 <= p <= length h -> exists i, hget h p = Some i.
Proof.
  destruct p as [|p]; [lia|]. intros H. cbn [hget]. destruct (nth_error h p) eqn:E; [eauto|]. apply nth_error_None in E. lia.
Qed.

(** ** Reference tables *)
(** Every entry belongs to an instance carrying that string. *)
#[global] Opaque GenerateReference.
Definition RI (h0 h : heap) (m : refmap) : Prop :=
  length h0 <= length h /\
  (forall p i, hget h0 p = Some i -> exists i', hget h p = Some i' /\ same_but_ref i i') /\
  (forall r p, mfind m r = Some p -> p <= length h0 /\ IsEmptyReference r = false /\
     exists i, hget h p = Some i /\ i_ref i = r) /\
  NoDup (map fst m).

Lemma regenerate_spec rnd m : forall fuel k,
  (exists r k', regenerate fuel rnd k m = OK (r, k') /\ mfind m r = None /\ exists j, r = GenerateReference (rnd j)) \/
  (regenerate fuel rnd k m = Hang /\ forall j, j < fuel -> exists p, mfind m (GenerateReference (rnd (k + j))) = Some p).
Proof.
  induction fuel as [|fuel IH]; intros k; cbn [regenerate]; [right; split; [reflexivity|intros j Hj; lia]|].
  destruct (mfind m (GenerateReference (rnd k))) as [p|] eqn:E.
  - destruct (IH (S k)) as [(r & k' & H1 & H2 & H3)|[H1 H2]]; [left; exists r, k'; auto|]. right. split; [exact H1|].
    intros [|j] Hj; [rewrite Nat.add_0_r; exists p; exact E|]. destruct (H2 j ltac:(lia)) as [q Hq].
    replace (k + S j) with (S k + j) by lia. exists q. exact Hq.
  - left. exists (GenerateReference (rnd k)), (S k). split; [reflexivity|]. split; [exact E|]. exists k. reflexivity.
Qed.
Lemma regenerate_total rnd m k : never_repeats (length m) rnd -> regenerate (S (length m)) rnd k m <> Hang.
Proof.
  intros Hn H. destruct (regenerate_spec rnd m (S (length m)) k) as [(r & k' & E & _)|[_ Hk]]; [congruence|].
  set (l := map (fun j => GenerateReference (rnd (k + j))) (seq 0 (S (length m)))).
  assert (Hd : NoDup l).
  { unfold l. rewrite NoDup_nth_error. intros a b Ha E. rewrite map_length, seq_length in Ha.
    assert (Hb : b < S (length m)).
    { destruct (Nat.lt_ge_cases b (S (length m))); [assumption|].
      rewrite (proj2 (nth_error_None _ b)) in E by (rewrite map_length, seq_length; lia).
      apply nth_error_None in E. rewrite map_length, seq_length in E. lia. }
    rewrite !nth_error_map in E. rewrite !(nth_error_nth' _ 0) in E by (rewrite seq_length; lia).
    rewrite !seq_nth in E by lia. cbn [option_map Nat.add] in E. apply Some_eq in E.
    destruct (Nat.lt_trichotomy a b) as [L|[L|L]]; [|exact L|].
    - now apply (Hn (k + a) (k + b)) in E; [|lia].
    - now symmetry in E; apply (Hn (k + b) (k + a)) in E; [|lia]. }
  assert (Hi : incl l (map fst m)).
  { unfold l. intros r Hr. apply in_map_iff in Hr. destruct Hr as (j & <- & Hj). apply in_seq in Hj.
    apply mfind_key. apply Hk. lia. }
  pose proof (NoDup_incl_length Hd Hi) as L. unfold l in L. rewrite !map_length, seq_length in L. lia.
Qed.
Lemma mset_keys {A} (m : list (bytes * A)) k a : NoDup (map fst m) -> NoDup (map fst (mset m k a)).
Proof.
  induction m as [|[k0 a0] m IH]; cbn [mset map fst]; intros H; [constructor; [intros []|constructor]|].
  inversion H as [|? ? H1 H2]; subst. destruct (beqb_spec k0 k) as [->|Hne]; [exact H|]. cbn [map fst]. constructor; [|auto].
  intros Hi. apply mfind_key in Hi. destruct Hi as [x Hx]. rewrite mfind_mset in Hx.
  destruct (beqb_spec k k0); [congruence|]. apply H1, mfind_key. eauto.
Qed.
(** One key per instance. *)
Lemma RI_small h0 h m : RI h0 h m -> length m <= length h0.
Proof.
  intros (_ & _ & H & Hn).
  assert (Hp : forall r p, In (r, p) m -> 1 <= p <= length h0 /\ exists i, hget h p = Some i /\ i_ref i = r).
  { intros r p Hi. apply In_mfind in Hi; [|exact Hn]. destruct (H r p Hi) as (A & _ & i & B & C). split; [|eauto].
    apply hget_some in B. lia. }
  rewrite <- (map_length snd m). rewrite <- (seq_length (length h0) 1). apply NoDup_incl_length.
  - clear H. induction m as [|[r p] m IH]; cbn [map snd]; [constructor|]. cbn [map fst] in Hn. inversion Hn as [|? ? N1 N2]; subst. constructor.
    + intros Hi. apply in_map_iff in Hi. destruct Hi as ([r' p'] & E & Hi). cbn in E. subst p'.
      destruct (Hp r p (or_introl eq_refl)) as (_ & i & A & B), (Hp r' p (or_intror Hi)) as (_ & j & C & D).
      assert (r' = r) by congruence. apply N1. rewrite <- H. exact (in_map fst m (r', p) Hi).
    + apply IH; [exact N2|]. intros r' p' Hi. apply (Hp r' p'). now right.
  - intros p Hi. apply in_map_iff in Hi. destruct Hi as ([r p'] & E & Hi). cbn in E. subst p'. apply in_seq.
    destruct (Hp r p Hi) as (A & _). lia.
Qed.
Lemma never_repeats_le n n' rnd : n <= n' -> never_repeats n' rnd -> never_repeats n rnd.
Proof. intros H Hn i j Hij. apply Hn. lia. Qed.
Lemma generated_nonempty x : IsEmptyReference (GenerateReference x) = false.
Proof. with_strategy transparent [GenerateReference] reflexivity. Qed.

Lemma same_but_ref_set i r : same_but_ref i (set_ref i r).
Proof. now repeat split. Qed.
Lemma same_trans a b c : same_but_ref a b -> same_but_ref b c -> same_but_ref a c.
Proof. unfold same_but_ref. intuition congruence. Qed.
Lemma same_refl a : same_but_ref a a.
Proof. now repeat split. Qed.

Lemma get_ref_spec rnd h0 h m k p : RI h0 h m -> 1 <= p <= length h0 ->
  (exists r h' m' k', get_ref rnd h m k p = OK (r, h', m', k') /\
     RI h0 h' m' /\ mfind m' r = Some p /\ length h' = length h /\
     (forall r' q, mfind m r' = Some q -> mfind m' r' = Some q) /\
     (forall r' q, mfind m' r' = Some q -> mfind m r' = Some q \/ (r' = r /\ q = p)) /\
     (forall q, q <> p -> hget h' q = hget h q) /\
     (forall i, hget h p = Some i -> hget h' p = Some (set_ref i r))) \/
  (get_ref rnd h m k p = Hang /\ ~ never_repeats (length h0) rnd).
Proof.
  intros HR Hp. pose proof HR as (HL & H1 & H2 & HN). unfold get_ref. replace (p =? 0)%nat with false by (symmetry; apply Nat.eqb_neq; lia).
  destruct (hget_range h0 p Hp) as [i0 E0]. destruct (H1 p i0 E0) as (i & Ei & Si). rewrite Ei.
  destruct (IsEmptyReference (i_ref i) || _)%bool eqn:Ec.
  - (* a new string: p has no entry yet *)
    assert (Hno : forall r, mfind m r <> Some p).
    { intros r Hr. destruct (H2 r p Hr) as (_ & Hne & i' & Ei' & Er). rewrite Ei in Ei'. injection Ei' as <-.
      subst r. rewrite Hne in Ec. unfold rget in Ec. rewrite Hr in Ec. rewrite Nat.eqb_refl in Ec. now rewrite andb_false_r in Ec. }
    destruct (regenerate_spec rnd m (S (length m)) k) as [(r & k' & E & Hf & j & Hj)|[E _]]; rewrite E; cbn [obind].
    2:{ right. split; [reflexivity|]. intros Hn. apply (regenerate_total rnd m k); [|exact E]. eapply never_repeats_le; [eapply RI_small; exact HR|exact Hn]. }
    left. exists r, (hset h p (set_ref i r)), (mset m r p), k'. split; [reflexivity|]. split; [|split; [|split; [|split; [|split; [|split]]]]].
    + split; [now rewrite hset_length|]. split; [|split; [|now apply mset_keys]].
      * intros q iq Eq. destruct (H1 q iq Eq) as (iq' & Eq' & Sq). rewrite hget_hset.
        destruct (Nat.eqb_spec q p) as [->|]; [|eauto]. rewrite Ei. cbn [option_map]. eexists. split; [reflexivity|].
        rewrite Ei in Eq'. injection Eq' as <-. eapply same_trans; [exact Sq|apply same_but_ref_set].
      * intros r' q Hq. rewrite mfind_mset in Hq. destruct (beqb_spec r r') as [->|Hne].
        -- injection Hq as <-. split; [lia|]. split; [subst r'; apply generated_nonempty|].
           rewrite hget_hset, Nat.eqb_refl, Ei. eexists. split; reflexivity.
        -- destruct (H2 r' q Hq) as (B & C & i' & D & F). split; [exact B|]. split; [exact C|].
           rewrite hget_hset. destruct (Nat.eqb_spec q p) as [->|]; [now destruct (Hno r')|eauto].
    + rewrite mfind_mset, bytes_eqb_refl. reflexivity.
    + apply hset_length.
    + intros r' q Hq. rewrite mfind_mset. destruct (beqb_spec r r') as [->|]; [congruence|exact Hq].
    + intros r' q Hq. rewrite mfind_mset in Hq. destruct (beqb_spec r r') as [->|]; [injection Hq as <-; auto|auto].
    + intros q Hq. rewrite hget_hset. now apply Nat.eqb_neq in Hq as ->.
    + intros i' Hi'. assert (i' = i) by congruence. subst i'. rewrite hget_hset, Nat.eqb_refl, Ei. reflexivity.
  - (* keep the string *)
    apply orb_false_iff in Ec. destruct Ec as [Ene Ec]. unfold rget in Ec.
    assert (Hk : mfind m (i_ref i) = None \/ mfind m (i_ref i) = Some p).
    { destruct (mfind m (i_ref i)) as [q|] eqn:Eq; [|now left]. right.
      destruct (H2 _ _ Eq) as (_ & _ & i' & Hq & _). apply hget_some in Hq.
      apply andb_false_iff in Ec. destruct Ec as [Ec|Ec]; apply negb_false_iff, Nat.eqb_eq in Ec; [lia|now subst]. }
    left. exists (i_ref i), h, (mset m (i_ref i) p), k. split; [reflexivity|]. split; [|split; [|split; [|split; [|split; [|split]]]]].
    + split; [exact HL|]. split; [exact H1|]. split; [|now apply mset_keys]. intros r' q Hq. rewrite mfind_mset in Hq.
      destruct (beqb_spec (i_ref i) r') as [<-|]; [injection Hq as <-; split; [lia|]; eauto|auto].
    + rewrite mfind_mset, bytes_eqb_refl. reflexivity.
    + reflexivity.
    + intros r' q Hq. rewrite mfind_mset. destruct (beqb_spec (i_ref i) r') as [<-|]; [|exact Hq]. destruct Hk; congruence.
    + intros r' q Hq. rewrite mfind_mset in Hq. destruct (beqb_spec (i_ref i) r') as [<-|]; [injection Hq as <-; auto|auto].
    + reflexivity.
    + intros i' Hi'. assert (i' = i) by congruence. subst i'. rewrite Ei. f_equal. now destruct i.
Qed.

(** ** Properties *)
(** String r stands for the instance x. *)
Definition ok_ref (m : refmap) (r : bytes) (x : ptr) : Prop :=
  (x = 0 /\ r = []) \/ (x <> 0 /\ mfind m r = Some x).
Lemma ok_ref_mono (m m' : refmap) r x : (forall r q, mfind m r = Some q -> mfind m' r = Some q) -> ok_ref m r x -> ok_ref m' r x.
Proof. intros H [E|[E1 E2]]; [now left|right; auto]. Qed.

Definition mono (m m' : refmap) : Prop := forall r q, mfind m r = Some q -> mfind m' r = Some q.
Lemma mono_refl m : mono m m. Proof. intros r q H; exact H. Qed.
Lemma mono_trans a b c : mono a b -> mono b c -> mono a c.
Proof. intros H1 H2 r q H. auto. Qed.

Definition is_reference (v : rvalue) : bool := match v with RReference _ => true | _ => false end.

Lemma copy_props_spec rnd h0 c l : forall ps s,
  NoDup (map fst l) -> RI h0 (c_heap s) (c_refs s) ->
  (forall name x, In (name, RReference x) l -> x <= length h0) ->
  (exists ps' s' new, copy_props rnd c l ps s = OK (ps', s') /\
     RI h0 (c_heap s') (c_refs s') /\ length (c_heap s') = length (c_heap s) /\
     mono (c_refs s) (c_refs s') /\ c_crefs s' = c_crefs s /\ c_pend s' = c_pend s ++ new /\
     (forall q, length h0 < q -> hget (c_heap s') q = hget (c_heap s) q) /\
     (forall name, mfind ps' name = match mfind l name with
        | Some v => if is_reference v then mfind ps name else Some (rcopy v)
        | None => mfind ps name end) /\
     (forall e, In e new -> exists x, pr_inst e = c /\ In (pr_prop e, RReference x) l /\ ok_ref (c_refs s') (pr_ref e) x) /\
     (forall name x, In (name, RReference x) l -> exists r, In (PropRef c name r) new)) \/
  (copy_props rnd c l ps s = Hang /\ ~ never_repeats (length h0) rnd).
Proof.
  induction l as [|[name v] l IH]; intros ps s Hn HR Hx.
  { left. exists ps, s, []. split; [reflexivity|]. split; [exact HR|]. split; [reflexivity|]. split; [apply mono_refl|].
    split; [reflexivity|]. split; [now rewrite app_nil_r|]. split; [reflexivity|]. split; [reflexivity|].
    split; [intros e []|intros ? ? []]. }
  cbn [map fst] in Hn. inversion Hn as [|? ? Hni Hn']; subst.
  assert (Hnf : mfind l name = None).
  { destruct (mfind l name) eqn:E; [|reflexivity]. destruct Hni. apply mfind_key. eauto. }
  destruct (is_reference v) eqn:Ev.
  - destruct v as [| | | | | | | | | | | | | | | | | | |x| | | | | | | | | | | | |]; try discriminate Ev. clear Ev. cbn [copy_props].
    assert (Hxle : x <= length h0) by (apply (Hx name); now left).
    assert (Hx' : forall nm y, In (nm, RReference y) l -> y <= length h0) by (intros nm y Hy; apply (Hx nm); now right).
    assert (G : (exists r h' m' k', get_ref rnd (c_heap s) (c_refs s) (c_rnd s) x = OK (r, h', m', k') /\
       RI h0 h' m' /\ ok_ref m' r x /\ length h' = length (c_heap s) /\ mono (c_refs s) m' /\
       (forall q, length h0 < q -> hget h' q = hget (c_heap s) q)) \/
       (get_ref rnd (c_heap s) (c_refs s) (c_rnd s) x = Hang /\ ~ never_repeats (length h0) rnd)).
    { destruct (Nat.eq_dec x 0) as [->|Hne].
      - left. exists [], (c_heap s), (c_refs s), (c_rnd s). split; [reflexivity|]. split; [exact HR|]. split; [now left|].
        split; [reflexivity|]. split; [apply mono_refl|reflexivity].
      - destruct (get_ref_spec rnd h0 (c_heap s) (c_refs s) (c_rnd s) x HR ltac:(lia)) as [(r & h' & m' & k' & E & A1 & A2 & A3 & A4 & A5 & A6 & A7)|B]; [|now right].
        left. exists r, h', m', k'. split; [exact E|]. split; [exact A1|]. split; [right; auto|]. split; [exact A3|]. split; [exact A4|].
        intros q Hq. apply A6. lia. }
    destruct G as [(r & h' & m' & k' & E & A1 & A2 & A3 & A4 & A5)|[E Hr]]; rewrite E; cbn [obind]; [|now right].
    destruct (IH ps (Cst h' m' (c_crefs s) (c_pend s ++ [PropRef c name r]) k') Hn' A1 Hx')
      as [(ps' & s' & new & F & B1 & B2 & B3 & B4 & B5 & B6 & B7 & B8 & B9)|B]; [|now right].
    cbn [c_heap c_refs c_crefs c_pend] in *. left. exists ps', s', (PropRef c name r :: new). split; [exact F|].
    split; [exact B1|]. split; [congruence|]. split; [eapply mono_trans; eauto|]. split; [exact B4|].
    split; [rewrite B5, <- app_assoc; reflexivity|]. split; [intros q Hq; rewrite B6 by exact Hq; now apply A5|].
    split; [|split].
    + intros nm. rewrite B7. cbn [mfind]. destruct (beqb_spec name nm) as [<-|]; [now rewrite Hnf|reflexivity].
    + intros e [<-|He].
      * exists x. cbn. split; [reflexivity|]. split; [now left|]. eapply ok_ref_mono; eauto.
      * destruct (B8 e He) as (y & C1 & C2 & C3). exists y. split; [exact C1|]. split; [now right|exact C3].
    + intros nm y [[= <- <-]|Hy]; [exists r; now left|]. destruct (B9 nm y Hy) as [r' Hr']. exists r'. now right.
  - assert (Hstep : copy_props rnd c ((name, v) :: l) ps s = copy_props rnd c l (mset ps name (rcopy v)) s)
      by (destruct v; try reflexivity; discriminate Ev).
    rewrite Hstep.
    destruct (IH (mset ps name (rcopy v)) s Hn' HR ltac:(intros nm y Hy; apply (Hx nm); now right))
      as [(ps' & s' & new & F & B1 & B2 & B3 & B4 & B5 & B6 & B7 & B8 & B9)|B]; [|now right].
    left. exists ps', s', new. split; [exact F|]. split; [exact B1|]. split; [exact B2|]. split; [exact B3|]. split; [exact B4|].
    split; [exact B5|]. split; [exact B6|]. split; [|split].
    + intros nm. rewrite B7, mfind_mset. cbn [mfind]. destruct (beqb_spec name nm) as [<-|]; [|reflexivity].
      now rewrite Hnf, Ev.
    + intros e He. destruct (B8 e He) as (y & C1 & C2 & C3). exists y. split; [exact C1|]. split; [now right|exact C3].
    + intros nm y [E|Hy]; [injection E as -> ->; discriminate Ev|eauto].
Qed.

(** ** Copying a forest *)
(** Already copied: pairs of an instance and its clone. *)
Definition CI (cl : list (ptr * ptr)) (s : cst) : Prop :=
  (forall r c, mfind (c_crefs s) r = Some c -> exists q, In (q, c) cl /\ mfind (c_refs s) r = Some q) /\
  (forall q c, In (q, c) cl -> exists r, mfind (c_refs s) r = Some q /\ mfind (c_crefs s) r = Some c).
Definition pairs (n : nat) (ns : list ptr) : list (ptr * ptr) := combine ns (seq (S n) (length ns)).

Record copied (h0 : heap) (cl : list (ptr * ptr)) (ns : list ptr) (s s' : cst) : Prop := {
  cp_ri : RI h0 (c_heap s') (c_refs s');
  cp_ci : CI (cl ++ pairs (length (c_heap s)) ns) s';
  cp_len : length (c_heap s') = length (c_heap s) + length ns;
  cp_mono : mono (c_refs s) (c_refs s');
  cp_old : forall q, length h0 < q <= length (c_heap s) -> hget (c_heap s') q = hget (c_heap s) q;
  cp_new : forall q c, In (q, c) (pairs (length (c_heap s)) ns) -> exists i i',
    hget h0 q = Some i /\ hget (c_heap s') c = Some i' /\
    i_class i' = i_class i /\ i_service i' = i_service i /\ mfind (c_refs s') (i_ref i') = Some q /\
    Forall2 (fun x d => In (x, d) (pairs (length (c_heap s)) ns)) (i_children i) (i_children i') /\
    (forall name, mfind (i_props i') name = match mfind (i_props i) name with
       | Some v => if is_reference v then None else Some (rcopy v)
       | None => None end);
  cp_pend : exists new, c_pend s' = c_pend s ++ new /\
    (forall e, In e new -> exists q i x, In (q, pr_inst e) (pairs (length (c_heap s)) ns) /\ hget h0 q = Some i /\
       In (pr_prop e, RReference x) (i_props i) /\ ok_ref (c_refs s') (pr_ref e) x) /\
    (forall q c i name x, In (q, c) (pairs (length (c_heap s)) ns) -> hget h0 q = Some i ->
       In (name, RReference x) (i_props i) -> exists r, In (PropRef c name r) new)
}.

Lemma pairs_app n a b : pairs n (a ++ b) = pairs n a ++ pairs (n + length a) b.
Proof.
  unfold pairs. revert n; induction a as [|x a IH]; intros n; cbn [app length seq combine].
  - now rewrite Nat.add_0_r.
  - f_equal. rewrite IH. now replace (S n + length a) with (n + S (length a)) by lia.
Qed.
Lemma pairs_range n ns q c : In (q, c) (pairs n ns) -> In q ns /\ n < c <= n + length ns.
Proof.
  unfold pairs. intros H. split; [eapply in_combine_l; eauto|]. apply in_combine_r in H. apply in_seq in H. lia.
Qed.

Lemma CI_mono cl s s' : CI cl s -> mono (c_refs s) (c_refs s') -> c_crefs s' = c_crefs s -> CI cl s'.
Proof.
  intros [H1 H2] Hm Hc. split.
  - intros r c H. rewrite Hc in H. destruct (H1 r c H) as (q & A & B). eauto.
  - intros q c H. destruct (H2 q c H) as (r & A & B). exists r. rewrite Hc. auto.
Qed.
Lemma RI_app h0 h m l : RI h0 h m -> RI h0 (h ++ l) m.
Proof.
  intros (H1 & H2 & H3 & H4). split; [rewrite app_length; lia|]. split; [|split; [|exact H4]].
  - intros p i Hp. destruct (H2 p i Hp) as (i' & A & B). exists i'. split; [|exact B].
    rewrite hget_app; [exact A|]. apply hget_some in A. lia.
  - intros r p Hp. destruct (H3 r p Hp) as (A & B & i & C & D). split; [exact A|]. split; [exact B|]. exists i. split; [|exact D].
    rewrite hget_app; [exact C|]. apply hget_some in C. lia.
Qed.
Lemma RI_hset h0 h m c x : RI h0 h m -> length h0 < c -> RI h0 (hset h c x) m.
Proof.
  intros (H1 & H2 & H3 & H4) Hc. split; [now rewrite hset_length|].
  assert (G : forall p, p <= length h0 -> hget (hset h c x) p = hget h p).
  { intros p Hp. rewrite hget_hset. destruct (Nat.eqb_spec p c); [lia|reflexivity]. }
  split; [|split; [|exact H4]].
  - intros p i Hp. destruct (H2 p i Hp) as (i' & A & B). exists i'. split; [|exact B]. apply hget_some in Hp. rewrite G by lia. exact A.
  - intros r p Hp. destruct (H3 r p Hp) as (A & B & i & C & D). split; [exact A|]. split; [exact B|]. exists i. split; [|exact D].
    rewrite G by lia. exact C.
Qed.

Lemma copied_nil h0 cl s : RI h0 (c_heap s) (c_refs s) -> CI cl s -> copied h0 cl [] s s.
Proof.
  intros H1 H2. constructor; try assumption.
  - cbn [pairs combine length seq]. now rewrite app_nil_r.
  - cbn. lia.
  - apply mono_refl.
  - reflexivity.
  - intros q c [].
  - exists []. rewrite app_nil_r. split; [reflexivity|]. split; [intros e []|intros q c i name x []].
Qed.
Lemma copied_app h0 cl a b s s1 s2 : length h0 <= length (c_heap s) ->
  copied h0 cl a s s1 -> copied h0 (cl ++ pairs (length (c_heap s)) a) b s1 s2 -> copied h0 cl (a ++ b) s s2.
Proof.
  intros Hl A B.
  assert (Ep : pairs (length (c_heap s)) (a ++ b) = pairs (length (c_heap s)) a ++ pairs (length (c_heap s1)) b).
  { rewrite pairs_app. now rewrite (cp_len _ _ _ _ _ A). }
  constructor.
  - apply (cp_ri _ _ _ _ _ B).
  - rewrite Ep, app_assoc. apply (cp_ci _ _ _ _ _ B).
  - rewrite (cp_len _ _ _ _ _ B), (cp_len _ _ _ _ _ A), app_length. lia.
  - eapply mono_trans; [apply (cp_mono _ _ _ _ _ A)|apply (cp_mono _ _ _ _ _ B)].
  - intros q Hq. rewrite (cp_old _ _ _ _ _ B); [now apply (cp_old _ _ _ _ _ A)|]. rewrite (cp_len _ _ _ _ _ A). lia.
  - intros q c H. rewrite Ep in *. apply in_app_or in H. destruct H as [H|H].
    + destruct (cp_new _ _ _ _ _ A q c H) as (i & i' & C1 & C2 & C3 & C4 & C5 & C6 & C7). exists i, i'.
      split; [exact C1|]. split.
      { rewrite (cp_old _ _ _ _ _ B); [exact C2|]. apply pairs_range in H. rewrite (cp_len _ _ _ _ _ A). lia. }
      split; [exact C3|]. split; [exact C4|]. split; [now apply (cp_mono _ _ _ _ _ B)|]. split; [|exact C7].
      eapply Forall2_impl; [|exact C6]. intros x d Hx. apply in_or_app. now left.
    + destruct (cp_new _ _ _ _ _ B q c H) as (i & i' & C1 & C2 & C3 & C4 & C5 & C6 & C7). exists i, i'.
      split; [exact C1|]. split; [exact C2|]. split; [exact C3|]. split; [exact C4|]. split; [exact C5|]. split; [|exact C7].
      eapply Forall2_impl; [|exact C6]. intros x d Hx. apply in_or_app. now right.
  - destruct (cp_pend _ _ _ _ _ A) as (n1 & A1 & A2 & A3). destruct (cp_pend _ _ _ _ _ B) as (n2 & B1 & B2 & B3).
    exists (n1 ++ n2). split; [rewrite B1, A1, app_assoc; reflexivity|]. rewrite Ep. split.
    + intros e He. apply in_app_or in He. destruct He as [He|He].
      * destruct (A2 e He) as (q & i & x & C1 & C2 & C3 & C4). exists q, i, x.
        split; [apply in_or_app; now left|]. split; [exact C2|]. split; [exact C3|].
        eapply ok_ref_mono; [apply (cp_mono _ _ _ _ _ B)|exact C4].
      * destruct (B2 e He) as (q & i & x & C1 & C2 & C3 & C4). exists q, i, x.
        split; [apply in_or_app; now right|]. auto.
    + intros q c i name x Hi Hq Hx. apply in_app_or in Hi. destruct Hi as [Hi|Hi].
      * destruct (A3 q c i name x Hi Hq Hx) as [r Hr]. exists r. apply in_or_app. now left.
      * destruct (B3 q c i name x Hi Hq Hx) as [r Hr]. exists r. apply in_or_app. now right.
Qed.

Definition good_one (rnd : nat -> bytes) (h0 : heap) (f : ptr -> cst -> outcome Empty_set (ptr * cst)) (t : rtree) : Prop :=
  forall cl s, NoDup (map fst cl ++ rnodes t) -> RI h0 (c_heap s) (c_refs s) -> CI cl s ->
    (exists s', f (rroot t) s = OK (S (length (c_heap s)), s') /\ copied h0 cl (rnodes t) s s') \/
    (f (rroot t) s = Hang /\ ~ never_repeats (length h0) rnd).

Lemma pairs_fst n ns : map fst (pairs n ns) = ns.
Proof. unfold pairs. revert n; induction ns as [|x ns IH]; intros n; cbn; [reflexivity|]. now rewrite IH. Qed.

Lemma copy_list_spec rnd h0 f ts : Forall (good_one rnd h0 f) ts ->
  forall cl s, NoDup (map fst cl ++ fnodes ts) -> RI h0 (c_heap s) (c_refs s) -> CI cl s ->
    (exists cs s', copy_list f (map rroot ts) s = OK (cs, s') /\ copied h0 cl (fnodes ts) s s' /\
       Forall2 (fun x d => In (x, d) (pairs (length (c_heap s)) (fnodes ts))) (map rroot ts) cs) \/
    (copy_list f (map rroot ts) s = Hang /\ ~ never_repeats (length h0) rnd).
Proof.
  induction 1 as [|t ts Ht Hts IH]; intros cl s Hn HR HC.
  { left. exists [], s. split; [reflexivity|]. split; [now apply copied_nil|constructor]. }
  cbn [map fnodes flat_map copy_list] in *. fold (fnodes ts) in *.
  assert (Hn1 : NoDup (map fst cl ++ rnodes t)).
  { rewrite app_assoc in Hn. now apply NoDup_app_l in Hn. }
  destruct (Ht cl s Hn1 HR HC) as [(s1 & E1 & C1)|[E1 Hr]]; rewrite E1; cbn [obind]; [|now right].
  destruct (IH (cl ++ pairs (length (c_heap s)) (rnodes t)) s1) as [(cs & s2 & E2 & C2 & F2)|[E2 Hr]].
  - rewrite map_app, pairs_fst, <- app_assoc. exact Hn.
  - apply (cp_ri _ _ _ _ _ C1).
  - apply (cp_ci _ _ _ _ _ C1).
  - rewrite E2. cbn [obind]. left. exists (S (length (c_heap s)) :: cs), s2. split; [reflexivity|].
    split; [eapply copied_app; [apply HR|exact C1|exact C2]|]. rewrite pairs_app. constructor.
    + apply in_or_app. left. destruct t. left. reflexivity.
    + eapply Forall2_impl; [|exact F2]. intros x d Hx. apply in_or_app. right. now rewrite <- (cp_len _ _ _ _ _ C1).
  - rewrite E2. now right.
Qed.

Lemma icopy_spec rnd ord h0 : wf_heap h0 -> any_order ord -> forall fuel t,
  tree_at h0 t -> height t <= fuel -> good_one rnd h0 (icopy fuel rnd ord) t.
Proof.
  intros Hwf Hord. induction fuel as [|fuel IH]; intros t Ht Hf; [destruct t; cbn in Hf; lia|].
  inversion Ht as [p ts i0 Hi0 Hch Hts]; subst. intros cl s Hn HR HC. cbn [rroot icopy].
  pose proof (hget_some _ _ _ Hi0) as Hp.
  destruct (proj1 (proj2 HR) p i0 Hi0) as (i & Ei & Si1 & Si2 & Si3 & Si4). rewrite Ei.
  destruct (get_ref_spec rnd h0 (c_heap s) (c_refs s) (c_rnd s) p HR Hp)
    as [(r & h' & m' & k' & E & A1 & A2 & A3 & A4 & A5 & A6 & A7)|[E Hr]]; rewrite E; cbn [obind]; [|now right].
  set (n := length (c_heap s)) in *.
  set (s1 := Cst (h' ++ [Inst (i_class i) r (i_service i) [] []]) m' (mset (c_crefs s) r (S (length h'))) (c_pend s) k').
  assert (Hlen1 : length (c_heap s1) = S n) by (cbn; rewrite app_length; cbn; lia).
  assert (R1 : RI h0 (c_heap s1) (c_refs s1)) by (cbn; now apply RI_app).
  assert (Hpcl : forall q c, In (q, c) cl -> q <> p).
  { intros q c Hq ->. apply NoDup_remove_2 in Hn. apply Hn, in_or_app. left. change p with (fst (p, c)). now apply in_map. }
  assert (C1 : CI (cl ++ [(p, S n)]) s1).
  { destruct HC as [HC1 HC2]. split; cbn [c_crefs c_refs s1].
    - intros r' c Hc. rewrite mfind_mset in Hc. destruct (beqb_spec r r') as [<-|Hne].
      + injection Hc as <-. exists p. split; [|exact A2]. apply in_or_app. right. left. now rewrite A3.
      + destruct (HC1 r' c Hc) as (q & B1 & B2). exists q. split; [apply in_or_app; now left|now apply A4].
    - intros q c Hq. apply in_app_or in Hq. destruct Hq as [Hq|[[= <- <-]|[]]].
      + destruct (HC2 q c Hq) as (r' & B1 & B2). exists r'. split; [now apply A4|]. rewrite mfind_mset.
        destruct (beqb_spec r r') as [<-|]; [|exact B2]. apply A4 in B1. exfalso. apply (Hpcl q c Hq). congruence.
      + exists r. split; [exact A2|]. now rewrite mfind_mset, bytes_eqb_refl, A3. }
  destruct (Hwf p i0 Hi0) as [W1 W2].
  destruct (copy_props_spec rnd h0 (S (length h')) (ord p (i_props i)) [] s1)
    as [(ps & s2 & new & E2 & B1 & B2 & B3 & B4 & B5 & B6 & B7 & B8 & B9)|[E2 Hr]].
  - eapply Permutation_NoDup; [apply Permutation_map, Hord|]. now rewrite <- Si3.
  - exact R1.
  - intros name x Hx. apply (W2 name). rewrite Si3. eapply Permutation_in; [apply Permutation_sym, Hord|exact Hx].
  - rewrite E2. cbn [obind]. rewrite A3 in *. fold n in B8, B9, E2 |- *.
    assert (Hgood : Forall (good_one rnd h0 (icopy fuel rnd ord)) ts).
    { rewrite Forall_forall in *. intros t Hin. apply IH; [auto|]. cbn in Hf.
      clear -Hf Hin. assert (height t <= fold_right (fun t n => Nat.max (height t) n) 0 ts); [|lia].
      induction ts as [|u ts IHts]; [destruct Hin|]. cbn [fold_right]. destruct Hin as [->|Hin]; [lia|].
      assert (height t <= fold_right (fun t n => Nat.max (height t) n) 0 ts); [|lia]. apply IHts; [|exact Hin]. cbn [fold_right] in Hf. lia. }
    rewrite <- Si4, Hch.
    destruct (copy_list_spec rnd h0 (icopy fuel rnd ord) ts Hgood (cl ++ [(p, S n)]) s2)
      as [(cs & s3 & E3 & D & F3)|[E3 Hr]].
    + rewrite map_app. cbn [map fst]. rewrite <- app_assoc. exact Hn.
    + exact B1.
    + eapply CI_mono; [exact C1|exact B3|exact B4].
    + rewrite E3. cbn [obind]. left. eexists. split; [reflexivity|].
      assert (Hlen2 : length (c_heap s2) = S n) by congruence.
      assert (Hpairs : pairs n (p :: fnodes ts) = (p, S n) :: pairs (S n) (fnodes ts)) by reflexivity.
      rewrite Hlen2 in F3.
      assert (Hn0 : length h0 <= n) by apply HR.
      assert (Hmono : mono (c_refs s) (c_refs s3)).
      { eapply mono_trans; [|apply (cp_mono _ _ _ _ _ D)]. eapply mono_trans; [exact A4|exact B3]. }
      assert (Hm1 : mono m' (c_refs s3)) by (eapply mono_trans; [exact B3|apply (cp_mono _ _ _ _ _ D)]).
      pose proof (cp_len _ _ _ _ _ D) as Hlen3. rewrite Hlen2 in Hlen3.
      change (rnodes (RNode p ts)) with (p :: fnodes ts).
      constructor; cbn [c_heap c_refs c_crefs c_pend].
      * apply RI_hset; [apply (cp_ri _ _ _ _ _ D)|lia].
      * fold n. rewrite Hpairs. pose proof (cp_ci _ _ _ _ _ D) as Q. rewrite Hlen2, <- app_assoc in Q. exact Q.
      * rewrite hset_length. cbn [length]. fold n. lia.
      * exact Hmono.
      * fold n. intros q Hq. rewrite hget_hset. destruct (Nat.eqb_spec q (S n)); [lia|].
        rewrite (cp_old _ _ _ _ _ D) by lia. rewrite B6 by lia. cbn [c_heap s1]. rewrite hget_app by lia. apply A6. lia.
      * fold n. rewrite Hpairs. intros q c [[= <- <-]|Hq].
        -- exists i0. rewrite hget_hset, Nat.eqb_refl.
           destruct (hget_range (c_heap s3) (S n) ltac:(lia)) as [x Hx]. rewrite Hx. cbn [option_map]. eexists. split; [exact Hi0|].
           split; [reflexivity|]. cbn [i_class i_service i_ref i_children i_props].
           split; [congruence|]. split; [congruence|]. split; [now apply Hm1|]. split.
           { rewrite Hch. eapply Forall2_impl; [|exact F3]. intros y d Hy. now right. }
           intros name. rewrite B7. rewrite <- (mfind_perm (i_props i)), <- Si3; [|now rewrite <- Si3|apply Hord].
           destruct (mfind (i_props i0) name) as [v|]; [|reflexivity]. reflexivity.
        -- rewrite <- Hlen2 in Hq. destruct (cp_new _ _ _ _ _ D q c Hq) as (j & j' & G1 & G2 & G3 & G4 & G5 & G6 & G7).
           exists j, j'. split; [exact G1|]. split.
           { rewrite hget_hset. apply pairs_range in Hq. destruct (Nat.eqb_spec c (S n)); [lia|exact G2]. }
           split; [exact G3|]. split; [exact G4|]. split; [exact G5|]. split; [|exact G7].
           eapply Forall2_impl; [|exact G6]. intros y d Hy. right. now rewrite <- Hlen2.
      * destruct (cp_pend _ _ _ _ _ D) as (n2 & P1 & P2 & P3). exists (new ++ n2). split.
        { rewrite P1, B5, app_assoc. reflexivity. }
        fold n. rewrite Hpairs. rewrite Hlen2 in P2, P3. split.
        -- intros e He. apply in_app_or in He. destruct He as [He|He].
           ++ destruct (B8 e He) as (x & G1 & G2 & G3). exists p, i0, x. split; [left; now rewrite G1|]. split; [exact Hi0|].
              split; [rewrite Si3; eapply Permutation_in; [apply Permutation_sym, Hord|exact G2]|].
              eapply ok_ref_mono; [apply (cp_mono _ _ _ _ _ D)|exact G3].
           ++ destruct (P2 e He) as (q & j & x & G1 & G2 & G3 & G4). exists q, j, x. split; [now right|auto].
        -- intros q c j name x [[= <- <-]|Hq] Hj Hx.
           ++ rewrite Hi0 in Hj. injection Hj as <-. destruct (B9 name x) as [r' Hr'].
              { eapply Permutation_in; [apply Hord|]. now rewrite <- Si3. }
              exists r'. apply in_or_app. now left.
           ++ destruct (P3 q c j name x Hq Hj Hx) as [r' Hr']. exists r'. apply in_or_app. now right.
    + rewrite E3. now right.
  - rewrite E2. now right.
Qed.

(** ** The resolve phase *)
Definition target (m mc : refmap) (r : bytes) : ptr :=
  if negb (rget mc r =? 0)%nat && negb (IsEmptyReference r) then rget mc r else rget m r.
Definition resolve_step (m mc : refmap) (h : heap) (e : propref) : heap :=
  let '(h, ok) := Resolve (Some mc) h e in if ok then h else fst (Resolve (Some m) h e).
Definition same_but_props (i j : inst) : Prop :=
  i_class i = i_class j /\ i_service i = i_service j /\ i_ref i = i_ref j /\ i_children i = i_children j.
Lemma resolve_step_length m mc h e : length (resolve_step m mc h e) = length h.
Proof.
  unfold resolve_step, Resolve. destruct (hget h (pr_inst e)) as [i|] eqn:E; [|now rewrite E].
  destruct (_ && _)%bool; [apply hset_length|]. rewrite hget_hset, Nat.eqb_refl, E. cbn [option_map fst]. now rewrite !hset_length.
Qed.
Lemma resolve_step_at m mc h e q i : hget h q = Some i ->
  exists i', hget (resolve_step m mc h e) q = Some i' /\ same_but_props i i' /\
    (pr_inst e <> q -> i' = i) /\
    (pr_inst e = q -> forall name, mfind (i_props i') name =
       if bytes_eqb (pr_prop e) name then Some (RReference (target m mc (pr_ref e))) else mfind (i_props i) name).
Proof.
  intros Hq. unfold resolve_step, Resolve, target. destruct (Nat.eq_dec (pr_inst e) q) as [->|Hne].
  - rewrite Hq. destruct (negb (rget mc (pr_ref e) =? 0)%nat && _)%bool.
    + rewrite hget_hset, Nat.eqb_refl, Hq. eexists. split; [reflexivity|]. split; [now repeat split|]. split; [congruence|].
      intros _ name. cbn [i_props set_props]. now rewrite mfind_mset.
    + rewrite hget_hset, Nat.eqb_refl, Hq. cbn [option_map fst]. rewrite !hget_hset, !Nat.eqb_refl, Hq. cbn [option_map].
      eexists. split; [reflexivity|]. split; [now repeat split|]. split; [congruence|].
      intros _ name. cbn [i_props set_props]. rewrite !mfind_mset. now destruct (bytes_eqb _ _).
  - exists i. split; [|split; [now repeat split|split; [reflexivity|congruence]]].
    destruct (hget h (pr_inst e)) as [j|] eqn:E; [|now rewrite E].
    destruct (_ && _)%bool; [rewrite hget_hset; now apply not_eq_sym, Nat.eqb_neq in Hne as ->|].
    rewrite hget_hset, Nat.eqb_refl, E. cbn [option_map fst]. rewrite !hget_hset.
    now apply not_eq_sym, Nat.eqb_neq in Hne as ->.
Qed.
Lemma resolve_fold m mc l : forall h,
  length (fold_left (resolve_step m mc) l h) = length h /\
  forall q i, hget h q = Some i -> exists i', hget (fold_left (resolve_step m mc) l h) q = Some i' /\ same_but_props i i' /\
    ((forall e, In e l -> pr_inst e <> q) -> i' = i) /\
    forall name, (exists e, In e l /\ pr_inst e = q /\ pr_prop e = name /\
                   mfind (i_props i') name = Some (RReference (target m mc (pr_ref e)))) \/
                 ((forall e, In e l -> pr_inst e = q -> pr_prop e <> name) /\ mfind (i_props i') name = mfind (i_props i) name).
Proof.
  induction l as [|e l IH]; intros h; cbn [fold_left].
  { split; [reflexivity|]. intros q i Hq. exists i. split; [exact Hq|]. split; [now repeat split|]. split; [reflexivity|].
    intros name. right. split; [intros e []|reflexivity]. }
  destruct (IH (resolve_step m mc h e)) as [H1 H2]. split; [now rewrite H1, resolve_step_length|].
  intros q i Hq. destruct (resolve_step_at m mc h e q i Hq) as (j & Hj & (S1 & S2 & S3 & S4) & A1 & A2).
  destruct (H2 q j Hj) as (i' & Hi' & (T1 & T2 & T3 & T4) & B1 & B2). exists i'. split; [exact Hi'|].
  split; [repeat split; congruence|]. split.
  { intros Hall. rewrite B1; [apply A1, Hall; now left|]. intros e' He'. apply Hall. now right. }
  intros name. destruct (B2 name) as [(e' & C1 & C2 & C3 & C4)|[C1 C2]].
  - left. exists e'. split; [now right|auto].
  - destruct (Nat.eq_dec (pr_inst e) q) as [He|He].
    + rewrite (A2 He) in C2. destruct (beqb_spec (pr_prop e) name) as [Hp|Hp].
      * left. exists e. split; [now left|auto].
      * right. split; [|exact C2]. intros e' [<-|He'] Hq'; [exact Hp|now apply C1].
    + right. rewrite (A1 He) in C2. split; [|exact C2]. intros e' [<-|He'] Hq'; [congruence|now apply C1].
Qed.
Lemma resolve_all_fold s : resolve_all s = fold_left (resolve_step (c_refs s) (c_crefs s)) (c_pend s) (c_heap s).
Proof. reflexivity. Qed.

Lemma index_of_pairs n ns p k : index_of p ns = Some k -> In (p, S (n + k)) (pairs n ns).
Proof.
  unfold pairs. revert n k; induction ns as [|x ns IH]; intros n k; cbn [index_of]; [discriminate|].
  destruct (Nat.eqb_spec x p) as [->|]; [intros [= <-]; rewrite Nat.add_0_r; now left|].
  destruct (index_of p ns) as [k'|]; [|discriminate]. intros [= <-]. right.
  replace (S (n + S k')) with (S (S n + k')) by lia. apply (IH (S n)). reflexivity.
Qed.
Lemma index_of_In ns p : In p ns -> exists k, index_of p ns = Some k.
Proof.
  induction ns as [|x ns IH]; intros H; [destruct H|]. cbn [index_of]. destruct (Nat.eqb_spec x p); [eauto|].
  destruct H as [H|H]; [congruence|]. destruct (IH H) as [k ->]. cbn. eauto.
Qed.
Lemma index_of_None ns p : index_of p ns = None -> ~ In p ns.
Proof. intros H Hi. destruct (index_of_In _ _ Hi) as [k Hk]. congruence. Qed.
Lemma pairs_fun n ns p c c' : NoDup ns -> In (p, c) (pairs n ns) -> In (p, c') (pairs n ns) -> c = c'.
Proof.
  unfold pairs. revert n; induction ns as [|x ns IH]; intros n Hn Hc Hc'; [destruct Hc|].
  inversion Hn; subst. cbn [length seq combine] in Hc, Hc'.
  destruct Hc as [Hc|Hc], Hc' as [Hc'|Hc']; [congruence|..].
  - injection Hc as -> _. apply in_combine_l in Hc'. contradiction.
  - injection Hc' as -> _. apply in_combine_l in Hc. contradiction.
  - eapply IH; eauto.
Qed.
Lemma clone_of_pairs h ns p c : NoDup ns -> In (p, c) (pairs (length h) ns) -> clone_of h ns p = c.
Proof.
  intros Hn H. unfold clone_of. destruct (index_of p ns) as [k|] eqn:E.
  - eapply pairs_fun; [exact Hn| |exact H]. now apply index_of_pairs.
  - apply pairs_range in H. destruct H. now apply index_of_None in E.
Qed.
Lemma pairs_inj n ns p p' c : In (p, c) (pairs n ns) -> In (p', c) (pairs n ns) -> p = p'.
Proof.
  unfold pairs. revert n; induction ns as [|x ns IH]; intros n Hc Hc'; [destruct Hc|].
  cbn [length seq combine] in Hc, Hc'.
  destruct Hc as [Hc|Hc], Hc' as [Hc'|Hc']; [congruence|..].
  - injection Hc as E1 E2. apply in_combine_r, in_seq in Hc'. lia.
  - injection Hc' as E1 E2. apply in_combine_r, in_seq in Hc. lia.
  - eapply IH; eauto.
Qed.

(** The whole operation from a heap h. *)
Lemma copied_is_copy h ns s' k : wf_heap h -> NoDup ns -> copied h [] ns (Cst h [] [] [] k) s' -> is_copy h (resolve_all s') ns.
Proof.
  intros Hwf Hn C. pose proof (cp_ci _ _ _ _ _ C) as [I1 I2]. cbn [c_heap app] in I1, I2.
  pose proof (cp_ri _ _ _ _ _ C) as (R1 & R2 & R3 & _). pose proof (cp_len _ _ _ _ _ C) as Hl. cbn [c_heap] in Hl.
  destruct (cp_pend _ _ _ _ _ C) as (new & P1 & P2 & P3). cbn [c_pend app c_heap] in P1, P2, P3. rewrite <- P1 in P2, P3. clear P1 new.
  rewrite resolve_all_fold. destruct (resolve_fold (c_refs s') (c_crefs s') (c_pend s') (c_heap s')) as [F1 F2].
  (* what a pending string resolves to *)
  assert (T : forall r x, ok_ref (c_refs s') r x -> target (c_refs s') (c_crefs s') r = clone_of h ns x).
  { intros r x [[-> ->]|[Hx Hr]]; unfold target.
    - replace (IsEmptyReference []) with true by reflexivity. rewrite andb_false_r. unfold rget.
      destruct (mfind (c_refs s') []) as [p|] eqn:E; [destruct (R3 _ _ E) as (_ & B & _); discriminate B|].
      unfold clone_of. destruct (index_of 0 ns) as [j|] eqn:Ej; [|reflexivity].
      apply (index_of_pairs (length h)) in Ej. destruct (cp_new _ _ _ _ _ C _ _ Ej) as (i & _ & B & _). discriminate B.
    - destruct (R3 _ _ Hr) as (_ & -> & _). rewrite andb_true_r. unfold rget at 1 2.
      destruct (mfind (c_crefs s') r) as [c|] eqn:E.
      + destruct (I1 r c E) as (q & Hq & Hr'). assert (q = x) by congruence. subst q.
        destruct (pairs_range _ _ _ _ Hq). replace (c =? 0)%nat with false by (symmetry; apply Nat.eqb_neq; lia).
        cbn [negb]. symmetry. now apply clone_of_pairs.
      + cbn. unfold rget. rewrite Hr. unfold clone_of. destruct (index_of x ns) as [j|] eqn:Ej; [|reflexivity].
        apply (index_of_pairs (length h)) in Ej. destruct (I2 _ _ Ej) as (r' & A & B).
        destruct (R3 _ _ A) as (_ & _ & i1 & A1 & A2). destruct (R3 _ _ Hr) as (_ & _ & i2 & B1 & B2).
        assert (i1 = i2) by congruence. subst. congruence. }
  split; [now rewrite F1|]. split.
  - intros p i Hp. destruct (R2 p i Hp) as (i' & Hi' & Si). destruct (F2 p i' Hi') as (i'' & Hi'' & _ & B & _).
    exists i''. split; [exact Hi''|]. rewrite B; [exact Si|]. intros e He Heq.
    destruct (P2 e He) as (q & _ & _ & Hq & _). rewrite Heq in Hq. apply pairs_range in Hq. apply hget_some in Hp. lia.
  - intros p i Hin Hp. destruct (index_of_In _ _ Hin) as [j Hj]. apply (index_of_pairs (length h)) in Hj.
    destruct (cp_new _ _ _ _ _ C _ _ Hj) as (i0 & c & A1 & A2 & A3 & A4 & A5 & A6 & A7). assert (i0 = i) by congruence. subst i0. clear A1.
    destruct (R3 _ _ A5) as (_ & _ & o & O1 & O2).
    destruct (F2 p o O1) as (o' & Ho' & _ & Bo & _).
    assert (o' = o).
    { apply Bo. intros e He Heq. destruct (P2 e He) as (q & _ & _ & Hq & _). rewrite Heq in Hq. apply pairs_range in Hq. apply hget_some in Hp. lia. }
    subst o'. destruct (F2 _ c A2) as (c' & Hc' & (S1 & S2 & S3 & S4) & _ & B).
    rewrite (clone_of_pairs h ns p _ Hn Hj). exists o, c'. split; [exact Ho'|]. split; [exact Hc'|].
    split; [congruence|]. split; [congruence|]. split; [congruence|]. split.
    + rewrite <- S4. clear -A6 Hn. cbn [c_heap] in A6. induction A6 as [|x d l l' Hx _ IH]; [reflexivity|]. cbn [map]. rewrite IH. f_equal.
      symmetry. now apply clone_of_pairs.
    + destruct (Hwf p i Hp) as [W1 W2]. intros name. destruct (B name) as [(e & E1 & E2 & E3 & E4)|[E1 E2]].
      * destruct (P2 e E1) as (q & i0 & x & Q1 & Q2 & Q3 & Q4). rewrite E2 in Q1.
        assert (q = p) by (eapply pairs_inj; eauto). subst q. assert (i0 = i) by congruence. subst i0. rewrite E3 in Q3.
        rewrite (In_mfind _ _ _ W1 Q3). rewrite E4. cbn [option_map copied_value]. now rewrite (T _ _ Q4).
      * rewrite E2, A7. destruct (mfind (i_props i) name) as [v|] eqn:Ev; [|reflexivity]. cbn [option_map].
        destruct (is_reference v) eqn:Er; [|f_equal; destruct v; try reflexivity; discriminate Er].
        exfalso. destruct v; try discriminate Er. apply mfind_In in Ev.
        destruct (P3 _ _ _ _ _ Hj Hp Ev) as [r Hr]. now apply (E1 _ Hr).
Qed.
