(** RbxlCodecForest.v - forests from links. *)
From Coq Require Import Relations Permutation.
From Verif Require Import Base RbxlValues RbxlArrays RbxlModel RbxlFile RbxValues Tree RbxlCodec
  SpecValues SpecTree SpecTables SpecDecode TreeProofs RbxlCodecTree.

Section Forest.
Context (links : list (Z * Z)) (ids : list Z) (h : heap).
Context (Hn : NoDup ids) (Hm : ~ In (-1)%Z ids) (Hone : NoDup (map fst links)) (Hac : forall z, ~ ancestor links z z).
Context (Hin : forall cp, In cp links -> In (fst cp) ids /\ (snd cp = (-1)%Z \/ In (snd cp) ids)).
Context (Hheap : forall k z, nth_error ids k = Some z -> exists x, hget h (S k) = Some x /\ i_children x = map (address ids) (kids links z)).

Definition up := clos_refl_trans_1n Z (linked links).
Lemma link_fun c p q : In (c, p) links -> In (c, q) links -> p = q.
Proof.
  clear Hin Hheap Hac. induction links as [|[a b] l IH]; intros H1 H2; [contradiction|]. cbn [map fst] in Hone. inversion Hone as [|? ? Ha Ho]; subst.
  destruct H1 as [E1|H1], H2 as [E2|H2].
  - congruence.
  - injection E1 as -> ->. exfalso. apply Ha. now apply (in_map fst) in H2.
  - injection E2 as -> ->. exfalso. apply Ha. now apply (in_map fst) in H1.
  - now apply IH.
Qed.
Lemma up_linear y a b : up y a -> up y b -> up a b \/ up b a.
Proof.
  intros H. revert b. induction H as [y|y p a Hl H IH]; intros b Hb; [now left|].
  inversion Hb as [|q ? Hl' Hb']; subst.
  - right. econstructor 2; eauto.
  - apply IH. assert (p = q) as -> by (eapply link_fun; [apply Hl|apply Hl']). exact Hb'.
Qed.
Lemma up_or y a : up y a -> y = a \/ ancestor links y a.
Proof.
  induction 1 as [y|y p a Hl H IH]; [now left|]. right. destruct IH as [->|IH]; [now constructor|econstructor 2; eauto].
Qed.
Lemma anc_up y a : ancestor links y a -> up y a.
Proof. induction 1 as [y p Hl|y p a Hl H IH]; [econstructor 2; [eauto|constructor]|econstructor 2; eauto]. Qed.
Lemma up_trans a b c : up a b -> up b c -> up a c.
Proof. intros H. revert c. induction H as [a|a p b Hl H IH]; intros c H'; [exact H'|]. econstructor 2; [exact Hl|now apply IH]. Qed.
Lemma anc_step a b : ancestor links a b -> exists p, linked links a p /\ up p b.
Proof. inversion 1 as [? Hl|p ? Hl H']; subst; [exists b; split; [auto|constructor]|exists p; split; [auto|now apply anc_up]]. Qed.
Lemma step_anc a p b : linked links a p -> up p b -> ancestor links a b.
Proof. intros Hl Hu. destruct (up_or _ _ Hu) as [->|H]; [now constructor|econstructor 2; eauto]. Qed.

(** Trees of different children of one parent, or of different roots. *)
Definition siblings (c d : Z) : Prop := c <> d /\ exists p, In (c, p) links /\ In (d, p) links.
Lemma siblings_apart c d y : siblings c d -> up y c -> up y d -> False.
Proof.
  assert (H : forall c d p, c <> d -> In (c, p) links -> In (d, p) links -> up c d -> False).
  { clear c d y. intros c d p Hne Hc Hd Hu. destruct (up_or _ _ Hu) as [|H]; [contradiction|]. destruct (anc_step _ _ H) as (q & [Hq1 Hq2] & Hqd).
    assert (q = p) as -> by (eapply link_fun; eauto).
    apply (Hac d). eapply step_anc; [split; eauto|exact Hqd]. }
  intros (Hne & p & Hc & Hd) H1 H2. destruct (up_linear _ _ _ H1 H2) as [Hu|Hu]; [exact (H c d p Hne Hc Hd Hu)|exact (H d c p (not_eq_sym Hne) Hd Hc Hu)].
Qed.
Definition good (t : rtree) (z : Z) : Prop :=
  tree_at h t /\ rroot t = address ids z /\ NoDup (rnodes t) /\ (forall p, In p (rnodes t) -> exists y, In y ids /\ p = address ids y /\ up y z).
Lemma address_inj y z : In y ids -> In z ids -> address ids y = address ids z -> y = z.
Proof.
  intros Hy Hz E. destruct (address_some _ _ Hy) as (k & K1 & K2). destruct (address_some _ _ Hz) as (j & J1 & J2). rewrite K2, J2 in E. injection E as ->. congruence.
Qed.
Lemma NoDup_join {A} : forall (a b : list A), NoDup a -> NoDup b -> (forall x, In x a -> ~ In x b) -> NoDup (a ++ b).
Proof.
  induction a as [|x a IH]; intros b Ha Hb Hd; [exact Hb|]. inversion Ha as [|? ? Hx Ha']; subst. cbn [app]. constructor.
  - intros H. apply in_app_or in H. destruct H as [H|H]; [contradiction|]. apply (Hd x); [now left|exact H].
  - apply IH; auto. intros y Hy. apply Hd. now right.
Qed.
Lemma good_list : forall cs ts, Forall2 good ts cs -> NoDup cs -> (exists p, forall c, In c cs -> In (c, p) links) -> NoDup (fnodes ts).
Proof.
  intros cs ts H. induction H as [|t c ts cs Hg Hf IH]; intros Hnd Hp; [constructor|]. inversion Hnd as [|? ? Hc Hnd']; subst.
  destruct Hp as [p Hp]. cbn [fnodes flat_map]. apply NoDup_join.
  - apply Hg.
  - apply IH; [exact Hnd'|]. exists p. intros d Hd. apply Hp. now right.
  - intros q Hq Hq'. destruct Hg as (_ & _ & _ & Hg). destruct (Hg q Hq) as (y & Y1 & Y2 & Y3).
    apply in_flat_map in Hq'. destruct Hq' as (t' & Ht' & Hq').
    assert (Hd : exists d, In d cs /\ good t' d). { clear - Hf Ht'. induction Hf as [|a b l m Hab Hf IH]; [contradiction|]. destruct Ht' as [->|Ht']; [exists b; split; [now left|exact Hab]|]. destruct (IH Ht') as (d & D1 & D2). exists d. split; [now right|exact D2]. }
    destruct Hd as (d & Hd & (_ & _ & _ & Hd')). destruct (Hd' q Hq') as (y' & Y1' & Y2' & Y3').
    assert (y = y') as <- by (apply address_inj; congruence).
    apply (siblings_apart c d y); [|exact Y3|exact Y3']. split; [intros ->; contradiction|]. exists p. split; apply Hp; [now left|now right].
Qed.
Lemma kids_NoDup z : NoDup (kids links z).
Proof.
  unfold kids. clear Hin Hheap Hac. induction links as [|[a b] l IH]; cbn [filter map]; [constructor|]. cbn [map fst] in Hone. inversion Hone as [|? ? Ha Ho]; subst.
  cbn [snd]. destruct (b =? z)%Z; [|now apply IH]. cbn [map fst]. constructor; [|now apply IH].
  intros Hi. apply Ha. apply in_map_iff in Hi. destruct Hi as (cp & <- & Hi). apply filter_In in Hi. apply in_map. apply Hi.
Qed.
Lemma kids_ids z c : In c (kids links z) -> In c ids.
Proof. intros H. apply kids_In in H. exact (proj1 (Hin _ H)). Qed.
Lemma tree_exists : forall fuel path z, length path + fuel = length ids -> NoDup path -> incl path ids -> In z ids ->
  (forall p, In p path -> ancestor links z p) -> exists t, good t z.
Proof.
  induction fuel as [|fuel IH]; intros path z Hl Hp Hi Hz Ha.
  - exfalso. assert (Hzp : ~ In z path) by (intros H; apply (Hac z); now apply Ha).
    assert (H : length (z :: path) <= length ids) by (apply NoDup_incl_length; [now constructor|intros y [<-|Hy]; auto]). cbn in H. lia.
  - assert (Hzp : ~ In z path) by (intros H; apply (Hac z); now apply Ha).
    assert (Hz1 : z <> (-1)%Z) by (intros ->; contradiction).
    assert (Hk : forall cs, (forall c, In c cs -> In (c, z) links /\ In c ids) -> exists ts, Forall2 good ts cs).
    { induction cs as [|c cs IHc]; intros Hcs; [exists []; constructor|].
      destruct (IH (z :: path) c) as [t Ht].
      - cbn. lia.
      - now constructor.
      - intros y [<-|Hy]; auto.
      - apply (Hcs c). now left.
      - intros p [<-|Hp']; [constructor; split; [apply Hcs; now left|exact Hz1]|]. econstructor 2; [split; [apply Hcs; now left|exact Hz1]|now apply Ha].
      - destruct IHc as [ts Hts]; [intros; apply Hcs; now right|]. exists (t :: ts). now constructor. }
    destruct (Hk (kids links z)) as [ts Hts].
    { intros c Hc. split; [now apply kids_In|eapply kids_ids; eauto]. }
    apply In_nth_error in Hz. destruct Hz as [k Hkz]. destruct (Hheap k z Hkz) as (x & Hx & Hxc).
    pose proof (address_nth _ _ _ Hn Hkz) as Eaz.
    assert (Hnode : forall t, In t ts -> exists c, In (c, z) links /\ good t c).
    { intros t Ht. assert (Hc : exists c, In c (kids links z) /\ good t c).
      { clear - Hts Ht. induction Hts as [|a b l m Hab Hf IHf]; [contradiction|]. destruct Ht as [->|Ht]; [exists b; split; [now left|exact Hab]|].
        destruct (IHf Ht) as (d & D1 & D2). exists d. split; [now right|exact D2]. }
      destruct Hc as (c & C1 & C2). exists c. split; [now apply kids_In|exact C2]. }
    exists (RNode (address ids z) ts). split; [|split; [reflexivity|split]].
    + apply tree_node with x.
      * now rewrite Eaz.
      * rewrite Hxc. clear - Hts. induction Hts as [|a b l m Hab Hf IHf]; [reflexivity|]. cbn [map]. destruct Hab as (_ & -> & _). now rewrite IHf.
      * apply Forall_forall. intros t Ht. destruct (Hnode t Ht) as (c & _ & Hg). apply Hg.
    + cbn [rnodes]. constructor.
      * intros Hi'. apply in_flat_map in Hi'. destruct Hi' as (t & Ht & Hq). destruct (Hnode t Ht) as (c & Hc & (_ & _ & _ & Hg)).
        destruct (Hg _ Hq) as (y & Y1 & Y2 & Y3). assert (z = y) as <- by (apply address_inj; auto; eapply nth_error_In; eauto).
        apply (Hac z). assert (Hcz : ancestor links c z) by (constructor; split; auto).
        destruct (up_or _ _ Y3) as [<-|Y4]; [exact Hcz|]. destruct (anc_step _ _ Y4) as (q & Q1 & Q2).
        eapply step_anc; [exact Q1|]. eapply up_trans; [exact Q2|]. now apply anc_up.
      * apply (good_list (kids links z) ts Hts (kids_NoDup z)). exists z. intros c Hc. now apply kids_In.
    + cbn [rnodes]. intros p [<-|Hp'].
      * exists z. split; [eapply nth_error_In; eauto|]. split; [reflexivity|constructor].
      * apply in_flat_map in Hp'. destruct Hp' as (t & Ht & Hq). destruct (Hnode t Ht) as (c & Hc & (_ & _ & _ & Hg)).
        destruct (Hg _ Hq) as (y & Y1 & Y2 & Y3). exists y. split; [exact Y1|]. split; [exact Y2|]. eapply up_trans; [exact Y3|].
        econstructor 2; [split; eauto|constructor].
Qed.
Lemma forest_exists : exists ts, forest_at h ts /\ map rroot ts = map (address ids) (kids links (-1)%Z).
Proof.
  assert (Hk : forall cs, (forall c, In c cs -> In c ids) -> exists ts, Forall2 good ts cs).
  { induction cs as [|c cs IHc]; intros Hcs; [exists []; constructor|].
    destruct (tree_exists (length ids) [] c) as [t Ht]; [reflexivity|constructor|intros y []|apply Hcs; now left|intros p []|].
    destruct IHc as [ts Hts]; [intros; apply Hcs; now right|]. exists (t :: ts). now constructor. }
  destruct (Hk (kids links (-1)%Z)) as [ts Hts]; [intros c; apply kids_ids|]. exists ts. split; [split|].
  - apply Forall_forall. intros t Ht. clear - Hts Ht. induction Hts as [|a b l m Hab Hf IHf]; [contradiction|]. destruct Ht as [->|Ht]; [apply Hab|auto].
  - apply (good_list (kids links (-1)%Z) ts Hts (kids_NoDup _)). exists (-1)%Z. intros c Hc. now apply kids_In.
  - clear - Hts. induction Hts as [|a b l m Hab Hf IHf]; [reflexivity|]. cbn [map]. destruct Hab as (_ & -> & _). now rewrite IHf.
Qed.
End Forest.
