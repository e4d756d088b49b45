(** SortProofs.v - the order of Go strings, and sorting by a key. *)
From Coq Require Import Permutation Sorting.Sorted.
From Verif Require Import Base RbxlValues RbxlArrays RbxlModel RbxlFile RbxValues Tree RbxlCodec TreeProofs.

Definition lt_key {A} (key : A -> bytes) (a b : A) : Prop := bytes_ltb (key a) (key b) = true.

Lemma ltb_irrefl a : bytes_ltb a a = false.
Proof. induction a as [|x a IH]; cbn; [reflexivity|]. rewrite N.ltb_irrefl. exact IH. Qed.
Lemma ltb_trans a : forall b c, bytes_ltb a b = true -> bytes_ltb b c = true -> bytes_ltb a c = true.
Proof.
  induction a as [|x a IH]; intros [|y b] [|z c]; cbn; try discriminate; auto.
  destruct (N.ltb_spec (b2N x) (b2N y)), (N.ltb_spec (b2N y) (b2N x)), (N.ltb_spec (b2N y) (b2N z)), (N.ltb_spec (b2N z) (b2N y)),
    (N.ltb_spec (b2N x) (b2N z)), (N.ltb_spec (b2N z) (b2N x)); try discriminate; try lia; auto; apply IH.
Qed.
Lemma ltb_total a : forall b, bytes_ltb a b = false -> bytes_ltb b a = false -> a = b.
Proof.
  induction a as [|x a IH]; intros [|y b]; cbn; try discriminate; auto.
  destruct (N.ltb_spec (b2N x) (b2N y)), (N.ltb_spec (b2N y) (b2N x)); try discriminate.
  intros H1 H2. f_equal; [apply b2N_inj; lia|auto].
Qed.
Lemma ltb_asym a b : bytes_ltb a b = true -> bytes_ltb b a = false.
Proof. intros H. destruct (bytes_ltb b a) eqn:E; [|reflexivity]. pose proof (ltb_trans _ _ _ H E) as H1. rewrite ltb_irrefl in H1. discriminate. Qed.

Lemma insert_perm {A} (key : A -> bytes) a l : Permutation (a :: l) (insert_by key a l).
Proof.
  induction l as [|b l IH]; cbn; [reflexivity|]. destruct (bytes_ltb (key b) (key a)); [|reflexivity].
  etransitivity; [apply perm_swap|]. now constructor.
Qed.
Lemma sort_perm {A} (key : A -> bytes) l : Permutation l (sort_by key l).
Proof.
  induction l as [|a l IH]; cbn; [reflexivity|].
  etransitivity; [constructor; exact IH|]. apply insert_perm.
Qed.
Lemma insert_sorted {A} (key : A -> bytes) a l :
  StronglySorted (lt_key key) l -> (forall b, In b l -> key b <> key a) ->
  StronglySorted (lt_key key) (insert_by key a l).
Proof.
  induction 1 as [|b l Hl IH Hb]; intros Hne; cbn [insert_by]; [repeat constructor|].
  destruct (bytes_ltb (key b) (key a)) eqn:E.
  - constructor; [apply IH; intros c Hc; apply Hne; now right|].
    apply (Permutation_Forall (insert_perm key a l)). constructor; assumption.
  - constructor; [constructor; assumption|].
    assert (Hab : lt_key key a b).
    { unfold lt_key. destruct (bytes_ltb (key a) (key b)) eqn:E2; [reflexivity|].
      exfalso. apply (Hne b); [now left|]. now apply ltb_total. }
    constructor; [exact Hab|]. eapply Forall_impl; [|exact Hb]. intros c Hc. eapply ltb_trans; eauto.
Qed.
Lemma sort_sorted {A} (key : A -> bytes) l : NoDup (map key l) -> StronglySorted (lt_key key) (sort_by key l).
Proof.
  induction l as [|a l IH]; cbn [map sort_by fold_right]; intros H; [constructor|].
  inversion H as [|? ? Hn Hd]; subst. apply insert_sorted; [now apply IH|].
  intros b Hb E. apply Hn. rewrite <- E. apply in_map. eapply Permutation_in; [symmetry; apply sort_perm|exact Hb].
Qed.
(** Sorted permutations are equal. *)
Lemma sorted_unique {A} (key : A -> bytes) : forall l l', Permutation l l' ->
  StronglySorted (lt_key key) l -> StronglySorted (lt_key key) l' -> l = l'.
Proof.
  induction l as [|a l IH]; intros l' Hp Hs Hs'.
  - apply Permutation_nil in Hp. now subst.
  - destruct l' as [|b l']; [symmetry in Hp; now apply Permutation_nil_cons in Hp|].
    inversion Hs as [|? ? Hl Ha]; subst. inversion Hs' as [|? ? Hl' Hb]; subst.
    assert (a = b).
    { pose proof (Permutation_in a Hp (or_introl eq_refl)) as [->|H1]; [reflexivity|].
      pose proof (Permutation_in b (Permutation_sym Hp) (or_introl eq_refl)) as [->|H2]; [reflexivity|].
      rewrite Forall_forall in Ha, Hb. pose proof (ltb_asym _ _ (Ha b H2)). specialize (Hb a H1).
      unfold lt_key in Hb. congruence. }
    subst b. f_equal. apply IH; auto. now apply Permutation_cons_inv in Hp.
Qed.
Lemma sort_perm_eq {A} (key : A -> bytes) l l' : NoDup (map key l) -> Permutation l l' -> sort_by key l = sort_by key l'.
Proof.
  intros Hn Hp. apply (sorted_unique key).
  - etransitivity; [symmetry; apply sort_perm|]. etransitivity; [exact Hp|apply sort_perm].
  - now apply sort_sorted.
  - apply sort_sorted. eapply Permutation_NoDup; [apply Permutation_map; exact Hp|exact Hn].
Qed.
Lemma sorted_nodup {A} (key : A -> bytes) l : StronglySorted (lt_key key) l -> NoDup (map key l).
Proof.
  induction 1 as [|a l Hl IH Ha]; cbn; constructor; auto.
  intros Hin. apply in_map_iff in Hin. destruct Hin as (b & E & Hb). rewrite Forall_forall in Ha.
  specialize (Ha b Hb). unfold lt_key in Ha. rewrite E, ltb_irrefl in Ha. discriminate.
Qed.
