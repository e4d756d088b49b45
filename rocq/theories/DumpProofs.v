(** DumpProofs.v - the text of a dump can be read in one way only. *)
From Coq Require Import Decimal DecimalN.
From Verif Require Import Base RbxlValues RbxlArrays RbxlModel RbxlFile SpecValues SpecArrays RbxValues XmlText XmlTextProofs Json JsonProofs RbxlDump SpecDump.

(** ** Cutting *)
Lemma app_inj_len {A} (a b r s : list A) : length a = length b -> a ++ r = b ++ s -> a = b /\ r = s.
Proof.
  revert b. induction a as [|x a IH]; intros [|y b] L H; try discriminate; [auto|].
  cbn in H. injection H as -> H. destruct (IH b) as [-> ->]; auto.
Qed.
Definition ends (r : bytes) : Prop := match r with [] => True | c :: _ => ~ In c number_chars end.
Lemma numeric_cut a b r s : numeric a -> numeric b -> ends r -> ends s -> a ++ r = b ++ s -> a = b /\ r = s.
Proof.
  intros Ha. revert b. induction Ha as [|x a Hx Ha IH]; intros b Hb Hr Hs H.
  - destruct Hb as [|y b Hy Hb]; [auto|]. cbn in H. subst r. now contradiction Hr.
  - destruct Hb as [|y b Hy Hb]; cbn in H.
    + subst s. now contradiction Hs.
    + injection H as -> H. destruct (IH b Hb Hr Hs H) as [-> ->]. auto.
Qed.
Ltac ends_tac := cbn; unfold number_chars; cbn; intuition discriminate.

Lemma uint_bytes_inj u : forall v, uint_bytes u = uint_bytes v -> u = v.
Proof. induction u; intros [] H; try discriminate H; try reflexivity; injection H as H; f_equal; now apply IHu. Qed.
Lemma FormatUint_inj m n : FormatUint m = FormatUint n -> m = n.
Proof. intros H. apply uint_bytes_inj in H. now apply DecimalN.Unsigned.to_uint_inj. Qed.
Lemma numeric_dec l : forallb is_dec l = true -> numeric l.
Proof.
  intros H. unfold numeric. rewrite forallb_forall in H. apply Forall_forall. intros c Hc. specialize (H c Hc).
  destruct c; try discriminate H; unfold number_chars; cbn; tauto.
Qed.
Lemma numeric_uint n : numeric (FormatUint n).
Proof. apply numeric_dec, FormatUint_dec. Qed.
Lemma numeric_int z : numeric (FormatInt z).
Proof.
  unfold FormatInt. destruct (z <? 0)%Z; [constructor; [unfold number_chars; cbn; tauto|]|]; apply numeric_uint.
Qed.
Lemma FormatInt_inj x y : FormatInt x = FormatInt y -> x = y.
Proof.
  unfold FormatInt. intros H.
  assert (D : forall n r, FormatUint n <> x2d :: r).
  { intros n r E. destruct (FormatUint_cons n) as (c & q & Eq & Hc & _). rewrite Eq in E. injection E as -> _. discriminate. }
  destruct (Z.ltb_spec x 0), (Z.ltb_spec y 0).
  - injection H as H. apply FormatUint_inj in H. lia.
  - symmetry in H. now apply D in H.
  - now apply D in H.
  - apply FormatUint_inj in H. lia.
Qed.
Lemma cut_uint m n r s : ends r -> ends s -> FormatUint m ++ r = FormatUint n ++ s -> m = n /\ r = s.
Proof.
  intros Hr Hs H. destruct (numeric_cut _ _ _ _ (numeric_uint m) (numeric_uint n) Hr Hs H) as [E ->]. split; [now apply FormatUint_inj|reflexivity].
Qed.
Lemma cut_int m n r s : ends r -> ends s -> FormatInt m ++ r = FormatInt n ++ s -> m = n /\ r = s.
Proof.
  intros Hr Hs H. destruct (numeric_cut _ _ _ _ (numeric_int m) (numeric_int n) Hr Hs H) as [E ->]. split; [now apply FormatInt_inj|reflexivity].
Qed.

(** ** Bytes in hexadecimal *)
Lemma hex2_length b : length (hex2 b) = 2.
Proof. now destruct b. Qed.
Lemma hex2_back b : match hex2 b with [x; y] => match digit x, digit y with Some m, Some n => N2b (m * 16 + n) = b | _, _ => False end | _ => False end.
Proof. destruct b; reflexivity. Qed.
Lemma hex2_inj a b : hex2 a = hex2 b -> a = b.
Proof.
  intros H. pose proof (hex2_back a) as A. pose proof (hex2_back b) as B. rewrite H in A.
  destruct (hex2 b) as [|x [|y [|]]]; try contradiction. destruct (digit x); try contradiction. destruct (digit y); [|contradiction]. congruence.
Qed.
Lemma cells_cut k : forall i j b b' r s, length b = length b' -> hex_cells k i j b ++ r = hex_cells k i j b' ++ s ->
  (forall m, i <= m < i + k -> nth_error b m = nth_error b' m) /\ r = s.
Proof.
  induction k as [|k IH]; intros i j b b' r s L H; [split; [lia|exact H]|].
  cbn [hex_cells] in H. rewrite <- L in H.
  assert (N : nth_error b' i = None <-> nth_error b i = None) by (rewrite !nth_error_None; lia).
  destruct (nth_error b i) as [c|] eqn:E, (nth_error b' i) as [c'|] eqn:E'.
  - rewrite <- !app_assoc in H. apply app_inj_len in H; [|now rewrite !hex2_length]. destruct H as [Ec H]. apply hex2_inj in Ec. subst c'.
    apply app_inv_head in H. destruct (IH _ _ _ _ _ _ L H) as [A B]. split; [|exact B].
    intros m Hm. destruct (Nat.eq_dec m i) as [->|]; [congruence|]. apply A. lia.
  - destruct N as [N _]. now specialize (N eq_refl).
  - destruct N as [_ N]. now specialize (N eq_refl).
  - assert (Hi : length b <= i) by now apply nth_error_None.
    assert (A : forall m, i <= m < i + S k -> nth_error b m = nth_error b' m).
    { intros m Hm. transitivity (@None byte); [|symmetry]; apply nth_error_None; lia. }
    split; [exact A|]. destruct (length b <? width)%nat; [exact H|].
    rewrite <- !app_assoc in H. do 2 apply app_inv_head in H. now apply IH in H as [_ ->].
Qed.
Lemma lines_cut fuel : forall indent j b b' r s, length b = length b' -> length b <= j + 16 * fuel ->
  dump_lines fuel indent j b ++ r = dump_lines fuel indent j b' ++ s ->
  (forall m, j <= m -> nth_error b m = nth_error b' m) /\ r = s.
Proof.
  assert (Out : forall j (b b' : bytes), length b = length b' -> length b <= j -> forall m, j <= m -> nth_error b m = nth_error b' m).
  { intros j b b' L Hj m Hm. transitivity (@None byte); [|symmetry]; apply nth_error_None; lia. }
  induction fuel as [|fuel IH]; intros indent j b b' r s L F H.
  - split; [|exact H]. apply Out; [exact L|lia].
  - cbn [dump_lines] in H. rewrite <- L in H. destruct (Nat.ltb_spec j (length b)) as [Hj|Hj].
    2:{ split; [|exact H]. now apply Out. }
    rewrite <- !app_assoc in H. do 2 apply app_inv_head in H. apply (cells_cut _ _ _ _ _ _ _ L) in H. destruct H as [A H].
    apply app_inv_head in H. apply app_inj_len in H.
    2:{ rewrite !map_length, !firstn_length, !skipn_length. now rewrite L. }
    destruct H as [_ H]. apply app_inv_head in H. apply IH in H; [|exact L|unfold width; lia]. destruct H as [B ->]. split; [|reflexivity].
    intros m Hm. destruct (Nat.lt_ge_cases m (j + width)); [apply A; unfold width in *; lia|now apply B].
Qed.
Lemma nth_error_ext {A} (a b : list A) : (forall m, nth_error a m = nth_error b m) -> a = b.
Proof.
  revert b. induction a as [|x a IH]; intros [|y b] H; [reflexivity|discriminate (H 0)|discriminate (H 0)|].
  f_equal; [now injection (H 0)|]. apply IH. intros m. exact (H (S m)).
Qed.
Lemma cut_bytes indent b b' r s : dumpBytes indent b ++ r = dumpBytes indent b' ++ s -> b = b' /\ r = s.
Proof.
  unfold dumpBytes. rewrite <- !app_assoc. intros H. apply app_inv_head in H. apply cut_uint in H; [|ends_tac..].
  destruct H as [L H]. apply Nat2N.inj in L. apply app_inv_head in H. rewrite <- L in H. apply lines_cut in H; [|exact L|lia].
  destruct H as [A ->]. split; [|reflexivity]. apply nth_error_ext. intros m. apply A. lia.
Qed.
