(** RbxlWordProofs.v - the word transforms of rbxl/values.go:524-553. *)
From Verif Require Import Base RbxlValues.

(** ** Arithmetic meaning of the transforms *)

Lemma pow2_split bits : (2 <= bits)%Z -> (2 ^ bits = 2 * 2 ^ (bits - 1))%Z.
Proof. intros. rewrite <- Z.pow_succ_r by lia. f_equal; lia. Qed.

Lemma encodeZigzag_spec bits n : (2 <= bits)%Z -> in_i bits n = true ->
  encodeZigzag bits n = Z.to_N (if (n <? 0)%Z then - 2 * n - 1 else 2 * n)%Z.
Proof.
  intros Hb Hn. unfold encodeZigzag, in_i in *.
  pose proof (pow2_split bits Hb) as Hp.
  assert (H0 : (0 < 2 ^ (bits - 1))%Z) by (apply Z.pow_pos_nonneg; lia).
  rewrite Z.shiftr_div_pow2 by lia. rewrite Z.shiftl_mul_pow2 by lia.
  change (2 ^ 1)%Z with 2%Z.
  destruct (n <? 0)%Z eqn:E.
  - assert (n / 2 ^ (bits - 1) = -1)%Z as ->.
    { symmetry. apply Z.div_unique with (r := (n + 2 ^ (bits - 1))%Z); lia. }
    rewrite Z.lxor_m1_r. unfold Z.lnot, toN. f_equal.
    set (w := wrapZ bits (n * 2)).
    assert (Hw : (w mod 2 ^ bits = (n * 2) mod 2 ^ bits)%Z) by (apply wrapZ_mod; lia).
    assert ((Z.pred (- w)) mod 2 ^ bits = (Z.pred (- (n * 2))) mod 2 ^ bits)%Z as ->.
    { pose proof (Z.div_mod w (2 ^ bits)) as D1.
      pose proof (Z.div_mod (n * 2) (2 ^ bits)) as D2.
      replace (Z.pred (- w))%Z
        with (Z.pred (- (n * 2)) + (((n * 2) / 2 ^ bits) - (w / 2 ^ bits)) * 2 ^ bits)%Z by lia.
      apply Z.mod_add. lia. }
    rewrite Z.mod_small by lia. lia.
  - rewrite (Z.div_small n) by lia. rewrite Z.lxor_0_r.
    unfold toN. rewrite wrapZ_mod by lia. rewrite Z.mod_small by lia. f_equal. lia.
Qed.

Lemma pow2_N_Z bits : (0 <= bits)%Z -> Z.of_N (2 ^ Z.to_N bits) = (2 ^ bits)%Z.
Proof. intros. rewrite N2Z.inj_pow, Z2N.id by lia. reflexivity. Qed.

Lemma decodeZigzag_spec bits n : (2 <= bits)%Z -> (n < 2 ^ Z.to_N bits)%N ->
  decodeZigzag bits n =
    (if N.even n then Z.of_N n / 2 else - (Z.of_N n / 2) - 1)%Z.
Proof.
  intros Hb Hn. unfold decodeZigzag.
  pose proof (pow2_split bits Hb) as Hp.
  assert (H0 : (2 <= 2 ^ (bits - 1))%Z).
  { change 2%Z with (2 ^ 1)%Z at 1. apply Z.pow_le_mono_r; lia. }
  pose proof (pow2_N_Z bits ltac:(lia)) as Hpn.
  rewrite N.shiftr_div_pow2. change (2 ^ 1)%N with 2%N.
  assert (Hl : N.land n 1 = if N.even n then 0%N else 1%N).
  { change 1%N with (N.ones 1) at 1. rewrite N.land_ones. change (2 ^ 1)%N with 2%N.
    pose proof (N.bit0_mod n) as Hb0. rewrite N.bit0_odd in Hb0. rewrite <- Hb0.
    rewrite <- N.negb_even. destruct (N.even n); reflexivity. }
  rewrite Hl.
  destruct (N.even n).
  - assert (ofN bits 0 = 0%Z) as ->.
    { unfold ofN. change (Z.of_N 0) with 0%Z. apply wrapZ_id; [lia|]. unfold in_i. lia. }
    rewrite Z.shiftl_0_l.
    assert (wrapZ bits 0 = 0%Z) as -> by (apply wrapZ_id; [lia|]; unfold in_i; lia).
    rewrite Z.shiftr_0_l. unfold toN. rewrite Zmod_0_l. change (Z.to_N 0) with 0%N.
    rewrite N.lxor_0_r. unfold ofN. rewrite N2Z.inj_div. change (Z.of_N 2) with 2%Z.
    apply wrapZ_id; [lia|]. unfold in_i.
    pose proof (Z.div_pos (Z.of_N n) 2). pose proof (Z.div_lt_upper_bound (Z.of_N n) 2 (2 ^ (bits - 1))). lia.
  - assert (H1 : wrapZ bits (Z.shiftl (ofN bits 1) (bits - 1)) = (- 2 ^ (bits - 1))%Z).
    { assert (Hm : ((ofN bits 1 * 2 ^ (bits - 1)) mod 2 ^ bits = 2 ^ (bits - 1))%Z).
      { destruct (Z.eq_dec bits 2) as [->|Hne]; [reflexivity|].
        assert (ofN bits 1 = 1%Z) as ->.
        { unfold ofN. change (Z.of_N 1) with 1%Z. apply wrapZ_id; [lia|]. unfold in_i. lia. }
        rewrite Z.mod_small by lia. lia. }
      rewrite Z.shiftl_mul_pow2 by lia. unfold wrapZ. rewrite Hm.
      destruct (2 ^ (bits - 1) <? 2 ^ (bits - 1))%Z eqn:E; lia. }
    rewrite H1. rewrite Z.shiftr_div_pow2 by lia.
    assert (- 2 ^ (bits - 1) / 2 ^ (bits - 1) = -1)%Z as ->.
    { symmetry. apply Z.div_unique with (r := 0%Z); lia. }
    assert (Ht : toN bits (-1) = N.ones (Z.to_N bits)).
    { unfold toN. apply N2Z.inj. rewrite Z2N.id by (apply Z.mod_pos_bound; lia).
      rewrite N.ones_equiv. rewrite N2Z.inj_pred by lia.
      rewrite Hpn. symmetry. apply Z.mod_unique with (q := (-1)%Z); lia. }
    rewrite Ht.
    assert (Hd : (n / 2 < 2 ^ Z.to_N bits)%N).
    { pose proof (N.div_le_mono n n 2). pose proof (N.div_lt_upper_bound n 2 (2 ^ Z.to_N bits)). lia. }
    change (N.lxor (n / 2) (N.ones (Z.to_N bits))) with (N.lnot (n / 2) (Z.to_N bits)).
    assert (HL : N.lnot (n / 2) (Z.to_N bits) = (N.ones (Z.to_N bits) - n / 2)%N).
    { destruct (N.eq_dec (n / 2) 0) as [->|Hz].
      - unfold N.lnot. rewrite N.lxor_0_l. lia.
      - apply N.lnot_sub_low. apply N.log2_lt_pow2; lia. }
    rewrite HL. unfold ofN.
    rewrite N.ones_equiv. rewrite N2Z.inj_sub by lia. rewrite N2Z.inj_pred by lia.
    rewrite Hpn. rewrite N2Z.inj_div. change (Z.of_N 2) with 2%Z.
    pose proof (Z.div_pos (Z.of_N n) 2). pose proof (Z.div_lt_upper_bound (Z.of_N n) 2 (2 ^ (bits - 1))).
    transitivity (wrapZ bits (- (Z.of_N n / 2) - 1)).
    + apply wrapZ_eq_mod.
      replace (Z.pred (2 ^ bits) - Z.of_N n / 2)%Z
        with ((- (Z.of_N n / 2) - 1) + 1 * 2 ^ bits)%Z by lia.
      apply Z.mod_add. lia.
    + apply wrapZ_id; [lia|]. unfold in_i. lia.
Qed.

Lemma encodeZigzag_lt bits n : (2 <= bits)%Z -> in_i bits n = true ->
  (encodeZigzag bits n < 2 ^ Z.to_N bits)%N.
Proof. intros. unfold encodeZigzag. apply toN_lt. lia. Qed.

Lemma decode_encodeZigzag bits n : (2 <= bits)%Z -> in_i bits n = true ->
  decodeZigzag bits (encodeZigzag bits n) = n.
Proof.
  intros Hb Hn.
  rewrite decodeZigzag_spec by (auto using encodeZigzag_lt).
  rewrite encodeZigzag_spec by auto.
  destruct (n <? 0)%Z eqn:E; rewrite Z2N.id by lia.
  - assert (N.even (Z.to_N (-2 * n - 1)) = false) as ->.
    { rewrite <- N.negb_odd. apply negb_false_iff. apply N.odd_spec.
      exists (Z.to_N (- n - 1)). lia. }
    replace (-2 * n - 1)%Z with (1 + (- n - 1) * 2)%Z by lia.
    rewrite Z.div_add by lia. change (1 / 2)%Z with 0%Z. lia.
  - assert (N.even (Z.to_N (2 * n)) = true) as ->.
    { apply N.even_spec. exists (Z.to_N n). lia. }
    replace (2 * n)%Z with (n * 2)%Z by lia. apply Z.div_mul. lia.
Qed.

Lemma encode_decodeZigzag bits w : (2 <= bits)%Z -> (w < 2 ^ Z.to_N bits)%N ->
  in_i bits (decodeZigzag bits w) = true /\ encodeZigzag bits (decodeZigzag bits w) = w.
Proof.
  intros Hb Hw.
  assert (Hr : in_i bits (decodeZigzag bits w) = true).
  { unfold decodeZigzag. apply ofN_range. lia. }
  split; [exact Hr|].
  rewrite encodeZigzag_spec by auto. rewrite decodeZigzag_spec by auto.
  pose proof (Z.div_mod (Z.of_N w) 2).
  destruct (N.even w) eqn:E.
  - apply N.even_spec in E as [k ->].
    replace (Z.of_N (2 * k) / 2)%Z with (Z.of_N k)
      by (apply Z.div_unique with (r := 0%Z); lia).
    destruct (Z.of_N k <? 0)%Z eqn:E2; lia.
  - assert (Ho : N.odd w = true) by (rewrite <- N.negb_even, E; reflexivity).
    apply N.odd_spec in Ho as [k ->].
    replace (Z.of_N (2 * k + 1) / 2)%Z with (Z.of_N k)
      by (apply Z.div_unique with (r := 1%Z); lia).
    destruct (- Z.of_N k - 1 <? 0)%Z eqn:E2; lia.
Qed.

(** ** The float rotation *)

Lemma lor_disjoint a b k : (a < 2 ^ k)%N -> N.lor a (b * 2 ^ k) = (a + b * 2 ^ k)%N.
Proof.
  intros H.
  assert (Hl : N.land a (b * 2 ^ k) = 0%N).
  { apply N.bits_inj. intros i. rewrite N.land_spec, N.bits_0.
    destruct (N.lt_ge_cases i k) as [Hi|Hi].
    - rewrite N.mul_pow2_bits_low by lia. apply andb_false_r.
    - destruct (N.eq_dec a 0) as [->|Hz]; [now rewrite N.bits_0|].
      rewrite N.bits_above_log2; [reflexivity|].
      apply N.log2_lt_pow2 in H; lia. }
  rewrite <- N.lxor_lor by exact Hl. symmetry. now apply N.add_nocarry_lxor.
Qed.

Lemma encodeRobloxFloat_spec n : (n < 2 ^ 32)%N ->
  encodeRobloxFloat n = (2 * (n mod 2 ^ 31) + n / 2 ^ 31)%N.
Proof.
  intros H. unfold encodeRobloxFloat. rewrite N.shiftl_mul_pow2, N.shiftr_div_pow2.
  assert (Hq : (n / 2 ^ 31 < 2 ^ 1)%N) by (apply N.div_lt_upper_bound; [lia|]; exact H).
  assert (Hm : ((n * 2 ^ 1) mod 2 ^ 32 = (n mod 2 ^ 31) * 2 ^ 1)%N).
  { change (2 ^ 32)%N with (2 ^ 31 * 2 ^ 1)%N. apply N.mul_mod_distr_r; lia. }
  rewrite Hm, N.lor_comm, lor_disjoint by exact Hq.
  change (2 ^ 1)%N with 2%N. lia.
Qed.

Lemma decodeRobloxFloat_spec n : (n < 2 ^ 32)%N ->
  decodeRobloxFloat n = (n / 2 + (n mod 2) * 2 ^ 31)%N.
Proof.
  intros H. unfold decodeRobloxFloat. rewrite N.shiftl_mul_pow2, N.shiftr_div_pow2.
  change (2 ^ 1)%N with 2%N.
  assert (Hm : ((n * 2 ^ 31) mod 2 ^ 32 = (n mod 2) * 2 ^ 31)%N).
  { change (2 ^ 32)%N with (2 * 2 ^ 31)%N. apply N.mul_mod_distr_r; lia. }
  rewrite Hm. apply lor_disjoint. apply N.div_lt_upper_bound; [lia|]. exact H.
Qed.

Lemma encodeRobloxFloat_lt n : (n < 2 ^ 32)%N -> (encodeRobloxFloat n < 2 ^ 32)%N.
Proof.
  intros H. rewrite encodeRobloxFloat_spec by exact H.
  assert (Hq : (n / 2 ^ 31 < 2)%N) by (apply N.div_lt_upper_bound; [lia|]; exact H).
  pose proof (N.mod_lt n (2 ^ 31) ltac:(lia)).
  change (2 ^ 32)%N with (2 * 2 ^ 31)%N. lia.
Qed.
Lemma decodeRobloxFloat_lt n : (n < 2 ^ 32)%N -> (decodeRobloxFloat n < 2 ^ 32)%N.
Proof.
  intros H. rewrite decodeRobloxFloat_spec by exact H.
  assert (Hq : (n / 2 < 2 ^ 31)%N) by (apply N.div_lt_upper_bound; [lia|]; exact H).
  pose proof (N.mod_lt n 2 ltac:(lia)). change (2 ^ 32)%N with (2 * 2 ^ 31)%N. lia.
Qed.

Lemma decode_encodeRobloxFloat n : (n < 2 ^ 32)%N -> decodeRobloxFloat (encodeRobloxFloat n) = n.
Proof.
  intros H. rewrite decodeRobloxFloat_spec by (now apply encodeRobloxFloat_lt).
  rewrite encodeRobloxFloat_spec by exact H.
  assert (Hq : (n / 2 ^ 31 < 2)%N) by (apply N.div_lt_upper_bound; [lia|]; exact H).
  set (q := (n / 2 ^ 31)%N) in *. set (m := (n mod 2 ^ 31)%N).
  replace (2 * m + q)%N with (q + m * 2)%N by lia.
  rewrite N.div_add, N.mod_add, N.div_small, N.mod_small by lia.
  pose proof (N.div_mod n (2 ^ 31) ltac:(lia)). subst q m. lia.
Qed.
Lemma encode_decodeRobloxFloat n : (n < 2 ^ 32)%N -> encodeRobloxFloat (decodeRobloxFloat n) = n.
Proof.
  intros H. rewrite encodeRobloxFloat_spec by (now apply decodeRobloxFloat_lt).
  rewrite decodeRobloxFloat_spec by exact H.
  assert (Hq : (n / 2 < 2 ^ 31)%N) by (apply N.div_lt_upper_bound; [lia|]; exact H).
  rewrite N.div_add, N.mod_add by lia.
  rewrite (N.div_small (n / 2)), (N.mod_small (n / 2)) by exact Hq.
  pose proof (N.div_mod n 2 ltac:(lia)). lia.
Qed.
