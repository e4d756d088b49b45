(** XmlFloatsProofs.v - nine digits are enough for a float32. *)
From Coq Require Import QArith Qround Qpower Lqa.
From Verif Require Import Base XmlText XmlFloats.
Local Notation string := String.string.
Local Open Scope Z_scope.

(** ** Rounding *)
Lemma rhe_spec x : (inject_Z (rhe x) - (1#2) <= x <= inject_Z (rhe x) + (1#2))%Q.
Proof.
  unfold rhe. pose proof (Qfloor_le x) as H1. pose proof (Qlt_floor x) as H2. rewrite inject_Z_plus in H2. change (inject_Z 1) with 1%Q in H2.
  destruct (Qcompare_spec (x - inject_Z (Qfloor x)) (1 # 2)) as [H|H|H]; [destruct (Z.even (Qfloor x))| |]; rewrite ?inject_Z_plus; change (inject_Z 1) with 1%Q; lra.
Qed.
Lemma inj_lt a b : (inject_Z a < inject_Z b)%Q -> a < b.
Proof. intros H. now apply Zlt_Qlt in H || (rewrite <- Zlt_Qlt in H). Qed.
Lemma rhe_near x m : (inject_Z m - (1#2) < x < inject_Z m + (1#2))%Q -> rhe x = m.
Proof.
  intros H. pose proof (rhe_spec x) as S.
  assert (A : (inject_Z (rhe x) < inject_Z (m + 1))%Q) by (rewrite inject_Z_plus; change (inject_Z 1) with 1%Q; lra).
  assert (B : (inject_Z m < inject_Z (rhe x + 1))%Q) by (rewrite inject_Z_plus; change (inject_Z 1) with 1%Q; lra).
  rewrite <- Zlt_Qlt in A, B. lia.
Qed.
Lemma rhe_le x m : (x < inject_Z m + (1#2))%Q -> rhe x <= m.
Proof.
  intros H. pose proof (rhe_spec x) as S.
  assert (A : (inject_Z (rhe x) < inject_Z (m + 1))%Q) by (rewrite inject_Z_plus; change (inject_Z 1) with 1%Q; lra). rewrite <- Zlt_Qlt in A. lia.
Qed.
Lemma rhe_ge x m : (inject_Z m - (1#2) < x)%Q -> m <= rhe x.
Proof.
  intros H. pose proof (rhe_spec x) as S.
  assert (A : (inject_Z m < inject_Z (rhe x + 1))%Q) by (rewrite inject_Z_plus; change (inject_Z 1) with 1%Q; lra). rewrite <- Zlt_Qlt in A. lia.
Qed.
(** ** Logarithms *)
Lemma zlog_spec b : 2 <= b -> forall fuel a, 1 <= a -> a < 2 ^ Z.of_nat fuel -> 0 <= zlog fuel b a /\ b ^ zlog fuel b a <= a < b ^ (zlog fuel b a + 1).
Proof.
  intros Hb. induction fuel as [|fuel IH]; intros a Ha Hf; [cbn in Hf; lia|]. cbn [zlog]. destruct (Z.ltb_spec a b) as [H|H]; [cbn; rewrite Z.mul_1_r; lia|].
  assert (Ha' : 1 <= a / b) by (apply Z.div_le_lower_bound; lia).
  destruct (IH (a / b) Ha') as (I0 & I1 & I2).
  { apply Z.div_lt_upper_bound; [lia|]. rewrite Nat2Z.inj_succ, Z.pow_succ_r in Hf by lia. nia. }
  set (l := zlog fuel b (a / b)) in *. split; [lia|]. split.
  - replace (1 + l) with (Z.succ l) by lia. rewrite Z.pow_succ_r by lia. pose proof (Z.mul_div_le a b ltac:(lia)). nia.
  - replace (1 + l + 1) with (Z.succ (l + 1)) by lia. rewrite Z.pow_succ_r by lia. apply Z.div_lt_upper_bound in I2 || idtac.
    pose proof (Z.mul_succ_div_gt a b ltac:(lia)). nia.
Qed.
Lemma ilog_spec b a : 2 <= b -> 1 <= a -> 0 <= ilog b a /\ b ^ ilog b a <= a < b ^ (ilog b a + 1).
Proof.
  intros Hb Ha. apply zlog_spec; [exact Hb|exact Ha|]. pose proof (Z.log2_nonneg a). rewrite Z2Nat.id by lia. pose proof (Z.log2_spec a ltac:(lia)). replace (Z.log2 a + 1) with (Z.succ (Z.log2 a)) by lia. lia.
Qed.
Lemma pow_pos b e : 0 < b -> (0 < pow b e)%Q.
Proof. intros H. apply Qpower_0_lt. rewrite Zlt_Qlt in H. exact H. Qed.
Lemma pow_plus b e f : 0 < b -> (pow b (e + f) == pow b e * pow b f)%Q.
Proof. intros H. apply Qpower_plus. intros E. rewrite Zlt_Qlt in H. change (inject_Z 0) with 0%Q in H. lra. Qed.
Lemma pow_Z b e : 0 <= e -> (pow b e == inject_Z (b ^ e))%Q.
Proof. intros H. unfold pow. now rewrite <- Zpower_Qpower. Qed.
Lemma pow_le b e f : 1 < b -> e <= f -> (pow b e <= pow b f)%Q.
Proof. intros Hb H. apply Qpower_le_compat_l; [exact H|]. change 1%Q with (inject_Z 1). rewrite <- Zle_Qle. lia. Qed.
Lemma pow_0 b : (pow b 0 == 1)%Q.
Proof. reflexivity. Qed.
Lemma pow_opp b e : 0 < b -> (pow b e * pow b (- e) == 1)%Q.
Proof. intros H. rewrite <- pow_plus by exact H. now rewrite Z.add_opp_diag_r. Qed.
Lemma flog_spec b x : 2 <= b -> (0 < x)%Q -> (pow b (flog b x) <= x < pow b (flog b x + 1))%Q.
Proof.
  intros Hb Hx. destruct x as [n d]. unfold flog. cbn [Qnum Qden]. assert (Hn : 1 <= n) by (unfold Qlt in Hx; cbn in Hx; lia).
  destruct (Z.leb_spec (Zpos d) n) as [H|H].
  - assert (Hq : 1 <= n / Zpos d) by (apply Z.div_le_lower_bound; lia).
    destruct (ilog_spec b _ Hb Hq) as (A & B & C). set (l := ilog b (n / Z.pos d)) in *. rewrite !pow_Z by lia. unfold Qle, Qlt. cbn [Qnum Qden inject_Z].
    pose proof (Z.mul_div_le n (Zpos d) ltac:(lia)). pose proof (Z.mul_succ_div_gt n (Zpos d) ltac:(lia)). split; nia.
  - set (c := (Z.pos d + n - 1) / n). assert (Hc : 2 <= c) by (apply Z.div_le_lower_bound; lia).
    pose proof (Z.mul_div_le (Z.pos d + n - 1) n ltac:(lia)) as D1. pose proof (Z.mul_succ_div_gt (Z.pos d + n - 1) n ltac:(lia)) as D2. fold c in D1, D2.
    destruct (ilog_spec b (c - 1) Hb ltac:(lia)) as (A & B & C). set (l := ilog b (c - 1)) in *.
    assert (E1 : (pow b (l + 1) * (n # d) >= 1)%Q).
    { rewrite pow_Z by lia. unfold Qle. cbn [Qnum Qden inject_Z Qmult]. nia. }
    assert (E2 : (pow b l * (n # d) < 1)%Q).
    { rewrite pow_Z by lia. unfold Qlt. cbn [Qnum Qden inject_Z Qmult]. nia. }
    pose proof (pow_opp b (l + 1) ltac:(lia)) as P1. pose proof (pow_opp b l ltac:(lia)) as P2.
    replace (- (l + 1) + 1) with (- l) by lia.
    pose proof (pow_pos b (l + 1) ltac:(lia)) as Q1. pose proof (pow_pos b l ltac:(lia)) as Q2.
    pose proof (pow_pos b (- (l + 1)) ltac:(lia)) as Q3. pose proof (pow_pos b (- l) ltac:(lia)) as Q4.
    set (p1 := pow b (l + 1)) in *. set (p2 := pow b l) in *. set (p3 := pow b (- (l + 1))) in *. set (p4 := pow b (- l)) in *. set (x := (n # d)%Q) in *.
    split.
    + setoid_replace x with (x * (p1 * p3))%Q by (rewrite P1; ring). assert (p3 * 1 <= p3 * (p1 * x))%Q by (apply Qmult_le_l; [exact Q3|lra]). lra.
    + setoid_replace x with (x * (p2 * p4))%Q by (rewrite P2; ring). assert (p4 * (p2 * x) < p4 * 1)%Q by (apply Qmult_lt_l; [exact Q4|lra]). lra.
Qed.

(** ** Reading *)
Section Format.
Variable F : fformat.
Let mb := ff_mb F.
Hypothesis Hmb : 1 <= ff_mb F.
Hypothesis Heb : 2 <= ff_eb F.
Lemma parts a : 0 <= a -> a = (f_exp F a - emin F) * 2 ^ mb + f_mant F a /\ emin F <= f_exp F a /\ 0 <= f_mant F a < 2 ^ (mb + 1) /\
  (emin F < f_exp F a -> 2 ^ mb <= f_mant F a) /\ (0 < a -> 0 < f_mant F a).
Proof.
  intros Ha. unfold f_exp, f_mant. fold mb. assert (HP : 0 < 2 ^ mb) by (apply Z.pow_pos_nonneg; unfold mb; lia).
  pose proof (Z.mul_div_le a (2 ^ mb) HP). pose proof (Z.mul_succ_div_gt a (2 ^ mb) HP). assert (0 <= a / 2 ^ mb) by (apply Z.div_pos; lia).
  replace (2 ^ (mb + 1)) with (2 * 2 ^ mb) by (rewrite Z.add_1_r, Z.pow_succ_r; unfold mb; lia).
  destruct (Z.max_spec (a / 2 ^ mb - 1) 0) as [[M ->]|[M ->]].
  - assert (a / 2 ^ mb = 0 \/ a / 2 ^ mb = 0) by lia. repeat split; nia.
  - repeat split; nia.
Qed.
Lemma flog2_of x k : (0 < x)%Q -> (pow 2 k <= x)%Q -> (x < pow 2 (k + 1))%Q -> flog 2 x = k.
Proof.
  intros Hx H1 H2. pose proof (flog_spec 2 x ltac:(lia) Hx) as [A B].
  destruct (Z.lt_trichotomy (flog 2 x) k) as [L|[L|L]]; [|exact L|].
  - pose proof (pow_le 2 (flog 2 x + 1) k ltac:(lia) ltac:(lia)). lra.
  - pose proof (pow_le 2 (k + 1) (flog 2 x) ltac:(lia) ltac:(lia)). lra.
Qed.
Lemma round_pos_near a x : 0 < a < inf_bits F -> (0 < x)%Q ->
  (inject_Z (f_mant F a) - (1#4) < x * pow 2 (- f_exp F a) < inject_Z (f_mant F a) + (1#4))%Q -> round_pos F x = Some a.
Proof.
  intros Ha Hx H. destruct (parts a ltac:(lia)) as (P1 & P2 & P3 & P4 & P5). set (E := f_exp F a) in *. set (m := f_mant F a) in *.
  set (t := (x * pow 2 (- E))%Q) in *. pose proof (flog_spec 2 x ltac:(lia) Hx) as [K1 K2]. set (k := flog 2 x) in *.
  assert (T1 : (pow 2 (k - E) <= t)%Q).
  { unfold t. replace (k - E) with (k + - E) by lia. rewrite pow_plus by lia. apply Qmult_le_r; [apply pow_pos; lia|exact K1]. }
  assert (T2 : (t < pow 2 (k + 1 - E))%Q).
  { unfold t. replace (k + 1 - E) with (k + 1 + - E) by lia. rewrite pow_plus by lia. apply Qmult_lt_r; [apply pow_pos; lia|exact K2]. }
  assert (Hpp : 2 ^ (mb + 1) = 2 * 2 ^ mb) by (rewrite Z.add_1_r, Z.pow_succ_r; unfold mb; lia).
  assert (N1 : k - mb <= E).
  { destruct (Z.le_gt_cases (k - mb) E) as [L|L]; [exact L|exfalso]. pose proof (pow_le 2 (mb + 1) (k - E) ltac:(lia) ltac:(lia)) as Q1.
    rewrite (pow_Z 2 (mb + 1)) in Q1 by (unfold mb; lia). assert (m + 1 <= 2 ^ (mb + 1)) as Q2 by lia. rewrite Zle_Qle, inject_Z_plus in Q2. change (inject_Z 1) with 1%Q in Q2. lra. }
  assert (Hout : forall e q, e = Z.max (k - mb) (emin F) -> (e - emin F) * 2 ^ mb + q = a -> rhe (x * pow 2 (- e)) = q -> round_pos F x = Some a).
  { intros e q He Hq Hr. unfold round_pos. fold mb. fold k. rewrite <- He, Hr, Hq. destruct (Z.ltb_spec a (inf_bits F)); [reflexivity|lia]. }
  destruct (Z.eq_dec (Z.max (k - mb) (emin F)) E) as [Ee|Ee].
  - apply (Hout E m); [now symmetry|lia|]. apply rhe_near. fold t. lra.
  - assert (Hlt : k - mb < E /\ emin F < E) by lia. destruct Hlt as [L1 L2]. specialize (P4 L2).
    pose proof (pow_le 2 (k + 1 - E) mb ltac:(lia) ltac:(lia)) as Q1. rewrite (pow_Z 2 mb) in Q1 by (unfold mb; lia).
    assert (Em : m = 2 ^ mb).
    { assert (inject_Z m < inject_Z (2 ^ mb + 1))%Q as Q2 by (rewrite inject_Z_plus; change (inject_Z 1) with 1%Q; lra). rewrite <- Zlt_Qlt in Q2. lia. }
    assert (Ek : k - mb = E - 1).
    { destruct (Z.le_gt_cases (k - mb) (E - 2)) as [L|L]; [exfalso|lia].
      pose proof (pow_le 2 (k + 1 - E) (mb - 1) ltac:(lia) ltac:(lia)) as Q2. rewrite (pow_Z 2 (mb - 1)) in Q2 by (unfold mb; lia).
      assert (E2 : 2 ^ mb = 2 * 2 ^ (mb - 1)) by (replace mb with (Z.succ (mb - 1)) at 1 by lia; rewrite Z.pow_succ_r; unfold mb; lia).
      assert (1 <= 2 ^ (mb - 1)) by (assert (0 < 2 ^ (mb - 1)) by (apply Z.pow_pos_nonneg; unfold mb; lia); lia).
      assert (2 ^ (mb - 1) + 1 <= m) as Q3 by lia. rewrite Zle_Qle, inject_Z_plus in Q3. change (inject_Z 1) with 1%Q in Q3. lra. }
    apply (Hout (E - 1) (2 ^ (mb + 1))); [lia|lia|]. apply rhe_near.
    replace (- (E - 1)) with (- E + 1) by lia. rewrite pow_plus by lia. change (pow 2 1) with 2%Q. rewrite Qmult_assoc. fold t.
    rewrite Hpp, inject_Z_mult, <- Em. change (inject_Z 2) with 2%Q. rewrite Em in *. lra.
Qed.
(** A number that is not too large is read as something. *)
Lemma round_pos_some x : (0 < x)%Q -> (x <= f_val F (inf_bits F - 1))%Q -> exists a, round_pos F x = Some a /\ 0 <= a.
Proof.
  intros Hx Hle. unfold round_pos. fold mb. set (e := Z.max (flog 2 x - mb) (emin F)).
  assert (HP : 0 < 2 ^ mb) by (apply Z.pow_pos_nonneg; unfold mb; lia).
  assert (HB : 4 <= 2 ^ ff_eb F) by (change 4 with (2 ^ 2); apply Z.pow_le_mono_r; lia).
  assert (Ha : 0 < inf_bits F - 1).
  { unfold inf_bits. fold mb. assert (2 <= 2 ^ mb) by (change 2 with (2 ^ 1) at 1; apply Z.pow_le_mono_r; unfold mb; lia). nia. }
  destruct (parts (inf_bits F - 1) ltac:(lia)) as (P1 & P2 & P3 & P4 & _). set (E := f_exp F (inf_bits F - 1)) in *. set (m := f_mant F (inf_bits F - 1)) in *.
  pose proof (flog_spec 2 x ltac:(lia) Hx) as [K1 K2]. set (k := flog 2 x) in *.
  assert (Hpp : 2 ^ (mb + 1) = 2 * 2 ^ mb) by (rewrite Z.add_1_r, Z.pow_succ_r; unfold mb; lia).
  assert (Hx2 : (x * pow 2 (- E) <= inject_Z m)%Q).
  { unfold f_val in Hle. fold m E in Hle. setoid_replace (inject_Z m) with (inject_Z m * pow 2 E * pow 2 (- E))%Q by (rewrite <- Qmult_assoc, pow_opp by lia; ring).
    apply Qmult_le_r; [apply pow_pos; lia|exact Hle]. }
  assert (HkE : k - mb <= E).
  { destruct (Z.le_gt_cases (k - mb) E) as [L|L]; [exact L|exfalso].
    assert (T : (pow 2 (mb + 1) <= x * pow 2 (- E))%Q).
    { apply Qle_trans with (pow 2 (k + - E)); [apply pow_le; lia|]. rewrite pow_plus by lia. apply Qmult_le_r; [apply pow_pos; lia|exact K1]. }
    rewrite pow_Z in T by (unfold mb; lia). assert (m + 1 <= 2 ^ (mb + 1)) as Q2 by lia. rewrite Zle_Qle, inject_Z_plus in Q2. change (inject_Z 1) with 1%Q in Q2. lra. }
  assert (He : e <= E) by lia.
  assert (Hr0 : 0 <= rhe (x * pow 2 (- e))).
  { apply rhe_ge. change (inject_Z 0) with 0%Q. assert (0 < x * pow 2 (- e))%Q by (apply Qmult_lt_0_compat; [exact Hx|apply pow_pos; lia]). lra. }
  assert (Hemin : emin F <= e) by lia.
  assert (Hbound : (e - emin F) * 2 ^ mb + rhe (x * pow 2 (- e)) <= inf_bits F - 1).
  { destruct (Z.eq_dec e E) as [->|Hne].
    - rewrite P1. apply Z.add_le_mono_l. apply rhe_le. lra.
    - assert (He1 : e <= E - 1) by lia.
      assert (Hr : rhe (x * pow 2 (- e)) <= 2 ^ (mb + 1)).
      { apply rhe_le. assert (T : (x * pow 2 (- e) < pow 2 (mb + 1))%Q).
        { replace (mb + 1) with (k + 1 + (mb - k)) by lia. rewrite pow_plus by lia.
          assert (pow 2 (- e) <= pow 2 (mb - k))%Q by (apply pow_le; lia).
          apply Qle_lt_trans with (x * pow 2 (mb - k))%Q; [rewrite !(Qmult_comm x); apply Qmult_le_r; assumption|].
          apply Qmult_lt_r; [apply pow_pos; lia|exact K2]. }
        rewrite (pow_Z 2 (mb + 1)) in T by (unfold mb; lia). lra. }
      assert (Hm : 2 ^ mb <= m) by (apply P4; lia). rewrite P1. 
      destruct (Z.eq_dec e (E - 1)) as [->|Hne2]; [|nia].
      rewrite Hpp in Hr. nia. }
  destruct (Z.ltb_spec ((e - emin F) * 2 ^ mb + rhe (x * pow 2 (- e))) (inf_bits F)) as [L|L]; [|lia]. eexists. split; [reflexivity|]. nia.
Qed.
End Format.

(** ** Writing *)
Lemma Z_pow10 n : 0 < 10 ^ Z.of_nat n.
Proof. apply Z.pow_pos_nonneg; lia. Qed.
Lemma pow10_S n : 10 ^ Z.of_nat (S n) = 10 * 10 ^ Z.of_nat n.
Proof. rewrite Nat2Z.inj_succ, Z.pow_succ_r; lia. Qed.
Lemma round_digits_spec prec x : 1 <= prec -> (0 < x)%Q -> let '(q, dp) := round_digits prec x in
  10 ^ (prec - 1) <= q < 10 ^ prec /\ flog 10 x + 1 <= dp <= flog 10 x + 2 /\
  (- (1#2) * pow 10 (flog 10 x + 1 - prec) <= inject_Z q * pow 10 (dp - prec) - x <= (1#2) * pow 10 (flog 10 x + 1 - prec))%Q.
Proof.
  intros Hp Hx. unfold round_digits. pose proof (flog_spec 10 x ltac:(lia) Hx) as [A B]. set (e := flog 10 x) in *.
  set (y := (x * pow 10 (prec - 1 - e))%Q). pose proof (rhe_spec y) as S. set (q := rhe y) in *.
  assert (Y1 : (inject_Z (10 ^ (prec - 1)) <= y)%Q).
  { rewrite <- pow_Z by lia. unfold y. replace (prec - 1) with (e + (prec - 1 - e)) at 1 by lia. rewrite pow_plus by lia. apply Qmult_le_r; [apply pow_pos; lia|exact A]. }
  assert (Y2 : (y < inject_Z (10 ^ prec))%Q).
  { rewrite <- pow_Z by lia. unfold y. replace prec with (e + 1 + (prec - 1 - e)) at 2 by lia. rewrite pow_plus by lia. apply Qmult_lt_r; [apply pow_pos; lia|exact B]. }
  assert (Q1 : 10 ^ (prec - 1) <= q) by (apply rhe_ge; lra). assert (Q2 : q <= 10 ^ prec) by (apply rhe_le; lra).
  assert (E10 : 10 ^ prec = 10 * 10 ^ (prec - 1)) by (replace prec with (Z.succ (prec - 1)) at 1 by lia; rewrite Z.pow_succ_r; lia).
  assert (P0 : 0 < 10 ^ (prec - 1)) by (apply Z.pow_pos_nonneg; lia).
  assert (V : (- (1#2) * pow 10 (e + 1 - prec) <= inject_Z q * pow 10 (e + 1 - prec) - x <= (1#2) * pow 10 (e + 1 - prec))%Q).
  { assert (Hy : (x == y * pow 10 (e + 1 - prec))%Q).
    { unfold y. rewrite <- Qmult_assoc, <- pow_plus by lia. replace (prec - 1 - e + (e + 1 - prec)) with 0 by lia. rewrite pow_0. ring. }
    rewrite Hy. pose proof (pow_pos 10 (e + 1 - prec) ltac:(lia)) as HP. set (P := pow 10 (e + 1 - prec)) in *.
    assert (G1 : (P * (- (1#2)) <= P * (inject_Z q - y))%Q) by (apply Qmult_le_l; [exact HP|lra]).
    assert (G2 : (P * (inject_Z q - y) <= P * (1#2))%Q) by (apply Qmult_le_l; [exact HP|lra]). lra. }
  destruct (Z.eqb_spec q (10 ^ prec)) as [Eq|Ne].
  - split; [lia|]. split; [lia|]. assert (G : (inject_Z (10 ^ (prec - 1)) * pow 10 (e + 2 - prec) == inject_Z q * pow 10 (e + 1 - prec))%Q).
    { rewrite Eq, E10, inject_Z_mult. replace (e + 2 - prec) with (1 + (e + 1 - prec)) by lia. rewrite pow_plus by lia. change (pow 10 1) with (inject_Z 10). ring. }
    rewrite G. exact V.
  - split; [lia|]. split; [lia|]. exact V.
Qed.
Lemma strip_spec n : forall q, 0 < q < 10 ^ Z.of_nat n -> let '(q', nd) := strip n q in
  0 < q' < 10 ^ Z.of_nat nd /\ (1 <= nd <= n)%nat /\ q = q' * 10 ^ Z.of_nat (n - nd).
Proof.
  induction n as [|n IH]; intros q Hq; [cbn in Hq; lia|]. cbn [strip]. rewrite pow10_S in Hq. destruct (Z.eqb_spec (q mod 10) 0) as [E|E].
  - pose proof (Z.div_mod q 10 ltac:(lia)) as D. specialize (IH (q / 10) ltac:(lia)). destruct (strip n (q / 10)) as [q' nd]. destruct IH as (A & B & C).
    split; [exact A|]. split; [lia|]. replace (S n - nd)%nat with (S (n - nd)) by lia. rewrite pow10_S. lia.
  - rewrite pow10_S. split; [lia|]. split; [lia|]. rewrite Nat.sub_diag. cbn. lia.
Qed.
Lemma digit_char_ok d : 0 <= d < 10 -> is_digit (digit_char d) = true /\ Z.of_N (b2N (digit_char d)) - 0x30 = d.
Proof.
  intros H. assert (E : d = 0 \/ d = 1 \/ d = 2 \/ d = 3 \/ d = 4 \/ d = 5 \/ d = 6 \/ d = 7 \/ d = 8 \/ d = 9) by lia.
  repeat (destruct E as [->|E]; [now vm_compute|]). subst d. now vm_compute.
Qed.
Lemma dval_fold l : forall n, fold_left (fun n c => 10 * n + (Z.of_N (b2N c) - 0x30)) l n = n * 10 ^ Z.of_nat (length l) + dval l.
Proof.
  unfold dval. induction l as [|c l IH] using rev_ind; intros n; [cbn; lia|]. rewrite !fold_left_app. cbn [fold_left]. rewrite IH, app_length. cbn [length].
  rewrite Nat.add_1_r, pow10_S. lia.
Qed.
Lemma dval_app a b : dval (a ++ b) = dval a * 10 ^ Z.of_nat (length b) + dval b.
Proof. unfold dval at 1. rewrite fold_left_app. apply dval_fold. Qed.
Lemma dval_zeros n : dval (repeat x30 n) = 0.
Proof. induction n as [|n IH]; [reflexivity|]. change (repeat x30 (S n)) with ([x30] ++ repeat x30 n). rewrite dval_app, IH. reflexivity. Qed.
Lemma digs_spec n : forall q, 0 <= q -> forallb is_digit (digs n q) = true /\ length (digs n q) = n /\ dval (digs n q) = q mod 10 ^ Z.of_nat n.
Proof.
  induction n as [|n IH]; intros q Hq; [cbn; now rewrite Z.mod_1_r|]. cbn [digs]. destruct (IH (q / 10)) as (A & B & C); [apply Z.div_pos; lia|].
  destruct (digit_char_ok (q mod 10) ltac:(pose proof (Z.mod_pos_bound q 10); lia)) as [D E]. rewrite forallb_app, A, app_length, B. cbn [forallb length]. rewrite D.
  split; [reflexivity|]. split; [lia|]. rewrite dval_app, C. cbn [length]. change (dval [digit_char (q mod 10)]) with (10 * 0 + (Z.of_N (b2N (digit_char (q mod 10))) - 0x30)). rewrite E, (pow10_S n).
  rewrite Z.rem_mul_r by (pose proof (Z_pow10 n); lia). change (10 ^ Z.of_nat 1) with 10. lia.
Qed.
Lemma zeros_digits n : forallb is_digit (repeat x30 n) = true.
Proof. induction n; [reflexivity|]. exact IHn. Qed.

(** ** Decimal text *)
Definition ends_digits (r : bytes) : Prop := match r with [] => True | c :: _ => is_digit c = false end.
Lemma span_digits_app ds rest : forallb is_digit ds = true -> ends_digits rest -> span_digits (ds ++ rest) = (ds, rest).
Proof.
  induction ds as [|c ds IH]; intros H Hr; [destruct rest as [|c r]; [reflexivity|cbn in *; now rewrite Hr]|].
  cbn [forallb] in H. apply andb_prop in H as [Hc H]. cbn [app span_digits]. now rewrite Hc, IH.
Qed.
Lemma digit_no_sign c r : is_digit c = true -> dec_sign (c :: r) = (false, c :: r).
Proof. intros H. unfold dec_sign. destruct (Byte.eqb c x2d) eqn:E1; [apply Byte.byte_dec_bl in E1; now subst c|]. destruct (Byte.eqb c x2b) eqn:E2; [apply Byte.byte_dec_bl in E2; now subst c|]. reflexivity. Qed.
Definition exp_text (e : option (bool * bytes)) : bytes :=
  match e with None => [] | Some (neg, ds) => [x65; if neg : bool then x2d else x2b] ++ ds end.
Definition exp_val (e : option (bool * bytes)) : Z := match e with None => 0 | Some (neg, ds) => if neg : bool then - dval ds else dval ds end.
Definition exp_ok (e : option (bool * bytes)) : Prop := match e with None => True | Some (_, ds) => forallb is_digit ds = true /\ (1 <= length ds <= 4)%nat end.
Definition frac_text (fp : bytes) : bytes := match fp with [] => [] | _ => x2e :: fp end.
Lemma dec_parse_form (neg : bool) ip fp e : forallb is_digit ip = true -> ip <> [] -> forallb is_digit fp = true -> exp_ok e ->
  dec_parse ((if neg then [x2d] else []) ++ ip ++ frac_text fp ++ exp_text e) = Some (neg, dval (ip ++ fp), exp_val e - Z.of_nat (length fp)).
Proof.
  intros H1 Hne H2 He. unfold dec_parse.
  assert (ES : dec_sign ((if neg then [x2d] else []) ++ ip ++ frac_text fp ++ exp_text e) = (neg, ip ++ frac_text fp ++ exp_text e)).
  { destruct neg; [reflexivity|]. destruct ip as [|c ip]; [contradiction|]. cbn [app]. apply digit_no_sign. now apply andb_prop in H1. }
  rewrite ES. assert (HX : ends_digits (exp_text e)) by (destruct e as [[[] ds]|]; reflexivity).
  assert (EI : span_digits (ip ++ frac_text fp ++ exp_text e) = (ip, frac_text fp ++ exp_text e)).
  { apply span_digits_app; [exact H1|]. destruct fp; [exact HX|reflexivity]. }
  rewrite EI. assert (EF : dec_frac (frac_text fp ++ exp_text e) = (fp, exp_text e)).
  { destruct fp as [|c fp]; [destruct e as [[[] ds]|]; reflexivity|]. change (frac_text (c :: fp) ++ exp_text e) with (x2e :: (c :: fp) ++ exp_text e). cbn [dec_frac].
    change (Byte.eqb x2e x2e) with true. cbv iota. now apply span_digits_app. }
  rewrite EF. assert (EX : dec_exp (exp_text e) = Some (exp_val e)).
  { destruct e as [[s ds]|]; [|reflexivity]. destruct He as [Hd Hl]. cbn [exp_text app dec_exp]. change (Byte.eqb x65 x65 || Byte.eqb x65 x45) with true. cbv iota.
    assert (Eg : dec_sign ((if s then x2d else x2b) :: ds) = (s, ds)) by (destruct s; reflexivity). rewrite Eg.
    pose proof (span_digits_app ds [] Hd I) as Es. rewrite app_nil_r in Es. rewrite Es.
    rewrite (proj2 (Nat.leb_le 1 (length ds))), (proj2 (Nat.leb_le (length ds) 4)) by lia. reflexivity. }
  rewrite EX. destruct ip as [|c ip]; [contradiction|]. reflexivity.
Qed.

Inductive form (body : bytes) (d x : Z) : Prop :=
  Form ip fp e : body = ip ++ frac_text fp ++ exp_text e ->
    forallb is_digit ip = true -> ip <> [] -> forallb is_digit fp = true -> exp_ok e ->
    dval (ip ++ fp) = d -> exp_val e - Z.of_nat (length fp) = x -> form body d x.
Lemma fmtE_form D dp : forallb is_digit D = true -> D <> [] -> Z.abs (dp - 1) < 1000 ->
  form (fmtE D dp) (dval D) (dp - Z.of_nat (length D)).
Proof.
  intros HD Hne Ha. destruct D as [|c D]; [contradiction|]. set (a := Z.abs (dp - 1)) in *. set (n := if (a <? 100) then 2%nat else 3%nat).
  destruct (digs_spec n a ltac:(lia)) as (A & B & C). cbn [forallb] in HD. apply andb_prop in HD as [Hc HD].
  apply (Form _ _ _ [c] D (Some (dp - 1 <? 0, digs n a))).
  - unfold fmtE. fold a. fold n. destruct D; reflexivity.
  - cbn. now rewrite Hc.
  - discriminate.
  - exact HD.
  - cbn [exp_ok]. rewrite A, B. split; [reflexivity|]. unfold n. destruct (a <? 100); lia.
  - reflexivity.
  - cbn [exp_val length]. assert (En : dval (digs n a) = a).
    { rewrite C. apply Z.mod_small. unfold n. destruct (Z.ltb_spec a 100); [change (10 ^ Z.of_nat 2) with 100|change (10 ^ Z.of_nat 3) with 1000]; lia. }
    rewrite En. destruct (Z.ltb_spec (dp - 1) 0); lia.
Qed.
Lemma fmtF_form D dp : forallb is_digit D = true -> (D = [] -> dp = 0) -> exists d x,
  form (fmtF D dp) d x /\ (inject_Z d * pow 10 x == inject_Z (dval D) * pow 10 (dp - Z.of_nat (length D)))%Q.
Proof.
  intros HD H0. unfold fmtF. set (p := Z.to_nat dp).
  assert (HFS : forallb is_digit (firstn p D) = true /\ forallb is_digit (skipn p D) = true).
  { rewrite <- (firstn_skipn p D) in HD. rewrite forallb_app in HD. now apply andb_prop in HD. }
  destruct (Z.ltb_spec 0 dp) as [L|L].
  - assert (Hne : D <> []) by (intros E; specialize (H0 E); lia).
    destruct (Z.ltb_spec dp (Z.of_nat (length D))) as [M|M].
    + exists (dval D), (dp - Z.of_nat (length D)). split; [|reflexivity].
      assert (Hs : skipn p D <> []) by (intros E; apply (f_equal (@length byte)) in E; rewrite skipn_length in E; cbn in E; lia).
      replace (p - length D)%nat with 0%nat by lia. cbn [repeat]. rewrite app_nil_r. replace (Z.to_nat (- dp)) with 0%nat by lia. cbn [repeat app].
      apply (Form _ _ _ (firstn p D) (skipn p D) None).
      * destruct (skipn p D); [contradiction|]. cbn [exp_text frac_text]. now rewrite app_nil_r.
      * apply HFS.
      * intros E. apply (f_equal (@length byte)) in E. rewrite firstn_length in E. cbn in E. destruct D; [contradiction|]. cbn [length] in *. lia.
      * apply HFS.
      * exact I.
      * now rewrite firstn_skipn.
      * cbn [exp_val]. rewrite skipn_length. lia.
    + exists (dval (D ++ repeat x30 (p - length D))), 0. split.
      * rewrite firstn_all2 by lia. rewrite app_nil_r. apply (Form _ _ _ (D ++ repeat x30 (p - length D)) [] None).
        -- cbn [exp_text frac_text]. now rewrite !app_nil_r.
        -- now rewrite forallb_app, HD, zeros_digits.
        -- destruct D; [contradiction|discriminate].
        -- reflexivity.
        -- exact I.
        -- now rewrite app_nil_r.
        -- reflexivity.
      * rewrite dval_app, dval_zeros, repeat_length, pow_0, Z.add_0_r, inject_Z_mult. rewrite (pow_Z 10 (dp - _)) by lia.
        replace (dp - Z.of_nat (length D)) with (Z.of_nat (p - length D)) by lia. ring.
  - replace p with 0%nat in * by lia. cbn [skipn]. destruct (Z.ltb_spec dp (Z.of_nat (length D))) as [M|M].
    + exists (dval D), (dp - Z.of_nat (length D)). split; [|reflexivity].
      apply (Form _ _ _ [x30] (repeat x30 (Z.to_nat (- dp)) ++ D) None).
      * cbn [exp_text]. rewrite app_nil_r. destruct (repeat x30 (Z.to_nat (- dp)) ++ D) as [|c l] eqn:E; [|reflexivity].
        apply app_eq_nil in E as [E1 E2]. subst D. specialize (H0 eq_refl). cbn in M. lia.
      * reflexivity.
      * discriminate.
      * now rewrite forallb_app, zeros_digits, HD.
      * exact I.
      * change ([x30] ++ repeat x30 (Z.to_nat (- dp)) ++ D) with (repeat x30 (S (Z.to_nat (- dp))) ++ D). now rewrite dval_app, dval_zeros.
      * cbn [exp_val]. rewrite app_length, repeat_length. lia.
    + assert (D = []) by (destruct D; [reflexivity|cbn [length] in M; lia]). subst D. rewrite (H0 eq_refl). exists 0, 0. split; [|reflexivity].
      apply (Form _ _ _ [x30] [] None); try reflexivity. discriminate.
Qed.
Lemma index_e_app pre r : forallb (fun c => negb (Byte.eqb c x65)) pre = true -> index_e (pre ++ r) = option_map (fun n => (length pre + n)%nat) (index_e r).
Proof.
  induction pre as [|c pre IH]; intros H; [cbn [app length]; destruct (index_e r); reflexivity|]. cbn [forallb] in H. apply andb_prop in H as [Hc H]. cbn [app index_e length].
  destruct (Byte.eqb c x65); [discriminate Hc|]. rewrite IH by exact H. destruct (index_e r); reflexivity.
Qed.
Lemma digit_plain c : is_digit c = true -> Byte.eqb c x65 = false.
Proof. intros H. destruct (Byte.eqb c x65) eqn:E; [|reflexivity]. apply Byte.byte_dec_bl in E. now subst c. Qed.
Lemma digits_no_e l : forallb is_digit l = true -> forallb (fun c => negb (Byte.eqb c x65)) l = true.
Proof. induction l as [|c l IH]; intros H; [reflexivity|]. cbn [forallb] in *. apply andb_prop in H as [Hc H]. rewrite (digit_plain c Hc). now apply IH. Qed.
Lemma fix_form (neg : bool) body d x : form body d x -> exists body', fixFloatExp ((if neg then [x2d] else []) ++ body) 3 = OK ((if neg then [x2d] else []) ++ body') /\ form body' d x.
Proof.
  intros [ip fp e -> H1 H2 H3 H4 H5 H6]. unfold fixFloatExp. set (sg := if neg then [x2d] else []).
  assert (Hpre : forallb (fun c => negb (Byte.eqb c x65)) (sg ++ ip ++ frac_text fp) = true).
  { rewrite !forallb_app, (digits_no_e ip H1). replace (forallb _ (frac_text fp)) with true by (destruct fp as [|c fp]; [reflexivity|]; cbn [frac_text forallb]; symmetry; exact (digits_no_e (c :: fp) H3)).
    unfold sg. now destruct neg. }
  assert (Eq : forall r, sg ++ ip ++ frac_text fp ++ r = (sg ++ ip ++ frac_text fp) ++ r) by (intros; now rewrite <- !app_assoc).
  rewrite Eq, (index_e_app _ _ Hpre). destruct e as [[s ds]|].
  - cbn [exp_text app index_e option_map]. change (Byte.eqb x65 x65) with true. cbv iota. cbn [option_map]. rewrite Nat.add_0_r.
    set (pre := sg ++ ip ++ frac_text fp). set (sc := if s then x2d else x2b). destruct H4 as [Hd Hl].
    rewrite app_length. cbn [length]. replace (length pre + S (S (length ds)) <? length pre + 2)%nat with false by (symmetry; apply Nat.ltb_ge; lia).
    assert (Esk : skipn (length pre + 2) (pre ++ x65 :: sc :: ds) = ds).
    { rewrite skipn_app. rewrite skipn_all2 by lia. replace (length pre + 2 - length pre)%nat with 2%nat by lia. reflexivity. }
    assert (Efs : firstn (length pre + 2) (pre ++ x65 :: sc :: ds) = pre ++ [x65; sc]).
    { rewrite firstn_app. rewrite firstn_all2 by lia. replace (length pre + 2 - length pre)%nat with 2%nat by lia. reflexivity. }
    rewrite Esk, Efs. exists (ip ++ frac_text fp ++ exp_text (Some (s, repeat x30 (3 - length ds) ++ ds))). split.
    + destruct (Nat.ltb_spec (length ds) 3).
      * f_equal. unfold pre. cbn [exp_text]. fold sc. rewrite <- !app_assoc. reflexivity.
      * f_equal. replace (3 - length ds)%nat with 0%nat by lia. unfold pre. cbn [exp_text repeat app]. fold sc. now rewrite <- !app_assoc.
    + apply (Form _ _ _ ip fp (Some (s, repeat x30 (3 - length ds) ++ ds))); try assumption; try reflexivity.
      * cbn [exp_ok]. rewrite forallb_app, zeros_digits, Hd, app_length, repeat_length. split; [reflexivity|lia].
      * cbn [exp_val] in *. now rewrite dval_app, dval_zeros.
  - cbn [exp_text index_e option_map]. exists (ip ++ frac_text fp). split; [now rewrite app_nil_r|]. apply (Form _ _ _ ip fp None); try assumption. cbn [exp_text]. now rewrite app_nil_r.
Qed.
Lemma form_parse (neg : bool) body d x : form body d x -> dec_parse ((if neg then [x2d] else []) ++ body) = Some (neg, d, x).
Proof. intros [ip fp e -> H1 H2 H3 H4 <- <-]. now apply dec_parse_form. Qed.

(** ** What the text of a number says *)
Lemma form_digits t d x : form t d x -> 0 <= d.
Proof.
  intros [ip fp e -> H1 H2 H3 H4 <- <-]. assert (H : forallb is_digit (ip ++ fp) = true) by now rewrite forallb_app, H1, H3.
  clear -H. induction (ip ++ fp) as [|c l IH] using rev_ind; [cbn; lia|]. rewrite forallb_app in H. apply andb_prop in H as [Hl Hc]. specialize (IH Hl).
  rewrite dval_app. cbn [length forallb] in *. change (10 ^ Z.of_nat 1) with 10. assert (0 <= dval [c]); [|lia].
  unfold dval. cbn [fold_left]. rewrite andb_true_r in Hc. unfold is_digit in Hc. apply andb_prop in Hc as [Hc _]. apply N.leb_le in Hc. lia.
Qed.
Section Text.
Variable F : fformat.
Hypothesis Hmb : 1 <= ff_mb F.
Hypothesis Heb : 2 <= ff_eb F.
Hypothesis Hlow : -1100 <= emin F.
Hypothesis Hhigh : 2 ^ ff_eb F - 3 + emin F + ff_mb F + 1 <= 1100.
Lemma f_val_pos a : 0 < a -> (0 < f_val F a)%Q.
Proof.
  intros Ha. destruct (parts F Hmb Heb a ltac:(lia)) as (_ & _ & _ & _ & P). apply Qmult_lt_0_compat; [|apply pow_pos; lia]. change 0%Q with (inject_Z 0). rewrite <- Zlt_Qlt. now apply P.
Qed.
Lemma f_exp_max a : 0 <= a < inf_bits F -> f_exp F a <= 2 ^ ff_eb F - 3 + emin F.
Proof.
  intros Ha. unfold f_exp. assert (HP : 0 < 2 ^ ff_mb F) by (apply Z.pow_pos_nonneg; lia).
  assert (HB : 4 <= 2 ^ ff_eb F) by (change 4 with (2 ^ 2); apply Z.pow_le_mono_r; lia).
  assert (a / 2 ^ ff_mb F < 2 ^ ff_eb F - 1) by (apply Z.div_lt_upper_bound; [lia|]; unfold inf_bits in Ha; lia). lia.
Qed.
Lemma f_val_range a : 0 < a < inf_bits F -> (pow 2 (-1100) <= f_val F a < pow 2 1100)%Q.
Proof.
  intros Ha. destruct (parts F Hmb Heb a ltac:(lia)) as (_ & P2 & P3 & _ & P5). pose proof (f_exp_max a ltac:(lia)) as Hx. specialize (P5 ltac:(lia)).
  unfold f_val. set (m := f_mant F a) in *. set (E := f_exp F a) in *. pose proof (pow_pos 2 E ltac:(lia)) as HE. split.
  - apply Qle_trans with (pow 2 E); [apply pow_le; lia|]. assert (M : (1 <= inject_Z m)%Q) by (change 1%Q with (inject_Z 1); rewrite <- Zle_Qle; lia).
    apply (Qmult_le_r _ _ _ HE) in M. lra.
  - apply Qlt_le_trans with (pow 2 (ff_mb F + 1) * pow 2 E)%Q; [|rewrite <- pow_plus by lia; apply pow_le; lia].
    apply Qmult_lt_r; [exact HE|]. rewrite pow_Z by lia. rewrite <- Zlt_Qlt. lia.
Qed.
Lemma flog_range a : 0 < a < inf_bits F -> -400 <= flog 10 (f_val F a) <= 400.
Proof.
  intros Ha. pose proof (flog_spec 10 _ ltac:(lia) (f_val_pos a ltac:(lia))) as [A B]. destruct (f_val_range a Ha) as [R1 R2].
  set (v := f_val F a) in *. set (e := flog 10 v) in *. clearbody v e.
  assert (C1 : (pow 10 (-399) <= pow 2 (-1100))%Q) by (vm_compute; discriminate).
  assert (C2 : (pow 2 1100 <= pow 10 401)%Q) by (vm_compute; discriminate).
  split.
  - destruct (Z.le_gt_cases (-400) e) as [L|L]; [exact L|exfalso]. pose proof (pow_le 10 (e + 1) (-399) ltac:(lia) ltac:(lia)). lra.
  - destruct (Z.le_gt_cases e 400) as [L|L]; [exact L|exfalso]. pose proof (pow_le 10 401 e ltac:(lia) ltac:(lia)). lra.
Qed.
(** The text of a finite number without its sign. *)
Definition body (prec : N) (a : Z) : bytes :=
  let '(D, dp) := if (a =? 0)%Z then ([], 0%Z)
      else let '(q, dp) := round_digits (Z.of_N prec) (f_val F a) in
           let '(q, nd) := strip (N.to_nat prec) q in (digs nd q, dp) in
    let nd := Z.of_nat (length D) in
    let eprec := if ((nd <? Z.of_N prec) && (dp <=? nd))%Z then nd else Z.of_N prec in
    (if ((dp - 1 <? -4) || (eprec <=? dp - 1))%Z then fmtE D dp else fmtF D dp).
Lemma format_g_finite prec f : let a := Z.of_N f mod sign_bit F in a < inf_bits F ->
  format_g F prec f = (if sign_bit F <=? Z.of_N f then [x2d] else []) ++ body prec a.
Proof.
  intros a Ha. unfold format_g, body. fold a. destruct (Z.leb_spec (inf_bits F) a); [lia|]. destruct (a =? 0); [reflexivity|].
  destruct (round_digits (Z.of_N prec) (f_val F a)) as [q dp]. destruct (strip (N.to_nat prec) q) as [q' nd]. reflexivity.
Qed.
Lemma body_zero prec : prec <> 0%N -> body prec 0 = [x30].
Proof.
  intros Hp. unfold body. cbn [Z.eqb length Z.of_nat]. change (0 - 1 <? -4) with false. cbn [orb]. change (0 <=? 0) with true. rewrite andb_true_r.
  destruct (Z.ltb_spec 0 (Z.of_N prec)); [|lia]. reflexivity.
Qed.
Lemma body_form prec a : prec <> 0%N -> 0 < a < inf_bits F -> let '(q, dp) := round_digits (Z.of_N prec) (f_val F a) in
  exists d x, form (body prec a) d x /\ (inject_Z d * pow 10 x == inject_Z q * pow 10 (dp - Z.of_N prec))%Q.
Proof.
  intros Hp Ha. pose proof (f_val_pos a ltac:(lia)) as Hv. pose proof (round_digits_spec (Z.of_N prec) (f_val F a) ltac:(lia) Hv) as RD.
  pose proof (flog_range a Ha) as HL. unfold body. destruct (Z.eqb_spec a 0); [lia|]. destruct (round_digits (Z.of_N prec) (f_val F a)) as [q dp]. destruct RD as (R1 & R2 & _).
  assert (Hq : 0 < q < 10 ^ Z.of_nat (N.to_nat prec)).
  { rewrite N_nat_Z. split; [|lia]. apply Z.lt_le_trans with (10 ^ (Z.of_N prec - 1)); [apply Z.pow_pos_nonneg; lia|lia]. }
  pose proof (strip_spec (N.to_nat prec) q Hq) as HS. destruct (strip (N.to_nat prec) q) as [q' nd]. destruct HS as (S1 & S2 & S3).
  destruct (digs_spec nd q' ltac:(lia)) as (D1 & D2 & D3). rewrite Z.mod_small in D3 by lia.
  assert (Hval : (inject_Z (dval (digs nd q')) * pow 10 (dp - Z.of_nat (length (digs nd q'))) == inject_Z q * pow 10 (dp - Z.of_N prec))%Q).
  { rewrite D2, D3, S3, inject_Z_mult, <- (pow_Z 10 (Z.of_nat (N.to_nat prec - nd))) by lia. rewrite <- Qmult_assoc, <- pow_plus by lia.
    replace (Z.of_nat (N.to_nat prec - nd) + (dp - Z.of_N prec)) with (dp - Z.of_nat nd) by lia. reflexivity. }
  assert (Hne : digs nd q' <> []) by (intros E; apply (f_equal (@length byte)) in E; rewrite D2 in E; cbn in E; lia).
  set (D := digs nd q') in *. cbv zeta. match goal with |- context [if ?c then fmtE D dp else _] => destruct c end.
  - exists (dval D), (dp - Z.of_nat (length D)). split; [|exact Hval]. apply fmtE_form; [exact D1|exact Hne|lia].
  - destruct (fmtF_form D dp D1 ltac:(intros; contradiction)) as (d & x & H1 & H2). exists d, x. split; [exact H1|]. now rewrite H2.
Qed.
Lemma body_form0 prec : prec <> 0%N -> form (body prec 0) 0 0.
Proof. intros Hp. rewrite body_zero by exact Hp. apply (Form _ _ _ [x30] [] None); try reflexivity. discriminate. Qed.

Lemma f_val_mono a : 0 < a < inf_bits F -> (f_val F a <= f_val F (inf_bits F - 1))%Q.
Proof.
  intros Ha. destruct (parts F Hmb Heb a ltac:(lia)) as (A1 & A2 & A3 & A4 & A5). destruct (parts F Hmb Heb (inf_bits F - 1) ltac:(lia)) as (B1 & B2 & B3 & B4 & B5).
  unfold f_val. set (m := f_mant F a) in *. set (E := f_exp F a) in *. set (M := f_mant F (inf_bits F - 1)) in *. set (EM := f_exp F (inf_bits F - 1)) in *.
  assert (HP : 0 < 2 ^ ff_mb F) by (apply Z.pow_pos_nonneg; lia).
  assert (Hpp : 2 ^ (ff_mb F + 1) = 2 * 2 ^ ff_mb F) by (rewrite Z.add_1_r, Z.pow_succ_r; lia). rewrite Hpp in A3, B3.
  assert (HEE : E <= EM).
  { destruct (Z.le_gt_cases E EM) as [L|L]; [exact L|exfalso]. specialize (A4 ltac:(lia)). destruct (Z.eq_dec EM (emin F)) as [Q|Q]; [|specialize (B4 ltac:(lia))]; [nia|nia]. }
  destruct (Z.eq_dec E EM) as [->|Hne].
  - apply Qmult_le_r; [apply pow_pos; lia|]. rewrite <- Zle_Qle. lia.
  - specialize (B4 ltac:(lia)). apply Qle_trans with (pow 2 (ff_mb F + 1) * pow 2 E)%Q.
    + apply Qmult_le_r; [apply pow_pos; lia|]. rewrite pow_Z by lia. rewrite <- Zle_Qle. lia.
    + apply Qle_trans with (pow 2 (ff_mb F) * pow 2 EM)%Q; [rewrite <- !pow_plus by lia; apply pow_le; lia|].
      apply Qmult_le_r; [apply pow_pos; lia|]. rewrite pow_Z by lia. rewrite <- Zle_Qle. lia.
Qed.
(** Rounding to prec digits does not exceed the largest finite number. *)
Lemma digits_not_over prec K QQ a : 1 <= prec -> 0 < a < inf_bits F ->
  (f_val F (inf_bits F - 1) * pow 10 (prec - 1 - K) < inject_Z QQ + (1#2))%Q -> (inject_Z QQ * pow 10 (K + 1 - prec) <= f_val F (inf_bits F - 1))%Q ->
  QQ < 10 ^ prec -> (pow 10 K <= f_val F (inf_bits F - 1) < pow 10 (K + 1))%Q ->
  let '(q, dp) := round_digits prec (f_val F a) in (inject_Z q * pow 10 (dp - prec) <= f_val F (inf_bits F - 1))%Q.
Proof.
  intros Hp Ha H1 H2 H3 [H4 H5]. pose proof (f_val_mono a Ha) as Hm. pose proof (f_val_pos a ltac:(lia)) as Hv. set (M := f_val F (inf_bits F - 1)) in *. set (v := f_val F a) in *. clearbody M v.
  pose proof (flog_spec 10 v ltac:(lia) Hv) as [A B]. pose proof (round_digits_spec prec v Hp Hv) as RD. unfold round_digits in *. set (e := flog 10 v) in *.
  assert (HeK : e <= K).
  { destruct (Z.le_gt_cases e K) as [L|L]; [exact L|exfalso]. pose proof (pow_le 10 (K + 1) e ltac:(lia) ltac:(lia)). lra. }
  destruct (Z.eq_dec e K) as [->|Hne].
  - assert (Hq : rhe (v * pow 10 (prec - 1 - K)) <= QQ).
    { apply rhe_le. apply Qle_lt_trans with (M * pow 10 (prec - 1 - K))%Q; [|exact H1]. apply Qmult_le_r; [apply pow_pos; lia|exact Hm]. }
    destruct (Z.eqb_spec (rhe (v * pow 10 (prec - 1 - K))) (10 ^ prec)) as [Q|Q]; [lia|].
    apply Qle_trans with (inject_Z QQ * pow 10 (K + 1 - prec))%Q; [|exact H2]. apply Qmult_le_r; [apply pow_pos; lia|]. rewrite <- Zle_Qle. exact Hq.
  - assert (HB : (pow 10 (e + 1) <= M)%Q) by (apply Qle_trans with (pow 10 K); [apply pow_le; lia|exact H4]).
    set (q := rhe (v * pow 10 (prec - 1 - e))) in *. destruct (Z.eqb_spec q (10 ^ prec)) as [Q|Q].
    + apply Qle_trans with (pow 10 (e + 1)); [|exact HB]. rewrite <- pow_Z by lia. rewrite <- pow_plus by lia. apply pow_le; lia.
    + destruct RD as (R1 & _ & _). apply Qle_trans with (pow 10 (e + 1)); [|exact HB].
      replace (e + 1) with (prec + (e + 1 - prec)) at 2 by lia. rewrite pow_plus by lia. apply Qmult_le_r; [apply pow_pos; lia|]. rewrite pow_Z by lia. rewrite <- Zle_Qle. lia.
Qed.
(** Enough digits identify the number. *)
Lemma digits_enough prec a : 1 <= prec -> 2 ^ (ff_mb F + 1) < 5 * 10 ^ (prec - 2) -> 2 <= prec -> 0 < a < inf_bits F ->
  let '(q, dp) := round_digits prec (f_val F a) in round_pos F (inject_Z q * pow 10 (dp - prec)) = Some a.
Proof.
  intros Hp Hd Hp2 Ha. pose proof (f_val_pos a ltac:(lia)) as Hv. pose proof (round_digits_spec prec (f_val F a) Hp Hv) as RD.
  pose proof (flog_spec 10 _ ltac:(lia) Hv) as [A _]. destruct (round_digits prec (f_val F a)) as [q dp]. destruct RD as (R1 & _ & R3).
  destruct (parts F Hmb Heb a ltac:(lia)) as (_ & P2 & P3 & P4 & P5). set (v := f_val F a) in *. set (e := flog 10 v) in *. set (y := (inject_Z q * pow 10 (dp - prec))%Q) in *.
  assert (Hq : 0 < q) by (apply Z.lt_le_trans with (10 ^ (prec - 1)); [apply Z.pow_pos_nonneg; lia|lia]).
  apply round_pos_near; [exact Hmb|exact Heb|exact Ha| |].
  - apply Qmult_lt_0_compat; [|apply pow_pos; lia]. change 0%Q with (inject_Z 0). rewrite <- Zlt_Qlt. exact Hq.
  - set (m := f_mant F a) in *. set (E := f_exp F a) in *. pose proof (pow_pos 2 (- E) ltac:(lia)) as HE.
    assert (Hve : (v * pow 2 (- E) == inject_Z m)%Q) by (unfold v, f_val; fold m E; rewrite <- Qmult_assoc, pow_opp by lia; ring).
    assert (Herr : ((1#2) * pow 10 (e + 1 - prec) <= (1#2) * (v * pow 10 (1 - prec)))%Q).
    { replace (e + 1 - prec) with (e + (1 - prec)) by lia. rewrite pow_plus by lia. assert (pow 10 e * pow 10 (1 - prec) <= v * pow 10 (1 - prec))%Q by (apply Qmult_le_r; [apply pow_pos; lia|exact A]). lra. }
    assert (Hsmall : (inject_Z m * pow 10 (1 - prec) < (1#2))%Q).
    { assert (T : (inject_Z m < inject_Z (5 * 10 ^ (prec - 2)))%Q) by (rewrite <- Zlt_Qlt; lia). pose proof (pow_pos 10 (1 - prec) ltac:(lia)) as HX.
      apply (Qmult_lt_r _ _ _ HX) in T. rewrite inject_Z_mult, <- (pow_Z 10 (prec - 2)) in T by lia. rewrite <- Qmult_assoc, <- pow_plus in T by lia.
      replace (prec - 2 + (1 - prec)) with (-1) in T by lia. change (pow 10 (-1)) with (1 # 10)%Q in T. change (inject_Z 5) with 5%Q in T. lra. }
    set (P := pow 2 (- E)) in *. set (r := pow 10 (1 - prec)) in *. set (B := pow 10 (e + 1 - prec)) in *.
    assert (G1 : ((y - v) * P <= (1#2) * (v * r) * P)%Q) by (apply Qmult_le_r; [exact HE|lra]).
    assert (G2 : ((v - y) * P <= (1#2) * (v * r) * P)%Q) by (apply Qmult_le_r; [exact HE|lra]).
    assert (G3 : ((1#2) * (v * r) * P == (1#2) * (inject_Z m * r))%Q) by (rewrite <- Hve; ring).
    split; lra.
Qed.
End Text.

(** ** Text written again *)
Section Again.
Variable F : fformat.
Hypothesis Hmb : 1 <= ff_mb F.
Hypothesis Heb : 2 <= ff_eb F.
Lemma f_val_of E r : emin F <= E -> 0 <= r <= 2 ^ (ff_mb F + 1) -> (emin F < E -> 2 ^ ff_mb F <= r) ->
  (f_val F ((E - emin F) * 2 ^ ff_mb F + r) == inject_Z r * pow 2 E)%Q.
Proof.
  intros HE Hr Hn. assert (HP : 0 < 2 ^ ff_mb F) by (apply Z.pow_pos_nonneg; lia).
  assert (Hpp : 2 ^ (ff_mb F + 1) = 2 * 2 ^ ff_mb F) by (rewrite Z.add_1_r, Z.pow_succ_r; lia). rewrite Hpp in Hr.
  unfold f_val, f_exp, f_mant. replace ((E - emin F) * 2 ^ ff_mb F + r) with (r + (E - emin F) * 2 ^ ff_mb F) by lia. rewrite Z.div_add by lia. set (P := 2 ^ ff_mb F) in *.
  destruct (Z.eq_dec r (2 * P)) as [Er|Er].
  - assert (Eq : r / P = 2) by (rewrite Er; apply Z.div_mul; lia). rewrite Eq. replace (Z.max (2 + (E - emin F) - 1) 0) with (E - emin F + 1) by lia.
    replace (r + (E - emin F) * P - (E - emin F + 1) * P) with P by lia. replace (E - emin F + 1 + emin F) with (1 + E) by lia. rewrite pow_plus by lia. change (pow 2 1) with (inject_Z 2). rewrite Er, inject_Z_mult. ring.
  - destruct (Z.lt_ge_cases r P) as [L|L].
    + assert (E = emin F) by (destruct (Z.eq_dec E (emin F)) as [Q|Q]; [exact Q|specialize (Hn ltac:(lia)); lia]). subst E. rewrite Z.sub_diag, Z.div_small by lia.
      change (Z.max (0 + 0 - 1) 0) with 0. replace (r + 0 * P - 0 * P) with r by lia. replace (0 + emin F) with (emin F) by lia. reflexivity.
    + assert (Eq : r / P = 1) by (symmetry; apply (Z.div_unique r P 1 (r - P)); lia). rewrite Eq. replace (Z.max (1 + (E - emin F) - 1) 0) with (E - emin F) by lia.
      replace (r + (E - emin F) * P - (E - emin F) * P) with r by lia. replace (E - emin F + emin F) with E by lia. reflexivity.
Qed.
Lemma round_pos_err y a : (0 < y)%Q -> round_pos F y = Some a -> let E := Z.max (flog 2 y - ff_mb F) (emin F) in
  0 <= a < inf_bits F /\ (- (1#2) * pow 2 E <= f_val F a - y <= (1#2) * pow 2 E)%Q.
Proof.
  intros Hy H E. unfold round_pos in H. fold E in H. set (r := rhe (y * pow 2 (- E))) in *. destruct (Z.ltb_spec ((E - emin F) * 2 ^ ff_mb F + r) (inf_bits F)) as [L|]; [|discriminate H].
  apply (f_equal (fun o => match o with Some a => a | None => 0 end)) in H. subst a.
  pose proof (flog_spec 2 y ltac:(lia) Hy) as [K1 K2]. pose proof (rhe_spec (y * pow 2 (- E))) as R. fold r in R. pose proof (pow_pos 2 E ltac:(lia)) as HE. pose proof (pow_pos 2 (- E) ltac:(lia)) as HE'. pose proof (pow_opp 2 E ltac:(lia)) as HEE.
  assert (Hpos : (0 < y * pow 2 (- E))%Q) by (apply Qmult_lt_0_compat; assumption).
  assert (R0 : 0 <= r) by (apply rhe_ge; change (inject_Z 0) with 0%Q; lra).
  assert (R1 : r <= 2 ^ (ff_mb F + 1)).
  { apply rhe_le. assert (T : (y * pow 2 (- E) < pow 2 (ff_mb F + 1))%Q); [|rewrite (pow_Z 2 (ff_mb F + 1)) in T by lia; lra].
    replace (ff_mb F + 1) with (flog 2 y + 1 + (ff_mb F - flog 2 y)) by lia. rewrite pow_plus by lia.
    assert (pow 2 (- E) <= pow 2 (ff_mb F - flog 2 y))%Q by (apply pow_le; lia).
    apply Qle_lt_trans with (y * pow 2 (ff_mb F - flog 2 y))%Q; [rewrite !(Qmult_comm y); apply Qmult_le_r; assumption|]. apply Qmult_lt_r; [apply pow_pos; lia|exact K2]. }
  assert (R2 : emin F < E -> 2 ^ ff_mb F <= r).
  { intros HEm. apply rhe_ge. rewrite <- pow_Z by lia. assert (EE : E = flog 2 y - ff_mb F) by lia. assert (T : (pow 2 (ff_mb F) <= y * pow 2 (- E))%Q); [|lra].
    replace (ff_mb F) with (flog 2 y + - E) at 1 by lia. rewrite pow_plus by lia. apply Qmult_le_r; [exact HE'|exact K1]. }
  pose proof (f_val_of E r ltac:(lia) ltac:(lia) R2) as V. split.
  - split; [|exact L]. assert (0 < 2 ^ ff_mb F) by (apply Z.pow_pos_nonneg; lia). nia.
  - rewrite V. set (p := pow 2 E) in *. set (p' := pow 2 (- E)) in *.
    assert (G1 : ((y * p') * p <= (inject_Z r + (1#2)) * p)%Q) by (apply Qmult_le_r; [exact HE|lra]).
    assert (G2 : ((inject_Z r - (1#2)) * p <= (y * p') * p)%Q) by (apply Qmult_le_r; [exact HE|lra]).
    assert (Ey : (y * p' * p == y)%Q) by (setoid_replace (y * p' * p)%Q with (y * (p * p'))%Q by ring; rewrite HEE; ring). rewrite Ey in G1, G2. lra.
Qed.
(** Digits read as a number that is not too small are written again. *)
Lemma flog10_of x k : (0 < x)%Q -> (pow 10 k <= x)%Q -> (x < pow 10 (k + 1))%Q -> flog 10 x = k.
Proof.
  intros Hx H1 H2. pose proof (flog_spec 10 x ltac:(lia) Hx) as [A B].
  destruct (Z.lt_trichotomy (flog 10 x) k) as [L|[L|L]]; [|exact L|].
  - pose proof (pow_le 10 (flog 10 x + 1) k ltac:(lia) ltac:(lia)). lra.
  - pose proof (pow_le 10 (k + 1) (flog 10 x) ltac:(lia) ltac:(lia)). lra.
Qed.
Lemma digits_again prec q dp y a : 1 <= prec -> 2 * 10 ^ prec < 2 ^ ff_mb F -> 10 ^ (prec - 1) <= q < 10 ^ prec ->
  (y == inject_Z q * pow 10 (dp - prec))%Q -> ((1#2) * pow 2 (emin F + ff_mb F) <= y)%Q -> round_pos F y = Some a ->
  0 < a < inf_bits F /\ round_digits prec (f_val F a) = (q, dp).
Proof.
  intros Hp Hd Hq Ey Hlo Hr. set (k := dp - prec) in *. pose proof (pow_pos 10 k ltac:(lia)) as HK.
  assert (HP1 : 0 < 10 ^ (prec - 1)) by (apply Z.pow_pos_nonneg; lia).
  assert (E10 : 10 ^ prec = 10 * 10 ^ (prec - 1)) by (replace prec with (Z.succ (prec - 1)) at 1 by lia; rewrite Z.pow_succ_r; lia).
  assert (Hy : (0 < y)%Q) by (rewrite Ey; apply Qmult_lt_0_compat; [change 0%Q with (inject_Z 0); rewrite <- Zlt_Qlt; lia|exact HK]).
  destruct (round_pos_err y a Hy Hr) as [Ha Herr]. set (E := Z.max (flog 2 y - ff_mb F) (emin F)) in *.
  pose proof (flog_spec 2 y ltac:(lia) Hy) as [K1 K2].
  assert (HE : (pow 2 (E + ff_mb F) <= 2 * y)%Q).
  { destruct (Z.max_spec (flog 2 y - ff_mb F) (emin F)) as [[_ M]|[_ M]]; fold E in M; rewrite M.
    - lra.
    - replace (flog 2 y - ff_mb F + ff_mb F) with (flog 2 y) by lia. lra. }
  assert (Hulp : (pow 2 E * inject_Z (10 ^ prec) < y)%Q).
  { rewrite pow_plus, (pow_Z 2 (ff_mb F)) in HE by lia. pose proof (pow_pos 2 E ltac:(lia)) as HE0.
    assert (T : (pow 2 E * inject_Z (2 * 10 ^ prec) < pow 2 E * inject_Z (2 ^ ff_mb F))%Q) by (apply Qmult_lt_l; [exact HE0|rewrite <- Zlt_Qlt; lia]).
    rewrite inject_Z_mult in T. change (inject_Z 2) with 2%Q in T. lra. }
  set (g := f_val F a) in *. set (u := pow 2 E) in *. pose proof (pow_pos 2 E ltac:(lia)) as Hu. fold u in Hu. set (T := inject_Z (10 ^ prec)) in *.
  assert (HT : (1 <= T)%Q) by (unfold T; change 1%Q with (inject_Z 1); rewrite <- Zle_Qle; lia).
  (* everything in units of the last digit *)
  set (K := pow 10 k) in *. set (K' := pow 10 (- k)). assert (HKK : (K * K' == 1)%Q) by (apply pow_opp; lia). assert (HK' : (0 < K')%Q) by (apply pow_pos; lia).
  set (z := (g * K')%Q). set (w := (u * K')%Q).
  assert (Hw : (0 < w)%Q) by (apply Qmult_lt_0_compat; assumption).
  assert (Hz1 : (z <= inject_Z q + (1#2) * w)%Q /\ (inject_Z q - (1#2) * w <= z)%Q).
  { assert (Eq : (inject_Z q == y * K')%Q) by (rewrite Ey; fold K; setoid_replace (inject_Z q * K * K')%Q with (inject_Z q * (K * K'))%Q by ring; rewrite HKK; ring).
    unfold z, w. rewrite Eq. assert (G1 : ((g - y) * K' <= (1#2) * u * K')%Q) by (apply Qmult_le_r; [exact HK'|lra]).
    assert (G2 : ((y - g) * K' <= (1#2) * u * K')%Q) by (apply Qmult_le_r; [exact HK'|lra]). split; lra. }
  destruct Hz1 as [Z1 Z2].
  assert (HwT : (w * T < inject_Z q)%Q).
  { assert (Eq : (inject_Z q == y * K')%Q) by (rewrite Ey; fold K; setoid_replace (inject_Z q * K * K')%Q with (inject_Z q * (K * K'))%Q by ring; rewrite HKK; ring).
    rewrite Eq. unfold w. assert (G : (u * T * K' < y * K')%Q) by (apply Qmult_lt_r; [exact HK'|exact Hulp]). lra. }
  assert (HqT : (inject_Z q <= T - 1)%Q) by (unfold T; assert (q + 1 <= 10 ^ prec) as Q by lia; rewrite Zle_Qle, inject_Z_plus in Q; change (inject_Z 1) with 1%Q in Q; lra).
  assert (Hw1 : (w < 1)%Q).
  { destruct (Qlt_le_dec w 1) as [L|L]; [exact L|exfalso]. assert (1 * T <= w * T)%Q by (apply Qmult_le_r; [lra|exact L]). lra. }
  assert (Hq1 : (1 <= inject_Z q)%Q) by (change 1%Q with (inject_Z 1); rewrite <- Zle_Qle; lia).
  assert (Hzpos : (0 < z)%Q) by lra.
  assert (Eg : (g == z * K)%Q) by (unfold z; setoid_replace (g * K' * K)%Q with (g * (K * K'))%Q by ring; rewrite HKK; ring).
  assert (Hg : (0 < g)%Q) by (rewrite Eg; apply Qmult_lt_0_compat; assumption).
  assert (Ha0 : 0 < a).
  { destruct (Z.eq_dec a 0) as [Ez|Q]; [exfalso|lia]. clear - Hg Ez Hmb. unfold g in Hg. rewrite Ez in Hg. unfold f_val in Hg.
    assert (Em : f_mant F 0 = 0) by (unfold f_mant; rewrite Z.div_0_l by (apply Z.pow_nonzero; lia); reflexivity). rewrite Em in Hg. change (inject_Z 0) with 0%Q in Hg. rewrite Qmult_0_l in Hg. lra. }
  split; [lia|]. unfold round_digits.
  assert (Etop : (pow 10 dp == T * K)%Q) by (unfold T, K; rewrite <- pow_Z, <- pow_plus by lia; replace (prec + k) with dp by (unfold k; lia); reflexivity).
  assert (Emid : (pow 10 (dp - 1) == inject_Z (10 ^ (prec - 1)) * K)%Q) by (unfold K; rewrite <- pow_Z, <- pow_plus by lia; replace (prec - 1 + k) with (dp - 1) by (unfold k; lia); reflexivity).
  set (S := inject_Z (10 ^ (prec - 1))) in *. assert (ETS : (T == 10 * S)%Q) by (unfold T, S; rewrite E10, inject_Z_mult; reflexivity).
  assert (HSq : (S <= inject_Z q)%Q) by (unfold S; rewrite <- Zle_Qle; lia).
  assert (HS1 : (1 <= S)%Q) by (unfold S; change 1%Q with (inject_Z 1); rewrite <- Zle_Qle; lia).
  destruct (Qlt_le_dec z S) as [L|L].
  - (* just below a power of ten *)
    assert (Eq : q = 10 ^ (prec - 1)).
    { assert (inject_Z q < inject_Z (10 ^ (prec - 1) + 1))%Q as Q by (rewrite inject_Z_plus; change (inject_Z 1) with 1%Q; fold S; lra). rewrite <- Zlt_Qlt in Q. lia. }
    assert (Hqs : (inject_Z q == S)%Q) by (unfold S; rewrite Eq; reflexivity).
    assert (Hw20 : (w * 10 < 1)%Q).
    { destruct (Qlt_le_dec (w * 10) 1) as [M|M]; [exact M|exfalso]. assert (1 * S <= (w * 10) * S)%Q by (apply Qmult_le_r; [lra|exact M]). rewrite ETS in HwT. lra. }
    assert (Elow : (pow 10 (dp - 2) == (1#10) * S * K)%Q).
    { replace (dp - 2) with (-1 + (dp - 1)) by lia. rewrite pow_plus by lia. rewrite Emid. change (pow 10 (-1)) with (1#10)%Q. ring. }
    assert (Ef : flog 10 g = dp - 2).
    { apply flog10_of; [exact Hg| |].
      - rewrite Elow, Eg. apply Qmult_le_r; [exact HK|lra].
      - replace (dp - 2 + 1) with (dp - 1) by lia. rewrite Emid, Eg. apply Qmult_lt_r; [exact HK|exact L]. }
    rewrite Ef. assert (Ez : (g * pow 10 (prec - 1 - (dp - 2)) == z * 10)%Q).
    { replace (prec - 1 - (dp - 2)) with (- k + 1) by (unfold k; lia). rewrite pow_plus by lia. fold K'. change (pow 10 1) with 10%Q. unfold z. ring. }
    assert (Er : rhe (g * pow 10 (prec - 1 - (dp - 2))) = 10 ^ prec).
    { apply rhe_near. fold T. rewrite Ez, ETS. split; lra. }
    rewrite Er, Z.eqb_refl. rewrite Eq. f_equal. lia.
  - assert (Ef : flog 10 g = dp - 1).
    { apply flog10_of; [exact Hg| |].
      - rewrite Emid, Eg. apply Qmult_le_r; [exact HK|exact L].
      - replace (dp - 1 + 1) with dp by lia. rewrite Etop, Eg. apply Qmult_lt_r; [exact HK|lra]. }
    rewrite Ef. replace (prec - 1 - (dp - 1)) with (- k) by (unfold k; lia). fold K'. fold z.
    assert (Er : rhe z = q) by (apply rhe_near; split; lra). rewrite Er. destruct (Z.eqb_spec q (10 ^ prec)); [lia|]. f_equal. lia.
Qed.
End Again.
