(** IeeeNearest.v - the conversions of Ieee.v round to the nearest float. *)
From Coq Require Import QArith Qabs Lqa.
From Verif Require Import Base RbxlValues RbxValues Tree SpecTree Ieee Declare SpecDeclare XmlFloatsProofs.
Local Open Scope Z_scope.

Lemma two_pos e : (0 < two_to e)%Q.
Proof. apply (pow_pos 2 e). lia. Qed.
Lemma two_plus e k : (two_to (e + k) == two_to e * two_to k)%Q.
Proof. apply (pow_plus 2 e k). lia. Qed.
Lemma two_Z e : 0 <= e -> (two_to e == inject_Z (2 ^ e))%Q.
Proof. apply (pow_Z 2 e). Qed.
Lemma inj_le a b : a <= b -> (inject_Z a <= inject_Z b)%Q.
Proof. now rewrite Zle_Qle. Qed.
Lemma inj_lt' a b : a < b -> (inject_Z a < inject_Z b)%Q.
Proof. now rewrite Zlt_Qlt. Qed.
Lemma scale_lt a b e : a < b -> (inject_Z a * two_to e < inject_Z b * two_to e)%Q.
Proof. intros H. apply Qmult_lt_r; [apply two_pos|now apply inj_lt']. Qed.
Lemma scale_le a b e : a <= b -> (inject_Z a * two_to e <= inject_Z b * two_to e)%Q.
Proof. intros H. apply Qmult_le_r; [apply two_pos|now apply inj_le]. Qed.

Section Format.
Variable f : format.
Hypothesis Hf : f_ok f.
Let w := 2 ^ f_mw f.
Lemma w_pos : 2 <= w.
Proof. unfold w. change 2 with (2 ^ 1) at 1. apply Z.pow_le_mono_r; [lia|apply Hf]. Qed.
Lemma w_even : Z.even w = true.
Proof. unfold w. destruct Hf as [H _]. rewrite Z.even_pow by lia. reflexivity. Qed.
Lemma ww : 2 ^ (f_mw f + 1) = 2 * w.
Proof. destruct Hf as [H _]. rewrite Z.pow_add_r by lia. fold w. lia. Qed.
Lemma magnitude_of e m : f_emin f <= e -> 0 <= m <= 2 * w -> (f_emin f < e -> w <= m) ->
  (magnitude f ((e - f_emin f) * w + m) == inject_Z m * two_to e)%Q.
Proof.
  intros He Hm Hn. pose proof w_pos as Hw. unfold magnitude. fold w. set (a := (e - f_emin f) * w + m).
  destruct (Z.ltb_spec a w) as [H|H].
  - assert (e = f_emin f) by (unfold a in H; nia). subst e. replace a with m by (unfold a; lia). reflexivity.
  - destruct (Z_lt_ge_dec m w) as [H1|H1]; [assert (e = f_emin f) by lia; subst e; unfold a in H; lia|].
    destruct (Z.eq_dec m (2 * w)) as [->|H2].
    + replace a with (0 + (e - f_emin f + 2) * w) by (unfold a; lia). rewrite Z.div_add, Z.mod_add, Z.div_small, Z.mod_small by lia.
      replace (f_emin f + (0 + (e - f_emin f + 2)) - 1) with (e + 1) by lia. rewrite two_plus. rewrite (two_Z 1) by lia. change (2 ^ 1) with 2.
      rewrite Z.add_0_r. rewrite inject_Z_mult. ring.
    + replace a with ((m - w) + (e - f_emin f + 1) * w) by (unfold a; lia). rewrite Z.div_add, Z.mod_add, Z.div_small, Z.mod_small by lia.
      replace (f_emin f + (0 + (e - f_emin f + 1)) - 1) with e by lia. replace (w + (m - w)) with m by lia. reflexivity.
Qed.
(** The exponent and significand of bits. *)
Definition exp_of a := f_emin f + Z.max (a / w - 1) 0.
Definition man_of a := a - Z.max (a / w - 1) 0 * w.
Lemma parts_of a : 0 <= a -> a = (exp_of a - f_emin f) * w + man_of a /\ f_emin f <= exp_of a /\ 0 <= man_of a < 2 * w /\ (f_emin f < exp_of a -> w <= man_of a).
Proof.
  intros Ha. pose proof w_pos as Hw. unfold exp_of, man_of. pose proof (Z.div_mod a w ltac:(lia)). pose proof (Z.mod_pos_bound a w ltac:(lia)).
  assert (0 <= a / w) by (apply Z.div_pos; lia). repeat split; nia.
Qed.
Lemma magnitude_step a : 0 <= a -> (magnitude f a < magnitude f (a + 1))%Q.
Proof.
  intros Ha. pose proof w_pos as Hw. destruct (parts_of a Ha) as (E & H1 & H2 & H3).
  assert (M0 : (magnitude f a == inject_Z (man_of a) * two_to (exp_of a))%Q) by (rewrite E at 1; apply magnitude_of; try lia; auto).
  assert (M1 : (magnitude f (a + 1) == inject_Z (man_of a + 1) * two_to (exp_of a))%Q).
  { replace (a + 1) with ((exp_of a - f_emin f) * w + (man_of a + 1)) by lia. apply magnitude_of; lia. }
  rewrite M0, M1. apply scale_lt. lia.
Qed.
Lemma magnitude_le a b : 0 <= a <= b -> (magnitude f a <= magnitude f b)%Q.
Proof.
  intros [Ha Hb]. replace b with (a + (b - a)) by lia. assert (H : 0 <= b - a) by lia. revert H. generalize (b - a) as d. apply natlike_ind.
  - rewrite Z.add_0_r. apply Qle_refl.
  - intros d Hd IH. pose proof (magnitude_step (a + d) ltac:(lia)). replace (a + Z.succ d) with (a + d + 1) by lia. lra.
Qed.
Lemma magnitude_lt a b : 0 <= a < b -> (magnitude f a < magnitude f b)%Q.
Proof. intros H. pose proof (magnitude_step a ltac:(lia)). pose proof (magnitude_le (a + 1) b ltac:(lia)). lra. Qed.
Lemma magnitude_inj a b : 0 <= a -> 0 <= b -> (magnitude f a == magnitude f b)%Q -> a = b.
Proof.
  intros Ha Hb E. destruct (Z.lt_total a b) as [H|[H|H]]; [|exact H|].
  - pose proof (magnitude_lt a b ltac:(lia)). lra.
  - pose proof (magnitude_lt b a ltac:(lia)). lra.
Qed.
Lemma nearest_choice x a0 a : 0 <= a0 -> (magnitude f a0 <= x < magnitude f (a0 + 1))%Q ->
  (a = a0 /\ (2 * x <= magnitude f a0 + magnitude f (a0 + 1))%Q \/ a = a0 + 1 /\ (magnitude f a0 + magnitude f (a0 + 1) <= 2 * x)%Q) ->
  ((2 * x == magnitude f a0 + magnitude f (a0 + 1))%Q -> Z.even a = true) ->
  nearest_bits f x (Z.min a (f_inf f)).
Proof.
  intros Ha0 Hx Hc He. assert (Hinf : 0 <= f_inf f).
  { unfold f_inf. fold w. pose proof w_pos. assert (1 <= 2 ^ f_ew f) by (change 1 with (2 ^ 0); apply Z.pow_le_mono_r; [lia|destruct Hf; lia]). nia. }
  split; [lia|]. intros b Hb. destruct (Z_lt_ge_dec a0 (f_inf f)) as [Hl|Hg].
  - replace (Z.min a (f_inf f)) with a by lia. destruct (Z_le_gt_dec b a0) as [G|G].
    + pose proof (magnitude_le b a0 ltac:(lia)) as L. rewrite (Qabs_pos (x - magnitude f b)) by lra. destruct Hc as [[-> Hc]|[-> Hc]].
      * rewrite Qabs_pos by lra. split; [lra|]. intros E. left. apply magnitude_inj; [lia|lia|lra].
      * rewrite Qabs_neg by lra. split; [lra|]. intros E. right. apply He. lra.
    + pose proof (magnitude_le (a0 + 1) b ltac:(lia)) as L. rewrite (Qabs_neg (x - magnitude f b)) by lra. destruct Hc as [[-> Hc]|[-> Hc]].
      * rewrite Qabs_pos by lra. split; [lra|]. intros E. right. apply He. lra.
      * rewrite Qabs_neg by lra. split; [lra|]. intros E. left. apply magnitude_inj; [lia|lia|lra].
  - replace (Z.min a (f_inf f)) with (f_inf f) by lia. pose proof (magnitude_le b (f_inf f) ltac:(lia)) as L. pose proof (magnitude_le (f_inf f) a0 ltac:(lia)) as L2.
    rewrite !Qabs_pos by lra. split; [lra|]. intros E. left. apply magnitude_inj; [lia|lia|lra].
Qed.
Lemma even_bits e q : Z.even ((e - f_emin f) * w + q) = Z.even q.
Proof. rewrite Z.even_add, Z.even_mul, w_even. rewrite Bool.orb_true_r. now destruct (Z.even q). Qed.
Lemma round_abs_nearest m e : 0 < m -> nearest_bits f (inject_Z m * two_to e) (round_abs f m e).
Proof.
  intros Hm. pose proof w_pos as Hw. unfold round_abs. set (e' := Z.max (bitlen m + e - (f_mw f + 1)) (f_emin f)). fold w.
  assert (Hb : bitlen m = Z.log2 m + 1) by (unfold bitlen; destruct (Z.eqb_spec m 0); lia).
  pose proof (Z.log2_spec m Hm) as Hlog. pose proof (Z.log2_nonneg m) as Hlog0. destruct Hf as [Hmw _].
  destruct (Z.leb_spec e' e) as [Hle|Hgt].
  - set (y := m * 2 ^ (e - e')). assert (P : 0 < 2 ^ (e - e')) by (apply Z.pow_pos_nonneg; lia).
    assert (Hy : y < 2 * w).
    { rewrite <- ww. unfold y. eapply Z.lt_le_trans; [apply Z.mul_lt_mono_pos_r; [exact P|apply Hlog]|]. rewrite <- Z.pow_add_r by lia. apply Z.pow_le_mono_r; [lia|]. unfold e' in *. lia. }
    assert (Hy2 : f_emin f < e' -> w <= y).
    { intros G. unfold w, y. eapply Z.le_trans; [|apply Z.mul_le_mono_nonneg_r; [lia|apply Hlog]]. rewrite <- Z.pow_add_r by lia. apply Z.pow_le_mono_r; [lia|]. unfold e' in *. lia. }
    assert (Hy0 : 0 <= y) by (unfold y; nia).
    assert (Mag : (magnitude f ((e' - f_emin f) * w + y) == inject_Z m * two_to e)%Q).
    { rewrite magnitude_of by (unfold e' in *; lia). unfold y. rewrite inject_Z_mult, <- two_Z by lia. rewrite <- Qmult_assoc, <- two_plus. now replace (e - e' + e') with e by lia. }
    assert (A0 : 0 <= (e' - f_emin f) * w + y) by (unfold e' in *; nia).
    pose proof (magnitude_step _ A0) as Hs. apply nearest_choice with (a0 := (e' - f_emin f) * w + y); [exact A0|lra| |].
    + left. split; [reflexivity|lra].
    + intros E. lra.
  - set (k := e' - e). assert (Hk : 0 < k) by (unfold k; lia). assert (P : 0 < 2 ^ k) by (apply Z.pow_pos_nonneg; lia).
    assert (Eh : 2 ^ k = 2 * 2 ^ (k - 1)) by (rewrite <- Z.pow_succ_r by lia; f_equal; lia).
    unfold div_rne. set (q := m / 2 ^ k). set (r := m mod 2 ^ k). set (hh := 2 ^ (k - 1)) in *.
    pose proof (Z.div_mod m (2 ^ k) ltac:(lia)) as Hdm. fold q r in Hdm. pose proof (Z.mod_pos_bound m (2 ^ k) P) as Hr. fold r in Hr.
    assert (Hq0 : 0 <= q) by (apply Z.div_pos; lia).
    assert (Hq : q < 2 * w).
    { rewrite <- ww. apply Z.div_lt_upper_bound; [lia|]. rewrite <- Z.pow_add_r by lia. eapply Z.lt_le_trans; [apply Hlog|]. apply Z.pow_le_mono_r; [lia|]. unfold k, e' in *. lia. }
    assert (Hq2 : f_emin f < e' -> w <= q).
    { intros G. apply Z.div_le_lower_bound; [lia|]. unfold w. rewrite <- Z.pow_add_r by lia. eapply Z.le_trans; [|apply Hlog]. apply Z.pow_le_mono_r; [lia|]. unfold k, e' in *. lia. }
    set (a0 := (e' - f_emin f) * w + q). assert (A0 : 0 <= a0) by (unfold a0, e' in *; nia).
    assert (T : (two_to e' == inject_Z (2 ^ k) * two_to e)%Q) by (rewrite <- two_Z, <- two_plus by lia; now replace (k + e) with e' by (unfold k; lia)).
    assert (M0 : (magnitude f a0 == inject_Z (q * 2 ^ k) * two_to e)%Q) by (unfold a0; rewrite magnitude_of by (unfold e' in *; lia); rewrite T, inject_Z_mult; ring).
    assert (M1 : (magnitude f (a0 + 1) == inject_Z ((q + 1) * 2 ^ k) * two_to e)%Q).
    { unfold a0. rewrite <- Z.add_assoc. rewrite magnitude_of by (unfold e' in *; lia). rewrite T, inject_Z_mult. ring. }
    assert (X0 : (magnitude f a0 <= inject_Z m * two_to e)%Q) by (rewrite M0; apply scale_le; lia).
    assert (X1 : (inject_Z m * two_to e < magnitude f (a0 + 1))%Q) by (rewrite M1; apply scale_lt; nia).
    assert (S : (magnitude f a0 + magnitude f (a0 + 1) == inject_Z ((2 * q + 1) * 2 ^ k) * two_to e)%Q).
    { rewrite M0, M1. rewrite <- Qmult_plus_distr_l, <- inject_Z_plus. now replace (q * 2 ^ k + (q + 1) * 2 ^ k) with ((2 * q + 1) * 2 ^ k) by ring. }
    assert (D : (2 * (inject_Z m * two_to e) == inject_Z (2 * m) * two_to e)%Q) by (rewrite inject_Z_mult; change (inject_Z 2) with 2%Q; ring).
    apply nearest_choice with (a0 := a0); [exact A0|split; assumption| |].
    + destruct ((hh <? r) || ((r =? hh) && Z.odd q)) eqn:Ec.
      * right. split; [unfold a0; lia|]. rewrite S, D. apply scale_le. nia.
      * left. split; [reflexivity|]. rewrite S, D. apply scale_le. nia.
    + rewrite S, D. intros E. assert (E2 : 2 * m = (2 * q + 1) * 2 ^ k).
      { destruct (Z.lt_total (2 * m) ((2 * q + 1) * 2 ^ k)) as [G|[G|G]]; [|exact G|]; apply (scale_lt _ _ e) in G; lra. }
      assert (Er : r = hh) by nia. rewrite Er. rewrite Z.ltb_irrefl, Z.eqb_refl. cbn [orb andb]. rewrite <- Z.negb_even.
      destruct (Z.even q) eqn:Eq; cbn [negb]; rewrite even_bits; [exact Eq|]. rewrite Z.even_add, Eq. reflexivity.
Qed.
Lemma f_round_nearest (neg : bool) m e : 0 <= m -> let s := (if neg then - 1 else 1)%Q in
  nearest f (s * (inject_Z m * two_to e)) (f_round f neg m e).
Proof.
  intros Hm s. unfold f_round, with_sign. assert (Hsb : sign_bit f = 2 ^ f_bits f) by reflexivity.
  assert (Hx : (0 <= inject_Z m * two_to e)%Q) by (apply Qmult_le_0_compat; [now apply (inj_le 0 m)|apply Qlt_le_weak, two_pos]).
  exists (if m =? 0 then 0 else round_abs f m e). split.
  - assert (Hab : (Qabs (s * (inject_Z m * two_to e)) == inject_Z m * two_to e)%Q) by (unfold s; destruct neg; [rewrite Qabs_neg by lra; ring|rewrite Qabs_pos by lra; ring]).
    assert (Main : nearest_bits f (inject_Z m * two_to e) (if m =? 0 then 0 else round_abs f m e)).
    { destruct (Z.eqb_spec m 0) as [->|Hne]; [|apply round_abs_nearest; lia].
      assert (Hinf : 0 <= f_inf f).
      { unfold f_inf. fold w. pose proof w_pos. assert (1 <= 2 ^ f_ew f) by (change 1 with (2 ^ 0); apply Z.pow_le_mono_r; [lia|destruct Hf; lia]). nia. }
      assert (M0 : (magnitude f 0 == 0)%Q) by (unfold magnitude; fold w; pose proof w_pos; destruct (Z.ltb_spec 0 w); [ring|lia]).
      split; [lia|]. intros b Hb. change (inject_Z 0) with 0%Q. setoid_replace (0 * two_to e - magnitude f 0)%Q with 0%Q by (rewrite M0; ring). cbn [Qabs]. split.
      - apply Qabs_nonneg.
      - now right. }
    destruct Main as [R Main]. split; [exact R|]. intros b Hb. destruct (Main b Hb) as [A B]. rewrite Hab. split; [exact A|exact B].
  - destruct neg; unfold s.
    + right. split; [lra|]. reflexivity.
    + left. split; [lra|]. reflexivity.
Qed.
(** The number bits stand for. *)
Lemma f_real_word n x : f_real f n = Some x -> f_word f n.
Proof.
  unfold f_real. destruct (_ && _) eqn:E; [|discriminate]. intros _. unfold f_word. rewrite Z.pow_add_r by (destruct Hf; unfold f_bits; lia). fold (f_bits f).
  change (sign_bit f) with (2 ^ f_bits f) in E. lia.
Qed.
Lemma f_real_decode n x : f_real f n = Some x -> exists neg m e, f_decode f n = Finite neg m e /\ 0 <= m /\
  (x == (if neg then - 1 else 1) * (inject_Z m * two_to e))%Q.
Proof.
  intros H. pose proof (f_real_word n x H) as Hwd. revert H. unfold f_real. change (sign_bit f) with (2 ^ f_bits f). fold (f_abs f n).
  destruct (_ && _) eqn:E; [|discriminate]. intros H. assert (Ha : f_abs f n < f_inf f) by lia.
  assert (Hp : 0 < 2 ^ f_bits f) by (apply Z.pow_pos_nonneg; destruct Hf; unfold f_bits; lia).
  assert (Ha0 : 0 <= f_abs f n) by (apply Z.mod_pos_bound; exact Hp).
  destruct (parts_of _ Ha0) as (Ea & H1 & H2 & H3). pose proof ww as Hww.
  assert (Hc : canonical f (man_of (f_abs f n)) (exp_of (f_abs f n))).
  { split; [lia|]. split; [exact H1|]. fold w. rewrite Hww. destruct (Z.eq_dec (exp_of (f_abs f n)) (f_emin f)) as [G|G]; [|right; split; [apply H3; lia|lia]].
    destruct (Z_lt_ge_dec (man_of (f_abs f n)) w); [left; split; assumption|right; lia]. }
  assert (Hn : f_decode f n = Finite (f_neg f n) (man_of (f_abs f n)) (exp_of (f_abs f n))).
  { rewrite <- (with_sign_parts f n Hf Hwd) at 1. rewrite Ea at 1. apply decode_with_sign; [exact Hf|exact Hc|]. fold w. rewrite <- Ea. exact Ha. }
  eexists _, _, _. split; [exact Hn|]. split; [lia|].
  assert (M : (magnitude f (f_abs f n) == inject_Z (man_of (f_abs f n)) * two_to (exp_of (f_abs f n)))%Q) by (rewrite Ea at 1; apply magnitude_of; try lia; auto).
  assert (Hs : f_neg f n = (2 ^ f_bits f <=? Z.of_N n)).
  { unfold f_neg. unfold f_word in Hwd. rewrite Z.pow_add_r in Hwd by (destruct Hf; unfold f_bits; lia). fold (f_bits f) in Hwd. change (2 ^ 1) with 2 in Hwd.
    destruct (Z.leb_spec (2 ^ f_bits f) (Z.of_N n)) as [G|G].
    - rewrite <- (Z.div_unique (Z.of_N n) (2 ^ f_bits f) 1 (Z.of_N n - 2 ^ f_bits f)); [reflexivity|left; lia|lia].
    - rewrite Z.div_small by lia. reflexivity. }
  rewrite Hs. apply (f_equal (fun o => match o with Some x => x | None => 0%Q end)) in H. cbn beta iota in H. rewrite <- H.
  destruct (2 ^ f_bits f <=? Z.of_N n); rewrite M; ring.
Qed.
Lemma decode_f_real n neg m e : f_word f n -> f_decode f n = Finite neg m e ->
  exists x, f_real f n = Some x /\ (x == (if neg then - 1 else 1) * (inject_Z m * two_to e))%Q.
Proof.
  intros Hn D. destruct (decode_finite f n neg m e Hf Hn D) as (_ & _ & _ & Hlt).
  destruct (f_real f n) as [x|] eqn:E.
  - exists x. split; [reflexivity|]. destruct (f_real_decode n x E) as (neg' & m' & e' & D' & _ & X). rewrite D in D'. injection D' as <- <- <-. exact X.
  - exfalso. unfold f_real in E. change (sign_bit f) with (2 ^ f_bits f) in E. fold (f_abs f n) in E. unfold f_word in Hn.
    rewrite Z.pow_add_r in Hn by (destruct Hf; unfold f_bits; lia). fold (f_bits f) in Hn. change (2 ^ 1) with 2 in Hn.
    destruct (Z.ltb_spec (f_abs f n) (f_inf f)); [|lia]. destruct (Z.ltb_spec (Z.of_N n) (2 * 2 ^ f_bits f)); [|lia]. discriminate E.
Qed.
Lemma f_trunc_truncated n x : f_real f n = Some x -> exists z, f_trunc f n = Some z /\ truncated x z.
Proof.
  intros H. destruct (f_real_decode n x H) as (neg & m & e & D & Hm & X). unfold f_trunc. rewrite D. eexists. split; [reflexivity|].
  set (a := if 0 <=? e then m * 2 ^ e else m / 2 ^ (- e)).
  assert (A : (inject_Z a <= inject_Z m * two_to e < inject_Z a + 1)%Q /\ 0 <= a).
  { unfold a. destruct (Z.leb_spec 0 e) as [G|G].
    - rewrite two_Z by exact G. rewrite <- inject_Z_mult. pose proof (Z.pow_pos_nonneg 2 e). split; [split; [apply Qle_refl|lra]|nia].
    - assert (P : 0 < 2 ^ (- e)) by (apply Z.pow_pos_nonneg; lia). pose proof (Z.div_mod m (2 ^ (- e)) ltac:(lia)) as Hdm. pose proof (Z.mod_pos_bound m _ P) as Hr.
      set (q := m / 2 ^ (- e)) in *. set (r := m mod 2 ^ (- e)) in *. assert (Hq : 0 <= q) by (apply Z.div_pos; lia).
      assert (One : (inject_Z (2 ^ (- e)) * two_to e == 1)%Q) by (rewrite <- two_Z, <- two_plus by lia; replace (- e + e) with 0 by lia; reflexivity).
      split; [|exact Hq]. rewrite Hdm.
      assert (E1 : (inject_Z (2 ^ (- e) * q + r) * two_to e == inject_Z q + inject_Z r * two_to e)%Q).
      { rewrite inject_Z_plus, inject_Z_mult. setoid_replace ((inject_Z (2 ^ (- e)) * inject_Z q + inject_Z r) * two_to e)%Q with
          (inject_Z q * (inject_Z (2 ^ (- e)) * two_to e) + inject_Z r * two_to e)%Q by ring. rewrite One. ring. }
      rewrite E1. pose proof (scale_le 0 r e ltac:(lia)) as R1. pose proof (scale_lt r (2 ^ (- e)) e ltac:(lia)) as R2. rewrite One in R2. change (inject_Z 0) with 0%Q in R1. split; lra. }
  destruct A as [[A1 A2] A3]. apply (inj_le 0 a) in A3. change (inject_Z 0) with 0%Q in A3.
  destruct neg; [|split; intros G; split; lra]. split; intros G; rewrite inject_Z_opp; split; lra.
Qed.
Lemma truncated_unique x z z' : truncated x z -> truncated x z' -> z = z'.
Proof.
  intros [A B] [C D]. destruct (Qlt_le_dec x 0) as [G|G].
  - specialize (B ltac:(lra)). specialize (D ltac:(lra)). assert (inject_Z z < inject_Z (z' + 1))%Q by (rewrite inject_Z_plus; change (inject_Z 1) with 1%Q; lra).
    assert (inject_Z z' < inject_Z (z + 1))%Q by (rewrite inject_Z_plus; change (inject_Z 1) with 1%Q; lra). rewrite <- Zlt_Qlt in *. lia.
  - specialize (A G). specialize (C G). assert (inject_Z z < inject_Z (z' + 1))%Q by (rewrite inject_Z_plus; change (inject_Z 1) with 1%Q; lra).
    assert (inject_Z z' < inject_Z (z + 1))%Q by (rewrite inject_Z_plus; change (inject_Z 1) with 1%Q; lra). rewrite <- Zlt_Qlt in *. lia.
Qed.
(** The nearest float is unique, apart from the sign of zero. *)
Lemma nearest_bits_unique x a b : nearest_bits f x a -> nearest_bits f x b -> a = b.
Proof.
  intros [A HA] [B HB]. destruct (HA b B) as [A1 A2]. destruct (HB a A) as [B1 B2]. assert (E : (Qabs (x - magnitude f a) == Qabs (x - magnitude f b))%Q) by lra.
  destruct (A2 E) as [->|Ea]; [reflexivity|]. destruct (B2 (Qeq_sym _ _ E)) as [->|Eb]; [reflexivity|].
  destruct (Z.eq_dec a b) as [|Hne]; [assumption|exfalso].
  (* the odd number between them is nearer *)
  assert (G : forall a b, 0 <= a -> a + 1 < b -> b <= f_inf f -> (Qabs (x - magnitude f a) == Qabs (x - magnitude f b))%Q ->
    (Qabs (x - magnitude f a) <= Qabs (x - magnitude f (a + 1)))%Q -> False).
  { clear - Hf w. intros a b Ha Hl Hb E L. pose proof (magnitude_lt a (a + 1) ltac:(lia)). pose proof (magnitude_lt (a + 1) b ltac:(lia)). revert E L.
    apply (Qabs_case (x - magnitude f a)); intros G1; apply (Qabs_case (x - magnitude f b)); intros G2; apply (Qabs_case (x - magnitude f (a + 1))); intros G3 E L; lra. }
  destruct (Z_lt_ge_dec a b) as [L|L].
  - assert (a + 1 <> b) by (intros <-; rewrite Z.even_add, Ea in Eb; discriminate). apply (G a b); try lia; [exact E|]. apply HA. lia.
  - assert (b + 1 <> a) by (intros <-; rewrite Z.even_add, Eb in Ea; discriminate). apply (G b a); try lia; [symmetry; exact E|]. apply HB. lia.
Qed.
End Format.
