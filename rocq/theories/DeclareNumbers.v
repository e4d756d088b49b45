(** DeclareNumbers.v - the number conversions of the declare package. *)
From Coq Require Import QArith Qabs Lqa.
From Verif Require Import Base RbxlValues RbxValues Tree SpecTree SpecValues Ieee Declare SpecDeclare IeeeNearest.
Local Open Scope Z_scope.

Section Any.
Variable f : format.
Hypothesis Hf : f_ok f.
Lemma bits_pos : 0 < 2 ^ f_bits f.
Proof. apply Z.pow_pos_nonneg; destruct Hf; unfold f_bits; lia. Qed.
Lemma inf_bits : 0 < f_inf f < 2 ^ f_bits f.
Proof.
  destruct Hf. unfold f_inf, f_bits. rewrite Z.pow_add_r by lia. pose proof (Z.pow_pos_nonneg 2 (f_mw f)).
  assert (4 <= 2 ^ f_ew f) by (change 4 with (2 ^ 2); apply Z.pow_le_mono_r; lia). nia.
Qed.
Lemma nearest_comp x y n : (x == y)%Q -> nearest f x n -> nearest f y n.
Proof.
  intros E (a & [A HA] & B). exists a. split.
  - split; [exact A|]. intros b Hb. destruct (HA b Hb). assert (EE : (Qabs x == Qabs y)%Q) by now rewrite E. rewrite <- EE. split; assumption.
  - destruct B as [[B1 B2]|[B1 B2]]; [left|right]; split; try assumption; lra.
Qed.
Lemma nearest_unique x n n' : ~ (x == 0)%Q -> nearest f x n -> nearest f x n' -> n = n'.
Proof.
  intros Hx (a & A & B) (a' & A' & B'). assert (a = a') by (eapply nearest_bits_unique; eassumption). subst a'.
  destruct B as [[B1 B2]|[B1 B2]], B' as [[C1 C2]|[C1 C2]]; try congruence; exfalso; apply Hx; lra.
Qed.
Lemma f_real_parts n x : f_real f n = Some x -> exists (neg : bool) a, n = with_sign f neg a /\ 0 <= a < f_inf f /\
  (x == (if neg then - 1 else 1) * magnitude f a)%Q.
Proof.
  unfold f_real. change (sign_bit f) with (2 ^ f_bits f). destruct (_ && _) eqn:E; [|discriminate]. intros H.
  apply (f_equal (fun o => match o with Some x => x | None => 0%Q end)) in H. cbn beta iota in H.
  pose proof bits_pos as P. pose proof (Z.mod_pos_bound (Z.of_N n) (2 ^ f_bits f) P) as R.
  destruct (Z.leb_spec (2 ^ f_bits f) (Z.of_N n)) as [G|G].
  - exists true, (Z.of_N n mod 2 ^ f_bits f). split; [|split; [lia|rewrite <- H; ring]].
    unfold with_sign. rewrite <- (Z.mod_unique (Z.of_N n) (2 ^ f_bits f) 1 (Z.of_N n - 2 ^ f_bits f)); lia.
  - exists false, (Z.of_N n mod 2 ^ f_bits f). split; [|split; [lia|rewrite <- H; ring]].
    unfold with_sign. rewrite Z.mod_small by lia. lia.
Qed.
Lemma magnitude_0 : (magnitude f 0 == 0)%Q.
Proof. unfold magnitude. pose proof (w_pos f Hf). destruct (Z.ltb_spec 0 (2 ^ f_mw f)); [ring|lia]. Qed.
Lemma magnitude_nonneg a : 0 <= a -> (0 <= magnitude f a)%Q.
Proof. intros H. pose proof magnitude_0. pose proof (magnitude_le f Hf 0 a ltac:(lia)). lra. Qed.
Lemma magnitude_zero a : 0 <= a -> (magnitude f a == 0)%Q -> a = 0.
Proof. intros H E. apply (magnitude_inj f Hf); [lia|lia|]. rewrite E. symmetry. apply magnitude_0. Qed.
Lemma f_real_inj n n' x y : f_real f n = Some x -> f_real f n' = Some y -> (x == y)%Q -> ~ (x == 0)%Q -> n = n'.
Proof.
  intros H H' E Hx. destruct (f_real_parts n x H) as (neg & a & -> & A & X). destruct (f_real_parts n' y H') as (neg' & a' & -> & A' & Y).
  pose proof (magnitude_nonneg a ltac:(lia)). pose proof (magnitude_nonneg a' ltac:(lia)).
  assert (neg = neg' /\ (magnitude f a == magnitude f a')%Q) as [-> Em]; [|now rewrite (magnitude_inj f Hf a a' ltac:(lia) ltac:(lia) Em)].
  destruct neg, neg'; split; try reflexivity; try lra; exfalso; apply Hx; lra.
Qed.
Lemma f_real_zero n x : f_real f n = Some x -> (x == 0)%Q -> exists neg, f_decode f n = Finite neg 0 (f_emin f) /\ n = with_sign f neg 0 /\ neg = negb (n =? 0)%N.
Proof.
  intros H E. destruct (f_real_parts n x H) as (neg & a & -> & A & X). exists neg.
  assert (a = 0) by (apply magnitude_zero; [lia|]; destruct neg; lra). subst a. split; [now apply decode_zero|]. split; [reflexivity|].
  pose proof bits_pos. unfold with_sign. destruct neg; cbn [negb]; destruct (N.eqb_spec (Z.to_N ((if true then 2 ^ f_bits f else 0) + 0)) 0); lia || reflexivity.
Qed.
Lemma f_real_nonzero n x neg m e : f_real f n = Some x -> f_decode f n = Finite neg m e -> m = 0 -> (x == 0)%Q.
Proof. intros H D ->. destruct (f_real_decode f Hf n x H) as (neg' & m' & e' & D' & _ & X). rewrite D in D'. injection D' as <- <- <-. rewrite X. destruct neg; ring. Qed.
Lemma f_word_infinity neg : f_word f (infinity f neg) /\ f_decode f (infinity f neg) = Inf neg.
Proof.
  pose proof inf_bits as I. change (infinity f neg) with (with_sign f neg (f_inf f)). destruct (parts_with_sign f neg (f_inf f) Hf ltac:(lia)) as (P1 & P2 & P3).
  split; [exact P3|]. unfold f_decode. fold (f_neg f (with_sign f neg (f_inf f))). fold (f_abs f (with_sign f neg (f_inf f))). rewrite P1, P2. unfold f_inf.
  pose proof (w_pos f Hf). rewrite Z.div_mul, Z.mod_mul by lia. rewrite !Z.eqb_refl. reflexivity.
Qed.
End Any.

(** ** Integers *)
Lemma s_wrap_spec n x : 1 <= n -> - 2 ^ (n - 1) <= s_wrap n x < 2 ^ (n - 1) /\ (x - s_wrap n x) mod 2 ^ n = 0.
Proof.
  intros Hn. unfold s_wrap. assert (E : 2 ^ n = 2 * 2 ^ (n - 1)) by (rewrite <- Z.pow_succ_r by lia; f_equal; lia).
  assert (P : 0 < 2 ^ (n - 1)) by (apply Z.pow_pos_nonneg; lia). pose proof (Z.mod_pos_bound x (2 ^ n) ltac:(lia)) as R. pose proof (Z.div_mod x (2 ^ n) ltac:(lia)) as D.
  destruct (Z.ltb_spec (x mod 2 ^ n) (2 ^ (n - 1))).
  - split; [lia|]. replace (x - x mod 2 ^ n) with ((x / 2 ^ n) * 2 ^ n) by lia. apply Z.mod_mul. lia.
  - split; [lia|]. replace (x - (x mod 2 ^ n - 2 ^ n)) with ((x / 2 ^ n + 1) * 2 ^ n) by lia. apply Z.mod_mul. lia.
Qed.
Lemma wrap_unique lo n x z z' : 0 <= n -> lo <= z < lo + 2 ^ n -> lo <= z' < lo + 2 ^ n ->
  (x - z) mod 2 ^ n = 0 -> (x - z') mod 2 ^ n = 0 -> z = z'.
Proof.
  intros Hn Hz Hz' E E'. assert (P : 0 < 2 ^ n) by (apply Z.pow_pos_nonneg; lia).
  apply Z.mod_divide in E, E'; [|lia|lia]. destruct E as [a E], E' as [b E']. assert (z' - z = (a - b) * 2 ^ n) by lia. assert (a - b = 0) by nia. lia.
Qed.
Section Conv.
Variable other : format -> Z -> Z -> N -> Z.
Lemma f_to_int_spec f lo hi o n x z : f_ok f -> f_real f n = Some x -> truncated x z -> lo <= z <= hi -> f_to_int f lo hi o n = z.
Proof.
  intros Hf R T B. destruct (f_trunc_truncated f Hf n x R) as (z' & E & T'). assert (z' = z) by (eapply truncated_unique; eassumption). subst z'.
  unfold f_to_int. rewrite E. destruct (Z.leb_spec lo z), (Z.leb_spec z hi); cbn [andb]; lia || reflexivity.
Qed.
Lemma signed_norm n v z : 1 <= n -> signed n v z -> norm (s_wrap n) (s_of other F32 n) (s_of other F64 n) 0 v = z.
Proof.
  intros Hn. assert (E2 : - 2 ^ (n - 1) + 2 ^ n = 2 ^ (n - 1)) by (replace (2 ^ n) with (2 * 2 ^ (n - 1)) by (rewrite <- Z.pow_succ_r by lia; f_equal; lia); lia).
  intros [k x z' B E|f x z' R T B|f x z' R T B].
  - destruct (s_wrap_spec n x Hn) as [W1 W2]. assert (s_wrap n x = z') by (eapply wrap_unique with (lo := - 2 ^ (n - 1)) (n := n) (x := x); try assumption; lia).
    now destruct k.
  - cbn [norm]. eapply f_to_int_spec; try eassumption; [apply F32_ok|lia].
  - cbn [norm]. eapply f_to_int_spec; try eassumption; [apply F64_ok|lia].
Qed.
Lemma unsigned_norm n v z : 0 <= n -> unsigned n v z -> norm (u_wrap n) (u_of other F32 n) (u_of other F64 n) 0 v = z.
Proof.
  intros Hn [k x z' B E|f x z' R T B|f x z' R T B].
  - assert (P : 0 < 2 ^ n) by (apply Z.pow_pos_nonneg; lia). pose proof (Z.mod_pos_bound x (2 ^ n) P). pose proof (Z.div_mod x (2 ^ n) ltac:(lia)).
    assert (u_wrap n x = z'); [|now destruct k].
    eapply wrap_unique with (lo := 0) (n := n) (x := x); try assumption; unfold u_wrap; try lia.
    replace (x - x mod 2 ^ n) with ((x / 2 ^ n) * 2 ^ n) by lia. apply Z.mod_mul. lia.
  - cbn [norm]. eapply f_to_int_spec; try eassumption; [apply F32_ok|lia].
  - cbn [norm]. eapply f_to_int_spec; try eassumption; [apply F64_ok|lia].
Qed.
Lemma normUint8_spec v z : unsigned 8 v z -> normUint8 other v = N2b (Z.to_N z).
Proof. intros H. unfold normUint8. now rewrite (unsigned_norm 8 v z ltac:(lia) H). Qed.
Lemma normInt16_spec v z : signed 16 v z -> normInt16 other v = z.
Proof. apply signed_norm. lia. Qed.
Lemma normInt32_spec v z : signed 32 v z -> normInt32 other v = z.
Proof. apply signed_norm. lia. Qed.
Lemma normInt64_spec v z : signed 64 v z -> normInt64 other v = z.
Proof. apply signed_norm. lia. Qed.
Lemma normUint32_spec v z : unsigned 32 v z -> normUint32 other v = Z.to_N z.
Proof. intros H. unfold normUint32. now rewrite (unsigned_norm 32 v z ltac:(lia) H). Qed.
End Conv.

(** ** Floats *)
Lemma of_Z_nearest f z : f_ok f -> nearest f (inject_Z z) (f_round f (z <? 0) (Z.abs z) 0) /\ (z = 0 -> f_round f (z <? 0) (Z.abs z) 0 = 0%N).
Proof.
  intros Hf. split.
  - eapply nearest_comp; [|apply (f_round_nearest f Hf (z <? 0) (Z.abs z) 0); lia].
    change (two_to 0) with 1%Q. destruct (Z.ltb_spec z 0).
    + replace (Z.abs z) with (- z) by lia. rewrite inject_Z_opp. ring.
    + replace (Z.abs z) with z by lia. ring.
  - intros ->. reflexivity.
Qed.
Lemma inj_zero z : (inject_Z z == 0)%Q -> z = 0.
Proof. intros H. unfold Qeq in H. cbn in H. lia. Qed.
Lemma of_Z_unique f z g : f_ok f -> nearest f (inject_Z z) g -> (z = 0 -> g = 0%N) -> f_round f (z <? 0) (Z.abs z) 0 = g.
Proof.
  intros Hf N Z0. destruct (of_Z_nearest f z Hf) as [N' Z0']. destruct (Z.eq_dec z 0) as [E|E].
  - rewrite Z0' by exact E. symmetry. now apply Z0.
  - eapply nearest_unique; [exact Hf| |exact N'|exact N]. intros H. apply E. now apply inj_zero.
Qed.
Lemma norm_int {A} (i : Z -> A) a b c k z : norm i a b c (DInt k z) = i z.
Proof. now destruct k. Qed.
Lemma convert_nearest f g n x : f_ok f -> f_ok g -> f_real f n = Some x -> nearest g x (f_convert f g n) /\
  ((x == 0)%Q -> f_convert f g n = with_sign g (negb (n =? 0)%N) 0).
Proof.
  intros Hf Hg R. split.
  - destruct (f_real_decode f Hf n x R) as (neg & m & e & D & Hm & X). unfold f_convert. rewrite D.
    eapply nearest_comp; [|apply (f_round_nearest g Hg neg m e Hm)]. symmetry. exact X.
  - intros E. destruct (f_real_zero f Hf n x R E) as (neg & D & _ & <-). unfold f_convert. rewrite D. reflexivity.
Qed.
Lemma normFloat32_spec v g : single v g -> normFloat32 v = g.
Proof.
  intros [f|k z g' N Z0|f x g' R N Z0|neg].
  - reflexivity.
  - unfold normFloat32. rewrite norm_int. apply of_Z_unique; [apply F32_ok|exact N|exact Z0].
  - change (f32_of_f64 f = g'). destruct (convert_nearest F64 F32 f x F64_ok F32_ok R) as [N' Z0']. change (f_convert F64 F32 f) with (f32_of_f64 f) in *.
    destruct (Qeq_dec x 0) as [E|E].
    + rewrite Z0', Z0 by exact E. destruct (f =? 0)%N; reflexivity.
    + eapply nearest_unique; [apply F32_ok|exact E|exact N'|exact N].
  - change (f32_of_f64 (infinity F64 neg) = infinity F32 neg). now destruct neg.
Qed.
Lemma f64_of_f32_real f x : f_real F32 f = Some x -> exists y, f_real F64 (f64_of_f32 f) = Some y /\ (x == y)%Q.
Proof.
  intros R. destruct (f_real_decode F32 F32_ok f x R) as (neg & m & e & D & Hm & X). unfold f64_of_f32, f_convert. rewrite D.
  destruct (decode_finite F32 f neg m e F32_ok (f_real_word F32 F32_ok f x R) D) as (_ & (C1 & C2 & C3) & Ea & Hlt).
  change (f_emin F32) with (-149) in *. change (f_mw F32) with 23 in *. change (f_inf F32) with 2139095040 in *. change (2 ^ 23) with 8388608 in *. change (2 ^ (23 + 1)) with 16777216 in *.
  assert (Hb : bitlen m <= 24) by (apply bitlen_le; lia). assert (He : e <= 104) by lia.
  assert (Hw : f_word F64 (f_round F64 neg m e)).
  { unfold f_round. apply (parts_with_sign F64 neg); [apply F64_ok|]. pose proof (inf_bits F64 F64_ok) as I. destruct (Z.eqb_spec m 0); [lia|].
    destruct (round_abs_nearest F64 F64_ok m e ltac:(lia)) as [B _]. lia. }
  destruct (decode_round F64 neg m e F64_ok Hm ltac:(cbn; lia) ltac:(cbn; lia) ltac:(cbn; lia)) as (k & e' & Hk & D' & Ee).
  destruct (decode_f_real F64 F64_ok _ _ _ _ Hw D') as (y & Ry & Y). exists y. split; [exact Ry|]. rewrite X, Y.
  destruct Ee as [-> | ->]; [rewrite Z.mul_0_l; destruct neg; ring|].
  assert (E : (inject_Z (m * 2 ^ k) * two_to (e - k) == inject_Z m * two_to e)%Q).
  { rewrite inject_Z_mult, <- two_Z by exact Hk. rewrite <- Qmult_assoc, <- two_plus. now replace (k + (e - k)) with e by lia. }
  rewrite E. reflexivity.
Qed.
Lemma normFloat64_spec v g : double v g -> normFloat64 v = g.
Proof.
  intros [f|k z g' N Z0|f x g' y R R' E Z0|neg].
  - reflexivity.
  - unfold normFloat64. rewrite norm_int. apply of_Z_unique; [apply F64_ok|exact N|exact Z0].
  - change (f64_of_f32 f = g'). destruct (f64_of_f32_real f x R) as (y' & Ry & Y). destruct (Qeq_dec x 0) as [E0|E0].
    + destruct (convert_nearest F32 F64 f x F32_ok F64_ok R) as [_ Z0']. change (f_convert F32 F64 f) with (f64_of_f32 f) in *. rewrite Z0', Z0 by exact E0. destruct (f =? 0)%N; reflexivity.
    + eapply (f_real_inj F64 F64_ok _ _ y' y); [exact Ry|exact R'|now rewrite <- Y|]. now rewrite <- Y.
  - change (f64_of_f32 (infinity F32 neg) = infinity F64 neg). now destruct neg.
Qed.

(** ** Every number is converted *)
Definition fits (v : dval) : Prop :=
  match v with DFloat32 f => f_word F32 f | DFloat64 f => f_word F64 f | _ => True end.
Definition not_nan (v : dval) : Prop :=
  match v with DFloat32 f => f_isnan F32 f = false | DFloat64 f => f_isnan F64 f = false | _ => True end.
Lemma real_or_inf f n : f_ok f -> f_word f n -> f_isnan f n = false -> (exists x, f_real f n = Some x) \/ exists neg, n = infinity f neg.
Proof.
  intros Hf Hw Hn. unfold f_isnan in Hn. destruct (f_decode f n) as [neg m e|neg|neg p] eqn:D; [| |discriminate].
  - left. destruct (decode_f_real f Hf n neg m e Hw D) as (x & Hx & _). eauto.
  - right. exists neg. change (infinity f neg) with (with_sign f neg (f_inf f)). rewrite <- (with_sign_parts f n Hf Hw).
    unfold f_decode in D. fold (f_neg f n) in D. fold (f_abs f n) in D. pose proof (w_pos f Hf). pose proof (Z.div_mod (f_abs f n) (2 ^ f_mw f) ltac:(lia)) as Hdm.
    destruct (Z.eqb_spec (f_abs f n / 2 ^ f_mw f) (2 ^ f_ew f - 1)) as [E1|E1]; [|destruct (f_abs f n / 2 ^ f_mw f =? 0); discriminate].
    destruct (Z.eqb_spec (f_abs f n mod 2 ^ f_mw f) 0) as [E2|E2]; [|discriminate]. injection D as ->. f_equal. unfold f_inf. rewrite E1, E2 in Hdm. lia.
Qed.
Lemma single_total v : number v -> fits v -> not_nan v -> exists g, single v g.
Proof.
  destruct v as [k z|f|f| | | | | | | |]; cbn [number fits not_nan]; try contradiction; intros _ Hw Hn.
  - destruct (of_Z_nearest F32 z F32_ok) as [N Z0]. eauto using single.
  - eauto using single.
  - destruct (real_or_inf F64 f F64_ok Hw Hn) as [[x R]|[neg ->]]; [|eauto using single].
    destruct (convert_nearest F64 F32 f x F64_ok F32_ok R) as [N Z0]. exists (f32_of_f64 f). eapply si_f64; [exact R|exact N|].
    intros E. unfold f32_of_f64. rewrite Z0 by exact E. now destruct (f =? 0)%N.
Qed.
Lemma double_total v : number v -> fits v -> not_nan v -> exists g, double v g.
Proof.
  destruct v as [k z|f|f| | | | | | | |]; cbn [number fits not_nan]; try contradiction; intros _ Hw Hn.
  - destruct (of_Z_nearest F64 z F64_ok) as [N Z0]. eauto using double.
  - destruct (real_or_inf F32 f F32_ok Hw Hn) as [[x R]|[neg ->]]; [|eauto using double].
    destruct (f64_of_f32_real f x R) as (y & Ry & Y). exists (f64_of_f32 f). eapply do_f32; [exact R|exact Ry|exact Y|].
    intros E. destruct (convert_nearest F32 F64 f x F32_ok F64_ok R) as [_ Z0]. unfold f64_of_f32. rewrite Z0 by exact E. now destruct (f =? 0)%N.
  - eauto using double.
Qed.
(** A NaN stays one. *)
Lemma nan_stays f : (f_word F64 f -> f_isnan F64 f = true -> f_isnan F32 (f32_of_f64 f) = true) /\
  (f_word F32 f -> f_isnan F32 f = true -> f_isnan F64 (f64_of_f32 f) = true).
Proof.
  assert (G : forall F p (neg : bool), f_ok F -> 0 <= p < 2 ^ f_mw F -> 0 < p -> f_isnan F (with_sign F neg (f_inf F + p)) = true).
  { intros F p neg HF Hp H0. pose proof (w_pos F HF). assert (Hb : 0 <= f_inf F + p < 2 ^ f_bits F).
    { pose proof (inf_bits F HF). unfold f_inf, f_bits in *. destruct HF. rewrite Z.pow_add_r in * by lia. nia. }
    destruct (parts_with_sign F neg (f_inf F + p) HF Hb) as (P1 & P2 & _). unfold f_isnan, f_decode. fold (f_neg F (with_sign F neg (f_inf F + p))). fold (f_abs F (with_sign F neg (f_inf F + p))).
    rewrite P1, P2. unfold f_inf. rewrite Z.add_comm, Z.div_add, Z.mod_add, Z.div_small, Z.mod_small by lia. rewrite Z.add_0_l, Z.eqb_refl. destruct (Z.eqb_spec p 0); [lia|reflexivity]. }
  assert (L : forall p k, 0 <= p < 2 ^ (k + 1) -> 0 <= k -> 0 < Z.lor p (2 ^ k) < 2 ^ (k + 1)).
  { intros p k Hp Hk. pose proof (Z.pow_pos_nonneg 2 k ltac:(lia) Hk). assert (N0 : 0 <= Z.lor p (2 ^ k)) by (apply Z.lor_nonneg; lia).
    assert (N1 : Z.lor p (2 ^ k) <> 0) by (intros E; apply Z.lor_eq_0_iff in E; lia). split; [lia|].
    apply Z.log2_lt_pow2; [lia|]. rewrite Z.log2_lor by lia. rewrite Z.log2_pow2 by lia. destruct (Z.eq_dec p 0) as [->|]; [cbn; lia|]. pose proof (Z.log2_lt_pow2 p (k + 1)). lia. }
  assert (Pay : forall F n neg p, f_ok F -> f_decode F n = NaN neg p -> 0 <= p < 2 ^ f_mw F).
  { intros F n neg p HF. unfold f_decode. pose proof (w_pos F HF). pose proof (Z.mod_pos_bound (Z.of_N n mod 2 ^ f_bits F) (2 ^ f_mw F) ltac:(lia)).
    destruct (_ =? _); [destruct (_ =? 0) eqn:E; [discriminate|]|destruct (_ =? 0); discriminate]. intros HH. injection HH as _ <-. assumption. }
  split; intros _ H; unfold f_isnan in H; unfold f32_of_f64, f64_of_f32, f_convert.
  - destruct (f_decode F64 f) as [| |neg p] eqn:D; try discriminate. apply (Pay F64 _ _ _ F64_ok) in D. change (f_mw F64) with 52 in *. change (f_mw F32) with 23. cbn [Z.leb Z.compare Pos.compare Pos.compare_cont].
    pose proof (L (p / 2 ^ (52 - 23)) 22) as L'. assert (0 <= p / 2 ^ (52 - 23) < 2 ^ (22 + 1)) by (split; [apply Z.div_pos; lia|apply Z.div_lt_upper_bound; cbn in *; lia]).
    specialize (L' ltac:(assumption) ltac:(lia)). apply G; [apply F32_ok| |]; change (f_mw F32) with 23; change (23 - 1) with 22; cbn [Z.add] in *; lia.
  - destruct (f_decode F32 f) as [| |neg p] eqn:D; try discriminate. apply (Pay F32 _ _ _ F32_ok) in D. change (f_mw F32) with 23 in *. change (f_mw F64) with 52. cbn [Z.leb Z.compare Pos.compare Pos.compare_cont].
    pose proof (L (p * 2 ^ (52 - 23)) 51) as L'. assert (0 <= p * 2 ^ (52 - 23) < 2 ^ (51 + 1)) by (cbn in *; lia).
    specialize (L' ltac:(assumption) ltac:(lia)). apply G; [apply F64_ok| |]; change (f_mw F64) with 52; change (52 - 1) with 51; cbn [Z.add] in *; lia.
Qed.
