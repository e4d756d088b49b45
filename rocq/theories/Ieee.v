(** Ieee.v - Go's conversions between float32, float64 and integers, on bit
    patterns.  Nothing here models a function of the repository; it is the
    semantics of the conversions T(x) that /repo/json and /repo/declare use.

    A finite float is a sign, a significand m and an exponent e: m * 2^e. *)
From Verif Require Import Base.
Local Open Scope Z_scope.

(** Number of stored significand bits, number of exponent bits. *)
Record format := Format { f_mw : Z; f_ew : Z }.
Definition F32 := Format 23 8.
Definition F64 := Format 52 11.
(** The exponent of the lowest bit of a subnormal: -149, -1074. *)
Definition f_emin (f : format) : Z := 3 - 2 ^ (f_ew f - 1) - f_mw f - 1.
Definition f_bits (f : format) : Z := f_mw f + f_ew f.     (* without the sign *)
(** The bit pattern of +Inf. *)
Definition f_inf (f : format) : Z := (2 ^ f_ew f - 1) * 2 ^ f_mw f.

Inductive fval := Finite (neg : bool) (m : Z) (e : Z) | Inf (neg : bool) | NaN (neg : bool) (payload : Z).
(** What a bit pattern means. *)
Definition f_decode (f : format) (n : N) : fval :=
  let z := Z.of_N n in
  let neg := Z.odd (z / 2 ^ f_bits f) in
  let a := z mod 2 ^ f_bits f in
  let E := a / 2 ^ f_mw f in
  let M := a mod 2 ^ f_mw f in
  if E =? 2 ^ f_ew f - 1 then (if M =? 0 then Inf neg else NaN neg M)
  else if E =? 0 then Finite neg M (f_emin f)
  else Finite neg (M + 2 ^ f_mw f) (f_emin f + E - 1).
(** m / 2^k to the nearest integer, ties to even. *)
Definition div_rne (m k : Z) : Z :=
  let q := m / 2 ^ k in
  let r := m mod 2 ^ k in
  let h := 2 ^ (k - 1) in
  if (h <? r) || ((r =? h) && Z.odd q) then q + 1 else q.
Definition bitlen (m : Z) : Z := if m =? 0 then 0 else Z.log2 m + 1.
(** The nearest float, ties to even; overflow is infinity. *)
Definition round_abs (f : format) (m e : Z) : Z :=
  let e' := Z.max (bitlen m + e - (f_mw f + 1)) (f_emin f) in
  let m' := if e' <=? e then m * 2 ^ (e - e') else div_rne m (e' - e) in
  Z.min ((e' - f_emin f) * 2 ^ f_mw f + m') (f_inf f).
Definition with_sign (f : format) (neg : bool) (a : Z) : N :=
  Z.to_N ((if neg then 2 ^ f_bits f else 0) + a).
Definition f_round (f : format) (neg : bool) (m e : Z) : N :=
  with_sign f neg (if m =? 0 then 0 else round_abs f m e).
(** Conversion between formats.  A NaN keeps the top of its payload and becomes
    quiet. *)
Definition f_convert (f g : format) (n : N) : N :=
  match f_decode f n with
  | Finite neg m e => f_round g neg m e
  | Inf neg => with_sign g neg (f_inf g)
  | NaN neg p =>
      let p := if f_mw f <=? f_mw g then p * 2 ^ (f_mw g - f_mw f) else p / 2 ^ (f_mw f - f_mw g) in
      with_sign g neg (f_inf g + Z.lor p (2 ^ (f_mw g - 1)))
  end.
(** float64(x) of a float32 and float32(x) of a float64 *)
Definition f64_of_f32 : N -> N := f_convert F32 F64.
Definition f32_of_f64 : N -> N := f_convert F64 F32.
(** float64(n), float32(n) of an integer *)
Definition f64_of_Z (z : Z) : N := f_round F64 (z <? 0) (Z.abs z) 0.
Definition f32_of_Z (z : Z) : N := f_round F32 (z <? 0) (Z.abs z) 0.
(** The integer part; [None] for infinities and NaN. *)
Definition f_trunc (f : format) (n : N) : option Z :=
  match f_decode f n with
  | Finite neg m e =>
      let a := if 0 <=? e then m * 2 ^ e else m / 2 ^ (- e) in
      Some (if neg then - a else a)
  | _ => None
  end.
(** int32(x) and the like: the integer part if the type can hold it, else the
    result depends on the implementation: [other]. *)
Definition f_to_int (f : format) (lo hi : Z) (other : N -> Z) (n : N) : Z :=
  match f_trunc f n with
  | Some z => if (lo <=? z) && (z <=? hi) then z else other n
  | None => other n
  end.
(** Not an infinity or NaN. *)
Definition f_finite (f : format) (n : N) : bool := match f_decode f n with Finite _ _ _ => true | _ => false end.
Definition f_isnan (f : format) (n : N) : bool := match f_decode f n with NaN _ _ => true | _ => false end.
Definition f_word (f : format) (n : N) : Prop := Z.of_N n < 2 ^ (f_bits f + 1).

(** ** Facts *)
Definition f_ok (f : format) : Prop := 1 <= f_mw f /\ 2 <= f_ew f.
Lemma F32_ok : f_ok F32. Proof. unfold f_ok, F32; cbn; lia. Qed.
Lemma F64_ok : f_ok F64. Proof. unfold f_ok, F64; cbn; lia. Qed.

Lemma bitlen_bound m : 0 <= m -> m < 2 ^ bitlen m.
Proof.
  intros H. unfold bitlen. destruct (m =? 0) eqn:E; [cbn; lia|].
  pose proof (Z.log2_spec m). replace (Z.log2 m + 1) with (Z.succ (Z.log2 m)) by lia. lia.
Qed.
Lemma bitlen_le m k : 0 <= k -> 0 <= m < 2 ^ k -> bitlen m <= k.
Proof.
  intros Hk H. unfold bitlen. destruct (m =? 0) eqn:E; [lia|].
  pose proof (Z.log2_lt_pow2 m k). lia.
Qed.
Lemma bitlen_eq m k : 1 <= k -> 2 ^ (k - 1) <= m < 2 ^ k -> bitlen m = k.
Proof.
  intros Hk H. assert (0 < m) by (pose proof (Z.pow_pos_nonneg 2 (k - 1)); lia).
  unfold bitlen. destruct (m =? 0) eqn:E; [lia|].
  rewrite (Z.log2_unique m (k - 1)); [lia|lia|]. replace (Z.succ (k - 1)) with k by lia. lia.
Qed.
Lemma bitlen_shift m k : 0 < m -> 0 <= k -> bitlen (m * 2 ^ k) = bitlen m + k.
Proof.
  intros Hm Hk. unfold bitlen. pose proof (Z.pow_pos_nonneg 2 k).
  destruct (m =? 0) eqn:E; [lia|]. destruct (m * 2 ^ k =? 0) eqn:E2; [nia|].
  rewrite Z.log2_mul_pow2 by lia. lia.
Qed.

(** The parts of a bit pattern. *)
Definition f_neg f n := Z.odd (Z.of_N n / 2 ^ f_bits f).
Definition f_abs f n := Z.of_N n mod 2 ^ f_bits f.
Lemma with_sign_parts f n : f_ok f -> f_word f n -> with_sign f (f_neg f n) (f_abs f n) = n.
Proof.
  intros Hf Hn. unfold with_sign, f_neg, f_abs, f_word in *. set (z := Z.of_N n) in *.
  assert (0 < 2 ^ f_bits f) by (apply Z.pow_pos_nonneg; unfold f_ok, f_bits in *; lia).
  assert (Hz : 0 <= z) by lia.
  rewrite Z.pow_add_r in Hn by (unfold f_ok, f_bits in *; lia). change (2 ^ 1) with 2 in Hn.
  assert (Hq : 0 <= z / 2 ^ f_bits f < 2) by (split; [apply Z.div_pos; lia | apply Z.div_lt_upper_bound; lia]).
  pose proof (Z.div_mod z (2 ^ f_bits f)).
  assert (z / 2 ^ f_bits f = 0 \/ z / 2 ^ f_bits f = 1) as [E|E] by lia; rewrite E in *; cbn [Z.odd]; unfold z in *; lia.
Qed.
Lemma parts_with_sign f neg a : f_ok f -> 0 <= a < 2 ^ f_bits f ->
  f_neg f (with_sign f neg a) = neg /\ f_abs f (with_sign f neg a) = a /\ f_word f (with_sign f neg a).
Proof.
  intros Hf Ha. unfold f_neg, f_abs, with_sign, f_word.
  assert (0 < 2 ^ f_bits f) by (apply Z.pow_pos_nonneg; unfold f_ok, f_bits in *; lia).
  rewrite Z2N.id by (destruct neg; lia).
  rewrite Z.pow_add_r by (unfold f_ok, f_bits in *; lia). change (2 ^ 1) with 2.
  destruct neg.
  - replace (2 ^ f_bits f + a) with (a + 1 * 2 ^ f_bits f) by lia.
    rewrite Z.div_add, Z.mod_add, Z.div_small, Z.mod_small by lia. repeat split; lia.
  - rewrite Z.div_small, Z.mod_small by lia. repeat split; lia.
Qed.

(** The finite magnitudes: e and m of a canonical representation, and the bits
    they come from. *)
Definition canonical f m e : Prop :=
  0 <= m /\ f_emin f <= e /\ ((m < 2 ^ f_mw f /\ e = f_emin f) \/ (2 ^ f_mw f <= m < 2 ^ (f_mw f + 1))).
Lemma decode_finite f n neg m e : f_ok f -> f_word f n -> f_decode f n = Finite neg m e ->
  neg = f_neg f n /\ canonical f m e /\ (e - f_emin f) * 2 ^ f_mw f + m = f_abs f n /\ f_abs f n < f_inf f.
Proof.
  intros Hf Hn. unfold f_decode. fold (f_neg f n). fold (f_abs f n).
  set (a := f_abs f n). set (p := 2 ^ f_mw f).
  assert (Hp : 0 < p) by (apply Z.pow_pos_nonneg; unfold f_ok in *; lia).
  assert (Hew : 0 < 2 ^ f_ew f) by (apply Z.pow_pos_nonneg; unfold f_ok in *; lia).
  assert (Ha : 0 <= a < p * 2 ^ f_ew f).
  { unfold a, f_abs. unfold f_bits, p. rewrite Z.pow_add_r by (unfold f_ok in *; lia). apply Z.mod_pos_bound. fold p. nia. }
  pose proof (Z.div_mod a p ltac:(lia)) as Hdm. pose proof (Z.mod_pos_bound a p Hp) as Hm.
  assert (HE : 0 <= a / p < 2 ^ f_ew f) by (split; [apply Z.div_pos; lia|apply Z.div_lt_upper_bound; lia]).
  assert (Hpp : 2 ^ (f_mw f + 1) = 2 * p).
  { rewrite Z.pow_add_r by (unfold f_ok in *; lia). unfold p. lia. }
  unfold canonical. rewrite Hpp. fold p. unfold f_inf. fold p.
  destruct (a / p =? 2 ^ f_ew f - 1) eqn:E1.
  - destruct (a mod p =? 0); discriminate.
  - destruct (a / p =? 0) eqn:E2; intros HH; inversion HH; subst; clear HH.
    + apply Z.eqb_eq in E2. rewrite E2 in *. repeat split; try lia. nia.
    + apply Z.eqb_neq in E1. apply Z.eqb_neq in E2. repeat split; try lia; nia.
Qed.
Lemma decode_with_sign f neg m e : f_ok f -> canonical f m e -> (e - f_emin f) * 2 ^ f_mw f + m < f_inf f ->
  f_decode f (with_sign f neg ((e - f_emin f) * 2 ^ f_mw f + m)) = Finite neg m e.
Proof.
  intros Hf (Hm & He & Hc) Hlt.
  set (p := 2 ^ f_mw f) in *.
  assert (Hp : 0 < p) by (apply Z.pow_pos_nonneg; unfold f_ok in *; lia).
  assert (Hpp : 2 ^ (f_mw f + 1) = 2 * p).
  { rewrite Z.pow_add_r by (unfold f_ok in *; lia). unfold p. lia. }
  set (a := (e - f_emin f) * p + m) in *.
  assert (Hinf : f_inf f < 2 ^ f_bits f).
  { unfold f_inf, f_bits. rewrite (Z.add_comm (f_mw f)), Z.pow_add_r by (unfold f_ok in *; lia). fold p. nia. }
  assert (Ha : 0 <= a < 2 ^ f_bits f) by (unfold a; nia).
  destruct (parts_with_sign f neg a Hf Ha) as (E1 & E2 & _).
  unfold f_decode. fold (f_neg f (with_sign f neg a)). fold (f_abs f (with_sign f neg a)). rewrite E1, E2. fold p.
  destruct Hc as [(Hc & ->)|Hc].
  - assert (Ea : a = m) by (unfold a; lia). rewrite Ea.
    rewrite Z.div_small, Z.mod_small by lia.
    destruct (0 =? 2 ^ f_ew f - 1) eqn:E; [|reflexivity].
    assert (2 ^ 2 <= 2 ^ f_ew f) by (apply Z.pow_le_mono_r; unfold f_ok in *; lia). lia.
  - assert (Ea : a = (m - p) + (e - f_emin f + 1) * p) by (unfold a; lia).
    rewrite Ea, Z.div_add, Z.mod_add, Z.div_small, Z.mod_small by lia.
    rewrite Z.add_0_l.
    destruct (e - f_emin f + 1 =? 2 ^ f_ew f - 1) eqn:E.
    { apply Z.eqb_eq in E. unfold f_inf in Hlt. fold p in Hlt. rewrite <- E in Hlt. lia. }
    destruct (e - f_emin f + 1 =? 0) eqn:E0; [lia|]. f_equal; lia.
Qed.

Lemma div_rne_exact m k : 0 < k -> div_rne (m * 2 ^ k) k = m.
Proof.
  intros Hk. assert (0 < 2 ^ k) by (apply Z.pow_pos_nonneg; lia).
  assert (0 < 2 ^ (k - 1)) by (apply Z.pow_pos_nonneg; lia). unfold div_rne.
  rewrite Z.div_mul, Z.mod_mul by lia.
  destruct (2 ^ (k - 1) <? 0) eqn:E1; [lia|]. destruct (0 =? 2 ^ (k - 1)) eqn:E2; [lia|]. reflexivity.
Qed.
(** Rounding something that has a canonical representation gives that. *)
Lemma round_canonical f m e k : f_ok f -> canonical f m e -> 0 < m -> 0 <= k ->
  (e - f_emin f) * 2 ^ f_mw f + m < f_inf f ->
  round_abs f (m * 2 ^ k) (e - k) = (e - f_emin f) * 2 ^ f_mw f + m.
Proof.
  intros Hf (Hm0 & He & Hc) Hm Hk Hlt. unfold round_abs. rewrite bitlen_shift by lia.
  assert (Ee : Z.max (bitlen m + k + (e - k) - (f_mw f + 1)) (f_emin f) = e).
  { destruct Hc as [(Hc & ->)|Hc].
    - pose proof (bitlen_le m (f_mw f) ltac:(unfold f_ok in *; lia) ltac:(lia)). lia.
    - pose proof (bitlen_eq m (f_mw f + 1) ltac:(unfold f_ok in *; lia)) as Hb.
      replace (f_mw f + 1 - 1) with (f_mw f) in Hb by lia. rewrite Hb by lia. lia. }
  rewrite Ee. replace (e - (e - k)) with k by lia.
  assert (Em : (if e <=? e - k then m * 2 ^ k * 2 ^ (e - k - e) else div_rne (m * 2 ^ k) k) = m).
  { destruct (e <=? e - k) eqn:E.
    - assert (k = 0) by lia. subst k. replace (e - 0 - e) with 0 by lia. cbn. lia.
    - apply div_rne_exact. lia. }
  rewrite Em. lia.
Qed.
(** Something with few enough bits is represented exactly. *)
Definition e_of f m e := Z.max (bitlen m + e - (f_mw f + 1)) (f_emin f).
Lemma round_exact f m e : f_ok f -> 0 < m -> bitlen m <= f_mw f + 1 -> f_emin f <= e ->
  bitlen m + e <= f_emin f + f_mw f + 2 ^ f_ew f - 2 ->
  let e' := e_of f m e in
  e' <= e /\ canonical f (m * 2 ^ (e - e')) e' /\
  (e' - f_emin f) * 2 ^ f_mw f + m * 2 ^ (e - e') < f_inf f /\
  round_abs f m e = (e' - f_emin f) * 2 ^ f_mw f + m * 2 ^ (e - e').
Proof.
  intros Hf Hm Hb He Hov e'.
  set (p := 2 ^ f_mw f).
  assert (Hp : 0 < p) by (apply Z.pow_pos_nonneg; unfold f_ok in *; lia).
  assert (Hpp : 2 ^ (f_mw f + 1) = 2 * p).
  { rewrite Z.pow_add_r by (unfold f_ok in *; lia). unfold p. lia. }
  assert (Hle : e' <= e) by (unfold e', e_of; lia).
  set (m' := m * 2 ^ (e - e')).
  assert (Hpos : 0 < 2 ^ (e - e')) by (apply Z.pow_pos_nonneg; lia).
  assert (Hm' : 0 < m') by (unfold m'; nia).
  assert (Hb' : bitlen m' = bitlen m + (e - e')) by (apply bitlen_shift; lia).
  assert (Hbig : m' < 2 ^ (f_mw f + 1)).
  { eapply Z.lt_le_trans; [apply bitlen_bound; lia|]. apply Z.pow_le_mono_r; [lia|]. rewrite Hb'. unfold e', e_of. lia. }
  assert (Hcan : canonical f m' e').
  { unfold canonical. split; [lia|]. split; [unfold e', e_of; lia|].
    destruct (Z_le_gt_dec (f_emin f) (bitlen m + e - (f_mw f + 1))) as [Hn|Hs].
    - right. split; [|exact Hbig].
      assert (Hlow : 2 ^ (bitlen m' - 1) <= m').
      { unfold bitlen. destruct (m' =? 0) eqn:E; [lia|]. replace (Z.log2 m' + 1 - 1) with (Z.log2 m') by lia.
        apply Z.log2_spec. lia. }
      replace (bitlen m' - 1) with (f_mw f) in Hlow; [exact Hlow|]. rewrite Hb'. unfold e', e_of. lia.
    - left. split; [|unfold e', e_of; lia].
      eapply Z.lt_le_trans; [apply bitlen_bound; lia|]. apply Z.pow_le_mono_r; [lia|]. rewrite Hb'. unfold e', e_of. lia. }
  assert (Hew : 4 <= 2 ^ f_ew f) by (change 4 with (2 ^ 2); apply Z.pow_le_mono_r; unfold f_ok in *; lia).
  assert (Hlt : (e' - f_emin f) * p + m' < f_inf f).
  { unfold f_inf. fold p. rewrite Hpp in Hbig. assert (e' - f_emin f <= 2 ^ f_ew f - 3) by (unfold e', e_of; lia). nia. }
  split; [exact Hle|]. split; [exact Hcan|]. split; [exact Hlt|].
  unfold round_abs. fold (e_of f m e). fold e'. fold p. fold m'. destruct (e' <=? e) eqn:E; [lia|lia].
Qed.
Lemma decode_zero f neg : f_ok f -> f_decode f (with_sign f neg 0) = Finite neg 0 (f_emin f).
Proof.
  intros Hf. assert (0 < 2 ^ f_mw f) by (apply Z.pow_pos_nonneg; unfold f_ok in *; lia).
  assert (4 <= 2 ^ f_ew f) by (change 4 with (2 ^ 2); apply Z.pow_le_mono_r; unfold f_ok in *; lia).
  pose proof (decode_with_sign f neg 0 (f_emin f) Hf) as D. unfold canonical, f_inf in D.
  replace ((f_emin f - f_emin f) * 2 ^ f_mw f + 0) with 0 in D by lia. apply D; [repeat split; try lia; left; lia|nia].
Qed.
(** What a finite number becomes in a format that holds it exactly. *)
Lemma decode_round f neg m e : f_ok f -> 0 <= m -> bitlen m <= f_mw f + 1 -> f_emin f <= e ->
  bitlen m + e <= f_emin f + f_mw f + 2 ^ f_ew f - 2 ->
  exists k e', 0 <= k /\ f_decode f (f_round f neg m e) = Finite neg (m * 2 ^ k) e' /\ (m = 0 \/ e' = e - k).
Proof.
  intros Hf Hm Hb He Hov. unfold f_round. destruct (m =? 0) eqn:E.
  - exists 0, (f_emin f). rewrite decode_zero by assumption. split; [lia|]. split; [f_equal; lia|left; lia].
  - destruct (round_exact f m e Hf ltac:(lia) Hb He Hov) as (H1 & H2 & H3 & H4).
    exists (e - e_of f m e), (e_of f m e). rewrite H4. split; [lia|]. split; [now apply decode_with_sign|right; lia].
Qed.

(** float32(float64(x)) is x unless it is a NaN. *)
Lemma f32_of_f64_of_f32 n : f_word F32 n -> f_isnan F32 n = false -> f32_of_f64 (f64_of_f32 n) = n.
Proof.
  intros Hn Hnan. unfold f32_of_f64, f64_of_f32, f_isnan in *. unfold f_convert at 2.
  destruct (f_decode F32 n) as [neg m e|neg|neg p] eqn:D; [| |discriminate].
  - destruct (decode_finite F32 n neg m e F32_ok Hn D) as (-> & Hcan & Hbits & Hlt).
    assert (Hb : bitlen m <= 24).
    { apply bitlen_le; [lia|]. destruct Hcan as (? & ? & [(? & ?)|?]); cbn [f_mw F32] in *; lia. }
    assert (Emin : f_emin F32 = -149) by reflexivity.
    assert (Ee : -149 <= e <= 105).
    { destruct Hcan as (? & ? & ?). split; [lia|]. rewrite <- Hbits, Emin in Hlt. unfold f_inf in Hlt. cbn [f_mw f_ew F32] in Hlt. lia. }
    unfold f_convert.
    destruct (decode_round F64 (f_neg F32 n) m e F64_ok) as (k & e' & Hk & -> & He').
    { destruct Hcan; lia. } { cbn [f_mw F64]. lia. } { change (f_emin F64) with (-1074). lia. }
    { change (f_emin F64) with (-1074). cbn [f_mw f_ew F64]. lia. }
    unfold f_round. destruct (m * 2 ^ k =? 0) eqn:E0.
    + assert (0 < 2 ^ k) by (apply Z.pow_pos_nonneg; lia). assert (m = 0) by nia. subst m.
      assert (e = -149) by (destruct Hcan as (? & ? & [(? & ?)|?]); cbn [f_mw F32] in *; lia). subst e.
      rewrite <- (with_sign_parts F32 n F32_ok Hn) at 2. rewrite <- Hbits. rewrite Emin. f_equal.
    + destruct He' as [Hz| -> ]; [subst m; lia|].
      assert (0 < m) by (destruct Hcan; destruct (Z.eq_dec m 0); [subst; lia|lia]).
      rewrite round_canonical; [|exact F32_ok|exact Hcan|assumption|assumption|rewrite Hbits; exact Hlt].
      rewrite Hbits. apply with_sign_parts; [exact F32_ok|exact Hn].
  - unfold f_convert.
    assert (D64 : f_decode F64 (with_sign F64 neg (f_inf F64)) = Inf neg) by (destruct neg; reflexivity).
    rewrite D64.
    unfold f_decode in D. fold (f_neg F32 n) in D. fold (f_abs F32 n) in D.
    assert (Ha : 0 <= f_abs F32 n < 2 ^ 31) by (apply Z.mod_pos_bound; reflexivity).
    cbn [f_mw f_ew F32] in D.
    destruct (f_abs F32 n / 2 ^ 23 =? 2 ^ 8 - 1) eqn:E1; [|destruct (f_abs F32 n / 2 ^ 23 =? 0); discriminate].
    destruct (f_abs F32 n mod 2 ^ 23 =? 0) eqn:E2; [|discriminate]. inversion D; subst neg; clear D.
    rewrite <- (with_sign_parts F32 n F32_ok Hn) at 2. f_equal.
    pose proof (Z.div_mod (f_abs F32 n) (2 ^ 23) ltac:(lia)). unfold f_inf. cbn [f_mw f_ew F32]. lia.
Qed.
(** Converting an integer of up to 53 bits to float64 and back. *)
Lemma trunc_f64_of_Z z : Z.abs z < 2 ^ 53 -> f_trunc F64 (f64_of_Z z) = Some z.
Proof.
  intros Hz. unfold f_trunc, f64_of_Z.
  assert (Hb : bitlen (Z.abs z) <= 53) by (apply bitlen_le; lia).
  destruct (decode_round F64 (z <? 0) (Z.abs z) 0 F64_ok) as (k & e' & Hk & -> & He').
  { lia. } { cbn [f_mw F64]. lia. } { change (f_emin F64) with (-1074). lia. }
  { change (f_emin F64) with (-1074). cbn [f_mw f_ew F64]. lia. }
  assert (0 < 2 ^ k) by (apply Z.pow_pos_nonneg; lia).
  f_equal. destruct (Z.eq_dec z 0) as [->|Hz0].
  - change (0 <? 0) with false. change (Z.abs 0) with 0. cbv iota. rewrite Z.mul_0_l.
    destruct (0 <=? e') eqn:E; [lia|]. apply Z.div_0_l, Z.pow_nonzero; lia.
  - destruct He' as [He'| -> ]; [lia|].
    assert (Ea : (if 0 <=? 0 - k then Z.abs z * 2 ^ k * 2 ^ (0 - k) else Z.abs z * 2 ^ k / 2 ^ - (0 - k)) = Z.abs z).
    { destruct (0 <=? 0 - k) eqn:E.
      - assert (k = 0) by lia. subst k. change (2 ^ (0 - 0)) with 1. change (2 ^ 0) with 1. lia.
      - replace (- (0 - k)) with k by lia. apply Z.div_mul. lia. }
    rewrite Ea. destruct (z <? 0) eqn:E; lia.
Qed.
Lemma to_int_f64_of_Z lo hi other z : lo <= z <= hi -> Z.abs z < 2 ^ 53 -> f_to_int F64 lo hi other (f64_of_Z z) = z.
Proof.
  intros H Hz. unfold f_to_int. rewrite trunc_f64_of_Z by exact Hz.
  destruct ((lo <=? z) && (z <=? hi)) eqn:E; [reflexivity|lia].
Qed.
(** float64(n) of such an integer is finite, as is float64(x) of a finite float32. *)
Lemma f64_of_Z_finite z : Z.abs z < 2 ^ 53 -> f_finite F64 (f64_of_Z z) = true.
Proof. intros Hz. pose proof (trunc_f64_of_Z z Hz) as H. unfold f_trunc, f_finite in *. destruct (f_decode F64 (f64_of_Z z)); congruence. Qed.
Lemma f64_of_f32_finite n : f_word F32 n -> f_finite F64 (f64_of_f32 n) = f_finite F32 n.
Proof.
  intros Hn. unfold f_finite at 2, f64_of_f32, f_convert. destruct (f_decode F32 n) as [neg m e|neg|neg p] eqn:D.
  - destruct (decode_finite F32 n neg m e F32_ok Hn D) as (-> & Hcan & Hbits & Hlt).
    assert (Hb : bitlen m <= 24).
    { apply bitlen_le; [lia|]. destruct Hcan as (? & ? & [(? & ?)|?]); cbn [f_mw F32] in *; lia. }
    assert (Ee : -149 <= e <= 105).
    { destruct Hcan as (? & ? & ?). change (f_emin F32) with (-149) in *. split; [lia|]. rewrite <- Hbits in Hlt. unfold f_inf in Hlt. cbn [f_mw f_ew F32] in Hlt. lia. }
    destruct (decode_round F64 (f_neg F32 n) m e F64_ok) as (k & e' & Hk & HD & He').
    { destruct Hcan; lia. } { cbn [f_mw F64]. lia. } { change (f_emin F64) with (-1074). lia. }
    { change (f_emin F64) with (-1074). cbn [f_mw f_ew F64]. lia. }
    unfold f_finite. now rewrite HD.
  - unfold f_finite. now destruct neg.
  - unfold f_finite.
    assert (Hp : 0 < p < 2 ^ 23).
    { unfold f_decode in D. fold (f_neg F32 n) in D. fold (f_abs F32 n) in D. cbn [f_mw f_ew F32] in D. revert D.
      pose proof (Z.mod_pos_bound (f_abs F32 n) (2 ^ 23) ltac:(lia)) as Hm.
      destruct (f_abs F32 n / 2 ^ 23 =? 2 ^ 8 - 1); [|destruct (f_abs F32 n / 2 ^ 23 =? 0); discriminate].
      destruct (f_abs F32 n mod 2 ^ 23 =? 0) eqn:E; [discriminate|]. intros HH; inversion HH; subst. lia. }
    cbn [f_mw F32 F64]. change (23 <=? 52) with true. cbv iota. change (2 ^ (52 - 23)) with (2 ^ 29). change (52 - 1) with 51.
    set (q := Z.lor (p * 2 ^ 29) (2 ^ 51)).
    assert (Hq : 0 < q < 2 ^ 52).
    { assert (0 <= q) by (apply Z.lor_nonneg; lia).
      assert (q <> 0) by (unfold q; rewrite Z.lor_eq_0_iff; lia). split; [lia|].
      apply Z.log2_lt_pow2; [lia|]. unfold q. rewrite Z.log2_lor by lia.
      apply Z.max_lub_lt; [|cbn; lia]. apply Z.log2_lt_pow2; lia. }
    pose proof (parts_with_sign F64 neg (f_inf F64 + q) F64_ok) as Hparts.
    change (f_inf F64) with (2047 * 2 ^ 52) in *. change (f_bits F64) with 63 in *.
    destruct Hparts as (E1 & E2 & _); [lia|].
    unfold f_decode. fold (f_neg F64 (with_sign F64 neg (2047 * 2 ^ 52 + q))). fold (f_abs F64 (with_sign F64 neg (2047 * 2 ^ 52 + q))).
    rewrite E1, E2. cbn [f_mw f_ew F64].
    replace (2047 * 2 ^ 52 + q) with (q + 2047 * 2 ^ 52) by lia. rewrite Z.div_add, Z.mod_add, Z.div_small, Z.mod_small by lia.
    change (0 + 2047 =? 2 ^ 11 - 1) with true. cbv iota. destruct (q =? 0) eqn:E; [lia|reflexivity].
Qed.
(** Known values: 1, 0.1, the smallest subnormal, the largest float32, 2^53+1. *)
Example ieee_examples :
  f64_of_f32 0x3f800000 = 0x3ff0000000000000%N /\ f32_of_f64 0x3fb999999999999a = 0x3dcccccd%N /\
  f64_of_f32 1 = 0x36a0000000000000%N /\ f32_of_f64 0x36a0000000000000 = 1%N /\
  f64_of_f32 0x7f7fffff = 0x47efffffe0000000%N /\ f32_of_f64 0x47effffff0000000 = 0x7f800000%N /\
  f64_of_Z (-3) = 0xc008000000000000%N /\ f_trunc F64 (f64_of_Z (2 ^ 53 + 1)) = Some (2 ^ 53) /\
  f32_of_Z 16777217 = 0x4b800000%N /\ f_trunc F32 0xbfc00000 = Some (-1).
Proof. vm_compute. repeat split. Qed.
(** ** Integers are finite *)
Lemma with_sign_finite f neg a : f_ok f -> 0 <= a < f_inf f -> f_finite f (with_sign f neg a) = true.
Proof.
  intros Hf Ha. set (p := 2 ^ f_mw f).
  assert (Hp : 0 < p) by (apply Z.pow_pos_nonneg; unfold f_ok in *; lia).
  assert (Hinf : f_inf f < 2 ^ f_bits f).
  { unfold f_inf, f_bits. rewrite (Z.add_comm (f_mw f)), Z.pow_add_r by (unfold f_ok in *; lia). fold p. nia. }
  destruct (parts_with_sign f neg a Hf ltac:(lia)) as (_ & E2 & _).
  unfold f_finite, f_decode. fold (f_abs f (with_sign f neg a)). rewrite E2. fold p.
  assert (a / p < 2 ^ f_ew f - 1) by (apply Z.div_lt_upper_bound; [lia|]; unfold f_inf in Ha; fold p in Ha; lia).
  destruct (a / p =? 2 ^ f_ew f - 1) eqn:E; [lia|]. now destruct (a / p =? 0).
Qed.
Lemma f64_of_Z_finite_64 z : Z.abs z <= 2 ^ 63 -> f_finite F64 (f64_of_Z z) = true.
Proof.
  intros Hz. unfold f64_of_Z, f_round. set (m := Z.abs z) in *. assert (0 <= m) by lia.
  destruct (m =? 0) eqn:E0; [apply with_sign_finite; [exact F64_ok|cbn; lia]|].
  apply with_sign_finite; [exact F64_ok|]. unfold round_abs.
  assert (Hb : 1 <= bitlen m <= 64).
  { split; [unfold bitlen; rewrite E0; pose proof (Z.log2_nonneg m); lia|]. apply bitlen_le; [lia|]. split; [lia|].
    change (2 ^ 64) with (2 * 2 ^ 63). lia. }
  change (f_mw F64 + 1) with 53. change (f_emin F64) with (-1074). change (f_mw F64) with 52.
  replace (Z.max (bitlen m + 0 - 53) (-1074)) with (bitlen m - 53) by lia. set (e := bitlen m - 53).
  assert (Hm : m < 2 ^ bitlen m) by (apply bitlen_bound; lia).
  set (m' := if e <=? 0 then m * 2 ^ (0 - e) else div_rne m (e - 0)).
  assert (Hm' : 0 <= m' <= 2 ^ 53).
  { unfold m'. destruct (e <=? 0) eqn:Ee.
    - assert (0 < 2 ^ (0 - e)) by (apply Z.pow_pos_nonneg; lia). split; [nia|].
      replace (2 ^ 53) with (2 ^ bitlen m * 2 ^ (0 - e)); [nia|]. rewrite <- Z.pow_add_r by lia. f_equal. unfold e. lia.
    - assert (0 < 2 ^ (e - 0)) by (apply Z.pow_pos_nonneg; lia).
      assert (0 <= m / 2 ^ (e - 0)) by (apply Z.div_pos; lia).
      assert (m / 2 ^ (e - 0) < 2 ^ 53).
      { apply Z.div_lt_upper_bound; [lia|]. rewrite <- Z.pow_add_r by lia. replace (e - 0 + 53) with (bitlen m) by (unfold e; lia). exact Hm. }
      unfold div_rne. destruct (_ || _); lia. }
  change (f_inf F64) with (2047 * 2 ^ 52). change (2 ^ 53) with (2 * 2 ^ 52) in Hm'. set (P := 2 ^ 52) in *.
  assert (0 < P) by (apply Z.pow_pos_nonneg; lia). assert (-52 <= e <= 11) by (unfold e; lia). nia.
Qed.
