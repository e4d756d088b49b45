(** PropQuat.v - C97: CFrames stored as quaternions. *)
From Coq Require Import QArith Qabs Lqa.
From Verif Require Import Base RbxlValues RbxlArrays RbxlModel RbxlFile RbxValues Tree RbxlCodec SpecTables SpecDecode PropDecode
  SpecDeclare Ieee IeeeNearest Quat SpecQuat.
Local Open Scope Q_scope.

Lemma F2_length {A B} (R : A -> B -> Prop) l m : Forall2 R l m -> length l = length m.
Proof. induction 1; cbn [length]; congruence. Qed.
(** ** Rounding *)
(** Every multiple of 2^e that is at most 2^(e+24) is a float. *)
Lemma grid j e : (0 <= j <= 2 ^ 24)%Z -> (-149 <= e <= 90)%Z ->
  exists b, (0 <= b < f_inf F32)%Z /\ magnitude F32 b == inject_Z j * two_to e.
Proof.
  intros Hj He. destruct (Z.eq_dec j 0) as [->|Hz].
  { exists 0%Z. split; [split; [lia|reflexivity]|]. unfold magnitude. cbn [Z.ltb]. change (0 <? 2 ^ f_mw F32)%Z with true. cbn iota. change (inject_Z 0) with 0. ring. }
  destruct (Z.eq_dec j (2 ^ 24)) as [->|Hj2].
  - exists ((e + 1 - f_emin F32) * 2 ^ 23 + 2 ^ 23)%Z. change (f_emin F32) with (-149)%Z. change (f_inf F32) with 2139095040%Z. split; [lia|].
    rewrite (magnitude_of F32 F32_ok (e + 1) (2 ^ 23)); [|change (f_emin F32) with (-149)%Z; lia|change (2 ^ f_mw F32)%Z with (2 ^ 23)%Z; lia|intros _; change (2 ^ f_mw F32)%Z with (2 ^ 23)%Z; lia].
    rewrite two_plus, (two_Z 1) by lia. change (inject_Z (2 ^ 24)) with (inject_Z (2 ^ 23) * inject_Z (2 ^ 1)). ring.
  - assert (Hb : (bitlen j <= 24)%Z) by (apply bitlen_le; lia).
    destruct (round_exact F32 j e F32_ok ltac:(lia) ltac:(exact Hb) ltac:(change (f_emin F32) with (-149)%Z; lia) ltac:(change (f_emin F32 + f_mw F32 + 2 ^ f_ew F32 - 2)%Z with (128)%Z; lia)) as (H1 & H2 & H3 & _).
    set (e' := e_of F32 j e) in *. exists ((e' - f_emin F32) * 2 ^ f_mw F32 + j * 2 ^ (e - e'))%Z. destruct H2 as (C1 & C2 & C3).
    split; [split; [|exact H3]|].
    { change (2 ^ f_mw F32)%Z with (2 ^ 23)%Z. nia. }
    rewrite (magnitude_of F32 F32_ok e' (j * 2 ^ (e - e'))).
    + rewrite inject_Z_mult, <- two_Z by lia. rewrite <- Qmult_assoc, <- two_plus. now replace (e - e' + e')%Z with e by lia.
    + exact C2.
    + rewrite <- (ww F32 F32_ok). change (2 ^ f_mw F32)%Z with (2 ^ 23)%Z in *. change (2 ^ (f_mw F32 + 1))%Z with (2 ^ 24)%Z in *. lia.
    + intros Hlt. destruct C3 as [[_ C3]|C3]; [lia|]. change (2 ^ f_mw F32)%Z with (2 ^ 23)%Z in *. lia.
Qed.
Lemma real_bits a (s : bool) : (0 <= a < f_inf F32)%Z ->
  f_real F32 (Z.to_N ((if s then sign_bit F32 else 0) + a)) = Some (if s then - magnitude F32 a else magnitude F32 a).
Proof.
  intros Ha. unfold f_real. change (sign_bit F32) with (2 ^ 31)%Z. change (f_inf F32) with 2139095040%Z in *. destruct s.
  - rewrite Z2N.id by lia. replace ((2 ^ 31 + a) mod 2 ^ 31)%Z with a.
    2:{ replace (2 ^ 31 + a)%Z with (a + 1 * 2 ^ 31)%Z by lia. rewrite Z.mod_add by lia. symmetry. apply Z.mod_small. lia. }
    destruct (Z.ltb_spec a 2139095040); [|lia]. destruct (Z.ltb_spec (2 ^ 31 + a) (2 * 2 ^ 31)); [|lia]. destruct (Z.leb_spec (2 ^ 31) (2 ^ 31 + a)); [reflexivity|lia].
  - rewrite Z.add_0_l, Z2N.id by lia. rewrite Z.mod_small by lia.
    destruct (Z.ltb_spec a 2139095040); [|lia]. destruct (Z.ltb_spec a (2 * 2 ^ 31)); [|lia]. destruct (Z.leb_spec (2 ^ 31) a); [lia|reflexivity].
Qed.
Lemma two_le_1 e : (e <= 0)%Z -> two_to e <= 1.
Proof.
  intros He. assert (E : two_to e * two_to (- e) == 1) by (rewrite <- two_plus; now replace (e + - e)%Z with 0%Z by lia).
  rewrite <- E. pose proof (two_pos e). assert (1 <= two_to (- e)) by (rewrite two_Z by lia; change 1 with (inject_Z 1); apply inj_le; pose proof (Z.pow_pos_nonneg 2 (- e)); lia). nra.
Qed.
(** The nearest float differs from x by no more than anything on the grid. *)
Lemma rounded_grid x n b d : nearest F32 x n -> (0 <= b < f_inf F32)%Z -> Qabs (Qabs x - magnitude F32 b) <= d -> d <= 1 -> Qabs x <= inject_Z (2 ^ 25) ->
  exists y, f_real F32 n = Some y /\ Qabs (y - x) <= d.
Proof.
  intros (a & (Ha & Hn) & Hs) Hb Hd H1 Hx. destruct (Hn b ltac:(lia)) as [L _].
  assert (La : Qabs (Qabs x - magnitude F32 a) <= d) by lra.
  assert (Hlt : (0 <= a < f_inf F32)%Z).
  { split; [lia|]. destruct (Z.eq_dec a (f_inf F32)) as [->|]; [|lia]. exfalso.
    assert (G : inject_Z (2 ^ 26) <= magnitude F32 (f_inf F32)) by (vm_compute; discriminate).
    apply Qabs_Qle_condition in La. assert (inject_Z (2 ^ 25) + 1 < inject_Z (2 ^ 26)) by reflexivity. lra. }
  destruct Hs as [[Hp ->]|[Hp ->]].
  - exists (magnitude F32 a). split; [exact (real_bits a false Hlt)|]. rewrite (Qabs_pos x Hp) in La. rewrite Qabs_Qminus. exact La.
  - exists (- magnitude F32 a). split; [exact (real_bits a true Hlt)|]. rewrite (Qabs_neg x Hp) in La.
    setoid_replace (- magnitude F32 a - x) with (- x - magnitude F32 a) by ring. exact La.
Qed.
Lemma rounded x n e : (-149 < e <= 0)%Z -> Qabs x <= inject_Z (2 ^ 24) * two_to e -> nearest F32 x n ->
  exists y, f_real F32 n = Some y /\ Qabs (y - x) <= two_to (e - 1).
Proof.
  intros He Hx Hn. pose proof (two_pos e) as Hp. pose proof (two_le_1 e ltac:(lia)) as H1. pose proof (Qabs_nonneg x) as H0.
  set (t := Qabs x / two_to e). assert (Et : Qabs x == t * two_to e) by (unfold t; field; lra).
  set (j := Qround.Qfloor (t + (1 # 2))).
  assert (Hj : inject_Z j <= t + (1 # 2)) by apply Qround.Qfloor_le. assert (Hj' : t + (1 # 2) < inject_Z (j + 1)) by apply Qround.Qlt_floor.
  rewrite inject_Z_plus in Hj'. change (inject_Z 1) with 1 in Hj'.
  assert (Ht : 0 <= t) by (unfold t; apply Qle_shift_div_l; [exact Hp|lra]).
  assert (Ht' : t <= inject_Z (2 ^ 24)) by (unfold t; apply Qle_shift_div_r; [exact Hp|exact Hx]).
  assert (J0 : (0 <= j)%Z). { assert (L : inject_Z (-1) < inject_Z j) by (change (inject_Z (-1)) with (-1); lra). rewrite <- Zlt_Qlt in L. lia. }
  assert (J1 : (j <= 2 ^ 24)%Z). { assert (L : inject_Z j < inject_Z (2 ^ 24 + 1)) by (rewrite inject_Z_plus; change (inject_Z 1) with 1; lra). rewrite <- Zlt_Qlt in L. lia. }
  destruct (grid j e ltac:(lia) ltac:(lia)) as (b & Hb & Hm).
  assert (Eh : two_to (e - 1) * 2 == two_to e).
  { replace e with (e - 1 + 1)%Z at 2 by lia. rewrite two_plus, (two_Z 1) by lia. reflexivity. }
  apply (rounded_grid x n b (two_to (e - 1)) Hn Hb).
  - rewrite Hm, Et. setoid_replace (t * two_to e - inject_Z j * two_to e) with ((t - inject_Z j) * two_to e) by ring.
    rewrite Qabs_Qmult, (Qabs_pos (two_to e)) by lra. assert (G : Qabs (t - inject_Z j) <= 1 # 2) by (apply Qabs_Qle_condition; split; lra). nra.
  - lra.
  - assert (inject_Z (2 ^ 24) < inject_Z (2 ^ 25)) by reflexivity. assert (0 < inject_Z (2 ^ 24)) by reflexivity. nra.
Qed.
Lemma rounded_exactly x n j e : (-149 < e <= 0)%Z -> (Z.abs j <= 2 ^ 24)%Z -> x == inject_Z j * two_to e -> nearest F32 x n ->
  exists y, f_real F32 n = Some y /\ y == x.
Proof.
  intros He Hj Ex Hn. pose proof (two_pos e) as Hp. pose proof (two_le_1 e ltac:(lia)) as H1.
  assert (Ea : Qabs x == inject_Z (Z.abs j) * two_to e).
  { rewrite Ex, Qabs_Qmult, (Qabs_pos (two_to e)) by lra. now change (Qabs (inject_Z j)) with (inject_Z (Z.abs j)). }
  destruct (grid (Z.abs j) e ltac:(lia) ltac:(lia)) as (b & Hb & Hm).
  destruct (rounded_grid x n b 0 Hn Hb) as (y & Hy & L).
  - rewrite Hm, Ea. setoid_replace (inject_Z (Z.abs j) * two_to e - inject_Z (Z.abs j) * two_to e) with 0 by ring. discriminate.
  - discriminate.
  - rewrite Ea. assert (A : inject_Z (Z.abs j) <= inject_Z (2 ^ 24)) by (apply inj_le; exact Hj). assert (B : 0 <= inject_Z (Z.abs j)) by (apply (inj_le 0); lia).
    assert (inject_Z (2 ^ 24) < inject_Z (2 ^ 25)) by reflexivity. nra.
  - exists y. split; [exact Hy|]. apply Qabs_Qle_condition in L. lra.
Qed.

(** ** The nine expressions *)
Lemma kept_close x v e : (-149 < e <= 0)%Z -> Qabs x <= inject_Z (2 ^ 24) * two_to e -> kept x v ->
  exists y, v = Some y /\ Qabs (y - x) <= two_to (e - 1).
Proof.
  intros He Hx [(y & -> & E)|(n & Hn & ->)]; [|exact (rounded x n e He Hx Hn)].
  exists y. split; [reflexivity|]. setoid_replace (y - x) with 0 by (rewrite E; ring). apply Qlt_le_weak, two_pos.
Qed.
Lemma kept_exactly x v j e : (-149 < e <= 0)%Z -> (Z.abs j <= 2 ^ 24)%Z -> x == inject_Z j * two_to e -> kept x v ->
  exists y, v = Some y /\ y == x.
Proof. intros He Hj Ex [H|(n & Hn & ->)]; [exact H|]. now apply (rounded_exactly x n j e). Qed.
Lemma abs_le x d : Qabs x <= d <-> - d <= x <= d.
Proof. apply Qabs_Qle_condition. Qed.
Lemma prod_le x y : Qabs x <= 1 -> Qabs y <= 1 -> Qabs (x * y) <= 1.
Proof. rewrite Qabs_Qmult. pose proof (Qabs_nonneg x). pose proof (Qabs_nonneg y). nra. Qed.
Lemma sum_close o a b c d ra rb rc rd v : (o = Add \/ o = Sub) ->
  f_real F32 a = Some ra -> f_real F32 b = Some rb -> f_real F32 c = Some rc -> f_real F32 d = Some rd ->
  Qabs ra <= 1 -> Qabs rb <= 1 -> Qabs rc <= 1 -> Qabs rd <= 1 ->
  value_of (Op o (Op Mul (Flt a) (Flt b)) (Op Mul (Flt c) (Flt d))) v ->
  exists s, v = Some s /\ Qabs (s - op_real o (ra * rb) (rc * rd)) <= (3 # 16777216) /\ Qabs s <= 3.
Proof.
  intros Ho Ea Eb Ec Ed Ha Hb Hc Hd (u & w & (u1 & u2 & -> & -> & K1) & (w1 & w2 & -> & -> & K2) & K).
  rewrite Ea, Eb in K1. rewrite Ec, Ed in K2. cbn [op_real] in K1, K2. pose proof (prod_le _ _ Ha Hb) as P1. pose proof (prod_le _ _ Hc Hd) as P2.
  assert (B0 : inject_Z (2 ^ 24) * two_to (-24) == 1) by reflexivity.
  destruct (kept_close _ _ (-24) ltac:(lia) ltac:(rewrite B0; exact P1) K1) as (p & -> & Q1). destruct (kept_close _ _ (-24) ltac:(lia) ltac:(rewrite B0; exact P2) K2) as (q & -> & Q2).
  change (two_to (-24 - 1)) with (1 # 33554432) in *. rewrite abs_le in P1, P2, Q1, Q2.
  assert (B1 : inject_Z (2 ^ 24) * two_to (-22) == 4) by reflexivity.
  assert (L : Qabs (op_real o p q) <= 4) by (rewrite abs_le; destruct Ho as [-> | ->]; cbn [op_real]; lra).
  destruct (kept_close _ _ (-22) ltac:(lia) ltac:(rewrite B1; exact L) K) as (s & -> & Q3). change (two_to (-22 - 1)) with (1 # 8388608) in Q3.
  exists s. split; [reflexivity|]. rewrite abs_le in Q3. rewrite !abs_le. destruct Ho as [-> | ->]; cbn [op_real] in *; lra.
Qed.
Lemma one_real : f_real F32 0x3f800000 = Some (inject_Z 8388608 * two_to (-23)). Proof. reflexivity. Qed.
Lemma two_real : f_real F32 0x40000000 = Some (inject_Z 8388608 * two_to (-22)). Proof. reflexivity. Qed.
Lemma double_close e v s0 : (forall v, value_of e v -> exists s, v = Some s /\ Qabs (s - s0) <= (3 # 16777216) /\ Qabs s <= 3) ->
  value_of (Op Mul (Flt 0x40000000) e) v -> exists r, v = Some r /\ Qabs (r - 2 * s0) <= (5 # 8388608) /\ Qabs r <= 7.
Proof.
  intros H (u & w & -> & Hw & K). destruct (H w Hw) as (s & -> & Hs & Hs'). rewrite two_real in K. cbn [op_real] in K.
  assert (E2 : inject_Z 8388608 * two_to (-22) == 2) by reflexivity. assert (B : inject_Z (2 ^ 24) * two_to (-21) == 8) by reflexivity. rewrite abs_le in Hs, Hs'.
  assert (L : Qabs (inject_Z 8388608 * two_to (-22) * s) <= 8) by (rewrite E2, abs_le; lra).
  destruct (kept_close _ _ (-21) ltac:(lia) ltac:(rewrite B; exact L) K) as (r & -> & Hr). change (two_to (-21 - 1)) with (1 # 4194304) in Hr. rewrite abs_le in Hr.
  rewrite E2 in Hr. exists r. split; [reflexivity|]. rewrite !abs_le. lra.
Qed.
Lemma diag_close e v s0 : (forall v, value_of e v -> exists s, v = Some s /\ Qabs (s - s0) <= (3 # 16777216) /\ Qabs s <= 3) ->
  value_of (Op Sub (Flt 0x3f800000) (Op Mul (Flt 0x40000000) e)) v -> exists r, v = Some r /\ Qabs (r - (1 - 2 * s0)) <= (7 # 8388608) /\ Qabs r <= 9.
Proof.
  intros H (u & w & -> & Hw & K). destruct (double_close e w s0 H Hw) as (t & -> & Ht & Ht'). rewrite one_real in K. cbn [op_real] in K.
  assert (E1 : inject_Z 8388608 * two_to (-23) == 1) by reflexivity. assert (B : inject_Z (2 ^ 24) * two_to (-21) == 8) by reflexivity. rewrite abs_le in Ht, Ht'.
  assert (L : Qabs (inject_Z 8388608 * two_to (-23) - t) <= 8) by (rewrite E1, abs_le; lra).
  destruct (kept_close _ _ (-21) ltac:(lia) ltac:(rewrite B; exact L) K) as (r & -> & Hr). change (two_to (-21 - 1)) with (1 # 4194304) in Hr. rewrite abs_le in Hr.
  rewrite E1 in Hr. exists r. split; [reflexivity|]. rewrite !abs_le. lra.
Qed.
(** The result, rounded at the end. *)
Lemma evaluates_close e n t d : (forall v, value_of e v -> exists r, v = Some r /\ Qabs (r - t) <= d /\ Qabs r <= 9) -> evaluates e n ->
  exists r, f_real F32 n = Some r /\ Qabs (r - t) <= d + (1 # 2097152).
Proof.
  intros H (v & Hv & Hn). destruct (H v Hv) as (r & -> & Hr & Hr'). assert (B : inject_Z (2 ^ 24) * two_to (-20) == 16) by reflexivity.
  destruct (rounded r n (-20) ltac:(lia) ltac:(rewrite B; lra) Hn) as (y & Hy & Ly). change (two_to (-20 - 1)) with (1 # 2097152) in Ly.
  exists y. split; [exact Hy|]. rewrite abs_le in *. lra.
Qed.

Definition ninth (k : nat) (e : fexpr) (a : quaternion) (d : Q) : Prop :=
  forall n, evaluates e n -> exists r, f_real F32 n = Some r /\ Qabs (r - matrix_entry a k) <= d.
Lemma off_diagonal k e a s0 d : (forall v, value_of e v -> exists s, v = Some s /\ Qabs (s - s0) <= (3 # 16777216) /\ Qabs s <= 3) ->
  2 * s0 == matrix_entry a k -> 0 <= d -> ninth k (Op Mul (Flt 0x40000000) e) a ((1 # 524288) + d).
Proof.
  intros H E Hd n Hn. destruct (evaluates_close (Op Mul (Flt 0x40000000) e) n (2 * s0) (5 # 8388608)) as (r & Hr & L).
  { intros v Hv. destruct (double_close e v s0 H Hv) as (r & -> & L1 & L2). exists r. split; [reflexivity|]. split; [exact L1|lra]. }
  { exact Hn. }
  exists r. split; [exact Hr|]. rewrite <- E. rewrite abs_le in *. lra.
Qed.
Lemma on_diagonal k e a s0 : (forall v, value_of e v -> exists s, v = Some s /\ Qabs (s - s0) <= (3 # 16777216) /\ Qabs s <= 3) ->
  1 - 2 * s0 == matrix_entry a k + (1 - norm2 a) ->
  ninth k (Op Sub (Flt 0x3f800000) (Op Mul (Flt 0x40000000) e)) a ((1 # 524288) + Qabs (1 - norm2 a)).
Proof.
  intros H E n Hn. destruct (evaluates_close (Op Sub (Flt 0x3f800000) (Op Mul (Flt 0x40000000) e)) n (1 - 2 * s0) (7 # 8388608)) as (r & Hr & L).
  { intros v Hv. exact (diag_close e v s0 H Hv). }
  { exact Hn. }
  exists r. split; [exact Hr|]. rewrite E in L. assert (A : - Qabs (1 - norm2 a) <= 1 - norm2 a <= Qabs (1 - norm2 a)) by (apply abs_le; lra). rewrite abs_le in *. lra.
Qed.
(** The matrix that is computed is the matrix of the rotation. *)
Theorem C97_rotation : forall q2m x y z w a, compiled q2m -> components x y z w a -> at_most_one a ->
  approximates (q2m x y z w) a ((1 # 524288) + Qabs (1 - norm2 a)).
Proof.
  intros q2m x y z w a Hq (Ex & Ey & Ez & Ew) (Hx & Hy & Hz & Hw). pose proof (Hq x y z w) as F. pose proof (Qabs_nonneg (1 - norm2 a)) as Hd.
  split; [now rewrite <- (F2_length _ _ _ F)|].
  assert (G : forall k e, nth_error (rotation_exprs x y z w) k = Some e -> ninth k e a ((1 # 524288) + Qabs (1 - norm2 a))).
  { unfold rotation_exprs. intros k e H.
    do 9 (destruct k as [|k]; [cbn [nth_error] in H; apply (f_equal (fun o => match o with Some e => e | None => Flt 0 end)) in H; cbn beta iota in H; subst e;
      first [eapply on_diagonal; [intros v Hv; eapply sum_close; [..|exact Hv]; eauto|] | eapply off_diagonal; [intros v Hv; eapply sum_close; [..|exact Hv]; eauto| |exact Hd]];
      destruct a; cbv -[Qplus Qmult Qminus Qopp Qeq]; ring|]).
    destruct k; discriminate H. }
  intros k n Hn. destruct (nth_error (rotation_exprs x y z w) k) as [e|] eqn:Ee.
  - apply (G k e Ee). clear G. revert k Ee Hn. induction F as [|e1 n1 es ns He F IH]; intros [|k] Ee Hn; try discriminate; cbn [nth_error] in *; [|now apply (IH k)].
    congruence.
  - apply nth_error_None in Ee. assert (nth_error (q2m x y z w) k = None) by (apply nth_error_None; rewrite <- (F2_length _ _ _ F); exact Ee). congruence.
Qed.

(** ** Rotations that are exact *)
Definition exactly (e : fexpr) (j k : Z) : Prop := forall v, value_of e v -> exists y, v = Some y /\ y == inject_Z j * two_to k.
Lemma exactly_flt n r j k : f_real F32 n = Some r -> r == inject_Z j * two_to k -> exactly (Flt n) j k.
Proof. intros E H v Hv. cbn in Hv. subst v. rewrite E. now exists r. Qed.
Lemma exactly_mul a b j k j' k' : exactly a j k -> exactly b j' k' -> (Z.abs (j * j') <= 2 ^ 24)%Z -> (-149 < k + k' <= 0)%Z -> exactly (Op Mul a b) (j * j') (k + k').
Proof.
  intros Ha Hb Hj Hk v (u & w & Hu & Hw & K). destruct (Ha u Hu) as (x & -> & Ex). destruct (Hb w Hw) as (y & -> & Ey). cbn [op_real] in K.
  assert (E : x * y == inject_Z (j * j') * two_to (k + k')) by (rewrite Ex, Ey, inject_Z_mult, two_plus; ring).
  destruct (kept_exactly _ _ _ _ Hk Hj E K) as (z & -> & Ez). exists z. split; [reflexivity|]. now rewrite Ez.
Qed.
Lemma exactly_add a b j k j' : exactly a j k -> exactly b j' k -> (Z.abs (j + j') <= 2 ^ 24)%Z -> (-149 < k <= 0)%Z -> exactly (Op Add a b) (j + j') k.
Proof.
  intros Ha Hb Hj Hk v (u & w & Hu & Hw & K). destruct (Ha u Hu) as (x & -> & Ex). destruct (Hb w Hw) as (y & -> & Ey). cbn [op_real] in K.
  assert (E : x + y == inject_Z (j + j') * two_to k) by (rewrite Ex, Ey, inject_Z_plus; ring).
  destruct (kept_exactly _ _ _ _ Hk Hj E K) as (z & -> & Ez). exists z. split; [reflexivity|]. now rewrite Ez.
Qed.
Lemma exactly_sub a b j k j' : exactly a j k -> exactly b j' k -> (Z.abs (j - j') <= 2 ^ 24)%Z -> (-149 < k <= 0)%Z -> exactly (Op Sub a b) (j - j') k.
Proof.
  intros Ha Hb Hj Hk v (u & w & Hu & Hw & K). destruct (Ha u Hu) as (x & -> & Ex). destruct (Hb w Hw) as (y & -> & Ey). cbn [op_real] in K.
  assert (E : x - y == inject_Z (j - j') * two_to k) by (rewrite Ex, Ey; unfold Z.sub; rewrite inject_Z_plus, inject_Z_opp; ring).
  destruct (kept_exactly _ _ _ _ Hk Hj E K) as (z & -> & Ez). exists z. split; [reflexivity|]. now rewrite Ez.
Qed.
Lemma exactly_evaluates e j k n : exactly e j k -> (Z.abs j <= 2 ^ 24)%Z -> (-149 < k <= 0)%Z -> evaluates e n -> exists r, f_real F32 n = Some r /\ r == inject_Z j * two_to k.
Proof.
  intros He Hj Hk (v & Hv & Hn). destruct (He v Hv) as (y & -> & Ey). destruct (rounded_exactly y n j k Hk Hj Ey Hn) as (r & Hr & E). exists r. split; [exact Hr|]. now rewrite E.
Qed.
Lemma exactly_pair (o : fop) a b c d ja jb jc jd : o = Add \/ o = Sub ->
  exactly (Flt a) ja (-11) -> exactly (Flt b) jb (-11) -> exactly (Flt c) jc (-11) -> exactly (Flt d) jd (-11) ->
  (Z.abs ja <= 2 ^ 11)%Z -> (Z.abs jb <= 2 ^ 11)%Z -> (Z.abs jc <= 2 ^ 11)%Z -> (Z.abs jd <= 2 ^ 11)%Z ->
  exactly (Op Mul (Flt 0x40000000) (Op o (Op Mul (Flt a) (Flt b)) (Op Mul (Flt c) (Flt d))))
          (2 * match o with Add => ja * jb + jc * jd | _ => ja * jb - jc * jd end) (-22) /\
  (Z.abs (match o with Add => ja * jb + jc * jd | _ => ja * jb - jc * jd end) <= 2 ^ 23)%Z.
Proof.
  intros Ho Ea Eb Ec Ed Ha Hb Hc Hd.
  assert (P1 : (Z.abs (ja * jb) <= 2 ^ 22)%Z) by (rewrite Z.abs_mul; nia). assert (P2 : (Z.abs (jc * jd) <= 2 ^ 22)%Z) by (rewrite Z.abs_mul; nia).
  assert (S : (Z.abs (match o with Add => ja * jb + jc * jd | _ => ja * jb - jc * jd end) <= 2 ^ 23)%Z) by (destruct Ho as [-> | ->]; lia). split; [|exact S].
  change (-22)%Z with (0 + (-22))%Z. apply exactly_mul; [apply (exactly_flt _ _ 2 0 two_real); reflexivity| |lia|lia].
  pose proof (exactly_mul _ _ _ _ _ _ Ea Eb ltac:(lia) ltac:(lia)) as M1. pose proof (exactly_mul _ _ _ _ _ _ Ec Ed ltac:(lia) ltac:(lia)) as M2.
  change (-11 + -11)%Z with (-22)%Z in *. destruct Ho as [-> | ->]; [apply exactly_add|apply exactly_sub]; assumption || lia.
Qed.
Lemma exactly_diag a b ja jb : exactly (Flt a) ja (-11) -> exactly (Flt b) jb (-11) -> (Z.abs ja <= 2 ^ 11)%Z -> (Z.abs jb <= 2 ^ 11)%Z ->
  exactly (Op Sub (Flt 0x3f800000) (Op Mul (Flt 0x40000000) (Op Add (Op Mul (Flt a) (Flt a)) (Op Mul (Flt b) (Flt b))))) (2 ^ 22 - 2 * (ja * ja + jb * jb)) (-22) /\
  (Z.abs (2 ^ 22 - 2 * (ja * ja + jb * jb)) <= 2 ^ 24)%Z.
Proof.
  intros Ea Eb Ha Hb. destruct (exactly_pair Add a a b b ja ja jb jb (or_introl eq_refl) Ea Ea Eb Eb Ha Ha Hb Hb) as [M S].
  assert (L : (Z.abs (2 ^ 22 - 2 * (ja * ja + jb * jb)) <= 2 ^ 24)%Z) by nia. split; [|exact L].
  apply exactly_sub; [apply (exactly_flt _ _ (2 ^ 22) (-22) one_real); reflexivity|exact M|exact L|lia].
Qed.
(** If the components are multiples of 2^-11 (for instance halves), and the
    quaternion has length one, every entry is exact. *)
Theorem C97_exact : forall q2m x y z w a, compiled q2m -> components x y z w a -> at_most_one a -> norm2 a == 1 ->
  (forall c, In c [qx a; qy a; qz a; qw a] -> exists j, c == inject_Z j * two_to (-11)) ->
  approximates (q2m x y z w) a 0.
Proof.
  intros q2m x y z w a Hq (Ex & Ey & Ez & Ew) (Hx & Hy & Hz & Hw) HN HJ. pose proof (Hq x y z w) as F.
  split; [now rewrite <- (F2_length _ _ _ F)|].
  assert (B : forall c j, c == inject_Z j * two_to (-11) -> Qabs c <= 1 -> (Z.abs j <= 2 ^ 11)%Z).
  { intros c j E H. rewrite E in H. change (two_to (-11)) with (1 # 2048) in H. rewrite abs_le in H. destruct H as [H1 H2].
    assert (- inject_Z 2048 <= inject_Z j <= inject_Z 2048) as [L1 L2] by (change (inject_Z 2048) with 2048; lra). rewrite <- inject_Z_opp, <- Zle_Qle in L1. rewrite <- Zle_Qle in L2. lia. }
  destruct (HJ (qx a)) as (jx & Jx); [cbn; tauto|]. destruct (HJ (qy a)) as (jy & Jy); [cbn; tauto|]. destruct (HJ (qz a)) as (jz & Jz); [cbn; tauto|]. destruct (HJ (qw a)) as (jw & Jw); [cbn; tauto|].
  pose proof (B _ _ Jx Hx) as Bx. pose proof (B _ _ Jy Hy) as By. pose proof (B _ _ Jz Hz) as Bz. pose proof (B _ _ Jw Hw) as Bw.
  pose proof (exactly_flt _ _ _ _ Ex Jx) as Fx. pose proof (exactly_flt _ _ _ _ Ey Jy) as Fy. pose proof (exactly_flt _ _ _ _ Ez Jz) as Fz. pose proof (exactly_flt _ _ _ _ Ew Jw) as Fw.
  destruct a as [X Y Z' W]. cbn [qx qy qz qw] in *. unfold norm2 in HN. cbn [qx qy qz qw] in HN.
  change (two_to (-11)) with (1 # 2048) in Jx, Jy, Jz, Jw. rewrite Jx, Jy, Jz, Jw in HN.
  assert (G : forall k e, nth_error (rotation_exprs x y z w) k = Some e -> ninth k e (Quaternion X Y Z' W) 0).
  { unfold rotation_exprs. intros k e H.
    do 9 (destruct k as [|k]; [cbn [nth_error] in H; apply (f_equal (fun o => match o with Some e => e | None => Flt 0 end)) in H; cbn beta iota in H; subst e; intros n Hn;
      match type of Hn with
      | evaluates (Op Sub _ (Op Mul _ (Op Add (Op Mul (Flt ?a) _) (Op Mul (Flt ?b) _)))) _ =>
          destruct (exactly_diag a b _ _ ltac:(eassumption) ltac:(eassumption) ltac:(assumption) ltac:(assumption)) as [U L];
          destruct (exactly_evaluates _ _ _ _ U L ltac:(lia) Hn) as (r & Hr & Er)
      | evaluates (Op Mul _ (Op Add (Op Mul (Flt ?a) (Flt ?b)) (Op Mul (Flt ?c) (Flt ?d)))) _ =>
          destruct (exactly_pair Add a b c d _ _ _ _ (or_introl eq_refl) ltac:(eassumption) ltac:(eassumption) ltac:(eassumption) ltac:(eassumption) ltac:(assumption) ltac:(assumption) ltac:(assumption) ltac:(assumption)) as [U L];
          destruct (exactly_evaluates _ _ _ _ U ltac:(lia) ltac:(lia) Hn) as (r & Hr & Er)
      | evaluates (Op Mul _ (Op Sub (Op Mul (Flt ?a) (Flt ?b)) (Op Mul (Flt ?c) (Flt ?d)))) _ =>
          destruct (exactly_pair Sub a b c d _ _ _ _ (or_intror eq_refl) ltac:(eassumption) ltac:(eassumption) ltac:(eassumption) ltac:(eassumption) ltac:(assumption) ltac:(assumption) ltac:(assumption) ltac:(assumption)) as [U L];
          destruct (exactly_evaluates _ _ _ _ U ltac:(lia) ltac:(lia) Hn) as (r & Hr & Er)
      end;
      exists r; (split; [exact Hr|]); change (two_to (-22)) with (1 # 4194304) in Er; unfold Z.sub in Er;
      repeat rewrite ?inject_Z_plus, ?inject_Z_mult, ?inject_Z_opp in Er; change (inject_Z (2 ^ 22)) with 4194304 in Er; change (inject_Z 2) with 2 in Er;
      cbv -[Qplus Qmult Qminus Qopp Qeq Qle Qabs inject_Z]; setoid_rewrite Er; setoid_rewrite Jx; setoid_rewrite Jy; setoid_rewrite Jz; setoid_rewrite Jw; apply abs_le; clear - HN; lra|]).
    destruct k; discriminate H. }
  intros k n Hn. destruct (nth_error (rotation_exprs x y z w) k) as [e|] eqn:Ee.
  - apply (G k e Ee). clear G. revert k Ee Hn. induction F as [|e1 n1 es ns He F IH]; intros [|k] Ee Hn; try discriminate; cbn [nth_error] in *; [|now apply (IH k)].
    congruence.
  - apply nth_error_None in Ee. assert (nth_error (q2m x y z w) k = None) by (apply nth_error_None; rewrite <- (F2_length _ _ _ F); exact Ee). congruence.
Qed.

(** ** Such a compilation exists *)
Lemma nearest_eq x y n : x == y -> nearest F32 x n -> nearest F32 y n.
Proof.
  intros E (a & (Ha & Hn) & Hs). exists a. split.
  - split; [exact Ha|]. intros b Hb. destruct (Hn b Hb) as [A B]. rewrite E in A. split; [exact A|]. intros X. apply B. now rewrite E.
  - rewrite E in Hs. exact Hs.
Qed.
Lemma run_real o a b x y : f_real F32 a = Some x -> f_real F32 b = Some y -> nearest F32 (op_real o x y) (f_op o a b).
Proof.
  intros Ea Eb. destruct (f_real_decode F32 F32_ok a x Ea) as (s & m & e & Da & Hm & Ex). destruct (f_real_decode F32 F32_ok b y Eb) as (t & k & d & Db & Hk & Ey).
  unfold f_op. rewrite Da, Db. cbn [exact_op].
  set (m' := if s then Z.opp m else m). set (k' := if t then Z.opp k else k).
  assert (Ex' : x == inject_Z m' * two_to e) by (rewrite Ex; unfold m'; destruct s; rewrite ?inject_Z_opp; ring).
  assert (Ey' : y == inject_Z k' * two_to d) by (rewrite Ey; unfold k'; destruct t; rewrite ?inject_Z_opp; ring).
  set (r := match o with Mul => _ | Add => _ | Sub => _ end).
  assert (Er : op_real o x y == inject_Z (fst r) * two_to (snd r)).
  { assert (S1 : two_to e == two_to (e - Z.min e d) * two_to (Z.min e d)) by (rewrite <- two_plus; now replace (e - Z.min e d + Z.min e d)%Z with e by lia).
    assert (S2 : two_to d == two_to (d - Z.min e d) * two_to (Z.min e d)) by (rewrite <- two_plus; now replace (d - Z.min e d + Z.min e d)%Z with d by lia).
    rewrite (two_Z (e - Z.min e d)) in S1 by lia. rewrite (two_Z (d - Z.min e d)) in S2 by lia.
    unfold r. destruct o; cbn [op_real fst snd]; rewrite Ex', Ey'.
    - rewrite inject_Z_mult, two_plus. ring.
    - rewrite inject_Z_plus, !inject_Z_mult, S1, S2. ring.
    - unfold Z.sub at 1. rewrite inject_Z_plus, inject_Z_opp, !inject_Z_mult, S1, S2. ring. }
  apply (nearest_eq ((if (fst r <? 0)%Z then - 1 else 1) * (inject_Z (Z.abs (fst r)) * two_to (snd r)))).
  - rewrite Er. destruct (Z.ltb_spec (fst r) 0); [rewrite Z.abs_neq, inject_Z_opp by lia|rewrite Z.abs_eq by lia]; ring.
  - apply (f_round_nearest F32 F32_ok (fst r <? 0)%Z). lia.
Qed.
Lemma run_value e : exists v, value_of e v /\ (v = None \/ v = f_real F32 (run_expr e)).
Proof.
  induction e as [n|o a (u & Hu & Eu) b (w & Hw & Ew)]; [exists (f_real F32 n); split; [reflexivity|now right]|]. cbn [value_of run_expr].
  destruct u as [x|]; [|exists None; split; [exists None, w; repeat split; assumption|now left]]. destruct w as [y|]; [|exists None; split; [exists (Some x), None; repeat split; assumption|now left]].
  destruct Eu as [|Eu]; [discriminate|]. destruct Ew as [|Ew]; [discriminate|].
  exists (f_real F32 (f_op o (run_expr a) (run_expr b))). split; [|now right]. exists (Some x), (Some y). split; [exact Hu|]. split; [exact Hw|].
  right. exists (f_op o (run_expr a) (run_expr b)). split; [|reflexivity]. now apply run_real.
Qed.
Lemma run_evaluates o a b : evaluates (Op o a b) (run_expr (Op o a b)).
Proof.
  destruct (run_value a) as (u & Hu & Eu). destruct (run_value b) as (w & Hw & Ew). unfold evaluates. cbn [value_of run_expr].
  destruct u as [x|]; [|exists None; split; [exists None, w; repeat split; assumption|exact I]]. destruct w as [y|]; [|exists None; split; [exists (Some x), None; repeat split; assumption|exact I]].
  destruct Eu as [|Eu]; [discriminate|]. destruct Ew as [|Ew]; [discriminate|].
  exists (Some (op_real o x y)). split; [|now apply run_real]. exists (Some x), (Some y). split; [exact Hu|]. split; [exact Hw|]. left. eexists. split; [reflexivity|]. reflexivity.
Qed.
Theorem C97_compiled : compiled unfused.
Proof. intros x y z w. unfold unfused, rotation_exprs. cbn [map]. repeat (constructor; [apply run_evaluates|]). constructor. Qed.

(** ** Files *)
(** What is read from a column of quaternions: the position as it is, and the
    rotation; a rotation with a number is that of the table (C25). *)
Theorem C97_decoded : forall lz spare noXML input f ws st q2m r h cws,
  decode lz spare noXML input = OK (DModel f, ws, st) -> codec_decode q2m f = OK (r, h, cws) -> compiled q2m ->
  forall k id, nth_error (ids_in (fm_chunks f)) k = Some id -> exists i g c, hget h (S k) = Some i /\ in_group (fm_chunks f) id g (i_class i) c /\
  forall name before ch vs after sp x y z w p, fm_chunks f = before ++ ch :: after -> ch_payload ch = PProp g name (Some (ARR tCFrameQuat vs)) ->
    (forall b, ~ In (g, name, Some b) (columns_in after)) -> nth_error vs c = Some (VCFrameQuat sp x y z w p) ->
    exists rot, mfind (i_props i) name = Some (RCFrame p rot) /\
      (sp <> x00 -> rot = special_matrix sp) /\
      (sp = x00 -> forall a, components x y z w a -> at_most_one a -> approximates rot a ((1 # 524288) + Qabs (1 - norm2 a))).
Proof.
  intros lz spare noXML input f ws st q2m r h cws Hd H Hq k id Hk. destruct (C48_decoded _ _ _ _ _ _ _ _ _ _ _ Hd H) as (_ & D & _).
  destruct (D k id Hk) as (i & Hi & [(g & c & Hg & Hv) _ _ _]). exists i, g, c. split; [exact Hi|]. split; [exact Hg|].
  intros name before ch vs after sp x y z w p E Hp Hlast Hc. exists (if Byte.eqb sp x00 then q2m x y z w else special_matrix sp). split.
  - apply Hv. exists before, ch, (ARR tCFrameQuat vs), after. split; [exact E|]. split; [exact Hp|]. split; [|exact Hlast].
    apply (reads_plain q2m _ _ tCFrameQuat vs c (VCFrameQuat sp x y z w p)); [exact Hc|reflexivity].
  - destruct (Byte.eqb sp x00) eqn:Es.
    + apply Byte.byte_dec_bl in Es. split; [intros N; contradiction|]. intros _ a Ha H1. now apply C97_rotation.
    + split; [reflexivity|]. intros ->. discriminate Es.
Qed.

(** ** Concrete cases *)
(** A quarter turn about the x axis, a third of a turn about (1, 1, 1), and one
    with a number. *)
Definition quat_file : bytes := file_of 1 3
  [PInst 0 (str "Part") [0; 1; 2]%Z false [];
   PProp 0 (str "CFrame") (Some (ARR tCFrameQuat
     [VCFrameQuat x00 0x3f3504f3 0 0 0x3f3504f3 (Vec3 1 2 3); VCFrameQuat x00 0x3f000000 0x3f000000 0x3f000000 0x3f000000 (Vec3 4 5 6); VCFrameQuat x05 0 0 0 0 (Vec3 7 8 9)]));
   PPrnt 0 [0; 1; 2]%Z [-1; -1; -1]%Z].
Example C97_witness :
  (exists a, components 0x3f3504f3 0 0 0x3f3504f3 a /\ at_most_one a /\ Qabs (1 - norm2 a) <= 1 # 8388608) /\
  (exists a, components 0x3f000000 0x3f000000 0x3f000000 0x3f000000 a /\ at_most_one a /\ norm2 a == 1 /\
    forall c, In c [qx a; qy a; qz a; qw a] -> exists j, c == inject_Z j * two_to (-11)) /\
  match decode no_lz (fun _ => 0%nat) true quat_file with
  | OK (DModel f, _, _) => match codec_decode unfused f with
    | OK (r, h, _) => h =
       [Inst (str "Part") [] false [(str "CFrame", RCFrame (Vec3 1 2 3)
          [0x3f800000; 0; 0; 0; 0x33800000; 0xbf7fffff; 0; 0x3f7fffff; 0x33800000]%N)] [];
        Inst (str "Part") [] false [(str "CFrame", RCFrame (Vec3 4 5 6)
          [0; 0; 0x3f800000; 0x3f800000; 0; 0; 0; 0x3f800000; 0]%N)] [];
        Inst (str "Part") [] false [(str "CFrame", RCFrame (Vec3 7 8 9) (special_matrix x05))] []]
    | _ => False end
  | _ => False end.
Proof.
  split; [|split].
  - eexists (Quaternion _ _ _ _). split; [repeat split; vm_compute; reflexivity|]. vm_compute. repeat split; discriminate.
  - eexists (Quaternion _ _ _ _). split; [repeat split; vm_compute; reflexivity|]. split; [vm_compute; repeat split; discriminate|]. split; [vm_compute; reflexivity|].
    intros c Hc. exists 1024%Z. cbn [In qx qy qz qw] in Hc. repeat (destruct Hc as [<-|Hc]; [reflexivity|]). destruct Hc.
  - vm_compute. reflexivity.
Qed.
Print Assumptions C97_rotation.
Print Assumptions C97_exact.
Print Assumptions C97_compiled.
Print Assumptions C97_decoded.
