(** PropColor.v - C75: colors written as one integer, with what Go says about
    float32(k) / 255. *)
From Coq Require Import QArith Qabs Lqa.
From Verif Require Import Base RbxlValues RbxValues Tree XmlText XmlDoc XmlCodec SpecXmlRead PropXmlRead SpecDeclare Ieee IeeeNearest Quat PropQuat.
Local Open Scope Q_scope.

(** rbxlx/codec.go:493-495: the quotient is the float nearest to k/255, and 0/255
    is not negative. *)
Definition quotients (div255 : N -> N) : Prop :=
  forall k, (k < 256)%N -> nearest F32 (inject_Z (Z.of_N k) / 255) (div255 k) /\ (k = 0%N -> div255 k = 0%N).
(** The float f is the channel k: a number within 2^-25 of k/255, equal at both
    ends; 255 times it is nearer to k than to any other integer. *)
Definition channel (k f : N) : Prop :=
  exists x, f_real F32 f = Some x /\ Qabs (x - inject_Z (Z.of_N k) / 255) <= (1 # 33554432) /\
    (k = 0%N -> f = 0%N) /\ (k = 255%N -> f = 0x3f800000%N) /\
    Qabs (255 * x - inject_Z (Z.of_N k)) < 1 # 2.
Lemma quotient_channel div255 k : quotients div255 -> (k < 256)%N -> channel k (div255 k).
Proof.
  intros H Hk. destruct (H k Hk) as [Hn H0]. set (q := inject_Z (Z.of_N k) / 255) in *.
  assert (Hq : 0 <= inject_Z (Z.of_N k) <= 255) by (change 255 with (inject_Z 255); change 0 with (inject_Z 0); rewrite <- !Zle_Qle; lia).
  assert (Eq : q * 255 == inject_Z (Z.of_N k)) by (unfold q; field).
  assert (Hx : Qabs q <= inject_Z (2 ^ 24) * two_to (-24)).
  { assert (B : inject_Z (2 ^ 24) * two_to (-24) == 1) by reflexivity. rewrite B. apply abs_le. lra. }
  destruct (rounded q (div255 k) (-24) ltac:(lia) Hx Hn) as (x & Ex & L). change (two_to (-24 - 1)) with (1 # 33554432) in L.
  exists x. split; [exact Ex|]. split; [exact L|]. split; [exact H0|]. split.
  - intros ->. destruct Hn as (a & Ha & Hs). assert (Eq1 : q == 1) by reflexivity.
    destruct Hs as [[_ ->]|[N _]]; [|rewrite Eq1 in N; exfalso; lra].
    assert (Hb : nearest_bits F32 (Qabs q) 0x3f800000%Z).
    { pose proof (f_round_nearest F32 F32_ok false 1 0 ltac:(lia)) as (c & Hc & Hs). cbv zeta in *.
      assert (E1 : Qabs (1 * (inject_Z 1 * two_to 0)) == Qabs q) by reflexivity.
      destruct Hs as [[_ Hs]|[N _]]; [|exfalso; revert N; vm_compute; intros N; now apply N].
      assert (Ec : c = 0x3f800000%Z).
      { change (f_round F32 false 1 0) with 0x3f800000%N in Hs. destruct Hc as [[Hc _] _]. apply (f_equal Z.of_N) in Hs. rewrite Z2N.id in Hs by lia. symmetry. exact Hs. }
      subst c. destruct Hc as [R Hc]. split; [exact R|]. intros b Hb. destruct (Hc b Hb) as [A B]. rewrite E1 in A, B. split; [exact A|exact B]. }
    rewrite (nearest_bits_unique F32 F32_ok _ _ _ Ha Hb). reflexivity.
  - rewrite abs_le in L. assert (- (1 # 2) < 255 * x - inject_Z (Z.of_N k) < 1 # 2) as [A B] by lra.
    apply Qabs_case; intros _; lra.
Qed.
(** A color written as the integer n (possibly cut to 32 bits) has the channels
    of n. *)
Theorem C75_packed_color : forall env d t c n r g b, quotients (xe_div255 env) -> some t c -> SpecXmlRead.unsigned 32 c n -> rgb n r g b ->
  exists fr fg fb w, getValue env d t TypeColor3 = OK (Some (RColor3 fr fg fb), w) /\ channel r fr /\ channel g fg /\ channel b fb.
Proof.
  intros env d t c n r g b Hq Hs Hn Hc.
  destruct (read_complete env d t TypeColor3 _ (M_color3_packed (fl_parse32 (xe_fl env)) (fl_parse64 (xe_fl env)) (xe_div255 env) t c n r g b Hs Hn Hc)) as (w & E).
  exists (xe_div255 env r), (xe_div255 env g), (xe_div255 env b), w. split; [exact E|]. destruct Hc as (k & _ & H1 & H2 & H3).
  repeat split; now apply quotient_channel.
Qed.
(** The integer can be had back from the color. *)
Theorem C75_color_unique : forall k k' f, channel k f -> channel k' f -> k = k'.
Proof.
  intros k k' f (x & Ex & _ & _ & _ & L) (x' & Ex' & _ & _ & _ & L'). rewrite Ex in Ex'. assert (x' = x) by congruence. subst x'.
  assert (A : - (1 # 2) < 255 * x - inject_Z (Z.of_N k) < 1 # 2) by (apply Qabs_Qlt_condition; exact L).
  assert (A' : - (1 # 2) < 255 * x - inject_Z (Z.of_N k') < 1 # 2) by (apply Qabs_Qlt_condition; exact L').
  assert (inject_Z (Z.of_N k) < inject_Z (Z.of_N k' + 1)) as B by (rewrite inject_Z_plus; change (inject_Z 1) with 1; lra).
  assert (inject_Z (Z.of_N k') < inject_Z (Z.of_N k + 1)) as B' by (rewrite inject_Z_plus; change (inject_Z 1) with 1; lra).
  rewrite <- Zlt_Qlt in B, B'. lia.
Qed.

(** ** Such a division exists, and a concrete color *)
Definition div255 (k : N) : N :=
  let z := (Z.of_N k * 2 ^ 60)%Z in
  f_round F32 false (2 * (z / 255) + (if (z mod 255 =? 0)%Z then 0 else 1))%Z (-61).
Definition Qltb (x y : Q) : bool := negb (Qle_bool y x).
Definition is_nearest (k : nat) : bool :=
  let a := Z.of_N (div255 (N.of_nat k)) in let x := inject_Z (Z.of_nat k) / 255 in
  let near b c := Qle_bool (magnitude F32 b) x && Qltb x (magnitude F32 (b + 1)) && c (2 * x) (magnitude F32 b + magnitude F32 (b + 1)) in
  (near a Qltb || ((1 <=? a)%Z && near (a - 1)%Z (fun u v => Qltb v u))) && (a <? f_inf F32)%Z.
Lemma Qltb_lt x y : Qltb x y = true -> x < y.
Proof. unfold Qltb. intros H. apply Qnot_le_lt. intros L. apply Qle_bool_iff in L. rewrite L in H. discriminate. Qed.
Theorem C75_quotients : quotients div255.
Proof.
  intros k Hk. split; [|intros ->; reflexivity].
  assert (C : forallb is_nearest (seq 0 256) = true) by (vm_compute; reflexivity). rewrite forallb_forall in C.
  specialize (C (N.to_nat k) ltac:(apply in_seq; lia)). unfold is_nearest in C. rewrite N2Nat.id in C. rewrite N_nat_Z in C.
  set (a := Z.of_N (div255 k)) in *. set (x := inject_Z (Z.of_N k) / 255) in *. cbv zeta in C. apply andb_true_iff in C as [C Ha]. apply Z.ltb_lt in Ha.
  assert (Hx : 0 <= x) by (unfold x; apply Qle_shift_div_l; [reflexivity|]; rewrite Qmult_0_l; change 0 with (inject_Z 0); rewrite <- Zle_Qle; lia).
  exists a. split; [|left; split; [exact Hx|unfold a; now rewrite N2Z.id]]. assert (Ex : Qabs x == x) by (apply Qabs_pos; exact Hx).
  assert (G : nearest_bits F32 x a).
  { replace a with (Z.min a (f_inf F32)) by lia. apply orb_true_iff in C as [C|C].
    - apply andb_true_iff in C as [C C3]. apply andb_true_iff in C as [C1 C2]. apply Qle_bool_iff in C1. apply Qltb_lt in C2, C3.
      apply (nearest_choice F32 F32_ok x a a); [unfold a; lia|split; assumption|left; split; [reflexivity|lra]|intros E; exfalso; lra].
    - apply andb_true_iff in C as [C0 C]. apply Z.leb_le in C0. apply andb_true_iff in C as [C C3]. apply andb_true_iff in C as [C1 C2]. apply Qle_bool_iff in C1. apply Qltb_lt in C2, C3.
      apply (nearest_choice F32 F32_ok x (a - 1) a); [lia|split; assumption|right; split; [lia|lra]|intros E; exfalso; lra]. }
  destruct G as [R G]. split; [exact R|]. intros b Hb. destruct (G b Hb) as [A B]. rewrite Ex. split; [exact A|exact B].
Qed.
Example C75_color_witness :
  getValue (XEnv ex_fl (fun b => b) div255) false (leaf "P" "4278255361") TypeColor3 = OK (Some (RColor3 0 0x3f800000 0x3b808081), []) /\
  rgb 4278255361 0 255 1.
Proof. split; [vm_compute; reflexivity|]. exists 255%N. repeat split. Qed.
Print Assumptions C75_packed_color.
Print Assumptions C75_color_unique.
Print Assumptions C75_quotients.
