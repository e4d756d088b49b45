(** XmlFloatsFit.v - what strconv promises implies what the round trip needs,
    and which floats are kept exactly. *)
From Coq Require Import QArith Qround Qpower Lqa.
From Verif Require Import Base RbxValues SpecValues XmlDoc XmlText XmlCodec SpecXml XmlFloats XmlFloatsProofs.
Local Notation string := String.string.
Local Open Scope Z_scope.

Lemma rhe_comp x y : (x == y)%Q -> rhe x = rhe y.
Proof.
  intros H. unfold rhe. rewrite (Qfloor_comp x y H).
  assert (E : Qcompare (x - inject_Z (Qfloor y)) (1#2) = Qcompare (y - inject_Z (Qfloor y)) (1#2)) by (apply Qcompare_comp; [now rewrite H|reflexivity]).
  now rewrite E.
Qed.
Lemma round_pos_comp F x y : (0 < x)%Q -> (x == y)%Q -> round_pos F x = round_pos F y.
Proof.
  intros Hx H. assert (Hy : (0 < y)%Q) by now rewrite <- H. assert (E : flog 2 x = flog 2 y).
  { pose proof (flog_spec 2 y ltac:(lia) Hy) as [A B]. apply (flog2_of F x (flog 2 y) Hx); rewrite H; assumption. }
  unfold round_pos. rewrite E. rewrite (rhe_comp (x * pow 2 (- Z.max (flog 2 y - ff_mb F) (emin F))) (y * pow 2 (- Z.max (flog 2 y - ff_mb F) (emin F)))) by now rewrite H. reflexivity.
Qed.
Lemma digit_no_space c : is_digit c = true -> negb (isSpace c) = true.
Proof. intros H. destruct c; try reflexivity; discriminate H. Qed.
Lemma digits_no_space l : forallb is_digit l = true -> forallb (fun b => negb (isSpace b)) l = true.
Proof. induction l as [|c l IH]; intros H; [reflexivity|]. cbn [forallb] in *. apply andb_prop in H as [Hc H]. rewrite (digit_no_space c Hc). now apply IH. Qed.
Lemma form_word (neg : bool) t d x : form t d x -> word ((if neg then [x2d] else []) ++ t).
Proof.
  intros [ip fp e -> H1 H2 H3 H4 _ _]. split.
  - destruct neg; [discriminate|]. destruct ip; [contradiction|discriminate].
  - rewrite !forallb_app, (digits_no_space ip H1). assert (Hf : forallb (fun b => negb (isSpace b)) (frac_text fp) = true).
    { destruct fp as [|c fp]; [reflexivity|]. change (frac_text (c :: fp)) with (x2e :: c :: fp). change (forallb (fun b => negb (isSpace b)) (x2e :: c :: fp)) with (forallb (fun b => negb (isSpace b)) (c :: fp)). now apply digits_no_space. }
    rewrite Hf. assert (He : forallb (fun b => negb (isSpace b)) (exp_text e) = true).
    { destruct e as [[s ds]|]; [|reflexivity]. destruct H4 as [Hd _]. cbn [exp_text]. rewrite forallb_app, (digits_no_space ds Hd). now destruct s. }
    rewrite He. now destruct neg.
Qed.

Section Fit.
Variable fl : floats.
Hypothesis SC : strconv_ok fl.
Definition abs32 (f : N) : Z := Z.of_N f mod 2 ^ 31.
Definition abs64 (f : N) : Z := Z.of_N f mod 2 ^ 63.
Lemma sign32 f : f32 f -> Z.to_N (abs32 f + (if 2 ^ 31 <=? Z.of_N f then 2 ^ 31 else 0)) = f.
Proof.
  intros H. unfold f32 in H. unfold abs32. assert (H' : Z.of_N f < 2 ^ 32) by (change (2 ^ 32) with (Z.of_N (2 ^ 32)); lia). destruct (Z.leb_spec (2 ^ 31) (Z.of_N f)) as [L|L].
  - replace (Z.of_N f) with (Z.of_N f - 2 ^ 31 + 1 * 2 ^ 31) at 1 by lia. rewrite Z.mod_add, Z.mod_small by lia. lia.
  - rewrite Z.mod_small by lia. lia.
Qed.
Lemma form32 prec f : prec <> 0%N -> f32 f -> abs32 f < 0x7F800000 -> exists t d x,
  encodeFloatPrec fl prec f = OK t /\ word t /\ dec_parse t = Some (2 ^ 31 <=? Z.of_N f, d, x) /\
  (abs32 f = 0 -> d = 0) /\
  (0 < abs32 f -> d <> 0 /\ let '(q, dp) := round_digits (Z.of_N prec) (f_val F32 (abs32 f)) in (inject_Z d * pow 10 x == inject_Z q * pow 10 (dp - Z.of_N prec))%Q).
Proof.
  intros Hp Hf Ha. unfold encodeFloatPrec. rewrite (sc_fmt32 fl SC prec f Hp Hf). rewrite (format_g_finite F32 prec f Ha). change (Z.of_N f mod sign_bit F32) with (abs32 f).
  change (sign_bit F32) with (2 ^ 31). set (neg := 2 ^ 31 <=? Z.of_N f). assert (H0 : 0 <= abs32 f) by (apply Z.mod_pos_bound; lia).
  destruct (Z.eq_dec (abs32 f) 0) as [E|E].
  - rewrite E. destruct (fix_form neg _ _ _ (body_form0 F32 prec Hp)) as (b & Eb & Fb). rewrite Eb. exists ((if neg then [x2d] else []) ++ b), 0, 0.
    split; [reflexivity|]. split; [exact (form_word neg b 0 0 Fb)|]. split; [exact (form_parse neg b 0 0 Fb)|]. split; [reflexivity|lia].
  - assert (Ha2 : 0 < abs32 f < inf_bits F32) by (change (inf_bits F32) with 0x7F800000; lia).
    pose proof (body_form F32 ltac:(cbn; lia) ltac:(cbn; lia) ltac:(vm_compute; discriminate) ltac:(vm_compute; discriminate) prec (abs32 f) Hp Ha2) as B.
    pose proof (round_digits_spec (Z.of_N prec) (f_val F32 (abs32 f)) ltac:(lia) (f_val_pos F32 ltac:(cbn; lia) ltac:(cbn; lia) (abs32 f) ltac:(lia))) as RD.
    destruct (round_digits (Z.of_N prec) (f_val F32 (abs32 f))) as [q dp]. destruct RD as (R1 & _). destruct B as (d & x & B1 & B2).
    destruct (fix_form neg _ _ _ B1) as (b & Eb & Fb). rewrite Eb. exists ((if neg then [x2d] else []) ++ b), d, x.
    split; [reflexivity|]. split; [exact (form_word neg b d x Fb)|]. split; [exact (form_parse neg b d x Fb)|]. split; [lia|]. intros _. split; [|exact B2].
    intros ->. assert (Hq : 0 < q) by (apply Z.lt_le_trans with (10 ^ (Z.of_N prec - 1)); [apply Z.pow_pos_nonneg; lia|lia]).
    assert (0 < inject_Z q * pow 10 (dp - Z.of_N prec))%Q as G by (apply Qmult_lt_0_compat; [change 0%Q with (inject_Z 0); rewrite <- Zlt_Qlt; exact Hq|apply pow_pos; lia]).
    rewrite <- B2 in G. change (inject_Z 0) with 0%Q in G. lra.
Qed.
Lemma special32 prec f : prec <> 0%N -> f32 f -> 0x7F800000 <= abs32 f -> exists t, encodeFloatPrec fl prec f = OK t /\ word t /\
  fl_parse32 fl t = Some (if 0x7F800000 =? abs32 f then f else nan32).
Proof.
  intros Hp Hf Ha. unfold encodeFloatPrec. rewrite (sc_fmt32 fl SC prec f Hp Hf). unfold format_g. change (sign_bit F32) with (2 ^ 31). change (Z.of_N f mod 2 ^ 31) with (abs32 f). change (inf_bits F32) with 0x7F800000.
  destruct (Z.leb_spec 0x7F800000 (abs32 f)); [|lia]. destruct (sc_special32 fl SC) as (S1 & S2 & S3). pose proof (sign32 f Hf) as Hs.
  destruct (Z.eqb_spec 0x7F800000 (abs32 f)) as [E|E].
  - rewrite <- E in Hs. destruct (2 ^ 31 <=? Z.of_N f).
    + exists (str "-Inf"). split; [reflexivity|]. split; [split; [discriminate|reflexivity]|]. rewrite S3. f_equal. exact Hs.
    + exists (str "+Inf"). split; [reflexivity|]. split; [split; [discriminate|reflexivity]|]. rewrite S2. f_equal. exact Hs.
  - exists (str "NaN"). split; [reflexivity|]. split; [split; [discriminate|reflexivity]|]. exact S1.
Qed.
Lemma parse_finite32 neg d x a : d <> 0 -> round_pos F32 (inject_Z d * pow 10 x) = Some a -> round_to F32 (neg, d, x) = Some (Z.to_N (a + (if neg then 2 ^ 31 else 0))).
Proof. intros Hd H. unfold round_to. destruct (Z.eqb_spec d 0); [contradiction|]. rewrite H. reflexivity. Qed.
Lemma M32 : (f_val F32 (inf_bits F32 - 1) == inject_Z 340282346638528859811704183484516925440)%Q.
Proof. vm_compute. reflexivity. Qed.
Lemma M64 : (f_val F64 (inf_bits F64 - 1) == inject_Z (9007199254740991 * 2 ^ 971))%Q.
Proof. vm_compute. reflexivity. Qed.
Lemma pos_eq d x q dp prec : d <> 0 -> (0 < inject_Z q * pow 10 (dp - prec))%Q -> (inject_Z d * pow 10 x == inject_Z q * pow 10 (dp - prec))%Q -> (0 < inject_Z d * pow 10 x)%Q.
Proof. intros _ H E. now rewrite E. Qed.
Lemma q_pos prec F a : 1 <= prec -> 1 <= ff_mb F -> 2 <= ff_eb F -> 0 < a -> let '(q, dp) := round_digits prec (f_val F a) in (0 < inject_Z q * pow 10 (dp - prec))%Q.
Proof.
  intros Hp H1 H2 Ha. pose proof (round_digits_spec prec (f_val F a) Hp (f_val_pos F H1 H2 a Ha)) as RD. destruct (round_digits prec (f_val F a)) as [q dp]. destruct RD as [R _].
  apply Qmult_lt_0_compat; [|apply pow_pos; lia]. change 0%Q with (inject_Z 0). rewrite <- Zlt_Qlt. apply Z.lt_le_trans with (10 ^ (prec - 1)); [apply Z.pow_pos_nonneg; lia|lia].
Qed.
(** A float32 is read back from nine digits exactly. *)
Lemma exact32 f : f32 f -> exists t, encodeFloatPrec fl 9 f = OK t /\ word t /\ fl_parse32 fl t = Some (if 0x7F800000 <? abs32 f then nan32 else f).
Proof.
  intros Hf. assert (H0 : 0 <= abs32 f) by (apply Z.mod_pos_bound; lia). destruct (Z.lt_ge_cases (abs32 f) 0x7F800000) as [Ha|Ha].
  - destruct (form32 9 f ltac:(discriminate) Hf Ha) as (t & d & x & E & W & D & Z0 & Zp). exists t. split; [exact E|]. split; [exact W|]. rewrite (sc_parse32 fl SC t _ D).
    destruct (Z.ltb_spec 0x7F800000 (abs32 f)); [lia|]. pose proof (sign32 f Hf) as Hs. destruct (Z.eq_dec (abs32 f) 0) as [Ez|Ez].
    + rewrite (Z0 Ez). rewrite Ez in Hs. cbn [round_to Z.eqb]. change (sign_bit F32) with (2 ^ 31). f_equal. exact Hs.
    + destruct (Zp ltac:(lia)) as [Hd Hq]. rewrite (parse_finite32 _ d x (abs32 f) Hd); [now rewrite Hs|].
      pose proof (digits_enough F32 ltac:(cbn; lia) ltac:(cbn; lia) 9 (abs32 f) ltac:(lia) ltac:(vm_compute; reflexivity) ltac:(lia) ltac:(change (inf_bits F32) with 0x7F800000; lia)) as G.
      pose proof (q_pos 9 F32 (abs32 f) ltac:(lia) ltac:(cbn; lia) ltac:(cbn; lia) ltac:(lia)) as P. change (Z.of_N 9) with 9 in Hq.
      destruct (round_digits 9 (f_val F32 (abs32 f))) as [q dp]. rewrite <- G. apply round_pos_comp; [exact (pos_eq d x q dp 9 Hd P Hq)|exact Hq].
  - destruct (special32 9 f ltac:(discriminate) Hf Ha) as (t & E & W & P). exists t. split; [exact E|]. split; [exact W|]. rewrite P. f_equal.
    destruct (Z.eqb_spec 0x7F800000 (abs32 f)) as [e|e]; destruct (Z.ltb_spec 0x7F800000 (abs32 f)); try reflexivity; lia.
Qed.
Lemma read32 f : f32 f -> exists t g, encodeFloatPrec fl 6 f = OK t /\ word t /\ fl_parse32 fl t = Some g.
Proof.
  intros Hf. assert (H0 : 0 <= abs32 f) by (apply Z.mod_pos_bound; lia). destruct (Z.lt_ge_cases (abs32 f) 0x7F800000) as [Ha|Ha].
  - destruct (form32 6 f ltac:(discriminate) Hf Ha) as (t & d & x & E & W & D & Z0 & Zp). rewrite (sc_parse32 fl SC t _ D) || idtac.
    destruct (Z.eq_dec (abs32 f) 0) as [Ez|Ez].
    + eexists t, _. split; [exact E|]. split; [exact W|]. rewrite (sc_parse32 fl SC t _ D), (Z0 Ez). reflexivity.
    + destruct (Zp ltac:(lia)) as [Hd Hq]. change (Z.of_N 6) with 6 in Hq.
      pose proof (digits_not_over F32 ltac:(cbn; lia) ltac:(cbn; lia) ltac:(vm_compute; discriminate) ltac:(vm_compute; discriminate) 6 38 340282 (abs32 f) ltac:(lia) ltac:(change (inf_bits F32) with 0x7F800000; lia)
        ltac:(vm_compute; reflexivity) ltac:(vm_compute; discriminate) ltac:(vm_compute; reflexivity) ltac:(split; [vm_compute; discriminate|vm_compute; reflexivity])) as G.
      pose proof (q_pos 6 F32 (abs32 f) ltac:(lia) ltac:(cbn; lia) ltac:(cbn; lia) ltac:(lia)) as P.
      destruct (round_digits 6 (f_val F32 (abs32 f))) as [q dp]. destruct (round_pos_some F32 ltac:(cbn; lia) ltac:(cbn; lia) (inject_Z d * pow 10 x)) as (a & Ea & _).
      { exact (pos_eq d x q dp 6 Hd P Hq). } { rewrite Hq. exact G. }
      exists t. eexists. split; [exact E|]. split; [exact W|]. rewrite (sc_parse32 fl SC t _ D). exact (parse_finite32 _ d x a Hd Ea).
  - destruct (special32 6 f ltac:(discriminate) Hf Ha) as (t & E & W & P). exists t. eexists. split; [exact E|]. split; [exact W|]. exact P.
Qed.
Lemma read64 f : f64 f -> word (encodeDouble fl f) /\ exists g, fl_parse64 fl (encodeDouble fl f) = Some g.
Proof.
  intros Hf. unfold encodeDouble. rewrite (sc_fmt64 fl SC 9 f ltac:(discriminate) Hf). assert (H0 : 0 <= abs64 f) by (apply Z.mod_pos_bound; lia).
  destruct (Z.lt_ge_cases (abs64 f) (inf_bits F64)) as [Ha|Ha].
  - rewrite (format_g_finite F64 9 f Ha). change (Z.of_N f mod sign_bit F64) with (abs64 f). change (sign_bit F64) with (2 ^ 63). set (neg := 2 ^ 63 <=? Z.of_N f).
    destruct (Z.eq_dec (abs64 f) 0) as [E|E].
    + rewrite E. pose proof (body_form0 F64 9 ltac:(discriminate)) as B. split; [exact (form_word neg _ 0 0 B)|]. rewrite (sc_parse64 fl SC _ _ (form_parse neg _ 0 0 B)). eexists. reflexivity.
    + assert (Ha2 : 0 < abs64 f < inf_bits F64) by lia.
      pose proof (body_form F64 ltac:(cbn; lia) ltac:(cbn; lia) ltac:(vm_compute; discriminate) ltac:(vm_compute; discriminate) 9 (abs64 f) ltac:(discriminate) Ha2) as B.
      pose proof (q_pos 9 F64 (abs64 f) ltac:(lia) ltac:(cbn; lia) ltac:(cbn; lia) ltac:(lia)) as P. change (Z.of_N 9) with 9 in B.
      pose proof (digits_not_over F64 ltac:(cbn; lia) ltac:(cbn; lia) ltac:(vm_compute; discriminate) ltac:(vm_compute; discriminate) 9 308 179769313 (abs64 f) ltac:(lia) Ha2
        ltac:(vm_compute; reflexivity) ltac:(vm_compute; discriminate) ltac:(vm_compute; reflexivity) ltac:(split; [vm_compute; discriminate|vm_compute; reflexivity])) as G.
      destruct (round_digits 9 (f_val F64 (abs64 f))) as [q dp]. destruct B as (d & x & B1 & B2). split; [exact (form_word neg _ d x B1)|]. rewrite (sc_parse64 fl SC _ _ (form_parse neg _ d x B1)).
      assert (Hpos : (0 < inject_Z d * pow 10 x)%Q) by now rewrite B2.
      destruct (round_pos_some F64 ltac:(cbn; lia) ltac:(cbn; lia) (inject_Z d * pow 10 x) Hpos) as (a & Ea & _); [rewrite B2; exact G|].
      unfold round_to. destruct (Z.eqb_spec d 0) as [->|Hd]; [eexists; reflexivity|]. rewrite Ea. eexists. reflexivity.
  - unfold format_g. change (Z.of_N f mod sign_bit F64) with (abs64 f). destruct (Z.leb_spec (inf_bits F64) (abs64 f)); [|lia]. destruct (sc_special64 fl SC) as (S1 & S2 & S3).
    destruct (inf_bits F64 =? abs64 f); [destruct (sign_bit F64 <=? Z.of_N f)|].
    + split; [split; [discriminate|reflexivity]|]. eexists. exact S3.
    + split; [split; [discriminate|reflexivity]|]. eexists. exact S2.
    + split; [split; [discriminate|reflexivity]|]. eexists. exact S1.
Qed.
Theorem strconv_floats_ok : floats_ok fl.
Proof.
  constructor; [|exact read64]. intros prec f [->| ->] Hf; [exact (read32 f Hf)|]. destruct (exact32 f Hf) as (t & E & W & P). exists t. eexists. split; [exact E|]. split; [exact W|]. exact P.
Qed.
Theorem again9_exact f : f32 f -> again9 fl f = if 0x7F800000 <? abs32 f then nan32 else f.
Proof. intros Hf. unfold again9, again32. destruct (exact32 f Hf) as (t & E & _ & P). now rewrite E, P. Qed.

(** ** A file read and written again has the same text *)
Lemma not_small F prec a : 1 <= ff_mb F -> 2 <= ff_eb F -> 2 <= prec -> 2 ^ ff_mb F <= a -> let '(q, dp) := round_digits prec (f_val F a) in
  ((1#2) * pow 2 (emin F + ff_mb F) <= inject_Z q * pow 10 (dp - prec))%Q.
Proof.
  intros Hm He Hp Ha. assert (HP : 0 < 2 ^ ff_mb F) by (apply Z.pow_pos_nonneg; lia). pose proof (f_val_pos F Hm He a ltac:(lia)) as Hv.
  pose proof (round_digits_spec prec (f_val F a) ltac:(lia) Hv) as RD. pose proof (flog_spec 10 _ ltac:(lia) Hv) as [A _].
  destruct (parts F Hm He a ltac:(lia)) as (P1 & P2 & P3 & P4 & _). destruct (round_digits prec (f_val F a)) as [q dp]. destruct RD as (_ & _ & R3).
  assert (Hmant : 2 ^ ff_mb F <= f_mant F a) by (destruct (Z.eq_dec (f_exp F a) (emin F)) as [Q|Q]; [rewrite Q in P1; lia|apply P4; lia]).
  assert (V : (pow 2 (emin F + ff_mb F) <= f_val F a)%Q).
  { rewrite Z.add_comm, pow_plus by lia. apply Qle_trans with (pow 2 (ff_mb F) * pow 2 (f_exp F a))%Q.
    - rewrite !(Qmult_comm (pow 2 (ff_mb F))). apply Qmult_le_r; [apply pow_pos; lia|apply pow_le; lia].
    - unfold f_val. apply Qmult_le_r; [apply pow_pos; lia|]. rewrite pow_Z by lia. rewrite <- Zle_Qle. exact Hmant. }
  set (v := f_val F a) in *. set (e := flog 10 v) in *.
  assert (B : (pow 10 (e + 1 - prec) <= v)%Q) by (apply Qle_trans with (pow 10 e); [apply pow_le; lia|exact A]). lra.
Qed.
Lemma body_again F prec a y a' : 1 <= ff_mb F -> 2 <= ff_eb F -> 2 <= Z.of_N prec -> 2 * 10 ^ Z.of_N prec < 2 ^ ff_mb F ->
  2 ^ ff_mb F <= a -> (let '(q, dp) := round_digits (Z.of_N prec) (f_val F a) in y == inject_Z q * pow 10 (dp - Z.of_N prec))%Q ->
  round_pos F y = Some a' -> 0 < a' < inf_bits F /\ body F prec a' = body F prec a.
Proof.
  intros Hm He Hp Hd Ha Hy Hr. assert (HP : 0 < 2 ^ ff_mb F) by (apply Z.pow_pos_nonneg; lia). pose proof (not_small F (Z.of_N prec) a Hm He Hp Ha) as NS.
  pose proof (round_digits_spec (Z.of_N prec) (f_val F a) ltac:(lia) (f_val_pos F Hm He a ltac:(lia))) as RD. unfold body.
  destruct (round_digits (Z.of_N prec) (f_val F a)) as [q dp]. destruct RD as (R1 & _).
  destruct (digits_again F Hm He (Z.of_N prec) q dp y a' ltac:(lia) Hd R1 Hy ltac:(rewrite Hy; exact NS) Hr) as [Ha' ->]. split; [exact Ha'|].
  destruct (Z.eqb_spec a' 0); [lia|]. destruct (Z.eqb_spec a 0); [lia|]. reflexivity.
Qed.
(** Zero, and all but the numbers closest to zero. *)
Definition normal32 (f : N) : Prop := abs32 f = 0 \/ 2 ^ 23 <= abs32 f.
Definition normal64 (f : N) : Prop := abs64 f = 0 \/ 2 ^ 52 <= abs64 f.
Lemma signed32 (neg : bool) a : 0 <= a < 2 ^ 31 -> f32 (Z.to_N (a + (if neg then 2 ^ 31 else 0))) /\ abs32 (Z.to_N (a + (if neg then 2 ^ 31 else 0))) = a /\
  (2 ^ 31 <=? Z.of_N (Z.to_N (a + (if neg then 2 ^ 31 else 0)))) = neg.
Proof.
  intros Ha. unfold f32, abs32. rewrite Z2N.id by (destruct neg; lia). destruct neg.
  - split; [|split].
    + apply N2Z.inj_lt. rewrite Z2N.id by lia. change (Z.of_N (2 ^ 32)) with (2 ^ 32). lia.
    + replace (a + 2 ^ 31) with (a + 1 * 2 ^ 31) by lia. rewrite Z.mod_add, Z.mod_small by lia. reflexivity.
    + apply Z.leb_le. lia.
  - rewrite Z.add_0_r. split; [|split].
    + apply N2Z.inj_lt. rewrite Z2N.id by lia. change (Z.of_N (2 ^ 32)) with (2 ^ 32). lia.
    + now rewrite Z.mod_small by lia.
    + apply Z.leb_gt. lia.
Qed.
Lemma signed64 (neg : bool) a : 0 <= a < 2 ^ 63 -> f64 (Z.to_N (a + (if neg then 2 ^ 63 else 0))) /\ abs64 (Z.to_N (a + (if neg then 2 ^ 63 else 0))) = a /\
  (2 ^ 63 <=? Z.of_N (Z.to_N (a + (if neg then 2 ^ 63 else 0)))) = neg.
Proof.
  intros Ha. unfold f64, abs64. rewrite Z2N.id by (destruct neg; lia). destruct neg.
  - split; [|split].
    + apply N2Z.inj_lt. rewrite Z2N.id by lia. change (Z.of_N (2 ^ 64)) with (2 ^ 64). lia.
    + replace (a + 2 ^ 63) with (a + 1 * 2 ^ 63) by lia. rewrite Z.mod_add, Z.mod_small by lia. reflexivity.
    + apply Z.leb_le. lia.
  - rewrite Z.add_0_r. split; [|split].
    + apply N2Z.inj_lt. rewrite Z2N.id by lia. change (Z.of_N (2 ^ 64)) with (2 ^ 64). lia.
    + now rewrite Z.mod_small by lia.
    + apply Z.leb_gt. lia.
Qed.
Theorem text_again6 f : f32 f -> normal32 f -> encodeFloatPrec fl 6 (again6 fl f) = encodeFloatPrec fl 6 f.
Proof.
  intros Hf Hn. assert (H0 : 0 <= abs32 f < 2 ^ 31) by (apply Z.mod_pos_bound; lia). destruct (Z.lt_ge_cases (abs32 f) 0x7F800000) as [Ha|Ha].
  - destruct (form32 6 f ltac:(discriminate) Hf Ha) as (t & d & x & E & W & D & Z0 & Zp). unfold again6, again32. rewrite E, (sc_parse32 fl SC t _ D). rewrite <- E.
    destruct Hn as [Hz|Hn].
    + rewrite (Z0 Hz). cbn [round_to Z.eqb]. change (sign_bit F32) with (2 ^ 31). pose proof (sign32 f Hf) as Hs. rewrite Hz, Z.add_0_l in Hs. now rewrite Hs.
    + destruct (Zp ltac:(lia)) as [Hd Hq]. change (Z.of_N 6) with 6 in Hq.
      pose proof (digits_not_over F32 ltac:(cbn; lia) ltac:(cbn; lia) ltac:(vm_compute; discriminate) ltac:(vm_compute; discriminate) 6 38 340282 (abs32 f) ltac:(lia) ltac:(change (inf_bits F32) with 0x7F800000; lia)
        ltac:(vm_compute; reflexivity) ltac:(vm_compute; discriminate) ltac:(vm_compute; reflexivity) ltac:(split; [vm_compute; discriminate|vm_compute; reflexivity])) as G.
      pose proof (q_pos 6 F32 (abs32 f) ltac:(lia) ltac:(cbn; lia) ltac:(cbn; lia) ltac:(lia)) as P.
      assert (Hg : exists a, round_pos F32 (inject_Z d * pow 10 x) = Some a).
      { destruct (round_digits 6 (f_val F32 (abs32 f))) as [q dp]. destruct (round_pos_some F32 ltac:(cbn; lia) ltac:(cbn; lia) (inject_Z d * pow 10 x)) as (a & Ea & _).
        { exact (pos_eq d x q dp 6 Hd P Hq). } { rewrite Hq. exact G. } exists a. exact Ea. }
      destruct Hg as [a Ea]. rewrite (parse_finite32 _ d x a Hd Ea).
      destruct (body_again F32 6 (abs32 f) (inject_Z d * pow 10 x)%Q a ltac:(cbn; lia) ltac:(cbn; lia) ltac:(lia) ltac:(vm_compute; reflexivity) Hn Hq Ea) as [Hr Hb].
      change (inf_bits F32) with 0x7F800000 in Hr. destruct (signed32 (2 ^ 31 <=? Z.of_N f) a ltac:(lia)) as (S1 & S2 & S3). set (g := Z.to_N (a + _)) in *.
      unfold encodeFloatPrec. rewrite (sc_fmt32 fl SC 6 f ltac:(discriminate) Hf), (sc_fmt32 fl SC 6 g ltac:(discriminate) S1).
      rewrite (format_g_finite F32 6 f Ha). rewrite (format_g_finite F32 6 g) by (change (Z.of_N g mod sign_bit F32) with (abs32 g); rewrite S2; change (inf_bits F32) with 0x7F800000; lia).
      change (Z.of_N g mod sign_bit F32) with (abs32 g). change (Z.of_N f mod sign_bit F32) with (abs32 f). rewrite S2, Hb. change (sign_bit F32) with (2 ^ 31). rewrite S3. reflexivity.
  - destruct (special32 6 f ltac:(discriminate) Hf Ha) as (t & E & W & P). unfold again6, again32. rewrite E, P. destruct (Z.eqb_spec 0x7F800000 (abs32 f)) as [e|e]; [exact E|].
    rewrite <- E. unfold encodeFloatPrec. rewrite (sc_fmt32 fl SC 6 f ltac:(discriminate) Hf), (sc_fmt32 fl SC 6 nan32 ltac:(discriminate) ltac:(vm_compute; reflexivity)).
    unfold format_g. change (sign_bit F32) with (2 ^ 31). change (Z.of_N f mod 2 ^ 31) with (abs32 f). change (inf_bits F32) with 0x7F800000.
    destruct (Z.leb_spec 0x7F800000 (abs32 f)); [|lia]. destruct (Z.eqb_spec 0x7F800000 (abs32 f)); [contradiction|]. vm_compute. reflexivity.
Qed.
Theorem text_again64 f : f64 f -> normal64 f -> encodeDouble fl (again64 fl f) = encodeDouble fl f.
Proof.
  intros Hf Hn. assert (H0 : 0 <= abs64 f < 2 ^ 63) by (apply Z.mod_pos_bound; lia). unfold again64, encodeDouble. rewrite (sc_fmt64 fl SC 9 f ltac:(discriminate) Hf).
  assert (Hsg : Z.to_N (abs64 f + (if 2 ^ 63 <=? Z.of_N f then 2 ^ 63 else 0)) = f).
  { unfold f64 in Hf. unfold abs64. assert (H' : Z.of_N f < 2 ^ 64) by (change (2 ^ 64) with (Z.of_N (2 ^ 64)); lia). destruct (Z.leb_spec (2 ^ 63) (Z.of_N f)) as [L|L].
    - replace (Z.of_N f) with (Z.of_N f - 2 ^ 63 + 1 * 2 ^ 63) at 1 by lia. rewrite Z.mod_add, Z.mod_small by lia. lia.
    - rewrite Z.mod_small by lia. lia. }
  destruct (Z.lt_ge_cases (abs64 f) (inf_bits F64)) as [Ha|Ha].
  - rewrite (format_g_finite F64 9 f Ha). change (Z.of_N f mod sign_bit F64) with (abs64 f). change (sign_bit F64) with (2 ^ 63).
    destruct Hn as [Hz|Hn].
    + rewrite Hz. pose proof (body_form0 F64 9 ltac:(discriminate)) as B. rewrite (sc_parse64 fl SC _ _ (form_parse (2 ^ 63 <=? Z.of_N f) _ 0 0 B)). cbn [round_to Z.eqb]. change (sign_bit F64) with (2 ^ 63).
      rewrite Hz, Z.add_0_l in Hsg. rewrite Hsg. rewrite (sc_fmt64 fl SC 9 f ltac:(discriminate) Hf), (format_g_finite F64 9 f Ha). change (Z.of_N f mod sign_bit F64) with (abs64 f). now rewrite Hz.
    + assert (Ha2 : 0 < abs64 f < inf_bits F64) by lia.
      pose proof (body_form F64 ltac:(cbn; lia) ltac:(cbn; lia) ltac:(vm_compute; discriminate) ltac:(vm_compute; discriminate) 9 (abs64 f) ltac:(discriminate) Ha2) as B.
      pose proof (q_pos 9 F64 (abs64 f) ltac:(lia) ltac:(cbn; lia) ltac:(cbn; lia) ltac:(lia)) as P. change (Z.of_N 9) with 9 in B.
      pose proof (digits_not_over F64 ltac:(cbn; lia) ltac:(cbn; lia) ltac:(vm_compute; discriminate) ltac:(vm_compute; discriminate) 9 308 179769313 (abs64 f) ltac:(lia) Ha2
        ltac:(vm_compute; reflexivity) ltac:(vm_compute; discriminate) ltac:(vm_compute; reflexivity) ltac:(split; [vm_compute; discriminate|vm_compute; reflexivity])) as G.
      assert (B' : exists d x, form (body F64 9 (abs64 f)) d x /\ d <> 0 /\ (0 < inject_Z d * pow 10 x)%Q /\ (inject_Z d * pow 10 x <= f_val F64 (inf_bits F64 - 1))%Q /\
        (let '(q, dp) := round_digits 9 (f_val F64 (abs64 f)) in inject_Z d * pow 10 x == inject_Z q * pow 10 (dp - 9))%Q).
      { destruct (round_digits 9 (f_val F64 (abs64 f))) as [q dp]. destruct B as (d & x & B1 & B2). exists d, x. assert (Hpos : (0 < inject_Z d * pow 10 x)%Q) by now rewrite B2.
        split; [exact B1|]. split; [intros ->; change (inject_Z 0) with 0%Q in Hpos; lra|]. split; [exact Hpos|]. split; [rewrite B2; exact G|exact B2]. }
      destruct B' as (d & x & B1 & Hd & Hpos & Hle & Hq). destruct (round_pos_some F64 ltac:(cbn; lia) ltac:(cbn; lia) _ Hpos Hle) as (a & Ea & _).
      rewrite (sc_parse64 fl SC _ _ (form_parse (2 ^ 63 <=? Z.of_N f) _ d x B1)). unfold round_to. destruct (Z.eqb_spec d 0); [contradiction|]. rewrite Ea. cbn [option_map].
      destruct (body_again F64 9 (abs64 f) (inject_Z d * pow 10 x)%Q a ltac:(cbn; lia) ltac:(cbn; lia) ltac:(lia) ltac:(vm_compute; reflexivity) Hn Hq Ea) as [Hr Hb].
      change (inf_bits F64) with 0x7FF0000000000000 in Hr. change (sign_bit F64) with (2 ^ 63). destruct (signed64 (2 ^ 63 <=? Z.of_N f) a ltac:(lia)) as (S1 & S2 & S3). set (g := Z.to_N (a + _)) in *.
      rewrite (sc_fmt64 fl SC 9 g ltac:(discriminate) S1).
      rewrite (format_g_finite F64 9 g) by (change (Z.of_N g mod sign_bit F64) with (abs64 g); rewrite S2; change (inf_bits F64) with 0x7FF0000000000000; lia).
      change (Z.of_N g mod sign_bit F64) with (abs64 g). rewrite S2, Hb. change (sign_bit F64) with (2 ^ 63). rewrite S3. reflexivity.
  - destruct (sc_special64 fl SC) as (S1 & S2 & S3). unfold format_g. change (Z.of_N f mod sign_bit F64) with (abs64 f). destruct (Z.leb_spec (inf_bits F64) (abs64 f)); [|lia].
    change (sign_bit F64) with (2 ^ 63). destruct (Z.eqb_spec (inf_bits F64) (abs64 f)) as [Ei|Ei]; [destruct (2 ^ 63 <=? Z.of_N f) eqn:Es|].
    + rewrite S3. rewrite (sc_fmt64 fl SC) by (try discriminate; reflexivity). vm_compute. reflexivity.
    + rewrite S2. rewrite (sc_fmt64 fl SC) by (try discriminate; reflexivity). vm_compute. reflexivity.
    + rewrite S1. rewrite (sc_fmt64 fl SC) by (try discriminate; reflexivity). vm_compute. reflexivity.
Qed.
End Fit.
