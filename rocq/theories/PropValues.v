(** PropValues.v - property theorems C01, C02, C06, C07, C08, C09 about single
    binary values.  Specification vocabulary: SpecValues.v. *)
From Verif Require Import Base RbxlValues SpecValues RbxlWordProofs RbxlValuesProofs.

(** C01: the zigzag transform of a [bits]-wide integer is a bijection onto the
    words, and maps magnitude m to 2m or 2m-1. *)
Definition zigzag_bijection (enc : Z -> N) (dec : N -> Z) (bits : Z) : Prop :=
  (forall n, int_range bits n ->
     (enc n < 2 ^ Z.to_N bits)%N /\ dec (enc n) = n /\
     Z.of_N (enc n) = (if (n <? 0)%Z then 2 * Z.abs n - 1 else 2 * Z.abs n)%Z) /\
  (forall w, (w < 2 ^ Z.to_N bits)%N -> int_range bits (dec w) /\ enc (dec w) = w).

Lemma zigzag_bijection_gen bits : (2 <= bits)%Z ->
  zigzag_bijection (encodeZigzag bits) (decodeZigzag bits) bits.
Proof.
  intros Hb. split.
  - intros n Hn. apply int_range_in in Hn. split; [now apply encodeZigzag_lt|].
    split; [now apply decode_encodeZigzag|].
    rewrite encodeZigzag_spec by assumption. destruct (n <? 0)%Z eqn:E; lia.
  - intros w Hw. destruct (encode_decodeZigzag bits w Hb Hw) as [H1 H2].
    split; [now apply int_range_in | exact H2].
Qed.

Theorem C01_zigzag_lossless :
  zigzag_bijection encodeZigzag32 decodeZigzag32 32 /\
  zigzag_bijection encodeZigzag64 decodeZigzag64 64.
Proof. split; apply zigzag_bijection_gen; lia. Qed.

Example C01_witness :
  int_range 32 (-2147483648) /\ encodeZigzag32 (-2147483648) = 4294967295%N /\
  decodeZigzag32 4294967295 = (-2147483648)%Z /\
  int_range 64 (-3) /\ encodeZigzag64 (-3) = 5%N.
Proof. unfold int_range. repeat split; try reflexivity; lia. Qed.

(** C02: bit patterns of float32 values survive exactly; the stored word is the
    rotation that puts the sign bit last. *)
Theorem C02_float_lossless :
  (forall f, f32 f -> f32 (encodeRobloxFloat f) /\ decodeRobloxFloat (encodeRobloxFloat f) = f /\
     encodeRobloxFloat f = (2 * (f mod 2 ^ 31) + f / 2 ^ 31)%N) /\
  (forall w, f32 w -> f32 (decodeRobloxFloat w) /\ encodeRobloxFloat (decodeRobloxFloat w) = w).
Proof.
  split; intros f Hf; repeat split.
  - now apply encodeRobloxFloat_lt.
  - now apply decode_encodeRobloxFloat.
  - now apply encodeRobloxFloat_spec.
  - now apply decodeRobloxFloat_lt.
  - now apply encode_decodeRobloxFloat.
Qed.

(** -1.5, a signalling NaN and -0. *)
Example C02_witness :
  f32 3217031168 /\ decodeRobloxFloat (encodeRobloxFloat 3217031168) = 3217031168%N /\
  decodeRobloxFloat (encodeRobloxFloat 2143289345) = 2143289345%N /\
  encodeRobloxFloat 2147483648 = 1%N.
Proof. repeat split. Qed.

(** C06: decode after encode, whatever follows in the buffer. *)
Theorem C06_value_roundtrip : forall v rest, wf_value v ->
  from_bytes (vtype v) (to_bytes v ++ rest) = OK (stored v, length (to_bytes v)).
Proof. intros v rest H. rewrite to_bytes_length by exact H. now apply from_to_bytes. Qed.

(** [stored] is the identity for every type but the three conditional ones. *)
Theorem C06_stored_exact : forall v,
  ~ In (vtype v) [tCFrame; tCFrameQuat; tPhysicalProperties] -> stored v = v.
Proof. intros v H. destruct v; try reflexivity; exfalso; apply H; cbn; auto. Qed.
(** ... and for those it only forgets what the special id / flag makes unused. *)
Theorem C06_stored_conditional : forall sp rot x y z w p d f e fw ew,
  stored (VCFrame x00 rot p) = VCFrame x00 rot p /\
  stored (VCFrameQuat x00 x y z w p) = VCFrameQuat x00 x y z w p /\
  (sp <> x00 -> stored (VPhysicalProperties sp d f e fw ew) = VPhysicalProperties sp d f e fw ew).
Proof.
  intros. cbn. repeat split. intros H. destruct (Byte.eqb sp x00) eqn:E; [|reflexivity].
  apply Byte.byte_dec_bl in E. congruence.
Qed.

Definition font_example : value := VFont (str "rbxasset://fonts/x") 700 x01 (str "face").
Definition cframe_example : value := VCFrame x00 [1;2;3;4;5;6;7;8;4294967295]%N (Vec3 9 8 7).
Example C06_witness :
  wf_value font_example /\ wf_value cframe_example /\
  wf_value (VNumberSequence [NSK 1 2 3; NSK 4 5 6]) /\
  from_bytes tFont (to_bytes font_example ++ str "junk") = OK (font_example, 33) /\
  from_bytes tCFrame (to_bytes cframe_example ++ str "junk") = OK (cframe_example, 49).
Proof.
  split; [vm_compute; repeat split|].
  split; [unfold wf_value, cframe_example; split; [reflexivity|]; split;
          [repeat (apply Forall_cons; [vm_compute; reflexivity|]); apply Forall_nil | vm_compute; repeat split]|].
  split; [split; [vm_compute; reflexivity|];
          repeat (apply Forall_cons; [vm_compute; repeat split|]); apply Forall_nil|].
  split; vm_compute; reflexivity.
Qed.

(** C07 (values): the declared length is the encoded length, and agrees with
    the type's declared size when that is constant. *)
Theorem C07_value_size : forall v, wf_value v ->
  length (to_bytes v) = bytes_len v /\
  ((0 < tid_size (vtype v))%Z -> Z.of_nat (length (to_bytes v)) = tid_size (vtype v)) /\
  (tid_size (vtype v) = zCond ->
     exists c rest, to_bytes v = c :: rest /\ length (to_bytes v) = cond_size (vtype v) c).
Proof.
  intros v Hv. pose proof (to_bytes_length v Hv) as Hl. split; [exact Hl|]. rewrite Hl.
  split; destruct v; cbn [vtype tid_size bytes_len to_bytes]; try reflexivity;
    unfold zArray, zCond, zOpt, zOther; try lia; intros _; eauto.
Qed.

(** C08: on arbitrary bytes decoding gives an error or a value: never a panic,
    never more bytes than available.  The value is representable, of the asked
    type, and re-encodes to the very bytes read (unless the type has spare
    bits). *)
Theorem C08_decode_total : forall t b, t <> tOptional ->
  (exists e, from_bytes t b = Err e) \/
  (exists v n, from_bytes t b = OK (v, n) /\ n <= length b /\ vtype v = t /\ wf_value v /\
     n = length (to_bytes v) /\
     (has_spare_bits t = false -> firstn n b = to_bytes v)).
Proof.
  intros t b Ht. destruct (from_bytes_total t b Ht) as [H|(v & n & E & G)]; [now left|right].
  destruct G as (G1 & G2 & G3 & G4 & G5 & G6). exists v, n.
  rewrite to_bytes_length by exact G2. repeat split; auto.
  intros Hs. destruct (G6 Hs) as [rest ->]. subst n. apply firstn_app_exact. now apply to_bytes_length.
Qed.
(** Decoding looks only at the bytes it consumes. *)
Theorem C08_decode_prefix_only : forall t b more v n,
  from_bytes t b = OK (v, n) -> from_bytes t (b ++ more) = OK (v, n).
Proof. exact from_bytes_extend. Qed.

Example C08_witness :
  tUniqueId <> tOptional /\
  from_bytes tUniqueId (str "0123456789abcdef!") = OK (VUniqueId 2025688207499342515 875902519 808530483, 16) /\
  (exists e, from_bytes tUniqueId (str "short") = Err e) /\
  (exists e, from_bytes tString [xff; xff; xff; xff; x41] = Err e).
Proof. split; [discriminate|]. split; [vm_compute; reflexivity|]. split; vm_compute; eexists; reflexivity. Qed.

(** C09: any strict prefix of an encoding is rejected with an error. *)
Theorem C09_truncation_rejected : forall v p s, wf_value v ->
  to_bytes v = p ++ s -> s <> [] -> exists e, from_bytes (vtype v) p = Err e.
Proof. exact truncated_rejected. Qed.

Example C09_witness :
  wf_value font_example /\ to_bytes font_example = firstn 30 (to_bytes font_example) ++ skipn 30 (to_bytes font_example) /\
  skipn 30 (to_bytes font_example) <> [].
Proof.
  split; [vm_compute; repeat split|]. split; [vm_compute; reflexivity|]. vm_compute. discriminate.
Qed.

Print Assumptions C01_zigzag_lossless.
Print Assumptions C02_float_lossless.
Print Assumptions C06_value_roundtrip.
Print Assumptions C06_stored_exact.
Print Assumptions C06_stored_conditional.
Print Assumptions C07_value_size.
Print Assumptions C08_decode_total.
Print Assumptions C08_decode_prefix_only.
Print Assumptions C09_truncation_rejected.
