(** PropArrays.v - property theorems C03, C04, C05, C07, C10, C11, C12, C13
    about interleaving and property arrays.  Vocabulary: SpecArrays.v. *)
From Verif Require Import Base RbxlValues RbxlArrays SpecValues SpecArrays
  RbxlValuesProofs TransposeProofs RbxlArraysProofs.

(** C03: for [count] elements of [size] bytes, interleaving puts byte i of
    element j at position i*count+j and nothing else. *)
Theorem C03_interleave_transposes : forall b size count,
  0 < size -> 0 < count -> length b = count * size ->
  exists r, interleave b (Z.of_nat size) = OK r /\ length r = length b /\
    (forall i j, i < size -> j < count -> elem_byte count r i j = elem_byte size b j i).
Proof.
  intros b size count Hs Hc Hb. exists (tr count size b).
  split; [apply interleave_tr; lia|]. split; [rewrite tr_length; lia|].
  intros i j Hi Hj. unfold elem_byte. now apply tr_cell.
Qed.
(** The documented example (arrays.go:75-77). *)
Example C03_witness : interleave (str "ABCDabcd") 4 = OK (str "AaBbCcDd").
Proof. vm_compute. reflexivity. Qed.
Example C03_witness_square : interleave (str "ABCabcXYZ") 3 = OK (str "AaXBbYCcZ").
Proof. vm_compute. reflexivity. Qed.

(** C04: the two are mutually inverse, and bad sizes are errors. *)
Theorem C04_deinterleave_inverse : forall b size,
  (0 < size)%Z -> b <> [] -> length b mod Z.to_nat size = 0 ->
  (exists x, interleave b size = OK x /\ length x = length b /\ deinterleave x size = OK b) /\
  (exists x, deinterleave b size = OK x /\ length x = length b /\ interleave x size = OK b).
Proof.
  intros b size Hs Hb Hm.
  set (s := Z.to_nat size) in *. assert (Hsz : size = Z.of_nat s) by (subst s; lia).
  assert (Hs0 : s <> 0) by lia.
  assert (Hl : length b = (length b / s) * s) by (pose proof (Nat.div_mod (length b) s Hs0); lia).
  assert (Hc : length b / s <> 0).
  { intros E. rewrite E in Hl. destruct b; [congruence|discriminate]. }
  rewrite Hsz. split.
  - exists (tr (length b / s) s b). split; [now apply interleave_tr|]. split; [rewrite tr_length; lia|].
    rewrite (deinterleave_tr _ s (length b / s)); [|lia|now rewrite tr_length]. now rewrite tr_tr.
  - exists (tr s (length b / s) b). split; [now apply deinterleave_tr|]. split; [rewrite tr_length; lia|].
    rewrite (interleave_tr _ s (length b / s)); [|lia|lia|rewrite tr_length; lia]. rewrite tr_tr; [reflexivity|lia].
Qed.
Theorem C04_bad_sizes : forall b size,
  (exists e, deinterleave b size = Err e) <-> (size <= 0)%Z \/ length b mod Z.to_nat size <> 0.
Proof. intros. apply deinterleave_cases. Qed.
Theorem C04_bad_sizes_interleave : forall b size,
  (exists e, interleave b size = Err e) <-> (size <= 0)%Z \/ length b mod Z.to_nat size <> 0.
Proof. intros. apply interleave_cases. Qed.
Example C04_witness :
  (exists x, interleave (str "0123456789ab") 4 = OK x /\ deinterleave x 4 = OK (str "0123456789ab")) /\
  (exists e, deinterleave (str "0123456") 4 = Err e).
Proof. split; vm_compute; eexists; [split|]; reflexivity. Qed.

(** C05: the code panics exactly on the empty array; deinterleave never does. *)
Theorem C05_interleave_panics_iff_empty : forall b size,
  (interleave b size = Panic <-> b = [] /\ (0 < size)%Z) /\ deinterleave b size <> Panic.
Proof. intros. split; [apply interleave_cases | apply deinterleave_cases]. Qed.
(** At the level of arrays: writing an array panics exactly when it is empty
    and of an interleaved or CFrame type. *)
Theorem C05_array_panics_iff_empty : forall t vs, wf_array (ARR t vs) ->
  (typeArrayToBytes (ARR t vs) = Panic <-> vs = [] /\ (is_interleaved_type t \/ is_cframe_type t)).
Proof.
  intros t vs H. rewrite <- (typeArrayToBytes_panic t vs H), interleaved_spec, is_cf_spec. reflexivity.
Qed.
Example C05_witness :
  wf_array (ARR tInt []) /\ typeArrayToBytes (ARR tInt []) = Panic /\
  typeArrayToBytes (ARR tCFrame []) = Panic /\ typeArrayToBytes (ARR tString []) = OK [x01].
Proof. repeat split; [constructor; [discriminate|constructor]]. Qed.

(** C07 (arrays): encoding writes one type byte and the declared length. *)
Theorem C07_array_size : forall a b, wf_array a -> typeArrayToBytes a = OK b ->
  length b = 1 + arr_bytes_len a.
Proof. intros a b H Hb. now apply typeArrayToBytes_length. Qed.
Example C07_witness :
  exists b, typeArrayToBytes (AOPT (Some (ARR tFont [VFont (str "a") 1 x02 (str "bc")])) [true]) = OK b /\
    arr_bytes_len (AOPT (Some (ARR tFont [VFont (str "a") 1 x02 (str "bc")])) [true]) = 17 /\ length b = 18.
Proof. vm_compute. eexists; repeat split. Qed.

(** C10: a non-empty list of int32 ids, written as wrapped differences and
    interleaved, reads back exactly. *)
Theorem C10_reference_roundtrip : forall ids, ids <> [] -> Forall (int_range 32) ids ->
  exists b, refArrayToBytes ids = OK b /\ length b = 4 * length ids /\
            refArrayFromBytes b (length ids) = OK ids.
Proof. exact refArray_roundtrip. Qed.
(** The deltas are genuinely differences: ids in sequence become ones. *)
Example C10_witness :
  ref_encode [5; 6; 7; -2147483648; 2147483647]%Z = [5; 1; 1; 2147483641; -1]%Z /\
  Forall (int_range 32) [5; 6; 7; -2147483648; 2147483647]%Z.
Proof. split; [vm_compute; reflexivity|]. repeat constructor; unfold int_range; lia. Qed.

(** C11: a non-empty typed array round-trips, consuming all its bytes,
    whatever spare capacity the buffer has. *)
Theorem C11_array_roundtrip : forall spare t vs,
  wf_array (ARR t vs) -> vs <> [] ->
  exists b, typeArrayToBytes (ARR t vs) = OK b /\
    typeArrayFromBytes spare b (length vs) = OK (ARR t (map stored vs), length b).
Proof.
  intros spare t vs Hwf Hn. inversion Hwf as [t' vs' Ht Hvs|]; subst.
  destruct (typeArrayToBytes_ok (ARR t vs) Hwf) as [b Hb]; [cbn; destruct vs; [congruence|discriminate]|].
  exists b. split; [exact Hb|].
  rewrite <- (app_nil_r b) at 1. now apply typeArray_plain.
Qed.
Example C11_witness :
  wf_array (ARR tReference [VReference 3; VReference (-1); VReference 7]) /\
  typeArrayToBytes (ARR tReference [VReference 3; VReference (-1); VReference 7])
    = OK [x13; x00;x00;x00; x00;x00;x00; x00;x00;x00; x06;x07;x10].
Proof.
  split; [|vm_compute; reflexivity].
  constructor; [discriminate|]. repeat constructor; cbn; unfold int_range; lia.
Qed.

(** C12: optional arrays of non-interleaved values round-trip with their
    presence flags, even with other bytes after them. *)
Theorem C12_optional_roundtrip : forall spare a rest,
  wf_array a -> arr_len a <> 0 -> ~ is_interleaved_type (elem_type a) ->
  exists b, typeArrayToBytes a = OK b /\
    typeArrayFromBytes spare (b ++ rest) (arr_len a) = OK (stored_array a, length b).
Proof.
  intros spare a rest Hwf Hn Hi. destruct (typeArrayToBytes_ok a Hwf Hn) as [b Hb].
  exists b. split; [exact Hb|]. apply optional_roundtrip; auto.
  rewrite <- interleaved_spec in Hi. destruct (interleaved (elem_type a)); congruence.
Qed.
(** The other inner types: decoding what was encoded is an error whenever the
    element size does not divide count+1. *)
Theorem C12_optional_interleaved_rejected : forall spare t vs ps b,
  wf_array (AOPT (Some (ARR t vs)) ps) -> is_interleaved_type t ->
  typeArrayToBytes (AOPT (Some (ARR t vs)) ps) = OK b ->
  (length vs + 1) mod Z.to_nat (tid_size t) <> 0 ->
  exists e, typeArrayFromBytes spare b (length vs) = Err e.
Proof.
  intros spare t vs ps b Hwf Hi Hb Hm. inversion Hwf as [|? ? Hw Hl]; subst.
  inversion Hw as [? ? Ht Hvs|]; subst.
  apply interleaved_spec in Hi. eapply optional_interleaved_fails; eauto.
Qed.
(** When it does divide, decoding still does not give the array back. *)
Definition opt_ints := AOPT (Some (ARR tInt [VInt 1; VInt 2; VInt 3])) [true; true; true].
Theorem C12_optional_interleaved_refuted : exists b,
  wf_array opt_ints /\ typeArrayToBytes opt_ints = OK b /\
  forall spare n, typeArrayFromBytes spare b 3 <> OK (opt_ints, n).
Proof.
  eexists. split; [|split; [vm_compute; reflexivity|]].
  - repeat constructor; try discriminate; cbn; unfold int_range; lia.
  - intros spare n. vm_compute. discriminate.
Qed.
Definition cframe_a : value := VCFrame x00 [1;2;3;4;5;6;7;8;4294967295]%N (Vec3 9 8 7).
Definition cframe_b : value := VCFrame x02 [0;0;0;0;0;0;0;0;0]%N (Vec3 1 2 3).
Example C12_witness :
  let a := AOPT (Some (ARR tCFrame [cframe_a; cframe_b])) [true; false] in
  wf_array a /\ arr_len a <> 0 /\ ~ is_interleaved_type (elem_type a) /\ stored_array a = a.
Proof.
  repeat split.
  - repeat constructor; discriminate.
  - discriminate.
  - cbn. intuition discriminate.
Qed.
Example C12_witness_rejected :
  let a := AOPT (Some (ARR tInt [VInt 1; VInt 2])) [true; true] in
  wf_array a /\ is_interleaved_type tInt /\ (2 + 1) mod Z.to_nat (tid_size tInt) <> 0 /\
  exists b, typeArrayToBytes a = OK b.
Proof.
  repeat split.
  - repeat constructor; try discriminate; cbn; unfold int_range; lia.
  - cbn; auto.
  - vm_compute. discriminate.
  - vm_compute. eexists; reflexivity.
Qed.

(** C13: decoding a typed array from arbitrary bytes: an error, or a
    well-formed array of the asked length within the buffer, or a panic; and
    the panic happens exactly when (under any number of Optional wrappers) the
    element type is CFrame/CFrameQuat, the rotation ids parse, and what is left
    of the buffer with its spare capacity is shorter than the positions. *)
Definition cframe_positions_missing (spare n : nat) (b : bytes) : Prop :=
  exists wrappers t body vs rest m,
    b = repeat (tid_byte tOptional) wrappers ++ tid_byte t :: body /\
  is_cframe_type t /\ heads_from t n 0 body = OK (vs, rest, m) /\
  length rest + spare < 12 * n.

Theorem C13_array_decode_cases : forall spare n b,
  (exists e, typeArrayFromBytes spare b n = Err e) \/
  (exists a m, typeArrayFromBytes spare b n = OK (a, m) /\ wf_array a /\ arr_len a = n /\ m <= length b) \/
  (typeArrayFromBytes spare b n = Panic /\ cframe_positions_missing spare n b).
Proof. exact typeArrayFromBytes_total. Qed.
Theorem C13_array_decode_panic_exact : forall spare n b,
  typeArrayFromBytes spare b n = Panic <-> cframe_positions_missing spare n b.
Proof.
  intros spare n b. split; [|apply typeArrayFromBytes_panics].
  intros H. destruct (typeArrayFromBytes_total spare n b) as [[e E]|[(a & m & E & _)|[_ Hp]]];
    [congruence|congruence|exact Hp].
Qed.
(** Hence no panic for any other element type, on any bytes. *)
Theorem C13_other_types_never_panic : forall spare n t body,
  t <> tOptional -> ~ is_cframe_type t ->
  typeArrayFromBytes spare (tid_byte t :: body) n <> Panic.
Proof.
  intros spare n t body Ho Hc H. apply C13_array_decode_panic_exact in H.
  destruct H as (k & t' & body' & vs & r & m & Hb & Ht & _).
  destruct k; cbn [repeat app] in Hb.
  - injection Hb as Hb _. assert (t = t').
    { pose proof (tid_of_byte_byte t) as E1. rewrite Hb, tid_of_byte_byte in E1. congruence. }
    now subst.
  - injection Hb as Hb _. apply Ho. pose proof (tid_of_byte_byte t) as E1. rewrite Hb in E1. cbn in E1. congruence.
Qed.
(** The panic is reachable: two CFrames, enough for each per-element check. *)
Example C13_witness_panic :
  let b := tid_byte tCFrame :: x02 :: repeat x02 20 in
  typeArrayFromBytes 0 b 2 = Panic.
Proof. vm_compute. reflexivity. Qed.
Example C13_witness_other : tVector3 <> tOptional /\ ~ is_cframe_type tVector3.
Proof. split; [discriminate|]. intros [H|H]; discriminate. Qed.

Print Assumptions C03_interleave_transposes.
Print Assumptions C04_deinterleave_inverse.
Print Assumptions C04_bad_sizes.
Print Assumptions C04_bad_sizes_interleave.
Print Assumptions C05_interleave_panics_iff_empty.
Print Assumptions C05_array_panics_iff_empty.
Print Assumptions C07_array_size.
Print Assumptions C10_reference_roundtrip.
Print Assumptions C11_array_roundtrip.
Print Assumptions C12_optional_roundtrip.
Print Assumptions C12_optional_interleaved_rejected.
Print Assumptions C12_optional_interleaved_refuted.
Print Assumptions C13_array_decode_cases.
Print Assumptions C13_array_decode_panic_exact.
Print Assumptions C13_other_types_never_panic.
