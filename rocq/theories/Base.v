(** Base.v - bytes, machine words and outcomes shared by every part of the model.

    Nothing here models a particular function of the repository except where
    cited; it is the semantics of the Go built-ins the code relies on. *)
From Coq Require Export List NArith ZArith Lia Bool Arith.
From Coq Require Export Strings.Byte.
From Coq Require Strings.String.
Export (notations) Coq.Strings.String.
From Coq Require Export ZifyBool ZifyNat ZifyN.
Export ListNotations.
#[global] Open Scope list_scope.

Notation byte := Byte.byte.
Definition bytes := list byte.

(** A literal Go string as bytes. *)
Definition str (s : String.string) : bytes := String.list_byte_of_string s.
Arguments str s%string.

(** ** Outcomes.  A Go call either returns normally, returns an [error], or
    panics.  [Hang] stands for exhaustion of the model's fuel: every theorem
    that mentions a fuelled function excludes it. *)
Inductive outcome (E A : Type) : Type :=
| OK (a : A)
| Err (e : E)
| Panic
| Hang.
Arguments OK {E A} a.
Arguments Err {E A} e.
Arguments Panic {E A}.
Arguments Hang {E A}.

Definition obind {E A B} (o : outcome E A) (f : A -> outcome E B) : outcome E B :=
  match o with OK a => f a | Err e => Err e | Panic => Panic | Hang => Hang end.
Notation "x <- o ;; k" := (obind o (fun x => k))
  (at level 100, o at next level, right associativity).
Notation "' p <- o ;; k" := (obind o (fun x => match x with p => k end))
  (at level 100, p pattern, o at next level, right associativity).

Definition is_ok {E A} (o : outcome E A) : bool := match o with OK _ => true | _ => false end.

(** ** Bytes and words. *)
Definition b2N (b : byte) : N := Byte.to_N b.
(** Go's conversion byte(x): keep the low eight bits. *)
Definition N2b (x : N) : byte :=
  match Byte.of_N (x mod 256) with Some b => b | None => x00 end.

(** binary.LittleEndian.PutUintK: the low [n] bytes of [x], lowest first. *)
Fixpoint le_bytes (n : nat) (x : N) : bytes :=
  match n with O => [] | S n => N2b x :: le_bytes n (x / 256) end.
(** binary.LittleEndian.UintK on exactly the given bytes. *)
Fixpoint le_N (bs : bytes) : N :=
  match bs with [] => 0%N | b :: r => (b2N b + 256 * le_N r)%N end.
(** binary.BigEndian variants. *)
Definition be_bytes (n : nat) (x : N) : bytes := rev (le_bytes n x).
Definition be_N (bs : bytes) : N := le_N (rev bs).

(** Conversions between the signed integers Go works with and their
    two's-complement words: [wrapZ k z] is intK(z), [toN k z] is uintK(z). *)
Definition toN (bits : Z) (z : Z) : N := Z.to_N (z mod 2 ^ bits).
Definition wrapZ (bits : Z) (z : Z) : Z :=
  let m := (z mod 2 ^ bits)%Z in
  if (m <? 2 ^ (bits - 1))%Z then m else (m - 2 ^ bits)%Z.
Definition ofN (bits : Z) (n : N) : Z := wrapZ bits (Z.of_N n).

Definition in_i (bits : Z) (z : Z) : bool :=
  ((- 2 ^ (bits - 1) <=? z) && (z <? 2 ^ (bits - 1)))%Z.
Definition in_u (bits : N) (n : N) : bool := (n <? 2 ^ bits)%N.

Definition i32 := in_i 32.  Definition i64 := in_i 64.  Definition i16 := in_i 16.
Definition u8 := in_u 8. Definition u16 := in_u 16.
Definition u32 := in_u 32.  Definition u64 := in_u 64.

(** Byte-wise string comparison: Go's [<] on strings. *)
Fixpoint bytes_ltb (a b : bytes) : bool :=
  match a, b with
  | _, [] => false
  | [], _ :: _ => true
  | x :: a, y :: b =>
      if (b2N x <? b2N y)%N then true
      else if (b2N y <? b2N x)%N then false else bytes_ltb a b
  end.
Fixpoint bytes_eqb (a b : bytes) : bool :=
  match a, b with
  | [], [] => true
  | x :: a, y :: b => Byte.eqb x y && bytes_eqb a b
  | _, _ => false
  end.

(** ** Word lemmas. *)
Lemma b2N_lt b : (b2N b < 256)%N.
Proof. unfold b2N. pose proof (Byte.to_N_bounded b). lia. Qed.

Lemma N2b_b2N b : N2b (b2N b) = b.
Proof.
  unfold N2b, b2N. rewrite N.mod_small by (pose proof (Byte.to_N_bounded b); lia).
  now rewrite Byte.of_to_N.
Qed.

Lemma b2N_N2b x : b2N (N2b x) = (x mod 256)%N.
Proof.
  unfold N2b, b2N.
  destruct (Byte.of_N (x mod 256)) as [b|] eqn:E.
  - now apply Byte.to_of_N.
  - apply Byte.of_N_None_iff in E.
    pose proof (N.mod_lt x 256). lia.
Qed.

Lemma b2N_inj a b : b2N a = b2N b -> a = b.
Proof. intros H. rewrite <- (N2b_b2N a), <- (N2b_b2N b). now rewrite H. Qed.

Lemma le_bytes_length n x : length (le_bytes n x) = n.
Proof. revert x; induction n as [|n IH]; intros x; cbn; congruence. Qed.

Lemma be_bytes_length n x : length (be_bytes n x) = n.
Proof. unfold be_bytes. now rewrite rev_length, le_bytes_length. Qed.

Lemma le_N_lt bs : (le_N bs < 2 ^ (8 * N.of_nat (length bs)))%N.
Proof.
  induction bs as [|b bs IH]; cbn [le_N length].
  - now vm_compute.
  - pose proof (b2N_lt b).
    replace (8 * N.of_nat (S (length bs)))%N with (8 + 8 * N.of_nat (length bs))%N by lia.
    rewrite N.pow_add_r. change (2 ^ 8)%N with 256%N. nia.
Qed.

Lemma le_N_le_bytes n x : le_N (le_bytes n x) = (x mod 2 ^ (8 * N.of_nat n))%N.
Proof.
  revert x; induction n as [|n IH]; intros x; cbn [le_bytes le_N].
  - now rewrite N.mod_1_r.
  - rewrite IH, b2N_N2b.
    replace (8 * N.of_nat (S n))%N with (8 + 8 * N.of_nat n)%N by lia.
    rewrite N.pow_add_r. change (2 ^ 8)%N with 256%N.
    rewrite N.mod_mul_r; [reflexivity| lia | apply N.pow_nonzero; lia].
Qed.

Lemma le_bytes_le_N bs : le_bytes (length bs) (le_N bs) = bs.
Proof.
  induction bs as [|b bs IH]; cbn [le_bytes le_N length]; [reflexivity|].
  pose proof (b2N_lt b) as Hb.
  assert (H1 : N2b (b2N b + 256 * le_N bs) = b).
  { unfold N2b. rewrite N.mul_comm, N.mod_add by lia.
    change (N2b (b2N b) = b). apply N2b_b2N. }
  rewrite H1. f_equal.
  replace ((b2N b + 256 * le_N bs) / 256)%N with (le_N bs); [exact IH|].
  rewrite N.mul_comm, N.div_add by lia. rewrite N.div_small by lia. lia.
Qed.

Lemma be_N_be_bytes n x : be_N (be_bytes n x) = (x mod 2 ^ (8 * N.of_nat n))%N.
Proof. unfold be_N, be_bytes. rewrite rev_involutive. apply le_N_le_bytes. Qed.

Lemma be_bytes_be_N bs : be_bytes (length bs) (be_N bs) = bs.
Proof.
  unfold be_N, be_bytes. rewrite <- (rev_length bs), le_bytes_le_N. apply rev_involutive.
Qed.

Lemma be_N_lt bs : (be_N bs < 2 ^ (8 * N.of_nat (length bs)))%N.
Proof. unfold be_N. rewrite <- (rev_length bs). apply le_N_lt. Qed.

Lemma le_N_le_bytes_small n x :
  (x < 2 ^ (8 * N.of_nat n))%N -> le_N (le_bytes n x) = x.
Proof. intros H. rewrite le_N_le_bytes. now apply N.mod_small. Qed.
Lemma be_N_be_bytes_small n x :
  (x < 2 ^ (8 * N.of_nat n))%N -> be_N (be_bytes n x) = x.
Proof. intros H. rewrite be_N_be_bytes. now apply N.mod_small. Qed.

(** ** Signed conversions. *)
Lemma wrapZ_range bits z : (0 < bits)%Z -> in_i bits (wrapZ bits z) = true.
Proof.
  intros Hb. unfold in_i, wrapZ.
  assert (Hp : (2 ^ bits = 2 * 2 ^ (bits - 1))%Z)
    by (rewrite <- Z.pow_succ_r by lia; f_equal; lia).
  assert (H0 : (0 < 2 ^ (bits - 1))%Z) by (apply Z.pow_pos_nonneg; lia).
  pose proof (Z.mod_pos_bound z (2 ^ bits)).
  destruct (z mod 2 ^ bits <? 2 ^ (bits - 1))%Z eqn:E; lia.
Qed.

Lemma wrapZ_id bits z : (0 < bits)%Z -> in_i bits z = true -> wrapZ bits z = z.
Proof.
  intros Hb H. unfold in_i in H. unfold wrapZ.
  assert (Hp : (2 ^ bits = 2 * 2 ^ (bits - 1))%Z)
    by (rewrite <- Z.pow_succ_r by lia; f_equal; lia).
  assert (H0 : (0 < 2 ^ (bits - 1))%Z) by (apply Z.pow_pos_nonneg; lia).
  destruct (Z.leb_spec 0 z).
  - rewrite Z.mod_small by lia. destruct (z <? 2 ^ (bits - 1))%Z eqn:E; lia.
  - assert (z mod 2 ^ bits = z + 2 ^ bits)%Z as ->.
    { symmetry. apply Z.mod_unique with (q := (-1)%Z); lia. }
    destruct (z + 2 ^ bits <? 2 ^ (bits - 1))%Z eqn:E; lia.
Qed.

Lemma wrapZ_mod bits z : (0 < bits)%Z -> (wrapZ bits z mod 2 ^ bits = z mod 2 ^ bits)%Z.
Proof.
  intros Hb. unfold wrapZ.
  assert (H0 : (0 < 2 ^ bits)%Z) by (apply Z.pow_pos_nonneg; lia).
  destruct (z mod 2 ^ bits <? 2 ^ (bits - 1))%Z.
  - apply Z.mod_mod; lia.
  - replace (z mod 2 ^ bits - 2 ^ bits)%Z with (z mod 2 ^ bits + (-1) * 2 ^ bits)%Z by lia.
    rewrite Z.mod_add by lia. apply Z.mod_mod; lia.
Qed.

Lemma wrapZ_eq_mod bits a b : (a mod 2 ^ bits = b mod 2 ^ bits)%Z -> wrapZ bits a = wrapZ bits b.
Proof. intros H. unfold wrapZ. now rewrite H. Qed.

Lemma ofN_toN bits z : (0 < bits)%Z -> in_i bits z = true -> ofN bits (toN bits z) = z.
Proof.
  intros Hb H. unfold ofN, toN.
  assert (H0 : (0 < 2 ^ bits)%Z) by (apply Z.pow_pos_nonneg; lia).
  rewrite Z2N.id by (apply Z.mod_pos_bound; lia).
  rewrite (wrapZ_eq_mod bits _ z) by (apply Z.mod_mod; lia).
  now apply wrapZ_id.
Qed.

Lemma toN_lt bits z : (0 < bits)%Z -> (toN bits z < 2 ^ Z.to_N bits)%N.
Proof.
  intros Hb. unfold toN.
  assert (H0 : (0 < 2 ^ bits)%Z) by (apply Z.pow_pos_nonneg; lia).
  pose proof (Z.mod_pos_bound z (2 ^ bits) H0).
  apply N2Z.inj_lt. rewrite Z2N.id by lia.
  rewrite N2Z.inj_pow, Z2N.id by lia. change (Z.of_N 2) with 2%Z. lia.
Qed.

Lemma toN_ofN bits n : (0 < bits)%Z -> (n < 2 ^ Z.to_N bits)%N -> toN bits (ofN bits n) = n.
Proof.
  intros Hb H. unfold toN, ofN. rewrite wrapZ_mod by lia.
  rewrite Z.mod_small; [apply N2Z.id|].
  apply N2Z.inj_lt in H. rewrite N2Z.inj_pow, Z2N.id in H by lia.
  change (Z.of_N 2) with 2%Z in H. lia.
Qed.

Lemma ofN_range bits n : (0 < bits)%Z -> in_i bits (ofN bits n) = true.
Proof. intros. now apply wrapZ_range. Qed.

(** ** String comparison lemmas. *)
Lemma bytes_eqb_eq a b : bytes_eqb a b = true <-> a = b.
Proof.
  revert b; induction a as [|x a IH]; destruct b as [|y b]; cbn; try (split; congruence).
  rewrite andb_true_iff, IH.
  split.
  - intros [H1 ->]. apply Byte.byte_dec_bl in H1. now subst.
  - intros [= -> ->]. split; [apply Byte.byte_dec_lb|]; reflexivity.
Qed.
Lemma bytes_eqb_refl a : bytes_eqb a a = true.
Proof. now apply bytes_eqb_eq. Qed.
Lemma bytes_eqb_neq a b : bytes_eqb a b = false <-> a <> b.
Proof.
  rewrite <- bytes_eqb_eq. destruct (bytes_eqb a b); split; congruence.
Qed.
Lemma bytes_eq_dec (a b : bytes) : {a = b} + {a <> b}.
Proof. destruct (bytes_eqb a b) eqn:E; [left; now apply bytes_eqb_eq | right; now apply bytes_eqb_neq]. Qed.

Lemma bytes_ltb_irrefl a : bytes_ltb a a = false.
Proof. induction a as [|x a IH]; cbn; [reflexivity|]. now rewrite N.ltb_irrefl. Qed.

Lemma bytes_ltb_trans a b c :
  bytes_ltb a b = true -> bytes_ltb b c = true -> bytes_ltb a c = true.
Proof.
  revert b c; induction a as [|x a IH]; destruct b as [|y b], c as [|z c]; cbn; try congruence.
  destruct (b2N x <? b2N y)%N eqn:E1, (b2N y <? b2N x)%N eqn:E2,
    (b2N y <? b2N z)%N eqn:E3, (b2N z <? b2N y)%N eqn:E4,
    (b2N x <? b2N z)%N eqn:E5, (b2N z <? b2N x)%N eqn:E6; try congruence; try lia.
  apply IH.
Qed.

Lemma bytes_ltb_total a b : bytes_ltb a b = false -> bytes_ltb b a = false -> a = b.
Proof.
  revert b; induction a as [|x a IH]; destruct b as [|y b]; cbn; try congruence.
  destruct (b2N x <? b2N y)%N eqn:E1, (b2N y <? b2N x)%N eqn:E2; try congruence; try lia.
  intros H1 H2. f_equal; [apply b2N_inj; lia | auto].
Qed.

Lemma bytes_ltb_asym a b : bytes_ltb a b = true -> bytes_ltb b a = false.
Proof.
  intros H. destruct (bytes_ltb b a) eqn:E; [|reflexivity].
  pose proof (bytes_ltb_trans _ _ _ H E) as F. now rewrite bytes_ltb_irrefl in F.
Qed.

(** ** List helpers. *)
Lemma firstn_app_exact {A} (l r : list A) n : length l = n -> firstn n (l ++ r) = l.
Proof. intros <-. now rewrite firstn_app, Nat.sub_diag, firstn_all, app_nil_r. Qed.
Lemma skipn_app_exact {A} (l r : list A) n : length l = n -> skipn n (l ++ r) = r.
Proof. intros <-. now rewrite skipn_app, Nat.sub_diag, skipn_all. Qed.

Fixpoint replace_nth {A} (n : nat) (l : list A) (x : A) : list A :=
  match l, n with
  | [], _ => []
  | _ :: l, O => x :: l
  | y :: l, S n => y :: replace_nth n l x
  end.
Lemma replace_nth_length {A} n (l : list A) x : length (replace_nth n l x) = length l.
Proof. revert n; induction l as [|y l IH]; destruct n; cbn; congruence. Qed.
Lemma replace_nth_nth {A} n m (l : list A) x d :
  nth m (replace_nth n l x) d = if (Nat.eqb m n && (n <? length l)%nat)%bool then x else nth m l d.
Proof.
  revert n m; induction l as [|y l IH]; intros n m.
  - destruct n; cbn; destruct m; rewrite ?andb_false_r; reflexivity.
  - destruct n, m; cbn; try reflexivity. apply IH.
Qed.
Arguments le_bytes : simpl never.
Arguments be_bytes : simpl never.
