(** PropRoot.v - C35, C36, C37, C46: the root package's values. *)
From Coq Require Import Permutation.
From Verif Require Import Base RbxlValues RbxValues SpecValues SpecRoot.

Lemma app_inj_length {A} (a b c d : list A) : length a = length b -> a ++ c = b ++ d -> a = b /\ c = d.
Proof.
  revert b; induction a as [|x a IH]; intros [|y b] Hl H; try discriminate; [auto|].
  injection H as <- H. injection Hl as Hl. destruct (IH b Hl H) as [<- <-]. auto.
Qed.
(** ** C35: Copy *)
Theorem C35_copy_equal : forall v, rcopy v = v <-> (forall f c, In (f, c) (fonts v) -> c = f).
Proof.
  fix IH 1. intros v. destruct v; cbn [rcopy fonts]; try (split; [intros _ ? ? []|reflexivity]).
  - destruct v as [v|]; [|split; [intros _ ? ? []|reflexivity]].
    specialize (IH v). split; intros H.
    + apply IH. now injection H.
    + apply IH in H. now rewrite H.
  - split.
    + intros [= E] f c [[= <- <-]|[]]. now symmetry.
    + intros H. now rewrite <- (H family cached (or_introl eq_refl)).
Qed.
(** A font's cached face id is lost. *)
Theorem C35_font_refuted : exists v, rcopy v <> v.
Proof. exists (RFont (str "a") 400 x00 (str "b")). discriminate. Qed.

Lemma load_app m b k a : a < length m -> load (m ++ b) k a = load m k a.
Proof. intros H. unfold load. now rewrite app_nth1. Qed.
Lemma load_new m b k : load (m ++ [b]) k (length m) = b.
Proof. unfold load. rewrite app_nth2 by lia. now rewrite Nat.sub_diag. Qed.
(** Copying allocates: the old storage is as it was, every slice of the copy is
    a new allocation used by nothing else, and the copy's content is that of
    the original up to the font defect. *)
Theorem C35_copy_fresh : forall m v m' v', wf_mvalue v -> mcopy m v = (m', v') ->
  (exists new, m' = m ++ new) /\
  (forall a, In a (addrs v') -> length m <= a < length m') /\
  NoDup (addrs v') /\
  denote m' v' = rcopy (denote m v).
Proof.
  fix IH 2. intros m v m' v' Hwf H. destruct v as [v|k a|t [v|]|f w s c]; cbn [mcopy] in H.
  - injection H as <- <-. cbn [addrs denote]. split; [exists []; now rewrite app_nil_r|].
    split; [intros ? []|]. split; [constructor|]. destruct v; (reflexivity || destruct Hwf).
  - unfold copy_slice in H. injection H as <- <-. cbn [addrs denote]. split; [eauto|]. rewrite app_length. cbn [length].
    split; [intros b [<-|[]]; lia|]. split; [constructor; [intros []|constructor]|].
    destruct k; rewrite load_new; reflexivity.
  - destruct (mcopy m v) as [m1 v1] eqn:E. injection H as <- <-. destruct (IH m v m1 v1 Hwf E) as (H1 & H2 & H3 & H4).
    split; [exact H1|]. split; [exact H2|]. split; [exact H3|]. cbn [denote rcopy]. now rewrite H4.
  - injection H as <- <-. cbn [addrs denote]. split; [exists []; now rewrite app_nil_r|].
    split; [intros ? []|]. split; [constructor|reflexivity].
  - unfold copy_slice in H. injection H as <- <-. cbn [addrs denote rcopy]. rewrite <- app_assoc. split; [eauto|].
    rewrite !app_length. cbn [length].
    split; [intros b [<-|[<-|[]]]; lia|]. split; [constructor; [intros [E|[]]; lia|constructor; [intros []|constructor]]|].
    rewrite app_assoc. assert (Hf : load (m ++ [load m KContent f]) KContent f = load m KContent f).
    { destruct (Nat.lt_ge_cases f (length m)); [now apply load_app|].
      unfold load at 1. rewrite app_nth2 by lia. unfold load. rewrite (nth_overflow m) by lia.
      destruct (f - length m) as [|[|]]; reflexivity. }
    rewrite load_app by (rewrite app_length; cbn [length]; lia). rewrite load_new.
    replace (length m + 1) with (length (m ++ [load m KContent f])) by (rewrite app_length; reflexivity).
    rewrite load_new, Hf. reflexivity.
Qed.
Example C35_witness :
  rcopy (ROptional TypeString (Some (RString (str "x")))) = ROptional TypeString (Some (RString (str "x"))) /\
  wf_mvalue (MOptional TypeString (Some (MSlice KString 0))) /\
  mcopy [BBytes (str "x")] (MOptional TypeString (Some (MSlice KString 0))) =
    ([BBytes (str "x"); BBytes (str "x")], MOptional TypeString (Some (MSlice KString 1))).
Proof. repeat split. Qed.

(** ** C36: type names *)
Definition valid_type (t : N) : Prop := (1 <= t <= 33)%N.
Definition names : list String.string := map snd typeStrings.
Lemma small_types (P : N -> Prop) : (forall n, n <= 33 -> P (N.of_nat n)) -> forall t, (t <= 33)%N -> P t.
Proof. intros H t Ht. rewrite <- (N2Nat.id t). apply H. lia. Qed.
Lemma types_cases (P : N -> Prop) : Forall P (map N.of_nat (seq 0 34)) -> forall t, (t <= 33)%N -> P t.
Proof.
  rewrite Forall_map, Forall_forall. intros H. apply small_types. intros n Hn. apply H, in_seq. lia.
Qed.
Lemma assocN_none {A} (l : list (N * A)) t : (forall k a, In (k, a) l -> k <> t) -> assocN l t = None.
Proof.
  induction l as [|[k a] l IH]; intros H; [reflexivity|]. cbn [assocN].
  destruct (N.eqb_spec k t) as [->|_]; [now destruct (H t a (or_introl eq_refl))|].
  apply IH. intros k' a' Hi. apply (H k' a'). now right.
Qed.
Lemma keys_bound {A} (l : list (N * A)) : forallb (fun ka => N.leb 1 (fst ka) && N.leb (fst ka) 33) l = true ->
  forall t, ~ valid_type t -> assocN l t = None.
Proof.
  intros H t Ht. apply assocN_none. intros k a Hi E. subst. rewrite forallb_forall in H. specialize (H _ Hi). cbn in H.
  apply Ht. unfold valid_type. lia.
Qed.
Lemma table_nodup table : Permutation typeStrings table -> NoDup (map snd table).
Proof.
  intros H. eapply Permutation_NoDup; [apply Permutation_map; exact H|].
  assert (E : nodup String.string_dec (map snd typeStrings) = map snd typeStrings) by (vm_compute; reflexivity).
  rewrite <- E. apply NoDup_nodup.
Qed.
Lemma from_string_in table s t : NoDup (map snd table) -> In (t, s) table -> type_from_string_in table s = t.
Proof.
  induction table as [|[t' s'] table IH]; intros Hn Hi; [destruct Hi|]. cbn [type_from_string_in map snd] in *.
  inversion Hn as [|? ? Hx Hn']; subst. destruct Hi as [[= -> ->]|Hi]; [now rewrite String.eqb_refl|].
  destruct (String.eqb_spec s s') as [->|_]; [|now apply IH].
  destruct Hx. change s' with (snd (t, s')). now apply in_map.
Qed.
Lemma from_string_inv table s : (exists t, In (t, s) table /\ type_from_string_in table s = t) \/
  (~ In s (map snd table) /\ type_from_string_in table s = TypeInvalid).
Proof.
  induction table as [|[t' s'] table IH]; [right; split; [intros []|reflexivity]|]. cbn [type_from_string_in map snd].
  destruct (String.eqb_spec s s') as [->|Hne]; [left; exists t'; split; [now left|reflexivity]|].
  destruct IH as [(t & H1 & H2)|[H1 H2]]; [left; exists t; split; [now right|exact H2]|].
  right. split; [|exact H2]. intros [E|E]; [congruence|auto].
Qed.
Lemma string_of_entry t s : In (t, s) typeStrings -> type_string t = s /\ valid_type t.
Proof.
  intros H. cbn in H. unfold valid_type.
  repeat match goal with H : _ \/ _ |- _ => destruct H as [H|H] end; try contradiction; injection H as <- <-;
    (split; [reflexivity|vm_compute; split; discriminate]).
Qed.
Theorem C36_type_names : forall table, Permutation typeStrings table ->
  (forall t, valid_type t -> type_from_string_in table (type_string t) = t /\ type_string t <> "Invalid"%string) /\
  (forall t, ~ valid_type t -> type_string t = "Invalid"%string) /\
  (forall s, In s names -> type_string (type_from_string_in table s) = s /\ valid_type (type_from_string_in table s)) /\
  (forall s, ~ In s names -> type_from_string_in table s = TypeInvalid).
Proof.
  intros table Hp. pose proof (table_nodup _ Hp) as Hn. split; [|split; [|split]].
  - intros t Ht. assert (Hi : In (t, type_string t) typeStrings /\ type_string t <> "Invalid"%string).
    { revert Ht. unfold valid_type. intros Ht. assert (Hle : (t <= 33)%N) by lia. revert t Hle Ht.
      apply (types_cases (fun t => (1 <= t <= 33)%N -> In (t, type_string t) typeStrings /\ type_string t <> "Invalid"%string)).
      cbn [map seq N.of_nat Pos.of_succ_nat Pos.succ].
      apply Forall_cons; [intros H; exfalso; lia|].
      repeat (apply Forall_cons; [intros _; split; [|discriminate];
        match goal with |- In (?t, _) _ => change (type_string t) with (ltac:(let x := eval vm_compute in (type_string t) in exact x)) end;
        unfold typeStrings; repeat (first [left; reflexivity | right])|]).
      apply Forall_nil. }
    destruct Hi as [Hi Hne]. split; [|exact Hne]. apply from_string_in; [exact Hn|]. eapply Permutation_in; eauto.
  - intros t Ht. unfold type_string. rewrite keys_bound; [reflexivity|reflexivity|exact Ht].
  - intros s Hs. unfold names in Hs. apply in_map_iff in Hs. destruct Hs as ([t s'] & <- & Hi). cbn [snd].
    destruct (string_of_entry _ _ Hi) as [E V]. rewrite (from_string_in table s' t Hn) by (eapply Permutation_in; eauto). auto.
  - intros s Hs. destruct (from_string_inv table s) as [(t & H1 & _)|[_ H2]]; [|exact H2].
    destruct Hs. unfold names. change s with (snd (t, s)). apply in_map.
    eapply Permutation_in; [apply Permutation_sym; exact Hp|exact H1].
Qed.
Theorem C36_new_value : forall t,
  (valid_type t <-> exists v, NewValue t = Some v) /\ (forall v, NewValue t = Some v -> rtype v = t).
Proof.
  intros t. assert (D : valid_type t \/ ~ valid_type t) by (unfold valid_type; lia). destruct D as [D|D].
  - assert (H : exists v, NewValue t = Some v /\ rtype v = t).
    { revert D. unfold valid_type. intros Ht. assert (Hle : (t <= 33)%N) by lia. revert t Hle Ht.
      apply (types_cases (fun t => (1 <= t <= 33)%N -> exists v, NewValue t = Some v /\ rtype v = t)).
      cbn [map seq N.of_nat Pos.of_succ_nat Pos.succ].
      apply Forall_cons; [intros H; exfalso; lia|].
      repeat (apply Forall_cons; [intros _; eexists; split; reflexivity|]). apply Forall_nil. }
    destruct H as (v & H1 & H2). rewrite H1. split; [split; eauto|]. intros v' [= <-]. exact H2.
  - unfold NewValue. rewrite keys_bound by (reflexivity || exact D). split; [split; [contradiction|intros [v H]; discriminate]|discriminate].
Qed.
Example C36_witness : type_string 18%N = "CFrame"%string /\ type_from_string_in (rev typeStrings) "CFrame" = 18%N /\
  Permutation typeStrings (rev typeStrings).
Proof. split; [reflexivity|]. split; [reflexivity|apply Permutation_rev]. Qed.

(** ** C46: font names *)
Theorem C46_font_names :
  (forall s w, FontWeightFromString s = Some w -> fontweight_string w = s) /\
  (forall w, fontweight_string w <> "<invalid>"%string -> FontWeightFromString (fontweight_string w) = Some w) /\
  (forall s w, FontStyleFromString s = Some w -> fontstyle_string w = s) /\
  (forall w, fontstyle_string w <> "<invalid>"%string -> FontStyleFromString (fontstyle_string w) = Some w) /\
  FontWeightFromString "<invalid>" = None /\ FontStyleFromString "<invalid>" = None.
Proof.
  split; [|split; [|split; [|split; [|split; reflexivity]]]].
  - intros s w. unfold FontWeightFromString.
    repeat (match goal with |- context[String.eqb s ?x] => destruct (String.eqb_spec s x) as [->|_] end; [intros [= <-]; reflexivity|]).
    discriminate.
  - intros w. unfold fontweight_string.
    repeat (match goal with |- context[N.eqb w ?x] => destruct (N.eqb_spec w x) as [->|_] end; [reflexivity|]). congruence.
  - intros s w. unfold FontStyleFromString.
    repeat (match goal with |- context[String.eqb s ?x] => destruct (String.eqb_spec s x) as [->|_] end; [intros [= <-]; reflexivity|]).
    discriminate.
  - intros w. unfold fontstyle_string.
    repeat (match goal with |- context[N.eqb w ?x] => destruct (N.eqb_spec w x) as [->|_] end; [reflexivity|]). congruence.
Qed.
Example C46_witness : FontWeightFromString "Bold" = Some 700%N /\ fontstyle_string 1 = "Italic"%string.
Proof. split; reflexivity. Qed.

(** ** C37: generated identifiers *)
Lemma upd_length {A} (l : list A) i a : length (upd l i a) = length l.
Proof. revert i; induction l as [|x l IH]; intros [|i]; cbn; congruence. Qed.
Lemma nth_upd {A} (l : list A) i j a d : nth j (upd l i a) d = if ((j =? i) && (i <? length l))%nat then a else nth j l d.
Proof.
  revert i j; induction l as [|x l IH]; intros i j.
  - cbn [upd length]. replace (i <? 0)%nat with false by (symmetry; apply Nat.ltb_ge; lia). now rewrite andb_false_r.
  - destruct i as [|i], j as [|j]; cbn [upd nth length]; try reflexivity. rewrite IH. reflexivity.
Qed.
Lemma hex_loop_length table n : forall buf, length (hex_loop table n buf) = length buf.
Proof. induction n as [|n IH]; intros buf; cbn [hex_loop]; [reflexivity|]. now rewrite IH, !upd_length. Qed.
(** Byte 2i+k of the result is digit k of byte i; bytes past 2n stay. *)
Lemma hex_loop_nth table n : forall buf j, 2 * n <= length buf ->
  nth j (hex_loop table n buf) x00 =
    if (j <? 2 * n)%nat then
      let b := b2N (nth (j / 2) buf x00) in
      hex_at table (if (j mod 2 =? 0)%nat then N.shiftr b 4 else N.land b 15)
    else nth j buf x00.
Proof.
  induction n as [|i IH]; intros buf j Hl; [reflexivity|]. cbn [hex_loop].
  rewrite IH by (rewrite !upd_length; lia).
  assert (Hi : forall k, k <= i -> nth k (upd (upd buf (i * 2 + 1) (hex_at table (N.land (b2N (nth i buf x00)) 0x0f))) (i * 2)
      (hex_at table (N.shiftr (b2N (nth i (upd buf (i * 2 + 1) (hex_at table (N.land (b2N (nth i buf x00)) 0x0f))) x00)) 4))) x00
      = if ((k =? i * 2) && (i =? 0))%nat then (hex_at table (N.shiftr (b2N (nth i buf x00)) 4)) else nth k buf x00).
  { intros k Hk. rewrite !nth_upd, !upd_length.
    replace (i =? i * 2 + 1)%nat with false by (symmetry; apply Nat.eqb_neq; lia). cbn [andb].
    replace (k =? i * 2 + 1)%nat with false by (symmetry; apply Nat.eqb_neq; lia). cbn [andb].
    replace (i * 2 <? length buf)%nat with true by (symmetry; apply Nat.ltb_lt; lia). rewrite andb_true_r.
    destruct (Nat.eqb_spec k (i * 2)) as [E|E]; [|reflexivity]. destruct (Nat.eqb_spec i 0); [reflexivity|lia]. }
  destruct (Nat.ltb_spec j (2 * i)) as [H1|H1].
  - replace (j <? 2 * S i)%nat with true by (symmetry; apply Nat.ltb_lt; lia).
    assert (Hj : j / 2 < i) by (apply Nat.div_lt_upper_bound; lia). rewrite Hi by lia.
    replace (i =? 0)%nat with false by (symmetry; apply Nat.eqb_neq; lia). rewrite andb_false_r. reflexivity.
  - rewrite !nth_upd, !upd_length.
    replace (i =? i * 2 + 1)%nat with false by (symmetry; apply Nat.eqb_neq; lia). cbn [andb].
    replace (i * 2 <? length buf)%nat with true by (symmetry; apply Nat.ltb_lt; lia).
    replace (i * 2 + 1 <? length buf)%nat with true by (symmetry; apply Nat.ltb_lt; lia). rewrite !andb_true_r.
    destruct (Nat.ltb_spec j (2 * S i)) as [H2|H2].
    + assert (Hc : j = i * 2 \/ j = i * 2 + 1) by lia. destruct Hc as [->| ->].
      * rewrite Nat.eqb_refl, Nat.div_mul, Nat.mod_mul by lia. reflexivity.
      * replace (i * 2 + 1 =? i * 2)%nat with false by (symmetry; apply Nat.eqb_neq; lia). rewrite Nat.eqb_refl.
        replace ((i * 2 + 1) / 2) with i by (rewrite Nat.add_comm, Nat.div_add by lia; reflexivity).
        replace ((i * 2 + 1) mod 2) with 1 by (rewrite Nat.add_comm, Nat.mod_add by lia; reflexivity). reflexivity.
    + replace (j =? i * 2)%nat with false by (symmetry; apply Nat.eqb_neq; lia).
      replace (j =? i * 2 + 1)%nat with false by (symmetry; apply Nat.eqb_neq; lia). reflexivity.
Qed.
Lemma flat_hex_length table l : length (flat_map (hex table) l) = 2 * length l.
Proof. induction l; cbn [flat_map]; [reflexivity|]. rewrite app_length, IHl. cbn [hex length]. lia. Qed.
Lemma flat_hex_nth table l j : j < 2 * length l ->
  nth j (flat_map (hex table) l) x00 =
    nth (N.to_nat (if (j mod 2 =? 0)%nat then b2N (nth (j / 2) l x00) / 16 else b2N (nth (j / 2) l x00) mod 16)) (str table) x00.
Proof.
  revert j; induction l as [|b l IH]; intros j Hj; [cbn in Hj; lia|]. cbn [flat_map].
  destruct j as [|[|j]]; [reflexivity|reflexivity|].
  change (nth (S (S j)) (hex table b ++ flat_map (hex table) l) x00) with (nth j (flat_map (hex table) l) x00).
  rewrite IH by (cbn in Hj; lia).
  replace (S (S j)) with (j + 1 * 2) by lia. rewrite Nat.mod_add, Nat.div_add by lia.
  replace (j / 2 + 1) with (S (j / 2)) by lia. reflexivity.
Qed.
Lemma hex_loop_spec table (buf : bytes) n : length buf = 2 * n ->
  hex_loop (str table) n buf = flat_map (hex table) (firstn n buf).
Proof.
  intros Hl. apply (nth_ext _ _ x00 x00).
  - rewrite hex_loop_length, flat_hex_length, firstn_length. lia.
  - intros j Hj. rewrite hex_loop_length in Hj. rewrite hex_loop_nth by lia.
    replace (j <? 2 * n)%nat with true by (symmetry; apply Nat.ltb_lt; lia). cbv zeta.
    rewrite flat_hex_nth by (rewrite firstn_length; lia).
    assert (Hd : nth (j / 2) (firstn n buf) x00 = nth (j / 2) buf x00).
    { assert (j / 2 < n) by (apply Nat.div_lt_upper_bound; lia).
      rewrite <- (firstn_skipn n buf) at 2. rewrite app_nth1; [reflexivity|]. rewrite firstn_length. lia. }
    rewrite Hd. unfold hex_at. do 2 f_equal. destruct (j mod 2 =? 0)%nat.
    + now rewrite N.shiftr_div_pow2.
    + change 15%N with (N.ones 4). now rewrite N.land_ones.
Qed.

Lemma v4_mask6 b : N2b (N.lor (N.land (b2N b) 0x0F) 0x40) = N2b (0x40 + b2N b mod 16).
Proof. destruct b; reflexivity. Qed.
Lemma v4_mask8 b : N2b (N.lor (N.land (b2N b) 0x3F) 0x80) = N2b (0x80 + b2N b mod 64).
Proof. destruct b; reflexivity. Qed.
Fixpoint mapi {A B} (f : nat -> A -> B) (i : nat) (l : list A) : list B :=
  match l with [] => [] | a :: l => f i a :: mapi f (S i) l end.

(** A reference is RBX and the 32 upper-case hex digits of the 16 bytes, with
    the version and variant bits set. *)
Theorem C37_reference_text : forall rnd, length rnd = 16 ->
  GenerateReference rnd = str "RBX" ++ flat_map (hex "0123456789ABCDEF") (mapi v4_byte 0 rnd) /\
  length (GenerateReference rnd) = 35.
Proof.
  intros rnd Hl. unfold GenerateReference, generateUUID, upper_hex.
  assert (E : forall buf, length buf = 32 -> hex_loop (str "0123456789ABCDEF") 16 buf = flat_map (hex "0123456789ABCDEF") (firstn 16 buf)).
  { intros buf Hb. now apply (hex_loop_spec "0123456789ABCDEF" buf 16). }
  rewrite E by (rewrite !upd_length, app_length, Hl; reflexivity).
  do 16 (destruct rnd as [|? rnd]; [discriminate|]). destruct rnd; [|discriminate].
  cbn [app upd firstn mapi v4_byte Nat.eqb nth]. rewrite v4_mask6, v4_mask8. split; reflexivity.
Qed.
Lemma hex_inj table a b : table = "0123456789ABCDEF"%string \/ table = "0123456789abcdef"%string ->
  hex table a = hex table b -> a = b.
Proof.
  intros Ht H. injection H as H1 H2. apply b2N_inj.
  rewrite (N.div_mod (b2N a) 16), (N.div_mod (b2N b) 16) by lia.
  assert (HN : NoDup (str table)).
  { destruct Ht as [-> | ->]; vm_compute; repeat constructor; cbn; intuition discriminate. }
  assert (Hlen : length (str table) = 16) by (destruct Ht as [-> | ->]; reflexivity).
  pose proof (b2N_lt a). pose proof (b2N_lt b).
  assert (b2N a / 16 < 16)%N by (apply N.div_lt_upper_bound; lia).
  assert (b2N b / 16 < 16)%N by (apply N.div_lt_upper_bound; lia).
  pose proof (N.mod_lt (b2N a) 16 ltac:(lia)). pose proof (N.mod_lt (b2N b) 16 ltac:(lia)).
  rewrite NoDup_nth in HN. apply HN in H1; [|lia|lia]. apply HN in H2; [|lia|lia].
  apply N2Nat.inj in H1, H2. now rewrite H1, H2.
Qed.
Lemma flat_hex_inj table l1 l2 : table = "0123456789ABCDEF"%string \/ table = "0123456789abcdef"%string ->
  flat_map (hex table) l1 = flat_map (hex table) l2 -> l1 = l2.
Proof.
  intros Ht. revert l2; induction l1 as [|a l1 IH]; intros [|b l2] H; try discriminate; [reflexivity|].
  cbn [flat_map] in H. apply app_inj_length in H; [|reflexivity]. destruct H as [H1 H2].
  f_equal; [eapply hex_inj; eauto|now apply IH].
Qed.
(** Distinct random bits give distinct references. *)
Theorem C37_reference_injective : forall a b, length a = 16 -> length b = 16 ->
  GenerateReference a = GenerateReference b -> mapi v4_byte 0 a = mapi v4_byte 0 b.
Proof.
  intros a b Ha Hb H. destruct (C37_reference_text a Ha) as [Ea _]. destruct (C37_reference_text b Hb) as [Eb _].
  rewrite Ea, Eb in H. apply app_inv_head in H. eapply flat_hex_inj; [|exact H]. now left.
Qed.
(** The version 4 marking keeps 122 of the 128 bits: everything but the high
    four bits of byte 6 and the high two of byte 8. *)
Theorem C37_random_bits : forall i b c, v4_byte i b = v4_byte i c ->
  (b2N b mod (if (i =? 6)%nat then 16 else if (i =? 8)%nat then 64 else 256) =
   b2N c mod (if (i =? 6)%nat then 16 else if (i =? 8)%nat then 64 else 256))%N.
Proof.
  intros i b c. unfold v4_byte. destruct (i =? 6)%nat; [|destruct (i =? 8)%nat].
  - intros H. apply (f_equal b2N) in H. rewrite !b2N_N2b in H.
    pose proof (N.mod_lt (b2N b) 16 ltac:(lia)). pose proof (N.mod_lt (b2N c) 16 ltac:(lia)).
    rewrite (N.mod_small (64 + b2N b mod 16)), (N.mod_small (64 + b2N c mod 16)) in H by lia. lia.
  - intros H. apply (f_equal b2N) in H. rewrite !b2N_N2b in H.
    pose proof (N.mod_lt (b2N b) 64 ltac:(lia)). pose proof (N.mod_lt (b2N c) 64 ltac:(lia)).
    rewrite (N.mod_small (128 + b2N b mod 64)), (N.mod_small (128 + b2N c mod 64)) in H by lia. lia.
  - now intros ->.
Qed.
(** UniqueId's text is 32 hex digits and determines the value. *)
Theorem C37_uniqueid_text : forall r t i,
  uniqueid_string r t i = flat_map (hex "0123456789abcdef") (be_bytes 8 (toN 64 r) ++ be_bytes 4 t ++ be_bytes 4 i).
Proof.
  intros r t i. unfold uniqueid_string, lower_hex.
  rewrite (hex_loop_spec "0123456789abcdef" _ 16) by (rewrite !app_length, !be_bytes_length; reflexivity).
  reflexivity.
Qed.
Theorem C37_uniqueid_injective : forall r t i r' t' i',
  int_range 64 r -> f32 t -> f32 i -> int_range 64 r' -> f32 t' -> f32 i' ->
  uniqueid_string r t i = uniqueid_string r' t' i' -> r = r' /\ t = t' /\ i = i'.
Proof.
  intros r t i r' t' i' Hr Ht Hi Hr' Ht' Hi' H. rewrite !C37_uniqueid_text in H. apply flat_hex_inj in H; [|now right].
  apply app_inj_length in H; [|now rewrite !be_bytes_length]. destruct H as [H1 H].
  apply app_inj_length in H; [|now rewrite !be_bytes_length]. destruct H as [H2 H3].
  apply (f_equal be_N) in H1, H2, H3. rewrite !be_N_be_bytes in H1, H2, H3.
  unfold f32, toN, int_range in *. change (2 ^ (8 * N.of_nat 4))%N with (2 ^ 32)%N in *. change (2 ^ (8 * N.of_nat 8))%N with (2 ^ 64)%N in *.
  rewrite !N.mod_small in H2, H3 by assumption.
  rewrite !N.mod_small in H1 by (pose proof (Z.mod_pos_bound r (2^64)); pose proof (Z.mod_pos_bound r' (2^64)); lia).
  split; [|split; assumption].
  pose proof (Z.mod_pos_bound r (2^64) ltac:(lia)). pose proof (Z.mod_pos_bound r' (2^64) ltac:(lia)).
  assert (E : (r mod 2 ^ 64 = r' mod 2 ^ 64)%Z) by lia.
  destruct (Z.ltb_spec r 0), (Z.ltb_spec r' 0).
  - rewrite <- (Z.mod_add r 1), <- (Z.mod_add r' 1) in E by lia. rewrite !Z.mod_small in E by lia. lia.
  - rewrite <- (Z.mod_add r 1) in E by lia. rewrite !Z.mod_small in E by lia. lia.
  - rewrite <- (Z.mod_add r' 1) in E by lia. rewrite !Z.mod_small in E by lia. lia.
  - rewrite !Z.mod_small in E by lia. lia.
Qed.
Example C37_witness :
  GenerateReference (repeat xff 16) = str "RBXFFFFFFFFFFFF4FFFBFFFFFFFFFFFFFFF" /\
  uniqueid_string (-1) 1 258 = str "ffffffffffffffff0000000100000102".
Proof. split; vm_compute; reflexivity. Qed.

Print Assumptions C35_copy_equal.
Print Assumptions C35_font_refuted.
Print Assumptions C35_copy_fresh.
Print Assumptions C36_type_names.
Print Assumptions C36_new_value.
Print Assumptions C46_font_names.
Print Assumptions C37_reference_text.
Print Assumptions C37_reference_injective.
Print Assumptions C37_random_bits.
Print Assumptions C37_uniqueid_text.
Print Assumptions C37_uniqueid_injective.
