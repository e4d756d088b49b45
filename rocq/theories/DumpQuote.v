(** DumpQuote.v - quoted text can be read in one way only. *)
From Verif Require Import Base RbxlValues RbxlArrays RbxlModel RbxlFile SpecValues SpecArrays RbxValues XmlText XmlTextProofs Json JsonProofs RbxlDump SpecDump DumpProofs.

(** ** UTF-8 *)
Definition seq1 (s : bytes) : Prop := s <> [] /\ rune_len s = length s.

Lemma land_3f b : cont b = true -> N.land (b2N b) 0x3f = (b2N b - 0x80)%N.
Proof. destruct b; intros H; try discriminate H; reflexivity. Qed.
Lemma land_1f b : between 0xc2 0xdf b = true -> N.land (b2N b) 0x1f = (b2N b - 0xc0)%N.
Proof. destruct b; intros H; try discriminate H; reflexivity. Qed.
Lemma land_0f b : between 0xe0 0xef b = true -> N.land (b2N b) 0x0f = (b2N b - 0xe0)%N.
Proof. destruct b; intros H; try discriminate H; reflexivity. Qed.
Lemma land_07 b : between 0xf0 0xf4 b = true -> N.land (b2N b) 0x07 = (b2N b - 0xf0)%N.
Proof. destruct b; intros H; try discriminate H; reflexivity. Qed.
Lemma between_iff lo hi b : between lo hi b = true <-> (lo <= b2N b <= hi)%N.
Proof. unfold between. rewrite andb_true_iff, !N.leb_le. tauto. Qed.
Lemma cont_iff b : cont b = true <-> (0x80 <= b2N b <= 0xbf)%N.
Proof. unfold cont. rewrite andb_true_iff, !N.leb_le. tauto. Qed.

(** A valid sequence, its value by cases. *)
Inductive valid_seq : bytes -> N -> Prop :=
| Seq1 a : (b2N a < 0x80)%N -> valid_seq [a] (b2N a)
| Seq2 a b : (0xc2 <= b2N a <= 0xdf)%N -> (0x80 <= b2N b <= 0xbf)%N -> valid_seq [a; b] ((b2N a - 0xc0) * 64 + (b2N b - 0x80))
| Seq3 a b c : (0xe0 <= b2N a <= 0xef)%N -> (0x80 <= b2N b <= 0xbf)%N -> (0x80 <= b2N c <= 0xbf)%N ->
    (b2N a = 0xe0 -> 0xa0 <= b2N b)%N ->
    valid_seq [a; b; c] ((b2N a - 0xe0) * 4096 + (b2N b - 0x80) * 64 + (b2N c - 0x80))
| Seq4 a b c d : (0xf0 <= b2N a <= 0xf4)%N -> (0x80 <= b2N b <= 0xbf)%N -> (0x80 <= b2N c <= 0xbf)%N -> (0x80 <= b2N d <= 0xbf)%N ->
    (b2N a = 0xf0 -> 0x90 <= b2N b)%N ->
    valid_seq [a; b; c; d] ((b2N a - 0xf0) * 262144 + (b2N b - 0x80) * 4096 + (b2N c - 0x80) * 64 + (b2N d - 0x80)).
Lemma eqb_b2N a b : Byte.eqb a b = (b2N a =? b2N b)%N.
Proof.
  destruct (Byte.eqb a b) eqn:E; symmetry.
  - apply N.eqb_eq. f_equal. now apply Byte.byte_dec_bl.
  - apply N.eqb_neq. intros H. apply b2N_inj in H. subst. now rewrite Byte.byte_dec_lb in E by reflexivity.
Qed.
Lemma seq1_valid s : seq1 s -> valid_seq s (rune_val s).
Proof.
  intros [Hn Hl]. destruct s as [|a s]; [contradiction|]. clear Hn. revert Hl. cbn [rune_len].
  destruct (N.ltb_spec (b2N a) 0x80) as [Ha|Ha].
  { destruct s as [|]; [|discriminate]. intros _. now constructor. }
  destruct s as [|b s]; [discriminate|]. destruct (between 0xc2 0xdf a && cont b) eqn:E2.
  { destruct s as [|]; [|discriminate]. intros _. apply andb_prop in E2. destruct E2 as [A B]. cbn [rune_val].
    rewrite (land_1f _ A), (land_3f _ B). apply between_iff in A. apply cont_iff in B. now constructor. }
  destruct s as [|c s]; [discriminate|].
  destruct (between 0xe0 0xef a && _ && cont c) eqn:E3.
  { destruct s as [|]; [|discriminate]. intros _. apply andb_prop in E3. destruct E3 as [E3 C]. apply andb_prop in E3. destruct E3 as [A B].
    assert (B' : cont b = true /\ (b2N a = 0xe0 -> 0xa0 <= b2N b)%N).
    { rewrite !eqb_b2N in B. change (b2N xe0) with 0xe0%N in B. change (b2N xed) with 0xed%N in B.
      destruct (N.eqb_spec (b2N a) 0xe0).
      - apply between_iff in B. split; [apply cont_iff|]; lia.
      - split; [|lia]. destruct (N.eqb_spec (b2N a) 0xed); [|exact B]. apply between_iff in B. apply cont_iff. lia. }
    destruct B' as [B1 B2]. cbn [rune_val]. rewrite (land_0f _ A), (land_3f _ B1), (land_3f _ C).
    apply between_iff in A. apply cont_iff in B1, C. now constructor. }
  destruct s as [|d s]; [discriminate|].
  destruct (between 0xf0 0xf4 a && _ && cont c && cont d) eqn:E4; [|discriminate].
  destruct s as [|]; [|discriminate]. intros _. apply andb_prop in E4. destruct E4 as [E4 D]. apply andb_prop in E4. destruct E4 as [E4 C].
  apply andb_prop in E4. destruct E4 as [A B].
  assert (B' : cont b = true /\ (b2N a = 0xf0 -> 0x90 <= b2N b)%N).
  { rewrite !eqb_b2N in B. change (b2N xf0) with 0xf0%N in B. change (b2N xf4) with 0xf4%N in B.
    destruct (N.eqb_spec (b2N a) 0xf0).
    - apply between_iff in B. split; [apply cont_iff|]; lia.
    - split; [|lia]. destruct (N.eqb_spec (b2N a) 0xf4); [|exact B]. apply between_iff in B. apply cont_iff. lia. }
  destruct B' as [B1 B2]. cbn [rune_val]. rewrite (land_07 _ A), (land_3f _ B1), (land_3f _ C), (land_3f _ D).
  apply between_iff in A. apply cont_iff in B1, C, D. now constructor.
Qed.
Lemma valid_range s n : valid_seq s n ->
  match length s with 1 => (n < 0x80)%N | 2 => (0x80 <= n < 0x800)%N | 3 => (0x800 <= n < 0x10000)%N | _ => (0x10000 <= n < 0x200000)%N end.
Proof. destruct 1; cbn [length]; lia. Qed.
Lemma valid_inj s t n : valid_seq s n -> valid_seq t n -> s = t.
Proof.
  intros A B. pose proof (valid_range _ _ A). pose proof (valid_range _ _ B).
  inversion A; subst; inversion B; subst; cbn [length] in *; try (exfalso; lia);
    repeat f_equal; apply b2N_inj; lia.
Qed.
Lemma rune_val_inj s t : seq1 s -> seq1 t -> rune_val s = rune_val t -> s = t.
Proof. intros A B E. apply seq1_valid in A, B. rewrite E in A. exact (valid_inj _ _ _ A B). Qed.
Lemma rune_val_bound s : seq1 s -> (rune_val s < 0x200000)%N.
Proof. intros A. apply seq1_valid in A. revert A. generalize (rune_val s). intros n A. destruct A; lia. Qed.

(** ** Runes of a string *)
Lemma rune_len_app s r : seq1 s -> rune_len (s ++ r) = length s.
Proof.
  intros [Hn Hl]. destruct s as [|a s]; [contradiction|]. clear Hn. revert Hl. cbn [rune_len app].
  destruct (b2N a <? 0x80)%N; [intros ->; reflexivity|].
  destruct s as [|b s]; [discriminate|]. cbn [app].
  destruct (between 0xc2 0xdf a && cont b); [now intros ->|].
  destruct s as [|c s]; [discriminate|]. cbn [app].
  destruct (between 0xe0 0xef a && _ && cont c); [now intros ->|].
  destruct s as [|d s]; [discriminate|]. cbn [app].
  destruct (between 0xf0 0xf4 a && _ && cont c && cont d); [now intros ->|discriminate].
Qed.
Lemma seq1_cut s t r q : seq1 s -> seq1 t -> s ++ r = t ++ q -> s = t /\ r = q.
Proof.
  intros A B H. apply app_inj_len; [|exact H]. rewrite <- (rune_len_app s r A), <- (rune_len_app t q B). now rewrite H.
Qed.
Lemma rune_len_prefix s : rune_len s <> 0 -> seq1 (firstn (rune_len s) s).
Proof.
  destruct s as [|a s]; [contradiction|]. intros H. split.
  - destruct (rune_len (a :: s)); [contradiction|]. discriminate.
  - revert H. cbn [rune_len].
    destruct (b2N a <? 0x80)%N eqn:E1; [intros _; cbn [firstn rune_len length]; now rewrite E1|].
    destruct s as [|b s]; [contradiction|].
    destruct (between 0xc2 0xdf a && cont b) eqn:E2; [intros _; cbn [firstn rune_len length]; now rewrite E1, E2|].
    destruct s as [|c s]; [contradiction|].
    destruct (between 0xe0 0xef a && _ && cont c) eqn:E3; [intros _; cbn [firstn rune_len length]; now rewrite E1, E2, E3|].
    destruct s as [|d s]; [contradiction|].
    destruct (between 0xf0 0xf4 a && _ && cont c && cont d) eqn:E4; [|contradiction].
    intros _; cbn [firstn rune_len length]; now rewrite E1, E2, E3, E4.
Qed.
Lemma rune_len_bound s : rune_len s <= length s.
Proof.
  destruct s as [|a s]; [auto|]. cbn [rune_len length]. destruct (b2N a <? 0x80)%N; [lia|].
  destruct s as [|b s]; [lia|]. cbn [length]. destruct (between 0xc2 0xdf a && cont b); [lia|].
  destruct s as [|c s]; [lia|]. cbn [length]. destruct (between 0xe0 0xef a && _ && cont c); [lia|].
  destruct s as [|d s]; [lia|]. cbn [length]. destruct (between 0xf0 0xf4 a && _ && cont c && cont d); lia.
Qed.
(** A piece of a string as the code walks over it. *)
Definition piece (t : bool * N * bytes) : Prop :=
  let ' (ok, r, s) := t in
  if ok then seq1 s /\ r = rune_val s else r = 0xfffd%N /\ exists a, s = [a] /\ (0x80 <= b2N a)%N.
Lemma runes_spec fuel : forall s, length s <= fuel -> Forall piece (runes fuel s) /\ flat_map snd (runes fuel s) = s.
Proof.
  induction fuel as [|fuel IH]; intros s L; [destruct s; [split; [constructor|reflexivity]|cbn in L; lia]|].
  destruct s as [|a s]; [split; [constructor|reflexivity]|]. cbn [runes].
  pose proof (rune_len_prefix (a :: s)) as P. pose proof (rune_len_bound (a :: s)) as B.
  assert (A : rune_len (a :: s) = 0 -> (0x80 <= b2N a)%N).
  { cbn [rune_len]. destruct (N.ltb_spec (b2N a) 0x80); [discriminate|auto]. }
  destruct (rune_len (a :: s)) as [|n] eqn:E.
  - destruct (IH s) as [F1 F2]; [cbn in L; lia|]. split; [constructor; [|exact F1]|cbn [flat_map snd app]; now rewrite F2].
    cbn. split; [reflexivity|]. eauto.
  - destruct (IH (skipn (S n) (a :: s))) as [F1 F2]; [rewrite skipn_length; cbn [length] in *; lia|].
    split; [constructor; [|exact F1]|cbn [flat_map snd]; rewrite F2; apply firstn_skipn].
    split; [apply P; discriminate|reflexivity].
Qed.

(** ** Quoting *)
Lemma hex_at_inj m n : (m < 16)%N -> (n < 16)%N -> hex_at lower_hex m = hex_at lower_hex n -> m = n.
Proof.
  intros Hm Hn H.
  assert (D : forall k, (k < 16)%N -> digit (hex_at lower_hex k) = Some k).
  { intros k Hk. do 16 (destruct k as [|k] using N.peano_ind; [reflexivity|clear IHk; apply N.succ_lt_mono in Hk]). lia. }
  pose proof (D m Hm). pose proof (D n Hn). congruence.
Qed.
Lemma hexes_S k n : hexes (S k) n = hex_at lower_hex ((n / 2 ^ (4 * N.of_nat k)) mod 16) :: hexes k n.
Proof.
  unfold hexes. rewrite seq_S, rev_app_distr. cbn [rev app map plus]. f_equal.
  f_equal. rewrite N.shiftr_div_pow2. change 15%N with (N.ones 4). now rewrite N.land_ones.
Qed.
Lemma hexes_length k n : length (hexes k n) = k.
Proof. unfold hexes. now rewrite map_length, rev_length, seq_length. Qed.
Lemma hexes_inj k : forall m n, hexes k m = hexes k n -> (m mod 2 ^ (4 * N.of_nat k) = n mod 2 ^ (4 * N.of_nat k))%N.
Proof.
  induction k as [|k IH]; intros m n H; [now rewrite !N.mod_1_r|].
  rewrite !hexes_S in H. injection H as H1 H2. apply IH in H2. apply hex_at_inj in H1; [|apply N.mod_lt; discriminate..].
  replace (4 * N.of_nat (S k))%N with (4 * N.of_nat k + 4)%N by lia. rewrite N.pow_add_r. change (2 ^ 4)%N with 16%N.
  assert (P : (2 ^ (4 * N.of_nat k) <> 0)%N) by (apply N.pow_nonzero; discriminate).
  rewrite (N.mod_mul_r m), (N.mod_mul_r n) by (assumption || discriminate). f_equal; [exact H2|]. f_equal. exact H1.
Qed.
Lemma hex2_hexes a : hex2 a = hexes 2 (b2N a).
Proof. now destruct a. Qed.

(** The shapes of a quoted piece. *)
Definition esc_of (c : byte) : option N :=
  match c with
  | x22 => Some 0x22%N | x5c => Some 0x5c%N | x61 => Some 7%N | x62 => Some 8%N | x66 => Some 12%N
  | x6e => Some 10%N | x72 => Some 13%N | x74 => Some 9%N | x76 => Some 11%N
  | _ => None
  end.
Inductive quoted : bool * N * bytes -> bytes -> Prop :=
| Q_bad a : (0x80 <= b2N a)%N -> quoted (false, 0xfffd%N, [a]) (x5c :: x78 :: hexes 2 (b2N a))
| Q_raw s : seq1 s -> rune_val s <> 0x22%N -> rune_val s <> 0x5c%N -> quoted (true, rune_val s, s) s
| Q_esc s c : seq1 s -> esc_of c = Some (rune_val s) -> quoted (true, rune_val s, s) [x5c; c]
| Q_x s : seq1 s -> (rune_val s < 0x80)%N -> quoted (true, rune_val s, s) (x5c :: x78 :: hexes 2 (rune_val s))
| Q_u s : seq1 s -> (rune_val s < 0x10000)%N -> quoted (true, rune_val s, s) (x5c :: x75 :: hexes 4 (rune_val s))
| Q_U s : seq1 s -> quoted (true, rune_val s, s) (x5c :: x55 :: hexes 8 (rune_val s)).
Lemma seq1_small s c : seq1 s -> rune_val s = b2N c -> (b2N c < 0x80)%N -> s = [c].
Proof.
  intros A E H. apply seq1_valid in A. rewrite E in A. exact (valid_inj _ _ _ A (Seq1 c H)).
Qed.
Lemma quote_quoted de t : piece t -> quoted t (quote_rune de t).
Proof.
  destruct t as [[ok r] s]. cbn [piece]. destruct ok.
  2:{ intros (-> & a & -> & Ha). cbn [quote_rune negb flat_map]. rewrite app_nil_r, hex2_hexes. now constructor. }
  intros [A ->]. unfold quote_rune. cbn [negb].
  destruct (N.eqb_spec (rune_val s) 0x22) as [E1|E1].
  { cbn [orb]. rewrite (seq1_small s x22 A E1) by reflexivity. rewrite (seq1_small s x22 A E1) in A by reflexivity. now constructor. }
  destruct (N.eqb_spec (rune_val s) 0x5c) as [E2|E2].
  { cbn [orb]. rewrite (seq1_small s x5c A E2) by reflexivity. rewrite (seq1_small s x5c A E2) in A by reflexivity. now constructor. }
  cbn [orb]. destruct (de_print de (rune_val s)); [now constructor|].
  destruct (N.eqb_spec (rune_val s) 7) as [E|_]; [constructor; [exact A|now rewrite E]|].
  destruct (N.eqb_spec (rune_val s) 8) as [E|_]; [constructor; [exact A|now rewrite E]|].
  destruct (N.eqb_spec (rune_val s) 12) as [E|_]; [constructor; [exact A|now rewrite E]|].
  destruct (N.eqb_spec (rune_val s) 10) as [E|_]; [constructor; [exact A|now rewrite E]|].
  destruct (N.eqb_spec (rune_val s) 13) as [E|_]; [constructor; [exact A|now rewrite E]|].
  destruct (N.eqb_spec (rune_val s) 9) as [E|_]; [constructor; [exact A|now rewrite E]|].
  destruct (N.eqb_spec (rune_val s) 11) as [E|_]; [constructor; [exact A|now rewrite E]|].
  destruct ((rune_val s <? 0x20)%N || (rune_val s =? 0x7f)%N) eqn:E.
  { constructor; [exact A|]. apply orb_prop in E. destruct E as [E|E]; [apply N.ltb_lt in E|apply N.eqb_eq in E]; lia. }
  destruct (N.ltb_spec (rune_val s) 0x10000); now constructor.
Qed.
(** The first byte of a raw piece is neither a quote nor a backslash. *)
Lemma raw_first s : seq1 s -> rune_val s <> 0x22%N -> rune_val s <> 0x5c%N -> forall r q, s ++ r <> x22 :: q /\ s ++ r <> x5c :: q.
Proof.
  intros A H1 H2 r q. pose proof (seq1_valid s A) as V.
  destruct V as [a Ha|a b Ha|a b c Ha|a b c d Ha]; cbn [app]; split; intros E; injection E as -> _;
    try (now contradiction H1); try (now contradiction H2); change (b2N x22) with 0x22%N in *; change (b2N x5c) with 0x5c%N in *; lia.
Qed.
Lemma quoted_first t p : quoted t p -> forall r q, p ++ r <> x22 :: q.
Proof. destruct 1; intros r q; try discriminate. now apply raw_first. Qed.
(** What follows the backslash. *)
Inductive escaped : bool * N * bytes -> byte -> bytes -> Prop :=
| E_bad a : (0x80 <= b2N a)%N -> escaped (false, 0xfffd%N, [a]) x78 (hexes 2 (b2N a))
| E_esc s c : seq1 s -> esc_of c = Some (rune_val s) -> escaped (true, rune_val s, s) c []
| E_x s : seq1 s -> (rune_val s < 0x80)%N -> escaped (true, rune_val s, s) x78 (hexes 2 (rune_val s))
| E_u s : seq1 s -> (rune_val s < 0x10000)%N -> escaped (true, rune_val s, s) x75 (hexes 4 (rune_val s))
| E_U s : seq1 s -> escaped (true, rune_val s, s) x55 (hexes 8 (rune_val s)).
Lemma quoted_split t p : quoted t p ->
  (t = (true, rune_val p, p) /\ seq1 p /\ rune_val p <> 0x22%N /\ rune_val p <> 0x5c%N) \/
  exists c q, p = x5c :: c :: q /\ escaped t c q.
Proof.
  intros [a Ha|s A N1 N2|s c A Ec|s A L|s A L|s A]; [|now left|..]; right; eexists _, _; (split; [reflexivity|now constructor]).
Qed.
Lemma hexes_cut k m n r s : hexes k m ++ r = hexes k n ++ s -> (m < 2 ^ (4 * N.of_nat k))%N -> (n < 2 ^ (4 * N.of_nat k))%N -> m = n /\ r = s.
Proof.
  intros H A B. apply app_inj_len in H; [|now rewrite !hexes_length]. destruct H as [H ->].
  apply hexes_inj in H. rewrite !N.mod_small in H by assumption. auto.
Qed.
Lemma piece_eq s s' : seq1 s -> seq1 s' -> rune_val s = rune_val s' -> (true, rune_val s, s) = (true, rune_val s', s').
Proof. intros A B E. now rewrite (rune_val_inj s s' A B E). Qed.
Lemma b2N_2 a : (b2N a < 2 ^ (4 * N.of_nat 2))%N.
Proof. destruct a; reflexivity. Qed.
Lemma escaped_cut t c p : escaped t c p -> forall t' p' r s, escaped t' c p' -> p ++ r = p' ++ s -> t = t' /\ r = s.
Proof.
  intros H t' p' r q H' E.
  destruct H as [a Ha|s c A Ec|s A L|s A L|s A].
  - remember x78 as c0 eqn:C. destruct H' as [a' Ha'|s' c' A' Ec'|s' A' L'|s' A' L'|s' A']; try discriminate C.
    + apply hexes_cut in E; [|apply b2N_2..]. destruct E as [E ->]. apply b2N_inj in E. now subst.
    + subst c'. discriminate.
    + apply hexes_cut in E; [|apply b2N_2|change (2 ^ (4 * N.of_nat 2))%N with 256%N; lia]. exfalso. lia.
  - destruct H' as [a' Ha'|s' c' A' Ec'|s' A' L'|s' A' L'|s' A']; try discriminate Ec.
    cbn [app] in E. split; [|exact E]. apply piece_eq; [assumption..|]. rewrite Ec in Ec'. now injection Ec'.
  - remember x78 as c0 eqn:C. destruct H' as [a' Ha'|s' c' A' Ec'|s' A' L'|s' A' L'|s' A']; try discriminate C.
    + apply hexes_cut in E; [|change (2 ^ (4 * N.of_nat 2))%N with 256%N; lia|apply b2N_2]. exfalso. lia.
    + subst c'. discriminate.
    + apply hexes_cut in E; [|change (2 ^ (4 * N.of_nat 2))%N with 256%N; lia..]. destruct E as [E ->]. split; [now apply piece_eq|reflexivity].
  - remember x75 as c0 eqn:C. destruct H' as [a' Ha'|s' c' A' Ec'|s' A' L'|s' A' L'|s' A']; try discriminate C.
    + subst c'. discriminate.
    + apply hexes_cut in E; [|change (2 ^ (4 * N.of_nat 4))%N with 0x10000%N; lia..]. destruct E as [E ->]. split; [now apply piece_eq|reflexivity].
  - remember x55 as c0 eqn:C. destruct H' as [a' Ha'|s' c' A' Ec'|s' A' L'|s' A' L'|s' A']; try discriminate C.
    + subst c'. discriminate.
    + pose proof (rune_val_bound s A). pose proof (rune_val_bound s' A').
      apply hexes_cut in E; [|change (2 ^ (4 * N.of_nat 8))%N with 0x100000000%N; lia..]. destruct E as [E ->]. split; [now apply piece_eq|reflexivity].
Qed.
Lemma quoted_cut t p : quoted t p -> forall t' p' r s, quoted t' p' -> p ++ r = p' ++ s -> t = t' /\ r = s.
Proof.
  intros H t' p' r q H' E. apply quoted_split in H, H'.
  destruct H as [(-> & A & N1 & N2)|(c & w & -> & H)], H' as [(-> & A' & N1' & N2')|(c' & w' & -> & H')]; cbn [app] in E.
  - destruct (seq1_cut _ _ _ _ A A' E) as [-> ->]. auto.
  - exfalso. exact (proj2 (raw_first _ A N1 N2 _ _) E).
  - symmetry in E. exfalso. exact (proj2 (raw_first _ A' N1' N2' _ _) E).
  - injection E as -> E. exact (escaped_cut _ _ _ H _ _ _ _ H' E).
Qed.
Lemma quotes_cut de : forall l l' r s, Forall piece l -> Forall piece l' ->
  flat_map (quote_rune de) l ++ x22 :: r = flat_map (quote_rune de) l' ++ x22 :: s -> l = l' /\ r = s.
Proof.
  induction l as [|t l IH]; intros [|t' l'] r s F F' H; cbn [flat_map app] in H.
  - injection H as ->. auto.
  - inversion F'; subst. rewrite <- app_assoc in H. symmetry in H. exfalso. eapply quoted_first; [apply quote_quoted; eassumption|exact H].
  - inversion F; subst. rewrite <- app_assoc in H. exfalso. eapply quoted_first; [apply quote_quoted; eassumption|exact H].
  - inversion F; subst. inversion F'; subst. rewrite <- !app_assoc in H.
    eapply quoted_cut in H; [|apply quote_quoted; assumption..]. destruct H as [-> H]. apply IH in H; [|assumption..]. destruct H as [-> ->]. auto.
Qed.
Lemma cut_quote de s t r q : Quote de s ++ r = Quote de t ++ q -> s = t /\ r = q.
Proof.
  unfold Quote. cbn [app]. intros H. injection H as H. rewrite <- !app_assoc in H. cbn [app] in H.
  destruct (runes_spec (length s) s) as [F1 E1]; [auto|]. destruct (runes_spec (length t) t) as [F2 E2]; [auto|].
  apply quotes_cut in H; [|assumption..]. destruct H as [H ->]. split; [|reflexivity]. rewrite <- E1, H. exact E2.
Qed.
Lemma lines_first n indent a t : exists w, dump_lines (S n) indent 0 (a :: t) = x0a :: w.
Proof. eexists. cbn [dump_lines]. change (0 <? length (a :: t))%nat with true. unfold nl. cbn [app]. reflexivity. Qed.
Lemma cut_string de indent s t r q : dumpString de indent s ++ r = dumpString de indent t ++ q -> s = t /\ r = q.
Proof.
  unfold dumpString. intros H.
  assert (Q : forall s t r q, forallb (fun t => de_graphic de (snd (fst t))) (runes (length t) t) = false ->
    (str "(len:" ++ FormatUint (N.of_nat (length s)) ++ str ") " ++ Quote de s) ++ r = dumpBytes indent t ++ q -> False).
  { clear. intros s t r q Hg H. destruct t as [|a t]; [discriminate|]. unfold dumpBytes in H.
    rewrite <- !app_assoc in H. apply app_inv_head in H. apply cut_uint in H; [|ends_tac..]. destruct H as [_ H].
    destruct (lines_first (length t) indent a t) as [w Ew]. cbn [length] in H. rewrite Ew in H.
    change (str ") ") with [x29; x20] in H. change (str ")") with [x29] in H. cbn [app] in H. discriminate. }
  destruct (forallb _ (runes (length s) s)) eqn:G1, (forallb _ (runes (length t) t)) eqn:G2.
  - rewrite <- !app_assoc in H. apply app_inv_head in H. apply cut_uint in H; [|ends_tac..]. destruct H as [_ H].
    apply app_inv_head in H. now apply cut_quote in H.
  - exfalso. eapply Q; [exact G2|exact H].
  - exfalso. symmetry in H. eapply Q; [exact G1|exact H].
  - now apply cut_bytes in H.
Qed.
