(** TransposeProofs.v - the two transposition loops of rbxl/arrays.go:45-68
    compute the same index permutation. *)
From Verif Require Import Base RbxlValues RbxlArrays.

(** The permutation: cell (q, m) of an L x K matrix goes to (m, q). *)
Definition tr (L K : nat) (b : bytes) : bytes :=
  map (fun p => nth ((p mod L) * K + p / L) b x00) (seq 0 (L * K)).

Lemma tr_length L K b : length (tr L K b) = L * K.
Proof. unfold tr. now rewrite map_length, seq_length. Qed.

Lemma divmod_lt L K p : p < L * K -> p / L < K /\ p mod L < L.
Proof.
  intros H. assert (L <> 0) by (intros ->; lia). split.
  - apply Nat.div_lt_upper_bound; lia.
  - apply Nat.mod_upper_bound; lia.
Qed.
Lemma cell_lt L K q m : q < L -> m < K -> q * K + m < L * K.
Proof. intros. nia. Qed.
Lemma cell_div K q m : m < K -> (q * K + m) / K = q.
Proof. intros. symmetry. apply Nat.div_unique with (r := m); lia. Qed.
Lemma cell_mod K q m : m < K -> (q * K + m) mod K = m.
Proof. intros. symmetry. apply Nat.mod_unique with (q := q); lia. Qed.
Lemma cell_of K p : K <> 0 -> p = (p / K) * K + p mod K.
Proof. intros. pose proof (Nat.div_mod p K H). lia. Qed.

Lemma tr_nth L K b p : p < L * K -> nth p (tr L K b) x00 = nth ((p mod L) * K + p / L) b x00.
Proof.
  intros H. unfold tr.
  rewrite nth_indep with (d' := nth ((0 mod L) * K + 0 / L) b x00)
    by (rewrite map_length, seq_length; exact H).
  rewrite (map_nth (fun p => nth ((p mod L) * K + p / L) b x00)).
  now rewrite seq_nth.
Qed.
Lemma tr_cell L K b q m : q < L -> m < K -> nth (m * L + q) (tr L K b) x00 = nth (q * K + m) b x00.
Proof.
  intros. rewrite tr_nth by (pose proof (cell_lt K L m q); lia).
  now rewrite cell_mod, cell_div by assumption.
Qed.

Lemma nth_ext_bytes (a b : bytes) :
  length a = length b -> (forall p, p < length a -> nth p a x00 = nth p b x00) -> a = b.
Proof. intros. eapply nth_ext; eauto. Qed.

Lemma tr_unique L K b c : length b = L * K -> length c = L * K ->
  (forall q m, q < L -> m < K -> nth (m * L + q) c x00 = nth (q * K + m) b x00) -> c = tr L K b.
Proof.
  intros Hb Hc H. apply nth_ext_bytes; [now rewrite tr_length|].
  intros p Hp. rewrite Hc in Hp. destruct (divmod_lt L K p Hp) as [H1 H2].
  rewrite tr_nth by exact Hp.
  rewrite <- (H (p mod L) (p / L)) by assumption.
  f_equal. apply cell_of. lia.
Qed.

Lemma tr_tr L K b : length b = L * K -> tr K L (tr L K b) = b.
Proof.
  intros Hb. symmetry. apply tr_unique.
  - rewrite tr_length. lia.
  - lia.
  - intros q m Hq Hm. symmetry. now apply tr_cell.
Qed.

(** ** The general loop *)
Lemma set_at_ok c i b : i < length c -> set_at c i b = OK (replace_nth i c b).
Proof. intros. unfold set_at. destruct (i <? length c)%nat eqn:E; [reflexivity|lia]. Qed.
Lemma get_at_ok c i : i < length c -> get_at c i = OK (nth i c x00).
Proof.
  intros. unfold get_at. destruct (nth_error c i) eqn:E.
  - now rewrite (nth_error_nth _ _ _ E).
  - apply nth_error_None in E. lia.
Qed.

Definition pos (L K k : nat) : nat := (k mod K) * L + k / K.

Lemma pos_lt L K k : k < L * K -> pos L K k < L * K.
Proof.
  intros H. unfold pos. assert (K <> 0) by (intros ->; lia).
  assert (k / K < L) by (apply Nat.div_lt_upper_bound; lia).
  pose proof (Nat.mod_upper_bound k K ltac:(lia)). nia.
Qed.
Lemma pos_inj L K a b : a < L * K -> b < L * K -> pos L K a = pos L K b -> a = b.
Proof.
  intros Ha Hb H. assert (K <> 0) by (intros ->; lia). unfold pos in H.
  assert (a / K < L) by (apply Nat.div_lt_upper_bound; lia).
  assert (b / K < L) by (apply Nat.div_lt_upper_bound; lia).
  assert (a mod K = b mod K).
  { rewrite <- (cell_div L (a mod K) (a / K)) by lia. rewrite H. now rewrite cell_div. }
  assert (a / K = b / K) by nia.
  rewrite (cell_of K a), (cell_of K b) by lia. congruence.
Qed.
(** One step of the running index. *)
Lemma pos_step L K k : k < L * K ->
  (if (L * K <=? pos L K k + L)%nat then pos L K k + L - (L * K - 1) else pos L K k + L)
  = pos L K (S k).
Proof.
  intros H. assert (K <> 0) by (intros ->; lia). unfold pos.
  assert (Hq : k / K < L) by (apply Nat.div_lt_upper_bound; lia).
  pose proof (Nat.mod_upper_bound k K ltac:(lia)) as Hm.
  pose proof (cell_of K k ltac:(lia)) as Hk.
  set (q := k / K) in *. set (m := k mod K) in *.
  destruct (Nat.eq_dec (S m) K) as [He|He].
  - assert (S k / K = S q) as -> by (symmetry; apply Nat.div_unique with (r := 0); nia).
    assert (S k mod K = 0) as -> by (symmetry; apply Nat.mod_unique with (q := S q); nia).
    destruct (L * K <=? m * L + q + L)%nat eqn:E; nia.
  - assert (S k / K = q) as -> by (symmetry; apply Nat.div_unique with (r := S m); nia).
    assert (S k mod K = S m) as -> by (symmetry; apply Nat.mod_unique with (q := q); nia).
    destruct (L * K <=? m * L + q + L)%nat eqn:E; nia.
Qed.

Lemma skipn_nth_cons (b : bytes) k : k < length b -> skipn k b = nth k b x00 :: skipn (S k) b.
Proof.
  revert k; induction b as [|x b IH]; intros k H; [cbn in H; lia|].
  destruct k; [reflexivity|]. cbn [skipn nth]. apply IH. cbn in H. lia.
Qed.

Lemma transpose_loop_inv L K b : length b = L * K ->
  forall d k c, d + k = L * K -> length c = L * K ->
  (forall m, m < k -> nth (pos L K m) c x00 = nth m b x00) ->
  exists c', transpose_loop (skipn k b) L c (pos L K k) = OK c' /\ length c' = L * K /\
    forall m, m < L * K -> nth (pos L K m) c' x00 = nth m b x00.
Proof.
  intros Hb. induction d as [|d IH]; intros k c Hd Hc Hinv.
  - rewrite skipn_all2 by lia. cbn. exists c. repeat split; auto. intros. apply Hinv. lia.
  - rewrite skipn_nth_cons by lia. cbn [transpose_loop].
    rewrite set_at_ok by (rewrite Hc; apply pos_lt; lia). cbn [obind].
    rewrite replace_nth_length, Hc, pos_step by lia.
    apply IH; [lia | now rewrite replace_nth_length |].
    intros m Hm. rewrite replace_nth_nth, Hc.
    pose proof (pos_lt L K k ltac:(lia)).
    destruct (Nat.eqb (pos L K m) (pos L K k) && (pos L K k <? L * K)%nat)%bool eqn:E.
    + apply andb_true_iff in E as [E _]. apply Nat.eqb_eq in E.
      apply pos_inj in E; [now subst | lia | lia].
    + destruct (Nat.eq_dec m k) as [->|]; [|apply Hinv; lia].
      rewrite Nat.eqb_refl in E. cbn [andb] in E. lia.
Qed.

Lemma transpose_loop_tr L K b : length b = L * K ->
  transpose_loop b L (repeat x00 (length b)) 0 = OK (tr L K b).
Proof.
  intros Hb.
  destruct (Nat.eq_dec K 0) as [->|HK].
  { rewrite Nat.mul_0_r in Hb. destruct b; [|discriminate]. unfold tr. rewrite Nat.mul_0_r. reflexivity. }
  destruct (transpose_loop_inv L K b Hb (L * K) 0 (repeat x00 (length b))) as (c & E & Hc & Hn);
    [lia | now rewrite repeat_length | intros; lia |].
  cbn [skipn] in E. unfold pos in E. rewrite Nat.mod_0_l, Nat.div_0_l in E by lia.
  cbn [Nat.mul Nat.add] in E. rewrite E. f_equal. apply tr_unique; auto.
  intros q m Hq Hm. rewrite <- (Hn (q * K + m)) by (now apply cell_lt).
  unfold pos. now rewrite cell_mod, cell_div.
Qed.

(** ** The square case *)
Lemma loop_S {A} n i (body : nat -> A -> res A) a :
  loop (S n) i body a = (x <- loop n i body a ;; body (i + n) x).
Proof.
  revert i a. induction n as [|n IH]; intros i a.
  - cbn. rewrite Nat.add_0_r. destruct (body i a); reflexivity.
  - change (loop (S (S n)) i body a) with (x <- body i a ;; loop (S n) (S i) body x).
    change (loop (S n) i body a) with (x <- body i a ;; loop n (S i) body x).
    destruct (body i a); cbn [obind]; try reflexivity.
    rewrite IH. replace (S i + n) with (i + S n) by lia. reflexivity.
Qed.

Lemma swap_at_ok b i j : i < length b -> j < length b -> exists b',
  swap_at b i j = OK b' /\ length b' = length b /\
  forall p, nth p b' x00 = if Nat.eqb p i then nth j b x00 else if Nat.eqb p j then nth i b x00 else nth p b x00.
Proof.
  intros Hi Hj. unfold swap_at. rewrite !get_at_ok by assumption. cbn [obind].
  rewrite set_at_ok by assumption. cbn [obind].
  rewrite set_at_ok by (rewrite replace_nth_length; assumption).
  eexists. split; [reflexivity|]. split; [now rewrite !replace_nth_length|].
  intros p. rewrite !replace_nth_nth, replace_nth_length.
  assert ((j <? length b)%nat = true) as -> by lia.
  assert ((i <? length b)%nat = true) as -> by lia. rewrite !andb_true_r.
  destruct (Nat.eqb_spec p j); destruct (Nat.eqb_spec p i); subst; try reflexivity.
Qed.

Lemma cell_eq n r c r' c' : c < n -> c' < n -> r * n + c = r' * n + c' -> r = r' /\ c = c'.
Proof.
  intros Hc Hc' H. assert (r = r').
  { rewrite <- (cell_div n r c Hc), H. now apply cell_div. }
  subst. lia.
Qed.

Lemma square_inner n b R c0 : length b = n * n -> R < n -> c0 <= R ->
  exists b', loop c0 0 (fun c b => swap_at b (R * n + c) (c * n + R)) b = OK b' /\
    length b' = n * n /\
    forall r c, r < n -> c < n -> nth (r * n + c) b' x00 =
      if ((r =? R) && (c <? c0) || (c =? R) && (r <? c0))%nat%bool
      then nth (c * n + r) b x00 else nth (r * n + c) b x00.
Proof.
  intros Hb HR. induction c0 as [|c0 IH]; intros Hc0.
  - exists b. cbn [loop]. repeat split; auto. intros r c _ _.
    change (c <? 0)%nat with false. change (r <? 0)%nat with false. now rewrite !andb_false_r.
  - destruct IH as (b1 & E1 & L1 & H1); [lia|].
    rewrite loop_S, E1. cbn [obind Nat.add].
    destruct (swap_at_ok b1 (R * n + c0) (c0 * n + R)) as (b2 & E2 & L2 & H2);
      [rewrite L1; apply cell_lt; lia | rewrite L1; apply cell_lt; lia |].
    exists b2. split; [exact E2|]. split; [lia|].
    intros r c Hr Hc. rewrite H2.
    destruct (Nat.eqb_spec (r * n + c) (R * n + c0)) as [E|E].
    + apply cell_eq in E as [-> ->]; [|lia|lia].
      rewrite H1 by lia.
      replace ((R =? R) && (c0 <? S c0) || (c0 =? R) && (R <? S c0))%nat%bool with true by lia.
      replace ((c0 =? R) && (R <? c0) || (R =? R) && (c0 <? c0))%nat%bool with false by lia.
      reflexivity.
    + destruct (Nat.eqb_spec (r * n + c) (c0 * n + R)) as [E'|E'].
      * apply cell_eq in E' as [-> ->]; [|lia|lia]. rewrite H1 by lia.
        replace ((c0 =? R) && (R <? S c0) || (R =? R) && (c0 <? S c0))%nat%bool with true by lia.
        replace ((R =? R) && (c0 <? c0) || (c0 =? R) && (R <? c0))%nat%bool with false by lia.
        reflexivity.
      * rewrite H1 by lia.
        assert (~ (r = R /\ c = c0)) by (intros [-> ->]; congruence).
        assert (~ (r = c0 /\ c = R)) by (intros [-> ->]; congruence).
        replace ((r =? R) && (c <? S c0) || (c =? R) && (r <? S c0))%nat%bool
          with ((r =? R) && (c <? c0) || (c =? R) && (r <? c0))%nat%bool by lia.
        reflexivity.
Qed.

Lemma square_outer n b r0 : length b = n * n -> r0 <= n ->
  exists b', loop r0 0 (fun r b => loop r 0 (fun c b => swap_at b (r * n + c) (c * n + r)) b) b = OK b' /\
    length b' = n * n /\
    forall r c, r < n -> c < n -> nth (r * n + c) b' x00 =
      if ((r <? r0) && (c <? r0))%nat%bool then nth (c * n + r) b x00 else nth (r * n + c) b x00.
Proof.
  intros Hb. induction r0 as [|r0 IH]; intros Hr0.
  - exists b. cbn [loop]. repeat split; auto.
  - destruct IH as (b1 & E1 & L1 & H1); [lia|].
    rewrite loop_S, E1. cbn [obind Nat.add].
    destruct (square_inner n b1 r0 r0 L1 ltac:(lia) ltac:(lia)) as (b2 & E2 & L2 & H2).
    exists b2. split; [exact E2|]. split; [lia|].
    intros r c Hr Hc. rewrite H2 by assumption.
    destruct ((r =? r0) && (c <? r0) || (c =? r0) && (r <? r0))%nat%bool eqn:E.
    + rewrite H1 by assumption.
      replace ((c <? r0) && (r <? r0))%nat%bool with false by lia.
      replace ((r <? S r0) && (c <? S r0))%nat%bool with true by lia. reflexivity.
    + rewrite H1 by assumption.
      destruct ((r <? r0) && (c <? r0))%nat%bool eqn:E2'.
      * replace ((r <? S r0) && (c <? S r0))%nat%bool with true by lia. reflexivity.
      * destruct ((r <? S r0) && (c <? S r0))%nat%bool eqn:E3; [|reflexivity].
        assert (r = r0 /\ c = r0) as [-> ->] by lia. reflexivity.
Qed.

Lemma transpose_square_tr n b : length b = n * n -> transpose_square b n n = OK (tr n n b).
Proof.
  intros Hb. destruct (square_outer n b n Hb (Nat.le_refl n)) as (c & E & Hc & H).
  unfold transpose_square. rewrite E. f_equal. apply tr_unique; auto.
  intros q m Hq Hm. rewrite H by assumption.
  now replace ((m <? n) && (q <? n))%nat%bool with true by lia.
Qed.

(** ** transpose, interleave, deinterleave *)
Lemma transpose_tr L K b : L <> 0 -> length b = L * K -> transpose b L = OK (tr L K b).
Proof.
  intros HL Hb. unfold transpose.
  destruct (Nat.eqb_spec L 0); [lia|].
  assert (length b / L = K) as -> by (rewrite Hb, Nat.mul_comm; apply Nat.div_mul; lia).
  destruct (Nat.eqb_spec L K) as [->|]; [now apply transpose_square_tr | now apply transpose_loop_tr].
Qed.

Lemma interleave_tr b size count : size <> 0 -> count <> 0 -> length b = count * size ->
  interleave b (Z.of_nat size) = OK (tr count size b).
Proof.
  intros Hs Hc Hb. unfold interleave.
  destruct (Z.of_nat size <=? 0)%Z eqn:E; [lia|].
  rewrite Nat2Z.id, Hb, Nat.mod_mul, Nat.div_mul by lia. cbn [Nat.eqb negb].
  now apply transpose_tr.
Qed.
Lemma deinterleave_tr b size count : size <> 0 -> length b = count * size ->
  deinterleave b (Z.of_nat size) = OK (tr size count b).
Proof.
  intros Hs Hb. unfold deinterleave.
  destruct (Z.of_nat size <=? 0)%Z eqn:E; [lia|].
  rewrite Nat2Z.id, Hb, Nat.mod_mul by lia. cbn [Nat.eqb negb].
  apply transpose_tr; [exact Hs | lia].
Qed.
Lemma deinterleave_interleave b size count : size <> 0 -> count <> 0 -> length b = count * size ->
  (x <- interleave b (Z.of_nat size) ;; deinterleave x (Z.of_nat size)) = OK b.
Proof.
  intros Hs Hc Hb. rewrite (interleave_tr b size count) by assumption. cbn [obind].
  rewrite (deinterleave_tr _ size count); [|assumption|now rewrite tr_length].
  now rewrite tr_tr.
Qed.
Lemma interleave_deinterleave b size count : size <> 0 -> count <> 0 -> length b = count * size ->
  (x <- deinterleave b (Z.of_nat size) ;; interleave x (Z.of_nat size)) = OK b.
Proof.
  intros Hs Hc Hb. rewrite (deinterleave_tr b size count) by assumption. cbn [obind].
  rewrite (interleave_tr _ size count); [|assumption|assumption|rewrite tr_length; lia].
  now rewrite tr_tr by lia.
Qed.
Lemma interleave_empty_panics size : (0 < size)%Z -> interleave [] size = Panic.
Proof.
  intros H. unfold interleave. destruct (size <=? 0)%Z eqn:E; [lia|]. cbn [length].
  assert (Z.to_nat size <> 0) by lia. rewrite Nat.mod_0_l, Nat.div_0_l by assumption. reflexivity.
Qed.
(** Exact outcome of interleave for every input. *)
Lemma interleave_cases b size :
  (interleave b size = Panic <-> b = [] /\ (0 < size)%Z) /\
  ((exists e, interleave b size = Err e) <-> (size <= 0)%Z \/ length b mod Z.to_nat size <> 0) /\
  interleave b size <> Hang.
Proof.
  unfold interleave. destruct (size <=? 0)%Z eqn:E.
  - repeat split; try discriminate; try lia; eauto.
  - destruct (Nat.eqb_spec (length b mod Z.to_nat size) 0) as [Hm|Hm]; cbn [negb].
    + assert (Hs : Z.to_nat size <> 0) by lia.
      destruct (Nat.eq_dec (length b / Z.to_nat size) 0) as [Hz|Hz].
      * assert (length b = 0) as Hb.
        { pose proof (Nat.div_mod (length b) (Z.to_nat size) Hs). lia. }
        destruct b; [|discriminate]. cbn [length] in *. rewrite Nat.div_0_l by assumption. cbn.
        repeat split; try discriminate; try lia; auto. now intros [].
      * rewrite (transpose_tr _ (Z.to_nat size)).
        -- repeat split; try discriminate; try lia.
           ++ intros [-> _]. cbn [length] in Hz. rewrite Nat.div_0_l in Hz by assumption. lia.
           ++ intros [e He]; discriminate.
        -- assumption.
        -- pose proof (Nat.div_mod (length b) (Z.to_nat size) Hs). lia.
    + repeat split; try discriminate; try lia; eauto.
      intros [-> _]. cbn in Hm. rewrite Nat.mod_0_l in Hm by lia. lia.
Qed.
Lemma deinterleave_cases b size :
  deinterleave b size <> Panic /\ deinterleave b size <> Hang /\
  ((exists e, deinterleave b size = Err e) <-> (size <= 0)%Z \/ length b mod Z.to_nat size <> 0).
Proof.
  unfold deinterleave. destruct (size <=? 0)%Z eqn:E.
  - repeat split; try discriminate; try lia; eauto.
  - destruct (Nat.eqb_spec (length b mod Z.to_nat size) 0) as [Hm|Hm]; cbn [negb].
    + assert (Hs : Z.to_nat size <> 0) by lia.
      rewrite (transpose_tr _ (length b / Z.to_nat size)).
      * repeat split; try discriminate; try lia. intros [e He]; discriminate.
      * assumption.
      * pose proof (Nat.div_mod (length b) (Z.to_nat size) Hs). lia.
    + repeat split; try discriminate; try lia; eauto.
Qed.
