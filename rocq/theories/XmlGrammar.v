(** XmlGrammar.v - the XML reader follows the grammar of SpecXmlText. *)
From Verif Require Import Base XmlText XmlDoc XmlTotal SpecXml XmlLayout SpecXmlText.

(** ** States *)
Definition K_of (input : bytes) : Z := (1 + Z.of_nat (newlines input))%Z.
Definition at_ (K : Z) (i : bytes) (c : ctx) : dst := Dst i None (K - Z.of_nat (newlines i))%Z c.
Definition bad (s : dst) : Prop := d_err s <> None.

Lemma newlines_cons b i : Z.of_nat (newlines (b :: i)) = ((if Byte.eqb b x0a then 1 else 0) + Z.of_nat (newlines i))%Z.
Proof.
  unfold newlines. cbn [count_occ]. destruct (Byte.byte_eq_dec b x0a) as [->|N].
  - change (Byte.eqb x0a x0a) with true. lia.
  - destruct (Byte.eqb b x0a) eqn:E; [apply Byte.byte_dec_bl in E; congruence|lia].
Qed.
Lemma newlines_app a b : newlines (a ++ b) = newlines a + newlines b.
Proof. apply count_occ_app. Qed.
Section At.
Variable K : Z.
Notation "'at' i" := (at_ K i) (at level 9, i at level 9).
Lemma getc_at b i c : getc (at_ K (b :: i) c) = (Some b, at_ K i c).
Proof.
  unfold getc, at_. cbn [d_err d_in d_line d_ctx]. rewrite newlines_cons. do 2 f_equal. unfold bump.
  destruct (Byte.eqb b x0a); lia.
Qed.
Lemma getc_end c : exists s, getc (at_ K [] c) = (None, s) /\ bad s.
Proof. eexists; split; [reflexivity|]. discriminate. Qed.
Lemma mustgetc_at b i c : mustgetc (at_ K (b :: i) c) = (Some b, at_ K i c).
Proof. unfold mustgetc. now rewrite getc_at. Qed.
Lemma mustgetc_end c : exists s, mustgetc (at_ K [] c) = (None, s) /\ bad s.
Proof. unfold mustgetc, getc, at_. cbn. destruct (c_end c); eexists; (split; [reflexivity|]); discriminate. Qed.
Lemma getc_bad s : bad s -> getc s = (None, s).
Proof. unfold getc, bad. destruct (d_err s); [reflexivity|congruence]. Qed.
Lemma mustgetc_bad s : bad s -> exists s', mustgetc s = (None, s') /\ bad s'.
Proof.
  intros H. unfold mustgetc. rewrite (getc_bad _ H). unfold bad in *. destruct (d_err s) as [[]|] eqn:E;
    eexists; (split; [reflexivity|]); cbn; congruence.
Qed.
Lemma ungetc_at b i c : ungetc b (at_ K i c) = at_ K (b :: i) c.
Proof.
  unfold ungetc, at_. cbn [d_err d_in d_line d_ctx]. rewrite newlines_cons. f_equal. destruct (Byte.eqb b x0a); lia.
Qed.
Lemma unget_list r : forall i c, fold_left (fun s b => ungetc b s) r (at_ K i c) = at_ K (rev r ++ i) c.
Proof.
  induction r as [|b r IH]; intros i c; [reflexivity|]. cbn [fold_left rev]. rewrite ungetc_at, IH, <- app_assoc. reflexivity.
Qed.
Lemma fuel_at i c : fuel_of (at_ K i c) = S (length i).
Proof. reflexivity. Qed.
Lemma bad_ungetc b s : bad s -> bad (ungetc b s).
Proof. exact (fun H => H). Qed.

Lemma eqb_eq a b : Byte.eqb a b = true <-> a = b.
Proof. split; [apply Byte.byte_dec_bl|apply Byte.byte_dec_lb]. Qed.
Lemma eqb_neq a b : Byte.eqb a b = false <-> a <> b.
Proof. rewrite <- eqb_eq. destruct (Byte.eqb a b); split; congruence. Qed.

(** ** White space and names *)
Lemma white_iff b : isSpace b = true <-> white b.
Proof.
  split; [destruct b; intros H; try discriminate H; cbn; tauto|]. intros H. cbn in H.
  repeat (destruct H as [<-|H]; [reflexivity|]). contradiction.
Qed.
Lemma white_not b : isSpace b = false <-> ~ white b.
Proof. rewrite <- white_iff. destruct (isSpace b); split; congruence. Qed.
Lemma skips_exists i : exists w rest, skips w i rest.
Proof.
  induction i as [|b i (w & rest & -> & Hw & Hr)].
  - exists [], []. now repeat split.
  - destruct (isSpace b) eqn:E.
    + exists (b :: w), rest. repeat split; [|exact Hr]. constructor; [now apply white_iff|exact Hw].
    + exists [], (b :: w ++ rest). repeat split; [constructor|]. now apply white_not.
Qed.
Lemma skips_length w i rest : skips w i rest -> length i = length w + length rest.
Proof. intros (-> & _). apply app_length. Qed.
Lemma readSpace_loop_at w b rest : Forall white w -> ~ white b -> forall fuel buf c, length w < fuel ->
  readSpace_loop fuel buf (at_ K (w ++ b :: rest) c) = OK (buf ++ w, at_ K (b :: rest) c).
Proof.
  intros Hw Hb. induction Hw as [|a w Ha Hw IH]; intros [|fuel] buf c Hf; try (cbn in Hf; lia); cbn [app readSpace_loop]; rewrite getc_at.
  - rewrite (proj2 (white_not b) Hb), ungetc_at, app_nil_r. reflexivity.
  - rewrite (proj2 (white_iff a) Ha), IH by (cbn in Hf; lia). now rewrite <- app_assoc.
Qed.
Lemma readSpace_at w i b rest c : skips w i (b :: rest) -> readSpace (at_ K i c) = OK (w, at_ K (b :: rest) c).
Proof.
  intros (-> & Hw & Hb). unfold readSpace. rewrite fuel_at. apply (readSpace_loop_at w b rest Hw Hb _ []).
  rewrite app_length. lia.
Qed.
Lemma readSpace_loop_end w : Forall white w -> forall fuel buf c, length w < fuel ->
  exists s, readSpace_loop fuel buf (at_ K w c) = OK (buf ++ w, s) /\ bad s.
Proof.
  intros Hw. induction Hw as [|a w Ha Hw IH]; intros [|fuel] buf c Hf; try (cbn in Hf; lia); cbn [readSpace_loop].
  - destruct (getc_end c) as (s & -> & B). exists s. now rewrite app_nil_r.
  - rewrite getc_at, (proj2 (white_iff a) Ha). destruct (IH fuel (buf ++ [a]) c) as (s & E & B); [cbn in Hf; lia|].
    exists s. rewrite E, <- app_assoc. now split.
Qed.
Lemma readSpace_end w i c : skips w i [] -> exists s, readSpace (at_ K i c) = OK (w, s) /\ bad s.
Proof.
  intros (-> & Hw & _). rewrite app_nil_r. unfold readSpace. rewrite fuel_at. apply (readSpace_loop_end w Hw _ []). lia.
Qed.
Lemma readSpace_bad s : bad s -> readSpace s = OK ([], s).
Proof. intros B. unfold readSpace. cbn [readSpace_loop fuel_of]. now rewrite (getc_bad _ B). Qed.
Lemma space_loop_read fuel : forall buf s, space_loop fuel s =
  match readSpace_loop fuel buf s with OK (_, s') => OK (tt, s') | Err e => Err e | Panic => Panic | Hang => Hang end.
Proof.
  induction fuel as [|fuel IH]; intros buf s; [reflexivity|]. cbn [space_loop readSpace_loop].
  destruct (getc s) as [[b|] s1]; [|reflexivity]. destruct (isSpace b); [apply IH|reflexivity].
Qed.
Lemma space_at w i b rest c : skips w i (b :: rest) -> space (at_ K i c) = OK (tt, at_ K (b :: rest) c).
Proof. intros H. unfold space. rewrite (space_loop_read _ []). fold (readSpace (at_ K i c)). now rewrite (readSpace_at _ _ _ _ _ H). Qed.
Lemma space_end w i c : skips w i [] -> exists s, space (at_ K i c) = OK (tt, s) /\ bad s.
Proof.
  intros H. unfold space. rewrite (space_loop_read _ []). fold (readSpace (at_ K i c)).
  destruct (readSpace_end _ _ c H) as (s & -> & B). now exists s.
Qed.
Lemma space_bad s : bad s -> space s = OK (tt, s).
Proof. intros B. unfold space. rewrite (space_loop_read _ []). fold (readSpace s). now rewrite (readSpace_bad _ B). Qed.

Definition stop_of (k : name_kind) : bytes := match k with NameTag => [] | NameAttr => [x3d] | NameEntity => [x3b] end.
Lemma wordy_iff k b : isNameByte k b = true <-> wordy (stop_of k) b.
Proof.
  unfold isNameByte, wordy. rewrite !andb_true_iff, !N.leb_le, negb_true_iff, eqb_neq.
  destruct k; cbn [stop_of In]; [tauto|..]; rewrite negb_true_iff, eqb_neq; intuition congruence.
Qed.
Lemma wordy_not k b : isNameByte k b = false <-> ~ wordy (stop_of k) b.
Proof. rewrite <- wordy_iff. destruct (isNameByte k b); split; congruence. Qed.
(** A run, or nothing after it. *)
Lemma run_exists k i : (exists n rest, run (stop_of k) n i rest) \/ Forall (wordy (stop_of k)) i.
Proof.
  induction i as [|b i IH]; [right; constructor|]. destruct (isNameByte k b) eqn:E.
  - apply wordy_iff in E. destruct IH as [(n & rest & -> & Hn & Hr)|Hi].
    + left. exists (b :: n), rest. repeat split; [|exact Hr]. now constructor.
    + right. now constructor.
  - left. exists [], (b :: i). repeat split; [constructor|]. now apply wordy_not.
Qed.
Lemma readName_loop_at k n b rest : Forall (wordy (stop_of k)) n -> ~ wordy (stop_of k) b -> forall fuel buf c, length n < fuel ->
  readName_loop fuel k buf (at_ K (n ++ b :: rest) c) = OK (true, buf ++ n, at_ K (b :: rest) c).
Proof.
  intros Hn Hb. induction Hn as [|a n Ha Hn IH]; intros [|fuel] buf c Hf; try (cbn in Hf; lia); cbn [app]; unfold readName_loop; fold readName_loop;
    rewrite mustgetc_at.
  - rewrite (proj2 (wordy_not k b) Hb), ungetc_at, app_nil_r. reflexivity.
  - rewrite (proj2 (wordy_iff k a) Ha), IH by (cbn in Hf; lia). now rewrite <- app_assoc.
Qed.
Lemma readName_loop_end k i : Forall (wordy (stop_of k)) i -> forall fuel buf c, length i < fuel ->
  exists buf' s, readName_loop fuel k buf (at_ K i c) = OK (false, buf', s) /\ bad s.
Proof.
  intros Hi. induction Hi as [|a i Ha Hi IH]; intros [|fuel] buf c Hf; try (cbn in Hf; lia); unfold readName_loop; fold readName_loop.
  - destruct (mustgetc_end c) as (s & -> & B). eauto.
  - rewrite mustgetc_at, (proj2 (wordy_iff k a) Ha). apply IH. cbn in Hf; lia.
Qed.
Lemma readName_at k n i rest c : run (stop_of k) n i rest ->
  readName k [] (at_ K i c) = OK (nonempty n, n, at_ K rest c).
Proof.
  intros (-> & Hn & Hr). destruct rest as [|b rest]; [contradiction|]. unfold readName. destruct Hn as [|a n Ha Hn]; cbn [app]; rewrite mustgetc_at.
  - rewrite (proj2 (wordy_not k b) Hr), ungetc_at. reflexivity.
  - rewrite (proj2 (wordy_iff k a) Ha), fuel_at. cbn [app].
    apply (readName_loop_at k n b rest Hn Hr _ [a]). rewrite app_length. lia.
Qed.
Lemma readName_end k i c : Forall (wordy (stop_of k)) i -> exists n s, readName k [] (at_ K i c) = OK (false, n, s) /\ bad s.
Proof.
  intros Hi. unfold readName. destruct Hi as [|a i Ha Hi].
  - destruct (mustgetc_end c) as (s & -> & B). eauto.
  - rewrite mustgetc_at, (proj2 (wordy_iff k a) Ha), fuel_at. apply readName_loop_end; [exact Hi|lia].
Qed.
Lemma name_at k n i rest c : run (stop_of k) n i rest -> n <> [] -> name k (at_ K i c) = OK (Some n, at_ K rest c).
Proof. intros H Hn. unfold name. rewrite (readName_at _ _ _ _ _ H). destruct n; [congruence|reflexivity]. Qed.
Lemma name_none k b i c : ~ wordy (stop_of k) b -> name k (at_ K (b :: i) c) = OK (None, at_ K (b :: i) c).
Proof. intros H. unfold name. now rewrite (readName_at k [] (b :: i) (b :: i)) by now repeat split. Qed.
Lemma name_end k i c : Forall (wordy (stop_of k)) i -> exists s, name k (at_ K i c) = OK (None, s) /\ bad s.
Proof. intros H. unfold name. destruct (readName_end k i c H) as (n & s & -> & B). now exists s. Qed.
(** ** References *)
Lemma digit_iff hex b d : digit_of (base_of hex) b d <-> (digit b = Some d /\ (d < base_of hex)%N).
Proof.
  unfold digit_of, digit. split.
  - intros [Hd H]. split; [|exact Hd]. assert (Hb : (base_of hex <= 16)%N) by (destruct hex; cbn; lia).
    destruct H as [[H1 H2]|[H1 [H2|H2]]]; rewrite H2.
    + destruct (N.leb_spec 0x30 (0x30 + d)); [|lia]. destruct (N.leb_spec (0x30 + d) 0x39); [|lia]. cbn [andb]. f_equal. lia.
    + destruct (N.leb_spec (0x61 + (d - 10)) 0x39); [lia|]. rewrite andb_false_r.
      destruct (N.leb_spec 0x61 (0x61 + (d - 10))); [|lia]. destruct (N.leb_spec (0x61 + (d - 10)) 0x66); [|lia]. cbn [andb]. f_equal. lia.
    + destruct (N.leb_spec (0x41 + (d - 10)) 0x39); [lia|]. rewrite andb_false_r.
      destruct (N.leb_spec 0x61 (0x41 + (d - 10))); [lia|]. cbn [andb].
      destruct (N.leb_spec 0x41 (0x41 + (d - 10))); [|lia]. destruct (N.leb_spec (0x41 + (d - 10)) 0x46); [|lia]. cbn [andb]. f_equal. lia.
  - intros [H Hd]. split; [exact Hd|]. cbv zeta in H.
    destruct (N.leb_spec 0x30 (b2N b)), (N.leb_spec (b2N b) 0x39); cbn [andb] in H;
      try (injection H as <-; left; lia);
    destruct (N.leb_spec 0x61 (b2N b)), (N.leb_spec (b2N b) 0x66); cbn [andb] in H;
      try (injection H as <-; right; lia);
    destruct (N.leb_spec 0x41 (b2N b)), (N.leb_spec (b2N b) 0x46); cbn [andb] in H; try discriminate H;
      injection H as <-; right; lia.
Qed.
Lemma is_digit_iff hex b : is_digit hex b = true <-> exists d, digit_of (base_of hex) b d.
Proof.
  unfold is_digit. split.
  - destruct (digit b) as [d|] eqn:E; [|discriminate]. intros H. apply N.ltb_lt in H. exists d. apply digit_iff. now split.
  - intros [d H]. apply digit_iff in H as [-> H]. now apply N.ltb_lt.
Qed.
Lemma is_digit_not hex b : is_digit hex b = false <-> forall d, ~ digit_of (base_of hex) b d.
Proof.
  destruct (is_digit hex b) eqn:E.
  - split; [discriminate|]. intros H. apply is_digit_iff in E as [d Hd]. now elim (H d).
  - split; [|reflexivity]. intros _ d Hd. enough (is_digit hex b = true) by congruence. apply is_digit_iff. now exists d.
Qed.
Lemma numeral_digits hex a ds n : numeral (base_of hex) a ds n -> Forall (fun b => is_digit hex b = true) ds.
Proof. induction 1 as [|a b d ds n Hd _ IH]; constructor; [|exact IH]. apply is_digit_iff. now exists d. Qed.
Lemma digits_numeral hex ds : Forall (fun b => is_digit hex b = true) ds -> forall a, exists n, numeral (base_of hex) a ds n.
Proof.
  induction 1 as [|b ds Hb _ IH]; intros a; [eexists; constructor|]. apply is_digit_iff in Hb as [d Hd].
  destruct (IH (a * base_of hex + d)%N) as [n Hn]. exists n. now apply (Num_digit _ _ b d).
Qed.
Lemma numeral_ge base a ds n : (1 <= base)%N -> numeral base a ds n -> (a <= n)%N.
Proof. intros Hb. induction 1 as [|a b d ds n _ _ IH]; [lia|]. assert (a * 1 <= a * base)%N by (apply N.mul_le_mono_l; exact Hb). lia. Qed.
Lemma uint_loop_numeral hex max a ds n : numeral (base_of hex) a ds n -> uint_loop (base_of hex) max a ds =
  if match ds with [] => true | _ => (n <=? max)%N end then PVal n else PRange max.
Proof.
  assert (Hb : (1 <= base_of hex)%N) by (destruct hex; cbn; lia).
  induction 1 as [a|a b d ds n Hd Hn IH]; [reflexivity|]. apply digit_iff in Hd as [Ed Hd]. cbn [uint_loop]. rewrite Ed.
  destruct (N.leb_spec (base_of hex) d); [lia|]. pose proof (numeral_ge _ _ _ _ Hb Hn) as Hge.
  destruct (N.ltb_spec max (a * base_of hex + d)).
  - destruct (N.leb_spec n max); [lia|reflexivity].
  - rewrite IH. destruct ds; [|reflexivity]. inversion Hn; subst. destruct (N.leb_spec (a * base_of hex + d) max); [reflexivity|lia].
Qed.
Lemma ParseUint_numeral hex bits ds n : ds <> [] -> numeral (base_of hex) 0 ds n ->
  ParseUint (base_of hex) bits ds = if (n <=? 2 ^ bits - 1)%N then PVal n else PRange (2 ^ bits - 1)%N.
Proof.
  intros Hne Hn. unfold ParseUint. destruct ds as [|b ds]; [congruence|]. now rewrite (uint_loop_numeral _ _ _ _ _ Hn).
Qed.

Lemma digits_loop_at hex c rest ctx0 : is_digit hex c = false -> forall ds b r, b :: r = ds ++ c :: rest ->
  Forall (fun b => is_digit hex b = true) ds -> forall fuel acc, length ds < fuel ->
  digits_loop fuel hex b acc (at_ K r ctx0) = OK (Some (acc ++ ds, c), at_ K rest ctx0).
Proof.
  intros Hc. induction ds as [|d ds IH]; intros b r E Hds [|fuel] acc Hf; try (cbn in Hf; lia).
  - injection E as -> ->. unfold digits_loop. rewrite Hc, app_nil_r. reflexivity.
  - injection E as -> ->. inversion Hds as [|? ? Hd Hds']; subst. unfold digits_loop; fold digits_loop. rewrite Hd.
    destruct (ds ++ c :: rest) as [|b' r'] eqn:E'; [now destruct ds|]. rewrite mustgetc_at.
    rewrite (IH b' r' eq_refl Hds' fuel (acc ++ [d])) by (cbn in Hf; lia). now rewrite <- app_assoc.
Qed.
Lemma digits_loop_end hex ctx0 : forall r b, Forall (fun b => is_digit hex b = true) (b :: r) -> forall fuel acc, S (length r) < fuel ->
  exists s, digits_loop fuel hex b acc (at_ K r ctx0) = OK (None, s) /\ bad s.
Proof.
  induction r as [|d r IH]; intros b H [|fuel] acc Hf; try lia; inversion H as [|? ? Hb H']; subst; unfold digits_loop; fold digits_loop; rewrite Hb.
  - destruct (mustgetc_end ctx0) as (s & -> & B). eauto.
  - rewrite mustgetc_at. apply IH; [exact H'|cbn in Hf; lia].
Qed.
Lemma span_digits hex i : (exists ds c rest, i = ds ++ c :: rest /\ Forall (fun b => is_digit hex b = true) ds /\ is_digit hex c = false) \/
  Forall (fun b => is_digit hex b = true) i.
Proof.
  induction i as [|b i IH]; [right; constructor|]. destruct (is_digit hex b) eqn:E.
  - destruct IH as [(ds & c & rest & -> & Hd & Hc)|H]; [left; exists (b :: ds), c, rest|right]; [repeat split|]; now try constructor.
  - left. exists [], b, i. now repeat split.
Qed.
Lemma entity_named n b : entity n = Some b <-> In (n, b) named.
Proof.
  unfold entity, named. split.
  - repeat match goal with |- context [bytes_eqb n ?x] => let E := fresh "E" in destruct (bytes_eqb n x) eqn:E; [apply bytes_eqb_eq in E; subst n|] end;
      intros H; try discriminate H; injection H as <-; cbn [In]; tauto.
  - intros H. assert (P : forall x y, (x, y) = (n, b) -> x = n /\ y = b) by (intros x y [= -> ->]; now split).
    repeat (destruct H as [H|H]; [apply P in H as [<- <-]; reflexivity|]). contradiction.
Qed.
Lemma entity_unnamed n : entity n = None <-> forall b, ~ In (n, b) named.
Proof.
  split.
  - intros H b Hb. apply entity_named in Hb. congruence.
  - intros H. destruct (entity n) eqn:E; [|reflexivity]. apply entity_named in E. now elim (H b).
Qed.
Lemma named_run n b : In (n, b) named -> Forall (wordy [x3b]) n /\ exists a m, n = a :: m /\ Byte.eqb a x23 = false.
Proof.
  intros H. cbn in H.
  assert (W : forall m, forallb (isNameByte NameEntity) m = true -> Forall (wordy [x3b]) m).
  { intros m Hm. rewrite forallb_forall in Hm. apply Forall_forall. intros x Hx. apply (wordy_iff NameEntity), Hm, Hx. }
  repeat (destruct H as [H|H]; [injection H as <- <-; split; [apply W; reflexivity|eexists _, _; split; reflexivity]|]). contradiction.
Qed.
Definition read_code (buf : bytes) (hex : bool) (b : byte) (s : dst) : xm (option bytes) :=
  ' (r, s) <- digits_loop (S (fuel_of s)) hex b [] s ;;
  match r with
  | None => OK (None, s)
  | Some (ds, b) =>
      let raw := buf ++ [x26; x23] ++ (if hex then [x78] else []) ++ ds in
      if Byte.eqb b x3b then
        match ParseUint (if hex then 16 else 10) 64 ds with
        | PVal n => if (n <=? 255)%N then OK (Some (buf ++ [N2b n]), s) else OK (Some (raw ++ [x3b]), s)
        | _ => OK (Some (raw ++ [x3b]), s)
        end
      else OK (Some raw, ungetc b s)
  end.
Lemma read_entity_hash buf i c : read_entity buf (at_ K (x23 :: i) c) =
  match i with
  | [] => OK (None, snd (mustgetc (at_ K [] c)))
  | b :: i => if Byte.eqb b x78 then match i with [] => OK (None, snd (mustgetc (at_ K [] c))) | b :: i => read_code buf true b (at_ K i c) end
              else read_code buf false b (at_ K i c)
  end.
Proof.
  unfold read_entity. rewrite mustgetc_at. change (Byte.eqb x23 x23) with true. cbv iota.
  destruct i as [|b i]; [now destruct (mustgetc_end c) as (s & E & _); rewrite E|]. rewrite mustgetc_at.
  destruct (Byte.eqb b x78); [|reflexivity].
  destruct i as [|b' i]; [now destruct (mustgetc_end c) as (s & E & _); rewrite E|]. now rewrite mustgetc_at.
Qed.
Lemma read_code_at buf hex ds c rest b r ctx0 : b :: r = ds ++ c :: rest -> Forall (fun b => is_digit hex b = true) ds -> is_digit hex c = false ->
  read_code buf hex b (at_ K r ctx0) =
  if Byte.eqb c x3b then
    OK (Some (match ParseUint (base_of hex) 64 ds with
              | PVal n => if (n <=? 255)%N then buf ++ [N2b n] else buf ++ x26 :: hash hex ++ ds ++ [x3b]
              | _ => buf ++ x26 :: hash hex ++ ds ++ [x3b] end), at_ K rest ctx0)
  else OK (Some (buf ++ x26 :: hash hex ++ ds), at_ K (c :: rest) ctx0).
Proof.
  intros E Hds Hc. unfold read_code. rewrite (digits_loop_at hex c rest ctx0 Hc ds b r E Hds).
  2:{ rewrite fuel_at. apply (f_equal (@length byte)) in E. rewrite app_length in E. cbn in E. lia. }
  cbn [obind app]. destruct (Byte.eqb c x3b).
  - change (if hex then 16%N else 10%N) with (base_of hex).
    destruct (ParseUint (base_of hex) 64 ds); [destruct (_ <=? _)%N; [reflexivity|]|..]; (do 2 f_equal); [f_equal..|]; destruct hex; cbn [hash app];
      rewrite <- ?app_assoc; cbn [app]; rewrite <- ?app_assoc; reflexivity.
  - rewrite ungetc_at. destruct hex; cbn [hash app]; reflexivity.
Qed.
Lemma hash_app hex l : hash hex ++ l = x23 :: (if hex then x78 :: l else l).
Proof. now destruct hex. Qed.
Lemma digit_not_x b : is_digit false b = true -> Byte.eqb b x78 = false.
Proof. destruct b; intros H; try reflexivity; discriminate H. Qed.
Lemma read_entity_code buf hex ds c rest ctx0 : Forall (fun b => is_digit hex b = true) ds -> is_digit hex c = false ->
  (hex = false -> ds = [] -> c <> x78) ->
  exists b r, b :: r = ds ++ c :: rest /\ read_entity buf (at_ K (hash hex ++ ds ++ c :: rest) ctx0) = read_code buf hex b (at_ K r ctx0).
Proof.
  intros Hds Hc Hx. destruct (ds ++ c :: rest) as [|b r] eqn:E; [now destruct ds|]. exists b, r. split; [reflexivity|].
  rewrite hash_app, read_entity_hash. destruct hex; [now change (Byte.eqb x78 x78) with true|].
  replace (Byte.eqb b x78) with false; [reflexivity|]. symmetry. destruct ds as [|d ds].
  - injection E as -> ->. apply eqb_neq. now apply Hx.
  - injection E as -> _. inversion Hds; subst. now apply digit_not_x.
Qed.
Lemma read_entity_word buf n rest ctx0 : Forall (wordy [x3b]) n -> ~ begins [x23] n -> match rest with [] => False | b :: _ => ~ wordy [x3b] b end ->
  read_entity buf (at_ K (n ++ rest) ctx0) =
  match rest with
  | b :: rest' => if Byte.eqb b x3b then OK (Some (match entity n with Some r => buf ++ [r] | None => buf ++ x26 :: n ++ [x3b] end), at_ K rest' ctx0)
                  else OK (Some (buf ++ x26 :: n), at_ K rest ctx0)
  | [] => Panic
  end.
Proof.
  intros Hn Hh Hr. destruct rest as [|b rest]; [contradiction|].
  assert (R : run (stop_of NameEntity) n (n ++ b :: rest) (b :: rest)) by now repeat split.
  destruct (n ++ b :: rest) as [|a i] eqn:E; [now destruct n|].
  assert (Ha : Byte.eqb a x23 = false).
  { apply eqb_neq. intros ->. destruct n as [|a' n]; injection E as -> _; [|apply Hh; now exists n].
    apply Hr. repeat split; [cbn..| |]; try discriminate. intros [[=]|[]]. }
  unfold read_entity. rewrite mustgetc_at, Ha, ungetc_at.
  rewrite (readName_at NameEntity n (a :: i) (b :: rest) ctx0 R). cbn [obind]. change (d_err (at_ K (b :: rest) ctx0)) with (@None xerr).
  rewrite mustgetc_at. destruct (nonempty n); destruct (Byte.eqb b x3b); [destruct (entity n)| |destruct (entity n)|]; now rewrite ?ungetc_at.
Qed.
Lemma read_entity_at raw u r : reference raw u r -> forall buf c, read_entity buf (at_ K raw c) = OK (Some (buf ++ u), at_ K r c).
Proof.
  assert (NW : ~ wordy [x3b] x3b) by (intros (_ & _ & H); apply H; now left).
  assert (ND : forall hex, is_digit hex x3b = false) by (intros []; reflexivity).
  intros H buf c. destruct H as [n b rest Hn|hex ds n rest Hne Hn Hv|n rest Hn Hh Hu|n b rest Hn Hh Hb|hex rest|hex ds n rest Hn Hv|hex ds n b rest Hn Hb Hd Hx].
  - destruct (named_run n b Hn) as (Hw & a & m & -> & Ha). rewrite read_entity_word; [|exact Hw| |exact NW].
    2:{ intros [r E]. injection E as -> _. discriminate Ha. }
    change (Byte.eqb x3b x3b) with true. now rewrite (proj2 (entity_named _ _) Hn).
  - pose proof (numeral_digits _ _ _ _ Hn) as Hds.
    destruct (read_entity_code buf hex ds x3b rest c Hds (ND hex)) as (b & r & E & ->); [discriminate|].
    rewrite (read_code_at buf hex ds x3b rest b r c E Hds (ND hex)). change (Byte.eqb x3b x3b) with true. cbv iota.
    rewrite (ParseUint_numeral _ _ _ _ Hne Hn). destruct (N.leb_spec n (2 ^ 64 - 1)) as [_|L]; [|change (2 ^ 64 - 1)%N with 0xFFFFFFFFFFFFFFFF%N in L; lia].
    destruct (N.leb_spec n 255); [reflexivity|lia].
  - rewrite read_entity_word; [|exact Hn|exact Hh|exact NW]. change (Byte.eqb x3b x3b) with true. now rewrite (proj2 (entity_unnamed _) Hu).
  - rewrite read_entity_word; [|exact Hn|exact Hh|].
    2:{ intros (H1 & H2 & _). apply Hb. now repeat split. }
    destruct (Byte.eqb b x3b) eqn:E; [|reflexivity]. apply eqb_eq in E as ->. elim Hb. repeat split; [cbn..| |]; try discriminate. intros [].
  - destruct (read_entity_code buf hex [] x3b rest c (Forall_nil _) (ND hex)) as (b & r & E & E'); [discriminate|]. cbn [app] in E'. rewrite E'.
    rewrite (read_code_at buf hex [] x3b rest b r c E (Forall_nil _) (ND hex)). reflexivity.
  - pose proof (numeral_digits _ _ _ _ Hn) as Hds.
    destruct (read_entity_code buf hex ds x3b rest c Hds (ND hex)) as (b & r & E & ->); [discriminate|].
    rewrite (read_code_at buf hex ds x3b rest b r c E Hds (ND hex)). change (Byte.eqb x3b x3b) with true. cbv iota.
    rewrite (ParseUint_numeral _ _ ds n) by (try exact Hn; intros ->; inversion Hn; lia).
    destruct (n <=? 2 ^ 64 - 1)%N; [|reflexivity]. destruct (N.leb_spec n 255); [lia|reflexivity].
  - pose proof (numeral_digits _ _ _ _ Hn) as Hds. apply is_digit_not in Hd.
    destruct (read_entity_code buf hex ds b rest c Hds Hd Hx) as (b' & r & E & ->).
    rewrite (read_code_at buf hex ds b rest b' r c E Hds Hd). now rewrite (proj2 (eqb_neq b x3b) Hb).
Qed.
Lemma code_or_end hex i : match i with b :: _ => hex = false -> b <> x78 | [] => True end ->
  (exists u r, reference (hash hex ++ i) u r) \/
  (Forall (fun b => is_digit hex b = true) i).
Proof.
  intros Hx. destruct (span_digits hex i) as [(ds & c & rest & -> & Hds & Hc)|H]; [left|now right].
  destruct (digits_numeral hex ds Hds 0) as [n Hn].
  destruct (Byte.eqb c x3b) eqn:E.
  - apply eqb_eq in E as ->. destruct ds as [|d ds]; [eexists _, _; apply Ref_code_none|].
    destruct (N.le_gt_cases n 255); [eexists _, _; apply (Ref_code hex (d :: ds) n); [easy|assumption..]|eexists _, _; now apply (Ref_code_big hex (d :: ds) n)].
  - apply eqb_neq in E. eexists _, _. apply (Ref_code_open hex ds n); [exact Hn|exact E|now apply is_digit_not|].
    intros -> ->. now apply Hx.
Qed.
Lemma reference_or_end raw : (exists u r, reference raw u r) \/ forall buf c, exists s, read_entity buf (at_ K raw c) = OK (None, s) /\ bad s.
Proof.
  assert (RC : forall hex b i, Forall (fun b => is_digit hex b = true) (b :: i) -> forall buf c, exists s, read_code buf hex b (at_ K i c) = OK (None, s) /\ bad s).
  { intros hex b i H buf c. unfold read_code. destruct (digits_loop_end hex c i b H (S (fuel_of (at_ K i c))) []) as (s & -> & B); [rewrite fuel_at; lia|].
    now exists s. }
  destruct raw as [|a raw].
  { right. intros buf c. unfold read_entity. destruct (mustgetc_end c) as (s & -> & B). now exists s. }
  destruct (Byte.eqb a x23) eqn:Ha.
  - apply eqb_eq in Ha as ->. destruct raw as [|b raw].
    { right. intros buf c. rewrite read_entity_hash. destruct (mustgetc_end c) as (s & -> & B). now exists s. }
    destruct (Byte.eqb b x78) eqn:Hb.
    + apply eqb_eq in Hb as ->. destruct (code_or_end true raw) as [H|H]; [destruct raw; [exact I|discriminate]| |].
      * left. exact H.
      * right. intros buf c. rewrite read_entity_hash. change (Byte.eqb x78 x78) with true. cbv iota. destruct raw as [|b' raw].
        -- destruct (mustgetc_end c) as (s & -> & B). now exists s.
        -- now apply RC.
    + destruct (code_or_end false (b :: raw)) as [H|H]; [intros _; now apply eqb_neq| |].
      * left. exact H.
      * right. intros buf c. rewrite read_entity_hash, Hb. now apply RC.
  - destruct (run_exists NameEntity (a :: raw)) as [(n & rest & E & Hn & Hr)|H].
    + left. assert (Hh : ~ begins [x23] n).
      { intros [r ->]. cbn in E. injection E as -> _. discriminate Ha. }
      rewrite E. destruct rest as [|b rest]; [contradiction|]. destruct (Byte.eqb b x3b) eqn:Eb.
      * apply eqb_eq in Eb as ->. destruct (entity n) as [v|] eqn:En.
        -- exists [v], rest. apply Ref_named, entity_named, En.
        -- eexists _, _. apply Ref_unknown; [exact Hn|exact Hh|now apply entity_unnamed].
      * apply eqb_neq in Eb. eexists _, _. apply Ref_open; [exact Hn|exact Hh|]. intros (H1 & H2 & _). apply Hr. repeat split; [apply H1..|exact H2|].
        intros [<-|[]]. now apply Eb.
    + right. intros buf c. unfold read_entity. rewrite mustgetc_at, Ha, ungetc_at.
      destruct (readName_end NameEntity (a :: raw) c H) as (n & s & -> & B). cbn [obind]. unfold bad in B. destruct (d_err s) eqn:Es; [|congruence].
      exists s. split; [reflexivity|]. unfold bad. congruence.
Qed.
Lemma reference_length raw u r : reference raw u r -> length r <= length raw.
Proof. destruct 1; rewrite ?app_length; cbn [length]; rewrite ?app_length; cbn [length]; lia. Qed.
(** ** Text *)
Definition quote_of (quoted : bool) : option byte := if quoted then Some x22 else None.
Definition closing (quoted : bool) : byte := if quoted then x22 else x3c.
(** What the two bytes before [raw] must not do to it. *)
Definition calm (quoted : bool) (b0 b1 : byte) (raw : bytes) : Prop :=
  (quoted = false -> ~ (b0 = x5d /\ b1 = x5d /\ begins [x3e] raw) /\ ~ (b1 = x5d /\ begins [x5d; x3e] raw)) /\
  (b1 = x0d -> ~ begins [x0a] raw).
Lemma calm_zero quoted raw : calm quoted x00 x00 raw.
Proof. split; [intros _; split|]; intros H; try (destruct H; discriminate); discriminate. Qed.
Lemma text_step quoted fuel b0 b1 buf b raw c : calm quoted b0 b1 (b :: raw) -> b <> x26 -> b <> closing quoted ->
  text_loop (S fuel) (quote_of quoted) false b0 b1 buf (at_ K (b :: raw) c) =
  text_loop fuel (quote_of quoted) false b1 b (buf ++ [if Byte.eqb b x0d then x0a else b]) (at_ K raw c).
Proof.
  intros [C1 C2] H26 Hc. cbn [text_loop]. rewrite getc_at. rewrite andb_false_r.
  replace (Byte.eqb b0 x5d && Byte.eqb b1 x5d && Byte.eqb b x3e && match quote_of quoted with None => true | _ => false end) with false.
  2:{ symmetry. destruct quoted; cbn [quote_of]; [apply andb_false_r|]. rewrite andb_true_r.
      destruct (Byte.eqb b0 x5d) eqn:E0; [|reflexivity]. destruct (Byte.eqb b1 x5d) eqn:E1; [|reflexivity]. destruct (Byte.eqb b x3e) eqn:E; [|reflexivity].
      apply eqb_eq in E0, E1, E. subst. elim (proj1 (C1 eq_refl)). repeat split. now exists raw. }
  replace (Byte.eqb b x3c && negb false && match quote_of quoted with None => true | _ => false end) with false.
  2:{ symmetry. destruct quoted; cbn [quote_of]; [apply andb_false_r|]. rewrite !andb_true_r. now apply eqb_neq. }
  replace (match quote_of quoted with Some q => Byte.eqb b q | None => false end) with false.
  2:{ symmetry. destruct quoted; cbn [quote_of]; [now apply eqb_neq|reflexivity]. }
  rewrite (proj2 (eqb_neq b x26) H26). cbn [andb]. f_equal.
  destruct (Byte.eqb b x0d); [reflexivity|]. destruct (Byte.eqb b1 x0d && Byte.eqb b x0a) eqn:E; [|reflexivity].
  apply andb_prop in E as [E1 E]. apply eqb_eq in E1, E. subst. elim (C2 eq_refl). now exists raw.
Qed.
Lemma text_ref quoted fuel b0 b1 buf raw c :
  text_loop (S fuel) (quote_of quoted) false b0 b1 buf (at_ K (x26 :: raw) c) =
  obind (read_entity buf (at_ K raw c)) (fun '(r, s) => match r with None => OK (None, s) | Some buf => text_loop fuel (quote_of quoted) false x00 x00 buf s end).
Proof.
  cbn [text_loop]. rewrite getc_at. change (Byte.eqb x26 x3e) with false. rewrite !andb_false_r. cbn [andb].
  change (Byte.eqb x26 x3c) with false. change (Byte.eqb x26 x26) with true. cbn [andb negb].
  now replace (match quote_of quoted with Some q => Byte.eqb x26 q | None => false end) with false by (destruct quoted; reflexivity).
Qed.
Lemma text_crlf quoted fuel b0 b1 buf raw c :
  text_loop (S (S fuel)) (quote_of quoted) false b0 b1 buf (at_ K (x0d :: x0a :: raw) c) =
  text_loop fuel (quote_of quoted) false x0d x0a (buf ++ [x0a]) (at_ K raw c).
Proof.
  rewrite text_step; [|split|discriminate|destruct quoted; discriminate].
  2:{ intros _; split; [intros (_ & _ & [r H])|intros (_ & [r H])]; discriminate H. }
  2:{ intros _ [r H]; discriminate H. }
  change (Byte.eqb x0d x0d) with true. cbv iota. cbn [text_loop]. rewrite getc_at.
  change (Byte.eqb x0a x3e) with false. change (Byte.eqb x0a x3c) with false. change (Byte.eqb x0a x26) with false.
  change (Byte.eqb x0a x0d) with false. change (Byte.eqb x0d x0d && Byte.eqb x0a x0a) with true. rewrite !andb_false_r. cbn [andb].
  now replace (match quote_of quoted with Some q => Byte.eqb x0a q | None => false end) with false by (destruct quoted; reflexivity).
Qed.
Lemma calm_byte quoted b0 b1 b raw : calm quoted b0 b1 (b :: raw) -> b <> x0d -> (quoted = false -> ~ begins (str "]]>") (b :: raw)) ->
  calm quoted b1 b raw.
Proof.
  intros [C1 C2] Hb H. split; [|congruence]. intros Q. split.
  - intros (-> & -> & [r ->]). apply (proj2 (C1 Q)). split; [reflexivity|]. now exists r.
  - intros (-> & [r ->]). apply (H Q). now exists r.
Qed.
Lemma calm_cr quoted b raw : ~ begins [x0a] raw -> calm quoted b x0d raw.
Proof. intros H. split; [|now intros _]. intros _; split; intros (E & H'); [destruct H' as [H' _]|]; discriminate. Qed.
Lemma calm_lf quoted raw : calm quoted x0d x0a raw.
Proof. split; [intros _; split; intros (E & H'); discriminate|discriminate]. Qed.
Lemma text_loop_at quoted raw v rest : content quoted raw v rest -> forall fuel b0 b1 buf c, length raw < fuel -> calm quoted b0 b1 raw ->
  text_loop fuel (quote_of quoted) false b0 b1 buf (at_ K raw c) = OK (Some (buf ++ v), at_ K rest c).
Proof.
  induction 1 as [rest ->|rest ->|b raw v rest H26 H0d Hc Hm _ IH|raw v rest _ IH|raw v rest Hl _ IH|raw u r v rest Hr _ IH];
    intros [|fuel] b0 b1 buf c Hf C; try lia.
  - cbn [text_loop quote_of]. rewrite getc_at. change (Byte.eqb x3c x3e) with false. rewrite !andb_false_r. change (Byte.eqb x3c x3c) with true. cbn [andb negb].
    now rewrite ungetc_at, app_nil_r.
  - cbn [text_loop quote_of]. rewrite getc_at. change (Byte.eqb x22 x3e) with false. rewrite !andb_false_r. change (Byte.eqb x22 x22) with true.
    now rewrite app_nil_r.
  - rewrite text_step; [|exact C|exact H26|exact Hc]. rewrite (proj2 (eqb_neq b x0d) H0d).
    rewrite IH; [now rewrite <- app_assoc|cbn in Hf; lia|]. now apply (calm_byte _ b0).
  - cbn in Hf. destruct fuel as [|fuel]; [lia|]. rewrite text_crlf, IH; [now rewrite <- app_assoc|lia|]. apply calm_lf.
  - rewrite text_step; [|exact C|discriminate|destruct quoted; discriminate]. change (Byte.eqb x0d x0d) with true. cbv iota.
    rewrite IH; [now rewrite <- app_assoc|cbn in Hf; lia|]. now apply calm_cr.
  - rewrite text_ref, (read_entity_at _ _ _ Hr). cbn [obind]. rewrite IH; [now rewrite <- app_assoc| |apply calm_zero].
    pose proof (reference_length _ _ _ Hr). cbn in Hf. lia.
Qed.
Lemma text_at quoted raw v rest c : content quoted raw v rest -> text (quote_of quoted) false (at_ K raw c) = OK (Some v, at_ K rest c).
Proof. intros H. unfold text. rewrite fuel_at. apply (text_loop_at _ _ _ _ H _ _ _ []); [lia|apply calm_zero]. Qed.
Lemma begins_dec p raw : {begins p raw} + {~ begins p raw}.
Proof.
  revert raw; induction p as [|a p IH]; intros raw; [left; now exists raw|].
  destruct raw as [|b raw]; [right; intros [r E]; discriminate E|].
  destruct (Byte.byte_eq_dec a b) as [<-|N]; [|right; intros [r E]; injection E; congruence].
  destruct (IH raw) as [H|H]; [left|right].
  - destruct H as [r ->]. now exists r.
  - intros [r E]. injection E as ->. apply H. now exists r.
Qed.
Definition text_fails (quoted : bool) (raw : bytes) : Prop := forall fuel b0 b1 buf c, length raw < fuel -> calm quoted b0 b1 raw ->
  exists r s, text_loop fuel (quote_of quoted) false b0 b1 buf (at_ K raw c) = OK (r, s) /\ bad s.
Lemma content_or_fails quoted : forall n raw, length raw <= n -> (exists v rest, content quoted raw v rest) \/ text_fails quoted raw.
Proof.
  induction n as [|n IH]; intros raw Hn.
  { destruct raw; [|cbn in Hn; lia]. right. intros [|fuel] b0 b1 buf c Hf C; [lia|]. cbn [text_loop].
    destruct (getc_end c) as (s & -> & B). eauto. }
  destruct raw as [|b raw]; [apply IH; cbn; lia|]. cbn in Hn.
  destruct (Byte.byte_eq_dec b (closing quoted)) as [->|Hc].
  { left. destruct quoted; eexists _, _; [now apply Con_quote|now apply Con_tag]. }
  destruct (Byte.byte_eq_dec b x26) as [->|H26].
  { destruct (reference_or_end raw) as [(u & r & Hr)|Hr].
    - pose proof (reference_length _ _ _ Hr). destruct (IH r) as [(v & rest & Hv)|Hv]; [lia|left; eauto using Con_ref|].
      right. intros [|fuel] b0 b1 buf c Hf C; [lia|]. rewrite text_ref, (read_entity_at _ _ _ Hr). cbn [obind]. apply Hv; [cbn in Hf; lia|apply calm_zero].
    - right. intros [|fuel] b0 b1 buf c Hf C; [lia|]. rewrite text_ref. destruct (Hr buf c) as (s & -> & B). cbn [obind]. eauto. }
  destruct (Byte.byte_eq_dec b x0d) as [->|H0d].
  { destruct (begins_dec [x0a] raw) as [[r ->]|Hl].
    - cbn in Hn. destruct (IH r) as [(v & rest & Hv)|Hv]; [lia|left; cbn [app]; eauto using Con_crlf|].
      right. intros [|[|fuel]] b0 b1 buf c Hf C; try (cbn in Hf; lia). cbn [app]. rewrite text_crlf. apply Hv; [cbn in Hf; lia|apply calm_lf].
    - destruct (IH raw) as [(v & rest & Hv)|Hv]; [lia|left; eauto using Con_cr|].
      right. intros [|fuel] b0 b1 buf c Hf C; [lia|]. rewrite text_step; [|exact C|discriminate|exact Hc]. apply Hv; [cbn in Hf; lia|now apply calm_cr]. }
  destruct (begins_dec (str "]]>") (b :: raw)) as [Hb|Hb].
  { destruct quoted eqn:Q.
    - destruct (IH raw) as [(v & rest & Hv)|Hv]; [lia|left; eexists _, _; apply Con_byte; [exact H26|exact H0d|exact Hc|discriminate|exact Hv]|].
      right. intros [|fuel] b0 b1 buf c Hf C; [lia|]. rewrite text_step; [|exact C|exact H26|exact Hc]. apply Hv; [cbn in Hf; lia|].
      now apply (calm_byte _ b0).
    - right. destruct Hb as [r E]. injection E as -> ->. intros fuel b0 b1 buf c Hf C. change (str "]]>") with [x5d; x5d; x3e] in *.
      destruct fuel as [|[|[|fuel]]]; try (cbn in Hf; lia). cbn [app] in *.
      rewrite text_step; [|exact C|exact H26|exact Hc].
      assert (C' : calm false b1 x5d (x5d :: x3e :: r) -> False).
      { intros [C1 _]. apply (proj2 (C1 eq_refl)). split; [reflexivity|]. now exists r. }
      cbn [text_loop quote_of]. rewrite getc_at. change (Byte.eqb x5d x3e) with false. change (Byte.eqb x5d x3c) with false.
      change (Byte.eqb x5d x26) with false. change (Byte.eqb x5d x0d) with false. change (Byte.eqb x5d x0a) with false.
      rewrite !andb_false_r. cbn [andb]. rewrite getc_at. change (Byte.eqb x5d x5d) with true. change (Byte.eqb x3e x3e) with true. cbn [andb].
      eexists _, _. split; [reflexivity|]. discriminate. }
  destruct (IH raw) as [(v & rest & Hv)|Hv]; [lia|left; eexists _, _; apply Con_byte; [exact H26|exact H0d|exact Hc|intros _; exact Hb|exact Hv]|].
  right. intros [|fuel] b0 b1 buf c Hf C; [lia|]. rewrite text_step; [|exact C|exact H26|exact Hc]. apply Hv; [cbn in Hf; lia|].
  now apply (calm_byte _ b0).
Qed.
Lemma text_or_fails quoted raw : (exists v rest, content quoted raw v rest) \/
  forall c, exists r s, text (quote_of quoted) false (at_ K raw c) = OK (r, s) /\ bad s.
Proof.
  destruct (content_or_fails quoted (length raw) raw) as [H|H]; [lia|now left|right].
  intros c. unfold text. rewrite fuel_at. apply H; [lia|apply calm_zero].
Qed.
Lemma content_length quoted raw v rest : content quoted raw v rest -> length rest <= length raw.
Proof.
  induction 1 as [rest ->|rest ->|b raw v rest H26 H0d Hc Hm _ IH|raw v rest _ IH|raw v rest Hl _ IH|raw u r v rest Hr _ IH]; cbn [length] in *; try lia.
  pose proof (reference_length _ _ _ Hr). lia.
Qed.
(** ** Fixed words *)
Lemma match_from_at want : forall read i c, begins want i -> exists r, i = want ++ r /\ match_from read want (at_ K i c) = (true, at_ K r c).
Proof.
  induction want as [|a want IH]; intros read i c [r ->]; [now exists r|]. cbn [app match_from]. rewrite getc_at.
  rewrite (proj2 (eqb_eq a a) eq_refl). destruct (IH (a :: read) (want ++ r) c) as (r' & E & ->); [now exists r|].
  apply app_inv_head in E. subst r'. now exists r.
Qed.
Lemma match_from_no want : forall read i c, ~ begins want i -> length want <= length i ->
  match_from read want (at_ K i c) = (false, at_ K (rev read ++ i) c).
Proof.
  induction want as [|a want IH]; intros read i c H L; [elim H; now exists i|]. destruct i as [|b i]; [cbn in L; lia|].
  cbn [match_from]. rewrite getc_at. destruct (Byte.eqb b a) eqn:E.
  - apply eqb_eq in E as ->. rewrite IH; [cbn [rev]; now rewrite <- app_assoc| |cbn in L; lia]. intros [r ->]. apply H. now exists r.
  - now rewrite ungetc_at, unget_list.
Qed.
Lemma match_from_short want : forall read i c, ~ begins want i ->
  (exists s, match_from read want (at_ K i c) = (false, s) /\ bad s) \/ match_from read want (at_ K i c) = (false, at_ K (rev read ++ i) c).
Proof.
  induction want as [|a want IH]; intros read i c H; [elim H; now exists i|]. destruct i as [|b i].
  - left. cbn [match_from]. destruct (getc_end c) as (s & -> & B). now exists s.
  - cbn [match_from]. rewrite getc_at. destruct (Byte.eqb b a) eqn:E.
    + apply eqb_eq in E as ->. destruct (IH (a :: read) i c) as [D|D]; [intros [r ->]; apply H; now exists r|now left|right]. rewrite D.
      cbn [rev]. now rewrite <- app_assoc.
    + right. now rewrite ungetc_at, unget_list.
Qed.
Lemma cdata_open_match want : forall read s, bad s \/ d_err s = None ->
  cdata_open read want s = match match_from read want s with
                           | (true, s) => (Some true, s)
                           | (false, s) => (match d_err s with Some _ => None | None => Some false end, s)
                           end.
Proof.
  assert (U : forall r s, d_err (fold_left (fun s b => ungetc b s) r s) = d_err s).
  { induction r as [|b r IH]; intros s; [reflexivity|]. cbn [fold_left]. now rewrite IH. }
  induction want as [|a want IH]; intros read s H; [reflexivity|]. cbn [cdata_open match_from].
  destruct (getc s) as [[b|] s1] eqn:G; pose proof (getc_spec _ _ _ G) as Hs.
  - destruct Hs as (_ & _ & E1 & _). destruct (Byte.eqb b a); [apply IH; now right|]. rewrite U. cbn. now rewrite E1.
  - destruct Hs as [_ E1]. now destruct (d_err s1).
Qed.

Lemma before_exists stop raw : stop <> [] -> (exists body rest, before stop body raw rest) \/ (forall p s, raw <> p ++ stop ++ s).
Proof.
  intros Hs. induction raw as [|b raw IH].
  { right. intros [|] s E; [destruct stop; [congruence|discriminate E]|discriminate E]. }
  destruct (begins_dec stop (b :: raw)) as [[r E]|N].
  - left. exists [], r. split; [exact E|]. cbn. lia.
  - destruct IH as [(body & rest & E & H)|H]; [left; exists (b :: body), rest|right].
    + split; [cbn; now rewrite E|]. intros [|a p] s E'; [elim N; now exists s|]. injection E' as _ E'. apply H in E'. cbn. lia.
    + intros [|a p] s E; [apply N; now exists s|]. injection E as _ E. now apply (H p s).
Qed.
Lemma before_length stop body raw rest : before stop body raw rest -> length raw = length body + length stop + length rest.
Proof. intros [-> _]. rewrite !app_length. lia. Qed.
Lemma before_cons stop b body raw rest : before stop (b :: body) raw rest -> ~ begins stop raw /\ exists raw', raw = b :: raw' /\ before stop body raw' rest.
Proof.
  intros [-> H]. split.
  - intros [r E]. specialize (H [] r E). cbn in H. lia.
  - eexists. split; [reflexivity|]. split; [reflexivity|]. intros p s E. specialize (H (b :: p) s (f_equal (cons b) E)). cbn in H. lia.
Qed.

(** ** Comments, skipped tags *)
Definition dash : bytes := str "->".
Lemma comment_step fuel buf b i c : ~ begins (str "-->") (b :: i) -> 2 <= length i \/ b <> x2d ->
  comment_loop (S fuel) buf (at_ K (b :: i) c) = comment_loop fuel (buf ++ [b]) (at_ K i c).
Proof.
  intros H L. cbn [comment_loop]. rewrite mustgetc_at. destruct (Byte.eqb b x2d) eqn:E; [|reflexivity].
  apply eqb_eq in E as ->. unfold match_. rewrite match_from_no; [reflexivity| |destruct L; [assumption|congruence]].
  intros [r ->]. apply H. now exists r.
Qed.
Lemma comment_loop_at body : forall raw rest, before (str "-->") body raw rest -> forall fuel buf c, length raw < fuel ->
  comment_loop fuel buf (at_ K raw c) = OK (Some (buf ++ body), at_ K rest c).
Proof.
  induction body as [|b body IH]; intros raw rest H [|fuel] buf c Hf; try lia.
  - destruct H as [-> _]. cbn [app]. change (str "-->") with (x2d :: str "->"). cbn [app comment_loop]. rewrite mustgetc_at. change (Byte.eqb x2d x2d) with true. cbv iota.
    unfold match_. destruct (match_from_at (str "->") [] (str "->" ++ rest) c) as (r & E & ->); [now exists rest|].
    apply app_inv_head in E. subst r. now rewrite app_nil_r.
  - destruct (before_cons _ _ _ _ _ H) as (N & raw' & -> & H'). rewrite comment_step; [|exact N|left].
    + rewrite (IH raw' rest H'); [now rewrite <- app_assoc|cbn in Hf; lia].
    + rewrite (before_length _ _ _ _ H'). cbn [length str String.list_byte_of_string]. change (length (str "-->")) with 3. lia.
Qed.
Lemma comment_loop_bad fuel buf s : bad s -> exists s', comment_loop (S fuel) buf s = OK (None, s') /\ bad s'.
Proof. intros B. cbn [comment_loop]. destruct (mustgetc_bad s B) as (s' & -> & B'). eauto. Qed.
Lemma comment_loop_end raw : (forall p s, raw <> p ++ str "-->" ++ s) -> forall fuel buf c, length raw < fuel ->
  exists s, comment_loop fuel buf (at_ K raw c) = OK (None, s) /\ bad s.
Proof.
  induction raw as [|b raw IH]; intros H [|fuel] buf c Hf; try lia.
  - cbn [comment_loop]. destruct (mustgetc_end c) as (s & -> & B). now exists s.
  - assert (H' : forall p s, raw <> p ++ str "-->" ++ s) by (intros p s E; apply (H (b :: p) s); now rewrite E).
    cbn [comment_loop]. rewrite mustgetc_at. destruct (Byte.eqb b x2d) eqn:E; [|apply IH; [exact H'|cbn in Hf; lia]].
    apply eqb_eq in E as ->. unfold match_.
    destruct (match_from_short (str "->") [] raw c) as [(s & -> & B)|E].
    + intros [r ->]. apply (H [] r). reflexivity.
    + cbn in Hf. destruct fuel as [|fuel]; [lia|]. now apply comment_loop_bad.
    + rewrite E. apply IH; [exact H'|cbn in Hf; lia].
Qed.
Lemma ignore_loop_at junk : forall raw rest, before [x3e] junk raw rest -> forall fuel c, length raw < fuel ->
  ignore_loop fuel (at_ K raw c) = OK (0%Z, at_ K rest c).
Proof.
  induction junk as [|b junk IH]; intros raw rest H [|fuel] c Hf; try lia; cbn [ignore_loop].
  - destruct H as [-> _]. cbn [app]. now rewrite mustgetc_at.
  - destruct (before_cons _ _ _ _ _ H) as (N & raw' & -> & H'). rewrite mustgetc_at.
    destruct (Byte.eqb b x3e) eqn:E; [apply eqb_eq in E as ->; elim N; now exists raw'|]. apply IH; [exact H'|cbn in Hf; lia].
Qed.
Lemma ignore_loop_end raw : ~ In x3e raw -> forall fuel c, length raw < fuel -> exists s, ignore_loop fuel (at_ K raw c) = OK ((-1)%Z, s) /\ bad s.
Proof.
  induction raw as [|b raw IH]; intros H [|fuel] c Hf; try lia; cbn [ignore_loop].
  - destruct (mustgetc_end c) as (s & -> & B). now exists s.
  - rewrite mustgetc_at. destruct (Byte.eqb b x3e) eqn:E; [apply eqb_eq in E as ->; elim H; now left|].
    apply IH; [intros H'; apply H; now right|cbn in Hf; lia].
Qed.
Definition warned (c : ctx) (ws : list xerr) : ctx := Ctx (c_end c) (c_stack c) (c_prefix c) (c_indent c) (c_warn c ++ ws).
Lemma ignoreStartTag_at e raw rest c : past raw rest -> ignoreStartTag e (at_ K raw c) = OK (0%Z, at_ K rest (warned c [e])).
Proof. intros [junk H]. unfold ignoreStartTag, add_warn. apply (ignore_loop_at junk raw rest H). unfold fuel_of. cbn [d_in set_ctx at_]. lia. Qed.
Lemma past_exists raw : (exists rest, past raw rest) \/ ~ In x3e raw.
Proof.
  destruct (before_exists [x3e] raw) as [(body & rest & H)|H]; [discriminate|left; exists rest; now exists body|right].
  intros Hi. apply in_split in Hi as (p & s & ->). now apply (H p s).
Qed.
Lemma ignoreStartTag_end e raw c : ~ In x3e raw -> exists s, ignoreStartTag e (at_ K raw c) = OK ((-1)%Z, s) /\ bad s.
Proof. intros H. unfold ignoreStartTag, add_warn. apply (ignore_loop_end raw H). unfold fuel_of. cbn [d_in set_ctx at_]. lia. Qed.
Lemma ignoreStartTag_bad e s : bad s -> exists s', ignoreStartTag e s = OK ((-1)%Z, s') /\ bad s'.
Proof.
  intros B. unfold ignoreStartTag, fuel_of. cbn [ignore_loop]. assert (B' : bad (add_warn s e)) by exact B.
  destruct (mustgetc_bad _ B') as (s' & -> & B2). now exists s'.
Qed.
Lemma past_length raw rest : past raw rest -> S (length rest) <= length raw.
Proof. intros [j H]. rewrite (before_length _ _ _ _ H). cbn. lia. Qed.
Lemma past_in raw rest : past raw rest -> In x3e raw.
Proof. intros [j [-> _]]. apply in_or_app. right. now left. Qed.

(** ** CDATA *)
Lemma lines_nl body v : lines body v <-> v = nl body.
Proof.
  assert (F : forall n body, length body <= n -> lines body (nl body)).
  { induction n as [|n IH]; intros [|b s] L; try (cbn in L; lia); [constructor..|]. cbn [nl]. cbn in L. destruct (Byte.eqb b x0d) eqn:E.
    - apply eqb_eq in E as ->. destruct s as [|b' s]; [apply Lines_cr; [intros [r E]; discriminate E|constructor]|].
      destruct (Byte.eqb b' x0a) eqn:E'.
      + apply eqb_eq in E' as ->. apply Lines_crlf, IH. cbn in L. lia.
      + apply Lines_cr; [intros [r E2]; injection E2 as -> _; discriminate E'|]. apply IH. cbn in *. lia.
    - apply Lines_byte; [now apply eqb_neq|]. apply IH. lia. }
  split; [|intros ->; now apply (F (length body))].
  induction 1 as [|b s v Hb _ IH|s v _ IH|s v Hn _ IH]; cbn [nl].
  - reflexivity.
  - now rewrite (proj2 (eqb_neq _ _) Hb), IH.
  - change (Byte.eqb x0d x0d) with true. change (Byte.eqb x0a x0a) with true. cbv iota. now rewrite IH.
  - change (Byte.eqb x0d x0d) with true. cbv iota. destruct s as [|b' s]; [now rewrite IH|].
    destruct (Byte.eqb b' x0a) eqn:E; [apply eqb_eq in E as ->; elim Hn; now exists s|]. now rewrite IH.
Qed.
Definition last_cr (f : bool) (u : bytes) : bool := match rev u with [] => f | b :: _ => Byte.eqb b x0d end.
Lemma last_cr_cons f a u : last_cr f (a :: u) = last_cr (Byte.eqb a x0d) u.
Proof. unfold last_cr. cbn [rev]. destruct (rev u); reflexivity. Qed.
Lemma nlf_snoc u : forall f b, nlf f (u ++ [b]) = nlf f u ++ (if Byte.eqb b x0d then [x0a] else if last_cr f u && Byte.eqb b x0a then [] else [b]).
Proof.
  induction u as [|a u IH]; intros f b.
  - cbn [app nlf last_cr rev]. destruct (Byte.eqb b x0d); [reflexivity|]. destruct (f && Byte.eqb b x0a); reflexivity.
  - cbn [app nlf]. rewrite last_cr_cons. destruct (Byte.eqb a x0d); [now rewrite IH|]. destruct (f && Byte.eqb a x0a); rewrite IH; reflexivity.
Qed.
Definition mark_end : bytes := str "]]>".
Lemma text_cdata_step fuel b0 b1 u u' b raw c : x00 :: x00 :: u = u' ++ [b0; b1] -> (forall p s, u ++ b :: raw = p ++ mark_end ++ s -> length u < length p + 2) ->
  text_loop (S fuel) None true b0 b1 (nlf false u) (at_ K (b :: raw) c) =
  text_loop fuel None true b1 b (nlf false (u ++ [b])) (at_ K raw c).
Proof.
  intros Eu Hno. cbn [text_loop]. rewrite getc_at.
  replace (Byte.eqb b0 x5d && Byte.eqb b1 x5d && Byte.eqb b x3e) with false.
  2:{ symmetry. destruct (Byte.eqb b0 x5d) eqn:E0; [|reflexivity]. destruct (Byte.eqb b1 x5d) eqn:E1; [|reflexivity]. destruct (Byte.eqb b x3e) eqn:E; [|reflexivity].
      apply eqb_eq in E0, E1, E. subst. exfalso. destruct u' as [|z [|z' u']]; try discriminate Eu.
      injection Eu as _ _ Eu. specialize (Hno u' raw). rewrite Eu in Hno. rewrite <- app_assoc in Hno. specialize (Hno eq_refl). rewrite app_length in Hno. cbn in Hno. lia. }
  cbn [andb negb]. rewrite andb_false_r. cbn [andb]. rewrite andb_false_r. rewrite nlf_snoc.
  replace (last_cr false u) with (Byte.eqb b1 x0d).
  2:{ unfold last_cr. destruct (rev u) as [|z v] eqn:Er.
      - apply (f_equal (@rev byte)) in Er. rewrite rev_involutive in Er. cbn in Er. subst u.
        destruct u' as [|? [|? [|]]]; try discriminate Eu. now injection Eu as <- <-.
      - apply (f_equal (@rev byte)) in Eu. cbn [rev] in Eu. rewrite Er, rev_app_distr in Eu. cbn in Eu. now injection Eu as -> _. }
  f_equal. destruct (Byte.eqb b x0d); [reflexivity|]. destruct (Byte.eqb b1 x0d && Byte.eqb b x0a); [now rewrite app_nil_r|reflexivity].
Qed.
Lemma last_two u u' b0 b1 b : x00 :: x00 :: u = u' ++ [b0; b1] -> x00 :: x00 :: u ++ [b] = (u' ++ [b0]) ++ [b1; b].
Proof.
  intros E. change (x00 :: x00 :: u ++ [b]) with ((x00 :: x00 :: u) ++ [b]). rewrite E, <- !app_assoc. reflexivity.
Qed.
Lemma text_cdata_loop whole body rest : before mark_end body whole rest -> forall m u b0 b1 u' fuel c,
  body ++ [x5d; x5d] = u ++ m -> x00 :: x00 :: u = u' ++ [b0; b1] -> length (m ++ x3e :: rest) < fuel ->
  text_loop fuel None true b0 b1 (nlf false u) (at_ K (m ++ x3e :: rest) c) = OK (Some (nl body), at_ K rest c).
Proof.
  intros [Ew Hfirst]. induction m as [|b m IH]; intros u b0 b1 u' [|fuel] c Em Eu Hf; try lia.
  - rewrite app_nil_r in Em. subst u.
    assert (E01 : b0 = x5d /\ b1 = x5d).
    { apply (f_equal (@rev byte)) in Eu. cbn [rev] in Eu. rewrite !rev_app_distr in Eu. cbn in Eu. now injection Eu as -> -> _. }
    destruct E01 as [-> ->]. cbn [app text_loop]. rewrite getc_at. change (Byte.eqb x5d x5d) with true. change (Byte.eqb x3e x3e) with true. cbn [andb].
    replace (nlf false (body ++ [x5d; x5d])) with (nl body ++ [x5d; x5d]).
    2:{ change [x5d; x5d] with ([x5d] ++ [x5d]). rewrite (app_assoc body), !nlf_snoc. change (Byte.eqb x5d x0d) with false. change (Byte.eqb x5d x0a) with false.
        rewrite !andb_false_r, (proj1 (nlf_nl body)). now rewrite <- app_assoc. }
    rewrite app_length. cbn [length]. destruct (Nat.ltb_spec (length (nl body) + 2) 2); [lia|].
    replace (length (nl body) + 2 - 2) with (length (nl body)) by lia. now rewrite firstn_app, Nat.sub_diag, firstn_all, app_nil_r.
  - cbn [app]. rewrite (text_cdata_step fuel b0 b1 u u' b _ c Eu).
    2:{ intros p s E. assert (Ep : whole = p ++ mark_end ++ s).
        { rewrite <- E, Ew. change mark_end with ([x5d; x5d] ++ [x3e]). rewrite <- app_assoc. rewrite (app_assoc body), Em, <- app_assoc. reflexivity. }
        apply Hfirst in Ep. apply (f_equal (@length byte)) in Em. rewrite !app_length in Em. cbn in Em. lia. }
    apply (IH (u ++ [b]) b1 b (u' ++ [b0])); [now rewrite <- app_assoc|now apply last_two|cbn in Hf; lia].
Qed.
Lemma text_cdata_at body raw rest c : before mark_end body raw rest -> text None true (at_ K raw c) = OK (Some (nl body), at_ K rest c).
Proof.
  intros H. unfold text. rewrite fuel_at. destruct H as [E H]. assert (E' : raw = (body ++ [x5d; x5d]) ++ x3e :: rest) by (rewrite E, <- app_assoc; reflexivity).
  rewrite E' at 2. apply (text_cdata_loop raw body rest (conj E H) (body ++ [x5d; x5d]) [] x00 x00 []); [reflexivity..|rewrite <- E'; lia].
Qed.
Lemma text_cdata_end raw : forall u b0 b1 u' fuel c, (forall p s, u ++ raw <> p ++ mark_end ++ s) -> x00 :: x00 :: u = u' ++ [b0; b1] ->
  length raw < fuel -> exists s, text_loop fuel None true b0 b1 (nlf false u) (at_ K raw c) = OK (None, s) /\ bad s.
Proof.
  induction raw as [|b raw IH]; intros u b0 b1 u' [|fuel] c H Eu Hf; try lia.
  - cbn [text_loop]. unfold getc, at_. cbn [d_err d_in set_err d_ctx]. eexists. split; [reflexivity|]. destruct (c_end c); discriminate.
  - rewrite (text_cdata_step fuel b0 b1 u u' b raw c Eu); [|intros p s E; now elim (H p s)].
    apply (IH (u ++ [b]) b1 b (u' ++ [b0])); [|now apply last_two|cbn in Hf; lia]. intros p s. rewrite <- app_assoc. apply H.
Qed.
(** Texts that go on to a ">" are not cut off in the mark. *)
Lemma prefix_of_mark want : forall read raw c s, ~ In x3e want -> ~ begins want raw -> match_from read want (at_ K raw c) = (false, s) -> bad s -> ~ In x3e raw.
Proof.
  induction want as [|a want IH]; intros read raw c s Hw H E B; [elim H; now exists raw|]. destruct raw as [|b raw]; [intros []|].
  cbn [match_from] in E. rewrite getc_at in E. destruct (Byte.eqb b a) eqn:Eb.
  - apply eqb_eq in Eb as ->. intros [->|Hi]; [apply Hw; now left|]. revert Hi. apply (IH (a :: read) raw c s); [intros Hi; apply Hw; now right| |exact E|exact B].
    intros [r ->]. apply H. now exists r.
  - injection E as <-. rewrite ungetc_at, unget_list in B. now elim B.
Qed.
Lemma section_at raw cd rest c : section raw cd rest -> In x3e raw -> decodeCData (at_ K raw c) = OK (true, cd, at_ K rest c).
Proof.
  intros H Hi. destruct H as [raw H|raw body v rest Hb Hl].
  - unfold decodeCData. rewrite cdata_open_match by now right. fold cdata_mark.
    destruct (match_from_short cdata_mark [] raw c H) as [(s & E & B)|E].
    + exfalso. apply (prefix_of_mark cdata_mark [] raw c s); [|exact H|exact E|exact B|exact Hi].
      cbn. intros HH. repeat (destruct HH as [HH|HH]; [discriminate HH|]). exact HH.
    + rewrite E. reflexivity.
  - unfold decodeCData. rewrite cdata_open_match by now right. fold cdata_mark.
    destruct (match_from_at cdata_mark [] (cdata_mark ++ raw) c) as (r & E & ->); [now exists raw|].
    apply app_inv_head in E. subst r. rewrite (text_cdata_at _ _ _ _ Hb). cbn [obind]. apply lines_nl in Hl. now subst v.
Qed.
Lemma section_or_fails raw : (exists cd rest, section raw cd rest) \/ forall c, exists s, decodeCData (at_ K raw c) = OK (false, None, s) /\ bad s.
Proof.
  destruct (begins_dec cdata_mark raw) as [[r ->]|H]; [|left; eexists _, _; now apply Section_none].
  destruct (before_exists mark_end r) as [(body & rest & Hb)|Hb]; [discriminate|left; exists (Some (nl body)), rest; apply (Section_some r body (nl body) rest Hb); now apply lines_nl|].
  right. intros c. unfold decodeCData. rewrite cdata_open_match by now right. fold cdata_mark.
  destruct (match_from_at cdata_mark [] (cdata_mark ++ r) c) as (r' & E & ->); [now exists r|]. apply app_inv_head in E. subst r'.
  unfold text. rewrite fuel_at. destruct (text_cdata_end r [] x00 x00 [] (S (length r)) c Hb eq_refl) as (s & E & B); [lia|].
  cbn [nlf] in E. rewrite E. cbn [obind]. eauto.
Qed.
Lemma section_length raw cd rest : section raw cd rest -> length rest <= length raw.
Proof. destruct 1 as [|raw body v rest H _]; [lia|]. rewrite app_length, (before_length _ _ _ _ H). lia. Qed.
End At.
