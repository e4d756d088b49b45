(** PropBase64.v - C98: base64 contents. *)
From Verif Require Import Base XmlText XmlTextProofs Base64Reader SpecBase64.

(** ** The characters *)
Lemma val_digit c n : b64_val c = Some n <-> nth_error alphabet (N.to_nat n) = Some c.
Proof.
  split.
  - intros H. assert (G : forallb (fun c => match b64_val c with Some n => match nth_error alphabet (N.to_nat n) with Some d => Byte.eqb c d | None => false end | None => true end) (map (fun n => N2b (N.of_nat n)) (seq 0 256)) = true) by (vm_compute; reflexivity).
    rewrite forallb_forall in G. specialize (G c). rewrite H in G.
    destruct (nth_error alphabet (N.to_nat n)) as [d|]; [|discriminate G; apply in_map_iff; exists (N.to_nat (b2N c))].
    + f_equal. symmetry. apply byte_dec_bl. apply G. apply in_map_iff. exists (N.to_nat (b2N c)). rewrite N2Nat.id, N2b_b2N. split; [reflexivity|]. apply in_seq. pose proof (b2N_lt c). lia.
    + exfalso. enough (false = true) by discriminate. apply G. apply in_map_iff. exists (N.to_nat (b2N c)). rewrite N2Nat.id, N2b_b2N. split; [reflexivity|]. apply in_seq. pose proof (b2N_lt c). lia.
  - intros H. assert (L : N.to_nat n < 64). { change 64 with (length alphabet). apply nth_error_Some. congruence. }
    assert (E : c = b64_char n).
    { unfold b64_char. rewrite N.mod_small by lia. symmetry. now apply nth_error_nth. }
    rewrite E. apply b64_val_char. lia.
Qed.
Lemma val_lt c n : b64_val c = Some n -> (n < 64)%N.
Proof. intros H. apply val_digit in H. assert (N.to_nat n < 64); [change 64 with (length alphabet); apply nth_error_Some; congruence|lia]. Qed.
Lemma val_pad : b64_val x3d = None. Proof. reflexivity. Qed.
Lemma eqb_x3d c : Byte.eqb c x3d = true <-> c = x3d.
Proof. split; [apply byte_dec_bl|intros ->; reflexivity]. Qed.
Lemma digits_val cs ns : b64_digits cs ns <-> Forall2 (fun c n => b64_val c = Some n) cs ns.
Proof. unfold b64_digits. split; induction 1 as [|c n cs ns Hc H IH]; constructor; try assumption; now apply val_digit. Qed.

(** ** Numbers *)
Lemma number_from ns : forall a, fold_left (fun a n => a * 64 + n)%N ns a = (a * 64 ^ N.of_nat (length ns) + b64_number ns)%N.
Proof.
  unfold b64_number. induction ns as [|n ns IH]; intros a; cbn [fold_left length]; [cbn; lia|].
  rewrite IH, (IH (0 * 64 + n)%N), Nat2N.inj_succ, N.pow_succ_r'. lia.
Qed.
Lemma number_cons n ns : b64_number (n :: ns) = (n * 64 ^ N.of_nat (length ns) + b64_number ns)%N.
Proof. unfold b64_number. cbn [fold_left]. rewrite number_from. unfold b64_number. lia. Qed.
Lemma number_lt ns : Forall (fun n => n < 64)%N ns -> (b64_number ns < 64 ^ N.of_nat (length ns))%N.
Proof.
  induction 1 as [|n ns Hn H IH]; [cbn; lia|]. rewrite number_cons. cbn [length]. rewrite Nat2N.inj_succ, N.pow_succ_r'.
  set (p := (64 ^ N.of_nat (length ns))%N) in *. nia.
Qed.
Lemma be_N_cons a s : be_N (a :: s) = (b2N a * 256 ^ N.of_nat (length s) + be_N s)%N.
Proof.
  unfold be_N. cbn [rev].
  assert (G : forall l, le_N (l ++ [a]) = (b2N a * 256 ^ N.of_nat (length l) + le_N l)%N).
  { induction l as [|x l IH]; cbn [app le_N length]; [rewrite N.pow_0_r; lia|]. rewrite IH, Nat2N.inj_succ, N.pow_succ_r'. lia. }
  rewrite G, rev_length. reflexivity.
Qed.
(** Four b64_digits more are three bytes more. *)
Lemma bits_step (k num : N) (L : nat) (s : bytes) :
  length s = 6 * L / 8 -> be_N s = (num / 2 ^ N.of_nat ((6 * L) mod 8))%N ->
  (k * 256 ^ N.of_nat (length s) + be_N s = (k * 64 ^ N.of_nat L + num) / 2 ^ N.of_nat ((6 * L) mod 8))%N.
Proof.
  intros Hl Hs. set (r := (6 * L) mod 8) in *. assert (E : 6 * L = 8 * length s + r) by (rewrite Hl; apply Nat.div_mod; lia).
  assert (P : (64 ^ N.of_nat L = 2 ^ N.of_nat r * 256 ^ N.of_nat (length s))%N).
  { change 64%N with (2 ^ 6)%N. change 256%N with (2 ^ 8)%N. rewrite <- !N.pow_mul_r, <- N.pow_add_r. f_equal. lia. }
  rewrite P, Hs. replace (k * (2 ^ N.of_nat r * 256 ^ N.of_nat (length s)))%N with (k * 256 ^ N.of_nat (length s) * 2 ^ N.of_nat r)%N by lia.
  rewrite N.div_add_l by (apply N.pow_nonzero; lia). reflexivity.
Qed.

(** ** Groups against b64_digits *)
Lemma list_ind4 (P : bytes -> Prop) : P [] -> (forall a, P [a]) -> (forall a b, P [a; b]) -> (forall a b c, P [a; b; c]) ->
  (forall a b c d s, P s -> P (a :: b :: c :: d :: s)) -> forall s, P s.
Proof.
  intros H0 H1 H2 H3 H4. fix IH 1. intros [|a [|b [|c [|d s]]]]; [exact H0|apply H1|apply H2|apply H3|apply H4, IH].
Qed.
Definition b64_fits (cs pad : bytes) (ns : list N) (s : bytes) : Prop :=
  In pad [[]; str "="; str "=="] /\ (length (cs ++ pad) mod 4 = 0)%nat /\ Forall2 (fun c n => b64_val c = Some n) cs ns /\
  length s = (6 * length ns) / 8 /\ be_N s = (b64_number ns / 2 ^ N.of_nat ((6 * length ns) mod 8))%N.
Lemma groups_fits t : forall s, b64_groups t = Some s -> exists cs pad ns, t = cs ++ pad /\ b64_fits cs pad ns s.
Proof.
  induction t as [|a|a b|a b c|a b c d t IH] using list_ind4; intros s H; try discriminate H.
  { injection H as <-. exists [], [], []. split; [reflexivity|]. repeat split; auto. now left. }
  cbn [b64_groups] in H. destruct (b64_val a) as [x|] eqn:Ea; [|discriminate H]. destruct (b64_val b) as [y|] eqn:Eb; [|discriminate H].
  pose proof (val_lt _ _ Ea) as La. pose proof (val_lt _ _ Eb) as Lb.
  destruct (Byte.eqb c x3d) eqn:Ec.
  { destruct (Byte.eqb d x3d) eqn:Ed; [|discriminate H]. destruct t; [|discriminate H]. injection H as <-. apply eqb_x3d in Ec as ->. apply eqb_x3d in Ed as ->.
    exists [a; b], (str "=="), [x; y]. split; [reflexivity|]. split; [now right; right; left|]. split; [reflexivity|]. split; [auto|]. split; [reflexivity|].
    change (b64_number [x; y]) with ((0 * 64 + x) * 64 + y)%N. unfold be_N. cbn [rev app le_N length].
    change (2 ^ N.of_nat ((6 * 2) mod 8))%N with 16%N. rewrite b2N_N2b. rewrite N.mod_small; [lia|].
    apply N.div_lt_upper_bound; lia. }
  destruct (b64_val c) as [z|] eqn:Ez; [|discriminate H]. pose proof (val_lt _ _ Ez) as Lc.
  destruct (Byte.eqb d x3d) eqn:Ed.
  { destruct t; [|discriminate H]. injection H as <-. apply eqb_x3d in Ed as ->.
    exists [a; b; c], (str "="), [x; y; z]. split; [reflexivity|]. split; [now right; left|]. split; [reflexivity|]. split; [auto|]. split; [reflexivity|].
    change (b64_number [x; y; z]) with (((0 * 64 + x) * 64 + y) * 64 + z)%N. unfold be_N. cbn [rev app le_N length].
    change (2 ^ N.of_nat ((6 * 3) mod 8))%N with 4%N. rewrite !b2N_N2b. rewrite N.mul_0_l, N.add_0_l. set (n := ((x * 64 + y) * 64 + z)%N).
    assert (n < 262144)%N by lia. replace (n / 1024)%N with (n / 4 / 256)%N by (rewrite N.div_div by lia; reflexivity).
    set (m := (n / 4)%N). assert (m < 65536)%N by (apply N.div_lt_upper_bound; lia).
    rewrite (N.mod_small (m / 256)) by (apply N.div_lt_upper_bound; lia). pose proof (N.div_mod m 256). lia. }
  destruct (b64_val d) as [w|] eqn:Ew; [|discriminate H]. pose proof (val_lt _ _ Ew) as Ld.
  destruct (b64_groups t) as [r|]; [|discriminate H]. injection H as <-.
  destruct (IH r eq_refl) as (cs & pad & ns & -> & H1 & H2 & H3 & H4 & H5).
  exists (a :: b :: c :: d :: cs), pad, (x :: y :: z :: w :: ns). split; [reflexivity|]. split; [exact H1|]. split.
  { cbn [app length]. replace (S (S (S (S (length (cs ++ pad)))))) with (length (cs ++ pad) + 1 * 4) by lia. now rewrite Nat.mod_add. }
  split; [auto|]. cbn [length]. replace (6 * S (S (S (S (length ns))))) with (6 * length ns + 3 * 8) by lia. rewrite Nat.mod_add, Nat.div_add by lia.
  split; [rewrite H4; lia|]. set (n := (((x * 64 + y) * 64 + z) * 64 + w)%N).
  assert (En : b64_number (x :: y :: z :: w :: ns) = (n * 64 ^ N.of_nat (length ns) + b64_number ns)%N).
  { unfold b64_number at 1. cbn [fold_left]. rewrite number_from. unfold n. f_equal. }
  rewrite En, <- (bits_step n (b64_number ns) (length ns) r H4 H5). rewrite !be_N_cons. cbn [length]. rewrite !Nat2N.inj_succ, !N.pow_succ_r', !b2N_N2b.
  assert (n < 16777216)%N by lia. clearbody n. set (p := (256 ^ N.of_nat (length r))%N).
  assert (Q : (n / 65536 mod 256 * (256 * 256) + n / 256 mod 256 * 256 + n mod 256 = n)%N).
  { rewrite (N.mod_small (n / 65536)) by (apply N.div_lt_upper_bound; lia).
    replace (n / 65536)%N with (n / 256 / 256)%N by (rewrite N.div_div by lia; reflexivity).
    pose proof (N.div_mod n 256). pose proof (N.div_mod (n / 256) 256). lia. }
  rewrite <- Q at 4. lia.
Qed.
Lemma b64_fits_groups (cs pad : bytes) ns : In pad [[]; str "="; str "=="] -> (length (cs ++ pad) mod 4 = 0)%nat -> Forall2 (fun c n => b64_val c = Some n) cs ns ->
  exists s, b64_groups (cs ++ pad) = Some s.
Proof.
  intros Hp. revert ns. induction cs as [|a|a b|a b c|a b c d cs IH] using list_ind4; intros ns Hl Hd.
  - destruct Hp as [<-|[<-|[<-|[]]]]; [|discriminate Hl|discriminate Hl]. now exists [].
  - destruct Hp as [<-|[<-|[<-|[]]]]; discriminate Hl.
  - inversion Hd as [|? x ? ? Ea H1]; subst. inversion H1 as [|? y ? ? Eb H2]; subst.
    destruct Hp as [<-|[<-|[<-|[]]]]; try discriminate Hl. cbn [app b64_groups str String.list_byte_of_string]. rewrite Ea, Eb. eexists; reflexivity.
  - inversion Hd as [|? x ? ? Ea H1]; subst. inversion H1 as [|? y ? ? Eb H2]; subst. inversion H2 as [|? z ? ? Ec H3]; subst.
    destruct Hp as [<-|[<-|[<-|[]]]]; try discriminate Hl. cbn [app b64_groups str String.list_byte_of_string]. rewrite Ea, Eb, Ec.
    destruct (Byte.eqb c x3d) eqn:E; [apply eqb_x3d in E as ->; discriminate Ec|]. eexists; reflexivity.
  - inversion Hd as [|? x ? ? Ea H1]; subst. inversion H1 as [|? y ? ? Eb H2]; subst. inversion H2 as [|? z ? ? Ec H3]; subst. inversion H3 as [|? w ? ? Ed H4]; subst.
    destruct (IH _ ltac:(cbn [app length] in Hl; replace (S (S (S (S (length (cs ++ pad)))))) with (length (cs ++ pad) + 1 * 4) in Hl by lia; rewrite Nat.mod_add in Hl by lia; exact Hl) H4) as [s Es].
    cbn [app b64_groups]. rewrite Ea, Eb, Ec, Ed, Es.
    destruct (Byte.eqb c x3d) eqn:E; [apply eqb_x3d in E as ->; discriminate Ec|]. destruct (Byte.eqb d x3d) eqn:E'; [apply eqb_x3d in E' as ->; discriminate Ed|].
    eexists; reflexivity.
Qed.
Lemma digits_no_pad cs ns : Forall2 (fun c n => b64_val c = Some n) cs ns -> ~ In x3d cs.
Proof. induction 1 as [|c n cs ns H _ IH]; [intros []|]. intros [->|Hi]; [discriminate H|now apply IH]. Qed.
Lemma pad_all pad : In pad [[]; str "="; str "=="] -> Forall (eq x3d) pad.
Proof. intros [<-|[<-|[<-|[]]]]; repeat constructor. Qed.
Lemma split_unique cs : forall cs' pad pad' : bytes, cs ++ pad = cs' ++ pad' -> ~ In x3d cs -> ~ In x3d cs' -> Forall (eq x3d) pad -> Forall (eq x3d) pad' ->
  cs = cs' /\ pad = pad'.
Proof.
  induction cs as [|c cs IH]; intros [|c' cs'] pad pad' E H1 H2 H3 H4; cbn [app] in E.
  - now split.
  - exfalso. rewrite E in H3. inversion H3; subst. apply H2. now left.
  - exfalso. rewrite <- E in H4. inversion H4; subst. apply H1. now left.
  - injection E as -> E. destruct (IH _ _ _ E) as [-> ->]; auto; intros Hi; [apply H1|apply H2]; now right.
Qed.
Lemma digits_fun cs ns : Forall2 (fun c n => b64_val c = Some n) cs ns -> forall ns', Forall2 (fun c n => b64_val c = Some n) cs ns' -> ns = ns'.
Proof. induction 1 as [|c n cs ns H _ IH]; intros ns' H'; inversion H'; subst; [reflexivity|]. f_equal; [congruence|now apply IH]. Qed.
Lemma chars_filter t : chars_of t = filter is_char t. Proof. reflexivity. Qed.
Lemma b64_fits_base64 t s : base64 t s <-> exists cs pad ns, filter is_char t = cs ++ pad /\ b64_fits cs pad ns s.
Proof.
  unfold base64, b64_fits. setoid_rewrite digits_val. split; intros (cs & pad & ns & H); exists cs, pad, ns; tauto.
Qed.
(** C98: the meaning of base64 text. *)
Theorem C98_decode : forall t s, b64_decode t = Some s <-> base64 t s.
Proof.
  intros t s. rewrite b64_fits_base64. unfold b64_decode. change (fun b => negb (is_eol b)) with is_char. split; [apply groups_fits|].
  intros (cs & pad & ns & E & F). pose proof F as (F1 & F2 & F3 & F4 & F5).
  destruct (b64_fits_groups cs pad ns F1 F2 F3) as [s' E']. rewrite E, E'. f_equal.
  destruct (groups_fits _ _ E') as (cs' & pad' & ns' & E2 & G1 & G2 & G3 & G4 & G5).
  destruct (split_unique _ _ _ _ E2) as [<- <-]; try (eapply digits_no_pad; eassumption); try (now apply pad_all).
  rewrite (digits_fun _ _ F3 _ G3) in *. rewrite <- (be_bytes_be_N s'), <- (be_bytes_be_N s). now rewrite G4, G5, F4, F5.
Qed.
Theorem C98_functional : forall t s s', base64 t s -> base64 t s' -> s = s'.
Proof. intros t s s' H1 H2. apply C98_decode in H1, H2. congruence. Qed.

(** ** Pieces *)
Lemma groups_app (a b : bytes) s : (length a mod 4 = 0)%nat -> b64_groups (a ++ b) = Some s ->
  exists sa sb, b64_groups a = Some sa /\ b64_groups b = Some sb /\ s = sa ++ sb.
Proof.
  revert s. induction a as [|x|x y|x y z|x y z w a IH] using list_ind4; intros s Hl H; try discriminate Hl.
  { exists [], s. now repeat split. }
  assert (Hl' : (length a mod 4 = 0)%nat).
  { cbn [length] in Hl. replace (S (S (S (S (length a))))) with (length a + 1 * 4) in Hl by lia. now rewrite Nat.mod_add in Hl by lia. }
  cbn [app b64_groups] in H |- *. destruct (b64_val x) as [vx|]; [|discriminate H]. destruct (b64_val y) as [vy|]; [|discriminate H].
  destruct (Byte.eqb z x3d).
  { destruct (Byte.eqb w x3d); [|discriminate H]. destruct a; [|discriminate H]. destruct b; [|discriminate H].
    injection H as <-. eexists _, []. now repeat split. }
  destruct (b64_val z) as [vz|]; [|discriminate H]. destruct (Byte.eqb w x3d).
  { destruct a; [|discriminate H]. destruct b; [|discriminate H]. injection H as <-. eexists _, []. now repeat split. }
  destruct (b64_val w) as [vw|]; [|discriminate H]. destruct (b64_groups (a ++ b)) as [r|] eqn:E; [|discriminate H]. injection H as <-.
  destruct (IH r Hl' eq_refl) as (sa & sb & -> & -> & ->). eexists _, _. repeat split.
Qed.
Lemma groups_join (a b : bytes) sa sb : ~ In x3d a -> b64_groups a = Some sa -> b64_groups b = Some sb -> b64_groups (a ++ b) = Some (sa ++ sb).
Proof.
  revert sa. induction a as [|x|x y|x y z|x y z w a IH] using list_ind4; intros sa Hn H Hb; try discriminate H.
  { injection H as <-. exact Hb. }
  cbn [app b64_groups] in H |- *. destruct (b64_val x) as [vx|]; [|discriminate H]. destruct (b64_val y) as [vy|]; [|discriminate H].
  destruct (Byte.eqb z x3d) eqn:Ez; [apply eqb_x3d in Ez as ->; exfalso; apply Hn; cbn; auto|].
  destruct (b64_val z) as [vz|]; [|discriminate H]. destruct (Byte.eqb w x3d) eqn:Ew; [apply eqb_x3d in Ew as ->; exfalso; apply Hn; cbn; auto|].
  destruct (b64_val w) as [vw|]; [|discriminate H]. destruct (b64_groups a) as [r|] eqn:E; [|discriminate H]. injection H as <-.
  rewrite (IH r); [reflexivity| |reflexivity|exact Hb]. intros Hi. apply Hn. cbn. auto.
Qed.
Lemma groups_some_length a s : b64_groups a = Some s -> (length a mod 4 = 0)%nat /\ length s <= length a / 4 * 3 /\ (a <> [] -> s <> []).
Proof.
  revert s. induction a as [|x|x y|x y z|x y z w a IH] using list_ind4; intros s H; try discriminate H.
  { injection H as <-. repeat split; auto. }
  cbn [b64_groups] in H. destruct (b64_val x) as [vx|]; [|discriminate H]. destruct (b64_val y) as [vy|]; [|discriminate H].
  destruct (Byte.eqb z x3d).
  { destruct (Byte.eqb w x3d); [|discriminate H]. destruct a; [|discriminate H]. injection H as <-. cbn. repeat split; auto; discriminate. }
  destruct (b64_val z) as [vz|]; [|discriminate H]. destruct (Byte.eqb w x3d).
  { destruct a; [|discriminate H]. injection H as <-. cbn. repeat split; auto; discriminate. }
  destruct (b64_val w) as [vw|]; [|discriminate H]. destruct (b64_groups a) as [r|] eqn:E; [|discriminate H]. injection H as <-.
  destruct (IH r eq_refl) as (L1 & L2 & _). cbn [length]. replace (S (S (S (S (length a))))) with (length a + 1 * 4) by lia.
  rewrite Nat.mod_add, Nat.div_add by lia. repeat split; [exact L1|lia|discriminate].
Qed.

(** ** The reader of characters *)
Lemma filter_length_le {A} (f : A -> bool) l : length (filter f l) <= length l.
Proof. induction l as [|a l IH]; cbn; [lia|]. destruct (f a); cbn; lia. Qed.
Lemma nl_read_spec fuel k : forall raw g raw', 1 <= k -> length raw < fuel -> nl_read fuel k raw = (g, raw') ->
  filter is_char raw = g ++ filter is_char raw' /\ length g + length raw' <= length raw /\ (g = [] -> raw' = []).
Proof.
  induction fuel as [|fuel IH]; intros raw g raw' Hk Hf H; [lia|]. cbn [nl_read] in H. destruct raw as [|b raw]; [injection H as <- <-; auto|].
  set (t := b :: raw) in *. assert (E : filter is_char t = filter is_char (firstn k t) ++ filter is_char (skipn k t)) by (rewrite <- filter_app, firstn_skipn; reflexivity).
  pose proof (skipn_length k t) as Ls. destruct (filter is_char (firstn k t)) as [|x f] eqn:F.
  - assert (length t = S (length raw)) by reflexivity. destruct (IH (skipn k t) g raw' Hk ltac:(lia) H) as (H1 & H2 & H3). rewrite E. cbn [app]. repeat split; auto. lia.
  - injection H as <- <-. split; [exact E|]. split; [|discriminate].
    rewrite <- F. pose proof (filter_length_le is_char (firstn k t)). rewrite firstn_length in H. lia.
Qed.
Lemma refill_spec fuel m : forall buf raw buf' raw', refill fuel m buf raw = (buf', raw') ->
  buf' ++ filter is_char raw' = buf ++ filter is_char raw /\ length buf' + length raw' <= length buf + length raw /\
  (4 <= fuel + length buf -> length buf' < 4 -> raw' = []).
Proof.
  induction fuel as [|fuel IH]; intros buf raw buf' raw' H; cbn [refill] in H.
  { injection H as <- <-. split; [reflexivity|]. split; [lia|]. intros; lia. }
  destruct (length buf <? 4)%nat eqn:E; [apply Nat.ltb_lt in E|apply Nat.ltb_ge in E; injection H as <- <-; split; [reflexivity|]; split; lia].
  set (nn := Nat.min 1024 (Nat.max 4 (m / 3 * 4))) in *. assert (4 <= nn) by (unfold nn; lia).
  destruct (nl_read (S (length raw)) (nn - length buf) raw) as [g r] eqn:N. apply nl_read_spec in N as (N1 & N2 & N3); [|lia|lia].
  destruct g as [|x g].
  - injection H as <- <-. rewrite N1. cbn [app]. split; [reflexivity|]. split; [cbn in N2; lia|]. intros _ _. now apply N3.
  - apply IH in H as (H1 & H2 & H3). rewrite H1, N1, <- app_assoc. split; [reflexivity|]. rewrite app_length in *. split; [lia|]. cbn [length] in *. intros Q. apply H3. lia.
Qed.

(** ** The decoder *)
Lemma read_cases m st : 1 <= m ->
  match b64_read m st with
  | inl (o, st') =>
      length (b_raw st') + length (b_buf st') + length (b_out st') < length (b_raw st) + length (b_buf st) + length (b_out st) /\
      ((b_buf st' ++ filter is_char (b_raw st') = b_buf st ++ filter is_char (b_raw st) /\ b_out st = o ++ b_out st') \/
       (b_out st = [] /\ exists t, b_buf st ++ filter is_char (b_raw st) = t ++ b_buf st' ++ filter is_char (b_raw st') /\
          (length t mod 4 = 0)%nat /\ b64_groups t = Some (o ++ b_out st')))
  | inr true => b_out st = [] /\ b_buf st ++ filter is_char (b_raw st) = []
  | inr false => b_out st = [] /\ b64_groups (b_buf st ++ filter is_char (b_raw st)) = None
  end.
Proof.
  intros Hm. destruct st as [raw buf out]. unfold b64_read. cbn [b_raw b_buf b_out]. destruct out as [|x out].
  2:{ split; [|left; split; [reflexivity|symmetry; apply firstn_skipn]]. pose proof (skipn_length m (x :: out)). cbn [length b_raw b_buf b_out] in *. lia. }
  destruct (refill 5 m buf raw) as [buf' raw'] eqn:R. apply refill_spec in R as (R1 & R2 & R3). rewrite <- R1.
  destruct (length buf' <? 4)%nat eqn:E.
  - apply Nat.ltb_lt in E. rewrite (R3 ltac:(lia) E) in *. cbn [filter] in *. rewrite app_nil_r in *.
    destruct buf' as [|a [|b [|c [|]]]]; cbn in E; try lia; split; reflexivity.
  - apply Nat.ltb_ge in E. set (nr := length buf' / 4 * 4).
    assert (Lnr : nr <= length buf') by (unfold nr; pose proof (Nat.mul_div_le (length buf') 4); lia).
    assert (Hnr : 4 <= nr). { unfold nr. pose proof (Nat.div_le_lower_bound (length buf') 4 1). lia. }
    assert (Lt : length (firstn nr buf') = nr) by (apply firstn_length_le; exact Lnr).
    assert (M4 : (length (firstn nr buf') mod 4 = 0)%nat) by (rewrite Lt; unfold nr; apply Nat.mod_mul; lia).
    assert (Es : buf' ++ filter is_char raw' = firstn nr buf' ++ skipn nr buf' ++ filter is_char raw') by (now rewrite app_assoc, firstn_skipn).
    destruct (b64_groups (firstn nr buf')) as [o|] eqn:G.
    + destruct (groups_some_length _ _ G) as (_ & L2 & L3). rewrite Lt in L2. assert (o <> []) by (apply L3; intros Q; rewrite Q in Lt; cbn [length] in Lt; lia).
      cbn [b_raw b_buf b_out]. split.
      * pose proof (skipn_length m o). pose proof (skipn_length nr buf'). cbn [length]. clearbody nr.
        pose proof (Nat.div_mod nr 4 ltac:(lia)). assert (nr / 4 * 3 < nr) by (set (q := nr / 4) in *; lia). lia.
      * right. split; [reflexivity|]. exists (firstn nr buf'). split; [exact Es|]. split; [exact M4|]. rewrite G, firstn_skipn. reflexivity.
    + split; [reflexivity|]. rewrite Es. destruct (b64_groups (firstn nr buf' ++ _)) as [s|] eqn:G2; [|reflexivity].
      apply groups_app in G2 as (sa & sb & G2 & _); [congruence|exact M4].
Qed.
Section All.
Context (lens : nat -> nat) (Hlens : forall i, 1 <= lens i).
Lemma all_pieces fuel : forall i st acc, length (b_raw st) + length (b_buf st) + length (b_out st) < fuel ->
  match b64_read_all fuel lens i st acc with
  | OK s => exists texts parts, b_buf st ++ filter is_char (b_raw st) = concat texts /\
      Forall2 (fun t p => b64_groups t = Some p) texts parts /\ s = acc ++ b_out st ++ concat parts
  | Err _ => b64_groups (b_buf st ++ filter is_char (b_raw st)) = None
  | _ => False
  end.
Proof.
  induction fuel as [|fuel IH]; intros i st acc Hf; [lia|]. cbn [b64_read_all]. pose proof (read_cases (lens i) st (Hlens i)) as C.
  destruct (b64_read (lens i) st) as [[o st']|[|]].
  - destruct C as [Hd C]. specialize (IH (S i) st' (acc ++ o) ltac:(lia)). destruct (b64_read_all _ _ _ _ _) as [s|[]| |]; try exact IH.
    + destruct IH as (texts & parts & E1 & E2 & ->). destruct C as [[C1 C2]|(C1 & t & C2 & C3 & C4)].
      * exists texts, parts. rewrite <- C1, C2, <- !app_assoc. auto.
      * exists (t :: texts), ((o ++ b_out st') :: parts). rewrite C1, C2, E1. cbn [concat app]. rewrite <- !app_assoc. auto.
    + destruct C as [[C1 C2]|(C1 & t & C2 & C3 & C4)]; [now rewrite <- C1|]. rewrite C2.
      destruct (b64_groups (t ++ _)) as [s|] eqn:G; [|reflexivity]. apply groups_app in G as (sa & sb & _ & G & _); [congruence|exact C3].
  - destruct C as [C1 C2]. exists [], []. rewrite C1, C2. cbn. rewrite app_nil_r. auto.
  - exact (proj2 C).
Qed.
Lemma all_whole fuel : forall i st acc s, length (b_raw st) + length (b_buf st) + length (b_out st) < fuel ->
  b64_groups (b_buf st ++ filter is_char (b_raw st)) = Some s ->
  b64_read_all fuel lens i st acc = OK (acc ++ b_out st ++ s).
Proof.
  induction fuel as [|fuel IH]; intros i st acc s Hf H; [lia|]. cbn [b64_read_all]. pose proof (read_cases (lens i) st (Hlens i)) as C.
  destruct (b64_read (lens i) st) as [[o st']|[|]].
  - destruct C as [Hd [[C1 C2]|(C1 & t & C2 & C3 & C4)]].
    + rewrite (IH (S i) st' (acc ++ o) s); [|lia|now rewrite C1]. now rewrite C2, <- !app_assoc.
    + rewrite C2 in H. apply groups_app in H as (sa & sb & G1 & G2 & ->); [|exact C3]. rewrite (IH (S i) st' (acc ++ o) sb); [|lia|exact G2].
      rewrite C4 in G1. injection G1 as <-. rewrite C1. cbn [app]. now rewrite <- !app_assoc.
  - destruct C as [C1 C2]. rewrite C2 in H. injection H as <-. rewrite C1. cbn. now rewrite app_nil_r.
  - destruct C as [_ C]. congruence.
Qed.
End All.
Lemma is_char_eol b : is_char b = negb (line_end b). Proof. reflexivity. Qed.
Lemma chars_again t : chars_of (chars_of t) = chars_of t.
Proof. unfold chars_of. induction t as [|b t IH]; [reflexivity|]. cbn [filter]. destruct (negb (line_end b)) eqn:E; cbn [filter]; rewrite ?E, ?IH; reflexivity. Qed.
(** Pieces of a text without line ends. *)
Lemma groups_base64 t p : chars_of t = t -> b64_groups t = Some p -> base64 t p.
Proof. intros E H. apply C98_decode. unfold b64_decode. change (fun b => negb (is_eol b)) with is_char. rewrite <- chars_filter, E. exact H. Qed.
Lemma chars_app a b : chars_of (a ++ b) = chars_of a ++ chars_of b. Proof. apply filter_app. Qed.
Lemma chars_length t : length (chars_of t) <= length t. Proof. apply filter_length_le. Qed.
Lemma chars_fixed_app a b : chars_of (a ++ b) = a ++ b -> chars_of a = a /\ chars_of b = b.
Proof.
  rewrite chars_app. intros H. pose proof (chars_length a). pose proof (chars_length b).
  assert (length (chars_of a) = length a). { apply (f_equal (@length _)) in H. rewrite !app_length in H. lia. }
  assert (F : firstn (length a) (chars_of a ++ chars_of b) = firstn (length a) (a ++ b)) by now rewrite H.
  rewrite <- H2 in F at 1. rewrite !firstn_app, !Nat.sub_diag, !firstn_all in F. cbn [firstn] in F. rewrite !app_nil_r in F.
  split; [exact F|]. rewrite F in H. now apply app_inv_head in H.
Qed.
Lemma pieces_base64 texts parts : Forall2 (fun t p => b64_groups t = Some p) texts parts -> chars_of (concat texts) = concat texts -> Forall2 base64 texts parts.
Proof.
  induction 1 as [|t p ts ps H _ IH]; intros E; constructor; cbn [concat] in E; apply chars_fixed_app in E as [E1 E2]; [now apply groups_base64|now apply IH].
Qed.

(** C98: reading base64 through buffers of any sizes.  What base64 describes
    is read as described, whatever the sizes; it never hangs; and what is
    accepted beyond that is base64 texts one after another. *)
Theorem C98_reader : forall lens t, (forall i, 1 <= lens i) ->
  match read_base64 lens t with
  | OK s => exists texts parts, chars_of t = concat texts /\ Forall2 base64 texts parts /\ s = concat parts
  | Err _ => forall s, ~ base64 t s
  | _ => False
  end.
Proof.
  intros lens t Hl. unfold read_base64. pose proof (all_pieces lens Hl (S (S (length t))) 0 (B64 t [] []) []) as A. cbn [b_raw b_buf b_out app length] in A.
  specialize (A ltac:(lia)). destruct (b64_read_all _ _ _ _ _) as [s|[]| |]; try exact A.
  - destruct A as (texts & parts & E1 & E2 & E3). rewrite <- chars_filter in E1. exists texts, parts. split; [exact E1|]. split; [|exact E3].
    apply pieces_base64; [exact E2|]. rewrite <- E1. apply chars_again.
  - intros s H. apply C98_decode in H. unfold b64_decode in H. change (fun b => negb (is_eol b)) with is_char in H. congruence.
Qed.
Theorem C98_reads_base64 : forall lens t s, (forall i, 1 <= lens i) -> base64 t s -> read_base64 lens t = OK s.
Proof.
  intros lens t s Hl H. apply C98_decode in H. unfold read_base64. rewrite (all_whole lens Hl _ 0 (B64 t [] []) [] s); [reflexivity|cbn; lia|exact H].
Qed.
(** Where padding comes last only base64 is accepted: the simplified decoder of
    the codecs is exact. *)
Lemma groups_pads (t : bytes) s : Forall (eq x3d) t -> b64_groups t = Some s -> t = [].
Proof. intros F. destruct t as [|a [|b [|c [|d t]]]]; cbn; try discriminate; auto. inversion F; subst. discriminate. Qed.
Lemma join_all (texts parts : list bytes) : Forall2 (fun t p => b64_groups t = Some p) texts parts ->
  forall cs pad, concat texts = cs ++ pad -> ~ In x3d cs -> Forall (eq x3d) pad -> b64_groups (concat texts) = Some (concat parts).
Proof.
  induction 1 as [|t p ts ps H H2 IH]; intros cs pad E Hn Hp; [reflexivity|]. cbn [concat] in *.
  destruct (app_eq_app _ _ _ _ E) as (l & [[E1 E2]|[E1 E2]]).
  - (* t = cs ++ l: the rest is padding *)
    assert (Hr : Forall (eq x3d) (concat ts)) by (rewrite E2 in Hp; apply Forall_app in Hp; tauto).
    assert (Hc : concat ts = []). { apply (groups_pads _ (concat ps) Hr). apply (IH [] (concat ts)); auto. }
    pose proof (IH [] [] Hc ltac:(auto) ltac:(constructor)) as G. rewrite Hc in G |- *. injection G as <-. now rewrite !app_nil_r.
  - (* cs = t ++ l *)
    apply groups_join; [|exact H|]; [intros Hi; apply Hn; rewrite E1; apply in_or_app; auto|].
    apply (IH l pad E2); [|exact Hp]. intros Hi; apply Hn; rewrite E1; apply in_or_app; auto.
Qed.
Theorem C98_padding_last : forall lens t s, (forall i, 1 <= lens i) -> padding_last t -> (read_base64 lens t = OK s <-> base64 t s).
Proof.
  intros lens t s Hl (cs & pad & Ep & Hn & Hp). split; [|now apply C98_reads_base64]. intros H.
  unfold read_base64 in H. pose proof (all_pieces lens Hl (S (S (length t))) 0 (B64 t [] []) []) as A. cbn [b_raw b_buf b_out app length] in A.
  specialize (A ltac:(lia)). rewrite H in A. destruct A as (texts & parts & E1 & E2 & ->).
  apply C98_decode. unfold b64_decode. change (fun b => negb (is_eol b)) with is_char. rewrite E1. apply (join_all _ _ E2 cs pad); [|exact Hn|exact Hp].
  rewrite <- E1. exact Ep.
Qed.
(** Up to 680 bytes of text the first buffer of io.ReadAll (512 bytes) takes
    it all, and only base64 is accepted. *)
Lemma refill_none fuel m buf : length buf < 4 -> refill fuel m buf [] = (buf, []).
Proof. intros H. destruct fuel; [reflexivity|]. cbn [refill]. apply Nat.ltb_lt in H as ->. reflexivity. Qed.
Lemma all_rest lens fuel : forall i buf out acc s, length buf < 4 -> b64_read_all fuel lens i (B64 [] buf out) acc = OK s -> buf = [] /\ s = acc ++ out.
Proof.
  induction fuel as [|fuel IH]; intros i buf out acc s Hb H; [discriminate H|]. cbn [b64_read_all] in H. unfold b64_read in H. cbn [b_out b_raw b_buf] in H.
  destruct out as [|x out].
  - rewrite refill_none in H by exact Hb. pose proof Hb as Hb'. apply Nat.ltb_lt in Hb'. rewrite Hb' in H. destruct buf; [|discriminate H]. injection H as <-. now rewrite app_nil_r.
  - apply IH in H as [-> ->]; [|exact Hb]. split; [reflexivity|]. now rewrite <- app_assoc, firstn_skipn.
Qed.
Lemma refill_whole m t : 512 <= m -> length t <= 680 -> refill 5 m [] t = (filter is_char t, []).
Proof.
  intros Hm Ht. set (nn := Nat.min 1024 (Nat.max 4 (m / 3 * 4))).
  assert (Hn : 680 <= nn). { unfold nn. pose proof (Nat.div_le_lower_bound m 3 170 ltac:(lia) ltac:(lia)). lia. }
  assert (N : nl_read (S (length t)) nn t = (filter is_char t, [])).
  { cbn [nl_read]. destruct t as [|b t]; [reflexivity|]. set (u := b :: t) in *. rewrite firstn_all2, skipn_all2 by lia.
    destruct (filter is_char u) as [|]; [|reflexivity]. unfold u. cbn [length nl_read]. reflexivity. }
  set (g := filter is_char t) in *. cbn [refill length Nat.ltb Nat.leb]. fold nn. rewrite Nat.sub_0_r, N. destruct g as [|x g'] eqn:Eg; [reflexivity|]. cbn [app].
  destruct (Nat.lt_ge_cases (length (x :: g')) 4) as [L|L].
  - exact (refill_none 4 m _ L).
  - clear -L. destruct g' as [|? [|? [|? g']]]; cbn in L; try lia. reflexivity.
Qed.
Theorem C98_short : forall lens t s, (forall i, 1 <= lens i) -> 512 <= lens 0 -> length t <= 680 -> (read_base64 lens t = OK s <-> base64 t s).
Proof.
  intros lens t s Hl H0 Ht. split; [|now apply C98_reads_base64]. intros H. apply C98_decode. unfold b64_decode. change (fun b => negb (is_eol b)) with is_char.
  unfold read_base64 in H. set (fuel := S (length t)) in H. cbn [b64_read_all] in H. unfold b64_read in H. cbn [b_out b_raw b_buf] in H.
  rewrite (refill_whole (lens 0) t H0 Ht) in H. set (c := filter is_char t) in *. destruct (length c <? 4)%nat eqn:E.
  { destruct c; [|discriminate H]. injection H as <-. reflexivity. }
  pose proof (Nat.div_mod (length c) 4 ltac:(lia)) as D. set (nr := length c / 4 * 4) in H.
  destruct (b64_groups (firstn nr c)) as [o|] eqn:G; [|discriminate H].
  apply all_rest in H as [Hs ->].
  2:{ rewrite skipn_length. pose proof (Nat.mod_upper_bound (length c) 4 ltac:(lia)). unfold nr. lia. }
  rewrite <- (firstn_skipn nr c), Hs, app_nil_r, G. cbn [app]. now rewrite firstn_skipn.
Qed.
(** Longer text with padding in the middle, right where a buffer ends, is
    accepted although it is not base64. *)
Definition two_texts : bytes := repeat x41 678 ++ str "==" ++ str "AAAA".
Theorem C98_boundary_refuted : exists lens t s, (forall i, 1 <= lens i) /\ lens 0 = 512 /\ read_base64 lens t = OK s /\ forall s', ~ base64 t s'.
Proof.
  exists (fun _ => 512), two_texts, (repeat x00 511). split; [intros; lia|]. split; [reflexivity|]. split; [vm_compute; reflexivity|].
  intros s' H. apply C98_decode in H. assert (E : b64_decode two_texts = None) by (vm_compute; reflexivity). congruence.
Qed.
(** Base64 with line ends, all three paddings, and bits that are not used. *)
(** What the encoders write: base64 in lines, read back by every reader. *)
Theorem C98_written : forall s,
  base64 (b64_encode s) s /\
  (exists t, b64_lines s = OK t /\ base64 t s /\ forall lens, (forall i, 1 <= lens i) -> read_base64 lens t = OK s) /\
  (exists t, b64_wrapped s = OK t /\ base64 t s /\ forall lens, (forall i, 1 <= lens i) -> read_base64 lens t = OK s).
Proof.
  intros s. split; [apply C98_decode, b64_decode_encode|]. split.
  - destruct (b64_lines_ok s) as (t & E & H & _). apply C98_decode in H. exists t. split; [exact E|]. split; [exact H|]. intros lens Hl. now apply C98_reads_base64.
  - destruct (b64_wrapped_ok s) as (t & E & H & _). apply C98_decode in H. exists t. split; [exact E|]. split; [exact H|]. intros lens Hl. now apply C98_reads_base64.
Qed.
Lemma C98_witness :
  base64 (str "TWFu") (str "Man") /\ base64 (str "T
WE=") (str "Ma") /\ base64 (str "TR==") (str "M") /\ (forall s, ~ base64 (str "TQ=") s) /\ (forall s, ~ base64 (str "T Q=") s) /\
  read_base64 (fun i => S i) (str "TWFuTWE=") = OK (str "ManMa").
Proof.
  split; [apply C98_decode; vm_compute; reflexivity|]. split; [apply C98_decode; vm_compute; reflexivity|]. split; [apply C98_decode; vm_compute; reflexivity|].
  split; [intros s H; apply C98_decode in H; vm_compute in H; discriminate H|]. split; [intros s H; apply C98_decode in H; vm_compute in H; discriminate H|].
  vm_compute. reflexivity.
Qed.
Print Assumptions C98_decode.
Print Assumptions C98_reader.
Print Assumptions C98_padding_last.
Print Assumptions C98_written.
Print Assumptions C98_short.
Print Assumptions C98_boundary_refuted.
