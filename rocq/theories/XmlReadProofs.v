(** XmlReadProofs.v - getValue reads what SpecXmlRead says. *)
From Verif Require Import Base RbxlValues RbxValues Tree XmlText XmlDoc XmlCodec SpecXmlText SpecXmlRead XmlGrammar XmlGrammarTags.
Local Notation string := String.string.

Lemma contents_iff t c : contents t c <-> getContent t = c.
Proof.
  unfold getContent. split.
  - intros [u d E|u E]; now rewrite E.
  - destruct (t_cdata t) as [d|] eqn:E; intros <-; now constructor.
Qed.

(** ** Numbers *)
Lemma uint_loop_val max ds : forall a n, uint_loop 10 max a ds = PVal n -> numeral 10 a ds n.
Proof.
  induction ds as [|b l IH]; intros a n H.
  - injection H as <-. constructor.
  - cbn [uint_loop] in H. destruct (digit b) as [d|] eqn:Ed; [|discriminate H]. destruct (N.leb_spec 10 d); [discriminate H|].
    destruct (_ <? _)%N; [discriminate H|]. apply (Num_digit _ _ b d); [|now apply IH]. apply (digit_iff false). now split.
Qed.
Lemma uint_loop_range max ds : forall a m, uint_loop 10 max a ds = PRange m ->
  m = max /\ exists p r n, ds = p ++ r /\ p <> [] /\ numeral 10 a p n /\ (max < n)%N.
Proof.
  induction ds as [|b l IH]; intros a m H; [discriminate H|].
  cbn [uint_loop] in H. destruct (digit b) as [d|] eqn:Ed; [|discriminate H]. destruct (N.leb_spec 10 d); [discriminate H|].
  assert (HD : digit_of 10 b d) by (apply (digit_iff false); now split).
  destruct (N.ltb_spec max (a * 10 + d)).
  - injection H as <-. split; [reflexivity|]. exists [b], l, (a * 10 + d)%N. split; [reflexivity|]. split; [easy|]. split; [|exact H1].
    apply (Num_digit _ _ b d); [exact HD|constructor].
  - destruct (IH _ _ H) as (-> & p & r & n & -> & _ & Hn & Hm). split; [reflexivity|]. exists (b :: p), r, n. split; [reflexivity|]. split; [easy|].
    split; [|exact Hm]. now apply (Num_digit _ _ b d).
Qed.
Lemma uint_loop_over max p : forall a n r, numeral 10 a p n -> p <> [] -> (a <= max)%N -> (max < n)%N -> uint_loop 10 max a (p ++ r) = PRange max.
Proof.
  induction p as [|b p IH]; intros a n r Hn Hne Ha Hm; [congruence|]. inversion Hn as [|? ? d ? ? Hd' Hn']; subst. apply (digit_iff false) in Hd' as [Ed Hd]. cbn [app uint_loop]. rewrite Ed.
  cbn [base_of] in Hd. destruct (N.leb_spec 10 d); [lia|]. destruct (N.ltb_spec max (a * 10 + d)); [reflexivity|].
  destruct p as [|c p]; [inversion Hn'; subst; lia|]. apply (IH _ _ _ Hn'); [easy|lia|exact Hm].
Qed.
Lemma uint_loop_fits max p : forall a n, numeral 10 a p n -> (n <= max)%N -> uint_loop 10 max a p = PVal n.
Proof.
  intros a n Hn Hm. pose proof (uint_loop_numeral false max a p n Hn) as H. change (base_of false) with 10%N in H. rewrite H.
  destruct p; [reflexivity|]. destruct (N.leb_spec n max); [reflexivity|lia].
Qed.
Lemma pow_pos b : (0 < 2 ^ b)%N.
Proof. apply N.neq_0_lt_0, N.pow_nonzero. lia. Qed.
Lemma ParseUint_iff bits c n : unsigned bits c n <-> ParseUint 10 bits c = PVal n \/ ParseUint 10 bits c = PRange n.
Proof.
  pose proof (pow_pos bits). unfold ParseUint. split.
  - intros [ds m [Hne Hn] Hm|ds m rest [Hne Hn] Hm].
    + left. destruct ds as [|b ds]; [congruence|]. apply uint_loop_fits; [exact Hn|lia].
    + right. destruct ds as [|b ds]; [congruence|]. cbn [app]. apply (uint_loop_over (2 ^ bits - 1) (b :: ds) 0 m rest Hn); [easy|lia|lia].
  - destruct c as [|b c]; [intros [E|E]; discriminate E|]. intros [E|E].
    + pose proof (uint_loop_val _ _ _ _ E) as Hn. apply Uns_fits; [now split|].
      pose proof (uint_loop_numeral false (2 ^ bits - 1) 0 (b :: c) n Hn) as H'. change (base_of false) with 10%N in H'. rewrite E in H'. cbn [app] in H'.
      destruct (N.leb_spec n (2 ^ bits - 1)); [lia|discriminate H'].
    + destruct (uint_loop_range _ _ _ _ E) as (-> & p & r & m & -> & Hne & Hn & Hm). apply (Uns_large bits p m r); [now split|lia].
Qed.
Lemma ParseUint_val bits c n : ParseUint 10 bits c = PVal n <-> digits c n /\ (n < 2 ^ bits)%N.
Proof.
  pose proof (pow_pos bits). unfold ParseUint. split.
  - destruct c as [|b c]; [discriminate|]. intros E. pose proof (uint_loop_val _ _ _ _ E) as Hn. split; [now split|].
    pose proof (uint_loop_numeral false (2 ^ bits - 1) 0 (b :: c) n Hn) as H'. change (base_of false) with 10%N in H'. rewrite E in H'. cbn [app] in H'.
    destruct (N.leb_spec n (2 ^ bits - 1)); [lia|discriminate H'].
  - intros [[Hne Hn] Hm]. destruct c as [|b ds]; [congruence|]. apply uint_loop_fits; [exact Hn|lia].
Qed.
Lemma ParseUint_range bits c m : ParseUint 10 bits c = PRange m <->
  m = (2 ^ bits - 1)%N /\ exists p r n, c = p ++ r /\ digits p n /\ (2 ^ bits <= n)%N.
Proof.
  pose proof (pow_pos bits). unfold ParseUint. split.
  - destruct c as [|b c]; [discriminate|]. intros E. destruct (uint_loop_range _ _ _ _ E) as (-> & p & r & n & Ec & Hne & Hn & Hm).
    split; [reflexivity|]. exists p, r, n. split; [exact Ec|]. split; [now split|lia].
  - intros (-> & p & r & n & -> & [Hne Hn] & Hm). destruct p as [|b p]; [congruence|]. cbn [app]. apply (uint_loop_over (2 ^ bits - 1) (b :: p) 0 n r Hn); [easy|lia|lia].
Qed.
Lemma digits_head ds n : digits ds n -> exists b r, ds = b :: r /\ b <> x2b /\ b <> x2d.
Proof.
  intros [Hne Hn]. destruct ds as [|b r]; [congruence|]. exists b, r. split; [reflexivity|].
  inversion Hn as [|? ? d ? ? [Hd1 [[Hd2 Hd3]|[Hd2 _]]] _]; subst; [|lia]. split; intros ->; change (b2N x2b) with 43%N in Hd3 || change (b2N x2d) with 45%N in Hd3; lia.
Qed.

(** The three shapes of a number with a sign. *)
Definition read_int (bits : N) (neg : bool) (ds : bytes) : parsed Z :=
  let cutoff := (2 ^ (bits - 1))%N in
  match ParseUint 10 bits ds with
  | PSyntax => PSyntax
  | PVal n | PRange n =>
      if negb neg && (cutoff <=? n)%N then PRange (Z.of_N cutoff - 1)%Z
      else if neg && (cutoff <? n)%N then PRange (- Z.of_N cutoff)%Z
      else PVal (if neg then (- Z.of_N n)%Z else Z.of_N n)
  end.
Lemma ParseInt_plus bits ds : ParseInt bits (x2b :: ds) = read_int bits false ds.
Proof. reflexivity. Qed.
Lemma ParseInt_minus bits ds : ParseInt bits (x2d :: ds) = read_int bits true ds.
Proof. reflexivity. Qed.
Lemma ParseInt_plain bits b ds : b <> x2b -> b <> x2d -> ParseInt bits (b :: ds) = read_int bits false (b :: ds).
Proof.
  intros H1 H2. unfold ParseInt, read_int. destruct (Byte.eqb b x2b) eqn:E1; [apply Byte.byte_dec_bl in E1; congruence|].
  destruct (Byte.eqb b x2d) eqn:E2; [apply Byte.byte_dec_bl in E2; congruence|]. reflexivity.
Qed.
Lemma pow_half bits : (2 <= bits)%N -> (2 ^ bits = 2 * 2 ^ (bits - 1))%N /\ (2 <= 2 ^ (bits - 1))%N.
Proof.
  intros H. split.
  - replace bits with (N.succ (bits - 1)) at 1 by lia. apply N.pow_succ_r'.
  - replace (bits - 1)%N with (N.succ (bits - 2)) by lia. rewrite N.pow_succ_r'. pose proof (pow_pos (bits - 2)). lia.
Qed.
Lemma zpow n : (2 ^ Z.of_N n = Z.of_N (2 ^ n))%Z.
Proof. rewrite N2Z.inj_pow. reflexivity. Qed.
Lemma read_int_spec bits neg ds : (2 <= bits)%N ->
  (forall n, digits ds n -> (n < 2 ^ bits)%N -> read_int bits neg ds =
     if negb neg && (2 ^ (bits - 1) <=? n)%N then PRange (Z.of_N (2 ^ (bits - 1)) - 1)%Z
     else if neg && (2 ^ (bits - 1) <? n)%N then PRange (- Z.of_N (2 ^ (bits - 1)))%Z
     else PVal (if neg then (- Z.of_N n)%Z else Z.of_N n)) /\
  (forall p r n, ds = p ++ r -> digits p n -> (2 ^ bits <= n)%N ->
     read_int bits neg ds = PRange (if neg then - Z.of_N (2 ^ (bits - 1)) else Z.of_N (2 ^ (bits - 1)) - 1)%Z) /\
  (read_int bits neg ds = PSyntax \/ (exists n, digits ds n /\ (n < 2 ^ bits)%N) \/
   exists p r n, ds = p ++ r /\ digits p n /\ (2 ^ bits <= n)%N).
Proof.
  intros Hb. destruct (pow_half bits Hb) as [E1 E2]. split; [|split].
  - intros n Hn Hm. unfold read_int. rewrite (proj2 (ParseUint_val bits ds n) (conj Hn Hm)). reflexivity.
  - intros p r n E Hn Hm. unfold read_int. rewrite (proj2 (ParseUint_range bits ds (2 ^ bits - 1)%N)); [|split; [reflexivity|now exists p, r, n]].
    destruct neg; cbn [negb andb].
    + destruct (N.ltb_spec (2 ^ (bits - 1)) (2 ^ bits - 1)); [reflexivity|lia].
    + destruct (N.leb_spec (2 ^ (bits - 1)) (2 ^ bits - 1)); [reflexivity|lia].
  - unfold read_int. destruct (ParseUint 10 bits ds) as [n|n|] eqn:E; [right; left|right; right|now left].
    + exists n. now apply ParseUint_val in E.
    + now apply ParseUint_range in E as [_ E].
Qed.
Lemma ParseInt_signed bits c b z : (2 <= bits)%N -> signed bits c b z -> ParseInt bits c = if b then PVal z else PRange z.
Proof.
  intros Hb H. destruct (pow_half bits Hb) as [E1 E2]. 
  assert (HI : forall c z rest, integer c z -> exists (neg : bool) ds n, digits ds n /\ z = (if neg then - Z.of_N n else Z.of_N n)%Z /\
      ParseInt bits (c ++ rest) = read_int bits neg (ds ++ rest)).
  { intros c' z' rest [ds n Hn|ds n Hn|ds n Hn].
    - exists false, ds, n. split; [exact Hn|]. split; [reflexivity|]. destruct (digits_head _ _ Hn) as (b' & r & -> & H1 & H2).
      now apply ParseInt_plain.
    - now exists false, ds, n.
    - now exists true, ds, n. }
  destruct H as [c z Hi Hr|c z Hi Hr|c z Hi Hr|c z rest Hi Hr|c z rest Hi Hr]; rewrite !zpow in *.
  - destruct (HI c z [] Hi) as (neg & ds & n & Hn & -> & E). rewrite !app_nil_r in E. rewrite E.
    destruct (read_int_spec bits neg ds Hb) as (F & _ & _). rewrite (F n Hn) by (destruct neg; lia).
    destruct neg; cbn [negb andb].
    + destruct (N.ltb_spec (2 ^ (bits - 1)) n); [lia|reflexivity].
    + destruct (N.leb_spec (2 ^ (bits - 1)) n); [lia|reflexivity].
  - destruct (HI c z [] Hi) as (neg & ds & n & Hn & -> & E). rewrite !app_nil_r in E. rewrite E.
    destruct neg; [lia|]. destruct (read_int_spec bits false ds Hb) as (F & G & _). destruct (N.lt_ge_cases n (2 ^ bits)) as [L|L].
    + rewrite (F n Hn L). cbn [negb andb]. destruct (N.leb_spec (2 ^ (bits - 1)) n); [reflexivity|lia].
    + rewrite (G ds [] n); auto. now rewrite app_nil_r.
  - destruct (HI c z [] Hi) as (neg & ds & n & Hn & -> & E). rewrite !app_nil_r in E. rewrite E.
    destruct neg; [|lia]. destruct (read_int_spec bits true ds Hb) as (F & G & _). destruct (N.lt_ge_cases n (2 ^ bits)) as [L|L].
    + rewrite (F n Hn L). cbn [negb andb]. destruct (N.ltb_spec (2 ^ (bits - 1)) n); [reflexivity|lia].
    + rewrite (G ds [] n); auto. now rewrite app_nil_r.
  - destruct (HI c z rest Hi) as (neg & ds & n & Hn & -> & E). rewrite E. destruct neg; [lia|].
    destruct (read_int_spec bits false (ds ++ rest) Hb) as (_ & G & _). rewrite (G ds rest n); auto. lia.
  - destruct (HI c z rest Hi) as (neg & ds & n & Hn & -> & E). rewrite E. destruct neg; [|lia].
    destruct (read_int_spec bits true (ds ++ rest) Hb) as (_ & G & _). rewrite (G ds rest n); auto. lia.
Qed.
Lemma ParseInt_read bits c : (2 <= bits)%N -> ParseInt bits c = PSyntax \/ exists (b : bool) (z : Z), signed bits c b z.
Proof.
  intros Hb. destruct (pow_half bits Hb) as [E1 E2].
  assert (HS : forall (neg : bool) ds (f : bytes -> bytes), (forall p n, digits p n -> (exists r, ds = p ++ r) -> integer (f p) (if neg then - Z.of_N n else Z.of_N n)%Z) ->
      (forall p r, ds = p ++ r -> f p ++ r = c) -> read_int bits neg ds = PSyntax \/ exists (b : bool) (z : Z), signed bits c b z).
  { intros neg ds f HI HC. destruct (read_int_spec bits neg ds Hb) as (_ & _ & [H|[(n & Hn & L)|(p & r & n & E & Hn & L)]]); [now left| |]; right.
    - assert (Hc : f ds = c) by (rewrite <- (HC ds []); now rewrite !app_nil_r). rewrite <- Hc.
      assert (Hi : integer (f ds) (if neg then - Z.of_N n else Z.of_N n)%Z) by (apply HI; [exact Hn|exists []; now rewrite app_nil_r]).
      destruct neg.
      + destruct (Z.lt_ge_cases (- Z.of_N n) (- 2 ^ Z.of_N (bits - 1))) as [G|G].
        * eexists false, _. now apply (Sig_low _ _ _ Hi).
        * eexists true, _. apply (Sig_fits _ _ _ Hi). rewrite !zpow in *. lia.
      + destruct (Z.lt_ge_cases (Z.of_N n) (2 ^ Z.of_N (bits - 1))) as [G|G].
        * eexists true, _. apply (Sig_fits _ _ _ Hi). rewrite !zpow in *. lia.
        * eexists false, _. now apply (Sig_high _ _ _ Hi).
    - rewrite <- (HC p r E). assert (Hi : integer (f p) (if neg then - Z.of_N n else Z.of_N n)%Z) by (apply HI; [exact Hn|now exists r]).
      destruct neg.
      + eexists false, _. apply (Sig_low_open _ _ _ _ Hi). rewrite zpow. lia.
      + eexists false, _. apply (Sig_high_open _ _ _ _ Hi). rewrite zpow. lia. }
  destruct c as [|b c]; [now left|].
  destruct (Byte.eqb b x2b) eqn:B1; [|destruct (Byte.eqb b x2d) eqn:B2].
  - apply Byte.byte_dec_bl in B1. subst b. rewrite ParseInt_plus. apply (HS false c (fun p => x2b :: p)).
    + intros p n Hn _. now apply Int_plus.
    + now intros p r ->.
  - apply Byte.byte_dec_bl in B2. subst b. rewrite ParseInt_minus. apply (HS true c (fun p => x2d :: p)).
    + intros p n Hn _. now apply Int_minus.
    + now intros p r ->.
  - rewrite ParseInt_plain; [|intros ->; discriminate B1|intros ->; discriminate B2]. apply (HS false (b :: c) (fun p => p)).
    + intros p n Hn _. now apply Int_plain.
    + now intros p r ->.
Qed.
Lemma ParseInt_iff bits c b z : (2 <= bits)%N -> signed bits c b z <-> ParseInt bits c = if b then PVal z else PRange z.
Proof.
  intros Hb. split; [now apply ParseInt_signed|]. intros E. destruct (ParseInt_read bits c Hb) as [F|(b' & z' & H)].
  - rewrite F in E. destruct b; discriminate E.
  - pose proof (ParseInt_signed _ _ _ _ Hb H) as F. rewrite E in F. destruct b, b'; try discriminate F; injection F as ->; exact H.
Qed.

(** ** Components *)
Inductive read := Good (x : option cval) | Cut (x : cval) | Bad.
Definition read_comp (fl : floats) (k : ckind) (u : tag) : read :=
  let c := getContent u in
  match k with
  | CF32 => Good (option_map VF (fl_parse32 fl c))
  | CStyle => match FontStyleFromString (String.string_of_list_byte c) with Some s => Good (Some (VZ (Z.of_N s))) | None => Bad end
  | CTag => Good (Some (VT u))
  | _ => match ParseInt (match int_bits k with Some b => b | None => 0%N end) c with
         | PVal z => Good (Some (VZ (cut k z))) | PRange z => Cut (VZ (cut k z)) | PSyntax => Bad end
  end.
Lemma string_of_str c s : String.string_of_list_byte c = s <-> c = str s.
Proof.
  unfold str. split; [intros <-; symmetry; apply String.list_byte_of_string_of_list_byte|intros ->; apply String.string_of_list_byte_of_string].
Qed.
Lemma style_iff c n : FontStyleFromString (String.string_of_list_byte c) = Some n <-> c = str "Normal" /\ n = 0%N \/ c = str "Italic" /\ n = 1%N.
Proof.
  unfold FontStyleFromString. rewrite <- (string_of_str c "Normal"), <- (string_of_str c "Italic"). generalize (String.string_of_list_byte c). intros s.
  destruct (String.eqb_spec s "Normal"%string) as [->|H1]; [|destruct (String.eqb_spec s "Italic"%string) as [->|H2]].
  - split; [intros E; injection E as <-; now left|]. intros [[_ ->]|[E _]]; [reflexivity|discriminate E].
  - split; [intros E; injection E as <-; now right|]. intros [[E _]|[_ ->]]; [discriminate E|reflexivity].
  - split; [discriminate|]. intros [[E _]|[E _]]; contradiction.
Qed.
Lemma int_bits_2 k b : int_bits k = Some b -> (2 <= b)%N.
Proof. destruct k; cbn; intros E; try discriminate E; injection E as <-; lia. Qed.
Lemma read_int_comp fl k b u : int_bits k = Some b -> read_comp fl k u =
  match ParseInt b (getContent u) with PVal z => Good (Some (VZ (cut k z))) | PRange z => Cut (VZ (cut k z)) | PSyntax => Bad end.
Proof. destruct k; cbn [int_bits]; intros E; try discriminate E; injection E as <-; reflexivity. Qed.
Lemma value_of_iff fl k u x : value_of (fl_parse32 fl) k u x <-> read_comp fl k u = Good x.
Proof.
  split.
  - intros [k' b u' c z Hb Hc Hs|u' c f Hc Hf|u' c Hc Hf|u' Hc|u' Hc|u'].
    + apply contents_iff in Hc. rewrite (read_int_comp _ _ _ _ Hb), Hc. apply (ParseInt_iff _ _ true _ (int_bits_2 _ _ Hb)) in Hs. now rewrite Hs.
    + apply contents_iff in Hc. cbn [read_comp]. now rewrite Hc, Hf.
    + apply contents_iff in Hc. cbn [read_comp]. now rewrite Hc, Hf.
    + apply contents_iff in Hc. cbn [read_comp]. now rewrite Hc.
    + apply contents_iff in Hc. cbn [read_comp]. now rewrite Hc.
    + reflexivity.
  - intros E.
    assert (HI : forall b, int_bits k = Some b -> value_of (fl_parse32 fl) k u x).
    { intros b Hb. rewrite (read_int_comp _ _ _ _ Hb) in E. destruct (ParseInt b (getContent u)) as [z|z|] eqn:P; try discriminate E. injection E as <-.
      apply (V_int _ _ b u (getContent u) z Hb); [now apply contents_iff|]. apply (ParseInt_iff _ _ true _ (int_bits_2 _ _ Hb)). exact P. }
    destruct k; try (eapply HI; reflexivity); clear HI; cbn [read_comp] in E.
    + injection E as <-. destruct (fl_parse32 fl (getContent u)) as [f|] eqn:P; cbn [option_map].
      * apply (V_float _ u (getContent u)); [now apply contents_iff|exact P].
      * apply (V_not_float _ u (getContent u)); [now apply contents_iff|exact P].
    + destruct (FontStyleFromString _) as [n|] eqn:P; [|discriminate E]. injection E as <-. apply style_iff in P as [[P ->]|[P ->]].
      * apply V_normal. now apply contents_iff.
      * apply V_italic. now apply contents_iff.
    + injection E as <-. constructor.
Qed.
Lemma out_of_range_iff fl k u x : out_of_range k u x <-> read_comp fl k u = Cut x.
Proof.
  split.
  - intros [k' b u' c z Hb Hc Hs]. apply contents_iff in Hc. rewrite (read_int_comp _ _ _ _ Hb), Hc. apply (ParseInt_iff _ _ false _ (int_bits_2 _ _ Hb)) in Hs. now rewrite Hs.
  - intros E.
    assert (HI : forall b, int_bits k = Some b -> out_of_range k u x).
    { intros b Hb. rewrite (read_int_comp _ _ _ _ Hb) in E. destruct (ParseInt b (getContent u)) as [z|z|] eqn:P; try discriminate E. injection E as <-.
      apply (V_out _ b u (getContent u) z Hb); [now apply contents_iff|]. apply (ParseInt_iff _ _ false _ (int_bits_2 _ _ Hb)). exact P. }
    destruct k; try (eapply HI; reflexivity); clear HI; cbn [read_comp] in E; try discriminate E. destruct (FontStyleFromString _); discriminate E.
Qed.

Definition put (n : bytes) (x : option cval) (v : cvals) : cvals := match x with Some x => (n, x) :: v | None => v end.
Lemma loop_step fl want seen vals u ts k : mfind want (t_start u) = Some k -> existsb (bytes_eqb (t_start u)) seen = false ->
  match read_comp fl k u with
  | Good x => getFrom_loop fl want seen vals (u :: ts) = getFrom_loop fl want (t_start u :: seen) (put (t_start u) x vals) ts
  | Cut x => getFrom_loop fl want seen vals (u :: ts) = (true, (t_start u, x) :: vals)
  | Bad => fst (getFrom_loop fl want seen vals (u :: ts)) = false
  end.
Proof.
  intros Hk Hs. cbn [getFrom_loop]. rewrite Hk, Hs. destruct k; cbn [read_comp int_bits cut].
  - destruct (ParseInt 32 (getContent u)); reflexivity.
  - destruct (ParseInt 16 (getContent u)); reflexivity.
  - destruct (ParseInt 32 (getContent u)); reflexivity.
  - destruct (fl_parse32 fl (getContent u)); reflexivity.
  - destruct (FontStyleFromString _); reflexivity.
  - destruct (ParseInt 16 (getContent u)); reflexivity.
  - reflexivity.
Qed.

Lemma first_app n p s u : first n p u -> first n (p ++ s) u.
Proof. intros (a & b & -> & E & A). exists a, (b ++ s). rewrite <- app_assoc. now split. Qed.
Lemma first_here n p u s : t_start u = n -> absent n p -> first n (p ++ u :: s) u.
Proof. intros E A. now exists p, s. Qed.
Lemma first_unique n ts u u' : first n ts u -> first n ts u' -> u = u'.
Proof.
  intros (a & b & -> & E & A) (a' & b' & E' & F & B). revert a' E' B. induction a as [|x a IH]; intros [|x' a'] E' B; cbn [app] in E'.
  - now injection E'.
  - injection E' as <- _. inversion B; subst. congruence.
  - injection E' as -> _. inversion A; subst. congruence.
  - injection E' as _ E'. inversion A; inversion B; subst. now apply (IH H2 a').
Qed.
Lemma first_dec n ts : absent n ts \/ exists u, first n ts u.
Proof.
  induction ts as [|u ts IH]; [left; constructor|]. destruct (bytes_eq_dec (t_start u) n) as [E|E].
  - right. exists u. exists [], ts. repeat split; [exact E|constructor].
  - destruct IH as [A|(u' & p & s & -> & F & A)].
    + left. now constructor.
    + right. exists u', (u :: p), s. split; [reflexivity|]. split; [exact F|]. now constructor.
Qed.
Lemma first_absent n ts u : first n ts u -> absent n ts -> False.
Proof. intros (p & s & -> & E & _) A. apply Forall_app in A as [_ A]. inversion A; subst. congruence. Qed.
Lemma absent_app n p s : absent n (p ++ s) <-> absent n p /\ absent n s.
Proof. apply Forall_app. Qed.
Lemma mfind_In {A} (m : list (bytes * A)) k a : mfind m k = Some a -> In (k, a) m.
Proof.
  induction m as [|[k' a'] m IH]; cbn [mfind]; [discriminate|]. destruct (bytes_eqb k' k) eqn:E.
  - intros H. injection H as <-. apply bytes_eqb_eq in E as ->. now left.
  - intros H. right. now apply IH.
Qed.
Lemma In_mfind {A} (m : list (bytes * A)) k a : NoDup (map fst m) -> In (k, a) m -> mfind m k = Some a.
Proof.
  induction m as [|[k' a'] m IH]; [easy|]. cbn [map fst mfind]. intros N H. inversion N; subst. destruct H as [E|H].
  - injection E as -> ->. now rewrite bytes_eqb_refl.
  - destruct (bytes_eqb k' k) eqn:E; [|now apply IH]. apply bytes_eqb_eq in E as ->. destruct H2. now apply (in_map fst) in H.
Qed.
Section Components.
Variable (fl : floats) (want : list (bytes * ckind)) (ND : NoDup (map fst want)).
Let p32 := fl_parse32 fl.
Record Inv (p : list tag) (seen : list bytes) (vals : cvals) : Prop := {
  inv_nodup : NoDup seen;
  inv_seen : forall n, In n seen <-> In n (map fst want) /\ ~ absent n p;
  inv_val : forall n k, In (n, k) want -> In n seen -> found p32 p n k (mfind vals n);
  inv_none : forall n, ~ In n seen -> mfind vals n = None }.
Lemma found_app p s n k x : found p32 p n k x -> found p32 (p ++ s) n k x.
Proof. intros (u & F & V). exists u. split; [now apply first_app|exact V]. Qed.
Lemma found_fun p n k x x' : found p32 p n k x -> found p32 p n k x' -> x = x'.
Proof.
  intros (u & F & V) (u' & F' & V'). rewrite (first_unique _ _ _ _ F F') in V. apply value_of_iff in V, V'. congruence.
Qed.
Lemma seen_iff n seen : existsb (bytes_eqb n) seen = true <-> In n seen.
Proof.
  rewrite existsb_exists. split; [intros (x & H & E); apply bytes_eqb_eq in E as ->; exact H|]. intros H. exists n. split; [exact H|apply bytes_eqb_refl].
Qed.
Lemma not_seen n seen : existsb (bytes_eqb n) seen = false <-> ~ In n seen.
Proof. rewrite <- seen_iff. destruct (existsb _ _); split; congruence. Qed.
Lemma not_want n : mfind want n = None -> ~ In n (map fst want).
Proof.
  intros H I. apply in_map_iff in I as ([n' k] & <- & I). cbn [fst] in *. rewrite (In_mfind _ _ _ ND I) in H. discriminate H.
Qed.
Lemma inv_skip p seen vals u : Inv p seen vals -> ~ In (t_start u) (map fst want) \/ In (t_start u) seen -> Inv (p ++ [u]) seen vals.
Proof.
  intros [I1 I2 I3 I4] H. split.
  - exact I1.
  - intros n. rewrite I2. split; intros [W A]; split; auto.
    + intros B. apply absent_app in B as [B _]. contradiction.
    + intros B. destruct (bytes_eq_dec (t_start u) n) as [E|E].
      * subst n. destruct H as [H|H]; [contradiction|]. apply I2 in H as [_ H]. contradiction.
      * apply A. apply absent_app. split; [exact B|]. now repeat constructor.
  - intros n k W S. apply found_app. now apply I3.
  - exact I4.
Qed.
Lemma inv_put p seen vals u k x : Inv p seen vals -> In (t_start u, k) want -> ~ In (t_start u) seen ->
  value_of p32 k u x -> Inv (p ++ [u]) (t_start u :: seen) (put (t_start u) x vals).
Proof.
  intros [I1 I2 I3 I4] W S V.
  assert (A : absent (t_start u) p).
  { destruct (first_dec (t_start u) p) as [A|(u' & F)]; [exact A|]. destruct S. apply I2. split; [now apply (in_map fst) in W|]. intros A. eapply first_absent; eauto. }
  assert (M : forall n, n <> t_start u -> mfind (put (t_start u) x vals) n = mfind vals n).
  { intros n E. destruct x as [x|]; [|reflexivity]. cbn [put mfind]. destruct (bytes_eqb (t_start u) n) eqn:B; [apply bytes_eqb_eq in B; congruence|reflexivity]. }
  split.
  - now constructor.
  - intros n. cbn [In]. rewrite I2. split.
    + intros [<-|[W' A']].
      * split; [now apply (in_map fst) in W|]. intros B. apply absent_app in B as [_ B]. inversion B; subst. congruence.
      * split; [exact W'|]. intros B. apply absent_app in B as [B _]. contradiction.
    + intros [W' A']. destruct (bytes_eq_dec (t_start u) n) as [E|E]; [now left|right]. split; [exact W'|]. intros B. apply A', absent_app. split; [exact B|]. now repeat constructor.
  - intros n k' W' S'. destruct (bytes_eq_dec n (t_start u)) as [E|E].
    + subst n. pose proof (In_mfind _ _ _ ND W) as E1. pose proof (In_mfind _ _ _ ND W') as E2. rewrite E1 in E2. injection E2 as <-.
      exists u. split; [now apply first_here|]. replace (mfind (put (t_start u) x vals) (t_start u)) with x; [exact V|].
      destruct x as [x|]; cbn [put mfind]; [now rewrite bytes_eqb_refl|]. symmetry. now apply I4.
    + rewrite M by exact E. apply found_app. apply I3; [exact W'|]. destruct S' as [S'|S']; [congruence|exact S'].
  - intros n S'. cbn [In] in S'. rewrite M by (intros ->; apply S'; now left). apply I4. intros S''. apply S'. now right.
Qed.
Lemma absent_unseen p seen vals u : Inv p seen vals -> In (t_start u) (map fst want) -> ~ In (t_start u) seen -> absent (t_start u) p.
Proof.
  intros I W S. destruct (first_dec (t_start u) p) as [A|(u' & F)]; [exact A|]. destruct S. apply (inv_seen _ _ _ I). split; [exact W|]. intros A. eapply first_absent; eauto.
Qed.
Lemma loop_sound ts : forall p seen vals v, Inv p seen vals -> getFrom_loop fl want seen vals ts = (true, v) -> components p32 want (p ++ ts) (mfind v).
Proof.
  induction ts as [|u ts IH]; intros p seen vals v I H.
  - cbn [getFrom_loop] in H. injection H as H <-. apply Nat.eqb_eq in H. rewrite app_nil_r. apply Comps_all. intros n k W. apply (inv_val _ _ _ I n k W).
    assert (L : incl (map fst want) seen).
    { apply NoDup_length_incl; [apply (inv_nodup _ _ _ I)|rewrite map_length; lia|]. intros m M. now apply (inv_seen _ _ _ I) in M. }
    apply L. now apply (in_map fst) in W.
  - destruct (mfind want (t_start u)) as [k|] eqn:W; [destruct (existsb (bytes_eqb (t_start u)) seen) eqn:S|].
    + cbn [getFrom_loop] in H. rewrite W, S in H. change (u :: ts) with ([u] ++ ts). rewrite app_assoc. apply (IH _ seen vals); [|exact H].
      apply inv_skip; [exact I|]. right. now apply seen_iff.
    + pose proof (loop_step fl want seen vals u ts k W S) as L. apply mfind_In in W. apply not_seen in S.
      pose proof (absent_unseen _ _ _ _ I (in_map fst _ _ W) S) as A.
      destruct (read_comp fl k u) as [x|x|] eqn:R.
      * rewrite L in H. change (u :: ts) with ([u] ++ ts). rewrite app_assoc. refine (IH (p ++ [u]) _ _ _ _ H). eapply inv_put; eauto. now apply value_of_iff.
      * rewrite L in H. injection H as <-. apply (Comps_cut _ _ _ _ p u ts k x); auto.
        { now apply (out_of_range_iff fl). }
        { cbn [mfind]. now rewrite bytes_eqb_refl. }
        intros n k' W' E. cbn [mfind]. destruct (bytes_eqb (t_start u) n) eqn:B; [apply bytes_eqb_eq in B; congruence|].
        destruct (first_dec n p) as [A'|(u' & F)]; [right|left].
        { split; [exact A'|]. apply (inv_none _ _ _ I). intros S'. apply (inv_seen _ _ _ I) in S' as [_ S']. contradiction. }
        apply (inv_val _ _ _ I n k' W'). apply (inv_seen _ _ _ I). split; [now apply (in_map fst) in W'|]. intros A'. eapply first_absent; eauto.
      * rewrite H in L. discriminate L.
    + cbn [getFrom_loop] in H. rewrite W in H. change (u :: ts) with ([u] ++ ts). rewrite app_assoc. apply (IH _ seen vals); [|exact H].
      apply inv_skip; [exact I|]. left. now apply not_want.
Qed.
(** Where the list was cut. *)
Lemma split_compare {A} (p p' : list A) u u' s s' : p ++ u :: s = p' ++ u' :: s' ->
  (p = p' /\ u = u' /\ s = s') \/ (exists r, p = p' ++ u' :: r) \/ (exists r, p' = p ++ u :: r).
Proof.
  revert p'. induction p as [|x p IH]; intros [|x' p'] E; cbn [app] in E.
  - left. injection E as -> ->. auto.
  - right. right. injection E as <- _. now exists p'.
  - right. left. injection E as <- _. now exists p.
  - injection E as <- E. destruct (IH p' E) as [(-> & -> & ->)|[(r & ->)|(r & ->)]]; [left; auto|right; left|right; right]; now exists r.
Qed.
Lemma cut_inside p seen vals k u x r : Inv (p ++ u :: r) seen vals -> In (t_start u, k) want -> absent (t_start u) p -> out_of_range k u x -> False.
Proof.
  intros I W A O. apply (out_of_range_iff fl) in O.
  assert (F : first (t_start u) (p ++ u :: r) u) by now apply first_here.
  assert (S : In (t_start u) seen). { apply (inv_seen _ _ _ I). split; [now apply (in_map fst) in W|]. intros B. eapply first_absent; eauto. }
  destruct (inv_val _ _ _ I _ _ W S) as (u' & F' & V). rewrite (first_unique _ _ _ _ F F') in O. apply value_of_iff in V. congruence.
Qed.
Lemma loop_complete ts : forall p seen vals val, Inv p seen vals -> components p32 want (p ++ ts) val ->
  exists v, getFrom_loop fl want seen vals ts = (true, v) /\ forall n, In n (map fst want) -> mfind v n = val n.
Proof.
  induction ts as [|u ts IH]; intros p seen vals val I C.
  - rewrite app_nil_r in C. destruct C as [C|p' u s k x E W A O Ev _].
    + assert (L : incl (map fst want) seen).
      { intros n N. apply (inv_seen _ _ _ I). split; [exact N|]. apply in_map_iff in N as ([n' k] & <- & N). destruct (C _ _ N) as (u & F & _). intros B. eapply first_absent; eauto. }
      exists vals. split.
      * cbn [getFrom_loop]. replace (length seen =? length want)%nat with true; [reflexivity|]. symmetry. apply Nat.eqb_eq.
        apply Nat.le_antisymm; rewrite <- (map_length fst want); apply NoDup_incl_length; auto; [apply (inv_nodup _ _ _ I)|].
        intros n N. now apply (inv_seen _ _ _ I) in N.
      * intros n N. pose proof (L n N) as S. apply in_map_iff in N as ([n' k] & <- & N). eapply found_fun; [|exact (C _ _ N)]. now apply (inv_val _ _ _ I).
    + subst p. exfalso. eapply cut_inside; eauto.
  - destruct (mfind want (t_start u)) as [k|] eqn:W; [destruct (existsb (bytes_eqb (t_start u)) seen) eqn:S|].
    + cbn [getFrom_loop]. rewrite W, S. change (u :: ts) with ([u] ++ ts) in C. rewrite app_assoc in C. refine (IH (p ++ [u]) _ _ _ _ C).
      apply inv_skip; [exact I|]. right. now apply seen_iff.
    + pose proof (loop_step fl want seen vals u ts k W S) as L. apply mfind_In in W. apply not_seen in S.
      pose proof (absent_unseen _ _ _ _ I (in_map fst _ _ W) S) as A.
      assert (F : first (t_start u) (p ++ u :: ts) u) by now apply first_here.
      assert (HV : (forall x, read_comp fl k u <> Cut x) -> exists x, read_comp fl k u = Good x).
      { intros NC. destruct C as [C|p' u' s k' x E W' A' O Ev V].
        - destruct (C _ _ W) as (u' & F' & V). rewrite (first_unique _ _ _ _ F F'). apply value_of_iff in V. eauto.
        - destruct (split_compare _ _ _ _ _ _ E) as [(-> & <- & <-)|[(r & ->)|(r & ->)]].
          + pose proof (In_mfind _ _ _ ND W) as E1. pose proof (In_mfind _ _ _ ND W') as E2. rewrite E1 in E2. injection E2 as <-.
            apply (out_of_range_iff fl) in O. destruct (NC _ O).
          + exfalso. eapply cut_inside; eauto.
          + destruct (V _ _ W) as [(u'' & F'' & V')|[B _]].
            * intros B. rewrite B in F. apply absent_app in A' as [_ A']. inversion A'; subst. congruence.
            * assert (F2 : first (t_start u) (p ++ u :: r) u) by now apply first_here. rewrite (first_unique _ _ _ _ F2 F''). apply value_of_iff in V'. eauto.
            * apply absent_app in B as [_ B]. inversion B; subst. congruence. }
      destruct (read_comp fl k u) as [x|x|] eqn:R.
      * rewrite L. change (u :: ts) with ([u] ++ ts) in C. rewrite app_assoc in C. refine (IH (p ++ [u]) _ _ _ _ C). eapply inv_put; eauto. now apply value_of_iff.
      * rewrite L. eexists. split; [reflexivity|]. clear HV.
        destruct C as [C|p' u' s k' x' E W' A' O Ev V].
        { exfalso. destruct (C _ _ W) as (u' & F' & V). rewrite (first_unique _ _ _ _ F F') in R. apply value_of_iff in V. congruence. }
        destruct (split_compare _ _ _ _ _ _ E) as [(-> & <- & <-)|[(r & ->)|(r & ->)]].
        { pose proof (In_mfind _ _ _ ND W) as E1. pose proof (In_mfind _ _ _ ND W') as E2. rewrite E1 in E2. injection E2 as <-.
          apply (out_of_range_iff fl) in O. rewrite R in O. injection O as <-.
          intros n N. cbn [mfind]. destruct (bytes_eqb (t_start u) n) eqn:B; [apply bytes_eqb_eq in B; subst n; now rewrite Ev|]. apply bytes_eqb_neq in B.
          apply in_map_iff in N as ([n' k'] & <- & N). cbn [fst] in *. destruct (V n' k' N) as [V'|[B' V']]; [congruence| |].
          - eapply found_fun; [|exact V']. apply (inv_val _ _ _ I); [exact N|]. destruct V' as (u' & F' & _). apply (inv_seen _ _ _ I). split; [now apply (in_map fst) in N|]. intros B'. eapply first_absent; eauto.
          - rewrite V'. apply (inv_none _ _ _ I). intros S'. apply (inv_seen _ _ _ I) in S' as [_ S']. contradiction. }
        { exfalso. eapply cut_inside; eauto. }
        exfalso. destruct (V _ _ W) as [(u'' & F'' & V')|[B _]].
        { intros B. rewrite B in F. apply absent_app in A' as [_ A']. inversion A'; subst. congruence. }
        { assert (F2 : first (t_start u) (p ++ u :: r) u) by now apply first_here. rewrite (first_unique _ _ _ _ F2 F'') in R. apply value_of_iff in V'. congruence. }
        apply absent_app in B as [_ B]. inversion B; subst. congruence.
      * destruct HV as (x & HV); [discriminate|discriminate HV].
    + cbn [getFrom_loop]. rewrite W. change (u :: ts) with ([u] ++ ts) in C. rewrite app_assoc in C. refine (IH (p ++ [u]) _ _ _ _ C).
      apply inv_skip; [exact I|]. left. now apply not_want.
Qed.
Lemma inv_init : Inv [] [] [].
Proof. split; [constructor| |easy|reflexivity]. intros n. split; [easy|]. intros [_ H]. apply H. constructor. Qed.
Lemma getFrom_sound t v : getFrom fl want t = (true, v) -> components p32 want (t_tags t) (mfind v).
Proof. intros H. exact (loop_sound _ [] [] [] v inv_init H). Qed.
Lemma getFrom_complete t val : components p32 want (t_tags t) val ->
  exists v, getFrom fl want t = (true, v) /\ forall n, In n (map fst want) -> mfind v n = val n.
Proof. intros H. exact (loop_complete _ [] [] [] val inv_init H). Qed.
End Components.
