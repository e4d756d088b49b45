(** XmlTextProofs.v - numbers, hexadecimal and base64 text read back. *)
From Coq Require Import Decimal DecimalN DecimalPos ZifyN ZifyClasses.
From Verif Require Import Base RbxlValues RbxValues XmlText XmlDoc XmlCodec SpecXml.

(** ** Line ends *)
Lemma nl_no_cr s : no_cr s = true -> nl s = s.
Proof.
  induction s as [|b s IH]; [reflexivity|]. cbn. intros H. apply andb_prop in H as [Hb H]. destruct (Byte.eqb b x0d); [discriminate|]. now rewrite IH.
Qed.
Lemma nl_text_no_cr s : no_cr s = true -> nl_text s = s.
Proof.
  induction s as [|b s IH]; [reflexivity|]. intros H. cbn [nl_text]. destruct (isSpace b); [|now apply nl_no_cr].
  cbn in H. apply andb_prop in H as [_ H]. now rewrite IH.
Qed.
Lemma no_cr_app a b : no_cr (a ++ b) = no_cr a && no_cr b.
Proof. apply forallb_app. Qed.
Lemma nl_nil_iff s : nl s = [] <-> s = [].
Proof. destruct s as [|b s]; [easy|]. cbn. destruct (Byte.eqb b x0d); now split. Qed.
Lemma nl_text_nil_iff s : nl_text s = [] <-> s = [].
Proof. destruct s as [|b s]; [easy|]. cbn [nl_text]. destruct (isSpace b); [now split|]. rewrite nl_nil_iff. now split. Qed.

(** ** Decimal numbers *)
Fixpoint uval (n : N) (u : Decimal.uint) : N :=
  match u with
  | Nil => n
  | D0 u => uval (n * 10 + 0) u | D1 u => uval (n * 10 + 1) u | D2 u => uval (n * 10 + 2) u | D3 u => uval (n * 10 + 3) u
  | D4 u => uval (n * 10 + 4) u | D5 u => uval (n * 10 + 5) u | D6 u => uval (n * 10 + 6) u | D7 u => uval (n * 10 + 7) u
  | D8 u => uval (n * 10 + 8) u | D9 u => uval (n * 10 + 9) u
  end.
Lemma uval_pos u : forall p, uval (Npos p) u = Npos (Pos.of_uint_acc u p).
Proof. induction u; intros p; cbn [uval Pos.of_uint_acc]; [reflexivity|..]; rewrite <- IHu; f_equal; lia. Qed.
Lemma uval_0 u : uval 0 u = N.of_uint u.
Proof. induction u; cbn [uval N.of_uint Pos.of_uint]; [reflexivity|exact IHu|..]; apply uval_pos. Qed.
Lemma uval_ge u : forall n, (n <= uval n u)%N.
Proof. induction u; intros n; cbn [uval]; [lia|..]; (etransitivity; [|apply IHu]); lia. Qed.
Lemma uint_loop_spec max u : forall n, (n <= max)%N ->
  uint_loop 10 max n (uint_bytes u) = if (uval n u <=? max)%N then PVal (uval n u) else PRange max.
Proof.
  assert (G : forall (d : N) (c : byte) (rest : Decimal.uint) (n : N), digit c = Some d -> (d < 10)%N ->
    (forall n, (n <= max)%N -> uint_loop 10 max n (uint_bytes rest) = if (uval n rest <=? max)%N then PVal (uval n rest) else PRange max) ->
    uint_loop 10 max n (c :: uint_bytes rest) = if (uval (n * 10 + d) rest <=? max)%N then PVal (uval (n * 10 + d) rest) else PRange max).
  { intros d c rest n Hd Hlt IH. cbn [uint_loop]. rewrite Hd. replace (10 <=? d)%N with false by (symmetry; apply N.leb_gt; lia).
    destruct (N.ltb_spec max (n * 10 + d)) as [H|H].
    - pose proof (uval_ge rest (n * 10 + d)). now replace (uval (n * 10 + d) rest <=? max)%N with false by (symmetry; apply N.leb_gt; lia).
    - now apply IH. }
  induction u; intros n Hn; cbn [uint_bytes uval];
    [cbn [uint_loop]; now replace (n <=? max)%N with true by (symmetry; apply N.leb_le; lia)|..]; (eapply G; [reflexivity|lia|exact IHu]).
Qed.
Definition is_dec (b : byte) : bool := ((0x30 <=? b2N b) && (b2N b <=? 0x39))%N.
Lemma uint_bytes_dec u : forallb is_dec (uint_bytes u) = true.
Proof. induction u; cbn [uint_bytes forallb]; [reflexivity|..]; now rewrite IHu. Qed.
Lemma FormatUint_dec n : forallb is_dec (FormatUint n) = true.
Proof. apply uint_bytes_dec. Qed.
Lemma FormatUint_cons n : exists c r, FormatUint n = c :: r /\ is_dec c = true /\ forallb is_dec r = true.
Proof.
  pose proof (FormatUint_dec n) as H. unfold FormatUint in *.
  destruct (N.to_uint n) as [|u|u|u|u|u|u|u|u|u|u] eqn:E; [|cbn [uint_bytes forallb] in *; apply andb_prop in H; eexists _, _; (split; [reflexivity|exact H])..].
  exfalso. destruct n as [|p]; [discriminate E|]. cbn in E. now apply (DecimalPos.Unsigned.to_uint_nonnil p).
Qed.
Lemma dec_not_sign c : is_dec c = true -> Byte.eqb c x2b = false /\ Byte.eqb c x2d = false /\ Byte.eqb c x0d = false /\ isSpace c = false.
Proof. destruct c; intros H; try discriminate H; now repeat split. Qed.
Lemma forallb_imp {A} (f g : A -> bool) l : (forall a, f a = true -> g a = true) -> forallb f l = true -> forallb g l = true.
Proof. intros H. rewrite !forallb_forall. auto. Qed.
Lemma dec_no_cr l : forallb is_dec l = true -> no_cr l = true.
Proof. apply forallb_imp. intros c H. now destruct (dec_not_sign c H) as (_ & _ & -> & _). Qed.
Lemma FormatUint_no_cr n : no_cr (FormatUint n) = true.
Proof. apply dec_no_cr, FormatUint_dec. Qed.
Lemma FormatInt_no_cr z : no_cr (FormatInt z) = true.
Proof. unfold FormatInt. destruct (z <? 0)%Z; [cbn|]; apply FormatUint_no_cr. Qed.
Lemma FormatInt_nonempty z : nonempty (FormatInt z) = true.
Proof. unfold FormatInt. destruct (z <? 0)%Z; [reflexivity|]. now destruct (FormatUint_cons (Z.to_N z)) as (c & r & -> & _). Qed.
Lemma FormatUint_nonempty z : nonempty (FormatUint z) = true.
Proof. now destruct (FormatUint_cons z) as (c & r & -> & _). Qed.
Lemma ParseUint_Format bits n : ParseUint 10 bits (FormatUint n) = if (n <? 2 ^ bits)%N then PVal n else PRange (2 ^ bits - 1)%N.
Proof.
  unfold ParseUint. destruct (FormatUint_cons n) as (c & r & E & _). rewrite E. rewrite <- E. unfold FormatUint.
  assert (0 < 2 ^ bits)%N by (apply N.neq_0_lt_0, N.pow_nonzero; lia).
  rewrite uint_loop_spec by lia. rewrite uval_0, DecimalN.Unsigned.of_to.
  destruct (N.leb_spec n (2 ^ bits - 1)), (N.ltb_spec n (2 ^ bits)); try lia; reflexivity.
Qed.
(** The nearest number in the range. *)
Definition clamp (bits : N) (z : Z) : Z := Z.max (- Z.of_N (2 ^ (bits - 1))) (Z.min z (Z.of_N (2 ^ (bits - 1)) - 1)).
Lemma half bits : (1 <= bits)%N -> (2 ^ bits = 2 * 2 ^ (bits - 1))%N.
Proof. intros H. rewrite <- N.pow_succ_r'. f_equal. lia. Qed.
Definition in_range (bits : N) (z : Z) : Prop := (- Z.of_N (2 ^ (bits - 1)) <= z < Z.of_N (2 ^ (bits - 1)))%Z.
Lemma clamp_in bits z : in_range bits z -> clamp bits z = z.
Proof. unfold in_range, clamp. lia. Qed.
Lemma ParseInt_Format bits z : (2 <= bits)%N ->
  (in_range bits z -> ParseInt bits (FormatInt z) = PVal z) /\
  (~ in_range bits z -> ParseInt bits (FormatInt z) = PRange (clamp bits z)).
Proof.
  intros Hb. assert (Hb1 : (1 <= bits)%N) by lia. pose proof (half bits Hb1) as Hh. assert (Hpos : (2 <= 2 ^ (bits - 1))%N).
  { change 2%N with (2 ^ 1)%N at 1. apply N.pow_le_mono_r; lia. }
  set (c := (2 ^ (bits - 1))%N) in *. unfold in_range, clamp. fold c.
  unfold FormatInt. destruct (Z.ltb_spec z 0) as [Hz|Hz].
  - unfold ParseInt. change (Byte.eqb x2d x2d) with true. change (Byte.eqb x2d x2b) with false. cbn [orb negb andb].
    rewrite ParseUint_Format. fold c. rewrite Hh.
    destruct (N.ltb_spec (Z.to_N (- z)) (2 * c)) as [H|H].
    + destruct (N.ltb_spec c (Z.to_N (- z))) as [H2|H2]; split; intros H3; try lia; f_equal; lia.
    + destruct (N.ltb_spec c (2 * c - 1)) as [H2|H2]; split; intros H3; try lia.
      f_equal. lia.
  - unfold ParseInt. destruct (FormatUint_cons (Z.to_N z)) as (a & r & E & Ha & _). rewrite E.
    destruct (dec_not_sign a Ha) as (-> & -> & _). cbn [orb negb andb]. rewrite <- E, ParseUint_Format. fold c. rewrite Hh.
    destruct (N.ltb_spec (Z.to_N z) (2 * c)) as [H|H].
    + destruct (N.leb_spec c (Z.to_N z)) as [H2|H2]; split; intros H3; try lia; f_equal; lia.
    + destruct (N.leb_spec c (2 * c - 1)) as [H2|H2]; split; intros H3; try lia. f_equal. lia.
Qed.

(** ** Hexadecimal *)
Lemma hex_decode_byte b : match hex_byte b with [x; y] => match digit x, digit y with Some m, Some n => N2b (m * 16 + n) = b | _, _ => False end | _ => False end.
Proof. destruct b; vm_compute; reflexivity. Qed.
Lemma hex_decode_encode s : hex_decode (hex_encode s) = Some s.
Proof.
  unfold hex_encode. induction s as [|b s IH]; [reflexivity|]. cbn [flat_map].
  pose proof (hex_decode_byte b) as H. unfold hex_byte in *. cbn [app hex_decode].
  destruct (digit _) as [m|]; [|contradiction]. destruct (digit _) as [n|]; [|contradiction]. rewrite IH. now rewrite H.
Qed.
Lemma hex_length s : length (hex_encode s) = 2 * length s.
Proof. unfold hex_encode. induction s as [|b s IH]; [reflexivity|]. cbn [flat_map hex_byte app length]. rewrite IH. lia. Qed.
Lemma hex_no_cr s : no_cr (hex_encode s) = true.
Proof.
  unfold hex_encode. induction s as [|b s IH]; [reflexivity|]. cbn [flat_map]. rewrite no_cr_app, IH, andb_true_r. destruct b; reflexivity.
Qed.

(** ** Base64 *)
Lemma lt64 n : (n < 64)%N -> In n (map N.of_nat (seq 0 64)).
Proof. intros H. apply in_map_iff. exists (N.to_nat n). split; [lia|]. apply in_seq. lia. Qed.
Lemma b64_val_char n : (n < 64)%N -> b64_val (b64_char n) = Some n /\ Byte.eqb (b64_char n) x3d = false /\ is_eol (b64_char n) = false.
Proof.
  intros H. apply lt64 in H.
  assert (G : forallb (fun n => match b64_val (b64_char n) with Some m => N.eqb m n | None => false end && negb (Byte.eqb (b64_char n) x3d) && negb (is_eol (b64_char n)))
     (map N.of_nat (seq 0 64)) = true) by (vm_compute; reflexivity).
  rewrite forallb_forall in G. specialize (G n H). cbv beta in G.
  apply andb_prop in G as [G G3]. apply andb_prop in G as [G1 G2].
  destruct (b64_val (b64_char n)) as [m|]; [|discriminate]. apply N.eqb_eq in G1 as ->.
  split; [reflexivity|]. destruct (Byte.eqb (b64_char n) x3d); [discriminate G2|]. destruct (is_eol (b64_char n)); [discriminate G3|]. now split.
Qed.
Lemma b64_char_mod n : b64_char n = b64_char (n mod 64).
Proof. unfold b64_char. now rewrite N.mod_mod by lia. Qed.
Lemma b64_char_val n : b64_val (b64_char n) = Some (n mod 64)%N /\ Byte.eqb (b64_char n) x3d = false /\ is_eol (b64_char n) = false.
Proof. rewrite b64_char_mod. apply b64_val_char. apply N.mod_lt. lia. Qed.
Lemma list_ind3 {A} (P : list A -> Prop) : P [] -> (forall a, P [a]) -> (forall a b, P [a; b]) ->
  (forall a b c l, P l -> P (a :: b :: c :: l)) -> forall l, P l.
Proof.
  intros H0 H1 H2 H3. assert (G : forall n l, length l < n -> P l); [|intros l; apply (G (S (length l))); apply Nat.lt_succ_diag_r].
  induction n as [|n IH]; [lia|]. intros [|a [|b [|c l]]] Hl; [assumption|apply H1|apply H2|]. apply H3, IH. cbn in Hl. lia.
Qed.

Ltac dm := zify; Z.div_mod_to_equations; lia.
Lemma N2b_eq x b : (x mod 256 = b2N b)%N -> N2b x = b.
Proof. intros H. apply b2N_inj. now rewrite b2N_N2b. Qed.
Lemma b64_groups_encode s : b64_groups (b64_encode s) = Some s.
Proof.
  induction s as [|a|a b|a b c s IH] using list_ind3; [reflexivity|..]; cbn [b64_encode b64_groups].
  - pose proof (b2N_lt a) as Ha. set (n := b2N a) in *.
    destruct (b64_char_val (n * 16 / 64)) as [-> _]. destruct (b64_char_val (n * 16)) as [-> _].
    change (Byte.eqb x3d x3d) with true. cbv iota. do 2 f_equal. apply N2b_eq. fold n. dm.
  - pose proof (b2N_lt a) as Ha. pose proof (b2N_lt b) as Hb. set (m := b2N a) in *. set (k := b2N b) in *. set (n := ((m * 256 + k) * 4)%N).
    destruct (b64_char_val (n / 4096)) as [-> _]. destruct (b64_char_val (n / 64)) as [-> _]. destruct (b64_char_val n) as (-> & -> & _).
    change (Byte.eqb x3d x3d) with true. cbv iota. f_equal. f_equal; [|f_equal]; apply N2b_eq; fold m k; subst n; dm.
  - pose proof (b2N_lt a) as Ha. pose proof (b2N_lt b) as Hb. pose proof (b2N_lt c) as Hc. set (m := b2N a) in *. set (k := b2N b) in *. set (j := b2N c) in *.
    set (n := ((m * 256 + k) * 256 + j)%N).
    destruct (b64_char_val (n / 262144)) as [-> _]. destruct (b64_char_val (n / 4096)) as [-> _]. destruct (b64_char_val (n / 64)) as (-> & -> & _).
    destruct (b64_char_val n) as (-> & -> & _). rewrite IH. f_equal. f_equal; [|f_equal; [|f_equal]]; apply N2b_eq; fold m k j; subst n; dm.
Qed.
(** Characters of base64 text. *)
Definition not_eol (b : byte) : bool := negb (is_eol b).
Definition in_b64 (b : byte) : bool := match b64_val b with Some _ => true | None => Byte.eqb b x3d end.
Lemma b64_encode_in s : forallb in_b64 (b64_encode s) = true.
Proof.
  assert (G : forall n, in_b64 (b64_char n) = true) by (intros n; unfold in_b64; now destruct (b64_char_val n) as [-> _]).
  induction s as [|a|a b|a b c s IH] using list_ind3; [reflexivity|..]; cbn [b64_encode forallb]; rewrite ?G, ?IH; reflexivity.
Qed.
Lemma in_b64_plain b : in_b64 b = true -> not_eol b = true /\ Byte.eqb b x0d = false /\ Byte.eqb b x5d = false.
Proof. destruct b; intros H; try discriminate H; now repeat split. Qed.
Lemma filter_all {A} (f : A -> bool) l : forallb f l = true -> filter f l = l.
Proof. induction l as [|a l IH]; [reflexivity|]. cbn. intros H. apply andb_prop in H as [-> H]. now rewrite IH. Qed.
Lemma b64_decode_encode s : b64_decode (b64_encode s) = Some s.
Proof.
  unfold b64_decode. fold not_eol. rewrite filter_all; [apply b64_groups_encode|].
  apply (forallb_imp in_b64); [|apply b64_encode_in]. intros b H. now destruct (in_b64_plain b H).
Qed.
Lemma b64_encode_app a : forall b, length a mod 3 = 0 -> b64_encode (a ++ b) = b64_encode a ++ b64_encode b.
Proof.
  induction a as [|x|x y|x y z a IH] using list_ind3; intros b H; [reflexivity|discriminate H|discriminate H|].
  cbn [app b64_encode]. rewrite IH; [reflexivity|]. change (length (x :: y :: z :: a)) with (3 + length a) in H.
  pose proof (Nat.mod_add (length a) 1 3 ltac:(lia)) as G. rewrite Nat.mul_1_l, (Nat.add_comm (length a) 3) in G. congruence.
Qed.
Lemma b64_writes_concat fuel : forall s, length s < fuel -> concat (b64_writes fuel s) = b64_encode s.
Proof.
  induction fuel as [|fuel IH]; [lia|]. intros s Hs. cbn [b64_writes].
  set (nn := Nat.min 768 (length s / 3 * 3)).
  assert (Hnn : nn mod 3 = 0).
  { unfold nn. destruct (Nat.min_spec 768 (length s / 3 * 3)) as [[_ ->]|[_ ->]]; [reflexivity|]. now apply Nat.mod_mul. }
  assert (Hle : nn <= length s). { unfold nn. pose proof (Nat.div_mod (length s) 3). lia. }
  destruct (Nat.eqb_spec nn 0) as [E|E].
  - destruct s; [reflexivity|]. cbn [concat]. now rewrite app_nil_r.
  - cbn [concat]. rewrite IH by (rewrite skipn_length; lia). rewrite <- b64_encode_app by (now rewrite firstn_length_le). now rewrite firstn_skipn.
Qed.
Definition wrapped (t p : bytes) : Prop := filter not_eol t = filter not_eol p /\ no_cr t = no_cr p /\ forallb (fun b => negb (Byte.eqb b x5d)) t = forallb (fun b => negb (Byte.eqb b x5d)) p.
Lemma wrapped_app a b c d : wrapped a c -> wrapped b d -> wrapped (a ++ b) (c ++ d).
Proof. unfold wrapped. intros (H1 & H2 & H3) (H4 & H5 & H6). rewrite !filter_app, !no_cr_app, !forallb_app. repeat split; congruence. Qed.
Lemma wrapped_nl b d : wrapped b d -> wrapped (x0a :: b) d.
Proof. intros (H1 & H2 & H3). repeat split; assumption. Qed.
Lemma wrapped_refl a : wrapped a a.
Proof. now repeat split. Qed.
Lemma lineSplit_ok s fuel : 1 <= s -> forall n p, n <= s -> length p + (if n =? 0 then 1 else 0) < fuel ->
  exists t n', lineSplit_loop fuel s n p = OK (t, n') /\ n' <= s /\ wrapped t p.
Proof.
  intros Hs. induction fuel as [|fuel IH]; [lia|]. intros n p Hn Hf. cbn [lineSplit_loop].
  match goal with |- context [skipn (length ?x) p] => set (q := x) end.
  assert (Hq : q = firstn n p) by (unfold q; destruct (Nat.ltb_spec (length p) n); [symmetry; apply firstn_all2; lia|reflexivity]).
  assert (Hql : length q = Nat.min n (length p)) by (rewrite Hq; apply firstn_length).
  assert (Hp : p = q ++ skipn (length q) p).
  { rewrite Hql. destruct (Nat.min_spec n (length p)) as [[? ->]|[? ->]].
    - rewrite Hq. symmetry. apply firstn_skipn.
    - rewrite skipn_all, app_nil_r, Hq. symmetry. now apply firstn_all2. }
  destruct (skipn (length q) p) as [|b r] eqn:Er.
  - exists q, (n - length q). split; [reflexivity|]. split; [lia|]. rewrite Hp, app_nil_r at 1. apply wrapped_refl.
  - assert (Hlen : length (b :: r) = length p - length q) by (rewrite <- Er; apply skipn_length). cbn [length] in Hlen.
    assert (E0 : n - length q = 0) by lia. rewrite E0. cbn [Nat.eqb].
    destruct (IH s (b :: r)) as (t & n' & E & Hn' & Hw); [lia| |].
    { destruct (Nat.eqb_spec s 0); [lia|]. destruct (Nat.eqb_spec n 0); cbn [length]; lia. }
    rewrite E. cbn [obind]. exists (q ++ x0a :: t), n'. split; [reflexivity|]. split; [assumption|]. rewrite Hp. apply wrapped_app; [apply wrapped_refl|now apply wrapped_nl].
Qed.
Lemma lineSplit_writes_ok s : 1 <= s -> forall ps n, n <= s -> exists t, lineSplit_writes s n ps = OK t /\ wrapped t (concat ps).
Proof.
  intros Hs. induction ps as [|p ps IH]; intros n Hn; [exists []; split; [reflexivity|apply wrapped_refl]|]. cbn [lineSplit_writes concat].
  destruct (lineSplit_ok s (S (S (length p))) Hs n p Hn) as (t & n' & E & Hn' & Hw); [destruct (n =? 0); lia|]. rewrite E. cbn [obind].
  destruct (IH n' Hn') as (r & E2 & Hw2). rewrite E2. cbn [obind]. exists (t ++ r). split; [reflexivity|]. now apply wrapped_app.
Qed.
Lemma wrap_ok l fuel : 1 <= l -> forall c p, c < l -> length p < fuel -> exists t c', wrap_loop fuel l c p = OK (t, c') /\ c' < l /\ wrapped t p.
Proof.
  intros Hl. induction fuel as [|fuel IH]; [lia|]. intros c p Hc Hf. cbn [wrap_loop]. destruct (Nat.leb_spec l (c + length p)) as [H|H].
  - destruct (IH 0 (skipn (l - c) p)) as (t & c' & E & Hc' & Hw); [lia|rewrite skipn_length; lia|]. rewrite E. cbn [obind].
    exists (firstn (l - c) p ++ x0a :: t), c'. split; [reflexivity|]. split; [assumption|]. rewrite <- (firstn_skipn (l - c) p) at 2. apply wrapped_app; [apply wrapped_refl|now apply wrapped_nl].
  - exists p, (c + length p). split; [reflexivity|]. split; [lia|apply wrapped_refl].
Qed.
Lemma wrap_writes_ok l : 1 <= l -> forall ps c, c < l -> exists t, wrap_writes l c ps = OK t /\ wrapped t (concat ps).
Proof.
  intros Hl. induction ps as [|p ps IH]; intros n Hn; [exists []; split; [reflexivity|apply wrapped_refl]|]. cbn [wrap_writes concat].
  destruct (wrap_ok l (S (S (length p))) Hl n p Hn) as (t & n' & E & Hn' & Hw); [lia|]. rewrite E. cbn [obind].
  destruct (IH n' Hn') as (r & E2 & Hw2). rewrite E2. cbn [obind]. exists (t ++ r). split; [reflexivity|]. now apply wrapped_app.
Qed.
Lemma no_bracket_no_end s : forallb (fun b => negb (Byte.eqb b x5d)) s = true -> has_cdata_end s = false.
Proof.
  induction s as [|b s IH]; [reflexivity|]. intros H. cbn [forallb] in H. apply andb_prop in H as [Hb H]. cbn [has_cdata_end].
  replace (drop_prefix (str "]]>") (b :: s)) with (@None bytes); [exact (IH H)|].
  change (str "]]>") with [x5d; x5d; x3e]. cbn [drop_prefix]. destruct b; (reflexivity || discriminate Hb).
Qed.
(** Base64 text, however it is broken into lines. *)
Definition b64_text (t s : bytes) : Prop := b64_decode t = Some s /\ no_cr t = true /\ has_cdata_end t = false.
Lemma wrapped_b64 t s : wrapped t (b64_encode s) -> b64_text t s.
Proof.
  intros (H1 & H2 & H3). unfold b64_text, b64_decode. fold not_eol. rewrite H1.
  split; [apply b64_decode_encode|]. split.
  - rewrite H2. apply (forallb_imp in_b64); [|apply b64_encode_in]. intros b H. now destruct (in_b64_plain b H) as (_ & -> & _).
  - apply no_bracket_no_end. rewrite H3. apply (forallb_imp in_b64); [|apply b64_encode_in]. intros b H. now destruct (in_b64_plain b H) as (_ & _ & ->).
Qed.
Lemma b64_lines_ok s : exists t, b64_lines s = OK t /\ b64_text t s.
Proof.
  destruct (lineSplit_writes_ok 72 ltac:(lia) (b64_writes (S (length s)) s) 72 ltac:(lia)) as (t & E & Hw). exists t. split; [exact E|].
  apply wrapped_b64. rewrite b64_writes_concat in Hw by lia. exact Hw.
Qed.
Lemma b64_wrapped_ok s : exists t, b64_wrapped s = OK t /\ b64_text t s.
Proof.
  destruct (wrap_writes_ok 72 ltac:(lia) (b64_writes (S (length s)) s) 0 ltac:(lia)) as (t & E & Hw). exists t. split; [exact E|].
  apply wrapped_b64. rewrite b64_writes_concat in Hw by lia. exact Hw.
Qed.
