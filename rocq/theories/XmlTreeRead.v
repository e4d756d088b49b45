(** XmlTreeRead.v - the decoder against SpecXmlTree. *)
From Verif Require Import Base RbxlValues RbxValues Tree SpecTree XmlText XmlDoc XmlTotal XmlCodec SpecXmlText SpecXmlRead SpecXmlDecode SpecXmlTree
  TreeProofs RbxlFileProofs XmlLayout XmlGrammar XmlTreeEnc XmlReadProofs XmlReadValues PropXmlDecode.
Local Notation string := String.string.

(** ** Names *)
Lemma same_letter_iff a b : same_letter a b <-> lower a = b.
Proof.
  unfold same_letter, lower. destruct ((0x41 <=? b2N a) && (b2N a <=? 0x5a))%N eqn:E.
  - apply andb_true_iff in E as [E1 E2]. apply N.leb_le in E1, E2. split.
    + intros [[_ H]|[H _]]; [|lia]. rewrite <- H. apply N2b_b2N.
    + intros <-. left. split; [lia|]. rewrite b2N_N2b. apply N.mod_small. lia.
  - apply andb_false_iff in E. rewrite !N.leb_gt in E. split; [intros [[H _]|[_ H]]; [lia|exact H]|]. intros ->. right. split; [lia|reflexivity].
Qed.
Lemma letters_iff n l : Forall2 same_letter n l <-> map lower n = l.
Proof.
  split.
  - intros H. induction H as [|a b n l H _ IH]; [reflexivity|]. cbn [map]. apply same_letter_iff in H. congruence.
  - intros <-. induction n; constructor; [now apply same_letter_iff|assumption].
Qed.
Lemma assocB_In {A} (l : list (string * A)) k a : assocB l k = Some a -> exists s, In (s, a) l /\ str s = k.
Proof.
  induction l as [|[s b] l IH]; cbn [assocB]; [discriminate|]. destruct (bytes_eqb (str s) k) eqn:E.
  - intros H. apply Some_eq in H as ->. exists s. split; [now left|now apply bytes_eqb_eq].
  - intros H. destruct (IH H) as (s' & H1 & H2). exists s'. split; [now right|exact H2].
Qed.
Definition in_names (e : string * Type_) : bool := existsb (fun f => String.eqb (fst e) (fst f) && (snd e =? snd f)%N) type_names.
Lemma tables_1 : forallb in_names canon_types = true. Proof. vm_compute. reflexivity. Qed.
Lemma tables_2 : forallb (fun e => match assocB canon_types (str (fst e)) with Some t => (t =? snd e)%N | None => false end &&
  match drop_prefix (str "optional") (str (fst e)) with Some _ => false | None => true end) type_names = true.
Proof. vm_compute. reflexivity. Qed.
Lemma of_type_iff n typ : of_type n typ <-> assocB canon_types (map lower n) = Some typ.
Proof.
  unfold of_type, names. split.
  - intros (s & I & L). apply letters_iff in L. rewrite L. pose proof tables_2 as T. rewrite forallb_forall in T. specialize (T _ I). cbn [fst snd] in T.
    apply andb_true_iff in T as [T _]. destruct (assocB canon_types (str s)) as [t|]; [|discriminate T]. apply N.eqb_eq in T. now subst t.
  - intros H. apply assocB_In in H as (s & I & E). pose proof tables_1 as T. rewrite forallb_forall in T. specialize (T _ I). unfold in_names in T.
    apply existsb_exists in T as ([s' t'] & I' & B). cbn [fst snd] in B. apply andb_true_iff in B as [B1 B2]. apply String.eqb_eq in B1. apply N.eqb_eq in B2. subst s' t'.
    exists s. split; [exact I'|]. apply letters_iff. now symmetry.
Qed.
Lemma of_type_plain n typ : of_type n typ -> drop_prefix (str "optional") (map lower n) = None.
Proof.
  intros (s & I & L). apply letters_iff in L. rewrite L. pose proof tables_2 as T. rewrite forallb_forall in T. specialize (T _ I). cbn [fst snd] in T.
  apply andb_true_iff in T as [_ T]. now destruct (drop_prefix _ _).
Qed.
Lemma of_no_type_iff n : of_no_type n <-> assocB canon_types (map lower n) = None.
Proof.
  split.
  - intros H. destruct (assocB canon_types (map lower n)) as [t|] eqn:E; [|reflexivity]. exfalso. apply of_type_iff in E as (s & I & L). exact (H s t I L).
  - intros H s t I L. assert (T : of_type n t) by now exists s. apply of_type_iff in T. congruence.
Qed.
Lemma drop_prefix_iff p l r : drop_prefix p l = Some r <-> l = p ++ r.
Proof.
  revert l. induction p as [|a p IH]; intros l; cbn [drop_prefix app]; [split; [intros H; now apply Some_eq in H|now intros ->]|].
  destruct l as [|b l]; [split; discriminate|]. destruct (Byte.eqb a b) eqn:E.
  - apply Byte.byte_dec_bl in E as ->. rewrite IH. split; [now intros ->|]. intros H. now injection H.
  - split; [discriminate|]. intros H. injection H as H _. rewrite Byte.byte_dec_lb in E by congruence. discriminate E.
Qed.
Lemma optional_iff n r : optional n r <-> drop_prefix (str "optional") (map lower n) = Some (map lower r) /\ r = skipn 8 n.
Proof.
  unfold optional, names. rewrite drop_prefix_iff. split.
  - intros (o & -> & L). apply letters_iff in L. assert (Lo : length o = 8) by (rewrite <- (map_length lower), L; reflexivity). rewrite map_app, L. split; [reflexivity|].
    rewrite skipn_app, Lo, Nat.sub_diag, skipn_all2 by lia. reflexivity.
  - intros [H ->]. exists (firstn 8 n). split; [symmetry; apply firstn_skipn|]. apply letters_iff. rewrite <- firstn_map, H. reflexivity.
Qed.

(** ** Values have their type *)
Section E.
Variable (env : xenv) (discard : bool).
Definition typed (typ : Type_) (o : outcome Empty_set (option rvalue * list xerr)) : Prop :=
  match o with OK (Some v, _) => rtype v = typ | _ => True end.
Lemma getValue_typed t typ : typed typ (getValue env discard t typ).
Proof.
  unfold getValue. cbv zeta.
  repeat match goal with |- context [if (typ =? ?c)%N then ?x else _] => destruct (N.eqb_spec typ c) as [->|_] end.
  all: unfold get_int, invalid.
  all: repeat first [reflexivity | exact I | match goal with
    | |- context [getFrom ?a ?b ?c] => destruct (getFrom a b c) as [[|] ?]; cbn [negb andb]
    | |- context [get_vec3 env ?c] => destruct (get_vec3 env c) as [[|] ?]; cbn [negb andb]
    | |- context [get_vec2 env ?c] => destruct (get_vec2 env c) as [[|] [? ?]]; cbn [negb andb]
    | |- context [get_content ?d ?c] => destruct (get_content d c) as [[?|] ?]; cbn [option_map]
    | |- context [get_bool ?d ?c] => destruct (get_bool d c) as [[|]|]; cbn [option_map]
    | |- context [b64_decode ?c] => destruct (b64_decode c)
    | |- context [hex_decode ?c] => destruct (hex_decode c)
    | |- context [(?a <? 16)%nat] => destruct (a <? 16)%nat
    | |- context [fl_parse32 ?f ?c] => destruct (fl_parse32 f c)
    | |- context [fl_parse64 ?f ?c] => destruct (fl_parse64 f c)
    | |- context [ParseInt ?f ?c] => destruct (ParseInt f c)
    | |- context [ParseUint ?b ?f ?c] => destruct (ParseUint b f c)
    | |- context [scanGroups ?a ?b ?c ?d] => destruct (scanGroups a b c d)
    | |- context [scanFloats ?a ?b ?c] => destruct (scanFloats a b c) as [[[|? [|? [|? ?]]] ?]|]
    | |- context [nonempty ?c] => destruct (nonempty c)
    | |- context [vt ?v ?c] => destruct (vt v c)
    | |- context [if discard then _ else _] => destruct discard
    end].
Qed.
Definition read (typ : Type_) (t : tag) (v : rvalue) : Prop := exists w, getValue env discard t typ = OK (Some v, w).
Lemma read_type typ t v : read typ t v -> rtype v = typ.
Proof. intros (w & E). pose proof (getValue_typed t typ) as T. rewrite E in T. exact T. Qed.

(** ** Entries *)
Definition entry_of (t : tag) : option (bytes * entry) :=
  match attr_value (t_attr t) (str "name") with
  | None => None
  | Some n =>
      let '(typ, opt) := GetCanonType (t_start t) in
      match (if opt then getOptional env t typ else Some (Some t)) with
      | None => None
      | Some None => Some (n, Plain (mkNone typ))
      | Some (Some u) =>
          match getValue env discard u typ with
          | OK (Some v, _) =>
              match v with
              | RReference _ => if IsEmptyReference (getContent u) then Some (n, Plain (if opt then mkSome v else v)) else Some (n, Points (getContent u))
              | RSharedString k => Some (n, Shares k)
              | v => Some (n, Plain (if opt then mkSome v else v))
              end
          | _ => None
          end
      end
  end.
Lemma canon_plain n typ : of_type n typ -> GetCanonType n = (typ, false).
Proof. intros H. unfold GetCanonType. rewrite (of_type_plain _ _ H). apply of_type_iff in H. now rewrite H. Qed.
Lemma canon_opt n r : optional n r -> GetCanonType n = (match assocB canon_types (map lower r) with Some t => t | None => TypeInvalid end, true).
Proof. intros H. apply optional_iff in H as [H _]. unfold GetCanonType. now rewrite H. Qed.
Lemma canon_inv n typ opt : GetCanonType n = (typ, opt) ->
  if opt then exists r, optional n r /\ (of_type r typ \/ of_no_type r /\ typ = TypeInvalid) else of_type n typ \/ typ = TypeInvalid.
Proof.
  unfold GetCanonType. destruct (drop_prefix (str "optional") (map lower n)) as [r|] eqn:E.
  - intros H. apply pair_equal_spec in H as [H <-]. exists (skipn 8 n).
    assert (Er : r = map lower (skipn 8 n)). { apply drop_prefix_iff in E. rewrite <- skipn_map, E. reflexivity. }
    subst r. split; [now apply optional_iff|]. destruct (assocB _ _) as [t|] eqn:Ea; [left|right].
    + apply of_type_iff. congruence.
    + split; [now apply of_no_type_iff|congruence].
  - intros H. apply pair_equal_spec in H as [H <-]. destruct (assocB _ _) as [t|] eqn:Ea; [left|right; congruence]. apply of_type_iff. congruence.
Qed.
Lemma getOptional_inv t typ u : getOptional env t typ = Some u ->
  match u with None => t_tags t = [] | Some u => typ = TypeCFrame /\ first (str "CFrame") (t_tags t) u end.
Proof.
  unfold getOptional. destruct (t_tags t) as [|x l] eqn:Et; [intros H; apply Some_eq in H as <-; reflexivity|].
  destruct (N.eqb_spec typ TypeCFrame) as [->|_]; [|discriminate].
  destruct (getFrom _ _ t) as [[|] v] eqn:G; [|discriminate]. destruct (tags_iff (xe_fl env) ["CFrame"]%string t ltac:(distinct)) as [T _].
  destruct (T v G "CFrame"%string ltac:(cbn; tauto)) as (u' & V & F). rewrite V. intros H. apply Some_eq in H as <-. rewrite Et in F. now split.
Qed.
Lemma getOptional_first t u : first (str "CFrame") (t_tags t) u -> getOptional env t TypeCFrame = Some (Some u).
Proof.
  intros F. unfold getOptional. assert (N : t_tags t <> []) by (intros E; rewrite E in F; destruct F as ([|] & s & F & _); discriminate F).
  destruct (tags_iff (xe_fl env) ["CFrame"]%string t ltac:(distinct)) as [_ T]. destruct (T [u]) as (v & G & V); [repeat constructor; exact F|].
  destruct (t_tags t); [congruence|]. change (TypeCFrame =? TypeCFrame)%N with true. cbv iota. rewrite G. cbn [map] in V. injection V as ->. reflexivity.
Qed.
Lemma value_entry (n : bytes) v (X Y : option (bytes * entry)) (P : rvalue -> option (bytes * entry)) : rtype v <> TypeReference -> rtype v <> TypeSharedString ->
  match v with RReference _ => X | RSharedString k => Some (n, Shares k) | v => P v end = P v.
Proof. destruct v; cbn [rtype]; intros H1 H2; try reflexivity; contradiction. Qed.
Lemma gives_entry t n e : gives read t n e -> entry_of t = Some (n, e).
Proof.
  intros H. unfold entry_of. destruct H as [typ v N T N1 N2 R|c N T C E|c N T C E|k N T R|r u v N O T F R|r typ N O T F|r N O T F]; unfold named in N; rewrite N.
  - rewrite (canon_plain _ _ T). pose proof (read_type _ _ _ R) as Rt. destruct R as (w & ->). destruct v; cbn [rtype] in Rt; subst typ; try reflexivity; contradiction.
  - rewrite (canon_plain _ _ T). change (getValue env discard t TypeReference) with (@OK Empty_set _ (Some (RReference 0), @nil xerr)). cbv iota. apply contents_iff in C. rewrite C, E. reflexivity.
  - rewrite (canon_plain _ _ T). change (getValue env discard t TypeReference) with (@OK Empty_set _ (Some (RReference 0), @nil xerr)). cbv iota. apply contents_iff in C. rewrite C, E. reflexivity.
  - rewrite (canon_plain _ _ T). destruct R as (w & ->). reflexivity.
  - rewrite (canon_opt _ _ O). apply of_type_iff in T. rewrite T. rewrite (getOptional_first _ _ F). pose proof (read_type _ _ _ R) as Rt. destruct R as (w & ->).
    destruct v; cbn [rtype] in Rt; try discriminate Rt. reflexivity.
  - rewrite (canon_opt _ _ O). apply of_type_iff in T. rewrite T. unfold getOptional. now rewrite F.
  - rewrite (canon_opt _ _ O). apply of_no_type_iff in T. rewrite T. unfold getOptional. now rewrite F.
Qed.
Lemma entry_gives t n e : entry_of t = Some (n, e) -> gives read t n e.
Proof.
  unfold entry_of. destruct (attr_value (t_attr t) (str "name")) as [m|] eqn:N; [|discriminate].
  destruct (GetCanonType (t_start t)) as [typ opt] eqn:C. pose proof (canon_inv _ _ _ C) as I. destruct opt.
  - destruct I as (r & O & T). destruct (getOptional env t typ) as [[u|]|] eqn:G; [| |discriminate].
    + apply getOptional_inv in G as [-> F]. destruct T as [T|[_ T]]; [|discriminate T].
      destruct (getValue env discard u TypeCFrame) as [[[v|] w]| | |] eqn:V; try discriminate.
      assert (R : read TypeCFrame u v) by now exists w. pose proof (read_type _ _ _ R) as Rt. intros H.
      assert (H' : Some (m, Plain (mkSome v)) = Some (n, e)) by (destruct v; cbn [rtype] in Rt; try discriminate Rt; exact H). injection H' as <- <-.
      unfold mkSome. rewrite Rt. eapply G_some; eauto.
    + apply getOptional_inv in G. intros H. injection H as <- <-. destruct T as [T|[T ->]]; [eapply G_none; eauto|eapply G_none_unknown; eauto].
  - destruct I as [T| ->]; [|discriminate].
    destruct (getValue env discard t typ) as [[[v|] w]| | |] eqn:V; try discriminate.
    assert (R : read typ t v) by now exists w. pose proof (read_type _ _ _ R) as Rt.
    destruct (N.eq_dec typ TypeReference) as [->|N1]; [|destruct (N.eq_dec typ TypeSharedString) as [->|N2]].
    + destruct v; cbn [rtype] in Rt; try discriminate Rt. change (getValue env discard t TypeReference) with (@OK Empty_set _ (Some (RReference 0), @nil xerr)) in V. injection V as <- <-.
      destruct (IsEmptyReference (getContent t)) eqn:E; intros H; injection H as <- <-.
      * eapply G_no_ref; eauto. now apply contents_iff.
      * eapply G_ref; eauto. now apply contents_iff.
    + destruct v; cbn [rtype] in Rt; try discriminate Rt. intros H. injection H as <- <-. now apply G_shared.
    + intros H. assert (H' : Some (m, Plain v) = Some (n, e)) by (destruct v; cbn [rtype] in Rt; subst typ; try contradiction; exact H). injection H' as <- <-. eapply G_value; eauto.
Qed.
Lemma gives_iff t n e : gives read t n e <-> entry_of t = Some (n, e).
Proof. split; [apply gives_entry|apply entry_gives]. Qed.

(** Properties put, references and shared strings put off. *)
Definition plain_of (t : tag) : option (bytes * rvalue) := match entry_of t with Some (n, Plain v) => Some (n, v) | _ => None end.
Definition points_of (p : ptr) (t : tag) : list propref := match entry_of t with Some (n, Points r) => [PropRef p n r] | _ => [] end.
Definition shares_of (p : ptr) (t : tag) : list propref := match entry_of t with Some (n, Shares k) => [PropRef p n k] | _ => [] end.
Lemma getProperty_entry t p s r s' : getProperty env discard t p s = OK (r, s') ->
  r = plain_of t /\ rd_heap s' = rd_heap s /\ rd_look s' = rd_look s /\ rd_props s' = rd_props s ++ points_of p t /\ rd_strs s' = rd_strs s ++ shares_of p t.
Proof.
  unfold getProperty, plain_of, points_of, shares_of, entry_of. destruct (attr_value (t_attr t) (str "name")) as [m|].
  2:{ intros H. apply OK_pair' in H as [<- <-]. now rewrite !app_nil_r. }
  destruct (GetCanonType (t_start t)) as [typ opt].
  destruct (if opt then getOptional env t typ else Some (Some t)) as [[u|]|].
  2,3: intros H; apply OK_pair' in H as [<- <-]; now rewrite !app_nil_r.
  destruct (getValue env discard u typ) as [[[v|] w]| | |]; cbn [obind]; try discriminate.
  2:{ intros H. apply OK_pair' in H as [<- <-]. cbn [rd_warns rd_heap rd_look rd_props rd_strs]. now rewrite !app_nil_r. }
  destruct v; try (intros H; apply OK_pair' in H as [<- <-]; cbn [rd_warns rd_heap rd_look rd_props rd_strs]; now rewrite ?app_nil_r).
  destruct (IsEmptyReference (getContent u)); intros H; apply OK_pair' in H as [<- <-]; cbn [rd_warns rd_heap rd_look rd_props rd_strs]; now rewrite ?app_nil_r.
Qed.
Definition put_plain (props : list (bytes * rvalue)) (t : tag) := match plain_of t with Some (n, v) => mset props n v | None => props end.
Lemma get_props_entries p tags : forall props s props' s', get_props env discard p tags props s = OK (props', s') ->
  props' = fold_left put_plain tags props /\ rd_heap s' = rd_heap s /\ rd_look s' = rd_look s /\
  rd_props s' = rd_props s ++ flat_map (points_of p) tags /\ rd_strs s' = rd_strs s ++ flat_map (shares_of p) tags.
Proof.
  induction tags as [|t tags IH]; intros props s props' s' H; cbn [get_props] in H.
  - apply OK_pair' in H as [<- <-]. cbn. now rewrite !app_nil_r.
  - destruct (getProperty env discard t p s) as [[r s1]| | |] eqn:E; cbn [obind] in H; try discriminate H. apply getProperty_entry in E as (-> & E1 & E2 & E3 & E4).
    apply IH in H as (-> & F1 & F2 & F3 & F4). cbn [fold_left flat_map]. rewrite F3, F4, E3, E4, <- !app_assoc. repeat split; congruence.
Qed.

(** ** The instances, in order *)
Notation len s := (length (rd_heap s)).
Definition at_ (p : ptr) (l : list propref) : list propref := filter (fun e => pr_inst e =? p)%nat l.
Definition item_at (n : nat) (L : list tag) (p : ptr) : list tag :=
  if (p <=? n)%nat then [] else match nth_error L (p - n - 1) with Some u => prop_tags u | None => [] end.
Fixpoint look_add (n : nat) (L : list tag) (m : refmap) : refmap :=
  match L with [] => m | u :: L => look_add (S n) L (if IsEmptyReference (referent u) then m else mset m (referent u) (S n)) end.
Record step (par : ptr) (own : list tag) (L : list tag) (s s' : rdst) : Prop := Step {
  st_len : len s' = len s + length L;
  st_old : forall p, p <= len s -> hget (rd_heap s') p = hget (rd_heap s) p;
  st_new : forall k u, nth_error L k = Some u -> exists i, hget (rd_heap s') (len s + S k) = Some i /\ i_props i = fold_left put_plain (prop_tags u) [];
  st_look : rd_look s' = look_add (len s) L (rd_look s);
  st_props : forall p, at_ p (rd_props s') = at_ p (rd_props s) ++ flat_map (points_of p) (if (p =? par)%nat then own else item_at (len s) L p);
  st_strs : forall p, at_ p (rd_strs s') = at_ p (rd_strs s) ++ flat_map (shares_of p) (if (p =? par)%nat then own else item_at (len s) L p) }.
Lemma item_at_nil n p : item_at n [] p = [].
Proof. unfold item_at. destruct (p <=? n)%nat; [reflexivity|]. now destruct (p - n - 1). Qed.
Lemma step_refl par s : step par [] [] s s.
Proof.
  constructor; [cbn; lia|reflexivity|intros [|k] u H; discriminate H|reflexivity| |]; intros p; destruct (p =? par)%nat; rewrite ?item_at_nil; cbn; now rewrite app_nil_r.
Qed.
Lemma item_at_app n L1 L2 p : item_at n (L1 ++ L2) p = item_at n L1 p ++ item_at (n + length L1) L2 p.
Proof.
  unfold item_at. destruct (Nat.leb_spec p n) as [A|A].
  - destruct (Nat.leb_spec p (n + length L1)); [reflexivity|lia].
  - destruct (Nat.leb_spec p (n + length L1)) as [B|B].
    + rewrite nth_error_app1 by lia. now rewrite app_nil_r.
    + rewrite nth_error_app2 by lia. replace (nth_error L1 (p - n - 1)) with (@None tag) by (symmetry; apply nth_error_None; lia).
      cbn [app]. now replace (p - n - 1 - length L1) with (p - (n + length L1) - 1) by lia.
Qed.
Lemma look_app L1 : forall n L2 m, look_add n (L1 ++ L2) m = look_add (n + length L1) L2 (look_add n L1 m).
Proof. induction L1 as [|u L1 IH]; intros n L2 m; cbn [look_add app length]; [now rewrite Nat.add_0_r|]. rewrite IH. f_equal. lia. Qed.
Lemma step_trans par o1 o2 L1 L2 s s1 s2 : step par o1 L1 s s1 -> step par o2 L2 s1 s2 -> step par (o1 ++ o2) (L1 ++ L2) s s2.
Proof.
  intros [A1 A2 A3 A4 A5 A6] [B1 B2 B3 B4 B5 B6]. constructor.
  - rewrite app_length. lia.
  - intros p Hp. rewrite B2 by lia. now apply A2.
  - intros k u H. destruct (Nat.lt_ge_cases k (length L1)) as [K|K].
    + rewrite nth_error_app1 in H by exact K. rewrite B2 by lia. now apply A3.
    + rewrite nth_error_app2 in H by exact K. destruct (B3 _ _ H) as (i & Hi & E). exists i. split; [|exact E]. rewrite <- Hi. f_equal. lia.
  - rewrite look_app, B4, A4, A1. reflexivity.
  - intros p. rewrite B5, A5, <- app_assoc, <- flat_map_app. do 2 f_equal. destruct (p =? par)%nat; [reflexivity|]. now rewrite item_at_app, A1.
  - intros p. rewrite B6, A6, <- app_assoc, <- flat_map_app. do 2 f_equal. destruct (p =? par)%nat; [reflexivity|]. now rewrite item_at_app, A1.
Qed.
Lemma step_par par L s s' : par <= len s -> step 0 [] L s s' -> step par [] L s s'.
Proof.
  intros Hp [A1 A2 A3 A4 A5 A6].
  assert (Z : forall p, (if (p =? 0)%nat then [] else item_at (len s) L p) = (if (p =? par)%nat then [] else item_at (len s) L p)).
  { intros p. destruct (Nat.eqb_spec p par) as [E|_]; [|destruct (Nat.eqb_spec p 0) as [->|_]; reflexivity].
    destruct (p =? 0)%nat; [reflexivity|]. unfold item_at. now destruct (Nat.leb_spec p (len s)); [|lia]. }
  constructor; try assumption; intros p; rewrite <- Z; [apply A5|apply A6].
Qed.
Lemma at_app p l l' : at_ p (l ++ l') = at_ p l ++ at_ p l'. Proof. apply filter_app. Qed.
Lemma at_points p q tags : at_ p (flat_map (points_of q) tags) = if (p =? q)%nat then flat_map (points_of p) tags else [].
Proof.
  induction tags as [|t tags IH]; cbn [flat_map]; [now destruct (p =? q)%nat|]. rewrite at_app, IH. unfold points_of. rewrite (Nat.eqb_sym p q).
  destruct (entry_of t) as [[n [v|r|k]]|]; cbn [at_ filter pr_inst]; try (destruct (Nat.eqb_spec q p) as [->|_]; reflexivity).
Qed.
Lemma at_shares p q tags : at_ p (flat_map (shares_of q) tags) = if (p =? q)%nat then flat_map (shares_of p) tags else [].
Proof.
  induction tags as [|t tags IH]; cbn [flat_map]; [now destruct (p =? q)%nat|]. rewrite at_app, IH. unfold shares_of. rewrite (Nat.eqb_sym p q).
  destruct (entry_of t) as [[n [v|r|k]]|]; cbn [at_ filter pr_inst]; try (destruct (Nat.eqb_spec q p) as [->|_]; reflexivity).
Qed.
Lemma step_props par tags props s props' s' : get_props env discard par tags props s = OK (props', s') ->
  step par tags [] s s' /\ props' = fold_left put_plain tags props.
Proof.
  intros H. apply get_props_entries in H as (-> & H1 & H2 & H3 & H4). split; [|reflexivity]. constructor.
  - rewrite H1. cbn. lia.
  - now rewrite H1.
  - intros [|k] u H; discriminate H.
  - exact H2.
  - intros p. rewrite H3, at_app, at_points. destruct (p =? par)%nat; [reflexivity|]. now rewrite item_at_nil.
  - intros p. rewrite H4, at_app, at_shares. destruct (p =? par)%nat; [reflexivity|]. now rewrite item_at_nil.
Qed.
Definition steps (t : tag) : Prop := forall s r s', t_start t = str "Item" -> get_item env discard t s = OK (r, s') -> step 0 [] (all_items t) s s'.
Lemma all_items_other t : t_start t <> str "Item" -> all_items t = [].
Proof. intros H. destruct t. cbn [all_items]. unfold is_item. cbn [t_start t_attr]. destruct (beqb_spec start (str "Item")) as [E|_]; [now cbn in H|]. reflexivity. Qed.
Lemma items_step par tags : Forall steps tags -> forall has props insts s insts' props' s', par <= len s ->
  items_loop env discard (get_item env discard) par tags has props insts s = OK (insts', props', s') ->
  step par (own par has tags) (doc_items tags) s s' /\ props' = fold_left put_plain (own par has tags) props.
Proof.
  induction 1 as [|t tags Ht _ IH]; intros has props insts s insts' props' s' Hp E; cbn [items_loop] in E.
  - apply OK_pair' in E as [E <-]. apply pair_equal_spec in E as [_ <-]. replace (own par has []) with (@nil tag) by (unfold own; now destruct (has || (par =? 0)%nat)).
    split; [apply step_refl|reflexivity].
  - unfold doc_items. cbn [flat_map]. destruct (beqb_spec (t_start t) (str "Item")) as [Ei|Ei].
    + assert (Hown : own par has (t :: tags) = own par has tags).
      { unfold own, ptags. cbn [find]. destruct (beqb_spec (t_start t) (str "Properties")) as [E'|_]; [|reflexivity]. rewrite E' in Ei. discriminate Ei. }
      rewrite Hown. apply bind_OK in E as ([r s1] & E1 & E). pose proof (Ht _ _ _ Ei E1) as S1.
      apply IH in E as [S2 ->]; [|rewrite (st_len _ _ _ _ _ S1); lia]. split; [|reflexivity].
      change (own par has tags) with ([] ++ own par has tags). eapply step_trans; [apply step_par; [exact Hp|exact S1]|exact S2].
    + rewrite (all_items_other _ Ei). cbn [app]. destruct (bytes_eqb (t_start t) (str "Properties")) eqn:Ep.
      * destruct (has || (par =? 0)%nat) eqn:Eh.
        -- assert (Ho : forall l, own par has l = []) by (intros l; unfold own; now rewrite Eh). rewrite Ho. apply IH in E; [|exact Hp]. now rewrite Ho in E.
        -- assert (Ho : own par has (t :: tags) = t_tags t) by (unfold own, ptags; cbn [find]; now rewrite Eh, Ep). rewrite Ho.
           apply bind_OK in E as ([props1 s1] & E1 & E). apply step_props in E1 as [S1 ->]. apply IH in E as [S2 ->]; [|rewrite (st_len _ _ _ _ _ S1); cbn; lia].
           change (own par true tags) with (@nil tag) in *. split; [|reflexivity]. rewrite <- (app_nil_r (t_tags t)). change (flat_map all_items tags) with ([] ++ doc_items tags). eapply step_trans; eassumption.
      * assert (Ho : own par has (t :: tags) = own par has tags) by (unfold own, ptags; cbn [find]; now rewrite Ep). rewrite Ho. now apply IH in E.
Qed.
Lemma item_steps t : steps t.
Proof.
  induction t as [start end_ attr empty comment cdata tx noind tags IH] using tag_ind'. intros s r s' Es E. cbn [t_start] in Es. subst start. cbn [get_item] in E.
  cbn [all_items]. unfold is_item. cbn [t_start t_attr]. change (bytes_eqb (str "Item") (str "Item")) with true. cbn [andb].
  destruct (attr_value attr (str "class")) as [class|] eqn:Ec.
  2:{ apply OK_pair' in E as [_ <-]. destruct (step_refl 0 s) as [A1 A2 A3 A4 A5 A6]. constructor; assumption. }
  fold (doc_items tags). apply bind_OK in E as ([[ch props] s1] & E1 & E). apply OK_pair' in E as [_ <-].
  apply (items_step _ _ IH) in E1 as [[A1 A2 A3 A4 A5 A6] Ep].
  2:{ cbn [rd_heap]. rewrite app_length. cbn. lia. }
  change (own (S (len s)) false tags) with (prop_tags (Tag (str "Item") end_ attr empty comment cdata tx noind tags)) in *.
  set (t := Tag (str "Item") end_ attr empty comment cdata tx noind tags) in *. cbn [rd_heap rd_look rd_props rd_strs] in *. rewrite app_length in *. cbn [length] in *.
  assert (IA : forall q, q <> S (len s) -> item_at (len s + 1) (doc_items tags) q = item_at (len s) (t :: doc_items tags) q).
  { intros q Hq. unfold item_at. destruct (Nat.leb_spec q (len s + 1)); destruct (Nat.leb_spec q (len s)); try reflexivity; try lia.
    replace (q - len s - 1) with (S (q - (len s + 1) - 1)) by lia. reflexivity. }
  assert (IB : item_at (len s) (t :: doc_items tags) (S (len s)) = prop_tags t).
  { unfold item_at. destruct (Nat.leb_spec (S (len s)) (len s)); [lia|]. replace (S (len s) - len s - 1) with 0 by lia. reflexivity. }
  assert (IC : forall q, (if (q =? S (len s))%nat then prop_tags t else item_at (len s + 1) (doc_items tags) q) = (if (q =? 0)%nat then [] else item_at (len s) (t :: doc_items tags) q)).
  { intros q. destruct (Nat.eqb_spec q (S (len s))) as [->|Hq]; [cbn [Nat.eqb]; now rewrite IB|]. destruct (Nat.eqb_spec q 0) as [->|_]; [reflexivity|now apply IA]. }
  constructor; cbn [rd_heap rd_look rd_props rd_strs length].
  - rewrite hset_length, A1. lia.
  - intros p Hp. rewrite hget_hset. destruct (Nat.eqb_spec p (S (len s))); [lia|]. rewrite A2 by lia. now apply hget_app.
  - intros [|k] u H.
    + cbn [nth_error] in H. apply Some_eq in H as <-. rewrite Nat.add_1_r, hget_hset, Nat.eqb_refl. destruct (hget_range (rd_heap s1) (S (len s))) as [x ->]; [lia|].
      eexists. split; [reflexivity|]. cbn [i_props]. exact Ep.
    + cbn [nth_error] in H. destruct (A3 _ _ H) as (i & Hi & E). exists i. split; [|exact E]. rewrite hget_hset. destruct (Nat.eqb_spec (len s + S (S k)) (S (len s))); [lia|].
      rewrite <- Hi. f_equal. lia.
  - rewrite A4. cbn [look_add]. now rewrite Nat.add_1_r.
  - intros p. now rewrite A5, IC.
  - intros p. now rewrite A6, IC.
Qed.
End E.
