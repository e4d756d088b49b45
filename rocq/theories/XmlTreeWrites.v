(** XmlTreeWrites.v - what is put into the instances at the end, as lists. *)
From Verif Require Import Base RbxlValues RbxValues Tree SpecTree XmlText XmlDoc XmlTotal XmlCodec SpecBase64 PropBase64 SpecXmlText SpecXmlRead SpecXmlDecode SpecXmlTree
  TreeProofs RbxlFileProofs XmlLayout XmlGrammar XmlTreeEnc XmlReadProofs XmlReadValues PropXmlDecode XmlTreeRead.
Local Notation string := String.string.

(** ** Lists of writes *)
Definition msets {A} (m : list (bytes * A)) (W : list (bytes * A)) := fold_left (fun m e => mset m (fst e) (snd e)) W m.
Lemma msets_app {A} (m : list (bytes * A)) W W' : msets m (W ++ W') = msets (msets m W) W'.
Proof. apply fold_left_app. Qed.
Definition no_key {A} (n : bytes) (W : list (bytes * A)) : Prop := forall v, ~ In (n, v) W.
Lemma last_write {A} (W : list (bytes * A)) m n v : mfind (msets m W) n = Some v <->
  (exists a b, W = a ++ (n, v) :: b /\ no_key n b) \/ (no_key n W /\ mfind m n = Some v).
Proof.
  induction W as [|[k x] W IH] using rev_ind.
  - cbn. split; [intros H; right; split; [intros w []|exact H]|]. intros [([|] & b & E & _)|[_ H]]; [discriminate E|discriminate E|exact H].
  - rewrite msets_app. cbn [msets fold_left fst snd]. rewrite mfind_mset. destruct (beqb_spec k n) as [->|Hk].
    + split.
      * intros H. apply Some_eq in H as ->. left. exists W, []. split; [reflexivity|intros w []].
      * intros [(a & b & E & N)|[N _]]; [|exfalso; apply (N x); apply in_app_iff; right; now left].
        destruct b as [|y b] using rev_ind; [apply app_inj_tail in E as [_ E]; congruence|]. clear IHb.
        exfalso. rewrite app_comm_cons, app_assoc in E. apply app_inj_tail in E as [_ <-]. apply (N x). apply in_app_iff. right. now left.
    + rewrite IH. split; (intros [(a & b & E & N)|[N H]]; [left|right]).
      * exists a, (b ++ [(k, x)]). split; [rewrite E, <- app_assoc; reflexivity|]. intros w Hw. apply in_app_iff in Hw as [Hw|[Hw|[]]]; [exact (N w Hw)|congruence].
      * split; [|exact H]. intros w Hw. apply in_app_iff in Hw as [Hw|[Hw|[]]]; [exact (N w Hw)|congruence].
      * destruct b as [|y b] using rev_ind; [apply app_inj_tail in E as [_ E]; congruence|]. clear IHb.
        rewrite app_comm_cons, app_assoc in E. apply app_inj_tail in E as [E <-]. exists a, b. split; [exact E|]. intros w Hw. apply (N w). apply in_app_iff. now left.
      * split; [|exact H]. intros w Hw. apply (N w). apply in_app_iff. now left.
Qed.
Lemma msets_keys {A} (W : list (bytes * A)) : forall m, NoDup (map fst m) -> NoDup (map fst (msets m W)).
Proof. induction W as [|e W IH]; intros m H; [exact H|]. apply IH. now apply mset_keys. Qed.
Lemma In_iff_mfind {A} (m : list (bytes * A)) n v : NoDup (map fst m) -> (In (n, v) m <-> mfind m n = Some v).
Proof. intros H. split; [now apply In_mfind|apply mfind_In]. Qed.
(** A list with at most one element for each. *)
Lemma flat_map_split {A B} (f : A -> list B) : (forall a, length (f a) <= 1) -> forall l a x b,
  flat_map f l = a ++ x :: b <-> exists la t lb, l = la ++ t :: lb /\ f t = [x] /\ flat_map f la = a /\ flat_map f lb = b.
Proof.
  intros Hf l a x b. split.
  - revert a. induction l as [|t l IH]; intros a H; cbn [flat_map] in H; [now destruct a|]. pose proof (Hf t) as L. destruct (f t) as [|y [|z r]] eqn:E; cbn in L; [| |lia].
    + destruct (IH a H) as (la & u & lb & -> & E1 & E2 & E3). exists (t :: la), u, lb. split; [reflexivity|]. split; [exact E1|]. split; [|exact E3]. cbn [flat_map]. now rewrite E.
    + cbn [app] in H. destruct a as [|y' a]; cbn [app] in H.
      * apply (f_equal (fun l => match l with [] => (y, l) | h :: r => (h, r) end)) in H as H'. cbv beta iota in H'. apply pair_equal_spec in H' as [-> H2]. exists [], t, l. now rewrite E.
      * apply (f_equal (fun l => match l with [] => (y, l) | h :: r => (h, r) end)) in H as H'. cbv beta iota in H'. apply pair_equal_spec in H' as [<- H2].
        destruct (IH a H2) as (la & u & lb & -> & E1 & E2 & E3). exists (t :: la), u, lb. split; [reflexivity|]. split; [exact E1|]. split; [|exact E3]. cbn [flat_map]. now rewrite E, E2.
  - intros (la & t & lb & -> & E1 & <- & <-). rewrite flat_map_app. cbn [flat_map]. now rewrite E1.
Qed.

(** ** The writes into a heap *)
Definition write := (ptr * bytes * rvalue)%type.
Definition put (h : heap) (w : write) : heap := set_prop h (fst (fst w)) (snd (fst w)) (snd w).
Definition puts (h : heap) (W : list write) : heap := fold_left put W h.
Definition for_ (p : ptr) (W : list write) : list (bytes * rvalue) := flat_map (fun w => if (fst (fst w) =? p)%nat then [(snd (fst w), snd w)] else []) W.
Lemma puts_app h W W' : puts h (W ++ W') = puts (puts h W) W'. Proof. apply fold_left_app. Qed.
Lemma puts_get W : forall h p i, hget h p = Some i -> hget (puts h W) p = Some (set_props i (msets (i_props i) (for_ p W))).
Proof.
  induction W as [|[[q n] v] W IH]; intros h p i H; cbn [puts fold_left for_ flat_map].
  - cbn. rewrite H. now destruct i.
  - fold (puts (put h (q, n, v)) W). unfold put. cbn [fst snd]. unfold set_prop. destruct (Nat.eqb_spec q p) as [->|Hq].
    + rewrite H. rewrite (IH _ _ (set_props i (mset (i_props i) n v))); [reflexivity|]. now rewrite hget_hset, Nat.eqb_refl, H.
    + rewrite (IH _ _ i); [reflexivity|]. destruct (hget h q); [|exact H]. rewrite hget_hset. destruct (Nat.eqb_spec p q); [congruence|exact H].
Qed.
Definition shared_def (t : tag) : list (bytes * bytes) :=
  if bytes_eqb (t_start t) (str "SharedString") then
    match attr_value (t_attr t) (str "md5") with
    | None => []
    | Some hash => match b64_decode hash, b64_decode (getContent t) with Some k, Some v => [(k, v)] | _, _ => [] end
    end
  else [].
Definition defs_of (tags : list tag) : list (bytes * bytes) :=
  flat_map (fun t => if bytes_eqb (t_start t) (str "SharedStrings") then flat_map shared_def (t_tags t) else []) tags.
Definition shared_write (strs : list propref) (d : bytes * bytes) : list write :=
  flat_map (fun e => if bytes_eqb (pr_ref e) (fst d) then [(pr_inst e, pr_prop e, RSharedString (snd d))] else []) strs.
Lemma shared_tag_puts strs t h : shared_tag strs t h = puts h (flat_map (shared_write strs) (shared_def t)).
Proof.
  unfold shared_tag, shared_def. destruct (bytes_eqb _ _); [|reflexivity]. destruct (attr_value _ _) as [hash|]; [|reflexivity].
  destruct (b64_decode hash) as [k|]; [|reflexivity]. destruct (b64_decode (getContent t)) as [v|]; [|reflexivity]. cbn [flat_map]. rewrite app_nil_r.
  unfold shared_write. cbn [fst snd]. revert h. induction strs as [|e strs IH]; intros h; [reflexivity|]. cbn [fold_left flat_map]. rewrite puts_app, <- IH. now destruct (bytes_eqb (pr_ref e) k).
Qed.
Definition meta_of (t : tag) : list (bytes * bytes) :=
  if bytes_eqb (t_start t) (str "Meta") then match attr_value (t_attr t) (str "name") with Some k => [(k, t_text t)] | None => [] end else [].
Lemma root_tags_puts strs tags : forall md h, root_tags strs tags md h = (msets md (flat_map meta_of tags), puts h (flat_map (shared_write strs) (defs_of tags))).
Proof.
  induction tags as [|t tags IH]; intros md h; [reflexivity|]. cbn [root_tags]. unfold defs_of. cbn [flat_map]. unfold meta_of at 1.
  destruct (beqb_spec (t_start t) (str "Meta")) as [E|E].
  - rewrite E. change (bytes_eqb (str "Meta") (str "SharedStrings")) with false. cbv iota. cbn [app]. rewrite IH, msets_app. now destruct (attr_value _ _).
  - cbn [app]. destruct (bytes_eqb (t_start t) (str "SharedStrings")); rewrite IH; [|reflexivity]. f_equal. fold (defs_of tags). rewrite flat_map_app, puts_app. f_equal. clear.
    revert h. induction (t_tags t) as [|u l IH]; intros h; [reflexivity|]. cbn [fold_left flat_map]. rewrite IH, shared_tag_puts, flat_map_app, puts_app. reflexivity.
Qed.
Lemma resolve_puts lk l : forall h, fold_left (fun h e => fst (Resolve (Some lk) h e)) l h = puts h (map (fun e => (pr_inst e, pr_prop e, RReference (rget lk (pr_ref e)))) l).
Proof.
  induction l as [|e l IH]; intros h; [reflexivity|]. cbn [fold_left map]. rewrite IH.
  transitivity (puts (put h (pr_inst e, pr_prop e, RReference (rget lk (pr_ref e)))) (map (fun e => (pr_inst e, pr_prop e, RReference (rget lk (pr_ref e)))) l)); [|reflexivity].
  f_equal. unfold put, Resolve, set_prop. cbn [fst snd]. now destruct (hget h (pr_inst e)).
Qed.
Lemma for_cons p w W : for_ p (w :: W) = for_ p [w] ++ for_ p W.
Proof. unfold for_. cbn [flat_map]. now rewrite app_nil_r. Qed.
Lemma for_app p W W' : for_ p (W ++ W') = for_ p W ++ for_ p W'. Proof. apply flat_map_app. Qed.
Lemma for_shared p strs defs : for_ p (flat_map (shared_write strs) defs) =
  flat_map (fun d => flat_map (fun e => if bytes_eqb (pr_ref e) (fst d) then [(pr_prop e, RSharedString (snd d))] else []) (at_ p strs)) defs.
Proof.
  induction defs as [|d defs IH]; [reflexivity|]. cbn [flat_map]. rewrite for_app, IH. f_equal. clear. unfold shared_write.
  induction strs as [|e strs IH]; [reflexivity|]. cbn [flat_map]. rewrite for_app, IH. change (at_ p (e :: strs)) with (if (pr_inst e =? p)%nat then e :: at_ p strs else at_ p strs).
  destruct (bytes_eqb (pr_ref e) (fst d)) eqn:E; cbn [for_ flat_map fst snd app]; destruct (pr_inst e =? p)%nat; cbn [app flat_map]; rewrite ?E; reflexivity.
Qed.
Lemma for_resolved p lk l : for_ p (map (fun e => (pr_inst e, pr_prop e, RReference (rget lk (pr_ref e)))) l) = map (fun e => (pr_prop e, RReference (rget lk (pr_ref e)))) (at_ p l).
Proof.
  induction l as [|e l IH]; [reflexivity|]. cbn [map]. change (at_ p (e :: l)) with (if (pr_inst e =? p)%nat then e :: at_ p l else at_ p l).
  rewrite for_cons, IH. cbn [for_ flat_map fst snd]. now destruct (pr_inst e =? p)%nat.
Qed.

(** ** Definitions of shared strings *)
Lemma defines_iff ts l : defines ts l <-> l = flat_map shared_def ts.
Proof.
  split.
  - intros H. induction H as [|t ts a k c v l E Ea Ek C Ev _ IH|t ts l N _ IH]; [reflexivity| |]; cbn [flat_map]; rewrite IH; unfold shared_def at 2.
    + rewrite E. change (bytes_eqb (str "SharedString") (str "SharedString")) with true. cbv iota. rewrite Ea. apply contents_iff in C. apply C98_decode in Ek, Ev. rewrite Ek, C, Ev. reflexivity.
    + destruct (beqb_spec (t_start t) (str "SharedString")) as [E|_]; [|reflexivity]. destruct (attr_value _ _) as [a|] eqn:Ea; [|reflexivity].
      destruct (b64_decode a) as [k|] eqn:Ek; [|reflexivity]. destruct (b64_decode (getContent t)) as [v|] eqn:Ev; [|reflexivity].
      exfalso. apply C98_decode in Ek, Ev. apply (N E a k (getContent t) v eq_refl Ek); [now apply contents_iff|exact Ev].
  - intros ->. induction ts as [|t ts IH]; [constructor|]. cbn [flat_map]. unfold shared_def at 1.
    destruct (beqb_spec (t_start t) (str "SharedString")) as [E|N]; [|apply Def_other; [intros E; contradiction|exact IH]].
    destruct (attr_value (t_attr t) (str "md5")) as [a|] eqn:Ea; [|apply Def_other; [intros _ a k c v H; congruence|exact IH]].
    destruct (b64_decode a) as [k|] eqn:Ek; [|apply Def_other; [intros _ a' k c v H H2; apply C98_decode in H2; congruence|exact IH]].
    destruct (b64_decode (getContent t)) as [v|] eqn:Ev; [|apply Def_other; [intros _ a' k' c v H1 H2 C H3; apply contents_iff in C; apply C98_decode in H2, H3; congruence|exact IH]].
    apply C98_decode in Ek, Ev. eapply Def_one; eauto. now apply contents_iff.
Qed.
Lemma shared_strings_iff ts l : shared_strings ts l <-> l = defs_of ts.
Proof.
  unfold defs_of. split.
  - intros H. induction H as [|t ts l l' E D _ IH|t ts l N _ IH]; [reflexivity| |]; cbn [flat_map]; rewrite IH.
    + apply defines_iff in D as ->. now destruct (beqb_spec (t_start t) (str "SharedStrings")).
    + now destruct (beqb_spec (t_start t) (str "SharedStrings")).
  - intros ->. induction ts as [|t ts IH]; [constructor|]. cbn [flat_map]. destruct (beqb_spec (t_start t) (str "SharedStrings")) as [E|N]; [|now apply Shs_other].
    apply Shs_tag; [exact E|now apply defines_iff|exact IH].
Qed.
(** ** Metadata *)
Lemma metadata_iff root k v : In (k, v) (msets [] (flat_map meta_of root)) <-> metadata root k v.
Proof.
  rewrite In_iff_mfind by (apply msets_keys; constructor). rewrite last_write.
  assert (L : forall t, length (meta_of t) <= 1) by (intros t; unfold meta_of; destruct (bytes_eqb _ _); [destruct (attr_value _ _)|]; cbn; lia).
  assert (M : forall t k v, meta_of t = [(k, v)] <-> t_start t = str "Meta" /\ named t k /\ t_text t = v).
  { intros t k' v'. unfold meta_of, named. destruct (beqb_spec (t_start t) (str "Meta")) as [E|E]; [|split; [discriminate|now intros (E' & _)]].
    destruct (attr_value _ _) as [a|]; [|split; [discriminate|intros (_ & H & _); discriminate H]]. split; [intros H; injection H as -> ->; now repeat split|]. intros (_ & H & ->). apply Some_eq in H as ->. reflexivity. }
  split.
  - intros [(a & b & E & N)|[_ H]]; [|discriminate H]. apply (flat_map_split _ L) in E as (la & t & lb & -> & E1 & _ & <-). apply M in E1 as (E1 & E2 & E3).
    apply (Meta _ _ _ la t lb eq_refl E1 E2 E3). intros u Hu Eu Nu. apply (N (t_text u)). apply in_flat_map. exists u. split; [exact Hu|]. assert (X : meta_of u = [(k, t_text u)]) by now apply M. rewrite X. now left.
  - intros [a t b -> E1 E2 E3 N]. left. exists (flat_map meta_of a), (flat_map meta_of b). split.
    + rewrite flat_map_app. cbn [flat_map]. assert (X : meta_of t = [(k, v)]) by now apply M. now rewrite X.
    + intros w Hw. apply in_flat_map in Hw as (u & Hu & Hw). pose proof (L u) as Lu. destruct (meta_of u) as [|x [|y r]] eqn:Eu; cbn in Lu; [destruct Hw| |lia].
      destruct Hw as [->|[]]. apply M in Eu as (U1 & U2 & _). exact (N u Hu U1 U2).
Qed.
(** ** References *)
Lemma look_find L : forall n m r, IsEmptyReference r = false -> forall q, mfind (look_add n L m) r = Some q <->
  (exists a t b, L = a ++ t :: b /\ referent t = r /\ Forall (fun u => referent u <> r) b /\ q = S (n + length a)) \/ (Forall (fun u => referent u <> r) L /\ mfind m r = Some q).
Proof.
  induction L as [|u L IH]; intros n m r Hr q; cbn [look_add].
  - split; [intros H; right; now split|]. intros [([|x a] & t & b & E & _)|[_ H]]; [discriminate E|discriminate E|exact H].
  - rewrite IH by exact Hr. split.
    + intros [(a & t & b & -> & E & F & ->)|[F H]].
      * left. exists (u :: a), t, b. split; [reflexivity|]. split; [exact E|]. split; [exact F|]. cbn [length]. lia.
      * destruct (IsEmptyReference (referent u)) eqn:Eu.
        -- right. split; [constructor; [congruence|exact F]|exact H].
        -- rewrite mfind_mset in H. destruct (beqb_spec (referent u) r) as [E|E]; [|right; split; [now constructor|exact H]].
           left. exists [], u, L. split; [reflexivity|]. split; [exact E|]. split; [exact F|]. apply Some_eq in H. cbn. lia.
    + intros [(a & t & b & E & Et & F & ->)|[F H]].
      * destruct a as [|x a]; cbn [app] in E.
        -- injection E as -> ->. right. split; [exact F|]. rewrite Et, Hr, mfind_mset, bytes_eqb_refl. cbn. now rewrite Nat.add_0_r.
        -- injection E as -> ->. left. exists a, t, b. split; [reflexivity|]. split; [exact Et|]. split; [exact F|]. cbn [length]. lia.
      * inversion F as [|? ? F1 F2]; subst. right. split; [exact F2|]. destruct (IsEmptyReference (referent u)); [exact H|]. rewrite mfind_mset. now destruct (beqb_spec (referent u) r).
Qed.
Lemma refers_iff root r q : IsEmptyReference r = false -> (refers root r q <-> rget (look_add 0 (doc_items root) []) r = q).
Proof.
  intros Hr. unfold rget. pose proof (look_find (doc_items root) 0 [] r Hr) as L. split.
  - intros [a t b E Et F|F].
    + assert (X : mfind (look_add 0 (doc_items root) []) r = Some (S (length a))) by (apply L; left; exists a, t, b; now repeat split). now rewrite X.
    + destruct (mfind _ r) as [x|] eqn:E; [|reflexivity]. destruct (proj1 (L x) eq_refl) as [(a & t & b & E1 & E2 & _)|[_ H]]; [|discriminate H].
      exfalso. rewrite Forall_forall in F. apply (F t); [|exact E2]. rewrite E1. apply in_app_iff. right. now left.
  - destruct (mfind _ r) as [x|] eqn:E.
    + intros <-. destruct (proj1 (L x) eq_refl) as [(a & t & b & E1 & E2 & F & ->)|[_ H]]; [|discriminate H]. now apply (Refers root r a t b).
    + intros <-. apply Refers_none. apply Forall_forall. intros u Hu Eu. assert (Ir : In r (map referent (doc_items root))) by (rewrite <- Eu; now apply in_map). clear u Hu Eu.
      assert (exists a t b, doc_items root = a ++ t :: b /\ referent t = r /\ Forall (fun u => referent u <> r) b) as (a & t & b & E1 & E2 & F).
      { clear L E. induction (doc_items root) as [|x l IH]; [destruct Ir|]. destruct (in_dec (list_eq_dec Byte.byte_eq_dec) r (map referent l)) as [I|N].
        - destruct (IH I) as (a & t & b & -> & H). exists (x :: a), t, b. split; [reflexivity|exact H].
        - destruct Ir as [Ex|Ir]; [|contradiction]. exists [], x, l. split; [reflexivity|]. split; [exact Ex|]. apply Forall_forall. intros w Hw Ew. apply N. rewrite <- Ew. now apply in_map. }
      assert (X : @None ptr = Some (S (length a))) by (apply L; left; exists a, t, b; now repeat split). discriminate X.
Qed.

(** ** The properties of an instance *)
Section P.
Variables (env : xenv) (discard : bool).
Notation entry_of := (entry_of env discard).
Notation gives := (gives (read env discard)).
Definition w_plain (t : tag) : list (bytes * rvalue) := match entry_of t with Some (n, Plain v) => [(n, v)] | _ => [] end.
Definition w_points (lk : refmap) (t : tag) : list (bytes * rvalue) := match entry_of t with Some (n, Points r) => [(n, RReference (rget lk r))] | _ => [] end.
Definition w_shares (d : bytes * bytes) (t : tag) : list (bytes * rvalue) :=
  match entry_of t with Some (n, Shares k) => if bytes_eqb k (fst d) then [(n, RSharedString (snd d))] else [] | _ => [] end.
Definition final_props (root pts : list tag) : list (bytes * rvalue) :=
  msets [] (flat_map w_plain pts ++ flat_map (fun d => flat_map (w_shares d) pts) (defs_of root) ++ flat_map (w_points (look_add 0 (doc_items root) [])) pts).
Lemma put_plain_msets pts : forall m, fold_left (put_plain env discard) pts m = msets m (flat_map w_plain pts).
Proof.
  induction pts as [|t pts IH]; intros m; [reflexivity|]. cbn [fold_left flat_map]. rewrite IH, msets_app. f_equal. unfold put_plain, plain_of, w_plain.
  now destruct (entry_of t) as [[n [v|r|k]]|].
Qed.
Lemma at_shared_writes p pts d : flat_map (fun e => if bytes_eqb (pr_ref e) (fst d) then [(pr_prop e, RSharedString (snd d))] else []) (flat_map (shares_of env discard p) pts) = flat_map (w_shares d) pts.
Proof.
  induction pts as [|t pts IH]; [reflexivity|]. cbn [flat_map]. rewrite flat_map_app, IH. f_equal. unfold shares_of, w_shares.
  destruct (entry_of t) as [[n [v|r|k]]|]; cbn [flat_map pr_ref pr_prop]; [reflexivity|reflexivity| |reflexivity]. now destruct (bytes_eqb k (fst d)).
Qed.
Lemma at_point_writes p lk pts : map (fun e => (pr_prop e, RReference (rget lk (pr_ref e)))) (flat_map (points_of env discard p) pts) = flat_map (w_points lk) pts.
Proof.
  induction pts as [|t pts IH]; [reflexivity|]. cbn [flat_map]. rewrite map_app, IH. f_equal. unfold points_of, w_points. now destruct (entry_of t) as [[n [v|r|k]]|].
Qed.
Lemma entry_eq t n e n' e' : entry_of t = Some (n, e) -> entry_of t = Some (n', e') -> n = n' /\ e = e'.
Proof. intros H H'. rewrite H in H'. apply Some_eq, pair_equal_spec in H'. exact H'. Qed.
Lemma w_plain_len t : length (w_plain t) <= 1. Proof. unfold w_plain. destruct (entry_of t) as [[n [v|r|k]]|]; cbn; lia. Qed.
Lemma w_points_len lk t : length (w_points lk t) <= 1. Proof. unfold w_points. destruct (entry_of t) as [[n [v|r|k]]|]; cbn; lia. Qed.
Lemma w_plain_iff t n v : w_plain t = [(n, v)] <-> gives t n (Plain v).
Proof.
  rewrite gives_iff. unfold w_plain. destruct (entry_of t) as [[m [w|r|k]]|]; split; intros H; try discriminate H.
  - injection H as -> ->. reflexivity.
  - injection H as -> ->. reflexivity.
Qed.
Lemma w_points_iff lk t n v : w_points lk t = [(n, v)] <-> exists r, gives t n (Points r) /\ v = RReference (rget lk r).
Proof.
  unfold w_points. split.
  - destruct (entry_of t) as [[m [w|r|k]]|] eqn:E; intros H; try discriminate H. injection H as -> <-. exists r. split; [now apply gives_iff|reflexivity].
  - intros (r & H & ->). apply gives_iff in H. rewrite H. reflexivity.
Qed.
Lemma no_plain n pts : no_key n (flat_map w_plain pts) <-> gives_none (read env discard) pts n is_plain.
Proof.
  unfold no_key, gives_none. split.
  - intros N u e I G (v & ->). apply (N v). apply in_flat_map. exists u. split; [exact I|]. apply w_plain_iff in G. rewrite G. now left.
  - intros N v I. apply in_flat_map in I as (u & I & H). pose proof (w_plain_len u) as L. destruct (w_plain u) as [|x [|y l]] eqn:E; cbn in L; [destruct H| |lia].
    destruct H as [->|[]]. apply w_plain_iff in E. exact (N u _ I E (ex_intro _ v eq_refl)).
Qed.
Lemma no_points lk n pts : no_key n (flat_map (w_points lk) pts) <-> gives_none (read env discard) pts n is_points.
Proof.
  unfold no_key, gives_none. split.
  - intros N u e I G (r & ->). apply (N (RReference (rget lk r))). apply in_flat_map. exists u. split; [exact I|].
    assert (E : w_points lk u = [(n, RReference (rget lk r))]) by (apply w_points_iff; eauto). rewrite E. now left.
  - intros N v I. apply in_flat_map in I as (u & I & H). pose proof (w_points_len lk u) as L. destruct (w_points lk u) as [|x [|y l]] eqn:E; cbn in L; [destruct H| |lia].
    destruct H as [->|[]]. apply w_points_iff in E as (r & E & _). exact (N u _ I E (ex_intro _ r eq_refl)).
Qed.
Lemma last_plain n v pts : (exists a b, flat_map w_plain pts = a ++ (n, v) :: b /\ no_key n b) <-> last_gives (read env discard) pts n is_plain (Plain v).
Proof.
  unfold last_gives. split.
  - intros (a & b & E & N). apply (flat_map_split _ w_plain_len) in E as (la & t & lb & -> & E1 & _ & <-). split; [now exists v|].
    exists la, t, lb. split; [reflexivity|]. split; [now apply w_plain_iff|]. now apply no_plain in N.
  - intros (_ & a & t & b & -> & G & N). exists (flat_map w_plain a), (flat_map w_plain b). split; [|now apply no_plain].
    rewrite flat_map_app. cbn [flat_map]. apply w_plain_iff in G. now rewrite G.
Qed.
Lemma last_points lk n v pts : (exists a b, flat_map (w_points lk) pts = a ++ (n, v) :: b /\ no_key n b) <->
  exists r, last_gives (read env discard) pts n is_points (Points r) /\ v = RReference (rget lk r).
Proof.
  unfold last_gives. split.
  - intros (a & b & E & N). apply (flat_map_split _ (w_points_len lk)) in E as (la & t & lb & -> & E1 & _ & <-). apply w_points_iff in E1 as (r & G & ->). exists r. split; [|reflexivity].
    split; [now exists r|]. exists la, t, lb. split; [reflexivity|]. split; [exact G|]. now apply no_points in N.
  - intros (r & (_ & a & t & b & -> & G & N) & ->). exists (flat_map (w_points lk) a), (flat_map (w_points lk) b). split; [|now apply no_points].
    rewrite flat_map_app. cbn [flat_map]. assert (E : w_points lk t = [(n, RReference (rget lk r))]) by (apply w_points_iff; eauto). now rewrite E.
Qed.
Lemma shares_In d n v pts : In (n, v) (flat_map (w_shares d) pts) <-> wants_key (read env discard) pts n (fst d) /\ v = RSharedString (snd d).
Proof.
  unfold wants_key. rewrite in_flat_map. split.
  - intros (u & I & H). unfold w_shares in H. destruct (entry_of u) as [[m [w|r|k]]|] eqn:E; try destruct H. destruct (beqb_spec k (fst d)) as [->|]; [|destruct H].
    destruct H as [H|[]]. injection H as -> <-. split; [exists u; split; [exact I|now apply gives_iff]|reflexivity].
  - intros [(u & I & G) ->]. exists u. split; [exact I|]. apply gives_iff in G. unfold w_shares. rewrite G, bytes_eqb_refl. now left.
Qed.
Lemma last_In {A} n (l : list (bytes * A)) : (exists v, In (n, v) l) -> exists a v b, l = a ++ (n, v) :: b /\ no_key n b.
Proof.
  intros [v H]. assert (In n (map fst l)) as I by (change n with (fst (n, v)); now apply in_map). clear v H. induction l as [|[k x] l IH]; [destruct I|].
  destruct (in_dec (list_eq_dec Byte.byte_eq_dec) n (map fst l)) as [J|J].
  - destruct (IH J) as (a & v & b & -> & N). exists ((k, x) :: a), v, b. now split.
  - destruct I as [I|I]; [|contradiction]. cbn in I. subst k. exists [], x, l. split; [reflexivity|]. intros w Hw. apply J. change n with (fst (n, w)). now apply in_map.
Qed.
Definition last_key {A} (n : bytes) (v : A) (l : list (bytes * A)) : Prop := exists a b, l = a ++ (n, v) :: b /\ no_key n b.
Lemma last_key_mfind {A} n (v : A) l : last_key n v l <-> mfind (msets [] l) n = Some v.
Proof. rewrite last_write. unfold last_key. split; [now left|]. intros [H|[_ H]]; [exact H|discriminate H]. Qed.
Lemma last_app {A} n (v : A) X Y : last_key n v (X ++ Y) <-> last_key n v Y \/ (no_key n Y /\ last_key n v X).
Proof. rewrite !last_key_mfind, msets_app, last_write. fold (last_key n v Y). now rewrite !last_key_mfind. Qed.
Lemma last_key_In {A} n (v : A) l : last_key n v l -> In (n, v) l.
Proof. intros (a & b & -> & _). apply in_app_iff. right. now left. Qed.
Lemma no_shared n pts defs : no_key n (flat_map (fun d => flat_map (w_shares d) pts) defs) <-> forall k v, In (k, v) defs -> ~ wants_key (read env discard) pts n k.
Proof.
  split.
  - intros N k v I W. apply (N (RSharedString v)). apply in_flat_map. exists (k, v). split; [exact I|]. apply shares_In. now split.
  - intros N w I. apply in_flat_map in I as ([k v] & I & H). apply shares_In in H as [H _]. exact (N k v I H).
Qed.
Lemma last_shared n v pts defs : last_key n v (flat_map (fun d => flat_map (w_shares d) pts) defs) <->
  exists a k x b, v = RSharedString x /\ defs = a ++ (k, x) :: b /\ wants_key (read env discard) pts n k /\ forall k' v', In (k', v') b -> ~ wants_key (read env discard) pts n k'.
Proof.
  induction defs as [|[k x] defs IH]; cbn [flat_map].
  - split; [intros H; now apply last_key_In in H|]. intros ([|] & k & x & b & _ & E & _); discriminate E.
  - rewrite last_app, IH, no_shared. split.
    + intros [(a & k' & x' & b & E & -> & H)|[N L]].
      * exists ((k, x) :: a), k', x', b. split; [exact E|]. split; [reflexivity|exact H].
      * apply last_key_In, shares_In in L as [W ->]. exists [], k, x, defs. now repeat split.
    + intros (a & k' & x' & b & -> & E & W & N). destruct a as [|y a]; cbn [app] in E.
      * injection E as <- <- <-. right. split; [exact N|]. destruct (last_In n (flat_map (w_shares (k, x)) pts)) as (a & v & b & E & N'); [exists (RSharedString x); now apply shares_In|].
        assert (I : In (n, v) (flat_map (w_shares (k, x)) pts)) by (rewrite E; apply in_app_iff; right; now left). apply shares_In in I as [_ ->]. cbn [snd] in E. now exists a, b.
      * injection E as <- ->. left. exists a, k', x', b. now repeat split.
Qed.
Lemma points_refers r t n : gives t n (Points r) -> IsEmptyReference r = false.
Proof. intros H. inversion H; subst; assumption. Qed.
Theorem final_property root pts n v : In (n, v) (final_props root pts) <-> property (read env discard) root (defs_of root) pts n v.
Proof.
  unfold final_props. rewrite In_iff_mfind by (apply msets_keys; constructor). rewrite <- last_key_mfind, !last_app. unfold last_key at 1. rewrite last_points, last_shared.
  assert (NP : no_key n (flat_map (fun d => flat_map (w_shares d) pts) (defs_of root) ++ flat_map (w_points (look_add 0 (doc_items root) [])) pts) <->
    gives_none (read env discard) pts n is_points /\ forall k v, In (k, v) (defs_of root) -> ~ wants_key (read env discard) pts n k).
  { rewrite <- no_points, <- no_shared. unfold no_key. split.
    - intros N. split; intros w I; apply (N w), in_app_iff; [right; exact I|left; exact I].
    - intros [N1 N2] w I. apply in_app_iff in I as [I|I]; [exact (N2 w I)|exact (N1 w I)]. }
  rewrite NP, no_points. unfold last_key. rewrite last_plain. split.
  - intros [[(r & G & ->)|[N (a & k & x & b & -> & E & W & L)]]|[[N1 N2] G]].
    + apply (P_reference _ _ _ _ _ r); [exact G|]. apply refers_iff; [|reflexivity]. destruct G as (_ & a & t & b & _ & G & _). exact (points_refers _ _ _ G).
    + now apply (P_shared _ _ _ _ _ a k x b).
    + now apply P_plain.
  - intros [r q G R|a k x b N E W L|w N1 N2 G].
    + left. left. exists r. split; [exact G|]. apply refers_iff in R; [now rewrite R|]. destruct G as (_ & a & t & b & _ & G & _). exact (points_refers _ _ _ G).
    + left. right. split; [exact N|]. exists a, k, x, b. now repeat split.
    + right. split; [split; assumption|exact G].
Qed.
End P.
