(** PropStat.v - C89..C92: the statistics of rbxfile-stat, and the errors the
    commands print. *)
From Coq Require Import Permutation Sorted.
From Verif Require Import Base RbxlValues RbxlModel RbxlFile RbxValues Tree RbxlCodec RbxlApi SpecTree SpecCodec SpecDecode TreeProofs
  XmlText XmlDoc XmlCodec StatCmd SpecStat PropDecode PropXmlDecode.
Local Notation string := String.string.

(** ** The walk *)
Notation event := (inst * bytes * option rvalue)%type.
Definition events_at (h : heap) (ord : ptr -> list (bytes * rvalue) -> list (bytes * rvalue)) (skip : bool) (p : ptr) : list event :=
  match hget h p with
  | None => []
  | Some i => (i, [], None) :: (if skip then [] else map (fun nv => (i, fst nv, Some (snd nv))) (ord p (i_props i)))
  end.
Definition list_height (ts : list rtree) : nat := fold_right (fun t n => Nat.max (height t) n) 0 ts.
Section Walk.
Context {S_ : Type}.
Variables (h : heap) (ord : ptr -> list (bytes * rvalue) -> list (bytes * rvalue)) (cb : S_ -> inst -> bytes -> option rvalue -> S_ * N)
  (skip : bool).
Hypothesis Hcb : forall s i n v, snd (cb s i n v) = if skip then SkipProperties else Okay.
Definition apply_ (s : S_) (e : event) : S_ := match e with (i, n, v) => fst (cb s i n v) end.

Lemma walk_props_ok : skip = false -> forall i l s,
  walk_props cb i l s = (fold_left apply_ (map (fun nv => (i, fst nv, Some (snd nv))) l) s, true).
Proof.
  intros Hs i l. induction l as [|[n v] l IH]; intros s; [reflexivity|]. cbn [walk_props map fold_left fst snd].
  pose proof (Hcb s i n (Some v)) as E. rewrite Hs in E. unfold apply_ at 2. destruct (cb s i n (Some v)) as [s' st]. cbn [snd fst] in *. subst st. cbn [has]. apply IH.
Qed.
Lemma walk_ok : forall fuel ts s, Forall (tree_at h) ts -> list_height ts < fuel ->
  walk h ord cb fuel (map rroot ts) s = OK (fold_left apply_ (flat_map (events_at h ord skip) (fnodes ts)) s, true).
Proof.
  induction fuel as [|fuel IH]; intros ts s Hts Hf; [lia|]. cbn [walk].
  revert s. induction Hts as [|t ts Ht Hts IHts]; intros s; [reflexivity|].
  destruct Ht as [p us i Hp Hc Hus]. cbn [list_height fold_right height] in Hf. fold (list_height ts) in Hf. fold (list_height us) in Hf.
  cbn [map rroot fnodes flat_map rnodes app]. fold (fnodes ts) (fnodes us).
  rewrite flat_map_app. unfold fnodes in *. cbn [flat_map]. 
  assert (Ev : events_at h ord skip p = (i, [], None) :: (if skip then [] else map (fun nv => (i, fst nv, Some (snd nv))) (ord p (i_props i))))
    by (unfold events_at; now rewrite Hp).
  rewrite Ev, <- app_comm_cons. cbn [fold_left]. rewrite !fold_left_app. 
  pose proof (Hcb s i [] None) as E.
  change (apply_ s (i, [], None)) with (fst (cb s i [] None)).
  rewrite Hp. destruct (cb s i [] None) as [s1 st]. cbn [fst snd] in *. subst st.
  assert (Ex : forall s2, (' (s0, ok) <- walk h ord cb fuel (i_children i) s2 ;;
    if negb ok then OK (s0, false) else
      (fix each (ps : list ptr) (s : S_) : outcome Empty_set (S_ * bool) :=
         match ps with
         | [] => OK (s, true)
         | p :: ps =>
             match hget h p with
             | None => Panic                                       (* nil *)
             | Some i =>
                 let '(s, status) := cb s i [] None in
                 if has status Exit then OK (s, false)
                 else
                   let '(s, ok) := if has status SkipProperties then (s, true) else walk_props cb i (ord p (i_props i)) s in
                   if negb ok then OK (s, false)
                   else if has status SkipChildren then each ps s
                   else ' (s, ok) <- walk h ord cb fuel (i_children i) s ;; if negb ok then OK (s, false) else each ps s
             end
         end) (map rroot ts) s0) =
    OK (fold_left apply_ (flat_map (events_at h ord skip) (fnodes ts)) (fold_left apply_ (flat_map (events_at h ord skip) (fnodes us)) s2), true)).
  { intros s2. rewrite Hc, (IH us s2 Hus) by lia. cbn [obind negb]. apply IHts. lia. }
  pose proof (fun E => walk_props_ok E i (ord p (i_props i)) s1) as Hw.
  clear IH IHts Ev. revert Ex Hw. generalize (list_height us). clear Hf Hcb. destruct skip; intros _ Ex Hw; cbn [has SkipProperties Okay Exit SkipChildren N.land Pos.land N.eqb negb].
  - apply Ex.
  - rewrite Hw by reflexivity. cbn [negb]. apply Ex.
Qed.
End Walk.

(** ** Counting *)
Section Tally.
Context {K : Type}.
Variable eqb : K -> K -> bool.
Hypothesis Heqb : forall a b, eqb a b = true <-> a = b.
Definition tally (m : list (K * nat)) (l : list K) : Prop :=
  NoDup (map fst m) /\ forall k n, In (k, n) m <-> n = occurs eqb (fun k => k) l k /\ n <> 0.
Lemma eqb_refl' : forall k, eqb k k = true.
Proof. intros k. now apply Heqb. Qed.
Lemma occurs_app : forall (l : list K) x k, occurs eqb (fun k => k) (l ++ [x]) k = occurs eqb (fun k => k) l k + if eqb x k then 1 else 0.
Proof. intros. unfold occurs. rewrite filter_app, app_length. cbn [filter]. now destruct (eqb x k). Qed.
Lemma bump_in : forall m k k' n, NoDup (map fst m) ->
  In (k', n) (bump eqb m k) <->
  (k' <> k /\ In (k', n) m) \/ (k' = k /\ ((exists j, In (k, j) m /\ n = S j) \/ (~ In k (map fst m) /\ n = 1))).
Proof.
  induction m as [|[q j] m IH]; intros k k' n Hn; cbn [bump map fst In].
  - split; [intros [[= <- <-]|[]]; right; split; [reflexivity|]; right; split; [tauto|reflexivity]|].
    intros [[_ []]|[-> [(? & [] & _)|[_ ->]]]]. now left.
  - inversion Hn as [|? ? Hq Hm]; subst. destruct (eqb q k) eqn:E.
    + apply Heqb in E. subst q. cbn [In]. split.
      * intros [[= <- <-]|Hi]; [right; split; [reflexivity|]; left; exists j; now split; [left|]|].
        left. split; [|now right]. intros ->. apply Hq. now apply (in_map fst) in Hi.
      * intros [[Hne [[= ? ?]|Hi]]|[-> [(i & [[= <-]|Hi] & ->)|[Hf _]]]]; [congruence|now right|now left| |tauto].
        exfalso. apply Hq. now apply (in_map fst) in Hi.
    + assert (Hne : q <> k) by (intros ->; rewrite eqb_refl' in E; discriminate). cbn [In]. rewrite (IH k k' n Hm). split.
      * intros [[= <- <-]|[[H1 H2]|[-> [(i & Hi & ->)|[H1 ->]]]]].
        -- left. split; [exact Hne|now left].
        -- left. split; [exact H1|now right].
        -- right. split; [reflexivity|]. left. exists i. now split; [right|].
        -- right. split; [reflexivity|]. right. split; [|reflexivity]. intros [?|?]; congruence.
      * intros [[H1 [[= <- <-]|Hi]]|[-> [(i & [[= ? ?]|Hi] & ->)|[H1 ->]]]].
        -- now left.
        -- right. left. now split.
        -- congruence.
        -- right. right. split; [reflexivity|]. left. now exists i.
        -- right. right. split; [reflexivity|]. right. split; [tauto|reflexivity].
Qed.
Lemma bump_keys : forall m k x, In x (map fst (bump eqb m k)) <-> x = k \/ In x (map fst m).
Proof.
  induction m as [|[q j] m IH]; intros k x; cbn [bump map fst In]; [intuition|].
  destruct (eqb q k) eqn:E; cbn [map fst In]; [apply Heqb in E; subst; intuition|rewrite IH; intuition].
Qed.
Lemma bump_nodup : forall m k, NoDup (map fst m) -> NoDup (map fst (bump eqb m k)).
Proof.
  induction m as [|[q j] m IH]; intros k Hn; cbn [bump map fst]; [repeat constructor; tauto|].
  inversion Hn as [|? ? Hq Hm]; subst. destruct (eqb q k) eqn:E; cbn [map fst]; [now constructor|].
  constructor; [|now apply IH]. rewrite bump_keys. intros [->|H]; [|tauto]. rewrite eqb_refl' in E. discriminate.
Qed.
Lemma tally_bump : forall m l k, tally m l -> tally (bump eqb m k) (l ++ [k]).
Proof.
  intros m l k [Hn H]. split; [now apply bump_nodup|]. intros k' n. rewrite bump_in, occurs_app by exact Hn.
  destruct (eqb k k') eqn:E.
  - apply Heqb in E. subst k'. split.
    + intros [[[] _]|[_ [(j & Hj & ->)|[Hk ->]]]]; [reflexivity| |].
      * apply H in Hj as [-> _]. lia.
      * destruct (occurs eqb (fun k => k) l k) eqn:Eo; [lia|]. exfalso. apply Hk. apply (in_map fst _ (k, S n)). apply H. rewrite Eo. lia.
    + intros [-> _]. right. split; [reflexivity|]. destruct (occurs eqb (fun k => k) l k) eqn:Eo.
      * right. split; [|reflexivity]. intros Hi. apply in_map_iff in Hi as ([q j] & <- & Hj). cbn [fst] in *. apply H in Hj. lia.
      * left. exists (S n). split; [|lia]. apply H. lia.
  - assert (k' <> k) by (intros ->; rewrite eqb_refl' in E; discriminate). rewrite Nat.add_0_r, <- H. tauto.
Qed.
Lemma tally_fold : forall ks m l, tally m l -> tally (fold_left (bump eqb) ks m) (l ++ ks).
Proof.
  induction ks as [|k ks IH]; intros m l H; cbn [fold_left]; [now rewrite app_nil_r|].
  rewrite (app_assoc l [k] ks : l ++ k :: ks = _). apply IH. now apply tally_bump.
Qed.
Lemma tally_nil : tally [] [].
Proof. split; [constructor|]. intros k n. cbn. split; [tauto|]. intros [-> H]. lia. Qed.
Lemma occurs_perm : forall {A} (f : A -> K) l l' k, Permutation (map f l) l' -> occurs eqb (fun k => k) l' k = occurs eqb f l k.
Proof.
  intros A f l l' k H. unfold occurs.
  assert (G : forall l, length (filter (fun a => eqb (f a) k) l) = length (filter (fun a => eqb a k) (map f l))).
  { intros x. induction x as [|a x IH]; [reflexivity|]. cbn [filter map]. destruct (eqb (f a) k); cbn [length]; now rewrite IH. }
  rewrite G. clear G. induction H as [|x l1 l2 _ IH|x y l1|l1 l2 l3 _ IH1 _ IH2]; cbn [filter].
  - reflexivity.
  - destruct (eqb x k); cbn [length]; now rewrite IH.
  - now destruct (eqb x k), (eqb y k).
  - congruence.
Qed.
Lemma counts_fold : forall {A} (f : A -> K) l ks, Permutation (map f l) ks -> counts eqb f l (Some (fold_left (bump eqb) ks [])).
Proof.
  intros A f l ks H. exists (fold_left (bump eqb) ks []). split; [reflexivity|]. destruct (tally_fold ks _ _ tally_nil) as [Hn Ht]. split; [exact Hn|].
  intros k n. rewrite Ht. cbn [app]. now rewrite (occurs_perm f l ks k H).
Qed.
Lemma bump_total : forall m k, list_sum (map snd (bump eqb m k)) = S (list_sum (map snd m)).
Proof. induction m as [|[q j] m IH]; intros k; [reflexivity|]. cbn [bump]. destruct (eqb q k); cbn [map snd list_sum fold_right] in *; [reflexivity|]. unfold list_sum in *. rewrite IH. lia. Qed.
Lemma fold_total : forall ks m, list_sum (map snd (fold_left (bump eqb) ks m)) = list_sum (map snd m) + length ks.
Proof. induction ks as [|k ks IH]; intros m; cbn [fold_left length]; [lia|]. rewrite IH, bump_total. lia. Qed.
End Tally.

Lemma string_eqb_iff : forall a b : string, String.eqb a b = true <-> a = b.
Proof. intros. apply String.eqb_eq. Qed.
Lemma bytes_eqb_iff : forall a b, bytes_eqb a b = true <-> a = b.
Proof. intros. apply bytes_eqb_eq. Qed.
Lemma proplen_eqb_iff : forall a b, proplen_eqb a b = true <-> a = b.
Proof.
  intros [c p t n] [c' p' t' n']. unfold proplen_eqb. cbn [pl_class pl_property pl_type pl_length].
  rewrite !Bool.andb_true_iff, !bytes_eqb_iff, String.eqb_eq, Nat.eqb_eq. split; [intros [[[-> ->] ->] ->]; reflexivity|]. intros E. injection E. auto.
Qed.

(** ** C89 *)
Section Events.
Context {K : Type}.
Variables (eqb : K -> K -> bool) (keys : event -> list K) (keysP : bytes * bytes * rvalue -> list K).
Hypothesis Hk : forall i n v, keys (i, n, Some v) = keysP (i_class i, n, v).
Hypothesis H0 : forall i n, keys (i, n, None) = [].
Lemma flat_map_perm : forall {A B} (f : A -> list B) l l', Permutation l l' -> Permutation (flat_map f l) (flat_map f l').
Proof.
  intros A B f l l' H. induction H; cbn [flat_map]; [constructor|now apply Permutation_app_head| |now transitivity (flat_map f l')].
  rewrite !app_assoc. apply Permutation_app_tail, Permutation_app_comm.
Qed.
Lemma flat_map_map : forall {A B C} (f : B -> list C) (g : A -> B) l, flat_map f (map g l) = flat_map (fun a => f (g a)) l.
Proof. intros. induction l as [|a l IH]; [reflexivity|]. cbn [map flat_map]. now rewrite IH. Qed.
Lemma events_perm : forall h ord ts, any_order ord ->
  Permutation (flat_map keysP (properties_of h ts)) (flat_map keys (flat_map (events_at h ord false) (fnodes ts))).
Proof.
  intros h ord ts Ho. unfold properties_of, instances_of. induction (fnodes ts) as [|p ps IH]; [constructor|].
  cbn [flat_map]. rewrite !flat_map_app. apply Permutation_app; [|exact IH]. unfold events_at.
  destruct (hget h p) as [i|]; [|constructor]. cbn [flat_map]. rewrite H0, app_nil_r. cbn [app]. rewrite !flat_map_map.
  erewrite (flat_map_ext (fun nv => keys (i, fst nv, Some (snd nv)))) by (intros; apply Hk). cbn [fst snd]. apply flat_map_perm, Ho.
Qed.
Lemma fold_keys : forall (cb : list (K * nat) -> inst -> bytes -> option rvalue -> list (K * nat) * N),
  (forall s e, apply_ cb s e = fold_left (bump eqb) (keys e) s) ->
  forall es s, fold_left (apply_ cb) es s = fold_left (bump eqb) (flat_map keys es) s.
Proof.
  intros cb H es. induction es as [|e es IH]; intros s; [reflexivity|]. cbn [fold_left flat_map]. now rewrite IH, fold_left_app, H.
Qed.
End Events.

Definition on_value {K} (f : bytes * bytes * rvalue -> list K) (e : event) : list K :=
  match e with (i, n, Some v) => f (i_class i, n, v) | _ => [] end.
Definition keep_type (p : bytes * bytes * rvalue) : list string := [type_string (rtype (snd p))].
Definition keep_optional (p : bytes * bytes * rvalue) : list string :=
  match snd p with ROptional t _ => [type_string t] | _ => [] end.
Definition keep_length (p : bytes * bytes * rvalue) : list proplen :=
  match p with (c, name, v) => map (PropLen c name (type_string (rtype v))) (length_of v) end.

Lemma map_flat : forall {A B C} (g : B -> C) (f : A -> list B) l, map g (flat_map f l) = flat_map (fun a => map g (f a)) l.
Proof. intros. induction l as [|a l IH]; [reflexivity|]. cbn [flat_map]. now rewrite map_app, IH. Qed.
Lemma map_single : forall {A B} (f : A -> B) l, map f l = flat_map (fun a => [f a]) l.
Proof. intros. induction l as [|a l IH]; [reflexivity|]. cbn. now rewrite IH. Qed.

Lemma instances_length : forall h ts, Forall (tree_at h) ts -> length (instances_of h ts) = length (fnodes ts).
Proof.
  intros h ts Hts. unfold instances_of.
  assert (G : forall p, In p (fnodes ts) -> hget h p <> None).
  { unfold fnodes. intros p Hp. apply in_flat_map in Hp as (t & Ht & Hp). rewrite Forall_forall in Hts. specialize (Hts _ Ht). clear Ht.
    assert (Hn : exists n, height t < n) by (eexists; apply Nat.lt_succ_diag_r). destruct Hn as [n Hn]. revert t p Hn Hts Hp.
    induction n as [|n IH]; intros t p Hn Ht Hp; [lia|]. destruct Ht as [q us i Hq Hc Hus]. cbn [rnodes In] in Hp. destruct Hp as [<-|Hp]; [congruence|].
    apply in_flat_map in Hp as (u & Hu & Hp). apply (IH u p); [|rewrite Forall_forall in Hus; now apply Hus|exact Hp].
    cbn [height] in Hn. clear -Hn Hu. induction us as [|x us IH]; [destruct Hu|]. cbn [fold_right] in Hn. destruct Hu as [->|Hu]; [lia|]. apply IH; [lia|exact Hu]. }
  induction (fnodes ts) as [|p ps IH]; [reflexivity|]. cbn [flat_map length]. rewrite app_length, IH by (intros; apply G; now right).
  destruct (hget h p) eqn:E; [reflexivity|]. exfalso. apply (G p); [now left|exact E].
Qed.

Definition filled (ords : nat -> ptr -> list (bytes * rvalue) -> list (bytes * rvalue)) (h : heap) (ts : list rtree) : stats :=
  let es k := flat_map (events_at h (ords k) false) (fnodes ts) in
  Stats (length (fnodes ts)) (length (properties_of h ts))
    (Some (fold_left (bump bytes_eqb) (map i_class (instances_of h ts)) []))
    (Some (fold_left (bump String.eqb) (flat_map (on_value keep_type) (es 2)) []))
    (Some (fold_left (bump String.eqb) (flat_map (on_value keep_optional) (es 3)) []))
    (Some (fold_left (bump proplen_eqb) (flat_map (on_value keep_length) (es 4)) [])).

Lemma Fill_ok : forall h ts r ords fuel,
  Forall (tree_at h) ts -> r_instances r = map rroot ts -> (forall k, any_order (ords k)) -> list_height ts < fuel ->
  Fill ords fuel h (Some r) = OK (filled ords h ts).
Proof.
  intros h ts r ords fuel Hts Hr Ho Hf. unfold Fill. rewrite Hr.
  rewrite (walk_ok h (ords 0) on_property false) by (try assumption; intros; now destruct v). cbn [obind].
  rewrite (walk_ok h (ords 1) on_instance true) by (try assumption; intros [? ?]; reflexivity). cbn [obind].
  rewrite (walk_ok h (ords 2) on_type false) by (try assumption; intros; now destruct v). cbn [obind].
  rewrite (walk_ok h (ords 3) on_optional false) by (try assumption; intros; now destruct v as [[]|]). cbn [obind].
  assert (Hl : forall s i n v, snd (on_length s i n v) = Okay) by (intros s i n [v|]; [cbn; now destruct (value_len v)|reflexivity]).
  rewrite (walk_ok h (ords 4) on_length false) by assumption. cbn [obind].
  rewrite (fold_keys String.eqb (on_value keep_type)) by (intros s [[i n] [v|]]; reflexivity).
  rewrite (fold_keys String.eqb (on_value keep_optional)) by (intros s [[i n] [[]|]]; reflexivity).
  rewrite (fold_keys proplen_eqb (on_value keep_length)) by (intros s [[i n] [[]|]]; reflexivity).
  assert (Ei : forall s, fold_left (apply_ on_instance) (flat_map (events_at h (ords 1) true) (fnodes ts)) s =
    (fst s + length (instances_of h ts), fold_left (bump bytes_eqb) (map i_class (instances_of h ts)) (snd s))).
  { unfold instances_of. induction (fnodes ts) as [|p ps IH]; intros [n m]; cbn [flat_map fst snd]; [cbn; f_equal; lia|].
    unfold events_at at 1. destruct (hget h p) as [i|]; cbn [app fold_left map length]; rewrite IH; [|reflexivity]. cbn. f_equal. lia. }
  rewrite Ei. cbn [fst snd obind].
  assert (Ep : forall s, fold_left (apply_ on_property) (flat_map (events_at h (ords 0) false) (fnodes ts)) s =
    s + length (flat_map (on_value (fun _ => [tt])) (flat_map (events_at h (ords 0) false) (fnodes ts)))).
  { intros s. generalize (flat_map (events_at h (ords 0) false) (fnodes ts)) as es. intros es. revert s.
    induction es as [|[[i n] [v|]] es IH]; intros s; cbn [fold_left flat_map]; [cbn; lia| |]; rewrite IH; cbn; lia. }
  rewrite Ep.
  rewrite <- (Permutation_length (events_perm (on_value (fun _ => [tt])) (fun _ => [tt]) (fun _ _ _ => eq_refl) (fun _ _ => eq_refl) h (ords 0) ts (Ho 0))).
  rewrite <- (map_single (fun _ => tt)), map_length. unfold filled. now rewrite instances_length.
Qed.

(** Filling the statistics of a decoded tree ends, and every number in them is
    the number of instances or properties of the tree it stands for, whatever
    the order in which maps are read. *)
Theorem C89_counts : forall h ts r ords,
  Forall (tree_at h) ts -> r_instances r = map rroot ts -> (forall k, any_order (ords k)) ->
  exists n, forall fuel, n <= fuel -> exists st, Fill ords fuel h (Some r) = OK st /\
    st_instances st = length (fnodes ts) /\
    st_properties st = length (properties_of h ts) /\
    counts bytes_eqb i_class (instances_of h ts) (st_classes st) /\
    counts String.eqb (fun p => type_string (rtype (snd p))) (properties_of h ts) (st_types st) /\
    counts String.eqb type_string (optional_types h ts) (st_optionals st) /\
    counts proplen_eqb (fun k => k) (lengths h ts) (st_largest st).
Proof.
  intros h ts r ords Hts Hr Ho. exists (S (list_height ts)). intros fuel Hf. exists (filled ords h ts).
  split; [now apply Fill_ok|]. unfold filled. cbn [st_instances st_properties st_classes st_types st_optionals st_largest].
  split; [reflexivity|]. split; [reflexivity|]. split; [apply counts_fold; [apply bytes_eqb_iff|reflexivity]|].
  split; [|split].
  - apply counts_fold; [apply string_eqb_iff|]. rewrite map_single. apply (events_perm (on_value keep_type) keep_type); auto.
  - apply counts_fold; [apply string_eqb_iff|]. unfold optional_types. rewrite map_flat.
    erewrite flat_map_ext; [apply (events_perm (on_value keep_optional) keep_optional); auto|]. intros [[c n] []]; reflexivity.
  - apply counts_fold; [apply proplen_eqb_iff|]. rewrite map_id. apply (events_perm (on_value keep_length) keep_length); auto.
Qed.

Lemma walk_larger : forall {S_} h ord (cb : S_ -> inst -> bytes -> option rvalue -> S_ * N) fuel fuel' ps s x,
  fuel <= fuel' -> walk h ord cb fuel ps s = OK x -> walk h ord cb fuel' ps s = OK x.
Proof.
  intros S_ h ord cb. induction fuel as [|fuel IH]; intros fuel' ps s x Hf E; [discriminate E|]. destruct fuel' as [|fuel']; [lia|].
  cbn [walk] in *. revert s E. induction ps as [|p ps IHp]; intros s E; [exact E|].
  destruct (hget h p) as [i|]; [|discriminate E]. destruct (cb s i [] None) as [s1 st]. destruct (has st Exit); [exact E|].
  destruct (if has st SkipProperties then (s1, true) else walk_props cb i (ord p (i_props i)) s1) as [s2 ok].
  destruct (negb ok); [exact E|]. destruct (has st SkipChildren); [now apply IHp|].
  destruct (walk h ord cb fuel (i_children i) s2) as [[s3 ok3]| | |] eqn:Ew; cbn [obind] in E; try discriminate E.
  rewrite (IH fuel' _ _ _ ltac:(lia) Ew). cbn [obind]. destruct (negb ok3); [exact E|]. now apply IHp.
Qed.
Lemma Fill_larger : forall ords fuel fuel' h r st, fuel <= fuel' -> Fill ords fuel h r = OK st -> Fill ords fuel' h r = OK st.
Proof.
  intros ords fuel fuel' h [r|] st Hf E; [|exact E]. unfold Fill in *.
  destruct (walk h (ords 0) on_property fuel _ _) as [[]| | |] eqn:E0; cbn [obind] in E; try discriminate E. rewrite (walk_larger _ _ _ _ _ _ _ _ Hf E0).
  destruct (walk h (ords 1) on_instance fuel _ _) as [[[]]| | |] eqn:E1; cbn [obind] in E; try discriminate E. rewrite (walk_larger _ _ _ _ _ _ _ _ Hf E1).
  destruct (walk h (ords 2) on_type fuel _ _) as [[]| | |] eqn:E2; cbn [obind] in E; try discriminate E. rewrite (walk_larger _ _ _ _ _ _ _ _ Hf E2).
  destruct (walk h (ords 3) on_optional fuel _ _) as [[]| | |] eqn:E3; cbn [obind] in E; try discriminate E. rewrite (walk_larger _ _ _ _ _ _ _ _ Hf E3).
  destruct (walk h (ords 4) on_length fuel _ _) as [[]| | |] eqn:E4; cbn [obind] in E; try discriminate E. rewrite (walk_larger _ _ _ _ _ _ _ _ Hf E4).
  exact E.
Qed.

(** The tables add up. *)
Theorem C89_totals : forall h ts r ords fuel st,
  Forall (tree_at h) ts -> r_instances r = map rroot ts -> (forall k, any_order (ords k)) ->
  Fill ords fuel h (Some r) = OK st ->
  total (st_classes st) = st_instances st /\ total (st_types st) = st_properties st /\
  total (st_optionals st) = occurs String.eqb (fun p => type_string (rtype (snd p))) (properties_of h ts) "Optional"%string /\
  total (st_largest st) = length (lengths h ts).
Proof.
  intros h ts r ords fuel st Hts Hr Ho E. apply Fill_larger with (fuel' := fuel + S (list_height ts)) in E; [|lia].
  rewrite (Fill_ok h ts) in E by (try assumption; lia). injection E as <-. unfold filled. cbn [st_instances st_properties st_classes st_types st_optionals st_largest total].
  rewrite !fold_total by (apply proplen_eqb_iff || apply string_eqb_iff || apply bytes_eqb_iff). cbn [map list_sum fold_right Nat.add]. rewrite map_length.
  rewrite <- (Permutation_length (events_perm (on_value keep_type) keep_type (fun _ _ _ => eq_refl) (fun _ _ => eq_refl) h _ ts (Ho 2))).
  rewrite <- (Permutation_length (events_perm (on_value keep_optional) keep_optional (fun _ _ _ => eq_refl) (fun _ _ => eq_refl) h _ ts (Ho 3))).
  rewrite <- (Permutation_length (events_perm (on_value keep_length) keep_length (fun _ _ _ => eq_refl) (fun _ _ => eq_refl) h _ ts (Ho 4))).
  split; [now apply instances_length|]. split; [unfold keep_type; rewrite <- (map_single (fun p => type_string (rtype (snd p)))); apply map_length|].
  split; [|reflexivity]. unfold occurs. induction (properties_of h ts) as [|[[c n] v] l IH]; [reflexivity|]. cbn [flat_map filter snd].
  rewrite app_length, IH. destruct v; reflexivity.
Qed.

(** ** C90: the list of largest properties *)
Lemma firstn_sorted_split : forall {A} (R : A -> A -> Prop) n l, StronglySorted R l ->
  StronglySorted R (firstn n l) /\ forall a b, In a (firstn n l) -> In b (skipn n l) -> R a b.
Proof.
  intros A R n l H. revert n. induction H as [|x l Hl IH Hx]; intros [|n]; cbn [firstn skipn].
  - split; [constructor|intros a b []].
  - split; [constructor|intros a b []].
  - split; [constructor|intros a b []].
  - destruct (IH n) as [H1 H2]. split.
    + constructor; [exact H1|]. rewrite Forall_forall in *. intros y Hy. apply Hx. rewrite <- (firstn_skipn n l). apply in_or_app. now left.
    + intros a b [<-|Ha] Hb; [|now apply H2]. rewrite Forall_forall in Hx. apply Hx. rewrite <- (firstn_skipn n l). apply in_or_app. now right.
Qed.

(** Of the distinct combinations of class, name, type and length in the tree
    the output lists the 20 with the greatest length, longest first, or all if
    there are not more; no entry is listed twice. *)
Theorem C90_largest : forall h ts r ords fuel st m order sorted,
  Forall (tree_at h) ts -> r_instances r = map rroot ts -> (forall k, any_order (ords k)) ->
  Fill ords fuel h (Some r) = OK st -> st_largest st = Some m ->
  (forall l, Permutation l (order l)) -> sorts sorted ->
  let out := marshal_largest order sorted m in
  NoDup out /\
  (forall k, In k out -> In k (lengths h ts)) /\
  StronglySorted (fun a b => pl_length b <= pl_length a) out /\
  length out <= 20 /\
  (length out < 20 -> forall k, In k (lengths h ts) -> In k out) /\
  (forall k k', In k (lengths h ts) -> ~ In k out -> In k' out -> pl_length k <= pl_length k').
Proof.
  intros h ts r ords fuel st m order sorted Hts Hr Ho E Em Hord Hs out.
  assert (Hc : counts proplen_eqb (fun k => k) (lengths h ts) (Some m)).
  { destruct (C89_counts h ts r ords Hts Hr Ho) as [n Hn]. destruct (Hn (fuel + n) ltac:(lia)) as (st' & E' & H).
    apply Fill_larger with (fuel' := fuel + n) in E; [|lia]. rewrite E in E'. injection E' as <-. rewrite <- Em. apply H. }
  destruct Hc as (t & Et & Hnd & Hin). injection Et as <-.
  assert (Hkeys : forall k, In k (map fst m) <-> In k (lengths h ts)).
  { intros k. split.
    - intros Hk. apply in_map_iff in Hk as ([k' n] & <- & Hk). cbn [fst]. apply Hin in Hk as [-> Hk]. unfold occurs in Hk.
      destruct (filter (fun a => proplen_eqb a k') (lengths h ts)) as [|x l] eqn:Ef; [now contradiction Hk|].
      assert (Hx : In x (filter (fun a => proplen_eqb a k') (lengths h ts))) by (rewrite Ef; now left).
      apply filter_In in Hx as [Hx Hq]. apply proplen_eqb_iff in Hq. now subst.
    - intros Hk. apply in_map_iff. exists (k, occurs proplen_eqb (fun k => k) (lengths h ts) k). split; [reflexivity|]. apply Hin. split; [reflexivity|].
      unfold occurs. assert (Hf : In k (filter (fun a => proplen_eqb a k) (lengths h ts))) by (apply filter_In; split; [exact Hk|now apply proplen_eqb_iff]).
      destruct (filter (fun a => proplen_eqb a k) (lengths h ts)); [destruct Hf|discriminate]. }
  set (full := sorted (order (map fst m))) in *. destruct (Hs (order (map fst m))) as [Hp Hsort]. fold full in Hp, Hsort.
  assert (Hpm : Permutation (map fst m) full) by (etransitivity; [apply Hord|exact Hp]).
  assert (Hout : out = firstn 20 full).
  { unfold out, marshal_largest. fold full. destruct (20 <? length full) eqn:El; [reflexivity|]. symmetry. apply firstn_all2. apply Nat.ltb_ge in El. exact El. }
  rewrite Hout. destruct (firstn_sorted_split _ 20 full Hsort) as [H1 H2].
  assert (Hfull : forall k, In k full <-> In k (lengths h ts)).
  { intros k. rewrite <- Hkeys. split; apply Permutation_in; [now symmetry|exact Hpm]. }
  assert (Hsplit : forall k, In k full -> In k (firstn 20 full) \/ In k (skipn 20 full)).
  { intros k Hk. rewrite <- (firstn_skipn 20 full) in Hk. now apply in_app_or in Hk. }
  assert (Hndf : NoDup full) by (eapply Permutation_NoDup; eassumption).
  split. { rewrite <- (firstn_skipn 20 full) in Hndf. clear -Hndf. induction (firstn 20 full) as [|x l IH]; [constructor|].
           cbn [app] in Hndf. inversion Hndf as [|? ? Ha Hb]; subst. constructor; [|now apply IH]. intros Hi. apply Ha. apply in_or_app. now left. }
  split. { intros k Hk. apply Hfull. rewrite <- (firstn_skipn 20 full). apply in_or_app. now left. }
  split; [exact H1|]. split; [rewrite firstn_length; lia|].
  split.
  - intros Hlt k Hk. apply Hfull in Hk. rewrite firstn_length in Hlt. rewrite firstn_all2 by lia. exact Hk.
  - intros k k' Hk Hno Hk'. apply Hfull in Hk. destruct (Hsplit k Hk) as [Hy|Hy]; [contradiction|]. now apply H2.
Qed.

(** ** C91: which roots have statistics *)
Theorem C91_no_root : forall ords fuel h, Fill ords fuel h None = OK (Stats 0 0 None None None None).
Proof. reflexivity. Qed.
(** A tree that contains itself never ends. *)
Lemma walk_cycle : forall {S_} h ord (cb : S_ -> inst -> bytes -> option rvalue -> S_ * N) (loop : ptr -> Prop),
  (forall s i n v, has (snd (cb s i n v)) Exit = false /\ has (snd (cb s i n v)) SkipChildren = false) ->
  (forall p, loop p -> exists i q qs, hget h p = Some i /\ i_children i = q :: qs /\ loop q) ->
  forall fuel p ps s, loop p -> walk h ord cb fuel (p :: ps) s = Hang.
Proof.
  intros S_ h ord cb loop Hcb Hl. induction fuel as [|fuel IH]; intros p ps s Hp; [reflexivity|]. cbn [walk].
  destruct (Hl p Hp) as (i & q & qs & Hi & Hc & Hq). rewrite Hi. destruct (Hcb s i [] None) as [H1 H2]. destruct (cb s i [] None) as [s1 st]. cbn [snd] in H1, H2. rewrite H1.
  assert (Hw : forall l s, snd (walk_props cb i l s) = true).
  { induction l as [|[n v] l IHl]; intros s'; [reflexivity|]. cbn [walk_props]. destruct (Hcb s' i n (Some v)) as [H3 _]. destruct (cb s' i n (Some v)) as [s2 st']. cbn [snd] in H3.
    rewrite H3. destruct (has st' SkipProperties); [reflexivity|apply IHl]. }
  assert (Hx : snd (if has st SkipProperties then (s1, true) else walk_props cb i (ord p (i_props i)) s1) = true) by (destruct (has st SkipProperties); [reflexivity|apply Hw]).
  destruct (if has st SkipProperties then (s1, true) else walk_props cb i (ord p (i_props i)) s1) as [s2 ok]. cbn [snd] in Hx. subst ok. cbn [negb]. rewrite H2, Hc.
  rewrite IH by exact Hq. reflexivity.
Qed.
(** A file that decodes without an error can overflow the stack of rbxfile-stat. *)
Theorem C91_cycle_refuted : exists f r h,
  decoded (file_of 1 2 [PInst 0 (str "A") [0; 1]%Z false []; PPrnt 0 [0; 1; 0]%Z [1; 0; -1]%Z]) = Some (f, r, h) /\
  forall ords fuel, Fill ords fuel h (Some r) = Hang.
Proof.
  destruct C30_cycle_refuted as (f & r & h & E & E1 & (x & Hx & Ex) & (y & Hy & Ey)). exists f, r, h. split; [exact E|]. clear E.
  intros ords fuel. unfold Fill. rewrite E1.
  rewrite (walk_cycle h (ords 0) on_property (fun p => p = 1 \/ p = 2)); [reflexivity| | |now left].
  - intros s i n [v|]; split; reflexivity.
  - intros p [->| ->]; [exists x, 2, []|exists y, 1, []]; auto.
Qed.
(** Statistics of a binary file with one parent link for each instance and no
    instance above itself, and of every XML file, end. *)
Theorem C91_decoded : forall lz spare noXML input f ws st q2m r h cws ords,
  decode lz spare noXML input = OK (DModel f, ws, st) -> codec_decode q2m f = OK (r, h, cws) ->
  NoDup (map fst (links_of [] (fm_chunks f))) -> (forall z, ~ ancestor (links_of [] (fm_chunks f)) z z) ->
  (forall k, any_order (ords k)) ->
  exists n s, forall fuel, n <= fuel -> Fill ords fuel h (Some r) = OK s.
Proof.
  intros lz spare noXML input f ws st q2m r h cws ords Hd H Hone Hac Ho.
  destruct (C30_forest _ _ _ _ _ _ _ _ _ _ _ Hd H Hone Hac) as (ts & [Hts _] & Hr).
  exists (S (list_height ts)), (filled ords h ts). intros fuel Hf. now apply Fill_ok.
Qed.
Theorem C91_decoded_xml : forall env discard input end_ r h ws ords,
  xml_decode env discard input end_ = OK (r, h, ws) -> (forall k, any_order (ords k)) ->
  exists n s, forall fuel, n <= fuel -> Fill ords fuel h (Some r) = OK s /\ st_instances s = length h.
Proof.
  intros env discard input end_ r h ws ords H Ho. destruct (C54_decode_forest _ _ _ _ _ _ _ H) as (d & ts & _ & Hr & [Hts _] & Hn & _).
  exists (S (list_height ts)), (filled ords h ts). intros fuel Hf. split; [now apply Fill_ok|]. unfold filled. cbn [st_instances]. now rewrite Hn, seq_length.
Qed.

(** ** C92: what the commands print *)
(** Something is printed exactly if something went wrong, and a warning is
    printed as it is. *)
Theorem C92_printed : forall {E} wlabel elabel (warn err : option E),
  (report wlabel elabel warn err = [] <-> warn = None /\ err = None) /\
  (forall w, warn = Some w -> In (Wrapped wlabel (Some w)) (report wlabel elabel warn err)).
Proof.
  intros E wl el [w|] [e|]; unfold report; cbn; split; try (split; [discriminate|intros [? ?]; discriminate]); try tauto; intros w' Hw; try discriminate; injection Hw as <-; now left.
Qed.
(** The error itself is never printed: the commands print the same lines for
    any two errors, and without a warning the nil error. *)
Theorem C92_error_refuted : forall {E} wlabel elabel (warn : option E) e e',
  report wlabel elabel warn (Some e) = report wlabel elabel warn (Some e') /\
  report wlabel elabel None (Some e) = [Wrapped elabel None].
Proof. intros. split; reflexivity. Qed.

(** ** A concrete tree *)
Definition stat_heap : heap :=
  [Inst (str "A") [] false [(str "s", RString (str "xyz")); (str "o", ROptional TypeCFrame None); (str "b", RBool true)] [2; 3];
   Inst (str "B") [] false [(str "s", RString (str "xyz"))] []; Inst (str "A") [] true [(str "s", RString (str "abc"))] []].
Definition rev_ord (_ : ptr) (l : list (bytes * rvalue)) := rev l.
Example C89_witness :
  Forall (tree_at stat_heap) [RNode 1 [RNode 2 []; RNode 3 []]] /\ any_order rev_ord /\
  Fill (fun _ => rev_ord) 3 stat_heap (Some (Root [1] [])) =
    OK (Stats 3 5 (Some [(str "A", 2); (str "B", 1)]) (Some [("Bool", 1); ("Optional", 1); ("String", 3)]%string)
          (Some [("CFrame", 1)]%string)
          (Some [(PropLen (str "A") (str "s") "String"%string 3, 2); (PropLen (str "B") (str "s") "String"%string 3, 1)])).
Proof.
  split; [|split; [intros p l; apply Permutation_rev|vm_compute; reflexivity]].
  constructor; [|constructor]. econstructor; [reflexivity|reflexivity|].
  repeat (constructor; [econstructor; [reflexivity|reflexivity|constructor]|]). constructor.
Qed.
Print Assumptions C89_counts.
Print Assumptions C89_totals.
Print Assumptions C90_largest.
Print Assumptions C91_no_root.
Print Assumptions C91_cycle_refuted.
Print Assumptions C91_decoded.
Print Assumptions C91_decoded_xml.
Print Assumptions C92_printed.
Print Assumptions C92_error_refuted.
