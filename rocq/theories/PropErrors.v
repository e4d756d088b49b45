(** PropErrors.v - C38: error lists. *)
From Verif Require Import Base Errors SpecErrors.

Lemma append_spec es : forall errs, errors_append errs es = errs ++ non_nil es.
Proof.
  unfold non_nil. induction es as [|[e|] es IH]; intros errs; cbn [errors_append filter].
  - now rewrite app_nil_r.
  - rewrite IH, <- app_assoc. reflexivity.
  - apply IH.
Qed.
Lemma drop_nil_spec l : drop_nil l = non_nil l.
Proof.
  unfold drop_nil, non_nil. enough (H : forall acc, fold_left (fun acc e => match e with Some _ => acc ++ [e] | None => acc end) l acc
    = acc ++ filter (fun e => match e with Some _ => true | None => false end) l) by apply (H []).
  induction l as [|[e|] l IH]; intros acc; cbn [fold_left filter].
  - now rewrite app_nil_r.
  - rewrite IH, <- app_assoc. reflexivity.
  - apply IH.
Qed.
Lemma union_loop_spec errs : forall e, union_loop e errs = e ++ flat_map parts errs.
Proof.
  induction errs as [|[[m|l]|] errs IH]; intros e; cbn [union_loop flat_map parts].
  - now rewrite app_nil_r.
  - rewrite IH, <- app_assoc. reflexivity.
  - rewrite IH, <- app_assoc, drop_nil_spec. reflexivity.
  - apply IH.
Qed.
Lemma non_nil_idem l : non_nil (non_nil l) = non_nil l.
Proof. unfold non_nil. induction l as [|[e|] l IH]; cbn [filter]; congruence. Qed.
Lemma parts_non_nil l : non_nil (flat_map parts l) = flat_map parts l.
Proof.
  induction l as [|e l IH]; [reflexivity|]. cbn [flat_map]. unfold non_nil in *. rewrite filter_app, IH. f_equal.
  destruct e as [[m|l0]|]; try reflexivity. apply non_nil_idem.
Qed.

(** C38: Union is the concatenation, in order, of the non-nil errors of its
    arguments, lists flattened one level; nil when there is none. *)
Theorem C38_union : forall errs,
  (Union errs = None <-> flat_map parts errs = []) /\
  (forall e, Union errs = Some e -> e = Errors (flat_map parts errs) /\ flat_map parts errs <> []) /\
  (forall x, In x (flat_map parts errs) -> x <> None).
Proof.
  intros errs. unfold Union, errors_return. rewrite union_loop_spec. cbn [app].
  split; [|split].
  - destruct (flat_map parts errs); split; congruence.
  - intros e. destruct (flat_map parts errs) eqn:E; [discriminate|]. intros [= <-]. split; [reflexivity|discriminate].
  - intros x Hx. rewrite <- parts_non_nil in Hx. apply filter_In in Hx. destruct x; [discriminate|now destruct Hx].
Qed.
(** Grouping does not matter. *)
Theorem C38_union_assoc : forall a b, Union [Union a; Union b] = Union (a ++ b).
Proof.
  intros a b. unfold Union at 1 4, errors_return. rewrite !union_loop_spec. cbn [app flat_map]. rewrite app_nil_r, flat_map_app.
  assert (H : forall l, parts (Union l) = flat_map parts l).
  { intros l. destruct (C38_union l) as (H1 & H2 & _). destruct (Union l) as [e|].
    - destruct (H2 e eq_refl) as [-> _]. cbn [parts]. apply parts_non_nil.
    - symmetry. now apply H1. }
  now rewrite !H.
Qed.
(** Append keeps the list and adds the non-nil arguments; Return is nil
    exactly for the empty list. *)
Theorem C38_append_return : forall errs es,
  errors_append errs es = errs ++ non_nil es /\
  (errors_return errs = None <-> errs = []) /\
  (forall e, errors_return errs = Some e -> e = Errors errs).
Proof.
  intros errs es. split; [apply append_spec|]. unfold errors_return. destruct errs; split; (split || intros e); try congruence.
Qed.

(** The message of two or more errors: a heading, then every line of every
    message indented by one tab. *)
Lemma indent_cons c m : indent (c :: m) = (if Byte.eqb c x0a then [x0a; x09] else [c]) ++ indent m.
Proof. reflexivity. Qed.
Lemma lines_cons cur s : exists l0 r, lines_from cur s = l0 :: r.
Proof.
  revert cur; induction s as [|c s IH]; intros cur; cbn [lines_from]; [eauto|].
  destruct (Byte.eqb c x0a); [eauto|apply IH].
Qed.
Lemma lines_indent m : forall cur acc t, exists l0 r,
  lines_from cur m = l0 :: r /\
  lines_from (cur ++ acc) (indent m ++ x0a :: t) = (rev acc ++ l0) :: map (cons x09) r ++ lines_from [] t /\
  lines_from (cur ++ acc) (indent m) = (rev acc ++ l0) :: map (cons x09) r.
Proof.
  induction m as [|c m IH]; intros cur acc t.
  - exists (rev cur), []. cbn. now rewrite rev_app_distr.
  - rewrite indent_cons. destruct (Byte.eqb c x0a) eqn:E; cbn [app lines_from]; rewrite E.
    + change (Byte.eqb x0a x0a) with true. change (Byte.eqb x09 x0a) with false. cbn iota.
      destruct (IH [] [x09] t) as (l0 & r & E1 & E2 & E3). cbn [app] in E2, E3. rewrite E1, E2, E3.
      exists (rev cur), (l0 :: r). rewrite rev_app_distr. split; [reflexivity|]. split; reflexivity.
    + destruct (IH (c :: cur) acc t) as (l0 & r & E1 & E2 & E3). exists l0, r. auto.
Qed.
Lemma lines_item m t : lines (x0a :: x09 :: indent m ++ x0a :: t) = [] :: map (cons x09) (lines m) ++ lines t.
Proof.
  unfold lines. cbn [lines_from]. change (Byte.eqb x0a x0a) with true. change (Byte.eqb x09 x0a) with false. cbn iota.
  destruct (lines_indent m [] [x09] t) as (l0 & r & E1 & E2 & _). cbn [app] in E2. rewrite E2, E1. reflexivity.
Qed.
Lemma lines_item_last m : lines (x0a :: x09 :: indent m) = [] :: map (cons x09) (lines m).
Proof.
  unfold lines. cbn [lines_from]. change (Byte.eqb x0a x0a) with true. change (Byte.eqb x09 x0a) with false. cbn iota.
  destruct (lines_indent m [] [x09] []) as (l0 & r & E1 & _ & E3). cbn [app] in E3. rewrite E3, E1. reflexivity.
Qed.
Definition item (m : bytes) : bytes := x0a :: x09 :: indent m.
Lemma lines_items ms : ms <> [] -> lines (flat_map item ms) = [] :: map (cons x09) (flat_map lines ms).
Proof.
  induction ms as [|m ms IH]; [congruence|]. intros _. cbn [flat_map]. destruct ms as [|m' ms].
  - cbn [flat_map]. rewrite !app_nil_r. apply lines_item_last.
  - specialize (IH ltac:(discriminate)). unfold item at 1. cbn [app].
    change (flat_map item (m' :: ms)) with (x0a :: (x09 :: indent m') ++ flat_map item ms) in *.
    rewrite lines_item, map_app. f_equal. f_equal.
    change (lines (x0a :: (x09 :: indent m') ++ flat_map item ms)) with ([] :: lines ((x09 :: indent m') ++ flat_map item ms)) in IH.
    now injection IH.
Qed.
Lemma lines_app a : forall b, existsb (Byte.eqb x0a) a = false -> lines (a ++ x0a :: b) = a :: lines b.
Proof.
  unfold lines. enough (H : forall b cur, existsb (Byte.eqb x0a) a = false ->
    lines_from cur (a ++ x0a :: b) = (rev cur ++ a) :: lines_from [] b) by (intros b; apply (H b [])).
  induction a as [|c a IH]; intros b cur H; cbn [app lines_from].
  - change (Byte.eqb x0a x0a) with true. now rewrite app_nil_r.
  - cbn [existsb] in H. apply orb_false_iff in H. destruct H as [H1 H2].
    assert (Hc : Byte.eqb c x0a = false).
    { destruct (Byte.eqb c x0a) eqn:E; [|reflexivity]. apply Byte.byte_dec_bl in E. subst. discriminate. }
    rewrite Hc, IH by exact H2. cbn [rev]. now rewrite <- app_assoc.
Qed.

Definition go_items := fix go (l : list (option error)) : outcome Empty_set bytes :=
  match l with
  | [] => OK []
  | None :: _ => Panic
  | Some e :: l => m <- error_message e ;; r <- go l ;; OK (x0a :: x09 :: indent m ++ r)
  end.
Lemma go_items_ok es ms : Forall2 (fun e m => error_message e = OK m) es ms ->
  go_items (map Some es) = OK (flat_map item ms).
Proof.
  induction 1 as [|e m es ms H _ IH]; [reflexivity|]. cbn [map go_items flat_map]. rewrite H. cbn [obind]. rewrite IH. reflexivity.
Qed.
Theorem C38_message : forall es ms,
  Forall2 (fun e m => error_message e = OK m) es ms ->
  match es, ms with
  | [], _ => error_message (Errors (map Some es)) = OK (str "no errors")
  | [e], _ => error_message (Errors (map Some es)) = error_message e
  | _, _ => exists m, error_message (Errors (map Some es)) = OK m /\
              lines m = str "multiple errors:" :: map (cons x09) (flat_map lines ms)
  end.
Proof.
  intros es0 ms0 H0. destruct H0 as [|e m es1 ms1 He H1]; [reflexivity|].
  destruct H1 as [|e' m' es ms He' H]; [reflexivity|].
  exists (str "multiple errors:" ++ flat_map item (m :: m' :: ms)). split.
  - change (error_message (Errors (map Some (e :: e' :: es)))) with
      (x <- go_items (map Some (e :: e' :: es)) ;; OK (str "multiple errors:" ++ x)).
    rewrite (go_items_ok _ (m :: m' :: ms)); [reflexivity|]. constructor; [exact He|constructor; [exact He'|exact H]].
  - pose proof (lines_items (m :: m' :: ms) ltac:(discriminate)) as L.
    change (flat_map item (m :: m' :: ms)) with (x0a :: (x09 :: indent m) ++ flat_map item (m' :: ms)) in *.
    rewrite lines_app by reflexivity. f_equal.
    change (lines (x0a :: (x09 :: indent m) ++ flat_map item (m' :: ms)))
      with ([] :: lines ((x09 :: indent m) ++ flat_map item (m' :: ms))) in L. now injection L.
Qed.
(** Formatting never panics when no nil was put into a list, as is the case for
    everything Append and Union build from such errors. *)
Fixpoint error_size (e : error) : nat :=
  match e with
  | Single _ => 0
  | Errors l => S (list_sum (map (fun x => match x with Some e => S (error_size e) | None => 0 end) l))
  end.
Theorem C38_message_total : forall e, no_nil e -> exists m, error_message e = OK m.
Proof.
  intros e. remember (error_size e) as n eqn:En. assert (Hn : error_size e <= n) by lia. clear En. revert e Hn.
  induction n as [|n IH]; intros e Hn H.
  - destruct e; [cbn; eauto|cbn in Hn; lia].
  - inversion H as [m|l Hl]; subst; [cbn; eauto|].
    assert (Hes : exists es ms, l = map Some es /\ Forall2 (fun e m => error_message e = OK m) es ms).
    { assert (Hs : list_sum (map (fun x => match x with Some e => S (error_size e) | None => 0 end) l) <= n) by (cbn in Hn; lia).
      clear Hn H. unfold list_sum in *. induction l as [|x l IHl]; [exists [], []; split; [reflexivity|constructor]|].
      destruct (Hl x (or_introl eq_refl)) as (e & -> & He). cbn [map fold_right] in Hs.
      destruct IHl as (es & ms & E1 & E2); [intros y Hy; apply Hl; now right|lia|].
      destruct (IH e) as [m Hm]; [lia|exact He|]. exists (e :: es), (m :: ms). subst l. split; [reflexivity|now constructor]. }
    destruct Hes as (es & ms & -> & Hf). pose proof (C38_message es ms Hf) as M.
    destruct Hf as [|e m es1 ms1 He Hf]; [eauto|]. destruct Hf as [|e' m' es ms He' Hf]; [rewrite M; eauto|].
    destruct M as (m0 & M & _). eauto.
Qed.
Theorem C38_union_no_nil : forall errs e,
  (forall x, In (Some x) errs -> no_nil x) -> Union errs = Some e -> no_nil e.
Proof.
  intros errs e H Hu. destruct (C38_union errs) as (_ & H2 & H3). destruct (H2 e Hu) as [-> _]. constructor.
  intros x Hx. destruct x as [y|]; [|now destruct (H3 _ Hx)]. exists y. split; [reflexivity|].
  apply in_flat_map in Hx. destruct Hx as ([[m|l]|] & Hz & Hy); cbn [parts] in Hy.
  - destruct Hy as [Hy|[]]. injection Hy as <-. constructor.
  - apply filter_In in Hy. destruct Hy as [Hy _]. specialize (H _ Hz). inversion H as [|l' Hl]; subst.
    destruct (Hl _ Hy) as (e' & [= <-] & He'). exact He'.
  - destruct Hy.
Qed.

Example C38_witness :
  Union [None; Some (Single (str "a")); Some (Errors [None; Some (Single (str "b"))])] =
    Some (Errors [Some (Single (str "a")); Some (Single (str "b"))]) /\
  error_message (Errors [Some (Single (str "a" ++ [x0a] ++ str "b")); Some (Single (str "c"))]) =
    OK (str "multiple errors:" ++ [x0a; x09] ++ str "a" ++ [x0a; x09] ++ str "b" ++ [x0a; x09] ++ str "c").
Proof. split; reflexivity. Qed.
Print Assumptions C38_union.
Print Assumptions C38_union_assoc.
Print Assumptions C38_append_return.
Print Assumptions C38_message.
Print Assumptions C38_message_total.
Print Assumptions C38_union_no_nil.
