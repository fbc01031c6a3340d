(** C43 (entity lookup) and the lookup half of C44. *)
From Coq Require Import List Arith NArith Lia Bool String FinFun.
From Verif Require Import Prelude Utf8 Text Names Namespace PropNames.
Import ListNotations.
Local Open Scope nat_scope.
Local Open Scope list_scope.

Local Arguments lower : simpl never.
Local Arguments upper : simpl never.

(** ** Specification *)

(** [iri] is declared in the graph as an entity of kind [k] *)
Definition declared (r : registry) (iri : str) (k : kind) : Prop :=
  In (iri, PType, OKind k) (r_graph r).

(** [i] is bound to a non-empty prefix name and [iri] starts with it *)
Definition in_bound_ns (r : registry) (iri i : str) : Prop :=
  (exists n, n <> [] /\ In (n, i) (st_ns (r_store r))) /\ exists suffix, iri = i ++ suffix.

(** the IRI can be split in a namespace and a name *)
Definition splittable (r : registry) (iri : str) : Prop :=
  (exists i, in_bound_ns r iri i) \/ In hash iri \/ In slash iri.

(** the names of namespaces are different even when case is ignored, and the
    dictionary has been updated after the last binding *)
Definition dict_ok (r : registry) : Prop :=
  forall n i, In (n, i) (st_ns (r_store r)) -> assoc (lower n) (r_dict r) = Some i.

(** ** Dictionaries *)
Lemma assoc_In {A} k (v : A) l : assoc k l = Some v -> In (k, v) l.
Proof.
  induction l as [|[k' v'] l IH]; cbn; [discriminate|].
  destruct (str_eqb_spec k k') as [->|]; [intros [= ->]; auto | auto].
Qed.
Lemma assoc_None {A} k (l : list (str * A)) : assoc k l = None <-> ~ In k (map fst l).
Proof.
  induction l as [|[k' v'] l IH]; cbn; [tauto|].
  destruct (str_eqb_spec k k') as [->|Hn]; [split; [discriminate | intros H; exfalso; auto]|].
  rewrite IH. split; [intros H [E|E]; [congruence|tauto] | tauto].
Qed.
Lemma In_assoc {A} k (v : A) l : NoDup (map fst l) -> In (k, v) l -> assoc k l = Some v.
Proof.
  induction l as [|[k' v'] l IH]; cbn; [tauto|]. intros HN [E|E]; inversion HN; subst.
  - injection E as -> ->. now rewrite str_eqb_refl.
  - destruct (str_eqb_spec k k') as [->|]; [|auto].
    exfalso. apply H1. apply in_map_iff. now exists (k', v).
Qed.
Lemma assoc_dset {A} k (v : A) l k' :
  assoc k' (dset k v l) = if str_eqb k' k then Some v else assoc k' l.
Proof.
  induction l as [|[a b] l IH]; cbn; [reflexivity|].
  destruct (str_eqb_spec k a) as [->|Hn]; cbn.
  - destruct (str_eqb k' a); reflexivity.
  - rewrite IH. destruct (str_eqb_spec k' a) as [->|]; [|reflexivity].
    destruct (str_eqb_spec a k); [congruence|reflexivity].
Qed.
Lemma dset_fresh {A} k (v : A) l : assoc k l = None -> dset k v l = l ++ [(k, v)].
Proof.
  induction l as [|[a b] l IH]; cbn; [reflexivity|].
  destruct (str_eqb k a); [discriminate|]. intros H. now rewrite IH.
Qed.
Lemma dset_same {A} k (v : A) l : assoc k l = Some v -> dset k v l = l.
Proof.
  induction l as [|[a b] l IH]; cbn; [discriminate|].
  destruct (str_eqb_spec k a) as [->|Hn]; [intros [= ->]; reflexivity|]. intros H. now rewrite IH.
Qed.

(** ** Splitting an IRI *)
Lemma first_prefix_spec iri b n i : first_prefix iri b = Some (n, i) ->
  In (n, i) b /\ n <> [] /\ exists sfx, iri = i ++ sfx.
Proof.
  induction b as [|[n' i'] b IH]; cbn; [discriminate|].
  destruct (startswith i' iri && negb (str_eqb n' [])) eqn:E.
  - intros [= -> ->]. apply andb_true_iff in E as [E1 E2]. apply startswith_iff in E1.
    apply negb_true_iff, str_eqb_neq in E2. auto.
  - intros H. destruct (IH H) as (H1 & H2 & H3). auto.
Qed.
Lemma first_prefix_none iri b : first_prefix iri b = None ->
  forall n i, In (n, i) b -> n <> [] -> ~ exists sfx, iri = i ++ sfx.
Proof.
  induction b as [|[n' i'] b IH]; cbn; [tauto|].
  destruct (startswith i' iri && negb (str_eqb n' [])) eqn:E; [discriminate|].
  intros H n i [[= -> ->]|Hi] Hn Hs; [|eapply IH; eauto].
  apply startswith_iff in Hs. rewrite Hs in E. apply str_eqb_neq in Hn. now rewrite Hn in E.
Qed.
(** the first binding among those that match *)
Lemma first_prefix_first iri b n i : first_prefix iri b = Some (n, i) ->
  exists b1 b2, b = b1 ++ (n, i) :: b2 /\
    forall n' i', In (n', i') b1 -> n' <> [] -> ~ exists sfx, iri = i' ++ sfx.
Proof.
  induction b as [|[n' i'] b IH]; cbn; [discriminate|].
  destruct (startswith i' iri && negb (str_eqb n' [])) eqn:E.
  - intros [= -> ->]. exists [], b. split; [reflexivity|intros ? ? []].
  - intros H. destruct (IH H) as (b1 & b2 & -> & Hb). exists ((n', i') :: b1), b2.
    split; [reflexivity|]. intros n1 i1 [[= -> ->]|Hi] Hn; [|eauto].
    intros Hs. apply startswith_iff in Hs. rewrite Hs in E. apply str_eqb_neq in Hn. now rewrite Hn in E.
Qed.

Lemma existsb_In c s : existsb (N.eqb c) s = true <-> In c s.
Proof.
  rewrite existsb_exists. split.
  - intros (x & Hx & E). apply N.eqb_eq in E. now subst.
  - intros H. exists c. split; [auto|apply N.eqb_refl].
Qed.

Lemma split_first c s : In c s -> exists r, s = hd [] (split_on c s) ++ c :: r.
Proof.
  induction s as [|x s IH]; [cbn; tauto|]. cbn. destruct (N.eqb_spec x c) as [->|Hn].
  - intros _. now exists s.
  - intros [->|Hi]; [congruence|]. destruct (IH Hi) as [r Hr].
    pose proof (split_on_nonempty c s). destruct (split_on c s) as [|w ws] eqn:E; [congruence|].
    cbn in *. exists r. f_equal. exact Hr.
Qed.
Lemma hd_split_no c s : ~ In c (hd [] (split_on c s)).
Proof.
  pose proof (split_on_no_sep_inside c s) as H. pose proof (split_on_nonempty c s).
  destruct (split_on c s); [congruence|]. now inversion H.
Qed.

Lemma join_removelast c l w w2 : 
  join_with [c] (removelast (w :: w2 :: l)) ++ [c] ++ last (w :: w2 :: l) [] = join_with [c] (w :: w2 :: l).
Proof.
  revert w w2; induction l as [|w3 l IH]; intros w w2; [reflexivity|].
  change (removelast (w :: w2 :: w3 :: l)) with (w :: removelast (w2 :: w3 :: l)).
  change (last (w :: w2 :: w3 :: l) []) with (last (w2 :: w3 :: l) ([] : str)).
  change (join_with [c] (w :: w2 :: w3 :: l)) with (w ++ [c] ++ join_with [c] (w2 :: w3 :: l)).
  rewrite <- IH. change (removelast (w2 :: w3 :: l)) with (w2 :: removelast (w3 :: l)).
  change (join_with [c] (w :: w2 :: removelast (w3 :: l))) with (w ++ [c] ++ join_with [c] (w2 :: removelast (w3 :: l))).
  now rewrite <- !app_assoc.
Qed.

Lemma split_last c s : In c s ->
  s = join_with [c] (but_last (split_on c s)) ++ [c] ++ last (split_on c s) [].
Proof.
  intros H. unfold but_last. pose proof (join_split c s) as J.
  destruct (split_on c s) as [|w [|w2 l]] eqn:E.
  - now apply split_on_nonempty in E.
  - exfalso. pose proof (split_on_no_sep_inside c s) as HN. rewrite E in HN. cbn in J. rewrite J in HN. inversion HN; contradiction.
  - rewrite join_removelast. auto.
Qed.

Lemma ns_of_iri_splits r iri : splittable r iri ->
  exists sfx, iri = snd (ns_of_iri r iri) ++ sfx.
Proof.
  intros H. unfold ns_of_iri.
  destruct (first_prefix iri (st_ns (r_store r))) as [[n i]|] eqn:E.
  - apply first_prefix_spec in E as (_ & _ & E). exact E.
  - assert (Hs : In hash iri \/ In slash iri).
    { destruct H as [(i & (n & Hn & Hi) & Hp)|H]; [|exact H].
      exfalso. eapply first_prefix_none; eauto. }
    cbn. destruct (existsb (N.eqb hash) iri) eqn:Eh.
    + apply existsb_In in Eh. destruct (split_first _ _ Eh) as [q Hq]. exists q.
      rewrite <- app_assoc. exact Hq.
    + destruct Hs as [Hs|Hs]; [apply existsb_In in Hs; congruence|].
      exists (last (split_on slash iri) []). rewrite <- app_assoc. now apply split_last.
Qed.

Lemma first_kind_some g allow iri k : first_kind g allow iri = Some k ->
  In (iri, PType, OKind k) g /\ In k allow.
Proof.
  induction g as [|[[s p] o] g IH]; cbn; [discriminate|].
  assert (IH' : first_kind g allow iri = Some k ->
     ((s, p, o) = (iri, PType, OKind k) \/ In (iri, PType, OKind k) g) /\ In k allow)
    by (intros H; destruct (IH H); auto).
  destruct p; try exact IH'. destruct o; try exact IH'.
  destruct (str_eqb s iri && existsb (kind_eqb k0) allow) eqn:E; [|exact IH'].
  intros [= ->]. apply andb_true_iff in E as [E1 E2]. apply str_eqb_eq in E1 as ->.
  split; [auto|]. apply existsb_exists in E2 as (x & Hx & E). destruct k, x; discriminate || exact Hx.
Qed.
Lemma first_kind_none g allow iri : first_kind g allow iri = None ->
  forall k, In k allow -> ~ In (iri, PType, OKind k) g.
Proof.
  intros H k Hk. induction g as [|[[s p] o] g IH]; cbn in *; [tauto|].
  intros [E|E].
  - injection E as -> -> ->. rewrite str_eqb_refl in H. cbn in H.
    replace (existsb (kind_eqb k) allow) with true in H; [discriminate|].
    symmetry. apply existsb_exists. exists k. split; [auto|destruct k; reflexivity].
  - apply IH; [|exact E]. destruct p; try exact H. destruct o; try exact H.
    destruct (str_eqb s iri && existsb (kind_eqb k0) allow); [discriminate|exact H].
Qed.

(** ** C43: from_iri *)

(** What [from_iri] returns stands for that IRI and has a declared, allowed kind. *)
Theorem C43_from_iri_sound : forall r allow iri name e,
  splittable r iri -> from_iri r allow iri name = Ok e ->
  e_iri e = iri /\ declared r iri (e_kind e) /\ In (e_kind e) allow.
Proof.
  intros r allow iri name e Hs H. unfold from_iri in H.
  destruct (ns_of_iri_splits r iri Hs) as [sfx Hsfx].
  set (ns := snd (ns_of_iri r iri)) in *.
  match type of H with match ?x with _ => _ end = _ => destruct x as [n|]; [|discriminate] end.
  destruct (first_kind (r_graph r) allow iri) as [k|] eqn:E; [|discriminate]. injection H as <-.
  apply first_kind_some in E as [E1 E2]. unfold e_iri; cbn. repeat split; auto.
  clearbody ns. subst iri. now rewrite after_app.
Qed.

(** It raises only if the IRI is not declared with an allowed kind (KeyError), or
    the namespace is referenced by label and the entity has no label. *)
Lemma pref_label_total g iri : (exists o, In (iri, PPrefLabel, o) g) ->
  (forall o, In (iri, PPrefLabel, o) g -> exists t l, o = OLit t l) -> exists t, pref_label g iri = Ok t.
Proof.
  induction g as [|[[s p] o] g IH]; [intros (o & []) _|]. intros Hex Hall.
  assert (Hg : (exists o', In (iri, PPrefLabel, o') g) -> exists t, pref_label g iri = Ok t).
  { intros Hx. apply IH; [exact Hx|]. intros o' Ho'. apply Hall. now right. }
  assert (Hskip : (s <> iri \/ p <> PPrefLabel) -> exists o', In (iri, PPrefLabel, o') g).
  { intros Hne. destruct Hex as (o' & [[= -> -> ->]|Ho']); [tauto | eauto]. }
  destruct p; cbn [pref_label]; try (apply Hg, Hskip; right; discriminate).
  destruct (str_eqb_spec s iri) as [->|Hne]; [|apply Hg, Hskip; now left].
  destruct (Hall o) as (t & l & ->); [now left|]. eauto.
Qed.
Lemma pref_label_sound g iri t : pref_label g iri = Ok t -> exists l, In (iri, PPrefLabel, OLit t l) g.
Proof.
  induction g as [|[[s p] o] g IH]; [discriminate|]. destruct p; cbn [pref_label];
    try (intros H; destruct (IH H) as (l & Hl); exists l; now right).
  destruct (str_eqb_spec s iri) as [->|Hne].
  - destruct o as [k|i|t' l|]; try discriminate. intros [= ->]. exists l. now left.
  - intros H. destruct (IH H) as (l & Hl). exists l. now right.
Qed.
(** In a namespace referenced by label the name of an entity is one of its labels. *)
Theorem C43_label_is_name : forall r allow iri e, from_iri r allow iri None = Ok e ->
  In (e_ns e, PRefByLabel, OTrue) (r_graph r) ->
  exists lang, In (iri, PPrefLabel, OLit (e_name e) lang) (r_graph r).
Proof.
  intros r allow iri e H HL. unfold from_iri in H. set (ns := snd (ns_of_iri r iri)) in *.
  destruct (by_label r ns) eqn:EB.
  - destruct (pref_label (r_graph r) iri) as [t|] eqn:E; [|discriminate].
    destruct (first_kind (r_graph r) allow iri); [|discriminate]. injection H as <-. cbn [e_name].
    now apply pref_label_sound.
  - destruct (first_kind (r_graph r) allow iri); [|discriminate]. injection H as <-. cbn [e_ns] in HL.
    assert (by_label r ns = true); [|congruence]. unfold by_label. apply existsb_exists.
    exists (ns, PRefByLabel, OTrue). split; [exact HL | apply str_eqb_refl].
Qed.
Theorem C43_from_iri_complete : forall r allow iri name k,
  declared r iri k -> In k allow ->
  (name <> None \/ by_label r (snd (ns_of_iri r iri)) = false
    \/ ((exists o, In (iri, PPrefLabel, o) (r_graph r)) /\
        forall o, In (iri, PPrefLabel, o) (r_graph r) -> exists t l, o = OLit t l)) ->
  exists e, from_iri r allow iri name = Ok e.
Proof.
  intros r allow iri name k Hd Hk Hl. unfold from_iri.
  assert (Hn : exists n, match name with
         | Some n => Ok n
         | None => if by_label r (snd (ns_of_iri r iri)) then pref_label (r_graph r) iri
                   else Ok (after (snd (ns_of_iri r iri)) iri)
         end = Ok n).
  { destruct name as [n|]; [eauto|]. destruct Hl as [Hl|[->|[Hl Hlit]]]; [congruence|eauto|].
    destruct (pref_label_total (r_graph r) iri Hl Hlit) as [t Ht].
    destruct (by_label r (snd (ns_of_iri r iri))); eauto. }
  destruct Hn as [n ->].
  destruct (first_kind (r_graph r) allow iri) as [k'|] eqn:E; [eauto|].
  exfalso. eapply first_kind_none; eauto.
Qed.
Theorem C43_from_iri_keyerror : forall r allow iri name,
  (forall k, In k allow -> ~ declared r iri k) -> forall e, from_iri r allow iri name <> Ok e.
Proof.
  intros r allow iri name H e He. unfold from_iri in He.
  match type of He with match ?x with _ => _ end = _ => destruct x as [n|]; [|discriminate] end.
  destruct (first_kind (r_graph r) allow iri) as [k|] eqn:E; [|discriminate].
  apply first_kind_some in E as [E1 E2]. exact (H k E2 E1).
Qed.

(** An IRI with neither "#" nor "/" outside all bound namespaces is misread:
    the entity returned for it stands for another IRI. *)
Definition exUrn : registry :=
  Reg (Store [] []) [] [(lit "urn:isbn:1", PType, OKind Class)].
Theorem C43_from_iri_unsplittable_refuted :
  ~ (forall r iri e, from_iri r all_kinds iri None = Ok e -> e_iri e = iri).
Proof.
  intros H. specialize (H exUrn (lit "urn:isbn:1") (Ent Class (lit "/") (lit "rn:isbn:1") (lit "rn:isbn:1")) eq_refl).
  vm_compute in H. discriminate.
Qed.

(** The namespace is the one with a matching prefix: the first in the order of
    bindings, so the only one if no two bound IRIs are prefixes of one another. *)
Theorem C43_namespace_of_entity : forall r allow iri name e,
  from_iri r allow iri name = Ok e -> (exists i, in_bound_ns r iri i) ->
  in_bound_ns r iri (e_ns e) /\
  (forall i, in_bound_ns r iri i -> (forall j, in_bound_ns r iri j -> j = i) -> e_ns e = i) /\
  (name = None -> by_label r (e_ns e) = false -> e_name e = e_suffix e).
Proof.
  intros r allow iri name e H [i0 Hi0]. unfold from_iri in H.
  assert (HB : in_bound_ns r iri (snd (ns_of_iri r iri))).
  { unfold ns_of_iri. destruct (first_prefix iri (st_ns (r_store r))) as [[n i]|] eqn:E.
    - apply first_prefix_spec in E as (E1 & E2 & E3). split; [eauto|exact E3].
    - exfalso. destruct Hi0 as ((n & Hn & Hi) & Hp). eapply first_prefix_none; eauto. }
  destruct name as [nm|].
  - destruct (first_kind (r_graph r) allow iri); [|discriminate]. injection H as <-. cbn.
    repeat split; try apply HB; [|discriminate]. intros i _ Hu. now apply Hu.
  - destruct (by_label r (snd (ns_of_iri r iri))) eqn:EL.
    + destruct (pref_label (r_graph r) iri); [|discriminate].
      destruct (first_kind (r_graph r) allow iri); [|discriminate]. injection H as <-. cbn.
      repeat split; try apply HB; [|congruence]. intros i _ Hu. now apply Hu.
    + destruct (first_kind (r_graph r) allow iri); [|discriminate]. injection H as <-. cbn.
      repeat split; try apply HB; auto.
Qed.

(** Not the longest match: with nested namespace IRIs the earlier binding wins. *)
Definition exNested : registry :=
  update_namespaces (Reg
    (ns_bind (lit "b") (lit "http://x/b#") (ns_bind (lit "a") (lit "http://x/") (Store [] []))) []
    [(lit "http://x/b#T", PType, OKind Class)]).
Theorem C43_longest_prefix_refuted :
  ~ (forall r iri e i, from_iri r all_kinds iri None = Ok e -> in_bound_ns r iri i ->
       List.length i <= List.length (e_ns e)).
Proof.
  intros H. specialize (H exNested (lit "http://x/b#T")
    (Ent Class (lit "http://x/") (lit "b#T") (lit "b#T")) (lit "http://x/b#") eq_refl).
  cbn in H. assert (11 <= 9); [apply H|lia].
  split; [exists (lit "b"); split; [discriminate|right; left; reflexivity]|]. now exists (lit "T").
Qed.

(** ** The namespace object of an entity *)

Lemma lower_lower s : lower (lower s) = lower s.
Proof. unfold lower. rewrite map_map. apply map_ext. intros; apply low1_low1. Qed.
Lemma lower_upper s : lower (upper s) = lower s.
Proof. unfold lower, upper. rewrite map_map. apply map_ext. intros; apply low1_up1. Qed.

(** Namespaces are found whatever the case of their name. *)
Theorem C43_namespace_case_insensitive : forall r n m,
  lower n = lower m -> get_ns r n = get_ns r m.
Proof. intros r n m H. unfold get_ns. now rewrite H. Qed.

Theorem C43_namespace_found : forall r n i,
  dict_ok r -> In (n, i) (st_ns (r_store r)) ->
  get_ns r n = Ok (Ns (lower n) i (by_label r i)) /\
  get_ns r (upper n) = Ok (Ns (lower n) i (by_label r i)).
Proof.
  intros r n i Hd Hin. rewrite (C43_namespace_case_insensitive r (upper n) n) by apply lower_upper.
  unfold get_ns. rewrite (Hd n i Hin). auto.
Qed.

(** [update_namespaces] establishes [dict_ok] when no two names agree up to case. *)
Theorem C43_update_namespaces : forall r,
  NoDup (map (fun nb => lower (fst nb)) (st_ns (r_store r))) ->
  dict_ok (update_namespaces r).
Proof.
  intros r HN n i Hin. cbn in *.
  assert (G : forall (b d : bindings), NoDup (map (fun nb => lower (fst nb)) b) ->
     (forall nb, In nb b -> assoc (lower (fst nb)) d = None) ->
     forall k v, (In (k, v) b \/ (assoc (lower k) d = Some v)) ->
     assoc (lower k) (fold_left (fun d nb => dset (lower (fst nb)) (snd nb) d) b d) = Some v).
  { induction b as [|[a c] b IH]; cbn; intros d HNb Hd k v Hkv; [tauto|].
    inversion HNb as [|? ? Hna HNb']; subst. apply IH; auto.
    - intros [a' c'] Ha'. cbn. rewrite assoc_dset.
      destruct (str_eqb_spec (lower a') (lower a)) as [E|].
      + exfalso. apply Hna. rewrite <- E. apply in_map_iff. now exists (a', c').
      + apply (Hd (a', c')). auto.
    - rewrite assoc_dset. destruct Hkv as [[[= -> ->]|Hb]|Hb]; auto.
      + right. now rewrite str_eqb_refl.
      + right. destruct (str_eqb_spec (lower k) (lower a)) as [E|]; [|auto].
        exfalso. rewrite E in Hb. pose proof (Hd (a, c) (or_introl eq_refl)) as Hx. cbn in Hx. congruence. }
  apply G; auto.
Qed.

Lemma ns_of_ns r iri : splittable r iri ->
  ns_of_iri r (snd (ns_of_iri r iri)) = ns_of_iri r iri.
Proof.
  intros Hs. unfold ns_of_iri at 2 3.
  destruct (first_prefix iri (st_ns (r_store r))) as [[n i]|] eqn:E.
  - cbn. unfold ns_of_iri. apply first_prefix_spec in E as HH. destruct HH as (Hin & Hn & (sfx & ->)).
    apply first_prefix_first in E as (b1 & b2 & Eb & Hb).
    rewrite Eb. clear -Hb Hn.
    replace (first_prefix i (b1 ++ (n, i) :: b2)) with (Some (n, i)); [reflexivity|].
    induction b1 as [|[n' i'] b1 IH]; cbn.
    + replace (startswith i i) with true by (symmetry; apply startswith_iff; exists []; now rewrite app_nil_r).
      apply str_eqb_neq in Hn. now rewrite Hn.
    + destruct (startswith i' i && negb (str_eqb n' [])) eqn:E.
      * exfalso. apply andb_true_iff in E as [E1 E2]. apply negb_true_iff, str_eqb_neq in E2.
        apply startswith_iff in E1 as [q ->].
        apply (Hb n' i' (or_introl eq_refl) E2). exists (q ++ sfx). now rewrite app_assoc.
      * apply IH. intros n1 i1 H1. apply Hb. now right.
  - assert (Hs' : In hash iri \/ In slash iri).
    { destruct Hs as [(i & (n & Hn & Hi) & Hp)|H]; [|exact H].
      exfalso. eapply first_prefix_none; eauto. }
    assert (Hno : forall p q, iri = p ++ q -> first_prefix p (st_ns (r_store r)) = None).
    { intros p q ->. destruct (first_prefix p (st_ns (r_store r))) as [[n i]|] eqn:Ep; [|reflexivity].
      exfalso. apply first_prefix_spec in Ep as (H1 & H2 & (sfx & ->)).
      eapply (first_prefix_none _ _ E n i H1 H2). exists (sfx ++ q). now rewrite app_assoc. }
    cbn [snd]. destruct (existsb (N.eqb hash) iri) eqn:Eh.
    + apply existsb_In in Eh. destruct (split_first _ _ Eh) as [q Hq].
      unfold ns_of_iri. rewrite (Hno _ q) by (rewrite <- app_assoc; exact Hq).
      replace (existsb (N.eqb hash) (hd [] (split_on hash iri) ++ [hash])) with true
        by (symmetry; apply existsb_In, in_app_iff; cbn; auto).
      rewrite (split_on_app hash _ []) by apply hd_split_no. reflexivity.
    + destruct Hs' as [Hs'|Hs']; [apply existsb_In in Hs'; congruence|].
      unfold ns_of_iri. rewrite (Hno _ (last (split_on slash iri) [])) by (rewrite <- app_assoc; now apply split_last).
      destruct (existsb (N.eqb hash) (join_with [slash] (but_last (split_on slash iri)) ++ [slash])) eqn:Eh2.
      * exfalso. apply existsb_In in Eh2. assert (Hh : In hash iri).
        { rewrite (split_last slash iri Hs'). rewrite app_assoc. apply in_app_iff. auto. }
        apply existsb_In in Hh. congruence.
      * replace (but_last (split_on slash (join_with [slash] (but_last (split_on slash iri)) ++ [slash])))
          with (but_last (split_on slash iri)); [reflexivity|].
        pose proof (split_on_no_sep_inside slash iri) as HF.
        assert (HL : exists w ws, but_last (split_on slash iri) = w :: ws).
        { pose proof (join_split slash iri) as J. unfold but_last.
          destruct (split_on slash iri) as [|w [|w2 l]] eqn:E2; [now apply split_on_nonempty in E2| |cbn; eauto].
          exfalso. cbn in J. subst. inversion HF; contradiction. }
        set (l := but_last (split_on slash iri)) in *.
        assert (HFl : Forall (fun w => ~ In slash w) l).
        { apply Forall_forall. intros x Hx. rewrite Forall_forall in HF. apply HF.
          unfold l, but_last in Hx. clear -Hx. induction (split_on slash iri) as [|w [|w2 ws] IH]; cbn in *; tauto. }
        assert (HJ : join_with [slash] l ++ [slash] = join_with [slash] (l ++ [[]])).
        { destruct HL as (w & ws & ->). clear. revert w; induction ws as [|w2 ws IH]; intros w; [reflexivity|].
          change (join_with [slash] (w :: w2 :: ws)) with (w ++ [slash] ++ join_with [slash] (w2 :: ws)).
          change (join_with [slash] ((w :: w2 :: ws) ++ [[]])) with (w ++ [slash] ++ join_with [slash] ((w2 :: ws) ++ [[]])).
          rewrite <- IH, <- !app_assoc. reflexivity. }
        rewrite HJ, split_join.
        -- unfold but_last. now rewrite removelast_last.
        -- destruct l; discriminate.
        -- apply Forall_app. split; [exact HFl|]. constructor; [cbn; tauto|constructor].
Qed.

(** [entity.namespace] has the IRI under which the entity was found.  (No
    namespace is named like an IRI.) *)
Theorem C43_entity_namespace : forall r allow iri name e,
  dict_ok r -> (forall n, In n (map fst (r_dict r)) -> ~ In slash n /\ ~ In hash n) ->
  splittable r iri -> from_iri r allow iri name = Ok e ->
  n_iri (entity_namespace r e) = e_ns e.
Proof.
  intros r allow iri name e Hd Hplain Hs H. unfold from_iri in H.
  match type of H with match ?x with _ => _ end = _ => destruct x as [n|]; [|discriminate] end.
  destruct (first_kind (r_graph r) allow iri); [|discriminate]. injection H as <-. cbn.
  unfold entity_namespace, namespace_from_iri; cbn [e_ns].
  rewrite (ns_of_ns r iri Hs). destruct (ns_of_iri r iri) as [nm i] eqn:E. cbn [snd].
  destruct (assoc nm (r_dict r)) as [j|] eqn:Ej; [|reflexivity].
  unfold get_ns. unfold ns_of_iri in E.
  destruct (first_prefix iri (st_ns (r_store r))) as [[n' i']|] eqn:Ep.
  - injection E as -> ->. apply first_prefix_spec in Ep as (Hin & _ & _).
    rewrite (Hd _ _ Hin). reflexivity.
  - exfalso. injection E as Enm Ei. apply assoc_In in Ej.
    destruct (Hplain nm) as [P1 P2]; [apply in_map_iff; now exists (nm, j)|].
    destruct (existsb (N.eqb hash) iri); subst nm; [apply P2|apply P1]; apply in_app_iff; cbn; auto.
Qed.

(** When two names agree up to case, an entity's namespace object can be a
    different namespace. *)
Definition exCase : registry :=
  update_namespaces (Reg
    (ns_bind (lit "A") (lit "http://y#") (ns_bind (lit "a") (lit "http://x#") (Store [] []))) []
    [(lit "http://x#T", PType, OKind Class)]).
Theorem C43_entity_namespace_case_refuted :
  ~ (forall r iri e, r_dict r = r_dict (update_namespaces r) -> splittable r iri ->
       from_iri r all_kinds iri None = Ok e -> n_iri (entity_namespace r e) = e_ns e).
Proof.
  intros H. specialize (H exCase (lit "http://x#T")
    (Ent Class (lit "http://x#") (lit "T") (lit "T")) eq_refl).
  assert (E : lit "http://y#" = lit "http://x#"); [|discriminate].
  apply H; [|reflexivity]. right. left. cbn. tauto.
Qed.

(** ** Lookup by name *)

(** An entity of a namespace is found under its name, and is that entity. *)
Theorem C43_get_by_name : forall r n (name : str) k,
  n_by_label n = false -> declared r (n_iri n ++ name) k ->
  splittable r (n_iri n ++ name) ->
  exists e, ns_get r n name = Ok (Found e) /\ e_iri e = n_iri n ++ name /\ e_name e = name.
Proof.
  intros r n name k HL HD HS.
  destruct (C43_from_iri_complete r all_kinds (n_iri n ++ name) (Some name) k) as [e He]; auto.
  { destruct k; cbn; auto. }
  { left; discriminate. }
  exists e. split; [unfold ns_get, get_with, do_get_with; rewrite HL, He; reflexivity|].
  split; [eapply C43_from_iri_sound; eauto|].
  unfold from_iri in He. destruct (first_kind _ _ _); [|discriminate]. injection He as <-. reflexivity.
Qed.

(** A lookup that succeeds gives an entity of this namespace whose name is the
    one asked for up to case and underscores, or the inverse of one whose name
    prefixed with INVERSE_OF_ is. *)
Lemma from_iri_found r n (a : str) e : splittable r (n_iri n ++ a) ->
  from_iri r all_kinds (n_iri n ++ a) (Some a) = Ok e -> e_iri e = n_iri n ++ a /\ e_name e = a.
Proof.
  intros HS H. split; [eapply C43_from_iri_sound; eauto|].
  unfold from_iri in H. destruct (first_kind _ _ _); [|discriminate]. injection H as <-. reflexivity.
Qed.

Lemma norm_inverse name : startswith inverse_prefix name = true ->
  norm name = norm inverse_prefix ++ norm (after inverse_prefix name).
Proof.
  intros H. apply startswith_iff in H as [q ->]. rewrite after_app.
  unfold norm, lower. rewrite map_app, filter_app. reflexivity.
Qed.

Lemma do_get_cs_sound r n retry a f :
  (forall x, splittable r (n_iri n ++ x)) -> n_by_label n = false ->
  do_get_with retry r n true a = Ok f -> exists e, f = Found e /\ e_iri e = n_iri n ++ a.
Proof.
  intros HS HL. unfold do_get_with. rewrite HL.
  destruct (from_iri r all_kinds (n_iri n ++ a) (Some a)) as [e|[]] eqn:E; try discriminate.
  intros [= <-]. exists e. split; [reflexivity|]. eapply from_iri_found; eauto.
Qed.

Theorem C43_get_sound : forall r n name f,
  n_by_label n = false -> (forall x, splittable r (n_iri n ++ x)) ->
  ns_get r n name = Ok f ->
  exists e m, e_iri e = n_iri n ++ m /\
    match f with
    | Found _ => f = Found e /\ (norm m = norm name \/ norm name = norm inverse_prefix ++ norm inverse_prefix ++ norm m)
    | InverseOf _ => f = InverseOf e /\ norm name = norm inverse_prefix ++ norm m
    end.
Proof.
  intros r n name f HL HS.
  assert (HG : forall retry a g, get_with retry r n true a = Ok g ->
     exists e m, e_iri e = n_iri n ++ m /\
       ((g = Found e /\ m = a) \/ (g = InverseOf e /\ norm a = norm inverse_prefix ++ norm m))).
  { intros retry a g. unfold get_with.
    destruct (do_get_with retry r n true a) as [g'|[]] eqn:E; try discriminate.
    - intros [= <-]. apply do_get_cs_sound in E as (e & -> & He); auto. exists e, a. auto.
    - destruct (startswith inverse_prefix a) eqn:EP; [|discriminate].
      destruct (do_get_with retry r n true (after inverse_prefix a)) as [g'|] eqn:E2; [|discriminate].
      apply do_get_cs_sound in E2 as (e & -> & He); auto.
      destruct (e_kind e); try discriminate. intros [= <-]. exists e, (after inverse_prefix a).
      split; [auto|]. right. split; [reflexivity|]. now apply norm_inverse. }
  assert (HD : forall a g, do_get_with (get_case_insensitive r n) r n false a = Ok g ->
     exists e m, e_iri e = n_iri n ++ m /\
       ((g = Found e /\ norm m = norm a) \/ (g = InverseOf e /\ norm a = norm inverse_prefix ++ norm m))).
  { intros a g. unfold do_get_with. rewrite HL.
    destruct (from_iri r all_kinds (n_iri n ++ a) (Some a)) as [e|[]] eqn:E; try discriminate.
    - intros [= <-]. apply from_iri_found in E as [E1 E2]; auto. exists e, a. auto.
    - unfold get_case_insensitive. destruct (alt a _) as [[b|]|] eqn:EA; try discriminate.
      apply C44_alternative_is_same_name in EA as (EN & _ & _). intros H.
      apply HG in H as (e & m & He & [[-> ->]|[-> Hm]]); exists e; eexists; (split; [exact He|]).
      + left. auto.
      + right. split; [reflexivity|]. now rewrite <- EN. }
  unfold ns_get, get_with.
  destruct (do_get_with (get_case_insensitive r n) r n false name) as [g'|[]] eqn:E; try discriminate.
  - intros [= <-]. apply HD in E as (e & m & He & [[-> Hm]|[-> Hm]]); exists e, m; auto.
  - destruct (startswith inverse_prefix name) eqn:EP; [|discriminate].
    destruct (do_get_with (get_case_insensitive r n) r n false (after inverse_prefix name)) as [g'|] eqn:E2; [|discriminate].
    apply HD in E2 as (e & m & He & [[-> Hm]|[-> Hm]]).
    + destruct (e_kind e); try discriminate. intros [= <-]. exists e, m. split; [auto|]. split; [reflexivity|].
      rewrite norm_inverse by auto. now rewrite Hm.
    + intros [= <-]. exists e, m. split; [auto|]. split; [reflexivity|]. right.
      rewrite norm_inverse by auto. now rewrite Hm.
Qed.

(** Inverses are found of relationships only. *)
Theorem C43_inverse_of_relationship : forall r n name e,
  ns_get r n name = Ok (InverseOf e) -> e_kind e = Relationship.
Proof.
  intros r n name e.
  assert (HF : forall nm sfx e, get_forced r n nm sfx = Ok (InverseOf e) -> e_kind e = Relationship).
  { intros nm sfx e'. unfold get_forced. destruct (from_iri r all_kinds (n_iri n ++ sfx) (Some nm)) as [x|[]]; try discriminate.
    destruct (startswith inverse_prefix nm); [|discriminate].
    destruct (from_iri r all_kinds (n_iri n ++ sfx) (Some (after inverse_prefix nm))) as [y|]; [|discriminate].
    destruct (e_kind y) eqn:K; try discriminate. intros [= <-]. exact K. }
  assert (HI : forall label lang l e, get_item r n label lang = Ok l -> In (InverseOf e) l -> e_kind e = Relationship).
  { intros label lang l e' H Hin. unfold get_item in H.
    assert (HM : forall xs l', mapM (item_one r n label) xs = Ok l' -> In (InverseOf e') l' -> e_kind e' = Relationship).
    { induction xs as [|x xs IHx]; intros l' Hm Hi; cbn [mapM] in Hm; [injection Hm as <-; destruct Hi|].
      destruct (item_one r n label x) as [y|] eqn:Ey; [|discriminate]. destruct (mapM (item_one r n label) xs) as [ys|]; [|discriminate].
      injection Hm as <-. destruct Hi as [->|Hi]; [|now apply (IHx ys)].
      unfold item_one in Ey. destruct x; [destruct (n_by_label n); [discriminate|]|]; now apply HF in Ey. }
    destruct (mapM (item_one r n label) (labelled r n label lang)) as [[|y ys]|] eqn:Em; try discriminate. injection H as <-.
    now apply (HM _ _ Em). }
  assert (HD : forall retry cs a, (forall b e, retry b = Ok (InverseOf e) -> e_kind e = Relationship) ->
     forall e, do_get_with retry r n cs a = Ok (InverseOf e) -> e_kind e = Relationship).
  { intros retry cs a HR e' H. unfold do_get_with in H. destruct (n_by_label n).
    - destruct (get_item r n a (Some (lit "en"))) as [[|y l]|] eqn:Ei; try discriminate. injection H as ->.
      eapply HI; [exact Ei | now left].
    - destruct (from_iri r all_kinds (n_iri n ++ a) (Some a)) as [x|[]]; try discriminate. destruct cs; [discriminate|]. now apply HR in H. }
  assert (HG : forall retry cs a, (forall b e, retry b = Ok (InverseOf e) -> e_kind e = Relationship) ->
     forall e, get_with retry r n cs a = Ok (InverseOf e) -> e_kind e = Relationship).
  { intros retry cs a HR e' H. unfold get_with in H. destruct (do_get_with retry r n cs a) as [f|[]] eqn:Ed; try discriminate.
    - injection H as ->. eapply HD; [exact HR | exact Ed].
    - destruct (startswith inverse_prefix a); [|discriminate].
      destruct (do_get_with retry r n cs (after inverse_prefix a)) as [[y|y]|]; try discriminate.
      destruct (e_kind y) eqn:K; try discriminate. injection H as <-. exact K. }
  apply HG. intros b e' H. unfold get_case_insensitive in H. destruct (alt b (str_eqb (n_name n) (lit "cuba"))) as [[c|]|]; try discriminate.
  revert H. apply HG. discriminate.
Qed.

(** [get_entity("ns.name")] is the lookup of the name in the namespace; anything without exactly
    one dot is a ValueError. *)
Theorem C43_get_entity : forall r,
  (forall ns name, ~ In dot ns -> ~ In dot name ->
     (forall n, get_ns r ns = Ok n -> get_entity r (ns ++ [dot] ++ name) = ns_get r n name)
     /\ (forall e, get_ns r ns = Err e -> get_entity r (ns ++ [dot] ++ name) = Err e))
  /\ (forall text, (forall ns name, ~ In dot ns -> ~ In dot name -> text <> ns ++ [dot] ++ name) ->
        get_entity r text = Err ValueError).
Proof.
  intros r. split.
  - intros ns name H1 H2. unfold get_entity. cbn [app]. rewrite split_on_app by exact H1. rewrite split_on_nosep by exact H2.
    split; intros x ->; reflexivity.
  - intros text H. unfold get_entity. pose proof (join_split dot text) as J. pose proof (split_on_no_sep_inside dot text) as F.
    destruct (split_on dot text) as [|a [|b [|c l]]]; try reflexivity. exfalso.
    inversion_clear F as [|? ? Fa F']. inversion_clear F' as [|? ? Fb _]. apply (H a b Fa Fb). symmetry. exact J.
Qed.

(** C44, lookup: in an ontology that still uses ALL_CAPS names, the converted
    name finds the entity with the old name, unless an entity has exactly the
    converted name. *)
Theorem C44_lookup_converted_name : forall r n caps c s w k,
  old_first c -> Forall old_char s -> camel_local caps (c :: s) = Ok w ->
  words_ok s -> (In 95%N s -> (caps = false /\ c <> 95%N) \/ inner_letter s) ->
  n_by_label n = false -> n_name n <> lit "cuba" ->
  (forall k', ~ declared r (n_iri n ++ w) k') ->
  declared r (n_iri n ++ c :: s) k -> splittable r (n_iri n ++ c :: s) ->
  exists e, ns_get r n w = Ok (Found e) /\ e_iri e = n_iri n ++ c :: s.
Proof.
  intros r n caps c s w k Hc HF Hw HW HI HL Hcuba Hno HD HS.
  assert (HA : alt w false = Ok (Some (c :: s))) by (eapply C44_old_name_found_iff; eauto).
  assert (HE : from_iri r all_kinds (n_iri n ++ w) (Some w) = Err KeyError).
  { unfold from_iri. destruct (first_kind (r_graph r) all_kinds (n_iri n ++ w)) eqn:E; [|reflexivity].
    apply first_kind_some in E as [E _]. now apply Hno in E. }
  destruct (C43_from_iri_complete r all_kinds (n_iri n ++ c :: s) (@Some str (c :: s)) k) as [e He]; auto.
  { destruct k; cbn; auto. }
  { left; discriminate. }
  exists e. split; [|eapply C43_from_iri_sound; eauto].
  unfold ns_get, get_with, do_get_with. rewrite HL, HE.
  unfold get_case_insensitive. replace (str_eqb (n_name n) (lit "cuba")) with false
    by (symmetry; now apply str_eqb_neq).
  rewrite HA. unfold get_with, do_get_with. rewrite HL, He. reflexivity.
Qed.

(** ** Lookup by label and iteration *)

Lemma mapM_ok_in {A B} (f : A -> res B) l r : mapM f l = Ok r ->
  forall y, In y r <-> exists x, In x l /\ f x = Ok y.
Proof.
  revert r; induction l as [|x l IH]; cbn; intros r H y.
  - injection H as <-. split; [intros [] | intros (? & [] & _)].
  - destruct (f x) as [b|] eqn:E; [|discriminate]. destruct (mapM f l) as [bs|]; [|discriminate].
    injection H as <-. cbn. rewrite (IH bs eq_refl y). split.
    + intros [<-|(x' & Hx & Hf)]; eauto.
    + intros (x' & [<-|Hx] & Hf); [left; congruence | right; eauto].
Qed.

Lemma mapM_ok_fwd {A B} (f : A -> res B) l r : mapM f l = Ok r ->
  forall x, In x l -> exists y, In y r /\ f x = Ok y.
Proof.
  revert r; induction l as [|a l IH]; cbn; intros r H x Hx; [destruct Hx|].
  destruct (f a) as [b|] eqn:E; [|discriminate]. destruct (mapM f l) as [bs|]; [|discriminate].
  injection H as <-. destruct Hx as [<-|Hx]; [exists b; cbn; auto|].
  destruct (IH bs eq_refl x Hx) as (y & Hy & Hf). exists y. cbn; auto.
Qed.

(** [list(ns)] gives exactly the entities declared with an IRI in the namespace. *)
Theorem C43_iteration : forall r n l,
  (exists nm, nm <> [] /\ In (nm, n_iri n) (st_ns (r_store r))) ->
  ns_iter r n = Ok l ->
  forall iri, In iri (map e_iri l) <->
    (exists k, declared r iri k) /\ exists sfx, iri = n_iri n ++ sfx.
Proof.
  intros r n l Hb H iri.
  assert (HS : forall x, splittable r (n_iri n ++ x)).
  { intros x. left. exists (n_iri n). split; [exact Hb|]. eauto. }
  assert (HF : forall sfx e, iter_one r n sfx = Ok e -> e_iri e = n_iri n ++ sfx).
  { intros [|c sfx] e; unfold iter_one; [destruct (n_by_label n); discriminate|]. intros He.
    eapply C43_from_iri_sound; eauto. }
  assert (Hsf : forall x, In x (ns_suffixes r n) <-> exists k, declared r (n_iri n ++ x) k).
  { intros x. unfold ns_suffixes, declared. rewrite in_flat_map. split.
    - intros (k & _ & Hx). apply in_flat_map in Hx as ([[s p] o] & Ht & Hx).
      destruct p; try (now destruct Hx). destruct o as [k'| | |]; try (now destruct Hx).
      destruct (kind_eqb k k' && startswith (n_iri n) s) eqn:E; [|destruct Hx].
      apply andb_true_iff in E as [_ E]. apply startswith_iff in E as [q ->].
      destruct Hx as [<-|[]]. rewrite after_app. eauto.
    - intros [k Hk]. exists k. split; [destruct k; cbn; auto|]. apply in_flat_map.
      exists (n_iri n ++ x, PType, OKind k). split; [exact Hk|]. cbn.
      replace (kind_eqb k k) with true by (destruct k; reflexivity).
      rewrite startswith_app, after_app. cbn. auto. }
  unfold ns_iter in H. pose proof (mapM_ok_in _ _ _ H) as HM.
  rewrite in_map_iff. split.
  - intros (e & <- & He). apply HM in He as (sfx & Hin & He). apply HF in He.
    rewrite He. apply Hsf in Hin. eauto.
  - intros (Hk & sfx & ->). apply Hsf in Hk.
    pose proof (mapM_ok_fwd _ _ _ H _ Hk) as Hall.
    destruct Hall as (e & He & Hf). exists e. split; [now apply HF|exact He].
Qed.

(** [ns[label]] gives exactly the entities of the namespace with that label. *)
Theorem C43_get_by_label : forall r n label l,
  (forall x, splittable r (n_iri n ++ x)) ->
  startswith inverse_prefix label = false ->
  n_by_label n = true ->
  get_item r n label (Some (lit "en")) = Ok l ->
  l <> [] /\
  (forall f, In f l -> exists e, f = Found e /\ e_name e = label) /\
  forall sfx, In (n_iri n ++ sfx, PPrefLabel, OLit label (Some (lit "en"))) (r_graph r) <->
     exists e, In (Found e) l /\ e_iri e = n_iri n ++ sfx.
Proof.
  intros r n label l HS Hinv HL H. unfold get_item in H.
  destruct (mapM (item_one r n label) (labelled r n label (Some (lit "en")))) as [l'|] eqn:EM; [|discriminate].
  assert (l' = l /\ l <> []) as [-> Hne] by (destruct l'; [discriminate|]; split; congruence).
  clear H. split; [exact Hne|].
  assert (Hlab : forall x, In x (labelled r n label (Some (lit "en"))) <->
             In (n_iri n ++ x, PPrefLabel, OLit label (Some (lit "en"))) (r_graph r)).
  { intros x. unfold labelled. rewrite in_flat_map. split.
    - intros ([[s p] o] & Ht & Hx). destruct p; try (now destruct Hx). destruct o as [| |t g|]; try (now destruct Hx).
      destruct (str_eqb t label && ostr_eqb g (Some (lit "en")) && startswith (n_iri n) s) eqn:E; [|destruct Hx].
      apply andb_true_iff in E as [E E3]. apply andb_true_iff in E as [E1 E2].
      apply str_eqb_eq in E1 as ->. destruct g as [g|]; [|discriminate]. apply str_eqb_eq in E2 as ->.
      apply startswith_iff in E3 as [q ->]. destruct Hx as [<-|[]]. now rewrite after_app.
    - intros Hx. exists (n_iri n ++ x, PPrefLabel, OLit label (Some (lit "en"))). split; [exact Hx|].
      rewrite startswith_app, after_app, str_eqb_refl.
      cbn [ostr_eqb]. rewrite str_eqb_refl. cbn. auto. }
  assert (HG : forall sfx f, item_one r n label sfx = Ok f -> exists e, f = Found e /\ e_name e = label /\ e_iri e = n_iri n ++ sfx).
  { intros sfx f. unfold item_one. rewrite HL. cbn zeta. destruct sfx as [|c sfx]; [discriminate|]. unfold get_forced.
    destruct (from_iri r all_kinds (n_iri n ++ c :: sfx) (Some label)) as [e|[]] eqn:E; try discriminate.
    - intros [= <-]. exists e. split; [reflexivity|]. split.
      + unfold from_iri in E. destruct (first_kind _ _ _); [|discriminate]. injection E as <-. reflexivity.
      + eapply C43_from_iri_sound; eauto.
    - rewrite Hinv. discriminate. }
  pose proof (mapM_ok_in _ _ _ EM) as HM. split.
  - intros f Hf. apply HM in Hf as (x & _ & Hx). destruct (HG _ _ Hx) as (e & -> & He & _). eauto.
  - intros sfx. rewrite <- Hlab. split.
    + intros Hin. destruct (mapM_ok_fwd _ _ _ EM _ Hin) as (y & Hy & Hf).
      destruct (HG _ _ Hf) as (e & -> & _ & He). eauto.
    + intros (e & He & Hi). apply HM in He as (x & Hx & Hf). destruct (HG _ _ Hf) as (e' & [= <-] & _ & Hi').
      rewrite Hi in Hi'. apply app_inv_head in Hi'. now subst.
Qed.

(** ** namespaces.txt *)

(** What bind maintains: an IRI's remembered prefix is bound to it, and no
    prefix is bound to the empty IRI. *)
Definition store_ok (st : store) : Prop :=
  (forall i q, assoc i (st_prefix st) = Some q -> assoc q (st_ns st) = Some i) /\
  (forall p, assoc p (st_ns st) <> Some []).

Lemma store_bind_ok st p iri : store_ok st -> iri <> [] ->
  (forall i, assoc p (st_ns st) = Some i -> i = iri) -> store_ok (store_bind p iri st).
Proof.
  intros [H1 H2] Hi Hp. split; cbn.
  - intros i q. rewrite !assoc_dset.
    destruct (str_eqb_spec i iri) as [->|].
    + intros [= <-]. now rewrite str_eqb_refl.
    + intros H. apply H1 in H. destruct (str_eqb_spec q p) as [->|]; [|exact H].
      apply Hp in H. congruence.
  - intros q. rewrite assoc_dset. destruct (str_eqb q p); [congruence|apply H2].
Qed.

Lemma free_prefix_free fuel p iri n b q : free_prefix fuel p iri n b = Some q -> assoc q b = None.
Proof.
  revert n; induction fuel as [|fuel IH]; cbn; intros n; [discriminate|].
  destruct (assoc (p ++ dec n) b) as [i|] eqn:E.
  - destruct (str_eqb i iri); [discriminate|apply IH].
  - intros [= <-]. exact E.
Qed.

(** The invariant holds initially and after every bind. *)
Theorem C43_bind_invariant : store_ok (Store [] []) /\
  forall st p iri, store_ok st -> iri <> [] -> store_ok (ns_bind p iri st).
Proof.
  split; [split; cbn; discriminate|]. intros st p iri Hok Hi. unfold ns_bind.
  assert (G : (forall i, assoc p (st_ns st) = Some i -> i = iri) ->
     store_ok match assoc iri (st_prefix st) with
         | Some q => if str_eqb q p then st else store_bind p iri st
         | None => store_bind p iri st
         end).
  { intros HH. destruct (assoc iri (st_prefix st)) as [q|]; [destruct (str_eqb q p); [exact Hok|]|];
    now apply store_bind_ok. }
  destruct (assoc p (st_ns st)) as [[|x i]|] eqn:E.
  - exfalso. exact (proj2 Hok p E).
  - destruct (str_eqb_spec (x :: i) iri) as [<-|].
    + apply G. now intros i' [= <-].
    + destruct (free_prefix _ _ _ _ _) as [q|] eqn:EF; [|exact Hok].
      apply free_prefix_free in EF. apply store_bind_ok; auto. intros i' Hi'. congruence.
  - apply G. discriminate.
Qed.

(** Bind never takes an existing prefix away from its IRI. *)
Theorem C43_bind_keeps_bindings : forall st p iri q i,
  store_ok st -> assoc q (st_ns st) = Some i -> assoc q (st_ns (ns_bind p iri st)) = Some i.
Proof.
  intros st p iri q i Hok Hq. unfold ns_bind.
  assert (G : (forall i, assoc p (st_ns st) = Some i -> i = iri) ->
     assoc q (st_ns match assoc iri (st_prefix st) with
         | Some q' => if str_eqb q' p then st else store_bind p iri st
         | None => store_bind p iri st
         end) = Some i).
  { intros HH. assert (HB : assoc q (st_ns (store_bind p iri st)) = Some i).
    { cbn. rewrite assoc_dset. destruct (str_eqb_spec q p) as [->|]; [|exact Hq].
      now rewrite (HH i Hq). }
    destruct (assoc iri (st_prefix st)) as [q'|]; [destruct (str_eqb q' p); [exact Hq|]|]; exact HB. }
  destruct (assoc p (st_ns st)) as [[|x i']|] eqn:E.
  - exfalso. exact (proj2 Hok p E).
  - destruct (str_eqb_spec (x :: i') iri) as [<-|].
    + apply G. now intros i2 [= <-].
    + destruct (free_prefix _ _ _ _ _) as [q'|] eqn:EF; [|exact Hq].
      apply free_prefix_free in EF. cbn. rewrite assoc_dset.
      destruct (str_eqb_spec q q') as [->|]; [congruence|exact Hq].
  - apply G. discriminate.
Qed.

(** Among the candidates of a prefix one is free or already bound to the IRI. *)
Lemma free_prefix_none fuel p iri b : forall n,
  free_prefix fuel p iri n b = None ->
  (exists q, assoc q b = Some iri) \/
  (forall k, k < fuel -> In (p ++ dec (n + N.of_nat k)) (map fst b)).
Proof.
  induction fuel as [|fuel IH]; cbn [free_prefix]; intros n; [right; lia|].
  destruct (assoc (p ++ dec n) b) as [i|] eqn:E; [|discriminate].
  destruct (str_eqb_spec i iri) as [->|]; [left; eauto|].
  intros H. apply IH in H as [H|H]; [now left|right]. intros [|k] Hk.
  - rewrite N.add_0_r. apply assoc_In in E. now apply (in_map fst) in E.
  - rewrite Nat2N.inj_succ, <- N.add_succ_comm. apply H. lia.
Qed.

(** After a bind the IRI is bound: to the wanted prefix if that was free, and
    to some prefix in any case. *)
Theorem C43_bind : forall st p iri, store_ok st -> iri <> [] ->
  (exists q, assoc q (st_ns (ns_bind p iri st)) = Some iri) /\
  (assoc p (st_ns st) = None -> assoc p (st_ns (ns_bind p iri st)) = Some iri).
Proof.
  intros st p iri Hok Hi. unfold ns_bind.
  assert (G : (forall i, assoc p (st_ns st) = Some i -> i = iri) ->
     assoc p (st_ns match assoc iri (st_prefix st) with
         | Some q' => if str_eqb q' p then st else store_bind p iri st
         | None => store_bind p iri st
         end) = Some iri).
  { intros HH.
    assert (HB : assoc p (st_ns (store_bind p iri st)) = Some iri).
    { cbn. now rewrite assoc_dset, str_eqb_refl. }
    destruct (assoc iri (st_prefix st)) as [q'|] eqn:Eq; [|exact HB].
    destruct (str_eqb_spec q' p) as [->|]; [|exact HB]. now apply (proj1 Hok). }
  destruct (assoc p (st_ns st)) as [[|x i']|] eqn:E.
  - exfalso. exact (proj2 Hok p E).
  - split; [|discriminate]. destruct (str_eqb_spec (x :: i') iri) as [<-|].
    + exists p. apply G. now intros i2 [= <-].
    + destruct (free_prefix _ _ _ _ _) as [q'|] eqn:EF.
      * exists q'. cbn. now rewrite assoc_dset, str_eqb_refl.
      * apply free_prefix_none in EF as [H|H]; [exact H|]. exfalso.
        set (m := S (List.length (st_ns st))) in *.
        set (p' := match p with [] => lit "default" | _ :: _ => p end) in *.
        set (f := fun k => p' ++ dec (1 + N.of_nat k)).
        assert (Hnd : NoDup (map f (seq 0 m))).
        { apply FinFun.Injective_map_NoDup; [|apply seq_NoDup]. intros a c Hac.
          apply app_inv_head in Hac. apply dec_inj in Hac. lia. }
        assert (Hin : incl (map f (seq 0 m)) (map fst (st_ns st))).
        { intros y Hy. apply in_map_iff in Hy as (k & <- & Hk). apply in_seq in Hk. apply H. lia. }
        pose proof (NoDup_incl_length Hnd Hin) as Hl. rewrite !map_length, seq_length in Hl. lia.
  - split; [exists p|intros _]; apply G; discriminate.
Qed.

(** a free prefix gets the IRI it is bound to *)
Lemma ns_bind_fresh st p iri : store_ok st -> assoc p (st_ns st) = None ->
  st_ns (ns_bind p iri st) = st_ns st ++ [(p, iri)].
Proof.
  intros Hok E. unfold ns_bind. rewrite E.
  destruct (assoc iri (st_prefix st)) as [q|] eqn:Eq.
  - destruct (str_eqb_spec q p) as [->|]; [apply (proj1 Hok) in Eq; congruence|].
    cbn. now apply dset_fresh.
  - cbn. now apply dset_fresh.
Qed.
Lemma ns_bind_again st p iri : store_ok st -> assoc p (st_ns st) = Some iri ->
  st_ns (ns_bind p iri st) = st_ns st.
Proof.
  intros Hok E. unfold ns_bind. rewrite E. destruct iri as [|x i]; [exfalso; exact (proj2 Hok p E)|].
  rewrite str_eqb_refl.
  destruct (assoc (x :: i) (st_prefix st)) as [q|]; [destruct (str_eqb q p); [reflexivity|]|];
  cbn; now apply dset_same.
Qed.

Definition plain (s : str) : Prop := ~ In tab s /\ ~ In newline s /\ ~ In cr s.

Lemma lines_aux_line cur l rest : ~ In newline l -> ~ In cr l ->
  lines_aux cur (l ++ newline :: rest) = (rev cur ++ l) :: lines_aux [] rest.
Proof.
  revert cur; induction l as [|c l IH]; intros cur H1 H2.
  - cbn. now rewrite app_nil_r.
  - cbn. destruct (N.eqb_spec c newline) as [->|]; [exfalso; apply H1; cbn; auto|].
    destruct (N.eqb_spec c cr) as [->|]; [exfalso; apply H2; cbn; auto|].
    rewrite IH; [|cbn in *; tauto|cbn in *; tauto]. cbn. now rewrite <- app_assoc.
Qed.

Lemma lines_store b : Forall (fun nb => plain (fst nb) /\ plain (snd nb)) b ->
  lines (store_namespaces b) = map (fun nb => fst nb ++ [tab] ++ snd nb) b.
Proof.
  unfold lines. induction b as [|[n i] b IH]; intros H; [reflexivity|]. inversion H as [|? ? [[P1 [P2 P3]] [Q1 [Q2 Q3]]] HF]; subst.
  cbn [store_namespaces flat_map map fst snd] in *. fold (store_namespaces b).
  replace ((n ++ [tab] ++ i ++ [newline]) ++ store_namespaces b)
    with ((n ++ [tab] ++ i) ++ newline :: store_namespaces b) by (rewrite <- !app_assoc; reflexivity).
  rewrite lines_aux_line.
  - cbn [rev app]. now rewrite IH.
  - rewrite !in_app_iff. cbn. intros [X|[[X|[]]|X]]; try contradiction; discriminate.
  - rewrite !in_app_iff. cbn. intros [X|[[X|[]]|X]]; try contradiction; discriminate.
Qed.

Lemma load_lines_map b st : Forall (fun nb => plain (fst nb) /\ plain (snd nb)) b ->
  load_lines (map (fun nb => fst nb ++ [tab] ++ snd nb) b) st =
  Ok (fold_left (fun st nb => ns_bind (fst nb) (snd nb) st) b st).
Proof.
  revert st; induction b as [|[n i] b IH]; intros st H; [reflexivity|].
  inversion H as [|? ? [[P1 _] [Q1 _]] HF]; subst. cbn [map load_lines fst snd].
  cbn [app]. rewrite split_on_app by exact P1. rewrite split_on_nosep by exact Q1. apply IH. exact HF.
Qed.

Lemma bind_all b st :
  store_ok st -> NoDup (map fst b) -> (forall nb, In nb b -> snd nb <> []) ->
  (forall p i, assoc p (st_ns st) = Some i -> In p (map fst b) -> In (p, i) b) ->
  let st' := fold_left (fun st nb => ns_bind (fst nb) (snd nb) st) b st in
  store_ok st' /\
  forall p, assoc p (st_ns st') = match assoc p (st_ns st) with Some i => Some i | None => assoc p b end.
Proof.
  revert st; induction b as [|[n i] b IH]; intros st Hok HN Hne Hc; cbn.
  - split; [exact Hok|]. intros p. destruct (assoc p (st_ns st)); reflexivity.
  - cbn in HN. inversion HN as [|? ? Hn HN']; subst.
    assert (Hi : i <> []) by (apply (Hne (n, i)); cbn; auto).
    assert (Hns : forall p, assoc p (st_ns (ns_bind n i st)) =
              match assoc p (st_ns st) with Some j => Some j | None => if str_eqb p n then Some i else None end).
    { destruct (assoc n (st_ns st)) as [j|] eqn:E.
      - assert (j = i).
        { destruct (Hc n j E) as [[= ->]|Hin]; [cbn; auto|reflexivity|].
          exfalso. apply Hn. apply in_map_iff. now exists (n, j). }
        subst j. intros p. rewrite ns_bind_again by auto.
        destruct (assoc p (st_ns st)) eqn:Ep; [reflexivity|].
        destruct (str_eqb_spec p n) as [->|]; [congruence|reflexivity].
      - intros p. rewrite ns_bind_fresh by auto. clear -E.
        induction (st_ns st) as [|[a c] l IHl]; cbn in *; [reflexivity|].
        destruct (str_eqb p a); [reflexivity|]. apply IHl. destruct (str_eqb n a); [discriminate|exact E]. }
    destruct (IH (ns_bind n i st)) as [H1 H2].
    + now apply C43_bind_invariant.
    + exact HN'.
    + intros nb Hb. apply Hne. cbn; auto.
    + intros p j Hp Hin. rewrite Hns in Hp. destruct (assoc p (st_ns st)) as [j'|] eqn:Ep.
      * injection Hp as ->. destruct (Hc p j Ep) as [[= -> ->]|Hb]; [cbn; auto| |exact Hb]. contradiction.
      * destruct (str_eqb_spec p n) as [->|]; [contradiction|discriminate].
    + split; [exact H1|]. intros p. rewrite H2, Hns.
      destruct (assoc p (st_ns st)); [reflexivity|].
      destruct (str_eqb p n); reflexivity.
Qed.

(** Reading back what was stored: with a registry whose prefixes (the standard
    ones) agree with the stored ones, every stored prefix is bound to the stored
    IRI, every other prefix is as before, and namespaces are found by name. *)
Theorem C43_store_load : forall b r,
  NoDup (map fst b) -> Forall (fun nb => plain (fst nb) /\ plain (snd nb)) b ->
  (forall nb, In nb b -> snd nb <> []) -> store_ok (r_store r) ->
  (forall p i j, assoc p (st_ns (r_store r)) = Some i -> assoc p b = Some j -> i = j) ->
  exists r', load_namespaces (store_namespaces b) r = Ok r' /\ r_graph r' = r_graph r /\
    forall p, assoc p (st_ns (r_store r')) =
      match assoc p b with Some i => Some i | None => assoc p (st_ns (r_store r)) end.
Proof.
  intros b r HN HP Hne Hok Hc. unfold load_namespaces. rewrite lines_store, load_lines_map by auto.
  eexists. split; [reflexivity|]. split; [reflexivity|]. cbn.
  destruct (bind_all b (r_store r)) as [H1 H2]; auto.
  { intros p i Hp Hin. destruct (assoc p b) as [j|] eqn:E; [|now apply assoc_None in E].
    rewrite (Hc _ _ _ Hp E). now apply assoc_In. }
  intros p. rewrite H2. destruct (assoc p (st_ns (r_store r))) as [i|] eqn:E1, (assoc p b) as [j|] eqn:E2; try reflexivity; auto.
  now rewrite (Hc _ _ _ E1 E2).
Qed.

(** From the same initial bindings the order is also the stored one, so every
    IRI resolves as before. *)
Theorem C43_store_load_exact : forall b rest r,
  NoDup (map fst b) -> Forall (fun nb => plain (fst nb) /\ plain (snd nb)) b ->
  (forall nb, In nb b -> snd nb <> []) -> store_ok (r_store r) ->
  b = st_ns (r_store r) ++ rest ->
  exists r', load_namespaces (store_namespaces b) r = Ok r' /\ st_ns (r_store r') = b.
Proof.
  intros b rest r HN HP Hne Hok Hb. unfold load_namespaces. rewrite lines_store, load_lines_map by auto.
  eexists. split; [reflexivity|]. cbn. subst b. rewrite fold_left_app.
  assert (H1 : forall l st, store_ok st -> (forall nb, In nb l -> assoc (fst nb) (st_ns st) = Some (snd nb)) ->
     (forall nb, In nb l -> snd nb <> []) ->
     let st' := fold_left (fun st nb => ns_bind (fst nb) (snd nb) st) l st in
     store_ok st' /\ st_ns st' = st_ns st).
  { induction l as [|[n i] l IH]; cbn; intros st Hs Hl Hl2; [auto|].
    assert (E : st_ns (ns_bind n i st) = st_ns st) by (apply ns_bind_again; [auto|apply (Hl (n, i)); auto]).
    destruct (IH (ns_bind n i st)) as [A B].
    - apply C43_bind_invariant; auto. apply (Hl2 (n, i)); auto.
    - intros nb Hnb. rewrite E. apply Hl; auto.
    - intros nb Hnb. apply Hl2. auto.
    - split; [exact A|]. congruence. }
  assert (H2 : forall l st, store_ok st -> NoDup (map fst (st_ns st ++ l)) ->
     (forall nb, In nb l -> snd nb <> []) ->
     st_ns (fold_left (fun st nb => ns_bind (fst nb) (snd nb) st) l st) = st_ns st ++ l).
  { induction l as [|[n i] l IH]; cbn [fold_left fst snd]; intros st Hs Hnd Hl; [now rewrite app_nil_r|].
    assert (E : st_ns (ns_bind n i st) = st_ns st ++ [(n, i)]).
    { apply ns_bind_fresh; [auto|]. apply assoc_None. rewrite map_app in Hnd. cbn in Hnd.
      apply NoDup_remove_2 in Hnd. rewrite in_app_iff in Hnd. tauto. }
    rewrite IH.
    - rewrite E, <- app_assoc. reflexivity.
    - apply C43_bind_invariant; auto. apply (Hl (n, i)). cbn; auto.
    - rewrite E, <- app_assoc. exact Hnd.
    - intros nb Hnb. apply Hl. cbn; auto. }
  destruct (H1 (st_ns (r_store r)) (r_store r)) as [A B]; auto.
  { intros [n i] Hin. cbn. apply In_assoc; [|exact Hin]. rewrite map_app in HN. 
    clear -HN. induction (map fst (st_ns (r_store r))); [constructor|]. cbn in HN. inversion HN; subst.
    constructor; [rewrite in_app_iff in *; tauto|auto]. }
  { intros nb Hnb. apply Hne. apply in_app_iff; auto. }
  rewrite H2; [now rewrite B|exact A|now rewrite B|]. intros nb Hnb. apply Hne. apply in_app_iff; auto.
Qed.

(** The last line counts also without a line break. *)
Theorem C43_load_unterminated : forall text c r, c <> newline -> c <> cr ->
  load_namespaces (text ++ [c]) r = load_namespaces (text ++ [c; newline]) r.
Proof.
  intros text c r Hn Hc. unfold load_namespaces, lines. f_equal.
  assert (H : forall k text cur, List.length text <= k -> lines_aux cur (text ++ [c]) = lines_aux cur (text ++ [c; newline])).
  { induction k as [|k IH]; intros t cur Hk.
    - destruct t; [|cbn in Hk; lia]. cbn. rewrite (proj2 (N.eqb_neq _ _) Hn), (proj2 (N.eqb_neq _ _) Hc). cbn.
      destruct (rev cur ++ [c]) as [|x l] eqn:E; [now apply app_eq_nil in E as [_ [=]] | reflexivity].
    - destruct t as [|x t]; [apply IH; cbn; lia|]. cbn [app lines_aux]. cbn in Hk.
      destruct (x =? newline)%N; [f_equal; apply IH; lia|].
      destruct (x =? cr)%N; [|apply IH; lia]. f_equal.
      destruct t as [|y t]; cbn [app].
      + rewrite (proj2 (N.eqb_neq _ _) Hn). apply (IH [] []). cbn. lia.
      + cbn in Hk. destruct (y =? newline)%N; [apply IH; lia|]. apply (IH (y :: t) []). cbn. lia. }
  now rewrite (H _ text [] (le_n _)).
Qed.
(** After loading, every bound name finds its namespace (unless names differ in case only). *)
Theorem C43_loaded_found : forall text r r' n i, load_namespaces text r = Ok r' ->
  NoDup (map (fun nb => lower (fst nb)) (st_ns (r_store r'))) -> In (n, i) (st_ns (r_store r')) ->
  get_ns r' n = Ok (Ns (lower n) i (by_label r' i)).
Proof.
  intros text r r' n i H HN Hin. unfold load_namespaces in H. destruct (load_lines (lines text) (r_store r)) as [st|]; [|discriminate].
  injection H as <-. apply C43_namespace_found; [|exact Hin]. now apply C43_update_namespaces.
Qed.

(** A line break or tab in a name or IRI breaks the file. *)
Example C43_store_load_tab :
  load_namespaces (store_namespaces [(lit "a", lit "http://x" ++ [tab] ++ lit "y")]) (Reg (Store [] []) [] [])
  = Err ValueError.
Proof. reflexivity. Qed.

(** ** A concrete registry *)
Definition exStore : store :=
  ns_bind (lit "city") (lit "http://www.osp-core.com/city#")
    (ns_bind (lit "cuba") (lit "http://www.osp-core.com/cuba#")
       (ns_bind (lit "owl") (lit "http://www.w3.org/2002/07/owl#") (Store [] []))).
Definition exReg : registry :=
  update_namespaces (Reg exStore []
    [(lit "http://www.osp-core.com/city#CITY_WALL", PType, OKind Class);
     (lit "http://www.osp-core.com/city#hasPart", PType, OKind Relationship);
     (lit "http://www.osp-core.com/city#hasPart", PPrefLabel, OLit (lit "hasPart") (Some (lit "en")));
     (lit "http://www.osp-core.com/cuba#Entity", PType, OKind Class)]).
Example C43_example :
  match get_entity exReg (lit "CITY.CityWall") with
  | Ok (Found e) => e_iri e = lit "http://www.osp-core.com/city#CITY_WALL"
  | _ => False
  end /\
  match get_entity exReg (lit "city.INVERSE_OF_hasPart") with
  | Ok (InverseOf e) => e_iri e = lit "http://www.osp-core.com/city#hasPart"
  | _ => False
  end /\
  match get_entity exReg (lit "cuba.ENTITY") with
  | Ok (Found e) => e_iri e = lit "http://www.osp-core.com/cuba#Entity"
  | _ => False
  end /\
  get_entity exReg (lit "city.Tower") = Err KeyError /\
  match get_item exReg (Ns (lit "city") (lit "http://www.osp-core.com/city#") false) (lit "hasPart") (Some (lit "en")) with
  | Ok [Found e] => e_name e = lit "hasPart"
  | _ => False
  end.
Proof. repeat split; vm_compute; reflexivity. Qed.
Example C43_example_dict_ok : dict_ok exReg.
Proof.
  apply C43_update_namespaces. vm_compute. repeat constructor; cbn; intuition discriminate.
Qed.
Example C43_example_splittable : splittable exReg (lit "http://www.osp-core.com/city#CITY_WALL").
Proof.
  left. exists (lit "http://www.osp-core.com/city#"). split.
  - exists (lit "city"). split; [discriminate|]. vm_compute. auto.
  - now exists (lit "CITY_WALL").
Qed.
Example C43_example_store_load :
  exists r', load_namespaces (store_namespaces (st_ns exStore)) (Reg (Store [] []) [] []) = Ok r'
    /\ st_ns (r_store r') = st_ns exStore.
Proof.
  apply (C43_store_load_exact _ (st_ns exStore)).
  - vm_compute. repeat constructor; cbn; intuition discriminate.
  - vm_compute. repeat constructor; cbn; intuition discriminate.
  - intros nb. vm_compute. intuition (subst; discriminate).
  - apply C43_bind_invariant.
  - reflexivity.
Qed.

Print Assumptions C43_from_iri_sound.
Print Assumptions C43_from_iri_complete.
Print Assumptions C43_from_iri_keyerror.
Print Assumptions C43_namespace_of_entity.
Print Assumptions C43_entity_namespace.
Print Assumptions C43_get_by_name.
Print Assumptions C43_get_sound.
Print Assumptions C43_iteration.
Print Assumptions C43_get_by_label.
Print Assumptions C43_bind.
Print Assumptions C43_bind_invariant.
Print Assumptions C43_bind_keeps_bindings.
Print Assumptions C43_store_load.
Print Assumptions C43_store_load_exact.
Print Assumptions C44_lookup_converted_name.
Print Assumptions C43_label_is_name.
Print Assumptions C43_inverse_of_relationship.
Print Assumptions C43_get_entity.
Print Assumptions C43_load_unterminated.
Print Assumptions C43_loaded_found.
