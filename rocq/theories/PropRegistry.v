(** C72: the namespace registry and the namespaces as containers. *)
From Coq Require Import List Arith NArith Lia Bool String.
From Verif Require Import Prelude Utf8 Text Names Namespace Registry PropNamespace.
Import ListNotations.
Local Open Scope list_scope.

(** ** Specification *)

(** [i] is bound to the prefix [n] *)
Definition is_bound (r : registry) (n i : str) : Prop := In (n, i) (st_ns (r_store r)).
(** no two prefixes differ in case only *)
Definition no_clash (r : registry) : Prop :=
  forall n i m j, is_bound r n i -> is_bound r m j -> lower n = lower m -> i = j.
(** the default relationship stated in the graph *)
Definition says_default (r : registry) (n : namespace) (o : str) : Prop :=
  In (n_iri n, POther p_default_rel, OIri o) (r_graph r).

(** ** Proofs *)
Lemma assoc_in_fst {A} k (l : list (str * A)) : In k (map fst l) <-> exists v, assoc k l = Some v.
Proof.
  destruct (assoc k l) as [v|] eqn:E.
  - split; [eauto|]. intros _. apply assoc_In in E. apply in_map_iff. now exists (k, v).
  - apply assoc_None in E. split; [tauto|]. intros (v & [=]).
Qed.

Lemma contains_spec r n : reg_contains r n = true <-> exists i, assoc (lower n) (r_dict r) = Some i.
Proof.
  unfold reg_contains. rewrite existsb_exists, <- assoc_in_fst. split.
  - intros (x & Hx & E). apply str_eqb_eq in E. now subst.
  - intros H. exists (lower n). split; [exact H | apply str_eqb_refl].
Qed.

Lemma update_assoc b : forall (d : list (str * str)) k,
  (exists v, assoc k (fold_left (fun d nb => dset (lower (fst nb)) (snd nb) d) b d) = Some v)
  <-> (exists n i, In (n, i) b /\ lower n = k) \/ exists v, assoc k d = Some v.
Proof.
  induction b as [|[a c] b IH]; intros d k; cbn [fold_left fst snd].
  - split; [auto|]. intros [(n & i & [] & _)|H]; exact H.
  - rewrite IH, assoc_dset. destruct (str_eqb_spec k (lower a)) as [->|Hne].
    + split; [intros _; left; exists a, c; split; [now left|reflexivity] | intros _; right; eauto].
    + split; (intros [(n & i & Hin & E)|H]; [|auto]).
      * left. exists n, i. split; [now right | exact E].
      * destruct Hin as [[= -> ->]|Hin]; [congruence|]. left. eauto.
Qed.

Lemma update_value b : forall (d : list (str * str)) k v,
  assoc k (fold_left (fun d nb => dset (lower (fst nb)) (snd nb) d) b d) = Some v ->
  (exists n, In (n, v) b /\ lower n = k) \/ assoc k d = Some v.
Proof.
  induction b as [|[a c] b IH]; intros d k v; cbn [fold_left fst snd]; [auto|].
  intros H. apply IH in H as [(n & Hin & E)|H]; [left; exists n; split; [now right|exact E]|].
  rewrite assoc_dset in H. destruct (str_eqb_spec k (lower a)) as [->|Hne]; [|auto].
  injection H as <-. left. exists a. split; [now left|reflexivity].
Qed.

Lemma dset_fst {A} k (v : A) l : map fst (dset k v l) = if existsb (str_eqb k) (map fst l) then map fst l else map fst l ++ [k].
Proof.
  induction l as [|[k' v'] l IH]; cbn [dset map existsb fst app]; [reflexivity|].
  destruct (str_eqb_spec k k') as [->|Hne]; cbn [orb map fst]; [reflexivity|].
  rewrite IH. now destruct (existsb (str_eqb k) (map fst l)).
Qed.

Lemma dset_nodup {A} k (v : A) l : NoDup (map fst l) -> NoDup (map fst (dset k v l)).
Proof.
  intros H. rewrite dset_fst. destruct (existsb (str_eqb k) (map fst l)) eqn:E; [exact H|].
  assert (Hk : ~ In k (map fst l)).
  { intros Hin. assert (existsb (str_eqb k) (map fst l) = true); [|congruence].
    apply existsb_exists. exists k. split; [exact Hin | apply str_eqb_refl]. }
  clear E. induction (map fst l) as [|x m IH]; cbn; [constructor; [tauto | constructor]|].
  inversion_clear H as [|? ? Hx Hm]. constructor.
  - rewrite in_app_iff. intros [Hi|[->|[]]]; [tauto|]. apply Hk. now left.
  - apply IH; [exact Hm|]. intros Hi. apply Hk. now right.
Qed.

Lemma update_nodup b : forall (d : list (str * str)), NoDup (map fst d) ->
  NoDup (map fst (fold_left (fun d nb => dset (lower (fst nb)) (snd nb) d) b d)).
Proof.
  induction b as [|[a c] b IH]; intros d H; cbn [fold_left]; [exact H|]. apply IH. now apply dset_nodup.
Qed.

Lemma updated_lower r k i : assoc k (r_dict (update_namespaces r)) = Some i -> lower k = k.
Proof.
  intros H. apply update_value in H as [(n & _ & <-)|H]; [apply lower_lower | discriminate].
Qed.

(** After an update a name is in the registry exactly if a prefix with that name is bound, up
    to case. *)
Theorem C72_contains : forall r n,
  reg_contains (update_namespaces r) n = true <-> exists m i, is_bound r m i /\ lower m = lower n.
Proof.
  intros r n. rewrite contains_spec. unfold is_bound. cbn [update_namespaces r_dict].
  rewrite update_assoc. split; [intros [H|(v & [=])]; exact H | auto].
Qed.

(** All ways to access a namespace agree. *)
Theorem C72_access : forall r n,
  (reg_contains r n = true -> exists x, n_name x = lower n /\ reg_item r n = Ok x
     /\ reg_attr r n = Ok x /\ forall fallback, reg_get r n fallback = Ok (Some x))
  /\ (reg_contains r n = false -> reg_item r n = Err KeyError /\ reg_attr r n = Err AttributeError
     /\ forall fallback, reg_get r n fallback = Ok fallback).
Proof.
  intros r n. unfold reg_item, reg_attr, reg_get, get_ns.
  pose proof (contains_spec r n) as S. destruct (assoc (lower n) (r_dict r)) as [i|] eqn:E.
  - split; [|intros H; rewrite (proj2 S) in H by eauto; discriminate].
    intros _. eexists. split; [|repeat split]. reflexivity.
  - split; [|auto]. intros H. apply S in H as (i & [=]).
Qed.

(** The namespace found has the IRI that is bound. *)
Theorem C72_item : forall r n m i, no_clash r -> is_bound r m i -> lower m = lower n ->
  exists x, reg_item (update_namespaces r) n = Ok x /\ n_name x = lower n /\ n_iri x = i.
Proof.
  intros r n m i Hc Hb E.
  destruct (proj2 (C72_contains r n)) ; [now exists m, i|].
  assert (Hx : exists v, assoc (lower n) (r_dict (update_namespaces r)) = Some v).
  { apply contains_spec. apply C72_contains. now exists m, i. }
  destruct Hx as (v & Hv). unfold reg_item, get_ns. rewrite Hv. eexists. split; [reflexivity|].
  cbn [n_name n_iri]. split; [reflexivity|].
  apply update_value in Hv as [(m' & Hm' & E')|Hv]; [|discriminate].
  apply (Hc m' v m i Hm' Hb). congruence.
Qed.

Lemma mapM_get r l : (forall k, In k l -> lower k = k /\ exists i, assoc k (r_dict r) = Some i) ->
  exists ns, mapM (get_ns r) l = Ok ns /\ map n_name ns = l /\ forall x, In x ns <-> exists k, In k l /\ get_ns r k = Ok x.
Proof.
  induction l as [|k l IH]; intros H.
  - exists []. split; [reflexivity|]. split; [reflexivity|]. intros x. cbn. split; [intros [] | intros (k & [] & _)].
  - destruct IH as (ns & E & En & Hns); [intros k' Hk'; apply H; now right|].
    destruct (H k) as (Hl & i & Hi); [now left|].
    assert (Ek : get_ns r k = Ok (Ns (lower k) i (by_label r i))) by (unfold get_ns; now rewrite Hl, Hi).
    exists (Ns (lower k) i (by_label r i) :: ns). cbn [mapM]. rewrite Ek, E. split; [reflexivity|]. split; [cbn; now rewrite Hl, En|].
    intros x. split.
    + intros [<-|Hx]; [exists k; split; [now left | exact Ek]|].
      apply Hns in Hx as (k' & Hk' & Ex). exists k'. split; [now right | exact Ex].
    + intros (k' & [<-|Hk'] & Ex); [left; congruence|]. right. apply Hns. eauto.
Qed.

Lemma iter_spec r : exists l, reg_iter (update_namespaces r) = Ok l
  /\ NoDup (map n_name l)
  /\ forall x, In x l <-> n_name x <> [] /\ reg_item (update_namespaces r) (n_name x) = Ok x.
Proof.
  set (r' := update_namespaces r). unfold reg_iter.
  set (keys := filter _ _).
  assert (Hk : forall k, In k keys <-> k <> [] /\ exists i, assoc k (r_dict r') = Some i).
  { intros k. unfold keys. rewrite filter_In, assoc_in_fst. destruct k; intuition congruence. }
  destruct (mapM_get r' keys) as (l & E & En & Hl).
  { intros k H. apply Hk in H as (_ & i & Hi). split; [eapply updated_lower; exact Hi | eauto]. }
  exists l. split; [exact E|]. split.
  - rewrite En. apply NoDup_filter. apply update_nodup. constructor.
  - intros x. rewrite Hl. split.
    + intros (k & Hin & Ex). assert (n_name x = k).
      { apply Hk in Hin as (_ & i & Hi). unfold get_ns in Ex. rewrite (updated_lower r k i Hi) in Ex.
        rewrite Hi in Ex. injection Ex as <-. reflexivity. }
      subst k. split; [apply (Hk (n_name x)); exact Hin | exact Ex].
    + intros (Hne & Ex). exists (n_name x). split; [|exact Ex]. apply Hk. split; [exact Hne|].
      unfold reg_item, get_ns in Ex. destruct (assoc (lower (n_name x)) (r_dict r')) as [i|] eqn:Ei; [|discriminate].
      exists i. injection Ex as Ex. rewrite <- Ei. f_equal. rewrite <- Ex. cbn. now rewrite lower_lower.
Qed.

(** Iteration gives every namespace with a name once. *)
Theorem C72_iteration : forall r, exists l, reg_iter (update_namespaces r) = Ok l
  /\ NoDup (map n_name l)
  /\ forall x, In x l <-> n_name x <> [] /\ reg_item (update_namespaces r) (n_name x) = Ok x.
Proof. exact iter_spec. Qed.

Lemma set_module_assoc l : forall m a,
  (forall x y, In x l -> In y l -> n_name x = n_name y -> x = y) ->
  (forall x, In x l -> lower (n_name x) = n_name x) ->
  (forall x, In x l -> a = n_name x \/ a = upper (n_name x) -> assoc a (set_module m l) = Some x)
  /\ ((forall x, In x l -> a <> n_name x /\ a <> upper (n_name x)) -> assoc a (set_module m l) = assoc a m).
Proof.
  unfold set_module. induction l as [|y l IH] using rev_ind; intros m a Hinj Hlow.
  - split; [intros x [] | auto].
  - rewrite fold_left_app. cbn [fold_left]. rewrite !assoc_dset. rewrite (Hlow y) by (apply in_or_app; right; now left).
    destruct (IH m a) as [H1 H2].
    { intros x z Hx Hz. apply Hinj; apply in_or_app; now left. }
    { intros x Hx. apply Hlow. apply in_or_app. now left. }
    assert (Hsame : forall x, In x (l ++ [y]) -> a = n_name x \/ a = upper (n_name x) -> lower a = n_name x).
    { intros x Hx [->| ->]; [now apply Hlow | rewrite lower_upper; now apply Hlow]. }
    split.
    + intros x Hx Ha. pose proof (Hsame x Hx Ha) as E.
      destruct (str_eqb_spec a (n_name y)) as [Ey|N1]; [|destruct (str_eqb_spec a (upper (n_name y))) as [Ey|N2]].
      * f_equal. apply Hinj; [apply in_or_app; right; now left | exact Hx|]. rewrite <- E. symmetry. apply Hsame; [apply in_or_app; right; now left | auto].
      * f_equal. apply Hinj; [apply in_or_app; right; now left | exact Hx|]. rewrite <- E. symmetry. apply Hsame; [apply in_or_app; right; now left | auto].
      * apply in_app_or in Hx as [Hx|[->|[]]]; [now apply H1 | tauto].
    + intros Hn. destruct (Hn y) as [N1 N2]; [apply in_or_app; right; now left|].
      rewrite (proj2 (str_eqb_neq _ _) N1), (proj2 (str_eqb_neq _ _) N2). apply H2.
      intros x Hx. apply Hn. apply in_or_app. now left.
Qed.

(** Updating a module gives it every namespace under its name in upper and in lower case and
    keeps all other attributes. *)
Theorem C72_module : forall r m, exists m', update_module r m = Ok (update_namespaces r, m')
  /\ (forall n x, n <> [] -> reg_item (update_namespaces r) n = Ok x ->
        assoc (upper n) m' = Some x /\ assoc (lower n) m' = Some x)
  /\ (forall a, (forall n x, n <> [] -> reg_item (update_namespaces r) n = Ok x -> a <> upper n /\ a <> lower n) ->
        assoc a m' = assoc a m).
Proof.
  intros r m. destruct (iter_spec r) as (l & E & Hnd & Hl). unfold update_module. rewrite E. cbn [rmap].
  exists (set_module m l). split; [reflexivity|].
  assert (Hlow : forall x, In x l -> lower (n_name x) = n_name x).
  { intros x Hx. apply Hl in Hx as (_ & Hx). unfold reg_item, get_ns in Hx.
    destruct (assoc _ _); [|discriminate]. injection Hx as Hx. rewrite <- Hx. cbn. now rewrite !lower_lower. }
  assert (Hinj : forall x y, In x l -> In y l -> n_name x = n_name y -> x = y).
  { intros x y Hx Hy Exy. apply Hl in Hx as (_ & Hx). apply Hl in Hy as (_ & Hy). rewrite Exy in Hx. congruence. }
  assert (Hup : forall n, upper (lower n) = upper n).
  { intros n. unfold upper, lower. rewrite map_map. apply map_ext. intros c. unfold up1, low1, is_upper, is_lower.
    destruct ((65 <=? c)%N && (c <=? 90)%N) eqn:E1.
    - apply andb_true_iff in E1 as [A B]. apply N.leb_le in A, B.
      rewrite (proj2 (N.leb_le 97 (c + 32))), (proj2 (N.leb_le (c + 32) 122)) by lia. cbn [andb].
      destruct (N.leb_spec 97 c); cbn [andb]; lia.
    - reflexivity. }
  assert (Hget : forall n x, n <> [] -> reg_item (update_namespaces r) n = Ok x -> In x l /\ n_name x = lower n).
  { intros n x Hn Hx. assert (En : n_name x = lower n).
    { unfold reg_item, get_ns in Hx. destruct (assoc _ _); [|discriminate]. injection Hx as <-. reflexivity. }
    split; [|exact En]. apply Hl. rewrite En. split; [destruct n; [congruence|discriminate]|].
    unfold reg_item in *. now rewrite (C43_namespace_case_insensitive _ (lower n) n) by apply lower_lower. }
  split.
  - intros n x Hn Hx. destruct (Hget n x Hn Hx) as [Hin En]. split.
    + apply (proj1 (set_module_assoc l m (upper n) Hinj Hlow)); [exact Hin|]. right. now rewrite En, Hup.
    + apply (proj1 (set_module_assoc l m (lower n) Hinj Hlow)); [exact Hin|]. now left.
  - intros a Ha. apply (proj2 (set_module_assoc l m a Hinj Hlow)). intros x Hx.
    destruct (proj1 (Hl x) Hx) as [Hne Ex]. destruct (Ha (n_name x) x Hne Ex) as [H1 H2]. rewrite (Hlow x Hx) in H2. auto.
Qed.

(** Namespaces are the same exactly if their names are, up to case; equal ones have equal
    hash values. *)
Theorem C72_equality : forall r n m x y, reg_item r n = Ok x -> reg_item r m = Ok y ->
  (ns_eqb x y = true <-> lower n = lower m) /\ (ns_eqb x y = true -> x = y /\ ns_hashed x = ns_hashed y).
Proof.
  intros r n m x y Hx Hy. unfold reg_item, get_ns in *.
  destruct (assoc (lower n) (r_dict r)) as [i|] eqn:Ei; [|discriminate]. injection Hx as <-.
  destruct (assoc (lower m) (r_dict r)) as [j|] eqn:Ej; [|discriminate]. injection Hy as <-.
  unfold ns_eqb. cbn [n_name n_iri]. rewrite andb_true_iff, !str_eqb_eq. split.
  - split; [tauto|]. intros E. split; [exact E|]. rewrite E in Ei. congruence.
  - intros [-> ->]. auto.
Qed.

(** [name in ns] is true for the names that can be looked up; otherwise it raises what the
    lookup raises.  [ns.name] turns the KeyError into an AttributeError. *)
Theorem C72_in_namespace : forall r n name,
  (forall f, ns_get r n name = Ok f -> ns_contains r n name = Ok true /\ ns_attr r n name = Ok f)
  /\ (forall e, ns_get r n name = Err e -> ns_contains r n name = Err e
        /\ ns_attr r n name = Err (match e with KeyError => AttributeError | _ => e end)).
Proof.
  intros r n name. unfold ns_contains, ns_attr. split; intros x ->; [auto|]. split; [reflexivity|]. now destruct x.
Qed.
(** For the names of declared entities it is true. *)
Theorem C72_in_namespace_declared : forall r n (name : str) k, n_by_label n = false ->
  declared r (n_iri n ++ name) k -> splittable r (n_iri n ++ name) -> ns_contains r n name = Ok true.
Proof.
  intros r n name k H1 H2 H3. destruct (C43_get_by_name r n name k H1 H2 H3) as (e & E & _).
  exact (proj1 (proj1 (C72_in_namespace r n name) _ E)).
Qed.
(** It is never false: for an unknown name it raises. *)
Theorem C72_in_namespace_refuted :
  (forall r n name, ns_contains r n name <> Ok false)
  /\ ~ (forall r n name, exists b, ns_contains r n name = Ok b).
Proof.
  split.
  - intros r n name. unfold ns_contains. destruct (ns_get r n name); discriminate.
  - intros H. destruct (H (Reg (Store [] []) [] []) (Ns (lit "city") (lit "http://city#") false) (lit "City")) as (b & Hb).
    vm_compute in Hb. discriminate Hb.
Qed.

Lemma default_rels_spec r n o : In o (default_rels r n) <-> says_default r n o.
Proof.
  unfold default_rels, says_default. induction (r_graph r) as [|[[s p] x] g IH]; cbn [fold_right In]; [tauto|].
  assert (Hc : forall q i, (s, p, x) = (n_iri n, POther q, OIri i) <-> s = n_iri n /\ p = POther q /\ x = OIri i).
  { intros q i. split; [intros [= -> -> ->]; auto | intros (-> & -> & ->); reflexivity]. }
  rewrite Hc. destruct p as [| | |q]; try (rewrite IH; intuition discriminate).
  destruct x as [k|i|t lg|]; try (rewrite IH; intuition discriminate).
  destruct (str_eqb_spec s (n_iri n)) as [->|N1]; [destruct (str_eqb_spec q p_default_rel) as [->|N2]|]; cbn [andb In];
    rewrite IH; intuition congruence.
Qed.

Lemma default_loop_spec r l : forall cur,
  match fst (default_loop r l cur) with
  | Ok d => snd (default_loop r l cur) = d
      /\ (forall o, In o l -> exists e, from_iri r all_kinds o None = Ok e)
      /\ (l = [] -> d = cur)
      /\ (l <> [] -> exists o e, In o l /\ from_iri r all_kinds o None = Ok e /\ d = Some e)
  | Err x => exists o, In o l /\ from_iri r all_kinds o None = Err x
  end.
Proof.
  induction l as [|o l IH]; intros cur; cbn [default_loop].
  - cbn. split; [reflexivity|]. split; [intros o []|]. split; [auto|congruence].
  - destruct (from_iri r all_kinds o None) as [e|x] eqn:E.
    + specialize (IH (Some e)). destruct (fst (default_loop r l (Some e))) as [d|y].
      * destruct IH as (H1 & H2 & H3 & H4). split; [exact H1|]. split.
        { intros o' [<-|Ho']; [eauto | auto]. }
        split; [discriminate|]. intros _. destruct l as [|o' l'].
        { exists o, e. rewrite (H3 eq_refl). split; [now left | auto]. }
        destruct H4 as (o2 & e2 & Ho2 & E2 & E3); [discriminate|]. exists o2, e2. split; [now right | auto].
      * destruct IH as (o' & Ho' & Eo'). exists o'. split; [now right | exact Eo'].
    + cbn. exists o. split; [now left | exact E].
Qed.

(** The default relationship is one the graph states for the namespace; there is none exactly
    if the graph states none; a failure comes from one that is not declared. *)
Theorem C72_default_rel : forall r n,
  match fst (get_default_rel r n None) with
  | Ok (Some e) => exists o, says_default r n o /\ from_iri r all_kinds o None = Ok e
  | Ok None => forall o, ~ says_default r n o
  | Err x => exists o, says_default r n o /\ from_iri r all_kinds o None = Err x
  end
  /\ ((forall o, ~ says_default r n o) -> fst (get_default_rel r n None) = Ok None)
  /\ ((forall o, says_default r n o -> exists e, from_iri r all_kinds o None = Ok e) ->
      exists d, fst (get_default_rel r n None) = Ok d)
  /\ (forall o e, says_default r n o -> from_iri r all_kinds o None = Ok e ->
      (forall o', says_default r n o' -> o' = o) -> fst (get_default_rel r n None) = Ok (Some e)).
Proof.
  intros r n. pose proof (default_loop_spec r (default_rels r n) None) as S.
  pose proof (default_rels_spec r n) as D. unfold get_default_rel.
  destruct (default_loop r (default_rels r n) None) as [x c]. cbn [fst snd] in *. destruct x as [d|x].
  - destruct S as (_ & H2 & H3 & H4).
    destruct (default_rels r n) as [|o0 l] eqn:El.
    + rewrite (H3 eq_refl). split; [intros o Ho; apply D in Ho; destruct Ho|]. split; [auto|]. split; [eauto|].
      intros o e Ho. apply D in Ho. destruct Ho.
    + destruct H4 as (o & e & Ho & E & ->); [discriminate|]. split; [exists o; split; [now apply D | exact E]|].
      split; [intros Hno; exfalso; apply (Hno o); now apply D|]. split; [eauto|].
      intros o' e' Ho' E' Hu. assert (o = o') by (apply Hu; now apply D). subst o'. congruence.
  - destruct S as (o & Ho & E). apply D in Ho. split; [eauto|]. split; [intros Hno; destruct (Hno o Ho)|].
    split; [intros Hall; destruct (Hall o Ho) as (e & E'); congruence|].
    intros o' e' Ho' E' Hu. rewrite (Hu o Ho) in E. congruence.
Qed.

(** Asking the same namespace object again gives the same answer. *)
Theorem C72_default_rel_again : forall r n d c r', get_default_rel r n None = (Ok d, c) ->
  get_default_rel r' n c = (Ok d, c).
Proof.
  intros r n d c r' H. unfold get_default_rel in *. pose proof (default_loop_spec r (default_rels r n) None) as S.
  destruct (default_loop r (default_rels r n) None) as [x c']. injection H as -> <-. cbn in S. destruct S as [-> _]. reflexivity.
Qed.
(** But not after a failure: the second answer is None. *)
Definition gap_ns : namespace := Ns (lit "city") (lit "http://city#") false.
Definition gap_reg : registry :=
  Reg (Store [(lit "city", lit "http://city#")] [(lit "http://city#", lit "city")]) [(lit "city", lit "http://city#")]
    [(lit "http://city#", POther p_default_rel, OIri (lit "http://city#hasPart"))].
Theorem C72_default_rel_retry_refuted :
  ~ (forall r n x c, get_default_rel r n None = (Err x, c) -> fst (get_default_rel r n c) = Err x).
Proof.
  intros H. specialize (H gap_reg gap_ns KeyError (Some None)).
  assert (E : get_default_rel gap_reg gap_ns None = (Err KeyError, Some None)) by (vm_compute; reflexivity).
  specialize (H E). discriminate H.
Qed.

(** ** A concrete registry *)
Definition two_reg : registry :=
  Reg (Store [(lit "CITY", lit "http://city#"); (lit "", lit "http://none#"); (lit "cuba", lit "http://cuba#")] []) []
    [(lit "http://city#", POther p_default_rel, OIri (lit "http://city#hasPart"));
     (lit "http://city#hasPart", PType, OKind Relationship)].
Example C72_example_no_clash : no_clash two_reg.
Proof.
  intros n i m j Hn Hm. cbn in Hn, Hm.
  destruct Hn as [[= <- <-]|[[= <- <-]|[[= <- <-]|[]]]]; destruct Hm as [[= <- <-]|[[= <- <-]|[[= <- <-]|[]]]]; vm_compute; intros E; congruence.
Qed.
Example C72_example :
  reg_contains (update_namespaces two_reg) (lit "City") = true
  /\ reg_contains (update_namespaces two_reg) (lit "town") = false
  /\ match reg_iter (update_namespaces two_reg) with Ok l => map n_name l = [lit "city"; lit "cuba"] | _ => False end
  /\ match update_module two_reg [(lit "os", gap_ns)] with
     | Ok (_, m) => map fst m = [lit "os"; lit "CITY"; lit "city"; lit "CUBA"; lit "cuba"] | _ => False end
  /\ match get_default_rel (update_namespaces two_reg) gap_ns None with
     | (Ok (Some e), _) => e_iri e = lit "http://city#hasPart" | _ => False end.
Proof. repeat split; vm_compute; reflexivity. Qed.

Print Assumptions C72_contains.
Print Assumptions C72_access.
Print Assumptions C72_item.
Print Assumptions C72_iteration.
Print Assumptions C72_module.
Print Assumptions C72_equality.
Print Assumptions C72_in_namespace.
Print Assumptions C72_in_namespace_declared.
Print Assumptions C72_in_namespace_refuted.
Print Assumptions C72_default_rel.
Print Assumptions C72_default_rel_again.
Print Assumptions C72_default_rel_retry_refuted.
