(** Theorems about the ontology: subclass queries (C22), inverses (C23) and
    their hierarchy (C24). *)
From stdpp Require Import base list gmap.
From Verif Require Import Prelude Onto Inverse Cuds CudsProofs.
Local Open Scope N_scope.

(** ** Specification: the hierarchy as a relation on the triples *)

(** For each hierarchy the bottom and top entities, with the OWL type whose
    instances are implicitly above resp. below them. *)
Inductive bottom_of : N -> term -> term -> Prop :=
| bot_class : bottom_of p_subClassOf owl_Nothing owl_Class
| bot_obj : bottom_of p_subPropertyOf owl_bottomObjectProperty owl_ObjectProperty
| bot_data : bottom_of p_subPropertyOf owl_bottomDataProperty owl_DataProperty.
Inductive top_of : N -> term -> term -> Prop :=
| top_class : top_of p_subClassOf owl_Thing owl_Class
| top_obj : top_of p_subPropertyOf owl_topObjectProperty owl_ObjectProperty
| top_data : top_of p_subPropertyOf owl_topDataProperty owl_DataProperty.

(** y is a named direct superclass of x *)
Definition up1 (g : ograph) (p : N) (x y : term) : Prop :=
  is_bnode y = false /\
  ((exists k, bottom_of p x k /\ (y, p_type, k) ∈ g) \/
   ((forall k, ~ bottom_of p x k) /\ (x, p, y) ∈ g)).
(** y is a named direct subclass of x *)
Definition down1 (g : ograph) (p : N) (x y : term) : Prop :=
  is_bnode y = false /\
  ((exists k, top_of p x k /\ (y, p_type, k) ∈ g) \/
   ((forall k, ~ top_of p x k) /\ (y, p, x) ∈ g)).

Definition hierarchy (p : N) : Prop := p = p_subClassOf \/ p = p_subPropertyOf.

Lemma edge_up g p x y : hierarchy p -> edge g p false x y <-> up1 g p x y.
Proof.
  intros Hp. unfold edge, up1. rewrite elem_connections. unfold conn_pattern.
  rewrite decide_True by done. unfold special_cases.
  rewrite (decide_False (P := (Some x, p, None) = (None, p_subClassOf, Some owl_Thing))) by done.
  rewrite (decide_False (P := (Some x, p, None) = (None, p_subPropertyOf, Some owl_topObjectProperty))) by done.
  rewrite (decide_False (P := (Some x, p, None) = (None, p_subPropertyOf, Some owl_topDataProperty))) by done.
  assert (Hk : forall k, (exists t, t ∈ g /\ pat_match (None, p_type, Some k) t = true /\
                 y = conn_end (None, p_type, Some k) t) <-> (y, p_type, k) ∈ g).
  { intros k. split.
    - intros ([[s q] o] & Hg & Hm & ->). apply pat_match_so in Hm as (Hq & _ & Ho). cbn in *.
      by rewrite <- Hq, <- (Ho k eq_refl).
    - intros Hg. exists (y, p_type, k). split; [done|]. split; [|done]. apply pat_match_so.
      repeat split; intros ? [=]; done. }
  repeat case_decide.
  - match goal with H : _ = _ |- _ => injection H as -> -> end. rewrite Hk. split.
    + intros [? ?]. split; [done|]. left. exists owl_Class. split; [constructor|done].
    + intros [? [(k & Hb & ?)|[Hn _]]]; [by inversion Hb; subst|]. by destruct (Hn owl_Class); constructor.
  - match goal with H : (Some x, p, None) = _ |- _ => injection H as -> -> end. rewrite Hk. split.
    + intros [? ?]. split; [done|]. left. exists owl_ObjectProperty. split; [constructor|done].
    + intros [? [(k & Hb & ?)|[Hn _]]]; [by inversion Hb; subst|].
      by destruct (Hn owl_ObjectProperty); constructor.
  - match goal with H : (Some x, p, None) = _ |- _ => injection H as -> -> end. rewrite Hk. split.
    + intros [? ?]. split; [done|]. left. exists owl_DataProperty. split; [constructor|done].
    + intros [? [(k & Hb & ?)|[Hn _]]]; [by inversion Hb; subst|].
      by destruct (Hn owl_DataProperty); constructor.
  - assert (Hnb : forall k, ~ bottom_of p x k) by (intros k Hb; inversion Hb; subst; done).
    split.
    + intros (([[s q] o] & Hg & Hm & ->) & Hb). apply pat_match_so in Hm as (Hq & Hs & _). cbn in *.
      split; [done|]. right. split; [done|]. by rewrite <- Hq, <- (Hs x eq_refl).
    + intros [Hb [(k & Hk' & _)|[_ Hg]]]; [by destruct (Hnb k)|]. split; [|done].
      exists (x, p, y). split; [done|]. split; [|done]. apply pat_match_so.
      repeat split; intros ? [=]; done.
Qed.

Lemma edge_down g p x y : hierarchy p -> edge g p true x y <-> down1 g p x y.
Proof.
  intros Hp. unfold edge, down1. rewrite elem_connections. unfold conn_pattern.
  rewrite decide_True by done. unfold special_cases.
  rewrite (decide_False (P := (None, p, Some x) = (Some owl_Nothing, p_subClassOf, None))) by done.
  rewrite (decide_False (P := (None, p, Some x) = (Some owl_bottomObjectProperty, p_subPropertyOf, None))) by done.
  rewrite (decide_False (P := (None, p, Some x) = (Some owl_bottomDataProperty, p_subPropertyOf, None))) by done.
  assert (Hk : forall q k, (exists t, t ∈ g /\ pat_match (None, q, Some k) t = true /\
                 y = conn_end (None, q, Some k) t) <-> (y, q, k) ∈ g).
  { intros q0 k. split.
    - intros ([[s q] o] & Hg & Hm & ->). apply pat_match_so in Hm as (Hq & _ & Ho). cbn in *.
      by rewrite <- Hq, <- (Ho k eq_refl).
    - intros Hg. exists (y, q0, k). split; [done|]. split; [|done]. apply pat_match_so.
      repeat split; intros ? [=]; done. }
  repeat case_decide.
  - match goal with H : _ = _ |- _ => injection H as -> -> end. rewrite Hk. split.
    + intros [? ?]. split; [done|]. left. exists owl_Class. split; [constructor|done].
    + intros [? [(k & Hb & ?)|[Hn _]]]; [by inversion Hb; subst|]. by destruct (Hn owl_Class); constructor.
  - match goal with H : (None, p, Some x) = _ |- _ => injection H as -> -> end. rewrite Hk. split.
    + intros [? ?]. split; [done|]. left. exists owl_ObjectProperty. split; [constructor|done].
    + intros [? [(k & Hb & ?)|[Hn _]]]; [by inversion Hb; subst|].
      by destruct (Hn owl_ObjectProperty); constructor.
  - match goal with H : (None, p, Some x) = _ |- _ => injection H as -> -> end. rewrite Hk. split.
    + intros [? ?]. split; [done|]. left. exists owl_DataProperty. split; [constructor|done].
    + intros [? [(k & Hb & ?)|[Hn _]]]; [by inversion Hb; subst|].
      by destruct (Hn owl_DataProperty); constructor.
  - assert (Hnb : forall k, ~ top_of p x k) by (intros k Hb; inversion Hb; subst; done).
    rewrite Hk. split.
    + intros [? ?]. split; [done|]. by right.
    + intros [Hb [(k & Hk' & _)|[_ Hg]]]; [by destruct (Hnb k)|done].
Qed.

Lemma closure_ext {A} (R S : A -> A -> Prop) x y :
  (forall a b, R a b <-> S a b) -> closure R x y <-> closure S x y.
Proof.
  intros HRS. split; induction 1; try constructor; (eapply cl_step; [done|]); by apply HRS.
Qed.

(** ** C22 *)

(** For every graph, every order in which the set of nodes to visit is popped:
    superclasses ends and returns exactly the entity itself and the registered,
    not blacklisted entities above it, each once. *)
Theorem C22_superclasses_exact g p bl iri :
  hierarchy p -> exists n, forall pick fuel, pick_ok pick -> (n <= fuel)%nat ->
  exists l, superclasses pick g p bl fuel iri = Some l /\ NoDup l /\
    forall x, x ∈ l <-> x = iri \/ (closure (up1 g p) iri x /\ x ∉ bl /\ known g x = true).
Proof.
  intros Hp. exists (S (size (universe g))). intros pick fuel Hpick Hf.
  destruct (transitive_hull_spec pick Hpick g p false bl (universe g) fuel iri) as (ys & Hh & Hnd & Hys).
  { apply connections_universe. } { lia. }
  exists (iri :: ys). unfold superclasses. rewrite Hh. split; [done|]. split.
  - constructor; [|done]. intros Hin. by apply Hys in Hin as (_ & ? & _).
  - intros x. rewrite elem_of_cons, Hys. rewrite (closure_ext _ (up1 g p)) by (intros; by apply edge_up).
    destruct (decide (x = iri)); [tauto|]. tauto.
Qed.

Theorem C22_subclasses_exact g p bl iri :
  hierarchy p -> exists n, forall pick fuel, pick_ok pick -> (n <= fuel)%nat ->
  exists l, subclasses pick g p bl fuel iri = Some l /\ NoDup l /\
    forall x, x ∈ l <-> x = iri \/ (closure (down1 g p) iri x /\ x ∉ bl /\ known g x = true).
Proof.
  intros Hp. exists (S (size (universe g))). intros pick fuel Hpick Hf.
  destruct (transitive_hull_spec pick Hpick g p true bl (universe g) fuel iri) as (ys & Hh & Hnd & Hys).
  { apply connections_universe. } { lia. }
  exists (iri :: ys). unfold subclasses. rewrite Hh. split; [done|]. split.
  - constructor; [|done]. intros Hin. by apply Hys in Hin as (_ & ? & _).
  - intros x. rewrite elem_of_cons, Hys. rewrite (closure_ext _ (down1 g p)) by (intros; by apply edge_down).
    destruct (decide (x = iri)); [tauto|]. tauto.
Qed.

(** The direct neighbours, without duplicates or blank nodes. *)
Theorem C22_direct_exact g p bl iri x :
  hierarchy p ->
  (x ∈ directly_connected g p false bl iri <-> up1 g p iri x /\ x ∉ bl /\ known g x = true) /\
  (x ∈ directly_connected g p true bl iri <-> down1 g p iri x /\ x ∉ bl /\ known g x = true).
Proof.
  intros Hp. unfold directly_connected. rewrite !elem_of_list_filter.
  rewrite <- edge_up, <- edge_down by done. unfold edge.
  rewrite !andb_true_iff, negb_true_iff, bool_decide_eq_true. tauto.
Qed.

(** Ontologies in which nothing is declared below a bottom or above a top
    entity. *)
Definition no_extremes (g : ograph) (p : N) : Prop :=
  (forall x y k, bottom_of p y k -> (x, p, y) ∉ g) /\
  (forall x y k, top_of p x k -> (x, p, y) ∉ g).
Definition plain (p : N) (x : term) : Prop :=
  is_bnode x = false /\ (forall k, ~ bottom_of p x k) /\ (forall k, ~ top_of p x k).

Definition sub1 (g : ograph) (p : N) (x y : term) : Prop :=
  is_bnode x = false /\ is_bnode y = false /\ (x, p, y) ∈ g.

Lemma up_sub g p x y :
  hierarchy p -> no_extremes g p -> plain p x ->
  closure (up1 g p) x y <-> closure (sub1 g p) x y.
Proof.
  intros Hp [Hb Ht] (Hx & Hxb & Hxt). split.
  - intros H. assert (closure (sub1 g p) x y /\ (forall k, ~ bottom_of p y k) /\ is_bnode y = false) as [? _]; [|done].
    induction H as [|y z _ (IH & Hy & Hyb) [Hz Hyz]].
    + split; [constructor|done].
    + destruct Hyz as [(k & Hk & _)|[_ Hyz]]; [by destruct (Hy k)|].
      split; [by eapply cl_step|]. split; [|done]. intros k Hk. by apply (Hb y z k).
  - intros H. assert (closure (up1 g p) x y /\ forall k, ~ bottom_of p y k) as [? _]; [|done].
    induction H as [|y z _ [IH Hny] (Hy & Hz & Hyz)]; [split; [constructor|done]|]. split.
    + eapply cl_step; [exact IH|]. split; [done|]. right. done.
    + intros k Hk. by apply (Hb y z k).
Qed.

Lemma down_sub g p x y :
  hierarchy p -> no_extremes g p -> plain p x ->
  closure (down1 g p) x y <-> closure (sub1 g p) y x.
Proof.
  intros Hp [Hb Ht] (Hx & Hxb & Hxt).
  assert (Heq : closure (sub1 g p) y x <-> closure (fun a b => sub1 g p b a) x y).
  { split; apply closure_flip; done. }
  rewrite Heq. clear Heq. split.
  - intros H. assert (closure (fun a b => sub1 g p b a) x y /\ (forall k, ~ top_of p y k) /\ is_bnode y = false) as [? _]; [|done].
    induction H as [|y z _ (IH & Hy & Hyb) [Hz Hyz]].
    + split; [constructor|done].
    + destruct Hyz as [(k & Hk & _)|[_ Hyz]]; [by destruct (Hy k)|].
      split; [by eapply cl_step|]. split; [|done]. intros k Hk. by apply (Ht z y k).
  - intros H. assert (closure (down1 g p) x y /\ forall k, ~ top_of p y k) as [? _]; [|done].
    induction H as [|y z _ [IH Hny] (Hz & Hy & Hyz)]; [split; [constructor|done]|]. split.
    + eapply cl_step; [exact IH|]. split; [done|]. right. done.
    + intros k Hk. by apply (Ht z y k).
Qed.

(** is_subclass_of and is_superclass_of are converse, and both are the
    reflexive-transitive closure of the declared subclass triples between
    named entities. *)
Theorem C22_converse g p bl a b :
  hierarchy p -> no_extremes g p -> plain p a -> plain p b ->
  known g a = true -> known g b = true -> a ∉ bl -> b ∉ bl ->
  exists n, forall pick pick' fuel fuel', pick_ok pick -> pick_ok pick' ->
    (n <= fuel)%nat -> (n <= fuel')%nat ->
    exists v, is_subclass_of pick g p bl fuel a b = Some v /\
      is_superclass_of pick' g p bl fuel' b a = Some v /\
      (v = true <-> closure (sub1 g p) a b).
Proof.
  intros Hp Hne Ha Hb Hka Hkb Hla Hlb.
  destruct (C22_subclasses_exact g p bl b Hp) as [n1 H1].
  destruct (C22_superclasses_exact g p bl a Hp) as [n2 H2].
  exists (n1 + n2)%nat. intros pick pick' fuel fuel' Hpk Hpk' Hf Hf'.
  destruct (H1 pick fuel Hpk) as (l1 & E1 & _ & Hl1); [lia|].
  destruct (H2 pick' fuel' Hpk') as (l2 & E2 & _ & Hl2); [lia|].
  assert (Hc1 : a ∈ l1 <-> closure (sub1 g p) a b).
  { rewrite Hl1, (down_sub g p b a) by done. split; [intros [->|[? _]]; [constructor|done]|auto]. }
  assert (Hc2 : b ∈ l2 <-> closure (sub1 g p) a b).
  { rewrite Hl2, (up_sub g p a b) by done. split; [intros [->|[? _]]; [constructor|done]|auto]. }
  exists (bool_decide (a ∈ l1)). unfold is_subclass_of, is_superclass_of. rewrite E1, E2. cbn.
  split; [done|]. split; [|by rewrite bool_decide_eq_true].
  f_equal. apply bool_decide_ext. by rewrite Hc1, Hc2.
Qed.

(** Subclassing is reflexive and transitive, in every graph (also for the
    top, bottom and blacklisted entities). *)
Theorem C22_reflexive g p bl a :
  hierarchy p -> exists n, forall pick fuel, pick_ok pick -> (n <= fuel)%nat ->
    is_subclass_of pick g p bl fuel a a = Some true /\
    is_superclass_of pick g p bl fuel a a = Some true.
Proof.
  intros Hp. destruct (C22_subclasses_exact g p bl a Hp) as [n1 H1].
  destruct (C22_superclasses_exact g p bl a Hp) as [n2 H2].
  exists (n1 + n2)%nat. intros pick fuel Hpk Hf.
  destruct (H1 pick fuel Hpk) as (l1 & E1 & _ & Hl1); [lia|].
  destruct (H2 pick fuel Hpk) as (l2 & E2 & _ & Hl2); [lia|].
  unfold is_subclass_of, is_superclass_of. rewrite E1, E2. cbn.
  split; f_equal; apply bool_decide_eq_true; [apply Hl1|apply Hl2]; by left.
Qed.

Theorem C22_transitive g p bl a b c :
  hierarchy p -> exists n, forall pick fuel, pick_ok pick -> (n <= fuel)%nat ->
    is_subclass_of pick g p bl fuel a b = Some true ->
    is_subclass_of pick g p bl fuel b c = Some true ->
    is_subclass_of pick g p bl fuel a c = Some true.
Proof.
  intros Hp. destruct (C22_subclasses_exact g p bl b Hp) as [n1 H1].
  destruct (C22_subclasses_exact g p bl c Hp) as [n2 H2].
  exists (n1 + n2)%nat. intros pick fuel Hpk Hf.
  destruct (H1 pick fuel Hpk) as (l1 & E1 & _ & Hl1); [lia|].
  destruct (H2 pick fuel Hpk) as (l2 & E2 & _ & Hl2); [lia|].
  unfold is_subclass_of. rewrite E1, E2. cbn. intros [= Hab%bool_decide_eq_true] [= Hbc%bool_decide_eq_true].
  f_equal. apply bool_decide_eq_true. apply Hl1 in Hab. apply Hl2 in Hbc. apply Hl2.
  destruct Hab as [->|(Hab & Hbl & Hk)]; [done|].
  destruct Hbc as [->|(Hbc & _ & _)]; [by right|]. right. split; [|done].
  by eapply closure_trans.
Qed.

(** Classes on a cycle have the same superclasses (except themselves). *)
Theorem C22_cycles g p bl a b :
  hierarchy p -> known g a = true -> known g b = true -> a ∉ bl -> b ∉ bl ->
  exists n, forall pick fuel, pick_ok pick -> (n <= fuel)%nat ->
    is_superclass_of pick g p bl fuel a b = Some true ->
    is_superclass_of pick g p bl fuel b a = Some true ->
    exists l1 l2, superclasses pick g p bl fuel a = Some l1 /\
      superclasses pick g p bl fuel b = Some l2 /\ l1 ≡ₚ l2.
Proof.
  intros Hp Hka Hkb Hla Hlb. destruct (C22_superclasses_exact g p bl a Hp) as [n1 H1].
  destruct (C22_superclasses_exact g p bl b Hp) as [n2 H2].
  exists (n1 + n2)%nat. intros pick fuel Hpk Hf.
  destruct (H1 pick fuel Hpk) as (l1 & E1 & Hn1 & Hl1); [lia|].
  destruct (H2 pick fuel Hpk) as (l2 & E2 & Hn2 & Hl2); [lia|].
  unfold is_superclass_of. rewrite E1, E2. cbn. intros [= Hab%bool_decide_eq_true] [= Hba%bool_decide_eq_true].
  exists l1, l2. split; [done|]. split; [done|]. apply NoDup_Permutation; [done|done|]. intros x.
  apply Hl2 in Hab. apply Hl1 in Hba.
  assert (Hcab : closure (up1 g p) b a) by (destruct Hab as [->|[? _]]; [constructor|done]).
  assert (Hcba : closure (up1 g p) a b) by (destruct Hba as [->|[? _]]; [constructor|done]).
  rewrite Hl1, Hl2. split.
  - intros [->|(Hx & ?)]; [done|]. right. split; [|done]. by eapply closure_trans.
  - intros [->|(Hx & ?)]; [done|]. right. split; [|done]. by eapply closure_trans.
Qed.

(** A concrete ontology with a cycle 101 -> 102 -> 103 -> 101, a restriction
    (blank node) and an IRI without a type above 103. *)
Definition exG : ograph := list_to_set [
  (IRI 101, p_type, owl_Class); (IRI 102, p_type, owl_Class); (IRI 103, p_type, owl_Class);
  (IRI 104, p_type, owl_Class);
  (IRI 101, p_subClassOf, IRI 102); (IRI 102, p_subClassOf, IRI 103); (IRI 103, p_subClassOf, IRI 101);
  (IRI 103, p_subClassOf, BN 1); (IRI 103, p_subClassOf, IRI 110); (IRI 110, p_subClassOf, IRI 104);
  (IRI 104, p_subClassOf, owl_Thing)].
Definition pick0 (n : nat) (F : gset term) : term :=
  match elements F with x :: _ => x | [] => IRI 0 end.
Lemma pick0_ok : pick_ok pick0.
Proof.
  intros n F Hne. unfold pick0. destruct (elements F) as [|x l] eqn:E.
  - exfalso. apply Hne. apply leibniz_equiv, elements_empty_inv. done.
  - apply elem_of_elements. rewrite E. by left.
Qed.
Example C22_example :
  superclasses pick0 exG p_subClassOf class_blacklist 20 (IRI 102) =
    Some [IRI 102; IRI 103; IRI 101; IRI 104] /\
  is_subclass_of pick0 exG p_subClassOf class_blacklist 20 (IRI 101) (IRI 104) = Some true /\
  is_subclass_of pick0 exG p_subClassOf class_blacklist 20 (IRI 104) (IRI 101) = Some false.
Proof. vm_compute. done. Qed.

Lemma exG_no_extremes : no_extremes exG p_subClassOf.
Proof.
  split.
  - intros x y k Hk Hin. inversion Hk; subst. unfold exG in Hin.
    rewrite elem_of_list_to_set in Hin. repeat (apply elem_of_cons in Hin as [Hin|Hin]; [discriminate|]).
    by apply elem_of_nil in Hin.
  - intros x y k Hk Hin. inversion Hk; subst. unfold exG in Hin.
    rewrite elem_of_list_to_set in Hin. repeat (apply elem_of_cons in Hin as [Hin|Hin]; [discriminate|]).
    by apply elem_of_nil in Hin.
Qed.
Example C22_example_converse :
  exists n, forall fuel, (n <= fuel)%nat ->
    exists v, is_subclass_of pick0 exG p_subClassOf class_blacklist fuel (IRI 101) (IRI 104) = Some v /\
      is_superclass_of pick0 exG p_subClassOf class_blacklist fuel (IRI 104) (IRI 101) = Some v /\
      (v = true <-> closure (sub1 exG p_subClassOf) (IRI 101) (IRI 104)).
Proof.
  destruct (C22_converse exG p_subClassOf class_blacklist (IRI 101) (IRI 104)) as [n Hn].
  - by left.
  - apply exG_no_extremes.
  - split; [done|]. split; intros k Hk; inversion Hk.
  - split; [done|]. split; intros k Hk; inversion Hk.
  - by vm_compute.
  - by vm_compute.
  - refine (proj1 (bool_decide_eq_false _) _). by vm_compute.
  - refine (proj1 (bool_decide_eq_false _) _). by vm_compute.
  - exists n. intros fuel Hf. exact (Hn pick0 pick0 fuel fuel pick0_ok pick0_ok Hf Hf).
Qed.

(** Refuted: with owl:Thing the two queries are not converse: every class is a
    subclass of Thing, but Thing is a superclass of none, even if it is declared. *)
Theorem C22_refuted_thing_converse :
  is_subclass_of pick0 exG p_subClassOf class_blacklist 30 (IRI 104) owl_Thing = Some true /\
  is_superclass_of pick0 exG p_subClassOf class_blacklist 30 owl_Thing (IRI 104) = Some false /\
  (IRI 104, p_subClassOf, owl_Thing) ∈ exG.
Proof. split; [by vm_compute|]. split; [by vm_compute|]. refine (proj1 (bool_decide_eq_true _) _); by vm_compute. Qed.

(** Refuted: owl:topDataProperty is not above the attributes, although
    owl:topObjectProperty is above the relationships: the type searched for,
    owl:DataProperty, is not the type attributes have. *)
Theorem C22_refuted_topDataProperty :
  exists g a r, (a, p_type, owl_DatatypeProperty) ∈ g /\ (r, p_type, owl_ObjectProperty) ∈ g /\
    is_subclass_of pick0 g p_subPropertyOf rel_blacklist 30 r owl_topObjectProperty = Some true /\
    is_subclass_of pick0 g p_subPropertyOf attr_blacklist 30 a owl_topDataProperty = Some false.
Proof.
  exists (list_to_set [(IRI 101, p_type, owl_DatatypeProperty); (IRI 102, p_type, owl_ObjectProperty)]).
  exists (IRI 101), (IRI 102). split; [refine (proj1 (bool_decide_eq_true _) _); by vm_compute|].
  split; [refine (proj1 (bool_decide_eq_true _) _); by vm_compute|]. split; by vm_compute.
Qed.

(** ** C23 *)

Section Inverses.
  (** Names and labels of new inverses; any iteration order of Python sets. *)
  Context (mk lbl : term -> term) (ord : list term -> list term).
  Context (Hord : forall l, ord l ≡ₚ l) (Hlbl : forall r, exists n, lbl r = LIT n).
  Notation get_inverse := (inverse mk lbl ord).
  Notation asks := (asks mk lbl ord).
  Notation asks_valid := (asks_valid mk lbl ord).

  Lemma inverse_declared g r o fuel :
    good mk g -> is_rel g r -> inv_rel g r o -> get_inverse fuel g r = (g, Ok o).
  Proof.
    intros Hg Hr Ho.
    pose proof (find_inverse_spec g r (is_rel_nb g r Hr)) as Hf.
    assert (Hx : get_inverse fuel g r = match find_inverse g r with
        | Some o => (g, if known g o then Ok o else Err KeyError) | None => get_inverse fuel g r end).
    { destruct fuel; cbn; by destruct (find_inverse g r). }
    rewrite Hx. clear Hx. destruct (find_inverse g r) as [o'|]; [|by destruct (Hf o)].
    assert (o' = o) as -> by (by eapply (g_fun _ _ Hg)).
    rewrite is_rel_known; [done|]. by eapply (g_typed _ _ Hg).
  Qed.

  (** After any sequence [rs1] of accesses, [r.inverse] ends and returns a
      relationship o; after any further accesses [rs2], it is still o and asking
      changes nothing, and the inverse of o is r. *)
  Theorem C23_inverse_total_stable_involutive g :
    good mk g -> exists n, forall fuel rs1 r, (n <= fuel)%nat -> asks_valid fuel g rs1 ->
    is_rel (asks fuel g rs1) r ->
    exists g1 o, get_inverse fuel (asks fuel g rs1) r = (g1, Ok o) /\ is_rel g1 o /\
      forall rs2, asks_valid fuel g1 rs2 ->
        get_inverse fuel (asks fuel g1 rs2) r = (asks fuel g1 rs2, Ok o) /\
        get_inverse fuel (asks fuel g1 rs2) o = (asks fuel g1 rs2, Ok r).
  Proof.
    intros Hg. destruct (enough_fuel_exists mk g) as [n Hn]. exists n. intros fuel rs1 r Hf Hv1 Hr.
    specialize (Hn fuel Hf). pose proof (asks_ext mk lbl ord Hord Hlbl fuel g rs1 Hg Hn Hv1) as He.
    set (g0 := asks fuel g rs1) in *.
    assert (Hg0 : good mk g0) by exact (ext_good mk lbl Hlbl g g0 Hg He).
    assert (Hn0 : enough_fuel g0 fuel) by exact (ext_enough mk lbl g g0 fuel Hg He Hn).
    destruct (inverse_ok mk lbl ord Hord Hlbl fuel g0 r Hg0 Hr Hn0) as (g1 & o & Hi & He1 & Ho & _).
    assert (Hg1 : good mk g1) by exact (ext_good mk lbl Hlbl g0 g1 Hg0 He1).
    assert (Hn1 : enough_fuel g1 fuel) by exact (ext_enough mk lbl g0 g1 fuel Hg0 He1 Hn0).
    exists g1, o. split; [done|]. split; [by eapply (g_typed _ _ Hg1)|].
    intros rs2 Hv2. pose proof (asks_ext mk lbl ord Hord Hlbl fuel g1 rs2 Hg1 Hn1 Hv2) as He2.
    assert (Hg2 : good mk (asks fuel g1 rs2)) by exact (ext_good mk lbl Hlbl g1 _ Hg1 He2).
    assert (Ho2 : inv_rel (asks fuel g1 rs2) r o) by exact (inv_rel_mono _ _ _ _ (e_sub _ _ _ _ He2) Ho).
    pose proof (inv_rel_sym _ _ _ Ho2) as Ho2'.
    split; apply inverse_declared; try done.
    - by eapply (g_typed _ _ Hg2).
    - by eapply (g_typed _ _ Hg2).
  Qed.

  (** Asking does not touch what is there: no triple disappears, declared
      inverses stay, and every new triple is about the inverse of a relationship
      that had none. *)
  Theorem C23_other_entities_unchanged g :
    good mk g -> exists n, forall fuel rs, (n <= fuel)%nat -> asks_valid fuel g rs ->
    g ⊆ asks fuel g rs /\
    (forall a b, is_rel g a -> inv_rel g a b -> get_inverse fuel (asks fuel g rs) a = (asks fuel g rs, Ok b)) /\
    (forall s p o, (s, p, o) ∈ asks fuel g rs -> (s, p, o) ∉ g ->
      exists a, is_rel g a /\ lacking g a /\ fresh g (mk a) /\
        ((s = a /\ p = p_inverseOf /\ o = mk a) \/ s = mk a)).
  Proof.
    intros Hg. destruct (enough_fuel_exists mk g) as [n Hn]. exists n. intros fuel rs Hf Hv.
    specialize (Hn fuel Hf). pose proof (asks_ext mk lbl ord Hord Hlbl fuel g rs Hg Hn Hv) as He.
    assert (Hg' : good mk (asks fuel g rs)) by exact (ext_good mk lbl Hlbl g _ Hg He).
    split; [apply He|]. split.
    - intros a b Ha Hab. apply inverse_declared; [done| |].
      + eapply is_rel_mono; [apply He|done].
      + eapply inv_rel_mono; [apply He|done].
    - intros s p o Hin Hni. destruct (e_new _ _ _ _ He _ Hin Hni) as (a & Ha & Hl & _ & _ & Ht).
      exists a. split; [done|]. split; [done|]. split; [by apply (g_fresh _ _ Hg)|].
      destruct Ht as [Ht|[Ht|[Ht|(i & Ht & _)]]]; inversion Ht; subst; auto.
  Qed.

  (** The hierarchy between existing relationships is not changed. *)
  Theorem C23_hierarchy_unchanged g :
    good mk g -> (forall s, (s, p_subPropertyOf, owl_bottomObjectProperty) ∉ g) ->
    (forall s, (s, p_subPropertyOf, owl_bottomDataProperty) ∉ g) ->
    exists n, forall fuel rs r x, (n <= fuel)%nat -> asks_valid fuel g rs -> is_rel g r ->
      (closure (up1 (asks fuel g rs) p_subPropertyOf) r x <-> closure (up1 g p_subPropertyOf) r x).
  Proof.
    intros Hg Hb1 Hb2. destruct (enough_fuel_exists mk g) as [n Hn]. exists n.
    intros fuel rs r x Hf Hv Hr.
    specialize (Hn fuel Hf). pose proof (asks_ext mk lbl ord Hord Hlbl fuel g rs Hg Hn Hv) as He.
    set (g' := asks fuel g rs) in *.
    destruct (not_extreme r (g_special _ _ Hg r Hr)) as (Hr1 & Hr2 & _).
    assert (Hstep : forall y z, (y = r \/ exists s p, (s, p, y) ∈ g) ->
              (y, p_subPropertyOf, z) ∈ g' -> (y, p_subPropertyOf, z) ∈ g).
    { intros y z Hy Hin. destruct (decide ((y, p_subPropertyOf, z) ∈ g)) as [?|Hni]; [done|].
      exfalso. destruct (e_new _ _ _ _ He _ Hin Hni) as (a & Ha & Hl & _ & _ & Ht).
      destruct Ht as [Ht|[Ht|[Ht|(i & Ht & _)]]]; inversion Ht; subst.
      destruct (g_fresh _ _ Hg a Ha Hl) as [Hfr _]. destruct Hy as [<-|(s & p & Hs)].
      - destruct Hr as [_ Hr]. by destruct (Hfr _ _ _ Hr).
      - by destruct (Hfr _ _ _ Hs). }
    set (P := fun y => (y = r \/ exists s, (s, p_subPropertyOf, y) ∈ g) /\ forall k, ~ bottom_of p_subPropertyOf y k).
    assert (HP0 : P r).
    { split; [by left|]. intros k Hk. inversion Hk; subst; done. }
    assert (HP1 : forall y z, P y -> (y, p_subPropertyOf, z) ∈ g -> P z).
    { intros y z [Hy Hyb] Hz. split; [right; eauto|]. intros k Hk. inversion Hk; subst.
      - by apply (Hb1 y). - by apply (Hb2 y). }
    split.
    - intros H. assert (closure (up1 g p_subPropertyOf) r x /\ P x) as [? _]; [|done].
      induction H as [|y z _ [IH HPy] [Hz Hyz]]; [split; [constructor|done]|].
      destruct Hyz as [(k & Hk & _)|[_ Hyz]]; [by destruct (proj2 HPy k)|].
      assert (Hyz0 : (y, p_subPropertyOf, z) ∈ g).
      { apply Hstep; [|done]. destruct HPy as [[?|[s ?]] _]; [by left|right; eauto]. }
      split; [|by eapply HP1]. eapply cl_step; [exact IH|]. split; [done|]. right. split; [apply HPy|done].
    - intros H. assert (closure (up1 g' p_subPropertyOf) r x /\ P x) as [? _]; [|done].
      induction H as [|y z _ [IH HPy] [Hz Hyz]]; [split; [constructor|done]|].
      destruct Hyz as [(k & Hk & _)|[_ Hyz]]; [by destruct (proj2 HPy k)|].
      split; [|by eapply HP1]. eapply cl_step; [exact IH|]. split; [done|]. right.
      split; [apply HPy|by apply He].
  Qed.

  (** ** C24 *)

  (** Declared inverses respect the hierarchy: an entity above r that is a
      direct superclass has an inverse above the inverse of r. *)
  Definition hierarchy_consistent (g : ograph) : Prop :=
    forall a i s, inv_rel g a i -> is_rel g a -> super_of g a s ->
      exists j, inv_rel g s j /\ closure (super_of g) i j.

  Lemma super_of_mono g g' a s : g ⊆ g' -> super_of g a s -> super_of g' a s.
  Proof.
    intros Hg (H1 & H2 & H3). split; [by apply Hg|]. split; [done|].
    unfold known in *. destruct s; try done. rewrite !orb_true_iff, !bool_decide_eq_true in *.
    destruct H3 as [[?|?]|?]; auto.
  Qed.
  Lemma chain_mono g g' a s : g ⊆ g' -> closure (super_of g) a s -> closure (super_of g') a s.
  Proof. intros Hg. induction 1; [constructor|]. eapply cl_step; [done|]. by eapply super_of_mono. Qed.

  Lemma rel_super g a s : good mk g -> is_rel g a -> is_rel g s ->
    (a, p_subPropertyOf, s) ∈ g -> super_of g a s.
  Proof.
    intros Hg Ha Hs Hin. split; [done|]. split; [|by apply is_rel_known].
    destruct (not_extreme s (g_special _ _ Hg s Hs)) as (H1 & _ & H2 & _).
    unfold rel_blacklist. rewrite elem_of_union, !elem_of_singleton. tauto.
  Qed.

  Lemma ext_consistent g g' :
    good mk g -> ext mk lbl g g' ->
    (forall a, is_rel g a -> lacking g a -> ~ lacking g' a -> mirrored mk g g' a) ->
    hierarchy_consistent g -> hierarchy_consistent g'.
  Proof.
    intros Hg He Hm Hc a i s Hai Ha Has.
    assert (Hg' : good mk g') by exact (ext_good mk lbl Hlbl g g' Hg He).
    destruct (ext_inv_rel mk lbl g g' a i Hg He Hai) as [Hai0|[(Ra & La & -> & _)|(Ri & Li & -> & _)]].
    - assert (Ra : is_rel g a) by (eapply (g_typed _ _ Hg); by apply inv_rel_sym).
      assert (Has0 : super_of g a s) by (by apply (ext_super_of mk lbl g g')).
      destruct (Hc a i s Hai0 Ra Has0) as (j & Hj & Hij). exists j.
      split; [eapply inv_rel_mono; [apply He|done]|]. eapply chain_mono; [apply He|done].
    - assert (Has0 : super_of g a s) by (by apply (ext_super_of mk lbl g g')).
      destruct (Hm a Ra La) with (s := s) as (j & Hj & Hin).
      { intros Hl. by apply (Hl (mk a)). } { done. }
      exists j. split; [done|]. eapply cl_step; [constructor|].
      apply rel_super; [done|by eapply (g_typed _ _ Hg')|by eapply (g_typed _ _ Hg')|done].
    - destruct Has as (Hin & _ & _).
      destruct (decide ((mk i, p_subPropertyOf, s) ∈ g)) as [Hin0|Hni].
      { exfalso. by destruct (fresh_not_rel mk g i Hg Ri Li p_subPropertyOf s). }
      destruct (e_new _ _ _ _ He _ Hin Hni) as (b & Hb & Hbl & _ & _ & Ht).
      destruct Ht as [Ht|[Ht|[Ht|(j & Ht & _ & s0 & Hs0 & Hs0j)]]]; try discriminate.
      injection Ht as Heq ->. assert (b = i) as -> by (by apply (g_inj _ _ Hg)).
      exists s0. split; [by apply inv_rel_sym|]. eapply cl_step; [constructor|].
      eapply super_of_mono; [apply He|done].
  Qed.

  Lemma asks_consistent fuel g rs :
    good mk g -> enough_fuel g fuel -> asks_valid fuel g rs ->
    hierarchy_consistent g -> hierarchy_consistent (asks fuel g rs).
  Proof.
    revert g. induction rs as [|r rs IH]; intros g Hg Hf Hv Hc; cbn; [done|].
    destruct Hv as [Hr Hv].
    destruct (inverse_ok mk lbl ord Hord Hlbl fuel g r Hg Hr Hf) as (g' & o & Hi & He & _ & Hm).
    rewrite Hi in *. cbn in *.
    apply IH; [exact (ext_good mk lbl Hlbl g g' Hg He)|exact (ext_enough mk lbl g g' fuel Hg He Hf)|done|exact (ext_consistent g g' Hg He Hm Hc)].
  Qed.

  Lemma chain_mirror g r o s :
    good mk g -> hierarchy_consistent g -> is_rel g r -> inv_rel g r o ->
    closure (super_of g) r s ->
    is_rel g s /\ exists j, inv_rel g s j /\ closure (super_of g) o j.
  Proof.
    intros Hg Hc Hr Ho. induction 1 as [|y z _ (Hy & j & Hj & Hoj) Hyz].
    - split; [done|]. exists o. split; [done|constructor].
    - split; [by eapply (g_supers _ _ Hg)|].
      destruct (Hc y j z Hj Hy Hyz) as (k & Hk & Hjk). exists k. split; [done|].
      by eapply closure_trans.
  Qed.

  Lemma chain_down g o j :
    good mk g -> is_rel g o -> closure (super_of g) o j ->
    closure (down1 g p_subPropertyOf) j o.
  Proof.
    intros Hg Ho H.
    assert (Hx : closure (down1 g p_subPropertyOf) j o /\ is_rel g j); [|apply Hx].
    induction H as [|y z _ [IH Hy] Hyz]; [split; [constructor|done]|].
    assert (Hz : is_rel g z) by (by eapply (g_supers _ _ Hg)). split; [|done].
    eapply closure_trans; [|exact IH]. eapply cl_step; [constructor|].
    split; [by eapply is_rel_nb|]. right. split; [|apply Hyz].
    destruct (not_extreme z (g_special _ _ Hg z Hz)) as (_ & _ & H1 & H2).
    intros k Hk. inversion Hk; subst; done.
  Qed.

  (** After any accesses to inverses, if s is above r through registered
      relationships, then r.inverse is a subclass of s.inverse, provided the
      inverses declared in the ontology respect the hierarchy. *)
  Theorem C24_inverse_mirrors_hierarchy g :
    good mk g -> hierarchy_consistent g ->
    exists n, forall fuel rs r o g1, (n <= fuel)%nat -> asks_valid fuel g rs ->
      is_rel (asks fuel g rs) r -> get_inverse fuel (asks fuel g rs) r = (g1, Ok o) ->
      forall s, closure (super_of g1) r s ->
      exists j, get_inverse fuel g1 s = (g1, Ok j) /\
        exists m, forall pick fuel', pick_ok pick -> (m <= fuel')%nat ->
          is_subclass_of pick g1 p_subPropertyOf rel_blacklist fuel' o j = Some true.
  Proof.
    intros Hg Hc. destruct (enough_fuel_exists mk g) as [n Hn]. exists n.
    intros fuel rs r o g1 Hf Hv Hr Hi s Hs. specialize (Hn fuel Hf).
    assert (Hv' : asks_valid fuel g (rs ++ [r])).
    { clear -Hv Hr. revert g Hv Hr. induction rs as [|a rs IH]; intros g Hv Hr; cbn in *; [done|].
      destruct Hv as [Ha Hv]. split; [done|]. by apply IH. }
    assert (Heq : asks fuel g (rs ++ [r]) = g1).
    { assert (Hap : forall g, asks fuel g (rs ++ [r]) = fst (get_inverse fuel (asks fuel g rs) r)).
      { clear. induction rs as [|a rs IH]; intros g; cbn; [done|apply IH]. }
      rewrite Hap, Hi. done. }
    pose proof (asks_ext mk lbl ord Hord Hlbl fuel g _ Hg Hn Hv') as He.
    pose proof (asks_consistent fuel g _ Hg Hn Hv' Hc) as Hc1. rewrite Heq in *.
    assert (Hg1 : good mk g1) by exact (ext_good mk lbl Hlbl g g1 Hg He).
    pose proof (asks_ext mk lbl ord Hord Hlbl fuel g _ Hg Hn Hv) as He0.
    assert (Hg0 : good mk (asks fuel g rs)) by exact (ext_good mk lbl Hlbl g _ Hg He0).
    assert (Hn0 : enough_fuel (asks fuel g rs) fuel) by exact (ext_enough mk lbl g _ fuel Hg He0 Hn).
    destruct (inverse_ok mk lbl ord Hord Hlbl fuel _ r Hg0 Hr Hn0) as (g1' & o' & Hi' & He1 & Ho & _).
    rewrite Hi in Hi'. injection Hi' as <- <-.
    assert (Hr1 : is_rel g1 r) by (eapply is_rel_mono; [apply He1|done]).
    destruct (chain_mirror g1 r o s Hg1 Hc1 Hr1 Ho Hs) as (Hrs & j & Hj & Hoj).
    exists j. split; [by apply inverse_declared|].
    assert (Hro : is_rel g1 o) by (by eapply (g_typed _ _ Hg1)).
    destruct (C22_subclasses_exact g1 p_subPropertyOf rel_blacklist j) as [m Hm]; [by right|].
    exists m. intros pick fuel' Hpk Hf'. destruct (Hm pick fuel' Hpk Hf') as (l & El & _ & Hl).
    unfold is_subclass_of. rewrite El. cbn. f_equal. apply bool_decide_eq_true, Hl. right.
    split; [by apply chain_down|]. split; [|by apply is_rel_known].
    destruct (not_extreme o (g_special _ _ Hg1 o Hro)) as (H1 & _ & H2 & _).
    unfold rel_blacklist. rewrite elem_of_union, !elem_of_singleton. tauto.
  Qed.

  (** In particular: if passive is the inverse of active, the inverse of every
      relationship below active is a subclass of passive. *)
  Theorem C24_inverse_of_active_is_passive g act pas :
    good mk g -> hierarchy_consistent g -> inv_rel g act pas ->
    exists n, forall fuel rs r o g1, (n <= fuel)%nat -> asks_valid fuel g rs ->
      is_rel (asks fuel g rs) r -> get_inverse fuel (asks fuel g rs) r = (g1, Ok o) ->
      closure (super_of g1) r act ->
      exists m, forall pick fuel', pick_ok pick -> (m <= fuel')%nat ->
        is_subclass_of pick g1 p_subPropertyOf rel_blacklist fuel' o pas = Some true.
  Proof.
    intros Hg Hc Hap. destruct (C24_inverse_mirrors_hierarchy g Hg Hc) as [n1 H1].
    destruct (C23_other_entities_unchanged g Hg) as [n2 H2].
    exists (n1 + n2)%nat. intros fuel rs r o g1 Hf Hv Hr Hi Hs.
    destruct (H1 fuel rs r o g1) with (s := act) as (j & Hj & m & Hm); try done; [lia|].
    assert (Hv' : asks_valid fuel g (rs ++ [r])).
    { clear -Hv Hr. revert g Hv Hr. induction rs as [|a rs IH]; intros g Hv Hr; cbn in *; [done|].
      destruct Hv as [Ha Hv]. split; [done|]. by apply IH. }
    assert (Heq : asks fuel g (rs ++ [r]) = g1).
    { assert (Hap' : forall g, asks fuel g (rs ++ [r]) = fst (get_inverse fuel (asks fuel g rs) r)).
      { clear. induction rs as [|a rs IH]; intros g; cbn; [done|apply IH]. }
      rewrite Hap', Hi. done. }
    destruct (H2 fuel (rs ++ [r])) as (_ & Hinv & _); [lia|done|]. rewrite Heq in Hinv.
    assert (Hra : is_rel g act) by (eapply (g_typed _ _ Hg); by apply inv_rel_sym).
    rewrite (Hinv act pas Hra Hap) in Hj. injection Hj as <-. eauto.
  Qed.
End Inverses.

(** A concrete ontology: cuba's relationships 201 (relationship, its own
    inverse), 202/203 (active/passive, inverse of each other), and 204, 205
    below active without inverse. *)
Definition exMk (t : term) : term := match t with IRI n => IRI (n + 1000) | t => t end.
Definition exLbl (t : term) : term := match t with IRI n => LIT n | _ => LIT 0 end.
Definition exL : list otriple := [
  (IRI 201, p_type, owl_ObjectProperty); (IRI 202, p_type, owl_ObjectProperty);
  (IRI 203, p_type, owl_ObjectProperty); (IRI 204, p_type, owl_ObjectProperty);
  (IRI 205, p_type, owl_ObjectProperty);
  (IRI 201, p_inverseOf, IRI 201); (IRI 202, p_inverseOf, IRI 203);
  (IRI 202, p_subPropertyOf, IRI 201); (IRI 203, p_subPropertyOf, IRI 201);
  (IRI 201, p_subPropertyOf, owl_topObjectProperty);
  (IRI 204, p_subPropertyOf, IRI 202); (IRI 205, p_subPropertyOf, IRI 204)].
Definition exI : ograph := list_to_set exL.

Ltac in_list H :=
  repeat match type of H with
  | _ ∈ _ :: _ => apply elem_of_cons in H as [H|H]
  | _ ∈ [] => by apply elem_of_nil in H
  end.

Lemma in_exI t : t ∈ exI <-> t ∈ exL.
Proof. unfold exI. by rewrite elem_of_list_to_set. Qed.
Lemma exI_inv a b : inv_rel exI a b ->
  (a = IRI 201 /\ b = IRI 201) \/ (a = IRI 202 /\ b = IRI 203) \/ (a = IRI 203 /\ b = IRI 202).
Proof.
  intros (_ & _ & [H|H]); apply in_exI in H; unfold exL in H; in_list H; inversion H; subst; auto.
Qed.
Lemma exI_rel r : is_rel exI r <->
  r = IRI 201 \/ r = IRI 202 \/ r = IRI 203 \/ r = IRI 204 \/ r = IRI 205.
Proof.
  split.
  - intros [_ H]. apply in_exI in H. unfold exL in H. in_list H; inversion H; subst; auto.
  - intros H. split; [destruct H as [->|[->|[->|[->| ->]]]]; eauto|]. apply in_exI.
    refine (proj1 (bool_decide_eq_true _) _).
    destruct H as [->|[->|[->|[->| ->]]]]; by vm_compute.
Qed.
Lemma exI_super r s : super_of exI r s ->
  (r = IRI 202 /\ s = IRI 201) \/ (r = IRI 203 /\ s = IRI 201) \/
  (r = IRI 204 /\ s = IRI 202) \/ (r = IRI 205 /\ s = IRI 204).
Proof.
  intros (H & Hb & _). apply in_exI in H. unfold exL in H. in_list H; inversion H; subst; auto.
  exfalso. apply Hb. unfold rel_blacklist. rewrite elem_of_union, !elem_of_singleton. auto.
Qed.
Lemma exI_good : good exMk exI.
Proof.
  split.
  - intros a b c H1%exI_inv H2%exI_inv. naive_solver.
  - intros a b H%exI_inv. apply exI_rel. naive_solver.
  - intros r Hr%exI_rel _. split.
    + intros s p o H. apply in_exI in H. unfold exL in H.
      destruct Hr as [->|[->|[->|[->| ->]]]]; in_list H; inversion H; subst; done.
    + destruct Hr as [->|[->|[->|[->| ->]]]]; by eexists.
  - intros r r' Hr%exI_rel _ Hr'%exI_rel _ Heq.
    destruct Hr as [->|[->|[->|[->| ->]]]], Hr' as [->|[->|[->|[->| ->]]]]; done.
  - intros r s _ H%exI_super. apply exI_rel. naive_solver.
  - intros r Hr%exI_rel. unfold extreme. destruct Hr as [->|[->|[->|[->| ->]]]]; intros [H|[H|[H|H]]]; done.
  - intros r Hr%exI_rel _. unfold extreme. destruct Hr as [->|[->|[->|[->| ->]]]]; intros [H|[H|[H|H]]]; done.
Qed.
Lemma exI_consistent : hierarchy_consistent exI.
Proof.
  intros a i s H1%exI_inv _ H2%exI_super.
  assert (Hinv : inv_rel exI (IRI 201) (IRI 201)).
  { split; [done|]. split; [done|]. left. apply in_exI. refine (proj1 (bool_decide_eq_true _) _). by vm_compute. }
  assert (Hs2 : super_of exI (IRI 202) (IRI 201)).
  { split; [|split; [|by vm_compute]].
    - apply in_exI. refine (proj1 (bool_decide_eq_true _) _). by vm_compute.
    - refine (proj1 (bool_decide_eq_false _) _). by vm_compute. }
  assert (Hs3 : super_of exI (IRI 203) (IRI 201)).
  { split; [|split; [|by vm_compute]].
    - apply in_exI. refine (proj1 (bool_decide_eq_true _) _). by vm_compute.
    - refine (proj1 (bool_decide_eq_false _) _). by vm_compute. }
  destruct H1 as [[-> ->]|[[-> ->]|[-> ->]]];
    destruct H2 as [[? ->]|[[? ->]|[[? ->]|[? ->]]]]; try discriminate.
  - exists (IRI 201). split; [done|]. eapply cl_step; [constructor|done].
  - exists (IRI 201). split; [done|]. eapply cl_step; [constructor|done].
Qed.

Definition ex_inv := inverse exMk exLbl (fun l => l).
Example C23_example :
  exists n, forall fuel, (n <= fuel)%nat ->
    exists g1 o, ex_inv fuel exI (IRI 205) = (g1, Ok o) /\ is_rel g1 o /\
    forall rs2, asks_valid exMk exLbl (fun l => l) fuel g1 rs2 ->
      ex_inv fuel (asks exMk exLbl (fun l => l) fuel g1 rs2) o =
        (asks exMk exLbl (fun l => l) fuel g1 rs2, Ok (IRI 205)).
Proof.
  destruct (C23_inverse_total_stable_involutive exMk exLbl (fun l => l)) with (g := exI) as [n Hn].
  - done.
  - intros [m|m|m]; by eexists.
  - apply exI_good.
  - exists n. intros fuel Hf. destruct (Hn fuel [] (IRI 205) Hf I) as (g1 & o & H1 & H2 & H3).
    { apply exI_rel. auto. }
    exists g1, o. split; [done|]. split; [done|]. intros rs2 Hv. by apply H3.
Qed.
(** The same computed: asking for the inverse of 205 creates 1205 below 1204
    below 203 (passive). *)
Example C23_example_computed :
  snd (ex_inv 5 exI (IRI 205)) = Ok (IRI 1205) /\
  snd (ex_inv 5 (fst (ex_inv 5 exI (IRI 205))) (IRI 1205)) = Ok (IRI 205) /\
  is_subclass_of pick0 (fst (ex_inv 5 exI (IRI 205))) p_subPropertyOf rel_blacklist 20 (IRI 1205) (IRI 203)
    = Some true.
Proof. vm_compute. done. Qed.

Example C24_example :
  exists n, forall fuel o g1, (n <= fuel)%nat -> ex_inv fuel exI (IRI 205) = (g1, Ok o) ->
    closure (super_of g1) (IRI 205) (IRI 202) ->
    exists m, forall pick fuel', pick_ok pick -> (m <= fuel')%nat ->
      is_subclass_of pick g1 p_subPropertyOf rel_blacklist fuel' o (IRI 203) = Some true.
Proof.
  destruct (C24_inverse_of_active_is_passive exMk exLbl (fun l => l)) with (g := exI) (act := IRI 202) (pas := IRI 203)
    as [n Hn].
  - done.
  - intros [m|m|m]; by eexists.
  - apply exI_good.
  - apply exI_consistent.
  - split; [done|]. split; [done|]. left. apply in_exI. refine (proj1 (bool_decide_eq_true _) _). by vm_compute.
  - exists n. intros fuel o g1 Hf Hi Hc. apply (Hn fuel [] (IRI 205) o g1 Hf I); [|done|done].
    apply exI_rel. auto.
Qed.

(** Refuted: if two relationships have the same name (possible when entities
    are named by their labels), the inverse of the inverse of one is the other. *)
Theorem C23_refuted_name_collision :
  exists mk g a b i, a <> b /\ is_rel g a /\ is_rel g b /\ (forall x y, ~ inv_rel g x y) /\
    let get := inverse mk exLbl (fun l => l) 5 in
    let g1 := fst (get g a) in let g2 := fst (get g1 b) in
    snd (get g a) = Ok i /\ snd (get g1 b) = Ok i /\
    (snd (get g2 i) = Ok a \/ snd (get g2 i) = Ok b).
Proof.
  exists (fun _ => IRI 300), (list_to_set [(IRI 301, p_type, owl_ObjectProperty); (IRI 302, p_type, owl_ObjectProperty)]).
  exists (IRI 301), (IRI 302), (IRI 300). split; [done|].
  split; [split; [by eexists|refine (proj1 (bool_decide_eq_true _) _); by vm_compute]|].
  split; [split; [by eexists|refine (proj1 (bool_decide_eq_true _) _); by vm_compute]|].
  split.
  - intros x y (_ & _ & [H|H]); rewrite elem_of_list_to_set in H; in_list H; discriminate.
  - cbv zeta. split; [by vm_compute|]. split; [by vm_compute|].
    first [left; by vm_compute|right; by vm_compute].
Qed.

(** Refuted: a declared inverse that is not registered as relationship makes
    [inverse] fail. *)
Theorem C23_refuted_unregistered_inverse :
  exists g a, is_rel g a /\ snd (ex_inv 5 g a) = Err KeyError.
Proof.
  exists (list_to_set [(IRI 301, p_type, owl_ObjectProperty); (IRI 301, p_inverseOf, IRI 302)]), (IRI 301).
  split; [split; [by eexists|refine (proj1 (bool_decide_eq_true _) _); by vm_compute]|]. by vm_compute.
Qed.

(** Refuted without consistent declarations: 205 is below 204 below active; 204
    has the declared inverse 206, which is not below passive: then the created
    inverse of 205 is not passive either. *)
Theorem C24_refuted_inconsistent_declaration :
  exists g g1 o, is_rel g (IRI 205) /\ inv_rel g (IRI 202) (IRI 203) /\
    closure (super_of g) (IRI 205) (IRI 202) /\
    ex_inv 5 g (IRI 205) = (g1, Ok o) /\
    is_subclass_of pick0 g1 p_subPropertyOf rel_blacklist 30 o (IRI 203) = Some false.
Proof.
  set (l := (IRI 206, p_type, owl_ObjectProperty) :: (IRI 204, p_inverseOf, IRI 206) :: exL).
  set (g := list_to_set l : ograph).
  exists g, (fst (ex_inv 5 g (IRI 205))), (IRI 1205).
  assert (Hin : forall t, bool_decide (t ∈ l) = true -> t ∈ g).
  { intros t Ht%bool_decide_eq_true. unfold g. by apply elem_of_list_to_set. }
  assert (Hsup : forall a s, bool_decide ((IRI a, p_subPropertyOf, IRI s) ∈ l) = true ->
     bool_decide (IRI s ∈ rel_blacklist) = false -> known g (IRI s) = true -> super_of g (IRI a) (IRI s)).
  { intros a s H1 H2 H3. split; [by apply Hin|]. split; [|done]. by apply bool_decide_eq_false in H2. }
  split; [split; [by eexists|apply Hin; by vm_compute]|].
  split; [split; [done|split; [done|left; apply Hin; by vm_compute]]|].
  split; [eapply cl_step; [eapply cl_step; [constructor|apply (Hsup 205 204); by vm_compute]|apply (Hsup 204 202); by vm_compute]|].
  assert (Hs : snd (ex_inv 5 g (IRI 205)) = Ok (IRI 1205)) by by vm_compute.
  split; [rewrite <- Hs; apply surjective_pairing|by vm_compute].
Qed.

(** Link with the CUDS model: the function reading the declared inverse (of
    relationships that have one) is an involution, as assumed by the theorems on
    CUDS. *)
Definition inv_fun (g : ograph) (r : N) : N :=
  match find_inverse g (IRI r) with Some (IRI n) => n | _ => r end.
Theorem C23_involutive_environment mk g sub csub rship act :
  good mk g ->
  involutive {| o_sub := sub; o_inv := inv_fun g; o_csub := csub;
                o_relationship := rship; o_active := act |}.
Proof.
  intros Hg r. cbn. unfold inv_fun.
  pose proof (find_inverse_spec g (IRI r) eq_refl) as Hf.
  destruct (find_inverse g (IRI r)) as [o|] eqn:E; [|by rewrite E].
  destruct (g_typed _ _ Hg _ _ Hf) as [[n ->] _].
  pose proof (find_inverse_spec g (IRI n) eq_refl) as Hf2.
  destruct (find_inverse g (IRI n)) as [o2|] eqn:E2.
  - assert (o2 = IRI r) as -> by (eapply (g_fun _ _ Hg); [done|by apply inv_rel_sym]). done.
  - by destruct (Hf2 (IRI r)); apply inv_rel_sym.
Qed.
Print Assumptions C22_superclasses_exact.
Print Assumptions C22_converse.
Print Assumptions C23_inverse_total_stable_involutive.
Print Assumptions C24_inverse_mirrors_hierarchy.
