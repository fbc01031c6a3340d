(** The ontology graph and the subclass hierarchy:
    osp/core/ontology/entity.py:77-261, relationship.py:51-87, oclass.py:197-215,
    attribute.py:88-104, namespace_registry.py:137-175.

    The graph of the namespace registry is a finite set of RDF triples.  IRIs,
    blank nodes and literals are numbered. *)
From stdpp Require Import base list gmap countable.
From Verif Require Import Prelude.
Local Open Scope N_scope.

Inductive term := IRI (n : N) | BN (n : N) | LIT (n : N).
Global Instance term_eq_dec : EqDecision term.
Proof. solve_decision. Defined.
Global Instance term_countable : Countable term.
Proof.
  refine (inj_countable'
    (fun t => match t with IRI n => inl n | BN n => inr (inl n) | LIT n => inr (inr n) end)
    (fun x => match x with inl n => IRI n | inr (inl n) => BN n | inr (inr n) => LIT n end) _).
  by intros [].
Defined.

Definition otriple := (term * N * term)%type.
Definition ograph := gset otriple.

(** The vocabulary used by the code.  [owl_DataProperty] is the IRI
    owl:DataProperty written in entity.py:212, 215; it is not the IRI
    owl:DatatypeProperty that attributes have. *)
Definition p_subClassOf := 1.
Definition p_subPropertyOf := 2.
Definition p_type := 3.
Definition p_inverseOf := 4.
Definition p_prefLabel := 5.
Definition owl_Class := IRI 10.
Definition owl_ObjectProperty := IRI 11.
Definition owl_DatatypeProperty := IRI 12.
Definition owl_DataProperty := IRI 13.
Definition owl_Thing := IRI 14.
Definition owl_Nothing := IRI 15.
Definition owl_NamedIndividual := IRI 16.
Definition owl_topObjectProperty := IRI 17.
Definition owl_bottomObjectProperty := IRI 18.
Definition owl_topDataProperty := IRI 19.
Definition owl_bottomDataProperty := IRI 20.

(** oclass.py:9-10, relationship.py:11-12, attribute.py:11 *)
Definition class_blacklist : gset term :=
  {[ owl_Nothing; owl_Thing; owl_NamedIndividual ]}.
Definition rel_blacklist : gset term := {[ owl_bottomObjectProperty; owl_topObjectProperty ]}.
Definition attr_blacklist : gset term := {[ owl_bottomDataProperty; owl_topDataProperty ]}.

(** Triple patterns (rdflib [Graph.triples]): None is a wildcard. *)
Definition pattern := (option term * N * option term)%type.
Definition pat_match (p : pattern) (t : otriple) : bool :=
  let '(ps, pp, po) := p in
  let '(s, q, o) := t in
  bool_decide (pp = q) &&
  match ps with None => true | Some s' => bool_decide (s' = s) end &&
  match po with None => true | Some o' => bool_decide (o' = o) end.
Definition triples (g : ograph) (p : pattern) : list otriple :=
  filter (fun t => pat_match p t = true) (elements g).

(** entity.py:196-225 [_special_cases] *)
Definition special_cases (p : pattern) : pattern :=
  if decide (p = (None, p_subClassOf, Some owl_Thing)) then (None, p_type, Some owl_Class)
  else if decide (p = (Some owl_Nothing, p_subClassOf, None)) then (None, p_type, Some owl_Class)
  else if decide (p = (None, p_subPropertyOf, Some owl_topObjectProperty))
       then (None, p_type, Some owl_ObjectProperty)
  else if decide (p = (Some owl_bottomObjectProperty, p_subPropertyOf, None))
       then (None, p_type, Some owl_ObjectProperty)
  else if decide (p = (None, p_subPropertyOf, Some owl_topDataProperty))
       then (None, p_type, Some owl_DataProperty)
  else if decide (p = (Some owl_bottomDataProperty, p_subPropertyOf, None))
       then (None, p_type, Some owl_DataProperty)
  else p.

(** entity.py:231-238: the pattern used for the direct connections of [iri]. *)
Definition conn_pattern (pred : N) (inverse : bool) (iri : term) : pattern :=
  let p := if inverse then (None, pred, Some iri) else (Some iri, pred, None) in
  if decide (pred = p_subClassOf \/ pred = p_subPropertyOf) then special_cases p else p.

(** entity.py:240: which end of a matching triple is the connected entity. *)
Definition conn_end (p : pattern) (t : otriple) : term :=
  match p with (None, _, _) => fst (fst t) | _ => snd t end.

Definition connections (g : ograph) (pred : N) (inverse : bool) (iri : term) : list term :=
  let p := conn_pattern pred inverse iri in
  map (conn_end p) (triples g p).

Definition is_bnode (t : term) : bool := match t with BN _ => true | _ => false end.

(** namespace_registry.py:137-175 [from_iri] with raise_error=False: the IRI
    denotes an entity if it has one of the three OWL types.  (Simplification:
    with names taken from labels, a missing label makes from_iri raise
    AttributeError; literals never denote entities.) *)
Definition known (g : ograph) (t : term) : bool :=
  match t with
  | IRI _ => bool_decide ((t, p_type, owl_Class) ∈ g) ||
             bool_decide ((t, p_type, owl_ObjectProperty) ∈ g) ||
             bool_decide ((t, p_type, owl_DatatypeProperty) ∈ g)
  | _ => false
  end.

(** entity.py:227-261 [_directly_connected] without visited set. *)
Definition directly_connected (g : ograph) (pred : N) (inverse : bool)
  (bl : gset term) (iri : term) : list term :=
  filter (fun o => (negb (is_bnode o) && bool_decide (o ∉ bl) && known g o)%bool = true)
    (connections g pred inverse iri).

(** The same function called from the hull, with the visited and frontier sets
    (entity.py:239-252).  Returns visited, frontier and the yielded entities. *)
Fixpoint dc_visit (g : ograph) (bl : gset term) (os : list term)
  (visited frontier : gset term) : gset term * gset term * list term :=
  match os with
  | [] => (visited, frontier, [])
  | o :: os =>
      if decide (o ∈ visited) then dc_visit g bl os visited frontier
      else if is_bnode o then dc_visit g bl os visited frontier
      else
        let '(v, f, ys) := dc_visit g bl os (visited ∪ {[o]}) (frontier ∪ {[o]}) in
        (v, f, if bool_decide (o ∉ bl) && known g o then o :: ys else ys)
  end.

(** entity.py:173-194 [_transitive_hull].  [pick] models set.pop(), which may
    return any element and need not be consistent between iterations. *)
Fixpoint hull_loop (pick : nat -> gset term -> term) (g : ograph) (pred : N)
  (inverse : bool) (bl : gset term) (fuel : nat) (visited frontier : gset term)
  : option (list term) :=
  if decide (frontier = ∅) then Some []
  else match fuel with
       | O => None
       | S fuel =>
           let current := pick fuel frontier in
           let '(v, f, ys) := dc_visit g bl (connections g pred inverse current)
                                visited (frontier ∖ {[current]}) in
           match hull_loop pick g pred inverse bl fuel v f with
           | None => None
           | Some zs => Some (ys ++ zs)
           end
       end.
Definition transitive_hull pick g pred inverse bl fuel (iri : term) : option (list term) :=
  hull_loop pick g pred inverse bl fuel {[iri]} {[iri]}.

(** relationship.py:71-89 / oclass.py:232-243 / attribute.py:96-99
    [_superclasses], [_subclasses]: the entity itself, then the hull. *)
Definition superclasses pick g pred bl fuel iri : option (list term) :=
  (cons iri) <$> transitive_hull pick g pred false bl fuel iri.
Definition subclasses pick g pred bl fuel iri : option (list term) :=
  (cons iri) <$> transitive_hull pick g pred true bl fuel iri.

(** ** Specification: direct edges of the hierarchy and their closure *)

(** One step of the hierarchy as searched upwards (inverse=false) or downwards. *)
Definition edge (g : ograph) (pred : N) (inverse : bool) (x y : term) : Prop :=
  y ∈ connections g pred inverse x /\ is_bnode y = false.

Inductive closure {A} (R : A -> A -> Prop) (x : A) : A -> Prop :=
| cl_refl : closure R x x
| cl_step y z : closure R x y -> R y z -> closure R x z.

Lemma closure_trans {A} (R : A -> A -> Prop) x y z :
  closure R x y -> closure R y z -> closure R x z.
Proof. intros Hxy. induction 1; [done|]. by eapply cl_step. Qed.
Lemma closure_flip {A} (R S : A -> A -> Prop) x y :
  (forall a b, R a b -> S b a) -> closure R x y -> closure S y x.
Proof.
  intros HRS. induction 1 as [|y z _ IH Hr]; [constructor|].
  eapply closure_trans; [|exact IH]. eapply cl_step; [constructor|]. by apply HRS.
Qed.

Definition pick_ok (pick : nat -> gset term -> term) : Prop :=
  forall n F, F <> ∅ -> pick n F ∈ F.

(** ** Proofs *)

Lemma elem_triples g p t : t ∈ triples g p <-> t ∈ g /\ pat_match p t = true.
Proof. unfold triples. rewrite elem_of_list_filter, elem_of_elements. tauto. Qed.

Lemma elem_connections g pred inverse x y :
  y ∈ connections g pred inverse x <->
  exists t, t ∈ g /\ pat_match (conn_pattern pred inverse x) t = true /\
            y = conn_end (conn_pattern pred inverse x) t.
Proof.
  unfold connections. rewrite elem_of_list_In, in_map_iff. split.
  - intros (t & <- & Ht). apply elem_of_list_In, elem_triples in Ht as [? ?]. eauto.
  - intros (t & Hg & Hm & ->). exists t. split; [done|]. by apply elem_of_list_In, elem_triples.
Qed.

Definition vis_spec (g : ograph) (bl : gset term) (os : list term)
  (visited frontier v f : gset term) (ys : list term) : Prop :=
  (forall x, x ∈ v <-> x ∈ visited \/ (x ∈ os /\ is_bnode x = false)) /\
  (forall x, x ∈ f <-> x ∈ frontier \/ (x ∈ os /\ is_bnode x = false /\ x ∉ visited)) /\
  NoDup ys /\
  (forall x, x ∈ ys <-> x ∈ os /\ is_bnode x = false /\ x ∉ visited /\ x ∉ bl /\ known g x = true).

Lemma dc_visit_spec g bl os visited frontier v f ys :
  dc_visit g bl os visited frontier = (v, f, ys) ->
  vis_spec g bl os visited frontier v f ys.
Proof.
  revert visited frontier v f ys. induction os as [|o os IH];
    intros visited frontier v f ys Hd; cbn in Hd.
  { injection Hd as <- <- <-. split; [|split; [|split]].
    - intros x. split; [by left|]. intros [?|[Hx _]]; [done|by apply elem_of_nil in Hx].
    - intros x. split; [by left|]. intros [?|[Hx _]]; [done|by apply elem_of_nil in Hx].
    - constructor.
    - intros x. split; [intros Hx; by apply elem_of_nil in Hx|].
      intros [Hx _]. by apply elem_of_nil in Hx. }
  destruct (decide (o ∈ visited)) as [Hv|Hv].
  { apply IH in Hd as (H1 & H2 & H3 & H4). split; [|split; [|split]].
    - intros x. rewrite H1, elem_of_cons. split; [tauto|].
      intros [?|[[->|?] ?]]; [tauto|tauto|tauto].
    - intros x. rewrite H2, elem_of_cons. split; [tauto|].
      intros [?|([->|?] & ? & ?)]; [tauto|done|tauto].
    - done.
    - intros x. rewrite H4, elem_of_cons. split; [tauto|].
      intros ([->|?] & ? & ? & ?); [done|tauto]. }
  destruct (is_bnode o) eqn:Eb.
  { apply IH in Hd as (H1 & H2 & H3 & H4). split; [|split; [|split]].
    - intros x. rewrite H1, elem_of_cons. split; [tauto|].
      intros [?|[[->|?] ?]]; [tauto|congruence|tauto].
    - intros x. rewrite H2, elem_of_cons. split; [tauto|].
      intros [?|([->|?] & ? & ?)]; [tauto|congruence|tauto].
    - done.
    - intros x. rewrite H4, elem_of_cons. split; [tauto|].
      intros ([->|?] & ? & ? & ?); [congruence|tauto]. }
  destruct (dc_visit g bl os (visited ∪ {[o]}) (frontier ∪ {[o]})) as [[v1 f1] ys1] eqn:E.
  apply IH in E as (H1 & H2 & H3 & H4). injection Hd as <- <- <-.
  split; [|split; [|split]].
  - intros x. rewrite H1, elem_of_cons, elem_of_union, elem_of_singleton.
    split; [intros [[?| ->]|?]; tauto|]. intros [?|[[->|?] ?]]; tauto.
  - intros x. rewrite H2, elem_of_cons, !elem_of_union, !elem_of_singleton.
    destruct (decide (x = o)) as [->|Hne]; tauto.
  - destruct (bool_decide (o ∉ bl) && known g o); [|done]. constructor; [|done].
    rewrite H4. intros (_ & _ & Hn & _). apply Hn, elem_of_union. right. by apply elem_of_singleton.
  - intros x. destruct (bool_decide (o ∉ bl) && known g o) eqn:Ek.
    + apply andb_true_iff in Ek as [Ebl Ek]. apply bool_decide_eq_true in Ebl.
      rewrite !elem_of_cons, H4, elem_of_union, elem_of_singleton.
      destruct (decide (x = o)) as [->|Hne]; [|tauto]. tauto.
    + rewrite elem_of_cons, H4, elem_of_union, elem_of_singleton.
      destruct (decide (x = o)) as [->|Hne]; [|tauto].
      split; [tauto|]. intros (_ & _ & _ & Hb & Hk). exfalso.
      rewrite bool_decide_true in Ek by done. by rewrite Hk in Ek.
Qed.

Section Hull.
  Context (pick : nat -> gset term -> term) (Hpick : pick_ok pick).
  Context (g : ograph) (pred : N) (inverse : bool) (bl : gset term).
  Notation E := (edge g pred inverse).

  (** All terms occurring in the graph: a finite universe. *)
  Definition universe : gset term :=
    list_to_set (map (fun t : otriple => fst (fst t)) (elements g)) ∪
    list_to_set (map (fun t : otriple => snd t) (elements g)).

  Lemma connections_universe x y : y ∈ connections g pred inverse x -> y ∈ universe.
  Proof.
    rewrite elem_connections. intros (t & Hg & _ & ->). unfold universe, conn_end.
    apply elem_of_union. destruct (conn_pattern pred inverse x) as [[[ps|] pp] po].
    - right. apply elem_of_list_to_set, elem_of_list_In, in_map_iff. exists t.
      split; [done|]. by apply elem_of_list_In, elem_of_elements.
    - left. apply elem_of_list_to_set, elem_of_list_In, in_map_iff. exists t.
      split; [done|]. by apply elem_of_list_In, elem_of_elements.
  Qed.

  Lemma hull_loop_spec (U : gset term) (root : term) fuel visited frontier :
    (forall x y, y ∈ connections g pred inverse x -> y ∈ U) ->
    frontier ⊆ visited ->
    (forall x, x ∈ visited -> closure E root x) ->
    (forall x y, x ∈ visited -> x ∉ frontier -> E x y -> y ∈ visited) ->
    root ∈ visited ->
    (size frontier + size (U ∖ visited) <= fuel)%nat ->
    exists ys, hull_loop pick g pred inverse bl fuel visited frontier = Some ys /\
      NoDup ys /\
      forall x, x ∈ ys <-> closure E root x /\ x ∉ visited /\ x ∉ bl /\ known g x = true.
  Proof.
    intros HU. revert visited frontier. induction fuel as [|fuel IH];
      intros visited frontier Hfv Hre Hcl Hroot Hsz.
    all: cbn [hull_loop]; destruct (decide (frontier = ∅)) as [->|Hne].
    1,3: exists []; split; [done|]; split; [constructor|]; intros x;
      split; [intros Hx; by apply elem_of_nil in Hx|]; intros (Hx & Hn & _); exfalso;
      apply Hn; clear Hn; induction Hx as [|y z _ IHx Hz]; [done|];
      by apply (Hcl y); [done|apply not_elem_of_empty|].
    { exfalso. apply Hne. apply leibniz_equiv, size_empty_inv. lia. }
    set (cur := pick fuel frontier).
    assert (Hcur : cur ∈ frontier) by by apply Hpick.
    destruct (dc_visit g bl (connections g pred inverse cur) visited (frontier ∖ {[cur]}))
      as [[v f] ys] eqn:Ed.
    apply dc_visit_spec in Ed as (Hv & Hf & Hnd & Hys).
    destruct (IH v f) as (zs & -> & Hndz & Hzs).
    { intros x Hx. apply Hf in Hx as [Hx|(Hx & Hb & _)]; apply Hv; [left|by right].
      apply Hfv. by apply elem_of_difference in Hx as [? _]. }
    { intros x Hx. apply Hv in Hx as [Hx|[Hx Hb]]; [by apply Hre|].
      eapply cl_step; [apply (Hre cur); by apply Hfv|]. by split. }
    { intros x y Hx Hxf Hxy. apply Hv. apply Hv in Hx.
      destruct (decide (x = cur)) as [->|Hxc].
      - right. apply Hxy.
      - destruct Hx as [Hx|[Hx Hb]].
        + destruct (decide (x ∈ frontier)) as [Hxfr|Hxfr].
          * exfalso. apply Hxf, Hf. left. apply elem_of_difference.
            split; [done|]. by rewrite elem_of_singleton.
          * left. by apply (Hcl x).
        + destruct (decide (x ∈ visited)) as [Hxv|Hxv].
          * destruct (decide (x ∈ frontier)) as [Hxfr|Hxfr].
            -- exfalso. apply Hxf, Hf. left. apply elem_of_difference.
               split; [done|]. by rewrite elem_of_singleton.
            -- left. by apply (Hcl x).
          * exfalso. apply Hxf, Hf. right. done. }
    { apply Hv. by left. }
    { (* the measure decreases by one *)
      set (new := v ∖ visited).
      assert (Hfeq : f = frontier ∖ {[cur]} ∪ new).
      { apply set_eq. intros x. unfold new. rewrite Hf, elem_of_union, !elem_of_difference, Hv.
        split; [intros [?|(?&?&?)]; tauto|]. intros [?|[[?|[? ?]] ?]]; tauto. }
      assert (Hnu : new ⊆ U ∖ visited).
      { intros x. unfold new. rewrite !elem_of_difference, Hv. intros [[?|[Hx _]] ?]; [done|].
        split; [by eapply HU|done]. }
      assert (Hd : frontier ∖ {[cur]} ## new).
      { intros x Hx Hn. unfold new in Hn. apply elem_of_difference in Hn as [_ Hn].
        apply Hn, Hfv. by apply elem_of_difference in Hx as [? _]. }
      assert (Huv : U ∖ v = (U ∖ visited) ∖ new).
      { apply set_eq. intros x. unfold new. rewrite !elem_of_difference, Hv. tauto. }
      rewrite Hfeq, size_union, Huv by done.
      rewrite (size_difference (U ∖ visited) new) by done.
      rewrite (size_difference frontier {[cur]}).
      2:{ intros x Hx. apply elem_of_singleton in Hx as ->. done. }
      rewrite size_singleton. apply subseteq_size in Hnu.
      assert (size frontier <> 0)%nat by (intros Hz%size_empty_inv; clear -Hz Hcur; set_solver).
      lia. }
    exists (ys ++ zs). split; [done|]. split.
    { apply NoDup_app. split; [done|]. split; [|done]. intros x Hx Hz.
      apply Hys in Hx as (Hx & Hb & _). apply Hzs in Hz as (_ & Hz & _).
      apply Hz, Hv. by right. }
    intros x. rewrite elem_of_app, Hys, Hzs. split.
    - intros [(Hx & Hb & Hxv & Hxb & Hk)|(Hx & Hxv & Hxb & Hk)].
      + split; [|done]. eapply cl_step; [apply (Hre cur); by apply Hfv|]. by split.
      + split; [done|]. split; [|done]. intros Hn. apply Hxv, Hv. by left.
    - intros (Hx & Hxv & Hxb & Hk). destruct (decide (x ∈ v)) as [Hin|Hn].
      + left. apply Hv in Hin as [?|[? ?]]; [done|]. done.
      + right. done.
  Qed.

  Lemma transitive_hull_spec (U : gset term) fuel iri :
    (forall x y, y ∈ connections g pred inverse x -> y ∈ U) ->
    (size U < fuel)%nat ->
    exists ys, transitive_hull pick g pred inverse bl fuel iri = Some ys /\
      NoDup ys /\
      forall x, x ∈ ys <-> closure E iri x /\ x <> iri /\ x ∉ bl /\ known g x = true.
  Proof.
    intros HU Hsz.
    destruct (hull_loop_spec U iri fuel {[iri]} {[iri]}) as (ys & Hh & Hnd & Hys).
    - done.
    - done.
    - intros x Hx. apply elem_of_singleton in Hx as ->. constructor.
    - intros x y Hx Hn. done.
    - by apply elem_of_singleton.
    - rewrite size_singleton. assert (size (U ∖ {[iri]}) <= size U)%nat; [|lia].
      apply subseteq_size. set_solver.
    - exists ys. split; [done|]. split; [done|]. intros x.
      by rewrite Hys, elem_of_singleton.
  Qed.
End Hull.

(** entity.py:134-143 [is_superclass_of], [is_subclass_of] (None: no result
    within the given number of iterations, which the theorems exclude). *)
Definition is_superclass_of pick g pred bl fuel (self other : term) : option bool :=
  (fun l => bool_decide (self ∈ l)) <$> superclasses pick g pred bl fuel other.
Definition is_subclass_of pick g pred bl fuel (self other : term) : option bool :=
  (fun l => bool_decide (self ∈ l)) <$> subclasses pick g pred bl fuel other.
