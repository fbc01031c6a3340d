(** Property C70: Ontology2Dot draws exactly the entities of the namespaces, their
    superclasses and inverses, and the relations between them. *)
From Coq Require Import String.
From stdpp Require Import base sets list gmap countable.
From Verif Require Import Prelude Utf8 Text OntoDot.

Section Spec.
  Context {E NS : Type} `{Countable E} `{EqDecision NS}.
  Context (kind : E -> ekind) (namespace_of : E -> NS) (superclasses : E -> list E)
    (inverse : E -> E) (generated : E -> bool)
    (attributes : E -> list (str * str)) (datatype : E -> option str)
    (chosen : list NS) (group : bool) (entities : NS -> list E).

  (** From an entity to its direct superclasses, and from a relationship to its inverse
      unless that has a generated name. *)
  Definition leads (x y : E) : Prop :=
    y ∈ superclasses x \/ (kind x = KRel /\ y = inverse x /\ generated y = false).
  (** What is drawn: the entities of the chosen namespaces and what they lead to. *)
  Definition drawn (x : E) : Prop := exists ns e, ns ∈ chosen /\ e ∈ entities ns /\ rtc leads e x.

  Definition the_label (x : E) : list lrow :=
    match kind x with
    | KClass => (λ '(k, v), RAttr k v) <$> attributes x
    | KRel => []
    | KAttr => [RDatatype (datatype x)]
    end.
  Definition the_node (x : E) : dnode E NS :=
    DNode (if group then Some (namespace_of x) else None) x (the_label x) (bool_decide (namespace_of x ∈ chosen)).
  Definition pairs (l : elabel) (es : list (dedge E)) : list (E * E) :=
    omap (λ x, match e_label x, l with
               | LIsA, LIsA | LInverse, LInverse => Some (e_from x, e_to x)
               | _, _ => None
               end) es.
End Spec.

Section Proofs.
  Context {E NS : Type} `{Countable E} `{EqDecision NS}.
  Context (kind : E -> ekind) (namespace_of : E -> NS) (superclasses : E -> list E)
    (inverse : E -> E) (generated : E -> bool)
    (attributes : E -> list (str * str)) (datatype : E -> option str)
    (chosen : list NS) (group : bool) (entities : NS -> list E).
  Notation odrawing := (odrawing E NS).
  Notation leads := (leads kind superclasses inverse generated).
  Notation the_node := (the_node kind namespace_of attributes datatype chosen group).
  Notation add_entity := (add_entity kind namespace_of superclasses inverse generated attributes datatype chosen group).
  Notation add_entities := (add_entities kind namespace_of superclasses inverse generated attributes datatype chosen group).
  Context (Hinv : forall x, kind x = KRel -> kind (inverse x) = KRel /\ inverse (inverse x) = x).

  Definition isa_of (l : list E) : list (E * E) := l ≫= λ x, (x,.) <$> superclasses x.
  (** The entities [l] were added to the drawing [d], with the inverse edges [m] among
      them, and the edges [xi] (is_a) and [xv] (inverse) besides. *)
  Record grew (d : odrawing) (l : list E) (m xi xv : list (E * E)) (d' : odrawing) : Prop := {
    g_nodes : o_nodes d' = o_nodes d ++ (the_node <$> l);
    g_visited : o_visited d' = o_visited d ∪ list_to_set l;
    g_nodup : NoDup l;
    g_new : forall x, x ∈ l -> x ∉ o_visited d;
    g_closed : forall x y, x ∈ l -> leads x y -> y ∈ o_visited d';
    g_isa : pairs LIsA (o_edges d') ≡ₚ pairs LIsA (o_edges d) ++ isa_of l ++ xi;
    g_inv : pairs LInverse (o_edges d') ≡ₚ pairs LInverse (o_edges d) ++ m ++ xv;
    g_inv_nodup : NoDup m;
    g_inv_in : forall a b, (a, b) ∈ m -> a ∈ l /\ b ∈ l /\ a <> b /\ kind a = KRel /\ b = inverse a /\ generated b = false /\ (b, a) ∉ m;
    g_inv_all : forall a, a ∈ l -> kind a = KRel -> generated (inverse a) = false -> a <> inverse a ->
      (a, inverse a) ∈ m \/ inverse a ∈ o_visited d \/ (inverse a, a) ∈ m \/ generated a = true;
    g_clusters : group = true -> (forall ns, ns ∈ o_clusters d' <-> ns ∈ o_clusters d \/ exists x, x ∈ l /\ ns = namespace_of x)
      /\ (NoDup (o_clusters d) -> NoDup (o_clusters d'));
    g_nogroup : group = false -> o_clusters d' = o_clusters d
  }.

  Lemma grew_refl d : grew d [] [] [] [] d.
  Proof.
    split; simpl.
    - by rewrite app_nil_r.
    - by rewrite (right_id_L ∅ (∪)).
    - constructor.
    - intros x Hx. by apply elem_of_nil in Hx.
    - intros x y Hx. by apply elem_of_nil in Hx.
    - by rewrite app_nil_r.
    - by rewrite app_nil_r.
    - constructor.
    - intros a b Hx. by apply elem_of_nil in Hx.
    - intros a Hx. by apply elem_of_nil in Hx.
    - intros _. split; [|done]. intros ns. split; [by left|]. intros [?|(x & Hx & _)]; [done|]. by apply elem_of_nil in Hx.
    - done.
  Qed.
  Lemma isa_app l1 l2 : isa_of (l1 ++ l2) = isa_of l1 ++ isa_of l2.
  Proof. unfold isa_of. by rewrite bind_app. Qed.
  Lemma grew_trans d l1 m1 xi1 xv1 d1 l2 m2 xi2 xv2 d2 : grew d l1 m1 xi1 xv1 d1 -> grew d1 l2 m2 xi2 xv2 d2 ->
    grew d (l1 ++ l2) (m1 ++ m2) (xi1 ++ xi2) (xv1 ++ xv2) d2.
  Proof.
    intros G1 G2.
    assert (Hdis : forall x, x ∈ l1 -> x ∉ l2).
    { intros x Hx Hy. apply (g_new _ _ _ _ _ _ G2 _ Hy). rewrite (g_visited _ _ _ _ _ _ G1).
      apply elem_of_union_r. by apply elem_of_list_to_set. }
    split.
    - rewrite (g_nodes _ _ _ _ _ _ G2), (g_nodes _ _ _ _ _ _ G1), fmap_app. by rewrite app_assoc.
    - rewrite (g_visited _ _ _ _ _ _ G2), (g_visited _ _ _ _ _ _ G1), list_to_set_app_L. by rewrite (assoc_L (∪)).
    - apply NoDup_app. split; [apply G1|]. split; [done | apply G2].
    - intros x Hx. apply elem_of_app in Hx as [Hx|Hx]; [by apply (g_new _ _ _ _ _ _ G1)|].
      pose proof (g_new _ _ _ _ _ _ G2 _ Hx) as Hn. rewrite (g_visited _ _ _ _ _ _ G1) in Hn.
      intros Hv. apply Hn. by apply elem_of_union_l.
    - intros x y Hx Hl. apply elem_of_app in Hx as [Hx|Hx]; [|by eapply (g_closed _ _ _ _ _ _ G2)].
      rewrite (g_visited _ _ _ _ _ _ G2). apply elem_of_union_l. by eapply (g_closed _ _ _ _ _ _ G1).
    - rewrite (g_isa _ _ _ _ _ _ G2), (g_isa _ _ _ _ _ _ G1), isa_app. solve_Permutation.
    - rewrite (g_inv _ _ _ _ _ _ G2), (g_inv _ _ _ _ _ _ G1). solve_Permutation.
    - apply NoDup_app. split; [apply G1|]. split; [|apply G2].
      intros [a b] H1 H2. destruct (g_inv_in _ _ _ _ _ _ G1 _ _ H1) as (Ha & _). destruct (g_inv_in _ _ _ _ _ _ G2 _ _ H2) as (Ha' & _).
      by apply (Hdis a).
    - intros a b Hab. apply elem_of_app in Hab as [Hab|Hab].
      + destruct (g_inv_in _ _ _ _ _ _ G1 _ _ Hab) as (Ha & Hb & Hne & Hk & He & Hg & Hn).
        split; [apply elem_of_app; by left|]. split; [apply elem_of_app; by left|]. repeat (split; [done|]).
        rewrite elem_of_app. intros [?|Hba]; [done|].
        destruct (g_inv_in _ _ _ _ _ _ G2 _ _ Hba) as (Hb' & _). by apply (Hdis b).
      + destruct (g_inv_in _ _ _ _ _ _ G2 _ _ Hab) as (Ha & Hb & Hne & Hk & He & Hg & Hn).
        split; [apply elem_of_app; by right|]. split; [apply elem_of_app; by right|]. repeat (split; [done|]).
        rewrite elem_of_app. intros [Hba|?]; [|done].
        destruct (g_inv_in _ _ _ _ _ _ G1 _ _ Hba) as (Hb' & _). by apply (Hdis b).
    - intros a Ha Hk Hg Hne. rewrite !elem_of_app. apply elem_of_app in Ha as [Ha|Ha].
      + destruct (g_inv_all _ _ _ _ _ _ G1 a Ha Hk Hg Hne) as [?|[?|[?|?]]]; auto 6.
      + destruct (g_inv_all _ _ _ _ _ _ G2 a Ha Hk Hg Hne) as [?|[Hv|[?|?]]]; [by auto| |by auto 6|by auto 6].
        rewrite (g_visited _ _ _ _ _ _ G1), elem_of_union, elem_of_list_to_set in Hv. destruct Hv as [Hv|Hv]; [by auto|].
        (* the inverse was drawn by the first part: it leads to a unless a is generated *)
        destruct (generated a) eqn:Ega; [by auto 6|]. exfalso.
        destruct (Hinv a Hk) as [Hk' Hi]. apply (g_new _ _ _ _ _ _ G2 _ Ha).
        apply (g_closed _ _ _ _ _ _ G1 (inverse a)); [done|]. right. rewrite Hi. done.
    - intros Hg. destruct (g_clusters _ _ _ _ _ _ G1 Hg) as [C1 N1]. destruct (g_clusters _ _ _ _ _ _ G2 Hg) as [C2 N2].
      split; [|auto]. intros ns. rewrite C2, C1. setoid_rewrite elem_of_app. split.
      + intros [[?|(x & ? & ?)]|(x & ? & ?)]; eauto 6.
      + intros [?|(x & [?|?] & ?)]; eauto 6.
    - intros Hg. by rewrite (g_nogroup _ _ _ _ _ _ G2 Hg), (g_nogroup _ _ _ _ _ _ G1 Hg).
  Qed.

  Lemma pairs_app k es es' : pairs (E:=E) k (es ++ es') = pairs k es ++ pairs k es'.
  Proof. unfold pairs. by rewrite omap_app. Qed.
  Lemma grew_edge d x y k : grew d [] [] (match k with LIsA => [(x, y)] | LInverse => [] end)
    (match k with LInverse => [(x, y)] | LIsA => [] end) (add_edge x y k d).
  Proof.
    destruct (grew_refl d) as [? ? ? ? ? _ _ ? ? ? ? ?]. split; try done; simpl; rewrite pairs_app; by destruct k.
  Qed.

  (** The entities drawn by a call are reached from its argument. *)
  Definition visits (rec : E -> odrawing -> option odrawing) : Prop :=
    forall e d d', rec e d = Some d' ->
      e ∈ o_visited d' /\ exists l m, grew d l m [] [] d' /\ forall x, x ∈ l -> rtc leads e x.

  Lemma grew_mono d l m xi xv d' : grew d l m xi xv d' -> o_visited d ⊆ o_visited d'.
  Proof. intros G. rewrite (g_visited _ _ _ _ _ _ G). apply union_subseteq_l. Qed.

  Lemma superclasses_spec rec : visits rec -> forall e cs d d', add_superclasses rec e cs d = Some d' ->
    (forall c, c ∈ cs -> c ∈ o_visited d') /\
    exists l m, grew d l m ((e,.) <$> cs) [] d' /\ forall x, x ∈ l -> exists c, c ∈ cs /\ rtc leads c x.
  Proof.
    intros Hrec e cs. induction cs as [|c cs IH]; intros d d' Hd; simpl in Hd.
    - injection Hd as <-. split; [intros c Hc; by apply elem_of_nil in Hc|]. exists [], []. split; [apply grew_refl|].
      intros x Hx. by apply elem_of_nil in Hx.
    - destruct (rec c d) as [d1|] eqn:E1; [|done]. destruct (Hrec _ _ _ E1) as (Hc & l1 & m1 & G1 & R1).
      destruct (IH _ _ Hd) as (Hcs & l2 & m2 & G2 & R2). pose proof (grew_edge d1 e c LIsA) as Ge.
      split.
      + intros c' Hc'. apply elem_of_cons in Hc' as [-> |Hc']; [|by apply Hcs]. apply (grew_mono _ _ _ _ _ _ G2). exact Hc.
      + exists (l1 ++ l2), (m1 ++ m2). split.
        * exact (grew_trans _ _ _ _ _ _ _ _ _ _ _ G1 (grew_trans _ _ _ _ _ _ _ _ _ _ _ Ge G2)).
        * intros x Hx. apply elem_of_app in Hx as [Hx|Hx].
          -- exists c. split; [left | by apply R1].
          -- destruct (R2 x Hx) as (c' & Hc' & Hr). exists c'. split; [by right | done].
  Qed.

  (** The node itself. *)
  Lemma with_node e d d0 d' l m xi xv : e ∉ o_visited d ->
    o_visited d0 = o_visited d ∪ {[e]} -> o_nodes d0 = o_nodes d ++ [the_node e] -> o_edges d0 = o_edges d ->
    (group = true -> (forall ns, ns ∈ o_clusters d0 <-> ns ∈ o_clusters d \/ ns = namespace_of e) /\ (NoDup (o_clusters d) -> NoDup (o_clusters d0))) ->
    (group = false -> o_clusters d0 = o_clusters d) ->
    grew d0 l m xi xv d' -> xi = (e,.) <$> superclasses e -> (forall y, leads e y -> y ∈ o_visited d') ->
    (xv = [] /\ (kind e = KRel -> generated (inverse e) = false -> e <> inverse e -> inverse e ∈ o_visited d)
     \/ xv = [(e, inverse e)] /\ kind e = KRel /\ generated (inverse e) = false /\ inverse e ∈ l) ->
    grew d (e :: l) (m ++ xv) [] [] d'.
  Proof.
    intros Hne Hv Hn He Hc Hc' G -> Hcl Hx.
    assert (Hel : e ∉ l).
    { intros Hin. apply (g_new _ _ _ _ _ _ G _ Hin). rewrite Hv. apply elem_of_union_r. by apply elem_of_singleton. }
    split.
    - rewrite (g_nodes _ _ _ _ _ _ G), Hn. simpl. by rewrite <- app_assoc.
    - rewrite (g_visited _ _ _ _ _ _ G), Hv. simpl. by rewrite <- (assoc_L (∪)).
    - apply stdpp.list.NoDup_cons. split; [done | apply G].
    - intros x Hin. apply elem_of_cons in Hin as [-> |Hin]; [done|].
      pose proof (g_new _ _ _ _ _ _ G _ Hin) as Hnx. rewrite Hv in Hnx. intros Hxv. apply Hnx. by apply elem_of_union_l.
    - intros x y Hin Hl. apply elem_of_cons in Hin as [-> |Hin]; [by apply Hcl|]. by eapply (g_closed _ _ _ _ _ _ G).
    - rewrite (g_isa _ _ _ _ _ _ G), He, app_nil_r. unfold isa_of. simpl. solve_Permutation.
    - rewrite (g_inv _ _ _ _ _ _ G), He, app_nil_r. done.
    - apply NoDup_app. split; [apply G|]. split.
      + intros [a b] Hab Hin. destruct Hx as [[-> _]|[-> _]]; [by apply elem_of_nil in Hin|].
        apply elem_of_list_singleton in Hin. injection Hin as -> ->. by destruct (g_inv_in _ _ _ _ _ _ G _ _ Hab) as (? & _).
      + destruct Hx as [[-> _]|[-> _]]; [constructor|apply NoDup_singleton].
    - intros a b Hab. apply elem_of_app in Hab as [Hab|Hab].
      + destruct (g_inv_in _ _ _ _ _ _ G _ _ Hab) as (Ha & Hb & Hab' & Hk & Hi & Hg & Hn').
        split; [by right|]. split; [by right|]. repeat (split; [done|]).
        rewrite elem_of_app. intros [?|Hba]; [done|]. destruct Hx as [[-> _]|[-> _]]; [by apply elem_of_nil in Hba|].
        apply elem_of_list_singleton in Hba. injection Hba as -> ->. done.
      + destruct Hx as [[-> _]|(-> & Hk & Hg & Hil)]; [by apply elem_of_nil in Hab|].
        apply elem_of_list_singleton in Hab. injection Hab as -> ->.
        assert (Hei : e <> inverse e) by (intros Heq; apply Hel; by rewrite Heq).
        split; [left|]. split; [by right|]. repeat (split; [done|]).
        rewrite elem_of_app, elem_of_list_singleton. intros [Hba|Hba].
        * by destruct (g_inv_in _ _ _ _ _ _ G _ _ Hba) as (_ & ? & _).
        * injection Hba. congruence.
    - intros a Ha Hk Hg Hai. rewrite !elem_of_app. apply elem_of_cons in Ha as [-> |Ha].
      + destruct Hx as [[-> Hx]|(-> & _)]; [right; left; by apply Hx | left; right; left].
      + destruct (g_inv_all _ _ _ _ _ _ G a Ha Hk Hg Hai) as [?|[Hiv|[?|?]]]; [by auto| |by auto 6|by auto 6].
        rewrite Hv, elem_of_union, elem_of_singleton in Hiv. destruct Hiv as [Hiv|Hie]; [by auto|].
        destruct (Hinv a Hk) as [Hk' Hii]. rewrite Hie in Hk', Hii.
        destruct (generated a) eqn:Ega; [by auto 6|].
        destruct Hx as [[-> Hx]|(-> & _)].
        * exfalso. apply (g_new _ _ _ _ _ _ G a Ha). rewrite Hv. apply elem_of_union_l. rewrite <- Hii. apply Hx; [done|by rewrite Hii|].
          rewrite Hii. congruence.
        * right; right; left. rewrite Hie, Hii. right. left.
    - intros Hgr. destruct (g_clusters _ _ _ _ _ _ G Hgr) as [C1 N1]. destruct (Hc Hgr) as [C0 N0]. split; [|auto].
      intros ns. rewrite C1, C0. split.
      + intros [[?|?]|(x & ? & ?)]; [by left|right; exists e; split; [left|done]|right; exists x; split; [by right|done]].
      + intros [?|(x & Hxl & ?)]; [by auto|]. apply elem_of_cons in Hxl as [-> |Hxl]; [by auto|]. right. by exists x.
    - intros Hgr. by rewrite (g_nogroup _ _ _ _ _ _ G Hgr), (Hc' Hgr).
  Qed.

  Lemma add_entity_spec fuel : visits (add_entity fuel).
  Proof.
    induction fuel as [|fuel IH]; intros e d d' Hd; simpl in Hd; [done|].
    case_bool_decide as Hv.
    { injection Hd as <-. split; [done|]. exists [], []. split; [apply grew_refl|]. intros x Hx. by apply elem_of_nil in Hx. }
    destruct (get_subgraph _ _ _) as [g d1] eqn:Eg.
    assert (Hd1 : o_visited d1 = o_visited d ∪ {[e]} /\ o_nodes d1 = o_nodes d /\ o_edges d1 = o_edges d
      /\ g = (if group then Some (namespace_of e) else None)
      /\ (group = true -> (forall ns, ns ∈ o_clusters d1 <-> ns ∈ o_clusters d \/ ns = namespace_of e) /\ (NoDup (o_clusters d) -> NoDup (o_clusters d1)))
      /\ (group = false -> o_clusters d1 = o_clusters d)).
    { unfold get_subgraph in Eg. destruct group; simpl in Eg; [|by injection Eg as <- <-].
      case_bool_decide as Hc; injection Eg as <- <-; simpl in *; repeat (split; [done|]); (split; [|done]); intros _.
      - split; [|done]. intros ns. split; [auto|]. intros [?| ->]; done.
      - split; [|intros Hnd; apply NoDup_app; split; [done|]; split; [|apply NoDup_singleton]].
        + intros ns. by rewrite elem_of_app, elem_of_list_singleton.
        + intros x Hx Hx'. apply elem_of_list_singleton in Hx'. by subst. }
    destruct Hd1 as (V1 & N1 & E1 & -> & C1 & C1'). clear Eg.
    destruct (match kind e with KClass => _ | KRel => _ | KAttr => _ end) as [d2|] eqn:E2; [|done].
    destruct (superclasses_spec _ IH _ _ _ _ Hd) as (Hcs & l2 & m2 & G2 & R2).
    assert (Hnode : forall d2', d2' = add_node (the_node e) d1 -> o_visited d2' = o_visited d ∪ {[e]} /\ o_nodes d2' = o_nodes d ++ [the_node e]
       /\ o_edges d2' = o_edges d /\ o_clusters d2' = o_clusters d1).
    { intros d2' ->. simpl. by rewrite V1, N1, E1. }
    assert (Hev : forall d2' l m xi xv, grew d2' l m xi xv d' -> o_visited d2' = o_visited d ∪ {[e]} -> e ∈ o_visited d').
    { intros d2' l m xi xv G Hvv. apply (grew_mono _ _ _ _ _ _ G). rewrite Hvv. apply elem_of_union_r. by apply elem_of_singleton. }
    assert (Hlead : forall l : list E, (forall x, x ∈ l -> exists c, c ∈ superclasses e /\ rtc leads c x) -> forall x, x ∈ l -> rtc leads e x).
    { intros l Hl x Hx. destruct (Hl x Hx) as (c & Hc & Hr). eapply rtc_l; [|exact Hr]. by left. }
    assert (Hplain : d2 = add_node (the_node e) d1 ->
      (kind e = KRel -> generated (inverse e) = false -> e <> inverse e -> inverse e ∈ o_visited d) ->
      e ∈ o_visited d' /\ exists l m, grew d l m [] [] d' /\ forall x, x ∈ l -> rtc leads e x).
    { intros -> Hinvd. destruct (Hnode _ eq_refl) as (V2 & N2 & E2' & C2). split; [by eapply Hev|].
      exists (e :: l2), (m2 ++ []). split.
      - eapply (with_node e d _ d' l2 m2 _ []); [done|exact V2|exact N2|exact E2'|by rewrite C2|by rewrite C2|exact G2|done| |by left].
        intros y [Hy|(Hk & -> & Hg)]; [by apply Hcs|].
        destruct (decide (e = inverse e)) as [Heq|Hneq].
        + rewrite <- Heq. by eapply Hev.
        + apply (grew_mono _ _ _ _ _ _ G2). rewrite V2. apply elem_of_union_l. by apply Hinvd.
      - intros x Hx. apply elem_of_cons in Hx as [-> |Hx]; [apply rtc_refl|]. by eapply Hlead. }
    destruct (kind e) eqn:Ek.
    - apply Hplain; [|done]. unfold add_oclass in E2. injection E2 as <-. unfold the_node, PropOntoDot.the_node, the_label. by rewrite Ek.
    - unfold add_relationship in E2.
      assert (Hthe : DNode (if group then Some (namespace_of e) else None) e [] (bool_decide (namespace_of e ∈ chosen)) = the_node e).
      { unfold PropOntoDot.the_node, the_label. by rewrite Ek. }
      rewrite Hthe in E2. set (d0 := add_node (the_node e) d1) in *.
      destruct (Hnode d0 eq_refl) as (V2 & N2 & E2' & C2).
      destruct (negb (generated (inverse e)) && _) eqn:Eb.
      + apply andb_true_iff in Eb as [Eb1 Eb2]. apply negb_true_iff in Eb1. apply bool_decide_eq_true in Eb2.
        destruct (add_entity fuel (inverse e) d0) as [d3|] eqn:E3; [|done]. injection E2 as <-.
        destruct (IH _ _ _ E3) as (Hin & l1 & m1 & G1 & R1).
        pose proof (grew_edge d3 e (inverse e) LInverse) as Ge. simpl in Ge.
        pose proof (grew_trans _ _ _ _ _ _ _ _ _ _ _ G1 (grew_trans _ _ _ _ _ _ _ _ _ _ _ Ge G2)) as G. simpl in G.
        assert (Hil : inverse e ∈ l1).
        { rewrite (g_visited _ _ _ _ _ _ G1), elem_of_union, elem_of_list_to_set in Hin. by destruct Hin. }
        split; [by eapply Hev|]. exists (e :: l1 ++ l2), ((m1 ++ m2) ++ [(e, inverse e)]). split.
        * eapply with_node; [exact Hv|exact V2|exact N2|exact E2'|by rewrite C2|by rewrite C2|exact G|done| |].
          -- intros y [Hy|(Hk & -> & Hg)]; [by apply Hcs|]. apply (grew_mono _ _ _ _ _ _ G2). simpl. exact Hin.
          -- right. split; [done|]. split; [done|]. split; [done|]. apply elem_of_app. by left.
        * intros x Hx. apply elem_of_cons in Hx as [-> |Hx]; [apply rtc_refl|]. apply elem_of_app in Hx as [Hx|Hx]; [|by eapply Hlead].
          eapply rtc_l; [|by apply R1]. right. done.
      + injection E2 as <-. apply Hplain; [done|]. intros _ Hg Hne. rewrite Hg in Eb. simpl in Eb.
        apply bool_decide_eq_false in Eb. apply dec_stable in Eb. rewrite V1, elem_of_union, elem_of_singleton in Eb.
        destruct Eb as [?|Heq]; [done|]. by symmetry in Heq.
    - apply Hplain; [|done]. unfold add_attribute in E2. injection E2 as <-. unfold the_node, PropOntoDot.the_node, the_label. by rewrite Ek.
  Qed.

  Lemma add_entities_spec fuel es d d' : add_entities fuel es d = Some d' ->
    (forall e, e ∈ es -> e ∈ o_visited d') /\
    exists l m, grew d l m [] [] d' /\ forall x, x ∈ l -> exists e, e ∈ es /\ rtc leads e x.
  Proof.
    revert d. induction es as [|e es IH]; intros d Hd; simpl in Hd.
    - injection Hd as <-. split; [intros c Hc; by apply elem_of_nil in Hc|]. exists [], []. split; [apply grew_refl|].
      intros x Hx. by apply elem_of_nil in Hx.
    - destruct (add_entity fuel e d) as [d1|] eqn:E1; [|done]. destruct (add_entity_spec _ _ _ _ E1) as (He & l1 & m1 & G1 & R1).
      destruct (IH _ Hd) as (Hes & l2 & m2 & G2 & R2). split.
      + intros c Hc. apply elem_of_cons in Hc as [-> |Hc]; [|by apply Hes]. by apply (grew_mono _ _ _ _ _ _ G2).
      + exists (l1 ++ l2), (m1 ++ m2). split; [exact (grew_trans _ _ _ _ _ _ _ _ _ _ _ G1 G2)|].
        intros x Hx. apply elem_of_app in Hx as [Hx|Hx].
        * exists e. split; [left | by apply R1].
        * destruct (R2 x Hx) as (c & Hc & Hr). exists c. split; [by right | done].
  Qed.
  Lemma add_namespaces_spec fuel nss d d' :
    add_namespaces kind namespace_of superclasses inverse generated attributes datatype chosen group entities fuel nss d = Some d' ->
    (forall ns e, ns ∈ nss -> e ∈ entities ns -> e ∈ o_visited d') /\
    exists l m, grew d l m [] [] d' /\ forall x, x ∈ l -> exists ns e, ns ∈ nss /\ e ∈ entities ns /\ rtc leads e x.
  Proof.
    revert d. induction nss as [|ns nss IH]; intros d Hd; simpl in Hd.
    - injection Hd as <-. split; [intros c e Hc; by apply elem_of_nil in Hc|]. exists [], []. split; [apply grew_refl|].
      intros x Hx. by apply elem_of_nil in Hx.
    - destruct (add_entities fuel (entities ns) d) as [d1|] eqn:E1; [|done]. destruct (add_entities_spec _ _ _ _ E1) as (He & l1 & m1 & G1 & R1).
      destruct (IH _ Hd) as (Hes & l2 & m2 & G2 & R2). split.
      + intros c e' Hc Hin. apply elem_of_cons in Hc as [-> |Hc]; [|by eapply Hes]. apply (grew_mono _ _ _ _ _ _ G2). by apply He.
      + exists (l1 ++ l2), (m1 ++ m2). split; [exact (grew_trans _ _ _ _ _ _ _ _ _ _ _ G1 G2)|].
        intros x Hx. apply elem_of_app in Hx as [Hx|Hx].
        * destruct (R1 x Hx) as (e & Hin & Hr). exists ns, e. split; [left | done].
        * destruct (R2 x Hx) as (c & e & Hc & Hr). exists c, e. split; [by right | done].
  Qed.
  Notation drawn := (drawn kind superclasses inverse generated chosen entities).
  Notation render := (render_ontology kind namespace_of superclasses inverse generated attributes datatype chosen group entities).

  Lemma render_spec fuel d : render fuel = Some d -> exists l m, grew (ODrawing ∅ [] [] []) l m [] [] d /\ forall x, x ∈ l <-> drawn x.
  Proof.
    intros Hr. destruct (add_namespaces_spec _ _ _ _ Hr) as (Hall & l & m & G & R). exists l, m. split; [done|].
    intros x. split; [apply R|]. intros (ns & e & Hns & He & Hrtc).
    assert (Hv : forall y, y ∈ o_visited d <-> y ∈ l).
    { intros y. rewrite (g_visited _ _ _ _ _ _ G), elem_of_union, elem_of_list_to_set. simpl. split; [|by right].
      intros [Hy|?]; [by apply elem_of_empty in Hy | done]. }
    assert (Hel : e ∈ l) by (apply Hv; by eapply Hall). clear He Hns.
    induction Hrtc as [e|e e1 x Hl Hrtc IH]; [done|]. apply IH. apply Hv. by eapply (g_closed _ _ _ _ _ _ G).
  Qed.

  (** One node for each entity of the namespaces and everything these lead to, and no
      others; with its label, filled iff it belongs to a chosen namespace, in the cluster of its
      namespace iff grouped. *)
  Theorem C70_nodes : forall fuel d, render fuel = Some d ->
    NoDup (n_entity <$> o_nodes d)
    /\ (forall n, n ∈ o_nodes d <-> exists x, drawn x /\ n = the_node x).
  Proof.
    intros fuel d Hr. destruct (render_spec _ _ Hr) as (l & m & G & Hl). rewrite (g_nodes _ _ _ _ _ _ G). simpl.
    assert (Hid : n_entity <$> (the_node <$> l) = l).
    { rewrite <- list_fmap_compose. rewrite <- (list_fmap_id l) at 2. by apply list_fmap_ext. }
    rewrite Hid. split; [apply G|]. intros n. rewrite elem_of_list_fmap. setoid_rewrite Hl. split; intros (x & ? & ?); eauto.
  Qed.

  (** One is_a edge for each drawn entity and each of its direct superclasses. *)
  Theorem C70_is_a : forall fuel d, render fuel = Some d ->
    (forall x y, (x, y) ∈ pairs LIsA (o_edges d) <-> drawn x /\ y ∈ superclasses x)
    /\ ((forall x, NoDup (superclasses x)) -> NoDup (pairs LIsA (o_edges d))).
  Proof.
    intros fuel d Hr. destruct (render_spec _ _ Hr) as (l & m & G & Hl). pose proof (g_isa _ _ _ _ _ _ G) as Hp.
    rewrite app_nil_r in Hp. simpl in Hp. split.
    - intros x y. rewrite Hp. unfold isa_of. rewrite elem_of_list_bind. setoid_rewrite elem_of_list_fmap. rewrite <- Hl. split.
      + intros (z & (y' & [= -> ->] & Hy) & Hz). done.
      + intros [Hx Hy]. exists x. split; [by exists y | done].
    - intros Hnd. rewrite Hp. clear -Hnd G. pose proof (g_nodup _ _ _ _ _ _ G) as Hl. clear G.
      induction l as [|x l IH]; [constructor|]. apply stdpp.list.NoDup_cons in Hl as [Hx Hl].
      unfold isa_of. simpl. apply NoDup_app. split; [|split; [|by apply IH]].
      + apply NoDup_fmap; [congruence | apply Hnd].
      + intros [a b] Hab Hin. apply elem_of_list_fmap in Hab as (y & [= -> ->] & _).
        apply elem_of_list_bind in Hin as (z & Hz & Hzl). apply elem_of_list_fmap in Hz as (y' & [= -> ->] & _). done.
  Qed.

  (** Inverse edges: only between a relationship and its (different) inverse, at most one for
      each pair, never to a generated name; exactly one if neither name is generated. *)
  Theorem C70_inverse : forall fuel d, render fuel = Some d ->
    NoDup (pairs LInverse (o_edges d))
    /\ (forall x y, (x, y) ∈ pairs LInverse (o_edges d) ->
          drawn x /\ drawn y /\ kind x = KRel /\ y = inverse x /\ x <> y /\ generated y = false
          /\ (y, x) ∉ pairs LInverse (o_edges d))
    /\ (forall x, drawn x -> kind x = KRel -> generated x = false -> generated (inverse x) = false -> x <> inverse x ->
          (x, inverse x) ∈ pairs LInverse (o_edges d) \/ (inverse x, x) ∈ pairs LInverse (o_edges d)).
  Proof.
    intros fuel d Hr. destruct (render_spec _ _ Hr) as (l & m & G & Hl). pose proof (g_inv _ _ _ _ _ _ G) as Hp.
    rewrite app_nil_r in Hp. simpl in Hp. split; [rewrite Hp; apply G|]. split.
    - intros x y. rewrite !Hp. intros Hxy. destruct (g_inv_in _ _ _ _ _ _ G _ _ Hxy) as (Hx & Hy & Hne & Hk & Hi & Hg & Hn).
      split; [by apply Hl|]. split; [by apply Hl|]. done.
    - intros x Hx Hk Hg Hgi Hne. rewrite !Hp. apply Hl in Hx.
      destruct (g_inv_all _ _ _ _ _ _ G x Hx Hk Hgi Hne) as [?|[Hv|[?|?]]]; [by left|by apply elem_of_empty in Hv|by right|congruence].
  Qed.

  (** The clusters: one for each namespace with a drawn entity if grouped, none otherwise. *)
  Theorem C70_clusters : forall fuel d, render fuel = Some d ->
    NoDup (o_clusters d) /\ forall ns, ns ∈ o_clusters d <-> group = true /\ exists x, drawn x /\ ns = namespace_of x.
  Proof.
    intros fuel d Hr. destruct (render_spec _ _ Hr) as (l & m & G & Hl). destruct group eqn:Eg.
    - destruct (g_clusters _ _ _ _ _ _ G Eg) as [Hc Hn]. split; [apply Hn; constructor|].
      intros ns. rewrite Hc. simpl. setoid_rewrite Hl. split.
      + intros [Hx|?]; [by apply elem_of_nil in Hx | done].
      + intros [_ ?]. by right.
    - rewrite (g_nogroup _ _ _ _ _ _ G Eg). simpl. split; [constructor|]. intros ns. split; [intros Hx; by apply elem_of_nil in Hx | by intros [? _]].
  Qed.

  (** The drawing is finished if the entities are finitely many, cycles or not. *)
  Theorem C70_terminates : forall U : gset E, (forall x, drawn x -> x ∈ U) -> forall fuel : nat, (size U < fuel)%nat -> exists d, render fuel = Some d.
  Proof.
    intros U HU fuel Hf.
    assert (Hmain : forall n e d, drawn e -> (size (U ∖ o_visited d) < n)%nat -> exists d', add_entity n e d = Some d').
    { assert (Hcl : forall x y, drawn x -> leads x y -> drawn y).
      { intros x y (ns & e0 & H1 & H2 & H3) Hl. exists ns, e0. split; [done|]. split; [done|]. eapply rtc_r; eauto. }
      intros n. induction n as [|n IH]; intros e d He Hn; [lia|]. simpl. case_bool_decide as Hv; [eauto|].
      destruct (get_subgraph _ _ _) as [g d1] eqn:Eg.
      assert (V1 : o_visited d1 = o_visited d ∪ {[e]}).
      { unfold get_subgraph in Eg. destruct group; simpl in Eg; [case_bool_decide|]; by injection Eg as <- <-. }
      assert (Hsz : forall d2 : odrawing, o_visited d1 ⊆ o_visited d2 -> (size (U ∖ o_visited d2) < n)%nat).
      { intros d2 Hs. assert (size (U ∖ o_visited d2) < size (U ∖ o_visited d))%nat; [|lia]. apply subset_size.
        split; [intros x; rewrite !elem_of_difference; intros [? Hx]; split; [done|]; intros Hxd; apply Hx, Hs; rewrite V1; by apply elem_of_union_l|].
        intros Hsub. specialize (Hsub e). rewrite !elem_of_difference in Hsub. destruct Hsub as [_ Hnn]; [split; [by apply HU|done]|]. apply Hnn, Hs. rewrite V1.
        apply elem_of_union_r. by apply elem_of_singleton. }
      assert (Hsup : forall cs d2, (forall c, c ∈ cs -> drawn c) -> o_visited d1 ⊆ o_visited d2 -> exists d', add_superclasses (add_entity n) e cs d2 = Some d').
      { induction cs as [|c cs IHc]; intros d2 Hcs Hd2; simpl; [eauto|].
        destruct (IH c d2) as [d3 E3]; [apply Hcs; left | by apply Hsz|]. rewrite E3. apply IHc; [intros c' Hc'; apply Hcs; by right|].
        destruct (add_entity_spec _ _ _ _ E3) as (_ & l & m & G & _). simpl. etrans; [exact Hd2 | by eapply grew_mono]. }
      assert (Hsc : forall c, c ∈ superclasses e -> drawn c) by (intros c Hc; apply (Hcl e); [done | by left]).
      destruct (kind e) eqn:Ek.
      - unfold add_oclass. by apply Hsup.
      - unfold add_relationship. destruct (negb (generated (inverse e)) && _) eqn:Eb; [|by apply Hsup].
        apply andb_true_iff in Eb as [Eb1 _]. apply negb_true_iff in Eb1.
        match goal with |- context [add_entity n (inverse e) ?x] => set (d0 := x) end.
        destruct (IH (inverse e) d0) as [d3 E3]; [apply (Hcl e); [done|by right]|by apply (Hsz d0)|]. rewrite E3. apply Hsup; [done|].
        destruct (add_entity_spec _ _ _ _ E3) as (_ & l & m & G & _). apply grew_mono in G. exact G.
      - unfold add_attribute. by apply Hsup. }
    assert (Hes : forall es d, (forall e, e ∈ es -> drawn e) -> exists d', add_entities fuel es d = Some d').
    { induction es as [|e es IH]; intros d Hd; simpl; [eauto|].
      destruct (Hmain fuel e d) as [d1 E1]; [apply Hd; left| |].
      - eapply Nat.le_lt_trans; [|exact Hf]. apply subseteq_size. apply subseteq_difference_l. done.
      - rewrite E1. apply IH. intros e' He'. apply Hd. by right. }
    assert (Hns : forall nss d, (forall ns, ns ∈ nss -> ns ∈ chosen) -> exists d', add_namespaces kind namespace_of superclasses inverse generated attributes datatype chosen group entities fuel nss d = Some d').
    { induction nss as [|ns nss IH]; intros d Hd; simpl; [eauto|].
      destruct (Hes (entities ns) d) as [d1 E1].
      - intros e He. exists ns, e. split; [apply Hd; left|]. split; [done | apply rtc_refl].
      - rewrite E1. apply IH. intros ns' Hn'. apply Hd. by right. }
    by apply Hns.
  Qed.
End Proofs.

(** A relationship (1) and its generated inverse (2), in one namespace: whether the inverse edge
    is drawn depends on which of the two the namespace yields first. *)
Section Order.
  Local Definition o_render (es : list nat) :=
    render_ontology (E := nat) (NS := bool) (λ _, KRel) (λ _, true) (λ _, []) (λ x, if Nat.eqb x 1 then 2%nat else 1%nat) (Nat.eqb 2)
      (λ _, []) (λ _, None) [true] false (λ _, es) 10.
  Theorem C70_order_refuted :
    ~ (forall es es' d d', es ≡ₚ es' -> o_render es = Some d -> o_render es' = Some d' ->
         o_edges d ≡ₚ o_edges d').
  Proof.
    intros Hf. destruct (o_render [1%nat; 2%nat]) as [d|] eqn:E1; [|vm_compute in E1; discriminate].
    destruct (o_render [2%nat; 1%nat]) as [d'|] eqn:E2; [|vm_compute in E2; discriminate].
    pose proof (Hf _ _ _ _ (Permutation_swap 2%nat 1%nat []) E1 E2) as Hp.
    vm_compute in E1, E2. injection E1 as <-. injection E2 as <-. simpl in Hp.
    apply Permutation_length in Hp. discriminate.
  Qed.
End Order.

(** A concrete drawing: namespace true holds class 0 (subclass of class 10 in namespace false,
    which is a subclass of its own subclass 11: a cycle 10 - 11), relationships 2 and 3, inverse to
    each other, and attribute 4. *)
Section Example_.
  Let kind (x : nat) := match x with 2 | 3 => KRel | 4 => KAttr | _ => KClass end%nat.
  Let ns (x : nat) := Nat.ltb x 10.
  Let sup (x : nat) : list nat := match x with 0 => [10] | 10 => [11] | 11 => [10] | _ => [] end%nat.
  Let inv (x : nat) : nat := match x with 2 => 3 | 3 => 2 | _ => x end%nat.
  Let attrs (x : nat) : list (str * str) := match x with 0%nat => [(lit "age", lit "25"%string)] | _ => [] end.
  Let render := render_ontology (E := nat) (NS := bool) kind ns sup inv (λ _, false) attrs
      (λ _, Some (lit "INT")) [true] true (λ _, [4; 0; 2; 3]%nat) 10.
  Example C70_hinv : forall x, kind x = KRel -> kind (inv x) = KRel /\ inv (inv x) = x.
  Proof. intros x. do 5 (destruct x as [|x]; [by (discriminate || split)|]). discriminate. Qed.
  Example C70_example :
    match render with
    | Some d => n_entity <$> o_nodes d = [4; 0; 10; 11; 2; 3]%nat
        /\ n_filled <$> o_nodes d = [true; true; false; false; true; true]
        /\ o_edges d = [DEdge 11 10 LIsA; DEdge 10 11 LIsA; DEdge 0 10 LIsA; DEdge 2 3 LInverse]%nat
        /\ o_clusters d = [true; false]
    | None => False
    end.
  Proof. vm_compute. repeat split. Qed.
End Example_.

Print Assumptions C70_nodes.
Print Assumptions C70_is_a.
Print Assumptions C70_inverse.
Print Assumptions C70_clusters.
Print Assumptions C70_terminates.
Print Assumptions C70_order_refuted.
