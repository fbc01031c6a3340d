(** Inverse relationships: osp/core/ontology/relationship.py:31-47 [inverse] and
    91-110 [_add_inverse]. *)
From stdpp Require Import base list gmap.
From Verif Require Import Prelude Onto.

Section Model.
  (** [mk r]: the IRI namespace_iri + "INVERSE_OF_" + name(r) (relationship.py:97);
      [lbl r]: the label literal; [ord]: the iteration order of the Python set of
      direct superclasses (any order). *)
  Context (mk lbl : term -> term) (ord : list term -> list term).

  (** relationship.py:39-46: the first named inverse, declared in either direction. *)
  Definition find_inverse (g : ograph) (r : term) : option term :=
    match filter (fun o => is_bnode o = false)
                 (map snd (triples g (Some r, p_inverseOf, None))) with
    | o :: _ => Some o
    | [] => match filter (fun o => is_bnode o = false)
                         (map (fun t : otriple => fst (fst t)) (triples g (None, p_inverseOf, Some r))) with
            | s :: _ => Some s
            | [] => None
            end
    end.

  (** relationship.py:98-105: the triples describing the new relationship. *)
  Definition new_inverse (g : ograph) (r : term) : ograph :=
    g ∪ {[ (r, p_inverseOf, mk r) ]} ∪ {[ (mk r, p_type, owl_ObjectProperty) ]}
      ∪ {[ (mk r, p_prefLabel, lbl r) ]}.

  (** relationship.py:31-47 and 91-110.  The graph is returned also on failure.
      Simplification: [from_iri] is assumed to give a relationship object for
      every known superclass (see [rels_above] below). *)
  Fixpoint inverse (fuel : nat) (g : ograph) (r : term) : ograph * res term :=
    match find_inverse g r with
    | Some o => (g, if known g o then Ok o else Err KeyError)
    | None =>
        match fuel with
        | O => (g, Err OutOfFuel)
        | S fuel =>
            let g1 := new_inverse g r in
            let supers := ord (remove_dups
                            (directly_connected g1 p_subPropertyOf false rel_blacklist r)) in
            let '(g2, e) :=
              (fix loop (ss : list term) (g : ograph) : ograph * option exn :=
                 match ss with
                 | [] => (g, None)
                 | s :: ss =>
                     match inverse fuel g s with
                     | (g', Ok i) => loop ss (g' ∪ {[ (mk r, p_subPropertyOf, i) ]})
                     | (g', Err e) => (g', Some e)
                     end
                 end) supers g1 in
            match e with
            | Some e => (g2, Err e)
            | None => (g2, if known g2 (mk r) then Ok (mk r) else Err KeyError)
            end
        end
    end.
End Model.

(** ** Specification vocabulary *)

(** r is a (named) relationship of the ontology. *)
Definition is_rel (g : ograph) (r : term) : Prop :=
  (exists n, r = IRI n) /\ (r, p_type, owl_ObjectProperty) ∈ g.

(** a and b are declared inverse of each other, in either direction. *)
Definition inv_rel (g : ograph) (a b : term) : Prop :=
  is_bnode a = false /\ is_bnode b = false /\
  ((a, p_inverseOf, b) ∈ g \/ (b, p_inverseOf, a) ∈ g).

Definition lacking (g : ograph) (r : term) : Prop := forall b, ~ inv_rel g r b.

(** t does not occur in g as subject or object. *)
Definition fresh (g : ograph) (t : term) : Prop :=
  forall s p o, (s, p, o) ∈ g -> s <> t /\ o <> t.

(** s is a direct superclass of r in the sense of relationship.direct_superclasses *)
Definition super_of (g : ograph) (r s : term) : Prop :=
  (r, p_subPropertyOf, s) ∈ g /\ s ∉ rel_blacklist /\ known g s = true.

(** The built-in top and bottom properties. *)
Definition extreme (r : term) : Prop :=
  r = owl_bottomObjectProperty \/ r = owl_bottomDataProperty \/
  r = owl_topObjectProperty \/ r = owl_topDataProperty.

(** Ontologies with at most one named inverse per relationship and
    non-colliding names for the inverses to create. *)
Record good (mk : term -> term) (g : ograph) : Prop := {
  g_fun : forall a b c, inv_rel g a b -> inv_rel g a c -> b = c;
  g_typed : forall a b, inv_rel g a b -> is_rel g b;
  g_fresh : forall r, is_rel g r -> lacking g r -> fresh g (mk r) /\ exists n, mk r = IRI n;
  g_inj : forall r r', is_rel g r -> lacking g r -> is_rel g r' -> lacking g r' ->
          mk r = mk r' -> r = r';
  g_supers : forall r s, is_rel g r -> super_of g r s -> is_rel g s;
  g_special : forall r, is_rel g r -> ~ extreme r;
  g_mkspecial : forall r, is_rel g r -> lacking g r -> ~ extreme (mk r)
}.
Lemma not_extreme r : ~ extreme r ->
  r <> owl_bottomObjectProperty /\ r <> owl_bottomDataProperty /\
  r <> owl_topObjectProperty /\ r <> owl_topDataProperty.
Proof. unfold extreme. tauto. Qed.


Lemma inv_rel_sym g a b : inv_rel g a b -> inv_rel g b a.
Proof. intros (Ha & Hb & [?|?]); repeat split; auto. Qed.

Lemma is_rel_known g r : is_rel g r -> known g r = true.
Proof.
  intros [[n ->] Hr]. unfold known. rewrite (bool_decide_true _ Hr).
  by rewrite orb_true_r.
Qed.

Lemma is_rel_nb g r : is_rel g r -> is_bnode r = false.
Proof. by intros [[n ->] _]. Qed.

Lemma inv_rel_mono g g' a b : g ⊆ g' -> inv_rel g a b -> inv_rel g' a b.
Proof. intros Hg (Ha & Hb & [?|?]); repeat split; auto. Qed.

Lemma lacking_anti g g' r : g ⊆ g' -> lacking g' r -> lacking g r.
Proof. intros Hg Hl b Hb. by eapply Hl, inv_rel_mono. Qed.

Lemma pat_match_so s p o (t : otriple) :
  pat_match (s, p, o) t = true <->
  snd (fst t) = p /\ (forall s', s = Some s' -> fst (fst t) = s') /\
  (forall o', o = Some o' -> snd t = o').
Proof.
  destruct t as [[s0 p0] o0]. cbn. rewrite !andb_true_iff, bool_decide_eq_true.
  destruct s as [s'|], o as [o'|]; rewrite ?bool_decide_eq_true; split.
  all: intros; repeat split; intros; destruct_and?; try congruence; try naive_solver.
Qed.

Lemma find_inverse_spec g r :
  is_bnode r = false ->
  match find_inverse g r with
  | Some o => inv_rel g r o
  | None => lacking g r
  end.
Proof.
  intros Hr. unfold find_inverse.
  set (l1 := filter _ (map snd _)).
  assert (H1 : forall o, o ∈ l1 <-> is_bnode o = false /\ (r, p_inverseOf, o) ∈ g).
  { intros o. unfold l1. rewrite elem_of_list_filter, elem_of_list_In, in_map_iff. split.
    - intros (Hb & [[s p] o'] & <- & Hin). apply elem_of_list_In, elem_triples in Hin as [Hg Hm].
      apply pat_match_so in Hm as (Hp & Hs & _). cbn in *. rewrite (Hs _ eq_refl) in Hg.
      by subst.
    - intros [Hb Hg]. split; [done|]. exists (r, p_inverseOf, o). split; [done|].
      apply elem_of_list_In, elem_triples. split; [done|]. apply pat_match_so. naive_solver. }
  destruct l1 as [|o l1'].
  2:{ destruct (proj1 (H1 o)) as [Hb Hg]; [left|]. repeat split; auto. }
  set (l2 := filter _ (map _ _)).
  assert (H2 : forall o, o ∈ l2 <-> is_bnode o = false /\ (o, p_inverseOf, r) ∈ g).
  { intros o. unfold l2. rewrite elem_of_list_filter, elem_of_list_In, in_map_iff. split.
    - intros (Hb & [[s p] o'] & <- & Hin). apply elem_of_list_In, elem_triples in Hin as [Hg Hm].
      apply pat_match_so in Hm as (Hp & _ & Ho). cbn in *. rewrite (Ho _ eq_refl) in Hg.
      by subst.
    - intros [Hb Hg]. split; [done|]. exists (o, p_inverseOf, r). split; [done|].
      apply elem_of_list_In, elem_triples. split; [done|]. apply pat_match_so. naive_solver. }
  destruct l2 as [|o l2'].
  2:{ destruct (proj1 (H2 o)) as [Hb Hg]; [left|]. repeat split; auto. }
  intros b (_ & Hb & [Hg|Hg]).
  - assert (b ∈ @nil term) as Hn by by apply H1. by apply elem_of_nil in Hn.
  - assert (b ∈ @nil term) as Hn by by apply H2. by apply elem_of_nil in Hn.
Qed.

(** The direct superclasses used by _add_inverse. *)
Lemma elem_supers g r s :
  r <> owl_bottomObjectProperty -> r <> owl_bottomDataProperty ->
  s ∈ directly_connected g p_subPropertyOf false rel_blacklist r <-> super_of g r s.
Proof.
  intros H1 H2. unfold directly_connected. rewrite elem_of_list_filter, elem_connections.
  assert (Hp : conn_pattern p_subPropertyOf false r = (Some r, p_subPropertyOf, None)).
  { unfold conn_pattern. rewrite decide_True by (by right). unfold special_cases.
    rewrite !decide_False; try done; intros [=]; done. }
  rewrite Hp. rewrite !andb_true_iff, bool_decide_eq_true, negb_true_iff. unfold super_of. split.
  - intros ([[Hb Hbl] Hk] & [[s0 p0] o0] & Hg & Hm & ->).
    apply pat_match_so in Hm as (Hpp & Hs & _). cbn in *. rewrite (Hs _ eq_refl) in Hg. by subst.
  - intros (Hg & Hbl & Hk). split.
    + split; [split; [|done]|done]. destruct s; done.
    + exists (r, p_subPropertyOf, s). split; [done|]. split; [|done].
      apply pat_match_so. naive_solver.
Qed.

Section Proofs.
  Context (mk lbl : term -> term) (ord : list term -> list term).
  Context (Hord : forall l, ord l ≡ₚ l) (Hlbl : forall r, exists n, lbl r = LIT n).
  Notation inverse := (inverse mk lbl ord).
  Notation new_inverse := (new_inverse mk lbl).
  Notation good := (good mk).

  (** How the graph grows. *)
  Record ext (g g' : ograph) : Prop := {
    e_sub : g ⊆ g';
    e_new : forall t, t ∈ g' -> t ∉ g ->
      exists a, is_rel g a /\ lacking g a /\
        (a, p_inverseOf, mk a) ∈ g' /\ (mk a, p_type, owl_ObjectProperty) ∈ g' /\
        (t = (a, p_inverseOf, mk a) \/ t = (mk a, p_type, owl_ObjectProperty) \/
         t = (mk a, p_prefLabel, lbl a) \/
         exists i, t = (mk a, p_subPropertyOf, i) /\ is_rel g' i /\
           exists s, super_of g a s /\ inv_rel g' s i)
  }.

  Lemma ext_refl g : ext g g.
  Proof. split; [done|]. intros t H1 H2. done. Qed.

  Lemma is_rel_mono g g' r : g ⊆ g' -> is_rel g r -> is_rel g' r.
  Proof. intros Hg [Hn Hr]. split; [done|]. by apply Hg. Qed.

  (** A relationship lacking an inverse later on lacked it before. *)
  Lemma ext_lacking_back g g' a :
    good g -> ext g g' -> is_rel g' a -> lacking g' a -> is_rel g a /\ lacking g a.
  Proof.
    intros Hg He [Hn Ha] Hl. split; [|by eapply lacking_anti, Hl; apply He].
    split; [done|].
    destruct (decide ((a, p_type, owl_ObjectProperty) ∈ g)) as [?|Hna]; [done|].
    exfalso. destruct (e_new _ _ He _ Ha Hna) as (b & Hb & Hbl & Hbi & _ & Ht).
    destruct Ht as [Ht|[Ht|[Ht|(i & Ht & _)]]]; try discriminate.
    injection Ht as ->. apply (Hl b). apply inv_rel_sym.
    split; [by eapply is_rel_nb|]. split; [|by left]. destruct Hn as [n Hn]. by rewrite Hn.
  Qed.

  Lemma created_not_lacking g a :
    is_rel g a -> (exists n, mk a = IRI n) -> (a, p_inverseOf, mk a) ∈ g -> ~ lacking g a.
  Proof.
    intros Ha [n Hn] Hin Hl. apply (Hl (mk a)).
    split; [by eapply is_rel_nb|]. split; [by rewrite Hn|by left].
  Qed.

  Lemma ext_inv_rel g g' a b :
    good g -> ext g g' -> inv_rel g' a b ->
    inv_rel g a b \/
    (is_rel g a /\ lacking g a /\ b = mk a /\ (b, p_type, owl_ObjectProperty) ∈ g') \/
    (is_rel g b /\ lacking g b /\ a = mk b /\ (a, p_type, owl_ObjectProperty) ∈ g').
  Proof.
    intros Hg He (Ha & Hb & Hor).
    assert (Hd : forall a b, is_bnode a = false -> is_bnode b = false -> (a, p_inverseOf, b) ∈ g' ->
       inv_rel g a b \/ (is_rel g a /\ lacking g a /\ b = mk a /\ (b, p_type, owl_ObjectProperty) ∈ g')).
    { intros x y Hx Hy Hxy. destruct (decide ((x, p_inverseOf, y) ∈ g)) as [?|Hn].
      - left. repeat split; auto.
      - right. destruct (e_new _ _ He _ Hxy Hn) as (c & Hc & Hcl & _ & Hty & Hs).
        destruct Hs as [Hs|[Hs|[Hs|(i & Hs & _)]]]; try discriminate. by inversion Hs; subst. }
    destruct Hor as [H|H].
    - destruct (Hd a b Ha Hb H) as [?|?]; auto.
    - destruct (Hd b a Hb Ha H) as [?|?]; [|auto]. left. by apply inv_rel_sym.
  Qed.

  Lemma fresh_not_rel g a : good g -> is_rel g a -> lacking g a -> forall p o,
    (mk a, p, o) ∉ g /\ (forall s, (s, p, mk a) ∉ g).
  Proof.
    intros Hg Ha Hl p o. destruct (g_fresh _ _ Hg a Ha Hl) as [Hf _].
    split; [intros H|intros s H]; by destruct (Hf _ _ _ H).
  Qed.

  (** The direct superclasses of old relationships do not change. *)
  Lemma ext_super_of g g' r s :
    good g -> ext g g' -> is_rel g r -> super_of g' r s <-> super_of g r s.
  Proof.
    intros Hg He Hr. unfold super_of.
    assert (Hsub : (r, p_subPropertyOf, s) ∈ g' <-> (r, p_subPropertyOf, s) ∈ g).
    { split; [|apply He]. intros Hin. destruct (decide ((r, p_subPropertyOf, s) ∈ g)) as [?|Hn]; [done|].
      exfalso. destruct (e_new _ _ He _ Hin Hn) as (a & Ha & Hl & _ & _ & Hs).
      destruct Hs as [Hs|[Hs|[Hs|(i & Hs & _)]]]; try discriminate.
      injection Hs as -> _. destruct Hr as [_ Hr].
      by destruct (fresh_not_rel g a Hg Ha Hl p_type owl_ObjectProperty). }
    rewrite Hsub. split; intros (H1 & H2 & Hk); (split; [done|]; split; [done|]).
    - destruct s as [n|n|n]; [|done|done]. unfold known in *.
      rewrite !orb_true_iff, !bool_decide_eq_true in *.
      assert (Hold : forall c, (IRI n, p_type, c) ∈ g' -> (IRI n, p_type, c) ∈ g).
      { intros c Hin. destruct (decide ((IRI n, p_type, c) ∈ g)) as [?|Hn]; [done|].
        exfalso. destruct (e_new _ _ He _ Hin Hn) as (a & Ha & Hl & _ & _ & Hs).
        destruct Hs as [Hs|[Hs|[Hs|(i & Hs & _)]]]; try discriminate.
        injection Hs as Heq _. destruct (fresh_not_rel g a Hg Ha Hl p_subPropertyOf owl_ObjectProperty) as [_ Hno].
        apply (Hno r). by rewrite <- Heq. }
      destruct Hk as [[Hk|Hk]|Hk]; auto.
    - destruct s as [n|n|n]; [|done|done]. unfold known in *.
      rewrite !orb_true_iff, !bool_decide_eq_true in *.
      pose proof (e_sub _ _ He) as Hss. destruct Hk as [[Hk|Hk]|Hk]; auto.
  Qed.

  Lemma ext_trans g g' g'' : good g -> ext g g' -> ext g' g'' -> ext g g''.
  Proof.
    intros Hg H1 H2. split; [etrans; [apply H1|apply H2]|].
    intros t Ht Hn. destruct (decide (t ∈ g')) as [Ht'|Ht'].
    - destruct (e_new _ _ H1 _ Ht' Hn) as (a & Ha & Hl & Hi & Hty & Hs). exists a.
      split; [done|]. split; [done|]. split; [by apply (e_sub _ _ H2)|].
      split; [by apply (e_sub _ _ H2)|].
      destruct Hs as [?|[?|[?|(i & ? & ? & s & ? & ?)]]]; [tauto|tauto|tauto|].
      right. right. right. exists i. split; [done|].
      split; [eapply is_rel_mono; [apply H2|done]|].
      exists s. split; [done|]. eapply inv_rel_mono; [apply H2|done].
    - destruct (e_new _ _ H2 _ Ht Ht') as (a & Ha & Hl & Hi & Hty & Hs).
      destruct (ext_lacking_back g g' a Hg H1 Ha Hl) as [Ha' Hl'].
      exists a. split; [done|]. split; [done|]. split; [done|]. split; [done|].
      destruct Hs as [?|[?|[?|(i & ? & ? & s & ? & ?)]]]; [tauto|tauto|tauto|].
      right. right. right. exists i. split; [done|]. split; [done|].
      exists s. split; [|done]. by apply (ext_super_of g g').
  Qed.

  Lemma ext_good g g' : good g -> ext g g' -> good g'.
  Proof.
    intros Hg He.
    assert (Hnoinv : forall a, is_rel g a -> lacking g a -> forall c, ~ inv_rel g (mk a) c).
    { intros a Ha Hl c (_ & _ & [H|H]);
        destruct (g_fresh _ _ Hg a Ha Hl) as [Hf _]; by destruct (Hf _ _ _ H). }
    (* relationships of g' are those of g and created ones *)
    assert (Hrel : forall a, is_rel g' a -> is_rel g a \/
              exists b, is_rel g b /\ lacking g b /\ a = mk b /\ (b, p_inverseOf, mk b) ∈ g').
    { intros a [Hn Ha]. destruct (decide ((a, p_type, owl_ObjectProperty) ∈ g)) as [?|Hna].
      { left. by split. }
      right. destruct (e_new _ _ He _ Ha Hna) as (b & Hb & Hl & Hi & _ & Hs).
      destruct Hs as [Hs|[Hs|[Hs|(i & Hs & _)]]]; try discriminate. injection Hs as ->. eauto. }
    split.
    - intros a b c Hab Hac.
      pose proof (ext_inv_rel g g' a b Hg He Hab) as H1.
      pose proof (ext_inv_rel g g' a c Hg He Hac) as H2.
      destruct H1 as [H1|[(Ra & La & -> & _)|(Rb & Lb & -> & _)]],
               H2 as [H2|[(Ra2 & La2 & -> & _)|(Rc & Lc & Heq & _)]].
      + by eapply (g_fun _ _ Hg).
      + by destruct (La2 b).
      + subst a. by destruct (Hnoinv c Rc Lc b).
      + by destruct (La c).
      + done.
      + subst a. exfalso. destruct Ra as [_ Ra].
        by destruct (fresh_not_rel g c Hg Rc Lc p_type owl_ObjectProperty).
      + by destruct (Hnoinv b Rb Lb c).
      + exfalso. destruct Ra2 as [_ Ra2].
        by destruct (fresh_not_rel g b Hg Rb Lb p_type owl_ObjectProperty).
      + by apply (g_inj _ _ Hg).
    - intros a b Hab.
      destruct (ext_inv_rel g g' a b Hg He Hab) as [H|[(Ra & La & -> & Hty)|(Rb & Lb & -> & _)]].
      + eapply is_rel_mono; [apply He|]. by eapply (g_typed _ _ Hg).
      + destruct (g_fresh _ _ Hg a Ra La) as [_ Hn]. by split.
      + eapply is_rel_mono; [apply He|done].
    - intros a Ha Hl. destruct (ext_lacking_back g g' a Hg He Ha Hl) as [Ha0 Hl0].
      destruct (g_fresh _ _ Hg a Ha0 Hl0) as [Hf Hn]. split; [|done].
      assert (Hne : forall b, is_rel g b -> lacking g b -> (b, p_inverseOf, mk b) ∈ g' -> mk b <> mk a).
      { intros b Hb Hbl Hbi Heq. assert (b = a) as -> by (by apply (g_inj _ _ Hg)).
        by apply (created_not_lacking g' a). }
      intros s p o Ht. destruct (decide ((s, p, o) ∈ g)) as [Hin|Hni]; [by eapply Hf|].
      destruct (e_new _ _ He _ Ht Hni) as (b & Hb & Hbl & Hbi & _ & Hs).
      specialize (Hne b Hb Hbl Hbi) as Hba. destruct Hb as [Hbn Hbt].
      destruct (Hf _ _ _ Hbt) as [Hb1 Hb2].
      destruct Hs as [Hs|[Hs|[Hs|(i & Hs & Hi & _)]]]; inversion Hs; subst.
      + done.
      + done.
      + split; [done|]. destruct Hn as [n ->]. destruct (Hlbl b) as [m ->]. done.
      + split; [done|]. intros ->. destruct (Hrel _ Hi) as [Hr|(c & Hc & Hcl & Heq & Hci)].
        * destruct Hr as [_ Hr]. by destruct (Hf _ _ _ Hr).
        * by apply (Hne c).
    - intros a b Ha Hl Hb Hbl Heq.
      destruct (ext_lacking_back g g' a Hg He Ha Hl) as [Ha0 Hl0].
      destruct (ext_lacking_back g g' b Hg He Hb Hbl) as [Hb0 Hbl0].
      by apply (g_inj _ _ Hg).
    - intros r s Hr Hs. destruct (Hrel r Hr) as [Hr0|(b & Hb & Hbl & -> & _)].
      + rewrite (ext_super_of g g' r s Hg He Hr0) in Hs.
        eapply is_rel_mono; [apply He|]. by eapply (g_supers _ _ Hg).
      + destruct Hs as (Hin & _ & _).
        destruct (decide ((mk b, p_subPropertyOf, s) ∈ g)) as [Hg0|Hni].
        { exfalso. by destruct (fresh_not_rel g b Hg Hb Hbl p_subPropertyOf s). }
        destruct (e_new _ _ He _ Hin Hni) as (c & _ & _ & _ & _ & Hs).
        destruct Hs as [Hs|[Hs|[Hs|(i & Hs & Hi & _)]]]; try discriminate. by injection Hs as _ ->.
    - intros r Hr. destruct (Hrel r Hr) as [Hr0|(b & Hb & Hbl & -> & _)].
      + by apply (g_special _ _ Hg).
      + by apply (g_mkspecial _ _ Hg).
    - intros r Hr Hl. destruct (ext_lacking_back g g' r Hg He Hr Hl) as [Hr0 Hl0].
      by apply (g_mkspecial _ _ Hg).
  Qed.

  (** The step of creating one inverse. *)
  Lemma elem_new_inverse g r t :
    t ∈ new_inverse g r <-> t ∈ g \/ t = (r, p_inverseOf, mk r) \/
      t = (mk r, p_type, owl_ObjectProperty) \/ t = (mk r, p_prefLabel, lbl r).
  Proof. unfold Inverse.new_inverse. rewrite !elem_of_union, !elem_of_singleton. tauto. Qed.

  Lemma new_inverse_ext g r : is_rel g r -> lacking g r -> ext g (new_inverse g r).
  Proof.
    intros Hr Hl. split.
    - intros t Ht. apply elem_new_inverse. by left.
    - intros t Ht Hn. exists r. split; [done|]. split; [done|].
      split; [apply elem_new_inverse; auto|]. split; [apply elem_new_inverse; auto|].
      apply elem_new_inverse in Ht as [?|[?|[?|?]]]; [done|auto|auto|auto].
  Qed.

  Lemma sub_ext g g' a s i :
    good g -> ext g g' -> is_rel g a -> lacking g a ->
    (a, p_inverseOf, mk a) ∈ g' -> (mk a, p_type, owl_ObjectProperty) ∈ g' -> is_rel g' i ->
    super_of g a s -> inv_rel g' s i ->
    ext g (g' ∪ {[ (mk a, p_subPropertyOf, i) ]}).
  Proof.
    intros Hg He Ha Hl Hi Hty Hri Has Hsi.
    assert (Hss : g' ⊆ g' ∪ {[ (mk a, p_subPropertyOf, i) ]}) by set_solver.
    split; [etrans; [apply He|done]|].
    intros t Ht Hn. apply elem_of_union in Ht as [Ht|Ht].
    - destruct (e_new _ _ He _ Ht Hn) as (b & Hb & Hbl & Hbi & Hbt & Hs). exists b.
      split; [done|]. split; [done|]. split; [by apply Hss|]. split; [by apply Hss|].
      destruct Hs as [?|[?|[?|(j & ? & ? & s' & ? & ?)]]]; [tauto|tauto|tauto|].
      right. right. right. exists j. split; [done|]. split; [by eapply is_rel_mono|].
      exists s'. split; [done|]. by eapply inv_rel_mono.
    - apply elem_of_singleton in Ht as ->. exists a. split; [done|]. split; [done|].
      split; [by apply Hss|]. split; [by apply Hss|]. right. right. right. exists i.
      split; [done|]. split; [by eapply is_rel_mono|]. exists s. split; [done|]. by eapply inv_rel_mono.
  Qed.

  (** Relationships that have no inverse yet, as a finite set. *)
  Definition lack_set (g : ograph) : gset term :=
    list_to_set (filter (fun r => find_inverse g r = None)
      (map (fun t : otriple => fst (fst t)) (triples g (None, p_type, Some owl_ObjectProperty)))).

  Lemma elem_lack_set g r :
    is_bnode r = false ->
    r ∈ lack_set g <-> (r, p_type, owl_ObjectProperty) ∈ g /\ lacking g r.
  Proof.
    intros Hb. unfold lack_set. rewrite elem_of_list_to_set, elem_of_list_filter.
    pose proof (find_inverse_spec g r Hb) as Hf.
    rewrite elem_of_list_In, in_map_iff. split.
    - intros [Hn ([[s p] o] & <- & Hin)]. cbn in *. rewrite Hn in Hf. split; [|done].
      apply elem_of_list_In, elem_triples in Hin as [Hg Hm].
      apply pat_match_so in Hm as (Hp & _ & Ho). cbn in *. rewrite (Ho _ eq_refl) in Hg. by subst.
    - intros [Hin Hl]. split.
      + destruct (find_inverse g r) as [o|]; [|done]. by destruct (Hl o).
      + exists (r, p_type, owl_ObjectProperty). split; [done|].
        apply elem_of_list_In, elem_triples. split; [done|]. apply pat_match_so. naive_solver.
  Qed.

  (** Mirror property of the inverses created between g and g'. *)
  Definition mirrored (g g' : ograph) (a : term) : Prop :=
    forall s, super_of g a s -> exists i, inv_rel g' s i /\ (mk a, p_subPropertyOf, i) ∈ g'.

  Definition lack_bound (g : ograph) (U : gset term) : Prop :=
    forall r, is_rel g r -> lacking g r -> r ∈ U.

  Lemma inverse_spec fuel : forall g r (U : gset term),
    good g -> is_rel g r -> lack_bound g U -> (size U <= fuel)%nat ->
    exists g' o, inverse fuel g r = (g', Ok o) /\ ext g g' /\ inv_rel g' r o /\
      (forall a, is_rel g a -> lacking g a -> ~ lacking g' a -> mirrored g g' a).
  Proof.
    induction fuel as [|fuel IH]; intros g r U Hg Hr HU Hsz.
    all: cbn [Inverse.inverse]; pose proof (find_inverse_spec g r (is_rel_nb g r Hr)) as Hf;
      destruct (find_inverse g r) as [o|].
    1,3: exists g, o; rewrite (is_rel_known g o) by (by eapply (g_typed _ _ Hg));
      (split; [done|]); (split; [apply ext_refl|]); (split; [done|]); intros a _ ? ?; done.
    { exfalso. assert (Hin : r ∈ U) by by apply HU.
      assert (size U <> 0)%nat; [|lia]. intros Hz%size_empty_inv. clear -Hz Hin. set_solver. }
    set (g1 := new_inverse g r).
    assert (He1 : ext g g1) by by apply new_inverse_ext.
    assert (Hg1 : good g1) by (by eapply ext_good).
    assert (Hri1 : (r, p_inverseOf, mk r) ∈ g1) by (apply elem_new_inverse; auto).
    assert (Hty1 : (mk r, p_type, owl_ObjectProperty) ∈ g1) by (apply elem_new_inverse; auto).
    destruct (g_fresh _ _ Hg r Hr Hf) as [Hfr Hmkn].
    destruct (not_extreme r (g_special _ _ Hg r Hr)) as (Hs1 & Hs2 & _).
    set (supers := ord (remove_dups (directly_connected g1 p_subPropertyOf false rel_blacklist r))).
    assert (Hsup : forall s, s ∈ supers <-> super_of g r s).
    { intros s. unfold supers. rewrite Hord, elem_of_remove_dups, elem_supers by done.
      by apply ext_super_of. }
    set (loop := fix loop (ss : list term) (g : ograph) : ograph * option exn := _).
    assert (Hloop : forall ss g2,
      (forall s, s ∈ ss -> super_of g r s) ->
      ext g g2 -> g1 ⊆ g2 ->
      (forall a, is_rel g a -> lacking g a -> ~ lacking g2 a -> a <> r -> mirrored g g2 a) ->
      (forall s, super_of g r s -> s ∈ ss \/
         exists i, inv_rel g2 s i /\ (mk r, p_subPropertyOf, i) ∈ g2) ->
      exists g3, loop ss g2 = (g3, None) /\ ext g g3 /\ g1 ⊆ g3 /\
        (forall a, is_rel g a -> lacking g a -> ~ lacking g3 a -> mirrored g g3 a)).
    { induction ss as [|s ss IHs]; intros g2 Hss He2 H12 Hmir Hdone.
      - exists g2. split; [done|]. split; [done|]. split; [done|].
        intros a Ha Hl Hnl. destruct (decide (a = r)) as [->|Hne]; [|by apply Hmir].
        intros s Hs. destruct (Hdone s Hs) as [Hn|?]; [by apply elem_of_nil in Hn|done].
      - unfold loop. cbn fix beta iota. fold loop.
        assert (Hg2 : good g2) by exact (ext_good g g2 Hg He2).
        assert (Hs : super_of g r s) by (apply Hss; left).
        assert (Hrs : is_rel g s) by (by eapply (g_supers _ _ Hg)).
        assert (Hrs2 : is_rel g2 s) by (eapply is_rel_mono; [apply He2|done]).
        assert (Hri2 : (r, p_inverseOf, mk r) ∈ g2) by by apply H12.
        assert (Hrr2 : is_rel g2 r) by (eapply is_rel_mono; [apply He2|done]).
        destruct (IH g2 s (U ∖ {[r]})) as (g3 & i & Hinv & He3 & Hi & Hm3).
        { done. } { done. }
        { intros a Ha Hl. destruct (ext_lacking_back g g2 a Hg He2 Ha Hl) as [Ha0 Hl0].
          apply elem_of_difference. split; [by apply HU|]. rewrite elem_of_singleton.
          intros ->. by apply (created_not_lacking g2 r). }
        { assert (Hin : r ∈ U) by by apply HU.
          rewrite size_difference; [rewrite size_singleton; lia|].
          intros x Hx. apply elem_of_singleton in Hx as ->. done. }
        rewrite Hinv.
        assert (He13 : ext g g3) by exact (ext_trans g g2 g3 Hg He2 He3).
        assert (Hg3 : good g3) by exact (ext_good g g3 Hg He13).
        set (g4 := g3 ∪ {[ (mk r, p_subPropertyOf, i) ]}).
        assert (H34 : g3 ⊆ g4) by (unfold g4; set_solver).
        assert (H24 : g2 ⊆ g4) by (etrans; [apply He3|done]).
        assert (Hlk : forall a, is_rel g a -> lacking g4 a <-> lacking g3 a).
        { intros a Ha. split; [by apply lacking_anti|]. intros Hl b (H1 & H2 & Hor).
          apply (Hl b). split; [done|]. split; [done|]. unfold g4 in Hor.
          destruct Hor as [Hor|Hor]; apply elem_of_union in Hor as [?|Hx]; auto;
            apply elem_of_singleton in Hx; discriminate. }
        apply IHs.
        + intros s' Hs'. apply Hss. by right.
        + apply (sub_ext g g3 r s i); try done.
          * by apply He3.
          * by apply (e_sub _ _ He3), H12.
          * eapply (g_typed _ _ Hg3); done.
        + by etrans.
        + intros a Ha Hl Hnl Hne s' Hs'. rewrite Hlk in Hnl by done.
          assert (Ha2 : is_rel g2 a) by (eapply is_rel_mono; [apply He2|done]).
          assert (Hlift : forall gx, gx ⊆ g4 -> (exists i, inv_rel gx s' i /\ (mk a, p_subPropertyOf, i) ∈ gx) ->
                    exists i, inv_rel g4 s' i /\ (mk a, p_subPropertyOf, i) ∈ g4).
          { intros gx Hgx (j & Hj & Hjs). exists j. split; [by eapply inv_rel_mono|by apply Hgx]. }
          destruct (find_inverse g2 a) as [b|] eqn:Ef.
          * pose proof (find_inverse_spec g2 a (is_rel_nb g2 a Ha2)) as Hfa. rewrite Ef in Hfa.
            apply (Hlift g2 H24). apply Hmir; try done. intros Hla. by destruct (Hla b).
          * pose proof (find_inverse_spec g2 a (is_rel_nb g2 a Ha2)) as Hfa. rewrite Ef in Hfa.
            apply (Hlift g3 H34). apply Hm3; try done. exact (proj2 (ext_super_of g g2 a s' Hg He2 Ha) Hs').
        + intros s' Hs'. destruct (Hdone s' Hs') as [Hin|(j & Hj & Hjs)].
          * apply elem_of_cons in Hin as [->|Hin]; [right|by left].
            exists i. split; [exact (inv_rel_mono g3 g4 s i H34 Hi)|]. unfold g4. apply elem_of_union.
            right. by apply elem_of_singleton.
          * right. exists j. split; [exact (inv_rel_mono g2 g4 s' j H24 Hj)|by apply H24]. }
    destruct (Hloop supers g1) as (g3 & -> & He3 & H13 & Hm3).
    { intros s Hs. by apply Hsup. }
    { done. } { done. }
    { intros a Ha Hl Hnl Hne. exfalso. apply Hnl. intros b Hb.
      destruct (ext_inv_rel g g1 a b Hg He1 Hb) as [H|[(_ & _ & -> & _)|(Rb & Lb & -> & _)]].
      - by apply (Hl b).
      - destruct Hb as (_ & _ & [H|H]); apply elem_new_inverse in H as [H|[H|[H|H]]]; try discriminate.
        + by destruct (fresh_not_rel g a Hg Ha Hl p_inverseOf owl_Class) as [_ Hno]; apply (Hno a).
        + injection H as -> _. done.
        + by destruct (fresh_not_rel g a Hg Ha Hl p_inverseOf a).
        + injection H as Heq Heq2. subst a.
          destruct Ha as [_ Ha]. by destruct (Hfr _ _ _ Ha).
      - destruct Ha as [_ Ha]. by destruct (fresh_not_rel g b Hg Rb Lb p_type owl_ObjectProperty). }
    { intros s Hs. left. by apply Hsup. }
    assert (Hrel3 : is_rel g3 (mk r)) by (split; [done|by apply H13]).
    rewrite (is_rel_known g3 (mk r) Hrel3).
    exists g3, (mk r). split; [done|]. split; [done|]. split; [|done].
    split; [by eapply is_rel_nb|]. split; [by eapply is_rel_nb|]. left. by apply H13.
  Qed.
End Proofs.

Section History.
  Context (mk lbl : term -> term) (ord : list term -> list term).
  Context (Hord : forall l, ord l ≡ₚ l) (Hlbl : forall r, exists n, lbl r = LIT n).

  (** The graph after a sequence of accesses to the inverses of relationships. *)
  Fixpoint asks (fuel : nat) (g : ograph) (rs : list term) : ograph :=
    match rs with
    | [] => g
    | r :: rs => asks fuel (fst (inverse mk lbl ord fuel g r)) rs
    end.

  (** Every relationship accessed exists when it is accessed. *)
  Fixpoint asks_valid (fuel : nat) (g : ograph) (rs : list term) : Prop :=
    match rs with
    | [] => True
    | r :: rs => is_rel g r /\ asks_valid fuel (fst (inverse mk lbl ord fuel g r)) rs
    end.

  (** How many relationships may lack an inverse. *)
  Definition enough_fuel (g : ograph) (fuel : nat) : Prop :=
    exists U : gset term, lack_bound g U /\ (size U <= fuel)%nat.

  Lemma enough_fuel_exists g : exists n, forall fuel, (n <= fuel)%nat -> enough_fuel g fuel.
  Proof.
    exists (size (lack_set g)). intros fuel Hf. exists (lack_set g). split; [|done].
    intros r Hr Hl. apply (elem_lack_set mk g r (is_rel_nb g r Hr)). split; [apply Hr|done].
  Qed.

  Lemma ext_enough g g' fuel :
    good mk g -> ext mk lbl g g' -> enough_fuel g fuel -> enough_fuel g' fuel.
  Proof.
    intros Hg He (U & HU & Hs). exists U. split; [|done]. intros r Hr Hl.
    destruct (ext_lacking_back mk lbl g g' r Hg He Hr Hl) as [? ?]. by apply HU.
  Qed.

  Lemma inverse_ok fuel g r :
    good mk g -> is_rel g r -> enough_fuel g fuel ->
    exists g' o, inverse mk lbl ord fuel g r = (g', Ok o) /\ ext mk lbl g g' /\ inv_rel g' r o /\
      (forall a, is_rel g a -> lacking g a -> ~ lacking g' a -> mirrored mk g g' a).
  Proof. intros Hg Hr (U & HU & Hs). by eapply inverse_spec. Qed.

  Lemma asks_ext fuel g rs :
    good mk g -> enough_fuel g fuel -> asks_valid fuel g rs ->
    ext mk lbl g (asks fuel g rs).
  Proof.
    revert g. induction rs as [|r rs IH]; intros g Hg Hf Hv; cbn; [apply ext_refl|].
    destruct Hv as [Hr Hv].
    destruct (inverse_ok fuel g r Hg Hr Hf) as (g' & o & Hi & He & _).
    rewrite Hi in *. cbn in *.
    eapply ext_trans; [done|done|]. apply IH; [by eapply ext_good|by eapply ext_enough|done].
  Qed.
End History.
