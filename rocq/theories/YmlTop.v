(** From valid documents to the hypotheses of YmlLink.v, and the binding of the
    namespace. *)
From stdpp Require Import base list gmap countable relations.
From Coq Require Import String.
From Verif Require Import Prelude Utf8 Text Names Onto OClass Yml YmlProofs YmlSpec YmlLink YmlTerm.
From Verif Require Validator Namespace Datatype PropValidator PropNamespace.
Local Open Scope N_scope.
Local Open Scope list_scope.
Module V := PropValidator.

Lemma namechar_clean c : V.NameChar c -> c ∉ seps.
Proof. intros H Hin. unfold seps in Hin. rewrite !elem_of_cons, elem_of_nil in Hin. unfold V.NameChar, V.Letter, V.Digit in H. lia. Qed.
Lemma letter_char c : V.Letter c -> V.NameChar c.
Proof. intros H. by left. Qed.
Lemma name_chars s : V.Name s -> s <> [] /\ Forall V.NameChar s.
Proof. intros (c & t & -> & Hc & Ht). split; [done|]. constructor; [by left|done]. Qed.
Lemma nl_clean : 10 ∉ seps.
Proof. unfold seps. rewrite !elem_of_cons, elem_of_nil. lia. Qed.
Lemma chars_clean s : Forall V.NameChar s -> clean s.
Proof. intros H. eapply Forall_impl; [exact H|]. apply namechar_clean. Qed.
Lemma chars_nodot s : Forall V.NameChar s -> 46 ∉ s.
Proof.
  intros H Hin. rewrite stdpp.list.Forall_forall in H. apply H in Hin. unfold V.NameChar, V.Letter, V.Digit in Hin. lia.
Qed.
Lemma text_name x : V.Text V.Name (YS (SStr x)) -> x <> [] /\ clean x.
Proof.
  intros (s & t & [= <-] & [= <-] & [H|(t' & -> & H)]); apply name_chars in H as [Hne H].
  - split; [done|by apply chars_clean].
  - split; [by destruct t'|]. apply Forall_app. split; [by apply chars_clean|]. constructor; [apply nl_clean|constructor].
Qed.
Lemma low1_letter c : V.Letter c -> low1 c <> 46.
Proof. unfold low1. intros H. unfold V.Letter in H. repeat case_match; lia. Qed.
Lemma lower_ne s : s <> [] -> lower s <> [].
Proof. destruct s; [done|]. discriminate. Qed.
Lemma qualified_ref w : V.Qualified w \/ (exists t', w = t' ++ [10] /\ V.Qualified t') -> wf_ref w.
Proof.
  intros H.
  assert (G : exists a n, w = a ++ lit "." ++ n /\ V.Name a /\ n <> [] /\ clean n /\ 46 ∉ n).
  { destruct H as [(a & n & -> & Ha & Hn)|(t' & -> & a & n & -> & Ha & Hn)];
      pose proof (name_chars _ Hn) as [Hne Hc].
    - exists a, n. split; [done|]. split; [done|]. split; [done|]. split; [by apply chars_clean|by apply chars_nodot].
    - exists a, (n ++ [10]). split; [by rewrite <- !app_assoc|]. split; [done|]. split; [by destruct n|]. split.
      + apply Forall_app. split; [by apply chars_clean|]. constructor; [apply nl_clean|constructor].
      + intros [Hin|Hin]%elem_of_app; [by apply (chars_nodot n)|]. by apply elem_of_list_singleton in Hin. }
  destruct G as (a & n & -> & Ha & Hne & Hc & Hd). apply name_chars in Ha as [Hane Ha].
  exists (lower a, n). split.
  - apply split_reference. exists a. split; [done|]. split; [done|]. split; [by apply chars_nodot|done].
  - split; [apply lower_idem|]. split; [by apply lower_ne|]. done.
Qed.
Lemma text_ref w : V.Text V.Qualified (YS (SStr w)) -> wf_ref w.
Proof. intros (s & t & [= <-] & [= <-] & H). by apply qualified_ref. Qed.

Lemma fields_get fs l e v : V.Fields fs (YDict l) -> In e fs -> get e.1.2 l = Some v -> e.2 v.
Proof.
  intros (l' & [= <-] & H & _) He Hv. rewrite List.Forall_forall in H. specialize (H _ He).
  destruct e as [[q k] P]. unfold get in Hv. cbn [fst snd] in Hv, H. rewrite Hv in H. exact H.
Qed.
Lemma f_str_get k f w : f_str k f = Some w -> get k f = Some (YS (SStr w)).
Proof. unfold f_str. destruct (get k f) as [[[]| |]|]; try discriminate. by intros [= ->]. Qed.

Section Entity.
  Variable f : fields.
  Hypothesis HE : V.Entity (YDict f).
  Lemma entity_supers w : w ∈ f_supers f -> wf_ref w.
  Proof.
    unfold f_supers. intros Hw. destruct (get "subclass_of" f) as [v|] eqn:Ev; [|by apply elem_of_nil in Hw].
    pose proof (fields_get _ _ (V.Required, "subclass_of"%string, V.ListOf V.ClassExpr) v HE ltac:(cbn; tauto) Ev) as Hv.
    cbn in Hv. destruct Hv as (l & -> & Hl). unfold strings in Hw. apply elem_of_list_omap in Hw as (y & Hy & Es).
    rewrite stdpp.list.Forall_forall in Hl. apply Hl in Hy.
    destruct y as [[]| |]; try discriminate. injection Es as ->. apply text_ref. by inversion Hy.
  Qed.
  Lemma entity_inverse w : f_str "inverse" f = Some w -> wf_ref w.
  Proof.
    intros Ev%f_str_get. apply text_ref.
    by apply (fields_get _ _ (V.Optional, "inverse"%string, V.Text V.Qualified) _ HE ltac:(cbn; tauto) Ev).
  Qed.
  Lemma entity_attributes w v : (w, v) ∈ f_attributes f -> wf_ref w.
  Proof.
    unfold f_attributes. intros Hw. destruct (get "attributes" f) as [u|] eqn:Ev; [|by apply elem_of_nil in Hw].
    pose proof (fields_get _ _ (V.Optional, "attributes"%string, V.DictOf (V.Text V.Qualified) (fun _ => True)) u HE ltac:(cbn; tauto) Ev) as Hv.
    cbn in Hv. destruct Hv as (l & -> & Hl). apply elem_of_list_omap in Hw as ([k y] & Hy & Es).
    rewrite stdpp.list.Forall_forall in Hl. apply Hl in Hy as [Hk _]. cbn in Hk.
    apply text_ref. destruct k; try discriminate. destruct y as [[]| |]; injection Es as -> _; exact Hk.
  Qed.
End Entity.

Lemma entities_elem o es x f : entities o = Some es -> (x, f) ∈ es ->
  exists l, o = YDict l /\ (SStr x, YDict f) ∈ l.
Proof.
  unfold entities. destruct o as [| |l]; try discriminate. intros H Hin. exists l. split; [done|].
  apply mapM_Some in H. apply elem_of_list_lookup in Hin as [j Hj].
  destruct (Forall2_lookup_r _ _ _ _ _ H Hj) as ([k y] & Hy & E).
  destruct k; try discriminate. destruct y; try discriminate. injection E as -> ->. by eapply elem_of_list_lookup_2.
Qed.

Record facts (d : fields) (own : str) (es : list (str * fields)) : Prop := {
  x_low : lower own = own;
  x_ne : own <> [];
  x_names : forall x f, (x, f) ∈ es -> x <> [] /\ clean x;
  x_supers : forall x f w, (x, f) ∈ es -> w ∈ f_supers f -> wf_ref w;
  x_inverse : forall x f w, (x, f) ∈ es -> f_str "inverse" f = Some w -> wf_ref w;
  x_attributes : forall x f w v, (x, f) ∈ es -> (w, v) ∈ f_attributes f -> wf_ref w;
  x_entity : forall x f, (x, f) ∈ es -> V.Entity (YDict f);
  x_default : forall w, f_str "default_rel" d = Some w -> wf_ref w }.
Lemma document_facts d ns o es : V.Document (YDict d) -> f_str "namespace" d = Some ns ->
  get "ontology" d = Some o -> entities o = Some es -> facts d (lower ns) es.
Proof.
  intros HD Hns Ho Hes.
  pose proof (fields_get _ _ (V.Required, "namespace"%string, V.StartsWithLetter) _ HD ltac:(cbn; tauto) (f_str_get _ _ _ Hns)) as Hn.
  cbn in Hn. destruct Hn as (s & c & t & [= <-] & [= ->] & Hc).
  pose proof (fields_get _ _ (V.Required, "ontology"%string, V.DictOf (V.Text V.Name) V.Entity) _ HD ltac:(cbn; tauto) Ho) as (l & -> & Hl).
  rewrite stdpp.list.Forall_forall in Hl.
  assert (HX : forall x f, (x, f) ∈ es -> V.Text V.Name (YS (SStr x)) /\ V.Entity (YDict f)).
  { intros x f Hx. destruct (entities_elem _ _ _ _ Hes Hx) as (l' & [= <-] & Hin). apply (Hl _ Hin). }
  split.
  - apply lower_idem.
  - by apply lower_ne.
  - intros x f Hx. apply text_name, (HX x f Hx).
  - intros x f w Hx. apply entity_supers, (HX x f Hx).
  - intros x f w Hx. apply entity_inverse, (HX x f Hx).
  - intros x f w v Hx. apply entity_attributes, (HX x f Hx).
  - intros x f Hx. apply (HX x f Hx).
  - intros w Ev%f_str_get. apply text_ref.
    by apply (fields_get _ _ (V.Optional, "default_rel"%string, V.Text V.Qualified) _ HD ltac:(cbn; tauto) Ev).
Qed.

(** ** Bindings that agree on the IRI of every namespace *)
Definition same (b b' : Namespace.bindings) : Prop := forall ns i, NsIri b ns i <-> NsIri b' ns i.
Lemma same_sym b b' : same b b' -> same b' b.
Proof. intros H ns i. symmetry. apply H. Qed.

Section Same.
  Variable R : rdf.
  Variable g : ograph.
  Variable own : str.
  Variable D : gmap str fields.
  Implicit Types b : Namespace.bindings.
  Ltac both H := let L := fresh in intros L; (split; [by apply H|by apply H, same_sym]).

  Lemma named_mono b b' ns n i : same b b' -> Named R b g ns n i -> Named R b' g ns n i.
  Proof. intros H [j H1 H2|j X H1 H2 H3 H4]; [apply Named_plain|eapply Named_label]; try done; by apply H. Qed.
  Lemma named_same b b' ns n i : same b b' -> Named R b g ns n i <-> Named R b' g ns n i.
  Proof. intros H. split; apply named_mono; [done|by apply same_sym]. Qed.
  Lemma known_same b b' ns n : same b b' -> Known R b g own D ns n <-> Known R b' g own D ns n.
  Proof. intros H. unfold Known. by setoid_rewrite (named_same b b' _ _ _ H). Qed.
  Lemma refers_same b b' ns n i : same b b' -> Refers R b g own D ns n i <-> Refers R b' g own D ns n i.
  Proof. intros H. unfold Refers. setoid_rewrite (known_same b b' _ _ H). by setoid_rewrite (named_same b b' _ _ _ H). Qed.
  Lemma refersto_same b b' w i : same b b' -> RefersTo R b g own D w i <-> RefersTo R b' g own D w i.
  Proof. intros H. unfold RefersTo. by setoid_rewrite (refers_same b b' _ _ _ H). Qed.
  Lemma hastype_same b b' x t : same b b' -> HasType R b g own D x t <-> HasType R b' g own D x t.
  Proof. intros H. unfold HasType. by setoid_rewrite (refers_same b b' _ _ _ H). Qed.
  Lemma kind_same b b' x k : same b b' -> Kind R b g own D x k <-> Kind R b' g own D x k.
  Proof. intros H. unfold Kind. by rewrite !(hastype_same b b' _ _ H). Qed.
  Lemma isattribute_same b b' a : same b b' -> IsAttribute R b g own D a <-> IsAttribute R b' g own D a.
  Proof. intros H. unfold IsAttribute. setoid_rewrite (hastype_same b b' _ _ H). by setoid_rewrite (named_same b b' _ _ _ H). Qed.
  Lemma defaultrel_same b b' w i : same b b' -> DefaultRel R b g own D w i <-> DefaultRel R b' g own D w i.
  Proof. intros H. unfold DefaultRel. by setoid_rewrite (refers_same b b' _ _ _ H). Qed.
  Lemma resolved_same b b' x : same b b' -> Resolved R b g own D x <-> Resolved R b' g own D x.
  Proof. intros H. unfold Resolved. by setoid_rewrite (refers_same b b' _ _ _ H). Qed.
  Lemma entityok_mono b b' x f : same b b' -> EntityOk R b g own D x f -> EntityOk R b' g own D x f.
  Proof.
    intros H [H1 (k & Hk & Hkeys & Hm)]. split; [by apply (resolved_same b b')|]. exists k.
    split; [by apply (kind_same b b')|]. split; [done|]. destruct k.
    - intros w v Hw. destruct (Hm w v Hw) as (a & Ha & Hi). exists a.
      split; [by apply (refersto_same b b')|by apply (isattribute_same b b')].
    - intros w Hw. destruct (Hm w Hw) as [i Hi]. exists i. by apply (refersto_same b b').
    - done.
  Qed.
  Lemma accepts_mono b b' d : same b b' -> Accepts R b g own D d -> Accepts R b' g own D d.
  Proof.
    intros H (H1 & H2 & H3). split; [|split; [done|]].
    - intros x f Hx. eapply entityok_mono; [done|]. by apply H1.
    - intros w Hw. destruct (H3 w Hw) as [i Hi]. exists i. by apply (defaultrel_same b b').
  Qed.
  Lemma accepts_same b b' d : same b b' -> Accepts R b g own D d <-> Accepts R b' g own D d.
  Proof. intros H. split; apply accepts_mono; [done|by apply same_sym]. Qed.
  Lemma says_mono b b' d t : same b b' -> Says R b g own D d t -> Says R b' g own D d t.
  Proof.
    intros H Ht. destruct Ht.
    - eapply Says_label; [done|]. by apply (named_same b b').
    - eapply Says_description; [done| |done]. by apply (named_same b b').
    - eapply Says_type; [done|by apply (named_same b b')|by apply (hastype_same b b')].
    - eapply Says_super; [done|by apply (named_same b b')|done|by apply (refersto_same b b')|by apply (kind_same b b')].
    - eapply Says_inverse; [done|by apply (named_same b b')|by apply (kind_same b b')|done|by apply (refersto_same b b')].
    - eapply Says_default; [done|by apply (named_same b b')|by apply (kind_same b b')|by apply H|done].
    - eapply Says_default_doc; [done|by apply (defaultrel_same b b')|by apply H].
    - eapply Says_range; [done|by apply (named_same b b')|by apply (kind_same b b')|done|done].
    - eapply Says_datatype; [done|by apply (kind_same b b')|done|done|done].
  Qed.
  Lemma says_same b b' d t : same b b' -> Says R b g own D d t <-> Says R b' g own D d t.
  Proof. intros H. split; apply says_mono; [done|by apply same_sym]. Qed.
  Lemma slots_mono b b' m : same b b' -> Slots R b g own D m -> Slots R b' g own D m.
  Proof.
    intros H (l & H1 & H2 & H3). exists l. split; [done|]. split.
    - intros x w v. rewrite H2. unfold Declared. by setoid_rewrite (kind_same b b' _ _ H).
    - eapply Forall2_impl; [exact H3|]. cbn. intros p e (A & B & C).
      split; [by apply (named_same b b')|]. split; [by apply (refersto_same b b')|done].
  Qed.
  Lemma apart_mono b b' : same b b' -> Apart R b g own -> Apart R b' g own.
  Proof.
    intros H HA i Hi. apply H in Hi. destruct (HA i Hi) as (H1 & H2 & H3). split; [done|]. split; [done|].
    intros ns j Hne Hj. apply H in Hj. by apply (H3 ns j).
  Qed.
End Same.

(** ** Binding the namespace *)
Lemma assoc_snoc ns (b : Namespace.bindings) p i : assoc p b = None ->
  assoc ns (b ++ [(p, i)]) = if str_eqb ns p then Some i else assoc ns b.
Proof.
  induction b as [|[q j] b IH]; cbn.
  - intros _. by destruct (str_eqb ns p).
  - destruct (str_eqb p q) eqn:E; [discriminate|]. intros H. rewrite (IH H).
    destruct (str_eqb_spec ns q) as [->|]; [|done]. destruct (str_eqb_spec q p) as [->|]; [|done].
    by rewrite str_eqb_refl in E.
Qed.
Lemma bind_assoc st own : PropNamespace.store_ok st ->
  forall ns, assoc ns (Namespace.st_ns (Namespace.ns_bind own (ns_iri (Namespace.st_ns st) own) st)) =
    if str_eqb ns own then Some (ns_iri (Namespace.st_ns st) own) else assoc ns (Namespace.st_ns st).
Proof.
  intros Hok ns. unfold ns_iri. destruct (assoc own (Namespace.st_ns st)) as [i|] eqn:E.
  - rewrite PropNamespace.ns_bind_again by done. destruct (str_eqb_spec ns own) as [->|]; done.
  - rewrite PropNamespace.ns_bind_fresh by done. by apply assoc_snoc.
Qed.
Lemma bind_same st own : PropNamespace.store_ok st ->
  same (Namespace.st_ns st) (Namespace.st_ns (Namespace.ns_bind own (ns_iri (Namespace.st_ns st) own) st)).
Proof.
  intros Hok ns i. unfold NsIri. rewrite bind_assoc by done. destruct (str_eqb_spec ns own) as [->|]; [|done].
  unfold ns_iri. destruct (assoc own (Namespace.st_ns st)) as [j|]; split.
  - intros [?|[? _]]; [by left|done].
  - intros [?|[? _]]; [by left|done].
  - intros [?|[_ ->]]; [done|by left].
  - intros [[= <-]|[? _]]; [by right|done].
Qed.
