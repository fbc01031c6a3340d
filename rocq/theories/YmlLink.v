(** The parser's conditions and triples (YmlProofs.v) are those of the
    specification (YmlSpec.v). *)
From stdpp Require Import base list gmap countable relations.
From Coq Require Import String.
From Verif Require Import Prelude Utf8 Text Names Onto OClass Yml YmlProofs YmlSpec.
From Verif Require Validator Namespace Datatype PropValidator.
Local Open Scope N_scope.
Local Open Scope list_scope.

(** ** References *)
Lemma split_on_two w a n : split_on 46 w = [a; n] <-> w = a ++ lit "." ++ n /\ 46 ∉ a /\ 46 ∉ n.
Proof.
  rewrite !elem_of_list_In. split.
  - intros E. pose proof (join_split 46 w) as J. pose proof (split_on_no_sep_inside 46 w) as S.
    rewrite E in J, S. apply Forall_cons_1 in S as [Sa S]. apply Forall_cons_1 in S as [Sn _].
    split; [|done]. by rewrite <- J.
  - intros (-> & Ha & Hn). change (lit "." ++ n) with (46 :: n).
    rewrite split_on_app by done. by rewrite split_on_nosep.
Qed.
Lemma split_reference w ns n : split_name w = Ok (ns, n) <-> Reference w ns n.
Proof.
  unfold Reference. split.
  - unfold split_name. destruct (split_on 46 w) as [|a [|n' [|? ?]]] eqn:E; try discriminate.
    intros [= <- <-]. apply split_on_two in E as (-> & Ha & Hn). by exists a.
  - intros (a & -> & -> & Ha & Hn). unfold split_name.
    by rewrite (proj2 (split_on_two (a ++ lit "." ++ n) a n)).
Qed.

(** ** A finite relation without cycles is well-founded *)
Lemma acc_sn {A} (S : relation A) x : sn S x <-> Acc (fun a b => S b a) x.
Proof. reflexivity. Qed.
Lemma sn_acyclic {A} (S : relation A) x : sn S x -> forall y, rtc S x y -> ~ tc S y y.
Proof.
  intros H. induction H as [x _ IH]. intros y Hy Hc. inversion Hy as [|? z ? Hxz Hzy]; subst.
  - apply tc_once in Hc as (z & Hz & Hr) || (inversion Hc as [? ? Hz|? z ? Hz Hr]; subst).
    + by apply (IH y Hz y); [constructor|constructor].
    + apply (IH z Hz y); [by apply tc_rtc|]. done.
  - by apply (IH z Hxz y Hzy).
Qed.

(** ** The keys of an entity *)
Module V := PropValidator.
Lemma lookup_in k (f : fields) v : Validator.lookup k f = Some v -> (SStr k, v) ∈ f.
Proof.
  induction f as [|[k' v'] f IH]; cbn; [done|]. intros H. rewrite elem_of_cons.
  destruct k'; try (right; by apply IH). destruct (str_eqb_spec k s) as [->|Hne].
  - injection H as ->. by left.
  - right. by apply IH.
Qed.

Definition kfields (k : ekind) : list (V.Presence * string * (yaml -> Prop)) :=
  [(V.Optional, "description"%string, V.String);
   (V.Required, "subclass_of"%string, V.ListOf V.ClassExpr)] ++
  match k with
  | KClass => [(V.Optional, "attributes"%string, V.DictOf (V.Text V.Qualified) (fun _ => True));
               (V.Optional, "disjoint_with"%string, V.ListOf V.ClassExpr);
               (V.Optional, "equivalent_to"%string, V.ListOf V.ClassExpr)]
  | KRel => [(V.Optional, "inverse"%string, V.Text V.Qualified);
             (V.Optional, "default_rel"%string, V.Boolish);
             (V.Optional, "domain"%string, V.ClassExpr);
             (V.Optional, "range"%string, V.ClassExpr);
             (V.Optional, "characteristics"%string, V.ListOf (V.Text V.Characteristic))]
  | KAttr => [(V.Optional, "datatype"%string, V.Text V.DatatypeText)]
  end.
Lemma valid_fields k f : valid_as k f = Ok tt <-> V.Fields (kfields k) (YDict f).
Proof.
  unfold valid_as. set (d := YDict f).
  assert (Hd : (0 < Validator.depth d)%nat) by (cbn; lia).
  remember (Validator.enough d) as fuel eqn:Ef. unfold Validator.enough in Ef.
  destruct fuel as [|fuel]; [lia|].
  destruct k; cbn [Validator.validate Validator.format def_format]; apply V.validate_fields;
    cbn [kfields app Validator.entity_common Validator.class_definition Validator.relationship_definition
         Validator.attribute_definition];
    (repeat (constructor; [V.field; intros x Hx|]));
    lazymatch goal with |- Forall2 _ _ _ => constructor | _ => idtac end.
  all: try (apply V.validate_str; lia).
  all: try (apply V.validate_ces; lia).
  all: try (apply V.validate_ce; lia).
  all: try (apply V.validate_bool; lia).
  all: try (apply V.validate_re; [lia|apply V.lang_qualified]).
  all: try (apply V.validate_re; [lia|apply V.lang_datatype]).
  - destruct fuel as [|fuel]; [lia|]. apply V.validate_dict.
    + intros k. apply V.validate_re; [lia|apply V.lang_qualified].
    + intros y Hy. destruct fuel; [lia|]. cbn. tauto.
  - destruct fuel as [|fuel]; [lia|]. apply V.validate_list. intros y Hy. apply V.validate_re; [lia|].
    apply V.lang_words.
Qed.
Lemma kfields_allowed k : map (fun e => e.1.2) (kfields k) = allowed k.
Proof. by destruct k. Qed.
Lemma valid_keys k f : V.Entity (YDict f) ->
  valid_as k f = Ok tt <->
  forall key v, (key, v) ∈ f -> exists a, a ∈ allowed k /\ key = SStr (lit a).
Proof.
  intros (l & [= <-] & HE & _). rewrite valid_fields. unfold V.Fields. split.
  - intros (l & [= <-] & _ & Hk) key v Hin.
    rewrite stdpp.list.Forall_forall in Hk. destruct (Hk _ Hin) as (e & He & Ek). cbn in Ek.
    exists e.1.2. split; [|done]. rewrite <- kfields_allowed. apply elem_of_list_In.
    exact (in_map (fun e : V.Presence * string * (yaml -> Prop) => e.1.2) _ _ He).
  - intros Hk. exists f. split; [done|]. split.
    + apply List.Forall_forall. intros e He.
      rewrite List.Forall_forall in HE. apply HE.
      clear -He. destruct k; cbn [kfields app In] in He |- *; tauto.
    + apply List.Forall_forall. intros [key v] Hin. apply elem_of_list_In in Hin. destruct (Hk key v Hin) as (a & Ha & ->).
      rewrite <- kfields_allowed in Ha. apply elem_of_list_In, in_map_iff in Ha as (e & <- & He).
      by exists e.
Qed.

Section Link.
  Variable R : rdf.
  Variable b : Namespace.bindings.
  Variable own : str.
  Variable es : list (str * fields).
  Variable g0 : ograph.

  Notation num := (r_num R).
  Notation text := (r_text R).
  Notation len := (r_en R).
  Notation ltrue := (r_true R).
  Notation pick := (r_pick R).
  Notation I s := (IRI (num s)).
  Notation ns_iri := (ns_iri b).
  Notation labelled := (labelled text len).
  Notation candidate := (candidate num text len ltrue pick b).
  Notation is_subject := (is_subject num).
  Notation defined := (defined num text len ltrue pick b own es).
  Notation get_iri := (get_iri num text len ltrue pick b own es).
  Notation ref_iri := (ref_iri num text len ltrue pick b own es).
  Notation ownI := (ownI b own).
  Notation D := (list_to_map es : gmap str fields).

  Hypothesis HR : Numbers R.
  Hypothesis g0_text : Canonical R g0.
  Hypothesis own_low : lower own = own.
  Hypothesis own_ne : own <> [].
  Hypothesis es_nodup : base.NoDup (map fst es).
  Hypothesis es_names : forall x f, (x, f) ∈ es -> x <> [] /\ clean x.
  Hypothesis Hapart : Apart R b g0 own.
  Hypothesis es_supers : forall x f w, (x, f) ∈ es -> w ∈ f_supers f -> wf_ref w.
  Hypothesis es_inverse : forall x f w, (x, f) ∈ es -> f_str "inverse" f = Some w -> wf_ref w.
  Hypothesis es_attributes : forall x f w v, (x, f) ∈ es -> (w, v) ∈ f_attributes f -> wf_ref w.
  Hypothesis es_entity : forall x f, (x, f) ∈ es -> V.Entity (YDict f).

  Lemma D_elem x f : D !! x = Some f <-> (x, f) ∈ es.
  Proof. symmetry. apply elem_of_list_to_map. by rewrite <- list_fmap_map || done. Qed.
  Lemma nsiri ns i : NsIri b ns i <-> i = ns_iri ns.
  Proof. unfold NsIri, Yml.ns_iri. destruct (assoc ns b); naive_solver. Qed.
  Lemma ns_ends i : EndsWithHashOrSlash i <-> ends i.
  Proof. reflexivity. Qed.
  Lemma own_ends : ends (ns_iri own).
  Proof. by destruct (Hapart (ns_iri own)) as (? & _); [apply nsiri|]. Qed.
  Lemma apart ns : ns <> own -> ends (ns_iri ns) /\ ns_iri ns <> ns_iri own.
  Proof.
    intros H. destruct (Hapart (ns_iri own)) as (_ & _ & K); [by apply nsiri|].
    destruct (K ns (ns_iri ns)) as (? & ? & _); [done|by apply nsiri|done].
  Qed.
  Lemma own_style : (I (ns_iri own), p_reference_by_label, LIT ltrue) ∉ g0.
  Proof. destruct (Hapart (ns_iri own)) as (_ & K & _); [by apply nsiri|]. exact K. Qed.
  Lemma label_apart ns : ns <> own -> (I (ns_iri ns), p_reference_by_label, LIT ltrue) ∈ g0 ->
    startswith (ns_iri ns) (ns_iri own) = false.
  Proof.
    intros H Hb. destruct (Hapart (ns_iri own)) as (_ & _ & K); [by apply nsiri|].
    destruct (K ns (ns_iri ns)) as (_ & _ & K'); [done|by apply nsiri|].
    apply not_true_iff_false. rewrite startswith_iff. intros [r Hr]. by apply (K' Hb r).
  Qed.

  Lemma labelled_iff i name n : n ∈ labelled g0 i name <-> Labelled R g0 i name n.
  Proof. rewrite elem_labelled. unfold Labelled. by rewrite startswith_iff. Qed.
  Lemma named ns name i : Named R b g0 ns name i <-> candidate g0 ns name = i.
  Proof.
    unfold Yml.candidate. split.
    - intros [j Hj Hl|j X Hj Hb Hne HX]; apply nsiri in Hj; subst j.
      + destruct (decide ((I (ns_iri ns), p_reference_by_label, LIT ltrue) ∈ g0)) as [Hb|Hb]; [|done].
        rewrite decide_True; [done|]. apply set_eq. intros n. rewrite labelled_iff.
        split; [intros H; exfalso; by apply (Hl Hb n)|]. intros H. by apply elem_of_empty in H.
      + rewrite decide_True by done.
        assert (E : labelled g0 (ns_iri ns) name = X).
        { apply set_eq. intros n. by rewrite labelled_iff, HX. }
        rewrite E. by rewrite decide_False.
    - destruct (decide ((I (ns_iri ns), p_reference_by_label, LIT ltrue) ∈ g0)) as [Hb|Hb].
      + destruct (decide (labelled g0 (ns_iri ns) name = ∅)) as [E|E]; intros <-.
        * apply Named_plain; [by apply nsiri|]. intros _ n Hn. apply labelled_iff in Hn.
          rewrite E in Hn. by apply elem_of_empty in Hn.
        * eapply Named_label; [by apply nsiri|done|done|]. intros n. apply labelled_iff.
      + intros <-. apply Named_plain; [by apply nsiri|]. done.
  Qed.
  Lemma known ns name : Known R b g0 own D ns name <-> defined g0 ns name = true.
  Proof.
    unfold Known, Yml.defined. destruct (str_eqb_spec ns own) as [->|Hne].
    - rewrite bool_decide_eq_true. unfold is_Some. setoid_rewrite D_elem. setoid_rewrite assoc_elem; [|done]. naive_solver.
    - rewrite is_subject_iff. split.
      + intros [[? _]|(_ & i & p & o & Hn & Hi)]; [done|]. apply named in Hn as <-. eauto.
      + intros (p & o & H). right. split; [done|]. exists (candidate g0 ns name), p, o. split; [by apply named|done].
  Qed.
  Lemma refers ns name i : lower ns = ns -> ns <> [] -> name <> [] ->
    Refers R b g0 own D ns name i <-> get_iri g0 ns name = Ok i.
  Proof.
    intros Hl Hn Hne. unfold Refers, Yml.get_iri.
    assert (En : match ns with [] => own | _ => ns end = ns) by by destruct ns. rewrite En, Hl.
    destruct name as [|c name]; [done|]. rewrite known.
    destruct (defined g0 ns (c :: name)).
    { rewrite named. split; [intros [[_ ->]|[? _]]; done|]. intros [= <-]. by left. }
    destruct (alt (c :: name) (str_eqb ns (lit "cuba"))) as [[n'|]|e].
    - split.
      + intros [[? _]|(_ & n2 & [= <-] & Hk & Hi)]; [done|]. rewrite known in Hk. rewrite Hk. apply named in Hi. by rewrite Hi.
      + destruct (defined g0 ns n') eqn:Ed; [|done]. intros [= <-]. right. split; [done|].
        exists n'. split; [done|]. rewrite known, named. done.
    - split; [|done]. intros [[? _]|(_ & n2 & [=] & _)]; done.
    - split; [|done]. intros [[? _]|(_ & n2 & [=] & _)]; done.
  Qed.
  Lemma refers_node q i : wf_node q -> Refers R b g0 own D q.1 q.2 i <-> gi num text len ltrue pick b own es g0 q = Ok i.
  Proof. intros (H1 & H2 & H3 & _). by apply refers. Qed.
  Lemma refers_to w i : wf_ref w -> RefersTo R b g0 own D w i <-> RefTo num text len ltrue pick b own es g0 w i.
  Proof.
    intros ([ns n] & E & Hw). unfold RefersTo, RefTo, Yml.ref_iri. rewrite E. split.
    - intros (ns' & n' & Hr & Hi). apply split_reference in Hr. rewrite E in Hr. injection Hr as <- <-.
      by apply (refers_node (ns, n) i Hw).
    - intros Hi. exists ns, n. split; [by apply split_reference|]. by apply (refers_node (ns, n)).
  Qed.

  Lemma super_E q q' : Super own D q q' <-> E own es q q'.
  Proof.
    unfold Super, E. destruct q' as [ns n]. cbn. setoid_rewrite D_elem. setoid_rewrite split_reference. done.
  Qed.
  Lemma super_rtc q q' : rtc (Super own D) q q' <-> rtc (E own es) q q'.
  Proof. split; induction 1; [constructor| |constructor|]; econstructor; eauto; by apply super_E. Qed.
  Lemma super_tc q q' : tc (Super own D) q q' <-> tc (E own es) q q'.
  Proof.
    split; (induction 1; [constructor; by apply super_E|]); eapply tc_l; eauto; by apply super_E.
  Qed.
  Lemma E_finite : exists l : list (str * str), forall q q', E own es q q' -> q' ∈ l.
  Proof.
    exists (mjoin (map (fun e : str * fields => omap (fun w => match split_name w with Ok q => Some q | Err _ => None end)
                                                    (f_supers e.2)) es)).
    intros q q' (_ & f & w & Hf & Hw & Es). apply elem_of_list_join.
    eexists. split; [|apply elem_of_list_In, in_map; by apply elem_of_list_In]. cbn.
    apply elem_of_list_omap. exists w. split; [done|]. by rewrite Es.
  Qed.
  Lemma acyclic_acc : ~ Cyclic own D -> forall q, Acc (fun a b => E own es b a) q.
  Proof.
    intros Hc q. apply acc_sn. apply tc_finite_sn.
    - intros q' Hq'. apply Hc. exists q'. by apply super_tc.
    - destruct E_finite as [l Hl]. exists l. intros q' Hq'.
      induction Hq' as [? ? H|? ? ? _ _ IH]; [by eapply Hl|done].
  Qed.
  Lemma acc_acyclic : (forall x f, (x, f) ∈ es -> Acc (fun a b => E own es b a) (own, x)) -> ~ Cyclic own D.
  Proof.
    intros H [q Hq]. apply super_tc in Hq.
    assert (exists x f, q = (own, x) /\ (x, f) ∈ es) as (x & f & -> & Hx).
    { assert (exists q', E own es q q') as [q' (Ho & f & w & Hf & _)] by (inversion Hq; eauto).
      destruct q as [o x]. cbn in *. subst o. by exists x, f. }
    apply (sn_acyclic (E own es) (own, x)) with (y := (own, x)); [apply acc_sn; by apply (H x f)|constructor|done].
  Qed.

  Lemma own_wf' x : is_Some (D !! x) -> wf_node (own, x).
  Proof. intros [f Hf]. apply D_elem in Hf. exact (own_wf own es own_low own_ne es_names x f Hf). Qed.
  Lemma anc_wf x q : is_Some (D !! x) -> rtc (E own es) (own, x) q -> wf_node q.
  Proof. intros Hx H. exact (rtc_E_wf own es es_supers _ _ (own_wf' x Hx) H). Qed.
  Lemma has_type x t : is_Some (D !! x) -> HasType R b g0 own D x t <-> T0 num text len ltrue pick b own es g0 x t.
  Proof.
    intros Hx. unfold HasType, T0, Ancestor. split.
    - intros (Ht & q & i & Ha & Hi & Hg). apply super_rtc in Ha. exists q, i. split; [done|].
      split; [apply refers_node; [by eapply anc_wf|done]|]. unfold types_of. by rewrite elem_of_filter.
    - intros (q & i & Ha & Hi & Ht). unfold types_of in Ht. rewrite elem_of_filter in Ht. destruct Ht as [Hg Ht]. split; [done|].
      exists q, i. split; [by apply super_rtc|]. split; [apply refers_node; [by eapply anc_wf|done]|done].
  Qed.
  Lemma kind x k : is_Some (D !! x) -> Kind R b g0 own D x k <-> YmlProofs.Kind num text len ltrue pick b own es g0 x k.
  Proof.
    intros Hx. unfold Kind, YmlProofs.Kind. rewrite !has_type by done.
    generalize (T0 num text len ltrue pick b own es g0 x owl_Class) as c.
    generalize (T0 num text len ltrue pick b own es g0 x owl_ObjectProperty) as r.
    generalize (T0 num text len ltrue pick b own es g0 x owl_DatatypeProperty) as a.
    clear. intros a r c. destruct k; intuition congruence.
  Qed.

  Notation lval := (r_lit R).
  Notation lone := (r_one R).
  Notation installed := (r_installed R).
  Notation parse_ontology := (parse_ontology num text len lval ltrue lone pick installed b own es).
  Notation types_loop := (types_loop num text len ltrue pick b own es).
  Notation Loops := (Loops num text len ltrue pick b own es g0).
  Notation RefTo := (RefTo num text len ltrue pick b own es g0).
  Notation pKind := (YmlProofs.Kind num text len ltrue pick b own es g0).
  Notation pT0 := (T0 num text len ltrue pick b own es g0).
  Notation Conds := (Conds num text len ltrue pick installed b own es g0).

  Definition text_num := proj1 HR.
  Definition pick_ok := proj2 HR.

  Lemma own_named x i : Named R b g0 own x i <-> i = ownI x.
  Proof. rewrite named, own_candidate by apply own_style. naive_solver. Qed.
  Lemma elem_some x f : (x, f) ∈ es -> is_Some (D !! x).
  Proof. intros H. exists f. by apply D_elem. Qed.
  Lemma is_attribute a : IsAttribute R b g0 own D a <-> IsAttr num text len ltrue pick b own es g0 a.
  Proof.
    unfold IsAttribute, IsAttr. split; (intros [H|H]; [by left|right]).
    - destruct H as (x & [f Hf] & Hn & Ht). exists x, f. apply own_named in Hn. split; [by apply D_elem|].
      split; [done|]. by apply has_type in Ht; [|by exists f].
    - destruct H as (x & f & Hf & -> & Ht). exists x. split; [by eapply elem_some|]. split; [by apply own_named|].
      apply has_type; [by eapply elem_some|done].
  Qed.

  Lemma loops_sound fuel x f : (x, f) ∈ es -> Loops fuel x ->
    Acc (fun a b => E own es b a) (own, x) /\
    forall q, rtc (E own es) (own, x) q -> node_ok num text len ltrue pick b own es g0 q.
  Proof.
    intros Hx [T' HT].
    edestruct (types_loop_sound num text len ltrue pick installed b own es g0 text_num pick_ok g0_text
      es_nodup es_names own_ends apart own_style label_apart es_supers fuel g0 [(own, x)] ∅ T') as [_ H].
    - by apply ext_g0.
    - constructor; [|constructor]. apply own_wf'. by eapply elem_some.
    - exact HT.
    - apply H. constructor.
  Qed.
  Lemma loops_complete x f : (x, f) ∈ es ->
    Acc (fun a b => E own es b a) (own, x) ->
    (forall q, rtc (E own es) (own, x) q -> node_ok num text len ltrue pick b own es g0 q) ->
    exists k, forall fuel, (k <= fuel)%nat -> Loops fuel x.
  Proof.
    intros Hx HA Hok.
    destruct (types_loop_complete num text len ltrue lone pick installed b own es g0 text_num pick_ok g0_text
      es_nodup es_names own_ends apart own_style label_apart es_supers (own, x) HA) as [k Hk].
    - apply own_wf'. by eapply elem_some.
    - exact Hok.
    - exists (S k). intros fuel Hf.
      replace fuel with (k + (fuel - k))%nat by lia.
      destruct (Hk (fuel - k)%nat g0 [] ∅) as [T' E]; [by apply ext_g0|].
      exists T'. etransitivity; [exact E|]. by destruct (fuel - k)%nat.
  Qed.
  Lemma resolved x : is_Some (D !! x) -> Resolved R b g0 own D x <->
    forall q, rtc (E own es) (own, x) q -> node_ok num text len ltrue pick b own es g0 q.
  Proof.
    intros Hx. unfold Resolved, Ancestor, node_ok. split; intros H q Hq.
    - destruct (H q) as [[i Hi] Ho]; [by apply super_rtc|]. split.
      + exists i. apply refers_node; [by eapply anc_wf|done].
      + intros Eo. destruct (Ho Eo) as [f Hf]. exists f. by apply D_elem.
    - apply super_rtc in Hq. destruct (H q Hq) as [[i Hi] Ho]. split.
      + exists i. apply refers_node; [by eapply anc_wf|done].
      + intros Eo. destruct (Ho Eo) as [f Hf]. by eapply elem_some.
  Qed.
  (** a superclass reference leads to a reachable node *)
  Lemma super_refers x f w : (x, f) ∈ es -> w ∈ f_supers f ->
    (forall q, rtc (E own es) (own, x) q -> node_ok num text len ltrue pick b own es g0 q) -> exists j, RefTo w j.
  Proof.
    intros Hx Hw Hok. destruct (es_supers x f w Hx Hw) as (q & Es & Hq).
    destruct (Hok q) as [[j Hj] _].
    { apply rtc_once. split; [done|]. by exists f, w. }
    exists j. unfold YmlProofs.RefTo, Yml.ref_iri. rewrite Es. destruct q. exact Hj.
  Qed.

  (** ** Default relationships *)
  Lemma count_one (P : str * fields -> Prop) {dP : forall e, Decision (P e)} (l : list (str * fields)) :
    base.NoDup (map fst l) ->
    (List.length (filter P l) <= 1)%nat <->
    forall x f y f', (x, f) ∈ l -> (y, f') ∈ l -> P (x, f) -> P (y, f') -> x = y.
  Proof.
    intros Hnd. split.
    - intros Hlen x f y f' Hx Hy Px Py.
      assert (Hx' : (x, f) ∈ filter P l) by by apply elem_of_list_filter.
      assert (Hy' : (y, f') ∈ filter P l) by by apply elem_of_list_filter.
      destruct (filter P l) as [|e [|e' r]]; [by apply elem_of_nil in Hx'| |cbn in Hlen; lia].
      apply elem_of_list_singleton in Hx'. apply elem_of_list_singleton in Hy'. congruence.
    - intros H. assert (Hnd' : base.NoDup (map fst (filter P l))).
      { clear -Hnd. induction l as [|e l IH]; [constructor|]. cbn in Hnd. apply stdpp.list.NoDup_cons in Hnd as [Hn Hl].
        rewrite filter_cons. destruct (decide (P e)); [|by apply IH]. cbn. apply stdpp.list.NoDup_cons. split; [|by apply IH].
        intros Hin. apply Hn. apply elem_of_list_In, in_map_iff in Hin as (e' & Ee & Hin).
        apply elem_of_list_In, elem_of_list_filter in Hin as [_ Hin].
        apply elem_of_list_In, in_map_iff. exists e'. split; [done|]. by apply elem_of_list_In. }
      destruct (filter P l) as [|[x f] [|[y f'] r]] eqn:Ef; cbn; [lia|lia|]. exfalso.
      assert (Hx : (x, f) ∈ filter P l) by (rewrite Ef; constructor).
      assert (Hy : (y, f') ∈ filter P l) by (rewrite Ef; constructor; constructor).
      apply elem_of_list_filter in Hx as [Px Hx]. apply elem_of_list_filter in Hy as [Py Hy].
      rewrite (H x f y f' Hx Hy Px Py) in Hnd'. cbn in Hnd'. apply stdpp.list.NoDup_cons in Hnd' as [Hn _].
      apply Hn. constructor.
  Qed.
  Lemma one_default d : OneDefault D d <-> Count es d.
  Proof.
    unfold OneDefault, Count.
    set (P := fun e : str * fields => is_Some (get "default_rel" (snd e))).
    assert (Ec : default_rels es d = (List.length (filter P es) +
       match get "default_rel" d with Some _ => 1 | None => 0 end)%nat).
    { unfold default_rels. f_equal. }
    rewrite Ec. clear Ec.
    assert (HP : forall x f, D !! x = Some f <-> (x, f) ∈ es) by apply D_elem.
    pose proof (count_one P es es_nodup) as HC.
    destruct (get "default_rel" d) as [v|] eqn:Ed.
    - split.
      + intros [H1 H2]. assert (Ef : filter P es = []).
        { destruct (filter P es) as [|[x f] r] eqn:Ef; [done|]. exfalso.
          assert (Hx : (x, f) ∈ filter P es) by (rewrite Ef; constructor).
          apply elem_of_list_filter in Hx as [Px Hx]. apply HP in Hx. discriminate (H2 x f Hx Px). }
        rewrite Ef. cbn. lia.
      + intros Hlen. assert (Ef : filter P es = []) by (apply nil_length_inv; lia).
        assert (HN : forall x f, D !! x = Some f -> is_Some (get "default_rel" f) -> False).
        { intros x f Hx Px. apply HP in Hx. assert (Hin : (x, f) ∈ filter P es) by by apply elem_of_list_filter.
          rewrite Ef in Hin. by apply elem_of_nil in Hin. }
        split; [intros x f y f' Hx _ Px _; exfalso; by eapply HN|]. intros x f Hx Px. exfalso. by eapply HN.
    - rewrite Nat.add_0_r, HC. split.
      + intros [H _] x f y f' Hx Hy Px Py. apply HP in Hx, Hy. by apply (H x f y f').
      + intros H. split; [|done]. intros x f y f' Hx Hy Px Py. apply HP in Hx, Hy. by apply (H x f y f').
  Qed.
  Lemma default_rel w i : wf_ref w ->
    DefaultRel R b g0 own D w i <-> DocRel num text len ltrue pick installed b own es g0 w i.
  Proof.
    intros ([ns n] & Es & Hw). unfold DefaultRel, DocRel.
    apply split_reference in Es as (a & -> & -> & Ha & Hn). destruct Hw as (Hl & Hne & Hnn & Hc). cbn in *.
    assert (Hane : a <> []) by (intros ->; done).
    assert (Es : split_on 46 (a ++ lit "." ++ n) = [a; n]) by by apply split_on_two.
    assert (Eg : get_iri g0 a n = get_iri g0 (lower a) n).
    { unfold Yml.get_iri. destruct n as [|c n]; [done|].
      assert (E1 : match a with [] => own | _ => a end = a) by by destruct a.
      assert (E2 : match lower a with [] => own | _ => lower a end = lower a) by by destruct (lower a).
      by rewrite E1, E2, lower_idem. }
    split.
    - intros (a' & n' & Ew & Ha' & Hn' & Hi & Hr).
      assert (Es' : split_on 46 (a ++ lit "." ++ n) = [a'; n']) by (apply split_on_two; done).
      rewrite Es in Es'. injection Es' as <- <-. exists a, n. split; [done|]. split; [done|].
      rewrite Eg. by apply refers.
    - intros (a' & n' & Es' & Hi & Hr). pose proof (eq_trans (eq_sym Es) Es') as Es2. injection Es2 as <- <-.
      exists a, n. repeat (split; [done|]). apply refers; [done|done|done|]. by rewrite <- Eg.
  Qed.

  (** ** Conditions *)
  Section Conditions.
    Variable d : fields.
    Hypothesis d_default : forall w, f_str "default_rel" d = Some w -> wf_ref w.

    Lemma conds_sound fuel : Conds fuel d -> Accepts R b g0 own D d /\ ~ Cyclic own D.
    Proof.
      intros (H1 & Hc & Hd & H2 & H3). split; [split; [|split]|].
      - intros x f Hx. pose proof Hx as Hs. apply D_elem in Hx.
        destruct (H1 _ Hx) as [(HL & _ & _) (k & Hk & Hv)]. cbn in *.
        assert (Hsome : is_Some (D !! x)) by by exists f.
        split.
        + apply resolved; [done|]. by apply (loops_sound fuel x f).
        + exists k. split; [by apply kind|]. split; [apply valid_keys; [by eapply es_entity|done]|].
          pose proof (H2 x f k Hx Hk) as HC2. destruct k; cbn in HC2.
          * intros w v Hw. destruct (H3 x f w v Hx Hk Hw) as (a & Ha & Hi). exists a. split.
            -- apply refers_to; [by eapply es_attributes|done].
            -- by apply is_attribute.
          * intros w Hw. destruct (HC2 w Hw) as [j Hj]. exists j. apply refers_to; [by eapply es_inverse|done].
          * exact HC2.
      - by apply one_default.
      - intros w Hw. destruct (Hd w Hw) as [j Hj]. exists j. by apply default_rel; [apply d_default|].
      - apply acc_acyclic. intros x f Hx. destruct (H1 _ Hx) as [(HL & _) _]. by apply (loops_sound fuel x f).
    Qed.
    (** all but the loops *)
    Lemma accepts_conds fuel : Accepts R b g0 own D d -> (forall x f, (x, f) ∈ es -> Loops fuel x) -> Conds fuel d.
    Proof.
      intros (H1 & Hc & Hd) HL.
      assert (HK : forall x f k, (x, f) ∈ es -> pKind x k -> Kind R b g0 own D x k).
      { intros x f k Hx Hk. apply kind; [by eapply elem_some|done]. }
      assert (HE : forall x f, (x, f) ∈ es -> EntityOk R b g0 own D x f).
      { intros x f Hx. apply H1. by apply D_elem. }
      assert (HU : forall x f k k', (x, f) ∈ es -> pKind x k -> Kind R b g0 own D x k' -> k = k').
      { intros x f k k' Hx Hk Hk'. apply kind in Hk'; [|by eapply elem_some].
        by eapply (kind_fun num text len ltrue pick installed b own es g0). }
      split; [|split; [|split; [|split]]].
      - intros [x f] Hx. cbn. destruct (HE x f Hx) as [HR' (k & Hk & Hkeys & _)].
        pose proof (proj1 (resolved x (elem_some x f Hx)) HR') as HR2. apply kind in Hk; [|by eapply elem_some].
        split; [split; [by eapply HL|split]|].
        + destruct k; cbn in Hk; naive_solver.
        + intros w Hw. by eapply super_refers.
        + exists k. split; [done|]. apply valid_keys; [by eapply es_entity|done].
      - by apply one_default.
      - intros w Hw. destruct (Hd w Hw) as [j Hj]. exists j. by apply default_rel; [apply d_default|].
      - intros x f k Hx Hk. destruct (HE x f Hx) as [_ (k' & Hk' & _ & Hm)].
        rewrite <- (HU x f k k' Hx Hk Hk') in Hm. destruct k; cbn; [done| |exact Hm].
        intros w Hw. destruct (Hm w Hw) as [j Hj]. exists j. by apply refers_to in Hj; [|by eapply es_inverse].
      - intros x f w v Hx Hk Hw. destruct (HE x f Hx) as [_ (k' & Hk' & _ & Hm)].
        rewrite <- (HU x f KClass k' Hx Hk Hk') in Hm. destruct (Hm w v Hw) as (a & Ha & Hi).
        exists a. split; [by apply refers_to in Ha; [|by eapply es_attributes]|by apply is_attribute].
    Qed.
    Lemma loops_all (l : list (str * fields)) : (forall x f, (x, f) ∈ l -> (x, f) ∈ es /\
        forall q, rtc (E own es) (own, x) q -> node_ok num text len ltrue pick b own es g0 q) -> ~ Cyclic own D ->
      exists k, forall fuel, (k <= fuel)%nat -> forall x f, (x, f) ∈ l -> Loops fuel x.
    Proof.
      intros Hl Hc. induction l as [|[x f] l IH].
      { exists 0%nat. intros fuel _ x f Hx. by apply elem_of_nil in Hx. }
      destruct IH as [k Hk]; [intros y fy Hy; apply Hl; by constructor|].
      destruct (Hl x f) as [Hx Hok]; [constructor|].
      destruct (loops_complete x f Hx (acyclic_acc Hc _) Hok) as [k' Hk'].
      exists (k `max` k')%nat. intros fuel Hf y fy [[= -> ->]|Hy]%elem_of_cons; [apply Hk'; lia|].
      eapply Hk; [lia|done].
    Qed.
    Lemma conds_complete : Accepts R b g0 own D d -> ~ Cyclic own D ->
      exists k, forall fuel, (k <= fuel)%nat -> Conds fuel d.
    Proof.
      intros HA Hc. destruct (loops_all es) as [k Hk]; [|done|].
      - intros x f Hx. split; [done|]. apply resolved; [by eapply elem_some|]. 
        destruct HA as [HA _]. destruct (HA x f) as [Hr _]; [by apply D_elem|done].
      - exists k. intros fuel Hf. apply accepts_conds; [done|]. intros x f Hx. by eapply Hk.
    Qed.

    (** ** Triples *)
    Lemma superp_iff x f p k : (x, f) ∈ es -> Kind R b g0 own D x k ->
      superp num text len ltrue pick b own es g0 x p <->
      p = match k with KClass => p_subClassOf | _ => p_subPropertyOf end.
    Proof.
      intros Hx Hk. apply kind in Hk; [|by eapply elem_some]. unfold superp.
      destruct k; cbn in Hk; naive_solver.
    Qed.
    Definition slot_of (e : aentry) : slot :=
      Slot (ownI (ae_class e)) (ae_attr e) (ae_dflt e) (ae_b1 e) (ae_b2 e).
    Lemma slot_says e t : SlotSays R (slot_of e) t <-> AttrTr num lval lone b own e t.
    Proof.
      unfold AttrTr. split.
      - destruct 1; cbn; naive_solver.
      - intros H. repeat (destruct H as [->|H]; [by constructor|]).
        destruct H as (v & Hv & H). repeat (destruct H as [->|H]; [by econstructor|]). subst. by eapply (SS_value R (slot_of e)).
    Qed.
    Lemma nsiri_own n : NsIri b own n <-> n = ns_iri own.
    Proof. apply nsiri. Qed.

    Lemma says m t : Accepts R b g0 own D d ->
      SaysTr num text len lval ltrue lone pick installed b own es g0 d m t <->
      Says R b g0 own D d t \/ exists e, e ∈ map slot_of m /\ SlotSays R e t.
    Proof.
      intros HA. unfold SaysTr.
      assert (HM : AttrsTr num lval lone b own m t <-> exists e, e ∈ map slot_of m /\ SlotSays R e t).
      { unfold AttrsTr. split.
        - intros (e & He & Ht). exists (slot_of e). split; [|by apply slot_says].
          apply elem_of_list_In, in_map. by apply elem_of_list_In.
        - intros (e & He & Ht). apply elem_of_list_In, in_map_iff in He as (e' & <- & He).
          exists e'. split; [by apply elem_of_list_In|by apply slot_says]. }
      rewrite <- HM. clear HM.
      assert (HS : forall x f, (x, f) ∈ es -> is_Some (D !! x)) by (intros; by eapply elem_some).
      assert (HD : forall x f, (x, f) ∈ es -> D !! x = Some f) by (intros; by apply D_elem).
      assert (HN : forall x, Named R b g0 own x (ownI x)) by (intros; by apply own_named).
      split.
      - intros [(x & f & Hx & Ht)|[(w & j & Hw & Hj & ->)|[(x & f & k & Hx & Hk & Ht)|?]]]; [left|left|left|by right].
        + destruct Ht as [(t' & Ht & ->)|[->|[(c & Hc & ->)|(w & p & j & Hw & Hp & Hj & ->)]]].
          * eapply Says_description; eauto.
          * eapply Says_label; eauto.
          * eapply Says_type; eauto. apply has_type; eauto.
          * destruct HA as [HA _]. destruct (HA x f) as [_ (k & Hk & _)]; [eauto|].
            apply (superp_iff x f p k) in Hp; [|done|done]. subst p.
            eapply Says_super; eauto. apply refers_to; [by eapply es_supers|done].
        + eapply Says_default_doc; eauto; [apply default_rel; eauto|by apply nsiri].
        + assert (Hk' : Kind R b g0 own D x k) by (apply kind; eauto).
          destruct k; cbn in Ht; [done| |].
          * destruct Ht as [(w & j & Hw & Hj & ->)|[Hf ->]].
            -- eapply Says_inverse; eauto. apply refers_to; [by eapply es_inverse|done].
            -- eapply Says_default; eauto. by apply nsiri.
          * destruct Ht as (w & dt & Hw & Hdt & [->|[Hc ->]]).
            -- eapply Says_range; eauto.
            -- eapply Says_datatype; eauto. by apply orb_true_iff.
      - assert (HP : forall x f k, D !! x = Some f -> Kind R b g0 own D x k -> (x, f) ∈ es /\ pKind x k).
        { intros x f k Hx Hk. split; [by apply D_elem|]. apply kind in Hk; [done|by exists f]. }
        intros [Hs|?]; [|by do 3 right].
        destruct Hs as [x i [f Hx] Hi|x f i t' Hx Hi Ht|x i t' [f Hx] Hi Ht|x f i w j k Hx Hi Hw Hj Hk
                       |x f i w j Hx Hi Hk Hw Hj|x f i n Hx Hi Hk Hn Hf|w j n Hw Hj Hn|x f i w dt Hx Hi Hk Hw Hdt
                       |x f w dt Hx Hk Hw Hdt Hc].
        all: try (apply own_named in Hi; subst i).
        all: try (apply nsiri in Hn; subst n).
        + left. exists x, f. split; [by apply D_elem|]. right. by left.
        + left. exists x, f. split; [by apply D_elem|]. left. by exists t'.
        + left. exists x, f. split; [by apply D_elem|]. right. right. left. exists t'. split; [|done].
          apply has_type in Ht; [done|by exists f].
        + left. pose proof Hx as Hx'. apply D_elem in Hx'. exists x, f. split; [done|]. do 3 right.
          eexists w, _, j. split; [done|]. split; [by eapply superp_iff|].
          split; [apply refers_to in Hj; [done|by eapply es_supers]|done].
        + destruct (HP x f KRel Hx Hk) as [Hx' Hk']. right. right. left. exists x, f, KRel.
          split; [done|]. split; [done|]. left. exists w, j. split; [done|].
          split; [apply refers_to in Hj; [done|by eapply es_inverse]|done].
        + destruct (HP x f KRel Hx Hk) as [Hx' Hk']. right. right. left. exists x, f, KRel.
          split; [done|]. split; [done|]. right. done.
        + right. left. exists w, j. split; [done|]. split; [by apply default_rel in Hj; [|apply d_default]|done].
        + destruct (HP x f KAttr Hx Hk) as [Hx' Hk']. right. right. left. exists x, f, KAttr.
          split; [done|]. split; [done|]. exists w, dt. split; [done|]. split; [done|]. by left.
        + destruct (HP x f KAttr Hx Hk) as [Hx' Hk']. right. right. left. exists x, f, KAttr.
          split; [done|]. split; [done|]. exists w, dt. split; [done|]. split; [done|]. right.
          split; [by apply orb_true_iff|done].
    Qed.
  End Conditions.

  (** ** Attributes *)
  Hypothesis es_attrs_nodup : forall x f, (x, f) ∈ es -> base.NoDup (map fst (f_attributes f)).
  Definition triple_of (p : str * (str * option yaml)) : str * str * option yaml := (p.1, p.2.1, p.2.2).
  Lemma flat_elem (l : list (str * fields)) ks x w v :
    Forall2 (fun (e : str * fields) k => pKind e.1 k) l ks ->
    (x, (w, v)) ∈ flat (combine l ks) <-> exists f, (x, f) ∈ l /\ pKind x KClass /\ (w, v) ∈ f_attributes f.
  Proof.
    intros H. unfold flat. rewrite elem_of_list_join. split.
    - intros (r & Hr & Hin). apply elem_of_list_In, in_map_iff in Hin as ([[x' f] k] & <- & Hin).
      apply elem_of_list_In in Hin.
      apply (combine_kind_list num text len ltrue pick installed b own es g0) in Hin as [Hx Hk]; [|done].
      destruct k; [|by apply elem_of_nil in Hr|by apply elem_of_nil in Hr].
      apply elem_of_list_In, in_map_iff in Hr as ([w' v'] & [= -> -> ->] & Hr).
      exists f. split; [done|]. split; [done|]. by apply elem_of_list_In.
    - intros (f & Hx & Hk & Hw). exists (map (fun wv => (x, wv)) (f_attributes f)). split.
      + apply elem_of_list_In, in_map_iff. exists (w, v). split; [done|]. by apply elem_of_list_In.
      + apply elem_of_list_In, in_map_iff. exists ((x, f), KClass). split; [done|]. apply elem_of_list_In.
        by apply (combine_kind_list num text len ltrue pick installed b own es g0).
  Qed.
  Lemma flat_nodup (l : list (str * fields)) ks : base.NoDup (map fst l) ->
    (forall x f, (x, f) ∈ l -> (x, f) ∈ es) ->
    Forall2 (fun (e : str * fields) k => pKind e.1 k) l ks -> base.NoDup (flat (combine l ks)).
  Proof.
    intros Hnd Hsub H. induction H as [|[x f] k l ks Hk HF IH]; [constructor|].
    cbn in Hnd. apply stdpp.list.NoDup_cons in Hnd as [Hn Hl].
    assert (IH' : base.NoDup (flat (combine l ks))).
    { apply IH; [done|]. intros y fy Hy. apply Hsub. by constructor. }
    change (flat (combine ((x, f) :: l) (k :: ks))) with
      (match k with KClass => map (fun wv => (x, wv)) (f_attributes f) | _ => [] end ++ flat (combine l ks)).
    destruct k; [|done|done]. apply NoDup_app. split; [|split; [|done]].
    - assert (Ha : base.NoDup (map fst (f_attributes f))) by (eapply es_attrs_nodup, Hsub; constructor).
      clear -Ha. induction (f_attributes f) as [|[w v] r IH]; [constructor|]. cbn in *.
      apply stdpp.list.NoDup_cons in Ha as [Hn Hr]. apply stdpp.list.NoDup_cons. split; [|by apply IH].
      intros Hin. apply Hn. apply elem_of_list_In, in_map_iff in Hin as ([w' v'] & [= -> ->] & Hin).
      apply elem_of_list_In, in_map_iff. by exists (w, v).
    - intros [x' [w v]] Hin Hin2. apply elem_of_list_In, in_map_iff in Hin as (wv & [= -> ->] & _).
      apply (flat_elem l ks) in Hin2 as (f' & Hx' & _); [|done].
      apply Hn. apply elem_of_list_In, in_map_iff. exists (x', f'). split; [done|]. by apply elem_of_list_In.
  Qed.
  Lemma slots m : Attributes_of num text len ltrue pick b own es g0 m -> Slots R b g0 own D (map slot_of m).
  Proof.
    intros (ks & HF & HM). exists (map triple_of (flat (combine es ks))). split; [|split].
    - assert (HI : Inj eq eq triple_of).
      { intros [x [w v]] [x' [w' v']] [= -> -> ->]. done. }
      apply (NoDup_fmap_2 triple_of). by apply flat_nodup.
    - intros x w v. split.
      + intros Hin. apply elem_of_list_In, in_map_iff in Hin as ([x' [w' v']] & [= -> -> ->] & Hin).
        apply elem_of_list_In in Hin. apply (flat_elem es ks) in Hin as (f & Hx & Hk & Hw); [|done].
        exists f. split; [by apply D_elem|]. split; [by apply kind; [eapply elem_some|]|done].
      + intros (f & Hx & Hk & Hw). apply elem_of_list_In, in_map_iff. exists (x, (w, v)). split; [done|].
        apply elem_of_list_In. apply flat_elem; [done|]. exists f. split; [by apply D_elem|].
        split; [by apply kind in Hk; [|by exists f]|done].
    - apply Forall2_fmap_l with (f := triple_of). apply Forall2_fmap_r.
      assert (HE : Forall (fun p : str * (str * option yaml) => wf_ref p.2.1) (flat (combine es ks))).
      { apply stdpp.list.Forall_forall. intros [x [w v]] Hin.
        apply (flat_elem es ks) in Hin as (f & Hx & _ & Hw); [|done]. by eapply es_attributes. }
      remember (flat (combine es ks)) as l0 eqn:El. clear El. induction HM as [|p e l m (H1 & H2 & H3) HM IH]; [constructor|].
      apply Forall_cons_1 in HE as [Hw HE]. constructor; [|by apply IH].
      cbn. rewrite <- H1. split; [by apply own_named|]. split; [by apply refers_to|done].
  Qed.
  (** ** The parser on the whole document *)
  Section Whole.
    Variable d : fields.
    Hypothesis d_default : forall w, f_str "default_rel" d = Some w -> wf_ref w.

    Lemma link_runs fuel s : p_graph s = g0 ->
      runs (parse_ontology fuel d) s (Conds fuel d)
        (fun s' _ => exists m, Inv num b own es g0 (SaysTr num text len lval ltrue lone pick installed b own es g0 d m) (p_next s') s' /\
           Attributes_of num text len ltrue pick b own es g0 m /\ Numbered (p_next s) m (p_next s')).
    Proof.
      intros Hg. apply runs_parse; try done.
      - apply HR.
      - apply HR.
      - apply own_ends.
      - apply apart.
      - apply own_style.
      - apply label_apart.
      - intros w ns m Hw Es. destruct (d_default w Hw) as ([a n] & E1 & _ & _ & _ & Hc).
        unfold split_name in E1. rewrite Es in E1. injection E1 as <- <-. exact Hc.
    Qed.

    Lemma link_sound fuel s s' : p_graph s = g0 -> parse_ontology fuel d s = (s', Ok tt) ->
      Accepts R b g0 own D d /\ ~ Cyclic own D /\
      exists m, Slots R b g0 own D m /\
        (forall t, t ∈ p_graph s' <-> t ∈ g0 \/ Says R b g0 own D d t \/ exists e, e ∈ m /\ SlotSays R e t) /\
        base.NoDup (mjoin (map nodes m)) /\ p_next s <= p_next s' /\
        (forall n, n ∈ mjoin (map nodes m) -> p_next s <= n < p_next s').
    Proof.
      intros Hg E1. destruct (link_runs fuel s Hg) as [(HC & s2 & y & E2 & m & HI & HA & Hn)|(_ & s2 & e & E2)];
        pose proof (eq_trans (eq_sym E1) E2) as E3; [injection E3 as <- _|discriminate E3].
      destruct (conds_sound d d_default fuel HC) as [Hacc Hcyc].
      split; [exact Hacc|]. split; [exact Hcyc|]. exists (map slot_of m). split; [by apply slots|].
      destruct HI as [HI _]. destruct Hn as (H1 & H2 & H3).
      assert (En : map nodes (map slot_of m) = map used m).
      { rewrite List.map_map. apply map_ext. by intros []. }
      rewrite En. split; [|done].
      intros t. rewrite HI. rewrite (says d d_default m t Hacc). done.
    Qed.

    Lemma link_complete : Accepts R b g0 own D d -> ~ Cyclic own D ->
      exists k, forall fuel s, (k <= fuel)%nat -> p_graph s = g0 -> exists s', parse_ontology fuel d s = (s', Ok tt).
    Proof.
      intros HA Hc. destruct (conds_complete d d_default HA Hc) as [k Hk]. exists k. intros fuel s Hf Hg.
      destruct (link_runs fuel s Hg) as [(_ & s2 & [] & E2 & _)|(Hn & _)]; [by exists s2|].
      exfalso. by apply Hn, Hk.
    Qed.

    Lemma link_hangs : Accepts R b g0 own D d -> Cyclic own D ->
      forall fuel s, p_graph s = g0 -> exists s', parse_ontology fuel d s = (s', Err OutOfFuel).
    Proof.
      intros HA Hc fuel s Hg. eapply parse_hangs; try done.
      - apply HR.
      - apply HR.
      - apply own_ends.
      - apply apart.
      - apply own_style.
      - apply label_apart.
      - intros [x f] Hx. destruct HA as (H1 & _). destruct (H1 x f) as [Hr (k & Hk & Hkeys & _)]; [by apply D_elem|].
        pose proof (proj1 (resolved x (elem_some x f Hx)) Hr) as HR2. apply kind in Hk; [|by eapply elem_some].
        split; [exact HR2|]. split; [|split]; cbn.
        + destruct k; cbn in Hk; naive_solver.
        + intros w Hw. by eapply super_refers.
        + exists k. split; [exact Hk|]. apply valid_keys; [by eapply es_entity|done].
      - intros HL. assert (HC : Conds fuel d) by (apply accepts_conds; [done|done|]; intros x f Hx; by apply (HL (x, f))).
        apply (conds_sound d d_default) in HC as [_ Hn]. done.
    Qed.
  End Whole.
End Link.
