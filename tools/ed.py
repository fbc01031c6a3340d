p='PropNamespace.v';s=open(p).read()
s=s.replace("""    \\/ exists t l, pref_label (r_graph r) iri = Ok t /\\ In (iri, PPrefLabel, OLit t l) (r_graph r)) ->
  exists e, from_iri r allow iri name = Ok e.""","""    \\/ ((exists o, In (iri, PPrefLabel, o) (r_graph r)) /\\
        forall o, In (iri, PPrefLabel, o) (r_graph r) -> exists t l, o = OLit t l)) ->
  exists e, from_iri r allow iri name = Ok e.""")
s=s.replace("""destruct Hl as [Hl|[->|(t & l & Hl & _)]]; [congruence|eauto|].
    destruct (by_label r (snd (ns_of_iri r iri))); eauto. }""","""destruct Hl as [Hl|[->|[Hl Hlit]]]; [congruence|eauto|].
    destruct (pref_label_total (r_graph r) iri Hl Hlit) as [t Ht].
    destruct (by_label r (snd (ns_of_iri r iri))); eauto. }""")
s=s.replace("Theorem C43_from_iri_complete :",r'''Lemma pref_label_total g iri : (exists o, In (iri, PPrefLabel, o) g) ->
  (forall o, In (iri, PPrefLabel, o) g -> exists t l, o = OLit t l) -> exists t, pref_label g iri = Ok t.
Proof.
  induction g as [|[[s p] o] g IH]; [intros (o & []) _|]. intros Hex Hall.
  assert (Hg : (exists o', In (iri, PPrefLabel, o') g) -> exists t, pref_label g iri = Ok t).
  { intros Hx. apply IH; [exact Hx|]. intros o' Ho'. apply Hall. now right. }
  assert (Hskip : (s <> iri \/ p <> PPrefLabel) -> exists o', In (iri, PPrefLabel, o') g).
  { intros Hne. destruct Hex as (o' & [[= -> -> ->]|Ho']); [tauto | eauto]. }
  destruct p; cbn [pref_label]; try (apply Hg, Hskip; right; discriminate).
  destruct (str_eqb_spec s iri) as [->|Hne]; [|apply Hg, Hskip; now left].
  destruct (Hall o) as (t & l & ->); [now left|]. eauto.
Qed.
Lemma pref_label_sound g iri t : pref_label g iri = Ok t -> exists l, In (iri, PPrefLabel, OLit t l) g.
Proof.
  induction g as [|[[s p] o] g IH]; [discriminate|]. destruct p; cbn [pref_label];
    try (intros H; destruct (IH H) as (l & Hl); exists l; now right).
  destruct (str_eqb_spec s iri) as [->|Hne].
  - destruct o as [k|i|t' l|]; try discriminate. intros [= ->]. exists l. now left.
  - intros H. destruct (IH H) as (l & Hl). exists l. now right.
Qed.
(** In a namespace referenced by label the name of an entity is one of its labels. *)
Theorem C43_label_is_name : forall r allow iri e, from_iri r allow iri None = Ok e ->
  In (e_ns e, PRefByLabel, OTrue) (r_graph r) ->
  exists lang, In (iri, PPrefLabel, OLit (e_name e) lang) (r_graph r).
Proof.
  intros r allow iri e H HL. unfold from_iri in H. set (ns := snd (ns_of_iri r iri)) in *.
  destruct (by_label r ns) eqn:EB.
  - destruct (pref_label (r_graph r) iri) as [t|] eqn:E; [|discriminate].
    destruct (first_kind (r_graph r) allow iri); [|discriminate]. injection H as <-. cbn [e_name].
    now apply pref_label_sound.
  - destruct (first_kind (r_graph r) allow iri); [|discriminate]. injection H as <-. cbn [e_ns] in HL.
    assert (by_label r ns = true); [|congruence]. unfold by_label. apply existsb_exists.
    exists (ns, PRefByLabel, OTrue). split; [exact HL | apply str_eqb_refl].
Qed.
Theorem C43_from_iri_complete :''',1)
s=s.replace("(** C44, lookup: in an ontology that still uses",r'''(** Inverses are found of relationships only. *)
Theorem C43_inverse_of_relationship : forall r n name e,
  ns_get r n name = Ok (InverseOf e) -> e_kind e = Relationship.
Proof.
  intros r n name e.
  assert (HF : forall nm sfx e, get_forced r n nm sfx = Ok (InverseOf e) -> e_kind e = Relationship).
  { intros nm sfx e'. unfold get_forced. destruct (from_iri r all_kinds (n_iri n ++ sfx) (Some nm)) as [x|[]]; try discriminate.
    destruct (startswith inverse_prefix nm); [|discriminate].
    destruct (from_iri r all_kinds (n_iri n ++ sfx) (Some (after inverse_prefix nm))) as [y|]; [|discriminate].
    destruct (e_kind y) eqn:K; try discriminate. intros [= <-]. exact K. }
  assert (HI : forall label lang l e, get_item r n label lang = Ok l -> In (InverseOf e) l -> e_kind e = Relationship).
  { intros label lang l e' H Hin. unfold get_item in H.
    assert (HM : forall xs l', mapM (item_one r n label) xs = Ok l' -> In (InverseOf e') l' -> e_kind e' = Relationship).
    { induction xs as [|x xs IHx]; intros l' Hm Hi; cbn [mapM] in Hm; [injection Hm as <-; destruct Hi|].
      destruct (item_one r n label x) as [y|] eqn:Ey; [|discriminate]. destruct (mapM (item_one r n label) xs) as [ys|]; [|discriminate].
      injection Hm as <-. destruct Hi as [->|Hi]; [|now apply (IHx ys)].
      unfold item_one in Ey. destruct x; [destruct (n_by_label n); [discriminate|]|]; now apply HF in Ey. }
    destruct (mapM (item_one r n label) (labelled r n label lang)) as [[|y ys]|] eqn:Em; try discriminate. injection H as <-.
    now apply (HM _ _ Em). }
  assert (HD : forall retry cs a, (forall b e, retry b = Ok (InverseOf e) -> e_kind e = Relationship) ->
     forall e, do_get_with retry r n cs a = Ok (InverseOf e) -> e_kind e = Relationship).
  { intros retry cs a HR e' H. unfold do_get_with in H. destruct (n_by_label n).
    - destruct (get_item r n a (Some (lit "en"))) as [[|y l]|] eqn:Ei; try discriminate. injection H as ->.
      eapply HI; [exact Ei | now left].
    - destruct (from_iri r all_kinds (n_iri n ++ a) (Some a)) as [x|[]]; try discriminate. destruct cs; [discriminate|]. now apply HR in H. }
  assert (HG : forall retry cs a, (forall b e, retry b = Ok (InverseOf e) -> e_kind e = Relationship) ->
     forall e, get_with retry r n cs a = Ok (InverseOf e) -> e_kind e = Relationship).
  { intros retry cs a HR e' H. unfold get_with in H. destruct (do_get_with retry r n cs a) as [f|[]] eqn:Ed; try discriminate.
    - injection H as ->. eapply HD; [exact HR | exact Ed].
    - destruct (startswith inverse_prefix a); [|discriminate].
      destruct (do_get_with retry r n cs (after inverse_prefix a)) as [[y|y]|]; try discriminate.
      destruct (e_kind y) eqn:K; try discriminate. injection H as <-. exact K. }
  apply HG. intros b e' H. unfold get_case_insensitive in H. destruct (alt b (str_eqb (n_name n) (lit "cuba"))) as [[c|]|]; try discriminate.
  revert H. apply HG. discriminate.
Qed.

(** [get_entity("ns.name")] is the lookup of the name in the namespace; anything without exactly
    one dot is a ValueError. *)
Theorem C43_get_entity : forall r,
  (forall ns name, ~ In dot ns -> ~ In dot name ->
     (forall n, get_ns r ns = Ok n -> get_entity r (ns ++ [dot] ++ name) = ns_get r n name)
     /\ (forall e, get_ns r ns = Err e -> get_entity r (ns ++ [dot] ++ name) = Err e))
  /\ (forall text, (forall ns name, ~ In dot ns -> ~ In dot name -> text <> ns ++ [dot] ++ name) ->
        get_entity r text = Err ValueError).
Proof.
  intros r. split.
  - intros ns name H1 H2. unfold get_entity. cbn [app]. rewrite split_on_app by exact H1. rewrite split_on_nosep by exact H2.
    split; intros x ->; reflexivity.
  - intros text H. unfold get_entity. pose proof (join_split dot text) as J. pose proof (split_on_no_sep_inside dot text) as F.
    destruct (split_on dot text) as [|a [|b [|c l]]]; try reflexivity. exfalso.
    inversion_clear F as [|? ? Fa F']. inversion_clear F' as [|? ? Fb _]. apply (H a b Fa Fb). symmetry. exact J.
Qed.

(** C44, lookup: in an ontology that still uses''',1)
s=s.replace("(** A line break or tab in a name or IRI breaks the file. *)",r'''(** The last line counts also without a line break. *)
Theorem C43_load_unterminated : forall text c r, c <> newline -> c <> cr ->
  load_namespaces (text ++ [c]) r = load_namespaces (text ++ [c; newline]) r.
Proof.
  intros text c r Hn Hc. unfold load_namespaces, lines. f_equal.
  assert (H : forall k text cur, List.length text <= k -> lines_aux cur (text ++ [c]) = lines_aux cur (text ++ [c; newline])).
  { induction k as [|k IH]; intros t cur Hk.
    - destruct t; [|cbn in Hk; lia]. cbn. rewrite (proj2 (N.eqb_neq _ _) Hn), (proj2 (N.eqb_neq _ _) Hc). cbn.
      destruct (rev cur ++ [c]) as [|x l] eqn:E; [now apply app_eq_nil in E as [_ [=]] | reflexivity].
    - destruct t as [|x t]; [apply IH; cbn; lia|]. cbn [app lines_aux]. cbn in Hk.
      destruct (x =? newline)%N; [f_equal; apply IH; lia|].
      destruct (x =? cr)%N; [|apply IH; lia]. f_equal.
      destruct t as [|y t]; cbn [app].
      + rewrite (proj2 (N.eqb_neq _ _) Hn). apply (IH [] []). cbn. lia.
      + cbn in Hk. destruct (y =? newline)%N; [apply IH; lia|]. apply (IH (y :: t) []). cbn. lia. }
  now rewrite (H _ text [] (le_n _)).
Qed.
(** After loading, every bound name finds its namespace (unless names differ in case only). *)
Theorem C43_loaded_found : forall text r r' n i, load_namespaces text r = Ok r' ->
  NoDup (map (fun nb => lower (fst nb)) (st_ns (r_store r'))) -> In (n, i) (st_ns (r_store r')) ->
  get_ns r' n = Ok (Ns (lower n) i (by_label r' i)).
Proof.
  intros text r r' n i H HN Hin. unfold load_namespaces in H. destruct (load_lines (lines text) (r_store r)) as [st|]; [|discriminate].
  injection H as <-. apply C43_namespace_found; [|exact Hin]. now apply C43_update_namespaces.
Qed.

(** A line break or tab in a name or IRI breaks the file. *)''',1)
s=s.rstrip('\n')+"\nPrint Assumptions C43_label_is_name.\nPrint Assumptions C43_inverse_of_relationship.\nPrint Assumptions C43_get_entity.\nPrint Assumptions C43_load_unterminated.\nPrint Assumptions C43_loaded_found.\n"
open(p,'w').write(s)
