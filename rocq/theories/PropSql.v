(** C32: the relational tables are a faithful triple store. *)
From stdpp Require Import base list.
From Verif Require Import Prelude Sql.
Local Open Scope N_scope.

Section Spec.
  Context {E D V : Type}.
  Notation striple := (striple E D V).
  Notation spattern := (spattern E D V).

  (** ** Specification: a set of triples *)
  Definition matches (pat : spattern) (t : striple) : Prop :=
    let '(s, p, o) := pat in
    let '(u, e, x) := t in
    (s = None \/ s = Some u) /\ (p = None \/ p = Some e) /\ (o = None \/ o = Some x).

  Inductive sop :=
  | OAdd (ts : list striple)        (* _add *)
  | ORemove (pat : spattern)        (* _remove *)
  | OQuery (pat : spattern)         (* _triples *)
  | OLoad (u : N)                   (* _load_triples_for_iri *)
  | OReopen (tabs : list D).        (* a new session on the same database *)

  Definition sop_spec (S : striple -> Prop) (o : sop) : striple -> Prop := fun t =>
    match o with
    | OAdd ts => S t \/ t ∈ ts
    | ORemove pat => S t /\ ~ matches pat t
    | _ => S t
    end.
  Definition after (l : list sop) : striple -> Prop := foldl sop_spec (fun _ => False) l.
  Definition tables_after (l : list sop) (d : D) : Prop := exists tabs, OReopen tabs ∈ l /\ d ∈ tabs.
End Spec.

Section Proofs.
  Context {E NS NM D V W : Type}.
  Context `{EqDecision E} `{EqDecision NS} `{EqDecision NM} `{EqDecision D} `{EqDecision V} `{EqDecision W}.
  Notation node := (node E D V).
  Notation striple := (striple E D V).
  Notation spattern := (spattern E D V).
  Notation table := (table D).
  Notation sdb := (sdb NS NM D W).
  Notation sess := (sess NS NM D W).
  Notation cond := (@Sql.cond NM W).
  Context (rdf_type : E) (xsd_string : D).
  Context (split : E -> NS * NM) (join : NS -> NM -> E).
  Context (kind : E -> option (pkind D)).
  Context (wr : D -> V -> option W) (rd : D -> W -> V).
  Context (fresh : list N -> N) (order : list table -> list table).

  (** The IRI is its namespace followed by its name; the generated keys are new; the
      set of tables is iterated in any order. *)
  Context (Hsplit : forall e, join (fst (split e)) (snd (split e)) = e).
  Context (Hfresh : forall l, fresh l ∉ l).
  Context (Horder : forall l t, t ∈ order l <-> t ∈ l).

  (** The value survives the column. *)
  Definition good (d : D) (v : V) : Prop := exists w, wr d v = Some w /\ rd d w = v.

  (** What can be stored: a link, a class, or a literal whose datatype has a table. *)
  Definition storable (T : D -> Prop) (t : striple) : Prop :=
    match t with
    | (_, p, NCuds _) => p <> rdf_type
    | (_, p, NEnt _) => p = rdf_type
    | (_, p, NLit v (Some d)) => p <> rdf_type /\ T d /\ good d v
    | (_, _, NLit _ None) => False
    end.

  Definition fits (T : D -> Prop) (k : pkind D) (o : node) : Prop :=
    match k with
    | PRel => exists u, o = NCuds u
    | PAttr d => T (default xsd_string d) /\ exists v, o = NLit v (Some (default xsd_string d))
    end.
  (** Patterns from which the table can be told: with a predicate and no object the
      stored objects are of the predicate's kind. *)
  Definition pat_ok (T : D -> Prop) (S : striple -> Prop) (pat : spattern) : Prop :=
    match pat with
    | (_, None, None) => True
    | (_, Some p, None) => p = rdf_type \/
        exists k, kind p = Some k /\ (forall u o, S (u, p, o) -> fits T k o) /\
                  (forall d, k = PAttr d -> T (default xsd_string d))
    | (_, _, Some (NCuds _)) => True
    | (_, p, Some (NEnt _)) => p = None \/ p = Some rdf_type
    | (_, _, Some (NLit v (Some d))) => T d /\ good d v
    | (_, _, Some (NLit _ None)) => False
    end.

  (** ** Invariant *)
  Definition ent_is (db : sdb) (i : N) (e : E) : Prop :=
    exists n, (i, (n, snd (split e))) ∈ t_ents db /\ (n, fst (split e)) ∈ t_ns db.
  Definition stored (db : sdb) (t : striple) : Prop :=
    let '(u, p, o) := t in
    exists si, (si, u) ∈ t_cuds db /\
    match o with
    | NCuds u' => exists pi oi, ent_is db pi p /\ (oi, u') ∈ t_cuds db /\ (si, pi, oi) ∈ t_rels db
    | NEnt e => p = rdf_type /\ exists oi, ent_is db oi e /\ (si, oi) ∈ t_types db
    | NLit v (Some d) => exists pi w, ent_is db pi p /\ (si, pi, w) ∈ data_rows d (t_data db) /\ rd d w = v
    | NLit v None => False
    end.

  Definition functional {A B} (l : list (A * B)) : Prop :=
    (forall i a b, (i, a) ∈ l -> (i, b) ∈ l -> a = b) /\ (forall i j a, (i, a) ∈ l -> (j, a) ∈ l -> i = j).
  Record wf (db : sdb) : Prop := {
    wf_cuds : functional (t_cuds db);
    wf_ents : functional (t_ents db);
    wf_ns : functional (t_ns db);
    wf_data : NoDup (t_data db).*1;
    wf_ent : forall i x, (i, x) ∈ t_ents db -> exists e, ent_is db i e;
    wf_types : forall s o, (s, o) ∈ t_types db -> s ∈ (t_cuds db).*1 /\ o ∈ (t_ents db).*1;
    wf_rels : forall s p o, (s, p, o) ∈ t_rels db -> s ∈ (t_cuds db).*1 /\ p ∈ (t_ents db).*1 /\ o ∈ (t_cuds db).*1;
    wf_rows : forall d s p w, (s, p, w) ∈ data_rows d (t_data db) ->
      s ∈ (t_cuds db).*1 /\ p ∈ (t_ents db).*1 /\ wr d (rd d w) = Some w }.
  Definition wfs (s : sess) : Prop := wf (s_db s) /\ s_cache s = t_ns (s_db s).
  Definition inv (T : D -> Prop) (S : striple -> Prop) (s : sess) : Prop :=
    wfs s /\ (forall t, stored (s_db s) t <-> S t) /\ (forall d, T d <-> d ∈ (t_data (s_db s)).*1).

  (** Only index rows were added. *)
  Definition ext (a b : sdb) : Prop :=
    t_types a = t_types b /\ t_rels a = t_rels b /\ t_data a = t_data b /\
    t_cuds a ⊆ t_cuds b /\ t_ents a ⊆ t_ents b /\ t_ns a ⊆ t_ns b.
  Lemma ext_refl a : ext a a.
  Proof. repeat split; done. Qed.
  Lemma ext_trans a b c : ext a b -> ext b c -> ext a c.
  Proof.
    intros (A1 & A2 & A3 & A4 & A5 & A6) (B1 & B2 & B3 & B4 & B5 & B6).
    repeat split; try congruence; by etrans.
  Qed.
  Lemma ext_ent a b i e : ext a b -> ent_is a i e -> ent_is b i e.
  Proof. intros (_ & _ & _ & _ & H5 & H6) (n & H1 & H2). exists n. split; [by apply H5|by apply H6]. Qed.

  Lemma ent_fun db i e e' : wf db -> ent_is db i e -> ent_is db i e' -> e = e'.
  Proof.
    intros Hw (n & H1 & H2) (n' & H3 & H4). pose proof (proj1 (wf_ents db Hw) _ _ _ H1 H3) as [= -> Hn].
    pose proof (proj1 (wf_ns db Hw) _ _ _ H2 H4) as Hm. rewrite <- (Hsplit e), <- (Hsplit e'). congruence.
  Qed.
  Lemma ent_inj db i j e : wf db -> ent_is db i e -> ent_is db j e -> i = j.
  Proof.
    intros Hw (n & H1 & H2) (n' & H3 & H4). pose proof (proj2 (wf_ns db Hw) _ _ _ H2 H4) as ->.
    exact (proj2 (wf_ents db Hw) _ _ _ H1 H3).
  Qed.
  Lemma keys_in {A B} (l : list (A * B)) i : i ∈ l.*1 -> exists a, (i, a) ∈ l.
  Proof. intros H. apply elem_of_list_fmap in H as ([i' a] & -> & H). eauto. Qed.
  Lemma in_keys {A B} (l : list (A * B)) i a : (i, a) ∈ l -> i ∈ l.*1.
  Proof. intros H. apply elem_of_list_fmap. by exists (i, a). Qed.

  Lemma ext_cuds a b si u : wf a -> wf b -> ext a b -> si ∈ (t_cuds a).*1 -> (si, u) ∈ t_cuds b -> (si, u) ∈ t_cuds a.
  Proof.
    intros Wa Wb (_ & _ & _ & H4 & _) Hs Hu. apply keys_in in Hs as [u0 Hs].
    by rewrite (proj1 (wf_cuds b Wb) _ _ _ Hu (H4 _ Hs)).
  Qed.
  Lemma ext_ent_inv a b i e : wf a -> wf b -> ext a b -> i ∈ (t_ents a).*1 -> ent_is b i e -> ent_is a i e.
  Proof.
    intros Wa Wb He Hi Hb. apply keys_in in Hi as [x Hi]. destruct (wf_ent a Wa i x Hi) as [e0 H0].
    by rewrite (ent_fun b i e e0 Wb Hb (ext_ent a b i e0 He H0)).
  Qed.
  Lemma ext_stored a b t : wf a -> wf b -> ext a b -> stored a t <-> stored b t.
  Proof.
    intros Wa Wb He. pose proof He as (E1 & E2 & E3 & E4 & E5 & E6). destruct t as [[u p] o]. unfold stored. split.
    - intros (si & Hs & H). exists si. split; [by apply E4|]. destruct o as [u'|e|v [d|]]; [| | |done].
      + destruct H as (pi & oi & H1 & H2 & H3). exists pi, oi. rewrite <- E2. split; [by eapply ext_ent|]. split; [by apply E4|done].
      + destruct H as (Hp & oi & H1 & H2). split; [done|]. exists oi. rewrite <- E1. split; [by eapply ext_ent|done].
      + destruct H as (pi & w & H1 & H2 & H3). exists pi, w. rewrite <- E3. split; [by eapply ext_ent|done].
    - intros (si & Hs & H). exists si. destruct o as [u'|e|v [d|]].
      + destruct H as (pi & oi & H1 & H2 & H3). rewrite <- E2 in H3. destruct (wf_rels a Wa _ _ _ H3) as (F1 & F2 & F3).
        split; [by eapply ext_cuds|]. exists pi, oi. split; [by eapply ext_ent_inv|]. split; [by eapply ext_cuds|done].
      + destruct H as (Hp & oi & H1 & H2). rewrite <- E1 in H2. destruct (wf_types a Wa _ _ H2) as (F1 & F2).
        split; [by eapply ext_cuds|]. split; [done|]. exists oi. split; [by eapply ext_ent_inv|done].
      + destruct H as (pi & w & H1 & H2 & H3). rewrite <- E3 in H2. destruct (wf_rows a Wa _ _ _ _ H2) as (F1 & F2 & F3).
        split; [by eapply ext_cuds|]. exists pi, w. split; [by eapply ext_ent_inv|done].
      + by destruct H.
  Qed.

  (** ** Lookups *)
  Lemma find_idx_some {A} `{EqDecision A} (l : list (N * A)) a i : find_idx l a = Some i -> (i, a) ∈ l.
  Proof.
    induction l as [|[j b] l IH]; simpl; [done|]. case_decide as Hd; [intros [= ->]; subst; left|].
    intros H'. right. by apply IH.
  Qed.
  Lemma find_idx_none {A} `{EqDecision A} (l : list (N * A)) a i : find_idx l a = None -> (i, a) ∉ l.
  Proof.
    induction l as [|[j b] l IH]; simpl; [intros _ H'; by apply elem_of_nil in H'|]. case_decide as Hd; [done|].
    intros H' Hin. apply elem_of_cons in Hin as [[= -> ->]|Hin]; [done|]. by apply IH.
  Qed.
  Lemma find_val_in {A} (l : list (N * A)) i a : functional l -> (i, a) ∈ l -> find_val l i = Some a.
  Proof.
    intros [Hf _] Hin.
    assert (exists b, find_val l i = Some b /\ (i, b) ∈ l) as (b & -> & Hb).
    { clear Hf. induction l as [|[j b] l IH]; [by apply elem_of_nil in Hin|]. simpl. case_decide as Hd.
      - subst. exists b. split; [done|left].
      - apply elem_of_cons in Hin as [[= -> ->]|Hin]; [done|]. destruct (IH Hin) as (b' & H1 & H2). exists b'.
        split; [done|by right]. }
    by rewrite (Hf _ _ _ Hin Hb).
  Qed.
  Lemma functional_app {A} (l : list (N * A)) a :
    functional l -> (forall i, (i, a) ∉ l) -> functional (l ++ [(fresh (map fst l), a)]).
  Proof.
    intros [H1 H2] Hn. pose proof (Hfresh (map fst l)) as Hf. set (i0 := fresh (map fst l)) in *.
    assert (forall b, (i0, b) ∉ l) as Hi. { intros b Hb. apply Hf. by apply (in_keys l) in Hb. }
    clearbody i0. split.
    - intros i x y Hx Hy. apply elem_of_app in Hx as [Hx|Hx], Hy as [Hy|Hy];
        rewrite ?elem_of_list_singleton in Hx; rewrite ?elem_of_list_singleton in Hy; simplify_eq.
      + by eapply H1.
      + by apply Hi in Hx.
      + by apply Hi in Hy.
      + done.
    - intros i j x Hx Hy. apply elem_of_app in Hx as [Hx|Hx], Hy as [Hy|Hy];
        rewrite ?elem_of_list_singleton in Hx; rewrite ?elem_of_list_singleton in Hy; simplify_eq.
      + by eapply H2.
      + by apply Hn in Hx.
      + by apply Hn in Hy.
      + done.
  Qed.

  Definition step_ok (s s' : sess) : Prop := wfs s' /\ ext (s_db s) (s_db s').
  Lemma step_refl s : wfs s -> step_ok s s.
  Proof. intros H'. split; [done|apply ext_refl]. Qed.
  Lemma step_trans a b c : step_ok a b -> step_ok b c -> step_ok a c.
  Proof. intros [_ H1] [H2 H3]. split; [done|by eapply ext_trans]. Qed.

  Notation get_cuds_idx := (get_cuds_idx (NM := NM) (NS := NS) (D := D) (W := W) fresh).
  Notation get_ns_idx := (get_ns_idx (NM := NM) (NS := NS) (D := D) (W := W) fresh).
  Notation split_ns := (split_ns (NM := NM) (NS := NS) (D := D) (W := W) split fresh).
  Notation get_entity_idx := (get_entity_idx (NM := NM) (NS := NS) (D := D) (W := W) fresh).

  Lemma get_cuds_idx_spec s u : wfs s -> exists i s', get_cuds_idx u s = (Ok i, s') /\ step_ok s s' /\ (i, u) ∈ t_cuds (s_db s').
  Proof.
    intros [Hw Hc]. unfold Sql.get_cuds_idx. destruct (find_idx (t_cuds (s_db s)) u) as [i|] eqn:Ef.
    - exists i, s. split; [done|]. split; [by apply step_refl|]. by apply find_idx_some.
    - eexists _, _. split; [reflexivity|]. split; [|simpl; apply elem_of_app; right; left].
      assert (forall j, (j, u) ∉ t_cuds (s_db s)) as Hn by (intros j; by apply find_idx_none).
      split.
      + split; [|done]. destruct Hw as [A1 A2 A3 A4 A5 A6 A7 A8]. split; simpl.
        * by apply functional_app.
        * done.
        * done.
        * done.
        * intros i x Hx. destruct (A5 i x Hx) as [e He]. exists e. exact He.
        * intros a b Hin. rewrite fmap_app, elem_of_app. destruct (A6 a b Hin). tauto.
        * intros a b c Hin. rewrite fmap_app, !elem_of_app. destruct (A7 a b c Hin) as (? & ? & ?). tauto.
        * intros d a b w Hin. rewrite fmap_app, !elem_of_app. destruct (A8 d a b w Hin) as (? & ? & ?). tauto.
      + split_and!; simpl; try done. intros x Hx. apply elem_of_app. by left.
  Qed.
  Lemma get_ns_idx_spec s n : wfs s -> exists i s', get_ns_idx n s = (Ok i, s') /\ step_ok s s' /\ (i, n) ∈ t_ns (s_db s').
  Proof.
    intros [Hw Hc]. unfold Sql.get_ns_idx. destruct (find_idx (rev (s_cache s)) n) as [i|] eqn:Ef.
    - exists i, s. split; [done|]. split; [by apply step_refl|]. apply find_idx_some in Ef. rewrite Hc in Ef.
      rewrite elem_of_list_In, <- in_rev in Ef. by apply elem_of_list_In.
    - cbv zeta. match goal with |- context [match find_idx ?l ?x with _ => _ end] => destruct (find_idx l x) as [i|] eqn:Eg end.
      + eexists _, _. split; [reflexivity|]. split.
        * assert (forall j, (j, n) ∉ t_ns (s_db s)) as Hn.
          { intros j Hj. apply (find_idx_none _ _ j Ef). rewrite Hc. apply elem_of_list_In. rewrite <- in_rev. by apply elem_of_list_In. }
          split.
          -- split; [|done]. destruct Hw as [A1 A2 A3 A4 A5 A6 A7 A8]. split; simpl; try done.
             ++ by apply functional_app.
             ++ intros i0 x Hx. destruct (A5 i0 x Hx) as [e (m & H1 & H2)]. exists e, m. split; [done|].
                apply elem_of_app. by left.
          -- split_and!; simpl; try done. intros x Hx. apply elem_of_app. by left.
        * apply find_idx_some in Eg. simpl. rewrite elem_of_list_In, <- in_rev in Eg. by apply elem_of_list_In.
      + exfalso. apply (find_idx_none _ _ (fresh (map fst (t_ns (s_db s)))) Eg). apply elem_of_list_In. rewrite <- in_rev.
        apply elem_of_list_In, elem_of_app. right. left.
  Qed.
  Lemma split_ns_spec s e : wfs s ->
    exists i s', split_ns e s = (Ok (i, snd (split e)), s') /\ step_ok s s' /\ (i, fst (split e)) ∈ t_ns (s_db s').
  Proof.
    intros Hw. unfold Sql.split_ns, mbind'. destruct (get_ns_idx_spec s (fst (split e)) Hw) as (i & s' & -> & H1 & H2).
    by exists i, s'.
  Qed.
  Lemma entity_idx_spec s e : wfs s ->
    exists x s1 i s', split_ns e s = (Ok x, s1) /\ get_entity_idx x s1 = (Ok i, s') /\ step_ok s s1 /\ step_ok s s' /\ ent_is (s_db s') i e.
  Proof.
    intros Hw. destruct (split_ns_spec s e Hw) as (n & s1 & H1 & H2 & H3).
    exists (n, snd (split e)), s1. unfold Sql.get_entity_idx.
    destruct (find_idx (t_ents (s_db s1)) (n, snd (split e))) as [i|] eqn:Ef.
    - exists i, s1. split; [done|]. split; [done|]. split; [done|]. split; [done|]. exists n.
      split; [by apply find_idx_some|done].
    - eexists _, _. split; [done|]. split; [reflexivity|]. split; [done|]. destruct H2 as [[Hw1 Hc1] H2].
      set (db1 := s_db s1) in *.
      assert (forall j, (j, (n, snd (split e))) ∉ t_ents db1) as Hn by (intros j; by apply find_idx_none).
      assert (ent_is (SDb (t_cuds db1) (t_ents db1 ++ [(fresh (map fst (t_ents db1)), (n, snd (split e)))]) (t_ns db1)
                 (t_types db1) (t_rels db1) (t_data db1)) (fresh (map fst (t_ents db1))) e) as Hi.
      { exists n. simpl. split; [|done]. apply elem_of_app. right. left. }
      split; [|done]. apply (step_trans s s1); [by split|]. split.
      + split; [|done]. simpl. destruct Hw1 as [A1 A2 A3 A4 A5 A6 A7 A8]. split; simpl; try done.
        * by apply functional_app.
        * intros i x Hx. apply elem_of_app in Hx as [Hx|Hx].
          -- destruct (A5 i x Hx) as [e' (m & F1 & F2)]. exists e', m. split; [|done]. simpl. apply elem_of_app. by left.
          -- apply elem_of_list_singleton in Hx. injection Hx as -> ->. by exists e.
        * intros a b Hin. rewrite fmap_app, elem_of_app. destruct (A6 a b Hin). tauto.
        * intros a b c Hin. rewrite fmap_app, !elem_of_app. destruct (A7 a b c Hin) as (? & ? & ?). tauto.
        * intros d a b w Hin. rewrite fmap_app, !elem_of_app. destruct (A8 d a b w Hin) as (? & ? & ?). tauto.
      + unfold ext. simpl. fold db1. split_and!; try done. intros x Hx. apply elem_of_app. by left.
  Qed.

  Lemma ext_tables a b : ext a b -> (t_data a).*1 = (t_data b).*1.
  Proof. intros (_ & _ & -> & _). done. Qed.
  Lemma step_inv T S s s' : inv T S s -> step_ok s s' -> inv T S s'.
  Proof.
    intros ([Hw Hc] & H2 & H3) [[Hw' Hc'] He]. split; [done|]. split.
    - intros t. rewrite <- H2. symmetry. by apply ext_stored.
    - intros d. by rewrite H3, (ext_tables _ _ He).
  Qed.

  (** ** Changing rows *)
  Lemma data_rows_upd d d' f (l : list (D * list (N * N * W))) : f [] = [] ->
    data_rows d' (map (fun x => if decide (fst x = d) then (fst x, f (snd x)) else x) l) =
    if decide (d' = d) then f (data_rows d' l) else data_rows d' l.
  Proof.
    intros Hf. induction l as [|[d0 r] l IH]; simpl.
    - by case_decide.
    - destruct (decide (d0 = d)) as [->|Hd]; simpl; [|]; rewrite IH; repeat case_decide; congruence.
  Qed.
  Lemma data_rows_upd_in d d' f (l : list (D * list (N * N * W))) : d ∈ l.*1 ->
    data_rows d' (map (fun x => if decide (fst x = d) then (fst x, f (snd x)) else x) l) =
    if decide (d' = d) then f (data_rows d' l) else data_rows d' l.
  Proof.
    induction l as [|[d0 r] l IH]; simpl; intros Hin; [by apply elem_of_nil in Hin|].
    destruct (decide (d0 = d)) as [->|Hd]; simpl.
    - destruct (decide (d = d')) as [->|Hd'].
      + by rewrite decide_True.
      + rewrite (decide_False (P := d' = d)) by congruence.
        destruct (decide (d ∈ l.*1)) as [Hi|Hi]; [by rewrite (IH Hi), decide_False by congruence|].
        clear IH Hin. induction l as [|[d1 r1] l IH]; simpl; [done|]. simpl in Hi. apply not_elem_of_cons in Hi as [Hi1 Hi2].
        rewrite (decide_False (P := d1 = d)) by congruence. simpl. by rewrite (IH Hi2).
    - apply elem_of_cons in Hin as [?|Hin]; [congruence|]. rewrite (IH Hin). repeat case_decide; congruence.
  Qed.
  Lemma keys_upd d f (l : list (D * list (N * N * W))) :
    (map (fun x => if decide (fst x = d) then (fst x, f (snd x)) else x) l).*1 = l.*1.
  Proof. induction l as [|[d0 r] l IH]; cbn [map fmap list_fmap]; [done|]. f_equal; [by case_decide|exact IH]. Qed.

  Lemma insert_types_spec s u e si oi : wfs s -> (si, u) ∈ t_cuds (s_db s) -> ent_is (s_db s) oi e ->
    exists s', insert_types (si, oi) s = (Ok (), s') /\ wfs s' /\ (t_data (s_db s')).*1 = (t_data (s_db s)).*1 /\
      forall t, stored (s_db s') t <-> stored (s_db s) t \/ t = (u, rdf_type, NEnt e).
  Proof.
    intros [Hw Hc] Hs Ho. eexists. split; [reflexivity|].
    assert (forall r, r ∈ (if decide ((si, oi) ∈ t_types (s_db s)) then t_types (s_db s) else t_types (s_db s) ++ [(si, oi)]) <->
       r ∈ t_types (s_db s) \/ r = (si, oi)) as Hr.
    { intros r. case_decide as Hd; [split; [auto|by intros [?| ->]]|]. by rewrite elem_of_app, elem_of_list_singleton. }
    split; [|split; [done|]].
    - split; [|done]. destruct Hw as [A1 A2 A3 A4 A5 A6 A7 A8]. split; try done. simpl. intros a b Hin.
      apply Hr in Hin as [Hin|[= -> ->]]; [by apply A6|]. split; [by eapply in_keys|]. destruct Ho as (n & Hn & _). by eapply in_keys.
    - intros [[u' p] o]. unfold stored. simpl. destruct o as [u2|e'|v [d|]].
      + split; [by left|]. intros [?|?]; [done|discriminate].
      + split.
        * intros (si' & H1 & -> & oi' & H2 & H3). apply Hr in H3 as [H3|[= -> ->]].
          -- left. exists si'. split; [done|]. split; [done|]. by exists oi'.
          -- right. rewrite (ent_fun (s_db s) oi e' e Hw H2 Ho). by rewrite (proj1 (wf_cuds _ Hw) _ _ _ H1 Hs).
        * intros [(si' & H1 & -> & oi' & H2 & H3)|[= -> -> ->]].
          -- exists si'. split; [done|]. split; [done|]. exists oi'. split; [done|]. apply Hr. by left.
          -- exists si. split; [done|]. split; [done|]. exists oi. split; [done|]. apply Hr. by right.
      + split; [by left|]. intros [?|?]; [done|discriminate].
      + split; [by left|]. intros [?|?]; [done|discriminate].
  Qed.
  Lemma insert_rels_spec s u p u' si pi oi : wfs s -> (si, u) ∈ t_cuds (s_db s) -> ent_is (s_db s) pi p -> (oi, u') ∈ t_cuds (s_db s) ->
    exists s', insert_rels (si, pi, oi) s = (Ok (), s') /\ wfs s' /\ (t_data (s_db s')).*1 = (t_data (s_db s)).*1 /\
      forall t, stored (s_db s') t <-> stored (s_db s) t \/ t = (u, p, NCuds u').
  Proof.
    intros [Hw Hc] Hs Hp Ho. eexists. split; [reflexivity|].
    assert (forall r, r ∈ (if decide ((si, pi, oi) ∈ t_rels (s_db s)) then t_rels (s_db s) else t_rels (s_db s) ++ [(si, pi, oi)]) <->
       r ∈ t_rels (s_db s) \/ r = (si, pi, oi)) as Hr.
    { intros r. case_decide as Hd; [split; [auto|by intros [?| ->]]|]. by rewrite elem_of_app, elem_of_list_singleton. }
    split; [|split; [done|]].
    - split; [|done]. destruct Hw as [A1 A2 A3 A4 A5 A6 A7 A8]. split; try done. simpl. intros a b c Hin.
      apply Hr in Hin as [Hin|[= -> -> ->]]; [by apply A7|]. destruct Hp as (n & Hn & _).
      split; [by eapply in_keys|]. split; by eapply in_keys.
    - intros [[u1 p1] o]. unfold stored. simpl. destruct o as [u2|e'|v [d|]].
      + split.
        * intros (si' & H1 & pi' & oi' & H2 & H3 & H4). apply Hr in H4 as [H4|[= -> -> ->]].
          -- left. exists si'. split; [done|]. by exists pi', oi'.
          -- right. rewrite (ent_fun (s_db s) pi p1 p Hw H2 Hp).
             rewrite (proj1 (wf_cuds _ Hw) _ _ _ H1 Hs). by rewrite (proj1 (wf_cuds _ Hw) _ _ _ H3 Ho).
        * intros [(si' & H1 & pi' & oi' & H2 & H3 & H4)|[= -> -> ->]].
          -- exists si'. split; [done|]. exists pi', oi'. split; [done|]. split; [done|]. apply Hr. by left.
          -- exists si. split; [done|]. exists pi, oi. split; [done|]. split; [done|]. apply Hr. by right.
      + split; [by left|]. intros [?|?]; [done|discriminate].
      + split; [by left|]. intros [?|?]; [done|discriminate].
      + split; [by left|]. intros [?|?]; [done|discriminate].
  Qed.
  Lemma insert_data_spec s u p d v si pi : wfs s -> (si, u) ∈ t_cuds (s_db s) -> ent_is (s_db s) pi p -> d ∈ (t_data (s_db s)).*1 -> good d v ->
    exists s', insert_data wr d si pi v s = (Ok (), s') /\ wfs s' /\ (t_data (s_db s')).*1 = (t_data (s_db s)).*1 /\
      forall t, stored (s_db s') t <-> stored (s_db s) t \/ t = (u, p, NLit v (Some d)).
  Proof.
    intros [Hw Hc] Hs Hp Hd (w & Hwr & Hrd). unfold insert_data. rewrite Hwr. unfold has_table.
    rewrite bool_decide_eq_true_2 by done. eexists. split; [reflexivity|].
    assert (forall d' r, r ∈ data_rows d' (map (fun x => if decide (fst x = d) then (fst x, (fun l => l ++ [(si, pi, w)]) (snd x)) else x) (t_data (s_db s))) <->
       r ∈ data_rows d' (t_data (s_db s)) \/ (d' = d /\ r = (si, pi, w))) as Hr.
    { intros d' r. rewrite (data_rows_upd_in d d' (fun l => l ++ [(si, pi, w)])) by done. case_decide as He.
      - rewrite elem_of_app, elem_of_list_singleton. naive_solver.
      - naive_solver. }
    split; [|split; [apply (keys_upd d (fun l => l ++ [(si, pi, w)]))|]].
    - split; [|done]. destruct Hw as [A1 A2 A3 A4 A5 A6 A7 A8]. split; try done; simpl.
      + by rewrite (keys_upd d (fun l => l ++ [(si, pi, w)])).
      + intros d' a b c Hin. apply Hr in Hin as [Hin|[-> [= -> -> ->]]]; [by apply A8|]. destruct Hp as (n & Hn & _).
        split; [by eapply in_keys|]. split; [by eapply in_keys|]. congruence.
    - intros [[u1 p1] o]. unfold stored. simpl. destruct o as [u2|e'|v' [d'|]].
      + split; [by left|]. intros [?|?]; [done|discriminate].
      + split; [by left|]. intros [?|?]; [done|discriminate].
      + split.
        * intros (si' & H1 & pi' & w' & H2 & H3 & H4). apply Hr in H3 as [H3|[-> [= -> -> ->]]].
          -- left. exists si'. split; [done|]. by exists pi', w'.
          -- right. rewrite (ent_fun (s_db s) pi p1 p Hw H2 Hp).
             rewrite (proj1 (wf_cuds _ Hw) _ _ _ H1 Hs). by rewrite <- H4, Hrd.
        * intros [(si' & H1 & pi' & w' & H2 & H3 & H4)|[= -> -> -> ->]].
          -- exists si'. split; [done|]. exists pi', w'. split; [done|]. split; [|done]. apply Hr. by left.
          -- exists si. split; [done|]. exists pi, w. split; [done|]. split; [|done]. apply Hr. by right.
      + split; [by left|]. intros [?|?]; [done|discriminate].
  Qed.

  Notation add1 := (add1 rdf_type xsd_string split kind wr fresh).
  Notation add := (add rdf_type xsd_string split kind wr fresh).

  Lemma add1_spec T S s t : inv T S s -> storable T t ->
    exists s', add1 t s = (Ok (), s') /\ inv T (fun x => S x \/ x = t) s'.
  Proof.
    intros Hi Hst. destruct t as [[u p] o]. pose proof Hi as (Hw & HS & HT).
    assert (forall s1 s2 t, step_ok s s1 -> wfs s2 -> (t_data (s_db s2)).*1 = (t_data (s_db s1)).*1 ->
      (forall x, stored (s_db s2) x <-> stored (s_db s1) x \/ x = t) -> inv T (fun x => S x \/ x = t) s2) as Hfin.
    { intros s1 s2 t H1 H2 H3 H4. destruct (step_inv T S s s1 Hi H1) as (_ & G1 & G2). split; [done|]. split.
      - intros x. rewrite H4. by rewrite G1.
      - intros d. by rewrite H3. }
    unfold Sql.add1. destruct o as [u'|e|v [d|]]; simpl in Hst; cbn [determine_table].
    - unfold mbind'. destruct (get_cuds_idx_spec s u Hw) as (si & s1 & -> & K1 & L1).
      destruct (entity_idx_spec s1 p (proj1 K1)) as (x & s2 & pi & s3 & -> & -> & _ & K3 & L3).
      destruct (get_cuds_idx_spec s3 u' (proj1 K3)) as (oi & s4 & -> & K4 & L4).
      destruct (insert_rels_spec s4 u p u' si pi oi) as (s5 & -> & M1 & M2 & M3); [apply K4| | |done|].
      + apply K4. by apply K3.
      + eapply ext_ent; [apply K4|done].
      + exists s5. split; [done|]. apply (Hfin s4); try done. eapply step_trans; [done|]. by eapply step_trans.
    - unfold mbind'. destruct (get_cuds_idx_spec s u Hw) as (si & s1 & -> & K1 & L1).
      destruct (entity_idx_spec s1 e (proj1 K1)) as (x & s2 & oi & s3 & -> & -> & _ & K3 & L3).
      destruct (insert_types_spec s3 u e si oi) as (s5 & -> & M1 & M2 & M3); [apply K3|by apply K3|done|].
      exists s5. split; [done|]. subst p. apply (Hfin s3); try done. by eapply step_trans.
    - destruct Hst as (Hp & Hd & Hg). unfold mbind'. destruct (get_cuds_idx_spec s u Hw) as (si & s1 & -> & K1 & L1).
      destruct (entity_idx_spec s1 p (proj1 K1)) as (x & s2 & pi & s3 & -> & -> & _ & K3 & L3).
      assert (step_ok s s3) as K by (by eapply step_trans).
      destruct (insert_data_spec s3 u p d v si pi) as (s5 & -> & M1 & M2 & M3); [apply K3|by apply K3|done| |done|].
      { destruct K as [_ K]. rewrite <- (ext_tables _ _ K). by apply HT. }
      exists s5. split; [done|]. by apply (Hfin s3).
    - done.
  Qed.
  Lemma inv_ext T S S' s : (forall x, S x <-> S' x) -> inv T S s -> inv T S' s.
  Proof. intros HS (H1 & H2 & H3). split; [done|]. split; [|done]. intros t. by rewrite H2. Qed.
  Lemma add_spec T ts : forall S s, inv T S s -> (forall t, t ∈ ts -> storable T t) ->
    exists s', add ts s = (Ok (), s') /\ inv T (fun x => S x \/ x ∈ ts) s'.
  Proof.
    unfold Sql.add. induction ts as [|t ts IH]; intros S s Hi Hst.
    - exists s. split; [done|]. eapply inv_ext; [|done]. intros x. simpl. rewrite elem_of_nil. tauto.
    - destruct (add1_spec T S s t Hi) as (s1 & H1 & H2); [apply Hst; left|].
      destruct (IH _ s1 H2) as (s2 & H3 & H4); [intros x Hx; apply Hst; by right|].
      exists s2. split.
      + unfold mbind' in *. cbn [mapMs]. unfold mbind'. rewrite H1. destruct (mapMs add1 ts s1) as [[r|er] sx] eqn:Em; [|discriminate].
        simpl in *. done.
      + eapply inv_ext; [|done]. intros x. simpl. rewrite elem_of_cons. tauto.
  Qed.

  (** ** Queries *)
  Lemma mapMs_same {A B} (f : A -> M (NS:=NS) (NM:=NM) (D:=D) (W:=W) B) s l :
    (forall x, x ∈ l -> exists y, f x s = (Ok y, s)) ->
    exists ys, mapMs f l s = (Ok ys, s) /\ forall y, y ∈ ys <-> exists x, x ∈ l /\ f x s = (Ok y, s).
  Proof.
    induction l as [|x l IH]; intros Hf.
    - exists []. split; [done|]. intros y. split; [intros Hy; by apply elem_of_nil in Hy|]. intros (x & Hx & _). by apply elem_of_nil in Hx.
    - destruct (Hf x) as [y Hy]; [left|]. destruct IH as (ys & H1 & H2); [intros; apply Hf; by right|].
      exists (y :: ys). cbn [mapMs]. unfold mbind'. rewrite Hy, H1. split; [done|]. intros z. rewrite elem_of_cons, H2. split.
      + intros [->|(x' & Hx & Hz)]; [exists x; split; [left|done]|]. exists x'. split; [by right|done].
      + intros (x' & Hx & Hz). apply elem_of_cons in Hx as [->|Hx]; [left; congruence|right; eauto].
  Qed.

  Lemma ent_cond db ei x e p n : wf db -> (ei, x) ∈ t_ents db -> ent_is db ei e -> (n, fst (split p)) ∈ t_ns db ->
    x = (n, snd (split p)) <-> e = p.
  Proof.
    intros Hw Hx (n' & H1 & H2) Hn. pose proof (proj1 (wf_ents db Hw) _ _ _ Hx H1) as ->. split.
    - intros [= -> Hs]. pose proof (proj1 (wf_ns db Hw) _ _ _ H2 Hn) as Hf.
      rewrite <- (Hsplit e), <- (Hsplit p). congruence.
    - intros ->. by rewrite (proj2 (wf_ns db Hw) _ _ _ H2 Hn).
  Qed.
  Lemma iri_of_spec s ei x e : wfs s -> (ei, x) ∈ t_ents (s_db s) -> ent_is (s_db s) ei e -> iri_of join x s = (Ok e, s).
  Proof.
    intros [Hw Hc] Hx (n' & H1 & H2). pose proof (proj1 (wf_ents _ Hw) _ _ _ Hx H1) as ->.
    unfold iri_of, mbind', get_ns. simpl. rewrite Hc. rewrite (find_val_in _ _ _ (wf_ns _ Hw) H2).
    unfold ret. by rewrite Hsplit.
  Qed.
  Lemma holds_opt_iff {A} `{EqDecision A} (c : option A) a : holds_opt c a = true <-> c = None \/ c = Some a.
  Proof.
    unfold holds_opt. destruct c as [b|]; [|naive_solver]. rewrite bool_decide_eq_true. naive_solver.
  Qed.

  Ltac fm := repeat match goal with
    | |- context [_ ∈ flat_map _ _] => rewrite elem_of_list_In, in_flat_map
    end.
  Lemma elem_flat_map {A B} (f : A -> list B) l b : b ∈ flat_map f l <-> exists a, a ∈ l /\ b ∈ f a.
  Proof.
    rewrite elem_of_list_In, in_flat_map. split; intros (a & H1 & H2); exists a; split; by apply elem_of_list_In.
  Qed.
  Lemma elem_if {A} (b : bool) (x y : A) : x ∈ (if b then [y] else []) <-> b = true /\ x = y.
  Proof. destruct b; [rewrite elem_of_list_singleton; naive_solver|]. split; [intros H'; by apply elem_of_nil in H'|naive_solver]. Qed.

  Lemma elem_select_types (db : sdb) (c : cond) u x : (u, x) ∈ select_types db c <->
    exists ci ei, (ci, u) ∈ t_cuds db /\ (ei, x) ∈ t_ents db /\ (ci, ei) ∈ t_types db /\
      holds_opt (c_s c) u = true /\ holds_opt (c_oe c) x = true.
  Proof.
    unfold select_types. rewrite elem_flat_map. split.
    - intros ([ci u0] & H1 & H'). apply elem_flat_map in H' as ([ei x0] & H2 & H'). apply elem_flat_map in H' as ([s o] & H3 & H').
      apply elem_if in H' as [Hb [= <- <-]]. rewrite !andb_true_iff, !bool_decide_eq_true in Hb.
      destruct Hb as (((-> & ->) & Hb1) & Hb2). exists ci, ei. done.
    - intros (ci & ei & H1 & H2 & H3 & H4 & H5). exists (ci, u). split; [done|]. apply elem_flat_map. exists (ei, x). split; [done|].
      apply elem_flat_map. exists (ci, ei). split; [done|]. apply elem_if. split; [|done]. by rewrite !bool_decide_eq_true_2, H4, H5.
  Qed.
  Lemma elem_select_rels (db : sdb) (c : cond) u x u' : (u, x, u') ∈ select_rels db c <->
    exists ci ei cj, (ci, u) ∈ t_cuds db /\ (ei, x) ∈ t_ents db /\ (cj, u') ∈ t_cuds db /\ (ci, ei, cj) ∈ t_rels db /\
      holds_opt (c_s c) u = true /\ holds_opt (c_p c) x = true /\ holds_opt (c_oc c) u' = true.
  Proof.
    unfold select_rels. rewrite elem_flat_map. split.
    - intros ([ci u0] & H1 & H'). apply elem_flat_map in H' as ([ei x0] & H2 & H'). apply elem_flat_map in H' as ([cj u1] & H2' & H').
      apply elem_flat_map in H' as ([[s p] o] & H3 & H').
      apply elem_if in H' as [Hb [= <- <- <-]]. rewrite !andb_true_iff, !bool_decide_eq_true in Hb.
      destruct Hb as (((((-> & ->) & ->) & Hb1) & Hb2) & Hb3). exists ci, ei, cj. done.
    - intros (ci & ei & cj & H1 & H2 & H2' & H3 & H4 & H5 & H6). exists (ci, u). split; [done|]. apply elem_flat_map. exists (ei, x). split; [done|].
      apply elem_flat_map. exists (cj, u'). split; [done|]. apply elem_flat_map. exists (ci, ei, cj). split; [done|].
      apply elem_if. split; [|done]. by rewrite !bool_decide_eq_true_2, H4, H5, H6.
  Qed.
  Lemma elem_select_data (db : sdb) d (c : cond) u x w : (u, x, w) ∈ select_data db d c <->
    exists ci ei, (ci, u) ∈ t_cuds db /\ (ei, x) ∈ t_ents db /\ (ci, ei, w) ∈ data_rows d (t_data db) /\
      holds_opt (c_s c) u = true /\ holds_opt (c_p c) x = true /\ holds_opt (c_ov c) w = true.
  Proof.
    unfold select_data. rewrite elem_flat_map. split.
    - intros ([ci u0] & H1 & H'). apply elem_flat_map in H' as ([ei x0] & H2 & H').
      apply elem_flat_map in H' as ([[s p] o] & H3 & H').
      apply elem_if in H' as [Hb [= <- <- <-]]. rewrite !andb_true_iff, !bool_decide_eq_true in Hb.
      destruct Hb as ((((-> & ->) & Hb1) & Hb2) & Hb3). exists ci, ei. done.
    - intros (ci & ei & H1 & H2 & H3 & H4 & H5 & H6). exists (ci, u). split; [done|]. apply elem_flat_map. exists (ei, x). split; [done|].
      apply elem_flat_map. exists (ci, ei, w). split; [done|].
      apply elem_if. split; [|done]. by rewrite !bool_decide_eq_true_2, H4, H5, H6.
  Qed.

  (** In which table a triple lives. *)
  Definition lives (t : striple) (tb : table) : Prop :=
    match snd t with
    | NCuds _ => tb = TRels
    | NEnt _ => tb = TTypes
    | NLit _ (Some d) => tb = TData d
    | NLit _ None => False
    end.
  (** The pattern makes sense for the table. *)
  Definition pat_table (db : sdb) (pat : spattern) (tb : table) : Prop :=
    let '(_, p, o) := pat in
    match tb with
    | TTypes => (p = None \/ p = Some rdf_type) /\ (o = None \/ exists e, o = Some (NEnt e))
    | TRels => o = None \/ exists u, o = Some (NCuds u)
    | TData d => d ∈ (t_data db).*1 /\ (o = None \/ exists v, o = Some (NLit v (Some d)) /\ good d v)
    end.
  Definition cond_ok (db : sdb) (pat : spattern) (tb : table) (c : cond) : Prop :=
    let '(u, p, o) := pat in
    c_s c = u /\
    match p with
    | None => c_p c = None
    | Some e => match tb with
                | TTypes => True
                | _ => exists n, c_p c = Some (n, snd (split e)) /\ (n, fst (split e)) ∈ t_ns db
                end
    end /\
    match o with
    | None => c_oc c = None /\ c_oe c = None /\ c_ov c = None
    | Some (NCuds u') => c_oc c = Some u'
    | Some (NEnt e) => exists n, c_oe c = Some (n, snd (split e)) /\ (n, fst (split e)) ∈ t_ns db
    | Some (NLit v (Some d)) => exists w, c_ov c = Some w /\ wr d v = Some w /\ rd d w = v
    | Some (NLit _ None) => False
    end.

  Notation get_conditions := (get_conditions (E := E) split wr fresh).
  Lemma get_conditions_spec s pat tb : wfs s -> pat_table (s_db s) pat tb ->
    exists c s', get_conditions pat tb s = (Ok c, s') /\ step_ok s s' /\ cond_ok (s_db s') pat tb c /\
      (pat = (fst (fst pat), None, None) -> s' = s).
  Proof.
    intros Hw Hp. destruct pat as [[u p] o]. unfold Sql.get_conditions.
    assert (exists cp s1, (match p, tb with
            | Some e, TTypes => ret None
            | Some e, _ => mbind' (split_ns e) (fun x => ret (Some x))
            | None, _ => ret None
            end) s = (Ok cp, s1) /\ step_ok s s1 /\ (p = None -> s1 = s /\ cp = None) /\
            match p with None => True | Some e => match tb with TTypes => True | _ => exists n, cp = Some (n, snd (split e)) /\ (n, fst (split e)) ∈ t_ns (s_db s1) end end)
      as (cp & s1 & E1 & K1 & N1 & P1).
    { destruct p as [e|]; [|exists None, s; split; [by destruct tb|]; split; [by apply step_refl|done]].
      destruct (split_ns_spec s e Hw) as (n & s1 & H1 & H2 & H3).
      destruct tb; [exists None, s; split; [done|]; split; [by apply step_refl|done]| |];
        exists (Some (n, snd (split e))), s1; unfold mbind'; rewrite H1; (split; [done|]); (split; [done|]); (split; [done|]); eauto. }
    unfold mbind' at 1. rewrite E1.
    destruct o as [[u'|e|v [d|]]|].
    - destruct tb; simpl in Hp.
      + destruct Hp as [_ [?|[e' ?]]]; discriminate.
      + eexists _, s1. split; [reflexivity|]. split; [done|]. split; [|done]. simpl. split; [done|]. split; [|done].
        destruct p; [done|]. by apply N1.
      + destruct Hp as [_ [?|[v' [? _]]]]; discriminate.
    - destruct tb; simpl in Hp; [|destruct Hp as [?|[? ?]]; discriminate|destruct Hp as [_ [?|[? [? _]]]]; discriminate].
      destruct (split_ns_spec s1 e (proj1 K1)) as (n & s2 & H1 & H2 & H3). unfold mbind'. rewrite H1.
      eexists _, s2. split; [reflexivity|]. split; [by eapply step_trans|]. split; [|done]. simpl. split; [done|].
      split; [destruct p; [done|]; by apply N1|]. eauto.
    - destruct tb as [| |d']; simpl in Hp; [destruct Hp as [_ [?|[? ?]]]; discriminate|destruct Hp as [?|[? ?]]; discriminate|].
      destruct Hp as [_ [?|[v' [[= -> ->] (w & G1 & G2)]]]]; [discriminate|]. rewrite G1.
      eexists _, s1. split; [reflexivity|]. split; [done|]. split; [|done]. simpl. split; [done|]. split; [destruct p; [done|]; by apply N1|].
      exists w. done.
    - exfalso. destruct tb; simpl in Hp; [destruct Hp as [_ [?|[? ?]]]; discriminate|destruct Hp as [?|[? ?]]; discriminate|].
      destruct Hp as [_ [?|[? [? _]]]]; discriminate.
    - eexists _, s1. split; [by destruct tb|]. split; [done|]. split.
      + simpl. split; [done|]. split; [|done]. destruct p; [done|]. by apply N1.
      + simpl. intros [= ->]. by apply N1.
  Qed.

  Notation run_select := (run_select rdf_type join rd).
  Lemma run_select_spec s pat tb c : wfs s -> pat_table (s_db s) pat tb -> cond_ok (s_db s) pat tb c ->
    exists l, run_select tb c s = (Ok l, s) /\ forall t, t ∈ l <-> stored (s_db s) t /\ lives t tb /\ matches pat t.
  Proof.
    intros Hw Hp Hc. destruct pat as [[u p] o]. destruct Hc as (C1 & C2 & C3). destruct tb as [| |d]; unfold Sql.run_select.
    - destruct Hp as [Hp Ho]. match goal with |- context [mapMs ?f ?l s] => destruct (mapMs_same f s l) as (ys & E1 & E2) end.
      { intros [u0 x] Hx. apply elem_select_types in Hx as (ci & ei & H1 & H2 & H3 & H4 & H5).
        destruct (wf_ent _ (proj1 Hw) ei x H2) as [e He]. unfold mbind'. cbn [fst snd]. rewrite (iri_of_spec s ei x e Hw H2 He). eexists; reflexivity. }
      exists ys. split; [done|]. intros [[u1 p1] o1]. rewrite E2. split.
      + intros ([u0 x] & Hx & Hy). apply elem_select_types in Hx as (ci & ei & H1 & H2 & H3 & H4 & H5).
        destruct (wf_ent _ (proj1 Hw) ei x H2) as [e He]. unfold mbind' in Hy. cbn [fst snd] in Hy. rewrite (iri_of_spec s ei x e Hw H2 He) in Hy.
        unfold ret in Hy. injection Hy as <- <- <-. split; [|split; [done|]].
        * exists ci. split; [done|]. split; [done|]. exists ei. done.
        * apply holds_opt_iff in H4. rewrite C1 in H4. simpl. split; [done|]. split; [done|].
          destruct Ho as [->|[e' ->]]; [by left|]. right. destruct C3 as (n & C3 & C4). rewrite C3 in H5. apply holds_opt_iff in H5 as [?|[= <-]]; [done|].
          by rewrite (proj1 (ent_cond _ ei _ e e' n (proj1 Hw) H2 He C4) eq_refl).
      + intros ((ci & H1 & H2) & Hl & M1 & M2 & M3). destruct o1 as [?|e|? [?|]]; try done. destruct H2 as (-> & ei & He & H3).
        pose proof He as (n & Hn1 & Hn2). exists (u1, (n, snd (split e))). split.
        * apply elem_select_types. exists ci, ei. split; [done|]. split; [done|]. split; [done|]. rewrite !holds_opt_iff, C1. split; [done|].
          destruct Ho as [->|[e' ->]]; [left; apply C3|]. right. destruct M3 as [?|[= ->]]; [done|]. destruct C3 as (m & C3 & C4). rewrite C3. f_equal.
          symmetry. by apply (ent_cond _ ei _ e e m (proj1 Hw) Hn1 He C4).
        * unfold mbind'. cbn [fst snd]. by rewrite (iri_of_spec s ei _ e Hw Hn1 He).
    - match goal with |- context [mapMs ?f ?l s] => destruct (mapMs_same f s l) as (ys & E1 & E2) end.
      { intros [[u0 x] u'] Hx. apply elem_select_rels in Hx as (ci & ei & cj & H1 & H2 & H3 & H4 & H5).
        destruct (wf_ent _ (proj1 Hw) ei x H2) as [e He]. unfold mbind'. cbn [fst snd]. rewrite (iri_of_spec s ei x e Hw H2 He). eexists; reflexivity. }
      exists ys. split; [done|]. intros [[u1 p1] o1]. rewrite E2. split.
      + intros ([[u0 x] u'] & Hx & Hy). apply elem_select_rels in Hx as (ci & ei & cj & H1 & H2 & H3 & H4 & H5 & H6 & H7).
        destruct (wf_ent _ (proj1 Hw) ei x H2) as [e He]. unfold mbind' in Hy. cbn [fst snd] in Hy. rewrite (iri_of_spec s ei x e Hw H2 He) in Hy.
        unfold ret in Hy. injection Hy as <- <- <-. split; [|split; [done|]].
        * exists ci. split; [done|]. by exists ei, cj.
        * apply holds_opt_iff in H5. rewrite C1 in H5. simpl. split; [done|]. split.
          -- destruct p as [e'|]; [|by left]. right. destruct C2 as (n & C2 & C4). rewrite C2 in H6. apply holds_opt_iff in H6 as [?|[= <-]]; [done|].
             by rewrite (proj1 (ent_cond _ ei _ e e' n (proj1 Hw) H2 He C4) eq_refl).
          -- destruct Hp as [->|[u2 ->]]; [by left|]. right. rewrite C3 in H7. apply holds_opt_iff in H7 as [?|[= ->]]; done.
      + intros ((ci & H1 & H2) & Hl & M1 & M2 & M3). destruct o1 as [u'|?|? [?|]]; try done. destruct H2 as (ei & cj & He & H3 & H4).
        pose proof He as (n & Hn1 & Hn2). exists (u1, (n, snd (split p1)), u'). split.
        * apply elem_select_rels. exists ci, ei, cj. split; [done|]. split; [done|]. split; [done|]. split; [done|]. rewrite !holds_opt_iff, C1. split; [done|].
          split.
          -- destruct p as [e'|]; [|by left]. right. destruct M2 as [?|[= ->]]; [done|]. destruct C2 as (m & C2 & C4). rewrite C2. f_equal.
             symmetry. by apply (ent_cond _ ei _ p1 p1 m (proj1 Hw) Hn1 He C4).
          -- destruct Hp as [->|[u2 ->]]; [left; apply C3|]. right. destruct M3 as [?|[= ->]]; [done|]. done.
        * unfold mbind'. cbn [fst snd]. by rewrite (iri_of_spec s ei _ p1 Hw Hn1 He).
    - destruct Hp as [Hd Ho]. unfold has_table. rewrite bool_decide_eq_true_2 by done.
      match goal with |- context [mapMs ?f ?l s] => destruct (mapMs_same f s l) as (ys & E1 & E2) end.
      { intros [[u0 x] w] Hx. apply elem_select_data in Hx as (ci & ei & H1 & H2 & H3 & H4 & H5).
        destruct (wf_ent _ (proj1 Hw) ei x H2) as [e He]. unfold mbind'. cbn [fst snd]. rewrite (iri_of_spec s ei x e Hw H2 He). eexists; reflexivity. }
      exists ys. split; [done|]. intros [[u1 p1] o1]. rewrite E2. split.
      + intros ([[u0 x] w] & Hx & Hy). apply elem_select_data in Hx as (ci & ei & H1 & H2 & H3 & H5 & H6 & H7).
        destruct (wf_ent _ (proj1 Hw) ei x H2) as [e He]. unfold mbind' in Hy. cbn [fst snd] in Hy. rewrite (iri_of_spec s ei x e Hw H2 He) in Hy.
        unfold ret in Hy. injection Hy as <- <- <-. split; [|split; [done|]].
        * exists ci. split; [done|]. by exists ei, w.
        * apply holds_opt_iff in H5. rewrite C1 in H5. simpl. split; [done|]. split.
          -- destruct p as [e'|]; [|by left]. right. destruct C2 as (n & C2 & C4). rewrite C2 in H6. apply holds_opt_iff in H6 as [?|[= <-]]; [done|].
             by rewrite (proj1 (ent_cond _ ei _ e e' n (proj1 Hw) H2 He C4) eq_refl).
          -- destruct Ho as [->|(v & -> & _)]; [by left|]. right. destruct C3 as (w' & C3 & _ & C5). rewrite C3 in H7. apply holds_opt_iff in H7 as [?|[= ->]]; [done|].
             by rewrite C5.
      + intros ((ci & H1 & H2) & Hl & M1 & M2 & M3). destruct o1 as [?|?|v [d'|]]; try done. injection Hl as <-. destruct H2 as (ei & w & He & H3 & H4).
        pose proof He as (n & Hn1 & Hn2). exists (u1, (n, snd (split p1)), w). split.
        * apply elem_select_data. exists ci, ei. split; [done|]. split; [done|]. split; [done|]. rewrite !holds_opt_iff, C1. split; [done|].
          split.
          -- destruct p as [e'|]; [|by left]. right. destruct M2 as [?|[= ->]]; [done|]. destruct C2 as (m & C2 & C4). rewrite C2. f_equal.
             symmetry. by apply (ent_cond _ ei _ p1 p1 m (proj1 Hw) Hn1 He C4).
          -- destruct Ho as [->|(v' & -> & _)]; [left; apply C3|]. right. destruct M3 as [?|[= ->]]; [done|]. destruct C3 as (w' & C3 & C4 & C5).
             destruct (wf_rows _ (proj1 Hw) _ _ _ _ H3) as (_ & _ & R). rewrite C3. congruence.
        * unfold mbind'. cbn [fst snd]. rewrite (iri_of_spec s ei _ p1 Hw Hn1 He). unfold ret. by rewrite H4.
  Qed.

  Notation query := (query rdf_type split join wr rd fresh).
  Notation triples_for_subject := (triples_for_subject (V := V) rdf_type split join wr rd fresh order).
  Notation triples := (triples rdf_type xsd_string split join kind wr rd fresh order).
  Notation load_triples_for_iri := (load_triples_for_iri (V := V) rdf_type xsd_string split join kind wr rd fresh order).

  Lemma pat_table_ext a b pat tb : ext a b -> pat_table a pat tb -> pat_table b pat tb.
  Proof.
    intros He. destruct pat as [[u p] o]. destruct tb; simpl; try done. by rewrite (ext_tables _ _ He).
  Qed.
  Lemma query_spec s pat tb : wfs s -> pat_table (s_db s) pat tb ->
    exists l s', query pat tb s = (Ok l, s') /\ step_ok s s' /\
      (forall t, t ∈ l <-> stored (s_db s) t /\ lives t tb /\ matches pat t) /\
      (pat = (fst (fst pat), None, None) -> s' = s).
  Proof.
    intros Hw Hp. destruct (get_conditions_spec s pat tb Hw Hp) as (c & s' & H1 & H2 & H3 & H4).
    destruct (run_select_spec s' pat tb c (proj1 H2) (pat_table_ext _ _ _ _ (proj2 H2) Hp) H3) as (l & H5 & H6).
    exists l, s'. unfold Sql.query, mbind'. rewrite H1. split; [done|]. split; [done|]. split; [|done].
    intros t. rewrite H6. rewrite (ext_stored (s_db s) (s_db s') t); [done|apply Hw|apply H2|apply H2].
  Qed.
  Lemma subject_spec s u ts : wfs s -> (forall d, TData d ∈ ts -> d ∈ (t_data (s_db s)).*1) ->
    exists l, triples_for_subject u ts s = (Ok l, s) /\
      forall t, t ∈ l <-> stored (s_db s) t /\ (exists tb, tb ∈ ts /\ lives t tb) /\ (u = None \/ u = Some (fst (fst t))).
  Proof.
    intros Hw Ht. unfold Sql.triples_for_subject.
    assert (forall tb, tb ∈ ts -> pat_table (s_db s) (u, None, None) tb) as Hp.
    { intros tb Htb. destruct tb; simpl; eauto. }
    destruct (mapMs_same (query (u, None, None)) s (order ts)) as (ys & E1 & E2).
    { intros tb Htb. rewrite Horder in Htb. destruct (query_spec s (u, None, None) tb Hw (Hp tb Htb)) as (l & s' & H1 & _ & _ & H4).
      rewrite H1, H4 by done. eauto. }
    exists (mjoin ys). unfold mbind'. rewrite E1. split; [done|]. intros t. rewrite elem_of_list_join. split.
    - intros (l & Hl & Hy). apply E2 in Hy as (tb & Htb & Hq). rewrite Horder in Htb.
      destruct (query_spec s (u, None, None) tb Hw (Hp tb Htb)) as (l' & s' & H1 & _ & H3 & H4). rewrite (H4 eq_refl) in H1. rewrite H1 in Hq. injection Hq as <-.
      pose proof (proj1 (H3 t) Hl) as (F1 & F2 & F3). split; [done|]. split; [eauto|]. destruct t as [[u1 p1] o1]. apply F3.
    - intros (F1 & (tb & Htb & F2) & F3).
      destruct (query_spec s (u, None, None) tb Hw (Hp tb Htb)) as (l' & s' & H1 & _ & H3 & H4). rewrite H4 in H1 by done.
      exists l'. split; [|apply E2; exists tb; split; [by rewrite Horder|done]]. apply H3. split; [done|]. split; [done|].
      destruct t as [[u1 p1] o1]. simpl. split; [done|]. split; by left.
  Qed.
  Lemma lives_tables (s : sess) t : stored (s_db s) t -> wfs s -> exists tb, tb ∈ all_tables s /\ lives t tb.
  Proof.
    intros Hs [Hw _]. destruct t as [[u p] [u'|e|v [d|]]]; unfold all_tables, lives; cbn [snd].
    - exists TRels. split; [left|done].
    - exists TTypes. split; [right; left|done].
    - destruct Hs as (si & _ & pi & w & _ & H3 & _). exists (TData d). split; [|done]. right. right.
      apply elem_of_list_In, in_map_iff. exists d. split; [done|]. apply elem_of_list_In.
      destruct (decide (d ∈ map fst (t_data (s_db s)))) as [Hd|Hd]; [done|]. exfalso.
      clear -Hd H3. induction (t_data (s_db s)) as [|[d0 r] l IH]; simpl in *; [by apply elem_of_nil in H3|].
      apply not_elem_of_cons in Hd as [Hd1 Hd2]. rewrite decide_False in H3 by congruence. by apply IH.
    - by destruct Hs as (? & _ & ?).
  Qed.
  Lemma all_tables_ok (s : sess) d : TData d ∈ all_tables s -> d ∈ (t_data (s_db s)).*1.
  Proof.
    unfold all_tables. intros H'. apply elem_of_cons in H' as [?|H']; [discriminate|]. apply elem_of_cons in H' as [?|H']; [discriminate|].
    apply elem_of_list_In, in_map_iff in H' as (d' & [= ->] & H'). by apply elem_of_list_In in H'.
  Qed.

  Lemma determine_ok T S s pat : inv T S s -> (forall t, S t -> storable T t) -> pat_ok T S pat ->
    (fst (fst pat), None, None) <> pat ->
    exists tb, determine_table rdf_type xsd_string kind (snd (fst pat)) (snd pat) = Ok tb /\ pat_table (s_db s) pat tb /\
      forall t, S t -> matches pat t -> lives t tb.
  Proof.
    intros (_ & _ & HT) Hst Hp Hne. destruct pat as [[u p] o]. cbn [fst snd] in *. destruct o as [[u'|e|v [d|]]|].
    - exists TRels. split; [done|]. split; [simpl; eauto|]. intros [[u1 p1] o1] _ (_ & _ & [?|[= <-]]); [discriminate|]. done.
    - exists TTypes. split; [done|]. split; [split; [by destruct p|eauto]|].
      intros [[u1 p1] o1] _ (_ & _ & [?|[= <-]]); [discriminate|]. done.
    - exists (TData d). assert (T d /\ good d v) as [Hd Hg] by (by destruct p). split; [done|]. split.
      { split; [by apply HT|]. right. eauto. }
      intros [[u1 p1] o1] _ (_ & _ & [?|[= <-]]); [discriminate|]. done.
    - by destruct p.
    - destruct p as [p|]; [|by destruct Hne]. simpl in Hp |- *. destruct (decide (p = rdf_type)) as [->|Hpt].
      + exists TTypes. split; [done|]. split; [split; by right + left|].
        intros [[u1 p1] o1] Ht (_ & [?|[= <-]] & _); [discriminate|]. apply Hst in Ht. destruct o1 as [?|?|? [?|]]; simpl in Ht; try done. naive_solver.
      + destruct Hp as [?|(k & Hk & Hf & Hd)]; [done|]. rewrite Hk. destruct k as [|d].
        * exists TRels. split; [done|]. split; [by left|].
          intros [[u1 p1] o1] Ht (_ & [?|[= <-]] & _); [discriminate|]. destruct (Hf _ _ Ht) as [u2 ->]. done.
        * exists (TData (default xsd_string d)). split; [done|]. split; [split; [apply HT; by apply Hd|by left]|].
          intros [[u1 p1] o1] Ht (_ & [?|[= <-]] & _); [discriminate|]. destruct (Hf _ _ Ht) as (_ & v & ->). done.
  Qed.

  Lemma triples_query s u p o : (p, o) <> (None, None) ->
    triples (u, p, o) s = match determine_table rdf_type xsd_string kind p o with Err e => (Err e, s) | Ok t => query (u, p, o) t s end.
  Proof. intros H'. destruct p, o; done. Qed.
  Lemma triples_spec T S s pat : inv T S s -> (forall t, S t -> storable T t) -> pat_ok T S pat ->
    exists l s', triples pat s = (Ok l, s') /\ step_ok s s' /\ (forall t, t ∈ l <-> S t /\ matches pat t).
  Proof.
    intros Hi Hst Hp. pose proof Hi as (Hw & HS & HT). destruct pat as [[u p] o].
    destruct (decide (p = None)) as [->|Hp0].
    1: destruct o as [o|].
    2:{ destruct (subject_spec s u (all_tables s) Hw) as (l & H1 & H2); [apply all_tables_ok|].
        exists l, s. split; [done|]. split; [by apply step_refl|]. intros [[u1 p1] o1]. rewrite H2, HS. simpl. split.
        - intros (F1 & _ & F2). split; [done|]. split; [done|]. split; by left.
        - intros (F1 & F2 & _). split; [done|]. split; [|done]. apply (lives_tables s); [by apply HS|done]. }
    1: assert ((@None E, Some o) <> (None, None)) as Hne by done.
    2: assert ((p, o) <> (None, None)) as Hne by (intros [=]; done).
    1: rewrite (triples_query s u None (Some o) Hne). 2: rewrite (triples_query s u p o Hne).
    1: destruct (determine_ok T S s _ Hi Hst Hp) as (tb & H1 & H2 & H3); [intros [=]|].
    2: destruct (determine_ok T S s _ Hi Hst Hp) as (tb & H1 & H2 & H3); [intros [=]; simpl in *; congruence|].
    all: cbn [fst snd] in H1; rewrite H1; destruct (query_spec s _ tb Hw H2) as (l & s' & Q1 & Q2 & Q3 & _);
      exists l, s'; split; [done|]; split; [done|]; intros t; rewrite Q3, HS; split; [tauto|];
      intros [F1 F2]; split; [done|]; split; [by apply H3|done].
  Qed.

  (** ** Loading *)
  Lemma type_query s u : wfs s -> exists l, triples (Some u, Some rdf_type, None) s = (Ok l, s) /\
    forall t, t ∈ l <-> stored (s_db s) t /\ exists e, t = (u, rdf_type, NEnt e).
  Proof.
    intros Hw. unfold Sql.triples. cbn [determine_table]. rewrite decide_True by done.
    unfold Sql.query, Sql.get_conditions, mbind' at 1 2, ret at 1.
    destruct (run_select_spec s (Some u, Some rdf_type, None) TTypes (Cond (Some u) None None None None) Hw) as (l & H1 & H2).
    { simpl. split; by right + left. } { simpl. done. }
    exists l. split; [exact H1|]. intros [[u1 p1] o1]. rewrite H2. unfold lives. simpl. split.
    - intros (F1 & F2 & [?|[= ->]] & [?|[= ->]] & _); [done|done|done|]. split; [done|].
      destruct o1 as [?|e|? [?|]]; try done. by exists e.
    - intros (F1 & e & [= -> -> ->]). split; [done|]. split; [done|]. split; [by right|]. split; [by right|by left].
  Qed.
  Lemma load_spec s u : wfs s ->
    exists l n, load_triples_for_iri u s = (Ok (l, n), s) /\
      (forall t, t ∈ l <-> stored (s_db s) t /\ fst (fst t) = u) /\
      (forall t, t ∈ n <-> stored (s_db s) t /\ exists u' e p, t = (u', rdf_type, NEnt e) /\ stored (s_db s) (u, p, NCuds u')).
  Proof.
    intros Hw. unfold Sql.load_triples_for_iri.
    destruct (subject_spec s (Some u) [TRels] Hw) as (l1 & H1 & H2).
    { intros d Hd. apply elem_of_list_singleton in Hd. discriminate. }
    unfold mbind' at 1. rewrite H1.
    match goal with |- context [mapMs ?f l1] => destruct (mapMs_same f s l1) as (ys & E1 & E2) end.
    { intros [[u1 p1] o1] _. destruct o1 as [u'|?|? ?]; [|eexists; reflexivity|eexists; reflexivity].
      destruct (type_query s u' Hw) as (l & -> & _). eauto. }
    unfold mbind' at 1. rewrite E1.
    destruct (subject_spec s (Some u) (filter (fun t => is_rels t = false) (all_tables s)) Hw) as (l2 & H3 & H4).
    { intros d Hd. apply elem_of_list_filter in Hd as [_ Hd]. by apply all_tables_ok. }
    exists (l1 ++ l2), (mjoin ys). unfold mbind'. rewrite H3. split; [done|]. split.
    - intros t. rewrite elem_of_app, H2, H4. split.
      + intros [(F1 & _ & [?|[= ->]])|(F1 & _ & [?|[= ->]])]; done.
      + intros [F1 F2]. destruct (lives_tables s t F1 Hw) as (tb & F3 & F4). destruct (is_rels tb) eqn:Eb.
        * left. split; [done|]. split; [|right; by rewrite F2]. destruct tb; try done. exists TRels. split; [by left|done].
        * right. split; [done|]. split; [|right; by rewrite F2]. exists tb. split; [|done]. by apply elem_of_list_filter.
    - intros t. rewrite elem_of_list_join. split.
      + intros (l & Hl & Hy). apply E2 in Hy as ([[u1 p1] o1] & Hx & Hq). apply H2 in Hx as (F1 & _ & [?|[= <-]]); [done|].
        destruct o1 as [u'|?|? ?]; [|injection Hq as <-; by apply elem_of_nil in Hl|injection Hq as <-; by apply elem_of_nil in Hl].
        destruct (type_query s u' Hw) as (l' & T1 & T2). rewrite T1 in Hq. injection Hq as <-. apply T2 in Hl as (G1 & e & ->).
        split; [done|]. by exists u', e, p1.
      + intros (G1 & u' & e & p1 & -> & G2). destruct (type_query s u' Hw) as (l' & T1 & T2). exists l'. split.
        * apply T2. split; [done|]. by exists e.
        * apply E2. exists (u, p1, NCuds u'). split; [|done]. apply H2. split; [done|]. split; [|by right]. exists TRels. split; [left|done].
  Qed.

  (** ** Removing *)
  Lemma keep_types s (keep : N * N -> bool) (Q : striple -> Prop) : wfs s ->
    (forall si u oi e, (si, u) ∈ t_cuds (s_db s) -> ent_is (s_db s) oi e -> keep (si, oi) = true <-> Q (u, rdf_type, NEnt e)) ->
    let s' := upd_types (filter (fun r => keep r = true)) s in
    wfs s' /\ (t_data (s_db s')).*1 = (t_data (s_db s)).*1 /\
    forall t, stored (s_db s') t <-> stored (s_db s) t /\ (lives t TTypes -> Q t).
  Proof.
    intros [Hw Hc] HQ. split; [|split; [done|]].
    - split; [|done]. destruct Hw as [A1 A2 A3 A4 A5 A6 A7 A8]. split; try done. simpl. intros a b Hin.
      apply elem_of_list_filter in Hin as [_ Hin]. by apply A6.
    - intros [[u p] o]. unfold stored, lives. simpl. destruct o as [u'|e|v [d|]]; try (split; [intros ?; split; [done|done]|by intros [? _]]).
      split.
      + intros (si & H1 & -> & oi & H2 & H3). apply elem_of_list_filter in H3 as [H3 H4]. split.
        * exists si. split; [done|]. split; [done|]. by exists oi.
        * intros _. by apply (HQ si u oi e).
      + intros ((si & H1 & -> & oi & H2 & H3) & Hq). exists si. split; [done|]. split; [done|]. exists oi. split; [done|].
        apply elem_of_list_filter. split; [|done]. apply (HQ si u oi e); [done|done|]. by apply Hq.
  Qed.
  Lemma keep_rels s (keep : N * N * N -> bool) (Q : striple -> Prop) : wfs s ->
    (forall si u pi p oi u', (si, u) ∈ t_cuds (s_db s) -> ent_is (s_db s) pi p -> (oi, u') ∈ t_cuds (s_db s) ->
       keep (si, pi, oi) = true <-> Q (u, p, NCuds u')) ->
    let s' := upd_rels (filter (fun r => keep r = true)) s in
    wfs s' /\ (t_data (s_db s')).*1 = (t_data (s_db s)).*1 /\
    forall t, stored (s_db s') t <-> stored (s_db s) t /\ (lives t TRels -> Q t).
  Proof.
    intros [Hw Hc] HQ. split; [|split; [done|]].
    - split; [|done]. destruct Hw as [A1 A2 A3 A4 A5 A6 A7 A8]. split; try done. simpl. intros a b c Hin.
      apply elem_of_list_filter in Hin as [_ Hin]. by apply A7.
    - intros [[u p] o]. unfold stored, lives. simpl. destruct o as [u'|e|v [d|]]; try (split; [intros ?; split; [done|done]|by intros [? _]]).
      split.
      + intros (si & H1 & pi & oi & H2 & H3 & H4). apply elem_of_list_filter in H4 as [H4 H5]. split.
        * exists si. split; [done|]. by exists pi, oi.
        * intros _. by apply (HQ si u pi p oi u').
      + intros ((si & H1 & pi & oi & H2 & H3 & H4) & Hq). exists si. split; [done|]. exists pi, oi. split; [done|]. split; [done|].
        apply elem_of_list_filter. split; [|done]. apply (HQ si u pi p oi u'); [done|done|done|]. by apply Hq.
  Qed.
  Lemma keep_data s d (keep : N * N * W -> bool) (Q : striple -> Prop) : wfs s -> d ∈ (t_data (s_db s)).*1 ->
    (forall si u pi p w, (si, u) ∈ t_cuds (s_db s) -> ent_is (s_db s) pi p -> wr d (rd d w) = Some w ->
       keep (si, pi, w) = true <-> Q (u, p, NLit (rd d w) (Some d))) ->
    let s' := upd_data d (filter (fun r => keep r = true)) s in
    wfs s' /\ (t_data (s_db s')).*1 = (t_data (s_db s)).*1 /\
    forall t, stored (s_db s') t <-> stored (s_db s) t /\ (lives t (TData d) -> Q t).
  Proof.
    intros [Hw Hc] Hd HQ.
    assert (forall d' r, r ∈ data_rows d' (map (fun x => if decide (fst x = d) then (fst x, filter (fun r => keep r = true) (snd x)) else x) (t_data (s_db s))) <->
       r ∈ data_rows d' (t_data (s_db s)) /\ (d' = d -> keep r = true)) as Hr.
    { intros d' r. rewrite (data_rows_upd_in d d' (filter (fun r => keep r = true))) by done. case_decide as He.
      - rewrite elem_of_list_filter. naive_solver.
      - naive_solver. }
    assert ((map (fun x => if decide (fst x = d) then (fst x, filter (fun r => keep r = true) (snd x)) else x) (t_data (s_db s))).*1 = (t_data (s_db s)).*1) as Hk.
    { apply (keys_upd d (filter (fun r => keep r = true))). }
    split; [|split; [exact Hk|]].
    - split; [|done]. destruct Hw as [A1 A2 A3 A4 A5 A6 A7 A8]. split; try done; simpl.
      + by rewrite Hk.
      + intros d' a b c Hin. apply Hr in Hin as [Hin _]. by apply A8.
    - intros [[u p] o]. unfold stored, lives. simpl. destruct o as [u'|e|v [d'|]]; try (split; [intros ?; split; [done|done]|by intros [? _]]).
      split.
      + intros (si & H1 & pi & w & H2 & H3 & H4). apply Hr in H3 as [H3 H5]. split.
        * exists si. split; [done|]. by exists pi, w.
        * intros [= <-]. rewrite <- H4. apply (HQ si u pi p w); [done|done|by apply (wf_rows _ Hw _ _ _ _ H3)|by apply H5].
      + intros ((si & H1 & pi & w & H2 & H3 & H4) & Hq). exists si. split; [done|]. exists pi, w. split; [done|]. split; [|done].
        apply Hr. split; [done|]. intros ->. apply (HQ si u pi p w); [done|done|by apply (wf_rows _ Hw _ _ _ _ H3)|]. rewrite H4. by apply Hq.
  Qed.

  Notation remove_from := (remove_from (E := E) split wr fresh).
  Notation remove := (remove rdf_type xsd_string split kind wr fresh order).

  Definition idx_opt (s : sess) (cs : option N) (u : option N) : Prop :=
    match u with None => cs = None | Some u => exists i, cs = Some i /\ (i, u) ∈ t_cuds (s_db s) end.
  Lemma idx_opt_iff s cs u si u0 : wfs s -> idx_opt s cs u -> (si, u0) ∈ t_cuds (s_db s) ->
    holds_opt cs si = true <-> (u = None \/ u = Some u0).
  Proof.
    intros [Hw _] Hi H0. rewrite holds_opt_iff. destruct u as [u|]; simpl in Hi; [|subst; naive_solver].
    destruct Hi as (i & -> & Hi). split.
    - intros [?|[= ->]]; [done|]. right. by rewrite (proj1 (wf_cuds _ Hw) _ _ _ Hi H0).
    - intros [?|[= ->]]; [done|]. right. by rewrite (proj2 (wf_cuds _ Hw) _ _ _ Hi H0).
  Qed.
  Definition ent_opt (s : sess) (cp : option N) (p : option E) : Prop :=
    match p with None => cp = None | Some e => exists i, cp = Some i /\ ent_is (s_db s) i e end.
  Lemma ent_opt_iff s cp p pi e : wfs s -> ent_opt s cp p -> ent_is (s_db s) pi e ->
    holds_opt cp pi = true <-> (p = None \/ p = Some e).
  Proof.
    intros [Hw _] Hi H0. rewrite holds_opt_iff. destruct p as [p|]; simpl in Hi; [|subst; naive_solver].
    destruct Hi as (i & -> & Hi). split.
    - intros [?|[= ->]]; [done|]. right. by rewrite (ent_fun _ _ _ _ Hw Hi H0).
    - intros [?|[= ->]]; [done|]. right. by rewrite (ent_inj _ _ _ _ Hw Hi H0).
  Qed.
  Lemma idx_opt_step s s' cs u : step_ok s s' -> idx_opt s cs u -> idx_opt s' cs u.
  Proof.
    intros [_ (_ & _ & _ & H4 & _)]. destruct u as [u|]; simpl; [|done]. intros (i & -> & Hi). exists i. split; [done|by apply H4].
  Qed.
  Lemma ent_opt_step s s' cs u : step_ok s s' -> ent_opt s cs u -> ent_opt s' cs u.
  Proof.
    intros [_ Hx]. destruct u as [u|]; simpl; [|done]. intros (i & -> & Hi). exists i. split; [done|by eapply ext_ent].
  Qed.
  Lemma ent_opt_get s p : wfs s -> exists cp s1, (match p with
                | None => ret None
                | Some e => mbind' (split_ns e) (fun x => mbind' (get_entity_idx x) (fun i => ret (Some i)))
                end) s = (Ok cp, s1) /\ step_ok s s1 /\ ent_opt s1 cp p.
  Proof.
    intros Hw. destruct p as [e|]; [|exists None, s; split; [done|]; split; [by apply step_refl|done]].
    destruct (entity_idx_spec s e Hw) as (x & s1 & i & s2 & H1 & H2 & _ & H3 & H4). exists (Some i), s2.
    unfold mbind'. rewrite H1, H2. split; [done|]. split; [done|]. simpl. eauto.
  Qed.
  Lemma negb_iff (b : bool) (P : Prop) : (b = true <-> P) -> negb b = true <-> ~ P.
  Proof. intros H'. rewrite <- H'. destruct b; simpl; naive_solver. Qed.

  Lemma remove_from_spec s pat tb : wfs s -> pat_table (s_db s) pat tb ->
    exists s', remove_from pat tb s = (Ok (), s') /\ wfs s' /\ (t_data (s_db s')).*1 = (t_data (s_db s)).*1 /\
      forall t, stored (s_db s') t <-> stored (s_db s) t /\ (lives t tb -> ~ matches pat t).
  Proof.
    intros Hw Hp. destruct pat as [[u p] o]. unfold Sql.remove_from.
    assert (exists cs s1, (match u with None => ret None | Some u => mbind' (get_cuds_idx u) (fun i => ret (Some i)) end) s = (Ok cs, s1) /\
       step_ok s s1 /\ idx_opt s1 cs u) as (cs & s1 & E1 & K1 & I1).
    { destruct u as [u|]; [|exists None, s; split; [done|]; split; [by apply step_refl|done]].
      destruct (get_cuds_idx_spec s u Hw) as (i & s1 & H1 & H2 & H3). exists (Some i), s1. unfold mbind'. rewrite H1. simpl. eauto. }
    unfold mbind' at 1. rewrite E1.
    assert (forall s2 s', step_ok s s2 -> wfs s' /\ (t_data (s_db s')).*1 = (t_data (s_db s2)).*1 /\
      (forall t, stored (s_db s') t <-> stored (s_db s2) t /\ (lives t tb -> ~ matches (u, p, o) t)) ->
      wfs s' /\ (t_data (s_db s')).*1 = (t_data (s_db s)).*1 /\
      (forall t, stored (s_db s') t <-> stored (s_db s) t /\ (lives t tb -> ~ matches (u, p, o) t))) as Hfin.
    { intros s2 s' [F1 F2] (F3 & F4 & F5). split; [done|]. split; [by rewrite F4, (ext_tables _ _ F2)|]. intros t.
      rewrite F5. rewrite (ext_stored (s_db s) (s_db s2) t); [done|apply Hw|apply F1|done]. }
    destruct tb as [| |d].
    - destruct Hp as [Hp Ho].
      assert (exists co s2, (match o with
                | None => ret None
                | Some (NEnt e) => mbind' (split_ns e) (fun x => mbind' (get_entity_idx x) (fun i => ret (Some i)))
                | Some _ => fail AttributeError
                end) s1 = (Ok co, s2) /\ step_ok s1 s2 /\
                ent_opt s2 co (match o with Some (NEnt e) => Some e | _ => None end)) as (co & s2 & E2 & K2 & I2).
      { destruct Ho as [->|[e ->]]; [exact (ent_opt_get s1 None (proj1 K1))|exact (ent_opt_get s1 (Some e) (proj1 K1))]. }
      unfold mbind' at 1. rewrite E2. eexists. split; [reflexivity|]. apply (Hfin s2); [by eapply step_trans|].
      apply (keep_types s2 (fun r => negb (holds_opt cs (fst r) && holds_opt co (snd r)))); [apply K2|].
      intros si u0 oi e H1 H2. apply negb_iff. simpl. rewrite andb_true_iff.
      rewrite (idx_opt_iff s2 cs u si u0 (proj1 K2) (idx_opt_step _ _ _ _ K2 I1) H1), (ent_opt_iff s2 co _ oi e (proj1 K2) I2 H2).
      destruct Ho as [->|[e' ->]].
      + split; [intros [? _]; split; [done|]; split; [done|by left]|]. intros (? & _ & _). split; [done|by left].
      + split.
        * intros [? [?|[= ->]]]; [done|]. split; [done|]. split; [done|by right].
        * intros (? & _ & [?|[= ->]]); [done|]. split; [done|by right].
    - destruct (ent_opt_get s1 p (proj1 K1)) as (cp & s2 & E2 & K2 & I2). unfold mbind' at 1. rewrite E2.
      destruct Hp as [->|[u' ->]].
      + eexists. split; [reflexivity|]. apply (Hfin s2); [by eapply step_trans|].
        apply (keep_rels s2 (fun r => negb (holds_opt cs (fst (fst r)) && holds_opt cp (snd (fst r))))); [apply K2|].
        intros si u0 pi e oi u1 H1 H2 H3. apply negb_iff. simpl. rewrite andb_true_iff.
        rewrite (idx_opt_iff s2 cs u si u0 (proj1 K2) (idx_opt_step _ _ _ _ K2 I1) H1), (ent_opt_iff s2 cp _ pi e (proj1 K2) I2 H2).
        split; [intros [? ?]; split; [done|]; split; [done|by left]|]. intros (? & ? & _). done.
      + destruct (get_cuds_idx_spec s2 u' (proj1 K2)) as (co & s3 & E3 & K3 & I3). unfold mbind'. rewrite E3.
        assert (step_ok s1 s3) as K by (by eapply step_trans).
        eexists. split; [reflexivity|]. apply (Hfin s3); [by eapply step_trans|].
        apply (keep_rels s3 (fun r => negb (holds_opt cs (fst (fst r)) && holds_opt cp (snd (fst r)) && bool_decide (snd r = co)))); [apply K3|].
        intros si u0 pi e oi u1 H1 H2 H3. apply negb_iff. simpl. rewrite !andb_true_iff, bool_decide_eq_true.
        rewrite (idx_opt_iff s3 cs u si u0 (proj1 K3) (idx_opt_step _ _ _ _ K I1) H1), (ent_opt_iff s3 cp _ pi e (proj1 K3) (ent_opt_step _ _ _ _ K3 I2) H2).
        assert (oi = co <-> u' = u1) as Ho.
        { split; [intros ->; exact (proj1 (wf_cuds _ (proj1 (proj1 K3))) _ _ _ I3 H3)|intros ->; exact (proj2 (wf_cuds _ (proj1 (proj1 K3))) _ _ _ H3 I3)]. }
        rewrite Ho. split.
        * intros [[? ?] ->]. split; [done|]. split; [done|by right].
        * intros (? & ? & [?|[= ->]]); done.
    - destruct Hp as [Hd Ho]. destruct (ent_opt_get s1 p (proj1 K1)) as (cp & s2 & E2 & K2 & I2). unfold mbind' at 1. rewrite E2.
      assert (step_ok s s2) as K by (by eapply step_trans).
      assert (d ∈ (t_data (s_db s2)).*1) as Hd2 by (by rewrite <- (ext_tables _ _ (proj2 K))).
      assert (has_table d s2 = true) as Ht by (apply bool_decide_eq_true; exact Hd2).
      destruct Ho as [->|(v & -> & w & Hwr & Hrd)].
      + rewrite Ht. eexists. split; [reflexivity|]. apply (Hfin s2); [done|].
        apply (keep_data s2 d (fun r => negb (holds_opt cs (fst (fst r)) && holds_opt cp (snd (fst r))))); [apply K2|done|].
        intros si u0 pi e w H1 H2 H3. apply negb_iff. simpl. rewrite andb_true_iff.
        rewrite (idx_opt_iff s2 cs u si u0 (proj1 K2) (idx_opt_step _ _ _ _ K2 I1) H1), (ent_opt_iff s2 cp _ pi e (proj1 K2) I2 H2).
        split; [intros [? ?]; split; [done|]; split; [done|by left]|]. intros (? & ? & _). done.
      + rewrite Hwr, Ht. eexists. split; [reflexivity|]. apply (Hfin s2); [done|].
        apply (keep_data s2 d (fun r => negb (holds_opt cs (fst (fst r)) && holds_opt cp (snd (fst r)) && bool_decide (snd r = w)))); [apply K2|done|].
        intros si u0 pi e w' H1 H2 H3. apply negb_iff. simpl. rewrite !andb_true_iff, bool_decide_eq_true.
        rewrite (idx_opt_iff s2 cs u si u0 (proj1 K2) (idx_opt_step _ _ _ _ K2 I1) H1), (ent_opt_iff s2 cp _ pi e (proj1 K2) I2 H2).
        split.
        * intros [[? ?] ->]. split; [done|]. split; [done|]. right. by rewrite Hrd.
        * intros (? & ? & [?|[= Hv]]); [done|]. split; [done|]. rewrite <- Hv in H3. congruence.
  Qed.

  Lemma remove_query s u p o : (p, o) <> (None, None) ->
    remove (u, p, o) s = match determine_table rdf_type xsd_string kind p o with Err e => (Err e, s) | Ok t => remove_from (u, p, o) t s end.
  Proof. intros H'. destruct p, o; done. Qed.
  Lemma remove_all_spec u tabs : forall s, wfs s -> (forall d, TData d ∈ tabs -> d ∈ (t_data (s_db s)).*1) ->
    exists r s', mapMs (remove_from (u, None, None)) tabs s = (Ok r, s') /\ wfs s' /\ (t_data (s_db s')).*1 = (t_data (s_db s)).*1 /\
      forall t, stored (s_db s') t <-> stored (s_db s) t /\ ((exists tb, tb ∈ tabs /\ lives t tb) -> ~ matches (u, None, None) t).
  Proof.
    induction tabs as [|tb tabs IH]; intros s Hw Ht.
    - exists [], s. split; [done|]. split; [done|]. split; [done|]. intros t. split; [|tauto]. intros ?. split; [done|].
      intros (tb & Htb & _). by apply elem_of_nil in Htb.
    - destruct (remove_from_spec s (u, None, None) tb Hw) as (s1 & H1 & H2 & H3 & H4).
      { destruct tb; simpl; [split; by left|by left|]. split; [apply Ht; left|by left]. }
      destruct (IH s1 H2) as (r & s2 & H5 & H6 & H7 & H8).
      { intros d Hd. rewrite H3. apply Ht. by right. }
      exists (() :: r), s2. cbn [mapMs]. unfold mbind'. rewrite H1, H5. split; [done|]. split; [done|]. split; [congruence|].
      intros t. rewrite H8, H4. split.
      + intros [[F1 F2] F3]. split; [done|]. intros (tb' & Htb & Hl). apply elem_of_cons in Htb as [->|Htb]; [by apply F2|]. apply F3. eauto.
      + intros [F1 F2]. split; [split; [done|]|].
        * intros Hl. apply F2. exists tb. split; [left|done].
        * intros (tb' & Htb & Hl). apply F2. exists tb'. split; [by right|done].
  Qed.
  Lemma remove_spec T S s pat : inv T S s -> (forall t, S t -> storable T t) -> pat_ok T S pat ->
    exists s', remove pat s = (Ok (), s') /\ inv T (fun t => S t /\ ~ matches pat t) s'.
  Proof.
    intros Hi Hst Hp. pose proof Hi as (Hw & HS & HT). destruct pat as [[u p] o].
    destruct (decide (p = None)) as [->|Hp0].
    1: destruct o as [o|].
    2:{ destruct (remove_all_spec u (order (all_tables s)) s Hw) as (r & s' & H1 & H2 & H3 & H4).
        { intros d Hd. rewrite Horder in Hd. by apply all_tables_ok. }
        exists s'. unfold Sql.remove, mbind'. rewrite H1. split; [done|]. split; [done|]. split.
        - intros t. rewrite H4, HS. split.
          + intros [F1 F2]. split; [done|]. apply F2. destruct (lives_tables s t) as (tb & ? & ?); [by apply HS|done|].
            exists tb. by rewrite Horder.
          + intros [F1 F2]. done.
        - intros d. by rewrite H3, HT. }
    1: assert ((@None E, Some o) <> (None, None)) as Hne by done.
    2: assert ((p, o) <> (None, None)) as Hne by (intros [=]; done).
    1: rewrite (remove_query s u None (Some o) Hne). 2: rewrite (remove_query s u p o Hne).
    1: destruct (determine_ok T S s _ Hi Hst Hp) as (tb & H1 & H2 & H3); [intros [=]|].
    2: destruct (determine_ok T S s _ Hi Hst Hp) as (tb & H1 & H2 & H3); [intros [=]; simpl in *; congruence|].
    all: cbn [fst snd] in H1; rewrite H1; destruct (remove_from_spec s _ tb Hw H2) as (s' & Q1 & Q2 & Q3 & Q4);
      exists s'; split; [done|]; split; [done|]; split; [|intros d; by rewrite Q3, HT];
      intros t; rewrite Q4, HS; split; [intros [F1 F2]; split; [done|]; intros F3; by apply F2; [apply H3|]|];
      intros [F1 F2]; done.
  Qed.

  (** ** Sessions and histories *)
  Lemma data_rows_app d (l : list (D * list (N * N * W))) ds :
    data_rows d (l ++ map (fun d => (d, [])) ds) = data_rows d l.
  Proof.
    induction l as [|[d0 r] l IH]; simpl; [|by rewrite IH].
    induction ds as [|d1 ds IH]; simpl; [done|]. by case_decide.
  Qed.
  Lemma initialize_spec T S s tabs : inv T S s -> inv (fun d => T d \/ d ∈ tabs) S (initialize tabs (s_db s)).
  Proof.
    intros ([Hw Hc] & HS & HT). unfold initialize, load_ns. simpl.
    set (db := s_db s) in *.
    set (new := filter (fun d => d ∉ map fst (t_data db)) (remove_dups tabs)).
    assert ((t_data db ++ map (fun d => (d, [])) new).*1 = (t_data db).*1 ++ new) as Hk.
    { rewrite fmap_app. f_equal. clearbody new. induction new as [|d l IH]; [done|]. cbn [map fmap list_fmap]. f_equal. exact IH. }
    split; [split; [|done]|split].
    - destruct Hw as [A1 A2 A3 A4 A5 A6 A7 A8]. split; try done; simpl.
      + rewrite Hk. apply NoDup_app. split; [done|]. split.
        * intros d Hd Hn. unfold new in Hn. by apply elem_of_list_filter in Hn as [Hn _].
        * unfold new. apply NoDup_filter, NoDup_remove_dups.
      + intros d a b w. rewrite data_rows_app. apply A8.
    - intros [[u p] o]. rewrite <- HS. unfold stored. simpl. destruct o as [u'|e|v [d|]]; try done.
      by setoid_rewrite data_rows_app.
    - intros d. simpl. rewrite Hk, elem_of_app, HT. unfold new. rewrite elem_of_list_filter, elem_of_remove_dups.
      change (map fst (t_data db)) with ((t_data db).*1). destruct (decide (d ∈ (t_data db).*1)); naive_solver.
  Qed.

  Definition exec (o : sop (E := E) (D := D) (V := V)) (s : sess) : res () * sess :=
    match o with
    | OAdd ts => add ts s
    | ORemove pat => remove pat s
    | OQuery pat => match triples pat s with (Ok _, s') => (Ok (), s') | (Err e, s') => (Err e, s') end
    | OLoad u => match load_triples_for_iri u s with (Ok _, s') => (Ok (), s') | (Err e, s') => (Err e, s') end
    | OReopen tabs => (Ok (), initialize tabs (s_db s))
    end.
  Definition run (l : list sop) : res () * sess :=
    foldl (fun x o => match x with (Ok _, s) => exec o s | (Err e, s) => (Err e, s) end) (Ok (), Sess empty_db []) l.

  Definition op_ok (T : D -> Prop) (S : striple -> Prop) (o : sop (E := E) (D := D) (V := V)) : Prop :=
    match o with
    | OAdd ts => forall t, t ∈ ts -> storable T t
    | ORemove pat => pat_ok T S pat
    | OQuery pat => pat_ok T S pat
    | OLoad _ => True
    | OReopen _ => True
    end.
  Inductive legal : list (sop (E := E) (D := D) (V := V)) -> Prop :=
  | legal_nil : legal []
  | legal_snoc l o : legal l -> op_ok (tables_after l) (after l) o -> legal (l ++ [o]).

  Lemma storable_mono (T T' : D -> Prop) t : (forall d, T d -> T' d) -> storable T t -> storable T' t.
  Proof.
    intros HT. destruct t as [[u p] [?|?|? [?|]]]; simpl; try done. intros (F1 & F2 & F3). split; [done|]. split; [by apply HT|done].
  Qed.
  Lemma inv_T (T T' : D -> Prop) S s : (forall d, T d <-> T' d) -> inv T S s -> inv T' S s.
  Proof. intros HT (H1 & H2 & H3). split; [done|]. split; [done|]. intros d. by rewrite <- HT. Qed.
  Lemma exec_spec T S s o : inv T S s -> (forall t, S t -> storable T t) -> op_ok T S o ->
    let T' := match o with OReopen tabs => fun d => T d \/ d ∈ tabs | _ => T end in
    exists s', exec o s = (Ok (), s') /\ inv T' (sop_spec S o) s' /\ (forall t, sop_spec S o t -> storable T' t).
  Proof.
    intros Hi Hst Ho. destruct o as [ts|pat|pat|u|tabs]; simpl.
    - destruct (add_spec T ts S s Hi Ho) as (s' & H1 & H2). exists s'. split; [done|]. split; [done|]. intros t [?|?]; auto.
    - destruct (remove_spec T S s pat Hi Hst Ho) as (s' & H1 & H2). exists s'. split; [done|]. split; [done|]. intros t [? _]; auto.
    - destruct (triples_spec T S s pat Hi Hst Ho) as (l & s' & H1 & H2 & _). exists s'. rewrite H1. split; [done|].
      split; [by eapply step_inv|done].
    - destruct (load_spec s u (proj1 Hi)) as (l & n & H1 & _). exists s. rewrite H1. done.
    - exists (initialize tabs (s_db s)). split; [done|]. split; [by apply initialize_spec|].
      intros t Ht. eapply storable_mono; [|by apply Hst]. by left.
  Qed.
  Lemma functional_nil {A B} : functional (@nil (A * B)).
  Proof. split; intros ? ? ? H'; by apply elem_of_nil in H'. Qed.
  Lemma run_inv l : legal l -> exists s, run l = (Ok (), s) /\ inv (tables_after l) (after l) s /\ (forall t, after l t -> storable (tables_after l) t).
  Proof.
    induction 1 as [|l o Hl (s & H1 & H2 & H3) Ho].
    - exists (Sess empty_db []). split; [done|]. split; [|done]. split; [split; [|done]|split].
      + split; simpl; try apply functional_nil; [constructor| | | |].
        all: intros; match goal with Hx : _ ∈ [] |- _ => by apply elem_of_nil in Hx end.
      + intros [[u p] o]. split; [|done]. intros (si & Hsi & _). by apply elem_of_nil in Hsi.
      + intros d. simpl. split; [|intros Hx; by apply elem_of_nil in Hx]. intros (tabs & Ht & _). by apply elem_of_nil in Ht.
    - destruct (exec_spec _ _ s o H2 H3 Ho) as (s' & F1 & F2 & F3). exists s'. unfold run in *. rewrite foldl_app. simpl. rewrite H1.
      split; [done|].
      assert (forall d, (match o with OReopen tabs => fun d => tables_after l d \/ d ∈ tabs | _ => tables_after l end) d <-> tables_after (l ++ [o]) d) as HT.
      { intros d. unfold tables_after. setoid_rewrite elem_of_app. setoid_rewrite elem_of_list_singleton.
        destruct o as [ts|pat|pat|u|tabs]; try (split; [intros (tabs & ? & ?); eauto|intros (tabs & [?|?] & ?); [eauto|discriminate]]).
        split.
        - intros [(tabs' & ? & ?)|?]; eauto.
        - intros (tabs' & [?|[= ->]] & ?); [left; eauto|by right]. }
      unfold after. rewrite foldl_app. simpl. split; [by eapply inv_T|].
      intros t Ht. eapply storable_mono; [|by apply F3]. intros d. apply HT.
  Qed.
End Proofs.

(** ** C32 *)
(** ** A session whose namespace cache is older than the database *)
Section Stale.
  Context {E NS NM D V W : Type}.
  Context `{EqDecision E} `{EqDecision NS} `{EqDecision NM} `{EqDecision D} `{EqDecision V} `{EqDecision W}.
  Notation sess := (sess NS NM D W).
  Notation M := (@Sql.M NS NM D W).
  Context (rdf_type : E) (xsd_string : D) (split : E -> NS * NM) (join : NS -> NM -> E).
  Context (kind : E -> option (pkind D)) (wr : D -> V -> option W) (rd : D -> W -> V).
  Context (fresh : list N -> N) (order : list (table D) -> list (table D)).

  (** A session whose namespace cache is older than the database reads the same.
      [sim s0 m]: m only reads, and gives the same result with an older cache. *)
  Definition older (s0 : sess) (c : list (N * NS)) : Prop := c ⊆ t_ns (s_db s0).
  Definition sim {A} (s0 : sess) (m : M A) : Prop :=
    forall c, older s0 c -> exists c', older s0 c' /\ m (Sess (s_db s0) c) = (fst (m s0), Sess (s_db s0) c') /\ snd (m s0) = s0.
  Lemma sim_ret {A} s0 (a : A) : sim s0 (ret a).
  Proof. intros c Hc. exists c. done. Qed.
  Lemma sim_fail {A} s0 e : sim s0 (fail (A := A) e).
  Proof. intros c Hc. exists c. done. Qed.
  Lemma sim_bind {A B} s0 m (f : A -> M B) : sim s0 m -> (forall a, sim s0 (f a)) -> sim s0 (mbind' m f).
  Proof.
    intros Hm Hf c Hc. destruct (Hm c Hc) as (c1 & Hc1 & E1 & E2). unfold mbind'. rewrite E1.
    destruct (m s0) as [[a|e] s1] eqn:Em; simpl in *; subst s1.
    - apply Hf. done.
    - exists c1. done.
  Qed.
  Lemma sim_mapMs {A B} s0 (f : A -> M B) l : (forall a, sim s0 (f a)) -> sim s0 (mapMs f l).
  Proof.
    intros Hf. induction l as [|x l IH]; cbn [mapMs]; [apply sim_ret|].
    apply sim_bind; [apply Hf|]. intros y. apply sim_bind; [apply IH|]. intros ys. apply sim_ret.
  Qed.
  Lemma sim_get_ns s0 i : functional (t_ns (s_db s0)) -> s_cache s0 = t_ns (s_db s0) -> sim s0 (get_ns i).
  Proof.
    intros Hfun Hcache c Hc. destruct s0 as [db cache]. simpl in *. subst cache. unfold get_ns, load_ns. simpl.
    assert (Hv : forall (l : list (N * NS)) n, find_val l i = Some n -> (i, n) ∈ l).
    { induction l as [|[j b] l IH]; intros n; simpl; [done|]. case_decide; [intros [= ->]; subst; left|].
      intros H1%IH. by right. }
    destruct (find_val c i) as [n|] eqn:Ef.
    - apply Hv, Hc in Ef as Hin. rewrite (find_val_in (t_ns db) i n Hfun Hin). exists c. split; [exact Hc|]. rewrite ?Ef. split; reflexivity.
    - exists (t_ns db). split; [intros x Hx; exact Hx|]. destruct (find_val (t_ns db) i) as [n|] eqn:Eg; simpl; rewrite ?Eg; done.
  Qed.
  Lemma sim_state {A} s0 (f : sess -> M A) :
    (forall c, f (Sess (s_db s0) c) = f s0) -> sim s0 (f s0) -> sim s0 (fun s => f s s).
  Proof. intros He Hs c Hc. rewrite He. by apply Hs. Qed.

  Context (s0 : sess).
  Context (Hfun : functional (t_ns (s_db s0))) (Hcache : s_cache s0 = t_ns (s_db s0)).
  Lemma sim_iri_of x : sim s0 (iri_of join x).
  Proof. unfold iri_of. apply sim_bind; [by apply sim_get_ns|]. intros n. apply sim_ret. Qed.
  Lemma sim_run_select tb c : sim s0 (run_select rdf_type join rd tb c).
  Proof.
    destruct tb as [| |d]; unfold run_select.
    - apply (sim_state s0 (fun s => mapMs _ (select_types (s_db s) c))); [done|]. apply sim_mapMs. intros r.
      apply sim_bind; [apply sim_iri_of|]. intros e. apply sim_ret.
    - apply (sim_state s0 (fun s => mapMs _ (select_rels (s_db s) c))); [done|]. apply sim_mapMs. intros r.
      apply sim_bind; [apply sim_iri_of|]. intros e. apply sim_ret.
    - intros c0 Hc0. cbv beta. change (has_table d (Sess (s_db s0) c0)) with (has_table d s0). cbn [s_db].
      destruct (has_table d s0); [|exists c0; done]. apply sim_mapMs; [|done]. intros r.
      apply sim_bind; [apply sim_iri_of|]. intros e. apply sim_ret.
  Qed.

  Lemma sim_query tb u : sim s0 (query rdf_type split join wr rd fresh (u, None, None) tb).
  Proof. unfold query. apply sim_bind; [|intros c; apply sim_run_select]. destruct tb; apply sim_ret. Qed.
  Lemma sim_subject u ts : sim s0 (triples_for_subject rdf_type split join wr rd fresh order u ts).
  Proof.
    unfold triples_for_subject. apply sim_bind; [|intros; apply sim_ret]. apply sim_mapMs. intros tb. apply sim_query.
  Qed.
  Lemma sim_types o : sim s0 (triples rdf_type xsd_string split join kind wr rd fresh order (Some o, Some rdf_type, None)).
  Proof.
    unfold triples, determine_table. rewrite decide_True by done. unfold query.
    apply sim_bind; [|intros c; apply sim_run_select]. apply sim_ret.
  Qed.
  Lemma sim_load u : sim s0 (load_triples_for_iri rdf_type xsd_string split join kind wr rd fresh order u).
  Proof.
    unfold load_triples_for_iri. apply sim_bind; [apply sim_subject|]. intros ts.
    apply sim_bind.
    - apply sim_mapMs. intros [[a p] [o|e|v d]]; [apply sim_types|apply sim_ret..].
    - intros ns. apply (sim_state s0 (fun s => mbind' (triples_for_subject rdf_type split join wr rd fresh order (Some u)
          (filter (fun t => is_rels t = false) (all_tables s))) (fun ts' => ret (ts ++ ts', mjoin ns)))); [done|].
      apply sim_bind; [apply sim_subject|]. intros; apply sim_ret.
  Qed.
End Stale.

Section Theorems.
  Context {E NS NM D V W : Type}.
  Context `{EqDecision E} `{EqDecision NS} `{EqDecision NM} `{EqDecision D} `{EqDecision V} `{EqDecision W}.
  Context (rdf_type : E) (xsd_string : D) (split : E -> NS * NM) (join : NS -> NM -> E).
  Context (kind : E -> option (pkind D)) (wr : D -> V -> option W) (rd : D -> W -> V).
  Context (fresh : list N -> N) (order : list (table D) -> list (table D)).
  Context (Hsplit : forall e, join (fst (split e)) (snd (split e)) = e).
  Context (Hfresh : forall l, fresh l ∉ l) (Horder : forall l t, t ∈ order l <-> t ∈ l).
  Notation run := (run rdf_type xsd_string split join kind wr rd fresh order).
  Notation legal := (legal rdf_type xsd_string kind wr rd).
  Notation pat_ok := (pat_ok rdf_type xsd_string kind wr rd).

  (** After every history of adds, removes, queries and new sessions, no operation has
      raised and every query returns exactly the triples that were added and not
      removed. *)
  Theorem C32_query l pat : legal l -> pat_ok (tables_after l) (after l) pat ->
    exists s r s', run l = (Ok (), s) /\
      triples rdf_type xsd_string split join kind wr rd fresh order pat s = (Ok r, s') /\
      forall t, t ∈ r <-> after l t /\ matches pat t.
  Proof.
    intros Hl Hp. destruct (run_inv rdf_type xsd_string split join kind wr rd fresh order Hsplit Hfresh Horder l Hl) as (s & H1 & H2 & H3).
    destruct (triples_spec rdf_type xsd_string split join kind wr rd fresh order Hsplit Hfresh Horder _ _ s pat H2 H3 Hp) as (r & s' & H4 & _ & H5).
    by exists s, r, s'.
  Qed.

  (** Loading an object gives exactly its triples, and the classes of its neighbours. *)
  Theorem C32_load l u : legal l ->
    exists s r n, run l = (Ok (), s) /\
      load_triples_for_iri rdf_type xsd_string split join kind wr rd fresh order u s = (Ok (r, n), s) /\
      (forall t, t ∈ r <-> after l t /\ fst (fst t) = u) /\
      (forall t, t ∈ n <-> after l t /\ exists u' e p, t = (u', rdf_type, NEnt e) /\ after l (u, p, NCuds u')).
  Proof.
    intros Hl. destruct (run_inv rdf_type xsd_string split join kind wr rd fresh order Hsplit Hfresh Horder l Hl) as (s & H1 & H2 & H3).
    destruct (load_spec rdf_type xsd_string split join kind wr rd fresh order Hsplit Hfresh Horder s u (proj1 H2)) as (r & n & H4 & H5 & H6).
    exists s, r, n. split; [done|]. split; [done|]. destruct H2 as (_ & HS & _). split.
    - intros t. by rewrite H5, HS.
    - intros t. rewrite H6, HS. by setoid_rewrite HS.
  Qed.

  (** Committing an updated object (remove all of it, add what it is now) leaves
      exactly its new triples, and the other objects as they were. *)
  Theorem C32_update l u ts : legal l -> (forall t, t ∈ ts -> storable rdf_type wr rd (tables_after l) t /\ fst (fst t) = u) ->
    forall u', exists s r n, run (l ++ [ORemove (Some u, None, None); OAdd ts]) = (Ok (), s) /\
      load_triples_for_iri rdf_type xsd_string split join kind wr rd fresh order u' s = (Ok (r, n), s) /\
      forall t, t ∈ r <-> if decide (u' = u) then t ∈ ts else after l t /\ fst (fst t) = u'.
  Proof.
    intros Hl Hts u'. assert (legal (l ++ [ORemove (Some u, None, None); OAdd ts])) as Hl2.
    { change [ORemove (Some u, None, None); OAdd ts] with ([ORemove (E := E) (D := D) (V := V) (Some u, None, None)] ++ [OAdd ts]).
      rewrite (app_assoc l). constructor.
      - by constructor.
      - simpl. intros t Ht. eapply storable_mono; [|by apply Hts]. intros d (tabs & Hd & ?). exists tabs. split; [|done]. apply elem_of_app. by left. }
    destruct (C32_load _ u' Hl2) as (s & r & n & H1 & H2 & H3 & _). exists s, r, n. split; [done|]. split; [done|].
    intros [[u1 p1] o1]. rewrite H3. unfold after. rewrite foldl_app. simpl. fold (after l). case_decide as Hd.
    - subst. split.
      + intros [[[F1 F2]|F1] F3]; [|done]. exfalso. apply F2. simpl in F3. subst. split; [by right|]. split; by left.
      + intros F1. split; [by right|]. by apply (Hts _ F1).
    - split.
      + intros [[[F1 F2]|F1] F3]; [done|]. apply Hts in F1 as [_ F1]. simpl in F1, F3. congruence.
      + intros [F1 F2]. split; [|done]. left. split; [done|]. intros ([?|[= ->]] & _); done.
  Qed.

  (** No value is lost silently: adding a literal that cannot be converted to its datatype's
      column, or whose datatype has no table, raises, whatever else is added with it. *)
  Theorem C32_unstorable_refused l before u p v d others : legal l ->
    (forall t, t ∈ before -> storable rdf_type wr rd (tables_after l) t) ->
    wr d v = None \/ ~ tables_after l d ->
    exists s, run (l ++ [OAdd (before ++ (u, p, NLit v (Some d)) :: others)]) =
      (Err (if wr d v then NoSuchTable else ValueError), s).
  Proof.
    intros Hl Hb Hbad. destruct (run_inv rdf_type xsd_string split join kind wr rd fresh order Hsplit Hfresh Horder l Hl) as (s & H1 & H2 & _).
    unfold PropSql.run in *. rewrite foldl_app. cbn [foldl]. rewrite H1. cbn [exec]. unfold add.
    enough (exists s', mapMs (add1 rdf_type xsd_string split kind wr fresh) (before ++ (u, p, NLit v (Some d)) :: others) s =
              (Err (if wr d v then NoSuchTable else ValueError), s')) as [s' E'].
    { exists s'. unfold mbind'. by rewrite E'. }
    clear H1. set (S := after l) in H2. clearbody S. revert S s H2. induction before as [|t before IH]; intros S s Hi.
    - cbn [app mapMs]. unfold mbind' at 1. cbn [add1 determine_table].
      unfold mbind'. pose proof Hi as (Hw & _ & HT).
      destruct (get_cuds_idx_spec rdf_type split kind wr rd fresh Hfresh s u Hw) as (si & s1 & -> & K1 & _).
      destruct (entity_idx_spec rdf_type split kind wr rd fresh Hfresh s1 p (proj1 K1)) as (x & s2 & pi & s3 & -> & -> & _ & K3 & _).
      assert (step_ok split wr rd s s3) as K by (by eapply step_trans). destruct K as [_ K].
      unfold insert_data. destruct (wr d v) as [w|]; [|by eexists]. destruct Hbad as [?|Hbad]; [done|].
      unfold has_table. rewrite bool_decide_eq_false_2; [by eexists|]. intros Hin. apply Hbad, HT. rewrite (ext_tables _ _ K). exact Hin.
    - cbn [app mapMs]. unfold mbind'.
      destruct (add1_spec rdf_type xsd_string split join kind wr rd fresh order Hsplit Hfresh Horder _ S s t Hi) as (s1 & -> & H3); [apply Hb; left|].
      destruct (IH ltac:(intros x Hx; apply Hb; by right) _ s1 H3) as [s2 ->]. by eexists.
  Qed.

  (** A failed commit followed by a new session is as if nothing had been attempted. *)
  Theorem C32_rollback_reopen l l' tabs : legal l ->
    exists s, run l = (Ok (), s) /\
      forall s', snd (run (l ++ l')) = s' ->
        initialize tabs (s_db (rollback (s_db s) s')) = initialize tabs (s_db s) /\
        run (l ++ [OReopen tabs]) = (Ok (), initialize tabs (s_db (rollback (s_db s) s'))).
  Proof.
    intros Hl. destruct (run_inv rdf_type xsd_string split join kind wr rd fresh order Hsplit Hfresh Horder l Hl) as (s & H1 & _).
    exists s. split; [done|]. intros s' _. split; [done|]. unfold PropSql.run in *. rewrite foldl_app. simpl. by rewrite H1.
  Qed.

  (** A session that opened the database earlier (its cache lacks the namespaces other
      sessions have added meanwhile) loads every object exactly as stored. *)
  Theorem C32_other_session l u : legal l ->
    exists s, run l = (Ok (), s) /\ forall cache, cache ⊆ t_ns (s_db s) ->
    exists r n s', load_triples_for_iri rdf_type xsd_string split join kind wr rd fresh order u (Sess (s_db s) cache) = (Ok (r, n), s') /\
      s_db s' = s_db s /\ s_cache s' ⊆ t_ns (s_db s) /\
      (forall t, t ∈ r <-> after l t /\ fst (fst t) = u) /\
      (forall t, t ∈ n <-> after l t /\ exists u' e p, t = (u', rdf_type, NEnt e) /\ after l (u, p, NCuds u')).
  Proof.
    intros Hl. destruct (C32_load l u Hl) as (s & r & n & H1 & H2 & H3 & H4). exists s. split; [done|].
    intros cache Hc. destruct (run_inv rdf_type xsd_string split join kind wr rd fresh order Hsplit Hfresh Horder l Hl) as (s1 & H5 & H6 & _).
    rewrite H1 in H5. injection H5 as <-. destruct H6 as [[Hw Hca] _].
    destruct (sim_load rdf_type xsd_string split join kind wr rd fresh order s (wf_ns _ _ _ _ Hw) Hca u cache Hc) as (c' & Hc' & E1 & _).
    rewrite H2 in E1. exists r, n, (Sess (s_db s) c'). done.
  Qed.
End Theorems.

(** ** Examples *)
(* entities are pairs of a namespace and a name, values are numbers *)
Definition xT : N * N := (0, 0).
Definition xkind (e : N * N) : option (pkind N) :=
  if decide (fst e = 1) then Some PRel else if decide (fst e = 2) then Some (PAttr (Some 4)) else None.
Definition xwr (d v : N) : option N := Some (v + 1).
Definition xrd (d w : N) : N := w - 1.
Definition xfresh (l : list N) : N := foldr N.max 0 l + 1.
Lemma xfresh_ok l : xfresh l ∉ l.
Proof.
  unfold xfresh. intros Hin. assert (forall x, x ∈ l -> x <= foldr N.max 0 l) as Hm.
  { clear. induction l as [|y l IH]; intros x Hx; [by apply elem_of_nil in Hx|]. simpl.
    apply elem_of_cons in Hx as [->|Hx]; [lia|]. specialize (IH x Hx). lia. }
  apply Hm in Hin. lia.
Qed.
Notation xrun := (run xT 4 id pair xkind xwr xrd xfresh id).
Notation xlegal := (legal xT 4 xkind xwr xrd).
Definition xh : list (@sop (N * N) N N) :=
  [ OReopen [4];
    OAdd [(10, xT, NEnt (3, 1)); (10, (1, 1), NCuds 11); (11, xT, NEnt (3, 2)); (11, (1, 2), NCuds 10); (10, (2, 1), NLit 7 (Some 4))];
    ORemove (Some 10, None, None);
    OAdd [(10, xT, NEnt (3, 1)); (10, (2, 1), NLit 8 (Some 4))];
    OReopen [4; 5] ].
Ltac in_cases H := repeat (apply elem_of_cons in H as [H|H]); [..|by apply elem_of_nil in H].
Example C32_example_legal : xlegal xh.
Proof.
  apply (legal_snoc _ _ _ _ _ [_; _; _; _]); [|done].
  apply (legal_snoc _ _ _ _ _ [_; _; _]); [|].
  - apply (legal_snoc _ _ _ _ _ [_; _]); [|done]. apply (legal_snoc _ _ _ _ _ [_]); [apply (legal_snoc _ _ _ _ _ []); [constructor|done]|].
    simpl. intros t Ht. in_cases Ht; subst; simpl; try done. split; [done|]. split.
    + exists [4]. split; left.
    + exists 8. done.
  - simpl. intros t Ht. in_cases Ht; subst; simpl; try done. split; [done|]. split.
    + exists [4]. split; left.
    + exists 9. done.
Qed.
Example C32_example_load :
  let s := snd (xrun xh) in
  load_triples_for_iri xT 4 id pair xkind xwr xrd xfresh id 10 s =
    (Ok ([(10, xT, NEnt (3, 1)); (10, (2, 1), NLit 8 (Some 4))], []), s) /\
  load_triples_for_iri xT 4 id pair xkind xwr xrd xfresh id 11 s =
    (Ok ([(11, (1, 2), NCuds 10); (11, xT, NEnt (3, 2))], [(10, xT, NEnt (3, 1))]), s).
Proof. vm_compute. done. Qed.

(** After the history xh there is no table for the datatype 6. *)
Example C32_example_refused :
  fst (xrun (xh ++ [OAdd [(12, xT, NEnt (3, 1)); (12, (2, 1), NLit 7 (Some 6)); (12, (1, 1), NCuds 10)]])) = Err NoSuchTable.
Proof. vm_compute. done. Qed.

(** Refuted: a failed commit has no effect.  The session's cached namespace indexes
    survive the rollback.  Here the first commit of an object of namespace 3 is rolled
    back and repeated: the object cannot be loaded by a new session (KeyError). *)
Definition x_obj : striple (N * N) N N := (10, xT, NEnt (3, 1)).
Notation xadd := (add xT 4 id xkind xwr xfresh).
Definition x0 := snd (xrun [OReopen [4]]).
Definition x1 := rollback (s_db x0) (snd (xadd [x_obj] x0)).
Definition x2 := snd (xadd [x_obj] x1).
Theorem C32_rollback_refuted :
  fst (xadd [x_obj] x1) = Ok () /\
  fst (load_triples_for_iri (V := N) xT 4 id pair xkind xwr xrd xfresh id 10 (initialize [4] (s_db x2))) = Err KeyError.
Proof. vm_compute. done. Qed.
(** If meanwhile an object of another namespace, 5, is stored, the first object's class
    is read as one of namespace 5. *)
Theorem C32_rollback_wrong_class_refuted :
  let x3 := snd (xadd [(11, xT, NEnt (5, 2))] x2) in
  fst (xadd [(11, xT, NEnt (5, 2))] x2) = Ok () /\
  fst (load_triples_for_iri (V := N) xT 4 id pair xkind xwr xrd xfresh id 10 (initialize [4] (s_db x3))) =
    Ok ([(10, xT, NEnt (5, 1))], []).
Proof. vm_compute. done. Qed.

(** Refuted: literals without datatype come back as they were. *)
Theorem C32_untyped_literal_refuted :
  let s := snd (xadd [(10, (2, 1), NLit 7 None)] x0) in
  fst (load_triples_for_iri xT 4 id pair xkind xwr xrd xfresh id 10 s) = Ok ([(10, (2, 1), NLit 7 (Some 4))], []).
Proof. vm_compute. done. Qed.

(** Refuted: an entity as object of another predicate than rdf:type is kept as such. *)
Theorem C32_entity_object_refuted :
  let s := snd (xadd [(10, (1, 1), NEnt (3, 1))] x0) in
  fst (load_triples_for_iri (V := N) xT 4 id pair xkind xwr xrd xfresh id 10 s) = Ok ([(10, xT, NEnt (3, 1))], []).
Proof. vm_compute. done. Qed.

(** Refuted: two sessions on one database.  Both add namespace 3, it gets two indexes;
    afterwards a query by class does not find the first session's object. *)
Theorem C32_two_sessions_refuted :
  let a := snd (xadd [x_obj] x0) in
  let b := snd (xadd [(11, xT, NEnt (3, 1))] (Sess (s_db a) (s_cache x0))) in
  let q := triples xT 4 id pair xkind xwr xrd xfresh id (None, Some xT, Some (NEnt (3, 1))) b in
  fst (xadd [(11, xT, NEnt (3, 1))] (Sess (s_db a) (s_cache x0))) = Ok () /\
  fst q = Ok [(11, xT, NEnt (3, 1))] /\
  fst (load_triples_for_iri (V := N) xT 4 id pair xkind xwr xrd xfresh id 10 b) = Ok ([(10, xT, NEnt (3, 1))], []).
Proof. vm_compute. done. Qed.

(** Refuted for sqlite (sqlite_session.py:217-241): the column of xsd:string is
    declared REAL.  Model of sqlite's conversion for texts of decimal digits, which is
    SQLite's behaviour and not in /repo: they are stored as floating point numbers and
    str() of the number read back ends in ".0". *)
Definition digits_val (l : list N) : option N :=
  if forallb (fun c => (48 <=? c) && (c <=? 57)) l then
    match l with [] => None | _ => Some (foldl (fun a c => 10 * a + (c - 48)) 0 l) end
  else None.
Fixpoint show (fuel : nat) (n : N) : list N :=
  match fuel with
  | O => []
  | S f => if n <? 10 then [48 + n] else show f (n / 10) ++ [48 + n mod 10]
  end.
Definition real_wr (d : N) (v : list N) : option (N + list N) :=
  Some (match digits_val v with Some n => inl n | None => inr v end).
Definition real_rd (d : N) (w : N + list N) : list N :=
  match w with inl n => show 20 n ++ [46; 48] | inr v => v end.
Theorem C32_numeric_string_refuted :
  let txt := [48; 48; 55] in
  let s0 := snd (run xT 4 id pair xkind real_wr real_rd xfresh id [OReopen [4]]) in
  let s := snd (add xT 4 id xkind real_wr xfresh [(10, (2, 1), NLit txt (Some 4))] s0) in
  fst (load_triples_for_iri xT 4 id pair xkind real_wr real_rd xfresh id 10 s) =
    Ok ([(10, (2, 1), NLit [55; 46; 48] (Some 4))], []).
Proof. vm_compute. done. Qed.

Print Assumptions C32_query.
Print Assumptions C32_load.
Print Assumptions C32_update.
Print Assumptions C32_rollback_reopen.
Print Assumptions C32_rollback_refuted.
Print Assumptions C32_unstorable_refused.
