(** Theorems about searching and exporting wrapper sessions (property C62). *)
From stdpp Require Import base sets list gmap countable.
From Verif Require Import Prelude Cuds CudsProofs PropCuds Wrapper WrapperProofs
  WrapperRefine WrapperOps PropWrapper PropTraverse WrapperFind WrapperFirst Onto OClass Yml FullGraph.

(** ** Specification *)

(** The triple declares a datatype of the CUBA namespace or gives one as range. *)
Definition about_custom (in_cuba : term -> bool) (g : ograph) (t : otriple) : Prop :=
  exists d, in_cuba d = true /\ (d, p_type, rdfs_Datatype) ∈ g /\
    (t = (d, p_type, rdfs_Datatype) \/ exists s, t = (s, p_range, d)).

Lemma elem_triples g p t : t ∈ triples g p <-> t ∈ g /\ pat_match p t = true.
Proof. unfold triples. rewrite elem_of_list_filter, elem_of_elements. tauto. Qed.

Lemma elem_custom in_cuba g d :
  d ∈ custom_datatypes in_cuba g <-> in_cuba d = true /\ (d, p_type, rdfs_Datatype) ∈ g.
Proof.
  unfold custom_datatypes. rewrite elem_of_filter, elem_of_list_to_set, elem_of_list_fmap. split.
  - intros [Hc ([[s p] o] & -> & Ht)]. split; [done|]. apply elem_triples in Ht as [Ht Hm].
    unfold pat_match in Hm. cbn [fst]. rewrite !andb_true_iff, !bool_decide_eq_true in Hm. destruct Hm as [[<- _] <-]. done.
  - intros [Hc Ht]. split; [done|]. exists (d, p_type, rdfs_Datatype). split; [done|].
    apply elem_triples. split; [done|]. unfold pat_match. rewrite !bool_decide_true by done. done.
Qed.

Lemma elem_custom_triples in_cuba g t : t ∈ g -> t ∈ custom_triples in_cuba g <-> about_custom in_cuba g t.
Proof.
  intros Hg. unfold custom_triples, about_custom. rewrite elem_of_union, elem_of_map, elem_of_list_to_set, elem_of_list_join. split.
  - intros [(d & -> & Hd)|(k & Hk & Hkk)].
    + apply elem_custom in Hd as [H1 H2]. exists d. split; [done|]. split; [done|by left].
    + apply elem_of_list_fmap in Hkk as (d & -> & Hd). apply elem_of_elements, elem_custom in Hd as [H1 H2].
      exists d. split; [done|]. split; [done|]. right. apply elem_triples in Hk as [_ Hm].
      destruct t as [[s p] o]. unfold pat_match in Hm. rewrite !andb_true_iff, !bool_decide_eq_true in Hm.
      destruct Hm as [[<- _] <-]. by exists s.
  - intros (d & H1 & H2 & H3). assert (d ∈ custom_datatypes in_cuba g) as Hd by by apply elem_custom.
    destruct H3 as [-> | (s & ->)]; [left; by exists d|right].
    exists (triples g (None, p_range, Some d)). split.
    + apply elem_triples. split; [done|]. unfold pat_match. rewrite !bool_decide_true by done. done.
    + apply elem_of_list_fmap. exists d. split; [done|]. by apply elem_of_elements.
Qed.

(** ** C62 *)

(** The graph of a session together with the ontology, without the triples about
    custom datatypes if these are to be skipped. *)
Theorem C62_union in_cuba c g skip :
  (forall t, inl t ∈ rdf_graph in_cuba c g skip <-> t ∈ c) /\
  (forall t, inr t ∈ rdf_graph in_cuba c g skip <-> t ∈ g /\ (skip = true -> ~ about_custom in_cuba g t)).
Proof.
  unfold rdf_graph. split; intros t.
  - assert (inl t ∈ (set_map inl c : gset (triple + otriple)) ∪ set_map inr g <-> t ∈ c) as H.
    { rewrite elem_of_union, !elem_of_map. split; [|intros H; left; by exists t].
      intros [(x & E & Hx)|(x & E & _)]; [|discriminate E]. injection E as ->. done. }
    destruct skip; [|exact H]. rewrite elem_of_difference, H. split; [tauto|]. intros Ht. split; [done|].
    rewrite elem_of_map. intros (x & E & _). discriminate E.
  - assert (inr t ∈ (set_map inl c : gset (triple + otriple)) ∪ set_map inr g <-> t ∈ g) as H.
    { rewrite elem_of_union, !elem_of_map. split; [|intros H; right; by exists t].
      intros [(x & E & _)|(x & E & Hx)]; [discriminate E|]. injection E as ->. done. }
    destruct skip.
    + rewrite elem_of_difference, H, elem_of_map. split.
      * intros [Hg Hn]. split; [done|]. intros _ Ha. apply Hn. exists t. split; [done|]. by apply elem_custom_triples.
      * intros [Hg Hn]. split; [done|]. intros (x & E & Hx). injection E as <-. apply (Hn eq_refl). by apply elem_custom_triples in Hx.
    + rewrite H. split; [|tauto]. intros Hg. split; [done|discriminate].
Qed.

(** A search in a session with a backend finds exactly the reachable objects of the
    session and the backend, once each, and changes nothing visible; afterwards all
    of them are loaded. *)
Theorem C62_find isW O d r w rf crit root fuel :
  involutive O -> (forall q, o_sub O q (o_relationship O) = true) -> served isW O d r w -> root ∈ wreg w ->
  (size (reg (abs w)) <= fuel)%nat ->
  exists w' visited l, w_find isW O rf crit fuel root ∅ w = Some (w', visited, Ok l) /\
    NoDup l /\ (forall x, x ∈ l <-> reachable_via O (abs w) rf root x /\ crit x = true) /\
    abs w' = abs w /\ ub w' = ub w /\ db w' = db w /\ cur w' = cur w /\
    (forall x, reachable_via O (abs w) rf root x -> x ∈ wreg w') /\ wreg w ⊆ wreg w'.
Proof.
  intros Hivl Hall Hs Hroot Hf. destruct (served_inv _ _ _ _ _ Hivl Hall Hs) as [Hw _].
  destruct (w_find_spec isW O rf crit r fuel w root ∅ Hw Hroot) as (w' & V & l & E & Hr & [B1 B2 B3 B4 B5 B6 B7]).
  { set_solver. } { etrans; [|exact Hf]. apply subseteq_size. set_solver. }
  assert (HV : forall x, x ∈ V <-> reachable_via O (abs w) rf root x).
  { intros x. split; [intros Hx; apply B4; set_solver|].
    induction 1 as [|b c _ IH Hbc]; [done|]. eapply B7; [exact IH|set_solver|exact Hbc]. }
  exists w', V, l. split; [done|]. split; [done|]. split.
  { intros x. rewrite B5, HV. split; [tauto|]. intros []. split; [done|]. split; [set_solver|done]. }
  split; [apply B2|]. split; [apply B2|]. split; [apply B2|]. split; [apply B2|]. split; [|apply B2].
  intros x Hx. apply HV in Hx. apply B4; [done|set_solver].
Qed.

(** With find_all=False: one matching object, loaded, or None if there is none. *)
Theorem C62_find_first isW O d r w rf crit root fuel :
  involutive O -> (forall q, o_sub O q (o_relationship O) = true) -> served isW O d r w -> root ∈ wreg w ->
  (size (reg (abs w)) <= fuel)%nat ->
  exists w' visited o, w_first isW O rf crit fuel root ∅ w = Some (w', visited, Ok o) /\
    match o with
    | Some x => reachable_via O (abs w) rf root x /\ crit x = true /\ x ∈ wreg w'
    | None => forall x, reachable_via O (abs w) rf root x -> crit x = false
    end /\
    abs w' = abs w /\ ub w' = ub w /\ db w' = db w /\ cur w' = cur w /\ wreg w ⊆ wreg w'.
Proof.
  intros Hivl Hall Hs Hroot Hf. destruct (served_inv _ _ _ _ _ Hivl Hall Hs) as [Hw _].
  destruct (w_first_spec isW O rf crit r fuel w root ∅ Hw Hroot) as (w' & V & o & E & Hr & [B1 B2 B3 B4 B5]).
  { set_solver. } { etrans; [|exact Hf]. apply subseteq_size. set_solver. }
  exists w', V, o. split; [done|]. split; [|repeat split; apply B2].
  destruct o as [x|].
  - destruct B5 as (D1 & D2 & D3). destruct (B4 x D1 D2). done.
  - destruct B5 as [B5 B6]. intros x Hx. apply B5; [|set_solver].
    induction Hx as [|b c _ IH Hbc]; [done|]. eapply B6; [exact IH|set_solver|exact Hbc].
Qed.

(** find_cuds_object_by_uid finds an object, in the database or not, exactly if it can
    be reached. *)
Theorem C62_find_by_uid isW O d r w rf u root fuel :
  involutive O -> (forall q, o_sub O q (o_relationship O) = true) -> served isW O d r w -> root ∈ wreg w ->
  (size (reg (abs w)) <= fuel)%nat ->
  exists w' visited o, w_first isW O rf (fun x => bool_decide (x = u)) fuel root ∅ w = Some (w', visited, Ok o) /\
    (o = Some u <-> reachable_via O (abs w) rf root u) /\ (o = Some u \/ o = None) /\
    abs w' = abs w /\ ub w' = ub w /\ db w' = db w.
Proof.
  intros Hivl Hall Hs Hroot Hf.
  destruct (C62_find_first isW O d r w rf (fun x => bool_decide (x = u)) root fuel Hivl Hall Hs Hroot Hf)
    as (w' & V & o & E & Ho & H1 & H2 & H3 & _).
  exists w', V, o. split; [done|]. split; [|split; [|done]].
  - destruct o as [x|].
    + destruct Ho as (Hx & Hc%bool_decide_eq_true & _). subst x. done.
    + split; [done|]. intros Hx. specialize (Ho u Hx). by apply bool_decide_eq_false in Ho.
  - destruct o as [x|]; [|by right]. destruct Ho as (_ & Hc%bool_decide_eq_true & _). subst x. by left.
Qed.

(** The graph of a session with a backend: it never fails and changes nothing
    visible; all its triples are triples of the session and its backend, and it has
    all the triples of the objects that can be reached from the root.  If every object
    can be reached, it is exactly the graph of the in-memory session. *)
Theorem C62_full_graph isW O d r w fuel :
  involutive O -> (forall q, o_sub O q (o_relationship O) = true) -> served isW O d r w ->
  (size (reg (abs w)) <= fuel)%nat ->
  exists w' c, full_graph isW O fuel w = Some (w', Ok c) /\
    c ⊆ gr (abs w) /\
    (forall x p, reachable_via O (abs w) None r x -> (x, p) ∈ c <-> (x, p) ∈ gr (abs w)) /\
    (forall x p, x ∈ wreg w -> (x, p) ∈ c <-> (x, p) ∈ gr (abs w)) /\
    ((forall x, x ∈ reg (abs w) -> reachable_via O (abs w) None r x) -> c = gr (abs w)) /\
    abs w' = abs w /\ ub w' = ub w /\ db w' = db w.
Proof.
  intros Hivl Hall Hs Hf. destruct (served_inv _ _ _ _ _ Hivl Hall Hs) as [Hw Hi].
  unfold full_graph. rewrite (wi_root _ _ _ Hw). rewrite decide_True by apply Hw.
  destruct (C62_find isW O d r w (Some (o_relationship O)) (fun _ => true) r fuel Hivl Hall Hs (wi_rreg _ _ _ Hw) Hf)
    as (w' & V & l & E & _ & _ & Ha & Hu & Hd & Hcur & Hin & Hsub).
  rewrite E.
  assert (winv isW w' r) as Hw'.
  { destruct (w_find_spec isW O (Some (o_relationship O)) (fun _ => true) r fuel w r ∅ Hw) as (w2 & V2 & l2 & E2 & _ & B);
      [apply Hw|set_solver|etrans; [|exact Hf]; apply subseteq_size; set_solver|].
    rewrite E in E2. injection E2 as <- _ _. apply B. }
  pose proof (wi_root _ _ _ Hw') as Hr'.
  assert (Hvia : forall x, reachable_via O (abs w) None r x -> x ∈ wreg w').
  { intros x Hx. apply Hin. induction Hx as [|b c _ IH (q & Hq & _)]; [constructor|].
    eapply rv_step; [exact IH|]. exists q. split; [done|]. intros sup [= <-]. apply Hall. }
  assert (Hloaded : forall x p, x ∈ wreg w' -> (x, p) ∈ wgr w' <-> (x, p) ∈ gr (abs w)).
  { intros x p Hx. rewrite <- Ha. rewrite (elem_abs w' r) by done. tauto. }
  assert (Hsubg : wgr w' ⊆ gr (abs w)).
  { intros [x p] Hp. destruct (decide (x ∈ wreg w')) as [Hx|Hx]; [by apply Hloaded|].
    rewrite <- Ha. apply (elem_abs w' r); [done|]. right. split; [done|].
    destruct (wi_out _ _ _ Hw' x p Hx Hp) as (H1 & H2 & _). done. }
  exists w', (wgr w'). split; [done|]. split; [done|]. split; [intros x p Hx; apply Hloaded; auto|].
  split; [intros x p Hx; apply Hloaded; auto|]. split; [|done].
  intros Hevery. apply set_eq. intros [x p]. split; [apply Hsubg|]. intros Hp.
  apply Hloaded; [|done]. apply Hvia, Hevery.
  rewrite <- Ha in Hp |- *. apply (elem_abs w' r) in Hp as [[H _]|(_ & H1 & H2)]; [| |done];
    apply (elem_abs_reg w' r); eauto.
Qed.
Theorem C62_wrapper in_cuba isW O d r w fuel g skip :
  involutive O -> (forall q, o_sub O q (o_relationship O) = true) -> served isW O d r w ->
  (size (reg (abs w)) <= fuel)%nat -> (forall x, x ∈ reg (abs w) -> reachable_via O (abs w) None r x) ->
  exists w', rdf_graph_wrapper in_cuba isW O fuel w g skip = Some (w', Ok (rdf_graph_core in_cuba (abs w) g skip)) /\
    abs w' = abs w /\ ub w' = ub w /\ db w' = db w.
Proof.
  intros Hivl Hall Hs Hf Hev.
  destruct (C62_full_graph isW O d r w fuel Hivl Hall Hs Hf) as (w' & c & E & _ & _ & _ & Hc & Hrest).
  exists w'. unfold rdf_graph_wrapper. rewrite E, (Hc Hev). done.
Qed.

(** Stored objects that are not linked to anything are not in the graph of a
    session that did not load them. *)
Definition exDb2 : graph := exDb ∪ {[ (23%N, TType 4%N) ]}.
Definition exF : wsess := fst (w_create exW [21%N; 10%N] (w_empty exDb2) 10%N 9%N []).
Lemma exDb2_good : WrapperCommit.good_db exW exDb2.
Proof.
  constructor.
  - assert (forall t, t ∈ exDb2 -> exists c, (fst t, TType c) ∈ exDb2) as H; [|intros u p; apply (H (u, p))].
    refine (graph_all exDb2 _ _). vm_compute elements.
    repeat constructor; simpl; first [exists 9%N; by vm_compute|exists 3%N; by vm_compute|exists 4%N; by vm_compute].
  - assert (forall t, t ∈ exDb2 -> forall q v, snd t = TLink q v -> exists p, (v, p) ∈ exDb2) as H.
    { refine (graph_all exDb2 _ _). vm_compute elements.
      repeat constructor; simpl; intros q v ?; simplify_eq;
        first [exists (TType 9%N); by vm_compute|exists (TType 3%N); by vm_compute|exists (TType 4%N); by vm_compute]. }
    intros u q v Hin. by apply (H (u, TLink q v) Hin q v).
  - assert (forall t, t ∈ exDb2 -> forall c, snd t = TType c -> fst t <> 0%N -> exW c = false) as H.
    { refine (graph_all exDb2 _ _). vm_compute elements. repeat constructor; simpl; intros c ?; simplify_eq; done. }
    intros u c Hin. by apply (H (u, TType c) Hin c).
Qed.
Lemma exF_connects : connects exW exO exDb2 10%N exF.
Proof.
  constructor.
  - apply exDb2_good.
  - assert (forall t, t ∈ exDb2 -> forall q v, snd t = TLink q v -> (v, TLink (o_inv exO q) (fst t)) ∈ exDb2) as H.
    { refine (graph_all exDb2 _ _). vm_compute elements. repeat constructor; simpl; intros q v ?; simplify_eq; by vm_compute. }
    intros a q b. split; intros Hin.
    + by apply (H (a, TLink q b) Hin q b).
    + pose proof (H (b, TLink (o_inv exO q) a) Hin (o_inv exO q) a eq_refl) as Hin'.
      by rewrite exO_involutive in Hin'.
  - assert (forall t, t ∈ exDb2 -> fst t <> 10%N /\ forall q, snd t <> TLink q 10%N) as H.
    { refine (graph_all exDb2 _ _). vm_compute elements. repeat constructor; simpl; done. }
    intros x p Hin. by apply (H (x, p)).
  - exists [21%N; 10%N], 9%N, []. split; [done|]. split; [done|]. split.
    2: { unfold exF. rewrite (surjective_pairing (w_create _ _ _ _ _ _)) at 1. f_equal. }
    intros u. assert (first_level 10%N exDb2 = {[21%N; 10%N]}) as ->.
    { refine (bool_decide_unpack _ _). vm_compute. exact Logic.I. }
    rewrite !elem_of_cons, elem_of_nil, elem_of_union, !elem_of_singleton. tauto.
Qed.
Lemma exF_served : served exW exO exDb2 10%N exF.
Proof. exists exF, []. split; [apply exF_connects|done]. Qed.

Theorem C62_unlinked_refuted : exists w' c,
  served exW exO exDb2 10%N exF /\ full_graph exW exO 10 exF = Some (w', Ok c) /\
  (23%N, TType 4%N) ∈ gr (abs exF) /\ (23%N, TType 4%N) ∉ c.
Proof.
  destruct (opt_some (full_graph exW exO 10 exF) (fun x => match x with
     | (w', Ok c) => bool_decide ((23%N, TType 4%N) ∉ c) | _ => false end)) as ([w' [c|e]] & E & Hb); [by vm_compute| |discriminate Hb].
  apply bool_decide_eq_true in Hb. exists w', c.
  split; [apply exF_served|]. split; [exact E|]. split; [dec|exact Hb].
Qed.

(** The hypotheses of [C62_wrapper] are met by a session that has not loaded
    everything. *)
Example C62_example :
  served exW exO exDb 10%N exW0 /\ 22%N ∈ reg (abs exW0) /\ 22%N ∉ wreg exW0 /\ (size (reg (abs exW0)) <= 3)%nat /\
  (forall x, x ∈ reg (abs exW0) -> reachable_via exO (abs exW0) None 10%N x).
Proof.
  split; [exists exW0, []; split; [apply exW0_connects|done]|].
  split; [dec|]. split; [dec|]. split; [dec|].
  assert (reg (abs exW0) = {[10%N; 21%N; 22%N]}) as -> by dec.
  assert (connected (abs exW0) 10%N 1%N 21%N) as H1 by (unfold connected; dec).
  assert (connected (abs exW0) 21%N 5%N 22%N) as H2 by (unfold connected; dec).
  assert (reachable_via exO (abs exW0) None 10%N 21%N) as H3.
  { eapply rv_step; [constructor|]. exists 1%N. split; [exact H1|discriminate]. }
  intros x. rewrite !elem_of_union, !elem_of_singleton. intros [[-> | ->] | ->]; [constructor|exact H3|].
  eapply rv_step; [exact H3|]. exists 5%N. split; [exact H2|discriminate].
Qed.
Print Assumptions C62_union.
Print Assumptions C62_find.
Print Assumptions C62_full_graph.
Print Assumptions C62_wrapper.
Print Assumptions C62_unlinked_refuted.
Print Assumptions C62_example.
Print Assumptions C62_find_first.
Print Assumptions C62_find_by_uid.
