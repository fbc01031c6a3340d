(** Theorems about load_by_oclass (property C61). *)
From stdpp Require Import base sets list gmap countable.
From Verif Require Import Prelude Cuds CudsProofs PropCuds Wrapper WrapperProofs
  WrapperRefine WrapperOps WrapperOps2 WrapperCommit PropWrapper LoadClass.

Lemma elem_class_uids r d c u : u ∈ class_uids r d c <-> (u, TType c) ∈ view r d.
Proof.
  unfold class_uids, view. rewrite elem_of_map, elem_map_graph. split.
  - intros ([x p] & -> & H). apply elem_of_filter in H as [Hp H]. simpl in *. subst p.
    exists (x, TType c). done.
  - intros ([x p] & Hin & H). exists (x, p). unfold map_triple in H. simpl in *.
    destruct p; simpl in H; simplify_eq. split; [reflexivity|].
    by apply elem_of_filter.
Qed.

(** One element. *)
Lemma load_one_spec isW w r u :
  winv isW w r -> u ∉ buids (ub w) -> (exists c, (u, TType c) ∈ view r (db w)) ->
  exists w', in_engine (fun w => load_iri isW w u) w = (w', Ok (Some u)) /\
    winv isW w' r /\ lrel w w' /\ u ∈ wreg w' /\ u ∉ expd w'.
Proof.
  intros Hw Hnp [c Hc]. unfold in_engine.
  pose proof (wi_root _ _ _ Hw) as Hroot. pose proof (wi_cur _ _ _ Hw) as Hcur.
  pose proof (wi_r0 _ _ _ Hw) as Hr0.
  assert (u ∉ badd (ub w) /\ u ∉ bupd (ub w) /\ u ∉ bdel (ub w)) as (Ha & Hup & Hd).
  { unfold buids in Hnp. clear -Hnp. set_solver. }
  assert (u <> 0%N) as Hu0.
  { apply elem_map_graph in Hc as ([x p] & _ & E). unfold map_triple in E. simpl in E.
    injection E as -> _. by apply sub_zero_nz. }
  destruct (enter_engine_same w) as (H1 & H2 & H3 & H4 & H5).
  assert (bdel (eb (enter_engine w)) = ∅) as H6.
  { unfold enter_engine. rewrite decide_False by congruence. done. }
  set (w0 := enter_engine w) in *. clearbody w0.
  assert (wroot w0 = Some r) as Hroot0 by (unfold wroot; by rewrite H1).
  assert (wreg w0 = wreg w) as Hreg0 by (unfold wreg; by rewrite H1).
  assert (wgr w0 = wgr w) as Hgr0 by (unfold wgr; by rewrite H1).
  destruct (load_iri_known isW w0 r u) as (w1 & E1 & A1 & A2 & A3 & A4 & A5 & A6 & A7 & A8);
    [done|done|done|done|done|rewrite H4; apply Hw|rewrite H4; eauto| |].
  { intros Hne c' Hc'. apply (wi_wrap _ _ _ Hw u c'); [|done].
    apply (elem_abs w r); [done|]. rewrite H4, Hgr0 in Hc'.
    destruct (decide (u ∈ wreg w)) as [Hin|Hin].
    - left. split; [done|]. destruct Hc' as [Hc'|Hc']; [done|]. by apply (wi_type _ _ _ Hw).
    - right. split; [done|]. split; [done|]. destruct Hc' as [Hc'|Hc']; [|done].
      by apply (wi_out _ _ _ Hw) in Hc' as [? _]. }
  rewrite E1. rewrite Hreg0 in *. rewrite Hgr0 in *. rewrite H3, H2, H4 in *.
  destruct (load_step isW w (set_cur w1 (cur w)) r u) as [Hw1 Hl1];
    [done|done|done|done|eauto|done|done|simpl; rewrite A3; clear; set_solver|done|done|done|exact A8|].
  exists (set_cur w1 (cur w)). split; [done|]. split; [done|]. split; [done|]. split.
  - change (u ∈ wreg w1). rewrite A1. clear; set_solver.
  - change (u ∉ expd w1). rewrite A3. clear; set_solver.
Qed.

Lemma load_each_spec isW us w r :
  winv isW w r -> (forall u, u ∈ us -> u ∉ buids (ub w) /\ exists c, (u, TType c) ∈ view r (db w)) ->
  exists w', load_each isW us w = (w', Ok (Some <$> us)) /\
    winv isW w' r /\ lrel w w' /\ forall u, u ∈ us -> u ∈ wreg w' /\ u ∉ expd w'.
Proof.
  revert w. induction us as [|u us IH]; intros w Hw Hus; simpl.
  { exists w. split; [done|]. split; [done|]. split; [apply lrel_refl|]. intros u Hu. by apply elem_of_nil in Hu. }
  destruct (Hus u) as [Hu1 Hu2]; [by left|].
  destruct (load_one_spec isW w r u Hw Hu1 Hu2) as (w1 & -> & Hw1 & Hl1 & Hr1 & He1).
  destruct (IH w1) as (w2 & -> & Hw2 & Hl2 & H2); [done| |].
  { intros x Hx. rewrite (lr_ub _ _ Hl1), (lr_db _ _ Hl1). apply Hus. by right. }
  exists w2. split; [done|]. split; [done|]. split; [by eapply lrel_trans|].
  intros x Hx. apply elem_of_cons in Hx as [-> | Hx]; [|auto].
  split; [by apply (lr_reg _ _ Hl2)|]. intros H. by apply (lr_exp _ _ Hl2) in H.
Qed.

(** How often u comes in the concatenation of the enumerations. *)
Lemma load_classes_spec isW ord r subs w :
  (forall X, ord X ≡ₚ elements X) -> winv isW w r ->
  (forall c u, c ∈ subs -> (u, TType c) ∈ view r (db w) -> u ∉ buids (ub w)) ->
  exists w', load_classes isW ord r subs w =
               (w', Ok (Some <$> mjoin ((fun c => ord (class_uids r (db w) c)) <$> subs))) /\
    winv isW w' r /\ lrel w w' /\
    forall c u, c ∈ subs -> (u, TType c) ∈ view r (db w) -> u ∈ wreg w' /\ u ∉ expd w'.
Proof.
  intros Hord. revert w. induction subs as [|c subs IH]; intros w Hw Hp.
  { exists w. split; [done|]. split; [done|]. split; [apply lrel_refl|]. intros c u Hc. by apply elem_of_nil in Hc. }
  cbn [load_classes].
  assert (Hin : forall u, u ∈ ord (class_uids r (db w) c) <-> (u, TType c) ∈ view r (db w)).
  { intros u. rewrite Hord, elem_of_elements. apply elem_class_uids. }
  destruct (load_each_spec isW (ord (class_uids r (db w) c)) w r Hw) as (w1 & -> & Hw1 & Hl1 & H1).
  { intros u Hu. apply Hin in Hu. split; [|eauto]. apply (Hp c); [by left|done]. }
  destruct (IH w1) as (w2 & -> & Hw2 & Hl2 & H2); [done| |].
  { intros c' u Hc'. rewrite (lr_ub _ _ Hl1), (lr_db _ _ Hl1). apply Hp. by right. }
  exists w2. split.
  { rewrite (lr_db _ _ Hl1). cbn. by rewrite fmap_app. }
  split; [done|]. split; [by eapply lrel_trans|].
  intros c' u Hc' Hu. apply elem_of_cons in Hc' as [-> | Hc'].
  - destruct (H1 u) as [Hr He]; [by apply Hin|]. split; [by apply (lr_reg _ _ Hl2)|]. intros H. by apply (lr_exp _ _ Hl2) in H.
  - apply (H2 c'); [done|]. by rewrite (lr_db _ _ Hl1).
Qed.

(** * Specification *)

(** The backend holds u with a class below oc. *)
Definition stored_as (O : onto) (r : uid) (w : wsess) (oc : cls) (u : uid) : Prop :=
  exists c, o_csub O c oc = true /\ (u, TType c) ∈ view r (db w).

(** [subs] enumerates the subclasses of oc. *)
Definition subclasses_of (O : onto) (oc : cls) (subs : list cls) : Prop :=
  NoDup subs /\ forall c, c ∈ subs <-> o_csub O c oc = true.

Lemma join_nodup {A B} (f : A -> list B) (l : list A) :
  NoDup l -> (forall a, a ∈ l -> NoDup (f a)) ->
  (forall a b x, a ∈ l -> b ∈ l -> x ∈ f a -> x ∈ f b -> a = b) -> NoDup (mjoin (f <$> l)).
Proof.
  induction l as [|a l IH]; intros Hl Hf Hd; [constructor|].
  apply stdpp.list.NoDup_cons in Hl as [Hal Hl]. cbn. apply NoDup_app. split; [apply Hf; by left|]. split.
  - intros x Hx Hx'. apply elem_of_list_join in Hx' as (k & Hk1 & Hk2).
    apply elem_of_list_fmap in Hk2 as (b & -> & Hb). destruct Hal.
    assert (a = b) as ->; [|done]. apply (Hd a b x); [by left|by right|done|done].
  - apply IH; [done|intros b Hb; apply Hf; by right|]. intros b b' x Hb Hb'. apply Hd; by right.
Qed.

(** ** C61 *)

(** Without pending changes to the objects of the class, the result is exactly what
    the backend holds of the class; nothing visible changes, and the objects are
    loaded and fresh afterwards. *)
Theorem C61_exact isW O d r w ord subs oc :
  involutive O -> (forall q, o_sub O q (o_relationship O) = true) -> served isW O d r w ->
  (forall X, ord X ≡ₚ elements X) -> subclasses_of O oc subs ->
  (forall u, stored_as O r w oc u -> u ∉ buids (ub w)) ->
  exists w' l, load_by_oclass isW ord subs w = (w', Ok (Some <$> l)) /\
    (forall u, u ∈ l <-> stored_as O r w oc u) /\
    ((forall u c1 c2, (u, TType c1) ∈ db w -> (u, TType c2) ∈ db w -> c1 = c2) -> NoDup l) /\
    abs w' = abs w /\ ub w' = ub w /\ db w' = db w /\ cur w' = cur w /\
    (forall u, u ∈ l -> u ∈ wreg w' /\ u ∉ expd w').
Proof.
  intros Hivl Hall Hs Hord [Hnd Hsub] Hp. destruct (served_inv _ _ _ _ _ Hivl Hall Hs) as [Hw _].
  unfold load_by_oclass. rewrite (wi_root _ _ _ Hw).
  destruct (load_classes_spec isW ord r subs w Hord Hw) as (w' & E & Hw' & Hl & Hfresh).
  { intros c u Hc Hu. apply Hp. exists c. split; [by apply Hsub|done]. }
  assert (Hin : forall u, u ∈ mjoin ((fun c => ord (class_uids r (db w) c)) <$> subs) <-> stored_as O r w oc u).
  { intros u. rewrite elem_of_list_join. split.
    - intros (k & Hk & Hkk). apply elem_of_list_fmap in Hkk as (c & -> & Hc). exists c. split; [by apply Hsub|].
      rewrite Hord, elem_of_elements in Hk. by apply elem_class_uids.
    - intros (c & Hc & Hu). exists (ord (class_uids r (db w) c)). split.
      + rewrite Hord, elem_of_elements. by apply elem_class_uids.
      + apply elem_of_list_fmap. exists c. split; [done|]. by apply Hsub. }
  eexists w', _. split; [exact E|]. split; [exact Hin|]. split.
  - intros Hone. apply join_nodup; [done| |].
    + intros c _. rewrite Hord. apply NoDup_elements.
    + intros c1 c2 u _ _ H1 H2. rewrite Hord, elem_of_elements, elem_class_uids in H1, H2.
      apply elem_map_graph in H1 as ([x1 p1] & H1 & E1). apply elem_map_graph in H2 as ([x2 p2] & H2 & E2).
      unfold map_triple in E1, E2. simpl in E1, E2. injection E1 as Ea Eb. injection E2 as Ec Ed.
      assert (x1 = x2) as <-.
      { eapply sub_zero_inj; [by apply (wi_db _ _ _ Hw) in H1 as [? _]|by apply (wi_db _ _ _ Hw) in H2 as [? _]|congruence]. }
      destruct p1, p2; simpl in *; simplify_eq. by apply (Hone x1).
  - destruct Hl. do 4 (split; [done|]). intros u Hu. apply Hin in Hu as (c & Hc & Hu). apply (Hfresh c); [by apply Hsub|done].
Qed.

(** Right after a commit: all objects of the session and its backend of that class. *)
Theorem C61_after_commit isW O d r w ord subs oc :
  involutive O -> (forall q, o_sub O q (o_relationship O) = true) -> served isW O d r w -> root_kept r w ->
  (forall X, ord X ≡ₚ elements X) -> subclasses_of O oc subs ->
  exists w1 w' l, w_commit None w = (w1, None) /\ load_by_oclass isW ord subs w1 = (w', Ok (Some <$> l)) /\
    (forall u, u ∈ l <-> u ∈ reg (abs w) /\ exists c, o_csub O c oc = true /\ (u, TType c) ∈ gr (abs w)) /\
    abs w' = abs w.
Proof.
  intros Hivl Hall Hs Hk Hord Hsub. destruct (served_inv _ _ _ _ _ Hivl Hall Hs) as [Hw _].
  destruct (w_commit_spec isW w r Hw Hk) as (w1 & E1 & Hw1 & Ha & _ & Hu & _ & Hv & _).
  assert (served isW O d r w1) as Hs1.
  { destruct Hs as (w0 & os & H1 & H2 & ->). exists w0, (os ++ [WCommit None]). split; [done|].
    assert (wrun isW O w0 (os ++ [WCommit None]) = w1) as Hrun.
    { unfold wrun in *. rewrite foldl_app. cbn [foldl wstep]. by rewrite E1. }
    split; [|done]. clear -H2 E1 Hk.
    revert w0 H2 E1 Hk. induction os as [|o os IH]; intros w0 H2 E1 Hk; cbn in *; [done|].
    destruct H2 as [H2 H3]. split; [done|]. by apply IH. }
  destruct (C61_exact isW O d r w1 ord subs oc) as (w' & l & E2 & Hl & _ & Ha2 & _); [done..| |].
  { intros u _. rewrite Hu. unfold buids. simpl. set_solver. }
  exists w1, w', l. split; [done|]. split; [done|]. split; [|congruence].
  intros u. rewrite Hl. unfold stored_as. rewrite Hv. split; [|naive_solver].
  intros (c & Hc & Hin). split; [|eauto].
  apply (elem_abs w r) in Hin as [[H _]|(_ & H1 & H2)]; [| |apply Hw].
  - apply (elem_abs_reg w r); [apply Hw|by left].
  - apply (elem_abs_reg w r); [apply Hw|]. right. eauto.
Qed.

(** A session without root cannot load. *)
Theorem C61_no_root isW ord subs w : wroot w = None -> load_by_oclass isW ord subs w = (w, Err RuntimeError).
Proof. intros H. unfold load_by_oclass. by rewrite H. Qed.

(** ** What pending changes do *)

Local Open Scope N_scope.
(** Classes 3 and 4 are subclasses of 5. *)
Definition exC : onto := {|
  o_sub := o_sub exO; o_inv := o_inv exO;
  o_csub c d := bool_decide (c = d) || (bool_decide (d = 5%N) && (bool_decide (c = 3%N) || bool_decide (c = 4%N)));
  o_relationship := 0%N; o_active := 1%N |}.
Lemma exC_subs : subclasses_of exC 5 [3; 5; 4]%N.
Proof.
  split; [apply (bool_decide_unpack _); vm_compute; exact Logic.I|].
  intros c. rewrite !elem_of_cons, elem_of_nil. cbn [exC o_csub].
  rewrite orb_true_iff, andb_true_iff, orb_true_iff, !bool_decide_eq_true. intuition lia.
Qed.
Lemma exC_connects : connects exW exC exDb 10%N exW0.
Proof. destruct exW0_connects as [A B C D]. constructor; [exact A|exact B|exact C|exact D]. Qed.
Lemma exC_served os : wvalid_runb exW exC 10%N exW0 os = true -> served exW exC exDb 10%N (wrun exW exC exW0 os).
Proof. intros H. exists exW0, os. split; [apply exC_connects|]. split; [by apply wvalid_runb_ok|done]. Qed.
Definition exOrd (X : gset uid) : list uid := elements X.

(** The hypotheses of [C61_exact] are met; 22 was not loaded before. *)
Example C61_example : exists w', load_by_oclass exW exOrd [3; 5; 4]%N exW0 = (w', Ok [Some 21; Some 22]%N) /\
  22%N ∉ wreg exW0 /\ 22%N ∈ wreg w' /\ served exW exC exDb 10%N exW0 /\
  (forall u, stored_as exC 10 exW0 5 u -> u ∉ buids (ub exW0)).
Proof.
  exists (fst (load_by_oclass exW exOrd [3; 5; 4]%N exW0)).
  split; [apply pair_eta; vm_compute; reflexivity|]. split; [dec|]. split; [dec|].
  split; [apply (exC_served []); vm_compute; reflexivity|].
  intros u (c & Hc & Hu) Hb.
  assert (u = 10%N) as ->.
  { assert (buids (ub exW0) = {[10%N]}) as E by dec. rewrite E, elem_of_singleton in Hb. exact Hb. }
  assert (c = 9%N) as ->; [|discriminate Hc].
  assert (view 10 (db exW0) = view 10 exDb) as E by dec. rewrite E in Hu. clear E Hb Hc.
  assert (forall t, t ∈ view 10 exDb -> fst t = 10%N -> forall c, snd t = TType c -> c = 9%N) as H.
  { refine (graph_all _ _ _). vm_compute elements. repeat constructor; simpl; intros; simplify_eq; done. }
  exact (H _ Hu eq_refl c eq_refl).
Qed.

(** Pending changes of the objects of the class are lost: the session has the old
    value again, the object is still waiting to be written, and the next commit
    writes the old value. *)
Definition exL1 : wsess := wrun exW exC exW0 [WSetAttr 21 30 (2, 2)]%N.
Definition exL1' : wsess := fst (load_by_oclass exW exOrd [3; 5; 4]%N exL1).
Theorem C61_pending_lost_refuted : exists w w' w2 l,
  served exW exC exDb 10%N w /\ attr_values (wgr w) 21 30 = [(2, 2)]%N /\
  load_by_oclass exW exOrd [3; 5; 4]%N w = (w', Ok l) /\ Some 21%N ∈ l /\
  attr_values (wgr w') 21 30 = [(1, 1)]%N /\ 21%N ∈ bupd (ub w') /\
  w_commit None w' = (w2, None) /\ attr_values (db w2) 21 30 = [(1, 1)]%N.
Proof.
  exists exL1, exL1', (fst (w_commit None exL1')), [Some 21; Some 22]%N.
  split; [apply exC_served; vm_compute; reflexivity|]. split; [vm_compute; reflexivity|].
  split; [unfold exL1'; apply pair_eta; vm_compute; reflexivity|]. split; [apply elem_of_list_here|].
  split; [vm_compute; reflexivity|]. split; [dec|].
  split; [apply pair_eta; vm_compute; reflexivity|]. vm_compute; reflexivity.
Qed.

(** Objects deleted since the last commit come back; objects added since then are
    not found. *)
Definition exL2 : wsess :=
  wrun exW exC exW0 [WGet 21 [] None None; WDelete 22; WCreate [] 31 3 []; WAdd 10 1 [31]]%N.
Definition exL2' : wsess := fst (load_by_oclass exW exOrd [3; 5; 4]%N exL2).
Theorem C61_uncommitted_refuted : exists w w' l,
  served exW exC exDb 10%N w /\ 22%N ∈ bdel (ub w) /\ 22%N ∉ wreg w /\
  31%N ∈ wreg w /\ classes (wgr w) 31 = [3]%N /\
  load_by_oclass exW exOrd [3; 5; 4]%N w = (w', Ok l) /\
  Some 22%N ∈ l /\ 22%N ∈ wreg w' /\ Some 31%N ∉ l.
Proof.
  exists exL2, exL2', [Some 21; Some 22]%N.
  split; [apply exC_served; vm_compute; reflexivity|]. split; [dec|]. split; [dec|]. split; [dec|].
  split; [vm_compute; reflexivity|]. split; [unfold exL2'; apply pair_eta; vm_compute; reflexivity|].
  split; [apply elem_of_list_further, elem_of_list_here|]. split; [dec|]. dec.
Qed.
Print Assumptions C61_exact.
Print Assumptions C61_after_commit.
Print Assumptions C61_no_root.
Print Assumptions C61_pending_lost_refuted.
Print Assumptions C61_uncommitted_refuted.
