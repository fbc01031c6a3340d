(** The loop of _recursive_store (CudsX.v): what it leaves behind. *)
From stdpp Require Import base list gmap countable.
From Verif Require Import Prelude Cuds CudsProofs CudsX CudsXProofs CudsXStep.

(** The objects that links lead to. *)
Definition link_targets (g : graph) : gset uid :=
  list_to_set (omap (fun t : triple => match snd t with TLink _ v => Some v | _ => None end) (elements g)).
Lemma elem_link_targets g v : v ∈ link_targets g <-> exists x r, (x, TLink r v) ∈ g.
Proof.
  unfold link_targets. rewrite elem_of_list_to_set, elem_of_list_omap. split.
  - intros ([x [r y|c|a l]] & Hin & H); try done. injection H as ->. exists x, r. by apply elem_of_elements.
  - intros (x & r & H). exists (x, TLink r v). split; [by apply elem_of_elements|done].
Qed.
Lemma size_list_le (l : list uid) : size (list_to_set l : gset uid) <= length l.
Proof.
  induction l as [|v l IH]; [reflexivity|]. change (list_to_set (v :: l) : gset uid) with ({[v]} ∪ list_to_set l : gset uid).
  rewrite size_union_alt, size_singleton. cbn [length]. apply le_n_S. etrans; [|exact IH]. apply subseteq_size. set_solver.
Qed.
Lemma omap_length_le {A B} (f : A -> option B) l : length (omap f l) <= length l.
Proof. induction l as [|x l IH]; csimpl; [done|]. destruct (f x); csimpl; lia. Qed.
Lemma size_link_targets g : size (link_targets g) <= size g.
Proof. unfold link_targets. etrans; [apply size_list_le|]. apply omap_length_le. Qed.
Lemma size_minus (X Y : gset uid) v : v ∈ X -> v ∉ Y -> Datatypes.S (size (X ∖ (Y ∪ {[v]}))) <= size (X ∖ Y).
Proof.
  intros H1 H2. change (Datatypes.S ?n) with (1 + n). rewrite <- (size_singleton v (C := gset uid)), <- size_union by set_solver.
  apply subseteq_size. set_solver.
Qed.

(* membership in unions and singletons *)
Ltac mem := rewrite ?elem_of_union, ?elem_of_singleton; intuition congruence.

Section Main.
  Context (O : onto) (mk : cls -> list (attr * lit) -> res (list (attr * lit))).
  Context (ks kt : sid) (S T : sess) (b : uid).
  Context (Hne : ks <> kt) (Hinv : involutive O) (HS : tidy O S) (HT : tidy O T).
  Local Notation SL x r y := ((x, TLink r y) ∈ gr S).
  Local Notation TL x r y := ((x, TLink r y) ∈ gr T).
  Local Notation act r := (active O r = true).
  Local Notation iv := (o_inv O).
  Local Notation desc := (descendant O S b).
  Local Notation Lk := (Lk O S T).
  Local Notation G := (G O S T).
  Local Notation Miss := (Miss O kt S T).
  Local Notation fits := (fits O mk S T b).

  Lemma Sf x r y : SL x r y -> SL y (iv r) x.
  Proof. apply (proj1 (SLb O S HS x r y)). Qed.
  Lemma Sb x r y : SL x (iv r) y -> SL y r x.
  Proof. apply (proj2 (SLb O S HS y r x)). Qed.
  Lemma Tf x r y : TL x r y -> TL y (iv r) x.
  Proof. apply (proj1 (TLb O T HT x r y)). Qed.
  Lemma Tb x r y : TL x (iv r) y -> TL y r x.
  Proof. apply (proj2 (TLb O T HT y r x)). Qed.
  Lemma elem_loaded w (d : list (uid * rel)) v r p :
    ((v, r), p) ∈ map (fun x => (x, load1 w kt (fst x))) d <-> (v, r) ∈ d /\ p = load1 w kt v.
  Proof.
    rewrite elem_of_list_In, in_map_iff. split.
    - intros ([v' r'] & [= <- <- <-] & Hin). split; [by apply elem_of_list_In|done].
    - intros [Hin ->]. exists (v, r). split; [done|by apply elem_of_list_In].
  Qed.
  Lemma load1_some w v : v ∈ reg (w kt) -> load1 w kt v = Some (Obj kt v).
  Proof. intros H. unfold load1. by rewrite decide_True. Qed.
  Lemma load1_none w v : v ∉ reg (w kt) -> load1 w kt v = None.
  Proof. intros H. unfold load1. by rewrite decide_False. Qed.
  Lemma load1_eq_some w v p : Some p = load1 w kt v -> v ∈ reg (w kt).
  Proof. unfold load1. by case_decide. Qed.
  Lemma load1_eq_none w v : None = load1 w kt v -> v ∉ reg (w kt).
  Proof. unfold load1. by case_decide. Qed.

  Lemma Lk_reg P x r y : Lk P x r y -> x ∈ P \/ x ∈ reg T.
  Proof. intros [[H _]|[_ [[H _]|[H _]]]]; [by left|right; by eapply (TLreg O T HT)|by right]. Qed.

  Global Instance Lk_decision P x r y : Decision (Lk P x r y).
  Proof. unfold CudsXStep.Lk. apply _. Defined.

  Definition old_of (w : world) (n : uid) : option graph :=
    if decide (n ∈ reg T) then Some (clone (gr (w kt)) n) else None.

  Lemma one_step w P n m :
    w ks = S -> reg (w kt) = reg T ∪ P -> (forall t, t ∈ gr (w kt) <-> G P t) -> Miss P m ->
    n ∉ P -> (forall y, y ∈ P -> desc y) -> fits n ->
    exists w1 w2 m2, create_from mk w (Obj ks n) kt = (w1, Ok (Obj kt n)) /\
      fix_neighbors O w1 (Obj kt n) (old_of w n) kt (filter (fun x => fst x <> n) m) = (w2, Ok m2) /\
      w2 ks = S /\ reg (w2 kt) = reg T ∪ (P ∪ {[n]}) /\ (forall t, t ∈ gr (w2 kt) <-> G (P ∪ {[n]}) t) /\ Miss (P ∪ {[n]}) m2.
  Proof.
    intros Hs Hr Hg Hm Hn HP Hf. destruct Hf as [Fc F0 Ft Fl Fs].
    destruct (create_from_spec mk w ks kt n) as (w1 & Hc & Hs1 & Hr1 & Hg1); [done|by rewrite Hs|by intros _|].
    rewrite Hs in Hg1. rewrite Hr in Hr1, Hg1.
    exists w1.
    (* the graph after create_from_cuds_object *)
    assert (forall x r y, (x, TLink r y) ∈ gr (w1 kt) <-> (x = n /\ SL n r y) \/ (x <> n /\ Lk P x r y)) as L1.
    { intros x r y. rewrite Hg1, Hg. simpl. split.
      - intros [(H1 & H2 & _)|[[-> H1]|(?&?&?&?&?&?)]]; [|by left|done].
        right. split; [|done]. intros ->. destruct (Lk_reg _ _ _ _ H1) as [?|?]; [done|]. apply H2; [|done]. rewrite elem_of_union. by left.
      - intros [[-> H1]|[H1 H2]]; [right; by left|left]. split; [done|]. split; [done|]. intros r' v v' _ [= -> -> ->]. done. }
    assert (forall x c, (x, TType c) ∈ gr (w1 kt) <-> G (P ∪ {[n]}) (x, TType c)) as L2.
    { intros x c. rewrite Hg1, Hg. simpl. rewrite !elem_of_union, !elem_of_singleton. split.
      - intros [(H1 & H2 & _)|[[-> H1]|(r & v & c' & H1 & H2 & [= -> ->])]].
        + destruct (decide (x = n)) as [->|Hx].
          * left. split; [by right|]. destruct H1 as [[? _]|[_ [H1|[H1 _]]]]; [done| |done]. apply Ft; [|done].
            intros Hin. apply H2; [rewrite ?elem_of_union; by left|done].
          * destruct H1 as [[H1 H3]|[H1 [H3|(H3 & n' & r & Hn' & Hl)]]].
            -- left. split; [by left|done].
            -- right. split; [tauto|by left].
            -- right. split; [tauto|]. right. split; [done|]. exists n', r. split; [rewrite elem_of_union; by left|done].
        + left. split; [by right|done].
        + destruct (decide (v = n \/ v ∈ P)) as [Hv|Hv].
          * left. split; [tauto|done].
          * right. split; [tauto|]. right. split; [done|]. exists n, r. split; [rewrite elem_of_union, elem_of_singleton; by right|done].
      - intros [[[H1|H1] H2]|[H1 [H2|(H2 & n' & r & Hn' & Hl)]]].
        + left. split; [left; done|]. split; [intros _ ->; done|done].
        + right. left. done.
        + left. split; [right; split; [tauto|by left]|]. split; [intros _ ->; tauto|done].
        + apply elem_of_union in Hn' as [Hn'|Hn'].
          * left. split; [right; split; [tauto|]; right; split; [done|]; by exists n', r|]. split; [intros _ ->; tauto|done].
          * apply elem_of_singleton in Hn' as ->. right. right. by exists r, x, c. }
    assert (forall x a l, (x, TAttr a l) ∈ gr (w1 kt) <-> G (P ∪ {[n]}) (x, TAttr a l)) as L3.
    { intros x a l. rewrite Hg1, Hg. simpl. rewrite !elem_of_union, !elem_of_singleton. split.
      - intros [(H1 & H2 & _)|[[-> H1]|(?&?&?&?&?&?)]]; [|left; split; [by right|done]|done].
        destruct (decide (x = n)) as [->|Hx].
        + destruct H1 as [[? _]|[_ H1]]; [done|]. exfalso. destruct HT as (_ & _ & Ha). apply Ha in H1. apply H2; [rewrite ?elem_of_union; by left|done].
        + destruct H1 as [[H1 H3]|[H1 H3]]; [left; split; [by left|done]|right; split; [tauto|done]].
      - intros [[[H1|H1] H2]|[H1 H2]].
        + left. split; [by left|]. split; [intros _ ->; done|done].
        + right. left. done.
        + left. split; [right; tauto|]. split; [intros _ ->; tauto|done]. }
    (* the neighbours *)
    unfold fix_neighbors. cbn [o_uid]. assert (graph_of w1 (Obj kt n) = gr (w1 kt)) as -> by done.
    set (d1 := neighbor_diff O _ _ _ true).
    assert (forall v r, (v, r) ∈ d1 <-> SL n r v /\ ~ act r /\ ~ (n ∈ reg T /\ Lk P n r v)) as Hd1.
    { intros v r. unfold d1. rewrite elem_neighbor_diff, L1, not_act. unfold old_of. split.
      - intros ([[_ H1]|[? _]] & H2 & H3); [|done]. split; [done|]. split; [by apply H2|]. intros [H4 H5]. rewrite decide_True in H3 by done.
        apply (H3 _ eq_refl). apply clone_link. by apply Hg.
      - intros (H1 & H2 & H3). split; [by left|]. split; [done|]. intros g. case_decide as Hd; [|done]. intros [= <-] Hin.
        apply clone_link, Hg in Hin. by apply H3. }
    destruct (fix_new_parents_spec O ks kt n (map (fun x => (x, load1 w1 kt (fst x))) d1) Hne w1 (filter (fun x => fst x <> n) m))
      as (w2 & m2 & Hf2 & Hs2 & Hr2 & Hg2 & Hm2).
    { intros v r p Hin. apply elem_loaded in Hin as [Hin ->]. apply Hd1 in Hin as (_ & Ha & _). split; [by apply not_act|].
      unfold load1. case_decide; [by right|by left]. }
    rewrite Hf2.
    assert (forall x r y, (x, TLink r y) ∈ gr (w2 kt) <-> (x, TLink r y) ∈ gr (w1 kt) \/ (y = n /\ SL n (iv r) x /\ ~ act (iv r) /\ (x ∈ reg T \/ x ∈ P))) as L4.
    { intros x r y. rewrite Hg2. split.
      - intros [?|(v & r' & Hin & [= -> -> ->])]; [by left|]. apply elem_loaded in Hin as [Hin Hl]. apply load1_eq_some in Hl.
        apply Hd1 in Hin as (H1 & H2 & H3). rewrite Hinv. rewrite Hr1 in Hl. destruct (decide (v = n)) as [->|Hv].
        + left. apply L1. left. split; [done|]. by apply Sf.
        + right. split; [done|]. split; [done|]. split; [done|]. rewrite !elem_of_union, elem_of_singleton in Hl. tauto.
      - intros [?|(-> & H1 & H2 & H3)]; [by left|].
        destruct (decide (n ∈ reg T /\ Lk P n (iv r) x)) as [[Hnr Hlk]|Hno].
        + left. apply L1. destruct (decide (x = n)) as [->|Hx].
          { left. split; [done|]. by apply Sb. }
          right. split; [done|]. destruct Hlk as [[? _]|[_ [[Hl _]|(_ & Hx' & Hl & Hac)]]]; [done| |].
          * apply Tb in Hl. destruct (decide (x ∈ P)) as [Hxp|Hxp].
            -- left. split; [done|]. left. by apply Sb in H1.
            -- right. split; [done|]. left. split; [done|]. tauto.
          * left. split; [done|]. left. by apply Sb in H1.
        + right. exists x, (iv r). split; [|by rewrite Hinv]. apply elem_loaded. split; [apply Hd1; tauto|].
          rewrite load1_some; [done|]. rewrite Hr1, !elem_of_union. tauto. }
    assert (forall t, (forall x r y, t <> (x, TLink r y)) -> t ∈ gr (w2 kt) <-> t ∈ gr (w1 kt)) as L5.
    { intros t Ht. rewrite Hg2. split; [|by left]. intros [?|(v & r & _ & ->)]; [done|]. by destruct (Ht v (iv r) n). }
    assert (Miss (P ∪ {[n]}) m2) as HM.
    { intros v o r. rewrite Hm2, elem_of_list_filter. cbn [fst]. rewrite (Hm v o r), elem_loaded, Hd1. split.
      - intros [(H1 & n' & H2 & H3 & H4 & H5 & H6 & H7)|(-> & (H1 & H2 & H3) & H4)].
        + exists n'. rewrite !elem_of_union, !elem_of_singleton. tauto.
        + apply load1_eq_none in H4. rewrite Hr1, !elem_of_union, elem_of_singleton in H4. exists n. rewrite !elem_of_union, !elem_of_singleton. tauto.
      - intros (n' & H1 & -> & H2 & H3 & H4 & H5). rewrite elem_of_union, elem_of_singleton in H5. apply elem_of_union in H1 as [H1|H1].
        + left. split; [tauto|]. exists n'. tauto.
        + apply elem_of_singleton in H1 as ->. right. split; [done|]. split.
          * split; [done|]. split; [done|]. intros [_ Hlk]. destruct Hlk as [[? _]|[_ [[Hl _]|(_ & Hx' & _)]]]; [done| |tauto].
            apply H4. by eapply (TLreg' O T HT).
          * rewrite load1_none; [done|]. rewrite Hr1, !elem_of_union, elem_of_singleton. tauto. }
    unfold old_of. case_decide as Hnr.
    2:{ exists w2, m2. split; [exact Hc|]. split; [done|]. split; [congruence|]. split; [rewrite Hr2, Hr1; symmetry; apply assoc_L, _|]. split; [|done].
        intros [x [r y|c|a l]].
        - rewrite L4, L1. cbn [CudsXStep.G]. rewrite (Lk_step O S T Hinv HS HT) by done.
          assert (forall r y, ~ Lk P n r y) as Hno by (intros r' y' Hlk; apply Lk_reg in Hlk; tauto).
          pose proof (Hno r y). pose proof (Hno (iv r) x). pose proof (SLb O S HS x r y) as B. destruct (decide (x = n)) as [->|Hx].
          + assert (y = n -> SL n (iv r) n <-> SL n r n) by (intros ->; rewrite <- B; done). destruct (decide (y = n)) as [->|Hy]; tauto.
          + tauto.
        - rewrite L5 by done. apply L2.
        - rewrite L5 by done. apply L3. }
    set (og := clone (gr (w kt)) n).
    set (d2 := neighbor_diff O og n (Some (gr (w1 kt))) false).
    assert (forall v r, (v, r) ∈ d2 <-> Lk P n r v /\ ~ SL n r v) as Hd2.
    { intros v r. unfold d2. rewrite elem_neighbor_diff. unfold og. rewrite clone_link, Hg. split.
      - intros (H1 & _ & H2). split; [done|]. intros H3. apply (H2 _ eq_refl). apply L1. by left.
      - intros (H1 & H2). split; [done|]. split; [done|]. intros g [= <-] H3. apply L1 in H3 as [[_ ?]|[? _]]; done. }
    assert (forall v r, Lk P n r v -> ~ SL n r v -> TL n r v /\ ~ (v ∈ P /\ act (iv r)) /\ v <> n /\ v ∈ reg T) as Hlost.
    { intros v r [[? _]|[_ [[H1 H2]|(_ & _ & H1 & _)]]] H3; [done| |].
      - split; [done|]. split; [|split].
        + intros [H4 H5]. apply H2. split; [done|]. split; [done|]. intros H6. apply H3. by apply Sb in H6.
        + intros ->. by apply H3, Fs.
        + by eapply (TLreg' O T HT).
      - exfalso. apply H3. by apply Sb in H1. }
    destruct (fix_old_neighbors_spec O Hinv ks kt n og (map (fun x => (x, load1 w1 kt (fst x))) d2) Hne w2)
      as (w3 & Hf3 & Hs3 & Hr3 & Hg3).
    { intros v r p Hin. apply elem_loaded in Hin as [Hin ->]. apply Hd2 in Hin as [H1 H2]. destruct (Hlost v r H1 H2) as (_ & _ & H3 & H4).
      split; [|done]. apply load1_some. rewrite Hr1, !elem_of_union. tauto. }
    { intros v r p Hin Ha. apply elem_loaded in Hin as [Hin _]. apply Hd2 in Hin as [H1 H2]. destruct (Hlost v r H1 H2) as (H3 & H4 & H5 & H6).
      apply not_act in Ha. destruct (Fl r v H3 H2 Ha) as [U1 U2]. split; [|split].
      - apply NoDup_elem_singleton; [unfold targets; apply NoDup_remove_dups|]. intros y. rewrite elem_targets. unfold og. rewrite clone_link, Hg. simpl.
        split; [|by intros ->]. intros [[? _]|[_ [[H7 _]|(_ & H7 & H8 & H9)]]]; [done|by apply U1|].
        exfalso. apply H9. apply (U2 y); [by apply HP|]. by apply Sb in H8.
      - apply L4. left. apply L1. right. split; [done|]. apply Tf in H3. destruct (decide (v ∈ P)) as [Hv|Hv].
        + left. split; [done|]. right. split; [done|]. rewrite Hinv. split; [|split; [|tauto]].
          * intros H7. apply H2. by apply Sb in H7.
          * intros H7. tauto.
        + right. split; [done|]. left. split; [done|]. tauto.
      - intros c Hc'. apply clone_sub in Hc'. rewrite L5 by done. rewrite Hg1. left. split; [done|]. split; [by intros _|done]. }
    exists w3, m2. split; [exact Hc|]. split; [by rewrite Hf3|]. split; [congruence|]. split; [rewrite Hr3, Hr2, Hr1; symmetry; apply assoc_L, _|]. split; [|done].
    intros t. rewrite Hg3. destruct t as [x [r y|c|a l]].
    - rewrite L4, L1. cbn [CudsXStep.G]. rewrite (Lk_step O S T Hinv HS HT) by done. split.
      + intros [[H1 H2]|(v & r' & p & Hin & Ha & [= -> -> ->])].
        * destruct (decide (x = n)) as [->|Hx].
          { left. split; [done|]. left. destruct H1 as [[[_ ?]|[? _]]|(-> & H1 & _)]; [done|done|]. by apply Sb. }
          right. split; [done|]. destruct H1 as [[[? _]|[_ H1]]|H1]; [done| |by right]. left. split; [done|].
          intros (-> & H3 & H4 & H5). apply H2. exists x, (iv r), (load1 w1 kt x). split; [apply elem_loaded; split; [by apply Hd2|done]|].
          split; [done|by rewrite Hinv].
        * left. split; [done|]. apply elem_loaded in Hin as [Hin _]. apply Hd2 in Hin. right. split; [tauto|]. split; [tauto|]. by apply not_act.
      + intros [[-> [H1|(H1 & H2 & H3)]]|[Hx [[H1 H2]|H1]]].
        * left. split; [left; left; done|]. intros (v & r' & p & Hin & Ha & Heq). apply elem_loaded in Hin as [Hin _]. apply Hd2 in Hin as [H3 H4].
          destruct (Hlost v r' H3 H4) as (_ & _ & H5 & _). congruence.
        * right. exists y, r, (load1 w1 kt y). split; [apply elem_loaded; split; [by apply Hd2|done]|]. split; [by apply not_act|done].
        * left. split; [left; right; done|]. intros (v & r' & p & Hin & Ha & [= -> -> ->]). apply H2. rewrite Hinv. split; [done|]. split; [done|].
          apply elem_loaded in Hin as [Hin _]. by apply Hd2.
        * left. split; [right; done|]. intros (v & r' & p & Hin & Ha & [= -> -> ->]). destruct H1 as (_ & H1 & H2 & _). rewrite Hinv in H2. done.
    - rewrite L5 by done. rewrite L2. split; [intros [[? _]|(?&?&?&?&?&?)]; done|]. intros H1. left. split; [done|]. by intros (?&?&?&?&?&?).
    - rewrite L5 by done. rewrite L3. split; [intros [[? _]|(?&?&?&?&?&?)]; done|]. intros H1. left. split; [done|]. by intros (?&?&?&?&?&?).
  Qed.

  (** The children that are put in the queue. *)
  Definition child_item (to : obj) (v : uid) : item :=
    Item to (Obj ks v) (if decide (v ∈ reg T) then Some (Obj kt v) else None).
  Lemma add_children_spec w self to n P xs :
    w ks = S -> reg (w kt) = reg T ∪ P -> o_sid self = kt ->
    (forall r v, (r, v) ∈ xs -> SL n r v /\ act r) -> (forall r, o_sub O r r = true) ->
    forall queue st, (forall v, v ∈ P -> v ∈ st) ->
    exists new st2, add_children O w self to (Obj ks n) xs queue st = Ok (queue ++ map (child_item to) new, st2) /\
      NoDup new /\ (forall v, v ∈ new -> v ∉ st /\ exists r, (r, v) ∈ xs) /\ (forall v, v ∈ st2 <-> v ∈ st \/ v ∈ new) /\
      (forall r v, (r, v) ∈ xs -> v ∈ st2) /\
      length new + size (link_targets (gr S) ∖ st2) <= size (link_targets (gr S) ∖ st).
  Proof.
    intros Hs Hr Hk Hxs Hrefl. induction xs as [|[r v] xs IH]; intros queue st Hst.
    - exists [], st. cbn [add_children map]. rewrite app_nil_r. split; [done|]. split; [constructor|]. split; [intros v Hv; by apply elem_of_nil in Hv|].
      split; [intros v; rewrite elem_of_nil; tauto|]. split; [intros r v Hv; by apply elem_of_nil in Hv|]. cbn [length]. lia.
    - cbn [add_children]. destruct (Hxs r v ltac:(left)) as [H1 H2].
      assert (forall r v, (r, v) ∈ xs -> SL n r v /\ act r) as Hxs' by (intros ?? Hin; apply Hxs; by right).
      case_decide as Hd.
      + destruct (IH Hxs' queue st Hst) as (new & st2 & -> & I1 & I2 & I3 & I4 & I5). exists new, st2. split; [done|]. split; [done|].
        split; [|split; [done|split; [|done]]].
        * intros v' Hv'. destruct (I2 v' Hv') as [J1 [r' J2]]. split; [done|]. exists r'. by right.
        * intros r' v' Hin. apply elem_of_cons in Hin as [[= -> ->]|Hin]; [apply I3; by left|by eapply I4].
      + cbn [o_sid o_uid]. rewrite Hs, (get1_spec O S n v r HS H1 (Hrefl r)).
        assert (load1 w (o_sid self) v = if decide (v ∈ reg T) then Some (Obj kt v) else None) as ->.
        { rewrite Hk. unfold load1. rewrite Hr. destruct (decide (v ∈ reg T)) as [Hv|Hv].
          - by rewrite decide_True by (rewrite elem_of_union; by left).
          - rewrite decide_False; [done|]. rewrite elem_of_union. intros [?|?]; [done|]. by apply Hd, Hst. }
        destruct (IH Hxs' (queue ++ [child_item to v]) (st ∪ {[v]})) as (new & st2 & Heq & I1 & I2 & I3 & I4 & I5).
        { intros v' Hv'. rewrite elem_of_union. left. by apply Hst. }
        exists (v :: new), st2. split.
        { unfold child_item at 1 in Heq. rewrite Heq. rewrite <- app_assoc. done. }
        split; [|split; [|split; [|split]]].
        * apply stdpp.list.NoDup_cons. split; [|done]. intros Hin. destruct (I2 v Hin) as [J _]. apply J. rewrite elem_of_union, elem_of_singleton. by right.
        * intros v' Hv'. apply elem_of_cons in Hv' as [->|Hv']; [split; [done|]; exists r; left|].
          destruct (I2 v' Hv') as [J1 [r' J2]]. rewrite elem_of_union in J1. split; [tauto|]. exists r'. by right.
        * intros v'. rewrite I3, elem_of_union, elem_of_singleton, elem_of_cons. tauto.
        * intros r' v' Hin. apply elem_of_cons in Hin as [[= -> ->]|Hin]; [|by eapply I4]. apply I3. left. rewrite elem_of_union, elem_of_singleton. by right.
        * cbn [length]. assert (v ∈ link_targets (gr S)) as Hv by (apply elem_link_targets; by exists n, r).
          pose proof (size_minus (link_targets (gr S)) st v Hv Hd). lia.
  Qed.

  (** A link of a copied object to an object that is nowhere in the target session. *)
  Definition dangling (P : gset uid) (t : triple) : Prop :=
    exists n r v, n ∈ P /\ t = (n, TLink r v) /\ SL n r v /\ ~ act r /\ v ∉ reg T /\ v ∉ P.
  Lemma delete_missing_spec m : forall w, (forall v o r, (v, (o, r)) ∈ m -> o_sid o = kt) ->
    delete_missing w m ks = w ks /\ reg (delete_missing w m kt) = reg (w kt) /\
    forall t, t ∈ gr (delete_missing w m kt) <-> t ∈ gr (w kt) /\ ~ exists v o r, (v, (o, r)) ∈ m /\ t = (o_uid o, TLink r v).
  Proof.
    induction m as [|[v [o r]] m IH]; intros w Hm.
    - split; [done|]. split; [done|]. intros t. split; [|tauto]. intros Ht. split; [done|]. intros (v & o & r & Hin & _). by apply elem_of_nil in Hin.
    - unfold delete_missing. cbn [foldl]. fold (delete_missing (set_graph w o (remove_direct (graph_of w o) (o_uid o) r v)) m).
      pose proof (Hm v o r ltac:(left)) as Ho. destruct (IH (set_graph w o (remove_direct (graph_of w o) (o_uid o) r v))) as (I1 & I2 & I3).
      { intros v' o' r' Hin. eapply Hm. right. done. }
      split; [rewrite I1; by apply (same_set kt)|]. split; [rewrite I2, <- Ho; apply reg_set|]. intros t. rewrite I3.
      rewrite <- Ho. change (gr (set_graph w o ?g (o_sid o))) with (graph_of (set_graph w o g) o). rewrite graph_of_set.
      unfold remove_direct. rewrite elem_of_difference, elem_of_singleton. unfold graph_of. split.
      + intros [[H1 H2] H3]. split; [done|]. intros (v' & o' & r' & Hin & ->). apply elem_of_cons in Hin as [[= -> -> ->]|Hin]; [done|].
        apply H3. by exists v', o', r'.
      + intros [H1 H2]. split; [split; [done|]|].
        * intros ->. apply H2. exists v, o, r. split; [left|done].
        * intros (v' & o' & r' & Hin & ->). apply H2. exists v', o', r'. split; [by right|done].
  Qed.

  Context (a : uid) (Ha : ~ desc a) (Hfits : forall n, desc n -> fits n) (Hrefl : forall r, o_sub O r r = true).
  Lemma store_loop_spec fuel : forall self w P Q queue st m res,
    o_sid self = kt -> w ks = S -> reg (w kt) = reg T ∪ P -> (forall t, t ∈ gr (w kt) <-> G P t) -> Miss P m ->
    (forall y, y ∈ P -> desc y) -> (forall y, y ∈ Q -> desc y /\ y ∉ P) -> NoDup Q ->
    (forall v, v ∈ st <-> v ∈ P \/ v ∈ Q \/ v = a) ->
    (forall n r v, n ∈ P -> SL n r v -> act r -> v ∈ P \/ v ∈ Q) -> (b ∈ P \/ b ∈ Q) ->
    Forall2 (fun it v => o_sid (i_to it) = kt /\ it = child_item (i_to it) v) queue Q ->
    length Q + size (link_targets (gr S) ∖ st) <= fuel ->
    (res = Some (Obj kt b) \/ (res = None /\ exists Q', Q = b :: Q')) ->
    exists w' P', store_loop O mk fuel self w queue st m res = (w', Ok (Some (Obj kt b))) /\ w' ks = S /\
      (forall v, v ∈ P' <-> desc v) /\ reg (w' kt) = reg T ∪ P' /\ forall t, t ∈ gr (w' kt) <-> G P' t /\ ~ dangling P' t.
  Proof.
    induction fuel as [|fuel IH]; intros self w P Q queue st m res Hk Hs Hr Hg Hm HP HQ Hnd Hst Hcl Hb Hq Hfu Hres.
    all: destruct Hq as [|it n queue Q [Hto Hit] Hq].
    2:{ cbn [length] in Hfu. lia. }
    1,2: cbn [store_loop]; assert (res = Some (Obj kt b)) as -> by (destruct Hres as [?|(_ & Q' & ?)]; done);
      destruct (delete_missing_spec m w) as (D1 & D2 & D3);
      [intros v o r Hin; apply Hm in Hin as (n & _ & -> & _); done|];
      exists (delete_missing w m), P; split; [done|]; split; [congruence|]; split;
      [intros v; split; [apply HP|]; intros Hd; induction Hd as [|n r v Hd IHd Hl Ha'];
        [destruct Hb as [?|Hb]; [done|by apply elem_of_nil in Hb]|destruct (Hcl n r v IHd Hl Ha') as [?|Hv]; [done|by apply elem_of_nil in Hv]]|];
      split; [congruence|]; intros t; rewrite D3, Hg; apply and_iff_compat_l, not_iff_compat; split;
      [intros (v & o & r & Hin & ->); apply Hm in Hin as (n & H1 & -> & H2); exists n, r, v; tauto
      |intros (n & r & v & H1 & -> & H2); exists v, (Obj kt n), r; split; [apply Hm; exists n; tauto|done]].
    cbn [store_loop]. rewrite Hto. rewrite Hit. unfold child_item at 1 2 3 4. cbn [i_new i_old o_uid].
    destruct (HQ n ltac:(left)) as [Hdn HnP].
    destruct (one_step w P n m Hs Hr Hg Hm HnP HP (Hfits n Hdn)) as (w1 & w2 & m2 & Hc & Hf & Hs2 & Hr2 & Hg2 & Hm2).
    rewrite Hc.
    assert (option_map (fun o => clone (graph_of w o) (o_uid o)) (if decide (n ∈ reg T) then Some (Obj kt n) else None) = old_of w n) as ->.
    { unfold old_of. by case_decide. }
    match goal with |- context [fix_neighbors O w1 ?c ?o ?k ?mm] => replace (fix_neighbors O w1 c o k mm) with (w2, @Ok missing_t m2) by (symmetry; exact Hf) end.
    set (xs := active_links O (graph_of w2 (Obj kt n)) n).
    assert (forall r v, (r, v) ∈ xs <-> SL n r v /\ act r) as Hxs.
    { intros r v. unfold xs. rewrite elem_active_links. unfold graph_of. cbn [o_sid]. rewrite Hg2. cbn [CudsXStep.G]. unfold CudsXStep.Lk.
      rewrite elem_of_union, elem_of_singleton. destruct (active O r); [|intuition congruence]. tauto. }
    unfold child_item. cbn [i_new i_old o_uid]. fold xs.
    destruct (add_children_spec w2 self (Obj kt n) n (P ∪ {[n]}) xs Hs2 Hr2 Hk) with (queue := queue) (st := st)
      as (new & st2 & -> & N1 & N2 & N3 & N4 & N5); [intros r v Hin; by apply Hxs|done| |].
    { intros v Hv. apply Hst. apply elem_of_union in Hv as [Hv|Hv]; [by left|]. apply elem_of_singleton in Hv as ->. right. left. left. }
    apply stdpp.list.NoDup_cons in Hnd as [HnQ Hnd].
    destruct (IH self w2 (P ∪ {[n]}) (Q ++ new) (queue ++ map (child_item (Obj kt n)) new) st2 m2
      (match res with Some r => Some r | None => Some (Obj kt n) end)) as (w' & P' & E1 & E2); try done.
    - intros y Hy. apply elem_of_union in Hy as [Hy|Hy]; [by apply HP|]. by apply elem_of_singleton in Hy as ->.
    - intros y Hy. rewrite elem_of_union, elem_of_singleton. apply elem_of_app in Hy as [Hy|Hy].
      + destruct (HQ y ltac:(by right)) as [H1 H2]. split; [done|]. intros [?| ->]; done.
      + destruct (N2 y Hy) as [H1 [r H2]]. apply Hxs in H2 as [H2 H3]. split; [by eapply desc_child|].
        intros [H4| ->]; apply H1, Hst; [by left|]. right. left. left.
    - apply stdpp.list.NoDup_app. split; [done|]. split; [|done]. intros y Hy Hy'. destruct (N2 y Hy') as [H1 _]. apply H1, Hst. right. left. by right.
    - intros v. rewrite N3, Hst, elem_of_union, elem_of_singleton, elem_of_app, elem_of_cons. tauto.
    - intros n' r v Hn' Hl Hac. rewrite elem_of_union, elem_of_singleton, elem_of_app. apply elem_of_union in Hn' as [Hn'|Hn'].
      + destruct (Hcl n' r v Hn' Hl Hac) as [?|Hv]; [tauto|]. apply elem_of_cons in Hv. tauto.
      + apply elem_of_singleton in Hn' as ->. assert ((r, v) ∈ xs) as Hin by by apply Hxs.
        apply N4 in Hin. apply N3 in Hin as [Hin|Hin]; [|tauto]. apply Hst in Hin as [?|[Hv| ->]]; [tauto|apply elem_of_cons in Hv; tauto|].
        destruct Ha. by eapply desc_child.
    - rewrite elem_of_union, elem_of_singleton, elem_of_app. destruct Hb as [?|Hb]; [tauto|]. apply elem_of_cons in Hb. tauto.
    - apply Forall2_app; [done|]. clear. induction new as [|v new IHn]; cbn [map]; constructor; done.
    - rewrite app_length. cbn [length] in Hfu. lia.
    - left. destruct Hres as [->|(-> & Q' & [= -> _])]; done.
    - exists w', P'. split; [|done]. by rewrite <- E1.
  Qed.

  Lemma G_empty t : G ∅ t <-> t ∈ gr T.
  Proof.
    destruct t as [x [r y|c|a' l]]; cbn [CudsXStep.G]; unfold CudsXStep.Lk; rewrite ?elem_of_empty.
    - tauto.
    - split; [|tauto]. intros [?|[_ [?|(_ & n & r & Hn & _)]]]; [tauto|done|by apply elem_of_empty in Hn].
    - tauto.
  Qed.

  (** The links after the objects have been stored. *)
  Definition stored_link (x : uid) (r : rel) (y : uid) : Prop :=
    (desc x /\ ((SL x r y /\ (act r \/ y ∈ reg T \/ desc y)) \/ (TL x r y /\ ~ SL x r y /\ ~ act r /\ ~ (desc y /\ act (iv r))))) \/
    (~ desc x /\ ((TL x r y /\ ~ (desc y /\ act (iv r) /\ ~ SL y (iv r) x)) \/
                  (x ∈ reg T /\ desc y /\ SL y (iv r) x /\ ~ act (iv r)))).

  Lemma recursive_store_spec w : w ks = S -> w kt = T ->
    exists w', recursive_store O mk w (Obj kt a) (Obj ks b) (if decide (b ∈ reg T) then Some (Obj kt b) else None) = (w', Ok (Some (Obj kt b))) /\
      w' ks = S /\ (forall u, u ∈ reg (w' kt) <-> u ∈ reg T \/ desc u) /\
      (forall u, desc u \/ ~ desc u) /\
      (forall x r y, (x, TLink r y) ∈ gr (w' kt) <-> stored_link x r y) /\
      (forall x c, (x, TType c) ∈ gr (w' kt) <->
         (desc x /\ (x, TType c) ∈ gr S) \/ (~ desc x /\ ((x, TType c) ∈ gr T \/ ((x, TType c) ∈ gr S /\ exists n r, desc n /\ SL n r x)))) /\
      (forall x a l, (x, TAttr a l) ∈ gr (w' kt) <-> (desc x /\ (x, TAttr a l) ∈ gr S) \/ (~ desc x /\ (x, TAttr a l) ∈ gr T)).
  Proof.
    intros Hws Hwt. unfold recursive_store.
    destruct (store_loop_spec (2 + size (graph_of w (Obj ks b))) (Obj kt a) w ∅ [b]
      [Item (Obj kt a) (Obj ks b) (if decide (b ∈ reg T) then Some (Obj kt b) else None)] {[ b; a ]} [] None)
      as (w' & P & E & Hs & HP & Hr & Hg); try done.
    - rewrite Hwt. by rewrite (right_id_L ∅ (∪)).
    - intros t. by rewrite G_empty, Hwt.
    - intros v o r. split; [intros Hin; by apply elem_of_nil in Hin|]. intros (n & Hn & _). by apply elem_of_empty in Hn.
    - intros y Hy. apply elem_of_list_singleton in Hy as ->. split; [apply desc_self|apply not_elem_of_empty].
    - apply NoDup_singleton.
    - intros v. rewrite elem_of_union, !elem_of_singleton, elem_of_list_singleton, elem_of_empty. tauto.
    - right. left.
    - constructor; [|constructor]. done.
    - unfold graph_of. cbn [o_sid]. rewrite Hws. cbn [length].
      assert (size (link_targets (gr S) ∖ {[b; a]}) <= size (link_targets (gr S))) by (apply subseteq_size; set_solver).
      pose proof (size_link_targets (gr S)). lia.
    - right. split; [done|by exists []].
    - exists w'. cbn [o_uid o_sid]. split; [exact E|]. split; [done|].
      assert (forall u, desc u \/ ~ desc u) as Hdec by (intros u; rewrite <- HP; destruct (decide (u ∈ P)); tauto).
      split; [intros u; rewrite Hr, elem_of_union, HP; done|]. split; [done|].
      split; [|split].
      + intros x r y. rewrite Hg. cbn [CudsXStep.G]. unfold CudsXStep.Lk, stored_link. rewrite !HP.
        assert (dangling P (x, TLink r y) <-> desc x /\ SL x r y /\ ~ act r /\ y ∉ reg T /\ ~ desc y) as ->.
        { unfold dangling. split.
          - intros (n & r' & v & Hn & [= -> -> ->] & H1 & H2 & H3 & H4). rewrite HP in Hn, H4. done.
          - intros (H1 & H2 & H3 & H4 & H5). exists x, r, y. rewrite !HP. done. }
        destruct (Hdec x), (Hdec y), (act_dec O r), (SL_dec S x r y), (decide (y ∈ reg T)); tauto.
      + intros x c. rewrite Hg. cbn [CudsXStep.G]. rewrite HP.
        assert (~ dangling P (x, TType c)) as Hnd by (intros (?&?&?&?&?&?); done).
        assert ((exists n r, n ∈ P /\ SL n r x) <-> exists n r, desc n /\ SL n r x) as -> by (split; intros (n & r & H1 & H2); exists n, r; by apply HP in H1 || rewrite HP).
        tauto.
      + intros x a' l. rewrite Hg. cbn [CudsXStep.G]. rewrite HP.
        assert (~ dangling P (x, TAttr a' l)) as Hnd by (intros (?&?&?&?&?&?); done). tauto.
  Qed.

  Lemma stored_link_sym x r y : (forall u, desc u \/ ~ desc u) -> stored_link x r y -> stored_link y (iv r) x.
  Proof.
    intros Hdec. unfold stored_link. rewrite !Hinv.
    pose proof (SLb O S HS x r y) as B1. pose proof (TLb O T HT x r y) as B2.
    pose proof (TLreg O T HT x r y) as B3. pose proof (TLreg' O T HT x r y) as B4.
    assert (desc x -> SL x r y -> act r -> desc y) as C1 by (intros; by eapply desc_child).
    assert (desc y -> SL x r y -> act (iv r) -> desc x) as C2 by (intros ? Hl ?; eapply desc_child; [done|by apply Sf in Hl|done]).
    destruct (Hdec x), (Hdec y), (act_dec O r), (act_dec O (iv r)), (SL_dec S x r y); tauto.
  Qed.
  Lemma stored_link_reg x r y : stored_link x r y -> x ∈ reg T \/ desc x.
  Proof. intros [[H _]|[_ [[H _]|[H _]]]]; [by right|left; by eapply (TLreg O T HT)|by left]. Qed.
End Main.

(** ** The loop ends *)
Section Ends.
  Context (O : onto) (mk : cls -> list (attr * lit) -> res (list (attr * lit))).
  Context (Hmk : forall c kw, mk c kw <> Err OutOfFuel).

  Lemma create_from_fuel w src k : snd (create_from mk w src k) <> Err OutOfFuel.
  Proof.
    unfold create_from. case_decide; [done|]. destruct (classes _ _) as [|c ?]; [done|].
    assert (snd (create_recycle mk w c (attr_dict (graph_of w src) (o_uid src)) k (o_uid src)) <> Err OutOfFuel) as H1.
    { unfold create_recycle. pose proof (Hmk c (attr_dict (graph_of w src) (o_uid src))) as Hk.
      case_decide; destruct (mk c _) as [attrs|e]; simpl; try done; try congruence.
      unfold create. case_decide; simpl; congruence. }
    destruct (create_recycle _ _ _ _ _ _) as [w1 [cl|e]]; simpl in *; congruence.
  Qed.
  Lemma fix_old_fuel new og l : forall w, snd (fix_old_neighbors O new og w l) <> Some OutOfFuel.
  Proof.
    induction l as [|x l IH]; intros w; cbn [fix_old_neighbors]; [done|].
    assert (snd (fix_old_neighbor O new og w x) <> Some OutOfFuel) as H1.
    { destruct x as [[v r] [nb|]]; cbn [fix_old_neighbor]; [|done]. by destruct (active O r). }
    destruct (fix_old_neighbor O new og w x) as [w1 [e|]]; simpl in *; [congruence|apply IH].
  Qed.
  Lemma fix_neighbors_fuel w new old k m : snd (fix_neighbors O w new old k m) <> Err OutOfFuel.
  Proof.
    unfold fix_neighbors. destruct (foldl _ _ _) as [w1 m1]. destruct old as [og|]; [|done].
    set (l := map _ _). pose proof (fix_old_fuel new og l w1). destruct (fix_old_neighbors _ _ _ _ _) as [w2 [e|]]; simpl in *; congruence.
  Qed.
  Lemma add_children_fuel w self new ks u xs (Tg : gset uid) : (forall n r v, connected (w ks) n r v -> v ∈ Tg) ->
    forall queue st, (forall it, it ∈ queue -> o_sid (i_new it) = ks) ->
    match add_children O w self new (Obj ks u) xs queue st with
    | Ok (q, st2) => (forall it, it ∈ q -> o_sid (i_new it) = ks) /\ length q + size (Tg ∖ st2) <= length queue + size (Tg ∖ st)
    | Err e => e <> OutOfFuel
    end.
  Proof.
    intros HTg. induction xs as [|[r v] xs IH]; intros queue st Hq; cbn [add_children]; [done|]. case_decide as Hd; [by apply IH|].
    cbn [o_sid o_uid]. pose proof (get1_inv O (w ks) u v r) as Hg. destruct (get O (w ks) u [v] (Some r) None) as [[[u'|]|]|e]; [|done|done|by subst].
    destruct Hg as [-> (r' & Hc)].
    pose proof (IH (queue ++ [Item new (Obj ks v) (load1 w (o_sid self) v)]) (st ∪ {[v]})) as H1.
    destruct (add_children _ _ _ _ _ _ _ _) as [[q st2]|e].
    - destruct H1 as [H1 H2]; [intros it Hit; apply elem_of_app in Hit as [Hit|Hit]; [by apply Hq|apply elem_of_list_singleton in Hit; by subst]|].
      split; [done|]. rewrite app_length in H2. cbn [length] in H2. pose proof (size_minus Tg st v (HTg _ _ _ Hc) Hd). lia.
    - apply H1. intros it Hit. apply elem_of_app in Hit as [Hit|Hit]; [by apply Hq|apply elem_of_list_singleton in Hit; by subst].
  Qed.
  Lemma store_loop_fuel self ks k (S : sess) fuel : ks <> k -> forall w queue st m res,
    w ks = S -> (forall it, it ∈ queue -> o_sid (i_to it) = k /\ o_sid (i_new it) = ks) ->
    length queue + size (link_targets (gr S) ∖ st) <= fuel ->
    snd (store_loop O mk fuel self w queue st m res) <> Err OutOfFuel.
  Proof.
    intros Hne. induction fuel as [|fuel IH]; intros w [|it queue] st m res Hw Hq Hf; cbn [store_loop].
    - done.
    - cbn [length] in Hf. lia.
    - done.
    - destruct (Hq it ltac:(left)) as [Hto Hnew]. rewrite Hto.
      pose proof (create_from_fuel w (i_new it) k) as H1. pose proof (create_from_same mk w (i_new it) k) as [H1s H1o].
      destruct (create_from mk w (i_new it) k) as [w1 [cl|e]]; simpl in H1, H1s, H1o; [|simpl; congruence].
      pose proof (H1o cl eq_refl) as ->.
      set (old := option_map _ _). set (m1 := filter _ m).
      pose proof (fix_neighbors_fuel w1 (Obj k (o_uid (i_new it))) old k m1) as H2.
      pose proof (fix_neighbors_same O w1 k (Obj k (o_uid (i_new it))) old m1 eq_refl) as H2s.
      destruct (fix_neighbors O w1 _ old k m1) as [w2 [m2|e]]; simpl in H2, H2s; [|simpl; congruence].
      assert (w2 ks = S) as Hw2 by (rewrite H2s, H1s by done; done).
      destruct (i_new it) as [ks' u]. simpl in Hnew. subst ks'. cbn [o_uid].
      match goal with |- context [add_children O w2 self ?c ?g ?xs ?q ?st] =>
        pose proof (add_children_fuel w2 self c ks u xs (link_targets (gr S))) as H3; specialize (H3 ltac:(rewrite Hw2; intros n r v Hc; apply elem_link_targets; by exists n, r) q st);
        pose proof (add_children_to O w2 self c g xs q st) as H4 end.
      destruct (add_children _ _ _ _ _ _ _ _) as [[q2 st2]|e].
      + destruct H3 as [H3 H3']; [intros it' Hit'; apply Hq; by right|]. apply IH; [done| |cbn [length] in Hf; lia].
        intros it' Hit'. split; [|by apply H3]. destruct (H4 _ _ eq_refl it' Hit') as [?| ->]; [|done]. apply Hq. by right.
      + simpl. assert (e <> OutOfFuel) by (apply H3; intros it' Hit'; apply Hq; by right). congruence.
  Qed.
  Lemma recursive_store_fuel w self new old : snd (recursive_store O mk w self new old) <> Err OutOfFuel.
  Proof.
    unfold recursive_store. destruct (decide (o_sid new = o_sid self)) as [Heq|Hne].
    - cbn [store_loop Nat.add]. cbn [i_to i_new]. unfold create_from. by rewrite decide_True.
    - apply (store_loop_fuel self (o_sid new) (o_sid self) (w (o_sid new))); [done|done| |].
      + intros it Hit. apply elem_of_list_singleton in Hit as ->. done.
      + cbn [length]. unfold graph_of. set (X := link_targets _).
        assert (size (X ∖ {[o_uid new; o_uid self]}) <= size X) by (apply subseteq_size; set_solver).
        pose proof (size_link_targets (gr (w (o_sid new)))) as Hs. fold X in Hs. lia.
  Qed.
  Lemma x_add_fuel a r bs : forall w, snd (x_add O mk w a r bs) <> Err OutOfFuel.
  Proof.
    induction bs as [|b bs IH]; intros w; cbn [x_add]; [done|]. destruct (linked _ _ _ _); [done|].
    assert (forall w1 rb, (if decide (o_sid a = o_sid b) then (w, Ok b)
          else match recursive_store O mk w a b (load1 w (o_sid a) (o_uid b)) with
               | (w1, Ok (Some b')) => (w1, Ok b') | (w1, Ok None) => (w1, Err AttributeError) | (w1, Err e) => (w1, Err e) end) = (w1, rb) ->
          rb <> Err OutOfFuel) as H1.
    { intros w1 rb. case_decide as Hd; [by intros [= <- <-]|].
      pose proof (recursive_store_fuel w a b (load1 w (o_sid a) (o_uid b))) as H1.
      destruct (recursive_store _ _ _ _ _ _) as [w2 [[b'|]|e]]; simpl in *; intros [= <- <-]; congruence. }
    match goal with |- context [let '(w1, rb) := ?x in _] => destruct x as [w1 rb] end. specialize (H1 w1 rb eq_refl).
    destruct rb as [b'|e]; [|simpl; congruence]. cbv zeta.
    match goal with |- context [x_add O mk ?w3 a r bs] => pose proof (IH w3) as H3; destruct (x_add O mk w3 a r bs) as [w4 [res|e]] end; simpl in *; congruence.
  Qed.
  Lemma update_all_fuel a xs : forall w, snd (update_all O mk w a xs) <> Err OutOfFuel.
  Proof.
    induction xs as [|[b old] xs IH]; intros w; cbn [update_all]; [done|]. case_decide; [done|].
    pose proof (recursive_store_fuel w a b (Some old)) as H1.
    destruct (recursive_store _ _ _ _ _ _) as [w1 [[b'|]|e]]; simpl in *; [|done|congruence].
    pose proof (IH w1) as H3. destruct (update_all _ _ w1 a xs) as [w2 [res|e]]; simpl in *; congruence.
  Qed.
End Ends.
