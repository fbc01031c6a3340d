(** C74: equality and hashes of cuds objects. *)
From stdpp Require Import base sets list gmap.
From Verif Require Import Prelude Cuds CudsProofs CudsX Equal CudsXProofs CudsXStep PropCuds PropCross.
Local Open Scope N_scope.

Section Proofs.
  Context (known : cls -> bool).
  Notation eqb_ := (cuds_eq known).

  Lemma oclasses_in w e o c : enumerates w e ->
    c ∈ oclasses known e o <-> known c = true /\ (o_uid o, TType c) ∈ gr (w (o_sid o)).
  Proof.
    intros He. unfold oclasses. rewrite elem_of_list_In, List.filter_In, <- elem_of_list_In.
    rewrite (He (o_sid o) (o_uid o)), elem_classes. tauto.
  Qed.

  Lemma oclass_one w e o c : enumerates w e -> one_class known (w (o_sid o)) (o_uid o) ->
    oclass known e o = Some c <-> known c = true /\ (o_uid o, TType c) ∈ gr (w (o_sid o)).
  Proof.
    intros He H1. rewrite <- (oclasses_in w e o c He). unfold oclass.
    assert (forall x y, x ∈ oclasses known e o -> y ∈ oclasses known e o -> x = y) as Hu.
    { intros x y [Hx Hx']%(oclasses_in w e o x He) [Hy Hy']%(oclasses_in w e o y He). by apply H1. }
    destruct (oclasses known e o) as [|x l]; split; intros H.
    - discriminate.
    - by apply elem_of_nil in H.
    - injection H as <-. left.
    - f_equal. apply Hu; [left|done].
  Qed.

  Lemma oclass_none w e o : enumerates w e ->
    oclass known e o = None <-> forall c, (o_uid o, TType c) ∈ gr (w (o_sid o)) -> known c = false.
  Proof.
    intros He. unfold oclass. pose proof (fun c => oclasses_in w e o c He) as H.
    destruct (oclasses known e o) as [|x l]; split; intros Hn.
    - intros c Hc. destruct (known c) eqn:Hk; [|done].
      assert (c ∈ []) as Hx by (apply H; done). by apply elem_of_nil in Hx.
    - done.
    - discriminate.
    - destruct (proj1 (H x)) as [Hk Hx]; [left|]. apply Hn in Hx. congruence.
  Qed.

  (** == is an equivalence relation on all handles of all sessions. *)
  Theorem C74_equivalence e :
    (forall a, eqb_ e a a = true) /\
    (forall a b, eqb_ e a b = true -> eqb_ e b a = true) /\
    (forall a b c, eqb_ e a b = true -> eqb_ e b c = true -> eqb_ e a c = true).
  Proof.
    unfold cuds_eq. split; [|split]; intros *; rewrite ?andb_true_iff, ?bool_decide_eq_true;
      naive_solver congruence.
  Qed.

  (** Equal objects have the same hash, the hash of the uid: membership in sets and
      dictionaries is that of lists. *)
  Theorem C74_hash h e :
    (forall a b, eqb_ e a b = true -> cuds_hash h a = cuds_hash h b) /\
    (forall a l, in_set known h e a l = in_list known e a l).
  Proof.
    assert (forall a b, eqb_ e a b = true -> cuds_hash h a = cuds_hash h b) as H.
    { intros a b. unfold cuds_eq, cuds_hash. rewrite andb_true_iff, !bool_decide_eq_true.
      by intros [_ ->]. }
    split; [done|]. intros a l. unfold in_set, in_list.
    induction l as [|b l IH]; [done|]. cbn [existsb]. rewrite IH. f_equal.
    destruct (eqb_ e b a) eqn:E; [|by rewrite andb_false_r].
    by rewrite (H _ _ E), N.eqb_refl.
  Qed.

  (** Two handles of one session are equal exactly if they have the same uid, whatever
      classes the object has. *)
  Theorem C74_same_session e k u v : eqb_ e (Obj k u) (Obj k v) = true <-> u = v.
  Proof.
    unfold cuds_eq. cbn. rewrite andb_true_iff, !bool_decide_eq_true. split; [tauto|].
    by intros ->.
  Qed.

  (** Handles of different sessions, of objects with at most one known class: equal
      exactly if the uids are the same and both or none have that class. *)
  Theorem C74_across_sessions w e a b :
    enumerates w e -> one_class known (w (o_sid a)) (o_uid a) -> one_class known (w (o_sid b)) (o_uid b) ->
    eqb_ e a b = true <->
    o_uid a = o_uid b /\
    forall c, known c = true ->
      ((o_uid a, TType c) ∈ gr (w (o_sid a)) <-> (o_uid b, TType c) ∈ gr (w (o_sid b))).
  Proof.
    intros He Ha Hb. unfold cuds_eq. rewrite andb_true_iff, !bool_decide_eq_true. split.
    - intros [Hc Hu]. split; [done|]. intros c Hk.
      pose proof (oclass_one w e a c He Ha) as Ha'. pose proof (oclass_one w e b c He Hb) as Hb'.
      rewrite Hc in Hb'. tauto.
    - intros [Hu Hc]. split; [|done].
      destruct (oclass known e a) as [c|] eqn:Ea.
      + apply (oclass_one w e b c He Hb). apply (oclass_one w e a c He Ha) in Ea as [Hk Hx].
        split; [done|]. by apply Hc.
      + apply (oclass_none w e b He). intros c Hx. destruct (known c) eqn:Hk; [|done].
        rewrite (proj1 (oclass_none w e a He) Ea c) in Hk; [done|]. by apply Hc.
  Qed.

  (** Operations do not change the types of other objects. *)
  Lemma add_types O s a r bs u c :
    (u, TType c) ∈ gr (fst (add O s a r bs)) <-> (u, TType c) ∈ gr s.
  Proof.
    revert s. induction bs as [|b bs IH]; intros s; [done|]. cbn.
    destruct (linked _ _ _ _); [done|].
    destruct (add O _ a r bs) as [s' x] eqn:E.
    assert (s' = fst (add O (set_gr s (add_direct (add_direct (gr s) a r b) b (o_inv O r) a)) a r bs)) as -> by by rewrite E.
    cbn [fst]. rewrite IH. cbn [set_gr gr].
    assert (forall g x r y, (u, TType c) ∈ add_direct g x r y <-> (u, TType c) ∈ g) as H.
    { intros g x0 r0 y0. unfold add_direct. rewrite !elem_of_union, elem_of_singleton, elem_of_list_to_set, elem_of_list_fmap. split.
      - intros [[?|[=]]|(c' & [= -> ->] & Hc)]; [done|]. by apply elem_classes in Hc.
      - tauto. }
    by rewrite !H.
  Qed.
  Lemma remove_rels_types O g a b p rs u c :
    (u, TType c) ∈ fst (remove_rels O g a b p rs) <-> (u, TType c) ∈ g.
  Proof.
    revert g. induction rs as [|r rs IH]; intros g; [done|]. cbn.
    destruct p; cbn; rewrite ?IH; unfold remove_direct; rewrite ?elem_of_difference, ?elem_of_singleton;
      naive_solver.
  Qed.
  Lemma remove_all_types O s a m u c :
    (u, TType c) ∈ gr (fst (remove_all O s a m)) <-> (u, TType c) ∈ gr s.
  Proof.
    revert s. induction m as [|[b rs] m IH]; intros s; [done|]. cbn.
    pose proof (remove_rels_types O (gr s) a b (bool_decide (b ∈ reg s)) (elements rs) u c) as H.
    destruct (remove_rels _ _ _ _ _ _) as [g1 [e|]]; cbn in *; [done|]. by rewrite IH.
  Qed.
  Lemma remove_types O s a us rf oc u c :
    (u, TType c) ∈ gr (fst (remove O s a us rf oc)) <-> (u, TType c) ∈ gr s.
  Proof.
    unfold remove. destruct (get_ _ _ _ _ _ _) as [[f [|p m]]|e]; [done| |done]. apply remove_all_types.
  Qed.
  Lemma delete_triples_types s v u c : u <> v ->
    (u, TType c) ∈ gr (fst (delete_triples s v)) <-> (u, TType c) ∈ gr s.
  Proof.
    intros Hu. unfold delete_triples. destruct (decide _); [|done]. cbn.
    rewrite elem_of_filter. cbn. naive_solver.
  Qed.
  Lemma delete_types O s v u c : u <> v ->
    (u, TType c) ∈ gr (fst (delete_cuds_object O s v)) <-> (u, TType c) ∈ gr s.
  Proof.
    intros Hu. unfold delete_cuds_object.
    destruct (get _ _ _ _ _ _) as [[x|[|x l]]|e]; [by apply delete_triples_types|by apply delete_triples_types| |done].
    pose proof (remove_types O s v [] (Some (o_relationship O)) None u c) as H.
    destruct (remove _ _ _ _ _ _) as [s1 [e|]]; [done|]. by rewrite delete_triples_types.
  Qed.
  Lemma step_types O s o u c : lives_through u o ->
    (u, TType c) ∈ gr (step O s o) <-> (u, TType c) ∈ gr s.
  Proof.
    destruct o as [v d attrs|a r bs|a us rf oc|v a l|v]; cbn; intros Hl.
    - unfold create. destruct (decide _); [done|]. cbn.
      rewrite !elem_of_union, elem_of_singleton, elem_of_list_to_set, elem_of_list_fmap. naive_solver.
    - apply add_types.
    - apply remove_types.
    - unfold set_attr. cbn. rewrite elem_of_union, elem_of_filter, elem_of_singleton. naive_solver.
    - by apply delete_types.
  Qed.
  Lemma steps_types O s os u c : Forall (lives_through u) os ->
    (u, TType c) ∈ gr (steps_of O s os) <-> (u, TType c) ∈ gr s.
  Proof.
    revert s. induction os as [|o os IH]; intros s Hl; [done|]. inversion Hl; subst. cbn.
    by rewrite IH, step_types.
  Qed.

  (** Whatever is created, added, removed, assigned or deleted besides, an object with at
      most one known class stays equal to what it was equal to, and to nothing else,
      in whichever orders the graphs are enumerated before and after. *)
  Theorem C74_kept O w e e' k u os b :
    enumerates w e -> enumerates (upd w k (steps_of O (w k) os)) e' ->
    Forall (lives_through u) os -> o_sid b <> k \/ Forall (lives_through (o_uid b)) os ->
    one_class known (w k) u -> one_class known (w (o_sid b)) (o_uid b) ->
    eqb_ e' (Obj k u) b = eqb_ e (Obj k u) b.
  Proof.
    intros He He' Hl Hb H1 H2. apply eq_true_iff_eq.
    set (w' := upd w k (steps_of O (w k) os)) in *.
    assert (forall c, (u, TType c) ∈ gr (w' k) <-> (u, TType c) ∈ gr (w k)) as Ha.
    { intros c. unfold w', upd. rewrite decide_True by done. by apply steps_types. }
    assert (forall c, (o_uid b, TType c) ∈ gr (w' (o_sid b)) <-> (o_uid b, TType c) ∈ gr (w (o_sid b))) as Hb'.
    { intros c. unfold w', upd. destruct (decide (o_sid b = k)) as [Hk|Hk]; [|done].
      destruct Hb as [Hb|Hb]; [done|]. rewrite Hk. by apply steps_types. }
    rewrite (C74_across_sessions w e) by done.
    rewrite (C74_across_sessions w' e'); [|done|..]; cbn [o_sid o_uid].
    - setoid_rewrite Ha. setoid_rewrite Hb'. done.
    - intros c c'. rewrite !Ha. apply H1.
    - intros c c'. rewrite !Hb'. apply H2.
  Qed.

  (** The copies that add() makes in another session are equal to the originals. *)
  Theorem C74_copies_are_equal O mk w ks kt a b r :
    ks <> kt -> involutive O -> (forall r, o_sub O r r = true) -> tidy O (w ks) -> tidy O (w kt) ->
    a ∈ reg (w kt) ->
    (forall n, descendant O (w ks) b n -> n ∉ reg (w kt) /\ copyable mk (gr (w ks)) n /\ n <> 0 /\
       forall c, (n, TType c) ∈ gr (w kt) -> (n, TType c) ∈ gr (w ks)) ->
    exists w', x_add O mk w (Obj kt a) r [Obj ks b] = (w', Ok [Obj kt b]) /\
      forall e u, enumerates w' e -> descendant O (w ks) b u -> one_class known (w ks) u ->
        eqb_ e (Obj ks u) (Obj kt u) = true.
  Proof.
    intros Hk Hi Hr Hs Ht Ha Hd.
    destruct (C20_add_copies O mk w ks kt a b r Hk Hi Hr Hs Ht Ha Hd) as (w' & Hw & _ & Hc & _).
    exists w'. split; [done|]. intros e u He Hu H1.
    assert (w' ks = w ks) as Hks.
    { replace w' with (fst (x_add O mk w (Obj kt a) r [Obj ks b])) by by rewrite Hw.
      by apply C19_add_frame. }
    destruct (Hc u Hu) as [Ht' _].
    apply (C74_across_sessions w' e); cbn [o_sid o_uid]; [done|by rewrite Hks| |].
    - intros c c'. rewrite !Ht'. apply H1.
    - split; [done|]. intros c _. by rewrite Hks, Ht'.
  Qed.

  (** A handle of a deleted object has no class: it is equal only to handles with its
      uid that have no known class either. *)
  Theorem C74_deleted O w e k u b :
    enumerates (upd w k (fst (delete_cuds_object O (w k) u))) e ->
    snd (delete_cuds_object O (w k) u) = None ->
    eqb_ e (Obj k u) b = true <-> o_uid b = u /\ oclass known e b = None.
  Proof.
    intros He Hok.
    assert (oclass known e (Obj k u) = None) as Hn.
    { apply (oclass_none _ _ _ He). cbn [o_sid o_uid]. unfold upd. rewrite decide_True by done.
      intros c Hc. exfalso.
      assert (forall s, snd (delete_triples s u) = None -> (u, TType c) ∉ gr (fst (delete_triples s u))) as H.
      { intros s. unfold delete_triples. destruct (decide _); [|done]. intros _. cbn.
        rewrite elem_of_filter. cbn. naive_solver. }
      revert Hok Hc. unfold delete_cuds_object.
      destruct (get _ _ _ _ _ _) as [[x|[|x l]]|x]; [apply H|apply H| |done].
      destruct (remove _ _ _ _ _ _) as [s1 [x'|]]; [done|apply H]. }
    unfold cuds_eq. rewrite andb_true_iff, !bool_decide_eq_true, Hn. cbn. naive_solver.
  Qed.
End Proofs.

(** Without the restriction to one class: two sessions hold the same triples of the
    object, and the handles are not equal. *)
Definition eqO : onto := Onto (fun r s => bool_decide (r = s)) (fun r => r) (fun c d => bool_decide (c = d)) 1 1.
Definition eqS : sess := step eqO (step eqO empty_sess (Create 7 1 [])) (Create 7 2 []).
Theorem C74_several_classes_refuted :
  exists w e, (forall k, reachable eqO (w k)) /\ w 1 = w 2 /\ enumerates w e /\
    cuds_eq (fun _ => true) e (Obj 1 7) (Obj 2 7) = false.
Proof.
  exists (fun _ => eqS), (fun k u => if decide (k = 1) then classes (gr eqS) u else reverse (classes (gr eqS) u)).
  split; [|split; [done|split]].
  - intros _. unfold eqS. repeat constructor.
  - intros k u. cbn. destruct (decide _); [done|]. apply reverse_Permutation.
  - vm_compute. reflexivity.
Qed.

(** Creating an object with a uid that the session has already adds a class: the object
    may be unequal afterwards to what it was equal to. *)
Theorem C74_created_again_refuted :
  exists w w' e e', (forall k, reachable eqO (w k)) /\ w' = upd w 1 (step eqO (w 1) (Create 7 2 [])) /\
    enumerates w e /\ enumerates w' e' /\
    cuds_eq (fun _ => true) e (Obj 1 7) (Obj 2 7) = true /\
    cuds_eq (fun _ => true) e' (Obj 1 7) (Obj 2 7) = false.
Proof.
  set (s0 := step eqO empty_sess (Create 7 1 [])).
  set (w := (fun _ => s0) : world).
  set (w' := upd w 1 (step eqO s0 (Create 7 2 []))).
  assert (forall k, reachable eqO (w k)) as Hr.
  { intros k. unfold w, s0. repeat constructor. }
  exists w, w', (fun k u => classes (gr (w k)) u),
    (fun k u => if decide (head (classes (gr (w' k)) u) = Some 1) then reverse (classes (gr (w' k)) u)
                else classes (gr (w' k)) u).
  split; [done|]. split; [done|]. split; [intros k u; reflexivity|]. split.
  { intros k u. destruct (decide _); [apply reverse_Permutation|done]. }
  split; vm_compute; reflexivity.
Qed.

(** A concrete case: the copy of an object of one class in another session. *)
Example C74_example :
  cuds_eq (fun _ => true) (fun _ u => classes (gr (step eqO empty_sess (Create 7 1 []))) u) (Obj 1 7) (Obj 2 7) = true /\
  one_class (fun _ => true) (step eqO empty_sess (Create 7 1 [])) 7 /\
  ~ one_class (fun _ => true) eqS 7.
Proof.
  split; [vm_compute; reflexivity|]. split.
  - intros c c' Hc Hc' _ _. apply elem_classes in Hc. apply elem_classes in Hc'.
    assert (classes (gr (step eqO empty_sess (Create 7 1 []))) 7 = [1]) as E by (vm_compute; reflexivity).
    rewrite E in Hc, Hc'. apply elem_of_list_singleton in Hc. apply elem_of_list_singleton in Hc'. congruence.
  - intros H. assert (1%N = 2%N) as Hx; [|discriminate].
    apply H; [| |done|done]; apply (bool_decide_eq_true_1 _); vm_compute; reflexivity.
Qed.

Print Assumptions C74_equivalence.
Print Assumptions C74_hash.
Print Assumptions C74_same_session.
Print Assumptions C74_across_sessions.
Print Assumptions C74_kept.
Print Assumptions C74_copies_are_equal.
Print Assumptions C74_deleted.
Print Assumptions C74_several_classes_refuted.
Print Assumptions C74_created_again_refuted.
