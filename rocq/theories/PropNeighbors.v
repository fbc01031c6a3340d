(** C73: the dictionaries of neighbours. *)
From stdpp Require Import base sets list gmap countable.
From Verif Require Import Prelude Cuds CudsProofs Neighbors.

(** ** Specification *)

(** [v] is a key of the dictionary of [a] under [r] *)
Definition is_key (s : nstate) (a : uid) (r : rel) (v : uid) : Prop := (a, TLink r v) ∈ n_gr s.
(** [c] is a class stored for the object [v] *)
Definition is_class (s : nstate) (v : uid) (c : cls) : Prop := (v, TType c) ∈ n_gr s.
(** everything else in the graph is the same: attribute values of all objects, links of other
    objects, links of [a] under other relationships *)
Definition elsewhere (a : uid) (r : rel) (t : triple) : Prop :=
  match t with
  | (u, TLink r' _) => u <> a \/ r' <> r
  | (_, TAttr _ _) => True
  | (_, TType _) => False
  end.
Definition same_elsewhere (a : uid) (r : rel) (s s' : nstate) : Prop :=
  forall t, elsewhere a r t -> t ∈ n_gr s <-> t ∈ n_gr s'.
(** the entry is accepted by a dictionary uid -> classes *)
Definition proper_entry (e : nkey * nval) : Prop := exists v cs, e = (KUid v, VClasses cs).
(** entry [e] of a dictionary gives [v] the class [c] *)
Definition gives (l : list (nkey * nval)) (v : uid) (c : cls) : Prop := exists cs, (KUid v, VClasses cs) ∈ l /\ c ∈ cs.
Definition has_entry (l : list (nkey * nval)) (v : uid) : Prop := exists x, (KUid v, x) ∈ l.
Definition heard (hears : bool) (l : list event) : list event := if hears then l else [].

(** ** Proofs *)
Lemma tell_gr h e s : n_gr (tell h e s) = n_gr s.
Proof. now destruct h. Qed.
Lemma tell_told h e s : n_told (tell h e s) = n_told s ++ heard h [e].
Proof. destruct h; [reflexivity|]. cbn. now rewrite app_nil_r. Qed.

Lemma in_add a r v cs g t :
  t ∈ add_target a r v cs g <-> t ∈ g \/ t = (a, TLink r v) \/ exists c, c ∈ cs /\ t = (v, TType c).
Proof.
  unfold add_target. rewrite !elem_of_union, elem_of_singleton, elem_of_list_to_set, elem_of_list_fmap.
  split.
  - intros [[H|H]|(c & -> & H)]; eauto.
  - intros [H|[H|(c & H & ->)]]; eauto.
Qed.
Lemma in_drop a r g t : t ∈ drop_rel a r g <-> t ∈ g /\ forall v, t <> (a, TLink r v).
Proof.
  unfold drop_rel. rewrite elem_of_filter. destruct t as [u [r' v|c|k l]].
  - rewrite negb_true_iff, andb_false_iff, !bool_decide_eq_false. split.
    + intros [H Ht]. split; [exact Ht|]. intros v' [= -> -> _]. destruct H; congruence.
    + intros [Ht H]. split; [|exact Ht]. destruct (decide (u = a)) as [->|]; [right; intros ->; now apply (H v) | now left].
  - split; [intros [_ H]; split; [exact H | discriminate] | tauto].
  - split; [intros [_ H]; split; [exact H | discriminate] | tauto].
Qed.

(** Reading an entry: the classes stored for the object if it is a key. *)
Theorem C73_get : forall h a r k s,
  match target_get h a r k s with
  | (s', Ok cs) => exists v, k = KUid v /\ is_key s a r v /\ n_gr s' = n_gr s /\ n_told s' = n_told s ++ heard h [NRead]
        /\ NoDup cs /\ forall c, c ∈ cs <-> is_class s v c
  | (s', Err e) => n_gr s' = n_gr s
        /\ ((e = KeyError /\ (exists v, k = KUid v /\ ~ is_key s a r v) /\ n_told s' = n_told s ++ heard h [NRead])
            \/ (e = ValueError /\ (forall v, k <> KUid v) /\ s' = s))
  end.
Proof.
  intros h a r [r'|v|] s; cbn [target_get].
  - split; [reflexivity|]. right. repeat split. discriminate.
  - rewrite tell_gr. unfold linked. case_bool_decide as D.
    + exists v. split; [reflexivity|]. split; [exact D|]. split; [reflexivity|]. split; [apply tell_told|].
      split; [apply NoDup_remove_dups|]. intros c. apply elem_classes.
    + split; [reflexivity|]. left. split; [reflexivity|]. split; [now exists v | apply tell_told].
  - split; [reflexivity|]. right. repeat split. discriminate.
Qed.

(** Setting an entry: it becomes a key; its classes are added to those already stored for the
    object; nothing else changes. *)
Theorem C73_set : forall h a r v cs s, exists s',
  target_set h a r (KUid v) (VClasses cs) s = (s', None)
  /\ n_told s' = n_told s ++ heard h [NRead; NUpdate]
  /\ (forall w, is_key s' a r w <-> w = v \/ is_key s a r w)
  /\ (forall w c, is_class s' w c <-> (w = v /\ c ∈ cs) \/ is_class s w c)
  /\ same_elsewhere a r s s'.
Proof.
  intros h a r v cs s. eexists. split; [reflexivity|].
  assert (G : n_gr (tell h NUpdate (edit (add_target a r v cs) (tell h NRead s))) = add_target a r v cs (n_gr s)).
  { rewrite tell_gr. unfold edit. cbn [n_gr]. now rewrite tell_gr. }
  split.
  { rewrite tell_told. unfold edit. cbn [n_told]. rewrite tell_told. destruct h; cbn; [now rewrite <- app_assoc | now rewrite !app_nil_r]. }
  unfold is_key, is_class, same_elsewhere. rewrite G. split; [|split].
  - intros w. rewrite in_add. split; [intros [H|[[= ->]|(c & _ & [=])]]; auto | intros [->|H]; auto].
  - intros w c. rewrite in_add. split.
    + intros [H|[[=]|(c' & Hc' & [= -> ->])]]; auto.
    + intros [[-> H]|H]; [right; right; eauto | auto].
  - intros t Ht. rewrite in_add. split; [auto|]. intros [H|[->|(c & _ & ->)]]; [exact H | |destruct Ht].
    cbn in Ht. destruct Ht; congruence.
Qed.

(** Deleting an entry: it is no key any more, whether it was one or not; nothing else changes. *)
Theorem C73_del : forall h a r v s, exists s',
  target_del h a r (KUid v) s = (s', None)
  /\ n_told s' = n_told s ++ heard h [NRead; NUpdate]
  /\ (forall w, is_key s' a r w <-> w <> v /\ is_key s a r w)
  /\ (forall w c, is_class s' w c <-> is_class s w c)
  /\ same_elsewhere a r s s'.
Proof.
  intros h a r v s. eexists. split; [reflexivity|].
  split.
  { rewrite tell_told. unfold edit. cbn [n_told]. rewrite tell_told. destruct h; cbn; [now rewrite <- app_assoc | now rewrite !app_nil_r]. }
  unfold is_key, is_class, same_elsewhere. rewrite tell_gr. unfold edit. cbn [n_gr]. rewrite tell_gr. split; [|split].
  - intros w. rewrite elem_of_difference, elem_of_singleton. split; [intros [H N]; split; [congruence | exact H] | intros [N H]; split; [exact H | congruence]].
  - intros w c. rewrite elem_of_difference, elem_of_singleton. split; [tauto|]. intros H. split; [exact H | discriminate].
  - intros t Ht. rewrite elem_of_difference, elem_of_singleton. split; [|tauto]. intros H. split; [exact H|].
    intros ->. cbn in Ht. destruct Ht; congruence.
Qed.

(** Iteration: every key once; over the relationships: those with a key, once each; the
    dictionary is true if there is one. *)
Theorem C73_iteration : forall h a s,
  (forall r, NoDup (snd (target_iter h a r s)) /\ (forall v, v ∈ snd (target_iter h a r s) <-> is_key s a r v)
     /\ n_gr (fst (target_iter h a r s)) = n_gr s /\ n_told (fst (target_iter h a r s)) = n_told s ++ heard h [NRead])
  /\ NoDup (snd (rel_iter h a s)) /\ (forall r, r ∈ snd (rel_iter h a s) <-> exists v, is_key s a r v)
  /\ n_gr (fst (rel_iter h a s)) = n_gr s /\ n_told (fst (rel_iter h a s)) = n_told s ++ heard h [NRead]
  /\ (rel_bool a s = true <-> exists r v, is_key s a r v).
Proof.
  intros h a s. unfold target_iter, rel_iter. cbn [fst snd]. rewrite !tell_gr, !tell_told. split; [|split; [|split; [|split; [|split]]]].
  - intros r. split; [apply NoDup_remove_dups|]. split; [intros v; apply elem_targets|]. auto.
  - apply NoDup_remove_dups.
  - intros r. apply elem_rels_of.
  - reflexivity.
  - reflexivity.
  - unfold rel_bool. rewrite existsb_exists. split.
    + intros ([u p] & Hin & E). destruct p as [r v| |]; try discriminate. apply bool_decide_eq_true in E. subst u.
      exists r, v. apply elem_of_elements. now apply elem_of_list_In.
    + intros (r & v & H). exists (a, TLink r v). split; [apply elem_of_list_In; now apply elem_of_elements|]. now apply bool_decide_eq_true.
Qed.

Lemma update_spec h a r l : forall s,
  match target_update h a r l s with
  | (s', None) => Forall proper_entry l
      /\ n_told s' = n_told s ++ heard h (concat (map (fun _ => [NRead; NUpdate]) l))
      /\ (forall w, is_key s' a r w <-> has_entry l w \/ is_key s a r w)
      /\ (forall w c, is_class s' w c <-> gives l w c \/ is_class s w c)
      /\ same_elsewhere a r s s'
  | (s', Some e) => e = ValueError /\ exists l1 x l2, l = l1 ++ x :: l2 /\ Forall proper_entry l1 /\ ~ proper_entry x
      /\ target_update h a r l1 s = (s', None)
  end.
Proof.
  induction l as [|[k x] l IH]; intros s; cbn [target_update].
  - split; [constructor|]. split; [destruct h; cbn; now rewrite app_nil_r|]. unfold has_entry, gives. split; [|split].
    + intros w. split; [auto|]. intros [(x & H)|H]; [now apply elem_of_nil in H | exact H].
    + intros w c. split; [auto|]. intros [(x & H & _)|H]; [now apply elem_of_nil in H | exact H].
    + intros t _. reflexivity.
  - assert (Dk : (exists v cs, k = KUid v /\ x = VClasses cs) \/ ~ (exists v cs, k = KUid v /\ x = VClasses cs)) by
      (destruct k as [|v|]; [right; intros (? & ? & [=] & _) | destruct x as [cs|d|]; [left; eauto | right; intros (? & ? & _ & [=]) | right; intros (? & ? & _ & [=])] | right; intros (? & ? & [=] & _)]).
    destruct Dk as [(v & cs & -> & ->)|Hn].
    2: { assert (E : target_set h a r k x s = (s, Some ValueError)).
         { destruct k as [|v|], x as [cs|d|]; try reflexivity. exfalso. apply Hn. eauto. }
         rewrite E. split; [reflexivity|]. exists [], (k, x), l. split; [reflexivity|]. split; [constructor|].
         split; [|reflexivity]. intros (v & cs & [= -> ->]). apply Hn. eauto. }
    destruct (C73_set h a r v cs s) as (s1 & E1 & T1 & K1 & C1 & S1). rewrite E1. specialize (IH s1).
    destruct (target_update h a r l s1) as [s' [e|]] eqn:E.
    + destruct IH as (-> & l1 & y & l2 & -> & Hl1 & Hy & Eu). split; [reflexivity|].
      exists ((KUid v, VClasses cs) :: l1), y, l2. split; [reflexivity|].
      split; [constructor; [exists v, cs; reflexivity | exact Hl1]|]. split; [exact Hy|].
      cbn [target_update]. now rewrite E1.
    + destruct IH as (Hl & T & K & C & S). split; [constructor; [exists v, cs; reflexivity | exact Hl]|].
      split; [rewrite T, T1; destruct h; cbn; [now rewrite <- !app_assoc | now rewrite !app_nil_r]|].
      unfold has_entry, gives in *. split; [|split].
      * intros w. rewrite K, K1. split.
        { intros [(y & H)|[->|H]]; [left; exists y; now right | left; exists (VClasses cs); now left | auto]. }
        { intros [(y & H)|H]; [|auto]. apply elem_of_cons in H as [[= -> ->]|H]; eauto. }
      * intros w c. rewrite C, C1. split.
        { intros [(y & H & Hc)|[[-> Hc]|H]]; [left; exists y; split; [now right | exact Hc] | left; exists cs; split; [now left | exact Hc] | auto]. }
        { intros [(y & H & Hc)|H]; [|auto]. apply elem_of_cons in H as [[= -> ->]|H]; eauto. }
      * intros t Ht. rewrite (S1 t Ht). now apply S.
Qed.

Lemma drop_spec h a r s :
  let s' := edit (drop_rel a r) (tell h NRead s) in
  (forall w, ~ is_key s' a r w) /\ (forall w c, is_class s' w c <-> is_class s w c) /\ same_elsewhere a r s s'.
Proof.
  cbn zeta. unfold is_key, is_class, same_elsewhere, edit. cbn [n_gr]. rewrite tell_gr. split; [|split].
  - intros w. rewrite in_drop. intros [_ H]. now apply (H w).
  - intros w c. rewrite in_drop. split; [tauto|]. intros H. split; [exact H | discriminate].
  - intros t Ht. rewrite in_drop. split; [|tauto]. intros H. split; [exact H|]. intros v ->. cbn in Ht. destruct Ht; congruence.
Qed.

(** Assigning a dictionary to a relationship: exactly its entries are the keys; the classes
    given are added to those stored; nothing else changes.  If an entry is not accepted:
    ValueError, and the keys are the entries before it: all earlier neighbours are gone. *)
Theorem C73_assign : forall h a r l s,
  match rel_set h a (KRel r) (VDict l) s with
  | (s', None) => Forall proper_entry l
      /\ (forall w, is_key s' a r w <-> has_entry l w)
      /\ (forall w c, is_class s' w c <-> gives l w c \/ is_class s w c)
      /\ same_elsewhere a r s s'
      /\ n_told s' = n_told s ++ heard h (NRead :: concat (map (fun _ => [NRead; NUpdate]) l) ++ [NUpdate])
  | (s', Some e) => e = ValueError /\ exists l1 x l2, l = l1 ++ x :: l2 /\ Forall proper_entry l1 /\ ~ proper_entry x
      /\ (forall w, is_key s' a r w <-> has_entry l1 w)
      /\ (forall w c, is_class s' w c <-> gives l1 w c \/ is_class s w c)
      /\ same_elsewhere a r s s'
      /\ n_told s' = n_told s ++ heard h (NRead :: concat (map (fun _ => [NRead; NUpdate]) l1))
  end.
Proof.
  intros h a r l s. cbn [rel_set]. unfold target_init.
  destruct (drop_spec h a r s) as (D1 & D2 & D3). set (s0 := edit (drop_rel a r) (tell h NRead s)) in *.
  assert (T0 : n_told s0 = n_told s ++ heard h [NRead]) by (unfold s0, edit; cbn [n_told]; apply tell_told).
  assert (Hok : forall l1 s1, target_update h a r l1 s0 = (s1, None) ->
      Forall proper_entry l1
      /\ (forall w, is_key s1 a r w <-> has_entry l1 w)
      /\ (forall w c, is_class s1 w c <-> gives l1 w c \/ is_class s w c)
      /\ same_elsewhere a r s s1
      /\ n_told s1 = n_told s ++ heard h (NRead :: concat (map (fun _ => [NRead; NUpdate]) l1))).
  { intros l1 s1 E. pose proof (update_spec h a r l1 s0) as U. rewrite E in U. destruct U as (P & T & K & C & S).
    split; [exact P|]. split; [|split; [|split]].
    - intros w. rewrite K. split; [intros [H|H]; [exact H | now destruct (D1 w)] | auto].
    - intros w c. now rewrite C, D2.
    - intros t Ht. rewrite (D3 t Ht). now apply S.
    - rewrite T, T0. destruct h; cbn; [now rewrite <- app_assoc | now rewrite !app_nil_r]. }
  pose proof (update_spec h a r l s0) as U. destruct (target_update h a r l s0) as [s1 [e|]] eqn:E.
  - destruct U as (-> & l1 & x & l2 & -> & P & N & E1). split; [reflexivity|]. exists l1, x, l2.
    destruct (Hok l1 s1 E1) as (_ & K & C & S & T). auto 10.
  - destruct (Hok l s1 E) as (P & K & C & S & T). unfold is_key, is_class, same_elsewhere in *. rewrite tell_gr. split; [exact P|].
    split; [exact K|]. split; [exact C|]. split; [exact S|]. rewrite tell_told, T.
    destruct h; cbn; [now rewrite <- app_assoc | now rewrite !app_nil_r].
Qed.

(** Deleting a relationship: no keys are left; nothing else changes. *)
Theorem C73_del_rel : forall h a r s, exists s',
  rel_del h a (KRel r) s = (s', None)
  /\ n_told s' = n_told s ++ heard h [NRead; NUpdate]
  /\ (forall w, ~ is_key s' a r w)
  /\ (forall w c, is_class s' w c <-> is_class s w c)
  /\ same_elsewhere a r s s'.
Proof.
  intros h a r s. eexists. split; [reflexivity|]. split.
  { rewrite tell_told. unfold edit. cbn [n_told]. rewrite tell_told. destruct h; cbn; [now rewrite <- app_assoc | now rewrite !app_nil_r]. }
  destruct (drop_spec h a r s) as (D1 & D2 & D3). unfold is_key, is_class, same_elsewhere in *. rewrite tell_gr. auto.
Qed.

(** Arguments of the wrong type are refused before anything happens. *)
Theorem C73_refused : forall h a r k x s,
  (~ proper_entry (k, x) -> target_set h a r k x s = (s, Some ValueError))
  /\ ((forall v, k <> KUid v) -> target_del h a r k s = (s, Some ValueError))
  /\ ((forall r', k <> KRel r') \/ (forall l, x <> VDict l) -> rel_set h a k x s = (s, Some ValueError))
  /\ ((forall r', k <> KRel r') -> rel_del h a k s = (s, Some ValueError) /\ rel_get h k s = (s, Err ValueError))
  /\ (forall r', rel_get h (KRel r') s = (tell h NRead s, Ok r')).
Proof.
  intros h a r k x s. split; [|split; [|split; [|split]]].
  - intros N. destruct k as [|v|], x as [cs|d|]; try reflexivity. exfalso. apply N. exists v, cs. reflexivity.
  - intros N. destruct k as [|v|]; try reflexivity. now destruct (N v).
  - intros N. destruct k as [r'|v|], x as [cs|d|]; try reflexivity. destruct N as [N|N]; [now destruct (N r') | now destruct (N d)].
  - intros N. destruct k as [r'|v|]; auto. now destruct (N r').
  - reflexivity.
Qed.

(** Not like a dictionary: setting an entry again keeps the old classes. *)
Theorem C73_replace_refuted :
  ~ (forall h a r v cs s s', target_set h a r (KUid v) (VClasses cs) s = (s', None) ->
       forall c, is_class s' v c <-> c ∈ cs).
Proof.
  intros H. destruct (C73_set false 1%N 2%N 3%N [5%N] (NState {[ (3%N, TType 4%N) ]} [])) as (s' & E & _ & _ & C & _).
  specialize (H _ _ _ _ _ _ _ E 4%N).
  assert (Hc : is_class s' 3%N 4%N) by (apply C; right; unfold is_class; cbn [n_gr]; now apply elem_of_singleton).
  apply H in Hc. apply elem_of_list_singleton in Hc. discriminate.
Qed.
(** A refused assignment has removed neighbours, and the session was not told of an update. *)
Theorem C73_failed_assignment_refuted :
  ~ (forall h a r l s s' e, rel_set h a (KRel r) (VDict l) s = (s', Some e) -> n_gr s' = n_gr s)
  /\ ~ (forall a r l s s' e, rel_set true a (KRel r) (VDict l) s = (s', Some e) ->
          n_gr s' <> n_gr s -> exists l1, n_told s' = n_told s ++ l1 ++ [NUpdate]).
Proof.
  set (s := NState {[ (1%N, TLink 2%N 3%N) ]} []).
  pose proof (C73_assign true 1%N 2%N [(KUid 3%N, VOther)] s) as A.
  destruct (rel_set true 1%N (KRel 2%N) (VDict [(KUid 3%N, VOther)]) s) as [s' [e|]] eqn:E.
  2: { destruct A as (P & _). inversion P as [|? ? (v & cs & E') ?]; discriminate E'. }
  destruct A as (-> & l1 & x & l2 & El & P & N & K & C & S & T).
  assert (l1 = []) as ->.
  { destruct l1 as [|y l1]; [reflexivity|]. injection El as <- El. inversion P as [|? ? (v & cs & E') ?]; discriminate E'. }
  assert (Hd : n_gr s' <> n_gr s).
  { intros Eg. assert (Hk : is_key s' 1%N 2%N 3%N) by (unfold is_key; rewrite Eg; unfold s; cbn [n_gr]; now apply elem_of_singleton).
    apply K in Hk as (y & Hy). now apply elem_of_nil in Hy. }
  split.
  - intros H. apply Hd. eapply H. exact E.
  - intros H. destruct (H _ _ _ _ _ _ E Hd) as (l3 & E3). rewrite T in E3. cbn in E3.
    destruct l3 as [|y l3]; [discriminate E3|]. injection E3 as _ E3. now destruct l3.
Qed.

(** ** A concrete object *)
Definition exN : nstate := NState {[ (1%N, TLink 2%N 3%N); (1%N, TLink 2%N 4%N); (3%N, TType 7%N); (1%N, TLink 9%N 3%N) ]} [].
Example C73_example :
  let '(s1, e1) := rel_set true 1%N (KRel 2%N) (VDict [(KUid 5%N, VClasses [8%N]); (KUid 3%N, VClasses [8%N])]) exN in
  e1 = None /\ n_told s1 = [NRead; NRead; NUpdate; NRead; NUpdate; NUpdate]
  /\ snd (target_get true 1%N 2%N (KUid 4%N) s1) = Err KeyError
  /\ snd (target_get true 1%N 2%N (KUid 5%N) s1) = Ok [8%N]
  /\ snd (target_get true 1%N 9%N (KUid 3%N) s1) <> Err KeyError
  /\ (exists cs, snd (target_get true 1%N 2%N (KUid 3%N) s1) = Ok cs /\ 7%N ∈ cs /\ 8%N ∈ cs).
Proof.
  vm_compute. split; [reflexivity|]. split; [reflexivity|]. split; [reflexivity|]. split; [reflexivity|]. split; [discriminate|].
  eexists. split; [reflexivity|]. (split; [left | right; left]) || (split; [right; left | left]).
Qed.

(** ** Items and equality *)
Lemma gets_spec h a r ks : forall s, Forall (is_key s a r) ks ->
  exists s' l, target_gets h a r ks s = (s', Ok l) /\ n_gr s' = n_gr s /\
    n_told s' = n_told s ++ heard h (map (fun _ => NRead) ks) /\ map fst l = ks /\
    forall v cs, (v, cs) ∈ l -> cs = classes (n_gr s) v.
Proof.
  induction ks as [|v ks IH]; intros s Hk; cbn [target_gets].
  - exists s, []. split; [done|]. split; [done|]. split; [destruct h; cbn; by rewrite app_nil_r|]. split; [done|].
    intros v cs Hin. by apply elem_of_nil in Hin.
  - apply Forall_cons_1 in Hk as [Hv Hk]. unfold target_get. rewrite tell_gr. unfold linked.
    rewrite (bool_decide_true _ Hv).
    destruct (IH (tell h NRead s)) as (s' & l & E & G & T & M & C).
    { rewrite Forall_forall in Hk |- *. intros w Hw. unfold is_key. rewrite tell_gr. by apply Hk. }
    cbn. rewrite E. exists s', ((v, classes (n_gr s) v) :: l). split; [done|]. split; [by rewrite G, tell_gr|].
    split; [rewrite T, tell_told; destruct h; cbn; [by rewrite <- app_assoc|by rewrite !app_nil_r]|].
    split; [cbn; by rewrite M|]. intros w cs Hin. apply elem_of_cons in Hin as [[= -> ->]|Hin]; [done|].
    rewrite (C _ _ Hin). by rewrite tell_gr.
Qed.

(** The items of the dictionary of a relationship: every key once, with the classes stored
    for it; iterating changes nothing and tells the session of one read and one per key. *)
Theorem C73_items : forall h a r s, exists s' l,
  target_items h a r s = (s', Ok l) /\ NoDup (map fst l) /\
  (forall v, v ∈ map fst l <-> is_key s a r v) /\
  (forall v cs, (v, cs) ∈ l -> NoDup cs /\ forall c, c ∈ cs <-> is_class s v c) /\
  n_gr s' = n_gr s /\ n_told s' = n_told s ++ heard h (NRead :: map (fun _ => NRead) l).
Proof.
  intros h a r s. destruct (proj1 (C73_iteration h a s) r) as (ND & K & _ & _).
  unfold target_items. destruct (target_iter h a r s) as [s1 ks] eqn:EI. cbn [snd] in *.
  unfold target_iter in EI. injection EI as <- Eks.
  destruct (gets_spec h a r ks (tell h NRead s)) as (s' & l & E & G & T & M & C).
  { apply Forall_forall. intros v Hv. unfold is_key. rewrite tell_gr. apply K. by apply elem_of_list_In. }
  exists s', l. rewrite E, M. split; [done|]. split; [done|]. split; [done|]. split.
  { intros v cs Hin. rewrite (C _ _ Hin), tell_gr. split; [apply NoDup_remove_dups|]. intros c. apply elem_classes. }
  split; [by rewrite G, tell_gr|]. rewrite T, tell_told, <- app_assoc.
  assert (map (fun _ : uid => NRead) ks = map (fun _ : uid * list cls => NRead) l) as -> by (rewrite <- M, map_map; done).
  by destruct h.
Qed.

Lemma same_dict_spec {K V W} `{EqDecision K} (same : V -> W -> bool) (d : list (K * V)) (E : list (K * W)) :
  NoDup (map fst d) -> NoDup (map fst E) ->
  same_dict same d E = true <->
  (forall k, k ∈ map fst d <-> k ∈ map fst E) /\
  (forall k x y, (k, x) ∈ d -> (k, y) ∈ E -> same x y = true).
Proof.
  intros Nd NE.
  assert (F : forall k y, find (fun e' : K * W => bool_decide (fst e' = k)) E = Some y <-> y.1 = k /\ y ∈ E).
  { intros k y. split.
    - intros Hf. apply find_some in Hf as [H1 H2]. apply bool_decide_eq_true in H2. split; [done|]. by apply elem_of_list_In.
    - intros [<- Hy]. revert NE Hy. clear. induction E as [|z E IH]; intros NE Hy; [by apply elem_of_nil in Hy|].
      cbn [map] in NE. apply stdpp.list.NoDup_cons in NE as [H1 H2]. cbn [find]. apply elem_of_cons in Hy as [<-|Hy].
      + by rewrite bool_decide_true.
      + rewrite bool_decide_false; [by apply IH|]. intros Ez. apply H1. rewrite Ez. by apply elem_of_list_fmap_1. }
  unfold same_dict. rewrite andb_true_iff, bool_decide_eq_true, forallb_forall. split.
  - intros [HL HF].
    assert (Sub : forall k, k ∈ map fst d -> k ∈ map fst E).
    { intros k Hk. apply elem_of_list_fmap in Hk as (e & -> & He). specialize (HF e (proj1 (elem_of_list_In _ _) He)).
      destruct (find _ E) as [y|] eqn:Ey; [|done]. apply F in Ey as [<- Hy]. by apply (elem_of_list_fmap_1 fst). }
    split.
    + intros k. split; [apply Sub|].
      assert (map fst E ⊆+ map fst d) as P.
      { assert (map fst d ≡ₚ map fst E) as P; [|by rewrite P].
        apply submseteq_Permutation_length_eq; [by rewrite !map_length|]. by apply NoDup_submseteq. }
      intros Hk. exact (elem_of_submseteq _ _ _ Hk P).
    + intros k x y Hx Hy. specialize (HF _ (proj1 (elem_of_list_In _ _) Hx)). cbn [fst snd] in HF.
      rewrite (proj2 (F k (k, y)) (conj eq_refl Hy)) in HF. exact HF.
  - intros [HK HS]. split.
    + rewrite <- (map_length fst d), <- (map_length fst E). apply Permutation_length. by apply stdpp.list.NoDup_Permutation.
    + intros e He. apply elem_of_list_In in He. destruct e as [k x]. cbn [fst snd].
      assert (k ∈ map fst E) as Hk by (apply HK; by apply (elem_of_list_fmap_1 fst) in He).
      apply elem_of_list_fmap in Hk as ([k' y] & -> & Hy). cbn [fst] in *.
      rewrite (proj2 (F k' (k', y)) (conj eq_refl Hy)). by eapply HS.
Qed.

(** Comparing with a dictionary uid -> classes: changes nothing; equal only if the keys are
    the neighbours and every list has exactly the classes of its object; and equal, if
    moreover no list has more than one class (the order of several is arbitrary). *)
Theorem C73_equal : forall h a r E s, NoDup (map fst E) -> exists s' b,
  target_eq h a r E s = (s', Ok b) /\ n_gr s' = n_gr s /\
  (b = true -> (forall v, v ∈ map fst E <-> is_key s a r v) /\
     forall v cs, (v, cs) ∈ E -> NoDup cs /\ forall c, c ∈ cs <-> is_class s v c) /\
  ((forall v, v ∈ map fst E <-> is_key s a r v) ->
   (forall v cs, (v, cs) ∈ E -> length cs <= 1 /\ forall c, c ∈ cs <-> is_class s v c) -> b = true).
Proof.
  intros h a r E s NE. destruct (C73_items h a r s) as (s' & l & EI & ND & K & C & G & _).
  unfold target_eq. rewrite EI. eexists _, _. split; [done|]. split; [done|].
  rewrite (same_dict_spec _ l E ND NE). split.
  - intros [HK HS]. split; [intros v; rewrite <- HK; apply K|]. intros v cs Hin.
    assert (v ∈ map fst l) as Hv by (apply HK; by apply (elem_of_list_fmap_1 fst) in Hin).
    apply elem_of_list_fmap in Hv as ([v' cs'] & -> & Hv). cbn [fst] in *.
    specialize (HS _ _ _ Hv Hin). apply bool_decide_eq_true in HS as <-. by apply C.
  - intros HK HC. split; [intros v; rewrite K; symmetry; apply HK|]. intros v cs cs' Hin Hin'. apply bool_decide_eq_true.
    destruct (C _ _ Hin) as [Nc Hc]. destruct (HC _ _ Hin') as [Hl Hc'].
    assert (cs ≡ₚ cs') as P.
    { apply stdpp.list.NoDup_Permutation; [done| |intros c; by rewrite Hc, Hc'].
      destruct cs' as [|c [|c2 cs']]; [constructor|apply NoDup_singleton|cbn in Hl; lia]. }
    destruct cs' as [|c [|c2 cs']]; [by apply Permutation_nil_r in P|by apply Permutation_singleton_r in P|cbn in Hl; lia].
Qed.

(** Comparing all neighbours with a dictionary relationship -> uid -> classes. *)
Theorem C73_equal_all : forall h a E s, NoDup (map fst E) -> (forall r d, (r, d) ∈ E -> NoDup (map fst d)) ->
  n_gr (fst (rel_eq h a E s)) = n_gr s /\
  (snd (rel_eq h a E s) = true ->
     (forall r, r ∈ map fst E <-> exists v, is_key s a r v) /\
     forall r d, (r, d) ∈ E -> (forall v, v ∈ map fst d <-> is_key s a r v) /\
       forall v cs, (v, cs) ∈ d -> NoDup cs /\ forall c, c ∈ cs <-> is_class s v c) /\
  ((forall r, r ∈ map fst E <-> exists v, is_key s a r v) ->
   (forall r d, (r, d) ∈ E -> (forall v, v ∈ map fst d <-> is_key s a r v) /\
      forall v cs, (v, cs) ∈ d -> length cs <= 1 /\ forall c, c ∈ cs <-> is_class s v c) ->
   snd (rel_eq h a E s) = true).
Proof.
  intros h a E s NE Nd. destruct (proj2 (C73_iteration h a s)) as (NK & HK & HG & _).
  unfold rel_eq. destruct (rel_iter h a s) as [s1 ks] eqn:EI. cbn [fst snd] in *. split; [exact HG|].
  assert (Hs : forall r v, is_key s1 a r v <-> is_key s a r v) by (intros r v; unfold is_key; by rewrite HG).
  assert (Hc : forall v c, is_class s1 v c <-> is_class s v c) by (intros v c; unfold is_class; by rewrite HG).
  assert (M : map fst (map (fun r : rel => (r, r)) ks) = ks) by (rewrite map_map; apply map_id).
  assert (IN : forall r x, (r, x) ∈ map (fun r : rel => (r, r)) ks <-> x = r /\ r ∈ ks).
  { intros r x. rewrite elem_of_list_fmap. split; [intros (y & [= -> ->] & ?); done|intros [-> ?]; by exists r]. }
  rewrite same_dict_spec; [|by rewrite M|done]. rewrite M. split.
  - intros [H1 H2]. split; [intros r; rewrite <- H1; apply HK|]. intros r d Hd.
    assert (r ∈ ks) as Hr by (apply H1; by apply (elem_of_list_fmap_1 fst) in Hd).
    specialize (H2 r r d (proj2 (IN r r) (conj eq_refl Hr)) Hd).
    destruct (C73_equal h a r d s1 (Nd _ _ Hd)) as (s2 & b & E2 & _ & HB & _). rewrite E2 in H2. cbn in H2.
    destruct (HB H2) as [B1 B2]. split; [intros v; rewrite B1; apply Hs|]. intros v cs Hv. destruct (B2 _ _ Hv) as [B3 B4].
    split; [done|]. intros c. rewrite B4. apply Hc.
  - intros H1 H2. split; [intros r; rewrite HK; symmetry; apply H1|]. intros r x d Hx Hd. apply IN in Hx as [-> Hr].
    destruct (C73_equal h a r d s1 (Nd _ _ Hd)) as (s2 & b & E2 & _ & _ & HB). rewrite E2. cbn.
    destruct (H2 _ _ Hd) as [B1 B2]. apply HB; [intros v; rewrite B1; symmetry; apply Hs|].
    intros v cs Hv. destruct (B2 _ _ Hv) as [B3 B4]. split; [done|]. intros c. rewrite B4. symmetry. apply Hc.
Qed.

(** Two neighbours under relationship 5, one under 6. *)
Example C73_equal_example :
  let s := NState {[ (1%N, TLink 5%N 2%N); (1%N, TLink 5%N 3%N); (1%N, TLink 6%N 2%N);
                     (2%N, TType 7%N); (3%N, TType 8%N) ]} [] in
  snd (rel_eq true 1%N [(6%N, [(2%N, [7%N])]); (5%N, [(3%N, [8%N]); (2%N, [7%N])])] s) = true /\
  snd (rel_eq true 1%N [(6%N, [(2%N, [7%N])]); (5%N, [(3%N, [7%N]); (2%N, [7%N])])] s) = false /\
  snd (rel_eq true 1%N [(5%N, [(3%N, [8%N]); (2%N, [7%N])])] s) = false.
Proof. vm_compute. done. Qed.

Print Assumptions C73_get.
Print Assumptions C73_set.
Print Assumptions C73_del.
Print Assumptions C73_iteration.
Print Assumptions C73_assign.
Print Assumptions C73_del_rel.
Print Assumptions C73_refused.
Print Assumptions C73_replace_refuted.
Print Assumptions C73_failed_assignment_refuted.
Print Assumptions C73_items.
Print Assumptions C73_equal.
Print Assumptions C73_equal_all.
