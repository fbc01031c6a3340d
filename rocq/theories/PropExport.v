(** Theorems about serialize() and deserialize() (C60). *)
From stdpp Require Import base sets list gmap.
From Verif Require Import Prelude Cuds CudsProofs Traverse Wrapper WrapperProofs Buffers PropCuds PropTraverse TraversePaths PropDepth PropBuffers Export.
Local Open Scope N_scope.

(** ** Lemmas *)

Lemma receive_all_ok gs us : forall t,
  (root t = None -> reg t = ∅) -> NoDup us -> (forall u, u ∈ us -> u <> 0) -> (forall u, u ∈ us -> exists p, (u, p) ∈ gs) ->
  (forall u p, u ∈ us -> u ∉ reg t -> (u, p) ∈ gr t -> (u, p) ∈ gs) ->
  exists t', receive_all t (entry_of gs <$> us) = (t', Ok (Some <$> us)) /\
    reg t' = reg t ∪ list_to_set us /\
    root t' = match root t with Some r => Some r | None => head us end /\
    (forall v p, v ∈ us -> (v, p) ∈ gr t' <-> (v, p) ∈ gs) /\
    (forall v p, v ∉ us -> (v, p) ∈ gr t' <-> (v, p) ∈ gr t \/ sent_type gs (list_to_set us) v p).
Proof.
  induction us as [|u us IH]; intros t Hrt Hnd Hz Hne Hst; rewrite ?fmap_cons; cbn [receive_all].
  - exists t. split; [done|]. split; [set_solver|]. split; [by destruct (root t)|].
    split; [by intros v p Hv; apply elem_of_nil in Hv|]. intros v p _. split; [by left|].
    intros [?|(_ & _ & u & q & Hu & _)]; [done|]. set_solver.
  - apply stdpp.list.NoDup_cons in Hnd as [Hu Hnd].
    set (g1 := recv (gr t) gs (reg t) u).
    assert (E : receive t (entry_of gs u) =
      (Sess (reg t ∪ {[u]}) g1 (match root t with Some r => Some r | None => Some u end), Ok (Some u))).
    { unfold receive. simpl. rewrite decide_False.
      2:{ intros E. destruct (Hne u ltac:(left)) as [p Hp].
          assert ((u, p) ∈ triples_of gs u) as Hin by (by apply elem_triples_of). rewrite E in Hin. set_solver. }
      unfold g1, recv. case_decide as Hd.
      - unfold set_gr. assert (reg t ∪ {[u]} = reg t) as -> by set_solver.
        destruct (root t) eqn:Er; [done|]. rewrite (Hrt eq_refl) in Hd. set_solver.
      - rewrite decide_False by (apply Hz; left). done. }
    rewrite E. clear E.
    assert (forall v p, (v, p) ∈ g1 <->
              if decide (v = u) then (v, p) ∈ gs else (v, p) ∈ gr t \/ sent_type gs {[u]} v p) as Hrecv.
    { intros v p. unfold g1, recv. rewrite !elem_of_union, elem_triples_of, elem_nb. unfold sent_type. simpl.
      destruct (decide (v = u)) as [->|Hne'].
      - split; [|by auto]. intros [[H|[H _]]|[H _]]; [|done|done]. revert H. case_decide as Hd.
        + rewrite elem_of_filter. by intros [].
        + intros H. apply Hst; [left|done|done].
      - assert ((v, p) ∈ (if decide (u ∈ reg t) then filter (fun t : triple => fst t <> u) (gr t) else gr t) <-> (v, p) ∈ gr t) as ->.
        { case_decide; [|done]. rewrite elem_of_filter. simpl. naive_solver. }
        split.
        + intros [[H|[H ?]]|(H & Ht & q & Hq)]; [by left|done|]. right. split; [done|]. split; [done|].
          exists u, q. split; [by apply elem_of_singleton|done].
        + intros [H|(H & Ht & x & q & Hx & Hq)]; [by left; left|]. apply elem_of_singleton in Hx as ->.
          right. split; [done|]. split; [done|]. by exists q. }
    set (t1 := Sess _ _ _).
    destruct (IH t1) as (t' & HE & Hreg & Hroot & H1 & H2); [by simpl; destruct (root t)|done| | | |].
    { intros v Hv. apply Hz. by right. } { intros v Hv. apply Hne. by right. }
    { intros v p Hv Hnr. simpl. rewrite Hrecv. case_decide as Hd; [done|].
      intros [H|[H _]]; [|done]. apply Hst; [by right| |done]. simpl in Hnr. clear -Hnr. set_solver. }
    exists t'. rewrite HE. split; [done|]. split; [|split; [|split]].
    + rewrite Hreg. simpl. clear. set_solver.
    + rewrite Hroot. simpl. by destruct (root t).
    + intros v p Hv. apply elem_of_cons in Hv as [->|Hv]; [|by apply H1].
      rewrite H2 by done. simpl. rewrite Hrecv, decide_True by done. split; [|by left]. by intros [?|[? _]].
    + intros v p Hv. rewrite not_elem_of_cons in Hv. destruct Hv as [Hvu Hvs].
      rewrite H2 by done. simpl. rewrite Hrecv, decide_False by done. unfold sent_type. clear. set_solver.
Qed.

(** What serialize() writes: the objects reachable through the relationship. *)
Lemma serialize_spec O s rf u fuel :
  bidirectional O s -> closed s -> u ∈ reg s -> (size (reg s) < fuel)%nat ->
  exists l, serialize O s fuel rf None u = Some (entry_of (gr s) <$> (u :: l)) /\ NoDup (u :: l) /\
    forall x, x ∈ u :: l <-> reachable_via O s rf u x.
Proof.
  intros Hb Hc Hu Hf.
  destruct (C17_find_all_exact O s rf (fun _ => true) u fuel Hb Hc Hu Hf) as (v & l & E & Hnd & Hl).
  assert (exists l', l = u :: l') as [l' ->].
  { clear -E. destruct fuel as [|fuel]; [done|]. cbn [find_cuds_object] in E. simpl in E.
    revert E. generalize (iter_nbrs O s rf u). generalize (∅ ∪ {[u]} : gset uid). 
    intros v0 subs. 
    assert (forall subs v0 out, (exists l', out = u :: l') -> 
      (fix loop (subs : list uid) (visited : gset uid) (output : list uid) :=
             match subs with
             | [] => Some (visited, FAll output)
             | sub :: subs =>
                 if decide (sub ∈ visited) then loop subs visited output
                 else match find_cuds_object (iter_nbrs O s rf) fuel (fun _ => true) true None 1 sub visited with
                      | None => None
                      | Some (visited', FOne (Some x)) => Some (visited', FOne (Some x))
                      | Some (visited', FOne None) => loop subs visited' output
                      | Some (visited', FAll l) => loop subs visited' (output ++ l)
                      end
             end) subs v0 out = Some (v, FAll l) -> exists l', l = u :: l') as H.
    { clear. induction subs as [|x subs IH]; intros v0 out [l' ->].
      - intros [= <- <-]. by exists l'.
      - case_decide; [apply IH; by exists l'|].
        destruct (find_cuds_object _ _ _ _ _ _ _ _) as [[v' [l2|[y|]]]|]; [|done|apply IH; by exists l'|done].
        apply IH. by exists (l' ++ l2). }
    apply H. by exists []. }
  exists l'. split; [unfold serialize; by rewrite E|]. split; [done|]. intros x. rewrite Hl. naive_solver.
Qed.

(** ** C60 *)

(** [copied O s rf u t t'] : t' is t with the objects below u copied from s. *)
Record copied (O : onto) (s : sess) (rf : option rel) (u : uid) (t t' : sess) : Prop := {
  (* the objects *)
  cp_reg : forall x, x ∈ reg t' <-> x ∈ reg t \/ reachable_via O s rf u x;
  (* each copy has the links, classes and attributes of the original *)
  cp_copy : forall x p, reachable_via O s rf u x -> (x, p) ∈ gr t' <-> (x, p) ∈ gr s;
  (* the other objects keep theirs; those linked to a copy get the class they have
     in the source *)
  cp_rest : forall y p, ~ reachable_via O s rf u y ->
    (y, p) ∈ gr t' <-> (y, p) ∈ gr t \/
      exists c x r, p = TType c /\ (y, TType c) ∈ gr s /\ reachable_via O s rf u x /\ connected s x r y
}.

(** The target knows nothing about objects it does not have, unless it is true. *)
Definition no_leftover (s t : sess) : Prop :=
  forall x p, (x, p) ∈ gr t -> x ∈ reg t \/ (x, p) ∈ gr s.
Definition objects_ok (s : sess) : Prop := forall x, x ∈ reg s -> x <> 0 /\ exists c, (x, TType c) ∈ gr s.

Theorem C60_copy O s t rf u fuel :
  bidirectional O s -> closed s -> objects_ok s -> u ∈ reg s -> (size (reg s) < fuel)%nat ->
  (root t = None -> reg t = ∅) -> no_leftover s t ->
  exists m t', serialize O s fuel rf None u = Some m /\ deserialize t m = (t', Ok (Some u)) /\
    copied O s rf u t t' /\ root t' = match root t with Some r => Some r | None => Some u end.
Proof.
  intros Hb Hc Hok Hu Hf Hrt Hleft. destruct (serialize_spec O s rf u fuel Hb Hc Hu Hf) as (l & E & Hnd & Hl).
  assert (Hreg : forall x, reachable_via O s rf u x -> x ∈ reg s).
  { intros x Hx. induction Hx as [|b c _ IH (r & Hr & _)]; [done|]. eapply linked_in_reg; [split; [exact Hb|exact Hc]|exact Hr]. }
  destruct (receive_all_ok (gr s) (u :: l) t Hrt Hnd) as (t' & E' & Hr & Hro & H1 & H2).
  { intros x Hx. apply Hok, Hreg, Hl, Hx. }
  { intros x Hx. apply Hl, Hreg, Hok in Hx as (_ & c & Hx). eauto. }
  { intros x p _ Hn Hp. apply Hleft in Hp as [?|?]; done. }
  eexists _, t'. split; [exact E|]. split; [unfold deserialize; rewrite E'; done|]. split; [|done]. split.
  - intros x. rewrite Hr, elem_of_union, elem_of_list_to_set, Hl. done.
  - intros x p Hx. apply H1, Hl, Hx.
  - intros y p Hy. rewrite H2 by (by rewrite Hl). unfold sent_type. split; (intros [H|H]; [by left|right]).
    + destruct H as (Hp & (c & ->) & x & q & Hx & Hq). rewrite elem_of_list_to_set, Hl in Hx.
      exists c, x, q. done.
    + destruct H as (c & x & q & -> & Hp & Hx & Hq). split; [done|]. split; [by exists c|]. exists x, q.
      rewrite elem_of_list_to_set, Hl. done.
Qed.

(** The same for a wrapper session; the change becomes pending. *)
Lemma checks_ok isW rt g u c :
  rt <> None -> (u, TType c) ∈ g -> (forall d, (u, TType d) ∈ g -> isW d = false) -> store_checks isW rt g u = None.
Proof.
  intros Hrt Hc Hw. unfold store_checks, is_wrapper.
  assert (existsb isW (classes g u) = false) as ->.
  { apply Bool.not_true_iff_false. intros H. apply existsb_exists in H as (d & Hd & H).
    apply elem_of_list_In, elem_classes, Hw in Hd. congruence. }
  simpl. rewrite bool_decide_eq_false_2 by done.
  destruct (classes g u) eqn:E; [|done]. apply elem_classes in Hc. rewrite E in Hc. by apply elem_of_nil in Hc.
Qed.
Theorem C60_copy_wrapper isW O s w rf u fuel :
  bidirectional O s -> closed s -> objects_ok s -> u ∈ reg s -> (size (reg s) < fuel)%nat ->
  cur w = USER -> wroot w <> None -> no_leftover s (core w) ->
  (forall x, reachable_via O s rf u x -> x ∉ bdel (ub w) /\ forall c, (x, TType c) ∈ gr s -> isW c = false) ->
  exists m w', serialize O s fuel rf None u = Some m /\ deserialize_wrapper isW w m = (w', Ok (Some u)) /\
    copied O s rf u (core w) (core w') /\ wroot w' = wroot w /\
    (forall x, x ∈ badd (ub w') <-> x ∈ badd (ub w) \/ reachable_via O s rf u x /\ x ∉ wreg w) /\
    (forall x, x ∈ bupd (ub w') <-> x ∈ bupd (ub w) \/ reachable_via O s rf u x /\ x ∈ wreg w /\ x ∉ badd (ub w)) /\
    bdel (ub w') = bdel (ub w) /\ eb w' = eb w /\ db w' = db w /\
    (forall x, x ∈ expd w' <-> x ∈ expd w /\ ~ reachable_via O s rf u x).
Proof.
  intros Hb Hc Hok Hu Hf Hcur Hrt Hleft Hx. destruct (serialize_spec O s rf u fuel Hb Hc Hu Hf) as (l & E & Hnd & Hl).
  assert (Hreg : forall x, reachable_via O s rf u x -> x ∈ reg s).
  { intros x Hr. induction Hr as [|b c _ IH (r & Hr & _)]; [done|]. eapply linked_in_reg; [split; [exact Hb|exact Hc]|exact Hr]. }
  assert (Hcb : cur_buf w = ub w) by (unfold cur_buf; by rewrite Hcur).
  destruct (create_all_ok isW (gr s) (u :: l) w Hrt Hnd) as (G & E' & H1 & H2).
  { intros x Hin. apply Hl in Hin. destruct (Hok x (Hreg x Hin)) as (_ & c & Hc'). eapply checks_ok; [done|exact Hc'|].
    apply Hx, Hin. }
  { intros x Hin. rewrite Hcb. apply Hx, Hl, Hin. }
  { intros x p _ Hn Hp. apply Hleft in Hp as [?|?]; done. }
  assert (Hne : triples_of (gr s) u <> ∅).
  { intros E0. destruct (Hok u Hu) as (_ & c & Hc'). assert ((u, TType c) ∈ triples_of (gr s) u) as Hin by (by apply elem_triples_of).
    rewrite E0 in Hin. set_solver. }
  rewrite Hcb in E'. set (w' := upd w _ _ _) in E'.
  eexists _, w'. split; [exact E|]. split.
  { unfold deserialize_wrapper. rewrite E'. rewrite fmap_cons. simpl. by rewrite decide_False. }
  assert (Hcore : core w' = Sess (wreg w ∪ list_to_set (u :: l)) G (wroot w)) by apply upd_core.
  assert (Hubw : ub w' = Bufs (badd (ub w) ∪ (list_to_set (u :: l) ∖ wreg w))
     (bupd (ub w) ∪ ((list_to_set (u :: l) ∩ wreg w) ∖ badd (ub w))) (bdel (ub w))).
  { unfold w', upd, set_cur_buf. simpl. by rewrite Hcur. }
  split; [|split; [|split; [|split; [|split; [|split; [|split]]]]]].
  - rewrite Hcore. split; simpl.
    + intros x. rewrite elem_of_union, elem_of_union, elem_of_singleton, elem_of_list_to_set, <- elem_of_cons, Hl. done.
    + intros x p Hin. apply H1, Hl, Hin.
    + intros y p Hy. rewrite H2 by (by rewrite Hl). unfold sent_type. split; (intros [H|H]; [by left|right]).
      * destruct H as (Hp & (c & ->) & x & q & Hx' & Hq). rewrite elem_of_list_to_set, Hl in Hx'. exists c, x, q. done.
      * destruct H as (c & x & q & -> & Hp & Hx' & Hq). split; [done|]. split; [by exists c|]. exists x, q.
        rewrite elem_of_list_to_set, Hl. done.
  - unfold wroot at 1. by rewrite Hcore.
  - intros x. rewrite Hubw. cbn [badd]. rewrite elem_of_union, elem_of_difference, elem_of_list_to_set, Hl. done.
  - intros x. rewrite Hubw. cbn [bupd]. rewrite elem_of_union, elem_of_difference, elem_of_intersection, elem_of_list_to_set, Hl. tauto.
  - by rewrite Hubw.
  - unfold w', upd, set_cur_buf. simpl. by rewrite Hcur.
  - unfold w', upd, set_cur_buf. simpl. by rewrite Hcur.
  - intros x. unfold w'. rewrite upd_expd, elem_of_difference, elem_of_list_to_set, Hl. done.
Qed.

(** ** Limited depth *)

(** [x] is reached from [u] in [n] steps along the relationship *)
Inductive steps (O : onto) (s : sess) (rf : option rel) (u : uid) : nat -> uid -> Prop :=
| steps_0 : steps O s rf u 0 u
| steps_S n x y : steps O s rf u n x -> related O s rf x y -> steps O s rf u (S n) y.

(** like [copied], for the objects in [X] *)
Record copied_set (s : sess) (X : gset uid) (t t' : sess) : Prop := {
  cs_reg : forall x, x ∈ reg t' <-> x ∈ reg t \/ x ∈ X;
  cs_copy : forall x p, x ∈ X -> (x, p) ∈ gr t' <-> (x, p) ∈ gr s;
  cs_rest : forall y p, y ∉ X ->
    (y, p) ∈ gr t' <-> (y, p) ∈ gr t \/
      exists c x r, p = TType c /\ (y, TType c) ∈ gr s /\ x ∈ X /\ connected s x r y
}.

Lemma find_head nbrs fuel md u visited l : find_cuds_object nbrs fuel (fun _ => true) true md 0 u ∅ = Some (visited, FAll l) ->
  exists l', l = u :: l'.
Proof.
  destruct fuel as [|fuel]; [done|]. cbn [find_cuds_object]. simpl.
  destruct (match md with None => true | Some d => bool_decide (0 < d)%nat end); [|by intros [= <- <-]; exists []].
  generalize (nbrs u). generalize (∅ ∪ {[u]} : gset uid). intros v0 subs.
  assert (forall subs v0 out, (exists l', out = u :: l') ->
      (fix loop (subs : list uid) (visited : gset uid) (output : list uid) :=
             match subs with
             | [] => Some (visited, FAll output)
             | sub :: subs =>
                 if decide (sub ∈ visited) then loop subs visited output
                 else match find_cuds_object nbrs fuel (fun _ => true) true md 1 sub visited with
                      | None => None
                      | Some (visited', FOne (Some x)) => Some (visited', FOne (Some x))
                      | Some (visited', FOne None) => loop subs visited' output
                      | Some (visited', FAll l) => loop subs visited' (output ++ l)
                      end
             end) subs v0 out = Some (visited, FAll l) -> exists l', l = u :: l') as H.
  { clear. induction subs as [|x subs IH]; intros v0 out [l' ->].
    - intros [= <- <-]. by exists l'.
    - case_decide; [apply IH; by exists l'|].
      destruct (find_cuds_object _ _ _ _ _ _ _ _) as [[v' [l2|[y|]]]|]; [|done|apply IH; by exists l'|done].
      apply IH. by exists (l' ++ l2). }
  intros E. eapply H; [|exact E]. by exists [].
Qed.

(** With a limit: the objects exported are reached within the limit; they include the first
    one, its neighbours (if the limit is not 0) and, if the limit is at least the number of
    objects less one, everything reachable.  They are copied exactly. *)
Theorem C60_copy_depth O s t rf u d fuel :
  bidirectional O s -> closed s -> objects_ok s -> u ∈ reg s -> (size (reg s) < fuel)%nat ->
  (root t = None -> reg t = ∅) -> no_leftover s t ->
  exists m t' X, serialize O s fuel rf (Some d) u = Some m /\ deserialize t m = (t', Ok (Some u)) /\
    copied_set s X t t' /\ root t' = match root t with Some r => Some r | None => Some u end /\
    u ∈ X /\ (forall x, x ∈ X -> exists n, (n <= d)%nat /\ steps O s rf u n x) /\
    ((0 < d)%nat -> forall x, related O s rf u x -> x ∈ X) /\
    ((size (reg s) <= S d)%nat -> forall x, reachable_via O s rf u x -> x ∈ X) /\
    (forall x, reachable_via O s rf u x ->
       (forall p, is_path (related O s rf) u p -> NoDup (u :: p) -> last (u :: p) = Some x -> (length p <= d)%nat) ->
       x ∈ X).
Proof.
  intros Hb Hc Hok Hu Hf Hrt Hleft. assert (Hinv : sess_inv O s) by (split; [exact Hb|exact Hc]).
  destruct (C17_max_depth_sound (iter_nbrs O s rf) (reg s) (fun _ => true) u d fuel) as (v & l & E & Hnd & Hl);
    [by apply iter_nbrs_closed|done|done|].
  destruct (find_head _ _ _ _ _ _ E) as [l' El].
  assert (Hsteps : forall n x, reach_n (iter_nbrs O s rf) u n x -> steps O s rf u n x).
  { intros n x Hx. induction Hx as [|n y z _ IH Hz]; [constructor|]. econstructor; [exact IH|]. by apply elem_iter_nbrs. }
  assert (Hreg : forall x, x ∈ l -> x ∈ reg s).
  { intros x Hx. apply Hl in Hx as (_ & n & _ & Hx). induction Hx as [|n y z _ IH Hz]; [done|]. by eapply iter_nbrs_closed. }
  destruct (receive_all_ok (gr s) l t Hrt Hnd) as (t' & E' & Hr & Hro & H1 & H2).
  { intros x Hx. apply Hok, Hreg, Hx. }
  { intros x Hx. apply Hreg, Hok in Hx as (_ & c & Hx). eauto. }
  { intros x p _ Hn Hp. apply Hleft in Hp as [?|?]; done. }
  eexists _, t', (list_to_set l). split; [unfold serialize; rewrite E; reflexivity|].
  split; [unfold deserialize; rewrite E', El; done|]. split; [split|split; [|split; [|split; [|split; [|split]]]]].
  - intros x. rewrite Hr, elem_of_union. done.
  - intros x p Hx. apply H1. by apply elem_of_list_to_set in Hx.
  - intros y p Hy. rewrite elem_of_list_to_set in Hy. rewrite H2 by done. unfold sent_type. split; (intros [H|H]; [by left|right]).
    + destruct H as (Hp & (c & ->) & x & q & Hx & Hq). exists c, x, q. done.
    + destruct H as (c & x & q & -> & Hp & Hx & Hq). split; [done|]. split; [by exists c|]. exists x, q. done.
  - rewrite Hro, El. done.
  - rewrite El, elem_of_list_to_set. left.
  - intros x Hx. apply elem_of_list_to_set, Hl in Hx as (_ & n & Hn & Hx). eauto.
  - intros Hd x Hx. apply elem_of_list_to_set.
    eapply (C17_max_depth_neighbours (iter_nbrs O s rf) (reg s) (fun _ => true) u d fuel v l); [by apply iter_nbrs_closed|done|done|done|exact E| |done].
    right. by apply elem_iter_nbrs.
  - intros Hd x Hx. apply elem_of_list_to_set.
    destruct (C17_max_depth_enough O s rf (fun _ => true) u d fuel Hb Hc Hu Hf Hd) as (v2 & l2 & E2 & _ & Hl2).
    rewrite E in E2. injection E2 as <- <-. by apply Hl2.
  - intros x Hx Hall. apply elem_of_list_to_set.
    destruct (C17_max_depth_paths O s rf (fun _ => true) true u d fuel x Hb Hc Hu Hf Hx eq_refl Hall) as (v2 & r2 & E2 & Hr2).
    rewrite E in E2. injection E2 as <- <-. by apply Hr2.
Qed.

(** Reading the same text a second time changes nothing. *)
Theorem C60_twice O s t rf u fuel m t1 t2 v :
  bidirectional O s -> closed s -> objects_ok s -> u ∈ reg s -> (size (reg s) < fuel)%nat ->
  (root t = None -> reg t = ∅) -> no_leftover s t ->
  serialize O s fuel rf None u = Some m -> deserialize t m = (t1, Ok v) -> deserialize t1 m = (t2, Ok v) ->
  t2 = t1.
Proof.
  intros Hb Hc Hok Hu Hf Hrt Hleft Hm H1 H2.
  destruct (C60_copy O s t rf u fuel Hb Hc Hok Hu Hf Hrt Hleft) as (m' & t' & Hm' & H1' & [A1 A2 A3] & R1).
  rewrite Hm in Hm'. injection Hm' as <-. rewrite H1 in H1'. injection H1' as -> ->.
  destruct (C60_copy O s t' rf u fuel Hb Hc Hok Hu Hf) as (m' & t'' & Hm' & H2' & [B1 B2 B3] & R2).
  { rewrite R1. by destruct (root t). }
  { intros x p Hp. destruct (decide (x ∈ reg t')) as [|Hn]; [by left|]. right.
    assert (~ reachable_via O s rf u x) as Hnr by (intros Hr; apply Hn, A1; by right).
    apply A3 in Hp as [Hp|(c & ? & ? & -> & ? & _)]; [|done|done].
    apply Hleft in Hp as [Hp|Hp]; [|done]. destruct Hn. apply A1. by left. }
  rewrite Hm in Hm'. injection Hm' as <-. rewrite H2 in H2'. injection H2' as ->.
  assert (Hroot : root t'' = root t') by (rewrite R2, R1; by destruct (root t)).
  assert (Hreg : reg t'' = reg t') by (apply set_eq; intros x; rewrite B1, A1; tauto).
  assert (Hgr : gr t'' = gr t').
  { destruct (serialize_spec O s rf u fuel Hb Hc Hu Hf) as (l & _ & _ & Hl).
    apply set_eq. intros [x p]. destruct (decide (x ∈ u :: l)) as [Hx|Hx]; rewrite Hl in Hx.
    - by rewrite B2, A2.
    - rewrite B3 by done. pose proof (A3 x p Hx) as HA. tauto. }
  destruct t'', t'. simpl in *. congruence.
Qed.

(** In an empty session the copy is written as the original was, and the objects it
    visits can all be loaded. *)
Lemma get_local O t a rf :
  (forall r b, connected t a r b -> (forall sup, rf = Some sup -> o_sub O r sup = true) -> b ∈ reg t) ->
  exists bs, get O t a [] rf None = Ok (Many (Some <$> bs)) /\
    forall b, b ∈ bs <-> related O t rf a b.
Proof.
  intros Hin. unfold get.
  destruct (get__spec O t a [] rf None) as [(Hu & _)|(_ & found & m & -> & Hwf & Hm & _ & Hf)]; [done|].
  specialize (Hf eq_refl). subst found. rewrite load_cuds_objects_id.
  - exists (m.*1). split; [by rewrite <- list_fmap_compose|].
    intros b. rewrite rm_keys_in by done. setoid_rewrite Hm. unfold related, matching. split.
    + intros (r & ? & ? & _). eauto.
    + intros (r & ? & ?). exists r. repeat split; done.
  - intros x Hx. apply elem_of_list_fmap in Hx as ([x' rs] & Heq & Hx). injection Heq as ->. simpl in *.
    assert (x' ∈ m.*1) as Hk by (apply elem_of_list_fmap; by exists (x', rs)).
    apply rm_keys_in in Hk as [r Hr]; [|done]. apply Hm in Hr as (? & ? & _). eauto.
Qed.
Lemma omap_id_some {A} (l : list A) : omap id (Some <$> l) = l.
Proof. induction l as [|b l IH]; csimpl; [done|]. by rewrite IH. Qed.

Theorem C60_again O s rf u fuel :
  bidirectional O s -> closed s -> objects_ok s -> u ∈ reg s -> (size (reg s) < fuel)%nat ->
  exists m t' m', serialize O s fuel rf None u = Some m /\ deserialize empty_sess m = (t', Ok (Some u)) /\
    (forall x, x ∈ reg t' -> exists bs, get O t' x [] rf None = Ok (Many (Some <$> bs))) /\
    serialize O t' fuel rf None u = Some m' /\ m' ≡ₚ m.
Proof.
  intros Hb Hc Hok Hu Hf.
  destruct (C60_copy O s empty_sess rf u fuel Hb Hc Hok Hu Hf) as (m & t' & Hm & Ht & [A1 A2 A3] & R1);
    [done|intros ? ? ?; set_solver|].
  destruct (serialize_spec O s rf u fuel Hb Hc Hu Hf) as (l & Hm2 & Hnd & Hl).
  rewrite Hm in Hm2. injection Hm2 as ->.
  assert (Hreg : forall x, x ∈ reg t' <-> reachable_via O s rf u x).
  { intros x. rewrite A1. simpl. set_solver. }
  assert (Hget : forall x, x ∈ reg t' -> exists bs, get O t' x [] rf None = Ok (Many (Some <$> bs)) /\
                    forall b, b ∈ bs <-> related O s rf x b).
  { intros x Hx. apply Hreg in Hx. destruct (get_local O t' x rf) as (bs & Hbs & Hin).
    { intros r b Hr Hsup. apply Hreg. eapply rv_step; [exact Hx|]. exists r. split; [by apply A2 in Hr|done]. }
    exists bs. split; [done|]. intros b. rewrite Hin. unfold related, connected. setoid_rewrite A2; done. }
  assert (Hnb : forall x b, x ∈ reg t' -> b ∈ iter_nbrs O t' rf x <-> related O s rf x b).
  { intros x b Hx. destruct (Hget x Hx) as (bs & E & Hin). unfold iter_nbrs. by rewrite E, omap_id_some, Hin. }
  destruct (find_spec (iter_nbrs O t' rf) (reg t') (fun _ => true) true None (fun _ => 0%nat) true)
    with (fuel := fuel) (root := u) (v := ∅ : gset uid) (depth := 0%nat) as (v' & r & He & _ & Hfd).
  { right. by left. }
  { intros x y Hx Hy. apply Hnb in Hy; [|done]. apply Hreg. eapply rv_step; [by apply Hreg|done]. }
  { apply Hreg. constructor. } { apply not_elem_of_empty. }
  { assert (size (reg t' ∖ ∅) <= size (reg s))%nat; [|lia]. apply subseteq_size. intros x Hx.
    apply elem_of_difference in Hx as [Hx _]. apply Hreg in Hx.
    induction Hx as [|b c _ IH (q & Hq & _)]; [done|]. eapply linked_in_reg; [split; [exact Hb|exact Hc]|exact Hq]. }
  { by left. }
  destruct Hfd as [_ Hroot Hre Hres]. destruct r as [l2|[x|]]; [|by destruct Hres|by destruct Hres].
  destruct Hres as (_ & Hnd2 & Hl2 & Hcl).
  assert (Hsame : forall x, x ∈ l2 <-> reachable_via O s rf u x).
  { intros x. rewrite Hl2. split.
    - intros (Hx & _ & _). destruct (Hre x Hx) as (n & Hn & _); [apply not_elem_of_empty|].
      clear -Hn Hnb Hreg. induction Hn as [|n y z _ IH Hz]; [constructor|]. eapply rv_step; [exact IH|].
      by apply Hnb; [apply Hreg|].
    - intros Hx. split; [|split; [apply not_elem_of_empty|done]].
      induction Hx as [|y z Hy IH Hz]; [done|].
      apply (Hcl y); [done|apply not_elem_of_empty|by split|]. apply Hnb; [by apply Hreg|done]. }
  assert (Hent : forall x, reachable_via O s rf u x -> entry_of (gr t') x = entry_of (gr s) x).
  { intros x Hx. unfold entry_of. f_equal.
    - apply set_eq. intros [y p]. rewrite !elem_triples_of. split; intros [H1 H2]; simpl in *; subst; (split; [by apply A2|done]).
    - apply set_eq. intros [y p]. rewrite !elem_nb. split.
      + intros (Hp & (c & ->) & q & Hq). apply A2 in Hq; [|done]. split; [|by eauto].
        destruct (decide (y ∈ l2)) as [Hy|Hy]; rewrite Hsame in Hy; [by apply A2 in Hp|].
        apply A3 in Hp as [Hp|(c' & ? & ? & [= <-] & ? & _)]; [simpl in Hp; set_solver|done|done].
      + intros (Hp & (c & ->) & q & Hq). assert (Hq' := Hq). apply A2 in Hq; [|done]. split; [|by eauto].
        destruct (decide (y ∈ l2)) as [Hy|Hy]; rewrite Hsame in Hy; [by apply A2|].
        apply A3; [done|]. right. exists c, x, q. done. }
  eexists _, t', _. split; [done|]. split; [done|]. split.
  { intros x Hx. destruct (Hget x Hx) as (bs & ? & _). by exists bs. }
  split; [unfold serialize; by rewrite He|].
  assert (entry_of (gr t') <$> l2 = entry_of (gr s) <$> l2) as ->.
  { apply map_ext_in. intros x Hx. apply Hent, Hsame, elem_of_list_In, Hx. }
  change (entry_of (gr s) <$> l2 ≡ₚ entry_of (gr s) <$> (u :: l)).
  apply fmap_Permutation. apply NoDup_Permutation; [done|done|]. intros x. by rewrite Hsame, Hl.
Qed.

(** The target stays consistent if nothing outside is connected to the copied
    objects and it has none of them. *)
Theorem C60_consistent O s t rf u fuel m t' v :
  bidirectional O s -> closed s -> objects_ok s -> u ∈ reg s -> (size (reg s) < fuel)%nat ->
  (root t = None -> reg t = ∅) -> bidirectional O t -> closed t ->
  (forall x r y, reachable_via O s rf u x -> connected s x r y -> reachable_via O s rf u y) ->
  (forall x, reachable_via O s rf u x -> x ∉ reg t) ->
  serialize O s fuel rf None u = Some m -> deserialize t m = (t', Ok v) ->
  bidirectional O t' /\ closed t'.
Proof.
  intros Hb Hc Hok Hu Hf Hrt Hbt Hct Hall Hdis Hm Ht.
  destruct (C60_copy O s t rf u fuel Hb Hc Hok Hu Hf Hrt) as (m' & t1 & Hm' & Ht' & [A1 A2 A3] & _).
  { intros x p Hp. left. by eapply Hct. }
  rewrite Hm in Hm'. injection Hm' as <-. rewrite Ht in Ht'. injection Ht' as -> ->.
  destruct (serialize_spec O s rf u fuel Hb Hc Hu Hf) as (l & _ & _ & Hl).
  assert (Hdec : forall x, reachable_via O s rf u x \/ ~ reachable_via O s rf u x).
  { intros x. destruct (decide (x ∈ u :: l)) as [H|H]; rewrite Hl in H; tauto. }
  assert (Hconn : forall a r b, connected t1 a r b <->
     (reachable_via O s rf u a /\ reachable_via O s rf u b /\ connected s a r b) \/
     (~ reachable_via O s rf u a /\ ~ reachable_via O s rf u b /\ connected t a r b)).
  { intros a r b. destruct (Hdec a) as [Ha|Ha].
    - unfold connected at 1. rewrite (A2 a _ Ha). split; [|naive_solver]. intros H. left. split; [done|]. split; [by eapply Hall|done].
    - unfold connected at 1. rewrite (A3 a _ Ha). split.
      + intros [H|(? & ? & ? & ? & _)]; [|done]. right. split; [done|]. split; [|done]. intros Hb'.
        apply (Hdis b Hb'). eapply linked_in_reg; [split; [exact Hbt|exact Hct]|exact H].
      + intros [(? & _)|(_ & _ & H)]; [done|]. by left. }
  split.
  - intros a r b. rewrite !Hconn. rewrite (Hb a r b), (Hbt a r b). tauto.
  - intros x p Hp. apply A1. destruct (Hdec x) as [Hx|Hx]; [by right|].
    apply A3 in Hp as [Hp|(c & y & r & -> & Hc' & Hy & Hyx)]; [left; by eapply Hct|right; by eapply Hall|done].
Qed.

(** Sessions made by the user meet the conditions. *)
Theorem C60_sessions O s : involutive O -> (forall r, o_sub O r (o_relationship O) = true) -> reachable O s ->
  bidirectional O s /\ closed s /\ objects_ok s /\ (root s = None -> reg s = ∅).
Proof.
  intros Hivl Hall Hr. destruct (reachable_inv O s Hivl Hall Hr) as [Hb Hc]. split; [done|]. split; [done|].
  clear Hb Hc. induction Hr as [|s o Hr [IH1 IH2] Hval]; [split; [|done]; intros x Hx; simpl in Hx; set_solver|].
  pose proof (reachable_inv O s Hivl Hall Hr) as Hinv.
  destruct o as [u c attrs|a0 r0 bs|a0 uids rf oc|u a0 l|u]; simpl.
  - destruct (decide (u = 0%N)) as [->|Hu]; [done|].
    assert (root (fst (create s u c attrs)) <> None) as Hro.
    { unfold create. rewrite decide_False by done. simpl. by destruct (root s). }
    destruct (create_spec s u c attrs Hu) as (s' & E & Hreg & Ht). rewrite E in *. simpl in *. split; [|done].
    intros x Hx. rewrite Hreg, elem_of_union, elem_of_singleton in Hx. destruct Hx as [Hx| ->].
    + destruct (IH1 x Hx) as (? & d & ?). split; [done|]. exists d. apply Ht. by left.
    + split; [done|]. exists c. apply Ht. right. by left.
  - destruct (add O s a0 r0 bs) as [s' rv] eqn:E. simpl.
    apply add_spec in E as (E1 & E2 & done_ & rest & _ & Ht & _). rewrite E1, E2. split; [|done].
    intros x Hx. rewrite E1 in Hx. destruct (IH1 x Hx) as (? & d & ?). split; [done|]. exists d. apply Ht. by left.
  - pose proof (remove_spec O s a0 uids rf oc Hinv) as Hs.
    destruct (remove O s a0 uids rf oc) as [s' e]. simpl.
    destruct Hs as [(_ & _ & _ & ->)|[(_ & _ & -> & _)|(_ & _ & E1 & E2 & Ht)]]; [done|done|].
    rewrite E1, E2. split; [|done]. intros x Hx. rewrite E1 in Hx. destruct (IH1 x Hx) as (? & d & ?). split; [done|].
    exists d. apply Ht. split; [done|]. done.
  - split; [|done]. intros x Hx. destruct (IH1 x Hx) as (? & d & ?). split; [done|]. exists d.
    apply (set_attr_spec s u a0 l). right. done.
  - inversion Hval; subst.
    destruct (delete_spec O s u Hivl Hinv) as (s' & -> & E1 & E2 & Ht); [done|intros a r b _; apply Hall|]. simpl.
    rewrite E1, E2. split; [|intros Hn; rewrite (IH2 Hn); set_solver].
    intros x Hx. rewrite E1, elem_of_difference, elem_of_singleton in Hx. destruct Hx as [Hx Hne].
    destruct (IH1 x Hx) as (? & d & ?). split; [done|]. exists d. apply Ht. done.
Qed.

(** A part of a larger structure keeps links to objects that the new session does
    not have: get() returns None for them, and the links are one-way. *)
Theorem C60_dangling_refuted : exists s m t', reachable exO s /\ serialize exO s 10 (Some 1) None 12 = Some m /\
  deserialize empty_sess m = (t', Ok (Some 12)) /\ connected t' 12 2 11 /\ 11 ∉ reg t' /\
  get exO t' 12 [] (Some 2) None = Ok (Many [None]) /\ ~ bidirectional exO t'.
Proof.
  exists exS.
  destruct (opt_some (serialize exO exS 10 (Some 1) None 12) (fun m =>
     match deserialize empty_sess m with
     | (t', Ok (Some v)) => bool_decide (v = 12) && bool_decide ((12, TLink 2 11) ∈ gr t') && bool_decide (11 ∉ reg t') &&
         bool_decide ((11, TLink 1 12) ∉ gr t') &&
         match get exO t' 12 [] (Some 2) None with Ok (Many [None]) => true | _ => false end
     | _ => false end)) as (m & Hm & Hb); [by vm_compute|].
  destruct (deserialize empty_sess m) as [t' [[v|]|e]] eqn:E; [|discriminate Hb|discriminate Hb].
  exists m, t'. rewrite !andb_true_iff in Hb. destruct Hb as ((((H0 & H1) & H2) & H3) & H4).
  apply bool_decide_eq_true in H0, H1, H2, H3. subst v.
  split; [exact exS_reachable|]. split; [exact Hm|]. split; [exact E|]. split; [exact H1|]. split; [exact H2|]. split.
  - destruct (get exO t' 12 [] (Some 2) None) as [[x|[|[y|] [|]]]|]; try discriminate H4. reflexivity.
  - intros Hbi. apply H3. apply (Hbi 12 2 11) in H1. exact H1.
Qed.

(** Objects that the session has are overwritten: their neighbours in the session
    keep the links to them. *)
Definition exSrc : sess := run exO [Create 11 3 []; Create 12 4 []; Add 11 1 [12]].
Definition exTgt : sess := run exO [Create 11 3 []; Create 12 4 []; Add 11 1 [12]; Create 13 4 []; Add 12 5 [13]].
Theorem C60_overwrite_refuted : exists m t', reachable exO exSrc /\ reachable exO exTgt /\
  serialize exO exSrc 10 (Some 1) None 11 = Some m /\ deserialize exTgt m = (t', Ok (Some 11)) /\
  connected t' 13 5 12 /\ ~ connected t' 12 5 13.
Proof.
  destruct (opt_some (serialize exO exSrc 10 (Some 1) None 11) (fun m =>
     match deserialize exTgt m with
     | (t', Ok (Some v)) => bool_decide (v = 11) && bool_decide ((13, TLink 5 12) ∈ gr t') && bool_decide ((12, TLink 5 13) ∉ gr t')
     | _ => false end)) as (m & Hm & Hb); [by vm_compute|].
  destruct (deserialize exTgt m) as [t' [[v|]|e]] eqn:E; [|discriminate Hb|discriminate Hb].
  exists m, t'. rewrite !andb_true_iff in Hb. destruct Hb as ((H0 & H1) & H2).
  apply bool_decide_eq_true in H0, H1, H2. subst v.
  split; [apply run_reachable; by vm_compute|]. split; [apply run_reachable; by vm_compute|].
  split; [exact Hm|]. split; [exact E|]. split; [exact H1|exact H2].
Qed.

(** An example that meets all hypotheses: the subtree of 11 (11, 12 and 13 are all
    connected). *)
Example C60_example : exists m t', serialize exO exS 10 (Some 0) None 11 = Some m /\
  deserialize empty_sess m = (t', Ok (Some 11)) /\ t' = exS /\ length m = 3%nat /\
  forall x r y, reachable_via exO exS (Some 0) 11 x -> connected exS x r y -> reachable_via exO exS (Some 0) 11 y.
Proof.
  destruct (C60_sessions exO exS exO_involutive exO_covers exS_reachable) as (Hb & Hc & Hok & Hr).
  assert (Hall : forall x r y, reachable_via exO exS (Some 0) 11 x -> connected exS x r y -> reachable_via exO exS (Some 0) 11 y).
  { intros x r y Hx Hy. eapply rv_step; [exact Hx|]. exists r. split; [exact Hy|]. intros sup [= <-]. apply exO_covers. }
  destruct (opt_some (serialize exO exS 10 (Some 0) None 11) (fun m =>
     match deserialize empty_sess m with
     | (t', Ok (Some v)) => bool_decide (v = 11) && bool_decide (reg t' = reg exS) && bool_decide (gr t' = gr exS) && bool_decide (root t' = root exS) && bool_decide (length m = 3%nat)
     | _ => false end)) as (m & Hm & Hbb); [by vm_compute|].
  destruct (deserialize empty_sess m) as [t' [[v|]|e]] eqn:E; [|discriminate Hbb|discriminate Hbb].
  exists m, t'. rewrite !andb_true_iff in Hbb. destruct Hbb as ((((H0 & H1) & H2) & H3) & H4).
  apply bool_decide_eq_true in H0, H1, H2, H3, H4. subst v.
  split; [exact Hm|]. split; [exact E|]. split; [|split; [exact H4|exact Hall]].
  clear -H1 H2 H3. revert H1 H2 H3. generalize exS as u. intros u H1 H2 H3.
  destruct t', u. cbn in H1, H2, H3. subst. reflexivity.
Qed.
Print Assumptions C60_copy.
Print Assumptions C60_copy_wrapper.
Print Assumptions C60_twice.
Print Assumptions C60_again.
Print Assumptions C60_consistent.
Print Assumptions C60_sessions.
Print Assumptions C60_dangling_refuted.
Print Assumptions C60_overwrite_refuted.
Print Assumptions C60_example.
Print Assumptions C60_copy_depth.
