(** refresh() of several objects (property C75). *)
From stdpp Require Import base sets list gmap countable.
From Verif Require Import Prelude Cuds Wrapper WrapperRefine PropRefresh RefreshMany.

(** refresh(u1, ..., un), whatever order the objects are loaded in.  Those of the
    objects that are loaded and have no uncommitted changes ([refreshed]) get the
    database's triples, or leave the session when the database has them no more; no
    other object loses a triple.  Read again on their next use are those that were
    before and the neighbours that one of them (not the wrapper) got or lost, unless
    they have uncommitted changes or were refreshed themselves. *)
Theorem C75_refresh_many isW w r us :
  idle w r -> expd w ⊆ wreg w ->
  (forall u, refreshed w us u -> u <> 0%N /\
     (in_db (db w) r u \/ (not_in_db (db w) r u /\ u <> r)) /\
     (u <> r -> forall c, (u, TType c) ∈ wgr w \/ (u, TType c) ∈ view r (db w) -> isW c = false)) ->
  exists w', refresh isW w us = (w', None) /\
    (forall x, x ∈ wreg w' <-> x ∈ wreg w /\ (refreshed w us x -> in_db (db w) r x)) /\
    ub w' = ub w /\ db w' = db w /\ idle w' r /\
    (forall u p, refreshed w us u -> (u, p) ∈ wgr w' <-> (u, p) ∈ view r (db w)) /\
    (forall x p, ~ refreshed w us x -> (x, p) ∈ wgr w -> (x, p) ∈ wgr w') /\
    (forall x p, ~ refreshed w us x -> (x, p) ∈ wgr w' -> (x, p) ∈ wgr w \/
       ((exists c, p = TType c) /\ (x, p) ∈ view r (db w) /\
        exists u q, refreshed w us u /\ linked (view r (db w)) u x q)) /\
    (forall x, x ∈ expd w' <->
       ~ refreshed w us x /\ x ∈ wreg w /\
       (x ∈ expd w \/
        (~ pending w x /\
         exists u, refreshed w us u /\ u <> r /\ neighbour_changed (wgr w) (view r (db w)) u x))).
Proof.
  intros Hi Hx Hok.
  destruct (refresh_many isW w r us Hi Hx) as (w' & E & R & U & D & I & G & X).
  { intros u Hu. destruct (Hok u Hu) as (A & B & C). destruct Hu as (_ & Hu & _). done. }
  exists w'. split; [done|]. split; [exact R|]. split; [done|]. split; [done|]. split; [done|]. split.
  { intros u p Hu. rewrite G. split; [|tauto]. intros [[_ ?]|[[? _]|(v & _ & _ & ? & _)]]; done. }
  split. { intros x p Hn H. apply G. tauto. }
  split; [|exact X].
  intros x p Hn H. apply G in H as [[? _]|[[_ ?]|(v & Hv & Ht & ? & q & ?)]]; [by left|done|].
  right. split; [done|]. split; [done|]. exists v, q. done.
Qed.

(** With no uncommitted changes, refreshing all loaded objects leaves in the session
    exactly those of them that the database still has, with the database's triples,
    and nothing to be read again. *)
Theorem C75_refresh_everything isW w r us :
  idle w r -> expd w ⊆ wreg w -> ub w = no_bufs -> (forall x, x ∈ wreg w -> x ∈ us) ->
  (forall u, u ∈ wreg w -> u <> 0%N /\
     (in_db (db w) r u \/ (not_in_db (db w) r u /\ u <> r)) /\
     (u <> r -> forall c, (u, TType c) ∈ wgr w \/ (u, TType c) ∈ view r (db w) -> isW c = false)) ->
  exists w', refresh isW w us = (w', None) /\
    (forall x, x ∈ wreg w' <-> x ∈ wreg w /\ in_db (db w) r x) /\
    (forall u p, u ∈ wreg w -> (u, p) ∈ wgr w' <-> (u, p) ∈ view r (db w)) /\
    expd w' = ∅ /\ ub w' = no_bufs.
Proof.
  intros Hi Hx Hb Hall Hok.
  assert (forall x, refreshed w us x <-> x ∈ wreg w) as HR.
  { intros x. unfold refreshed, pending. rewrite Hb. simpl. rewrite !elem_of_empty. split; [tauto|].
    intros H. specialize (Hall x H). tauto. }
  destruct (C75_refresh_many isW w r us Hi Hx) as (w' & E & R & U & D & I & G & _ & _ & X).
  { intros u Hu. apply Hok, HR, Hu. }
  exists w'. split; [done|]. split. { intros x. rewrite R, HR. tauto. }
  split. { intros u p Hu. apply G, HR, Hu. }
  split; [|congruence]. apply set_eq. intros x. rewrite X, HR, elem_of_empty. tauto.
Qed.

Lemma check_graph (f : triple -> bool) (g : graph) :
  forallb f (elements g) = true -> forall t, t ∈ g -> f t = true.
Proof. intros H t Ht. rewrite forallb_forall in H. apply H, elem_of_list_In, elem_of_elements, Ht. Qed.

Definition typed_ok (t : triple) : bool :=
  match t with (x, TType c) => (x =? 1)%N || negb (ex_isW c) | _ => true end.

(** The case of PropRefresh.v, all objects at once: 2 is gone, 4 is in 3. *)
Example C75_many_example :
  let w := ex_w no_bufs in let us := [1; 2; 3; 4]%N in
  idle w 1%N /\ expd w ⊆ wreg w /\
  (forall u, u ∈ wreg w -> u <> 0%N /\
     (in_db (db w) 1%N u \/ (not_in_db (db w) 1%N u /\ u <> 1%N)) /\
     (u <> 1%N -> forall c, (u, TType c) ∈ wgr w \/ (u, TType c) ∈ view 1%N (db w) -> ex_isW c = false)) /\
  let w' := fst (refresh ex_isW w us) in
  bool_decide (wreg w' = list_to_set [1; 3; 4]%N) && bool_decide (expd w' = ∅) &&
  bool_decide (wgr w' = view 1%N ex_db) = true.
Proof.
  intros w us. split; [apply ex_idle|]. split; [intros x Hx; by apply elem_of_empty in Hx|].
  split; [|vm_compute; reflexivity].
  assert (forall (g : graph) (u : uid) (c : cls), forallb typed_ok (elements g) = true -> u <> 1%N -> (u, TType c) ∈ g -> ex_isW c = false) as HT.
  { intros g u c H Hu Hin. apply (check_graph _ _ H) in Hin. unfold typed_ok in Hin.
    apply orb_true_iff in Hin as [Hin|Hin]; [by apply N.eqb_eq in Hin|by apply negb_true_iff in Hin]. }
  assert (forallb typed_ok (elements (wgr w)) = true) as K1 by (vm_compute; reflexivity).
  assert (forallb typed_ok (elements (view 1%N (db w))) = true) as K2 by (vm_compute; reflexivity).
  assert (forallb (fun t : triple => negb (fst t =? 2)%N) (elements (view 1%N (db w))) = true) as K3
    by (vm_compute; reflexivity).
  assert (bool_decide ((1%N, TType 20%N) ∈ view 1%N (db w)) && bool_decide ((3%N, TType 21%N) ∈ view 1%N (db w))
          && bool_decide ((4%N, TType 22%N) ∈ view 1%N (db w)) = true) as K4 by (vm_compute; reflexivity).
  apply andb_true_iff in K4 as [K4 K6]. apply andb_true_iff in K4 as [K4 K5].
  apply bool_decide_eq_true in K4, K5, K6.
  assert (forallb (fun u => (u =? 1) || (u =? 2) || (u =? 3) || (u =? 4))%N (elements (wreg w)) = true) as K7
    by (vm_compute; reflexivity).
  intros u Hu.
  assert (u = 1 \/ u = 2 \/ u = 3 \/ u = 4)%N as Hc.
  { rewrite forallb_forall in K7. apply elem_of_elements, elem_of_list_In, K7 in Hu.
    apply orb_true_iff in Hu as [Hu|Hu]; [|apply N.eqb_eq in Hu; tauto].
    apply orb_true_iff in Hu as [Hu|Hu]; [|apply N.eqb_eq in Hu; tauto].
    apply orb_true_iff in Hu as [Hu|Hu]; apply N.eqb_eq in Hu; tauto. }
  clear Hu K7. clearbody w. split; [intros ->; destruct Hc as [H|[H|[H|H]]]; discriminate H|]. split.
  - destruct Hc as [-> | [-> | [-> | ->]]].
    + left. exists 20%N. exact K4.
    + right. split; [|discriminate]. intros p Hp. apply (check_graph _ _ K3) in Hp. discriminate Hp.
    + left. exists 21%N. exact K5.
    + left. exists 22%N. exact K6.
  - intros Hne c [H|H]; [exact (HT _ _ _ K1 Hne H)|exact (HT _ _ _ K2 Hne H)].
Qed.

Print Assumptions C75_refresh_many.
Print Assumptions C75_refresh_everything.
Print Assumptions C75_many_example.
