p='PropExport.v';s=open(p).read()
new=r'''
(** ** Limited depth *)

(** [x] is reached from [u] in [n] steps along the relationship *)
Inductive steps (O : onto) (s : sess) (rf : option rel) (u : uid) : nat -> uid -> Prop :=
| steps_0 : steps O s rf u 0 u
| steps_S n x y : steps O s rf u n x -> related O s rf x y -> steps O s rf u (S n) y.

(** like [copied], for the objects in [X] *)
Record copied_set (s : sess) (X : gset uid) (t t' : sess) : Prop := {
  cs_reg : forall x, x ∈ reg t' <-> x ∈ reg t \/ x ∈ X;
  cs_copy : forall x p, x ∈ X -> (x, p) ∈ gr t' <-> (x, p) ∈ gr s;
  cs_rest : forall y p, y ∉ X ->
    (y, p) ∈ gr t' <-> (y, p) ∈ gr t \/
      exists c x r, p = TType c /\ (y, TType c) ∈ gr s /\ x ∈ X /\ connected s x r y
}.

Lemma find_head nbrs fuel md u visited l : find_cuds_object nbrs fuel (fun _ => true) true md 0 u ∅ = Some (visited, FAll l) ->
  exists l', l = u :: l'.
Proof.
  destruct fuel as [|fuel]; [done|]. cbn [find_cuds_object]. simpl.
  destruct (match md with None => true | Some d => bool_decide (0 < d)%nat end); [|by intros [= <- <-]; exists []].
  generalize (nbrs u). generalize (∅ ∪ {[u]} : gset uid). intros v0 subs.
  assert (forall subs v0 out, (exists l', out = u :: l') ->
      (fix loop (subs : list uid) (visited : gset uid) (output : list uid) :=
             match subs with
             | [] => Some (visited, FAll output)
             | sub :: subs =>
                 if decide (sub ∈ visited) then loop subs visited output
                 else match find_cuds_object nbrs fuel (fun _ => true) true md 1 sub visited with
                      | None => None
                      | Some (visited', FOne (Some x)) => Some (visited', FOne (Some x))
                      | Some (visited', FOne None) => loop subs visited' output
                      | Some (visited', FAll l) => loop subs visited' (output ++ l)
                      end
             end) subs v0 out = Some (visited, FAll l) -> exists l', l = u :: l') as H.
  { clear. induction subs as [|x subs IH]; intros v0 out [l' ->].
    - intros [= <- <-]. by exists l'.
    - case_decide; [apply IH; by exists l'|].
      destruct (find_cuds_object _ _ _ _ _ _ _ _) as [[v' [l2|[y|]]]|]; [|done|apply IH; by exists l'|done].
      apply IH. by exists (l' ++ l2). }
  intros E. eapply H; [|exact E]. by exists [].
Qed.

(** With a limit: the objects exported are reached within the limit; they include the first
    one, its neighbours (if the limit is not 0) and, if the limit is at least the number of
    objects less one, everything reachable.  They are copied exactly. *)
Theorem C60_copy_depth O s t rf u d fuel :
  bidirectional O s -> closed s -> objects_ok s -> u ∈ reg s -> (size (reg s) < fuel)%nat ->
  (root t = None -> reg t = ∅) -> no_leftover s t ->
  exists m t' X, serialize O s fuel rf (Some d) u = Some m /\ deserialize t m = (t', Ok (Some u)) /\
    copied_set s X t t' /\ root t' = match root t with Some r => Some r | None => Some u end /\
    u ∈ X /\ (forall x, x ∈ X -> exists n, (n <= d)%nat /\ steps O s rf u n x) /\
    ((0 < d)%nat -> forall x, related O s rf u x -> x ∈ X) /\
    ((size (reg s) <= S d)%nat -> forall x, reachable_via O s rf u x -> x ∈ X).
Proof.
  intros Hb Hc Hok Hu Hf Hrt Hleft. assert (Hinv : sess_inv O s) by (split; [exact Hb|exact Hc]).
  destruct (C17_max_depth_sound (iter_nbrs O s rf) (reg s) (fun _ => true) u d fuel) as (v & l & E & Hnd & Hl);
    [by apply iter_nbrs_closed|done|done|].
  destruct (find_head _ _ _ _ _ _ E) as [l' El].
  assert (Hsteps : forall n x, reach_n (iter_nbrs O s rf) u n x -> steps O s rf u n x).
  { intros n x Hx. induction Hx as [|n y z _ IH Hz]; [constructor|]. econstructor; [exact IH|]. by apply elem_iter_nbrs. }
  assert (Hreg : forall x, x ∈ l -> x ∈ reg s).
  { intros x Hx. apply Hl in Hx as (_ & n & _ & Hx). induction Hx as [|n y z _ IH Hz]; [done|]. by eapply iter_nbrs_closed. }
  destruct (receive_all_ok (gr s) l t Hrt Hnd) as (t' & E' & Hr & Hro & H1 & H2).
  { intros x Hx. apply Hok, Hreg, Hx. }
  { intros x Hx. apply Hreg, Hok in Hx as (_ & c & Hx). eauto. }
  { intros x p _ Hn Hp. apply Hleft in Hp as [?|?]; done. }
  eexists _, t', (list_to_set l). split; [unfold serialize; rewrite E; reflexivity|].
  split; [unfold deserialize; rewrite E', El; done|]. split; [split|split; [|split; [|split; [|split]]]].
  - intros x. rewrite Hr, elem_of_union. done.
  - intros x p Hx. apply H1. by apply elem_of_list_to_set in Hx.
  - intros y p Hy. rewrite elem_of_list_to_set in Hy. rewrite H2 by done. unfold sent_type. split; (intros [H|H]; [by left|right]).
    + destruct H as (Hp & (c & ->) & x & q & Hx & Hq). exists c, x, q. done.
    + destruct H as (c & x & q & -> & Hp & Hx & Hq). split; [done|]. split; [by exists c|]. exists x, q. done.
  - rewrite Hro, El. done.
  - rewrite El, elem_of_list_to_set. left.
  - intros x Hx. apply elem_of_list_to_set, Hl in Hx as (_ & n & Hn & Hx). eauto.
  - intros Hd x Hx. apply elem_of_list_to_set.
    eapply (C17_max_depth_neighbours (iter_nbrs O s rf) (reg s) (fun _ => true) u d fuel v l); [by apply iter_nbrs_closed|done|done|done|exact E| |done].
    right. by apply elem_iter_nbrs.
  - intros Hd x Hx. apply elem_of_list_to_set.
    destruct (C17_max_depth_enough O s rf (fun _ => true) u d fuel Hb Hc Hu Hf Hd) as (v2 & l2 & E2 & _ & Hl2).
    rewrite E in E2. injection E2 as <- <-. by apply Hl2.
Qed.

(** Reading the same text a second time changes nothing. *)
Theorem C60_twice'''
s=s.replace("\n(** Reading the same text a second time changes nothing. *)\nTheorem C60_twice",new,1)
s=s.rstrip('\n')+"\nPrint Assumptions C60_copy_depth.\n"
open(p,'w').write(s)
