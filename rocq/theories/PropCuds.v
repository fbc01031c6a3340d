(** Theorems about CUDS objects in one session (properties C09-C15). *)
From stdpp Require Import base list gmap.
From Verif Require Import Prelude Cuds CudsProofs.
Local Open Scope N_scope.

(** A concrete ontology used to show that hypotheses are satisfiable: 0 is
    cuba.relationship (its own inverse), 1 and 2 are mutually inverse
    sub-relationships, all other relationships are their own inverse and below 0. *)
Definition exO : onto := {|
  o_sub r s := bool_decide (r = s) || bool_decide (s = 0%N);
  o_inv r := if decide (r = 1%N) then 2%N else if decide (r = 2%N) then 1%N else r;
  o_csub c d := bool_decide (c = d) || bool_decide (d = 0%N);
  o_relationship := 0%N; o_active := 1%N |}.

(** The same, but relationship 7 (say, an OWL object property) is not declared
    below cuba.relationship. *)
Definition exOwl : onto := {|
  o_sub r s := bool_decide (r = s) || (bool_decide (s = 0%N) && negb (bool_decide (r = 7%N)));
  o_inv := o_inv exO; o_csub := o_csub exO; o_relationship := 0%N; o_active := 1%N |}.

Lemma exO_involutive : involutive exO.
Proof.
  intros r. simpl. destruct (decide (r = 1%N)) as [->|H1]; [done|].
  destruct (decide (r = 2%N)) as [->|H2]; [done|].
  rewrite decide_False by done. by rewrite decide_False.
Qed.
Lemma exO_covers r : o_sub exO r (o_relationship exO) = true.
Proof. simpl. by rewrite orb_true_r. Qed.

Definition run (O : onto) (l : list op) : sess := foldl (step O) empty_sess l.
Fixpoint valid_run (O : onto) (s : sess) (l : list op) : bool :=
  match l with
  | [] => true
  | o :: l' => forallb (fun u => bool_decide (u ∈ reg s)) (op_objects o) &&
               valid_run O (step O s o) l'
  end.
Lemma run_reachable O l : valid_run O empty_sess l = true -> reachable O (run O l).
Proof.
  unfold run. generalize (reach_init O). generalize empty_sess.
  induction l as [|o l IH]; intros s Hs Hv; simpl in *; [done|].
  apply andb_true_iff in Hv as [Hf Hv]. apply IH; [|done].
  apply reach_step; [done|]. unfold op_valid. apply Forall_forall. intros u Hu.
  rewrite forallb_forall in Hf.
  apply elem_of_list_In, Hf in Hu. by apply bool_decide_eq_true in Hu.
Qed.

(** A concrete history: three objects, links by relationships 1 and 5, a raising
    add, an attribute, a removal. *)
Definition exH : list op :=
  [Create 11 3 [(21, (1, 1))%N]; Create 12 4 []; Create 13 4 [];
   Add 11 1 [12; 13]%N; Add 11 1 [11; 12]%N; Add 12 5 [13]%N;
   SetAttr 11 21 (2, 1)%N; Remove 11 [13]%N (Some 1%N) None]%N.
Definition exS : sess := run exO exH.
Example exS_reachable : reachable exO exS.
Proof. apply run_reachable. vm_compute. reflexivity. Qed.
Example exS_links :
  connected exS 11 1 12 /\ connected exS 12 2 11 /\ connected exS 11 1 11 /\
  connected exS 13 5 12 /\ ~ connected exS 11 1 13 /\ ~ connected exS 13 2 11.
Proof.
  unfold connected.
  repeat split; first [apply (bool_decide_unpack _) | apply (bool_decide_eq_false_1 _)];
    vm_compute; exact I || reflexivity.
Qed.

(** ** C09 *)

(** After every history of user operations, including operations that raise half
    way, links come in inverse pairs and only objects of the session have links. *)
Theorem C09_bidirectional O s :
  involutive O -> (forall r, o_sub O r (o_relationship O) = true) ->
  reachable O s ->
  (forall a r b, (a, TLink r b) ∈ gr s <-> (b, TLink (o_inv O r) a) ∈ gr s) /\
  (forall a r b, (a, TLink r b) ∈ gr s -> a ∈ reg s /\ b ∈ reg s).
Proof.
  intros Hi Hc Hr. destruct (reachable_inv O s Hi Hc Hr) as [Hb Hcl].
  split; [exact Hb|]. intros a r b Hl. split; [by eapply Hcl|]. apply Hb in Hl. by eapply Hcl.
Qed.
Example C09_example : forall a r b,
  (a, TLink r b) ∈ gr exS <-> (b, TLink (o_inv exO r) a) ∈ gr exS.
Proof.
  apply (C09_bidirectional exO exS); [apply exO_involutive|apply exO_covers|apply exS_reachable].
Qed.

(** Without the assumption that every relationship is below cuba.relationship
    (OWL ontologies do not guarantee it) deletion breaks the property. *)
Theorem C09_refuted_owl_relationships :
  exists s, involutive exOwl /\ reachable exOwl s /\
    exists a r b, connected s a r b /\ b ∉ reg s /\ ~ connected s b (o_inv exOwl r) a.
Proof.
  exists (run exOwl [Create 11 3 []; Create 12 4 []; Add 11 7 [12%N]; Delete 12]%N).
  split; [exact exO_involutive|]. split; [apply run_reachable; by vm_compute|].
  exists 11%N, 7%N, 12%N. unfold connected. split; [|split].
  - apply (bool_decide_unpack _). vm_compute. exact I.
  - apply (bool_decide_eq_false_1 _). vm_compute. reflexivity.
  - apply (bool_decide_eq_false_1 _). vm_compute. reflexivity.
Qed.

(** Adding the handle of a deleted object creates a link without inverse: the
    model of add() applied to an object that is no longer registered links to it
    (a deleted object's own triples live in a private graph, session.py:102-107,
    so only the forward link reaches the session). *)
Theorem C09_refuted_deleted_handle O s a r b :
  b ∉ reg s -> sess_inv O s -> a ∈ reg s ->
  let g' := add_direct (gr s) a r b in     (* the part of add() written to the session *)
  (a, TLink r b) ∈ g' /\ (a <> b -> (b, TLink (o_inv O r) a) ∉ g').
Proof.
  intros Hb [_ Hc] Ha g'. unfold g'. split; [apply add_direct_spec; by right|].
  intros Hne Hin. apply add_direct_spec in Hin as [Hin|Hin].
  - apply Hb. by eapply Hc.
  - congruence.
Qed.

(** ** C10 *)

(** add(): exactly the links of the processed arguments are created, in both
    directions; on success all arguments are processed and returned in order, on
    failure the error is ValueError and the first unprocessed argument is one
    that is already connected. *)
Theorem C10_add_exact O s a r bs s' rv :
  add O s a r bs = (s', rv) ->
  reg s' = reg s /\ root s' = root s /\
  exists done_ rest,
    bs = done_ ++ rest /\
    (forall t, t ∈ gr s' <-> t ∈ gr s \/ exists b, b ∈ done_ /\
                 (t = (a, TLink r b) \/ t = (b, TLink (o_inv O r) a))) /\
    match rv with
    | Ok l => l = bs /\ rest = []
    | Err e => e = ValueError /\
               exists b rest', rest = b :: rest' /\ connected s' a r b
    end.
Proof. apply add_spec. Qed.

(** It raises exactly if some argument is already connected or repeated. *)
Theorem C10_add_error_iff O s a r bs :
  (exists e, snd (add O s a r bs) = Err e) <->
  exists l1 b l2, bs = l1 ++ b :: l2 /\ ((a, TLink r b) ∈ gr s \/ b ∈ l1).
Proof. apply add_error_iff. Qed.

(** Corollary: adding objects that are pairwise distinct and not yet connected
    always succeeds, and they are connected afterwards. *)
Theorem C10_add_succeeds O s a r bs :
  NoDup bs -> (forall b, b ∈ bs -> ~ connected s a r b) ->
  exists s', add O s a r bs = (s', Ok bs) /\
    forall b, b ∈ bs -> connected s' a r b /\ connected s' b (o_inv O r) a.
Proof.
  intros Hnd Hn. destruct (add O s a r bs) as [s' rv] eqn:E.
  pose proof (add_spec O s a r bs s' rv E) as (_ & _ & done_ & rest & Hbs & Ht & Hrv).
  destruct rv as [l|e].
  - destruct Hrv as [-> ->]. rewrite app_nil_r in Hbs. subst done_.
    exists s'. split; [done|]. intros b Hb. unfold connected. rewrite !Ht. naive_solver.
  - exfalso. destruct (proj1 (add_error_iff O s a r bs)) as (l1 & b & l2 & -> & Hb).
    { exists e. by rewrite E. }
    destruct Hb as [Hb|Hb].
    + apply (Hn b); [|done]. apply elem_of_app. right. left.
    + apply NoDup_app in Hnd as (_ & Hd & _). apply (Hd b Hb). left.
Qed.
Example C10_example :
  exists s', add exO exS 13 1 [11%N; 12%N] = (s', Ok [11%N; 12%N]) /\
    forall b, b ∈ [11%N; 12%N] -> connected s' 13 1 b /\ connected s' b (o_inv exO 1) 13.
Proof.
  apply (C10_add_succeeds exO exS 13 1 [11%N; 12%N]).
  - apply (bool_decide_unpack _). by vm_compute.
  - intros b Hb. unfold connected. repeat (apply elem_of_cons in Hb as [->|Hb];
      [apply (bool_decide_eq_false_1 _); by vm_compute|]). exfalso. revert Hb. apply not_elem_of_nil.
Qed.
Example C10_example_error :
  snd (add exO exS 11 1 [13%N; 12%N]) = Err ValueError /\
  connected (fst (add exO exS 11 1 [13%N; 12%N])) 11 1 13.
Proof.
  split; [by vm_compute|]. unfold connected. apply (bool_decide_unpack _). by vm_compute.
Qed.

(** ** C11 *)

(** remove(): three outcomes.  [matching] is spelled out in CudsProofs.v. *)
Theorem C11_remove_exact O s a uids rf oc s' e :
  bidirectional O s -> closed s ->
  remove O s a uids rf oc = (s', e) ->
  (e = Some TypeError /\ uids <> [] /\ oc <> None /\ s' = s) \/
  (e = Some RuntimeError /\ (uids = [] \/ oc = None) /\ s' = s /\
   forall b r, ~ matching O s a uids rf oc b r) \/
  (e = None /\ (exists b r, matching O s a uids rf oc b r) /\
   reg s' = reg s /\ root s' = root s /\
   forall t, t ∈ gr s' <->
     t ∈ gr s /\ forall b r, matching O s a uids rf oc b r ->
                   t <> (a, TLink r b) /\ t <> (b, TLink (o_inv O r) a)).
Proof.
  intros Hb Hc He. pose proof (remove_spec O s a uids rf oc (conj Hb Hc)) as H.
  by rewrite He in H.
Qed.

(** After a successful remove nothing matches any more, and get() agrees. *)
Theorem C11_remove_then_get_none O s a uids rf oc s' :
  bidirectional O s -> closed s ->
  remove O s a uids rf oc = (s', None) ->
  forall b r, ~ matching O s' a uids rf oc b r.
Proof.
  intros Hb Hc He b r Hm.
  destruct (C11_remove_exact O s a uids rf oc s' None Hb Hc He)
    as [(? & _)|[(? & _)|(_ & _ & _ & _ & Ht)]]; [done|done|].
  destruct Hm as (Hl & Hrf & Hu & Hoc).
  assert (Hm' : matching O s a uids rf oc b r).
  { split; [by apply Ht in Hl as [? _]|]. split; [done|]. split; [done|].
    intros c Hoc'. destruct (Hoc c Hoc') as (t & Ht' & Hs). exists t.
    split; [by apply Ht in Ht' as [? _]|done]. }
  apply Ht in Hl as [_ Hn]. by destruct (Hn b r Hm').
Qed.
Example C11_example :
  snd (remove exO exS 11 [12%N] (Some 0%N) None) = None /\
  snd (remove exO exS 11 [] (Some 5%N) None) = Some RuntimeError /\
  ~ connected (fst (remove exO exS 11 [12%N] (Some 0%N) None)) 12 2 11 /\
  connected (fst (remove exO exS 11 [12%N] (Some 0%N) None)) 12 5 13.
Proof.
  split; [by vm_compute|]. split; [by vm_compute|]. unfold connected. split.
  - apply (bool_decide_eq_false_1 _). by vm_compute.
  - apply (bool_decide_unpack _). by vm_compute.
Qed.

(** ** C12 *)

Theorem C12_get_positional O s a uids rf :
  bidirectional O s -> closed s -> uids <> [] ->
  exists found,
    get O s a uids rf None =
      Ok (match uids, found with [_], x :: _ => One x | _, _ => Many found end) /\
    length found = length uids /\
    forall i b, uids !! i = Some b ->
      let related := exists r, connected s a r b /\
                               forall sup, rf = Some sup -> o_sub O r sup = true in
      (related /\ found !! i = Some (Some b)) \/ (~ related /\ found !! i = Some None).
Proof.
  intros Hb Hc Hne. destruct (get_uids_spec O s a uids rf (conj Hb Hc) Hne)
    as (found & Hg & Hl & Hp).
  exists found. split; [done|]. split; [done|]. intros i b Hi related.
  assert (Hrel : related <-> exists r, matching O s a [] rf None b r).
  { unfold related, matching. split.
    - intros (r & ? & ?). exists r. repeat split; done.
    - intros (r & ? & ? & _). eauto. }
  rewrite Hrel. destruct (Hp i b Hi) as [[? ?]|[? ?]]; [left|right]; done.
Qed.
Example C12_example :
  get exO exS 11 [13; 12; 99; 12; 11]%N (Some 1%N) None =
    Ok (Many [None; Some 12%N; None; Some 12%N; Some 11%N]) /\
  get exO exS 11 [12%N] (Some 0%N) None = Ok (One (Some 12%N)).
Proof. split; by vm_compute. Qed.

(** ** C13 *)

Theorem C13_get_exact O s a rf oc :
  bidirectional O s -> closed s ->
  exists bs, get O s a [] rf oc = Ok (Many (map Some bs)) /\ NoDup bs /\
    forall b, b ∈ bs <->
      exists r, connected s a r b /\
        (forall sup, rf = Some sup -> o_sub O r sup = true) /\
        (forall c, oc = Some c -> exists t, (b, TType t) ∈ gr s /\ o_csub O t c = true).
Proof.
  intros Hb Hc. destruct (get_all_spec O s a rf oc (conj Hb Hc)) as (bs & Hg & Hnd & Hin).
  exists bs. split; [done|]. split; [done|]. intros b. rewrite Hin.
  unfold matching. split; intros [r Hr]; exists r; naive_solver.
Qed.
(** Specifying both uids and a class is an error. *)
Theorem C13_uids_and_class O s a uids rf c :
  uids <> [] -> get O s a uids rf (Some c) = Err TypeError.
Proof. intros Hu. unfold get, get_. by destruct uids. Qed.
Example C13_example :
  get exO exS 12 [] (Some 0%N) (Some 4%N) = Ok (Many [Some 13%N]).
Proof. by vm_compute. Qed.

(** ** C14 *)

Theorem C14_attribute_local {V} (conv : attr -> V -> res lit) s u a v s' e :
  set_attr_value conv s u a v = (s', e) ->
  match conv a v with
  | Err e' => e = Some e' /\ s' = s
  | Ok l =>
      e = None /\ reg s' = reg s /\ root s' = root s /\
      (* reading gives exactly the converted value *)
      attr_values (gr s') u a = [l] /\
      (* everything else is untouched *)
      forall t, (forall l', t <> (u, TAttr a l')) -> t ∈ gr s' <-> t ∈ gr s
  end.
Proof.
  unfold set_attr_value. destruct (conv a v) as [l|e']; intros [= <- <-]; [|done].
  split; [done|]. split; [done|]. split; [done|]. split; [apply set_attr_values|].
  intros t Ht. rewrite set_attr_spec. naive_solver.
Qed.
Theorem C14_other_attributes {V} (conv : attr -> V -> res lit) s u a v s' e u' a' l :
  set_attr_value conv s u a v = (s', e) -> (u', a') <> (u, a) ->
  l ∈ attr_values (gr s') u' a' <-> l ∈ attr_values (gr s) u' a'.
Proof.
  intros H Hne. apply C14_attribute_local in H. rewrite !elem_attr_values.
  destruct (conv a v); [|by destruct H as [_ ->]].
  destruct H as (_ & _ & _ & _ & Ht). apply Ht. intros l' [= -> -> _]. by apply Hne.
Qed.
Example C14_example : attr_values (gr exS) 11 21 = [(2, 1)%N].
Proof. by vm_compute. Qed.
(** Constructing an object under a uid that exists merges the triples, so that an
    attribute can have two values and a following assignment is needed. *)
Theorem C14_refuted_reconstruct :
  exists s, reachable exO s /\ length (attr_values (gr s) 11 21) = 2%nat.
Proof.
  exists (run exO [Create 11 3 [(21, (1, 1))]; Create 11 3 [(21, (2, 1))]]%N).
  split; [apply run_reachable|]; by vm_compute.
Qed.

(** ** C15 *)

Theorem C15_delete_no_trace O s u s' e :
  involutive O -> bidirectional O s -> closed s -> u ∈ reg s ->
  (forall a r b, connected s a r b -> o_sub O r (o_relationship O) = true) ->
  delete_cuds_object O s u = (s', e) ->
  e = None /\
  reg s' = reg s ∖ {[u]} /\
  (* no triple mentions u *)
  (forall p, (u, p) ∉ gr s') /\ (forall b r, (b, TLink r u) ∉ gr s') /\
  (* every other triple is kept, none is added *)
  (forall t, fst t <> u -> (forall b r, t <> (b, TLink r u)) -> t ∈ gr s' <-> t ∈ gr s).
Proof.
  intros Hivl Hb Hc Hu Hcov Hd.
  destruct (delete_spec O s u Hivl (conj Hb Hc) Hu Hcov) as (s1 & Hd1 & Hr & _ & Ht).
  rewrite Hd in Hd1. simplify_eq. split; [done|]. split; [done|]. split; [|split].
  - intros p Hp. apply Ht in Hp as (_ & Hf & _). by apply Hf.
  - intros b r Hl. apply Ht in Hl as (_ & _ & Hl). by apply (Hl b r).
  - intros t Hf Hl. rewrite Ht. tauto.
Qed.
Example C15_example :
  let s' := fst (delete_cuds_object exO exS 12) in
  ~ connected s' 11 1 12 /\ ~ connected s' 13 5 12 /\ connected s' 11 1 11 /\
  attr_values (gr s') 11 21 = [(2, 1)%N].
Proof.
  unfold connected. split; [|split; [|split]].
  - apply (bool_decide_eq_false_1 _). by vm_compute.
  - apply (bool_decide_eq_false_1 _). by vm_compute.
  - apply (bool_decide_unpack _). by vm_compute.
  - by vm_compute.
Qed.
(** ... but relationships that are not below cuba.relationship keep pointing to
    the deleted object, and the root of the session may be the deleted object. *)
Theorem C15_refuted_owl_relationships :
  exists s s', reachable exOwl s /\ bidirectional exOwl s /\
    delete_cuds_object exOwl s 12 = (s', None) /\ (11%N, TLink 7 12) ∈ gr s'.
Proof.
  set (s := run exOwl [Create 11 3 []; Create 12 4 []; Add 11 7 [12%N]]%N).
  exists s, (fst (delete_cuds_object exOwl s 12)).
  assert (Hr : reachable exOwl s) by (apply run_reachable; by vm_compute).
  split; [done|]. split; [|split].
  - assert (Hinv : sess_inv exOwl s); [|apply Hinv].
    unfold s. simpl. apply add_inv; [exact exO_involutive| | |].
    + apply create_inv, create_inv. split; [done|]. intros u p Hp. by apply elem_of_empty in Hp.
    + apply (bool_decide_unpack _). by vm_compute.
    + apply (bool_decide_unpack _). by vm_compute.
  - by vm_compute.
  - apply (bool_decide_unpack _). by vm_compute.
Qed.
Theorem C15_root_may_dangle O s u s' e :
  involutive O -> bidirectional O s -> closed s -> u ∈ reg s -> covered O s ->
  delete_cuds_object O s u = (s', e) -> root s' = root s.
Proof.
  intros Hivl Hb Hc Hu Hcov Hd.
  destruct (delete_spec O s u Hivl (conj Hb Hc) Hu Hcov) as (s1 & Hd1 & _ & Hr & _).
  rewrite Hd in Hd1. by simplify_eq.
Qed.

Print Assumptions C09_bidirectional.
Print Assumptions C09_refuted_owl_relationships.
Print Assumptions C10_add_exact.
Print Assumptions C10_add_error_iff.
Print Assumptions C11_remove_exact.
Print Assumptions C12_get_positional.
Print Assumptions C13_get_exact.
Print Assumptions C14_attribute_local.
Print Assumptions C15_delete_no_trace.
Print Assumptions C15_refuted_owl_relationships.
