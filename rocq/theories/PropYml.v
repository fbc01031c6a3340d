(** C50: parsing a YAML ontology; C51: the attributes it declares.
    The specification is in YmlSpec.v. *)
From stdpp Require Import base list gmap countable relations.
From Coq Require Import String.
From Verif Require Import Prelude Utf8 Text Names Onto OClass PropOnto PropOClass Yml YmlProofs YmlSpec YmlLink YmlTerm YmlTop.
From Verif Require Validator Namespace Datatype PropValidator PropNamespace.
Local Open Scope N_scope.
Local Open Scope list_scope.

(** The state in which a document of namespace [own] is parsed. *)
Record World (R : rdf) (st : Namespace.store) (g : ograph) (own : str) : Prop := {
  w_numbers : Numbers R;
  w_canonical : Canonical R g;
  w_store : PropNamespace.store_ok st;
  w_apart : Apart R (Namespace.st_ns st) g own }.

Definition bound (st : Namespace.store) (own : str) : Namespace.store :=
  Namespace.ns_bind own (ns_iri (Namespace.st_ns st) own) st.
Lemma run_eq R st y d own D : V.Document y -> Reads y d own D ->
  exists es, D = list_to_map es /\ base.NoDup (map fst es) /\ facts d own es /\
    (forall x f, (x, f) ∈ es -> base.NoDup (map fst (f_attributes f))) /\
    forall fuel s,
    run R fuel st y s = (bound st own, parse_ontology (r_num R) (r_text R) (r_en R) (r_lit R) (r_true R) (r_one R) (r_pick R) (r_installed R)
                          (Namespace.st_ns (bound st own)) own es fuel d s).
Proof.
  intros HD (-> & ns & o & es & Hns & -> & Ho & Hes & Hnd & -> & Ha).
  exists es. split; [done|]. split; [done|]. split; [by eapply document_facts|]. split; [done|]. intros fuel s.
  unfold run, parse. pose proof (proj2 (proj1 (V.C45_validate_iff_grammar (YDict d) (Validator.enough (YDict d)) (Nat.le_refl _))) HD) as ->.
  by rewrite Hns, Ho, Hes.
Qed.
Lemma run_document R fuel st y s st' s' u : run R fuel st y s = (st', (s', Ok u)) -> V.Document y.
Proof.
  unfold run, parse. intros H.
  destruct (V.C45_validate_iff_grammar y (Validator.enough y) (Nat.le_refl _)) as [H1 _]. apply H1.
  destruct (Validator.validate (Validator.enough y) y (Validator.PName Validator.FRoot)) as [[]|e]; [done|discriminate H].
Qed.

(** ** How the fields of a document are read *)
Definition Falsy (v : yaml) : Prop :=
  v = YS Validator.SNone \/ v = YS (Validator.SBool false) \/ v = YS (Validator.SInt 0) \/
  (exists t, v = YS (Validator.SFloat t (Some false))) \/ v = YS (SStr []) \/ v = YList [] \/ v = YDict [].
(** The specification speaks of fields through the functions named here: they
    return what is written in the document. *)
Theorem C50_reading : forall (f : fields),
  (forall k v, base.NoDup (map fst f) -> (get k f = Some v <-> (SStr (lit k), v) ∈ f)) /\
  (forall k w, f_str k f = Some w <-> get k f = Some (YS (SStr w))) /\
  (forall w, w ∈ f_supers f <-> exists l, get "subclass_of" f = Some (YList l) /\ YS (SStr w) ∈ l) /\
  (f_default_rel f = Some true <-> exists v, get "default_rel" f = Some v /\ ~ Falsy v) /\
  (forall w v, (w, v) ∈ f_attributes f <-> exists l u, get "attributes" f = Some (YDict l) /\ (SStr w, u) ∈ l /\
     v = match u with YS Validator.SNone => None | _ => Some u end) /\
  (forall y es, entities y = Some es <-> y = YDict (map (fun xf : str * fields => (SStr (fst xf), YDict (snd xf))) es)).
Proof.
  intros f. split; [|split; [|split; [|split; [|split]]]].
  - intros k v Hnd. unfold get. induction f as [|[k' v'] f IH]; [split; [done|intros H; by apply elem_of_nil in H]|].
    apply stdpp.list.NoDup_cons in Hnd as [Hn Hnd]. specialize (IH Hnd). rewrite elem_of_cons.
    assert (Hh : forall x, k' = SStr (lit k) -> (SStr (lit k), x) ∈ f -> False).
    { intros x -> Hx. apply Hn. apply elem_of_list_fmap. by exists (SStr (lit k), x). }
    cbn [Validator.lookup]. destruct k' as [| | | |s|];
      try (rewrite IH; split; [by right|intros [[= ? ?]|?]; done]).
    destruct (str_eqb_spec (lit k) s) as [<-|Hne].
    + split; [intros [= ->]; by left|]. intros [[= ->]|Hx]; [done|]. by destruct (Hh v eq_refl).
    + rewrite IH. split; [by right|]. intros [[= Hx ?]|?]; [by rewrite Hx in Hne|done].
  - intros k w. unfold f_str. destruct (get k f) as [[[]| |]|]; split; congruence.
  - intros w. unfold f_supers. destruct (get "subclass_of" f) as [[|l|]|].
    1,3,4: split; [intros H; by apply elem_of_nil in H|intros (l' & ? & _); congruence].
    unfold strings. rewrite elem_of_list_omap. split.
    + intros (u & Hu & E). exists l. split; [done|]. destruct u as [[]| |]; congruence.
    + intros (l' & El & H); injection El as <-. by exists (YS (SStr w)).
  - unfold f_default_rel, Falsy. split.
    + intros H. destruct (get "default_rel" f) as [v|]; [|done]. exists v. split; [done|]. cbn in H.
      intros HF. destruct HF as [-> | [-> | [-> | [[t ->] | [-> | [-> | ->]]]]]]; discriminate H.
    + intros (v & -> & HF). cbn. f_equal.
      destruct v as [[| | | | |]| |]; cbn; try done.
      * destruct HF; by left.
      * destruct b; [done|]. destruct HF. right; by left.
      * destruct (Z.eqb_spec z 0) as [->|]; [|done]. destruct HF. right; right; by left.
      * destruct eq01 as [[]|]; try done. destruct HF. right; right; right; left. by eexists.
      * destruct s; [|done]. destruct HF. do 4 right. by left.
      * destruct l; [|done]. destruct HF. do 5 right. by left.
      * destruct l; [|done]. destruct HF. by do 6 right.
  - intros w v. unfold f_attributes. destruct (get "attributes" f) as [[| |l]|].
    1,2,4: split; [intros H; by apply elem_of_nil in H|intros (l' & u & ? & _); congruence].
    rewrite elem_of_list_omap. split.
    + intros ([k u] & Hu & E). exists l, u.
      assert (Hk : k = SStr w) by (destruct k, u as [[]| |]; congruence). subst k.
      split; [done|]. split; [done|]. destruct u as [[]| |]; congruence.
    + intros (l' & u & El & Hu & ->); injection El as <-. exists (SStr w, u). split; [done|].
      destruct u as [[]| |]; done.
  - intros y es. unfold entities. destruct y as [s|l|l]; [split; [done|discriminate]..|]. split.
    + intros H. f_equal. revert es H. induction l as [|[k v] l IH]; intros es H; cbn in H.
      * by injection H as <-.
      * destruct k as [| | | |k|], v as [| |v]; cbn in H; try discriminate H.
        destruct (stdpp.list.mapM _ l) as [es'|] eqn:E; [|discriminate H]. injection H as <-. cbn. f_equal. by apply IH.
    + intros [= ->]. induction es as [|[x g] es IH]; [done|]. cbn. by rewrite IH.
Qed.

(** ** C50 *)

(** A document is only accepted when it follows the rules, and then the graph gains
    exactly what the document says; the blank nodes are new and all different. *)
Theorem C50_exact : forall R fuel st y s st' s' d own D,
  Reads y d own D -> World R st (p_graph s) own ->
  run R fuel st y s = (st', (s', Ok tt)) ->
  let b := Namespace.st_ns st in let g := p_graph s in
  Accepts R b g own D d /\ ~ Cyclic own D /\
  exists m, Slots R b g own D m /\
    (forall t, t ∈ p_graph s' <-> t ∈ g \/ Says R b g own D d t \/ exists e, e ∈ m /\ SlotSays R e t) /\
    base.NoDup (mjoin (map nodes m)) /\ p_next s <= p_next s' /\
    (forall n, n ∈ mjoin (map nodes m) -> p_next s <= n < p_next s').
Proof.
  intros R fuel st y s st' s' d own D HRd HW Hrun b g.
  pose proof (run_document _ _ _ _ _ _ _ _ Hrun) as HD. destruct HW as [W1 W2 W3 W4].
  destruct (run_eq R st y d own D HD HRd) as (es & -> & Hnd & Hf & Ha & Er).
  rewrite Er in Hrun. injection Hrun as <- E2.
  pose proof (bind_same st own W3 : same b (Namespace.st_ns (bound st own))) as Hs.
  remember (Namespace.st_ns (bound st own)) as b' eqn:Eb.
  destruct Hf as [F1 F2 F3 F4 F5 F6 F7 F8].
  destruct (link_sound R b' own es g W1 W2 F1 F2 Hnd F3 (apart_mono R g own b b' Hs W4) F4 F5 F6 F7 Ha d F8 fuel s s' eq_refl E2)
    as (HA & HC & m & M1 & M2 & M3 & M4 & M5).
  apply same_sym in Hs.
  split; [by eapply accepts_mono|]. split; [done|]. exists m. split; [by eapply slots_mono|].
  split; [|done]. intros t. rewrite M2. by rewrite (says_same R g own _ b' b d t Hs).
Qed.

(** Every document that follows the rules is accepted. *)
Theorem C50_accepts : forall R st y s d own D,
  V.Document y -> Reads y d own D -> World R st (p_graph s) own ->
  Accepts R (Namespace.st_ns st) (p_graph s) own D d -> ~ Cyclic own D ->
  exists k, forall fuel, (k <= fuel)%nat -> exists st' s', run R fuel st y s = (st', (s', Ok tt)).
Proof.
  intros R st y s d own D HD HRd [W1 W2 W3 W4] HA HC.
  destruct (run_eq R st y d own D HD HRd) as (es & -> & Hnd & [F1 F2 F3 F4 F5 F6 F7 F8] & Ha & Er).
  pose proof (bind_same st own W3 : same (Namespace.st_ns st) (Namespace.st_ns (bound st own))) as Hs.
  remember (Namespace.st_ns (bound st own)) as b' eqn:Eb.
  destruct (link_complete R b' own es (p_graph s) W1 W2 F1 F2 Hnd F3 (apart_mono R _ own _ _ Hs W4) F4 F5 F6 F7 d F8)
    as [k Hk]; [by eapply accepts_mono|done|].
  exists k. intros fuel Hfu. destruct (Hk fuel s Hfu eq_refl) as [s' E]. exists (bound st own), s'.
  by rewrite Er, E.
Qed.

(** Parsing ends on every document without cyclic superclasses ... *)
Theorem C50_ends : forall R st y d own D,
  V.Document y -> Reads y d own D -> ~ Cyclic own D ->
  exists k, forall fuel s, (k <= fuel)%nat -> (run R fuel st y s).2.2 <> Err OutOfFuel.
Proof.
  intros R st y d own D HD HRd HC.
  destruct (run_eq R st y d own D HD HRd) as (es & -> & Hnd & [F1 F2 F3 F4 F5 F6 F7 F8] & Ha & Er).
  destruct (parse_ends (r_num R) (r_text R) (r_en R) (r_lit R) (r_true R) (r_one R) (r_pick R) (r_installed R)
    (Namespace.st_ns (bound st own)) own es Hnd d) as [k Hk].
  { intros x f Hx. by apply acyclic_acc. }
  exists k. intros fuel s Hf. rewrite Er. by apply Hk.
Qed.
(** ... and does not end on a document whose only fault is a cycle. *)
Theorem C50_cycle_hangs : forall R st y s d own D,
  V.Document y -> Reads y d own D -> World R st (p_graph s) own ->
  Accepts R (Namespace.st_ns st) (p_graph s) own D d -> Cyclic own D ->
  forall fuel, (run R fuel st y s).2.2 = Err OutOfFuel.
Proof.
  intros R st y s d own D HD HRd [W1 W2 W3 W4] HA HC fuel.
  destruct (run_eq R st y d own D HD HRd) as (es & -> & Hnd & [F1 F2 F3 F4 F5 F6 F7 F8] & Ha & Er).
  pose proof (bind_same st own W3 : same (Namespace.st_ns st) (Namespace.st_ns (bound st own))) as Hs.
  rewrite Er. remember (Namespace.st_ns (bound st own)) as b' eqn:Eb.
  destruct (link_hangs R b' own es (p_graph s) W1 W2 F1 F2 Hnd F3 (apart_mono R _ own _ _ Hs W4) F4 F5 F6 F7 d F8
    (accepts_mono R _ own _ _ _ d Hs HA) HC fuel s eq_refl) as [s' ->]. done.
Qed.

(** An invalid document changes nothing. *)
Theorem C50_invalid : forall R fuel st y s, ~ V.Document y -> run R fuel st y s = (st, (s, Err ValueError)).
Proof.
  intros R fuel st y s HD. unfold run, parse.
  destruct (V.C45_validate_iff_grammar y (Validator.enough y) (Nat.le_refl _)) as [_ H2].
  by rewrite (proj2 H2 HD).
Qed.

(** Parsing binds the namespace, whatever happens next, and no other. *)
Theorem C50_binds : forall R fuel st y s d own D,
  V.Document y -> Reads y d own D -> PropNamespace.store_ok st ->
  let b := Namespace.st_ns st in let b' := Namespace.st_ns (run R fuel st y s).1 in
  (exists i, NsIri b own i /\ assoc own b' = Some i) /\
  (forall ns, ns <> own -> assoc ns b' = assoc ns b) /\
  PropNamespace.store_ok (run R fuel st y s).1.
Proof.
  intros R fuel st y s d own D HD HRd Hok b b'. subst b'.
  destruct (run_eq R st y d own D HD HRd) as (es & -> & Hnd & _ & _ & Er). rewrite Er. cbn [fst].
  assert (Hb : forall ns, assoc ns (Namespace.st_ns (bound st own)) = if str_eqb ns own then Some (ns_iri b own) else assoc ns b)
    by (apply bind_assoc; done).
  split; [|split].
  - exists (ns_iri b own). rewrite Hb, str_eqb_refl. split; [|done]. unfold NsIri, ns_iri.
    destruct (assoc own b); [by left|by right].
  - intros ns Hne. rewrite Hb. by destruct (str_eqb_spec ns own).
  - unfold bound. apply PropNamespace.C43_bind_invariant; [done|]. unfold ns_iri.
    destruct (assoc own (Namespace.st_ns st)) as [i|] eqn:Ea; [|done]. intros ->. by apply (proj2 Hok own).
Qed.

(** ** Order *)
Definition ground (t : otriple) : Prop := (forall n, t.1.1 <> BN n) /\ forall n, t.2 <> BN n.

(** The order of entities and keys does not matter: acceptance and the triples
    without blank nodes only depend on what the document maps to what. *)
Theorem C50_order : forall R st y y' s d d' own D,
  Reads y d own D -> Reads y' d' own D -> V.Document y' -> get "default_rel" d = get "default_rel" d' ->
  World R st (p_graph s) own ->
  forall fuel st1 s1, run R fuel st y s = (st1, (s1, Ok tt)) ->
  exists k, forall fuel', (k <= fuel')%nat -> exists s2,
    run R fuel' st y' s = (st1, (s2, Ok tt)) /\
    (forall t, ground t -> t ∈ p_graph s1 <-> t ∈ p_graph s2).
Proof.
  intros R st y y' s d d' own D H1 H2 HD' Edef HW fuel st1 s1 Hrun.
  destruct (C50_exact _ _ _ _ _ _ _ _ _ _ H1 HW Hrun) as (HA & HC & m & _ & Ht & _).
  assert (Ef : f_str "default_rel" d = f_str "default_rel" d') by (unfold f_str; by rewrite Edef).
  assert (HA' : Accepts R (Namespace.st_ns st) (p_graph s) own D d').
  { destruct HA as (A1 & [A2 A3] & A4). split; [done|]. split; [split; [done|]|by rewrite <- Ef]. by rewrite <- Edef. }
  destruct (C50_accepts _ _ _ _ _ _ _ HD' H2 HW HA' HC) as [k Hk]. exists k. intros fuel' Hf.
  destruct (Hk fuel' Hf) as (st2 & s2 & Hrun2). exists s2. split.
  - rewrite Hrun2. f_equal. pose proof (run_document _ _ _ _ _ _ _ _ Hrun) as HD.
    destruct (run_eq R st y d own D HD H1) as (es & _ & _ & _ & _ & Er).
    destruct (run_eq R st y' d' own D HD' H2) as (es' & _ & _ & _ & _ & Er').
    rewrite Er in Hrun. rewrite Er' in Hrun2. injection Hrun as <- _. by injection Hrun2 as <- _.
  - destruct (C50_exact _ _ _ _ _ _ _ _ _ _ H2 HW Hrun2) as (_ & _ & m' & _ & Ht' & _).
    assert (HS : forall t, Says R (Namespace.st_ns st) (p_graph s) own D d t <-> Says R (Namespace.st_ns st) (p_graph s) own D d' t).
    { intros t. split; intros HS; destruct HS; try (by econstructor);
        (eapply Says_default_doc; [|done|done]); congruence. }
    assert (HG : forall (m : list slot) t, ground t -> ~ exists e, e ∈ m /\ SlotSays R e t).
    { intros m1 t [G1 G2] (e & _ & He). destruct He; cbn in *; first [by eapply G1|by eapply G2]. }
    intros t Hg. rewrite Ht, Ht', HS. pose proof (HG m t Hg). pose proof (HG m' t Hg). tauto.
Qed.

(** ** What stands in the graph afterwards *)
Lemma num_inj R i j : Numbers R -> r_num R i = r_num R j -> i = j.
Proof. intros [H _] E. by rewrite <- (H i), <- (H j), E. Qed.
Lemma named_own R b g own x i : Apart R b g own -> Named R b g own x i -> exists n, NsIri b own n /\ i = n ++ x.
Proof.
  intros HA [n H1 H2|n X H1 H2 H3 H4]; [by exists n|]. destruct (HA n H1) as (_ & H & _). done.
Qed.
Lemma nsiri_fun b ns i j : NsIri b ns i -> NsIri b ns j -> i = j.
Proof. unfold NsIri. intros [H|[H ->]] [H'|[H' ->]]; congruence. Qed.
Lemma named_own_inj R b g own x y i : Apart R b g own -> Named R b g own x i -> Named R b g own y i -> x = y.
Proof.
  intros HA H1 H2. apply named_own in H1 as (n & Hn & ->); [|done]. apply named_own in H2 as (n' & Hn' & E); [|done].
  rewrite (nsiri_fun _ _ _ _ Hn' Hn) in E. by apply app_inv_head in E.
Qed.
Lemma known_own R b g own D x : is_Some (D !! x) -> Known R b g own D own x.
Proof. intros H. by left. Qed.

Lemma type_after R st s own D d x i t (m : list slot) (s' : pst) :
  World R st (p_graph s) own -> is_Some (D !! x) -> Named R (Namespace.st_ns st) (p_graph s) own x i ->
  t ∈ owl_types ->
  (forall u, u ∈ p_graph s' <-> u ∈ p_graph s \/ Says R (Namespace.st_ns st) (p_graph s) own D d u \/ exists e, e ∈ m /\ SlotSays R e u) ->
  (IRI (r_num R i), p_type, t) ∈ p_graph s' <-> HasType R (Namespace.st_ns st) (p_graph s) own D x t.
Proof.
  intros [W1 W2 W3 W4] Hx Hi Ht Hg. rewrite Hg. split.
  - intros [H|[H|(e & _ & H)]].
    + split; [done|]. exists (own, x), i. split; [apply rtc_refl|]. split; [|done]. left. split; [by left|done].
    + remember (IRI (r_num R i), p_type, t) as u eqn:Eu. destruct H as [| |x' i' t' Hx' Hi' Ht'|x' f' i' w j k| | | | |]; try discriminate Eu.
      * injection Eu as E1 ->. apply (num_inj R) in E1 as ->; [|done]. by rewrite (named_own_inj _ _ _ _ _ _ _ W4 Hi Hi').
      * destruct k; discriminate Eu.
      * injection Eu as _ <-. exfalso. clear -Ht. unfold owl_types in Ht. set_solver.
    + inversion H; subst; discriminate.
  - intros H. right. left. by eapply Says_type.
Qed.

(** Every entity of an accepted document is of exactly one kind. *)
Theorem C50_one_kind : forall R fuel st y s st' s' d own D x i,
  Reads y d own D -> World R st (p_graph s) own -> run R fuel st y s = (st', (s', Ok tt)) ->
  is_Some (D !! x) -> Named R (Namespace.st_ns st) (p_graph s) own x i ->
  let T t := (IRI (r_num R i), p_type, t) ∈ p_graph s' in
  (T owl_Class /\ ~ T owl_ObjectProperty /\ ~ T owl_DatatypeProperty) \/
  (~ T owl_Class /\ T owl_ObjectProperty /\ ~ T owl_DatatypeProperty) \/
  (~ T owl_Class /\ ~ T owl_ObjectProperty /\ T owl_DatatypeProperty).
Proof.
  intros R fuel st y s st' s' d own D x i H1 HW Hrun Hx Hi T. subst T. cbv beta.
  destruct (C50_exact _ _ _ _ _ _ _ _ _ _ H1 HW Hrun) as ((HA & _) & _ & m & _ & Hg & _).
  rewrite !(type_after R st s own D d x i _ m s' HW Hx Hi) by (done || apply class_owl || apply object_owl || apply data_owl).
  destruct Hx as [f Hx]. destruct (HA x f Hx) as (_ & k & (K1 & K2 & K3) & _). rewrite K1, K2, K3.
  destruct k; [left|right; left|right; right]; (split; [|split]); done.
Qed.

(** ** Old triples stay, even if parsing fails *)
Definition Mono {A} (m : M A) : Prop := forall s, p_graph s ⊆ p_graph (m s).1 /\ p_next s <= p_next (m s).1.
Lemma mono_ret {A} (a : A) : Mono (ret a).
Proof. intros s. cbn. split; [done|lia]. Qed.
Lemma mono_raise {A} e : Mono (@raise A e).
Proof. intros s. cbn. split; [done|lia]. Qed.
Lemma mono_lift {A} (f : ograph -> res A) : Mono (lift f).
Proof. intros s. cbn. split; [done|lia]. Qed.
Lemma mono_mbind {A B} (m : M A) (k : A -> M B) : Mono m -> (forall a, Mono (k a)) -> Mono (mbind m k).
Proof.
  intros Hm Hk s. unfold mbind. destruct (Hm s) as [H1 H2]. destruct (m s) as [s' [a|e]]; cbn in *; [|done].
  destruct (Hk a s') as [H3 H4]. split; [by etransitivity|lia].
Qed.
Lemma mono_add t : Mono (add t).
Proof. intros s. cbn. split; [set_solver|lia]. Qed.
Lemma mono_add_all t : Mono (add_all t).
Proof. intros s. cbn. split; [set_solver|lia]. Qed.
Lemma mono_fresh : Mono fresh_bnode.
Proof. intros s. cbn. split; [done|lia]. Qed.
Lemma mono_for_each {A B} (f : A -> M B) l : (forall x, Mono (f x)) -> Mono (for_each f l).
Proof.
  intros H. induction l as [|x l IH]; [apply mono_ret|]. cbn. apply mono_mbind; [done|].
  intros y. apply mono_mbind; [done|]. intros ys. apply mono_ret.
Qed.
Lemma mono_state {A} (m : M A) : (forall s, exists m', Mono m' /\ m s = m' s) -> Mono m.
Proof. intros H s. destruct (H s) as (m' & Hm & ->). apply Hm. Qed.
Ltac mono := repeat (cbn beta; lazymatch goal with
  | |- Mono (ret _) => apply mono_ret
  | |- Mono (raise _) => apply mono_raise
  | |- Mono (lift _) => apply mono_lift
  | |- Mono (add _) => apply mono_add
  | |- Mono (add_all _) => apply mono_add_all
  | |- Mono fresh_bnode => apply mono_fresh
  | |- Mono (mbind _ _) => apply mono_mbind
  | |- Mono (for_each _ _) => apply mono_for_each
  | |- Mono (match ?x with _ => _ end) => destruct x
  | |- forall _, _ => let a := fresh "a" in intros a
  end).
Lemma mono_parse num text len lval ltrue lone pick installed b own es fuel d :
  Mono (parse_ontology num text len lval ltrue lone pick installed b own es fuel d).
Proof.
  unfold parse_ontology. mono.
  - unfold load_entity. mono. unfold add_type_triple. mono. unfold add_superclass. apply mono_mbind; [mono|].
    intros j s. cbv zeta. apply mono_add.
  - unfold validate_entity. apply mono_mbind; [mono|]. intros i. apply mono_state. intros s. cbv zeta.
    match goal with |- context [match ?K with Some _ => _ | None => _ end] => destruct K as [k|] end.
    + eexists. split; [|reflexivity]. mono.
    + exists (raise RuntimeError). split; [mono|done].
  - unfold default_rel_of_doc. mono.
  - unfold set_inverse. mono.
  - unfold default_rel_flag. mono.
  - unfold set_datatype. mono.
  - unfold add_attributes. mono. apply mono_state. intros s1. case_decide.
    + eexists. split; [|reflexivity]. unfold add_attr. mono.
    + exists (raise ValueError). split; [mono|done].
Qed.
(** Whatever happens, no triple is removed. *)
Theorem C50_keeps : forall R fuel st y s,
  p_graph s ⊆ p_graph (run R fuel st y s).2.1 /\ p_next s <= p_next (run R fuel st y s).2.1.
Proof.
  intros R fuel st y s. unfold run, parse. repeat case_match; cbn; try (split; [done|lia]).
  apply mono_parse.
Qed.

(** ** C51: attributes *)
(** Restrictions are blank nodes, and no blank node of the graph is still to come. *)
Record Readable (s : pst) : Prop := {
  rd_wf : wf_onto (p_graph s);
  rd_anon : forall r, (r, p_type, owl_Restriction) ∈ p_graph s -> exists n, r = BN n;
  rd_fresh : forall n, p_next s <= n -> fresh (p_graph s) (BN n) }.

Section Functional.
  Variable R : rdf.
  Variable b : Namespace.bindings.
  Variable g : ograph.
  Variable own : str.
  Variable D : gmap str fields.
  Lemma named_fun ns n i j : Named R b g ns n i -> Named R b g ns n j -> i = j.
  Proof.
    intros [i' H1 H2|i' X H1 H2 H3 H4] [j' K1 K2|j' Y K1 K2 K3 K4]; rewrite (nsiri_fun _ _ _ _ K1 H1) in *.
    - done.
    - exfalso. apply set_choose_L in K3 as [x Hx]. by apply (H2 K2 x), K4.
    - exfalso. apply set_choose_L in H3 as [x Hx]. by apply (K2 H2 x), H4.
    - assert (E : X = Y) by (apply set_eq; intros x; by rewrite H4, K4). by rewrite E.
  Qed.
  Lemma refers_fun ns n i j : Refers R b g own D ns n i -> Refers R b g own D ns n j -> i = j.
  Proof.
    intros [[H1 H2]|(H1 & n1 & E1 & H2 & H3)] [[K1 K2]|(K1 & n2 & E2 & K2 & K3)]; try done.
    - by eapply named_fun.
    - rewrite E1 in E2. injection E2 as <-. by eapply named_fun.
  Qed.
  Lemma refersto_fun w i j : RefersTo R b g own D w i -> RefersTo R b g own D w j -> i = j.
  Proof.
    intros (ns & n & H1 & H2) (ns' & n' & K1 & K2). apply split_reference in H1, K1. rewrite H1 in K1.
    injection K1 as <- <-. by eapply refers_fun.
  Qed.
End Functional.

(** attribute [a] is declared for class [c], with this default value *)
Definition DeclaredFor R b g own D (c a : term) (v : option yaml) : Prop :=
  exists x w ci ai, Declared R b g own D x w v /\ Named R b g own x ci /\ RefersTo R b g own D w ai /\
    c = IRI (r_num R ci) /\ a = IRI (r_num R ai).

Lemma shared_node (m : list slot) e e' n : base.NoDup (mjoin (map nodes m)) -> e ∈ m -> e' ∈ m ->
  n ∈ nodes e -> n ∈ nodes e' -> e = e'.
Proof.
  induction m as [|e0 m IH]; intros Hnd He He' Hn Hn'; [by apply elem_of_nil in He|].
  change (mjoin (map nodes (e0 :: m))) with (nodes e0 ++ mjoin (map nodes m)) in Hnd.
  apply NoDup_app in Hnd as (_ & Hd & Hm).
  assert (Hin : forall e1, e1 ∈ m -> forall n, n ∈ nodes e1 -> n ∈ mjoin (map nodes m)).
  { intros e1 H1 n1 Hn1. apply elem_of_list_join. exists (nodes e1). split; [done|].
    apply elem_of_list_In, in_map. by apply elem_of_list_In. }
  apply elem_of_cons in He as [->|He]; apply elem_of_cons in He' as [->|He']; [done| | |by apply IH].
  - exfalso. apply (Hd n Hn). by apply (Hin e').
  - exfalso. apply (Hd n Hn'). by apply (Hin e).
Qed.
Lemma node_dnode (m : list slot) e v : base.NoDup (mjoin (map nodes m)) -> e ∈ m -> s_default e = Some v -> s_node e <> s_dnode e.
Proof.
  intros Hnd He Hv. assert (H : base.NoDup (nodes e)).
  { clear Hv. induction m as [|e0 m IH]; [by apply elem_of_nil in He|].
    change (mjoin (map nodes (e0 :: m))) with (nodes e0 ++ mjoin (map nodes m)) in Hnd.
    apply NoDup_app in Hnd as (H0 & _ & Hm). apply elem_of_cons in He as [->|He]; [done|by apply IH]. }
  unfold nodes in H. rewrite Hv in H. apply stdpp.list.NoDup_cons in H as [H _].
  intros E. apply H. rewrite E. by constructor.
Qed.
Lemma in_nodes (m : list slot) e n : e ∈ m -> n ∈ nodes e -> n ∈ mjoin (map nodes m).
Proof.
  intros He Hn. apply elem_of_list_join. exists (nodes e). split; [done|].
  apply elem_of_list_In, in_map. by apply elem_of_list_In.
Qed.
Lemma slots_elem R b g own D m c a v : Slots R b g own D m ->
  DeclaredFor R b g own D c a v <->
  exists e, e ∈ m /\ c = IRI (r_num R (s_class e)) /\ a = IRI (r_num R (s_attr e)) /\ s_default e = v.
Proof.
  intros (l & Hnd & Hl & HF). split.
  - intros (x & w & ci & ai & HD & Hc & Ha & -> & ->). apply Hl in HD.
    apply elem_of_list_lookup in HD as [j Hj]. destruct (Forall2_lookup_l _ _ _ _ _ HF Hj) as (e & He & H1 & H2 & H3).
    cbn in *. exists e. split; [by eapply elem_of_list_lookup_2|].
    rewrite (named_fun _ _ _ _ _ _ _ H1 Hc), (refersto_fun _ _ _ _ _ _ _ _ H2 Ha). done.
  - intros (e & He & -> & -> & <-). apply elem_of_list_lookup in He as [j Hj].
    destruct (Forall2_lookup_r _ _ _ _ _ HF Hj) as ([[x w] v] & Hx & H1 & H2 & H3). cbn in *.
    exists x, w, (s_class e), (s_attr e). rewrite H3. split; [|done]. apply Hl. by eapply elem_of_list_lookup_2.
Qed.

Section After.
  Variable R : rdf.
  Variable b : Namespace.bindings.
  Variable g g' : ograph.
  Variable own : str.
  Variable D : gmap str fields.
  Variable d : fields.
  Variable m : list slot.
  Hypothesis HG : forall t, t ∈ g' <-> t ∈ g \/ Says R b g own D d t \/ exists e, e ∈ m /\ SlotSays R e t.
  Notation iri i := (IRI (r_num R i)).
  Ltac inv H := apply HG in H as [H|[H|(e & He & H)]]; [by left| |];
    remember (_, _, _) as u eqn:Eu in H; destruct H;
    try discriminate Eu; try (match goal with k : ekind |- _ => destruct k; discriminate Eu end).
  Lemma restriction_inv r : (r, p_type, owl_Restriction) ∈ g' ->
    (r, p_type, owl_Restriction) ∈ g \/ exists e, e ∈ m /\ r = BN (s_node e).
  Proof.
    intros H. inv H.
    - injection Eu as <- ->. exfalso. match goal with H : HasType _ _ _ _ _ _ _ |- _ => destruct H as [Ht _] end.
      clear -Ht. unfold owl_types in Ht. set_solver.
    - injection Eu as <-. right. by exists e.
  Qed.
  Lemma sub_inv c n : (c, p_subClassOf, BN n) ∈ g' ->
    (c, p_subClassOf, BN n) ∈ g \/ exists e, e ∈ m /\ c = iri (s_class e) /\ n = s_node e.
  Proof. intros H. inv H. injection Eu as <- <-. right. by exists e. Qed.
  Lemma on_inv r a : (r, p_onProperty, a) ∈ g' ->
    (r, p_onProperty, a) ∈ g \/ exists e, e ∈ m /\ r = BN (s_node e) /\ a = iri (s_attr e).
  Proof. intros H. inv H. injection Eu as <- <-. right. by exists e. Qed.
  Lemma default_inv c o : (c, p_default, o) ∈ g' ->
    (c, p_default, o) ∈ g \/ exists e v, e ∈ m /\ s_default e = Some v /\ c = iri (s_class e) /\ o = BN (s_dnode e).
  Proof. intros H. inv H. injection Eu as <- <-. right. by exists e, v. Qed.
  Lemma dattr_inv r a : (r, p_default_attribute, a) ∈ g' ->
    (r, p_default_attribute, a) ∈ g \/ exists e v, e ∈ m /\ s_default e = Some v /\ r = BN (s_dnode e) /\ a = iri (s_attr e).
  Proof. intros H. inv H. injection Eu as <- <-. right. by exists e, v. Qed.
  Lemma dval_inv r l : (r, p_default_value, l) ∈ g' ->
    (r, p_default_value, l) ∈ g \/ exists e v, e ∈ m /\ s_default e = Some v /\ r = BN (s_dnode e) /\ l = LIT (r_lit R v).
  Proof. intros H. inv H. injection Eu as <- <-. right. by exists e, v. Qed.
  Lemma domain_inv a c : (a, p_domain, c) ∈ g' -> (a, p_domain, c) ∈ g \/ False.
  Proof. intros H. inv H. Qed.
  Lemma lit_inv n p o : (LIT n, p, o) ∈ g' -> (LIT n, p, o) ∈ g \/ False.
  Proof. intros H. inv H. Qed.
  Lemma subj_inv n p o : (BN n, p, o) ∈ g' -> (BN n, p, o) ∈ g \/ n ∈ mjoin (map nodes m).
  Proof.
    intros H. inv H; injection Eu as <- _ _; right; (eapply in_nodes; [done|]); unfold nodes; (by constructor) ||
      (match goal with H : s_default _ = Some _ |- _ => rewrite H end; by constructor; constructor).
  Qed.
  Lemma obj_inv n p s : (s, p, BN n) ∈ g' -> (s, p, BN n) ∈ g \/ n ∈ mjoin (map nodes m).
  Proof.
    intros H. apply HG in H as [H|[H|(e & He & H)]]; [by left| |];
      remember (s, p, BN n) as u eqn:Eu in H; destruct H; try discriminate Eu.
    - injection Eu as _ _ ->. match goal with H : HasType _ _ _ _ _ _ _ |- _ => destruct H as [Ht _] end.
      exfalso. clear -Ht. unfold owl_types in Ht. set_solver.
    - injection Eu as _ _ <-. right. eapply in_nodes; [done|]. by constructor.
    - injection Eu as _ _ <-. right. eapply in_nodes; [done|]. unfold nodes.
      match goal with H : s_default _ = Some _ |- _ => rewrite H end. by constructor; constructor.
  Qed.
  Lemma old_in t : t ∈ g -> t ∈ g'.
  Proof. intros H. apply HG. by left. Qed.
  Lemma slot_in e t : e ∈ m -> SlotSays R e t -> t ∈ g'.
  Proof. intros He Ht. apply HG. right. right. by exists e. Qed.

  Variable n n' : N.
  Hypothesis Hnd : base.NoDup (mjoin (map nodes m)).
  Hypothesis Hrange : forall k, k ∈ mjoin (map nodes m) -> n <= k < n'.
  Hypothesis Hfresh : forall k, n <= k -> fresh g (BN k).
  Hypothesis Hwf : wf_onto g.
  Hypothesis Hanon : forall r, (r, p_type, owl_Restriction) ∈ g -> exists k, r = BN k.
  Lemma no_old e k t : e ∈ m -> k ∈ nodes e -> t ∈ g -> t.1.1 <> BN k /\ t.2 <> BN k.
  Proof.
    intros He Hk Ht. destruct t as [[s p] o]. apply (Hfresh k) in Ht; [done|].
    apply (in_nodes m e k He) in Hk. apply Hrange in Hk. lia.
  Qed.
  Lemma node_in e : s_node e ∈ nodes e.
  Proof. constructor. Qed.
  Lemma dnode_in e v : s_default e = Some v -> s_dnode e ∈ nodes e.
  Proof. intros H. unfold nodes. rewrite H. constructor. constructor. Qed.
  Lemma same_node e e' : e ∈ m -> e' ∈ m -> s_node e = s_node e' -> e = e'.
  Proof. intros H H' E. apply (shared_node m e e' (s_node e) Hnd H H' (node_in e)). rewrite E. apply node_in. Qed.
  Lemma same_dnode e e' v v' : e ∈ m -> e' ∈ m -> s_default e = Some v -> s_default e' = Some v' -> s_dnode e = s_dnode e' -> e = e'.
  Proof.
    intros H H' Hv Hv' E. apply (shared_node m e e' (s_dnode e) Hnd H H' (dnode_in e v Hv)). rewrite E. by apply (dnode_in e' v').
  Qed.

  Lemma after_restr c a :
    (exists r, (c, p_subClassOf, r) ∈ g' /\ (r, p_type, owl_Restriction) ∈ g' /\ (r, p_onProperty, a) ∈ g') <->
    (exists r, (c, p_subClassOf, r) ∈ g /\ (r, p_type, owl_Restriction) ∈ g /\ (r, p_onProperty, a) ∈ g) \/
    exists e, e ∈ m /\ c = iri (s_class e) /\ a = iri (s_attr e).
  Proof.
    split.
    - intros (r & H1 & H2 & H3). apply restriction_inv in H2 as [H2|(e & He & ->)].
      + destruct (Hanon r H2) as [k ->]. left. exists (BN k).
        apply sub_inv in H1 as [H1|(e & He & _ & ->)].
        2:{ destruct (no_old e _ _ He (node_in e) H2) as [H _]. done. }
        apply on_inv in H3 as [H3|(e & He & [= ->] & _)].
        2:{ destruct (no_old e _ _ He (node_in e) H2) as [H _]. done. }
        done.
      + right. exists e. split; [done|].
        apply sub_inv in H1 as [H1|(e1 & He1 & -> & E1)].
        { destruct (no_old e _ _ He (node_in e) H1) as [_ H]. done. }
        apply on_inv in H3 as [H3|(e2 & He2 & [= E2] & ->)].
        { destruct (no_old e _ _ He (node_in e) H3) as [H _]. done. }
        pose proof (same_node _ _ He He1 E1) as <-. by pose proof (same_node _ _ He He2 E2) as <-.
    - intros [(r & H1 & H2 & H3)|(e & He & -> & ->)].
      + exists r. split; [|split]; by apply old_in.
      + exists (BN (s_node e)). split; [|split]; (eapply slot_in; [done|constructor]).
  Qed.
  Lemma after_default c a v : has_default g' c a v <-> has_default g c a v \/
    exists e w, e ∈ m /\ c = iri (s_class e) /\ a = iri (s_attr e) /\ s_default e = Some w /\ v = LIT (r_lit R w).
  Proof.
    unfold has_default. split.
    - intros (r & H1 & H2 & H3). apply default_inv in H1 as [H1|(e & w & He & Hw & -> & ->)].
      + left. exists r. split; [done|].
        apply dattr_inv in H2 as [H2|(e & w & He & Hw & -> & ->)].
        2:{ destruct (no_old e _ _ He (dnode_in e w Hw) H1) as [_ H]. done. }
        apply dval_inv in H3 as [H3|(e & w & He & Hw & -> & ->)].
        2:{ destruct (no_old e _ _ He (dnode_in e w Hw) H1) as [_ H]. done. }
        done.
      + right. exists e, w. split; [done|]. split; [done|].
        apply dattr_inv in H2 as [H2|(e1 & w1 & He1 & Hw1 & [= E1] & ->)].
        { destruct (no_old e _ _ He (dnode_in e w Hw) H2) as [H _]. done. }
        apply dval_inv in H3 as [H3|(e2 & w2 & He2 & Hw2 & [= E2] & ->)].
        { destruct (no_old e _ _ He (dnode_in e w Hw) H3) as [H _]. done. }
        pose proof (same_dnode _ _ _ _ He He1 Hw Hw1 E1) as <-. pose proof (same_dnode _ _ _ _ He He2 Hw Hw2 E2) as <-.
        rewrite Hw in Hw2. injection Hw2 as <-. done.
    - intros [(r & H1 & H2 & H3)|(e & w & He & -> & -> & Hw & ->)].
      + exists r. split; [|split]; by apply old_in.
      + exists (BN (s_dnode e)). split; [|split]; (eapply slot_in; [done|]); by econstructor.
  Qed.
  Lemma after_readable : n <= n' -> Readable (Pst g' n').
  Proof.
    intros Hn. split; cbn.
    - split.
      + intros c r H1 H2. apply restriction_inv in H2 as [H2|(e & He & ->)].
        * destruct (Hanon r H2) as [k ->]. apply sub_inv in H1 as [H1|(e & He & _ & ->)].
          2:{ destruct (no_old e _ _ He (node_in e) H2) as [H _]. done. }
          destruct (wf_on g Hwf c _ H1 H2) as [a Ha]. exists a. intros a'. rewrite <- Ha. split; [|apply old_in].
          intros H3. apply on_inv in H3 as [H3|(e & He & [= ->] & _)]; [done|].
          destruct (no_old e _ _ He (node_in e) H2) as [H _]. done.
        * exists (iri (s_attr e)). intros a'. split.
          -- intros H3. apply on_inv in H3 as [H3|(e2 & He2 & [= E2] & ->)].
             { destruct (no_old e _ _ He (node_in e) H3) as [H _]. done. }
             by rewrite (same_node _ _ He He2 E2).
          -- intros ->. eapply slot_in; [done|constructor].
      + intros k p o H. apply lit_inv in H as [H|[]]. by apply (wf_subj g Hwf) in H.
      + intros c r H1. apply default_inv in H1 as [H1|(e & w & He & Hw & -> & ->)].
        * destruct (wf_default g Hwf c r H1) as [v Hv]. exists v. intros v'. rewrite <- Hv. split; [|apply old_in].
          intros H3. apply dval_inv in H3 as [H3|(e & w & He & Hw & -> & ->)]; [done|].
          destruct (no_old e _ _ He (dnode_in e w Hw) H1) as [_ H]. done.
        * exists (LIT (r_lit R w)). intros v'. split.
          -- intros H3. apply dval_inv in H3 as [H3|(e2 & w2 & He2 & Hw2 & [= E2] & ->)].
             { destruct (no_old e _ _ He (dnode_in e w Hw) H3) as [H _]. done. }
             pose proof (same_dnode _ _ _ _ He He2 Hw Hw2 E2) as <-. rewrite Hw in Hw2. by injection Hw2 as <-.
          -- intros ->. eapply slot_in; [done|by constructor].
    - intros r H. apply restriction_inv in H as [H|(e & He & ->)]; [by apply Hanon|by eexists].
    - intros k Hk s p o H. split; intros ->.
      + apply subj_inv in H as [H|H]; [by apply (Hfresh k) in H as [H _]; [|lia]|apply Hrange in H; lia].
      + apply obj_inv in H as [H|H]; [by apply (Hfresh k) in H as [_ H]; [|lia]|apply Hrange in H; lia].
  Qed.
End After.

(** After an accepted document: the graph's attributes can be read (C48), its
    classes have the attributes and default values they had and those of the
    document, and nothing else. *)
Theorem C51_attributes : forall R fuel st y s st' s' d own D,
  Reads y d own D -> World R st (p_graph s) own -> Readable s ->
  run R fuel st y s = (st', (s', Ok tt)) ->
  let b := Namespace.st_ns st in let g := p_graph s in let g' := p_graph s' in
  Readable s' /\
  (forall c a, restricts g' c a <->
     (is_attr g' a /\ exists r, (c, p_subClassOf, r) ∈ g /\ (r, p_type, owl_Restriction) ∈ g /\ (r, p_onProperty, a) ∈ g) \/
     exists v, DeclaredFor R b g own D c a v) /\
  (forall c a v, has_default g' c a v <->
     has_default g c a v \/ exists w, DeclaredFor R b g own D c a (Some w) /\ v = LIT (r_lit R w)) /\
  (forall a c, (a, p_domain, c) ∈ g' <-> (a, p_domain, c) ∈ g).
Proof.
  intros R fuel st y s st' s' d own D HRd HW [Hwf Hanon Hfresh] Hrun b g g'.
  destruct (C50_exact _ _ _ _ _ _ _ _ _ _ HRd HW Hrun) as ((HA & _) & _ & m & Hm & HG & Hnd & Hnn & Hrange).
  fold b g g' in HG, HA, Hm.
  split; [|split; [|split]].
  - pose proof (after_readable R b g g' own D d m HG (p_next s) (p_next s') Hnd Hrange Hfresh Hwf Hanon Hnn) as H.
    by destruct s'.
  - intros c a. unfold restricts.
    rewrite (after_restr R b g g' own D d m HG (p_next s) (p_next s') Hnd Hrange Hfresh Hanon c a).
    assert (HE : (exists v, DeclaredFor R b g own D c a v) <-> exists e, e ∈ m /\ c = IRI (r_num R (s_class e)) /\ a = IRI (r_num R (s_attr e))).
    { setoid_rewrite (slots_elem R b g own D m c a _ Hm). split; [intros (v & e & ? & ? & ? & _)|intros (e & ? & ? & ?)]; eauto 6. }
    rewrite <- HE. split; [tauto|]. intros [H|H]; [tauto|]. split; [|by right].
    destruct H as (v & x & w & ci & ai & (f & Hx & Hk & Hw) & Hc & Hai & -> & ->). split; [|by eexists].
    destruct (HA x f Hx) as (_ & k & Hk' & _ & Hattr).
    assert (k = KClass) as ->.
    { destruct Hk as (K1 & K2 & K3), Hk' as (K1' & K2' & K3'). by apply K1', K1. }
    destruct (Hattr w v Hw) as (a' & Ha' & Hat). rewrite (refersto_fun _ _ _ _ _ _ _ _ Hai Ha').
    apply HG. destruct Hat as [Hat|(z & Hz & Hzn & Hzt)]; [by left|]. right. left. by eapply Says_type.
  - intros c a v. rewrite (after_default R b g g' own D d m HG (p_next s) (p_next s') Hnd Hrange Hfresh Hanon c a v).
    setoid_rewrite (slots_elem R b g own D m c a _ Hm). split.
    + intros [H|(e & w & ? & ? & ? & ? & ?)]; [by left|right]. exists w. split; [by exists e|done].
    + intros [H|(w & (e & ? & ? & ? & ?) & ?)]; [by left|right]. by exists e, w.
  - intros a c. split; [|intros H; apply HG; by left]. intros H. by apply (domain_inv R b g g' own D d m HG) in H as [H|[]].
Qed.

(** The attributes that a class gets when it is new to the graph: exactly those of
    the document; an attribute without default value is mandatory. *)
Theorem C51_new_class : forall R fuel st y s st' s' d own D x ci,
  Reads y d own D -> World R st (p_graph s) own -> Readable s ->
  run R fuel st y s = (st', (s', Ok tt)) ->
  let b := Namespace.st_ns st in let g := p_graph s in let c := IRI (r_num R ci) in
  is_Some (D !! x) -> Named R b g own x ci ->
  (forall p o, (c, p, o) ∉ g) -> (forall a p, (a, p, c) ∉ g) ->
  forall enum truthy, enum_ok (p_graph s') enum ->
  exists l, attributes (p_graph s') enum truthy [c] = Ok l /\
    (forall a, a ∈ l.*1 <-> exists v, DeclaredFor R b g own D c a v) /\
    (forall a i, (a, i) ∈ l ->
       (i_obl i = true <-> forall w, ~ DeclaredFor R b g own D c a (Some w)) /\
       (forall v, i_default i = Some v -> exists w, DeclaredFor R b g own D c a (Some w) /\ v = LIT (r_lit R w))).
Proof.
  intros R fuel st y s st' s' d own D x ci HRd HW HRe Hrun b g c Hx Hci Hnew1 Hnew2 enum truthy He.
  destruct (C51_attributes _ _ _ _ _ _ _ _ _ _ HRd HW HRe Hrun) as (HRe' & HR & HDf & Hdom).
  fold b g in HR, HDf, Hdom.
  assert (HR' : forall a, restricts (p_graph s') c a <-> exists v, DeclaredFor R b g own D c a v).
  { intros a. rewrite HR. split; [|by right]. intros [(_ & r & H & _)|H]; [by apply Hnew1 in H|done]. }
  assert (HD' : forall a v, has_default (p_graph s') c a v <-> exists w, DeclaredFor R b g own D c a (Some w) /\ v = LIT (r_lit R w)).
  { intros a v. rewrite HDf. split; [|by right]. intros [(r & H & _)|H]; [by apply Hnew1 in H|done]. }
  assert (Hde : forall a, declares (p_graph s') c a <-> exists v, DeclaredFor R b g own D c a v).
  { intros a. unfold declares. rewrite HR'. split; [|by left]. intros [H|(_ & _ & _ & H)]; [done|].
    apply Hdom in H. by apply Hnew2 in H. }
  destruct (C48_attributes (p_graph s') enum truthy [c] He (rd_wf _ HRe')) as (l & Hl & _ & Hk & Hi).
  exists l. split; [done|]. split.
  - intros a. rewrite Hk. rewrite <- Hde. split; [intros (c' & ->%elem_of_list_singleton & H); done|].
    intros H. exists c. split; [by apply elem_of_list_singleton|done].
  - intros a i Hin. destruct (Hi a i Hin) as (I1 & I2 & _). split.
    + rewrite I1. split.
      * intros (c' & ->%elem_of_list_singleton & _ & H) w Hw. eapply H, HD'. by exists w.
      * intros H. exists c. split; [by apply elem_of_list_singleton|]. split.
        -- apply HR', Hde. assert (Ha : a ∈ l.*1) by (apply elem_of_list_fmap; by exists (a, i)).
           apply Hk in Ha as (c' & ->%elem_of_list_singleton & Ha). done.
        -- intros v (w & Hw & _)%HD'. by apply (H w).
    + intros v Hv. destruct (I2 v Hv) as (c' & ->%elem_of_list_singleton & _ & H). by apply HD'.
Qed.

(** ** Examples *)
Definition exNum (i : str) : N := 1000 + Npos (encode i).
Definition exText (n : N) : str :=
  match n - 1000 with Npos p => match decode p with Some i => i | None => [] end | N0 => [] end.
Definition exPick (X : gset N) : N := match elements X with n :: _ => n | [] => 0 end.
Definition exLit (y : yaml) : N := match y with YS (SStr s) => 1000 + Npos (encode s) | _ => 7 end.
Definition exR : rdf := Rdf exNum exText exNum exLit 1 2 exPick (fun ns n => str_eqb ns (lit "cuba")).
Lemma exR_numbers : Numbers exR.
Proof.
  split.
  - intros i. unfold exR, exNum. cbn [r_num r_text]. unfold exText.
    replace (1000 + N.pos (encode i) - 1000) with (N.pos (encode i)) by lia. by rewrite decode_encode.
  - intros X HX. cbn. unfold exPick. destruct (elements X) as [|n l] eqn:E.
    + exfalso. apply HX. apply set_eq. intros n. rewrite <- elem_of_elements, E, elem_of_nil. set_solver.
    + apply elem_of_elements. rewrite E. constructor.
Qed.
Definition exCuba (n : string) : term := IRI (exNum (lit "http://www.osp-core.com/cuba#" ++ lit n)).
Definition exG : ograph := list_to_set
  [(exCuba "Class", p_type, owl_Class); (exCuba "relationship", p_type, owl_ObjectProperty);
   (exCuba "attribute", p_type, owl_DatatypeProperty); (exCuba "attribute", p_type, owl_FunctionalProperty)].
Definition exSt : Namespace.store :=
  Namespace.Store [(lit "cuba", lit "http://www.osp-core.com/cuba#")] [(lit "http://www.osp-core.com/cuba#", lit "cuba")].
Definition exS : pst := Pst exG 0.
Notation ystr := V.ystr.
Definition ent (supers : list string) (more : list (string * yaml)) : yaml :=
  YDict ((SStr (lit "subclass_of"), YList (map ystr supers)) :: map (fun kv => (SStr (lit (fst kv)), snd kv)) more).
Definition docOf (es : list (string * yaml)) : fields :=
  [(SStr (lit "version"), ystr "1.0"); (SStr (lit "namespace"), ystr "City");
   (SStr (lit "ontology"), YDict (map (fun kv => (SStr (lit (fst kv)), snd kv)) es))].
Definition exEs : list (string * yaml) :=
  [("City"%string, ent ["city.Place"]%string [("attributes"%string, YDict [(SStr (lit "city.name"), ystr "x"); (SStr (lit "CITY.size"), YS Validator.SNone)])]);
   ("encloses"%string, ent ["cuba.relationship"]%string [("inverse"%string, ystr "city.isEnclosedBy"); ("default_rel"%string, YS (Validator.SBool true))]);
   ("isEnclosedBy"%string, ent ["cuba.relationship"]%string []);
   ("name"%string, ent ["cuba.attribute"]%string [("datatype"%string, ystr "STRING:20")]);
   ("size"%string, ent ["cuba.attribute"]%string []);
   ("Place"%string, ent ["cuba.Class"]%string [("description"%string, ystr "A place")])].
Definition exY : yaml := YDict (docOf exEs).
Definition exOut := run exR 20 exSt exY exS.
Lemma exSt_ok : PropNamespace.store_ok exSt.
Proof.
  split.
  - intros i q. unfold exSt. cbn [Namespace.st_prefix Namespace.st_ns assoc].
    destruct (str_eqb_spec i (lit "http://www.osp-core.com/cuba#")) as [->|]; [|done]. intros [= <-]. done.
  - intros p. unfold exSt. cbn [Namespace.st_ns assoc]. by destruct (str_eqb p (lit "cuba")).
Qed.
Lemma ex_canonical (l : list otriple) :
  forallb (fun t : otriple => match t.1.1 with IRI n => N.eqb (exNum (exText n)) n | _ => true end) l = true ->
  Canonical exR (list_to_set l).
Proof.
  intros H n p o Hin. apply elem_of_list_to_set in Hin. rewrite forallb_forall in H.
  specialize (H _ (proj1 (elem_of_list_In _ _) Hin)). cbn [fst] in H. by apply N.eqb_eq in H.
Qed.
Lemma exApart g : (forall i, (IRI (exNum i), p_reference_by_label, LIT 1) ∉ g) -> Apart exR (Namespace.st_ns exSt) g (lit "city").
Proof.
  intros Hg i Hi.
  assert (HN : forall ns j, NsIri (Namespace.st_ns exSt) ns j -> j = lit "http://www.osp-core.com/" ++ ns ++ lit "#").
  { intros ns j [H|[_ ->]]; [|done]. unfold exSt in H. cbn [Namespace.st_ns assoc] in H.
    destruct (str_eqb_spec ns (lit "cuba")) as [->|]; [|done]. injection H as <-. done. }
  assert (HE : forall ns, EndsWithHashOrSlash (lit "http://www.osp-core.com/" ++ ns ++ lit "#")).
  { intros ns. exists (lit "http://www.osp-core.com/" ++ ns). left. by rewrite <- app_assoc. }
  rewrite (HN _ _ Hi). split; [apply HE|]. split; [by intros H; apply Hg in H|].
  intros ns j Hne Hj. rewrite (HN _ _ Hj). split; [apply HE|]. split.
  - intros E. apply app_inv_head, app_inv_tail in E. done.
  - intros H. exfalso. by apply Hg in H.
Qed.
Lemma exWorld g : Canonical exR g -> (forall t, t ∈ g -> t.1.2 <> p_reference_by_label) -> World exR exSt g (lit "city").
Proof.
  intros Hc Hg. split; [apply exR_numbers|done|apply exSt_ok|]. apply exApart. intros i Hi. by apply Hg in Hi.
Qed.
Lemma exW : World exR exSt (p_graph exS) (lit "city").
Proof.
  apply exWorld.
  - apply ex_canonical. vm_compute. done.
  - intros t Ht. cbn [p_graph exS] in Ht. unfold exG in Ht. apply elem_of_list_to_set in Ht.
    repeat (apply elem_of_cons in Ht as [->|Ht]; [done|]). by apply elem_of_nil in Ht.
Qed.
Definition exEnts (es : list (string * yaml)) : list (str * fields) :=
  omap (fun kv : string * yaml => match snd kv with YDict f => Some (lit (fst kv), f) | _ => None end) es.
Lemma ex_reads es : entities (YDict (map (fun kv => (SStr (lit (fst kv)), snd kv)) es)) = Some (exEnts es) ->
  bool_decide (base.NoDup (map fst (exEnts es))) = true ->
  forallb (fun e : str * fields => bool_decide (base.NoDup (map fst (f_attributes e.2)))) (exEnts es) = true ->
  Reads (YDict (docOf es)) (docOf es) (lit "city") (list_to_map (exEnts es)).
Proof.
  intros H1 H2 H3. split; [done|]. eexists (lit "City"), _, (exEnts es). split; [done|]. split; [done|]. split; [reflexivity|].
  split; [done|]. split; [by apply bool_decide_eq_true in H2|]. split; [done|]. intros x f Hx.
  rewrite forallb_forall in H3. specialize (H3 _ (proj1 (elem_of_list_In _ _) Hx)). by apply bool_decide_eq_true in H3.
Qed.
Lemma ex_document es : Validator.validate (Validator.enough (YDict (docOf es))) (YDict (docOf es)) (Validator.PName Validator.FRoot) = Ok tt ->
  V.Document (YDict (docOf es)).
Proof. apply V.C45_validate_iff_grammar. done. Qed.
Lemma exReads : Reads exY (docOf exEs) (lit "city") (list_to_map (exEnts exEs)).
Proof. apply ex_reads; vm_compute; reflexivity. Qed.
Definition exCity (n : string) : term := IRI (exNum (lit "http://www.osp-core.com/city#" ++ lit n)).

Lemma pair_ok {A B C} (x : A * (B * res C)) c : x.2.2 = Ok c -> x = (x.1, (x.2.1, Ok c)).
Proof. destruct x as [a [b r]]. cbn. by intros ->. Qed.

(** The document is accepted, and the class City has the attributes name, with
    default "x", and size. *)
Example C50_example :
  V.Document exY /\ Reads exY (docOf exEs) (lit "city") (list_to_map (exEnts exEs)) /\
  World exR exSt (p_graph exS) (lit "city") /\ Readable exS /\
  exists st' s', exOut = (st', (s', Ok tt)) /\
    assoc (lit "city") (Namespace.st_ns st') = Some (lit "http://www.osp-core.com/city#") /\
    (exCity "City", p_type, owl_Class) ∈ p_graph s' /\
    (exCity "City", p_subClassOf, exCity "Place") ∈ p_graph s' /\
    (exCity "encloses", p_inverseOf, exCity "isEnclosedBy") ∈ p_graph s' /\
    (IRI (exNum (lit "http://www.osp-core.com/city#")), p_default_rel, exCity "encloses") ∈ p_graph s' /\
    (exCity "name", p_type, owl_FunctionalProperty) ∈ p_graph s' /\
    attributes (p_graph s') (triples (p_graph s')) (fun _ => true) [exCity "City"] =
      Ok [(exCity "name", Info (Some (LIT (exNum (lit "x")))) false None); (exCity "size", Info None true None)] /\
    p_next s' = 3.
Proof.
  split; [apply ex_document; vm_compute; reflexivity|]. split; [apply exReads|]. split; [apply exW|].
  split.
  { split.
    - split.
      + intros c r H. exfalso. cbn [p_graph exS] in H. unfold exG in H. apply elem_of_list_to_set in H.
        repeat (apply elem_of_cons in H as [H|H]; [discriminate H|]). by apply elem_of_nil in H.
      + intros n p o H. cbn [p_graph exS] in H. unfold exG in H. apply elem_of_list_to_set in H.
        repeat (apply elem_of_cons in H as [H|H]; [discriminate H|]). by apply elem_of_nil in H.
      + intros c r H. exfalso. cbn [p_graph exS] in H. unfold exG in H. apply elem_of_list_to_set in H.
        repeat (apply elem_of_cons in H as [H|H]; [discriminate H|]). by apply elem_of_nil in H.
    - intros r H. exfalso. cbn [p_graph exS] in H. unfold exG in H. apply elem_of_list_to_set in H.
      repeat (apply elem_of_cons in H as [H|H]; [discriminate H|]). by apply elem_of_nil in H.
    - intros n _ a p o H. cbn [p_graph exS] in H. unfold exG in H. apply elem_of_list_to_set in H.
      repeat (apply elem_of_cons in H as [H|H]; [by injection H as -> -> ->|]). by apply elem_of_nil in H. }
  exists exOut.1, exOut.2.1. split; [apply pair_ok; vm_compute; reflexivity|]. split; [vm_compute; reflexivity|].
  repeat (split; [apply (bool_decide_unpack _); vm_compute; exact Logic.I|]).
  split; vm_compute; reflexivity.
Qed.

(** An entity that is its own superclass: no rule but that on cycles is broken, and
    parsing does not end. *)
Definition cycEs : list (string * yaml) := [("A"%string, ent ["city.A"; "cuba.Class"]%string [])].
Definition cycD : gmap str fields := list_to_map (exEnts cycEs).
Example C50_cycle_example :
  V.Document (YDict (docOf cycEs)) /\ Reads (YDict (docOf cycEs)) (docOf cycEs) (lit "city") cycD /\
  Accepts exR (Namespace.st_ns exSt) (p_graph exS) (lit "city") cycD (docOf cycEs) /\ Cyclic (lit "city") cycD /\
  forall fuel, (run exR fuel exSt (YDict (docOf cycEs)) exS).2.2 = Err OutOfFuel.
Proof.
  assert (HD : V.Document (YDict (docOf cycEs))) by (apply ex_document; vm_compute; reflexivity).
  assert (HR : Reads (YDict (docOf cycEs)) (docOf cycEs) (lit "city") cycD) by (apply ex_reads; vm_compute; reflexivity).
  set (fA := [(SStr (lit "subclass_of"), YList (map ystr ["city.A"; "cuba.Class"]%string))] : fields).
  assert (ED : forall x f, cycD !! x = Some f <-> x = lit "A" /\ f = fA).
  { intros x f. unfold cycD. rewrite <- elem_of_list_to_map by (apply (bool_decide_unpack _); vm_compute; exact Logic.I).
    change (exEnts cycEs) with [(lit "A", fA)]. rewrite elem_of_list_singleton. split; [by intros [= -> ->]|by intros [-> ->]]. }
  assert (Href : forall w ns n, w ∈ f_supers fA -> Reference w ns n -> (ns, n) = (lit "city", lit "A") \/ (ns, n) = (lit "cuba", lit "Class")).
  { intros w ns n Hw Hr. apply split_reference in Hr. change (f_supers fA) with [lit "city.A"; lit "cuba.Class"] in Hw.
    apply elem_of_cons in Hw as [->|Hw]; [left|apply elem_of_list_singleton in Hw as ->; right];
      vm_compute in Hr; injection Hr as <- <-; reflexivity. }
  assert (Hanc : forall q, Ancestor (lit "city") cycD (lit "A") q -> q = (lit "city", lit "A") \/ q = (lit "cuba", lit "Class")).
  { intros q Hq. unfold Ancestor in Hq. apply rtc_ind_r with (P := fun q => q = (lit "city", lit "A") \/ q = (lit "cuba", lit "Class")) in Hq;
      [done|by left|]. intros y [zn zm] _ (Ey & f & w & Hf & Hw & Hr) _. apply ED in Hf as [_ ->]. cbn in Hr.
    by apply (Href w). }
  assert (HC : Cyclic (lit "city") cycD).
  { exists (lit "city", lit "A"). apply tc_once. split; [done|]. exists fA, (lit "city.A"). split; [by apply ED|].
    split; [by left|]. apply split_reference. vm_compute. reflexivity. }
  assert (Hcuba : forall ns, NsIri (Namespace.st_ns exSt) ns (lit "http://www.osp-core.com/" ++ ns ++ lit "#")).
  { intros ns. unfold NsIri, exSt. cbn [Namespace.st_ns assoc]. destruct (str_eqb_spec ns (lit "cuba")) as [->|]; [by left|by right]. }
  assert (Hnl : forall i, ~ ByLabel exR (p_graph exS) i).
  { intros i Hi. unfold ByLabel in Hi. cbn [p_graph exS] in Hi. unfold exG in Hi. apply elem_of_list_to_set in Hi.
    repeat (apply elem_of_cons in Hi as [Hi|Hi]; [discriminate Hi|]). by apply elem_of_nil in Hi. }
  assert (Hnamed : forall ns n, Named exR (Namespace.st_ns exSt) (p_graph exS) ns n ((lit "http://www.osp-core.com/" ++ ns ++ lit "#") ++ n)).
  { intros ns n. apply Named_plain; [apply Hcuba|]. intros H. by apply Hnl in H. }
  assert (R1 : Refers exR (Namespace.st_ns exSt) (p_graph exS) (lit "city") cycD (lit "city") (lit "A")
                 ((lit "http://www.osp-core.com/" ++ lit "city" ++ lit "#") ++ lit "A")).
  { left. split; [|apply Hnamed]. left. split; [done|]. exists fA. by apply ED. }
  assert (R2 : Refers exR (Namespace.st_ns exSt) (p_graph exS) (lit "city") cycD (lit "cuba") (lit "Class")
                 ((lit "http://www.osp-core.com/" ++ lit "cuba" ++ lit "#") ++ lit "Class")).
  { left. split; [|apply Hnamed]. right. split; [by vm_compute|]. eexists _, p_type, owl_Class. split; [apply Hnamed|].
    apply (bool_decide_unpack _). vm_compute. exact Logic.I. }
  assert (HT : forall t, HasType exR (Namespace.st_ns exSt) (p_graph exS) (lit "city") cycD (lit "A") t <-> t = owl_Class).
  { intros t. split.
    - intros (Ht & q & i & Hq & Hi & Hg). apply Hanc in Hq as [->| ->].
      + cbn [fst snd] in Hi. rewrite (refers_fun _ _ _ _ _ _ _ _ _ Hi R1) in Hg. exfalso.
        cbn [p_graph exS] in Hg. unfold exG in Hg. apply elem_of_list_to_set in Hg.
        repeat (apply elem_of_cons in Hg as [Hg|Hg]; [apply (f_equal (fun t : otriple => t.1.1)) in Hg; vm_compute in Hg; discriminate Hg|]).
        by apply elem_of_nil in Hg.
      + cbn [fst snd] in Hi. rewrite (refers_fun _ _ _ _ _ _ _ _ _ Hi R2) in Hg.
        cbn [p_graph exS] in Hg. unfold exG in Hg. apply elem_of_list_to_set in Hg.
        apply elem_of_cons in Hg as [Hg|Hg]; [by injection Hg as ->|]. exfalso.
        repeat (apply elem_of_cons in Hg as [Hg|Hg]; [apply (f_equal (fun t : otriple => t.1.1)) in Hg; vm_compute in Hg; discriminate Hg|]).
        by apply elem_of_nil in Hg.
    - intros ->. split; [apply class_owl|]. exists (lit "cuba", lit "Class"). eexists. split; [|split; [exact R2|]].
      + apply rtc_once. split; [done|]. exists fA, (lit "cuba.Class"). split; [by apply ED|]. split; [by right; left|].
        apply split_reference. vm_compute. reflexivity.
      + apply (bool_decide_unpack _). vm_compute. exact Logic.I. }
  assert (HA : Accepts exR (Namespace.st_ns exSt) (p_graph exS) (lit "city") cycD (docOf cycEs)).
  { split; [|split].
    - intros x f Hf. apply ED in Hf as [-> ->]. split.
      + intros q Hq. apply Hanc in Hq as [->| ->].
        * split; [by eexists|]. intros _. exists fA. by apply ED.
        * split; [by eexists|]. intros E. discriminate E.
      + exists KClass. split; [|split].
        * split; [|split]; rewrite HT; done.
        * intros key v [= -> ->]%elem_of_list_singleton. exists "subclass_of"%string. split; [|done]. by right; left.
        * intros w v Hw. by apply elem_of_nil in Hw.
    - split.
      + intros x f y f' [-> ->]%ED [-> ->]%ED _ _. done.
      + intros x f [-> ->]%ED [v Hv]. discriminate Hv.
    - intros w Hw. discriminate Hw. }
  split; [exact HD|]. split; [exact HR|]. split; [exact HA|]. split; [exact HC|].
  by apply (C50_cycle_hangs exR exSt _ exS _ _ _ HD HR exW HA HC).
Qed.

(** What a user may not expect.  A superclass of the document's own namespace must
    be written exactly, although references elsewhere may use another spelling ... *)
Example C50_spelling :
  let at_ es := (run exR 20 exSt (YDict (docOf es)) exS).2.2 in
  at_ [("PLACE"%string, ent ["cuba.Class"]%string []); ("City"%string, ent ["city.Place"]%string [])] = Err KeyError /\
  at_ [("PLACE"%string, ent ["cuba.Class"]%string []); ("City"%string, ent ["city.PLACE"]%string [])] = Ok tt /\
  at_ [("NAME"%string, ent ["cuba.attribute"]%string []);
       ("City"%string, ent ["cuba.CLASS"]%string [("attributes"%string, YDict [(SStr (lit "city.name"), YS Validator.SNone)])])] = Ok tt.
Proof. vm_compute. done. Qed.
(** ... a failed document leaves triples behind ... *)
Example C50_not_atomic :
  let r := run exR 20 exSt (YDict (docOf [("Place"%string, ent ["cuba.Class"]%string []); ("City"%string, ent ["cuba.nothing"]%string [])])) exS in
  r.2.2 = Err AttributeError /\ (exCity "Place", p_type, owl_Class) ∈ p_graph r.2.1 /\
  (exCity "City", p_prefLabel, LIT (exNum (lit "City"))) ∈ p_graph r.2.1 /\
  (forall o, (exCity "City", p_type, o) ∉ p_graph r.2.1).
Proof.
  cbv zeta. split; [vm_compute; reflexivity|]. split; [apply (bool_decide_unpack _); vm_compute; exact Logic.I|].
  split; [apply (bool_decide_unpack _); vm_compute; exact Logic.I|]. intros o H. apply elem_of_elements in H. revert H.
  set (l := elements _). vm_compute in l. subst l. intros H.
  repeat (apply elem_of_cons in H as [H|H]; [discriminate H|]). by apply elem_of_nil in H.
Qed.
(** ... "default_rel: false" counts as a default relationship ... *)
Example C50_default_false :
  (run exR 20 exSt (YDict (docOf [("r"%string, ent ["cuba.relationship"]%string [("default_rel"%string, YS (Validator.SBool true))]);
     ("q"%string, ent ["cuba.relationship"]%string [("default_rel"%string, YS (Validator.SBool false))])])) exS).2.2 = Err ValueError.
Proof. vm_compute. reflexivity. Qed.
(** ... and some datatypes of the format end in an AssertionError. *)
Example C50_datatype_assertion :
  (run exR 20 exSt (YDict (docOf [("a"%string, ent ["cuba.attribute"]%string [("datatype"%string, ystr "INT:5")])])) exS).2.2 = Err AssertionError.
Proof. vm_compute. reflexivity. Qed.

Print Assumptions C50_exact.
Print Assumptions C50_accepts.
Print Assumptions C50_ends.
Print Assumptions C50_cycle_hangs.
Print Assumptions C50_invalid.
Print Assumptions C50_binds.
Print Assumptions C50_order.
Print Assumptions C50_one_kind.
Print Assumptions C50_keeps.
Print Assumptions C51_attributes.
Print Assumptions C51_new_class.
