(** Proofs about the YAML parser (Yml.v): resolution of references is not changed
    by the parser's own triples. *)
From stdpp Require Import base list gmap countable relations.
From Coq Require Import String.
From Verif Require Import Prelude Utf8 Text Names Onto OClass Yml.
From Verif Require Validator Namespace Datatype.
Local Open Scope N_scope.
Local Open Scope list_scope.

(** ** Strings cut at the last separator *)
Definition seps : list N := [35; 47; 45].   (* # / - *)
Definition clean (s : str) : Prop := Forall (fun c => c ∉ seps) s.
(** an IRI that ends with # or / *)
Definition ends (i : str) : Prop := exists q, i = q ++ [35] \/ i = q ++ [47].
(** an IRI whose last separator is a dash *)
Definition dashed (i : str) : Prop := exists q m, i = q ++ 45 :: m /\ clean m.

Lemma last_cut (P : N -> Prop) q1 c1 m1 q2 c2 m2 :
  q1 ++ c1 :: m1 = q2 ++ c2 :: m2 -> P c1 -> P c2 ->
  Forall (fun c => ~ P c) m1 -> Forall (fun c => ~ P c) m2 -> q1 = q2 /\ c1 = c2 /\ m1 = m2.
Proof.
  revert q2. induction q1 as [|x q1 IH]; intros [|y q2] E H1 H2 M1 M2; cbn in E; injection E as -> E.
  - done.
  - exfalso. assert (c2 ∈ m1) by (rewrite E; set_solver).
    rewrite Forall_forall in M1. by apply (M1 c2).
  - exfalso. assert (c1 ∈ m2) by (rewrite <- E; set_solver).
    rewrite Forall_forall in M2. by apply (M2 c1).
  - destruct (IH q2) as (-> & -> & ->); auto.
Qed.

Lemma ends_cut i n j m : ends i -> ends j -> clean n -> clean m -> i ++ n = j ++ m -> i = j.
Proof.
  intros [q1 H1] [q2 H2] Hn Hm E.
  assert (exists c1 c2, i = q1 ++ [c1] /\ j = q2 ++ [c2] /\ c1 ∈ seps /\ c2 ∈ seps) as (c1 & c2 & -> & -> & Hc1 & Hc2).
  { destruct H1 as [->| ->], H2 as [->| ->]; eexists _, _; (split; [done|]); (split; [done|]); split; set_solver. }
  rewrite <- !app_assoc in E. cbn in E.
  destruct (last_cut (fun c => c ∈ seps) q1 c1 n q2 c2 m) as (-> & -> & _); auto.
Qed.
Lemma ends_not_dashed i n : ends i -> clean n -> dashed (i ++ n) -> False.
Proof.
  intros [q1 H1] Hn (q2 & m & E & Hm).
  assert (exists c1, i = q1 ++ [c1] /\ c1 ∈ seps /\ c1 <> 45) as (c1 & -> & Hc1 & Hne).
  { destruct H1 as [->| ->]; eexists; (split; [done|]); split; [set_solver|done|set_solver|done]. }
  rewrite <- app_assoc in E. cbn in E.
  destruct (last_cut (fun c => c ∈ seps) q1 c1 n q2 45 m) as (_ & ? & _); auto. set_solver.
Qed.
Lemma ends_not_name i n j : ends j -> clean n -> n <> [] -> i ++ n <> j.
Proof.
  intros Hj Hn Hne E. destruct (exists_last Hne) as (n' & c & ->).
  apply Forall_app in Hn as [_ Hc]. apply Forall_cons_1 in Hc as [Hc _]. apply Hc.
  destruct Hj as [q [->| ->]]; rewrite app_assoc in E; apply app_inj_tail in E as [_ ->]; set_solver.
Qed.
Lemma startswith_name i j n : ends i -> clean n -> startswith i (j ++ n) = true -> startswith i j = true.
Proof.
  intros Hi Hn H. apply startswith_iff in H as [r H]. apply startswith_iff.
  apply app_eq_app in H as (l & [[-> ->]|[-> ->]]).
  - by exists l.
  - destruct (decide (l = [])) as [->|Hl]; [exists []; by rewrite !app_nil_r|].
    exfalso. apply Forall_app in Hn as [Hn _]. by apply (ends_not_name j l (j ++ l) Hi Hn Hl).
Qed.

(** ** Alternative names have the same kind of characters *)
Lemma low1_clean c : c ∉ seps -> low1 c ∉ seps.
Proof.
  unfold low1, is_upper. destruct ((65 <=? c) && (c <=? 90)) eqn:E; [|done].
  intros _ H. unfold seps in H. rewrite !elem_of_cons, elem_of_nil in H. lia.
Qed.
Lemma up1_clean c : c ∉ seps -> up1 c ∉ seps.
Proof.
  unfold up1, is_lower. destruct ((97 <=? c) && (c <=? 122)) eqn:E; [|done].
  intros _ H. unfold seps in H. rewrite !elem_of_cons, elem_of_nil in H. lia.
Qed.
Lemma upper_clean s : clean s -> clean (upper s).
Proof. unfold clean, upper. induction 1; cbn; constructor; auto. by apply up1_clean. Qed.
Lemma us_clean : underscore ∉ seps.
Proof. unfold underscore, seps. set_solver. Qed.
Lemma snake_clean s : clean s -> clean (snake s).
Proof.
  unfold clean. induction 1 as [|c s Hc _ IH]; cbn; [constructor|].
  destruct (is_upper c); repeat constructor; auto. apply us_clean.
Qed.
Lemma unsnake_clean s u : clean s -> clean (unsnake u s).
Proof.
  unfold clean. intros H. revert u. induction H as [|c s Hc _ IH]; intros u; cbn; [constructor|].
  destruct (c =? underscore); [auto|]. constructor; [|auto].
  destruct u; [by apply up1_clean|by apply low1_clean].
Qed.
Lemma alt_clean n c n' : clean n -> alt n c = Ok (Some n') -> clean n' /\ n' <> [].
Proof.
  destruct n as [|x n]; cbn -[in_cuba]; [discriminate|].
  intros H. apply Forall_cons_1 in H as [Hx Hn].
  repeat (case_match; try discriminate); intros [= <-]; split; try done;
    try (apply Forall_cons; split); cbn;
    auto using up1_clean, low1_clean, upper_clean, snake_clean, unsnake_clean.
  all: try (apply upper_clean; auto using snake_clean).
  all: by apply unsnake_clean.
Qed.

Lemma lower_idem s : lower (lower s) = lower s.
Proof.
  unfold lower. rewrite map_map. apply map_ext. intros c. unfold low1 at 1 3, is_upper.
  destruct ((65 <=? low1 c) && (low1 c <=? 90)) eqn:E; [|done].
  unfold low1, is_upper in E |- *. destruct ((65 <=? c) && (c <=? 90)) eqn:E2; lia.
Qed.
Lemma split_name_lower w ns n : split_name w = Ok (ns, n) -> lower ns = ns.
Proof.
  unfold split_name. repeat (case_match; try discriminate). intros [= <- <-]. apply lower_idem.
Qed.

(** ** Custom datatypes *)
Definition noslash (r : str) : Prop := Forall (fun c => c <> 35 /\ c <> 47) r.
Lemma dashed_app q r : noslash r -> dashed (q ++ 45 :: r).
Proof.
  revert q. induction r as [|c r IH] using rev_ind; intros q Hr.
  { exists q, []. split; [done|constructor]. }
  apply Forall_app in Hr as [Hr Hc]. apply Forall_cons_1 in Hc as [[Hc1 Hc2] _].
  destruct (decide (c = 45)) as [->|Hc3].
  - exists (q ++ 45 :: r), []. split; [by rewrite <- app_assoc|constructor].
  - destruct (IH q Hr) as (q' & m & E & Hm). exists q', (m ++ [c]). split.
    + rewrite app_comm_cons, app_assoc, E. by rewrite <- app_assoc.
    + apply Forall_app. split; [done|]. constructor; [|constructor].
      unfold seps. rewrite !elem_of_cons, elem_of_nil. tauto.
Qed.
Lemma noslash_dec n : noslash (dec n).
Proof.
  unfold noslash. eapply Forall_impl; [apply dec_digits|]. cbn. intros c Hc. unfold is_digit in Hc. lia.
Qed.
Lemma noslash_decZ z : noslash (decZ z).
Proof.
  destruct z as [|p|p]; [apply (noslash_dec 0)|apply (noslash_dec (Npos p))|].
  apply Forall_cons. split; [done|]. apply (noslash_dec (Npos p)).
Qed.
Lemma noslash_join l : Forall noslash l -> noslash (join_with (lit "-") l).
Proof.
  induction 1 as [|w l Hw Hl IH]; [constructor|]. destruct l as [|w' l]; [done|].
  change (noslash (w ++ lit "-" ++ join_with (lit "-") (w' :: l))).
  apply Forall_app. split; [done|]. apply Forall_app. split; [|done]. by repeat constructor.
Qed.
Lemma custom_dashed w dt : Datatype.get_rdflib_datatype w = Ok (Some dt) -> custom dt = true -> dashed dt.
Proof.
  unfold Datatype.get_rdflib_datatype. destruct (Datatype.basic_of_yml w) as [c|].
  { intros [= <-] H. exfalso. by destruct c; vm_compute in H. }
  destruct (split_on 58 w) as [|a r]; [done|]. destruct (str_eqb a (lit "VECTOR")).
  { destruct (Datatype.parse_vector_args r) as [[c sh]|e]; [|done]. intros [= <-] _.
    unfold Datatype.vector_iri. set (p := Datatype.VEC_PREFIX).
    replace (p ++ Datatype.yml_name c ++ lit "-" ++ join_with (lit "-") (map decZ sh))
      with ((p ++ Datatype.yml_name c) ++ 45 :: join_with (lit "-") (map decZ sh)) by by rewrite <- app_assoc.
    apply dashed_app, noslash_join. induction sh as [|z sh IH]; cbn; constructor; [|done]. apply noslash_decZ. }
  destruct (str_eqb a (lit "STRING") && (List.length (a :: r) =? 2)%nat); [|done].
  destruct r as [|n [|? ?]]; [done| |done]. destruct (int_of_str n) as [z|e]; [|done]. intros [= <-] _.
  unfold Datatype.string_iri, Datatype.STR_PREFIX.
  change (Datatype.CUBA ++ lit "_datatypes/STRING-") with ((Datatype.CUBA ++ lit "_datatypes/STRING") ++ [45]).
  rewrite <- app_assoc. apply dashed_app, noslash_decZ.
Qed.

(** ** Rules for computations that return exactly under a condition *)
Definition runs {B} (m : M B) (s : pst) (C : Prop) (Q : pst -> B -> Prop) : Prop :=
  (C /\ exists s' y, m s = (s', Ok y) /\ Q s' y) \/ (~ C /\ exists s' e, m s = (s', Err e)).

Lemma runs_ret {B} (y : B) s (C : Prop) (Q : pst -> B -> Prop) : C -> Q s y -> runs (ret y) s C Q.
Proof. intros HC H. left. split; [done|]. by exists s, y. Qed.
Lemma runs_mbind {A B} (m : M A) (k : A -> M B) s C C' Q Q' :
  runs m s C Q -> (forall s' y, C -> Q s' y -> runs (k y) s' C' Q') ->
  runs (mbind m k) s (C /\ C') Q'.
Proof.
  intros [(HC & s1 & y & E & HQ)|(HC & s1 & e & E)] Hk.
  - destruct (Hk s1 y HC HQ) as [(HC' & s2 & z & E' & HQ')|(HC' & s2 & e & E')].
    + left. split; [done|]. exists s2, z. split; [|done]. unfold mbind. by rewrite E.
    + right. split; [tauto|]. exists s2, e. unfold mbind. by rewrite E.
  - right. split; [tauto|]. exists s1, e. unfold mbind. by rewrite E.
Qed.
Lemma runs_eq {B} (m m' : M B) s C Q : m s = m' s -> runs m s C Q -> runs m' s C Q.
Proof. intros E. unfold runs. by rewrite E. Qed.
Lemma runs_weaken {B} (m : M B) s (C C' : Prop) (Q Q' : pst -> B -> Prop) :
  runs m s C Q -> (C <-> C') -> (forall s' y, C -> Q s' y -> Q' s' y) -> runs m s C' Q'.
Proof.
  intros [(HC & s1 & y & E & HQ)|(HC & s1 & e & E)] Hc HQ'.
  - left. split; [tauto|]. exists s1, y. eauto.
  - right. split; [tauto|]. eauto.
Qed.
Lemma runs_cond {B} (m : M B) s (C C' : Prop) (Q : pst -> B -> Prop) :
  runs m s C Q -> (C <-> C') -> runs m s C' Q.
Proof. intros H Hc. eapply runs_weaken; [exact H|exact Hc|done]. Qed.
Lemma runs_post {B} (m : M B) s (C : Prop) (Q Q' : pst -> B -> Prop) :
  runs m s C Q -> (forall s' y, Q s' y -> Q' s' y) -> runs m s C Q'.
Proof. intros H HQ. eapply runs_weaken; [exact H|done|auto]. Qed.
Lemma runs_for_each {A B} (f : A -> M B) (C : A -> Prop) (P : list A -> list B -> pst -> Prop) l s :
  (forall d x r ys s, l = d ++ x :: r -> P d ys s -> runs (f x) s (C x) (fun s' y => P (d ++ [x]) (ys ++ [y]) s')) ->
  P [] [] s -> runs (for_each f l) s (forall x, x ∈ l -> C x) (fun s' ys => P l ys s').
Proof.
  intros Hstep H0.
  assert (G : forall r d ys s, l = d ++ r -> P d ys s ->
    runs (for_each f r) s (forall x, x ∈ r -> C x) (fun s' zs => P l (ys ++ zs) s')).
  { induction r as [|x r IH]; intros d ys s1 El Hs.
    - apply runs_ret; [intros x Hx; by apply elem_of_nil in Hx|]. rewrite app_nil_r in El |- *. by subst d.
    - cbn [for_each]. eapply runs_weaken.
      + eapply runs_mbind; [by eapply Hstep|]. intros s2 y _ Hs2. eapply runs_mbind.
        * apply (IH (d ++ [x]) (ys ++ [y]) s2); [by rewrite <- app_assoc|done].
        * intros s3 zs _ Hz. apply (runs_ret (y :: zs) s3 True (fun s' zs => P l (ys ++ zs) s')); [done|].
          cbv beta in Hz. by rewrite <- app_assoc in Hz.
      + split; [intros (Hx & Hr & _) z Hz; apply elem_of_cons in Hz as [->|Hz]; auto|].
        intros H. split; [apply H; set_solver|]. split; [|done]. intros z Hz. apply H. set_solver.
      + done. }
  apply (G l [] [] s); done.
Qed.

Lemma elem_rev {A} (x : A) l : x ∈ rev l <-> x ∈ l.
Proof. by rewrite !elem_of_list_In, <- in_rev. Qed.

Lemma class_owl : owl_Class ∈ owl_types.
Proof. unfold owl_types. set_solver. Qed.
Lemma object_owl : owl_ObjectProperty ∈ owl_types.
Proof. unfold owl_types. set_solver. Qed.
Lemma data_owl : owl_DatatypeProperty ∈ owl_types.
Proof. unfold owl_types. set_solver. Qed.

(** An attribute of a class, with the blank nodes of its restriction and of its
    default value *)
Record aentry := AE { ae_class : str; ae_attr : str; ae_dflt : option yaml; ae_b1 : N; ae_b2 : N }.
Definition used (e : aentry) : list N :=
  ae_b1 e :: match ae_dflt e with Some _ => [ae_b2 e] | None => [] end.
(** new blank nodes, all different *)
Definition Numbered (n : N) (m : list aentry) (n' : N) : Prop :=
  n <= n' /\ base.NoDup (mjoin (map used m)) /\ forall i, i ∈ mjoin (map used m) -> n <= i < n'.

Lemma mjoin_app' {A} (l1 l2 : list (list A)) : mjoin (l1 ++ l2) = mjoin l1 ++ mjoin l2.
Proof. induction l1 as [|x l1 IH]; [done|].
  change (x ++ mjoin (l1 ++ l2) = (x ++ mjoin l1) ++ mjoin l2). by rewrite IH, app_assoc. Qed.
Lemma numbered_nil n : Numbered n [] n.
Proof. split; [lia|]. split; [constructor|]. intros i Hi. by apply elem_of_nil in Hi. Qed.
Lemma numbered_app n m n' m' n'' : Numbered n m n' -> Numbered n' m' n'' -> Numbered n (m ++ m') n''.
Proof.
  intros (H1 & H2 & H3) (H1' & H2' & H3'). split; [lia|].
  rewrite map_app, mjoin_app'. split.
  - apply NoDup_app. split; [done|]. split; [|done]. intros i Hi Hi'.
    apply H3 in Hi. apply H3' in Hi'. lia.
  - intros i [Hi|Hi]%elem_of_app; [apply H3 in Hi; lia|apply H3' in Hi; lia].
Qed.

Section Proofs.
  Variable num : str -> N.
  Variable text : N -> str.
  Variable len : str -> N.
  Variable lval : yaml -> N.
  Variable ltrue lone : N.
  Variable pick : gset N -> N.
  Variable installed : str -> str -> bool.
  Variable b : Namespace.bindings.
  Variable own : str.
  Variable es : list (str * fields).
  Variable g0 : ograph.

  Notation I s := (IRI (num s)).
  Notation ns_iri := (ns_iri b).
  Notation labelled := (labelled text len).
  Notation candidate := (candidate num text len ltrue pick b).
  Notation is_subject := (is_subject num).
  Notation defined := (defined num text len ltrue pick b own es).
  Notation get_iri := (get_iri num text len ltrue pick b own es).
  Notation ref_iri := (ref_iri num text len ltrue pick b own es).
  Notation types_of := (types_of num).
  Notation types_loop := (types_loop num text len ltrue pick b own es).

  Hypothesis text_num : forall s, text (num s) = s.
  Hypothesis pick_ok : forall X, X <> ∅ -> pick X ∈ X.
  Hypothesis g0_text : forall n p o, (IRI n, p, o) ∈ g0 -> num (text n) = n.
  Hypothesis own_low : lower own = own.
  Hypothesis own_ne : own <> [].
  Hypothesis es_nodup : base.NoDup (map fst es).
  Hypothesis es_names : forall x f, (x, f) ∈ es -> x <> [] /\ clean x.
  (** Namespaces are kept apart by their IRIs. *)
  Hypothesis own_ends : ends (ns_iri own).
  Hypothesis apart : forall ns, ns <> own -> ends (ns_iri ns) /\ ns_iri ns <> ns_iri own.
  Hypothesis own_style : (I (ns_iri own), p_reference_by_label, LIT ltrue) ∉ g0.
  Hypothesis label_apart : forall ns, ns <> own -> (I (ns_iri ns), p_reference_by_label, LIT ltrue) ∈ g0 ->
    startswith (ns_iri ns) (ns_iri own) = false.

  Lemma num_inj s t : num s = num t -> s = t.
  Proof. intros E. by rewrite <- (text_num s), E, text_num. Qed.

  Definition ownI (x : str) : str := ns_iri own ++ x.

  (** The triples the parser may add. *)
  Definition Own (t : otriple) : Prop :=
    t.1.2 <> p_reference_by_label /\
    ((exists x f, (x, f) ∈ es /\ t.1.1 = I (ownI x)) \/
     t.1.2 <> p_prefLabel /\
     (is_bnode t.1.1 = true \/ t.1.1 = I (ns_iri own) \/ exists dt, t.1.1 = I dt /\ dashed dt)).

  Lemma assoc_elem n f : assoc n es = Some f <-> (n, f) ∈ es.
  Proof.
    clear -es_nodup. induction es as [|[k v] l IH]; cbn in *.
    { split; [done|]. intros H. by apply elem_of_nil in H. }
    apply stdpp.list.NoDup_cons in es_nodup as [Hk Hl]. rewrite elem_of_cons.
    destruct (str_eqb_spec n k) as [->|Hne].
    - split; [intros [= ->]; by left|]. intros [[= ->]|Hin]; [done|].
      exfalso. apply Hk. apply elem_of_list_In, in_map_iff. exists (k, f).
      split; [done|]. by apply elem_of_list_In.
    - rewrite IH by done. split; [by right|]. intros [[= -> ->]|Hin]; done.
  Qed.

  Section Stable.
    Variable A : gset otriple.
    Hypothesis HA : forall t, t ∈ A -> Own t.

    Lemma by_label_stable i : ((I i, p_reference_by_label, LIT ltrue) ∈ A ∪ g0) <->
                              (I i, p_reference_by_label, LIT ltrue) ∈ g0.
    Proof.
      rewrite elem_of_union. split; [|by right]. intros [H|H]; [|done].
      apply HA in H as [H _]. by cbn in H.
    Qed.
    Lemma elem_labelled g i name n : n ∈ labelled g i name <->
      (IRI n, p_prefLabel, LIT (len name)) ∈ g /\ startswith i (text n) = true.
    Proof.
      unfold labelled. rewrite elem_of_list_to_set, elem_of_list_omap. split.
      - intros ([[s p] o] & Hin & H). apply elem_of_elements in Hin.
        destruct s as [m|m|m]; try discriminate. case_decide as Hd; [|discriminate].
        injection H as ->. by destruct Hd as (-> & -> & ?).
      - intros [Hin Hs]. exists (IRI n, p_prefLabel, LIT (len name)).
        split; [by apply elem_of_elements|]. cbn. by rewrite decide_True by done.
    Qed.
    Lemma labelled_stable ns name : ns <> own ->
      (I (ns_iri ns), p_reference_by_label, LIT ltrue) ∈ g0 ->
      labelled (A ∪ g0) (ns_iri ns) name = labelled g0 (ns_iri ns) name.
    Proof.
      intros Hne Hst. apply set_eq. intros n. rewrite !elem_labelled, elem_of_union.
      split; [|intros [? ?]; split; [by right|done]]. intros [[Hin|Hin] Hs]; [|done]. exfalso.
      apply HA in Hin as [_ [(x & f & Hx & E)|[Hp _]]]; cbn in *; [|done].
      injection E as ->. rewrite text_num in Hs. unfold ownI in Hs.
      apply startswith_name in Hs; [|by apply apart|by eapply es_names].
      by rewrite (label_apart ns) in Hs.
    Qed.

    Lemma own_candidate g name : (I (ns_iri own), p_reference_by_label, LIT ltrue) ∉ g ->
      candidate g own name = ownI name.
    Proof. intros H. unfold Yml.candidate. by rewrite decide_False by done. Qed.

    Lemma candidate_stable ns name : candidate (A ∪ g0) ns name = candidate g0 ns name.
    Proof.
      destruct (decide (ns = own)) as [->|Hne].
      { rewrite !own_candidate; [done|done|]. by rewrite by_label_stable. }
      unfold Yml.candidate. destruct (decide ((I (ns_iri ns), p_reference_by_label, LIT ltrue) ∈ g0)) as [H|H].
      - rewrite decide_True by by apply by_label_stable. by rewrite labelled_stable.
      - rewrite decide_False; [done|]. by rewrite by_label_stable.
    Qed.

    Lemma is_subject_iff g i : is_subject g i = true <-> exists p o, (I i, p, o) ∈ g.
    Proof.
      unfold Yml.is_subject. rewrite existsb_exists. split.
      - intros ([[s p] o] & Hin & H). apply bool_decide_eq_true in H. cbn in H. subst.
        exists p, o. apply elem_of_elements. by apply elem_of_list_In.
      - intros (p & o & H). exists (I i, p, o). split; [|by apply bool_decide_eq_true].
        by apply elem_of_list_In, elem_of_elements.
    Qed.

    Lemma foreign_not_own ns name : ns <> own -> name <> [] -> clean name ->
      forall p o, (I (ns_iri ns ++ name), p, o) ∉ A.
    Proof.
      intros Hns Hne Hcl p o Hin. destruct (apart ns Hns) as [He Hd].
      apply HA in Hin as [_ [(x & f & Hx & E)|[_ [E|[E|(dt & E & Hdt)]]]]]; cbn in *.
      - injection E as E. apply num_inj in E. apply Hd. destruct (es_names x f Hx) as [_ Hcx].
        by apply (ends_cut (ns_iri ns) name (ns_iri own) x).
      - done.
      - injection E as E. apply num_inj in E. by apply (ends_not_name (ns_iri ns) name (ns_iri own)).
      - injection E as E. apply num_inj in E. subst dt. by apply (ends_not_dashed (ns_iri ns) name).
    Qed.

    Lemma defined_stable ns name : name <> [] -> clean name ->
      defined (A ∪ g0) ns name = defined g0 ns name.
    Proof.
      intros Hne Hcl. unfold Yml.defined. rewrite candidate_stable.
      destruct (str_eqb_spec ns own) as [->|Hns]; [done|].
      apply eq_bool_prop_intro. rewrite !Is_true_true, !is_subject_iff. split.
      - intros (p & o & H). apply elem_of_union in H as [H|H]; [|eauto].
        unfold Yml.candidate in *. destruct (decide ((I (ns_iri ns), p_reference_by_label, LIT ltrue) ∈ g0)).
        2:{ exfalso. by eapply foreign_not_own. }
        destruct (decide (labelled g0 (ns_iri ns) name = ∅)) as [He|He].
        { exfalso. by eapply foreign_not_own. }
        apply pick_ok, elem_labelled in He as [Hin Hs].
        exists p_prefLabel, (LIT (len name)). by rewrite (g0_text _ _ _ Hin).
      - intros (p & o & H). exists p, o. apply elem_of_union. by right.
    Qed.
  End Stable.

  (** The graph after some triples were added. *)
  Definition Ext (g : ograph) : Prop := g0 ⊆ g /\ forall t, t ∈ g -> t ∈ g0 \/ Own t.

  Lemma ext_split g : Ext g -> exists A, g = A ∪ g0 /\ forall t, t ∈ A -> Own t.
  Proof.
    intros [H1 H2]. exists (g ∖ g0). split.
    - apply set_eq. intros t. rewrite elem_of_union, elem_of_difference.
      destruct (decide (t ∈ g0)); [|tauto]. split; [by right|]. intros _. by apply H1.
    - intros t Ht. apply elem_of_difference in Ht as [Ht Hn]. apply H2 in Ht. tauto.
  Qed.

  Lemma defined_ext g ns n : Ext g -> n <> [] -> clean n -> defined g ns n = defined g0 ns n.
  Proof. intros (A & -> & HA)%ext_split Hn Hc. by apply defined_stable. Qed.
  Lemma candidate_ext g ns n : Ext g -> candidate g ns n = candidate g0 ns n.
  Proof. intros (A & -> & HA)%ext_split. by apply candidate_stable. Qed.
  Lemma get_iri_ext g ns n : Ext g -> clean n -> get_iri g ns n = get_iri g0 ns n.
  Proof.
    intros Hg Hc. unfold Yml.get_iri. destruct n as [|c n]; [done|].
    set (ns' := lower _). rewrite (defined_ext g) by done. rewrite (candidate_ext g) by done.
    destruct (defined g0 ns' (c :: n)); [done|].
    destruct (alt (c :: n) (str_eqb ns' (lit "cuba"))) as [[n'|]|e] eqn:Ea; [|done|done].
    destruct (alt_clean _ _ _ Hc Ea) as [Hc' Hne']. by rewrite (defined_ext g), (candidate_ext g) by done.
  Qed.
  Lemma get_own g x f : Ext g -> (x, f) ∈ es -> get_iri g own x = Ok (ownI x).
  Proof.
    intros Hg Hx. destruct (es_names x f Hx) as [Hne Hc]. rewrite get_iri_ext by done.
    unfold Yml.get_iri. destruct x as [|c x]; [done|]. destruct own as [|o0 o] eqn:Eo; [done|].
    rewrite own_low. unfold Yml.defined at 1. rewrite str_eqb_refl.
    rewrite (proj2 (assoc_elem (c :: x) f)) by done. rewrite bool_decide_true by by exists f.
    rewrite <- Eo in *. by rewrite own_candidate.
  Qed.
  (** only references to this namespace lead to its entities *)
  Lemma get_iri_foreign ns n x f : lower ns = ns -> ns <> [] -> ns <> own -> clean n -> (x, f) ∈ es ->
    get_iri g0 ns n <> Ok (ownI x).
  Proof.
    intros Hl Hnn Hns Hc Hx E. destruct (es_names x f Hx) as [Hne Hcx].
    destruct (apart ns Hns) as [He Hd].
    assert (K : forall m, clean m -> candidate g0 ns m <> ownI x).
    { intros m Hm Ec. unfold Yml.candidate in Ec. case_decide as Hst; [case_decide as Hem|].
      - apply Hd. by apply (ends_cut _ m _ x).
      - apply pick_ok, elem_labelled in Hem as [_ Hs]. rewrite Ec in Hs.
        apply startswith_name in Hs; [|done|done]. by rewrite (label_apart ns) in Hs.
      - apply Hd. by apply (ends_cut _ m _ x). }
    unfold Yml.get_iri in E. destruct ns as [|c0 ns0] eqn:En; [done|]. rewrite <- En in *.
    rewrite Hl in E. destruct n as [|c n].
    { injection E as E. unfold ownI in E. by apply (ends_not_name (ns_iri own) x (ns_iri ns)). }
    destruct (defined g0 ns (c :: n)); [injection E as E; by apply (K (c :: n))|].
    destruct (alt (c :: n) (str_eqb ns (lit "cuba"))) as [[n'|]|e] eqn:Ea; [|done|done].
    destruct (alt_clean _ _ _ Hc Ea) as [Hc' Hne'].
    destruct (defined g0 ns n'); [injection E as E; by apply (K n')|done].
  Qed.

  (** ** The references reachable from an entity through superclasses *)
  Definition node := (str * str)%type.
  Definition E (q q' : node) : Prop :=
    q.1 = own /\ exists f w, (q.2, f) ∈ es /\ w ∈ f_supers f /\ split_name w = Ok q'.
  Definition wf_node (q : node) : Prop := lower q.1 = q.1 /\ q.1 <> [] /\ q.2 <> [] /\ clean q.2.

  Hypothesis es_supers : forall x f w, (x, f) ∈ es -> w ∈ f_supers f ->
    exists q, split_name w = Ok q /\ wf_node q.

  Lemma E_wf q q' : E q q' -> wf_node q'.
  Proof.
    intros (_ & f & w & Hf & Hw & Hq). destruct (es_supers _ _ _ Hf Hw) as (q2 & E2 & H2).
    congruence.
  Qed.
  Lemma rtc_E_wf q q' : wf_node q -> rtc E q q' -> wf_node q'.
  Proof. intros Hq. induction 1 as [|q q1 q' Hs _ IH]; [done|]. apply IH. by eapply E_wf. Qed.
  Lemma own_wf x f : (x, f) ∈ es -> wf_node (own, x).
  Proof. intros H. destruct (es_names x f H). done. Qed.

  Definition gi (q : node) : res str := get_iri g0 q.1 q.2.
  Definition node_ok (q : node) : Prop := (exists j, gi q = Ok j) /\ (q.1 = own -> exists f, (q.2, f) ∈ es).

  Lemma mapM_split ws qs : Prelude.mapM split_name ws = Ok qs <-> Forall2 (fun w q => split_name w = Ok q) ws qs.
  Proof.
    revert qs. induction ws as [|w ws IH]; intros qs; cbn [Prelude.mapM].
    { split; [intros [= <-]; constructor|]. by inversion 1. }
    destruct (split_name w) as [q|e] eqn:Ew.
    2:{ split; [done|]. inversion 1; congruence. }
    destruct (Prelude.mapM split_name ws) as [qs'|e] eqn:Em.
    - split; [intros [= <-]; constructor; [done|]; by apply IH|].
      inversion 1 as [|? ? ? qs2 Hq Hr]; subst. apply IH in Hr. congruence.
    - split; [done|]. inversion 1 as [|? ? ? qs2 Hq Hr]; subst. apply IH in Hr. congruence.
  Qed.
  Lemma supers_split x f : (x, f) ∈ es -> exists qs, Prelude.mapM split_name (f_supers f) = Ok qs /\
    forall q, q ∈ qs <-> E (own, x) q.
  Proof.
    intros Hx. assert (exists qs, Prelude.mapM split_name (f_supers f) = Ok qs) as (qs & Hqs).
    { assert (Hall : forall w, w ∈ f_supers f -> exists q, split_name w = Ok q).
      { intros w Hw. destruct (es_supers x f w Hx Hw) as (q & ? & _). eauto. }
      clear -Hall. induction (f_supers f) as [|w ws IH]; [by exists []|].
      destruct (Hall w) as [q Hq]; [set_solver|]. destruct IH as [qs Hqs].
      { intros w' Hw'. apply Hall. set_solver. }
      exists (q :: qs). cbn. by rewrite Hq, Hqs. }
    exists qs. split; [done|]. apply mapM_split in Hqs. intros q. split.
    - intros Hq. apply elem_of_list_lookup in Hq as [i Hi].
      destruct (Forall2_lookup_r _ _ _ _ _ Hqs Hi) as (w & Hw & Es).
      split; [done|]. exists f, w. split; [done|]. split; [by eapply elem_of_list_lookup_2|done].
    - intros (_ & f' & w & Hf' & Hw & Es). cbn in Hf'.
      assert (f' = f) as -> by (apply assoc_elem in Hf', Hx; congruence).
      apply elem_of_list_lookup in Hw as [i Hi].
      destruct (Forall2_lookup_l _ _ _ _ _ Hqs Hi) as (q2 & Hq2 & Es2).
      assert (q2 = q) as -> by congruence. by eapply elem_of_list_lookup_2.
  Qed.

  Lemma ext_g0 : Ext g0.
  Proof. split; [done|]. by left. Qed.
  Lemma gi_ext g q : Ext g -> wf_node q -> get_iri g q.1 q.2 = gi q.
  Proof. intros Hg (_ & _ & _ & Hc). by apply get_iri_ext. Qed.

  Lemma rtc_E_foreign q q' : q.1 <> own -> rtc E q q' -> q' = q.
  Proof. intros Hq H. inversion H as [|? q1 ? [Ho _] ?]; [done|]. congruence. Qed.

  (** What a finished loop computed *)
  Lemma types_loop_sound fuel g queue T T' : Ext g -> Forall wf_node queue ->
    types_loop fuel g queue T = Ok T' ->
    (forall t, t ∈ T' <-> t ∈ T \/ exists q q' j, q ∈ queue /\ rtc E q q' /\ gi q' = Ok j /\ t ∈ types_of g j) /\
    (forall q, q ∈ queue -> Acc (fun a b => E b a) q /\ forall q', rtc E q q' -> node_ok q').
  Proof.
    intros Hg. revert queue T. induction fuel as [|fuel IH]; intros [|[ns n] queue] T Hwf H.
    1,3: injection H as ->; (split; [|intros q Hq; by apply elem_of_nil in Hq]);
      intros t; (split; [by left|]); intros [?|(q & _ & _ & Hq & _)]; [done|by apply elem_of_nil in Hq].
    { discriminate. }
    apply Forall_cons_1 in Hwf as [Hq Hwf]. cbn [Yml.types_loop] in H.
    pose proof (gi_ext g (ns, n) Hg Hq) as Egi. cbn in Egi. rewrite Egi in H. clear Egi.
    destruct (gi (ns, n)) as [i|e] eqn:Ei; [|discriminate].
    destruct (str_eqb_spec ns own) as [->|Hns].
    - destruct (assoc n es) as [f|] eqn:Ef; [|discriminate]. apply assoc_elem in Ef.
      destruct (supers_split n f Ef) as (qs & Eqs & Hqs). rewrite Eqs in H.
      apply IH in H as [H1 H2].
      2:{ apply Forall_app. split; [|done]. apply stdpp.list.Forall_forall. intros q Hin.
          apply (E_wf (own, n)), Hqs. by apply elem_rev. }
      assert (Hrev : forall q, q ∈ rev qs ++ queue <-> E (own, n) q \/ q ∈ queue).
      { intros q. by rewrite elem_of_app, <- Hqs, elem_rev. }
      split.
      + intros t. rewrite H1, elem_of_union. split.
        * intros [[?|Ht]|(q & q' & j & Hin & Hr & Hj & Ht)]; [by left| |].
          -- right. exists (own, n), (own, n), i. split; [by left|]. split; [apply rtc_refl|]. done.
          -- right. apply Hrev in Hin as [He|Hin].
             ++ exists (own, n), q', j. split; [by left|]. split; [by eapply rtc_l|done].
             ++ exists q, q', j. split; [by right|done].
        * intros [?|(q & q' & j & Hin & Hr & Hj & Ht)]; [by left; left|].
          apply elem_of_cons in Hin as [->|Hin].
          -- inversion Hr as [|? q1 ? He Hr']; subst.
             ++ left. right. by replace i with j by congruence.
             ++ right. exists q1, q', j. split; [apply Hrev; by left|done].
          -- right. exists q, q', j. split; [apply Hrev; by right|done].
      + intros q Hin. apply elem_of_cons in Hin as [->|Hin]; [|apply H2, Hrev; by right].
        split.
        * constructor. intros q1 He. apply H2, Hrev. by left.
        * intros q' Hr. inversion Hr as [|? q1 ? He Hr']; subst.
          -- split; [eauto|]. intros _. by exists f.
          -- apply (H2 q1); [apply Hrev; by left|done].
    - apply IH in H as [H1 H2]; [|done]. split.
      + intros t. rewrite H1, elem_of_union. split.
        * intros [[?|Ht]|(q & q' & j & Hin & Hr & Hj & Ht)]; [by left| |].
          -- right. exists (ns, n), (ns, n), i. split; [by left|]. split; [apply rtc_refl|]. done.
          -- right. exists q, q', j. split; [by right|done].
        * intros [?|(q & q' & j & Hin & Hr & Hj & Ht)]; [by left; left|].
          apply elem_of_cons in Hin as [->|Hin].
          -- apply rtc_E_foreign in Hr as ->; [|done]. left. right. by replace i with j by congruence.
          -- right. by exists q, q', j.
      + intros q Hin. apply elem_of_cons in Hin as [->|Hin]; [|by apply H2]. split.
        * constructor. intros q1 [Ho _]. done.
        * intros q' Hr. apply rtc_E_foreign in Hr as ->; [|done]. split; [eauto|]. intros Ho. done.
  Qed.

  (** whether and when it finishes does not depend on the added triples *)
  Lemma types_loop_ext fuel g queue T T2 : Ext g -> Forall wf_node queue ->
    (exists T', types_loop fuel g queue T = Ok T') <-> (exists T', types_loop fuel g0 queue T2 = Ok T').
  Proof.
    intros Hg. revert queue T T2. induction fuel as [|fuel IH]; intros [|[ns n] queue] T T2 Hwf;
      cbn [Yml.types_loop]; [split; eauto|split; by intros [? ?]|split; eauto|].
    apply Forall_cons_1 in Hwf as [Hq Hwf].
    pose proof (gi_ext g (ns, n) Hg Hq) as Egi. cbn in Egi. rewrite Egi. clear Egi. unfold gi. cbn.
    destruct (get_iri g0 ns n) as [i|e] eqn:Ei; [|split; by intros [? ?]].
    destruct (str_eqb_spec ns own) as [->|Hns]; [|by apply IH].
    destruct (assoc n es) as [f|] eqn:Ef; [|split; by intros [? ?]]. apply assoc_elem in Ef.
    destruct (supers_split n f Ef) as (qs & Eqs & Hqs). rewrite Eqs. apply IH.
    apply Forall_app. split; [|done]. apply stdpp.list.Forall_forall. intros q Hin.
    apply (E_wf (own, n)), Hqs. by apply elem_rev.
  Qed.

  (** an acyclic hierarchy is worked off in finitely many steps *)
  Lemma types_loop_complete q : Acc (fun a b => E b a) q -> wf_node q ->
    (forall q', rtc E q q' -> node_ok q') ->
    exists k, forall fuel g rest T, Ext g -> exists T', types_loop (k + fuel) g (q :: rest) T = types_loop fuel g rest T'.
  Proof.
    induction 1 as [q _ IH]. intros Hwf Hok. destruct q as [ns n].
    destruct (Hok (ns, n) (rtc_refl _ _)) as [(i & Hi) Ho]. cbn in Ho.
    destruct (decide (ns = own)) as [->|Hns].
    - destruct (Ho eq_refl) as [f Hf]. destruct (supers_split n f Hf) as (qs & Eqs & Hqs).
      assert (K : exists k, forall fuel g rest T, Ext g ->
        exists T', types_loop (k + fuel) g (rev qs ++ rest) T = types_loop fuel g rest T').
      { assert (Hall : forall q, q ∈ rev qs -> E (own, n) q).
        { intros q Hq. apply Hqs. by apply elem_rev. }
        clear Eqs Hqs. induction (rev qs) as [|q l IHl].
        { exists 0%nat. intros fuel g rest T _. by exists T. }
        destruct IHl as [k2 H2]; [intros q' Hq'; apply Hall; by right|].
        assert (He : E (own, n) q) by (apply Hall; by left).
        destruct (IH q He) as [k1 H1].
        { by eapply E_wf. }
        { intros q' Hr. apply Hok. by eapply rtc_l. }
        exists (k1 + k2)%nat. intros fuel g rest T Hg.
        destruct (H1 (k2 + fuel)%nat g (l ++ rest) T Hg) as [T1 E1].
        destruct (H2 fuel g rest T1 Hg) as [T2 E2]. exists T2.
        rewrite <- E2, <- E1. cbn [app]. f_equal. lia. }
      destruct K as [k Hk]. exists (S k). intros fuel g rest T Hg.
      destruct (Hk fuel g rest (T ∪ types_of g i) Hg) as [T' HT']. exists T'. rewrite <- HT'.
      cbn [Nat.add Yml.types_loop].
      pose proof (gi_ext g (own, n) Hg Hwf) as Egi. cbn in Egi. rewrite Egi, Hi. clear Egi.
      rewrite str_eqb_refl, (proj2 (assoc_elem n f) Hf), Eqs. done.
    - exists 1%nat. intros fuel g rest T Hg. exists (T ∪ types_of g i). cbn [Nat.add Yml.types_loop].
      pose proof (gi_ext g (ns, n) Hg Hwf) as Egi. cbn in Egi. rewrite Egi, Hi. clear Egi.
      by destruct (str_eqb_spec ns own).
  Qed.

  (** without acyclicity there is no result *)
  Lemma types_loop_cases fuel g queue T : Ext g -> Forall wf_node queue ->
    (forall q q', q ∈ queue -> rtc E q q' -> node_ok q') ->
    (exists T', types_loop fuel g queue T = Ok T') \/ types_loop fuel g queue T = Err OutOfFuel.
  Proof.
    intros Hg. revert queue T. induction fuel as [|fuel IH]; intros [|[ns n] queue] T Hwf Hok;
      cbn [Yml.types_loop]; [eauto|eauto|eauto|].
    apply Forall_cons_1 in Hwf as [Hq Hwf].
    destruct (Hok (ns, n) (ns, n)) as [[i Hi] Ho]; [by left|apply rtc_refl|].
    pose proof (gi_ext g (ns, n) Hg Hq) as Egi. cbn in Egi. rewrite Egi, Hi. clear Egi. cbn in Ho.
    destruct (str_eqb_spec ns own) as [->|Hns].
    - destruct (Ho eq_refl) as [f Hf]. rewrite (proj2 (assoc_elem n f) Hf).
      destruct (supers_split n f Hf) as (qs & -> & Hqs). apply IH.
      + apply Forall_app. split; [|done]. apply stdpp.list.Forall_forall. intros q Hin.
        apply (E_wf (own, n)), Hqs. by apply elem_rev.
      + intros q q' Hin Hr. apply elem_of_app in Hin as [Hin|Hin].
        * apply (Hok (own, n) q'); [by left|]. eapply rtc_l; [|done]. apply Hqs. by apply elem_rev.
        * apply (Hok q q'); [by right|done].
    - apply IH; [done|]. intros q q' Hin Hr. apply (Hok q q'); [by right|done].
  Qed.

  (** ** Types of an entity *)
  Definition T0 (x : str) (t : term) : Prop :=
    exists q j, rtc E (own, x) q /\ gi q = Ok j /\ t ∈ types_of g0 j.
  Definition RefTo (w j : str) : Prop := ref_iri g0 w = Ok j.

  Lemma elem_types_of g j t : t ∈ types_of g j <-> t ∈ owl_types /\ (I j, p_type, t) ∈ g.
  Proof. unfold Yml.types_of. rewrite elem_of_filter. tauto. Qed.

  Lemma app_inj_own x y : ownI x = ownI y -> x = y.
  Proof. unfold ownI. apply app_inv_head. Qed.

  (** A state of the parser: the triples [S] were added. *)
  Definition Inv (S : otriple -> Prop) (n : N) (s : pst) : Prop :=
    (forall t, t ∈ p_graph s <-> t ∈ g0 \/ S t) /\ (forall t, S t -> Own t) /\ p_next s = n.
  Lemma inv_ext S n s : Inv S n s -> Ext (p_graph s).
  Proof.
    intros (H1 & H2 & _). split; [intros t Ht; apply H1; by left|].
    intros t Ht. apply H1 in Ht as [?|?]; [by left|right; auto].
  Qed.
  Lemma inv_equiv S S' n s : Inv S n s -> (forall t, S t <-> S' t) -> Inv S' n s.
  Proof.
    intros (H1 & H2 & H3) H. split; [intros t; by rewrite H1, H|]. split; [intros t Ht; by apply H2, H|done].
  Qed.
  (** only types that are due were added *)
  Definition Typed (S : otriple -> Prop) : Prop :=
    forall i c, c ∈ owl_types -> S (i, p_type, c) -> exists y f, (y, f) ∈ es /\ i = I (ownI y) /\ T0 y c.

  Lemma loop_types fuel S n s x f T' : Inv S n s -> Typed S -> (x, f) ∈ es ->
    types_loop fuel (p_graph s) [(own, x)] ∅ = Ok T' -> forall t, t ∈ T' <-> T0 x t.
  Proof.
    intros HI HT Hx HL t. pose proof (inv_ext _ _ _ HI) as Hg.
    apply types_loop_sound in HL as [H1 H2]; [|done|constructor; [by eapply own_wf|constructor]].
    rewrite H1. split.
    - intros [Ht|(q & q' & j & Hq & Hr & Hj & Ht)]; [by apply elem_of_empty in Ht|].
      apply elem_of_list_singleton in Hq as ->. apply elem_types_of in Ht as [Ht4 Ht].
      apply HI in Ht as [Ht|Ht].
      { exists q', j. split; [done|]. split; [done|]. by apply elem_types_of. }
      apply HT in Ht as (y & fy & Hy & Ej & H0); [|done]. injection Ej as Ej. apply num_inj in Ej. subst j.
      assert (q' = (own, y)) as ->.
      { destruct q' as [ns m].
        assert (wf_node (ns, m)) as (Hl & Hn & Hm & Hc) by (eapply rtc_E_wf; [|done]; by eapply own_wf).
        destruct (decide (ns = own)) as [->|Hns].
        - destruct (H2 (own, x)) as [_ H3]; [by left|]. destruct (H3 _ Hr) as [_ Ho]. destruct (Ho eq_refl) as [fm Hfm].
          unfold gi in Hj. cbn in Hj, Hfm. rewrite (get_own g0 m fm) in Hj; [|apply ext_g0|done].
          injection Hj as Hj. apply app_inj_own in Hj. by subst.
        - exfalso. by eapply (get_iri_foreign ns m y fy). }
      destruct H0 as (q2 & j2 & Hr2 & Hj2 & Ht2). exists q2, j2. split; [by etrans|done].
    - intros (q & j & Hr & Hj & Ht). right. exists (own, x), q, j. split; [by left|]. split; [done|]. split; [done|].
      apply elem_types_of in Ht as [? Ht]. apply elem_types_of. split; [done|]. apply HI. by left.
  Qed.

  (** ** One step at a time *)
  Notation load_entity := (load_entity num text len ltrue pick b own es).
  Notation validate_entity := (validate_entity num text len ltrue pick b own es).
  Notation add_type_triple := (add_type_triple num text len ltrue pick b own es).
  Notation add_superclass := (add_superclass num text len ltrue pick b own es).
  Notation own_iri := (own_iri num text len ltrue pick b own es).

  Lemma runs_add S n s t : Inv S n s -> Own t ->
    runs (add t) s True (fun s' _ => Inv (fun u => S u \/ u = t) n s').
  Proof.
    intros (H1 & H2 & H3) Ht. left. split; [done|]. eexists _, tt. split; [reflexivity|]. split; [|split].
    - intros u. cbn. rewrite elem_of_union, elem_of_singleton, H1. tauto.
    - intros u [Hu| ->]; auto.
    - done.
  Qed.
  Lemma runs_add_all S n s ts : Inv S n s -> (forall t, t ∈ ts -> Own t) ->
    runs (add_all ts) s True (fun s' _ => Inv (fun u => S u \/ u ∈ ts) n s').
  Proof.
    intros (H1 & H2 & H3) Ht. left. split; [done|]. eexists _, tt. split; [reflexivity|]. split; [|split].
    - intros u. cbn. rewrite elem_of_union, H1. tauto.
    - intros u [Hu|Hu]; auto.
    - done.
  Qed.
  Lemma runs_own S n s x f : Inv S n s -> (x, f) ∈ es ->
    runs (lift (fun g => own_iri g x)) s True (fun s' i => s' = s /\ i = ownI x).
  Proof.
    intros HI Hx. left. split; [done|]. exists s, (ownI x). split; [|done].
    unfold lift, Yml.own_iri. by rewrite (get_own (p_graph s) x f) by (done || by eapply inv_ext).
  Qed.
  Definition wf_ref (w : str) : Prop := exists q, split_name w = Ok q /\ wf_node q.
  Lemma ref_ext g w : Ext g -> wf_ref w -> ref_iri g w = ref_iri g0 w.
  Proof.
    intros Hg ([ns n] & Hq & _ & _ & _ & Hc). unfold Yml.ref_iri. rewrite Hq. by apply get_iri_ext.
  Qed.
  Lemma runs_ref S n s w : Inv S n s -> wf_ref w ->
    runs (lift (fun g => ref_iri g w)) s (exists j, RefTo w j) (fun s' j => s' = s /\ RefTo w j).
  Proof.
    intros HI Hw. unfold runs, lift, RefTo. cbv beta. rewrite (ref_ext _ w (inv_ext _ _ _ HI) Hw).
    destruct (ref_iri g0 w) as [j|e] eqn:Ej.
    - left. split; [eauto|]. exists s, j. done.
    - right. split; [by intros [j ?]|]. exists s, e. done.
  Qed.
  Lemma own_triple x f p o : (x, f) ∈ es -> p <> p_reference_by_label -> Own (I (ownI x), p, o).
  Proof. intros Hx Hp. split; [done|]. left. by exists x, f. Qed.

  Definition Loops (fuel : nat) (x : str) : Prop := exists T', types_loop fuel g0 [(own, x)] ∅ = Ok T'.

  Lemma runs_types fuel S n s x f : Inv S n s -> Typed S -> (x, f) ∈ es ->
    runs (add_type_triple fuel x (ownI x)) s (Loops fuel x /\ exists t, T0 x t)
      (fun s' _ => Inv (fun u => S u \/ exists t, T0 x t /\ u = (I (ownI x), p_type, t)) n s').
  Proof.
    intros HI HT Hx. unfold Yml.add_type_triple.
    assert (Hwf : Forall wf_node [(own, x)]) by (constructor; [by eapply own_wf|constructor]).
    pose proof (types_loop_ext fuel (p_graph s) [(own, x)] ∅ ∅ (inv_ext _ _ _ HI) Hwf) as Hext.
    unfold runs, mbind, lift. cbv beta. destruct (types_loop fuel (p_graph s) [(own, x)] ∅) as [T'|e] eqn:EL.
    - assert (HL : Loops fuel x) by (apply Hext; eauto).
      pose proof (loop_types _ _ _ _ _ _ _ HI HT Hx EL) as Ht.
      case_decide as Hd.
      + right. split; [|by eexists _, _]. intros [_ [t Ht0]]. apply Ht in Ht0. subst. by apply elem_of_empty in Ht0.
      + destruct (runs_add_all S n s (set_map (fun t => (I (ownI x), p_type, t)) T') HI) as [(_ & s' & y & E1 & HQ)|[Hn _]].
        * intros t Hin. apply elem_of_map in Hin as (c & -> & _). by eapply own_triple.
        * left. split; [split; [done|]|].
          { apply set_choose_L in Hd as [t Hin]. exists t. by apply Ht. }
          exists s', y. split; [done|]. eapply inv_equiv; [done|]. intros u. cbn.
          rewrite elem_of_map. split; (intros [?|(t & H1 & H2)]; [by left|right; exists t]).
          -- split; [by apply Ht|done].
          -- split; [done|by apply Ht].
        * by exfalso.
    - right. split; [|by eexists _, _]. intros [HL _]. apply Hext in HL as [? ?]. done.
  Qed.

  Definition superp (x : str) (p : N) : Prop :=
    (T0 x owl_Class /\ p = p_subClassOf) \/ (~ T0 x owl_Class /\ p = p_subPropertyOf).

  (** the graph knows the types of an entity once they were added *)
  Definition Has_types (S : otriple -> Prop) (x : str) : Prop := forall t, T0 x t -> S (I (ownI x), p_type, t).
  Lemma T0_owl x t : T0 x t -> t ∈ owl_types.
  Proof. intros (q & j & _ & _ & H). by apply elem_types_of in H as [? _]. Qed.
  Lemma T0_self x f t : (x, f) ∈ es -> t ∈ owl_types -> (I (ownI x), p_type, t) ∈ g0 -> T0 x t.
  Proof.
    intros Hx Ht Hg. exists (own, x), (ownI x). split; [apply rtc_refl|]. split.
    - unfold gi. cbn. apply (get_own g0 x f ext_g0 Hx).
    - by apply elem_types_of.
  Qed.
  Lemma known_types S n s x f t : Inv S n s -> Typed S -> Has_types S x -> (x, f) ∈ es -> t ∈ owl_types ->
    (I (ownI x), p_type, t) ∈ p_graph s <-> T0 x t.
  Proof.
    intros HI HT HH Hx Ht. destruct HI as (H1 & _). rewrite H1. split.
    - intros [Hg|HS]; [by eapply T0_self|]. apply HT in HS as (y & fy & Hy & E1 & H0); [|done].
      injection E1 as E1. apply num_inj, app_inj_own in E1. by subst.
    - intros H. right. auto.
  Qed.

  Lemma runs_super S n s x f w : Inv S n s -> Typed S -> Has_types S x -> (x, f) ∈ es -> wf_ref w ->
    runs (add_superclass (ownI x) w) s (exists j, RefTo w j)
      (fun s' _ => Inv (fun u => S u \/ exists p j, superp x p /\ RefTo w j /\ u = (I (ownI x), p, I j)) n s').
  Proof.
    intros HI HT HH Hx Hw. unfold Yml.add_superclass.
    eapply runs_weaken; [eapply runs_mbind; [by eapply runs_ref|]| |].
    2:{ split; [by intros [? _]|]. intros H. split; [done|exact Logic.I]. }
    2:{ intros s' y _ HQ. exact HQ. }
    cbn. intros s' j _ [-> Hj].
    set (p := if decide ((I (ownI x), p_type, owl_Class) ∈ p_graph s) then p_subClassOf else p_subPropertyOf).
    assert (Hp : superp x p).
    { unfold superp, p. pose proof (known_types S n s x f owl_Class HI HT HH Hx class_owl) as K.
      destruct (decide _) as [Hc|Hc]; [left|right]; (split; [|reflexivity]); [by apply K|by rewrite <- K]. }
    apply (runs_eq (add (I (ownI x), p, I j))); [reflexivity|].
    eapply runs_weaken; [eapply runs_add; [exact HI|]|exact (iff_refl True)|].
    - eapply own_triple; [done|]. unfold superp in Hp. destruct Hp as [[_ ->]|[_ ->]]; done.
    - cbn. intros s' _ _ HI'. eapply inv_equiv; [done|]. intros u. cbn. split.
      + intros [?| ->]; [by left|]. right. by exists p, j.
      + intros [?|(p' & j' & Hp' & Hj' & ->)]; [by left|]. right.
        assert (j' = j) as -> by (unfold RefTo in *; congruence).
        assert (p' = p) as ->; [|done]. unfold superp in *. destruct Hp as [[? ->]|[? ->]], Hp' as [[? ->]|[? ->]]; done.
  Qed.

  (** What an entity says about itself and its superclasses *)
  Definition ETr (x : str) (f : fields) (t : otriple) : Prop :=
    (exists d, f_str "description" f = Some d /\ t = (I (ownI x), p_isDefinedBy, LIT (len d))) \/
    t = (I (ownI x), p_prefLabel, LIT (len x)) \/
    (exists c, T0 x c /\ t = (I (ownI x), p_type, c)) \/
    (exists w p j, w ∈ f_supers f /\ superp x p /\ RefTo w j /\ t = (I (ownI x), p, I j)).

  Lemma typed_or S S' : Typed S -> Typed S' -> Typed (fun u => S u \/ S' u).
  Proof. intros H1 H2 i c Hc [H|H]; eauto. Qed.
  Lemma typed_other (S : otriple -> Prop) : (forall t, S t -> t.1.2 <> p_type) -> Typed S.
  Proof. intros H i c Hc Hs. apply H in Hs. done. Qed.
  Lemma typed_equiv (S S' : otriple -> Prop) : Typed S -> (forall t, S' t -> S t) -> Typed S'.
  Proof. intros H HS i c Hc Hs. apply (H i c Hc). auto. Qed.

  Lemma runs_load fuel S n s x f : Inv S n s -> Typed S -> (x, f) ∈ es ->
    runs (load_entity fuel x f) s (Loops fuel x /\ (exists t, T0 x t) /\ forall w, w ∈ f_supers f -> exists j, RefTo w j)
      (fun s' _ => Inv (fun u => S u \/ ETr x f u) n s').
  Proof.
    intros HI HT Hx. unfold Yml.load_entity.
    eapply runs_weaken.
    - eapply runs_mbind; [by eapply runs_own|]. cbn. intros s1 i _ [-> ->].
      eapply runs_mbind with (C := True)
        (Q := fun s' _ => Inv (fun u => S u \/ exists d, f_str "description" f = Some d /\
                                          u = (I (ownI x), p_isDefinedBy, LIT (len d))) n s').
      { destruct (f_str "description" f) as [d|].
        - eapply runs_weaken; [eapply runs_add; [done|by eapply own_triple]|done|].
          cbn. intros s' _ _ HI'. eapply inv_equiv; [done|]. intros u. cbn. split.
          + intros [?| ->]; [by left|]. right. eauto.
          + intros [?|(d' & [= ->] & ->)]; auto.
        - apply runs_ret; [done|]. eapply inv_equiv; [done|]. intros u. split; [by left|].
          intros [?|(d & ? & _)]; done. }
      intros s2 _ _ HI2. eapply runs_mbind; [eapply runs_add; [done|by eapply own_triple]|].
      cbn. intros s3 _ _ HI3. eapply runs_mbind.
      { eapply runs_types; [done| |done]. apply typed_or; [apply typed_or; [done|]|]; apply typed_other.
        - by intros t (d & _ & ->).
        - by intros t ->. }
      cbn. intros s4 _ _ HI4. set (S4 := fun u => _) in HI4.
      assert (HT4 : Typed S4).
      { unfold S4. apply typed_or; [apply typed_or; [apply typed_or; [done|]|]; apply typed_other|].
        - by intros t (d & _ & ->).
        - by intros t ->.
        - intros i c Hc (t & Ht & [= -> ->]). by exists x, f. }
      assert (HH4 : Has_types S4 x).
      { intros t Ht. unfold S4. right. eauto. }
      eapply runs_mbind.
      { apply (runs_for_each (add_superclass (ownI x)) (fun w => exists j, RefTo w j)
          (fun d _ s' => Inv (fun u => S4 u \/ exists w p j, w ∈ d /\ superp x p /\ RefTo w j /\ u = (I (ownI x), p, I j)) n s')).
        - intros d w r ys s5 El HI5. eapply runs_weaken.
          + eapply (runs_super _ n s5 x f w HI5).
            * apply typed_or; [done|]. apply typed_other.
              intros t (w' & p & j & _ & Hp & _ & ->). cbn. by destruct Hp as [[_ ->]|[_ ->]].
            * intros t Ht. left. auto.
            * done.
            * apply (es_supers x f); [done|]. rewrite El. set_solver.
          + done.
          + cbn. intros s6 _ _ HI6. eapply inv_equiv; [done|]. intros u. cbn. split.
            * intros [[?|(w' & p & j & Hw & ?)]|(p & j & ?)]; [by left| |];
                right; [exists w', p, j|exists w, p, j]; (split; [set_solver|done]).
            * intros [?|(w' & p & j & Hw & Hr)]; [by left; left|].
              apply elem_of_app in Hw as [Hw|Hw]; [left; right; by exists w', p, j|].
              apply elem_of_list_singleton in Hw as ->. right. by exists p, j.
        - eapply inv_equiv; [done|]. intros u. split; [by left|].
          intros [?|(w & p & j & Hw & _)]; [done|by apply elem_of_nil in Hw]. }
      cbn. intros s5 _ _ HI5.
      apply (runs_ret tt s5 True (fun s' _ => Inv (fun u => S u \/ ETr x f u) n s')); [done|].
      eapply inv_equiv; [done|]. intros u. unfold S4, ETr. cbn. tauto.
    - cbn. tauto.
    - by intros s' y _ HQ.
  Qed.

  (** ** The kind of an entity *)
  Definition Kind (x : str) (k : ekind) : Prop :=
    match k with
    | KClass => T0 x owl_Class /\ ~ T0 x owl_ObjectProperty /\ ~ T0 x owl_DatatypeProperty
    | KRel => ~ T0 x owl_Class /\ T0 x owl_ObjectProperty /\ ~ T0 x owl_DatatypeProperty
    | KAttr => ~ T0 x owl_Class /\ ~ T0 x owl_ObjectProperty /\ T0 x owl_DatatypeProperty
    end.
  Lemma kind_fun x k k' : Kind x k -> Kind x k' -> k = k'.
  Proof. destruct k, k'; cbn; tauto. Qed.

  Definition Valid (x : str) (f : fields) : Prop := exists k, Kind x k /\ valid_as k f = Ok tt.

  Lemma runs_validate S n s x f : Inv S n s -> Typed S -> Has_types S x -> (x, f) ∈ es ->
    runs (validate_entity x f) s (Valid x f) (fun s' k => s' = s /\ Kind x k).
  Proof.
    intros HI HT HH Hx. unfold Yml.validate_entity.
    pose proof (known_types S n s x f owl_Class HI HT HH Hx class_owl) as Kc.
    pose proof (known_types S n s x f owl_ObjectProperty HI HT HH Hx object_owl) as Kr.
    pose proof (known_types S n s x f owl_DatatypeProperty HI HT HH Hx data_owl) as Ka.
    eapply runs_weaken; [eapply runs_mbind; [by eapply runs_own|]| |].
    2:{ split; [intros [_ H]; exact H|]. intros H. split; [done|exact H]. }
    2:{ intros s' y _ HQ. exact HQ. }
    cbn beta. intros s' i _ [-> ->].
    set (k := match bool_decide ((I (ownI x), p_type, owl_Class) ∈ p_graph s),
                    bool_decide ((I (ownI x), p_type, owl_ObjectProperty) ∈ p_graph s),
                    bool_decide ((I (ownI x), p_type, owl_DatatypeProperty) ∈ p_graph s) with
             | true, false, false => Some KClass
             | false, true, false => Some KRel
             | false, false, true => Some KAttr
             | _, _, _ => None
             end).
    assert (Hk : match k with Some k => Kind x k | None => forall k, ~ Kind x k end).
    { unfold k. clear -Kc Kr Ka.
      repeat case_bool_decide; cbn; try (rewrite Kc in * ); try (rewrite Kr in * ); try (rewrite Ka in * ); try tauto;
      intros [| |]; cbn; tauto. }
    destruct k as [k'|] eqn:Ek.
    - assert (Hv : (exists k, Kind x k /\ valid_as k f = Ok tt) <-> valid_as k' f = Ok tt).
      { split; [|eauto]. intros (k2 & H1 & H2). by rewrite (kind_fun _ _ _ Hk H1). }
      apply (runs_eq (mbind (lift (fun _ => valid_as k' f)) (fun _ => ret k'))).
      { unfold k in Ek. cbv zeta. by rewrite Ek. }
      destruct (valid_as k' f) as [[]|e] eqn:Ev.
      + left. split; [by apply Hv|]. exists s, k'. done.
      + right. split; [by rewrite Hv|]. exists s, e. done.
    - right. split; [by intros (k2 & H1 & _); apply (Hk k2)|]. exists s, RuntimeError.
      unfold k in Ek. cbv zeta. by rewrite Ek.
  Qed.

  (** ** First phase: all entities are loaded *)
  Definition Sload (l : list (str * fields)) (t : otriple) : Prop := exists x f, (x, f) ∈ l /\ ETr x f t.
  Lemma ETr_own x f t : (x, f) ∈ es -> ETr x f t -> t.1.1 = I (ownI x) /\ t.1.2 <> p_reference_by_label.
  Proof.
    intros Hx [(d & _ & ->)|[->|[(c & _ & ->)|(w & p & j & _ & Hp & _ & ->)]]]; cbn; try done.
    split; [done|]. by destruct Hp as [[_ ->]|[_ ->]].
  Qed.
  Lemma ETr_type x f i c : ETr x f (i, p_type, c) -> i = I (ownI x) /\ T0 x c.
  Proof.
    intros [(d & _ & [=])|[[=]|[(c' & H & [= -> ->])|(w & p & j & _ & Hp & _ & [= -> <- ->])]]]; [done|].
    destruct Hp as [[_ Hp]|[_ Hp]]; discriminate Hp.
  Qed.
  Lemma sload_typed l : (forall e, e ∈ l -> e ∈ es) -> Typed (Sload l).
  Proof.
    intros Hl i c Hc (x & f & Hx & He). apply ETr_type in He as [-> H0]. exists x, f. auto.
  Qed.
  Lemma sload_has l x f : (x, f) ∈ l -> Has_types (Sload l) x.
  Proof. intros Hx t Ht. exists x, f. split; [done|]. right. right. left. eauto. Qed.

  Definition Cond1 (fuel : nat) (e : str * fields) : Prop :=
    (Loops fuel e.1 /\ (exists t, T0 e.1 t) /\ forall w, w ∈ f_supers e.2 -> exists j, RefTo w j) /\ Valid e.1 e.2.

  Lemma runs_phase1 fuel n s : Inv (fun _ => False) n s ->
    runs (for_each (fun e : str * fields =>
             mbind (load_entity fuel (fst e) (snd e)) (fun _ => validate_entity (fst e) (snd e))) es) s
      (forall e, e ∈ es -> Cond1 fuel e)
      (fun s' kinds => Inv (Sload es) n s' /\ Forall2 (fun e k => Kind e.1 k) es kinds).
  Proof.
    intros HI.
    apply (runs_for_each _ (Cond1 fuel) (fun l ks s' => Inv (Sload l) n s' /\ Forall2 (fun e k => Kind e.1 k) l ks)).
    - intros d [x f] r ks s1 El [HI1 Hks].
      assert (Hx : (x, f) ∈ es) by (rewrite El; set_solver).
      assert (Hd : forall e, e ∈ d -> e ∈ es) by (rewrite El; set_solver).
      assert (Hsub : forall e, e ∈ d ++ [(x, f)] -> e ∈ es).
      { intros e [He|He]%elem_of_app; [auto|]. by apply elem_of_list_singleton in He as ->. }
      unfold Cond1. eapply runs_mbind.
      { eapply runs_load; [done|by apply sload_typed|done]. }
      cbn. intros s2 _ _ HI2.
      assert (HI3 : Inv (Sload (d ++ [(x, f)])) n s2).
      { eapply inv_equiv; [done|]. intros t. split.
        - intros [(x' & f' & Hin & He)|He]; [exists x', f'; split; [set_solver|done]|].
          exists x, f. split; [set_solver|done].
        - intros (x' & f' & [Hin|Hin]%elem_of_app & He); [left; by exists x', f'|].
          apply elem_of_list_singleton in Hin as [= -> ->]. by right. }
      eapply runs_weaken; [eapply runs_validate; [done|by apply sload_typed| |done]|done|].
      + eapply (sload_has _ x f). set_solver.
      + cbn. intros s3 k _ [-> Hk]. split; [done|]. apply Forall2_app; [done|]. by constructor.
    - split; [|constructor]. eapply inv_equiv; [done|]. intros t. split; [done|].
      intros (x & f & Hx & _). by apply elem_of_nil in Hx.
  Qed.

  (** ** Second phase: relationships and attributes *)
  Notation set_inverse := (set_inverse num text len ltrue pick b own es).
  Notation default_rel_flag := (default_rel_flag num text len ltrue pick b own es).
  Notation set_datatype := (set_datatype num text len ltrue pick b own es).
  Notation default_rel_of_doc := (default_rel_of_doc num text len ltrue pick installed b own es).
  Notation add_attributes := (add_attributes num text len lval ltrue lone pick b own es).
  Notation add_attr := (add_attr num lval lone).
  Notation parse_ontology := (parse_ontology num text len lval ltrue lone pick installed b own es).

  Hypothesis es_inverse : forall x f w, (x, f) ∈ es -> f_str "inverse" f = Some w -> wf_ref w.
  Hypothesis es_attributes : forall x f w v, (x, f) ∈ es -> (w, v) ∈ f_attributes f -> wf_ref w.

  Definition InvTr (x : str) (f : fields) (t : otriple) : Prop :=
    exists w j, f_str "inverse" f = Some w /\ RefTo w j /\ t = (I (ownI x), p_inverseOf, I j).
  Definition FlagTr (x : str) (f : fields) (t : otriple) : Prop :=
    f_default_rel f = Some true /\ t = (I (ns_iri own), p_default_rel, I (ownI x)).
  Definition RangeTr (x : str) (f : fields) (t : otriple) : Prop :=
    exists w dt, f_str "datatype" f = Some w /\ Datatype.get_rdflib_datatype w = Ok (Some dt) /\
      (t = (I (ownI x), p_range, I dt) \/ custom dt = true /\ t = (I dt, p_type, rdfs_Datatype)).

  Lemma ns_triple o : Own (I (ns_iri own), p_default_rel, o).
  Proof. split; [done|]. right. split; [done|]. by right; left. Qed.

  Lemma runs_inverse S n s x f : Inv S n s -> (x, f) ∈ es ->
    runs (set_inverse x f) s (forall w, f_str "inverse" f = Some w -> exists j, RefTo w j)
      (fun s' _ => Inv (fun u => S u \/ InvTr x f u) n s').
  Proof.
    intros HI Hx. unfold Yml.set_inverse, InvTr. destruct (f_str "inverse" f) as [w|] eqn:Ew.
    - eapply runs_cond.
      + eapply runs_mbind; [eapply runs_ref; [done|by eapply es_inverse]|].
        cbn. intros s1 j _ [-> Hj]. eapply runs_mbind; [by eapply runs_own|].
        cbn. intros s1 i _ [-> ->]. eapply runs_post; [eapply runs_add; [done|by eapply own_triple]|].
        cbn. intros s' _ HI'. eapply inv_equiv; [done|]. intros u. cbn. split.
        * intros [?| ->]; [by left|]. right. by exists w, j.
        * intros [?|(w' & j' & [= <-] & Hj' & ->)]; [by left|]. right.
          assert (j' = j) as -> by (unfold RefTo in *; congruence). done.
      + split; [intros (H & _) w' [= <-]; done|]. intros H. split; [by apply H|done].
    - apply runs_ret; [done|]. eapply inv_equiv; [done|]. intros u. split; [by left|].
      intros [?|(w & j & ? & _)]; done.
  Qed.
  Lemma runs_flag S n s x f : Inv S n s -> (x, f) ∈ es ->
    runs (default_rel_flag x f) s True (fun s' _ => Inv (fun u => S u \/ FlagTr x f u) n s').
  Proof.
    intros HI Hx. unfold Yml.default_rel_flag, FlagTr.
    assert (Hno : f_default_rel f <> Some true -> runs (ret tt) s True
      (fun s' _ => Inv (fun u => S u \/ f_default_rel f = Some true /\ u = (I (ns_iri own), p_default_rel, I (ownI x))) n s')).
    { intros Hf. apply runs_ret; [done|]. eapply inv_equiv; [done|]. intros u. split; [by left|].
      intros [?|[? _]]; done. }
    destruct (f_default_rel f) as [[|]|] eqn:Ef; [|by apply Hno..].
    eapply runs_cond.
    - eapply runs_mbind; [by eapply runs_own|]. cbn. intros s1 i _ [-> ->].
      eapply runs_post; [eapply runs_add; [done|apply ns_triple]|].
      cbn. intros s' _ HI'. eapply inv_equiv; [done|]. intros u. cbn. tauto.
    - done.
  Qed.
  Lemma runs_datatype S n s x f : Inv S n s -> (x, f) ∈ es ->
    runs (set_datatype x f) s
      (forall w, f_str "datatype" f = Some w -> exists dt, Datatype.get_rdflib_datatype w = Ok (Some dt))
      (fun s' _ => Inv (fun u => S u \/ RangeTr x f u) n s').
  Proof.
    intros HI Hx. unfold Yml.set_datatype, RangeTr. destruct (f_str "datatype" f) as [w|] eqn:Ew.
    2:{ apply runs_ret; [done|]. eapply inv_equiv; [done|]. intros u. split; [by left|].
        intros [?|(w & j & ? & _)]; done. }
    eapply runs_cond with (C := True /\ exists dt, Datatype.get_rdflib_datatype w = Ok (Some dt)).
    2:{ split; [intros [_ H] w' [= <-]; done|]. intros H. split; [done|]. by apply H. }
    eapply runs_mbind; [by eapply runs_own|]. cbn beta. intros s1 i _ [-> ->].
    destruct (Datatype.get_rdflib_datatype w) as [[dt|]|e] eqn:Ed.
    2:{ right. split; [by intros [? ?]|]. by eexists _, _. }
    2:{ right. split; [by intros [? ?]|]. by eexists _, _. }
    eapply runs_cond with (C := True /\ True).
    2:{ split; [eauto|done]. }
    eapply runs_mbind with (Q := fun s' _ => Inv (fun u => S u \/ custom dt = true /\ u = (I dt, p_type, rdfs_Datatype)) n s').
    - destruct (custom dt) eqn:Ec.
      + eapply runs_post; [eapply runs_add; [done|]|].
        * split; [done|]. right. split; [done|]. right. right. exists dt. split; [done|].
          by eapply custom_dashed.
        * cbn. intros s' _ HI'. eapply inv_equiv; [done|]. intros u. cbn. tauto.
      + apply runs_ret; [done|]. eapply inv_equiv; [done|]. intros u. split; [by left|]. intros [?|[? _]]; done.
    - cbn. intros s2 _ _ HI2. eapply runs_post; [eapply runs_add; [done|by eapply own_triple]|].
      cbn. intros s' _ HI'. eapply inv_equiv; [done|]. intros u. cbn. split.
      + intros [[?|[? ?]]|?]; [by left| |]; right; exists w, dt; (split; [done|]); (split; [done|]); tauto.
      + intros [?|(w' & dt' & [= <-] & Hd' & H)]; [tauto|].
        assert (dt' = dt) as -> by congruence. tauto.
  Qed.

  Definition Tr2 (x : str) (f : fields) (k : ekind) (t : otriple) : Prop :=
    match k with
    | KClass => False
    | KRel => InvTr x f t \/ FlagTr x f t
    | KAttr => RangeTr x f t
    end.
  Definition Cond2 (f : fields) (k : ekind) : Prop :=
    match k with
    | KClass => True
    | KRel => forall w, f_str "inverse" f = Some w -> exists j, RefTo w j
    | KAttr => forall w, f_str "datatype" f = Some w -> exists dt, Datatype.get_rdflib_datatype w = Ok (Some dt)
    end.
  Lemma runs_phase2 S n s (ks : list ekind) : Inv S n s ->
    runs (for_each (fun '((name, f), k) =>
             match k with
             | KRel => mbind (set_inverse name f) (fun _ => default_rel_flag name f)
             | KAttr => set_datatype name f
             | KClass => ret tt
             end) (combine es ks)) s
      (forall e, e ∈ combine es ks -> Cond2 e.1.2 e.2)
      (fun s' _ => Inv (fun t => S t \/ exists x f k, ((x, f), k) ∈ combine es ks /\ Tr2 x f k t) n s').
  Proof.
    intros HI.
    apply (runs_for_each _ (fun e => Cond2 e.1.2 e.2)
      (fun l _ s' => Inv (fun t => S t \/ exists x f k, ((x, f), k) ∈ l /\ Tr2 x f k t) n s')).
    - intros d [[x f] k] r ys s1 El HI1.
      assert (Hx : (x, f) ∈ es).
      { assert (Hin : ((x, f), k) ∈ combine es ks) by (rewrite El; set_solver).
        apply elem_of_list_In, in_combine_l in Hin. by apply elem_of_list_In. }
      set (S1 := fun t => _ \/ _) in HI1.
      eapply runs_post with (Q := fun s' _ => Inv (fun t => S1 t \/ Tr2 x f k t) n s').
      + destruct k; cbn [Tr2 Cond2 fst snd].
        * apply runs_ret; [done|]. eapply inv_equiv; [done|]. intros t. cbn. tauto.
        * eapply runs_cond; [eapply runs_mbind; [by eapply runs_inverse|]|].
          -- cbn. intros s2 _ _ HI2. eapply runs_post; [by eapply runs_flag|].
             cbn. intros s' _ HI'. eapply inv_equiv; [done|]. intros t. cbn. tauto.
          -- split; [by intros [? _]|]. intros H. split; [done|exact Logic.I].
        * by eapply runs_datatype.
      + cbn. intros s' _ HI'. eapply inv_equiv; [done|]. intros t. unfold S1. cbn. split.
        * intros [[?|(x' & f' & k' & Hin & H)]|H]; [by left| |]; right.
          -- exists x', f', k'. split; [set_solver|done].
          -- exists x, f, k. split; [set_solver|done].
        * intros [?|(x' & f' & k' & [Hin|Hin]%elem_of_app & H)]; [by left; left|left; right; by exists x', f', k'|].
          apply elem_of_list_singleton in Hin as [= -> -> ->]. by right.
    - eapply inv_equiv; [done|]. intros t. split; [by left|].
      intros [?|(x & f & k & Hin & _)]; [done|by apply elem_of_nil in Hin].
  Qed.

  (** the default relationship given for the whole ontology *)
  Definition DocRel (w j : str) : Prop :=
    exists ns m, split_on 46 w = [ns; m] /\ installed ns m = true /\ get_iri g0 ns m = Ok j.
  Definition DocTr (d : fields) (t : otriple) : Prop :=
    exists w j, f_str "default_rel" d = Some w /\ DocRel w j /\ t = (I (ns_iri own), p_default_rel, I j).
  Lemma runs_doc S n s d : Inv S n s ->
    (forall w ns m, f_str "default_rel" d = Some w -> split_on 46 w = [ns; m] -> clean m) ->
    runs (default_rel_of_doc d) s (forall w, f_str "default_rel" d = Some w -> exists j, DocRel w j)
      (fun s' _ => Inv (fun u => S u \/ DocTr d u) n s').
  Proof.
    intros HI Hd. unfold Yml.default_rel_of_doc, DocTr, DocRel. destruct (f_str "default_rel" d) as [w|] eqn:Ew.
    2:{ apply runs_ret; [done|]. eapply inv_equiv; [done|]. intros u. split; [by left|].
        intros [?|(w & j & ? & _)]; done. }
    destruct (split_on 46 w) as [|ns [|m [|? ?]]] eqn:Esp.
    1,2,4: right; split; [|by eexists _, _]; intros H; destruct (H w eq_refl) as (j & ns' & m' & E1 & _); congruence.
    destruct (installed ns m) eqn:Ein.
    2:{ right. split; [|by eexists _, _]. intros H. destruct (H w eq_refl) as (j & ns' & m' & E1 & E2 & _). congruence. }
    eapply runs_cond with (C := (exists j, get_iri g0 ns m = Ok j) /\ True).
    - eapply runs_mbind with (Q := fun s' j => s' = s /\ get_iri g0 ns m = Ok j).
      + assert (Eg : get_iri (p_graph s) ns m = get_iri g0 ns m).
        { apply get_iri_ext; [by eapply inv_ext|]. by eapply Hd. }
        unfold runs, lift. rewrite Eg. destruct (get_iri g0 ns m) as [j|e].
        * left. split; [eauto|]. by exists s, j.
        * right. split; [by intros [? ?]|]. by eexists _, _.
      + cbn. intros s1 j _ [-> Hj]. eapply runs_post; [eapply runs_add; [done|apply ns_triple]|].
        cbn. intros s' _ HI'. eapply inv_equiv; [done|]. intros u. cbn. split.
        * intros [?| ->]; [by left|]. right. exists w, j. split; [done|]. split; [|done]. by exists ns, m.
        * intros [?|(w' & j' & [= <-] & (ns' & m' & E1 & _ & E2) & ->)]; [by left|]. right.
          rewrite Esp in E1. injection E1 as <- <-. by replace j' with j by congruence.
    - split.
      + intros [[j Hj] _] w' [= <-]. exists j, ns, m. done.
      + intros H. split; [|done]. destruct (H w eq_refl) as (j & ns' & m' & E1 & _ & E2).
        rewrite Esp in E1. injection E1 as <- <-. eauto.
  Qed.

  (** ** Third phase: the attributes of the classes *)
  Definition AttrTr (e : aentry) (t : otriple) : Prop :=
    t = (I (ownI (ae_class e)), p_subClassOf, BN (ae_b1 e)) \/
    t = (BN (ae_b1 e), p_type, owl_Restriction) \/
    t = (BN (ae_b1 e), p_cardinality, LIT lone) \/
    t = (BN (ae_b1 e), p_onProperty, I (ae_attr e)) \/
    exists v, ae_dflt e = Some v /\
      (t = (I (ownI (ae_class e)), p_default, BN (ae_b2 e)) \/
       t = (BN (ae_b2 e), p_default_attribute, I (ae_attr e)) \/
       t = (BN (ae_b2 e), p_default_value, LIT (lval v))).
  Definition AttrsTr (m : list aentry) (t : otriple) : Prop := exists e, e ∈ m /\ AttrTr e t.

  Lemma bnode_triple n p o : p <> p_reference_by_label -> p <> p_prefLabel -> Own (BN n, p, o).
  Proof. intros H1 H2. split; [done|]. right. split; [done|]. by left. Qed.

  Definition next (n : N) (v : option yaml) : N :=
    match v with None => N.succ n | Some _ => N.succ (N.succ n) end.
  Lemma runs_fresh S n s : Inv S n s ->
    runs fresh_bnode s True (fun s' t => Inv S (N.succ n) s' /\ t = BN n).
  Proof.
    intros (H1 & H2 & H3). left. split; [done|]. eexists _, _. split; [reflexivity|].
    split; [|by rewrite H3]. split; [done|]. split; [done|]. cbn. by rewrite H3.
  Qed.
  Lemma runs_attr S n s x f a v : Inv S n s -> (x, f) ∈ es ->
    runs (add_attr (ownI x) a v) s True
      (fun s' _ => Inv (fun u => S u \/ AttrTr (AE x a v n (N.succ n)) u) (next n v) s').
  Proof.
    intros HI Hx. unfold Yml.add_attr. eapply runs_cond.
    - eapply runs_mbind; [by eapply runs_fresh|]. cbn. intros s1 b1 _ [HI1 ->].
      eapply runs_mbind; [eapply runs_add_all; [exact HI1|]|].
      + intros t Ht. repeat (apply elem_of_union in Ht as [Ht|Ht]); apply elem_of_singleton in Ht as ->;
          [by eapply own_triple|by apply bnode_triple..].
      + cbn. intros s2 _ _ HI2. destruct v as [v|].
        * eapply runs_cond; [eapply runs_mbind; [by eapply runs_fresh|]|].
          -- cbn. intros s3 b2 _ [HI3 ->]. eapply runs_post; [eapply runs_add_all; [exact HI3|]|].
             ++ intros t Ht. repeat (apply elem_of_union in Ht as [Ht|Ht]); apply elem_of_singleton in Ht as ->;
                  [by eapply own_triple|by apply bnode_triple..].
             ++ cbn. intros s' _ HI'. eapply inv_equiv; [exact HI'|]. intros u. unfold AttrTr. cbn.
                rewrite !elem_of_union, !elem_of_singleton. split.
                ** intros [[?|[[[?|?]|?]|?]]|[[?|?]|?]]; try tauto; right; right; right; right; right;
                     exists v; (split; [done|]); tauto.
                ** intros [?|[?|[?|[?|[?|(v' & [= <-] & H)]]]]]; tauto.
          -- apply iff_refl.
        * apply runs_ret; [exact (conj Logic.I Logic.I)|]. eapply inv_equiv; [exact HI2|]. intros u. unfold AttrTr. cbn.
          rewrite !elem_of_union, !elem_of_singleton. split; [tauto|].
          intros [?|[?|[?|[?|[?|(v' & [=] & H)]]]]]; tauto.
    - tauto.
  Qed.

  Definition IsAttr (a : str) : Prop :=
    (I a, p_type, owl_DatatypeProperty) ∈ g0 \/
    exists y f, (y, f) ∈ es /\ a = ownI y /\ T0 y owl_DatatypeProperty.
  Definition AttrOk (w : str) : Prop := exists a, RefTo w a /\ IsAttr a.
  Definition matches (x : str) (wv : str * option yaml) (e : aentry) : Prop :=
    ae_class e = x /\ RefTo wv.1 (ae_attr e) /\ ae_dflt e = wv.2.

  Lemma attrs_typed m : Typed (AttrsTr m).
  Proof.
    intros i c Hc (e & _ & H). exfalso. unfold AttrTr in H.
    destruct H as [[=]|[[= -> ->]|[[=]|[[=]|(v & _ & [[=]|[[=]|[=]]])]]]]. clear -Hc. unfold owl_types in Hc. set_solver.
  Qed.

  Lemma runs_attributes S n s x f : Inv S n s -> Typed S -> (forall y fy, (y, fy) ∈ es -> Has_types S y) -> (x, f) ∈ es ->
    runs (add_attributes x f) s (forall w v, (w, v) ∈ f_attributes f -> AttrOk w)
      (fun s' _ => exists m n', Inv (fun u => S u \/ AttrsTr m u) n' s' /\ Forall2 (matches x) (f_attributes f) m /\ Numbered n m n').
  Proof.
    intros HI HT HH Hx. unfold Yml.add_attributes. eapply runs_cond.
    - eapply runs_mbind; [by eapply runs_own|]. cbn beta. intros s1 i _ [-> ->].
      eapply runs_mbind; [|intros s2 ys _ HQ; apply runs_ret; [exact Logic.I|exact HQ]].
      apply (runs_for_each _ (fun wv : str * option yaml => AttrOk wv.1)
        (fun d _ s' => exists m n', Inv (fun u => S u \/ AttrsTr m u) n' s' /\ Forall2 (matches x) d m /\ Numbered n m n')).
      2:{ exists [], n. split; [|split; [constructor|apply numbered_nil]]. eapply inv_equiv; [exact HI|].
          intros u. split; [by left|]. intros [?|(e & He & _)]; [done|by apply elem_of_nil in He]. }
      intros d [w v] r ys s1 El (m & n1 & HI1 & Hm & Hn).
      eapply runs_cond with (C := (exists j, RefTo w j) /\ AttrOk w).
      2:{ cbn. split; [by intros [_ ?]|]. intros H. split; [|done]. destruct H as (a & Ha & _). eauto. }
      eapply runs_mbind.
      { eapply runs_ref; [exact HI1|]. apply (es_attributes x f w v); [done|]. rewrite El. set_solver. }
      cbn. intros s2 a _ [-> Ha].
      assert (HT1 : Typed (fun u => S u \/ AttrsTr m u)) by (apply typed_or; [done|apply attrs_typed]).
      assert (Hattr : (I a, p_type, owl_DatatypeProperty) ∈ p_graph s1 <-> IsAttr a).
      { destruct HI1 as (H1 & _). rewrite H1. unfold IsAttr. split.
        - intros [?|HS]; [by left|]. right. apply HT1 in HS as (y & fy & Hy & Ey & H0); [|apply data_owl].
          injection Ey as Ey. apply num_inj in Ey. by exists y, fy.
        - intros [?|(y & fy & Hy & -> & H0)]; [by left|]. right. left. by eapply HH. }
      destruct (decide ((I a, p_type, owl_DatatypeProperty) ∈ p_graph s1)) as [Hd|Hd].
      + apply (runs_eq (add_attr (ownI x) a v)). { by rewrite decide_True. }
        eapply runs_cond with (C := True).
        2:{ split; [|done]. intros _. exists a. split; [done|]. by apply Hattr. }
        eapply runs_post; [eapply runs_attr; [exact HI1|done]|]. cbn. intros s' _ HI'.
        exists (m ++ [AE x a v n1 (N.succ n1)]), (next n1 v). split; [|split].
        * eapply inv_equiv; [exact HI'|]. intros u. unfold AttrsTr. cbn. split.
          -- intros [[?|(e & He & Ht)]|Ht]; [by left| |]; right; eexists; (split; [|exact Ht]); set_solver.
          -- intros [?|(e & [He|He]%elem_of_app & Ht)]; [by left; left|left; right; by exists e|].
             apply elem_of_list_singleton in He as ->. by right.
        * apply Forall2_app; [done|]. by repeat constructor.
        * eapply numbered_app; [done|]. clear. destruct v; unfold Numbered; cbn.
          -- split; [lia|]. split; [|intros i; rewrite !elem_of_cons, elem_of_nil; lia].
             apply stdpp.list.NoDup_cons. split; [rewrite elem_of_list_singleton; lia|apply NoDup_singleton].
          -- split; [lia|]. split; [apply NoDup_singleton|]. intros i. rewrite elem_of_list_singleton. lia.
      + right. split.
        * intros (a' & Ha' & H'). assert (a' = a) as -> by (unfold RefTo in *; congruence). by apply Hd, Hattr.
        * exists s1, ValueError. by rewrite decide_False.
    - cbn. split.
      + intros (_ & H & _) w v Hw. by apply (H (w, v)).
      + intros H. split; [done|]. split; [|done]. intros [w v] Hw. by eapply H.
  Qed.

  Definition flat (l : list (str * fields * ekind)) : list (str * (str * option yaml)) :=
    mjoin (map (fun e => match e with
                         | ((x, f), KClass) => map (fun wv => (x, wv)) (f_attributes f)
                         | _ => []
                         end) l).
  Definition matches' (p : str * (str * option yaml)) (e : aentry) : Prop := matches p.1 p.2 e.

  Lemma runs_phase3 S n s (ks : list ekind) : Inv S n s -> Typed S -> (forall y fy, (y, fy) ∈ es -> Has_types S y) ->
    runs (for_each (fun '((name, f), k) =>
             match k with
             | KClass => add_attributes name f
             | _ => ret tt
             end) (combine es ks)) s
      (forall e, e ∈ combine es ks -> e.2 = KClass -> forall w v, (w, v) ∈ f_attributes e.1.2 -> AttrOk w)
      (fun s' _ => exists m n', Inv (fun u => S u \/ AttrsTr m u) n' s' /\
         Forall2 matches' (flat (combine es ks)) m /\ Numbered n m n').
  Proof.
    intros HI HT HH.
    apply (runs_for_each _ (fun e => e.2 = KClass -> forall w v, (w, v) ∈ f_attributes e.1.2 -> AttrOk w)
      (fun l _ s' => exists m n', Inv (fun u => S u \/ AttrsTr m u) n' s' /\ Forall2 matches' (flat l) m /\ Numbered n m n')).
    2:{ exists [], n. split; [|split; [constructor|apply numbered_nil]]. eapply inv_equiv; [exact HI|].
        intros u. split; [by left|]. intros [?|(e & He & _)]; [done|by apply elem_of_nil in He]. }
    intros d [[x f] k] r ys s1 El (m & n1 & HI1 & Hm & Hn).
    assert (Hx : (x, f) ∈ es).
    { assert (Hin : ((x, f), k) ∈ combine es ks) by (rewrite El; set_solver).
      apply elem_of_list_In, in_combine_l in Hin. by apply elem_of_list_In. }
    assert (Hflat : forall l1 l2, flat (l1 ++ l2) = flat l1 ++ flat l2).
    { intros l1 l2. unfold flat. by rewrite map_app, mjoin_app'. }
    destruct k; cbn [fst snd].
    - eapply runs_weaken.
      + eapply (runs_attributes _ n1 s1 x f HI1).
        * apply typed_or; [done|apply attrs_typed].
        * intros y fy Hy t Ht. left. by eapply HH.
        * done.
      + split; [intros H _; exact H|intros H; by apply H].
      + cbn. intros s' _ _ (m' & n' & HI' & Hm' & Hn'). exists (m ++ m'), n'. split; [|split].
        * eapply inv_equiv; [exact HI'|]. intros u. unfold AttrsTr. cbn. split.
          -- intros [[?|(e & He & Ht)]|(e & He & Ht)]; [by left| |]; right; exists e; (split; [|exact Ht]); set_solver.
          -- intros [?|(e & [He|He]%elem_of_app & Ht)]; [by left; left|left; right; by exists e|right; by exists e].
        * rewrite Hflat. apply Forall2_app; [done|]. unfold flat. cbn. rewrite app_nil_r.
          apply Forall2_fmap_l. exact Hm'.
        * by eapply numbered_app.
    - apply runs_ret; [done|]. exists m, n1. split; [done|]. split; [|done]. rewrite Hflat. unfold flat at 2. cbn. by rewrite app_nil_r.
    - apply runs_ret; [done|]. exists m, n1. split; [done|]. split; [|done]. rewrite Hflat. unfold flat at 2. cbn. by rewrite app_nil_r.
  Qed.

  (** ** The whole document *)
  Definition Count (d : fields) : Prop := (default_rels es d <= 1)%nat.
  Definition Conds (fuel : nat) (d : fields) : Prop :=
    (forall e, e ∈ es -> Cond1 fuel e) /\ Count d /\
    (forall w, f_str "default_rel" d = Some w -> exists j, DocRel w j) /\
    (forall x f k, (x, f) ∈ es -> Kind x k -> Cond2 f k) /\
    (forall x f w v, (x, f) ∈ es -> Kind x KClass -> (w, v) ∈ f_attributes f -> AttrOk w).
  (** every triple the document says *)
  Definition SaysTr (d : fields) (m : list aentry) (t : otriple) : Prop :=
    Sload es t \/ DocTr d t \/ (exists x f k, (x, f) ∈ es /\ Kind x k /\ Tr2 x f k t) \/ AttrsTr m t.
  Definition Attributes_of (m : list aentry) : Prop :=
    exists ks, Forall2 (fun e k => Kind e.1 k) es ks /\ Forall2 matches' (flat (combine es ks)) m.

  Lemma combine_kind_list (l : list (str * fields)) ks x f k :
    Forall2 (fun (e : str * fields) k => Kind e.1 k) l ks ->
    ((x, f), k) ∈ combine l ks <-> (x, f) ∈ l /\ Kind x k.
  Proof.
    intros H.
    induction H as [|[x' f'] k' l ks' Hk _ IH]; cbn.
    { split; [intros Hin; by apply elem_of_nil in Hin|]. intros [Hin _]. by apply elem_of_nil in Hin. }
    rewrite !elem_of_cons, IH. cbn in Hk. split.
    - intros [[= -> -> ->]|[? ?]]; tauto.
    - intros [[[= -> ->]|?] Hk2]; [left|by right]. by rewrite (kind_fun _ _ _ Hk Hk2).
  Qed.
  Lemma combine_kind ks x f k : Forall2 (fun (e : str * fields) k => Kind e.1 k) es ks ->
    ((x, f), k) ∈ combine es ks <-> (x, f) ∈ es /\ Kind x k.
  Proof. apply combine_kind_list. Qed.

  Theorem runs_parse fuel d s n :
    p_graph s = g0 -> p_next s = n ->
    (forall w ns m, f_str "default_rel" d = Some w -> split_on 46 w = [ns; m] -> clean m) ->
    runs (parse_ontology fuel d) s (Conds fuel d)
      (fun s' _ => exists m, Inv (SaysTr d m) (p_next s') s' /\ Attributes_of m /\ Numbered n m (p_next s')).
  Proof.
    intros Hg Hn Hd. unfold Yml.parse_ontology.
    assert (HI : Inv (fun _ => False) n s).
    { split; [intros t; rewrite Hg; tauto|]. split; [done|done]. }
    eapply runs_mbind; [by apply runs_phase1|]. cbn beta. intros s1 ks HC1 [HI1 Hks].
    eapply runs_mbind with (Q := fun s' _ => s' = s1).
    { unfold Count. destruct (1 <? default_rels es d)%nat eqn:Ec.
      - right. split; [apply Nat.ltb_lt in Ec; lia|]. by eexists _, _.
      - apply runs_ret; [|done]. apply Nat.ltb_ge in Ec. done. }
    intros s2 _ _ ->. eapply runs_mbind; [eapply runs_doc; [exact HI1|exact Hd]|].
    cbn beta. intros s3 _ _ HI3.
    eapply runs_mbind.
    { eapply runs_cond; [eapply (runs_phase2 _ n s3 ks HI3)|]. split.
      - intros H x f k Hx Hk. apply (H ((x, f), k)). by apply combine_kind.
      - intros H [[x f] k] Hin. apply combine_kind in Hin as [Hx Hk]; [|done]. by eapply H. }
    cbn beta. intros s4 _ _ HI4.
    set (S4 := fun t => _ \/ _) in HI4.
    assert (HT4 : Typed S4).
    { unfold S4. apply typed_or; [apply typed_or|].
      - by apply sload_typed.
      - apply typed_other. by intros t (w & j & _ & _ & ->).
      - intros i c Hc (x & f & k & Hin & Ht). exfalso. clear -Hc Ht. destruct k; cbn in Ht; [done| |].
        + destruct Ht as [(w & j & _ & _ & [=])|[_ [=]]].
        + destruct Ht as (w & dt & _ & _ & [[=]|[_ [= -> ->]]]). unfold owl_types in Hc. set_solver. }
    assert (HH4 : forall y fy, (y, fy) ∈ es -> Has_types S4 y).
    { intros y fy Hy t Ht. unfold S4. left. left. by apply (sload_has es y fy). }
    eapply runs_cond with (C := _ /\ True).
    - eapply runs_mbind; [apply (runs_phase3 S4 n s4 ks HI4 HT4 HH4)|].
      cbn beta. intros s5 _ _ (m & n' & HI5 & Hm & Hnum). apply runs_ret; [exact Logic.I|].
      assert (En : p_next s5 = n') by apply HI5. rewrite En. exists m. split; [|split; [by exists ks|done]].
      eapply inv_equiv; [exact HI5|]. intros t. unfold S4, SaysTr. split.
      + intros [[[?|?]|(x & f & k & Hin & Ht)]|?]; [tauto|tauto| |tauto].
        apply combine_kind in Hin; [|done]. right. right. left. exists x, f, k. tauto.
      + intros [?|[?|[(x & f & k & Hx & Hk & Ht)|?]]]; [tauto|tauto| |tauto].
        left. right. exists x, f, k. split; [|done]. by apply combine_kind.
    - split.
      + intros [H _] x f w v Hx Hk Hw. apply (H ((x, f), KClass)) with v; [by apply combine_kind|done|done].
      + intros H. split; [|exact Logic.I]. intros [[x f] k] Hin Hk w v Hw. cbn in Hk, Hw. subst k.
        apply combine_kind in Hin as [Hx Hk]; [|done]. by eapply H.
  Qed.
  (** ** Cycles: a document without other faults never runs into an error *)
  Definition fine {B} (m : M B) (s : pst) (Q : pst -> B -> Prop) : Prop :=
    (exists s' y, m s = (s', Ok y) /\ Q s' y) \/ (exists s', m s = (s', Err OutOfFuel)).
  Lemma runs_fine {B} (m : M B) s (C : Prop) Q : runs m s C Q -> C -> fine m s Q.
  Proof. intros [(_ & s' & y & E & HQ)|[Hn _]] HC; [left; by exists s', y|done]. Qed.
  Lemma fine_mbind {A B} (m : M A) (k : A -> M B) s Q Q' :
    fine m s Q -> (forall s' y, Q s' y -> fine (k y) s' Q') -> fine (mbind m k) s Q'.
  Proof.
    intros [(s' & y & E & HQ)|(s' & E)] Hk.
    - specialize (Hk s' y HQ). unfold fine, mbind. by rewrite E.
    - right. exists s'. unfold mbind. by rewrite E.
  Qed.
  Lemma fine_for_each {A B} (f : A -> M B) (P : list A -> pst -> Prop) l s :
    (forall d x r s, l = d ++ x :: r -> P d s -> fine (f x) s (fun s' _ => P (d ++ [x]) s')) ->
    P [] s -> fine (for_each f l) s (fun s' _ => P l s').
  Proof.
    intros Hstep H0.
    assert (G : forall r d s, l = d ++ r -> P d s -> fine (for_each f r) s (fun s' _ => P l s')).
    { induction r as [|x r IH]; intros d s1 El Hs.
      - left. exists s1, []. split; [done|]. rewrite app_nil_r in El. by subst d.
      - cbn [for_each]. eapply fine_mbind; [by eapply Hstep|]. cbn beta. intros s2 y Hs2.
        eapply fine_mbind; [apply (IH (d ++ [x]) s2); [by rewrite <- app_assoc|done]|].
        cbn beta. intros s3 ys Hs3. left. by exists s3, (y :: ys). }
    by apply (G l []).
  Qed.
  Lemma fine_load fuel S n s x f : Inv S n s -> Typed S -> (x, f) ∈ es ->
    (forall q, rtc E (own, x) q -> node_ok q) -> (exists t, T0 x t) ->
    (forall w, w ∈ f_supers f -> exists j, RefTo w j) ->
    fine (load_entity fuel x f) s (fun s' _ => Inv (fun u => S u \/ ETr x f u) n s').
  Proof.
    intros HI HT Hx Hok Ht Hw.
    assert (Hwf : Forall wf_node [(own, x)]) by (constructor; [by eapply own_wf|constructor]).
    destruct (types_loop fuel g0 [(own, x)] ∅) as [T'|e0] eqn:EL.
    - eapply runs_fine; [by eapply runs_load|]. split; [by exists T'|]. done.
    - unfold Yml.load_entity.
      eapply fine_mbind; [eapply runs_fine; [by eapply runs_own|done]|]. cbn. intros s1 i [-> ->].
      eapply fine_mbind with (Q := fun s' _ => exists S', Inv S' n s').
      { destruct (f_str "description" f) as [d|].
        - destruct (runs_add S n s (I (ownI x), p_isDefinedBy, LIT (len d)) HI) as [(_ & s' & y & E1 & HQ)|[Hn _]];
            [by eapply own_triple| |by destruct Hn]. left. exists s', y. split; [done|]. by eexists.
        - left. exists s, tt. split; [done|by exists S]. }
      intros s2 _ [S2 HI2]. eapply fine_mbind; [eapply runs_fine; [eapply (runs_add S2 n s2); [done|by eapply own_triple]|done]|].
      cbn beta. intros s3 _ HI3. eapply fine_mbind with (Q := fun _ _ => False); [|done].
      right. exists s3. unfold Yml.add_type_triple, mbind, lift.
      destruct (types_loop_cases fuel (p_graph s3) [(own, x)] ∅ (inv_ext _ _ _ HI3) Hwf) as [[T' E']| ->].
      + intros q q' Hq%elem_of_list_singleton Hr. subst q. by apply Hok.
      + exfalso. pose proof (types_loop_ext fuel (p_graph s3) [(own, x)] ∅ ∅ (inv_ext _ _ _ HI3) Hwf) as Hext.
        assert (HL : exists T', types_loop fuel g0 [(own, x)] ∅ = Ok T') by (apply Hext; eauto).
        destruct HL as [? HL]. rewrite EL in HL. discriminate HL.
      + done.
  Qed.
  Definition Faultless (e : str * fields) : Prop :=
    (forall q, rtc E (own, e.1) q -> node_ok q) /\ (exists t, T0 e.1 t) /\
    (forall w, w ∈ f_supers e.2 -> exists j, RefTo w j) /\ Valid e.1 e.2.
  Lemma fine_phase1 fuel n s : Inv (fun _ => False) n s -> (forall e, e ∈ es -> Faultless e) ->
    fine (for_each (fun e : str * fields =>
             mbind (load_entity fuel (fst e) (snd e)) (fun _ => validate_entity (fst e) (snd e))) es) s
      (fun s' _ => Inv (Sload es) n s').
  Proof.
    intros HI HF. apply (fine_for_each _ (fun l s' => Inv (Sload l) n s')).
    - intros d [x f] r s1 El HI1.
      assert (Hx : (x, f) ∈ es) by (rewrite El; set_solver).
      destruct (HF _ Hx) as (Hok & Ht & Hw & HV). cbn in Hok, Ht, Hw, HV.
      assert (Hd : forall e, e ∈ d -> e ∈ es) by (rewrite El; set_solver).
      assert (Hsub : forall e, e ∈ d ++ [(x, f)] -> e ∈ es).
      { intros e [He|He]%elem_of_app; [auto|]. by apply elem_of_list_singleton in He as ->. }
      eapply fine_mbind; [eapply fine_load; [exact HI1|by apply sload_typed|done|done|done|done]|].
      cbn. intros s2 _ HI2.
      assert (HI3 : Inv (Sload (d ++ [(x, f)])) n s2).
      { eapply inv_equiv; [done|]. intros t. split.
        - intros [(x' & f' & Hin & He)|He]; [exists x', f'; split; [set_solver|done]|].
          exists x, f. split; [set_solver|done].
        - intros (x' & f' & [Hin|Hin]%elem_of_app & He); [left; by exists x', f'|].
          apply elem_of_list_singleton in Hin as [= -> ->]. by right. }
      assert (Hin : (x, f) ∈ d ++ [(x, f)]) by set_solver.
      destruct (runs_validate _ n s2 x f HI3 (sload_typed _ Hsub) (sload_has _ x f Hin) Hx)
        as [(_ & s3 & k & E3 & -> & _)|[Hn _]]; [|done].
      left. by exists s2, k.
    - eapply inv_equiv; [done|]. intros t. split; [done|].
      intros (x & f & Hx & _). by apply elem_of_nil in Hx.
  Qed.
  Lemma parse_hangs fuel d s : p_graph s = g0 -> (forall e, e ∈ es -> Faultless e) ->
    ~ (forall e, e ∈ es -> Loops fuel e.1) -> exists s', parse_ontology fuel d s = (s', Err OutOfFuel).
  Proof.
    intros Hg HF HL.
    assert (HI : Inv (fun _ => False) (p_next s) s).
    { split; [intros t; rewrite Hg; tauto|]. split; [done|done]. }
    destruct (fine_phase1 fuel _ _ HI HF) as [(s' & y & E1 & _)|(s' & E1)].
    - destruct (runs_phase1 fuel _ _ HI) as [(HC & _)|(_ & s2 & e & E2)].
      + exfalso. apply HL. intros e He. apply HC in He as [[? _] _]. done.
      + exfalso. pose proof (eq_trans (eq_sym E1) E2) as E3. discriminate E3.
    - exists s'. unfold Yml.parse_ontology, mbind at 1. by rewrite E1.
  Qed.
End Proofs.
