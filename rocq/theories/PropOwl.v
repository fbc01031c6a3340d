(** C52: installing an OWL ontology described by a YAML document. *)
From stdpp Require Import base list gmap countable relations.
From Coq Require Import String.
From Verif Require Import Prelude Utf8 Text Names Onto OClass PropOnto Yml YmlSpec Owl.
From Verif Require Validator Namespace PropValidator PropNamespace PropYml.
Local Open Scope N_scope.
Local Open Scope list_scope.

(** ** Specification *)

(** What is read from files, besides what YmlSpec.v lists. *)
Record files := Files { fl_str : yaml -> str; fl_source : str -> yaml -> res (N * ograph) }.

(** The description of an OWL ontology. *)
Record description := Desc {
  d_id : str; d_file : str; d_format : option str;
  d_names : list (str * str);          (* namespaces: name, IRI *)
  d_active : list str;                 (* active relationships *)
  d_default : option str;              (* default relationship *)
  d_label : bool                       (* reference_by_label *)
}.
Definition str_list (l : list str) : yaml := YList (map (fun s => YS (SStr s)) l).
Definition str_dict (l : list (str * str)) : yaml := YDict (map (fun ni => (SStr (fst ni), YS (SStr (snd ni)))) l).
(** The dictionary f is a way to write the description: optional entries may be
    left out, and there are no others. *)
Record Describes (f : fields) (D : description) : Prop := {
  ds_keys : forall k v, (k, v) ∈ f -> exists s, k = SStr (lit s) /\
    s ∈ ["identifier"; "ontology_file"; "format"; "namespaces"; "active_relationships";
         "default_relationship"; "reference_by_label"]%string;
  ds_id : get "identifier" f = Some (YS (SStr (d_id D)));
  ds_dot : 46 ∉ d_id D;
  ds_file : get "ontology_file" f = Some (YS (SStr (d_file D)));
  ds_format : get "format" f = (fun s => YS (SStr s)) <$> d_format D;
  ds_names : get "namespaces" f = Some (str_dict (d_names D));
  ds_active : get "active_relationships" f = Some (str_list (d_active D)) \/
              (get "active_relationships" f = None /\ d_active D = []);
  ds_default : get "default_relationship" f = (fun s => YS (SStr s)) <$> d_default D \/
               (get "default_relationship" f = Some (YS Validator.SNone) /\ d_default D = None);
  ds_label : get "reference_by_label" f = Some (YS (Validator.SBool (d_label D))) \/
             (get "reference_by_label" f = None /\ d_label D = false)
}.
Definition format (D : description) : yaml := YS (SStr (default (lit "xml") (d_format D))).
(** A namespace IRI ends with # or /; otherwise # is appended. *)
Definition NsOf (i j : str) : Prop :=
  (EndsWithHashOrSlash i /\ j = i) \/ (~ EndsWithHashOrSlash i /\ j = i ++ lit "#").

(** A copy of the graph of a file with new blank nodes. *)
Definition NodeOf (n : N) (t t' : term) : Prop :=
  (exists i, t = BN i /\ t' = BN (n + i)) \/ ((forall i, t <> BN i) /\ t' = t).
Definition CopyOf (n : N) (t t' : otriple) : Prop :=
  NodeOf n (fst (fst t)) (fst (fst t')) /\ snd (fst t) = snd (fst t') /\ NodeOf n (snd t) (snd t').
Definition FileTriple (n : N) (file : ograph) (t : otriple) : Prop := exists u, u ∈ file /\ CopyOf n u t.

Section Spec.
  Variable R : rdf.
  Notation iri i := (IRI (r_num R i)).
  Definition cuba_active : str := lit "http://www.osp-core.com/cuba#activeRelationship".
  Inductive DescSays (D : description) : otriple -> Prop :=
  | DS_active r : r ∈ d_active D -> DescSays D (iri r, p_subPropertyOf, iri cuba_active)
  | DS_default n i j r : (n, i) ∈ d_names D -> NsOf i j -> d_default D = Some r ->
      DescSays D (iri j, p_default_rel, iri r)
  | DS_label n i j : (n, i) ∈ d_names D -> NsOf i j -> d_label D = true ->
      DescSays D (iri j, p_reference_by_label, LIT (r_true R)).
  Definition IsRelationship (g : ograph) (r : str) : Prop := (iri r, p_type, owl_ObjectProperty) ∈ g.
End Spec.

(** the blank nodes of the graph come before the next one *)
Definition Bounded (s : pst) : Prop :=
  forall a p b, (a, p, b) ∈ p_graph s -> forall n, a = BN n \/ b = BN n -> n < p_next s.
(** a source numbers its k blank nodes below k *)
Definition Numbered (k : N) (g : ograph) : Prop :=
  forall a p b, (a, p, b) ∈ g -> forall n, a = BN n \/ b = BN n -> n < k.

(** [Parser.parse] of a loaded document *)
Definition load (R : rdf) (F : files) (fuel : nat) (y : yaml) (st : Namespace.store) (s : pst) :=
  parse_file (r_num R) (r_text R) (r_en R) (r_lit R) (r_true R) (r_one R) (r_pick R) (r_installed R)
    (fl_str F) (fl_source F) fuel y st s.

(** ** Lemmas *)
Lemma get_lookup k f v : get k f = Some v -> (SStr (lit k), v) ∈ f.
Proof. intros H. apply elem_of_list_In. by apply PropValidator.lookup_In. Qed.
Lemma has_key k f v : get k f = Some v -> existsb (fun kv : scalar * yaml => is_key (lit k) (fst kv)) f = true.
Proof.
  intros H. apply existsb_exists. exists (SStr (lit k), v). split; [by apply elem_of_list_In, get_lookup|].
  cbn. apply str_eqb_refl.
Qed.
Lemma has_no_key k f : existsb (fun kv : scalar * yaml => is_key (lit k) (fst kv)) f = true <-> exists v, get k f = Some v.
Proof.
  split; [|intros [v Hv]; by eapply has_key]. unfold get. induction f as [|[k' v] f IH]; [done|]. cbn [existsb Validator.lookup fst].
  destruct k' as [| | | |s|]; cbn [is_key]; try (intros H; by apply IH).
  destruct (str_eqb (lit k) s); [by exists v|]. intros H. by apply IH.
Qed.

Lemma infix_char c s : infix [c] s = true <-> c ∈ s.
Proof.
  induction s as [|x s IH]; [split; [done|intros H; by apply elem_of_nil in H]|].
  cbn [infix]. rewrite orb_true_iff, IH, elem_of_cons. cbn [startswith].
  rewrite andb_true_r. rewrite N.eqb_eq. tauto.
Qed.

Lemma endswith_char c s : endswith [c] s = true <-> exists q, s = q ++ [c].
Proof.
  unfold endswith. cbn [rev app]. split.
  - destruct (rev s) as [|x l] eqn:E; [done|]. cbn [startswith]. rewrite andb_true_r, N.eqb_eq. intros <-.
    exists (rev l). rewrite <- (rev_involutive s), E. done.
  - intros [q ->]. rewrite rev_app_distr. cbn. by rewrite N.eqb_refl.
Qed.
Lemma ends_dec i : endswith (lit "#") i || endswith (lit "/") i = true <-> EndsWithHashOrSlash i.
Proof.
  rewrite orb_true_iff. change (lit "#") with [35]. change (lit "/") with [47]. rewrite !endswith_char.
  unfold EndsWithHashOrSlash. change (lit "#") with [35]. change (lit "/") with [47]. split.
  - intros [[q H]|[q H]]; exists q; tauto.
  - intros [q [H|H]]; [left|right]; by exists q.
Qed.
Lemma norm_spec i j : NsOf i j <-> j = norm_iri i.
Proof.
  unfold NsOf, norm_iri. pose proof (ends_dec i) as H.
  destruct (endswith (lit "#") i || endswith (lit "/") i).
  - split; [intros [[_ ->]|[Hn _]]; [done|]; destruct Hn; by apply H|]. intros ->. left. split; [by apply H|done].
  - assert (Hn : ~ EndsWithHashOrSlash i) by (intros X; apply H in X; done). split; [intros [[Hh _]|[_ ->]]; [by destruct Hn|done]|].
    intros ->. by right.
Qed.
Lemma norm_nonempty i : norm_iri i <> [].
Proof.
  unfold norm_iri. destruct (_ || _) eqn:E; [|by intros H; apply app_eq_nil in H as [_ ?]].
  apply ends_dec in E as [q [-> | ->]]; by intros H; apply app_eq_nil in H as [_ ?].
Qed.

Lemma node_of n t t' : NodeOf n t t' <-> t' = rename_term n t.
Proof.
  unfold NodeOf. destruct t as [i|i|i]; cbn; split.
  1,5: intros [(? & ? & _)|[_ ?]]; congruence.
  1,4: intros ->; right; by split.
  - intros [(? & [= <-] & ->)|[H _]]; [done|by destruct (H i)].
  - intros ->. left. by exists i.
Qed.
Lemma in_rename n g t : t ∈ rename n g <-> FileTriple n g t.
Proof.
  unfold rename, FileTriple. rewrite elem_of_map. split.
  - intros (u & -> & Hu). exists u. split; [done|]. destruct u as [[a p] b]. cbn. split; [|split; [done|]]; by apply node_of.
  - intros (u & Hu & H1 & H2 & H3). exists u. split; [|done]. destruct u as [[a p] b], t as [[a' p'] b']. cbn in *.
    apply node_of in H1 as ->. apply node_of in H3 as ->. by subst p'.
Qed.

Lemma bind_all_spec (l : list (str * str)) st :
  bind_all (map (fun ni => (SStr (fst ni), YS (SStr (snd ni)))) l) st =
  (foldl (fun st ni => Namespace.ns_bind (fst ni) (norm_iri (snd ni)) st) st l, Ok (map (fun ni => norm_iri (snd ni)) l)).
Proof.
  revert st. induction l as [|[n i] l IH]; intros st; [done|]. cbn [map bind_all fst snd foldl]. by rewrite IH.
Qed.

Section Active.
  Variable R : rdf.
  Variable F : files.
  Notation iri i := (IRI (r_num R i)).
  Notation add_active := (add_active (r_num R) (fl_str F)).
  Definition act_triple (r : str) : otriple := (iri r, p_subPropertyOf, iri cuba_active).
  Definition act_triples (l : list str) : ograph := list_to_set (map act_triple l).

  Lemma act_type l g r : IsRelationship R (act_triples l ∪ g) r <-> IsRelationship R g r.
  Proof.
    unfold IsRelationship, act_triples. rewrite elem_of_union, elem_of_list_to_set, elem_of_list_fmap. split; [|by right].
    intros [(x & [= _ ?] & _)|?]; done.
  Qed.
  Lemma add_active_spec l g :
    (forall r, r ∈ l -> IsRelationship R g r) ->
    add_active (map (fun s => YS (SStr s)) l) g = (act_triples l ∪ g, None).
  Proof.
    revert g. induction l as [|r l IH]; intros g H; cbn [map Owl.add_active uriref].
    - unfold act_triples. cbn. f_equal. by rewrite (left_id_L ∅ (∪)).
    - rewrite decide_True by (apply H; by left). rewrite IH.
      + f_equal. unfold act_triples. cbn [map list_to_set]. unfold act_triple at 2. set_solver.
      + intros x Hx. assert (Hx' : IsRelationship R g x) by (apply H; by right).
        unfold IsRelationship in *. by apply elem_of_union_r.
  Qed.
  (** up to the first one that is no relationship *)
  Lemma add_active_bad l1 r l2 g :
    (forall r', r' ∈ l1 -> IsRelationship R g r') -> ~ IsRelationship R g r ->
    add_active (map (fun s => YS (SStr s)) (l1 ++ r :: l2)) g = (act_triples l1 ∪ g, Some ValueError).
  Proof.
    revert g. induction l1 as [|x l1 IH]; intros g H Hr; cbn [app map Owl.add_active uriref].
    - rewrite decide_False by done. unfold act_triples. cbn. f_equal. by rewrite (left_id_L ∅ (∪)).
    - rewrite decide_True by (apply H; by left). rewrite IH.
      + f_equal. unfold act_triples. cbn [map list_to_set]. unfold act_triple at 2. set_solver.
      + intros y Hy. assert (Hy' : IsRelationship R g y) by (apply H; by right).
        unfold IsRelationship in *. by apply elem_of_union_r.
      + intros X. apply Hr. change ({[(iri x, p_subPropertyOf, iri Owl.active_rel)]} : ograph) with ({[act_triple x]} : ograph) in X.
        apply elem_of_union in X as [X|X]; [|done]. apply elem_of_singleton in X. discriminate X.
  Qed.
End Active.

Lemma keys_ok_describes f D : Describes f D -> keys_ok f = true.
Proof.
  intros [K1 K2 K3 K4 K5 K6 _ _ _]. unfold keys_ok. rewrite K2, K6.
  apply andb_true_intro. split; [|done]. apply andb_true_intro. split; [|by apply bool_decide_eq_true; eexists].
  apply forallb_forall. intros [k v] Hin. apply elem_of_list_In in Hin.
  destruct (K1 k v Hin) as (s & -> & Hs). cbn [fst]. apply existsb_exists. exists (lit s). split; [|apply str_eqb_refl].
  unfold all_keys. apply in_map. apply elem_of_list_In. clear -Hs. set_solver.
Qed.
Lemma describes_no_dot f D : Describes f D -> contains (lit ".") (YS (SStr (d_id D))) = Ok false.
Proof.
  intros H. cbn [contains]. f_equal. change (lit ".") with [46]. apply not_true_is_false. rewrite infix_char. apply (ds_dot _ _ H).
Qed.
Lemma describes_dispatch R F fuel f D st s : Describes f D ->
  load R F fuel (YDict f) st s = parse_rdf (r_num R) (r_true R) (fl_str F) (fl_source F) f (d_file D) st s.
Proof.
  intros H. pose proof H as [K1 K2 K3 K4 K5 K6 K7 K8 K9]. unfold load, parse_file.
  assert (E1 : is_yaml_ontology (YDict f) = Ok false).
  { unfold is_yaml_ontology, contains_both, contains.
    destruct (existsb _ f) eqn:E; [|done]. apply (has_no_key "ontology") in E as [v Hv].
    apply get_lookup, K1 in Hv as (s' & [= E] & Hs). exfalso. change (lit "ontology" = lit s') in E.
    clear -E Hs. repeat (apply elem_of_cons in Hs as [-> |Hs]; [by vm_compute in E|]). by apply elem_of_nil in Hs. }
  rewrite E1. unfold is_owl, contains_both, contains.
  rewrite (has_key "ontology_file" f _ K4), (has_key "identifier" f _ K2).
  unfold parse_owl. rewrite K2, K4. rewrite (describes_no_dot f D H), (keys_ok_describes f D H). done.
Qed.

Definition bind_names (l : list (str * str)) (st : Namespace.store) : Namespace.store :=
  foldl (fun st ni => Namespace.ns_bind (fst ni) (norm_iri (snd ni)) st) st l.

Lemma parse_rdf_ok R F f D st s k g :
  Describes f D -> fl_source F (d_file D) (format D) = Ok (k, g) ->
  let g1 := rename (p_next s) g ∪ p_graph s in
  parse_rdf (r_num R) (r_true R) (fl_str F) (fl_source F) f (d_file D) st s =
  (bind_names (d_names D) st,
   match add_active (r_num R) (fl_str F) (map (fun s => YS (SStr s)) (d_active D)) g1 with
   | (g2, Some e) => (Pst g2 (p_next s + k), Err e)
   | (g2, None) =>
       (Pst (add_styles (r_num R) (r_true R) (map (fun ni => norm_iri (snd ni)) (d_names D)) (d_label D)
              (match d_default D with
               | Some r => list_to_set (map (fun i => (IRI (r_num R i), p_default_rel, IRI (r_num R r)))
                                          (map (fun ni => norm_iri (snd ni)) (d_names D))) ∪ g2
               | None => g2
               end)) (p_next s + k), Ok tt)
   end).
Proof.
  intros H Hs g1. pose proof H as [K1 K2 K3 K4 K5 K6 K7 K8 K9]. unfold parse_rdf.
  assert (Ef : default (YS (SStr (lit "xml"))) (get "format" f) = format D).
  { rewrite K5. unfold format. by destruct (d_format D). }
  rewrite Ef, Hs, K6. unfold str_dict. rewrite bind_all_spec. f_equal.
  assert (Ea : iterate (default (YList []) (get "active_relationships" f)) = Ok (map (fun s => YS (SStr s)) (d_active D))).
  { destruct K7 as [-> | [-> ->]]; done. }
  rewrite Ea. destruct (Owl.add_active _ _ _ _) as [g2 [e|]]; [done|].
  assert (Ed : add_default (r_num R) (fl_str F) (map (fun ni => norm_iri (snd ni)) (d_names D)) (get "default_relationship" f) g2 =
     (match d_default D with
               | Some r => list_to_set (map (fun i => (IRI (r_num R i), p_default_rel, IRI (r_num R r)))
                                          (map (fun ni => norm_iri (snd ni)) (d_names D))) ∪ g2
               | None => g2
               end, None)).
  { destruct K8 as [-> | [-> ->]]; [|done]. destruct (d_default D) as [r|]; [|done]. cbn [fmap option_fmap option_map add_default].
    destruct (d_names D) as [|x l]; cbn [map]; [|done]. f_equal. cbn. by rewrite (left_id_L ∅ (∪)). }
  rewrite Ed. f_equal. f_equal. f_equal. destruct K9 as [-> | [-> ->]]; done.
Qed.

(** ** C52 *)

(** An accepted description adds a copy of the file and what the description says,
    nothing else; every namespace is bound. *)
Theorem C52_exact : forall R F fuel f D st s k g,
  Describes f D -> fl_source F (d_file D) (format D) = Ok (k, g) ->
  (forall r, r ∈ d_active D -> IsRelationship R (p_graph s) r \/ IsRelationship R g r) ->
  exists s', load R F fuel (YDict f) st s = (bind_names (d_names D) st, (s', Ok tt)) /\
    p_next s' = p_next s + k /\
    forall t, t ∈ p_graph s' <-> t ∈ p_graph s \/ FileTriple (p_next s) g t \/ DescSays R D t.
Proof.
  intros R F fuel f D st s k g H Hs Ha. rewrite (describes_dispatch R F fuel f D st s H).
  rewrite (parse_rdf_ok R F f D st s k g H Hs). rewrite add_active_spec.
  2: { intros r Hr. unfold IsRelationship. rewrite elem_of_union. destruct (Ha r Hr) as [X|X]; [by right|left].
       apply in_rename. exists (IRI (r_num R r), p_type, owl_ObjectProperty). split; [done|]. split; [|split; [done|]];
       right; done. }
  eexists. split; [reflexivity|]. split; [done|]. intros t. cbn [p_graph].
  assert (E : forall (P : Prop) (X Y : ograph) , (t ∈ X <-> P) -> (t ∈ X ∪ Y <-> P \/ t ∈ Y)) by (intros; set_solver).
  set (G1 := act_triples R (d_active D) ∪ (rename (p_next s) g ∪ p_graph s)).
  assert (H1 : t ∈ G1 <-> t ∈ p_graph s \/ FileTriple (p_next s) g t \/ exists r, r ∈ d_active D /\ t = act_triple R r).
  { unfold G1, act_triples. rewrite !elem_of_union, in_rename, elem_of_list_to_set, elem_of_list_fmap.
    split; [intros [(r & -> & Hr)|[?|?]]; eauto 8|]. intros [?|[?|(r & Hr & ->)]]; eauto. }
  match goal with |- t ∈ add_styles _ _ _ _ ?X <-> _ => set (G2 := X) end.
  assert (H2 : t ∈ G2 <-> t ∈ G1 \/ exists n i r, (n, i) ∈ d_names D /\ d_default D = Some r /\
                 t = (IRI (r_num R (norm_iri i)), p_default_rel, IRI (r_num R r))).
  { unfold G2. destruct (d_default D) as [r|].
    - rewrite elem_of_union, elem_of_list_to_set, elem_of_list_fmap. split.
      + intros [(j & -> & Hj)|?]; [|by left]. apply elem_of_list_fmap in Hj as ([n i] & -> & Hi). right. by exists n, i, r.
      + intros [?|(n & i & r' & Hi & [= <-] & ->)]; [by right|left]. exists (norm_iri i). split; [done|].
        apply elem_of_list_fmap. by exists (n, i).
    - split; [by left|]. intros [?|(n & i & r & _ & ? & _)]; [done|discriminate]. }
  assert (H3 : t ∈ add_styles (r_num R) (r_true R) (map (fun ni : str * str => norm_iri (snd ni)) (d_names D)) (d_label D) G2 <->
     t ∈ G2 \/ exists n i, (n, i) ∈ d_names D /\ d_label D = true /\
                 t = (IRI (r_num R (norm_iri i)), p_reference_by_label, LIT (r_true R))).
  { unfold add_styles. destruct (d_label D).
    - rewrite elem_of_union, elem_of_list_to_set, elem_of_list_fmap. split.
      + intros [(j & -> & Hj)|?]; [|by left]. apply elem_of_list_fmap in Hj as ([n i] & -> & Hi). right. by exists n, i.
      + intros [?|(n & i & Hi & _ & ->)]; [by right|left]. exists (norm_iri i). split; [done|].
        apply elem_of_list_fmap. by exists (n, i).
    - split; [by left|]. intros [?|(n & i & _ & ? & _)]; [done|discriminate]. }
  rewrite H3, H2, H1. split.
  - intros [[[?|[?|(r & Hr & ->)]]|(n & i & r & Hi & Hd & ->)]|(n & i & Hi & Hl & ->)]; [by left|right; by left|..]; right; right.
    + by constructor.
    + apply (DS_default R D n i); [done|by apply norm_spec|done].
    + apply (DS_label R D n i); [done|by apply norm_spec|done].
  - intros [?|[?|HD]]; [by left; left; left|by left; left; right; left|]. destruct HD as [r Hr|n i j r Hi Hj Hd|n i j Hi Hj Hl].
    + left; left; right; right. by exists r.
    + apply norm_spec in Hj as ->. left; right. by exists n, i, r.
    + apply norm_spec in Hj as ->. right. by exists n, i.
Qed.

(** An active relationship that is not there is refused, but only after the triples
    of the file and those of the relationships listed before it were added. *)
Theorem C52_bad_active : forall R F fuel f D st s k g l1 r l2,
  Describes f D -> fl_source F (d_file D) (format D) = Ok (k, g) ->
  d_active D = l1 ++ r :: l2 ->
  (forall r', r' ∈ l1 -> IsRelationship R (p_graph s) r' \/ IsRelationship R g r') ->
  ~ IsRelationship R (p_graph s) r -> ~ IsRelationship R g r ->
  exists s', load R F fuel (YDict f) st s = (bind_names (d_names D) st, (s', Err ValueError)) /\
    p_next s' = p_next s + k /\
    forall t, t ∈ p_graph s' <-> t ∈ p_graph s \/ FileTriple (p_next s) g t \/
      exists r', r' ∈ l1 /\ t = (IRI (r_num R r'), p_subPropertyOf, IRI (r_num R cuba_active)).
Proof.
  intros R F fuel f D st s k g l1 r l2 H Hs El Ha Hr1 Hr2. rewrite (describes_dispatch R F fuel f D st s H).
  rewrite (parse_rdf_ok R F f D st s k g H Hs). rewrite El, add_active_bad.
  - eexists. split; [reflexivity|]. split; [done|]. intros t. cbn [p_graph].
    unfold act_triples. rewrite !elem_of_union, in_rename, elem_of_list_to_set, elem_of_list_fmap.
    split; [intros [(r' & -> & Hr)|[?|?]]; eauto 8|]. intros [?|[?|(r' & Hr & ->)]]; eauto.
  - intros r' Hr'. unfold IsRelationship. rewrite elem_of_union. destruct (Ha r' Hr') as [X|X]; [by right|left].
    apply in_rename. exists (IRI (r_num R r'), p_type, owl_ObjectProperty). split; [done|]. split; [|split; [done|]];
    right; done.
  - unfold IsRelationship. rewrite elem_of_union, in_rename. intros [(u & Hu & H1 & H2 & H3)|?]; [|done].
    destruct u as [[a p] b]. cbn in *. subst p.
    destruct H1 as [(i & _ & ?)|[_ Ea]]; [done|]. destruct H3 as [(i & _ & ?)|[_ Eb]]; [done|]; by rewrite <- Ea, <- Eb in Hu.
Qed.

(** Documents that are refused before the file is read change nothing. *)
Definition OwlKeys (f : fields) : Prop :=
  is_Some (get "ontology_file" f) /\ is_Some (get "identifier" f) /\ (get "ontology" f = None \/ get "namespace" f = None).
Lemma owl_dispatch R F fuel f st s : OwlKeys f ->
  load R F fuel (YDict f) st s = parse_owl (r_num R) (r_true R) (fl_str F) (fl_source F) (YDict f) st s.
Proof.
  intros ([v1 H1] & [v2 H2] & H3). unfold load, parse_file.
  assert (E : is_yaml_ontology (YDict f) = Ok false).
  { unfold is_yaml_ontology, contains_both, contains.
    destruct (existsb (fun kv : scalar * yaml => is_key (lit "ontology") (fst kv)) f) eqn:E1; [|done]. f_equal.
    destruct (existsb (fun kv : scalar * yaml => is_key (lit "namespace") (fst kv)) f) eqn:E2; [|done].
    apply (has_no_key "ontology") in E1 as [? E1]. apply (has_no_key "namespace") in E2 as [? E2]. destruct H3; congruence. }
  rewrite E. unfold is_owl, contains_both, contains. by rewrite (has_key _ f _ H1), (has_key _ f _ H2).
Qed.
Theorem C52_refused : forall R F fuel f st s id p,
  OwlKeys f -> get "identifier" f = Some (YS (SStr id)) -> get "ontology_file" f = Some (YS (SStr p)) ->
  (* a dot in the identifier *)
  (46 ∈ id -> load R F fuel (YDict f) st s = (st, (s, Err ValueError))) /\
  (* an unknown key, such as "requirements" *)
  (46 ∉ id -> (exists k v, (k, v) ∈ f /\ forall a, k = SStr (lit a) ->
       a ∉ ["identifier"; "ontology_file"; "format"; "namespaces"; "active_relationships";
            "default_relationship"; "reference_by_label"]%string) ->
     load R F fuel (YDict f) st s = (st, (s, Err TypeError))) /\
  (* no namespaces *)
  (46 ∉ id -> get "namespaces" f = None -> load R F fuel (YDict f) st s = (st, (s, Err TypeError))).
Proof.
  intros R F fuel f st s id p HK Hid Hp. rewrite (owl_dispatch _ _ _ _ _ _ HK). unfold parse_owl. rewrite Hid, Hp.
  cbn [contains]. change (lit ".") with [46]. split; [|split].
  - intros Hd. apply infix_char in Hd. by rewrite Hd.
  - intros Hd (k & v & Hin & Hbad). assert (infix [46] id = false) as -> by (apply not_true_is_false; by rewrite infix_char).
    assert (keys_ok f = false) as ->; [|done]. unfold keys_ok. apply not_true_is_false. intros X.
    apply andb_prop in X as [X _]. apply andb_prop in X as [X _]. rewrite forallb_forall in X.
    specialize (X (k, v) (proj1 (elem_of_list_In _ _) Hin)). cbn [fst] in X. destruct k as [| | | |k|]; try discriminate X.
    apply existsb_exists in X as (k' & Hk' & E). destruct (str_eqb_spec k k') as [<-|]; [|discriminate E].
    unfold all_keys in Hk'. apply in_map_iff in Hk' as (a & <- & Ha). apply (Hbad a eq_refl).
    apply elem_of_list_In in Ha. clear -Ha. set_solver.
  - intros Hd Hn. assert (infix [46] id = false) as -> by (apply not_true_is_false; by rewrite infix_char).
    assert (keys_ok f = false) as ->; [|done]. unfold keys_ok. rewrite Hn. apply not_true_is_false. intros X.
    apply andb_prop in X as [X _]. apply andb_prop in X as [_ X]. apply bool_decide_eq_true in X. by destruct X.
Qed.
(** An empty file, and a document that has neither the keys of a YAML ontology nor
    those of an OWL description, are refused and change nothing. *)
Theorem C52_unrecognised : forall R F fuel st s,
  load R F fuel (YS Validator.SNone) st s = (st, (s, Err SyntaxError)) /\
  forall f, get "ontology" f = None \/ get "namespace" f = None ->
    get "ontology_file" f = None \/ get "identifier" f = None ->
    load R F fuel (YDict f) st s = (st, (s, Err SyntaxError)) /\
    get_identifier (YDict f) = Err SyntaxError /\ get_namespace_names (YDict f) = Err SyntaxError.
Proof.
  intros R F fuel st s. split; [reflexivity|]. intros f H1 H2.
  assert (X : forall k : string, get k f = None -> existsb (fun kv : scalar * yaml => is_key (lit k) (fst kv)) f = false).
  { intros k Hk. destruct (existsb _ f) eqn:E; [|done]. apply (has_no_key k) in E as [? E]. congruence. }
  assert (E1 : is_yaml_ontology (YDict f) = Ok false).
  { unfold is_yaml_ontology, contains_both, contains. destruct H1 as [H1|H1]; apply X in H1; rewrite H1; [done|].
    by destruct (existsb (fun kv : scalar * yaml => is_key (lit "ontology") (fst kv)) f). }
  assert (E2 : is_owl (YDict f) = Ok false).
  { unfold is_owl, contains_both, contains. destruct H2 as [H2|H2]; apply X in H2; rewrite H2; [done|].
    by destruct (existsb (fun kv : scalar * yaml => is_key (lit "ontology_file") (fst kv)) f). }
  unfold load, parse_file, get_identifier, get_namespace_names. by rewrite E1, E2.
Qed.
(** A file that cannot be read changes nothing. *)
Theorem C52_unreadable : forall R F fuel f D st s e,
  Describes f D -> fl_source F (d_file D) (format D) = Err e -> load R F fuel (YDict f) st s = (st, (s, Err e)).
Proof.
  intros R F fuel f D st s e H Hs. rewrite (describes_dispatch R F fuel f D st s H). unfold parse_rdf.
  assert (Ef : default (YS (SStr (lit "xml"))) (get "format" f) = format D).
  { rewrite (ds_format _ _ H). unfold format. by destruct (d_format D). }
  by rewrite Ef, Hs.
Qed.

Lemma add_active_inv num pystr l g g' e : add_active num pystr l g = (g', e) ->
  g ⊆ g' /\ (forall t, t ∈ g' -> t ∈ g \/ exists r, t = (IRI (num r), p_subPropertyOf, IRI (num active_rel))) /\
  (e = None -> forall r, YS (SStr r) ∈ l -> (IRI (num r), p_type, owl_ObjectProperty) ∈ g' /\
                                           (IRI (num r), p_subPropertyOf, IRI (num active_rel)) ∈ g').
Proof.
  revert g. induction l as [|y l IH]; intros g H; cbn [add_active] in H.
  - injection H as <- <-. split; [done|]. split; [by left|]. intros _ r Hr. by apply elem_of_nil in Hr.
  - destruct (uriref pystr y) as [r|e'] eqn:E.
    2: { injection H as <- <-. split; [done|]. split; [by left|]. done. }
    case_decide as Hd.
    2: { injection H as <- <-. split; [done|]. split; [by left|]. done. }
    destruct (IH _ H) as (H1 & H2 & H3). split; [clear -H1; set_solver|]. split.
    + intros t Ht. destruct (H2 t Ht) as [Hx|?]; [|by right]. apply elem_of_union in Hx as [Hx|?]; [|by left].
      apply elem_of_singleton in Hx as ->. right. by exists r.
    + intros He r' Hr'. apply elem_of_cons in Hr' as [<-|Hr']; [|by apply H3].
      cbn in E. injection E as <-. split; apply H1; apply elem_of_union; [by right|left; by apply elem_of_singleton].
Qed.
Lemma add_default_inv num pystr iris d g g' e : add_default num pystr iris d g = (g', e) ->
  g ⊆ g' /\ (forall t, t ∈ g' -> t ∈ g \/ exists i r, t = (IRI (num i), p_default_rel, IRI (num r))).
Proof.
  unfold add_default. intros H.
  assert (Hs : (g', e) = (g, e) -> g ⊆ g' /\ (forall t, t ∈ g' -> t ∈ g \/ exists i r, t = (IRI (num i), p_default_rel, IRI (num r))))
    by (intros [= ->]; split; [done|by left]).
  repeat case_match; simplify_eq; try by apply Hs.
  all: split; [set_solver|]; intros t Ht; apply elem_of_union in Ht as [Ht|?]; [|by left]; right;
    apply elem_of_list_to_set, elem_of_list_fmap in Ht as (i & -> & _); by eauto.
Qed.
Lemma add_styles_inv num ltrue iris b g t :
  (t ∈ g -> t ∈ add_styles num ltrue iris b g) /\
  (t ∈ add_styles num ltrue iris b g -> t ∈ g \/ exists i, t = (IRI (num i), p_reference_by_label, LIT ltrue)).
Proof.
  unfold add_styles. destruct b; [|by split; [|left]]. split; [set_solver|]. intros Ht.
  apply elem_of_union in Ht as [Ht|?]; [|by left]. right.
  apply elem_of_list_to_set, elem_of_list_fmap in Ht as (i & -> & _). by exists i.
Qed.

(** the two ways a document can end in [parse_rdf] *)
Lemma parse_rdf_inv num ltrue pystr source f p st s st' s' r :
  parse_rdf num ltrue pystr source f p st s = (st', (s', r)) ->
  (exists e, r = Err e /\ st' = st /\ s' = s) \/
  exists k g, source p (default (YS (SStr (lit "xml"))) (get "format" f)) = Ok (k, g) /\
    p_next s' = p_next s + k /\ p_graph s ⊆ p_graph s' /\ rename (p_next s) g ⊆ p_graph s' /\
    (forall t, t ∈ p_graph s' -> t ∈ p_graph s \/ t ∈ rename (p_next s) g \/
       exists i q o, t = (IRI i, q, o) /\ (forall n, o <> BN n)).
Proof.
  unfold parse_rdf. intros H. destruct (source p _) as [[k g]|e] eqn:Es.
  2: { injection H as <- <- <-. left. by exists e. }
  right. exists k, g. split; [done|]. cbv zeta in H.
  set (g1 := rename (p_next s) g ∪ p_graph s) in *.
  assert (G : forall g', s' = Pst g' (p_next s + k) -> g1 ⊆ g' ->
     (forall t, t ∈ g' -> t ∈ g1 \/ exists i q o, t = (IRI i, q, o) /\ (forall n, o <> BN n)) ->
     p_next s' = p_next s + k /\ p_graph s ⊆ p_graph s' /\ rename (p_next s) g ⊆ p_graph s' /\
    (forall t, t ∈ p_graph s' -> t ∈ p_graph s \/ t ∈ rename (p_next s) g \/
       exists i q o, t = (IRI i, q, o) /\ (forall n, o <> BN n))).
  { intros g' -> H1 H2. cbn. split; [done|]. split; [clear -H1; set_solver|]. split; [clear -H1; set_solver|]. intros t Ht.
    destruct (H2 t Ht) as [Hx|?]; [|by right; right]. unfold g1 in Hx. apply elem_of_union in Hx as [?|?]; [by right; left|by left]. }
  assert (Same : g1 ⊆ g1 /\ (forall t, t ∈ g1 -> t ∈ g1 \/ exists i q o, t = (IRI i, q, o) /\ (forall n, o <> BN n)))
    by (split; [done|by left]).
  destruct (get "namespaces" f) as [[ | |items]|]; try (injection H as <- <- <-; apply (G g1); [reflexivity|apply Same|apply Same]).
  destruct (bind_all items st) as [st1 [iris|e]]; [|injection H as <- <- <-; apply (G g1); [reflexivity|apply Same|apply Same]].
  injection H as <- H. destruct (iterate _) as [rels|e]; [|injection H as <- <-; apply (G g1); [reflexivity|apply Same|apply Same]].
  destruct (add_active num pystr rels g1) as [g2 e2] eqn:E2. apply add_active_inv in E2 as (A1 & A2 & _).
  assert (A3 : forall t, t ∈ g2 -> t ∈ g1 \/ exists i q o, t = (IRI i, q, o) /\ (forall n, o <> BN n)).
  { intros t Ht. destruct (A2 t Ht) as [?|(r0 & ->)]; [by left|right]. eexists _, _, _. split; [reflexivity|]. done. }
  destruct e2 as [e2|]; [injection H as <- <-; by apply (G g2)|].
  destruct (add_default num pystr iris (get "default_relationship" f) g2) as [g3 e3] eqn:E3. apply add_default_inv in E3 as (B1 & B2).
  assert (B3 : forall t, t ∈ g3 -> t ∈ g1 \/ exists i q o, t = (IRI i, q, o) /\ (forall n, o <> BN n)).
  { intros t Ht. destruct (B2 t Ht) as [?|(i0 & r0 & ->)]; [by apply A3|right]. eexists _, _, _. split; [reflexivity|]. done. }
  destruct e3 as [e3|]; [injection H as <- <-; apply (G g3); [done|clear -A1 B1; set_solver|done]|].
  injection H as <- <-. eapply G; [reflexivity| |].
  - intros t Ht. apply add_styles_inv. clear -A1 B1 Ht. set_solver.
  - intros t Ht. apply add_styles_inv in Ht as [?|(i0 & ->)]; [by apply B3|right]. eexists _, _, _. split; [reflexivity|]. done.
Qed.

(** Only well-formed descriptions are accepted: the keys are known, the identifier
    has no dot, the file can be read, namespaces are a dictionary of strings and
    every listed active relationship is a relationship, and now an active one. *)
Theorem C52_accepted : forall R F fuel f st s st' s',
  OwlKeys f -> load R F fuel (YDict f) st s = (st', (s', Ok tt)) ->
  (forall k v, (k, v) ∈ f -> exists a, k = SStr (lit a) /\
     a ∈ ["identifier"; "ontology_file"; "format"; "namespaces"; "active_relationships";
          "default_relationship"; "reference_by_label"]%string) /\
  (exists id, get "identifier" f = Some (YS (SStr id)) /\ 46 ∉ id) /\
  (exists names, get "namespaces" f = Some (str_dict names)) /\
  (exists p k g, get "ontology_file" f = Some (YS (SStr p)) /\
     fl_source F p (default (YS (SStr (lit "xml"))) (get "format" f)) = Ok (k, g) /\
     forall t, FileTriple (p_next s) g t -> t ∈ p_graph s') /\
  (forall l r, get "active_relationships" f = Some (YList l) -> YS (SStr r) ∈ l ->
     IsRelationship R (p_graph s') r /\ (IRI (r_num R r), p_subPropertyOf, IRI (r_num R cuba_active)) ∈ p_graph s').
Proof.
  intros R F fuel f st s st' s' HK H. rewrite (owl_dispatch _ _ _ _ _ _ HK) in H. unfold parse_owl in H.
  destruct (get "identifier" f) as [i|] eqn:Ei; [|done]. destruct (get "ontology_file" f) as [fl|] eqn:Ef; [|done].
  destruct (contains (lit ".") i) as [[]|e] eqn:Ed; [done| |done].
  destruct fl as [[| | | |p|]| |]; try done. destruct (keys_ok f) eqn:Ek; [|done].
  pose proof (parse_rdf_inv _ _ _ _ _ _ _ _ _ _ _ H) as Hinv.
  unfold keys_ok in Ek. apply andb_prop in Ek as [Ek Ek3]. apply andb_prop in Ek as [Ek1 Ek2].
  split; [|split; [|split; [|split]]].
  - intros k v Hin. rewrite forallb_forall in Ek1. specialize (Ek1 (k, v) (proj1 (elem_of_list_In _ _) Hin)). cbn [fst] in Ek1.
    destruct k as [| | | |k|]; try discriminate Ek1. apply existsb_exists in Ek1 as (k' & Hk' & E).
    destruct (str_eqb_spec k k') as [<-|]; [|discriminate E]. unfold all_keys in Hk'. apply in_map_iff in Hk' as (a & <- & Ha).
    exists a. split; [done|]. apply elem_of_list_In in Ha. clear -Ha. set_solver.
  - rewrite Ei in Ek3. destruct i as [i| |]; try discriminate Ek3. destruct i as [| | | |id|]; try discriminate Ed.
    exists id. split; [done|]. cbn in Ed. injection Ed as Ed. change (infix [46] id = false) in Ed.
    intros Hin. apply infix_char in Hin. congruence.
  - apply bool_decide_eq_true in Ek2 as [v Ev]. clear Hinv. unfold parse_rdf in H.
    destruct (fl_source F p _) as [[k g]|]; [|done]. cbv zeta in H. rewrite Ev in H |- *.
    destruct v as [ | |items]; try done. destruct (bind_all items st) as [st1 [iris|e]] eqn:Eb; [|done].
    assert (Hn : exists names : list (str * str), items = map (fun ni => (SStr (fst ni), YS (SStr (snd ni)))) names).
    { clear -Eb. revert st st1 iris Eb. induction items as [|[n v] items IH]; intros st st1 iris Eb; [by exists []|]. cbn [bind_all] in Eb.
      destruct v as [[| | | |v|]| |]; try done. destruct n as [| | | |n|]; try done.
      destruct (bind_all items _) as [st2 [l|]] eqn:E; [|done]. apply IH in E as [names ->]. by exists ((n, v) :: names). }
    destruct Hn as [names ->]. by exists names.
  - destruct Hinv as [(e & ? & _)|(k & g & Hs & _ & _ & Hg & _)]; [done|]. exists p, k, g. split; [done|]. split; [done|].
    intros t Ht. apply Hg. by apply in_rename.
  - intros l r Hl Hr. clear Hinv. unfold parse_rdf in H. destruct (fl_source F p _) as [[k g]|]; [|done]. cbv zeta in H.
    destruct (get "namespaces" f) as [[ | |items]|]; try done. destruct (bind_all items st) as [st1 [iris|e]]; [|done].
    rewrite Hl in H. cbn [default iterate] in H. injection H as <- H.
    destruct (add_active _ _ l _) as [g2 [e2|]] eqn:E2; [done|]. apply add_active_inv in E2 as (_ & _ & A3).
    destruct (A3 eq_refl r Hr) as [A4 A5].
    destruct (add_default _ _ iris _ g2) as [g3 [e3|]] eqn:E3; [done|]. apply add_default_inv in E3 as (B1 & _).
    injection H as <-. cbn [p_graph]. unfold IsRelationship. split; apply add_styles_inv; by apply B1.
Qed.

(** ** Namespaces *)
Lemma bind_names_ok l st : PropNamespace.store_ok st -> PropNamespace.store_ok (bind_names l st).
Proof.
  revert st. induction l as [|[n i] l IH]; intros st H; [done|]. apply IH.
  apply PropNamespace.C43_bind_invariant; [done|apply norm_nonempty].
Qed.
Lemma bind_names_fresh l st : PropNamespace.store_ok st -> base.NoDup (map fst l) ->
  (forall n i, (n, i) ∈ l -> assoc n (Namespace.st_ns st) = None) ->
  Namespace.st_ns (bind_names l st) = Namespace.st_ns st ++ map (fun ni => (fst ni, norm_iri (snd ni))) l.
Proof.
  revert st. induction l as [|[n i] l IH]; intros st Hok Hnd Hf; [by rewrite app_nil_r|].
  cbn [map] in Hnd. apply stdpp.list.NoDup_cons in Hnd as [Hn Hnd].
  assert (E : Namespace.st_ns (Namespace.ns_bind n (norm_iri i) st) = Namespace.st_ns st ++ [(n, norm_iri i)]).
  { apply PropNamespace.ns_bind_fresh; [done|]. apply (Hf n i). by left. }
  change (bind_names ((n, i) :: l) st) with (bind_names l (Namespace.ns_bind n (norm_iri i) st)). rewrite IH.
  - rewrite E, <- app_assoc. done.
  - apply PropNamespace.C43_bind_invariant; [done|apply norm_nonempty].
  - done.
  - intros m j Hm. rewrite E. assert (Hx : assoc m (Namespace.st_ns st) = None) by (apply (Hf m j); by right).
    assert (Hne : m <> n). { intros ->. apply Hn. apply elem_of_list_fmap. by exists (n, j). }
    clear -Hx Hne. induction (Namespace.st_ns st) as [|[a c] b IH]; cbn in *.
    + by destruct (str_eqb_spec m n).
    + destruct (str_eqb m a); [done|]. by apply IH.
Qed.

(** After the installation every namespace of the description is found under its
    name, whatever the case, provided no two names (of the description, or bound
    before) agree up to case. *)
Theorem C52_namespaces : forall R F fuel f D st s st' s' r dict triples,
  Describes f D -> PropNamespace.store_ok st ->
  load R F fuel (YDict f) st s = (st', (s', r)) ->
  (exists k g, fl_source F (d_file D) (format D) = Ok (k, g)) ->
  base.NoDup (map (fun nb => lower (fst nb)) (Namespace.st_ns st ++ d_names D)) ->
  get_namespace_names (YDict f) = Ok (map (fun ni => lower (fst ni)) (d_names D)) /\
  forall n i m, (n, i) ∈ d_names D -> lower m = lower n ->
    exists j, NsOf i j /\
      exists b, Namespace.get_ns (Namespace.update_namespaces (Namespace.Reg st' dict triples)) m =
                  Ok (Namespace.Ns (lower n) j b).
Proof.
  intros R F fuel f D st s st' s' r dict triples H Hok Hl (k & g & Hs) Hnd.
  assert (Hst : st' = bind_names (d_names D) st).
  { rewrite (describes_dispatch R F fuel f D st s H), (parse_rdf_ok R F f D st s k g H Hs) in Hl. by injection Hl as <- _. }
  subst st'. split.
  - unfold get_namespace_names.
    assert (E1 : is_yaml_ontology (YDict f) = Ok false).
    { pose proof (ds_keys _ _ H) as K1. unfold is_yaml_ontology, contains_both, contains.
      destruct (existsb _ f) eqn:E; [|done]. apply (has_no_key "ontology") in E as [v Hv].
      apply get_lookup, K1 in Hv as (s0 & [= E] & Hs0). exfalso. change (lit "ontology" = lit s0) in E.
      clear -E Hs0. repeat (apply elem_of_cons in Hs0 as [-> |Hs0]; [by vm_compute in E|]). by apply elem_of_nil in Hs0. }
    rewrite E1. unfold is_owl, contains_both, contains.
    rewrite (has_key _ f _ (ds_file _ _ H)), (has_key _ f _ (ds_id _ _ H)), (ds_names _ _ H). unfold str_dict.
    clear. induction (d_names D) as [|[n i] l IH]; [done|]. cbn [map Prelude.mapM fst snd]. by rewrite IH.
  - intros n i m Hin Hm. exists (norm_iri i). split; [by apply norm_spec|]. eexists.
    assert (Hnd1 : base.NoDup (map fst (d_names D))).
    { rewrite map_app in Hnd. apply NoDup_app in Hnd as (_ & _ & Hnd).
      apply (NoDup_fmap_1 lower). by rewrite <- list_fmap_compose. }
    assert (Hf : forall n i, (n, i) ∈ d_names D -> assoc n (Namespace.st_ns st) = None).
    { intros n0 i0 Hin0. destruct (assoc n0 (Namespace.st_ns st)) as [j|] eqn:E; [|done]. exfalso.
      apply PropNamespace.assoc_In in E. rewrite map_app in Hnd. apply NoDup_app in Hnd as (_ & Hd & _).
      apply (Hd (lower n0)).
      - apply elem_of_list_fmap. exists (n0, j). split; [done|]. by apply elem_of_list_In.
      - apply elem_of_list_fmap. by exists (n0, i0). }
    pose proof (bind_names_fresh (d_names D) st Hok Hnd1 Hf) as E.
    rewrite (PropNamespace.C43_namespace_case_insensitive _ m n Hm).
    refine (proj1 (PropNamespace.C43_namespace_found _ n (norm_iri i) _ _)).
    + apply PropNamespace.C43_update_namespaces. cbn [Namespace.r_store]. rewrite E. apply NoDup_ListNoDup.
      rewrite map_app, map_map in *. done.
    + cbn [Namespace.update_namespaces Namespace.r_store]. rewrite E. apply in_or_app. right.
      apply in_map_iff. exists (n, i). split; [done|]. by apply elem_of_list_In.
Qed.

(** ** Whatever is loaded, nothing is lost *)
Theorem C52_keeps : forall R F fuel y st s,
  let '(st', (s', r)) := load R F fuel y st s in
  p_graph s ⊆ p_graph s' /\ p_next s <= p_next s' /\
  (PropNamespace.store_ok st -> PropNamespace.store_ok st' /\
     forall q i, assoc q (Namespace.st_ns st) = Some i -> assoc q (Namespace.st_ns st') = Some i).
Proof.
  intros R F fuel y st s. destruct (load R F fuel y st s) as [st' [s' r]] eqn:H.
  assert (Same : st' = st -> s' = s -> p_graph s ⊆ p_graph s' /\ p_next s <= p_next s' /\
    (PropNamespace.store_ok st -> PropNamespace.store_ok st' /\
     forall q i, assoc q (Namespace.st_ns st) = Some i -> assoc q (Namespace.st_ns st') = Some i))
    by (intros -> ->; split; [done|]; split; [lia|]; intros; split; done).
  unfold load, parse_file in H.
  assert (Hb : forall n i, i <> [] -> PropNamespace.store_ok st -> PropNamespace.store_ok (Namespace.ns_bind n i st) /\
    forall q j, assoc q (Namespace.st_ns st) = Some j -> assoc q (Namespace.st_ns (Namespace.ns_bind n i st)) = Some j).
  { intros n i Hi Hok. split; [by apply PropNamespace.C43_bind_invariant|].
    intros q j Hq. by apply PropNamespace.C43_bind_keeps_bindings. }
  assert (HY : forall st0, parse (r_num R) (r_text R) (r_en R) (r_lit R) (r_true R) (r_one R) (r_pick R) (r_installed R) fuel st0 y s
      = (st', (s', r)) -> p_graph s ⊆ p_graph s' /\ p_next s <= p_next s' /\
    (PropNamespace.store_ok st0 -> PropNamespace.store_ok st' /\
     forall q i, assoc q (Namespace.st_ns st0) = Some i -> assoc q (Namespace.st_ns st') = Some i)).
  { intros st0 H0. pose proof (PropYml.C50_keeps R fuel st0 y s) as HK. unfold run in HK. rewrite H0 in HK. cbn [fst snd] in HK.
    split; [apply HK|]. split; [apply HK|]. intros Hok. unfold parse in H0.
    destruct (Validator.validate _ _ _); [|injection H0 as <- _; by split].
    destruct y as [| |d]; [injection H0 as <- _; by split..|].
    destruct (f_str "namespace" d) as [ns|]; [|injection H0 as <- _; by split].
    destruct (get "ontology" d) as [o|]; [|injection H0 as <- _; by split].
    destruct (entities o) as [es|]; [|injection H0 as <- _; by split]. cbv zeta in H0. injection H0 as <- _.
    assert (Hi : ns_iri (Namespace.st_ns st0) (lower ns) <> []).
    { unfold ns_iri. destruct (assoc (lower ns) (Namespace.st_ns st0)) eqn:E; [|done]. intros ->. by eapply (proj2 Hok). }
    split.
    - by apply PropNamespace.C43_bind_invariant.
    - intros q i Hq. by apply PropNamespace.C43_bind_keeps_bindings. }
  assert (HO : parse_owl (r_num R) (r_true R) (fl_str F) (fl_source F) y st s = (st', (s', r)) ->
     p_graph s ⊆ p_graph s' /\ p_next s <= p_next s' /\
    (PropNamespace.store_ok st -> PropNamespace.store_ok st' /\
     forall q i, assoc q (Namespace.st_ns st) = Some i -> assoc q (Namespace.st_ns st') = Some i)).
  { clear H. intros H. unfold parse_owl in H. repeat case_match; simplify_eq; try by apply Same.
    pose proof (parse_rdf_inv _ _ _ _ _ _ _ _ _ _ _ H) as [(e & _ & -> & ->)|(k & g & _ & Hn & Hg & _)]; [by apply Same|].
    split; [done|]. split; [rewrite Hn; lia|]. intros Hok. clear Hn Hg Same.
    assert (HB : forall items st st1 res, PropNamespace.store_ok st -> bind_all items st = (st1, res) -> PropNamespace.store_ok st1 /\
       forall q i, assoc q (Namespace.st_ns st) = Some i -> assoc q (Namespace.st_ns st1) = Some i).
    { clear. induction items as [|[n v] items IH]; intros st st1 res Hok H; cbn [bind_all] in H; [by injection H as <- _|].
      destruct v as [[| | | |v|]| |]; try (injection H as <- _; done). destruct n as [| | | |n|]; try (injection H as <- _; done).
      destruct (bind_all items _) as [st2 r2] eqn:E. injection H as <- _.
      apply IH in E as [E1 E2].
      - split; [done|]. intros q i Hq. apply E2. by apply PropNamespace.C43_bind_keeps_bindings.
      - apply PropNamespace.C43_bind_invariant; [done|apply norm_nonempty]. }
    unfold parse_rdf in H. destruct (fl_source F _ _) as [[k' g']|]; [|by simplify_eq]. cbv zeta in H.
    destruct (get "namespaces" _) as [[ | |items]|]; try (injection H as <- _; done).
    destruct (bind_all items st) as [st1 [iris|e]] eqn:Eb; injection H as <- _; by apply (HB _ _ _ _ Hok Eb). }
  destruct y as [[]| |]; try (injection H as <- <- _; by apply Same);
    (match type of H with context [is_yaml_ontology ?y] => destruct (is_yaml_ontology y) as [[]|] end;
     [apply HY in H as (Y1 & Y2 & Y3); split; [done|]; split; [done|]; intros Hok;
      assert (Hoi : owl_iri <> []) by done;
      destruct (Hb (lit "owl") owl_iri Hoi Hok) as [O1 O2]; destruct (Y3 O1) as [O3 O4]; split; [done|]; intros q i Hq; by apply O4, O2
     | match type of H with context [is_owl ?y] => destruct (is_owl y) as [[]|] end;
       [by apply HO|injection H as <- <- _; by apply Same|injection H as <- <- _; by apply Same]
     | injection H as <- <- _; by apply Same]).
Qed.

(** ** Blank nodes *)
Definition Bnd {A} (m : M A) : Prop := forall s, Bounded s -> Bounded (m s).1.
Definition no_bn (t : term) : Prop := forall n, t <> BN n.
Lemma bnd_ret {A} (a : A) : Bnd (ret a).
Proof. by intros s. Qed.
Lemma bnd_raise {A} e : Bnd (@raise A e).
Proof. by intros s. Qed.
Lemma bnd_lift {A} (f : ograph -> res A) : Bnd (lift f).
Proof. by intros s. Qed.
Lemma bnd_mbind {A B} (m : M A) (k : A -> M B) : Bnd m -> (forall a, Bnd (k a)) -> Bnd (mbind m k).
Proof.
  intros Hm Hk s Hs. unfold mbind. specialize (Hm s Hs). destruct (m s) as [s' [a|e]]; cbn in *; [|done]. by apply Hk.
Qed.
Lemma bnd_add a p b : no_bn a -> no_bn b -> Bnd (add (a, p, b)).
Proof.
  intros Ha Hb s Hs x q y Hin n Hn. cbn in *. apply elem_of_union in Hin as [Hin|Hin]; [|by eapply Hs].
  apply elem_of_singleton in Hin. injection Hin as -> -> ->. destruct Hn as [->| ->]; [by destruct (Ha n)|by destruct (Hb n)].
Qed.
Lemma bnd_for_each {A B} (f : A -> M B) l : (forall x, Bnd (f x)) -> Bnd (for_each f l).
Proof.
  intros H. induction l as [|x l IH]; [apply bnd_ret|]. cbn. apply bnd_mbind; [done|].
  intros y. apply bnd_mbind; [done|]. intros ys. apply bnd_ret.
Qed.
Lemma bnd_state {A} (m : M A) : (forall s, exists m', Bnd m' /\ m s = m' s) -> Bnd m.
Proof. intros H s. destruct (H s) as (m' & Hm & ->). apply Hm. Qed.
Ltac bnd := repeat (cbn beta; lazymatch goal with
  | |- Bnd (ret _) => apply bnd_ret
  | |- Bnd (raise _) => apply bnd_raise
  | |- Bnd (lift _) => apply bnd_lift
  | |- Bnd (add _) => apply bnd_add; unfold no_bn; done
  | |- Bnd (mbind _ _) => apply bnd_mbind
  | |- Bnd (for_each _ _) => apply bnd_for_each
  | |- Bnd (match ?x with _ => _ end) => destruct x
  | |- forall _, _ => let a := fresh "a" in intros a
  end).
Lemma types_loop_owl num text len ltrue pick b own es fuel g q T T' :
  types_loop num text len ltrue pick b own es fuel g q T = Ok T' -> T ⊆ owl_types -> T' ⊆ owl_types.
Proof.
  revert q T. induction fuel as [|fuel IH]; intros [|[ns name] q] T H HT; cbn [types_loop] in H; try (by injection H as <-); [done|].
  assert (HT' : forall i, T ∪ types_of num g i ⊆ owl_types).
  { intros i t Ht. apply elem_of_union in Ht as [Ht|Ht]; [by apply HT|]. unfold types_of in Ht. by apply elem_of_filter in Ht as [_ ?]. }
  repeat case_match; simplify_eq; by (eapply IH; [eassumption|apply HT']).
Qed.
Lemma bnd_parse num text len lval ltrue lone pick installed b own es fuel d :
  Bnd (parse_ontology num text len lval ltrue lone pick installed b own es fuel d).
Proof.
  unfold parse_ontology. bnd.
  - unfold load_entity. bnd.
    + unfold add_type_triple. apply bnd_state. intros s.
      destruct (types_loop num text len ltrue pick b own es fuel (p_graph s) [(own, a.1)] ∅) as [T|e] eqn:E.
      * eexists. split; [|unfold mbind, lift; rewrite E; reflexivity]. case_decide; [bnd|].
        apply types_loop_owl in E; [|set_solver]. intros s1 Hs x q y Hin n Hn. cbn in Hin |- *.
        apply elem_of_union in Hin as [Hin|Hin]; [|by eapply Hs]. apply elem_of_map in Hin as (t & [= -> -> ->] & Ht).
        destruct Hn as [?| ->]; [done|]. apply E in Ht. clear -Ht. unfold owl_types in Ht. set_solver.
      * exists (raise e). split; [bnd|]. unfold mbind, lift. by rewrite E.
    + unfold add_superclass. apply bnd_mbind; [bnd|]. intros j. apply bnd_state. intros s. cbv zeta.
      eexists. split; [|reflexivity]. bnd.
  - unfold validate_entity. apply bnd_mbind; [bnd|]. intros i. apply bnd_state. intros s. cbv zeta.
    match goal with |- context [match ?K with Some _ => _ | None => _ end] => destruct K as [k|] end.
    + eexists. split; [|reflexivity]. bnd.
    + exists (raise RuntimeError). split; [bnd|done].
  - unfold default_rel_of_doc. bnd.
  - unfold set_inverse. bnd.
  - unfold default_rel_flag. bnd.
  - unfold set_datatype. bnd.
  - unfold add_attributes. bnd. apply bnd_state. intros s1. case_decide.
    + eexists. split; [|reflexivity]. clear. intros s Hs. unfold add_attr, mbind, fresh_bnode, add_all, ret.
      cbn [p_graph p_next]. match goal with |- context [match ?o with None => _ | Some _ => _ end] => destruct o end; cbn [fst];
      intros x q z Hin n Hn; cbn [p_graph p_next] in Hin |- *;
      repeat (apply elem_of_union in Hin as [Hin|Hin]; [apply elem_of_singleton in Hin; injection Hin as -> -> ->;
        destruct Hn as [Hn|Hn]; try discriminate Hn; injection Hn as <-; lia|] ||
        apply elem_of_union in Hin as [Hin|Hin]).
      all: try (apply elem_of_singleton in Hin; injection Hin as -> -> ->;
        destruct Hn as [Hn|Hn]; try discriminate Hn; injection Hn as <-; lia).
      all: pose proof (Hs _ _ _ Hin n Hn); lia.
    + exists (raise ValueError). split; [bnd|done].
Qed.

(** The files that are loaded number their blank nodes below the number they report. *)
Definition Sources (F : files) : Prop := forall p fmt k g, fl_source F p fmt = Ok (k, g) -> Numbered k g.
Lemma rename_bn n t m : rename_term n t = BN m -> exists i, t = BN i /\ m = n + i.
Proof. destruct t; cbn; intros H; try discriminate H. injection H as <-. by eexists. Qed.
Lemma load_bounded R F fuel y st s : Sources F -> Bounded s -> Bounded (load R F fuel y st s).2.1.
Proof.
  intros HF Hs. destruct (load R F fuel y st s) as [st' [s' r]] eqn:H. cbn [fst snd].
  assert (HY : forall st0, parse (r_num R) (r_text R) (r_en R) (r_lit R) (r_true R) (r_one R) (r_pick R) (r_installed R) fuel st0 y s
      = (st', (s', r)) -> Bounded s').
  { intros st0 H0. unfold parse in H0.
    destruct (Validator.validate _ _ _); [|by injection H0 as _ <- _].
    destruct y as [| |d]; [by injection H0 as _ <- _..|].
    destruct (f_str "namespace" d) as [ns|]; [|by injection H0 as _ <- _].
    destruct (get "ontology" d) as [o|]; [|by injection H0 as _ <- _].
    destruct (entities o) as [es|]; [|by injection H0 as _ <- _]. cbv zeta in H0. injection H0 as _ H0.
    match type of H0 with ?X = _ => pose proof (f_equal fst H0) as E; cbn [fst] in E end. rewrite <- E. by apply bnd_parse. }
  assert (HO : parse_owl (r_num R) (r_true R) (fl_str F) (fl_source F) y st s = (st', (s', r)) -> Bounded s').
  { clear H. intros H. unfold parse_owl in H. repeat case_match; simplify_eq; try done.
    pose proof (parse_rdf_inv _ _ _ _ _ _ _ _ _ _ _ H) as [(e & _ & _ & ->)|(k & g & Hsrc & Hn & _ & _ & Hg)]; [done|].
    apply HF in Hsrc. intros a p b Hin n Hab. rewrite Hn.
    destruct (Hg _ Hin) as [Hx|[Hx|(i & q & o & [= -> -> ->] & Ho)]].
    - pose proof (Hs _ _ _ Hx n Hab). lia.
    - unfold rename in Hx. apply elem_of_map in Hx as ([[a' p'] b'] & [= -> -> ->] & Hx).
      destruct Hab as [Hab|Hab]; apply rename_bn in Hab as (i & -> & ->).
      + assert (i < k) by (eapply Hsrc; eauto). lia.
      + assert (i < k) by (eapply Hsrc; eauto). lia.
    - destruct Hab as [?| ->]; [done|]. by destruct (Ho n). }
  unfold load, parse_file in H.
  destruct y as [[]| |]; try (injection H as _ <- _; done);
    (match type of H with context [is_yaml_ontology ?y] => destruct (is_yaml_ontology y) as [[]|] end;
     [by eapply HY
     | match type of H with context [is_owl ?y] => destruct (is_owl y) as [[]|] end;
       [by apply HO|by injection H as _ <- _|by injection H as _ <- _]
     | by injection H as _ <- _]).
Qed.
(** Loading any documents one after the other; a failure does not stop the user. *)
Definition load_all R F fuel (ys : list yaml) (st : Namespace.store) (s : pst) : Namespace.store * pst :=
  foldl (fun x y => let '(st', (s', _)) := load R F fuel y (fst x) (snd x) in (st', s')) (st, s) ys.
(** Blank nodes of different files are never confused: those of the next file do
    not occur in what was loaded before. *)
Theorem C52_fresh : forall R F fuel ys st s k g p fmt t n,
  Sources F -> Bounded s ->
  fl_source F p fmt = Ok (k, g) ->
  let s1 := snd (load_all R F fuel ys st s) in
  Bounded s1 /\
  (FileTriple (p_next s1) g t -> fst (fst t) = BN n \/ snd t = BN n ->
   forall a q b, (a, q, b) ∈ p_graph s1 -> a <> BN n /\ b <> BN n).
Proof.
  intros R F fuel ys st s k g p fmt t n HF Hs Hsrc s1.
  assert (HB : Bounded s1).
  { unfold s1, load_all. clear -HF Hs. revert st s Hs. induction ys as [|y ys IH]; intros st s Hs; [done|]. cbn [foldl fst snd].
    pose proof (load_bounded R F fuel y st s HF Hs) as H. destruct (load R F fuel y st s) as [st' [s' r]]. by apply IH. }
  split; [done|]. intros Ht Hn a q b Hin.
  apply in_rename in Ht. unfold rename in Ht. apply elem_of_map in Ht as ([[a' q'] b'] & -> & Hu). cbn in Hn.
  assert (Hge : p_next s1 <= n) by (destruct Hn as [Hn|Hn]; apply rename_bn in Hn as (i & _ & ->); lia).
  split; intros ->.
  - assert (n < p_next s1); [|lia]. by apply (HB _ _ _ Hin n); left.
  - assert (n < p_next s1); [|lia]. by apply (HB _ _ _ Hin n); right.
Qed.

(** ** What the triples are for *)
(** Everything below an active relationship of the description is an active
    relationship, for is_subclass_of and is_superclass_of alike. *)
Theorem C52_active : forall R F fuel f D st s st' s' r x,
  Describes f D -> load R F fuel (YDict f) st s = (st', (s', Ok tt)) -> r ∈ d_active D ->
  let g := p_graph s' in let act := IRI (r_num R cuba_active) in
  (x = IRI (r_num R r) \/ closure (down1 g p_subPropertyOf) (IRI (r_num R r)) x) ->
  x ∉ rel_blacklist -> known g x = true ->
  (forall k, ~ top_of p_subPropertyOf act k) ->
  exists n, forall pick fuel', pick_ok pick -> (n <= fuel')%nat ->
    is_subclass_of pick g p_subPropertyOf rel_blacklist fuel' x act = Some true.
Proof.
  intros R F fuel f D st s st' s' r x H Hl Hr g act Hx Hbl Hk Htop.
  assert (Hkeys : OwlKeys f).
  { split; [by rewrite (ds_file _ _ H)|]. split; [by rewrite (ds_id _ _ H)|]. left.
    destruct (get "ontology" f) as [v|] eqn:E; [|done]. apply get_lookup, (ds_keys _ _ H) in E as (s0 & [= E] & Hs0). exfalso.
    change (lit "ontology" = lit s0) in E. clear -E Hs0.
    repeat (apply elem_of_cons in Hs0 as [-> |Hs0]; [by vm_compute in E|]). by apply elem_of_nil in Hs0. }
  destruct (C52_accepted _ _ _ _ _ _ _ _ Hkeys Hl) as (_ & _ & _ & _ & HA).
  destruct (ds_active _ _ H) as [Ha|[_ Ha]]; [|rewrite Ha in Hr; by apply elem_of_nil in Hr].
  destruct (HA _ r Ha) as [_ HT]. { apply elem_of_list_fmap. by exists r. }
  fold g act in HT.
  assert (Hc : closure (down1 g p_subPropertyOf) act x).
  { assert (H1 : down1 g p_subPropertyOf act (IRI (r_num R r))) by (split; [done|]; right; split; done).
    destruct Hx as [->|Hx]; [by eapply cl_step; [apply cl_refl|]|].
    clear -H1 Hx. induction Hx as [|y z Hy IH Hyz]; [eapply cl_step; [apply cl_refl|done]|eapply cl_step; [exact IH|done]]. }
  destruct (C22_subclasses_exact g p_subPropertyOf rel_blacklist act) as [n Hn]; [by right|].
  exists n. intros pick fuel' Hp Hf. destruct (Hn pick fuel' Hp Hf) as (l & El & _ & Hin).
  unfold is_subclass_of. rewrite El. cbn. f_equal. apply bool_decide_eq_true. apply Hin. by right.
Qed.

(** The default relationship of each namespace of the description is the one it
    names, in whatever order rdflib enumerates, if the namespace had none. *)
Lemma get_default_rel_some enum i o :
  (i, p_default_rel, o) ∈ enum -> (forall o', (i, p_default_rel, o') ∈ enum -> o' = o) -> get_default_rel enum i = Some o.
Proof.
  unfold get_default_rel.
  assert (G : forall enum acc, (acc = None \/ acc = Some o) -> (forall o', (i, p_default_rel, o') ∈ enum -> o' = o) ->
    let r := foldl (fun acc (t : otriple) => let '(s, p, o) := t in
           if decide (s = i /\ p = p_default_rel) then Some o else acc) acc enum in
    (r = None \/ r = Some o) /\ (acc = Some o \/ (i, p_default_rel, o) ∈ enum -> r = Some o)).
  { clear. induction enum as [|[[s p] o1] l IH]; intros acc Hacc Hu; cbn [foldl].
    - split; [done|]. intros [?|H]; [done|by apply elem_of_nil in H].
    - assert (Hu' : forall o', (i, p_default_rel, o') ∈ l -> o' = o) by (intros; apply Hu; by right).
      case_decide as Hd.
      + destruct Hd as [-> ->]. assert (o1 = o) as -> by (apply Hu; by left).
        destruct (IH (Some o) (or_intror eq_refl) Hu') as [H1 H2]. split; [done|]. intros _. apply H2. by left.
      + destruct (IH acc Hacc Hu') as [H1 H2]. split; [done|]. intros [?|H]; [apply H2; by left|].
        apply elem_of_cons in H as [[= <- <- <-]|H]; [by destruct Hd|]. apply H2. by right. }
  intros Hin Hu. apply (G enum None); [by left|done|by right].
Qed.
Theorem C52_default : forall R F fuel f D st s k g n i j r,
  Numbers R -> Describes f D -> fl_source F (d_file D) (format D) = Ok (k, g) ->
  (forall r', r' ∈ d_active D -> IsRelationship R (p_graph s) r' \/ IsRelationship R g r') ->
  (n, i) ∈ d_names D -> NsOf i j -> d_default D = Some r ->
  (forall o, (IRI (r_num R j), p_default_rel, o) ∉ p_graph s) -> (forall o, (IRI (r_num R j), p_default_rel, o) ∉ g) ->
  forall enum, (forall t, t ∈ enum <-> t ∈ p_graph (load R F fuel (YDict f) st s).2.1) ->
  get_default_rel enum (IRI (r_num R j)) = Some (IRI (r_num R r)).
Proof.
  intros R F fuel f D st s k g n i j r HR H Hs Ha Hn Hj Hd Hno1 Hno2 enum He.
  destruct (C52_exact R F fuel f D st s k g H Hs Ha) as (s' & E & _ & Hg). rewrite E in He. cbn [fst snd] in He.
  apply get_default_rel_some.
  - apply He, Hg. right; right. by apply (DS_default R D n i j r).
  - intros o Ho. apply He, Hg in Ho as [Ho|[Ho|Ho]].
    + by destruct (Hno1 o).
    + destruct Ho as (u & Hu & H1 & H2 & H3). destruct u as [[a p] b]. cbn in *.
      destruct H1 as [(m & _ & ?)|[_ <-]]; [done|]. subst p. by destruct (Hno2 b).
    + remember (IRI (r_num R j), p_default_rel, o) as t eqn:Et. destruct Ho as [r0 _|n0 i0 j0 r0 _ _ Hd0|n0 i0 j0 _ _ _]; try discriminate Et.
      injection Et as _ <-. congruence.
Qed.

(** ** Examples *)
Definition exI (n : string) : str := lit "http://x.org/foo#" ++ lit n.
Definition exFile : ograph := list_to_set
  [(IRI (PropYml.exNum (exI "knows")), p_type, owl_ObjectProperty); (IRI (PropYml.exNum (exI "Person")), p_type, owl_Class);
   (IRI (PropYml.exNum (exI "Person")), p_subClassOf, BN 0); (BN 0, p_type, owl_Restriction)].
Definition exF : files := Files (fun _ => [])
  (fun p fmt => match fmt with
                | YS (SStr x) => if str_eqb p (lit "foo.owl") && str_eqb x (lit "xml") then Ok (1, exFile) else Err OSError
                | _ => Err TypeError
                end).
Definition exD (active : string) : description :=
  Desc (lit "Foo") (lit "foo.owl") None [(lit "Foo", lit "http://x.org/foo"); (lit "bar", lit "http://x.org/bar/")]
    [exI active] (Some (exI "knows")) true.
Definition exDoc (active : string) (more : list (string * yaml)) : fields :=
  [(SStr (lit "identifier"), YS (SStr (lit "Foo"))); (SStr (lit "ontology_file"), YS (SStr (lit "foo.owl")));
   (SStr (lit "namespaces"), str_dict [(lit "Foo", lit "http://x.org/foo"); (lit "bar", lit "http://x.org/bar/")]);
   (SStr (lit "active_relationships"), YList [YS (SStr (exI active))]);
   (SStr (lit "default_relationship"), YS (SStr (exI "knows")));
   (SStr (lit "reference_by_label"), YS (Validator.SBool true))] ++ map (fun kv => (SStr (lit (fst kv)), snd kv)) more.
Lemma exDescribes a : Describes (exDoc a []) (exD a).
Proof.
  split; try reflexivity; try (left; reflexivity).
  - intros k v H. unfold exDoc in H. cbn [map] in H. rewrite app_nil_r in H.
    repeat (apply elem_of_cons in H as [H|H]; [injection H as -> _; eexists; split; [reflexivity|]; clear; set_solver|]).
    by apply elem_of_nil in H.
  - cbn. rewrite !elem_of_cons, elem_of_nil. intros H. decompose [or] H; done.
Qed.
Definition exOutD := load PropYml.exR exF 0 (YDict (exDoc "knows" [])) PropYml.exSt (Pst PropYml.exG 5).
(** The description is accepted; the blank node of the file is new. *)
Example C52_example :
  Describes (exDoc "knows" []) (exD "knows") /\ PropNamespace.store_ok PropYml.exSt /\ Sources exF /\
  Bounded (Pst PropYml.exG 5) /\
  base.NoDup (map (fun nb => lower (fst nb)) (Namespace.st_ns PropYml.exSt ++ d_names (exD "knows"))) /\
  exOutD.2.2 = Ok tt /\ p_next exOutD.2.1 = 6 /\
  Namespace.st_ns exOutD.1 = Namespace.st_ns PropYml.exSt ++ [(lit "Foo", lit "http://x.org/foo#"); (lit "bar", lit "http://x.org/bar/")] /\
  (IRI (PropYml.exNum (exI "Person")), p_subClassOf, BN 5) ∈ p_graph exOutD.2.1 /\
  (IRI (PropYml.exNum (exI "knows")), p_subPropertyOf, IRI (PropYml.exNum cuba_active)) ∈ p_graph exOutD.2.1 /\
  get_default_rel (elements (p_graph exOutD.2.1)) (IRI (PropYml.exNum (lit "http://x.org/bar/"))) =
    Some (IRI (PropYml.exNum (exI "knows"))).
Proof.
  split; [apply exDescribes|]. split; [apply PropYml.exSt_ok|]. split; [|split; [|split; [|split; [|split; [|split]]]]].
  - intros p fmt k g H. unfold exF in H. cbn [fl_source] in H. repeat case_match; simplify_eq.
    intros a q b Hin n Hn. unfold exFile in Hin. apply elem_of_list_to_set in Hin.
    repeat (apply elem_of_cons in Hin as [Hin|Hin]; [injection Hin as -> -> ->; destruct Hn as [Hn|Hn]; try discriminate Hn; injection Hn as <-; lia|]).
    by apply elem_of_nil in Hin.
  - intros a q b Hin n Hn. cbn [p_graph] in Hin. unfold PropYml.exG in Hin. apply elem_of_list_to_set in Hin.
    repeat (apply elem_of_cons in Hin as [Hin|Hin]; [injection Hin as -> -> ->; destruct Hn as [Hn|Hn]; discriminate Hn|]).
    by apply elem_of_nil in Hin.
  - apply (bool_decide_unpack _); vm_compute; exact Logic.I.
  - vm_compute. reflexivity.
  - vm_compute. reflexivity.
  - vm_compute. reflexivity.
  - split; [apply (bool_decide_unpack _); vm_compute; exact Logic.I|]. split; [apply (bool_decide_unpack _); vm_compute; exact Logic.I|].
    vm_compute. reflexivity.
Qed.
(** A wrong active relationship is an error that leaves the triples of the file and
    the namespaces behind. *)
Definition exOutBad := load PropYml.exR exF 0 (YDict (exDoc "likes" [])) PropYml.exSt PropYml.exS.
Example C52_not_atomic :
  Describes (exDoc "likes" []) (exD "likes") /\ exOutBad.2.2 = Err ValueError /\
  (IRI (PropYml.exNum (exI "Person")), p_type, owl_Class) ∈ p_graph exOutBad.2.1 /\
  assoc (lit "bar") (Namespace.st_ns exOutBad.1) = Some (lit "http://x.org/bar/").
Proof.
  split; [apply exDescribes|]. split; [vm_compute; reflexivity|].
  split; [apply (bool_decide_unpack _); vm_compute; exact Logic.I|]. vm_compute. reflexivity.
Qed.
(** Requirements are read, but a description that has some is refused. *)
Example C52_requirements :
  let y := YDict (exDoc "knows" [("requirements"%string, YList [YS (SStr (lit "city"))])]) in
  get_requirements y = Ok [lit "city"] /\ get_identifier y = Ok (lit "foo") /\
  (load PropYml.exR exF 0 y PropYml.exSt PropYml.exS).2.2 = Err TypeError.
Proof. cbv zeta. split; [vm_compute; reflexivity|]. split; vm_compute; reflexivity. Qed.
(** Two descriptions of one namespace with different default relationships: which
    one counts depends on the order in which rdflib enumerates. *)
Example C52_two_defaults : exists i r1 r2 enum1 enum2, r1 <> r2 /\ Permutation enum1 enum2 /\
  get_default_rel enum1 i = Some r1 /\ get_default_rel enum2 i = Some r2.
Proof.
  exists (IRI 1), (IRI 2), (IRI 3), [(IRI 1, p_default_rel, IRI 3); (IRI 1, p_default_rel, IRI 2)],
    [(IRI 1, p_default_rel, IRI 2); (IRI 1, p_default_rel, IRI 3)].
  split; [done|]. split; [constructor|]. split; reflexivity.
Qed.

Print Assumptions C52_exact.
Print Assumptions C52_bad_active.
Print Assumptions C52_refused.
Print Assumptions C52_unrecognised.
Print Assumptions C52_unreadable.
Print Assumptions C52_accepted.
Print Assumptions C52_namespaces.
Print Assumptions C52_keeps.
Print Assumptions C52_fresh.
Print Assumptions C52_active.
Print Assumptions C52_default.
