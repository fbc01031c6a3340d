(** Properties C33-C36: the SQL helper functions. *)
From Coq Require Import String List NArith ZArith Lia Bool FinFun.
From Verif Require Import Prelude Utf8 Text Datatype SqlUtil PropDatatype.
Import ListNotations.
Local Open Scope nat_scope.
Local Open Scope list_scope.

(** * C34: forbidden characters *)

(** ** Specification: the names nested in an argument of [check_characters]. *)
Inductive inside : str -> pobj -> Prop :=
| in_str s : inside s (OStr s)
| in_list s o l : In o l -> inside s o -> inside s (OList l)
| in_key s o ks vs : In o ks -> inside s o -> inside s (ODict ks vs)
| in_value s o ks vs : In o vs -> inside s o -> inside s (ODict ks vs)
| in_and s o l : In o l -> inside s o -> inside s (OAnd l)
| in_eq_table t c d : inside t (OEq t c d)
| in_eq_column t c d : inside c (OEq t c d)
| in_eq_datatype s t c d : inside s d -> inside s (OEq t c d)
| in_join t1 c1 t2 c2 s : In s [t1; c1; t2; c2] -> inside s (OJoin t1 c1 t2 c2).

(** Objects of an unexpected type. *)
Inductive other_inside : pobj -> Prop :=
| ot_other : other_inside OOther
| ot_list o l : In o l -> other_inside o -> other_inside (OList l)
| ot_key o ks vs : In o ks -> other_inside o -> other_inside (ODict ks vs)
| ot_value o ks vs : In o vs -> other_inside o -> other_inside (ODict ks vs)
| ot_and o l : In o l -> other_inside o -> other_inside (OAnd l)
| ot_eq t c d : other_inside d -> other_inside (OEq t c d).

Definition clean (c : N) (o : pobj) : Prop :=
  (forall s, inside s o -> ~ In c s /\ exists b, utf8_encode s = Ok b) /\ ~ other_inside o.

Lemma clean_children c o :
  clean c o <->
  match o with
  | OStr s => ~ In c s /\ exists b, utf8_encode s = Ok b
  | OList l => Forall (clean c) l
  | OAnd l => Forall (clean c) l
  | ODict ks vs => Forall (clean c) vs /\ Forall (clean c) ks
  | OEq t col d => clean c d /\ clean c (OStr col) /\ clean c (OStr t)
  | OJoin t1 c1 t2 c2 => clean c (OStr c2) /\ clean c (OStr t2) /\ clean c (OStr c1) /\ clean c (OStr t1)
  | ONone => True
  | OOther => False
  end.
Proof.
  unfold clean.
  assert (Hs : forall s, (forall s', inside s' (OStr s) -> ~ In c s' /\ exists b, utf8_encode s' = Ok b)
               /\ ~ other_inside (OStr s) <-> ~ In c s /\ exists b, utf8_encode s = Ok b).
  { intros s. split.
    - intros [H _]. apply H. constructor.
    - intros H. split; [intros s' Hi; inversion Hi; subst; exact H | intros Ho; inversion Ho]. }
  destruct o as [s|l|ks vs|l|t col d|t1 c1 t2 c2| | ]; rewrite ?Hs.
  - reflexivity.
  - rewrite Forall_forall. split.
    + intros [H1 H2] o Ho. split; [intros s Hi; apply H1; econstructor; eauto | intros Hx; apply H2; econstructor; eauto].
    + intros H. split.
      * intros s Hi. inversion Hi; subst. eapply H; eauto.
      * intros Hx. inversion Hx; subst. eapply H; eauto.
  - rewrite !Forall_forall. split.
    + intros [H1 H2]. split; intros o Ho; (split; [intros s Hi; apply H1 | intros Hx; apply H2]);
        (solve [eapply in_key; eauto | eapply in_value; eauto | eapply ot_key; eauto | eapply ot_value; eauto]).
    + intros [Hv Hk]. split.
      * intros s Hi. inversion Hi; subst; [eapply Hk | eapply Hv]; eauto.
      * intros Hx. inversion Hx; subst; [eapply Hk | eapply Hv]; eauto.
  - rewrite Forall_forall. split.
    + intros [H1 H2] o Ho. split; [intros s Hi; apply H1; econstructor; eauto | intros Hx; apply H2; econstructor; eauto].
    + intros H. split.
      * intros s Hi. inversion Hi; subst. eapply H; eauto.
      * intros Hx. inversion Hx; subst. eapply H; eauto.
  - split.
    + intros [H1 H2]. split; [split|split]; try (apply H1; constructor).
      * intros s Hi. apply H1. now constructor.
      * intros Hx. apply H2. now constructor.
    + intros [[H1 H2] [H3 H4]]. split; [intros s Hi; inversion Hi; subst; auto | intros Hx; inversion Hx; subst; auto].
  - split.
    + intros [H1 _]. repeat split; try (apply H1; constructor; cbn; tauto).
    + intros (H1 & H2 & H3 & H4). split; [|intros Hx; inversion Hx].
      intros s Hi. inversion Hi as [| | | | | | | |? ? ? ? ? Hin]; subst.
      cbn in Hin. repeat destruct Hin as [<-|Hin]; auto. destruct Hin.
  - split; [auto|]. intros _. split; [intros s Hi; inversion Hi | intros Hx; inversion Hx].
  - split; [|tauto]. intros [_ H]. apply H. constructor.
Qed.

Lemma stack_size_app a b : stack_size (a ++ b) = stack_size a + stack_size b.
Proof. unfold stack_size. now rewrite map_app, list_sum_app. Qed.
Lemma stack_size_rev a : stack_size (rev a) = stack_size a.
Proof. induction a as [|x a IH]; [reflexivity|]. cbn [rev]. rewrite stack_size_app, IH.
  change (stack_size [x]) with (osize x + 0). change (stack_size (x :: a)) with (osize x + stack_size a). lia. Qed.

Lemma check_loop_spec fuel c stack : stack_size stack <= fuel ->
  (Forall (clean c) stack /\ check_loop fuel c stack = Ok tt)
  \/ (~ Forall (clean c) stack
      /\ exists e, check_loop fuel c stack = Err e /\ (e = ValueError \/ e = UnicodeError)).
Proof.
  revert stack; induction fuel as [|fuel IH]; intros stack Hf.
  - destruct stack as [|o rest].
    + left. split; [constructor | reflexivity].
    + exfalso. unfold stack_size in Hf; cbn in Hf. destruct o; cbn in Hf; lia.
  - destruct stack as [|o rest]; [left; split; [constructor|reflexivity]|].
    assert (Hrest : stack_size (o :: rest) = osize o + stack_size rest) by reflexivity.
    rewrite Hrest in Hf.
    assert (Hstep : forall stack', stack_size stack' <= fuel ->
              (Forall (clean c) stack' <-> Forall (clean c) (o :: rest)) ->
              check_loop (S fuel) c (o :: rest) = check_loop fuel c stack' ->
              (Forall (clean c) (o :: rest) /\ check_loop (S fuel) c (o :: rest) = Ok tt)
              \/ (~ Forall (clean c) (o :: rest) /\
                  exists e, check_loop (S fuel) c (o :: rest) = Err e /\ (e = ValueError \/ e = UnicodeError))).
    { intros stack' Hs Hiff ->. rewrite <- Hiff. apply IH; auto. }
    destruct o as [s|l|ks vs|l|t col d|t1 c1 t2 c2| | ]; cbn [osize] in Hf.
    + assert (Hc : clean c (OStr s) <-> ~ In c s /\ exists b, utf8_encode s = Ok b)
        by apply (clean_children c (OStr s)).
      destruct (utf8_encode s) as [b|e] eqn:Ee.
      * destruct (existsb (N.eqb c) s) eqn:Ex.
        -- right. split.
           ++ intros HF. inversion HF; subst. apply Hc in H1 as [H1 _]. apply H1.
              apply existsb_exists in Ex as (x & Hx & E). apply N.eqb_eq in E. now subst.
           ++ exists ValueError. cbn. rewrite Ee, Ex. auto.
        -- apply (Hstep rest); [lia | | cbn; now rewrite Ee, Ex].
           split; intros HF; [|now inversion HF]. constructor; [|auto]. apply Hc.
           split; [|eauto]. intros Hin. assert (existsb (N.eqb c) s = true); [|congruence].
           apply existsb_exists. exists c. split; [auto | apply N.eqb_refl].
      * right. split.
        -- intros HF. inversion HF; subst. apply Hc in H1 as [_ [b Hb]]. congruence.
        -- exists e. cbn. rewrite Ee. split; [reflexivity|]. right.
           clear -Ee. revert e Ee. induction s as [|x s IHs]; cbn; intros e Ee; [discriminate|].
           destruct (enc1 x) as [b|e'] eqn:E1.
           ++ destruct (utf8_encode s); [discriminate|]. injection Ee as <-. now apply IHs.
           ++ injection Ee as <-. unfold enc1 in E1.
              repeat (destruct (_ : bool) in E1; try discriminate). congruence.
    + apply (Hstep (rev l ++ rest)); [rewrite stack_size_app, stack_size_rev; unfold stack_size in *; lia | | reflexivity].
      rewrite Forall_app, Forall_cons_iff, (clean_children c (OList l)).
      split; intros [H1 H2]; (split; [|auto]); apply Forall_rev in H1; rewrite ?rev_involutive in H1; auto.
    + apply (Hstep (rev vs ++ rev ks ++ rest));
        [rewrite !stack_size_app, !stack_size_rev; unfold stack_size in *; lia | | reflexivity].
      rewrite !Forall_app, Forall_cons_iff, (clean_children c (ODict ks vs)).
      split.
      * intros (H1 & H2 & H3). apply Forall_rev in H1. apply Forall_rev in H2. rewrite ?rev_involutive in *. auto.
      * intros ((H1 & H2) & H3). auto using Forall_rev.
    + apply (Hstep (rev l ++ rest)); [rewrite stack_size_app, stack_size_rev; unfold stack_size in *; lia | | reflexivity].
      rewrite Forall_app, Forall_cons_iff, (clean_children c (OAnd l)).
      split; intros [H1 H2]; (split; [|auto]); apply Forall_rev in H1; rewrite ?rev_involutive in H1; auto.
    + apply (Hstep (d :: OStr col :: OStr t :: rest));
        [change (osize d + (1 + (1 + stack_size rest)) <= fuel); lia | | reflexivity].
      rewrite !Forall_cons_iff, (clean_children c (OEq t col d)). tauto.
    + apply (Hstep (OStr c2 :: OStr t2 :: OStr c1 :: OStr t1 :: rest));
        [change (1 + (1 + (1 + (1 + stack_size rest))) <= fuel); lia | | reflexivity].
      rewrite !Forall_cons_iff, (clean_children c (OJoin t1 c1 t2 c2)). tauto.
    + apply (Hstep rest); [lia | | reflexivity].
      rewrite Forall_cons_iff, (clean_children c ONone). tauto.
    + right. split; [|exists ValueError; cbn; auto].
      rewrite Forall_cons_iff, (clean_children c OOther). tauto.
Qed.

Lemma check_all_empty cs : check_all cs [] = Ok tt.
Proof. induction cs as [|c cs IH]; [reflexivity|]. exact IH. Qed.

Lemma check_all_cons c cs st : check_all (c :: cs) st
  = match check_loop (stack_size st) c st with Err e => Err e | Ok _ => check_all cs [] end.
Proof. reflexivity. Qed.

Lemma check_characters_spec args :
  (Forall (clean 59%N) args /\ check_characters args = Ok tt)
  \/ (~ Forall (clean 59%N) args
      /\ exists e, check_characters args = Err e /\ (e = ValueError \/ e = UnicodeError)).
Proof.
  assert (Hu : check_characters args
    = match check_loop (stack_size (rev args)) 59 (rev args) with Err e => Err e | Ok _ => Ok tt end).
  { unfold check_characters, forbidden_chars. rewrite check_all_cons.
    destruct (check_loop _ _ _); [apply check_all_empty | reflexivity]. }
  rewrite Hu. clear Hu.
  assert (Hr : Forall (clean 59%N) (rev args) <-> Forall (clean 59%N) args).
  { split; intros H; apply Forall_rev in H; rewrite ?rev_involutive in H; auto. }
  destruct (check_loop_spec (stack_size (rev args)) 59 (rev args) (le_n _)) as [[H ->]|[H (e & -> & He)]].
  - left. split; [now apply Hr | reflexivity].
  - right. split; [now rewrite <- Hr | eauto].
Qed.

(** What holds of C34: the check raises (ValueError or its subclass
    UnicodeEncodeError) if and only if some nested name contains a semicolon, is not
    encodable, or some nested object has an unexpected type.  Missing: the other
    forbidden characters. *)
Theorem C34_semicolon_partial : forall args,
  (check_characters args = Ok tt
   <-> (forall o, In o args ->
          (forall s, inside s o -> ~ In 59%N s /\ exists b, utf8_encode s = Ok b)
          /\ ~ other_inside o))
  /\ (check_characters args <> Ok tt ->
        check_characters args = Err ValueError \/ check_characters args = Err UnicodeError).
Proof.
  intros args. rewrite <- (Forall_forall (clean 59%N) args).
  destruct (check_characters_spec args) as [[H ->]|[H (e & -> & He)]].
  - split; [tauto | congruence].
  - split; [|intros _; destruct He; subst; auto].
    split; [discriminate | tauto].
Qed.

(** Refuted: every other forbidden character passes the check, because the list of
    names is consumed by the loop for the first character. *)
Theorem C34_refuted_other_characters : forall c,
  In c forbidden_chars -> c <> 59%N -> check_characters [OStr [c]] = Ok tt.
Proof.
  intros c Hc Hn. unfold forbidden_chars in Hc. cbn in Hc.
  repeat (destruct Hc as [<-|Hc]; [first [congruence | vm_compute; reflexivity]|]). destruct Hc.
Qed.

(** In particular a name that breaks out of the backquotes of a statement. *)
Theorem C34_refuted_injection :
  check_characters [OStr (lit "DATA_V1_x` --"); OList [OStr (lit "s"); OStr (lit "o`")]] = Ok tt.
Proof. vm_compute. reflexivity. Qed.

Example C34_semicolon_found :
  check_characters [OStr (lit "t"); OList [OStr (lit "s"); OAnd [OEq (lit "t") (lit "c;") ONone]]]
  = Err ValueError.
Proof. vm_compute. reflexivity. Qed.

(** * C35: data table names *)

(** The supported datatypes: terms of the four standard vocabularies, and custom
    datatypes of the cuba namespace whose name does not look like one of them. *)
Inductive supported : str -> Prop :=
| sup_xsd n : supported (XSD ++ n)
| sup_owl n : supported (OWL ++ n)
| sup_rdf n : supported (RDF ++ n)
| sup_rdfs n : supported (RDFS ++ n)
| sup_cuba n :
    Forall (fun p => startswith p n = false) [lit "OWL_"; lit "RDFS_"; lit "RDF_"; lit "XSD_"] ->
    supported (CUBA_DT ++ n).

Lemma startswith_shift p q s : startswith (p ++ q) (p ++ s) = startswith q s.
Proof. induction p as [|x p IH]; cbn; [reflexivity|]. now rewrite N.eqb_refl, IH. Qed.
Lemma after_shift p q s : after (p ++ q) (p ++ s) = after q s.
Proof. unfold after. rewrite app_length, skipn_app, skipn_all2 by lia.
  cbn. f_equal. lia. Qed.

Theorem C35_table_name_determines_datatype : forall dt,
  supported dt ->
  exists t, get_data_table_name dt = Ok t /\ determine_datatype t = dt.
Proof.
  intros dt H; inversion H as [n|n|n|n|n HF]; subst; clear H.
  - eexists. split; [unfold get_data_table_name; rewrite startswith_app, after_app; reflexivity|].
    unfold determine_datatype. rewrite !startswith_shift, !after_shift.
    replace (startswith (lit "OWL_") (lit "XSD_" ++ n)) with false by reflexivity.
    replace (startswith (lit "RDFS_") (lit "XSD_" ++ n)) with false by reflexivity.
    replace (startswith (lit "RDF_") (lit "XSD_" ++ n)) with false by reflexivity.
    now rewrite startswith_app, after_app.
  - eexists. split.
    { unfold get_data_table_name.
      replace (startswith XSD (OWL ++ n)) with false by reflexivity.
      rewrite startswith_app, after_app; reflexivity. }
    unfold determine_datatype. rewrite !startswith_shift, !after_shift.
    now rewrite startswith_app, after_app.
  - eexists. split.
    { unfold get_data_table_name.
      replace (startswith XSD (RDF ++ n)) with false by reflexivity.
      replace (startswith OWL (RDF ++ n)) with false by reflexivity.
      rewrite startswith_app, after_app; reflexivity. }
    unfold determine_datatype. rewrite !startswith_shift, !after_shift.
    replace (startswith (lit "OWL_") (lit "RDF_" ++ n)) with false by reflexivity.
    replace (startswith (lit "RDFS_") (lit "RDF_" ++ n)) with false by reflexivity.
    now rewrite startswith_app, after_app.
  - eexists. split.
    { unfold get_data_table_name.
      replace (startswith XSD (RDFS ++ n)) with false by reflexivity.
      replace (startswith OWL (RDFS ++ n)) with false by reflexivity.
      replace (startswith RDF (RDFS ++ n)) with false by reflexivity.
      rewrite startswith_app, after_app; reflexivity. }
    unfold determine_datatype. rewrite !startswith_shift, !after_shift.
    replace (startswith (lit "OWL_") (lit "RDFS_" ++ n)) with false by reflexivity.
    now rewrite startswith_app, after_app.
  - eexists. split.
    { unfold get_data_table_name.
      replace (startswith XSD (CUBA_DT ++ n)) with false by reflexivity.
      replace (startswith OWL (CUBA_DT ++ n)) with false by reflexivity.
      replace (startswith RDF (CUBA_DT ++ n)) with false by reflexivity.
      replace (startswith RDFS (CUBA_DT ++ n)) with false by reflexivity.
      rewrite startswith_app, after_app; reflexivity. }
    unfold determine_datatype. rewrite !startswith_shift.
    repeat match goal with H : Forall _ _ |- _ => inversion H; subst; clear H end.
    repeat match goal with H : startswith _ n = false |- _ => rewrite H; clear H end.
    now rewrite after_app.
Qed.

Theorem C35_tables_not_shared : forall d1 d2 t,
  supported d1 -> supported d2 ->
  get_data_table_name d1 = Ok t -> get_data_table_name d2 = Ok t -> d1 = d2.
Proof.
  intros d1 d2 t H1 H2 E1 E2.
  destruct (C35_table_name_determines_datatype d1 H1) as (t1 & F1 & <-).
  destruct (C35_table_name_determines_datatype d2 H2) as (t2 & F2 & <-).
  congruence.
Qed.

(** Every datatype that a YAML ontology can declare is supported, except UUID. *)
Theorem C35_yaml_datatypes_supported :
  (forall b sh iri, sh <> [] ->
     get_rdflib_datatype (vector_text b sh) = Ok (Some iri) -> supported iri)
  /\ (forall n iri, get_rdflib_datatype (string_text n) = Ok (Some iri) -> supported iri)
  /\ (forall b, b <> UUID -> supported (rdf_name b))
  /\ get_data_table_name (rdf_name UUID) = Err NotImplementedError.
Proof.
  split; [|split; [|split]].
  - intros b sh iri Hne E. rewrite grd_vector in E by auto. apply Ok_inj in E. injection E as <-.
    unfold vector_iri. change VEC_PREFIX with (CUBA_DT ++ lit "VECTOR-"). rewrite <- app_assoc.
    constructor. repeat constructor.
  - intros n iri E. destruct (C40_string_datatype_parsed_back n) as (i & F & G).
    assert (i = iri) as -> by congruence. clear F.
    assert (iri = string_iri (Z.of_N n)) as ->.
    { unfold get_rdflib_datatype in E.
      assert (Hb : basic_of_yml (string_text n) = None)
        by (unfold string_text; generalize (dec n); reflexivity).
      rewrite Hb in E.
      replace (split_on 58 (string_text n)) with [lit "STRING"; dec n] in E.
      2: { symmetry. unfold string_text. change (lit "STRING:") with (lit "STRING" ++ [58%N]).
           rewrite <- app_assoc. change ([58%N] ++ dec n) with (58%N :: dec n).
           rewrite split_on_app by (cbn; intuition discriminate).
           f_equal. apply split_on_nosep. now apply digit_not. }
      cbn [List.length Nat.eqb] in E.
      rewrite (proj2 (str_eqb_neq (lit "STRING") (lit "VECTOR"))) in E by discriminate.
      rewrite str_eqb_refl in E. cbn [andb] in E. rewrite int_of_dec in E. congruence. }
    unfold string_iri. change STR_PREFIX with (CUBA_DT ++ lit "STRING-"). rewrite <- app_assoc.
    constructor. repeat constructor.
  - intros b Hb. destruct b; [apply sup_xsd|apply sup_xsd|apply sup_xsd|apply sup_xsd|congruence].
  - vm_compute. reflexivity.
Qed.

(** Refuted without the side condition on custom names. *)
Theorem C35_refuted_custom_name_clash :
  exists d1 d2 t, d1 <> d2 /\ get_data_table_name d1 = Ok t /\ get_data_table_name d2 = Ok t.
Proof.
  exists (XSD ++ lit "integer"), (CUBA_DT ++ lit "XSD_integer"), (lit "DATA_V1_XSD_integer").
  split; [discriminate|]. split; vm_compute; reflexivity.
Qed.

(** * C33: vector columns *)

(** ** Specification *)

(** A column name that does not end in "___<number>". *)
Definition plain (c : str) : Prop := forall i, endswith (lit "___" ++ dec i) c = false.

(** [v] is a value that can be stored in column [c]: a scalar that survives the
    conversion to its database form and back, or a vector of the declared shape (with
    at least one element) whose elements have the element type. *)
Definition good_value {A} (conv : basic -> A -> res A) str_of of_str
    (dts : dict) (c : str) (v : nd A) : Prop :=
  plain c /\
  ((exists dt a b, dts c = Some dt /\ is_vector dt = false /\ v = Leaf a
      /\ convert_from conv (Leaf a) dt = Ok (Leaf b)
      /\ convert_to conv str_of of_str (Leaf b) dt = Ok (Leaf a))
   \/ (exists b shape iri, dts c = Some (Some iri)
      /\ get_rdflib_datatype (vector_text (Some b) shape) = Ok (Some iri)
      /\ shape <> [] /\ Forall (fun n => 0 < n)%N shape
      /\ has_shape (map N.to_nat shape) v
      /\ forall a, In a (flatten v) -> conv b a = Ok a)).

(** ** Auxiliary facts *)

Lemma app_inj_sep (c : N) (a b x y : str) :
  ~ In c x -> ~ In c y -> a ++ c :: x = b ++ c :: y -> a = b /\ x = y.
Proof.
  revert b; induction a as [|p a IH]; intros [|q b] Hx Hy H; cbn in H.
  - split; congruence.
  - injection H as -> H. exfalso. apply Hx. rewrite H. apply in_or_app. right. now left.
  - injection H as -> H. exfalso. apply Hy. rewrite <- H. apply in_or_app. right. now left.
  - injection H as -> H. destruct (IH b Hx Hy H). split; congruence.
Qed.

Lemma vec_col_shape c i : vec_col c i = (c ++ lit "__") ++ 95%N :: dec i.
Proof. unfold vec_col. now rewrite <- app_assoc. Qed.

Lemma vec_col_inj c i d j : vec_col c i = vec_col d j -> c = d /\ i = j.
Proof.
  rewrite !vec_col_shape. intros H. apply app_inj_sep in H; [|now apply digit_not|now apply digit_not].
  destruct H as [H1 H2]. split; [now apply app_inv_tail in H1 | now apply dec_inj].
Qed.

Lemma endswith_vec_col c i k : endswith (lit "___" ++ dec k) (vec_col c i) = N.eqb k i.
Proof.
  apply eq_true_iff_eq. rewrite endswith_iff, N.eqb_eq. split.
  - intros [r Hr]. change (r ++ lit "___" ++ dec k) with (vec_col r k) in Hr.
    apply vec_col_inj in Hr as [_ ->]. reflexivity.
  - intros ->. now exists c.
Qed.

Lemma before_vec_col c i : before_suffix (lit "___" ++ dec i) (vec_col c i) = c.
Proof. apply before_suffix_app. Qed.

Lemma plain_not_vec c i d : plain c -> c <> vec_col d i.
Proof. intros H ->. specialize (H i). rewrite endswith_vec_col, N.eqb_refl in H. discriminate. Qed.

Lemma upd_same d k v : upd d k v k = Some v.
Proof. unfold upd. now rewrite str_eqb_refl. Qed.
Lemma upd_other d k v k' : k' <> k -> upd d k v k' = d k'.
Proof. intros H. unfold upd. now rewrite (proj2 (str_eqb_neq k' k) H). Qed.

Lemma fold_upd_in l v d k : In k l -> fold_left (fun d k => upd d k v) l d k = Some v.
Proof.
  revert d; induction l as [|x l IH]; intros d Hin; [destruct Hin|]. cbn.
  destruct (in_dec str_eq_dec k l) as [Hk|Hk]; [now apply IH|].
  destruct Hin as [->|Hin]; [|contradiction].
  clear IH. revert d Hk. induction l as [|y l IH2]; intros d Hk; cbn.
  - apply upd_same.
  - assert (E : upd (upd d k v) y v k = Some v).
    { rewrite upd_other by (intros ->; apply Hk; now left). apply upd_same. }
    assert (Hg : forall l d, ~ In k l -> d k = Some v -> fold_left (fun d k => upd d k v) l d k = Some v).
    { clear. induction l as [|z l IH]; cbn; intros d Hn E; [auto|].
      apply IH; [tauto|]. rewrite upd_other; [auto | intros ->; tauto]. }
    apply Hg; [|exact E]. intros Hin. apply Hk. now right.
Qed.

Lemma fold_upd_notin l v d k : ~ In k l -> fold_left (fun d k => upd d k v) l d k = d k.
Proof.
  revert d; induction l as [|x l IH]; intros d Hin; [reflexivity|]. cbn.
  rewrite IH by (intros H; apply Hin; now right). apply upd_other. intros ->. apply Hin. now left.
Qed.

Lemma vector_iri_is_vector sh b : is_vector (Some (vector_iri sh b)) = true.
Proof. unfold is_vector, vector_iri. apply startswith_app. Qed.

Lemma size_N sh : Z.to_nat (fold_right Z.mul 1%Z (map Z.of_N sh)) = size (map N.to_nat sh).
Proof.
  assert (H : fold_right Z.mul 1%Z (map Z.of_N sh) = Z.of_nat (size (map N.to_nat sh))).
  { induction sh as [|n sh IH]; [reflexivity|]. cbn [map fold_right].
    rewrite IH. unfold size. cbn [fold_right]. lia. }
  rewrite H. apply Nat2Z.id.
Qed.

Lemma expanded_vector c sh b : sh <> [] ->
  get_expanded_cols c (Some (vector_iri (map Z.of_N sh) b))
  = Ok (map (vec_col c) (range (size (map N.to_nat sh))), Some (rdf_name b)).
Proof.
  intros Hne. unfold get_expanded_cols. rewrite (vector_iri_is_vector (map Z.of_N sh) b : startswith VEC_PREFIX _ = true).
  unfold vector_iri. rewrite after_app.
  rewrite map_map, (map_ext _ dec) by apply decZ_of_N.
  replace (yml_name b ++ lit "-" ++ join_with (lit "-") (map dec sh))
    with (join_with [45%N] (yml_name b :: map dec sh))
    by (destruct sh; [congruence | reflexivity]).
  rewrite split_join.
  - rewrite parse_args_name, <- size_N. destruct sh as [|n sh]; [congruence | reflexivity].
  - congruence.
  - constructor; [now apply yml_name_no|].
    apply Forall_forall. intros w Hw. apply in_map_iff in Hw as (n & <- & _). now apply digit_not.
Qed.

Lemma range_length n : List.length (range n) = n.
Proof. unfold range. now rewrite map_length, seq_length. Qed.

Lemma size_pos sh : Forall (fun n => 0 < n)%N sh -> 0 < size (map N.to_nat sh).
Proof. induction 1 as [|n sh Hn HF IH]; cbn; [lia|]. apply Nat.mul_pos_pos; [lia | exact IH]. Qed.

Lemma combine_map_l {X Y Z} (f : X -> Y) (l : list X) (m : list Z) :
  combine (map f l) m = map (fun '(x, z) => (f x, z)) (combine l m).
Proof. revert m; induction l as [|x l IH]; intros [|z m]; cbn; [reflexivity..|]. now rewrite IH. Qed.

Lemma combine_app {X Y} (a b : list X) (c d : list Y) :
  List.length a = List.length c -> combine (a ++ b) (c ++ d) = combine a c ++ combine b d.
Proof. revert c; induction a as [|x a IH]; intros [|y c] H; cbn in *; try discriminate; [reflexivity|].
  rewrite IH; [reflexivity | lia]. Qed.

Lemma mapM_app_ok {X Y} (f : X -> res Y) a b u v :
  mapM f a = Ok u -> mapM f b = Ok v -> mapM f (a ++ b) = Ok (u ++ v).
Proof.
  revert u; induction a as [|x a IH]; intros u Ha Hb; cbn in *.
  - apply Ok_inj in Ha. subst. exact Hb.
  - destruct (f x) as [y|e]; [|discriminate]. destruct (mapM f a) as [ys|e]; [|discriminate].
    apply Ok_inj in Ha. subst u. rewrite (IH ys eq_refl Hb). reflexivity.
Qed.

Section C33.
  Context {A : Type}.
  Variable conv : basic -> A -> res A.
  Variable str_of : A -> str.
  Variable of_str : str -> A.
  Notation cto := (convert_to conv str_of of_str).
  Notation cfrom := (convert_from conv).
  Notation good := (good_value conv str_of of_str).

  (** The scalar cells of one value. *)
  Definition cells_of (dts : dict) (c : str) (v : nd A) : list (str * nd A) :=
    match dts c with
    | Some dt => if is_vector dt
                 then combine (map (vec_col c) (range (List.length (flatten v)))) (map Leaf (flatten v))
                 else [(c, v)]
    | None => []
    end.

  (** What datatypes_expanded must say. *)
  Definition ok_dict (orig d : dict) : Prop := forall c, plain c -> d c = orig c.
  Definition has_elem (orig d : dict) (c : str) : Prop :=
    forall b sh, orig c = Some (Some (vector_iri (map Z.of_N sh) b)) -> sh <> [] ->
    forall i, (i < N.of_nat (size (map N.to_nat sh)))%N -> d (vec_col c i) = Some (Some (rdf_name b)).

  Lemma in_range i n : In i (range n) <-> (i < N.of_nat n)%N.
  Proof.
    unfold range. rewrite in_map_iff. split.
    - intros (k & <- & Hk). apply in_seq in Hk. lia.
    - intros H. exists (N.to_nat i). split; [lia|]. apply in_seq. lia.
  Qed.

  (** One column extends the dictionary. *)
  Lemma step_scalar orig d c dt : plain c -> orig c = Some dt -> ok_dict orig d ->
    is_vector dt = false ->
    ok_dict orig (upd d c dt) /\ has_elem orig (upd d c dt) c
    /\ (forall c', has_elem orig d c' -> has_elem orig (upd d c dt) c').
  Proof.
    intros Hp Ho Hd Hv. split; [|split].
    - intros k Hk. unfold upd. destruct (str_eqb_spec k c) as [->|Hn]; [now rewrite Ho | now apply Hd].
    - intros b sh E Hne. rewrite Ho in E. assert (dt = Some (vector_iri (map Z.of_N sh) b)) as -> by congruence. now rewrite vector_iri_is_vector in Hv.
    - intros c' H b sh E Hne i Hi. rewrite upd_other; [now apply (H b sh)|].
      intros E'. symmetry in E'. revert E'. now apply plain_not_vec.
  Qed.

  Lemma step_vector orig d c sh b : plain c ->
    orig c = Some (Some (vector_iri (map Z.of_N sh) b)) -> sh <> [] -> ok_dict orig d ->
    let d1 := upd (fold_left (fun d k => upd d k (Some (rdf_name b)))
                     (map (vec_col c) (range (size (map N.to_nat sh)))) d)
                  c (Some (vector_iri (map Z.of_N sh) b)) in
    ok_dict orig d1 /\ has_elem orig d1 c
    /\ (forall c', has_elem orig d c' -> has_elem orig d1 c').
  Proof.
    intros Hp Ho Hne Hd d1.
    assert (Hvec : forall c' i, d1 (vec_col c' i) =
      fold_left (fun d k => upd d k (Some (rdf_name b))) (map (vec_col c) (range (size (map N.to_nat sh)))) d (vec_col c' i)).
    { intros c' i. unfold d1. apply upd_other. intros E. symmetry in E. revert E. now apply plain_not_vec. }
    assert (Hin : forall i, (i < N.of_nat (size (map N.to_nat sh)))%N -> d1 (vec_col c i) = Some (Some (rdf_name b))).
    { intros i Hi. rewrite Hvec. apply fold_upd_in. apply in_map. now apply in_range. }
    assert (Huniq : forall b' sh', orig c = Some (Some (vector_iri (map Z.of_N sh') b')) -> sh' <> [] -> b' = b /\ sh' = sh).
    { intros b' sh' E Hne'. rewrite Ho in E.
      assert (vector_iri (map Z.of_N sh) b = vector_iri (map Z.of_N sh') b') as E2 by congruence. clear E.
      destruct (C40_vector_iris_distinct b' b sh' sh (vector_iri (map Z.of_N sh) b)) as [-> ->]; auto.
      - rewrite grd_vector by auto. now rewrite E2.
      - now rewrite grd_vector by auto. }
    split; [|split].
    - intros k Hk. unfold d1, upd at 1. destruct (str_eqb_spec k c) as [->|Hn]; [now rewrite Ho|].
      rewrite fold_upd_notin; [now apply Hd|]. intros Hin'. apply in_map_iff in Hin' as (i & E & _).
      symmetry in E. revert E. now apply plain_not_vec.
    - intros b' sh' E Hne' i Hi. destruct (Huniq b' sh' E Hne') as [-> ->]. now apply Hin.
    - intros c' H b' sh' E Hne' i Hi. rewrite Hvec.
      destruct (str_eq_dec c' c) as [->|Hc].
      + destruct (Huniq b' sh' E Hne') as [-> ->]. rewrite <- Hvec. now apply Hin.
      + rewrite fold_upd_notin; [now apply (H b' sh')|].
        intros Hin'. apply in_map_iff in Hin' as (j & E' & _). apply vec_col_inj in E' as [E' _]. congruence.
  Qed.

  (** [expand_vector_cols] with and without values. *)
  Lemma expand_spec orig cols vals : Forall2 (good orig) cols vals ->
    forall d, ok_dict orig d ->
    exists d', expand_cols conv orig d cols vals
               = Ok (concat (map (fun cv => map fst (cells_of orig (fst cv) (snd cv))) (combine cols vals)), d',
                     concat (map (fun cv => map snd (cells_of orig (fst cv) (snd cv))) (combine cols vals)))
      /\ expand_cols0 orig d cols
         = Ok (concat (map (fun cv => map fst (cells_of orig (fst cv) (snd cv))) (combine cols vals)), d')
      /\ ok_dict orig d' /\ (forall c, In c cols -> has_elem orig d' c)
      /\ (forall c, has_elem orig d c -> has_elem orig d' c).
  Proof.
    induction 1 as [|c v cols vals Hg HF IH]; intros d Hd.
    - exists d. cbn. repeat split; auto. intros c [].
    - destruct Hg as [Hp [(dt & a & b & Ho & Hv & -> & Hcf & Hct)
                         | (b & sh & iri & Ho & Hi & Hne & Hpos & Hs & Hconv)]].
      + destruct (step_scalar orig d c dt Hp Ho Hd Hv) as (S1 & S2 & S3).
        destruct (IH (upd d c dt) S1) as (d' & E1 & E2 & Hok & Hel & Hpres).
        exists d'. cbn [expand_cols expand_cols0 combine map concat fst snd]. rewrite Ho, Hv. cbn [negb].
        rewrite E1, E2.
        assert (Hcell : cells_of orig c (Leaf a) = [(c, Leaf a)]) by (unfold cells_of; now rewrite Ho, Hv).
        rewrite !Hcell. cbn [map fst snd app].
        split; [reflexivity|]. split; [reflexivity|]. split; [exact Hok|].
        split; [intros c' [<-|Hin]; auto | auto].
      + rewrite grd_vector in Hi by auto. apply Ok_inj in Hi. injection Hi as <-.
        destruct (step_vector orig d c sh b Hp Ho Hne Hd) as (S1 & S2 & S3).
        set (d1 := upd _ c _) in S1, S2, S3.
        destruct (IH d1 S1) as (d' & E1 & E2 & Hok & Hel & Hpres).
        exists d'. cbn [expand_cols expand_cols0 combine map concat fst snd].
        rewrite Ho, vector_iri_is_vector. cbn [negb]. rewrite (expanded_vector c sh b Hne).
        assert (Hcf : cfrom v (Some (vector_iri (map Z.of_N sh) b)) = Ok (Nest (map Leaf (flatten v)))).
        { unfold convert_from. now rewrite gpd_vector. }
        rewrite Hcf. cbv zeta. fold d1. rewrite E1, E2.
        assert (Hcell : cells_of orig c v = combine (map (vec_col c) (range (size (map N.to_nat sh)))) (map Leaf (flatten v)))
          by (unfold cells_of; now rewrite Ho, vector_iri_is_vector, (flatten_size _ _ Hs)).
        rewrite !Hcell. cbn [items].
        assert (Hl : List.length (map (vec_col c) (range (size (map N.to_nat sh)))) = List.length (map Leaf (flatten v))).
        { rewrite !map_length, range_length. symmetry. now apply flatten_size. }
        assert (Hfst : forall (X Y : Type) (l : list X) (m : list Y), List.length l = List.length m ->
                  map fst (combine l m) = l /\ map snd (combine l m) = m).
        { clear. induction l as [|x l IHl]; intros [|y m] H; cbn in *; try discriminate; [auto|].
          destruct (IHl m) as [-> ->]; [lia|]. auto. }
        destruct (Hfst _ _ _ _ Hl) as [-> ->].
        split; [reflexivity|]. split; [reflexivity|]. split; [exact Hok|].
        split; [intros c' [<-|Hin]; auto | auto].
  Qed.


  Definition row_cells (orig : dict) (cols : list str) (vals : list (nd A)) : list (str * nd A) :=
    concat (map (fun cv => cells_of orig (fst cv) (snd cv)) (combine cols vals)).

  Lemma concat_map_map {X Y Z} (f : Y -> Z) (g : X -> list Y) l :
    concat (map (fun x => map f (g x)) l) = map f (concat (map g l)).
  Proof. induction l as [|x l IH]; cbn; [reflexivity|]. now rewrite map_app, IH. Qed.

  Lemma combine_fst_snd {X Y} (l : list (X * Y)) : combine (map fst l) (map snd l) = l.
  Proof. induction l as [|[x y] l IH]; cbn; [reflexivity|]. now rewrite IH. Qed.

  (** A cell: converting to the database form and back is the identity. *)
  Definition cell_ok (d : dict) (cv : str * nd A) : Prop :=
    exists w, cfrom (snd cv) (match d (fst cv) with Some dt => dt | None => None end) = Ok w
      /\ exists dt, d (fst cv) = Some dt /\ cto w dt = Ok (snd cv).

  Lemma in_combine_map {X Y Z W} (f : X -> Z) (g : Y -> W) l m p :
    In p (combine (map f l) (map g m)) -> exists x y, In x l /\ In y m /\ p = (f x, g y).
  Proof.
    revert m; induction l as [|x l IH]; intros [|y m] H; cbn in H; try contradiction.
    destruct H as [<-|H].
    - exists x, y. cbn; auto.
    - destruct (IH m H) as (x' & y' & ? & ? & ->). exists x', y'. cbn; auto.
  Qed.

  Lemma basic_of_rdf_name b : basic_of_rdf (rdf_name b) = Some b.
  Proof. destruct b; vm_compute; reflexivity. Qed.

  Lemma cells_ok orig d c v : good orig c v -> ok_dict orig d -> has_elem orig d c ->
    Forall (cell_ok d) (cells_of orig c v).
  Proof.
    intros [Hp [(dt & a & b & Ho & Hv & -> & Hcf & Hct)
               | (b & sh & iri & Ho & Hi & Hne & Hpos & Hs & Hconv)]] Hd Hel; unfold cells_of; rewrite Ho.
    - rewrite Hv. constructor; [|constructor]. exists (Leaf b). cbn.
      rewrite (Hd c Hp), Ho. split; [auto|]. exists dt. auto.
    - rewrite grd_vector in Hi by auto. apply Ok_inj in Hi. injection Hi as <-.
      rewrite vector_iri_is_vector. apply Forall_forall. intros p Hin.
      apply in_combine_map in Hin as (i & a & Hi & Ha & ->).
      rewrite (flatten_size _ _ Hs) in Hi. apply in_range in Hi.
      specialize (Hel b sh Ho Hne i Hi).
      unfold cell_ok. cbn [fst snd]. rewrite Hel.
      assert (Hg : get_python_datatype (Some (rdf_name b)) = Ok (TBasic b)).
      { unfold get_python_datatype. now rewrite basic_of_rdf_name. }
      exists (Leaf a). split.
      + unfold convert_from. rewrite Hg. destruct b; try reflexivity; cbn; now rewrite (Hconv a Ha).
      + exists (Some (rdf_name b)). split; [auto|]. unfold convert_to. rewrite Hg. cbn. now rewrite (Hconv a Ha).
  Qed.

  (** Through the database: insert conversion, then select conversion. *)
  Lemma cells_convert d cells : Forall (cell_ok d) cells ->
    exists ws, mapM (fun '(c, v) => cfrom v (match d c with Some dt => dt | None => None end)) cells = Ok ws
      /\ List.length ws = List.length cells
      /\ mapM (fun '(v, (c, d)) => match (d : dict) c with None => Err KeyError | Some dt => cto v dt end)
              (combine ws (map (fun c => (fst c, d)) cells)) = Ok (map snd cells).
  Proof.
    induction 1 as [|[c v] cells (w & Hw & dt & Hdt & Hto) HF IH]; [exists []; auto|].
    destruct IH as (ws & E1 & Hl & E2). cbn [fst snd] in *.
    exists (w :: ws). cbn [mapM]. rewrite Hw, E1. split; [reflexivity|]. split; [cbn; lia|].
    cbn [map combine mapM fst]. rewrite Hdt, Hto, E2. reflexivity.
  Qed.

  (** ** Contraction *)

  (** [out] is the contracted row once the pending vector is flushed. *)
  Definition pending (acc temp : list (nd A)) (vd : option str) (out : list (nd A)) : Prop :=
    (temp = [] /\ out = acc)
    \/ (temp <> [] /\ exists pv, cto (Nest temp) vd = Ok pv /\ out = acc ++ [pv]).

  Lemma pending_flush acc temp vd out : pending acc temp vd out ->
    match temp with [] => Ok acc | _ => rmap (fun v => acc ++ [v]) (cto (Nest temp) vd) end = Ok out.
  Proof.
    intros [[-> ->]|[Hne (pv & E & ->)]]; [reflexivity|].
    destruct temp; [congruence|]. now rewrite E.
  Qed.

  Lemma handle_plain c d temp : plain c -> @handle_vector_item A c d temp = Ok None.
  Proof. intros H. unfold handle_vector_item. now rewrite H. Qed.

  Lemma handle_vec c i d temp dt : d c = Some dt ->
    @handle_vector_item A (vec_col c i) d temp
    = Ok (if N.eqb (N.of_nat (List.length temp)) i then Some dt else None).
  Proof.
    intros H. unfold handle_vector_item. rewrite endswith_vec_col.
    destruct (N.eqb_spec (N.of_nat (List.length temp)) i) as [<-|Hn]; [|reflexivity].
    now rewrite before_vec_col, H.
  Qed.

  (** The elements after the first one. *)
  Lemma contract_elems c d dt q row acc es temp vd k : d c = Some dt -> List.length temp = k -> 0 < k ->
    contract_row conv str_of of_str
      (map (fun i => (vec_col c (N.of_nat i), d)) (seq k (List.length es)) ++ q) (es ++ row) acc temp vd
    = contract_row conv str_of of_str q row acc (temp ++ es) (match es with [] => vd | _ => dt end).
  Proof.
    intros Hd. revert temp vd k. induction es as [|e es IH]; intros temp vd k Hk Hpos.
    - cbn. now rewrite app_nil_r.
    - cbn [List.length seq map app contract_row].
      rewrite (handle_vec c (N.of_nat k) d temp dt Hd), Hk, N.eqb_refl.
      rewrite (IH (temp ++ [e]) dt (S k)); [|rewrite app_length; cbn; lia | lia].
      rewrite <- app_assoc. cbn [app]. destruct es; reflexivity.
  Qed.

  Lemma contract_column orig d c v : good orig c v -> ok_dict orig d ->
    forall q row acc temp vd out, pending acc temp vd out ->
    exists acc' temp' vd', pending acc' temp' vd' (out ++ [v])
    /\ contract_row conv str_of of_str
         (map (fun cv => (fst cv, d)) (cells_of orig c v) ++ q)
         (map snd (cells_of orig c v) ++ row) acc temp vd
       = contract_row conv str_of of_str q row acc' temp' vd'.
  Proof.
    intros Hgood Hd q row acc temp vd out Hpend.
    pose proof Hgood as [Hp [(dt & a & b & Ho & Hv & -> & Hcf & Hct)
               | (b & sh & iri & Ho & Hi & Hne & Hpos & Hs & Hconv)]]; unfold cells_of; rewrite Ho.
    - rewrite Hv. cbn [map fst snd app contract_row].
      rewrite (handle_plain c d temp Hp), (pending_flush _ _ _ _ Hpend), (handle_plain c d [] Hp).
      exists (out ++ [Leaf a]), [], vd. split; [left; auto | reflexivity].
    - pose proof (C40_vector_roundtrip conv str_of of_str b sh iri v Hne Hi Hs Hconv) as (flat & Hf & Hto & _).
      pose proof Hi as Hi'. rewrite grd_vector in Hi' by auto. apply Ok_inj in Hi'. injection Hi' as Hiri.
      rewrite <- Hiri in Hf, Hto, Ho. rewrite <- Hiri.
      assert (flat = Nest (map Leaf (flatten v))) as ->.
      { unfold convert_from in Hf. rewrite gpd_vector in Hf by auto. now apply Ok_inj in Hf. }
      rewrite vector_iri_is_vector.
      pose proof (flatten_size _ _ Hs) as Hlen. pose proof (size_pos sh Hpos) as Hsz.
      assert (Hdc : d c = Some (Some (vector_iri (map Z.of_N sh) b))) by now rewrite (Hd c Hp).
      destruct (flatten v) as [|e es] eqn:Efl; [cbn in Hlen; lia|].
      assert (Hcells : map (fun cv : str * nd A => (fst cv, d))
          (combine (map (vec_col c) (range (List.length (e :: es)))) (map Leaf (e :: es)))
          = (vec_col c 0, d) :: map (fun i => (vec_col c (N.of_nat i), d)) (seq 1 (List.length (map (@Leaf A) es)))
        /\ map snd (combine (map (vec_col c) (range (List.length (e :: es)))) (map Leaf (e :: es)))
          = Leaf e :: map Leaf es).
      { clear. unfold range. cbn [List.length seq map combine fst snd]. split; (f_equal).
        - rewrite map_length. generalize 1 as k. induction es as [|x es IH]; intros k; cbn; [reflexivity|]. now rewrite IH.
        - generalize 1 as k. induction es as [|x es IH]; intros k; cbn; [reflexivity|]. now rewrite IH. }
      destruct Hcells as [-> ->]. cbn [app]. cbn [contract_row].
      exists out, (map Leaf (e :: es)), (Some (vector_iri (map Z.of_N sh) b)).
      split.
      { right. split; [cbn; congruence|]. exists v. split; [exact Hto | reflexivity]. }
      rewrite (handle_vec c 0 d temp _ Hdc), (handle_vec c 0 d [] _ Hdc).
      cbn [List.length N.of_nat N.eqb].
      destruct Hpend as [[-> ->]|[Htne (pv & Epv & ->)]].
      + cbn [List.length N.of_nat N.eqb app].
        rewrite (contract_elems c d _ q row acc (map Leaf es) [Leaf e] _ 1 Hdc); [|reflexivity|lia].
        cbn [app map]. destruct es; reflexivity.
      + destruct temp as [|t0 temp']; [congruence|].
        replace (N.eqb (N.of_nat (List.length (t0 :: temp'))) 0) with false
          by (symmetry; apply N.eqb_neq; cbn; lia).
        rewrite Epv. cbn [rmap].
        rewrite (contract_elems c d _ q row _ (map Leaf es) [Leaf e] _ 1 Hdc); [|reflexivity|lia].
        cbn [app map]. destruct es; reflexivity.
  Qed.

  Lemma contract_table orig d cols vals : Forall2 (good orig) cols vals -> ok_dict orig d ->
    forall q row acc temp vd out, pending acc temp vd out ->
    exists acc' temp' vd', pending acc' temp' vd' (out ++ vals)
    /\ contract_row conv str_of of_str
         (map (fun cv => (fst cv, d)) (row_cells orig cols vals) ++ q)
         (map snd (row_cells orig cols vals) ++ row) acc temp vd
       = contract_row conv str_of of_str q row acc' temp' vd'.
  Proof.
    intros HF Hd. induction HF as [|c v cols vals Hg HF IH]; intros q row acc temp vd out Hpend.
    - exists acc, temp, vd. cbn. rewrite app_nil_r. auto.
    - unfold row_cells. cbn [combine map concat fst snd]. rewrite !map_app, <- !app_assoc.
      destruct (contract_column orig d c v Hg Hd
        (map (fun cv => (fst cv, d)) (row_cells orig cols vals) ++ q)
        (map snd (row_cells orig cols vals) ++ row) acc temp vd out Hpend) as (a1 & t1 & v1 & Hp1 & E1).
      unfold row_cells in E1. rewrite E1.
      destruct (IH q row a1 t1 v1 _ Hp1) as (a2 & t2 & v2 & Hp2 & E2).
      unfold row_cells in E2. rewrite E2.
      exists a2, t2, v2. rewrite <- app_assoc in Hp2. auto.
  Qed.
End C33.

(** ** C33 *)

(** A query over several tables.  For each table a row was inserted; the database
    returns the joined rows.  For every mix of scalar and vector columns, in any
    order, and every shape, the rows handed to the user are the inserted values. *)
Theorem C33_vector_columns_roundtrip :
  forall {A} (conv : basic -> A -> res A) str_of of_str
         (tables : list (dict * list str * list (nd A))),
  Forall (fun '(dts, cols, vals) => Forall2 (good_value conv str_of of_str dts) cols vals) tables ->
  exists (inserts : list (list str * list (nd A))) (q : list qtable),
    Forall2 (fun '(dts, cols, vals) ins => inserted conv dts cols vals = Ok ins) tables inserts
    /\ Forall2 (fun '(dts, cols, vals) t => query_table dts cols = Ok t) tables q
    /\ map fst inserts = map fst q
    /\ contract_vector_values conv str_of of_str q (concat (map snd inserts))
       = Ok (concat (map snd tables)).
Proof.
  intros A conv str_of of_str tables HF.
  assert (H : exists inserts q,
    Forall2 (fun '(dts, cols, vals) ins => inserted conv dts cols vals = Ok ins) tables inserts
    /\ Forall2 (fun '(dts, cols, vals) t => query_table dts cols = Ok t) tables q
    /\ map fst inserts = map fst q
    /\ exists vs, convert_values conv str_of of_str (query_columns q) (concat (map snd inserts)) = Ok vs
    /\ List.length vs = List.length (query_columns q)
    /\ forall q' row acc temp vd out, pending conv str_of of_str acc temp vd out ->
       exists acc' temp' vd', pending conv str_of of_str acc' temp' vd' (out ++ concat (map snd tables))
       /\ contract_row conv str_of of_str (query_columns q ++ q') (vs ++ row) acc temp vd
          = contract_row conv str_of of_str q' row acc' temp' vd').
  { induction HF as [|[[dts cols] vals] tables Hg HF IH].
    - exists [], []. repeat split; try constructor. exists []. repeat split.
      intros. cbn. rewrite app_nil_r. eauto 6.
    - destruct IH as (inserts & q & H1 & H2 & H3 & vs & H4 & H5 & H6).
      destruct (expand_spec conv str_of of_str dts cols vals Hg dts (fun c _ => eq_refl))
        as (d & E1 & E2 & Hok & Hel & _).
      rewrite (concat_map_map fst) in E1, E2. rewrite (concat_map_map snd) in E1.
      fold (row_cells dts cols vals) in E1, E2.
      assert (Hcells : Forall (cell_ok conv str_of of_str d) (row_cells dts cols vals)).
      { unfold row_cells. clear -Hg Hok Hel. induction Hg as [|c v cols vals Hgv HF IH]; cbn [combine map concat fst snd]; [constructor|].
        apply Forall_app. split.
        - apply cells_ok; auto. apply Hel. now left.
        - apply IH. intros c' Hc'. apply Hel. now right. }
      destruct (cells_convert conv str_of of_str d _ Hcells) as (ws & W1 & W2 & W3).
      exists ((map fst (row_cells dts cols vals), ws) :: inserts),
             ((map fst (row_cells dts cols vals), d) :: q).
      split.
      { constructor; [|exact H1]. unfold inserted. rewrite E1, combine_fst_snd, W1. reflexivity. }
      split; [constructor; auto|].
      split; [cbn; f_equal; exact H3|].
      exists (map snd (row_cells dts cols vals) ++ vs).
      assert (Hqc : query_columns ((map fst (row_cells dts cols vals), d) :: q)
                    = map (fun cv => (fst cv, d)) (row_cells dts cols vals) ++ query_columns q).
      { unfold query_columns. cbn [flat_map fst snd]. now rewrite map_map. }
      rewrite Hqc. split; [|split].
      + unfold convert_values in *. cbn [map concat snd].
        rewrite combine_app by now rewrite map_length.
        apply mapM_app_ok; [exact W3 | exact H4].
      + rewrite !app_length, !map_length. lia.
      + intros q' row acc temp vd out Hpend. rewrite <- !app_assoc.
        destruct (contract_table conv str_of of_str dts d cols vals Hg Hok
                    (query_columns q ++ q') (vs ++ row) acc temp vd out Hpend) as (a1 & t1 & v1 & P1 & ->).
        destruct (H6 q' row a1 t1 v1 _ P1) as (a2 & t2 & v2 & P2 & ->).
        exists a2, t2, v2. cbn [map concat snd]. rewrite app_assoc. auto. }
  destruct H as (inserts & q & H1 & H2 & H3 & vs & H4 & H5 & H6).
  exists inserts, q. repeat split; auto.
  unfold contract_vector_values. rewrite H4.
  destruct (H6 [] [] [] [] None [] (or_introl (conj eq_refl eq_refl))) as (a & t & v & P & E).
  rewrite !app_nil_r in E. rewrite E. cbn [contract_row app] in *.
  exact (pending_flush conv str_of of_str _ _ _ _ P).
Qed.

(** Non-vacuity: a table with a scalar, two adjacent vectors and a scalar. *)
Definition exd : dict := fun c =>
  if str_eqb c (lit "s") then Some (Some (XSD ++ lit "integer"))
  else if str_eqb c (lit "v") then Some (Some (VEC_PREFIX ++ lit "INT-2"))
  else if str_eqb c (lit "w") then Some (Some (VEC_PREFIX ++ lit "INT-2-2"))
  else None.
Example C33_example :
  let cols := [lit "s"; lit "v"; lit "w"; lit "s"] in
  let vals := [Leaf 7; Nest [Leaf 1; Leaf 2];
               Nest [Nest [Leaf 3; Leaf 4]; Nest [Leaf 5; Leaf 6]]; Leaf 8]%Z in
  Forall2 (good_value ex_conv decZ (fun _ => 0%Z) exd) cols vals
  /\ inserted ex_conv exd cols vals
     = Ok ([lit "s"; lit "v___0"; lit "v___1"; lit "w___0"; lit "w___1"; lit "w___2"; lit "w___3"; lit "s"],
           map Leaf [7; 1; 2; 3; 4; 5; 6; 8]%Z).
Proof.
  assert (P : forall c, In c [lit "s"; lit "v"; lit "w"] -> plain c).
  { intros c Hc i. destruct (endswith _ c) eqn:E; [|reflexivity]. exfalso.
    apply endswith_iff in E as [r Hr]. apply (f_equal (@List.length N)) in Hr.
    rewrite !app_length in Hr. cbn in Hr.
    cbn in Hc. repeat destruct Hc as [<-|Hc]; cbn in Hr; try lia; destruct Hc. }
  split; [|vm_compute; reflexivity].
  repeat (apply Forall2_cons; [split; [apply P; cbn; tauto|]|]); [| | | |constructor].
  - left. exists (Some (XSD ++ lit "integer")), 7%Z, 7%Z. repeat split.
  - right. exists INT, [2%N], (VEC_PREFIX ++ lit "INT-2"). repeat split; try (now repeat constructor); try congruence.
  - right. exists INT, [2%N; 2%N], (VEC_PREFIX ++ lit "INT-2-2"). repeat split; try (now repeat constructor); try congruence.
  - left. exists (Some (XSD ++ lit "integer")), 8%Z, 8%Z. repeat split.
Qed.

(** Refuted without the side conditions: a vector with a zero in its shape is lost
    from the row, ... *)
Theorem C33_refuted_empty_vector :
  let d := upd exd (lit "e") (Some (VEC_PREFIX ++ lit "INT-0")) in
  let cols := [lit "e"; lit "s"] in
  let vals := [Nest []; Leaf 7%Z] in
  exists ins t, inserted ex_conv d cols vals = Ok ins /\ query_table d cols = Ok t
  /\ contract_vector_values ex_conv decZ (fun _ => 0%Z) [t] (snd ins) = Ok [Leaf 7%Z].
Proof.
  cbv zeta. eexists. eexists. split; [vm_compute; reflexivity|]. split; [cbn; reflexivity|].
  vm_compute. reflexivity.
Qed.

(** ... and a scalar column called "x___0" makes every select raise KeyError. *)
Theorem C33_refuted_column_name :
  let d := upd exd (lit "x___0") (Some (XSD ++ lit "integer")) in
  let cols := [lit "x___0"] in
  exists ins t, inserted ex_conv d cols [Leaf 7%Z] = Ok ins /\ query_table d cols = Ok t
  /\ contract_vector_values ex_conv decZ (fun _ => 0%Z) [t] (snd ins) = Err KeyError.
Proof.
  cbv zeta. eexists. eexists. split; [vm_compute; reflexivity|]. split; [cbn; reflexivity|].
  vm_compute. reflexivity.
Qed.

(** ** Conditions on vector columns *)

(** A row of a join assigns a value to each column of each table; a condition holds
    of a row. *)
Definition rowval (A : Type) := str -> str -> nd A.
Fixpoint holds {A} (row : rowval A) (x : cond A) : Prop :=
  match x with
  | CEq t c v _ => row t c = v
  | CJoin t1 c1 t2 c2 => row t1 c1 = row t2 c2
  | CAnd l => (fix go l := match l with [] => True | y :: r => holds row y /\ go r end) l
  end.

Lemma holds_and {A} (row : rowval A) l : holds row (CAnd l) <-> Forall (holds row) l.
Proof.
  induction l as [|y l IH]; cbn; [split; auto|].
  cbn in IH. rewrite Forall_cons_iff, IH. reflexivity.
Qed.

(** The condition that a vector column equals a vector is, after expansion, the
    condition that all scalar columns of the vector have the values of its elements:
    it holds exactly of the rows that contain this vector. *)
Theorem C33_vector_condition :
  forall {A} (conv : basic -> A -> res A) t c b shape iri (v : nd A) (row : rowval A),
  shape <> [] ->
  get_rdflib_datatype (vector_text (Some b) shape) = Ok (Some iri) ->
  has_shape (map N.to_nat shape) v ->
  (forall a, In a (flatten v) -> conv b a = Ok a) ->
  exists x y, mk_equals conv t c v (Some iri) = Ok x /\ expand_condition conv x = Ok y
    /\ (holds row y <->
        map (fun i => row t (vec_col c (N.of_nat i))) (seq 0 (List.length (flatten v)))
        = map Leaf (flatten v)).
Proof.
  intros A conv t c b sh iri v row Hne Hi Hs Hconv.
  rewrite grd_vector in Hi by auto. apply Ok_inj in Hi. injection Hi as <-.
  assert (Hcf : convert_from conv v (Some (vector_iri (map Z.of_N sh) b)) = Ok (Nest (map Leaf (flatten v)))).
  { unfold convert_from. now rewrite gpd_vector. }
  exists (CEq t c (Nest (map Leaf (flatten v))) (Some (vector_iri (map Z.of_N sh) b))).
  exists (CAnd (map (fun '(i, a) => CEq t (vec_col c i) (Leaf a) (Some (rdf_name b)))
                    (combine (range (size (map N.to_nat sh))) (flatten v)))).
  split; [unfold mk_equals; now rewrite Hcf|]. split.
  - cbn [expand_condition].
    rewrite (vector_iri_is_vector (map Z.of_N sh) b : startswith VEC_PREFIX _ = true).
    rewrite expanded_vector by auto. cbn [items].
    match goal with |- rmap CAnd ?m = _ =>
      assert (m = Ok (map (fun '(i, a) => CEq t (vec_col c i) (Leaf a) (Some (rdf_name b)))
                    (combine (range (size (map N.to_nat sh))) (flatten v)))) as ->; [|reflexivity] end.
    revert Hconv. generalize (range (size (map N.to_nat sh))) as is, (flatten v) as l. clear.
    assert (Hg : get_python_datatype (Some (rdf_name b)) = Ok (TBasic b)).
    { unfold get_python_datatype. now rewrite basic_of_rdf_name. }
    induction is as [|i is IH]; intros [|a l] Hc; cbn [map combine mapM]; try reflexivity.
    unfold mk_equals at 1, convert_from at 1. rewrite Hg.
    rewrite IH by (intros a' Ha'; apply Hc; now right).
    destruct b; cbn [rmap]; rewrite ?(Hc a (or_introl eq_refl)); reflexivity.
  - rewrite holds_and. pose proof (flatten_size _ _ Hs) as Hl. rewrite <- Hl.
    unfold range. generalize (flatten v) as l. clear. intros l. generalize 0 as k.
    induction l as [|a l IH]; intros k; cbn [List.length seq map combine].
    + split; auto.
    + rewrite Forall_cons_iff, IH. cbn [holds]. split; [intros [-> ->]; auto | intros [= -> ->]; auto].
Qed.

(** * C36: parameters *)

(** An SQL text with named parameters: a row satisfies it under a parameter binding. *)
Definition atom_holds {A} (row : rowval A) (ps : params A) (a : patom) : Prop :=
  match a with
  | PTrue => True
  | PEq t c p => plookup ps p = Some (row t c)
  | PJoin t1 c1 t2 c2 => row t1 c1 = row t2 c2
  end.

(** Conjunctions with more than ten members only contain comparisons. *)
Definition is_and {A} (x : cond A) : bool := match x with CAnd _ => true | _ => false end.
Fixpoint narrow {A} (x : cond A) : Prop :=
  match x with
  | CAnd l =>
      (List.length l <= 10 \/ Forall (fun y => is_and y = false) l)
      /\ (fix go l := match l with [] => True | y :: r => narrow y /\ go r end) l
  | _ => True
  end.

Lemma narrow_and {A} (l : list (cond A)) : narrow (CAnd l) <->
  (List.length l <= 10 \/ Forall (fun y => is_and y = false) l) /\ Forall narrow l.
Proof.
  cbn. enough ((fix go l := match l with [] => True | y :: r => narrow y /\ go r end) l <-> Forall narrow l) as -> by tauto.
  induction l as [|y l IH]; [split; auto|]. rewrite Forall_cons_iff, IH. reflexivity.
Qed.

(** The loop over the members of a conjunction. *)
Fixpoint and_pattern {A} (prefix : str) (i : N) (l : list (cond A)) : list patom * params A :=
  match l with
  | [] => ([], [])
  | y :: r => (fst (get_condition_pattern y (prefix ++ dec i)) ++ fst (and_pattern prefix (i + 1)%N r),
               snd (get_condition_pattern y (prefix ++ dec i)) ++ snd (and_pattern prefix (i + 1)%N r))
  end.

Lemma gcp_and {A} (l : list (cond A)) prefix : l <> [] ->
  get_condition_pattern (CAnd l) prefix = and_pattern prefix 0%N l.
Proof.
  intros Hne. destruct l as [|y0 l0]; [congruence|]. clear Hne.
  change (get_condition_pattern (CAnd (y0 :: l0)) prefix)
    with ((fix go (i : N) (l : list (cond A)) : list patom * params A :=
           match l with
           | [] => ([], [])
           | y :: r =>
               let '(p, vs) := get_condition_pattern y (prefix ++ dec i) in
               let '(ps, vss) := go (i + 1)%N r in
               (p ++ ps, vs ++ vss)
           end) 0%N (y0 :: l0)).
  match goal with |- ?g 0%N _ = _ => set (go := g) end.
  generalize (y0 :: l0) as l. intros l. generalize 0%N as i.
  induction l as [|y l IH]; intros i; [reflexivity|].
  unfold go. cbn fix beta iota. fold go. rewrite IH. cbn [and_pattern].
  destruct (get_condition_pattern y (prefix ++ dec i)) as [p vs].
  destruct (and_pattern prefix (i + 1)%N l). reflexivity.
Qed.

Lemma keys_prefixed {A} (x : cond A) prefix k : In k (map fst (snd (get_condition_pattern x prefix))) ->
  exists r, k = prefix ++ r.
Proof.
  revert prefix k; induction x as [t c v dt|t1 c1 t2 c2|l IH] using cond_rect'; intros prefix k Hin.
  - cbn in Hin. destruct Hin as [<-|[]]. eauto.
  - destruct Hin.
  - destruct l as [|y l]; [destruct Hin|]. rewrite gcp_and in Hin by congruence.
    revert Hin. generalize 0%N as i. induction IH as [|z r Hz HF IHr]; intros i Hin; [destruct Hin|].
    cbn in Hin. rewrite map_app in Hin. apply in_app_or in Hin as [Hin|Hin].
    + apply Hz in Hin as [r' ->]. rewrite <- app_assoc. eauto.
    + eapply IHr; eauto.
Qed.

Lemma and_keys {A} (l : list (cond A)) prefix i k : In k (map fst (snd (and_pattern prefix i l))) ->
  exists j y, (i <= j < i + N.of_nat (List.length l))%N /\ nth_error l (N.to_nat (j - i)) = Some y
    /\ In k (map fst (snd (get_condition_pattern y (prefix ++ dec j)))).
Proof.
  revert i; induction l as [|y l IH]; intros i Hin; [destruct Hin|].
  cbn in Hin. rewrite map_app in Hin. apply in_app_or in Hin as [Hin|Hin].
  - exists i, y. split; [cbn; lia|]. split; [now rewrite N.sub_diag | auto].
  - apply IH in Hin as (j & z & Hj & Hn & Hk). exists j, z. split; [cbn; lia|]. split; [|auto].
    replace (N.to_nat (j - i)) with (S (N.to_nat (j - (i + 1)))) by lia. exact Hn.
Qed.

Lemma dec_len1 i : (i < 10)%N -> List.length (dec i) = 1.
Proof. intros H. destruct (dec_length_lt10 i H) as [d ->]. reflexivity. Qed.

Lemma app_same_length {X} (a b c d : list X) :
  List.length a = List.length c -> a ++ b = c ++ d -> a = c.
Proof. revert c; induction a as [|x a IH]; intros [|y c] Hl H; cbn in *; try discriminate; [reflexivity|].
  injection H as -> H. f_equal. apply (IH c); [lia | auto]. Qed.

Lemma NoDup_app_intro {X} (a b : list X) :
  NoDup a -> NoDup b -> (forall x, In x a -> In x b -> False) -> NoDup (a ++ b).
Proof.
  induction 1 as [|x a Hx Ha IH]; intros Hb Hd; [exact Hb|]. cbn. constructor.
  - intros Hin. apply in_app_or in Hin as [Hin|Hin]; [auto|]. apply (Hd x); [now left | auto].
  - apply IH; [auto|]. intros y Hy. apply Hd. now right.
Qed.

Lemma keys_distinct {A} (x : cond A) prefix : narrow x -> NoDup (map fst (snd (get_condition_pattern x prefix))).
Proof.
  revert prefix; induction x as [t c v dt|t1 c1 t2 c2|l IH] using cond_rect'; intros prefix Hn.
  - cbn. constructor; [intros []|constructor].
  - constructor.
  - destruct l as [|y0 l0]; [constructor|]. rewrite gcp_and by congruence.
    apply narrow_and in Hn as [Hw Hn]. set (l := y0 :: l0) in *. clearbody l. clear y0 l0.
    assert (Hgen : forall i, (Forall (fun y => is_and y = false) l \/ (i + N.of_nat (List.length l) <= 10)%N) ->
              NoDup (map fst (snd (and_pattern prefix i l)))).
    { clear Hw. induction IH as [|y r Hy HF IHr]; intros i Hi; [constructor|].
      inversion Hn as [|? ? Hny Hnr]; subst. cbn. rewrite map_app. apply NoDup_app_intro.
      - now apply Hy.
      - apply (IHr Hnr). destruct Hi as [Hi|Hi]; [left; now inversion Hi | right; cbn in Hi; lia].
      - intros k H1 H2. apply and_keys in H2 as (j & z & Hj & Hnth & H2).
        apply nth_error_In in Hnth.
        destruct Hi as [Hi|Hi].
        + inversion Hi as [|? ? Hay Hr']; subst. rewrite Forall_forall in Hr'. specialize (Hr' z Hnth).
          destruct y as [? ? ? ?|? ? ? ?|?]; [|destruct H1 | discriminate].
          destruct z as [? ? ? ?|? ? ? ?|?]; [|destruct H2 | discriminate].
          cbn in H1, H2. destruct H1 as [<-|[]]. destruct H2 as [E|[]].
          apply app_inv_tail in E. apply app_inv_head in E. apply dec_inj in E. lia.
        + apply keys_prefixed in H1 as [r1 ->]. apply keys_prefixed in H2 as [r2 E].
          rewrite <- !app_assoc in E. apply app_inv_head in E. cbn in Hi.
          apply app_same_length in E; [|rewrite !dec_len1 by lia; reflexivity].
          apply dec_inj in E. lia. }
    apply Hgen. destruct Hw as [Hw|Hw]; [right; lia | now left].
Qed.

Lemma plookup_notin {A} (ps : params A) k : ~ In k (map fst ps) -> plookup ps k = None.
Proof.
  induction ps as [|[k' v] ps IH]; intros H; [reflexivity|]. cbn in *.
  rewrite IH by tauto. rewrite (proj2 (str_eqb_neq k k')); [reflexivity|]. intros ->. tauto.
Qed.

Lemma plookup_in {A} (ps : params A) k v : NoDup (map fst ps) -> In (k, v) ps -> plookup ps k = Some v.
Proof.
  induction ps as [|[k' v'] ps IH]; intros Hn Hin; [destruct Hin|]. cbn in *.
  inversion Hn; subst. destruct Hin as [[= -> ->]|Hin].
  - rewrite plookup_notin by auto. now rewrite str_eqb_refl.
  - rewrite (IH H2 Hin). reflexivity.
Qed.

Lemma pattern_holds {A} (row : rowval A) (ps : params A) (x : cond A) prefix :
  (forall k v, In (k, v) (snd (get_condition_pattern x prefix)) -> plookup ps k = Some v) ->
  Forall (atom_holds row ps) (fst (get_condition_pattern x prefix)) <-> holds row x.
Proof.
  revert prefix; induction x as [t c v dt|t1 c1 t2 c2|l IH] using cond_rect'; intros prefix Hps.
  - cbn in *. rewrite Forall_cons_iff. cbn. rewrite (Hps _ v (or_introl eq_refl)).
    split; [intros [[= ->] _]; reflexivity | intros <-; split; [reflexivity | constructor]].
  - cbn. rewrite Forall_cons_iff. cbn. split; [tauto | intros H; split; [auto | constructor]].
  - rewrite holds_and. destruct l as [|y0 l0]; [cbn; split; intros _; repeat constructor|].
    rewrite gcp_and in * by congruence. set (l := y0 :: l0) in *. clearbody l. clear y0 l0.
    revert Hps. generalize 0%N as i. induction IH as [|y r Hy HF IHr]; intros i Hps; [cbn; split; auto|].
    cbn in *. rewrite Forall_app, Forall_cons_iff, Hy, IHr; [reflexivity | |].
    + intros k v Hin. apply Hps. apply in_or_app. now right.
    + intros k v Hin. apply Hps. apply in_or_app. now left.
Qed.

(** The SQL text with its parameters means the condition: each placeholder is bound
    to the value of its comparison, for all nestings and all enumerations of the
    conjunctions in which only conjunctions of plain comparisons have more than ten
    members. *)
Theorem C36_condition_means_conjunction : forall {A} (row : rowval A) (x : cond A) prefix,
  narrow x ->
  let '(text, ps) := get_condition_pattern x prefix in
  Forall (atom_holds row ps) text <-> holds row x.
Proof.
  intros A row x prefix Hn. destruct (get_condition_pattern x prefix) as [text ps] eqn:E.
  pose proof (pattern_holds row ps x prefix) as H. rewrite E in H. cbn in H. apply H.
  intros k v Hin. apply plookup_in; [|auto]. pose proof (keys_distinct x prefix Hn) as Hd. now rewrite E in Hd.
Qed.

(** [VALUES (:val_0, ...)]: the i-th placeholder is bound to the i-th value. *)
Theorem C36_list_pattern : forall {A} prefix (vals : list (nd A)) i v,
  nth_error vals i = Some v ->
  let '(names, ps) := sql_list_pattern prefix vals in
  List.length names = List.length vals
  /\ exists k, nth_error names i = Some k /\ plookup ps k = Some v.
Proof.
  intros A prefix vals i v Hi. unfold sql_list_pattern.
  set (names := map _ (range _)).
  assert (Hl : List.length names = List.length vals) by (unfold names; now rewrite map_length, range_length).
  split; [exact Hl|].
  assert (exists k, nth_error names i = Some k) as [k Hk].
  { destruct (nth_error names i) eqn:E; [eauto|]. apply nth_error_None in E.
    assert (i < List.length vals) by (apply nth_error_Some; congruence). lia. }
  exists k. split; [exact Hk|]. apply plookup_in.
  - assert (Hfst : forall (X Y : Type) (l : list X) (m : list Y), List.length l = List.length m -> map fst (combine l m) = l).
    { clear. induction l as [|x l IHl]; intros [|y m] H; cbn in *; try discriminate; [auto|]. f_equal. apply IHl. lia. }
    rewrite Hfst by exact Hl. unfold names, range. rewrite map_map. apply FinFun.Injective_map_NoDup; [|apply seq_NoDup].
    intros a b E. apply app_inv_head in E. apply app_inv_head in E. apply dec_inj in E. lia.
  - clear -Hi Hk. revert i Hi Hk. generalize names. induction vals as [|x vals IH]; intros ns i Hi Hk; [destruct i; discriminate|].
    destruct ns as [|n ns]; [destruct i; discriminate|]. destruct i as [|i]; cbn in *.
    + left. injection Hi as ->. injection Hk as ->. reflexivity.
    + right. eapply IH; eauto.
Qed.

(** [UPDATE ... SET ... WHERE ...]: [dict( **val_values, **cond_values)] has no
    duplicate keys, and both halves keep their values. *)
Theorem C36_update_parameters : forall {A} (vals : list (nd A)) (x : cond A),
  narrow x ->
  let vps := snd (sql_list_pattern (lit "val") vals) in
  let cps := snd (get_condition_pattern x (lit "cond")) in
  NoDup (map fst (vps ++ cps))
  /\ (forall k v, In (k, v) vps \/ In (k, v) cps -> plookup (vps ++ cps) k = Some v).
Proof.
  intros A vals x Hn vps cps.
  assert (Hnd : NoDup (map fst (vps ++ cps))).
  { rewrite map_app. apply NoDup_app_intro.
    - unfold vps, sql_list_pattern. cbn [snd].
      assert (Hfst : forall (X Y : Type) (l : list X) (m : list Y), List.length l = List.length m -> map fst (combine l m) = l).
      { clear. induction l as [|y l IHl]; intros [|z m] H; cbn in *; try discriminate; [auto|]. f_equal. apply IHl. lia. }
      rewrite Hfst by now rewrite map_length, range_length.
      unfold range. rewrite map_map. apply FinFun.Injective_map_NoDup; [|apply seq_NoDup].
      intros a b E. do 2 apply app_inv_head in E. apply dec_inj in E. lia.
    - now apply keys_distinct.
    - intros k H1 H2. apply keys_prefixed in H2 as [r ->].
      unfold vps, sql_list_pattern in H1. cbn [snd] in H1.
      apply in_map_iff in H1 as ((k' & v) & E & Hin). apply in_combine_l in Hin.
      apply in_map_iff in Hin as (i & <- & _). cbn in E. discriminate. }
  split; [exact Hnd|]. intros k v Hin. apply plookup_in; [exact Hnd|]. apply in_or_app. tauto.
Qed.

(** Refuted in general: an eleventh condition next to a nested conjunction shares the
    parameter "cond10_value" with it; the text then means something else. *)
Definition ceq (c : str) (z : Z) : cond Z := CEq (lit "t") c (Leaf z) None.
Definition wide : cond Z :=
  CAnd (ceq (lit "a0") 0 :: CAnd [ceq (lit "b") 100; ceq (lit "c") 200]
        :: map (fun i => ceq (lit "a" ++ dec i) (Z.of_N i)) [2; 3; 4; 5; 6; 7; 8; 9; 10]%N)%Z.
Definition row_wide : rowval Z := fun _ c =>
  if str_eqb c (lit "b") then Leaf 100%Z
  else if str_eqb c (lit "c") then Leaf 200%Z
  else match int_of_str (tl c) with Ok z => Leaf z | Err _ => Leaf (-1)%Z end.
Theorem C36_refuted_shared_parameter :
  holds row_wide wide
  /\ plookup (snd (get_condition_pattern wide (lit "cond"))) (lit "cond10_value") = Some (Leaf 10%Z)
  /\ In (PEq (lit "t") (lit "b") (lit "cond10_value")) (fst (get_condition_pattern wide (lit "cond")))
  /\ ~ Forall (atom_holds row_wide (snd (get_condition_pattern wide (lit "cond"))))
             (fst (get_condition_pattern wide (lit "cond"))).
Proof.
  split; [cbn; repeat split|].
  assert (H1 : plookup (snd (get_condition_pattern wide (lit "cond"))) (lit "cond10_value") = Some (Leaf 10%Z))
    by (vm_compute; reflexivity).
  assert (H2 : In (PEq (lit "t") (lit "b") (lit "cond10_value")) (fst (get_condition_pattern wide (lit "cond"))))
    by (vm_compute; tauto).
  split; [exact H1|]. split; [exact H2|].
  intros HF. rewrite Forall_forall in HF. specialize (HF _ H2). cbn [atom_holds] in HF.
  rewrite H1 in HF. vm_compute in HF. discriminate.
Qed.

Example C36_narrow_example :
  narrow (CAnd [ceq (lit "a") 1; CAnd (map (fun i => ceq (vec_col (lit "v") i) 0) (range 12)); ceq (lit "b") 2]%Z).
Proof.
  apply narrow_and. split; [left; cbn; lia|]. constructor; [exact I|].
  constructor; [|constructor; [exact I | constructor]]. apply narrow_and. split; [right; repeat constructor|]. repeat constructor.
Qed.

Print Assumptions C33_vector_columns_roundtrip.
Print Assumptions C33_vector_condition.
Print Assumptions C33_refuted_empty_vector.
Print Assumptions C33_refuted_column_name.
Print Assumptions C34_semicolon_partial.
Print Assumptions C34_refuted_other_characters.
Print Assumptions C34_refuted_injection.
Print Assumptions C35_table_name_determines_datatype.
Print Assumptions C35_tables_not_shared.
Print Assumptions C35_yaml_datatypes_supported.
Print Assumptions C35_refuted_custom_name_clash.
Print Assumptions C36_condition_means_conjunction.
Print Assumptions C36_list_pattern.
Print Assumptions C36_update_parameters.
Print Assumptions C36_refuted_shared_parameter.
