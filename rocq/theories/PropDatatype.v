(** Property C40: datatype IRIs and vector conversion. *)
From Coq Require Import String List NArith ZArith Lia Bool.
From Verif Require Import Prelude Utf8 Text Datatype.
Import ListNotations.
Local Open Scope nat_scope.
Local Open Scope list_scope.

(** ** Specification: the datatypes a user writes in a YAML ontology. *)

(** "VECTOR:INT:3:4" or, without element type, "VECTOR:3:4". *)
Definition vector_text (b : option basic) (shape : list N) : str :=
  join_with (lit ":")
    (lit "VECTOR" :: (match b with Some b => [yml_name b] | None => [] end) ++ map dec shape).
(** "STRING:10" *)
Definition string_text (n : N) : str := lit "STRING:" ++ dec n.

Example texts :
  vector_text (Some INT) [3; 4]%N = lit "VECTOR:INT:3:4"
  /\ vector_text None [3]%N = lit "VECTOR:3" /\ string_text 10 = lit "STRING:10".
Proof. repeat split. Qed.

(** ** Auxiliary facts *)

Lemma yml_name_no c b : (c <? 65)%N || (90 <? c)%N = true -> ~ In c (yml_name b).
Proof.
  intros Hc Hin. destruct b; cbn in Hin; repeat destruct Hin as [<-|Hin]; try discriminate; auto.
Qed.

Lemma basic_of_yml_name b : basic_of_yml (yml_name b) = Some b.
Proof. destruct b; vm_compute; reflexivity. Qed.

Lemma basic_of_yml_dec n : basic_of_yml (dec n) = None.
Proof.
  assert (H : forall b, str_eqb (yml_name b) (dec n) = false).
  { intros b. apply str_eqb_neq. intros E. pose proof (dec_digits n) as HF. rewrite <- E in HF.
    destruct b; inversion HF; discriminate. }
  unfold basic_of_yml, basics. cbn [find]. rewrite !H. reflexivity.
Qed.

Lemma mapM_dec sh : mapM int_of_str (map dec sh) = Ok (map Z.of_N sh).
Proof. induction sh as [|n sh IH]; cbn; [reflexivity|]. now rewrite int_of_dec, IH. Qed.

Lemma decZ_of_N n : decZ (Z.of_N n) = dec n.
Proof. destruct n; reflexivity. Qed.

Lemma parse_args_name b sh : parse_vector_args (yml_name b :: map dec sh) = Ok (b, map Z.of_N sh).
Proof. cbn [parse_vector_args]. now rewrite basic_of_yml_name, mapM_dec. Qed.

Lemma parse_args_default sh : sh <> [] ->
  parse_vector_args (map dec sh) = Ok (FLOAT, map Z.of_N sh).
Proof.
  destruct sh as [|n sh]; [congruence|]. intros _. cbn [map parse_vector_args].
  rewrite basic_of_yml_dec, <- map_cons, mapM_dec. reflexivity.
Qed.

Lemma gpd_vector b sh : sh <> [] ->
  get_python_datatype (Some (vector_iri (map Z.of_N sh) b)) = Ok (TVector b (map Z.of_N sh)).
Proof.
  intros Hne. unfold get_python_datatype, vector_iri.
  assert (Hb : forall s, basic_of_rdf (VEC_PREFIX ++ s) = None).
  { intros s. unfold basic_of_rdf, basics. cbn. reflexivity. }
  rewrite Hb.
  assert (Hs : forall s, startswith STR_PREFIX (VEC_PREFIX ++ s) = false) by (intros s; reflexivity).
  rewrite Hs, startswith_app.
  change (after STR_PREFIX) with (after VEC_PREFIX). rewrite after_app.
  rewrite map_map. rewrite (map_ext _ dec) by apply decZ_of_N.
  replace (yml_name b ++ lit "-" ++ join_with (lit "-") (map dec sh))
    with (join_with [45%N] (yml_name b :: map dec sh))
    by (destruct sh; [congruence | reflexivity]).
  rewrite split_join.
  - rewrite parse_args_name. reflexivity.
  - congruence.
  - constructor; [now apply yml_name_no|].
    apply Forall_forall. intros w Hw. apply in_map_iff in Hw as (n & <- & _). now apply digit_not.
Qed.

Lemma grd_vector (b : option basic) sh : sh <> [] ->
  get_rdflib_datatype (vector_text b sh)
  = Ok (Some (vector_iri (map Z.of_N sh) (match b with Some b => b | None => FLOAT end))).
Proof.
  intros Hne. unfold get_rdflib_datatype.
  assert (Hb : forall s, basic_of_yml (lit "VECTOR" ++ s) = None) by reflexivity.
  unfold vector_text.
  assert (HF : Forall (fun w => ~ In 58%N w)
            (lit "VECTOR" :: (match b with Some b => [yml_name b] | None => [] end) ++ map dec sh)).
  { constructor; [cbn; intuition discriminate|]. apply Forall_app. split.
    - destruct b; constructor; [now apply yml_name_no | constructor].
    - apply Forall_forall. intros w Hw. apply in_map_iff in Hw as (n & <- & _). now apply digit_not. }
  replace (basic_of_yml _) with (@None basic).
  2: { symmetry. destruct sh as [|n sh]; [congruence|]. destruct b; apply Hb. }
  change (lit ":") with [58%N]. rewrite split_join; [|congruence | exact HF].
  cbn [app]. rewrite (proj2 (str_eqb_eq (lit "VECTOR") (lit "VECTOR")) eq_refl).
  destruct b as [b|].
  - cbn [app]. now rewrite parse_args_name.
  - cbn [app]. now rewrite parse_args_default.
Qed.

(** ** C40 *)

(** For every element type and every non-empty shape, the datatype text of the YAML
    file yields an IRI from which the same element type (FLOAT if none was given)
    and shape are recovered. *)
Theorem C40_vector_datatype_parsed_back : forall (b : option basic) (shape : list N),
  shape <> [] ->
  exists iri, get_rdflib_datatype (vector_text b shape) = Ok (Some iri)
    /\ get_python_datatype (Some iri)
       = Ok (TVector (match b with Some b => b | None => FLOAT end) (map Z.of_N shape)).
Proof.
  intros b sh Hne.
  exists (vector_iri (map Z.of_N sh) (match b with Some b => b | None => FLOAT end)).
  split; [now apply grd_vector | now apply gpd_vector].
Qed.

(** Hence different vector datatypes have different IRIs. *)
Theorem C40_vector_iris_distinct : forall b1 b2 sh1 sh2 iri,
  sh1 <> [] -> sh2 <> [] ->
  get_rdflib_datatype (vector_text (Some b1) sh1) = Ok (Some iri) ->
  get_rdflib_datatype (vector_text (Some b2) sh2) = Ok (Some iri) ->
  b1 = b2 /\ sh1 = sh2.
Proof.
  intros b1 b2 sh1 sh2 iri H1 H2 E1 E2.
  destruct (C40_vector_datatype_parsed_back (Some b1) sh1 H1) as (i1 & F1 & G1).
  destruct (C40_vector_datatype_parsed_back (Some b2) sh2 H2) as (i2 & F2 & G2).
  rewrite F1 in E1. rewrite F2 in E2.
  assert (i1 = iri /\ i2 = iri) as [-> ->] by (split; congruence).
  rewrite G1 in G2. apply Ok_inj in G2.
  assert (Hinj : map Z.of_N sh1 = map Z.of_N sh2) by congruence.
  split; [congruence|].
  clear -Hinj. revert sh2 Hinj. induction sh1 as [|n sh1 IH]; intros [|m sh2] H; cbn in H; try congruence.
  f_equal; [|apply IH; congruence]. apply N2Z.inj. congruence.
Qed.

(** The length limit of a string datatype is recovered ... *)
Theorem C40_string_datatype_parsed_back : forall n : N,
  exists iri, get_rdflib_datatype (string_text n) = Ok (Some iri)
    /\ get_python_datatype (Some iri) = Ok (TString (Z.of_N n)).
Proof.
  intros n. exists (string_iri (Z.of_N n)). split.
  - unfold get_rdflib_datatype.
    assert (Hb : basic_of_yml (string_text n) = None).
    { unfold string_text. generalize (dec n). intros s. reflexivity. }
    rewrite Hb.
    replace (split_on 58 (string_text n)) with [lit "STRING"; dec n].
    2: { symmetry. unfold string_text. change (lit "STRING:") with (lit "STRING" ++ [58%N]).
         rewrite <- app_assoc. change ([58%N] ++ dec n) with (58%N :: dec n).
         rewrite split_on_app by (cbn; intuition discriminate).
         f_equal. apply split_on_nosep. now apply digit_not. }
    cbn [List.length Nat.eqb].
    rewrite (proj2 (str_eqb_neq (lit "STRING") (lit "VECTOR"))) by discriminate.
    rewrite str_eqb_refl. cbn [andb]. now rewrite int_of_dec.
  - unfold get_python_datatype, string_iri.
    assert (Hb : forall s, basic_of_rdf (STR_PREFIX ++ s) = None) by reflexivity.
    rewrite Hb, startswith_app, after_app, int_of_decZ. reflexivity.
Qed.

(** ... and enforced exactly, if it is positive: a value whose text has at most [n]
    characters is accepted unchanged and every longer one raises ValueError. *)
Theorem C40_string_limit_exact : forall {A} conv (str_of : A -> str) of_str (n : N) iri a,
  (0 < n)%N ->
  get_rdflib_datatype (string_text n) = Ok (Some iri) ->
  convert_to conv str_of of_str (Leaf a) (Some iri)
  = if (N.of_nat (List.length (str_of a)) <=? n)%N
    then Ok (Leaf (of_str (str_of a))) else Err ValueError.
Proof.
  intros A conv str_of of_str n iri a Hn E.
  destruct (C40_string_datatype_parsed_back n) as (i & F & G).
  rewrite E in F. assert (i = iri) as -> by congruence.
  unfold convert_to. rewrite G. unfold to_string.
  destruct (Z.eqb_spec (Z.of_N n) 0) as [Hz|Hz]; [lia|]. cbn [negb andb].
  destruct (N.leb_spec (N.of_nat (List.length (str_of a))) n);
    destruct (Z.ltb_spec (Z.of_N n) (Z.of_nat (List.length (str_of a)))); try lia; reflexivity.
Qed.

(** Refuted for the limit 0: "STRING:0" is no limit at all
    ([if maxsize and len(x) > maxsize], datatypes.py:88). *)
Theorem C40_string_limit_zero_refuted : forall {A} conv (str_of : A -> str) of_str a,
  exists iri, get_rdflib_datatype (string_text 0) = Ok (Some iri)
  /\ convert_to conv str_of of_str (Leaf a) (Some iri) = Ok (Leaf (of_str (str_of a))).
Proof.
  intros. exists (string_iri 0). split; [vm_compute; reflexivity|].
  unfold convert_to. replace (get_python_datatype (Some (string_iri 0))) with (Ok (TString 0))
    by (vm_compute; reflexivity). reflexivity.
Qed.

(** Vectors.  [v] is an array of the declared shape whose elements already have the
    element type: it is stored as the list of all its elements, and reading this list
    back gives [v]. *)
Theorem C40_vector_roundtrip : forall {A} (conv : basic -> A -> res A) str_of of_str b shape iri v,
  shape <> [] ->
  get_rdflib_datatype (vector_text (Some b) shape) = Ok (Some iri) ->
  has_shape (map N.to_nat shape) v ->
  (forall a, In a (flatten v) -> conv b a = Ok a) ->
  exists flat, convert_from conv v (Some iri) = Ok flat
    /\ convert_to conv str_of of_str flat (Some iri) = Ok v
    /\ convert_to conv str_of of_str v (Some iri) = Ok v.
Proof.
  intros A conv str_of of_str b sh iri v Hne E Hs Hconv.
  destruct (C40_vector_datatype_parsed_back (Some b) sh Hne) as (i & F & G).
  rewrite E in F. assert (i = iri) as -> by congruence.
  exists (Nest (map Leaf (flatten v))). unfold convert_from, convert_to. rewrite G.
  split; [reflexivity|].
  assert (Hsh : map Z.to_nat (map Z.of_N sh) = map N.to_nat sh).
  { rewrite map_map. apply map_ext. intros x. lia. }
  assert (Hpos : forallb (fun z => 0 <=? z)%Z (map Z.of_N sh) = true).
  { apply forallb_forall. intros z Hz. apply in_map_iff in Hz as (n & <- & _). lia. }
  assert (Hto : forall w, flatten w = flatten v -> shape_of w <> None ->
                to_vector (conv b) (map Z.of_N sh) w = Ok v).
  { intros w Hw Hns. unfold to_vector. destruct (shape_of w); [|congruence].
    rewrite nd_mapM_id by (rewrite Hw; auto). rewrite Hpos, Hsh, Hw, (flatten_size _ _ Hs), Nat.eqb_refl.
    cbn [andb]. now rewrite unflatten_flatten. }
  assert (Hlist : forall l : list A, flat_map (@flatten A) (map Leaf l) = l).
  { clear. induction l as [|a l IH]; cbn; [reflexivity | now rewrite IH]. }
  split.
  - apply Hto; [apply Hlist|].
    cbn. destruct (flatten v) as [|a l]; cbn; [congruence|].
    replace (forallb _ _) with true; [congruence|].
    symmetry. apply forallb_forall. intros y Hy. apply in_map_iff in Hy as (a' & <- & _). reflexivity.
  - apply Hto; [reflexivity|].
    clear -Hs. intros E.
    assert (H : forall sh (v : nd A), has_shape sh v -> shape_of v <> None).
    2: exact (H _ _ Hs E).
    assert (H : forall (v : nd A) sh, has_shape sh v -> exists sh', shape_of v = Some sh' /\
              forall w : nd A, has_shape sh w -> shape_of w = Some sh').
    { clear. intros v sh. revert v. induction sh as [|n sh IH]; intros v Hv; inversion Hv as [|n0 sh0 l Hl0 H0]; subst.
      - exists []. split; [reflexivity|]. intros w Hw. inversion Hw; reflexivity.
      - destruct l as [|x r].
        + exists [0]. split; [reflexivity|]. intros w Hw. inversion Hw as [|? ? l' Hl]; subst.
          destruct l'; [reflexivity|discriminate].
        + inversion H0 as [|? ? Hx Hr]; subst.
          destruct (IH x Hx) as (sh' & Ex & Hall).
          exists (List.length (x :: r) :: sh').
          assert (Hgen : forall l : list (nd A), List.length l = List.length (x :: r) -> Forall (has_shape sh) l ->
                    shape_of (Nest l) = Some (List.length (x :: r) :: sh')).
          { intros l Hl HF. destruct l as [|y l']; [discriminate|].
            inversion HF as [|? ? Hy HF']; subst. cbn [shape_of]. rewrite (Hall y Hy).
            replace (forallb _ l') with true; [now rewrite Hl|].
            symmetry. apply forallb_forall. intros z Hz.
            rewrite Forall_forall in HF'. rewrite (Hall z (HF' z Hz)).
            destruct (list_eq_dec Nat.eq_dec sh' sh'); congruence. }
          split; [now apply Hgen|].
          intros w Hw. inversion Hw as [|? ? l' Hl HF]; subst. now apply Hgen. }
    intros sh' v' Hv'. destruct (H v' sh' Hv') as (? & -> & _). congruence.
Qed.

(** Any other value is rejected or arranged in the declared shape: if conversion
    succeeds, the result has the declared shape and consists of the converted
    elements of the value in order; and a value with the wrong number of elements
    raises. *)
Theorem C40_vector_conversion_sound :
  forall {A} (conv : basic -> A -> res A) str_of of_str b shape iri v w,
  shape <> [] ->
  get_rdflib_datatype (vector_text (Some b) shape) = Ok (Some iri) ->
  convert_to conv str_of of_str v (Some iri) = Ok w ->
  has_shape (map N.to_nat shape) w /\ mapM (conv b) (flatten v) = Ok (flatten w)
  /\ List.length (flatten v) = fold_right Nat.mul 1 (map N.to_nat shape).
Proof.
  intros A conv str_of of_str b sh iri v w Hne E Hc.
  destruct (C40_vector_datatype_parsed_back (Some b) sh Hne) as (i & F & G).
  rewrite E in F. assert (i = iri) as -> by congruence.
  unfold convert_to in Hc. rewrite G in Hc. unfold to_vector in Hc.
  destruct (shape_of v); [|discriminate].
  destruct (nd_mapM (conv b) v) as [v'|e] eqn:Ev; [|discriminate].
  destruct (_ && _) eqn:Eg in Hc; [|discriminate]. apply Ok_inj in Hc. subst w.
  apply andb_true_iff in Eg as [_ Eg]. apply Nat.eqb_eq in Eg.
  assert (Hsh : map Z.to_nat (map Z.of_N sh) = map N.to_nat sh).
  { rewrite map_map. apply map_ext. intros x. lia. }
  rewrite Hsh in *.
  pose proof (nd_mapM_flatten _ _ _ Ev) as Hm.
  split; [now apply unflatten_shape|]. split.
  - rewrite flatten_unflatten by auto. exact Hm.
  - rewrite <- (mapM_ok_length _ _ _ Hm). exact Eg.
Qed.

(** Refuted for an empty shape: "VECTOR:FLOAT" gets an IRI (and passes the YAML
    validation), but its IRI cannot be interpreted: every conversion raises. *)
Theorem C40_empty_shape_refuted :
  exists iri, get_rdflib_datatype (lit "VECTOR:FLOAT") = Ok (Some iri)
  /\ get_python_datatype (Some iri) = Err ValueError.
Proof. exists (VEC_PREFIX ++ lit "FLOAT-"). split; vm_compute; reflexivity. Qed.

(** Non-vacuity: a 2x3 integer matrix. *)
Definition ex_conv (b : basic) (z : Z) : res Z := Ok z.
Example C40_example :
  get_rdflib_datatype (lit "VECTOR:INT:2:3")
    = Ok (Some (lit "http://www.osp-core.com/cuba#_datatypes/VECTOR-INT-2-3"))
  /\ let v := Nest [Nest [Leaf 1; Leaf 2; Leaf 3]; Nest [Leaf 4; Leaf 5; Leaf 6]]%Z in
     has_shape [2; 3] v
     /\ convert_from ex_conv v (Some (lit "http://www.osp-core.com/cuba#_datatypes/VECTOR-INT-2-3"))
        = Ok (Nest (map Leaf [1; 2; 3; 4; 5; 6]%Z))
     /\ convert_to ex_conv decZ (fun _ => 0%Z) (Nest (map Leaf [1; 2; 3; 4; 5; 6]%Z))
          (Some (lit "http://www.osp-core.com/cuba#_datatypes/VECTOR-INT-2-3")) = Ok v
     /\ convert_to ex_conv decZ (fun _ => 0%Z) (Nest (map Leaf [1; 2; 3; 4; 5]%Z))
          (Some (lit "http://www.osp-core.com/cuba#_datatypes/VECTOR-INT-2-3")) = Err ValueError.
Proof. split; [reflexivity|]. cbn zeta. repeat split; repeat constructor. Qed.

Print Assumptions C40_vector_datatype_parsed_back.
Print Assumptions C40_vector_iris_distinct.
Print Assumptions C40_string_limit_exact.
Print Assumptions C40_string_limit_zero_refuted.
Print Assumptions C40_vector_roundtrip.
Print Assumptions C40_vector_conversion_sound.
Print Assumptions C40_empty_shape_refuted.
