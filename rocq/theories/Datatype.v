(** Datatypes: osp/core/ontology/datatypes.py.

    IRIs are concrete strings.  Element conversion by numpy
    ([np.array(x, dtype=...)] on one element) is a parameter [conv]. *)
From Coq Require Import String List NArith ZArith Lia Bool.
From Verif Require Import Prelude Utf8 Text.
Import ListNotations.
Local Open Scope nat_scope.
Local Open Scope list_scope.

(** cuba.py:6, and datatypes.py:164-165, 233, 257: the prefixes. *)
Definition CUBA : str := lit "http://www.osp-core.com/cuba#".
Definition STR_PREFIX : str := CUBA ++ lit "_datatypes/STRING-".
Definition VEC_PREFIX : str := CUBA ++ lit "_datatypes/VECTOR-".

Definition XSD : str := lit "http://www.w3.org/2001/XMLSchema#".

(** datatypes.py:165-171 [YML_DATATYPES]: the basic datatypes. *)
Inductive basic := BOOL | INT | FLOAT | STRING | UUID.
Definition basics : list basic := [BOOL; INT; FLOAT; STRING; UUID].

(** The keys of YML_DATATYPES. *)
Definition yml_name (b : basic) : str :=
  match b with
  | BOOL => lit "BOOL" | INT => lit "INT" | FLOAT => lit "FLOAT"
  | STRING => lit "STRING" | UUID => lit "UUID"
  end.
(** The values of YML_DATATYPES. *)
Definition rdf_name (b : basic) : str :=
  match b with
  | BOOL => XSD ++ lit "boolean" | INT => XSD ++ lit "integer"
  | FLOAT => XSD ++ lit "float" | STRING => XSD ++ lit "string"
  | UUID => lit "UUID"
  end.

(** [args[0] in YML_DATATYPES] *)
Definition basic_of_yml (s : str) : option basic :=
  find (fun b => str_eqb (yml_name b) s) basics.
(** [rdf_datatype in RDF_DATATYPES], datatypes.py:136-143, 162.  The key None is
    [DNone] below. *)
Definition basic_of_rdf (s : str) : option basic :=
  find (fun b => str_eqb (rdf_name b) s) basics.

(** datatypes.py:196-216 [_parse_vector_args] with return_yml_dtypes=True; with
    False the element type is the same [basic] under its RDF name. *)
Definition parse_vector_args (args : list str) : res (basic * list Z) :=
  match args with
  | [] => Err IndexError
  | a :: rest =>
      match basic_of_yml a with
      | Some b => rmap (fun sh => (b, sh)) (mapM int_of_str rest)
      | None => rmap (fun sh => (FLOAT, sh)) (mapM int_of_str args)
      end
  end.

(** datatypes.py:219-236 [_add_string_datatype] (the IRI; the declaration triple
    added to the graph is not modelled). *)
Definition string_iri (n : Z) : str := STR_PREFIX ++ decZ n.
(** datatypes.py:239-263 [_add_vector_datatype] (the IRI). *)
Definition vector_iri (shape : list Z) (b : basic) : str :=
  VEC_PREFIX ++ yml_name b ++ lit "-" ++ join_with (lit "-") (map decZ shape).

(** datatypes.py:174-193 [get_rdflib_datatype]; [Ok None]: the function falls off
    its end. *)
Definition get_rdflib_datatype (yml : str) : res (option str) :=
  match basic_of_yml yml with
  | Some b => Ok (Some (rdf_name b))
  | None =>
      let args := split_on 58 yml in                       (* ":" *)
      match args with
      | [] => Ok None
      | a :: rest =>
          if str_eqb a (lit "VECTOR") then
            match parse_vector_args rest with
            | Err e => Err e
            | Ok (b, sh) => Ok (Some (vector_iri sh b))
            end
          else if str_eqb a (lit "STRING") && Nat.eqb (List.length args) 2 then
            match rest with
            | [n] => match int_of_str n with Err e => Err e | Ok z => Ok (Some (string_iri z)) end
            | _ => Ok None
            end
          else Ok None
      end
  end.

(** What [get_python_datatype] returns: which converters. *)
Inductive pytype :=
| TBasic (b : basic)                    (* an entry of RDF_DATATYPES *)
| TNone                                 (* the entry None: (str, str, ..) *)
| TString (maxsize : Z)
| TVector (b : basic) (shape : list Z).

(** datatypes.py:138-162 [get_python_datatype]; the argument None is [None].
    Note [len(str_prefix)] in line 170: the two prefixes have the same length. *)
Definition get_python_datatype (iri : option str) : res pytype :=
  match iri with
  | None => Ok TNone
  | Some i =>
      match basic_of_rdf i with
      | Some b => Ok (TBasic b)
      | None =>
          if startswith STR_PREFIX i then
            rmap TString (int_of_str (after STR_PREFIX i))
          else if startswith VEC_PREFIX i then
            rmap (fun '(b, sh) => TVector b sh)
                 (parse_vector_args (split_on 45 (after STR_PREFIX i)))
          else Err RuntimeError
      end
  end.

(** datatypes.py:76-94 [to_string] on a string x ([if maxsize and ...]). *)
Definition to_string (x : str) (maxsize : Z) : res str :=
  if negb (maxsize =? 0)%Z && (maxsize <? Z.of_nat (List.length x))%Z
  then Err ValueError else Ok x.

(** ** Arrays *)

Section Arrays.
  Context {A : Type}.

  (** A (nested) Python list, or a numpy array written as one. *)
  Inductive nd := Leaf (a : A) | Nest (l : list nd).

  Fixpoint nd_rect' (P : nd -> Prop) (HL : forall a, P (Leaf a))
      (HN : forall l, Forall P l -> P (Nest l)) (v : nd) : P v :=
    match v with
    | Leaf a => HL a
    | Nest l => HN l ((fix go l := match l return Forall P l with
                                   | [] => Forall_nil P
                                   | x :: r => Forall_cons x (nd_rect' P HL HN x) (go r)
                                   end) l)
    end.

  (** [x.reshape((-1,)).tolist()]: datatypes.py:116-125 [from_vector] (row-major
      order). *)
  Fixpoint flatten (v : nd) : list A :=
    match v with
    | Leaf a => [a]
    | Nest l => flat_map flatten l
    end.

  (** The number of elements of an array of this shape. *)
  Definition size (shape : list nat) : nat := fold_right Nat.mul 1 shape.

  (** Cut a list in [n] pieces of [k] elements. *)
  Fixpoint chunks (n k : nat) (l : list A) : list (list A) :=
    match n with
    | O => []
    | S n' => firstn k l :: chunks n' k (skipn k l)
    end.

  (** The array of the given shape with the given elements in row-major order. *)
  Fixpoint unflatten (shape : list nat) (l : list A) : nd :=
    match shape with
    | [] => match l with a :: _ => Leaf a | [] => Nest [] end
    | n :: sh => Nest (map (unflatten sh) (chunks n (size sh) l))
    end.

  (** [v] is an array of the given shape. *)
  Inductive has_shape : list nat -> nd -> Prop :=
  | hs_leaf a : has_shape [] (Leaf a)
  | hs_nest n sh l : List.length l = n -> Forall (has_shape sh) l ->
                     has_shape (n :: sh) (Nest l).

  (** The shape that [np.array] finds in a nested list; None: ragged (numpy raises
      ValueError with a dtype given). *)
  Fixpoint shape_of (v : nd) : option (list nat) :=
    match v with
    | Leaf _ => Some []
    | Nest l =>
        match l with
        | [] => Some [0%nat]
        | x :: r =>
            match shape_of x with
            | None => None
            | Some sh =>
                if forallb (fun y => match shape_of y with
                                     | Some sh' => if list_eq_dec Nat.eq_dec sh sh' then true else false
                                     | None => false
                                     end) r
                then Some (List.length l :: sh) else None
            end
        end
    end.

  Fixpoint nd_mapM (f : A -> res A) (v : nd) : res nd :=
    match v with
    | Leaf a => rmap Leaf (f a)
    | Nest l => rmap Nest ((fix go l := match l with
                                        | [] => Ok []
                                        | x :: r => match nd_mapM f x with
                                                    | Err e => Err e
                                                    | Ok y => match go r with
                                                              | Err e => Err e
                                                              | Ok ys => Ok (y :: ys)
                                                              end
                                                    end
                                        end) l)
    end.

  (** datatypes.py:97-113 [to_vector] for a value that is not an rdflib Literal:
      [np.array(x, dtype).reshape(shape)].  Simplification: a shape entry that is
      negative (-1 means "infer" for numpy) raises. *)
  Definition to_vector (conv : A -> res A) (shape : list Z) (v : nd) : res nd :=
    match shape_of v with
    | None => Err ValueError
    | Some _ =>
        match nd_mapM conv v with
        | Err e => Err e
        | Ok w =>
            if forallb (fun z => 0 <=? z)%Z shape
               && Nat.eqb (List.length (flatten w)) (size (map Z.to_nat shape))
            then Ok (unflatten (map Z.to_nat shape) (flatten w))
            else Err ValueError
        end
    end.

  Lemma chunks_length n k l : List.length (chunks n k l) = n.
  Proof. revert l; induction n; intros l; cbn; auto. Qed.

  Lemma chunks_concat n k l : List.length l = n * k -> concat (chunks n k l) = l.
  Proof.
    revert l; induction n as [|n IH]; intros l H; cbn.
    - destruct l; [reflexivity | discriminate].
    - rewrite IH; [apply firstn_skipn|]. rewrite skipn_length, H. lia.
  Qed.

  Lemma chunks_each n k l : List.length l = n * k ->
    Forall (fun c => List.length c = k) (chunks n k l).
  Proof.
    revert l; induction n as [|n IH]; intros l H; cbn; constructor.
    - rewrite firstn_length, H. lia.
    - apply IH. rewrite skipn_length, H. lia.
  Qed.

  Lemma chunks_of_concat k ls : Forall (fun c => List.length c = k) ls ->
    chunks (List.length ls) k (concat ls) = ls.
  Proof.
    induction 1 as [|c ls Hc HF IH]; cbn; [reflexivity|].
    subst k. rewrite firstn_app, Nat.sub_diag, firstn_O, firstn_all, app_nil_r.
    rewrite skipn_app, Nat.sub_diag, skipn_all. cbn. now rewrite IH.
  Qed.

  Lemma flatten_size sh v : has_shape sh v -> List.length (flatten v) = size sh.
  Proof.
    revert v; induction sh as [|n sh IH]; intros v H; inversion H; subst; cbn; [reflexivity|].
    rewrite flat_map_concat_map.
    match goal with HF : Forall _ l |- _ => induction HF as [|x r Hx HF IHr] end; cbn; [reflexivity|].
    rewrite app_length, (IH x Hx). cbn in *. f_equal. apply IHr.
    constructor; auto.
  Qed.

  Lemma flat_map_flatten_concat l : flat_map flatten l = concat (map flatten l).
  Proof. apply flat_map_concat_map. Qed.

  (** Flattening then reshaping is the identity ... *)
  Lemma unflatten_flatten sh v : has_shape sh v -> unflatten sh (flatten v) = v.
  Proof.
    revert v; induction sh as [|n sh IH]; intros v H; inversion H as [|? ? l Hn HF]; subst.
    - reflexivity.
    - cbn. f_equal. rewrite flat_map_flatten_concat.
      rewrite <- (map_length flatten l) at 1.
      rewrite chunks_of_concat.
      + rewrite map_map. rewrite <- (map_id l) at 2. apply map_ext_in.
        intros x Hx. apply IH. rewrite Forall_forall in HF. auto.
      + apply Forall_forall. intros c Hc. apply in_map_iff in Hc as (x & <- & Hx).
        apply flatten_size. rewrite Forall_forall in HF. auto.
  Qed.

  (** ... and reshaping yields an array of the shape with the same elements. *)
  Lemma unflatten_shape sh l : List.length l = size sh -> has_shape sh (unflatten sh l).
  Proof.
    revert l; induction sh as [|n sh IH]; intros l H; cbn.
    - destruct l as [|a l]; [discriminate|]. constructor.
    - constructor.
      + now rewrite map_length, chunks_length.
      + apply Forall_forall. intros c Hc. apply in_map_iff in Hc as (x & <- & Hx).
        apply IH. pose proof (chunks_each n (size sh) l H) as HF.
        rewrite Forall_forall in HF. auto.
  Qed.

  Lemma flatten_unflatten sh l : List.length l = size sh -> flatten (unflatten sh l) = l.
  Proof.
    revert l; induction sh as [|n sh IH]; intros l H; cbn.
    - destruct l as [|a [|b l]]; try discriminate. reflexivity.
    - rewrite flat_map_flatten_concat, map_map.
      rewrite (map_ext_in _ (fun x => x)).
      + rewrite map_id. now apply chunks_concat.
      + intros c Hc. apply IH. pose proof (chunks_each n (size sh) l H) as HF.
        rewrite Forall_forall in HF. auto.
  Qed.

  Lemma nd_mapM_id f v : (forall a, In a (flatten v) -> f a = Ok a) -> nd_mapM f v = Ok v.
  Proof.
    induction v as [a|l IH] using nd_rect'; intros H; cbn.
    - rewrite H by (now left). reflexivity.
    - match goal with |- rmap Nest (?g l) = _ => assert (g l = Ok l) as -> end; [|reflexivity].
      induction IH as [|x r Hx HF IHr]; [reflexivity|].
      rewrite Hx, IHr; [reflexivity | |].
      + intros a Ha. apply H. cbn. apply in_or_app. now right.
      + intros a Ha. apply H. cbn. apply in_or_app. now left.
  Qed.

  Lemma nd_mapM_flatten f v w : nd_mapM f v = Ok w -> mapM f (flatten v) = Ok (flatten w).
  Proof.
    revert w; induction v as [a|l IH] using nd_rect'; intros w H; cbn in *.
    - destruct (f a) as [b|e]; [|discriminate]. apply Ok_inj in H. subst. reflexivity.
    - match type of H with rmap Nest (?g l) = _ => set (go := g) in H end.
      destruct (go l) as [ys|e] eqn:E; [|discriminate].
      apply Ok_inj in H. subst w. cbn.
      revert ys E. induction IH as [|x r Hx HF IHr]; intros ys E.
      + unfold go in E; cbn in E. apply Ok_inj in E. subst. reflexivity.
      + unfold go in E; cbn in E; fold go in E.
        destruct (nd_mapM f x) as [y|e] eqn:Ex; [|discriminate].
        destruct (go r) as [ys'|e] eqn:Er; [|discriminate].
        apply Ok_inj in E. subst ys. cbn.
        assert (Happ : forall a b, mapM f (a ++ b) =
                  match mapM f a with Err e => Err e | Ok u =>
                    match mapM f b with Err e => Err e | Ok w => Ok (u ++ w) end end).
        { clear. induction a as [|x a IH]; intros b; cbn; [destruct (mapM f b); reflexivity|].
          destruct (f x); [|reflexivity]. rewrite IH.
          destruct (mapM f a); [|reflexivity]. destruct (mapM f b); reflexivity. }
        rewrite Happ, (Hx _ eq_refl), (IHr _ eq_refl). reflexivity.
  Qed.
End Arrays.
Arguments nd : clear implicits.

(** ** Conversion of values *)

Section Convert.
  Context {A : Type}.
  (** The Python/numpy conversion of one value to a basic datatype ([bool], [int],
      [float], [str], [to_uuid]); [str(x)]; a Python value that is a given string. *)
  Variable conv : basic -> A -> res A.
  Variable str_of : A -> str.
  Variable of_str : str -> A.

  (** datatypes.py:11-29 [convert_to].  Simplification: converting a list to a
      scalar datatype is a TypeError. *)
  Definition convert_to (v : nd A) (iri : option str) : res (nd A) :=
    match get_python_datatype iri with
    | Err e => Err e
    | Ok (TVector b sh) => to_vector (conv b) sh v
    | Ok t =>
        match v with
        | Nest _ => Err TypeError
        | Leaf a =>
            match t with
            | TBasic b => rmap Leaf (conv b a)
            | TString n => rmap (fun s => Leaf (of_str s)) (to_string (str_of a) n)
            | _ => rmap Leaf (conv STRING a)
            end
        end
    end.

  (** datatypes.py:32-50 [convert_from]: a basic Python value, or the flat list of a
      vector.  Simplification: [str(x)] of a value of datatype UUID or STRING-n is
      the value itself. *)
  Definition convert_from (v : nd A) (iri : option str) : res (nd A) :=
    match get_python_datatype iri with
    | Err e => Err e
    | Ok (TVector _ _) => Ok (Nest (map Leaf (flatten v)))
    | Ok t =>
        match v with
        | Nest _ => Err TypeError
        | Leaf a =>
            match t with
            | TBasic UUID => Ok v
            | TBasic b => rmap Leaf (conv b a)
            | TString n => Ok v
            | _ => rmap Leaf (conv STRING a)
            end
        end
    end.
End Convert.
