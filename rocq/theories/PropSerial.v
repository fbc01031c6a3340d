(** C07: values survive the transport. *)
From Coq Require Import List Arith NArith ZArith Lia Bool String.
From Verif Require Import Prelude Utf8 Text Names Namespace Uuid Serial PropNamespace PropUuid.
Import ListNotations.
Local Open Scope nat_scope.
Local Open Scope list_scope.

(** ** Specification *)

(** the text JSON gives to a key *)
Definition key_text (k : key) : str :=
  match k with
  | KStr s => s | KInt z => decZ z | KBool true => lit "true" | KBool false => lit "false"
  | KNone => lit "null" | KOther => []
  end.

Definition same_triples (a b : list ttriple) : Prop := forall t, In t a <-> In t b.

(** [Received v v']: [v'] is what a user calls "the same value" as [v]: entities
    are compared by IRI, objects by subject and sets of triples; tuples, sets and
    iterators have become lists, and keys their JSON text. *)
Inductive Received : pv -> pv -> Prop :=
| R_none : Received VNone VNone
| R_bool b : Received (VBool b) (VBool b)
| R_str s : Received (VStr s) (VStr s)
| R_int z : Received (VInt z) (VInt z)
| R_float n : Received (VFloat n) (VFloat n)
| R_uuid u : Received (VUuid u) (VUuid u)
| R_ent e e' : e_iri e' = e_iri e -> Received (VEnt e) (VEnt e')
| R_cuds c c' : c_subj c' = c_subj c -> same_triples (c_own c') (c_own c) ->
    same_triples (c_nb c') (c_nb c) -> Received (VCuds c) (VCuds c')
| R_dict l l' : Forall2 (fun kv kv' => fst kv' = KStr (key_text (fst kv)) /\ Received (snd kv) (snd kv')) l l' ->
    Received (VDict l) (VDict l')
| R_seq k l l' : Forall2 Received l l' -> Received (VSeq k l) (VSeq SList l').

(** No dictionary inside looks like a tagged uuid or entity, and no sequence starts
    with a dictionary that has the key "@id". *)
Inductive Clean : pv -> Prop :=
| Cl_none : Clean VNone
| Cl_bool b : Clean (VBool b)
| Cl_str s : Clean (VStr s)
| Cl_int z : Clean (VInt z)
| Cl_float n : Clean (VFloat n)
| Cl_uuid u : Clean (VUuid u)
| Cl_ent e : Clean (VEnt e)
| Cl_cuds c : Clean (VCuds c)
| Cl_dict l : map fst l <> [KStr (lit "UUID")] -> map fst l <> [KStr (lit "ENTITY")] ->
    Forall (fun kv => Clean (snd kv)) l -> Clean (VDict l)
| Cl_seq k l : (forall d l', l = VDict d :: l' -> ~ In (KStr (lit "@id")) (map fst d)) ->
    Forall Clean l -> Clean (VSeq k l).

(** An entity as every lookup returns it, of a bound namespace whose entities are
    referenced by name, without "." in the names. *)
Definition Ordinary (r : registry) (e : entity) : Prop :=
  exists n, ns_of_iri r (e_iri e) = (n, e_ns e) /\ In (n, e_ns e) (st_ns (r_store r)) /\ n <> [] /\
    ~ In dot n /\ ~ In dot (e_name e) /\ by_label r (e_ns e) = false /\ e_name e = e_suffix e /\
    exists k, declared r (e_iri e) k.

(** An object as get_triples(include_neighbor_types=True) gives it. *)
Definition Object (c : cuds) : Prop :=
  c_own c <> [] /\
  (forall t, In t (c_own c) -> t_s t = c_subj c) /\
  (forall t, In t (c_nb c) -> t_s t <> c_subj c /\ t_p t = rdf_type) /\
  (c_nb c <> [] -> exists t, In t (c_own c) /\ t_p t <> rdf_type).

Inductive Sendable (r : registry) : pv -> Prop :=
| S_none : Sendable r VNone
| S_bool b : Sendable r (VBool b)
| S_str s : Sendable r (VStr s)
| S_int z : Sendable r (VInt z)
| S_float n : Sendable r (VFloat n)
| S_uuid u : (u < 2 ^ 128)%N -> Sendable r (VUuid u)
| S_ent e : Ordinary r e -> Sendable r (VEnt e)
| S_cuds c : Object c -> Sendable r (VCuds c)
| S_dict l : NoDup (map (fun kv => key_text (fst kv)) l) -> Forall (fun kv => fst kv <> KOther) l ->
    Forall (fun kv => Sendable r (snd kv)) l -> Sendable r (VDict l)
| S_seq k l : Forall (Sendable r) l -> Sendable r (VSeq k l).

(** What rdflib-jsonld is trusted to do. *)
Definition JsonLd (from_rdf : list ttriple -> list jv) (to_rdf : list jv -> list ttriple) : Prop :=
  forall g, g <> [] ->
    (exists d rest, from_rdf g = JDict d :: rest /\ In (KStr (lit "@id")) (map fst d)) /\
    through_json (JList (from_rdf g)) = Ok (JList (from_rdf g)) /\
    same_triples (to_rdf (from_rdf g)) g.

(** ** Proofs *)
Lemma pv_ind' (P : pv -> Prop) :
  P VNone -> (forall b, P (VBool b)) -> (forall s, P (VStr s)) -> (forall z, P (VInt z)) ->
  (forall n, P (VFloat n)) -> (forall u, P (VUuid u)) -> (forall e, P (VEnt e)) -> (forall e, P (VInverse e)) ->
  (forall c, P (VCuds c)) -> (forall l, Forall (fun kv => P (snd kv)) l -> P (VDict l)) ->
  (forall k l, Forall P l -> P (VSeq k l)) -> P VOther -> forall v, P v.
Proof.
  intros H1 H2 H3 H4 H5 H6 H7 H8 H9 HD HS H10. fix F 1.
  intros [| | | | | | | | |l|k l|];
    [exact H1|apply H2|apply H3|apply H4|apply H5|apply H6|apply H7|apply H8|apply H9| | |exact H10].
  - apply HD. induction l as [|kv l IH]; constructor; [apply F|exact IH].
  - apply HS. induction l as [|x l IH]; constructor; [apply F|exact IH].
Qed.

Lemma mapS_ok {A B} (f : A -> res B) (g : A -> B) l : Forall (fun x => f x = Ok (g x)) l -> mapS f l = Ok (map g l).
Proof. induction 1 as [|x l H _ IH]; cbn; [reflexivity|]. now rewrite H, IH. Qed.
Lemma mapS_ok_iff {A B} (f : A -> res B) l l' : mapS f l = Ok l' <-> Forall2 (fun x y => f x = Ok y) l l'.
Proof.
  revert l'; induction l as [|x l IH]; intros l'; cbn.
  - split; [intros [= <-]; constructor|intros H; inversion H; reflexivity].
  - destruct (f x) as [y|] eqn:E.
    + destruct (mapS f l) as [ys|].
      * split.
        -- intros [= <-]. constructor; [exact E|]. now apply IH.
        -- intros H. inversion H as [|? y' ? l2 H1 H2]; subst. apply IH in H2. congruence.
      * split; [discriminate|]. intros H. inversion H as [|? y' ? l2 H1 H2]; subst. apply IH in H2. discriminate.
    + split; [discriminate|]. intros H. inversion H; subst. congruence.
Qed.

Lemma dset_new {A} k (v : A) l : ~ In k (map fst l) -> dset k v l = l ++ [(k, v)].
Proof.
  induction l as [|[a b] l IH]; cbn; intros H; [reflexivity|].
  destruct (str_eqb_spec k a) as [->|]; [tauto|]. now rewrite IH by tauto.
Qed.
Lemma fold_dset_nodup {A} (l d : list (str * A)) : NoDup (map fst (d ++ l)) ->
  fold_left (fun d kv => dset (fst kv) (snd kv) d) l d = d ++ l.
Proof.
  revert d; induction l as [|[k v] l IH]; intros d H; cbn; [now rewrite app_nil_r|].
  rewrite dset_new.
  - rewrite IH; rewrite <- app_assoc; [reflexivity|exact H].
  - rewrite map_app in H. cbn in H. apply NoDup_remove_2 in H. rewrite in_app_iff in H. tauto.
Qed.
Lemma json_dict_nodup l : NoDup (map fst l) -> json_dict l = map (fun kv => (KStr (fst kv), snd kv)) l.
Proof. intros H. unfold json_dict. now rewrite fold_dset_nodup. Qed.

Section P.
Variables (r : registry) (from_rdf : list ttriple -> list jv) (to_rdf : list jv -> list ttriple).
Hypothesis HLD : JsonLd from_rdf to_rdf.
Hypothesis HDICT : dict_ok r.

(** the JSON text sent *)
Fixpoint wire (v : pv) : jv :=
  match v with
  | VNone => JNone | VBool b => JBool b | VStr s => JStr s | VInt z => JInt z | VFloat n => JFloat n
  | VUuid u => JDict [(KStr UUID_KEY, JStr (uuid_str u))]
  | VEnt e => JDict [(KStr ENTITY_KEY, JStr (entity_str r e))]
  | VCuds c => JList (from_rdf (c_own c ++ c_nb c))
  | VDict l => JDict (map (fun kv => (KStr (key_text (fst kv)), wire (snd kv))) l)
  | VSeq _ l => JList (map wire l)
  | VInverse _ | VOther => JNone
  end.

Lemma wire_ok v : Sendable r v ->
  exists j, serializable r from_rdf v = Ok j /\ through_json j = Ok (wire v).
Proof.
  induction v as [| | | | | | | |c|l IH|k l IH|] using pv_ind'; intros HS; inversion HS as [| | | | | | |c' HO|l' HN HK HF|k' l' HF]; subst;
    try (eexists; split; reflexivity).
  - eexists. split; [reflexivity|]. apply HLD. destruct HO as [H _]. destruct (c_own c); [congruence|discriminate].
  - assert (G : exists js, mapS (fun kv => rmap (pair (fst kv)) (serializable r from_rdf (snd kv))) l = Ok js /\
        mapS (fun kv => match json_key (fst kv) with Err e => Err e | Ok s => rmap (pair s) (through_json (snd kv)) end) js =
        Ok (map (fun kv => (key_text (fst kv), wire (snd kv))) l)).
    { clear HS HN. induction l as [|[k v] l IHl]; [exists []; auto|].
      inversion IH as [|? ? IH1 IH2]; subst. inversion HK as [|? ? K1 K2]; subst. inversion HF as [|? ? F1 F2]; subst.
      destruct (IHl IH2 K2 F2) as (js & E1 & E2). destruct (IH1 F1) as (j & E3 & E4). cbn [fst snd] in *.
      exists ((k, j) :: js). cbn [mapS map fst snd]. rewrite E3. cbn [rmap]. rewrite E1. split; [reflexivity|].
      assert (EK : json_key k = Ok (key_text k)) by (destruct k as [| |[]| |]; try reflexivity; congruence).
      rewrite EK, E4. cbn [rmap]. now rewrite E2. }
    destruct G as (js & E1 & E2). exists (JDict js). cbn [serializable through_json]. rewrite E1. split; [reflexivity|].
    rewrite E2. cbn [rmap wire]. rewrite json_dict_nodup.
    + rewrite map_map. reflexivity.
    + rewrite map_map. cbn. exact HN.
  - assert (G : exists js, mapS (serializable r from_rdf) l = Ok js /\ mapS through_json js = Ok (map wire l)).
    { clear HS. induction l as [|v l IHl]; [exists []; auto|].
      inversion IH as [|? ? IH1 IH2]; subst. inversion HF as [|? ? F1 F2]; subst.
      destruct (IHl IH2 F2) as (js & E1 & E2). destruct (IH1 F1) as (j & E3 & E4).
      exists (j :: js). cbn [mapS map]. rewrite E3, E1, E4, E2. auto. }
    destruct G as (js & E1 & E2). exists (JList js). cbn [serializable through_json wire]. rewrite E1, E2. auto.
Qed.

Lemma transmit_wire v : Sendable r v -> transmit r from_rdf to_rdf v = deserialize r to_rdf (wire v).
Proof. intros H. unfold transmit. destruct (wire_ok v H) as (j & -> & ->). reflexivity. Qed.

Lemma entity_back e : Ordinary r e -> exists e', get_entity r (entity_str r e) = Ok (Found e') /\ e_iri e' = e_iri e.
Proof.
  intros (n & E & Hin & Hn & Hd1 & Hd2 & HL & Hs & k & HK). unfold entity_str, get_entity. rewrite E. cbn [fst app].
  rewrite split_on_app by exact Hd1. rewrite split_on_nosep by exact Hd2.
  destruct (C43_namespace_found r n (e_ns e) HDICT Hin) as [-> _].
  destruct (C43_get_by_name r (Ns (lower n) (e_ns e) (by_label r (e_ns e))) (e_name e) k) as (e' & H1 & H2 & _).
  - exact HL.
  - cbn [n_iri]. rewrite Hs. exact HK.
  - left. exists (e_ns e). split; [exists n; auto|]. cbn. eauto.
  - exists e'. split; [exact H1|]. rewrite H2. cbn. now rewrite Hs.
Qed.

Lemma ostr_eqb'_eq a b : ostr_eqb' a b = true <-> a = b.
Proof.
  destruct a, b; cbn; try (split; [discriminate|congruence]); [|tauto].
  rewrite str_eqb_eq. split; congruence.
Qed.
Lemma term_eqb_eq a b : term_eqb a b = true <-> a = b.
Proof.
  destruct a, b; cbn; try (split; [discriminate|congruence]).
  - rewrite str_eqb_eq. split; congruence.
  - rewrite !andb_true_iff, str_eqb_eq, !ostr_eqb'_eq. split; [intros [[-> ->] ->]; reflexivity|intros [= -> -> ->]; auto].
  - rewrite str_eqb_eq. split; congruence.
Qed.

Lemma object_back c g : Object c -> same_triples g (c_own c ++ c_nb c) ->
  exists c', split_graph g = Ok c' /\ c_subj c' = c_subj c /\ same_triples (c_own c') (c_own c) /\ same_triples (c_nb c') (c_nb c).
Proof.
  intros (Hne & Hown & Hnb & Htype) Hg. unfold split_graph.
  assert (Hsubj : exists s, match find (fun t => negb (term_eqb (t_p t) rdf_type)) g with
         | Some t => Ok (t_s t)
         | None => match g with t :: _ => Ok (t_s t) | [] => Err StopIteration end
         end = Ok s /\ s = c_subj c).
  { destruct (find _ g) as [t|] eqn:E.
    - eexists. split; [reflexivity|]. apply find_some in E as [E1 E2]. apply Hg, in_app_iff in E1 as [E1|E1]; [auto|].
      apply Hnb in E1 as [_ E1]. rewrite E1 in E2. apply negb_true_iff in E2.
      assert (term_eqb rdf_type rdf_type = true) by now apply term_eqb_eq. congruence.
    - assert (Hn0 : c_nb c = []).
      { destruct (c_nb c) as [|x l] eqn:En; [reflexivity|]. exfalso. destruct Htype as (t & Ht & Hp); [discriminate|].
        assert (Hin : In t g) by (apply Hg, in_app_iff; auto).
        pose proof (find_none _ _ E t Hin) as H. apply negb_false_iff, term_eqb_eq in H. contradiction. }
      destruct g as [|t g].
      + exfalso. destruct (c_own c) as [|x l]; [congruence|]. apply (Hg x). cbn. auto.
      + eexists. split; [reflexivity|]. assert (Ht : In t (c_own c ++ c_nb c)) by (apply Hg; cbn; auto).
        rewrite Hn0, app_nil_r in Ht. auto. }
  destruct Hsubj as (s & -> & ->). eexists. split; [reflexivity|]. cbn. split; [reflexivity|]. split.
  - intros t. rewrite filter_In, (Hg t), in_app_iff, term_eqb_eq. split.
    + intros [[H|H] E]; [exact H|]. apply Hnb in H as [H _]. contradiction.
    + intros H. auto.
  - intros t. rewrite filter_In, (Hg t), in_app_iff, negb_true_iff. split.
    + intros [[H|H] E]; [|exact H]. apply Hown in H. apply term_eqb_eq in H. congruence.
    + intros H. split; [auto|]. apply Hnb in H as [H _].
      destruct (term_eqb (t_s t) (c_subj c)) eqn:E; [apply term_eqb_eq in E; contradiction|reflexivity].
Qed.

Lemma key_text_str k s : k <> KOther -> (forall d, In d s -> is_digit d = false) -> s <> [] ->
  ~ In 45%N s -> s <> lit "true" -> s <> lit "false" -> s <> lit "null" -> key_text k = s -> k = KStr s.
Proof.
  intros Hk Hd Hne Hm H1 H2 H3. destruct k as [t|z|[]| |]; cbn [key_text]; intros E; subst; try reflexivity;
    try (exfalso; congruence).
  exfalso. destruct z as [|p|p].
  - specialize (Hd 48%N (or_introl eq_refl)). discriminate.
  - assert (HD := dec_digits (N.pos p)). assert (HN := dec_nonempty (N.pos p)).
    change (decZ (Z.pos p)) with (dec (N.pos p)) in *.
    destruct (dec (N.pos p)) as [|c l]; [congruence|]. inversion HD; subst.
    specialize (Hd c (or_introl eq_refl)). congruence.
  - apply Hm. cbn. auto.
Qed.

Lemma has_id_wire d : Forall (fun kv => fst kv <> KOther) d ->
  has_key ID_KEY (map (fun kv => (KStr (key_text (fst kv)), wire (snd kv))) d) = true <->
  In (KStr (lit "@id")) (map fst d).
Proof.
  intros HK. unfold has_key. rewrite existsb_exists, in_map_iff. split.
  - intros (x & Hx & E). apply in_map_iff in Hx as (kv & <- & Hkv). cbn in E. apply str_eqb_eq in E.
    exists kv. split; [|exact Hkv]. rewrite Forall_forall in HK. apply key_text_str; auto.
    + intros c Hc. cbn in Hc. destruct Hc as [<-|[<-|[<-|[]]]]; reflexivity.
    + discriminate.
    + cbn. intros [H|[H|[H|[]]]]; discriminate.
    + discriminate.
    + discriminate.
    + discriminate.
  - intros (kv & E & Hkv). eexists. split; [apply in_map_iff; exists kv; split; [reflexivity|exact Hkv]|].
    cbn. rewrite E. apply str_eqb_refl.
Qed.

Lemma only_key_wire K d : Forall (fun kv => fst kv <> KOther) d ->
  (forall c, In c K -> is_digit c = false) -> K <> [] -> ~ In 45%N K ->
  K <> lit "true" -> K <> lit "false" -> K <> lit "null" ->
  only_key K (map (fun kv => (KStr (key_text (fst kv)), wire (snd kv))) d) <> None <-> map fst d = [KStr K].
Proof.
  intros HK H1 H2 H3 H4 H5 H6. destruct d as [|[k v] [|kv2 d]]; cbn.
  - split; [congruence|discriminate].
  - destruct (str_eqb_spec (key_text k) K) as [E|E].
    + split; [|congruence]. intros _. inversion HK; subst. f_equal. apply key_text_str; auto.
    + split; [congruence|]. intros [= ->]. cbn in E. congruence.
  - split; [congruence|discriminate].
Qed.

Ltac chars := cbn; intros; repeat match goal with H : _ \/ _ |- _ => destruct H as [<-|H] end; try contradiction; try reflexivity.

Lemma dict_cases d : Forall (fun kv => fst kv <> KOther) d ->
  let j := map (fun kv => (KStr (key_text (fst kv)), wire (snd kv))) d in
  (map fst d <> [KStr (lit "UUID")] /\ map fst d <> [KStr (lit "ENTITY")] /\
    deserialize r to_rdf (JDict j) = rmap VDict (mapS (fun kv => rmap (pair (fst kv)) (deserialize r to_rdf (snd kv))) j)) \/
  ((map fst d = [KStr (lit "UUID")] \/ map fst d = [KStr (lit "ENTITY")]) /\
    forall l, deserialize r to_rdf (JDict j) <> Ok (VDict l)).
Proof.
  intros HK j.
  assert (HU := only_key_wire UUID_KEY d HK). assert (HE := only_key_wire ENTITY_KEY d HK). fold j in HU, HE.
  specialize (HU ltac:(chars) ltac:(discriminate) ltac:(cbn; intuition discriminate) ltac:(discriminate) ltac:(discriminate) ltac:(discriminate)).
  specialize (HE ltac:(chars) ltac:(discriminate) ltac:(cbn; intuition discriminate) ltac:(discriminate) ltac:(discriminate) ltac:(discriminate)).
  cbn [deserialize]. destruct (only_key UUID_KEY j) as [x|].
  - right. split; [left; apply HU; discriminate|]. intros l. unfold to_uuid.
    destruct x; try discriminate.
    + destruct (uuid_of_text s); discriminate.
    + destruct (_ && _); discriminate.
  - destruct (only_key ENTITY_KEY j) as [x|].
    + right. split; [right; apply HE; discriminate|]. intros l. unfold to_entity. destruct x; try discriminate.
      destruct (get_entity r s) as [[]|]; discriminate.
    + left. repeat split; [intros E; apply HU in E; congruence|intros E; apply HE in E; congruence].
Qed.

Lemma head_not_id v : Sendable r v -> (forall d, v <> VDict d) ->
  forall d, wire v = JDict d -> has_key ID_KEY d = false.
Proof.
  intros HS Hv d. destruct v; cbn; try discriminate.
  - intros [= <-]. reflexivity.
  - intros [= <-]. reflexivity.
  - now specialize (Hv l).
Qed.

Lemma seq_cases l : Forall (Sendable r) l ->
  ((forall d l', l = VDict d :: l' -> ~ In (KStr (lit "@id")) (map fst d)) /\
     deserialize r to_rdf (JList (map wire l)) = rmap (VSeq SList) (mapS (deserialize r to_rdf) (map wire l))) \/
  ((exists d l', l = VDict d :: l' /\ In (KStr (lit "@id")) (map fst d)) /\
     forall k l2, deserialize r to_rdf (JList (map wire l)) <> Ok (VSeq k l2)).
Proof.
  intros HF. destruct l as [|v l]; [left; split; [discriminate|reflexivity]|].
  inversion HF as [|? ? F1 F2]; subst. cbn [map].
  assert (HD : (exists d, v = VDict d) \/ (forall d, v <> VDict d)).
  { destruct v; try (right; discriminate). left; eauto. }
  destruct HD as [[d ->]|Hv].
  - inversion F1 as [| | | | | | | |? HN HK HFF|]; subst.
    cbn [deserialize wire]. pose proof (has_id_wire d HK) as HI.
    destruct (has_key ID_KEY _).
    + right. split; [exists d, l; split; [reflexivity|]; now apply HI|]. intros k l2. destruct (split_graph _); discriminate.
    + left. split; [|reflexivity]. intros d' l' [= <- <-] H. apply HI in H. discriminate.
  - left. split; [intros d l' [= E _]; now apply Hv in E|].
    cbn [deserialize]. destruct (wire v) as [| | | | |d|] eqn:E; try reflexivity.
    now rewrite (head_not_id v F1 Hv d E).
Qed.

Lemma complete v : Sendable r v -> Clean v ->
  exists v', deserialize r to_rdf (wire v) = Ok v' /\ Received v v'.
Proof.
  induction v as [| | | | | | | |c|l IH|k l IH|] using pv_ind'; intros HS HC;
    inversion HS as [| | | | |? Hu|? He|? HO|? HN HK HF|? ? HF]; subst;
    try (eexists; split; [reflexivity|constructor]).
  - cbn [wire deserialize only_key]. rewrite str_eqb_refl. unfold to_uuid. rewrite uuid_roundtrip by exact Hu.
    eexists. split; [reflexivity|constructor].
  - cbn [wire deserialize only_key]. replace (str_eqb ENTITY_KEY UUID_KEY) with false by reflexivity.
    rewrite str_eqb_refl. unfold to_entity. destruct (entity_back e He) as (e' & -> & E). eexists. split; [reflexivity|now constructor].
  - assert (Hne : c_own c ++ c_nb c <> []).
    { destruct HO as [H _]. destruct (c_own c); [congruence|discriminate]. }
    destruct (HLD _ Hne) as ((d & rest & E & Hid) & _ & Hg).
    destruct (object_back c _ HO Hg) as (c' & E' & H1 & H2 & H3).
    exists (VCuds c'). split; [|now constructor].
    cbn [wire]. rewrite E in E' |- *. cbn [deserialize].
    replace (has_key ID_KEY d) with true.
    2: { symmetry. apply existsb_exists. apply in_map_iff in Hid as (kv & Ek & Hkv). exists kv. split; [exact Hkv|].
         rewrite Ek. apply str_eqb_refl. }
    now rewrite E'.
  - inversion HC as [| | | | | | | |? C1 C2 CF|]; subst.
    destruct (dict_cases l HK) as [(_ & _ & E)|([H|H] & _)]; try contradiction.
    cbn [wire]. rewrite E.
    assert (G : exists l', mapS (fun kv => rmap (pair (fst kv)) (deserialize r to_rdf (snd kv)))
        (map (fun kv => (KStr (key_text (fst kv)), wire (snd kv))) l) = Ok l' /\
        Forall2 (fun kv kv' => fst kv' = KStr (key_text (fst kv)) /\ Received (snd kv) (snd kv')) l l').
    { clear -IH HF CF. induction l as [|[k v] l IHl]; [exists []; split; [reflexivity|constructor]|].
      inversion IH as [|? ? I1 I2]; subst. inversion HF as [|? ? F1 F2]; subst. inversion CF as [|? ? K1 K2]; subst.
      destruct (IHl I2 F2 K2) as (l' & E1 & E2). destruct (I1 F1 K1) as (v' & E3 & E4). cbn [fst snd] in *.
      exists ((KStr (key_text k), v') :: l'). cbn [map mapS fst snd]. rewrite E3. cbn [rmap]. rewrite E1.
      split; [reflexivity|]. constructor; [auto|exact E2]. }
    destruct G as (l' & -> & H). eexists. split; [reflexivity|now constructor].
  - inversion HC as [| | | | | | | | |? ? C1 CF]; subst.
    destruct (seq_cases l HF) as [(_ & E)|((d & l' & -> & H) & _)]; [|now apply (C1 d l' eq_refl) in H].
    cbn [wire]. rewrite E.
    assert (G : exists l', mapS (deserialize r to_rdf) (map wire l) = Ok l' /\ Forall2 Received l l').
    { clear -IH HF CF. induction l as [|v l IHl]; [exists []; split; [reflexivity|constructor]|].
      inversion IH as [|? ? I1 I2]; subst. inversion HF as [|? ? F1 F2]; subst. inversion CF as [|? ? K1 K2]; subst.
      destruct (IHl I2 F2 K2) as (l' & E1 & E2). destruct (I1 F1 K1) as (v' & E3 & E4).
      exists (v' :: l'). cbn [map mapS]. rewrite E3, E1. split; [reflexivity|]. now constructor. }
    destruct G as (l' & -> & H). eexists. split; [reflexivity|now constructor].
Qed.

Lemma only_clean v v' : Sendable r v -> deserialize r to_rdf (wire v) = Ok v' -> Received v v' -> Clean v.
Proof.
  revert v'. induction v as [| | | | | | | |c|l IH|k l IH|] using pv_ind'; intros v' HS HD HR;
    inversion HS as [| | | | |? Hu|? He|? HO|? HN HK HF|? ? HF]; subst; try constructor.
  - destruct (dict_cases l HK) as [(H & _)|(_ & E)]; [exact H|].
    inversion HR; subst. now apply E in HD.
  - destruct (dict_cases l HK) as [(_ & H & _)|(_ & E)]; [exact H|].
    inversion HR; subst. now apply E in HD.
  - destruct (dict_cases l HK) as [(_ & _ & E)|(_ & E)]; inversion HR as [| | | | | | | |? l' HF2|]; subst; [|now apply E in HD].
    cbn [wire] in HD. rewrite E in HD.
    destruct (mapS _ _) as [l2|] eqn:EM; [|discriminate]. injection HD as ->. apply mapS_ok_iff in EM.
    clear -IH HF HF2 EM. revert l' HF2 EM. induction l as [|[k v] l IHl]; intros l' HF2 EM; [constructor|].
    inversion IH as [|? ? I1 I2]; subst. inversion HF as [|? ? F1 F2]; subst.
    inversion HF2 as [|? kv' ? l2 [_ R1] R2]; subst. inversion EM as [|? ? ? ? E1 E2]; subst. cbn [fst snd] in *.
    constructor; [|eapply IHl; eauto]. cbn. destruct (deserialize r to_rdf (wire v)) as [v''|] eqn:Ev; [|discriminate].
    injection E1 as <-. eapply I1; eauto.
  - destruct (seq_cases l HF) as [(H & _)|(_ & E)]; [exact H|]. inversion HR; subst. now apply E in HD.
  - destruct (seq_cases l HF) as [(_ & E)|(_ & E)]; inversion HR as [| | | | | | | | |? ? l' HF2]; subst; [|now apply E in HD].
    cbn [wire] in HD. rewrite E in HD.
    destruct (mapS _ _) as [l2|] eqn:EM; [|discriminate]. injection HD as ->. apply mapS_ok_iff in EM.
    clear -IH HF HF2 EM. revert l' HF2 EM. induction l as [|v l IHl]; intros l' HF2 EM; [constructor|].
    inversion IH as [|? ? I1 I2]; subst. inversion HF as [|? ? F1 F2]; subst.
    inversion HF2 as [|? kv' ? l2 R1 R2]; subst. inversion EM as [|? ? ? ? E1 E2]; subst.
    constructor; [eapply I1; eauto|eapply IHl; eauto].
Qed.
End P.

(** C07: a value comes back as the same value exactly when it is clean. *)
Theorem C07_value_comes_back_iff : forall r from_rdf to_rdf v,
  JsonLd from_rdf to_rdf -> dict_ok r -> Sendable r v ->
  ((exists v', transmit r from_rdf to_rdf v = Ok v' /\ Received v v') <-> Clean v).
Proof.
  intros r from_rdf to_rdf v HLD HD HS. rewrite (transmit_wire r from_rdf to_rdf HLD v HS). split.
  - intros (v' & H1 & H2). eapply only_clean; eauto.
  - now apply complete.
Qed.

(** An entity is recovered through its printed name. *)
Theorem C07_entity_by_name : forall r e, dict_ok r -> Ordinary r e ->
  exists e', get_entity r (entity_str r e) = Ok (Found e') /\ e_iri e' = e_iri e.
Proof. intros. now apply entity_back. Qed.

(** *** Refused values *)
Inductive Part : pv -> pv -> Prop :=
| P_self v : Part v v
| P_dict x k v l : In (k, v) l -> Part x v -> Part x (VDict l)
| P_seq x s v l : In v l -> Part x v -> Part x (VSeq s l).

(** Serialising raises exactly when a part is neither a known value nor iterable. *)
Theorem C07_refused_iff : forall r from_rdf v,
  (forall e, ~ Part (VInverse e) v) ->
  ((exists j, serializable r from_rdf v = Ok j) <-> ~ Part VOther v) /\
  ((exists e, serializable r from_rdf v = Err e) -> serializable r from_rdf v = Err ValueError).
Proof.
  intros r from_rdf v. induction v as [| | | | | | | |c|l IH|k l IH|] using pv_ind'; intros HI;
    try (split; [split; [intros _ H; inversion H|intros _; eexists; reflexivity]|intros [e' H]; discriminate]).
  - exfalso. eapply HI. constructor.
  - assert (G : ((exists js, mapS (fun kv => rmap (pair (fst kv)) (serializable r from_rdf (snd kv))) l = Ok js) <-> ~ Part VOther (VDict l))
      /\ ((exists e, mapS (fun kv => rmap (pair (fst kv)) (serializable r from_rdf (snd kv))) l = Err e) ->
          mapS (fun kv => rmap (pair (fst kv)) (serializable r from_rdf (snd kv))) l = Err ValueError)).
    { induction l as [|[k v] l IHl].
      - split; [|intros [? H]; discriminate]. split; [|exists []; reflexivity]. intros _ H. inversion H; subst. contradiction.
      - inversion IH as [|? ? I1 I2]; subst. cbn [snd] in I1.
        destruct I1 as [I1 I1'].
        { intros e H. eapply HI. eapply P_dict; [left; reflexivity|exact H]. }
        destruct IHl as [IHl IHl']; [exact I2| |].
        { intros e H. inversion H as [|? k' v' ? Hin Hp|]; subst. eapply HI. eapply P_dict; [right; exact Hin|exact Hp]. }
        cbn [mapS fst snd]. destruct (serializable r from_rdf v) as [j|e] eqn:E; cbn [rmap].
        + destruct (mapS _ l) as [js|e] eqn:E2.
          * split; [|intros [? H]; discriminate]. split; [|eauto]. intros _ H.
            inversion H as [|? k' v' ? Hin Hp|]; subst. destruct Hin as [[= <- <-]|Hin].
            -- apply I1 in Hp; eauto.
            -- apply IHl; [eauto|]. eapply P_dict; eauto.
          * split.
            -- split; [intros [? H]; discriminate|]. intros H. exfalso.
               assert (~ Part VOther (VDict l)).
               { intros Hp. apply H. inversion Hp as [|? k' v' ? Hin Hp'|]; subst. eapply P_dict; [right; exact Hin|exact Hp']. }
               apply IHl in H0 as [js H0]. discriminate.
            -- intros _. apply IHl'. eauto.
        + split.
          * split; [intros [? H]; discriminate|]. intros H. exfalso.
            assert (~ Part VOther v) by (intros Hp; apply H; eapply P_dict; [left; reflexivity|exact Hp]).
            apply I1 in H0 as [j H0]. discriminate.
          * intros _. assert (E3 : Err e = @Err jv ValueError) by (apply I1'; eauto). injection E3 as ->. reflexivity. }
    destruct G as [G1 G2]. cbn [serializable].
    destruct (mapS _ l) as [js|e]; cbn [rmap]; split; try (intros [? H]; discriminate).
    + rewrite <- G1. split; eauto.
    + rewrite <- G1. split; intros [? H]; discriminate.
    + intros _. assert (E3 := G2 (ex_intro _ e eq_refl)). injection E3 as ->. reflexivity.
  - assert (G : ((exists js, mapS (serializable r from_rdf) l = Ok js) <-> ~ Part VOther (VSeq k l))
      /\ ((exists e, mapS (serializable r from_rdf) l = Err e) -> mapS (serializable r from_rdf) l = Err ValueError)).
    { induction l as [|v l IHl].
      - split; [|intros [? H]; discriminate]. split; [|exists []; reflexivity]. intros _ H. inversion H; subst. contradiction.
      - inversion IH as [|? ? I1 I2]; subst.
        destruct I1 as [I1 I1'].
        { intros e H. eapply HI. eapply P_seq; [left; reflexivity|exact H]. }
        destruct IHl as [IHl IHl']; [exact I2| |].
        { intros e H. inversion H as [| |? s' v' ? Hin Hp]; subst. eapply HI. eapply P_seq; [right; exact Hin|exact Hp]. }
        cbn [mapS]. destruct (serializable r from_rdf v) as [j|e] eqn:E.
        + destruct (mapS _ l) as [js|e] eqn:E2.
          * split; [|intros [? H]; discriminate]. split; [|eauto]. intros _ H.
            inversion H as [| |? s' v' ? Hin Hp]; subst. destruct Hin as [<-|Hin].
            -- apply I1 in Hp; eauto.
            -- apply IHl; [eauto|]. eapply P_seq; eauto.
          * split.
            -- split; [intros [? H]; discriminate|]. intros H. exfalso.
               assert (~ Part VOther (VSeq k l)).
               { intros Hp. apply H. inversion Hp as [| |? s' v' ? Hin Hp']; subst. eapply P_seq; [right; exact Hin|exact Hp']. }
               apply IHl in H0 as [js H0]. discriminate.
            -- intros _. apply IHl'. eauto.
        + split.
          * split; [intros [? H]; discriminate|]. intros H. exfalso.
            assert (~ Part VOther v) by (intros Hp; apply H; eapply P_seq; [left; reflexivity|exact Hp]).
            apply I1 in H0 as [j H0]. discriminate.
          * intros _. assert (E3 : Err e = @Err jv ValueError) by (apply I1'; eauto). injection E3 as ->. reflexivity. }
    destruct G as [G1 G2]. cbn [serializable].
    destruct (mapS _ l) as [js|e]; cbn [rmap]; split; try (intros [? H]; discriminate).
    + rewrite <- G1. split; eauto.
    + rewrite <- G1. split; intros [? H]; discriminate.
    + intros _. assert (E3 := G2 (ex_intro _ e eq_refl)). injection E3 as ->. reflexivity.
  - split; [|reflexivity]. split; [intros [? H]; discriminate|]. intros H. exfalso. apply H. constructor.
Qed.

(** ** Examples *)

(** An encoding that meets the contract of rdflib-jsonld. *)
Definition enc_opt (o : option str) : jv := match o with None => JNone | Some s => JStr s end.
Definition enc_term (t : term) : jv :=
  match t with
  | TIri s => JList [JInt 0; JStr s]
  | TBnode s => JList [JInt 1; JStr s]
  | TLit s d l => JList [JInt 2; JStr s; enc_opt d; enc_opt l]
  end.
Definition dec_opt (j : jv) : option str := match j with JStr s => Some s | _ => None end.
Definition dec_term (j : jv) : term :=
  match j with
  | JList [JInt 0; JStr s] => TIri s
  | JList [JInt _; JStr s] => TBnode s
  | JList [_; JStr s; d; l] => TLit s (dec_opt d) (dec_opt l)
  | _ => TIri []
  end.
Definition exFrom (g : list ttriple) : list jv :=
  map (fun t => JDict [(KStr (lit "@id"), enc_term (fst (fst t))); (KStr (lit "p"), enc_term (snd (fst t)));
                       (KStr (lit "o"), enc_term (snd t))]) g.
Definition exTo (l : list jv) : list ttriple :=
  map (fun j => match j with
                | JDict [(_, s); (_, p); (_, o)] => (dec_term s, dec_term p, dec_term o)
                | _ => (TIri [], TIri [], TIri [])
                end) l.
Lemma dec_enc t : dec_term (enc_term t) = t.
Proof. destruct t as [s|s [d|] [l|]|s]; reflexivity. Qed.
Example C07_codec_exists : JsonLd exFrom exTo.
Proof.
  intros g Hg. split; [|split].
  - destruct g as [|t g]; [congruence|]. eexists _, _. split; [reflexivity|]. cbn. auto.
  - cbn [through_json]. rewrite (mapS_ok through_json (fun x => x)); [now rewrite map_id|].
    apply Forall_forall. intros j Hj. apply in_map_iff in Hj as (t & <- & _).
    assert (HE : forall x, through_json (enc_term x) = Ok (enc_term x)) by (intros [s|s [d|] [l|]|s]; reflexivity).
    cbn [through_json mapS fst snd json_key]. rewrite !HE. reflexivity.
  - assert (E : exTo (exFrom g) = g).
    { unfold exTo, exFrom. rewrite map_map. rewrite <- (map_id g) at 2. apply map_ext.
      intros [[s p] o]. cbn. now rewrite !dec_enc. }
    rewrite E. intros t. tauto.
Qed.

Definition exCityIri : str := lit "http://city#".
Definition exReg : registry := Reg (Store [(lit "CITY", exCityIri)] [(exCityIri, lit "CITY")]) [(lit "city", exCityIri)]
  [(exCityIri ++ lit "Citizen", PType, OKind Class)].
Definition exCitizen : entity := Ent Class exCityIri (lit "Citizen") (lit "Citizen").
Definition exObj (n : N) : term := TIri (iri_from_uid n).
Definition exCuds : cuds := CudsV (exObj 1)
  [(exObj 1, rdf_type, TIri (exCityIri ++ lit "City")); (exObj 1, TIri (exCityIri ++ lit "hasPart"), exObj 2)]
  [(exObj 2, rdf_type, TIri (exCityIri ++ lit "Street"))].
Definition exVal : pv :=
  VDict [(KStr (lit "root"), VUuid 5); (KInt 3, VSeq STuple [VEnt exCitizen; VNone; VSeq SSet [VCuds exCuds]]);
         (KStr (lit "UUID"), VStr (lit "x"))].
Example C07_example : Sendable exReg exVal /\ dict_ok exReg /\ Clean exVal.
Proof.
  split; [|split].
  - constructor.
    + repeat constructor; cbn; intuition discriminate.
    + repeat constructor; discriminate.
    + repeat constructor; try reflexivity.
      * exists (lit "CITY"). repeat split; try reflexivity; try discriminate; cbn; auto.
        -- intuition discriminate.
        -- intuition discriminate.
        -- exists Class. left. reflexivity.
      * discriminate.
      * cbn. intuition (subst; reflexivity).
      * intros E. cbn in H. destruct H as [<-|[]]. vm_compute in E. discriminate E.
      * cbn in H. destruct H as [<-|[]]. reflexivity.
      * intros _. eexists. split; [right; left; reflexivity|]. discriminate.
  - intros n i [[= <- <-]|[]]. reflexivity.
  - constructor; try discriminate. repeat constructor; intros; discriminate.
Qed.

(** Without cleanliness the claim is false: a dictionary {"UUID": ...} becomes a
    uuid, a list of dictionaries with "@id" an object of the session. *)
Theorem C07_any_value_refuted :
  ~ (forall r from_rdf to_rdf v, JsonLd from_rdf to_rdf -> dict_ok r -> Sendable r v ->
       exists v', transmit r from_rdf to_rdf v = Ok v' /\ Received v v').
Proof.
  intros H. specialize (H exReg exFrom exTo (VDict [(KStr (lit "UUID"), VInt 7)]) C07_codec_exists).
  destruct H as (v' & E & HR).
  - apply C07_example.
  - constructor; repeat constructor; cbn; auto; discriminate.
  - vm_compute in E. injection E as <-. inversion HR.
Qed.
Example C07_tagged_dict_becomes_uuid :
  transmit exReg exFrom exTo (VDict [(KStr (lit "UUID"), VInt 7)]) = Ok (VUuid 7).
Proof. reflexivity. Qed.
(** An entity whose name has a dot cannot be received. *)
Definition exDot : entity := Ent Class exCityIri (lit "v1.City") (lit "v1.City").
Theorem C07_entity_with_dot_refuted :
  ~ (forall r e k, dict_ok r -> declared r (e_iri e) k -> e_name e = e_suffix e ->
       exists e', get_entity r (entity_str r e) = Ok (Found e') /\ e_iri e' = e_iri e).
Proof.
  set (r := Reg (Store [(lit "CITY", exCityIri)] [(exCityIri, lit "CITY")]) [(lit "city", exCityIri)]
    [(exCityIri ++ lit "v1.City", PType, OKind Class)]).
  intros H. specialize (H r exDot Class).
  destruct H as (e' & E & _).
  - intros n i [[= <- <-]|[]]. reflexivity.
  - left. reflexivity.
  - reflexivity.
  - vm_compute in E. discriminate.
Qed.

Print Assumptions C07_value_comes_back_iff.
Print Assumptions C07_entity_by_name.
Print Assumptions C07_refused_iff.
Print Assumptions C07_any_value_refuted.
Print Assumptions C07_entity_with_dot_refuted.
