(** Theorems about converting old ontology files to CamelCase (property C65). *)
From stdpp Require Import base list.
From Coq Require Import String Lia.
From Verif Require Import Prelude Utf8 Text Names Validator Camel CamelProofs PropNames PropValidator.
From Verif Require Yml.
Local Open Scope list_scope.

(** ** The specification *)

(** A well-formed old name: capitals, digits and underscores, every underscore
    inside followed by a capital (PropNames.v). *)
Definition good_word (s : str) : Prop :=
  exists c t, s = c :: t /\ old_first c /\ Forall old_char t /\ words_ok t.
Definition good_ref (s : str) : Prop := exists a b, s = a ++ dot :: b /\ old_word a /\ good_word b.
(** s becomes s' where it is used as a reference: names "CUBA.ENTITY" and "NS.NAME"
    are converted by cam, everything else stays. *)
Definition new_ref (cam : str -> res str) (s s' : str) : Prop :=
  (s = lit "CUBA.ENTITY" /\ s' = lit "cuba.Entity") \/
  (s <> lit "CUBA.ENTITY" /\ qualified_entity_name s = true /\ cam s = Ok s') \/
  (qualified_entity_name s = false /\ s' = s).
Definition opt_rel {A} (R : A -> A -> Prop) (x y : option A) : Prop :=
  match x, y with Some a, Some b => R a b | None, None => True | _, _ => False end.
(** What the parser of YAML ontologies reads in the entity (Yml.v): the same, with
    references converted. *)
Record same_entity (cam : str -> res str) (f f' : Yml.fields) : Prop := {
  se_supers : Forall2 (new_ref cam) (Yml.f_supers f) (Yml.f_supers f');
  (* inverse, datatype, description ... *)
  se_str : forall k, ~ In dot (lit k) -> opt_rel (new_ref cam) (Yml.f_str k f) (Yml.f_str k f');
  se_default : Yml.f_default_rel f' = Yml.f_default_rel f;
  se_attrs : Forall (fun a => good_ref (fst a)) (Yml.f_attributes f) ->
    (forall l, lookup (lit "attributes") f = Some (YDict l) -> stdpp.base.NoDup (strkeys l)) ->
    Forall2 (fun a a' => cam (fst a) = Ok (fst a') /\
               match snd a with None => snd a' = None | Some (YS s) => snd a' = Some (YS s) | Some _ => snd a' <> None end)
      (Yml.f_attributes f) (Yml.f_attributes f') }.

(** Below a relationship or an attribute: one of CUBA's, a name of another ontology
    the user says is no class, or an entity of the file, defined without class
    expressions, with such a superclass. *)
Definition cuba_known : list str := cuba_lower_names ++ cuba_upper_names ++ [lit "CUBA.ENTITY"].
Inductive is_rel (ns : str) (od : odoc) (ask : str -> bool) : str -> Prop :=
| rel_cuba w : In w cuba_lower_names -> is_rel ns od ask w
| rel_own a b : ~ In dot a -> ~ In dot b -> ~ In (a ++ dot :: b) cuba_known -> lower a = ns ->
    is_rel ns od ask b -> is_rel ns od ask (a ++ dot :: b)
| rel_other a b : ~ In dot a -> ~ In dot b -> ~ In (a ++ dot :: b) cuba_known -> lower a <> ns ->
    ask (a ++ dot :: b) = false -> is_rel ns od ask (a ++ dot :: b)
| rel_sub w l s : ~ In dot w -> assoc w od = Some l -> ~ In SDict l -> In (SName s) l ->
    is_rel ns od ask s -> is_rel ns od ask w.

(** ** Names *)
Lemma good_old s : good_word s -> old_word s.
Proof. intros (c & t & -> & H1 & H2 & _). by exists c, t. Qed.
Lemma good_entity_name s : good_word s -> entity_name s = true.
Proof. intros H. apply entity_name_iff. left. by apply good_old. Qed.
Lemma good_qualified s : good_ref s -> qualified_entity_name s = true.
Proof. intros (a & b & -> & Ha & Hb). apply qualified_iff. left. exists a, b. split; [done|]. split; [done|by apply good_old]. Qed.

Lemma split_ref a b : ~ In dot a -> ~ In dot b -> split_on dot (a ++ dot :: b) = [a; b].
Proof. intros Ha Hb. rewrite split_on_app by done. by rewrite split_on_nosep. Qed.
Lemma lower_nodot a : Forall old_char a -> ~ In dot (lower a).
Proof.
  intros H Hin. unfold lower in Hin. apply in_map_iff in Hin as (c & E & Hin). rewrite List.Forall_forall in H.
  specialize (H c Hin). apply (f_equal up1) in E. rewrite up1_low1 in E by done. apply (old_char_nodot c H). rewrite E. done.
Qed.
Lemma lower_inj a b : Forall old_char a -> Forall old_char b -> lower a = lower b -> a = b.
Proof.
  revert b. induction a as [|c a IH]; intros [|d b] Ha Hb E; try done.
  apply Forall_cons in Ha as [Hc Ha]. apply Forall_cons in Hb as [Hd Hb]. injection E as E1 E2.
  f_equal; [|by apply IH]. apply (f_equal up1) in E1. by rewrite !up1_low1 in E1.
Qed.
Lemma app_dot_inj (a1 a2 r1 r2 : str) : ~ In dot a1 -> ~ In dot a2 -> a1 ++ dot :: r1 = a2 ++ dot :: r2 -> a1 = a2 /\ r1 = r2.
Proof.
  revert a2. induction a1 as [|c a1 IH]; intros [|d a2] H1 H2 E; cbn in *.
  - by injection E.
  - injection E as E1 E2. exfalso. apply H2. left. done.
  - injection E as E1 E2. exfalso. apply H1. left. done.
  - injection E as -> E. destruct (IH a2) as [-> ->]; tauto || done.
Qed.

Section camel.
  Context (ns : str) (od : odoc) (ask : str -> bool).

  (** More stack changes nothing but RecursionError. *)
  Lemma any_is_mono b l l' :
    Forall2 (fun r r' => r = Err RecursionError \/ r = r') l l' ->
    any_is b l = Err RecursionError \/ any_is b l = any_is b l'.
  Proof.
    induction 1 as [|r r' l l' [-> | ->] _ IH]; [by right|by left|].
    destruct r' as [[b'|]|e]; cbn; [destruct (Bool.eqb b b'); [by right|done]|done|by right].
  Qed.
  Lemma caps_mono_step f g :
    (forall w i, first_letter_caps ns od ask f w i = Err RecursionError \/
       first_letter_caps ns od ask f w i = first_letter_caps ns od ask g w i) ->
    forall w i, first_letter_caps ns od ask (S f) w i = Err RecursionError \/
       first_letter_caps ns od ask (S f) w i = first_letter_caps ns od ask (S g) w i.
  Proof.
    intros IH w i. cbn [first_letter_caps].
    destruct (existsb (str_eqb w) cuba_lower_names); [by right|].
    destruct (existsb (str_eqb w) cuba_upper_names); [by right|].
    destruct (str_eqb w (lit "CUBA.ENTITY")); [by right|].
    destruct (existsb (N.eqb dot) w).
    - destruct (split_on dot w) as [|a [|b [|? ?]]]; try by right.
      destruct (str_eqb (lower a) ns); [|by right].
      destruct (IH b true) as [E|E]; rewrite E; [by left|by right].
    - destruct (assoc w od) as [l|]; [|by right]. destruct (existsb _ l); [by right|].
      set (r1 := map _ l). set (r2 := map _ l).
      assert (Forall2 (fun r r' => r = Err RecursionError \/ r = r') r1 r2) as HF.
      { subst r1 r2. clear -IH. induction l as [|s l IHl]; [constructor|]. cbn [map]. constructor; [|done].
        destruct s as [w'|]; [|by right]. apply IH. }
      destruct (any_is_mono false _ _ HF) as [E|E]; rewrite E; [by left|].
      destruct (any_is false r2) as [[]|]; try by right.
      destruct (any_is_mono true _ _ HF) as [E'|E']; rewrite E'; [by left|by right].
  Qed.
  Lemma caps_mono f : forall w i,
    first_letter_caps ns od ask f w i = Err RecursionError \/
    first_letter_caps ns od ask f w i = first_letter_caps ns od ask (S f) w i.
  Proof. induction f as [|f IH]; [by left|]. by apply caps_mono_step. Qed.
  Lemma to_camel_mono f w x : to_camel ns od ask f w = Ok x -> to_camel ns od ask (S f) w = Ok x.
  Proof.
    unfold to_camel. destruct (caps_mono f w false) as [E|E]; rewrite E; [done|]. done.
  Qed.

  Lemma to_camel_word f w x : ~ In dot w -> to_camel ns od ask f w = Ok x -> exists caps, camel_local caps w = Ok x.
  Proof.
    intros Hd. unfold to_camel. destruct (first_letter_caps _ _ _ _ _ _) as [c|]; [|done].
    rewrite existsb_dot_not by done. intros H. eexists. exact H.
  Qed.
  Lemma to_camel_word_inj f w1 w2 x : good_word w1 -> good_word w2 ->
    to_camel ns od ask f w1 = Ok x -> to_camel ns od ask f w2 = Ok x -> w1 = w2.
  Proof.
    intros G1 G2 E1 E2. apply to_camel_word in E1 as [c1 E1]; [|by apply old_word_nodot, good_old].
    apply to_camel_word in E2 as [c2 E2]; [|by apply old_word_nodot, good_old].
    destruct G1 as (a1 & t1 & -> & A1 & A2 & A3), G2 as (a2 & t2 & -> & B1 & B2 & B3).
    exact (C44_conversion_injective c1 c2 a1 t1 a2 t2 x A1 A2 A3 B1 B2 B3 E1 E2).
  Qed.
  Lemma to_camel_ref f a b x : ~ In dot a -> ~ In dot b -> to_camel ns od ask f (a ++ dot :: b) = Ok x ->
    exists caps r, camel_local caps b = Ok r /\ x = lower a ++ dot :: r.
  Proof.
    intros Ha Hb. unfold to_camel. destruct (first_letter_caps _ _ _ _ _ _) as [c|]; [|done].
    rewrite existsb_dot_app, split_ref by done. destruct (camel_local _ b) as [r|] eqn:Er; [|done].
    cbn. intros [= <-]. by eexists _, r.
  Qed.
  Lemma to_camel_ref_inj f s1 s2 x : good_ref s1 -> good_ref s2 ->
    to_camel ns od ask f s1 = Ok x -> to_camel ns od ask f s2 = Ok x -> s1 = s2.
  Proof.
    intros (a1 & b1 & -> & A1 & G1) (a2 & b2 & -> & A2 & G2) E1 E2.
    apply to_camel_ref in E1 as (c1 & r1 & E1 & ->); [|by apply old_word_nodot|by apply old_word_nodot, good_old].
    apply to_camel_ref in E2 as (c2 & r2 & E2 & E); [|by apply old_word_nodot|by apply old_word_nodot, good_old].
    apply app_dot_inj in E as [Ea ->]; [|by apply lower_nodot, old_word_chars ..].
    apply lower_inj in Ea as ->; [|by apply old_word_chars ..]. f_equal. f_equal.
    destruct G1 as (x1 & t1 & -> & A & B & C), G2 as (x2 & t2 & -> & A' & B' & C').
    exact (C44_conversion_injective c1 c2 x1 t1 x2 t2 r2 A B C A' B' C' E1 E2).
  Qed.
End camel.

(** ** Entities *)
Section entity.
  Context (cam : str -> res str) (cam_dot : forall s w, q s = true -> cam s = Ok w -> In dot w).

  Lemma conv_value_str s e' : conv_value cam q (conv cam q) (YS (SStr s)) = Ok e' -> exists s', e' = YS (SStr s') /\ new_ref cam s s'.
  Proof.
    cbn [conv_value]. destruct (str_eqb_spec s (lit "CUBA.ENTITY")) as [->|Hn].
    - intros [= <-]. eexists. split; [done|]. by left.
    - destruct (q s) eqn:Eq.
      + destruct (cam s) as [w|] eqn:Ew; [|done]. cbn. intros [= <-]. exists w. split; [done|]. right; left. done.
      + intros [= <-]. exists s. split; [done|]. right; right. done.
  Qed.
  Lemma conv_kind v v' : conv cam q v = Ok v' ->
    match v with
    | YS s => v' = YS s
    | YList l => exists l', v' = YList l' /\ Forall2 (fun e e' => conv_value cam q (conv cam q) e = Ok e') l l'
    | YDict l => exists es, v' = YDict (foldl dput [] es) /\ Forall2 (entry cam q) l es
    end.
  Proof. destruct v as [s|l|l]; [intros [= <-]; done|apply conv_list|apply conv_dict]. Qed.
  Lemma conv_value_kind v v' : (forall s, v <> YS (SStr s)) -> conv_value cam q (conv cam q) v = Ok v' -> conv cam q v = Ok v'.
  Proof. intros H. destruct v as [[]|l|l]; try done. by destruct (H s). Qed.

  Lemma nested_lookup k f es : ~ In dot k -> Forall2 (entry cam q) f es -> stdpp.base.NoDup (strkeys f) ->
    forall acc, match lookup k f with
    | None => lookup k (foldl dput acc es) = lookup k acc
    | Some v => exists v', lookup k (foldl dput acc es) = Some v' /\ conv_value cam q (conv cam q) v = Ok v'
    end.
  Proof.
    intros Hk HF. induction HF as [|[a v] [a' v'] f es He HF IH]; intros Hnd acc; [done|].
    cbn [foldl]. unfold dput at 2 4. cbn [fst snd]. unfold entry in He. cbn [fst snd] in He.
    rewrite strkeys_cons in Hnd. cbn [fst] in Hnd. cbn [lookup].
    assert (forall a', a' <> SStr k -> stdpp.base.NoDup (strkeys f) -> match lookup k f with
      | None => lookup k (foldl dput (dset a' v' acc) es) = lookup k acc
      | Some v => exists v'0, lookup k (foldl dput (dset a' v' acc) es) = Some v'0 /\ conv_value cam q (conv cam q) v = Ok v'0
      end) as Hrest.
    { intros x Hx Hnd'. specialize (IH Hnd' (dset x v' acc)). destruct (lookup k f); [done|]. rewrite IH. by apply lookup_dset_ne. }
    destruct a as [| | | |s|]; try (destruct He as [-> _]; by apply Hrest).
    apply stdpp.list.NoDup_cons in Hnd as [Hs Hnd].
    destruct (q s) eqn:Eq.
    - destruct He as (w & Ew & -> & _). apply cam_dot in Ew; [|done].
      destruct (str_eqb_spec k s) as [->|Hn]; [by destruct Hk; apply qualified_dot|].
      apply Hrest; [congruence|done].
    - destruct He as [-> Ev]. destruct (str_eqb_spec k s) as [->|Hn]; [|by apply Hrest; [congruence|]].
      exists v'. split; [|done]. specialize (IH Hnd (dset (SStr s) v' acc)).
      apply lookup_none in Hs. rewrite Hs in IH. rewrite IH. apply lookup_dset_eq.
  Qed.
  Lemma field k f f' : ~ In dot k -> stdpp.base.NoDup (strkeys f) -> conv cam q (YDict f) = Ok (YDict f') ->
    match lookup k f with
    | None => lookup k f' = None
    | Some v => exists v', lookup k f' = Some v' /\ conv_value cam q (conv cam q) v = Ok v'
    end.
  Proof.
    intros Hk Hnd Hc. apply conv_dict in Hc as (es & [= ->] & HF). exact (nested_lookup k f es Hk HF Hnd []).
  Qed.

  Lemma strings_rel l l' : Forall2 (fun e e' => conv_value cam q (conv cam q) e = Ok e') l l' ->
    Forall2 (new_ref cam) (Yml.strings l) (Yml.strings l').
  Proof.
    induction 1 as [|e e' l l' He _ IH]; [constructor|].
    destruct e as [s|l0|l0].
    - destruct s; try (injection He as <-; exact IH). apply conv_value_str in He as (s' & -> & Hr).
      change (Forall2 (new_ref cam) (s :: Yml.strings l) (s' :: Yml.strings l')). by constructor.
    - apply conv_list in He as (l1 & -> & _). exact IH.
    - apply conv_dict in He as (l1 & -> & _). exact IH.
  Qed.
  Lemma dput_ne es : forall acc, acc <> [] -> foldl dput acc es <> [].
  Proof.
    induction es as [|[k v] es IH]; intros acc Ha; [done|]. apply IH. unfold dput. cbn [fst snd].
    destruct acc as [|[k' v'] acc]; [done|]. cbn [dset]. destruct k, k'; try done. by destruct (str_eqb _ _).
  Qed.
  Lemma truthy_rel v v' : conv_value cam q (conv cam q) v = Ok v' -> Yml.truthy v' = Yml.truthy v.
  Proof.
    destruct v as [s|l|l]; intros H.
    - destruct s; try (injection H as <-; done). apply conv_value_str in H as (s' & -> & [[-> ->]|[(_ & Hq & Hc)|[_ ->]]]); try done.
      apply cam_dot in Hc; [|done]. apply qualified_dot in Hq. destruct s; [done|]. by destruct s'.
    - apply conv_list in H as (l' & -> & HF). by inversion HF.
    - apply conv_dict in H as (es & -> & HF). inversion HF as [|x y l0 es0 Hxy HF0]; subst; [done|].
      cbn [Yml.truthy]. assert (foldl dput [] (y :: es0) <> []) as Hn.
      { cbn [foldl]. apply dput_ne. unfold dput. by destruct y. }
      destruct (foldl dput [] (y :: es0)); [done|]. by destruct x.
  Qed.

  Definition attr_of (kv : scalar * yaml) : option (str * option yaml) :=
    match kv with
    | (SStr k, YS SNone) => Some (k, None)
    | (SStr k, v) => Some (k, Some v)
    | _ => None
    end.
  Lemma attrs_rel l es : Forall2 (entry cam q) l es -> Forall (fun a => q (fst a) = true) (omap attr_of l) ->
    Forall2 (fun a a' => cam (fst a) = Ok (fst a') /\
               match snd a with None => snd a' = None | Some (YS s) => snd a' = Some (YS s) | Some _ => snd a' <> None end)
      (omap attr_of l) (omap attr_of es).
  Proof.
    induction 1 as [|[k v] [k' v'] l es He _ IH]; intros Hq; [constructor|].
    unfold entry in He. cbn [fst snd] in He.
    destruct k as [| | | |s|]; try (destruct He as [-> _]; exact (IH Hq)).
    assert (exists d, omap attr_of ((SStr s, v) :: l) = (s, d) :: omap attr_of l /\ attr_of (SStr s, v) = Some (s, d)) as (d & El & Ed).
    { destruct v as [[]|?|?]; eexists; split; reflexivity. }
    rewrite El in *. apply Forall_cons in Hq as [Hs Hq]. cbn [fst] in Hs. rewrite Hs in He.
    destruct He as (w & Ew & -> & Ev).
    assert (exists d', omap attr_of ((SStr w, v') :: es) = (w, d') :: omap attr_of es /\ attr_of (SStr w, v') = Some (w, d')) as (d' & El' & Ed').
    { destruct v' as [[]|?|?]; eexists; split; reflexivity. }
    rewrite El'. constructor; [|by apply IH]. cbn [fst snd]. split; [done|]. apply conv_kind in Ev.
    destruct v as [x|l0|l0].
    - subst v'. destruct x; injection Ed as <-; injection Ed' as <-; done.
    - destruct Ev as (l1 & -> & _). cbn in Ed, Ed'. injection Ed as <-. injection Ed' as <-. done.
    - destruct Ev as (l1 & -> & _). cbn in Ed, Ed'. injection Ed as <-. injection Ed' as <-. done.
  Qed.
  Lemma attrs_keys l a : a ∈ strkeys l -> exists d, (a, d) ∈ omap attr_of l.
  Proof.
    rewrite elem_strkeys. intros (v & Hin). setoid_rewrite elem_of_list_omap.
    destruct v as [[]|?|?]; eexists _, _; (split; [exact Hin|reflexivity]).
  Qed.
  Lemma entry_keys_nodup pat l es :
    (forall s1 s2 w, s1 ∈ strkeys l -> s2 ∈ strkeys l -> cam s1 = Ok w -> cam s2 = Ok w -> s1 = s2) ->
    Forall2 (entry cam pat) l es -> (forall s, s ∈ strkeys l -> pat s = true) -> stdpp.base.NoDup (strkeys l) ->
    stdpp.base.NoDup (strkeys es).
  Proof.
    intros Hinj HF Hq Hnd.
    induction HF as [|[k v] [k' v'] l es He HF IH]; [constructor|].
    unfold entry in He. cbn [fst snd] in He. rewrite strkeys_cons in *. cbn [fst] in *.
    destruct k as [| | | |s|]; try (destruct He as [-> _]; apply IH; done).
    apply stdpp.list.NoDup_cons in Hnd as [Hns Hnd].
    assert (pat s = true) as Hs by (apply Hq; left). rewrite Hs in He. destruct He as (w & Ew & -> & _).
    assert (forall w, w ∈ strkeys es -> exists s, s ∈ strkeys l /\ cam s = Ok w) as Hback.
    { assert (forall s, s ∈ strkeys l -> pat s = true) as Hq' by (intros ? ?; apply Hq; by right).
      clear -HF Hq'. induction HF as [|[k v] [k' v'] l es He HF IH]; intros w Hw; [by apply elem_of_nil in Hw|].
      unfold entry in He. cbn [fst snd] in He. rewrite strkeys_cons in Hw. cbn [fst] in Hw.
      assert (forall s, s ∈ strkeys l -> s ∈ strkeys ((k, v) :: l)) as Hsub.
      { intros s Hs. rewrite strkeys_cons. destruct (fst (k, v)); try done. by right. }
      assert (w ∈ strkeys es -> exists s, s ∈ strkeys ((k, v) :: l) /\ cam s = Ok w) as Hrest.
      { intros H. destruct IH with w as (s & Hs & E); [intros s Hs; apply Hq'; by apply Hsub|done|]. exists s. split; [by apply Hsub|done]. }
      destruct k as [| | | |s|]; try (destruct He as [-> _]; by apply Hrest).
      assert (pat s = true) as Hs. { apply Hq'. rewrite strkeys_cons. left. }
      rewrite Hs in He. destruct He as (w' & Ew & -> & _). apply elem_of_cons in Hw as [->|Hw]; [|by apply Hrest].
      exists s. split; [|done]. rewrite strkeys_cons. left. }
    apply stdpp.list.NoDup_cons. split.
    - intros Hin. apply Hback in Hin as (s2 & Hs2 & E2). apply Hns. assert (s = s2) as ->; [|done].
      apply (Hinj s s2 w); [left|by right|done|done].
    - apply IH; [|by intros ? ?; apply Hq; right|done]. intros s1 s2 w1 H1 H2. apply Hinj; by right.
  Qed.
End entity.

Lemma convert_entity ns od ask fuel f f' :
  let cam := to_camel ns od ask fuel in
  stdpp.base.NoDup (strkeys f) -> conv cam q (YDict f) = Ok (YDict f') -> same_entity cam f f'.
Proof.
  intros cam Hnd Hc.
  assert (forall s w, q s = true -> cam s = Ok w -> In dot w) as Hdot.
  { intros s w Hs. apply to_camel_dot. by apply qualified_dot. }
  assert (~ In dot (lit "subclass_of")) as D1 by (vm_compute; intuition congruence).
  assert (~ In dot (lit "default_rel")) as D2 by (vm_compute; intuition congruence).
  assert (~ In dot (lit "attributes")) as D3 by (vm_compute; intuition congruence).
  constructor.
  - unfold Yml.f_supers, Yml.get. pose proof (field cam Hdot _ f f' D1 Hnd Hc) as H.
    destruct (lookup (lit "subclass_of") f) as [v|]; [|rewrite H; constructor]. destruct H as (v' & -> & Hv).
    destruct v as [s|l|l].
    + destruct s; try (injection Hv as <-; constructor). apply conv_value_str in Hv as (s' & -> & _). constructor.
    + apply conv_list in Hv as (l' & -> & HF). by apply strings_rel.
    + apply conv_dict in Hv as (es & -> & _). constructor.
  - intros k Hk. unfold Yml.f_str, Yml.get. pose proof (field cam Hdot _ f f' Hk Hnd Hc) as H.
    destruct (lookup (lit k) f) as [v|]; [|rewrite H; done]. destruct H as (v' & -> & Hv).
    destruct v as [s|l|l].
    + destruct s; try (injection Hv as <-; done). apply conv_value_str in Hv as (s' & -> & Hr). exact Hr.
    + apply conv_list in Hv as (l' & -> & HF). done.
    + apply conv_dict in Hv as (es & -> & _). done.
  - unfold Yml.f_default_rel, Yml.get. pose proof (field cam Hdot _ f f' D2 Hnd Hc) as H.
    destruct (lookup (lit "default_rel") f) as [v|]; [|by rewrite H]. destruct H as (v' & -> & Hv).
    cbn. f_equal. by apply (truthy_rel cam Hdot).
  - unfold Yml.f_attributes, Yml.get. pose proof (field cam Hdot _ f f' D3 Hnd Hc) as H. intros Hg Hl.
    destruct (lookup (lit "attributes") f) as [v|]; [|rewrite H; constructor]. destruct H as (v' & -> & Hv).
    destruct v as [s|l|l].
    + destruct s; try (injection Hv as <-; constructor). apply conv_value_str in Hv as (s' & -> & _). constructor.
    + apply conv_list in Hv as (l' & -> & HF). constructor.
    + apply conv_dict in Hv as (es & -> & HF). specialize (Hl l eq_refl).
      change (Forall (fun a => good_ref (fst a)) (omap attr_of l)) in Hg.
      assert (forall s, s ∈ strkeys l -> good_ref s) as Hgk.
      { intros s Hs. apply attrs_keys in Hs as (d & Hd). rewrite stdpp.list.Forall_forall in Hg. by apply (Hg (s, d)). }
      assert (stdpp.base.NoDup (strkeys es)) as Hes.
      { eapply (entry_keys_nodup cam q l es); [|exact HF| |exact Hl].
        - intros s1 s2 w H1 H2. apply to_camel_ref_inj; auto.
        - intros s Hs. by apply good_qualified, Hgk. }
      rewrite (dput_all es []) by done. cbn [app]. apply (attrs_rel cam l es HF).
      apply stdpp.list.Forall_forall. intros a Ha. rewrite stdpp.list.Forall_forall in Hg. by apply good_qualified, Hg.
Qed.

(** ** The whole file *)
Lemma odoc_entries l od : odoc_of (YDict l) = Some od ->
  Forall (fun kv => exists k f, kv = (SStr k, YDict f)) l.
Proof.
  cbn [odoc_of]. revert od. induction l as [|[k v] l IH]; intros od; [constructor|].
  cbn [stdpp.list.mapM]. destruct (odoc_entry (k, v)) as [e|] eqn:Ee; [|done].
  destruct (stdpp.list.mapM odoc_entry l) as [es|] eqn:Es; [|done]. intros _. constructor; [|by apply (IH es)].
  destruct k; try discriminate Ee. destruct v; try discriminate Ee. by eexists _, _.
Qed.

(** A converted file: the namespace and the requirements in lower case, everything
    else outside the ontology as it was; the entities are the same, in the same
    order, each under its new name, no two under the same name, and each is read as
    the old one is, with the references converted the same way. *)
Theorem C65_convert : forall ask fuel doc doc' n l,
  lookup (lit "namespace") doc = Some (YS (SStr n)) ->
  lookup (lit "ontology") doc = Some (YDict l) ->
  convert ask fuel doc = Ok doc' ->
  stdpp.base.NoDup (strkeys l) -> Forall good_word (strkeys l) ->
  (forall k f, (SStr k, YDict f) ∈ l -> stdpp.base.NoDup (strkeys f)) ->
  exists od l', odoc_of (YDict l) = Some od /\
    lookup (lit "namespace") doc' = Some (YS (SStr (lower n))) /\
    lookup (lit "ontology") doc' = Some (YDict l') /\
    (lookup (lit "requirements") doc = None -> lookup (lit "requirements") doc' = None) /\
    (forall rs, lookup (lit "requirements") doc = Some (YList rs) -> exists ss, rs = map (fun s => YS (SStr s)) ss /\
       lookup (lit "requirements") doc' = Some (YList (map (fun s => YS (SStr (lower s))) ss))) /\
    (forall k, k <> lit "namespace" -> k <> lit "ontology" -> k <> lit "requirements" -> lookup k doc' = lookup k doc) /\
    stdpp.base.NoDup (strkeys l') /\
    Forall2 (fun kv kv' => exists k f k' f', kv = (SStr k, YDict f) /\ kv' = (SStr k', YDict f') /\
        to_camel (lower n) od ask fuel k = Ok k' /\ same_entity (to_camel (lower n) od ask fuel) f f') l l'.
Proof.
  intros ask fuel doc doc' n l Hn Ho Hc Hnd Hg Hf. unfold convert in Hc. rewrite Ho, Hn in Hc.
  destruct (odoc_of (YDict l)) as [od|] eqn:Eod; [|done]. set (cam := to_camel (lower n) od ask fuel) in *.
  match type of Hc with context [match ?x with Ok _ => _ | Err _ => _ end] => destruct x as [doc2|] eqn:E2; [|done] end.
  destruct (conv cam entity_name (YDict l)) as [onto'|] eqn:Ec; [|done]. injection Hc as <-.
  apply conv_dict in Ec as (es & -> & HF).
  assert (forall s, s ∈ strkeys l -> good_word s) as Hgk by (by rewrite stdpp.list.Forall_forall in Hg).
  assert (stdpp.base.NoDup (strkeys es)) as Hes.
  { eapply (entry_keys_nodup cam entity_name l es); [|exact HF| |exact Hnd].
    - intros s1 s2 w H1 H2. apply to_camel_word_inj; auto.
    - intros s Hs. by apply good_entity_name, Hgk. }
  rewrite (dput_all es []) by done. cbn [app].
  assert (lit "ontology" <> lit "namespace") as K1 by discriminate.
  assert (lit "requirements" <> lit "namespace") as K2 by discriminate.
  assert (lit "requirements" <> lit "ontology") as K3 by discriminate.
  rewrite lookup_dset_ne in E2 by congruence.
  exists od, es. split; [done|]. split; [|split; [apply lookup_dset_eq|split; [|split; [|split; [|split; [done|]]]]]].
  - rewrite lookup_dset_ne by congruence.
    destruct (lookup (lit "requirements") doc) as [[|rs|]|]; try done; [|injection E2 as <-; apply lookup_dset_eq].
    destruct (stdpp.list.mapM _ rs) as [rs'|]; [|done]. injection E2 as <-.
    rewrite lookup_dset_ne by congruence. apply lookup_dset_eq.
  - intros Hr. rewrite Hr in E2. injection E2 as <-. by rewrite !lookup_dset_ne by congruence.
  - intros rs Hr. rewrite Hr in E2. destruct (stdpp.list.mapM _ rs) as [rs'|] eqn:Em; [|done]. injection E2 as <-.
    rewrite lookup_dset_ne by congruence. rewrite lookup_dset_eq. clear -Em. revert rs' Em.
    induction rs as [|y rs IH]; intros rs' Em; cbn [stdpp.list.mapM] in Em; [injection Em as <-; by exists []|].
    destruct y as [[| | | |s|]|?|?]; try discriminate Em. cbn in Em. destruct (stdpp.list.mapM _ rs) as [r2|] eqn:E2; [|done].
    injection Em as <-. destruct (IH r2 eq_refl) as (ss & -> & E). injection E as ->. by exists (s :: ss).
  - intros k H1 H2 H3. rewrite lookup_dset_ne by congruence.
    destruct (lookup (lit "requirements") doc) as [[|rs|]|]; try done; [|injection E2 as <-; by rewrite lookup_dset_ne by congruence].
    destruct (stdpp.list.mapM _ rs) as [rs'|]; [|done]. injection E2 as <-. by rewrite !lookup_dset_ne by congruence.
  - pose proof (odoc_entries l od Eod) as Hall. clear -HF Hall Hgk Hf.
    induction HF as [|[k v] [k' v'] l es He HF IH]; [constructor|].
    apply Forall_cons in Hall as [(k0 & f & E) Hall]. injection E as -> ->. unfold entry in He. cbn [fst snd] in He.
    constructor.
    + assert (good_word k0) as Hk. { apply Hgk. rewrite strkeys_cons. left. }
      rewrite (good_entity_name k0 Hk) in He. destruct He as (w & Ew & -> & Ev).
      pose proof Ev as (es' & -> & _)%conv_dict. eexists _, _, _, _. do 3 (split; [done|]).
      apply convert_entity; [|done]. apply (Hf k0). left.
    + apply IH; [intros k1 f1 H1; apply (Hf k1); by right| |done].
      intros s Hs. apply Hgk. rewrite strkeys_cons. by right.
Qed.

(** A reference to an entity of the file, wherever it is written, becomes a reference
    to the converted entity. *)
Theorem C65_references : forall ask fuel doc doc' n l od l',
  lookup (lit "namespace") doc = Some (YS (SStr n)) ->
  lookup (lit "ontology") doc = Some (YDict l) -> odoc_of (YDict l) = Some od ->
  convert ask fuel doc = Ok doc' -> lookup (lit "ontology") doc' = Some (YDict l') ->
  stdpp.base.NoDup (strkeys l) -> Forall good_word (strkeys l) ->
  (forall k f, (SStr k, YDict f) ∈ l -> stdpp.base.NoDup (strkeys f)) ->
  forall nsw k r, old_word nsw -> lower nsw = lower n -> nsw <> lit "CUBA" -> k ∈ strkeys l ->
  new_ref (to_camel (lower n) od ask fuel) (nsw ++ dot :: k) r ->
  exists k', k' ∈ strkeys l' /\ to_camel (lower n) od ask fuel k = Ok k' /\ r = lower n ++ dot :: k'.
Proof.
  intros ask fuel doc doc' n l od l' Hn Ho Hod Hc Ho' Hnd Hg Hf nsw k r Hw Hlow Hcuba Hk Hr.
  destruct (C65_convert ask fuel doc doc' n l Hn Ho Hc Hnd Hg Hf) as (od0 & l0 & Hod0 & _ & Ho0 & _ & _ & _ & _ & HF).
  assert (od0 = od) as -> by congruence. assert (l0 = l') as -> by congruence. clear Ho0 Hod0.
  set (cam := to_camel (lower n) od ask fuel) in *.
  assert (exists k', k' ∈ strkeys l' /\ cam k = Ok k') as (k' & Hk' & Ek).
  { apply elem_strkeys in Hk as (v & Hv). apply elem_of_list_lookup in Hv as (i & Hi).
    destruct (Forall2_lookup_l _ _ _ _ _ HF Hi) as (y & Hy & k1 & f1 & k1' & f1' & E & -> & Ek & _).
    injection E as <- ->. exists k1'. split; [|done]. apply elem_strkeys. exists (YDict f1').
    apply elem_of_list_lookup. by exists i. }
  exists k'. split; [done|]. split; [done|].
  assert (good_word k) as Gk by (rewrite stdpp.list.Forall_forall in Hg; by apply Hg).
  assert (good_ref (nsw ++ dot :: k)) as Gr by (by exists nsw, k).
  assert (~ In dot nsw) as D1 by (by apply old_word_nodot).
  assert (~ In dot k) as D2 by (by apply old_word_nodot, good_old).
  destruct Hr as [[E _]|[(_ & _ & Er)|[Eq _]]].
  - exfalso. apply Hcuba. change (lit "CUBA.ENTITY") with (lit "CUBA" ++ dot :: lit "ENTITY") in E.
    apply app_dot_inj in E as [E _]; [done|done|]. vm_compute. intuition congruence.
  - unfold cam in Er, Ek. destruct fuel as [|fuel]; [done|].
    pose proof (C44_references_follow_definitions (lower n) od ask fuel nsw k D1 D2 Hlow Hcuba) as E.
    cbn [app] in E. rewrite E in Er. destruct (to_camel (lower n) od ask fuel k) as [x|] eqn:Ex; [|done].
    cbn in Er. injection Er as <-. rewrite (to_camel_mono _ _ _ _ _ _ Ex) in Ek. injection Ek as ->. done.
  - by rewrite (good_qualified _ Gr) in Eq.
Qed.

(** ** Capitals *)
Lemma any_is_true b l : any_is b l = Ok true -> exists r, In r l /\ r = Ok (Some b).
Proof.
  induction l as [|r l IH]; [done|]. cbn. destruct r as [[b'|]|e]; [|intros H; apply IH in H as (r & H & E); exists r; auto|done].
  destruct (Bool.eqb b b') eqn:Eb; [|intros H; apply IH in H as (r & H & E); exists r; auto].
  apply Bool.eqb_prop in Eb as ->. intros _. eexists. split; [by left|done].
Qed.
Lemma any_is_false b l : any_is b l = Ok false -> forall r, In r l -> exists x, r = Ok x /\ x <> Some b.
Proof.
  induction l as [|r l IH]; [done|]. cbn. destruct r as [[b'|]|e]; [| |done].
  - destruct (Bool.eqb b b') eqn:Eb; [done|]. intros H r' [<-|Hr]; [|by apply IH].
    eexists. split; [done|]. intros [= ->]. by rewrite Bool.eqb_reflx in Eb.
  - intros H r' [<-|Hr]; [|by apply IH]. by exists None.
Qed.
Lemma existsb_str w l : existsb (str_eqb w) l = true <-> In w l.
Proof.
  rewrite existsb_exists. split; [intros (x & Hx & E); apply str_eqb_eq in E; by subst|].
  intros H. exists w. split; [done|apply str_eqb_refl].
Qed.
Lemma cuba_known_dot w : In w cuba_known -> In dot w.
Proof. vm_compute. intuition (subst; cbn; tauto). Qed.
Lemma caps_is_rel ns od ask fuel : forall w i x,
  first_letter_caps ns od ask fuel w i = Ok x -> (x = Some false <-> is_rel ns od ask w).
Proof.
  induction fuel as [|fuel IH]; intros w i x; [done|]. cbn [first_letter_caps].
  destruct (existsb (str_eqb w) cuba_lower_names) eqn:E1.
  { intros [= <-]. split; [|done]. intros _. apply rel_cuba. by apply existsb_str. }
  assert (~ In w cuba_lower_names) as N1 by (rewrite <- existsb_str, E1; done).
  assert (In w cuba_known -> ~ is_rel ns od ask w) as Hkn.
  { intros Hk Hr. pose proof (cuba_known_dot w Hk). by inversion Hr; subst. }
  destruct (existsb (str_eqb w) cuba_upper_names) eqn:E2.
  { intros [= <-]. split; [done|]. intros Hr. exfalso. apply Hkn in Hr; [done|].
    unfold cuba_known. rewrite !in_app_iff. right; left. by apply existsb_str. }
  assert (~ In w cuba_upper_names) as N2 by (rewrite <- existsb_str, E2; done).
  destruct (str_eqb_spec w (lit "CUBA.ENTITY")) as [->|N3].
  { intros Hx. split; [intros ->; by destruct i|]. intros Hr. exfalso. apply Hkn in Hr; [done|].
    unfold cuba_known. rewrite !in_app_iff. right; right. by left. }
  assert (~ In w cuba_known) as N4.
  { unfold cuba_known. rewrite !in_app_iff. intros [H|[H|[H|[]]]]; [by apply N1|by apply N2|by apply N3]. }
  destruct (existsb (N.eqb dot) w) eqn:Ed.
  - destruct (split_on dot w) as [|a [|b [|? ?]]] eqn:Es; try done.
    assert (w = a ++ dot :: b /\ ~ In dot a /\ ~ In dot b) as (-> & Ha & Hb).
    { pose proof (join_split dot w) as J. pose proof (split_on_no_sep_inside dot w) as Hno. rewrite Es in J, Hno. cbn in J.
      apply Forall_cons in Hno as [Ha Hno]. apply Forall_cons in Hno as [Hb _]. by rewrite J. }
    destruct (str_eqb_spec (lower a) ns) as [Hns|Hns].
    + destruct (first_letter_caps ns od ask fuel b true) as [x0|] eqn:E0; [|done]. specialize (IH _ _ _ E0).
      intros [= <-]. assert (match x0 with Some _ => x0 | None => if i then None else Some true end = Some false <-> x0 = Some false) as ->.
      { destruct x0; [done|]. by destruct i. }
      rewrite IH. split; [by apply rel_own|]. intros Hr. inversion Hr as [| | |]; subst.
      * done.
      * match goal with H : _ ++ dot :: _ = _ ++ dot :: _ |- _ => apply app_dot_inj in H as [-> ->]; [done..] end.
      * match goal with H : _ ++ dot :: _ = _ ++ dot :: _ |- _ => apply app_dot_inj in H as [-> ->]; [done..] end.
      * exfalso. match goal with H : ~ In dot (_ ++ _) |- _ => apply H end. rewrite in_app_iff. right. by left.
    + intros [= <-]. split.
      * intros [= Hask]. by apply rel_other.
      * intros Hr. inversion Hr as [| | |]; subst.
        -- done.
        -- match goal with H : _ ++ dot :: _ = _ ++ dot :: _ |- _ => apply app_dot_inj in H as [-> ->]; [done..] end.
        -- by f_equal.
        -- exfalso. match goal with H : ~ In dot (_ ++ _) |- _ => apply H end. rewrite in_app_iff. right. by left.
  - assert (~ In dot w) as Hd.
    { intros Hin. apply not_true_iff_false in Ed. apply Ed. apply existsb_exists. exists dot. split; [done|]. apply N.eqb_refl. }
    destruct (assoc w od) as [l|] eqn:Ea; [|done].
    destruct (existsb _ l) eqn:El.
    { intros [= <-]. split; [done|]. intros Hr. exfalso. inversion Hr as [| | |w' l' s _ Ea' Hnd]; subst; [done|..].
      - apply Hd. rewrite in_app_iff. right. by left.
      - apply Hd. rewrite in_app_iff. right. by left.
      - rewrite Ea in Ea'. injection Ea' as <-. apply Hnd. apply existsb_exists in El as ([w'|] & Hin & E); done. }
    assert (~ In SDict l) as HnD.
    { intros Hin. apply not_true_iff_false in El. apply El. apply existsb_exists. by exists SDict. }
    set (rs := map _ l).
    assert (is_rel ns od ask w <-> exists s, In (SName s) l /\ is_rel ns od ask s) as Hiff.
    { split; [|intros (s & Hs & Hr); by apply (rel_sub ns od ask w l s)].
      intros Hr. inversion Hr as [| | |w' l' s _ Ea' _ Hs Hr']; subst; [done|..].
      - destruct Hd. rewrite in_app_iff. right. by left.
      - destruct Hd. rewrite in_app_iff. right. by left.
      - rewrite Ea in Ea'. injection Ea' as <-. by exists s. }
    rewrite Hiff. destruct (any_is false rs) as [[|]|] eqn:Eany; [| |done].
    + intros [= <-]. split; [|done]. intros _. apply any_is_true in Eany as (r & Hr & ->).
      unfold rs in Hr. apply in_map_iff in Hr as ([s|] & E & Hs); [|done]. exists s. split; [done|]. by apply (IH _ _ _ E).
    + assert (~ exists s, In (SName s) l /\ is_rel ns od ask s) as Hno.
      { intros (s & Hs & Hr). assert (In (first_letter_caps ns od ask fuel s true) rs) as Hin.
        { unfold rs. apply in_map_iff. by exists (SName s). }
        destruct (any_is_false _ _ Eany _ Hin) as (x0 & E0 & Hx0). apply (IH _ _ _ E0) in Hr. done. }
      destruct (any_is true rs) as [[|]|]; [| |done].
      * intros [= <-]. split; done.
      * intros [= <-]. split; [by destruct i|done].
Qed.
(** The new name begins with a small letter exactly when the entity is below a
    relationship or an attribute. *)
Theorem C65_capital : forall ns od ask fuel c t w, (65 <= c <= 90)%N -> ~ In dot t ->
  to_camel ns od ask fuel (c :: t) = Ok w ->
  (is_rel ns od ask (c :: t) /\ exists w', w = (c + 32)%N :: w') \/
  (~ is_rel ns od ask (c :: t) /\ exists w', w = c :: w').
Proof.
  intros ns od ask fuel c t w Hc Ht. unfold to_camel.
  destruct (first_letter_caps ns od ask fuel (c :: t) false) as [x|] eqn:E; [|done].
  rewrite existsb_dot_not; [|intros [Hcd|H]; [unfold dot in Hcd; lia|done]].
  pose proof (caps_is_rel ns od ask fuel _ _ _ E) as Hr. cbn [camel_local].
  assert (is_upper c = true) as Hu by (by apply is_upper_iff).
  assert (is_lower c = false) as Hl. { unfold is_lower. apply andb_false_iff. left. apply N.leb_gt. lia. }
  unfold up1, low1. rewrite Hu, Hl. intros [= <-].
  destruct x as [[|]|].
  - right. split; [intros H; apply Hr in H; done|]. by eexists.
  - left. split; [by apply Hr|]. by eexists.
  - exfalso. rewrite caps_internal in E. by destruct (first_letter_caps ns od ask fuel (c :: t) true) as [[]|].
Qed.

(** Which strings are names: capitals, digits and underscores, not beginning with a
    digit; references are two of them with a dot between.  Python's "$" also accepts
    a newline at the end. *)
Theorem C65_what_is_a_name : forall s,
  (entity_name s = true <-> old_word s \/ exists t, s = t ++ [10%N] /\ old_word t) /\
  (qualified_entity_name s = true <-> old_ref s \/ exists t, s = t ++ [10%N] /\ old_ref t).
Proof. intros s. split; [apply entity_name_iff|apply qualified_iff]. Qed.

(** ** A file *)
Definition ystr (s : string) : yaml := YS (SStr (lit s)).
Definition exCity : list (scalar * yaml) :=
  [(SStr (lit "version"), ystr "0.0.1"); (SStr (lit "namespace"), ystr "CITY");
   (SStr (lit "requirements"), YList [ystr "CUBA"]);
   (SStr (lit "ontology"), YDict
     [(SStr (lit "HAS_PART"), YDict [(SStr (lit "subclass_of"), YList [ystr "CUBA.ACTIVE_RELATIONSHIP"]);
                                     (SStr (lit "inverse"), ystr "CITY.IS_PART_OF");
                                     (SStr (lit "default_rel"), YS (SBool true))]);
      (SStr (lit "IS_PART_OF"), YDict [(SStr (lit "subclass_of"), YList [ystr "CUBA.PASSIVE_RELATIONSHIP"])]);
      (SStr (lit "NAME"), YDict [(SStr (lit "subclass_of"), YList [ystr "CUBA.ATTRIBUTE"])]);
      (SStr (lit "CITY_WALL"), YDict [(SStr (lit "description"), ystr "Wall of a CITY.");
                                      (SStr (lit "subclass_of"), YList [ystr "CUBA.ENTITY"]);
                                      (SStr (lit "attributes"), YDict [(SStr (lit "CITY.NAME"), ystr "x")])]);
      (SStr (lit "OLD_WALL"), YDict [(SStr (lit "subclass_of"), YList [ystr "CITY.CITY_WALL"])])])].
Definition exCity' : list (scalar * yaml) :=
  [(SStr (lit "version"), ystr "0.0.1"); (SStr (lit "namespace"), ystr "city");
   (SStr (lit "requirements"), YList [ystr "cuba"]);
   (SStr (lit "ontology"), YDict
     [(SStr (lit "hasPart"), YDict [(SStr (lit "subclass_of"), YList [ystr "cuba.activeRelationship"]);
                                     (SStr (lit "inverse"), ystr "city.isPartOf");
                                     (SStr (lit "default_rel"), YS (SBool true))]);
      (SStr (lit "isPartOf"), YDict [(SStr (lit "subclass_of"), YList [ystr "cuba.passiveRelationship"])]);
      (SStr (lit "name"), YDict [(SStr (lit "subclass_of"), YList [ystr "cuba.attribute"])]);
      (SStr (lit "CityWall"), YDict [(SStr (lit "description"), ystr "Wall of a CITY.");
                                      (SStr (lit "subclass_of"), YList [ystr "cuba.Entity"]);
                                      (SStr (lit "attributes"), YDict [(SStr (lit "city.name"), ystr "x")])]);
      (SStr (lit "OldWall"), YDict [(SStr (lit "subclass_of"), YList [ystr "city.CityWall"])])])].
Example C65_example_convert : convert (fun _ => true) 20 exCity = Ok exCity'.
Proof. vm_compute. reflexivity. Qed.

(** The hypotheses of the theorems for this file. *)
Definition nodupb (l : list str) : bool := bool_decide (stdpp.base.NoDup l).
Fixpoint words_okb (s : str) : bool :=
  match s with
  | [] => true
  | c :: t => (if (c =? 95)%N then match t with d :: _ => is_upper d | [] => false end else true) && words_okb t
  end.
Lemma words_okb_ok s : words_okb s = true -> words_ok s.
Proof.
  induction s as [|c s IH]; intros H a b E.
  - by destruct a.
  - cbn [words_okb] in H. apply andb_true_iff in H as [H1 H2]. destruct a as [|c' a]; injection E as -> E.
    + subst s. destruct b as [|d b]; [done|]. cbn in H1. apply is_upper_iff in H1. by exists d, b.
    + by apply (IH H2 a b).
Qed.
Definition old_charb (c : N) : bool := is_upper c || ((48 <=? c)%N && (c <=? 57)%N) || (c =? 95)%N.
Lemma old_charb_ok c : old_charb c = true -> old_char c.
Proof.
  unfold old_charb, old_char. rewrite !orb_true_iff, andb_true_iff, !N.leb_le, N.eqb_eq. intros [[H|H]|H].
  - left. by apply is_upper_iff.
  - right; left. done.
  - right; right. done.
Qed.
Definition good_wordb (s : str) : bool :=
  match s with [] => false | c :: t => is_upper c && forallb old_charb t && words_okb t end.
Lemma good_wordb_ok s : good_wordb s = true -> good_word s.
Proof.
  destruct s as [|c t]; [done|]. cbn. rewrite !andb_true_iff. intros [[H1 H2] H3]. exists c, t. split; [done|].
  split; [left; by apply is_upper_iff|]. split; [|by apply words_okb_ok].
  apply List.Forall_forall. intros x Hx. apply old_charb_ok. rewrite forallb_forall in H2. by apply H2.
Qed.
Definition fields_okb (l : list (scalar * yaml)) : bool :=
  forallb (fun kv => match snd kv with YDict f => nodupb (strkeys f) | _ => true end) l.
Lemma fields_okb_ok l : fields_okb l = true -> forall k f, (SStr k, YDict f) ∈ l -> stdpp.base.NoDup (strkeys f).
Proof.
  intros H k f Hin. unfold fields_okb in H. rewrite forallb_forall in H. apply elem_of_list_In in Hin.
  specialize (H _ Hin). cbn in H. by apply bool_decide_eq_true in H.
Qed.
Example C65_example_hyps : exists l od, lookup (lit "namespace") exCity = Some (YS (SStr (lit "CITY"))) /\
  lookup (lit "ontology") exCity = Some (YDict l) /\ odoc_of (YDict l) = Some od /\
  stdpp.base.NoDup (strkeys l) /\ Forall good_word (strkeys l) /\
  (forall k f, (SStr k, YDict f) ∈ l -> stdpp.base.NoDup (strkeys f)) /\
  is_rel (lit "city") od (fun _ => true) (lit "HAS_PART") /\
  ~ is_rel (lit "city") od (fun _ => true) (lit "OLD_WALL").
Proof.
  eexists _, _. split; [reflexivity|]. split; [reflexivity|]. split; [reflexivity|].
  split; [eapply bool_decide_unpack; vm_compute; exact I|]. split.
  { apply List.Forall_forall. intros s Hs. apply good_wordb_ok. revert s Hs.
    apply forallb_forall. vm_compute. reflexivity. }
  split; [apply fields_okb_ok; vm_compute; reflexivity|]. split.
  - apply (caps_is_rel _ _ _ 20 _ false (Some false)); vm_compute; reflexivity.
  - intros H. apply (caps_is_rel _ _ _ 20 _ false (Some true)) in H; [done|vm_compute; reflexivity].
Qed.

(** Beyond the restriction to well-formed names: two entities whose names differ only
    in underscores become one, and one of the definitions is lost. *)
Theorem C65_collision_refuted : exists doc doc' l l',
  convert (fun _ => true) 20 doc = Ok doc' /\
  lookup (lit "ontology") doc = Some (YDict l) /\ lookup (lit "ontology") doc' = Some (YDict l') /\
  stdpp.base.NoDup (strkeys l) /\ List.length l = 2%nat /\ List.length l' = 1%nat.
Proof.
  exists [(SStr (lit "namespace"), ystr "CITY");
          (SStr (lit "ontology"), YDict
             [(SStr (lit "CITY__WALL"), YDict [(SStr (lit "subclass_of"), YList [ystr "CUBA.ENTITY"])]);
              (SStr (lit "CITY_WALL"), YDict [(SStr (lit "subclass_of"), YList [ystr "CUBA.FILE"])])])].
  eexists _, _, _. split; [vm_compute; reflexivity|]. split; [reflexivity|]. split; [reflexivity|].
  split; [eapply bool_decide_unpack; vm_compute; exact I|]. split; reflexivity.
Qed.

Print Assumptions C65_convert.
Print Assumptions C65_references.
Print Assumptions C65_capital.
Print Assumptions C65_what_is_a_name.
Print Assumptions C65_collision_refuted.
