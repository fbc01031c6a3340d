(** Lemmas about the converter of old ontology files (Camel.v). *)
From stdpp Require Import base list.
From Coq Require Import String.
From Verif Require Import Prelude Utf8 Text Names Validator Camel PropNames PropValidator.
Local Open Scope list_scope.

(** ** Dictionaries *)
Definition strkeys (l : list (scalar * yaml)) : list str :=
  omap (fun kv => match fst kv with SStr s => Some s | _ => None end) l.
Definition dput (acc : list (scalar * yaml)) (kv : scalar * yaml) := dset (fst kv) (snd kv) acc.

Lemma strkeys_cons kv l : strkeys (kv :: l) = match fst kv with SStr s => s :: strkeys l | _ => strkeys l end.
Proof. destruct kv as [[] v]; done. Qed.
Lemma strkeys_app l l' : strkeys (l ++ l') = strkeys l ++ strkeys l'.
Proof. induction l as [|kv l IH]; [done|]. cbn [app]. rewrite !strkeys_cons, IH. by destruct (fst kv). Qed.
Lemma elem_strkeys s l : s ∈ strkeys l <-> exists v, (SStr s, v) ∈ l.
Proof.
  unfold strkeys. rewrite elem_of_list_omap. split.
  - intros ([k v] & Hin & E). destruct k; try discriminate E. cbn in E. injection E as ->. by exists v.
  - intros (v & Hin). by exists (SStr s, v).
Qed.
Lemma dset_new k v l : (forall s, k = SStr s -> s ∉ strkeys l) -> dset k v l = l ++ [(k, v)].
Proof.
  induction l as [|[k' v'] l IH]; intros Hk; [done|]. cbn [dset app].
  assert (forall s, k = SStr s -> s ∉ strkeys l) as Hk'.
  { intros s -> Hin. apply (Hk s eq_refl). rewrite strkeys_cons. destruct (fst (k', v')); try done. by right. }
  rewrite (IH Hk'). destruct k as [| | | |a|]; try done. destruct k' as [| | | |b|]; try done.
  destruct (str_eqb_spec a b) as [->|Hn]; [|done]. destruct (Hk b eq_refl). left.
Qed.
Lemma dput_all es : forall acc, stdpp.base.NoDup (strkeys (acc ++ es)) -> foldl dput acc es = acc ++ es.
Proof.
  induction es as [|[k v] es IH]; intros acc Hnd; cbn [foldl]; [by rewrite app_nil_r|].
  unfold dput at 2. cbn [fst snd]. rewrite dset_new.
  - rewrite IH; [by rewrite <- app_assoc|]. by rewrite <- app_assoc.
  - intros s -> Hs. rewrite strkeys_app in Hnd. apply stdpp.list.NoDup_app in Hnd as (_ & Hd & _).
    apply (Hd s Hs). rewrite strkeys_cons. left.
Qed.
Lemma lookup_dset_eq k v l : lookup k (dset (SStr k) v l) = Some v.
Proof.
  induction l as [|[a x] l IH]; cbn [dset lookup]; [by rewrite str_eqb_refl|].
  destruct a as [| | | |c|]; cbn [lookup]; try done.
  destruct (str_eqb_spec k c) as [->|Hn]; cbn [lookup]; [by rewrite str_eqb_refl|].
  destruct (str_eqb_spec k c); done.
Qed.
Lemma lookup_dset_ne k k' v l : k' <> SStr k -> lookup k (dset k' v l) = lookup k l.
Proof.
  intros Hne. induction l as [|[a x] l IH].
  - cbn [dset lookup]. destruct k' as [| | | |b|]; try done.
    destruct (str_eqb_spec k b) as [->|Hn]; done.
  - cbn [dset]. destruct k' as [| | | |b|]; destruct a as [| | | |c|]; cbn [lookup]; rewrite ?IH; try done.
    destruct (str_eqb_spec b c) as [->|Hbc]; cbn [lookup]; rewrite ?IH; [|done].
    destruct (str_eqb_spec k c) as [->|Hn]; done.
Qed.
Lemma lookup_in k v l : lookup k l = Some v -> (SStr k, v) ∈ l.
Proof.
  induction l as [|[a x] l IH]; [done|]. cbn. destruct a as [| | | |c|]; try (intros H; right; by apply IH).
  destruct (str_eqb_spec k c) as [->|Hn]; [|intros H; right; by apply IH]. intros [= ->]. left.
Qed.
Lemma lookup_none k l : lookup k l = None <-> k ∉ strkeys l.
Proof.
  induction l as [|[a x] l IH]; [split; [intros _ H; by apply elem_of_nil in H|done]|].
  rewrite strkeys_cons. cbn. destruct a as [| | | |c|]; try done.
  destruct (str_eqb_spec k c) as [->|Hn]; [split; [done|intros H; destruct H; left]|].
  rewrite IH, not_elem_of_cons. tauto.
Qed.
Lemma in_lookup k v l : stdpp.base.NoDup (strkeys l) -> (SStr k, v) ∈ l -> lookup k l = Some v.
Proof.
  induction l as [|[a x] l IH]; intros Hnd Hin; [by apply elem_of_nil in Hin|]. rewrite strkeys_cons in Hnd.
  cbn. apply elem_of_cons in Hin as [E|Hin].
  - injection E as <- <-. by rewrite str_eqb_refl.
  - destruct a as [| | | |c|]; try by apply IH. cbn in Hnd. apply stdpp.list.NoDup_cons in Hnd as [Hc Hnd].
    destruct (str_eqb_spec k c) as [->|Hn]; [|by apply IH]. destruct Hc. apply elem_strkeys. by exists v.
Qed.

(** ** The shape of the result *)
Notation q := qualified_entity_name.
Definition entry (cam : str -> res str) (pat : str -> bool) (kv kv' : scalar * yaml) : Prop :=
  match fst kv with
  | SStr s =>
      if pat s then exists w, cam s = Ok w /\ fst kv' = SStr w /\ conv cam q (snd kv) = Ok (snd kv')
      else fst kv' = fst kv /\ conv_value cam pat (conv cam q) (snd kv) = Ok (snd kv')
  | _ => fst kv' = fst kv /\ conv_value cam pat (conv cam q) (snd kv) = Ok (snd kv')
  end.

Lemma conv_list cam pat l y' : conv cam pat (YList l) = Ok y' ->
  exists l', y' = YList l' /\ Forall2 (fun e e' => conv_value cam pat (conv cam q) e = Ok e') l l'.
Proof.
  cbn [conv]. match goal with |- context [rmap YList (?f l)] => set (go := f) end.
  assert (forall l0 l1, go l0 = Ok l1 -> Forall2 (fun e e' => conv_value cam pat (conv cam q) e = Ok e') l0 l1) as Hgo.
  { intros l0. induction l0 as [|e l0 IH]; intros l1; cbn; [intros [= <-]; constructor|].
    destruct (conv_value cam pat (conv cam q) e) as [e'|] eqn:E; [|done]. fold go.
    destruct (go l0) as [l2|] eqn:E2; [|done]. cbn. intros [= <-]. constructor; [done|]. by apply IH. }
  destruct (go l) as [l'|] eqn:E; [|done]. cbn. intros [= <-]. exists l'. split; [done|]. by apply Hgo.
Qed.
Lemma conv_dict cam pat l y' : conv cam pat (YDict l) = Ok y' ->
  exists es, y' = YDict (foldl dput [] es) /\ Forall2 (entry cam pat) l es.
Proof.
  cbn [conv]. match goal with |- context [rmap YDict (?f [] l)] => set (go := f) end.
  assert (forall l0 acc l1, go acc l0 = Ok l1 -> exists es, l1 = foldl dput acc es /\ Forall2 (entry cam pat) l0 es) as Hgo.
  { intros l0. induction l0 as [|[k v] l0 IH]; intros acc l1; cbn; [intros [= <-]; exists []; split; [done|constructor]|]. fold go.
    assert (forall k' v', entry cam pat (k, v) (k', v') -> go (dset k' v' acc) l0 = Ok l1 ->
      exists es, l1 = foldl dput acc es /\ Forall2 (entry cam pat) ((k, v) :: l0) es) as Hstep.
    { intros k' v' He Hg. apply IH in Hg as (es & -> & HF). exists ((k', v') :: es). split; [done|]. by constructor. }
    destruct k as [| | | |s|];
      try (destruct (conv_value cam pat (conv cam q) v) as [v'|] eqn:Ev; [|done]; intros Hg;
           exact (Hstep _ v' (conj eq_refl Ev) Hg)).
    destruct (pat s) eqn:Ep.
    - destruct (cam s) as [w|] eqn:Ew; [|done]. destruct (conv cam q v) as [v'|] eqn:Ev; [|done]. intros Hg.
      refine (Hstep (SStr w) v' _ Hg). unfold entry. cbn [fst snd]. rewrite Ep. by exists w.
    - destruct (conv_value cam pat (conv cam q) v) as [v'|] eqn:Ev; [|done]. intros Hg.
      refine (Hstep (SStr s) v' _ Hg). unfold entry. cbn [fst snd]. rewrite Ep. done. }
  destruct (go [] l) as [l'|] eqn:E; [|done]. cbn. intros [= <-]. apply Hgo in E as (es & -> & HF). by exists es.
Qed.

(** ** Patterns *)
Definition old_word (s : str) : Prop := exists c t, s = c :: t /\ old_first c /\ Forall old_char t.
Lemma lang_old_char s : lang (Alts [upper_letter; digit; chr 95]) s <-> exists c, s = [c] /\ old_char c.
Proof.
  cbn [Alts fold_right]. rewrite !lang_alt, lang_fail. unfold upper_letter, digit, chr. rewrite !lang_chr. unfold old_char. split.
  - intros [(c & -> & H)|[(c & -> & H)|[(c & -> & H)|[]]]]; exists c; (split; [done|]).
    + left. by apply is_upper_iff.
    + right; left. unfold is_digit in H. apply andb_true_iff in H as [H1 H2]. apply N.leb_le in H1, H2. split; assumption.
    + right; right. symmetry. by apply N.eqb_eq.
  - intros (c & -> & [H|[[H1 H2]|H]]).
    + left. exists c. split; [done|]. by apply is_upper_iff.
    + right; left. exists c. split; [done|]. unfold is_digit. apply andb_true_iff. split; by apply N.leb_le.
    + right; right; left. exists c. split; [done|]. apply N.eqb_eq. done.
Qed.
Lemma lang_old_tail s : lang (Star (Alts [upper_letter; digit; chr 95])) s <-> Forall old_char s.
Proof.
  split.
  - intros H. remember (Star _) as r eqn:Er. revert Er. induction H as [| | | | | |a s t H1 _ H2 IH]; intros Er; try discriminate; [constructor|].
    injection Er as ->. apply lang_old_char in H1 as (c & -> & Hc). constructor; auto.
  - induction s as [|c s IH]; intros H; [constructor|]. apply Forall_cons in H as [Hc Hs].
    apply (L_star_cons _ [c] s); [apply lang_old_char; by exists c|auto].
Qed.
Lemma lang_old_name s : lang old_name_re s <-> old_word s.
Proof.
  unfold old_name_re. rewrite lang_seq. split.
  - intros (x & y & -> & H1 & H2). apply lang_old_tail in H2. rewrite lang_alt in H1. unfold upper_letter, chr in H1.
    rewrite !lang_chr in H1. destruct H1 as [(c & -> & H)|(c & -> & H)]; exists c, y; (split; [done|]); (split; [|done]).
    + right. symmetry. by apply N.eqb_eq.
    + left. by apply is_upper_iff.
  - intros (c & t & -> & Hc & Ht). exists [c], t. split; [done|]. split; [|by apply lang_old_tail].
    rewrite lang_alt. unfold upper_letter, chr. rewrite !lang_chr. destruct Hc as [H|H].
    + right. exists c. split; [done|]. by apply is_upper_iff.
    + left. exists c. split; [done|]. apply N.eqb_eq. done.
Qed.
Lemma re_match_anchored r s : re_match true r s = true <-> lang r s \/ exists t, s = t ++ [10%N] /\ lang r t.
Proof.
  unfold re_match. rewrite orb_true_iff, andb_true_iff, !re_full_lang. split.
  - intros [H|[H1 H2]]; [by left|]. right. apply endswith_iff in H1 as [t ->]. rewrite before_suffix_app in H2. by exists t.
  - intros [H|(t & -> & H)]; [by left|]. right. split; [apply endswith_iff; by exists t|]. by rewrite before_suffix_app.
Qed.
(** What counts as an old name: capitals, digits and underscores (Python's "$" also
    accepts a final newline); a qualified one is two of them with a dot. *)
Lemma entity_name_iff s : entity_name s = true <-> old_word s \/ exists t, s = t ++ [10%N] /\ old_word t.
Proof. unfold entity_name. rewrite re_match_anchored. setoid_rewrite lang_old_name. done. Qed.
Definition old_ref (s : str) : Prop := exists a b, s = a ++ dot :: b /\ old_word a /\ old_word b.
Lemma lang_old_ref s : lang old_qualified_re s <-> old_ref s.
Proof.
  unfold old_qualified_re, old_ref. rewrite lang_seq. split.
  - intros (x & y & -> & H1 & H2). apply lang_seq in H2 as (d & b & -> & Hd & Hb). apply lang_chr in Hd as (c & -> & Hc).
    apply N.eqb_eq in Hc as <-. apply lang_old_name in H1, Hb. by exists x, b.
  - intros (a & b & -> & Ha & Hb). exists a, (dot :: b). split; [done|]. split; [by apply lang_old_name|].
    apply lang_seq. exists [dot], b. split; [done|]. split; [|by apply lang_old_name]. apply lang_chr. by exists dot.
Qed.
Lemma qualified_iff s : q s = true <-> old_ref s \/ exists t, s = t ++ [10%N] /\ old_ref t.
Proof. unfold q. rewrite re_match_anchored. setoid_rewrite lang_old_ref. done. Qed.
Lemma qualified_dot s : q s = true -> In dot s.
Proof.
  rewrite qualified_iff. intros [(a & b & -> & _)|(t & -> & a & b & -> & _)]; rewrite ?in_app_iff; cbn; tauto.
Qed.
Lemma old_char_nodot c : old_char c -> c <> dot.
Proof. intros H ->. destruct H as [[H _]|[[H _]|H]]; [apply H|apply H|discriminate H]; done. Qed.
Lemma old_word_chars s : old_word s -> Forall old_char s.
Proof.
  intros (c & t & -> & Hc & Ht). constructor; [|done]. destruct Hc; [by left|by right; right].
Qed.
Lemma old_word_nodot s : old_word s -> ~ In dot s.
Proof.
  intros H Hin. apply old_word_chars in H. rewrite List.Forall_forall in H. apply H in Hin. by apply old_char_nodot in Hin.
Qed.
Lemma to_camel_dot ns od ask fuel s w : In dot s -> to_camel ns od ask fuel s = Ok w -> In dot w.
Proof.
  intros Hd. unfold to_camel. destruct (first_letter_caps _ _ _ _ _ _) as [x|]; [|done].
  assert (existsb (N.eqb dot) s = true) as ->. { apply existsb_exists. exists dot. split; [done|]. apply N.eqb_refl. }
  destruct (split_on dot s) as [|a [|b l]]; try done. destruct (camel_local _ b); [|done]. cbn. intros [= <-].
  rewrite in_app_iff. right. by left.
Qed.
