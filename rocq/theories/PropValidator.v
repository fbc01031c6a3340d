(** C45: the YAML validator accepts exactly the format's grammar. *)
From Coq Require Import List Arith NArith ZArith Lia Bool String.
From Verif Require Import Prelude Utf8 Text Validator.
Import ListNotations.
Local Open Scope nat_scope.
Local Open Scope list_scope.

(** ** Specification: the grammar *)

Definition Letter (c : N) : Prop := (97 <= c <= 122)%N \/ (65 <= c <= 90)%N.
Definition Digit (c : N) : Prop := (48 <= c <= 57)%N.
Definition NameChar (c : N) : Prop := Letter c \/ Digit c \/ c = 95%N.

(** Names: a letter, then letters, digits and underscores. *)
Definition Name (s : str) : Prop :=
  exists c t, s = c :: t /\ Letter c /\ Forall NameChar t.
Definition Qualified (s : str) : Prop :=
  exists ns n, s = ns ++ lit "." ++ n /\ Name ns /\ Name n.
Definition Digits (s : str) : Prop := s <> [] /\ Forall Digit s.
Definition Version (s : str) : Prop :=
  (exists a b, s = a ++ lit "." ++ b /\ Digits a /\ Digits b) \/
  (exists a b c, s = a ++ lit "." ++ b ++ lit "." ++ c /\ Digits a /\ Digits b /\ Digits c).
Definition Characteristic (s : str) : Prop := In s characteristics.
(** a sequence of ":" digits *)
Inductive Lengths : str -> Prop :=
| Lengths_nil : Lengths []
| Lengths_cons n s : Digits n -> Lengths s -> Lengths (lit ":" ++ n ++ s).
Definition DatatypeText (s : str) : Prop :=
  exists v d l, s = v ++ d ++ l /\ (v = [] \/ v = lit "VECTOR:") /\ In d datatypes /\ Lengths l.
Definition Cardinality (s : str) : Prop :=
  In s (map lit ["many"; "some"; "*"; "+"; "?"]%string) \/
  (exists n, Digits n /\ (s = n \/ s = n ++ lit "+")) \/
  (exists n c, Digits n /\ Digit c /\ s = n ++ lit "-" ++ [c]).

(** A scalar whose text satisfies [P]; one final newline is ignored. *)
Definition Text (P : str -> Prop) (d : yaml) : Prop :=
  exists s t, d = YS s /\ scalar_text s = Some t /\
    (P t \/ exists t', t = t' ++ [10%N] /\ P t').
(** A scalar whose text starts with a letter. *)
Definition StartsWithLetter (d : yaml) : Prop :=
  exists s c t, d = YS s /\ scalar_text s = Some (c :: t) /\ Letter c.
Definition String (d : yaml) : Prop := exists s, d = YS (SStr s).
Definition Boolish (d : yaml) : Prop :=
  (exists b, d = YS (SBool b)) \/ d = YS (SInt 0) \/ d = YS (SInt 1) \/
  exists t b, d = YS (SFloat t (Some b)).

Definition ListOf (P : yaml -> Prop) (d : yaml) : Prop :=
  exists l, d = YList l /\ Forall P l.
Definition DictOf (K V : yaml -> Prop) (d : yaml) : Prop :=
  exists l, d = YDict l /\ Forall (fun kv => K (YS (fst kv)) /\ V (snd kv)) l.

(** a dictionary with fields: the required ones exist, all present ones are
    well-formed, and there are no others *)
Inductive Presence := Required | Optional.
Definition Fields (fs : list (Presence * string * (yaml -> Prop))) (d : yaml) : Prop :=
  exists l, d = YDict l /\
    Forall (fun f => match f with (q, k, P) =>
        match lookup (lit k) l with
        | None => q = Optional
        | Some v => P v
        end end) fs /\
    Forall (fun kv => exists f, In f fs /\ fst kv = SStr (lit (snd (fst f)))) l.

(** Class expressions *)
Inductive ClassExpr : yaml -> Prop :=
| CE_name d : Text Qualified d -> ClassExpr d
| CE_rel l : Forall (fun kv => Text Qualified (YS (fst kv)) /\ RelExpr (snd kv)) l ->
    ClassExpr (YDict l)
| CE_or_and l : Forall (fun kv => Text (fun s => s = lit "or" \/ s = lit "and") (YS (fst kv)) /\
      exists ds, snd kv = YList ds /\ Forall ClassExpr ds) l ->
    ClassExpr (YDict l)
| CE_not l : Forall (fun kv => Text (fun s => s = lit "not") (YS (fst kv)) /\ ClassExpr (snd kv)) l ->
    ClassExpr (YDict l)
with RelExpr : yaml -> Prop :=
| RE l target : lookup (lit "range") l = Some target -> ClassExpr target ->
    (forall c, lookup (lit "cardinality") l = Some c -> Text Cardinality c) ->
    (forall e, lookup (lit "exclusive") l = Some e -> Boolish e) ->
    Forall (fun kv => In (fst kv) (map (fun k => SStr (lit k)) ["range"; "cardinality"; "exclusive"]%string)) l ->
    RelExpr (YDict l).

Definition Entity : yaml -> Prop := Fields
  [(Optional, "description"%string, String);
   (Required, "subclass_of"%string, ListOf ClassExpr);
   (Optional, "attributes"%string, DictOf (Text Qualified) (fun _ => True));
   (Optional, "disjoint_with"%string, ListOf ClassExpr);
   (Optional, "equivalent_to"%string, ListOf ClassExpr);
   (Optional, "inverse"%string, Text Qualified);
   (Optional, "default_rel"%string, Boolish);
   (Optional, "domain"%string, ClassExpr);
   (Optional, "range"%string, ClassExpr);
   (Optional, "characteristics"%string, ListOf (Text Characteristic));
   (Optional, "datatype"%string, Text DatatypeText)].
Definition Document : yaml -> Prop := Fields
  [(Required, "version"%string, Text Version);
   (Required, "namespace"%string, StartsWithLetter);
   (Required, "ontology"%string, DictOf (Text Name) Entity);
   (Optional, "default_rel"%string, Text Qualified);
   (Optional, "author"%string, String);
   (Optional, "requirements"%string, ListOf (Text Name))].

(** ** Regular expressions mean their language *)
Inductive lang : re -> str -> Prop :=
| L_eps : lang Eps []
| L_chr p c : p c = true -> lang (Chr p) [c]
| L_seq a b s t : lang a s -> lang b t -> lang (Seq a b) (s ++ t)
| L_alt_l a b s : lang a s -> lang (Alt a b) s
| L_alt_r a b s : lang b s -> lang (Alt a b) s
| L_star_nil a : lang (Star a) []
| L_star_cons a s t : lang a s -> lang (Star a) t -> lang (Star a) (s ++ t).

(** inversion principles as equivalences *)
Lemma lang_seq a b s : lang (Seq a b) s <-> exists x y, s = x ++ y /\ lang a x /\ lang b y.
Proof. split; [intros H; inversion H; subst; eauto | intros (x & y & -> & H1 & H2); now constructor]. Qed.
Lemma lang_alt a b s : lang (Alt a b) s <-> lang a s \/ lang b s.
Proof. split; [intros H; inversion H; auto | intros [H|H]; [now apply L_alt_l|now apply L_alt_r]]. Qed.
Lemma lang_chr p s : lang (Chr p) s <-> exists c, s = [c] /\ p c = true.
Proof. split; [intros H; inversion H; eauto | intros (c & -> & H); now constructor]. Qed.
Lemma lang_eps s : lang Eps s <-> s = [].
Proof. split; [intros H; now inversion H | intros ->; constructor]. Qed.
Lemma lang_fail s : lang Fail s <-> False.
Proof. split; [intros H; inversion H | tauto]. Qed.
Lemma nullable_lang r : nullable r = true <-> lang r [].
Proof.
  induction r as [|p|a IHa b IHb|a IHa b IHb|a IHa|]; cbn.
  - split; [constructor|reflexivity].
  - split; [discriminate|intros H; inversion H].
  - rewrite andb_true_iff, IHa, IHb. split.
    + intros [H1 H2]. exact (L_seq a b [] [] H1 H2).
    + intros H. apply lang_seq in H as (x & y & E & H1 & H2). symmetry in E. apply app_eq_nil in E as [-> ->]. auto.
  - rewrite orb_true_iff, IHa, IHb. split.
    + intros [H|H]; [now apply L_alt_l|now apply L_alt_r].
    + intros H. inversion H; auto.
  - split; [constructor|reflexivity].
  - split; [discriminate|intros H; inversion H].
Qed.

Lemma star_cons_inv r c s : lang (Star r) (c :: s) ->
  exists s1 s2, s = s1 ++ s2 /\ lang r (c :: s1) /\ lang (Star r) s2.
Proof.
  intros H. remember (Star r) as q eqn:Eq. remember (c :: s) as w eqn:Ew. revert c s Ew.
  induction H as [| | | | | |a s1 s2 H1 _ H2 IH]; intros c0 s0 Ew; try discriminate.
  injection Eq as ->. destruct s1 as [|x s1].
  - cbn in Ew. apply IH; auto.
  - cbn in Ew. injection Ew as -> <-. exists s1, s2. auto.
Qed.

Lemma deriv_lang r c s : lang (deriv c r) s <-> lang r (c :: s).
Proof.
  revert s; induction r as [|p|a IHa b IHb|a IHa b IHb|a IHa|]; intros s; cbn.
  - split; intros H; inversion H.
  - split; intros H.
    + destruct (p c) eqn:E; inversion H; subst. now constructor.
    + apply lang_chr in H as (d & E & H). injection E as <- ->. rewrite H. constructor.
  - assert (G : lang (Seq (deriv c a) b) s <-> exists s1 s2, s = s1 ++ s2 /\ lang a (c :: s1) /\ lang b s2).
    { split.
      - intros H. apply lang_seq in H as (x & y & -> & H1 & H2). apply IHa in H1. eauto.
      - intros (s1 & s2 & -> & H1 & H2). constructor; [now apply IHa|exact H2]. }
    assert (K : lang (Seq a b) (c :: s) <->
       (exists s1 s2, s = s1 ++ s2 /\ lang a (c :: s1) /\ lang b s2) \/ (lang a [] /\ lang b (c :: s))).
    { rewrite lang_seq. split.
      - intros (x & y & E & H1 & H2). destruct x as [|x0 x]; cbn in E.
        + subst. auto.
        + injection E as <- ->. left. eauto.
      - rewrite <- lang_seq. intros [(s1 & s2 & -> & H1 & H2)|[H1 H2]].
        + exact (L_seq a b (c :: s1) s2 H1 H2).
        + exact (L_seq a b [] (c :: s) H1 H2). }
    rewrite K. destruct (nullable a) eqn:E.
    + split.
      * intros H. inversion H; subst; [left; now apply G|]. right. split; [now apply nullable_lang|now apply IHb].
      * intros [H|[_ H]]; [apply L_alt_l; now apply G|apply L_alt_r; now apply IHb].
    + rewrite G. split; [auto|]. intros [H|[H _]]; [auto|]. apply nullable_lang in H. congruence.
  - split; intros H; inversion H; subst.
    + apply L_alt_l. now apply IHa.
    + apply L_alt_r. now apply IHb.
    + apply L_alt_l. now apply IHa.
    + apply L_alt_r. now apply IHb.
  - split.
    + intros H. apply lang_seq in H as (x & y & -> & H1 & H2). apply IHa in H1.
      exact (L_star_cons a (c :: x) y H1 H2).
    + intros H. apply star_cons_inv in H as (s1 & s2 & -> & H1 & H2).
      constructor; [now apply IHa|exact H2].
  - split; intros H; inversion H.
Qed.

Lemma re_full_lang r s : re_full r s = true <-> lang r s.
Proof.
  revert r; induction s as [|c s IH]; intros r; cbn; [apply nullable_lang|].
  rewrite IH. apply deriv_lang.
Qed.
Lemma re_prefix_lang r s : re_prefix r s = true <-> exists s1 s2, s = s1 ++ s2 /\ lang r s1.
Proof.
  revert r; induction s as [|c s IH]; intros r; cbn.
  - rewrite orb_false_r, nullable_lang. split.
    + intros H. exists [], []. auto.
    + intros (s1 & s2 & E & H). symmetry in E. apply app_eq_nil in E as [-> ->]. exact H.
  - rewrite orb_true_iff, nullable_lang, IH. split.
    + intros [H|(s1 & s2 & -> & H)]; [exists [], (c :: s); auto|].
      exists (c :: s1), s2. split; [reflexivity|now apply deriv_lang].
    + intros (s1 & s2 & E & H). destruct s1 as [|x s1]; [auto|].
      injection E as <- ->. right. exists s1, s2. split; [reflexivity|now apply deriv_lang].
Qed.

Lemma lang_word w s : lang (word w) s <-> s = w.
Proof.
  revert s; induction w as [|c w IH]; intros s; cbn; [apply lang_eps|].
  rewrite lang_seq. split.
  - intros (x & y & -> & Hx & Hy). apply IH in Hy as ->. apply lang_chr in Hx as (d & -> & E).
    apply N.eqb_eq in E as ->. reflexivity.
  - intros ->. exists [c], w. repeat split; [|now apply IH]. apply lang_chr. exists c.
    split; [auto|apply N.eqb_refl].
Qed.
Lemma lang_alts l s : lang (Alts l) s <-> Exists (fun r => lang r s) l.
Proof.
  induction l as [|r l IH]; cbn.
  - rewrite lang_fail. split; [tauto|intros H; inversion H].
  - rewrite lang_alt, IH, Exists_cons. reflexivity.
Qed.
(** a star of one-character expressions *)
Lemma lang_star_chars r s (P : N -> Prop) :
  (forall t, lang r t <-> exists c, t = [c] /\ P c) ->
  lang (Star r) s <-> Forall P s.
Proof.
  intros H. split.
  - induction s as [|c s IH]; [constructor|]. intros Hs.
    apply star_cons_inv in Hs as (s1 & s2 & -> & H1 & H2).
    apply H in H1 as (d & [= <- ->] & Hd). constructor; auto.
  - induction s as [|c s IH]; [constructor|]. intros HF. inversion HF; subst.
    change (c :: s) with ([c] ++ s). constructor; [apply H; eauto | auto].
Qed.

Lemma letter_iff c : is_letter c = true <-> Letter c.
Proof. unfold is_letter, Letter. rewrite orb_true_iff, !andb_true_iff, !N.leb_le. tauto. Qed.
Lemma digit_iff c : is_digit c = true <-> Digit c.
Proof. unfold is_digit, Digit. rewrite andb_true_iff, !N.leb_le. tauto. Qed.

Lemma lang_digit s : lang digit s <-> exists c, s = [c] /\ Digit c.
Proof. unfold digit. rewrite lang_chr. split; intros (c & -> & H); exists c; (split; [auto|now apply digit_iff]). Qed.
Lemma lang_one c s : lang (chr c) s <-> s = [c].
Proof.
  unfold chr. rewrite lang_chr. split.
  - intros (d & -> & E). apply N.eqb_eq in E. now subst.
  - intros ->. exists c. split; [auto|apply N.eqb_refl].
Qed.
Lemma lang_digits s : lang (Plus digit) s <-> Digits s.
Proof.
  unfold Plus. rewrite lang_seq. split.
  - intros (x & y & -> & Hx & Hy). apply lang_digit in Hx as (c & -> & Hc).
    apply (lang_star_chars digit y Digit lang_digit) in Hy. split; [discriminate|constructor; auto].
  - intros [Hn HF]. destruct s as [|c s]; [congruence|]. inversion HF; subst.
    exists [c], s. split; [reflexivity|]. split; [apply lang_digit; eauto|].
    now apply (lang_star_chars digit s Digit lang_digit).
Qed.

Lemma lang_name s : lang name_re s <-> Name s.
Proof.
  unfold name_re. rewrite lang_seq.
  assert (HC : forall t, lang (Alts [letter; digit; chr 95]) t <-> exists c, t = [c] /\ NameChar c).
  { intros t. cbn. rewrite !lang_alt, lang_fail, lang_one, lang_digit. unfold letter. rewrite lang_chr. split.
    - intros [(c & -> & H)|[(c & -> & H)|[->|[]]]]; [exists c|exists c|exists 95%N]; (split; [auto|]); unfold NameChar.
      + left. now apply letter_iff.
      + auto.
      + auto.
    - intros (c & -> & [H|[H| ->]]); [left; exists c|right; left; exists c|auto]; auto.
      split; [auto|now apply letter_iff]. }
  split.
  - intros (x & y & -> & Hx & Hy). apply lang_chr in Hx as (c & -> & Hc). apply letter_iff in Hc.
    apply (lang_star_chars _ y NameChar HC) in Hy. exists c, y. auto.
  - intros (c & t & -> & Hc & Ht). exists [c], t. split; [reflexivity|].
    split; [apply lang_chr; exists c; split; [auto|now apply letter_iff]|now apply (lang_star_chars _ t NameChar HC)].
Qed.

Lemma lang_qualified s : lang qualified_re s <-> Qualified s.
Proof.
  unfold qualified_re, Qualified. rewrite lang_seq. split.
  - intros (x & y & -> & Hx & Hy). apply lang_seq in Hy as (d & z & -> & Hd & Hz).
    apply lang_one in Hd as ->. apply lang_name in Hx, Hz. exists x, z. auto.
  - intros (x & z & -> & Hx & Hz). exists x, (lit "." ++ z). apply lang_name in Hx, Hz.
    repeat split; auto. apply lang_seq. exists (lit "."), z. repeat split; auto. now apply lang_one.
Qed.

Lemma lang_version s : lang version_re s <-> Version s.
Proof.
  unfold version_re, Version. rewrite lang_seq. split.
  - intros (a & y & -> & Ha & Hy). apply lang_seq in Hy as (d & z & -> & Hd & Hz).
    apply lang_one in Hd as ->. apply lang_seq in Hz as (b & w & -> & Hb & Hw).
    apply lang_digits in Ha, Hb. unfold Opt in Hw. apply lang_alt in Hw as [Hw|Hw].
    + apply lang_seq in Hw as (d & c & -> & Hd & Hc). apply lang_one in Hd as ->. apply lang_digits in Hc.
      right. exists a, b, c. auto.
    + apply lang_eps in Hw as ->. left. exists a, b. rewrite app_nil_r. auto.
  - intros [(a & b & -> & Ha & Hb)|(a & b & c & -> & Ha & Hb & Hc)].
    + exists a, (lit "." ++ b). repeat split; [now apply lang_digits|]. apply lang_seq. exists (lit "."), b.
      repeat split; [now apply lang_one|]. apply lang_seq. exists b, []. rewrite app_nil_r.
      repeat split; [now apply lang_digits|]. apply lang_alt. right. apply lang_eps. reflexivity.
    + exists a, (lit "." ++ b ++ lit "." ++ c). repeat split; [now apply lang_digits|]. apply lang_seq.
      exists (lit "."), (b ++ lit "." ++ c). repeat split; [now apply lang_one|]. apply lang_seq.
      exists b, (lit "." ++ c). repeat split; [now apply lang_digits|]. apply lang_alt. left. apply lang_seq.
      exists (lit "."), c. repeat split; [now apply lang_one|now apply lang_digits].
Qed.

Lemma lang_words ws s : lang (Alts (map word ws)) s <-> In s ws.
Proof.
  rewrite lang_alts, Exists_exists. split.
  - intros (r & Hr & Hs). apply in_map_iff in Hr as (w & <- & Hw). apply lang_word in Hs. now subst.
  - intros H. exists (word s). split; [now apply in_map|now apply lang_word].
Qed.

Lemma lang_lengths s : lang (Star (Seq (chr 58) (Plus digit))) s <-> Lengths s.
Proof.
  split.
  - intros H. remember (Star (Seq (chr 58) (Plus digit))) as q eqn:Eq.
    induction H as [| | | | |a|a s t H1 _ H2 IH]; try discriminate; [constructor|].
    injection Eq as ->. apply lang_seq in H1 as (d & n & -> & Hd & Hn).
    apply lang_one in Hd as ->. apply lang_digits in Hn.
    change ([58%N]) with (lit ":"). rewrite <- app_assoc. constructor; auto.
  - intros H. induction H as [|n s Hn Hs IH]; [constructor|].
    rewrite app_assoc. constructor; [|exact IH]. apply lang_seq. exists (lit ":"), n.
    repeat split; [now apply lang_one|now apply lang_digits].
Qed.

Lemma lang_datatype s : lang datatype_re s <-> DatatypeText s.
Proof.
  unfold datatype_re, DatatypeText, Opt. rewrite lang_seq. split.
  - intros (v & y & -> & Hv & Hy). apply lang_seq in Hy as (d & l & -> & Hd & Hl).
    apply lang_words in Hd. apply lang_lengths in Hl. exists v, d, l. repeat split; auto.
    apply lang_alt in Hv as [Hv|Hv]; [apply lang_word in Hv|apply lang_eps in Hv]; auto.
  - intros (v & d & l & -> & Hv & Hd & Hl). exists v, (d ++ l). repeat split.
    + apply lang_alt. rewrite lang_word, lang_eps. tauto.
    + apply lang_seq. exists d, l. repeat split; [now apply lang_words|now apply lang_lengths].
Qed.

Lemma lang_cardinality s : lang cardinality_re s <-> Cardinality s.
Proof.
  unfold cardinality_re, Cardinality. cbn [Alts fold_right].
  rewrite !lang_alt, lang_fail, !lang_word, !lang_one, lang_digits, !lang_seq. cbn [map In]. split.
  - intros [->|[->|[->|[->|[->|[H|[H|[H|[]]]]]]]]]; auto 10.
    + destruct H as (n & p & -> & Hn & Hp). apply lang_digits in Hn. apply lang_one in Hp as ->.
      right. left. exists n. auto.
    + destruct H as (n & p & -> & Hn & Hp). apply lang_digits in Hn.
      apply lang_seq in Hp as (x & y & -> & Hx & Hy). apply lang_one in Hx as ->. apply lang_digit in Hy as (c & -> & Hc).
      right. right. exists n, c. auto.
    + right. left. exists s. auto.
  - intros [H|[(n & Hn & [->| ->])|(n & c & Hn & Hc & ->)]].
    + destruct H as [<-|[<-|[<-|[<-|[<-|[]]]]]]; auto 10.
    + auto 10.
    + do 5 right. left. exists n, (lit "+"). repeat split; [now apply lang_digits|now apply lang_one].
    + do 6 right. left. exists n, (lit "-" ++ [c]). repeat split; [now apply lang_digits|].
      apply lang_seq. exists (lit "-"), [c]. repeat split; [now apply lang_one|apply lang_digit; eauto].
Qed.

(** ** What a pattern accepts *)
Lemma forM_ok {A} (f : A -> res unit) l : forM f l = Ok tt <-> Forall (fun x => f x = Ok tt) l.
Proof.
  induction l as [|x l IH]; cbn; [split; auto|]. destruct (f x) as [[]|] eqn:E.
  - rewrite IH. split; [auto|]. intros H; inversion H; auto.
  - split; [discriminate|]. intros H; inversion H; congruence.
Qed.

(** the outcomes of a call with enough fuel *)
Definition decided (r : res unit) : Prop := r = Ok tt \/ r = Err ValueError.
Lemma forM_decided {A} (f : A -> res unit) l : Forall (fun x => decided (f x)) l -> decided (forM f l).
Proof.
  induction l as [|x l IH]; cbn; intros H; [left; reflexivity|]. inversion H as [|? ? Hx Hl]; subst.
  destruct Hx as [->| ->]; [auto|right; reflexivity].
Qed.

Definition named (p : pattern) : nat := match p with PName _ => 1 | _ => 0 end.

Lemma depth_list x l : In x l -> depth x < depth (YList l).
Proof.
  cbn [depth]. induction l as [|y l IH]; cbn; [tauto|]. intros [->|H]; [lia|]. specialize (IH H). lia.
Qed.
Lemma depth_dict k x l : In (k, x) l -> depth x < depth (YDict l).
Proof.
  cbn [depth]. induction l as [|y l IH]; cbn; [tauto|]. intros [->|H]; [cbn; lia|]. specialize (IH H). lia.
Qed.
Lemma lookup_In k l v : lookup k l = Some v -> In (SStr k, v) l.
Proof.
  induction l as [|[[] v'] l IH]; cbn; try discriminate; auto.
  destruct (str_eqb_spec k s) as [->|]; [intros [= ->]; auto|auto].
Qed.

Lemma format_alts n l p : format n = FAlts l -> In p l -> named p = 0.
Proof.
  destruct n; cbn; try discriminate. intros [= <-] H.
  repeat (destruct H as [<-|H]; [reflexivity|]). destruct H.
Qed.

Lemma count_errors_spec (f : pattern -> res unit) l : Forall (fun p => decided (f p)) l ->
  exists n, count_errors f l = Ok n /\ n <= List.length l /\
    (n = List.length l <-> Forall (fun p => f p <> Ok tt) l).
Proof.
  induction l as [|p l IH]; cbn; intros H.
  - exists 0. repeat split; auto.
  - inversion H as [|? ? Hp Hl]; subst. destruct (IH Hl) as (n & En & Hn & Hi).
    destruct Hp as [E|E]; rewrite E, En; cbn.
    + exists n. repeat split; [lia| |].
      * lia.
      * intros HF. inversion HF; congruence.
    + exists (S n). repeat split; [lia| |].
      * intros [= ->]. constructor; [rewrite E; discriminate|now apply Hi].
      * intros HF. inversion HF; subst. f_equal. now apply Hi.
Qed.

(** Validation always ends with acceptance or ValueError. *)
Theorem C45_always_decides : forall fuel d p,
  2 * depth d + named p < fuel -> decided (validate fuel d p).
Proof.
  induction fuel as [|fuel IH]; intros d p Hf; [lia|].
  destruct p as [|n|an r|q|kp vp|t]; cbn [validate].
  - left; reflexivity.
  - cbn [named] in Hf. destruct (format n) as [l|fs] eqn:E; cbn [validate_format].
    + assert (HF : Forall (fun p => decided (validate fuel d p)) l).
      { apply Forall_forall. intros p Hp. apply IH. rewrite (format_alts _ _ _ E Hp). lia. }
      destruct (count_errors_spec (validate fuel d) l HF) as (m & -> & _ & _).
      destruct (m =? List.length l); [right|left]; reflexivity.
    + destruct d as [s|l|kv]; try (right; reflexivity).
      match goal with |- decided (match ?x with _ => _ end) => assert (HD : decided x) end.
      { apply forM_decided, Forall_forall. intros [[req k] p] _.
        destruct (lookup k kv) as [v|] eqn:El; [|destruct req; [right|left]; reflexivity].
        apply IH. apply lookup_In, depth_dict in El. destruct p; cbn [named] in *; lia. }
      destruct HD as [->| ->]; [|right; reflexivity].
      apply forM_decided, Forall_forall. intros [[] v] _; try (right; reflexivity).
      destruct (existsb _ fs); [left|right]; reflexivity.
  - destruct d as [s| |]; try (right; reflexivity). destruct (scalar_text s); [|right; reflexivity].
    destruct (re_match an r s0); [left|right]; reflexivity.
  - destruct d as [s|l|kv]; try (right; reflexivity). apply forM_decided, Forall_forall. intros x Hx.
    apply IH. apply depth_list in Hx. destruct q; cbn [named] in *; lia.
  - destruct d as [s|l|kv]; try (right; reflexivity). apply forM_decided, Forall_forall. intros [k x] Hx.
    apply depth_dict in Hx.
    assert (HK : decided (validate fuel (YS k) kp)) by (apply IH; cbn [depth]; destruct kp; cbn [named] in *; lia).
    destruct HK as [->| ->]; [|right; reflexivity].
    apply IH. destruct vp; cbn [named] in *; lia.
  - destruct (call_ok t d); [left|right]; reflexivity.
Qed.

(** ** Meaning of the leaves *)
Lemma validate_re fuel d r (P : str -> Prop) : 0 < fuel -> (forall s, lang r s <-> P s) ->
  validate fuel d (PRe true r) = Ok tt <-> Text P d.
Proof.
  intros Hf HP. destruct fuel as [|fuel]; [lia|]. cbn [validate]. unfold Text.
  assert (HM : forall t, re_match true r t = true <-> P t \/ exists t', t = t' ++ [10%N] /\ P t').
  { intros t. unfold re_match. rewrite orb_true_iff, andb_true_iff, !re_full_lang, !HP. split.
    - intros [H|[H1 H2]]; [auto|right]. apply endswith_iff in H1 as [t' ->].
      rewrite before_suffix_app in H2. eauto.
    - intros [H|(t' & -> & H)]; [auto|right]. split; [apply endswith_iff; eauto|].
      change [10%N] with [lf]. now rewrite before_suffix_app. }
  destruct d as [s|l|kv].
  - destruct (scalar_text s) as [t|] eqn:Et.
    + destruct (re_match true r t) eqn:E.
      * split; [intros _|reflexivity]. exists s, t. repeat split; auto. now apply HM.
      * split; [discriminate|]. intros (s' & t' & [= <-] & Et' & H). apply HM in H. congruence.
    + split; [discriminate|]. intros (s' & t' & [= <-] & Et' & H). congruence.
  - split; [discriminate|]. intros (s' & t' & [=] & _).
  - split; [discriminate|]. intros (s' & t' & [=] & _).
Qed.
Lemma validate_prefix_name fuel d : 0 < fuel ->
  validate fuel d (PRe false name_re) = Ok tt <-> StartsWithLetter d.
Proof.
  intros Hf. destruct fuel as [|fuel]; [lia|]. cbn [validate]. unfold StartsWithLetter.
  assert (HM : forall t, re_match false name_re t = true <-> exists c t', t = c :: t' /\ Letter c).
  { intros t. unfold re_match. rewrite re_prefix_lang. split.
    - intros (s1 & s2 & -> & H). apply lang_name in H as (c & u & -> & Hc & _). cbn. eauto.
    - intros (c & t' & -> & Hc). exists [c], t'. split; [reflexivity|]. apply lang_name. exists c, []. auto. }
  destruct d as [s|l|kv].
  - destruct (scalar_text s) as [t|] eqn:Et.
    + destruct (re_match false name_re t) eqn:E.
      * split; [intros _|reflexivity]. apply HM in E as (c & t' & -> & Hc). exists s, c, t'. auto.
      * split; [discriminate|]. intros (s' & c & t' & [= <-] & Et' & H).
        assert (re_match false name_re t = true) by (apply HM; exists c, t'; split; [congruence|auto]). congruence.
    + split; [discriminate|]. intros (s' & c & t' & [= <-] & Et' & H). congruence.
  - split; [discriminate|]. intros (s' & c & t' & [=] & _).
  - split; [discriminate|]. intros (s' & c & t' & [=] & _).
Qed.
Lemma validate_str fuel d : 0 < fuel -> validate fuel d (PCall CStr) = Ok tt <-> String d.
Proof.
  intros Hf. destruct fuel as [|fuel]; [lia|]. cbn [validate]. unfold String.
  destruct d as [[]| |]; cbn; split; try discriminate; try (intros (x & [=])); eauto.
Qed.
Lemma validate_bool fuel d : 0 < fuel -> validate fuel d (PCall CBool) = Ok tt <-> Boolish d.
Proof.
  intros Hf. destruct fuel as [|fuel]; [lia|]. cbn [validate]. unfold Boolish.
  destruct d as [[|b|z|t [b|]|s|]|l|kv]; cbn [call_ok]; split; intros H; try discriminate; try reflexivity; eauto;
    repeat match goal with
    | H : _ \/ _ |- _ => destruct H as [H|H]
    | H : exists _, _ |- _ => destruct H as [? H]
    end; try discriminate; auto.
  - destruct ((z =? 0)%Z || (z =? 1)%Z) eqn:E; [|discriminate]. apply orb_true_iff in E as [E|E]; apply Z.eqb_eq in E; subst; auto.
  - injection H as ->. reflexivity.
  - injection H as ->. reflexivity.
  - do 3 right. eauto.
Qed.

Lemma validate_list fuel d p (P : yaml -> Prop) :
  (forall x, depth x < depth d -> validate fuel x p = Ok tt <-> P x) ->
  validate (S fuel) d (PList p) = Ok tt <-> ListOf P d.
Proof.
  intros HP. cbn [validate]. unfold ListOf. destruct d as [s|l|kv].
  - split; [discriminate|]. intros (l & [=] & _).
  - rewrite forM_ok. rewrite Forall_forall. split.
    + intros H. exists l. split; [auto|]. apply Forall_forall. intros x Hx. apply HP; [now apply depth_list|auto].
    + intros (l' & [= <-] & H) x Hx. rewrite Forall_forall in H. apply HP; [now apply depth_list|auto].
  - split; [discriminate|]. intros (l & [=] & _).
Qed.
Lemma validate_dict fuel d kp vp (K V : yaml -> Prop) :
  (forall k, validate fuel (YS k) kp = Ok tt <-> K (YS k)) ->
  (forall x, depth x < depth d -> validate fuel x vp = Ok tt <-> V x) ->
  validate (S fuel) d (PDict kp vp) = Ok tt <-> DictOf K V d.
Proof.
  intros HK HV. cbn [validate]. unfold DictOf. destruct d as [s|l|kv].
  - split; [discriminate|]. intros (l & [=] & _).
  - split; [discriminate|]. intros (l' & [=] & _).
  - rewrite forM_ok, Forall_forall. split.
    + intros H. exists kv. split; [auto|]. apply Forall_forall. intros [k x] Hx. specialize (H _ Hx). cbn in *.
      destruct (validate fuel (YS k) kp) as [[]|] eqn:E; [|discriminate].
      split; [now apply HK|apply HV; [now apply depth_dict in Hx|exact H]].
    + intros (l' & [= <-] & H) [k x] Hx. rewrite Forall_forall in H. destruct (H _ Hx) as [H1 H2]. cbn in *.
      apply HK in H1. rewrite H1. apply HV; [now apply depth_dict in Hx|exact H2].
Qed.

(** fields *)
Definition field_means (fuel : nat) (dp : nat) (f : bool * str * pattern) (g : Presence * string * (yaml -> Prop)) : Prop :=
  match f, g with
  | (req, k, p), (q, k', P) =>
      k = lit k' /\ (req = true <-> q = Required) /\
      forall x, depth x < dp -> validate fuel x p = Ok tt <-> P x
  end.
Lemma validate_fields fuel d fs gs :
  Forall2 (field_means fuel (depth d)) fs gs ->
  validate_format (validate fuel) d (FFields fs) = Ok tt <-> Fields gs d.
Proof.
  intros HFG. unfold validate_format, Fields. destruct d as [s|l|kv].
  - split; [discriminate|]. intros (l & [=] & _).
  - split; [discriminate|]. intros (l' & [=] & _).
  - assert (H1 : forM (fun '(req, k, p) =>
                  match lookup k kv with
                  | None => if (req : bool) then Err ValueError else Ok tt
                  | Some x => validate fuel x p
                  end) fs = Ok tt <->
       Forall (fun f : Presence * string * (yaml -> Prop) => match f with (q, k, P) =>
        match lookup (lit k) kv with
        | None => q = Optional
        | Some v => P v
        end end) gs).
    { rewrite forM_ok. induction HFG as [|[[req k] p] [[q k'] P] fs gs (-> & Hq & HP) HFG IH]; [split; constructor|].
      rewrite !Forall_cons_iff, IH.
      assert (HH : match lookup (lit k') kv with
                   | Some x => validate fuel x p
                   | None => if req then Err ValueError else Ok tt
                   end = Ok tt <-> match lookup (lit k') kv with Some v => P v | None => q = Optional end).
      { destruct (lookup (lit k') kv) as [v|] eqn:El.
        - apply HP. apply lookup_In, depth_dict in El. exact El.
        - destruct req; [split; [discriminate|]; destruct Hq as [Hq _]; rewrite (Hq eq_refl); discriminate|].
          split; [|reflexivity]. intros _. destruct q; [|reflexivity]. destruct Hq as [_ Hq]. specialize (Hq eq_refl). discriminate. }
      tauto. }
    assert (H2 : forM (fun '(k, _) =>
                      match k with
                      | SStr s => if existsb (fun '(_, k', _) => str_eqb s k') fs then Ok tt else Err ValueError
                      | _ => Err ValueError
                      end) kv = Ok tt <->
       Forall (fun kv0 : scalar * yaml => exists f, In f gs /\ fst kv0 = SStr (lit (snd (fst f)))) kv).
    { rewrite forM_ok. rewrite !Forall_forall.
      assert (HE : forall s, existsb (fun '(_, k', _) => str_eqb s k') fs = true <-> exists f, In f gs /\ s = lit (snd (fst f))).
      { clear -HFG. intros s. induction HFG as [|[[req k] p] [[q k'] P] fs gs (-> & _ & _) HFG IH]; cbn.
        - split; [discriminate|intros (f & [] & _)].
        - rewrite orb_true_iff, IH, str_eqb_eq. split.
          + intros [->|(f & Hf & ->)]; [exists (q, k', P); auto|exists f; auto].
          + intros (f & [<-|Hf] & ->); [auto|right; eauto]. }
      split.
      - intros H [k v] Hx. specialize (H _ Hx). cbn in *. destruct k; try discriminate.
        destruct (existsb _ fs) eqn:E; [|discriminate]. apply HE in E as (f & Hf & ->). eauto.
      - intros H [k v] Hx. destruct (H _ Hx) as (f & Hf & Ek). cbn in Ek. subst k.
        replace (existsb _ fs) with true; [reflexivity|]. symmetry. apply HE. eauto. }
    destruct (forM _ fs) as [[]|e] eqn:E1.
    + rewrite H2. split; [intros H; exists kv; repeat split; auto; now apply H1|].
      intros (l & [= <-] & _ & H). exact H.
    + split; [discriminate|]. intros (l & [= <-] & H & _). apply H1 in H. discriminate.
Qed.

Lemma validate_alts fuel d l : Forall (fun p => decided (validate fuel d p)) l ->
  validate_format (validate fuel) d (FAlts l) = Ok tt <-> Exists (fun p => validate fuel d p = Ok tt) l.
Proof.
  intros HD. cbn [validate_format].
  destruct (count_errors_spec (validate fuel d) l HD) as (n & -> & Hn & Hi).
  destruct (Nat.eqb_spec n (List.length l)) as [E|E].
  - split; [discriminate|]. intros H. apply Hi in E. apply Exists_exists in H as (p & Hp & H).
    rewrite Forall_forall in E. now apply E in Hp.
  - split; [|reflexivity]. intros _.
    destruct (Exists_dec (fun p => validate fuel d p = Ok tt) l) as [H|H]; auto.
    { intros p. destruct (validate fuel d p) as [[]|]; [left; reflexivity|right; discriminate]. }
    exfalso. apply E, Hi. apply Forall_forall. intros p Hp Hv. apply H. apply Exists_exists. eauto.
Qed.

(** ** Class expressions *)
Lemma RelExpr_fields d : RelExpr d <-> Fields
  [(Required, "range"%string, ClassExpr); (Optional, "cardinality"%string, Text Cardinality);
   (Optional, "exclusive"%string, Boolish)] d.
Proof.
  unfold Fields. split.
  - intros H. inversion H as [l target H1 H2 H3 H4 H5]; subst. exists l. split; [auto|]. split.
    + repeat constructor.
      * now rewrite H1.
      * destruct (lookup (lit "cardinality") l) eqn:E; [apply H3; auto|auto].
      * destruct (lookup (lit "exclusive") l) eqn:E; [apply H4; auto|auto].
    + rewrite Forall_forall in *. intros kv Hkv. specialize (H5 kv Hkv). cbn in H5.
      destruct H5 as [E|[E|[E|[]]]]; rewrite <- E; [exists (Required, "range"%string, ClassExpr)|exists (Optional, "cardinality"%string, Text Cardinality)|exists (Optional, "exclusive"%string, Boolish)]; cbn; auto.
  - intros (l & -> & HF & HK). inversion HF as [|? ? F1 HF1]; subst. inversion HF1 as [|? ? F2 HF2]; subst.
    inversion HF2 as [|? ? F3 _]; subst.
    destruct (lookup (lit "range") l) as [t|] eqn:E; [|discriminate].
    apply (RE l t); auto.
    + intros c Hc. now rewrite Hc in F2.
    + intros c Hc. now rewrite Hc in F3.
    + rewrite Forall_forall in *. intros kv Hkv. destruct (HK kv Hkv) as (f & Hf & ->).
      repeat (destruct Hf as [<-|Hf]; [cbn; auto|]). destruct Hf.
Qed.

Lemma ClassExpr_alts d : ClassExpr d <->
  Text Qualified d \/ DictOf (Text Qualified) RelExpr d \/
  DictOf (Text (fun s => s = lit "or" \/ s = lit "and")) (ListOf ClassExpr) d \/
  DictOf (Text (fun s => s = lit "not")) ClassExpr d.
Proof.
  unfold DictOf, ListOf. split.
  - intros H. inversion H; subst; eauto 10.
  - intros [H|[(l & -> & H)|[(l & -> & H)|(l & -> & H)]]].
    + now apply CE_name.
    + now apply CE_rel.
    + now apply CE_or_and.
    + now apply CE_not.
Qed.

Lemma lang_or_and s : lang or_and_re s <-> s = lit "or" \/ s = lit "and".
Proof. unfold or_and_re. cbn [Alts fold_right]. rewrite !lang_alt, lang_fail, !lang_word. tauto. Qed.
Lemma lang_not s : lang not_re s <-> s = lit "not".
Proof. apply lang_word. Qed.

Ltac field :=
  split; [reflexivity|split; [split; (reflexivity || discriminate)|]].

Lemma validate_exprs n : forall fuel d, depth d <= n -> 2 * depth d + 1 < fuel ->
  (validate fuel d (PName FClassExpr) = Ok tt <-> ClassExpr d) /\
  (validate fuel d (PName FRelExpr) = Ok tt <-> RelExpr d).
Proof.
  induction n as [n IH] using lt_wf_ind. intros fuel d Hd Hf.
  destruct fuel as [|fuel]; [lia|].
  assert (HX : forall f x, depth x < depth d -> 2 * depth x + 1 < f ->
     (validate f x (PName FClassExpr) = Ok tt <-> ClassExpr x) /\
     (validate f x (PName FRelExpr) = Ok tt <-> RelExpr x)).
  { intros f x Hx Hfx. apply (IH (depth x)); lia. }
  split.
  - cbn [validate format]. rewrite validate_alts.
    2: { apply Forall_forall. intros p Hp. apply C45_always_decides.
         repeat (destruct Hp as [<-|Hp]; [cbn [named qualified_p]; lia|]). destruct Hp. }
    rewrite !Exists_cons, Exists_nil, ClassExpr_alts.
    destruct fuel as [|f]; [lia|].
    unfold qualified_p at 1. rewrite (validate_re (S f) d qualified_re Qualified) by (lia || apply lang_qualified).
    assert (HK : depth d = 0 \/ 0 < f) by lia.
    assert (HD : depth d = 0 -> forall kp vp K V, validate (S f) d (PDict kp vp) = Ok tt <-> DictOf K V d).
    { intros E0 kp vp K V. destruct d; cbn in E0; try discriminate. cbn. split; [discriminate|].
      intros (l & [=] & _). }
    assert (H1 : validate (S f) d (PDict qualified_p (PName FRelExpr)) = Ok tt <-> DictOf (Text Qualified) RelExpr d).
    { destruct HK as [HK|HK]; [auto|]. apply validate_dict.
      - intros k. apply validate_re; [lia|apply lang_qualified].
      - intros x Hx. apply HX; lia. }
    assert (H2 : validate (S f) d (PDict (PRe true or_and_re) ces_p) = Ok tt <->
              DictOf (Text (fun s => s = lit "or" \/ s = lit "and")) (ListOf ClassExpr) d).
    { destruct HK as [HK|HK]; [auto|]. apply validate_dict.
      - intros k. apply validate_re; [lia|apply lang_or_and].
      - intros x Hx. destruct f as [|f]; [lia|]. apply validate_list. intros y Hy. apply HX; lia. }
    assert (H3 : validate (S f) d (PDict (PRe true not_re) (PName FClassExpr)) = Ok tt <->
              DictOf (Text (fun s => s = lit "not")) ClassExpr d).
    { destruct HK as [HK|HK]; [auto|]. apply validate_dict.
      - intros k. apply validate_re; [lia|apply lang_not].
      - intros x Hx. apply HX; lia. }
    rewrite H1, H2, H3. tauto.
  - cbn [validate format]. rewrite RelExpr_fields. apply validate_fields.
    destruct (Nat.eq_dec (depth d) 0) as [E0|E0].
    { repeat (constructor; [field; intros; lia|]). constructor. }
    repeat (constructor; [field; intros x Hx|]); [..|constructor].
    + apply HX; lia.
    + apply validate_re; [lia|apply lang_cardinality].
    + apply validate_bool; lia.
Qed.

Lemma validate_ce fuel d : 2 * depth d + 1 < fuel ->
  validate fuel d (PName FClassExpr) = Ok tt <-> ClassExpr d.
Proof. intros H. apply (validate_exprs (depth d)); auto. Qed.

Lemma validate_ces fuel d : 2 * depth d + 1 < fuel ->
  validate fuel d ces_p = Ok tt <-> ListOf ClassExpr d.
Proof.
  intros H. destruct fuel as [|fuel]; [lia|]. apply validate_list. intros x Hx. apply validate_ce. lia.
Qed.

Lemma validate_entity fuel d : 2 * depth d + 1 < fuel ->
  validate fuel d (PName FEntity) = Ok tt <-> Entity d.
Proof.
  intros Hf. destruct fuel as [|fuel]; [lia|]. cbn [validate format]. apply validate_fields.
  destruct (Nat.eq_dec (depth d) 0) as [E0|E0].
  { repeat (constructor; [field; intros; lia|]). constructor. }
  repeat (constructor; [field; intros x Hx|]); [..|constructor].
  - apply validate_str; lia.
  - apply validate_ces; lia.
  - destruct fuel as [|fuel]; [lia|]. apply validate_dict.
    + intros k. apply validate_re; [lia|apply lang_qualified].
    + intros y Hy. destruct fuel; [lia|]. cbn. tauto.
  - apply validate_ces; lia.
  - apply validate_ces; lia.
  - apply validate_re; [lia|apply lang_qualified].
  - apply validate_bool; lia.
  - apply validate_ce; lia.
  - apply validate_ce; lia.
  - destruct fuel as [|fuel]; [lia|]. apply validate_list. intros y Hy. apply validate_re; [lia|].
    apply lang_words.
  - apply validate_re; [lia|apply lang_datatype].
Qed.

(** ** C45 *)

(** [validate(doc)] accepts exactly the documents of the grammar, and raises
    ValueError for all others. *)
Theorem C45_validate_iff_grammar : forall d fuel, enough d <= fuel ->
  (validate fuel d (PName FRoot) = Ok tt <-> Document d) /\
  (validate fuel d (PName FRoot) = Err ValueError <-> ~ Document d).
Proof.
  intros d fuel Hf. unfold enough in Hf.
  assert (H1 : validate fuel d (PName FRoot) = Ok tt <-> Document d).
  { destruct fuel as [|fuel]; [lia|]. cbn [validate format]. apply validate_fields.
    destruct (Nat.eq_dec (depth d) 0) as [E0|E0].
    { repeat (constructor; [field; intros; lia|]). constructor. }
    repeat (constructor; [field; intros x Hx|]); [..|constructor].
    - apply validate_re; [lia|apply lang_version].
    - apply validate_prefix_name; lia.
    - destruct fuel as [|fuel]; [lia|]. apply validate_dict.
      + intros k. apply validate_re; [lia|apply lang_name].
      + intros y Hy. apply validate_entity; lia.
    - apply validate_re; [lia|apply lang_qualified].
    - apply validate_str; lia.
    - destruct fuel as [|fuel]; [lia|]. apply validate_list. intros y Hy. apply validate_re; [lia|apply lang_name]. }
  split; [exact H1|]. rewrite <- H1.
  destruct (C45_always_decides fuel d (PName FRoot)) as [E|E]; [cbn; lia| |]; rewrite E; split; try discriminate; try tauto; intros H; try congruence.
Qed.

(** Entities, with any mix of class, relationship and attribute keys. *)
Theorem C45_entity_iff_grammar : forall d fuel, enough d <= fuel ->
  validate fuel d (PName FEntity) = Ok tt <-> Entity d.
Proof. intros d fuel Hf. unfold enough in Hf. apply validate_entity. lia. Qed.
Theorem C45_class_expression_iff_grammar : forall d fuel, enough d <= fuel ->
  validate fuel d (PName FClassExpr) = Ok tt <-> ClassExpr d.
Proof. intros d fuel Hf. unfold enough in Hf. apply validate_ce. lia. Qed.

(** ** Where the format is wider or narrower than its intention *)
Definition ystr (s : string) : yaml := YS (SStr (lit s)).
(** an anchored-looking namespace name is only checked at its first character *)
Theorem C45_namespace_name_refuted :
  ~ (forall d l ns, d = YDict l -> Document d -> lookup (lit "namespace") l = Some ns -> Text Name ns).
Proof.
  intros H.
  set (l := [(SStr (lit "version"), ystr "1.0"); (SStr (lit "namespace"), ystr "a b"); (SStr (lit "ontology"), YDict [])]).
  assert (HD : Document (YDict l)).
  { apply (C45_validate_iff_grammar (YDict l) 10); [cbn; lia|]. vm_compute. reflexivity. }
  specialize (H _ l (ystr "a b") eq_refl HD eq_refl).
  apply (validate_re 1 _ name_re Name) in H; [|lia|apply lang_name]. vm_compute in H. discriminate.
Qed.
(** cardinality "1-9" is accepted, "1-10" is not; an empty dictionary is a class
    expression; a vector of vectors is a datatype *)
Example C45_oddities :
  validate 5 (ystr "1-9") (PRe true cardinality_re) = Ok tt /\
  validate 5 (ystr "1-10") (PRe true cardinality_re) = Err ValueError /\
  validate 5 (YDict []) (PName FClassExpr) = Ok tt /\
  validate 5 (ystr "VECTOR:VECTOR:3") (PRe true datatype_re) = Ok tt /\
  validate 5 (ystr "VECTOR:FLOAT") (PRe true datatype_re) = Ok tt /\
  validate 5 (ystr "UUID") (PRe true datatype_re) = Err ValueError /\
  validate 5 (YS (SBool true)) name_p = Ok tt.
Proof. repeat split; vm_compute; reflexivity. Qed.

(** a document with nested class expressions *)
Definition exDoc : yaml := YDict
  [(SStr (lit "version"), YS (SFloat (lit "0.1") None));
   (SStr (lit "namespace"), ystr "city");
   (SStr (lit "author"), ystr "me");
   (SStr (lit "ontology"), YDict
     [(SStr (lit "hasPart"), YDict [(SStr (lit "subclass_of"), YList [ystr "cuba.activeRelationship"]);
                                     (SStr (lit "inverse"), ystr "city.isPartOf")]);
      (SStr (lit "City"), YDict [(SStr (lit "subclass_of"), YList
          [ystr "cuba.Entity";
           YDict [(SStr (lit "or"), YList [YDict [(SStr (lit "not"), ystr "city.Town")];
              YDict [(SStr (lit "city.hasPart"), YDict [(SStr (lit "range"), ystr "city.House");
                                                         (SStr (lit "cardinality"), YS (SInt 2))])]])]])])])].
Example C45_example : Document exDoc /\ ~ Document (YDict [(SStr (lit "version"), ystr "1.0")]).
Proof.
  split.
  - apply (C45_validate_iff_grammar exDoc 30); [cbn; lia|]. vm_compute. reflexivity.
  - apply (C45_validate_iff_grammar _ 10); [cbn; lia|]. vm_compute. reflexivity.
Qed.

Print Assumptions C45_always_decides.
Print Assumptions C45_validate_iff_grammar.
Print Assumptions C45_entity_iff_grammar.
Print Assumptions C45_class_expression_iff_grammar.
Print Assumptions C45_namespace_name_refuted.
