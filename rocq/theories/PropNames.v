(** C44: old ALL_CAPS entity names and their camel-case form. *)
From Coq Require Import List Arith NArith Lia Bool String.
From Verif Require Import Prelude Utf8 Text Names.
Import ListNotations.
Local Open Scope nat_scope.
Local Open Scope list_scope.

(** ** Specification *)

(** the characters of old names: A-Z, 0-9, "_" (yaml2camelcase.py:20) *)
Definition old_char (c : N) : Prop :=
  (65 <= c <= 90)%N \/ (48 <= c <= 57)%N \/ c = 95%N.
Definition old_first (c : N) : Prop := (65 <= c <= 90)%N \/ c = 95%N.

(** every "_" inside the name is followed by an upper-case letter *)
Definition words_ok (s : str) : Prop :=
  forall a b, s = a ++ 95%N :: b -> exists c b', b = c :: b' /\ (65 <= c <= 90)%N.

(** some letter of [s] does not directly follow a "_" *)
Definition inner_letter (s : str) : Prop :=
  exists a x b, s = a ++ x :: b /\ (65 <= x <= 90)%N /\
    (a = [] \/ exists a' y, a = a' ++ [y] /\ y <> 95%N).

(** equal up to case and underscores *)
Definition norm (s : str) : str := filter (fun c => negb (c =? 95)%N) (lower s).

(** ** Characters *)
Lemma is_upper_iff c : is_upper c = true <-> (65 <= c <= 90)%N.
Proof. unfold is_upper. rewrite andb_true_iff, !N.leb_le. tauto. Qed.
Lemma is_lower_iff c : is_lower c = true <-> (97 <= c <= 122)%N.
Proof. unfold is_lower. rewrite andb_true_iff, !N.leb_le. tauto. Qed.
Ltac chars :=
  repeat match goal with
  | |- context [is_upper ?c] => let H := fresh in destruct (is_upper c) eqn:H; [apply is_upper_iff in H | apply Bool.not_true_iff_false in H; rewrite is_upper_iff in H]
  | |- context [is_lower ?c] => let H := fresh in destruct (is_lower c) eqn:H; [apply is_lower_iff in H | apply Bool.not_true_iff_false in H; rewrite is_lower_iff in H]
  end.
Lemma up1_not_lower c : is_lower (up1 c) = false.
Proof. unfold up1. destruct (is_lower c) eqn:E; [|exact E].
  apply is_lower_iff in E. apply not_true_iff_false. rewrite is_lower_iff. lia. Qed.
Lemma low1_not_upper c : is_upper (low1 c) = false.
Proof. unfold low1. destruct (is_upper c) eqn:E; [|exact E].
  apply is_upper_iff in E. apply not_true_iff_false. rewrite is_upper_iff. lia. Qed.
Lemma up1_low1 c : old_char c -> up1 (low1 c) = c.
Proof.
  unfold old_char. intros H. unfold low1. destruct (is_upper c) eqn:E.
  - apply is_upper_iff in E. unfold up1. chars; lia.
  - apply not_true_iff_false in E. rewrite is_upper_iff in E. unfold up1. chars; lia.
Qed.
Lemma up1_old c : old_char c -> up1 c = c.
Proof. unfold old_char, up1. intros H. chars; lia. Qed.
Lemma up1_up1 c : up1 (up1 c) = up1 c.
Proof. unfold up1 at 1. rewrite up1_not_lower. reflexivity. Qed.
Lemma up1_us c : up1 c = 95%N -> c = 95%N.
Proof. unfold up1. chars; lia. Qed.
Lemma low1_us c : low1 c = 95%N -> c = 95%N.
Proof. unfold low1. chars; lia. Qed.
Lemma low1_up1 c : low1 (up1 c) = low1 c.
Proof.
  unfold up1. destruct (is_lower c) eqn:E; [|reflexivity].
  apply is_lower_iff in E. unfold low1. chars; lia.
Qed.
Lemma low1_low1 c : low1 (low1 c) = low1 c.
Proof. unfold low1 at 1. rewrite low1_not_upper. reflexivity. Qed.
Lemma is_upper_old_first c : old_first c -> old_char c.
Proof. unfold old_first, old_char. lia. Qed.

(** ** The two loops *)
Lemma camel_tail_no_us b s : ~ In 95%N (camel_tail b s).
Proof.
  revert b; induction s as [|c s IH]; intros b; cbn; [tauto|].
  unfold underscore. destruct (N.eqb_spec c 95) as [->|Hc]; [apply IH|].
  destruct b; cbn; intros [H|H]; try (now apply IH in H).
  - now apply up1_us in H.
  - now apply low1_us in H.
Qed.

Lemma words_ok_nil : words_ok [].
Proof. intros a b H. destruct a; discriminate. Qed.
Lemma words_ok_cons c s : c <> 95%N -> words_ok s -> words_ok (c :: s).
Proof.
  intros Hc H a b E. destruct a as [|y a]; [injection E; congruence|].
  injection E as -> ->. eapply H; reflexivity.
Qed.
Lemma words_ok_tail c s : words_ok (c :: s) -> words_ok s.
Proof. intros H a b ->. apply (H (c :: a) b eq_refl). Qed.

Lemma words_ok_us_cons c s : (65 <= c <= 90)%N -> words_ok (c :: s) -> words_ok (95%N :: c :: s).
Proof.
  intros Hc H a b E. destruct a as [|y a].
  - injection E as <-. eauto.
  - injection E as <- E. eapply H; eassumption.
Qed.

Lemma upper_snake_words t : ~ In 95%N t -> words_ok (upper (snake t)).
Proof.
  induction t as [|x t IH]; cbn; intros H; [apply words_ok_nil|].
  assert (Hx : up1 x <> 95%N) by (intros E; apply up1_us in E; auto).
  destruct (is_upper x) eqn:E; cbn.
  - apply words_ok_us_cons; [|apply words_ok_cons; auto].
    apply is_upper_iff in E. unfold up1. chars; lia.
  - apply words_ok_cons; auto.
Qed.

Lemma snake_lower t : existsb is_upper t = false -> snake t = t.
Proof.
  induction t as [|x t IH]; cbn; intros H; [reflexivity|].
  apply orb_false_iff in H as [-> H2]. now rewrite IH.
Qed.

Lemma upper_snake_camel s : Forall old_char s -> words_ok s ->
  upper (snake (camel_tail false s)) = s.
Proof.
  remember (List.length s) as n eqn:Hn. revert s Hn.
  induction n as [n IH] using lt_wf_ind; intros s Hn HF HW.
  destruct s as [|c s]; [reflexivity|].
  inversion HF as [|? ? Hc HF']; subst. cbn [camel_tail]. unfold underscore.
  destruct (N.eqb_spec c 95) as [->|Hne].
  - destruct (HW [] s eq_refl) as (d & s' & -> & Hd).
    inversion HF' as [|? ? Hd' HF'']; subst. cbn [camel_tail]. unfold underscore.
    destruct (N.eqb_spec d 95) as [->|]; [lia|].
    rewrite (up1_old d Hd'). cbn [snake]. replace (is_upper d) with true by (symmetry; now apply is_upper_iff).
    cbn [upper map]. rewrite (up1_old d Hd'). f_equal. f_equal.
    eapply IH; [|reflexivity| |]; cbn in *; [lia | auto |].
    eapply words_ok_tail, words_ok_tail, HW.
  - cbn [snake]. rewrite low1_not_upper. cbn [upper map]. rewrite up1_low1 by auto. f_equal.
    eapply IH; [|reflexivity| |]; cbn in *; [lia | auto |]. eapply words_ok_tail, HW.
Qed.

Lemma upper_upper s : upper (upper s) = upper s.
Proof. unfold upper. rewrite map_map. apply map_ext. intros; apply up1_up1. Qed.

Lemma upper_camel_nous s : Forall old_char s -> ~ In 95%N s -> upper (camel_tail false s) = s.
Proof.
  induction s as [|c s IH]; cbn; intros HF H; [reflexivity|].
  inversion HF; subst. unfold underscore.
  destruct (N.eqb_spec c 95) as [->|Hc]; [exfalso; auto|].
  cbn. rewrite up1_low1 by auto. f_equal. auto.
Qed.

Lemma In_upper_us t : In 95%N (upper t) -> In 95%N t.
Proof. unfold upper. rewrite in_map_iff. intros (x & Hx & Hi). apply up1_us in Hx. now subst. Qed.

(** an upper-case letter in the result comes from a letter after "_" *)
Lemma camel_has_upper s : words_ok s -> In 95%N s -> existsb is_upper (camel_tail false s) = true.
Proof.
  induction s as [|c s IH]; cbn; intros HW Hin; [tauto|].
  unfold underscore. destruct (N.eqb_spec c 95) as [->|Hc].
  - destruct (HW [] s eq_refl) as (d & s' & -> & Hd). cbn. unfold underscore.
    destruct (N.eqb_spec d 95); [lia|]. cbn.
    apply orb_true_iff; left. apply is_upper_iff. unfold up1. chars; lia.
  - cbn. destruct Hin as [->|Hin]; [congruence|].
    rewrite IH; [apply orb_true_r | eapply words_ok_tail; eassumption | auto].
Qed.

Lemma camel_has_lower_gen nu s : Forall old_char s ->
  existsb is_lower (camel_tail nu s) = true <->
  exists a x b, s = a ++ x :: b /\ (65 <= x <= 90)%N /\
    ((a = [] /\ nu = false) \/ exists a' y, a = a' ++ [y] /\ y <> 95%N).
Proof.
  revert nu; induction s as [|c s IH]; intros nu HF; cbn.
  - split; [discriminate|]. intros (a & x & b & E & _). destruct a; discriminate.
  - inversion HF as [|? ? Hc HF']; subst. unfold underscore.
    destruct (N.eqb_spec c 95) as [->|Hne].
    + rewrite IH by auto. split.
      * intros (a & x & b & -> & Hx & H). exists (95%N :: a), x, b. repeat split; try lia.
        right. destruct H as [[-> H]|(a' & y & -> & Hy)]; [discriminate|].
        exists (95%N :: a'), y. auto.
      * intros (a & x & b & E & Hx & H). destruct a as [|z a]; [injection E as <- <-; lia|].
        injection E as <- ->. exists a, x, b. repeat split; try lia.
        right. destruct H as [[H _]|(a' & y & Ha & Hy)]; [discriminate|].
        destruct a' as [|z a']; [injection Ha as <- ->; congruence|].
        injection Ha as <- ->. eauto.
    + assert (Hshift : existsb is_lower (camel_tail false s) = true ->
         exists a x b, c :: s = a ++ x :: b /\ (65 <= x <= 90)%N /\
           (exists a' y, a = a' ++ [y] /\ y <> 95%N)).
      { rewrite IH by auto. intros (a & x & b & -> & Hx & H). exists (c :: a), x, b.
        repeat split; try lia. destruct H as [[-> _]|(a' & y & -> & Hy)].
        - exists [], c. auto.
        - exists (c :: a'), y. auto. }
      assert (Hback : forall a x b, c :: s = a ++ x :: b -> a <> [] -> (65 <= x <= 90)%N ->
         (exists a' y, a = a' ++ [y] /\ y <> 95%N) -> existsb is_lower (camel_tail false s) = true).
      { intros a x b E Hn Hx (a' & y & -> & Hy). rewrite IH by auto.
        destruct a' as [|z a']; cbn in E.
        - injection E as <- ->. exists [], x, b. auto.
        - injection E as <- ->. exists (a' ++ [y]), x, b. repeat split; try lia. right. eauto. }
      destruct nu; cbn; rewrite ?up1_not_lower; cbn.
      * split.
        -- intros H. destruct (Hshift H) as (a & x & b & E & Hx & Ha). exists a, x, b. auto.
        -- intros (a & x & b & E & Hx & [[_ H]|Ha]); [discriminate|].
           eapply Hback; eauto. destruct Ha as (a' & y & -> & _). destruct a'; discriminate.
      * rewrite orb_true_iff. split.
        -- intros [H|H].
           ++ exists [], c, s. repeat split; auto; unfold low1 in H;
                destruct (is_upper c) eqn:E; try (apply is_upper_iff in E; lia);
                apply is_lower_iff in H; unfold old_char in Hc; lia.
           ++ destruct (Hshift H) as (a & x & b & E & Hx & Ha). exists a, x, b. auto.
        -- intros (a & x & b & E & Hx & [[-> _]|Ha]).
           ++ injection E as <- <-. left. apply is_lower_iff. unfold low1.
              replace (is_upper c) with true by (symmetry; now apply is_upper_iff). lia.
           ++ right. eapply Hback; eauto. destruct Ha as (a' & y & -> & _). destruct a'; discriminate.
Qed.

Lemma camel_has_lower s : Forall old_char s ->
  existsb is_lower (camel_tail false s) = true <-> inner_letter s.
Proof.
  intros H. rewrite camel_has_lower_gen by auto. unfold inner_letter.
  split; intros (a & x & b & H1 & H2 & [H3|H3]); exists a, x, b; tauto.
Qed.

(** ** C44 *)

(** An ontology installed with the old name [c :: s]; a program written for the
    converted name asks for it.  The alternative that is tried is the old name
    exactly when every inner "_" is followed by a letter and, if there is a "_",
    the converted name contains a lower-case letter. *)
Theorem C44_old_name_found_iff : forall caps c s w,
  old_first c -> Forall old_char s ->
  camel_local caps (c :: s) = Ok w ->
  alt w false = Ok (Some (c :: s)) <->
  words_ok s /\ (In 95%N s -> (caps = false /\ c <> 95%N) \/ inner_letter s).
Proof.
  intros caps c s w Hc HF [= <-].
  set (c' := if caps then up1 c else low1 c).
  assert (Hup : up1 c' = c).
  { unfold c'. destruct caps; [rewrite up1_up1, up1_old|rewrite up1_low1]; auto using is_upper_old_first. }
  assert (Hlow : is_lower c' = true <-> caps = false /\ c <> 95%N).
  { unfold c'. destruct caps; [rewrite up1_not_lower; split; [discriminate|intros [? _]; discriminate]|].
    rewrite is_lower_iff. unfold low1. unfold old_first in Hc. chars; split; intros; lia. }
  cbn [alt]. cbn [existsb negb andb].
  destruct (is_lower c' || existsb is_lower (camel_tail false s)) eqn:EL;
  destruct (is_upper c' || existsb is_upper (camel_tail false s)) eqn:EU; cbn [andb].
  - cbn [upper map]. rewrite up1_up1, Hup. fold (upper (snake (camel_tail false s))). split.
    + intros [= E]. split.
      * rewrite <- E. apply upper_snake_words, camel_tail_no_us.
      * intros _. apply orb_true_iff in EL as [EL|EL]; [left; tauto | right; now apply camel_has_lower].
    + intros [HW _]. rewrite upper_snake_camel; auto.
  - cbn [upper map]. rewrite Hup. fold (upper (camel_tail false s)). split.
    + intros [= E]. assert (Hno : ~ In 95%N s).
      { rewrite <- E. intros Hi. apply In_upper_us in Hi. now apply camel_tail_no_us in Hi. }
      split; [|intros; contradiction]. intros a b ->. exfalso. apply Hno, in_app_iff. cbn; auto.
    + intros [HW _]. assert (Hno : ~ In 95%N s).
      { intros Hi. apply camel_has_upper in Hi; auto. rewrite Hi, orb_true_r in EU. discriminate. }
      rewrite upper_camel_nous; auto.
  - cbn [upper map]. rewrite Hup. fold (upper (camel_tail false s)). split.
    + intros [= E]. assert (Hno : ~ In 95%N s).
      { rewrite <- E. intros Hi. apply In_upper_us in Hi. now apply camel_tail_no_us in Hi. }
      split; [|intros; contradiction]. intros a b ->. exfalso. apply Hno, in_app_iff. cbn; auto.
    + intros [HW HL]. destruct (in_dec N.eq_dec 95%N s) as [Hi|Hno].
      * exfalso. apply orb_false_iff in EL as [EL1 EL2].
        destruct (HL Hi) as [H|H]; [apply Hlow in H; congruence|].
        apply camel_has_lower in H; auto; congruence.
      * rewrite upper_camel_nous; auto.
  - cbn [upper map]. rewrite Hup. fold (upper (camel_tail false s)). split.
    + intros [= E]. assert (Hno : ~ In 95%N s).
      { rewrite <- E. intros Hi. apply In_upper_us in Hi. now apply camel_tail_no_us in Hi. }
      split; [|intros; contradiction]. intros a b ->. exfalso. apply Hno, in_app_iff. cbn; auto.
    + intros [HW HL]. assert (Hno : ~ In 95%N s).
      { intros Hi. apply camel_has_upper in Hi; auto. rewrite Hi, orb_true_r in EU. discriminate. }
      rewrite upper_camel_nous; auto.
Qed.

(** The unconditional claim is false: a digit after "_", and one-letter words. *)
Theorem C44_old_name_found_refuted :
  ~ (forall caps c s w, old_first c -> Forall old_char s ->
       camel_local caps (c :: s) = Ok w -> alt w false = Ok (Some (c :: s))).
Proof.
  intros H. specialize (H true 65%N (lit "_1") (lit "A1")).
  assert (E : alt (lit "A1") false = Ok (Some (lit "A_1"))).
  { apply H; [left; lia | | reflexivity].
    repeat constructor; unfold old_char; cbn; lia. }
  vm_compute in E. discriminate.
Qed.

(** Conversion keeps different (well-formed) names different, so converting an
    ontology merges no two of its entities. *)
Theorem C44_conversion_injective : forall caps1 caps2 c1 s1 c2 s2 w,
  old_first c1 -> Forall old_char s1 -> words_ok s1 ->
  old_first c2 -> Forall old_char s2 -> words_ok s2 ->
  camel_local caps1 (c1 :: s1) = Ok w -> camel_local caps2 (c2 :: s2) = Ok w ->
  c1 :: s1 = c2 :: s2.
Proof.
  intros caps1 caps2 c1 s1 c2 s2 w H1 F1 W1 H2 F2 W2 [= <-] [= E1 E2].
  f_equal.
  - apply (f_equal up1) in E1. apply is_upper_old_first in H1, H2.
    destruct caps1, caps2; rewrite ?up1_up1, ?up1_low1, ?up1_old in E1; auto.
  - rewrite <- (upper_snake_camel s1), <- (upper_snake_camel s2) by auto. congruence.
Qed.

(** Without the condition two entities are merged into one. *)
Example C44_conversion_merges :
  camel_local true (lit "A_1") = camel_local true (lit "A1") /\
  camel_local true (lit "A__B") = camel_local true (lit "A_B").
Proof. split; reflexivity. Qed.

Lemma norm_cons c s : norm (c :: s) = (if (low1 c =? 95)%N then [] else [low1 c]) ++ norm s.
Proof. unfold norm. cbn. destruct (low1 c =? 95)%N; reflexivity. Qed.

Lemma norm_upper s : norm (upper s) = norm s.
Proof. induction s as [|c s IH]; [reflexivity|]. cbn [upper map]. fold (upper s).
  rewrite !norm_cons, low1_up1, IH. reflexivity. Qed.

Lemma norm_snake s : norm (snake s) = norm s.
Proof.
  induction s as [|c s IH]; [reflexivity|]. cbn [snake].
  destruct (is_upper c); rewrite !norm_cons, IH; [|reflexivity].
  replace (low1 underscore =? 95)%N with true by reflexivity. reflexivity.
Qed.

Lemma norm_unsnake b s : norm (unsnake b s) = norm s.
Proof.
  revert b; induction s as [|c s IH]; intros b; [reflexivity|]. cbn [unsnake]. unfold underscore.
  destruct (N.eqb_spec c 95) as [->|Hc].
  - rewrite IH, norm_cons. reflexivity.
  - rewrite !norm_cons, IH. destruct b; rewrite ?low1_up1, ?low1_low1; reflexivity.
Qed.

(** Whatever is looked up instead differs only in case and underscores; within
    the cuba namespace it is a name of that namespace. *)
Theorem C44_alternative_is_same_name : forall n is_cuba m,
  alt n is_cuba = Ok (Some m) ->
  norm m = norm n /\ (is_cuba = true -> in_cuba m = true)
  /\ (is_cuba = false -> Forall (fun c => ~ (97 <= c <= 122)%N) m).
Proof.
  intros [|g0 rest] is_cuba m; [discriminate|].
  assert (HU : forall s, Forall (fun c => ~ (97 <= c <= 122)%N) (upper s)).
  { intros s. induction s; constructor; auto. unfold up1. chars; lia. }
  unfold alt. destruct (negb is_cuba && _ && _) eqn:E1; [|destruct (negb is_cuba) eqn:E2].
  - intros H. assert (E : m = upper (up1 g0 :: snake rest)) by congruence. clear H. subst m.
    rewrite norm_upper, !norm_cons, norm_snake, low1_up1. repeat split; auto.
    destruct is_cuba; [discriminate|congruence].
  - intros H. assert (E : m = upper (g0 :: rest)) by congruence. clear H. subst m.
    rewrite norm_upper. repeat split; auto.
    destruct is_cuba; [discriminate|congruence].
  - destruct is_cuba; [|discriminate]. clear E1 E2.
    assert (G : forall x y, (if in_cuba x then Ok (Some x) else y) = Ok (Some m) ->
                norm x = norm (g0 :: rest) ->
                (y = Ok (Some m) -> norm m = norm (g0 :: rest) /\ in_cuba m = true) ->
                norm m = norm (g0 :: rest) /\ (true = true -> in_cuba m = true) /\
                (true = false -> Forall (fun c => ~ (97 <= c <= 122)%N) m)).
    { intros x y H Hx Hy. destruct (in_cuba x) eqn:E.
      - injection H as <-. repeat split; auto; discriminate.
      - destruct (Hy H). repeat split; auto; discriminate. }
    assert (G1 : forall x, (if in_cuba x then Ok (Some x) else Ok None) = Ok (Some m) ->
                norm x = norm (g0 :: rest) ->
                norm m = norm (g0 :: rest) /\ in_cuba m = true).
    { intros x H Hx. destruct (in_cuba x) eqn:E; [|discriminate]. injection H as <-. auto. }
    destruct (_ || _); [|destruct (is_upper g0); [|destruct (is_lower g0); [|discriminate]]]; intros H.
    + eapply G; [exact H| |].
      * rewrite !norm_cons, norm_unsnake, low1_up1. reflexivity.
      * intros H'. eapply G1; [exact H'|].
        rewrite !norm_cons, norm_unsnake, low1_low1, low1_up1. reflexivity.
    + eapply G; [exact H| |discriminate]. rewrite !norm_cons, low1_low1. reflexivity.
    + eapply G; [exact H| |discriminate]. rewrite !norm_cons, low1_up1. reflexivity.
Qed.

(** the old spelling of a camel-case name: words in capitals joined by "_" *)
Definition old_spelling (e : str) : str :=
  match e with [] => [] | c :: s => upper (c :: snake s) end.

(** Every entity of the cuba namespace is found under its old spelling. *)
Theorem C44_cuba_old_names : forall e, In e cuba_entities ->
  alt (old_spelling e) true = Ok (Some e) /\ in_cuba (old_spelling e) = false.
Proof.
  intros e H. repeat (destruct H as [<-|H]; [split; vm_compute; reflexivity|]). destruct H.
Qed.
Example C44_cuba_example : old_spelling (lit "activeRelationship") = lit "ACTIVE_RELATIONSHIP"
  /\ old_spelling (lit "Entity") = lit "ENTITY".
Proof. split; reflexivity. Qed.

(** The datatypes of strings and vectors are in the namespace whatever their parameters;
    nothing else is but the named entities. *)
Theorem C44_cuba_datatypes : forall t,
  in_cuba (lit "_datatypes/VECTOR-" ++ t) = true /\ in_cuba (lit "_datatypes/STRING-" ++ t) = true /\
  forall n, in_cuba n = true -> In n cuba_entities \/ In n cuba_hidden \/
    exists t', n = lit "_datatypes/VECTOR-" ++ t' \/ n = lit "_datatypes/STRING-" ++ t'.
Proof.
  intros t.
  assert (P : forall p x, startswith p (p ++ x) = true)
    by (intros p x; induction p as [|c p IH]; [reflexivity|]; cbn; rewrite N.eqb_refl; exact IH).
  assert (Q : forall p x, startswith p x = true -> exists y, x = p ++ y).
  { intros p. induction p as [|c p IH]; intros x Hx; [exists x; reflexivity|].
    destruct x as [|d x]; [discriminate|]. cbn in Hx. apply andb_true_iff in Hx as [H1 H2].
    apply N.eqb_eq in H1 as ->. destruct (IH _ H2) as [y ->]. exists y. reflexivity. }
  unfold in_cuba, cuba_dtype_prefixes. cbn [map existsb]. rewrite !P, !orb_true_r. split; [reflexivity|].
  split; [reflexivity|]. intros n Hn. apply orb_true_iff in Hn as [Hn|Hn]; [apply orb_true_iff in Hn as [Hn|Hn]|].
  - left. apply existsb_exists in Hn as (x & Hx & E). apply str_eqb_eq in E as ->. exact Hx.
  - right. left. apply existsb_exists in Hn as (x & Hx & E). apply str_eqb_eq in E as ->. exact Hx.
  - right. right. apply orb_true_iff in Hn as [Hn|Hn]; [|apply orb_true_iff in Hn as [Hn|Hn]; [|discriminate]];
      destruct (Q _ _ Hn) as [y ->]; exists y; auto.
Qed.

(** ** The converter treats definitions and references alike *)

Lemma caps_internal ns doc ask fuel w :
  first_letter_caps ns doc ask fuel w false =
  match first_letter_caps ns doc ask fuel w true with
  | Ok None => Ok (Some true)
  | r => r
  end.
Proof.
  destruct fuel as [|fuel]; [reflexivity|]. cbn [first_letter_caps].
  destruct (existsb (str_eqb w) cuba_lower_names); [reflexivity|].
  destruct (existsb (str_eqb w) cuba_upper_names); [reflexivity|].
  destruct (str_eqb w (lit "CUBA.ENTITY")); [reflexivity|].
  destruct (existsb (N.eqb dot) w).
  - destruct (split_on dot w) as [|a [|b [|? ?]]]; try reflexivity.
    destruct (str_eqb (lower a) ns); [|reflexivity].
    destruct (first_letter_caps ns doc ask fuel b true) as [[[]|]|]; reflexivity.
  - destruct (assoc w doc) as [l|]; [|reflexivity].
    destruct (existsb _ l); [reflexivity|].
    destruct (any_is false _) as [[]|]; try reflexivity.
    destruct (any_is true _) as [[]|]; reflexivity.
Qed.

Lemma existsb_dot_app a b : existsb (N.eqb dot) (a ++ dot :: b) = true.
Proof. rewrite existsb_app. cbn. apply orb_true_r. Qed.
Lemma existsb_dot_not w : ~ In dot w -> existsb (N.eqb dot) w = false.
Proof.
  intros H. apply not_true_iff_false. rewrite existsb_exists. intros (x & Hx & E).
  apply N.eqb_eq in E. now subst.
Qed.

(** A reference "NS.NAME" to an entity of the document is converted to
    "ns.Name" where Name is what the definition "NAME" is converted to. *)
Theorem C44_references_follow_definitions : forall ns doc ask fuel nsw name,
  ~ In dot nsw -> ~ In dot name -> lower nsw = ns -> nsw <> lit "CUBA" ->
  to_camel ns doc ask (S fuel) (nsw ++ [dot] ++ name) =
  rmap (fun n => ns ++ [dot] ++ n) (to_camel ns doc ask fuel name).
Proof.
  intros ns doc ask fuel nsw name Hd1 Hd2 Hns Hcuba.
  assert (Hsp : split_on dot (nsw ++ [dot] ++ name) = [nsw; name]).
  { cbn [app]. rewrite split_on_app by auto. now rewrite split_on_nosep. }
  assert (Hlist : forall q, existsb (str_eqb (nsw ++ [dot] ++ name)) (map lit q) = true ->
             Forall (fun x => exists r, split_on dot (lit x) = [lit "CUBA"; r]) q -> False).
  { intros q H HF. apply existsb_exists in H as (x & Hx & E). apply str_eqb_eq in E.
    apply in_map_iff in Hx as (y & <- & Hy). rewrite Forall_forall in HF.
    destruct (HF y Hy) as [r Hr]. rewrite <- E, Hsp in Hr. congruence. }
  assert (H1 : existsb (str_eqb (nsw ++ [dot] ++ name)) cuba_lower_names = false).
  { apply not_true_iff_false. intros H. eapply Hlist; [exact H|].
    repeat constructor; eexists; reflexivity. }
  assert (H2 : existsb (str_eqb (nsw ++ [dot] ++ name)) cuba_upper_names = false).
  { apply not_true_iff_false. intros H. eapply Hlist; [exact H|].
    repeat constructor; eexists; reflexivity. }
  assert (H3 : str_eqb (nsw ++ [dot] ++ name) (lit "CUBA.ENTITY") = false).
  { apply not_true_iff_false. intros H. apply (Hlist ["CUBA.ENTITY"%string]).
    - cbn [map existsb]. now rewrite H.
    - repeat constructor; eexists; reflexivity. }
  unfold to_camel at 1.
  assert (Hdot : existsb (N.eqb dot) (nsw ++ [dot] ++ name) = true) by apply existsb_dot_app.
  cbn [first_letter_caps]. rewrite H1, H2, H3, Hdot, Hsp, Hns.
  rewrite str_eqb_refl. unfold to_camel. rewrite caps_internal, existsb_dot_not by auto.
  destruct (first_letter_caps ns doc ask fuel name true) as [[b|]|e]; cbn; try reflexivity.
Qed.

(** an ontology of three entities *)
Definition exDoc : odoc :=
  [(lit "CITY_WALL", [SName (lit "CUBA.ENTITY")]);
   (lit "HAS_PART", [SName (lit "CUBA.ACTIVE_RELATIONSHIP")]);
   (lit "HAS_TOWER", [SName (lit "CITY.HAS_PART")])].
Example C44_example_convert :
  to_camel (lit "city") exDoc (fun _ => true) 10 (lit "CITY_WALL") = Ok (lit "CityWall") /\
  to_camel (lit "city") exDoc (fun _ => true) 10 (lit "CITY.HAS_TOWER") = Ok (lit "city.hasTower") /\
  alt (lit "CityWall") false = Ok (Some (lit "CITY_WALL")) /\
  alt (lit "hasTower") false = Ok (Some (lit "HAS_TOWER")).
Proof. repeat split; vm_compute; reflexivity. Qed.
Example C44_example_hyps : words_ok (lit "ITY_WALL") /\ inner_letter (lit "ITY_WALL").
Proof.
  split.
  - intros a b E. do 4 (destruct a as [|? a]; [first [discriminate E | injection E as <-; exists 87%N, (lit "ALL"); split; [reflexivity|lia]] | injection E as <- E]).
    repeat (destruct a as [|? a]; [discriminate E | injection E as <- E]). destruct a; discriminate E.
  - exists [], 73%N, (lit "TY_WALL"). repeat split; try lia. auto.
Qed.

Print Assumptions C44_old_name_found_iff.
Print Assumptions C44_old_name_found_refuted.
Print Assumptions C44_conversion_injective.
Print Assumptions C44_alternative_is_same_name.
Print Assumptions C44_cuba_old_names.
Print Assumptions C44_references_follow_definitions.
Print Assumptions C44_cuba_datatypes.
