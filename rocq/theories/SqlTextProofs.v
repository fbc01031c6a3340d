(** Auxiliary facts for C67: lexing and parsing of generated statements. *)
From Coq Require Import String List NArith ZArith Lia Bool.
From Verif Require Import Prelude Utf8 Text Datatype SqlUtil PropSqlUtil SqlRead SqlText.
Import ListNotations.
Local Open Scope nat_scope.
Local Open Scope list_scope.

(** A name without backquote and NUL. *)
Definition clean_name (s : str) : Prop := ~ In 96%N s /\ ~ In 0%N s.
Definition identifier (s : str) : Prop := Forall (fun c => wordchar c = true) s.

(** ** Lexing *)

Definition oapp (ts : list token) (o : option (list token)) : option (list token) :=
  match o with Some ts' => Some (ts ++ ts') | None => None end.
Lemma oapp_app a b o : oapp (a ++ b) o = oapp a (oapp b o).
Proof. destruct o; cbn; [now rewrite app_assoc | reflexivity]. Qed.
Lemma oapp_nil o : oapp [] o = o.
Proof. now destruct o. Qed.

(** What may follow a token. *)
Definition stop (r : str) : Prop :=
  match r with [] => True | c :: _ => wordchar c = false /\ c <> 96%N end.
Lemma stop_app s r : stop s -> stop r -> stop (s ++ r).
Proof. destruct s; cbn; auto. Qed.

Definition Lx (s : str) (ts : list token) : Prop :=
  forall r, stop r -> lex Top (s ++ r) = oapp ts (lex Top r).
Definition Lx0 (s : str) (ts : list token) : Prop :=
  forall r, lex Top (s ++ r) = oapp ts (lex Top r).

Lemma Lx0_Lx s ts : Lx0 s ts -> Lx s ts.
Proof. intros H r _. apply H. Qed.
Lemma Lx0_app s1 t1 s2 t2 : Lx0 s1 t1 -> Lx s2 t2 -> Lx (s1 ++ s2) (t1 ++ t2).
Proof. intros H1 H2 r Hr. rewrite <- app_assoc, H1, (H2 r Hr). symmetry. apply oapp_app. Qed.
Lemma Lx00_app s1 t1 s2 t2 : Lx0 s1 t1 -> Lx0 s2 t2 -> Lx0 (s1 ++ s2) (t1 ++ t2).
Proof. intros H1 H2 r. rewrite <- app_assoc, H1, H2. symmetry. apply oapp_app. Qed.
Lemma Lx_app s1 t1 s2 t2 : Lx s1 t1 -> Lx s2 t2 -> stop s2 -> Lx (s1 ++ s2) (t1 ++ t2).
Proof.
  intros H1 H2 Hs r Hr. rewrite <- app_assoc, (H1 (s2 ++ r)) by now apply stop_app.
  rewrite (H2 r Hr). symmetry. apply oapp_app.
Qed.
Lemma Lx_app0 s1 t1 s2 t2 : Lx s1 t1 -> Lx0 s2 t2 -> stop s2 -> s2 <> [] -> Lx0 (s1 ++ s2) (t1 ++ t2).
Proof.
  intros H1 H2 Hs Hne r. rewrite <- app_assoc, (H1 (s2 ++ r)).
  - rewrite H2. symmetry. apply oapp_app.
  - destruct s2; [congruence|]. exact Hs.
Qed.

Lemma lex_cons st c r : lex st (c :: r) =
  match lstep st c with None => None | Some (ts, st') => oapp ts (lex st' r) end.
Proof. cbn. destruct (lstep st c) as [[ts st']|]; [|reflexivity]. now destruct (lex st' r). Qed.

Lemma lex_name s w r : clean_name s ->
  lex (InName w) (s ++ 96%N :: r) = lex (AfterQuote (rev s ++ w)) r.
Proof.
  intros [H1 H2]. revert w. induction s as [|c s IH]; intros w.
  - cbn [app rev]. rewrite lex_cons. change (lstep (InName w) 96) with (Some ([] : list token, AfterQuote w)).
    apply oapp_nil.
  - cbn [app]. rewrite lex_cons. unfold lstep.
    replace (c =? 0)%N with false by (symmetry; apply N.eqb_neq; intros ->; apply H2; now left).
    replace (c =? 96)%N with false by (symmetry; apply N.eqb_neq; intros ->; apply H1; now left).
    rewrite oapp_nil, IH.
    + cbn [rev]. now rewrite <- app_assoc.
    + intros Hin. apply H1. now right.
    + intros Hin. apply H2. now right.
Qed.

Lemma after_token_lex t st r :
  stop r -> (forall c, c <> 0%N -> wordchar c = false -> c <> 96%N -> lstep st c = after_token t c) ->
  (forall c, c = 0%N -> lstep st c = None) ->
  lfinish st = Some [t] -> lex st r = oapp [t] (lex Top r).
Proof.
  intros Hr Hs H0 Hf. destruct r as [|c r]; [exact Hf|]. cbn in Hr. destruct Hr as [Hw Hq].
  rewrite !lex_cons. destruct (N.eq_dec c 0) as [->|Hc].
  - rewrite H0 by reflexivity. reflexivity.
  - rewrite Hs by auto. unfold after_token.
    change (lstep Top c) with (if (c =? 0)%N then None else start c).
    rewrite (proj2 (N.eqb_neq c 0) Hc). destruct (start c) as [[ts st']|]; [|reflexivity].
    now destruct (lex st' r).
Qed.

Lemma Lx_bq s : clean_name s -> Lx (bq s) [TName s].
Proof.
  intros Hs r Hr. unfold bq. rewrite <- !app_assoc. change (lit "`") with [96%N]. cbn [app].
  rewrite lex_cons. change (lstep Top 96) with (Some ([] : list token, InName [])). cbv beta iota. rewrite oapp_nil.
  rewrite lex_name by auto. rewrite app_nil_r.
  apply after_token_lex; [auto | | | cbn; now rewrite rev_involutive].
  - intros c H0 Hw Hq. unfold lstep. rewrite (proj2 (N.eqb_neq c 0) H0), (proj2 (N.eqb_neq c 96) Hq).
    now rewrite rev_involutive.
  - intros c ->. reflexivity.
Qed.

Lemma wordchar_nonzero c : wordchar c = true -> (c =? 0)%N = false.
Proof. intros H. apply N.eqb_neq. intros ->. discriminate. Qed.

Lemma lex_param s w r : identifier s -> lex (InParam w) (s ++ r) = lex (InParam (rev s ++ w)) r.
Proof.
  intros H. revert w. induction H as [|c s Hc Hs IH]; intros w; [reflexivity|].
  cbn [app]. rewrite lex_cons. unfold lstep. rewrite (wordchar_nonzero c Hc), Hc, oapp_nil, IH.
  cbn [rev]. now rewrite <- app_assoc.
Qed.

Lemma Lx_param p : identifier p -> Lx (lit ":" ++ p) [TParam p].
Proof.
  intros Hp r Hr. change (lit ":") with [58%N]. cbn [app]. rewrite lex_cons.
  change (lstep Top 58) with (Some ([] : list token, InParam [])). cbv beta iota. rewrite oapp_nil, lex_param, app_nil_r by auto.
  apply after_token_lex; [auto | | | cbn; now rewrite rev_involutive].
  - intros c H0 Hw Hq. unfold lstep. rewrite (proj2 (N.eqb_neq c 0) H0), Hw. now rewrite rev_involutive.
  - intros c ->. reflexivity.
Qed.

Ltac lx0 := let r := fresh "r" in intros r; cbn; destruct (lex Top r); reflexivity.

Lemma Lx_one : Lx (lit "1") [TNum (lit "1")].
Proof.
  intros r Hr. change (lit "1") with [49%N]. cbn [app]. rewrite lex_cons.
  change (lstep Top 49) with (Some ([] : list token, InNum [49%N])). cbv beta iota. rewrite oapp_nil.
  apply after_token_lex; [auto | | | reflexivity].
  - intros c H0 Hw Hq. unfold lstep. now rewrite (proj2 (N.eqb_neq c 0) H0), Hw.
  - intros c ->. reflexivity.
Qed.

(** ** Lists *)

Fixpoint tjoin (sep : list token) (l : list (list token)) : list token :=
  match l with
  | [] => []
  | [w] => w
  | w :: ws => w ++ sep ++ tjoin sep ws
  end.

Lemma Lx_join {X} sep tsep (f : X -> str) (g : X -> list token) l :
  Lx0 sep tsep -> stop sep -> sep <> [] -> Forall (fun x => Lx (f x) (g x)) l ->
  Lx (join_with sep (map f l)) (tjoin tsep (map g l)).
Proof.
  intros H0 Hs Hne H. induction H as [|x l Hx HF IH]; [intros r Hr; cbn; symmetry; apply oapp_nil|].
  destruct l as [|y l]; [exact Hx|].
  change (join_with sep (map f (x :: y :: l))) with (f x ++ sep ++ join_with sep (map f (y :: l))).
  change (tjoin tsep (map g (x :: y :: l))) with (g x ++ tsep ++ tjoin tsep (map g (y :: l))).
  apply Lx_app; [auto | now apply Lx0_app |]. destruct sep; [congruence | exact Hs].
Qed.

Lemma Lx0_comma : Lx0 (lit ", ") [TSym 44].
Proof. lx0. Qed.
Lemma stop_comma : stop (lit ", ").
Proof. cbn. split; [reflexivity | discriminate]. Qed.
Lemma Lx0_and : Lx0 (lit " AND ") [TWord (lit "AND")].
Proof. lx0. Qed.

Lemma Lx_commas {X} (f : X -> str) (g : X -> list token) l :
  Forall (fun x => Lx (f x) (g x)) l ->
  Lx (join_with (lit ", ") (map f l)) (tjoin [TSym 44] (map g l)).
Proof. apply Lx_join; [apply Lx0_comma | apply stop_comma | discriminate]. Qed.

(** ** Parsing *)

Lemma tjoin_length sep l : sep <> [] -> List.length l <= S (List.length (tjoin sep l)).
Proof.
  intros Hs. induction l as [|x [|y l] IH]; cbn [List.length]; [lia | lia|].
  change (tjoin sep (x :: y :: l)) with (x ++ sep ++ tjoin sep (y :: l)).
  rewrite !app_length. destruct sep; [congruence|]. cbn [List.length] in *. lia.
Qed.

Lemma several_ok {X} (sep : parser unit) (p : parser X) (g : X -> list token) st l r fuel :
  (forall x r, In x l -> p (g x ++ r) = Some (x, r)) ->
  (forall r, sep (st :: r) = Some (tt, r)) -> sep r = None -> l <> [] ->
  List.length l <= S fuel ->
  several fuel sep p (tjoin [st] (map g l) ++ r) = Some (l, r).
Proof.
  intros Hp Hsep Hr Hne Hf. revert fuel Hf. induction l as [|x l IH]; intros fuel Hf; [congruence|].
  destruct l as [|y l].
  - cbn [map tjoin]. destruct fuel; cbn [several]; rewrite (Hp x) by (now left); rewrite Hr; reflexivity.
  - change (tjoin [st] (map g (x :: y :: l))) with (g x ++ [st] ++ tjoin [st] (map g (y :: l))).
    rewrite <- !app_assoc. destruct fuel as [|fuel]; [cbn in Hf; lia|].
    cbn [several]. rewrite (Hp x) by now left. cbn [app]. rewrite Hsep.
    rewrite IH; [reflexivity | | discriminate | cbn in *; lia].
    intros z r' Hz. apply Hp. now right.
Qed.

Lemma list_of_ok {X} (p : parser X) (g : X -> list token) l r :
  (forall x r, In x l -> p (g x ++ r) = Some (x, r)) -> sym 44 r = None -> l <> [] ->
  list_of p (tjoin [TSym 44] (map g l) ++ r) = Some (l, r).
Proof.
  intros Hp Hr Hne. unfold list_of. apply several_ok; auto.
  rewrite app_length. pose proof (tjoin_length [TSym 44] (map g l)). rewrite map_length in H.
  specialize (H ltac:(discriminate)). lia.
Qed.

Definition colref_toks (x : str * str) : list token := [TName (fst x); TSym 46; TName (snd x)].
Lemma colref_ok x r : colref (colref_toks x ++ r) = Some (x, r).
Proof. destruct x. reflexivity. Qed.
Lemma name_ok x r : name ([TName x] ++ r) = Some (x, r).
Proof. reflexivity. Qed.
Lemma param_ok x r : param ([TParam x] ++ r) = Some (x, r).
Proof. reflexivity. Qed.

Definition cmp_toks (x : comparison) : list token :=
  match x with
  | Always => [TNum (lit "1")]
  | EqParam t c p => colref_toks (t, c) ++ [TSym 61; TParam p]
  | EqCol t1 c1 t2 c2 => colref_toks (t1, c1) ++ [TSym 61] ++ colref_toks (t2, c2)
  end.
Lemma compare_ok x r : compare (cmp_toks x ++ r) = Some (x, r).
Proof. destruct x; reflexivity. Qed.

Lemma condition_ok l r : word "AND" r = None -> l <> [] ->
  condition (tjoin [TWord (lit "AND")] (map cmp_toks l) ++ r) = Some (l, r).
Proof.
  intros Hr Hne. unfold condition. apply several_ok; auto.
  - intros x r' _. apply compare_ok.
  - rewrite app_length. pose proof (tjoin_length [TWord (lit "AND")] (map cmp_toks l)).
    rewrite map_length in H. specialize (H ltac:(discriminate)). lia.
Qed.

(** ** Conditions *)

Definition cmp_of (a : patom) : comparison :=
  match a with
  | PTrue => Always
  | PEq t c p => EqParam t c p
  | PJoin t1 c1 t2 c2 => EqCol t1 c1 t2 c2
  end.
Definition atom_text (a : patom) : str :=
  match a with
  | PTrue => lit "1"
  | PEq t c p => bq t ++ lit "." ++ bq c ++ lit "=" ++ lit ":" ++ p
  | PJoin t1 c1 t2 c2 => bq t1 ++ lit "." ++ bq c1 ++ lit " = " ++ bq t2 ++ lit "." ++ bq c2
  end.
Definition atom_clean (a : patom) : Prop :=
  match a with
  | PTrue => True
  | PEq t c p => clean_name t /\ clean_name c /\ identifier p
  | PJoin t1 c1 t2 c2 => Forall clean_name [t1; c1; t2; c2]
  end.

Lemma Lx0_dot : Lx0 (lit ".") [TSym 46]. Proof. lx0. Qed.
Lemma Lx0_eq : Lx0 (lit "=") [TSym 61]. Proof. lx0. Qed.
Lemma Lx0_speq : Lx0 (lit " = ") [TSym 61]. Proof. lx0. Qed.
Lemma stop_sym c r : wordchar c = false -> c <> 96%N -> stop (c :: r).
Proof. cbn. auto. Qed.
Ltac stp := cbn; split; [reflexivity | discriminate].

Lemma Lx_colref t c : clean_name t -> clean_name c -> Lx (bq t ++ lit "." ++ bq c) (colref_toks (t, c)).
Proof.
  intros Ht Hc. change (colref_toks (t, c)) with ([TName t] ++ [TSym 46] ++ [TName c]).
  apply Lx_app; [now apply Lx_bq | apply Lx0_app; [apply Lx0_dot | now apply Lx_bq] | stp].
Qed.

Lemma Lx_atom a : atom_clean a -> Lx (atom_text a) (cmp_toks (cmp_of a)).
Proof.
  destruct a as [|t c p|t1 c1 t2 c2]; cbn [atom_clean atom_text cmp_of cmp_toks].
  - intros _. apply Lx_one.
  - intros (Ht & Hc & Hp).
    replace (bq t ++ lit "." ++ bq c ++ lit "=" ++ lit ":" ++ p)
      with ((bq t ++ lit "." ++ bq c) ++ lit "=" ++ lit ":" ++ p) by now rewrite <- !app_assoc.
    apply Lx_app; [now apply Lx_colref | | stp].
    change [TSym 61; TParam p] with ([TSym 61] ++ [TParam p]).
    apply Lx0_app; [apply Lx0_eq | now apply Lx_param].
  - intros H. inversion H as [|? ? H1 H']; subst. inversion H' as [|? ? H2 H'']; subst.
    inversion H'' as [|? ? H3 H3']; subst. inversion H3' as [|? ? H4 _]; subst.
    replace (bq t1 ++ lit "." ++ bq c1 ++ lit " = " ++ bq t2 ++ lit "." ++ bq c2)
      with ((bq t1 ++ lit "." ++ bq c1) ++ lit " = " ++ (bq t2 ++ lit "." ++ bq c2)) by now rewrite <- !app_assoc.
    apply Lx_app; [now apply Lx_colref | | stp].
    apply Lx0_app; [apply Lx0_speq | now apply Lx_colref].
Qed.

Section Cond.
  Context {A : Type}.

  (** The names in a condition. *)
  Fixpoint cond_names (x : cond A) : list str :=
    match x with
    | CEq t c _ _ => [t; c]
    | CJoin t1 c1 t2 c2 => [t1; c1; t2; c2]
    | CAnd l => flat_map cond_names l
    end.

  Lemma pattern_nonempty (x : cond A) prefix : fst (get_condition_pattern x prefix) <> [].
  Proof.
    revert prefix; induction x as [t c v dt|t1 c1 t2 c2|l IH] using cond_rect'; intros prefix; try discriminate.
    destruct l as [|y l]; [discriminate|]. rewrite gcp_and by discriminate. cbn.
    inversion IH as [|? ? Hy _]; subst. intros E. apply app_eq_nil in E as [E _]. now apply (Hy (prefix ++ dec 0)).
  Qed.

  Fixpoint and_text (prefix pattern : str) (i : N) (l : list (cond A)) : str :=
    match l with
    | [] => pattern
    | y :: r => and_text prefix (match pattern with [] => [] | _ => pattern ++ lit " AND " end
                                 ++ cond_text y (prefix ++ dec i)) (i + 1)%N r
    end.
  Lemma cond_text_and (l : list (cond A)) prefix : l <> [] ->
    cond_text (CAnd l) prefix = and_text prefix [] 0%N l.
  Proof.
    intros Hne. destruct l as [|y0 l0]; [congruence|]. clear Hne.
    change (cond_text (CAnd (y0 :: l0)) prefix)
      with ((fix go (pattern : str) (i : N) (l : list (cond A)) : str :=
           match l with
           | [] => pattern
           | y :: r =>
               let pattern := match pattern with [] => [] | _ => pattern ++ lit " AND " end in
               go (pattern ++ cond_text y (prefix ++ dec i)) (i + 1)%N r
           end) [] 0%N (y0 :: l0)).
    match goal with |- ?g [] 0%N _ = _ => set (go := g) end.
    generalize (y0 :: l0) as l. intros l. generalize 0%N as i. generalize (@nil N) as pat.
    induction l as [|y l IH]; intros pat i; [reflexivity|].
    unfold go. cbn fix beta iota zeta. fold go. rewrite IH. reflexivity.
  Qed.

  Lemma atom_text_nonempty a : atom_text a <> [].
  Proof. destruct a; discriminate. Qed.
  Lemma join_app_ne sep (a b : list str) : a <> [] -> b <> [] ->
    join_with sep (a ++ b) = join_with sep a ++ sep ++ join_with sep b.
  Proof.
    intros Ha Hb. induction a as [|x [|y a] IH]; [congruence| |].
    - cbn [app]. destruct b; [congruence|]. reflexivity.
    - change (join_with sep ((x :: y :: a) ++ b)) with (x ++ sep ++ join_with sep ((y :: a) ++ b)).
      rewrite IH by discriminate.
      change (join_with sep (x :: y :: a)) with (x ++ sep ++ join_with sep (y :: a)).
      now rewrite <- !app_assoc.
  Qed.
  Lemma join_nonempty sep (a : list str) : a <> [] -> Forall (fun s => s <> []) a -> join_with sep a <> [].
  Proof.
    intros Ha H. destruct a as [|x [|y a]]; [congruence | now inversion H|].
    inversion H; subst. cbn. intros E. now apply app_eq_nil in E.
  Qed.

  Lemma cond_text_atoms (x : cond A) prefix :
    cond_text x prefix = join_with (lit " AND ") (map atom_text (fst (get_condition_pattern x prefix))).
  Proof.
    revert prefix; induction x as [t c v dt|t1 c1 t2 c2|l IH] using cond_rect'; intros prefix.
    - cbn [cond_text get_condition_pattern fst map join_with atom_text].
      change (lit "=:") with (lit "=" ++ lit ":"). now rewrite <- !app_assoc.
    - reflexivity.
    - destruct l as [|y0 l0]; [reflexivity|]. rewrite gcp_and, cond_text_and by discriminate.
      set (l := y0 :: l0) in *. assert (Hne : l <> []) by discriminate. clearbody l. clear y0 l0.
      assert (Hgen : forall i pat, and_text prefix pat i l =
        match l with
        | [] => pat
        | _ => match pat with [] => [] | _ => pat ++ lit " AND " end
               ++ join_with (lit " AND ") (map atom_text (fst (and_pattern prefix i l)))
        end).
      { clear Hne. induction IH as [|y r Hy HF IHr]; intros i pat; [reflexivity|].
        cbn [and_text and_pattern fst]. rewrite IHr, Hy. rewrite map_app.
        set (a := map atom_text (fst (get_condition_pattern y (prefix ++ dec i)))).
        assert (Ha : a <> []).
        { unfold a. intros E. apply map_eq_nil in E. now apply pattern_nonempty in E. }
        assert (Hj : join_with (lit " AND ") a <> []).
        { apply join_nonempty; [auto|]. unfold a. apply Forall_forall. intros s Hs.
          apply in_map_iff in Hs as (z & <- & _). apply atom_text_nonempty. }
        destruct r as [|z r].
        - cbn [and_pattern fst map]. now rewrite app_nil_r.
        - match goal with |- context [match ?p ++ ?q with [] => _ | _ => _ end] =>
            destruct (p ++ q) as [|n m] eqn:E end.
          { apply app_eq_nil in E as [_ E]. congruence. }
          rewrite <- E, join_app_ne; [now rewrite <- !app_assoc | auto |].
          cbn [and_pattern fst]. rewrite map_app. intros E'. apply app_eq_nil in E' as [E' _].
          apply map_eq_nil in E'. now apply pattern_nonempty in E'. }
      rewrite Hgen. destruct l; [congruence|]. reflexivity.
  Qed.

  Lemma identifier_app a b : identifier a -> identifier b -> identifier (a ++ b).
  Proof. intros H1 H2. apply Forall_app. auto. Qed.
  Lemma identifier_dec i : identifier (dec i).
  Proof.
    pose proof (dec_digits i) as H. eapply Forall_impl; [|exact H]. intros c Hc. cbn in Hc.
    unfold wordchar. now rewrite Hc, orb_true_r.
  Qed.
  Lemma identifier_value : identifier (lit "_value").
  Proof. repeat constructor. Qed.

  Lemma pattern_clean (x : cond A) prefix :
    Forall clean_name (cond_names x) -> identifier prefix ->
    Forall atom_clean (fst (get_condition_pattern x prefix)).
  Proof.
    revert prefix; induction x as [t c v dt|t1 c1 t2 c2|l IH] using cond_rect'; intros prefix Hn Hp.
    - cbn in *. inversion Hn as [|? ? H1 H']; subst. inversion H' as [|? ? H2 _]; subst.
      constructor; [|constructor]. cbn. split; [auto|]. split; [auto|].
      apply identifier_app; [auto | apply identifier_value].
    - cbn in *. constructor; [exact Hn | constructor].
    - destruct l as [|y0 l0]; [repeat constructor|]. rewrite gcp_and by discriminate.
      set (l := y0 :: l0) in *. clearbody l. clear y0 l0. generalize 0%N as i.
      cbn in Hn. induction IH as [|y r Hy HF IHr]; intros i; [constructor|].
      cbn in Hn. apply Forall_app in Hn as [Hn1 Hn2].
      cbn. apply Forall_app. split; [|now apply IHr].
      apply Hy; [auto|]. apply identifier_app; [auto | apply identifier_dec].
  Qed.

  (** The comparisons in the text of an optional condition. *)
  Definition opt_atoms (x : option (cond A)) : list patom :=
    match x with None => [PTrue] | Some x => fst (get_condition_pattern x (lit "cond")) end.
  Definition opt_names (x : option (cond A)) : list str :=
    match x with None => [] | Some x => cond_names x end.

  Lemma Lx_condition (x : option (cond A)) : Forall clean_name (opt_names x) ->
    Lx (condition_text x) (tjoin [TWord (lit "AND")] (map cmp_toks (map cmp_of (opt_atoms x)))).
  Proof.
    intros Hn. destruct x as [x|]; [|apply Lx_one]. cbn [condition_text opt_atoms].
    rewrite cond_text_atoms, map_map. apply Lx_join; [apply Lx0_and | stp | discriminate|].
    eapply Forall_impl; [|apply pattern_clean; [exact Hn | repeat constructor]].
    intros a Ha. now apply Lx_atom.
  Qed.
  Lemma opt_atoms_ne (x : option (cond A)) : map cmp_of (opt_atoms x) <> [].
  Proof.
    destruct x as [x|]; [|discriminate]. cbn. intros E. apply map_eq_nil in E. now apply pattern_nonempty in E.
  Qed.
End Cond.
