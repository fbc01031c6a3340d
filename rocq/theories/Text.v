(** Python string operations used by several modules: prefixes, suffixes,
    [split]/[join] on one character, decimal notation ([str(int)], [int(str)]).
    A [str] is the list of its code points (Utf8.v). *)
From Coq Require Import List NArith ZArith Lia Bool String Ascii.
From Coq Require Decimal DecimalFacts DecimalN DecimalPos.
From Verif Require Import Prelude Utf8.
Import ListNotations.
Open Scope list_scope.

(** A Python string literal (ASCII). *)
Definition lit (s : string) : str := map N_of_ascii (list_ascii_of_string s).

Fixpoint str_eqb (a b : str) : bool :=
  match a, b with
  | [], [] => true
  | x :: a', y :: b' => N.eqb x y && str_eqb a' b'
  | _, _ => false
  end.

Lemma str_eqb_spec a b : reflect (a = b) (str_eqb a b).
Proof.
  apply iff_reflect. revert b; induction a as [|x a IH]; intros [|y b]; cbn;
    try (split; congruence).
  rewrite andb_true_iff, N.eqb_eq, <- IH. split; [intros [= -> ->]; auto | intros [-> ->]; auto].
Qed.

Lemma str_eqb_eq a b : str_eqb a b = true <-> a = b.
Proof. destruct (str_eqb_spec a b); split; congruence. Qed.

Lemma str_eqb_refl a : str_eqb a a = true.
Proof. now apply str_eqb_eq. Qed.

Lemma str_eqb_neq a b : str_eqb a b = false <-> a <> b.
Proof. destruct (str_eqb_spec a b); split; congruence. Qed.

Definition str_eq_dec (a b : str) : {a = b} + {a <> b} := list_eq_dec N.eq_dec a b.

(** [s.startswith(p)] *)
Fixpoint startswith (p s : str) : bool :=
  match p, s with
  | [], _ => true
  | x :: p', y :: s' => N.eqb x y && startswith p' s'
  | _ :: _, [] => false
  end.

Lemma startswith_iff p s : startswith p s = true <-> exists r, s = p ++ r.
Proof.
  revert s; induction p as [|x p IH]; intros s; cbn.
  - split; [intros _; now exists s | auto].
  - destruct s as [|y s]; [split; [discriminate | intros [r [=]]]|].
    rewrite andb_true_iff, N.eqb_eq, IH.
    split; [intros [-> [r ->]]; now exists r | intros [r [= -> ->]]; split; [auto | now exists r]].
Qed.

Lemma startswith_app p s : startswith p (p ++ s) = true.
Proof. apply startswith_iff; now exists s. Qed.

(** [s.endswith(p)] *)
Definition endswith (p s : str) : bool := startswith (rev p) (rev s).

Lemma endswith_iff p s : endswith p s = true <-> exists r, s = r ++ p.
Proof.
  unfold endswith. rewrite startswith_iff. split; intros [r Hr].
  - exists (rev r). apply (f_equal (@rev N)) in Hr.
    now rewrite rev_involutive, rev_app_distr, rev_involutive in Hr.
  - exists (rev r). now rewrite Hr, rev_app_distr.
Qed.

(** [s[len(p):]] *)
Definition after (p s : str) : str := skipn (List.length p) s.
Lemma after_app p s : after p (p ++ s) = s.
Proof. unfold after. rewrite skipn_app, skipn_all, Nat.sub_diag; reflexivity. Qed.

(** [s[:-len(p)]] for a non-empty p *)
Definition before_suffix (p s : str) : str := firstn (List.length s - List.length p) s.
Lemma before_suffix_app p s : before_suffix p (s ++ p) = s.
Proof.
  unfold before_suffix. rewrite app_length, Nat.add_sub, firstn_app, firstn_all,
    Nat.sub_diag, firstn_O. apply app_nil_r.
Qed.

(** [s.split(c)] for a one-character separator. *)
Fixpoint split_on (c : N) (s : str) : list str :=
  match s with
  | [] => [[]]
  | x :: s' =>
      if N.eqb x c then [] :: split_on c s'
      else match split_on c s' with
           | [] => [[x]]          (* unreachable *)
           | w :: ws => (x :: w) :: ws
           end
  end.

(** [c.join(l)] *)
Fixpoint join_with (sep : str) (l : list str) : str :=
  match l with
  | [] => []
  | [w] => w
  | w :: ws => w ++ sep ++ join_with sep ws
  end.

Lemma split_on_nosep c w : ~ In c w -> split_on c w = [w].
Proof.
  induction w as [|x w IH]; cbn; intros H; [reflexivity|].
  destruct (N.eqb_spec x c) as [->|Hx]; [exfalso; auto|].
  rewrite IH; auto.
Qed.

Lemma split_on_app c w s :
  ~ In c w -> split_on c (w ++ c :: s) = w :: split_on c s.
Proof.
  induction w as [|x w IH]; cbn; intros H.
  - now rewrite N.eqb_refl.
  - destruct (N.eqb_spec x c) as [->|Hx]; [exfalso; auto|].
    rewrite IH; auto.
Qed.

Lemma split_join c l :
  l <> [] -> Forall (fun w => ~ In c w) l -> split_on c (join_with [c] l) = l.
Proof.
  induction l as [|w l IH]; intros Hn HF; [congruence|].
  inversion HF as [|? ? Hw HF']; subst.
  destruct l as [|w' l].
  - now apply split_on_nosep.
  - change (join_with [c] (w :: w' :: l)) with (w ++ c :: join_with [c] (w' :: l)).
    rewrite split_on_app by auto. f_equal. apply IH; [congruence | auto].
Qed.

Lemma split_on_nonempty c s : split_on c s <> [].
Proof. destruct s as [|x s]; cbn; [congruence|]. destruct (N.eqb x c); [congruence|].
  destruct (split_on c s); congruence. Qed.

Lemma join_split c s : join_with [c] (split_on c s) = s.
Proof.
  induction s as [|x s IH]; [reflexivity|]. cbn.
  pose proof (split_on_nonempty c s) as Hn.
  destruct (N.eqb_spec x c) as [->|Hx].
  - destruct (split_on c s) as [|w ws] eqn:E; [congruence|].
    change (join_with [c] ([] :: w :: ws)) with ([] ++ [c] ++ join_with [c] (w :: ws)).
    now rewrite IH.
  - destruct (split_on c s) as [|w ws] eqn:E; [congruence|].
    destruct ws as [|w2 ws].
    + cbn in *. now rewrite IH.
    + change (join_with [c] ((x :: w) :: w2 :: ws)) with (x :: (w ++ [c] ++ join_with [c] (w2 :: ws))).
      f_equal. exact IH.
Qed.

Lemma split_on_no_sep_inside c s : Forall (fun w => ~ In c w) (split_on c s).
Proof.
  induction s as [|x s IH]; cbn.
  - constructor; auto.
  - destruct (N.eqb_spec x c) as [->|Hx].
    + constructor; auto.
    + destruct (split_on c s) as [|w ws].
      * constructor; [cbn; tauto | constructor].
      * inversion IH; subst. constructor; [|auto]. cbn. tauto.
Qed.

(** ** Decimal notation *)

Definition digitc (d : N) : N := (48 + d)%N.

Fixpoint uint_str (u : Decimal.uint) : str :=
  match u with
  | Decimal.Nil => []
  | Decimal.D0 u => 48%N :: uint_str u | Decimal.D1 u => 49%N :: uint_str u
  | Decimal.D2 u => 50%N :: uint_str u | Decimal.D3 u => 51%N :: uint_str u
  | Decimal.D4 u => 52%N :: uint_str u | Decimal.D5 u => 53%N :: uint_str u
  | Decimal.D6 u => 54%N :: uint_str u | Decimal.D7 u => 55%N :: uint_str u
  | Decimal.D8 u => 56%N :: uint_str u | Decimal.D9 u => 57%N :: uint_str u
  end.

(** [str(n)] for a natural number n. *)
Definition dec (n : N) : str := uint_str (N.to_uint n).

(** [str(z)]. *)
Definition decZ (z : Z) : str :=
  match z with
  | Zneg p => 45%N :: dec (Npos p)
  | _ => dec (Z.to_N z)
  end.

Definition is_digit (c : N) : bool := (48 <=? c)%N && (c <=? 57)%N.

Fixpoint str_uint (s : str) : option Decimal.uint :=
  match s with
  | [] => Some Decimal.Nil
  | c :: s' =>
      match str_uint s' with
      | None => None
      | Some u =>
          match c with
          | 48 => Some (Decimal.D0 u) | 49 => Some (Decimal.D1 u) | 50 => Some (Decimal.D2 u)
          | 51 => Some (Decimal.D3 u) | 52 => Some (Decimal.D4 u) | 53 => Some (Decimal.D5 u)
          | 54 => Some (Decimal.D6 u) | 55 => Some (Decimal.D7 u) | 56 => Some (Decimal.D8 u)
          | 57 => Some (Decimal.D9 u) | _ => None
          end%N
      end
  end.

(** [int(s)] for a string of ASCII digits, with leading zeros. *)
Definition undec (s : str) : option N :=
  match s with
  | [] => None
  | _ => match str_uint s with None => None | Some u => Some (N.of_uint u) end
  end.

(** [int(s)].  Simplification: surrounding white space, underscores and
    non-ASCII digits, which Python also accepts, are rejected. *)
Definition int_of_str (s : str) : res Z :=
  match s with
  | 45%N :: s' => match undec s' with None => Err ValueError | Some n => Ok (- Z.of_N n)%Z end
  | 43%N :: s' => match undec s' with None => Err ValueError | Some n => Ok (Z.of_N n) end
  | _ => match undec s with None => Err ValueError | Some n => Ok (Z.of_N n) end
  end.

Lemma str_uint_str u : str_uint (uint_str u) = Some u.
Proof. induction u; cbn; rewrite ?IHu; reflexivity. Qed.

Lemma uint_str_digits u : Forall (fun c => is_digit c = true) (uint_str u).
Proof. induction u; cbn; constructor; auto. Qed.

Lemma to_uint_nonnil n : N.to_uint n <> Decimal.Nil.
Proof.
  destruct n as [|p]; cbn; [congruence|].
  apply DecimalPos.Unsigned.to_uint_nonnil.
Qed.

Lemma dec_nonempty n : dec n <> [].
Proof.
  unfold dec. intros H. apply (to_uint_nonnil n).
  destruct (N.to_uint n); cbn in H; congruence.
Qed.

Lemma dec_digits n : Forall (fun c => is_digit c = true) (dec n).
Proof. apply uint_str_digits. Qed.

Lemma undec_dec n : undec (dec n) = Some n.
Proof.
  unfold undec. destruct (dec n) as [|c s] eqn:E; [now destruct (dec_nonempty n)|].
  rewrite <- E. unfold dec. rewrite str_uint_str, DecimalN.Unsigned.of_to. reflexivity.
Qed.

Lemma dec_inj a b : dec a = dec b -> a = b.
Proof. intros H. apply (f_equal undec) in H. rewrite !undec_dec in H. congruence. Qed.

Lemma digit_not c n : is_digit c = false -> ~ In c (dec n).
Proof.
  intros Hc Hin. pose proof (dec_digits n) as H.
  rewrite Forall_forall in H. apply H in Hin. congruence.
Qed.

Lemma int_of_dec n : int_of_str (dec n) = Ok (Z.of_N n).
Proof.
  unfold int_of_str. pose proof (undec_dec n) as H.
  destruct (dec n) as [|c s] eqn:E; [now destruct (dec_nonempty n)|].
  assert (Hc : is_digit c = true).
  { pose proof (dec_digits n) as HF. rewrite E in HF. now inversion HF. }
  assert (c <> 45%N /\ c <> 43%N) as [H1 H2].
  { unfold is_digit in Hc. split; intros ->; discriminate. }
  destruct c as [|p]; [now rewrite H|].
  repeat (destruct p as [p|p|]; try (rewrite H; reflexivity); try (exfalso; congruence)).
Qed.

Lemma int_of_decZ z : int_of_str (decZ z) = Ok z.
Proof.
  destruct z as [|p|p]; [apply (int_of_dec 0) | |].
  - apply (int_of_dec (Npos p)).
  - cbn [decZ int_of_str]. rewrite undec_dec. reflexivity.
Qed.

Lemma decZ_inj a b : decZ a = decZ b -> a = b.
Proof. intros H. apply (f_equal int_of_str) in H. rewrite !int_of_decZ in H. congruence. Qed.

Lemma dec_length_lt10 n : (n < 10)%N -> exists d, dec n = [d].
Proof.
  intros H. destruct n as [|p]; [now exists 48%N|].
  repeat (destruct p as [p|p|]; try (eexists; reflexivity); try (exfalso; lia)).
Qed.

Lemma undec_digits s n : undec s = Some n -> Forall (fun c => is_digit c = true) s.
Proof.
  unfold undec. destruct s as [|c0 s0]; [discriminate|].
  generalize (c0 :: s0) as s; clear. intros s.
  destruct (str_uint s) as [u|] eqn:E; [|discriminate]. intros _.
  revert u E; induction s as [|c s IH]; intros u E; [constructor|].
  cbn in E. destruct (str_uint s) as [u'|]; [|discriminate].
  constructor; [|eauto].
  destruct (is_digit c) eqn:Hc; [reflexivity|].
  exfalso. unfold is_digit in Hc.
  destruct c as [|p]; [discriminate|].
  repeat (destruct p as [p|p|]; try discriminate).
Qed.

Example dec_ex : dec 4096 = lit "4096" /\ decZ (-20)%Z = lit "-20"
  /\ int_of_str (lit "007") = Ok 7%Z /\ int_of_str (lit "") = Err ValueError
  /\ split_on 45 (lit "a--b") = [lit "a"; []; lit "b"].
Proof. repeat split; vm_compute; reflexivity. Qed.
