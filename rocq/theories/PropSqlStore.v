(** Property C68: values survive the columns of an SQLite database. *)
From Coq Require Import String List NArith ZArith Lia Bool.
From Verif Require Import Prelude Utf8 Text Datatype SqlUtil SqlText Validator PropValidator SqlStore.
Import ListNotations.
Local Open Scope list_scope.

Definition dt_of (b : basic) : option str := Some (rdf_name b).
Definition all_digits (s : str) : Prop := s <> [] /\ Forall (fun c => is_digit c = true) s.

(** The affinity of the column for each datatype: a string without maximal length is
    stored in a column for numbers. *)
Theorem C68_column_types :
  rmap affinity_of (to_sqlite_datatype (dt_of INT)) = Ok AInteger
  /\ rmap affinity_of (to_sqlite_datatype (dt_of BOOL)) = Ok ANumeric
  /\ rmap affinity_of (to_sqlite_datatype (dt_of FLOAT)) = Ok AReal
  /\ rmap affinity_of (to_sqlite_datatype (dt_of STRING)) = Ok AReal
  /\ rmap affinity_of (to_sqlite_datatype (dt_of UUID)) = Ok AText
  /\ rmap affinity_of (to_sqlite_datatype None) = Ok AText
  /\ (forall n, rmap affinity_of (to_sqlite_datatype (Some (string_iri n))) = Ok AText).
Proof.
  do 6 (split; [vm_compute; reflexivity|]). intros n. unfold string_iri, to_sqlite_datatype.
  assert (H : forall p, startswith STR_PREFIX p = false -> str_eqb (STR_PREFIX ++ decZ n) p = false).
  { intros p H2. apply str_eqb_neq. intros <-. now rewrite startswith_app in H2. }
  rewrite !H by (vm_compute; reflexivity). rewrite startswith_app. reflexivity.
Qed.

Lemma digits_numeric s : all_digits s -> numeric s = true.
Proof.
  intros [Hne Hd]. unfold numeric. apply re_full_lang.
  assert (Hstar : forall s, Forall (fun c => is_digit c = true) s -> lang (Star dig) s).
  { clear. induction 1 as [|c s Hc Hs IH]; [constructor|]. change (c :: s) with ([c] ++ s).
    constructor; [now constructor | exact IH]. }
  assert (Hds : lang digs s).
  { destruct s as [|c s]; [congruence|]. inversion Hd; subst. change (c :: s) with ([c] ++ s).
    constructor; [now constructor | auto]. }
  change s with ([] ++ [] ++ s) . unfold number_re, blank, sign, opt.
  apply L_seq; [constructor|]. apply L_seq; [constructor; constructor|].
  rewrite <- (app_nil_r s). apply L_seq.
  - apply L_alt_l. rewrite <- (app_nil_r s). apply L_seq; [exact Hds | constructor; constructor].
  - change (@nil N) with (@nil N ++ @nil N). apply L_seq; [constructor; constructor | constructor].
Qed.

Section Values.
  Context (F : Type) (f_of_Z : Z -> F) (f_of_text : str -> F) (is_nan : F -> bool)
          (truncate : F -> Z) (is_zero : F -> bool) (show : F -> str) (parse : str -> option F)
          (integral : F -> option Z) (same_float : F -> F -> bool).
  Notation pyval := (pyval F).
  Notation sval := (sval F).
  Notation write := (write F f_of_Z f_of_text is_nan truncate is_zero show parse integral).
  Notation write_and_read := (write_and_read F f_of_Z f_of_text is_nan truncate is_zero show parse integral).
  Notation found := (found F f_of_Z f_of_text is_nan truncate is_zero show parse integral same_float).

  (** The values a user can have for an attribute with the datatype, except NaN, integers
      beyond 64 bits, and strings without maximal length that look like a number. *)
  Inductive storable : option str -> pyval -> Prop :=
  | st_int z : (- 2 ^ 63 <= z < 2 ^ 63)%Z -> storable (dt_of INT) (PInt z)
  | st_bool b : storable (dt_of BOOL) (PBool b)
  | st_float f : is_nan f = false -> storable (dt_of FLOAT) (PFloat f)
  | st_string s : numeric s = false -> storable (dt_of STRING) (PStr s)
  | st_string_n n s : (n = 0 \/ Z.of_nat (List.length s) <= n)%Z -> storable (Some (string_iri n)) (PStr s)
  | st_uuid s : storable (dt_of UUID) (PStr s)
  | st_none s : storable None (PStr s).

  Lemma string_iri_type n : get_python_datatype (Some (string_iri n)) = Ok (TString n).
  Proof.
    unfold get_python_datatype, string_iri.
    assert (H : forall p, startswith STR_PREFIX p = false -> str_eqb p (STR_PREFIX ++ decZ n) = false).
    { intros p H2. apply str_eqb_neq. intros ->. now rewrite startswith_app in H2. }
    replace (basic_of_rdf (STR_PREFIX ++ decZ n)) with (@None basic).
    2: { unfold basic_of_rdf, basics. cbn [find]. now rewrite !H by (vm_compute; reflexivity). }
    now rewrite startswith_app, after_app, int_of_decZ.
  Qed.
  Lemma string_iri_column n : to_sqlite_datatype (Some (string_iri n)) = Ok (lit "TEXT").
  Proof.
    unfold to_sqlite_datatype, string_iri.
    assert (H : forall p, startswith STR_PREFIX p = false -> str_eqb (STR_PREFIX ++ decZ n) p = false).
    { intros p H2. apply str_eqb_neq. intros <-. now rewrite startswith_app in H2. }
    rewrite !H by (vm_compute; reflexivity). now rewrite startswith_app.
  Qed.

  Lemma small_int z : (- 2 ^ 63 <= z < 2 ^ 63)%Z -> ((- 2 ^ 63 <=? z) && (z <? 2 ^ 63))%Z = true.
  Proof. intros [H1 H2]. apply andb_true_iff. split; [now apply Z.leb_le | now apply Z.ltb_lt]. Qed.

  (** What is stored. *)
  Definition stored_as (v : pyval) : sval :=
    match v with
    | PNone => SNull
    | PBool b => SInt (if b then 1 else 0)
    | PInt z => SInt z
    | PFloat f => SReal f
    | PStr s => SText s
    end.

  Lemma write_storable dt v : storable dt v -> write dt v = Ok (stored_as v).
  Proof.
    destruct 1 as [z Hz|b|f Hf|s Hs|n s Hn|s|s]; unfold SqlStore.write.
    - change (to_sqlite_datatype (dt_of INT)) with (Ok (lit "INTEGER")).
      change (affinity_of (lit "INTEGER")) with AInteger.
      change (convert_from ?c (Leaf (PInt z)) (dt_of INT)) with (Ok (Leaf (PInt (F:=F) z))). cbv beta iota.
      unfold bind_value. now rewrite small_int by auto.
    - reflexivity.
    - change (to_sqlite_datatype (dt_of FLOAT)) with (Ok (lit "REAL")). change (affinity_of (lit "REAL")) with AReal.
      change (convert_from ?c (Leaf (PFloat f)) (dt_of FLOAT)) with (Ok (Leaf (PFloat f))). cbv beta iota.
      unfold bind_value. now rewrite Hf.
    - change (to_sqlite_datatype (dt_of STRING)) with (Ok (lit "REAL")). change (affinity_of (lit "REAL")) with AReal.
      change (convert_from ?c (Leaf (PStr s)) (dt_of STRING)) with (Ok (Leaf (PStr (F:=F) s))). cbv beta iota.
      unfold bind_value, rmap, apply_affinity. now rewrite Hs.
    - rewrite string_iri_column. change (affinity_of (lit "TEXT")) with AText.
      unfold convert_from. rewrite string_iri_type. reflexivity.
    - reflexivity.
    - reflexivity.
  Qed.

  (** Every other value is read back as it was written. *)
  Theorem C68_roundtrip : forall dt v, storable dt v -> write_and_read dt v = Ok v.
  Proof.
    intros dt v H. unfold SqlStore.write_and_read.
    pose proof (write_storable dt v H) as E. rewrite E. clear E.
    destruct H as [z Hz|b|f Hf|s Hs|n s Hn|s|s]; try reflexivity.
    - destruct b; reflexivity.
    - unfold read_back, convert_to. rewrite string_iri_type. cbn [stored_as fetch str_of].
      unfold to_string. replace (_ && _) with false; [reflexivity|]. symmetry.
      destruct (n =? 0)%Z eqn:E; [reflexivity|]. apply Z.eqb_neq in E. cbn. apply Z.ltb_ge. lia.
  Qed.

  (** A row is found by a condition with an equal value and by no other. *)
  Theorem C68_found : forall dt v w,
    storable dt v -> storable dt w ->
    found dt v w = Ok match v, w with
                      | PInt x, PInt y => Z.eqb x y
                      | PBool x, PBool y => Bool.eqb x y
                      | PFloat x, PFloat y => same_float x y
                      | PStr x, PStr y => str_eqb x y
                      | _, _ => false
                      end.
  Proof.
    intros dt v w Hv Hw. pose proof (write_storable dt v Hv) as Ev. pose proof (write_storable dt w Hw) as Ew.
    unfold SqlStore.found. rewrite Ev.
    unfold SqlStore.write in Ew. destruct (to_sqlite_datatype dt) as [ty|] eqn:Et; [|discriminate].
    destruct (convert_from _ (Leaf w) dt) as [[w'|]|]; try discriminate.
    destruct (bind_value _ _ w') as [p|]; [|discriminate]. cbn in Ew |- *. apply Ok_inj in Ew. rewrite Ew.
    f_equal. clear Ev Ew p w' Et ty. destruct Hv; inversion Hw; subst; try reflexivity; cbn.
    destruct b, b0; reflexivity.
  Qed.

  (** What happens to a string without maximal length, exactly. *)
  Theorem C68_strings : forall s,
    write_and_read (dt_of STRING) (PStr s) = Ok (PStr (if numeric s then show (f_of_text s) else s)).
  Proof.
    intros s. unfold SqlStore.write_and_read, SqlStore.write.
    change (to_sqlite_datatype (dt_of STRING)) with (Ok (lit "REAL")). change (affinity_of (lit "REAL")) with AReal.
    change (convert_from ?c (Leaf (PStr s)) (dt_of STRING)) with (Ok (Leaf (PStr (F:=F) s))). cbv beta iota.
    unfold bind_value, rmap, apply_affinity. destruct (numeric s); reflexivity.
  Qed.

  (** Refuted for strings that look like a number: a string of digits is never read back
      ([str] of a Python float contains a point, an exponent or letters). *)
  Theorem C68_digits_refuted : forall s,
    (forall f, ~ all_digits (show f)) -> all_digits s ->
    exists s', write_and_read (dt_of STRING) (PStr s) = Ok (PStr s') /\ s' <> s.
  Proof.
    intros s Hshow Hs. exists (show (f_of_text s)). rewrite C68_strings, digits_numeric by auto.
    split; [reflexivity|]. intros E. apply (Hshow (f_of_text s)). now rewrite E.
  Qed.

  (** Refuted for NaN and for integers beyond 64 bits. *)
  Theorem C68_nan_refuted : forall f, is_nan f = true ->
    write_and_read (dt_of FLOAT) (PFloat f) = Err TypeError.
  Proof.
    intros f Hf. unfold SqlStore.write_and_read, SqlStore.write.
    change (to_sqlite_datatype (dt_of FLOAT)) with (Ok (lit "REAL")). change (affinity_of (lit "REAL")) with AReal.
    change (convert_from ?c (Leaf (PFloat f)) (dt_of FLOAT)) with (Ok (Leaf (PFloat f))). cbv beta iota.
    unfold bind_value. rewrite Hf. reflexivity.
  Qed.
  Theorem C68_big_int_refuted : forall z, ~ (- 2 ^ 63 <= z < 2 ^ 63)%Z ->
    write_and_read (dt_of INT) (PInt z) = Err ValueError.
  Proof.
    intros z Hz. unfold SqlStore.write_and_read, SqlStore.write.
    change (to_sqlite_datatype (dt_of INT)) with (Ok (lit "INTEGER")). change (affinity_of (lit "INTEGER")) with AInteger.
    change (convert_from ?c (Leaf (PInt z)) (dt_of INT)) with (Ok (Leaf (PInt (F:=F) z))). cbv beta iota.
    unfold bind_value. destruct (_ && _) eqn:E; [|reflexivity]. exfalso. apply Hz.
    apply andb_true_iff in E as [E1 E2]. split; [now apply Z.leb_le | now apply Z.ltb_lt].
  Qed.
End Values.

(** ** Examples *)

Example C68_numeric_examples :
  map numeric [lit "007"; lit "1e5"; lit " -3.5 "; lit ".5"; lit "5."; lit "+1E-3"] = repeat true 6
  /\ map numeric [lit ""; lit "."; lit "1.2.3"; lit "e5"; lit "1e"; lit "0x10"; lit "Freiburg"; lit "1 2"; lit "nan"]
     = repeat false 9.
Proof. split; vm_compute; reflexivity. Qed.

(** A small number type: integers shown with ".0". *)
Section Example.
  Let show (z : Z) : str := decZ z ++ lit ".0".
  Let of_text (s : str) : Z := match int_of_str s with Ok z => z | Err _ => 0%Z end.
  Let war := write_and_read Z (fun z => z) of_text (fun _ => false) (fun z => z) (Z.eqb 0) show
                            (fun s => None) (fun z => Some z).

  Example C68_show_ok : forall f, ~ all_digits (show f).
  Proof.
    intros f [_ H]. rewrite Forall_forall in H. assert (is_digit 46%N = true); [|discriminate].
    apply H. unfold show. apply in_or_app. right. left. reflexivity.
  Qed.
  Example C68_postcode : war (dt_of STRING) (PStr (lit "01067")) = Ok (PStr (lit "1067.0"))
    /\ war (Some (string_iri 5)) (PStr (lit "01067")) = Ok (PStr (lit "01067"))
    /\ war (dt_of STRING) (PStr (lit "Freiburg")) = Ok (PStr (lit "Freiburg"))
    /\ war (dt_of INT) (PInt 42) = Ok (PInt 42) /\ war (dt_of BOOL) (PBool true) = Ok (PBool true).
  Proof. repeat split; vm_compute; reflexivity. Qed.
End Example.

Print Assumptions C68_column_types.
Print Assumptions C68_roundtrip.
Print Assumptions C68_found.
Print Assumptions C68_strings.
Print Assumptions C68_digits_refuted.
Print Assumptions C68_nan_refuted.
Print Assumptions C68_big_int_refuted.
