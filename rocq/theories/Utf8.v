(** UTF-8, as used by [str.encode("utf-8")] and [bytes.decode("utf-8")] (strict
    error handler) in osp/core/session/transport/communication_utils.py
    lines 33, 61, 76, 104.

    A Python [str] is modelled as the list of its code points (N), [bytes] as a
    list of N below 256.  Python strings may contain lone surrogates
    (U+D800..U+DFFF); encoding those raises UnicodeEncodeError. *)
From Coq Require Import List NArith ZArith Lia Bool.
From Coq Require Import ZifyBool ZifyN ZifyNat.
From Verif Require Import Prelude.
Import ListNotations.
Open Scope N_scope.

Ltac Zify.zify_post_hook ::= Z.div_mod_to_equations.

Definition str := list N.
Definition bytes := list N.

(** Unicode scalar values: the code points that UTF-8 can encode. *)
Definition scalar (c : N) : bool :=
  (c <? 0xD800) || ((0xE000 <=? c) && (c <? 0x110000)).

(** CPython's encoder for one code point (Objects/stringlib/codecs.h). *)
Definition enc1 (c : N) : res bytes :=
  if c <? 0x80 then Ok [c]
  else if c <? 0x800 then Ok [0xC0 + c / 64; 0x80 + c mod 64]
  else if negb (scalar c) then Err UnicodeError
  else if c <? 0x10000 then
    Ok [0xE0 + c / 4096; 0x80 + (c / 64) mod 64; 0x80 + c mod 64]
  else
    Ok [0xF0 + c / 262144; 0x80 + (c / 4096) mod 64;
        0x80 + (c / 64) mod 64; 0x80 + c mod 64].

Fixpoint utf8_encode (s : str) : res bytes :=
  match s with
  | [] => Ok []
  | c :: s' =>
      match enc1 c with
      | Err e => Err e
      | Ok b => match utf8_encode s' with
                | Err e => Err e
                | Ok b' => Ok (b ++ b')
                end
      end
  end.

Definition cont (b : N) : bool := (0x80 <=? b) && (b <? 0xC0).

(** CPython's strict decoder: rejects stray continuation bytes, overlong
    forms, surrogates, values above U+10FFFF and truncated sequences. *)
Fixpoint utf8_decode (bs : bytes) : res str :=
  match bs with
  | [] => Ok []
  | b0 :: r0 =>
    if b0 <? 0x80 then
      match utf8_decode r0 with Ok s => Ok (b0 :: s) | Err e => Err e end
    else if (0xC2 <=? b0) && (b0 <? 0xE0) then
      match r0 with
      | b1 :: r1 =>
        if cont b1 then
          match utf8_decode r1 with
          | Ok s => Ok ((b0 - 0xC0) * 64 + (b1 - 0x80) :: s)
          | Err e => Err e end
        else Err UnicodeError
      | _ => Err UnicodeError
      end
    else if (0xE0 <=? b0) && (b0 <? 0xF0) then
      match r0 with
      | b1 :: b2 :: r2 =>
        if cont b1 && cont b2 then
          let c := (b0 - 0xE0) * 4096 + (b1 - 0x80) * 64 + (b2 - 0x80) in
          if (0x800 <=? c) && scalar c then
            match utf8_decode r2 with Ok s => Ok (c :: s) | Err e => Err e end
          else Err UnicodeError
        else Err UnicodeError
      | _ => Err UnicodeError
      end
    else if (0xF0 <=? b0) && (b0 <? 0xF5) then
      match r0 with
      | b1 :: b2 :: b3 :: r3 =>
        if cont b1 && cont b2 && cont b3 then
          let c := (b0 - 0xF0) * 262144 + (b1 - 0x80) * 4096
                   + (b2 - 0x80) * 64 + (b3 - 0x80) in
          if (0x10000 <=? c) && (c <? 0x110000) then
            match utf8_decode r3 with Ok s => Ok (c :: s) | Err e => Err e end
          else Err UnicodeError
        else Err UnicodeError
      | _ => Err UnicodeError
      end
    else Err UnicodeError
  end.

(** * Lemmas *)

Lemma enc1_ok c : scalar c = true -> exists b, enc1 c = Ok b.
Proof.
  intros H; unfold enc1.
  destruct (c <? 0x80); [eauto|]. destruct (c <? 0x800); [eauto|].
  rewrite H; cbn [negb]. destruct (c <? 0x10000); eauto.
Qed.

Lemma enc1_scalar c b : enc1 c = Ok b -> scalar c = true.
Proof.
  unfold enc1. destruct (c <? 0x80) eqn:H1.
  { intros _. unfold scalar. lia. }
  destruct (c <? 0x800) eqn:H2.
  { intros _. unfold scalar. lia. }
  destruct (scalar c); cbn [negb]; [auto|discriminate].
Qed.

Lemma utf8_encode_ok s :
  forallb scalar s = true <-> exists b, utf8_encode s = Ok b.
Proof.
  induction s as [|c s IH]; cbn [forallb utf8_encode].
  - split; eauto.
  - rewrite andb_true_iff. split.
    + intros [Hc Hs]. destruct (enc1_ok c Hc) as [b ->].
      apply IH in Hs as [b' ->]. eauto.
    + intros [b Hb]. destruct (enc1 c) as [b1|] eqn:E1; [|discriminate].
      destruct (utf8_encode s) as [b2|] eqn:E2; [|discriminate].
      split; [eapply enc1_scalar; eauto | apply IH; eauto].
Qed.

Definition push_char (c : N) (m : res str) : res str :=
  match m with Ok s => Ok (c :: s) | Err e => Err e end.

Lemma dec1 b0 r : b0 < 0x80 -> utf8_decode (b0 :: r) = push_char b0 (utf8_decode r).
Proof.
  intros H. cbn [utf8_decode]. replace (b0 <? 0x80) with true by lia. reflexivity.
Qed.

Lemma dec2 b0 b1 r :
  0xC2 <= b0 < 0xE0 -> cont b1 = true ->
  utf8_decode (b0 :: b1 :: r) =
  push_char ((b0 - 0xC0) * 64 + (b1 - 0x80)) (utf8_decode r).
Proof.
  intros H H1. cbn [utf8_decode]. replace (b0 <? 0x80) with false by lia.
  replace ((0xC2 <=? b0) && (b0 <? 0xE0)) with true by lia.
  rewrite H1. reflexivity.
Qed.

Lemma dec3 b0 b1 b2 r c :
  0xE0 <= b0 < 0xF0 -> cont b1 = true -> cont b2 = true ->
  (b0 - 0xE0) * 4096 + (b1 - 0x80) * 64 + (b2 - 0x80) = c ->
  0x800 <= c -> scalar c = true ->
  utf8_decode (b0 :: b1 :: b2 :: r) = push_char c (utf8_decode r).
Proof.
  intros H H1 H2 Hc H3 H4. cbn [utf8_decode].
  replace (b0 <? 0x80) with false by lia.
  replace ((0xC2 <=? b0) && (b0 <? 0xE0)) with false by lia.
  replace ((0xE0 <=? b0) && (b0 <? 0xF0)) with true by lia.
  rewrite H1, H2; cbn [andb]. cbv zeta. rewrite Hc, H4.
  replace (0x800 <=? c) with true by lia. reflexivity.
Qed.

Lemma dec4 b0 b1 b2 b3 r c :
  0xF0 <= b0 < 0xF5 -> cont b1 = true -> cont b2 = true -> cont b3 = true ->
  (b0 - 0xF0) * 262144 + (b1 - 0x80) * 4096 + (b2 - 0x80) * 64 + (b3 - 0x80) = c ->
  0x10000 <= c < 0x110000 ->
  utf8_decode (b0 :: b1 :: b2 :: b3 :: r) = push_char c (utf8_decode r).
Proof.
  intros H H1 H2 H3 Hc H4. cbn [utf8_decode].
  replace (b0 <? 0x80) with false by lia.
  replace ((0xC2 <=? b0) && (b0 <? 0xE0)) with false by lia.
  replace ((0xE0 <=? b0) && (b0 <? 0xF0)) with false by lia.
  replace ((0xF0 <=? b0) && (b0 <? 0xF5)) with true by lia.
  rewrite H1, H2, H3; cbn [andb]. cbv zeta. rewrite Hc.
  replace ((0x10000 <=? c) && (c <? 0x110000)) with true by lia. reflexivity.
Qed.

Lemma dec_enc1 c b r :
  enc1 c = Ok b -> utf8_decode (b ++ r) = push_char c (utf8_decode r).
Proof.
  intros H. pose proof (enc1_scalar _ _ H) as Hs. pose proof Hs as Hs0. unfold enc1 in H.
  unfold scalar in Hs.
  destruct (c <? 0x80) eqn:H1.
  { apply Ok_inj in H; subst b. cbn [app]. apply dec1. lia. }
  destruct (c <? 0x800) eqn:H2.
  { apply Ok_inj in H; subst b. cbn [app].
    rewrite dec2; [f_equal; lia | lia | unfold cont; lia]. }
  rewrite Hs0 in H; cbn [negb] in H.
  destruct (c <? 0x10000) eqn:H3.
  { apply Ok_inj in H; subst b. cbn [app].
    apply dec3; [lia | unfold cont; lia | unfold cont; lia | lia | lia | exact Hs0]. }
  apply Ok_inj in H; subst b. cbn [app].
  apply dec4; [lia | unfold cont; lia | unfold cont; lia | unfold cont; lia | lia | lia].
Qed.

Lemma utf8_roundtrip s b : utf8_encode s = Ok b -> utf8_decode b = Ok s.
Proof.
  revert b; induction s as [|c s IH]; cbn [utf8_encode]; intros b H.
  - injection H as <-. reflexivity.
  - destruct (enc1 c) as [b1|] eqn:E1; [|discriminate].
    destruct (utf8_encode s) as [b2|] eqn:E2; [|discriminate].
    injection H as <-. rewrite (dec_enc1 _ _ _ E1), (IH b2 eq_refl). reflexivity.
Qed.

Lemma utf8_encode_nil s : utf8_encode s = Ok [] <-> s = [].
Proof.
  split; [|intros ->; reflexivity].
  intros H. apply utf8_roundtrip in H. cbn in H. congruence.
Qed.
