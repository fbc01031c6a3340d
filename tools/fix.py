s=open('Utf8.v').read()
i=s.index("Lemma dec_enc1"); j=s.index("Lemma utf8_roundtrip")
new='''Definition push_char (c : N) (m : res str) : res str :=
  match m with Ok s => Ok (c :: s) | Err e => Err e end.

Lemma dec1 b0 r : b0 < 0x80 -> utf8_decode (b0 :: r) = push_char b0 (utf8_decode r).
Proof.
  intros H. cbn [utf8_decode]. replace (b0 <? 0x80) with true by lia. reflexivity.
Qed.

Lemma dec2 b0 b1 r :
  0xC2 <= b0 < 0xE0 -> cont b1 = true ->
  utf8_decode (b0 :: b1 :: r) =
  push_char ((b0 - 0xC0) * 64 + (b1 - 0x80)) (utf8_decode r).
Proof.
  intros H H1. cbn [utf8_decode]. replace (b0 <? 0x80) with false by lia.
  replace ((0xC2 <=? b0) && (b0 <? 0xE0)) with true by lia.
  rewrite H1. reflexivity.
Qed.

Lemma dec3 b0 b1 b2 r c :
  0xE0 <= b0 < 0xF0 -> cont b1 = true -> cont b2 = true ->
  (b0 - 0xE0) * 4096 + (b1 - 0x80) * 64 + (b2 - 0x80) = c ->
  0x800 <= c -> scalar c = true ->
  utf8_decode (b0 :: b1 :: b2 :: r) = push_char c (utf8_decode r).
Proof.
  intros H H1 H2 Hc H3 H4. cbn [utf8_decode].
  replace (b0 <? 0x80) with false by lia.
  replace ((0xC2 <=? b0) && (b0 <? 0xE0)) with false by lia.
  replace ((0xE0 <=? b0) && (b0 <? 0xF0)) with true by lia.
  rewrite H1, H2; cbn [andb]. cbv zeta. rewrite Hc, H4.
  replace (0x800 <=? c) with true by lia. reflexivity.
Qed.

Lemma dec4 b0 b1 b2 b3 r c :
  0xF0 <= b0 < 0xF5 -> cont b1 = true -> cont b2 = true -> cont b3 = true ->
  (b0 - 0xF0) * 262144 + (b1 - 0x80) * 4096 + (b2 - 0x80) * 64 + (b3 - 0x80) = c ->
  0x10000 <= c < 0x110000 ->
  utf8_decode (b0 :: b1 :: b2 :: b3 :: r) = push_char c (utf8_decode r).
Proof.
  intros H H1 H2 H3 Hc H4. cbn [utf8_decode].
  replace (b0 <? 0x80) with false by lia.
  replace ((0xC2 <=? b0) && (b0 <? 0xE0)) with false by lia.
  replace ((0xE0 <=? b0) && (b0 <? 0xF0)) with false by lia.
  replace ((0xF0 <=? b0) && (b0 <? 0xF5)) with true by lia.
  rewrite H1, H2, H3; cbn [andb]. cbv zeta. rewrite Hc.
  replace ((0x10000 <=? c) && (c <? 0x110000)) with true by lia. reflexivity.
Qed.

Lemma dec_enc1 c b r :
  enc1 c = Ok b -> utf8_decode (b ++ r) = push_char c (utf8_decode r).
Proof.
  intros H. pose proof (enc1_scalar _ _ H) as Hs. pose proof Hs as Hs0. unfold enc1 in H.
  unfold scalar in Hs.
  destruct (c <? 0x80) eqn:H1.
  { injection H as <-. cbn [app]. apply dec1. lia. }
  destruct (c <? 0x800) eqn:H2.
  { injection H as <-. cbn [app].
    rewrite dec2; [f_equal; lia | lia | unfold cont; lia]. }
  rewrite Hs0 in H; cbn [negb] in H.
  destruct (c <? 0x10000) eqn:H3.
  { injection H as <-. cbn [app].
    apply dec3; [lia | unfold cont; lia | unfold cont; lia | lia | lia | exact Hs0]. }
  injection H as <-. cbn [app].
  apply dec4; [lia | unfold cont; lia | unfold cont; lia | unfold cont; lia | lia | lia].
Qed.

'''
s=s[:i]+new+s[j:]
open('Utf8.v','w').write(s)
