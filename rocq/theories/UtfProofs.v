(** The UTF-8 validator and the UTF-16 decoder against their specification. *)
From Coq Require Import NArith ZArith List Bool Lia ZifyBool ZifyNat ZifyN.
From Coq.Strings Require Import Byte.
From Verif Require Import Base BaseFacts Utf SpecUtf.
Import ListNotations.
Open Scope N_scope.

Lemma utf8_char_valid c rest : scalar c -> utf8_valid (utf8_char c ++ rest) = utf8_valid rest.
Proof.
  intro H. unfold utf8_char, scalar in *.
  destruct (N.ltb_spec c 0x80).
  { cbn [app utf8_valid]. rewrite bn_nb_small by lia. destruct (N.ltb_spec c 128); [auto|lia]. }
  destruct (N.ltb_spec c 0x800).
  { assert (c / 64 < 32 /\ 2 <= c / 64 /\ c mod 64 < 64) by dlia.
    cbn [app utf8_valid]. unfold cont, in_range. rewrite !bn_nb_small by lia.
    destruct (N.ltb_spec (192 + c / 64) 128); [lia|].
    replace ((194 <=? 192 + c / 64) && (192 + c / 64 <=? 223)) with true by lia.
    replace ((128 <=? 128 + c mod 64) && (128 + c mod 64 <=? 191)) with true by lia. reflexivity. }
  destruct (N.ltb_spec c 0x10000).
  { assert (c / 4096 < 16 /\ c / 64 mod 64 < 64 /\ c mod 64 < 64 /\
            (c / 4096 = 0 -> 32 <= c / 64 mod 64) /\
            (c / 4096 = 13 -> c / 64 mod 64 < 32)) by dlia.
    cbn [app utf8_valid]. unfold cont, in_range. rewrite !bn_nb_small by lia.
    destruct (N.ltb_spec (224 + c / 4096) 128); [lia|].
    replace ((194 <=? 224 + c / 4096) && (224 + c / 4096 <=? 223)) with false by lia.
    replace ((224 <=? 224 + c / 4096) && (224 + c / 4096 <=? 239)) with true by lia.
    replace ((128 <=? 128 + c mod 64) && (128 + c mod 64 <=? 191)) with true by lia.
    destruct (N.eqb_spec (224 + c / 4096) 224).
    - replace ((160 <=? 128 + c / 64 mod 64) && (128 + c / 64 mod 64 <=? 191)) with true by lia. reflexivity.
    - destruct (N.eqb_spec (224 + c / 4096) 237).
      + replace ((128 <=? 128 + c / 64 mod 64) && (128 + c / 64 mod 64 <=? 159)) with true by lia. reflexivity.
      + replace ((128 <=? 128 + c / 64 mod 64) && (128 + c / 64 mod 64 <=? 191)) with true by lia. reflexivity. }
  { assert (c / 262144 < 5 /\ c / 4096 mod 64 < 64 /\ c / 64 mod 64 < 64 /\ c mod 64 < 64 /\
            (c / 262144 = 0 -> 16 <= c / 4096 mod 64) /\
            (c / 262144 = 4 -> c / 4096 mod 64 < 16)) by dlia.
    cbn [app utf8_valid]. unfold cont, in_range. rewrite !bn_nb_small by lia.
    destruct (N.ltb_spec (240 + c / 262144) 128); [lia|].
    replace ((194 <=? 240 + c / 262144) && (240 + c / 262144 <=? 223)) with false by lia.
    replace ((224 <=? 240 + c / 262144) && (240 + c / 262144 <=? 239)) with false by lia.
    replace ((240 <=? 240 + c / 262144) && (240 + c / 262144 <=? 244)) with true by lia.
    replace ((128 <=? 128 + c mod 64) && (128 + c mod 64 <=? 191)) with true by lia.
    replace ((128 <=? 128 + c / 64 mod 64) && (128 + c / 64 mod 64 <=? 191)) with true by lia.
    destruct (N.eqb_spec (240 + c / 262144) 240).
    - replace ((144 <=? 128 + c / 4096 mod 64) && (128 + c / 4096 mod 64 <=? 191)) with true by lia. reflexivity.
    - destruct (N.eqb_spec (240 + c / 262144) 244).
      + replace ((128 <=? 128 + c / 4096 mod 64) && (128 + c / 4096 mod 64 <=? 143)) with true by lia. reflexivity.
      + replace ((128 <=? 128 + c / 4096 mod 64) && (128 + c / 4096 mod 64 <=? 191)) with true by lia. reflexivity. }
Qed.

Lemma utf8_encode_valid cs : Forall scalar cs -> utf8_valid (utf8_encode cs) = true.
Proof.
  unfold utf8_encode. induction 1; simpl; auto. rewrite utf8_char_valid; auto.
Qed.

Lemma dm q r k : r < k -> (q * k + r) / k = q /\ (q * k + r) mod k = r.
Proof.
  intro H. split.
  - symmetry. apply N.div_unique with r; lia.
  - symmetry. apply N.mod_unique with q; lia.
Qed.

Lemma digits4 a b c d : b < 64 -> c < 64 -> d < 64 ->
  let x := a * 262144 + b * 4096 + c * 64 + d in
  x / 262144 = a /\ x / 4096 mod 64 = b /\ x / 64 mod 64 = c /\ x mod 64 = d /\
  x / 4096 = a * 64 + b.
Proof.
  intros Hb Hc Hd x.
  assert (x = ((a * 64 + b) * 64 + c) * 64 + d) as E by (unfold x; lia).
  destruct (dm ((a * 64 + b) * 64 + c) d 64 Hd) as [D1 M1].
  destruct (dm (a * 64 + b) c 64 Hc) as [D2 M2].
  destruct (dm a b 64 Hb) as [D3 M3].
  rewrite <- E in D1, M1.
  assert (x / 4096 = a * 64 + b) as F.
  { change 4096 with (64 * 64). rewrite <- N.div_div by lia. now rewrite D1, D2. }
  assert (x / 262144 = a) as G.
  { change 262144 with (4096 * 64). rewrite <- N.div_div by lia. now rewrite F, D3. }
  rewrite F, D1. auto.
Qed.

Lemma nb_eq n b : n = bn b -> nb n = b.
Proof. intros ->. apply nb_bn. Qed.

Lemma utf8_valid_decode n : forall bs, (length bs <= n)%nat -> utf8_valid bs = true -> is_utf8 bs.
Proof.
  induction n as [|n IH]; intros bs Hn H.
  - destruct bs; simpl in *; [|lia]. exists []. split; auto.
  - destruct bs as [|b0 r0]. { exists []. split; auto. }
    cbn [utf8_valid length] in *. pose proof (bn_lt b0).
    destruct (N.ltb_spec (bn b0) 128).
    { destruct (IH r0) as (cs & Hc & E); [lia|auto|].
      exists (bn b0 :: cs). split.
      - constructor; auto. left. lia.
      - unfold utf8_encode. cbn [map concat]. fold (utf8_encode cs). rewrite <- E.
        unfold utf8_char. destruct (N.ltb_spec (bn b0) 128); [|lia]. rewrite nb_bn. auto. }
    unfold in_range in H.
    destruct ((194 <=? bn b0) && (bn b0 <=? 223)) eqn:E1.
    { destruct r0 as [|b1 r1]; [discriminate|]. apply andb_true_iff in H as [C1 H].
      destruct (IH r1) as (cs & Hc & E); [simpl in *; lia|auto|].
      unfold cont, in_range in C1. pose proof (bn_lt b1).
      set (c := (bn b0 - 192) * 64 + (bn b1 - 128)).
      assert (128 <= c < 2048 /\ c / 64 = bn b0 - 192 /\ c mod 64 = bn b1 - 128) as (B & D1 & D2).
      { unfold c. clear IH E Hc H. dlia. }
      exists (c :: cs). split.
      - constructor; auto. left. lia.
      - unfold utf8_encode. cbn [map concat]. fold (utf8_encode cs). rewrite <- E.
        unfold utf8_char. destruct (N.ltb_spec c 128); [lia|].
        destruct (N.ltb_spec c 2048); [|lia]. cbn [app]. rewrite D1, D2.
        rewrite (nb_eq _ b0), (nb_eq _ b1) by lia. auto. }
    destruct ((224 <=? bn b0) && (bn b0 <=? 239)) eqn:E2.
    { destruct r0 as [|b1 [|b2 r2]]; try discriminate.
      apply andb_true_iff in H as [C1 H]. apply andb_true_iff in C1 as [C1 C2].
      destruct (IH r2) as (cs & Hc & E); [simpl in *; lia|auto|].
      unfold cont, in_range in C1, C2. pose proof (bn_lt b1). pose proof (bn_lt b2).
      assert (128 <= bn b1 <= 191 /\ 128 <= bn b2 <= 191 /\
              (bn b0 = 224 -> 160 <= bn b1) /\ (bn b0 = 237 -> bn b1 <= 159)) as (B1 & B2 & B3 & B4).
      { clear IH E Hc H. destruct (N.eqb_spec (bn b0) 224); destruct (N.eqb_spec (bn b0) 237); lia. }
      clear C1 C2.
      set (c := (bn b0 - 224) * 4096 + (bn b1 - 128) * 64 + (bn b2 - 128)).
      assert (2048 <= c < 65536 /\ c / 4096 = bn b0 - 224 /\ c / 64 mod 64 = bn b1 - 128 /\
              c mod 64 = bn b2 - 128 /\ (c < 0xd800 \/ 0xe000 <= c)) as (B & D1 & D2 & D3 & D4).
      { destruct (digits4 0 (bn b0 - 224) (bn b1 - 128) (bn b2 - 128)) as (_ & X1 & X2 & X3 & X4);
          [lia|lia|lia|].
        replace (0 * 262144 + (bn b0 - 224) * 4096 + (bn b1 - 128) * 64 + (bn b2 - 128)) with c in *
          by (unfold c; lia).
        repeat split; auto; try (rewrite X4; lia); clear X1 X2 X3 X4; unfold c; lia. }
      clearbody c.
      exists (c :: cs). split.
      - constructor; auto. unfold scalar. lia.
      - unfold utf8_encode. cbn [map concat]. fold (utf8_encode cs). rewrite <- E.
        unfold utf8_char. destruct (N.ltb_spec c 128); [lia|].
        destruct (N.ltb_spec c 2048); [lia|].
        destruct (N.ltb_spec c 65536); [|lia]. cbn [app]. rewrite D1, D2, D3.
        rewrite (nb_eq _ b0), (nb_eq _ b1), (nb_eq _ b2) by lia. auto. }
    destruct ((240 <=? bn b0) && (bn b0 <=? 244)) eqn:E3; [|discriminate].
    { destruct r0 as [|b1 [|b2 [|b3 r3]]]; try discriminate.
      apply andb_true_iff in H as [C1 H]. apply andb_true_iff in C1 as [C1 C3].
      apply andb_true_iff in C1 as [C1 C2].
      destruct (IH r3) as (cs & Hc & E); [simpl in *; lia|auto|].
      unfold cont, in_range in C1, C2, C3.
      pose proof (bn_lt b1). pose proof (bn_lt b2). pose proof (bn_lt b3).
      assert (128 <= bn b1 <= 191 /\ 128 <= bn b2 <= 191 /\ 128 <= bn b3 <= 191 /\
              (bn b0 = 240 -> 144 <= bn b1) /\ (bn b0 = 244 -> bn b1 <= 143))
        as (B1 & B2 & B3 & B4 & B5).
      { clear IH E Hc H. destruct (N.eqb_spec (bn b0) 240); destruct (N.eqb_spec (bn b0) 244); lia. }
      clear C1 C2 C3.
      set (c := (bn b0 - 240) * 262144 + (bn b1 - 128) * 4096 + (bn b2 - 128) * 64 + (bn b3 - 128)).
      assert (65536 <= c < 0x110000 /\ c / 262144 = bn b0 - 240 /\ c / 4096 mod 64 = bn b1 - 128 /\
              c / 64 mod 64 = bn b2 - 128 /\ c mod 64 = bn b3 - 128) as (B & D1 & D2 & D3 & D4).
      { destruct (digits4 (bn b0 - 240) (bn b1 - 128) (bn b2 - 128) (bn b3 - 128))
          as (X0 & X1 & X2 & X3 & _); [lia|lia|lia|].
        fold c in X0, X1, X2, X3.
        repeat split; auto; clear X0 X1 X2 X3; unfold c; lia. }
      clearbody c.
      exists (c :: cs). split.
      - constructor; auto. unfold scalar. lia.
      - unfold utf8_encode. cbn [map concat]. fold (utf8_encode cs). rewrite <- E.
        unfold utf8_char. destruct (N.ltb_spec c 128); [lia|].
        destruct (N.ltb_spec c 2048); [lia|].
        destruct (N.ltb_spec c 65536); [lia|]. cbn [app]. rewrite D1, D2, D3, D4.
        rewrite (nb_eq _ b0), (nb_eq _ b1), (nb_eq _ b2), (nb_eq _ b3) by lia. auto. }
Qed.

Lemma utf8_valid_spec bs : utf8_valid bs = true <-> is_utf8 bs.
Proof.
  split.
  - apply (utf8_valid_decode (length bs)). lia.
  - intros (cs & H & ->). now apply utf8_encode_valid.
Qed.

Lemma utf16_decode_char c rest : scalar c ->
  utf16_decode (utf16_char c ++ rest) =
  match utf16_decode rest with Some cs => Some (c :: cs) | None => None end.
Proof.
  intro H. unfold utf16_char, scalar in *.
  destruct (N.ltb_spec c 0x10000).
  - cbn [app utf16_decode]. unfold in_range.
    replace ((55296 <=? c) && (c <=? 56319)) with false by lia.
    replace ((56320 <=? c) && (c <=? 57343)) with false by lia. reflexivity.
  - cbn [app utf16_decode]. unfold in_range.
    assert ((c - 65536) / 1024 < 1024 /\ (c - 65536) mod 1024 < 1024 /\
            c = 65536 + (c - 65536) / 1024 * 1024 + (c - 65536) mod 1024) as (B1 & B2 & B3) by dlia.
    set (q := (c - 65536) / 1024) in *. set (r := (c - 65536) mod 1024) in *.
    replace ((55296 <=? 55296 + q) && (55296 + q <=? 56319)) with true by lia.
    replace ((56320 <=? 56320 + r) && (56320 + r <=? 57343)) with true by lia.
    replace (65536 + (55296 + q - 55296) * 1024 + (56320 + r - 56320)) with c by lia.
    reflexivity.
Qed.

Lemma utf16_decode_encode cs : Forall scalar cs -> utf16_decode (utf16_encode cs) = Some cs.
Proof.
  unfold utf16_encode. induction 1; simpl; auto. rewrite utf16_decode_char; auto. now rewrite IHForall.
Qed.

Lemma utf16_decode_sound n : forall us cs, (length us <= n)%nat ->
  Forall (fun u => u < 65536) us ->
  utf16_decode us = Some cs -> Forall scalar cs /\ us = utf16_encode cs.
Proof.
  induction n as [|n IH]; intros us cs Hn Hu H.
  - destruct us; simpl in *; [|lia]. injection H as <-. split; auto.
  - destruct us as [|u r]. { injection H as <-. split; auto. }
    inversion Hu as [|? ? Hu0 Hur]; subst.
    cbn [utf16_decode length] in *. unfold in_range in H.
    destruct ((55296 <=? u) && (u <=? 56319)) eqn:E1.
    + destruct r as [|v r]; [discriminate|].
      inversion Hur; subst.
      destruct ((56320 <=? v) && (v <=? 57343)) eqn:E2; [|discriminate].
      destruct (utf16_decode r) as [cs'|] eqn:E; [|discriminate].
      destruct (IH r cs') as [H1 ->]; auto. { simpl in Hn; lia. }
      remember (65536 + (u - 55296) * 1024 + (v - 56320)) as c eqn:Ec.
      assert (cs = c :: cs') as -> by congruence.
      assert (65536 <= c < 0x110000 /\ (c - 65536) / 1024 = u - 55296 /\ (c - 65536) mod 1024 = v - 56320)
        as (B & D1 & D2).
      { clear - Ec E1 E2. subst c. split; [lia|].
        replace (65536 + (u - 55296) * 1024 + (v - 56320) - 65536)
          with ((u - 55296) * 1024 + (v - 56320)) by lia.
        apply dm. lia. }
      clear Ec. split.
      * constructor; auto. unfold scalar. lia.
      * unfold utf16_encode. cbn [map concat]. fold (utf16_encode cs'). unfold utf16_char.
        destruct (N.ltb_spec c 65536); [lia|]. cbn [app]. rewrite D1, D2. f_equal; [lia|]. f_equal. lia.
    + destruct ((56320 <=? u) && (u <=? 57343)) eqn:E2; [discriminate|].
      destruct (utf16_decode r) as [cs'|] eqn:E; [|discriminate]. injection H as <-.
      destruct (IH r cs') as [H1 ->]; auto. { lia. }
      split.
      * constructor; auto. unfold scalar. lia.
      * unfold utf16_encode. cbn [map concat]. fold (utf16_encode cs'). unfold utf16_char.
        destruct (N.ltb_spec u 65536); [|lia]. reflexivity.
Qed.

Lemma utf16_decode_spec us cs : Forall (fun u => u < 65536) us ->
  (utf16_decode us = Some cs <-> Forall scalar cs /\ us = utf16_encode cs).
Proof.
  intro Hu. split.
  - apply (utf16_decode_sound (length us)); auto.
  - intros [H ->]. now apply utf16_decode_encode.
Qed.
