(** Properties C01-C03: the byte reader. *)
From Coq Require Import NArith ZArith String List Bool Lia.
From Coq.Strings Require Import Byte.
From Verif Require Import Base Utf BinaryReader ParseSpec SpecBytes SpecUtf BaseFacts ReaderFacts
  PeProofs UtfProofs ReaderProofs.
Import ListNotations.
Open Scope N_scope.

(** C01: reads and peeks of [n] bytes at the cursor. *)
Theorem C01_read_exact : forall p n data pos, slice_ok data -> pos + n < 2 ^ 64 ->
  (forall bs, bytes_at data pos bs -> len bs = n ->
     read p n (mkReader data pos) = Ok (Some bs) (mkReader data (pos + n)) /\
     peek p n (mkReader data pos) = Ok (Some bs) (mkReader data pos)) /\
  (len data < pos + n ->
     read p n (mkReader data pos) = Ok None (mkReader data pos) /\
     peek p n (mkReader data pos) = Ok None (mkReader data pos)).
Proof. exact read_spec. Qed.
Print Assumptions C01_read_exact.

Example C01_read_exact_ex :
  slice_ok [x01; x02; x03; x04; x05] /\ 1 + 4 < 2 ^ 64 /\
  bytes_at [x01; x02; x03; x04; x05] 1 [x02; x03; x04; x05] /\
  read Debug 4 (mkReader [x01; x02; x03; x04; x05] 1) =
    Ok (Some [x02; x03; x04; x05]) (mkReader [x01; x02; x03; x04; x05] 5).
Proof.
  repeat split; try reflexivity. exists [x01], []. split; reflexivity.
Qed.

(** C01: the typed read returns the little-endian number stored at the cursor. *)
Theorem C01_read_little_endian : forall p n e data pos v, slice_ok data -> pos + n < 2 ^ 64 ->
  ((exists r, rd p n e (mkReader data pos) = Ok v r) <-> u_at data pos n v).
Proof. exact rd_spec. Qed.
Print Assumptions C01_read_little_endian.

Example C01_read_little_endian_ex :
  u_at [x01; x34; x12] 1 2 0x1234 /\
  rd Release 2 "e" (mkReader [x01; x34; x12] 1) = Ok 0x1234 (mkReader [x01; x34; x12] 3).
Proof.
  split; [|reflexivity]. exists [x34; x12]. repeat split. exists [x01], []. split; reflexivity.
Qed.

(** C01: no read leaves the buffer, whatever the cursor (even where the cursor addition
    overflows). *)
Theorem C01_read_memory_safe : forall p n data pos, slice_ok data -> pos < 2 ^ 64 -> n < 2 ^ 63 ->
  forall w, read p n (mkReader data pos) <> Ub w /\ peek p n (mkReader data pos) <> Ub w.
Proof. exact read_no_ub. Qed.
Print Assumptions C01_read_memory_safe.

Example C01_read_memory_safe_ex :
  slice_ok [x01] /\ 2 ^ 64 - 2 < 2 ^ 64 /\ 4 < 2 ^ 63 /\
  read Release 4 (mkReader [x01] (2 ^ 64 - 2)) = Ok None (mkReader [x01] (2 ^ 64 - 2)) /\
  read Release 2 (mkReader [x01] (2 ^ 64 - 2)) = Panic "slice index out of range".
Proof. repeat split; reflexivity. Qed.

(** C02: array reads, whenever the byte count does not overflow [usize]. *)
Theorem C02_read_array_exact_partial : forall p sz cnt data pos,
  slice_ok data -> pos + cnt * sz < 2 ^ 64 ->
  (forall bs, bytes_at data pos bs -> len bs = cnt * sz ->
     read_array p sz cnt (mkReader data pos) = Ok (Some bs) (mkReader data (pos + cnt * sz))) /\
  (len data < pos + cnt * sz ->
     read_array p sz cnt (mkReader data pos) = Ok None (mkReader data pos)).
Proof. exact read_array_spec. Qed.
Print Assumptions C02_read_array_exact_partial.

Example C02_read_array_exact_ex :
  bytes_at [x01; x02; x03; x04] 0 [x01; x02; x03; x04] /\
  read_array Debug 2 2 (mkReader [x01; x02; x03; x04] 0) =
    Ok (Some [x01; x02; x03; x04]) (mkReader [x01; x02; x03; x04] 4).
Proof. split; [|reflexivity]. exists [], []. split; reflexivity. Qed.

(** C02: peeking agrees with reading except when the array ends exactly at the end. *)
Theorem C02_peek_array_exact_partial : forall p sz cnt data pos,
  slice_ok data -> pos + cnt * sz < 2 ^ 64 -> pos + cnt * sz <> len data ->
  (forall bs, bytes_at data pos bs -> len bs = cnt * sz ->
     peek_array p sz cnt (mkReader data pos) = Ok (Some bs) (mkReader data pos)) /\
  (len data < pos + cnt * sz ->
     peek_array p sz cnt (mkReader data pos) = Ok None (mkReader data pos)).
Proof. exact peek_array_spec. Qed.
Print Assumptions C02_peek_array_exact_partial.

Example C02_peek_array_exact_ex :
  bytes_at [x4d; x5a; x00] 0 [x4d; x5a] /\ 0 + 2 * 1 <> len [x4d; x5a; x00] /\
  peek_array Debug 1 2 (mkReader [x4d; x5a; x00] 0) = Ok (Some [x4d; x5a]) (mkReader [x4d; x5a; x00] 0).
Proof. repeat split; try reflexivity; try discriminate. exists [], [x00]. split; reflexivity. Qed.

(** C02 is false: an array that ends exactly at the end of the buffer cannot be peeked,
    although reading it succeeds. *)
Theorem C02_peek_array_exact_fit_refuted : forall p sz cnt data pos,
  slice_ok data -> pos + cnt * sz = len data ->
  exists bs, read_array p sz cnt (mkReader data pos) = Ok (Some bs) (mkReader data (len data)) /\
    peek_array p sz cnt (mkReader data pos) = Ok None (mkReader data pos).
Proof.
  intros p sz cnt data pos Hs He. unfold slice_ok in Hs. rewrite pow63 in Hs.
  eexists. rewrite read_array_ok by (simpl; auto; lia).
  rewrite peek_array_none by (simpl; rewrite ?pow64; lia).
  cbn [rdata rpos]. rewrite He. split; reflexivity.
Qed.
Print Assumptions C02_peek_array_exact_fit_refuted.

Example C02_peek_array_exact_fit_ex :
  0 + 2 * 1 = len [x4d; x5a] /\
  peek_array Debug 1 2 (mkReader [x4d; x5a] 0) = Ok None (mkReader [x4d; x5a] 0).
Proof. split; reflexivity. Qed.

(** C02 is false: in a release build an overflowing byte count reads outside the buffer. *)
Theorem C02_read_array_overflow_refuted :
  exists sz cnt data pos w, cnt < 2 ^ 64 /\ slice_ok data /\
    read_array Release sz cnt (mkReader data pos) = Ub w.
Proof. exists 4, (2 ^ 62), [x00], 0. eexists. repeat split; reflexivity. Qed.
Print Assumptions C02_read_array_overflow_refuted.

(** C03: C strings. *)
Theorem C03_c_string : forall p data pos text, slice_ok data ->
  bytes_at data pos (text ++ [x00]) -> ~ In x00 text ->
  (is_utf8 text ->
   read_c_str p (mkReader data pos) = Ok (Some text) (mkReader data (pos + len text))) /\
  (~ is_utf8 text ->
   exists r, read_c_str p (mkReader data pos) = Ok None r /\ rdata r = data).
Proof. exact read_c_str_spec. Qed.
Print Assumptions C03_c_string.

Example C03_c_string_ex :
  bytes_at [x01; x23; x7e; x00; x05] 1 ([x23; x7e] ++ [x00]) /\ ~ In x00 [x23; x7e] /\
  is_utf8 [x23; x7e].
Proof.
  split; [|split].
  - exists [x01], [x05]. split; reflexivity.
  - intros [H|[H|[]]]; discriminate.
  - exists [0x23; 0x7e]. split; [|reflexivity]. repeat constructor.
Qed.

Theorem C03_c_string_unterminated : forall p data pos, pos <= len data ->
  (forall k, ~ bytes_at data (pos + k) [x00]) ->
  read_c_str p (mkReader data pos) = Ok None (mkReader data pos).
Proof. exact read_c_str_unterminated. Qed.
Print Assumptions C03_c_string_unterminated.

Example C03_c_string_unterminated_ex :
  1 <= len [x00; x41; x42] /\ (forall k, ~ bytes_at [x00; x41; x42] (1 + k) [x00]).
Proof.
  split; [discriminate|]. intros k (pre & post & E & L).
  destruct pre as [|a [|b [|c pre]]].
  - rewrite len_nil in L; lia.
  - discriminate E.
  - discriminate E.
  - injection E as _ _ _ E. destruct pre; discriminate E.
Qed.

(** C03: fixed-length strings stop at the first NUL (or use the whole length) and consume
    the whole length. *)
Theorem C03_fixed_string : forall p data pos text pad, slice_ok data -> ~ In x00 text ->
  bytes_at data pos (text ++ pad) -> (pad = [] \/ exists pad', pad = x00 :: pad') ->
  is_utf8 text ->
  read_str p (len (text ++ pad)) (mkReader data pos) =
  Ok (Some text) (mkReader data (pos + len (text ++ pad))).
Proof. exact read_str_spec. Qed.
Print Assumptions C03_fixed_string.

Example C03_fixed_string_ex :
  read_str Debug (len ([x76; x34] ++ [x00; x07])) (mkReader [x76; x34; x00; x07; x01] 0) =
  Ok (Some [x76; x34]) (mkReader [x76; x34; x00; x07; x01] 4).
Proof. reflexivity. Qed.

(** Outside the buffer the code panics instead of returning nothing. *)
Theorem C03_c_string_past_end : forall p data pos, len data < pos ->
  read_c_str p (mkReader data pos) = Panic "slice index out of range".
Proof.
  intros. unfold read_c_str. cbn [rdata rpos]. destruct (N.ltb_spec (len data) pos); [reflexivity|lia].
Qed.
Print Assumptions C03_c_string_past_end.

(** The validator used above accepts exactly the UTF-8 encodings of sequences of Unicode
    scalar values. *)
Theorem C03_utf8_validator : forall t, utf8_valid t = true <-> is_utf8 t.
Proof. exact utf8_valid_spec. Qed.
Print Assumptions C03_utf8_validator.
