(** C84: how much room is asked for in advance. *)
From Coq Require Import NArith String List Bool Lia.
From Coq.Strings Require Import Byte.
From Verif Require Import Base BinaryReader ParseSpec BaseFacts ReaderFacts Tables TablesTotal Blob SpecBlob
  Reserve SpecReserve ReserveFacts.
Import ListNotations.
Open Scope N_scope.

(** The decoders with notes behave like the decoders without, whatever the bytes. *)
Theorem C84_notes_tables : forall p d, strip (stream_asking p (start d)) = read_table_stream p (new_reader d).
Proof. intros p d. apply same_stream. Qed.

Theorem C84_notes_signatures : forall p d,
  strip (method_signature_asking p (start d)) = read_method_signature p (new_reader d) /\
  strip (property_signature_asking p (start d)) = read_property_signature p (new_reader d) /\
  strip (method_spec_asking p (start d)) = read_method_spec_sig p (new_reader d) /\
  strip (element_asking p (start d)) = read_element_type p (new_reader d).
Proof.
  intros p d. repeat split; [apply same_method_signature|apply same_property_signature|apply same_method_spec|apply same_element].
Qed.

(** Both sides of the first equation may be values: a stream with one field promised and given. *)
Definition one_field : list byte :=
  repeat x00 8 ++ le_enc 8 16 ++ le_enc 8 0 ++ le_enc 4 1 ++ [x06; x00; x0a; x00; x02; x00].
Example C84_notes_tables_ex : exists t s, stream_asking Debug (start one_field) = Ok t s /\
  map fd_name (tb_field t) = [10] /\ sum_of (a_log s) = 1.
Proof. eexists _, _. split; [vm_compute; reflexivity|]. split; reflexivity. Qed.

(** Tables that can be read: the room asked for is that of the rows that are there, and every
    row has at least two bytes in the file. *)
Theorem C84_tables_partial : forall p d t r, slice_ok d ->
  read_table_stream p (new_reader d) = Ok t r ->
  exists s, stream_asking p (start d) = Ok t s /\ rev (a_log s) = table_sizes t /\
            2 * sum_of (a_log s) <= len d.
Proof.
  intros p d t r S0 E. assert (Q := same_stream p (start d)). cbn [start a_reader] in Q. rewrite E in Q.
  destruct (stream_asking p (start d)) as [t' s| | | |] eqn:F; cbn [strip] in Q; try discriminate Q.
  injection Q as -> Q. exists s. split; [reflexivity|].
  unfold stream_asking in F. apply bind_inv_ok in F as (E0 & s1 & F1 & F2).
  unfold quietly in F1. cbn [start a_reader a_log] in F1.
  pose proof (calm_header p (new_reader d)) as C. unfold new_reader in C. cbn [rdata rpos] in C. specialize (C S0 ltac:(lia)).
  unfold new_reader in F1. destruct (stream_header p (mkReader d 0)) as [x r1| | | |] eqn:F; try discriminate F1.
  injection F1 as -> <-. destruct C as [D P].
  assert (PD : paid r1 [] (mkAsked r1 [])).
  { unfold paid. cbn [a_reader a_log]. change (sum_of []) with 0. repeat split; try reflexivity; [lia|]. rewrite D. lia. }
  assert (S1 : slice_ok (rdata r1)) by (rewrite D; exact S0).
  pose proof (settles_tables p E0 r1 S1 _ PD) as G. rewrite F2 in G. destruct G as (done & (D2 & L2 & P2 & B2) & ->).
  rewrite L2, rev_involutive. split; [reflexivity|]. rewrite sum_of_rev. rewrite D in B2. lia.
Qed.
Example C84_tables_partial_ex : slice_ok one_field /\ exists t r, read_table_stream Release (new_reader one_field) = Ok t r.
Proof. split; [vm_compute; reflexivity|]. eexists _, _. vm_compute. reflexivity. Qed.

(** Tables that cannot be read: only the latest request may be out of proportion. *)
Theorem C84_latest_partial : forall p d e s, slice_ok d -> stream_asking p (start d) = Err e s ->
  a_log s = [] \/ exists n earlier, a_log s = n :: earlier /\ 2 * sum_of earlier <= len d.
Proof.
  intros p d e s S0 F. unfold stream_asking, bind, quietly in F. cbn [start a_reader a_log] in F.
  pose proof (calm_header p (new_reader d)) as C. unfold new_reader in C. cbn [rdata rpos] in C. specialize (C S0 ltac:(lia)).
  unfold new_reader in F. destruct (stream_header p (mkReader d 0)) as [x r1|e1 r1| | |] eqn:G; try discriminate F.
  - right. destruct C as [D P].
    assert (PD : paid r1 [] (mkAsked r1 [])).
    { unfold paid. cbn [a_reader a_log]. change (sum_of []) with 0. repeat split; try reflexivity; [lia|]. rewrite D. lia. }
    assert (S1 : slice_ok (rdata r1)) by (rewrite D; exact S0).
    pose proof (settles_tables p x r1 S1 _ PD) as H. rewrite F in H. destruct H as (n & done & L & B).
    exists n, (rev done). split; [exact L|]. rewrite sum_of_rev. rewrite D in B. lia.
  - left. injection F as _ <-. reflexivity.
Qed.
(** One field as above, and forty methods that are not there. *)
Definition one_field_no_methods : list byte :=
  repeat x00 8 ++ le_enc 8 (16 + 64) ++ le_enc 8 0 ++ le_enc 4 1 ++ le_enc 4 40 ++ [x06; x00; x0a; x00; x02; x00].
Example C84_latest_partial_ex : slice_ok one_field_no_methods /\
  exists e s, stream_asking Debug (start one_field_no_methods) = Err e s /\ a_log s = [40; 1; 0; 0; 0].
Proof. split; [vm_compute; reflexivity|]. eexists _, _. split; [vm_compute; reflexivity|]. reflexivity. Qed.

(** But a stream of 28 bytes may ask for any number of rows that fits in 32 bits, and then
    fail for want of a single one. *)
Theorem C84_tables_refuted : forall p n, 0 < n < 2 ^ 32 ->
  exists d, len d = 28 /\ exists e s, stream_asking p (start d) = Err e s /\ a_log s = [n].
Proof.
  intros p n [H0 H1]. exists (promise n). split; [reflexivity|].
  destruct (asks_promise p n H0 H1 [] []) as (e & s & E & G); [reflexivity|]. exists e, s. split; [exact E|exact G].
Qed.
Example C84_tables_refuted_ex : 0 < 4000000000 < 2 ^ 32.
Proof. split; reflexivity. Qed.

(** Signatures that can be read ask for no more elements than they have bytes. *)
Theorem C84_signatures_partial : forall p d, slice_ok d ->
  (forall a s, method_signature_asking p (start d) = Ok a s -> sum_of (a_log s) <= len d) /\
  (forall a s, property_signature_asking p (start d) = Ok a s -> sum_of (a_log s) <= len d) /\
  (forall a s, method_spec_asking p (start d) = Ok a s -> sum_of (a_log s) <= len d) /\
  (forall a s, element_asking p (start d) = Ok a s -> sum_of (a_log s) < len d).
Proof.
  intros p d S0. assert (B0 : in_bounds (a_reader (start d))) by (split; [exact S0|cbn; lia]).
  repeat split; intros a s E.
  - destruct (pays_method_signature p _ _ _ B0 E) as (_ & l & G & P & L). cbn [start a_reader a_log new_reader rdata rpos] in *.
    rewrite app_nil_r in G. rewrite G. lia.
  - destruct (pays_property_signature p _ _ _ B0 E) as (_ & l & G & P & L). cbn [start a_reader a_log new_reader rdata rpos] in *.
    rewrite app_nil_r in G. rewrite G. lia.
  - destruct (pays_method_spec p _ _ _ B0 E) as (_ & l & G & P & L). cbn [start a_reader a_log new_reader rdata rpos] in *.
    rewrite app_nil_r in G. rewrite G. lia.
  - destruct (pays_element p _ _ _ B0 E) as (_ & l & G & P & L). cbn [start a_reader a_log new_reader rdata rpos] in *.
    rewrite app_nil_r in G. rewrite G. lia.
Qed.
(** A method with a parameter that is a generic type with two arguments: three elements. *)
Example C84_signatures_partial_ex : exists a s,
  method_signature_asking Debug (start [x00; x01; x01; x15; x1c; x02; x08; x0e]) = Ok a s /\ a_log s = [2; 1].
Proof. eexists _, _. split; [vm_compute; reflexivity|]. reflexivity. Qed.

(** But five or six bytes may ask for any number of elements below 2^30. *)
Theorem C84_signatures_refuted : forall p n, 0 < n < 2 ^ 30 ->
  (exists d, len d = 6 /\ exists e s, method_signature_asking p (start d) = Err e s /\ a_log s = [n]) /\
  (exists d, len d = 6 /\ exists e s, property_signature_asking p (start d) = Err e s /\ a_log s = [n]) /\
  (exists d, len d = 5 /\ exists e s, method_spec_asking p (start d) = Err e s /\ a_log s = [n]).
Proof.
  intros p n [H0 H1]. repeat split.
  - eexists. split; [|destruct (asks_method p n H0 H1 [] []) as (e & s & E & G); [reflexivity|exists e, s; split; [exact E|exact G]]].
    reflexivity.
  - eexists. split; [|destruct (asks_property p n H0 H1 [] []) as (e & s & E & G); [reflexivity|exists e, s; split; [exact E|exact G]]].
    reflexivity.
  - eexists. split; [|destruct (asks_spec p n H0 H1 [] []) as (e & s & E & G); [reflexivity|exists e, s; split; [exact E|exact G]]].
    reflexivity.
Qed.
Example C84_signatures_refuted_ex : 0 < 1000000000 < 2 ^ 30.
Proof. split; reflexivity. Qed.

(** Types within types ask again at every level, while the outer requests are still held: six
    bytes for each level. *)
Theorem C84_nested_refuted : forall p n k, 0 < n < 2 ^ 30 -> 6 * N.of_nat k < 2 ^ 63 ->
  exists d, len d = 6 * N.of_nat k /\
  exists e s, element_asking p (start d) = Err e s /\ a_log s = repeat n k.
Proof.
  intros p n k [H0 H1] B. exists (nest n k). split; [apply len_nest|].
  destruct (asks_nest p n k H0 H1 [] []) as (e & s & E & G); [unfold slice_ok; cbn [app]; rewrite len_nest; exact B|].
  exists e, s. split; [exact E|]. rewrite G, app_nil_r. reflexivity.
Qed.
Example C84_nested_refuted_ex : 0 < 1000000000 < 2 ^ 30 /\ 6 * N.of_nat 100 < 2 ^ 63.
Proof. repeat split. Qed.

Print Assumptions C84_notes_tables.
Print Assumptions C84_notes_signatures.
Print Assumptions C84_tables_partial.
Print Assumptions C84_latest_partial.
Print Assumptions C84_tables_refuted.
Print Assumptions C84_signatures_partial.
Print Assumptions C84_signatures_refuted.
Print Assumptions C84_nested_refuted.
