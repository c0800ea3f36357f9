(** Properties C04-C06: PE headers and RVA resolution. *)
From Coq Require Import NArith ZArith String List Bool Lia.
From Coq.Strings Require Import Byte.
From Verif Require Import Base BinaryReader ParseSpec SpecBytes Pe SpecPe BaseFacts ReaderFacts PeProofs.
Import ListNotations.
Open Scope N_scope.

(** C04: parsing succeeds exactly on well-formed files, with exactly the stored values. *)
Theorem C04_parse_pe_exact : forall p data pi, slice_ok data ->
  ((exists r, parse_pe p data = Ok pi r) <-> pe_layout data pi).
Proof.
  intros p data pi Hs. rewrite <- pe_result_layout.
  pose proof (parse_pe_result p data Hs) as H. split.
  - intros [r E]. rewrite E in H. tauto.
  - intro E. destruct (parse_pe p data) as [pi' r|e r| | |]; try tauto.
    + destruct H as [_ H]. rewrite E in H. injection H as <-. eauto.
    + destruct H as [_ H]. congruence.
Qed.
Print Assumptions C04_parse_pe_exact.

(** A 64-byte DOS stub, a PE32 header without sections and without data directories. *)
Definition tiny_pe : list byte :=
  [x4d; x5a] ++ repeat x00 58 ++ [x40; x00; x00; x00] ++ [x50; x45; x00; x00] ++
  repeat x00 20 ++ [x0b; x01] ++ repeat x07 90 ++ repeat x00 4.

Example C04_parse_pe_exact_ex :
  slice_ok tiny_pe /\ exists pi, pe_layout tiny_pe pi /\ o_checksum (pi_optional_header pi) = 0x07070707.
Proof.
  split; [reflexivity|].
  destruct (parse_pe Debug tiny_pe) as [pi r| | | |] eqn:E; try (vm_compute in E; discriminate).
  exists pi. split.
  - apply (C04_parse_pe_exact Debug tiny_pe pi); [reflexivity|eauto].
  - vm_compute in E. injection E; intros; subst. reflexivity.
Qed.

(** C05: parsing any byte string returns a value or an error. *)
Theorem C05_parse_pe_total : forall p data, slice_ok data ->
  (exists pi r, parse_pe p data = Ok pi r) \/ (exists e r, parse_pe p data = Err e r).
Proof.
  intros p data Hs. pose proof (parse_pe_result p data Hs) as H.
  destruct (parse_pe p data); try tauto; eauto.
Qed.
Print Assumptions C05_parse_pe_total.

Example C05_parse_pe_total_ex : exists e r, parse_pe Debug [x4d; x5a; x00] = Err e r.
Proof. do 2 eexists. reflexivity. Qed.

(** C06: a resolved address is the offset in the first containing section; resolution
    fails exactly when there is none.  Missing from the full claim: section tables whose
    address arithmetic exceeds 32 bits (refuted below). *)
Theorem C06_resolve_rva_partial : forall S p pi rva (s : S), sections_ok (pi_sections pi) ->
  (forall off, resolve_rva p pi rva s = Ok off s <->
     exists sec, first_containing (pi_sections pi) rva sec /\
       off = s_pointer_to_raw_data sec + (rva - s_virtual_address sec)) /\
  ((exists e, resolve_rva p pi rva s = Err e s) <->
     Forall (fun sec => ~ section_contains rva sec) (pi_sections pi)).
Proof.
  intros S p pi rva s H. unfold resolve_rva. split.
  - intro off. now apply resolve_rva_ok.
  - now apply resolve_rva_err.
Qed.
Print Assumptions C06_resolve_rva_partial.

Definition sec_at (va sz ptr : N) : pe_section :=
  {| s_name := []; s_virtual_size := sz; s_virtual_address := va; s_size_of_raw_data := sz;
     s_pointer_to_raw_data := ptr; s_pointer_to_relocations := 0; s_pointer_to_line_numbers := 0;
     s_number_of_relocations := 0; s_number_of_line_numbers := 0; s_characteristics := 0 |}.

Definition pe_with (secs : list pe_section) : pe_info :=
  {| pi_header := dec_pe_header []; pi_optional_header := dec_pe32 [];
     pi_data_directories := []; pi_sections := secs |}.

Example C06_resolve_rva_ex :
  sections_ok (pi_sections (pe_with [sec_at 0x2000 0x400 0x200; sec_at 0x4000 0x200 0x600])) /\
  resolve_rva Debug (pe_with [sec_at 0x2000 0x400 0x200; sec_at 0x4000 0x200 0x600]) 0x4008 tt
    = Ok 0x608 tt.
Proof. split; [|reflexivity]. repeat constructor; discriminate. Qed.

(** C06 is false without that bound: an address inside a section at the top of the address
    space makes a debug build panic and a release build deny it. *)
Theorem C06_resolve_rva_overflow_refuted :
  exists pi rva, Forall (fun s => s_virtual_address s < 2 ^ 32 /\ s_size_of_raw_data s < 2 ^ 32 /\
                                  s_pointer_to_raw_data s < 2 ^ 32) (pi_sections pi) /\
    rva < 2 ^ 32 /\
    (exists sec, first_containing (pi_sections pi) rva sec) /\
    resolve_rva Debug pi rva tt = Panic "arithmetic overflow" /\
    (exists e, resolve_rva Release pi rva tt = Err e tt).
Proof.
  exists (pe_with [sec_at 0xfffff000 0x2000 0x200]), 0xfffff100.
  repeat split; try (repeat constructor; fail); try reflexivity.
  - exists (sec_at 0xfffff000 0x2000 0x200), [], []. repeat split; try reflexivity; try discriminate. constructor.
  - eexists. reflexivity.
Qed.
Print Assumptions C06_resolve_rva_overflow_refuted.
