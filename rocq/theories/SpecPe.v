(** Specification of the PE/COFF headers, written from the Microsoft PE format document
    and ECMA-335 II.25.2 as sequences of (width, field) pairs.  Only the record types are
    shared with the model. *)
From Coq Require Import NArith List.
From Coq.Strings Require Import Byte.
From Verif Require Import Base SpecBytes Pe.
Import ListNotations.
Open Scope N_scope.

Definition coff_header_at (data : list byte) (off : N) (h : pe_header) : Prop :=
  seq_at data off
    [(2, h_machine h); (2, h_number_of_sections h); (4, h_timestamp h);
     (4, h_symbol_table h); (4, h_number_of_symbols h); (2, h_optional_header_size h);
     (2, h_characteristics h)].

(** Width of an address-sized field: 4 bytes in PE32, 8 in PE32+. *)
Definition optional_header_at (data : list byte) (off : N) (o : pe_optional_header) : Prop :=
  let a := if o_pe64 o then 8 else 4 in
  o_magic o = (if o_pe64 o then 0x20b else 0x10b) /\
  (o_pe64 o = true -> o_data_rva o = 0) /\
  seq_at data off
    ([(2, o_magic o); (1, o_lmajor o); (1, o_lminor o); (4, o_code_size o);
      (4, o_initialised_data_size o); (4, o_uninitialised_data_size o);
      (4, o_entry_point_rva o); (4, o_code_rva o)]
     ++ (if o_pe64 o then [] else [(4, o_data_rva o)]) ++
     [(a, o_image_base o); (4, o_section_alignment o); (4, o_file_alignment o);
      (2, o_os_major o); (2, o_os_minor o); (2, o_user_major o); (2, o_user_minor o);
      (2, o_subsys_major o); (2, o_subsys_minor o); (4, o_reserved o);
      (4, o_image_size o); (4, o_header_size o); (4, o_checksum o);
      (2, o_subsystem o); (2, o_dll_flags o);
      (a, o_stack_reserve_size o); (a, o_stack_commit_size o);
      (a, o_heap_reserve_size o); (a, o_heap_commit_size o);
      (4, o_loader_flags o); (4, o_number_of_data_directories o)]).

Definition data_directory_at (data : list byte) (off : N) (d : rva_and_size) : Prop :=
  seq_at data off [(4, rs_rva d); (4, rs_size d)].

Definition section_header_at (data : list byte) (off : N) (s : pe_section) : Prop :=
  bytes_at data off (s_name s) /\ len (s_name s) = 8 /\
  seq_at data (off + 8)
    [(4, s_virtual_size s); (4, s_virtual_address s); (4, s_size_of_raw_data s);
     (4, s_pointer_to_raw_data s); (4, s_pointer_to_relocations s);
     (4, s_pointer_to_line_numbers s); (2, s_number_of_relocations s);
     (2, s_number_of_line_numbers s); (4, s_characteristics s)].

(** The file is a PE image with exactly these headers. *)
Definition pe_layout (data : list byte) (pi : pe_info) : Prop :=
  exists lfanew,
    bytes_at data 0 [x4d; x5a] /\                              (* "MZ" *)
    u_at data 0x3c 4 lfanew /\
    bytes_at data lfanew [x50; x45; x00; x00] /\               (* "PE\0\0" *)
    coff_header_at data (lfanew + 4) (pi_header pi) /\
    optional_header_at data (lfanew + 24) (pi_optional_header pi) /\
    let dirs := lfanew + 24 + (if o_pe64 (pi_optional_header pi) then 112 else 96) in
    len (pi_data_directories pi) = o_number_of_data_directories (pi_optional_header pi) /\
    items_at (data_directory_at data) 8 dirs (pi_data_directories pi) /\
    len (pi_sections pi) = h_number_of_sections (pi_header pi) /\
    items_at (section_header_at data) 40 (dirs + 8 * len (pi_data_directories pi))
      (pi_sections pi).

(** The raw range of a section contains a virtual address. *)
Definition section_contains (rva : N) (s : pe_section) : Prop :=
  s_virtual_address s <= rva < s_virtual_address s + s_size_of_raw_data s.

(** [s] is the first section that contains [rva]. *)
Definition first_containing (secs : list pe_section) (rva : N) (s : pe_section) : Prop :=
  exists l1 l2, secs = l1 ++ s :: l2 /\ section_contains rva s /\
    Forall (fun s' => ~ section_contains rva s') l1.

(** A section table whose address arithmetic stays inside 32 bits. *)
Definition sections_ok (secs : list pe_section) : Prop :=
  Forall (fun s => s_virtual_address s + s_size_of_raw_data s < 2 ^ 32 /\
                   s_pointer_to_raw_data s + s_size_of_raw_data s <= 2 ^ 32) secs.
