(** Model of /repo/clr_lite/src/pe.rs. *)
From Coq Require Import NArith String List Bool.
From Coq.Strings Require Import Byte.
From Verif Require Import Base Utf BinaryReader.
Import ListNotations.
Open Scope N_scope.

(** Field of [n] bytes at offset [off] of a [repr(C)] struct read from memory. *)
Definition fld (d : list byte) (off n : N) : N := le_dec (sub_list off n d).

(** pe.rs:34-44, [PeHeader] (20 bytes). *)
Record pe_header := {
  h_machine : N; h_number_of_sections : N; h_timestamp : N; h_symbol_table : N;
  h_number_of_symbols : N; h_optional_header_size : N; h_characteristics : N }.
Definition PE_HEADER_SIZE : N := 20.
Definition dec_pe_header (d : list byte) : pe_header :=
  {| h_machine := fld d 0 2; h_number_of_sections := fld d 2 2; h_timestamp := fld d 4 4;
     h_symbol_table := fld d 8 4; h_number_of_symbols := fld d 12 4;
     h_optional_header_size := fld d 16 2; h_characteristics := fld d 18 2 |}.

(** pe.rs:48-82 and 86-119, [Pe32OptionalHeader] (96 bytes) and [Pe64OptionalHeader]
    (112 bytes), in one record.  [o_data_rva] exists only in the PE32 form and is 0 in the
    other.  The enum of pe.rs:123-127 is [o_pe64]. *)
Record pe_optional_header := {
  o_pe64 : bool;
  o_magic : N; o_lmajor : N; o_lminor : N; o_code_size : N; o_initialised_data_size : N;
  o_uninitialised_data_size : N; o_entry_point_rva : N; o_code_rva : N; o_data_rva : N;
  o_image_base : N; o_section_alignment : N; o_file_alignment : N; o_os_major : N;
  o_os_minor : N; o_user_major : N; o_user_minor : N; o_subsys_major : N;
  o_subsys_minor : N; o_reserved : N; o_image_size : N; o_header_size : N; o_checksum : N;
  o_subsystem : N; o_dll_flags : N; o_stack_reserve_size : N; o_stack_commit_size : N;
  o_heap_reserve_size : N; o_heap_commit_size : N; o_loader_flags : N;
  o_number_of_data_directories : N }.

Definition PE32_SIZE : N := 96.
Definition dec_pe32 (d : list byte) : pe_optional_header :=
  {| o_pe64 := false;
     o_magic := fld d 0 2; o_lmajor := fld d 2 1; o_lminor := fld d 3 1;
     o_code_size := fld d 4 4; o_initialised_data_size := fld d 8 4;
     o_uninitialised_data_size := fld d 12 4; o_entry_point_rva := fld d 16 4;
     o_code_rva := fld d 20 4; o_data_rva := fld d 24 4;
     o_image_base := fld d 28 4; o_section_alignment := fld d 32 4;
     o_file_alignment := fld d 36 4; o_os_major := fld d 40 2; o_os_minor := fld d 42 2;
     o_user_major := fld d 44 2; o_user_minor := fld d 46 2; o_subsys_major := fld d 48 2;
     o_subsys_minor := fld d 50 2; o_reserved := fld d 52 4; o_image_size := fld d 56 4;
     o_header_size := fld d 60 4; o_checksum := fld d 64 4; o_subsystem := fld d 68 2;
     o_dll_flags := fld d 70 2; o_stack_reserve_size := fld d 72 4;
     o_stack_commit_size := fld d 76 4; o_heap_reserve_size := fld d 80 4;
     o_heap_commit_size := fld d 84 4; o_loader_flags := fld d 88 4;
     o_number_of_data_directories := fld d 92 4 |}.

Definition PE64_SIZE : N := 112.
Definition dec_pe64 (d : list byte) : pe_optional_header :=
  {| o_pe64 := true;
     o_magic := fld d 0 2; o_lmajor := fld d 2 1; o_lminor := fld d 3 1;
     o_code_size := fld d 4 4; o_initialised_data_size := fld d 8 4;
     o_uninitialised_data_size := fld d 12 4; o_entry_point_rva := fld d 16 4;
     o_code_rva := fld d 20 4; o_data_rva := 0;
     o_image_base := fld d 24 8; o_section_alignment := fld d 32 4;
     o_file_alignment := fld d 36 4; o_os_major := fld d 40 2; o_os_minor := fld d 42 2;
     o_user_major := fld d 44 2; o_user_minor := fld d 46 2; o_subsys_major := fld d 48 2;
     o_subsys_minor := fld d 50 2; o_reserved := fld d 52 4; o_image_size := fld d 56 4;
     o_header_size := fld d 60 4; o_checksum := fld d 64 4; o_subsystem := fld d 68 2;
     o_dll_flags := fld d 70 2; o_stack_reserve_size := fld d 72 8;
     o_stack_commit_size := fld d 80 8; o_heap_reserve_size := fld d 88 8;
     o_heap_commit_size := fld d 96 8; o_loader_flags := fld d 104 4;
     o_number_of_data_directories := fld d 108 4 |}.

(** pe.rs:129-134, [RvaAndSize] (8 bytes). *)
Record rva_and_size := { rs_rva : N; rs_size : N }.
Definition RVA_AND_SIZE_SIZE : N := 8.
Definition dec_rva_and_size (d : list byte) : rva_and_size :=
  {| rs_rva := fld d 0 4; rs_size := fld d 4 4 |}.

(** pe.rs:138-151, [PeSectionHeader] (40 bytes). *)
Record pe_section := {
  s_name : list byte; s_virtual_size : N; s_virtual_address : N; s_size_of_raw_data : N;
  s_pointer_to_raw_data : N; s_pointer_to_relocations : N; s_pointer_to_line_numbers : N;
  s_number_of_relocations : N; s_number_of_line_numbers : N; s_characteristics : N }.
Definition PE_SECTION_SIZE : N := 40.
Definition dec_pe_section (d : list byte) : pe_section :=
  {| s_name := sub_list 0 8 d; s_virtual_size := fld d 8 4; s_virtual_address := fld d 12 4;
     s_size_of_raw_data := fld d 16 4; s_pointer_to_raw_data := fld d 20 4;
     s_pointer_to_relocations := fld d 24 4; s_pointer_to_line_numbers := fld d 28 4;
     s_number_of_relocations := fld d 32 2; s_number_of_line_numbers := fld d 34 2;
     s_characteristics := fld d 36 4 |}.

(** pe.rs:161-167, [PeInfo]. *)
Record pe_info := {
  pi_header : pe_header; pi_optional_header : pe_optional_header;
  pi_data_directories : list rva_and_size; pi_sections : list pe_section }.

(** [b"MZ"] and [b"PE\0\0"]. *)
Definition MZ : list byte := [x4d; x5a].
Definition PE00 : list byte := [x50; x45; x00; x00].

Definition opt_bytes_eqb (o : option (list byte)) (b : list byte) : bool :=
  match o with Some d => bytes_eqb d b | None => false end.

(** pe.rs:170-216, [PeInfo::parse_pe], as a program on the reader [br]. *)
Definition parse_pe_m (p : profile) : M reader pe_info :=
  mz <- peek_array p 1 2 ;;
  (if negb (opt_bytes_eqb mz MZ) then fail "Not a PE file" else ret tt) ;;;
  goto 0x3c ;;;
  off <- peek p 4 ;;
  match off with
  | None => fail "Unexpected end of file"
  | Some o =>
      goto (le_dec o) ;;;
      sig <- read_array p 1 4 ;;
      (if negb (opt_bytes_eqb sig PE00) then fail "Invalid PE file" else ret tt) ;;;
      h <- read p PE_HEADER_SIZE ;;
      h <- ok_or h "Invalid PE file" ;;
      let header := dec_pe_header h in
      magic <- peek p 2 ;;
      magic <- ok_or magic "Invalid PE file" ;;
      opt <- (if le_dec magic =? 0x10b then
                o <- read p PE32_SIZE ;; o <- ok_or o "Invalid PE file" ;; ret (dec_pe32 o)
              else if le_dec magic =? 0x20b then
                o <- read p PE64_SIZE ;; o <- ok_or o "Invalid PE file" ;; ret (dec_pe64 o)
              else fail "Invalid PE file") ;;
      dirs <- read_array p RVA_AND_SIZE_SIZE (o_number_of_data_directories opt) ;;
      dirs <- ok_or dirs "Invalid PE file" ;;
      secs <- read_array p PE_SECTION_SIZE (h_number_of_sections header) ;;
      secs <- ok_or secs "Invalid PE file" ;;
      ret {| pi_header := header; pi_optional_header := opt;
             pi_data_directories :=
               map dec_rva_and_size
                 (chunks (N.to_nat RVA_AND_SIZE_SIZE)
                         (N.to_nat (o_number_of_data_directories opt)) dirs);
             pi_sections :=
               map dec_pe_section
                 (chunks (N.to_nat PE_SECTION_SIZE)
                         (N.to_nat (h_number_of_sections header)) secs) |}
  end.

(** pe.rs:170-171: the reader starts at the beginning of the data. *)
Definition parse_pe (p : profile) (data : list byte) : res reader pe_info :=
  parse_pe_m p (new_reader data).

(** pe.rs:223-232, [PeInfo::resolve_rva_]; all arithmetic is on [u32].  The order of
    evaluation matters for overflow: the sum on the right of [&&] is evaluated only if the
    left comparison holds. *)
Fixpoint resolve_rva_ {S} (p : profile) (rva : N) (secs : list pe_section) : M S N :=
  match secs with
  | [] => fail "Invalid RVA"
  | s :: secs' =>
      if s_virtual_address s <=? rva then
        hi <- ovf (u_add p 32 (s_virtual_address s) (s_size_of_raw_data s)) ;;
        if rva <? hi then
          ovf (u_add p 32 (rva - s_virtual_address s) (s_pointer_to_raw_data s))
        else resolve_rva_ p rva secs'
      else resolve_rva_ p rva secs'
  end.

(** pe.rs:219-221, [PeInfo::resolve_rva]. *)
Definition resolve_rva {S} (p : profile) (pi : pe_info) (rva : N) : M S N :=
  resolve_rva_ p rva (pi_sections pi).

(** pe.rs:156-158, [PeSectionHeader::name]: [from_utf8(..).unwrap().trim_matches('\0')]. *)
Fixpoint drop_nul (l : list byte) : list byte :=
  match l with b :: l' => if Byte.eqb b x00 then drop_nul l' else l | [] => [] end.
Definition section_name {S} (s : pe_section) : M S (list byte) :=
  if utf8_valid (s_name s) then ret (rev (drop_nul (rev (drop_nul (s_name s)))))
  else panic "called `Result::unwrap()` on an `Err` value".
