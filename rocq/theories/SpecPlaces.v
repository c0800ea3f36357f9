(** Specification vocabulary for images of any kind, also hostile ones: what becomes of an address, and which images
    cannot be read at all.  Independent of the reading code. *)
From Coq Require Import NArith String List.
From Coq.Strings Require Import Byte.
From Verif Require Import Base SpecBytes Pe SpecPe SpecMetadata.
Import ListNotations.
Open Scope N_scope.

(** The first element of a list with a property. *)
Definition first_such {A} (P : A -> Prop) (l : list A) (x : A) : Prop :=
  exists l1 l2, l = l1 ++ x :: l2 /\ P x /\ Forall (fun y => ~ P y) l1.

(** The end of a section as a number of 32 bits: a release build drops the carry. *)
Definition end32 (s : pe_section) : N := (s_virtual_address s + s_size_of_raw_data s) mod 2 ^ 32.

(** The section that decides about an address.  A debug build stops at the first section that begins at or below the
    address and either contains it or ends beyond the address space. *)
Definition decides (p : profile) (rva : N) (s : pe_section) : Prop :=
  match p with
  | Debug => section_contains rva s \/ (s_virtual_address s <= rva /\ 2 ^ 32 <= s_virtual_address s + s_size_of_raw_data s)
  | Release => s_virtual_address s <= rva < end32 s
  end.

(** The sum, without carry, of the distance into the section and the place of the section in the file. *)
Definition offset_in (s : pe_section) (rva : N) : N := s_pointer_to_raw_data s + (rva - s_virtual_address s).

(** An address stands for a place in the file; stands for nothing; or makes the computation overflow. *)
Definition places (p : profile) (secs : list pe_section) (rva off : N) : Prop :=
  exists s, first_such (decides p rva) secs s /\
    match p with
    | Debug => s_virtual_address s + s_size_of_raw_data s < 2 ^ 32 /\ off = offset_in s rva /\ off < 2 ^ 32
    | Release => off = offset_in s rva mod 2 ^ 32
    end.
Definition nowhere (p : profile) (secs : list pe_section) (rva : N) : Prop := Forall (fun s => ~ decides p rva s) secs.
Definition overflows (p : profile) (secs : list pe_section) (rva : N) : Prop :=
  p = Debug /\ exists s, first_such (decides p rva) secs s /\
    (2 ^ 32 <= s_virtual_address s + s_size_of_raw_data s \/ 2 ^ 32 <= offset_in s rva).

(** ** The metadata of an image *)

(** The image has these headers and these metadata. *)
Definition located (p : profile) (data : list byte) (pi : pe_info) (md : list byte) (md_rva token res_rva res_size : N) : Prop :=
  pe_layout data pi /\
  exists dir cli_off md_off,
    nth_error (pi_data_directories pi) 14 = Some dir /\ places p (pi_sections pi) (rs_rva dir) cli_off /\
    cli_header_at data cli_off md_rva (len md) token res_rva res_size /\
    places p (pi_sections pi) md_rva md_off /\ bytes_at data md_off md.

(** The headers point outside the file: the section with the CLI header, or the metadata; or an address overflows. *)
Definition strays (p : profile) (data : list byte) : Prop :=
  exists pi dir, pe_layout data pi /\ nth_error (pi_data_directories pi) 14 = Some dir /\
  (overflows p (pi_sections pi) (rs_rva dir) \/
   exists cli_off, places p (pi_sections pi) (rs_rva dir) cli_off /\
   (len data < cli_off \/
    exists md_rva md_size token res_rva res_size,
      cli_header_at data cli_off md_rva md_size token res_rva res_size /\
      (overflows p (pi_sections pi) md_rva \/
       exists md_off, places p (pi_sections pi) md_rva md_off /\ len data < md_off + md_size))).

(** The header that counts for a stream is the last one with its name. *)
Definition last_header (l : list stream_entry) (k : stream_kind) (e : stream_entry) : Prop :=
  exists l1 l2, l = l1 ++ e :: l2 /\ se_kind e = k /\ Forall (fun x => se_kind x <> k) l2.
Definition no_header (l : list stream_entry) (k : stream_kind) : Prop := Forall (fun x => se_kind x <> k) l.

(** The stream has these bytes; the stream of user strings may be left out. *)
Definition stream_is (md : list byte) (l : list stream_entry) (k : stream_kind) (content : list byte) : Prop :=
  (exists e, last_header l k e /\ bytes_at md (se_offset e) content /\ len content = se_size e) \/
  (k = SUserStrings /\ no_header l k /\ content = []).

(** The stream is missing or leaves the metadata. *)
Definition stream_lost (md : list byte) (l : list stream_entry) (k : stream_kind) : Prop :=
  (k <> SUserStrings /\ no_header l k) \/
  (exists e, last_header l k e /\ len md < se_offset e + se_size e).

(** The images that stop the program that reads them: headers that point outside the file, a mandatory stream that is
    missing, a stream that leaves the metadata. *)
Definition breaks (p : profile) (data : list byte) : Prop :=
  strays p data \/
  exists pi md mr tok rr rz l k, located p data pi md mr tok rr rz /\ root_at md l /\ stream_lost md l k.
