(** Specification vocabulary for the metadata root (ECMA-335 II.24.2.1, II.24.2.2, II.25.3.3):
    what is stored where, independent of the reading code. *)
From Coq Require Import NArith String List.
From Coq.Strings Require Import Byte.
From Verif Require Import Base SpecBytes SpecUtf Pe SpecPe.
Import ListNotations.
Open Scope N_scope.

(** The five streams. *)
Inductive stream_kind := SStrings | SUserStrings | SBlob | SGuid | STables.

Definition stream_text (k : stream_kind) : list byte :=
  match k with
  | SStrings => [x23; x53; x74; x72; x69; x6e; x67; x73]     (* #Strings *)
  | SUserStrings => [x23; x55; x53]                          (* #US *)
  | SBlob => [x23; x42; x6c; x6f; x62]                       (* #Blob *)
  | SGuid => [x23; x47; x55; x49; x44]                       (* #GUID *)
  | STables => [x23; x7e]                                    (* #~ *)
  end.

(** One stream header: which stream, where it starts and how long it is. *)
Record stream_entry := { se_kind : stream_kind; se_offset : N; se_size : N }.

(** The next multiple of four strictly after [x]. *)
Definition next4 (x : N) : N := 4 * (x / 4 + 1).

(** Stream headers stored one after another from [off]: offset, size, the name ended by a NUL
    and padded to the next multiple of four. *)
Fixpoint headers_at (md : list byte) (off : N) (l : list stream_entry) : Prop :=
  match l with
  | [] => True
  | e :: l' =>
      seq_at md off [(4, se_offset e); (4, se_size e)] /\
      bytes_at md (off + 8) (stream_text (se_kind e) ++ [x00]) /\
      headers_at md (next4 (off + 8 + len (stream_text (se_kind e)))) l'
  end.

(** A metadata root with these stream headers: signature, a version string of any length
    (ended by a NUL inside its field, or filling it), flags, count, headers. *)
Definition root_at (md : list byte) (l : list stream_entry) : Prop :=
  exists text pad,
    bytes_at md 0 [x42; x53; x4a; x42] /\                      (* BSJB *)
    u_at md 12 4 (len (text ++ pad)) /\
    bytes_at md 16 (text ++ pad) /\
    is_utf8 text /\ ~ In x00 text /\ (pad = [] \/ exists pad', pad = x00 :: pad') /\
    u_at md (16 + len (text ++ pad) + 2) 2 (len l) /\
    headers_at md (16 + len (text ++ pad) + 4) l.

(** Every stream has at most one header. *)
Definition one_each (l : list stream_entry) : Prop := NoDup (map se_kind l).

(** The header of stream [k] designates exactly the bytes [content]. *)
Definition designates (md : list byte) (l : list stream_entry) (k : stream_kind)
    (content : list byte) : Prop :=
  exists e, In e l /\ se_kind e = k /\ bytes_at md (se_offset e) content /\
    len content = se_size e.

(** The image whose virtual address [rva] is stored at file offset [off]. *)
Definition maps_to (pi : pe_info) (rva off : N) : Prop :=
  exists s, first_containing (pi_sections pi) rva s /\
    off = s_pointer_to_raw_data s + (rva - s_virtual_address s).

(** A CLI header at file offset [off]: the metadata, the entry point token and the resources
    (the other fields are not used). *)
Definition cli_header_at (data : list byte) (off md_rva md_size token res_rva res_size : N) : Prop :=
  off + 72 <= len data /\
  seq_at data (off + 8) [(4, md_rva); (4, md_size)] /\
  seq_at data (off + 20) [(4, token); (4, res_rva); (4, res_size)].

(** The image [data], with headers [pi], holds the metadata bytes [md]. *)
Definition image_metadata (data : list byte) (pi : pe_info) (md : list byte)
    (token res_rva res_size : N) : Prop :=
  pe_layout data pi /\ sections_ok (pi_sections pi) /\
  exists dir cli_off md_rva md_off,
    nth_error (pi_data_directories pi) 14 = Some dir /\
    maps_to pi (rs_rva dir) cli_off /\
    cli_header_at data cli_off md_rva (len md) token res_rva res_size /\
    maps_to pi md_rva md_off /\
    bytes_at data md_off md.

(** The conditions the loader relies on without checking: address arithmetic inside 32 bits,
    section contents and the metadata inside the file, the four mandatory streams present,
    every stream inside the metadata. *)
Definition streams_inside (l : list stream_entry) (size : N) : Prop :=
  (forall k, k <> SUserStrings -> exists e, In e l /\ se_kind e = k) /\
  (forall e, In e l -> se_offset e + se_size e <= size).

Definition image_inside (data : list byte) (pi : pe_info) : Prop :=
  sections_ok (pi_sections pi) /\
  Forall (fun s => s_pointer_to_raw_data s + s_size_of_raw_data s <= len data) (pi_sections pi) /\
  forall dir cli_off md_rva md_size token res_rva res_size md_off,
    nth_error (pi_data_directories pi) 14 = Some dir ->
    maps_to pi (rs_rva dir) cli_off ->
    cli_header_at data cli_off md_rva md_size token res_rva res_size ->
    maps_to pi md_rva md_off ->
    md_off + md_size <= len data /\
    forall md l, bytes_at data md_off md -> len md = md_size -> root_at md l ->
      streams_inside l md_size.
