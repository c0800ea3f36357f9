(** Reading the metadata of an image where it lies in memory: Metadata.v once more, for an image that starts at the
    address [base].  Line numbers are of /repo/clr_lite/src/metadata/mod.rs. *)
From Coq Require Import NArith String List Bool.
From Coq.Strings Require Import Byte.
From Verif Require Import Base Utf BinaryReader Pe Tables Blob Metadata Aligned.
Import ListNotations.
Open Scope N_scope.

(** 154-181: the loop over the stream headers; see [read_stream_headers]. *)
Fixpoint read_stream_headers_at (base : N) (p : profile) (n : nat) (s : stream_headers) : M reader stream_headers :=
  match n with
  | O => ret s
  | S n' =>
      offset <- rd_at base p 4 bad_header ;;
      size <- rd_at base p 4 bad_header ;;
      name <- read_c_str p ;;
      name <- ok_or name bad_header ;;
      r <- get_state ;;
      goto (N.ldiff (rpos r + 4) 3) ;;;
      s' <- set_stream name {| st_offset := offset; st_size := size |} s ;;
      read_stream_headers_at base p n' s'
  end.

(** 117-181: the metadata root; see [read_root]. *)
Definition read_root_at (base : N) (p : profile) : M reader stream_headers :=
  o <- read_at 4 base p 4 ;;
  match o with
  | Some d => if le_dec d =? 0x424A5342 then ret tt else fail bad_header
  | None => fail bad_header
  end ;;;
  ok <- advance p 8 ;;
  (if negb ok then fail bad_header else ret tt) ;;;
  length <- rd_at base p 4 bad_header ;;
  version <- read_str p length ;;
  ok_or version "Invalid version string in metadata" ;;;
  advance p 2 ;;;
  number_of_streams <- rd_at base p 2 bad_header ;;
  read_stream_headers_at base p (N.to_nat number_of_streams) no_streams.

(** 82-233, [Metadata::read]; see [read_metadata].  A slice of the image starts at the address of the image plus
    its offset; [CliHeader] has the alignment 4. *)
Definition read_metadata_at (base : N) (p : profile) (data : list byte) : M unit metadata :=
  pe <- on_reader (new_reader data) (parse_pe_m_at base p) ;;
  dir <- ok_or (nth_error (pi_data_directories pe) 14) "Not .NET assembly" ;;
  off <- map_err (resolve_rva p pe (rs_rva dir)) "Invalid CLI header" ;;
  hdr <- slice_from data off ;;
  o <- on_reader (new_reader hdr) (read_at 4 (base + off) p CLI_HEADER_SIZE) ;;
  o <- ok_or o "Invalid CLI header" ;;
  let cli := dec_cli_header o in
  off <- map_err (resolve_rva p pe (rs_rva (ch_metadata cli))) "Invalid CLI header RVA" ;;
  md <- slice_range data off (off + rs_size (ch_metadata cli)) ;;
  hs <- on_reader (new_reader md) (read_root_at (base + off) p) ;;
  h <- unwrap (hd_strings hs) ;;
  strings <- stream_slice p md h ;;
  us <- match hd_us hs with Some h => stream_slice p md h | None => ret [] end ;;
  h <- unwrap (hd_blob hs) ;;
  blob <- stream_slice p md h ;;
  h <- unwrap (hd_guid hs) ;;
  guid <- stream_slice p md h ;;
  h <- unwrap (hd_tables hs) ;;
  tdata <- stream_slice p md h ;;
  tables <- on_reader (new_reader tdata) (read_table_stream_at (base + off + st_offset h) p) ;;
  ret {| m_pe_data := data; m_pe_info := pe; m_cli_header := cli; m_strings := strings;
         m_user_strings := us; m_blob := blob; m_guid := guid; m_tables := tables;
         m_entry_point := entry_point_of (ch_entry_point cli) |}.
