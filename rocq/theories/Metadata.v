(** Model of /repo/clr_lite/src/metadata/mod.rs: locating the metadata and its streams.
    Line numbers are of that file unless a name is given. *)
From Coq Require Import NArith String List Bool.
From Coq.Strings Require Import Byte.
From Verif Require Import Base Utf BinaryReader Pe Tables Blob.
Import ListNotations.
Open Scope N_scope.

(** [&d[a..]] and [&d[a..b]]. *)
Definition slice_from (d : list byte) (a : N) : M unit (list byte) :=
  if len d <? a then panic "slice index out of range" else ret (skipn (N.to_nat a) d).
Definition slice_range (d : list byte) (a b : N) : M unit (list byte) :=
  if b <? a then panic "slice index starts after it ends"
  else if len d <? b then panic "slice index out of range"
  else ret (sub_list a (b - a) d).

(** Run a piece of reading code on its own reader; the reader is dropped. *)
Definition on_reader {A} (r : reader) (m : M reader A) : M unit A :=
  fun _ => match m r with
           | Ok a _ => Ok a tt
           | Err e _ => Err e tt
           | Panic w => Panic w
           | Ub w => Ub w
           | NoFuel => NoFuel
           end.

(** 55-72, [CliHeader], 72 bytes, [repr(C)].  Only the fields that are used are kept. *)
Record cli_header := {
  ch_metadata : rva_and_size; ch_entry_point : N; ch_resources : rva_and_size }.
Definition CLI_HEADER_SIZE : N := 72.
Definition dec_cli_header (d : list byte) : cli_header :=
  {| ch_metadata := dec_rva_and_size (sub_list 8 8 d); ch_entry_point := fld d 20 4;
     ch_resources := dec_rva_and_size (sub_list 24 8 d) |}.

(** 74-79, [StreamHeader] without the name. *)
Record stream_header := { st_offset : N; st_size : N }.

(** 144-148: the five variables of the loop. *)
Record stream_headers := {
  hd_strings : option stream_header; hd_us : option stream_header; hd_blob : option stream_header;
  hd_guid : option stream_header; hd_tables : option stream_header }.
Definition no_streams : stream_headers :=
  {| hd_strings := None; hd_us := None; hd_blob := None; hd_guid := None; hd_tables := None |}.

Definition name_strings : list byte := bytes_of_string "#Strings".
Definition name_us : list byte := bytes_of_string "#US".
Definition name_blob : list byte := bytes_of_string "#Blob".
Definition name_guid : list byte := bytes_of_string "#GUID".
Definition name_tables : list byte := bytes_of_string "#~".

Definition bad_header : string := "Invalid metadata header".

(** 168-180: the match on the name. *)
Definition set_stream (name : list byte) (h : stream_header) (s : stream_headers) : M reader stream_headers :=
  if bytes_eqb name name_strings then
    ret {| hd_strings := Some h; hd_us := hd_us s; hd_blob := hd_blob s; hd_guid := hd_guid s; hd_tables := hd_tables s |}
  else if bytes_eqb name name_us then
    ret {| hd_strings := hd_strings s; hd_us := Some h; hd_blob := hd_blob s; hd_guid := hd_guid s; hd_tables := hd_tables s |}
  else if bytes_eqb name name_blob then
    ret {| hd_strings := hd_strings s; hd_us := hd_us s; hd_blob := Some h; hd_guid := hd_guid s; hd_tables := hd_tables s |}
  else if bytes_eqb name name_guid then
    ret {| hd_strings := hd_strings s; hd_us := hd_us s; hd_blob := hd_blob s; hd_guid := Some h; hd_tables := hd_tables s |}
  else if bytes_eqb name name_tables then
    ret {| hd_strings := hd_strings s; hd_us := hd_us s; hd_blob := hd_blob s; hd_guid := hd_guid s; hd_tables := Some h |}
  else fail "Unrecognised metadata stream".

(** 154-181: the loop over the stream headers.  The result of [goto] is ignored; the position
    is a [usize] far from overflow, and [& !3] clears the two low bits. *)
Fixpoint read_stream_headers (p : profile) (n : nat) (s : stream_headers) : M reader stream_headers :=
  match n with
  | O => ret s
  | S n' =>
      offset <- rd p 4 bad_header ;;
      size <- rd p 4 bad_header ;;
      name <- read_c_str p ;;
      name <- ok_or name bad_header ;;
      r <- get_state ;;
      goto (N.ldiff (rpos r + 4) 3) ;;;
      s' <- set_stream name {| st_offset := offset; st_size := size |} s ;;
      read_stream_headers p n' s'
  end.

(** 117-181: the metadata root. *)
Definition read_root (p : profile) : M reader stream_headers :=
  o <- read p 4 ;;
  match o with
  | Some d => if le_dec d =? 0x424A5342 then ret tt else fail bad_header
  | None => fail bad_header
  end ;;;
  ok <- advance p 8 ;;
  (if negb ok then fail bad_header else ret tt) ;;;
  length <- rd p 4 bad_header ;;
  version <- read_str p length ;;
  ok_or version "Invalid version string in metadata" ;;;
  advance p 2 ;;;
  number_of_streams <- rd p 2 bad_header ;;
  read_stream_headers p (N.to_nat number_of_streams) no_streams.

(** 183-187 and the like: [unwrap] and the slice; [offset + size] is a [u32] sum. *)
Definition stream_slice (p : profile) (md : list byte) (h : stream_header) : M unit (list byte) :=
  e <- ovf (u_add p 32 (st_offset h) (st_size h)) ;;
  slice_range md (st_offset h) e.
Definition unwrap {S A} (o : option A) : M S A :=
  match o with Some a => ret a | None => panic "called `Option::unwrap()` on a `None` value" end.

(** 33-51, [Metadata]. *)
Record metadata := {
  m_pe_data : list byte; m_pe_info : pe_info; m_cli_header : cli_header;
  m_strings : list byte; m_user_strings : list byte; m_blob : list byte; m_guid : list byte;
  m_tables : tables; m_entry_point : option N }.

(** 225-231: the entry point handle. *)
Definition entry_point_of (tok : N) : option N :=
  if token_index tok =? 0 then None else Some (token_index tok - 1).

(** 82-233, [Metadata::read]. *)
Definition read_metadata (p : profile) (data : list byte) : M unit metadata :=
  pe <- on_reader (new_reader data) (parse_pe_m p) ;;
  dir <- ok_or (nth_error (pi_data_directories pe) 14) "Not .NET assembly" ;;
  off <- map_err (resolve_rva p pe (rs_rva dir)) "Invalid CLI header" ;;
  hdr <- slice_from data off ;;
  o <- on_reader (new_reader hdr) (read p CLI_HEADER_SIZE) ;;
  o <- ok_or o "Invalid CLI header" ;;
  let cli := dec_cli_header o in
  off <- map_err (resolve_rva p pe (rs_rva (ch_metadata cli))) "Invalid CLI header RVA" ;;
  md <- slice_range data off (off + rs_size (ch_metadata cli)) ;;
  hs <- on_reader (new_reader md) (read_root p) ;;
  h <- unwrap (hd_strings hs) ;;
  strings <- stream_slice p md h ;;
  us <- match hd_us hs with Some h => stream_slice p md h | None => ret [] end ;;
  h <- unwrap (hd_blob hs) ;;
  blob <- stream_slice p md h ;;
  h <- unwrap (hd_guid hs) ;;
  guid <- stream_slice p md h ;;
  h <- unwrap (hd_tables hs) ;;
  tdata <- stream_slice p md h ;;
  tables <- on_reader (new_reader tdata) (read_table_stream p) ;;
  ret {| m_pe_data := data; m_pe_info := pe; m_cli_header := cli; m_strings := strings;
         m_user_strings := us; m_blob := blob; m_guid := guid; m_tables := tables;
         m_entry_point := entry_point_of (ch_entry_point cli) |}.

(** 255-261, [get_pe_data]; the sum is a [usize] sum that cannot overflow. *)
Definition get_pe_data (p : profile) (m : metadata) (rs : rva_and_size) : M unit (list byte) :=
  off <- resolve_rva p (m_pe_info m) (rs_rva rs) ;;
  slice_range (m_pe_data m) off (off + rs_size rs).

(** 263-267, [get_resource_data]. *)
Definition get_resource_data (p : profile) (m : metadata) (offset : N) : M unit (list byte) :=
  res <- get_pe_data p m (ch_resources (m_cli_header m)) ;;
  data <- slice_from res offset ;;
  (if len data <? 4 then panic "index out of bounds" else ret tt) ;;;
  let length := le_dec (sub_list 0 4 data) in
  slice_range data 4 (4 + length).
