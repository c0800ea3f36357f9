(** Model of the [fmt::Display] and [fmt::Debug] implementations: the texts of tokens, addresses,
    types, fields, parameters and methods.  File names are relative to /repo/clr_lite/src.
    A text is the list of its UTF-8 bytes; writing to the formatter never fails, and the flags of the
    formatter ([{:>20}] and the like) are ignored by [write!] in these implementations.  The [Weak]
    references always upgrade, see Runtime.v. *)
From Coq Require Import NArith String List Bool.
From Coq.Strings Require Import Byte.
From Verif Require Import Base Tables Metadata Runtime Loader.
Import ListNotations.
Open Scope N_scope.

(** The digits of [fmt::LowerHex] in the standard library: the last digit first, until nothing is left. *)
Definition hex_char (d : N) : byte := if d <? 10 then nb (48 + d) else nb (97 + d - 10).
Fixpoint lower_hex (fuel : nat) (n : N) (acc : list byte) : list byte :=
  match fuel with
  | O => acc
  | S fuel' =>
      let acc' := hex_char (n mod 16) :: acc in
      if n / 16 =? 0 then acc' else lower_hex fuel' (n / 16) acc'
  end.
(** The buffer of the standard library has room for 128 digits; a [u32] has at most 8. *)
Definition hex_of (n : N) : list byte := lower_hex 128 n [].

(** metadata/metadata_token.rs:22-32, [Debug] and [Display] of [MetadataToken]: [{:#010x}] is the prefix
    and the digits, with zeros between them up to a width of 10. *)
Definition token_text (token : N) : name :=
  let ds := hex_of token in
  bytes_of_string "0x" ++ repeat x30 (8 - List.length ds) ++ ds.

(** pe.rs:26-30, [Display] of [Rva]: [{:#x}]. *)
Definition rva_text (rva : N) : name := bytes_of_string "0x" ++ hex_of rva.

(** vm/reflection/type.rs:496-506, [Display] and [Debug] of [Type]. *)
Definition type_text (t : tref) : M vm name :=
  ti <- the_type t ;; ret (ti_full_name ti).

(** vm/reflection/type.rs:508-521, [Display] of [TypeKind]: the derived [Debug]. *)
Definition kind_text (k : type_kind) : name :=
  bytes_of_string match k with
                  | KClass => "Class" | KInterface => "Interface" | KStruct => "Struct"
                  | KEnum => "Enum" | KArray => "Array"
                  end.

(** vm/reflection/field.rs:64-68, [Display] of [Field]. *)
Definition field_text (f : field_info) : M vm name :=
  ti <- the_type (f_type f) ;; ret (ti_name ti ++ bytes_of_string " " ++ f_name f).

(** vm/reflection/parameter.rs:28-32, [Display] of [Parameter]. *)
Definition param_text (a : param_info) : M vm name :=
  ti <- the_type (pa_type a) ;; ret (ti_name ti ++ bytes_of_string " " ++ pa_name a).

(** vm/reflection/method.rs:188-194: the loop over the parameters.  The
    separator is written after every parameter but the last. *)
Fixpoint params_text (l : list param_info) : M vm name :=
  match l with
  | [] => ret []
  | a :: l' =>
      ti <- the_type (pa_type a) ;;
      rest <- params_text l' ;;
      ret (ti_name ti ++ match l' with [] => [] | _ => bytes_of_string ", " end ++ rest)
  end.

(** vm/reflection/method.rs:185-197, [Display] of [Method]. *)
Definition method_text (m : method_info) : M vm name :=
  ti <- the_type (mt_return m) ;;
  ps <- params_text (mt_params m) ;;
  ret (ti_name ti ++ bytes_of_string " " ++ mt_name m ++ bytes_of_string "(" ++ ps ++ bytes_of_string ")").
