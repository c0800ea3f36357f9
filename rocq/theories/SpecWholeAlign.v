(** Where the parts of the metadata root are, and which addresses suit them. *)
From Coq Require Import NArith List.
From Coq.Strings Require Import Byte.
From Verif Require Import Base SpecBytes SpecMetadata SpecImageAlign.
Import ListNotations.
Open Scope N_scope.

(** Stream headers from offset [off] in metadata at the address [base]: each starts at a multiple of four. *)
Fixpoint headers_suit (base off : N) (l : list stream_entry) : Prop :=
  match l with
  | [] => True
  | e :: l' => (base + off) mod 4 = 0 /\ headers_suit base (next4 (off + 8 + len (stream_text (se_kind e)))) l'
  end.

(** A root at the address [base] with a version text of [version] bytes (padding included) and these headers: it
    starts at a multiple of four, the number of streams is at an even address, the headers are aligned. *)
Definition root_suits (base version : N) (l : list stream_entry) : Prop :=
  base mod 4 = 0 /\ (base + (16 + version + 2)) mod 2 = 0 /\ headers_suit base (16 + version + 4) l.

(** Where reading an image with these parts is defined: the headers, the CLI header at [cli], the metadata at
    [md] with a version text of [version] bytes and these stream headers, and the tables with these parts. *)
Definition image_suits (base lfanew : N) (pe64 : bool) (cli md version : N) (es : list stream_entry) (tables : N)
    (parts : list (N * N)) : Prop :=
  (base mod 4 = 0 /\ (base + lfanew) mod (if pe64 then 8 else 4) = 0) /\
  (base + cli) mod 4 = 0 /\ root_suits (base + md) version es /\ suits (base + md + tables) parts.
