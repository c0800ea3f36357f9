(** Model of the crate [binary_reader]: /repo/binary_reader/src/lib.rs. *)
From Coq Require Import NArith String List Bool.
From Coq.Strings Require Import Byte.
From Verif Require Import Base Utf.
Import ListNotations.
Open Scope N_scope.

(** lib.rs:4-7, [struct BinaryReader].  The borrowed slice is a byte list; [usize] is an
    [N] (64 bits). *)
Record reader := mkReader { rdata : list byte; rpos : N }.

(** lib.rs:10-12, [BinaryReader::new]. *)
Definition new_reader (d : list byte) : reader := mkReader d 0.

(** lib.rs:22-25, [BinaryReader::goto]. *)
Definition goto (x : N) : M reader bool :=
  fun r => Ok (x <=? len (rdata r)) (mkReader (rdata r) x).

(** lib.rs:27-29, [BinaryReader::advance]; the addition is on [usize]. *)
Definition advance (p : profile) (x : N) : M reader bool :=
  fun r => match u_add p 64 (rpos r) x with
           | Some q => goto q r
           | None => Panic "attempt to add with overflow"
           end.

(** lib.rs:31-37, [BinaryReader::peek], for a type of [n] bytes; the value is the raw
    bytes.  The slice expression [self.data[self.pos..]] panics if [pos > len]; the
    dereference is undefined if fewer than [n] bytes follow.  Pointer alignment is in
    Aligned.v. *)
Definition peek (p : profile) (n : N) : M reader (option (list byte)) :=
  fun r => match u_add p 64 (rpos r) n with
           | None => Panic "attempt to add with overflow"
           | Some e =>
               if len (rdata r) <? e then Ok None r
               else if len (rdata r) <? rpos r then Panic "slice index out of range"
               else if len (rdata r) <? rpos r + n then Ub "read past the end of a slice"
               else Ok (Some (sub_list (rpos r) n (rdata r))) r
           end.

(** lib.rs:39-43, [BinaryReader::read]. *)
Definition read (p : profile) (n : N) : M reader (option (list byte)) :=
  o <- peek p n ;;
  match o with
  | None => ret None
  | Some d => advance p n ;;; ret (Some d)
  end.

(** lib.rs:45-53, [BinaryReader::peek_array], for [cnt] elements of [sz] bytes each; the
    value is the raw bytes of the whole array. *)
Definition peek_array (p : profile) (sz cnt : N) : M reader (option (list byte)) :=
  fun r => match u_mul p 64 cnt sz with
           | None => Panic "attempt to multiply with overflow"
           | Some m =>
               match u_add p 64 (rpos r) m with
               | None => Panic "attempt to add with overflow"
               | Some e =>
                   if len (rdata r) <=? e then Ok None r
                   else if len (rdata r) <? rpos r then Panic "slice index out of range"
                   else if len (rdata r) <? rpos r + cnt * sz
                        then Ub "slice past the end of the buffer"
                   else Ok (Some (sub_list (rpos r) (cnt * sz) (rdata r))) r
               end
           end.

(** lib.rs:55-64, [BinaryReader::read_array]. *)
Definition read_array (p : profile) (sz cnt : N) : M reader (option (list byte)) :=
  fun r => match u_mul p 64 cnt sz with
           | None => Panic "attempt to multiply with overflow"
           | Some m =>
               match u_add p 64 (rpos r) m with
               | None => Panic "attempt to add with overflow"
               | Some e =>
                   if len (rdata r) <? e then Ok None r
                   else if len (rdata r) <? rpos r then Panic "slice index out of range"
                   else if len (rdata r) <? rpos r + cnt * sz
                        then Ub "slice past the end of the buffer"
                   else (advance p m ;;;
                         ret (Some (sub_list (rpos r) (cnt * sz) (rdata r)))) r
               end
           end.

(** [iter().position(|&c| c == b'\0')]. *)
Fixpoint nul_position (l : list byte) : option N :=
  match l with
  | [] => None
  | b :: l' => if Byte.eqb b x00 then Some 0
               else match nul_position l' with Some k => Some (k + 1) | None => None end
  end.

(** lib.rs:66-70, [BinaryReader::read_str]. *)
Definition read_str (p : profile) (length : N) : M reader (option (list byte)) :=
  o <- read_array p 1 length ;;
  match o with
  | None => ret None
  | Some d =>
      let cut := match nul_position d with Some k => k | None => len d end in
      let t := sub_list 0 cut d in
      ret (if utf8_valid t then Some t else None)
  end.

(** lib.rs:72-75, [BinaryReader::read_c_str]. *)
Definition read_c_str (p : profile) : M reader (option (list byte)) :=
  fun r => if len (rdata r) <? rpos r then Panic "slice index out of range"
           else match nul_position (skipn (N.to_nat (rpos r)) (rdata r)) with
                | None => Ok None r
                | Some k => read_str p k r
                end.

(** [read::<uN>()] followed by [ok_or_else(|| e)?]: the pattern used by every caller.
    [n] is the size in bytes. *)
Definition rd (p : profile) (n : N) (e : string) : M reader N :=
  o <- read p n ;; match o with Some d => ret (le_dec d) | None => fail e end.

(** The same for [peek]. *)
Definition pk (p : profile) (n : N) (e : string) : M reader N :=
  o <- peek p n ;; match o with Some d => ret (le_dec d) | None => fail e end.
