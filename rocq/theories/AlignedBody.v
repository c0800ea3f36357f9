(** Reading a method body where it lies in memory: the first part of Loader.v once more, for an image that starts at
    the address [base].  Line numbers are of /repo/clr_lite/src/vm/reflection/method_body.rs.  Simplification: the
    signature of the local variables, which is in the blob heap and not in the body, is read as in Loader.v
    (Aligned.v has its compressed numbers). *)
From Coq Require Import NArith String List Bool.
From Coq.Strings Require Import Byte.
From Verif Require Import Base BinaryReader Pe Tables Blob Metadata Runtime Loader Aligned.
Import ListNotations.
Open Scope N_scope.

(** 137-180 and 188-231: the loop over the clauses; see [read_clauses].  [base] is the address of the body. *)
Fixpoint read_clauses_at (base : N) (p : profile) (md : metadata) (w1 w2 : N) (n : nat) (r : reader)
    : M vm (list clause) :=
  match n with
  | O => ret []
  | S n' =>
      ' (code, r) <- with_reader r (rd_at base p w1 bad_body) ;;
      k <- ok_or (clause_kind_of code) "Invalid exception clause code" ;;
      ' (try_offset, r) <- with_reader r (rd_at base p w1 bad_body) ;;
      ' (try_length, r) <- with_reader r (rd_at base p w2 bad_body) ;;
      ' (handler_offset, r) <- with_reader r (rd_at base p w1 bad_body) ;;
      ' (handler_length, r) <- with_reader r (rd_at base p w2 bad_body) ;;
      ' (token_or_filter, r) <- with_reader r (rd_at base p 4 bad_body) ;;
      c <- new_clause p md k try_offset try_length handler_offset handler_length token_or_filter ;;
      cs <- read_clauses_at base p md w1 w2 n' r ;;
      ret (c :: cs)
  end.

(** 112-233: the exception handling section; see [read_section]. *)
Definition read_section_at (base : N) (p : profile) (md : metadata) (r : reader) : M vm (list clause) :=
  ' (_, r) <- with_reader r (align4 p 3) ;;
  ' (next, r) <- with_reader r (rd_at base p 1 bad_body) ;;
  if negb (has next 1) then fail "Non exception extra section in method body"
  else
    ' (data_size, r) <- with_reader r (rd_at base p 1 bad_body) ;;
    if has next 0x40 then
      ' (hi, r) <- with_reader r (rd_at base p 2 bad_body) ;;
      read_clauses_at base p md 4 4 (N.to_nat ((data_size + N.shiftl hi 8) / 24)) r
    else
      ' (_, r) <- with_reader r (advance p 2) ;;
      read_clauses_at base p md 2 1 (N.to_nat (data_size / 12)) r.

(** 22-245, [MethodBody::load]; see [load_body].  The slice that is read (25-29) starts at the address of the image
    plus the offset of the body. *)
Definition load_body_at (base : N) (p : profile) (md : metadata) (rva : N) : M vm body :=
  off <- map_err (lift (resolve_rva p (m_pe_info md) rva)) "Cannot find method body" ;;
  d <- lift (slice_from (m_pe_data md) off) ;;
  let base := base + off in
  ' (b, r) <- with_reader (new_reader d) (rd_at base p 1 bad_body) ;;
  match N.land b 3 with
  | 2 =>
      ' (code, _) <- with_reader r (read_code p (N.shiftr (N.land b 0xfc) 2)) ;;
      ret (mkBody code 8 [] (has b 0x10) [])
  | 3 =>
      ' (_, r) <- with_reader r (advance p 1) ;;
      ' (max_stack, r) <- with_reader r (rd_at base p 2 bad_body) ;;
      ' (code_size, r) <- with_reader r (rd_at base p 4 bad_body) ;;
      ' (locals_token, r) <- with_reader r (rd_at base p 4 bad_body) ;;
      locals <- load_locals p md locals_token ;;
      ' (code, r) <- with_reader r (read_code p code_size) ;;
      clauses <- (if has b 8 then read_section_at base p md r else ret []) ;;
      ret (mkBody code max_stack locals (has b 0x10) clauses)
  | _ => fail bad_body
  end.
