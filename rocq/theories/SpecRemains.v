(** Specification: what is left of loads that fail. *)
From Coq Require Import NArith String List.
From Coq.Strings Require Import Byte.
From Verif Require Import Base Metadata Tables Runtime Loader SpecLoadMessages.
Import ListNotations.

Section Remains.
  Variables (p : profile) (fs : file_system).

  (** The runtime goes from one state to the other by loads by name that succeed, one after the other, and
      nothing else. *)
  Inductive successes : vm -> vm -> Prop :=
  | no_more s : successes s s
  | one_more f rn a s s1 s2 : load_assembly f p fs rn s = Ok a s1 -> successes s1 s2 -> successes s s2.

  (** In the state [s], everything that the image refers to is there or can be loaded. *)
  Definition lacks_nothing (f : nat) (data : list byte) (s : vm) : Prop :=
    exists md n s1, image_of p data md n /\ obtained p fs f md (tb_assembly_ref (m_tables md)) s s1 /\
      (forall row, In row (tb_member_ref (m_tables md)) -> member_there md s1 row) /\
      (forall row, In row (tb_type_ref (m_tables md)) -> type_there md s1 row).
End Remains.
