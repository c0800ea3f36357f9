(** Specification: what a load does not find. *)
From Coq Require Import NArith String List.
From Coq.Strings Require Import Byte.
From Verif Require Import Base Metadata Tables Runtime Loader SpecRuntime SpecBody SpecLoader.
Import ListNotations.
Open Scope N_scope.

(** The image [data] has the metadata [md] and is that of an assembly called [n]. *)
Definition image_of (p : profile) (data : list byte) (md : metadata) (n : name) : Prop :=
  read_metadata p data tt = Ok md tt /\ exists row, row_of (tb_assembly (m_tables md)) 1 row /\ heap_text md (as_name row) n.

Section Lacks.
  Variables (p : profile) (fs : file_system).

  (** The references [rows] are to assemblies that are loaded, or can be loaded in this order; [f] bounds
      the depth of the references.  The runtime goes from one state to the other. *)
  Inductive obtained (f : nat) (md : metadata) : list assembly_ref_row -> vm -> vm -> Prop :=
  | obtained_none s : obtained f md [] s s
  | obtained_before r rows rn s s2 : heap_text md (ar_name r) rn -> loaded_as s rn ->
      obtained f md rows s s2 -> obtained f md (r :: rows) s s2
  | obtained_now r rows rn s a s1 s2 : heap_text md (ar_name r) rn -> ~ loaded_as s rn ->
      load_assembly f p fs rn s = Ok a s1 -> obtained f md rows s1 s2 -> obtained f md (r :: rows) s s2.

  (** The type that the row names, and the method, if it names one of a type by reference. *)
  Definition type_there (md : metadata) (s : vm) (row : type_ref_row) : Prop :=
    exists n ns t, heap_text md (tr_name row) n /\ heap_text md (tr_namespace row) ns /\ latest (c_types s) (qualified n ns) t.
  Definition has_method (s : vm) (t : tref) (mn : name) : Prop :=
    exists ti m, nth_error (c_types s) t = Some ti /\ In m (ti_methods ti) /\ mt_name m = mn.
  Definition member_there (md : metadata) (s : vm) (row : member_ref_row) : Prop :=
    of_type_ref row = true -> exists fn t mn, parent_of md row fn /\ latest (c_types s) fn t /\ heap_text md (mr_name row) mn /\
      has_method s t mn.

  (** In the state [s], the load of the image lacks something; the text says what and, if it is a type or
      a method, for which assembly.  What comes first in the image is there. *)
  Inductive lacks : nat -> list byte -> vm -> name -> Prop :=
  (** An assembly: there is no such file. *)
  | no_assembly f data md n before r after s s1 rn : image_of p data md n -> tb_assembly_ref (m_tables md) = before ++ r :: after ->
      obtained f md before s s1 -> heap_text md (ar_name r) rn -> ~ loaded_as s1 rn ->
      (forall c, In c (candidates (c_paths s1) rn) -> fs (fst c) (snd c) = Missing) ->
      lacks (S f) data s (bytes_of_string "Could not locate assembly with name " ++ rn)
  (** The assembly that is referred to lacks something. *)
  | further_down f data md n before r after s s1 rn c x text : image_of p data md n -> tb_assembly_ref (m_tables md) = before ++ r :: after ->
      obtained f md before s s1 -> heap_text md (ar_name r) rn -> ~ loaded_as s1 rn ->
      first_there (fun c => fs (fst c) (snd c) <> Missing) (candidates (c_paths s1) rn) c -> fs (fst c) (snd c) = File x ->
      lacks f x s1 text -> lacks (S f) data s text
  (** The name of the assembly that is referred to. *)
  | no_assembly_name f data md n before r after s s1 : image_of p data md n -> tb_assembly_ref (m_tables md) = before ++ r :: after ->
      obtained f md before s s1 -> (forall rn, ~ heap_text md (ar_name r) rn) ->
      lacks (S f) data s (n ++ bytes_of_string " contains invalid assembly references")
  (** The type of a method. *)
  | no_parent f data md n before row after s s1 fn : image_of p data md n -> obtained f md (tb_assembly_ref (m_tables md)) s s1 ->
      tb_member_ref (m_tables md) = before ++ row :: after -> (forall q, In q before -> member_there md s1 q) ->
      of_type_ref row = true -> parent_of md row fn -> unnamed (c_types s1) fn ->
      lacks (S f) data s (bytes_of_string "Cannot find type " ++ fn ++ bytes_of_string " referenced by " ++ n)
  (** The name of a method. *)
  | no_method_name f data md n before row after s s1 fn t : image_of p data md n -> obtained f md (tb_assembly_ref (m_tables md)) s s1 ->
      tb_member_ref (m_tables md) = before ++ row :: after -> (forall q, In q before -> member_there md s1 q) ->
      of_type_ref row = true -> parent_of md row fn -> latest (c_types s1) fn t -> (forall mn, ~ heap_text md (mr_name row) mn) ->
      lacks (S f) data s (bytes_of_string "Unable to load methods referenced by " ++ n)
  (** A method of a type that is there. *)
  | no_method f data md n before row after s s1 fn t mn : image_of p data md n -> obtained f md (tb_assembly_ref (m_tables md)) s s1 ->
      tb_member_ref (m_tables md) = before ++ row :: after -> (forall q, In q before -> member_there md s1 q) ->
      of_type_ref row = true -> parent_of md row fn -> latest (c_types s1) fn t -> heap_text md (mr_name row) mn ->
      ~ has_method s1 t mn ->
      lacks (S f) data s (bytes_of_string "Unable to find " ++ fn ++ bytes_of_string "." ++ mn ++ bytes_of_string " referenced by " ++ n)
  (** A type. *)
  | no_type f data md n before row after s s1 tn ns : image_of p data md n -> obtained f md (tb_assembly_ref (m_tables md)) s s1 ->
      (forall q, In q (tb_member_ref (m_tables md)) -> member_there md s1 q) ->
      tb_type_ref (m_tables md) = before ++ row :: after -> (forall q, In q before -> type_there md s1 q) ->
      heap_text md (tr_name row) tn -> heap_text md (tr_namespace row) ns -> unnamed (c_types s1) (qualified tn ns) ->
      lacks (S f) data s (bytes_of_string "Cannot find type " ++ qualified tn ns ++ bytes_of_string " referenced by " ++ n).
End Lacks.

(** The fixed part of a text, which is the error that loads have in Loader.v. *)
Inductive fixed_part : string -> name -> Prop :=
| part_assembly rn : fixed_part "Could not locate assembly" (bytes_of_string "Could not locate assembly with name " ++ rn)
| part_reference n : fixed_part "invalid assembly references" (n ++ bytes_of_string " contains invalid assembly references")
| part_type fn n : fixed_part "Cannot find type" (bytes_of_string "Cannot find type " ++ fn ++ bytes_of_string " referenced by " ++ n)
| part_name n : fixed_part "Unable to load methods referenced" (bytes_of_string "Unable to load methods referenced by " ++ n)
| part_method fn mn n : fixed_part "Unable to find method"
    (bytes_of_string "Unable to find " ++ fn ++ bytes_of_string "." ++ mn ++ bytes_of_string " referenced by " ++ n).
