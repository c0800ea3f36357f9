(** The sum of a list of sizes, and the sizes of the tables of a file. *)
From Coq Require Import NArith List.
From Verif Require Import Base Tables.
Import ListNotations.
Open Scope N_scope.

Definition sum_of (l : list N) : N := fold_right N.add 0 l.

(** How many rows each table has, in the order of the tables in the file. *)
Definition table_sizes (t : tables) : list N :=
  [len (tb_module t);
   len (tb_type_ref t);
   len (tb_type_def t);
   len (tb_field t);
   len (tb_method_def t);
   len (tb_param t);
   len (tb_interface_impl t);
   len (tb_member_ref t);
   len (tb_constant t);
   len (tb_custom_attribute t);
   len (tb_field_marshal t);
   len (tb_decl_security t);
   len (tb_class_layout t);
   len (tb_field_layout t);
   len (tb_standalone_sig t);
   len (tb_event_map t);
   len (tb_event t);
   len (tb_property_map t);
   len (tb_property t);
   len (tb_method_semantics t);
   len (tb_method_impl t);
   len (tb_module_ref t);
   len (tb_type_spec t);
   len (tb_impl_map t);
   len (tb_field_rva t);
   len (tb_assembly t);
   len (tb_assembly_processor t);
   len (tb_assembly_os t);
   len (tb_assembly_ref t);
   len (tb_assembly_ref_processor t);
   len (tb_assembly_ref_os t);
   len (tb_file t);
   len (tb_exported_type t);
   len (tb_manifest_resource t);
   len (tb_nested_class t);
   len (tb_generic_param t);
   len (tb_method_spec t);
   len (tb_generic_param_constraint t)].
