(** Model of the texts of the errors of loads for what an image refers to:
    /repo/clr_lite/src/vm/reflection/assembly.rs:13-90 and vm/mod.rs:60-67.  Line numbers without a file
    name are those of assembly.rs.

    Loader.v has the fixed part of each message; here the loads are gone through once more, up to where
    they fail, and give the whole text: [Some text] for one of these errors, [None] when everything that
    is referred to is there.  The texts of other errors (files and metadata that cannot be read, contents
    that cannot be resolved) are not modelled. *)
From Coq Require Import NArith String List Bool.
From Coq.Strings Require Import Byte.
From Verif Require Import Base Metadata Tables Runtime Loader Texts.
Import ListNotations.
Open Scope N_scope.

(** 34-72: the methods referenced by the assembly of name [n]. *)
Fixpoint method_refs_text (p : profile) (md : metadata) (n : name) (rows : list member_ref_row) : M vm (option name) :=
  match rows with
  | [] => ret None
  | mr :: rows' =>
      match ref_table (mr_parent mr) with
      | TTypeRef =>
          tr <- row_at p (tb_type_ref (m_tables md)) (ref_index (mr_parent mr)) ;;
          fn <- full_name_at md (tr_name tr) (tr_namespace tr) ;;
          o <- get_type fn ;;
          match o with
          | None => ret (Some (bytes_of_string "Cannot find type " ++ fn ++ bytes_of_string " referenced by " ++ n))
          | Some t =>
              match string_at md (mr_name mr) with
              | None => ret (Some (bytes_of_string "Unable to load methods referenced by " ++ n))
              | Some mn =>
                  o <- get_method t mn ;;
                  match o with
                  | None =>
                      tn <- type_text t ;;
                      ret (Some (bytes_of_string "Unable to find " ++ tn ++ bytes_of_string "." ++ mn ++
                                 bytes_of_string " referenced by " ++ n))
                  | Some _ => method_refs_text p md n rows'
                  end
              end
          end
      | _ => method_refs_text p md n rows'
      end
  end.

(** 74-90: the types referenced by the assembly of name [n]. *)
Fixpoint type_refs_text (md : metadata) (n : name) (rows : list type_ref_row) : M vm (option name) :=
  match rows with
  | [] => ret None
  | tr :: rows' =>
      fn <- full_name_at md (tr_name tr) (tr_namespace tr) ;;
      o <- get_type fn ;;
      match o with
      | None => ret (Some (bytes_of_string "Cannot find type " ++ fn ++ bytes_of_string " referenced by " ++ n))
      | Some _ => type_refs_text md n rows'
      end
  end.

(** mod.rs:60-67, [load_assembly]; [said] gives the text of the load of an image. *)
Definition by_name_text (said : list byte -> M vm (option name)) (fs : file_system) (rn : name) : M vm (option name) :=
  s <- get_state ;;
  match resolve_assembly_name fs (c_paths s) rn with
  | None => ret (Some (bytes_of_string "Could not locate assembly with name " ++ rn))
  | Some path =>
      match fs (fst path) (snd path) with
      | File d => said d
      | _ => fail "cannot read file"
      end
  end.

(** 21-32: the references to assemblies.  A reference that is not loaded is loaded if that has no text. *)
Fixpoint references_text (said : list byte -> M vm (option name)) (load : name -> M vm aref) (fs : file_system) (md : metadata) (n : name)
    (rows : list assembly_ref_row) : M vm (option name) :=
  match rows with
  | [] => ret None
  | r :: rows' =>
      match string_at md (ar_name r) with
      | None => ret (Some (n ++ bytes_of_string " contains invalid assembly references"))
      | Some rn =>
          s <- get_state ;;
          if loaded (c_arena s) (c_assemblies s) rn then references_text said load fs md n rows'
          else fun s =>
            match by_name_text said fs rn s with
            | Ok (Some t) _ => Ok (Some t) s
            | Ok None _ => (load rn ;;; references_text said load fs md n rows') s
            | Err e s' => Err e s'
            | Panic w => Panic w
            | Ub w => Ub w
            | NoFuel => NoFuel
            end
      end
  end.

(** 13-90, [Assembly::load]. *)
Fixpoint load_text (fuel : nat) (p : profile) (fs : file_system) (data : list byte) : M vm (option name) :=
  match fuel with
  | O => nofuel
  | S f =>
      md <- lift (read_metadata p data) ;;
      row <- row_at p (tb_assembly (m_tables md)) (handle_of_position TAssembly 0) ;;
      n <- unwrap (string_at md (as_name row)) ;;
      t <- references_text (load_text f p fs) (load_assembly f p fs) fs md n (tb_assembly_ref (m_tables md)) ;;
      match t with
      | Some t => ret (Some t)
      | None =>
          t <- method_refs_text p md n (tb_member_ref (m_tables md)) ;;
          match t with
          | Some t => ret (Some t)
          | None => type_refs_text md n (tb_type_ref (m_tables md))
          end
      end
  end.
(** mod.rs:60-67, [load_assembly]. *)
Definition load_assembly_text (fuel : nat) (p : profile) (fs : file_system) (n : name) : M vm (option name) :=
  by_name_text (load_text fuel p fs) fs n.
