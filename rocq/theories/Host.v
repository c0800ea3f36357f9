(** The program that comes with the runtime, /repo/test_program/src/main.rs. *)
From Coq Require Import NArith String List Bool.
From Coq.Strings Require Import Byte.
From Verif Require Import Base Metadata Runtime Loader Value Gc Interp.
Import ListNotations.
Open Scope N_scope.

(** main.rs:3-10, [main], with [entry_point] at reflection/assembly.rs:200-202.  [argument] is the first
    argument on the command line, a directory and a file name.  The result is what [dbg!] at line 9 is
    given; what it writes to standard error is not modelled. *)
Definition test_program (fuel : nat) (p : profile) (fs : file_system) (paths : list name)
    (system_runtime system_console : list byte) (argument : option (name * name)) : res vm run_result :=
  (unwrap_result (fun _ => new_runtime fuel p fs paths system_runtime system_console) ;;;
   path <- unwrap argument ;;
   a <- unwrap_result (load_path fuel p fs path) ;;
   ai <- the_assembly a ;;
   m <- unwrap (a_entry ai) ;;
   r <- execute fuel p m [] ;;
   ret (fst r))
  (empty_vm paths).
