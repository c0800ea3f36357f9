(** What a release build and a debug build of the same code have to do with each other. *)
From Coq Require Import String List.
From Verif Require Import Base.
Import ListNotations.

(** The panics that rustc adds to a debug build for arithmetic whose result does not fit. (Where the model has two or
    three operations in one definition it gives the panic one common text.) *)
Definition overflow_panics : list string :=
  ["arithmetic overflow"; "attempt to add with overflow"; "attempt to subtract with overflow"; "attempt to multiply with overflow";
   "attempt to compute with overflow"; "attempt to shift with overflow"]%string.

Definition overflows {S A} (r : res S A) : Prop := exists w, In w overflow_panics /\ r = Panic w.

(** The two builds do the same, that is, return the same value or error and leave the same state behind, or panic with
    the same message, or have undefined behaviour at the same place, or neither ever ends; unless the debug build
    panics because of an arithmetic overflow, which the release build never does. *)
Definition same_unless_overflow {S A} (debug release : res S A) : Prop :=
  ~ overflows release /\ (debug = release \/ overflows debug).
