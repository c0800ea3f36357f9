(** Specification vocabulary: what is stored where in a byte string.  Independent of the
    reader model. *)
From Coq Require Import NArith List.
From Coq.Strings Require Import Byte.
From Verif Require Import Base.
Import ListNotations.
Open Scope N_scope.

(** The bytes [bs] are stored at offset [off] of [data]. *)
Definition bytes_at (data : list byte) (off : N) (bs : list byte) : Prop :=
  exists pre post, data = pre ++ bs ++ post /\ len pre = off.

(** The little-endian unsigned number [v] of [w] bytes is stored at offset [off]. *)
Definition u_at (data : list byte) (off w v : N) : Prop :=
  exists bs, bytes_at data off bs /\ len bs = w /\ v = le_dec bs.

(** Consecutive little-endian numbers given as (width, value) pairs. *)
Fixpoint seq_at (data : list byte) (off : N) (l : list (N * N)) : Prop :=
  match l with
  | [] => True
  | (w, v) :: l' => u_at data off w v /\ seq_at data (off + w) l'
  end.

(** Consecutive items of [sz] bytes each, the item [x] at offset [o] satisfying [P o x]. *)
Fixpoint items_at {A} (P : N -> A -> Prop) (sz off : N) (l : list A) : Prop :=
  match l with
  | [] => True
  | x :: l' => P off x /\ items_at P sz (off + sz) l'
  end.
