(** Basic vocabulary shared by the model and the specifications: bytes, machine
    integers, the result type and its state monad.  Nothing here is specific to
    clr_lite; the citations say which Rust feature is being represented. *)
From Coq Require Import NArith ZArith String List Bool.
From Coq.Strings Require Import Byte.
Import ListNotations.
Open Scope N_scope.

(** Build profile.  /repo has no [overflow-checks] override in its Cargo.toml files,
    so integer overflow panics in a debug build and wraps in a release build. *)
Inductive profile := Debug | Release.

(** Outcome of running a piece of Rust code that may change a state of type [S].
    [Ok] and [Err] are the two constructors of [Result] (or [Option]) together with the
    state left behind; [Panic] is a Rust panic; [Ub] is undefined behaviour reached
    inside an [unsafe] block; [NoFuel] means that the recursion budget of the model
    (not of the program) ran out. *)
Inductive res (S A : Type) : Type :=
| Ok (a : A) (s : S)
| Err (e : string) (s : S)
| Panic (why : string)
| Ub (why : string)
| NoFuel.
Arguments Ok {S A} _ _.
Arguments Err {S A} _ _.
Arguments Panic {S A} _.
Arguments Ub {S A} _.
Arguments NoFuel {S A}.

Definition M (S A : Type) := S -> res S A.

Definition ret {S A} (a : A) : M S A := fun s => Ok a s.
Definition fail {S A} (e : string) : M S A := fun s => Err e s.
Definition panic {S A} (w : string) : M S A := fun _ => Panic w.
Definition ub {S A} (w : string) : M S A := fun _ => Ub w.
Definition nofuel {S A} : M S A := fun _ => NoFuel.

(** The [?] operator and sequencing. *)
Definition bind {S A B} (m : M S A) (k : A -> M S B) : M S B :=
  fun s => match m s with
           | Ok a s' => k a s'
           | Err e s' => Err e s'
           | Panic w => Panic w
           | Ub w => Ub w
           | NoFuel => NoFuel
           end.

Notation "x <- m ;; k" := (bind m (fun x => k))
  (at level 61, m at next level, right associativity).
Notation "' p <- m ;; k" := (bind m (fun x => match x with p => k end))
  (at level 61, p pattern, m at next level, right associativity).
Notation "m ;;; k" := (bind m (fun _ => k)) (at level 61, right associativity).

Definition get_state {S} : M S S := fun s => Ok s s.
Definition put_state {S} (s : S) : M S unit := fun _ => Ok tt s.

(** [Option::ok_or]. *)
Definition ok_or {S A} (o : option A) (e : string) : M S A :=
  match o with Some a => ret a | None => fail e end.

(** [Result::map_err] with a constant message. *)
Definition map_err {S A} (m : M S A) (e : string) : M S A :=
  fun s => match m s with Err _ s' => Err e s' | r => r end.

(** [for _ in 0..n { v.push(m?) }]. *)
Fixpoint repeat_m {S A} (n : nat) (m : M S A) : M S (list A) :=
  match n with
  | O => ret []
  | S n' => x <- m ;; xs <- repeat_m n' m ;; ret (x :: xs)
  end.

(** [for x in xs { v.push(f(x)?) }]. *)
Fixpoint map_m {S A B} (f : A -> M S B) (l : list A) : M S (list B) :=
  match l with
  | [] => ret []
  | x :: l' => y <- f x ;; ys <- map_m f l' ;; ret (y :: ys)
  end.

(** [for x in xs { f(x)?; }]. *)
Fixpoint iter_m {S A} (f : A -> M S unit) (l : list A) : M S unit :=
  match l with
  | [] => ret tt
  | x :: l' => f x ;;; iter_m f l'
  end.

(** ** Bytes *)

Definition bn (b : byte) : N := Byte.to_N b.
(** [x as u8]. *)
Definition nb (n : N) : byte := match Byte.of_N (n mod 256) with Some b => b | None => x00 end.

Definition byte_eqb := Byte.eqb.

(** Length as [usize]. *)
Definition len {A} (l : list A) : N := N.of_nat (List.length l).

(** Bytes [off .. off + n] of a list. *)
Definition sub_list {A} (off n : N) (l : list A) : list A :=
  firstn (N.to_nat n) (skipn (N.to_nat off) l).

(** Little-endian value of a byte string. *)
Fixpoint le_dec (bs : list byte) : N :=
  match bs with
  | [] => 0
  | b :: bs' => bn b + 256 * le_dec bs'
  end.

(** Big-endian value of a byte string. *)
Definition be_dec (bs : list byte) : N := le_dec (rev bs).

(** Little-endian encoding on [n] bytes. *)
Fixpoint le_enc (n : nat) (v : N) : list byte :=
  match n with
  | O => []
  | S n' => nb v :: le_enc n' (v / 256)
  end.

(** Big-endian encoding on [n] bytes. *)
Definition be_enc (n : nat) (v : N) : list byte := rev (le_enc n v).

(** Consecutive pieces of [sz] bytes. *)
Fixpoint chunks {A} (sz : nat) (cnt : nat) (l : list A) : list (list A) :=
  match cnt with
  | O => []
  | S c => firstn sz l :: chunks sz c (skipn sz l)
  end.

Fixpoint list_eqb {A} (eqb : A -> A -> bool) (l1 l2 : list A) : bool :=
  match l1, l2 with
  | [], [] => true
  | x :: l1', y :: l2' => eqb x y && list_eqb eqb l1' l2'
  | _, _ => false
  end.

Definition bytes_eqb := list_eqb Byte.eqb.

Definition bytes_of_string (s : string) : list byte := list_byte_of_string s.

(** ** Unsigned machine arithmetic on [bits] bits *)

(** [a + b], [a - b], [a * b] on an unsigned type of [bits] bits; [None] is the debug
    build's overflow panic. *)
Definition u_add (p : profile) (bits a b : N) : option N :=
  if a + b <? 2 ^ bits then Some (a + b)
  else match p with Debug => None | Release => Some ((a + b) mod 2 ^ bits) end.
Definition u_mul (p : profile) (bits a b : N) : option N :=
  if a * b <? 2 ^ bits then Some (a * b)
  else match p with Debug => None | Release => Some ((a * b) mod 2 ^ bits) end.
Definition u_sub (p : profile) (bits a b : N) : option N :=
  if b <=? a then Some (a - b)
  else match p with Debug => None | Release => Some ((2 ^ bits + a - b) mod 2 ^ bits) end.

(** Lift an overflow check into the monad. *)
Definition ovf {S A} (o : option A) : M S A :=
  match o with Some a => ret a | None => panic "arithmetic overflow" end.

(** Two's complement reading of an unsigned value of [bits] bits ([as iN]). *)
Definition to_signed (bits : N) (v : N) : Z :=
  if v <? 2 ^ (bits - 1) then Z.of_N v else (Z.of_N v - 2 ^ Z.of_N bits)%Z.

(** Unsigned image of a signed value ([as uN]). *)
Definition to_unsigned (bits : N) (z : Z) : N := Z.to_N (z mod 2 ^ Z.of_N bits)%Z.

(** [wrapping] reduction of an integer to a signed type of [bits] bits. *)
Definition wrap_signed (bits : N) (z : Z) : Z :=
  ((z + 2 ^ (Z.of_N bits - 1)) mod 2 ^ Z.of_N bits - 2 ^ (Z.of_N bits - 1))%Z.

(** Is a bit mask fully set: [(x & mask) == mask]. *)
Definition has (x mask : N) : bool := N.land x mask =? mask.

(** Association-list helpers standing for [HashMap]: [insert] overwrites, [get] finds
    the latest insertion.  Iteration order is never used by the code modelled. *)
Definition map_get {K V} (eqb : K -> K -> bool) (k : K) (m : list (K * V)) : option V :=
  match find (fun kv => eqb k (fst kv)) m with Some kv => Some (snd kv) | None => None end.
Definition map_put {K V} (k : K) (v : V) (m : list (K * V)) : list (K * V) := (k, v) :: m.
