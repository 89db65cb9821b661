(** Common vocabulary of the model: fixed-width integers, undefined behaviour
    as a distinct outcome, and list helpers standing for C arrays.
    The names here carry no repo-specific logic. *)
From Coq Require Export ZArith List Bool Lia.
From Coq Require Export ZifyBool ZifyNat ZifyN.
Export ListNotations.
Open Scope Z_scope.

(** ** Fixed-width integers (Xilinx ap_int.h semantics)
    Expressions over ap_int/ap_uint widen exactly; only the assignment to an
    N-bit variable reduces modulo 2^N (two's complement for ap_int). *)
Definition wrapU (n : Z) (x : Z) : Z := x mod 2 ^ n.
Definition wrapS (n : Z) (x : Z) : Z := (x + 2 ^ (n - 1)) mod 2 ^ n - 2 ^ (n - 1).

Definition inS (n x : Z) : Prop := - 2 ^ (n - 1) <= x < 2 ^ (n - 1).
Definition inU (n x : Z) : Prop := 0 <= x < 2 ^ n.

(** ** Undefined behaviour as an outcome *)
Inductive ubkind :=
| SignedOverflow   (* int arithmetic outside the 32-bit range *)
| OutOfBounds      (* array access outside its bounds *)
| Uninit           (* read of an indeterminate value *)
| AssertFail       (* assert() aborts *)
| EmptyStream      (* hls::stream::read on an empty stream *)
| MissingReturn    (* flowing off the end of a non-void function *)
| BadConversion    (* floating point to an integer type without the value *)
| DivByZero        (* integer division by zero *)
| TrapRep          (* a byte that is neither 0 nor 1 in a bool *)
| NullDeref.       (* use of a null FILE pointer *)

Inductive res (A : Type) :=
| Ok (a : A)
| UB (k : ubkind).
Arguments Ok {A} a.
Arguments UB {A} k.

Definition bind {A B} (x : res A) (f : A -> res B) : res B :=
  match x with Ok a => f a | UB k => UB k end.
Notation "'do' x <- e ; f" := (bind e (fun x => f))
  (at level 200, x pattern, e at level 100, f at level 200, right associativity).

Definition rmap {A B} (f : A -> B) (x : res A) : res B :=
  match x with Ok a => Ok (f a) | UB k => UB k end.

Fixpoint mapM {A B} (f : A -> res B) (l : list A) : res (list B) :=
  match l with
  | [] => Ok []
  | x :: r => do y <- f x; do ys <- mapM f r; Ok (y :: ys)
  end.

Fixpoint foldM {A S} (f : S -> A -> res S) (l : list A) (s : S) : res S :=
  match l with
  | [] => Ok s
  | x :: r => do s' <- f s x; foldM f r s'
  end.

(** The value of an [int] expression: undefined outside 32 bits. *)
Definition i32 (x : Z) : res Z :=
  if (- 2147483648 <=? x) && (x <=? 2147483647) then Ok x else UB SignedOverflow.

(** ** Arrays as lists *)
Fixpoint upd {A} (l : list A) (i : nat) (v : A) : list A :=
  match l, i with
  | [], _ => []
  | _ :: r, O => v :: r
  | x :: r, S i' => x :: upd r i' v
  end.

(** bounds-checked read and write *)
Definition rd {A} (l : list A) (i : nat) : res A :=
  match nth_error l i with Some v => Ok v | None => UB OutOfBounds end.
Definition wr {A} (l : list A) (i : nat) (v : A) : res (list A) :=
  if (i <? length l)%nat then Ok (upd l i v) else UB OutOfBounds.

(** [ [(0,x0); (1,x1); ...] ]: a loop over an array with its counter *)
Definition indexed {A} (l : list A) : list (nat * A) := combine (seq 0 (length l)) l.
Definition mapi {A B} (f : nat -> A -> B) (l : list A) : list B :=
  map (fun p => f (fst p) (snd p)) (indexed l).

Definition b2z (b : bool) : Z := if b then 1 else 0.
Definition sumZ (l : list Z) : Z := fold_right Z.add 0 l.
