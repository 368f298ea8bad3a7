(** Python run-time notions used by every model file: exceptions as values,
    byte strings, list indexing and slicing, loops.  Nothing here models a
    particular /repo function; each definition says which Python construct it
    stands for. *)
From Coq Require Export String Ascii.
From Coq Require Export ZArith NArith Arith Lia Bool.
From Coq Require Export List.
From Coq Require Export Init.Byte.
From Coq Require Import Strings.Byte.
Export ListNotations.

(** Exceptions the modelled code can raise.  [OutOfFuel] is not a Python
    exception: it is returned by the model's bounded version of an unbounded
    [while] loop and stands for "still running". *)
Inductive exn : Type :=
| ValueError (msg : string)
| AssertionError
| IndexError
| OverflowError
| TypeError
| NotImplementedError
| ZeroDivisionError
| KeyError
| Exception_ (msg : string)
| OutOfFuel.

Inductive res (A : Type) : Type :=
| Ok (a : A)
| Raise (e : exn).
Arguments Ok {A} a.
Arguments Raise {A} e.

Definition bind {A B} (m : res A) (f : A -> res B) : res B :=
  match m with
  | Ok a => f a
  | Raise e => Raise e
  end.

Declare Scope py_scope.
Delimit Scope py_scope with py.
Notation "'let*' x ':=' m 'in' k" := (bind m (fun x => k))
  (at level 200, x pattern, m at level 100, k at level 200, right associativity) : py_scope.
Open Scope py_scope.

(** [assert b] / [if not b: raise e] *)
Definition check (b : bool) (e : exn) : res unit :=
  if b then Ok tt else Raise e.

(** Python [bytes]. *)
Definition bytes := list byte.
Definition b2z (b : byte) : Z := Z.of_N (Byte.to_N b).
(** Only meaningful for 0 <= z < 256. *)
Definition z2b (z : Z) : byte :=
  match Byte.of_N (Z.to_N z) with Some b => b | None => x00 end.

(** [l[i]] for a non-negative index. *)
Definition get {A} (l : list A) (i : nat) : res A :=
  match nth_error l i with
  | Some x => Ok x
  | None => Raise IndexError
  end.

Fixpoint upd {A} (l : list A) (i : nat) (v : A) : list A :=
  match l, i with
  | [], _ => []
  | _ :: t, O => v :: t
  | x :: t, S j => x :: upd t j v
  end.

(** [l[i] = v] for a non-negative index. *)
Definition set {A} (l : list A) (i : nat) (v : A) : res (list A) :=
  if (i <? length l)%nat then Ok (upd l i v) else Raise IndexError.

(** [l[-1]] *)
Definition get_last {A} (l : list A) : res A :=
  match l with
  | [] => Raise IndexError
  | x :: t => Ok (last t x)
  end.

(** [l[a:b]] for non-negative bounds. *)
Definition slice {A} (l : list A) (a b : nat) : list A :=
  firstn (b - a) (skipn a l).

(** [for x in l: acc = body(acc, x)] *)
Fixpoint foldM {A B} (body : B -> A -> res B) (l : list A) (acc : B) : res B :=
  match l with
  | [] => Ok acc
  | x :: t => let* acc' := body acc x in foldM body t acc'
  end.

(** [for i in range(a, b)] *)
Definition range (a b : nat) : list nat := seq a (b - a).
Definition for_range {B} (a b : nat) (acc : B) (body : B -> nat -> res B) : res B :=
  foldM body (range a b) acc.

(** [range(a, b, k)] for non-negative [a], [b] and [k]. *)
Definition range_step (a b k : nat) : res (list nat) :=
  if (k =? 0)%nat then Raise (ValueError "range() arg 3 must not be zero")
  else Ok (map (fun i => a + i * k)%nat (seq 0 (((b - a + (k - 1)) / k)%nat))).

(** [[f(x) for x in l]] *)
Fixpoint mapM {A B} (f : A -> res B) (l : list A) : res (list B) :=
  match l with
  | [] => Ok []
  | x :: t => let* y := f x in let* ys := mapM f t in Ok (y :: ys)
  end.

Definition is_ok {A} (m : res A) : bool := match m with Ok _ => true | Raise _ => false end.

(** Equality of byte strings. *)
Fixpoint bytes_eqb (a b : bytes) : bool :=
  match a, b with
  | [], [] => true
  | x :: a', y :: b' => Byte.eqb x y && bytes_eqb a' b'
  | _, _ => false
  end.
