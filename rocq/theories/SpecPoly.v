(** Univariate polynomials as coefficient lists, and counting of challenge vectors. *)
From Coq Require Import List Arith Bool ZArith.
Import ListNotations.
From Verif Require Import Fp FSum.

(** c0 + c1 x + c2 x^2 + ... *)
Definition peval {p} (cs : list (F p)) (x : F p) : F p := fold_right (fun c acc => (c + x * acc)%F) F0 cs.

(** f is a polynomial function of degree at most d. *)
Definition polyfun {p} (d : nat) (f : F p -> F p) : Prop :=
  exists cs, length cs <= S d /\ forall x, f x = peval cs x.

(** All vectors of n field elements. *)
Fixpoint allV (p : positive) (n : nat) : list (list (F p)) :=
  match n with
  | O => [[]]
  | S k => flat_map (fun a => map (cons a) (allV p k)) (allF p)
  end.

(** Number of elements of l that satisfy P. *)
Definition count {A} (P : A -> bool) (l : list A) : nat := length (filter P l).

(** The size of the field. *)
Definition fsize (p : positive) : nat := Pos.to_nat p.

(** The textbook Lagrange basis on the nodes 0..n-1 and the interpolation through (i, ys[i]). *)
Definition lagr {p} (n j : nat) (x : F p) : F p :=
  Fprod (map (fun i => ((x - ofN i) / (ofN j - ofN i))%F) (filter (fun i => negb (i =? j)) (seq 0 n))).
Definition interp {p} (ys : list (F p)) (x : F p) : F p :=
  sumN (length ys) (fun j => (nth j ys F0 * lagr (length ys) j x)%F).

(** x is none of the nodes 0..n-1. *)
Definition nonnode {p} (n : nat) (x : F p) : Prop := forall i, i < n -> x <> ofN i.
