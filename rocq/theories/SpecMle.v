(** Specification of multilinear extensions, independent of the code's algorithms.
    A table [f] of 2^n values is indexed by integers whose bits, lowest first, are
    the coordinates of the hypercube point. *)
From Coq Require Import List Arith Lia Bool.
Import ListNotations.
From Verif Require Import Fp FSum.

(** The n lowest bits of k, lowest first. *)
Definition bits (n k : nat) : list bool := map (Nat.testbit k) (seq 0 n).

(** The hypercube point with index k, as field elements. *)
Definition b2f {p} (b : bool) : F p := if b then F1 else F0.
Definition bpoint {p} (n k : nat) : list (F p) := map b2f (bits n k).

(** eq(b, x) = prod_i (x_i b_i + (1 - x_i)(1 - b_i)) for a bit vector b. *)
Definition eqk {p} (bs : list bool) (x : list (F p)) : F p :=
  Fprod (map (fun bx => if fst bx : bool then snd bx else (F1 - snd bx)%F) (combine bs x)).

(** eq(x, y) for two field vectors. *)
Definition eqf {p} (x y : list (F p)) : F p :=
  Fprod (map (fun xy => (fst xy * snd xy + (F1 - fst xy) * (F1 - snd xy))%F) (combine x y)).

(** The multilinear extension of the table f at x: sum_b f(b) eq(b,x). *)
Definition mle_ext {p} (n : nat) (f : nat -> F p) (x : list (F p)) : F p :=
  sumN (2 ^ n) (fun k => (f k * eqk (bits n k) x)%F).

(** Sum of a function over the boolean hypercube. *)
Definition cube_sum {p} (n : nat) (g : list (F p) -> F p) : F p :=
  sumN (2 ^ n) (fun k => g (bpoint n k)).

(** Table given by a list. *)
Definition tab {p} (l : list (F p)) (k : nat) : F p := nth k l F0.

(** Value of a little-endian bit vector. *)
Fixpoint bval (bs : list bool) : nat :=
  match bs with [] => 0 | b :: r => (if b then 1 else 0) + 2 * bval r end.
