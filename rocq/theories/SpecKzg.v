(** Vocabulary of the KZG properties. *)
From Coq Require Import List Arith Bool ZArith.
Import ListNotations.
From Verif Require Import Fp FSum SpecMle SpecPoly ModelMle Pairing.

(** The last n entries. *)
Definition suffix {A} (n : nat) (l : list A) : list A := skipn (length l - n) l.

(** The value of a polynomial at a point (the spec of evaluation). *)
Definition value {p} (f : mle p) (x : list (F p)) : F p := mle_ext (nv f) (tab (evs f)) x.

(** a f + b g, entry by entry. *)
Definition lincomb {p} (a b : F p) (f g : mle p) : mle p :=
  mkMle (nv f) (map (fun xy => (a * fst xy + b * snd xy)%F) (combine (evs f) (evs g))).

(** An algebraic prover: group elements whose exponents are polynomials of degree at most d in each trapdoor coordinate. *)
Definition algebraic {p} (n d : nat) (qs : list (list (F p) -> F p)) : Prop :=
  forall q, In q qs -> forall pre post, length pre + 1 + length post = n -> polyfun d (fun x => q (pre ++ x :: post)).

(** The trapdoor of an SRS generated from the random tape rnd, and the tape that yields a given trapdoor. *)
Definition trapdoor {p} (rnd : nat -> F p) (n : nat) : list (F p) := map rnd (seq 0 n).
Definition tape {p} (t : list (F p)) (i : nat) : F p := nth i t F0.
